(** Two committees together, from the client's sharing (or the shares of an earlier handoff) to the reduced shares of the
    new committee: internal/party/VSS.go, ShareReduce.go in the order of cmd/DyCAPs/main.go:61-65 (old committee) and
    93-94 (new committee).

    The members are the functions of VssModel.v and ReduceModel.v; what they send is in flight until it is delivered, in
    any order.  Prepare and ShareReduce messages have channels of their own (DispatchModel.v), so ShareReduce messages that
    come early wait.  A receiving loop is a function of the messages it has taken so far (ReduceModel.v); the state keeps
    these messages.  What members that are not honest send is among the packets in flight at the beginning; a packet may be
    delivered as late as one likes, so nothing is assumed about when it was sent. *)

Require Import ZArith List Bool Arith.
From Verif Require Import Fr Poly CodecModel GoBase PolyModel GroupModel KzgModel PartyModel VssModel ReduceModel StageModel.
Import ListNotations.

(** Members are numbered from 1 here; member i has PID i-1. *)
Inductive hpacket : Type :=
| PVss (i : nat) (m : VSSSendMsg)                (* from the client to member i of the old committee *)
| PPrep (k i : nat) (data : list Z)              (* from k of the old to i of the new committee *)
| PRed (k i : nat) (m : ShareReduceMsg).         (* from k of the old to i of the new committee *)

(** [h_old]: the old members that have their shares; [h_prep], [h_red]: the messages taken; [h_com]: the new members that
    have left PrepareReceive; [h_new]: those that have left ShareReduceReceive.
    Variables of VSS.go:12-73 and ShareReduce.go:62-206 seen from outside. *)
Record hnet : Type := mkHnet {
  h_old : nat -> option Party;
  h_prep : nat -> list (nat * list Z); h_com : nat -> option Party;
  h_red : nat -> list (nat * ShareReduceMsg); h_new : nat -> option Party;
  h_post : list hpacket }.

Section HandNet.
Variable cd : g1codec.
(** SHA-256 and the protobuf form of Prepare. *)
Variable hash : list Z -> list Z.
Variable ser : list (list Z) -> list Z.
Variable parse : list Z -> list (list Z).
(** The members before they have received anything, and the honest members of the new committee. *)
Variables os ns : nat -> Party.
Variable new : list nat.

(** main.go:64-65: what member k sends; messages to members that are not honest do not matter. *)
Definition hands_over (k : nat) (p : Party) : go (list hpacket) :=
  cs <- PrepareSend cd p ;;
  ms <- ShareReduceSend cd p ;;
  Ret (flat_map (fun l => [PPrep k l (ser cs); PRed k l (nth (l - 1) ms (mkSR [] [] []))]) new).

(** A message of member k as ShareReduceReceive gets it. ShareReduce.go:92: m.Sender+1 is its number. *)
Definition from {A} (x : nat * A) : Z * A := (Z.of_nat (fst x - 1), snd x).

(** Packet x is taken by its receiver; the inner [None]: not possible in this state.  An old member takes one message of
    the client (VSS.go:24) and goes on whether it accepts it or not; PrepareReceive and ShareReduceReceive take messages
    until they return, the second after the first. *)
Definition hstep (n : hnet) (x : nat) : go (option hnet) :=
  let post := firstn x (h_post n) ++ skipn (S x) (h_post n) in
  match nth_error (h_post n) x with
  | None => Ret None
  | Some (PVss i m) =>
    match h_old n i with
    | Some _ => Ret None
    | None =>
      r <- VSSShareReceive cd (os i) m ;;
      out <- hands_over i (snd r) ;;
      Ret (Some (mkHnet (put (h_old n) i (Some (snd r))) (h_prep n) (h_com n) (h_red n) (h_new n) (post ++ out)))
    end
  | Some (PPrep k i data) =>
    match h_com n i with
    | Some _ => Ret None
    | None =>
      let taken := h_prep n i ++ [(k, data)] in
      o <- PrepareReceive hash parse cd (ns i) (map snd taken) ;;
      Ret (Some (mkHnet (h_old n) (put (h_prep n) i taken) (put (h_com n) i o) (h_red n) (h_new n) post))
    end
  | Some (PRed k i m) =>
    match h_com n i, h_new n i with
    | Some p, None =>
      let taken := h_red n i ++ [(k, m)] in
      o <- ShareReduceReceive cd p (map from taken) ;;
      Ret (Some (mkHnet (h_old n) (h_prep n) (h_com n) (put (h_red n) i taken) (put (h_new n) i o) post))
    | _, _ => Ret None
    end
  end.

(** Nobody of the new committee has taken anything. cmd/DyCAPs/main.go:93-94. *)
Definition fresh (n : hnet) : Prop := forall i, h_prep n i = [] /\ h_com n i = None /\ h_red n i = [] /\ h_new n i = None.

(** Runs; helper, no counterpart in /repo. *)
Inductive hruns (n0 : hnet) : list nat -> hnet -> Prop :=
| hr_nil : hruns n0 [] n0
| hr_step evs n e n' : hruns n0 evs n -> hstep n e = Ret (Some n') -> hruns n0 (evs ++ [e]) n'.
End HandNet.
