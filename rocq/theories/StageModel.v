(** The honest members of the new committee together, from the start of Proactivize to the call of the agreement:
    internal/party/ProactivizeAndShareDist.go:100-453.

    The members are the machines of ReshareModel.v (which contain those of ProacModel.v); what they send is in
    flight until it is delivered, in any order.  The members that are not honest send nothing.  The reliable
    broadcast of commitments (lines 136 and 147) is taken as a packet to every member (C32). *)

Require Import ZArith List Bool Arith.
From Verif Require Import Fr Poly CodecModel GoBase PolyModel GroupModel KzgModel PartyModel VssModel ProacModel ReshareModel.
Import ListNotations.

(** Members are numbered from 1 here; member i has PID i-1. *)
Inductive packet : Type :=
| PCommit (k i : nat) (data : list PiContentMsg)  (* member i is to output what k has broadcast *)
| PReshare (k i : nat) (m : ReshareMsg)           (* from k to i *)
| PRecover (j i : nat) (m : RecoverMsg).          (* from j to i *)

(** [n_votes]: the votes a member has sent (history). ProactivizeAndShareDist.go:140-450 at all members. *)
Record net : Type := mkNet { n_v : nat -> vst; n_votes : nat -> list (Z * ReshareMsg * list RecoverMsg); n_post : list packet }.

(** The steps: ProactivizeAndShareDist.go:146-211, 264-330, 357-448. *)
Inductive nev : Type :=
| NDeliver (x : nat)    (* packet x is taken by its receiver *)
| NTell (i k : nat)     (* line 208 of goroutine k of member i *)
| NWake (i x : nat)     (* waiting goroutine x of the voting stage of member i goes on *)
| NHandle (i : nat)     (* a handler of member i takes the waiting Recover message *)
| NAgreed (i : nat).    (* the agreement returns at member i *)

(** Changing one member; helper, no counterpart in /repo. *)
Definition put {A} (f : nat -> A) (i : nat) (a : A) : nat -> A := fun j => if (j =? i)%nat then a else f j.

Section Net.
Variable cd : g1codec.
Variable ps : nat -> Party.
Variable sign : nat -> nat -> list Z.      (* member, dealer *)
Variable sigok : nat -> list Z -> bool.
Variable combine : nat -> list (list Z) -> list Z.
Variable Qs : nat -> list (list Fr).       (* the polynomials of the members (lines 87-93) *)
Variable honest : list nat.

(** ProactivizeAndShareDist.go:208, 261-330 at member i. *)
Definition vstep_of (i : nat) : vst -> vev -> go (option (vst * vout)) := vstep cd (sign i) sigok combine (ps i).

(** Lines 325: the Recover messages that follow from a vote; those to members that are not honest do not matter. *)
Definition recovers (i : nat) (o : vout) : list packet :=
  match o with
  | Some (_, ms) => flat_map (fun l => match nth_error ms (l - 1) with Some m => [PRecover i l m] | None => [] end) honest
  | None => []
  end.

(** A step of member i that leaves [post] of what is in flight. ProactivizeAndShareDist.go:146-448. *)
Definition member_step (n : net) (post : list packet) (i : nat) (e : vev) : go (option net) :=
  o <- vstep_of i (n_v n i) e ;;
  Ret (match o with
       | None => None
       | Some (v', o) => Some (mkNet (put (n_v n) i v')
           (put (n_votes n) i (n_votes n i ++ match o with Some x => [x] | None => [] end)) (post ++ recovers i o))
       end).

(** Line 382-388: a handler can take the waiting message (ProacModel.v, [do_handle]). *)
Definition can_handle (st : pst) : bool :=
  match s_hold st with
  | None => false
  | Some x => nth (ro_k x) (s_flgCom st) false && negb (nth (ro_k x) (s_stopped st) false) && negb (s_busy st) && (1 <=? ro_k x)%nat
  end.

(** One step; the inner [None]: not possible in this state.  The receiving goroutine takes a Recover message only
    when it has passed on the one before (lines 357-369). *)
Definition nstep (n : net) (e : nev) : go (option net) :=
  match e with
  | NDeliver x =>
    let post := firstn x (n_post n) ++ skipn (S x) (n_post n) in
    match nth_error (n_post n) x with
    | None => Ret None
    | Some (PCommit k i data) => member_step n post i (VOther (EvCommit k data))
    | Some (PReshare k i m) => member_step n post i (VTake (Z.of_nat (k - 1)) m)
    | Some (PRecover j i m) =>
      match s_hold (v_st (n_v n i)) with
      | Some _ => Ret None
      | None => member_step n post i (VOther (EvRecv (Z.of_nat (j - 1)) m))
      end
    end
  | NTell i k => if existsb (Nat.eqb i) honest then member_step n (n_post n) i (VTell k) else Ret None
  | NWake i x => if existsb (Nat.eqb i) honest then member_step n (n_post n) i (VWake x) else Ret None
  | NHandle i => if existsb (Nat.eqb i) honest && can_handle (v_st (n_v n i)) then member_step n (n_post n) i (VOther EvHandle) else Ret None
  | NAgreed i => if existsb (Nat.eqb i) honest && s_busy (v_st (n_v n i)) then member_step n (n_post n) i (VOther EvMVBA) else Ret None
  end.

(** The beginning: every honest member has broadcast its commitments and sent its Reshare messages.
    ProactivizeAndShareDist.go:133-136, 248-250. *)
Definition starts (n : net) : Prop :=
  (forall i, In i honest -> exists st, proac_init (ps i) (Qs i) = Ret st /\ n_v n i = vote_init (ps i) st /\ n_votes n i = []) /\
  exists com res, (forall k, In k honest -> CommitSend cd (p_KZG (ps k)) (Qs k) = Ret (com k) /\
                     ReshareSend cd (p_KZG (ps k)) (p_N (ps k)) (Qs k) = Ret (res k)) /\
    n_post n = flat_map (fun k => flat_map (fun i => [PCommit k i (com k); PReshare k i (nth (i - 1) (res k) (mkRS [] []))]) honest) honest.

(** Runs; helper, no counterpart in /repo. *)
Inductive nruns (n0 : net) : list nev -> net -> Prop :=
| nr_nil : nruns n0 [] n0
| nr_step evs n e n' : nruns n0 evs n -> nstep n e = Ret (Some n') -> nruns n0 (evs ++ [e]) n'.
End Net.
