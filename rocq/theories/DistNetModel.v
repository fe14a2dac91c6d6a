(** The honest members of the new committee together, from the refreshed shares to the end of the handoff:
    internal/party/ProactivizeAndShareDist.go:500-714.

    The members are the machines of ProacModel.v ([dstep]); what they send is in flight until it is delivered, in any
    order.  The members that are not honest send nothing here; PropertiesFinishBad.v adds their packets.  The reliable broadcast of a new commitment (lines 566 and
    577) is taken as a packet to every member (C32).  That all members begin at once is no restriction: a member that
    begins late is one whose packets are delivered late and that takes its own late. *)

Require Import ZArith List Bool Arith.
From Verif Require Import Fr Poly CodecModel GoBase PolyModel GroupModel KzgModel PartyModel VssModel ProacModel StageModel.
Import ListNotations.

(** Members are numbered from 1 here; member i has PID i-1. *)
Inductive dpacket : Type :=
| QCommit (k i : nat) (data : list Z)        (* member i is to output what k has broadcast *)
| QShare (k i : nat) (m : ShareDistMsg)      (* from k to i *)
| QSuccess (k i : nat).                      (* from k to i *)

(** [m_count]: SuccessCount (line 682). *)
Record dnet : Type := mkDnet { m_d : nat -> dst; m_count : nat -> nat; m_post : list dpacket }.

(** The steps, ProactivizeAndShareDist.go:572-703. *)
Inductive dnev : Type :=
| TDeliver (x : nat)    (* packet x is taken by its receiver *)
| TGo (i x : nat).      (* waiting goroutine x of member i has its token and goes on *)

Section DistNet.
Variable cd : g1codec.
Variable ps : nat -> Party.
Variable CQ : nat -> list G1.
Variable F : nat.
Variable honest : list nat.

(** Lines 666-669: Success is sent to every member when the full share has been computed; messages to members that are
    not honest do not matter. *)
Definition successes (i : nat) (d d' : dst) : list dpacket :=
  match d_share d, d_share d' with None, Some _ => map (fun l => QSuccess i l) honest | _, _ => [] end.

(** A step of member i that leaves [post] of what is in flight. ProactivizeAndShareDist.go:572-676. *)
Definition member_dist (n : dnet) (post : list dpacket) (i : nat) (e : dev) : go (option dnet) :=
  d' <- dstep cd (ps i) (CQ i) (m_d n i) e ;;
  Ret (Some (mkDnet (put (m_d n) i d') (m_count n) (post ++ successes i (m_d n i) d'))).

(** One step; the inner [None]: not possible in this state.  A ShareDist message needs a goroutine that has taken
    none yet (line 617); a Success message is taken only after SuccessSentChan (line 686) and until the loop is left
    (line 693). *)
Definition dnstep (n : dnet) (e : dnev) : go (option dnet) :=
  match e with
  | TDeliver x =>
    let post := firstn x (m_post n) ++ skipn (S x) (m_post n) in
    match nth_error (m_post n) x with
    | None => Ret None
    | Some (QCommit k i data) => member_dist n post i (DvCommit k data)
    | Some (QShare k i m) =>
      match d_free (m_d n i) with
      | O => Ret None
      | S _ => member_dist n post i (DvRecv (Z.of_nat (k - 1)) m)
      end
    | Some (QSuccess k i) =>
      match d_share (m_d n i) with
      | None => Ret None
      | Some _ => if (2 * F + 1 <=? m_count n i)%nat then Ret None
                  else Ret (Some (mkDnet (m_d n) (put (m_count n) i (m_count n i + 1)%nat) post))
      end
    end
  | TGo i x =>
    if existsb (Nat.eqb i) honest then
      match nth_error (d_wait (m_d n i)) x with
      | None => Ret None
      | Some (j, _) => if nth j (d_token (m_d n i)) false then member_dist n (m_post n) i (DvGo x) else Ret None
      end
    else Ret None
  end.

(** Lines 692-713: the member has left the handoff. *)
Definition left_handoff (n : dnet) (i : nat) : Prop := (2 * F + 1 <= m_count n i)%nat.

(** The beginning: every honest member has broadcast the commitment to its reduced share (lines 557-569) and sent
    its ShareDist messages (lines 530-555). *)
Definition dist_starts (n : dnet) : Prop :=
  (forall i, In i honest -> m_d n i = dist_init (p_N (ps i)) /\ m_count n i = O) /\
  exists com res, (forall k, In k honest -> NewCommitSend cd (ps k) = Ret (com k) /\ DistributeSend cd (ps k) = Ret (res k)) /\
    m_post n = flat_map (fun k => flat_map (fun i => [QCommit k i (com k); QShare k i (nth (i - 1) (res k) (mkSD [] []))]) honest) honest.

(** Runs of the committee; helper, no counterpart in /repo. *)
Inductive dnruns (n0 : dnet) : list dnev -> dnet -> Prop :=
| dr_nil : dnruns n0 [] n0
| dr_step evs n e n' : dnruns n0 evs n -> dnstep n e = Ret (Some n') -> dnruns n0 (evs ++ [e]) n'.
End DistNet.
