(** Model of the agreement as a whole: the members of MvbaModel.v with the messages they send, the
    sender of the provable broadcast, and a network that delivers what was sent.

    Members outside the honest ones send nothing here.  A message that was sent stays available to its
    receivers (in the network or in the channel of the dispatcher, see DispatchModel.v) until a
    goroutine of the receiver takes it; each receiver takes it at most once.  [validation] is not
    modelled: the first stage does not look at it. *)

Require Import ZArith List Bool Arith Lia.
From Verif Require Import Bytes CodecModel GoBase DispatchModel MvbaModel.
Import ListNotations.

(** The payloads of pkg/protobuf used by the agreement, with round, instance and stage from the
    identifier of the message. *)
Inductive msg : Type :=
| MValue (r j stage : nat) (v : list Z) (vd : sigv)
| MEcho (r j stage : nat) (sh : share)
| MFinish (r : nat) (v : list Z) (sg : sigv)
| MDone (r : nat) (sh : share)
| MPreYes (r : nat) (v : list Z) (sg : sigv)
| MPreNo (r : nat) (sh : share)
| MVoteYes (r : nat) (v : list Z) (sg : sigv) (sh : share)
| MVoteNo (r : nat) (sg : sigv) (sh : share)
| MHalt (r : nat) (v : list Z) (sg : sigv).

(** party_utils.go:38-75: Echo goes to the sender of the instance (pb.go:82), everything else to all. *)
Definition to_me (i : nat) (m : msg) : bool :=
  match m with MEcho _ j _ _ => (i =? j)%nat | _ => true end.

(** What the handler of a message does, as an event of MvbaModel.v ([k] is Message.Sender). *)
Definition event_of (k : nat) (m : msg) : option mev :=
  match m with
  | MValue r j s v vd => Some (EvValue r j s v vd)
  | MEcho _ _ _ _ => None
  | MFinish r v sg => Some (EvFinish r (Z.of_nat k) v sg)
  | MDone r sh => Some (EvDone r sh)
  | MPreYes r v sg => Some (EvPreVoteYes r v sg)
  | MPreNo r sh => Some (EvPreVoteNo r sh)
  | MVoteYes r v sg sh => Some (EvVoteYes r v sg sh)
  | MVoteNo r sg sh => Some (EvVoteNo r sg sh)
  | MHalt r v sg => Some (EvHalt r v sg)
  end.

(** The steps of a member that take no message. *)
Definition internal (e : mev) : bool :=
  match e with EvElection _ | EvLeader | EvPreVote _ | EvVote _ | EvHaltTake | EvResult => true | _ => false end.

(** A member with its SPBSender goroutines. *)
Record nmem : Type := mkNM {
  n_st : mst;
  n_prop : nat -> list Z;               (* the value given to SPBSender in a round, main_process.go:73 *)
  n_ech : nat -> nat -> list share;     (* the Echo messages taken by Sender, by round and stage *)
  n_got : list (nat * msg) }.           (* the messages taken, with their senders *)

Inductive nev : Type := NTake (k : nat) (m : msg) | NAct (e : mev).

Section Net.
Variable H : list Z -> list Z.
Variable coin : list Z -> Z.
Variables N F : nat.
Variable ID : list Z.

(** What a step sends: pb.go:79-82 (Echo), main_process.go:165-169 (Done), 109-113 (Halt, shortcut),
    174-197 (PreVote), 199-227 (Vote), 134-138 (Halt), and the first Value message of the next round
    (main_process.go:73 with pb.go:18-23).  The signature on No is the one assembled when there were
    2F+1 shares; tbls takes the first 2F+1 of any longer list. *)
Definition emits (i : nat) (st : mst) (e : mev) : list msg :=
  match e with
  | EvValue r j s v vd => [MEcho r j s (Sh i (smEcho ID r j s (H v)))]
  | EvElection r => [MDone r (Sh i (smDone ID r))]
  | EvLeader =>
    match d_lead (m_rounds st (m_r st)) with
    | Some l => match assoc l (d_fin (m_rounds st (m_r st))) with Some (v, sg) => [MHalt (m_r st) v sg] | None => [] end
    | None => []
    end
  | EvPreVote r =>
    match d_lead (m_rounds st r) with
    | Some l => match d_lock (m_rounds st r) l with
                | Some (v, sg) => [MPreYes r v sg]
                | None => [MPreNo r (Sh i (smNo ID r))]
                end
    | None => []
    end
  | EvVote r =>
    match d_lead (m_rounds st r), d_flag (m_rounds st r) with
    | Some l, Some (Some (v, sg)) => [MVoteYes r v sg (Sh i (smEcho ID r l 2 (H v)))]
    | Some l, Some None => [MVoteNo r (recover (2 * F + 1) (smNo ID r) (d_pn (m_rounds st r))) (Sh i (smUnlock ID r))]
    | _, _ => []
    end
  | EvResult =>
    match d_vflag (m_rounds st (m_r st)) with
    | Some (VYes v sg) => [MHalt (m_r st) v sg]
    | Some (VNo _) => [MValue (S (m_r st)) i 1 (m_val st) NoSig]
    | Some (VOther v _) => [MValue (S (m_r st)) i 1 v NoSig]
    | None => []
    end
  | _ => []
  end.

(** A step of MvbaModel.v in the committee; a member that enters a round starts SPBSender with its value. *)
Definition lift (i : nat) (nm : nmem) (e : mev) (got : list (nat * msg)) : go (option (nmem * list msg)) :=
  match mstep H coin N F ID (n_st nm) e with
  | Ret (Some (st', _)) =>
    Ret (Some (mkNM st' (if (m_r st' =? m_r (n_st nm))%nat then n_prop nm else up (n_prop nm) (m_r st') (m_val st')) (n_ech nm) got,
               emits i (n_st nm) e))
  | Ret None => Ret None
  | Panic => Panic
  | Fatal => Fatal
  | Error => Error
  end.

(** What [Sender] has, given the Echo messages it took. *)
Definition sender (i : nat) (nm : nmem) (r s : nat) (l : list share) : option sigv :=
  Sender F (smEcho ID r i s (H (n_prop nm r))) [] l.

Definition put_ech (nm : nmem) (r s : nat) (l : list share) (got : list (nat * msg)) : nmem :=
  mkNM (n_st nm) (n_prop nm) (up (n_ech nm) r (up (n_ech nm r) s l)) got.

(** spb.go:25-31 with pb.go:34-50: the second broadcast starts with the signature of the first, and
    the Finish message (main_process.go:75-79) has the signature of the second.  The goroutine has
    ended when the main process is past line 103. *)
Definition echo_step (i : nat) (nm : nmem) (r s : nat) (sh : share) (got : list (nat * msg)) : option (nmem * list msg) :=
  if (r =? m_r (n_st nm))%nat && negb (d_past (m_rounds (n_st nm) r)) then
    match s, sender i nm r 1 (n_ech nm r 1), sender i nm r 2 (n_ech nm r 2) with
    | 1%nat, None, _ =>
      let l := n_ech nm r 1 ++ [sh] in
      Some (put_ech nm r 1 l got, match sender i nm r 1 l with Some sg => [MValue r i 2 (n_prop nm r) sg] | None => [] end)
    | 2%nat, Some _, None =>
      let l := n_ech nm r 2 ++ [sh] in
      Some (put_ech nm r 2 l got, match sender i nm r 2 l with Some sg => [MFinish r (n_prop nm r) sg] | None => [] end)
    | _, _, _ => None
    end
  else None.

(** One step of member [i]: [None] if the step is not possible now. *)
Definition nstep (i : nat) (nm : nmem) (a : nev) : go (option (nmem * list msg)) :=
  match a with
  | NTake k (MEcho r j s sh) => Ret (echo_step i nm r s sh ((k, MEcho r j s sh) :: n_got nm))
  | NTake k m => match event_of k m with Some e => lift i nm e ((k, m) :: n_got nm) | None => Ret None end
  | NAct e => if internal e then lift i nm e (n_got nm) else Ret None
  end.

(** The committee: the members and all messages sent so far. *)
Record nstate : Type := mkNS { w_mem : nat -> nmem; w_sent : list (nat * msg) }.

Variable bad : list nat.   (* the members that send nothing *)

Definition honb (i : nat) : bool := (i <? N)%nat && negb (existsb (Nat.eqb i) bad).

Definition nm_init (v : list Z) : nmem := mkNM (mvba_init v) (fun _ => v) (fun _ _ => []) [].
Definition ns_init (vals : nat -> list Z) : nstate :=
  mkNS (fun i => nm_init (vals i)) (map (fun i => (i, MValue 0 i 1 (vals i) NoSig)) (filter honb (seq 0 N))).
Definition ns_next (w : nstate) (i : nat) (nm : nmem) (outs : list msg) : nstate :=
  mkNS (up (w_mem w) i nm) (w_sent w ++ map (fun m => (i, m)) outs).

(** A message can be taken if it was sent to the member and was not taken before. *)
Definition available (w : nstate) (i : nat) (a : nev) : Prop :=
  match a with
  | NTake k m => In (k, m) (w_sent w) /\ to_me i m = true /\ ~ In (k, m) (n_got (w_mem w i))
  | NAct _ => True
  end.

Inductive nreach (vals : nat -> list Z) : nstate -> Prop :=
| nreach_init : nreach vals (ns_init vals)
| nreach_step w i a nm outs : nreach vals w -> honb i = true -> available w i a ->
    nstep i (w_mem w i) a = Ret (Some (nm, outs)) -> nreach vals (ns_next w i nm outs).

(** Nothing more can happen at a member that has not returned. *)
Definition quiescent (w : nstate) : Prop :=
  forall i a, honb i = true -> m_out (n_st (w_mem w i)) = None -> available w i a -> nstep i (w_mem w i) a = Ret None.
End Net.
