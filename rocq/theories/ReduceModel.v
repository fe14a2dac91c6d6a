(** Model of the handoff between two committees, /repo/internal/party/ShareReduce.go.

    The receiving loops are functions of the list of delivered messages, in the order in which they
    leave the channel; [None] means that the loop waits for more.  The claimed sender of a
    message is a uint32 (an integer below 2^32); the network does not authenticate it. *)

Require Import ZArith List Bool Arith.
From Verif Require Import Prime Fr Bytes CodecModel GoBase PolyModel GroupModel KzgModel PartyModel
  VssModel DispatchModel.
Import ListNotations.
Local Open Scope F_scope.

(** ** Sending reduced shares *)

(** Message.proto:102-106. *)
Record ShareReduceMsg : Type := mkSR { sr_C : list Z; sr_V : list Z; sr_W : list Z }.

(** ShareReduce.go:22-23: [tmpInt, _ := strconv.Atoi(index.String())] and the store at [tmpInt];
    a number outside of the slice panics. *)
Definition upd_at {A} (l : list A) (z : Z) (a : A) : go (list A) :=
  if (z <? Z.of_nat (length l))%Z then Ret (set_nth (Z.to_nat z) a l) else Panic.

(** ShareReduce.go:14-39: the commitments and witnesses for 1..N (index 0 unused).  State
    (tmpCB, tmpWB). *)
Definition reduce_tables (p : Party) : go (list G1 * list G1) :=
  let N := p_N p in let F := p_F p in
  st <- goloop 1 (2 * F + 1)
    (fun st j =>
       c <- idx (PiContents (p_Proof p)) j ;;
       cb <- upd (fst st) j (CBj c) ;;
       k <- idx (p_witnessIndexes p) (j - 1) ;;
       w <- idx (p_witness p) (j - 1) ;;
       wb <- upd_at (snd st) (fv k) w ;;
       Ret (cb, wb)) (repeat ZeroG1 (N + 1), repeat ZeroG1 (N + 1)) ;;
  goloop 1 N
    (fun st j =>
       known <- slice_to (fst st) (2 * F + 2) ;;
       c <- InterpolateComOrWit F (p_tab p) (2 * F) j (tl known) ;;
       cb <- upd (fst st) j c ;;
       w <- InterpolateComOrWitByKnownIndexes F (p_tab p) (2 * F) j (p_witnessIndexes p) (p_witness p) ;;
       wb <- upd (snd st) j w ;;
       Ret (cb, wb)) st.

(** ShareReduce.go:14-60 [ShareReduceSend]: the messages for the new members 0..N-1, in order. *)
Definition ShareReduceSend (cd : g1codec) (p : Party) : go (list ShareReduceMsg) :=
  ' (CB, WB) <- reduce_tables p ;;
  gomap (fun j =>
    let polyValue := EvalPolyAt (p_fullShare p) (of_nat (j + 1)) in
    c <- idx CB (j + 1) ;;
    w <- idx WB (j + 1) ;;
    Ret (mkSR (ToCompressedG1 cd c) (FrTo32 polyValue) (ToCompressedG1 cd w))) (seq 0 (p_N p)).

(** ** Receiving reduced shares *)

(** polyring.PolyPoint, without the witness (stored and not used). polyring.go:5-9. *)
Record point : Type := mkPoint { pt_X : Z; pt_Y : Fr }.

(** The maps [ShareReduceMap] and [ComMap] (same keys): commitment bytes -> points, count. ShareReduce.go:63-64. *)
Definition sr_map := list (list Z * (list point * nat)).

(** Variables that live across iterations. ShareReduce.go:63-70. *)
Record sr_state : Type := mkSRS { sr_map_of : sr_map; sr_vJ : Fr }.
(** ShareReduce.go:63-70. *)
Definition sr_init : sr_state := mkSRS [] 0.

(** ShareReduce.go:76-128: one iteration.  [inl] continues the loop, [inr pts] leaves it with the
    points of the commitment that reached F+1. *)
Definition sr_step (cd : g1codec) (p : Party) (st : sr_state) (dlv : Z * ShareReduceMsg)
    : go (sr_state + list point) :=
  let '(sender, m) := dlv in
  C <- ReadG1 cd (sr_C m) ;;
  wJ <- ReadG1 cd (sr_W m) ;;
  let vJ := FrFrom32_into (sr_vJ st) (to32 (sr_V m)) in
  let X := ((sender + 1) mod 2 ^ 32)%Z in
  verified <- CheckProofSingle (p_KZG p) C wJ (of_Z X) vJ ;;
  if (verified : bool) then
    let cStr := sr_C m in
    let e := match lookup cStr (sr_map_of st) with
             | Some (pts, n) => (pts ++ [mkPoint X vJ], (n + 1)%nat)
             | None => ([mkPoint X vJ], 1%nat)
             end in
    let st' := mkSRS (update cStr e (sr_map_of st)) vJ in
    if (p_F p + 1 <=? snd e)%nat then Ret (inr (fst e)) else Ret (inl st')
  else Ret (inl (mkSRS (sr_map_of st) vJ)).

(** ShareReduce.go:74-128: the loop. *)
Fixpoint sr_loop (cd : g1codec) (p : Party) (st : sr_state) (dlvs : list (Z * ShareReduceMsg))
    : go (option (list point)) :=
  match dlvs with
  | [] => Ret None
  | d :: rest =>
    x <- sr_step cd p st d ;;
    match x with inl st' => sr_loop cd p st' rest | inr pts => Ret (Some pts) end
  end.

(** ShareReduce.go:137: the assignment to p.reducedShare. *)
Definition set_reducedShare (p : Party) (q : list Fr) : Party :=
  mkParty (p_N p) (p_F p) (p_PID p) (p_KZG p) (p_Proof p) (p_fullShare p) q (p_witness p)
    (p_witnessIndexes p) (p_tab p).

(** ShareReduce.go:62-141 [ShareReduceReceive]. *)
Definition ShareReduceReceive (cd : g1codec) (p : Party) (dlvs : list (Z * ShareReduceMsg))
    : go (option Party) :=
  o <- sr_loop cd p sr_init dlvs ;;
  match o with
  | None => Ret None
  | Some pts =>
    xs <- gomap (fun i => pt <- idx pts i ;; Ret (of_Z (pt_X pt))) (seq 0 (p_F p + 1)) ;;
    ys <- gomap (fun i => pt <- idx pts i ;; Ret (pt_Y pt)) (seq 0 (p_F p + 1)) ;;
    q <- LagrangeInterpolate (p_F p) xs ys ;;
    Ret (Some (set_reducedShare p q))
  end.

(** ** Commitments for the new committee *)

(** ShareReduce.go:144-168 [PrepareSend]: the list in the message (index 0 nil), before
    serialization. *)
Definition PrepareSend (cd : g1codec) (p : Party) : go (list (list Z)) :=
  cs <- gomap (fun i => c <- idx (PiContents (p_Proof p)) i ;; Ret (ToCompressedG1 cd (CBj c)))
          (seq 1 (2 * p_F p + 1)) ;;
  Ret ([] :: cs).

(** [hash] is SHA-256, [parse] the protobuf decoder for Prepare; both are parameters. *)
Section Prepare.
Variable hash : list Z -> list Z.
Variable parse : list Z -> list (list Z).

(** ShareReduce.go:180-203: one iteration; the map counts messages by hash.  [inr] is the data of
    the message that made the count reach F+1. *)
Definition prep_step (F : nat) (mp : list (list Z * nat)) (data : list Z)
    : list (list Z * nat) + list Z :=
  let h := hash data in
  let counter := match lookup h mp with Some c => c | None => O end in
  if (counter + 1 =? F + 1)%nat then inr data else inl (update h (counter + 1)%nat mp).

(** ShareReduce.go:177-205: the loop. *)
Fixpoint prep_loop (F : nat) (mp : list (list Z * nat)) (datas : list (list Z)) : option (list Z) :=
  match datas with
  | [] => None
  | d :: rest =>
    match prep_step F mp d with inl mp' => prep_loop F mp' rest | inr d' => Some d' end
  end.

(** ShareReduce.go:191-199: storing the commitments. *)
Definition set_CBj (c : PiContent) (g : G1) : PiContent := mkPC (pc_j c) g (CZj c) (WZ0 c) (gFj c).
(** ShareReduce.go:191-199. *)
Definition adopt (cd : g1codec) (p : Party) (data : list Z) : go Party :=
  let coms := parse data in
  cs <- goloop 1 (2 * p_F p + 1)
    (fun cs i =>
       b <- idx coms i ;;
       g <- ReadG1 cd b ;;
       c <- idx cs i ;;
       upd cs i (set_CBj c g)) (PiContents (p_Proof p)) ;;
  Ret (mkParty (p_N p) (p_F p) (p_PID p) (p_KZG p) (mkPi (Gs (p_Proof p)) cs) (p_fullShare p)
         (p_reducedShare p) (p_witness p) (p_witnessIndexes p) (p_tab p)).

(** ShareReduce.go:171-206 [PrepareReceive]; the sender of a message is not looked at. *)
Definition PrepareReceive (cd : g1codec) (p : Party) (datas : list (list Z)) : go (option Party) :=
  match prep_loop (p_F p) [] datas with
  | None => Ret None
  | Some d => p' <- adopt cd p d ;; Ret (Some p')
  end.
End Prepare.
