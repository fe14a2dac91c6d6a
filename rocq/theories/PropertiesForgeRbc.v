(** C31, C62 for every committee: what one corrupted member achieves against reliable broadcast (RBC.go:72-289). *)

Require Import ZArith List Bool Arith Lia.
From Verif Require Import Bytes CodecModel CodecProofs GoBase DispatchModel DispatchProofs PolyProofs VssModel RbcModel RbcProofs RbcGood RbcByz
  PropertiesRbc PropertiesByz PropertiesInteg.
Import ListNotations.

Section Forge.
Variable sha : list Z -> list Z.
Variable rs_encode : nat -> nat -> list Z -> option (list (list Z)).
Variable rs_verify : nat -> nat -> list (list Z) -> bool.
Variable rs_reconstruct : nat -> nat -> list (list Z) -> list (list Z).
Variables N F : nat.
Variable bad : list nat.
Notation step := (rstep sha rs_encode rs_verify rs_reconstruct N F).
Notation reached := (reach sha rs_encode rs_verify rs_reconstruct N F bad).
Notation runs := (run sha rs_encode rs_verify rs_reconstruct N F bad).

(** ** C62 *)

(** The same step with another sender of the proposal. *)
Definition relabel (b : Z) (e : rev) : rev := match e with EvPropose _ M => EvPropose b M | _ => e end.

Lemma relabel_step b st e : step st (relabel b e) = step st e.
Proof. destruct e; reflexivity. Qed.
Lemma relabel_next b g i e st outs : gnext g i (relabel b e) st outs = gnext g i e st outs.
Proof. destruct e; reflexivity. Qed.

Lemma leads_run b M shards g g' : leads sha rs_encode rs_verify rs_reconstruct N F bad M shards g g' ->
  forall tr, runs tr g -> counted_once g -> (forall i d M', In (i, EvPropose d M') tr -> d = b /\ M' = M) ->
  exists tr', runs tr' g' /\ counted_once g' /\ forall i d M', In (i, EvPropose d M') tr' -> d = b /\ M' = M.
Proof.
  induction 1 as [g|g i e st outs g' Hi HE HS _ IH]; intros tr R C P; [exists tr; auto|].
  apply (IH (tr ++ [(i, relabel b e)])).
  - rewrite <- (relabel_next b). apply run_step; [exact R|exact Hi| |rewrite relabel_step; exact HS].
    destruct e; cbn [relabel authentic]; cbn [byz_event] in HE; auto; destruct HE as (H1 & H2 & _); split; assumption.
  - unfold counted_once, gnext in *. cbn [g_took]. rewrite map_app. destruct e; cbn [took_of map]; rewrite ?app_nil_r; auto.
    cbn [fst]. destruct HE as (_ & _ & HE). rewrite <- (rev_involutive (map fst (g_took g) ++ _)). apply NoDup_rev. rewrite rev_app_distr. cbn [List.rev app].
    constructor; [rewrite <- in_rev; exact HE|apply NoDup_rev; exact C].
  - intros k d M' HIN. apply in_app_or in HIN. destruct HIN as [HIN|[HIN|[]]]; [exact (P k d M' HIN)|].
    injection HIN as <- E. destruct e; cbn [relabel] in E; try discriminate. injection E as <- <-. split; [reflexivity|exact HE].
Qed.

(** Whatever the dealer sends: a corrupted member b can have every honest member return its own value M, with one
    proposal to each member and nothing else; every Echo message is counted once. *)
Theorem c62_hijack_all_refuted : forall b M shards, (length bad <= F)%nat -> (3 * F + 1 <= N)%nat -> In b bad ->
  rs_good rs_encode rs_verify rs_reconstruct N F M shards -> length (sha M) = 32%nat -> (Z.of_nat (length M) < 2 ^ 32)%Z ->
  exists tr g, runs tr g /\ counted_once g /\ (forall i d M', In (i, EvPropose d M') tr -> d = Z.of_nat b /\ M' = M) /\
    forall i, honest N bad i -> r_out (g_st g i) = Some (Some M).
Proof.
  intros b M shards Hb HN _ RS HS HL.
  destruct (c32_ends sha rs_encode rs_verify rs_reconstruct N F bad Hb HN M shards 0 g_init RS HS HL (byzn_init _ _ _ _ _ _ _ _ _)) as (_ & g & L & O).
  destruct (leads_run (Z.of_nat b) M shards g_init g L [] (run_nil _ _ _ _ _ _ _)) as (tr & R & C & P); [constructor|intros i d M' []|].
  exists tr, g. auto.
Qed.

(** ** C31 *)

(** What a member looks like that has taken c Echo messages with the same content. *)
Definition echoed (x : hm) (c : nat) (st : rst) : Prop :=
  count (r_echo st) x = c /\ r_sent st = false /\ r_eph st = ERecv /\ (length (r_chan st) <= c)%nat.

Lemma put_same f i st : put f i st i = st.
Proof. unfold put. rewrite Nat.eqb_refl. reflexivity. Qed.
Lemma put_other f i st k : k <> i -> put f i st k = f k.
Proof. intros H. unfold put. destruct (Nat.eqb_spec k i); [congruence|reflexivity]. Qed.

Lemma flood_member s i x c : In s bad -> (s < N)%nat -> (F < N)%nat -> honest N bad i ->
  forall g, reached g -> echoed x c (g_st g i) -> (c < N - F)%nat ->
  exists g', reached g' /\ In (i, x) (g_ready g') /\ incl (g_ready g) (g_ready g') /\ (forall k, k <> i -> g_st g' k = g_st g k) /\
    forall t, In t (g_took g') -> In t (g_took g) \/ snd (fst t) = Z.of_nat s.
Proof.
  intros Hs Ls HF Hi. remember (N - F - c)%nat as d eqn:Ed. revert c Ed. induction d as [|d IH]; intros c Ed g R (E1 & E2 & E3 & E4) Hc; [lia|].
  assert (A : authentic N bad g i (EvEcho (Z.of_nat s) x)). { cbn [authentic]. split; [lia|]. rewrite Nat2Z.id. intros (_ & H). destruct (H Hs). }
  assert (ROOM : (length (r_chan (g_st g i)) <? N)%nat = true) by (apply Nat.ltb_lt; lia).
  assert (CT : count (count_echo (r_echo (g_st g i)) x) x = (c + 1)%nat) by (rewrite count_echo_same, E1; reflexivity).
  destruct (Nat.leb_spec (N - F) (c + 1)) as [L|L].
  - (* it announces readiness *)
    assert (S1 : exists st1, step (g_st g i) (EvEcho (Z.of_nat s) x) = Ret (Some (st1, [SendAll x]))).
    { cbn [rstep]. unfold echo_step. rewrite E3, CT, E2, (proj2 (Nat.leb_le _ _) L). cbn [negb andb]. eexists. reflexivity. }
    destruct S1 as (st1 & S1). exists (gnext g i (EvEcho (Z.of_nat s) x) st1 [SendAll x]). split; [exact (reach_step _ _ _ _ _ _ _ g i _ _ _ R Hi A S1)|].
    unfold gnext. cbn [g_ready g_st g_took readys_of flat_map app took_of].
    split; [apply in_or_app; right; left; reflexivity|]. split; [intros y Hy; apply in_or_app; left; exact Hy|]. split; [intros k Hk; apply put_other; exact Hk|].
    intros t Ht. apply in_app_or in Ht. destruct Ht as [Ht|[<-|[]]]; [left; exact Ht|right; reflexivity].
  - set (st1 := mkR (r_prop (g_st g i)) (count_echo (r_echo (g_st g i)) x) (r_T (g_st g i)) (r_maxN (g_st g i)) (r_maxHash (g_st g i)) false
      (if (F + 1 <=? c + 1)%nat then r_chan (g_st g i) ++ [x] else r_chan (g_st g i)) (r_got (g_st g i)) ECheck (r_rph (g_st g i)) (r_start (g_st g i)) (r_round (g_st g i)) (r_out (g_st g i))).
    assert (S1 : step (g_st g i) (EvEcho (Z.of_nat s) x) = Ret (Some (st1, []))).
    { cbn [rstep]. unfold echo_step. rewrite E3, CT, E2, ROOM, (proj2 (Nat.leb_gt _ _) L). cbn [negb andb orb]. rewrite andb_true_r, andb_false_r. reflexivity. }
    pose proof (reach_step _ _ _ _ _ _ _ g i _ _ _ R Hi A S1) as R1. set (g1 := gnext g i (EvEcho (Z.of_nat s) x) st1 []) in *.
    assert (G1 : g_st g1 i = st1) by apply put_same.
    assert (S2 : step (g_st g1 i) EvEchoCheck = Ret (Some (set_echo st1 (r_chan st1) ERecv, []))) by (rewrite G1; reflexivity).
    pose proof (reach_step _ _ _ _ _ _ _ g1 i EvEchoCheck _ _ R1 Hi I S2) as R2. set (g2 := gnext g1 i EvEchoCheck _ []) in *.
    assert (G2 : g_st g2 i = set_echo st1 (r_chan st1) ERecv) by apply put_same.
    destruct (IH (c + 1)%nat ltac:(lia) g2 R2) as (g' & R' & I1 & I2 & I3 & I4); [|lia|].
    + rewrite G2. unfold echoed, set_echo, st1. cbn [r_echo r_sent r_eph r_chan]. repeat split; [exact CT|].
      destruct (F + 1 <=? c + 1)%nat; [rewrite app_length; cbn [length]; lia|lia].
    + exists g'. split; [exact R'|]. split; [exact I1|]. split.
      * intros y Hy. apply I2. unfold g2, g1, gnext. cbn [g_ready readys_of flat_map]. rewrite !app_nil_r. exact Hy.
      * split.
        { intros k Hk. rewrite (I3 k Hk). unfold g2, g1, gnext. cbn [g_st]. rewrite !put_other by exact Hk. reflexivity. }
        intros t Ht. destruct (I4 t Ht) as [Q|Q]; [|right; exact Q]. unfold g2, g1, gnext in Q. cbn [g_took took_of] in Q. rewrite app_nil_r in Q.
        apply in_app_or in Q. destruct Q as [Q|[<-|[]]]; [left; exact Q|right; reflexivity].
Qed.

(** One corrupted member, which repeats its Echo messages, makes every honest member announce readiness for whatever
    it wants, a different value at each of them, before any proposal has been taken. *)
Theorem c31_anything_refuted : forall s (x : nat -> hm), In s bad -> (s < N)%nat -> (F < N)%nat ->
  exists g, reached g /\ (forall i, honest N bad i -> In (i, x i) (g_ready g)) /\ forall t, In t (g_took g) -> snd (fst t) = Z.of_nat s.
Proof.
  intros s x Hs Ls HF.
  assert (X : forall l, NoDup l -> (forall i, In i l -> honest N bad i) ->
    exists g, reached g /\ (forall i, In i l -> In (i, x i) (g_ready g)) /\ (forall k, ~ In k l -> g_st g k = rbc_init) /\
      forall t, In t (g_took g) -> snd (fst t) = Z.of_nat s).
  { induction l as [|i l IH]; intros ND HH; [exists g_init; split; [constructor|]; split; [intros i []|]; split; [reflexivity|intros t []]|].
    inversion ND as [|? ? N1 N2]. subst. destruct (IH N2 (fun k Hk => HH k (or_intror Hk))) as (g & R & I1 & I2 & I3).
    destruct (flood_member s i (x i) 0 Hs Ls HF (HH i (or_introl eq_refl)) g R) as (g' & R' & J1 & J2 & J3 & J4); [|lia|].
    - rewrite (I2 i N1). repeat split. cbn. lia.
    - exists g'. split; [exact R'|]. split; [intros k [<-|Hk]; [exact J1|apply J2, I1, Hk]|]. split.
      + intros k Hk. rewrite (J3 k) by (intros ->; apply Hk; left; reflexivity). apply I2. intros Q. apply Hk. right. exact Q.
      + intros t Ht. destruct (J4 t Ht) as [Q|Q]; [apply I3; exact Q|exact Q]. }
  destruct (X (filter (honestb N bad) (seq 0 N))) as (g & R & G1 & _ & G3).
  - apply NoDup_filter, seq_NoDup.
  - intros i Hi. apply filter_In in Hi. apply honestb_ok. apply Hi.
  - exists g. split; [exact R|]. split; [|exact G3]. intros i Hi. apply G1. apply filter_In. split; [apply in_seq; destruct Hi; lia|apply honestb_ok; exact Hi].
Qed.
End Forge.
Print Assumptions c62_hijack_all_refuted.
Print Assumptions c31_anything_refuted.

(** Seven members, of which the last one is corrupted; every member announces its own number as a hash. *)
Example c31_anything_example : exists g, reach toy_sha toy_encode toy_verify toy_reconstruct 7 2 [6%nat] g /\
  (forall i, (i < 6)%nat -> In (i, ([Z.of_nat i], [])) (g_ready g)).
Proof.
  destruct (c31_anything_refuted toy_sha toy_encode toy_verify toy_reconstruct 7 2 [6%nat] 6 (fun i => ([Z.of_nat i], []))) as (g & R & H & _); [left; reflexivity|lia|lia|].
  exists g. split; [exact R|]. intros i Hi. apply (H i). split; [lia|]. intros [Q|[]]. lia.
Qed.

(** Seven members with the coder of the examples: member 6 proposes [otherM] and all others return it. *)
Example c62_hijack_example : rs_good toy_encode toy_verify toy_reconstruct 7 2 otherM (repeat otherM 7) /\
  exists tr g, run toy_sha toy_encode toy_verify toy_reconstruct 7 2 [6%nat] tr g /\ counted_once g /\
    (forall i d M', In (i, EvPropose d M') tr -> d = 6%Z /\ M' = otherM) /\ forall i, (i < 6)%nat -> r_out (g_st g i) = Some (Some otherM).
Proof.
  assert (G : rs_good toy_encode toy_verify toy_reconstruct 7 2 otherM (repeat otherM 7)) by (apply toy_good; [discriminate|lia]). split; [exact G|].
  destruct (c62_hijack_all_refuted toy_sha toy_encode toy_verify toy_reconstruct 7 2 [6%nat] 6 otherM (repeat otherM 7)) as (tr & g & R & C & P & O);
    [cbn; lia|lia|left; reflexivity|exact G|apply toy_sha_length|reflexivity|].
  exists tr, g. split; [exact R|]. split; [exact C|]. split; [exact P|]. intros i Hi. apply O. split; [lia|]. intros [Q|[]]. lia.
Qed.
