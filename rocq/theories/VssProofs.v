(** Lemmas about the model of sharing. *)

Require Import ZArith List Lia Bool Arith.
From Verif Require Import Prime Fr Bytes CodecModel CodecProofs GoBase Poly Biv PolyModel PolyProofs
  GroupModel KzgModel KzgProofs PartyModel PartySpec VssModel.
Import ListNotations.
Local Open Scope F_scope.

(** ** Sequential maps and filling loops *)

Lemma gomap_ret {A B} (f : A -> go B) g l : (forall a, In a l -> f a = Ret (g a)) ->
  gomap f l = Ret (map g l).
Proof.
  induction l as [|a l IH]; intros H; [reflexivity|].
  cbn [gomap map]. rewrite H by (left; reflexivity). cbn [bind].
  rewrite IH by (intros b Hb; apply H; right; exact Hb). reflexivity.
Qed.

Lemma gomap_inv {A B} (f : A -> go B) l r : gomap f l = Ret r ->
  Forall2 (fun a b => f a = Ret b) l r.
Proof.
  revert r. induction l as [|a l IH]; intros r H; cbn [gomap] in H.
  - injection H as <-. constructor.
  - destruct (f a) as [b| | |] eqn:E; try discriminate. cbn [bind] in H.
    destruct (gomap f l) as [r'| | |]; try discriminate. injection H as <-.
    constructor; [exact E|]. apply IH. reflexivity.
Qed.

Lemma gofold_snoc {A B} (f : A -> go B) g l acc : (forall a, In a l -> f a = Ret (g a)) ->
  gofold (fun acc j => b <- f j ;; Ret (acc ++ [b])) l acc = Ret (acc ++ map g l).
Proof.
  revert acc. induction l as [|a l IH]; intros acc H; cbn [gofold map].
  - rewrite app_nil_r. reflexivity.
  - rewrite H by (left; reflexivity). cbn [bind].
    rewrite IH by (intros b Hb; apply H; right; exact Hb). rewrite <- app_assoc. reflexivity.
Qed.

Lemma set_nth_app {A} (l1 l2 : list A) a b : set_nth (length l1) a (l1 ++ b :: l2) = l1 ++ a :: l2.
Proof. induction l1 as [|c l1 IH]; simpl; [reflexivity|rewrite IH; reflexivity]. Qed.

Lemma upd_app {A} (l1 l2 : list A) a b i : i = length l1 ->
  upd (l1 ++ b :: l2) i a = Ret (l1 ++ a :: l2).
Proof.
  intros ->. unfold upd. rewrite (proj2 (Nat.ltb_lt _ _)).
  - rewrite set_nth_app. reflexivity.
  - rewrite app_length. simpl. lia.
Qed.

(** [for j := lo; j < lo+n; j++ { l[j-lo+k] = g(j) }] on a slice with n places from k on. *)
Lemma goloop_fill {A} (body : list A -> nat -> go (list A)) g k : forall n lo l1 l2,
  length l1 = k -> length l2 = n ->
  (forall j cs, (lo <= j < lo + n)%nat -> body cs j = upd cs (j - lo + k) (g j)) ->
  goloop lo n body (l1 ++ l2) = Ret (l1 ++ map g (seq lo n)).
Proof.
  revert k. fix IH 2. intros k [|n] lo l1 l2 L1 L2 H.
  - destruct l2; [|discriminate]. reflexivity.
  - destruct l2 as [|b l2]; [discriminate|].
    unfold goloop. cbn [seq gofold map]. rewrite H by lia.
    rewrite (upd_app l1 l2 (g lo) b) by lia. cbn [bind].
    replace (l1 ++ g lo :: l2) with ((l1 ++ [g lo]) ++ l2) by (rewrite <- app_assoc; reflexivity).
    specialize (IH (k + 1)%nat n (S lo) (l1 ++ [g lo]) l2). unfold goloop in IH. rewrite IH.
    + rewrite <- app_assoc. reflexivity.
    + rewrite app_length. simpl. lia.
    + simpl in L2. lia.
    + intros j cs Hj. rewrite H by lia. f_equal. lia.
Qed.

(** What holds after a loop that returned. *)
Lemma goloop_ret_inv {S} (P : nat -> S -> Prop) n body : forall lo s s',
  goloop lo n body s = Ret s' -> P lo s ->
  (forall i a b, (lo <= i < lo + n)%nat -> P i a -> body a i = Ret b -> P (1 + i)%nat b) ->
  P (lo + n)%nat s'.
Proof.
  induction n as [|n IH]; intros lo s s' H H0 H1.
  - injection H as <-. rewrite Nat.add_0_r. exact H0.
  - unfold goloop in H. cbn [seq gofold] in H.
    destruct (body s lo) as [s1| | |] eqn:E; try discriminate. cbn [bind] in H.
    replace (lo + Datatypes.S n)%nat with (Datatypes.S lo + n)%nat by lia.
    apply (IH _ s1); [exact H| |].
    + apply (H1 lo s); [lia|exact H0|exact E].
    + intros i a b Hi. apply H1. lia.
Qed.

Lemma nth_map_seq {A} (g : nat -> A) d lo n i : (i < n)%nat -> nth i (map g (seq lo n)) d = g (lo + i)%nat.
Proof.
  intros H. rewrite (nth_indep _ d (g O)) by (rewrite map_length, seq_length; exact H).
  rewrite map_nth, seq_nth by exact H. reflexivity.
Qed.

Lemma idx_cons_seq {A} (g : nat -> A) a n j : (1 <= j <= n)%nat ->
  idx (a :: map g (seq 1 n)) j = Ret (g j).
Proof.
  intros H. rewrite (idx_nth a) by (simpl; rewrite map_length, seq_length; lia).
  destruct j as [|j]; [lia|]. cbn [nth]. rewrite nth_map_seq by lia. reflexivity.
Qed.

Lemma nth_cons_seq {A} (g : nat -> A) a d n j : (1 <= j <= n)%nat ->
  nth j (a :: map g (seq 1 n)) d = g j.
Proof.
  intros H. destruct j as [|j]; [lia|]. cbn [nth]. rewrite nth_map_seq by lia. reflexivity.
Qed.

Lemma to32_FrTo32 x : to32 (FrTo32 x) = FrTo32 x.
Proof.
  unfold to32. rewrite FrTo32_length, Nat.sub_diag. rewrite firstn_all2 by (rewrite FrTo32_length; lia).
  apply app_nil_r.
Qed.

Lemma read_own cd g : codec_ok cd -> ReadG1 cd (ToCompressedG1 cd g) = Ret g.
Proof. intros H. unfold ReadG1. rewrite H. reflexivity. Qed.

(** ** Parties *)

Lemma new_party N F pid : (1 <= F)%nat -> (3 * F + 1 <= N)%nat -> (Z.of_nat (N + 2) <= r)%Z ->
  exists p, NewHonestParty N F pid = Ret p /\ party_wf party_secret p /\ p_N p = N /\ p_F p = F /\
    p_PID p = pid.
Proof.
  intros HF HN HR. unfold NewHonestParty, party_setup. rewrite setup_correct. cbn [bind].
  rewrite LagrangeTable_correct. cbn [bind]. eexists. split; [reflexivity|].
  unfold party_wf. cbn [p_N p_F p_PID p_KZG p_tab p_Proof p_fullShare p_witness p_witnessIndexes].
  repeat split; auto.
  - apply setup_correct.
  - apply LagrangeTable_correct.
  - unfold Pi_Init. cbn [PiContents]. rewrite map_length, seq_length. reflexivity.
  - apply repeat_length.
  - apply repeat_length.
  - apply repeat_length.
Qed.

(** ** The message for given contents, values and witnesses *)

Definition vss_msg (cd : g1codec) (F : nat) (gs : G1) (c : nat -> PiContent) (v : nat -> Fr)
    (w : nat -> G1) : VSSSendMsg :=
  let js := seq 1 (2 * F + 1) in
  mkVSS (Some (mkPiM (ToCompressedG1 cd gs)
          (mkPCM 0 [] [] [] [] ::
           map (fun j => mkPCM (Z.of_nat j) (ToCompressedG1 cd (CBj (c j))) (ToCompressedG1 cd (CZj (c j)))
                           (ToCompressedG1 cd (WZ0 (c j))) (ToCompressedG1 cd (gFj (c j)))) js)))
        ([] :: map (fun j => FrTo32 (v j)) js) ([] :: map (fun j => ToCompressedG1 cd (w j)) js).

Lemma encapsulate_correct cd F gs c v w c0 v0 w0 :
  EncapsulateVSSSend cd (mkPi gs (c0 :: map c (seq 1 (2 * F + 1)))) (v0 :: map v (seq 1 (2 * F + 1)))
    (w0 :: map w (seq 1 (2 * F + 1))) F = Ret (vss_msg cd F gs c v w).
Proof.
  unfold EncapsulateVSSSend. cbn [PiContents Gs].
  assert (I : forall j, In j (seq 1 (2 * F + 1)) -> (1 <= j <= 2 * F + 1)%nat)
    by (intros j Hj; apply in_seq in Hj; lia).
  assert (E1 : forall acc,
    gofold (fun acc j => w1 <- idx (w0 :: map w (seq 1 (2 * F + 1))) j ;; Ret (acc ++ [ToCompressedG1 cd w1]))
      (seq 1 (2 * F + 1)) acc = Ret (acc ++ map (fun j => ToCompressedG1 cd (w j)) (seq 1 (2 * F + 1)))).
  { intros acc. revert I. generalize (seq 1 (2 * F + 1)) at 1 3 4 as l. intros l I. revert acc.
    induction l as [|j l IH]; intros acc; cbn [gofold map]; [rewrite app_nil_r; reflexivity|].
    rewrite idx_cons_seq by (apply I; left; reflexivity). cbn [bind].
    rewrite IH by (intros; apply I; right; assumption). rewrite <- app_assoc. reflexivity. }
  assert (E2 : forall acc,
    gofold (fun acc j => w1 <- idx (v0 :: map v (seq 1 (2 * F + 1))) j ;; Ret (acc ++ [FrTo32 w1]))
      (seq 1 (2 * F + 1)) acc = Ret (acc ++ map (fun j => FrTo32 (v j)) (seq 1 (2 * F + 1)))).
  { intros acc. revert I. generalize (seq 1 (2 * F + 1)) at 1 3 4 as l. intros l I. revert acc.
    induction l as [|j l IH]; intros acc; cbn [gofold map]; [rewrite app_nil_r; reflexivity|].
    rewrite idx_cons_seq by (apply I; left; reflexivity). cbn [bind].
    rewrite IH by (intros; apply I; right; assumption). rewrite <- app_assoc. reflexivity. }
  assert (E3 : forall acc,
    gofold (fun acc j => c1 <- idx (c0 :: map c (seq 1 (2 * F + 1))) j ;;
       Ret (acc ++ [mkPCM (Z.of_nat j) (ToCompressedG1 cd (CBj c1)) (ToCompressedG1 cd (CZj c1))
                        (ToCompressedG1 cd (WZ0 c1)) (ToCompressedG1 cd (gFj c1))]))
      (seq 1 (2 * F + 1)) acc = Ret (acc ++
        map (fun j => mkPCM (Z.of_nat j) (ToCompressedG1 cd (CBj (c j))) (ToCompressedG1 cd (CZj (c j)))
                           (ToCompressedG1 cd (WZ0 (c j))) (ToCompressedG1 cd (gFj (c j)))) (seq 1 (2 * F + 1)))).
  { intros acc. revert I. generalize (seq 1 (2 * F + 1)) at 1 3 4 as l. intros l I. revert acc.
    induction l as [|j l IH]; intros acc; cbn [gofold map]; [rewrite app_nil_r; reflexivity|].
    rewrite idx_cons_seq by (apply I; left; reflexivity). cbn [bind].
    rewrite IH by (intros; apply I; right; assumption). rewrite <- app_assoc. reflexivity. }
  rewrite E1. cbn [bind]. rewrite E2. cbn [bind]. rewrite E3. reflexivity.
Qed.

Lemma set_from_correct cd F gs c v w : codec_ok cd ->
  (forall j, (1 <= j <= 2 * F + 1)%nat -> pc_j (c j) = j) ->
  SetFromVSSMessage cd (Pi_Init F) (m_Pi (vss_msg cd F gs c v w)) F =
  Ret (mkPi gs (mkPC 0 ZeroG1 ZeroG1 ZeroG1 ZeroG1 :: map c (seq 1 (2 * F + 1)))).
Proof.
  intros HC HJ. unfold vss_msg, SetFromVSSMessage. cbn [m_Pi m_Gs m_PiContents].
  rewrite read_own by exact HC. cbn [bind]. unfold Pi_Init. cbn [PiContents].
  replace (2 * F + 2)%nat with (S (2 * F + 1)) by lia.
  remember (2 * F + 1)%nat as n eqn:En.
  cbn [seq map].
  match goal with |- context [goloop 1 n ?b (?h :: ?t)] =>
    change (h :: t) with ([h] ++ t); rewrite (goloop_fill b c 1 n 1 [h] t) end.
  - reflexivity.
  - reflexivity.
  - rewrite map_length, seq_length. reflexivity.
  - intros j cs Hj. rewrite idx_cons_seq by lia. cbn [bind m_CBj m_CZj m_WZ0 m_GFj].
    rewrite !read_own by exact HC. cbn [bind]. f_equal; [lia|].
    rewrite <- (HJ j) at 1 by lia. destruct (c j). reflexivity.
Qed.

Lemma values_loop_correct cd F gs c v w : codec_ok cd ->
  goloop 1 (2 * F + 1)
    (fun st j =>
       b <- idx (m_BijList (vss_msg cd F gs c v w)) j ;;
       values <- upd (fst st) j (FrFrom32_into (nth j (fst st) 0) (to32 b)) ;;
       wb <- idx (m_WBijList (vss_msg cd F gs c v w)) j ;;
       w <- ReadG1 cd wb ;;
       wits <- upd (snd st) j w ;;
       Ret (values, wits)) (repeat 0 (2 * F + 2), repeat ZeroG1 (2 * F + 2)) =
  Ret (0 :: map v (seq 1 (2 * F + 1)), ZeroG1 :: map w (seq 1 (2 * F + 1))).
Proof.
  intros HC. unfold vss_msg. cbn [m_BijList m_WBijList].
  replace (2 * F + 2)%nat with (S (2 * F + 1)) by lia.
  generalize (2 * F + 1)%nat as n. intros n. cbn [repeat].
  match goal with |- goloop 1 n ?b _ = _ => set (body := b) end.
  assert (G : forall k l1 l2, (k <= n)%nat -> length l1 = S (n - k) -> length l2 = S (n - k) ->
    goloop (S (n - k)) k body (l1 ++ repeat 0 k, l2 ++ repeat ZeroG1 k) =
    Ret (l1 ++ map v (seq (S (n - k)) k), l2 ++ map w (seq (S (n - k)) k))).
  { induction k as [|k IH]; intros l1 l2 Hk L1 L2; [reflexivity|].
    unfold goloop. cbn [seq gofold repeat map]. unfold body at 1. cbn [fst snd].
    rewrite idx_cons_seq by lia. cbn [bind]. rewrite to32_FrTo32.
    unfold FrFrom32_into. rewrite FrFrom32_FrTo32.
    rewrite upd_app by lia. cbn [bind]. rewrite idx_cons_seq by lia. cbn [bind].
    rewrite read_own by exact HC. cbn [bind]. rewrite upd_app by lia. cbn [bind].
    specialize (IH (l1 ++ [v (S (n - S k))]) (l2 ++ [w (S (n - S k))])).
    replace (S (n - k)) with (S (S (n - S k))) in IH by lia. unfold goloop in IH.
    replace (l1 ++ v (S (n - S k)) :: repeat 0 k) with ((l1 ++ [v (S (n - S k))]) ++ repeat 0 k)
      by (rewrite <- app_assoc; reflexivity).
    replace (l2 ++ w (S (n - S k)) :: repeat ZeroG1 k) with ((l2 ++ [w (S (n - S k))]) ++ repeat ZeroG1 k)
      by (rewrite <- app_assoc; reflexivity).
    rewrite IH.
    - rewrite <- !app_assoc. reflexivity.
    - lia.
    - rewrite app_length. simpl. lia.
    - rewrite app_length. simpl. lia. }
  specialize (G n [0] [ZeroG1]). rewrite Nat.sub_diag in G. apply G; simpl; lia.
Qed.

(** ** The checks *)

Section Checks.
Variables (s : Fr) (n : nat) (ks : KZGSettings).
Hypothesis HS : setup s n = Ret ks.
Hypothesis Hn : (2 <= n)%nat.

Lemma verify_contents_spec cs : forall m k, (k + m <= length cs)%nat ->
  exists b, verify_contents ks cs k m = Ret b /\
    (b = true <-> forall j, (k <= j < k + m)%nat ->
       CheckProofSingle ks (CZj (nth j cs pc0)) (WZ0 (nth j cs pc0)) 0 0 = Ret true /\
       CBj (nth j cs pc0) = AddG1 (CZj (nth j cs pc0)) (gFj (nth j cs pc0))).
Proof.
  induction m as [|m IH]; intros k L; cbn [verify_contents].
  - exists true. split; [reflexivity|]. split; [intros _ j Hj; lia|reflexivity].
  - rewrite (idx_nth pc0) by lia. cbn [bind].
    rewrite (check_correct s n ks HS) by exact Hn. cbn [bind].
    destruct (feqb _ _) eqn:E1; cbn [negb orb].
    + destruct (EqualG1 _ _) eqn:E2; cbn [negb].
      * destruct (IH (k + 1)%nat) as (b & E & H); [lia|]. exists b. split; [exact E|].
        rewrite H. split; intros G j Hj.
        -- destruct (Nat.eq_dec j k) as [->|Ne]; [|apply G; lia]. split.
           ++ rewrite (check_correct s n ks HS), E1 by exact Hn. reflexivity.
           ++ apply EqualG1_eq in E2. symmetry. exact E2.
        -- apply G. lia.
      * exists false. split; [reflexivity|]. split; [discriminate|]. intros G.
        destruct (G k) as (_ & G2); [lia|]. symmetry in G2. apply EqualG1_eq in G2. congruence.
    + exists false. split; [reflexivity|]. split; [discriminate|]. intros G.
      destruct (G k) as (G1 & _); [lia|]. rewrite (check_correct s n ks HS), E1 in G1 by exact Hn. discriminate.
Qed.

Lemma verify_points_spec cs pos values wits : forall m k,
  (k + m <= length cs)%nat -> (k + m <= length values)%nat -> (k + m <= length wits)%nat ->
  exists b, verify_points ks cs pos values wits k m = Ret b /\
    (b = true <-> forall j, (k <= j < k + m)%nat ->
       CheckProofSingle ks (CBj (nth j cs pc0)) (nth j wits ZeroG1) pos (nth j values 0) = Ret true).
Proof.
  induction m as [|m IH]; intros k L1 L2 L3; cbn [verify_points].
  - exists true. split; [reflexivity|]. split; [intros _ j Hj; lia|reflexivity].
  - rewrite (idx_nth pc0), (idx_nth ZeroG1), (idx_nth 0) by lia. cbn [bind].
    destruct (CheckProofSingle ks (CBj (nth k cs pc0)) (nth k wits ZeroG1) pos (nth k values 0))
      as [b| | |] eqn:E1.
    2,3,4: rewrite (check_correct s n ks HS) in E1 by exact Hn; discriminate.
    cbn [bind]. destruct b.
    + destruct (IH (k + 1)%nat) as (b & E & H); [lia|lia|lia|]. exists b. split; [exact E|].
      rewrite H. split; intros G j Hj.
      * destruct (Nat.eq_dec j k) as [->|Ne]; [exact E1|apply G; lia].
      * apply G. lia.
    + exists false. split; [reflexivity|]. split; [discriminate|]. intros G.
      specialize (G k ltac:(lia)). congruence.
Qed.

End Checks.

(** ** The whole verification *)

Lemma verify_spec s p values wits pi : party_wf s p ->
  length (PiContents pi) = (2 * p_F p + 2)%nat ->
  length values = (2 * p_F p + 2)%nat -> length wits = (2 * p_F p + 2)%nat ->
  exists b, VerifyVSSSendReceived p values wits pi = Ret b /\
    (b = true <-> forall j, (1 <= j <= 2 * p_F p + 1)%nat ->
       let c := nth j (PiContents pi) pc0 in
       CheckProofSingle (p_KZG p) (CZj c) (WZ0 c) 0 0 = Ret true /\
       CBj c = AddG1 (CZj c) (gFj c) /\
       CheckProofSingle (p_KZG p) (CBj c) (nth j wits ZeroG1) (of_nat (p_PID p + 1)) (nth j values 0) = Ret true).
Proof.
  intros (HS & HT & HF & HN & HR & _) L1 L2 L3. unfold VerifyVSSSendReceived.
  rewrite (gomap_ret _ (fun j => gFj (nth j (PiContents pi) pc0))).
  2:{ intros j Hj. apply in_seq in Hj. rewrite (idx_nth pc0) by lia. reflexivity. }
  cbn [bind]. pose proof HT as HT'. rewrite LagrangeTable_correct in HT'. injection HT' as HT'.
  rewrite <- HT'. rewrite (idx_nth []) by (rewrite map_length, seq_length; lia). cbn [bind].
  rewrite nth_map_seq by lia.
  rewrite LinCombG1_correct by (rewrite !map_length, !seq_length; reflexivity). cbn [bind].
  destruct (verify_contents_spec s (p_F p + 1) (p_KZG p) HS ltac:(lia) (PiContents pi) (2 * p_F p + 1) 1)
    as (b1 & E1 & H1); [lia|]. rewrite E1. cbn [bind].
  destruct b1.
  - destruct (verify_points_spec s (p_F p + 1) (p_KZG p) HS ltac:(lia) (PiContents pi)
       (of_nat (p_PID p + 1)) values wits (2 * p_F p + 1) 1) as (b2 & E2 & H2); [lia|lia|lia|].
    exists b2. split; [exact E2|]. rewrite H2. pose proof (proj1 H1 eq_refl) as G1. split.
    + intros G j Hj. destruct (G1 j); [lia|]. repeat split; auto. apply G. lia.
    + intros G j Hj. apply G. lia.
  - exists false. split; [reflexivity|]. split; [discriminate|].
    intros G. apply (proj2 H1). intros j Hj. destruct (G j) as (A & B & _); [lia|]. auto.
Qed.

(** ** Receiving a dealing that passes the checks *)

Lemma wit_loop wits F w0 (w : nat -> G1) l1 l2 :
  wits = w0 :: map w (seq 1 (2 * F + 1)) -> length l1 = (2 * F + 1)%nat -> length l2 = (2 * F + 1)%nat ->
  goloop 1 (2 * F + 1)
      (fun st j =>
         w <- idx wits j ;;
         a <- upd (fst st) (j - 1) w ;;
         b <- upd (snd st) (j - 1) (of_nat j) ;;
         Ret (a, b)) (l1, l2) = Ret (map w (seq 1 (2 * F + 1)), map of_nat (seq 1 (2 * F + 1))).
Proof.
  intros ->. generalize (2 * F + 1)%nat as n. intros n L1 L2.
  match goal with |- goloop 1 n ?b _ = _ => set (body := b) end.
  assert (G : forall k a1 a2 l1 l2, (k <= n)%nat -> length a1 = (n - k)%nat -> length a2 = (n - k)%nat ->
    length l1 = k -> length l2 = k ->
    goloop (S (n - k)) k body (a1 ++ l1, a2 ++ l2) =
    Ret (a1 ++ map w (seq (S (n - k)) k), a2 ++ map of_nat (seq (S (n - k)) k))).
  { clear L1 L2 l1 l2. induction k as [|k IH]; intros a1 a2 l1 l2 Hk A1 A2 L1 L2.
    - destruct l1, l2; try discriminate. reflexivity.
    - destruct l1 as [|b1 l1], l2 as [|b2 l2]; try discriminate.
      unfold goloop. cbn [seq gofold map]. unfold body at 1. cbn [fst snd].
      rewrite idx_cons_seq by lia. cbn [bind].
      rewrite upd_app by lia. cbn [bind]. rewrite upd_app by lia. cbn [bind].
      specialize (IH (a1 ++ [w (S (n - S k))]) (a2 ++ [of_nat (S (n - S k))]) l1 l2).
      replace (S (n - k)) with (S (S (n - S k))) in IH by lia. unfold goloop in IH.
      rewrite <- !app_assoc in IH. cbn [app] in IH. rewrite IH.
      + reflexivity.
      + lia.
      + rewrite app_length. simpl. lia.
      + rewrite app_length. simpl. lia.
      + simpl in L1. lia.
      + simpl in L2. lia. }
  specialize (G n [] [] l1 l2). rewrite Nat.sub_diag in G. apply G; simpl; auto; lia.
Qed.

Lemma Pi_Set_correct pi gs c0 c F : length (PiContents pi) = (2 * F + 2)%nat ->
  Pi_Set pi (mkPi gs (c0 :: map c (seq 1 (2 * F + 1)))) F =
  Ret (mkPi gs (firstn 1 (PiContents pi) ++ map c (seq 1 (2 * F + 1)))).
Proof.
  intros L. unfold Pi_Set. cbn [PiContents Gs].
  destruct (PiContents pi) as [|h t]; [simpl in L; lia|].
  match goal with |- context [goloop 1 ?n ?b (h :: t)] =>
    change (h :: t) with ([h] ++ t); rewrite (goloop_fill b c 1 n 1 [h] t) end.
  - reflexivity.
  - reflexivity.
  - simpl in L. lia.
  - intros j cs Hj. rewrite idx_cons_seq by lia. cbn [bind]. f_equal. lia.
Qed.

Lemma receive_good s cd p gs c v w : codec_ok cd -> party_wf s p ->
  (forall j, (1 <= j <= 2 * p_F p + 1)%nat -> pc_j (c j) = j /\
     CheckProofSingle (p_KZG p) (CZj (c j)) (WZ0 (c j)) 0 0 = Ret true /\
     CBj (c j) = AddG1 (CZj (c j)) (gFj (c j)) /\
     CheckProofSingle (p_KZG p) (CBj (c j)) (w j) (of_nat (p_PID p + 1)) (v j) = Ret true) ->
  exists q,
    VSSShareReceive cd p (vss_msg cd (p_F p) gs c v w) =
      Ret (true, mkParty (p_N p) (p_F p) (p_PID p) (p_KZG p)
             (mkPi gs (firstn 1 (PiContents (p_Proof p)) ++ map c (seq 1 (2 * p_F p + 1))))
             q (p_reducedShare p) (map w (seq 1 (2 * p_F p + 1)))
             (map of_nat (seq 1 (2 * p_F p + 1))) (p_tab p)) /\
    length q = (2 * p_F p + 1)%nat /\
    (forall j, (1 <= j <= 2 * p_F p + 1)%nat -> peval q (of_nat j) = v j).
Proof.
  intros HC HW H. pose proof HW as (HS & HT & HF & HN & HR & LP & LFS & LW & LWI).
  set (F := p_F p) in *.
  destruct (LagrangeInterpolate_correct (2 * F) (map (fun j => of_nat (j + 1)) (seq 0 (2 * F + 1)))
              (map v (seq 1 (2 * F + 1)))) as (q & EQ & LQ & VQ & _).
  { rewrite firstn_all2 by (rewrite map_length, seq_length; lia). apply known_nodup. lia. }
  { rewrite map_length, seq_length. lia. }
  { rewrite map_length, seq_length. lia. }
  exists q. split; [|split].
  - unfold VSSShareReceive. fold F. rewrite set_from_correct; [|exact HC|intros j Hj; apply H; exact Hj].
    cbn [bind]. rewrite values_loop_correct by exact HC. cbn [bind].
    destruct (verify_spec s p (0 :: map v (seq 1 (2 * F + 1))) (ZeroG1 :: map w (seq 1 (2 * F + 1)))
      (mkPi gs (mkPC 0 ZeroG1 ZeroG1 ZeroG1 ZeroG1 :: map c (seq 1 (2 * F + 1))))) as (b & EV & HV).
    { exact HW. }
    { cbn [PiContents length]. rewrite map_length, seq_length. fold F. lia. }
    { cbn [length]. rewrite map_length, seq_length. fold F. lia. }
    { cbn [length]. rewrite map_length, seq_length. fold F. lia. }
    rewrite EV. cbn [bind]. replace b with true.
    2:{ symmetry. apply HV. intros j Hj. fold F in Hj. cbn [PiContents].
        rewrite !nth_cons_seq by exact Hj. destruct (H j Hj) as (A & B & C & D). auto. }
    rewrite Pi_Set_correct by exact LP. cbn [bind].
    rewrite (wit_loop _ F ZeroG1 w) by auto. cbn [bind].
    rewrite (gomap_ret _ (fun j => v (j + 1)%nat)).
    2:{ intros j Hj. apply in_seq in Hj. rewrite idx_cons_seq by lia. reflexivity. }
    cbn [bind].
    replace (map (fun j => v (j + 1)%nat) (seq 0 (2 * F + 1))) with (map v (seq 1 (2 * F + 1))).
    2:{ rewrite <- seq_shift, map_map. apply map_ext. intros i. f_equal. lia. }
    rewrite EQ. cbn [bind]. rewrite LFS, LQ.
    rewrite (firstn_all2 q) by lia. rewrite skipn_all2 by lia. rewrite app_nil_r. reflexivity.
  - exact LQ.
  - intros j Hj. specialize (VQ (j - 1)%nat ltac:(lia)).
    rewrite !nth_map_seq in VQ by lia.
    replace (0 + (j - 1) + 1)%nat with j in VQ by lia. replace (1 + (j - 1))%nat with j in VQ by lia.
    exact VQ.
Qed.
