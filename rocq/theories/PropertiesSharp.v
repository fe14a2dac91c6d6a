(** Sharper versions of theorems on the algebraic helpers: exact conditions, all inputs instead of one witness. *)

Require Import ZArith List Bool Arith Lia.
From Verif Require Import Prime Fr CodecModel GoBase Poly PolyModel PolyProofs GroupModel KzgModel VssModel VssProofs
  FftModel FftProofs FftProofs2 PropertiesFft SampleModel SampleProofs ZeroProofs ZeroProofs2 RecoverProofs PropertiesSample
  FkModel FkProofs FkProofs3.
Import ListNotations.
Local Open Scope F_scope.

(** ** C10 *)

Lemma count_remove : forall (l : list Fr) i a, (i < length l)%nat ->
  count_occ Fr_eq_dec l a = ((if Fr_eq_dec (nth i l f0) a then 1 else 0) + count_occ Fr_eq_dec (remove_nth i l) a)%nat.
Proof.
  induction l as [|b l IH]; intros i a H; cbn [length] in H; [lia|].
  destruct i as [|i].
  - cbn [nth remove_nth count_occ]. destruct (Fr_eq_dec b a); lia.
  - cbn [nth remove_nth count_occ]. rewrite (IH i a) by lia. destruct (Fr_eq_dec b a), (Fr_eq_dec (nth i l f0) a); lia.
Qed.

(** A repeated index gets the coefficient 0. *)
Lemma lbasis_repeated x i t : (i < length x)%nat -> count_occ Fr_eq_dec x (nth i x 0) <> 1%nat -> lbasis x i t = 0.
Proof.
  intros L H. rewrite (count_remove x i _ L) in H. destruct (Fr_eq_dec (nth i x 0) (nth i x 0)) as [_|N]; [|congruence].
  unfold lbasis. rewrite (prodlin_0 (remove_nth i x) (nth i x 0)).
  - rewrite fdiv_def, finv_0. ring.
  - apply (count_occ_In Fr_eq_dec). lia.
Qed.

Lemma coeff_sum deg x t p : length x = (deg + 1)%nat ->
  dot (map (fun i => lbasis x i t) (seq 0 (deg + 1))) (map (peval p) x) =
  sumn (deg + 1) (fun i => lbasis x i t * peval p (nth i x 0)).
Proof.
  intros Lx. rewrite dot_nth by (rewrite !map_length, seq_length; lia).
  rewrite map_length, seq_length. apply sumn_ext. intros i Hi.
  rewrite (nth_indep _ 0 (lbasis x 0 t)) by (rewrite map_length, seq_length; lia).
  rewrite (map_nth (fun i => lbasis x i t)), seq_nth by lia.
  rewrite (nth_indep (map (peval p) x) 0 (peval p 0)) by (rewrite map_length; lia).
  rewrite map_nth. reflexivity.
Qed.

Lemma filter_full {A} (f : A -> bool) : forall l, (length l <= length (filter f l))%nat -> forall a, In a l -> f a = true.
Proof.
  assert (LE : forall l : list A, (length (filter f l) <= length l)%nat).
  { induction l as [|b l IH]; [simpl; lia|]. cbn [filter]. destruct (f b); cbn [length]; lia. }
  induction l as [|b l IH]; intros H a I; [destruct I|]. cbn [filter length] in H. destruct (f b) eqn:E.
  - destruct I as [<-|I]; [exact E|]. cbn [length] in H. apply IH; [lia|exact I].
  - pose proof (LE l). lia.
Qed.

(** The coefficients returned are right for all polynomials below the bound exactly if the indexes are distinct or the
    target is among them and occurs once. *)
Theorem c10_exactly : forall deg x t lambda, length x = (deg + 1)%nat -> length lambda = (deg + 1)%nat ->
  exists l, GetLagrangeCoefficients deg x t lambda = Ret l /\ length l = (deg + 1)%nat /\
    ((forall p, (length p <= deg + 1)%nat -> dot l (map (peval p) x) = peval p t) <->
     NoDup x \/ count_occ Fr_eq_dec x t = 1%nat).
Proof.
  intros deg x t lambda Lx Ll. rewrite GetLagrangeCoefficients_correct by assumption.
  eexists. split; [reflexivity|]. split; [rewrite map_length, seq_length; reflexivity|]. split.
  - intros H. destruct (ListDec.NoDup_dec Fr_eq_dec x) as [N|N]; [left; exact N|right].
    destruct (Nat.eq_dec (count_occ Fr_eq_dec x t) 1) as [C|C]; [exact C|exfalso].
    set (ys := filter (fun a => (count_occ Fr_eq_dec x a =? 1)%nat) x).
    assert (LY : (length ys < length x)%nat).
    { destruct (Nat.lt_ge_cases (length ys) (length x)) as [Q|Q]; [exact Q|exfalso]. apply N.
      apply (NoDup_count_occ' Fr_eq_dec). intros a I. apply Nat.eqb_eq.
      exact (filter_full _ x Q a I). }
    assert (LP : (length (plin ys) <= deg + 1)%nat) by (rewrite length_plin; lia).
    specialize (H (plin ys) LP). rewrite coeff_sum in H by exact Lx.
    rewrite sumn_0 in H.
    + rewrite peval_plin in H. symmetry in H. revert H. apply prodlin_neq_0. intros I. apply filter_In in I as (_ & I).
      apply Nat.eqb_eq in I. contradiction.
    + intros i Hi. destruct (Nat.eq_dec (count_occ Fr_eq_dec x (nth i x 0)) 1) as [U|U].
      * rewrite peval_plin, prodlin_0; [ring|]. apply filter_In. split; [apply nth_In; lia|].
        apply Nat.eqb_eq. exact U.
      * rewrite lbasis_repeated by (auto; lia). ring.
  - intros [N|C] p Lp.
    + destruct (GetLagrangeCoefficients_apply deg x t lambda p Lx Ll N Lp) as (l & E & _ & D).
      rewrite GetLagrangeCoefficients_correct in E by assumption.
      apply (f_equal (fun o => match o with Ret a => a | _ => [] end)) in E. rewrite E. exact D.
    + rewrite coeff_sum by exact Lx.
      assert (I : In t x) by (apply (count_occ_In Fr_eq_dec); lia).
      apply (In_nth _ _ 0) in I as (k & Hk & Ek).
      assert (U : ~ In t (remove_nth k x)).
      { intros Q. apply (count_occ_In Fr_eq_dec) in Q. rewrite (count_remove x k t Hk) in C.
        destruct (Fr_eq_dec (nth k x 0) t); [lia|contradiction]. }
      rewrite (sumn_single _ _ k).
      * unfold lbasis. rewrite Ek. field. apply prodlin_neq_0. exact U.
      * lia.
      * intros i Hi Ne. unfold lbasis. rewrite (prodlin_0 (remove_nth i x) t).
        -- rewrite fdiv_def. ring.
        -- rewrite <- Ek. apply in_remove_nth; [exact Hk|]. auto.
Qed.
Print Assumptions c10_exactly.

(** The indexes 1, 1, 2: the coefficients for the target 2 are right, those for 3 are not. *)
Example c10_demo_exactly :
  exists l l', GetLagrangeCoefficients 2 [of_nat 1; of_nat 1; of_nat 2] (of_nat 2) [0; 0; 0] = Ret l /\
    GetLagrangeCoefficients 2 [of_nat 1; of_nat 1; of_nat 2] (of_nat 3) [0; 0; 0] = Ret l' /\
    (forall p, (length p <= 3)%nat -> dot l (map (peval p) [of_nat 1; of_nat 1; of_nat 2]) = peval p (of_nat 2)) /\
    ~ (forall p, (length p <= 3)%nat -> dot l' (map (peval p) [of_nat 1; of_nat 1; of_nat 2]) = peval p (of_nat 3)).
Proof.
  assert (D : forall a b, (Z.of_nat (a + b) < r)%Z -> of_nat a = of_nat b -> a = b).
  { intros a b H E. apply (of_nat_inj a b); [lia|lia|exact E]. }
  destruct (c10_exactly 2 [of_nat 1; of_nat 1; of_nat 2] (of_nat 2) [0; 0; 0] eq_refl eq_refl) as (l & E & _ & H).
  destruct (c10_exactly 2 [of_nat 1; of_nat 1; of_nat 2] (of_nat 3) [0; 0; 0] eq_refl eq_refl) as (l' & E' & _ & H').
  exists l, l'. split; [exact E|]. split; [exact E'|]. split.
  - apply H. right. cbn [count_occ].
    destruct (Fr_eq_dec (of_nat 1) (of_nat 2)) as [Q|_]; [apply D in Q; [discriminate|reflexivity]|].
    destruct (Fr_eq_dec (of_nat 2) (of_nat 2)); [reflexivity|contradiction].
  - intros Q. apply H' in Q. destruct Q as [Q|Q].
    + inversion Q as [|? ? N _]. apply N. left. reflexivity.
    + cbn [count_occ] in Q.
      destruct (Fr_eq_dec (of_nat 1) (of_nat 3)) as [T|_]; [apply D in T; [discriminate|reflexivity]|].
      destruct (Fr_eq_dec (of_nat 2) (of_nat 3)) as [T|_]; [apply D in T; [discriminate|reflexivity]|]. discriminate.
Qed.

(** ** C38 *)

(** The two variants agree in both directions. *)
Theorem c38_in_place k fs j vals inv : settings k fs -> (j <= k)%nat -> length vals = (2 ^ j)%nat ->
  exists out, InplaceFFT fs vals (2 ^ j) inv = Ret out /\ FFT fs vals inv = Ret out /\ length out = (2 ^ j)%nat.
Proof.
  intros S L E. destruct (settings_ok _ _ S) as (K & O).
  rewrite (FFT_ok _ _ _ _ _ _ O L E), (InplaceFFT_ok _ _ _ _ _ _ O L E). eexists. split; [reflexivity|].
  split; [reflexivity|]. destruct inv; rewrite ?map_length, length_dft; exact E.
Qed.
Print Assumptions c38_in_place.

(** The empty vector makes the in-place variant panic whatever the settings; the other one gives one zero. *)
Theorem c38_empty k fs inv : settings k fs -> InplaceFFT fs [] 0 inv = Panic /\ FFT fs [] inv = Ret [0].
Proof.
  intros S. destruct (settings_ok _ _ S) as (K & O). split.
  - unfold InplaceFFT. cbn [length]. rewrite (proj2 (Nat.ltb_ge _ _)) by lia. reflexivity.
  - rewrite (FFT_pad _ _ _ [] 0 inv O) by (cbn; lia). cbn [length Nat.pow Nat.sub repeat app].
    change 1%nat with (2 ^ 0)%nat. rewrite (InplaceFFT_ok _ _ _ [0] 0 inv O) by (cbn; lia).
    f_equal. unfold dft. cbn [length seq map]. destruct inv; f_equal; cbn [peval]; ring.
Qed.
Print Assumptions c38_empty.

Example c38_demo_in_place : exists fs out, settings 3 fs /\
  InplaceFFT fs [of_nat 1; of_nat 2; of_nat 3; of_nat 4] 4 true = Ret out /\
  FFT fs [of_nat 1; of_nat 2; of_nat 3; of_nat 4] true = Ret out /\ FFT fs [] true = Ret [0].
Proof.
  destruct (c38_settings 3 ltac:(lia)) as (fs & S).
  destruct (c38_in_place 3 fs 2 [of_nat 1; of_nat 2; of_nat 3; of_nat 4] true S ltac:(lia) eq_refl) as (out & E & E' & _).
  exists fs, out. split; [exact S|]. split; [exact E|]. split; [exact E'|]. apply (c38_empty 3 fs true S).
Qed.

(** ** C42 *)

(** If all samples are missing the process stops, whatever the length. *)
Theorem c42_all_missing k fs j missing : settings k fs -> (j <= k)%nat -> NoDup missing ->
  (forall v, In v missing <-> (v < 2 ^ j)%nat) -> ZeroPolyViaMultiplication fs missing (2 ^ j) = Panic.
Proof.
  intros S J N V. destruct (settings_ok _ _ S) as (K & O).
  apply (ZeroPoly_all fs k _ O); [exact J|intros v; apply V|].
  apply Nat.le_antisymm.
  - rewrite <- (seq_length (2 ^ j) 0). apply NoDup_incl_length; [exact N|]. intros v I. apply in_seq. apply V in I. lia.
  - rewrite <- (seq_length (2 ^ j) 0) at 1. apply NoDup_incl_length; [apply seq_NoDup|]. intros v I. apply V.
    apply in_seq in I. lia.
Qed.
Print Assumptions c42_all_missing.

(** 128 of 128 samples, in settings of that size and of twice that size. *)
Example c42_demo_all : exists fs fs', settings 7 fs /\ settings 8 fs' /\
  ZeroPolyViaMultiplication fs (seq 0 128) 128 = Panic /\ ZeroPolyViaMultiplication fs' (seq 0 128) 128 = Panic.
Proof.
  destruct (c38_settings 7 ltac:(lia)) as (fs & S). destruct (c38_settings 8 ltac:(lia)) as (fs' & S').
  assert (V : forall v, In v (seq 0 128) <-> (v < 2 ^ 7)%nat) by (intros v; rewrite in_seq; cbn [Nat.pow Nat.mul Nat.add]; lia).
  exists fs, fs'. split; [exact S|]. split; [exact S'|].
  split; [apply (c42_all_missing 7 fs 7)|apply (c42_all_missing 8 fs' 7)]; auto using seq_NoDup.
Qed.

(** ** C44 *)

(** No settings take a vector of one value, or the empty one. *)
Theorem c44_single fs vals : (length vals <= 1)%nat -> DASFFTExtension fs vals = Panic.
Proof.
  intros L. unfold DASFFTExtension. destruct (_ <? _)%nat; [reflexivity|].
  destruct vals as [|v [|w vals]]; [reflexivity|reflexivity|cbn in L; lia].
Qed.
Print Assumptions c44_single.

(** ** C45 *)

Lemma one_pow n : fpow 1 n = 1.
Proof. induction n as [|n IH]; [reflexivity|]. cbn [fpow]. rewrite IH. ring. Qed.

(** At every point of the domain the result is zero, whatever the values. *)
Theorem c45_domain k fs s poly i : settings k fs -> (s <= k)%nat -> length poly = (2 ^ (k - s))%nat ->
  EvaluatePolyInEvaluationForm poly (fpow (root (k - s)) i) (firstn (MaxWidth fs) (Expanded fs)) s = Ret 0.
Proof.
  intros S Ls L. destruct (settings_ok _ _ S) as (K & O).
  assert (P : prim (root (k - s)) (k - s)) by (apply rootk_prim; lia).
  assert (R : root (k - s) = fpow (rootk k) (2 ^ s)).
  { rewrite <- (wj_root' k (k - s)) by lia. unfold wj. do 2 f_equal. lia. }
  assert (KS : (2 ^ k = 2 ^ (k - s) * 2 ^ s)%nat) by (rewrite <- Nat.pow_add_r; f_equal; lia).
  assert (S0 : (2 ^ s <> 0)%nat) by (apply Nat.pow_nonzero; lia).
  assert (LR : length (firstn (MaxWidth fs) (Expanded fs)) = (2 ^ k)%nat).
  { rewrite firstn_length, (fo_exp_length _ _ _ O), (fo_width _ _ _ O). lia. }
  rewrite (EvaluatePolyInEvaluationForm_form poly _ _ s (fun i => fpow (root (k - s)) i)).
  - f_equal. rewrite L. rewrite <- fpow_mul. rewrite (Nat.mul_comm i), fpow_mul, (prim_one _ _ P), one_pow. ring.
  - rewrite LR, KS, Nat.div_mul by exact S0. exact L.
  - intros m Hm. rewrite (fo_width _ _ _ O). rewrite nth_firstn'.
    + rewrite (fo_exp_nth _ _ _ _ O).
      * rewrite R, <- fpow_mul. f_equal. lia.
      * rewrite KS. apply Nat.mul_le_mono_r. lia.
    + rewrite KS. apply Nat.mul_lt_mono_pos_r; lia.
Qed.
Print Assumptions c45_domain.

Example c45_demo_domain : exists fs, settings 3 fs /\
  EvaluatePolyInEvaluationForm [of_nat 5; of_nat 5; of_nat 5; of_nat 5] (fpow (root 2) 3) (firstn (MaxWidth fs) (Expanded fs)) 1 = Ret 0.
Proof.
  destruct (c38_settings 3 ltac:(lia)) as (fs & S). exists fs. split; [exact S|].
  apply (c45_domain 3 fs 1 _ 3 S); [lia|reflexivity].
Qed.

(** ** C46 *)

(** One coefficient is too few for every variant. *)
Theorem c46_constant fs x c : FK20Single fs x [c] = Panic /\ FK20SingleDAOptimized fs x [c; 0] = Panic /\ DAUsingFK20 fs x [c] = Panic.
Proof.
  assert (A : FK20SingleDAOptimized fs x [c; 0] = Panic).
  { unfold FK20SingleDAOptimized. cbn [length]. destruct (_ <? _)%nat; [reflexivity|]. change (IsPowerOfTwo (Z.of_nat 2)) with true.
    cbn [negb]. change (2 / 2)%nat with 1%nat. cbn [skipn forallb firstn]. rewrite (proj2 (feqb_eq 0 0) eq_refl). cbn [andb negb].
    rewrite one_coeff. reflexivity. }
  split; [unfold FK20Single; rewrite one_coeff; reflexivity|]. split; [exact A|].
  unfold DAUsingFK20. cbn [length]. destruct (_ <? _)%nat; [reflexivity|]. change (IsPowerOfTwo (Z.of_nat 1)) with true. cbn [negb].
  cbn [app repeat]. rewrite A. reflexivity.
Qed.
Print Assumptions c46_constant.

(** Settings of another size than twice the number of coefficients make every variant panic. *)
Theorem c46_other_size fs x p : (2 <= length p)%nat -> length x <> (2 * length p)%nat ->
  FK20Single fs x p = Panic /\ FK20SingleDAOptimized fs x (p ++ repeat 0 (length p)) = Panic /\ DAUsingFK20 fs x p = Panic.
Proof.
  intros L H.
  assert (A : FK20SingleDAOptimized fs x (p ++ repeat 0 (length p)) = Panic).
  { unfold FK20SingleDAOptimized. rewrite app_length, repeat_length. destruct (_ <? _)%nat; [reflexivity|].
    destruct (IsPowerOfTwo _); cbn [negb]; [|reflexivity].
    replace ((length p + length p) / 2)%nat with (length p) by
      (replace (length p + length p)%nat with (length p * 2)%nat by lia; symmetry; apply Nat.div_mul; lia).
    destruct (forallb _ _); cbn [negb]; [|reflexivity]. rewrite firstn_app, Nat.sub_diag, firstn_all, firstn_O, app_nil_r.
    rewrite step_strided by (intros ->; cbn in L; lia).
    destruct (strided_ok p (length p) 1 0) as (c & Ec & Hc & _); [lia|exact L|lia|]. rewrite Ec. cbn [bind].
    unfold ToeplitzPart2. rewrite Hc. rewrite (proj2 (Nat.eqb_neq (2 * length p) (length x))) by lia. reflexivity. }
  split; [|split; [exact A|]].
  - unfold FK20Single. rewrite step_strided by (intros ->; cbn in L; lia).
    destruct (strided_ok p (length p) 1 0) as (c & Ec & Hc & _); [lia|exact L|lia|]. rewrite Ec. cbn [bind].
    unfold ToeplitzPart2. rewrite Hc. rewrite (proj2 (Nat.eqb_neq (2 * length p) (length x))) by lia. reflexivity.
  - unfold DAUsingFK20. destruct (_ <? _)%nat; [reflexivity|]. destruct (IsPowerOfTwo _); cbn [negb]; [|reflexivity].
    rewrite A. reflexivity.
Qed.
Print Assumptions c46_other_size.

Example c46_demo_other_size fs : FK20Single fs (repeat GenG1 4) [of_nat 1; of_nat 2; of_nat 3; of_nat 4] = Panic.
Proof. apply c46_other_size; cbn; lia. Qed.
