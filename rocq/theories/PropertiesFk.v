(** Multi-openings and the FK20 procedures: C16, C46, C58. *)

Require Import ZArith List Bool Arith Lia.
From Verif Require Import Prime Fr CodecModel GoBase Poly PolyModel PolyProofs GroupModel KzgModel KzgProofs VssModel VssProofs
  FftModel FftProofs FftProofs2 FftG1 ReverseModel ReverseProofs PropertiesFft SampleModel FkModel FkProofs FkProofs2 FkProofs3.
Import ListNotations.
Local Open Scope F_scope.

(** [value] is the sum of the coefficients times the powers (PropertiesFft.v); [root j] is the tabulated root of order 2^j. *)
Definition root (j : nat) : Fr := nth j Scale2RootOfUnity 0.

Lemma root_wj k j : (j <= k)%nat -> (k <= 31)%nat -> wj (rootk k) k j = root j.
Proof. exact (wj_root k j). Qed.

(** The values of [p] on the coset of [x]. *)
Definition on_coset (p : list Fr) (x : Fr) (j : nat) : list Fr := map (fun i => value p (x * fpow (root j) i)) (seq 0 (2 ^ j)).

(** ** C16 *)

(** What the verifier tests: for every polynomial I with fewer than n+1 coefficients that takes the claimed values on the
    coset, commitment and proof satisfy C - I(s) = proof * (s^n - x^n). *)
Theorem c16_check k fs s len ks j C w x ys I : settings k fs -> setup s len = Ret ks -> (j <= k)%nat -> (2 ^ j < len)%nat ->
  x <> 0 -> length ys = (2 ^ j)%nat -> (length I <= 2 ^ j)%nat ->
  (forall i, (i < 2 ^ j)%nat -> value I (x * fpow (root j) i) = nth i ys 0) ->
  exists b, CheckProofMulti fs ks C w x ys = Ret b /\
  (b = true <-> SubG1 C (MulG1 GenG1 (value I s)) = MulG1 w (fpow s (2 ^ j) - fpow x (2 ^ j))).
Proof.
  intros S HS Hj HL Hx L LI HI. destruct (settings_ok k fs S) as (K & OK).
  destruct (check_multi fs k _ OK s len ks C w x ys j HS Hj L HL) as (b & E & H). exists b. split; [exact E|]. rewrite H.
  rewrite <- (interp_unique fs k _ OK j x ys I Hj Hx L LI).
  - rewrite <- value_peval. unfold SubG1, MulG1, GenG1. cbn [dlog1]. replace (1 * peval I s) with (peval I s) by ring. split.
    + intros Q. rewrite Q. reflexivity.
    + intros Q. exact (f_equal dlog1 Q).
  - intros i Hi. rewrite root_wj by assumption. rewrite value_peval. apply HI. exact Hi.
Qed.
Print Assumptions c16_check.

(** Such a polynomial always exists. *)
Theorem c16_interpolant j x ys : (j <= 31)%nat -> x <> 0 -> length ys = (2 ^ j)%nat ->
  exists I, length I = (2 ^ j)%nat /\ forall i, (i < 2 ^ j)%nat -> value I (x * fpow (root j) i) = nth i ys 0.
Proof.
  intros Hj Hx L. destruct (c38_settings 31 (le_n 31)) as (fs & S). destruct (settings_ok 31 fs S) as (_ & OK).
  exists (interp 31 (rootk 31) j x ys). split; [apply length_interp|]. intros i Hi.
  rewrite <- (root_wj 31 j Hj (le_n 31)), <- value_peval. exact (interp_value fs 31 _ OK j x ys i Hj Hx L Hi).
Qed.
Print Assumptions c16_interpolant.

(** The verifier is complete: if p = q (X^n - x^n) + r with fewer than n+1 coefficients in r, the commitment to q is
    accepted with the true values of p. *)
Theorem c16_verifier k fs s len ks j p q r x : settings k fs -> setup s len = Ret ks -> (j <= k)%nat -> (2 ^ j < len)%nat -> x <> 0 ->
  (length p <= len)%nat -> (length q <= len)%nat -> (length r <= 2 ^ j)%nat ->
  (forall z, value p z = value q z * (fpow z (2 ^ j) - fpow x (2 ^ j)) + value r z) ->
  exists C w, CommitToPoly ks p = Ret C /\ CommitToPoly ks q = Ret w /\ CheckProofMulti fs ks C w x (on_coset p x j) = Ret true.
Proof.
  intros S HS Hj HL Hx Lp Lq Lr H. destruct (settings_ok k fs S) as (K & OK).
  exists (mkG1 (peval p s)), (mkG1 (peval q s)). split; [exact (commit_correct s len ks HS p Lp)|].
  split; [exact (commit_correct s len ks HS q Lq)|].
  destruct (c16_check k fs s len ks j (mkG1 (peval p s)) (mkG1 (peval q s)) x (on_coset p x j) r S HS Hj HL Hx) as (b & E & Q).
  - unfold on_coset. rewrite map_length, seq_length. reflexivity.
  - exact Lr.
  - intros i Hi. unfold on_coset. rewrite nth_map_seq by exact Hi. cbn [plus]. rewrite H.
    assert (P : fpow (root j) (2 ^ j) = 1) by (apply (c38_roots j); lia).
    rewrite fpow_mul_base, <- (fpow_mul (root j)), Nat.mul_comm, fpow_mul, P, fpow_1_l. ring.
  - rewrite E. f_equal. apply Q. unfold SubG1, MulG1, GenG1. cbn [dlog1]. f_equal. rewrite !value_peval, H. ring.
Qed.
Print Assumptions c16_verifier.

(** Soundness for committed polynomials: if the commitment to [q] is accepted with a wrong value, the secret is a root of
    a nonzero polynomial known to the prover. *)
Theorem c16_binding k fs s len ks j p q x ys C w i : settings k fs -> setup s len = Ret ks -> (j <= k)%nat -> (2 ^ j < len)%nat -> x <> 0 ->
  length ys = (2 ^ j)%nat -> (length p <= len)%nat -> (length q <= len)%nat ->
  CommitToPoly ks p = Ret C -> CommitToPoly ks q = Ret w -> CheckProofMulti fs ks C w x ys = Ret true ->
  (i < 2 ^ j)%nat -> nth i ys 0 <> value p (x * fpow (root j) i) ->
  exists f, value f s = 0 /\ value f (x * fpow (root j) i) <> 0 /\
  exists I, (length I <= 2 ^ j)%nat /\ (forall i, (i < 2 ^ j)%nat -> value I (x * fpow (root j) i) = nth i ys 0) /\
  forall z, value f z = value p z - value I z - value q z * (fpow z (2 ^ j) - fpow x (2 ^ j)).
Proof.
  intros S HS Hj HL Hx L Lp Lq EC Ew HC Hi Ne. destruct (settings_ok k fs S) as (K & OK).
  destruct (c16_interpolant j x ys ltac:(lia) Hx L) as (I & LI & HI).
  assert (P : fpow (root j) (2 ^ j) = 1) by (apply (c38_roots j); lia).
  rewrite (commit_correct s len ks HS p Lp) in EC. injection EC as <-.
  rewrite (commit_correct s len ks HS q Lq) in Ew. injection Ew as <-.
  set (n := (2 ^ j)%nat) in *. set (xn := fpow x n).
  set (f := psub (psub p I) (pmul q (psub (repeat 0 n ++ [1]) [xn]))).
  assert (F : forall z, value f z = value p z - value I z - value q z * (fpow z n - xn)).
  { intros z. rewrite <- !value_peval. unfold f. rewrite !peval_psub, peval_pmul, peval_psub, peval_app, peval_repeat0, repeat_length.
    cbn [peval]. ring. }
  exists f. split; [|split].
  - destruct (c16_check k fs s len ks j (mkG1 (peval p s)) (mkG1 (peval q s)) x ys I S HS Hj HL Hx L ltac:(lia) HI) as (b & E & Q).
    rewrite HC in E. injection E as <-. destruct Q as (Q & _). specialize (Q eq_refl).
    apply (f_equal dlog1) in Q. unfold SubG1, MulG1, GenG1 in Q. cbn [dlog1] in Q.
    rewrite F. rewrite <- value_peval in Q. rewrite <- !value_peval. fold n in Q. fold xn in Q. clearbody xn n.
    transitivity ((peval p s - 1 * peval I s) - peval q s * (fpow s n - xn)); [ring|]. rewrite Q. ring.
  - rewrite F, (HI i Hi). rewrite fpow_mul_base, <- (fpow_mul (root j)), (Nat.mul_comm i n), (fpow_mul (root j) n i), P, fpow_1_l.
    intros Q. apply Ne. apply (proj1 (fsub_eq_0 _ _)).
    transitivity (fopp (value p (x * fpow (root j) i) - nth i ys 0 - value q (x * fpow (root j) i) * (fpow x n * 1 - xn)));
      [unfold xn; ring|]. rewrite Q. ring.
  - exists I. split; [lia|]. split; [exact HI|exact F].
Qed.
Print Assumptions c16_binding.

(** The prover: the point x plays no part; its proof is the commitment to the coefficients from the n-th on. *)
Theorem c16_prover s len ks p x n : setup s len = Ret ks -> (length p <= len)%nat ->
  if (length p <? n)%nat then ComputeProofMulti ks p x n = Panic
  else ComputeProofMulti ks p x n = CommitToPoly ks (skipn n p).
Proof.
  intros HS L. destruct (Nat.ltb_spec (length p) n) as [A|A]; [apply prover_short; exact A|].
  rewrite (prover_ok s len ks p x n HS A) by lia. symmetry. apply (commit_correct s len ks HS). rewrite skipn_length. lia.
Qed.
Print Assumptions c16_prover.

(** So it is accepted for polynomials of n to 2n coefficients.  Longer ones and
    ones shorter than n fail (below and above). *)
Theorem c16_complete k fs s len ks j p x : settings k fs -> setup s len = Ret ks -> (j <= k)%nat -> (2 ^ j < len)%nat -> x <> 0 ->
  (2 ^ j <= length p)%nat -> (length p <= 2 * 2 ^ j)%nat -> (length p <= len)%nat ->
  exists C w, CommitToPoly ks p = Ret C /\ ComputeProofMulti ks p x (2 ^ j) = Ret w /\
    CheckProofMulti fs ks C w x (on_coset p x j) = Ret true.
Proof.
  intros S HS Hj HL Hx L1 L2 L3. set (n := (2 ^ j)%nat) in *.
  set (r := padd (firstn n p) (pscale (fpow x n) (skipn n p))).
  destruct (c16_verifier k fs s len ks j p (skipn n p) r x S HS Hj HL Hx L3) as (C & w & E1 & E2 & E3).
  - rewrite skipn_length. lia.
  - unfold r. rewrite length_padd, length_pscale, firstn_length, skipn_length. fold n. lia.
  - intros z. fold n. rewrite <- !value_peval. unfold r. rewrite peval_padd, peval_pscale.
    rewrite <- (firstn_skipn n p) at 1. rewrite peval_app, firstn_length. replace (Nat.min n (length p)) with n by lia. ring.
  - exists C, w. split; [exact E1|]. split; [|exact E3].
    pose proof (c16_prover s len ks p x n HS L3) as Q. rewrite (proj2 (Nat.ltb_ge (length p) n)) in Q by lia. rewrite Q. exact E2.
Qed.
Print Assumptions c16_complete.

(** Beyond that it fails: X^2 opened at 1, whatever the secret (unless the secret is 1). *)
Theorem c16_complete_refuted k fs s len ks : settings k fs -> setup s len = Ret ks -> (3 <= len)%nat -> s <> 1 ->
  exists p x C w, x <> 0 /\ (length p <= len)%nat /\ CommitToPoly ks p = Ret C /\ ComputeProofMulti ks p x (2 ^ 0) = Ret w /\
  CheckProofMulti fs ks C w x (on_coset p x 0) = Ret false.
Proof.
  intros S HS HL Hs. exists [0; 0; 1], 1, (mkG1 (peval [0; 0; 1] s)), (mkG1 (peval [0; 1] s)).
  split; [exact f1_neq_0|]. split; [exact HL|]. split; [apply (commit_correct s len ks HS); exact HL|]. split.
  - change (2 ^ 0)%nat with 1%nat. exact (prover_ok s len ks [0; 0; 1] 1 1 HS ltac:(cbn [length]; lia) ltac:(cbn [length]; lia)).
  - destruct (c16_check k fs s len ks 0 (mkG1 (peval [0; 0; 1] s)) (mkG1 (peval [0; 1] s)) 1 (on_coset [0; 0; 1] 1 0) [1] S HS) as (b & E & Q).
    + lia.
    + change (2 ^ 0)%nat with 1%nat. lia.
    + exact f1_neq_0.
    + reflexivity.
    + reflexivity.
    + intros i Hi. change (2 ^ 0)%nat with 1%nat in Hi. assert (i = 0%nat) by lia. subst i.
      unfold on_coset. change (2 ^ 0)%nat with 1%nat. cbn [seq map nth]. rewrite <- !value_peval. cbn [peval fpow]. ring.
    + rewrite E. destruct b; [|reflexivity]. exfalso. apply Hs. destruct Q as (Q & _). specialize (Q eq_refl).
      apply (f_equal dlog1) in Q. unfold SubG1, MulG1, GenG1 in Q. cbn [dlog1] in Q. rewrite <- value_peval in Q.
      change (2 ^ 0)%nat with 1%nat in Q. cbn [peval fpow] in Q. apply (proj1 (fsub_eq_0 _ _)).
      transitivity ((0 + s * (0 + s * (1 + s * 0)) - 1 * (1 + s * 0)) - (0 + s * (1 + s * 0)) * (s * 1 - 1 * 1)); [ring|].
      rewrite Q. ring.
Qed.
Print Assumptions c16_complete_refuted.

(** A coset of four points of a polynomial of eight coefficients meets the hypotheses of the partial theorem. *)
Example c16_demo : exists fs ks, settings 4 fs /\ setup (of_nat 77) 20 = Ret ks /\
  exists C w, CommitToPoly ks demo_vals = Ret C /\ ComputeProofMulti ks demo_vals (of_nat 7) (2 ^ 2) = Ret w /\
    CheckProofMulti fs ks C w (of_nat 7) (on_coset demo_vals (of_nat 7) 2) = Ret true.
Proof.
  destruct (c38_settings 4) as (fs & S); [lia|]. exists fs. eexists. split; [exact S|]. split; [apply setup_correct|].
  apply (c16_complete 4 fs (of_nat 77) 20); try exact S; try apply setup_correct; try (cbn; lia).
  intros E. apply (f_equal fv) in E. vm_compute in E. discriminate E.
Qed.

(** ** C46 *)

(** [rev_index b i j]: the b low bits of j are those of i in reverse. *)
Definition rev_index (b i j : nat) : Prop := forall t, (t < b)%nat -> Nat.testbit j t = Nat.testbit i (b - 1 - t).

Lemma testbit_Z a n : Nat.testbit a n = Z.testbit (Z.of_nat a) (Z.of_nat n).
Proof.
  rewrite Nat.testbit_eqb, Z.testbit_eqb by lia. change 2%Z with (Z.of_nat 2). rewrite <- Nat2Z.inj_pow, <- Nat2Z.inj_div, <- Nat2Z.inj_mod.
  change 1%Z with (Z.of_nat 1). destruct (Nat.eqb_spec ((a / 2 ^ n) mod 2) 1) as [E|E].
  - rewrite E. reflexivity.
  - symmetry. apply Z.eqb_neq. lia.
Qed.

Lemma rev_index_revn b i j : (b <= 31)%nat -> (i < 2 ^ b)%nat -> (j < 2 ^ b)%nat -> rev_index b i j -> j = revn b i.
Proof.
  intros B Hi Hj H. apply Nat.bits_inj. intros t. destruct (Nat.lt_ge_cases t b) as [A|A].
  - rewrite H by exact A. unfold revn.
    rewrite !testbit_Z, Z2Nat.id by (apply revk_range; lia).
    rewrite revk_bit by lia. rewrite (proj2 (Z.ltb_lt (Z.of_nat t) (Z.of_nat b))) by lia. cbn [andb]. f_equal. lia.
  - pose proof (revn_lt b i ltac:(lia)) as R. 
    assert (G : forall m, (m < 2 ^ b)%nat -> Nat.testbit m t = false).
    { intros m Hm. rewrite Nat.testbit_eqb. rewrite Nat.div_small; [reflexivity|]. pose proof (pow2_le b t A). lia. }
    rewrite !G by assumption. reflexivity.
Qed.

(** Settings for twice the size exist, and the i-th result is the proof made for the i-th power of the root by itself. *)
Theorem c46_single k fs s len ks m p : settings k fs -> setup s len = Ret ks -> (1 <= m)%nat -> (S m <= k)%nat ->
  length p = (2 ^ m)%nat -> (2 ^ m - 1 <= len)%nat ->
  exists x proofs, NewFK20SingleSettings fs ks (2 ^ S m) = Ret x /\ FK20Single fs x p = Ret proofs /\ length proofs = (2 ^ m)%nat /\
  forall i, (i < 2 ^ m)%nat -> ComputeProofSingle ks p (fpow (root m) i) = Ret (nth i proofs ZeroG1).
Proof.
  intros S HS M1 MK L HL. destruct (settings_ok k fs S) as (K & OK). pose proof (Nat.pow_nonzero 2 m) as NZ.
  assert (NE : p <> []) by (intros ->; cbn in L; lia).
  eexists. eexists. split; [exact (single_settings_ok fs k _ OK s len ks m HS MK HL)|].
  split; [exact (FK20Single_ok fs k _ OK s p m MK M1 L)|]. split; [rewrite map_length, seq_length; reflexivity|].
  intros i Hi. rewrite nth_map_seq by exact Hi. cbn [plus]. rewrite root_wj by lia. rewrite <- L, quot_sdiv by exact NE.
  apply (proof_correct s len ks HS); [exact NE|lia].
Qed.
Print Assumptions c46_single.

(** The variant for data availability: all proofs on the domain of twice the size. *)
Theorem c46_extended k fs s len ks m p : settings k fs -> setup s len = Ret ks -> (1 <= m)%nat -> (S m <= k)%nat ->
  length p = (2 ^ m)%nat -> (2 ^ m - 1 <= len)%nat ->
  exists x proofs, NewFK20SingleSettings fs ks (2 ^ S m) = Ret x /\
  FK20SingleDAOptimized fs x (p ++ repeat 0 (2 ^ m)) = Ret proofs /\ length proofs = (2 ^ S m)%nat /\
  forall i, (i < 2 ^ S m)%nat -> ComputeProofSingle ks p (fpow (root (S m)) i) = Ret (nth i proofs ZeroG1).
Proof.
  intros S HS M1 MK L HL. destruct (settings_ok k fs S) as (K & OK). pose proof (Nat.pow_nonzero 2 m) as NZ.
  assert (NE : p <> []) by (intros ->; cbn in L; lia).
  eexists. eexists. split; [exact (single_settings_ok fs k _ OK s len ks m HS MK HL)|].
  split; [exact (FK20SingleDA_ok fs k _ OK s p m MK M1 L)|]. split; [rewrite map_length, seq_length; reflexivity|].
  intros i Hi. rewrite nth_map_seq by exact Hi. cbn [plus]. rewrite root_wj by lia. rewrite <- L, quot_sdiv by exact NE.
  apply (proof_correct s len ks HS); [exact NE|lia].
Qed.
Print Assumptions c46_extended.

(** DAUsingFK20 gives the same proofs in bit-reversed order. *)
Theorem c46_reversed k fs s len ks m p : settings k fs -> setup s len = Ret ks -> (1 <= m)%nat -> (S m <= k)%nat ->
  length p = (2 ^ m)%nat -> (2 ^ m - 1 <= len)%nat ->
  exists x proofs, NewFK20SingleSettings fs ks (2 ^ S m) = Ret x /\ DAUsingFK20 fs x p = Ret proofs /\ length proofs = (2 ^ S m)%nat /\
  forall i j, (i < 2 ^ S m)%nat -> (j < 2 ^ S m)%nat -> rev_index (S m) i j ->
    ComputeProofSingle ks p (fpow (root (S m)) j) = Ret (nth i proofs ZeroG1).
Proof.
  intros S HS M1 MK L HL. destruct (settings_ok k fs S) as (K & OK).
  destruct (c46_extended k fs s len ks m p S HS M1 MK L HL) as (x & pr & Ex & Ep & Lp & Hp).
  destruct (c40_vector ZeroG1 pr (Datatypes.S m) ltac:(lia) Lp) as (out & Er & _ & _ & _).
  exists x, out. split; [exact Ex|].
  assert (D : DAUsingFK20 fs x p = Ret out).
  { unfold DAUsingFK20. rewrite L, (fo_width _ _ _ OK).
    assert (Q : (2 ^ m <= 2 ^ k / 2)%nat).
    { rewrite <- (half_pow m). apply Nat.div_le_mono; [lia|]. apply pow2_le. exact MK. }
    rewrite (proj2 (Nat.ltb_ge (2 ^ k / 2) (2 ^ m))) by exact Q. rewrite pow2_test by lia. cbn [negb]. rewrite Ep. exact Er. }
  split; [exact D|]. unfold reverseBitOrderOf in Er.
  assert (R : out = map (fun i => nth (revn (Datatypes.S m) i) pr ZeroG1) (seq 0 (2 ^ Datatypes.S m))).
  { pose proof (reverseBitOrder_ok ZeroG1 pr (Datatypes.S m) ltac:(lia) Lp) as Q.
    destruct (2 ^ 31 <? Z.of_nat (length pr))%Z; [discriminate Er|]. rewrite Q in Er. injection Er as <-. reflexivity. }
  split; [rewrite R, map_length, seq_length; reflexivity|].
  intros i j Hi Hj HR. rewrite R, nth_map_seq by exact Hi. cbn [plus].
  rewrite <- (rev_index_revn (Datatypes.S m) i j) by (try assumption; lia). apply Hp. exact Hj.
Qed.
Print Assumptions c46_reversed.

(** Each of these proofs is accepted with the value of the polynomial there. *)
Theorem c46_accepted k fs s len ks m p : settings k fs -> setup s len = Ret ks -> (1 <= m)%nat -> (S m <= k)%nat ->
  length p = (2 ^ m)%nat -> (2 ^ m <= len)%nat ->
  exists C x proofs, CommitToPoly ks p = Ret C /\ NewFK20SingleSettings fs ks (2 ^ S m) = Ret x /\ FK20Single fs x p = Ret proofs /\
  forall i, (i < 2 ^ m)%nat ->
    CheckProofSingle ks C (nth i proofs ZeroG1) (fpow (root m) i) (value p (fpow (root m) i)) = Ret true.
Proof.
  intros S HS M1 MK L HL. destruct (c46_single k fs s len ks m p S HS M1 MK L ltac:(lia)) as (x & pr & Ex & Ep & Lp & Hp).
  pose proof (pow2_le 1 m M1) as P2. change (2 ^ 1)%nat with 2%nat in P2.
  exists (mkG1 (peval p s)), x, pr. split; [apply (commit_correct s len ks HS); lia|]. split; [exact Ex|]. split; [exact Ep|].
  intros i Hi. assert (NE : p <> []) by (intros ->; cbn in L; lia).
  destruct (kzg_complete s len ks HS p (fpow (root m) i)) as (C & w & E1 & E2 & E3); [lia|exact NE|lia|].
  rewrite (commit_correct s len ks HS) in E1 by lia. injection E1 as <-. rewrite (Hp i Hi) in E2. injection E2 as <-.
  rewrite <- value_peval. exact E3.
Qed.
Print Assumptions c46_accepted.

(** Sizes the procedure does not take: one coefficient, and settings of another size. *)
Theorem c46_constant_refuted : exists p : list Fr, p <> [] /\ forall fs x, FK20Single fs x p = Panic.
Proof. exists [1]. split; [discriminate|]. intros fs x. unfold FK20Single. rewrite one_coeff. reflexivity. Qed.
Print Assumptions c46_constant_refuted.

Theorem c46_wrong_size fs x p : (2 <= length p)%nat -> length x <> (2 * length p)%nat -> FK20Single fs x p = Panic.
Proof.
  intros L H. unfold FK20Single. rewrite step_strided by (intros ->; cbn in L; lia).
  destruct (strided_ok p (length p) 1 0) as (c & Ec & Hc & _); [lia|exact L|lia|]. rewrite Ec. cbn [bind].
  unfold ToeplitzPart2. rewrite Hc. rewrite (proj2 (Nat.eqb_neq (2 * length p) (length x))) by lia. reflexivity.
Qed.
Print Assumptions c46_wrong_size.

Example c46_demo : exists fs ks x proofs, settings 4 fs /\ setup (of_nat 77) 20 = Ret ks /\
  NewFK20SingleSettings fs ks 16 = Ret x /\ FK20Single fs x demo_vals = Ret proofs /\
  ComputeProofSingle ks demo_vals (fpow (root 3) 5) = Ret (nth 5 proofs ZeroG1).
Proof.
  destruct (c38_settings 4) as (fs & S); [lia|].
  destruct (c46_single 4 fs (of_nat 77) 20 _ 3 demo_vals S (setup_correct _ _)) as (x & pr & E1 & E2 & _ & H); try (cbn; lia).
  exists fs. eexists. exists x, pr. split; [exact S|]. split; [apply setup_correct|]. split; [exact E1|]. split; [exact E2|].
  apply H. cbn. lia.
Qed.

(** ** C58 *)

(** Multi-proofs of the data-availability variant: the i-th is the commitment to the quotient by X^l - w^i, where l is
    the chunk length and w the root of order twice the number of chunks ... *)
Theorem c58_quotients k fs s len ks a b p : settings k fs -> setup s len = Ret ks -> (1 <= a)%nat -> (S (a + b) <= k)%nat ->
  length p = (2 ^ (a + b))%nat -> (2 ^ (a + b) - 2 ^ b <= len)%nat ->
  exists files proofs, NewFK20MultiSettings fs ks (2 ^ S (a + b)) (2 ^ b) = Ret files /\
  FK20MultiDAOptimized fs files (2 ^ b) (p ++ repeat 0 (2 ^ (a + b))) = Ret proofs /\ length proofs = (2 ^ S a)%nat /\
  forall i, (i < 2 ^ S a)%nat -> exists q r,
    (length q <= 2 ^ (a + b) - 2 ^ b)%nat /\ (length r <= 2 ^ b)%nat /\
    (forall z, value p z = value q z * (fpow z (2 ^ b) - fpow (root (S a)) i) + value r z) /\
    CommitToPoly ks q = Ret (nth i proofs ZeroG1).
Proof.
  intros S HS A1 AK L HL. destruct (settings_ok k fs S) as (K & OK). pose proof (Nat.pow_nonzero 2 a) as NZ.
  assert (LP : length p = (2 ^ a * 2 ^ b)%nat) by (rewrite L; apply Nat.pow_add_r).
  eexists. eexists. split; [exact (multi_settings_ok fs k _ OK s len ks a b HS AK HL)|].
  split; [exact (FK20MultiDA_ok fs k _ OK s p a b AK A1 L)|]. split; [rewrite map_length, seq_length; reflexivity|].
  intros i Hi. rewrite nth_map_seq by exact Hi. cbn [plus]. rewrite root_wj by lia. set (z := fpow (root (Datatypes.S a)) i).
  exists (qpoly (2 ^ b) p (2 ^ a) z), (rpoly (2 ^ b) p (2 ^ a) z).
  split; [unfold qpoly; rewrite map_length, seq_length; lia|]. split; [unfold rpoly; rewrite map_length, seq_length; lia|]. split.
  - intros y. rewrite <- !value_peval, (qpoly_eval _ _ _ _ _ LP). apply quot_identity; [lia|exact LP].
  - rewrite (commit_correct s len ks HS) by (unfold qpoly; rewrite map_length, seq_length; lia).
    rewrite (qpoly_eval _ _ _ _ _ LP). reflexivity.
Qed.
Print Assumptions c58_quotients.

(** ... and it is accepted for the values of the polynomial on the i-th coset, that of any x whose l-th power is w^i. *)
Theorem c58_accepted k fs s len ks a b p : settings k fs -> setup s len = Ret ks -> (1 <= a)%nat -> (S (a + b) <= k)%nat ->
  length p = (2 ^ (a + b))%nat -> (2 ^ (a + b) <= len)%nat ->
  exists C files proofs, CommitToPoly ks p = Ret C /\ NewFK20MultiSettings fs ks (2 ^ S (a + b)) (2 ^ b) = Ret files /\
  FK20MultiDAOptimized fs files (2 ^ b) (p ++ repeat 0 (2 ^ (a + b))) = Ret proofs /\
  forall i x, (i < 2 ^ S a)%nat -> fpow x (2 ^ b) = fpow (root (S a)) i ->
    CheckProofMulti fs ks C (nth i proofs ZeroG1) x (on_coset p x b) = Ret true.
Proof.
  intros S HS A1 AK L HL. pose proof (Nat.pow_nonzero 2 b) as NZ.
  destruct (c58_quotients k fs s len ks a b p S HS A1 AK L ltac:(lia)) as (files & pr & E1 & E2 & _ & H).
  assert (LB : (2 ^ b < 2 ^ (a + b))%nat).
  { rewrite Nat.pow_add_r. pose proof (pow2_le 1 a A1) as P2. change (2 ^ 1)%nat with 2%nat in P2.
    assert (2 * 2 ^ b <= 2 ^ a * 2 ^ b)%nat by (apply Nat.mul_le_mono_r; exact P2). lia. }
  destruct (settings_ok k fs S) as (K & _).
  exists (mkG1 (peval p s)), files, pr. split; [apply (commit_correct s len ks HS); lia|]. split; [exact E1|]. split; [exact E2|].
  intros i x Hi Hx. destruct (H i Hi) as (q & r & Lq & Lr & Hq & Hc).
  destruct (c16_verifier k fs s len ks b p q r x S HS) as (C & w & C1 & C2 & C3); try assumption; try lia.
  - intros ->. assert (W : prim (root (Datatypes.S a)) (Datatypes.S a)) by (apply (rootk_prim (Datatypes.S a)); lia).
    apply (fpow_neq_0 (root (Datatypes.S a)) i).
    + exact (prim_neq_0 _ _ W).
    + rewrite <- Hx. destruct (2 ^ b)%nat as [|t] eqn:Et; [lia|]. cbn [fpow]. ring.
  - rewrite Hx. exact Hq.
  - rewrite (commit_correct s len ks HS) in C1 by lia. injection C1 as <-. rewrite Hc in C2. injection C2 as <-. exact C3.
Qed.
Print Assumptions c58_accepted.

(** The i-th power of the root of the whole extended domain is such an x. *)
Theorem c58_cosets a b i : (S (a + b) <= 31)%nat -> fpow (fpow (root (S (a + b))) i) (2 ^ b) = fpow (root (S a)) i.
Proof.
  intros H. rewrite <- fpow_mul, Nat.mul_comm, fpow_mul. f_equal.
  rewrite <- (root_wj (S (a + b)) (S a)) by lia. unfold wj. replace (S (a + b) - S a)%nat with b by lia. reflexivity.
Qed.
Print Assumptions c58_cosets.

(** DAUsingFK20Multi gives the same proofs in bit-reversed order. *)
Theorem c58_reversed k fs s len ks a b p : settings k fs -> setup s len = Ret ks -> (1 <= a)%nat -> (S (a + b) <= k)%nat ->
  length p = (2 ^ (a + b))%nat -> (2 ^ (a + b) - 2 ^ b <= len)%nat ->
  exists files proofs out, NewFK20MultiSettings fs ks (2 ^ S (a + b)) (2 ^ b) = Ret files /\
  FK20MultiDAOptimized fs files (2 ^ b) (p ++ repeat 0 (2 ^ (a + b))) = Ret proofs /\
  DAUsingFK20Multi fs files (2 ^ b) p = Ret out /\ length out = (2 ^ S a)%nat /\
  forall i j, (i < 2 ^ S a)%nat -> (j < 2 ^ S a)%nat -> rev_index (S a) i j -> nth i out ZeroG1 = nth j proofs ZeroG1.
Proof.
  intros S HS A1 AK L HL. destruct (settings_ok k fs S) as (K & OK).
  destruct (c58_quotients k fs s len ks a b p S HS A1 AK L HL) as (files & pr & E1 & E2 & Lp & _).
  destruct (c40_vector ZeroG1 pr (Datatypes.S a) ltac:(lia) Lp) as (out & Er & _ & _ & _).
  exists files, pr, out. split; [exact E1|]. split; [exact E2|]. split.
  { unfold DAUsingFK20Multi. rewrite L, (fo_width _ _ _ OK).
    assert (Q : (2 ^ (a + b) <= 2 ^ k / 2)%nat).
    { rewrite <- (half_pow (a + b)). apply Nat.div_le_mono; [lia|]. apply pow2_le. exact AK. }
    rewrite (proj2 (Nat.ltb_ge (2 ^ k / 2) (2 ^ (a + b)))) by exact Q. rewrite pow2_test by lia. cbn [negb]. rewrite E2. exact Er. }
  unfold reverseBitOrderOf in Er.
  assert (R : out = map (fun i => nth (revn (Datatypes.S a) i) pr ZeroG1) (seq 0 (2 ^ Datatypes.S a))).
  { pose proof (reverseBitOrder_ok ZeroG1 pr (Datatypes.S a) ltac:(lia) Lp) as Q.
    destruct (2 ^ 31 <? Z.of_nat (length pr))%Z; [discriminate Er|]. rewrite Q in Er. injection Er as <-. reflexivity. }
  split; [rewrite R, map_length, seq_length; reflexivity|].
  intros i j Hi Hj HR. rewrite R, nth_map_seq by exact Hi. cbn [plus].
  rewrite <- (rev_index_revn (Datatypes.S a) i j) by (try assumption; lia). reflexivity.
Qed.
Print Assumptions c58_reversed.

(** With chunks of one coefficient FK20Multi is FK20Single; with longer chunks it panics on every polynomial, since the
    products are shorter than the array they are added to. *)
Theorem c58_unit_chunks k fs s len ks m p : settings k fs -> setup s len = Ret ks -> (1 <= m)%nat -> (S m <= k)%nat ->
  length p = (2 ^ m)%nat -> (2 ^ m - 1 <= len)%nat ->
  exists files proofs, NewFK20MultiSettings fs ks (2 ^ S m) 1 = Ret files /\ FK20Multi fs files 1 p = Ret proofs /\
  length proofs = (2 ^ m)%nat /\
  forall i, (i < 2 ^ m)%nat -> ComputeProofSingle ks p (fpow (root m) i) = Ret (nth i proofs ZeroG1).
Proof.
  intros S HS M1 MK L HL. destruct (settings_ok k fs S) as (K & OK).
  destruct (c46_single k fs s len ks m p S HS M1 MK L HL) as (x & pr & Ex & Ep & Lp & Hp).
  rewrite (single_settings_ok fs k _ OK s len ks m HS MK HL) in Ex. injection Ex as <-.
  exists [file k (rootk k) s m 1 0], pr. split; [|split; [|split; assumption]].
  - pose proof (multi_settings_ok fs k _ OK s len ks m 0 HS) as Q. change (2 ^ 0)%nat with 1%nat in Q. rewrite Nat.add_0_r in Q.
    exact (Q MK HL).
  - rewrite (FK20Multi_single fs k _ OK s p m MK M1 L). exact Ep.
Qed.
Print Assumptions c58_unit_chunks.

Theorem c58_multi_refuted k fs s len ks a b p : settings k fs -> setup s len = Ret ks -> (1 <= a)%nat -> (1 <= b)%nat -> (S (a + b) <= k)%nat ->
  length p = (2 ^ (a + b))%nat -> (2 ^ (a + b) - 2 ^ b <= len)%nat ->
  exists files, NewFK20MultiSettings fs ks (2 ^ S (a + b)) (2 ^ b) = Ret files /\ FK20Multi fs files (2 ^ b) p = Panic.
Proof.
  intros S HS A1 B1 AK L HL. destruct (settings_ok k fs S) as (K & OK).
  eexists. split; [exact (multi_settings_ok fs k _ OK s len ks a b HS AK HL)|].
  exact (FK20Multi_panics fs k _ s p a b OK AK A1 B1 L).
Qed.
Print Assumptions c58_multi_refuted.

(** A single chunk: the settings are made, the procedures panic. *)
Theorem c58_one_chunk_refuted k fs s len ks b p : settings k fs -> setup s len = Ret ks -> (S b <= k)%nat -> length p = (2 ^ b)%nat ->
  exists files, NewFK20MultiSettings fs ks (2 ^ S b) (2 ^ b) = Ret files /\
  FK20Multi fs files (2 ^ b) p = Panic /\ FK20MultiDAOptimized fs files (2 ^ b) (p ++ repeat 0 (2 ^ b)) = Panic.
Proof.
  intros S HS BK L. destruct (settings_ok k fs S) as (K & OK). pose proof (Nat.pow_nonzero 2 b) as NZ. pose proof (pow2_le _ _ BK) as LE.
  assert (E2 : (2 ^ b + 2 ^ b = 2 ^ Datatypes.S b)%nat) by (cbn [Nat.pow]; lia).
  assert (SF : forall files n, sum_files fs files (2 ^ b) p n = Panic).
  { intros files n. unfold sum_files. destruct (2 ^ b)%nat as [|t] eqn:Et; [lia|]. rewrite goloop_first. cbv beta.
    rewrite <- L, one_chunk_coeffs by lia. reflexivity. }
  eexists. split; [apply (multi_settings_ok fs k _ OK s len ks 0 b HS); cbn [plus]; [exact BK|lia]|]. split.
  - unfold FK20Multi. destruct (_ <? _)%nat; [reflexivity|]. rewrite SF. reflexivity.
  - unfold FK20MultiDAOptimized. rewrite app_length, repeat_length, L, E2, half_pow.
    destruct (_ <? _)%nat; [reflexivity|]. rewrite zeros_pass by exact L. cbn [negb].
    rewrite (proj2 (Nat.eqb_neq (2 ^ b) 0)) by lia. rewrite firstn_app, <- L, firstn_all, Nat.sub_diag, L. cbn [firstn].
    rewrite app_nil_r. rewrite SF. reflexivity.
Qed.
Print Assumptions c58_one_chunk_refuted.

Example c58_demo : exists fs ks C files proofs, settings 4 fs /\ setup (of_nat 77) 20 = Ret ks /\
  CommitToPoly ks demo_vals = Ret C /\ NewFK20MultiSettings fs ks 16 2 = Ret files /\
  FK20MultiDAOptimized fs files 2 (demo_vals ++ repeat 0 8) = Ret proofs /\
  CheckProofMulti fs ks C (nth 5 proofs ZeroG1) (fpow (root 4) 5) (on_coset demo_vals (fpow (root 4) 5) 1) = Ret true.
Proof.
  destruct (c38_settings 4) as (fs & S); [lia|].
  destruct (c58_accepted 4 fs (of_nat 77) 20 _ 2 1 demo_vals S (setup_correct _ _)) as (C & files & pr & E0 & E1 & E2 & H); try (cbn; lia).
  exists fs. eexists. exists C, files, pr. split; [exact S|]. split; [apply setup_correct|]. split; [exact E0|].
  split; [exact E1|]. split; [exact E2|]. apply H; [cbn; lia|]. exact (c58_cosets 2 1 5 ltac:(lia)).
Qed.
