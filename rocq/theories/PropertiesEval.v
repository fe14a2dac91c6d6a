(** C66: commitment to a polynomial given by its values. *)

Require Import ZArith List Bool Arith Lia.
From Verif Require Import Prime Fr CodecModel GoBase Poly PolyModel PolyProofs GroupModel KzgModel KzgProofs VssModel VssProofs
  FftModel FftProofs FftProofs2 FftG1 PropertiesFft.
Import ListNotations.
Local Open Scope F_scope.

Lemma nth_map_scale z l i : nth i (map (fun v => v * z) l) 0 = nth i l 0 * z.
Proof. revert i. induction l as [|a l IH]; intros [|i]; cbn; try ring. apply IH. Qed.

(** The transform and its inverse are adjoint. *)
Lemma dft_adjoint w j a c : prim w j -> (j <= 31)%nat -> length a = (2 ^ j)%nat -> length c = (2 ^ j)%nat ->
  dot (map (fun v => v * finv (of_nat (2 ^ j))) (dft (finv w) a)) (dft w c) = dot a c.
Proof.
  intros P J La Lc. rewrite !dot_nth by (rewrite ?map_length, ?length_dft; lia). rewrite map_length, length_dft, La.
  pose proof (dft_inv w j c P J Lc) as Q. set (n := (2 ^ j)%nat) in *.
  assert (Le : length (dft w c) = n) by (rewrite length_dft; exact Lc).
  revert Q Le. generalize (dft w c). intros e Q Le. rewrite <- Q. clear Q.
  transitivity (sumn n (fun i => sumn n (fun m => nth m a 0 * fpow (fpow (finv w) i) m * finv (of_nat n) * nth i e 0))).
  - apply sumn_ext. intros i Hi. rewrite nth_map_scale, nth_dft by lia. rewrite peval_sumn, La.
    rewrite <- !sumn_scale_r. reflexivity.
  - rewrite sumn_swap. apply sumn_ext. intros m Hm.
    rewrite nth_map_scale, nth_dft by lia. rewrite peval_sumn, Le.
    rewrite <- sumn_scale_r, <- sumn_scale_l. apply sumn_ext. intros i Hi.
    rewrite <- !fpow_mul, (Nat.mul_comm i m). ring.
Qed.

(** ** C66 *)

(** The setup prepared by the inverse transform, combined with all values of a polynomial at the roots of unity, is the
    commitment to the polynomial. *)
Theorem c66_commit k fs j s len ks sec coeffs eval : settings k fs -> (j <= k)%nat -> (2 ^ j <= len)%nat ->
  setup s len = Ret ks -> FFTG1 fs (firstn (2 ^ j) (SecretG1 ks)) true = Ret sec ->
  (length coeffs <= 2 ^ j)%nat -> (j = 0 \/ 2 ^ (j - 1) < length coeffs)%nat -> FFT fs coeffs false = Ret eval ->
  CommitToEvalPoly sec eval = CommitToPoly ks coeffs /\ CommitToEvalPoly sec eval = Ret (MulG1 GenG1 (value coeffs s)).
Proof.
  intros S J Ls HS HF Lc Dc HE. destruct (settings_ok _ _ S) as (K & O).
  pose proof (wj_prim _ _ _ (rootk_prim k K) J) as P. set (w := wj (rootk k) k j) in *.
  rewrite setup_correct in HS. injection HS as <-. cbn [SecretG1] in HF.
  assert (EP : firstn (2 ^ j) (g1powers s len) = map mkG1 (map (fpow s) (seq 0 (2 ^ j)))).
  { pose proof (slice_powers s len (2 ^ j) Ls) as Q. unfold slice_to in Q. rewrite length_g1powers, (proj2 (Nat.leb_le _ _) Ls) in Q.
    injection Q as Q. rewrite Q. unfold g1powers. rewrite map_map. reflexivity. }
  rewrite EP, FFTG1_sim in HF. set (a := map (fpow s) (seq 0 (2 ^ j))) in *.
  assert (La : length a = (2 ^ j)%nat) by (unfold a; rewrite map_length, seq_length; reflexivity).
  rewrite La, (InplaceFFT_ok _ _ _ _ j _ O J La) in HF. fold w in HF. unfold gmap in HF. cbn [bind] in HF. injection HF as <-.
  rewrite (FFT_pad _ _ _ _ j _ O J Lc Dc) in HE. set (c := coeffs ++ repeat 0 (2 ^ j - length coeffs)) in *.
  assert (Lcc : length c = (2 ^ j)%nat) by (unfold c; rewrite app_length, repeat_length; lia).
  rewrite (InplaceFFT_ok _ _ _ _ j _ O J Lcc) in HE. fold w in HE. injection HE as <-.
  assert (V : CommitToEvalPoly (map mkG1 (map (fun v => v * finv (of_nat (2 ^ j))) (dft (finv w) a))) (dft w c) = Ret (mkG1 (peval coeffs s))).
  { unfold CommitToEvalPoly. rewrite LinCombG1_correct by (rewrite !map_length, !length_dft; lia). apply (f_equal Ret). apply (f_equal mkG1).
    rewrite map_map. cbn [dlog1]. rewrite map_id. rewrite dft_adjoint by (try exact P; try assumption; lia).
    replace (peval coeffs s) with (peval c s) by (unfold c; rewrite peval_app, peval_repeat0; ring).
    rewrite dot_nth by lia. rewrite La, peval_sumn, Lcc. apply sumn_ext. intros i Hi. unfold a.
    rewrite nth_map_seq by exact Hi. cbn [Nat.add]. ring. }
  split.
  - rewrite V. unfold CommitToPoly. cbn [SecretG1]. rewrite slice_powers by lia. cbn [bind]. symmetry. apply lincomb_powers.
  - rewrite V. rewrite <- value_peval. unfold MulG1, GenG1. cbn [dlog1]. apply (f_equal Ret). apply (f_equal mkG1). ring.
Qed.
Print Assumptions c66_commit.

(** Any 2^j values are committed to as the one polynomial of this length that has them. *)
Theorem c66_values k fs j s len ks sec eval : settings k fs -> (j <= k)%nat -> (2 ^ j <= len)%nat ->
  setup s len = Ret ks -> FFTG1 fs (firstn (2 ^ j) (SecretG1 ks)) true = Ret sec -> length eval = (2 ^ j)%nat ->
  exists coeffs, length coeffs = (2 ^ j)%nat /\
    (forall i, (i < 2 ^ j)%nat -> nth i eval 0 = value coeffs (fpow (nth j Scale2RootOfUnity 0) i)) /\
    CommitToEvalPoly sec eval = CommitToPoly ks coeffs.
Proof.
  intros S J Ls HS HF Le. destruct (settings_ok _ _ S) as (K & O).
  pose proof (wj_prim _ _ _ (rootk_prim k K) J) as P. set (w := wj (rootk k) k j) in *.
  set (c := map (fun v => v * finv (of_nat (2 ^ j))) (dft (finv w) eval)).
  assert (Lc : length c = (2 ^ j)%nat) by (unfold c; rewrite map_length, length_dft; exact Le).
  assert (DC : dft w c = eval) by (apply dft_inv2; [exact P|lia|exact Le]).
  exists c. split; [exact Lc|]. split.
  - intros i Hi. rewrite <- DC, nth_dft by lia. rewrite value_peval. unfold w. rewrite wj_root by lia. reflexivity.
  - apply (c66_commit k fs j s len ks sec c eval); try assumption.
    + lia.
    + destruct j as [|j']; [left; reflexivity|right]. rewrite Lc. cbn [Nat.sub Nat.pow]. rewrite Nat.sub_0_r. pose proof (Nat.pow_nonzero 2 j'). lia.
    + rewrite (FFT_ok _ _ _ _ j _ O J Lc). fold w. rewrite DC. reflexivity.
Qed.
Print Assumptions c66_values.

(** Values of another number than the prepared setup stop the process; for instance those of a polynomial of at most half
    the length, which FFT evaluates at fewer roots. *)
Theorem c66_lengths k fs j s len ks sec : settings k fs -> (j <= k)%nat -> (2 ^ j <= len)%nat ->
  setup s len = Ret ks -> FFTG1 fs (firstn (2 ^ j) (SecretG1 ks)) true = Ret sec ->
  (forall eval, length eval <> (2 ^ j)%nat -> CommitToEvalPoly sec eval = Panic) /\
  (forall coeffs eval, (0 < j)%nat -> (length coeffs <= 2 ^ (j - 1))%nat -> FFT fs coeffs false = Ret eval -> CommitToEvalPoly sec eval = Panic).
Proof.
  intros S J Ls HS HF. destruct (settings_ok _ _ S) as (K & O).
  rewrite setup_correct in HS. injection HS as <-. cbn [SecretG1] in HF.
  assert (L : length sec = (2 ^ j)%nat).
  { assert (E : firstn (2 ^ j) (g1powers s len) = map mkG1 (map dlog1 (firstn (2 ^ j) (g1powers s len)))) by (rewrite map_dlog; reflexivity).
    assert (La : length (map dlog1 (firstn (2 ^ j) (g1powers s len))) = (2 ^ j)%nat) by (rewrite map_length, firstn_length, length_g1powers; lia).
    rewrite E, FFTG1_sim, La, (InplaceFFT_ok _ _ _ _ j _ O J La) in HF. unfold gmap in HF. cbn [bind] in HF. injection HF as <-.
    rewrite !map_length, length_dft. exact La. }
  assert (A : forall eval, length eval <> (2 ^ j)%nat -> CommitToEvalPoly sec eval = Panic).
  { intros eval NE. apply LinCombG1_mismatch. lia. }
  split; [exact A|]. intros coeffs eval J0 Lc HE. apply A. intros Q.
  assert (G : exists i, (i <= j - 1)%nat /\ (length coeffs <= 2 ^ i)%nat /\ (i = 0 \/ 2 ^ (i - 1) < length coeffs)%nat).
  { clear - Lc. revert Lc. induction (j - 1)%nat as [|m IH]; intros Lc.
    - exists 0%nat. split; [lia|]. split; [exact Lc|left; reflexivity].
    - destruct (Nat.le_gt_cases (length coeffs) (2 ^ m)) as [H|H].
      + destruct (IH H) as (i & H1 & H2 & H3). exists i. split; [lia|]. split; assumption.
      + exists (Datatypes.S m). split; [lia|]. split; [exact Lc|right]. cbn [Nat.sub]. rewrite Nat.sub_0_r. exact H. }
  destruct G as (i & Hi & L1 & L2). assert (Ji : (i <= k)%nat) by lia.
  rewrite (FFT_pad _ _ _ _ i _ O Ji L1 L2) in HE.
  assert (LE : length (coeffs ++ repeat 0 (2 ^ i - length coeffs)) = (2 ^ i)%nat) by (rewrite app_length, repeat_length; lia).
  rewrite (InplaceFFT_ok _ _ _ _ i _ O Ji LE) in HE. injection HE as <-. rewrite length_dft, LE in Q.
  assert (2 ^ i < 2 ^ j)%nat by (apply Nat.pow_lt_mono_r; lia). lia.
Qed.
Print Assumptions c66_lengths.

(** Settings for 16, a setup of length 10, a polynomial with five coefficients. *)
Example c66_demo fs s ks sec : settings 4 fs -> setup s 10 = Ret ks -> FFTG1 fs (firstn 8 (SecretG1 ks)) true = Ret sec ->
  exists eval, FFT fs (map of_Z [3; 1; 4; 1; 5]%Z) false = Ret eval /\
    CommitToEvalPoly sec eval = CommitToPoly ks (map of_Z [3; 1; 4; 1; 5]%Z).
Proof.
  intros S HS HF. destruct (settings_ok _ _ S) as (K & O).
  assert (E : exists eval, FFT fs (map of_Z [3; 1; 4; 1; 5]%Z) false = Ret eval).
  { rewrite (FFT_pad _ _ _ _ 3 _ O) by (cbn; lia). rewrite (InplaceFFT_ok _ _ _ _ 3 _ O) by (cbn; lia || reflexivity). eauto. }
  destruct E as (eval & E). exists eval. split; [exact E|].
  apply (c66_commit 4 fs 3 s 10 ks sec _ eval S); try assumption; try (cbn; lia).
Qed.
