(** Settings, powers of two, the transform and its inverse. *)

Require Import ZArith List Bool Arith Lia.
From Verif Require Import Prime Fr CodecModel GoBase Poly GroupModel VssModel VssProofs FftModel FftProofs.
Import ListNotations.

(** ** Powers of two *)

Section Pow2.
Local Open Scope Z_scope.

Lemma IsPowerOfTwo_pow j : 0 <= j < 64 -> IsPowerOfTwo (2 ^ j) = true.
Proof.
  intros H. unfold IsPowerOfTwo. apply Z.eqb_eq.
  assert (P : 0 < 2 ^ j < 2 ^ 64).
  { split; [apply Z.pow_pos_nonneg; lia|]. apply Z.pow_lt_mono_r; lia. }
  rewrite Z.mod_small by lia. replace (2 ^ j - 1) with (Z.ones j) by (rewrite Z.ones_equiv; lia).
  rewrite Z.land_ones by lia. apply Z.mod_same. lia.
Qed.

Lemma IsPowerOfTwo_inv v : 0 < v < 2 ^ 64 -> IsPowerOfTwo v = true -> v = 2 ^ Z.log2 v.
Proof.
  intros H E. unfold IsPowerOfTwo in E. apply Z.eqb_eq in E. rewrite Z.mod_small in E by lia.
  destruct (Z.log2_spec v ltac:(lia)) as (L1 & L2).
  destruct (Z.eq_dec v (2 ^ Z.log2 v)) as [Q|Q]; [exact Q|exfalso].
  assert (B1 : Z.testbit v (Z.log2 v) = true) by (apply Z.bit_log2; lia).
  assert (B2 : Z.testbit (v - 1) (Z.log2 v) = true).
  { assert (LL : Z.log2 (v - 1) = Z.log2 v).
    { apply Z.log2_unique; [apply Z.log2_nonneg|]. split; lia. }
    rewrite <- LL. apply Z.bit_log2.
    pose proof (Z.pow_pos_nonneg 2 (Z.log2 v) ltac:(lia) (Z.log2_nonneg _)). lia. }
  assert (B : Z.testbit (Z.land v (v - 1)) (Z.log2 v) = true) by (rewrite Z.land_spec, B1, B2; reflexivity).
  rewrite E, Z.bits_0 in B. discriminate B.
Qed.

Lemma nextPowOf2_ok v : 0 < v <= 2 ^ 63 ->
  exists j, 0 <= j <= 63 /\ nextPowOf2 v = 2 ^ j /\ v <= 2 ^ j /\ (j = 0 \/ 2 ^ (j - 1) < v).
Proof.
  intros H. unfold nextPowOf2, Len64.
  destruct (Z.eqb_spec v 0); [lia|]. destruct (Z.eqb_spec (v - 1) 0) as [E|E].
  - exists 0. replace v with 1 by lia. cbn. repeat split; try lia.
  - assert (P : 0 < v - 1) by lia. destruct (Z.log2_spec (v - 1) P) as (L1 & L2).
    pose proof (Z.log2_nonneg (v - 1)).
    assert (L63 : Z.log2 (v - 1) < 63) by (apply Z.log2_lt_pow2; lia).
    exists (Z.log2 (v - 1) + 1). rewrite Z.shiftl_mul_pow2 by lia. rewrite Z.mul_1_l.
    rewrite Z.mod_small.
    2:{ split; [apply Z.pow_nonneg; lia|]. apply Z.pow_lt_mono_r; lia. }
    repeat split; try lia.
    right. replace (Z.log2 (v - 1) + 1 - 1) with (Z.log2 (v - 1)) by lia. lia.
Qed.

Lemma nextPowOf2_pow j : 0 <= j <= 63 -> nextPowOf2 (2 ^ j) = 2 ^ j.
Proof.
  intros H. assert (P : 0 < 2 ^ j <= 2 ^ 63).
  { split; [apply Z.pow_pos_nonneg; lia|]. apply Z.pow_le_mono_r; lia. }
  destruct (nextPowOf2_ok _ P) as (i & Hi & -> & L & D). f_equal.
  apply Z.pow_le_mono_r_iff in L; [|lia|lia].
  destruct D as [->|D]; [lia|]. apply Z.pow_lt_mono_r_iff in D; lia.
Qed.

Lemma of_nat_pow2 k : Z.of_nat (2 ^ k) = 2 ^ Z.of_nat k.
Proof. rewrite Nat2Z.inj_pow. reflexivity. Qed.
End Pow2.

Local Open Scope F_scope.

(** ** The table of roots *)

Definition rootk (k : nat) : Fr := nth k Scale2RootOfUnity 0.

Lemma roots_chain : forallb (fun k => feqb (rootk (S k) * rootk (S k)) (rootk k)) (seq 0 31) = true.
Proof. vm_compute. reflexivity. Qed.

Lemma root1 : rootk 1 = fopp 1.
Proof. apply Fr_ext. vm_compute. reflexivity. Qed.

Lemma rootk_prim : forall k, (k <= 31)%nat -> prim (rootk k) k.
Proof.
  assert (H : forall k, (k < 31)%nat -> rootk (S k) * rootk (S k) = rootk k).
  { intros k Hk. apply (proj1 (feqb_eq _ _)).
    apply (proj1 (forallb_forall _ _) roots_chain k). apply in_seq. lia. }
  intros [|k]; [intros _; apply Fr_ext; vm_compute; reflexivity|].
  induction k as [|k IH]; intros L.
  - cbn [prim]. change (2 ^ 0)%nat with 1%nat. rewrite fpow_1. apply root1.
  - specialize (IH ltac:(lia)). cbn [prim] in *.
    replace (2 ^ S k)%nat with (2 * 2 ^ k)%nat by (cbn; lia). rewrite fpow_mul.
    replace (fpow (rootk (S (S k))) 2) with (rootk (S k)); [exact IH|].
    rewrite <- (H (S k)) by lia. cbn. ring.
Qed.

(** ** Settings *)

Record fs_ok (fs : FFTSettings) (k : nat) (W : Fr) : Prop := {
  fo_width : MaxWidth fs = (2 ^ k)%nat;
  fo_exp : Expanded fs = map (fpow W) (seq 0 (2 ^ k + 1));
  fo_rev : Reverse fs = rev (Expanded fs);
  fo_prim : prim W k;
  fo_max : (k <= 31)%nat }.

Lemma expand_loop_ok W k : prim W k -> forall fuel i, (1 <= i <= 2 ^ k)%nat -> (2 ^ k - i < fuel)%nat ->
  expand_loop fuel W (fpow W i) = Some (map (fpow W) (seq i (2 ^ k - i + 1))).
Proof.
  intros P. induction fuel as [|fuel IH]; intros i Hi Hf; [lia|]. cbn [expand_loop].
  destruct (feqb (fpow W i) 1) eqn:E.
  - apply feqb_eq in E.
    assert (i = (2 ^ k)%nat).
    { destruct (Nat.eq_dec i (2 ^ k)) as [Q|Q]; [exact Q|]. exfalso. apply (prim_order _ _ P i); [lia|exact E]. }
    subst i. rewrite Nat.sub_diag. cbn. reflexivity.
  - apply feqb_neq in E.
    assert (i <> (2 ^ k)%nat) by (intros ->; apply E, prim_one, P).
    replace (fpow W i * W) with (fpow W (S i)) by (cbn; ring).
    rewrite IH by lia. replace (2 ^ k - i + 1)%nat with (S (2 ^ k - S i + 1)) by lia. reflexivity.
Qed.

Lemma NewFFTSettings_ok fuel k : (k <= 31)%nat -> (2 ^ k <= fuel)%nat ->
  exists fs, NewFFTSettings fuel k = Ret (Some fs) /\ fs_ok fs k (rootk k).
Proof.
  intros Lk Lf. unfold NewFFTSettings. rewrite (idx_nth 0) by (cbn; lia). cbn [bind].
  fold (rootk k). unfold expandRootOfUnity.
  pose proof (rootk_prim k Lk) as P. pose proof (Nat.pow_nonzero 2 k).
  pose proof (expand_loop_ok _ _ P fuel 1 ltac:(lia) ltac:(lia)) as E. rewrite fpow_1 in E. rewrite E.
  eexists. split; [reflexivity|]. split; cbn; try reflexivity; try assumption.
  replace (2 ^ k + 1)%nat with (S (2 ^ k - 1 + 1)) by lia. reflexivity.
Qed.

Lemma fo_exp_nth fs k W i : fs_ok fs k W -> (i <= 2 ^ k)%nat -> nth i (Expanded fs) 0 = fpow W i.
Proof. intros H L. rewrite (fo_exp _ _ _ H), nth_map_seq by lia. reflexivity. Qed.

Lemma fo_exp_length fs k W : fs_ok fs k W -> length (Expanded fs) = (2 ^ k + 1)%nat.
Proof. intros H. rewrite (fo_exp _ _ _ H), map_length, seq_length. reflexivity. Qed.

Lemma fo_rev_nth fs k W i : fs_ok fs k W -> (i <= 2 ^ k)%nat -> nth i (Reverse fs) 0 = fpow (finv W) i.
Proof.
  intros H L. rewrite (fo_rev _ _ _ H). pose proof (fo_exp_length _ _ _ H) as E.
  rewrite rev_nth by lia. rewrite E. replace (2 ^ k + 1 - S i)%nat with (2 ^ k - i)%nat by lia.
  rewrite (fo_exp_nth _ _ _ _ H) by lia.
  pose proof (fo_prim _ _ _ H) as P. pose proof (prim_neq_0 _ _ P) as N0.
  pose proof (prim_one _ _ P) as P1.
  transitivity (fpow W (2 ^ k - i) * (fpow (finv W) i * fpow W i)).
  - rewrite fpow_inv by exact N0. ring.
  - transitivity (fpow (finv W) i * (fpow W (2 ^ k - i) * fpow W i)); [ring|].
    rewrite <- fpow_add. replace (2 ^ k - i + i)%nat with (2 ^ k)%nat by lia. rewrite P1. ring.
Qed.

(** ** InplaceFFT and FFT *)

(** The root of order 2^j in settings of scale k. *)
Definition wj (W : Fr) (k j : nat) : Fr := fpow W (2 ^ (k - j)).

Lemma wj_prim W k j : prim W k -> (j <= k)%nat -> prim (wj W k j) j.
Proof. intros P L. apply prim_stride. replace (k - j + j)%nat with k by lia. exact P. Qed.

(** The discrete Fourier transform: the values at the powers of w. *)
Definition dft (w : Fr) (vals : list Fr) : list Fr :=
  map (fun i => peval vals (fpow w i)) (seq 0 (length vals)).

Lemma length_dft w vals : length (dft w vals) = length vals.
Proof. unfold dft. rewrite map_length, seq_length. reflexivity. Qed.

Lemma nth_dft w vals i : (i < length vals)%nat -> nth i (dft w vals) 0 = peval vals (fpow w i).
Proof. intros L. unfold dft. rewrite nth_map_seq by exact L. reflexivity. Qed.

Lemma fft_core W' roots vals k j :
  (j <= k)%nat -> length roots = (2 ^ k)%nat -> (forall i, (i < length roots)%nat -> nth i roots 0 = fpow W' i) ->
  prim W' k -> length vals = (2 ^ j)%nat ->
  fft_rec (2 ^ j) vals 0 1 roots (2 ^ k / 2 ^ j) (2 ^ j) = Ret (dft (wj W' k j) vals).
Proof.
  intros L E Hr P Ev.
  assert (D : (2 ^ k / 2 ^ j = 2 ^ (k - j))%nat).
  { replace k with (k - j + j)%nat at 1 by lia. rewrite Nat.pow_add_r.
    apply Nat.div_mul. apply Nat.pow_nonzero. lia. }
  rewrite D. rewrite (fft_rec_ok W' roots Hr vals j).
  - f_equal. unfold dft. rewrite Ev. apply map_ext. intros i. unfold dftv. rewrite peval_sumn, Ev.
    apply sumn_ext. intros m Hm. rewrite Nat.mul_1_r. cbn [Nat.add]. unfold wj.
    rewrite <- !fpow_mul, Nat.mul_assoc. reflexivity.
  - lia.
  - pose proof (Nat.pow_nonzero 2 (k - j)). lia.
  - intros m Hm. lia.
  - rewrite E, <- Nat.pow_add_r. f_equal. lia.
  - apply wj_prim; assumption.
Qed.

Lemma wj_inv W k j : W <> 0 -> wj (finv W) k j = finv (wj W k j).
Proof.
  intros N0. unfold wj. pose proof (fpow_inv W (2 ^ (k - j)) N0) as E.
  apply (fmul_cancel_l (fpow W (2 ^ (k - j)))); [apply fpow_neq_0; exact N0|].
  rewrite (finv_r (fpow W (2 ^ (k - j)))) by (apply fpow_neq_0; exact N0). rewrite <- E. ring.
Qed.

Lemma pow2_le j k : (j <= k)%nat -> (2 ^ j <= 2 ^ k)%nat.
Proof. intros. apply Nat.pow_le_mono_r; lia. Qed.

Lemma pow2_test j : (j <= 31)%nat -> IsPowerOfTwo (Z.of_nat (2 ^ j)) = true.
Proof. intros L. rewrite of_nat_pow2. apply IsPowerOfTwo_pow. lia. Qed.

Lemma nth_firstn' {A} (l : list A) n i d : (i < n)%nat -> nth i (firstn n l) d = nth i l d.
Proof.
  revert l i. induction n as [|n IH]; intros [|x l] [|i] H; try reflexivity; try lia.
  cbn. apply IH. lia.
Qed.

Lemma InplaceFFT_ok fs k W vals j inv : fs_ok fs k W -> (j <= k)%nat -> length vals = (2 ^ j)%nat ->
  InplaceFFT fs vals (2 ^ j) inv =
  Ret (if inv then map (fun v => v * finv (of_nat (2 ^ j))) (dft (finv (wj W k j)) vals) else dft (wj W k j) vals).
Proof.
  intros H L Ev. unfold InplaceFFT. rewrite Ev, (fo_width _ _ _ H).
  pose proof (pow2_le _ _ L) as Lp. pose proof (Nat.pow_nonzero 2 j) as NZ. pose proof (fo_max _ _ _ H) as Mx.
  destruct (Nat.ltb_spec (2 ^ k) (2 ^ j)); [lia|]. rewrite pow2_test by lia. cbn [negb].
  destruct (Nat.eqb_spec (2 ^ j) 0); [lia|].
  pose proof (fo_prim _ _ _ H) as P. pose proof (prim_neq_0 _ _ P) as N0.
  destruct inv; unfold slice_to.
  - assert (Lr : length (Reverse fs) = (2 ^ k + 1)%nat).
    { rewrite (fo_rev _ _ _ H), rev_length. apply (fo_exp_length _ _ _ H). }
    rewrite Lr. destruct (Nat.leb_spec (2 ^ k) (2 ^ k + 1)); [|lia]. cbn [bind].
    rewrite (fft_core (finv W) _ vals k j); [|lia| | |apply prim_inv; exact P|exact Ev].
    + cbn [bind]. rewrite wj_inv by exact N0. reflexivity.
    + rewrite firstn_length. lia.
    + intros i Hi. rewrite firstn_length in Hi.
      rewrite nth_firstn' by lia.
      apply (fo_rev_nth _ _ _ _ H). lia.
  - pose proof (fo_exp_length _ _ _ H) as Lr.
    rewrite Lr. destruct (Nat.leb_spec (2 ^ k) (2 ^ k + 1)); [|lia]. cbn [bind].
    rewrite (fft_core W _ vals k j); [reflexivity|lia| | |exact P|exact Ev].
    + rewrite firstn_length. lia.
    + intros i Hi. rewrite firstn_length in Hi.
      rewrite nth_firstn' by lia.
      apply (fo_exp_nth _ _ _ _ H). lia.
Qed.

(** The transform of any vector that fits: it is padded to the next power of two. *)
Lemma FFT_pad fs k W vals j inv : fs_ok fs k W -> (j <= k)%nat -> (length vals <= 2 ^ j)%nat ->
  (j = 0%nat \/ 2 ^ (j - 1) < length vals)%nat ->
  FFT fs vals inv = InplaceFFT fs (vals ++ repeat 0 (2 ^ j - length vals)) (2 ^ j) inv.
Proof.
  intros H L Ev D. unfold FFT. rewrite (fo_width _ _ _ H). pose proof (fo_max _ _ _ H) as Mx.
  pose proof (pow2_le _ _ L) as Lp.
  destruct (Nat.ltb_spec (2 ^ k) (length vals)); [lia|].
  assert (E : Z.to_nat (nextPowOf2 (Z.of_nat (length vals))) = (2 ^ j)%nat).
  { destruct (Nat.eq_dec (length vals) 0) as [Z0|Z0].
    - rewrite Z0. destruct D as [->|D]; [reflexivity|lia].
    - destruct (nextPowOf2_ok (Z.of_nat (length vals))) as (i & Hi & -> & Li & Di).
      { split; [lia|]. apply Z.le_trans with (Z.of_nat (2 ^ 31))%nat.
        - apply inj_le. pose proof (pow2_le k 31 Mx). lia.
        - rewrite of_nat_pow2. apply Z.pow_le_mono_r; lia. }
      assert (E2 : i = Z.of_nat j).
      { assert (A : (i <= Z.of_nat j)%Z).
        { destruct Di as [->|Di]; [lia|]. apply inj_le in Ev. rewrite of_nat_pow2 in Ev.
          assert (Q : (2 ^ (i - 1) < 2 ^ Z.of_nat j)%Z) by lia. apply Z.pow_lt_mono_r_iff in Q; lia. }
        assert (B : (Z.of_nat j <= i)%Z).
        { destruct D as [->|D]; [lia|]. destruct j as [|j]; [cbn; lia|].
          apply inj_lt in D. rewrite of_nat_pow2 in D. replace (S j - 1)%nat with j in D by lia.
          assert (Q : (2 ^ Z.of_nat j < 2 ^ i)%Z) by lia. apply Z.pow_lt_mono_r_iff in Q; lia. }
        lia. }
      rewrite E2, <- of_nat_pow2. apply Nat2Z.id. }
  rewrite E. reflexivity.
Qed.

Lemma FFT_ok fs k W vals j inv : fs_ok fs k W -> (j <= k)%nat -> length vals = (2 ^ j)%nat ->
  FFT fs vals inv =
  Ret (if inv then map (fun v => v * finv (of_nat (2 ^ j))) (dft (finv (wj W k j)) vals) else dft (wj W k j) vals).
Proof.
  intros H L Ev. rewrite (FFT_pad fs k W vals j inv H L); [|lia|].
  - rewrite Ev, Nat.sub_diag. cbn [repeat]. rewrite app_nil_r. apply InplaceFFT_ok; assumption.
  - destruct j as [|j]; [left; reflexivity|right]. rewrite Ev. replace (S j - 1)%nat with j by lia.
    pose proof (Nat.pow_nonzero 2 j). cbn. lia.
Qed.

(** ** Inversion *)

Lemma geom a n : fpow a n = 1 -> a <> 1 -> sumn n (fpow a) = 0.
Proof.
  intros E N. assert (G : (a - 1) * sumn n (fpow a) = fpow a n - 1).
  { clear. induction n as [|n IH]; [cbn; ring|]. cbn [sumn fpow]. 
    transitivity ((a - 1) * sumn n (fpow a) + (a - 1) * fpow a n); [ring|]. rewrite IH. ring. }
  rewrite E in G. destruct (fmul_eq_0 (a - 1) (sumn n (fpow a))) as [Q|Q].
  - rewrite G. ring.
  - exfalso. apply N. apply (proj1 (fsub_eq_0 _ _)). exact Q.
  - exact Q.
Qed.

Lemma sumn_1 n : sumn n (fun _ => 1) = of_nat n.
Proof.
  induction n as [|n IH]; [apply Fr_ext; vm_compute; reflexivity|]. cbn [sumn]. rewrite IH.
  unfold of_nat. rewrite Nat2Z.inj_succ. unfold Z.succ. rewrite of_Z_add. reflexivity.
Qed.

Lemma pow2_nonzero j : (j <= 31)%nat -> of_nat (2 ^ j) <> 0.
Proof.
  intros L E. assert (B : (Z.of_nat (2 ^ j) < r)%Z).
  { apply Z.le_lt_trans with (2 ^ 31)%Z; [|vm_compute; reflexivity].
    rewrite of_nat_pow2. apply Z.pow_le_mono_r; lia. }
  change 0 with (of_nat 0) in E. apply of_nat_inj in E; [|exact B|vm_compute; reflexivity].
  pose proof (Nat.pow_nonzero 2 j). lia.
Qed.

Lemma orth w j i m : prim w j -> (i < 2 ^ j)%nat -> (m < 2 ^ j)%nat ->
  sumn (2 ^ j) (fun t => fpow (fpow w m) t * fpow (fpow (finv w) i) t) = if (m =? i)%nat then of_nat (2 ^ j) else 0.
Proof.
  intros P Li Lm. pose proof (prim_neq_0 _ _ P) as N0.
  rewrite (sumn_ext _ _ (fpow (fpow w m * fpow (finv w) i))) by (intros; rewrite fpow_mul_base; reflexivity).
  pose proof (prim_one _ _ P) as P1. pose proof (prim_one _ _ (prim_inv _ _ P)) as P2.
  destruct (Nat.eqb_spec m i) as [->|N].
  - rewrite (sumn_ext _ _ (fun _ => 1)); [apply sumn_1|]. intros t _.
    replace (fpow w i * fpow (finv w) i) with 1; [apply fpow_1_l|]. rewrite <- (fpow_inv w i N0). ring.
  - apply geom.
    + rewrite fpow_mul_base, <- !fpow_mul, !(Nat.mul_comm _ (2 ^ j)), !fpow_mul, P1, P2, !fpow_1_l. ring.
    + intros E. destruct (Nat.lt_ge_cases m i) as [Q|Q].
      * apply (prim_order _ _ (prim_inv _ _ P) (i - m)%nat); [lia|].
        replace i with ((i - m) + m)%nat in E by lia. rewrite fpow_add in E.
        transitivity (fpow (finv w) (i - m) * (fpow (finv w) m * fpow w m)); [rewrite fpow_inv by exact N0; ring|].
        rewrite <- E. ring.
      * apply (prim_order _ _ P (m - i)%nat); [lia|].
        replace m with ((m - i) + i)%nat in E by lia. rewrite fpow_add in E.
        transitivity (fpow w (m - i) * (fpow (finv w) i * fpow w i)); [rewrite fpow_inv by exact N0; ring|].
        rewrite <- E. ring.
Qed.

Lemma dft_inv w j vals : prim w j -> (j <= 31)%nat -> length vals = (2 ^ j)%nat ->
  map (fun v => v * finv (of_nat (2 ^ j))) (dft (finv w) (dft w vals)) = vals.
Proof.
  intros P L E. apply (list_ext 0); [rewrite map_length, !length_dft; reflexivity|].
  rewrite map_length, !length_dft. intros i Hi.
  change 0 with ((fun v => v * finv (of_nat (2 ^ j))) 0) at 1 || idtac.
  rewrite (nth_indep _ 0 (0 * finv (of_nat (2 ^ j)))) by (rewrite map_length, !length_dft; exact Hi).
  rewrite (map_nth (fun v => v * finv (of_nat (2 ^ j)))), nth_dft by (rewrite length_dft; exact Hi).
  rewrite peval_sumn, length_dft.
  rewrite (sumn_ext _ _ (fun t => sumn (2 ^ j) (fun m => nth m vals 0 * (fpow (fpow w m) t * fpow (fpow (finv w) i) t)))).
  - rewrite E, sumn_swap. rewrite E in Hi.
    rewrite (sumn_ext _ _ (fun m => nth m vals 0 * (if (m =? i)%nat then of_nat (2 ^ j) else 0))).
    + rewrite (sumn_single _ _ i Hi).
      * rewrite Nat.eqb_refl. transitivity (nth i vals 0 * (of_nat (2 ^ j) * finv (of_nat (2 ^ j)))); [ring|].
        rewrite (finv_r (of_nat (2 ^ j))) by (apply pow2_nonzero; exact L). ring.
      * intros m _ N. apply Nat.eqb_neq in N. rewrite N. ring.
    + intros m Hm. rewrite sumn_scale_l. rewrite orth by assumption. reflexivity.
  - intros t Ht. rewrite nth_dft by exact Ht. rewrite peval_sumn, E, <- sumn_scale_r.
    apply sumn_ext. intros m _. rewrite <- !(fpow_mul w), (Nat.mul_comm t m). ring.
Qed.

Lemma dft_inv2 w j vals : prim w j -> (j <= 31)%nat -> length vals = (2 ^ j)%nat ->
  dft w (map (fun v => v * finv (of_nat (2 ^ j))) (dft (finv w) vals)) = vals.
Proof.
  intros P L E. pose proof (prim_neq_0 _ _ P) as N0.
  assert (I : finv (finv w) = w).
  { apply (fmul_cancel_l (finv w)); [apply finv_neq_0; exact N0|].
    rewrite (finv_r (finv w)) by (apply finv_neq_0; exact N0). symmetry. apply finv_l. exact N0. }
  rewrite <- (dft_inv (finv w) j vals) at 2; [|apply prim_inv; exact P|exact L|exact E].
  rewrite I. unfold dft at 1. rewrite map_length, length_dft. unfold dft at 2. rewrite map_map, length_dft.
  apply map_ext. intros i. rewrite !peval_sumn, map_length, <- sumn_scale_r. apply sumn_ext.
  intros t Ht. rewrite (nth_indep _ 0 (0 * finv (of_nat (2 ^ j)))) by (rewrite map_length; exact Ht).
  rewrite (map_nth (fun v => v * finv (of_nat (2 ^ j)))). ring.
Qed.
