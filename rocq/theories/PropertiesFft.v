(** C38-C41: Fourier transforms, bit reversal, powers of two. *)

Require Import ZArith List Bool Arith Lia Permutation.
From Verif Require Import Prime Fr CodecModel GoBase Poly GroupModel VssModel VssProofs FftModel FftProofs FftProofs2 FftG1
  ReverseModel ReverseProofs.
Import ListNotations.
Local Open Scope F_scope.

(** [w] has multiplicative order [n]. *)
Definition order (w : Fr) (n : nat) : Prop :=
  fpow w n = 1 /\ forall d, (0 < d < n)%nat -> fpow w d <> 1.

(** The value of the polynomial with the coefficients [c] at [x]. *)
Definition value (c : list Fr) (x : Fr) : Fr := sumn (length c) (fun m => nth m c 0 * fpow x m).

(** The settings for vectors of up to 2^k elements. *)
Definition settings (k : nat) (fs : FFTSettings) : Prop :=
  exists fuel, NewFFTSettings fuel k = Ret (Some fs).

Lemma prim_is_order w j : prim w j -> order w (2 ^ j).
Proof. intros P. split; [apply prim_one, P|intros d Hd; exact (prim_order _ _ P d Hd)]. Qed.

Lemma wj_root k j : (j <= k)%nat -> (k <= 31)%nat -> wj (rootk k) k j = rootk j.
Proof.
  intros L K. unfold wj. remember (k - j)%nat as d eqn:E. revert k j L K E.
  induction d as [|d IH]; intros k j L K E.
  - assert (k = j) by lia. subst. change (2 ^ 0)%nat with 1%nat. apply fpow_1.
  - replace (2 ^ S d)%nat with (2 * 2 ^ d)%nat by (cbn; lia). rewrite fpow_mul.
    destruct k as [|k]; [lia|].
    assert (H : fpow (rootk (S k)) 2 = rootk k).
    { assert (C : rootk (S k) * rootk (S k) = rootk k).
      { apply (proj1 (feqb_eq _ _)). apply (proj1 (forallb_forall _ _) roots_chain k). apply in_seq. lia. }
      rewrite <- C. cbn. ring. }
    rewrite H. apply IH; lia.
Qed.

Lemma expand_more W : forall f1 f2 t l, expand_loop f1 W t = Some l -> (f1 <= f2)%nat -> expand_loop f2 W t = Some l.
Proof.
  induction f1 as [|f1 IH]; intros f2 t l H L; [discriminate H|]. destruct f2 as [|f2]; [lia|].
  cbn [expand_loop] in *. destruct (feqb t 1); [exact H|].
  destruct (expand_loop f1 W (t * W)) as [l'|] eqn:E; [|discriminate H].
  rewrite (IH f2 _ _ E) by lia. exact H.
Qed.

Lemma settings_ok k fs : settings k fs -> (k <= 31)%nat /\ fs_ok fs k (rootk k).
Proof.
  intros (fuel & H).
  assert (K : (k <= 31)%nat).
  { destruct (Nat.le_gt_cases k 31) as [L|L]; [exact L|]. exfalso.
    unfold NewFFTSettings in H. rewrite idx_panic in H by (cbn; lia). discriminate H. }
  split; [exact K|].
  destruct (NewFFTSettings_ok (Nat.max fuel (2 ^ k)) k K) as (fs' & E & O); [lia|].
  assert (Some fs = Some fs') as Q; [|congruence].
  unfold NewFFTSettings in *. rewrite (idx_nth 0) in H, E by (cbn; lia). cbn [bind] in H, E.
  apply (f_equal (fun x => match x with Ret a => a | _ => None end)) in H.
  apply (f_equal (fun x => match x with Ret a => a | _ => None end)) in E.
  rewrite <- H, <- E. unfold expandRootOfUnity in *.
  destruct (expand_loop fuel _ _) as [l|] eqn:X; [|discriminate H].
  rewrite (expand_more _ _ (Nat.max fuel (2 ^ k)) _ _ X) by lia. reflexivity.
Qed.

Lemma value_peval c x : peval c x = value c x.
Proof. apply peval_sumn. Qed.

(** ** C38 *)

(** For each of the 32 scales the settings are made: the loop that expands the root ends (after 2^k rounds). *)
Theorem c38_settings k : (k <= 31)%nat -> exists fs, settings k fs.
Proof.
  intros K. destruct (NewFFTSettings_ok (2 ^ k) k K) as (fs & E & _); [lia|]. exists fs. exists (2 ^ k)%nat. exact E.
Qed.
Print Assumptions c38_settings.

(** The table of roots: the k-th entry has order 2^k. *)
Theorem c38_roots k : (k <= 31)%nat -> order (nth k Scale2RootOfUnity 0) (2 ^ k).
Proof. intros K. apply prim_is_order, rootk_prim, K. Qed.
Print Assumptions c38_roots.

(** The transform of a vector of 2^j elements gives the values of the polynomial at the powers of the root of
    order 2^j; the in-place variant agrees. *)
Theorem c38_transform k fs j vals : settings k fs -> (j <= k)%nat -> length vals = (2 ^ j)%nat ->
  let w := nth j Scale2RootOfUnity 0 in
  FFT fs vals false = Ret (map (fun i => value vals (fpow w i)) (seq 0 (2 ^ j))) /\
  InplaceFFT fs vals (2 ^ j) false = Ret (map (fun i => value vals (fpow w i)) (seq 0 (2 ^ j))).
Proof.
  intros S L E. destruct (settings_ok _ _ S) as (K & O). cbv zeta.
  rewrite (FFT_ok _ _ _ _ _ _ O L E), (InplaceFFT_ok _ _ _ _ _ _ O L E), wj_root by lia.
  unfold dft. rewrite E. split; f_equal; apply map_ext; intros i; apply value_peval.
Qed.
Print Assumptions c38_transform.

(** A vector of any length within the settings is treated as the polynomial with these coefficients: values at the
    roots of the least power of two not below its length. *)
Theorem c38_padded k fs j vals : settings k fs -> (j <= k)%nat -> (length vals <= 2 ^ j)%nat ->
  (j = 0%nat \/ 2 ^ (j - 1) < length vals)%nat ->
  FFT fs vals false = Ret (map (fun i => value vals (fpow (nth j Scale2RootOfUnity 0) i)) (seq 0 (2 ^ j))).
Proof.
  intros S L E D. destruct (settings_ok _ _ S) as (K & O).
  rewrite (FFT_pad _ _ _ _ _ _ O L E D).
  assert (E2 : length (vals ++ repeat 0 (2 ^ j - length vals)) = (2 ^ j)%nat) by (rewrite app_length, repeat_length; lia).
  rewrite (InplaceFFT_ok _ _ _ _ _ _ O L E2), wj_root by lia. unfold dft. rewrite E2. f_equal. apply map_ext.
  intros i. rewrite <- value_peval, peval_app. fold (rootk j).
  assert (Z : forall n x, peval (repeat 0 n) x = 0) by (intros n x; rewrite peval_sumn; apply sumn_0; intros m _; rewrite nth_repeat; ring).
  rewrite Z. ring.
Qed.
Print Assumptions c38_padded.

(** The inverse transform undoes the transform, and the other way round. *)
Theorem c38_inverse k fs j vals : settings k fs -> (j <= k)%nat -> length vals = (2 ^ j)%nat ->
  (exists t, FFT fs vals false = Ret t /\ FFT fs t true = Ret vals) /\
  (exists t, FFT fs vals true = Ret t /\ FFT fs t false = Ret vals).
Proof.
  intros S L E. destruct (settings_ok _ _ S) as (K & O).
  pose proof (wj_prim _ _ _ (rootk_prim k K) L) as P. split.
  - eexists. split; [apply (FFT_ok _ _ _ _ j _ O L E)|]. cbv iota.
    rewrite (FFT_ok _ _ _ _ j _ O L); [|rewrite length_dft; exact E].
    f_equal. apply dft_inv; [exact P|lia|exact E].
  - eexists. split; [apply (FFT_ok _ _ _ _ j _ O L E)|]. cbv iota.
    rewrite (FFT_ok _ _ _ _ j _ O L); [|rewrite map_length, length_dft; exact E].
    f_equal. apply dft_inv2; [exact P|lia|exact E].
Qed.
Print Assumptions c38_inverse.

(** The inverse transform interpolates: it gives the coefficients of a polynomial with the given values. *)
Theorem c38_interpolates k fs j vals : settings k fs -> (j <= k)%nat -> length vals = (2 ^ j)%nat ->
  exists c, FFT fs vals true = Ret c /\ length c = (2 ^ j)%nat /\
  forall i, (i < 2 ^ j)%nat -> value c (fpow (nth j Scale2RootOfUnity 0) i) = nth i vals 0.
Proof.
  intros S L E. destruct (c38_inverse k fs j vals S L E) as (_ & c & H1 & H2). exists c.
  assert (Lc : length c = (2 ^ j)%nat).
  { destruct (settings_ok _ _ S) as (K & O). rewrite (FFT_ok _ _ _ _ j _ O L E) in H1.
    apply (f_equal (fun x => match x with Ret a => a | _ => [] end)) in H1. rewrite <- H1, map_length, length_dft. exact E. }
  split; [exact H1|]. split; [exact Lc|]. intros i Hi.
  destruct (c38_transform k fs j c S L Lc) as (T & _). rewrite T in H2.
  apply (f_equal (fun x => match x with Ret a => a | _ => [] end)) in H2. rewrite <- H2.
  rewrite nth_map_seq by exact Hi. reflexivity.
Qed.
Print Assumptions c38_interpolates.

(** A vector that does not fit is reported as an error; the in-place variant also reports a length that is not a
    power of two. *)
Theorem c38_errors k fs vals inv l : settings k fs ->
  ((2 ^ k < length vals)%nat -> FFT fs vals inv = Error /\ InplaceFFT fs vals l inv = Error) /\
  ((length vals <> 0)%nat -> (forall j, length vals <> (2 ^ j)%nat) -> InplaceFFT fs vals l inv = Error).
Proof.
  intros S. destruct (settings_ok _ _ S) as (K & O). pose proof (fo_width _ _ _ O) as W. split.
  - intros H. unfold FFT, InplaceFFT. rewrite W. apply Nat.ltb_lt in H. rewrite H. split; reflexivity.
  - intros NZ NP. unfold InplaceFFT. rewrite W. destruct (Nat.ltb_spec (2 ^ k) (length vals)) as [|Lv]; [reflexivity|].
    destruct (IsPowerOfTwo (Z.of_nat (length vals))) eqn:E; [exfalso|reflexivity].
    apply IsPowerOfTwo_inv in E.
    + apply (NP (Z.to_nat (Z.log2 (Z.of_nat (length vals))))). apply Nat2Z.inj.
      rewrite of_nat_pow2, Z2Nat.id by apply Z.log2_nonneg. exact E.
    + split; [lia|]. apply Z.le_lt_trans with (Z.of_nat (2 ^ 31)).
      * apply inj_le. pose proof (pow2_le k 31 K). lia.
      * rewrite of_nat_pow2. apply Z.pow_lt_mono_r; lia.
Qed.
Print Assumptions c38_errors.

(** The claim that every unusable vector is reported fails for the in-place variant: the empty vector passes the
    test for a power of two and the division by its length stops the process. *)
Theorem c38_empty_refuted : exists k fs, settings k fs /\ forall inv, InplaceFFT fs [] 0 inv = Panic.
Proof.
  destruct (c38_settings 3 ltac:(lia)) as (fs & S). exists 3%nat, fs. split; [exact S|].
  destruct (settings_ok _ _ S) as (K & O). pose proof (fo_width _ _ _ O) as W. intros inv.
  unfold InplaceFFT. rewrite W. reflexivity.
Qed.
Print Assumptions c38_empty_refuted.

(** A vector of eight elements in settings for 16, forth and back. *)
Definition demo_vals : list Fr := map of_Z [3; 1; 4; 1; 5; 9; 2; 6]%Z.
Example demo_fft :
  match NewFFTSettings 16 4 with
  | Ret (Some fs) =>
    match FFT fs demo_vals false with
    | Ret t => (feqb (nth 0 t 0) (of_Z 31), feqb (nth 4 t 0) (of_Z (-3)),
                match FFT fs t true with Ret v => forallb (fun p => feqb (fst p) (snd p)) (combine v demo_vals) | _ => false end,
                match FFT fs t true with Ret v => length v | _ => 0%nat end)
    | _ => (false, false, false, 0%nat)
    end
  | _ => (false, false, false, 0%nat)
  end = (true, true, true, 8%nat).
Proof. vm_compute. reflexivity. Qed.

(** ** C39 *)

(** The transform of the commitments to some scalars is the vector of the commitments to their transform, in both
    directions and for every outcome (errors included). *)
Theorem c39_commitments fs scalars inv :
  FFTG1 fs (map (MulG1 GenG1) scalars) inv =
  match InplaceFFT fs scalars (length scalars) inv with
  | Ret t => Ret (map (MulG1 GenG1) t)
  | Panic => Panic | Fatal => Fatal | Error => Error
  end.
Proof.
  assert (M : forall l, map (MulG1 GenG1) l = map mkG1 l).
  { intros l. apply map_ext. intros x. apply G1_ext. cbn. ring. }
  rewrite M, FFTG1_sim. unfold gmap. destruct (InplaceFFT _ _ _ _); cbn [bind]; try reflexivity. rewrite M. reflexivity.
Qed.
Print Assumptions c39_commitments.

(** Each point of the transform is the combination of the given points with the powers of the root. *)
Theorem c39_transform k fs j (vals : list G1) : settings k fs -> (j <= k)%nat -> length vals = (2 ^ j)%nat ->
  exists out, FFTG1 fs vals false = Ret out /\ length out = (2 ^ j)%nat /\
  forall i, (i < 2 ^ j)%nat ->
    LinCombG1 vals (map (fun m => fpow (nth j Scale2RootOfUnity 0) (i * m)) (seq 0 (2 ^ j))) = Ret (nth i out ZeroG1).
Proof.
  intros S L E. assert (E' : length (map dlog1 vals) = (2 ^ j)%nat) by (rewrite map_length; exact E).
  pose proof (FFTG1_sim fs (map dlog1 vals) false) as H. rewrite map_dlog in H.
  rewrite H. clear H. destruct (c38_transform k fs j _ S L E') as (_ & T). rewrite E', T. unfold gmap. cbn [bind].
  eexists. split; [reflexivity|]. split; [rewrite !map_length, seq_length; reflexivity|]. intros i Hi.
  rewrite LinCombG1_correct by (rewrite map_length, seq_length; exact E). f_equal.
  unfold ZeroG1. rewrite map_nth. f_equal. rewrite nth_map_seq by exact Hi.
  rewrite dot_nth by (rewrite ?map_length, ?seq_length; lia). rewrite ?map_length, ?seq_length, ?E.
  unfold value. rewrite E'. apply sumn_ext. intros m Hm. rewrite nth_map_seq by exact Hm. rewrite fpow_mul. reflexivity.
Qed.
Print Assumptions c39_transform.

Theorem c39_inverse k fs j (vals : list G1) : settings k fs -> (j <= k)%nat -> length vals = (2 ^ j)%nat ->
  (exists t, FFTG1 fs vals false = Ret t /\ FFTG1 fs t true = Ret vals) /\
  (exists t, FFTG1 fs vals true = Ret t /\ FFTG1 fs t false = Ret vals).
Proof.
  intros S L E. assert (E' : length (map dlog1 vals) = (2 ^ j)%nat) by (rewrite map_length; exact E).
  destruct (settings_ok _ _ S) as (K & O). pose proof (wj_prim _ _ _ (rootk_prim k K) L) as P.
  assert (F : forall inv, FFTG1 fs vals inv = gmap (map mkG1) (InplaceFFT fs (map dlog1 vals) (2 ^ j) inv)).
  { intros inv. rewrite <- E', <- FFTG1_sim, map_dlog. reflexivity. }
  split; eexists; (split; [rewrite F, (InplaceFFT_ok _ _ _ _ j _ O L E'); reflexivity|]).
  - rewrite FFTG1_sim, length_dft, E', (InplaceFFT_ok _ _ _ _ j _ O L) by (rewrite length_dft; exact E').
    rewrite dft_inv; [|exact P|lia|exact E']. unfold gmap. cbn [bind]. rewrite map_dlog. reflexivity.
  - rewrite FFTG1_sim, map_length, length_dft, E', (InplaceFFT_ok _ _ _ _ j _ O L) by (rewrite map_length, length_dft; exact E').
    rewrite dft_inv2; [|exact P|lia|exact E']. unfold gmap. cbn [bind]. rewrite map_dlog. reflexivity.
Qed.
Print Assumptions c39_inverse.

Example demo_fftG1 :
  match NewFFTSettings 16 4 with
  | Ret (Some fs) =>
    match FFTG1 fs (map mkG1 demo_vals) false with
    | Ret t => (EqualG1 (nth 0 t ZeroG1) (mkG1 (of_Z 31)),
                match FFTG1 fs t true with Ret v => forallb (fun p => EqualG1 (fst p) (snd p)) (combine v (map mkG1 demo_vals)) | _ => false end)
    | _ => (false, false)
    end
  | _ => (false, false)
  end = (true, true).
Proof. vm_compute. reflexivity. Qed.

(** ** C40 *)

(** The index below 2^k is reversed in k bits: bit i of the result is bit k-1-i of the argument; the result is below
    2^k again; doing it twice gives the argument back. *)
Theorem c40_index k x : (0 <= k < 32)%Z -> (0 <= x < 2 ^ k)%Z ->
  let y := reverseBitsLimited (2 ^ k) x in
  (0 <= y < 2 ^ k)%Z /\
  (forall i, (0 <= i < k)%Z -> Z.testbit y i = Z.testbit x (k - 1 - i)) /\
  reverseBitsLimited (2 ^ k) y = x.
Proof.
  intros Hk Hx. unfold reverseBitsLimited. rewrite bitIndex_pow2 by exact Hk. fold (revk k x). cbv zeta.
  split; [apply revk_range; lia|]. split.
  - intros i Hi. rewrite revk_bit by lia. destruct (Z.ltb_spec i k); [reflexivity|lia].
  - apply revk_revk; lia.
Qed.
Print Assumptions c40_index.

(** All 32-bit words. *)
Theorem c40_word x : (0 <= x < 2 ^ 32)%Z ->
  (0 <= reverseBits x < 2 ^ 32)%Z /\
  (forall i, (0 <= i < 32)%Z -> Z.testbit (reverseBits x) i = Z.testbit x (31 - i)) /\
  reverseBits (reverseBits x) = x.
Proof.
  intros Hx. split; [apply reverseBits_range|]. split; [intros i Hi; apply reverseBits_bit, Hi|].
  assert (R : forall y, revk 32 y = reverseBits y) by (intros y; unfold revk; rewrite Z.sub_diag; apply Z.shiftr_0_r).
  rewrite <- !R. apply revk_revk; [lia|exact Hx].
Qed.
Print Assumptions c40_word.

(** Reordering a vector of 2^k elements: element i of the result is the element at the reversed index; reordering
    twice gives the vector back; nothing is lost. *)
Theorem c40_vector {A} (d : A) (values : list A) k : (k <= 31)%nat -> length values = (2 ^ k)%nat ->
  exists out, reverseBitOrderOf values = Ret out /\ Permutation values out /\
  (forall i, (i < 2 ^ k)%nat ->
     nth i out d = nth (Z.to_nat (reverseBitsLimited (2 ^ Z.of_nat k) (Z.of_nat i))) values d) /\
  reverseBitOrderOf out = Ret values.
Proof.
  intros K E.
  assert (G : forall l : list A, length l = (2 ^ k)%nat -> reverseBitOrderOf l = reverseBitOrder l).
  { intros l El. unfold reverseBitOrderOf. rewrite El, of_nat_pow2.
    destruct (Z.ltb_spec (2 ^ 31) (2 ^ Z.of_nat k)) as [Q|Q]; [|reflexivity].
    apply Z.pow_lt_mono_r_iff in Q; lia. }
  set (out := map (fun i => nth (revn k i) values d) (seq 0 (2 ^ k))).
  assert (Lo : length out = (2 ^ k)%nat) by (unfold out; rewrite map_length, seq_length; reflexivity).
  assert (N : forall i, (i < 2 ^ k)%nat -> nth i out d = nth (revn k i) values d).
  { intros i Hi. unfold out. rewrite nth_map_seq by exact Hi. reflexivity. }
  exists out. rewrite (G values E), (G out Lo).
  split; [apply (reverseBitOrder_ok d); assumption|]. split.
  - apply (proj2 (Permutation_nth values out d)). split; [lia|].
    exists (revn k). rewrite E. split; [|split].
    + intros i Hi. apply revn_lt. lia.
    + intros i j Hi Hj Q. rewrite <- (revn_revn k i), <- (revn_revn k j) by lia. rewrite Q. reflexivity.
    + exact N.
  - split.
    + intros i Hi. rewrite N by exact Hi. unfold revn, revk, reverseBitsLimited.
      rewrite bitIndex_pow2 by lia. reflexivity.
    + rewrite (reverseBitOrder_ok d out k) by (lia || assumption). f_equal.
      apply (list_ext d); [rewrite map_length, seq_length; lia|]. rewrite map_length, seq_length. intros i Hi.
      rewrite nth_map_seq by exact Hi. rewrite N by (apply revn_lt; lia). rewrite revn_revn by lia. reflexivity.
Qed.
Print Assumptions c40_vector.

(** The guard never fires: no length is refused, although the panic message names this case. *)
Theorem c40_never_refused {A} (values : list A) : (Z.of_nat (length values) <= 2 ^ 31)%Z ->
  exists out, reverseBitOrderOf values = Ret out /\ length out = length values.
Proof.
  intros L. unfold reverseBitOrderOf. destruct (Z.ltb_spec (2 ^ 31) (Z.of_nat (length values))); [lia|].
  apply reverseBitOrder_total. lia.
Qed.
Print Assumptions c40_never_refused.

Theorem c40_refusal_refuted : exists (values out : list nat),
  (forall j, length values <> (2 ^ j)%nat) /\ reverseBitOrderOf values = Ret out.
Proof.
  exists [10; 11; 12; 13; 14; 15]%nat, [10; 12; 11; 13; 14; 15]%nat. split; [|vm_compute; reflexivity].
  intros j. cbn [length]. destruct j as [|[|[|j]]]; cbn; lia.
Qed.
Print Assumptions c40_refusal_refuted.

Example demo_reverse : reverseBitOrderOf [0; 1; 2; 3; 4; 5; 6; 7]%nat = Ret [0; 4; 2; 6; 1; 5; 3; 7]%nat.
Proof. vm_compute. reflexivity. Qed.
Example demo_reverse_index : reverseBitsLimited 16 3 = 12%Z.
Proof. vm_compute. reflexivity. Qed.

(** ** C41 *)

(** Up to 2^63 the result is a power of two, not below the argument, and the least one. *)
Theorem c41_next v : (0 <= v <= 2 ^ 63)%Z ->
  exists j, (0 <= j)%Z /\ nextPowOf2 v = (2 ^ j)%Z /\ (v <= 2 ^ j)%Z /\
  forall i, (0 <= i)%Z -> (v <= 2 ^ i)%Z -> (2 ^ j <= 2 ^ i)%Z.
Proof.
  intros H. destruct (Z.eq_dec v 0) as [->|N].
  - exists 0%Z. split; [lia|]. split; [reflexivity|]. split; [cbn; lia|].
    intros i Hi _. apply Z.pow_le_mono_r; lia.
  - destruct (nextPowOf2_ok v ltac:(lia)) as (j & Hj & E & L & D). exists j.
    split; [lia|]. split; [exact E|]. split; [exact L|]. intros i Hi Li. apply Z.pow_le_mono_r; [lia|].
    destruct D as [->|D]; [exact Hi|].
    assert (Q : (2 ^ (j - 1) < 2 ^ i)%Z) by lia. apply Z.pow_lt_mono_r_iff in Q; lia.
Qed.
Print Assumptions c41_next.

(** Above 2^63 the result is 0. *)
Theorem c41_next_refuted : exists v, (0 <= v < 2 ^ 64)%Z /\ forall j, (0 <= j)%Z -> nextPowOf2 v <> (2 ^ j)%Z.
Proof.
  exists (2 ^ 63 + 1)%Z. split; [lia|]. intros j Hj. change (nextPowOf2 (2 ^ 63 + 1)) with 0%Z.
  pose proof (Z.pow_pos_nonneg 2 j ltac:(lia) Hj). lia.
Qed.
Print Assumptions c41_next_refuted.

Theorem c41_next_zero v : (2 ^ 63 < v < 2 ^ 64)%Z -> nextPowOf2 v = 0%Z.
Proof.
  intros H. unfold nextPowOf2, Len64. destruct (Z.eqb_spec v 0); [lia|]. destruct (Z.eqb_spec (v - 1) 0); [lia|].
  replace (Z.log2 (v - 1)) with 63%Z; [reflexivity|]. symmetry. apply Z.log2_unique; lia.
Qed.
Print Assumptions c41_next_zero.

(** The test for powers of two accepts, among the non-zero words, exactly the powers of two; it also accepts 0. *)
Theorem c41_test v : (0 < v < 2 ^ 64)%Z -> (IsPowerOfTwo v = true <-> exists j, (0 <= j)%Z /\ v = (2 ^ j)%Z).
Proof.
  intros H. split.
  - intros E. exists (Z.log2 v). split; [apply Z.log2_nonneg|apply IsPowerOfTwo_inv; assumption].
  - intros (j & Hj & ->). apply IsPowerOfTwo_pow. split; [exact Hj|].
    apply (Z.pow_lt_mono_r_iff 2); lia.
Qed.
Print Assumptions c41_test.

Theorem c41_test_refuted : exists v, (0 <= v < 2 ^ 64)%Z /\ IsPowerOfTwo v = true /\ forall j, (0 <= j)%Z -> v <> (2 ^ j)%Z.
Proof.
  exists 0%Z. split; [lia|]. split; [reflexivity|]. intros j Hj.
  pose proof (Z.pow_pos_nonneg 2 j ltac:(lia) Hj). lia.
Qed.
Print Assumptions c41_test_refuted.

(** The scale of a committee of 1 to 127 members is the least one with room for size+1 elements; every other uint32 is
    refused. *)
Theorem c41_scale size : (0 <= size < 2 ^ 32)%Z ->
  if ((1 <=? size) && (size <=? 127))%Z
  then exists s, GetScaleByCommitteeSize size = Ret s /\ (size + 1 <= 2 ^ s)%Z /\
       forall s', (0 <= s')%Z -> (size + 1 <= 2 ^ s')%Z -> (s <= s')%Z
  else GetScaleByCommitteeSize size = Panic.
Proof.
  intros H.
  assert (M : forall m a, (0 <= m)%Z -> (0 <= a)%Z -> (2 ^ a < m)%Z -> forall s', (0 <= s')%Z -> (m <= 2 ^ s')%Z -> (a + 1 <= s')%Z).
  { intros m a Hm Ha L s' Hs Ls. assert (Q : (2 ^ a < 2 ^ s')%Z) by lia. apply Z.pow_lt_mono_r_iff in Q; lia. }
  unfold GetScaleByCommitteeSize. cbv zeta.
  destruct (Z.leb_spec 1 size) as [A|A]; [destruct (Z.leb_spec size 127) as [B|B]|]; cbn [andb].
  - rewrite Z.mod_small by lia.
    repeat match goal with
    | |- context [(?a <? ?b)%Z] => destruct (Z.ltb_spec a b); try lia
    | |- context [(?a <=? ?b)%Z] => destruct (Z.leb_spec a b); try lia
    end; cbn [andb]; try lia; eexists; (split; [reflexivity|]); (split; [cbn; lia|]);
    first [apply (M (size + 1)%Z 0%Z) | apply (M (size + 1)%Z 1%Z) | apply (M (size + 1)%Z 2%Z) | apply (M (size + 1)%Z 3%Z) | apply (M (size + 1)%Z 4%Z) | apply (M (size + 1)%Z 5%Z) | apply (M (size + 1)%Z 6%Z)]; cbn; lia.
  - destruct (Z.eq_dec size (2 ^ 32 - 1)) as [->|N]; [reflexivity|]. rewrite Z.mod_small by lia.
    repeat match goal with
    | |- context [(?a <=? ?b)%Z] => destruct (Z.leb_spec a b); try lia
    end; rewrite ?andb_false_r; reflexivity.
  - replace size with 0%Z by lia. reflexivity.
Qed.
Print Assumptions c41_scale.

Example demo_next : nextPowOf2 100 = 128%Z /\ nextPowOf2 128 = 128%Z.
Proof. split; reflexivity. Qed.
Example demo_scale : GetScaleByCommitteeSize 4 = Ret 3%Z /\ GetScaleByCommitteeSize 3 = Ret 2%Z /\ GetScaleByCommitteeSize 128 = Panic.
Proof. repeat split; reflexivity. Qed.
