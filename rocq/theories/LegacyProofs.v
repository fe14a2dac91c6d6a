(** Proofs about LegacyModel.v. *)

Require Import ZArith List Bool Arith Lia.
From Verif Require Import Prime Fr CodecModel GoBase Poly PolyProofs GroupModel VssModel VssProofs VssProofs2 FftModel FftProofs FftProofs2.
From Verif Require Import SampleModel SampleProofs ZeroProofs RecoverProofs LegacyModel.
Import ListNotations.
Local Open Scope F_scope.

(** ** The number 2 is no root of unity of a power-of-two order *)

Lemma two31 : feqb (sqs 31 (of_nat 2)) 1 = false.
Proof. vm_compute. reflexivity. Qed.

Lemma two_no_root j : (j <= 31)%nat -> fpow (of_nat 2) (2 ^ j) <> 1.
Proof.
  intros J E. apply (proj1 (feqb_neq _ _) two31). rewrite sqs_pow.
  replace 31%nat with (j + (31 - j))%nat by lia. rewrite Nat.pow_add_r, fpow_mul, E. apply fpow_1_l.
Qed.

Lemma root_pow w j n : prim w j -> fpow (fpow w n) (2 ^ j) = 1.
Proof. intros P. rewrite <- fpow_mul, Nat.mul_comm, fpow_mul, (prim_one _ _ P). apply fpow_1_l. Qed.

Lemma doubled_no_root w j a b : prim w j -> (j <= 31)%nat -> of_nat 2 * fpow w a <> fpow w b.
Proof.
  intros P J E. apply (two_no_root j J).
  rewrite <- (root_pow w j b P), <- E, fpow_mul_base, (root_pow w j a P). ring.
Qed.

Lemma two_neq_0 : of_nat 2 <> 0.
Proof. intros E. apply (pow2_nonzero 1); [lia|exact E]. Qed.

(** ** Even and odd positions *)

Lemma split_spec ps : let (even, odd) := inefficientOddEvenDiv2 ps in
  (length even + length odd = length ps)%nat /\
  (forall p, In p even -> In (2 * p)%nat ps) /\ (forall p, In p odd -> In (2 * p + 1)%nat ps) /\
  (NoDup ps -> NoDup even /\ NoDup odd) /\
  forall w x, prodlin (map (fpow w) ps) x =
    prodlin (map (fun p => fpow w (2 * p)) even) x * prodlin (map (fun p => fpow w (2 * p + 1)) odd) x.
Proof.
  induction ps as [|p ps IH]; cbn [inefficientOddEvenDiv2].
  - split; [reflexivity|]. split; [intros p []|]. split; [intros p []|]. split; [intros _; split; constructor|]. intros w x. cbn [map prodlin]. ring.
  - destruct (inefficientOddEvenDiv2 ps) as (even & odd). destruct IH as (IL & IE & IO & IN & IP).
    assert (D : (p = 2 * (p / 2) + p mod 2)%nat) by (apply Nat.div_mod; lia).
    assert (B : (p mod 2 < 2)%nat) by (apply Nat.mod_upper_bound; lia).
    change 1%nat with (Nat.ones 1) at 1. rewrite Nat.land_ones. rewrite Nat.shiftr_div_pow2. change (2 ^ 1)%nat with 2%nat.
    destruct (Nat.eqb_spec (p mod 2) 0) as [E|E].
    + assert (D0 : (2 * (p / 2) = p)%nat) by lia. cbn [length]. split; [lia|]. split; [|split; [|split]].
      * intros q [<-|Hq]; [left; symmetry; exact D0|right; apply IE; exact Hq].
      * intros q Hq. right. apply IO. exact Hq.
      * intros ND. inversion ND as [|? ? N1 N2]; subst. destruct (IN N2) as (A & C). split; [|exact C]. constructor; [|exact A].
        intros K. apply N1. rewrite <- D0. apply IE. exact K.
      * intros w x. cbn [map prodlin]. rewrite IP, D0. ring.
    + assert (D1 : (2 * (p / 2) + 1 = p)%nat) by lia. cbn [length]. split; [lia|]. split; [|split; [|split]].
      * intros q Hq. right. apply IE. exact Hq.
      * intros q [<-|Hq]; [left; symmetry; exact D1|right; apply IO; exact Hq].
      * intros ND. inversion ND as [|? ? N1 N2]; subst. destruct (IN N2) as (A & C). split; [exact A|]. constructor; [|exact C].
        intros K. apply N1. rewrite <- D1. apply IO. exact K.
      * intros w x. cbn [map prodlin]. rewrite IP, D1. ring.
Qed.

(** ** All roots of unity *)

Lemma fpow_cycle w j : prim w j -> NoDup (map (fpow w) (seq 0 (2 ^ j))).
Proof.
  intros P. assert (G : forall l, NoDup l -> (forall i, In i l -> (i < 2 ^ j)%nat) -> NoDup (map (fpow w) l)).
  { induction l as [|i l IH]; intros ND B; [constructor|]. inversion ND as [|? ? N1 N2]; subst. cbn [map]. constructor.
    - intros K. apply in_map_iff in K as (i' & E & Hi'). apply (prim_inj w j) in E; [subst; contradiction|exact P| |].
      + apply B. right. exact Hi'.
      + apply B. left. reflexivity.
    - apply IH; [exact N2|]. intros a Ha. apply B. right. exact Ha. }
  apply G; [apply seq_NoDup|]. intros i Hi. apply in_seq in Hi. lia.
Qed.

Lemma nth_plin_top xs : nth (length xs) (plin xs) 0 = 1.
Proof. apply plin_top. Qed.

Lemma plin_split xs : exists l, plin xs = l ++ [1] /\ length l = length xs.
Proof.
  exists (firstn (length xs) (plin xs)). assert (L := length_plin xs). split.
  - rewrite <- (firstn_skipn (length xs) (plin xs)) at 1. f_equal.
    assert (K : length (skipn (length xs) (plin xs)) = 1%nat) by (rewrite skipn_length; lia).
    destruct (skipn (length xs) (plin xs)) as [|a [|b t]] eqn:E; cbn in K; try lia. f_equal.
    rewrite <- (plin_top xs). rewrite <- (firstn_skipn (length xs) (plin xs)) at 1.
    rewrite app_nth2; rewrite firstn_length, Nat.min_l by lia; [|lia]. rewrite Nat.sub_diag, E. reflexivity.
  - rewrite firstn_length. lia.
Qed.

Lemma vanish_all w j ps : prim w j -> NoDup ps -> (forall p, In p ps -> (p < 2 ^ j)%nat) -> length ps = (2 ^ j)%nat ->
  forall x, prodlin (map (fpow w) ps) x = fpow x (2 ^ j) - 1.
Proof.
  intros P ND B L x.
  assert (IN : forall i, (i < 2 ^ j)%nat -> In i ps).
  { intros i Hi. apply (NoDup_length_incl (l := ps) (l' := seq 0 (2 ^ j))); [exact ND|rewrite seq_length; lia| |apply in_seq; lia].
    intros p Hp. apply in_seq. specialize (B p Hp). lia. }
  destruct (plin_split (map (fpow w) ps)) as (l & E & Ll). rewrite map_length, L in Ll.
  assert (H0 : (0 < 2 ^ j)%nat) by (pose proof (Nat.pow_nonzero 2 j); lia).
  assert (K : l = fopp 1 :: repeat 0 (2 ^ j - 1)).
  { apply (poly_unique_list (map (fpow w) (seq 0 (2 ^ j)))).
    - apply fpow_cycle. exact P.
    - cbn [length]. rewrite repeat_length. lia.
    - rewrite map_length, seq_length. lia.
    - intros y Hy. apply in_map_iff in Hy as (i & <- & Hi). apply in_seq in Hi.
      pose proof (peval_plin (map (fpow w) ps) (fpow w i)) as Q. rewrite prodlin_0 in Q by (apply in_map; apply IN; lia).
      rewrite E, peval_app, Ll, (root_pow w j i P) in Q. cbn [peval] in Q |- *. rewrite peval_repeat0.
      replace (peval l (fpow w i)) with (0 - 1); [ring|]. rewrite <- Q at 1. ring. }
  rewrite <- peval_plin, E, K, peval_app. cbn [peval length]. rewrite peval_repeat0, repeat_length.
  replace (S (2 ^ j - 1)) with (2 ^ j)%nat by lia. ring.
Qed.

(** ** The two transforms *)

Lemma nth_firstn' (l : list Fr) n i : (i < n)%nat -> nth i (firstn n l) 0 = nth i l 0.
Proof. revert n i. induction l as [|a l IH]; intros [|n] [|i] H; try lia; try reflexivity. cbn. apply IH. lia. Qed.

Lemma fft_core' W' roots vals k j s :
  (j + s = k)%nat -> length roots = (2 ^ k)%nat -> (forall i, (i < length roots)%nat -> nth i roots 0 = fpow W' i) ->
  prim W' k -> length vals = (2 ^ j)%nat ->
  fft_rec (S (2 ^ j)) vals 0 1 roots (2 ^ s) (2 ^ j) = Ret (dft (fpow W' (2 ^ s)) vals).
Proof.
  intros L E Hr P Ev. rewrite (fft_rec_ok W' roots Hr vals j).
  - f_equal. unfold dft. rewrite Ev. apply map_ext. intros i. unfold dftv. rewrite peval_sumn, Ev.
    apply sumn_ext. intros m Hm. rewrite Nat.mul_1_r. cbn [Nat.add]. rewrite <- !fpow_mul, Nat.mul_assoc. reflexivity.
  - lia.
  - pose proof (Nat.pow_nonzero 2 s). lia.
  - intros m Hm. lia.
  - rewrite E, <- Nat.pow_add_r. f_equal. lia.
  - apply (prim_stride W' j s). rewrite Nat.add_comm, L. exact P.
Qed.

Section Legacy.
Variables (fs : FFTSettings) (k : nat) (W : Fr).
Hypothesis FO : fs_ok fs k W.

Lemma exp_slice : exists l, slice_to (Expanded fs) (MaxWidth fs) = Ret l /\ length l = (2 ^ k)%nat /\
  forall i, (i < length l)%nat -> nth i l 0 = fpow W i.
Proof.
  unfold slice_to. rewrite (fo_exp_length _ _ _ FO), (fo_width _ _ _ FO), (proj2 (Nat.leb_le _ _)) by lia. eexists. split; [reflexivity|].
  assert (L : length (firstn (2 ^ k) (Expanded fs)) = (2 ^ k)%nat) by (rewrite firstn_length, (fo_exp_length _ _ _ FO); lia).
  split; [exact L|]. intros i Hi. rewrite L in Hi. rewrite nth_firstn' by exact Hi. apply (fo_exp_nth _ _ _ _ FO). lia.
Qed.

Lemma rev_slice : exists l, slice_to (Reverse fs) (MaxWidth fs) = Ret l /\ length l = (2 ^ k)%nat /\
  forall i, (i < length l)%nat -> nth i l 0 = fpow (finv W) i.
Proof.
  assert (LR : length (Reverse fs) = (2 ^ k + 1)%nat) by (rewrite (fo_rev _ _ _ FO), rev_length; apply (fo_exp_length _ _ _ FO)).
  unfold slice_to. rewrite LR, (fo_width _ _ _ FO), (proj2 (Nat.leb_le _ _)) by lia. eexists. split; [reflexivity|].
  assert (L : length (firstn (2 ^ k) (Reverse fs)) = (2 ^ k)%nat) by (rewrite firstn_length, LR; lia).
  split; [exact L|]. intros i Hi. rewrite L in Hi. rewrite nth_firstn' by exact Hi. apply (fo_rev_nth _ _ _ _ FO). lia.
Qed.

Lemma peval_pad p n x : peval (p ++ repeat 0 n) x = peval p x.
Proof. rewrite peval_app, peval_repeat0. ring. Qed.

(** legacy_recovery.go:14-50: the values of c, which is the product at the roots of unity, come back as c times the size. *)
Lemma mulPolys_ok a b c m s : (m + s = k)%nat -> (length a <= 2 ^ m)%nat -> (length b <= 2 ^ m)%nat -> length c = (2 ^ m)%nat ->
  (forall i, (i < 2 ^ m)%nat -> peval c (fpow (fpow W (2 ^ s)) i) = peval a (fpow (fpow W (2 ^ s)) i) * peval b (fpow (fpow W (2 ^ s)) i)) ->
  mulPolysWithFFT fs a b (2 ^ s) = Ret (map (fun v => v * of_nat (2 ^ m)) c).
Proof.
  intros MS La Lb Lc HC. unfold mulPolysWithFFT.
  assert (S0 : (2 ^ s =? 0)%nat = false) by (apply Nat.eqb_neq; apply Nat.pow_nonzero; lia).
  assert (SZ : (MaxWidth fs / 2 ^ s = 2 ^ m)%nat).
  { rewrite (fo_width _ _ _ FO), <- MS, Nat.pow_add_r. apply Nat.div_mul. apply Nat.pow_nonzero. lia. }
  rewrite S0, SZ. rewrite (proj2 (Nat.ltb_ge _ _) La), (proj2 (Nat.ltb_ge _ _) Lb). cbn [orb].
  destruct exp_slice as (l & El & Ll & Hl). rewrite El. cbn [bind].
  assert (LA : length (a ++ repeat 0 (2 ^ m - length a)) = (2 ^ m)%nat) by (rewrite app_length, repeat_length; lia).
  assert (LB : length (b ++ repeat 0 (2 ^ m - length b)) = (2 ^ m)%nat) by (rewrite app_length, repeat_length; lia).
  rewrite (fft_core' W l _ k m s MS Ll Hl (fo_prim _ _ _ FO) LA). cbn [bind].
  rewrite (fft_core' W l _ k m s MS Ll Hl (fo_prim _ _ _ FO) LB). cbn [bind].
  set (w := fpow W (2 ^ s)) in *. rewrite length_dft, LA.
  rewrite (gomap_ret _ (fun i => peval c (fpow w i))).
  2:{ intros i Hi. apply in_seq in Hi. rewrite !(idx_nth 0) by (rewrite length_dft; lia). cbn [bind].
      rewrite !nth_dft by lia. rewrite !peval_pad. rewrite HC by lia. reflexivity. }
  cbn [bind]. destruct rev_slice as (l' & El' & Ll' & Hl'). rewrite El'. cbn [bind].
  assert (P : prim w m) by (apply (prim_stride W m s); rewrite Nat.add_comm, MS; apply FO).
  replace (map (fun i => peval c (fpow w i)) (seq 0 (2 ^ m))) with (dft w c) by (unfold dft; rewrite Lc; reflexivity).
  rewrite (fft_core' (finv W) l' _ k m s MS Ll' Hl') by (try (apply prim_inv; apply FO); rewrite length_dft; exact Lc).
  f_equal. assert (EW : fpow (finv W) (2 ^ s) = finv w).
  { unfold w. assert (N0 : W <> 0) by (apply (prim_neq_0 W k); apply FO). pose proof (fpow_inv W (2 ^ s) N0) as Q.
    apply (fmul_cancel_l (fpow W (2 ^ s))); [apply fpow_neq_0; exact N0|]. rewrite finv_r by (apply fpow_neq_0; exact N0). rewrite <- Q. ring. }
  rewrite EW. assert (M31 : (m <= 31)%nat) by (pose proof (fo_max _ _ _ FO); lia).
  pose proof (dft_inv w m c P M31 Lc) as Q. rewrite <- Q at 2. rewrite map_map.
  rewrite <- (map_id (dft (finv w) (dft w c))) at 1. apply map_ext. intros v.
  replace (v * finv (of_nat (2 ^ m)) * of_nat (2 ^ m)) with (v * (finv (of_nat (2 ^ m)) * of_nat (2 ^ m))) by ring.
  rewrite finv_l by (apply pow2_nonzero; exact M31). ring.
Qed.

(** ** The naive product *)

Lemma naive_step_ok stride ys t pos root : (pos * stride <= 2 ^ k)%nat -> length ys = t -> (S t < length root)%nat ->
  (forall j, (j <= t)%nat -> nth j root 0 = nth (t - j) (plin ys) 0) ->
  exists root', naive_step fs stride root (S t, pos) = Ret root' /\ length root' = length root /\
    (forall j, (j <= S t)%nat -> nth j root' 0 = nth (S t - j) (plin (fpow W (pos * stride) :: ys)) 0).
Proof.
  intros V L D HR. unfold naive_step. rewrite (idx_nth 0) by (rewrite (fo_exp_length _ _ _ FO); lia).
  rewrite (fo_exp_nth _ _ _ _ FO) by exact V. cbn [bind]. set (x := fpow W (pos * stride)).
  unfold upd at 1. rewrite (proj2 (Nat.ltb_lt _ _) D). cbn [bind]. set (root1 := set_nth (S t) 0 root).
  assert (L1 : length root1 = length root) by apply length_set_nth.
  assert (N1 : forall j, (j <= t)%nat -> nth j root1 0 = nth (t - j) (plin ys) 0).
  { intros j Hj. unfold root1. rewrite nth_set_nth_other by lia. apply HR. exact Hj. }
  assert (N2 : nth (S t) root1 0 = 0) by (unfold root1; apply nth_set_nth_same; exact D).
  destruct (godown_inv (fun j (s : list Fr) => length s = length root /\
      (forall q, (q < j)%nat -> nth q s 0 = nth q root1 0) /\
      (forall q, (j <= q <= S t)%nat -> nth q s 0 = nth q root1 0 - nth (q - 1) root1 0 * x))
    (fun root j => a <- idx root (j - 1) ;; b <- idx root j ;; upd root j (b - a * x)) 1 (S t) root1) as (root2 & E2 & L2 & A2 & B2).
  - split; [exact L1|]. split; [auto|]. intros q Hq. lia.
  - intros i s Hi (Ls & As & Bs). rewrite (idx_nth 0) by lia. cbn [bind]. rewrite (idx_nth 0) by lia. cbn [bind].
    unfold upd. rewrite (proj2 (Nat.ltb_lt _ _)) by lia. eexists. split; [reflexivity|].
    rewrite length_set_nth. split; [exact Ls|]. split.
    + intros q Hq. rewrite nth_set_nth_other by lia. apply As. lia.
    + intros q Hq. destruct (Nat.eq_dec i q) as [<-|Q].
      * rewrite nth_set_nth_same by lia. rewrite !As by lia. reflexivity.
      * rewrite nth_set_nth_other by exact Q. apply Bs. lia.
  - rewrite E2. exists root2. split; [reflexivity|]. split; [exact L2|]. intros j Hj. cbn [plin]. rewrite nth_pmul_lin.
    destruct j as [|j].
    + rewrite A2 by lia. rewrite N1 by lia. rewrite !Nat.sub_0_r.
      rewrite (nth_overflow (plin ys)) with (n := S t) by (rewrite length_plin; lia). ring.
    + rewrite B2 by lia. cbn [Nat.sub]. rewrite Nat.sub_0_r. rewrite (N1 j) by lia. destruct (Nat.eq_dec j t) as [->|Q].
      * rewrite N2, Nat.sub_diag. ring.
      * rewrite N1 by lia. replace (t - j)%nat with (S (t - S j)) by lia. ring.
Qed.

Lemma naive_ok stride ps : (forall p, In p ps -> (p * stride <= 2 ^ k)%nat) ->
  exists root, gofold (naive_step fs stride) (combine (seq 1 (length ps)) ps) (1 :: repeat 0 (length ps)) = Ret root /\
    rev root = plin (rev (map (fun p => fpow W (p * stride)) ps)).
Proof.
  intros B.
  destruct (gofold_inv (fun (done : list (nat * nat)) (root : list Fr) => length root = S (length ps) /\
      (forall j, (j <= length done)%nat -> nth j root 0 = nth (length done - j) (plin (rev (map (fun ip => fpow W (snd ip * stride)) done))) 0))
    (naive_step fs stride) (combine (seq 1 (length ps)) ps) (1 :: repeat 0 (length ps))) as (root & E & L & HR).
  - cbn [length]. rewrite repeat_length. split; [reflexivity|]. intros j Hj. assert (j = 0%nat) by lia. subst j. reflexivity.
  - intros l1 (i & p) l2 root EL (L & HR).
    assert (LC : length (combine (seq 1 (length ps)) ps) = length ps) by (rewrite combine_length, seq_length; lia).
    assert (Ei : i = S (length l1)).
    { assert (Q : nth (length l1) (combine (seq 1 (length ps)) ps) (0%nat, 0%nat) = (i, p)).
      { rewrite EL, app_nth2, Nat.sub_diag by lia. reflexivity. }
      rewrite combine_nth in Q by (rewrite seq_length; reflexivity). injection Q as Q _. rewrite seq_nth in Q; [lia|].
      rewrite EL, app_length in LC. cbn [length] in LC. lia. }
    subst i. assert (IP : In p ps).
    { apply (in_combine_r (seq 1 (length ps)) ps (S (length l1)) p). rewrite EL. apply in_or_app. right. left. reflexivity. }
    destruct (naive_step_ok stride (rev (map (fun ip => fpow W (snd ip * stride)) l1)) (length l1) p root) as (root' & E' & L' & HR').
    + apply B. exact IP.
    + rewrite rev_length, map_length. reflexivity.
    + rewrite L. rewrite EL, app_length in LC. cbn [length] in LC. lia.
    + exact HR.
    + exists root'. split; [exact E'|]. split; [lia|]. intros j Hj. rewrite app_length in Hj |- *. cbn [length] in Hj |- *.
      rewrite map_app, rev_app_distr. cbn [map rev app snd]. rewrite Nat.add_1_r in Hj |- *. apply HR'. exact Hj.
  - exists root. split; [exact E|].
    assert (LC : length (combine (seq 1 (length ps)) ps) = length ps) by (rewrite combine_length, seq_length; lia).
    rewrite LC in HR.
    assert (EM : map (fun ip : nat * nat => fpow W (snd ip * stride)) (combine (seq 1 (length ps)) ps) = map (fun p => fpow W (p * stride)) ps).
    { rewrite <- (map_map snd (fun p => fpow W (p * stride))). f_equal. generalize 1%nat. clear. induction ps as [|p ps IH]; intros a; [reflexivity|].
      cbn [length seq combine map snd]. rewrite IH. reflexivity. }
    rewrite EM in HR. apply nth_ext with (d := 0) (d' := 0).
    + rewrite rev_length, length_plin, rev_length, map_length. exact L.
    + intros i Hi. rewrite rev_length, L in Hi. rewrite rev_nth by lia. rewrite L. rewrite HR by lia. f_equal. lia.
Qed.

(** ** The vanishing polynomial *)

(** z is, up to a factor, the product of x - w^p. *)
Definition vanishes (z : list Fr) (w : Fr) (ps : list nat) : Prop :=
  exists c, c <> 0 /\ forall x, peval z x = c * prodlin (map (fpow w) ps) x.

Lemma prodlin_scale c xs x : c <> 0 -> prodlin xs (finv c * x) = fpow (finv c) (length xs) * prodlin (map (fun a => c * a) xs) x.
Proof.
  intros C. induction xs as [|a xs IH]; cbn [prodlin map length fpow]; [ring|]. rewrite IH.
  replace (finv c * x - a) with (finv c * (x - c * a)); [ring|].
  replace (finv c * (x - c * a)) with (finv c * x - (finv c * c) * a) by ring. rewrite finv_l by exact C. ring.
Qed.

Lemma forallb_zero l : forallb (fun a => feqb a 0) l = true -> forall i, nth i l 0 = 0.
Proof.
  intros H i. destruct (Nat.lt_ge_cases i (length l)) as [Q|Q]; [|apply nth_overflow; exact Q].
  rewrite forallb_forall in H. apply feqb_eq. apply H. apply nth_In. exact Q.
Qed.

Lemma naive_case s ps m : (m + s = k)%nat -> (forall p, In p ps -> (p < 2 ^ m)%nat) ->
  exists z, (root <- gofold (naive_step fs (2 ^ s)) (combine (seq 1 (length ps)) ps) (1 :: repeat 0 (length ps)) ;; Ret (rev root)) = Ret z /\
    vanishes z (fpow W (2 ^ s)) ps /\ length z = S (length ps).
Proof.
  intros MS B. destruct (naive_ok (2 ^ s) ps) as (root & E & R).
  { intros p Hp. specialize (B p Hp). rewrite <- MS, Nat.pow_add_r. apply Nat.mul_le_mono; lia. }
  rewrite E. cbn [bind]. exists (rev root). split; [reflexivity|]. split.
  - exists 1. split; [apply f1_neq_0|]. intros x. rewrite R, peval_plin, prodlin_rev.
    replace (map (fun p => fpow W (p * 2 ^ s)) ps) with (map (fpow (fpow W (2 ^ s))) ps); [ring|].
    apply map_ext. intros p. rewrite <- fpow_mul, Nat.mul_comm. reflexivity.
  - rewrite R, length_plin, rev_length, map_length. reflexivity.
Qed.

Lemma zPoly_ok : forall m fuel s ps, (m + s = k)%nat -> (m < fuel)%nat -> NoDup ps -> (forall p, In p ps -> (p < 2 ^ m)%nat) ->
  exists z, zPoly fuel fs ps (2 ^ s) = Ret z /\ vanishes z (fpow W (2 ^ s)) ps /\
    length z = if (length ps <=? 4)%nat then S (length ps) else if (length ps <? 2 ^ m)%nat then (2 ^ m)%nat else S (2 ^ m).
Proof.
  induction m as [|m IH]; intros fuel s ps MS Fu ND B; (destruct fuel as [|fuel]; [lia|]); cbn [zPoly].
  - assert (L4 : (length ps <= 4)%nat).
    { pose proof (NoDup_incl_length ND (l' := [0%nat])) as Q. cbn [length] in Q.
      assert (I : incl ps [0%nat]) by (intros p Hp; specialize (B p Hp); cbn in B; left; lia). specialize (Q I). lia. }
    rewrite (proj2 (Nat.leb_le _ _) L4). apply (naive_case s ps 0 MS B).
  - destruct (Nat.leb_spec (length ps) 4) as [L4|L4]; [apply (naive_case s ps (S m) MS B)|].
    pose proof (split_spec ps) as SP. destruct (inefficientOddEvenDiv2 ps) as (even & odd). destruct SP as (SL & SE & SO & SN & SPr).
    destruct (SN ND) as (NE & NO). set (w := fpow W (2 ^ s)) in *.
    assert (P : prim w (S m)) by (apply (prim_stride W (S m) s); rewrite Nat.add_comm, MS; apply FO).
    assert (w0 : w <> 0) by (apply (prim_neq_0 w (S m)); exact P).
    assert (LP : (length ps <= 2 ^ S m)%nat).
    { rewrite <- (seq_length (2 ^ S m) 0). apply NoDup_incl_length; [exact ND|]. intros p Hp. apply in_seq. specialize (B p Hp). lia. }
    assert (P2 : (2 ^ S m = 2 * 2 ^ m)%nat) by reflexivity.
    assert (M2 : (4 <= 2 ^ m)%nat).
    { destruct m as [|[|m']]; [cbn in LP; lia|cbn in LP; lia|]. cbn [Nat.pow]. pose proof (Nat.pow_nonzero 2 m'). lia. }
    assert (S2 : (2 ^ s * 2 = 2 ^ S s)%nat) by (cbn [Nat.pow]; lia).
    assert (W2 : fpow W (2 ^ S s) = fpow w 2) by (unfold w; rewrite <- fpow_mul; f_equal; cbn [Nat.pow]; lia).
    rewrite S2.
    destruct (IH fuel (S s) even) as (zl & El & (cl & Cl & Vl) & Ll); [lia|lia|exact NE|intros p Hp; specialize (B _ (SE p Hp)); lia|].
    destruct (IH fuel (S s) odd) as (zr & Er & (cr & Cr & Vr) & Lr); [lia|lia|exact NO|intros p Hp; specialize (B _ (SO p Hp)); lia|].
    rewrite El. cbn [bind]. rewrite Er. cbn [bind]. rewrite W2 in Vl, Vr.
    assert (LR : length (Reverse fs) = (2 ^ k + 1)%nat) by (rewrite (fo_rev _ _ _ FO), rev_length; apply (fo_exp_length _ _ _ FO)).
    assert (SK : (2 ^ s <= 2 ^ k)%nat) by (apply pow2_le; lia).
    rewrite (idx_nth 0) by lia. rewrite (fo_rev_nth _ _ _ _ FO) by exact SK. cbn [bind].
    assert (EW : fpow (finv W) (2 ^ s) = finv w).
    { assert (N0 : W <> 0) by (apply (prim_neq_0 W k); apply FO). pose proof (fpow_inv W (2 ^ s) N0) as Q.
      apply (fmul_cancel_l w); [exact w0|]. rewrite finv_r by exact w0. rewrite <- Q. unfold w. ring. }
    rewrite EW.
    assert (PR : forall x, peval zl x * peval (pOfKX zr (finv w)) x = (cl * cr * fpow (finv w) (length odd)) * prodlin (map (fpow w) ps) x).
    { intros x. rewrite pOfKX_eval, Vl, Vr. rewrite prodlin_scale by exact w0. rewrite map_length, SPr.
      replace (map (fpow (fpow w 2)) even) with (map (fun p => fpow w (2 * p)) even) by (apply map_ext; intros p; apply fpow_mul).
      replace (map (fun a => w * a) (map (fpow (fpow w 2)) odd)) with (map (fun p => fpow w (2 * p + 1)) odd); [ring|].
      rewrite map_map. apply map_ext. intros p. rewrite fpow_add, fpow_mul, fpow_1. ring. }
    set (cc := cl * cr * fpow (finv w) (length odd)) in *.
    assert (CC : cc <> 0).
    { unfold cc. apply fmul_neq_0; [apply fmul_neq_0; assumption|]. apply fpow_neq_0. apply finv_neq_0. exact w0. }
    assert (LL : (length zl <= 2 ^ S m)%nat).
    { rewrite Ll. destruct (Nat.leb_spec (length even) 4); [lia|]. destruct (_ <? _)%nat; lia. }
    assert (LRR : (length (pOfKX zr (finv w)) <= 2 ^ S m)%nat).
    { unfold pOfKX. rewrite scale_powers_length, Lr, P2. clear - M2. destruct (Nat.leb_spec (length odd) 4); [lia|]. destruct (length odd <? 2 ^ m)%nat; lia. }
    assert (M31 : (S m <= 31)%nat) by (pose proof (fo_max _ _ _ FO); lia).
    pose proof (pow2_nonzero (S m) M31) as NZ.
    destruct (Nat.ltb_spec (length ps) (2 ^ S m)) as [LT|GE].
    + set (c := pscale cc (plin (map (fpow w) ps)) ++ repeat 0 (2 ^ S m - S (length ps))).
      assert (LPc : length (pscale cc (plin (map (fpow w) ps))) = S (length ps)) by (rewrite length_pscale, length_plin, map_length; reflexivity).
      assert (Lc : length c = (2 ^ S m)%nat) by (unfold c; rewrite app_length, repeat_length, LPc; lia).
      assert (Ec : forall x, peval c x = cc * prodlin (map (fpow w) ps) x).
      { intros x. unfold c. rewrite peval_pad, peval_pscale, peval_plin. reflexivity. }
      rewrite (mulPolys_ok zl (pOfKX zr (finv w)) c (S m) s MS LL LRR Lc) by (intros i Hi; fold w; rewrite Ec, PR; reflexivity).
      cbn [bind].
      assert (NF : forallb (fun a => feqb a 0) (map (fun v => v * of_nat (2 ^ S m)) c) = false).
      { destruct (forallb _ _) eqn:FB; [|reflexivity]. exfalso. pose proof (forallb_zero _ FB (length ps)) as Q.
        rewrite (nth_indep _ 0 (0 * of_nat (2 ^ S m))) in Q by (rewrite map_length; lia). rewrite (map_nth (fun v => v * of_nat (2 ^ S m))) in Q.
        assert (NC : nth (length ps) c 0 = cc).
        { unfold c. rewrite app_nth1 by lia. unfold pscale. rewrite nth_indep with (d' := cc * 0) by (rewrite map_length, length_plin, map_length; lia).
          rewrite (map_nth (fun a => cc * a)). rewrite <- (map_length (fpow w) ps), plin_top. ring. }
        rewrite NC in Q. revert Q. apply fmul_neq_0; assumption. }
      rewrite NF. eexists. split; [reflexivity|]. split.
      * exists (cc * of_nat (2 ^ S m)). split; [apply fmul_neq_0; assumption|]. intros x.
        replace (map (fun v => v * of_nat (2 ^ S m)) c) with (pscale (of_nat (2 ^ S m)) c) by (unfold pscale; apply map_ext; intros v; ring).
        rewrite peval_pscale, Ec. ring.
      * rewrite map_length. exact Lc.
    + assert (LE : length ps = (2 ^ S m)%nat) by lia. pose proof (vanish_all w (S m) ps P ND B LE) as VA.
      rewrite (mulPolys_ok zl (pOfKX zr (finv w)) (repeat 0 (2 ^ S m)) (S m) s MS LL LRR).
      2: apply repeat_length.
      2: { intros i Hi. fold w. rewrite PR, VA, (root_pow w (S m) i P), peval_repeat0. ring. }
      cbn [bind].
      assert (EM : map (fun v => v * of_nat (2 ^ S m)) (repeat 0 (2 ^ S m)) = repeat 0 (2 ^ S m)).
      { generalize (2 ^ S m)%nat at 2 3. intros n. induction n as [|n IHn]; [reflexivity|]. cbn [repeat map]. rewrite IHn. f_equal. }
      rewrite EM.
      assert (FB : forallb (fun a => feqb a 0) (repeat 0 (2 ^ S m)) = true).
      { apply forallb_forall. intros a Ha. apply repeat_spec in Ha. subst. apply feqb_eq. reflexivity. }
      rewrite FB. unfold upd. rewrite repeat_length, (proj2 (Nat.ltb_lt _ _)) by lia. cbn [bind]. eexists. split; [reflexivity|].
      rewrite length_set_nth, repeat_length. split.
      * exists (fopp 1). split; [intros Q; apply f1_neq_0; replace 1 with (fopp (fopp 1)) by ring; rewrite Q; ring|]. intros x. rewrite VA. cbn [peval]. rewrite peval_app, peval_repeat0, repeat_length. cbn [peval].
        replace (2 ^ S m)%nat with (S (2 ^ S m - 1)) at 2 by lia. cbn [fpow]. ring.
      * cbn [length]. rewrite app_length, repeat_length. cbn [length]. lia.
Qed.

(** ** One attempt *)

Lemma FFT_val vals j : (j <= k)%nat -> (length vals <= 2 ^ j)%nat -> (j = 0%nat \/ 2 ^ (j - 1) < length vals)%nat ->
  FFT fs vals false = Ret (map (fun i => peval vals (fpow (wj W k j) i)) (seq 0 (2 ^ j))).
Proof.
  intros J L D. rewrite (FFT_pad fs k W vals j false FO J L D).
  assert (LE : length (vals ++ repeat 0 (2 ^ j - length vals)) = (2 ^ j)%nat) by (rewrite app_length, repeat_length; lia).
  rewrite (InplaceFFT_ok _ _ _ _ _ _ FO J LE). f_equal. unfold dft. rewrite LE. apply map_ext. intros i. apply peval_pad.
Qed.

Lemma unscale_scale c l : c <> 0 -> unscale (finv c) (pOfKX l c) = l.
Proof.
  intros C. assert (E : forall l, unscale (finv c) l = scale_powers (finv c) 1 l).
  { intros [|a t]; [reflexivity|]. cbn [unscale scale_powers]. f_equal; [ring|]. f_equal. ring. }
  rewrite E. unfold pOfKX. apply (list_ext 0); [rewrite !scale_powers_length; reflexivity|]. intros i _.
  rewrite !scale_powers_nth. pose proof (fpow_inv c i C) as Q.
  replace (nth i l 0 * (1 * fpow c i) * (1 * fpow (finv c) i)) with (nth i l 0 * (fpow (finv c) i * fpow c i)) by ring.
  rewrite Q. ring.
Qed.

Lemma matches_ok output : forall vals i, (i + length vals <= length output)%nat ->
  (forall a s, nth a vals None = Some s -> nth (i + a) output 0 = s) -> matches vals i output = Ret true.
Proof.
  induction vals as [|[v|] vals IH]; intros i L H; cbn [matches]; [reflexivity| |]; cbn [length] in L.
  - rewrite (idx_nth 0) by lia. cbn [bind]. pose proof (H 0%nat v eq_refl) as Q. rewrite Nat.add_0_r in Q. rewrite Q.
    rewrite (proj2 (feqb_eq v v) eq_refl). apply IH; [lia|]. intros a s Ha. specialize (H (S a) s Ha).
    rewrite Nat.add_succ_r in H. exact H.
  - apply IH; [lia|]. intros a s Ha. specialize (H (S a) s Ha). rewrite Nat.add_succ_r in H. exact H.
Qed.

Lemma attempt_ok vals z c qp j jz : (j <= jz <= k)%nat -> length vals = (2 ^ j)%nat -> length c = (2 ^ j)%nat -> length qp = (2 ^ j)%nat ->
  (length z <= 2 ^ jz)%nat -> (jz = 0%nat \/ 2 ^ (jz - 1) < length z)%nat ->
  (forall i, peval z (of_nat 2 * fpow (wj W k jz) i) <> 0) ->
  (forall i, (i < 2 ^ j)%nat -> peval c (of_nat 2 * fpow (wj W k j) i) =
     peval qp (of_nat 2 * fpow (wj W k j) i) * peval z (of_nat 2 * fpow (wj W k jz) i)) ->
  (forall i s, nth i vals None = Some s -> peval qp (fpow (wj W k j) i) = s) ->
  attempt fs vals z c 2 = Ret (Some (map (fun i => peval qp (fpow (wj W k j) i)) (seq 0 (2 ^ j)))).
Proof.
  intros J L Lc Lq Lz Dz NZ EQ HV. unfold attempt. set (w := wj W k j) in *. set (u := wj W k jz) in *.
  assert (K31 : (k <= 31)%nat) by apply FO.
  assert (P : prim w j) by (apply wj_prim; [apply FO|lia]).
  assert (DJ : forall l : list Fr, length l = (2 ^ j)%nat -> (j = 0%nat \/ 2 ^ (j - 1) < length l)%nat).
  { intros l El. destruct j as [|j']; [left; reflexivity|right]. rewrite El. cbn [Nat.sub Nat.pow]. rewrite Nat.sub_0_r. pose proof (Nat.pow_nonzero 2 j'). lia. }
  assert (LP : forall l, length (pOfKX l (of_nat 2)) = length l) by (intros l; unfold pOfKX; apply scale_powers_length).
  assert (J1 : (j <= k)%nat) by lia. assert (J2 : (jz <= k)%nat) by lia. assert (J3 : (2 ^ j <= 2 ^ jz)%nat) by (apply pow2_le; lia).
  rewrite (FFT_val _ j J1) by (try apply DJ; rewrite LP; lia). cbn [bind].
  rewrite (FFT_val _ jz J2) by (rewrite LP; assumption). cbn [bind]. fold w u.
  rewrite multiInv_ok.
  2:{ intros E. apply (f_equal (@length _)) in E. rewrite map_length, seq_length in E. cbn [length] in E. pose proof (Nat.pow_nonzero 2 jz). lia. }
  2:{ intros v Hv. apply in_map_iff in Hv as (i & <- & _). rewrite pOfKX_eval. apply NZ. }
  cbn [bind]. rewrite map_length, seq_length.
  rewrite (gomap_ret _ (fun i => peval (pOfKX qp (of_nat 2)) (fpow w i))).
  2:{ intros i Hi. apply in_seq in Hi. rewrite (idx_nth 0) by (rewrite map_length, seq_length; lia). cbn [bind].
      rewrite (idx_nth 0) by (rewrite !map_length, seq_length; lia). cbn [bind]. rewrite map_map.
      rewrite !nth_map_seq by lia. cbn [Nat.add]. rewrite !pOfKX_eval. rewrite EQ by lia. f_equal.
      specialize (NZ i). set (y := peval z _) in *. replace (peval qp (of_nat 2 * fpow w i) * y * finv y) with (peval qp (of_nat 2 * fpow w i) * (y * finv y)) by ring.
      rewrite finv_r by exact NZ. ring. }
  cbn [bind].
  assert (D2 : map (fun i => peval (pOfKX qp (of_nat 2)) (fpow w i)) (seq 0 (2 ^ j)) = dft w (pOfKX qp (of_nat 2))) by (unfold dft; rewrite LP, Lq; reflexivity).
  rewrite D2. rewrite (FFT_ok _ _ _ _ j _ FO J1) by (rewrite length_dft, LP; exact Lq). fold w. cbn [bind].
  rewrite dft_inv by (try exact P; try lia; rewrite LP; exact Lq).
  rewrite unscale_scale by apply two_neq_0.
  rewrite (FFT_val qp j J1) by (try apply DJ; lia). fold w. cbn [bind].
  rewrite (matches_ok _ vals 0).
  - cbn [bind]. reflexivity.
  - rewrite map_length, seq_length. lia.
  - intros a s Ha. cbn [Nat.add]. assert (Q : (a < 2 ^ j)%nat).
    { destruct (Nat.lt_ge_cases a (2 ^ j)) as [Q|Q]; [exact Q|]. rewrite nth_overflow in Ha by lia. discriminate. }
    rewrite nth_map_seq by exact Q. apply HV. exact Ha.
Qed.

Lemma fuel_enough j : (j < S (2 ^ j))%nat.
Proof. assert (H : (j < 2 ^ j)%nat) by (apply Nat.pow_gt_lin_r; lia). lia. Qed.

Lemma missing_NoDup vals : NoDup (missing_of vals).
Proof. unfold missing_of. apply NoDup_filter, seq_NoDup. Qed.

Lemma stride_of j : (j <= k)%nat -> (MaxWidth fs / 2 ^ j = 2 ^ (k - j))%nat.
Proof.
  intros J. rewrite (fo_width _ _ _ FO). replace k with ((k - j) + j)%nat at 1 by lia. rewrite Nat.pow_add_r. apply Nat.div_mul. apply Nat.pow_nonzero. lia.
Qed.

Lemma missing_bound vals : (length (missing_of vals) <= length vals)%nat.
Proof.
  rewrite <- (seq_length (length vals) 0). apply NoDup_incl_length; [apply missing_NoDup|]. intros i Hi. apply in_missing in Hi as (Hi & _). apply in_seq. lia.
Qed.

(** The vanishing polynomial of the missing positions. *)
Lemma zPoly_missing vals j : (j <= k)%nat -> length vals = (2 ^ j)%nat ->
  exists z, zPoly (S (2 ^ j)) fs (missing_of vals) (MaxWidth fs / 2 ^ j) = Ret z /\ vanishes z (wj W k j) (missing_of vals) /\
    length z = if (length (missing_of vals) <=? 4)%nat then S (length (missing_of vals))
               else if (length (missing_of vals) <? 2 ^ j)%nat then (2 ^ j)%nat else S (2 ^ j).
Proof.
  intros J L. rewrite stride_of by exact J. apply zPoly_ok; [lia|apply fuel_enough|apply missing_NoDup|].
  intros p Hp. apply in_missing in Hp as (Hp & _). lia.
Qed.

Lemma ErasureCodeRecover_ok vals j q : (j <= k)%nat -> length vals = (2 ^ j)%nat ->
  (length (missing_of vals) < 2 ^ j)%nat -> (4 < length (missing_of vals) \/ 2 ^ j < 2 * (length (missing_of vals) + 1))%nat ->
  length q = (2 ^ j - length (missing_of vals))%nat ->
  (forall i s, nth i vals None = Some s -> peval q (fpow (wj W k j) i) = s) ->
  ErasureCodeRecover fs vals = Ret (map (fun i => peval q (fpow (wj W k j) i)) (seq 0 (2 ^ j))).
Proof.
  intros J L Mn M4 Lq Hq. set (w := wj W k j) in *. set (missing := missing_of vals) in *.
  assert (K31 : (k <= 31)%nat) by apply FO.
  assert (P : prim w j) by (apply wj_prim; [apply FO|exact J]).
  assert (N0 : (0 < 2 ^ j)%nat) by (pose proof (Nat.pow_nonzero 2 j); lia).
  unfold ErasureCodeRecover. rewrite L, (proj2 (Nat.eqb_neq _ _)) by lia.
  destruct (zPoly_missing vals j J L) as (z & Ez & (cz & Cz & Vz) & Lz). fold missing w in Ez, Vz, Lz. fold missing. rewrite Ez. cbn [bind].
  assert (LZ : (length z <= 2 ^ j)%nat).
  { rewrite Lz. destruct (Nat.leb_spec (length missing) 4); [lia|]. destruct (Nat.ltb_spec (length missing) (2 ^ j)); lia. }
  assert (DZ : (j = 0%nat \/ 2 ^ (j - 1) < length z)%nat).
  { destruct j as [|j']; [left; reflexivity|right]. rewrite Lz. cbn [Nat.sub]. rewrite Nat.sub_0_r.
    change (2 ^ S j')%nat with (2 * 2 ^ j')%nat in *.
    destruct (Nat.leb_spec (length missing) 4); [lia|]. destruct (Nat.ltb_spec (length missing) (2 * 2 ^ j')); lia. }
  rewrite (FFT_val z j J LZ DZ). fold w. cbn [bind].
  set (c := pscale cz (pmul q (plin (map (fpow w) missing)))).
  assert (Lc : length c = (2 ^ j)%nat).
  { unfold c. rewrite length_pscale, length_pmul.
    - rewrite length_plin, map_length. lia.
    - intros E. rewrite E in Lq. cbn in Lq. lia.
    - intros E. apply (f_equal (@length _)) in E. rewrite length_plin in E. cbn in E. lia. }
  assert (Ec : forall x, peval c x = peval q x * peval z x).
  { intros x. unfold c. rewrite peval_pscale, peval_pmul, peval_plin, Vz. ring. }
  rewrite (gomap_ret _ (fun i => peval c (fpow w i))).
  2:{ intros i Hi. apply in_seq in Hi. rewrite Ec. destruct (nth i vals None) as [s|] eqn:E.
      - rewrite (idx_nth 0) by (rewrite map_length, seq_length; lia). rewrite nth_map_seq by lia. cbn [bind Nat.add]. rewrite (Hq i s E). reflexivity.
      - f_equal. rewrite Vz, prodlin_0; [ring|]. apply in_map. apply in_missing. split; [lia|exact E]. }
  cbn [bind].
  assert (D1 : map (fun i => peval c (fpow w i)) (seq 0 (2 ^ j)) = dft w c) by (unfold dft; rewrite Lc; reflexivity).
  rewrite D1. rewrite (FFT_ok _ _ _ _ j _ FO J) by (rewrite length_dft; exact Lc). fold w. cbn [bind].
  rewrite dft_inv by (try exact P; try exact Lc; lia).
  set (qp := q ++ repeat 0 (2 ^ j - length q)).
  assert (Lqp : length qp = (2 ^ j)%nat) by (unfold qp; rewrite app_length, repeat_length; lia).
  assert (Eq : forall x, peval qp x = peval q x) by (intros x; apply peval_pad).
  cbn [seq attempts]. rewrite (attempt_ok vals z c qp j j).
  - cbn [bind]. f_equal. apply map_ext. intros i. apply Eq.
  - lia.
  - exact L.
  - exact Lc.
  - exact Lqp.
  - exact LZ.
  - exact DZ.
  - intros i. rewrite Vz. apply fmul_neq_0; [exact Cz|]. apply prodlin_neq_0. intros H. apply in_map_iff in H as (v & Ev & _).
    apply (doubled_no_root w j i v P); [lia|]. symmetry. exact Ev.
  - intros i _. rewrite Ec, Eq. reflexivity.
  - intros i s H. rewrite Eq. apply Hq. exact H.
Qed.

(** Few missing samples: fewer values of the vanishing polynomial than samples. *)
Lemma ErasureCodeRecover_few vals j : (j <= k)%nat -> length vals = (2 ^ j)%nat ->
  (length (missing_of vals) <= 4)%nat -> (2 * (length (missing_of vals) + 1) <= 2 ^ j)%nat -> ErasureCodeRecover fs vals = Panic.
Proof.
  intros J L M4 M2. unfold ErasureCodeRecover. rewrite L, (proj2 (Nat.eqb_neq _ _)) by lia.
  destruct (zPoly_missing vals j J L) as (z & Ez & _ & Lz). rewrite Ez. cbn [bind]. rewrite (proj2 (Nat.leb_le _ _) M4) in Lz.
  set (m := length (missing_of vals)) in *.
  assert (exists a, (m + 1 <= 2 ^ a)%nat /\ (a = 0%nat \/ 2 ^ (a - 1) < m + 1)%nat /\ (S a <= j)%nat) as (a & A1 & A2 & A3).
  { assert (G : forall a, (2 ^ a <= m + 1)%nat -> (S a <= j)%nat).
    { intros a Ha. destruct (Nat.le_gt_cases (S a) j) as [Q|Q]; [exact Q|]. exfalso. pose proof (pow2_le j a). lia. }
    assert (G' : forall a, (2 ^ a < m + 1)%nat -> (S (S a) <= j)%nat).
    { intros a Ha. destruct (Nat.le_gt_cases (S (S a)) j) as [Q|Q]; [exact Q|]. exfalso. pose proof (pow2_le j (S a)) as R. cbn [Nat.pow] in R. lia. }
    destruct (Nat.le_gt_cases (m + 1) 1); [exists 0%nat; split; [cbn; lia|]; split; [left; reflexivity|apply G; cbn; lia]|].
    destruct (Nat.le_gt_cases (m + 1) 2); [exists 1%nat; split; [cbn; lia|]; split; [right; cbn; lia|apply G'; cbn; lia]|].
    destruct (Nat.le_gt_cases (m + 1) 4); [exists 2%nat; split; [cbn; lia|]; split; [right; cbn; lia|apply G'; cbn; lia]|].
    exists 3%nat. split; [cbn; lia|]. split; [right; cbn; lia|]. apply G'. cbn. lia. }
  rewrite <- Nat.add_1_r in Lz. rewrite (FFT_val z a) by (rewrite ?Lz; try assumption; lia). cbn [bind].
  assert (PA : (2 * 2 ^ a <= 2 ^ j)%nat) by (change (2 * 2 ^ a)%nat with (2 ^ S a)%nat; apply pow2_le; exact A3).
  assert (exists i s, (2 ^ a <= i < 2 ^ j)%nat /\ nth i vals None = Some s) as (i0 & s0 & I0 & V0).
  { destruct (existsb (fun i => negb (is_missing vals i)) (seq (2 ^ a) (2 ^ j - 2 ^ a))) eqn:E.
    - apply existsb_exists in E as (i & Hi & E). apply in_seq in Hi. unfold is_missing in E. destruct (nth i vals None) as [s|] eqn:Ei; [|discriminate].
      exists i, s. split; [lia|exact Ei].
    - exfalso. assert (I : incl (seq (2 ^ a) (2 ^ j - 2 ^ a)) (missing_of vals)).
      { intros i Hi. apply in_missing. pose proof Hi as Hi'. apply in_seq in Hi'. split; [lia|]. destruct (nth i vals None) as [s|] eqn:Ei; [|reflexivity].
        exfalso. assert (T : existsb (fun i => negb (is_missing vals i)) (seq (2 ^ a) (2 ^ j - 2 ^ a)) = true).
        { apply existsb_exists. exists i. split; [exact Hi|]. unfold is_missing. rewrite Ei. reflexivity. }
        congruence. }
      apply NoDup_incl_length in I; [|apply seq_NoDup]. rewrite seq_length in I. fold m in I. lia. }
  match goal with |- (_ <- gomap ?f _ ;; _) = _ => set (body := f) end.
  assert (G : forall l, (forall i, In i l -> body i <> Error /\ body i <> Fatal) -> (exists i, In i l /\ body i = Panic) -> gomap body l = Panic).
  { induction l as [|x l IH]; intros NB (i & Hi & Bi); [destruct Hi|]. cbn [gomap]. destruct (body x) eqn:Bx.
    - cbn [bind]. rewrite IH; [reflexivity| |].
      + intros y Hy. apply NB. right. exact Hy.
      + destruct Hi as [->|Hi]; [congruence|]. exists i. split; assumption.
    - reflexivity.
    - exfalso. destruct (NB x (or_introl eq_refl)). congruence.
    - exfalso. destruct (NB x (or_introl eq_refl)). congruence. }
  rewrite G; [reflexivity| |].
  - intros i _. unfold body, idx. destruct (nth i vals None); [|split; discriminate]. destruct (nth_error _ _); cbn [bind]; split; discriminate.
  - exists i0. split; [apply in_seq; lia|]. unfold body. rewrite V0, idx_panic by (rewrite map_length, seq_length; lia). reflexivity.
Qed.

(** All samples missing. *)
Lemma ErasureCodeRecover_none vals j : (j < k)%nat -> length vals = (2 ^ j)%nat ->
  length (missing_of vals) = (2 ^ j)%nat -> ErasureCodeRecover fs vals = Ret (repeat 0 (2 ^ j)).
Proof.
  intros J L Mn. assert (K31 : (k <= 31)%nat) by apply FO. unfold ErasureCodeRecover.
  assert (N0 : (0 < 2 ^ j)%nat) by (pose proof (Nat.pow_nonzero 2 j); lia).
  rewrite L, (proj2 (Nat.eqb_neq _ _)) by lia.
  destruct (zPoly_missing vals j) as (z & Ez & (cz & Cz & Vz) & Lz); [lia|exact L|]. rewrite Ez. cbn [bind]. rewrite Mn, Nat.ltb_irrefl in Lz.
  assert (LZ : length z = S (2 ^ j)) by (rewrite Lz; destruct (_ <=? _)%nat; reflexivity).
  assert (P2 : (2 ^ S j = 2 * 2 ^ j)%nat) by reflexivity.
  assert (D : (S j = 0%nat \/ 2 ^ (S j - 1) < length z)%nat) by (right; cbn [Nat.sub]; rewrite Nat.sub_0_r; lia).
  rewrite (FFT_val z (S j)) by (try assumption; lia). cbn [bind].
  assert (AN : forall i, nth i vals None = None).
  { intros i. destruct (Nat.lt_ge_cases i (2 ^ j)) as [Q|Q]; [|apply nth_overflow; lia].
    assert (I : In i (missing_of vals)).
    { apply (NoDup_length_incl (l := missing_of vals) (l' := seq 0 (2 ^ j))); [apply missing_NoDup|rewrite seq_length; lia| |apply in_seq; lia].
      intros p Hp. apply in_missing in Hp as (Hp & _). apply in_seq. lia. }
    apply in_missing in I. apply I. }
  rewrite (gomap_ret _ (fun _ => 0)) by (intros i _; rewrite AN; reflexivity). cbn [bind].
  set (c := repeat 0 (2 ^ j)). assert (Lc : length c = (2 ^ j)%nat) by apply repeat_length.
  assert (Ec : forall x, peval c x = 0) by (intros x; apply peval_repeat0).
  assert (P : prim (wj W k j) j) by (apply wj_prim; [apply FO|lia]).
  assert (D1 : map (fun _ => 0) (seq 0 (2 ^ j)) = dft (wj W k j) c) by (unfold dft; rewrite Lc; apply map_ext; intros i; rewrite Ec; reflexivity).
  rewrite D1. rewrite (FFT_ok _ _ _ _ j _ FO) by (try lia; rewrite length_dft; exact Lc). cbn [bind].
  rewrite dft_inv by (try exact P; try exact Lc; lia).
  cbn [seq attempts]. rewrite (attempt_ok vals z c c j (S j)).
  - cbn [bind]. f_equal. fold c. rewrite <- Lc. apply (list_ext 0); [rewrite map_length, seq_length; reflexivity|].
    intros i Hi. rewrite map_length, seq_length in Hi. rewrite nth_map_seq by exact Hi. rewrite Ec. unfold c. symmetry. apply nth_repeat.
  - lia.
  - exact L.
  - exact Lc.
  - exact Lc.
  - lia.
  - exact D.
  - intros i. rewrite Vz. apply fmul_neq_0; [exact Cz|]. apply prodlin_neq_0. intros H. apply in_map_iff in H as (v & Ev & _).
    assert (P' : prim (wj W k (S j)) (S j)) by (apply wj_prim; [apply FO|lia]).
    assert (EW : wj W k j = fpow (wj W k (S j)) 2).
    { unfold wj. rewrite <- fpow_mul. f_equal. replace (k - j)%nat with (S (k - S j)) by lia. cbn [Nat.pow]. lia. }
    rewrite EW, <- fpow_mul in Ev. apply (doubled_no_root (wj W k (S j)) (S j) i (2 * v) P'); [lia|]. symmetry. exact Ev.
  - intros i _. rewrite !Ec. ring.
  - intros i s H. rewrite AN in H. discriminate.
Qed.

Lemma ErasureCodeRecover_none_full vals : length vals = (2 ^ k)%nat ->
  length (missing_of vals) = (2 ^ k)%nat -> ErasureCodeRecover fs vals = Error.
Proof.
  intros L Mn. unfold ErasureCodeRecover.
  assert (N0 : (0 < 2 ^ k)%nat) by (pose proof (Nat.pow_nonzero 2 k); lia).
  rewrite L, (proj2 (Nat.eqb_neq _ _)) by lia.
  destruct (zPoly_missing vals k) as (z & Ez & _ & Lz); [lia|exact L|]. rewrite Ez. cbn [bind]. rewrite Mn, Nat.ltb_irrefl in Lz.
  assert (LZ : length z = S (2 ^ k)) by (rewrite Lz; destruct (_ <=? _)%nat; reflexivity).
  unfold FFT. rewrite (fo_width _ _ _ FO), LZ, (proj2 (Nat.ltb_lt _ _)) by lia. reflexivity.
Qed.

Lemma gomap_len {A B} (f : A -> go B) : forall l r, gomap f l = Ret r -> length r = length l.
Proof.
  induction l as [|a l IH]; intros r H; cbn [gomap] in H; [injection H as <-; reflexivity|].
  apply bind_ret in H as (b & _ & H). apply bind_ret in H as (bs & E & H). injection H as <-. cbn [length]. rewrite (IH _ E). reflexivity.
Qed.

Lemma ErasureCodeRecover_long vals out : (2 ^ k < length vals)%nat -> ErasureCodeRecover fs vals <> Ret out.
Proof.
  intros L H. unfold ErasureCodeRecover in H. rewrite (proj2 (Nat.eqb_neq _ _)) in H by lia.
  apply bind_ret in H as (z & _ & H). apply bind_ret in H as (zv & _ & H). apply bind_ret in H as (pz & E & H).
  apply gomap_len in E. rewrite seq_length in E. unfold FFT in H. rewrite (fo_width _ _ _ FO), E in H.
  rewrite (proj2 (Nat.ltb_lt _ _)) in H by lia. discriminate.
Qed.
End Legacy.
