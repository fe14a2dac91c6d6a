(** Proofs about the recovery of missing samples. *)

Require Import ZArith List Bool Arith Lia.
From Verif Require Import Prime Fr CodecModel GoBase Poly GroupModel VssModel VssProofs FftModel FftProofs FftProofs2
  SampleModel SampleProofs ZeroProofs ZeroProofs2.
Import ListNotations.
Local Open Scope F_scope.

(** ** Interpolation *)

Lemma interp_exists : forall pts : list (Fr * Fr), NoDup (map fst pts) ->
  exists q, length q = length pts /\ forall x y, In (x, y) pts -> peval q x = y.
Proof.
  induction pts as [|[x0 y0] pts IH]; intros ND.
  - exists []. split; [reflexivity|]. intros x y [].
  - cbn [map] in ND. inversion ND as [|a l NI ND' Ea]; subst. cbn [fst] in NI.
    destruct (IH ND') as (q & L & H). set (P := plin (map fst pts)).
    assert (NZ : peval P x0 <> 0) by (unfold P; rewrite peval_plin; apply prodlin_neq_0; exact NI).
    exists (padd q (pscale ((y0 - peval q x0) * finv (peval P x0)) P)). split.
    + rewrite length_padd, length_pscale. unfold P. rewrite length_plin, map_length. cbn [length]. lia.
    + intros x y [Q|Q].
      * inversion Q; subst. rewrite peval_padd, peval_pscale.
        replace (peval q x + (y - peval q x) * finv (peval P x) * peval P x)
          with (peval q x + (y - peval q x) * (finv (peval P x) * peval P x)) by ring.
        rewrite finv_l by exact NZ. ring.
      * rewrite peval_padd, peval_pscale. unfold P at 2. rewrite peval_plin, prodlin_0.
        -- rewrite (H x y Q). ring.
        -- apply in_map_iff. exists (x, y). split; [reflexivity|exact Q].
Qed.

Lemma prim_inj w j a b : prim w j -> (a < 2 ^ j)%nat -> (b < 2 ^ j)%nat -> fpow w a = fpow w b -> a = b.
Proof.
  intros P. assert (W : w <> 0) by exact (prim_neq_0 _ _ P).
  assert (G : forall a b, (a < b)%nat -> (b < 2 ^ j)%nat -> fpow w a <> fpow w b).
  { intros a' b' L Lb E. apply (prim_order _ _ P (b' - a')%nat); [lia|].
    replace b' with (a' + (b' - a'))%nat in E by lia. rewrite fpow_add in E.
    apply (fmul_cancel_l (fpow w a')); [apply fpow_neq_0; exact W|]. rewrite <- E. ring. }
  intros La Lb E. destruct (Nat.lt_trichotomy a b) as [Q|[Q|Q]]; [|exact Q|]; exfalso.
  - exact (G a b Q Lb E).
  - exact (G b a Q La (eq_sym E)).
Qed.

(** 5 is not a root of unity of the domain. *)
Fixpoint sqs (n : nat) (a : Fr) : Fr := match n with O => a | S m => sqs m (a * a) end.
Lemma sqs_pow : forall n a, sqs n a = fpow a (2 ^ n).
Proof.
  induction n as [|n IH]; intros a; [rewrite fpow_1; reflexivity|]. cbn [sqs]. rewrite IH.
  cbn [Nat.pow]. rewrite fpow_mul. f_equal. cbn. ring.
Qed.
Lemma five31 : feqb (sqs 31 (of_nat 5)) 1 = false.
Proof. vm_compute. reflexivity. Qed.

Lemma five_no_root j : (j <= 31)%nat -> fpow (of_nat 5) (2 ^ j) <> 1.
Proof.
  intros J E. apply (proj1 (feqb_neq _ _) five31). rewrite sqs_pow.
  replace 31%nat with (j + (31 - j))%nat by lia. rewrite Nat.pow_add_r, fpow_mul, E. apply fpow_1_l.
Qed.

Lemma shifted_no_root w j a b : prim w j -> (j <= 31)%nat -> finv (of_nat 5) * fpow w a <> fpow w b.
Proof.
  intros P J E. apply (five_no_root j J).
  assert (R : forall n, fpow (fpow w n) (2 ^ j) = 1).
  { intros n. rewrite <- fpow_mul, Nat.mul_comm, fpow_mul, (prim_one _ _ P). apply fpow_1_l. }
  assert (T : fpow (finv (of_nat 5)) (2 ^ j) = 1).
  { rewrite <- (R b), <- E, fpow_mul_base, R. ring. }
  pose proof (fpow_inv (of_nat 5) (2 ^ j) five_neq_0) as F. rewrite T in F. rewrite <- F. ring.
Qed.

(** ** The samples *)

Definition is_missing (samples : list (option Fr)) (i : nat) : bool :=
  match nth i samples None with None => true | Some _ => false end.

Lemma filter_split {A} (f : A -> bool) l :
  (length (filter f l) + length (filter (fun a => negb (f a)) l) = length l)%nat.
Proof. induction l as [|a l IH]; [reflexivity|]. cbn [filter]. destruct (f a); cbn [negb length]; lia. Qed.

Lemma in_missing samples i : In i (missing_of samples) <-> (i < length samples)%nat /\ nth i samples None = None.
Proof.
  unfold missing_of. rewrite filter_In, in_seq. destruct (nth i samples None); cbn; split; intros H.
  - destruct H; discriminate.
  - destruct H; discriminate.
  - split; [lia|reflexivity].
  - split; [lia|reflexivity].
Qed.

Lemma samples_interp w j samples : prim w j -> length samples = (2 ^ j)%nat ->
  exists q, length q = (2 ^ j - length (missing_of samples))%nat /\
    forall i s, nth i samples None = Some s -> peval q (fpow w i) = s.
Proof.
  intros P L. set (known := filter (fun i => negb (is_missing samples i)) (seq 0 (2 ^ j))).
  set (val := fun i => match nth i samples None with Some s => s | None => 0 end).
  destruct (interp_exists (map (fun i => (fpow w i, val i)) known)) as (q & Lq & Hq).
  - rewrite map_map. cbn [fst]. 
    assert (ND : NoDup known) by (apply NoDup_filter, seq_NoDup).
    assert (B : forall i, In i known -> (i < 2 ^ j)%nat).
    { intros i Hi. apply filter_In in Hi as (Hi & _). apply in_seq in Hi. lia. }
    clear -ND B P. induction known as [|i l IH]; [constructor|]. inversion ND; subst. cbn [map]. constructor.
    + intros H. apply in_map_iff in H as (i' & E & Hi'). apply (prim_inj w j) in E.
      * subst. contradiction.
      * exact P.
      * apply B. right. exact Hi'.
      * apply B. left. reflexivity.
    + apply IH; [assumption|]. intros i' Hi'. apply B. right. exact Hi'.
  - exists q. split.
    + rewrite Lq, map_length. pose proof (filter_split (is_missing samples) (seq 0 (2 ^ j))) as F.
      rewrite seq_length in F. unfold missing_of. rewrite L. fold known in F.
      change (fun i => match nth i samples None with Some _ => false | None => true end) with (is_missing samples). lia.
    + intros i s H. assert (Hi : (i < 2 ^ j)%nat).
      { rewrite <- L. destruct (Nat.lt_ge_cases i (length samples)) as [Q|Q]; [exact Q|]. rewrite nth_overflow in H by exact Q. discriminate. }
      apply Hq. apply in_map_iff. exists i. split; [unfold val; rewrite H; reflexivity|].
      apply filter_In. split; [apply in_seq; lia|]. unfold is_missing. rewrite H. reflexivity.
Qed.

Lemma scale_dft k w p i : peval (scale_powers k 1 p) (fpow w i) = peval p (k * fpow w i).
Proof. rewrite peval_scale. ring. Qed.

Section Recover.
Variables (fs : FFTSettings) (k : nat) (W : Fr).
Hypothesis FO : fs_ok fs k W.

Lemma Recover_ok samples j q : (j <= k)%nat -> length samples = (2 ^ j)%nat ->
  missing_of samples <> [] -> fits (length (missing_of samples)) (2 ^ j) ->
  length q = (2 ^ j - length (missing_of samples))%nat ->
  (forall i s, nth i samples None = Some s -> peval q (fpow (wj W k j) i) = s) ->
  RecoverPolyFromSamples fs samples (ZeroPolyViaMultiplication fs) =
  Ret (map (fun i => peval q (fpow (wj W k j) i)) (seq 0 (2 ^ j))).
Proof.
  intros J L NE Fi Lq Hq. set (w := wj W k j) in *. set (n := (2 ^ j)%nat) in *. set (missing := missing_of samples) in *.
  assert (K31 : (k <= 31)%nat) by apply FO.
  assert (P : prim w j) by (apply wj_prim; [apply FO|exact J]).
  assert (V : forall v, In v missing -> (v < 2 ^ j)%nat).
  { intros v Hv. apply in_missing in Hv as (Hv & _). fold n. lia. }
  destruct (ZeroPoly_ok fs k W FO missing j J NE V Fi) as (zp & EZ & Lz & RZ). fold w n in EZ, Lz, RZ.
  set (roots := map (fpow w) missing) in *. destruct RZ as (_ & _ & RZ).
  assert (Lr : length roots = length missing) by (unfold roots; apply map_length).
  assert (Z0 : forall i, (i < n)%nat -> feqb (prodlin roots (fpow w i)) 0 = is_missing samples i).
  { intros i Hi. unfold is_missing. destruct (nth i samples None) as [s|] eqn:E.
    - apply feqb_neq. apply prodlin_neq_0. intros H. apply in_map_iff in H as (v & Ev & Hv).
      apply (prim_inj w j) in Ev; [|exact P|exact (V v Hv)|exact Hi]. subst v. apply in_missing in Hv as (_ & Hv). congruence.
    - apply feqb_eq. apply prodlin_0. apply in_map. apply in_missing. split; [lia|exact E]. }
  unfold RecoverPolyFromSamples. rewrite L. fold missing. rewrite EZ. cbn [bind].
  assert (ND : forall i, (i < n)%nat -> idx (dft w zp) i = Ret (prodlin roots (fpow w i))).
  { intros i Hi. rewrite (idx_nth 0) by (rewrite length_dft; lia). rewrite nth_dft by lia. rewrite RZ. reflexivity. }
  rewrite (gomap_ret _ (fun _ => tt)).
  2:{ intros i Hi. apply in_seq in Hi. rewrite ND by lia. cbn [bind]. rewrite Z0 by lia. unfold is_missing.
      rewrite Bool.eqb_reflx. reflexivity. }
  cbn [bind].
  set (c := pmul q (plin roots)).
  assert (Fm : (length missing < n)%nat) by (destruct Fi as (Fi & _); exact Fi).
  assert (Lc : length c = n).
  { unfold c. rewrite length_pmul.
    - rewrite length_plin. lia.
    - intros E. rewrite E in Lq. cbn in Lq. lia.
    - intros E. apply (f_equal (@length _)) in E. rewrite length_plin in E. cbn in E. lia. }
  assert (Ec : forall x, peval c x = peval q x * prodlin roots x).
  { intros x. unfold c. rewrite peval_pmul, peval_plin. reflexivity. }
  rewrite (gomap_ret _ (fun i => peval c (fpow w i))).
  2:{ intros i Hi. apply in_seq in Hi. rewrite Ec. destruct (nth i samples None) as [s|] eqn:E.
      - rewrite ND by lia. cbn [bind]. rewrite (Hq i s E). reflexivity.
      - f_equal. rewrite prodlin_0; [ring|]. apply in_map. apply in_missing. split; [lia|exact E]. }
  cbn [bind].
  assert (D1 : map (fun i => peval c (fpow w i)) (seq 0 n) = dft w c) by (unfold dft; rewrite Lc; reflexivity).
  rewrite D1. rewrite (FFT_ok _ _ _ _ j _ FO J) by (rewrite length_dft; exact Lc). fold w n. cbn [bind].
  unfold n at 1. rewrite dft_inv by (try exact P; try exact Lc; lia).
  assert (LS : length (ShiftPoly c) = (2 ^ j)%nat) by (unfold ShiftPoly; rewrite scale_powers_length; exact Lc).
  rewrite (FFT_ok _ _ _ _ j _ FO J LS). fold w. cbn [bind].
  assert (LZ : length (ShiftPoly zp) = (2 ^ j)%nat) by (unfold ShiftPoly; rewrite scale_powers_length; exact Lz).
  rewrite (FFT_ok _ _ _ _ j _ FO J LZ). fold w. cbn [bind].
  rewrite length_dft, LS. fold n.
  set (qp := q ++ repeat 0 (n - length q)).
  assert (Lqp : length qp = n) by (unfold qp; rewrite app_length, repeat_length; lia).
  assert (Eq : forall x, peval qp x = peval q x) by (intros x; unfold qp; rewrite peval_app, peval_repeat0; ring).
  rewrite (gomap_ret _ (fun i => peval (ShiftPoly qp) (fpow w i))).
  2:{ intros i Hi. apply in_seq in Hi.
      rewrite (idx_nth 0) by (rewrite length_dft; lia). rewrite nth_dft by lia. cbn [bind].
      rewrite (idx_nth 0) by (rewrite length_dft; lia). rewrite nth_dft by lia. cbn [bind].
      unfold ShiftPoly. rewrite !scale_dft. rewrite Ec, RZ, Eq. f_equal.
      set (x := finv (of_nat 5) * fpow w i).
      assert (NZ : prodlin roots x <> 0).
      { apply prodlin_neq_0. intros H. apply in_map_iff in H as (v & Ev & _).
        apply (shifted_no_root w j i v P); [lia|]. symmetry. exact Ev. }
      replace (finv (prodlin roots x) * (peval q x * prodlin roots x))
        with (peval q x * (finv (prodlin roots x) * prodlin roots x)) by ring.
      rewrite finv_l by exact NZ. ring. }
  cbn [bind].
  assert (LQ : length (ShiftPoly qp) = (2 ^ j)%nat) by (unfold ShiftPoly; rewrite scale_powers_length; exact Lqp).
  assert (D2 : map (fun i => peval (ShiftPoly qp) (fpow w i)) (seq 0 n) = dft w (ShiftPoly qp)) by (unfold dft; rewrite LQ; reflexivity).
  rewrite D2. rewrite (FFT_ok _ _ _ _ j _ FO J) by (rewrite length_dft; exact LQ). fold w. cbn [bind].
  rewrite dft_inv by (try exact P; try exact LQ; lia).
  rewrite unshift_shift. rewrite (FFT_ok _ _ _ _ j _ FO J) by exact Lqp. fold w. cbn [bind].
  rewrite (gomap_ret _ (fun _ => tt)).
  2:{ intros i Hi. apply in_seq in Hi. destruct (nth i samples None) as [s|] eqn:E; [|reflexivity].
      rewrite (idx_nth 0) by (rewrite length_dft; lia). rewrite nth_dft by lia. cbn [bind].
      rewrite Eq, (Hq i s E). rewrite (proj2 (feqb_eq s s) eq_refl). reflexivity. }
  cbn [bind]. f_equal. unfold dft. rewrite Lqp. apply map_ext. intros i. apply Eq.
Qed.
End Recover.
