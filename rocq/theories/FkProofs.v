(** Proofs about the Toeplitz multiplication of FkModel.v. *)

Require Import ZArith List Bool Arith Lia.
From Verif Require Import Prime Fr CodecModel GoBase Poly PolyModel PolyProofs GroupModel KzgModel KzgProofs VssModel VssProofs
  FftModel FftProofs FftProofs2 FftG1 ReverseModel SampleModel FkModel.
Import ListNotations.
Local Open Scope F_scope.

(** ** Sums *)

Lemma sumn_rev n f : sumn n f = sumn n (fun i => f (n - 1 - i)%nat).
Proof.
  revert f. induction n as [|n IH]; intros f; [reflexivity|].
  rewrite (sumn_S_l n (fun i => f (S n - 1 - i)%nat)). cbn [sumn]. replace (S n - 1 - 0)%nat with n by lia.
  rewrite IH. rewrite (sumn_ext n (fun i => f (S n - 1 - S i)%nat) (fun i => f (n - 1 - i)%nat)) by (intros i Hi; f_equal; lia). ring.
Qed.

Lemma sumn_mul m l f : sumn (m * l) f = sumn m (fun t => sumn l (fun o => f (t * l + o)%nat)).
Proof.
  induction m as [|m IH]; [reflexivity|]. cbn [Nat.mul]. rewrite Nat.add_comm, sumn_app, IH. reflexivity.
Qed.

Lemma peval_upto p n z : (length p <= n)%nat -> peval p z = sumn n (fun i => nth i p 0 * fpow z i).
Proof.
  intros L. rewrite peval_sumn. replace n with (length p + (n - length p))%nat by lia. rewrite sumn_app.
  rewrite (sumn_0 (n - length p)).
  - ring.
  - intros i _. rewrite nth_overflow by lia. ring.
Qed.

Lemma nth_skipn0 (p : list Fr) a i : nth i (skipn a p) 0 = nth (a + i) p 0.
Proof.
  revert p. induction a as [|a IH]; intros p; [reflexivity|]. destruct p as [|x p]; [destruct i; reflexivity|]. apply IH.
Qed.

Lemma peval_skipn_sum p a n z : (length p <= a + n)%nat -> peval (skipn a p) z = sumn n (fun e => nth (a + e) p 0 * fpow z e).
Proof.
  intros L. rewrite (peval_upto _ n) by (rewrite skipn_length; lia). apply sumn_ext. intros i _. rewrite nth_skipn0. reflexivity.
Qed.

(** ** Cyclic convolution *)

Definition fold_conv (N : nat) (c x : list Fr) : list Fr :=
  map (fun i => nth i (pmul c x) 0 + nth (i + N) (pmul c x) 0) (seq 0 N).

Lemma length_fold_conv N c x : length (fold_conv N c x) = N.
Proof. unfold fold_conv. rewrite map_length, seq_length. reflexivity. Qed.

Lemma fold_conv_eval N c x z : length c = N -> length x = N -> fpow z N = 1 ->
  peval (fold_conv N c x) z = peval c z * peval x z.
Proof.
  intros Lc Lx Z. rewrite <- peval_pmul. pose proof (length_pmul_le c x) as LP.
  rewrite (peval_upto (pmul c x) (N + N)) by lia. rewrite sumn_app.
  rewrite (peval_upto _ N) by (rewrite length_fold_conv; lia). rewrite <- sumn_add. apply sumn_ext. intros i Hi.
  unfold fold_conv. rewrite nth_map_seq by exact Hi. cbn [plus]. rewrite fpow_add, Z, (Nat.add_comm i N). ring.
Qed.

(** ** Filling an array *)

Lemma goloop_upd {A} (d : A) (g : nat -> A) body lo n t0 : (lo + n <= length t0)%nat ->
  (forall t i, (lo <= i < lo + n)%nat -> body t i = upd t i (g i)) ->
  exists t, goloop lo n body t0 = Ret t /\ length t = length t0 /\
    forall i, nth i t d = if ((lo <=? i) && (i <? lo + n))%nat then g i else nth i t0 d.
Proof.
  intros L B.
  destruct (goloop_inv (fun m t => length t = length t0 /\
    forall i, nth i t d = if ((lo <=? i) && (i <? m))%nat then g i else nth i t0 d) lo n body t0) as (t & E & H1 & H2).
  - split; [reflexivity|]. intros i. destruct (Nat.leb_spec lo i), (Nat.ltb_spec i lo); cbn; try reflexivity; lia.
  - intros i s Hi (Hl & Hs). exists (set_nth i (g i) s). split; [|split].
    + rewrite B by exact Hi. unfold upd. rewrite (proj2 (Nat.ltb_lt _ _)) by lia. reflexivity.
    + rewrite length_set_nth. exact Hl.
    + intros j. destruct (Nat.eq_dec i j) as [->|Ne].
      * rewrite nth_set_nth_same by lia. destruct (Nat.leb_spec lo j), (Nat.ltb_spec j (1 + j)); cbn; try reflexivity; lia.
      * rewrite nth_set_nth_other by exact Ne. rewrite Hs.
        destruct (Nat.leb_spec lo j), (Nat.ltb_spec j i), (Nat.ltb_spec j (1 + i)); cbn; try reflexivity; lia.
  - exists t. split; [exact E|]. split; assumption.
Qed.

(** ** Toeplitz coefficients *)

Definition is_coeffs (p : list Fr) (k l off : nat) (c : list Fr) : Prop :=
  length c = (2 * k)%nat /\ nth 0 c 0 = nth (k * l - 1 - off) p 0 /\
  (forall i, (1 <= i <= k + 1)%nat -> nth i c 0 = 0) /\
  (forall i, (k + 2 <= i < 2 * k)%nat -> nth i c 0 = nth (k * l - 1 - off - (2 * k - i) * l) p 0).

Lemma strided_ok p k l off : length p = (k * l)%nat -> (2 <= k)%nat -> (off < l)%nat ->
  exists c, toeplitzCoeffsStepStrided p off l = Ret c /\ is_coeffs p k l off c.
Proof.
  intros L K O. assert (l <= k * l)%nat as LK by (rewrite <- (Nat.mul_1_l l) at 1; apply Nat.mul_le_mono_r; lia).
  unfold toeplitzCoeffsStepStrided. rewrite L. rewrite (proj2 (Nat.eqb_neq l 0)) by lia.
  rewrite Nat.div_mul by lia. rewrite (proj2 (Nat.leb_gt (k * l) off)) by lia.
  rewrite (idx_nth 0) by lia. cbn [bind].
  unfold upd at 1. rewrite repeat_length. rewrite (proj2 (Nat.ltb_lt 0 (k * 2))) by lia. cbn [bind].
  set (t0 := set_nth 0 (nth (k * l - 1 - off) p 0) (repeat 0 (k * 2))).
  assert (L0 : length t0 = (2 * k)%nat) by (unfold t0; rewrite length_set_nth, repeat_length; lia).
  destruct (goloop_upd 0 (fun _ => 0) (fun t i => upd t i 0) 1 (k + 1) t0) as (t1 & E1 & L1 & N1); [lia|reflexivity|].
  rewrite E1. cbn [bind].
  destruct (goloop_upd 0 (fun i => nth (2 * l - off - 1 + (i - (k + 2)) * l) p 0)
    (fun t i => bind (idx p (2 * l - off - 1 + (i - (k + 2)) * l)) (fun c => upd t i c)) (k + 2) (k * 2 - (k + 2)) t1) as (t2 & E2 & L2 & N2).
  - lia.
  - intros t i Hi. rewrite (idx_nth 0); [reflexivity|].
    assert ((i - (k + 2)) * l <= (k - 3) * l)%nat by (apply Nat.mul_le_mono_r; lia).
    rewrite L. assert ((k - 3) * l + 3 * l = k * l)%nat by (rewrite <- Nat.mul_add_distr_r; f_equal; lia). lia.
  - rewrite E2. exists t2. split; [reflexivity|]. unfold is_coeffs. split; [lia|]. split; [|split].
    + rewrite N2. rewrite (proj2 (Nat.leb_gt (k + 2) 0)) by lia. cbn [andb]. rewrite N1. change ((1 <=? 0)%nat) with false. cbn [andb]. unfold t0.
      rewrite nth_set_nth_same by (rewrite repeat_length; lia). reflexivity.
    + intros i Hi. rewrite N2. rewrite (proj2 (Nat.leb_gt (k + 2) i)) by lia. cbn [andb]. rewrite N1.
      rewrite (proj2 (Nat.leb_le 1 i)) by lia. rewrite (proj2 (Nat.ltb_lt i (1 + (k + 1)))) by lia. reflexivity.
    + intros i Hi. rewrite N2. rewrite (proj2 (Nat.leb_le (k + 2) i)) by lia.
      rewrite (proj2 (Nat.ltb_lt i (k + 2 + (k * 2 - (k + 2))))) by lia. cbn [andb]. f_equal.
      assert (A1 : ((i - (k + 2)) * l + 2 * l + k * l = i * l)%nat).
      { rewrite <- !Nat.mul_add_distr_r. f_equal. lia. }
      assert (A2 : ((2 * k - i) * l + i * l = k * l + k * l)%nat).
      { rewrite <- !Nat.mul_add_distr_r. f_equal. lia. }
      assert ((k + 2) * l <= i * l)%nat by (apply Nat.mul_le_mono_r; lia).
      rewrite Nat.mul_add_distr_r in H. lia.
Qed.

Lemma gofold_ext {S A} (b1 b2 : S -> A -> go S) l s : (forall s a, b1 s a = b2 s a) -> gofold b1 l s = gofold b2 l s.
Proof.
  intros H. revert s. induction l as [|a l IH]; intros s; [reflexivity|]. cbn [gofold]. rewrite H.
  destruct (b2 s a); cbn [bind]; auto.
Qed.

Lemma step_strided p : p <> [] -> toeplitzCoeffsStep p = toeplitzCoeffsStepStrided p 0 1.
Proof.
  intros NE. unfold toeplitzCoeffsStep, toeplitzCoeffsStepStrided. rewrite Nat.div_1_r. cbn [Nat.eqb].
  assert (L : (1 <= length p)%nat) by (destruct p; [congruence|cbn; lia]).
  rewrite (proj2 (Nat.eqb_neq (length p) 0)) by lia. rewrite (proj2 (Nat.leb_gt (length p) 0)) by lia.
  rewrite Nat.sub_0_r. destruct (idx p (length p - 1)) as [c| | |]; cbn [bind]; try reflexivity.
  destruct (upd _ 0 c) as [t| | |]; cbn [bind]; try reflexivity.
  destruct (goloop 1 _ _ t) as [t'| | |]; cbn [bind]; try reflexivity.
  unfold goloop. apply gofold_ext. intros s i.
  replace (2 * 1 - 0 - 1 + (i - (length p + 2)) * 1)%nat with (1 + (i - (length p + 2)))%nat by lia. reflexivity.
Qed.

(** ** The vector of powers *)

Definition is_powers (s : Fr) (k l off : nat) (x : list Fr) : Prop :=
  length x = k /\ (forall b, (b < k - 1)%nat -> nth b x 0 = fpow s (k * l - l - 1 - off - b * l)) /\ nth (k - 1) x 0 = 0.

(** One entry of the product. *)
Lemma toeplitz_entry s p k l off c x i : (2 <= k)%nat -> (off < l)%nat -> length p = (k * l)%nat ->
  is_coeffs p k l off c -> is_powers s k l off x -> (i < k)%nat ->
  nth i (fold_conv (2 * k) c (x ++ repeat 0 k)) 0 =
  sumn (k - 1 - i) (fun t => fpow s (k * l - l - 1 - off - (i + t) * l) * nth (k * l - 1 - off - t * l) p 0).
Proof.
  intros K O LP (Lc & C0 & C1 & C2) (Lx & X1 & X2) Hi. set (xe := x ++ repeat 0 k).
  assert (XZ : forall b, (k - 1 <= b)%nat -> nth b xe 0 = 0).
  { intros b Hb. unfold xe. destruct (Nat.lt_ge_cases b k) as [A|A].
    - rewrite app_nth1 by lia. replace b with (k - 1)%nat by lia. exact X2.
    - rewrite app_nth2 by lia. apply nth_repeat. }
  assert (XP : forall b, (b < k - 1)%nat -> nth b xe 0 = fpow s (k * l - l - 1 - off - b * l)).
  { intros b Hb. unfold xe. rewrite app_nth1 by lia. apply X1. exact Hb. }
  unfold fold_conv. rewrite nth_map_seq by lia. cbn [plus]. rewrite !nth_pmul.
  assert (A : sumn (S i) (fun j => nth j c 0 * nth (i - j) xe 0) = nth (k * l - 1 - off) p 0 * nth i xe 0).
  { rewrite (sumn_single (S i) _ 0%nat); [|lia|].
    - rewrite Nat.sub_0_r, C0. reflexivity.
    - intros j Hj Hn. rewrite (C1 j) by lia. ring. }
  rewrite A. clear A. destruct (Nat.eq_dec i (k - 1)) as [Ei|Ei].
  - rewrite (XZ i) by lia. replace (k - 1 - i)%nat with 0%nat by lia. rewrite (sumn_0 0) by (intros; lia).
    rewrite (sumn_0 (S (i + 2 * k))); [ring|]. intros j Hj.
    destruct (Nat.lt_ge_cases j (2 * k)) as [B|B]; [rewrite (XZ (i + 2 * k - j)%nat) by lia|rewrite (nth_overflow c) by lia]; ring.
  - set (m := (k - 2 - i)%nat). replace (k - 1 - i)%nat with (S m) by lia.
    rewrite (sumn_S_l m (fun t => fpow s (k * l - l - 1 - off - (i + t) * l) * nth (k * l - 1 - off - t * l) p 0)). cbv beta.
    rewrite (XP i) by lia. rewrite Nat.mul_0_l, Nat.sub_0_r, Nat.add_0_r.
    replace (S (i + 2 * k)) with ((i + k + 2) + m + (i + 1))%nat by lia.
    rewrite (sumn_app (i + k + 2 + m) (i + 1)), (sumn_app (i + k + 2) m).
    rewrite (sumn_0 (i + k + 2)).
    2: { intros j Hj. rewrite (XZ (i + 2 * k - j)%nat) by lia. ring. }
    rewrite (sumn_0 (i + 1)).
    2: { intros j Hj. rewrite (nth_overflow c) by lia. ring. }
    rewrite (sumn_rev m).
    rewrite (sumn_ext m _ (fun t => fpow s (k * l - l - 1 - off - (i + S t) * l) * nth (k * l - 1 - off - S t * l) p 0)).
    2: { intros u Hu. rewrite C2 by lia. rewrite XP by lia.
         replace (2 * k - (i + k + 2 + (m - 1 - u)))%nat with (S u) by lia.
         replace (i + 2 * k - (i + k + 2 + (m - 1 - u)))%nat with (i + S u)%nat by lia. ring. }
    ring.
Qed.

(** The sum over the offsets. *)
Definition hval (l : nat) (s : Fr) (p : list Fr) (i : nat) : Fr := peval (skipn ((i + 1) * l) p) s.

Lemma toeplitz_sum s p k l i : (2 <= k)%nat -> (1 <= l)%nat -> length p = (k * l)%nat -> (i < k)%nat ->
  sumn l (fun off => sumn (k - 1 - i) (fun t => fpow s (k * l - l - 1 - off - (i + t) * l) * nth (k * l - 1 - off - t * l) p 0)) =
  hval l s p i.
Proof.
  intros K Hl LP Hi. set (M := (k - 1 - i)%nat).
  assert (KM : (k * l = (i + 1) * l + M * l)%nat) by (rewrite <- Nat.mul_add_distr_r; f_equal; lia).
  assert (I1 : ((i + 1) * l = i * l + l)%nat) by lia.
  unfold hval. rewrite (peval_skipn_sum p ((i + 1) * l) (M * l)) by lia.
  rewrite (sumn_rev (M * l)), sumn_mul, (sumn_swap l M). apply sumn_ext. intros t Ht. apply sumn_ext. intros off Ho.
  assert (TL : (t * l + l <= M * l)%nat).
  { replace (t * l + l)%nat with ((t + 1) * l)%nat by lia. apply Nat.mul_le_mono_r. lia. }
  replace (k * l - l - 1 - off - (i + t) * l)%nat with (M * l - 1 - (t * l + off))%nat.
  2: { rewrite (Nat.mul_add_distr_r i t l). lia. }
  replace (k * l - 1 - off - t * l)%nat with ((i + 1) * l + (M * l - 1 - (t * l + off)))%nat by lia. ring.
Qed.
