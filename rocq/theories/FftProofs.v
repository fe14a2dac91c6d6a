(** Proofs about the Fourier transforms. *)

Require Import ZArith List Bool Arith Lia.
From Verif Require Import Prime Fr CodecModel GoBase Poly GroupModel VssModel VssProofs FftModel.
Import ListNotations.
Local Open Scope F_scope.

(** ** Roots of unity of order 2^k *)

Definition prim (W : Fr) (k : nat) : Prop :=
  match k with O => W = 1 | S k' => fpow W (2 ^ k') = fopp 1 end.

Lemma opp1_neq : fopp 1 <> 1.
Proof. intros H. apply (f_equal fv) in H. vm_compute in H. discriminate H. Qed.

Lemma fpow_1 a : fpow a 1 = a.
Proof. cbn. ring. Qed.

Lemma prim_one W k : prim W k -> fpow W (2 ^ k) = 1.
Proof.
  destruct k as [|k]; cbn [prim]; intros H.
  - change (2 ^ 0)%nat with 1%nat. rewrite fpow_1. exact H.
  - replace (2 ^ S k)%nat with (2 ^ k + 2 ^ k)%nat by (cbn; lia). rewrite fpow_add, H. ring.
Qed.

Lemma prim_sq W k : prim W (S k) -> prim (fpow W 2) k.
Proof.
  intros H. destruct k as [|k]; cbn [prim] in *.
  - change (2 ^ 0)%nat with 1%nat in H. rewrite fpow_1 in H. subst W. cbn. ring.
  - rewrite <- fpow_mul. replace (2 * 2 ^ k)%nat with (2 ^ S k)%nat by (cbn; lia). exact H.
Qed.

Lemma prim_stride W k j : prim W (j + k) -> prim (fpow W (2 ^ j)) k.
Proof.
  revert W. induction j as [|j IH]; intros W H.
  - change (2 ^ 0)%nat with 1%nat. rewrite fpow_1. exact H.
  - replace (2 ^ S j)%nat with (2 * 2 ^ j)%nat by (cbn; lia). rewrite fpow_mul. apply IH.
    apply prim_sq. exact H.
Qed.

Lemma prim_order W : forall k, prim W k -> forall d, (0 < d < 2 ^ k)%nat -> fpow W d <> 1.
Proof.
  intros k. revert W. induction k as [|k IH]; intros W H d L E.
  - cbn in L. lia.
  - pose proof (prim_sq _ _ H) as H2. cbn [prim] in H.
    destruct (Nat.lt_ge_cases d (2 ^ k)) as [L1|L1].
    + apply (IH _ H2 d); [lia|]. rewrite <- fpow_mul. replace (2 * d)%nat with (d + d)%nat by lia.
      rewrite fpow_add, E. ring.
    + assert (E2 : fpow W (d - 2 ^ k) = fopp 1).
      { replace d with (2 ^ k + (d - 2 ^ k))%nat in E by lia. rewrite fpow_add, H in E.
        transitivity (fopp 1 * (fopp 1 * fpow W (d - 2 ^ k))); [ring|]. rewrite E. ring. }
      destruct (Nat.eq_dec (d - 2 ^ k) 0) as [Z|Z].
      * rewrite Z in E2. cbn in E2. apply opp1_neq. symmetry. exact E2.
      * apply (IH _ H2 (d - 2 ^ k)%nat); [cbn in L; lia|].
        rewrite <- fpow_mul. replace (2 * (d - 2 ^ k))%nat with ((d - 2 ^ k) + (d - 2 ^ k))%nat by lia.
        rewrite fpow_add, E2. ring.
Qed.

Lemma prim_neq_0 W k : prim W k -> W <> 0.
Proof.
  intros H E. pose proof (prim_one _ _ H) as H1. subst W.
  assert (P : exists m, (2 ^ k)%nat = S m) by (exists (2 ^ k - 1)%nat; pose proof (Nat.pow_nonzero 2 k); lia).
  destruct P as (m & Em). rewrite Em in H1. cbn in H1.
  apply f1_neq_0. rewrite <- H1. ring.
Qed.

Lemma fpow_inv W n : W <> 0 -> fpow (finv W) n * fpow W n = 1.
Proof.
  intros H. rewrite <- fpow_mul_base, (finv_l W) by exact H. apply fpow_1_l.
Qed.

Lemma prim_inv W k : prim W k -> prim (finv W) k.
Proof.
  intros H. pose proof (prim_neq_0 _ _ H) as N0.
  destruct k as [|k]; cbn [prim] in *.
  - subst W. transitivity (finv 1 * 1); [ring|]. apply finv_l. exact f1_neq_0.
  - pose proof (fpow_inv W (2 ^ k) N0) as E. rewrite H in E.
    transitivity (fopp 1 * (fpow (finv W) (2 ^ k) * fopp 1)); [ring|]. rewrite E. ring.
Qed.

Lemma fpow_mod w l a : (0 < l)%nat -> fpow w l = 1 -> fpow w (a mod l) = fpow w a.
Proof.
  intros L E. rewrite (Nat.div_mod a l) at 2 by lia.
  rewrite fpow_add, fpow_mul, E, fpow_1_l. ring.
Qed.

(** ** The transform *)

(** The value of the polynomial with the coefficients vals[off], vals[off+stride], ... at w^i. *)
Definition dftv (vals : list Fr) (off stride n : nat) (w : Fr) (i : nat) : Fr :=
  sumn n (fun j => nth (off + j * stride) vals 0 * fpow w (i * j)).

Section Fft.
Variables (W : Fr) (roots : list Fr).
Hypothesis Hroots : forall i, (i < length roots)%nat -> nth i roots 0 = fpow W i.

Lemma simpleFT_ok vals off stride rstride l : (0 < l)%nat -> (0 < rstride)%nat ->
  (forall j, (j < l)%nat -> (off + j * stride < length vals)%nat) ->
  length roots = (l * rstride)%nat -> fpow (fpow W rstride) l = 1 ->
  simpleFT vals off stride roots rstride l =
  Ret (map (dftv vals off stride l (fpow W rstride)) (seq 0 l)).
Proof.
  intros L R V E P. unfold simpleFT. apply gomap_ret. intros i Hi.
  rewrite (idx_nth 0) by (specialize (V O L); lia). cbn [bind].
  rewrite (idx_nth 0) by nia. cbn [bind].
  destruct (goloop_inv (fun j s => s = sumn j (fun j => nth (off + j * stride) vals 0 * fpow (fpow W rstride) (i * j)))
    1 (l - 1) (fun last j =>
      jv <- idx vals (off + j * stride) ;;
      r <- idx roots (((i * j) mod l) * rstride) ;;
      Ret (last + jv * r)) (nth off vals 0 * nth 0 roots 0)) as (s & Es & Ps).
  - cbn [sumn]. rewrite (Hroots O) by nia. rewrite Nat.mul_0_r. cbn [Nat.mul fpow]. rewrite Nat.add_0_r. ring.
  - intros j s Hj Ps. assert (Lj : ((i * j) mod l < l)%nat) by (apply Nat.mod_upper_bound; lia).
    rewrite (idx_nth 0) by (apply V; lia). cbn [bind].
    rewrite (idx_nth 0) by nia. cbn [bind]. eexists. split; [reflexivity|].
    cbn [Nat.add sumn]. rewrite <- Ps. f_equal. f_equal.
    rewrite Hroots by nia. rewrite Nat.mul_comm, fpow_mul. apply fpow_mod; assumption.
  - rewrite Es. f_equal. rewrite Ps. replace (1 + (l - 1))%nat with l by lia. reflexivity.
Qed.

(** Even and odd part. *)
Lemma dftv_split vals off stride n w i :
  dftv vals off stride (n + n) w i =
  dftv vals off (stride * 2) n (fpow w 2) i + dftv vals (off + stride) (stride * 2) n (fpow w 2) i * fpow w i.
Proof.
  unfold dftv. rewrite <- sumn_scale_r.
  induction n as [|n IH]; [cbn; ring|].
  replace (S n + S n)%nat with (S (S (n + n))) by lia. cbn [sumn]. rewrite IH.
  replace (off + (n + n) * stride)%nat with (off + n * (stride * 2))%nat by lia.
  replace (off + S (n + n) * stride)%nat with (off + stride + n * (stride * 2))%nat by lia.
  rewrite <- !fpow_mul.
  replace (i * (n + n))%nat with (2 * (i * n))%nat by lia.
  replace (i * S (n + n))%nat with (2 * (i * n) + i)%nat by lia.
  rewrite fpow_add. ring.
Qed.

Lemma dftv_period vals off stride n w i : fpow w n = 1 ->
  dftv vals off stride n w (i + n) = dftv vals off stride n w i.
Proof.
  intros E. unfold dftv. apply sumn_ext. intros j _. f_equal.
  rewrite Nat.mul_add_distr_r, fpow_add, (fpow_mul w n j), E, fpow_1_l. ring.
Qed.

Lemma fft_rec_ok vals : forall k fuel off stride rstride,
  (2 ^ k <= fuel)%nat -> (0 < rstride)%nat ->
  (forall j, (j < 2 ^ k)%nat -> (off + j * stride < length vals)%nat) ->
  length roots = (2 ^ k * rstride)%nat -> prim (fpow W rstride) k ->
  fft_rec fuel vals off stride roots rstride (2 ^ k) =
  Ret (map (dftv vals off stride (2 ^ k) (fpow W rstride)) (seq 0 (2 ^ k))).
Proof.
  induction k as [|k IH]; intros fuel off stride rstride Lf R V E P;
    (destruct fuel as [|fuel]; [match type of Lf with (2 ^ ?m <= _)%nat => pose proof (Nat.pow_nonzero 2 m) end; lia|]).
  - apply simpleFT_ok; try assumption; [cbn; lia|]. apply prim_one in P. exact P.
  - cbn [fft_rec]. destruct (Nat.leb_spec (2 ^ S k) 4) as [L4|L4].
    + apply simpleFT_ok; try assumption; [pose proof (Nat.pow_nonzero 2 (S k)); lia|]. apply prim_one in P. exact P.
    + set (n := (2 ^ k)%nat) in *. assert (En : (2 ^ S k = n + n)%nat) by (unfold n; cbn; lia).
      rewrite En in *. replace ((n + n) / 2)%nat with n by (symmetry; replace (n + n)%nat with (n * 2)%nat by lia; apply Nat.div_mul; lia).
      replace (n + n - n)%nat with n by lia.
      pose proof (prim_sq _ _ P) as P2. rewrite <- fpow_mul in P2.
      rewrite (IH fuel off (stride * 2)%nat (rstride * 2)%nat); [|lia|lia| |nia|exact P2].
      2:{ intros j Hj. specialize (V (j + j)%nat). nia. }
      cbn [bind].
      rewrite (IH fuel (off + stride)%nat (stride * 2)%nat (rstride * 2)%nat); [|lia|lia| |nia|exact P2].
      2:{ intros j Hj. specialize (V (S (j + j))). nia. }
      cbn [bind]. rewrite fpow_mul.
      set (w := fpow W rstride) in *.
      assert (Wn : fpow (fpow w 2) n = 1) by (apply prim_one; rewrite fpow_mul in P2; exact P2).
      rewrite (gomap_ret _ (fun i => (dftv vals off stride (n + n) w i, dftv vals off stride (n + n) w (n + i)))).
      * cbn [bind]. f_equal. rewrite !map_map. cbn [fst snd].
        rewrite (skipn_all2 (n := n)) by (rewrite map_length, seq_length; lia).
        rewrite app_nil_r, seq_app, map_app. f_equal. cbn [Nat.add].
        apply (list_ext 0); rewrite !map_length, !seq_length; [reflexivity|].
        intros i Hi. rewrite !nth_map_seq by exact Hi. reflexivity.
      * intros i Hi. apply in_seq in Hi. cbn [Nat.add] in Hi.
        rewrite !(idx_nth 0) by (rewrite ?map_length, ?seq_length; nia). cbn [bind].
        rewrite !nth_map_seq by lia.
        rewrite Hroots by nia. rewrite (Nat.mul_comm i), fpow_mul. fold w.
        rewrite !dftv_split. cbn [Nat.add]. rewrite !(Nat.add_comm n i), !dftv_period by exact Wn.
        rewrite fpow_add. cbn [prim] in P. fold n in P. rewrite P. f_equal. f_equal; ring.
Qed.
End Fft.
