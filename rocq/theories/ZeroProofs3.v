(** More missing indexes than the leaves have room for (zero_poly.go:120-221). *)

Require Import ZArith List Bool Arith Lia.
From Verif Require Import Prime Fr CodecModel GoBase Poly PolyModel PolyProofs GroupModel VssModel VssProofs
  FftModel FftProofs FftProofs2 PropertiesFft SampleModel SampleProofs ZeroProofs ZeroProofs2.
Import ListNotations.
Local Open Scope F_scope.

Section Over.
Variables (fs : FFTSettings) (k : nat) (W : Fr).
Hypothesis FO : fs_ok fs k W.

Section Tree.
Variables (xs : list Fr) (e : nat).
Hypothesis Ek : (e <= S k)%nat.

Lemma reduce_all_over : e = S k -> (2 ^ k < (length xs + 62) / 63 * 64)%nat -> forall fuel l s, level xs e l s -> (1 < length (snd s))%nat ->
  reduce_all fuel fs s = Panic.
Proof.
  intros EK LX. induction fuel as [|fuel IH]; intros l s V C; [reflexivity|].
  cbn [reduce_all]. rewrite (proj2 (Nat.ltb_lt _ _) C). pose proof V as (V1 & V2 & V3 & V4 & V5 & V6).
  rewrite (idx_nth (0, 0)%nat) by lia. cbn [bind].
  destruct (V5 0%nat) as (_ & _ & _ & Q & _); [lia|]. rewrite Q by lia.
  destruct V4 as [V4|V4]; [lia|].
  assert (SP : (0 < Sl l)%nat) by (unfold Sl; pose proof (Nat.pow_nonzero 4 l); lia).
  assert (SL2 : (Sl l <= 2 ^ e)%nat) by nia. rewrite (leafSize_ok fs k W FO e Ek) by exact SL2.
  destruct (Nat.le_gt_cases (length (snd s)) 4) as [C4|C4].
  - replace ((length (snd s) + 4 - 1) / 4)%nat with 1%nat
      by (apply (Nat.div_unique _ 4 1 (length (snd s) - 1)); lia).
    assert (D : (2 ^ e <= 4 * Sl l)%nat).
    { assert (2 ^ k < 4 * Sl l)%nat as T.
      { eapply Nat.lt_le_trans; [exact LX|]. unfold Sl. assert (QL : (length xs <= 4 * (63 * 4 ^ l))%nat) by (unfold szl in V3; nia).
        assert (QQ : ((length xs + 62) / 63 <= 4 * 4 ^ l)%nat) by (apply Nat.lt_succ_r; apply Nat.div_lt_upper_bound; lia). lia. }
      rewrite EK.
      rewrite Sl_pow in *. change 4%nat with (2 ^ 2)%nat in *. rewrite <- Nat.pow_add_r in *.
      apply Nat.pow_lt_mono_r_iff in T; [|lia]. apply pow2_le. lia. }
    unfold goloop. cbn [seq gofold]. unfold reduce_group. destruct s as [out leaves]. cbn [fst snd] in *.
    cbn [Nat.mul Nat.add]. rewrite V1. replace (Sl l + (Sl l + (Sl l + (Sl l + 0))))%nat with (4 * Sl l)%nat by lia.
    rewrite Nat.min_r by exact D. rewrite (proj2 (Nat.ltb_ge _ _)) by lia.
    rewrite (proj2 (Nat.ltb_lt 1 (Nat.min 4 (length leaves)))) by lia. rewrite !Nat.sub_0_r.
    set (ps := map _ _).
    assert (R : reduceLeaves fs (2 ^ e) ps = Panic).
    { unfold reduceLeaves. destruct (negb _); [reflexivity|]. destruct (_ =? _)%nat; [reflexivity|].
      destruct (existsb _ _); [reflexivity|]. destruct (_ <? _)%nat; [reflexivity|].
      unfold InplaceFFT at 1. rewrite app_length, repeat_length, (fo_width _ _ _ FO).
      rewrite (proj2 (Nat.ltb_lt _ _)); [reflexivity|]. rewrite EK. cbn [Nat.pow].
      assert (0 < 2 ^ k)%nat by (apply Nat.neq_0_lt_0, Nat.pow_nonzero; lia). lia. }
    rewrite R. reflexivity.
  - assert (D : (4 * Sl l <= 2 ^ k)%nat).
    { rewrite EK in V4. rewrite Sl_pow in *. change 4%nat with (2 ^ 2)%nat. rewrite <- Nat.pow_add_r.
      apply pow2_le. apply Nat.lt_succ_r. apply (Nat.pow_lt_mono_r_iff 2); [lia|].
      rewrite Nat.pow_add_r. change (2 ^ 2)%nat with 4%nat. nia. }
    destruct (level_step fs k W FO xs e Ek l s V (or_intror D) C) as (s' & E & V' & L'). rewrite E. cbn [bind].
    apply (IH (S l)); [exact V'|]. cbn [snd]. rewrite L'.
    destruct (rc_spec k e Ek (length (snd s)) V2) as (RC & _). cbv zeta in RC. lia.
Qed.
End Tree.

Lemma ZeroPoly_over missing : (forall v, In v missing -> (v < 2 ^ k)%nat) -> (63 < length missing)%nat -> (length missing <= 2 ^ k)%nat ->
  (2 ^ k < (length missing + 62) / 63 * 64)%nat -> ZeroPolyViaMultiplication fs missing (2 ^ k) = Panic.
Proof.
  intros V M LM OV. assert (K31 : (k <= 31)%nat) by apply FO.
  assert (PJ : (0 < 2 ^ k)%nat) by (apply Nat.neq_0_lt_0, Nat.pow_nonzero; lia).
  unfold ZeroPolyViaMultiplication.
  rewrite (proj2 (Nat.eqb_neq (length missing) 0)) by lia. rewrite (fo_width _ _ _ FO).
  rewrite (proj2 (Nat.ltb_ge (2 ^ k) (2 ^ k))) by lia.
  rewrite pow2_test by lia. cbn [negb]. rewrite (proj2 (Nat.eqb_neq (2 ^ k) 0)) by lia. rewrite Nat.div_same by lia.
  rewrite (proj2 (Nat.leb_gt _ _)) by lia.
  set (lc := ((length missing + 63 - 1) / 63)%nat).
  assert (EL : ((length missing + 62) / 63 = lc)%nat) by (unfold lc; f_equal; lia). rewrite EL in OV.
  assert (LC : ((lc - 1) * 63 < length missing <= lc * 63 /\ 2 <= lc)%nat).
  { unfold lc. pose proof (Nat.div_mod (length missing + 63 - 1) 63 ltac:(lia)) as D.
    pose proof (Nat.mod_upper_bound (length missing + 63 - 1) 63 ltac:(lia)). lia. }
  assert (LE : (lc * 64 <= 2 ^ S k)%nat) by (cbn [Nat.pow]; lia).
  assert (EN : Z.to_nat (nextPowOf2 (Z.of_nat (lc * 64))) = (2 ^ S k)%nat) by (apply nextPow_between; [lia|exact OV|exact LE]).
  rewrite EN.
  destruct (build_leaves_ok fs k W FO missing 1 (S k) lc) as (out & B & LV); [intros v Hv; specialize (V v Hv); lia|lia|lia|exact LE|].
  rewrite B. cbn [bind].
  assert (LX : length (pts W 1 missing) = length missing) by (unfold pts; apply map_length).
  rewrite (reduce_all_over (pts W 1 missing) (S k) ltac:(lia) eq_refl ltac:(rewrite LX, EL; exact OV) lc 0 _ LV).
  - reflexivity.
  - cbn [snd]. rewrite map_length, seq_length. lia.
Qed.
End Over.
