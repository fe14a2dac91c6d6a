(** Proofs about the back ends of the scalar arithmetic. *)

Require Import ZArith NArith List Bool Lia.
From Verif Require Import Prime Fr Bytes CodecModel CodecProofs GoBase TextModel BackendModel.
Import ListNotations.
Local Open Scope Z_scope.
#[local] Transparent fadd fsub fmul finv fdiv f0 f1 of_Z feqb.

Lemma fv_small a : fv a mod r = fv a.
Proof. apply Z.mod_small. apply fv_range. Qed.

Lemma fv_f0 : fv f0 = 0.
Proof. reflexivity. Qed.

Lemma inverse_fv old v : ModInverse old (fv v) = if feqb v f0 then old else fv (finv v).
Proof.
  unfold ModInverse, feqb. rewrite fv_small, fv_f0.
  destruct (fv v =? 0); [reflexivity|]. unfold finv. rewrite fv_of_Z. reflexivity.
Qed.

Lemma finv_0 : finv f0 = f0.
Proof. apply Fr_ext. vm_compute. reflexivity. Qed.

Lemma inverse_fv0 v : ModInverse 0 (fv v) = fv (finv v).
Proof.
  rewrite inverse_fv. destruct (feqb v f0) eqn:E; [|reflexivity].
  apply feqb_eq in E. subst v. rewrite finv_0. reflexivity.
Qed.

Lemma fv_pow a e : fv (fpow a e) = fv a ^ Z.of_nat e mod r.
Proof.
  induction e as [|e IH].
  - reflexivity.
  - cbn [fpow]. unfold fmul. rewrite fv_of_Z, IH, Nat2Z.inj_succ, Z.pow_succ_r by lia.
    rewrite Zmult_mod_idemp_r. reflexivity.
Qed.

Lemma r_256 : r < 2 ^ 256.
Proof. reflexivity. Qed.

Lemma hol_sub a b : HolSub (fv a) (fv b) = fv (fsub a b).
Proof.
  unfold fsub. rewrite fv_of_Z. unfold HolSub.
  pose proof (fv_range a) as A. pose proof (fv_range b) as B. pose proof r_256 as R.
  destruct (Z.ltb_spec (fv a) (fv b)) as [L|L].
  - assert (E : (fv a - fv b) mod 2 ^ 256 = fv a - fv b + 2 ^ 256).
    { rewrite <- (Z.mod_small (fv a - fv b + 2 ^ 256) (2 ^ 256)) by lia.
      rewrite <- (Z_mod_plus_full _ 1). f_equal; lia. }
    rewrite E.
    assert (E2 : (0 - (fv a - fv b + 2 ^ 256)) mod 2 ^ 256 = fv b - fv a).
    { rewrite <- (Z.mod_small (fv b - fv a) (2 ^ 256)) by lia.
      rewrite <- (Z_mod_plus_full _ 1). f_equal; lia. }
    rewrite E2. rewrite Z.mod_small by lia.
    rewrite <- (Z_mod_plus_full _ 1). rewrite Z.mod_small by lia. lia.
  - rewrite Z.mod_small by lia. rewrite Z.mod_small by lia. reflexivity.
Qed.

Lemma from_agree v : is_bytes v -> length v = 32%nat -> ShortFrom32 v = option_map fv (FrFrom32 v).
Proof.
  intros B L. unfold ShortFrom32, FrFrom32. destruct (ValidFr v) eqn:V; [|reflexivity].
  cbn [option_map]. f_equal. rewrite fv_of_Z. symmetry. apply Z.mod_small.
  rewrite swap_loop_rev by exact L. unfold be_val. rewrite rev_involutive.
  apply ValidFr_correct in V; [|exact B|exact L]. pose proof (le_val_bound v B). lia.
Qed.

(** ** Encoding *)

Lemma le_bytes_app L : forall k z, le_bytes (L + k) z = le_bytes L z ++ le_bytes k (z / 256 ^ Z.of_nat L).
Proof.
  induction L as [|L IH]; intros k z.
  - cbn [Nat.add le_bytes app]. change (256 ^ Z.of_nat 0) with 1. rewrite Z.div_1_r. reflexivity.
  - cbn [Nat.add le_bytes app]. f_equal. rewrite IH. f_equal. f_equal.
    rewrite pow256_S. pose proof (pow256_pos L). rewrite Z.div_div by lia. reflexivity.
Qed.

Lemma le_bytes_zero k : le_bytes k 0 = repeat 0 k.
Proof. induction k as [|k IH]; [reflexivity|]. cbn [le_bytes repeat]. rewrite <- IH. reflexivity. Qed.

Lemma rev_repeat {A} (x : A) n : rev (repeat x n) = repeat x n.
Proof.
  induction n as [|n IH]; [reflexivity|]. cbn [repeat rev]. rewrite IH.
  clear IH. induction n as [|n IH]; [reflexivity|]. cbn. rewrite IH. reflexivity.
Qed.

Lemma drop_repeat n l : drop_zeros (repeat 0 n ++ l) = drop_zeros l.
Proof. induction n as [|n IH]; [reflexivity|]. cbn. exact IH. Qed.

(** A number with [S L] significant bytes, S L <= 32. *)
Lemma min_bytes_len L z : (L < 32)%nat -> 256 ^ Z.of_nat L <= z < 256 ^ Z.of_nat (S L) ->
  min_bytes z = be_bytes (S L) z.
Proof.
  intros HL H. unfold min_bytes, be_bytes.
  replace 32%nat with (S L + (31 - L))%nat by lia.
  rewrite le_bytes_app, Z.div_small by (pose proof (pow256_pos L); lia).
  rewrite le_bytes_zero, rev_app_distr, rev_repeat, drop_repeat.
  replace (S L) with (L + 1)%nat by lia. rewrite le_bytes_app, rev_app_distr.
  change (le_bytes 1 (z / 256 ^ Z.of_nat L)) with [(z / 256 ^ Z.of_nat L) mod 256].
  cbn [rev app drop_zeros].
  assert (D : 0 < z / 256 ^ Z.of_nat L < 256).
  { rewrite pow256_S in H. pose proof (pow256_pos L). split.
    - apply Z.div_str_pos. lia.
    - apply Z.div_lt_upper_bound; lia. }
  rewrite Z.mod_small by lia. rewrite (proj2 (Z.eqb_neq _ _)) by lia. reflexivity.
Qed.

Lemma significant z : 0 < z < 256 ^ 32 -> exists L, (L < 32)%nat /\ 256 ^ Z.of_nat L <= z < 256 ^ Z.of_nat (S L).
Proof.
  intros H. exists (Z.to_nat (Z.log2 z / 8)).
  pose proof (Z.log2_spec z ltac:(lia)) as (A & B).
  assert (C : Z.log2 z < 256) by (apply Z.log2_lt_pow2; [lia|]; change (2 ^ 256) with (256 ^ 32); lia).
  pose proof (Z.log2_nonneg z) as N.
  pose proof (Z.div_mod (Z.log2 z) 8 ltac:(lia)) as D. pose proof (Z.mod_pos_bound (Z.log2 z) 8 ltac:(lia)) as M.
  assert (Q : 0 <= Z.log2 z / 8 < 32) by (split; [apply Z.div_pos; lia|apply Z.div_lt_upper_bound; lia]).
  split; [lia|]. rewrite Nat2Z.inj_succ, Z2Nat.id by lia.
  change 256 with (2 ^ 8). rewrite <- !Z.pow_mul_r by lia. split.
  - eapply Z.le_trans; [|exact A]. apply Z.pow_le_mono_r; lia.
  - eapply Z.lt_le_trans; [exact B|]. apply Z.pow_le_mono_r; lia.
Qed.

Lemma swap16_32 b : length b = 32%nat -> swap16 b = Ret (rev b).
Proof.
  intros H. do 32 (destruct b as [|? b]; [discriminate H|]). destruct b as [|? b]; [|discriminate H].
  reflexivity.
Qed.

Lemma swap16_31 b : length b = 31%nat -> swap16 b = Ret (rev b).
Proof.
  intros H. do 31 (destruct b as [|? b]; [discriminate H|]). destruct b as [|? b]; [|discriminate H].
  reflexivity.
Qed.

Lemma swap16_short b : (length b < 16)%nat -> swap16 b = Panic.
Proof.
  intros H. do 16 (destruct b as [|? b]; [reflexivity|]). cbn in H. lia.
Qed.

Lemma short_to32_ok x : 2 ^ 240 <= fv x -> ShortTo32 (fv x) = Ret (FrTo32 x).
Proof.
  intros H. rewrite FrTo32_value.
  pose proof (fv_range x) as R. pose proof r_lt_256_32 as R2.
  assert (C : 256 ^ Z.of_nat 30 <= fv x < 256 ^ Z.of_nat 31 \/ 256 ^ Z.of_nat 31 <= fv x < 256 ^ Z.of_nat 32).
  { change (256 ^ Z.of_nat 30) with (2 ^ 240). lia. }
  unfold ShortTo32. destruct C as [C|C].
  - rewrite (min_bytes_len 30) by (assumption || lia).
    rewrite swap16_31 by apply be_bytes_length. cbn [bind].
    unfold be_bytes. rewrite rev_involutive, le_bytes_length.
    rewrite firstn_all2 by (rewrite le_bytes_length; lia).
    change 32%nat with (31 + 1)%nat at 2. rewrite le_bytes_app.
    rewrite (Z.div_small (fv x)) by lia. reflexivity.
  - rewrite (min_bytes_len 31) by (assumption || lia).
    rewrite swap16_32 by apply be_bytes_length. cbn [bind].
    unfold be_bytes. rewrite rev_involutive, le_bytes_length.
    rewrite firstn_all2 by (rewrite le_bytes_length; lia). rewrite app_nil_r. reflexivity.
Qed.

Lemma short_to32_panic z : 0 <= z < 2 ^ 120 -> ShortTo32 z = Panic.
Proof.
  intros H. unfold ShortTo32. rewrite swap16_short; [reflexivity|].
  destruct (Z.eq_dec z 0) as [->|N]; [cbn; lia|].
  destruct (significant z) as (L & HL & B); [change (256 ^ 32) with (2 ^ 256); lia|].
  rewrite (min_bytes_len L) by assumption. rewrite be_bytes_length.
  assert (L < 15)%nat; [|lia].
  destruct (Nat.lt_ge_cases L 15) as [?|G]; [assumption|]. exfalso.
  assert (256 ^ Z.of_nat 15 <= 256 ^ Z.of_nat L) by (apply Z.pow_le_mono_r; lia).
  change (256 ^ Z.of_nat 15) with (2 ^ 120) in H0. lia.
Qed.
