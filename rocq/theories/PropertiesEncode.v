(** C61: exactly which bytes FrTo32 gives with tag bignum_pure or bignum_hol256 (bignum_pure.go:38-47,
    bignum_hol256.go:50-59), for every scalar. *)

Require Import ZArith NArith List Bool Lia.
From Verif Require Import Prime Fr Bytes CodecModel CodecProofs GoBase TextModel BackendModel BackendProofs PropertiesBackend.
Import ListNotations.
Local Open Scope Z_scope.

(** The scalar has L significant bytes. *)
Definition bytes_needed (x : Fr) (L : nat) : Prop := 256 ^ (Z.of_nat L - 1) <= fv x < 256 ^ Z.of_nat L.

(** Bytes L-16 to 15 in the opposite order. *)
Definition middle_reversed (L : nat) (e : list Z) : list Z :=
  firstn (L - 16) e ++ rev (firstn (32 - L) (skipn (L - 16) e)) ++ skipn 16 e.

Lemma swap16_mid b : (16 <= length b <= 32)%nat -> swap16 b = Ret (middle_reversed (length b) (rev b)).
Proof.
  intros H. do 16 (destruct b as [|? b]; [cbn in H; lia|]).
  do 16 (destruct b as [|? b]; [vm_compute; reflexivity|]).
  destruct b as [|? b]; [vm_compute; reflexivity|]. cbn in H. lia.
Qed.

Lemma middle_app L l z : length l = L -> (16 <= L <= 32)%nat -> middle_reversed L (l ++ z) = middle_reversed L l ++ z.
Proof.
  intros E H. unfold middle_reversed. rewrite firstn_app, !skipn_app, firstn_app, skipn_length.
  replace (L - 16 - length l)%nat with 0%nat by lia. replace (16 - length l)%nat with 0%nat by lia.
  replace (32 - L - (length l - (L - 16)))%nat with 0%nat by lia. cbn [firstn skipn]. rewrite !app_nil_r, <- !app_assoc. reflexivity.
Qed.

Lemma middle_length L l : length l = L -> (16 <= L <= 32)%nat -> length (middle_reversed L l) = L.
Proof. intros E H. unfold middle_reversed. rewrite !app_length, rev_length, !firstn_length, !skipn_length. lia. Qed.

(** From 2^120 on: the encoding of the default library with a part of it reversed. *)
Theorem c61_encode_exact : forall x L, (16 <= L)%nat -> bytes_needed x L ->
  b_to Kilic x = Ret (FrTo32 x) /\
  b_to Pure (fv x) = Ret (middle_reversed L (FrTo32 x)) /\ b_to Hol (fv x) = Ret (middle_reversed L (FrTo32 x)).
Proof.
  intros x L HL B. unfold bytes_needed in B. split; [reflexivity|].
  assert (X : ShortTo32 (fv x) = Ret (middle_reversed L (FrTo32 x))); [|split; exact X].
  assert (UL : (L <= 32)%nat).
  { destruct (Nat.le_gt_cases L 32) as [?|G]; [assumption|]. exfalso. pose proof (fv_range x). pose proof r_lt_256_32.
    assert (256 ^ 32 <= 256 ^ (Z.of_nat L - 1)) by (apply Z.pow_le_mono_r; lia). lia. }
  unfold ShortTo32. rewrite (min_bytes_len (L - 1)); [|lia|rewrite Nat2Z.inj_sub by lia; replace (S (L - 1)) with L by lia; exact B].
  replace (S (L - 1)) with L by lia.
  rewrite swap16_mid by (rewrite be_bytes_length; lia). cbn [bind]. unfold be_bytes. rewrite rev_length, le_bytes_length, rev_involutive.
  rewrite middle_length by (try apply le_bytes_length; lia). rewrite firstn_all2 by (rewrite middle_length; [lia|apply le_bytes_length|lia]).
  rewrite <- middle_app by (try apply le_bytes_length; lia). do 2 f_equal. rewrite FrTo32_value.
  replace 32%nat with (L + (32 - L))%nat at 2 by lia. rewrite le_bytes_app, Z.div_small by (pose proof (fv_range x); lia). rewrite le_bytes_zero. reflexivity.
Qed.

Lemma skip_twice {A} a b (e : list A) : skipn a (skipn b e) = skipn (b + a) e.
Proof. revert e. induction b as [|b IH]; intros e; [reflexivity|]. destruct e as [|z e]; [rewrite !skipn_nil; reflexivity|]. cbn [skipn plus]. apply IH. Qed.

Lemma middle_id L e : length e = 32%nat -> (16 <= L <= 32)%nat ->
  (middle_reversed L e = e <-> rev (firstn (32 - L) (skipn (L - 16) e)) = firstn (32 - L) (skipn (L - 16) e)).
Proof.
  intros LE HL.
  assert (D : e = firstn (L - 16) e ++ firstn (32 - L) (skipn (L - 16) e) ++ skipn 16 e).
  { rewrite <- (firstn_skipn (L - 16) e) at 1. f_equal. rewrite <- (firstn_skipn (32 - L) (skipn (L - 16) e)) at 1. f_equal.
    rewrite skip_twice. replace (L - 16 + (32 - L))%nat with 16%nat by lia. reflexivity. }
  unfold middle_reversed. split; intros H.
  - rewrite D in H at 4. apply app_inv_head in H. apply app_inv_tail in H. exact H.
  - rewrite H, <- D. reflexivity.
Qed.

(** So the right bytes are given exactly if the reversed part reads the same in both directions. *)
Theorem c61_encode_iff : forall x L, (16 <= L)%nat -> bytes_needed x L ->
  (b_to Pure (fv x) = b_to Kilic x <-> let m := firstn (32 - L) (skipn (L - 16) (FrTo32 x)) in rev m = m).
Proof.
  intros x L HL B. destruct (c61_encode_exact x L HL B) as (E1 & E2 & _). rewrite E1, E2. cbv zeta.
  assert (UL : (L <= 32)%nat).
  { destruct (Nat.le_gt_cases L 32) as [?|G]; [assumption|]. exfalso. unfold bytes_needed in B. pose proof (fv_range x). pose proof r_lt_256_32.
    assert (256 ^ 32 <= 256 ^ (Z.of_nat L - 1)) by (apply Z.pow_le_mono_r; lia). lia. }
  rewrite <- middle_id; [|rewrite FrTo32_value; apply le_bytes_length|lia].
  split; intros H; [injection H as H; exact H|rewrite H; reflexivity].
Qed.

(** The encodings of different scalars with as many significant bytes remain different. *)
Theorem c61_encode_injective : forall x y L, (16 <= L)%nat -> bytes_needed x L -> bytes_needed y L -> b_to Pure (fv x) = b_to Pure (fv y) -> x = y.
Proof.
  intros x y L HL BX BY H. destruct (c61_encode_exact x L HL BX) as (_ & E1 & _). destruct (c61_encode_exact y L HL BY) as (_ & E2 & _).
  rewrite E1, E2 in H. injection H as H.
  assert (UL : (L <= 32)%nat).
  { destruct (Nat.le_gt_cases L 32) as [?|G]; [assumption|]. exfalso. unfold bytes_needed in BX. pose proof (fv_range x). pose proof r_lt_256_32.
    assert (256 ^ 32 <= 256 ^ (Z.of_nat L - 1)) by (apply Z.pow_le_mono_r; lia). lia. }
  assert (I : FrTo32 x = FrTo32 y).
  { assert (Lx : length (FrTo32 x) = 32%nat) by (rewrite FrTo32_value; apply le_bytes_length).
    assert (Ly : length (FrTo32 y) = 32%nat) by (rewrite FrTo32_value; apply le_bytes_length).
    assert (T : forall e, length e = 32%nat -> middle_reversed L (middle_reversed L e) = e).
    { intros e Le. set (a := firstn (L - 16) e). set (m := firstn (32 - L) (skipn (L - 16) e)). set (z := skipn 16 e).
      assert (LA : length a = (L - 16)%nat) by (unfold a; rewrite firstn_length; lia).
      assert (LM : length (rev m) = (32 - L)%nat) by (rewrite rev_length; unfold m; rewrite firstn_length, skipn_length; lia).
      assert (D : e = a ++ m ++ z).
      { unfold a, m, z. rewrite <- (firstn_skipn (L - 16) e) at 1. f_equal. rewrite <- (firstn_skipn (32 - L) (skipn (L - 16) e)) at 1. f_equal.
        rewrite skip_twice. replace (L - 16 + (32 - L))%nat with 16%nat by lia. reflexivity. }
      change (middle_reversed L e) with (a ++ rev m ++ z). unfold middle_reversed.
      assert (F1 : firstn (L - 16) (a ++ rev m ++ z) = a) by (rewrite <- LA, firstn_app, firstn_all, Nat.sub_diag; apply app_nil_r).
      assert (F2 : skipn (L - 16) (a ++ rev m ++ z) = rev m ++ z) by (rewrite <- LA, skipn_app, skipn_all, Nat.sub_diag; reflexivity).
      assert (F3 : firstn (32 - L) (rev m ++ z) = rev m) by (rewrite <- LM, firstn_app, firstn_all, Nat.sub_diag; apply app_nil_r).
      assert (F4 : skipn 16 (a ++ rev m ++ z) = z).
      { replace 16%nat with (length (a ++ rev m)) by (rewrite app_length, LA, LM; lia). rewrite app_assoc, skipn_app, skipn_all, Nat.sub_diag. reflexivity. }
      rewrite F1, F2, F3, F4, rev_involutive. symmetry. exact D. }
    rewrite <- (T _ Lx), <- (T _ Ly), H. reflexivity. }
  rewrite !FrTo32_value in I. apply Fr_ext. pose proof (fv_range x) as RX. pose proof (fv_range y) as RY. pose proof r_lt_256_32.
  apply (f_equal le_val) in I. rewrite !le_val_le_bytes in I. rewrite !Z.mod_small in I by lia. exact I.
Qed.

Print Assumptions c61_encode_exact.
Print Assumptions c61_encode_iff.
Print Assumptions c61_encode_injective.

(** A scalar of 30 bytes with equal bytes 14 and 15, and one with different ones. *)
Example c61_encode_example : bytes_needed (of_Z (7 * 256 ^ 29 + 5 * 256 ^ 15 + 5 * 256 ^ 14)) 30 /\ bytes_needed (of_Z (7 * 256 ^ 29 + 5 * 256 ^ 15)) 30 /\
  b_to Pure (fv (of_Z (7 * 256 ^ 29 + 5 * 256 ^ 15 + 5 * 256 ^ 14))) = b_to Kilic (of_Z (7 * 256 ^ 29 + 5 * 256 ^ 15 + 5 * 256 ^ 14)) /\
  b_to Pure (fv (of_Z (7 * 256 ^ 29 + 5 * 256 ^ 15))) <> b_to Kilic (of_Z (7 * 256 ^ 29 + 5 * 256 ^ 15)).
Proof. unfold bytes_needed. split; [vm_compute; split; [discriminate|reflexivity]|]. split; [vm_compute; split; [discriminate|reflexivity]|]. split; [vm_compute; reflexivity|vm_compute; discriminate]. Qed.
