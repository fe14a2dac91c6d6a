(** Proofs about the scalar and integer codecs. *)

Require Import ZArith List Lia Bool.
From Verif Require Import Prime Fr Bytes CodecModel.
Import ListNotations.
Local Open Scope Z_scope.

Lemma list_32 (v : list Z) : length v = 32%nat ->
  exists a0 a1 a2 a3 a4 a5 a6 a7 a8 a9 a10 a11 a12 a13 a14 a15
         a16 a17 a18 a19 a20 a21 a22 a23 a24 a25 a26 a27 a28 a29 a30 a31,
    v = [a0; a1; a2; a3; a4; a5; a6; a7; a8; a9; a10; a11; a12; a13; a14; a15;
         a16; a17; a18; a19; a20; a21; a22; a23; a24; a25; a26; a27; a28; a29; a30; a31].
Proof.
  intros H. do 32 (destruct v as [|? v]; [discriminate H|]).
  destruct v; [|discriminate H]. repeat eexists.
Qed.

Lemma swap_loop_rev v : length v = 32%nat -> swap_loop v = rev v.
Proof.
  intros H. apply list_32 in H. repeat (destruct H as (? & H)). subst v. reflexivity.
Qed.

Lemma ValidFr_correct v : is_bytes v -> length v = 32%nat ->
  ValidFr v = true <-> le_val v < r.
Proof.
  intros B L.
  assert (E : v = firstn 8 v ++ firstn 8 (skipn 8 v) ++ firstn 8 (skipn 16 v) ++ firstn 8 (skipn 24 v)).
  { apply list_32 in L. repeat (destruct L as (? & L)). subst v. reflexivity. }
  assert (E31 : nth 31 v 0 = 0 -> u64le v 24 < 256 ^ 7).
  { intros H31. unfold u64le. apply list_32 in L. repeat (destruct L as (? & L)). subst v.
    cbn [nth] in H31. subst. cbn [skipn firstn].
    cbn [le_val].
    repeat match goal with H : is_bytes (_ :: _) |- _ => inversion H; subst; clear H
                         | H : Forall _ (_ :: _) |- _ => inversion H; subst; clear H end.
    unfold is_byte in *. change (256 ^ 7) with 72057594037927936. clear E. lia. }
  assert (Bk : forall k, (k <= 24)%nat -> 0 <= u64le v k < 256 ^ 8).
  { intros k Hk. unfold u64le.
    assert (Hl : length (firstn 8 (skipn k v)) = 8%nat).
    { rewrite firstn_length, skipn_length, L. lia. }
    pose proof (le_val_bound (firstn 8 (skipn k v))) as Hb. rewrite Hl in Hb. apply Hb.
    assert (B2 : is_bytes (skipn k v)).
    { rewrite <- (firstn_skipn k v) in B. apply is_bytes_app in B. tauto. }
    rewrite <- (firstn_skipn 8 (skipn k v)) in B2. apply is_bytes_app in B2. tauto. }
  assert (V : le_val v = u64le v 0 + 256 ^ 8 * (u64le v 8 + 256 ^ 8 * (u64le v 16 + 256 ^ 8 * u64le v 24))).
  { rewrite E at 1. rewrite !le_val_app.
    rewrite !firstn_length, !skipn_length, L. reflexivity. }
  pose proof (Bk 0%nat ltac:(lia)) as B0. pose proof (Bk 8%nat ltac:(lia)) as B1.
  pose proof (Bk 16%nat ltac:(lia)) as B2. pose proof (Bk 24%nat ltac:(lia)) as B3.
  rewrite V, r_eq. clear V E Bk B L. unfold ValidFr.
  change (256 ^ 8) with 18446744073709551616 in *.
  change (256 ^ 7) with 72057594037927936 in *.
  set (a := u64le v 24) in *. set (b := u64le v 16) in *.
  set (c := u64le v 8) in *. set (d := u64le v 0) in *. clearbody a b c d.
  destruct (nth 31 v 0 =? 0) eqn:E31'.
  - apply Z.eqb_eq in E31'. specialize (E31 E31'). lia.
  - clear E31.
    destruct (0x73eda753299d7d48 <? a) eqn:H1; [apply Z.ltb_lt in H1; lia|apply Z.ltb_ge in H1].
    destruct (a <? 0x73eda753299d7d48) eqn:H2; [apply Z.ltb_lt in H2; lia|apply Z.ltb_ge in H2].
    destruct (0x3339d80809a1d805 <? b) eqn:H3; [apply Z.ltb_lt in H3; lia|apply Z.ltb_ge in H3].
    destruct (b <? 0x3339d80809a1d805) eqn:H4; [apply Z.ltb_lt in H4; lia|apply Z.ltb_ge in H4].
    destruct (0x53bda402fffe5bfe <? c) eqn:H5; [apply Z.ltb_lt in H5; lia|apply Z.ltb_ge in H5].
    destruct (c <? 0x53bda402fffe5bfe) eqn:H6; [apply Z.ltb_lt in H6; lia|apply Z.ltb_ge in H6].
    rewrite Z.leb_le. lia.
Qed.

Lemma FrFrom32_value v : is_bytes v -> length v = 32%nat ->
  FrFrom32 v = if le_val v <? r then Some (of_Z (le_val v)) else None.
Proof.
  intros B L. unfold FrFrom32.
  pose proof (ValidFr_correct v B L) as V.
  rewrite swap_loop_rev by exact L. unfold be_val. rewrite rev_involutive.
  destruct (ValidFr v); destruct (Z.ltb_spec (le_val v) r) as [H|H]; try reflexivity;
    exfalso; destruct V as [V1 V2].
  - specialize (V1 eq_refl). lia.
  - specialize (V2 H). discriminate.
Qed.

Lemma FrTo32_value x : FrTo32 x = le_bytes 32 (fv x).
Proof.
  unfold FrTo32. rewrite swap_loop_rev by apply be_bytes_length.
  unfold be_bytes. apply rev_involutive.
Qed.

Lemma r_lt_256_32 : r < 256 ^ Z.of_nat 32.
Proof. rewrite r_eq. reflexivity. Qed.

Lemma FrTo32_length x : length (FrTo32 x) = 32%nat.
Proof. rewrite FrTo32_value. apply le_bytes_length. Qed.

Lemma FrTo32_bytes x : is_bytes (FrTo32 x).
Proof. rewrite FrTo32_value. apply le_bytes_is_bytes. Qed.

Lemma FrTo32_le_val x : le_val (FrTo32 x) = fv x.
Proof.
  rewrite FrTo32_value, le_val_le_bytes. apply Z.mod_small.
  pose proof (fv_range x). pose proof r_lt_256_32. lia.
Qed.

Lemma FrFrom32_FrTo32 x : FrFrom32 (FrTo32 x) = Some x.
Proof.
  rewrite FrFrom32_value by (apply FrTo32_bytes || apply FrTo32_length).
  rewrite FrTo32_le_val. pose proof (fv_range x).
  destruct (Z.ltb_spec (fv x) r); [|lia]. rewrite of_Z_fv. reflexivity.
Qed.

Lemma FrTo32_FrFrom32 v x : is_bytes v -> length v = 32%nat ->
  FrFrom32 v = Some x -> FrTo32 x = v.
Proof.
  intros B L H. rewrite FrFrom32_value in H by assumption.
  destruct (Z.ltb_spec (le_val v) r) as [Lt|Ge]; [|discriminate].
  injection H as <-. apply le_val_inj.
  - apply FrTo32_bytes.
  - exact B.
  - rewrite FrTo32_length, L. reflexivity.
  - rewrite FrTo32_le_val, fv_of_Z. apply Z.mod_small.
    pose proof (le_val_bound v B). lia.
Qed.

Lemma FrTo32_inj x y : FrTo32 x = FrTo32 y -> x = y.
Proof.
  intros H. pose proof (FrFrom32_FrTo32 x) as E. rewrite H, FrFrom32_FrTo32 in E. congruence.
Qed.

(** ** Integers *)

Lemma BytesToInt_IntToBytes n rest : BytesToInt (IntToBytes n ++ rest) = n mod 2 ^ 32.
Proof.
  unfold BytesToInt, IntToBytes.
  rewrite app_length, be_bytes_length. cbn [Nat.add Nat.leb].
  assert (E : firstn 4 (be_bytes 4 (n mod 2 ^ 32) ++ rest) = be_bytes 4 (n mod 2 ^ 32)).
  { rewrite firstn_app, be_bytes_length. rewrite Nat.sub_diag, firstn_O.
    rewrite app_nil_r. apply firstn_all2. rewrite be_bytes_length. lia. }
  rewrite E, be_val_be_bytes. change (256 ^ Z.of_nat 4) with (2 ^ 32). apply Zmod_mod.
Qed.

Lemma IntToBytes_roundtrip n : 0 <= n < 2 ^ 32 -> BytesToInt (IntToBytes n) = n.
Proof.
  intros H. rewrite <- (app_nil_r (IntToBytes n)), BytesToInt_IntToBytes.
  apply Z.mod_small. exact H.
Qed.

Lemma IntToBytes_length n : length (IntToBytes n) = 4%nat.
Proof. apply be_bytes_length. Qed.

Lemma IntToBytes_bytes n : is_bytes (IntToBytes n).
Proof. apply be_bytes_is_bytes. Qed.

Lemma IntToBytes_inj n m : 0 <= n < 2 ^ 32 -> 0 <= m < 2 ^ 32 ->
  IntToBytes n = IntToBytes m -> n = m.
Proof.
  intros Hn Hm E. rewrite <- (IntToBytes_roundtrip n Hn), <- (IntToBytes_roundtrip m Hm), E.
  reflexivity.
Qed.

Lemma BytesToInt_back b : is_bytes b -> length b = 4%nat -> IntToBytes (BytesToInt b) = b.
Proof.
  intros B L. unfold BytesToInt, IntToBytes. rewrite L. cbn [Nat.leb].
  rewrite firstn_all2 by lia.
  pose proof (be_val_bound b B) as H. rewrite L in H. change (256 ^ Z.of_nat 4) with (2 ^ 32) in H.
  rewrite Z.mod_small by exact H. rewrite <- L at 1. apply be_bytes_be_val. exact B.
Qed.
