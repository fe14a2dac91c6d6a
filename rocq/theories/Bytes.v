(** Byte strings: mathematical vocabulary (no code is modelled here). *)

Require Import ZArith List Lia Bool.
Import ListNotations.
Local Open Scope Z_scope.

(** A byte is an integer below 256. *)
Definition is_byte (b : Z) : Prop := 0 <= b < 256.
Definition is_bytes (l : list Z) : Prop := Forall is_byte l.

(** Value of a byte string read with the least significant byte first. *)
Fixpoint le_val (l : list Z) : Z :=
  match l with [] => 0 | b :: l' => b + 256 * le_val l' end.

(** Value of a byte string read with the most significant byte first. *)
Definition be_val (l : list Z) : Z := le_val (rev l).

(** The n low bytes of z, least significant first / most significant first. *)
Fixpoint le_bytes (n : nat) (z : Z) : list Z :=
  match n with O => [] | S m => z mod 256 :: le_bytes m (z / 256) end.
Definition be_bytes (n : nat) (z : Z) : list Z := rev (le_bytes n z).

Lemma le_bytes_length n : forall z, length (le_bytes n z) = n.
Proof. induction n as [|n IH]; intros z; simpl; [reflexivity|rewrite IH; reflexivity]. Qed.

Lemma le_bytes_is_bytes n : forall z, is_bytes (le_bytes n z).
Proof.
  induction n as [|n IH]; intros z; simpl; constructor; [|apply IH].
  unfold is_byte. apply Z.mod_pos_bound. lia.
Qed.

Lemma be_bytes_length n z : length (be_bytes n z) = n.
Proof. unfold be_bytes. rewrite rev_length. apply le_bytes_length. Qed.

Lemma is_bytes_rev l : is_bytes l -> is_bytes (rev l).
Proof. intros H. apply Forall_rev. exact H. Qed.

Lemma is_bytes_app l1 l2 : is_bytes (l1 ++ l2) <-> is_bytes l1 /\ is_bytes l2.
Proof. apply Forall_app. Qed.

Lemma be_bytes_is_bytes n z : is_bytes (be_bytes n z).
Proof. apply is_bytes_rev, le_bytes_is_bytes. Qed.

Lemma pow256_S n : 256 ^ Z.of_nat (S n) = 256 * 256 ^ Z.of_nat n.
Proof. rewrite Nat2Z.inj_succ, Z.pow_succ_r by lia. reflexivity. Qed.

Lemma pow256_pos n : 0 < 256 ^ Z.of_nat n.
Proof. apply Z.pow_pos_nonneg; lia. Qed.

Lemma le_val_bound l : is_bytes l -> 0 <= le_val l < 256 ^ Z.of_nat (length l).
Proof.
  induction 1 as [|b l Hb H IH]; [simpl; lia|].
  cbn [length le_val]. rewrite pow256_S. unfold is_byte in Hb. lia.
Qed.

Lemma le_val_le_bytes n : forall z, le_val (le_bytes n z) = z mod 256 ^ Z.of_nat n.
Proof.
  induction n as [|n IH]; intros z.
  - simpl. rewrite Z.mod_1_r. reflexivity.
  - cbn [le_bytes le_val]. rewrite IH, pow256_S.
    pose proof (pow256_pos n). rewrite (Z.rem_mul_r z 256) by lia. reflexivity.
Qed.

Lemma le_bytes_le_val l : is_bytes l -> le_bytes (length l) (le_val l) = l.
Proof.
  induction 1 as [|b l Hb H IH]; [reflexivity|].
  cbn [length le_val le_bytes]. unfold is_byte in Hb.
  rewrite (Z.add_comm b), (Z.mul_comm 256).
  rewrite Z.div_add_l by lia. rewrite (Z.div_small b) by lia. rewrite Z.add_0_r, IH.
  f_equal. rewrite Z.add_comm, Z_mod_plus_full. apply Z.mod_small. lia.
Qed.

Lemma le_val_inj l1 l2 : is_bytes l1 -> is_bytes l2 -> length l1 = length l2 ->
  le_val l1 = le_val l2 -> l1 = l2.
Proof.
  intros H1 H2 L E. rewrite <- (le_bytes_le_val l1 H1), <- (le_bytes_le_val l2 H2), L, E.
  reflexivity.
Qed.

Lemma le_val_app l1 l2 : le_val (l1 ++ l2) = le_val l1 + 256 ^ Z.of_nat (length l1) * le_val l2.
Proof.
  induction l1 as [|b l IH].
  - cbn [app length le_val]. change (256 ^ Z.of_nat 0) with 1. lia.
  - cbn [app length le_val]. rewrite IH, pow256_S. ring.
Qed.

Lemma be_val_be_bytes n z : be_val (be_bytes n z) = z mod 256 ^ Z.of_nat n.
Proof. unfold be_val, be_bytes. rewrite rev_involutive. apply le_val_le_bytes. Qed.

Lemma be_bytes_be_val l : is_bytes l -> be_bytes (length l) (be_val l) = l.
Proof.
  intros H. unfold be_val, be_bytes. rewrite <- (rev_length l).
  rewrite le_bytes_le_val by (apply is_bytes_rev; exact H). apply rev_involutive.
Qed.

Lemma be_val_bound l : is_bytes l -> 0 <= be_val l < 256 ^ Z.of_nat (length l).
Proof.
  intros H. unfold be_val. rewrite <- (rev_length l). apply le_val_bound, is_bytes_rev, H.
Qed.
