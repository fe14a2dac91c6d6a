(** Model of the pairing groups (/repo/internal/bls/bls_kilic.go).

    Simplification: G1 and G2 are cyclic of prime order r with the generators GenG1 and
    GenG2, so a point is represented by its discrete logarithm to the generator.  The
    pairing is then the product of the logarithms.  The model says which equations hold
    between points; it does not say what is hard to compute. *)

Require Import ZArith List Bool Arith Lia.
From Verif Require Import Prime Fr CodecModel GoBase Poly.
Import ListNotations.
Local Open Scope F_scope.

(** bls_kilic.go:33 [G1Point], by its discrete logarithm. *)
Record G1 : Type := mkG1 { dlog1 : Fr }.
(** bls_kilic.go:71 [G2Point], by its discrete logarithm. *)
Record G2 : Type := mkG2 { dlog2 : Fr }.

(** bls_kilic.go:25-30 [initG1G2]. *)
Definition GenG1 : G1 := mkG1 1.
(** bls_kilic.go:27. *)
Definition GenG2 : G2 := mkG2 1.
(** bls_kilic.go:28. *)
Definition ZeroG1 : G1 := mkG1 0.
(** bls_kilic.go:29. *)
Definition ZeroG2 : G2 := mkG2 0.

(** bls_kilic.go:44-48 [MulG1], 50-52 [AddG1], 54-56 [SubG1], 109-111 [EqualG1]. *)
Definition MulG1 (a : G1) (b : Fr) : G1 := mkG1 (dlog1 a * b).
(** bls_kilic.go:50-52 [AddG1]. *)
Definition AddG1 (a b : G1) : G1 := mkG1 (dlog1 a + dlog1 b).
(** bls_kilic.go:54-56 [SubG1]. *)
Definition SubG1 (a b : G1) : G1 := mkG1 (dlog1 a - dlog1 b).
(** bls_kilic.go:109-111 [EqualG1]. *)
Definition EqualG1 (a b : G1) : bool := feqb (dlog1 a) (dlog1 b).

(** bls_kilic.go:82-86 [MulG2], 92-94 [SubG2]. *)
Definition MulG2 (a : G2) (b : Fr) : G2 := mkG2 (dlog2 a * b).
(** bls_kilic.go:92-94 [SubG2]. *)
Definition SubG2 (a b : G2) : G2 := mkG2 (dlog2 a - dlog2 b).

(** bls_kilic.go:135-153 [LinCombG1]: multi-exponentiation; panics when the lengths differ. *)
Definition LinCombG1 (numbers : list G1) (factors : list Fr) : go G1 :=
  if negb (length numbers =? length factors)%nat then Panic
  else Ret (loop 0 (length numbers)
              (fun out i => AddG1 out (MulG1 (nth i numbers ZeroG1) (nth i factors 0))) ZeroG1).

(** bls_kilic.go:156-161 [PairingsVerify]: e(a1^(-1), a2) * e(b1, b2) = 1. *)
Definition PairingsVerify (a1 : G1) (a2 : G2) (b1 : G1) (b2 : G2) : bool :=
  feqb (- dlog1 a1 * dlog2 a2 + dlog1 b1 * dlog2 b2) 0.

(** ** Facts *)

Lemma G1_ext (a b : G1) : dlog1 a = dlog1 b -> a = b.
Proof. destruct a, b. simpl. congruence. Qed.

Lemma EqualG1_eq a b : EqualG1 a b = true <-> a = b.
Proof.
  unfold EqualG1. rewrite feqb_eq. split; [apply G1_ext|congruence].
Qed.

Lemma PairingsVerify_eq a1 a2 b1 b2 :
  PairingsVerify a1 a2 b1 b2 = true <-> dlog1 a1 * dlog2 a2 = dlog1 b1 * dlog2 b2.
Proof.
  unfold PairingsVerify. rewrite feqb_eq. split; intros H.
  - apply (proj1 (fsub_eq_0 _ _)).
    replace (dlog1 a1 * dlog2 a2 - dlog1 b1 * dlog2 b2)
      with (- (- dlog1 a1 * dlog2 a2 + dlog1 b1 * dlog2 b2)) by ring.
    rewrite H. ring.
  - replace (- dlog1 a1 * dlog2 a2) with (- (dlog1 a1 * dlog2 a2)) by ring. rewrite H. ring.
Qed.

Lemma LinCombG1_correct numbers factors : length numbers = length factors ->
  LinCombG1 numbers factors = Ret (mkG1 (dot (map dlog1 numbers) factors)).
Proof.
  intros L. unfold LinCombG1. rewrite L, Nat.eqb_refl. cbn [negb]. f_equal.
  rewrite dot_nth by (rewrite map_length; exact L). rewrite map_length, L.
  assert (B : (length factors <= length numbers)%nat) by lia. revert B.
  generalize (length factors). intros n. clear L.
  induction n as [|n IH]; intros B; [reflexivity|].
  change (S n) with (1 + n)%nat. rewrite loop_S, IH by lia.
  apply G1_ext. cbn [AddG1 MulG1 dlog1 Nat.add sumn].
  rewrite (map_nth dlog1 numbers ZeroG1 n : nth n (map dlog1 numbers) 0 = _). reflexivity.
Qed.

Lemma LinCombG1_mismatch numbers factors : length numbers <> length factors ->
  LinCombG1 numbers factors = Panic.
Proof.
  intros L. unfold LinCombG1. apply Nat.eqb_neq in L. rewrite L. reflexivity.
Qed.
