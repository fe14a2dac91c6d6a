(** Bivariate polynomials: vocabulary of the specifications.

    B is a list of rows; row k holds the coefficients (in x) of y^k. *)

Require Import ZArith List Lia Bool Arith.
From Verif Require Import Prime Fr Poly.
Import ListNotations.
Local Open Scope F_scope.

Definition beval (B : list (list Fr)) (x y : Fr) : Fr := peval (map (fun row => peval row x) B) y.

(** B(x, .) as a coefficient list in y. *)
Definition secx (B : list (list Fr)) (x : Fr) : list Fr := map (fun row => peval row x) B.

(** B(., y) as a coefficient list in x. *)
Fixpoint secy (B : list (list Fr)) (y : Fr) : list Fr :=
  match B with [] => [] | row :: B' => padd row (pscale y (secy B' y)) end.

(** Degree at most [dx] in x and [dy] in y. *)
Definition bdeg (dx dy : nat) (B : list (list Fr)) : Prop :=
  length B = S dy /\ Forall (fun row => length row = S dx) B.

Lemma peval_secx B x y : peval (secx B x) y = beval B x y.
Proof. reflexivity. Qed.

Lemma peval_secy B x y : peval (secy B y) x = beval B x y.
Proof.
  unfold beval. induction B as [|row B IH]; [reflexivity|].
  cbn [secy map peval]. rewrite peval_padd, peval_pscale, IH. reflexivity.
Qed.

Lemma length_secx B x : length (secx B x) = length B.
Proof. apply map_length. Qed.

Lemma length_secy_le dx B y : Forall (fun row => length row = S dx) B -> (length (secy B y) <= S dx)%nat.
Proof.
  induction 1 as [|row B L H IH]; cbn [secy length]; [lia|].
  rewrite length_padd, length_pscale. lia.
Qed.

Lemma length_secy dx dy B y : bdeg dx dy B -> length (secy B y) = S dx.
Proof.
  intros (L & H). destruct B as [|row B]; [discriminate|].
  inversion H; subst. cbn [secy]. rewrite length_padd, length_pscale.
  pose proof (length_secy_le dx B y ltac:(assumption)). lia.
Qed.

Lemma nth_secy B y i : nth i (secy B y) 0 = peval (map (fun row => nth i row 0) B) y.
Proof.
  induction B as [|row B IH]; cbn [secy map peval]; [destruct i; reflexivity|].
  rewrite nth_padd, nth_pscale, IH. reflexivity.
Qed.

(** Addition. *)
Fixpoint badd (A B : list (list Fr)) : list (list Fr) :=
  match A, B with
  | a :: A', b :: B' => padd a b :: badd A' B'
  | [], _ => B
  | _, [] => A
  end.

Lemma beval_badd : forall A B x y, beval (badd A B) x y = beval A x y + beval B x y.
Proof.
  unfold beval. induction A as [|a A IH]; intros [|b B] x y; cbn [badd map peval]; try ring.
  rewrite peval_padd, IH. ring.
Qed.

Lemma bdeg_badd dx dy A B : bdeg dx dy A -> bdeg dx dy B -> bdeg dx dy (badd A B).
Proof.
  intros (LA & HA) (LB & HB). unfold bdeg.
  assert (G : forall A B, length A = length B -> Forall (fun row => length row = S dx) A ->
    Forall (fun row => length row = S dx) B ->
    length (badd A B) = length A /\ Forall (fun row => length row = S dx) (badd A B)).
  { clear. induction A as [|a A IH]; intros [|b B] L HA HB; try discriminate; cbn [badd].
    - split; auto.
    - inversion HA; inversion HB; subst. simpl in L.
      destruct (IH B) as (L2 & F2); auto. split; [simpl; lia|].
      constructor; [|exact F2]. rewrite length_padd. lia. }
  destruct (G A B) as (L & F); auto; [lia|]. split; [lia|exact F].
Qed.

Example biv_example :
  let B := [[of_Z 7; of_Z 2]; [of_Z 1; of_Z 3]; [of_Z 5; of_Z 4]] in
  beval B (of_Z 2) (of_Z 3) = of_Z 149 /\ secy B (of_Z 3) = [of_Z 55; of_Z 47] /\
  secx B (of_Z 2) = [of_Z 11; of_Z 7; of_Z 13].
Proof. vm_compute. auto. Qed.
