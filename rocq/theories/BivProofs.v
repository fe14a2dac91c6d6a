(** Facts about bivariate polynomials: interpolation, uniqueness, change of the secret. *)

Require Import ZArith List Lia Bool Arith.
From Verif Require Import Prime Fr CodecModel GoBase Poly Biv PolyModel PolyProofs KzgProofs.
Import ListNotations.
Local Open Scope F_scope.

Lemma nth_map_seq0 {A} (g : nat -> A) d lo n i : (i < n)%nat -> nth i (map g (seq lo n)) d = g (lo + i)%nat.
Proof.
  intros H. rewrite (nth_indep _ d (g O)) by (rewrite map_length, seq_length; exact H).
  rewrite map_nth, seq_nth by exact H. reflexivity.
Qed.

(** Interpolation of sections. *)
Lemma biv_interp dx d xs (f : nat -> list Fr) : NoDup xs -> length xs = (d + 1)%nat ->
  (forall i, (i <= d)%nat -> length (f i) = S dx) ->
  exists B, bdeg dx d B /\ forall i, (i <= d)%nat -> secy B (nth i xs 0) = f i.
Proof.
  intros ND LX LF.
  set (g := fun c => match LagrangeInterpolate d xs (map (fun i => nth c (f i) 0) (seq 0 (d + 1))) with
                     | Ret q => q | _ => [] end).
  assert (G : forall c, length (g c) = (d + 1)%nat /\
     forall i, (i <= d)%nat -> peval (g c) (nth i xs 0) = nth c (f i) 0).
  { intros c. unfold g.
    destruct (LagrangeInterpolate_correct d xs (map (fun i => nth c (f i) 0) (seq 0 (d + 1))))
      as (q & -> & L & V & _).
    - rewrite firstn_all2 by lia. exact ND.
    - lia.
    - rewrite map_length, seq_length. lia.
    - split; [exact L|]. intros i Hi. rewrite V by exact Hi. rewrite nth_map_seq0 by lia. reflexivity. }
  exists (map (fun k => map (fun c => nth k (g c) 0) (seq 0 (S dx))) (seq 0 (d + 1))).
  assert (HB : bdeg dx d (map (fun k => map (fun c => nth k (g c) 0) (seq 0 (S dx))) (seq 0 (d + 1)))).
  { split; [rewrite map_length, seq_length; lia|].
    apply Forall_forall. intros row Hrow. apply in_map_iff in Hrow. destruct Hrow as (k & <- & _).
    rewrite map_length, seq_length. reflexivity. }
  split; [exact HB|]. intros i Hi. apply (list_ext 0).
  - rewrite (length_secy dx d) by exact HB. rewrite LF by exact Hi. reflexivity.
  - intros c Hc. rewrite (length_secy dx d) in Hc by exact HB. rewrite nth_secy, map_map.
    destruct (G c) as (L & V). rewrite <- V by exact Hi. apply peval_ext. intros k.
    destruct (Nat.lt_ge_cases k (d + 1)) as [Hk|Hk].
    + rewrite nth_map_seq0 by exact Hk. rewrite nth_map_seq0 by exact Hc. reflexivity.
    + rewrite !nth_overflow; [reflexivity|lia|]. rewrite map_length, seq_length. lia.
Qed.

(** A bivariate polynomial is determined by its values on a large enough grid. *)
Lemma biv_unique dx dy A B xs ys : bdeg dx dy A -> bdeg dx dy B ->
  NoDup xs -> NoDup ys -> length xs = S dx -> length ys = S dy ->
  (forall x y, In x xs -> In y ys -> beval A x y = beval B x y) -> A = B.
Proof.
  intros (LA & HA) (LB & HB) NX NY LX LY H.
  assert (R : forall k, length (nth k A []) = length (nth k B [])).
  { intros k. destruct (Nat.lt_ge_cases k (S dy)) as [Hk|Hk].
    - rewrite Forall_forall in HA, HB.
      rewrite HA, HB by (apply nth_In; lia). reflexivity.
    - rewrite !nth_overflow by lia. reflexivity. }
  assert (E : forall k c, nth c (nth k A []) 0 = nth c (nth k B []) 0).
  { intros k c.
    (* for every x in xs the sections agree as coefficient lists *)
    assert (S1 : forall x, In x xs -> secx A x = secx B x).
    { intros x Hx. apply (poly_unique_list ys); auto.
      - rewrite !length_secx. lia.
      - rewrite length_secx. lia.
      - intros y Hy. rewrite !peval_secx. apply H; assumption. }
    assert (S2 : nth k A [] = nth k B []).
    { apply (poly_unique_list xs); auto.
      - destruct (Nat.lt_ge_cases k (S dy)) as [Hk|Hk].
        + rewrite Forall_forall in HA. rewrite HA by (apply nth_In; lia). lia.
        + rewrite nth_overflow by lia. simpl. lia.
      - intros x Hx. specialize (S1 x Hx). unfold secx in S1.
        apply (f_equal (fun l => nth k l (peval [] x))) in S1.
        rewrite !(map_nth (fun row => peval row x)) in S1. exact S1. }
    rewrite S2. reflexivity. }
  apply (list_ext []); [lia|]. intros k _. apply (list_ext 0); [apply R|]. intros c _. apply E.
Qed.

(** ** Changing the secret without changing given shares *)

(** The product of the polynomial [u] in x and the polynomial [v] in y. *)
Definition bprod (u v : list Fr) : list (list Fr) := map (fun c => pscale c u) v.

Lemma beval_bprod u v x y : beval (bprod u v) x y = peval u x * peval v y.
Proof.
  unfold beval, bprod. induction v as [|c v IH]; cbn [map peval]; [ring|].
  rewrite peval_pscale, IH. ring.
Qed.

Lemma bdeg_bprod dx dy u v : length u = S dx -> length v = S dy -> bdeg dx dy (bprod u v).
Proof.
  intros Lu Lv. split; [unfold bprod; rewrite map_length; exact Lv|].
  apply Forall_forall. intros row H. apply in_map_iff in H. destruct H as (c & <- & _).
  rewrite length_pscale. exact Lu.
Qed.

(** Adds t to the secret; zero on the lines x = a (a in xs) and y = b (b in ys). *)
Definition shift_by (dx dy : nat) (xs ys : list Fr) (t : Fr) (B : list (list Fr)) : list (list Fr) :=
  badd B (bprod (pscale (t * finv (prodlin xs 0 * prodlin ys 0))
                   (plin xs ++ repeat 0 (dx - length xs)))
                (plin ys ++ repeat 0 (dy - length ys))).

Section Shift.
Variables (dx dy : nat) (xs ys : list Fr).
Hypothesis Lx : (length xs <= dx)%nat.
Hypothesis Ly : (length ys <= dy)%nat.
Hypothesis Zx : ~ In 0 xs.
Hypothesis Zy : ~ In 0 ys.

Lemma beval_shift t B x y : beval (shift_by dx dy xs ys t B) x y =
  beval B x y + t * (prodlin xs x * prodlin ys y * finv (prodlin xs 0 * prodlin ys 0)).
Proof.
  unfold shift_by. rewrite beval_badd, beval_bprod, peval_pscale.
  rewrite !peval_app, !peval_repeat0, !peval_plin. ring.
Qed.

Lemma bdeg_shift t B : bdeg dx dy B -> bdeg dx dy (shift_by dx dy xs ys t B).
Proof.
  intros H. apply bdeg_badd; [exact H|]. apply bdeg_bprod.
  - rewrite length_pscale, app_length, length_plin, repeat_length. lia.
  - rewrite app_length, length_plin, repeat_length. lia.
Qed.

Lemma shift_secret t B : beval (shift_by dx dy xs ys t B) 0 0 = beval B 0 0 + t.
Proof.
  rewrite beval_shift. f_equal.
  assert (H : prodlin xs 0 * prodlin ys 0 <> 0) by (apply fmul_neq_0; apply prodlin_neq_0; assumption).
  pose proof (finv_r _ H) as E. rewrite E. ring.
Qed.

Lemma shift_x t B x : In x xs -> forall y, beval (shift_by dx dy xs ys t B) x y = beval B x y.
Proof. intros H y. rewrite beval_shift, (prodlin_0 xs x H). ring. Qed.

Lemma shift_y t B y : In y ys -> forall x, beval (shift_by dx dy xs ys t B) x y = beval B x y.
Proof. intros H x. rewrite beval_shift, (prodlin_0 ys y H). ring. Qed.

Lemma shift_back t B : (Z.of_nat (S dx) <= r)%Z -> (Z.of_nat (S dy) <= r)%Z -> bdeg dx dy B ->
  shift_by dx dy xs ys (0 - t) (shift_by dx dy xs ys t B) = B.
Proof.
  intros Hx Hy HB.
  apply (biv_unique dx dy _ _ (map of_nat (seq 0 (S dx))) (map of_nat (seq 0 (S dy)))).
  - apply bdeg_shift, bdeg_shift, HB.
  - exact HB.
  - apply NoDup_of_nat. exact Hx.
  - apply NoDup_of_nat. exact Hy.
  - rewrite map_length. apply seq_length.
  - rewrite map_length. apply seq_length.
  - intros x y _ _. rewrite !beval_shift. ring.
Qed.

End Shift.
