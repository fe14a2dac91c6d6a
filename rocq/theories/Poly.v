(** Finite sums and polynomials over [Fr]: mathematical vocabulary and lemmas.

    Nothing in this file models code; it is the language of the specifications. A
    polynomial is a coefficient list, lowest coefficient first. *)

Require Import ZArith List Lia Bool Arith.
From Verif Require Import Prime Fr.
Import ListNotations.
Local Open Scope F_scope.

(** ** Finite sums *)

Fixpoint sumn (n : nat) (f : nat -> Fr) : Fr :=
  match n with O => 0 | S m => sumn m f + f m end.

Fixpoint fsum (l : list Fr) : Fr :=
  match l with [] => 0 | a :: l' => a + fsum l' end.

(** Sum of products of two lists, stopping at the shorter one. *)
Fixpoint dot (u v : list Fr) : Fr :=
  match u, v with
  | a :: u', b :: v' => a * b + dot u' v'
  | _, _ => 0
  end.

Lemma sumn_ext n f g : (forall i, (i < n)%nat -> f i = g i) -> sumn n f = sumn n g.
Proof.
  induction n as [|n IH]; intros H; simpl; [reflexivity|].
  rewrite IH by (intros; apply H; lia). rewrite H by lia. reflexivity.
Qed.

Lemma sumn_0 n f : (forall i, (i < n)%nat -> f i = 0) -> sumn n f = 0.
Proof.
  induction n as [|n IH]; intros H; simpl; [reflexivity|].
  rewrite IH by (intros; apply H; lia). rewrite H by lia. ring.
Qed.

Lemma sumn_add n f g : sumn n (fun i => f i + g i) = sumn n f + sumn n g.
Proof. induction n as [|n IH]; simpl; [ring|rewrite IH; ring]. Qed.

Lemma sumn_sub n f g : sumn n (fun i => f i - g i) = sumn n f - sumn n g.
Proof. induction n as [|n IH]; simpl; [ring|rewrite IH; ring]. Qed.

Lemma sumn_scale_l n c f : sumn n (fun i => c * f i) = c * sumn n f.
Proof. induction n as [|n IH]; simpl; [ring|rewrite IH; ring]. Qed.

Lemma sumn_scale_r n c f : sumn n (fun i => f i * c) = sumn n f * c.
Proof. induction n as [|n IH]; simpl; [ring|rewrite IH; ring]. Qed.

Lemma sumn_swap n m (f : nat -> nat -> Fr) :
  sumn n (fun i => sumn m (fun j => f i j)) = sumn m (fun j => sumn n (fun i => f i j)).
Proof.
  induction n as [|n IH]; simpl.
  - symmetry. apply sumn_0. reflexivity.
  - rewrite IH, <- sumn_add. reflexivity.
Qed.

Lemma sumn_S_l n f : sumn (S n) f = f O + sumn n (fun i => f (S i)).
Proof. induction n as [|n IH]; simpl in *; [ring|rewrite IH; ring]. Qed.

Lemma sumn_app n m f : sumn (n + m) f = sumn n f + sumn m (fun i => f (n + i)%nat).
Proof.
  induction m as [|m IH]; simpl.
  - rewrite Nat.add_0_r. ring.
  - rewrite Nat.add_succ_r. simpl. rewrite IH. ring.
Qed.

Lemma sumn_single n f k : (k < n)%nat -> (forall i, (i < n)%nat -> i <> k -> f i = 0) ->
  sumn n f = f k.
Proof.
  induction n as [|n IH]; intros Hk H; [lia|]. simpl.
  destruct (Nat.eq_dec k n) as [->|Ne].
  - rewrite sumn_0; [ring|]. intros i Hi. apply H; lia.
  - rewrite IH; [|lia|intros; apply H; lia]. rewrite (H n) by lia. ring.
Qed.

Lemma fsum_app l1 l2 : fsum (l1 ++ l2) = fsum l1 + fsum l2.
Proof. induction l1 as [|a l IH]; simpl; [ring|rewrite IH; ring]. Qed.

Lemma fsum_map_add {A} (f g : A -> Fr) l :
  fsum (map (fun i => f i + g i) l) = fsum (map f l) + fsum (map g l).
Proof. induction l as [|a l IH]; simpl; [ring|rewrite IH; ring]. Qed.

Lemma fsum_map_scale {A} (f : A -> Fr) c l :
  fsum (map (fun i => c * f i) l) = c * fsum (map f l).
Proof. induction l as [|a l IH]; simpl; [ring|rewrite IH; ring]. Qed.

Lemma fsum_map_0 {A} (f : A -> Fr) l : (forall a, In a l -> f a = 0) -> fsum (map f l) = 0.
Proof.
  induction l as [|a l IH]; intros H; simpl; [reflexivity|].
  rewrite H by (left; reflexivity). rewrite IH; [ring|]. intros; apply H; right; assumption.
Qed.

Lemma fsum_map_ext {A} (f g : A -> Fr) l :
  (forall a, In a l -> f a = g a) -> fsum (map f l) = fsum (map g l).
Proof. intros H. f_equal. apply map_ext_in. exact H. Qed.

Lemma fsum_map_swap {A B} (f : A -> B -> Fr) la lb :
  fsum (map (fun a => fsum (map (f a) lb)) la) =
  fsum (map (fun b => fsum (map (fun a => f a b) la)) lb).
Proof.
  induction la as [|a la IH]; simpl.
  - symmetry. apply fsum_map_0. reflexivity.
  - rewrite IH, <- fsum_map_add. reflexivity.
Qed.

Lemma fsum_nth l : fsum l = sumn (length l) (fun i => nth i l 0).
Proof.
  induction l as [|a l IH]; simpl length; [reflexivity|].
  rewrite sumn_S_l. simpl. rewrite IH. reflexivity.
Qed.

Lemma fsum_map_seq n f : fsum (map f (seq 0 n)) = sumn n f.
Proof.
  induction n as [|n IH]; [reflexivity|].
  rewrite seq_S, map_app, fsum_app, IH. simpl. ring.
Qed.

Lemma dot_nth : forall u v, length u = length v ->
  dot u v = sumn (length u) (fun i => nth i u 0 * nth i v 0).
Proof.
  induction u as [|a u IH]; intros [|b v] H; try discriminate; simpl length.
  - reflexivity.
  - simpl in H. injection H as H. rewrite sumn_S_l. simpl. rewrite (IH v H). reflexivity.
Qed.

Lemma dot_comm : forall u v, dot u v = dot v u.
Proof.
  induction u as [|a u IH]; intros [|b v]; simpl; try reflexivity.
  rewrite IH. ring.
Qed.

Lemma dot_map {A} (f g : A -> Fr) l : dot (map f l) (map g l) = fsum (map (fun i => f i * g i) l).
Proof. induction l as [|a l IH]; simpl; [reflexivity|rewrite IH; reflexivity]. Qed.

(** ** Evaluation *)

Fixpoint peval (p : list Fr) (x : Fr) : Fr :=
  match p with [] => 0 | a :: p' => a + x * peval p' x end.

(** The value is the sum of a_i x^i. *)
Lemma peval_sumn p x : peval p x = sumn (length p) (fun i => nth i p 0 * fpow x i).
Proof.
  induction p as [|a p IH]; simpl length; [reflexivity|].
  rewrite sumn_S_l. simpl. rewrite IH, <- sumn_scale_l.
  replace (a * 1) with a by ring. f_equal. apply sumn_ext. intros i _. ring.
Qed.

Lemma peval_app p q x : peval (p ++ q) x = peval p x + fpow x (length p) * peval q x.
Proof. induction p as [|a p IH]; simpl; [ring|rewrite IH; ring]. Qed.

Lemma peval_repeat0 n x : peval (repeat 0 n) x = 0.
Proof. induction n as [|n IH]; simpl; [reflexivity|rewrite IH; ring]. Qed.

Lemma peval_0 p : peval p 0 = nth 0 p 0.
Proof. destruct p; simpl; [reflexivity|ring]. Qed.

(** ** Arithmetic of coefficient lists *)

Fixpoint padd (p q : list Fr) : list Fr :=
  match p, q with
  | a :: p', b :: q' => (a + b) :: padd p' q'
  | [], _ => q
  | _, [] => p
  end.

Definition pscale (c : Fr) (p : list Fr) : list Fr := map (fmul c) p.

Definition psub (p q : list Fr) : list Fr := padd p (pscale (fopp 1) q).

Fixpoint pmul (p q : list Fr) : list Fr :=
  match p with
  | [] => []
  | a :: p' => padd (pscale a q) (0 :: pmul p' q)
  end.

Lemma peval_padd : forall p q x, peval (padd p q) x = peval p x + peval q x.
Proof.
  induction p as [|a p IH]; intros [|b q] x; simpl; try ring.
  rewrite IH. ring.
Qed.

Lemma peval_pscale c p x : peval (pscale c p) x = c * peval p x.
Proof. unfold pscale. induction p as [|a p IH]; simpl; [ring|rewrite IH; ring]. Qed.

Lemma peval_psub p q x : peval (psub p q) x = peval p x - peval q x.
Proof. unfold psub. rewrite peval_padd, peval_pscale. ring. Qed.

Lemma peval_pmul p q x : peval (pmul p q) x = peval p x * peval q x.
Proof.
  induction p as [|a p IH]; simpl; [ring|].
  rewrite peval_padd, peval_pscale. simpl. rewrite IH. ring.
Qed.

Lemma length_padd : forall p q, length (padd p q) = Nat.max (length p) (length q).
Proof.
  induction p as [|a p IH]; intros [|b q]; simpl; try reflexivity. rewrite IH. reflexivity.
Qed.

Lemma length_pscale c p : length (pscale c p) = length p.
Proof. apply map_length. Qed.

Lemma length_psub p q : length (psub p q) = Nat.max (length p) (length q).
Proof. unfold psub. rewrite length_padd, length_pscale. reflexivity. Qed.

Lemma nth_padd : forall p q i, nth i (padd p q) 0 = nth i p 0 + nth i q 0.
Proof.
  induction p as [|a p IH]; intros [|b q] [|i]; simpl; try ring. apply IH.
Qed.

Lemma nth_pscale c p i : nth i (pscale c p) 0 = c * nth i p 0.
Proof.
  unfold pscale. revert i. induction p as [|a p IH]; intros [|i]; simpl; try ring. apply IH.
Qed.

Lemma length_pmul p q : p <> [] -> q <> [] ->
  length (pmul p q) = (length p + length q - 1)%nat.
Proof.
  intros Hp Hq. induction p as [|a p IH]; [congruence|].
  simpl. rewrite length_padd, length_pscale. simpl.
  destruct p as [|b p].
  - simpl. destruct q; [congruence|]. simpl. lia.
  - rewrite IH by congruence. simpl. destruct q; [congruence|]. simpl. lia.
Qed.

Lemma length_pmul_le p q : (length (pmul p q) <= length p + length q)%nat.
Proof.
  induction p as [|a p IH]; [simpl; lia|].
  simpl. rewrite length_padd, length_pscale. simpl. lia.
Qed.

(** Coefficients of a product. *)
Lemma nth_pmul p : forall q i,
  nth i (pmul p q) 0 = sumn (S i) (fun j => nth j p 0 * nth (i - j) q 0).
Proof.
  induction p as [|a p IH]; intros q i.
  - symmetry. cbn [pmul]. rewrite sumn_0; [destruct i; reflexivity|].
    intros j _. destruct j; simpl; ring.
  - cbn [pmul]. rewrite nth_padd, nth_pscale, sumn_S_l. cbn [nth]. rewrite Nat.sub_0_r. f_equal.
    destruct i as [|i]; [reflexivity|]. cbn [nth]. rewrite IH. apply sumn_ext.
    intros j _. reflexivity.
Qed.

(** ** Roots *)

Definition zero_list (p : list Fr) : Prop := Forall (fun a => a = 0) p.

Lemma zero_list_repeat p : zero_list p -> p = repeat 0 (length p).
Proof. induction 1 as [|a p -> H IH]; simpl; congruence. Qed.

Lemma peval_zero_list p x : zero_list p -> peval p x = 0.
Proof. induction 1 as [|a p -> H IH]; simpl; [reflexivity|rewrite IH; ring]. Qed.

(** Synthetic division by X - a: quotient and remainder. *)
Fixpoint sdiv (p : list Fr) (a : Fr) : list Fr * Fr :=
  match p with
  | [] => ([], 0)
  | c :: p' => let (q, t) := sdiv p' a in
               match p' with
               | [] => ([], c)
               | _ => (t :: q, c + a * t)
               end
  end.

Lemma sdiv_length p a : length (fst (sdiv p a)) = (length p - 1)%nat.
Proof.
  induction p as [|c p IH]; [reflexivity|]. simpl.
  destruct (sdiv p a) as [q t]. simpl in IH. destruct p as [|d p]; [reflexivity|].
  simpl in *. lia.
Qed.

Lemma sdiv_rem p a : snd (sdiv p a) = peval p a.
Proof.
  induction p as [|c p IH]; [reflexivity|]. cbn [sdiv peval].
  destruct (sdiv p a) as [q t]. simpl in IH. subst t.
  destruct p; simpl; ring.
Qed.

Lemma sdiv_eval p a x : peval p x = (x - a) * peval (fst (sdiv p a)) x + peval p a.
Proof.
  induction p as [|c p IH]; [simpl; ring|].
  cbn [sdiv peval]. pose proof (sdiv_rem p a) as R.
  destruct (sdiv p a) as [q t]. simpl in R, IH. subst t.
  destruct p as [|d p].
  - simpl. ring.
  - cbn [fst peval] in *. rewrite IH. ring.
Qed.

Lemma sdiv_zero p a : peval p a = 0 -> zero_list (fst (sdiv p a)) -> zero_list p.
Proof.
  induction p as [|c p IH]; [constructor|].
  cbn [sdiv peval]. pose proof (sdiv_rem p a) as R.
  destruct (sdiv p a) as [q t]. simpl in R, IH. subst t. intros E Z.
  destruct p as [|d p].
  - constructor; [|constructor]. simpl in E. rewrite <- E. ring.
  - cbn [fst] in Z. inversion Z as [|? ? Z1 Z2]; subst.
    constructor; [|apply IH; assumption]. cbn [peval] in E, Z1. rewrite Z1 in E. rewrite <- E. ring.
Qed.

(** A polynomial with at least as many different roots as coefficients is zero. *)
Lemma roots_zero : forall xs p, NoDup xs -> (length p <= length xs)%nat ->
  (forall x, In x xs -> peval p x = 0) -> zero_list p.
Proof.
  induction xs as [|a xs IH]; intros p N L H.
  - destruct p; [constructor|simpl in L; lia].
  - inversion N; subst. apply (sdiv_zero p a); [apply H; left; reflexivity|].
    apply IH; [assumption|rewrite sdiv_length; simpl in L; lia|].
    intros x I. assert (E : peval p x = 0) by (apply H; right; exact I).
    rewrite (sdiv_eval p a x) in E. rewrite (H a (or_introl eq_refl)) in E.
    assert (E' : (x - a) * peval (fst (sdiv p a)) x = 0) by (rewrite <- E; ring).
    apply fmul_eq_0 in E'. destruct E' as [E'|E']; [|exact E'].
    apply (proj1 (fsub_eq_0 _ _)) in E'. subst. contradiction.
Qed.

(** Two polynomials that agree on enough points agree everywhere... *)
Lemma poly_unique xs p q : NoDup xs ->
  (length p <= length xs)%nat -> (length q <= length xs)%nat ->
  (forall x, In x xs -> peval p x = peval q x) -> forall x, peval p x = peval q x.
Proof.
  intros N Lp Lq H x. apply (proj1 (fsub_eq_0 _ _)). rewrite <- peval_psub.
  apply peval_zero_list. apply (roots_zero xs); [exact N| |].
  - rewrite length_psub. lia.
  - intros y I. rewrite peval_psub, (H y I). ring.
Qed.

(** ... and have the same coefficients. *)
Lemma poly_unique_coeff xs p q : NoDup xs ->
  (length p <= length xs)%nat -> (length q <= length xs)%nat ->
  (forall x, In x xs -> peval p x = peval q x) -> forall i, nth i p 0 = nth i q 0.
Proof.
  intros N Lp Lq H i. apply (proj1 (fsub_eq_0 _ _)).
  assert (Z : zero_list (psub p q)).
  { apply (roots_zero xs); [exact N| |].
    - rewrite length_psub. lia.
    - intros y I. rewrite peval_psub, (H y I). ring. }
  assert (E : nth i (psub p q) 0 = 0).
  { rewrite (zero_list_repeat _ Z). apply nth_repeat. }
  unfold psub in E. rewrite nth_padd, nth_pscale in E. etransitivity; [|exact E]. ring.
Qed.

Lemma poly_unique_list xs p q : NoDup xs ->
  length p = length q -> (length p <= length xs)%nat ->
  (forall x, In x xs -> peval p x = peval q x) -> p = q.
Proof.
  intros N L Lp H. apply nth_ext with (d := 0) (d' := 0); [exact L|].
  intros i _. apply (poly_unique_coeff xs); auto; lia.
Qed.

(** There are always enough points. *)
Lemma NoDup_of_nat n : (Z.of_nat n <= r)%Z -> NoDup (map of_nat (seq 0 n)).
Proof.
  intros Hn.
  assert (A : forall l, (forall k, In k l -> (Z.of_nat k < r)%Z) -> NoDup l -> NoDup (map of_nat l)).
  { induction l as [|a l IH]; intros B N; simpl; constructor.
    - intros I. apply in_map_iff in I. destruct I as (b & E & I).
      inversion N; subst. apply of_nat_inj in E; [subst; contradiction| |];
        apply B; [right; exact I|left; reflexivity].
    - apply IH; [intros; apply B; right; assumption|inversion N; assumption]. }
  apply A; [|apply seq_NoDup]. intros k I. apply in_seq in I. lia.
Qed.

(** ** Products of linear factors *)

Fixpoint prodlin (xs : list Fr) (x : Fr) : Fr :=
  match xs with [] => 1 | a :: xs' => (x - a) * prodlin xs' x end.

Lemma prodlin_0 xs x : In x xs -> prodlin xs x = 0.
Proof.
  induction xs as [|a xs IH]; simpl; [tauto|].
  intros [->|I]; [ring|rewrite (IH I); ring].
Qed.

Lemma prodlin_neq_0 xs x : ~ In x xs -> prodlin xs x <> 0.
Proof.
  induction xs as [|a xs IH]; simpl; intros H; [exact f1_neq_0|].
  apply fmul_neq_0; [|tauto]. apply (proj1 (fsub_neq_0 _ _)). intuition congruence.
Qed.

Lemma prodlin_app xs ys x : prodlin (xs ++ ys) x = prodlin xs x * prodlin ys x.
Proof. induction xs as [|a xs IH]; simpl; [ring|rewrite IH; ring]. Qed.

(** Removing the i-th element. *)
Fixpoint remove_nth {A} (i : nat) (l : list A) {struct l} : list A :=
  match l, i with
  | [], _ => []
  | _ :: l', O => l'
  | a :: l', S j => a :: remove_nth j l'
  end.

Lemma prodlin_remove : forall xs i x, (i < length xs)%nat ->
  prodlin xs x = (x - nth i xs 0) * prodlin (remove_nth i xs) x.
Proof.
  induction xs as [|a xs IH]; intros i x H; simpl in H; [lia|].
  destruct i as [|i]; simpl; [reflexivity|]. rewrite (IH i x) by lia. ring.
Qed.

Lemma in_remove_nth {A} : forall (l : list A) i d j, (j < length l)%nat -> j <> i ->
  In (nth j l d) (remove_nth i l).
Proof.
  induction l as [|a l IH]; intros i d j H N; simpl in H; [lia|].
  destruct i as [|i], j as [|j]; simpl; try lia.
  - apply nth_In. lia.
  - left. reflexivity.
  - right. apply IH; lia.
Qed.

Lemma in_remove_nth_inv {A} : forall (l : list A) i d a, In a (remove_nth i l) ->
  exists j, (j < length l)%nat /\ j <> i /\ nth j l d = a.
Proof.
  induction l as [|b l IH]; intros i d a H; simpl in H; [destruct H|].
  destruct i as [|i]; simpl in H.
  - apply (In_nth l a d) in H. destruct H as (j & Hj & E).
    exists (S j). simpl. repeat split; [lia|lia|exact E].
  - destruct H as [->|H].
    + exists O. simpl. repeat split; lia.
    + destruct (IH i d a H) as (j & Hj & Nj & E). exists (S j). simpl. repeat split; [lia|lia|exact E].
Qed.

Lemma not_in_remove_nth {A} (l : list A) i d : NoDup l -> (i < length l)%nat ->
  ~ In (nth i l d) (remove_nth i l).
Proof.
  intros N H I. apply (in_remove_nth_inv l i d) in I. destruct I as (j & Hj & Nj & E).
  apply Nj. apply (proj1 (NoDup_nth l d) N); assumption.
Qed.

(** The Lagrange basis value l_i(x) for the nodes xs. *)
Definition lbasis (xs : list Fr) (i : nat) (x : Fr) : Fr :=
  prodlin (remove_nth i xs) x / prodlin (remove_nth i xs) (nth i xs 0).

Lemma lbasis_same xs i : NoDup xs -> (i < length xs)%nat -> lbasis xs i (nth i xs 0) = 1.
Proof.
  intros N H. unfold lbasis. field. apply prodlin_neq_0.
  apply not_in_remove_nth; assumption.
Qed.

Lemma lbasis_other xs i j : NoDup xs -> (i < length xs)%nat -> (j < length xs)%nat -> i <> j ->
  lbasis xs i (nth j xs 0) = 0.
Proof.
  intros N Hi Hj H. unfold lbasis.
  rewrite (prodlin_0 (remove_nth i xs) (nth j xs 0)) by (apply in_remove_nth; auto).
  rewrite fdiv_def. ring.
Qed.

(** The product of linear factors is a polynomial. *)
Fixpoint plin (xs : list Fr) : list Fr :=
  match xs with [] => [1] | a :: xs' => pmul [- a; 1] (plin xs') end.

Lemma peval_plin xs x : peval (plin xs) x = prodlin xs x.
Proof.
  induction xs as [|a xs IH]; [simpl; ring|].
  cbn [plin prodlin]. rewrite peval_pmul, IH. simpl. ring.
Qed.

Lemma length_plin xs : length (plin xs) = S (length xs).
Proof.
  induction xs as [|a xs IH]; [reflexivity|].
  cbn [plin]. rewrite length_pmul; [rewrite IH; reflexivity|discriminate|].
  intros E. rewrite E in IH. discriminate.
Qed.

Lemma length_remove_nth {A} : forall (l : list A) i, (i < length l)%nat ->
  length (remove_nth i l) = (length l - 1)%nat.
Proof.
  induction l as [|a l IH]; intros i H; simpl in *; [lia|].
  destruct i as [|i]; [lia|]. simpl. rewrite IH by lia. lia.
Qed.

(** Any polynomial with at most as many coefficients as there are nodes is recovered
    from its values at the nodes. *)
Lemma lagrange_eval xs p x : NoDup xs -> (length p <= length xs)%nat ->
  peval p x = sumn (length xs) (fun i => lbasis xs i x * peval p (nth i xs 0)).
Proof.
  intros N L.
  set (q := fold_right padd []
              (map (fun i => pscale (peval p (nth i xs 0) / prodlin (remove_nth i xs) (nth i xs 0))
                                    (plin (remove_nth i xs))) (seq 0 (length xs)))).
  assert (Q : forall y, peval q y = sumn (length xs) (fun i => lbasis xs i y * peval p (nth i xs 0))).
  { intros y. rewrite <- fsum_map_seq. unfold q.
    generalize (seq 0 (length xs)). induction l as [|i l IH]; simpl; [reflexivity|].
    rewrite peval_padd, IH, peval_pscale, peval_plin. unfold lbasis. rewrite !fdiv_def. ring. }
  rewrite <- Q. apply (poly_unique xs); [exact N|exact L| |].
  - unfold q.
    assert (B : forall l, (forall i, In i l -> (i < length xs)%nat) ->
      Nat.le (length (fold_right padd [] (map (fun i => pscale (peval p (nth i xs 0) /
          prodlin (remove_nth i xs) (nth i xs 0)) (plin (remove_nth i xs))) l))) (length xs)).
    { induction l as [|i l IH]; intros B; simpl; [lia|].
      rewrite length_padd, length_pscale, length_plin, length_remove_nth by (apply B; left; reflexivity).
      specialize (IH ltac:(intros; apply B; right; assumption)).
      assert (i < length xs)%nat by (apply B; left; reflexivity). lia. }
    apply B. intros i I. apply in_seq in I. lia.
  - intros y I. rewrite Q. apply (In_nth xs y 0) in I. destruct I as (j & Hj & <-).
    symmetry. etransitivity.
    + apply (sumn_single _ _ j Hj). intros i Hi Ne. rewrite lbasis_other by auto. ring.
    + simpl. rewrite lbasis_same by assumption. ring.
Qed.

(** ** Examples *)

Example lagrange_example :
  peval [of_Z 5; of_Z 3; of_Z 2] (of_Z 10) = of_Z 235.
Proof. vm_compute. reflexivity. Qed.
