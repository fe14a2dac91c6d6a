(** Vocabulary shared by the models: outcomes of Go functions, arrays, loops. *)

Require Import List Arith Lia Bool.
From Verif Require Import CodecModel.
Import ListNotations.

(** A call returns, or panics (run-time panic or explicit [panic]), or ends the process
    with [log.Fatal], or returns a non-nil error. *)
Inductive go (A : Type) : Type :=
| Ret (a : A)
| Panic
| Fatal
| Error.
Arguments Ret {A}. Arguments Panic {A}. Arguments Fatal {A}. Arguments Error {A}.

Definition bind {A B} (m : go A) (k : A -> go B) : go B :=
  match m with Ret a => k a | Panic => Panic | Fatal => Fatal | Error => Error end.

Notation "x <- m ;; k" := (bind m (fun x => k))
  (at level 61, m at next level, right associativity).
Notation "' p <- m ;; k" := (bind m (fun p => k))
  (at level 61, p pattern, m at next level, right associativity).

(** [for i := lo; i < lo + n; i++]. *)
Definition loop {S} (lo n : nat) (body : S -> nat -> S) (s : S) : S := fold_left body (seq lo n) s.

(** [for i := hi; i >= lo; i--] where hi = lo + n - 1. *)
Definition loop_down {S} (lo n : nat) (body : S -> nat -> S) (s : S) : S :=
  fold_left body (rev (seq lo n)) s.

(** The same with a body that may not return. *)
Fixpoint gofold {S A} (body : S -> A -> go S) (l : list A) (s : S) : go S :=
  match l with [] => Ret s | a :: l' => bind (body s a) (gofold body l') end.

Definition goloop {S} (lo n : nat) (body : S -> nat -> go S) (s : S) : go S :=
  gofold body (seq lo n) s.

(** Reading [l[i]] with a bounds check. *)
Definition idx {A} (l : list A) (i : nat) : go A :=
  match nth_error l i with Some a => Ret a | None => Panic end.

(** Writing [l[i] = a] with a bounds check. *)
Definition upd {A} (l : list A) (i : nat) (a : A) : go (list A) :=
  if (i <? length l)%nat then Ret (set_nth i a l) else Panic.

(** [l[:n]]; the slices of this code have capacity = length. *)
Definition slice_to {A} (l : list A) (n : nat) : go (list A) :=
  if (n <=? length l)%nat then Ret (firstn n l) else Panic.

(** ** Lemmas *)

Lemma length_set_nth {A} i (x : A) : forall l, length (set_nth i x l) = length l.
Proof. induction i as [|i IH]; intros [|a l]; simpl; auto. Qed.

Lemma nth_set_nth {A} d (x : A) : forall l i j, 
  nth j (set_nth i x l) d = if (i =? j) && (i <? length l) then x else nth j l d.
Proof.
  induction l as [|a l IH]; intros i j.
  - destruct i; simpl; rewrite andb_comm; reflexivity.
  - destruct i as [|i], j as [|j]; simpl; try reflexivity. rewrite IH. reflexivity.
Qed.

Lemma nth_set_nth_same {A} d (x : A) l i : i < length l -> nth i (set_nth i x l) d = x.
Proof.
  intros H. rewrite nth_set_nth, Nat.eqb_refl. apply Nat.ltb_lt in H. rewrite H. reflexivity.
Qed.

Lemma nth_set_nth_other {A} d (x : A) l i j : i <> j -> nth j (set_nth i x l) d = nth j l d.
Proof.
  intros H. rewrite nth_set_nth. apply Nat.eqb_neq in H. rewrite H. reflexivity.
Qed.

Lemma loop_S {S} lo n (body : S -> nat -> S) s :
  loop lo (1 + n) body s = body (loop lo n body s) (lo + n).
Proof. unfold loop. cbn [Nat.add]. rewrite seq_S, fold_left_app. reflexivity. Qed.

Lemma loop_0 {S} lo (body : S -> nat -> S) s : loop lo 0 body s = s.
Proof. reflexivity. Qed.

(** A loop that replaces each a[i] by something computed from the old a[i]. *)
Lemma loop_map_length {A} lo n (F : nat -> A -> A) d l :
  length (loop lo n (fun a i => set_nth i (F i (nth i a d)) a) l) = length l.
Proof.
  induction n as [|n IH]; [reflexivity|].
  change (S n) with (1 + n). rewrite loop_S, length_set_nth. exact IH.
Qed.

Lemma loop_map_nth {A} lo n (F : nat -> A -> A) d l j : j < length l ->
  nth j (loop lo n (fun a i => set_nth i (F i (nth i a d)) a) l) d =
  if (lo <=? j) && (j <? lo + n) then F j (nth j l d) else nth j l d.
Proof.
  intros Hj. induction n as [|n IH].
  - rewrite loop_0. replace ((lo <=? j) && (j <? lo + 0)) with false; [reflexivity|].
    symmetry. apply andb_false_iff. rewrite Nat.leb_gt, Nat.ltb_ge. lia.
  - change (S n) with (1 + n). rewrite loop_S, nth_set_nth.
    rewrite loop_map_length.
    destruct (Nat.eqb_spec (lo + n) j) as [E|E]; cbn [andb].
    + subst j. rewrite (proj2 (Nat.ltb_lt _ _) Hj).
      rewrite IH.
      replace ((lo <=? lo + n) && (lo + n <? lo + n)) with false
        by (symmetry; apply andb_false_iff; rewrite Nat.leb_gt, Nat.ltb_ge; lia).
      replace ((lo <=? lo + n) && (lo + n <? lo + (1 + n))) with true; [reflexivity|].
      symmetry. apply andb_true_iff. rewrite Nat.leb_le, Nat.ltb_lt. lia.
    + rewrite IH. f_equal.
      destruct (Nat.leb_spec lo j), (Nat.ltb_spec j (lo + n)), (Nat.ltb_spec j (lo + (1 + n)));
        simpl; try reflexivity; lia.
Qed.

Lemma loop_ext {S} lo n (b1 b2 : S -> nat -> S) s :
  (forall s i, lo <= i < lo + n -> b1 s i = b2 s i) -> loop lo n b1 s = loop lo n b2 s.
Proof.
  intros H. induction n as [|n IH]; [reflexivity|].
  change (Datatypes.S n) with (1 + n). rewrite !loop_S, IH.
  - apply H. lia.
  - intros; apply H; lia.
Qed.

(** Invariant rule for loops. *)
Lemma loop_inv {S} (P : nat -> S -> Prop) lo n body s :
  P lo s -> (forall i s, lo <= i < lo + n -> P i s -> P (1 + i) (body s i)) ->
  P (lo + n) (loop lo n body s).
Proof.
  intros H0 H. induction n as [|n IH].
  - rewrite Nat.add_0_r. exact H0.
  - rewrite Nat.add_succ_r. change (Datatypes.S n) with (1 + n). rewrite loop_S.
    apply H; [lia|]. apply IH. intros; apply H; [lia|assumption].
Qed.

(** [P i s] holds before the body runs for index [i - 1]. *)
Lemma loop_down_inv {S} (P : nat -> S -> Prop) lo n body s :
  P (lo + n) s -> (forall i s, lo <= i < lo + n -> P (1 + i) s -> P i (body s i)) ->
  P lo (loop_down lo n body s).
Proof.
  revert s. induction n as [|n IH]; intros s H0 H.
  - rewrite Nat.add_0_r in H0. exact H0.
  - unfold loop_down. rewrite seq_S, rev_app_distr. simpl.
    apply IH.
    + apply H; [lia|]. rewrite Nat.add_succ_r in H0. exact H0.
    + intros; apply H; [lia|assumption].
Qed.

Lemma gofold_app {S A} (body : S -> A -> go S) l1 l2 s :
  gofold body (l1 ++ l2) s = bind (gofold body l1 s) (gofold body l2).
Proof.
  revert s. induction l1 as [|a l IH]; intros s; simpl; [reflexivity|].
  destruct (body s a); simpl; auto.
Qed.

Lemma gofold_inv {S A} (P : list A -> S -> Prop) (body : S -> A -> go S) l s :
  P [] s ->
  (forall l1 a l2 s, l = l1 ++ a :: l2 -> P l1 s ->
     exists s', body s a = Ret s' /\ P (l1 ++ [a]) s') ->
  exists s', gofold body l s = Ret s' /\ P l s'.
Proof.
  intros H0 H.
  assert (G : forall l2 l1 s, l = l1 ++ l2 -> P l1 s ->
    exists s', gofold body l2 s = Ret s' /\ P l s').
  { induction l2 as [|a l2 IH]; intros l1 s1 E HP; simpl.
    - rewrite app_nil_r in E. subst. eauto.
    - destruct (H l1 a l2 s1 E HP) as (s' & -> & HP'). simpl.
      apply (IH (l1 ++ [a])); [rewrite <- app_assoc; exact E|exact HP']. }
  apply (G l [] s); [reflexivity|exact H0].
Qed.

Lemma goloop_inv {S} (P : nat -> S -> Prop) lo n (body : S -> nat -> go S) s :
  P lo s ->
  (forall i s, lo <= i < lo + n -> P i s -> exists s', body s i = Ret s' /\ P (1 + i) s') ->
  exists s', goloop lo n body s = Ret s' /\ P (lo + n) s'.
Proof.
  intros H0 H. unfold goloop.
  destruct (gofold_inv (fun l s => P (lo + length l) s) body (seq lo n) s) as (s' & E & HP).
  - simpl. rewrite Nat.add_0_r. exact H0.
  - intros l1 a l2 s1 E HP. 
    assert (L : length l1 < n).
    { apply (f_equal (@length nat)) in E. rewrite seq_length, app_length in E. simpl in E. lia. }
    assert (Ea : a = lo + length l1).
    { assert (E2 : nth (length l1) (seq lo n) 0 = a).
      { rewrite E, app_nth2, Nat.sub_diag by lia. reflexivity. }
      rewrite seq_nth in E2 by exact L. congruence. }
    subst a. destruct (H (lo + length l1) s1) as (s' & E' & HP'); [lia|exact HP|].
    exists s'. split; [exact E'|]. rewrite app_length. simpl.
    replace (lo + (length l1 + 1)) with (1 + (lo + length l1)) by lia. exact HP'.
  - exists s'. split; [exact E|]. rewrite seq_length in HP. exact HP.
Qed.

Lemma goloop_S {S} lo n (body : S -> nat -> go S) s :
  goloop lo (1 + n) body s = bind (goloop lo n body s) (fun s' => body s' (lo + n)).
Proof.
  unfold goloop. cbn [Nat.add]. rewrite seq_S, gofold_app. simpl.
  destruct (gofold body (seq lo n) s); simpl; try reflexivity.
  destruct (body a (lo + n)); reflexivity.
Qed.

Lemma idx_nth {A} d (l : list A) i : i < length l -> idx l i = Ret (nth i l d).
Proof.
  intros H. unfold idx. rewrite (nth_error_nth' l d H). reflexivity.
Qed.

Lemma idx_panic {A} (l : list A) i : length l <= i -> idx l i = Panic.
Proof. intros H. unfold idx. apply nth_error_None in H. rewrite H. reflexivity. Qed.

Lemma list_ext {A} d (l1 l2 : list A) : length l1 = length l2 ->
  (forall i, i < length l1 -> nth i l1 d = nth i l2 d) -> l1 = l2.
Proof. intros. apply nth_ext with (d := d) (d' := d); assumption. Qed.
