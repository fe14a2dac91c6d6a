(** The scalar field of BLS12-381.

    Modelled: the type [bls.Fr] of /repo/internal/bls/bignum_kilic.go and the
    operations that the rest of the code uses on it: [CopyFr] (60), [SetFr] (28-32),
    [AsFr] (64-68), [EqualOne] (77), [EqualZero] (81), [EqualFr] (85), [SubModFr] (98), [AddModFr] (102),
    [DivModFr] (106-110), [MulModFr] (112), [InvModFr] (116).

    Simplification: the library's Montgomery limbs are replaced by the integer
    [0 <= z < r] which they represent.  [InvModFr] of zero is zero, and
    [DivModFr] multiplies by the inverse, so division by zero gives zero (the
    library does not panic). *)

Require Import ZArith Znumtheory List Lia Bool Eqdep_dec.
Require Export Field Ring.
From Verif Require Import Prime.
Import ListNotations.
Local Open Scope Z_scope.

Definition in_range (z : Z) : bool := (0 <=? z) && (z <? r).

Record Fr : Type := mkFr { fv : Z; fv_ok : in_range fv = true }.

(** Computes to [eq_refl] on closed terms, so that equal scalars are convertible. *)
Definition norm_true (b : bool) : b = true -> b = true :=
  match b return b = true -> b = true with
  | true => fun _ => eq_refl
  | false => fun h => h
  end.

Lemma fred_in_range z : in_range (fred z) = true.
Proof.
  unfold in_range. rewrite fred_mod.
  pose proof (Z.mod_pos_bound z r r_pos). apply andb_true_iff. lia.
Qed.

Definition of_Z (z : Z) : Fr := mkFr (fred z) (norm_true _ (fred_in_range z)).

Lemma Fr_ext (a b : Fr) : fv a = fv b -> a = b.
Proof.
  destruct a as [a Ha], b as [b Hb]. simpl. intros <-. f_equal.
  apply UIP_dec. apply bool_dec.
Qed.

Lemma fv_range (a : Fr) : 0 <= fv a < r.
Proof. destruct a as [a H]. simpl. apply andb_true_iff in H. lia. Qed.

Lemma fv_of_Z z : fv (of_Z z) = z mod r.
Proof. apply fred_mod. Qed.

Lemma of_Z_fv a : of_Z (fv a) = a.
Proof. apply Fr_ext. rewrite fv_of_Z. apply Z.mod_small. apply fv_range. Qed.

Lemma of_Z_eq x y : x mod r = y mod r -> of_Z x = of_Z y.
Proof. intros H. apply Fr_ext. rewrite !fv_of_Z. exact H. Qed.

(** Extended Euclid on (r, a): returns u with u * a = gcd mod r.  The invariant is
    a0*u0 = x0 and a0*u1 = x1 modulo r. *)
Fixpoint euclid (fuel : nat) (x0 x1 u0 u1 : Z) : Z * Z :=
  match fuel with
  | O => (x0, u0)
  | S f => if x1 =? 0 then (x0, u0)
           else let q := x0 / x1 in
                euclid f x1 (x0 - q * x1) u1 (fred (u0 - q * u1))
  end.

(** Fuel: the argument halves every two steps and has at most 255 bits. *)
Definition inv_fuel : nat := 520.

Definition f0 : Fr := of_Z 0.
Definition f1 : Fr := of_Z 1.
Definition fadd (a b : Fr) : Fr := of_Z (fv a + fv b).
Definition fsub (a b : Fr) : Fr := of_Z (fv a - fv b).
Definition fopp (a : Fr) : Fr := of_Z (- fv a).
Definition fmul (a b : Fr) : Fr := of_Z (fv a * fv b).
(** bignum_kilic.go [InvModFr]: zero is mapped to zero. *)
Definition finv (a : Fr) : Fr := of_Z (snd (euclid inv_fuel r (fv a) 0 1)).
(** bignum_kilic.go [DivModFr]. *)
Definition fdiv (a b : Fr) : Fr := fmul a (finv b).
(** bignum_kilic.go [EqualFr]. *)
Definition feqb (a b : Fr) : bool := fv a =? fv b.
(** bignum_kilic.go:64-68 [AsFr] (for a non-negative argument). *)
Definition of_nat (n : nat) : Fr := of_Z (Z.of_nat n).

Declare Scope F_scope.
Delimit Scope F_scope with F.
Bind Scope F_scope with Fr.
Infix "+" := fadd : F_scope.
Infix "-" := fsub : F_scope.
Infix "*" := fmul : F_scope.
Infix "/" := fdiv : F_scope.
Notation "- x" := (fopp x) : F_scope.
Notation "0" := f0 : F_scope.
Notation "1" := f1 : F_scope.

Lemma of_Z_add x y : of_Z (x + y) = fadd (of_Z x) (of_Z y).
Proof. apply Fr_ext. unfold fadd. rewrite !fv_of_Z. apply Zplus_mod. Qed.

Lemma of_Z_mul x y : of_Z (x * y) = fmul (of_Z x) (of_Z y).
Proof. apply Fr_ext. unfold fmul. rewrite !fv_of_Z. apply Zmult_mod. Qed.

Lemma of_Z_sub x y : of_Z (x - y) = fsub (of_Z x) (of_Z y).
Proof. apply Fr_ext. unfold fsub. rewrite !fv_of_Z. apply Zminus_mod. Qed.

Lemma of_Z_mod x : of_Z (x mod r) = of_Z x.
Proof. apply of_Z_eq. apply Zmod_mod. Qed.

Lemma of_Z_0_iff x : of_Z x = f0 <-> x mod r = 0.
Proof.
  split.
  - intros H. apply (f_equal fv) in H. unfold f0 in H. rewrite !fv_of_Z in H. exact H.
  - intros H. apply Fr_ext. unfold f0. rewrite !fv_of_Z. exact H.
Qed.

Lemma feqb_eq a b : feqb a b = true <-> a = b.
Proof.
  unfold feqb. rewrite Z.eqb_eq. split; [apply Fr_ext|intros ->; reflexivity].
Qed.

Lemma feqb_refl a : feqb a a = true.
Proof. apply feqb_eq. reflexivity. Qed.

Lemma feqb_neq a b : feqb a b = false <-> a <> b.
Proof.
  rewrite <- feqb_eq. destruct (feqb a b); split; congruence.
Qed.

Lemma Fr_eq_dec (a b : Fr) : {a = b} + {a <> b}.
Proof.
  destruct (feqb a b) eqn:E; [left; apply feqb_eq; exact E|right; apply feqb_neq; exact E].
Defined.

(** *** Correctness of the inverse *)

Lemma euclid_spec a : forall fuel x0 x1 u0 u1,
  0 <= x1 < x0 ->
  (x0 * x1 < 2 ^ Z.of_nat fuel) ->
  (fmul (of_Z a) (of_Z u0) = of_Z x0) -> (fmul (of_Z a) (of_Z u1) = of_Z x1) ->
  let '(g, u) := euclid fuel x0 x1 u0 u1 in
  g = Z.gcd x0 x1 /\ fmul (of_Z a) (of_Z u) = of_Z g.
Proof.
  induction fuel as [|f IH]; intros x0 x1 u0 u1 B HB E0 E1; cbn [euclid].
  - assert (x1 = 0) by (change (2 ^ Z.of_nat 0) with 1 in HB; nia). subst.
    split; [|exact E0]. rewrite Z.gcd_0_r. lia.
  - destruct (x1 =? 0) eqn:Ex.
    + apply Z.eqb_eq in Ex. subst. split; [|exact E0]. rewrite Z.gcd_0_r. lia.
    + apply Z.eqb_neq in Ex.
      pose proof (Z.div_mod x0 x1 Ex) as DM.
      pose proof (Z.mod_pos_bound x0 x1 ltac:(lia)) as MB.
      set (q := x0 / x1) in *. set (t := x0 mod x1) in *.
      replace (x0 - q * x1) with t by lia.
      assert (Hq : 1 <= q) by (apply Z.div_le_lower_bound; lia).
      specialize (IH x1 t u1 (fred (u0 - q * u1))).
      rewrite fred_mod in *. rewrite of_Z_mod in IH.
      destruct (euclid f x1 t u1 ((u0 - q * u1) mod r)) as [g u].
      destruct IH as [G U].
      * lia.
      * rewrite Nat2Z.inj_succ, Z.pow_succ_r in HB by lia.
        assert (2 * t <= x0) by nia. nia.
      * exact E1.
      * rewrite of_Z_sub, of_Z_mul.
        replace t with (x0 - q * x1) by lia. rewrite of_Z_sub, of_Z_mul, <- E0, <- E1.
        repeat (rewrite <- of_Z_mul || rewrite <- of_Z_sub). f_equal. ring.
      * split; [|exact U]. rewrite G.
        rewrite (Z.gcd_comm x1 t). unfold t. rewrite Z.gcd_mod by lia. apply Z.gcd_comm.
Qed.

Lemma finv_r a : a <> f0 -> fmul a (finv a) = f1.
Proof.
  intros H. unfold finv.
  pose proof (fv_range a) as R.
  assert (N0 : fv a <> 0%Z).
  { intros E. apply H. apply Fr_ext. rewrite E. unfold f0. rewrite fv_of_Z. reflexivity. }
  pose proof (euclid_spec (fv a) inv_fuel r (fv a) 0 1) as E.
  destruct (euclid inv_fuel r (fv a) 0 1) as [g u]. simpl snd.
  destruct E as [G U].
  - lia.
  - assert (r * fv a < r * r) by nia.
    assert (r * r < 2 ^ Z.of_nat inv_fuel) by (vm_compute; reflexivity). lia.
  - rewrite <- of_Z_mul, Z.mul_0_r. apply of_Z_eq.
    rewrite Z.mod_0_l, Z_mod_same_full; [reflexivity|]. pose proof r_pos; lia.
  - rewrite <- of_Z_mul, Z.mul_1_r. reflexivity.
  - rewrite of_Z_fv in U. rewrite U, G.
    assert (RP : rel_prime r (fv a)).
    { apply rel_prime_sym. apply rel_prime_le_prime; [exact r_prime|lia]. }
    apply Zgcd_1_rel_prime in RP. rewrite RP. reflexivity.
Qed.

Lemma finv_0 : finv f0 = f0.
Proof. apply Fr_ext. vm_compute. reflexivity. Qed.

(** *** Field structure *)

Ltac zring :=
  apply Fr_ext; unfold fadd, fsub, fmul, fopp, f0, f1; rewrite !fv_of_Z;
  repeat first [rewrite Zmult_mod_idemp_l | rewrite Zmult_mod_idemp_r
    | rewrite Zplus_mod_idemp_l | rewrite Zplus_mod_idemp_r
    | rewrite Zminus_mod_idemp_l | rewrite Zminus_mod_idemp_r];
  f_equal; ring.

Lemma fadd_comm a b : fadd a b = fadd b a.
Proof. zring. Qed.
Lemma fadd_assoc a b c : fadd a (fadd b c) = fadd (fadd a b) c.
Proof. zring. Qed.
Lemma fmul_comm a b : fmul a b = fmul b a.
Proof. zring. Qed.
Lemma fmul_assoc a b c : fmul a (fmul b c) = fmul (fmul a b) c.
Proof. zring. Qed.
Lemma fmul_add_l a b c : fmul (fadd a b) c = fadd (fmul a c) (fmul b c).
Proof. zring. Qed.
Lemma fadd_0_l a : fadd f0 a = a.
Proof.
  rewrite <- (of_Z_fv a) at 2. unfold fadd, f0. apply of_Z_eq. rewrite fv_of_Z.
  rewrite Zplus_mod_idemp_l. reflexivity.
Qed.
Lemma fmul_1_l a : fmul f1 a = a.
Proof.
  rewrite <- (of_Z_fv a) at 2. unfold fmul, f1. apply of_Z_eq. rewrite fv_of_Z.
  rewrite Zmult_mod_idemp_l. f_equal. ring.
Qed.
Lemma fsub_def a b : fsub a b = fadd a (fopp b).
Proof. zring. Qed.
Lemma fadd_opp a : fadd a (fopp a) = f0.
Proof. zring. Qed.
Lemma f1_neq_0 : f1 <> f0.
Proof. intros H. apply (f_equal fv) in H. revert H. vm_compute. discriminate. Qed.
Lemma fdiv_def a b : fdiv a b = fmul a (finv b).
Proof. reflexivity. Qed.
Lemma finv_l a : a <> f0 -> fmul (finv a) a = f1.
Proof. intros H. rewrite fmul_comm. apply finv_r. exact H. Qed.

Lemma Fr_ring_theory : ring_theory f0 f1 fadd fmul fsub fopp (@eq Fr).
Proof.
  constructor.
  - apply fadd_0_l.
  - apply fadd_comm.
  - apply fadd_assoc.
  - apply fmul_1_l.
  - apply fmul_comm.
  - apply fmul_assoc.
  - apply fmul_add_l.
  - apply fsub_def.
  - apply fadd_opp.
Qed.

Lemma Fr_field_theory : field_theory f0 f1 fadd fmul fsub fopp fdiv finv (@eq Fr).
Proof.
  constructor.
  - exact Fr_ring_theory.
  - exact f1_neq_0.
  - exact fdiv_def.
  - exact finv_l.
Qed.

Add Field Fr_field : Fr_field_theory.

Lemma fmul_eq_0 a b : fmul a b = f0 -> a = f0 \/ b = f0.
Proof.
  intros H. destruct (Fr_eq_dec a f0) as [E|E]; [left; exact E|right].
  replace b with (fmul (finv a) (fmul a b)) by (field; exact E).
  rewrite H. ring.
Qed.

Lemma fmul_neq_0 a b : a <> f0 -> b <> f0 -> fmul a b <> f0.
Proof. intros Ha Hb H. apply fmul_eq_0 in H. tauto. Qed.

Lemma fsub_eq_0 a b : fsub a b = f0 <-> a = b.
Proof.
  split; [|intros ->; ring].
  intros H. replace a with (fadd (fsub a b) b) by ring. rewrite H. ring.
Qed.

Lemma fsub_neq_0 a b : a <> b <-> fsub a b <> f0.
Proof. rewrite fsub_eq_0. tauto. Qed.

Lemma finv_neq_0 a : a <> f0 -> finv a <> f0.
Proof.
  intros H E. apply f1_neq_0. rewrite <- (finv_r a H), E. ring.
Qed.

Lemma fmul_cancel_l a b c : a <> f0 -> fmul a b = fmul a c -> b = c.
Proof.
  intros Ha H. apply fsub_eq_0. destruct (fmul_eq_0 a (fsub b c)) as [E|E]; try tauto.
  replace (fmul a (fsub b c)) with (fsub (fmul a b) (fmul a c)) by ring.
  rewrite H. ring.
Qed.

(** Small integers are different scalars. *)
Lemma of_Z_inj x y : 0 <= x < r -> 0 <= y < r -> of_Z x = of_Z y -> x = y.
Proof.
  intros Hx Hy H. apply (f_equal fv) in H. rewrite !fv_of_Z in H.
  rewrite !Z.mod_small in H by assumption. exact H.
Qed.

Lemma of_nat_inj x y : Z.of_nat x < r -> Z.of_nat y < r -> of_nat x = of_nat y -> x = y.
Proof. intros Hx Hy H. apply of_Z_inj in H; lia. Qed.

(** Powers, as repeated multiplication. *)
Fixpoint fpow (a : Fr) (n : nat) : Fr :=
  match n with O => f1 | S m => fmul a (fpow a m) end.

Lemma fpow_add a m n : fpow a (m + n) = fmul (fpow a m) (fpow a n).
Proof. induction m as [|m IH]; simpl; [ring|rewrite IH; ring]. Qed.

Lemma fpow_mul a m n : fpow a (m * n) = fpow (fpow a m) n.
Proof.
  induction n as [|n IH].
  - rewrite Nat.mul_0_r. reflexivity.
  - rewrite Nat.mul_succ_r, Nat.add_comm, fpow_add, IH. reflexivity.
Qed.

Lemma fpow_mul_base a b n : fpow (fmul a b) n = fmul (fpow a n) (fpow b n).
Proof. induction n as [|n IH]; simpl; [ring|rewrite IH; ring]. Qed.

Lemma fpow_1_l n : fpow f1 n = f1.
Proof. induction n as [|n IH]; simpl; [reflexivity|rewrite IH; ring]. Qed.

Lemma fpow_neq_0 a n : a <> f0 -> fpow a n <> f0.
Proof.
  intros H. induction n as [|n IH]; simpl; [exact f1_neq_0|apply fmul_neq_0; assumption].
Qed.

#[global] Opaque fadd fsub fmul fopp finv fdiv f0 f1 of_Z feqb r.

(** ** Examples *)
Example fr_example_1 : fdiv (of_Z 6) (of_Z 3) = of_Z 2.
Proof. vm_compute. reflexivity. Qed.

Example fr_example_2 : fmul (finv (of_Z (-7))) (of_Z (-7)) = f1.
Proof. vm_compute. reflexivity. Qed.
