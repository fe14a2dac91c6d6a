(** C61 The back ends of the scalar arithmetic give the same results. *)

Require Import ZArith NArith List Bool Lia.
From Verif Require Import Prime Fr Bytes CodecModel CodecProofs GoBase TextModel BackendModel BackendProofs.
Import ListNotations.
Local Open Scope Z_scope.

(** Computations that Go can express: constants are uint64, byte arrays have 32 bytes. *)
Fixpoint typed (c : comp) : Prop :=
  match c with
  | Halt => True
  | As _ n k => 0 <= n < 2 ^ 64 /\ typed k
  | Add _ _ _ k | Sub _ _ _ k | Mul _ _ _ k | Div _ _ _ k | Inv _ _ k | Exp _ _ _ k | Copy _ _ k => typed k
  | From _ v ok fail => is_bytes v /\ length v = 32%nat /\ typed ok /\ typed fail
  | IfZero _ k1 k2 | IfOne _ k1 k2 | IfEq _ _ k1 k2 => typed k1 /\ typed k2
  end.

(** No zero is inverted by [InvModFr] when the computation starts with [s]. *)
Fixpoint no_zero_inverse (c : comp) (s : nat -> Fr) : Prop :=
  match c with
  | Halt => True
  | As d n k => no_zero_inverse k (put s d (of_Z n))
  | Add d a b k => no_zero_inverse k (put s d (fadd (s a) (s b)))
  | Sub d a b k => no_zero_inverse k (put s d (fsub (s a) (s b)))
  | Mul d a b k => no_zero_inverse k (put s d (fmul (s a) (s b)))
  | Div d a b k => no_zero_inverse k (put s d (fdiv (s a) (s b)))
  | Inv d a k => s a <> f0 /\ no_zero_inverse k (put s d (finv (s a)))
  | Exp d a e k => no_zero_inverse k (put s d (fpow (s a) e))
  | Copy d a k => no_zero_inverse k (put s d (s a))
  | From d v ok fail => match FrFrom32 v with
                        | Some x => no_zero_inverse ok (put s d x)
                        | None => no_zero_inverse fail s
                        end
  | IfZero a k1 k2 => if feqb (s a) f0 then no_zero_inverse k1 s else no_zero_inverse k2 s
  | IfOne a k1 k2 => if feqb (s a) f1 then no_zero_inverse k1 s else no_zero_inverse k2 s
  | IfEq a b k1 k2 => if feqb (s a) (s b) then no_zero_inverse k1 s else no_zero_inverse k2 s
  end.

Definition agree (h : nat -> Z) (s : nat -> Fr) : Prop := forall i, h i = fv (s i).

Lemma agree_put h s d x y : agree h s -> x = fv y -> agree (put h d x) (put s d y).
Proof. intros A E i. unfold put. destruct (i =? d)%nat; auto. Qed.

Lemma as_ok n : 0 <= n < 2 ^ 64 -> n = fv (of_Z n).
Proof.
  intros H. rewrite fv_of_Z, Z.mod_small; [reflexivity|]. split; [lia|]. eapply Z.lt_trans; [apply H|]. reflexivity.
Qed.

Lemma fv_add a b : fv (fadd a b) = (fv a + fv b) mod r.
Proof. with_strategy transparent [fadd] (unfold fadd). apply fv_of_Z. Qed.
Lemma fv_sub a b : fv (fsub a b) = (fv a - fv b) mod r.
Proof. with_strategy transparent [fsub] (unfold fsub). apply fv_of_Z. Qed.
Lemma fv_mul a b : fv (fmul a b) = (fv a * fv b) mod r.
Proof. with_strategy transparent [fmul] (unfold fmul). apply fv_of_Z. Qed.
Lemma fv_div a b : fv (fdiv a b) = (fv a * ModInverse 0 (fv b)) mod r.
Proof. with_strategy transparent [fdiv] (unfold fdiv). rewrite fv_mul, inverse_fv0. reflexivity. Qed.
Lemma eq_ok a b : (fv a =? fv b) = feqb a b.
Proof. with_strategy transparent [feqb] (unfold feqb). reflexivity. Qed.
Lemma zero_ok a : (fv a =? 0) = feqb a f0.
Proof. rewrite <- eq_ok. reflexivity. Qed.
Lemma one_ok a : (fv a =? 1) = feqb a f1.
Proof. rewrite <- eq_ok. reflexivity. Qed.

(** Every computation has the same result with holiman/uint256 as with the default library,
    on every register, including all branches taken. *)
Theorem c61_hol : forall c h s, typed c -> agree h s ->
  forall i, run Hol c h i = fv (run Kilic c s i).
Proof.
  induction c as [|d n k IH|d a b k IH|d a b k IH|d a b k IH|d a b k IH|d a k IH|d a e k IH|d a k IH
                 |d v ok IHo fail IHf|a k1 IH1 k2 IH2|a k1 IH1 k2 IH2|a b k1 IH1 k2 IH2];
    intros h s T A; cbn [run typed num Hol Kilic b_as b_add b_sub b_mul b_div b_inv b_exp b_zero b_one b_eq b_from] in *.
  - exact A.
  - apply IH; [apply T|]. apply agree_put; [exact A|]. apply as_ok. apply T.
  - apply IH; [exact T|]. apply agree_put; [exact A|]. rewrite !A, fv_add. reflexivity.
  - apply IH; [exact T|]. apply agree_put; [exact A|]. rewrite !A. apply hol_sub.
  - apply IH; [exact T|]. apply agree_put; [exact A|]. rewrite !A, fv_mul. reflexivity.
  - apply IH; [exact T|]. apply agree_put; [exact A|]. rewrite !A, fv_div. reflexivity.
  - apply IH; [exact T|]. apply agree_put; [exact A|]. rewrite !A. apply inverse_fv0.
  - apply IH; [exact T|]. apply agree_put; [exact A|]. rewrite !A, fv_pow. reflexivity.
  - apply IH; [exact T|]. apply agree_put; [exact A|]. apply A.
  - destruct T as (B & L & To & Tf). rewrite (from_agree v B L).
    destruct (FrFrom32 v) as [x|]; cbn [option_map].
    + apply IHo; [exact To|]. apply agree_put; [exact A|reflexivity].
    + apply IHf; assumption.
  - rewrite A, zero_ok. destruct (feqb (s a) f0); [apply IH1|apply IH2]; tauto.
  - rewrite A, one_ok. destruct (feqb (s a) f1); [apply IH1|apply IH2]; tauto.
  - rewrite !A, eq_ok. destruct (feqb (s a) (s b)); [apply IH1|apply IH2]; tauto.
Qed.
Print Assumptions c61_hol.

(** The same with math/big, unless a zero is inverted. *)
Theorem c61_pure : forall c h s, typed c -> no_zero_inverse c s -> agree h s ->
  forall i, run Pure c h i = fv (run Kilic c s i).
Proof.
  induction c as [|d n k IH|d a b k IH|d a b k IH|d a b k IH|d a b k IH|d a k IH|d a e k IH|d a k IH
                 |d v ok IHo fail IHf|a k1 IH1 k2 IH2|a k1 IH1 k2 IH2|a b k1 IH1 k2 IH2];
    intros h s T Z A; cbn [run typed no_zero_inverse num Pure Kilic b_as b_add b_sub b_mul b_div b_inv b_exp b_zero b_one b_eq b_from] in *.
  - exact A.
  - apply IH; [apply T|exact Z|]. apply agree_put; [exact A|]. apply as_ok. apply T.
  - apply IH; [exact T|exact Z|]. apply agree_put; [exact A|]. rewrite !A, fv_add. reflexivity.
  - apply IH; [exact T|exact Z|]. apply agree_put; [exact A|]. rewrite !A, fv_sub. reflexivity.
  - apply IH; [exact T|exact Z|]. apply agree_put; [exact A|]. rewrite !A, fv_mul. reflexivity.
  - apply IH; [exact T|exact Z|]. apply agree_put; [exact A|]. rewrite !A, fv_div. reflexivity.
  - destruct Z as (N & Z). apply IH; [exact T|exact Z|]. apply agree_put; [exact A|]. rewrite !A, inverse_fv.
    apply feqb_neq in N. rewrite N. reflexivity.
  - apply IH; [exact T|exact Z|]. apply agree_put; [exact A|]. rewrite !A, fv_pow. reflexivity.
  - apply IH; [exact T|exact Z|]. apply agree_put; [exact A|]. apply A.
  - destruct T as (B & L & To & Tf). rewrite (from_agree v B L).
    destruct (FrFrom32 v) as [x|]; cbn [option_map].
    + apply IHo; [exact To|exact Z|]. apply agree_put; [exact A|reflexivity].
    + apply IHf; assumption.
  - rewrite A, zero_ok. destruct (feqb (s a) f0); [apply IH1|apply IH2]; tauto.
  - rewrite A, one_ok. destruct (feqb (s a) f1); [apply IH1|apply IH2]; tauto.
  - rewrite !A, eq_ok. destruct (feqb (s a) (s b)); [apply IH1|apply IH2]; tauto.
Qed.
Print Assumptions c61_pure.

(** With math/big, [InvModFr] of zero leaves the destination as it was; with the default
    library it writes zero. *)
Theorem c61_pure_inverse_refuted : exists c h s, typed c /\ agree h s /\
  run Pure c h 1%nat <> fv (run Kilic c s 1%nat).
Proof.
  exists (As 0 0 (As 1 7 (Inv 1 0 Halt))), (fun _ => 0), (fun _ => f0). split; [|split].
  - cbn. repeat split; lia.
  - intros i. reflexivity.
  - vm_compute. discriminate.
Qed.
Print Assumptions c61_pure_inverse_refuted.

(** Constants an int64 can hold, and no division by zero. *)
Fixpoint small_consts (c : comp) : Prop :=
  match c with
  | Halt => True
  | As _ n k => n < 2 ^ 63 /\ small_consts k
  | Add _ _ _ k | Sub _ _ _ k | Mul _ _ _ k | Div _ _ _ k | Inv _ _ k | Exp _ _ _ k | Copy _ _ k => small_consts k
  | From _ _ k1 k2 | IfZero _ k1 k2 | IfOne _ k1 k2 | IfEq _ _ k1 k2 => small_consts k1 /\ small_consts k2
  end.

Fixpoint no_zero_div (c : comp) (s : nat -> Fr) : Prop :=
  match c with
  | Halt => True
  | As d n k => no_zero_div k (put s d (of_Z n))
  | Add d a b k => no_zero_div k (put s d (fadd (s a) (s b)))
  | Sub d a b k => no_zero_div k (put s d (fsub (s a) (s b)))
  | Mul d a b k => no_zero_div k (put s d (fmul (s a) (s b)))
  | Div d a b k => s b <> f0 /\ no_zero_div k (put s d (fdiv (s a) (s b)))
  | Inv d a k => no_zero_div k (put s d (finv (s a)))
  | Exp d a e k => no_zero_div k (put s d (fpow (s a) e))
  | Copy d a k => no_zero_div k (put s d (s a))
  | From d v ok fail => match FrFrom32 v with
                        | Some x => no_zero_div ok (put s d x)
                        | None => no_zero_div fail s
                        end
  | IfZero a k1 k2 => if feqb (s a) f0 then no_zero_div k1 s else no_zero_div k2 s
  | IfOne a k1 k2 => if feqb (s a) f1 then no_zero_div k1 s else no_zero_div k2 s
  | IfEq a b k1 k2 => if feqb (s a) (s b) then no_zero_div k1 s else no_zero_div k2 s
  end.

Lemma hbls_as n : 0 <= n < 2 ^ 64 -> n < 2 ^ 63 -> int64 n mod r = fv (of_Z n).
Proof. intros H L. unfold int64. rewrite (proj2 (Z.ltb_lt _ _) L). rewrite fv_of_Z. reflexivity. Qed.

(** The same with herumi's library, for constants below 2^63 and without inverses of zero. *)
Theorem c61_hbls inv0 : forall c h s, typed c -> small_consts c -> no_zero_inverse c s -> no_zero_div c s -> agree h s ->
  forall i, run (Hbls inv0) c h i = fv (run Kilic c s i).
Proof.
  induction c as [|d n k IH|d a b k IH|d a b k IH|d a b k IH|d a b k IH|d a k IH|d a e k IH|d a k IH
                 |d v ok IHo fail IHf|a k1 IH1 k2 IH2|a k1 IH1 k2 IH2|a b k1 IH1 k2 IH2];
    intros h s T C Z D A; cbn [run typed small_consts no_zero_inverse no_zero_div num Hbls Kilic b_as b_add b_sub b_mul b_div b_inv b_exp b_zero b_one b_eq b_from] in *.
  - exact A.
  - apply IH; [apply T|apply C|exact Z|exact D|]. apply agree_put; [exact A|]. apply hbls_as; [apply T|apply C].
  - apply IH; [exact T|exact C|exact Z|exact D|]. apply agree_put; [exact A|]. rewrite !A, fv_add. reflexivity.
  - apply IH; [exact T|exact C|exact Z|exact D|]. apply agree_put; [exact A|]. rewrite !A, fv_sub. reflexivity.
  - apply IH; [exact T|exact C|exact Z|exact D|]. apply agree_put; [exact A|]. rewrite !A, fv_mul. reflexivity.
  - destruct D as (N & D). apply IH; [exact T|exact C|exact Z|exact D|]. apply agree_put; [exact A|]. rewrite !A, fv_div, !inverse_fv.
    apply feqb_neq in N. rewrite N. reflexivity.
  - destruct Z as (N & Z). apply IH; [exact T|exact C|exact Z|exact D|]. apply agree_put; [exact A|]. rewrite !A, inverse_fv.
    apply feqb_neq in N. rewrite N. reflexivity.
  - apply IH; [exact T|exact C|exact Z|exact D|]. apply agree_put; [exact A|]. rewrite !A, fv_pow. reflexivity.
  - apply IH; [exact T|exact C|exact Z|exact D|]. apply agree_put; [exact A|]. apply A.
  - destruct T as (B & L & To & Tf). pose proof (FrFrom32_value v B L) as FV. unfold FrFrom32 in *. destruct (ValidFr v) eqn:V.
    + apply IHo; [exact To|apply C|exact Z|exact D|]. apply agree_put; [exact A|]. apply ValidFr_correct in V; [|exact B|exact L].
      rewrite (proj2 (Z.ltb_lt _ _) V) in FV. assert (FV' : of_Z (be_val (swap_loop v)) = of_Z (le_val v)) by congruence. rewrite FV', fv_of_Z. symmetry. apply Z.mod_small. pose proof (le_val_bound v B). lia.
    + apply IHf; [exact Tf|apply C|exact Z|exact D|exact A].
  - rewrite A, zero_ok. destruct (feqb (s a) f0); [apply IH1|apply IH2]; tauto.
  - rewrite A, one_ok. destruct (feqb (s a) f1); [apply IH1|apply IH2]; tauto.
  - rewrite !A, eq_ok. destruct (feqb (s a) (s b)); [apply IH1|apply IH2]; tauto.
Qed.
Print Assumptions c61_hbls.

(** Every larger constant becomes another scalar there. *)
Theorem c61_hbls_as_refuted inv0 : forall n, 2 ^ 63 <= n < 2 ^ 64 -> b_as (Hbls inv0) n <> fv (b_as Kilic n).
Proof.
  intros n H. cbn [b_as Hbls Kilic]. rewrite <- as_ok by lia. unfold int64. rewrite (proj2 (Z.ltb_ge n (2 ^ 63))) by lia.
  intros E. assert (R : (n - 2 ^ 64 + r) mod r = n - 2 ^ 64 + r). { apply Z.mod_small. assert (2 ^ 64 < r) by reflexivity. lia. }
  rewrite <- (Z.mul_1_l r) in R at 1. rewrite Z_mod_plus_full, E in R. assert (2 ^ 64 < r) by reflexivity. lia.
Qed.
Print Assumptions c61_hbls_as_refuted.

(** Its encoding is that of the default library, for every scalar. *)
Theorem c61_hbls_encode inv0 : forall x, b_to (Hbls inv0) (fv x) = b_to Kilic x.
Proof.
  intros x. cbn [b_to Hbls Kilic]. rewrite swap16_32 by apply be_bytes_length. cbn [bind]. rewrite FrTo32_value. unfold be_bytes. rewrite rev_involutive, le_bytes_length.
  rewrite firstn_all2 by (rewrite le_bytes_length; lia). cbn [repeat Nat.sub]. rewrite app_nil_r. reflexivity.
Qed.
Print Assumptions c61_hbls_encode.

(** Encoding to 32 bytes agrees for scalars of at least 31 significant bytes.  For scalars of
    at most 15 significant bytes (for example zero and one) both other back ends panic. *)
Theorem c61_encode : forall x, 2 ^ 240 <= fv x ->
  b_to Pure (fv x) = b_to Kilic x /\ b_to Hol (fv x) = b_to Kilic x.
Proof. intros x H. cbn [b_to Pure Hol Kilic]. rewrite short_to32_ok by exact H. auto. Qed.
Print Assumptions c61_encode.

Theorem c61_encode_panic : forall x, fv x < 2 ^ 120 -> b_to Pure (fv x) = Panic /\ b_to Hol (fv x) = Panic.
Proof.
  intros x H. cbn [b_to Pure Hol]. pose proof (fv_range x). rewrite short_to32_panic by lia. auto.
Qed.
Print Assumptions c61_encode_panic.

(** In between, the bytes can be those of a different scalar, without any error. *)
Theorem c61_encode_refuted : exists x y b, 2 ^ 120 <= x < r /\ x <> y /\
  b_to Pure x = Ret b /\ b_from Pure b = Some y.
Proof.
  exists (256 ^ 29 + 5 * 256 ^ 15), (256 ^ 29 + 5 * 256 ^ 14),
    (repeat 0 14 ++ [5] ++ repeat 0 14 ++ [1; 0; 0]).
  split; [split; [|reflexivity]; vm_compute; discriminate|].
  split; [vm_compute; discriminate|]. split; vm_compute; reflexivity.
Qed.
Print Assumptions c61_encode_refuted.

(** A computation with all branches: the square of the sum of two numbers, divided by the
    second unless that is zero. *)
Definition demo : comp :=
  As 0 3 (As 1 4 (Add 2 0 1 (Exp 2 2 2 (IfZero 1 Halt (Div 3 2 1 (Sub 4 0 1 (Inv 5 4 Halt))))))).

Example c61_demo :
  typed demo /\ small_consts demo /\ no_zero_inverse demo (fun _ => f0) /\ no_zero_div demo (fun _ => f0) /\
  run (Hbls 9) demo (fun _ => 0) 5%nat = r - 1 /\
  run Hol demo (fun _ => 0) 5%nat = r - 1 /\ run Pure demo (fun _ => 0) 3%nat = fv (fdiv (of_Z 49) (of_Z 4)).
Proof.
  split; [cbn; repeat split; lia|]. split; [cbn; repeat split; lia|]. split; [cbn; vm_compute; split; [discriminate|exact I]|].
  split; [cbn; vm_compute; split; [discriminate|exact I]|]. split; [vm_compute; reflexivity|]. split; vm_compute; reflexivity.
Qed.
