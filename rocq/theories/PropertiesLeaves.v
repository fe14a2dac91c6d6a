(** C42: the product of polynomials by transforms (zero_poly.go:56-110 [reduceLeaves]), for all inputs. *)

Require Import ZArith List Bool Arith Lia.
From Verif Require Import Prime Fr CodecModel GoBase Poly PolyModel PolyProofs GroupModel VssModel VssProofs
  FftModel FftProofs FftProofs2 PropertiesFft SampleModel SampleProofs ZeroProofs.
Import ListNotations.
Local Open Scope F_scope.

(** Without trailing zeros: the degree of the product. *)
Definition degree_sum (ps : list (list Fr)) : nat := list_sum (map (fun p => length p - 1)%nat ps).

(** The lengths in the order in which the polynomials are written into the scratch space: the last one first. *)
Definition growing (ps : list (list Fr)) : Prop :=
  (forall p, In p (removelast ps) -> (length (last ps []) <= length p)%nat) /\
  (forall a p b q c, removelast ps = a ++ p :: b ++ q :: c -> (length p <= length q)%nat).

Definition product (ps : list (list Fr)) (x : Fr) : Fr := fold_right (fun p a => value p x * a) 1 ps.

Lemma degree_sum_outdeg ps : degree_sum ps = outdeg ps.
Proof. induction ps as [|p ps IH]; [reflexivity|]. unfold degree_sum, outdeg in *. cbn [map list_sum fold_right] in *. rewrite <- IH. reflexivity. Qed.

(** What is refused: a length that is no power of two, no polynomials, an empty one, a product that does not fit. *)
Theorem c42_leaves_refused : forall fs D ps,
  ((0 < Z.of_nat D < 2 ^ 64)%Z /\ ~ (exists j, D = 2 ^ j)%nat) \/ ps = [] \/ In [] ps \/ (D <= degree_sum ps)%nat -> reduceLeaves fs D ps = Panic.
Proof.
  intros fs D ps H. unfold reduceLeaves.
  destruct (IsPowerOfTwo (Z.of_nat D)) eqn:EP; [cbn [negb]|reflexivity].
  destruct (Nat.eqb_spec (length ps) 0) as [E0|N0]; [reflexivity|].
  destruct (existsb (fun p => (length p =? 0)%nat) ps) eqn:EE; [reflexivity|].
  rewrite fold_outdeg. cbn [plus]. fold (outdeg ps). rewrite <- degree_sum_outdeg. cbv zeta.
  destruct (Nat.ltb_spec D (degree_sum ps + 1)) as [L|G]; [reflexivity|]. exfalso.
  destruct H as [(R & H)|[-> |[H|H]]]; [|apply N0; reflexivity| |lia].
  - apply H. apply IsPowerOfTwo_inv in EP; [|exact R]. exists (Z.to_nat (Z.log2 (Z.of_nat D))). apply Nat2Z.inj. rewrite of_nat_pow2, Z2Nat.id by apply Z.log2_nonneg. exact EP.
  - rewrite <- not_true_iff_false in EE. apply EE. apply existsb_exists. exists []. split; [exact H|reflexivity].
Qed.

Definition pprod (ps : list (list Fr)) : list Fr := fold_right pmul [1] ps.

Lemma pprod_eval ps x : peval (pprod ps) x = product ps x.
Proof. induction ps as [|p ps IH]; cbn [pprod product fold_right]; [cbn; ring|]. unfold pprod, product in IH. rewrite peval_pmul, IH, value_peval. reflexivity. Qed.

Lemma pprod_length ps : (forall p, In p ps -> p <> []) -> length (pprod ps) = (degree_sum ps + 1)%nat /\ pprod ps <> [].
Proof.
  induction ps as [|p ps IH]; intros H; [split; [reflexivity|discriminate]|]. destruct (IH (fun q Hq => H q (or_intror Hq))) as (L & N).
  cbn [pprod fold_right]. fold (pprod ps). pose proof (H p (or_introl eq_refl)) as NP. assert (LP : (1 <= length p)%nat) by (destruct p; [congruence|cbn [length]; lia]).
  assert (E : length (pmul p (pprod ps)) = (degree_sum (p :: ps) + 1)%nat).
  { rewrite length_pmul by assumption. rewrite L. unfold degree_sum. cbn [map list_sum fold_right]. unfold list_sum. lia. }
  split; [exact E|]. intros Z. rewrite Z in E. cbn [length] in E. lia.
Qed.

Lemma product_app a b x : product (a ++ b) x = product a x * product b x.
Proof. induction a as [|p a IH]; cbn [app product fold_right]; [unfold product; cbn; ring|]. unfold product in IH. rewrite IH. unfold product. ring. Qed.

(** Otherwise, if the polynomials get no shorter in the order in which they are used, the result is their product. *)
Theorem c42_leaves : forall k fs j ps, settings k fs -> (j <= k)%nat -> ps <> [] -> (forall p, In p ps -> p <> []) ->
  (degree_sum ps < 2 ^ j)%nat -> growing ps ->
  exists dst, reduceLeaves fs (2 ^ j) ps = Ret (dst, degree_sum ps + 1)%nat /\ length dst = (2 ^ j)%nat /\
    (forall x, value dst x = product ps x) /\ forall i, (degree_sum ps < i)%nat -> nth i dst 0 = 0.
Proof.
  intros k fs j ps S J NE NN D (G1 & G2). destruct (settings_ok _ _ S) as (K & FO). set (W := rootk k) in *.
  set (w := wj W k j). assert (K31 : (k <= 31)%nat) by apply FO. assert (Pw : prim w j) by (apply wj_prim; [apply FO|exact J]).
  destruct (exists_last NE) as (qs & lastp & ->). rewrite last_last, removelast_last in *.
  unfold reduceLeaves. rewrite pow2_test by lia. cbn [negb].
  assert (LN : (length (qs ++ [lastp]) <> 0)%nat) by (rewrite app_length; cbn; lia). rewrite (proj2 (Nat.eqb_neq _ _) LN).
  assert (POS : forall p, In p (qs ++ [lastp]) -> (1 <= length p)%nat) by (intros p Hp; pose proof (NN p Hp); destruct p; [congruence|cbn [length]; lia]).
  rewrite existsb_false by (intros p Hp; apply Nat.eqb_neq; specialize (POS p Hp); lia).
  rewrite fold_outdeg. fold (outdeg (qs ++ [lastp])). cbn [plus]. rewrite <- degree_sum_outdeg.
  rewrite (proj2 (Nat.ltb_ge _ _)) by lia. rewrite last_last, removelast_last. set (n := (2 ^ j)%nat) in *.
  assert (LE : forall p, In p (qs ++ [lastp]) -> (length p <= n)%nat).
  { intros p Hp. apply in_split in Hp. destruct Hp as (a & b & Q). pose proof (POS p ltac:(rewrite Q; apply in_or_app; right; left; reflexivity)).
    rewrite Q, degree_sum_outdeg, outdeg_app in D. cbn [outdeg fold_right] in D. unfold outdeg in D. lia. }
  set (pad0 := lastp ++ repeat 0 (n - length lastp)).
  assert (Lpad0 : length pad0 = n) by (unfold pad0; rewrite app_length, repeat_length; specialize (LE lastp ltac:(apply in_or_app; right; left; reflexivity)); lia).
  cbv zeta. unfold n at 1. rewrite (InplaceFFT_ok _ _ _ _ _ _ FO J Lpad0). fold w. cbn [must bind].
  set (body := fun (s : list Fr * list Fr) p => _).
  destruct (gofold_inv (fun (l : list (list Fr)) (s : list Fr * list Fr) =>
      length (fst s) = n /\ (forall q, In q (skipn (length l) qs) -> forall i, (length q <= i)%nat -> nth i (fst s) 0 = 0) /\
      length (snd s) = n /\ forall i, (i < n)%nat -> nth i (snd s) 0 = product (firstn (length l) qs) (fpow w i) * value lastp (fpow w i))
    body qs (pad0, dft w pad0)) as ([padF mulF] & E & LF & ZF & LM & NM).
  - cbn [fst snd length skipn firstn]. split; [exact Lpad0|]. split; [|split].
    + intros q Hq i Hi. specialize (G1 q Hq). unfold pad0. rewrite app_nth2 by lia. apply nth_repeat.
    + rewrite length_dft. exact Lpad0.
    + intros i Hi. rewrite nth_dft by lia. unfold pad0. rewrite peval_app, peval_repeat0, value_peval. unfold product. cbn [fold_right]. ring.
  - intros l1 p l2 [pad mul] Q (A1 & A2 & A3 & A4). cbn [fst snd] in *.
    assert (SK : skipn (length l1) qs = p :: l2) by (rewrite Q, skipn_app, skipn_all, Nat.sub_diag; reflexivity).
    assert (SK' : skipn (length (l1 ++ [p])) qs = l2) by (rewrite Q; replace (l1 ++ p :: l2) with ((l1 ++ [p]) ++ l2) by (rewrite <- app_assoc; reflexivity); rewrite skipn_app, skipn_all, Nat.sub_diag; reflexivity).
    assert (FI : firstn (length l1) qs = l1) by (rewrite Q, firstn_app, firstn_all, Nat.sub_diag; cbn [firstn]; apply app_nil_r).
    assert (FI' : firstn (length (l1 ++ [p])) qs = l1 ++ [p]) by (rewrite Q; replace (l1 ++ p :: l2) with ((l1 ++ [p]) ++ l2) by (rewrite <- app_assoc; reflexivity); rewrite firstn_app, firstn_all, Nat.sub_diag; cbn [firstn]; apply app_nil_r).
    assert (Lp : (length p <= n)%nat) by (apply LE, in_or_app; left; rewrite Q; apply in_or_app; right; left; reflexivity).
    rewrite SK' , FI'. rewrite SK in A2. rewrite FI in A4. unfold body. cbn [fst snd].
    set (pad' := p ++ skipn (length p) pad).
    assert (Lpad' : length pad' = n) by (unfold pad'; rewrite app_length, skipn_length; lia).
    assert (Npad' : forall i, nth i pad' 0 = nth i p 0).
    { intros i. unfold pad'. destruct (Nat.lt_ge_cases i (length p)) as [T|T]; [apply app_nth1; exact T|].
      rewrite app_nth2 by exact T. rewrite (nth_overflow p) by exact T. rewrite nth_skipn'. replace (length p + (i - length p))%nat with i by lia. apply (A2 p (or_introl eq_refl)). exact T. }
    unfold n at 1. rewrite (InplaceFFT_ok _ _ _ _ _ _ FO J Lpad'). fold w. cbn [must bind].
    eexists. split; [reflexivity|]. cbn [fst snd]. split; [exact Lpad'|]. split; [|split].
    + intros q Hq i Hi. rewrite Npad'. apply nth_overflow. apply in_split in Hq. destruct Hq as (a & b & Eq). specialize (G2 l1 p a q b ltac:(rewrite Q, Eq; reflexivity)). lia.
    + rewrite map_length, combine_length, length_dft. lia.
    + intros i Hi. rewrite nth_pointwise by (rewrite length_dft; lia). rewrite A4 by exact Hi. rewrite nth_dft by lia.
      rewrite (peval_ext0 _ _ _ Npad'), value_peval, product_app. replace (product [p] (fpow w i)) with (value p (fpow w i)) by (unfold product; cbn [fold_right]; ring). ring.
  - cbn [fst snd] in LF, ZF, LM, NM. rewrite E. cbn [bind snd]. unfold n at 1. rewrite (InplaceFFT_ok _ _ _ _ _ _ FO J LM). fold w. cbn [must bind].
    rewrite firstn_all in NM. destruct (pprod_length (qs ++ [lastp]) NN) as (LQ & _).
    set (p := pprod (qs ++ [lastp]) ++ repeat 0 (n - (degree_sum (qs ++ [lastp]) + 1))).
    assert (Lp : length p = n) by (unfold p; rewrite app_length, repeat_length, LQ; lia).
    assert (PE : forall x, peval p x = product (qs ++ [lastp]) x) by (intros x; unfold p; rewrite peval_app, peval_repeat0, pprod_eval; ring).
    assert (ME : mulF = dft w p).
    { apply (list_ext 0); [rewrite length_dft; lia|]. intros i Hi. rewrite NM by lia. rewrite nth_dft by lia. rewrite PE, product_app. replace (product [lastp] (fpow w i)) with (value lastp (fpow w i)) by (unfold product; cbn [fold_right]; ring). ring. }
    rewrite ME. unfold n at 1. rewrite dft_inv by (try exact Pw; try exact Lp; lia).
    exists p. split; [reflexivity|]. split; [exact Lp|]. split; [intros x; rewrite <- value_peval; apply PE|].
    intros i Hi. unfold p. rewrite app_nth2 by lia. apply nth_repeat.
Qed.

Lemma settings_check (t : nat) k (f : FFTSettings -> bool) :
  match NewFFTSettings t k with Ret (Some fs) => f fs | _ => false end = true -> exists fs, settings k fs /\ f fs = true.
Proof. destruct (NewFFTSettings t k) as [[fs|]| | |] eqn:E; intros H; try discriminate. exists fs. split; [exists t; exact E|exact H]. Qed.

Lemma leaves_check fs D ps (f : list Fr -> bool) :
  match reduceLeaves fs D ps with Ret (dst, _) => f dst | _ => false end = true -> exists dst n, reduceLeaves fs D ps = Ret (dst, n) /\ f dst = true.
Proof. destruct (reduceLeaves fs D ps) as [[dst n]| | |]; intros H; try discriminate. exists dst, n. split; [reflexivity|exact H]. Qed.

(** Otherwise a shorter polynomial is padded with the coefficients of the longer one before it: x^2, x and 1. *)
Theorem c42_leaves_refuted : exists k fs ps dst n x, settings k fs /\ (forall p, In p ps -> p <> []) /\ (degree_sum ps < 2 ^ k)%nat /\
  reduceLeaves fs (2 ^ k) ps = Ret (dst, n) /\ value dst x <> product ps x.
Proof.
  assert (C : exists fs, settings 2 fs /\ match reduceLeaves fs 4 [[0; 0; 1]; [0; 1]; [1]] with Ret (dst, _) => negb (feqb (value dst 0) (product [[0; 0; 1]; [0; 1]; [1]] 0)) | _ => false end = true)
    by (apply (settings_check 16 2 (fun fs => match reduceLeaves fs 4 [[0; 0; 1]; [0; 1]; [1]] with Ret (dst, _) => negb (feqb (value dst 0) (product [[0; 0; 1]; [0; 1]; [1]] 0)) | _ => false end)); vm_compute; reflexivity).
  destruct C as (fs & S & C). apply (leaves_check fs 4 _ (fun dst => negb (feqb (value dst 0) (product [[0; 0; 1]; [0; 1]; [1]] 0)))) in C. destruct C as (dst & n & R & C).
  exists 2%nat, fs, [[0; 0; 1]; [0; 1]; [1]], dst, n, 0. split; [exact S|]. split; [intros p [<- |[<- |[<- |[]]]]; discriminate|].
  split; [apply Nat.ltb_lt; reflexivity|]. split; [exact R|].
  intros X. rewrite X in C. apply negb_true_iff, Bool.not_true_iff_false in C. apply C. apply feqb_refl.
Qed.

Print Assumptions c42_leaves_refused.
Print Assumptions c42_leaves.
Print Assumptions c42_leaves_refuted.

(** (x+1)(x+2) * (x+1)(x+3) * (x+1), as the leaves of the zero polynomial come, and one that does not fit. *)
Definition leaves_demo : list (list Fr) := [[of_Z 2; of_Z 3; 1]; [of_Z 3; of_Z 4; 1]; [1; 1]].

Example c42_leaves_example : growing leaves_demo /\ (degree_sum leaves_demo < 2 ^ 3)%nat /\ (2 ^ 2 <= degree_sum leaves_demo)%nat.
Proof.
  split; [|split; [apply Nat.ltb_lt|apply Nat.leb_le]; reflexivity]. unfold leaves_demo. split.
  - cbn [removelast last]. intros p [<- |[<- |[]]]; cbn; lia.
  - cbn [removelast]. intros a p b q c E. destruct a as [|x [|y [|z a]]]; cbn [app] in E.
    + injection E as <- E. destruct b as [|u [|v b]]; cbn [app] in E; [injection E as <- _; cbn; lia|discriminate|discriminate].
    + injection E as _ <- E. destruct b; discriminate.
    + discriminate.
    + discriminate.
Qed.
