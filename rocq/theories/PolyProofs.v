(** Proofs about PolyModel.v. *)

Require Import ZArith List Lia Bool Arith.
From Verif Require Import Prime Fr CodecModel GoBase Poly PolyModel.
Import ListNotations.
Local Open Scope F_scope.

(** ** Evaluation *)

Lemma skipn_nth {A} d (l : list A) : forall i, (i < length l)%nat ->
  skipn i l = nth i l d :: skipn (S i) l.
Proof.
  induction l as [|a l IH]; intros i H; simpl in H; [lia|].
  destruct i as [|i]; [reflexivity|]. simpl. apply IH. lia.
Qed.

Lemma EvalPolyAt_correct p x : EvalPolyAt p x = peval p x.
Proof.
  unfold EvalPolyAt. destruct p as [|c0 p]; [reflexivity|].
  set (l := c0 :: p).
  destruct (feqb x 0) eqn:E.
  - apply feqb_eq in E. subst x. simpl. ring.
  - change (peval l x) with (peval (skipn 0 l) x).
    apply (loop_down_inv (fun i last => last = peval (skipn i l) x)).
    + rewrite Nat.add_0_l. assert (L : length l = S (length p)) by reflexivity.
      rewrite (skipn_nth 0 l (length l - 1)) by lia. rewrite skipn_all2 by lia.
      generalize (nth (length l - 1) l 0). intros v. cbn [peval]. ring.
    + intros i s Hi ->. rewrite (skipn_nth 0 l i) by lia. change (1 + i)%nat with (S i).
      generalize (nth i l 0), (skipn (S i) l). intros v w. cbn [peval]. ring.
Qed.

(** ** Linear factors *)

Lemma nth_repeat0 i n : nth i (repeat 0 n) 0 = 0.
Proof. apply nth_repeat. Qed.

(** The second loop of mulPolyDegreeOne as a map. *)
Lemma loop_shift {A} n (F : nat -> A -> A) d l :
  loop 0 n (fun a i => set_nth (i + 1) (F i (nth (i + 1) a d)) a) l =
  loop 1 n (fun a i => set_nth i (F (i - 1)%nat (nth i a d)) a) l.
Proof.
  induction n as [|n IH]; [reflexivity|].
  change (S n) with (1 + n)%nat. rewrite !loop_S, IH.
  replace (0 + n + 1)%nat with (1 + n)%nat by lia.
  replace (1 + n - 1)%nat with (0 + n)%nat by lia. reflexivity.
Qed.

Lemma mulPolyDegreeOne_correct p a b :
  mulPolyDegreeOne p [a; b] = Ret (padd (pscale a p) (0 :: pscale b p)).
Proof.
  unfold mulPolyDegreeOne. simpl negb. cbv iota. cbn [nth].
  set (ans1 := loop 0 (length p) _ (repeat 0 (length p + 1))).
  assert (E1 : ans1 = loop 0 (length p) (fun ans i => set_nth i (nth i p 0 * a) ans)
      (repeat 0 (length p + 1))) by reflexivity.
  clearbody ans1.
  rewrite (loop_shift (length p) (fun i v => v + nth i p 0 * b) 0 ans1).
  assert (L1 : length ans1 = (length p + 1)%nat)
    by (rewrite E1, (loop_map_length 0 _ (fun i _ => nth i p 0 * a) 0), repeat_length; reflexivity).
  f_equal. apply (list_ext 0).
  { rewrite (loop_map_length 1 _ (fun i v => v + nth (i - 1) p 0 * b)), L1, length_padd. simpl. rewrite !length_pscale. lia. }
  intros i Hi. rewrite (loop_map_length 1 _ (fun i v => v + nth (i - 1) p 0 * b)), L1 in Hi.
  rewrite (loop_map_nth 1 (length p) (fun i v => v + nth (i - 1) p 0 * b)) by lia.
  rewrite E1, (loop_map_nth 0 (length p) (fun i _ => nth i p 0 * a) 0)
    by (rewrite repeat_length; lia).
  rewrite nth_repeat0, nth_padd, nth_pscale.
  destruct i as [|i].
  - simpl. destruct p as [|c p]; simpl; ring.
  - replace (S i - 1)%nat with i by lia. cbn [nth]. rewrite nth_pscale.
    replace ((1 <=? S i) && (S i <? 1 + length p))%nat with true
      by (symmetry; apply andb_true_iff; rewrite Nat.leb_le, Nat.ltb_lt; lia).
    destruct (Nat.ltb_spec (S i) (0 + length p)); simpl.
    + ring.
    + rewrite (nth_overflow p 0 (n := S i)) by lia. ring.
Qed.

Lemma peval_mul_factor a b p x :
  peval (padd (pscale a p) (0 :: pscale b p)) x = peval p x * (a + b * x).
Proof. rewrite peval_padd. cbn [peval]. rewrite !peval_pscale. ring. Qed.

Lemma mulPolyDegreeOne_eval p a b q : mulPolyDegreeOne p [a; b] = Ret q ->
  length q = S (length p) /\ forall x, peval q x = peval p x * (a + b * x).
Proof.
  rewrite mulPolyDegreeOne_correct. intros E. injection E as <-. split.
  - rewrite length_padd. simpl. rewrite !length_pscale. lia.
  - intros x. apply peval_mul_factor.
Qed.

Lemma sdiv_cons c d p a :
  sdiv (c :: d :: p) a = (snd (sdiv (d :: p) a) :: fst (sdiv (d :: p) a), c + a * snd (sdiv (d :: p) a)).
Proof. remember (d :: p) as q eqn:E. cbn [sdiv]. destruct (sdiv q a). rewrite E. reflexivity. Qed.

Lemma nth_sdiv p a : forall j, (j < length p - 1)%nat ->
  nth j (fst (sdiv p a)) 0 = peval (skipn (S j) p) a.
Proof.
  induction p as [|c p IH]; intros j Hj; simpl in Hj; [lia|].
  destruct p as [|d p]; [simpl in Hj; lia|].
  rewrite sdiv_cons. cbn [fst]. destruct j as [|j].
  - cbn [nth]. rewrite sdiv_rem. reflexivity.
  - cbn [nth]. rewrite IH by (simpl in *; lia). reflexivity.
Qed.

Lemma divPolyDegreeOne_correct p a : p <> [] ->
  divPolyDegreeOne p [0 - a; 1] = Ret (fst (sdiv p a)).
Proof.
  intros Hp. unfold divPolyDegreeOne. cbn [length Nat.eqb negb nth].
  rewrite feqb_refl. simpl negb. cbv iota.
  destruct (Nat.eqb_spec (length p) 0) as [E|E].
  { destruct p; [congruence|discriminate]. }
  set (deg := (length p - 1)%nat).
  match goal with |- context [loop_down 1 deg ?b ?s] => set (body := b); set (s0 := s) end.
  assert (G : let st := loop_down 1 deg body s0 in
    length (fst st) = deg /\ length (snd st) = length p /\
    (forall j, (j < 1)%nat -> (0 < 1)%nat -> True) /\
    (forall j, (j < deg)%nat -> (1 - 1 <= j)%nat -> nth j (fst st) 0 = peval (skipn (S j) p) a)).
  { cbv zeta.
    enough (H : (fun i st => length (fst st) = deg /\ length (snd st) = length p /\
      (1 <= i)%nat /\
      (forall j, (j < i - 1)%nat -> nth j (snd st) 0 = nth j p 0) /\
      nth (i - 1) (snd st) 0 = peval (skipn (i - 1) p) a /\
      (forall j, (j < deg)%nat -> (i - 1 <= j)%nat -> nth j (fst st) 0 = peval (skipn (S j) p) a))
      1%nat (loop_down 1 deg body s0)).
    { cbv beta in H. destruct H as (H1 & H2 & _ & _ & _ & H3). repeat split; auto. }
    apply (loop_down_inv (fun i st => length (fst st) = deg /\ length (snd st) = length p /\
      (1 <= i)%nat /\
      (forall j, (j < i - 1)%nat -> nth j (snd st) 0 = nth j p 0) /\
      nth (i - 1) (snd st) 0 = peval (skipn (i - 1) p) a /\
      (forall j, (j < deg)%nat -> (i - 1 <= j)%nat -> nth j (fst st) 0 = peval (skipn (S j) p) a))).
    - unfold s0. cbn [fst snd]. rewrite repeat_length. repeat split; try lia.
      + replace (1 + deg - 1)%nat with deg by lia.
        rewrite (skipn_nth 0 p deg) by lia. rewrite skipn_all2 by lia. simpl. ring.
    - intros i [ans inter] Hi (L1 & L2 & _ & Hlow & Hcur & Hhi). cbn [fst snd] in *.
      replace (1 + i - 1)%nat with i in * by lia. unfold body. cbn [fst snd].
      rewrite !length_set_nth. split; [exact L1|]. split; [exact L2|]. split; [lia|].
      split; [|split].
      + intros j Hj. rewrite nth_set_nth_other by lia. apply Hlow. lia.
      + rewrite nth_set_nth_same by lia. rewrite nth_set_nth_same by lia.
        rewrite Hlow, Hcur by lia. rewrite (skipn_nth 0 p (i - 1)) by lia.
        replace (S (i - 1)) with i by lia. cbn [peval]. ring.
      + intros j Hj Hij. destruct (Nat.eq_dec j (i - 1)) as [->|Ne].
        * rewrite nth_set_nth_same by lia. rewrite Hcur. f_equal. f_equal. lia.
        * rewrite nth_set_nth_other by lia. apply Hhi; lia. }
  cbv zeta in G. destruct G as (L1 & L2 & _ & H). f_equal. apply (list_ext 0).
  - rewrite sdiv_length. exact L1.
  - intros j Hj. rewrite L1 in Hj. rewrite H by lia. symmetry. apply nth_sdiv. exact Hj.
Qed.

(** ** Interpolation *)

Lemma idx_Ret {A} (l : list A) i a : idx l i = Ret a -> (i < length l)%nat /\ nth_error l i = Some a.
Proof.
  unfold idx. destruct (nth_error l i) eqn:E; [|discriminate]. intros H. injection H as <-.
  split; [|reflexivity]. apply nth_error_Some. congruence.
Qed.

(** Multiplication by X - a. *)
Definition mulfac (p : list Fr) (a : Fr) : list Fr := padd (pscale (0 - a) p) (0 :: pscale 1 p).

Lemma length_mulfac p a : length (mulfac p a) = S (length p).
Proof. unfold mulfac. rewrite length_padd. simpl. rewrite !length_pscale. lia. Qed.

Lemma nth_mulfac p a j : nth j (mulfac p a) 0 =
  match j with O => 0 | S k => nth k p 0 end - a * nth j p 0.
Proof.
  unfold mulfac. rewrite nth_padd, nth_pscale. destruct j as [|j]; cbn [nth].
  - ring.
  - rewrite nth_pscale. ring.
Qed.

Lemma peval_mulfac p a x : peval (mulfac p a) x = peval p x * (x - a).
Proof. unfold mulfac. rewrite peval_mul_factor. ring. Qed.

Lemma mulfac_sdiv p a : p <> [] -> peval p a = 0 -> mulfac (fst (sdiv p a)) a = p.
Proof.
  intros H R. assert (L : (0 < length p)%nat) by (destruct p; [congruence|cbn [length]; lia]).
  assert (Q : forall j, nth j (fst (sdiv p a)) 0 = peval (skipn (S j) p) a).
  { intros j. destruct (Nat.lt_ge_cases j (length p - 1)).
    - apply nth_sdiv. lia.
    - rewrite nth_overflow by (rewrite sdiv_length; lia). rewrite skipn_all2 by lia. reflexivity. }
  assert (S : forall j, peval (skipn j p) a = nth j p 0 + a * peval (skipn (S j) p) a).
  { clear. induction p as [|c p IH]; intros j.
    - rewrite !skipn_nil. destruct j; cbn [nth peval]; ring.
    - destruct j as [|j]; [reflexivity|]. cbn [skipn nth]. apply IH. }
  apply (list_ext 0); [rewrite length_mulfac, sdiv_length; lia|]. intros i _.
  rewrite nth_mulfac. destruct i as [|i]; rewrite ?Q.
  - pose proof (S O) as S0. change (skipn 0 p) with p in S0. rewrite R in S0.
    transitivity (nth 0 p 0 + a * peval (skipn 1 p) a - a * peval (skipn 1 p) a); [rewrite <- S0; ring|ring].
  - rewrite (S (Datatypes.S i)). ring.
Qed.

Lemma mulfac_comm p a b : mulfac (mulfac p a) b = mulfac (mulfac p b) a.
Proof.
  apply (list_ext 0); [rewrite !length_mulfac; reflexivity|]. intros i _.
  rewrite !nth_mulfac. destruct i as [|[|i]]; repeat rewrite nth_mulfac; ring.
Qed.

Lemma fold_mulfac : forall xs p a,
  fold_left mulfac xs (mulfac p a) = mulfac (fold_left mulfac xs p) a.
Proof.
  induction xs as [|b xs IH]; intros p a; simpl; [reflexivity|].
  rewrite mulfac_comm. apply IH.
Qed.

Definition mlist (xs : list Fr) : list Fr := fold_left mulfac xs [1].

Lemma mlist_remove : forall xs i, (i < length xs)%nat ->
  mlist xs = mulfac (mlist (remove_nth i xs)) (nth i xs 0).
Proof.
  unfold mlist. induction xs as [|a xs IH]; intros i H; simpl in H; [lia|].
  destruct i as [|i]; simpl.
  - apply fold_mulfac.
  - rewrite !fold_mulfac. rewrite (IH i) by lia. apply mulfac_comm.
Qed.

Lemma length_mlist xs : length (mlist xs) = S (length xs).
Proof.
  unfold mlist. induction xs as [|a xs IH]; [reflexivity|].
  simpl. rewrite fold_mulfac, length_mulfac, IH. reflexivity.
Qed.

Lemma peval_mlist xs x : peval (mlist xs) x = prodlin xs x.
Proof.
  unfold mlist. induction xs as [|a xs IH]; [simpl; ring|].
  simpl. rewrite fold_mulfac, peval_mulfac, IH. ring.
Qed.

(** Division undoes multiplication. *)
Lemma peval_skipn_mulfac a : forall p j, (j < length p)%nat ->
  peval (skipn (S j) (mulfac p a)) a = nth j p 0.
Proof.
  assert (G : forall p c j, (j < length p)%nat ->
    peval (skipn (S j) (padd (pscale (0 - a) p) (c :: pscale 1 p))) a = nth j p 0).
  { induction p as [|b p IH]; intros c j H; simpl in H; [lia|].
    cbn [pscale map padd skipn].
    fold (pscale 1 p). fold (pscale (0 - a) p).
    destruct j as [|j].
    - cbn [skipn nth]. rewrite peval_padd. cbn [peval]. rewrite !peval_pscale. ring.
    - rewrite IH by lia. reflexivity. }
  intros p j H. apply G. exact H.
Qed.

Lemma sdiv_mulfac p a : fst (sdiv (mulfac p a) a) = p.
Proof.
  apply (list_ext 0).
  - rewrite sdiv_length, length_mulfac. lia.
  - intros j Hj. rewrite sdiv_length, length_mulfac in Hj.
    rewrite nth_sdiv by (rewrite length_mulfac; lia). apply peval_skipn_mulfac. lia.
Qed.

Lemma nth_firstn_lt {A} (l : list A) d i n : (i < n)%nat -> nth i (firstn n l) d = nth i l d.
Proof.
  revert i n. induction l as [|a l IH]; intros [|i] [|n] H; simpl; try reflexivity; try lia.
  apply IH. lia.
Qed.

Lemma nth_skipn {A} (l : list A) d : forall n i, nth i (skipn n l) d = nth (n + i) l d.
Proof.
  induction l as [|a l IH]; intros [|n] i; simpl; try reflexivity.
  - destruct i; reflexivity.
  - apply IH.
Qed.

Lemma firstn_S_nth {A} d (l : list A) i : (i < length l)%nat ->
  firstn (S i) l = firstn i l ++ [nth i l d].
Proof.
  revert i. induction l as [|a l IH]; intros [|i] H; simpl in H |- *; try lia; try reflexivity.
  f_equal. apply IH. lia.
Qed.

Lemma product_loop xs n : (n <= length xs)%nat ->
  goloop 0 n (fun product i => xi <- idx xs i ;; mulPolyDegreeOne product [0 - xi; 1]) [1] =
  Ret (mlist (firstn n xs)).
Proof.
  induction n as [|n IH]; intros H; [reflexivity|].
  change (S n) with (1 + n)%nat. rewrite goloop_S, IH by lia. simpl bind at 1.
  rewrite (idx_nth 0) by lia. simpl bind. rewrite mulPolyDegreeOne_correct.
  change (1 + n)%nat with (S n). rewrite (firstn_S_nth 0) by lia.
  unfold mlist. rewrite fold_left_app. reflexivity.
Qed.

Lemma product_loop_short xs n : (length xs < n)%nat ->
  goloop 0 n (fun product i => xi <- idx xs i ;; mulPolyDegreeOne product [0 - xi; 1]) [1] = Panic.
Proof.
  induction n as [|n IH]; intros H; [lia|].
  change (S n) with (1 + n)%nat. rewrite goloop_S.
  destruct (Nat.eq_dec (length xs) n) as [E|E].
  - rewrite product_loop by lia. simpl bind at 1. rewrite idx_panic by lia. reflexivity.
  - rewrite IH by lia. reflexivity.
Qed.

(** The inner accumulation loop. *)
Lemma acc_loop inter c res : (length inter <= length res)%nat ->
  loop 0 (length inter) (fun res j => set_nth j (nth j res 0 + nth j inter 0 * c) res) res =
  padd res (pscale c inter).
Proof.
  intros L. apply (list_ext 0).
  - rewrite (loop_map_length 0 (length inter) (fun j v => v + nth j inter 0 * c)).
    rewrite length_padd, length_pscale. lia.
  - intros i Hi. rewrite (loop_map_length 0 (length inter) (fun j v => v + nth j inter 0 * c)) in Hi.
    rewrite (loop_map_nth 0 (length inter) (fun j v => v + nth j inter 0 * c)) by exact Hi.
    rewrite nth_padd, nth_pscale. rewrite Nat.add_0_l.
    destruct (Nat.leb_spec 0 i); [|lia]. simpl.
    destruct (Nat.ltb_spec i (length inter)); [ring|].
    rewrite (nth_overflow inter) by lia. ring.
Qed.

Section Interp.
Variables (degree : nat) (x y : list Fr).
Hypothesis Lx : (degree + 1 <= length x)%nat.
Let xs := firstn (degree + 1) x.

Let body := (fun resultPoly i =>
       xi <- idx x i ;;
       inter <- divPolyDegreeOne (mlist xs) [0 - xi; 1] ;;
       let denominator := EvalPolyAt inter xi in
       if feqb denominator 0 then Fatal
       else
         yi <- idx y i ;;
         let denominator := finv denominator * yi in
         Ret (loop 0 (length inter)
                (fun res j => set_nth j (nth j res 0 + nth j inter 0 * denominator) res) resultPoly)).

Lemma interp_unfold :
  LagrangeInterpolate degree x y = goloop 0 (degree + 1) body (repeat 0 (degree + 1)).
Proof. unfold LagrangeInterpolate. rewrite product_loop by exact Lx. reflexivity. Qed.

Lemma len_xs : length xs = (degree + 1)%nat.
Proof. unfold xs. rewrite firstn_length. lia. Qed.

Lemma nth_xs i : (i < degree + 1)%nat -> nth i xs 0 = nth i x 0.
Proof. intros H. unfold xs. apply nth_firstn_lt. exact H. Qed.

Lemma body_step res i : (i < degree + 1)%nat ->
  body res i =
  if feqb (prodlin (remove_nth i xs) (nth i xs 0)) 0 then Fatal
  else match nth_error y i with
       | None => Panic
       | Some yi => Ret (loop 0 (degree + 1) (fun res j => set_nth j (nth j res 0 +
           nth j (mlist (remove_nth i xs)) 0 * (finv (prodlin (remove_nth i xs) (nth i xs 0)) * yi)) res) res)
       end.
Proof.
  intros Hi. unfold body. rewrite (idx_nth 0) by lia. simpl bind.
  rewrite divPolyDegreeOne_correct.
  2:{ intros E. apply (f_equal (@length Fr)) in E. rewrite length_mlist in E. discriminate. }
  simpl bind. rewrite (mlist_remove xs i) by (rewrite len_xs; exact Hi).
  rewrite (nth_xs i Hi), sdiv_mulfac, EvalPolyAt_correct, peval_mlist.
  destruct (feqb _ 0); [reflexivity|]. unfold idx. destruct (nth_error y i); [|reflexivity].
  simpl bind. rewrite length_mlist, length_remove_nth, len_xs by (rewrite len_xs; exact Hi).
  replace (S (degree + 1 - 1)) with (degree + 1)%nat by lia. reflexivity.
Qed.

Lemma interp_ok : NoDup xs -> (degree + 1 <= length y)%nat ->
  exists q, LagrangeInterpolate degree x y = Ret q /\ length q = (degree + 1)%nat /\
    forall t, peval q t = sumn (degree + 1)%nat (fun i => lbasis xs i t * nth i y 0).
Proof.
  intros N Ly. rewrite interp_unfold.
  apply (goloop_inv (fun n q => length q = (degree + 1)%nat /\
    forall t, peval q t = sumn n (fun i => lbasis xs i t * nth i y 0)) 0 (degree + 1) body).
  - split; [apply repeat_length|]. intros t. apply peval_repeat0.
  - intros i s Hi (L & E). rewrite body_step by lia.
    assert (NZ : prodlin (remove_nth i xs) (nth i xs 0) <> 0).
    { apply prodlin_neq_0. apply not_in_remove_nth; [exact N|]. rewrite len_xs. lia. }
    rewrite (proj2 (feqb_neq _ _) NZ). rewrite (nth_error_nth' y 0) by lia.
    assert (LM : length (mlist (remove_nth i xs)) = (degree + 1)%nat).
    { rewrite length_mlist, length_remove_nth, len_xs by (rewrite len_xs; lia). lia. }
    eexists; split; [reflexivity|].
    pose proof (acc_loop (mlist (remove_nth i xs))
      (finv (prodlin (remove_nth i xs) (nth i xs 0)) * nth i y 0) s ltac:(lia)) as A.
    rewrite LM in A. rewrite A. split.
    + rewrite length_padd, length_pscale. lia.
    + intros t. rewrite peval_padd, peval_pscale, E, peval_mlist.
      cbn [sumn Nat.add]. unfold lbasis. rewrite fdiv_def. ring.
Qed.

(** Coinciding nodes among the first degree+1 stop the process. *)
Lemma interp_dup i j : (i < j)%nat -> (j < degree + 1)%nat -> nth i x 0 = nth j x 0 ->
  (degree + 1 <= length y)%nat -> LagrangeInterpolate degree x y = Fatal.
Proof.
  intros Hij Hj E Ly. rewrite interp_unfold.
  assert (G : forall n, (n <= degree + 1)%nat -> (i < n)%nat ->
    goloop 0 n body (repeat 0 (degree + 1)) = Fatal).
  { induction n as [|n IH]; intros Hn Hi; [lia|].
    change (S n) with (1 + n)%nat. rewrite goloop_S.
    destruct (Nat.eq_dec i n) as [->|Ne].
    - assert (R : exists s, goloop 0 n body (repeat 0 (degree + 1)) = Ret s \/
        goloop 0 n body (repeat 0 (degree + 1)) = Fatal).
      { clear IH Hij E. induction n as [|n IH].
        { exists (repeat 0 (degree + 1)). left. reflexivity. }
        destruct IH as (s & [R|R]); try lia.
        - change (S n) with (1 + n)%nat. rewrite goloop_S, R. simpl bind.
          rewrite body_step by lia. destruct (feqb _ 0); [exists s; right; reflexivity|].
          rewrite (nth_error_nth' y 0) by lia. eexists. left. reflexivity.
        - change (S n) with (1 + n)%nat. rewrite goloop_S, R. exists s. right. reflexivity. }
      destruct R as (s & [R|R]); rewrite R; [|reflexivity]. simpl bind.
      rewrite body_step by lia.
      assert (Z : prodlin (remove_nth n xs) (nth n xs 0) = 0).
      { apply prodlin_0. rewrite nth_xs, E by lia. rewrite <- nth_xs by lia.
        apply in_remove_nth; [rewrite len_xs|]; lia. }
      rewrite Z, feqb_refl. reflexivity.
    - rewrite IH by lia. reflexivity. }
  apply G; lia.
Qed.
End Interp.

(** The interpolation returns the polynomial through the points. *)
Lemma LagrangeInterpolate_correct degree x y :
  NoDup (firstn (degree + 1) x) -> (degree + 1 <= length x)%nat -> (degree + 1 <= length y)%nat ->
  exists q, LagrangeInterpolate degree x y = Ret q /\ length q = (degree + 1)%nat /\
    (forall i, (i <= degree)%nat -> peval q (nth i x 0) = nth i y 0) /\
    (forall p, (length p <= degree + 1)%nat ->
       (forall i, (i <= degree)%nat -> peval p (nth i x 0) = nth i y 0) ->
       forall j, nth j p 0 = nth j q 0).
Proof.
  intros N Lx Ly. destruct (interp_ok degree x y Lx N Ly) as (q & E & L & V).
  assert (LX : length (firstn (degree + 1) x) = (degree + 1)%nat) by (rewrite firstn_length; lia).
  assert (P : forall i, (i <= degree)%nat -> peval q (nth i x 0) = nth i y 0).
  { intros i Hi. rewrite V. rewrite (sumn_single _ _ i); [|lia|].
    - rewrite <- (nth_firstn_lt x 0 i (degree + 1)) by lia.
      rewrite lbasis_same by (auto; lia). ring.
    - intros j Hj Ne. rewrite <- (nth_firstn_lt x 0 i (degree + 1)) by lia.
      rewrite lbasis_other by (auto; lia). ring. }
  exists q. repeat split; auto.
  intros p Lp Hp. apply (poly_unique_coeff (firstn (degree + 1) x)); [exact N|lia|lia|].
  intros a I. apply (In_nth _ a 0) in I. destruct I as (i & Hi & <-).
  rewrite LX in Hi. rewrite nth_firstn_lt by lia. rewrite Hp, P by lia. reflexivity.
Qed.

(** It gives back the polynomial whose values were given. *)
Lemma LagrangeInterpolate_values degree x p :
  NoDup (firstn (degree + 1) x) -> (degree + 1 <= length x)%nat -> length p = (degree + 1)%nat ->
  LagrangeInterpolate degree x (map (peval p) x) = Ret p.
Proof.
  intros N Lx Lp.
  destruct (LagrangeInterpolate_correct degree x (map (peval p) x) N Lx) as (q & E & L & _ & U).
  { rewrite map_length. exact Lx. }
  rewrite E. f_equal. symmetry. apply (list_ext 0); [lia|]. intros i _. apply U; [lia|].
  intros j Hj. rewrite (nth_indep (map (peval p) x) 0 (peval p 0)) by (rewrite map_length; lia).
  rewrite map_nth. reflexivity.
Qed.

Lemma LagrangeInterpolate_short degree x y : (length x < degree + 1)%nat ->
  LagrangeInterpolate degree x y = Panic.
Proof. intros H. unfold LagrangeInterpolate. rewrite product_loop_short by exact H. reflexivity. Qed.

(** ** Lagrange coefficients *)

Lemma coeff_loop x t i : forall n, (n <= length x)%nat -> (i < length x)%nat ->
  loop 0 n (fun res j => if (j =? i)%nat then res
     else finv (nth i x 0 - nth j x 0) * (res * (t - nth j x 0))) 1 =
  if (i <? n)%nat
  then prodlin (firstn i x ++ firstn (n - 1 - i) (skipn (S i) x)) t *
       finv (prodlin (firstn i x ++ firstn (n - 1 - i) (skipn (S i) x)) (nth i x 0))
  else prodlin (firstn n x) t * finv (prodlin (firstn n x) (nth i x 0)).
Proof.
  assert (FM : forall a b, finv (a * b) = finv a * finv b).
  { intros a b. destruct (Fr_eq_dec a 0) as [->|Ha].
    - rewrite finv_0. replace (0 * b) with 0 by ring. rewrite finv_0. ring.
    - destruct (Fr_eq_dec b 0) as [->|Hb].
      + replace (a * 0) with 0 by ring. rewrite finv_0. ring.
      + field. auto. }
  assert (F1 : finv 1 = 1) by (field; exact f1_neq_0).
  induction n as [|n IH]; intros Hn Hi.
  - rewrite loop_0. simpl. rewrite F1. ring.
  - change (S n) with (1 + n)%nat at 1. rewrite loop_S, IH by lia. rewrite Nat.add_0_l.
    destruct (Nat.eqb_spec n i) as [->|Ne].
    + rewrite Nat.ltb_irrefl. rewrite (proj2 (Nat.ltb_lt i (S i))) by lia.
      replace (S i - 1 - i)%nat with 0%nat by lia. rewrite firstn_O, app_nil_r. reflexivity.
    + destruct (Nat.ltb_spec i n).
      * rewrite (proj2 (Nat.ltb_lt i (S n))) by lia.
        replace (S n - 1 - i)%nat with (S (n - 1 - i)) by lia.
        rewrite (firstn_S_nth 0 (skipn (S i) x)) by (rewrite skipn_length; lia).
        rewrite nth_skipn. replace (S i + (n - 1 - i))%nat with n by lia.
        rewrite app_assoc, !(prodlin_app _ [_]). cbn [prodlin]. rewrite !FM, F1. ring.
      * rewrite (proj2 (Nat.ltb_ge i (S n))) by lia.
        rewrite (firstn_S_nth 0 x) by lia. rewrite !prodlin_app. cbn [prodlin]. rewrite !FM, F1. ring.
Qed.

Lemma remove_nth_split {A} : forall (l : list A) i, (i < length l)%nat ->
  remove_nth i l = firstn i l ++ skipn (S i) l.
Proof.
  induction l as [|a l IH]; intros [|i] H; simpl in H |- *; try lia; try reflexivity.
  f_equal. apply IH. lia.
Qed.

Lemma GetLagrangeCoefficients_correct deg x t lambda :
  length x = (deg + 1)%nat -> length lambda = (deg + 1)%nat ->
  GetLagrangeCoefficients deg x t lambda = Ret (map (fun i => lbasis x i t) (seq 0 (deg + 1))).
Proof.
  intros Lx Ll. unfold GetLagrangeCoefficients. rewrite Lx, Nat.eqb_refl. simpl negb. cbv iota.
  match goal with |- goloop 0 _ ?b _ = _ => set (body := b) end.
  destruct (goloop_inv (fun n l => length l = (deg + 1)%nat /\
     forall i, (i < n)%nat -> nth i l 0 = lbasis x i t) 0 (deg + 1) body lambda) as (l & E & L & H).
  - split; [exact Ll|]. intros i Hi. lia.
  - intros i l Hi (L & H). unfold body, upd. rewrite (proj2 (Nat.ltb_lt i (length l))) by lia.
    eexists; split; [reflexivity|]. rewrite length_set_nth. split; [exact L|].
    intros j Hj. destruct (Nat.eq_dec j i) as [->|Ne].
    + rewrite nth_set_nth_same by lia. rewrite coeff_loop by lia.
      rewrite (proj2 (Nat.ltb_lt i (deg + 1))) by lia.
      unfold lbasis. rewrite fdiv_def, remove_nth_split by lia.
      rewrite !(firstn_all2 (skipn (S i) x)) by (rewrite skipn_length; lia). reflexivity.
    + rewrite nth_set_nth_other by lia. apply H. lia.
  - rewrite E. f_equal. apply (list_ext 0).
    + rewrite map_length, seq_length. exact L.
    + intros i Hi. rewrite L in Hi. rewrite H by lia. symmetry.
      rewrite (nth_indep _ 0 (lbasis x 0 t)) by (rewrite map_length, seq_length; lia).
      rewrite (map_nth (fun i => lbasis x i t)). rewrite seq_nth by lia. reflexivity.
Qed.

Lemma GetLagrangeCoefficients_apply deg x t lambda p :
  length x = (deg + 1)%nat -> length lambda = (deg + 1)%nat -> NoDup x ->
  (length p <= deg + 1)%nat ->
  exists l, GetLagrangeCoefficients deg x t lambda = Ret l /\ length l = (deg + 1)%nat /\
    dot l (map (peval p) x) = peval p t.
Proof.
  intros Lx Ll N Lp. rewrite GetLagrangeCoefficients_correct by assumption.
  eexists; split; [reflexivity|]. rewrite map_length, seq_length. split; [reflexivity|].
  rewrite dot_nth by (rewrite !map_length, seq_length; lia).
  rewrite map_length, seq_length. rewrite (lagrange_eval x p t N) by lia. rewrite Lx.
  apply sumn_ext. intros i Hi.
  rewrite (nth_indep _ 0 (lbasis x 0 t)) by (rewrite map_length, seq_length; lia).
  rewrite (map_nth (fun i => lbasis x i t)), seq_nth by lia.
  rewrite (nth_indep (map (peval p) x) 0 (peval p 0)) by (rewrite map_length; lia).
  rewrite map_nth. reflexivity.
Qed.

Lemma GetLagrangeCoefficients_unit deg x k lambda :
  length x = (deg + 1)%nat -> length lambda = (deg + 1)%nat -> NoDup x -> (k <= deg)%nat ->
  exists l, GetLagrangeCoefficients deg x (nth k x 0) lambda = Ret l /\ length l = (deg + 1)%nat /\
    forall i, (i <= deg)%nat -> nth i l 0 = if (i =? k)%nat then 1 else 0.
Proof.
  intros Lx Ll N Hk. rewrite GetLagrangeCoefficients_correct by assumption.
  eexists; split; [reflexivity|]. rewrite map_length, seq_length. split; [reflexivity|].
  intros i Hi. rewrite (nth_indep _ 0 (lbasis x 0 (nth k x 0))) by (rewrite map_length, seq_length; lia).
  rewrite (map_nth (fun i => lbasis x i (nth k x 0))), seq_nth by lia. rewrite Nat.add_0_l.
  destruct (Nat.eqb_spec i k) as [->|Ne].
  - apply lbasis_same; [exact N|lia].
  - apply lbasis_other; auto; lia.
Qed.

Lemma knownIndices_length F : length (knownIndices F) = (2 * F + 1)%nat.
Proof. unfold knownIndices. rewrite map_length, seq_length. reflexivity. Qed.

Lemma NoDup_app_r {A} (l1 l2 : list A) : NoDup (l1 ++ l2) -> NoDup l2.
Proof. induction l1 as [|a l IH]; intros H; [exact H|]. inversion H; subst. auto. Qed.

Lemma NoDup_of_nat_from a n : (Z.of_nat (a + n) <= r)%Z -> NoDup (map of_nat (seq a n)).
Proof.
  intros H. pose proof (NoDup_of_nat (a + n) H) as N. rewrite seq_app, map_app in N.
  apply NoDup_app_r in N. exact N.
Qed.

Lemma knownIndices_eq F : knownIndices F = map of_nat (seq 1 (2 * F + 1)).
Proof.
  unfold knownIndices. rewrite <- seq_shift, map_map. apply map_ext. intros i. f_equal. lia.
Qed.

Lemma knownIndices_NoDup F : (Z.of_nat (2 * F + 2) <= r)%Z -> NoDup (knownIndices F).
Proof. intros H. rewrite knownIndices_eq. apply NoDup_of_nat_from. lia. Qed.

Lemma LagrangeTable_correct N F :
  LagrangeTable N F = Ret (map (fun k => map (fun i => lbasis (knownIndices F) i (of_nat k))
                                            (seq 0 (2 * F + 1))) (seq 0 (N + 1))).
Proof.
  unfold LagrangeTable.
  assert (G : forall n, goloop 0 n
    (fun tab i =>
       row <- GetLagrangeCoefficients (2 * F) (knownIndices F) (of_nat i) (repeat 0 (2 * F + 1)) ;;
       Ret (tab ++ [row])) [] = Ret (map (fun k => map (fun i => lbasis (knownIndices F) i (of_nat k))
                                            (seq 0 (2 * F + 1))) (seq 0 n))).
  { induction n as [|n IH]; [reflexivity|].
    change (S n) with (1 + n)%nat at 1. rewrite goloop_S, IH. simpl bind at 1.
    rewrite GetLagrangeCoefficients_correct by (try apply knownIndices_length; apply repeat_length).
    simpl bind. rewrite seq_S, map_app. reflexivity. }
  apply G.
Qed.

(** ** Long division *)

Lemma loop_down_sub_length q divisor diff n (a : list Fr) :
  length (loop_down 0 n (fun a i => set_nth (diff + i) (nth (diff + i) a 0 - q * nth i divisor 0) a) a)
  = length a.
Proof.
  apply (loop_down_inv (fun _ a' => length a' = length a)); [reflexivity|].
  intros i s _ E. rewrite length_set_nth. exact E.
Qed.

Lemma loop_down_sub q divisor diff n (a : list Fr) : (diff + n <= length a)%nat ->
  forall j, nth j (loop_down 0 n (fun a i => set_nth (diff + i) (nth (diff + i) a 0 - q * nth i divisor 0) a) a) 0
  = if ((diff <=? j) && (j <? diff + n))%nat then nth j a 0 - q * nth (j - diff) divisor 0 else nth j a 0.
Proof.
  intros L j.
  set (res := loop_down _ _ _ _).
  enough (H : length res = length a /\ forall j, nth j res 0 =
    if ((diff + 0 <=? j) && (j <? diff + n))%nat then nth j a 0 - q * nth (j - diff) divisor 0 else nth j a 0).
  { destruct H as (_ & H). rewrite H, Nat.add_0_r. reflexivity. }
  unfold res. apply (loop_down_inv (fun k a' => length a' = length a /\ forall j, nth j a' 0 =
    if ((diff + k <=? j) && (j <? diff + n))%nat then nth j a 0 - q * nth (j - diff) divisor 0 else nth j a 0)).
  - split; [reflexivity|]. intros k. rewrite Nat.add_0_l.
    destruct (Nat.leb_spec (diff + n) k), (Nat.ltb_spec k (diff + n)); simpl; try reflexivity; lia.
  - intros i s Hi (Ls & H). rewrite length_set_nth. split; [exact Ls|]. intros k.
    rewrite nth_set_nth. destruct (Nat.eqb_spec (diff + i) k) as [<-|Ne]; cbn [andb].
    + rewrite (proj2 (Nat.ltb_lt _ _)) by lia. rewrite H.
      rewrite (proj2 (Nat.leb_gt (diff + (1 + i)) (diff + i))) by lia.
      rewrite (proj2 (Nat.leb_le (diff + i) (diff + i))) by lia.
      rewrite (proj2 (Nat.ltb_lt (diff + i) (diff + n))) by lia. cbn [andb].
      replace (diff + i - diff)%nat with i by lia. reflexivity.
    + rewrite H. destruct (Nat.leb_spec (diff + (1 + i)) k), (Nat.leb_spec (diff + i) k);
        try reflexivity; lia.
Qed.

(** Shifting: X^d * p. *)
Lemma peval_shift d p x : peval (repeat 0 d ++ p) x = fpow x d * peval p x.
Proof. rewrite peval_app, peval_repeat0, repeat_length. ring. Qed.

Lemma peval_ext p q : (forall i, nth i p 0 = nth i q 0) -> forall x, peval p x = peval q x.
Proof.
  revert q. induction p as [|a p IH]; intros q H x.
  - symmetry. apply peval_zero_list. apply Forall_forall. intros b I.
    apply (In_nth _ b 0) in I. destruct I as (i & Hi & <-). rewrite <- H. destruct i; reflexivity.
  - destruct q as [|b q].
    + apply peval_zero_list. apply Forall_forall. intros c I.
      apply (In_nth _ c 0) in I. destruct I as (i & Hi & <-). rewrite H. destruct i; reflexivity.
    + cbn [peval]. rewrite (H O : a = b). rewrite (IH q); [reflexivity|].
      intros i. apply (H (S i)).
Qed.

(** Spec: dividend = divisor * quotient + remainder, remainder shorter than the divisor. *)
Lemma polyLongDiv_correct dividend divisor : divisor <> [] ->
  nth (length divisor - 1) divisor 0 <> 0 -> (length divisor <= length dividend + 1)%nat ->
  exists q rem, polyLongDiv dividend divisor = Ret q /\
    length q = (length dividend + 1 - length divisor)%nat /\
    (length rem < length divisor)%nat /\
    forall i, nth i dividend 0 = nth i (pmul divisor q) 0 + nth i rem 0.
Proof.
  intros Hd Hl HL. unfold polyLongDiv.
  destruct (Nat.eqb_spec (length divisor) 0) as [E|_].
  { destruct divisor; [congruence|discriminate]. }
  rewrite (proj2 (Nat.ltb_ge _ _)) by lia.
  set (bPos := (length divisor - 1)%nat). set (n := (length dividend + 1 - length divisor)%nat).
  assert (LB : length divisor = S bPos).
  { unfold bPos. destruct divisor; [congruence|]. simpl. lia. }
  match goal with |- context [loop_down 0 n ?b ?s] => set (body := b); set (s0 := s) end.
  set (st := loop_down 0 n body s0).
  assert (G : (fun k st => length (fst st) = n /\ length (snd st) = length dividend /\
     (forall j, (k + bPos <= j)%nat -> nth j (snd st) 0 = 0) /\
     (forall j, (j < k)%nat -> nth j (fst st) 0 = 0) /\
     forall i, nth i dividend 0 = nth i (pmul divisor (fst st)) 0 + nth i (snd st) 0)
     O st).
  { apply (loop_down_inv (fun k st => length (fst st) = n /\ length (snd st) = length dividend /\
     (forall j, (k + bPos <= j)%nat -> nth j (snd st) 0 = 0) /\
     (forall j, (j < k)%nat -> nth j (fst st) 0 = 0) /\
     forall i, nth i dividend 0 = nth i (pmul divisor (fst st)) 0 + nth i (snd st) 0)).
    - unfold s0. cbn [fst snd]. rewrite repeat_length. repeat split.
      + intros j Hj. apply nth_overflow. unfold n in Hj. lia.
      + intros j _. apply nth_repeat0.
      + intros i. rewrite nth_pmul, sumn_0; [ring|]. intros j _. rewrite nth_repeat0. ring.
    - intros k [out a] Hk (L1 & L2 & Hhi & Hlo & Hev). cbn [fst snd] in *.
      unfold body. cbn [fst snd].
      set (qt := polyFactorDiv (nth (k + bPos) a 0) (nth bPos divisor 0)).
      rewrite length_set_nth, loop_down_sub_length.
      assert (Q : qt * nth bPos divisor 0 = nth (k + bPos) a 0).
      { unfold qt, polyFactorDiv. field. exact Hl. }
      split; [exact L1|]. split; [exact L2|]. split; [|split].
      + intros j Hj. rewrite loop_down_sub by (unfold n in *; lia).
        destruct (Nat.ltb_spec j (k + (bPos + 1))).
        * assert (j = k + bPos)%nat by lia. subst j.
          rewrite (proj2 (Nat.leb_le k (k + bPos))) by lia. cbn [andb].
          replace (k + bPos - k)%nat with bPos by lia. rewrite Q. ring.
        * rewrite andb_false_r. apply Hhi. lia.
      + intros j Hj. rewrite nth_set_nth_other by lia. apply Hlo. lia.
      + intros i. rewrite Hev.
        assert (E1 : nth i (pmul divisor (set_nth k qt out)) 0 =
                 nth i (pmul divisor out) 0 + if (k <=? i)%nat then qt * nth (i - k) divisor 0 else 0).
        { rewrite !nth_pmul.
          rewrite (sumn_ext _ _ (fun j => nth j divisor 0 * nth (i - j) out 0 +
                     nth j divisor 0 * (if (i - j =? k)%nat then qt else 0))).
          2:{ intros j Hj. destruct (Nat.eqb_spec (i - j) k) as [->|Ne].
              - rewrite nth_set_nth_same by lia. rewrite Hlo by lia. ring.
              - rewrite nth_set_nth_other by lia. ring. }
          rewrite sumn_add. f_equal. destruct (Nat.leb_spec k i).
          - rewrite (sumn_single _ _ (i - k)); [|lia|].
            + rewrite (proj2 (Nat.eqb_eq _ _)) by lia. ring.
            + intros j Hj Ne. rewrite (proj2 (Nat.eqb_neq (i - j) k)) by lia. ring.
          - apply sumn_0. intros j Hj. rewrite (proj2 (Nat.eqb_neq (i - j) k)) by lia. ring. }
        rewrite E1, loop_down_sub by (unfold n in *; lia).
        destruct (Nat.leb_spec k i); cbn [andb]; [|ring].
        destruct (Nat.ltb_spec i (k + (bPos + 1))); [ring|].
        rewrite (nth_overflow divisor) by lia. ring. }
  destruct G as (L1 & L2 & Hhi & _ & Hev).
  exists (fst st), (firstn bPos (snd st)). repeat split; [exact L1| |].
  - pose proof (firstn_le_length bPos (snd st)). lia.
  - intros i. rewrite Hev. f_equal.
    destruct (Nat.lt_ge_cases i bPos).
    + rewrite nth_firstn_lt by lia. reflexivity.
    + rewrite Hhi by lia. symmetry. apply nth_overflow. pose proof (firstn_le_length bPos (snd st)). lia.
Qed.

Lemma polyLongDiv_eval dividend divisor : divisor <> [] ->
  nth (length divisor - 1) divisor 0 <> 0 -> (length divisor <= length dividend + 1)%nat ->
  exists q rem, polyLongDiv dividend divisor = Ret q /\
    length q = (length dividend + 1 - length divisor)%nat /\
    (length rem < length divisor)%nat /\
    forall x, peval dividend x = peval divisor x * peval q x + peval rem x.
Proof.
  intros H1 H2 H3. destruct (polyLongDiv_correct _ _ H1 H2 H3) as (q & rem & E & L & LR & H).
  exists q, rem. repeat split; auto. intros x. rewrite <- peval_pmul, <- peval_padd.
  apply peval_ext. intros i. rewrite nth_padd. apply H.
Qed.

(** Division by X - a is the synthetic division. *)
Lemma polyLongDiv_linear p a : p <> [] -> polyLongDiv p [0 - a; 1] = Ret (fst (sdiv p a)).
Proof.
  intros Hp.
  destruct (polyLongDiv_correct p [0 - a; 1]) as (q & rem & E & L & LR & H).
  - discriminate.
  - exact f1_neq_0.
  - destruct p; [congruence|]. simpl. lia.
  - rewrite E. f_equal. simpl in L, LR. apply (list_ext 0).
    + rewrite sdiv_length. lia.
    + intros j Hj. rewrite nth_sdiv by lia. rewrite <- (peval_skipn_mulfac a q j Hj).
      apply peval_ext. intros i. rewrite !nth_skipn, H.
      rewrite (nth_overflow rem) by lia. rewrite nth_mulfac, nth_pmul.
      cbn [Nat.add]. rewrite sumn_S_l, sumn_S_l. cbn [nth].
      rewrite (sumn_0 (j + i)) by (intros m _; destruct m; cbn [nth]; ring).
      rewrite Nat.sub_0_r. replace (S (j + i) - 1)%nat with (j + i)%nat by lia. ring.
Qed.

(** ** Padding and linear combinations *)

Lemma PadCoeff_correct p w : (length p <= w)%nat ->
  PadCoeff p w = Ret (p ++ repeat 0 (w - length p)).
Proof.
  intros H. unfold PadCoeff. rewrite (proj2 (Nat.ltb_ge _ _)) by exact H. f_equal.
  set (n := length p) in *.
  apply (list_ext 0).
  - rewrite (loop_map_length n (w - n) (fun _ _ => 0) 0).
    rewrite (loop_map_length 0 n (fun i _ => nth i p 0) 0). rewrite app_length, !repeat_length. fold n. lia.
  - intros i Hi. rewrite (loop_map_length n (w - n) (fun _ _ => 0) 0) in Hi.
    rewrite (loop_map_nth n (w - n) (fun _ _ => 0) 0) by exact Hi.
    rewrite (loop_map_length 0 n (fun i _ => nth i p 0) 0), repeat_length in Hi.
    rewrite (loop_map_nth 0 n (fun i _ => nth i p 0) 0) by (rewrite repeat_length; exact Hi).
    rewrite nth_repeat0.
    destruct (Nat.lt_ge_cases i n).
    + rewrite app_nth1 by (fold n; lia).
      rewrite (proj2 (Nat.leb_gt n i)) by lia. cbn [andb].
      rewrite (proj2 (Nat.ltb_lt i (0 + n))) by lia. reflexivity.
    + rewrite app_nth2 by (fold n; lia). rewrite nth_repeat0.
      rewrite (proj2 (Nat.leb_le n i)) by lia. cbn [andb].
      rewrite (proj2 (Nat.ltb_lt i (n + (w - n)))) by lia. reflexivity.
Qed.

Lemma LinCombFr_correct u v : length u = length v -> LinCombFr u v = Ret (dot u v).
Proof.
  intros L. unfold LinCombFr. rewrite L, Nat.eqb_refl. simpl negb. cbv iota. f_equal.
  rewrite (dot_nth u v L). rewrite L. generalize (length v). clear L.
  induction n as [|n IH]; [reflexivity|].
  change (S n) with (1 + n)%nat. rewrite loop_S, IH. cbn [sumn Nat.add]. ring.
Qed.

Lemma PolyLinComb_correct vectors scalars d :
  length scalars = length vectors -> Forall (fun v => length v = d) vectors ->
  exists q, PolyLinComb vectors scalars d = Ret q /\ length q = d /\
    forall x, peval q x = dot scalars (map (fun v => peval v x) vectors).
Proof.
  intros L H. unfold PolyLinComb. destruct (Nat.eqb_spec (length vectors) 0) as [E|E].
  - exists (repeat 0 d). destruct vectors; [|discriminate]. destruct scalars; [|discriminate].
    repeat split; [apply repeat_length|]. intros x. apply peval_repeat0.
  - rewrite L, Nat.eqb_refl. simpl negb. cbv iota.
    destruct (goloop_inv (fun n q => length q = d /\ forall x, peval q x =
        sumn n (fun i => nth i scalars 0 * peval (nth i vectors []) x)) 0 (length vectors)
      (fun res j =>
         let v := nth j vectors [] in
         if negb (length v =? d)%nat then Error
         else Ret (loop 0 (length v)
                    (fun res i => set_nth i (nth i res 0 + nth j scalars 0 * nth i v 0) res) res))
      (repeat 0 d)) as (q & Eq & Lq & Hq).
    + split; [apply repeat_length|]. intros x. apply peval_repeat0.
    + intros i s Hi (Ls & Hs). cbv zeta.
      assert (Lv : length (nth i vectors []) = d).
      { rewrite Forall_forall in H. apply H. apply nth_In. lia. }
      rewrite (proj2 (Nat.eqb_eq _ _) Lv). cbn [negb]. cbv iota. eexists; split; [reflexivity|].
      assert (E2 : forall a b : Fr, a * b = b * a) by (intros; ring).
      rewrite (loop_ext 0 _ _ (fun res j => set_nth j (nth j res 0 + nth j (nth i vectors []) 0 * nth i scalars 0) res))
        by (intros; rewrite (E2 (nth i scalars 0)); reflexivity).
      rewrite acc_loop by lia. rewrite length_padd, length_pscale. split; [lia|].
      intros x. rewrite peval_padd, peval_pscale, Hs. reflexivity.
    + exists q. repeat split; [exact Eq|exact Lq|]. intros x. rewrite Hq.
      rewrite dot_nth by (rewrite map_length; exact L). rewrite L. apply sumn_ext.
      intros i Hi. f_equal. rewrite (nth_indep _ 0 (peval [] x)) by (rewrite map_length; lia).
      rewrite (map_nth (fun v => peval v x)). reflexivity.
Qed.
