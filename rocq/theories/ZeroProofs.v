(** Proofs about the polynomial with zeros at the missing samples. *)

Require Import ZArith List Bool Arith Lia.
From Verif Require Import Prime Fr CodecModel GoBase Poly GroupModel VssModel VssProofs FftModel FftProofs FftProofs2
  SampleModel SampleProofs.
Import ListNotations.
Local Open Scope F_scope.

(** ** A leaf *)

Lemma godown_inv {T} (P : nat -> T -> Prop) (body : T -> nat -> go T) lo : forall n s,
  P (lo + n)%nat s ->
  (forall i s, (lo <= i < lo + n)%nat -> P (1 + i)%nat s -> exists s', body s i = Ret s' /\ P i s') ->
  exists s', gofold body (rev (seq lo n)) s = Ret s' /\ P lo s'.
Proof.
  induction n as [|n IH]; intros s H0 H.
  - exists s. split; [reflexivity|]. rewrite Nat.add_0_r in H0. exact H0.
  - rewrite seq_S, rev_app_distr. cbn [rev app gofold].
    destruct (H (lo + n)%nat s) as (s1 & E & H1); [lia|replace (1 + (lo + n))%nat with (lo + S n)%nat by lia; exact H0|].
    rewrite E. cbn [bind]. apply IH; [exact H1|]. intros i s2 Hi. apply H. lia.
Qed.

Lemma nth_pmul_lin a p i : nth i (pmul [- a; 1] p) 0 =
  - a * nth i p 0 + match i with O => 0 | S j => nth j p 0 end.
Proof.
  cbn [pmul]. rewrite nth_padd, nth_pscale. f_equal. destruct i as [|i]; [reflexivity|]. cbn [nth].
  rewrite nth_padd, nth_pscale. replace (nth i [0] 0) with 0 by (destruct i as [|[|i]]; reflexivity). ring.
Qed.

Lemma plin_top xs : nth (length xs) (plin xs) 0 = 1.
Proof.
  induction xs as [|a xs IH]; [reflexivity|]. cbn [length plin]. rewrite nth_pmul_lin, IH.
  rewrite (nth_overflow (plin xs)) by (rewrite length_plin; lia). ring.
Qed.

Lemma firstn_S_snoc {A} (d : A) : forall l i, (i < length l)%nat -> firstn (S i) l = firstn i l ++ [nth i l d].
Proof.
  induction l as [|a l IH]; intros i L; [cbn in L; lia|]. destruct i as [|i]; [reflexivity|].
  cbn [firstn nth app]. rewrite <- IH by (cbn in L; lia). reflexivity.
Qed.

Lemma Forall2_len {A B} (R : A -> B -> Prop) l m : Forall2 R l m -> length l = length m.
Proof. induction 1; cbn; lia. Qed.

Lemma nth_skipn' {A} (d : A) : forall n l i, nth i (skipn n l) d = nth (n + i) l d.
Proof.
  induction n as [|n IH]; intros l i; [reflexivity|]. destruct l as [|a l]; [destruct i; reflexivity|]. apply IH.
Qed.

Lemma nth_pointwise : forall (u v : list Fr) i, length u = length v ->
  nth i (map (fun ab => fst ab * snd ab) (combine u v)) 0 = nth i u 0 * nth i v 0.
Proof.
  induction u as [|a u IH]; intros [|b v] i L; cbn in L; try discriminate L; [destruct i; cbn; ring|].
  destruct i as [|i]; [reflexivity|]. cbn [combine map nth]. apply IH. lia.
Qed.

Section Zero.
Variables (fs : FFTSettings) (k : nat) (W : Fr).
Hypothesis FO : fs_ok fs k W.

(** The points of the indices. *)
Definition pts (stride : nat) (indices : list nat) : list Fr := map (fun v => fpow W (v * stride)) indices.

Lemma leaf_step_ok stride ys i v dst : (v * stride <= 2 ^ k)%nat -> length ys = i -> (i < length dst)%nat ->
  (forall j, (j < i)%nat -> nth j dst 0 = nth j (plin ys) 0) ->
  exists dst', leaf_step fs stride dst (i, v) = Ret dst' /\ length dst' = length dst /\
    (forall j, (j < S i)%nat -> nth j dst' 0 = nth j (plin (fpow W (v * stride) :: ys)) 0) /\
    (forall j, (i < j)%nat -> nth j dst' 0 = nth j dst 0).
Proof.
  intros V L D H. unfold leaf_step. rewrite (idx_nth 0) by (rewrite (fo_exp_length _ _ _ FO); lia).
  rewrite (fo_exp_nth _ _ _ _ FO) by exact V. cbn [bind]. set (d := fpow W (v * stride)).
  unfold upd at 1. rewrite (proj2 (Nat.ltb_lt _ _) D). cbn [bind].
  destruct (Nat.eqb_spec i 0) as [E|E].
  - eexists. split; [reflexivity|]. rewrite length_set_nth. split; [reflexivity|]. split.
    + intros j Hj. assert (J0 : j = 0%nat) by lia. subst j. rewrite E in D |- *. rewrite nth_set_nth_same by exact D.
      destruct ys; [|cbn in L; lia]. cbn. ring.
    + intros j Hj. apply nth_set_nth_other. lia.
  - set (dst1 := set_nth i (0 - d) dst).
    assert (L1 : length dst1 = length dst) by apply length_set_nth.
    rewrite (idx_nth 0) by lia. cbn [bind]. rewrite (idx_nth 0) by lia. cbn [bind].
    unfold upd at 1. rewrite L1, (proj2 (Nat.ltb_lt _ _) D). cbn [bind].
    set (dst2 := set_nth i (nth i dst1 0 + nth (i - 1) dst1 0) dst1).
    assert (L2 : length dst2 = length dst) by (unfold dst2; rewrite length_set_nth; exact L1).
    assert (N2 : nth i dst2 0 = nth i (plin (d :: ys)) 0).
    { unfold dst2. rewrite nth_set_nth_same by lia. unfold dst1. rewrite nth_set_nth_same by exact D.
      rewrite nth_set_nth_other by lia. rewrite H by lia. cbn [plin]. rewrite nth_pmul_lin.
      destruct i as [|i]; [lia|]. replace (S i - 1)%nat with i by lia.
      replace (nth (S i) (plin ys) 0) with 1; [ring|]. rewrite <- L. symmetry. apply plin_top. }
    assert (N2' : forall j, (j < i)%nat -> nth j dst2 0 = nth j (plin ys) 0).
    { intros j Hj. unfold dst2, dst1. rewrite !nth_set_nth_other by lia. apply H. exact Hj. }
    assert (N2'' : forall j, (i < j)%nat -> nth j dst2 0 = nth j dst 0).
    { intros j Hj. unfold dst2, dst1. rewrite !nth_set_nth_other by lia. reflexivity. }
    destruct (godown_inv (fun j (s : list Fr) => length s = length dst /\
        (forall t, (t < j)%nat -> nth t s 0 = nth t (plin ys) 0) /\
        (forall t, (j <= t <= i)%nat -> nth t s 0 = nth t (plin (d :: ys)) 0) /\
        (forall t, (i < t)%nat -> nth t s 0 = nth t dst 0))
      (fun dst j => a <- idx dst j ;; b <- idx dst (j - 1) ;; upd dst j (a * (0 - d) + b)) 1 (i - 1) dst2)
      as (dst3 & E3 & L3 & A3 & B3 & C3).
    + replace (1 + (i - 1))%nat with i by lia. split; [exact L2|]. split; [exact N2'|]. split; [|exact N2''].
      intros t Ht. assert (t = i) by lia. subst t. exact N2.
    + intros j s Hj (Ls & As & Bs & Cs). rewrite (idx_nth 0) by lia. cbn [bind]. rewrite (idx_nth 0) by lia. cbn [bind].
      unfold upd. rewrite (proj2 (Nat.ltb_lt _ _)) by lia. eexists. split; [reflexivity|].
      rewrite length_set_nth. split; [exact Ls|]. split; [|split].
      * intros t Ht. rewrite nth_set_nth_other by lia. apply As. lia.
      * intros t Ht. destruct (Nat.eq_dec j t) as [<-|Q].
        -- rewrite nth_set_nth_same by lia. rewrite !As by lia. cbn [plin]. rewrite nth_pmul_lin.
           destruct j as [|j]; [lia|]. replace (S j - 1)%nat with j by lia. ring.
        -- rewrite nth_set_nth_other by exact Q. apply Bs. lia.
      * intros t Ht. rewrite nth_set_nth_other by lia. apply Cs. exact Ht.
    + rewrite E3. cbn [bind]. rewrite (idx_nth 0) by lia. cbn [bind]. unfold upd.
      rewrite (proj2 (Nat.ltb_lt _ _)) by lia. eexists. split; [reflexivity|]. rewrite length_set_nth.
      split; [exact L3|]. split.
      * intros j Hj. destruct j as [|j].
        -- rewrite nth_set_nth_same by lia. rewrite A3 by lia. cbn [plin]. rewrite nth_pmul_lin. ring.
        -- rewrite nth_set_nth_other by lia. apply B3. lia.
      * intros j Hj. rewrite nth_set_nth_other by lia. apply C3. exact Hj.
Qed.

(** [p] holds the coefficients of the product of the (x - y), and zeros. *)
Definition rep (p ys : list Fr) : Prop :=
  (length ys < length p)%nat /\ (forall i, (length ys < i)%nat -> nth i p 0 = 0) /\
  forall x, peval p x = prodlin ys x.

Lemma prodlin_rev ys x : prodlin (rev ys) x = prodlin ys x.
Proof.
  induction ys as [|y ys IH]; [reflexivity|]. cbn [rev]. rewrite prodlin_app, IH. cbn. ring.
Qed.

Lemma peval_ext0 p q x : (forall i, nth i p 0 = nth i q 0) -> peval p x = peval q x.
Proof.
  intros H. rewrite !peval_sumn.
  assert (A : forall (p : list Fr) n, (length p <= n)%nat -> sumn (length p) (fun i => nth i p 0 * fpow x i) =
    sumn n (fun i => nth i p 0 * fpow x i)).
  { intros p0 n Ln. replace n with (length p0 + (n - length p0))%nat by lia. rewrite sumn_app.
    rewrite (sumn_0 (n - length p0)); [ring|]. intros i _. rewrite nth_overflow by lia. ring. }
  rewrite (A p (length p + length q)%nat), (A q (length p + length q)%nat) by lia.
  apply sumn_ext. intros i _. rewrite H. reflexivity.
Qed.

Lemma makeZeroPolyMulLeaf_ok stride indices dst : (length indices < length dst)%nat ->
  (forall v, In v indices -> (v * stride <= 2 ^ k)%nat) ->
  exists z, makeZeroPolyMulLeaf fs dst indices stride = Ret z /\ length z = length dst /\ rep z (pts stride indices).
Proof.
  intros L V. unfold makeZeroPolyMulLeaf. set (m := length indices) in *.
  rewrite (proj2 (Nat.ltb_ge _ _)) by lia.
  set (dst0 := firstn (m + 1) dst ++ repeat 0 (length dst - (m + 1))).
  assert (L0 : length dst0 = length dst).
  { unfold dst0. rewrite app_length, firstn_length, repeat_length. lia. }
  unfold upd at 1. rewrite L0, (proj2 (Nat.ltb_lt _ _) L). cbn [bind].
  set (dst1 := set_nth m 1 dst0).
  destruct (gofold_inv (fun (l : list (nat * nat)) (s : list Fr) => length s = length dst /\
      (forall j, (j < length l)%nat -> nth j s 0 = nth j (plin (rev (pts stride (map snd l)))) 0) /\
      (forall j, (length l <= j)%nat -> (m <= j)%nat -> nth j s 0 = nth j dst1 0))
    (leaf_step fs stride) (combine (seq 0 m) indices) dst1) as (z & E & Lz & A & B).
  - unfold dst1. rewrite length_set_nth. split; [exact L0|]. split; [cbn; intros; lia|]. reflexivity.
  - intros l1 [i v] l2 s Q (Ls & As & Bs).
    assert (Qi : i = length l1).
    { assert (N : nth (length l1) (combine (seq 0 m) indices) (0, 0)%nat = (i, v)).
      { rewrite Q, app_nth2, Nat.sub_diag by lia. reflexivity. }
      assert (LL : (length l1 < m)%nat).
      { apply (f_equal (@length _)) in Q. rewrite combine_length, seq_length, app_length in Q. cbn in Q. unfold m in *. lia. }
      rewrite combine_nth in N by (rewrite seq_length; reflexivity). rewrite seq_nth in N by exact LL.
      apply (f_equal fst) in N. cbn in N. lia. }
    assert (Lm : (length l1 < m)%nat).
    { apply (f_equal (@length _)) in Q. rewrite combine_length, seq_length, app_length in Q. cbn in Q. unfold m in *. lia. }
    assert (Vi : (v * stride <= 2 ^ k)%nat).
    { apply V. apply (in_combine_r (seq 0 m) indices i). rewrite Q. apply in_or_app. right. left. reflexivity. }
    destruct (leaf_step_ok stride (rev (pts stride (map snd l1))) i v s Vi) as (s' & E' & L' & A' & B').
    + unfold pts. rewrite rev_length, !map_length. symmetry. exact Qi.
    + lia.
    + intros j Hj. apply As. lia.
    + exists s'. split; [exact E'|]. split; [lia|]. split.
      * intros j Hj. rewrite app_length in Hj. cbn in Hj. rewrite A' by lia.
        unfold pts. rewrite !map_app, rev_app_distr. cbn. reflexivity.
      * intros j Hj1 Hj2. rewrite app_length in Hj1. cbn in Hj1. rewrite B' by lia. apply Bs; lia.
  - exists z. split; [exact E|]. split; [exact Lz|].
    assert (MS : map snd (combine (seq 0 m) indices) = indices).
    { clear. unfold m. generalize 0%nat as a. induction indices as [|v l IH]; intros a; [reflexivity|]. cbn. rewrite IH. reflexivity. }
    assert (LC : length (combine (seq 0 m) indices) = m) by (rewrite combine_length, seq_length; unfold m; lia).
    rewrite LC, MS in *.
    assert (LP : length (pts stride indices) = m) by (unfold pts; apply map_length).
    assert (T1 : nth m z 0 = 1).
    { rewrite B by lia. unfold dst1. apply nth_set_nth_same. lia. }
    assert (T0 : forall i, (m < i)%nat -> nth i z 0 = 0).
    { intros i Hi. rewrite B by lia. unfold dst1. rewrite nth_set_nth_other by lia. unfold dst0.
      rewrite app_nth2 by (rewrite firstn_length; lia). apply nth_repeat. }
    split; [rewrite LP; lia|]. split; [rewrite LP; exact T0|].
    intros x. rewrite <- prodlin_rev, <- peval_plin. apply peval_ext0. intros i.
    destruct (Nat.lt_trichotomy i m) as [Hi|[->|Hi]].
    + apply A. exact Hi.
    + rewrite T1. rewrite <- LP, <- (rev_length (pts stride indices)). symmetry. apply plin_top.
    + rewrite T0 by exact Hi. symmetry. apply nth_overflow. rewrite length_plin, rev_length, LP. lia.
Qed.

(** ** Products by transforms *)

Lemma rep_pad p ys n : rep p ys -> rep (p ++ repeat 0 n) ys.
Proof.
  intros (L & Z & E). split; [rewrite app_length; lia|]. split.
  - intros i Hi. destruct (Nat.lt_ge_cases i (length p)) as [Q|Q].
    + rewrite app_nth1 by exact Q. apply Z. exact Hi.
    + rewrite app_nth2 by exact Q. apply nth_repeat.
  - intros x. rewrite peval_app, peval_repeat0, E. ring.
Qed.

Lemma rep_firstn p ys n : rep p ys -> (length ys < n)%nat -> (n <= length p)%nat -> rep (firstn n p) ys.
Proof.
  intros (L & Z & E) Ln Lp. split; [rewrite firstn_length; lia|].
  assert (T : forall i, nth i (firstn n p) 0 = nth i p 0).
  { intros i. destruct (Nat.lt_ge_cases i n) as [Q|Q]; [apply nth_firstn'; exact Q|].
    rewrite (nth_overflow (firstn n p)) by (rewrite firstn_length; lia). symmetry. apply Z. lia. }
  split; [intros i Hi; rewrite T; apply Z, Hi|]. intros x. rewrite <- E. apply peval_ext0. exact T.
Qed.

Lemma rep_plin ys n : (length ys < n)%nat -> rep (plin ys ++ repeat 0 (n - S (length ys))) ys.
Proof.
  intros L. apply rep_pad. split; [rewrite length_plin; lia|]. split.
  - intros i Hi. apply nth_overflow. rewrite length_plin. lia.
  - intros x. apply peval_plin.
Qed.

Lemma existsb_false {A} (f : A -> bool) l : (forall a, In a l -> f a = false) -> existsb f l = false.
Proof.
  induction l as [|a l IH]; intros H; [reflexivity|]. cbn. rewrite H by (left; reflexivity). apply IH.
  intros b B. apply H. right. exact B.
Qed.

Lemma fold_outdeg ps : forall a, fold_left (fun d (p : list Fr) => d + (length p - 1))%nat ps a =
  (a + fold_right (fun p d => (length p - 1) + d) 0 ps)%nat.
Proof. induction ps as [|p ps IH]; intros a; cbn; [lia|]. rewrite IH. lia. Qed.

Definition outdeg (ps : list (list Fr)) : nat := fold_right (fun p d => (length p - 1) + d)%nat 0%nat ps.

Lemma outdeg_app ps qs : outdeg (ps ++ qs) = (outdeg ps + outdeg qs)%nat.
Proof. induction ps as [|p ps IH]; [reflexivity|]. cbn [app outdeg fold_right] in *. unfold outdeg in *. lia. Qed.

Lemma Forall2_snoc_inv {A B} (R : A -> B -> Prop) l a m : Forall2 R (l ++ [a]) m ->
  exists l' b, m = l' ++ [b] /\ Forall2 R l l' /\ R a b.
Proof.
  intros H. apply Forall2_app_inv_l in H as (l1 & l2 & H1 & H2 & ->).
  inversion H2 as [|x y xs ys Hxy Hr E1 E2]; subst. inversion Hr; subst. exists l1, y. repeat split; assumption.
Qed.

Lemma outdeg_ge ps ys : Forall2 rep ps ys -> (length (concat ys) <= outdeg ps)%nat.
Proof.
  induction 1 as [|p y ps ys R _ IH]; [cbn; lia|]. cbn [concat outdeg fold_right]. rewrite app_length.
  destruct R as (R & _). unfold outdeg in IH. lia.
Qed.

Lemma reduceLeaves_ok j b ps ys : (j <= k)%nat -> ps <> [] -> Forall2 rep ps ys ->
  (outdeg ps + 1 <= 2 ^ j)%nat ->
  (forall y, In y ys -> (length y < b)%nat) -> (forall p, In p (removelast ps) -> (b <= length p)%nat) ->
  exists dst, reduceLeaves fs (2 ^ j) ps = Ret (dst, outdeg ps + 1)%nat /\ length dst = (2 ^ j)%nat /\
    rep dst (concat ys).
Proof.
  intros J NE R D BY BP. set (w := wj W k j).
  assert (K31 : (k <= 31)%nat) by apply FO.
  assert (Pw : prim w j) by (apply wj_prim; [apply FO|exact J]).
  destruct (exists_last NE) as (qs & lastp & ->).
  apply Forall2_snoc_inv in R as (ys1 & yl & -> & R1 & Rl).
  unfold reduceLeaves. rewrite pow2_test by lia. cbn [negb].
  assert (LN : (length (qs ++ [lastp]) <> 0)%nat) by (rewrite app_length; cbn; lia).
  rewrite (proj2 (Nat.eqb_neq _ _) LN).
  rewrite existsb_false.
  2:{ intros p Hp. apply Nat.eqb_neq. apply in_app_or in Hp as [Hp|[<-|[]]].
      - apply (In_nth _ _ []) in Hp as (i & Hi & <-).
        assert (X : (i < length ys1)%nat) by (rewrite <- (Forall2_len _ _ _ R1); exact Hi).
        assert (Ri : rep (nth i qs []) (nth i ys1 [])).
        { clear -R1 Hi. revert i Hi. induction R1; intros i Hi; [cbn in Hi; lia|]. destruct i; [assumption|]. apply IHR1. cbn in Hi. lia. }
        destruct Ri as (Q & _). lia.
      - destruct Rl as (Q & _). lia. }
  rewrite fold_outdeg. fold (outdeg (qs ++ [lastp])). cbn [plus].
  rewrite (proj2 (Nat.ltb_ge _ _)) by lia.
  rewrite last_last, removelast_last in *.
  set (n := (2 ^ j)%nat) in *.
  assert (LL : (length lastp <= n)%nat).
  { rewrite outdeg_app in D. destruct Rl as (Q & _). cbn [outdeg fold_right] in D. lia. }
  set (pad0 := lastp ++ repeat 0 (n - length lastp)).
  assert (Lpad0 : length pad0 = n) by (unfold pad0; rewrite app_length, repeat_length; lia).
  unfold n at 1. rewrite (InplaceFFT_ok _ _ _ _ _ _ FO J Lpad0). fold w. cbn [must bind].
  set (body := fun (s : list Fr * list Fr) p => _).
  destruct (gofold_inv (fun (l : list (list Fr)) (s : list Fr * list Fr) =>
      length (fst s) = n /\ (forall i, (b <= i)%nat -> nth i (fst s) 0 = 0) /\
      length (snd s) = n /\
      forall i, (i < n)%nat -> nth i (snd s) 0 = prodlin (concat (firstn (length l) ys1)) (fpow w i) * prodlin yl (fpow w i))
    body qs (pad0, dft w pad0)) as ([padF mulF] & E & LF & ZF & LM & NM).
  - cbn [fst snd]. split; [exact Lpad0|]. destruct Rl as (Rl1 & Rl2 & Rl3).
    split; [|split].
    + intros i Hi. assert (Q : (length yl < b)%nat) by (apply BY; apply in_or_app; right; left; reflexivity).
      unfold pad0. destruct (Nat.lt_ge_cases i (length lastp)) as [T|T].
      * rewrite app_nth1 by exact T. apply Rl2. lia.
      * rewrite app_nth2 by exact T. apply nth_repeat.
    + rewrite length_dft. exact Lpad0.
    + intros i Hi. rewrite nth_dft by lia. cbn [length firstn concat prodlin].
      unfold pad0. rewrite peval_app, peval_repeat0, Rl3. ring.
  - intros l1 p l2 [pad mul] Q (A1 & A2 & A3 & A4). cbn [fst snd] in *.
    assert (Lq : (length l1 < length qs)%nat) by (rewrite Q, app_length; cbn; lia).
    assert (Lq' : (length l1 < length ys1)%nat) by (rewrite <- (Forall2_len _ _ _ R1); exact Lq).
    assert (Np : nth (length l1) qs [] = p) by (rewrite Q, app_nth2, Nat.sub_diag by lia; reflexivity).
    assert (Rp : rep p (nth (length l1) ys1 [])).
    { rewrite <- Np. clear -R1 Lq. revert Lq. generalize (length l1). induction R1; intros i Hi; [cbn in Hi; lia|].
      destruct i; [assumption|]. apply IHR1. cbn in Hi. lia. }
    assert (Inp : In p qs) by (rewrite Q; apply in_or_app; right; left; reflexivity).
    pose proof (BP p Inp) as Bp.
    assert (Lp : (length p <= n)%nat).
    { rewrite Q, <- app_assoc, outdeg_app in D. cbn [app outdeg fold_right] in D. destruct Rp as (T & _). unfold outdeg in D. lia. }
    unfold body. cbn [fst snd].
    set (pad' := p ++ skipn (length p) pad).
    assert (Lpad' : length pad' = n) by (unfold pad'; rewrite app_length, skipn_length; lia).
    assert (Npad' : forall i, nth i pad' 0 = nth i p 0).
    { intros i. unfold pad'. destruct (Nat.lt_ge_cases i (length p)) as [T|T].
      - apply app_nth1. exact T.
      - rewrite app_nth2 by exact T. rewrite (nth_overflow p) by exact T.
        rewrite nth_skipn'. replace (length p + (i - length p))%nat with i by lia. apply A2. lia. }
    unfold n at 1. rewrite (InplaceFFT_ok _ _ _ _ _ _ FO J Lpad'). fold w. cbn [must bind].
    eexists. split; [reflexivity|]. cbn [fst snd]. destruct Rp as (Rp1 & Rp2 & Rp3).
    split; [exact Lpad'|]. split; [|split].
    + intros i Hi. rewrite Npad'. destruct (Nat.lt_ge_cases i (length p)) as [T|T]; [|apply nth_overflow; exact T].
      apply Rp2. assert (length (nth (length l1) ys1 []) < b)%nat; [|lia].
      apply BY. apply in_or_app. left. apply nth_In. exact Lq'.
    + rewrite map_length, combine_length, length_dft. lia.
    + intros i Hi.
      rewrite nth_pointwise by (rewrite length_dft; lia).
      rewrite A4 by exact Hi. rewrite nth_dft by lia. rewrite (peval_ext0 _ _ _ Npad'), Rp3.
      rewrite app_length. cbn [length]. rewrite Nat.add_1_r, (firstn_S_snoc []) by exact Lq'.
      rewrite concat_app, prodlin_app. cbn [concat]. rewrite app_nil_r. ring.
  - cbn [fst snd] in LF, ZF, LM, NM. rewrite E. cbn [bind snd]. unfold n at 1. rewrite (InplaceFFT_ok _ _ _ _ _ _ FO J LM). fold w. cbn [must bind].
    assert (FQ : firstn (length qs) ys1 = ys1) by (rewrite (Forall2_len _ _ _ R1); apply firstn_all).
    rewrite FQ in NM.
    set (ys := concat (ys1 ++ [yl])).
    assert (LY : (length ys < n)%nat).
    { pose proof (outdeg_ge (qs ++ [lastp]) (ys1 ++ [yl])) as Q.
      assert (Forall2 rep (qs ++ [lastp]) (ys1 ++ [yl])) as F by (apply Forall2_app; [exact R1|constructor; [exact Rl|constructor]]).
      specialize (Q F). unfold ys. lia. }
    set (p := plin ys ++ repeat 0 (n - S (length ys))).
    assert (Lp : length p = n) by (unfold p; rewrite app_length, length_plin, repeat_length; lia).
    assert (ME : mulF = dft w p).
    { apply (list_ext 0); [rewrite length_dft; lia|]. intros i Hi. rewrite NM by lia. rewrite nth_dft by lia.
      pose proof (rep_plin ys n LY) as (_ & _ & T). fold p in T. rewrite T. unfold ys.
      rewrite concat_app, prodlin_app. cbn [concat]. rewrite app_nil_r. reflexivity. }
    rewrite ME. unfold n at 1. rewrite dft_inv by (try exact Pw; try exact Lp; lia).
    exists p. split; [reflexivity|]. split; [exact Lp|]. apply rep_plin. exact LY.
Qed.
End Zero.
