(** Proofs about batch inversion, scaling, the evaluation form and the data-availability extension. *)

Require Import ZArith List Bool Arith Lia.
From Verif Require Import Prime Fr CodecModel GoBase Poly GroupModel VssModel VssProofs FftModel FftProofs FftProofs2 SampleModel.
Import ListNotations.
Local Open Scope F_scope.

(** ** Batch inversion *)

Fixpoint prod (l : list Fr) : Fr := match l with [] => 1 | a :: l' => a * prod l' end.

Lemma prod_neq_0 l : (forall v, In v l -> v <> 0) -> prod l <> 0.
Proof.
  induction l as [|a l IH]; intros H; [exact f1_neq_0|]. cbn. intros E. apply fmul_eq_0 in E as [E|E].
  - apply (H a); [left; reflexivity|exact E].
  - apply IH; [intros v V; apply H; right; exact V|exact E].
Qed.

Lemma prod_0 l : In 0 l -> prod l = 0.
Proof.
  induction l as [|a l IH]; intros H; [destruct H|]. cbn. destruct H as [->|H]; [ring|]. rewrite IH by exact H. ring.
Qed.

Lemma prod_app l1 l2 : prod (l1 ++ l2) = prod l1 * prod l2.
Proof. induction l1 as [|a l IH]; cbn; [ring|]. rewrite IH. ring. Qed.

Lemma partials_nth : forall vs p i, (i <= length vs)%nat -> nth i (partials p vs) 0 = p * prod (firstn i vs).
Proof.
  induction vs as [|v vs IH]; intros p i L.
  - cbn in L. assert (i = O) by lia. subst. cbn. ring.
  - destruct i as [|i]; [cbn; ring|]. cbn [partials nth firstn prod]. rewrite IH by (cbn in L; lia). ring.
Qed.

Lemma partials_length vs : forall p, length (partials p vs) = S (length vs).
Proof. induction vs as [|v vs IH]; intros p; cbn; [reflexivity|]. rewrite IH. reflexivity. Qed.

Lemma last_nth {A} (l : list A) d : last l d = nth (length l - 1) l d.
Proof.
  induction l as [|a l IH]; [reflexivity|]. destruct l as [|b l]; [reflexivity|].
  change (last (a :: b :: l) d) with (last (b :: l) d). rewrite IH.
  replace (length (a :: b :: l) - 1)%nat with (S (length (b :: l) - 1)) by (cbn; lia). reflexivity.
Qed.

Lemma last_partials vs p : last (partials p vs) 0 = p * prod vs.
Proof.
  rewrite last_nth, partials_length. replace (S (length vs) - 1)%nat with (length vs) by lia.
  rewrite partials_nth by lia. rewrite firstn_all. reflexivity.
Qed.

Lemma prod_firstn_S : forall vs i, (i < length vs)%nat -> prod (firstn (S i) vs) = prod (firstn i vs) * nth i vs 0.
Proof.
  induction vs as [|v vs IH]; intros i L; [cbn in L; lia|]. destruct i as [|i]; [cbn; ring|].
  cbn [firstn prod nth] in *. rewrite IH by (cbn in L; lia). cbn. ring.
Qed.

Lemma multiInv_ok values : values <> [] -> (forall v, In v values -> v <> 0) ->
  multiInv values = Ret (map finv values).
Proof.
  intros NE NZ. unfold multiInv. destruct values as [|v0 vs] eqn:E; [congruence|]. rewrite <- E in *. clear NE.
  assert (V0 : v0 <> 0) by (apply NZ; rewrite E; left; reflexivity).
  set (n := length values). set (ps := partials v0 values).
  f_equal.
  set (body := fun (s : list Fr * Fr) i => (set_nth i (nth i ps 0 * snd s) (fst s), snd s * nth i values 0)).
  pose proof (loop_down_inv (fun i (s : list Fr * Fr) =>
     length (fst s) = n /\ snd s = finv (v0 * prod (firstn i values)) /\
     forall j, (i <= j < n)%nat -> nth j (fst s) 0 = finv (nth j values 0)) 0 n body
     (repeat 0 n, finv (last ps 0))) as I.
  cbn beta in I. destruct I as (L & _ & N).
  - cbn [fst snd plus]. rewrite repeat_length. split; [reflexivity|]. split; [|intros j Hj; lia].
    unfold ps. rewrite last_partials. unfold n. rewrite firstn_all. reflexivity.
  - intros i [outs inv] Hi (L & I1 & I2). cbn [fst snd plus] in *. unfold body. cbn [fst snd].
    rewrite length_set_nth. split; [exact L|].
    assert (NZi : nth i values 0 <> 0) by (apply NZ, nth_In; exact (proj2 Hi)).
    assert (PZ : prod (firstn i values) <> 0).
    { apply prod_neq_0. intros v V. apply NZ. rewrite <- (firstn_skipn i values). apply in_or_app. left. exact V. }
    assert (I1' : inv = finv (v0 * (prod (firstn i values) * nth i values 0))).
    { rewrite I1, prod_firstn_S by exact (proj2 Hi). reflexivity. }
    split.
    + rewrite I1'. field. repeat split; assumption.
    + intros j Hj. destruct (Nat.eq_dec i j) as [<-|D].
      * rewrite nth_set_nth_same by lia. unfold ps. rewrite partials_nth by (unfold n in Hi; lia). rewrite I1'.
        field. repeat split; assumption.
      * rewrite nth_set_nth_other by exact D. apply I2. lia.
  - apply (list_ext 0).
    + rewrite L, map_length. reflexivity.
    + intros i Hi. rewrite L in Hi. rewrite N by lia.
      rewrite (nth_indep (map finv values) 0 (finv 0)) by (rewrite map_length; exact Hi). rewrite map_nth. reflexivity.
Qed.

Lemma multiInv_zero values : In 0 values -> multiInv values = Ret (repeat 0 (length values)).
Proof.
  intros Z. unfold multiInv. destruct values as [|v0 vs] eqn:E; [destruct Z|]. rewrite <- E in *.
  f_equal. set (n := length values). set (ps := partials v0 values).
  set (body := fun (s : list Fr * Fr) i => (set_nth i (nth i ps 0 * snd s) (fst s), snd s * nth i values 0)).
  pose proof (loop_down_inv (fun i (s : list Fr * Fr) =>
     length (fst s) = n /\ snd s = 0 /\ forall j, nth j (fst s) 0 = 0) 0 n body (repeat 0 n, finv (last ps 0))) as I.
  cbn beta in I. destruct I as (L & _ & N).
  - cbn [fst snd]. rewrite repeat_length. split; [reflexivity|]. split.
    + unfold ps. rewrite last_partials, prod_0 by exact Z. replace (v0 * 0) with 0 by ring. apply finv_0.
    + intros j. apply nth_repeat.
  - intros i [outs inv] Hi (L & I1 & I2). cbn [fst snd] in *. unfold body. cbn [fst snd]. subst inv.
    rewrite length_set_nth. split; [exact L|]. split; [ring|]. intros j. rewrite nth_set_nth.
    destruct (_ && _); [ring|apply I2].
  - apply (list_ext 0); [rewrite L, repeat_length; reflexivity|]. intros i Hi. rewrite N, nth_repeat. reflexivity.
Qed.

(** ** Scaling by powers *)

Lemma scale_powers_length k : forall l p, length (scale_powers k p l) = length l.
Proof. induction l as [|a l IH]; intros p; cbn; [reflexivity|]. rewrite IH. reflexivity. Qed.

Lemma scale_powers_nth k : forall l p i, nth i (scale_powers k p l) 0 = nth i l 0 * (p * fpow k i).
Proof.
  induction l as [|a l IH]; intros p i; [destruct i; cbn; ring|].
  destruct i as [|i]; cbn [scale_powers nth]; [cbn; ring|]. rewrite IH. cbn [fpow]. ring.
Qed.

Lemma peval_scale k : forall l p x, peval (scale_powers k p l) x = p * peval l (k * x).
Proof. induction l as [|a l IH]; intros p x; cbn [scale_powers peval]; [ring|]. rewrite IH. ring. Qed.

Lemma pOfKX_eval poly k x : peval (pOfKX poly k) x = peval poly (k * x).
Proof. unfold pOfKX. rewrite peval_scale. ring. Qed.

Lemma five_neq_0 : of_nat 5 <> 0.
Proof. change 0 with (of_nat 0). intros E. revert E. apply (proj1 (feqb_neq _ _)). vm_compute. reflexivity. Qed.

Lemma unshift_shift l : UnshiftPoly (ShiftPoly l) = l.
Proof.
  unfold UnshiftPoly, ShiftPoly. apply (list_ext 0).
  - rewrite !scale_powers_length. reflexivity.
  - intros i _. rewrite !scale_powers_nth.
    pose proof (fpow_inv (of_nat 5) i five_neq_0) as H.
    replace (nth i l 0 * (1 * fpow (finv (of_nat 5)) i) * (1 * fpow (of_nat 5) i))
      with (nth i l 0 * (fpow (finv (of_nat 5)) i * fpow (of_nat 5) i)) by ring.
    rewrite H. ring.
Qed.

(** ** Evaluation form *)

Lemma goloop_sum n (f : nat -> Fr) body acc :
  (forall y i, (i < n)%nat -> body y i = Ret (y + f i)) -> goloop 0 n body acc = Ret (acc + sumn n f).
Proof.
  intros H. induction n as [|n IH].
  - unfold goloop. cbn. f_equal. ring.
  - change (S n) with (1 + n)%nat. rewrite goloop_S, IH by (intros; apply H; lia). cbn [bind]. rewrite H by lia.
    f_equal. cbn [sumn plus]. ring.
Qed.

Lemma EvaluatePolyInEvaluationForm_form poly x roots scale d :
  length poly = (length roots / 2 ^ scale)%nat ->
  (forall i, (i < length poly)%nat -> nth (i * 2 ^ scale) roots 0 = d i) ->
  EvaluatePolyInEvaluationForm poly x roots scale =
  Ret (sumn (length poly) (fun i => nth i poly 0 * d i * finv (x - d i)) *
       ((fpow x (length poly) - 1) * finv (of_nat (length poly)))).
Proof.
  intros L H. unfold EvaluatePolyInEvaluationForm. rewrite L, Nat.eqb_refl, <- L. cbn [negb].
  assert (P2 : (2 ^ scale <> 0)%nat) by (apply Nat.pow_nonzero; lia).
  assert (I : forall i, (i < length poly)%nat -> (i * 2 ^ scale < length roots)%nat).
  { intros i Hi. rewrite L in Hi. pose proof (Nat.mul_div_le (length roots) (2 ^ scale) P2). nia. }
  rewrite (gomap_ret _ (fun i => x - d i)).
  2:{ intros i Hi. apply in_seq in Hi. rewrite (idx_nth 0) by (apply I; lia). rewrite H by lia. reflexivity. }
  cbn [bind]. rewrite (goloop_sum _ (fun i => nth i poly 0 * d i * finv (x - d i))).
  2:{ intros y i Hi. rewrite (idx_nth 0) by exact Hi. rewrite (idx_nth 0) by (apply I; lia). cbn [bind].
      rewrite map_map, (idx_nth 0) by (rewrite map_length, seq_length; exact Hi).
      rewrite nth_map_seq by exact Hi. rewrite H by lia. reflexivity. }
  cbn [bind]. f_equal. replace (0 + sumn (length poly) (fun i => nth i poly 0 * d i * finv (x - d i)))
    with (sumn (length poly) (fun i => nth i poly 0 * d i * finv (x - d i))) by ring. reflexivity.
Qed.

(** (x - a) divides x^n - a^n. *)
Lemma geom_div x a n : (x - a) * sumn n (fun t => fpow a t * fpow x (n - 1 - t)) = fpow x n - fpow a n.
Proof.
  induction n as [|n IH]; [cbn; ring|].
  cbn [sumn]. replace (S n - 1 - n)%nat with O by lia.
  rewrite (sumn_ext n _ (fun t => x * (fpow a t * fpow x (n - 1 - t)))).
  2:{ intros t Ht. replace (S n - 1 - t)%nat with (S (n - 1 - t)) by lia. cbn [fpow]. ring. }
  rewrite sumn_scale_l. cbn [fpow].
  replace ((x - a) * (x * sumn n (fun t => fpow a t * fpow x (n - 1 - t)) + fpow a n * 1))
    with (x * ((x - a) * sumn n (fun t => fpow a t * fpow x (n - 1 - t))) + (x - a) * fpow a n) by ring.
  rewrite IH. ring.
Qed.

(** Powers of a root of unity sum to zero, except for multiples of the order. *)
Lemma orth_pow w j e : prim w j ->
  sumn (2 ^ j) (fun i => fpow w (i * e)) = if (e mod 2 ^ j =? 0)%nat then of_nat (2 ^ j) else 0.
Proof.
  intros P. pose proof (Nat.pow_nonzero 2 j) as NZ.
  assert (O : fpow w (2 ^ j) = 1) by (apply prim_one, P).
  rewrite (sumn_ext _ _ (fpow (fpow w (e mod 2 ^ j)))).
  2:{ intros i Hi. rewrite fpow_mod by (try exact O; lia). rewrite <- fpow_mul. f_equal. lia. }
  destruct (Nat.eqb_spec (e mod 2 ^ j) 0) as [E|E].
  - rewrite E. rewrite (sumn_ext _ _ (fun _ => 1)) by (intros; apply fpow_1_l). apply sumn_1.
  - apply geom.
    + rewrite <- fpow_mul, Nat.mul_comm, fpow_mul, O. apply fpow_1_l.
    + apply (prim_order _ _ P). pose proof (Nat.mod_upper_bound e (2 ^ j)). lia.
Qed.

(** The barycentric formula. *)
Lemma barycentric w j c x : prim w j -> (j <= 31)%nat -> (length c <= 2 ^ j)%nat ->
  (forall i, (i < 2 ^ j)%nat -> x <> fpow w i) ->
  sumn (2 ^ j) (fun i => peval c (fpow w i) * fpow w i * finv (x - fpow w i)) *
    ((fpow x (2 ^ j) - 1) * finv (of_nat (2 ^ j))) = peval c x.
Proof.
  intros P J L X. set (n := (2 ^ j)%nat) in *. pose proof (Nat.pow_nonzero 2 j) as NZ.
  assert (O : fpow w n = 1) by (apply prim_one, P).
  assert (T : forall i, (i < n)%nat -> finv (x - fpow w i) * (fpow x n - 1) =
              sumn n (fun t => fpow (fpow w i) t * fpow x (n - 1 - t))).
  { intros i Hi. pose proof (geom_div x (fpow w i) n) as G.
    assert (E : fpow (fpow w i) n = 1) by (rewrite <- fpow_mul, Nat.mul_comm, fpow_mul, O; apply fpow_1_l).
    rewrite E in G. rewrite <- G.
    assert (D : x - fpow w i <> 0) by (intros Q; apply (X i Hi); apply fsub_eq_0; exact Q).
    replace (finv (x - fpow w i) * ((x - fpow w i) * sumn n (fun t => fpow (fpow w i) t * fpow x (n - 1 - t))))
      with (finv (x - fpow w i) * (x - fpow w i) * sumn n (fun t => fpow (fpow w i) t * fpow x (n - 1 - t))) by ring.
    rewrite finv_l by exact D. ring. }
  replace (sumn n (fun i => peval c (fpow w i) * fpow w i * finv (x - fpow w i)) *
    ((fpow x n - 1) * finv (of_nat n)))
    with (sumn n (fun i => peval c (fpow w i) * fpow w i * finv (x - fpow w i)) * (fpow x n - 1) * finv (of_nat n)) by ring.
  rewrite <- sumn_scale_r.
  rewrite (sumn_ext n _ (fun i => sumn (length c) (fun m => nth m c 0 *
      sumn n (fun t => fpow w (i * (m + 1 + t)) * fpow x (n - 1 - t))))).
  2:{ intros i Hi.
      replace (peval c (fpow w i) * fpow w i * finv (x - fpow w i) * (fpow x n - 1))
        with (peval c (fpow w i) * (fpow w i * (finv (x - fpow w i) * (fpow x n - 1)))) by ring.
      rewrite T by exact Hi. rewrite peval_sumn, <- sumn_scale_r. apply sumn_ext. intros m Hm.
      rewrite <- !sumn_scale_l. apply sumn_ext. intros t Ht.
      replace (i * (m + 1 + t))%nat with (i * m + i + i * t)%nat by lia. rewrite !fpow_add, !fpow_mul. ring. }
  rewrite sumn_swap. rewrite <- sumn_scale_r, peval_sumn. apply sumn_ext. intros m Hm.
  rewrite sumn_scale_l, sumn_swap.
  rewrite (sumn_single n _ (n - 1 - m)%nat).
  - rewrite sumn_scale_r. unfold n at 1. rewrite orth_pow by exact P. fold n.
    replace (m + 1 + (n - 1 - m))%nat with n by lia. rewrite Nat.mod_same by (unfold n; lia). cbn [Nat.eqb].
    replace (n - 1 - (n - 1 - m))%nat with m by lia.
    pose proof (finv_r (of_nat n) (pow2_nonzero j J)) as Q. 
    replace (nth m c 0 * (of_nat n * fpow x m) * finv (of_nat n)) with (nth m c 0 * fpow x m * (of_nat n * finv (of_nat n))) by ring.
    rewrite Q. ring.
  - lia.
  - intros t Ht D. rewrite sumn_scale_r. unfold n at 1. rewrite orth_pow by exact P. fold n.
    destruct (Nat.eqb_spec ((m + 1 + t) mod n) 0) as [E|E]; [|ring]. exfalso.
    assert (m + 1 + t < 2 * n)%nat by lia. apply Nat.mod_divides in E as [q E]; [|unfold n; lia].
    destruct q as [|[|q]]; nia.
Qed.

(** ** Data-availability extension *)

Lemma sumn_even_odd h f : sumn (h + h) f = sumn h (fun i => f (2 * i)%nat) + sumn h (fun i => f (2 * i + 1)%nat).
Proof.
  induction h as [|h IH]; [cbn; ring|].
  replace (S h + S h)%nat with (S (S (h + h))) by lia. cbn [sumn]. rewrite IH.
  replace (2 * h)%nat with (h + h)%nat by lia. replace (h + h + 1)%nat with (S (h + h)) by lia. ring.
Qed.

(** The polynomial with n coefficients c. *)
Definition ev (c : nat -> Fr) (n : nat) (x : Fr) : Fr := sumn n (fun i => c i * fpow x i).

Lemma ev_split c h x :
  ev c (h + h) x = ev (fun i => c (2 * i)%nat) h (x * x) + x * ev (fun i => c (2 * i + 1)%nat) h (x * x).
Proof.
  unfold ev. rewrite sumn_even_odd, <- sumn_scale_l. f_equal; apply sumn_ext; intros i _.
  - rewrite fpow_mul. do 2 f_equal. cbn. ring.
  - rewrite fpow_add, fpow_mul. replace (fpow x 2) with (x * x) by (cbn; ring). rewrite fpow_1. ring.
Qed.

Lemma ev_scale a c n x : ev (fun i => a * c i) n x = a * ev c n x.
Proof. unfold ev. rewrite <- sumn_scale_l. apply sumn_ext. intros. ring. Qed.

Lemma firstn_map_seq {A} (f : nat -> A) a n : (a <= n)%nat -> firstn a (map f (seq 0 n)) = map f (seq 0 a).
Proof.
  intros L. rewrite firstn_map. f_equal. replace n with (a + (n - a))%nat by lia. rewrite seq_app, firstn_app, seq_length.
  rewrite Nat.sub_diag, firstn_all2 by (rewrite seq_length; lia). cbn. rewrite app_nil_r. reflexivity.
Qed.

Lemma skipn_map_seq {A} (f : nat -> A) a n : (a <= n)%nat ->
  skipn a (map f (seq 0 n)) = map (fun i => f (a + i)%nat) (seq 0 (n - a)).
Proof.
  intros L. rewrite skipn_map. replace n with (a + (n - a))%nat at 1 by lia. rewrite seq_app, skipn_app, seq_length.
  rewrite Nat.sub_diag, skipn_all2 by (rewrite seq_length; lia). cbn [skipn app plus].
  apply (list_ext (f O)); [rewrite !map_length, !seq_length; lia|]. intros i Hi. rewrite map_length, seq_length in Hi.
  rewrite !nth_map_seq by exact Hi. reflexivity.
Qed.

Lemma map_seq_app {A} (f : nat -> A) a b :
  map f (seq 0 (a + b)) = map f (seq 0 a) ++ map (fun i => f (a + i)%nat) (seq 0 b).
Proof.
  rewrite seq_app, map_app. f_equal. cbn [plus].
  apply (list_ext (f O)); [rewrite !map_length, !seq_length; lia|]. intros i Hi. rewrite map_length, seq_length in Hi.
  rewrite !nth_map_seq by exact Hi. reflexivity.
Qed.

Lemma das_unfold fuel fs ab stride : (3 <= length ab)%nat ->
  dasFFTExtension (S fuel) fs ab stride =
      let half := (length ab / 2)%nat in
      let a0s := firstn half ab in
      let a1s := skipn half ab in
      bind (gomap (fun i =>
        a0 <- idx a0s i ;;
        a1 <- idx a1s i ;;
        w <- idx (Reverse fs) (i * 2 * stride) ;;
        Ret (a0 + a1, (a0 - a1) * w)) (seq 0 half)) (fun lr =>
      bind (dasFFTExtension fuel fs (map fst lr) (stride * 2)) (fun L =>
      bind (dasFFTExtension fuel fs (map snd lr ++ skipn half a1s) (stride * 2)) (fun R =>
      bind (gomap (fun i =>
        x <- idx L i ;;
        y <- idx R i ;;
        root <- idx (Expanded fs) ((1 + 2 * i) * stride) ;;
        Ret (x + y * root, x - y * root)) (seq 0 half)) (fun ps =>
      Ret (map fst ps ++ map snd ps ++ skipn half R))))).
Proof. intros L. destruct ab as [|a [|b [|c l]]]; cbn [length] in L; try lia. reflexivity. Qed.

Lemma dasFFTExtension_ok fs k W : fs_ok fs k W -> forall m s c fuel, (2 ^ S m <= fuel)%nat ->
  (S m + 1 + s = k)%nat ->
  dasFFTExtension fuel fs (map (fun i => ev c (2 ^ S m) (fpow (fpow W (2 ^ s)) (2 * i))) (seq 0 (2 ^ S m))) (2 ^ s) =
  Ret (map (fun i => of_nat (2 ^ S m) * ev c (2 ^ S m) (fpow (fpow W (2 ^ s)) (1 + 2 * i))) (seq 0 (2 ^ S m))).
Proof.
  intros O. induction m as [|m IH]; intros s c fuel Fu K; (destruct fuel as [|fuel]; [exfalso; revert Fu; apply Nat.lt_nge, Nat.neq_0_lt_0, Nat.pow_nonzero; lia|]).
  - change (2 ^ 1)%nat with 2%nat. cbn [seq map dasFFTExtension].
    set (w := fpow W (2 ^ s)).
    assert (LS : (2 ^ s <= 2 ^ k)%nat) by (apply pow2_le; lia).
    rewrite (idx_nth 0) by (rewrite (fo_exp_length _ _ _ O); lia).
    rewrite (fo_exp_nth _ _ _ _ O) by exact LS. fold w. cbn [bind].
    assert (P : fpow w 2 = fopp 1).
    { assert (Q : prim w 2) by (unfold w; apply prim_stride; replace (s + 2)%nat with k by lia; apply O). exact Q. }
    change (2 * 0)%nat with 0%nat. change (2 * 1)%nat with 2%nat. change (1 + 2 * 0)%nat with 1%nat. change (1 + 2 * 1)%nat with 3%nat.
    change (1 + 0)%nat with 1%nat. change (1 + 2)%nat with 3%nat.
    assert (P3 : fpow w 3 = - w).
    { replace 3%nat with (2 + 1)%nat by reflexivity. rewrite fpow_add, P, fpow_1. ring. }
    rewrite P, P3, fpow_1. change (fpow w 0) with 1. unfold ev. cbn [sumn fpow].
    replace (of_nat 2) with (1 + 1) by (apply Fr_ext; reflexivity).
    f_equal. f_equal; [ring|]. f_equal. ring.
  - set (h := (2 ^ S m)%nat) in *. set (w := fpow W (2 ^ s)).
    assert (Hh : (2 ^ S (S m) = h + h)%nat) by (unfold h; cbn; lia).
    assert (H2 : (2 <= h)%nat) by (unfold h; pose proof (Nat.pow_nonzero 2 m); cbn; lia).
    assert (PW : prim w (S (S (S m)))).
    { unfold w. apply prim_stride. replace (s + S (S (S m)))%nat with k by lia. apply O. }
    assert (M1 : fpow w (h + h) = fopp 1) by (rewrite <- Hh; exact PW).
    assert (W0 : W <> 0) by (apply (prim_neq_0 _ k); apply O).
    assert (W2 : fpow W (2 ^ S s) = w * w).
    { unfold w. rewrite <- fpow_add. f_equal. cbn. lia. }
    assert (HK : (2 ^ k = 2 ^ s * (h + h + (h + h)))%nat).
    { replace (h + h + (h + h))%nat with (2 ^ (S (S (S m))))%nat by (rewrite <- Hh; cbn; lia).
      rewrite <- Nat.pow_add_r. f_equal. lia. }
    rewrite Hh in *.
    rewrite das_unfold by (rewrite map_length, seq_length; lia).
    rewrite map_length, seq_length. replace ((h + h) / 2)%nat with h
      by (replace (h + h)%nat with (h * 2)%nat by lia; rewrite Nat.div_mul; lia).
    cbv zeta. rewrite firstn_map_seq, skipn_map_seq by lia. replace (h + h - h)%nat with h by lia.
    rewrite (gomap_ret _ (fun i => (of_nat 2 * ev (fun i => c (2 * i)%nat) h (fpow (w * w) (2 * i)),
                                    of_nat 2 * ev (fun i => c (2 * i + 1)%nat) h (fpow (w * w) (2 * i))))).
    2:{ intros i Hi. apply in_seq in Hi.
        rewrite (idx_nth 0) by (rewrite map_length, seq_length; lia). rewrite nth_map_seq by lia.
        rewrite (idx_nth 0) by (rewrite map_length, seq_length; lia). rewrite nth_map_seq by lia. cbn [bind plus].
        rewrite (idx_nth 0).
        2:{ rewrite (fo_rev _ _ _ O), rev_length, (fo_exp_length _ _ _ O). nia. }
        rewrite (fo_rev_nth _ _ _ _ O) by nia. cbn [bind].
        rewrite !ev_split.
        replace (2 * (h + i))%nat with (h + h + 2 * i)%nat by lia. rewrite fpow_add, M1.
        set (u := fpow w (2 * i)).
        assert (U : fpow (finv W) (i * 2 * 2 ^ s) * u = 1).
        { unfold u, w. rewrite <- fpow_mul. replace (2 ^ s * (2 * i))%nat with (i * 2 * 2 ^ s)%nat by lia.
          apply fpow_inv, W0. }
        replace (fopp 1 * u * (fopp 1 * u)) with (u * u) by ring.
        assert (UU : u * u = fpow (w * w) (2 * i)) by (unfold u; rewrite fpow_mul_base; reflexivity).
        rewrite <- UU. set (E := ev (fun i0 => c (2 * i0)%nat) h (u * u)).
        set (Od := ev (fun i0 => c (2 * i0 + 1)%nat) h (u * u)).
        replace (of_nat 2) with (1 + 1) by (apply Fr_ext; reflexivity).
        f_equal. f_equal; [ring|].
        replace ((E + u * Od - (E + fopp 1 * u * Od)) * fpow (finv W) (i * 2 * 2 ^ s))
          with ((1 + 1) * Od * (fpow (finv W) (i * 2 * 2 ^ s) * u)) by ring.
        rewrite U. ring. }
    cbn [bind]. rewrite !map_map. cbn [fst snd].
    rewrite skipn_all2 by (rewrite map_length, seq_length; lia). rewrite app_nil_r.
    rewrite Nat.mul_comm. change (2 * 2 ^ s)%nat with (2 ^ S s)%nat. rewrite <- W2.
    assert (B : forall c', dasFFTExtension fuel fs (map (fun i => of_nat 2 * ev c' h (fpow (fpow W (2 ^ S s)) (2 * i))) (seq 0 h)) (2 ^ S s)
      = Ret (map (fun i => of_nat h * (of_nat 2 * ev c' h (fpow (fpow W (2 ^ S s)) (1 + 2 * i)))) (seq 0 h))).
    { intros c'. rewrite (map_ext _ (fun i => ev (fun t => of_nat 2 * c' t) h (fpow (fpow W (2 ^ S s)) (2 * i))))
        by (intros; rewrite ev_scale; reflexivity).
      rewrite IH by lia. f_equal. apply map_ext. intros i. rewrite ev_scale. reflexivity. }
    rewrite !B. cbn [bind].
    assert (NN : of_nat (h + h) = of_nat h * of_nat 2).
    { apply Fr_ext. unfold of_nat. rewrite Nat2Z.inj_add. rewrite of_Z_add. change (of_Z (Z.of_nat 2)) with (of_Z (1 + 1)).
      rewrite of_Z_add. change (of_Z 1) with 1. f_equal. ring. }
    rewrite (gomap_ret _ (fun i => (of_nat (h + h) * ev c (h + h) (fpow w (1 + 2 * i)),
                                    of_nat (h + h) * ev c (h + h) (fpow w (1 + 2 * (h + i)))))).
    2:{ intros i Hi. apply in_seq in Hi.
        rewrite !(idx_nth 0) by (rewrite map_length, seq_length; lia). rewrite !nth_map_seq by lia. cbn [bind plus].
        rewrite (idx_nth 0) by (rewrite (fo_exp_length _ _ _ O); nia).
        rewrite (fo_exp_nth _ _ _ _ O) by nia. cbn [bind].
        rewrite W2. rewrite !ev_split.
        change (S (2 * i)) with (1 + 2 * i)%nat.
        change (S (2 * (h + i))) with (1 + 2 * (h + i))%nat. replace (1 + 2 * (h + i))%nat with (h + h + (1 + 2 * i))%nat by lia.
        rewrite (fpow_add w (h + h)), M1.
        replace (fpow W ((1 + 2 * i) * 2 ^ s)) with (fpow w (1 + 2 * i)).
        2:{ unfold w. rewrite <- fpow_mul. f_equal. lia. }
        set (u := fpow w (1 + 2 * i)).
        replace (fopp 1 * u * (fopp 1 * u)) with (u * u) by ring.
        assert (UU : fpow (w * w) (1 + 2 * i) = u * u) by (unfold u; rewrite fpow_mul_base; reflexivity).
        rewrite UU, NN. f_equal. f_equal; ring. }
    cbn [bind]. rewrite !map_map. cbn [fst snd].
    rewrite skipn_all2 by (rewrite map_length, seq_length; lia). rewrite app_nil_r.
    rewrite map_seq_app. reflexivity.
Qed.
