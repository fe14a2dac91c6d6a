(** Quotients by X^l - z, the check of multi-proofs, and the prover of multi-proofs. *)

Require Import ZArith List Bool Arith Lia.
From Verif Require Import Prime Fr CodecModel GoBase Poly PolyModel PolyProofs GroupModel KzgModel KzgProofs VssModel VssProofs
  FftModel FftProofs FftProofs2 FftG1 ReverseModel ReverseProofs SampleModel RecoverProofs FkModel FkProofs FkProofs2.
Import ListNotations.
Local Open Scope F_scope.

(** ** Quotient and remainder *)

Definition qpoly (l : nat) (p : list Fr) (k : nat) (z : Fr) : list Fr :=
  map (fun e => sumn k (fun i => nth ((i + 1) * l + e) p 0 * fpow z i)) (seq 0 (k * l - l)).
Definition rpoly (l : nat) (p : list Fr) (k : nat) (z : Fr) : list Fr :=
  map (fun e => sumn k (fun i => nth (i * l + e) p 0 * fpow z i)) (seq 0 l).

Lemma qpoly_eval l s p k z : length p = (k * l)%nat -> peval (qpoly l p k z) s = quot l s p k z.
Proof.
  intros L. rewrite (peval_upto _ (k * l - l)) by (unfold qpoly; rewrite map_length, seq_length; lia).
  unfold quot, hval.
  rewrite (sumn_ext k _ (fun i => sumn (k * l - l) (fun e => nth ((i + 1) * l + e) p 0 * fpow s e * fpow z i))).
  - rewrite sumn_swap. apply sumn_ext. intros e He. unfold qpoly. rewrite nth_map_seq by exact He. cbn [plus].
    rewrite <- sumn_scale_r. apply sumn_ext. intros i Hi. ring.
  - intros i Hi. rewrite (peval_skipn_sum p ((i + 1) * l) (k * l - l)) by lia.
    rewrite <- sumn_scale_r. apply sumn_ext. intros e He. ring.
Qed.

Lemma rpoly_eval l x p k z :
  peval (rpoly l p k z) x = sumn k (fun i => sumn l (fun e => nth (i * l + e) p 0 * fpow x e) * fpow z i).
Proof.
  rewrite (peval_upto _ l) by (unfold rpoly; rewrite map_length, seq_length; lia).
  rewrite (sumn_ext k _ (fun i => sumn l (fun e => nth (i * l + e) p 0 * fpow x e * fpow z i))).
  - rewrite sumn_swap. apply sumn_ext. intros e He. unfold rpoly. rewrite nth_map_seq by exact He. cbn [plus].
    rewrite <- sumn_scale_r. apply sumn_ext. intros i Hi. ring.
  - intros i Hi. rewrite <- sumn_scale_r. apply sumn_ext. intros e He. ring.
Qed.

Lemma quot_identity l x p k z : (1 <= k)%nat -> length p = (k * l)%nat ->
  peval p x = quot l x p k z * (fpow x l - z) + peval (rpoly l p k z) x.
Proof.
  intros Hk L. rewrite rpoly_eval. set (A := fun i => peval (skipn (i * l) p) x).
  assert (C : forall i, (i < k)%nat -> sumn l (fun e => nth (i * l + e) p 0 * fpow x e) = A i - fpow x l * A (i + 1)%nat).
  { intros i Hi. unfold A. assert (B : ((i + 1) * l <= k * l)%nat) by (apply Nat.mul_le_mono_r; lia).
    rewrite (peval_skipn_sum p (i * l) (l + (k * l - (i + 1) * l))) by lia.
    rewrite (peval_skipn_sum p ((i + 1) * l) (k * l - (i + 1) * l)) by lia.
    rewrite sumn_app. rewrite <- sumn_scale_l.
    rewrite (sumn_ext (k * l - (i + 1) * l) (fun i0 => nth (i * l + (l + i0)) p 0 * fpow x (l + i0))
      (fun i0 => fpow x l * (nth ((i + 1) * l + i0) p 0 * fpow x i0))).
    - ring.
    - intros e He. rewrite fpow_add. replace (i * l + (l + e))%nat with ((i + 1) * l + e)%nat by lia. ring. }
  rewrite (sumn_ext k (fun i => sumn l (fun e => nth (i * l + e) p 0 * fpow x e) * fpow z i)
    (fun i => (A i - fpow x l * A (i + 1)%nat) * fpow z i)) by (intros i Hi; rewrite C by exact Hi; reflexivity).
  unfold quot. change (fun i => hval l x p i * fpow z i) with (fun i => A (i + 1)%nat * fpow z i).
  assert (T : sumn k (fun i => A i * fpow z i) = A 0%nat + z * sumn k (fun i => A (i + 1)%nat * fpow z i)).
  { destruct k as [|m]; [lia|]. rewrite (sumn_S_l m (fun i => A i * fpow z i)). cbn [sumn].
    assert (Z : A (m + 1)%nat = 0).
    { unfold A. replace ((m + 1) * l)%nat with (length p) by lia. rewrite skipn_all. reflexivity. }
    rewrite Z. rewrite (sumn_ext m (fun i => A (S i) * fpow z (S i)) (fun i => z * (A (i + 1)%nat * fpow z i))).
    - rewrite sumn_scale_l. cbn [fpow]. ring.
    - intros i Hi. replace (i + 1)%nat with (S i) by lia. cbn [fpow]. ring. }
  assert (D : sumn k (fun i => (A i - fpow x l * A (i + 1)%nat) * fpow z i) =
    sumn k (fun i => A i * fpow z i) - fpow x l * sumn k (fun i => A (i + 1)%nat * fpow z i)).
  { rewrite <- sumn_scale_l, <- sumn_sub. apply sumn_ext. intros i Hi. ring. }
  rewrite D, T. unfold A at 2. cbn [Nat.mul skipn]. ring.
Qed.

(** For l = 1 the quotient is the one of synthetic division. *)
Lemma quot_sdiv s p z : p <> [] -> quot 1 s p (length p) z = peval (fst (sdiv p z)) s.
Proof.
  intros NE. rewrite <- qpoly_eval by lia. f_equal. apply (list_ext 0).
  - unfold qpoly. rewrite map_length, seq_length, sdiv_length. lia.
  - intros j Hj. unfold qpoly in Hj. rewrite map_length, seq_length in Hj. unfold qpoly. rewrite nth_map_seq by exact Hj. cbn [plus].
    rewrite nth_sdiv by lia. rewrite (peval_skipn_sum p (S j) (length p)) by lia. apply sumn_ext. intros i Hi.
    f_equal. f_equal. lia.
Qed.

(** ** The check *)

Section Check.
Variables (fs : FFTSettings) (K : nat) (W : Fr).
Hypothesis OK : fs_ok fs K W.

Definition interp (j : nat) (x : Fr) (ys : list Fr) : list Fr :=
  map (fun i => nth i (map (fun v => v * finv (of_nat (2 ^ j))) (dft (finv (wj W K j)) ys)) 0 * finv (fpow x i)) (seq 0 (2 ^ j)).

Lemma length_interp j x ys : length (interp j x ys) = (2 ^ j)%nat.
Proof. unfold interp. rewrite map_length, seq_length. reflexivity. Qed.

Lemma interp_value j x ys i : (j <= K)%nat -> x <> 0 -> length ys = (2 ^ j)%nat -> (i < 2 ^ j)%nat ->
  peval (interp j x ys) (x * fpow (wj W K j) i) = nth i ys 0.
Proof.
  intros Hj Hx L Hi. set (w := wj W K j). assert (P : prim w j) by (apply wj_prim; [exact (fo_prim _ _ _ OK)|exact Hj]).
  pose proof (fo_max _ _ _ OK) as MX.
  rewrite <- (dft_inv2 w j ys P ltac:(lia) L) at 2. set (c := map (fun v => v * finv (of_nat (2 ^ j))) (dft (finv w) ys)).
  assert (Lc : length c = (2 ^ j)%nat) by (unfold c; rewrite map_length, length_dft; exact L).
  rewrite nth_dft by lia. rewrite (peval_upto (interp j x ys) (2 ^ j)) by (rewrite length_interp; lia).
  rewrite (peval_upto c (2 ^ j)) by lia. apply sumn_ext. intros m Hm. unfold interp. rewrite nth_map_seq by exact Hm. cbn [plus].
  fold w. fold c. rewrite fpow_mul_base.
  transitivity (nth m c 0 * fpow (fpow w i) m * (finv (fpow x m) * fpow x m)); [ring|].
  rewrite finv_l by (apply fpow_neq_0; exact Hx). ring.
Qed.

Lemma check_loop c x :
  loop 0 (length c) (fun st i => let '(p, xPow) := st in (set_nth i (nth i p 0 * finv xPow) p, xPow * x)) (c, 1) =
  (map (fun i => nth i c 0 * finv (fpow x i)) (seq 0 (length c)), fpow x (length c)).
Proof.
  assert (G : let st := loop 0 (length c) (fun st i => let '(p, xPow) := st in (set_nth i (nth i p 0 * finv xPow) p, xPow * x)) (c, 1) in
    length (fst st) = length c /\ (forall i, nth i (fst st) 0 = if (i <? length c)%nat then nth i c 0 * finv (fpow x i) else nth i c 0) /\
    snd st = fpow x (length c)).
  { apply (loop_inv (fun m st => length (fst st) = length c /\
      (forall i, nth i (fst st) 0 = if (i <? m)%nat then nth i c 0 * finv (fpow x i) else nth i c 0) /\ snd st = fpow x m) 0 (length c)).
    - cbn [fst snd]. split; [reflexivity|]. split; [intros i; reflexivity|reflexivity].
    - intros m (p & xp) Hm (L & N & E). cbn [fst snd] in *. split; [rewrite length_set_nth; exact L|]. split.
      + intros i. destruct (Nat.eq_dec m i) as [->|Ne].
        * rewrite nth_set_nth_same by lia. rewrite N, E, Nat.ltb_irrefl. rewrite (proj2 (Nat.ltb_lt i (1 + i))) by lia. reflexivity.
        * rewrite nth_set_nth_other by exact Ne. rewrite N.
          destruct (Nat.ltb_spec i m), (Nat.ltb_spec i (1 + m)); try reflexivity; lia.
      + rewrite E. change (1 + m)%nat with (S m). cbn [fpow]. ring. }
  cbv zeta in G. destruct (loop _ _ _ _) as (p & xp). cbn [fst snd] in G. destruct G as (L & N & E). rewrite E. f_equal.
  apply (list_ext 0); [rewrite map_length, seq_length; exact L|]. intros i Hi. rewrite nth_map_seq by lia. cbn [plus].
  rewrite N. rewrite (proj2 (Nat.ltb_lt i (length c))) by lia. reflexivity.
Qed.

Lemma check_multi s len ks C w x ys j : setup s len = Ret ks -> (j <= K)%nat -> length ys = (2 ^ j)%nat -> (2 ^ j < len)%nat ->
  exists b, CheckProofMulti fs ks C w x ys = Ret b /\
  (b = true <-> dlog1 C - peval (interp j x ys) s = dlog1 w * (fpow s (2 ^ j) - fpow x (2 ^ j))).
Proof.
  intros S Hj L HL. rewrite (ks_eq s len ks S). unfold CheckProofMulti. rewrite (FFT_ok fs K W ys j true OK Hj L). cbn [must bind].
  set (c := map (fun v => v * finv (of_nat (2 ^ j))) (dft (finv (wj W K j)) ys)).
  assert (Lc : length c = (2 ^ j)%nat) by (unfold c; rewrite map_length, length_dft; exact L).
  rewrite check_loop. cbn [fst snd SecretG1 SecretG2]. rewrite Lc.
  rewrite (idx_nth ZeroG2) by (rewrite length_g2powers; lia). cbn [bind].
  change (map (fun i => nth i c 0 * finv (fpow x i)) (seq 0 (2 ^ j))) with (interp j x ys).
  rewrite length_interp. rewrite slice_powers by lia. cbn [bind].
  replace (g1powers s (2 ^ j)) with (g1powers s (length (interp j x ys))) by (rewrite length_interp; reflexivity).
  rewrite lincomb_powers. cbn [bind]. eexists. split; [reflexivity|].
  rewrite PairingsVerify_eq. unfold SubG1, SubG2, MulG2, GenG2, g2powers. rewrite L, nth_map_seq by lia. cbn [dlog1 dlog2 plus].
  replace (1 * fpow x (2 ^ j)) with (fpow x (2 ^ j)) by ring.
  replace ((dlog1 C - peval (interp j x ys) s) * 1) with (dlog1 C - peval (interp j x ys) s) by ring. reflexivity.
Qed.

(** Any polynomial of that length through the points is the interpolant. *)
Lemma interp_unique j x ys I : (j <= K)%nat -> x <> 0 -> length ys = (2 ^ j)%nat -> (length I <= 2 ^ j)%nat ->
  (forall i, (i < 2 ^ j)%nat -> peval I (x * fpow (wj W K j) i) = nth i ys 0) ->
  forall z, peval I z = peval (interp j x ys) z.
Proof.
  intros Hj Hx L LI HI. set (w := wj W K j). assert (P : prim w j) by (apply wj_prim; [exact (fo_prim _ _ _ OK)|exact Hj]).
  set (pts := map (fun i => x * fpow w i) (seq 0 (2 ^ j))).
  assert (ND : NoDup pts).
  { apply NoDup_nth with (d := 0). intros a b Ha Hb E. unfold pts in *. rewrite map_length, seq_length in Ha, Hb.
    rewrite !nth_map_seq in E by assumption. cbn [plus] in E. apply (prim_inj w j a b P Ha Hb).
    assert (fpow w a - fpow w b = 0).
    { assert (M : x * (fpow w a - fpow w b) = 0) by (transitivity (x * fpow w a - x * fpow w b); [ring|rewrite E; ring]).
      apply fmul_eq_0 in M. destruct M as [M|M]; [contradiction|exact M]. }
    apply (proj1 (fsub_eq_0 _ _)). exact H. }
  intros z. apply (poly_unique pts); try assumption.
  - unfold pts. rewrite map_length, seq_length. exact LI.
  - unfold pts. rewrite map_length, seq_length, length_interp. lia.
  - intros y Hy. unfold pts in Hy. apply in_map_iff in Hy. destruct Hy as (i & <- & Hi). apply in_seq in Hi.
    unfold w. rewrite HI, interp_value by (try assumption; lia). reflexivity.
Qed.

End Check.

(** ** The prover of multi-proofs divides by X^n *)

Lemma loop_zero x n : loop 0 n (fun a _ => a * x) 0 = 0.
Proof. apply (loop_inv (fun _ a => a = 0) 0 n); [reflexivity|]. intros i a _ ->. ring. Qed.

Lemma xn_divisor n x :
  set_nth n 1 (loop 1 (n - 1) (fun d i => set_nth i 0 d) (set_nth 0 (0 - loop 0 n (fun a _ => a * x) 0) (repeat 0 (n + 1)))) =
  repeat 0 n ++ [1].
Proof.
  rewrite loop_zero. replace (0 - 0) with 0 by ring.
  assert (R : set_nth 0 0 (repeat 0 (n + 1)) = repeat 0 (n + 1)) by (rewrite Nat.add_comm; reflexivity). rewrite R.
  assert (L : loop 1 (n - 1) (fun d i => set_nth i 0 d) (repeat 0 (n + 1)) = repeat 0 (n + 1)).
  { apply (loop_inv (fun _ d => d = repeat 0 (n + 1)) 1 (n - 1)); [reflexivity|]. intros i d Hi ->. apply (list_ext 0).
    - apply length_set_nth.
    - intros m Hm. rewrite length_set_nth in Hm. rewrite nth_repeat. destruct (Nat.eq_dec i m) as [->|Ne].
      + apply nth_set_nth_same. exact Hm.
      + rewrite nth_set_nth_other by exact Ne. apply nth_repeat. }
  rewrite L. apply (list_ext 0).
  - rewrite length_set_nth, app_length, !repeat_length. reflexivity.
  - intros i Hi. rewrite length_set_nth, repeat_length in Hi. destruct (Nat.eq_dec n i) as [->|Ne].
    + rewrite nth_set_nth_same by (rewrite repeat_length; lia). rewrite app_nth2 by (rewrite repeat_length; lia).
      rewrite repeat_length, Nat.sub_diag. reflexivity.
    + rewrite nth_set_nth_other by exact Ne. rewrite app_nth1 by (rewrite repeat_length; lia). rewrite !nth_repeat. reflexivity.
Qed.

Lemma div_xn n p : (n <= length p)%nat -> polyLongDiv p (repeat 0 n ++ [1]) = Ret (skipn n p).
Proof.
  intros L. destruct (polyLongDiv_correct p (repeat 0 n ++ [1])) as (q & rem & E & Lq & LR & H).
  - destruct n; discriminate.
  - rewrite app_length, repeat_length. cbn [length]. rewrite app_nth2 by (rewrite repeat_length; lia).
    rewrite repeat_length. replace (n + 1 - 1 - n)%nat with 0%nat by lia. exact f1_neq_0.
  - rewrite app_length, repeat_length. cbn [length]. lia.
  - rewrite app_length, repeat_length in Lq, LR. cbn [length] in Lq, LR. rewrite E. f_equal. apply (list_ext 0).
    + rewrite skipn_length. lia.
    + intros i Hi. rewrite nth_skipn0, H. rewrite (nth_overflow rem) by lia. rewrite nth_pmul.
      rewrite (sumn_single _ _ n); [|lia|].
      * rewrite app_nth2 by (rewrite repeat_length; lia). rewrite repeat_length, Nat.sub_diag. cbn [nth].
        replace (n + i - n)%nat with i by lia. ring.
      * intros m Hm Ne. destruct (Nat.lt_ge_cases m n) as [A|A].
        -- rewrite app_nth1 by (rewrite repeat_length; lia). rewrite nth_repeat. ring.
        -- rewrite (nth_overflow (repeat 0 n ++ [1])) by (rewrite app_length, repeat_length; cbn [length]; lia). ring.
Qed.

Lemma prover_ok s len ks p x n : setup s len = Ret ks -> (n <= length p)%nat -> (length p - n <= len)%nat ->
  ComputeProofMulti ks p x n = Ret (mkG1 (peval (skipn n p) s)).
Proof.
  intros S L HL. rewrite (ks_eq s len ks S). unfold ComputeProofMulti. cbv zeta. rewrite xn_divisor, div_xn by exact L.
  cbn [bind SecretG1]. rewrite slice_powers by (rewrite skipn_length; lia). cbn [bind]. apply lincomb_powers.
Qed.

Lemma prover_short ks p x n : (length p < n)%nat -> ComputeProofMulti ks p x n = Panic.
Proof.
  intros L. unfold ComputeProofMulti. cbv zeta. rewrite xn_divisor. unfold polyLongDiv.
  rewrite app_length, repeat_length. cbn [length]. rewrite (proj2 (Nat.eqb_neq (n + 1) 0)) by lia.
  rewrite (proj2 (Nat.ltb_lt _ _)) by lia. reflexivity.
Qed.

(** ** Panics *)

Lemma gomap_panic {A B} (f : A -> go B) l : (forall a, In a l -> (exists b, f a = Ret b) \/ f a = Panic) ->
  (exists a, In a l /\ f a = Panic) -> gomap f l = Panic.
Proof.
  induction l as [|a l IH]; intros H (x & Hx & E); [destruct Hx|]. cbn [gomap].
  destruct (H a (or_introl eq_refl)) as [(b & Eb)|Ep].
  - rewrite Eb. cbn [bind]. rewrite IH; [reflexivity|intros y Hy; apply H; right; exact Hy|].
    destruct Hx as [->|Hx]; [rewrite Eb in E; discriminate E|]. exists x. split; assumption.
  - rewrite Ep. reflexivity.
Qed.

Lemma goloop_first {S} lo n (body : S -> nat -> go S) s :
  goloop lo (Datatypes.S n) body s = bind (body s lo) (fun s' => goloop (Datatypes.S lo) n body s').
Proof. reflexivity. Qed.

Lemma FK20Multi_panics fs K W s p a b : fs_ok fs K W -> (S (a + b) <= K)%nat -> (1 <= a)%nat -> (1 <= b)%nat ->
  length p = (2 ^ (a + b))%nat -> FK20Multi fs (map (file K W s a (2 ^ b)) (seq 0 (2 ^ b))) (2 ^ b) p = Panic.
Proof.
  intros OK Ha A1 B1 LP. pose proof (pow2_le _ _ Ha) as LE. pose proof (pow2_le 1 b B1) as LB. change (2 ^ 1)%nat with 2%nat in LB.
  pose proof (Nat.pow_nonzero 2 a) as NZ.
  unfold FK20Multi. rewrite LP, (fo_width _ _ _ OK).
  rewrite (proj2 (Nat.ltb_ge (2 ^ K) (2 ^ (a + b) * 2))) by (cbn [Nat.pow] in LE; lia).
  assert (G : sum_files fs (map (file K W s a (2 ^ b)) (seq 0 (2 ^ b))) (2 ^ b) p (2 ^ (a + b) * 2) = Panic); [|rewrite G; reflexivity].
  unfold sum_files. destruct (2 ^ b)%nat as [|l'] eqn:El; [lia|]. rewrite goloop_first. rewrite <- El. cbv beta.
  destruct (one_file fs K W OK s p a (2 ^ b) 0) as (c & hs & Ec & E2 & L & N); [lia|exact A1|lia|rewrite LP; apply Nat.pow_add_r|].
  rewrite Ec. cbn [bind]. rewrite (idx_nth []) by (rewrite map_length, seq_length; lia). cbn [bind].
  rewrite nth_map_seq by lia. cbn [plus]. rewrite E2. cbn [bind].
  rewrite gomap_panic; [reflexivity| |].
  - intros j Hj. apply in_seq in Hj. rewrite (idx_nth ZeroG1) by (rewrite repeat_length; lia). cbn [bind].
    destruct (Nat.lt_ge_cases j (2 ^ S a)) as [Q|Q].
    + left. rewrite (idx_nth ZeroG1) by (rewrite map_length, length_dft; lia). cbn [bind]. eexists. reflexivity.
    + right. rewrite idx_panic by (rewrite map_length, length_dft; lia). reflexivity.
  - assert (Q : (2 ^ S a < 2 ^ (a + b) * 2)%nat).
    { rewrite Nat.pow_add_r. assert (2 ^ a * 2 <= 2 ^ a * 2 ^ b)%nat by (apply Nat.mul_le_mono_l; lia). cbn [Nat.pow]. lia. }
    exists (2 ^ S a)%nat. split; [apply in_seq; lia|].
    rewrite (idx_nth ZeroG1) by (rewrite repeat_length; lia). cbn [bind].
    rewrite idx_panic by (rewrite map_length, length_dft; lia). reflexivity.
Qed.

Lemma one_chunk_coeffs p off : (off < length p)%nat -> toeplitzCoeffsStepStrided p off (length p) = Panic.
Proof.
  intros H. unfold toeplitzCoeffsStepStrided. rewrite (proj2 (Nat.eqb_neq (length p) 0)) by lia.
  rewrite Nat.div_same by lia. rewrite (proj2 (Nat.leb_gt (length p) off)) by exact H.
  rewrite (idx_nth 0) by lia. reflexivity.
Qed.

Lemma one_coeff c : toeplitzCoeffsStep [c] = Panic.
Proof. reflexivity. Qed.
