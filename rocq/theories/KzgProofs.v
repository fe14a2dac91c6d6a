(** Proofs about KzgModel.v. *)

Require Import ZArith List Lia Bool Arith.
From Verif Require Import Prime Fr CodecModel GoBase Poly PolyModel PolyProofs GroupModel KzgModel Biv.
Import ListNotations.
Local Open Scope F_scope.

(** ** The setup *)

Definition g1powers (s : Fr) (n : nat) : list G1 := map (fun i => mkG1 (fpow s i)) (seq 0 n).
Definition g2powers (s : Fr) (n : nat) : list G2 := map (fun i => mkG2 (fpow s i)) (seq 0 n).

Lemma length_g1powers s n : length (g1powers s n) = n.
Proof. unfold g1powers. rewrite map_length, seq_length. reflexivity. Qed.
Lemma length_g2powers s n : length (g2powers s n) = n.
Proof. unfold g2powers. rewrite map_length, seq_length. reflexivity. Qed.

Lemma setup_correct s n : setup s n = Ret (mkKZG (g1powers s n) (g2powers s n)).
Proof.
  unfold setup. set (o := GenerateTestingSetup s n).
  assert (E : o = (g1powers s n, g2powers s n)).
  { unfold o, GenerateTestingSetup.
    match goal with |- fst (loop 0 n ?b ?s0) = _ => set (body := b); set (st0 := s0) end.
    assert (H : (fun k (st : list G1 * list G2 * Fr) => let '(o1, o2, p) := st in
        length o1 = n /\ length o2 = n /\ p = fpow s k /\
        (forall i, (i < k)%nat -> nth i o1 ZeroG1 = mkG1 (fpow s i)) /\
        (forall i, (i < k)%nat -> nth i o2 ZeroG2 = mkG2 (fpow s i))) (0 + n)%nat (loop 0 n body st0)).
    { apply loop_inv.
      - unfold st0. rewrite !repeat_length. repeat split; intros; lia.
      - intros k [[o1 o2] p] Hk (L1 & L2 & -> & H1 & H2). unfold body.
        rewrite !length_set_nth. repeat split; auto.
        + cbn [fpow Nat.add]. ring.
        + intros i Hi. destruct (Nat.eq_dec i k) as [->|Ne].
          * rewrite nth_set_nth_same by lia. apply G1_ext. simpl. ring.
          * rewrite nth_set_nth_other by lia. apply H1. lia.
        + intros i Hi. destruct (Nat.eq_dec i k) as [->|Ne].
          * rewrite nth_set_nth_same by lia. unfold MulG2. f_equal. simpl. ring.
          * rewrite nth_set_nth_other by lia. apply H2. lia. }
    destruct (loop 0 n body st0) as [[o1 o2] p]. destruct H as (L1 & L2 & _ & H1 & H2).
    cbn [fst]. f_equal.
    - apply (list_ext ZeroG1); [rewrite length_g1powers; exact L1|].
      intros i Hi. rewrite L1 in Hi. rewrite H1 by lia. unfold g1powers.
      rewrite (nth_indep _ ZeroG1 (mkG1 (fpow s 0))) by (rewrite map_length, seq_length; lia).
      rewrite (map_nth (fun i => mkG1 (fpow s i))), seq_nth by lia. reflexivity.
    - apply (list_ext ZeroG2); [rewrite length_g2powers; exact L2|].
      intros i Hi. rewrite L2 in Hi. rewrite H2 by lia. unfold g2powers.
      rewrite (nth_indep _ ZeroG2 (mkG2 (fpow s 0))) by (rewrite map_length, seq_length; lia).
      rewrite (map_nth (fun i => mkG2 (fpow s i))), seq_nth by lia. reflexivity. }
  rewrite E. cbn [fst snd]. unfold NewKZGSettings.
  rewrite length_g1powers, length_g2powers, Nat.eqb_refl. reflexivity.
Qed.

Lemma firstn_seq a n k : (k <= n)%nat -> firstn k (seq a n) = seq a k.
Proof.
  intros H. replace n with (k + (n - k))%nat by lia. rewrite seq_app.
  rewrite firstn_app, seq_length, Nat.sub_diag, firstn_O, app_nil_r.
  apply firstn_all2. rewrite seq_length. lia.
Qed.

Lemma slice_powers s n k : (k <= n)%nat -> slice_to (g1powers s n) k = Ret (g1powers s k).
Proof.
  intros H. unfold slice_to. rewrite length_g1powers. rewrite (proj2 (Nat.leb_le _ _)) by exact H.
  f_equal. unfold g1powers. rewrite firstn_map, firstn_seq by exact H. reflexivity.
Qed.

Lemma dot_powers s p : dot (map dlog1 (g1powers s (length p))) p = peval p s.
Proof.
  rewrite dot_nth; [|unfold g1powers; rewrite !map_length, seq_length; reflexivity].
  rewrite peval_sumn. unfold g1powers. rewrite !map_length, seq_length. apply sumn_ext.
  intros i Hi. rewrite map_map. cbn [dlog1].
  rewrite (nth_indep _ 0 (fpow s 0)) by (rewrite map_length, seq_length; lia).
  rewrite (map_nth (fpow s)), seq_nth by lia. cbn [Nat.add]. ring.
Qed.

Lemma lincomb_powers s p : LinCombG1 (g1powers s (length p)) p = Ret (mkG1 (peval p s)).
Proof.
  rewrite LinCombG1_correct by apply length_g1powers. rewrite dot_powers. reflexivity.
Qed.

(** ** Commitments *)

Section Kzg.
Variables (s : Fr) (n : nat) (ks : KZGSettings).
Hypothesis S : setup s n = Ret ks.

Lemma ks_eq : ks = mkKZG (g1powers s n) (g2powers s n).
Proof. rewrite setup_correct in S. congruence. Qed.

Lemma commit_correct p : (length p <= n)%nat -> CommitToPoly ks p = Ret (mkG1 (peval p s)).
Proof.
  intros H. rewrite ks_eq. unfold CommitToPoly. cbn [SecretG1].
  rewrite slice_powers by exact H. simpl bind. apply lincomb_powers.
Qed.

Lemma commit_too_long p : (n < length p)%nat -> CommitToPoly ks p = Panic.
Proof.
  intros H. rewrite ks_eq. unfold CommitToPoly, slice_to. cbn [SecretG1].
  rewrite length_g1powers. rewrite (proj2 (Nat.leb_gt _ _)) by exact H. reflexivity.
Qed.

Lemma commit_unopt p : CommitToPolyUnoptimized ks p = CommitToPoly ks p.
Proof.
  unfold CommitToPolyUnoptimized.
  replace (SecretG1 ks) with (g1powers s n) by (rewrite ks_eq; reflexivity).
  assert (G : forall k, (k <= length p)%nat -> (k <= n)%nat ->
    goloop 0 k (fun out i => g <- idx (g1powers s n) i ;; Ret (AddG1 out (MulG1 g (nth i p 0)))) ZeroG1
    = Ret (mkG1 (sumn k (fun i => nth i p 0 * fpow s i)))).
  { induction k as [|k IH]; intros H1 H2; [reflexivity|].
    change (Datatypes.S k) with (1 + k)%nat at 1. rewrite goloop_S, IH by lia. simpl bind at 1.
    rewrite (idx_nth ZeroG1) by (rewrite length_g1powers; lia). simpl bind. f_equal.
    apply G1_ext. cbn [AddG1 MulG1 dlog1 sumn]. f_equal. unfold g1powers.
    rewrite (nth_indep _ ZeroG1 (mkG1 (fpow s 0))) by (rewrite map_length, seq_length; lia).
    rewrite (map_nth (fun i => mkG1 (fpow s i))), seq_nth by lia. cbn [dlog1 Nat.add]. ring. }
  destruct (Nat.le_gt_cases (length p) n) as [H|H].
  - rewrite commit_correct by exact H. rewrite G by lia. rewrite peval_sumn. reflexivity.
  - rewrite commit_too_long by exact H.
    assert (P : forall k, (n < k)%nat -> (k <= length p)%nat ->
      goloop 0 k (fun out i => g <- idx (g1powers s n) i ;; Ret (AddG1 out (MulG1 g (nth i p 0)))) ZeroG1
      = Panic).
    { induction k as [|k IH]; intros H1 H2; [lia|].
      change (Datatypes.S k) with (1 + k)%nat. rewrite goloop_S.
      destruct (Nat.eq_dec k n) as [->|Ne].
      - rewrite G by lia. simpl bind at 1. rewrite idx_panic by (rewrite length_g1powers; lia). reflexivity.
      - rewrite IH by lia. reflexivity. }
    apply P; lia.
Qed.

(** ** Single openings *)

Lemma proof_correct p x : p <> [] -> (length p <= n + 1)%nat ->
  ComputeProofSingle ks p x = Ret (mkG1 (peval (fst (sdiv p x)) s)).
Proof.
  intros Hp HL. unfold ComputeProofSingle. rewrite polyLongDiv_linear by exact Hp. simpl bind.
  rewrite ks_eq. cbn [SecretG1]. rewrite slice_powers by (rewrite sdiv_length; lia). simpl bind.
  apply lincomb_powers.
Qed.

Lemma check_correct C w x y : (2 <= n)%nat ->
  CheckProofSingle ks C w x y = Ret (feqb (dlog1 C - y) (dlog1 w * (s - x))).
Proof.
  intros H. unfold CheckProofSingle. rewrite ks_eq. cbn [SecretG2].
  rewrite (idx_nth ZeroG2) by (rewrite length_g2powers; lia). simpl bind. f_equal.
  assert (E : nth 1 (g2powers s n) ZeroG2 = mkG2 s).
  { unfold g2powers.
    rewrite (nth_indep _ ZeroG2 (mkG2 (fpow s 0))) by (rewrite map_length, seq_length; lia).
    rewrite (map_nth (fun i => mkG2 (fpow s i))), seq_nth by lia. cbn [Nat.add fpow]. f_equal. ring. }
  rewrite E. apply eq_true_iff_eq. rewrite PairingsVerify_eq, feqb_eq.
  cbn [SubG1 SubG2 MulG1 MulG2 GenG1 GenG2 dlog1 dlog2].
  replace ((dlog1 C - 1 * y) * 1) with (dlog1 C - y) by ring.
  replace (s - 1 * x) with (s - x) by ring. reflexivity.
Qed.

Lemma check_small C w x y : (n < 2)%nat -> CheckProofSingle ks C w x y = Panic.
Proof.
  intros H. unfold CheckProofSingle. rewrite ks_eq. cbn [SecretG2].
  rewrite idx_panic by (rewrite length_g2powers; lia). reflexivity.
Qed.

(** What acceptance means. *)
Lemma check_iff C w x y : (2 <= n)%nat ->
  (CheckProofSingle ks C w x y = Ret true <-> dlog1 C - y = dlog1 w * (s - x)).
Proof.
  intros H. rewrite check_correct by exact H. split.
  - intros E. injection E as E. apply feqb_eq. exact E.
  - intros E. f_equal. apply feqb_eq. exact E.
Qed.

Lemma kzg_complete p x : (2 <= n)%nat -> p <> [] -> (length p <= n)%nat ->
  exists C w, CommitToPoly ks p = Ret C /\ ComputeProofSingle ks p x = Ret w /\
    CheckProofSingle ks C w x (peval p x) = Ret true.
Proof.
  intros Hn Hp HL. exists (mkG1 (peval p s)), (mkG1 (peval (fst (sdiv p x)) s)).
  rewrite commit_correct, proof_correct by (auto; lia). repeat split.
  apply check_iff; [exact Hn|]. cbn [dlog1]. rewrite (sdiv_eval p x s) at 1. ring.
Qed.

(** ** Linearity *)

Lemma commit_linear a p b q : (length p <= n)%nat -> (length q <= n)%nat ->
  exists Cp Cq, CommitToPoly ks p = Ret Cp /\ CommitToPoly ks q = Ret Cq /\
    CommitToPoly ks (padd (pscale a p) (pscale b q)) = Ret (AddG1 (MulG1 Cp a) (MulG1 Cq b)).
Proof.
  intros Hp Hq. exists (mkG1 (peval p s)), (mkG1 (peval q s)).
  rewrite !commit_correct; auto.
  - repeat split. f_equal. apply G1_ext. cbn [AddG1 MulG1 dlog1].
    rewrite peval_padd, !peval_pscale. ring.
  - rewrite length_padd, !length_pscale. lia.
Qed.

Lemma sdiv_padd x : forall p q, length p = length q ->
  sdiv (padd p q) x = (padd (fst (sdiv p x)) (fst (sdiv q x)), snd (sdiv p x) + snd (sdiv q x)).
Proof.
  intros p q L. apply injective_projections; cbn [fst snd].
  - apply (list_ext 0).
    + rewrite length_padd, !sdiv_length, length_padd. lia.
    + intros i Hi. rewrite sdiv_length, length_padd in Hi.
      rewrite nth_padd, !nth_sdiv by (try rewrite length_padd; lia).
      rewrite <- peval_padd. apply peval_ext. intros j.
      rewrite nth_padd, !nth_skipn, nth_padd. reflexivity.
  - rewrite !sdiv_rem. apply peval_padd.
Qed.

Lemma sdiv_pscale x c p : sdiv (pscale c p) x = (pscale c (fst (sdiv p x)), c * snd (sdiv p x)).
Proof.
  apply injective_projections; cbn [fst snd].
  - apply (list_ext 0).
    + rewrite length_pscale, !sdiv_length, length_pscale. lia.
    + intros i Hi. rewrite sdiv_length, length_pscale in Hi.
      rewrite nth_pscale, !nth_sdiv by (try rewrite length_pscale; lia).
      rewrite <- peval_pscale. apply peval_ext. intros j.
      rewrite nth_pscale, !nth_skipn, nth_pscale. reflexivity.
  - rewrite !sdiv_rem. apply peval_pscale.
Qed.

Lemma proof_linear a p b q x : p <> [] -> length p = length q -> (length p <= n)%nat ->
  exists wp wq, ComputeProofSingle ks p x = Ret wp /\ ComputeProofSingle ks q x = Ret wq /\
    ComputeProofSingle ks (padd (pscale a p) (pscale b q)) x = Ret (AddG1 (MulG1 wp a) (MulG1 wq b)).
Proof.
  intros Hp L Hn. exists (mkG1 (peval (fst (sdiv p x)) s)), (mkG1 (peval (fst (sdiv q x)) s)).
  assert (Hq : q <> []) by (destruct p, q; try discriminate; congruence).
  rewrite !proof_correct; auto; try lia.
  - repeat split. f_equal. apply G1_ext. cbn [AddG1 MulG1 dlog1].
    rewrite sdiv_padd by (rewrite !length_pscale; exact L). cbn [fst].
    rewrite !sdiv_pscale. cbn [fst]. rewrite peval_padd, !peval_pscale. ring.
  - intros E. apply (f_equal (@length Fr)) in E. rewrite length_padd, !length_pscale in E.
    rewrite <- L, Nat.max_id in E. destruct p; [congruence|discriminate].
  - rewrite length_padd, !length_pscale. lia.
Qed.

(** Accepted openings combine, whoever made them. *)
Lemma check_linear C1 w1 y1 C2 w2 y2 a b x : (2 <= n)%nat ->
  CheckProofSingle ks C1 w1 x y1 = Ret true -> CheckProofSingle ks C2 w2 x y2 = Ret true ->
  CheckProofSingle ks (AddG1 (MulG1 C1 a) (MulG1 C2 b)) (AddG1 (MulG1 w1 a) (MulG1 w2 b)) x
    (y1 * a + y2 * b) = Ret true.
Proof.
  intros Hn. rewrite !check_iff by exact Hn. intros H1 H2. cbn [AddG1 MulG1 dlog1].
  replace (dlog1 C1 * a + dlog1 C2 * b - (y1 * a + y2 * b))
    with ((dlog1 C1 - y1) * a + (dlog1 C2 - y2) * b) by ring.
  rewrite H1, H2. ring.
Qed.

(** ** Binding *)

(** Two openings of one commitment at one point: the SDH solution g^(1/(s-x)) is computed from
    them with group operations. *)
Lemma binding C w1 w2 x y1 y2 : (2 <= n)%nat ->
  CheckProofSingle ks C w1 x y1 = Ret true -> CheckProofSingle ks C w2 x y2 = Ret true ->
  y1 <> y2 -> s <> x /\ MulG1 (SubG1 w1 w2) (finv (y2 - y1)) = MulG1 GenG1 (finv (s - x)).
Proof.
  intros Hn. rewrite !check_iff by exact Hn. intros H1 H2 Ne.
  assert (D : y2 - y1 = (dlog1 w1 - dlog1 w2) * (s - x)).
  { replace (y2 - y1) with ((dlog1 C - y1) - (dlog1 C - y2)) by ring. rewrite H1, H2. ring. }
  assert (NY : y2 - y1 <> 0) by (apply (proj1 (fsub_neq_0 _ _)); congruence).
  assert (NX : s - x <> 0).
  { intros E. rewrite E in D. apply NY. rewrite D. ring. }
  split.
  - apply (proj2 (fsub_neq_0 _ _)). exact NX.
  - apply G1_ext. cbn [MulG1 SubG1 GenG1 dlog1]. apply (fmul_cancel_l (y2 - y1)); [exact NY|].
    transitivity (dlog1 w1 - dlog1 w2).
    + field. exact NY.
    + rewrite D. field. exact NX.
Qed.

(** A prover that knows the polynomials behind the commitment and the proof and gets a wrong
    value accepted knows a non-zero polynomial of degree at most n that has the secret as a root. *)
Lemma binding_poly p q x y C w : (2 <= n)%nat -> (Z.of_nat n < r)%Z ->
  (length p <= n)%nat -> (length q <= n)%nat ->
  CommitToPoly ks p = Ret C -> CommitToPoly ks q = Ret w ->
  CheckProofSingle ks C w x y = Ret true -> y <> peval p x ->
  let f := psub (psub p [y]) (pmul [0 - x; 1] q) in
  peval f s = 0 /\ ~ zero_list f /\ (length f <= n + 1)%nat.
Proof.
  intros Hn Hr Lp Lq. rewrite !commit_correct by assumption.
  intros EC EW. injection EC as <-. injection EW as <-. rewrite check_iff by exact Hn.
  cbn [dlog1]. intros H Ne. split; [|split].
  - rewrite !peval_psub, peval_pmul. cbn [peval]. replace (peval p s - (y + s * 0)) with (peval p s - y) by ring.
    rewrite H. ring.
  - intros Z. apply Ne. apply (peval_zero_list _ x) in Z.
    rewrite !peval_psub, peval_pmul in Z. cbn [peval] in Z. symmetry. apply (proj1 (fsub_eq_0 _ _)).
    rewrite <- Z. ring.
  - rewrite !length_psub. destruct q as [|c q].
    + simpl. lia.
    + rewrite length_pmul by discriminate. simpl in *. lia.
Qed.

(** For each value exactly one proof element is accepted (x different from the secret). *)
Lemma forge C x y w : (2 <= n)%nat -> x <> s ->
  (CheckProofSingle ks C w x y = Ret true <->
   w = MulG1 (SubG1 C (MulG1 GenG1 y)) (finv (s - x))).
Proof.
  intros Hn Nx. rewrite check_iff by exact Hn.
  assert (NX : s - x <> 0) by (apply (proj1 (fsub_neq_0 _ _)); congruence).
  split.
  - intros E. apply G1_ext. cbn [MulG1 SubG1 GenG1 dlog1].
    replace (dlog1 C - 1 * y) with (dlog1 C - y) by ring. rewrite E. field. exact NX.
  - intros ->. cbn [MulG1 SubG1 GenG1 dlog1]. field. exact NX.
Qed.

(** At the secret itself the proof does not matter. *)
Lemma check_at_secret C w y : (2 <= n)%nat ->
  (CheckProofSingle ks C w s y = Ret true <-> C = MulG1 GenG1 y).
Proof.
  intros Hn. rewrite check_iff by exact Hn. split.
  - intros E. apply G1_ext. cbn [MulG1 GenG1 dlog1]. apply (proj1 (fsub_eq_0 _ _)).
    replace (dlog1 C - 1 * y) with (dlog1 C - y) by ring. rewrite E. ring.
  - intros ->. cbn [MulG1 GenG1 dlog1]. ring.
Qed.
End Kzg.

(** ** Interpolation in the exponent *)

Lemma map_dlog_mk {A} (f : A -> Fr) l : map dlog1 (map (fun a => mkG1 (f a)) l) = map f l.
Proof. rewrite map_map. reflexivity. Qed.

Lemma known_eq d : map (fun j => of_nat (j + 1)) (seq 0 (d + 1)) = map of_nat (seq 1 (d + 1)).
Proof. rewrite <- seq_shift, map_map. apply map_ext. intros i. f_equal. lia. Qed.

Lemma known_nodup d : (Z.of_nat (d + 2) <= r)%Z ->
  NoDup (map (fun j => of_nat (j + 1)) (seq 0 (d + 1))).
Proof. intros H. rewrite known_eq. apply NoDup_of_nat_from. lia. Qed.

(** [c] is the polynomial in the exponent; the list holds its values at 1..d+1. *)
Lemma InterpolateComOrWit_correct F tab N d t c :
  LagrangeTable N F = Ret tab -> (3 * F + 1 <= N)%nat -> (Z.of_nat (d + 2) <= r)%Z ->
  (length c <= d + 1)%nat ->
  InterpolateComOrWit F tab d t (map (fun j => mkG1 (peval c (of_nat j))) (seq 1 (d + 1))) =
  Ret (mkG1 (peval c (of_nat t))).
Proof.
  intros T HN Hr Lc. unfold InterpolateComOrWit.
  set (L := map (fun j => mkG1 (peval c (of_nat j))) (seq 1 (d + 1))).
  assert (LL : length L = (d + 1)%nat) by (unfold L; rewrite map_length, seq_length; reflexivity).
  assert (CI : copy_into (repeat ZeroG1 (d + 1)) L = L).
  { unfold copy_into. rewrite repeat_length, <- LL at 1. rewrite firstn_all.
    rewrite skipn_all2 by (rewrite repeat_length; lia). apply app_nil_r. }
  rewrite CI.
  set (K := map (fun j => of_nat (j + 1)) (seq 0 (d + 1))).
  assert (LK : length K = (d + 1)%nat) by (unfold K; rewrite map_length, seq_length; reflexivity).
  assert (NK : NoDup K) by (apply known_nodup; exact Hr).
  assert (DL : map dlog1 L = map (peval c) K).
  { unfold L, K. rewrite map_dlog_mk, map_map, <- seq_shift, map_map. apply map_ext.
    intros j. do 2 f_equal. lia. }
  destruct ((0 <? t) && (t <=? d + 1))%nat eqn:E1.
  - apply andb_true_iff in E1. rewrite Nat.ltb_lt, Nat.leb_le in E1.
    rewrite (idx_nth ZeroG1) by lia. f_equal. unfold L.
    rewrite (nth_indep _ ZeroG1 (mkG1 (peval c (of_nat 0)))) by (rewrite map_length, seq_length; lia).
    rewrite (map_nth (fun j => mkG1 (peval c (of_nat j)))), seq_nth by lia.
    do 3 f_equal. lia.
  - destruct ((t <=? 3 * F + 1) && (d =? 2 * F))%nat eqn:E2.
    + apply andb_true_iff in E2. rewrite Nat.leb_le, Nat.eqb_eq in E2. destruct E2 as (Ht & ->).
      rewrite LagrangeTable_correct in T. injection T as <-.
      unfold idx. rewrite nth_error_map.
      rewrite (nth_error_nth' (seq 0 (N + 1)) O) by (rewrite seq_length; lia).
      rewrite seq_nth by lia. cbn [option_map Nat.add bind].
      rewrite LinCombG1_correct by (rewrite LL, map_length, seq_length; lia).
      rewrite DL. do 2 f_equal. rewrite dot_comm.
      destruct (GetLagrangeCoefficients_apply (2 * F) K (of_nat t) (repeat 0 (2 * F + 1)) c)
        as (l & El & _ & D); auto; [apply repeat_length|].
      rewrite GetLagrangeCoefficients_correct in El by (try exact LK; apply repeat_length).
      injection El as <-. exact D.
    + destruct (GetLagrangeCoefficients_apply d K (of_nat t) (repeat 0 (d + 1)) c)
        as (l & El & Ll & D); auto; [apply repeat_length|].
      fold K. rewrite El. cbn [bind]. rewrite LinCombG1_correct by lia.
      rewrite DL, dot_comm, D. reflexivity.
Qed.

Lemma is_simple_spec K n i : (i + n <= length K)%nat ->
  exists b, is_simple K i n = Ret b /\
    (b = true -> forall j, (i <= j < i + n)%nat -> nth j K 0 = of_nat (j + 1)).
Proof.
  revert i. induction n as [|n IH]; intros i H; cbn [is_simple].
  - exists true. split; [reflexivity|]. intros _ j Hj. lia.
  - rewrite (idx_nth 0) by lia. cbn [bind]. destruct (feqb (nth i K 0) (of_nat (i + 1))) eqn:E.
    + apply feqb_eq in E. destruct (IH (i + 1)%nat) as (b & Eb & Hb); [lia|].
      exists b. split; [exact Eb|]. intros Hb1 j Hj. destruct (Nat.eq_dec j i) as [->|Ne]; [exact E|].
      apply Hb; [exact Hb1|lia].
    + exists false. split; [reflexivity|discriminate].
Qed.

Lemma InterpolateByKnownIndexes_correct F tab N d t c K :
  LagrangeTable N F = Ret tab -> (3 * F + 1 <= N)%nat -> (Z.of_nat (d + 2) <= r)%Z ->
  (length c <= d + 1)%nat -> length K = (d + 1)%nat -> NoDup K ->
  InterpolateComOrWitByKnownIndexes F tab d t K (map (fun k => mkG1 (peval c k)) K) =
  Ret (mkG1 (peval c (of_nat t))).
Proof.
  intros T HN Hr Lc LK NK. unfold InterpolateComOrWitByKnownIndexes.
  destruct (is_simple_spec K (d + 1) 0) as (b & -> & Hb); [lia|]. cbn [bind]. destruct b.
  - assert (E : map (fun k => mkG1 (peval c k)) K = map (fun j => mkG1 (peval c (of_nat j))) (seq 1 (d + 1))).
    { assert (EK : K = map of_nat (seq 1 (d + 1))).
      { apply (list_ext 0); [rewrite map_length, seq_length; exact LK|].
        intros i Hi. rewrite Hb by (auto; lia).
        rewrite (nth_indep _ 0 (of_nat 0)) by (rewrite map_length, seq_length; lia).
        rewrite map_nth, seq_nth by lia. f_equal. lia. }
      rewrite EK, map_map. reflexivity. }
    rewrite E. apply (InterpolateComOrWit_correct F tab N); assumption.
  - destruct (GetLagrangeCoefficients_apply d K (of_nat t) (repeat 0 (d + 1)) c)
        as (l & El & Ll & D); auto; [apply repeat_length|].
    rewrite El. cbn [bind]. rewrite LinCombG1_correct by (rewrite map_length; lia).
    rewrite map_dlog_mk, dot_comm, D. reflexivity.
Qed.

(** The commitments (or witnesses) of the sections of a bivariate polynomial. *)
Lemma commit_section s n ks dx dy B y : setup s n = Ret ks -> bdeg dx dy B -> (S dx <= n)%nat ->
  CommitToPoly ks (secy B y) = Ret (mkG1 (peval (secx B s) y)).
Proof.
  intros S HB Hn. rewrite (commit_correct s n ks S) by (rewrite (length_secy dx dy) by exact HB; lia).
  rewrite peval_secy, peval_secx. reflexivity.
Qed.

Lemma sdiv_secy dx dy B y x : bdeg dx dy B ->
  forall s, peval (fst (sdiv (secy B y) x)) s = peval (map (fun row => peval (fst (sdiv row x)) s) B) y.
Proof.
  intros (_ & H) s. induction B as [|row B IH]; [reflexivity|].
  inversion H as [|? ? Hr HB]; subst. cbn [secy map peval]. rewrite <- IH by exact HB.
  pose proof (length_secy_le dx B y HB) as L.
  set (T := secy B y) in *. clearbody T. clear IH H.
  set (T' := T ++ repeat 0 (S dx - length T)).
  assert (LT : length T' = S dx) by (unfold T'; rewrite app_length, repeat_length; lia).
  assert (E : padd row (pscale y T) = padd row (pscale y T')).
  { apply (list_ext 0).
    - rewrite !length_padd, !length_pscale. lia.
    - intros i _. rewrite !nth_padd, !nth_pscale. do 2 f_equal. unfold T'.
      destruct (Nat.lt_ge_cases i (length T)).
      + rewrite app_nth1 by lia. reflexivity.
      + rewrite app_nth2, nth_repeat0 by lia. apply nth_overflow. lia. }
  rewrite E, sdiv_padd by (rewrite length_pscale; lia). cbn [fst].
  rewrite sdiv_pscale. cbn [fst]. rewrite peval_padd, peval_pscale. do 2 f_equal.
  destruct T as [|t T].
  - unfold T'. cbn [app sdiv fst peval]. apply peval_zero_list. apply Forall_forall. intros a I.
    apply (In_nth _ a 0) in I. destruct I as (i & Hi & <-). rewrite sdiv_length in Hi.
    rewrite nth_sdiv by lia. apply peval_zero_list. apply Forall_forall. intros b I.
    apply (In_nth _ b 0) in I. destruct I as (j & Hj & <-). rewrite nth_skipn. apply nth_repeat0.
  - apply peval_ext. intros i.
    destruct (Nat.lt_ge_cases i (S dx - 1)).
    + rewrite nth_sdiv by lia.
      destruct (Nat.lt_ge_cases i (length (t :: T) - 1)).
      * rewrite nth_sdiv by lia. apply peval_ext. intros j. rewrite !nth_skipn. unfold T'.
        destruct (Nat.lt_ge_cases (S i + j) (length (t :: T))).
        -- rewrite app_nth1 by lia. reflexivity.
        -- rewrite app_nth2, nth_repeat0 by lia. rewrite nth_overflow by lia. reflexivity.
      * rewrite (nth_overflow (fst (sdiv (t :: T) x))) by (rewrite sdiv_length; lia).
        apply peval_zero_list. apply Forall_forall. intros b I.
        apply (In_nth _ b 0) in I. destruct I as (j & Hj & <-). rewrite nth_skipn. unfold T'.
        rewrite app_nth2 by lia. apply nth_repeat0.
    + rewrite !nth_overflow; [reflexivity| |]; rewrite sdiv_length; lia.
Qed.

Lemma witness_section s n ks dx dy B y x : setup s n = Ret ks -> bdeg dx dy B -> (S dx <= n)%nat ->
  ComputeProofSingle ks (secy B y) x =
  Ret (mkG1 (peval (map (fun row => peval (fst (sdiv row x)) s) B) y)).
Proof.
  intros S HB Hn. rewrite (proof_correct s n ks S).
  - rewrite (sdiv_secy dx dy) by exact HB. reflexivity.
  - intros E. pose proof (length_secy dx dy B y HB) as L. rewrite E in L. discriminate.
  - rewrite (length_secy dx dy) by exact HB. lia.
Qed.
