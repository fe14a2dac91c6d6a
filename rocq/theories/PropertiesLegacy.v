(** C64: the older recovery of missing samples. *)

Require Import ZArith List Bool Arith Lia.
From Verif Require Import Prime Fr CodecModel GoBase Poly PolyModel PolyProofs GroupModel VssModel VssProofs
  FftModel FftProofs FftProofs2 PropertiesFft SampleModel SampleProofs ZeroProofs ZeroProofs2 RecoverProofs PropertiesSample
  LegacyModel LegacyProofs.
Import ListNotations.
Local Open Scope F_scope.

(** ** C64 *)

(** More than four samples are missing, or the missing ones and one more are more than half of all: then all values of
    a polynomial with at most as many coefficients as there are given samples are returned. *)
Theorem c64_recovers k fs j samples c : settings k fs -> (j <= k)%nat -> length samples = (2 ^ j)%nat ->
  (missing_count samples < 2 ^ j)%nat -> (5 <= missing_count samples \/ 2 ^ j < 2 * (missing_count samples + 1))%nat ->
  (length c + missing_count samples <= 2 ^ j)%nat -> given samples (fun i => value c (fpow (root j) i)) ->
  ErasureCodeRecover fs samples = Ret (map (fun i => value c (fpow (root j) i)) (seq 0 (2 ^ j))).
Proof.
  intros S J L M M' Lc G. destruct (settings_ok _ _ S) as (K & O).
  set (q := c ++ repeat 0 (2 ^ j - missing_count samples - length c)).
  assert (Eq : forall x, peval q x = value c x).
  { intros x. unfold q. rewrite peval_app, peval_repeat0, <- value_peval. ring. }
  rewrite (ErasureCodeRecover_ok fs k _ O samples j q J L).
  - rewrite wj_root' by lia. f_equal. apply map_ext. intros i. apply Eq.
  - rewrite missing_count_ok. exact M.
  - rewrite missing_count_ok. lia.
  - rewrite missing_count_ok. unfold q. rewrite app_length, repeat_length. lia.
  - intros i s H. rewrite wj_root' by lia. rewrite Eq. symmetry. apply G. exact H.
Qed.
Print Assumptions c64_recovers.

(** Whatever the given samples are, there is such a polynomial: the error "max attempts reached" is never returned, the
    first attempt succeeds. *)
Theorem c64_never_reports k fs j samples : settings k fs -> (j <= k)%nat -> length samples = (2 ^ j)%nat ->
  (missing_count samples < 2 ^ j)%nat -> (5 <= missing_count samples \/ 2 ^ j < 2 * (missing_count samples + 1))%nat ->
  exists q, length q = (2 ^ j - missing_count samples)%nat /\ given samples (fun i => value q (fpow (root j) i)) /\
    ErasureCodeRecover fs samples = Ret (map (fun i => value q (fpow (root j) i)) (seq 0 (2 ^ j))).
Proof.
  intros S J L M M'. destruct (settings_ok _ _ S) as (K & O).
  assert (P : prim (root j) j) by (apply rootk_prim; lia).
  destruct (samples_interp (root j) j samples P L) as (q & Lq & Hq). exists q. rewrite missing_count_ok in Lq.
  assert (G : given samples (fun i => value q (fpow (root j) i))).
  { intros i s H. rewrite <- value_peval. symmetry. apply Hq. exact H. }
  split; [exact Lq|]. split; [exact G|]. apply (c64_recovers k); try assumption. lia.
Qed.
Print Assumptions c64_never_reports.

(** Where both functions are used as they must be, the older one and the newer one return the same. *)
Theorem c64_same_as_newer k fs j samples : settings k fs -> (j <= k)%nat -> length samples = (2 ^ j)%nat ->
  (1 <= missing_count samples < 2 ^ j)%nat -> (5 <= missing_count samples \/ 2 ^ j < 2 * (missing_count samples + 1))%nat ->
  (missing_count samples <= 63 \/ (missing_count samples + 62) / 63 * 64 <= 2 ^ j)%nat ->
  ErasureCodeRecover fs samples = RecoverPolyFromSamples fs samples (ZeroPolyViaMultiplication fs).
Proof.
  intros S J L M M' M63. destruct (c43_never_reports k fs j samples S J L M M63) as (q & Lq & G & ->).
  apply (c64_recovers k); try assumption; lia.
Qed.
Print Assumptions c64_same_as_newer.

(** The claim that any samples that determine the polynomial are enough fails: when at most four are missing and they
    are, with one more, at most half of all, the process stops. *)
Theorem c64_few_missing_refuted k fs j samples : settings k fs -> (j <= k)%nat -> length samples = (2 ^ j)%nat ->
  (missing_count samples <= 4)%nat -> (2 * (missing_count samples + 1) <= 2 ^ j)%nat ->
  ErasureCodeRecover fs samples = Panic.
Proof.
  intros S J L M M'. destruct (settings_ok _ _ S) as (K & O).
  apply (ErasureCodeRecover_few fs k _ O samples j J L); rewrite missing_count_ok; assumption.
Qed.
Print Assumptions c64_few_missing_refuted.

(** Samples that are all missing are not refused unless the vector has the full width: zeros are returned. *)
Theorem c64_all_missing k fs j samples : settings k fs -> (j <= k)%nat -> length samples = (2 ^ j)%nat ->
  missing_count samples = (2 ^ j)%nat ->
  ErasureCodeRecover fs samples = if (j <? k)%nat then Ret (repeat 0 (2 ^ j)) else Error.
Proof.
  intros S J L M. destruct (settings_ok _ _ S) as (K & O). rewrite <- missing_count_ok in M.
  destruct (Nat.ltb_spec j k) as [Q|Q].
  - apply (ErasureCodeRecover_none fs k _ O); assumption.
  - assert (j = k) by lia. subst j. apply (ErasureCodeRecover_none_full fs k _ O); assumption.
Qed.
Print Assumptions c64_all_missing.

(** No output for a vector longer than the settings allow, nor for an empty one. *)
Theorem c64_refused k fs samples out : settings k fs -> (length samples = 0 \/ 2 ^ k < length samples)%nat ->
  ErasureCodeRecover fs samples <> Ret out.
Proof.
  intros S [L|L]; destruct (settings_ok _ _ S) as (K & O).
  - unfold ErasureCodeRecover. rewrite L. discriminate.
  - apply (ErasureCodeRecover_long fs k _ O). exact L.
Qed.
Print Assumptions c64_refused.

(** Five of eight samples of 2 + 3x missing; the four missing ones of C43 are enough too. *)
Definition demo_five : list (option Fr) :=
  map (fun i => if (i <? 5)%nat then None else Some (value demo_c (fpow (root 3) i))) (seq 0 8).
Example demo_five_ok : length demo_five = (2 ^ 3)%nat /\ (5 <= missing_count demo_five < 2 ^ 3)%nat /\
  (missing_count demo_samples < 2 ^ 3 < 2 * (missing_count demo_samples + 1))%nat.
Proof. cbn. lia. Qed.
Example c64_demo fs : settings 3 fs ->
  ErasureCodeRecover fs demo_samples = Ret (map (fun i => value demo_c (fpow (root 3) i)) (seq 0 8)).
Proof.
  intros S. destruct demo_samples_ok as (L & M & G).
  apply (c64_recovers 3 fs 3 demo_samples demo_c S (le_n 3) L); rewrite ?M; try (cbn; lia). exact G.
Qed.
(** Three of eight missing: the process stops. *)
Example c64_demo_few fs s : settings 3 fs -> ErasureCodeRecover fs [Some s; None; None; Some s; None; Some s; Some s; Some s] = Panic.
Proof. intros S. apply (c64_few_missing_refuted 3 fs 3 _ S); cbn; lia. Qed.
