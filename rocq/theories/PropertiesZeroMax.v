(** C42, C43: no missing index, and more missing indexes than fit into the settings (zero_poly.go:120-221,
    recover_from_samples.go:45-112). *)

Require Import ZArith List Bool Arith Lia.
From Verif Require Import Prime Fr CodecModel GoBase Poly PolyModel PolyProofs GroupModel VssModel VssProofs
  FftModel FftProofs FftProofs2 PropertiesFft SampleModel SampleProofs ZeroProofs ZeroProofs2 ZeroProofs3 RecoverProofs PropertiesSample.
Import ListNotations.
Local Open Scope F_scope.

(** Without missing indexes both results are zero, for all settings and every length. *)
Theorem c42_empty : forall fs n, exists ze zp, ZeroPolyViaMultiplication fs [] n = Ret (ze, zp) /\
  length ze = n /\ length zp = n /\ (forall x, value zp x = 0) /\ forall i, nth i ze 0 = 0.
Proof.
  intros fs n. exists (repeat 0 n), (repeat 0 n). split; [reflexivity|]. rewrite repeat_length. split; [reflexivity|]. split; [reflexivity|]. split.
  - intros x. rewrite <- value_peval. apply peval_repeat0.
  - intros i. apply nth_repeat.
Qed.
Print Assumptions c42_empty.

(** If the leaves, each of 64 entries for up to 63 indexes, do not fit into the settings the process stops, although
    there are indexes that are not missing. *)
Theorem c42_too_many : forall k fs missing, settings k fs -> (forall v, In v missing -> (v < 2 ^ k)%nat) ->
  (63 < length missing <= 2 ^ k)%nat -> (2 ^ k < (length missing + 62) / 63 * 64)%nat ->
  ZeroPolyViaMultiplication fs missing (2 ^ k) = Panic.
Proof. intros k fs missing S V (M1 & M2) O. destruct (settings_ok _ _ S) as (K & FO). exact (ZeroPoly_over fs k _ FO missing V M1 M2 O). Qed.
Print Assumptions c42_too_many.

(** Then the recovery of the samples stops the process too, with as many samples given as are left. *)
Theorem c43_too_many : forall k fs samples, settings k fs -> length samples = (2 ^ k)%nat ->
  (63 < missing_count samples)%nat -> (2 ^ k < (missing_count samples + 62) / 63 * 64)%nat ->
  RecoverPolyFromSamples fs samples (ZeroPolyViaMultiplication fs) = Panic.
Proof.
  intros k fs samples S L M O. unfold RecoverPolyFromSamples. rewrite L.
  rewrite (c42_too_many k fs (missing_of samples) S); [reflexivity| | |].
  - intros v Hv. apply in_missing in Hv. lia.
  - rewrite missing_count_ok. split; [exact M|]. rewrite <- missing_count_ok.
    rewrite <- (seq_length (2 ^ k) 0). apply NoDup_incl_length; [unfold missing_of; apply NoDup_filter, seq_NoDup|]. intros v Hv. apply in_missing in Hv. apply in_seq. lia.
  - rewrite missing_count_ok. exact O.
Qed.
Print Assumptions c43_too_many.

(** 127 of 128 samples missing: three leaves of 64 entries do not fit into 128. *)
Definition one_left : list (option Fr) := Some 1 :: repeat None 127.
Example demo_too_many : exists fs, settings 7 fs /\ ZeroPolyViaMultiplication fs (seq 1 127) 128 = Panic /\
  RecoverPolyFromSamples fs one_left (ZeroPolyViaMultiplication fs) = Panic.
Proof.
  destruct (c38_settings 7 ltac:(lia)) as (fs & S). exists fs. split; [exact S|]. split.
  - apply (c42_too_many 7 fs); [exact S| | |]; change (2 ^ 7)%nat with 128%nat.
    + intros v Hv. apply in_seq in Hv. lia.
    + rewrite seq_length. lia.
    + rewrite seq_length. apply Nat.ltb_lt. reflexivity.
  - apply (c43_too_many 7 fs); [exact S|reflexivity| |]; apply Nat.ltb_lt; reflexivity.
Qed.
