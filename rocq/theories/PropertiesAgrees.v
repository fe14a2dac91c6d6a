(** C43 and C64: whatever the length of the vector, the settings and the vanishing polynomial, an output of the two
    recoveries agrees with every sample that was given (the comparisons at their ends are there). *)

Require Import ZArith List Bool Arith Lia.
From Verif Require Import Prime Fr CodecModel GoBase GroupModel VssModel VssProofs2 FftModel PropertiesFft SampleModel LegacyModel.
From Verif Require Import PropertiesSample PropertiesLegacy.
Import ListNotations.
Local Open Scope F_scope.

Lemma gomap_each {A B} (f : A -> go B) l l' : gomap f l = Ret l' -> forall a, In a l -> exists b, f a = Ret b.
Proof.
  revert l'. induction l as [|x l IH]; intros l' E a H; [destruct H|]. cbn [gomap] in E. apply bind_ret in E. destruct E as (b & E1 & E). apply bind_ret in E. destruct E as (l2 & E2 & _).
  destruct H as [<-|H]; [exists b; exact E1|exact (IH l2 E2 a H)].
Qed.

(** An output holds all samples that were given, at their places. *)
Definition holds (samples : list (option Fr)) (out : list Fr) : Prop := forall i s, nth i samples None = Some s -> nth_error out i = Some s.

Theorem c43_holds : forall fs samples zero out, RecoverPolyFromSamples fs samples zero = Ret out -> holds samples out.
Proof.
  intros fs samples zero out E i s S. unfold RecoverPolyFromSamples in E. apply bind_ret in E. destruct E as ((ze & zp) & _ & E).
  do 7 (apply bind_ret in E; destruct E as (? & _ & E)). apply bind_ret in E. destruct E as (data & _ & E). apply bind_ret in E. destruct E as (u & EU & E). injection E as <-.
  assert (L : (i < length samples)%nat). { destruct (Nat.lt_ge_cases i (length samples)) as [L|L]; [exact L|]. rewrite nth_overflow in S by exact L. discriminate. }
  destruct (gomap_each _ _ _ EU i) as (b & EB). { apply in_seq. lia. }
  rewrite S in EB. apply bind_ret in EB. destruct EB as (d & ED & EB). destruct (feqb d s) eqn:Q; [|discriminate]. apply feqb_eq in Q. subst d. unfold idx in ED. destruct (nth_error data i); [congruence|discriminate].
Qed.
Print Assumptions c43_holds.

Lemma matches_true : forall vals j output, matches vals j output = Ret true -> forall i s, nth i vals None = Some s -> nth_error output (j + i) = Some s.
Proof.
  induction vals as [|[v|] vals IH]; intros j output E i s SS.
  - destruct i; discriminate.
  - cbn [matches] in E. apply bind_ret in E. destruct E as (o & EO & E). destruct (feqb v o) eqn:Q; [|discriminate]. apply feqb_eq in Q. subst o. destruct i as [|i].
    + cbn [nth] in SS. injection SS as <-. rewrite Nat.add_0_r. unfold idx in EO. destruct (nth_error output j); [congruence|discriminate].
    + cbn [nth] in SS. replace (j + S i)%nat with (S j + i)%nat by lia. exact (IH (S j) output E i s SS).
  - cbn [matches] in E. destruct i as [|i]; [discriminate|]. cbn [nth] in SS. replace (j + S i)%nat with (S j + i)%nat by lia. exact (IH (S j) output E i s SS).
Qed.

Theorem c64_holds : forall fs samples out, ErasureCodeRecover fs samples = Ret out -> holds samples out.
Proof.
  intros fs samples out E. unfold ErasureCodeRecover in E. destruct (_ =? _)%nat; [discriminate|]. do 4 (apply bind_ret in E; destruct E as (? & _ & E)). revert E. generalize (seq 2 10). intros ks. induction ks as [|k ks IH]; intros E; [discriminate|].
  cbn [attempts] in E. apply bind_ret in E. destruct E as (o & EO & E). destruct o as [out'|]; [|exact (IH E)]. injection E as <-.
  unfold attempt in EO. do 6 (apply bind_ret in EO; destruct EO as (? & _ & EO)). apply bind_ret in EO. destruct EO as (ok & EM & EO). destruct ok; [|discriminate]. injection EO as <-.
  intros i s S. exact (matches_true _ _ _ EM i s S).
Qed.
Print Assumptions c64_holds.

(** Both give an output on the samples of PropertiesSample.v, four of eight of which are missing. *)
Example holds_ex fs : settings 3 fs -> exists out, ErasureCodeRecover fs demo_samples = Ret out /\ holds demo_samples out.
Proof. intros S. eexists. pose proof (c64_demo fs S) as E. split; [exact E|]. exact (c64_holds fs _ _ E). Qed.
