(** What holds in every execution of the recover stage, whatever is delivered: counts of votes, input of the
    agreement, polynomials not recovered yet. *)

Require Import ZArith List Lia Bool Arith Permutation.
From Verif Require Import Prime Fr Bytes CodecModel CodecProofs GoBase Poly Biv BivProofs PolyModel PolyProofs
  GroupModel KzgModel KzgProofs PartyModel PartySpec VssModel VssProofs VssProofs2 ReduceModel ReduceProofs
  ProacModel ProacProofs ProacRun.
Import ListNotations.
Local Open Scope F_scope.

Section Sig.
Variables (cd : g1codec) (p : Party).
Variables (sign : nat -> list Z) (sigok : nat -> list Z -> bool) (combine : nat -> list (list Z) -> list Z).
Notation F := (p_F p).
Notation N := (p_N p).

Definition sinv (st : pst) : Prop :=
  (length (s_SRec st) = (N + 1)%nat /\ length (s_SSig st) = (N + 1)%nat /\ length (s_Comb st) = (N + 1)%nat /\
   length (s_flgRec st) = (N + 1)%nat /\ length (s_Q st) = (N + 1)%nat) /\
  (forall k, length (nth k (s_SSig st) []) = length (nth k (s_SRec st) [])) /\
  (forall k, nth k (s_Comb st) None <> None <-> (2 * F + 1 <= length (nth k (s_SSig st) []))%nat) /\
  NoDup (map fst (s_MVBAIn st)) /\
  (forall k, In k (map fst (s_MVBAIn st)) <-> nth k (s_Comb st) None <> None) /\
  (s_MVBASent st = true <-> (F + 1 <= length (s_MVBAIn st))%nat) /\
  (forall k, (k <= N)%nat -> k <> (p_PID p + 1)%nat -> nth k (s_flgRec st) false = false ->
     nth k (s_Q st) [] = repeat 0 (F + 1)) /\
  (forall k, nth k (s_flgRec st) false = true <-> (F + 1 <= length (nth k (s_SRec st) []))%nat).

(** The invariant without the equality of the two counts for one dealer: between the two halves of a
    handler. *)
Lemma handle_sinv st x st' : sinv st -> handle sigok combine p st x = Ret st' -> sinv st'.
Proof.
  intros I E. unfold handle in E. apply bind_ret in E. destruct E as (ok & _ & E).
  apply bind_ret in E. destruct E as (st2 & E2 & E).
  assert (I2 : sinv st2).
  { destruct ok; [|injection E2 as <-; exact I].
    apply bind_ret in E2. destruct E2 as (st1 & E1 & E2). clear E.
    destruct I as ((L1 & L2 & L3 & L4 & L5) & S1 & S2 & S3 & S4 & S5 & S6 & S7).
    set (k := ro_k x) in *.
    unfold add_point in E1. fold k in E1. apply bind_ret in E1. destruct E1 as (old & Eo & E1).
    pose proof (idx_Ret _ _ _ Eo) as (Lk & Ho). rewrite L1 in Lk.
    rewrite (idx_nth []) in Eo by lia. injection Eo as <-.
    set (rec := nth k (s_SRec st) [] ++ _) in E1.
    assert (LR : length rec = (length (nth k (s_SRec st) []) + 1)%nat) by (unfold rec; rewrite app_length; reflexivity).
    assert (P1 : s_SRec st1 = set_nth k rec (s_SRec st) /\ s_SSig st1 = s_SSig st /\ s_Comb st1 = s_Comb st /\
      s_MVBAIn st1 = s_MVBAIn st /\ s_MVBASent st1 = s_MVBASent st /\ length (s_flgRec st1) = (N + 1)%nat /\
      length (s_Q st1) = (N + 1)%nat /\
      (forall k', (k' <= N)%nat -> k' <> (p_PID p + 1)%nat -> nth k' (s_flgRec st1) false = false ->
         nth k' (s_Q st1) [] = repeat 0 (F + 1)) /\
      (forall k', nth k' (s_flgRec st1) false = true <-> (F + 1 <= length (nth k' (s_SRec st1) []))%nat)).
    { destruct (nth k (s_flgRec st) false) eqn:EF; cbn [negb andb] in E1.
      - injection E1 as <-. cbn [s_SRec s_SSig s_Comb s_MVBAIn s_MVBASent s_flgRec s_Q].
        repeat (split; [solve [auto]|]). intros k'. destruct (Nat.eq_dec k k') as [<-|Ne].
        + rewrite nth_set_nth_same by lia. rewrite EF. pose proof (proj1 (S7 k) EF). split; [lia|auto].
        + rewrite nth_set_nth_other by exact Ne. apply S7.
      - destruct (Nat.leb_spec (F + 1) (length rec)) as [G|G].
        + apply bind_ret in E1. destruct E1 as (q & _ & E1). injection E1 as <-.
          cbn [s_SRec s_SSig s_Comb s_MVBAIn s_MVBASent s_flgRec s_Q]. rewrite !length_set_nth.
          repeat (split; [solve [auto]|]). split.
          * intros k' Hk' Hp Hf. destruct (Nat.eq_dec k k') as [<-|Ne].
            -- rewrite nth_set_nth_same in Hf by lia. discriminate.
            -- rewrite nth_set_nth_other in Hf by exact Ne. rewrite nth_set_nth_other by exact Ne. auto.
          * intros k'. destruct (Nat.eq_dec k k') as [<-|Ne].
            -- rewrite !nth_set_nth_same by lia. split; [intros _; exact G|reflexivity].
            -- rewrite !nth_set_nth_other by exact Ne. apply S7.
        + injection E1 as <-. cbn [s_SRec s_SSig s_Comb s_MVBAIn s_MVBASent s_flgRec s_Q].
          repeat (split; [solve [auto]|]). intros k'. destruct (Nat.eq_dec k k') as [<-|Ne].
          * rewrite nth_set_nth_same by lia. rewrite EF. split; [discriminate|lia].
          * rewrite nth_set_nth_other by exact Ne. apply S7. }
    clear E1. destruct P1 as (P1 & P2 & P3 & P4 & P5 & P6 & P7 & P8 & P9).
    unfold add_sig in E2. fold k in E2. rewrite P2 in E2. rewrite (idx_nth []) in E2 by lia. cbn [bind] in E2.
    set (sigs := nth k (s_SSig st) [] ++ _) in E2.
    assert (LS : length sigs = (length (nth k (s_SSig st) []) + 1)%nat) by (unfold sigs; rewrite app_length; reflexivity).
    assert (CNT : forall k', length (nth k' (set_nth k sigs (s_SSig st)) []) = length (nth k' (s_SRec st1) [])).
    { intros k'. rewrite P1. destruct (Nat.eq_dec k k') as [<-|Ne].
      - rewrite !nth_set_nth_same by lia. rewrite LS, LR, S1. reflexivity.
      - rewrite !nth_set_nth_other by exact Ne. apply S1. }
    rewrite P3, P4, P5 in E2.
    assert (LS1 : length (s_SRec st1) = (N + 1)%nat) by (rewrite P1, length_set_nth; exact L1).
    destruct (nth k (s_Comb st) None) as [sg|] eqn:EC; cbn [negb andb] in E2.
    - injection E2 as <-. unfold sinv. cbn [s_SRec s_SSig s_Comb s_MVBAIn s_MVBASent s_flgRec s_Q].
      rewrite length_set_nth. split; [auto|]. split; [exact CNT|]. split; [|repeat (split; [solve [auto]|]); auto].
      intros k'. destruct (Nat.eq_dec k k') as [<-|Ne].
      + rewrite nth_set_nth_same by lia. rewrite S2, LS. pose proof (proj1 (S2 k)) as X. rewrite EC in X.
        specialize (X ltac:(discriminate)). lia.
      + rewrite nth_set_nth_other by exact Ne. apply S2.
    - assert (SMALL : (length (nth k (s_SSig st) []) <= 2 * F)%nat).
      { destruct (Nat.le_gt_cases (2 * F + 1) (length (nth k (s_SSig st) []))) as [X|X]; [|lia].
        apply S2 in X. congruence. }
      destruct (Nat.leb_spec (2 * F + 1) (length sigs)) as [G|G].
      + injection E2 as <-. unfold sinv. cbn [s_SRec s_SSig s_Comb s_MVBAIn s_MVBASent s_flgRec s_Q].
        rewrite !length_set_nth. split; [auto|]. split; [exact CNT|]. split; [|split; [|split; [|split; [|auto]]]].
        * intros k'. destruct (Nat.eq_dec k k') as [<-|Ne].
          -- rewrite !nth_set_nth_same by lia. split; [intros _; exact G|intros _; discriminate].
          -- rewrite !nth_set_nth_other by exact Ne. apply S2.
        * rewrite map_app. apply NoDup_snoc; [exact S3|]. cbn [fst]. intros Hin. apply S4 in Hin. congruence.
        * intros k'. rewrite map_app, in_app_iff, S4. cbn [map In fst]. destruct (Nat.eq_dec k k') as [<-|Ne].
          -- rewrite nth_set_nth_same by lia. split; [intros _; discriminate|auto].
          -- rewrite nth_set_nth_other by exact Ne. tauto.
        * rewrite app_length. cbn [length]. rewrite orb_true_iff, S5, andb_true_iff, negb_true_iff, Nat.leb_le.
          split; [lia|]. intros X. destruct (s_MVBASent st) eqn:EM; [left; apply S5; reflexivity|right; auto].
      + injection E2 as <-. unfold sinv. cbn [s_SRec s_SSig s_Comb s_MVBAIn s_MVBASent s_flgRec s_Q].
        rewrite length_set_nth. split; [auto|]. split; [exact CNT|]. split; [|repeat (split; [solve [auto]|]); auto].
        intros k'. destruct (Nat.eq_dec k k') as [<-|Ne].
        * rewrite nth_set_nth_same by lia. rewrite EC. split; [congruence|lia].
        * rewrite nth_set_nth_other by exact Ne. apply S2. }
  injection E as <-. destruct (s_MVBASent st2) eqn:EM; [|exact I2].
  unfold sinv in *. cbn [s_SRec s_SSig s_Comb s_MVBAIn s_MVBASent s_flgRec s_Q]. rewrite EM in I2. exact I2.
Qed.

Lemma pstep_sinv st e st' ms : sinv st -> pstep cd sign sigok combine p st e = Ret (st', ms) -> sinv st'.
Proof.
  intros I E. destruct e; cbn [pstep] in E.
  - apply bind_ret in E. destruct E as (st1 & E1 & E). injection E as <- _. unfold do_commit in E1.
    destruct (_ || _); [injection E1 as <-; exact I|].
    apply bind_ret in E1. destruct E1 as (row & _ & E1). apply bind_ret in E1. destruct E1 as ((ok & row') & _ & E1).
    apply bind_ret in E1. destruct E1 as (CQ & _ & E1). injection E1 as <-. exact I.
  - apply bind_ret in E. destruct E as (st1 & E1 & E). injection E as <- _. exact I.
  - apply bind_ret in E. destruct E as (st1 & E1 & E). injection E as <- _. unfold do_recv in E1.
    destruct (s_hold st); [injection E1 as <-; exact I|].
    apply bind_ret in E1. destruct E1 as (w & _ & E1). destruct (_ <? _)%Z; [discriminate|].
    injection E1 as <-. exact I.
  - apply bind_ret in E. destruct E as (st1 & E1 & E). injection E as <- _. unfold do_handle in E1.
    destruct (s_hold st) as [x|]; [|injection E1 as <-; exact I].
    destruct (_ && _ && _ && _); [|injection E1 as <-; exact I].
    apply handle_sinv in E1; [exact E1|]. exact I.
  - injection E as <- _. exact I.
Qed.

Lemma prun_sinv : forall evs st st', sinv st -> prun cd sign sigok combine p st evs = Ret st' -> sinv st'.
Proof.
  induction evs as [|e evs IH]; intros st st' I E; cbn [prun] in E.
  - injection E as <-. exact I.
  - apply bind_ret in E. destruct E as ((st1 & ms) & E1 & E). apply (IH st1); [|exact E].
    eapply pstep_sinv; eassumption.
Qed.

Lemma nth_repeat_len {A} (a d : A) n i : a = d -> nth i (repeat a n) d = d.
Proof. intros ->. destruct (nth_repeat_any d d n i); auto. Qed.

Lemma init_sinv Qs st : (1 <= F)%nat -> proac_init p Qs = Ret st -> sinv st.
Proof.
  intros HF E. unfold proac_init in E. apply bind_ret in E. destruct E as (cs & _ & E).
  apply bind_ret in E. destruct E as (row & _ & E). apply bind_ret in E. destruct E as (CQ & _ & E).
  apply bind_ret in E. destruct E as (Q & EQ & E). injection E as <-.
  apply upd_inv in EQ. destruct EQ as (LQ & ->). unfold sinv.
  cbn [s_SRec s_SSig s_Comb s_MVBAIn s_MVBASent s_flgRec s_Q]. rewrite length_set_nth, !repeat_length.
  split; [auto|]. split; [intros k; rewrite !nth_repeat_len by reflexivity; reflexivity|]. split.
  { intros k. rewrite (nth_repeat_len None None) by reflexivity. rewrite (nth_repeat_len [] []) by reflexivity.
    cbn [length]. split; [congruence|lia]. }
  split; [constructor|]. split.
  { intros k. rewrite (nth_repeat_len None None) by reflexivity. cbn. split; [intros []|congruence]. }
  split; [cbn [length]; split; [discriminate|lia]|]. split.
  - intros k Hk Hp _. rewrite nth_set_nth_other by auto. apply nth_repeat_in. lia.
  - intros k. rewrite (nth_repeat_len false false) by reflexivity. rewrite (nth_repeat_len [] []) by reflexivity.
    cbn [length]. split; [discriminate|lia].
Qed.
(** Before the agreement is called no handler holds the lock and none has left its loop. *)
Definition calm (st : pst) : Prop :=
  s_MVBASent st = false -> s_busy st = false /\ forall k, nth k (s_stopped st) false = false.

Lemma handle_calm st x st' : s_busy st = false -> calm st -> handle sigok combine p st x = Ret st' -> calm st'.
Proof.
  intros BZ I E. unfold handle in E. apply bind_ret in E. destruct E as (ok & _ & E).
  apply bind_ret in E. destruct E as (st2 & E2 & E).
  assert (I2 : calm st2 /\ (s_MVBASent st2 = false -> s_MVBASent st = false)).
  { destruct ok; [|injection E2 as <-; auto].
    apply bind_ret in E2. destruct E2 as (st1 & E1 & E2). clear E.
    assert (P : s_busy st1 = s_busy st /\ s_MVBASent st1 = s_MVBASent st /\ s_stopped st1 = s_stopped st).
    { unfold add_point in E1. apply bind_ret in E1. destruct E1 as (old & _ & E1).
      destruct (_ && _) in E1.
      - apply bind_ret in E1. destruct E1 as (q & _ & E1). injection E1 as <-. auto.
      - injection E1 as <-. auto. }
    destruct P as (P1 & P2 & P3). unfold add_sig in E2. apply bind_ret in E2. destruct E2 as (old & _ & E2).
    rewrite P2, P3 in E2. destruct (_ && _)%bool in E2.
    - injection E2 as <-. unfold calm in *. cbn [s_MVBASent s_busy s_stopped]. split.
      + intros X. apply orb_false_iff in X. destruct X as (X1 & X2). rewrite X2. split; [reflexivity|].
        apply I, X1.
      + intros X. apply orb_false_iff in X. apply X.
    - injection E2 as <-. unfold calm in *. cbn [s_MVBASent s_busy s_stopped]. rewrite P1, BZ. split; [|auto].
      intros X. split; [reflexivity|]. apply I, X. }
  destruct I2 as (I2 & _). injection E as <-. destruct (s_MVBASent st2) eqn:EM; [|exact I2].
  unfold calm. cbn [s_MVBASent]. congruence.
Qed.

Lemma pstep_calm st e st' ms : calm st -> pstep cd sign sigok combine p st e = Ret (st', ms) -> calm st'.
Proof.
  intros I E. destruct e; cbn [pstep] in E.
  - apply bind_ret in E. destruct E as (st1 & E1 & E). injection E as <- _. unfold do_commit in E1.
    destruct (_ || _); [injection E1 as <-; exact I|].
    apply bind_ret in E1. destruct E1 as (row & _ & E1). apply bind_ret in E1. destruct E1 as ((ok & row') & _ & E1).
    apply bind_ret in E1. destruct E1 as (CQ & _ & E1). injection E1 as <-. exact I.
  - apply bind_ret in E. destruct E as (st1 & E1 & E). injection E as <- _. exact I.
  - apply bind_ret in E. destruct E as (st1 & E1 & E). injection E as <- _. unfold do_recv in E1.
    destruct (s_hold st); [injection E1 as <-; exact I|].
    apply bind_ret in E1. destruct E1 as (w & _ & E1). destruct (_ <? _)%Z; [discriminate|].
    injection E1 as <-. exact I.
  - apply bind_ret in E. destruct E as (st1 & E1 & E). injection E as <- _. unfold do_handle in E1.
    destruct (s_hold st) as [x|]; [|injection E1 as <-; exact I].
    destruct (s_busy st) eqn:EB; [rewrite andb_false_r in E1; injection E1 as <-; exact I|].
    destruct (_ && _ && _ && _); [|injection E1 as <-; exact I].
    apply handle_calm in E1; [exact E1|exact EB|exact I].
  - injection E as <- _. intros X. split; [reflexivity|]. apply I, X.
Qed.

Lemma prun_calm : forall evs st st', calm st -> prun cd sign sigok combine p st evs = Ret st' -> calm st'.
Proof.
  induction evs as [|e evs IH]; intros st st' I E; cbn [prun] in E.
  - injection E as <-. exact I.
  - apply bind_ret in E. destruct E as ((st1 & ms) & E1 & E). apply (IH st1); [|exact E].
    eapply pstep_calm; eassumption.
Qed.

Lemma init_calm Qs st : proac_init p Qs = Ret st -> calm st.
Proof.
  intros E. unfold proac_init in E. apply bind_ret in E. destruct E as (cs & _ & E).
  apply bind_ret in E. destruct E as (row & _ & E). apply bind_ret in E. destruct E as (CQ & _ & E).
  apply bind_ret in E. destruct E as (Q & EQ & E). injection E as <-. intros _.
  cbn [s_busy s_stopped]. split; [reflexivity|]. intros k. apply nth_repeat_len. reflexivity.
Qed.
End Sig.
