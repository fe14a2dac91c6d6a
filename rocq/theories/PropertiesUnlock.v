(** Further theorems on the votes (C35): repeated pre-votes of one corrupted member make the others sign
    that the round is unlocked. *)

Require Import ZArith List Bool Arith Lia.
From Verif Require Import Bytes CodecModel GoBase DispatchModel DispatchProofs MvbaModel MvbaProofs PropertiesMvba.
Import ListNotations.

Section Unlock.
Variable H : list Z -> list Z.
Variable coin : list Z -> Z.
Variables N F : nat.
Variable ID : list Z.
Variable bad : list nat.
Variable vals : nat -> list Z.

Notation mstep' := (mstep H coin N F ID).
Notation reach' := (reach H coin N F ID bad vals anyp).

(** Member i has passed the election of round r and has not learnt yet what to vote. *)
Definition undecided (g : gstate) (i r : nat) : Prop :=
  let d := m_rounds (gs_m g i) r in
  w32 (m_r (gs_m g i)) /\ d_lead d <> None /\ d_past d = true /\ d_flag d = None /\ d_voted d = false.

(** One more pre-vote. *)
Lemma one_prevote g s i r : In s bad -> (s < N)%nat -> hon N bad i -> reach' g -> undecided g i r ->
  exists g', reach' g' /\ (forall k, k <> i -> gs_m g' k = gs_m g k) /\ gs_rel g' = gs_rel g /\
    d_lock (m_rounds (gs_m g' i) r) = d_lock (m_rounds (gs_m g i) r) /\
    let n := length (d_pn (m_rounds (gs_m g i) r)) in
    length (d_pn (m_rounds (gs_m g' i) r)) = S n /\
    ((n < 2 * F)%nat -> undecided g' i r) /\
    ((2 * F <= n)%nat -> w32 (m_r (gs_m g' i)) /\ d_lead (m_rounds (gs_m g' i) r) <> None /\ d_past (m_rounds (gs_m g' i) r) = true /\
       d_voted (m_rounds (gs_m g' i) r) = false /\ d_flag (m_rounds (gs_m g' i) r) = Some None).
Proof.
  intros Hs Ls Hi R (Ww & Wl & Wp & Wf & Wv). set (d := m_rounds (gs_m g i) r) in *.
  assert (E : exists st, mstep' (gs_m g i) (EvPreVoteNo r (Sh s (smNo ID r))) = Ret (Some (st, [])) /\ m_r st = m_r (gs_m g i) /\
    let d' := m_rounds st r in d_lock d' = d_lock d /\ d_lead d' <> None /\ d_past d' = true /\ d_voted d' = false /\
      length (d_pn d') = S (length (d_pn d)) /\
      ((length (d_pn d) < 2 * F)%nat -> d_flag d' = None) /\ ((2 * F <= length (d_pn d))%nat -> d_flag d' = Some None)).
  { destruct (d_lead d) as [l|] eqn:EL; [|contradiction]. eexists. split.
    - cbn [mstep]. unfold preVoteNo_step. fold d. rewrite EL. cbn [vshare]. rewrite bytes_eqb_refl. reflexivity.
    - split; [reflexivity|]. cbv zeta. rewrite setr_same. cbn [d_lock d_lead d_past d_voted d_pn d_flag].
      rewrite app_length, Wf. cbn [length]. split; [reflexivity|]. split; [discriminate|]. split; [exact Wp|]. split; [exact Wv|]. split; [lia|].
      split; intros K; [rewrite (proj2 (Nat.ltb_ge _ _)) by lia|rewrite (proj2 (Nat.ltb_lt _ _)) by lia]; reflexivity. }
  destruct E as (st & E & A1 & A). cbv zeta in A. destruct A as (A2 & A3 & A4 & A5 & A6 & A7 & A8).
  exists (gs_next g i st []).
  split; [apply (reach_step H coin N F ID bad vals anyp g i _ st [] R Hi) in E; [exact E| |exact I|exact Ww]|].
  { split; [exact Ls|]. intros (_ & K). contradiction. }
  unfold undecided, gs_next. cbn [gs_m gs_rel map]. split; [intros k Hk; rewrite (proj2 (Nat.eqb_neq _ _) Hk); reflexivity|].
  rewrite Nat.eqb_refl, app_nil_r, A1. split; [reflexivity|]. split; [exact A2|]. cbv zeta. split; [exact A6|].
  split; intros K; [specialize (A7 K)|specialize (A8 K)]; do 4 (split; [assumption|]); assumption.
Qed.

Lemma prevotes s i r : In s bad -> (s < N)%nat -> hon N bad i ->
  forall n g, reach' g -> undecided g i r -> (length (d_pn (m_rounds (gs_m g i) r)) + n = 2 * F)%nat ->
  exists g', reach' g' /\ (forall k, k <> i -> gs_m g' k = gs_m g k) /\ gs_rel g' = gs_rel g /\
    d_lock (m_rounds (gs_m g' i) r) = d_lock (m_rounds (gs_m g i) r) /\
    w32 (m_r (gs_m g' i)) /\ d_lead (m_rounds (gs_m g' i) r) <> None /\ d_past (m_rounds (gs_m g' i) r) = true /\
    d_voted (m_rounds (gs_m g' i) r) = false /\ d_flag (m_rounds (gs_m g' i) r) = Some None.
Proof.
  intros Hs Ls Hi. induction n as [|n IH]; intros g R W LC;
    destruct (one_prevote g s i r Hs Ls Hi R W) as (g1 & R1 & O1 & Q1 & K1 & T); cbv zeta in T; destruct T as (C1 & W1 & D1).
  - exists g1. do 4 (split; [assumption|]). apply D1. lia.
  - destruct (IH g1 R1 (W1 ltac:(lia)) ltac:(lia)) as (g2 & R2 & O2 & Q2 & K2 & D2).
    exists g2. split; [exact R2|]. split; [intros k Hk; rewrite O2, O1 by exact Hk; reflexivity|].
    split; [congruence|]. split; [congruence|exact D2].
Qed.

(** For every committee and at every moment: a corrupted member can make an honest member that has elected
    the leader and has not learnt yet what to vote sign that the round is unlocked, by repeating its own
    pre-vote; also if the member has the lock, and without any other member having said that it has none. *)
Theorem c35_unlock_refuted g s i r : In s bad -> (s < N)%nat -> hon N bad i -> reach' g -> undecided g i r ->
  (length (d_pn (m_rounds (gs_m g i) r)) <= 2 * F)%nat ->
  exists g', reach' g' /\ (forall k, k <> i -> gs_m g' k = gs_m g k) /\
    gs_rel g' = gs_rel g ++ [(i, smUnlock ID r)] /\
    d_lock (m_rounds (gs_m g' i) r) = d_lock (m_rounds (gs_m g i) r).
Proof.
  intros Hs Ls Hi R W LC.
  destruct (prevotes s i r Hs Ls Hi (2 * F - length (d_pn (m_rounds (gs_m g i) r))) g R W ltac:(lia))
    as (g1 & R1 & O1 & Q1 & K1 & W1 & L1 & P1 & V1 & F1).
  assert (E : exists st, mstep' (gs_m g1 i) (EvVote r) = Ret (Some (st, [smUnlock ID r])) /\
    d_lock (m_rounds st r) = d_lock (m_rounds (gs_m g1 i) r)).
  { destruct (d_lead (m_rounds (gs_m g1 i) r)) as [l|] eqn:EL; [|contradiction]. eexists. split.
    - cbn [mstep]. unfold vote_step. rewrite EL, F1, P1, V1. cbn [andb negb]. reflexivity.
    - rewrite setr_same. reflexivity. }
  destruct E as (st & E & A). exists (gs_next g1 i st [smUnlock ID r]).
  split; [apply (reach_step H coin N F ID bad vals anyp g1 i (EvVote r) st [smUnlock ID r] R1 Hi); [exact I|exact I|exact W1|exact E]|].
  unfold gs_next. cbn [gs_m gs_rel map]. split; [intros k Hk; rewrite (proj2 (Nat.eqb_neq _ _) Hk); apply O1; exact Hk|].
  rewrite Nat.eqb_refl. split; [rewrite Q1; reflexivity|congruence].
Qed.

(** So at every moment at which all honest members are in that position there is a continuation to an
    Unlock certificate, in which no further member has said that it has no lock and nobody has lost a lock. *)
Theorem c35_unlock_all_refuted g s r : (2 * F + 1 <= N)%nat -> In s bad -> (s < N)%nat -> reach' g ->
  (forall i, hon N bad i -> undecided g i r /\ (length (d_pn (m_rounds (gs_m g i) r)) <= 2 * F)%nat) ->
  exists g', reach' g' /\ certified N F bad g' (smUnlock ID r) /\
    (forall i sm, In (i, sm) (gs_rel g') -> In (i, sm) (gs_rel g) \/ sm = smUnlock ID r) /\
    forall i, d_lock (m_rounds (gs_m g' i) r) = d_lock (m_rounds (gs_m g i) r).
Proof.
  intros HN Hs Ls R HU.
  assert (K : forall l, NoDup l -> (forall i, In i l -> hon N bad i) ->
    exists g', reach' g' /\ (forall i, In i l -> In (i, smUnlock ID r) (gs_rel g')) /\
      (forall i sm, In (i, sm) (gs_rel g') -> In (i, sm) (gs_rel g) \/ sm = smUnlock ID r) /\
      (forall i, d_lock (m_rounds (gs_m g' i) r) = d_lock (m_rounds (gs_m g i) r)) /\ forall i, ~ In i l -> gs_m g' i = gs_m g i).
  { induction l as [|i l IH]; intros ND HL.
    - exists g. split; [exact R|]. split; [intros ? []|]. split; [auto|]. split; reflexivity.
    - inversion ND as [|? ? NI ND']; subst. destruct IH as (g1 & R1 & S1 & B1 & K1 & O1); [exact ND'|intros; apply HL; right; assumption|].
      pose proof (O1 i NI) as Q. pose proof (HL i (or_introl eq_refl)) as Hi. destruct (HU i Hi) as (U & C).
      destruct (c35_unlock_refuted g1 s i r Hs Ls Hi R1) as (g2 & R2 & O2 & S2 & K2);
        [unfold undecided in *; rewrite Q; exact U|rewrite Q; exact C|].
      exists g2. split; [exact R2|]. split; [|split; [|split]].
      + intros k [<-|Hk]; rewrite S2; apply in_or_app; [right; left; reflexivity|left; apply S1; exact Hk].
      + intros k sm Hk. rewrite S2 in Hk. apply in_app_or in Hk. destruct Hk as [Hk|[Hk|[]]]; [apply B1; exact Hk|].
        apply pair_equal_spec in Hk. right. symmetry. apply Hk.
      + intros k. destruct (Nat.eq_dec k i) as [->|Hk]; [rewrite K2; apply K1|rewrite O2 by exact Hk; apply K1].
      + intros k Hk. rewrite O2 by (intros ->; apply Hk; left; reflexivity). apply O1. intros J. apply Hk. right. exact J. }
  destruct (K (filter (fun i => negb (memb i bad)) (seq 0 N))) as (g' & R' & S' & B' & K' & _).
  - apply NoDup_filter, seq_NoDup.
  - intros i Hi. apply filter_In in Hi as (A & B). apply in_seq in A. split; [lia|]. intros J. apply memb_in in J.
    apply negb_true_iff in B. congruence.
  - exists g'. split; [exact R'|]. split; [|split; [exact B'|exact K']]. exists (seq 0 (2 * F + 1)). split; [apply seq_NoDup|].
    rewrite seq_length. split; [lia|]. intros i Hi. apply in_seq in Hi. split; [lia|]. intros (A & B). apply S', filter_In. split; [apply in_seq; lia|].
    apply negb_true_iff. destruct (memb i bad) eqn:E; [|reflexivity]. exfalso. apply B, memb_in, E.
Qed.

End Unlock.
Print Assumptions c35_unlock_refuted.
Print Assumptions c35_unlock_all_refuted.

(** Four members, the last one corrupted; it is elected, and all honest members have its lock.  They
    sign that the round is unlocked, although none of them has said that it has no lock. *)
Example c35_unlock_example : exists g, reach toyH toyCoin 4 1 [7%Z] [3%nat] toyVals anyp g /\
  certified 4 1 [3%nat] g (smUnlock [7%Z] 0) /\ (forall i, hon 4 [3%nat] i -> d_lock (m_rounds (gs_m g i) 0) 3%nat <> None) /\
  forall i, ~ In (i, smNo [7%Z] 0) (gs_rel g).
Proof.
  destruct (run_read toyH toyCoin 4 1 [7%Z] [3%nat] toyVals anyb anyp
    (fun g => forallb (fun i => let d := m_rounds (gs_m g i) 0 in
        (m_r (gs_m g i) =? 0)%nat && (match d_lead d with Some 3%nat => true | _ => false end) && d_past d && negb (d_voted d) &&
        (match d_flag d with None => true | _ => false end) && (length (d_pn d) =? 0)%nat &&
        (match d_lock d 3%nat with None => false | _ => true end)) hs &&
      forallb (fun p => negb (bytes_eqb (snd p) (smNo [7%Z] 0))) (gs_rel g))
    (flat_map (fun j => spb 0 j (toyVals j) hs hs) hs ++ spb 0 3 [13%Z] hs hs ++ flat_map (fun j => finish 0 j (toyVals j) hs) hs ++ elect 0 hs hs)
    true (fun _ _ _ _ => I) ltac:(vm_compute; reflexivity)) as (g & R & E).
  apply andb_true_iff in E as (E & E'). rewrite forallb_forall in E, E'.
  assert (Q : forall i, hon 4 [3%nat] i -> undecided g i 0 /\ length (d_pn (m_rounds (gs_m g i) 0)) = 0%nat /\ d_lock (m_rounds (gs_m g i) 0) 3%nat <> None).
  { intros i (A & B). assert (In i hs) as J.
    { unfold hs. destruct i as [|[|[|[|i]]]]; cbn; auto; [exfalso; apply B; left; reflexivity|lia]. }
    specialize (E i J). cbv zeta in E. rewrite !andb_true_iff in E. destruct E as ((((((T1 & T2) & T3) & T4) & T5) & T6) & T7).
    apply Nat.eqb_eq in T1, T6. apply negb_true_iff in T4. split; [|split; [exact T6|]].
    - unfold undecided. cbv zeta. rewrite T1. split; [unfold w32; cbn; lia|]. split; [intros K; rewrite K in T2; discriminate|].
      split; [exact T3|]. split; [|exact T4]. destruct (d_flag _); [discriminate|reflexivity].
    - intros K. rewrite K in T7. discriminate. }
  destruct (c35_unlock_all_refuted toyH toyCoin 4 1 [7%Z] [3%nat] toyVals g 3 0) as (g' & R' & C & B & K).
  - lia.
  - left. reflexivity.
  - lia.
  - exact R.
  - intros i Hi. destruct (Q i Hi) as (A1 & A2 & _). split; [exact A1|lia].
  - exists g'. split; [exact R'|]. split; [exact C|]. split.
    + intros i Hi. rewrite K. apply (Q i Hi).
    + intros i J. destruct (B i _ J) as [J'|J'].
      * specialize (E' _ J'). cbn [snd] in E'. rewrite bytes_eqb_refl in E'. discriminate.
      * revert J'. vm_compute. discriminate.
Qed.
