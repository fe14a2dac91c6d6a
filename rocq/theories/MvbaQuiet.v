(** When the agreement of MvbaNet.v comes to an end: the committee as a whole. *)

Require Import ZArith List Bool Arith Lia.
From Verif Require Import Bytes CodecModel GoBase DispatchModel MvbaModel MvbaProofs MvbaNet MvbaLive.
Import ListNotations.

Section Committee.
Variable H : list Z -> list Z.
Variable coin : list Z -> Z.
Variables N F : nat.
Variable ID : list Z.
Variable bad : list nat.
Variable V : nat -> nat -> list Z.

Local Notation hon i := (honb N bad i = true).
Local Notation ld r := (leader_of coin N ID r).
Local Notation Linv := (linv H coin N F ID V).
Local Notation Good := (good H coin N ID V).
Local Notation Did := (did coin N F ID).
Local Notation Val1 := (mVal1 V).
Local Notation Val2 := (mVal2 H ID V).
Local Notation Echo := (mEcho H ID V).
Local Notation Fin := (mFin H ID V).
Local Notation Done := (mDone ID).
Local Notation PY := (mPY H coin N ID V).
Local Notation PN := (mPN ID).
Local Notation VY := (mVY H coin N ID V).
Local Notation VN := (mVN ID).
Local Notation Halt := (mHalt H coin N ID V).
Local Notation Rnd w i r := (m_rounds (n_st (w_mem w i)) r).

Lemma hon_lt i : hon i -> (i < N)%nat.
Proof. unfold honb. rewrite andb_true_iff. intros (E & _). apply Nat.ltb_lt. exact E. Qed.

Record ginv (w : nstate) : Prop := mkGinv {
  q_mem : forall i, hon i -> Linv i (w_mem w i);
  q_sent : forall k m, In (k, m) (w_sent w) -> hon k /\ Good k m /\ Did (w_mem w k) m;
  q_comp : forall k m, hon k -> Good k m -> (forall r v sg, m <> MHalt r v sg) -> Did (w_mem w k) m ->
             In (k, m) (w_sent w) \/
             exists r j, m = Echo r j 1 k /\ (d_lead (Rnd w k r) <> None \/ m_out (n_st (w_mem w k)) <> None);
  q_got : forall i k m, hon i -> In (k, m) (n_got (w_mem w i)) -> In (k, m) (w_sent w) /\ to_me i m = true;
  q_halt : forall i, hon i -> halted (w_mem w i) -> exists k r, In (k, Halt r) (w_sent w) /\ d_lead (Rnd w i r) <> None }.

Lemma nstep_lead i nm a nm' outs r : nstep H coin N F ID i nm a = Ret (Some (nm', outs)) ->
  d_lead (m_rounds (n_st nm) r) <> None -> d_lead (m_rounds (n_st nm') r) <> None.
Proof.
  intros X. destruct (nstep_cases _ _ _ _ _ _ _ _ _ _ X) as [(k & m & e & sms & -> & EV & ST & _)|[(k & r1 & j & s & sh & -> & ES)|(e & sms & -> & IE & ST & _)]].
  - intros L. destruct (d_lead (m_rounds (n_st nm) r)) as [l|] eqn:E; [|congruence]. rewrite (e_lead _ _ (step_le _ _ _ _ _ _ _ _ _ ST r) l E). discriminate.
  - destruct (echo_cases _ _ _ _ _ _ _ _ _ _ _ ES) as (_ & _ & _ & EN). rewrite EN. auto.
  - intros L. destruct (d_lead (m_rounds (n_st nm) r)) as [l|] eqn:E; [|congruence]. rewrite (e_lead _ _ (step_le _ _ _ _ _ _ _ _ _ ST r) l E). discriminate.
Qed.

Lemma nstep_out i nm a nm' outs : nstep H coin N F ID i nm a = Ret (Some (nm', outs)) ->
  m_out (n_st nm) <> None -> m_out (n_st nm') <> None.
Proof.
  intros X. destruct (nstep_cases _ _ _ _ _ _ _ _ _ _ X) as [(k & m & e & sms & -> & EV & ST & _)|[(k & r1 & j & s & sh & -> & ES)|(e & sms & -> & IE & ST & _)]].
  - exact (step_out _ _ _ _ _ _ _ _ _ ST).
  - destruct (echo_cases _ _ _ _ _ _ _ _ _ _ _ ES) as (_ & _ & _ & EN). rewrite EN. auto.
  - exact (step_out _ _ _ _ _ _ _ _ _ ST).
Qed.

Lemma nstep_agree i nm a nm' outs : nstep H coin N F ID i nm a = Ret (Some (nm', outs)) -> agree V i nm' -> agree V i nm.
Proof.
  intros X AG. assert (MS : forall e sms, mstep H coin N F ID (n_st nm) e = Ret (Some (n_st nm', sms)) ->
    n_prop nm' = (if (m_r (n_st nm') =? m_r (n_st nm))%nat then n_prop nm else up (n_prop nm) (m_r (n_st nm')) (m_val (n_st nm'))) -> agree V i nm).
  { intros e sms ST EP r Hr. pose proof (step_round1 _ _ _ _ _ _ _ _ _ ST) as R. rewrite <- AG by (destruct R as [R|(_ & R)]; lia). rewrite EP.
    destruct (Nat.eqb_spec (m_r (n_st nm')) (m_r (n_st nm))) as [Q|Q]; [reflexivity|]. unfold up.
    destruct (Nat.eqb_spec r (m_r (n_st nm'))); [|reflexivity]. destruct R as [R|(_ & R)]; lia. }
  destruct (nstep_cases _ _ _ _ _ _ _ _ _ _ X) as [(k & m & e & sms & -> & EV & ST & _ & _ & _ & EP)|[(k & r1 & j & s & sh & -> & ES)|(e & sms & -> & IE & ST & _ & _ & _ & EP)]]; eauto.
  destruct (echo_cases _ _ _ _ _ _ _ _ _ _ _ ES) as (_ & _ & _ & EN). rewrite EN in AG. exact AG.
Qed.

Lemma nstep_got i nm a nm' outs : nstep H coin N F ID i nm a = Ret (Some (nm', outs)) ->
  n_got nm' = match a with NTake k m => (k, m) :: n_got nm | NAct _ => n_got nm end.
Proof.
  intros X. destruct (nstep_cases _ _ _ _ _ _ _ _ _ _ X) as [(k & m & e & sms & -> & EV & ST & _ & EG & _)|[(k & r1 & j & s & sh & -> & ES)|(e & sms & -> & IE & ST & _ & EG & _)]]; auto.
  destruct (echo_cases _ _ _ _ _ _ _ _ _ _ _ ES) as (_ & _ & _ & EN). rewrite EN. reflexivity.
Qed.

Lemma ginv_init vals : (forall i, hon i -> V i 0 = vals i) -> ginv (ns_init N bad vals).
Proof.
  intros HV. constructor.
  - intros i Hi. constructor; cbn [ns_init w_mem nm_init n_st n_got n_prop n_ech mvba_init m_rounds m_r m_val m_halt m_out]; try (intros; lia); try contradiction; auto.
    + intros r. apply rnv0.
    + intros r s. exists []. split; [reflexivity|]. split; [|auto]. split; [constructor|]. intros k. cbn [In]. tauto.
  - intros k m I. cbn [ns_init w_sent] in I. apply in_map_iff in I. destruct I as (i & E & I). apply filter_In in I. destruct I as (_ & I).
    injection E as <- <-. split; [exact I|]. rewrite <- (HV _ I). split; [apply g_val1|]. cbn [did]. apply Nat.le_0_l.
  - intros k m Hk G NH D. left. cbn [ns_init w_mem w_sent] in *.
    destruct G; cbn [did mVal1 mVal2 mEcho mFin mDone mPY mPN mVY mVN mHalt nm_init n_st n_ech mvba_init m_rounds m_r rnd0 d_stage d_doneSent d_pre d_voted length] in D; try lia; try discriminate; try (destruct D; discriminate).
    + assert (r = 0)%nat as -> by lia. apply in_map_iff. exists k. split; [unfold mVal1; rewrite HV by exact Hk; reflexivity|].
      apply filter_In. split; [|exact Hk]. apply in_seq. pose proof (hon_lt _ Hk). lia.
    + exfalso. exact (NH _ _ _ eq_refl).
  - intros i k m _ [].
  - intros i _ [E|E]; cbn in E; congruence.
Qed.

Lemma proper_of w i a : ginv w -> hon i -> available w i a -> proper H coin N ID V i (w_mem w i) a.
Proof.
  intros G Hi AV. destruct a as [k m|e]; cbn [proper available] in *; [|exact I].
  destruct AV as (A1 & A2 & A3). destruct (q_sent _ G _ _ A1) as (B1 & B2 & B3). pose proof (hon_lt _ B1). auto.
Qed.

Lemma ginv_step w i a nm outs : ginv w -> hon i -> available w i a -> agree V i nm ->
  nstep H coin N F ID i (w_mem w i) a = Ret (Some (nm, outs)) -> ginv (ns_next w i nm outs).
Proof.
  intros G Hi AV AG X. pose proof (proper_of _ _ _ G Hi AV) as PR. pose proof (q_mem _ G i Hi) as LI.
  assert (US : w_mem (ns_next w i nm outs) i = nm) by (cbn [ns_next w_mem]; unfold up; rewrite Nat.eqb_refl; reflexivity).
  assert (UO : forall k, k <> i -> w_mem (ns_next w i nm outs) k = w_mem w k).
  { intros k NE. cbn [ns_next w_mem]. unfold up. destruct (Nat.eqb_spec k i); [contradiction|reflexivity]. }
  constructor.
  - intros k Hk. destruct (Nat.eq_dec k i) as [->|NE]; [rewrite US; eapply step_linv; eauto|rewrite UO by exact NE; apply G; exact Hk].
  - intros k m I. cbn [ns_next w_sent] in I. apply in_app_iff in I. destruct I as [I|I].
    + destruct (q_sent _ G _ _ I) as (B1 & B2 & B3). split; [exact B1|]. split; [exact B2|].
      destruct (Nat.eq_dec k i) as [->|NE]; [rewrite US; eapply did_mono; eauto|rewrite UO by exact NE; exact B3].
    + apply in_map_iff in I. destruct I as (m0 & E & I). injection E as <- <-. rewrite US.
      destruct (step_sound _ _ _ _ _ _ _ _ _ _ _ _ LI PR AG X I) as (S1 & S2 & _). auto.
  - intros k m Hk GD NH D. cbn [ns_next w_sent]. destruct (Nat.eq_dec k i) as [->|NE].
    + rewrite US in D. rewrite US. destruct (step_complete _ _ _ _ _ _ _ _ _ _ _ _ LI PR AG X GD NH D) as [D0|[I|(r & j & E & L)]].
      * destruct (q_comp _ G _ _ Hk GD NH D0) as [I|(r & j & E & L)]; [left; apply in_or_app; left; exact I|]. right. exists r, j. split; [exact E|].
        destruct L as [L|L]; [left; eapply nstep_lead; eauto|right; eapply nstep_out; eauto].
      * left. apply in_or_app. right. apply in_map. exact I.
      * right. exists r, j. split; [exact E|]. destruct L as [L|L]; [left; eapply nstep_lead; eauto|right; eapply nstep_out; eauto].
    + rewrite UO in D by exact NE. rewrite UO by exact NE. destruct (q_comp _ G _ _ Hk GD NH D) as [I|Q]; [left; apply in_or_app; left; exact I|right; exact Q].
  - intros k k0 m Hk I. cbn [ns_next w_sent]. destruct (Nat.eq_dec k i) as [->|NE].
    + rewrite US, (nstep_got _ _ _ _ _ X) in I. destruct a as [k1 m1|e].
      * destruct AV as (A1 & A2 & A3). destruct I as [I|I].
        -- injection I as -> ->. split; [apply in_or_app; left; exact A1|exact A2].
        -- destruct (q_got _ G _ _ _ Hk I). split; [apply in_or_app; left; assumption|assumption].
      * destruct (q_got _ G _ _ _ Hk I). split; [apply in_or_app; left; assumption|assumption].
    + rewrite UO in I by exact NE. destruct (q_got _ G _ _ _ Hk I). split; [apply in_or_app; left; assumption|assumption].
  - intros k Hk HT. cbn [ns_next w_sent]. destruct (Nat.eq_dec k i) as [->|NE].
    + rewrite US in *. destruct (step_halted _ _ _ _ _ _ _ _ _ _ _ LI PR X HT) as [Q|[(k & r & -> & Q)|(r & v & sg & I & Q)]].
      * destruct (q_halt _ G _ Hk Q) as (k & r & I & L). exists k, r. split; [apply in_or_app; left; exact I|eapply nstep_lead; eauto].
      * destruct AV as (A1 & _). exists k, r. split; [apply in_or_app; left; exact A1|eapply nstep_lead; eauto].
      * exists i, r. split; [|eapply nstep_lead; eauto]. apply in_or_app. right. destruct (step_sound _ _ _ _ _ _ _ _ _ _ _ _ LI PR AG X I) as (S1 & _).
        inversion S1; subst. apply in_map. exact I.
    + rewrite UO in * by exact NE. destruct (q_halt _ G _ Hk HT) as (k1 & r & I & L). exists k1, r. split; [apply in_or_app; left; exact I|exact L].
Qed.

(** Every execution keeps the invariant, for the values that were proposed in it. *)
Lemma reach_ginv vals w : nreach H coin N F ID bad vals w -> (forall i, hon i -> agree V i (w_mem w i)) -> ginv w.
Proof.
  induction 1 as [|w i a nm outs R IH Hi AV X]; intros AG.
  - apply ginv_init. intros i Hi. symmetry. exact (AG i Hi 0%nat (Nat.le_refl 0)).
  - assert (AI : agree V i nm).
    { specialize (AG i Hi). cbn [ns_next w_mem] in AG. unfold up in AG. rewrite Nat.eqb_refl in AG. exact AG. }
    apply (ginv_step w i a); auto. apply IH. intros k Hk. destruct (Nat.eq_dec k i) as [->|NE].
    + exact (nstep_agree _ _ _ _ _ X AI).
    + specialize (AG k Hk). cbn [ns_next w_mem] in AG. unfold up in AG. destruct (Nat.eqb_spec k i); [contradiction|exact AG].
Qed.

(** ** Where nothing more can happen *)

Section Quiet.
Variable w : nstate.
Hypothesis G : ginv w.
Hypothesis AG : forall i, hon i -> agree V i (w_mem w i).
Hypothesis Q : quiescent H coin N F ID bad w.

Definition waits (i : nat) : Prop := hon i /\ m_out (n_st (w_mem w i)) = None.

Lemma msg_in_dec (x : nat * msg) l : {In x l} + {~ In x l}.
Proof.
  apply in_dec. decide equality; [|apply Nat.eq_dec]. decide equality; try apply Nat.eq_dec; try (apply list_eq_dec, Z.eq_dec).
  all: decide equality; try apply Nat.eq_dec; try (apply list_eq_dec, Z.eq_dec).
Qed.

Lemma quiet_act i e : waits i -> internal e = true -> mstep H coin N F ID (n_st (w_mem w i)) e = Ret None.
Proof.
  intros (Hi & O) IE. pose proof (Q i (NAct e) Hi O Logic.I) as X. cbn [nstep] in X. rewrite IE in X. unfold lift in X.
  destruct (mstep H coin N F ID (n_st (w_mem w i)) e) as [[(? & ?)|]| | |]; congruence.
Qed.

Lemma quiet_take i k m e : waits i -> In (k, m) (w_sent w) -> to_me i m = true -> event_of k m = Some e ->
  In (k, m) (n_got (w_mem w i)) \/ mstep H coin N F ID (n_st (w_mem w i)) e = Ret None.
Proof.
  intros (Hi & O) IS TM EV. destruct (msg_in_dec (k, m) (n_got (w_mem w i))) as [I|I]; [left; exact I|right].
  pose proof (Q i (NTake k m) Hi O (conj IS (conj TM I))) as X. cbn [nstep] in X.
  destruct m; cbn [event_of] in EV; try discriminate; injection EV as <-; cbn [event_of] in X; unfold lift in X;
    destruct (mstep H coin N F ID (n_st (w_mem w i)) _) as [[(? & ?)|]| | |]; congruence.
Qed.

Lemma lead_val i r : hon i -> d_lead (Rnd w i r) <> None -> d_lead (Rnd w i r) = Some (ld r).
Proof. intros Hi L. destruct (a_lead _ _ _ _ _ _ _ _ _ (b_round _ _ _ _ _ _ _ _ (q_mem _ G i Hi) r)) as [(E & _)|(E & _)]; [congruence|exact E]. Qed.

Lemma lead_round i r : hon i -> d_lead (Rnd w i r) <> None -> (r <= m_r (n_st (w_mem w i)))%nat.
Proof.
  intros Hi L. destruct (Nat.le_gt_cases r (m_r (n_st (w_mem w i)))) as [C|C]; [exact C|].
  rewrite (b_fresh _ _ _ _ _ _ _ _ (q_mem _ G i Hi) r C) in L. cbn in L. congruence.
Qed.

Lemma past_before i r : hon i -> (r < m_r (n_st (w_mem w i)))%nat -> d_past (Rnd w i r) = true /\ d_lead (Rnd w i r) <> None /\ d_vflag (Rnd w i r) <> None.
Proof.
  intros Hi L. destruct (b_next _ _ _ _ _ _ _ _ (q_mem _ G i Hi) r L) as (P & VF). split; [exact P|]. split; [|exact VF].
  exact (a_past _ _ _ _ _ _ _ _ _ (b_round _ _ _ _ _ _ _ _ (q_mem _ G i Hi) r) P).
Qed.

Lemma take_done i k r : waits i -> In (k, Done r k) (w_sent w) -> (r <= m_r (n_st (w_mem w i)))%nat -> d_lead (Rnd w i r) = None ->
  In (k, Done r k) (n_got (w_mem w i)).
Proof.
  intros W IS LE LN. destruct (quiet_take i k _ _ W IS eq_refl eq_refl) as [I|X]; [exact I|exfalso].
  cbn [mstep] in X. unfold done_step in X. rewrite LN in X. destruct (Nat.leb_spec r (m_r (n_st (w_mem w i)))); [|lia]. rewrite vshare_sh in X. discriminate.
Qed.

Lemma take_fin i k r : waits i -> hon k -> In (k, Fin r k) (w_sent w) -> (r <= m_r (n_st (w_mem w i)))%nat -> In (k, Fin r k) (n_got (w_mem w i)).
Proof.
  intros W Hk IS LE. destruct (quiet_take i k _ _ W IS eq_refl eq_refl) as [I|X]; [exact I|exfalso]. pose proof (hon_lt _ Hk).
  cbn [mstep] in X. unfold finish_step in X. destruct (Nat.leb_spec r (m_r (n_st (w_mem w i)))); [|lia].
  destruct (Z.leb_spec 0 (Z.of_nat k)); [|lia]. destruct (Z.ltb_spec (Z.of_nat k) (Z.of_nat N)); [|lia]. cbn [andb] in X. destruct (vsig _ _); discriminate.
Qed.

Lemma take_py i k r : waits i -> In (k, PY r) (w_sent w) -> d_lead (Rnd w i r) <> None -> In (k, PY r) (n_got (w_mem w i)).
Proof.
  intros W IS L. destruct (quiet_take i k _ _ W IS eq_refl eq_refl) as [I|X]; [exact I|exfalso].
  cbn [mstep] in X. unfold preVoteYes_step in X. rewrite (lead_val _ _ (proj1 W) L) in X. destruct (vsig _ _); discriminate.
Qed.
Lemma take_pn i k r : waits i -> In (k, PN r k) (w_sent w) -> d_lead (Rnd w i r) <> None -> In (k, PN r k) (n_got (w_mem w i)).
Proof.
  intros W IS L. destruct (quiet_take i k _ _ W IS eq_refl eq_refl) as [I|X]; [exact I|exfalso].
  cbn [mstep] in X. unfold preVoteNo_step in X. rewrite (lead_val _ _ (proj1 W) L) in X. destruct (vshare _ _); discriminate.
Qed.
Lemma take_vy i k r : waits i -> In (k, VY r k) (w_sent w) -> d_lead (Rnd w i r) <> None -> In (k, VY r k) (n_got (w_mem w i)).
Proof.
  intros W IS L. destruct (quiet_take i k _ _ W IS eq_refl eq_refl) as [I|X]; [exact I|exfalso].
  cbn [mstep] in X. unfold voteYes_step in X. rewrite (lead_val _ _ (proj1 W) L) in X. destruct (_ && _); discriminate.
Qed.
Lemma take_vn i k r : waits i -> In (k, VN r k) (w_sent w) -> d_lead (Rnd w i r) <> None -> In (k, VN r k) (n_got (w_mem w i)).
Proof.
  intros W IS L. destruct (quiet_take i k _ _ W IS eq_refl eq_refl) as [I|X]; [exact I|exfalso].
  cbn [mstep] in X. unfold voteNo_step in X. rewrite (lead_val _ _ (proj1 W) L) in X. destruct (_ && _); discriminate.
Qed.

Lemma no_halt i k r : waits i -> In (k, Halt r) (w_sent w) -> d_lead (Rnd w i r) <> None -> False.
Proof.
  intros W IS L. assert (HN : m_halt (n_st (w_mem w i)) = None).
  { pose proof (quiet_act i EvHaltTake W eq_refl) as X. cbn [mstep] in X. unfold haltTake_step in X. rewrite (proj2 W) in X.
    destruct (m_halt (n_st (w_mem w i))); [discriminate|reflexivity]. }
  destruct (quiet_take i k _ _ W IS eq_refl eq_refl) as [I|X].
  - destruct (b_halt _ _ _ _ _ _ _ _ (q_mem _ G i (proj1 W)) _ _ I) as [E|E]; [exact (E HN)|exact (E (proj2 W))].
  - cbn [mstep] in X. unfold halt_step in X. rewrite (lead_val _ _ (proj1 W) L), HN in X. destruct (vsig _ _); discriminate.
Qed.

Lemma take_val1 i j r : waits i -> hon j -> In (j, Val1 r j) (w_sent w) -> (r <= m_r (n_st (w_mem w i)))%nat -> d_past (Rnd w i r) = false ->
  (1 <= d_stage (Rnd w i r) j)%nat.
Proof.
  intros W Hj IS LE P. destruct (quiet_take i j _ _ W IS eq_refl eq_refl) as [I|X].
  - exact (a_val1 _ _ _ _ _ _ _ _ _ (b_round _ _ _ _ _ _ _ _ (q_mem _ G i (proj1 W)) r) j I).
  - cbn [mstep] in X. unfold value_step in X. rewrite P in X. pose proof (hon_lt _ Hj).
    destruct (Nat.leb_spec r (m_r (n_st (w_mem w i)))); [|lia]. destruct (Nat.ltb_spec j N); [|lia]. cbn [andb negb] in X.
    destruct (d_stage (Rnd w i r) j) as [|s] eqn:E; [|lia]. unfold stage_ready in X. rewrite E in X. cbn [Nat.eqb orb] in X. discriminate.
Qed.
Lemma take_val2 i j r : waits i -> hon j -> In (j, Val2 r j) (w_sent w) -> (r <= m_r (n_st (w_mem w i)))%nat -> d_past (Rnd w i r) = false ->
  (1 <= d_stage (Rnd w i r) j)%nat -> (2 <= d_stage (Rnd w i r) j)%nat.
Proof.
  intros W Hj IS LE P ST. destruct (quiet_take i j _ _ W IS eq_refl eq_refl) as [I|X].
  - exact (a_val2 _ _ _ _ _ _ _ _ _ (b_round _ _ _ _ _ _ _ _ (q_mem _ G i (proj1 W)) r) j I).
  - cbn [mstep] in X. unfold value_step in X. rewrite P in X. pose proof (hon_lt _ Hj).
    destruct (Nat.leb_spec r (m_r (n_st (w_mem w i)))); [|lia]. destruct (Nat.ltb_spec j N); [|lia]. cbn [andb negb] in X.
    destruct (d_stage (Rnd w i r) j) as [|[|s]] eqn:E; [lia| |lia]. unfold stage_ready in X. rewrite E in X. cbn [Nat.eqb orb] in X.
    change (smEcho ID r j 1 (H (V j r))) with (em H ID V r j 1) in X. rewrite vsig_sig in X. discriminate.
Qed.

Definition hs : list nat := filter (honb N bad) (seq 0 N).
Lemma hs_in k : In k hs <-> hon k.
Proof.
  unfold hs. rewrite filter_In, in_seq. split; [tauto|]. intros Hk. split; [|exact Hk]. pose proof (hon_lt _ Hk). lia.
Qed.
Lemma hs_nodup : NoDup hs.
Proof. apply NoDup_filter, seq_NoDup. Qed.

(** All Echo messages of the honest members reach the sender. *)
Lemma take_echo i r s : waits i -> r = m_r (n_st (w_mem w i)) -> d_past (Rnd w i r) = false ->
  (s = 1%nat \/ s = 2%nat /\ (2 * F + 1 <= length (n_ech (w_mem w i) r 1))%nat) ->
  (forall k, hon k -> In (k, Echo r i s k) (w_sent w)) -> (2 * F + 1 <= length hs)%nat -> (2 * F + 1 <= length (n_ech (w_mem w i) r s))%nat.
Proof.
  intros W ER P S12 ALL NH. pose proof (q_mem _ G i (proj1 W)) as LI.
  assert (PV : n_prop (w_mem w i) r = V i r) by (apply AG; [apply W|lia]).
  destruct (b_ech _ _ _ _ _ _ _ _ LI r s) as (L & E1 & E2 & _). destruct (Nat.le_gt_cases (2 * F + 1) (length (n_ech (w_mem w i) r s))) as [C|C]; [exact C|exfalso].
  assert (INC : incl hs L).
  { intros k Hk. apply hs_in in Hk. apply E2. destruct (msg_in_dec (k, Echo r i s k) (n_got (w_mem w i))) as [I|I]; [exact I|exfalso].
    assert (TM : to_me i (Echo r i s k) = true) by (cbn; apply Nat.eqb_refl).
    pose proof (Q i (NTake k (Echo r i s k)) (proj1 W) (proj2 W) (conj (ALL k Hk) (conj TM I))) as X. cbn [nstep mEcho] in X.
    injection X as X. unfold echo_step in X. rewrite <- ER, Nat.eqb_refl, P in X. cbn [andb negb] in X.
    destruct S12 as [->|(-> & S1)].
    - rewrite E1 in X. destruct (sender_val H F ID V i (w_mem w i) r 1 L PV (proj1 E2)) as [(_ & B)|(B & _)].
      + rewrite B in X. discriminate.
      + rewrite E1, shares_length in C. lia.
    - destruct (b_ech _ _ _ _ _ _ _ _ LI r 1) as (L1 & F1 & F2 & _). rewrite E1, F1 in X. rewrite F1, shares_length in S1.
      destruct (sender_val H F ID V i (w_mem w i) r 1 L1 PV (proj1 F2)) as [(B & _)|(_ & B)]; [lia|]. rewrite B in X.
      destruct (sender_val H F ID V i (w_mem w i) r 2 L PV (proj1 E2)) as [(_ & B')|(B' & _)].
      + rewrite B' in X. discriminate.
      + rewrite E1, shares_length in C. lia. }
  pose proof (NoDup_incl_length hs_nodup INC). rewrite E1, shares_length in C. lia.
Qed.

Lemma all_listed {A} (f : nat -> msg) (g : nat -> A) i L (l : list A) : l = map g L -> lists (n_got (w_mem w i)) f L ->
  (forall k, hon k -> In (k, f k) (n_got (w_mem w i))) -> (length hs <= length l)%nat.
Proof.
  intros -> (ND & E) ALL. rewrite map_length. apply NoDup_incl_length; [apply hs_nodup|]. intros k Hk. apply hs_in in Hk. apply E, ALL, Hk.
Qed.

Hypothesis HN : (2 * F + 1 <= length hs)%nat.
Variable i0 r : nat.
Hypothesis W0 : waits i0.
Hypothesis R0 : m_r (n_st (w_mem w i0)) = r.
Hypothesis LOW : forall j, waits j -> (r <= m_r (n_st (w_mem w j)))%nat.

Lemma hon_out_dec i : hon i -> waits i \/ m_out (n_st (w_mem w i)) <> None.
Proof. intros Hi. unfold waits. destruct (m_out (n_st (w_mem w i))); [right; discriminate|left; auto]. Qed.

(** A member that has returned did so in a round that [i0] has not completed. *)
Lemma returned_late j : hon j -> m_out (n_st (w_mem w j)) <> None -> (r <= m_r (n_st (w_mem w j)))%nat /\
  (d_lead (Rnd w i0 r) <> None \/ d_lead (Rnd w j r) = None -> r < m_r (n_st (w_mem w j)))%nat.
Proof.
  intros Hj O. destruct (q_halt _ G j Hj (or_intror O)) as (k & r' & IS & L). pose proof (lead_round j r' Hj L) as LR.
  destruct (Nat.lt_ge_cases r' r) as [C|C].
  - exfalso. apply (no_halt i0 k r' W0 IS). destruct (past_before i0 r' (proj1 W0)) as (_ & X & _); [lia|exact X].
  - split; [lia|]. intros D. destruct (Nat.eq_dec r' r) as [->|NE]; [|lia]. destruct D as [D|D]; [exfalso; exact (no_halt i0 k r W0 IS D)|contradiction].
Qed.

Lemma all_in_round j : hon j -> (m_r (n_st (w_mem w j)) <= r)%nat -> d_lead (Rnd w i0 r) <> None \/ d_lead (Rnd w j r) = None ->
  waits j /\ m_r (n_st (w_mem w j)) = r.
Proof.
  intros Hj LE D. destruct (hon_out_dec j Hj) as [W|O].
  - split; [exact W|]. pose proof (LOW j W). lia.
  - exfalso. destruct (returned_late j Hj O) as (_ & X). specialize (X D). lia.
Qed.

Definition known (k : nat) : bool := match d_lead (Rnd w k r) with Some _ => true | None => false end.

Lemma comp k m : hon k -> Good k m -> (forall r v sg, m <> MHalt r v sg) -> (forall r j, m <> Echo r j 1 k) -> Did (w_mem w k) m -> In (k, m) (w_sent w).
Proof. intros Hk GD NH NE D. destruct (q_comp _ G k m Hk GD NH D) as [I|(r1 & j & E & _)]; [exact I|exfalso; exact (NE _ _ E)]. Qed.

Lemma lead_all i : waits i -> d_lead (Rnd w i r) <> None.
Proof.
  intros W. pose proof (LOW i W) as LE. pose proof (b_round _ _ _ _ _ _ _ _ (q_mem _ G i (proj1 W)) r) as RI.
  intros LN. destruct (a_coins _ _ _ _ _ _ _ _ _ RI) as (L & E1 & E2).
  assert (CI : (length (d_coins (Rnd w i r)) <= 2 * F)%nat) by (destruct (a_lead _ _ _ _ _ _ _ _ _ RI) as [(_ & X)|(X & _)]; [exact X|congruence]).
  destruct (existsb known hs) eqn:EX.
  - apply existsb_exists in EX. destruct EX as (k & Hk & EK). apply hs_in in Hk. unfold known in EK.
    pose proof (b_round _ _ _ _ _ _ _ _ (q_mem _ G k Hk) r) as RK. destruct (a_coins _ _ _ _ _ _ _ _ _ RK) as (Lk & F1 & F2).
    assert (CK : (2 * F + 1 <= length (d_coins (Rnd w k r)))%nat).
    { destruct (a_lead _ _ _ _ _ _ _ _ _ RK) as [(X & _)|(_ & X)]; [rewrite X in EK; discriminate|exact X]. }
    assert (INC : incl Lk L).
    { intros k0 I. apply F2 in I. apply E2. apply (take_done i k0 r W); [exact (proj1 (q_got _ G k _ _ Hk I))|exact LE|exact LN]. }
    pose proof (NoDup_incl_length (proj1 F2) INC). rewrite E1, shares_length in CI. rewrite F1, shares_length in CK. lia.
  - assert (NL : forall j, hon j -> d_lead (Rnd w j r) = None).
    { intros j Hj. destruct (d_lead (Rnd w j r)) eqn:E; [|reflexivity]. exfalso.
      assert (X : existsb known hs = true) by (apply existsb_exists; exists j; split; [apply hs_in; exact Hj|unfold known; rewrite E; reflexivity]). congruence. }
    assert (AR : forall j, hon j -> waits j /\ m_r (n_st (w_mem w j)) = r).
    { intros j Hj. apply all_in_round; [exact Hj| |right; apply NL; exact Hj].
      destruct (Nat.le_gt_cases (m_r (n_st (w_mem w j))) r) as [C|C]; [exact C|]. destruct (past_before j r Hj C) as (_ & X & _). exfalso. apply X, NL, Hj. }
    assert (NP : forall j, hon j -> d_past (Rnd w j r) = false).
    { intros j Hj. destruct (d_past (Rnd w j r)) eqn:E; [|reflexivity]. exfalso.
      apply (a_past _ _ _ _ _ _ _ _ _ (b_round _ _ _ _ _ _ _ _ (q_mem _ G j Hj) r) E). apply NL, Hj. }
    assert (S1 : forall i j, hon i -> hon j -> (1 <= d_stage (Rnd w i r) j)%nat).
    { intros a b Ha Hb. destruct (AR a Ha) as (Wa & Ra). destruct (AR b Hb) as (Wb & Rb). apply take_val1; [exact Wa|exact Hb| |lia|apply NP, Ha].
      apply comp; [exact Hb|apply g_val1|discriminate|discriminate|]. cbn [did mVal1]. lia. }
    assert (EC1 : forall j, hon j -> (2 * F + 1 <= length (n_ech (w_mem w j) r 1))%nat).
    { intros j Hj. destruct (AR j Hj) as (Wj & Rj). apply take_echo; [exact Wj|auto|apply NP, Hj|left; reflexivity| |exact HN].
      intros k Hk. destruct (q_comp _ G k (Echo r j 1 k) Hk) as [I|(r1 & j1 & E & [X|X])]; [apply g_echo1|discriminate|cbn [did mEcho]; apply S1; auto|exact I| |].
      - injection E as <- _. exfalso. apply X, NL, Hk.
      - exfalso. apply X. apply (proj1 (AR k Hk)). }
    assert (S2 : forall i j, hon i -> hon j -> (2 <= d_stage (Rnd w i r) j)%nat).
    { intros a b Ha Hb. destruct (AR a Ha) as (Wa & Ra). apply take_val2; [exact Wa|exact Hb| |lia|apply NP, Ha|apply S1; auto].
      apply comp; [exact Hb|apply g_val2|discriminate|discriminate|]. cbn [did mVal2]. apply EC1, Hb. }
    assert (EC2 : forall j, hon j -> (2 * F + 1 <= length (n_ech (w_mem w j) r 2))%nat).
    { intros j Hj. destruct (AR j Hj) as (Wj & Rj). apply take_echo; [exact Wj|auto|apply NP, Hj|right; split; [reflexivity|apply EC1, Hj]| |exact HN].
      intros k Hk. apply comp; [exact Hk|apply g_echo2|discriminate|discriminate|]. cbn [did mEcho]. apply S2; auto. }
    assert (DN : forall j, hon j -> d_doneSent (Rnd w j r) = true).
    { intros j Hj. destruct (AR j Hj) as (Wj & Rj). pose proof (b_round _ _ _ _ _ _ _ _ (q_mem _ G j Hj) r) as RJ.
      assert (DJ : d_done (Rnd w j r) = true).
      { apply (a_done _ _ _ _ _ _ _ _ _ RJ). left. destruct (a_fin _ _ _ _ _ _ _ _ _ RJ) as (Lf & F1 & F2 & F3). rewrite F3.
        apply (Nat.le_trans _ (length hs)); [exact HN|]. apply NoDup_incl_length; [apply hs_nodup|]. intros k Hk. apply hs_in in Hk. apply F2.
        apply take_fin; [exact Wj|exact Hk| |lia]. apply comp; [exact Hk|apply g_fin|discriminate|discriminate|]. cbn [did mFin]. apply EC2, Hk. }
      pose proof (quiet_act j (EvElection r) Wj eq_refl) as X. cbn [mstep] in X. unfold election_step in X. rewrite DJ, Rj in X.
      rewrite Nat.leb_refl in X. cbn [andb] in X. destruct (d_doneSent (Rnd w j r)); [reflexivity|discriminate]. }
    assert (LL : (length hs <= length (d_coins (Rnd w i r)))%nat).
    { apply (all_listed (Done r) (fun k => Sh k (smDone ID r)) i L); [exact E1|exact E2|]. intros k Hk.
      apply take_done; [exact W| |exact LE|exact LN]. apply comp; [exact Hk|apply g_done|discriminate|discriminate|]. cbn [did mDone]. apply DN, Hk. }
    lia.
Qed.

Lemma past_all i : waits i -> d_past (Rnd w i r) = true.
Proof.
  intros W. pose proof (LOW i W) as LE. destruct (Nat.eq_dec (m_r (n_st (w_mem w i))) r) as [E|NE].
  - pose proof (quiet_act i EvLeader W eq_refl) as X. cbn [mstep] in X. unfold leader_step in X. rewrite (proj2 W), E, (lead_val i r (proj1 W) (lead_all i W)) in X.
    destruct (d_past (Rnd w i r)); [reflexivity|]. destruct (assoc _ _) as [(? & ?)|]; discriminate.
  - destruct (past_before i r (proj1 W)) as (X & _); [lia|exact X].
Qed.

Lemma incl_app_length (l a b : list nat) : NoDup l -> (forall k, In k l -> In k a \/ In k b) -> (length l <= length a + length b)%nat.
Proof. intros ND I. rewrite <- app_length. apply NoDup_incl_length; [exact ND|]. intros k Hk. apply in_or_app, I, Hk. Qed.

(** All votes there are have reached [i0]. *)
Lemma votes_all : (2 * F + 1 <= length (d_vy (Rnd w i0 r)) + length (d_vn (Rnd w i0 r)))%nat.
Proof.
  pose proof (proj1 W0) as H0. pose proof (lead_all i0 W0) as L0. pose proof (b_round _ _ _ _ _ _ _ _ (q_mem _ G i0 H0) r) as R1.
  destruct (a_vy _ _ _ _ _ _ _ _ _ R1) as (Ly & Y1 & Y2). destruct (a_vn _ _ _ _ _ _ _ _ _ R1) as (Ln & N1 & N2).
  rewrite Y1, N1, !shares_length. destruct (existsb (fun k => r <? m_r (n_st (w_mem w k)))%nat hs) eqn:EX.
  - apply existsb_exists in EX. destruct EX as (k & Hk & LT). apply hs_in in Hk. apply Nat.ltb_lt in LT.
    destruct (past_before k r Hk LT) as (_ & _ & VF). pose proof (b_round _ _ _ _ _ _ _ _ (q_mem _ G k Hk) r) as RK.
    pose proof (a_votes _ _ _ _ _ _ _ _ _ RK VF) as VV. destruct (a_vy _ _ _ _ _ _ _ _ _ RK) as (Ky & A1 & A2). destruct (a_vn _ _ _ _ _ _ _ _ _ RK) as (Kn & B1 & B2).
    rewrite A1, B1, !shares_length in VV.
    assert (I1 : incl Ky Ly) by (intros x I; apply Y2, (take_vy i0 x r W0); [apply A2 in I; exact (proj1 (q_got _ G k _ _ Hk I))|exact L0]).
    assert (I2 : incl Kn Ln) by (intros x I; apply N2, (take_vn i0 x r W0); [apply B2 in I; exact (proj1 (q_got _ G k _ _ Hk I))|exact L0]).
    pose proof (NoDup_incl_length (proj1 A2) I1). pose proof (NoDup_incl_length (proj1 B2) I2). lia.
  - assert (AR : forall j, hon j -> waits j /\ m_r (n_st (w_mem w j)) = r).
    { intros j Hj. apply all_in_round; [exact Hj| |left; exact L0].
      destruct (Nat.le_gt_cases (m_r (n_st (w_mem w j))) r) as [C|C]; [exact C|]. exfalso.
      assert (X : existsb (fun k => r <? m_r (n_st (w_mem w k)))%nat hs = true); [|congruence].
      apply existsb_exists. exists j. split; [apply hs_in, Hj|apply Nat.ltb_lt; exact C]. }
    assert (PR : forall j, hon j -> d_pre (Rnd w j r) = true).
    { intros j Hj. destruct (AR j Hj) as (Wj & Rj). pose proof (quiet_act j (EvPreVote r) Wj eq_refl) as X. cbn [mstep] in X. unfold preVote_step in X.
      rewrite (lead_val j r Hj (lead_all j Wj)), (past_all j Wj) in X. destruct (d_pre (Rnd w j r)); [reflexivity|discriminate]. }
    assert (PS : forall j, hon j -> In (j, PY r) (w_sent w) \/ In (j, PN r j) (w_sent w)).
    { intros j Hj. destruct (d_lock (Rnd w j r) (ld r)) eqn:E.
      - left. apply comp; [exact Hj|apply g_py|discriminate|discriminate|]. cbn [did mPY]. split; [apply PR, Hj|]. rewrite E. discriminate.
      - right. apply comp; [exact Hj|apply g_pn|discriminate|discriminate|]. cbn [did mPN]. split; [apply PR, Hj|exact E]. }
    assert (FL : forall j, hon j -> d_flag (Rnd w j r) <> None).
    { intros j Hj E. destruct (AR j Hj) as (Wj & Rj). pose proof (lead_all j Wj) as Lj. pose proof (b_round _ _ _ _ _ _ _ _ (q_mem _ G j Hj) r) as RJ.
      pose proof (a_flag _ _ _ _ _ _ _ _ _ RJ) as X. rewrite E in X. destruct X as (X1 & X2). destruct (a_pn _ _ _ _ _ _ _ _ _ RJ) as (Lp & P1 & P2).
      assert (LL : (length hs <= length (d_pn (Rnd w j r)))%nat); [|lia].
      apply (all_listed (PN r) (fun k => Sh k (smNo ID r)) j Lp); [exact P1|exact P2|]. intros k Hk.
      destruct (PS k Hk) as [I|I]; [exfalso; apply (X2 k); apply take_py; auto|apply take_pn; auto]. }
    assert (VT : forall j, hon j -> d_voted (Rnd w j r) = true).
    { intros j Hj. destruct (AR j Hj) as (Wj & Rj). pose proof (quiet_act j (EvVote r) Wj eq_refl) as X. cbn [mstep] in X. unfold vote_step in X.
      rewrite (lead_val j r Hj (lead_all j Wj)), (past_all j Wj) in X. specialize (FL j Hj). destruct (d_flag (Rnd w j r)); [|congruence].
      destruct (d_voted (Rnd w j r)); [reflexivity|discriminate]. }
    apply (Nat.le_trans _ (length hs)); [exact HN|]. apply incl_app_length; [apply hs_nodup|]. intros k Hk. apply hs_in in Hk.
    pose proof (FL k Hk) as Fk. destruct (d_flag (Rnd w k r)) as [[x|]|] eqn:E; [| |congruence].
    + left. apply Y2. apply take_vy; [exact W0| |exact L0]. apply comp; [exact Hk|apply g_vy|discriminate|discriminate|]. cbn [did mVY]. split; [apply VT, Hk|eauto].
    + right. apply N2. apply take_vn; [exact W0| |exact L0]. apply comp; [exact Hk|apply g_vn|discriminate|discriminate|]. cbn [did mVN]. split; [apply VT, Hk|exact E].
Qed.

Lemma no_result : d_vflag (Rnd w i0 r) = None.
Proof.
  pose proof (quiet_act i0 EvResult W0 eq_refl) as X. cbn [mstep] in X. unfold result_step in X. rewrite (proj2 W0), R0, (past_all i0 W0) in X.
  destruct (d_vflag (Rnd w i0 r)) as [[? ?|?|? ?]|]; [discriminate| discriminate|discriminate|reflexivity].
Qed.

(** The votes are mixed: some honest member has a lock of the leader, and 2F+1 honest members have none. *)
Lemma mixed : d_vflag (Rnd w i0 r) = None /\ (1 <= length (d_vy (Rnd w i0 r)) <= 2 * F)%nat /\ (1 <= length (d_vn (Rnd w i0 r)) <= 2 * F)%nat /\
  (exists k, hon k /\ d_lock (Rnd w k r) (ld r) <> None) /\
  (exists L, NoDup L /\ length L = (2 * F + 1)%nat /\ forall k, In k L -> hon k /\ d_lock (Rnd w k r) (ld r) = None).
Proof.
  pose proof (proj1 W0) as H0. pose proof (b_round _ _ _ _ _ _ _ _ (q_mem _ G i0 H0) r) as R1. pose proof votes_all as VA.
  pose proof (a_vflag _ _ _ _ _ _ _ _ _ R1) as VF. rewrite no_result in VF. destruct VF as (V1 & V2).
  split; [exact no_result|]. split; [lia|]. split; [lia|].
  destruct (a_vy _ _ _ _ _ _ _ _ _ R1) as (Ly & Y1 & Y2). destruct (a_vn _ _ _ _ _ _ _ _ _ R1) as (Ln & N1 & N2). rewrite Y1, N1, !shares_length in *.
  split.
  - destruct Ly as [|k Ly]; [cbn [length] in *; lia|]. assert (I : In k (k :: Ly)) by (left; reflexivity). apply Y2 in I.
    destruct (q_got _ G i0 _ _ H0 I) as (IS & _). destruct (q_sent _ G _ _ IS) as (Hk & _ & D). cbn [did mVY] in D. destruct D as (_ & x & D).
    pose proof (a_flag _ _ _ _ _ _ _ _ _ (b_round _ _ _ _ _ _ _ _ (q_mem _ G k Hk) r)) as X. rewrite D in X. destruct x as (v & sg). destruct X as (_ & _ & k' & I').
    destruct (q_got _ G k _ _ Hk I') as (IS' & _). destruct (q_sent _ G _ _ IS') as (Hk' & _ & D'). cbn [did mPY] in D'. exists k'. split; [exact Hk'|apply D'].
  - destruct Ln as [|k Ln]; [cbn [length] in *; lia|]. assert (I : In k (k :: Ln)) by (left; reflexivity). apply N2 in I.
    destruct (q_got _ G i0 _ _ H0 I) as (IS & _). destruct (q_sent _ G _ _ IS) as (Hk & _ & D). cbn [did mVN] in D. destruct D as (_ & D).
    pose proof (b_round _ _ _ _ _ _ _ _ (q_mem _ G k Hk) r) as RK. pose proof (a_flag _ _ _ _ _ _ _ _ _ RK) as X. rewrite D in X.
    destruct (a_pn _ _ _ _ _ _ _ _ _ RK) as (Lp & P1 & P2). rewrite P1, shares_length in X. exists (firstn (2 * F + 1) Lp).
    split; [apply (nodup_app_l _ (skipn (2 * F + 1) Lp)); rewrite firstn_skipn; apply P2|].
    split; [rewrite firstn_length; lia|]. intros k' I'. assert (I2 : In k' Lp) by (rewrite <- (firstn_skipn (2 * F + 1) Lp); apply in_or_app; left; exact I').
    apply P2 in I2. destruct (q_got _ G k _ _ Hk I2) as (IS' & _). destruct (q_sent _ G _ _ IS') as (Hk' & _ & D'). cbn [did mPN] in D'. split; [exact Hk'|apply D'].
Qed.
End Quiet.
End Committee.
