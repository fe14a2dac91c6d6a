(** What members return in the agreement of MvbaNet.v: all the same, and something that an honest member put in. *)

Require Import ZArith List Bool Arith Lia.
From Verif Require Import Bytes CodecModel GoBase DispatchModel MvbaModel MvbaProofs MvbaNet MvbaLive MvbaQuiet.
Import ListNotations.

Section Safe.
Variable H : list Z -> list Z.
Variable coin : list Z -> Z.
Variables N F : nat.
Variable ID : list Z.
Variable bad : list nat.

(** ** One member *)

Definition slk (st : mst) : Prop := forall r j, (2 <= d_stage (m_rounds st r) j)%nat -> d_lock (m_rounds st r) j <> None.

Lemma slk_step st e st' sms : mstep H coin N F ID st e = Ret (Some (st', sms)) -> slk st -> slk st'.
Proof.
  intros X A. unfold slk. mcases X; try exact A; intros r0 j0; setcases r0; try apply A; unfold up.
  - destruct (Nat.eqb_spec j0 j); [lia|apply A].
  - destruct (Nat.eqb_spec j0 j); [discriminate|apply A].
Qed.

Lemma vy_step st e st' sms r0 : mstep H coin N F ID st e = Ret (Some (st', sms)) ->
  (length (d_vy (m_rounds st r0)) <= length (d_vy (m_rounds st' r0)))%nat.
Proof. intros X. mcases X; try apply Nat.le_refl; setcases r0; try apply Nat.le_refl. rewrite app_length. lia. Qed.

Lemma vflag_step st e st' sms r0 x : mstep H coin N F ID st e = Ret (Some (st', sms)) ->
  d_vflag (m_rounds st r0) = Some x -> d_vflag (m_rounds st' r0) = Some x.
Proof.
  intros X E. mcases X; try exact E; setcases r0; try exact E.
  - rewrite E. reflexivity.
  - rewrite E. reflexivity.
Qed.

(** The value of the next round. *)
Definition carried (nm : nmem) : Prop := forall r, (r < m_r (n_st nm))%nat ->
  match d_vflag (m_rounds (n_st nm) r) with
  | Some (VOther v _) => n_prop nm (S r) = v
  | Some (VNo _) => n_prop nm (S r) = n_prop nm r
  | _ => False
  end.

Lemma step_carry st e st' sms : mstep H coin N F ID st e = Ret (Some (st', sms)) ->
  m_r st' = m_r st \/ m_r st' = S (m_r st) /\
    match d_vflag (m_rounds st (m_r st)) with
    | Some (VOther v _) => m_val st' = v
    | Some (VNo _) => m_val st' = m_val st
    | _ => False
    end.
Proof.
  intros X. mcases X; cbn [setr m_r m_val]; auto.
Qed.

Lemma carried_step i nm a nm' outs : nstep H coin N F ID i nm a = Ret (Some (nm', outs)) -> n_prop nm (m_r (n_st nm)) = m_val (n_st nm) ->
  carried nm -> carried nm'.
Proof.
  intros X CU A. assert (MS : forall e sms, mstep H coin N F ID (n_st nm) e = Ret (Some (n_st nm', sms)) ->
    n_prop nm' = (if (m_r (n_st nm') =? m_r (n_st nm))%nat then n_prop nm else up (n_prop nm) (m_r (n_st nm')) (m_val (n_st nm'))) -> carried nm').
  { intros e sms ST EP r Hr. destruct (step_carry _ _ _ _ ST) as [R|(R & C)].
    - rewrite EP, R, Nat.eqb_refl. assert (Hr' : (r < m_r (n_st nm))%nat) by lia. specialize (A r Hr').
      destruct (d_vflag (m_rounds (n_st nm) r)) as [f|] eqn:E; [|contradiction]. rewrite (vflag_step _ _ _ _ _ _ ST E). exact A.
    - assert (EP' : n_prop nm' = up (n_prop nm) (S (m_r (n_st nm))) (m_val (n_st nm'))).
      { rewrite EP, R. destruct (Nat.eqb_spec (S (m_r (n_st nm))) (m_r (n_st nm))); [lia|reflexivity]. }
      rewrite EP'. unfold up. destruct (Nat.eqb_spec r (S (m_r (n_st nm)))); [lia|].
      destruct (Nat.eq_dec r (m_r (n_st nm))) as [->|NE].
      + rewrite Nat.eqb_refl. destruct (d_vflag (m_rounds (n_st nm) (m_r (n_st nm)))) as [f|] eqn:E; [|contradiction]. rewrite (vflag_step _ _ _ _ _ _ ST E).
        destruct f; [exact C| |exact C]. rewrite CU. exact C.
      + destruct (Nat.eqb_spec (S r) (S (m_r (n_st nm)))); [lia|]. assert (Hr' : (r < m_r (n_st nm))%nat) by lia. specialize (A r Hr').
        destruct (d_vflag (m_rounds (n_st nm) r)) as [f|] eqn:E; [|contradiction]. rewrite (vflag_step _ _ _ _ _ _ ST E). exact A. }
  destruct (nstep_cases _ _ _ _ _ _ _ _ _ _ X) as [(k & m & e & sms & -> & EV & ST & _ & _ & _ & EP)|[(k & r1 & j & s & sh & -> & ES)|(e & sms & -> & IE & ST & _ & _ & _ & EP)]]; eauto.
  destruct (echo_cases _ _ _ _ _ _ _ _ _ _ _ ES) as (_ & _ & _ & EN). rewrite EN. exact A.
Qed.

(** ** The committee *)

Variable V : nat -> nat -> list Z.
Local Notation hon i := (honb N bad i = true).
Local Notation ld r := (leader_of coin N ID r).
Local Notation Rnd w i r := (m_rounds (n_st (w_mem w i)) r).
Local Notation Ginv := (ginv H coin N F ID bad V).

(** The value of the leader of the round is decided. *)
Definition decided (w : nstate) (r : nat) : Prop :=
  In (ld r, mFin H ID V r (ld r)) (w_sent w) \/ exists k, hon k /\ (2 * F + 1 <= length (d_vy (Rnd w k r)))%nat.

Record sinv (w : nstate) : Prop := mkSinv {
  s_lock : forall i, hon i -> slk (n_st (w_mem w i));
  s_carry : forall i, hon i -> carried (w_mem w i);
  s_out : forall i v, hon i -> m_out (n_st (w_mem w i)) = Some v \/ m_halt (n_st (w_mem w i)) = Some v -> exists r, v = V (ld r) r /\ decided w r;
  s_halt : forall k r, In (k, mHalt H coin N ID V r) (w_sent w) -> decided w r }.

Lemma nstep_slk i nm a nm' outs : nstep H coin N F ID i nm a = Ret (Some (nm', outs)) -> slk (n_st nm) -> slk (n_st nm').
Proof.
  intros X. destruct (nstep_cases _ _ _ _ _ _ _ _ _ _ X) as [(k & m & e & sms & -> & EV & ST & _)|[(k & r1 & j & s & sh & -> & ES)|(e & sms & -> & IE & ST & _)]].
  - exact (slk_step _ _ _ _ ST).
  - destruct (echo_cases _ _ _ _ _ _ _ _ _ _ _ ES) as (_ & _ & _ & EN). rewrite EN. auto.
  - exact (slk_step _ _ _ _ ST).
Qed.

Lemma nstep_vy i nm a nm' outs r : nstep H coin N F ID i nm a = Ret (Some (nm', outs)) ->
  (length (d_vy (m_rounds (n_st nm) r)) <= length (d_vy (m_rounds (n_st nm') r)))%nat.
Proof.
  intros X. destruct (nstep_cases _ _ _ _ _ _ _ _ _ _ X) as [(k & m & e & sms & -> & EV & ST & _)|[(k & r1 & j & s & sh & -> & ES)|(e & sms & -> & IE & ST & _)]].
  - exact (vy_step _ _ _ _ _ ST).
  - destruct (echo_cases _ _ _ _ _ _ _ _ _ _ _ ES) as (_ & _ & _ & EN). rewrite EN. apply Nat.le_refl.
  - exact (vy_step _ _ _ _ _ ST).
Qed.

(** A step that returns, or that puts something into haltChannel, or that sends Halt. *)
Lemma step_decides i G st e st' sms : rounds_ok H coin N F ID V G st -> mstep H coin N F ID st e = Ret (Some (st', sms)) ->
  (forall v, m_out st' = Some v \/ m_halt st' = Some v ->
     m_out st = Some v \/ m_halt st = Some v \/ (exists r sg, e = EvHalt r v sg) \/
     exists r, v = V (ld r) r /\ (In (ld r, mFin H ID V r (ld r)) G \/ 2 * F + 1 <= length (d_vy (m_rounds st r)))%nat) /\
  (forall r v sg, In (MHalt r v sg) (emits H F ID i st e) -> In (ld r, mFin H ID V r (ld r)) G \/ (2 * F + 1 <= length (d_vy (m_rounds st r)))%nat).
Proof.
  intros BR ST. assert (LD : forall r l, d_lead (m_rounds st r) = Some l -> l = ld r).
  { intros r l E. destruct (a_lead _ _ _ _ _ _ _ _ _ (BR r)) as [(Q & _)|(Q & _)]; congruence. }
  assert (FN : forall r v sg, assoc (ld r) (d_fin (m_rounds st r)) = Some (v, sg) -> v = V (ld r) r /\ In (ld r, mFin H ID V r (ld r)) G).
  { intros r v sg E. destruct (a_fin _ _ _ _ _ _ _ _ _ (BR r)) as (L & E1 & E2 & _). rewrite E1 in E.
    destruct (assoc_map (fun k => (V k r, Sig (em H ID V r k 2))) L (ld r) _ E) as (Q & I). injection Q as Q1 Q2. split; [exact Q1|apply E2; exact I]. }
  assert (VF : forall r v sg, d_vflag (m_rounds st r) = Some (VYes v sg) -> v = V (ld r) r /\ (2 * F + 1 <= length (d_vy (m_rounds st r)))%nat).
  { intros r v sg E. pose proof (a_vflag _ _ _ _ _ _ _ _ _ (BR r)) as Q. rewrite E in Q. tauto. }
  mcases ST; cbn [emits setr m_out m_halt]; rewrite ?Heqo, ?Heqo0, ?Heqo1 in *; split; try (intros v1 [E1|E1]; auto; fail);
    try (intros r1 v1 sg1 [E|[]]; discriminate E); try (intros r1 v1 sg1 []; fail).
  - intros v0 [E|E]; [|auto]. injection E as <-. right. right. right. exists (m_r st). rewrite (LD _ _ Heqo0) in Heqo1. destruct (FN _ _ _ Heqo1). auto.
  - intros r0 v0 sg [E|[]]. injection E as <- <- <-. rewrite (LD _ _ Heqo0) in Heqo1. destruct (FN _ _ _ Heqo1). auto.
  - intros r0 v0 sg I. destruct (d_lock (m_rounds st r) n) as [(? & ?)|]; destruct I as [I|[]]; discriminate I.
  - intros r0 v0 sg I. destruct o as [(? & ?)|]; destruct I as [I|[]]; discriminate I.
  - intros v0 [E|E]; [auto|]. injection E as <-. right. right. left. eauto.
  - intros v0 [E|E]; [|auto]. injection E as <-. destruct (VF _ _ _ Heqo0). right. right. right. eauto.
  - intros r0 v0 sg [E|[]]. injection E as <- <- <-. destruct (VF _ _ _ Heqo0). auto.
Qed.

Lemma decided_next w i a nm outs r : hon i -> nstep H coin N F ID i (w_mem w i) a = Ret (Some (nm, outs)) -> decided w r -> decided (ns_next w i nm outs) r.
Proof.
  intros Hi X [D|(k & Hk & D)].
  - left. cbn [ns_next w_sent]. apply in_or_app. left. exact D.
  - right. exists k. split; [exact Hk|]. cbn [ns_next w_mem]. unfold up. destruct (Nat.eqb_spec k i) as [->|]; [|exact D].
    pose proof (nstep_vy _ _ _ _ _ r X). lia.
Qed.

Lemma sinv_init vals : sinv (ns_init N bad vals).
Proof.
  constructor.
  - intros i _ r j. cbn. lia.
  - intros i _ r. cbn. lia.
  - intros i v _ [E|E]; cbn in E; discriminate.
  - intros k r I. cbn [ns_init w_sent] in I. apply in_map_iff in I. destruct I as (j & E & _). discriminate E.
Qed.

Lemma sinv_step w i a nm outs : Ginv w -> sinv w -> hon i -> available w i a -> agree V i nm ->
  nstep H coin N F ID i (w_mem w i) a = Ret (Some (nm, outs)) -> sinv (ns_next w i nm outs).
Proof.
  intros G S Hi AV AG X. pose proof (proper_of _ _ _ _ _ _ _ _ _ _ G Hi AV) as PR. pose proof (q_mem _ _ _ _ _ _ _ _ G i Hi) as LI.
  assert (US : w_mem (ns_next w i nm outs) i = nm) by (cbn [ns_next w_mem]; unfold up; rewrite Nat.eqb_refl; reflexivity).
  assert (UO : forall k, k <> i -> w_mem (ns_next w i nm outs) k = w_mem w k).
  { intros k NE. cbn [ns_next w_mem]. unfold up. destruct (Nat.eqb_spec k i); [contradiction|reflexivity]. }
  pose proof (fun r => decided_next w i a nm outs r Hi X) as DN.
  assert (NEW : forall r, (In (ld r, mFin H ID V r (ld r)) (n_got (w_mem w i)) \/ (2 * F + 1 <= length (d_vy (Rnd w i r)))%nat) -> decided w r).
  { intros r [I|L]; [left; exact (proj1 (q_got _ _ _ _ _ _ _ _ G _ _ _ Hi I))|right; exists i; auto]. }
  assert (OUT : (forall v, m_out (n_st nm) = Some v \/ m_halt (n_st nm) = Some v -> exists r, v = V (ld r) r /\ decided w r) /\
                (forall r v sg, In (MHalt r v sg) outs -> decided w r)).
  { destruct (nstep_cases _ _ _ _ _ _ _ _ _ _ X) as [(k & m & e & sms & -> & EV & ST & EO & _)|[(k & r1 & j & s & sh & -> & ES)|(e & sms & -> & IE & ST & EO & _)]].
    - destruct (step_decides i (n_got (w_mem w i)) _ _ _ _ (b_round _ _ _ _ _ _ _ _ LI) ST) as (D1 & D2). rewrite EO. split; [|intros r v sg I; apply NEW; exact (D2 r v sg I)].
      intros v E. destruct (D1 v E) as [Q|[Q|[(r & sg & ->)|(r & Q1 & Q2)]]]; [eapply s_out; eauto|eapply s_out; eauto| |exists r; auto].
      destruct PR as (GD & _). destruct GD; cbn in EV; try discriminate. injection EV as <- <- <-. exists r0. split; [reflexivity|].
      destruct AV as (A1 & _). exact (s_halt _ S _ _ A1).
    - destruct (echo_cases _ _ _ _ _ _ _ _ _ _ _ ES) as (_ & _ & _ & EN). split.
      + intros v E. rewrite EN in E. eapply s_out; eauto.
      + intros r v sg I. exfalso. unfold echo_step in ES. destruct (_ && _); [|discriminate].
        destruct s as [|[|[|s]]]; try discriminate.
        * destruct (sender H F ID i (w_mem w i) r1 1 (n_ech (w_mem w i) r1 1)); [discriminate|]. injection ES as _ ES. rewrite <- ES in I.
          destruct (sender _ _ _ _ _ _ _ _); [|destruct I]. destruct I as [I|[]]; discriminate I.
        * destruct (sender H F ID i (w_mem w i) r1 1 (n_ech (w_mem w i) r1 1)); [|discriminate].
          destruct (sender H F ID i (w_mem w i) r1 2 (n_ech (w_mem w i) r1 2)); [discriminate|]. injection ES as _ ES. rewrite <- ES in I.
          destruct (sender _ _ _ _ _ _ _ _); [|destruct I]. destruct I as [I|[]]; discriminate I.
    - destruct (step_decides i (n_got (w_mem w i)) _ _ _ _ (b_round _ _ _ _ _ _ _ _ LI) ST) as (D1 & D2). rewrite EO. split; [|intros r v sg I; apply NEW; exact (D2 r v sg I)].
      intros v E. destruct (D1 v E) as [Q|[Q|[(r & sg & ->)|(r & Q1 & Q2)]]]; [eapply s_out; eauto|eapply s_out; eauto|discriminate IE|exists r; auto]. }
  destruct OUT as (O1 & O2). constructor.
  - intros k Hk. destruct (Nat.eq_dec k i) as [->|NE]; [rewrite US; eapply nstep_slk; eauto; apply S; exact Hk|rewrite UO by exact NE; apply S; exact Hk].
  - intros k Hk. destruct (Nat.eq_dec k i) as [->|NE]; [rewrite US|rewrite UO by exact NE; apply S; exact Hk].
    eapply carried_step; eauto; [exact (b_cur _ _ _ _ _ _ _ _ LI)|apply S; exact Hk].
  - intros k v Hk E. destruct (Nat.eq_dec k i) as [->|NE].
    + rewrite US in E. destruct (O1 v E) as (r & Q1 & Q2). exists r. auto.
    + rewrite UO in E by exact NE. destruct (s_out _ S k v Hk E) as (r & Q1 & Q2). exists r. auto.
  - intros k r I. cbn [ns_next w_sent] in I. apply in_app_iff in I. destruct I as [I|I]; [apply DN; exact (s_halt _ S _ _ I)|].
    apply in_map_iff in I. destruct I as (m & E & I). injection E as <- ->. apply DN. exact (O2 _ _ _ I).
Qed.

Lemma reach_sinv vals w : nreach H coin N F ID bad vals w -> (forall i, hon i -> agree V i (w_mem w i)) -> sinv w.
Proof.
  induction 1 as [|w i a nm outs R IH Hi AV X]; intros AG.
  - apply sinv_init.
  - assert (AI : agree V i nm).
    { specialize (AG i Hi). cbn [ns_next w_mem] in AG. unfold up in AG. rewrite Nat.eqb_refl in AG. exact AG. }
    assert (AG' : forall k, hon k -> agree V k (w_mem w k)).
    { intros k Hk. destruct (Nat.eq_dec k i) as [->|NE].
      + exact (nstep_agree _ _ _ _ _ _ _ _ _ _ _ X AI).
      + specialize (AG k Hk). cbn [ns_next w_mem] in AG. unfold up in AG. destruct (Nat.eqb_spec k i); [contradiction|exact AG]. }
    apply (sinv_step w i a); auto. exact (reach_ginv _ _ _ _ _ _ _ _ _ R AG').
Qed.

(** ** What follows in one state *)

Section State.
Variable w : nstate.
Hypothesis G : Ginv w.
Hypothesis SI : sinv w.
Hypothesis AG : forall i, hon i -> agree V i (w_mem w i).

Local Notation hs := (hs N bad).

(** The member that broadcast a value of the second stage is honest and reached the round. *)
Lemma val2_by j r : In (j, mVal2 H ID V r j) (w_sent w) -> hon j /\ (r <= m_r (n_st (w_mem w j)))%nat.
Proof.
  intros I. destruct (q_sent _ _ _ _ _ _ _ _ G _ _ I) as (Hj & _ & D). split; [exact Hj|]. cbn [did mVal2] in D.
  destruct (b_ech _ _ _ _ _ _ _ _ (q_mem _ _ _ _ _ _ _ _ G j Hj) r 1) as (L & E & _ & Z). rewrite E, shares_length in D.
  destruct (Nat.le_gt_cases r (m_r (n_st (w_mem w j)))) as [C|C]; [exact C|]. rewrite (Z C) in D. cbn [length] in D. lia.
Qed.

Lemma lock_by k r : hon k -> d_lock (Rnd w k r) (ld r) <> None -> hon (ld r) /\ (r <= m_r (n_st (w_mem w (ld r))))%nat.
Proof.
  intros Hk L. destruct (d_lock (Rnd w k r) (ld r)) as [(v & sg)|] eqn:E; [|congruence].
  destruct (a_lock _ _ _ _ _ _ _ _ _ (b_round _ _ _ _ _ _ _ _ (q_mem _ _ _ _ _ _ _ _ G k Hk) r) _ _ _ E) as (_ & _ & I).
  apply val2_by. exact (proj1 (q_got _ _ _ _ _ _ _ _ G _ _ _ Hk I)).
Qed.

Lemma vy_by k r : hon k -> (1 <= length (d_vy (Rnd w k r)))%nat -> hon (ld r) /\ (r <= m_r (n_st (w_mem w (ld r))))%nat.
Proof.
  intros Hk L. destruct (a_vy _ _ _ _ _ _ _ _ _ (b_round _ _ _ _ _ _ _ _ (q_mem _ _ _ _ _ _ _ _ G k Hk) r)) as (Ly & Y1 & Y2). rewrite Y1, shares_length in L.
  destruct Ly as [|k1 Ly]; [cbn [length] in L; lia|]. assert (I : In k1 (k1 :: Ly)) by (left; reflexivity). apply Y2 in I.
  destruct (q_got _ _ _ _ _ _ _ _ G _ _ _ Hk I) as (IS & _). destruct (q_sent _ _ _ _ _ _ _ _ G _ _ IS) as (H1 & _ & D). cbn [did mVY] in D. destruct D as (_ & x & D).
  pose proof (a_flag _ _ _ _ _ _ _ _ _ (b_round _ _ _ _ _ _ _ _ (q_mem _ _ _ _ _ _ _ _ G k1 H1) r)) as X. rewrite D in X. destruct x as (v & sg). destruct X as (_ & _ & k' & I').
  destruct (q_got _ _ _ _ _ _ _ _ G _ _ _ H1 I') as (IS' & _). destruct (q_sent _ _ _ _ _ _ _ _ G _ _ IS') as (Hk' & _ & D'). cbn [did mPY] in D'.
  exact (lock_by k' r Hk' (proj2 D')).
Qed.

Lemma decided_by r : decided w r -> hon (ld r) /\ (r <= m_r (n_st (w_mem w (ld r))))%nat.
Proof.
  intros [I|(k & Hk & L)]; [|apply (vy_by k r Hk); lia]. destruct (q_sent _ _ _ _ _ _ _ _ G _ _ I) as (Hj & _ & D). split; [exact Hj|]. cbn [did mFin] in D.
  destruct (b_ech _ _ _ _ _ _ _ _ (q_mem _ _ _ _ _ _ _ _ G _ Hj) r 2) as (L & E & _ & Z). rewrite E, shares_length in D.
  destruct (Nat.le_gt_cases r (m_r (n_st (w_mem w (ld r))))) as [C|C]; [exact C|]. rewrite (Z C) in D. cbn [length] in D. lia.
Qed.

Lemma carry i r : hon i -> (r < m_r (n_st (w_mem w i)))%nat ->
  V i (S r) = V (ld r) r /\ hon (ld r) /\ (r <= m_r (n_st (w_mem w (ld r))))%nat \/
  V i (S r) = V i r /\ (2 * F + 1 <= length (d_vn (Rnd w i r)))%nat.
Proof.
  intros Hi L. pose proof (s_carry _ SI i Hi r L) as C. pose proof (a_vflag _ _ _ _ _ _ _ _ _ (b_round _ _ _ _ _ _ _ _ (q_mem _ _ _ _ _ _ _ _ G i Hi) r)) as A.
  rewrite <- (AG i Hi (S r)) by lia. rewrite <- (AG i Hi r) by lia.
  destruct (d_vflag (Rnd w i r)) as [[v s|s|v s]|]; [contradiction| | |contradiction].
  - right. split; [exact C|exact A].
  - left. destruct A as (A1 & A2). rewrite C. split; [exact A1|]. exact (vy_by i r Hi A2).
Qed.

(** Everything proposed was put in by an honest member. *)
Lemma proposed_input r i : hon i -> (r <= m_r (n_st (w_mem w i)))%nat -> exists k, hon k /\ V i r = V k 0.
Proof.
  revert i. induction r as [|r IH]; intros i Hi L; [eauto|].
  destruct (carry i r Hi) as [(E & Hl & Ll)|(E & _)]; [lia| |]; rewrite E.
  - exact (IH _ Hl Ll).
  - apply IH; [exact Hi|lia].
Qed.

Lemma two_lists (L1 L2 : list nat) : NoDup L1 -> NoDup L2 -> (forall k, In k L1 -> hon k) -> (forall k, In k L2 -> hon k) -> (forall k, In k L1 -> ~ In k L2) ->
  (length L1 + length L2 <= length hs)%nat.
Proof.
  intros N1 N2 H1 H2 D. rewrite <- app_length. apply NoDup_incl_length.
  - revert N1 D. clear H1. induction L1 as [|a L1 IH]; cbn [app]; intros N1 D; [exact N2|]. inversion N1; subst. constructor.
    + intros I. apply in_app_iff in I. destruct I as [I|I]; [auto|]. exact (D a (or_introl eq_refl) I).
    + apply IH; [assumption|]. intros k Hk. apply D. right. exact Hk.
  - intros k I. apply hs_in. apply in_app_iff in I. destruct I; auto.
Qed.

Hypothesis HH : (length hs <= 4 * F + 1)%nat.

(** If the value of the leader is decided, nobody goes on with their own value. *)
Lemma decided_no r i : decided w r -> hon i -> (2 * F + 1 <= length (d_vn (Rnd w i r)))%nat -> False.
Proof.
  intros D Hi L. destruct (a_vn _ _ _ _ _ _ _ _ _ (b_round _ _ _ _ _ _ _ _ (q_mem _ _ _ _ _ _ _ _ G i Hi) r)) as (Ln & N1 & N2). rewrite N1, shares_length in L.
  assert (SN : forall k, In k Ln -> hon k /\ d_flag (Rnd w k r) = Some None).
  { intros k I. apply N2 in I. destruct (q_got _ _ _ _ _ _ _ _ G _ _ _ Hi I) as (IS & _). destruct (q_sent _ _ _ _ _ _ _ _ G _ _ IS) as (Hk & _ & X). cbn [did mVN] in X. tauto. }
  destruct D as [I|(k & Hk & LY)].
  - destruct Ln as [|k Ln]; [cbn [length] in L; lia|]. destruct (SN k (or_introl eq_refl)) as (Hk & FL).
    pose proof (b_round _ _ _ _ _ _ _ _ (q_mem _ _ _ _ _ _ _ _ G k Hk) r) as RK. pose proof (a_flag _ _ _ _ _ _ _ _ _ RK) as X. rewrite FL in X.
    destruct (a_pn _ _ _ _ _ _ _ _ _ RK) as (Lp & P1 & P2). rewrite P1, shares_length in X.
    destruct (q_sent _ _ _ _ _ _ _ _ G _ _ I) as (Hl & _ & DF). cbn [did mFin] in DF.
    destruct (b_ech _ _ _ _ _ _ _ _ (q_mem _ _ _ _ _ _ _ _ G _ Hl) r 2) as (Le & E1 & E2 & _). rewrite E1, shares_length in DF.
    assert (TL : (length Lp + length Le <= length hs)%nat); [|lia].
    assert (SP : forall x, In x Lp -> hon x /\ d_lock (Rnd w x r) (ld r) = None).
    { intros x Ix. apply P2 in Ix. destruct (q_got _ _ _ _ _ _ _ _ G _ _ _ Hk Ix) as (IS & _). destruct (q_sent _ _ _ _ _ _ _ _ G _ _ IS) as (Hx & _ & Y). cbn [did mPN] in Y. tauto. }
    assert (SE : forall x, In x Le -> hon x /\ d_lock (Rnd w x r) (ld r) <> None).
    { intros x Ix. apply E2 in Ix. destruct (q_got _ _ _ _ _ _ _ _ G _ _ _ Hl Ix) as (IS & _). destruct (q_sent _ _ _ _ _ _ _ _ G _ _ IS) as (Hx & _ & Y). cbn [did mEcho] in Y.
      split; [exact Hx|]. apply (s_lock _ SI x Hx). exact Y. }
    apply two_lists; [apply P2|apply E2|apply SP|apply SE|]. intros x I1 I2. apply (proj2 (SE x I2)). apply SP. exact I1.
  - destruct (a_vy _ _ _ _ _ _ _ _ _ (b_round _ _ _ _ _ _ _ _ (q_mem _ _ _ _ _ _ _ _ G k Hk) r)) as (Ly & Y1 & Y2). rewrite Y1, shares_length in LY.
    assert (SY : forall x, In x Ly -> hon x /\ d_flag (Rnd w x r) <> Some None).
    { intros x I. apply Y2 in I. destruct (q_got _ _ _ _ _ _ _ _ G _ _ _ Hk I) as (IS & _). destruct (q_sent _ _ _ _ _ _ _ _ G _ _ IS) as (Hx & _ & X). cbn [did mVY] in X.
      destruct X as (_ & y & X). split; [exact Hx|congruence]. }
    assert (TL : (length Ly + length Ln <= length hs)%nat); [|lia].
    apply two_lists; [apply Y2|apply N2|apply SY|apply SN|]. intros x I1 I2. apply (proj2 (SY x I1)). apply SN. exact I2.
Qed.

Lemma decided_after r : decided w r -> forall d i, hon i -> (r + 1 + d <= m_r (n_st (w_mem w i)))%nat -> V i (r + 1 + d) = V (ld r) r.
Proof.
  intros D d. induction d as [|d IH]; intros i Hi L.
  - rewrite Nat.add_0_r, Nat.add_1_r in L |- *. destruct (carry i r Hi) as [(E & _)|(_ & NO)]; [lia|exact E|]. exfalso. exact (decided_no r i D Hi NO).
  - replace (r + 1 + S d)%nat with (S (r + 1 + d)) in * by lia. destruct (carry i (r + 1 + d) Hi) as [(E & Hl & Ll)|(E & _)]; [lia| |]; rewrite E.
    + exact (IH _ Hl Ll).
    + apply IH; [exact Hi|lia].
Qed.

Lemma decided_same r1 r2 : decided w r1 -> decided w r2 -> (r1 <= r2)%nat -> V (ld r1) r1 = V (ld r2) r2.
Proof.
  intros D1 D2 L. destruct (Nat.eq_dec r1 r2) as [->|NE]; [reflexivity|]. destruct (decided_by r2 D2) as (Hl & Ll).
  replace r2 with (r1 + 1 + (r2 - r1 - 1))%nat in Ll |- * by lia. symmetry.
  remember (r1 + 1 + (r2 - r1 - 1))%nat as x eqn:Ex. assert (x = r2) as Ex2 by lia.
  rewrite Ex at 2. apply (decided_after r1 D1 (r2 - r1 - 1)); [rewrite Ex2; exact Hl|rewrite <- Ex; exact Ll].
Qed.

Lemma same_output i j v v' : hon i -> hon j -> m_out (n_st (w_mem w i)) = Some v -> m_out (n_st (w_mem w j)) = Some v' -> v = v'.
Proof.
  intros Hi Hj E1 E2. destruct (s_out _ SI i v Hi (or_introl E1)) as (r1 & -> & D1). destruct (s_out _ SI j v' Hj (or_introl E2)) as (r2 & -> & D2).
  destruct (Nat.le_ge_cases r1 r2); [apply decided_same; auto|symmetry; apply decided_same; auto].
Qed.
End State.
End Safe.
