(** What the pre-vote, vote and election counters of a round mean (for MvbaModel.v). *)

Require Import ZArith List Bool Arith Lia.
From Verif Require Import Bytes CodecModel GoBase DispatchModel MvbaModel MvbaProofs.
Import ListNotations.

Section Votes.
Variable H : list Z -> list Z.
Variable coin : list Z -> Z.
Variables N F : nat.
Variable ID : list Z.
Variable bad : list nat.
Variable vals : nat -> list Z.
Hypothesis HH : forall v, length (H v) = 64%nat.
Hypothesis HN : w32 N.
Hypothesis Hbad : (length bad <= F)%nat.
Hypothesis HNF : (N <= 3 * F + 1)%nat.

Ltac fin E := inversion E; subst; clear E.
Ltac dfields := cbn [d_stage d_lock d_fin d_finN d_done d_doneSent d_coins d_lead d_past d_pre d_pn d_flag d_voted d_vy d_vn d_vflag] in *.

Record tinv (g : gstate) (r : nat) (d : rnd) : Prop := mkTI {
  t_pn : NoDup (map signer (d_pn d)) /\ forall s, In s (d_pn d) -> vshare (smNo ID r) s = true /\ known_share N bad g s;
  t_flag : d_flag d = Some None -> (2 * F < length (d_pn d))%nat;
  t_coins : forall s, In s (d_coins d) -> vshare (smDone ID r) s = true /\ known_share N bad g s;
  t_done : d_done d = true -> (2 * F + 1 <= d_finN d)%nat \/ (F + 1 <= length (d_coins d))%nat;
  t_sent : d_doneSent d = true -> d_done d = true;
  t_other : forall v sg, d_vflag d = Some (VOther v sg) ->
    exists l, d_lead d = Some l /\ certified N F bad g (smEcho ID r l 1 (H v));
  t_fin : length (d_fin d) = d_finN d }.

Lemma tinv0 g r : tinv g r rnd0.
Proof. constructor; cbn; try discriminate; try reflexivity; [split; [constructor|]|]; intros s []. Qed.

Lemma tinv_mono g g' r d : (forall x, In x (gs_rel g) -> In x (gs_rel g')) -> tinv g r d -> tinv g' r d.
Proof.
  intros M [(a1 & a2) b c e f o q]. constructor; try assumption.
  - split; [exact a1|]. intros s Hs. destruct (a2 s Hs) as (A & B). split; [exact A|]. apply (share_mono N bad g); assumption.
  - intros s Hs. destruct (c s Hs) as (A & B). split; [exact A|]. apply (share_mono N bad g); assumption.
  - intros v sg K. destruct (o v sg K) as (l & A & B). exists l. split; [exact A|]. apply (cert_mono N F bad g); assumption.
Qed.

Lemma tround_setr g st r d : (forall k, tinv g k (m_rounds st k)) -> tinv g r d -> forall k, tinv g k (m_rounds (setr st r d) k).
Proof.
  intros A B k. unfold setr, putr. cbn [m_rounds]. destruct (k =? r)%nat eqn:E; [apply Nat.eqb_eq in E; subst; exact B|apply A].
Qed.

Lemma step_votes g i e st' sms : allowed N F bad g e -> once g i e -> (forall k, tinv g k (m_rounds (gs_m g i) k)) ->
  mstep H coin N F ID (gs_m g i) e = Ret (Some (st', sms)) -> forall k, tinv g k (m_rounds st' k).
Proof.
  intros AL ON O E. set (st := gs_m g i) in *.
  destruct e; cbn [mstep allowed once] in *.
  - unfold value_step in E. destruct (_ && _) eqn:EB; [|discriminate]. pose proof (O r) as [a1 a2 a3 a4 a5 a6 a7].
    destruct stage as [|[|[|s]]]; try discriminate.
    + fin E. apply tround_setr; [exact O|]. constructor; dfields; assumption.
    + destruct (vsig _ _); [|discriminate]. fin E. apply tround_setr; [exact O|]. constructor; dfields; assumption.
  - unfold finish_step in E. pose proof (O r) as [a1 a2 a3 a4 a5 a6 a7]. destruct (r <=? m_r st)%nat; [|discriminate]. destruct (_ && _) eqn:ES; [|discriminate].
    destruct (vsig _ _) eqn:EV; fin E; [|exact O]. apply tround_setr; [exact O|]. constructor; dfields; try assumption.
    + intros K. apply orb_true_iff in K as [K|K]; [destruct (a4 K); [left; lia|right; assumption]|]. change ((S (d_finN (m_rounds st r)) =? 2 * F + 1)%nat = true) in K. apply Nat.eqb_eq in K. left. lia.
    + intros K. rewrite (a5 K). reflexivity.
    + cbn [length]. rewrite a7. reflexivity.
  - unfold election_step in E. pose proof (O r) as [a1 a2 a3 a4 a5 a6 a7]. destruct (_ && _) eqn:EB; fin E. apply andb_true_iff in EB as (EB & _). apply andb_true_iff in EB as (_ & EB).
    apply tround_setr; [exact O|]. constructor; dfields; try assumption. intros _. exact EB.
  - unfold done_step in E. pose proof (O r) as [a1 a2 a3 a4 a5 a6 a7]. destruct (d_lead (m_rounds st r)) eqn:EL; [discriminate|]. destruct (r <=? m_r st)%nat; [|discriminate].
    destruct (vshare _ _) eqn:EV; fin E; [|exact O]. fold st in ON. apply tround_setr; [exact O|].
    constructor; dfields; try assumption.
    + intros s Hs. apply in_app_or in Hs. destruct Hs as [Hs|[<-|[]]]; [apply a3; exact Hs|split; assumption].
    + intros K. rewrite app_length. cbn [length]. apply orb_true_iff in K as [K|K]; [destruct (a4 K); [left; assumption|right; lia]|].
      apply Nat.eqb_eq in K. rewrite app_length in K. cbn [length] in K. right. lia.
    + intros K. rewrite (a5 K). reflexivity.
    + intros v s K. destruct (a6 v s K) as (l & K1 & _). discriminate.
  - unfold leader_step in E. pose proof (O (m_r st)) as [a1 a2 a3 a4 a5 a6 a7]. destruct (m_out st); [discriminate|]. destruct (d_lead (m_rounds st (m_r st))) eqn:EL; [|discriminate].
    destruct (d_past _) eqn:EP; [discriminate|]. destruct (assoc _ _) as [(v & sg)|]; fin E; cbn [m_rounds]; (apply tround_setr; [exact O|]); constructor; dfields; rewrite ?EL; assumption.
  - unfold preVote_step in E. pose proof (O r) as [a1 a2 a3 a4 a5 a6 a7]. destruct (d_lead (m_rounds st r)) eqn:EL; [|discriminate]. destruct (_ && _); fin E.
    apply tround_setr; [exact O|]. constructor; dfields; rewrite ?EL; assumption.
  - unfold preVoteYes_step in E. pose proof (O r) as [a1 a2 a3 a4 a5 a6 a7]. destruct (d_lead (m_rounds st r)) eqn:EL; [|discriminate]. destruct (vsig _ _) eqn:EV; fin E; [|exact O].
    apply tround_setr; [exact O|]. constructor; dfields; rewrite ?EL; try assumption. destruct (d_flag (m_rounds st r)) as [f|]; [exact a2|discriminate].
  - unfold preVoteNo_step in E. pose proof (O r) as [a1 a2 a3 a4 a5 a6 a7]. destruct (d_lead (m_rounds st r)) eqn:EL; [|discriminate]. destruct (vshare _ _) eqn:EV; fin E; [|exact O].
    fold st in ON. apply tround_setr; [exact O|]. constructor; dfields; rewrite ?EL; try assumption.
    + destruct a1 as (A1 & A2). split; [rewrite map_app; apply nodup_snoc; assumption|].
      intros s Hs. apply in_app_or in Hs. destruct Hs as [Hs|[<-|[]]]; [apply A2; exact Hs|split; assumption].
    + change (F + (F + 0))%nat with (2 * F)%nat. rewrite app_length. cbn [length]. destruct (d_flag (m_rounds st r)) as [f|] eqn:EF.
      * intros K. specialize (a2 K). lia.
      * destruct (2 * F <? _)%nat eqn:E2; [|discriminate]. intros _. apply Nat.ltb_lt in E2. exact E2.
  - unfold vote_step in E. pose proof (O r) as [a1 a2 a3 a4 a5 a6 a7]. destruct (d_lead (m_rounds st r)) eqn:EL; [|discriminate]. destruct (d_flag (m_rounds st r)) eqn:EF; [|discriminate].
    destruct (_ && _); fin E. apply tround_setr; [exact O|]. constructor; dfields; rewrite ?EL, ?EF; assumption.
  - unfold voteYes_step in E. pose proof (O r) as [a1 a2 a3 a4 a5 a6 a7]. destruct (d_lead (m_rounds st r)) eqn:EL; [|discriminate].
    destruct (vsig _ _ && vshare _ _) eqn:EB; fin E; [|exact O]. apply andb_true_iff in EB. destruct EB as (EV & EW). destruct AL as (A1 & A2).
    apply tround_setr; [exact O|]. constructor; dfields; rewrite ?EL; try assumption.
    intros v0 s0 Hf. destruct (d_vflag (m_rounds st r)) as [f|] eqn:EF; cbn [first] in Hf; [apply (a6 v0 s0); exact Hf|].
    destruct (_ <? _)%nat in Hf; [discriminate|]. destruct (_ <? _)%nat in Hf; [|discriminate].
    assert (v0 = v) by (inversion Hf; reflexivity). subst v0. exists n. split; [reflexivity|]. exact (vsig_known N F bad g _ _ EV A1).
  - unfold voteNo_step in E. pose proof (O r) as [a1 a2 a3 a4 a5 a6 a7]. destruct (d_lead (m_rounds st r)) eqn:EL; [|discriminate].
    destruct (vsig _ _ && vshare _ _) eqn:EB; fin E; [|exact O].
    apply tround_setr; [exact O|]. constructor; dfields; rewrite ?EL; try assumption.
    intros v0 s0 Hf. destruct (d_vflag (m_rounds st r)) as [f|] eqn:EF; cbn [first] in Hf; [apply (a6 v0 s0); exact Hf|].
    destruct (_ <? _)%nat; discriminate.
  - unfold halt_step in E. destruct (d_lead (m_rounds st r)) eqn:EL; [|discriminate]. destruct (vsig _ _).
    + destruct (m_halt st); fin E. exact O.
    + fin E. exact O.
  - unfold haltTake_step in E. destruct (m_out st), (m_halt st); fin E. exact O.
  - unfold result_step in E. destruct (m_out st); [discriminate|]. destruct (d_vflag _) as [f|]; [|discriminate]. destruct (d_past _); [|discriminate].
    destruct f; fin E; exact O.
Qed.

Lemma reach_votes g : reach H coin N F ID bad vals once g -> forall i r, tinv g r (m_rounds (gs_m g i) r).
Proof.
  induction 1 as [|g i e st sms R IH Hi AL ON W E]; intros k r; [apply tinv0|].
  apply (tinv_mono g); [intros x Hx; apply in_or_app; left; exact Hx|].
  cbn [gs_next gs_m]. destruct (k =? i)%nat; [|apply IH]. eapply step_votes; eauto.
Qed.

Lemma finN_mono st e st' sms : mstep H coin N F ID st e = Ret (Some (st', sms)) ->
  forall r, (d_finN (m_rounds st r) <= d_finN (m_rounds st' r))%nat.
Proof.
  intros E r0.
  assert (A : forall r d, (d_finN (m_rounds st r) <= d_finN d)%nat -> (d_finN (m_rounds st r0) <= d_finN (m_rounds (setr st r d) r0))%nat).
  { intros r d K. unfold setr, putr. cbn [m_rounds]. destruct (r0 =? r)%nat eqn:Q; [apply Nat.eqb_eq in Q; subst; exact K|lia]. }
  destruct e; cbn [mstep] in E.
  - unfold value_step in E. destruct (_ && _); [|discriminate]. destruct stage as [|[|[|s]]]; try discriminate.
    + fin E. apply A. dfields. lia.
    + destruct (vsig _ _); [|discriminate]. fin E. apply A. dfields. lia.
  - unfold finish_step in E. destruct (r <=? m_r st)%nat; [|discriminate]. destruct (_ && _); [|discriminate].
    destruct (vsig _ _); fin E; [|lia]. apply A. dfields. lia.
  - unfold election_step in E. destruct (_ && _); fin E. apply A. dfields. lia.
  - unfold done_step in E. destruct (d_lead (m_rounds st r)); [discriminate|]. destruct (r <=? m_r st)%nat; [|discriminate].
    destruct (vshare _ _); fin E; [|lia]. apply A. dfields. lia.
  - unfold leader_step in E. destruct (m_out st); [discriminate|]. destruct (d_lead (m_rounds st (m_r st))); [|discriminate].
    destruct (d_past _); [discriminate|]. destruct (assoc _ _) as [(v & sg)|]; fin E; cbn [m_rounds]; apply A; dfields; lia.
  - unfold preVote_step in E. destruct (d_lead (m_rounds st r)); [|discriminate]. destruct (_ && _); fin E. apply A. dfields. lia.
  - unfold preVoteYes_step in E. destruct (d_lead (m_rounds st r)); [|discriminate]. destruct (vsig _ _); fin E; [|lia]. apply A. dfields. lia.
  - unfold preVoteNo_step in E. destruct (d_lead (m_rounds st r)); [|discriminate]. destruct (vshare _ _); fin E; [|lia]. apply A. dfields. lia.
  - unfold vote_step in E. destruct (d_lead (m_rounds st r)); [|discriminate]. destruct (d_flag (m_rounds st r)); [|discriminate].
    destruct (_ && _); fin E. apply A. dfields. lia.
  - unfold voteYes_step in E. destruct (d_lead (m_rounds st r)); [|discriminate]. destruct (vsig _ _ && vshare _ _); fin E; [|lia]. apply A. dfields. lia.
  - unfold voteNo_step in E. destruct (d_lead (m_rounds st r)); [|discriminate]. destruct (vsig _ _ && vshare _ _); fin E; [|lia]. apply A. dfields. lia.
  - unfold halt_step in E. destruct (d_lead (m_rounds st r)); [|discriminate]. destruct (vsig _ _).
    + destruct (m_halt st); fin E. cbn [m_rounds]. lia.
    + fin E. lia.
  - unfold haltTake_step in E. destruct (m_out st), (m_halt st); fin E. cbn [m_rounds]. lia.
  - unfold result_step in E. destruct (m_out st); [discriminate|]. destruct (d_vflag _) as [f|]; [|discriminate]. destruct (d_past _); [|discriminate].
    destruct f; fin E; cbn [m_rounds]; lia.
Qed.

(** Valid shares of different signers, known to be sent, make a certificate. *)
Lemma shares_members g sm l : NoDup (map signer l) -> (forall s, In s l -> vshare sm s = true /\ known_share N bad g s) ->
  forall i, In i (map signer l) -> (i < N)%nat /\ (hon N bad i -> In (i, sm) (gs_rel g)).
Proof.
  intros D K i Hi. apply in_map_iff in Hi as (s & Es & Hs). destruct (K s Hs) as (A & B).
  destruct (vshare_eq _ _ A) as (k & ->). cbn [signer] in Es. subst k. exact B.
Qed.

Lemma shares_certify g sm l : NoDup (map signer l) -> (forall s, In s l -> vshare sm s = true /\ known_share N bad g s) ->
  (2 * F < length l)%nat -> certified N F bad g sm.
Proof.
  intros D K L. exists (map signer l). split; [exact D|]. split; [rewrite map_length; lia|]. apply (shares_members g sm l D K).
Qed.

(** Whoever has sent its share of the coin has ended its election. *)
Lemma done_sent g i r : inv H N F ID bad g -> w32 r -> In (i, smDone ID r) (gs_rel g) -> d_doneSent (m_rounds (gs_m g i) r) = true.
Proof.
  intros I W R. destruct (v_rel _ _ _ _ _ _ I i _ R) as (_ & k & Kk & Ek & J).
  destruct (render_inj_any ID ID (KDone r) k W Kk Ek) as (_ & <-). exact J.
Qed.

Lemma unlock_sent g i r : inv H N F ID bad g -> w32 r -> In (i, smUnlock ID r) (gs_rel g) -> d_flag (m_rounds (gs_m g i) r) = Some None.
Proof.
  intros I W R. destruct (v_rel _ _ _ _ _ _ I i _ R) as (_ & k & Kk & Ek & J).
  destruct (render_inj_any ID ID (KUnlock r) k W Kk Ek) as (_ & <-). exact (proj2 J).
Qed.

Lemma reach_finish g : reach H coin N F ID bad vals once g -> forall i r, w32 r -> d_done (m_rounds (gs_m g i) r) = true ->
  exists j, hon N bad j /\ (2 * F + 1 <= d_finN (m_rounds (gs_m g j) r))%nat.
Proof.
  induction 1 as [|g i e st sms R IH Hi AL ON W E]; intros k r Wr D; [discriminate|].
  assert (UP : forall j, hon N bad j /\ (2 * F + 1 <= d_finN (m_rounds (gs_m g j) r))%nat ->
    hon N bad j /\ (2 * F + 1 <= d_finN (m_rounds (gs_m (gs_next g i st sms) j) r))%nat).
  { intros j (A & B). split; [exact A|]. cbn [gs_next gs_m]. destruct (j =? i)%nat eqn:Q; [|exact B].
    apply Nat.eqb_eq in Q. subst j. pose proof (finN_mono _ _ _ _ E r). lia. }
  destruct (k =? i)%nat eqn:Q.
  - apply Nat.eqb_eq in Q. subst k. cbn [gs_next gs_m] in D. rewrite Nat.eqb_refl in D.
    destruct (reach_once H coin N F ID bad vals HH HN Hbad HNF g R) as (I & O & _).
    pose proof (step_votes g i e st sms AL ON (reach_votes g R i) E r) as T.
    assert (HP : (0 < N)%nat) by (destruct Hi; lia).
    pose proof (step_once H coin N F ID bad HH HN Hbad HNF g i e st sms HP I AL ON W (O i) E r) as O'.
    destruct (t_done _ _ _ T D) as [A|A].
    + exists i. split; [exact Hi|]. cbn [gs_next gs_m]. rewrite Nat.eqb_refl. exact A.
    + pose proof (shares_members g _ _ (proj1 (o_coins _ _ _ _ _ _ _ _ _ O')) (t_coins _ _ _ T)) as M.
      destruct (hon_in N F bad Hbad (map signer (d_coins (m_rounds st r)))) as (j & J1 & J2).
      * exact (proj1 (o_coins _ _ _ _ _ _ _ _ _ O')).
      * intros j Hj. apply M. exact Hj.
      * rewrite map_length. exact A.
      * destruct (M j J1) as (_ & M2). specialize (M2 J2).
        pose proof (done_sent g j r I Wr M2) as DS.
        destruct (IH j r Wr (t_sent _ _ _ (reach_votes g R j r) DS)) as (k & K). exists k. apply UP. exact K.
  - cbn [gs_next gs_m] in D. rewrite Q in D. destruct (IH k r Wr D) as (j & J). exists j. apply UP. exact J.
Qed.
End Votes.
