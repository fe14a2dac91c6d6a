(** How values go from round to round in MvbaModel.v, and when the outputs of MainProcess agree. *)

Require Import ZArith List Bool Arith Lia.
From Verif Require Import Bytes CodecModel GoBase DispatchModel MvbaModel MvbaProofs VoteProofs.
Import ListNotations.

(** The value with which a member whose input is [v0] goes into round r (main_process.go:129-148). *)
Fixpoint entered (v0 : list Z) (st : mst) (r : nat) : list Z :=
  match r with
  | O => v0
  | S k => match d_vflag (m_rounds st k) with Some (VOther v _) => v | _ => entered v0 st k end
  end.

(** From round 1 on a member takes only proposals that are the value of some honest member in that round.
    (This is what a check of the proposals would give; the code has none, pb.go:63-69 with the nil of spb.go:47.) *)
Definition checked (N : nat) (bad : list nat) (vals : nat -> list Z) (g : gstate) (e : mev) : Prop :=
  match e with
  | EvValue (S k) _ 1 v _ => exists m, hon N bad m /\ (S k <= m_r (gs_m g m))%nat /\ entered (vals m) (gs_m g m) (S k) = v
  | _ => True
  end.
Definition once_checked N bad vals (g : gstate) (i : nat) (e : mev) : Prop := once g i e /\ checked N bad vals g e.

Lemma reach_weaken H coin N F ID bad vals (P Q : gstate -> nat -> mev -> Prop) : (forall g i e, P g i e -> Q g i e) ->
  forall g, reach H coin N F ID bad vals P g -> reach H coin N F ID bad vals Q g.
Proof. intros HPQ g R. induction R as [|g i e st sms R IH Hi AL ON W E]; [constructor|]. econstructor; eauto. Qed.

Section Agreement.
Variable H : list Z -> list Z.
Variable coin : list Z -> Z.
Variables N F : nat.
Variable ID : list Z.
Variable bad : list nat.
Variable vals : nat -> list Z.
Hypothesis HH : forall v, length (H v) = 64%nat.
Hypothesis HN : w32 N.
Hypothesis Hbad : (length bad <= F)%nat.
Hypothesis HNF : (N <= 3 * F + 1)%nat.

Ltac fin E := inversion E; subst; clear E.
Ltac dfields := cbn [d_stage d_lock d_fin d_finN d_done d_doneSent d_coins d_lead d_past d_pre d_pn d_flag d_voted d_vy d_vn d_vflag] in *.

(** ** The results of the rounds *)

(** What a step does to the result of a round, to the round and to the value. *)
Lemma step_result st e st' sms : mstep H coin N F ID st e = Ret (Some (st', sms)) ->
  (forall r f, d_vflag (m_rounds st r) = Some f -> d_vflag (m_rounds st' r) = Some f) /\
  ((m_r st' = m_r st /\ m_val st' = m_val st) \/
   (m_r st' = S (m_r st) /\ m_rounds st' = m_rounds st /\
     ((exists sg, d_vflag (m_rounds st (m_r st)) = Some (VOther (m_val st') sg)) \/
      (exists s, d_vflag (m_rounds st (m_r st)) = Some (VNo s)) /\ m_val st' = m_val st))).
Proof.
  intros E.
  assert (A : forall r d, (forall f, d_vflag (m_rounds st r) = Some f -> d_vflag d = Some f) ->
    forall k f, d_vflag (m_rounds st k) = Some f -> d_vflag (m_rounds (setr st r d) k) = Some f).
  { intros r d K k f Hf. unfold setr, putr. cbn [m_rounds]. destruct (k =? r)%nat eqn:Q; [apply Nat.eqb_eq in Q; subst; auto|exact Hf]. }
  destruct e; cbn [mstep] in E.
  - unfold value_step in E. destruct (_ && _); [|discriminate]. destruct stage as [|[|[|s]]]; try discriminate.
    + fin E. split; [apply A; dfields; auto|left; split; reflexivity].
    + destruct (vsig _ _); [|discriminate]. fin E. split; [apply A; dfields; auto|left; split; reflexivity].
  - unfold finish_step in E. destruct (r <=? m_r st)%nat; [|discriminate]. destruct (_ && _); [|discriminate].
    destruct (vsig _ _); fin E; (split; [|left; split; reflexivity]); try (apply A; dfields; auto); auto.
  - unfold election_step in E. destruct (_ && _); fin E. split; [apply A; dfields; auto|left; split; reflexivity].
  - unfold done_step in E. destruct (d_lead (m_rounds st r)); [discriminate|]. destruct (r <=? m_r st)%nat; [|discriminate].
    destruct (vshare _ _); fin E; (split; [|left; split; reflexivity]); try (apply A; dfields; auto); auto.
  - unfold leader_step in E. destruct (m_out st); [discriminate|]. destruct (d_lead (m_rounds st (m_r st))); [|discriminate].
    destruct (d_past _); [discriminate|]. destruct (assoc _ _) as [(v & sg)|]; fin E; (split; [|left; split; reflexivity]); cbn [m_rounds]; apply A; dfields; auto.
  - unfold preVote_step in E. destruct (d_lead (m_rounds st r)); [|discriminate]. destruct (_ && _); fin E. split; [apply A; dfields; auto|left; split; reflexivity].
  - unfold preVoteYes_step in E. destruct (d_lead (m_rounds st r)); [|discriminate]. destruct (vsig _ _); fin E; (split; [|left; split; reflexivity]); try (apply A; dfields; auto); auto.
  - unfold preVoteNo_step in E. destruct (d_lead (m_rounds st r)); [|discriminate]. destruct (vshare _ _); fin E; (split; [|left; split; reflexivity]); try (apply A; dfields; auto); auto.
  - unfold vote_step in E. destruct (d_lead (m_rounds st r)); [|discriminate]. destruct (d_flag (m_rounds st r)); [|discriminate].
    destruct (_ && _); fin E. split; [apply A; dfields; auto|left; split; reflexivity].
  - unfold voteYes_step in E. destruct (d_lead (m_rounds st r)); [|discriminate]. destruct (vsig _ _ && vshare _ _); fin E; (split; [|left; split; reflexivity]); try (apply A; dfields; intros f ->; reflexivity); auto.
  - unfold voteNo_step in E. destruct (d_lead (m_rounds st r)); [|discriminate]. destruct (vsig _ _ && vshare _ _); fin E; (split; [|left; split; reflexivity]); try (apply A; dfields; intros f ->; reflexivity); auto.
  - unfold halt_step in E. destruct (d_lead (m_rounds st r)); [|discriminate]. destruct (vsig _ _).
    + destruct (m_halt st); fin E. split; [auto|left; split; reflexivity].
    + fin E. split; [auto|left; split; reflexivity].
  - unfold haltTake_step in E. destruct (m_out st), (m_halt st); fin E. split; [auto|left; split; reflexivity].
  - unfold result_step in E. destruct (m_out st); [discriminate|]. destruct (d_vflag _) as [f|] eqn:EF; [|discriminate]. destruct (d_past _); [|discriminate].
    destruct f; fin E; (split; [cbn [m_rounds]; auto|]); cbn [m_r m_val m_rounds].
    + left. split; reflexivity.
    + right. split; [reflexivity|]. split; [reflexivity|]. right. split; [exists s; reflexivity|reflexivity].
    + right. split; [reflexivity|]. split; [reflexivity|]. left. exists s. reflexivity.
Qed.

(** A member past a round has left it with a mixed result or with No. *)
Definition left_with (st : mst) (k : nat) : Prop :=
  (exists v sg, d_vflag (m_rounds st k) = Some (VOther v sg)) \/ (exists s, d_vflag (m_rounds st k) = Some (VNo s)).

Record pinv (v0 : list Z) (st : mst) : Prop := mkPI {
  p_left : forall k, (k < m_r st)%nat -> w32 k /\ left_with st k;
  p_val : m_val st = entered v0 st (m_r st) }.

Lemma entered_stable v0 st st' : (forall r f, d_vflag (m_rounds st r) = Some f -> d_vflag (m_rounds st' r) = Some f) ->
  forall k, (forall q, (q < k)%nat -> left_with st q) -> entered v0 st' k = entered v0 st k.
Proof.
  intros M. induction k as [|k IH]; intros L; [reflexivity|]. cbn [entered].
  destruct (L k) as [(v & sg & E)|(s & E)]; [lia| |]; rewrite E, (M _ _ E); [reflexivity|]. apply IH. intros q Hq. apply L. lia.
Qed.

Lemma step_pinv v0 st e st' sms : w32 (m_r st) -> mstep H coin N F ID st e = Ret (Some (st', sms)) -> pinv v0 st ->
  pinv v0 st' /\ (m_r st <= m_r st')%nat /\ forall k, (k <= m_r st)%nat -> entered v0 st' k = entered v0 st k.
Proof.
  intros W E [PL PV]. destruct (step_result st e st' sms E) as (M & K).
  assert (ST : forall k, (k <= m_r st)%nat -> entered v0 st' k = entered v0 st k).
  { intros k Hk. apply entered_stable; [exact M|]. intros q Hq. apply PL. lia. }
  assert (LW : forall k, left_with st k -> left_with st' k).
  { intros k [(v & sg & A)|(s & A)]; [left; exists v, sg|right; exists s]; apply M; exact A. }
  destruct K as [(A & B)|(A & B & C)].
  - split; [|split; [lia|exact ST]]. constructor.
    + intros k Hk. rewrite A in Hk. destruct (PL k Hk) as (X & Y). auto.
    + rewrite A, B, ST by lia. exact PV.
  - split; [|split; [lia|exact ST]]. constructor.
    + intros k Hk. rewrite A in Hk. destruct (Nat.eq_dec k (m_r st)) as [->|Nk].
      * split; [exact W|]. apply LW. destruct C as [(sg & C)|((s & C) & _)]; [left; eexists; eexists; exact C|right; exists s; exact C].
      * destruct (PL k) as (X & Y); [lia|]. auto.
    + rewrite A. cbn [entered]. rewrite B. destruct C as [(sg & C)|((s & C) & D)]; rewrite C; [reflexivity|].
      rewrite ST by lia. rewrite D. exact PV.
Qed.

(** ** The No-votes *)

Record uinv (g : gstate) (r : nat) (d : rnd) : Prop := mkUI {
  u_vn : NoDup (map signer (d_vn d)) /\ forall s, In s (d_vn d) -> vshare (smUnlock ID r) s = true /\ known_share N bad g s;
  u_no : forall s, d_vflag d = Some (VNo s) -> (2 * F < length (d_vn d))%nat }.

Lemma uinv0 g r : uinv g r rnd0.
Proof. constructor; cbn; [split; [constructor|intros s []]|discriminate]. Qed.

Lemma uinv_mono g g' r d : (forall x, In x (gs_rel g) -> In x (gs_rel g')) -> uinv g r d -> uinv g' r d.
Proof.
  intros M [(a1 & a2) b]. constructor; [|exact b]. split; [exact a1|]. intros s Hs. destruct (a2 s Hs) as (A & B).
  split; [exact A|]. apply (share_mono N bad g); assumption.
Qed.

Lemma uround_setr g st r d : (forall k, uinv g k (m_rounds st k)) -> uinv g r d -> forall k, uinv g k (m_rounds (setr st r d) k).
Proof.
  intros A B k. unfold setr, putr. cbn [m_rounds]. destruct (k =? r)%nat eqn:E; [apply Nat.eqb_eq in E; subst; exact B|apply A].
Qed.

Lemma step_uinv g i e st' sms : allowed N F bad g e -> once g i e -> (forall k, uinv g k (m_rounds (gs_m g i) k)) ->
  mstep H coin N F ID (gs_m g i) e = Ret (Some (st', sms)) -> forall k, uinv g k (m_rounds st' k).
Proof.
  intros AL ON O E. set (st := gs_m g i) in *.
  assert (KEEP : forall r d, d_vn d = d_vn (m_rounds st r) -> d_vflag d = d_vflag (m_rounds st r) -> forall k, uinv g k (m_rounds (setr st r d) k)).
  { intros r d A B. apply uround_setr; [exact O|]. destruct (O r) as [a b]. constructor; rewrite A; [exact a|rewrite B; exact b]. }
  destruct e; cbn [mstep allowed once] in *.
  - unfold value_step in E. destruct (_ && _) eqn:EB; [|discriminate].
    destruct stage as [|[|[|s]]]; try discriminate.
    + fin E. apply KEEP; reflexivity.
    + destruct (vsig _ _); [|discriminate]. fin E. apply KEEP; reflexivity.
  - unfold finish_step in E. destruct (r <=? m_r st)%nat; [|discriminate]. destruct (_ && _) eqn:ES; [|discriminate].
    destruct (vsig _ _) eqn:EV; fin E; [|exact O]. apply KEEP; reflexivity.
  - unfold election_step in E. destruct (_ && _) eqn:EB; fin E. apply KEEP; reflexivity.
  - unfold done_step in E. destruct (d_lead (m_rounds st r)) eqn:EL; [discriminate|]. destruct (r <=? m_r st)%nat; [|discriminate].
    destruct (vshare _ _) eqn:EV; fin E; [|exact O]. apply KEEP; reflexivity.
  - unfold leader_step in E. destruct (m_out st); [discriminate|]. destruct (d_lead (m_rounds st (m_r st))) eqn:EL; [|discriminate].
    destruct (d_past _) eqn:EP; [discriminate|]. destruct (assoc _ _) as [(v & sg)|]; fin E; cbn [m_rounds]; apply KEEP; reflexivity.
  - unfold preVote_step in E. destruct (d_lead (m_rounds st r)) eqn:EL; [|discriminate]. destruct (_ && _); fin E. apply KEEP; reflexivity.
  - unfold preVoteYes_step in E. destruct (d_lead (m_rounds st r)) eqn:EL; [|discriminate]. destruct (vsig _ _) eqn:EV; fin E; [|exact O]. apply KEEP; reflexivity.
  - unfold preVoteNo_step in E. destruct (d_lead (m_rounds st r)) eqn:EL; [|discriminate]. destruct (vshare _ _) eqn:EV; fin E; [|exact O]. apply KEEP; reflexivity.
  - unfold vote_step in E. destruct (d_lead (m_rounds st r)) eqn:EL; [|discriminate]. destruct (d_flag (m_rounds st r)) eqn:EF; [|discriminate].
    destruct (_ && _); fin E. apply KEEP; reflexivity.
  - unfold voteYes_step in E. destruct (d_lead (m_rounds st r)) eqn:EL; [|discriminate].
    destruct (vsig _ _ && vshare _ _) eqn:EB; fin E; [|exact O]. apply uround_setr; [exact O|]. destruct (O r) as [a b].
    constructor; dfields; [exact a|]. intros s Hf. destruct (d_vflag (m_rounds st r)) as [f|] eqn:EF; cbn [first] in Hf; [apply (b s); exact Hf|].
    destruct (_ <? _)%nat in Hf; [discriminate|]. destruct (_ <? _)%nat in Hf; discriminate.
  - unfold voteNo_step in E. destruct (d_lead (m_rounds st r)) eqn:EL; [|discriminate].
    destruct (vsig _ _ && vshare _ _) eqn:EB; fin E; [|exact O]. apply andb_true_iff in EB. destruct EB as (EV & EW). destruct AL as (A1 & A2).
    fold st in ON. apply uround_setr; [exact O|]. destruct (O r) as [(a1 & a2) b]. constructor; dfields.
    + split; [rewrite map_app; apply nodup_snoc; assumption|]. intros s Hs. apply in_app_or in Hs. destruct Hs as [Hs|[<-|[]]]; [apply a2; exact Hs|split; assumption].
    + intros s Hf. change (F + (F + 0))%nat with (2 * F)%nat in *. rewrite app_length in Hf |- *. cbn [length] in Hf |- *. destruct (d_vflag (m_rounds st r)) as [f|] eqn:EF; cbn [first] in Hf.
      * specialize (b s Hf). lia.
      * destruct (2 * F <? _)%nat eqn:E2 in Hf; [|discriminate]. apply Nat.ltb_lt in E2. exact E2.
  - unfold halt_step in E. destruct (d_lead (m_rounds st r)) eqn:EL; [|discriminate]. destruct (vsig _ _).
    + destruct (m_halt st); fin E. exact O.
    + fin E. exact O.
  - unfold haltTake_step in E. destruct (m_out st), (m_halt st); fin E. exact O.
  - unfold result_step in E. destruct (m_out st); [discriminate|]. destruct (d_vflag _) as [f|]; [|discriminate]. destruct (d_past _); [|discriminate].
    destruct f; fin E; exact O.
Qed.

Lemma reach_results g : reach H coin N F ID bad vals once g ->
  (forall i, pinv (vals i) (gs_m g i)) /\ (forall i r, uinv g r (m_rounds (gs_m g i) r)).
Proof.
  induction 1 as [|g i e st sms R (IH1 & IH2) Hi AL ON W E].
  - split; [|intros; apply uinv0]. intros i. constructor; [intros k Hk; cbn in Hk; lia|reflexivity].
  - split.
    + intros k. cbn [gs_next gs_m]. destruct (k =? i)%nat eqn:Q; [|apply IH1]. apply Nat.eqb_eq in Q. subst k.
      apply (step_pinv (vals i) _ e st sms W E (IH1 i)).
    + intros k r. apply (uinv_mono g); [intros x Hx; apply in_or_app; left; exact Hx|].
      cbn [gs_next gs_m]. destruct (k =? i)%nat; [|apply IH2]. eapply step_uinv; eauto.
Qed.

Definition decision (g : gstate) (r : nat) (h : list Z) : Prop := certified N F bad g (smEcho ID r (leader_of coin N ID r) 2 h).

Lemma cert_hon g sm : certified N F bad g sm -> exists i, hon N bad i /\ In (i, sm) (gs_rel g).
Proof. intros C. destruct (meet N F bad Hbad HNF g sm sm C C) as (i & A & B & _). eauto. Qed.

Lemma leader_w32 g r h : decision g r h -> w32 (leader_of coin N ID r) /\ (leader_of coin N ID r < N)%nat.
Proof.
  intros C. assert (HP : (0 < N)%nat).
  { destruct C as (L & _ & HL & HM). destruct L as [|a L]; [cbn in HL; lia|]. destruct (HM a (or_introl eq_refl)). lia. }
  assert (LN : (leader_of coin N ID r < N)%nat) by (unfold leader_of; pose proof (Z.mod_pos_bound (coin (smDone ID r)) (Z.of_nat N)); lia).
  split; [unfold w32 in *; lia|exact LN].
Qed.

(** Leaving a round with a decision certificate and without an Unlock certificate. *)
Lemma carries g i r h : reach H coin N F ID bad vals once g -> length h = 64%nat -> decision g r h -> ~ certified N F bad g (smUnlock ID r) ->
  (r < m_r (gs_m g i))%nat -> H (entered (vals i) (gs_m g i) (S r)) = h.
Proof.
  intros R Lh D NU Hr. destruct (reach_results g R) as (PI & UI). destruct (p_left _ _ (PI i) r Hr) as (Wr & LW).
  destruct (reach_once H coin N F ID bad vals HH HN Hbad HNF g R) as (I & O & _).
  destruct (leader_w32 g r h D) as (LW32 & _). destruct LW as [(v & sg & E)|(s & E)].
  - cbn [entered]. rewrite E. destruct (t_other _ _ _ _ _ _ _ _ (reach_votes H coin N F ID bad vals Hbad HNF g R i r) v sg E) as (l & EL & C1).
    pose proof (o_lead _ _ _ _ _ _ _ _ _ (O i r) l EL) as ->.
    destruct (cert_hon g _ D) as (j & _ & Hj). pose proof (stage2_from H N F ID bad g j r _ h I Wr LW32 Lh Hj) as C2.
    apply (unique1 H N F ID bad Hbad HNF g r (leader_of coin N ID r)); auto.
  - exfalso. apply NU. destruct (UI i r) as [(U1 & U2) U3]. apply (shares_certify N F bad Hbad HNF g _ _ U1 U2). apply (U3 s E).
Qed.

(** ** Agreement *)

Lemma reach_proposals g : reach H coin N F ID bad vals (once_checked N bad vals) g ->
  forall i k j h, w32 (S k) -> w32 j -> length h = 64%nat -> In (i, smEcho ID (S k) j 1 h) (gs_rel g) ->
  exists m, hon N bad m /\ (S k <= m_r (gs_m g m))%nat /\ H (entered (vals m) (gs_m g m) (S k)) = h.
Proof.
  induction 1 as [|g i e st sms R IH Hi AL (ON & CK) W E]; intros i' k j h Wk Wj Lh Hin; [destruct Hin|].
  assert (R1 : reach H coin N F ID bad vals once g) by (apply (reach_weaken _ _ _ _ _ _ _ (once_checked N bad vals)); [intros ? ? ? X; apply X|exact R]).
  destruct (reach_results g R1) as (PI & _).
  destruct (step_pinv (vals i) _ e st sms W E (PI i)) as (_ & MR & ST).
  assert (UP : forall m, hon N bad m /\ (S k <= m_r (gs_m g m))%nat /\ H (entered (vals m) (gs_m g m) (S k)) = h ->
    hon N bad m /\ (S k <= m_r (gs_m (gs_next g i st sms) m))%nat /\ H (entered (vals m) (gs_m (gs_next g i st sms) m) (S k)) = h).
  { intros m (A & B & C). split; [exact A|]. cbn [gs_next gs_m]. destruct (m =? i)%nat eqn:Q; [|auto]. apply Nat.eqb_eq in Q. subst m.
    split; [lia|]. rewrite ST by exact B. exact C. }
  cbn [gs_next gs_rel] in Hin. apply in_app_or in Hin as [Hin|Hin].
  - destruct (IH i' k j h Wk Wj Lh Hin) as (m & Hm). exists m. apply UP. exact Hm.
  - apply in_map_iff in Hin as (sm & Esm & Hsm). assert (Es : sm = smEcho ID (S k) j 1 h) by congruence. clear Esm. subst sm.
    destruct (reach_once H coin N F ID bad vals HH HN Hbad HNF g R1) as (I & _).
    assert (FR := v_fresh _ _ _ _ _ _ I i).
    assert (LD : forall r l, d_lead (m_rounds (gs_m g i) r) = Some l -> (l < N)%nat).
    { intros r l. apply (n_lead _ _ _ _ _ _ _ _ (v_round _ _ _ _ _ _ I i r)). }
    assert (KK : kok (KEcho (S k) j 1 h)) by (cbn [kok]; auto).
    assert (INJ : forall kd, kok kd -> smEcho ID (S k) j 1 h = render ID kd -> KEcho (S k) j 1 h = kd).
    { intros kd Kd Ek. destruct (render_inj_any ID ID (KEcho (S k) j 1 h) kd KK Kd Ek) as (_ & X). exact X. }
    destruct (step_signs H coin N F ID bad vals Hbad HNF (gs_m g i) e st sms _ W FR LD E Hsm) as (r & Hr & CS).
    assert (Wr : w32 r) by (unfold w32 in *; lia).
    destruct CS as [(j' & v & vd & -> & -> & Hj' & _)|[(j' & v & vd & -> & -> & Hj' & _)|[(l & v & sg & -> & -> & Hl & _)|[(-> & -> & _)|[(-> & -> & _)|(-> & -> & _)]]]]];
      destruct Hsm as [Hsm|[]]; symmetry in Hsm.
    + assert (X : KEcho (S k) j 1 h = KEcho r j' 1 (H v)).
      { apply INJ; [cbn [kok]; repeat split; auto; unfold w32 in *; lia|exact Hsm]. }
      injection X as Xr Xj Xh. subst r. cbn [checked] in CK. destruct CK as (m & M1 & M2 & M3). exists m. apply UP. rewrite M3. auto.
    + assert (X : KEcho (S k) j 1 h = KEcho r j' 2 (H v)).
      { apply INJ; [cbn [kok]; repeat split; auto; unfold w32 in *; lia|exact Hsm]. } discriminate X.
    + assert (X : KEcho (S k) j 1 h = KEcho r l 2 (H v)).
      { apply INJ; [cbn [kok]; repeat split; auto; specialize (LD _ _ Hl); unfold w32 in *; lia|exact Hsm]. } discriminate X.
    + assert (X : KEcho (S k) j 1 h = KUnlock r) by (apply INJ; auto). discriminate X.
    + assert (X : KEcho (S k) j 1 h = KDone r) by (apply INJ; auto). discriminate X.
    + assert (X : KEcho (S k) j 1 h = KNo r) by (apply INJ; auto). discriminate X.
Qed.

(** After a round with a decision certificate and without an Unlock certificate, only the decided value is left. *)
Lemma later_rounds g r h : reach H coin N F ID bad vals (once_checked N bad vals) g -> length h = 64%nat -> decision g r h ->
  ~ certified N F bad g (smUnlock ID r) -> forall d i, (S (r + d) <= m_r (gs_m g i))%nat -> H (entered (vals i) (gs_m g i) (S (r + d))) = h.
Proof.
  intros R Lh D NU.
  assert (R1 : reach H coin N F ID bad vals once g) by (apply (reach_weaken _ _ _ _ _ _ _ (once_checked N bad vals)); [intros ? ? ? X; apply X|exact R]).
  destruct (reach_results g R1) as (PI & _). destruct (reach_once H coin N F ID bad vals HH HN Hbad HNF g R1) as (I & O & _).
  induction d as [|d IH]; intros i Hi.
  - rewrite Nat.add_0_r in Hi |- *. apply carries; auto.
  - rewrite Nat.add_succ_r in Hi |- *. destruct (p_left _ _ (PI i) (S (r + d))) as (Wr & LW); [lia|].
    change (H (match d_vflag (m_rounds (gs_m g i) (S (r + d))) with Some (VOther v _) => v | _ => entered (vals i) (gs_m g i) (S (r + d)) end) = h).
    destruct LW as [(v & sg & E)|(s & E)]; rewrite E.
    + destruct (t_other _ _ _ _ _ _ _ _ (reach_votes H coin N F ID bad vals Hbad HNF g R1 i _) v sg E) as (l & EL & C1).
      pose proof (n_lead _ _ _ _ _ _ _ _ (v_round _ _ _ _ _ _ I i _) l EL) as LN.
      destruct (cert_hon g _ C1) as (j & _ & Hj).
      destruct (reach_proposals g R j (r + d) l (H v)) as (m & M1 & M2 & M3); auto; [unfold w32 in *; lia|].
      rewrite <- M3. apply IH. exact M2.
    + apply IH. lia.
Qed.

Lemma decisions_agree g r r' h h' : reach H coin N F ID bad vals (once_checked N bad vals) g -> length h = 64%nat -> length h' = 64%nat ->
  w32 r -> w32 r' -> decision g r h -> decision g r' h' -> (forall k x, decision g k x -> ~ certified N F bad g (smUnlock ID k)) -> h = h'.
Proof.
  intros R L L' W W' D D' NU.
  assert (R1 : reach H coin N F ID bad vals once g) by (apply (reach_weaken _ _ _ _ _ _ _ (once_checked N bad vals)); [intros ? ? ? X; apply X|exact R]).
  destruct (reach_once H coin N F ID bad vals HH HN Hbad HNF g R1) as (I & _).
  assert (LT : forall r r' h h', length h = 64%nat -> length h' = 64%nat -> w32 r' -> decision g r h -> decision g r' h' -> (r < r')%nat -> h' = h).
  { clear r r' h h' L L' W W' D D'. intros r r' h h' L L' W' D D' Hlt. destruct (leader_w32 g r' h' D') as (LW & _).
    destruct (cert_hon g _ D') as (j & _ & Hj). pose proof (stage2_from H N F ID bad g j r' _ h' I W' LW L' Hj) as C1.
    destruct (cert_hon g _ C1) as (k & _ & Hk). destruct r' as [|q]; [lia|].
    destruct (reach_proposals g R k q _ h' W' LW L' Hk) as (m & M1 & M2 & M3). rewrite <- M3.
    replace q with (r + (q - r))%nat in M2 |- * by lia. apply (later_rounds g r h R L D (NU _ _ D)). exact M2. }
  destruct (Nat.lt_trichotomy r r') as [K|[K|K]].
  - symmetry. apply (LT r r'); auto.
  - subst r'. destruct (leader_w32 g r h D) as (LW & _). apply (unique2 H N F ID bad Hbad HNF g r (leader_of coin N ID r)); auto.
  - apply (LT r' r); auto.
Qed.
End Agreement.
