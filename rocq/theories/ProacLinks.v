(** The executions considered in the claims about refreshing, in terms of messages, and their
    connection with the invariants of ProacRun. *)

Require Import ZArith List Lia Bool Arith.
From Verif Require Import Prime Fr Bytes CodecModel CodecProofs GoBase Poly Biv BivProofs PolyModel PolyProofs
  GroupModel KzgModel KzgProofs PartyModel PartySpec VssModel VssProofs VssProofs2 ReduceModel ReduceProofs
  ProacModel ProacProofs ProacRun ProacSig ProacRecover ProacDist.
Import ListNotations.
Local Open Scope F_scope.

(** Index of a member as a field element. *)
Definition me (p : Party) : Fr := of_nat (p_PID p + 1).

(** Commitments delivered for dealer k are the commitments to the sections of [QB k]
    ([QB k] is the polynomial dealer k has committed to; undecodable entries are allowed). *)
Definition committed (cd : g1codec) (p : Party) (QB : nat -> list (list Fr)) (evs : list pev) : Prop :=
  forall k data, In (EvCommit k data) evs -> (1 <= k <= p_N p)%nat ->
    forall j m g, (1 <= j <= 2 * p_F p + 1)%nat -> nth_error data (j - 1) = Some m ->
      FromCompressedG1 cd (m_CBj m) = Some g -> CommitToPoly (p_KZG p) (secy (QB k) (of_nat j)) = Ret g.

(** No recover message delivered opens a commitment to [QB k] to a wrong value. *)
Definition no_forgery (cd : g1codec) (p : Party) (QB : nat -> list (list Fr)) (evs : list pev) : Prop :=
  forall i m w C, In (EvRecv i m) evs -> FromCompressedG1 cd (rc_W m) = Some w ->
    let k := Z.to_nat (rc_Index m) in let X := of_Z ((i + 1) mod 2 ^ 32) in
    let v := FrFrom32_into 0 (to32 (rc_V m)) in
    CommitToPoly (p_KZG p) (secy (QB k) (me p)) = Ret C ->
    CheckProofSingle (p_KZG p) C w X v = Ret true -> v = beval (QB k) X (me p).

(** (sender, dealer) of the recover messages; no sender sends two for the same dealer. *)
Definition sources (evs : list pev) : list (Z * Z) :=
  flat_map (fun e => match e with EvRecv i m => [(i, rc_Index m)] | _ => [] end) evs.

(** Numbers as they arrive from the wire. *)
Definition wire (evs : list pev) : Prop :=
  forall i m, In (EvRecv i m) evs -> (0 <= i < 2 ^ 32)%Z /\ (0 <= rc_Index m)%Z.

Definition env (cd : g1codec) (p : Party) (QB : nat -> list (list Fr)) (evs : list pev) : Prop :=
  committed cd p QB evs /\ no_forgery cd p QB evs /\ NoDup (sources evs) /\ wire evs.

(** A recover message for dealer k that passes the two checks of the code, against the
    commitment to [QB k]. *)
Definition valid_recover (cd : g1codec) (p : Party) (sigok : nat -> list Z -> bool)
    (QB : nat -> list (list Fr)) (k : nat) (x : Z * RecoverMsg) : Prop :=
  rc_Index (snd x) = Z.of_nat k /\ sigok k (rc_Sig (snd x)) = true /\
  exists w C, FromCompressedG1 cd (rc_W (snd x)) = Some w /\
    CommitToPoly (p_KZG p) (secy (QB k) (me p)) = Ret C /\
    CheckProofSingle (p_KZG p) C w (of_Z ((fst x + 1) mod 2 ^ 32)) (FrFrom32_into 0 (to32 (rc_V (snd x)))) = Ret true.

Lemma wire_app a b : wire (a ++ b) <-> wire a /\ wire b.
Proof.
  split.
  - intros H. split; intros i m Hin; apply (H i m), in_or_app; auto.
  - intros (H1 & H2) i m Hin. apply in_app_or in Hin. destruct Hin; eauto.
Qed.

Lemma NoDup_app_l {A} (l1 l2 : list A) : NoDup (l1 ++ l2) -> NoDup l1.
Proof.
  induction l1 as [|a l1 IH]; intros H; [constructor|]. cbn [app] in H. inversion H as [|? ? H1 H2]; subst.
  constructor; [|apply IH; exact H2]. intros Hin. apply H1, in_or_app. left. exact Hin.
Qed.

Lemma nodup_map_in {A B} (f : A -> B) l : (forall a b, In a l -> In b l -> f a = f b -> a = b) ->
  NoDup l -> NoDup (map f l).
Proof.
  intros H ND. induction ND as [|a l Ha ND IH]; [constructor|]. cbn [map]. constructor.
  - intros Hin. apply in_map_iff in Hin. destruct Hin as (b & E & Hb). apply Ha.
    rewrite <- (H b a (or_intror Hb) (or_introl eq_refl) E). exact Hb.
  - apply IH. intros x y Hx Hy. apply H; right; assumption.
Qed.


Lemma nodup_prod {A B} (a : list A) (b : list B) : NoDup a -> NoDup b -> NoDup (list_prod a b).
Proof.
  intros Ha Hb. induction Ha as [|k a Hk Ha IH]; [constructor|]. cbn [list_prod].
  assert (N1 : NoDup (map (fun y => (k, y)) b)).
  { apply nodup_map_in; [|exact Hb]. intros x y _ _ E. apply (f_equal snd) in E. exact E. }
  assert (DJ : forall y, In y (map (fun y => (k, y)) b) -> ~ In y (list_prod a b)).
  { intros y H1 H2. apply in_map_iff in H1. destruct H1 as (z1 & <- & _). apply in_prod_iff in H2. tauto. }
  revert N1 DJ. generalize (map (fun y => (k, y)) b). intros l N1 DJ.
  induction N1 as [|y l Hl N1 IHl]; [exact IH|]. cbn [app]. constructor.
  - intros H. apply in_app_or in H. destruct H as [H|H]; [contradiction|]. apply (DJ y (or_introl eq_refl) H).
  - apply IHl. intros z Hz. apply DJ. right. exact Hz.
Qed.

Lemma sources_app a b : sources (a ++ b) = sources a ++ sources b.
Proof. unfold sources. apply flat_map_app. Qed.

Lemma recvs_sources evs : recvs evs = map (fun x => (Xof (fst x), snd x)) (sources evs).
Proof.
  induction evs as [|e evs IH]; [reflexivity|]. change (recvs (e :: evs)) with (recvs ([e] ++ evs)).
  change (sources (e :: evs)) with (sources ([e] ++ evs)).
  rewrite recvs_app, sources_app, map_app, IH. destruct e; reflexivity.
Qed.

Lemma sources_range evs x : wire evs -> In x (sources evs) -> (0 <= fst x < 2 ^ 32)%Z.
Proof.
  intros H Hx. unfold sources in Hx. apply in_flat_map in Hx. destruct Hx as (e & He & Hx).
  destruct e; try destruct Hx as [<-|[]]; try contradiction. apply (H _ _ He).
Qed.

Lemma recvs_nodup evs : wire evs -> NoDup (sources evs) -> NoDup (recvs evs).
Proof.
  intros HW ND. rewrite recvs_sources. pose proof (fun x => sources_range evs x HW) as HR.
  clear HW. revert HR. induction ND as [|x l Hx ND IH]; intros HR; [constructor|].
  cbn [map]. constructor; [|apply IH; intros; apply HR; right; assumption].
  intros Hin. apply in_map_iff in Hin. destruct Hin as (y & E & Hy). apply Hx.
  pose proof (f_equal fst E) as E1. pose proof (f_equal snd E) as E2. cbn [fst snd] in E1, E2.
  apply Xof_inj in E1; [|apply HR; right; exact Hy|apply HR; left; reflexivity].
  destruct x, y. cbn [fst snd] in *. subst. exact Hy.
Qed.

Section Link.
Variables (cd : g1codec) (s : Fr) (p : Party) (QB : nat -> list (list Fr)).
Hypothesis W : party_wf s p.
Hypothesis HQ : forall k, bdeg (p_F p) (2 * p_F p) (QB k).

Lemma commit_com k y : CommitToPoly (p_KZG p) (secy (QB k) y) = Ret (com s QB k y).
Proof.
  destruct W as (W1 & _). apply (commit_section s (p_F p + 1) _ (p_F p) (2 * p_F p)); auto. lia.
Qed.

Lemma env_ok evs : env cd p QB evs -> Forall (ev_ok cd s p QB) evs.
Proof.
  intros (E1 & E2 & _ & E4). apply Forall_forall. intros e He. destruct e; cbn [ev_ok]; auto.
  - intros Hk c D i Hi. destruct (D i Hi) as (m & Em & Dm).
    specialize (E1 j data He Hk i m (CBj (c i)) Hi Em). rewrite commit_com in E1.
    specialize (E1 ltac:(apply Dm)). injection E1 as ->. reflexivity.
  - split; [apply (E4 _ _ He)|]. split; [apply (E4 _ _ He)|]. intros w EW. cbv zeta. intros CK.
    apply (E2 sender m w (com s QB (Z.to_nat (rc_Index m)) (me p)) He EW); [apply commit_com|exact CK].
Qed.

Lemma env_app a b : env cd p QB (a ++ b) -> env cd p QB a.
Proof.
  intros (E1 & E2 & E3 & E4). split; [|split; [|split]].
  - intros k data Hin. apply E1, in_or_app. left. exact Hin.
  - intros i m w C Hin. apply E2, in_or_app. left. exact Hin.
  - rewrite sources_app in E3. apply NoDup_app_l in E3. exact E3.
  - apply wire_app in E4. apply E4.
Qed.

Lemma valid_about sigok k x : (0 <= rc_Index (snd x))%Z ->
  (about cd s p sigok QB k x = true <-> valid_recover cd p sigok QB k x).
Proof.
  intros H0. unfold about, vmsg, dealer, valid_recover. rewrite andb_true_iff, Nat.eqb_eq.
  rewrite (commit_com k (me p)). fold (me p). split.
  - intros (E & H). split; [lia|].
    destruct (FromCompressedG1 cd (rc_W (snd x))) as [w|]; [|discriminate].
    destruct (CheckProofSingle _ _ _ _ _) as [c| | |] eqn:EC; try discriminate.
    apply andb_true_iff in H. destruct H as (Hc & H). subst c. split; [exact H|].
    exists w, (com s QB k (me p)). split; [reflexivity|]. split; [reflexivity|exact EC].
  - intros (E & H & w & C & E1 & E2 & E3). split; [lia|]. injection E2 as <-. rewrite E1.
    unfold Xof. rewrite E3, H. reflexivity.
Qed.

Variables (sign : nat -> list Z) (sigok : nat -> list Z -> bool) (combine : nat -> list (list Z) -> list Z).
Hypothesis HP : (p_PID p < p_N p)%nat.

(** All invariants after an execution from the start. *)
Lemma env_inv B0 st0 evs st : bdeg (p_F p) (2 * p_F p) B0 ->
  proac_init p (map (fun j => secy B0 (of_nat j)) (seq 1 (2 * p_F p + 1))) = Ret st0 ->
  env cd p QB evs -> prun cd sign sigok combine p st0 evs = Ret st ->
  inv s p QB evs st /\ sinv p st /\ calm st.
Proof.
  intros HB E0 HE HR. pose proof W as (_ & _ & W3 & _).
  destruct (init_inv s p QB W HP B0 HB) as (st0' & E0' & I0 & _). rewrite E0 in E0'. injection E0' as <-.
  split; [|split].
  - change evs with ([] ++ evs). apply (prun_inv cd s p sign sigok combine QB W HP (fun k _ => HQ k) evs [] st0 st);
      auto; [apply env_ok; exact HE|]. cbn [app]. destruct HE as (_ & _ & HN & HW). apply recvs_nodup; assumption.
  - eapply prun_sinv; [|exact HR]. eapply init_sinv; eassumption.
  - eapply prun_calm; [|exact HR]. eapply init_calm; eassumption.
Qed.

(** ** Delivery of honest commit messages *)

Definition commit_data (k : nat) : list PiContentMsg :=
  map (fun j => pcm_of cd (pc_of s (QB k) j)) (seq 1 (2 * p_F p + 1)).

Definition same_rest (st st' : pst) : Prop :=
  s_SRec st' = s_SRec st /\ s_hold st' = s_hold st /\ s_MVBAIn st' = s_MVBAIn st /\
  s_MVBASent st' = s_MVBASent st /\ s_flgRec st' = s_flgRec st /\ s_Q st' = s_Q st.

Lemma commit_ev_ok k : codec_ok cd -> ev_ok cd s p QB (EvCommit k (commit_data k)).
Proof.
  intros HC Hk c D j Hj. destruct (D j Hj) as (m & Em & Dm). destruct Dm as (D1 & _). unfold commit_data in Em.
  rewrite (nth_error_map_seq (fun j => pcm_of cd (pc_of s (QB k) j))) in Em by lia. injection Em as <-.
  cbn [pcm_of m_CBj] in D1. rewrite HC in D1. injection D1 as <-. reflexivity.
Qed.

Lemma commit_run : codec_ok cd -> forall Ks done st, inv s p QB done st ->
  (forall k, In k Ks -> (1 <= k <= p_N p)%nat /\ beval (QB k) 0 0 = 0 /\ nth k (s_comDone st) false = false) ->
  NoDup Ks ->
  exists st', prun cd sign sigok combine p st (map (fun k => EvCommit k (commit_data k)) Ks) = Ret st' /\
    inv s p QB (done ++ map (fun k => EvCommit k (commit_data k)) Ks) st' /\
    same_rest st st' /\
    (forall k, In k Ks -> nth k (s_flgCom st') false = true) /\
    (forall k, nth k (s_flgCom st) false = true -> nth k (s_flgCom st') false = true).
Proof.
  intros HC. induction Ks as [|k Ks IH]; intros done st I HK ND.
  - exists st. cbn [map]. rewrite app_nil_r. split; [reflexivity|]. split; [exact I|].
    split; [repeat split|]. split; [intros k []|auto].
  - inversion ND as [|? ? N1 N2]; subst. destruct (HK k (or_introl eq_refl)) as (Hk & Z0 & CD0).
    pose proof I as ((L1 & L2 & L3 & L4 & L5 & L6 & L7 & L8 & L9 & L10 & L11) & _).
    destruct (verify_honest cd s p W (QB k) (nth k (s_CQ st) []) HC (HQ k) Z0 ltac:(apply L10; lia))
      as (row' & EV & _).
    set (st1 := mkPst (set_nth k true (s_flgCom st)) (set_nth k true (s_comDone st)) (s_flgRec st)
      (set_nth k row' (s_CQ st)) (s_Q st) (s_SRec st) (s_SSig st)
      (s_Comb st) (s_stopped st) (s_MVBAIn st) (s_MVBASent st) (s_busy st) (s_hold st)).
    assert (E1 : do_commit cd p st k (commit_data k) = Ret st1).
    { unfold do_commit. rewrite (proj2 (Nat.leb_le 1 k)), (proj2 (Nat.leb_le k (p_N p))) by lia. cbn [negb andb orb].
      rewrite (nth_indep _ true false) by lia. rewrite CD0. rewrite (idx_nth []) by lia. cbn [bind].
      unfold commit_data. rewrite EV. cbn [bind]. unfold upd.
      rewrite (proj2 (Nat.ltb_lt k (length (s_CQ st)))) by lia. reflexivity. }
    assert (I1 : inv s p QB (done ++ [EvCommit k (commit_data k)]) st1).
    { eapply (do_commit_inv cd s p QB); eauto. apply commit_ev_ok; exact HC. }
    destruct (IH _ st1 I1) as (st' & E2 & I2 & SR & F1 & F2).
    { intros j Hj. destruct (HK j (or_intror Hj)) as (X1 & X2 & X3). split; [exact X1|]. split; [exact X2|].
      cbn [st1 s_comDone]. rewrite nth_set_nth_other; [exact X3|]. intros ->. contradiction. }
    { exact N2. }
    exists st'. cbn [map]. split; [|split; [|split; [|split]]].
    + cbn [prun pstep]. rewrite E1. cbn [bind fst]. exact E2.
    + rewrite <- app_assoc in I2. exact I2.
    + exact SR.
    + intros j [<-|Hj]; [|apply F1, Hj]. apply F2. cbn [st1 s_flgCom]. apply nth_set_nth_same. lia.
    + intros j Hj. apply F2. cbn [st1 s_flgCom]. rewrite nth_set_nth. destruct (_ && _); [reflexivity|exact Hj].
Qed.

(** ** Accepted commitments stay accepted *)

Lemma handle_flgCom st x st' : handle sigok combine p st x = Ret st' -> s_flgCom st' = s_flgCom st.
Proof.
  unfold handle. intros H. destruct (recov_ok sigok p st x) as [b| | |]; try discriminate. cbn [bind] in H.
  destruct b.
  - destruct (add_point p st x) as [st1| | |] eqn:E1; try discriminate. cbn [bind] in H.
    destruct (add_sig combine p st1 x) as [st2| | |] eqn:E2; try discriminate. cbn [bind] in H.
    assert (A : s_flgCom st1 = s_flgCom st).
    { unfold add_point in E1. destruct (idx (s_SRec st) (ro_k x)) as [l| | |]; try discriminate. cbn [bind] in E1.
      cbv zeta in E1. destruct (_ && _) in E1.
      - destruct (LagrangeInterpolate _ _ _) in E1; try discriminate. cbn [bind] in E1. injection E1 as <-. reflexivity.
      - injection E1 as <-. reflexivity. }
    assert (C : s_flgCom st2 = s_flgCom st1).
    { unfold add_sig in E2. destruct (idx (s_SSig st1) (ro_k x)) as [l| | |]; try discriminate. cbn [bind] in E2.
      cbv zeta in E2. destruct (negb _ && _) in E2; injection E2 as <-; reflexivity. }
    injection H as <-. destruct (s_MVBASent st2); cbn [s_flgCom]; congruence.
  - cbn [bind] in H. injection H as <-. destruct (s_MVBASent st); reflexivity.
Qed.

Lemma flgCom_mono : forall evs st st', prun cd sign sigok combine p st evs = Ret st' ->
  forall k, nth k (s_flgCom st) false = true -> nth k (s_flgCom st') false = true.
Proof.
  induction evs as [|e evs IH]; intros st st' H k Hk.
  - injection H as <-. exact Hk.
  - cbn [prun] in H. destruct (pstep cd sign sigok combine p st e) as [(st1, ms)| | |] eqn:E; try discriminate.
    cbn [bind fst] in H. apply (IH st1 st' H). clear H IH. destruct e; cbn [pstep] in E.
    + destruct (do_commit cd p st j data) as [st2| | |] eqn:E2; try discriminate. cbn [bind] in E.
      injection E as <- _. unfold do_commit in E2. destruct (_ || _) in E2; [injection E2 as <-; exact Hk|].
      destruct (idx (s_CQ st) j) as [row| | |]; try discriminate. cbn [bind] in E2.
      destruct (VerifyCommit cd p row data) as [(ok, row')| | |]; try discriminate. cbn [bind] in E2.
      destruct (upd (s_CQ st) j row') as [CQ| | |]; try discriminate. cbn [bind] in E2. injection E2 as <-.
      cbn [s_flgCom]. destruct ok; [|exact Hk]. rewrite nth_set_nth. destruct (_ && _); [reflexivity|exact Hk].
    + destruct (do_reshare cd sign p st sender m) in E; try discriminate. cbn [bind] in E. injection E as <- _. exact Hk.
    + destruct (do_recv cd p st sender m) as [st2| | |] eqn:E2; try discriminate. cbn [bind] in E. injection E as <- _.
      unfold do_recv in E2. destruct (s_hold st); [injection E2 as <-; exact Hk|].
      cbv zeta in E2. destruct (ReadG1 cd (rc_W m)); try discriminate. cbn [bind] in E2.
      destruct (_ <? _)%Z in E2; [discriminate|]. injection E2 as <-. exact Hk.
    + destruct (do_handle sigok combine p st) as [st2| | |] eqn:E2; try discriminate. cbn [bind] in E. injection E as <- _.
      unfold do_handle in E2. destruct (s_hold st) as [x|]; [|injection E2 as <-; exact Hk].
      destruct (_ && _) in E2; [|injection E2 as <-; exact Hk]. rewrite (handle_flgCom _ _ _ E2). exact Hk.
    + injection E as <- _. exact Hk.
Qed.

(** ** Honest recover messages *)

Lemma of_Z_sender i : (1 <= i <= p_N p)%nat -> (Z.of_nat (p_N p) < 2 ^ 32)%Z ->
  Xof (Z.of_nat (i - 1)) = Z.of_nat i /\ of_Z (Xof (Z.of_nat (i - 1))) = of_nat i.
Proof.
  intros Hi HN. assert (E : Xof (Z.of_nat (i - 1)) = Z.of_nat i).
  { unfold Xof. rewrite Z.mod_small by lia. lia. }
  split; [exact E|]. rewrite E. reflexivity.
Qed.

Lemma honest_valid k i sig : codec_ok cd -> (1 <= i <= p_N p)%nat -> (Z.of_nat (p_N p) < 2 ^ 32)%Z ->
  sigok k sig = true ->
  valid_recover cd p sigok QB k (Z.of_nat (i - 1), recover_msg cd s (QB k) (Z.of_nat k) sig i (p_PID p + 1)).
Proof.
  intros HC Hi HN SG. pose proof W as (W1 & _ & W3 & _). split; [reflexivity|]. split; [exact SG|].
  exists (mkG1 (peval (wrow s (QB k) (of_nat i)) (me p))), (com s QB k (me p)).
  split; [cbn [snd recover_msg rc_W]; apply HC|]. split; [apply commit_com|].
  cbn [fst snd recover_msg rc_V]. rewrite to32_FrTo32; unfold FrFrom32_into; rewrite FrFrom32_FrTo32.
  change ((Z.of_nat (i - 1) + 1) mod 2 ^ 32)%Z with (Xof (Z.of_nat (i - 1))).
  rewrite (proj2 (of_Z_sender i Hi HN)). apply (check_iff s (p_F p + 1) (p_KZG p) W1); [lia|]. unfold com.
  cbn [dlog1]. apply (opening s (QB k) (p_F p) (2 * p_F p)). apply HQ.
Qed.

Lemma honest_ev_ok k i sig : (1 <= i <= p_N p)%nat -> (Z.of_nat (p_N p) < 2 ^ 32)%Z ->
  ev_ok cd s p QB (EvRecv (Z.of_nat (i - 1)) (recover_msg cd s (QB k) (Z.of_nat k) sig i (p_PID p + 1))).
Proof.
  intros Hi HN. cbn [ev_ok]. split; [lia|]. cbn [recover_msg rc_Index rc_W rc_V]. split; [lia|].
  intros w _. cbv zeta. intros _. rewrite to32_FrTo32; unfold FrFrom32_into; rewrite FrFrom32_FrTo32, (proj2 (of_Z_sender i Hi HN)), Nat2Z.id.
  reflexivity.
Qed.

(** ** Refreshing with polynomials that have not been recovered *)

(** Vote of member [snd ki] for dealer [fst ki], as it arrives at this member. *)
Definition honest_vote (sg : nat -> list Z) (ki : nat * nat) : Z * RecoverMsg :=
  (Z.of_nat (snd ki - 1),
   recover_msg cd s (QB (fst ki)) (Z.of_nat (fst ki)) (sg (fst ki)) (snd ki) (p_PID p + 1)).

Lemma honest_env : codec_ok cd -> (Z.of_nat (p_N p) < 2 ^ 32)%Z -> forall sg Ks kis, NoDup kis ->
  (forall k i, In (k, i) kis -> (1 <= i <= p_N p)%nat) ->
  env cd p QB (map (fun k => EvCommit k (commit_data k)) Ks ++ deliver (map (honest_vote sg) kis)).
Proof.
  intros HC HN sg Ks kis ND HI. set (coms := map _ Ks). set (ms := map _ kis).
  assert (HMS : forall i m, In (i, m) ms -> exists k l, In (k, l) kis /\
    i = Z.of_nat (l - 1) /\ m = recover_msg cd s (QB k) (Z.of_nat k) (sg k) l (p_PID p + 1)).
  { intros i m Hin. apply in_map_iff in Hin. destruct Hin as ((k, l) & E & Hin). exists k, l. split; [exact Hin|].
    apply (f_equal fst) in E as EA. apply (f_equal snd) in E as EB. unfold honest_vote in EA, EB; cbn [fst snd] in EA, EB.
    split; symmetry; assumption. }
  split; [|split; [|split]].
  - intros k data Hin Hk j m g Hj Em Eg. apply in_app_or in Hin. destruct Hin as [Hin|Hin].
    + apply in_map_iff in Hin. destruct Hin as (k' & Ek & _).
      assert (data = commit_data k') by congruence. assert (k' = k) by congruence. subst k data. unfold commit_data in Em.
      rewrite (nth_error_map_seq (fun j => pcm_of cd (pc_of s (QB k') j))) in Em by lia.
      apply (f_equal (fun o => match o with Some a => m_CBj a | None => [] end)) in Em. rewrite <- Em in Eg.
      cbn [pcm_of m_CBj pc_of CBj] in Eg. rewrite HC in Eg.
      rewrite commit_com. unfold com.
      apply (f_equal (fun o => match o with Some a => a | None => ZeroG1 end)) in Eg. rewrite <- Eg. reflexivity.
    + exfalso. unfold deliver in Hin. apply in_flat_map in Hin. destruct Hin as (y & _ & [H|[H|[]]]); discriminate.
  - intros i m w C Hin EW. apply in_app_or in Hin. destruct Hin as [Hin|Hin].
    { exfalso. apply in_map_iff in Hin. destruct Hin as (k' & Ek & _). discriminate. }
    unfold deliver in Hin. apply in_flat_map in Hin. destruct Hin as ((i', m') & Hin & [H|[H|[]]]); [|discriminate].
    cbn [fst snd] in H. injection H as <- <-. destruct (HMS _ _ Hin) as (k & l & Hl & -> & ->).
    cbv zeta. intros _ _. cbn [recover_msg rc_V rc_Index]. rewrite to32_FrTo32. unfold FrFrom32_into.
    rewrite FrFrom32_FrTo32, Nat2Z.id.
    change ((Z.of_nat (l - 1) + 1) mod 2 ^ 32)%Z with (Xof (Z.of_nat (l - 1))).
    rewrite (proj2 (of_Z_sender l (HI k l Hl) HN)). reflexivity.
  - rewrite sources_app.
    replace (sources coms) with (@nil (Z * Z)).
    2:{ unfold coms. clear. induction Ks as [|a l IH]; [reflexivity|exact IH]. }
    cbn [app].
    assert (ES : sources (deliver ms) = map (fun ki => (Z.of_nat (snd ki - 1), Z.of_nat (fst ki))) kis).
    { unfold ms. clear. induction kis as [|a l IH]; [reflexivity|].
      cbn [map deliver flat_map app]. unfold sources. cbn [flat_map app fst snd honest_vote recover_msg rc_Index].
      f_equal. exact IH. }
    rewrite ES. apply nodup_map_in; [|exact ND]. intros (k1, i1) (k2, i2) H1 H2 E.
    apply (f_equal fst) in E as EA. apply (f_equal snd) in E as EB. cbn [fst snd] in EA, EB.
    apply HI in H1, H2. f_equal; lia.
  - apply wire_app. split.
    + intros i m Hin. exfalso. apply in_map_iff in Hin. destruct Hin as (k' & Ek & _). discriminate.
    + intros i m Hin. unfold deliver in Hin. apply in_flat_map in Hin.
      destruct Hin as ((i', m') & Hin & [H|[H|[]]]); [|discriminate].
      cbn [fst snd] in H. injection H as <- <-. destruct (HMS _ _ Hin) as (k & l & Hl & -> & ->).
      cbn [recover_msg rc_Index]. apply HI in Hl. lia.
Qed.

Lemma honest_vote_valid sg k i : codec_ok cd -> (Z.of_nat (p_N p) < 2 ^ 32)%Z -> sigok k (sg k) = true ->
  (1 <= i <= p_N p)%nat -> valid_recover cd p sigok QB k (honest_vote sg (k, i)).
Proof. intros HC HN SG Hi. apply honest_valid; auto. Qed.
End Link.

Lemma secy_bzero_list F y : secy (bzero F) y = repeat 0 (F + 1).
Proof.
  apply (list_ext 0).
  - rewrite (length_secy F (2 * F)) by apply bdeg_bzero. rewrite repeat_length. lia.
  - intros i Hi. rewrite secy_bzero. symmetry. apply nth_repeat_len. reflexivity.
Qed.

(** The polynomials a member really adds: those it has recovered. *)
Definition recovered (F : nat) (QB : nat -> list (list Fr)) (st : pst) (k : nat) : list (list Fr) :=
  if nth k (s_flgRec st) false then QB k else bzero F.

Section Unrecovered.
Variables (s : Fr) (p : Party) (QB : nat -> list (list Fr)).
Hypothesis W : party_wf s p.
Hypothesis HQ : forall k, bdeg (p_F p) (2 * p_F p) (QB k).

Lemma refresh_unrecovered done st J B : inv s p QB done st -> sinv p st -> bdeg (p_F p) (2 * p_F p) B ->
  p_reducedShare p = secy B (me p) ->
  (forall j, In j J -> (1 <= j <= Z.of_nat (p_N p))%Z /\ Z.to_nat j <> (p_PID p + 1)%nat /\
     nth (Z.to_nat j) (s_flgCom st) false = true) ->
  exists CQsum, Refresh p st J =
      Ret (Some (secy (badd B (bsum (p_F p) (recovered (p_F p) QB st) (nats J))) (me p), CQsum)).
Proof.
  intros I SI HB ER HJ.
  destruct (refresh_gen s p QB done st (recovered (p_F p) QB st) J B I HB ER) as (CQsum & E & _).
  - intros j Hj. destruct (HJ j Hj) as (H1 & H2 & H3). split; [exact H1|]. split; [exact H3|].
    unfold recovered. destruct (nth (Z.to_nat j) (s_flgRec st) false) eqn:EF.
    + split; [apply HQ|]. destruct I as (_ & _ & _ & _ & R & _). specialize (R (Z.to_nat j) ltac:(lia)).
      rewrite EF in R. apply R.
    + split; [apply bdeg_bzero|]. destruct SI as (_ & _ & _ & _ & _ & _ & S7 & _).
      rewrite secy_bzero_list. apply S7; [lia|exact H2|exact EF].
  - exists CQsum. exact E.
Qed.
End Unrecovered.
