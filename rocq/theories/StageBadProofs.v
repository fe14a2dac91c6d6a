(** The member-level invariant of StageProofs.v with active corrupted members: the events of a member may also come
    from corrupted members, within the limits of [okevb] and [okres]. *)

Require Import ZArith List Bool Arith Lia Permutation.
From Verif Require Import Prime Fr GoBase Poly PolyModel PolyProofs Biv GroupModel KzgModel KzgProofs.
From Verif Require Import CodecModel CodecProofs PartyModel PartySpec VssModel VssProofs BivProofs.
From Verif Require Import ReduceModel ReduceProofs.
From Verif Require Import ProacModel ProacProofs ProacRun ProacSig ProacRecover ProacDist ProacLinks.
From Verif Require Import ReshareModel ReshareProofs StageModel StageProofs.
Import ListNotations.
Local Open Scope F_scope.

(** A vote on a Reshare message that can be decoded does not fail; what is sent on, if anything, is one message for
    every member, each of which can be decoded. *)
Lemma vote_total cd s p row ix sig m v w : codec_ok cd -> party_wf s p -> length row = (p_N p + 1)%nat -> reshare_decodes cd p m v w ->
  exists o, Vote cd p row ix sig m = Ret o /\ forall ms, o = Some ms -> length ms = p_N p /\
    forall rm, In rm ms -> rc_Index rm = ix /\ rc_Sig rm = sig /\ exists g, FromCompressedG1 cd (rc_W rm) = Some g.
Proof.
  intros HC W LR D. pose proof W as (W1 & _ & W3 & W4 & W5 & _).
  destruct (vote_check_spec cd s p W m v w row D LR) as (ok & CK & EV). unfold Vote. rewrite EV. cbn [bind]. destruct ok; cbn [fst snd].
  - destruct (points_poly (2 * p_F p) (fun j => mkG1 (v j)) ltac:(lia)) as (a & La & Va). destruct (points_poly (2 * p_F p) w ltac:(lia)) as (b & Lb & Vb).
    rewrite (map_ext_in v (fun j => peval a (of_nat j))), (map_ext_in w (fun j => mkG1 (peval b (of_nat j)))).
    + rewrite (vote_messages_correct cd s p W ix sig a b) by lia. cbn [bind]. eexists. split; [reflexivity|]. intros ms E. injection E as <-. split; [rewrite map_length; apply seq_length|].
      intros rm R. apply in_map_iff in R. destruct R as (l & <- & _). cbn [rc_Index rc_Sig rc_W]. split; [reflexivity|]. split; [reflexivity|]. eexists. apply HC.
    + intros j Hj. apply in_seq in Hj. apply Vb. lia.
    + intros j Hj. apply in_seq in Hj. specialize (Va j ltac:(lia)). apply (f_equal dlog1) in Va. exact Va.
  - exists None. split; [reflexivity|discriminate].
Qed.

Section Member.
Variables (cd : g1codec) (s : Fr) (p : Party) (QB : nat -> list (list Fr)).
Variable sg : nat -> nat -> list Z.
Variables (sigok : nat -> list Z -> bool) (combine : nat -> list (list Z) -> list Z).
(** The honest members, all members that send something, the dealers whose commitments are delivered, and those of
    them whose commitments pass. *)
Variables hon all pubs acc : list nat.
Variable dat : nat -> list PiContentMsg.
(** What is known of the Recover message that this member derives for member l from the Reshare message of k. *)
Variable Pf : nat -> nat -> RecoverMsg -> Prop.
Hypothesis HC : codec_ok cd.
Hypothesis W : party_wf s p.
Hypothesis HQ : forall k, bdeg (p_F p) (2 * p_F p) (QB k).
Hypothesis HP : (p_PID p < p_N p)%nat.
Hypothesis HN : (Z.of_nat (p_N p) < 2 ^ 32)%Z.
Hypothesis HA : forall k, In k all -> (1 <= k <= p_N p)%nat.
Hypothesis IH1 : incl hon acc.
Hypothesis IH2 : incl acc pubs.
Hypothesis IH3 : incl pubs all.
Hypothesis ND : NoDup hon.
Hypothesis HS : forall j k, In j hon -> In k hon -> sigok k (sg j k) = true.
Hypothesis HDV : forall k row, In k pubs -> length row = (p_N p + 1)%nat -> exists b row', VerifyCommit cd p row (dat k) = Ret (b, row') /\ (b = true <-> In k acc).
Hypothesis HDC : forall k j m g, In k pubs -> (1 <= j <= 2 * p_F p + 1)%nat -> nth_error (dat k) (j - 1) = Some m -> FromCompressedG1 cd (m_CBj m) = Some g ->
  CommitToPoly (p_KZG p) (secy (QB k) (of_nat j)) = Ret g.
Hypothesis HPF : forall k l, In k hon -> In l hon -> Pf k l (recover_msg cd s (QB k) (Z.of_nat k) (sg (p_PID p + 1) k) (p_PID p + 1) l).
Variable st0 : pst.
Hypothesis E0 : proac_init p (map (fun j => secy (QB (p_PID p + 1)) (of_nat j)) (seq 1 (2 * p_F p + 1))) = Ret st0.
Local Notation sign := (sg (p_PID p + 1)).
Local Notation vstep := (vstep cd sign sigok combine p).
Local Notation pstep := (pstep cd sign sigok combine p).
Local Notation vruns := (vruns cd sign sigok combine p).
Local Notation rmsg := (rmsg cd s p QB sg).
Local Notation smsg := (smsg cd s p QB).
Local Notation votes := (votes cd s p QB sg).
Local Notation arrived := (arrived s p QB sg).
Local Notation pot := (pot hon).

Lemma hon_all k : In k hon -> In k all.
Proof. intros K. apply IH3, IH2, IH1, K. Qed.
Lemma acc_all k : In k acc -> In k all.
Proof. intros K. apply IH3, IH2, K. Qed.
Lemma HH : forall k, In k hon -> (1 <= k <= p_N p)%nat.
Proof. intros k K. apply HA, hon_all, K. Qed.

(** A Recover message of j about the dealer k that this member can handle: it decodes and does not open the
    commitment to a wrong value. *)
Definition okmsg (j k : nat) (m : RecoverMsg) : Prop :=
  rc_Index m = Z.of_nat k /\ (exists w, FromCompressedG1 cd (rc_W m) = Some w) /\
  (forall w, FromCompressedG1 cd (rc_W m) = Some w -> CheckProofSingle (p_KZG p) (com s QB k (me p)) w (of_nat j) (FrFrom32_into 0 (to32 (rc_V m))) = Ret true ->
     FrFrom32_into 0 (to32 (rc_V m)) = beval (QB k) (of_nat j) (me p)) /\
  (In j hon -> In k hon -> m = rmsg j k).

Definition okevb (e : pev) : Prop :=
  match e with
  | EvCommit k d => In k pubs /\ d = dat k
  | EvRecv i m => exists j k, In j all /\ In k acc /\ i = Z.of_nat (j - 1) /\ okmsg j k m
  | _ => True
  end.

(** A Reshare message of k that this member can take. *)
Definition okres (k : nat) (m : ReshareMsg) : Prop :=
  (exists v w, reshare_decodes cd p m v w) /\ (In k hon -> m = smsg k) /\
  (forall row sig ms l rm, length row = (p_N p + 1)%nat -> Vote cd p row (Z.of_nat k) sig m = Ret (Some ms) -> In l hon -> nth_error ms (l - 1) = Some rm -> ~ In k hon -> Pf k l rm).

(** What it votes then. *)
Definition okvote (k : nat) (ms : list RecoverMsg) : Prop :=
  (In k hon -> ms = votes k) /\ (ms = [] \/ length ms = p_N p) /\
  forall l rm, In l hon -> nth_error ms (l - 1) = Some rm -> rc_Index rm = Z.of_nat k /\ (exists w, FromCompressedG1 cd (rc_W rm) = Some w) /\ Pf k l rm.

Lemma index_k k : In k all -> index_of (Z.of_nat (k - 1)) = k.
Proof. intros K. pose proof (HA k K). unfold index_of. rewrite Z.mod_small by lia. lia. Qed.
Lemma Xof_k k : In k all -> Xof (Z.of_nat (k - 1)) = Z.of_nat k.
Proof. intros K. pose proof (HA k K). unfold Xof. rewrite Z.mod_small by lia. lia. Qed.

Lemma ok_envb evs : Forall okevb evs -> NoDup (sources evs) -> env cd p QB evs.
Proof.
  intros A NS. rewrite Forall_forall in A. split; [|split; [|split]].
  - intros k data I Hk j m g Hj Em Eg. destruct (A _ I) as (K & ->). exact (HDC k j m g K Hj Em Eg).
  - intros i m w C I EW. cbv zeta. intros EC CK. destruct (A _ I) as (j & k & J & K & -> & (O1 & O2 & O3 & O4)).
    change ((Z.of_nat (j - 1) + 1) mod 2 ^ 32)%Z with (Xof (Z.of_nat (j - 1))) in *. rewrite (proj2 (of_Z_sender p HP j (HA j J) HN)) in *. rewrite O1, Nat2Z.id in *.
    rewrite (commit_com s p QB W HQ) in EC. injection EC as <-. exact (O3 w EW CK).
  - exact NS.
  - intros i m I. destruct (A _ I) as (j & k & J & K & -> & (O1 & _)). pose proof (HA j J). rewrite O1. split; lia.
Qed.

Record goodb (T : list vev) (v : vst) (log : list vote) : Prop := {
  b_run : vruns (vote_init p st0) T v log;
  b_ok : Forall okevb (others T);
  b_nd : NoDup (sources (others T));
  b_take : Forall (fun x => exists k m, In k all /\ x = (Z.of_nat (k - 1), m) /\ okres k m) (takes T);
  b_ndt : NoDup (map fst (takes T));
  b_acc : forall k, In k acc -> nth k (s_comDone (v_st v)) false = true -> nth k (s_flgCom (v_st v)) false = true;
  b_flg : forall k, nth k (s_flgCom (v_st v)) false = true -> In k acc;
  b_votes : Forall (fun x => exists k m ms, In k acc /\ x = ((Z.of_nat (k - 1), m), ms) /\ okvote k ms) log;
  b_seen : s_MVBASent (v_st v) = false -> forall j k, In j hon -> In k hon -> In (Z.of_nat (j - 1), Z.of_nat k) (sources (others T)) ->
    s_hold (v_st v) = Some (arrived j k) \/ In (Z.of_nat j) (map fst (nth k (s_SRec (v_st v)) []));
  b_hold : forall x, s_hold (v_st v) = Some x -> exists j k, In j all /\ In k acc /\ ro_sender x = Z.of_nat (j - 1) /\ ro_k x = k /\ (In j hon -> In k hon -> x = arrived j k) }.

Lemma goodb_inv T v log : goodb T v log -> exists pevs, inv s p QB pevs (v_st v) /\ sinv p (v_st v) /\ calm (v_st v) /\ recvs pevs = recvs (others T).
Proof.
  intros G. destruct (vruns_refines cd sign sigok combine p st0 T v log (b_run _ _ _ G)) as (pevs & PL & EF). exists pevs.
  assert (SO : sources pevs = sources (others T)).
  { rewrite <- EF. clear. induction pevs as [|e l IH]; [reflexivity|]. cbn [filter]. destruct e; cbn [is_reshare negb sources flat_map app]; fold (sources l); fold (sources (filter (fun e => negb (is_reshare e)) l)); congruence. }
  assert (OK : Forall okevb pevs).
  { apply Forall_forall. intros e I. destruct (is_reshare e) eqn:R; [destruct e; try discriminate; exact Logic.I|].
    pose proof (b_ok _ _ _ G) as A. rewrite Forall_forall in A. apply A. rewrite <- EF. apply filter_In. rewrite R. auto. }
  destruct (env_inv cd s p QB W HQ sign sigok combine HP (QB (p_PID p + 1)) st0 pevs (v_st v) (HQ _) E0) as (I1 & I2 & I3).
  - apply ok_envb; [exact OK|]. rewrite SO. exact (b_nd _ _ _ G).
  - exact (prun_log_run _ _ _ _ _ _ _ _ _ PL).
  - split; [exact I1|]. split; [exact I2|]. split; [exact I3|]. rewrite !recvs_sources, SO. reflexivity.
Qed.

Lemma goodb_commit T v log k : goodb T v log -> In k pubs -> exists v', vstep v (VOther (EvCommit k (dat k))) = Ret (Some (v', None)) /\
  goodb (T ++ [VOther (EvCommit k (dat k))]) v' log /\ (In k acc -> nth k (s_flgCom (v_st v')) false = true) /\ pot v' = pot v.
Proof.
  intros G K. pose proof (HA k (IH3 k K)) as Hk. destruct (goodb_inv T v log G) as (pevs & I & _ & _ & _). pose proof I as ((L1 & L2 & L3 & L4 & L5 & L6 & L7 & L8 & L9 & L10 & L11) & _).
  set (st := v_st v) in *.
  assert (S : exists st', pstep st (EvCommit k (dat k)) = Ret (st', []) /\ (In k acc -> nth k (s_flgCom st') false = true) /\
    (forall k, In k acc -> nth k (s_comDone st') false = true -> nth k (s_flgCom st') false = true) /\ (forall k, nth k (s_flgCom st') false = true -> In k acc) /\
    s_MVBASent st' = s_MVBASent st /\ s_hold st' = s_hold st /\ s_SRec st' = s_SRec st /\ s_busy st' = s_busy st).
  { cbn [ProacModel.pstep]. destruct (nth k (s_comDone st) false) eqn:CD0.
    - exists st. unfold do_commit. rewrite (nth_indep _ true false), CD0, orb_true_r by lia. cbn [bind]. split; [reflexivity|].
      split; [intros A; apply (b_acc _ _ _ G); assumption|]. split; [apply (b_acc _ _ _ G)|]. split; [apply (b_flg _ _ _ G)|]. repeat split.
    - destruct (HDV k (nth k (s_CQ st) []) K ltac:(apply L10; lia)) as (b & row' & EV & EB).
      exists (mkPst (if b then set_nth k true (s_flgCom st) else s_flgCom st) (set_nth k true (s_comDone st)) (s_flgRec st) (set_nth k row' (s_CQ st)) (s_Q st) (s_SRec st) (s_SSig st)
        (s_Comb st) (s_stopped st) (s_MVBAIn st) (s_MVBASent st) (s_busy st) (s_hold st)).
      split; [|split; [|split; [|split; [|repeat split]]]].
      + unfold do_commit. rewrite (proj2 (Nat.leb_le 1 k)), (proj2 (Nat.leb_le k (p_N p))) by lia. cbn [negb andb orb].
        rewrite (nth_indep _ true false) by lia. rewrite CD0. rewrite (idx_nth []) by lia. cbn [bind].
        rewrite EV. cbn [bind]. unfold upd. rewrite (proj2 (Nat.ltb_lt k (length (s_CQ st)))) by lia. reflexivity.
      + cbn [s_flgCom]. intros A. rewrite (proj2 EB A). apply nth_set_nth_same. lia.
      + cbn [s_flgCom s_comDone]. intros k' A X. destruct (Nat.eq_dec k k') as [<-|NE]; [rewrite (proj2 EB A); apply nth_set_nth_same; lia|]. rewrite nth_set_nth_other in X by exact NE.
        destruct b; [rewrite nth_set_nth_other by exact NE|]; exact (b_acc _ _ _ G k' A X).
      + cbn [s_flgCom]. intros k' X. destruct b; [|exact (b_flg _ _ _ G k' X)]. destruct (Nat.eq_dec k k') as [<-|NE]; [apply EB; reflexivity|]. rewrite nth_set_nth_other in X by exact NE. exact (b_flg _ _ _ G k' X). }
  destruct S as (st' & E & FK & AC & FL & S1 & S2 & S3 & S4). exists (mkV st' (v_told v) (v_tok v) (v_free v) (v_wait v)).
  assert (EV : vstep v (VOther (EvCommit k (dat k))) = Ret (Some (mkV st' (v_told v) (v_tok v) (v_free v) (v_wait v), None))) by (apply (vstep_pstep cd p sg sigok combine v _ st' []); [reflexivity|exact E]).
  split; [exact EV|]. split; [|split; [exact FK|]].
  - constructor; cbn [v_st]; rewrite ?snoc_others, ?takes_snoc, ?sources_snoc, ?app_nil_r.
    + pose proof (vr_step _ _ _ _ _ _ T v log _ _ _ (b_run _ _ _ G) EV) as R. cbv iota in R. rewrite app_nil_r in R. exact R.
    + apply Forall_app. split; [exact (b_ok _ _ _ G)|]. constructor; [|constructor]. split; [exact K|reflexivity].
    + exact (b_nd _ _ _ G).
    + exact (b_take _ _ _ G).
    + exact (b_ndt _ _ _ G).
    + exact AC.
    + exact FL.
    + exact (b_votes _ _ _ G).
    + rewrite S1, S2, S3. exact (b_seen _ _ _ G).
    + rewrite S2. exact (b_hold _ _ _ G).
  - unfold StageProofs.pot. cbn [v_st v_told v_wait]. fold st. rewrite S1, S2, S4. reflexivity.
Qed.

Lemma goodb_recv T v log j k m : goodb T v log -> In j all -> In k acc -> okmsg j k m -> s_hold (v_st v) = None -> ~ In (Z.of_nat (j - 1), Z.of_nat k) (sources (others T)) ->
  exists v', vstep v (VOther (EvRecv (Z.of_nat (j - 1)) m)) = Ret (Some (v', None)) /\
    goodb (T ++ [VOther (EvRecv (Z.of_nat (j - 1)) m)]) v' log /\ pot v' = (pot v + 1)%nat.
Proof.
  intros G J K OK EH NI. set (st := v_st v) in *. pose proof (HA k (acc_all k K)) as Hk. pose proof OK as (O1 & (w & O2) & O3 & O4).
  set (x := mkRecov (Z.of_nat (j - 1)) k (FrFrom32_into 0 (to32 (rc_V m))) w (rc_Sig m)).
  set (st' := mkPst (s_flgCom st) (s_comDone st) (s_flgRec st) (s_CQ st) (s_Q st) (s_SRec st) (s_SSig st)
                (s_Comb st) (s_stopped st) (s_MVBAIn st) (s_MVBASent st) (s_busy st) (Some x)).
  assert (XA : In j hon -> In k hon -> x = arrived j k).
  { intros J' K'. unfold x. rewrite (O4 J' K') in *. unfold StageProofs.arrived, StageProofs.rmsg, recover_msg in *. cbn [rc_V rc_Sig rc_W] in *. rewrite to32_FrTo32; unfold FrFrom32_into; rewrite FrFrom32_FrTo32.
    rewrite HC in O2. injection O2 as <-. reflexivity. }
  assert (E : pstep st (EvRecv (Z.of_nat (j - 1)) m) = Ret (st', [])).
  { cbn [ProacModel.pstep]. unfold do_recv. rewrite EH. cbv zeta. unfold ReadG1. rewrite O2. cbn [bind].
    rewrite O1, (proj2 (Z.ltb_ge _ _)) by lia. cbn [bind]. rewrite Nat2Z.id. reflexivity. }
  exists (mkV st' (v_told v) (v_tok v) (v_free v) (v_wait v)).
  assert (EV : vstep v (VOther (EvRecv (Z.of_nat (j - 1)) m)) = Ret (Some (mkV st' (v_told v) (v_tok v) (v_free v) (v_wait v), None))) by (apply (vstep_pstep cd p sg sigok combine v _ st' []); [reflexivity|exact E]).
  split; [exact EV|]. split.
  - constructor; cbn [v_st]; rewrite ?snoc_others, ?takes_snoc, ?sources_snoc, ?app_nil_r.
    + pose proof (vr_step _ _ _ _ _ _ T v log _ _ _ (b_run _ _ _ G) EV) as R. cbv iota in R. rewrite app_nil_r in R. exact R.
    + apply Forall_app. split; [exact (b_ok _ _ _ G)|]. constructor; [|constructor]. exists j, k. auto.
    + rewrite O1. apply (Permutation_NoDup (Permutation_cons_append _ _)). constructor; [exact NI|exact (b_nd _ _ _ G)].
    + exact (b_take _ _ _ G).
    + exact (b_ndt _ _ _ G).
    + exact (b_acc _ _ _ G).
    + exact (b_flg _ _ _ G).
    + exact (b_votes _ _ _ G).
    + cbn [st' s_MVBASent s_hold s_SRec]. intros MS j1 k1 J1 K1 X. apply in_app_or in X. destruct X as [X|[X|[]]].
      * right. destruct (b_seen _ _ _ G MS j1 k1 J1 K1 X) as [Y|Y]; [|exact Y]. fold st in Y. congruence.
      * left. rewrite O1 in X. pose proof (f_equal fst X) as X1. pose proof (f_equal snd X) as X2. cbn [fst snd] in X1, X2. pose proof (HA j J). pose proof (HH j1 J1).
        assert (j1 = j) as -> by lia. assert (k1 = k) as -> by lia. rewrite XA by assumption. reflexivity.
    + cbn [st' s_hold]. intros y Y. injection Y as <-. exists j, k. split; [exact J|]. split; [exact K|]. split; [reflexivity|]. split; [reflexivity|exact XA].
  - unfold StageProofs.pot. cbn [v_st v_told v_wait st' s_hold s_MVBASent s_busy]. fold st. rewrite EH. cbn [one]. lia.
Qed.

Lemma goodb_handle T v log : goodb T v log -> can_handle (v_st v) = true -> exists v', vstep v (VOther EvHandle) = Ret (Some (v', None)) /\
  goodb (T ++ [VOther EvHandle]) v' log /\ (pot v' + 1 = pot v)%nat.
Proof.
  intros G CH. destruct (goodb_inv T v log G) as (pevs & I & SI & CA & ER). set (st := v_st v) in *. unfold can_handle in CH. destruct (s_hold st) as [x|] eqn:EH; [|discriminate].
  destruct (b_hold _ _ _ G x EH) as (j & k & J & K & SX & KX & XA). pose proof (HA k (acc_all k K)) as Hk. pose proof (HA j J) as Hj.
  apply andb_true_iff in CH. destruct CH as (CH & C4). apply andb_true_iff in CH. destruct CH as (CH & C3). apply andb_true_iff in CH. destruct CH as (C1 & C2). apply negb_true_iff in C3.
  assert (SX' : Xof (ro_sender x) = Z.of_nat j) by (rewrite SX; apply Xof_k; exact J).
  destruct (do_handle_inv s p sigok combine QB W HP (fun k _ => HQ k) pevs st I) as (st' & ED & _).
  assert (EH' : handle sigok combine p (set_hold st None) x = Ret st').
  { unfold do_handle in ED. rewrite EH in ED. rewrite C1, C2, C4, C3 in ED. exact ED. }
  pose proof (inv_drop s p QB pevs st I) as I0. pose proof I0 as (LL0 & A0 & _).
  destruct (recov_check s p sigok QB W HP (set_hold st None) x LL0 ltac:(lia)) as (c & EC & EO). { intros i Hi. apply A0; [lia|exact C1|exact Hi]. }
  pose proof (proj1 (proj1 SI)) as LS. fold st in LS.
  assert (FIN : s_hold st' = None /\ s_comDone st' = s_comDone st /\ s_flgCom st' = s_flgCom st /\ flag st' = flag st /\ (s_MVBASent st' = false -> s_MVBASent st = false) /\
    (forall k1 z, In z (map fst (nth k1 (s_SRec st) [])) -> In z (map fst (nth k1 (s_SRec st') []))) /\
    (In j hon -> In k hon -> In (Z.of_nat j) (map fst (nth k (s_SRec st') [])))).
  { unfold handle in EH'. rewrite EO in EH'. cbn [bind] in EH'. destruct (c && sigok (ro_k x) (ro_sig x)) eqn:OKC.
    - destruct (add_point p (set_hold st None) x) as [st1| | |] eqn:E1; try discriminate. cbn [bind] in EH'. destruct (add_sig combine p st1 x) as [st2| | |] eqn:E2; try discriminate. cbn [bind] in EH'.
      pose proof (add_point_SRec p HP _ _ _ E1) as SR. cbn [set_hold s_SRec] in SR. destruct (add_point_rest p _ _ _ E1) as (P1 & P2 & P3 & P4 & P5). cbn [set_hold s_hold s_comDone s_flgCom s_MVBASent s_busy] in P1, P2, P3, P4, P5.
      destruct (add_sig_rest p combine _ _ _ (eq_trans P5 C3) E2) as (Q1 & Q2 & Q3 & Q4 & Q5).
      assert (M : s_MVBASent st2 = false -> s_MVBASent st = false).
      { intros X. rewrite <- P4. unfold add_sig in E2. destruct (idx (s_SSig st1) (ro_k x)) as [old| | |]; try discriminate. cbn [bind] in E2. destruct (_ && _) in E2; injection E2 as <-; cbn [s_MVBASent] in X; [apply orb_false_iff in X; apply X|exact X]. }
      assert (FL : flag st2 = flag st) by (rewrite Q5; unfold flag; rewrite P4, P5; reflexivity).
      assert (EQ : s_hold st' = None /\ s_comDone st' = s_comDone st /\ s_flgCom st' = s_flgCom st /\ flag st' = flag st /\ (s_MVBASent st' = false -> s_MVBASent st = false) /\ s_SRec st' = s_SRec st1).
      { injection EH' as <-. destruct (s_MVBASent st2) eqn:MS.
        - cbn [s_hold s_comDone s_flgCom s_SRec s_MVBASent]. rewrite Q1, Q2, Q3, Q4. repeat (split; [assumption|]). split; [|split; [discriminate|reflexivity]]. rewrite <- FL. unfold flag. cbn [s_MVBASent s_busy]. rewrite MS. reflexivity.
        - rewrite Q1, Q2, Q3, Q4. repeat (split; [assumption|]). split; [intros _; apply M; reflexivity|reflexivity]. }
      destruct EQ as (F1 & F2 & F3 & F4 & F5 & F6). rewrite SR in F6. repeat (split; [assumption|]). rewrite F6, KX, SX'. split.
      + intros k1 z Z. destruct (Nat.eq_dec k k1) as [<-|NE]; [|rewrite nth_set_nth_other by exact NE; exact Z]. rewrite nth_set_nth_same by lia. rewrite map_app. apply in_or_app. left. exact Z.
      + intros _ _. rewrite nth_set_nth_same by lia. rewrite map_app. apply in_or_app. right. left. reflexivity.
    - assert (NH : In j hon -> In k hon -> False).
      { intros J' K'. rewrite (XA J' K') in EC, OKC. rewrite (arrived_check s p QB sg hon W HQ HP HN HH j k J' K') in EC. injection EC as <-. cbn [StageProofs.arrived ro_k ro_sig andb] in OKC. rewrite (HS j k J' K') in OKC. discriminate. }
      cbn [bind] in EH'. injection EH' as <-. cbn [set_hold s_MVBASent s_flgCom s_comDone s_flgRec s_CQ s_Q s_SRec s_SSig s_Comb s_stopped s_MVBAIn s_busy s_hold].
      destruct (s_MVBASent st) eqn:MS; cbn [set_hold s_MVBASent s_flgCom s_comDone s_SRec s_busy s_hold]; unfold flag; cbn [set_hold s_MVBASent s_busy]; rewrite ?MS; (split; [reflexivity|split; [reflexivity|split; [reflexivity|split; [reflexivity|split; [auto|split; [auto|intros J' K'; destruct (NH J' K')]]]]]]). }
  destruct FIN as (F1 & F2 & F3 & F5 & F6 & F7 & F8).
  exists (mkV st' (v_told v) (v_tok v) (v_free v) (v_wait v)).
  assert (EV : vstep v (VOther EvHandle) = Ret (Some (mkV st' (v_told v) (v_tok v) (v_free v) (v_wait v), None))).
  { apply (vstep_pstep cd p sg sigok combine v _ st' []); [reflexivity|]. cbn [ProacModel.pstep]. fold st. rewrite ED. reflexivity. }
  split; [exact EV|]. split.
  - constructor; cbn [v_st]; rewrite ?snoc_others, ?takes_snoc, ?sources_snoc, ?app_nil_r.
    + pose proof (vr_step _ _ _ _ _ _ T v log _ _ _ (b_run _ _ _ G) EV) as R. cbv iota in R. rewrite app_nil_r in R. exact R.
    + apply Forall_app. split; [exact (b_ok _ _ _ G)|]. constructor; [exact Logic.I|constructor].
    + exact (b_nd _ _ _ G).
    + exact (b_take _ _ _ G).
    + exact (b_ndt _ _ _ G).
    + rewrite F2, F3. exact (b_acc _ _ _ G).
    + rewrite F3. exact (b_flg _ _ _ G).
    + exact (b_votes _ _ _ G).
    + intros MS j1 k1 J1 K1 X. right.
      destruct (b_seen _ _ _ G (F6 MS) j1 k1 J1 K1 X) as [Y|Y]; [|apply F7; exact Y].
      fold st in Y. rewrite EH in Y. injection Y as Y. rewrite Y in KX, SX. cbn [StageProofs.arrived ro_k ro_sender] in KX, SX. pose proof (HH j1 J1).
      assert (j1 = j) as -> by lia. subst k1. apply F8; assumption.
    + rewrite F1. discriminate.
  - unfold StageProofs.pot. cbn [v_st v_told v_wait]. fold st. fold (flag st). fold (flag st'). rewrite F1, F5, EH. cbn [one]. lia.
Qed.

Lemma goodb_agreed T v log : goodb T v log -> s_busy (v_st v) = true -> exists v', vstep v (VOther EvMVBA) = Ret (Some (v', None)) /\
  goodb (T ++ [VOther EvMVBA]) v' log /\ (pot v' + 1 = pot v)%nat.
Proof.
  intros G B. destruct (goodb_inv T v log G) as (pevs & I & SI & CA & ER).
  assert (MS : s_MVBASent (v_st v) = true). { destruct (s_MVBASent (v_st v)) eqn:MS; [reflexivity|]. destruct (CA MS). congruence. }
  exists (mkV (do_mvba (v_st v)) (v_told v) (v_tok v) (v_free v) (v_wait v)).
  assert (EV : vstep v (VOther EvMVBA) = Ret (Some (mkV (do_mvba (v_st v)) (v_told v) (v_tok v) (v_free v) (v_wait v), None))) by reflexivity.
  split; [exact EV|]. split.
  - constructor; cbn [v_st do_mvba s_comDone s_flgCom s_MVBASent s_hold s_SRec]; rewrite ?snoc_others, ?takes_snoc, ?sources_snoc, ?app_nil_r.
    + pose proof (vr_step _ _ _ _ _ _ T v log _ _ _ (b_run _ _ _ G) EV) as R. cbv iota in R. rewrite app_nil_r in R. exact R.
    + apply Forall_app. split; [exact (b_ok _ _ _ G)|]. constructor; [exact Logic.I|constructor].
    + exact (b_nd _ _ _ G).
    + exact (b_take _ _ _ G).
    + exact (b_ndt _ _ _ G).
    + exact (b_acc _ _ _ G).
    + exact (b_flg _ _ _ G).
    + exact (b_votes _ _ _ G).
    + exact (b_seen _ _ _ G).
    + exact (b_hold _ _ _ G).
  - unfold StageProofs.pot. cbn [v_st v_told v_wait do_mvba s_hold s_MVBASent s_busy]. rewrite MS, B. cbn [bit]. lia.
Qed.

(** A vote on a message of a dealer whose commitments are accepted. *)
Lemma voteb_ret T v log k m : goodb T v log -> In k all -> okres k m -> nth k (s_flgCom (v_st v)) false = true ->
  exists ms, do_vote cd sign p (v_st v) (Z.of_nat (k - 1)) m = Ret ms /\ okvote k ms.
Proof.
  intros G K (D & O1 & O2) FK. pose proof (HA k K) as Hk. destruct (goodb_inv T v log G) as (pevs & I & _). destruct I as ((L1 & L2 & L3 & L4 & L5 & L6 & L7 & L8 & L9 & L10 & L11) & A & _).
  unfold do_vote. rewrite (index_k k K). change (((Z.of_nat (k - 1) + 1) mod 2 ^ 32)%Z) with (Xof (Z.of_nat (k - 1))). rewrite (Xof_k k K), (idx_nth []) by lia. cbn [bind].
  destruct (in_dec Nat.eq_dec k hon) as [KH|KH].
  - rewrite (O1 KH). unfold StageProofs.smsg. rewrite (vote_honest cd s p W (QB k) _ _ (nth k (s_CQ (v_st v)) []) HC (HQ k)); [|apply L10; lia|intros j Hj; apply (A k Hk FK j Hj)].
    cbn [bind]. exists (votes k). split; [reflexivity|]. split; [intros _; reflexivity|]. split; [right; unfold StageProofs.votes; rewrite map_length; apply seq_length|].
    intros l rm Ll X. unfold StageProofs.votes in X. rewrite nth_error_map_seq in X by (apply HH; exact Ll). assert (EX : rm = recover_msg cd s (QB k) (Z.of_nat k) (sign k) (p_PID p + 1) l) by congruence. rewrite EX.
    split; [reflexivity|]. split; [eexists; apply HC|]. apply HPF; assumption.
  - destruct D as (v0 & w0 & D). destruct (vote_total cd s p (nth k (s_CQ (v_st v)) []) (Z.of_nat k) (sign k) m v0 w0 HC W ltac:(apply L10; lia) D) as (o & EO & HO). pose proof EO as EO'. rewrite EO. cbn [bind].
    destruct o as [ms|]; [|exists []; split; [reflexivity|]; split; [intros X; destruct (KH X)|]; split; [left; reflexivity|]; intros l rm _ X; destruct (l - 1)%nat; discriminate].
    exists ms. split; [reflexivity|]. split; [intros X; destruct (KH X)|]. destruct (HO ms eq_refl) as (LM & HM). split; [right; exact LM|]. intros l rm Ll X. destruct (HM rm (nth_error_In _ _ X)) as (R1 & _ & R3).
    split; [exact R1|]. split; [exact R3|]. refine (O2 _ _ _ l rm _ EO' Ll X KH). apply L10. lia.
Qed.

Lemma goodb_take T v log k m : goodb T v log -> In k all -> okres k m -> v_free v <> O -> ~ In (Z.of_nat (k - 1)) (map fst (takes T)) ->
  exists v' o, vstep v (VTake (Z.of_nat (k - 1)) m) = Ret (Some (v', o)) /\
    goodb (T ++ [VTake (Z.of_nat (k - 1)) m]) v' (log ++ match o with Some x => [x] | None => [] end) /\
    ((o = None /\ pot v' = (pot v + 1 + 2 * length hon)%nat) \/ (exists ms, o = Some ((Z.of_nat (k - 1), m), ms) /\ In k acc /\ okvote k ms /\ pot v' = pot v)) /\
    v_st v' = v_st v.
Proof.
  intros G K OK FR NI. pose proof (HA k K) as Hk. destruct (goodb_inv T v log G) as (pevs & I & _). destruct I as ((L1 & _) & _).
  destruct (v_free v) as [|n] eqn:EF; [congruence|]. clear FR.
  assert (GEN : forall v' o, vstep v (VTake (Z.of_nat (k - 1)) m) = Ret (Some (v', o)) -> v_st v' = v_st v -> (o = None \/ exists ms, o = Some ((Z.of_nat (k - 1), m), ms) /\ In k acc /\ okvote k ms) ->
    goodb (T ++ [VTake (Z.of_nat (k - 1)) m]) v' (log ++ match o with Some x => [x] | None => [] end)).
  { intros v' o EV ES OO. constructor; rewrite ?others_snoc, ?takes_snoc, ?app_nil_r, ?ES.
    + exact (vr_step _ _ _ _ _ _ T v log _ _ _ (b_run _ _ _ G) EV).
    + exact (b_ok _ _ _ G).
    + exact (b_nd _ _ _ G).
    + apply Forall_app. split; [exact (b_take _ _ _ G)|]. constructor; [|constructor]. exists k, m. auto.
    + rewrite map_app. cbn [map fst]. apply (Permutation_NoDup (Permutation_cons_append _ _)). constructor; [exact NI|exact (b_ndt _ _ _ G)].
    + exact (b_acc _ _ _ G).
    + exact (b_flg _ _ _ G).
    + apply Forall_app. split; [exact (b_votes _ _ _ G)|]. destruct OO as [-> |(ms & -> & AK & OV)]; [constructor|]. constructor; [|constructor]. exists k, m, ms. auto.
    + exact (b_seen _ _ _ G).
    + exact (b_hold _ _ _ G). }
  destruct (nth k (s_flgCom (v_st v)) false) eqn:FK.
  - destruct (voteb_ret T v log k m G K OK FK) as (ms & EM & OV). pose proof (b_flg _ _ _ G k FK) as AK.
    assert (EV : vstep v (VTake (Z.of_nat (k - 1)) m) = Ret (Some (mkV (v_st v) (v_told v) (v_tok v) n (v_wait v), Some ((Z.of_nat (k - 1), m), ms)))).
    { cbn [ReshareModel.vstep]. rewrite EF, (index_k k K), (idx_nth false) by lia. rewrite FK. cbn [bind]. rewrite EM. reflexivity. }
    eexists. eexists. split; [exact EV|]. split; [apply (GEN _ _ EV); [reflexivity|right; exists ms; auto]|]. split; [right; exists ms; auto|reflexivity].
  - assert (EV : vstep v (VTake (Z.of_nat (k - 1)) m) = Ret (Some (mkV (v_st v) (v_told v) (v_tok v) n (v_wait v ++ [(Z.of_nat (k - 1), m)]), None))).
    { cbn [ReshareModel.vstep]. rewrite EF, (index_k k K), (idx_nth false) by lia. rewrite FK. reflexivity. }
    eexists. eexists. split; [exact EV|]. split; [apply (GEN _ _ EV); [reflexivity|left; reflexivity]|]. split; [|reflexivity]. left. split; [reflexivity|].
    unfold StageProofs.pot. cbn [v_st v_told v_wait]. rewrite app_length. cbn [length]. lia.
Qed.

Lemma goodb_tell T v log k v' o : goodb T v log -> vstep v (VTell k) = Ret (Some (v', o)) -> o = None /\ goodb (T ++ [VTell k]) v' log /\ (pot v' + 1 = pot v)%nat /\ v_st v' = v_st v.
Proof.
  intros G E. pose proof E as EV. apply vstep_tell in E. destruct E as (FK & L & F & -> & ->). split; [reflexivity|]. split; [|split; [|reflexivity]].
  - constructor; cbn [v_st]; rewrite ?others_snoc, ?takes_snoc, ?app_nil_r.
    + pose proof (vr_step _ _ _ _ _ _ T v log _ _ _ (b_run _ _ _ G) EV) as R. cbv iota in R. rewrite app_nil_r in R. exact R.
    + exact (b_ok _ _ _ G).
    + exact (b_nd _ _ _ G).
    + exact (b_take _ _ _ G).
    + exact (b_ndt _ _ _ G).
    + exact (b_acc _ _ _ G).
    + exact (b_flg _ _ _ G).
    + exact (b_votes _ _ _ G).
    + exact (b_seen _ _ _ G).
    + exact (b_hold _ _ _ G).
  - unfold StageProofs.pot. cbn [v_st v_told v_wait]. pose proof (falses_set p HP k (v_told v) L F). lia.
Qed.

Lemma waitb_taken T v log x : goodb T v log -> In x (v_wait v) -> exists k m, In k all /\ x = (Z.of_nat (k - 1), m) /\ okres k m.
Proof.
  intros G I. destruct (vruns_count cd sign sigok combine p st0 T v log (b_run _ _ _ G)) as (_ & PE & _). pose proof (b_take _ _ _ G) as A. rewrite Forall_forall in A. apply A.
  apply (Permutation_in _ (Permutation_sym PE)). apply in_or_app. left. exact I.
Qed.

Lemma goodb_wake T v log i v' o : goodb T v log -> vstep v (VWake i) = Ret (Some (v', o)) -> exists k m ms, In k acc /\ okvote k ms /\ o = Some ((Z.of_nat (k - 1), m), ms) /\
  goodb (T ++ [VWake i]) v' (log ++ [((Z.of_nat (k - 1), m), ms)]) /\ (pot v' + 1 + 2 * length hon = pot v)%nat /\ v_st v' = v_st v.
Proof.
  intros G E. pose proof E as EV. apply vstep_wake in E. destruct E as (s1 & m & ms & NE & TK & EM & -> & ->).
  destruct (waitb_taken T v log (s1, m) G (nth_error_In _ _ NE)) as (k & m' & K & EX & OK). injection EX as -> <-. exists k, m, ms.
  pose proof (vruns_tinv cd sign sigok combine p st0 _ _ _ (b_run _ _ _ G)) as (_ & TI).
  rewrite (index_k k K) in TK. assert (FK : nth k (s_flgCom (v_st v)) false = true) by (apply TI, TI, TK). pose proof (b_flg _ _ _ G k FK) as AK.
  destruct (voteb_ret T v log k m G K OK FK) as (ms' & EM' & OV). rewrite EM in EM'. injection EM' as <-.
  split; [exact AK|]. split; [exact OV|]. split; [reflexivity|]. split; [|split; [|reflexivity]].
  - constructor; cbn [v_st]; rewrite ?others_snoc, ?takes_snoc, ?app_nil_r.
    + exact (vr_step _ _ _ _ _ _ T v log _ _ _ (b_run _ _ _ G) EV).
    + exact (b_ok _ _ _ G).
    + exact (b_nd _ _ _ G).
    + exact (b_take _ _ _ G).
    + exact (b_ndt _ _ _ G).
    + exact (b_acc _ _ _ G).
    + exact (b_flg _ _ _ G).
    + apply Forall_app. split; [exact (b_votes _ _ _ G)|]. constructor; [|constructor]. exists k, m, ms. auto.
    + exact (b_seen _ _ _ G).
    + exact (b_hold _ _ _ G).
  - unfold StageProofs.pot. cbn [v_st v_told v_wait]. pose proof (split_at _ _ _ NE) as SP. apply (f_equal (@length _)) in SP. rewrite app_length in SP. cbn [length] in SP. rewrite app_length, SP. lia.
Qed.

Lemma wakeb_total T v log i : goodb T v log -> exists o, vstep v (VWake i) = Ret o.
Proof.
  intros G. cbn [ReshareModel.vstep]. destruct (nth_error (v_wait v) i) as [(s1, m)|] eqn:NE; [|eexists; reflexivity].
  destruct (waitb_taken T v log (s1, m) G (nth_error_In _ _ NE)) as (k & m' & K & EX & OK). injection EX as -> <-. rewrite (index_k k K).
  destruct (nth k (v_tok v) false) eqn:TK; [|eexists; reflexivity].
  pose proof (vruns_tinv cd sign sigok combine p st0 _ _ _ (b_run _ _ _ G)) as (_ & TI). assert (FK : nth k (s_flgCom (v_st v)) false = true) by (apply TI, TI, TK).
  destruct (voteb_ret T v log k m G K OK FK) as (ms' & EM' & OV). rewrite EM'. eexists. reflexivity.
Qed.

Lemma goodb_end_of K0 T v log : goodb T v log -> (2 * p_F p + 1 <= length hon)%nat -> s_hold (v_st v) = None -> incl K0 hon -> NoDup K0 -> (p_F p + 1 <= length K0)%nat ->
  (forall j k, In j hon -> In k K0 -> In (Z.of_nat (j - 1), Z.of_nat k) (sources (others T))) -> s_MVBASent (v_st v) = true.
Proof.
  intros G HL EH IK NK LK ALL. destruct (goodb_inv T v log G) as (pevs & I & SI & CA & ER). destruct (s_MVBASent (v_st v)) eqn:MS; [reflexivity|].
  destruct SI as (_ & S1 & S2 & S3 & S4 & S5 & _). rewrite <- MS. apply S5.
  assert (INC : incl K0 (map fst (s_MVBAIn (v_st v)))).
  { intros k K. apply S4, S2. rewrite S1. eapply Nat.le_trans; [exact HL|]. rewrite <- (map_length fst (nth k (s_SRec (v_st v)) [])), <- (map_length Z.of_nat hon).
    apply NoDup_incl_length; [apply nodup_map_in; [intros; lia|exact ND]|]. intros z Z. apply in_map_iff in Z. destruct Z as (j & <- & J).
    destruct (b_seen _ _ _ G MS j k J (IK k K) (ALL j k J K)) as [Y|Y]; [congruence|exact Y]. }
  apply (NoDup_incl_length NK) in INC. rewrite map_length in INC. lia.
Qed.

Lemma goodb_init : s_flgCom st0 = repeat false (p_N p + 1) -> s_comDone st0 = repeat false (p_N p + 1) -> s_hold st0 = None -> goodb [] (vote_init p st0) [].
Proof.
  intros A B C. constructor; cbn [vote_init v_st others takes flat_map sources map].
  - exact (vr_nil _ _ _ _ _ _).
  - exact (Forall_nil _).
  - exact (NoDup_nil _).
  - exact (Forall_nil _).
  - exact (NoDup_nil _).
  - intros k _ X. rewrite B, nth_repeat in X. discriminate.
  - intros k X. rewrite A, nth_repeat in X. discriminate.
  - exact (Forall_nil _).
  - intros _ j k _ _ X. destruct X.
  - rewrite C. discriminate.
Qed.
End Member.
