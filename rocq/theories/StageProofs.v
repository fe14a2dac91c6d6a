(** Proofs about StageModel.v. *)

Require Import ZArith List Bool Arith Lia Permutation.
From Verif Require Import Prime Fr GoBase Poly PolyModel PolyProofs Biv GroupModel KzgModel KzgProofs.
From Verif Require Import CodecModel CodecProofs PartyModel PartySpec VssModel VssProofs BivProofs.
From Verif Require Import ReduceModel ReduceProofs.
From Verif Require Import ProacModel ProacProofs ProacRun ProacSig ProacRecover ProacDist ProacLinks.
From Verif Require Import ReshareModel ReshareProofs StageModel.
Import ListNotations.
Local Open Scope F_scope.

(** ** One member *)

Section Member.
Variables (cd : g1codec) (s : Fr) (p : Party) (QB : nat -> list (list Fr)).
Variable sg : nat -> nat -> list Z.
Variables (sigok : nat -> list Z -> bool) (combine : nat -> list (list Z) -> list Z).
Variable hon : list nat.
Hypothesis HC : codec_ok cd.
Hypothesis W : party_wf s p.
Hypothesis HQ : forall k, bdeg (p_F p) (2 * p_F p) (QB k).
Hypothesis H0 : forall k, In k hon -> beval (QB k) 0 0 = 0.
Hypothesis HP : (p_PID p < p_N p)%nat.
Hypothesis HN : (Z.of_nat (p_N p) < 2 ^ 32)%Z.
Hypothesis HH : forall k, In k hon -> (1 <= k <= p_N p)%nat.
Hypothesis ND : NoDup hon.
Hypothesis HS : forall j k, In j hon -> In k hon -> sigok k (sg j k) = true.
Variable st0 : pst.
Hypothesis E0 : proac_init p (map (fun j => secy (QB (p_PID p + 1)) (of_nat j)) (seq 1 (2 * p_F p + 1))) = Ret st0.
Local Notation sign := (sg (p_PID p + 1)).
Local Notation vstep := (vstep cd sign sigok combine p).
Local Notation pstep := (pstep cd sign sigok combine p).
Local Notation cdata := (commit_data cd s p QB).
Local Notation vruns := (vruns cd sign sigok combine p).

Definition rmsg (j k : nat) : RecoverMsg := recover_msg cd s (QB k) (Z.of_nat k) (sg j k) j (p_PID p + 1).
Definition smsg (k : nat) : ReshareMsg := reshare_msg cd s p (QB k) (p_PID p + 1).
Definition votes (k : nat) : list RecoverMsg := map (recover_msg cd s (QB k) (Z.of_nat k) (sign k) (p_PID p + 1)) (seq 1 (p_N p)).
Definition taken (k : nat) : Z * ReshareMsg := (Z.of_nat (k - 1), smsg k).
Definition arrived (j k : nat) : recov :=
  mkRecov (Z.of_nat (j - 1)) k (beval (QB k) (of_nat j) (me p)) (mkG1 (peval (wrow s (QB k) (of_nat j)) (me p))) (sg j k).

Definition okev (e : pev) : Prop :=
  match e with
  | EvCommit k d => In k hon /\ d = cdata k
  | EvRecv i m => exists j k, In j hon /\ In k hon /\ i = Z.of_nat (j - 1) /\ m = rmsg j k
  | _ => True
  end.

Lemma index_k k : In k hon -> index_of (Z.of_nat (k - 1)) = k.
Proof. intros K. pose proof (HH k K). unfold index_of. rewrite Z.mod_small by lia. lia. Qed.
Lemma Xof_k k : In k hon -> Xof (Z.of_nat (k - 1)) = Z.of_nat k.
Proof. intros K. pose proof (HH k K). unfold Xof. rewrite Z.mod_small by lia. lia. Qed.

Lemma ok_env evs : Forall okev evs -> NoDup (sources evs) -> env cd p QB evs.
Proof.
  intros A NS. rewrite Forall_forall in A. split; [|split; [|split]].
  - intros k data I Hk j m g Hj Em Eg. destruct (A _ I) as (_ & ->). unfold commit_data in Em.
    rewrite (nth_error_map_seq (fun j => pcm_of cd (pc_of s (QB k) j))) in Em by lia.
    apply (f_equal (fun o => match o with Some a => m_CBj a | None => [] end)) in Em. rewrite <- Em in Eg. cbn [pcm_of m_CBj pc_of CBj] in Eg. rewrite HC in Eg.
    rewrite (commit_com s p QB W HQ). unfold com. apply (f_equal (fun o => match o with Some a => a | None => ZeroG1 end)) in Eg. rewrite <- Eg. reflexivity.
  - intros i m w C I EW. cbv zeta. intros _ _. destruct (A _ I) as (j & k & J & K & -> & ->).
    change ((Z.of_nat (j - 1) + 1) mod 2 ^ 32)%Z with (Xof (Z.of_nat (j - 1))). rewrite (Xof_k j J).
    unfold rmsg, recover_msg. cbn [rc_V rc_Index]. rewrite to32_FrTo32; unfold FrFrom32_into; rewrite FrFrom32_FrTo32, Nat2Z.id. reflexivity.
  - exact NS.
  - intros i m I. destruct (A _ I) as (j & k & J & K & -> & ->). pose proof (HH j J). cbn [rmsg recover_msg rc_Index]. split; [lia|]. cbn. lia.
Qed.

Record good (T : list vev) (v : vst) (log : list vote) : Prop := {
  g_run : vruns (vote_init p st0) T v log;
  g_ok : Forall okev (others T);
  g_nd : NoDup (sources (others T));
  g_take : Forall (fun x => exists k, In k hon /\ x = taken k) (takes T);
  g_ndt : NoDup (map fst (takes T));
  g_acc : forall k, (1 <= k <= p_N p)%nat -> nth k (s_comDone (v_st v)) false = true -> nth k (s_flgCom (v_st v)) false = true;
  g_votes : Forall (fun x => exists k, In k hon /\ x = (taken k, votes k)) log;
  g_seen : s_MVBASent (v_st v) = false -> forall j k, In j hon -> In k hon -> In (Z.of_nat (j - 1), Z.of_nat k) (sources (others T)) ->
    s_hold (v_st v) = Some (arrived j k) \/ In (Z.of_nat j) (map fst (nth k (s_SRec (v_st v)) []));
  g_hold : forall x, s_hold (v_st v) = Some x -> exists j k, In j hon /\ In k hon /\ x = arrived j k }.

Lemma good_inv T v log : good T v log -> exists pevs, inv s p QB pevs (v_st v) /\ sinv p (v_st v) /\ calm (v_st v) /\ recvs pevs = recvs (others T).
Proof.
  intros G. destruct (vruns_refines cd sign sigok combine p st0 T v log (g_run _ _ _ G)) as (pevs & PL & EF). exists pevs.
  assert (SO : sources pevs = sources (others T)).
  { rewrite <- EF. clear. induction pevs as [|e l IH]; [reflexivity|]. cbn [filter]. destruct e; cbn [is_reshare negb sources flat_map app]; fold (sources l); fold (sources (filter (fun e => negb (is_reshare e)) l)); congruence. }
  assert (OK : Forall okev pevs).
  { apply Forall_forall. intros e I. destruct (is_reshare e) eqn:R; [destruct e; try discriminate; exact Logic.I|].
    pose proof (g_ok _ _ _ G) as A. rewrite Forall_forall in A. apply A. rewrite <- EF. apply filter_In. rewrite R. auto. }
  destruct (env_inv cd s p QB W HQ sign sigok combine HP (QB (p_PID p + 1)) st0 pevs (v_st v) (HQ _) E0) as (I1 & I2 & I3).
  - apply ok_env; [exact OK|]. rewrite SO. exact (g_nd _ _ _ G).
  - exact (prun_log_run _ _ _ _ _ _ _ _ _ PL).
  - split; [exact I1|]. split; [exact I2|]. split; [exact I3|]. rewrite !recvs_sources, SO. reflexivity.
Qed.

Lemma snoc_others T e : others (T ++ [VOther e]) = others T ++ [e].
Proof. apply others_snoc. Qed.
Lemma sources_snoc l e : sources (l ++ [e]) = sources l ++ match e with EvRecv i m => [(i, rc_Index m)] | _ => [] end.
Proof. rewrite sources_app. destruct e; reflexivity. Qed.

Definition falses (l : list bool) : nat := length (filter negb l).
Definition one {A} (o : option A) : nat := match o with Some _ => 1 | None => 0 end.
Definition bit (b : bool) : nat := if b then 1 else 0.

(** What a member can still do by itself. *)
Definition pot (v : vst) : nat :=
  falses (v_told v) + (1 + 2 * length hon) * length (v_wait v) + one (s_hold (v_st v)) +
  (if s_MVBASent (v_st v) then bit (s_busy (v_st v)) else 1).

Lemma vstep_pstep v e st' ms : is_reshare e = false -> pstep (v_st v) e = Ret (st', ms) ->
  vstep v (VOther e) = Ret (Some (mkV st' (v_told v) (v_tok v) (v_free v) (v_wait v), None)).
Proof. intros R E. destruct e; try discriminate; cbn [ReshareModel.vstep]; rewrite E; reflexivity. Qed.

Lemma good_commit T v log k : good T v log -> In k hon -> exists v', vstep v (VOther (EvCommit k (cdata k))) = Ret (Some (v', None)) /\
  good (T ++ [VOther (EvCommit k (cdata k))]) v' log /\ nth k (s_flgCom (v_st v')) false = true /\ pot v' = pot v.
Proof.
  intros G K. pose proof (HH k K) as Hk. destruct (good_inv T v log G) as (pevs & I & _ & _ & _). pose proof I as ((L1 & L2 & L3 & L4 & L5 & L6 & L7 & L8 & L9 & L10 & L11) & _).
  set (st := v_st v) in *.
  assert (S : exists st', pstep st (EvCommit k (cdata k)) = Ret (st', []) /\ nth k (s_flgCom st') false = true /\
    (forall k, (1 <= k <= p_N p)%nat -> nth k (s_comDone st') false = true -> nth k (s_flgCom st') false = true) /\
    s_MVBASent st' = s_MVBASent st /\ s_hold st' = s_hold st /\ s_SRec st' = s_SRec st /\ s_busy st' = s_busy st).
  { cbn [ProacModel.pstep]. destruct (nth k (s_comDone st) false) eqn:CD0.
    - exists st. unfold do_commit. rewrite (nth_indep _ true false), CD0, orb_true_r by lia. cbn [bind]. split; [reflexivity|]. split; [apply (g_acc _ _ _ G); assumption|]. split; [apply (g_acc _ _ _ G)|]. repeat split.
    - destruct (verify_honest cd s p W (QB k) (nth k (s_CQ st) []) HC (HQ k) (H0 k K) ltac:(apply L10; lia)) as (row' & EV & _).
      exists (mkPst (set_nth k true (s_flgCom st)) (set_nth k true (s_comDone st)) (s_flgRec st) (set_nth k row' (s_CQ st)) (s_Q st) (s_SRec st) (s_SSig st)
        (s_Comb st) (s_stopped st) (s_MVBAIn st) (s_MVBASent st) (s_busy st) (s_hold st)).
      split; [|split; [|split; [|repeat split]]].
      + unfold do_commit. rewrite (proj2 (Nat.leb_le 1 k)), (proj2 (Nat.leb_le k (p_N p))) by lia. cbn [negb andb orb].
        rewrite (nth_indep _ true false) by lia. rewrite CD0. rewrite (idx_nth []) by lia. cbn [bind].
        unfold commit_data. rewrite EV. cbn [bind]. unfold upd. rewrite (proj2 (Nat.ltb_lt k (length (s_CQ st)))) by lia. reflexivity.
      + cbn [s_flgCom]. apply nth_set_nth_same. lia.
      + cbn [s_flgCom s_comDone]. intros k' Hk' X. destruct (Nat.eq_dec k k') as [<-|NE]; [apply nth_set_nth_same; lia|]. rewrite nth_set_nth_other in * by exact NE. exact (g_acc _ _ _ G k' Hk' X). }
  destruct S as (st' & E & FK & AC & S1 & S2 & S3 & S4). exists (mkV st' (v_told v) (v_tok v) (v_free v) (v_wait v)).
  assert (EV : vstep v (VOther (EvCommit k (cdata k))) = Ret (Some (mkV st' (v_told v) (v_tok v) (v_free v) (v_wait v), None))) by (apply (vstep_pstep v _ st' []); [reflexivity|exact E]).
  split; [exact EV|]. split; [|split; [exact FK|]].
  - constructor; cbn [v_st]; rewrite ?snoc_others, ?takes_snoc, ?sources_snoc, ?app_nil_r.
    + pose proof (vr_step _ _ _ _ _ _ T v log _ _ _ (g_run _ _ _ G) EV) as R. cbv iota in R. rewrite app_nil_r in R. exact R.
    + apply Forall_app. split; [exact (g_ok _ _ _ G)|]. constructor; [|constructor]. split; [exact K|reflexivity].
    + exact (g_nd _ _ _ G).
    + exact (g_take _ _ _ G).
    + exact (g_ndt _ _ _ G).
    + exact AC.
    + exact (g_votes _ _ _ G).
    + rewrite S1, S2, S3. exact (g_seen _ _ _ G).
    + rewrite S2. exact (g_hold _ _ _ G).
  - unfold pot. cbn [v_st v_told v_wait]. fold st. rewrite S1, S2, S4. reflexivity.
Qed.

Lemma good_recv T v log j k : good T v log -> In j hon -> In k hon -> s_hold (v_st v) = None -> ~ In (Z.of_nat (j - 1), Z.of_nat k) (sources (others T)) ->
  exists v', vstep v (VOther (EvRecv (Z.of_nat (j - 1)) (rmsg j k))) = Ret (Some (v', None)) /\
    good (T ++ [VOther (EvRecv (Z.of_nat (j - 1)) (rmsg j k))]) v' log /\ pot v' = (pot v + 1)%nat.
Proof.
  intros G J K EH NI. set (st := v_st v) in *. pose proof (HH k K) as Hk.
  set (st' := mkPst (s_flgCom st) (s_comDone st) (s_flgRec st) (s_CQ st) (s_Q st) (s_SRec st) (s_SSig st)
                (s_Comb st) (s_stopped st) (s_MVBAIn st) (s_MVBASent st) (s_busy st) (Some (arrived j k))).
  assert (E : pstep st (EvRecv (Z.of_nat (j - 1)) (rmsg j k)) = Ret (st', [])).
  { cbn [ProacModel.pstep]. unfold do_recv. rewrite EH. cbv zeta. unfold rmsg, recover_msg. cbn [rc_W rc_Index rc_V rc_Sig]. unfold ReadG1. rewrite HC. cbn [bind].
    rewrite (proj2 (Z.ltb_ge _ _)) by lia. cbn [bind]. rewrite to32_FrTo32; unfold FrFrom32_into; rewrite FrFrom32_FrTo32, Nat2Z.id. reflexivity. }
  exists (mkV st' (v_told v) (v_tok v) (v_free v) (v_wait v)).
  assert (EV : vstep v (VOther (EvRecv (Z.of_nat (j - 1)) (rmsg j k))) = Ret (Some (mkV st' (v_told v) (v_tok v) (v_free v) (v_wait v), None))) by (apply (vstep_pstep v _ st' []); [reflexivity|exact E]).
  split; [exact EV|]. split.
  - constructor; cbn [v_st]; rewrite ?snoc_others, ?takes_snoc, ?sources_snoc, ?app_nil_r.
    + pose proof (vr_step _ _ _ _ _ _ T v log _ _ _ (g_run _ _ _ G) EV) as R. cbv iota in R. rewrite app_nil_r in R. exact R.
    + apply Forall_app. split; [exact (g_ok _ _ _ G)|]. constructor; [|constructor]. exists j, k. auto.
    + cbn [rmsg recover_msg rc_Index]. apply (Permutation_NoDup (Permutation_cons_append _ _)). constructor; [exact NI|exact (g_nd _ _ _ G)].
    + exact (g_take _ _ _ G).
    + exact (g_ndt _ _ _ G).
    + exact (g_acc _ _ _ G).
    + exact (g_votes _ _ _ G).
    + cbn [st' s_MVBASent s_hold s_SRec]. intros MS j1 k1 J1 K1 X. apply in_app_or in X. destruct X as [X|[X|[]]].
      * right. destruct (g_seen _ _ _ G MS j1 k1 J1 K1 X) as [Y|Y]; [|exact Y]. fold st in Y. congruence.
      * left. cbn [rmsg recover_msg rc_Index] in X. pose proof (f_equal fst X) as X1. pose proof (f_equal snd X) as X2. cbn [fst snd] in X1, X2. pose proof (HH j J). pose proof (HH j1 J1).
        assert (j1 = j) as -> by lia. assert (k1 = k) as -> by lia. reflexivity.
    + cbn [st' s_hold]. intros x X. injection X as <-. exists j, k. auto.
  - unfold pot. cbn [v_st v_told v_wait st' s_hold s_MVBASent s_busy]. fold st. rewrite EH. cbn [one]. lia.
Qed.

Definition flag (st : pst) : nat := if s_MVBASent st then bit (s_busy st) else 1.

Lemma add_point_rest st x st' : add_point p st x = Ret st' -> s_hold st' = s_hold st /\ s_comDone st' = s_comDone st /\ s_flgCom st' = s_flgCom st /\ s_MVBASent st' = s_MVBASent st /\ s_busy st' = s_busy st.
Proof.
  unfold add_point. destruct (idx (s_SRec st) (ro_k x)) as [old| | |]; try discriminate. cbn [bind]. destruct (_ && _); [|intros E; injection E as <-; repeat split].
  destruct (LagrangeInterpolate _ _ _) as [q| | |]; try discriminate. cbn [bind]. intros E. injection E as <-. repeat split.
Qed.
Lemma add_sig_rest st x st' : s_busy st = false -> add_sig combine p st x = Ret st' -> s_hold st' = s_hold st /\ s_comDone st' = s_comDone st /\ s_flgCom st' = s_flgCom st /\ s_SRec st' = s_SRec st /\ flag st' = flag st.
Proof.
  intros B. unfold add_sig. destruct (idx (s_SSig st) (ro_k x)) as [old| | |]; try discriminate. cbn [bind]. destruct (_ && _); intros E; injection E as <-; repeat (split; [reflexivity|]); [|reflexivity].
  unfold flag. cbn [s_MVBASent s_busy]. rewrite B. destruct (s_MVBASent st); cbn [negb andb orb]; [reflexivity|]. destruct (_ <=? _)%nat; reflexivity.
Qed.

Lemma arrived_check j k : In j hon -> In k hon ->
  CheckProofSingle (p_KZG p) (com s QB (ro_k (arrived j k)) (of_nat (p_PID p + 1))) (ro_w (arrived j k)) (of_Z (Xof (ro_sender (arrived j k)))) (ro_v (arrived j k)) = Ret true.
Proof.
  intros J K. pose proof (HH j J) as Hj. pose proof W as (W1 & _ & W3 & _). cbn [arrived ro_k ro_w ro_sender ro_v].
  rewrite (proj2 (of_Z_sender p HP j Hj HN)). apply (check_iff s (p_F p + 1) (p_KZG p) W1); [lia|]. unfold com. cbn [dlog1]. apply (opening s (QB k) (p_F p) (2 * p_F p)). apply HQ.
Qed.

Lemma good_handle T v log : good T v log -> can_handle (v_st v) = true -> exists v', vstep v (VOther EvHandle) = Ret (Some (v', None)) /\
  good (T ++ [VOther EvHandle]) v' log /\ (pot v' + 1 = pot v)%nat.
Proof.
  intros G CH. destruct (good_inv T v log G) as (pevs & I & SI & CA & ER). set (st := v_st v) in *. unfold can_handle in CH. destruct (s_hold st) as [x|] eqn:EH; [|discriminate].
  destruct (g_hold _ _ _ G x EH) as (j & k & J & K & EX). pose proof (HH k K) as Hk. pose proof (HH j J) as Hj.
  apply andb_true_iff in CH. destruct CH as (CH & C4). apply andb_true_iff in CH. destruct CH as (CH & C3). apply andb_true_iff in CH. destruct CH as (C1 & C2). apply negb_true_iff in C3.
  assert (KX : ro_k x = k) by (rewrite EX; reflexivity). assert (SX : Xof (ro_sender x) = Z.of_nat j) by (rewrite EX; apply Xof_k; exact J).
  destruct (do_handle_inv s p sigok combine QB W HP (fun k _ => HQ k) pevs st I) as (st' & ED & _).
  assert (EH' : handle sigok combine p (set_hold st None) x = Ret st').
  { unfold do_handle in ED. rewrite EH in ED. rewrite C1, C2, C4, C3 in ED. exact ED. }
  pose proof (inv_drop s p QB pevs st I) as I0. pose proof I0 as (LL0 & A0 & _).
  destruct (recov_check s p sigok QB W HP (set_hold st None) x LL0 ltac:(lia)) as (c & EC & EO). { intros i Hi. apply A0; [lia|exact C1|exact Hi]. }
  assert (CT : c = true) by (rewrite EX in EC; pose proof (arrived_check j k J K) as V3; rewrite V3 in EC; injection EC as <-; reflexivity).
  assert (SGX : sigok (ro_k x) (ro_sig x) = true) by (rewrite EX; apply HS; assumption).
  rewrite CT, SGX in EO. cbn [andb] in EO. unfold handle in EH'. rewrite EO in EH'. cbn [bind] in EH'.
  destruct (add_point p (set_hold st None) x) as [st1| | |] eqn:E1; try discriminate. cbn [bind] in EH'. destruct (add_sig combine p st1 x) as [st2| | |] eqn:E2; try discriminate. cbn [bind] in EH'.
  pose proof (add_point_SRec p HP _ _ _ E1) as SR. cbn [set_hold s_SRec] in SR. destruct (add_point_rest _ _ _ E1) as (P1 & P2 & P3 & P4 & P5). cbn [set_hold s_hold s_comDone s_flgCom s_MVBASent s_busy] in P1, P2, P3, P4, P5.
  destruct (add_sig_rest _ _ _ (eq_trans P5 C3) E2) as (Q1 & Q2 & Q3 & Q4 & Q5).
  assert (FIN : s_hold st' = None /\ s_comDone st' = s_comDone st /\ s_flgCom st' = s_flgCom st /\ s_SRec st' = s_SRec st1 /\ flag st' = flag st /\ (s_MVBASent st' = false -> s_MVBASent st = false)).
  { assert (M : s_MVBASent st2 = false -> s_MVBASent st = false).
    { intros X. rewrite <- P4. unfold add_sig in E2. destruct (idx (s_SSig st1) (ro_k x)) as [old| | |]; try discriminate. cbn [bind] in E2. destruct (_ && _) in E2; injection E2 as <-; cbn [s_MVBASent] in X; [apply orb_false_iff in X; apply X|exact X]. }
    assert (FL : flag st2 = flag st) by (rewrite Q5; unfold flag; rewrite P4, P5; reflexivity).
    injection EH' as <-. destruct (s_MVBASent st2) eqn:MS.
    - cbn [s_hold s_comDone s_flgCom s_SRec s_MVBASent]. rewrite Q1, Q2, Q3, Q4. repeat (split; [assumption|]). split; [reflexivity|]. split; [|discriminate]. rewrite <- FL. unfold flag. cbn [s_MVBASent s_busy]. rewrite MS. reflexivity.
    - rewrite Q1, Q2, Q3, Q4. repeat (split; [assumption|]). split; [reflexivity|]. split; [exact FL|]. intros _. apply M. reflexivity. }
  destruct FIN as (F1 & F2 & F3 & F4 & F5 & F6). rewrite SR in F4. pose proof (proj1 (proj1 SI)) as LS. fold st in LS.
  exists (mkV st' (v_told v) (v_tok v) (v_free v) (v_wait v)).
  assert (EV : vstep v (VOther EvHandle) = Ret (Some (mkV st' (v_told v) (v_tok v) (v_free v) (v_wait v), None))).
  { apply (vstep_pstep v _ st' []); [reflexivity|]. cbn [ProacModel.pstep]. fold st. rewrite ED. reflexivity. }
  split; [exact EV|]. split.
  - constructor; cbn [v_st]; rewrite ?snoc_others, ?takes_snoc, ?sources_snoc, ?app_nil_r.
    + pose proof (vr_step _ _ _ _ _ _ T v log _ _ _ (g_run _ _ _ G) EV) as R. cbv iota in R. rewrite app_nil_r in R. exact R.
    + apply Forall_app. split; [exact (g_ok _ _ _ G)|]. constructor; [exact Logic.I|constructor].
    + exact (g_nd _ _ _ G).
    + exact (g_take _ _ _ G).
    + exact (g_ndt _ _ _ G).
    + rewrite F2, F3. exact (g_acc _ _ _ G).
    + exact (g_votes _ _ _ G).
    + intros MS j1 k1 J1 K1 X. right. rewrite F4, KX, SX.
      destruct (g_seen _ _ _ G (F6 MS) j1 k1 J1 K1 X) as [Y|Y].
      * fold st in Y. rewrite EH in Y. injection Y as Y. pose proof (f_equal ro_k Y) as Y1. pose proof (f_equal ro_sender Y) as Y2. rewrite EX in Y1, Y2. cbn [arrived ro_k ro_sender] in Y1, Y2. pose proof (HH j1 J1).
        assert (j1 = j) as -> by lia. subst k1. rewrite nth_set_nth_same by lia. rewrite map_app. apply in_or_app. right. left. reflexivity.
      * fold st in Y. destruct (Nat.eq_dec k k1) as [<-|NE]; [|rewrite nth_set_nth_other by exact NE; exact Y]. rewrite nth_set_nth_same by lia. rewrite map_app. apply in_or_app. left. exact Y.
    + rewrite F1. discriminate.
  - unfold pot. cbn [v_st v_told v_wait]. fold st. fold (flag st). fold (flag st'). rewrite F1, F5, EH. cbn [one]. lia.
Qed.

Lemma good_agreed T v log : good T v log -> s_busy (v_st v) = true -> exists v', vstep v (VOther EvMVBA) = Ret (Some (v', None)) /\
  good (T ++ [VOther EvMVBA]) v' log /\ (pot v' + 1 = pot v)%nat.
Proof.
  intros G B. destruct (good_inv T v log G) as (pevs & I & SI & CA & ER).
  assert (MS : s_MVBASent (v_st v) = true). { destruct (s_MVBASent (v_st v)) eqn:MS; [reflexivity|]. destruct (CA MS). congruence. }
  exists (mkV (do_mvba (v_st v)) (v_told v) (v_tok v) (v_free v) (v_wait v)).
  assert (EV : vstep v (VOther EvMVBA) = Ret (Some (mkV (do_mvba (v_st v)) (v_told v) (v_tok v) (v_free v) (v_wait v), None))) by reflexivity.
  split; [exact EV|]. split.
  - constructor; cbn [v_st do_mvba s_comDone s_flgCom s_MVBASent s_hold s_SRec]; rewrite ?snoc_others, ?takes_snoc, ?sources_snoc, ?app_nil_r.
    + pose proof (vr_step _ _ _ _ _ _ T v log _ _ _ (g_run _ _ _ G) EV) as R. cbv iota in R. rewrite app_nil_r in R. exact R.
    + apply Forall_app. split; [exact (g_ok _ _ _ G)|]. constructor; [exact Logic.I|constructor].
    + exact (g_nd _ _ _ G).
    + exact (g_take _ _ _ G).
    + exact (g_ndt _ _ _ G).
    + exact (g_acc _ _ _ G).
    + exact (g_votes _ _ _ G).
    + exact (g_seen _ _ _ G).
    + exact (g_hold _ _ _ G).
  - unfold pot. cbn [v_st v_told v_wait do_mvba s_hold s_MVBASent s_busy]. rewrite MS, B. cbn [bit]. lia.
Qed.

(** A vote on the message of an honest dealer whose commitments are accepted. *)
Lemma vote_ret T v log k : good T v log -> In k hon -> nth k (s_flgCom (v_st v)) false = true -> do_vote cd sign p (v_st v) (Z.of_nat (k - 1)) (smsg k) = Ret (votes k).
Proof.
  intros G K FK. pose proof (HH k K) as Hk. destruct (good_inv T v log G) as (pevs & I & _). destruct I as ((L1 & L2 & L3 & L4 & L5 & L6 & L7 & L8 & L9 & L10 & L11) & A & _).
  unfold do_vote. rewrite (index_k k K). change (((Z.of_nat (k - 1) + 1) mod 2 ^ 32)%Z) with (Xof (Z.of_nat (k - 1))). rewrite (Xof_k k K), (idx_nth []) by lia. cbn [bind].
  unfold smsg. rewrite (vote_honest cd s p W (QB k) _ _ (nth k (s_CQ (v_st v)) []) HC (HQ k)); [reflexivity|apply L10; lia|]. intros j Hj. apply (A k Hk FK j Hj).
Qed.

Lemma good_take T v log k : good T v log -> In k hon -> v_free v <> O -> ~ In (Z.of_nat (k - 1)) (map fst (takes T)) ->
  exists v' o, vstep v (VTake (Z.of_nat (k - 1)) (smsg k)) = Ret (Some (v', o)) /\
    good (T ++ [VTake (Z.of_nat (k - 1)) (smsg k)]) v' (log ++ match o with Some x => [x] | None => [] end) /\
    ((o = None /\ pot v' = (pot v + 1 + 2 * length hon)%nat) \/ (o = Some (taken k, votes k) /\ pot v' = pot v)) /\
    v_st v' = v_st v.
Proof.
  intros G K FR NI. pose proof (HH k K) as Hk. destruct (good_inv T v log G) as (pevs & I & _). destruct I as ((L1 & _) & _).
  destruct (v_free v) as [|n] eqn:EF; [congruence|]. clear FR.
  assert (GEN : forall v' o, vstep v (VTake (Z.of_nat (k - 1)) (smsg k)) = Ret (Some (v', o)) -> v_st v' = v_st v -> (o = None \/ o = Some (taken k, votes k)) ->
    good (T ++ [VTake (Z.of_nat (k - 1)) (smsg k)]) v' (log ++ match o with Some x => [x] | None => [] end)).
  { intros v' o EV ES OO. constructor; rewrite ?others_snoc, ?takes_snoc, ?app_nil_r, ?ES.
    + exact (vr_step _ _ _ _ _ _ T v log _ _ _ (g_run _ _ _ G) EV).
    + exact (g_ok _ _ _ G).
    + exact (g_nd _ _ _ G).
    + apply Forall_app. split; [exact (g_take _ _ _ G)|]. constructor; [|constructor]. exists k. auto.
    + rewrite map_app. cbn [map fst]. apply (Permutation_NoDup (Permutation_cons_append _ _)). constructor; [exact NI|exact (g_ndt _ _ _ G)].
    + exact (g_acc _ _ _ G).
    + apply Forall_app. split; [exact (g_votes _ _ _ G)|]. destruct OO as [-> | ->]; [constructor|]. constructor; [|constructor]. exists k. auto.
    + exact (g_seen _ _ _ G).
    + exact (g_hold _ _ _ G). }
  destruct (nth k (s_flgCom (v_st v)) false) eqn:FK.
  - assert (EV : vstep v (VTake (Z.of_nat (k - 1)) (smsg k)) = Ret (Some (mkV (v_st v) (v_told v) (v_tok v) n (v_wait v), Some (taken k, votes k)))).
    { cbn [ReshareModel.vstep]. rewrite EF, (index_k k K), (idx_nth false) by lia. rewrite FK. cbn [bind]. rewrite (vote_ret T v log k G K FK). reflexivity. }
    eexists. eexists. split; [exact EV|]. split; [apply (GEN _ _ EV); [reflexivity|right; reflexivity]|]. split; [right; split; reflexivity|reflexivity].
  - assert (EV : vstep v (VTake (Z.of_nat (k - 1)) (smsg k)) = Ret (Some (mkV (v_st v) (v_told v) (v_tok v) n (v_wait v ++ [taken k]), None))).
    { cbn [ReshareModel.vstep]. rewrite EF, (index_k k K), (idx_nth false) by lia. rewrite FK. reflexivity. }
    eexists. eexists. split; [exact EV|]. split; [apply (GEN _ _ EV); [reflexivity|left; reflexivity]|]. split; [|reflexivity]. left. split; [reflexivity|].
    unfold pot. cbn [v_st v_told v_wait]. rewrite app_length. cbn [length]. lia.
Qed.

Lemma falses_set j l : (j < length l)%nat -> nth j l false = false -> (falses (set_nth j true l) + 1 = falses l)%nat.
Proof.
  unfold falses. revert j. induction l as [|b l IH]; intros j Hj E; cbn [length] in Hj; [lia|]. destruct j as [|j]; cbn [set_nth nth filter] in *.
  - subst b. cbn [negb filter length]. lia.
  - specialize (IH j ltac:(lia) E). destruct b; cbn [negb filter length]; lia.
Qed.

Lemma good_tell T v log k v' o : good T v log -> vstep v (VTell k) = Ret (Some (v', o)) -> o = None /\ good (T ++ [VTell k]) v' log /\ (pot v' + 1 = pot v)%nat /\ v_st v' = v_st v.
Proof.
  intros G E. pose proof E as EV. apply vstep_tell in E. destruct E as (FK & L & F & -> & ->). split; [reflexivity|]. split; [|split; [|reflexivity]].
  - constructor; cbn [v_st]; rewrite ?others_snoc, ?takes_snoc, ?app_nil_r.
    + pose proof (vr_step _ _ _ _ _ _ T v log _ _ _ (g_run _ _ _ G) EV) as R. cbv iota in R. rewrite app_nil_r in R. exact R.
    + exact (g_ok _ _ _ G).
    + exact (g_nd _ _ _ G).
    + exact (g_take _ _ _ G).
    + exact (g_ndt _ _ _ G).
    + exact (g_acc _ _ _ G).
    + exact (g_votes _ _ _ G).
    + exact (g_seen _ _ _ G).
    + exact (g_hold _ _ _ G).
  - unfold pot. cbn [v_st v_told v_wait]. pose proof (falses_set k (v_told v) L F). lia.
Qed.

Lemma wait_taken T v log x : good T v log -> In x (v_wait v) -> exists k, In k hon /\ x = taken k.
Proof.
  intros G I. destruct (vruns_count cd sign sigok combine p st0 T v log (g_run _ _ _ G)) as (_ & PE & _). pose proof (g_take _ _ _ G) as A. rewrite Forall_forall in A. apply A.
  apply (Permutation_in _ (Permutation_sym PE)). apply in_or_app. left. exact I.
Qed.

Lemma good_wake T v log i v' o : good T v log -> vstep v (VWake i) = Ret (Some (v', o)) -> exists k, In k hon /\ o = Some (taken k, votes k) /\
  good (T ++ [VWake i]) v' (log ++ [(taken k, votes k)]) /\ (pot v' + 1 + 2 * length hon = pot v)%nat /\ v_st v' = v_st v.
Proof.
  intros G E. pose proof E as EV. apply vstep_wake in E. destruct E as (s1 & m & ms & NE & TK & EM & -> & ->).
  destruct (wait_taken T v log (s1, m) G (nth_error_In _ _ NE)) as (k & K & EX). injection EX as -> ->. exists k. split; [exact K|].
  pose proof (vruns_tinv cd sign sigok combine p st0 _ _ _ (g_run _ _ _ G)) as (_ & TI).
  rewrite (index_k k K) in TK. assert (FK : nth k (s_flgCom (v_st v)) false = true) by (apply TI, TI, TK). fold (smsg k) in *. rewrite (vote_ret T v log k G K FK) in EM. injection EM as <-.
  split; [reflexivity|]. split; [|split; [|reflexivity]].
  - constructor; cbn [v_st]; rewrite ?others_snoc, ?takes_snoc, ?app_nil_r.
    + exact (vr_step _ _ _ _ _ _ T v log _ _ _ (g_run _ _ _ G) EV).
    + exact (g_ok _ _ _ G).
    + exact (g_nd _ _ _ G).
    + exact (g_take _ _ _ G).
    + exact (g_ndt _ _ _ G).
    + exact (g_acc _ _ _ G).
    + apply Forall_app. split; [exact (g_votes _ _ _ G)|]. constructor; [|constructor]. exists k. auto.
    + exact (g_seen _ _ _ G).
    + exact (g_hold _ _ _ G).
  - unfold pot. cbn [v_st v_told v_wait]. pose proof (split_at _ _ _ NE) as SP. apply (f_equal (@length _)) in SP. rewrite app_length in SP. cbn [length] in SP. rewrite app_length, SP. lia.
Qed.

(** The local steps never fail. *)
Lemma tell_total v k : exists o, vstep v (VTell k) = Ret o.
Proof. cbn [ReshareModel.vstep]. destruct (_ && _); eexists; reflexivity. Qed.
Lemma wake_total T v log i : good T v log -> exists o, vstep v (VWake i) = Ret o.
Proof.
  intros G. cbn [ReshareModel.vstep]. destruct (nth_error (v_wait v) i) as [(s1, m)|] eqn:NE; [|eexists; reflexivity].
  destruct (wait_taken T v log (s1, m) G (nth_error_In _ _ NE)) as (k & K & EX). injection EX as -> ->. rewrite (index_k k K).
  destruct (nth k (v_tok v) false) eqn:TK; [|eexists; reflexivity].
  pose proof (vruns_tinv cd sign sigok combine p st0 _ _ _ (g_run _ _ _ G)) as (_ & TI). assert (FK : nth k (s_flgCom (v_st v)) false = true) by (apply TI, TI, TK).
  fold (smsg k). rewrite (vote_ret T v log k G K FK). eexists. reflexivity.
Qed.

(** A member that can do nothing more, has accepted all commitments, taken all Reshare messages and received
    everything, has started the agreement. *)
Lemma good_end_of K0 T v log : good T v log -> (2 * p_F p + 1 <= length hon)%nat -> s_hold (v_st v) = None -> incl K0 hon -> NoDup K0 -> (p_F p + 1 <= length K0)%nat ->
  (forall j k, In j hon -> In k K0 -> In (Z.of_nat (j - 1), Z.of_nat k) (sources (others T))) -> s_MVBASent (v_st v) = true.
Proof.
  intros G HL EH IK NK LK ALL. destruct (good_inv T v log G) as (pevs & I & SI & CA & ER). destruct (s_MVBASent (v_st v)) eqn:MS; [reflexivity|].
  destruct SI as (_ & S1 & S2 & S3 & S4 & S5 & _). rewrite <- MS. apply S5.
  assert (INC : incl K0 (map fst (s_MVBAIn (v_st v)))).
  { intros k K. apply S4, S2. rewrite S1. eapply Nat.le_trans; [exact HL|]. rewrite <- (map_length fst (nth k (s_SRec (v_st v)) [])), <- (map_length Z.of_nat hon).
    apply NoDup_incl_length; [apply nodup_map_in; [intros; lia|exact ND]|]. intros z Z. apply in_map_iff in Z. destruct Z as (j & <- & J).
    destruct (g_seen _ _ _ G MS j k J (IK k K) (ALL j k J K)) as [Y|Y]; [congruence|exact Y]. }
  apply (NoDup_incl_length NK) in INC. rewrite map_length in INC. lia.
Qed.

Lemma good_init : s_flgCom st0 = repeat false (p_N p + 1) -> s_comDone st0 = repeat false (p_N p + 1) -> s_hold st0 = None -> good [] (vote_init p st0) [].
Proof.
  intros A B C. constructor; cbn [vote_init v_st others takes flat_map sources map].
  - exact (vr_nil _ _ _ _ _ _).
  - exact (Forall_nil _).
  - exact (NoDup_nil _).
  - exact (Forall_nil _).
  - exact (NoDup_nil _).
  - intros k _ X. rewrite B, nth_repeat in X. discriminate.
  - exact (Forall_nil _).
  - intros _ j k _ _ X. destruct X.
  - rewrite C. discriminate.
Qed.
End Member.
