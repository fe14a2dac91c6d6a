(** C73: the goroutines of the voting stage and the channels by which the verifying goroutines start them. *)

Require Import ZArith List Bool Arith Lia Permutation.
From Verif Require Import Prime Fr GoBase Poly PolyModel PolyProofs Biv GroupModel KzgModel KzgProofs.
From Verif Require Import CodecModel CodecProofs PartyModel PartySpec VssModel VssProofs BivProofs.
From Verif Require Import ReduceModel ReduceProofs PropertiesVss PropertiesReduce.
From Verif Require Import ProacModel ProacProofs ProacRun ProacSig ProacRecover ProacDist ProacLinks.
From Verif Require Import PropertiesProac ReshareModel ReshareProofs.
Import ListNotations.
Local Open Scope F_scope.

(** Every run of the stage with its goroutines is a run of the machine of ProacModel.v: the same answers to the
    same messages in the same order, the same events otherwise, the same variables in the end. *)
Theorem c73_refines : forall cd sign sigok combine p st0 evs v log, vruns cd sign sigok combine p (vote_init p st0) evs v log ->
  exists pevs, prun_log cd sign sigok combine p st0 pevs (v_st v) log /\ prun cd sign sigok combine p st0 pevs = Ret (v_st v) /\
    filter (fun e => negb (is_reshare e)) pevs = others evs.
Proof.
  intros cd sign sigok combine p st0 evs v log R. destruct (vruns_refines cd sign sigok combine p st0 evs v log R) as (pevs & P & E).
  exists pevs. split; [exact P|]. split; [exact (prun_log_run cd sign sigok combine p st0 pevs (v_st v) log P)|exact E].
Qed.
Print Assumptions c73_refines.

Lemma env_filter cd p QB evs : env cd p QB (filter (fun e => negb (is_reshare e)) evs) -> env cd p QB evs.
Proof.
  assert (IN : forall e, is_reshare e = false -> In e evs -> In e (filter (fun e => negb (is_reshare e)) evs)).
  { intros e NR H. apply filter_In. rewrite NR. auto. }
  intros (C1 & C2 & C3 & C4). split; [|split; [|split]].
  - intros k data H. apply C1. apply IN; [reflexivity|exact H].
  - intros i m w C H. apply C2. apply IN; [reflexivity|exact H].
  - replace (sources evs) with (sources (filter (fun e => negb (is_reshare e)) evs)); [exact C3|]. clear. induction evs as [|e evs IH]; [reflexivity|].
    cbn [filter]. destruct e; cbn [is_reshare negb sources flat_map] in *; try exact IH; unfold sources in *; cbn [flat_map]; rewrite IH; reflexivity.
  - intros i m H. apply C4. apply IN; [reflexivity|exact H].
Qed.

(** If no two messages taken name the same sender, there is a goroutine for every further sender. *)
Theorem c73_free : forall cd sign sigok combine p st0 evs v log s m, vruns cd sign sigok combine p (vote_init p st0) evs v log ->
  NoDup (map fst (takes evs)) -> (forall x, In x (takes evs) -> (0 <= fst x < Z.of_nat (p_N p))%Z) ->
  (0 <= s < Z.of_nat (p_N p))%Z -> ~ In s (map fst (takes evs)) -> vstep cd sign sigok combine p v (VTake s m) <> Ret None.
Proof.
  intros cd sign sigok combine p st0 evs v log s m R ND B SB SN. destruct (vruns_count cd sign sigok combine p st0 evs v log R) as (C & _).
  assert (L : (length (s :: map fst (takes evs)) <= length (map Z.of_nat (seq 0 (p_N p))))%nat).
  { apply NoDup_incl_length; [constructor; assumption|]. assert (IN : forall z, (0 <= z < Z.of_nat (p_N p))%Z -> In z (map Z.of_nat (seq 0 (p_N p)))).
    { intros z Z. rewrite <- (Z2Nat.id z) by lia. apply in_map. apply in_seq. lia. }
    intros z [<-|Z]; [apply IN; exact SB|]. apply in_map_iff in Z. destruct Z as (x & <- & Z). apply IN, B, Z. }
  cbn [length] in L. rewrite !map_length, seq_length in L. cbn [vstep]. destruct (v_free v) as [|n]; [lia|].
  destruct (idx _ _) as [[]| | |]; cbn [bind]; try discriminate. destruct (do_vote _ _ _ _ _ _); discriminate.
Qed.
Print Assumptions c73_free.

(** Whatever the schedule: if the senders of the messages taken are distinct members, the commitments of an honest
    dealer are accepted and its message has been taken, then in a state in which no goroutine of the stage can go
    on the member has voted on it, and its N answers are valid for their receivers. *)
Theorem c73_heard : forall cd s p sign sigok combine QB B0 st0 evs v log k ms m, codec_ok cd -> party_wf s p -> (p_PID p < p_N p)%nat ->
  (Z.of_nat (p_N p) < 2 ^ 32)%Z -> (forall k, bdeg (p_F p) (2 * p_F p) (QB k)) -> bdeg (p_F p) (2 * p_F p) B0 ->
  proac_init p (map (fun j => secy B0 (of_nat j)) (seq 1 (2 * p_F p + 1))) = Ret st0 ->
  vruns cd sign sigok combine p (vote_init p st0) evs v log -> env cd p QB (others evs) ->
  NoDup (map fst (takes evs)) -> (forall x, In x (takes evs) -> (0 <= fst x < Z.of_nat (p_N p))%Z) ->
  (1 <= k <= p_N p)%nat -> nth k (s_flgCom (v_st v)) false = true ->
  ReshareSend cd (p_KZG p) (p_N p) (map (fun j => secy (QB k) (of_nat j)) (seq 1 (2 * p_F p + 1))) = Ret ms ->
  nth_error ms (p_PID p) = Some m -> In (Z.of_nat (k - 1), m) (takes evs) -> idle cd sign sigok combine p v ->
  exists votes, In (Z.of_nat (k - 1), m, votes) log /\ length votes = p_N p /\
    forall q r, party_wf s q -> p_N q = p_N p -> p_F q = p_F p -> (p_PID q < p_N q)%nat -> nth_error votes (p_PID q) = Some r ->
      sigok k (sign k) = true -> valid_recover cd q sigok QB k (Z.of_nat (p_PID p), r).
Proof.
  intros cd s p sign sigok combine QB B0 st0 evs v log k ms m HC W HP HN HQ HB E0 R HE ND B Hk FK ES EM IN ID.
  destruct (c73_refines cd sign sigok combine p st0 evs v log R) as (pevs & PL & PR & EF).
  assert (IX : index_of (Z.of_nat (k - 1)) = k) by (unfold index_of; rewrite Z.mod_small by lia; lia).
  assert (HE' : env cd p QB pevs) by (apply env_filter; rewrite EF; exact HE).
  destruct (env_inv cd s p QB W HQ sign sigok combine HP B0 st0 pevs (v_st v) HB E0 HE' PR) as (((L1 & _) & _) & _).
  destruct (heard cd sign sigok combine p st0 evs v log (Z.of_nat (k - 1)) m R L1 ND) as (votes & V); [|exact ID|exact IN|rewrite IX; exact FK|].
  { intros x X. specialize (B x X). lia. }
  exists votes. split; [exact V|].
  assert (G : exists pe1 st1, prun cd sign sigok combine p st0 pe1 = Ret st1 /\ env cd p QB pe1 /\
    pstep cd sign sigok combine p st1 (EvReshare (Z.of_nat (k - 1)) m) = Ret (st1, votes) /\ nth k (s_flgCom st1) false = true).
  { assert (TK : In (Z.of_nat (k - 1), m, votes) log -> forall evs1 v1 log1, vruns cd sign sigok combine p (vote_init p st0) evs1 v1 log1 -> log1 = log -> env cd p QB (others evs1) ->
      exists pe1 st1, prun cd sign sigok combine p st0 pe1 = Ret st1 /\ env cd p QB pe1 /\
        pstep cd sign sigok combine p st1 (EvReshare (Z.of_nat (k - 1)) m) = Ret (st1, votes) /\ nth k (s_flgCom st1) false = true); [|exact (TK V evs v log R eq_refl HE)].
    clear - W HP IX. intros V evs1 v1 log1 R1 EL HE1. rewrite <- EL in V. clear EL log.
    induction R1 as [|evs1 v1 log1 e v2 o R1 IH E]; [destruct V|].
    assert (HE2 : env cd p QB (others evs1)). { rewrite others_snoc in HE1. exact (env_app cd p QB _ _ HE1). }
    apply in_app_or in V. destruct V as [V|V]; [apply (IH V HE2)|].
    destruct (vruns_refines cd sign sigok combine p st0 evs1 v1 log1 R1) as (pe1 & P1 & F1).
    pose proof (prun_log_run cd sign sigok combine p st0 pe1 _ _ P1) as P1'. pose proof (vruns_tinv cd sign sigok combine p st0 _ _ _ R1) as (_ & T).
    assert (ENV : env cd p QB pe1) by (apply env_filter; rewrite F1; exact HE2).
    exists pe1, (v_st v1). split; [exact P1'|]. split; [exact ENV|]. destruct e as [j|s1 m1|i|e].
    - apply vstep_tell in E. destruct E as (_ & _ & _ & -> & _). destruct V.
    - apply vstep_take in E. destruct E as (n & _ & [(H & ms1 & EV & -> & _)|(_ & -> & _)]); [|destruct V]. destruct V as [V|[]]. injection V as -> -> ->.
      split; [|rewrite <- IX; exact H]. cbn [pstep]. rewrite (vote_reshare cd sign p _ _ _ H), EV. reflexivity.
    - apply vstep_wake in E. destruct E as (s1 & m1 & ms1 & _ & H & EV & -> & _). destruct V as [V|[]]. injection V as -> -> ->.
      apply (proj1 (T _)) in H. apply (proj2 (T _)) in H. split; [|rewrite <- IX; exact H]. cbn [pstep]. rewrite (vote_reshare cd sign p _ _ _ H), EV. reflexivity.
    - apply vstep_other in E. destruct E as (_ & -> & _). destruct V. }
  destruct G as (pe1 & st1 & P1 & HE1 & PS & FK1). pose proof W as (W1 & _).
  destruct (env_inv cd s p QB W HQ sign sigok combine HP B0 st0 pe1 st1 HB E0 HE1 P1) as ((LL & A & _) & _). destruct LL as (K1 & _ & _ & K4 & _ & _ & _ & _ & _ & K10 & _).
  assert (M : m = reshare_msg cd s p (QB k) (p_PID p + 1)).
  { pose proof (reshare_send_correct cd s (p_KZG p) (p_F p) (QB k) W1 (HQ k) (p_N p)) as RS. rewrite RS in ES. injection ES as <-.
    rewrite nth_error_map, (nth_error_nth' (seq 1 (p_N p)) O) in EM by (rewrite seq_length; exact HP). rewrite seq_nth in EM by exact HP. cbn [option_map] in EM. injection EM as <-.
    rewrite (Nat.add_comm 1). reflexivity. }
  cbn [pstep] in PS. rewrite vote_reshare in PS by (rewrite IX; exact FK1). unfold do_vote in PS.
  assert (EK : ((Z.of_nat (k - 1) + 1) mod 2 ^ 32)%Z = Z.of_nat k) by (rewrite Z.mod_small by lia; lia).
  rewrite EK, IX, (idx_nth []) in PS by lia. cbn [bind] in PS.
  rewrite M in PS. rewrite (vote_honest cd s p W (QB k) _ _ (nth k (s_CQ st1) []) HC (HQ k)) in PS; [|apply K10; lia|].
  2:{ intros j Hj. apply (A k Hk FK1 j Hj). }
  cbn [bind] in PS. injection PS as <-. rewrite map_length, seq_length. split; [reflexivity|].
  intros q r0 WQ NQ FQ PQ NE SG. rewrite nth_error_map, (nth_error_nth' (seq 1 (p_N p)) O) in NE by (rewrite seq_length; lia). rewrite seq_nth in NE by lia. cbn [option_map] in NE. injection NE as <-.
  assert (HQ' : forall k, bdeg (p_F q) (2 * p_F q) (QB k)) by (rewrite FQ; exact HQ).
  pose proof (honest_valid cd s q QB WQ HQ' sigok PQ k (p_PID p + 1) (sign k) HC ltac:(lia) ltac:(lia) SG) as HV. rewrite Nat.add_sub in HV.
  change (1 + p_PID q)%nat with (S (p_PID q)). rewrite <- (Nat.add_1_r (p_PID q)). exact HV.
Qed.
Print Assumptions c73_heard.

(** N messages in the name of a sender without accepted commitments use up all goroutines: nothing is taken after
    them, and there is at most one vote, on the flooded message. *)
Theorem c73_starved_refuted : forall cd sign sigok combine p Qs st0 s m, proac_init p Qs = Ret st0 -> (0 <= s < Z.of_nat (p_N p))%Z -> (Z.of_nat (p_N p) < 2 ^ 32)%Z ->
  exists v, vruns cd sign sigok combine p (vote_init p st0) (repeat (VTake s m) (p_N p)) v [] /\
    forall evs v' log, vruns cd sign sigok combine p v evs v' log -> (forall s' m', vstep cd sign sigok combine p v' (VTake s' m') = Ret None) /\
      (forall x, In x log -> fst x = (s, m)) /\ (length log <= 1)%nat.
Proof.
  intros cd sign sigok combine p Qs st0 s m E0 SB HN. unfold vote_init.
  assert (IX : (index_of s < p_N p + 1)%nat) by (unfold index_of; rewrite Z.mod_small by lia; lia).
  eexists. split.
  { apply takes_repeat; [|lia]. unfold proac_init in E0. apply bind_ret in E0. destruct E0 as (cs & _ & E). apply bind_ret in E. destruct E as (row & _ & E).
    apply bind_ret in E. destruct E as (CQ & _ & E). apply bind_ret in E. destruct E as (Q & EQ & E). injection E as <-. cbn [s_flgCom]. apply nth_error_repeat. exact IX. }
  intros evs v' log R. apply (starved cd sign sigok combine p _ s m) in R; cbn [v_told v_tok v_free v_wait]; rewrite ?repeat_length, ?nth_repeat; try reflexivity; try exact IX; try lia.
  - destruct R as (F0 & R2 & R3). split; [|split; [exact R2|exact R3]]. intros s' m'. cbn [vstep]. rewrite F0. reflexivity.
  - intros x X. cbn [app] in X. apply repeat_spec in X. exact X.
Qed.
Print Assumptions c73_starved_refuted.

(** One forged message in the name of an honest dealer, taken before the commitments of the dealer are accepted:
    the only value in startVote goes to the goroutine with the forged message, the check fails, and the dealer's
    own message, taken before the acceptance as well, is never voted on, whatever happens afterwards (unless it is
    delivered again). *)
Theorem c73_suppressed_refuted : forall cd s p sign sigok combine QB k, codec_ok cd -> party_wf s p -> (p_PID p < p_N p)%nat ->
  (Z.of_nat (p_N p) < 2 ^ 32)%Z -> bdeg (p_F p) (2 * p_F p) QB -> beval QB 0 0 = 0 -> (1 <= k <= p_N p)%nat ->
  exists st0 data ms m forged v,
    proac_init p (map (fun j => secy QB (of_nat j)) (seq 1 (2 * p_F p + 1))) = Ret st0 /\
    CommitSend cd (p_KZG p) (map (fun j => secy QB (of_nat j)) (seq 1 (2 * p_F p + 1))) = Ret data /\
    ReshareSend cd (p_KZG p) (p_N p) (map (fun j => secy QB (of_nat j)) (seq 1 (2 * p_F p + 1))) = Ret ms /\
    nth_error ms (p_PID p) = Some m /\
    vruns cd sign sigok combine p (vote_init p st0)
      [VTake (Z.of_nat (k - 1)) forged; VTake (Z.of_nat (k - 1)) m; VOther (EvCommit k data); VTell k; VWake 0] v [(Z.of_nat (k - 1), forged, [])] /\
    nth k (s_flgCom (v_st v)) false = true /\
    forall evs v' log, vruns cd sign sigok combine p v evs v' log -> ~ In (Z.of_nat (k - 1), m) (takes evs) -> forall votes, ~ In (Z.of_nat (k - 1), m, votes) log.
Proof.
  intros cd s p sign sigok combine QB k HC W HP HN HB H0 Hk. pose proof W as (W1 & _ & W3 & W4 & W5 & _).
  destruct (init_inv s p (fun _ => QB) W HP QB HB) as (st0 & E0 & I0 & J1 & _ & _ & _ & _ & _ & _ & _ & J9 & _).
  destruct I0 as (L & _). destruct L as (L1 & L2 & L3 & L4 & _ & _ & _ & _ & _ & L10 & _).
  destruct (verify_honest cd s p W QB (nth k (s_CQ st0) []) HC HB H0 (L10 k ltac:(lia))) as (row' & EV & LR' & HR).
  set (fv := fun j => beval QB (me p) (of_nat j) + 1).
  set (fw := fun j => mkG1 (peval (wrow s QB (me p)) (of_nat j))).
  set (forged := mkRS (map (fun j => FrTo32 (fv j)) (seq 1 (2 * p_F p + 1))) (map (fun j => ToCompressedG1 cd (fw j)) (seq 1 (2 * p_F p + 1)))).
  assert (IX : index_of (Z.of_nat (k - 1)) = k) by (unfold index_of; rewrite Z.mod_small by lia; lia).
  assert (FV : forall ix sig, Vote cd p row' ix sig forged = Ret None).
  { intros ix sig. destruct (c25_last_point cd s p row' ix sig forged fv fw W LR') as (o & EO & HO).
    { intros j Hj. exists (FrTo32 (fv j)), (ToCompressedG1 cd (fw j)). cbn [forged rs_Qk rs_WQk].
      rewrite (nth_error_map_seq (fun j => FrTo32 (fv j))), (nth_error_map_seq (fun j => ToCompressedG1 cd (fw j))) by lia.
      split; [reflexivity|]. split; [reflexivity|]. rewrite to32_FrTo32. unfold FrFrom32_into. rewrite FrFrom32_FrTo32. split; [reflexivity|apply HC]. }
    destruct o as [votes|]; [|exact EO]. exfalso. assert (NV : Some votes <> None) by discriminate. apply HO in NV.
    rewrite (check_correct s (p_F p + 1) (p_KZG p) W1) in NV by lia. destruct (feqb _ _) eqn:EB; [|discriminate]. clear NV. apply feqb_eq in EB. rename EB into NV. rewrite HR in NV by lia. cbn [dlog1 fw] in NV.
    rewrite <- (opening s QB (p_F p) (2 * p_F p) (me p) (of_nat (2 * p_F p + 1)) HB) in NV. unfold fv in NV.
    apply f1_neq_0. set (a := peval (secx QB s) _) in NV. set (b := beval QB _ _) in NV. transitivity ((a - b) - (a - (b + 1))); [ring|]. rewrite NV. ring. }
  set (st1 := mkPst (set_nth k true (s_flgCom st0)) (set_nth k true (s_comDone st0)) (s_flgRec st0) (set_nth k row' (s_CQ st0)) (s_Q st0) (s_SRec st0) (s_SSig st0)
    (s_Comb st0) (s_stopped st0) (s_MVBAIn st0) (s_MVBASent st0) (s_busy st0) (s_hold st0)).
  set (data := map (fun j => pcm_of cd (pc_of s QB j)) (seq 1 (2 * p_F p + 1))) in *. set (m := reshare_msg cd s p QB (p_PID p + 1)).
  set (no := repeat false (p_N p + 1)). set (d := Z.of_nat (k - 1)).
  assert (NO : length no = (p_N p + 1)%nat) by apply repeat_length.
  assert (NK : forall b, (k < p_N p + 1)%nat -> nth k no b = false) by (intros b Hb; unfold no; apply nth_repeat_in; exact Hb).
  assert (FL : idx (s_flgCom st0) k = Ret false) by (rewrite J1, (idx_nth false) by (rewrite repeat_length; lia); rewrite nth_repeat; reflexivity).
  exists st0, data. eexists. exists m, forged, (mkV st1 (set_nth k true no) (set_nth k false (set_nth k true no)) (p_N p - 2) [(d, m)]).
  split; [exact E0|]. split; [apply (commit_send_correct cd s (p_KZG p) (p_F p) QB W1 HB)|]. split; [apply (reshare_send_correct cd s (p_KZG p) (p_F p) QB W1 HB)|].
  split.
  { rewrite nth_error_map, (nth_error_nth' (seq 1 (p_N p)) O) by (rewrite seq_length; exact HP). rewrite seq_nth by exact HP. cbn [option_map]. rewrite (Nat.add_comm 1). reflexivity. }
  split.
  - set (v1 := mkV st0 no no (p_N p - 1) [(d, forged)]). set (v2 := mkV st0 no no (p_N p - 2) [(d, forged); (d, m)]).
    set (v3 := mkV st1 no no (p_N p - 2) [(d, forged); (d, m)]). set (v4 := mkV st1 (set_nth k true no) (set_nth k true no) (p_N p - 2) [(d, forged); (d, m)]).
    assert (S1 : vstep cd sign sigok combine p (vote_init p st0) (VTake d forged) = Ret (Some (v1, None))).
    { cbn [vstep vote_init v_free v_st v_told v_tok v_wait]. destruct (p_N p) as [|n] eqn:EN; [lia|]. unfold d. rewrite IX, FL. cbn [bind app]. unfold v1, no. rewrite ?EN. replace (S n - 1)%nat with n by lia. reflexivity. }
    assert (S2 : vstep cd sign sigok combine p v1 (VTake d m) = Ret (Some (v2, None))).
    { unfold v1, v2. cbn [vstep v_free v_st v_told v_tok v_wait]. replace (p_N p - 1)%nat with (S (p_N p - 2)) by lia. unfold d. rewrite IX, FL. reflexivity. }
    assert (S3 : vstep cd sign sigok combine p v2 (VOther (EvCommit k data)) = Ret (Some (v3, None))).
    { unfold v2, v3. cbn [vstep v_free v_st v_told v_tok v_wait pstep]. unfold do_commit.
      assert (G : (negb ((1 <=? k) && (k <=? p_N p))%nat || nth k (s_comDone st0) true)%bool = false).
      { rewrite J9, nth_repeat_in by lia. destruct (Nat.leb_spec 1 k), (Nat.leb_spec k (p_N p)); try lia; reflexivity. }
      rewrite G, (idx_nth []) by lia. cbn [bind]. rewrite EV. cbn [bind]. unfold upd. destruct (Nat.ltb_spec k (length (s_CQ st0))); [|lia]. reflexivity. }
    assert (S4 : vstep cd sign sigok combine p v3 (VTell k) = Ret (Some (v4, None))).
    { unfold v3, v4. cbn [vstep v_free v_st v_told v_tok v_wait st1 s_flgCom]. rewrite nth_set_nth_same by lia. rewrite NK by lia. reflexivity. }
    assert (S5 : vstep cd sign sigok combine p v4 (VWake 0) = Ret (Some (mkV st1 (set_nth k true no) (set_nth k false (set_nth k true no)) (p_N p - 2) [(d, m)], Some (d, forged, [])))).
    { unfold v4. cbn [vstep v_free v_st v_told v_tok v_wait nth_error]. unfold do_vote. unfold d at 1 2 3 4 5. rewrite IX, nth_set_nth_same by lia.
      cbn [st1 s_CQ]. rewrite (idx_nth []) by (rewrite length_set_nth; lia). rewrite nth_set_nth_same by lia. cbn [bind]. rewrite FV. cbn [bind]. unfold d. rewrite ?IX. reflexivity. }
    exact (vr_step _ _ _ _ _ _ [VTake d forged; VTake d m; VOther (EvCommit k data); VTell k] v4 [] (VWake 0) _ _
      (vr_step _ _ _ _ _ _ [VTake d forged; VTake d m; VOther (EvCommit k data)] v3 [] (VTell k) v4 None
        (vr_step _ _ _ _ _ _ [VTake d forged; VTake d m] v2 [] (VOther (EvCommit k data)) v3 None
          (vr_step _ _ _ _ _ _ [VTake d forged] v1 [] (VTake d m) v2 None
            (vr_step _ _ _ _ _ _ [] _ [] (VTake d forged) v1 None (vr_nil _ _ _ _ _ _) S1) S2) S3) S4) S5).
  - split; [cbn [v_st st1 s_flgCom]; apply nth_set_nth_same; lia|]. intros evs v' log R NI votes V. apply NI.
    apply (lost_wait cd sign sigok combine p _ evs v' log k R) in V; [exact V| | |exact IX]; cbn [v_told v_tok].
    + apply nth_set_nth_same. lia.
    + apply nth_set_nth_same. rewrite length_set_nth. lia.
Qed.
Print Assumptions c73_suppressed_refuted.

(** The hypotheses of c73_heard are met: a message that is taken before the commitments are accepted waits, is
    voted on after them, and the stage comes to rest. *)
Lemma waits_and_votes : forall cd s p sign sigok combine QB k, codec_ok cd -> party_wf s p -> (p_PID p < p_N p)%nat ->
  (Z.of_nat (p_N p) < 2 ^ 32)%Z -> bdeg (p_F p) (2 * p_F p) QB -> beval QB 0 0 = 0 -> (1 <= k <= p_N p)%nat ->
  exists st0 data ms m v votes,
    proac_init p (map (fun j => secy QB (of_nat j)) (seq 1 (2 * p_F p + 1))) = Ret st0 /\
    CommitSend cd (p_KZG p) (map (fun j => secy QB (of_nat j)) (seq 1 (2 * p_F p + 1))) = Ret data /\
    ReshareSend cd (p_KZG p) (p_N p) (map (fun j => secy QB (of_nat j)) (seq 1 (2 * p_F p + 1))) = Ret ms /\
    nth_error ms (p_PID p) = Some m /\
    vruns cd sign sigok combine p (vote_init p st0) [VTake (Z.of_nat (k - 1)) m; VOther (EvCommit k data); VTell k; VWake 0] v [(Z.of_nat (k - 1), m, votes)] /\
    env cd p (fun _ => QB) [EvCommit k data] /\
    nth k (s_flgCom (v_st v)) false = true /\ idle cd sign sigok combine p v /\ length votes = p_N p.
Proof.
  intros cd s p sign sigok combine QB k HC W HP HN HB H0 Hk. pose proof W as (W1 & _ & W3 & W4 & W5 & _).
  destruct (init_inv s p (fun _ => QB) W HP QB HB) as (st0 & E0 & I0 & J1 & _ & _ & _ & _ & _ & _ & _ & J9 & _).
  destruct I0 as (L & _). destruct L as (L1 & L2 & L3 & L4 & _ & _ & _ & _ & _ & L10 & _).
  destruct (verify_honest cd s p W QB (nth k (s_CQ st0) []) HC HB H0 (L10 k ltac:(lia))) as (row' & EV & LR' & HR).
  assert (IX : index_of (Z.of_nat (k - 1)) = k) by (unfold index_of; rewrite Z.mod_small by lia; lia).
  set (st1 := mkPst (set_nth k true (s_flgCom st0)) (set_nth k true (s_comDone st0)) (s_flgRec st0) (set_nth k row' (s_CQ st0)) (s_Q st0) (s_SRec st0) (s_SSig st0)
    (s_Comb st0) (s_stopped st0) (s_MVBAIn st0) (s_MVBASent st0) (s_busy st0) (s_hold st0)).
  pose proof (honest_env cd s p (fun _ => QB) W (fun _ => HB) HP HC HN (fun _ => []) [k] [] (NoDup_nil _) ltac:(intros ? ? [])) as HENV. cbn [map app deliver] in HENV. unfold commit_data in HENV.
  set (data := map (fun j => pcm_of cd (pc_of s QB j)) (seq 1 (2 * p_F p + 1))) in *. set (m := reshare_msg cd s p QB (p_PID p + 1)).
  set (no := repeat false (p_N p + 1)). set (d := Z.of_nat (k - 1)).
  assert (NO : length no = (p_N p + 1)%nat) by apply repeat_length.
  assert (NK : forall b, (k < p_N p + 1)%nat -> nth k no b = false) by (intros b Hb; unfold no; apply nth_repeat_in; exact Hb).
  assert (FL : idx (s_flgCom st0) k = Ret false) by (rewrite J1, (idx_nth false) by (rewrite repeat_length; lia); rewrite nth_repeat; reflexivity).
  set (votes := map (recover_msg cd s QB ((d + 1) mod 2 ^ 32) (sign k) (p_PID p + 1)) (seq 1 (p_N p))).
  exists st0, data. eexists. exists m, (mkV st1 (set_nth k true no) (set_nth k false (set_nth k true no)) (p_N p - 1) []), votes.
  split; [exact E0|]. split; [apply (commit_send_correct cd s (p_KZG p) (p_F p) QB W1 HB)|]. split; [apply (reshare_send_correct cd s (p_KZG p) (p_F p) QB W1 HB)|].
  split.
  { rewrite nth_error_map, (nth_error_nth' (seq 1 (p_N p)) O) by (rewrite seq_length; exact HP). rewrite seq_nth by exact HP. cbn [option_map]. rewrite (Nat.add_comm 1). reflexivity. }
  split.
  - set (v2 := mkV st0 no no (p_N p - 1) [(d, m)]). set (v3 := mkV st1 no no (p_N p - 1) [(d, m)]). set (v4 := mkV st1 (set_nth k true no) (set_nth k true no) (p_N p - 1) [(d, m)]).
    assert (S1 : vstep cd sign sigok combine p (vote_init p st0) (VTake d m) = Ret (Some (v2, None))).
    { cbn [vstep vote_init v_free v_st v_told v_tok v_wait]. destruct (p_N p) as [|n] eqn:EN; [lia|]. unfold d. rewrite IX, FL. cbn [bind app]. unfold v2, no. rewrite ?EN. replace (S n - 1)%nat with n by lia. reflexivity. }
    assert (S3 : vstep cd sign sigok combine p v2 (VOther (EvCommit k data)) = Ret (Some (v3, None))).
    { unfold v2, v3. cbn [vstep v_free v_st v_told v_tok v_wait pstep]. unfold do_commit.
      assert (G : (negb ((1 <=? k) && (k <=? p_N p))%nat || nth k (s_comDone st0) true)%bool = false).
      { rewrite J9, nth_repeat_in by lia. destruct (Nat.leb_spec 1 k), (Nat.leb_spec k (p_N p)); try lia; reflexivity. }
      rewrite G, (idx_nth []) by lia. cbn [bind]. rewrite EV. cbn [bind]. unfold upd. destruct (Nat.ltb_spec k (length (s_CQ st0))); [|lia]. reflexivity. }
    assert (S4 : vstep cd sign sigok combine p v3 (VTell k) = Ret (Some (v4, None))).
    { unfold v3, v4. cbn [vstep v_free v_st v_told v_tok v_wait st1 s_flgCom]. rewrite nth_set_nth_same by lia. rewrite NK by lia. reflexivity. }
    assert (S5 : vstep cd sign sigok combine p v4 (VWake 0) = Ret (Some (mkV st1 (set_nth k true no) (set_nth k false (set_nth k true no)) (p_N p - 1) [], Some (d, m, votes)))).
    { unfold v4. cbn [vstep v_free v_st v_told v_tok v_wait nth_error]. unfold do_vote. replace (index_of d) with k by (symmetry; exact IX). rewrite nth_set_nth_same by lia.
      cbn [st1 s_CQ]. rewrite (idx_nth []) by (rewrite length_set_nth; lia). rewrite nth_set_nth_same by lia. unfold votes. generalize ((d + 1) mod 2 ^ 32)%Z. intros ix. cbn [bind].
      unfold m. rewrite (vote_honest cd s p W QB ix (sign k) row' HC HB LR' HR). reflexivity. }
    exact (vr_step _ _ _ _ _ _ [VTake d m; VOther (EvCommit k data); VTell k] v4 [] (VWake 0) _ _
      (vr_step _ _ _ _ _ _ [VTake d m; VOther (EvCommit k data)] v3 [] (VTell k) v4 None
        (vr_step _ _ _ _ _ _ [VTake d m] v2 [] (VOther (EvCommit k data)) v3 None
            (vr_step _ _ _ _ _ _ [] _ [] (VTake d m) v2 None (vr_nil _ _ _ _ _ _) S1) S3) S4) S5).
  - split; [exact HENV|]. split; [cbn [v_st st1 s_flgCom]; apply nth_set_nth_same; lia|]. split; [|unfold votes; rewrite map_length, seq_length; reflexivity]. split.
    + intros j. cbn [vstep v_st v_told st1 s_flgCom]. rewrite !nth_set_nth, L1, NO, J1, nth_repeat. destruct (Nat.eqb_spec k j) as [<-|NE]; cbn [andb]; [|reflexivity].
      destruct (Nat.ltb_spec k (p_N p + 1)); [|lia]. reflexivity.
    + intros [|i]; reflexivity.
Qed.

Example c73_ex : exists p st0 data ms m v votes, NewHonestParty 4 1 2 = Ret p /\
  ReshareSend demo_codec (p_KZG p) 4 (map (fun j => secy [[0; 0]; [0; 1]; [0; 0]] (of_nat j)) (seq 1 3)) = Ret ms /\ nth_error ms 2 = Some m /\
  vruns demo_codec (fun _ => [7%Z]) (fun _ _ => true) (fun _ _ => []) p (vote_init p st0) [VTake 3 m; VOther (EvCommit 4 data); VTell 4; VWake 0] v [(3%Z, m, votes)] /\
  env demo_codec p (fun _ => [[0; 0]; [0; 1]; [0; 0]]) [EvCommit 4 data] /\ nth 4 (s_flgCom (v_st v)) false = true /\
  idle demo_codec (fun _ => [7%Z]) (fun _ _ => true) (fun _ _ => []) p v /\ length votes = 4%nat.
Proof.
  destruct (new_party 4 1 2) as (p & EP & WP & PN & PF & PI); try lia; [rewrite r_eq; lia|].
  destruct (waits_and_votes demo_codec party_secret p (fun _ => [7%Z]) (fun _ _ => true) (fun _ _ => []) [[0; 0]; [0; 1]; [0; 0]] 4 demo_codec_ok WP)
    as (st0 & data & ms & m & v & votes & _ & _ & A3 & A4 & A5 & A6 & A7 & A8 & A9).
  - lia.
  - rewrite PN. reflexivity.
  - rewrite PF. split; [reflexivity|repeat constructor].
  - unfold beval. cbn [secy map peval]. ring.
  - lia.
  - rewrite PN, PF in A3. rewrite PI in A4. rewrite PN in A9. exists p, st0, data, ms, m, v, votes. repeat (split; [assumption|]). exact A9.
Qed.

Example c73_suppressed_ex : exists p st0 data m forged v, NewHonestParty 4 1 2 = Ret p /\
  vruns demo_codec (fun _ => [7%Z]) (fun _ _ => true) (fun _ _ => []) p (vote_init p st0)
    [VTake 3 forged; VTake 3 m; VOther (EvCommit 4 data); VTell 4; VWake 0] v [(3%Z, forged, [])] /\
  forall evs v' log, vruns demo_codec (fun _ => [7%Z]) (fun _ _ => true) (fun _ _ => []) p v evs v' log ->
    ~ In (3%Z, m) (takes evs) -> forall votes, ~ In (3%Z, m, votes) log.
Proof.
  destruct (new_party 4 1 2) as (p & EP & WP & PN & PF & PI); try lia; [rewrite r_eq; lia|].
  destruct (c73_suppressed_refuted demo_codec party_secret p (fun _ => [7%Z]) (fun _ _ => true) (fun _ _ => []) [[0; 0]; [0; 1]; [0; 0]] 4 demo_codec_ok WP)
    as (st0 & data & ms & m & forged & v & _ & _ & _ & _ & A5 & _ & A7).
  - lia.
  - rewrite PN. reflexivity.
  - rewrite PF. split; [reflexivity|repeat constructor].
  - unfold beval. cbn [secy map peval]. ring.
  - lia.
  - exists p, st0, data, m, forged, v. split; [assumption|]. split; [exact A5|exact A7].
Qed.
