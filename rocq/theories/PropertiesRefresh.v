(** Headline theorems: refreshing of the shares (C23), input of the agreement (C54), blocking of the
    recovery (C52), end of the handoff (C48). *)

Require Import ZArith List Lia Bool Arith Permutation.
From Verif Require Import Prime Fr Bytes CodecModel CodecProofs GoBase Poly Biv BivProofs PolyModel PolyProofs
  GroupModel KzgModel KzgProofs PartyModel PartySpec VssModel VssProofs VssProofs2 ReduceModel ReduceProofs
  PropertiesVss PropertiesReduce ProacModel ProacProofs ProacRun ProacSig ProacRecover ProacDist ProacLinks
  PropertiesProac.
Import ListNotations.
Local Open Scope F_scope.

(** ** C23 Refreshing *)

(** Sum of the refreshing polynomials of the dealers in J. *)
Definition total (QB : nat -> list (list Fr)) (J : list Z) (x y : Fr) : Fr :=
  fsum (map (fun j => beval (QB (Z.to_nat j)) x y) J).

Lemma beval_bsum F QB J x y : beval (bsum F QB (nats J)) x y = total QB J x y.
Proof.
  induction J as [|j J IH] using rev_ind; [apply beval_bzero|].
  unfold nats in *. rewrite map_app. cbn [map]. rewrite bsum_snoc, beval_badd, IH. unfold total.
  rewrite map_app, fsum_app. cbn [map fsum]. ring.
Qed.

(** With any randomness, the polynomials an honest dealer makes are the sections of one polynomial in two
    variables, of degrees F and 2F, whose value at (0, 0) is zero. *)
Theorem c23_zero : forall F rF rQ, (1 <= F)%nat -> (Z.of_nat (2 * F + 2) <= r)%Z ->
  length rF = (2 * F + 1)%nat -> length rQ = (2 * F + 1)%nat -> Forall (fun q => length q = (F + 1)%nat) rQ ->
  exists QB, bdeg F (2 * F) QB /\ beval QB 0 0 = 0 /\
    proac_Q F rF rQ = map (fun j => secy QB (of_nat j)) (seq 1 (2 * F + 1)).
Proof. exact proac_biv. Qed.
Print Assumptions c23_zero.

(** For every agreed set J there is one polynomial B' with the same degrees and the same secret on which the
    refreshed shares of all members lie that have recovered the polynomials of the dealers in J; the sums
    of the commitments turn the commitments to B into those to B'. *)
Theorem c23_refresh : forall N F B QB J, bdeg F (2 * F) B -> (forall k, bdeg F (2 * F) (QB k)) ->
  (forall j, In j J -> beval (QB (Z.to_nat j)) 0 0 = 0) ->
  exists B', bdeg F (2 * F) B' /\ beval B' 0 0 = beval B 0 0 /\
    (forall x y, beval B' x y = beval B x y + total QB J x y) /\
    forall cd s p sign sigok combine evs st, party_wf s p -> p_N p = N -> p_F p = F -> (p_PID p < N)%nat ->
      p_reducedShare p = secy B (me p) -> env cd p QB evs -> run_of cd p sign sigok combine evs st ->
      (forall j, In j J -> (1 <= j <= Z.of_nat N)%Z /\ nth (Z.to_nat j) (s_flgRec st) false = true) ->
      exists CQsum, Refresh p st J = Ret (Some (secy B' (me p), CQsum)) /\
        length CQsum = (N + 1)%nat /\
        forall j C, (1 <= j <= N)%nat -> CommitToPoly (p_KZG p) (secy B (of_nat j)) = Ret C ->
          CommitToPoly (p_KZG p) (secy B' (of_nat j)) = Ret (AddG1 C (nth j CQsum ZeroG1)).
Proof.
  intros N F B QB J HB HQ HZ. exists (badd B (bsum F QB (nats J))).
  assert (HS : bdeg F (2 * F) (bsum F QB (nats J))) by (apply bsum_deg; intros; apply HQ).
  split; [apply bdeg_badd; assumption|]. split.
  { rewrite beval_badd, bsum_secret; [ring|]. intros j Hj. apply in_map_iff in Hj. destruct Hj as (z & <- & Hz).
    apply HZ. exact Hz. }
  split; [intros x y; rewrite beval_badd, beval_bsum; reflexivity|].
  intros cd s p sign sigok combine evs st W EN EF HP ER HE HR HJ. subst N F.
  destruct (run_inv cd s p sign sigok combine QB evs st W HP HQ HE HR) as (I & _).
  destruct (refresh_correct s p QB (fun k _ => HQ k) evs st J B I HB ER HJ) as (CQsum & E & L & V).
  exists CQsum. split; [exact E|]. split; [exact L|]. intros j C Hj EC. pose proof W as (W1 & _).
  rewrite (commit_section s (p_F p + 1) _ (p_F p) (2 * p_F p)) in EC; auto; [|lia].
  rewrite (commit_section s (p_F p + 1) _ (p_F p) (2 * p_F p)); auto; [|apply bdeg_badd; assumption|lia].
  apply (f_equal (fun x => match x with Ret a => a | _ => ZeroG1 end)) in EC. subst C. rewrite V by exact Hj.
  unfold AddG1. cbn [dlog1]. rewrite secx_badd. reflexivity.
Qed.
Print Assumptions c23_refresh.

(** An agreed dealer whose commitments were accepted, but whose polynomial has not been recovered when
    the agreement ends, is taken into the sum with the zero polynomial.  For every committee
    size: member 1 accepts the commitments of the dealers 2..F+3, gets 2F+1 votes for each of the
    dealers 2..F+2 (which starts the agreement), and the agreed set is 2..F+1 with F+3.  All
    messages are honest.  The member's new share is not on the refreshed polynomial. *)
Theorem c23_unrecovered_refuted : forall cd s p sign sigok combine QB B sg, codec_ok cd -> party_wf s p ->
  p_PID p = 0%nat -> (Z.of_nat (p_N p) < 2 ^ 32)%Z ->
  (forall k, bdeg (p_F p) (2 * p_F p) (QB k) /\ beval (QB k) 0 0 = 0) ->
  bdeg (p_F p) (2 * p_F p) B -> p_reducedShare p = secy B (me p) ->
  (forall k, sigok k (sg k) = true) ->
  (exists x, beval (QB (p_F p + 3)%nat) x (me p) <> 0) ->
  let J := map Z.of_nat (seq 2 (p_F p) ++ [p_F p + 3])%nat in
  exists evs st share CQsum, env cd p QB evs /\ run_of cd p sign sigok combine evs st /\
    s_MVBASent st = true /\ (forall j, In j J -> nth (Z.to_nat j) (s_flgCom st) false = true) /\
    Refresh p st J = Ret (Some (share, CQsum)) /\
    forall B', (forall x y, beval B' x y = beval B x y + total QB J x y) -> share <> secy B' (me p).
Proof.
  intros cd s p sign sigok combine QB B sg HC W PI HN HQ0 HB ER SG (x0 & NZ) J.
  assert (HQ : forall k, bdeg (p_F p) (2 * p_F p) (QB k)) by (intros; apply HQ0).
  pose proof W as (W1 & _ & W3 & W4 & W5 & _). assert (HP : (p_PID p < p_N p)%nat) by lia.
  set (F := p_F p) in *.
  destruct (init_inv s p QB W HP (QB (p_PID p + 1)%nat) (HQ _))
    as (st0 & E0 & I0 & J1 & J2 & J3 & J4 & J5 & J6 & J7 & J8 & J9 & _).
  destruct (commit_run cd s p QB W HQ sign sigok combine HP HC (seq 2 (F + 2)) [] st0 I0) as (st1 & E1 & I1 & SR & F1 & _).
  { intros j Hj. apply in_seq in Hj. split; [fold F in W4; lia|]. split; [apply HQ0|]. rewrite J9. apply nth_repeat_len. reflexivity. }
  { apply seq_NoDup. }
  destruct SR as (R1 & R2 & R3 & R4 & R5 & R6).
  set (coms := map (fun k => EvCommit k (commit_data cd s p QB k)) (seq 2 (F + 2))) in *. cbn [app] in I1.
  set (vote := honest_vote cd s p QB sg).
  set (ms := map vote (list_prod (seq 2 (F + 1)) (seq 1 (2 * F + 1)))).
  assert (HMS : forall i m, In (i, m) ms -> exists k l, (2 <= k <= F + 2)%nat /\ (1 <= l <= 2 * F + 1)%nat /\
    i = Z.of_nat (l - 1) /\ m = recover_msg cd s (QB k) (Z.of_nat k) (sg k) l (p_PID p + 1)).
  { intros i m Hin. apply in_map_iff in Hin. destruct Hin as ((k, l) & E & Hin). apply in_prod_iff in Hin.
    rewrite !in_seq in Hin. exists k, l. split; [lia|]. split; [lia|].
    apply (f_equal fst) in E as EA. apply (f_equal snd) in E as EB. unfold vote, honest_vote in EA, EB; cbn [fst snd] in EA, EB. split; symmetry; assumption. }
  assert (HE : env cd p QB (coms ++ deliver ms)).
  { apply (honest_env cd s p QB W HQ HP HC HN sg).
    - apply nodup_prod; apply seq_NoDup.
    - intros k i Hin. apply in_prod_iff in Hin. rewrite !in_seq in Hin. lia. }
  assert (RO : run_of cd p sign sigok combine coms st1).
  { exists (QB (p_PID p + 1)%nat), st0. split; [apply HQ|]. split; [exact E0|exact E1]. }
  destruct (run_inv _ s _ _ _ _ QB _ _ W HP HQ (env_app _ _ _ _ _ HE) RO) as (_ & SI1 & CA1).
  assert (LV : live st1) by (split; [rewrite R2; exact J3|rewrite R4; exact J5]).
  assert (MO : msgs_ok cd s p QB (s_flgCom st1) coms ms).
  { apply env_msgs; auto. intros i m Hin. destruct (HMS _ _ Hin) as (k & l & Hk & Hl & -> & ->).
    cbn [recover_msg rc_Index rc_W]. rewrite Nat2Z.id, HC. split; [lia|]. split; [|discriminate].
    apply F1. apply in_seq. lia. }
  destruct (deliver_run cd s p sign sigok combine QB W HP (fun k _ => HQ k) ms _ st1 I1 CA1 LV MO)
    as (st2 & E2 & I2 & CA2 & HC2).
  assert (RO2 : run_of cd p sign sigok combine (coms ++ deliver ms) st2).
  { exists (QB (p_PID p + 1)%nat), st0. split; [apply HQ|]. split; [exact E0|]. rewrite prun_app, E1. exact E2. }
  destruct (run_inv _ s _ _ _ _ QB _ _ W HP HQ HE RO2) as (_ & SI2 & _).
  assert (FC : forall k, (2 <= k <= F + 3)%nat -> nth k (s_flgCom st2) false = true).
  { intros k Hk. apply (flgCom_mono cd p sign sigok combine _ _ _ E2). apply F1. apply in_seq. lia. }
  (* points only for the dealers 2..F+2 *)
  assert (ONLY : forall k, (k <= p_N p)%nat -> nth k (s_SRec st2) [] <> [] -> (2 <= k <= F + 2)%nat).
  { intros k Hk HS. destruct (nth k (s_SRec st2) []) as [|e l] eqn:EL; [congruence|].
    destruct I2 as (_ & _ & _ & D & _). destruct (D k Hk) as (_ & D2). specialize (D2 (fst e)). rewrite EL in D2.
    specialize (D2 ltac:(apply in_or_app; right; left; reflexivity)). rewrite recvs_app, recvs_deliver in D2.
    apply in_app_or in D2. destruct D2 as [D2|D2].
    - exfalso. rewrite recvs_sources in D2. apply in_map_iff in D2. destruct D2 as (y & _ & Hy).
      unfold sources in Hy. apply in_flat_map in Hy. destruct Hy as (ev & He & Hy).
      apply in_map_iff in He. destruct He as (k' & <- & _). destruct Hy.
    - apply in_map_iff in D2. destruct D2 as ((i, m) & E & Hin). destruct (HMS _ _ Hin) as (k' & l' & Hk' & _ & _ & ->).
      apply (f_equal snd) in E. cbn [fst snd recover_msg rc_Index] in E. lia. }
  destruct SI2 as (SL & S1 & S2 & S3 & S4 & S5 & S6 & S8) eqn:ESI. pose proof SI2 as SI2'. clear ESI.
  assert (SENT : s_MVBASent st2 = true).
  { destruct (s_MVBASent st2) eqn:EM; [reflexivity|]. exfalso. destruct (HC2 eq_refl) as (_ & _ & CNT).
    assert (length (seq 2 (F + 1)) <= length (map fst (s_MVBAIn st2)))%nat as HL.
    { apply NoDup_incl_length; [apply seq_NoDup|]. intros k Hk. apply in_seq in Hk. apply S4, S2. rewrite S1.
      specialize (CNT k). apply (f_equal (@length _)) in CNT. rewrite app_length, !map_length in CNT. rewrite CNT.
      assert (length (map (fun i => vote (k, i)) (seq 1 (2 * F + 1))) <= length (filter (about cd s p sigok QB k) ms))%nat as HL.
      { apply NoDup_incl_length.
        - apply nodup_map_in; [|apply seq_NoDup]. intros a b Ha Hb E. apply in_seq in Ha, Hb.
          apply (f_equal fst) in E. unfold vote, honest_vote in E. cbn [fst snd] in E. lia.
        - intros y Hy. apply in_map_iff in Hy. destruct Hy as (i & <- & Hi). apply in_seq in Hi. apply filter_In. split.
          + apply in_map. apply in_prod_iff. rewrite !in_seq. lia.
          + apply (valid_about cd s p QB W HQ); [unfold vote, honest_vote; cbn [snd recover_msg rc_Index]; lia|]. unfold vote, honest_vote. cbn [fst snd].
            apply (honest_valid cd s p QB W HQ sigok HP k i (sg k) HC); [lia|exact HN|apply SG]. }
      rewrite map_length, seq_length in HL. fold F. lia. }
    rewrite seq_length, map_length in HL. apply S5 in HL. discriminate. }
  assert (REC : forall k, (2 <= k <= F + 2)%nat -> nth k (s_flgRec st2) false = true).
  { assert (INC : incl (map fst (s_MVBAIn st2)) (seq 2 (F + 1))).
    { intros k Hk. apply S4, S2 in Hk. rewrite S1 in Hk. apply in_seq.
      assert (k <= p_N p)%nat as HkN.
      { destruct (le_lt_dec k (p_N p)) as [|Hgt]; [assumption|]. rewrite (nth_overflow (s_SRec st2)) in Hk by lia. simpl in Hk. lia. }
      assert (2 <= k <= F + 2)%nat; [|lia]. apply ONLY; [exact HkN|]. intros E. rewrite E in Hk. simpl in Hk. lia. }
    intros k Hk. apply S8.
    assert (In k (map fst (s_MVBAIn st2))) as Hin.
    { apply (NoDup_length_incl S3 (l' := seq 2 (F + 1))); [|exact INC|apply in_seq; lia].
      rewrite seq_length, map_length. apply S5. exact SENT. }
    apply S4, S2 in Hin. rewrite S1 in Hin. fold F. lia. }
  assert (NREC : nth (F + 3) (s_flgRec st2) false = false).
  { destruct (nth (F + 3) (s_flgRec st2) false) eqn:EF; [|reflexivity]. exfalso. apply S8 in EF.
    assert (2 <= F + 3 <= F + 2)%nat; [|lia]. apply ONLY; [fold F in W4; lia|]. intros E. rewrite E in EF. simpl in EF. lia. }
  assert (HJ : forall j, In j J -> exists k, j = Z.of_nat k /\ (2 <= k <= F + 3)%nat).
  { intros j Hj. apply in_map_iff in Hj. destruct Hj as (k & <- & Hk). exists k. split; [reflexivity|].
    apply in_app_or in Hk. destruct Hk as [Hk|[<-|[]]]; [apply in_seq in Hk|]; lia. }
  destruct (refresh_unrecovered s p QB HQ (coms ++ deliver ms) st2 J B I2 SI2' HB ER) as (CQsum & ERF).
  { intros j Hj. destruct (HJ j Hj) as (k & -> & Hk). rewrite Nat2Z.id. fold F in W4. split; [lia|]. split; [lia|apply FC; exact Hk]. }
  exists (coms ++ deliver ms), st2. eexists. exists CQsum. split; [exact HE|]. split; [exact RO2|]. split; [exact SENT|].
  split; [intros j Hj; destruct (HJ j Hj) as (k & -> & Hk); rewrite Nat2Z.id; apply FC; exact Hk|].
  split; [exact ERF|]. intros B' HB' EQ. apply (f_equal (fun q => peval q x0)) in EQ. rewrite !peval_secy in EQ.
  rewrite beval_badd, beval_bsum, HB' in EQ. apply NZ. fold F in EQ.
  unfold J, total in EQ. rewrite !map_app, !fsum_app, !map_map in EQ. cbn [map fsum] in EQ. rewrite !Nat2Z.id in EQ.
  assert (EA : fsum (map (fun x => beval (recovered F QB st2 (Z.to_nat (Z.of_nat x))) x0 (me p)) (seq 2 F)) =
               fsum (map (fun x => beval (QB (Z.to_nat (Z.of_nat x))) x0 (me p)) (seq 2 F))).
  { f_equal. apply map_ext_in. intros k Hk. apply in_seq in Hk. unfold recovered. rewrite Nat2Z.id, REC by lia. reflexivity. }
  rewrite EA in EQ. unfold recovered in EQ at 1. rewrite NREC, beval_bzero in EQ.
  set (T := fsum _) in EQ. set (b := beval B x0 (me p)) in EQ. set (q := beval (QB (F + 3)%nat) x0 (me p)) in *.
  transitivity ((b + (T + (q + 0))) - (b + T)); [ring|]. rewrite <- EQ. ring.
Qed.
Print Assumptions c23_unrecovered_refuted.

(** ** C54 The input of the agreement *)

Section Votes.
Variables (cd : g1codec) (p : Party).
Variables (sign : nat -> list Z) (sigok : nat -> list Z -> bool) (combine : nat -> list (list Z) -> list Z).

(** Stored votes, and the waiting message, come from received messages. *)
Definition vinv (done : list pev) (st : pst) : Prop :=
  (forall k e, In e (nth k (s_SSig st) []) -> exists i m, In (EvRecv i m) done /\ Z.to_nat (rc_Index m) = k /\
     e = (((i + 1) mod 2 ^ 32)%Z, rc_Sig m) /\ sigok k (rc_Sig m) = true) /\
  (forall x, s_hold st = Some x -> exists m, In (EvRecv (ro_sender x) m) done /\
     ro_k x = Z.to_nat (rc_Index m) /\ ro_sig x = rc_Sig m).

Lemma vinv_more done e st : vinv done st -> vinv (done ++ [e]) st.
Proof.
  intros (V1 & V2). split.
  - intros k y Hy. destruct (V1 k y Hy) as (i & m & H1 & H2). exists i, m. split; [|exact H2]. apply in_or_app. left. exact H1.
  - intros x Hx. destruct (V2 x Hx) as (m & H1 & H2). exists m. split; [|exact H2]. apply in_or_app. left. exact H1.
Qed.

Lemma handle_vinv done st x st' : vinv done st -> s_hold st = None ->
  (exists m, In (EvRecv (ro_sender x) m) done /\ ro_k x = Z.to_nat (rc_Index m) /\ ro_sig x = rc_Sig m) ->
  handle sigok combine p st x = Ret st' -> vinv done st'.
Proof.
  intros (V1 & V2) EH (m & H1 & H2 & H3) E. unfold handle in E. apply bind_ret in E. destruct E as (ok & EO & E).
  apply bind_ret in E. destruct E as (st2 & E2 & E).
  assert (I2 : vinv done st2).
  { destruct ok; [|injection E2 as <-; split; assumption].
    assert (SG : sigok (ro_k x) (ro_sig x) = true).
    { unfold recov_ok in EO. apply bind_ret in EO. destruct EO as (row & _ & EO). apply bind_ret in EO.
      destruct EO as (C & _ & EO). apply bind_ret in EO. destruct EO as (b & _ & EO). injection EO as EO.
      apply andb_true_iff in EO. apply EO. }
    apply bind_ret in E2. destruct E2 as (st1 & E1 & E2).
    assert (A : s_SSig st1 = s_SSig st /\ s_hold st1 = None).
    { unfold add_point in E1. apply bind_ret in E1. destruct E1 as (old & _ & E1). cbv zeta in E1.
      destruct (_ && _) in E1; [apply bind_ret in E1; destruct E1 as (q & _ & E1)|]; injection E1 as <-; auto. }
    destruct A as (A1 & A2). unfold add_sig in E2. apply bind_ret in E2. destruct E2 as (old & Eo & E2). cbv zeta in E2.
    destruct (idx_Ret _ _ _ Eo) as (Lo & Ho). rewrite (idx_nth []) in Eo by exact Lo.
    apply (f_equal (fun x => match x with Ret a => a | _ => [] end)) in Eo. subst old.
    assert (G : vinv done st2 <-> True).
    { split; [auto|intros _].
      assert (B : s_SSig st2 = set_nth (ro_k x) (nth (ro_k x) (s_SSig st1) [] ++
                  [(((ro_sender x + 1) mod 2 ^ 32)%Z, ro_sig x)]) (s_SSig st1) /\ s_hold st2 = None).
      { destruct (negb _ && _) in E2; injection E2 as <-; split; auto. }
      destruct B as (B1 & B2). split; [|rewrite B2; discriminate].
      intros k e He. rewrite B1 in He. rewrite nth_set_nth in He. clear E2 Ho. destruct (_ && _) eqn:EK.
      - apply andb_true_iff in EK. destruct EK as (EK & _). apply Nat.eqb_eq in EK. subst k.
        apply in_app_or in He. destruct He as [He|[<-|[]]]; [rewrite A1 in He; apply V1; exact He|].
        exists (ro_sender x), m. rewrite H3 in SG. rewrite H3. split; [exact H1|]. split; [symmetry; exact H2|].
        split; [reflexivity|exact SG].
      - rewrite A1 in He. apply V1. exact He. }
    apply G. exact I. }
  injection E as <-. destruct (s_MVBASent st2); [|exact I2]. exact I2.
Qed.

Lemma prun_vinv : forall evs done st st', vinv done st -> prun cd sign sigok combine p st evs = Ret st' ->
  vinv (done ++ evs) st'.
Proof.
  induction evs as [|e evs IH]; intros done st st' V E.
  - injection E as <-. rewrite app_nil_r. exact V.
  - cbn [prun] in E. apply bind_ret in E. destruct E as ((st1, out) & E1 & E). cbn [fst] in E.
    replace (done ++ e :: evs) with ((done ++ [e]) ++ evs) by (rewrite <- app_assoc; reflexivity).
    apply (IH _ st1); [|exact E]. clear E IH. pose proof (vinv_more done e st V) as V'. destruct e; cbn [pstep] in E1.
    + apply bind_ret in E1. destruct E1 as (st2 & E1 & E2). injection E2 as <- _. unfold do_commit in E1.
      destruct (_ || _) in E1; [injection E1 as <-; exact V'|]. apply bind_ret in E1. destruct E1 as (row & _ & E1).
      apply bind_ret in E1. destruct E1 as ((ok, row') & _ & E1). apply bind_ret in E1. destruct E1 as (CQ & _ & E1).
      injection E1 as <-. exact V'.
    + apply bind_ret in E1. destruct E1 as (l & _ & E2). injection E2 as <- _. exact V'.
    + apply bind_ret in E1. destruct E1 as (st2 & E1 & E2). injection E2 as <- _. unfold do_recv in E1.
      destruct (s_hold st) eqn:EH; [injection E1 as <-; exact V'|]. cbv zeta in E1.
      apply bind_ret in E1. destruct E1 as (w & _ & E1). destruct (_ <? _)%Z in E1; [discriminate|]. injection E1 as <-.
      destruct V' as (V1 & _). split; [exact V1|]. cbn [s_hold]. intros x Hx. injection Hx as <-. exists m.
      cbn [ro_sender ro_k ro_sig]. split; [apply in_or_app; right; left; reflexivity|]. auto.
    + apply bind_ret in E1. destruct E1 as (st2 & E1 & E2). injection E2 as <- _. unfold do_handle in E1.
      destruct (s_hold st) as [x|] eqn:EH; [|injection E1 as <-; exact V'].
      destruct (_ && _) in E1; [|injection E1 as <-; exact V'].
      eapply handle_vinv; [| |apply (proj2 V' x EH)|exact E1].
      * split; [apply V'|discriminate].
      * reflexivity.
    + injection E1 as <- _. exact V'.
Qed.

(** Every certificate in the input of the agreement was assembled from votes that are stored. *)
Definition certs_stored (st : pst) : Prop :=
  forall k c, In (k, c) (s_MVBAIn st) -> exists votes rest, nth k (s_SSig st) [] = votes ++ rest /\
    (2 * p_F p + 1 <= length votes)%nat /\ c = combine k (map snd votes).

Lemma handle_certs st x st' : certs_stored st -> handle sigok combine p st x = Ret st' -> certs_stored st'.
Proof.
  intros C E. unfold handle in E. apply bind_ret in E. destruct E as (ok & _ & E).
  apply bind_ret in E. destruct E as (st2 & E2 & E).
  assert (I2 : certs_stored st2).
  { destruct ok; [|injection E2 as <-; exact C].
    apply bind_ret in E2. destruct E2 as (st1 & E1 & E2).
    assert (A : s_SSig st1 = s_SSig st /\ s_MVBAIn st1 = s_MVBAIn st).
    { unfold add_point in E1. apply bind_ret in E1. destruct E1 as (old & _ & E1). cbv zeta in E1.
      destruct (_ && _) in E1; [apply bind_ret in E1; destruct E1 as (q & _ & E1)|]; injection E1 as <-; auto. }
    destruct A as (A1 & A2). unfold add_sig in E2. rewrite A1, A2 in E2. apply bind_ret in E2. destruct E2 as (old & Eo & E2). cbv zeta in E2.
    destruct (idx_Ret _ _ _ Eo) as (Lo & _). rewrite (idx_nth []) in Eo by exact Lo.
    apply (f_equal (fun x => match x with Ret a => a | _ => [] end)) in Eo. subst old.
    set (k0 := ro_k x) in *. set (e := (((ro_sender x + 1) mod 2 ^ 32)%Z, ro_sig x)) in *.
    set (new := nth k0 (s_SSig st) [] ++ [e]) in *.
    assert (OLD : forall k c, In (k, c) (s_MVBAIn st) -> exists votes rest, nth k (set_nth k0 new (s_SSig st)) [] = votes ++ rest /\
      (2 * p_F p + 1 <= length votes)%nat /\ c = combine k (map snd votes)).
    { clear E2. intros k c Hk. destruct (C k c Hk) as (vs & rest & H1 & H2 & H3). rewrite nth_set_nth.
      destruct (_ && _) eqn:EK; [|eauto]. apply andb_true_iff in EK. destruct EK as (EK & _). apply Nat.eqb_eq in EK.
      subst k. exists vs, (rest ++ [e]). unfold new. rewrite H1, app_assoc. auto. }
    match type of E2 with (if ?b then _ else _) = _ => destruct b eqn:EC end; injection E2 as <-; unfold certs_stored; cbn [s_MVBAIn s_SSig]; [|exact OLD].
    intros k c Hk. apply in_app_or in Hk. destruct Hk as [Hk|[Hk|[]]]; [apply OLD; exact Hk|]. injection Hk as <- <-.
    apply andb_true_iff in EC. destruct EC as (_ & EC). apply Nat.leb_le in EC.
    exists new, []. rewrite app_nil_r, nth_set_nth, Nat.eqb_refl. apply Nat.ltb_lt in Lo. rewrite Lo. auto. }
  injection E as <-. destruct (s_MVBASent st2); exact I2.
Qed.

Lemma prun_certs : forall evs st st', certs_stored st -> prun cd sign sigok combine p st evs = Ret st' -> certs_stored st'.
Proof.
  induction evs as [|e evs IH]; intros st st' C E; [injection E as <-; exact C|].
  cbn [prun] in E. apply bind_ret in E. destruct E as ((st1, out) & E1 & E). cbn [fst] in E.
  apply (IH st1); [|exact E]. clear E IH. destruct e; cbn [pstep] in E1.
  - apply bind_ret in E1. destruct E1 as (st2 & E1 & E2). injection E2 as <- _. unfold do_commit in E1.
    destruct (_ || _) in E1; [injection E1 as <-; exact C|]. apply bind_ret in E1. destruct E1 as (row & _ & E1).
    apply bind_ret in E1. destruct E1 as ((ok, row') & _ & E1). apply bind_ret in E1. destruct E1 as (CQ & _ & E1).
    injection E1 as <-. exact C.
  - apply bind_ret in E1. destruct E1 as (l & _ & E2). injection E2 as <- _. exact C.
  - apply bind_ret in E1. destruct E1 as (st2 & E1 & E2). injection E2 as <- _. unfold do_recv in E1.
    destruct (s_hold st) eqn:EH; [injection E1 as <-; exact C|]. cbv zeta in E1.
    apply bind_ret in E1. destruct E1 as (w & _ & E1). destruct (_ <? _)%Z in E1; [discriminate|]. injection E1 as <-. exact C.
  - apply bind_ret in E1. destruct E1 as (st2 & E1 & E2). injection E2 as <- _. unfold do_handle in E1.
    destruct (s_hold st) as [x|] eqn:EH; [|injection E1 as <-; exact C].
    destruct (_ && _) in E1; [|injection E1 as <-; exact C].
    apply (handle_certs (set_hold st None) _ _ C E1).
  - injection E1 as <- _. exact C.
Qed.
End Votes.

(** In every execution, whatever the other members send: the agreement is started exactly when F+1 dealers
    are in its input; they are pairwise different, and the certificate of each is assembled from (at least) 2F+1 votes
    among the received messages, each with a share of the threshold signature on the dealer's number that verifies. *)
Theorem c54_agreement_input : forall cd p sign sigok combine Qs st0 evs st, (1 <= p_F p)%nat ->
  proac_init p Qs = Ret st0 -> prun cd sign sigok combine p st0 evs = Ret st ->
  (s_MVBASent st = true <-> (p_F p + 1 <= length (s_MVBAIn st))%nat) /\
  NoDup (map fst (s_MVBAIn st)) /\
  forall k c, In (k, c) (s_MVBAIn st) ->
    exists votes, (2 * p_F p + 1 <= length votes)%nat /\ c = combine k (map snd votes) /\
      forall v, In v votes -> exists i m, In (EvRecv i m) evs /\ Z.to_nat (rc_Index m) = k /\
        v = (((i + 1) mod 2 ^ 32)%Z, rc_Sig m) /\ sigok k (rc_Sig m) = true.
Proof.
  intros cd p sign sigok combine Qs st0 evs st HF E0 ER.
  pose proof (prun_sinv cd p sign sigok combine evs st0 st (init_sinv p Qs st0 HF E0) ER) as SI.
  assert (V0 : vinv sigok [] st0 /\ certs_stored p combine st0).
  { unfold proac_init in E0. apply bind_ret in E0. destruct E0 as (cs & _ & E0). apply bind_ret in E0.
    destruct E0 as (row & _ & E0). apply bind_ret in E0. destruct E0 as (CQ & _ & E0). apply bind_ret in E0.
    destruct E0 as (Q & _ & E0). injection E0 as <-. split; [split; [|discriminate]|intros k c []]. cbn [s_SSig]. intros k e He.
    rewrite (nth_repeat_len [] [] (p_N p + 1) k eq_refl) in He. destruct He. }
  destruct V0 as (V0 & C0).
  pose proof (prun_vinv cd p sign sigok combine evs [] st0 st V0 ER) as (V1 & _).
  pose proof (prun_certs cd p sign sigok combine evs st0 st C0 ER) as CS.
  destruct SI as (_ & _ & S2 & S3 & S4 & S5 & _). split; [exact S5|]. split; [exact S3|].
  intros k c Hk. destruct (CS k c Hk) as (votes & rest & H1 & H2 & H3). exists votes. split; [exact H2|]. split; [exact H3|].
  intros v Hv. apply V1. rewrite H1. apply in_or_app. left. exact Hv.
Qed.
Print Assumptions c54_agreement_input.

(** ** C52 One message blocks the recovery *)

(** A recover message with dealer number 0 stays with the receiving goroutine for ever: whatever arrives
    afterwards, no further vote is counted and no polynomial is recovered. *)
Theorem c52_blocked_refuted : forall cd p sign sigok combine st i m evs st', s_hold st = None ->
  rc_Index m = 0%Z -> FromCompressedG1 cd (rc_W m) <> None ->
  prun cd sign sigok combine p st (EvRecv i m :: evs) = Ret st' ->
  s_SRec st' = s_SRec st /\ s_flgRec st' = s_flgRec st /\ s_Q st' = s_Q st /\ s_SSig st' = s_SSig st /\
  s_MVBAIn st' = s_MVBAIn st /\ s_MVBASent st' = s_MVBASent st.
Proof.
  intros cd p sign sigok combine st i m evs st' EH E0 EW ER. cbn [prun] in ER. apply bind_ret in ER.
  destruct ER as ((st1, out) & E1 & ER). cbn [fst] in ER.
  assert (G : forall evs st st', (exists x, s_hold st = Some x /\ ro_k x = 0%nat) ->
    prun cd sign sigok combine p st evs = Ret st' ->
    s_SRec st' = s_SRec st /\ s_flgRec st' = s_flgRec st /\ s_Q st' = s_Q st /\ s_SSig st' = s_SSig st /\
    s_MVBAIn st' = s_MVBAIn st /\ s_MVBASent st' = s_MVBASent st).
  { clear. induction evs as [|e evs IH]; intros st st' (x & EH & EK) E.
    - injection E as <-. repeat split.
    - cbn [prun] in E. apply bind_ret in E. destruct E as ((st1, out) & E1 & E). cbn [fst] in E.
      assert (P : s_hold st1 = s_hold st /\ s_SRec st1 = s_SRec st /\ s_flgRec st1 = s_flgRec st /\ s_Q st1 = s_Q st /\
        s_SSig st1 = s_SSig st /\ s_MVBAIn st1 = s_MVBAIn st /\ s_MVBASent st1 = s_MVBASent st).
      { destruct e; cbn [pstep] in E1.
        + apply bind_ret in E1. destruct E1 as (st2 & E1 & E2). injection E2 as <- _. unfold do_commit in E1.
          destruct (_ || _) in E1; [injection E1 as <-; repeat split|]. apply bind_ret in E1. destruct E1 as (row & _ & E1).
          apply bind_ret in E1. destruct E1 as ((ok, row') & _ & E1). apply bind_ret in E1. destruct E1 as (CQ & _ & E1).
          injection E1 as <-. repeat split.
        + apply bind_ret in E1. destruct E1 as (l & _ & E2). injection E2 as <- _. repeat split.
        + apply bind_ret in E1. destruct E1 as (st2 & E1 & E2). injection E2 as <- _. unfold do_recv in E1.
          rewrite EH in E1. injection E1 as <-. repeat split.
        + apply bind_ret in E1. destruct E1 as (st2 & E1 & E2). injection E2 as <- _. unfold do_handle in E1.
          rewrite EH, EK in E1. rewrite andb_false_r in E1. injection E1 as <-. repeat split.
        + injection E1 as <- _. repeat split. }
      destruct P as (P0 & P1 & P2 & P3 & P4 & P5 & P6).
      destruct (IH st1 st') as (Q1 & Q2 & Q3 & Q4 & Q5 & Q6); [exists x; rewrite P0; auto|exact E|].
      repeat split; congruence. }
  cbn [pstep] in E1. apply bind_ret in E1. destruct E1 as (st2 & E1 & E2). injection E2 as <- _.
  unfold do_recv in E1. rewrite EH in E1. cbv zeta in E1. apply bind_ret in E1. destruct E1 as (w & _ & E1).
  destruct (_ <? _)%Z in E1; [discriminate|]. injection E1 as <-.
  apply G in ER; [|eexists; split; [reflexivity|cbn [ro_k]; rewrite E0; reflexivity]].
  destruct ER as (Q1 & Q2 & Q3 & Q4 & Q5 & Q6).
  cbn [s_SRec s_flgRec s_Q s_SSig s_MVBAIn s_MVBASent] in *. repeat split; assumption.
Qed.
Print Assumptions c52_blocked_refuted.

(** The same message is not an error: the run goes on whatever honest votes follow. *)
Theorem c52_no_error : forall cd p sign sigok combine st i m, s_hold st = None ->
  rc_Index m = 0%Z -> FromCompressedG1 cd (rc_W m) <> None ->
  exists st1, prun cd sign sigok combine p st [EvRecv i m] = Ret st1 /\
    forall j m2, prun cd sign sigok combine p st1 [EvRecv j m2; EvHandle] = Ret st1.
Proof.
  intros cd p sign sigok combine st i m EH E0 EW. destruct (FromCompressedG1 cd (rc_W m)) as [w|] eqn:ED; [|congruence].
  eexists. split.
  - cbn [prun pstep]. unfold do_recv. rewrite EH. cbv zeta. rewrite (ReadG1_ok _ _ _ ED). cbn [bind].
    rewrite (proj2 (Z.ltb_ge (Z.of_nat (p_N p)) (rc_Index m))) by lia. cbn [bind fst]. reflexivity.
  - intros j m2. cbn [prun pstep]. unfold do_recv. cbn [s_hold bind fst]. unfold do_handle. cbn [s_hold ro_k].
    rewrite E0. change (Z.to_nat 0) with O. cbn [Nat.leb]. rewrite andb_false_r. reflexivity.
Qed.
Print Assumptions c52_no_error.

(** ** C48 End of the handoff *)

(** The loop ends exactly with the (2F+1)-st announcement; if nobody announces twice, 2F+1 different
    members have announced. *)
Theorem c48_count : forall F senders, success_loop F 0 senders = true <-> (2 * F + 1 <= length senders)%nat.
Proof.
  intros F senders. enough (G : forall c, (c <= 2 * F)%nat ->
    (success_loop F c senders = true <-> (2 * F + 1 <= c + length senders)%nat)) by (apply (G 0%nat); lia).
  induction senders as [|x l IH]; intros c Hc; cbn [success_loop length].
  - split; [discriminate|lia].
  - destruct (Nat.leb_spec (2 * F + 1) (c + 1)) as [G|G]; [split; [lia|reflexivity]|].
    rewrite IH by lia. lia.
Qed.
Print Assumptions c48_count.

Theorem c48_distinct : forall F senders, NoDup senders -> success_loop F 0 senders = true ->
  exists who, NoDup who /\ length who = (2 * F + 1)%nat /\ incl who senders.
Proof.
  intros F senders ND E. apply c48_count in E. exists (firstn (2 * F + 1) senders).
  split; [|split; [apply firstn_length_le; exact E|]].
  - rewrite <- (firstn_skipn (2 * F + 1) senders) in ND. apply NoDup_app_l in ND. exact ND.
  - intros x Hx. rewrite <- (firstn_skipn (2 * F + 1) senders). apply in_or_app. left. exact Hx.
Qed.
Print Assumptions c48_distinct.

(** One member can make another one leave the handoff. *)
Theorem c48_one_sender_refuted : forall F i, exists senders, (forall x, In x senders -> x = i) /\
  success_loop F 0 senders = true.
Proof.
  intros F i. exists (repeat i (2 * F + 1)). split; [intros x Hx; apply repeat_spec in Hx; exact Hx|].
  apply c48_count. rewrite repeat_length. lia.
Qed.
Print Assumptions c48_one_sender_refuted.

Example c48_example : success_loop 1 0 [3; 0; 2]%Z = true /\ success_loop 1 0 [3; 0]%Z = false.
Proof. split; reflexivity. Qed.
