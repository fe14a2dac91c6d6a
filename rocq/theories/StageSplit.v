(** Members that start the agreement with different dealers (StageModel.v), and the distribution of the refreshed shares
    (ProacModel.v) when too few new commitments are accepted. *)

Require Import ZArith List Bool Arith Lia Permutation.
From Verif Require Import Prime Fr GoBase Poly PolyModel PolyProofs Biv GroupModel KzgModel KzgProofs.
From Verif Require Import CodecModel CodecProofs PartyModel PartySpec VssModel VssProofs VssProofs2 BivProofs.
From Verif Require Import ReduceModel ReduceProofs.
From Verif Require Import ProacModel ProacProofs ProacRun ProacSig ProacRecover ProacDist ProacLinks.
From Verif Require Import ReshareModel ReshareProofs StageModel StageProofs StageNet.
Import ListNotations.
Local Open Scope F_scope.

(** ** The distribution *)
Section Starved.
Variables (cd : g1codec) (p : Party) (CQsum : list G1) (G : list nat).

Definition dk (st : dst) : Prop :=
  (forall j, nth j (d_token st) false = true -> In j G /\ nth j (d_ncDone st) true = true /\ ~ In j (map fst (d_SB st))) /\
  (forall j, In j (map fst (d_SB st)) -> In j G /\ nth j (d_ncDone st) true = true) /\ NoDup (map fst (d_SB st)) /\ d_share st = None.

Lemma dk_init N : dk (dist_init N).
Proof.
  split; [|split; [intros j []|split; [constructor|reflexivity]]]. intros j. cbn [dist_init d_token]. rewrite nth_repeat. discriminate.
Qed.

Lemma nth_done j k l : nth k l true = true -> nth k (set_nth j true l) true = true.
Proof. intros H. rewrite nth_set_nth. destruct ((j =? k)%nat && _)%bool; auto. Qed.

Hypothesis HG : (length G <= 2 * p_F p)%nat.

Lemma dk_step st e st' : dk st -> (forall j d C, e = DvCommit j d -> (1 <= j <= p_N p)%nat -> VerifyNewCommit cd p CQsum j d = Ret (Some C) -> In j G) ->
  dstep cd p CQsum st e = Ret st' -> dk st'.
Proof.
  intros (D1 & D2 & D3 & D4) HA E. destruct e as [j d|sd m|i]; cbn [dstep] in E.
  - unfold d_commit in E. destruct (negb ((1 <=? j) && (j <=? p_N p))%nat || nth j (d_ncDone st) true) eqn:GU; [injection E as <-; exact (conj D1 (conj D2 (conj D3 D4)))|].
    apply orb_false_iff in GU. destruct GU as (GU & ND). apply negb_false_iff, andb_true_iff in GU. destruct GU as (G1 & G2). apply Nat.leb_le in G1, G2.
    assert (LJ : (j < length (d_ncDone st))%nat). { destruct (Nat.lt_ge_cases j (length (d_ncDone st))) as [L|L]; [exact L|]. rewrite nth_overflow in ND by exact L. discriminate. }
    assert (DJ : nth j (set_nth j true (d_ncDone st)) true = true) by (apply nth_set_nth_same; exact LJ).
    apply bind_ret in E. destruct E as (o & EO & E). destruct o as [C|]; injection E as <-; unfold dk; cbn [d_token d_ncDone d_SB d_share].
    + split; [|split; [|auto]].
      * intros k TK. rewrite nth_set_nth in TK. destruct (Nat.eqb_spec j k) as [->|NE].
        -- split; [exact (HA k d C eq_refl (conj G1 G2) EO)|]. split; [exact DJ|]. intros X. destruct (D2 k X) as (_ & Y). congruence.
        -- cbn [andb] in TK. destruct (D1 k TK) as (A & B & X). auto using nth_done.
      * intros k X. destruct (D2 k X). auto using nth_done.
    + split; [|split; [|auto]].
      * intros k TK. destruct (D1 k TK) as (A & B & X). auto using nth_done.
      * intros k X. destruct (D2 k X). auto using nth_done.
  - unfold d_recv in E. destruct (d_free st) as [|n]; [injection E as <-; exact (conj D1 (conj D2 (conj D3 D4)))|].
    cbv zeta in E. destruct (_ <? _)%Z in E; [discriminate|]. injection E as <-. exact (conj D1 (conj D2 (conj D3 D4))).
  - unfold d_go in E. destruct (nth_error (d_wait st) i) as [(j, m)|]; [|injection E as <-; exact (conj D1 (conj D2 (conj D3 D4)))].
    destruct (nth j (d_token st) false) eqn:TJ; cbn [negb] in E; [|injection E as <-; exact (conj D1 (conj D2 (conj D3 D4)))].
    destruct (D1 j TJ) as (J1 & J2 & J3). assert (LT : (j < length (d_token st))%nat). { destruct (Nat.lt_ge_cases j (length (d_token st))) as [L|L]; [exact L|]. rewrite nth_overflow in TJ by exact L. discriminate. }
    assert (TK : forall k, nth k (set_nth j false (d_token st)) false = true -> k <> j /\ nth k (d_token st) false = true).
    { intros k X. destruct (Nat.eq_dec k j) as [->|NE]; [rewrite nth_set_nth_same in X by exact LT; discriminate|]. rewrite nth_set_nth_other in X by auto. auto. }
    cbv zeta in E. apply bind_ret in E. destruct E as (CB & _ & E). apply bind_ret in E. destruct E as (w & _ & E). apply bind_ret in E. destruct E as (ok & _ & E). destruct ok.
    + rewrite D4 in E. set (v := FrFrom32_into 0 (to32 (sd_B m))) in E.
      assert (NS : NoDup (map fst (d_SB st ++ [(j, v)])) /\ forall k, In k (map fst (d_SB st ++ [(j, v)])) -> In k G /\ nth k (d_ncDone st) true = true).
      { rewrite map_app. cbn [map fst]. split.
        - apply (Permutation_NoDup (Permutation_cons_append _ _)). constructor; assumption.
        - intros k X. apply in_app_or in X. destruct X as [X|[<-|[]]]; auto. }
      destruct NS as (NS & IS). assert (LS : (length (d_SB st ++ [(j, v)]) <= 2 * p_F p)%nat).
      { rewrite <- (map_length fst). eapply Nat.le_trans; [|exact HG]. apply NoDup_incl_length; [exact NS|]. intros k X. apply IS, X. }
      rewrite (proj2 (Nat.leb_gt (2 * p_F p + 1) _)) in E by lia. injection E as <-. unfold dk. cbn [d_token d_ncDone d_SB d_share]. split; [|auto].
      intros k X. destruct (TK k X) as (NE & Y). destruct (D1 k Y) as (A & B & Z). split; [exact A|]. split; [exact B|]. rewrite map_app, in_app_iff. cbn [map fst In]. intros [U|[U|[]]]; [exact (Z U)|congruence].
    + injection E as <-. unfold dk. cbn [d_token d_ncDone d_SB d_share]. split; [|auto]. intros k X. apply D1. apply TK, X.
Qed.

(** With new commitments of at most 2F members accepted, no full share is ever computed. *)
Lemma dist_starved evs st N : (forall j d C, In (DvCommit j d) evs -> (1 <= j <= p_N p)%nat -> VerifyNewCommit cd p CQsum j d = Ret (Some C) -> In j G) ->
  drun cd p CQsum (dist_init N) evs = Ret st -> d_share st = None.
Proof.
  intros HA. enough (X : forall evs s0, (forall j d C, In (DvCommit j d) evs -> (1 <= j <= p_N p)%nat -> VerifyNewCommit cd p CQsum j d = Ret (Some C) -> In j G) ->
    dk s0 -> drun cd p CQsum s0 evs = Ret st -> d_share st = None) by (apply X; [exact HA|apply dk_init]).
  clear HA. unfold drun. induction evs0 as [|e l IH]; intros s0 HA D E; cbn [gofold] in E; [injection E as <-; apply D|].
  apply bind_ret in E. destruct E as (s1 & E1 & E). apply (IH s1); [intros j d C X; apply HA; right; exact X| |exact E].
  apply (dk_step s0 e s1 D); [|exact E1]. intros j d C ->. apply HA. left. reflexivity.
Qed.
End Starved.

(** ** Members that have started the agreement *)

(** The agreement has been called with the dealers K; a handler of another dealer handles one more message at most. *)
Definition late (K : list nat) (st : pst) : Prop :=
  s_MVBASent st = true /\ length (s_stopped st) = length (s_SRec st) /\ incl K (map fst (s_MVBAIn st)) /\
  forall k, ~ In k K -> (length (nth k (s_SRec st) []) <= if nth k (s_stopped st) false then 1 else 0)%nat.

Lemma late_step cd sign sigok combine p K st e st' ms : late K st -> pstep cd sign sigok combine p st e = Ret (st', ms) -> late K st'.
Proof.
  intros L E. pose proof L as (L1 & L2 & L3 & L4). destruct e; cbn [pstep] in E.
  - apply bind_ret in E. destruct E as (x & E & Y). injection Y as <- _. unfold do_commit in E. destruct (_ || _)%bool in E; [injection E as <-; exact L|].
    apply bind_ret in E. destruct E as (row & _ & E). apply bind_ret in E. destruct E as ((ok, row') & _ & E). apply bind_ret in E. destruct E as (CQ & _ & E). injection E as <-. exact L.
  - apply bind_ret in E. destruct E as (x & E & Y). injection Y as <- _. exact L.
  - apply bind_ret in E. destruct E as (x & E & Y). injection Y as <- _. unfold do_recv in E. destruct (s_hold st); [injection E as <-; exact L|].
    cbv zeta in E. apply bind_ret in E. destruct E as (w & _ & E). destruct (_ <? _)%Z in E; [discriminate|]. injection E as <-. exact L.
  - apply bind_ret in E. destruct E as (x & E & Y). injection Y as <- _. unfold do_handle in E. destruct (s_hold st) as [y|]; [|injection E as <-; exact L].
    destruct (nth (ro_k y) (s_flgCom st) false && negb (nth (ro_k y) (s_stopped st) false) && negb (s_busy st) && (1 <=? ro_k y)%nat) eqn:GU; [|injection E as <-; exact L].
    assert (NS : nth (ro_k y) (s_stopped st) false = false). { destruct (nth (ro_k y) (s_stopped st) false); [|reflexivity]. rewrite andb_false_r in GU. discriminate. }
    unfold handle in E. apply bind_ret in E. destruct E as (ok & _ & E). apply bind_ret in E. destruct E as (s2 & E2 & E).
    assert (X : s_MVBASent s2 = true /\ s_stopped s2 = s_stopped st /\ incl K (map fst (s_MVBAIn s2)) /\ length (s_SRec s2) = length (s_SRec st) /\
      forall k, (k <> ro_k y -> nth k (s_SRec s2) [] = nth k (s_SRec st) []) /\ (length (nth k (s_SRec s2) []) <= length (nth k (s_SRec st) []) + 1)%nat /\
        ((ro_k y < length (s_SRec st))%nat \/ s_SRec s2 = s_SRec st)).
    { destruct ok; [|injection E2 as <-; cbn [set_hold s_MVBASent s_stopped s_MVBAIn s_SRec]; repeat split; auto; lia].
      apply bind_ret in E2. destruct E2 as (s1 & E1 & E2). unfold add_point in E1. cbv zeta in E1. apply bind_ret in E1. destruct E1 as (old & EO & E1). cbn [set_hold s_SRec] in EO.
      pose proof (idx_Ret _ _ _ EO) as (LK & HO). apply (nth_error_nth _ _ []) in HO.
      assert (P1 : s_MVBASent s1 = s_MVBASent st /\ s_stopped s1 = s_stopped st /\ s_MVBAIn s1 = s_MVBAIn st /\ s_SRec s1 = set_nth (ro_k y) (old ++ [(((ro_sender y + 1) mod 2 ^ 32)%Z, ro_v y)]) (s_SRec st)).
      { destruct (_ && _)%bool in E1; [apply bind_ret in E1; destruct E1 as (q & _ & E1)|]; injection E1 as <-; cbn [set_hold s_MVBASent s_stopped s_MVBAIn s_SRec]; auto. }
      destruct P1 as (P1 & P2 & P3 & P4). unfold add_sig in E2. cbv zeta in E2. apply bind_ret in E2. destruct E2 as (old2 & _ & E2).
      assert (P5 : s_MVBASent s2 = true /\ s_stopped s2 = s_stopped s1 /\ incl (s_MVBAIn s1) (s_MVBAIn s2) /\ s_SRec s2 = s_SRec s1).
      { destruct (_ && _)%bool in E2; injection E2 as <-; cbn [s_MVBASent s_stopped s_MVBAIn s_SRec]; rewrite P1, L1; repeat split; auto; intros z Z; [apply in_or_app; left; exact Z|exact Z]. }
      destruct P5 as (Q1 & Q2 & Q3 & Q4). split; [exact Q1|]. split; [congruence|]. rewrite P3 in Q3. split; [intros k X; apply L3 in X; apply in_map_iff in X; destruct X as (z & <- & Z); apply in_map, Q3, Z|].
      rewrite Q4, P4. split; [apply length_set_nth|]. intros k. split; [|split; [|auto]].
      - intros NE. apply nth_set_nth_other. auto.
      - rewrite nth_set_nth. destruct (Nat.eqb_spec (ro_k y) k) as [<-|NE]; cbn [andb]; [|lia]. destruct (_ <? _)%nat; [|lia]. rewrite app_length. cbn [length]. rewrite HO. lia. }
    destruct X as (X1 & X2 & X3 & X4 & X5). rewrite X1 in E. injection E as <-. unfold late. cbn [s_MVBASent s_stopped s_MVBAIn s_SRec]. split; [reflexivity|].
    rewrite length_set_nth, X2, X4. split; [exact L2|]. split; [exact X3|]. intros k NK. specialize (L4 k NK). destruct (X5 k) as (Y1 & Y2 & Y3). rewrite nth_set_nth.
    destruct (Nat.eqb_spec (ro_k y) k) as [<-|NE]; cbn [andb].
    + rewrite NS in L4. destruct Y3 as [Y3|Y3].
      * rewrite L2, (proj2 (Nat.ltb_lt _ _) Y3). lia.
      * rewrite Y3. destruct (_ <? _)%nat; [lia|rewrite NS; exact L4].
    + rewrite Y1 by auto. exact L4.
  - injection E as <- _. exact L.
Qed.

Section Member.
Variables (cd : g1codec) (s : Fr) (p : Party) (QB : nat -> list (list Fr)).
Variable sg : nat -> nat -> list Z.
Variables (sigok : nat -> list Z -> bool) (combine : nat -> list (list Z) -> list Z).
Variable hon : list nat.
Hypothesis HC : codec_ok cd.
Hypothesis W : party_wf s p.
Hypothesis HQ : forall k, bdeg (p_F p) (2 * p_F p) (QB k).
Hypothesis HP : (p_PID p < p_N p)%nat.
Hypothesis HN : (Z.of_nat (p_N p) < 2 ^ 32)%Z.
Hypothesis HH : forall k, In k hon -> (1 <= k <= p_N p)%nat.
Variable st0 : pst.
Hypothesis E0 : proac_init p (map (fun j => secy (QB (p_PID p + 1)) (of_nat j)) (seq 1 (2 * p_F p + 1))) = Ret st0.
Variable K : list nat.

Lemma only T v log : good cd s p QB sg sigok combine hon st0 T v log -> (forall y, In y (sources (others T)) -> In (Z.to_nat (snd y)) K) ->
  forall k, nth k (s_SRec (v_st v)) [] <> [] -> In k K.
Proof.
  intros G HK k NE. destruct (good_inv cd s p QB sg sigok combine hon HC W HQ HP HN HH st0 E0 T v log G) as (pevs & I & SI & _ & ER).
  destruct SI as ((LS & _) & _). destruct I as (_ & _ & _ & D & _). assert (LK : (k <= p_N p)%nat).
  { destruct (Nat.lt_ge_cases k (length (s_SRec (v_st v)))) as [L|L]; [lia|]. rewrite nth_overflow in NE by exact L. congruence. }
  destruct (nth k (s_SRec (v_st v)) []) as [|e l] eqn:EL; [congruence|]. destruct (D k LK) as (_ & D2). specialize (D2 (fst e)). rewrite EL in D2.
  specialize (D2 ltac:(apply in_or_app; right; left; reflexivity)). rewrite ER, recvs_sources in D2. apply in_map_iff in D2. destruct D2 as (y & EY & Y).
  specialize (HK y Y). apply (f_equal snd) in EY. cbn [snd] in EY. rewrite EY, Nat2Z.id in HK. exact HK.
Qed.

Lemma late_init T v log : good cd s p QB sg sigok combine hon st0 T v log -> (forall y, In y (sources (others T)) -> In (Z.to_nat (snd y)) K) ->
  NoDup K -> length K = (p_F p + 1)%nat -> s_MVBASent (v_st v) = true -> late K (v_st v) /\ Permutation (map fst (s_MVBAIn (v_st v))) K.
Proof.
  intros G HK NK LK MS. pose proof (only T v log G HK) as ON. destruct (good_inv cd s p QB sg sigok combine hon HC W HQ HP HN HH st0 E0 T v log G) as (pevs & I & SI & _ & _).
  destruct SI as ((LS & _) & S1 & S2 & S3 & S4 & S5 & _). destruct I as ((_ & _ & _ & _ & _ & _ & _ & _ & LST & _) & _).
  assert (IN : incl (map fst (s_MVBAIn (v_st v))) K).
  { intros k X. apply S4, S2 in X. rewrite S1 in X. apply ON. intros Z. rewrite Z in X. cbn [length] in X. lia. }
  assert (LE : (length K <= length (map fst (s_MVBAIn (v_st v))))%nat) by (rewrite map_length, LK; apply S5; exact MS).
  pose proof (NoDup_length_incl S3 LE IN) as IN'. split.
  - split; [exact MS|]. split; [lia|]. split; [exact IN'|]. intros k NI. destruct (nth k (s_SRec (v_st v)) []) eqn:EL; [cbn [length]; lia|]. destruct NI. apply ON. rewrite EL. discriminate.
  - apply NoDup_Permutation; auto. intros k. split; auto.
Qed.

(** What Refresh computes then: the polynomials of the dealers in K only. *)
Definition known (k : nat) : list (list Fr) := if existsb (Nat.eqb k) K then QB k else bzero (p_F p).

Lemma secy_zero F y : secy (bzero F) y = repeat 0 (F + 1).
Proof.
  apply (nth_ext _ _ 0 0).
  - rewrite (length_secy F (2 * F)) by apply bdeg_bzero. rewrite repeat_length. lia.
  - intros n _. rewrite secy_bzero. symmetry. apply nth_repeat.
Qed.

Lemma refresh_known T v log J B : good cd s p QB sg sigok combine hon st0 T v log -> late K (v_st v) -> bdeg (p_F p) (2 * p_F p) B -> p_reducedShare p = secy B (of_nat (p_PID p + 1)) ->
  (forall j, In j J -> (1 <= j <= Z.of_nat (p_N p))%Z /\ nth (Z.to_nat j) (s_flgCom (v_st v)) false = true /\ (Z.to_nat j <> (p_PID p + 1)%nat \/ In (Z.to_nat j) K)) ->
  exists CQsum, Refresh p (v_st v) J = Ret (Some (secy (badd B (bsum (p_F p) known (nats J))) (of_nat (p_PID p + 1)), CQsum)) /\
    length CQsum = (p_N p + 1)%nat /\
    forall j, (1 <= j <= p_N p)%nat -> nth j CQsum ZeroG1 = mkG1 (peval (secx (bsum (p_F p) QB (nats J)) s) (of_nat j)).
Proof.
  intros G (L1 & L2 & L3 & L4) HB HR HJ. destruct (good_inv cd s p QB sg sigok combine hon HC W HQ HP HN HH st0 E0 T v log G) as (pevs & I & SI & _ & _).
  apply (refresh_gen s p QB pevs (v_st v) known J B I HB HR). intros j Hj. destruct (HJ j Hj) as (J1 & J2 & J3). split; [exact J1|]. split; [exact J2|].
  destruct SI as (_ & S1 & S2 & S3 & S4 & S5 & S6 & S7). unfold known. destruct (existsb (Nat.eqb (Z.to_nat j)) K) eqn:EX.
  - apply existsb_exists in EX. destruct EX as (k & KK & EK). apply Nat.eqb_eq in EK. rewrite EK. split; [apply HQ|].
    destruct I as (_ & _ & _ & _ & R & _). specialize (R k ltac:(lia)). rewrite (proj2 (S7 k)) in R; [apply R|].
    apply L3, S4, S2 in KK. rewrite S1 in KK. lia.
  - split; [apply bdeg_bzero|]. rewrite secy_zero. assert (NK : ~ In (Z.to_nat j) K). { intros X. assert (existsb (Nat.eqb (Z.to_nat j)) K = true) by (apply existsb_exists; exists (Z.to_nat j); split; [exact X|apply Nat.eqb_refl]). congruence. }
    apply S6; [lia|tauto|]. destruct (nth (Z.to_nat j) (s_flgRec (v_st v)) false) eqn:FR; [|reflexivity]. apply S7 in FR. specialize (L4 _ NK). destruct W as (_ & _ & W3 & _).
    destruct (nth (Z.to_nat j) (s_stopped (v_st v)) false); lia.
Qed.
End Member.

(** ** The steps of the network *)
Section Net.
Variables (cd : g1codec) (ps : nat -> Party).
Variable sg : nat -> nat -> list Z.
Variables (sigok : nat -> list Z -> bool) (combine : nat -> list (list Z) -> list Z).
Variable hon : list nat.

Lemma member_pstep n post i0 e n' i : member_step cd ps sg sigok combine hon n post i0 e = Ret (Some n') ->
  v_st (n_v n' i) = v_st (n_v n i) \/ exists e ms, pstep cd (sg i) sigok combine (ps i) (v_st (n_v n i)) e = Ret (v_st (n_v n' i), ms).
Proof.
  intros E. unfold member_step in E. apply bind_ret in E. destruct E as (o & EV & E). destruct o as [(v', o)|]; [|discriminate]. injection E as <-. cbn [n_v].
  destruct (Nat.eq_dec i i0) as [->|NE]; [|rewrite put_other by exact NE; left; reflexivity]. rewrite put_same. unfold vstep_of in EV. destruct e as [j|sd m|x|e].
  - apply vstep_tell in EV. destruct EV as (_ & _ & _ & _ & ->). left. reflexivity.
  - apply vstep_take in EV. destruct EV as (k & _ & [(_ & ms & _ & _ & ->)|(_ & _ & ->)]); left; reflexivity.
  - apply vstep_wake in EV. destruct EV as (sd & m & ms & _ & _ & _ & _ & ->). left. reflexivity.
  - apply vstep_other in EV. destruct EV as (_ & _ & ms & EP & _). right. exists e, ms. exact EP.
Qed.

Lemma net_pstep n e n' i : nstep cd ps sg sigok combine hon n e = Ret (Some n') ->
  v_st (n_v n' i) = v_st (n_v n i) \/ exists e ms, pstep cd (sg i) sigok combine (ps i) (v_st (n_v n i)) e = Ret (v_st (n_v n' i), ms).
Proof.
  destruct e as [x|i0 k|i0 x|i0|i0]; cbn [nstep]; intros E.
  - destruct (nth_error (n_post n) x) as [[k j d|k j m|k j m]|]; [| | |discriminate]; [eapply member_pstep; exact E|eapply member_pstep; exact E|].
    destruct (s_hold (v_st (n_v n j))); [discriminate|]. eapply member_pstep; exact E.
  - destruct (existsb _ _); [|discriminate]. eapply member_pstep; exact E.
  - destruct (existsb _ _); [|discriminate]. eapply member_pstep; exact E.
  - destruct (_ && _)%bool; [|discriminate]. eapply member_pstep; exact E.
  - destruct (_ && _)%bool; [|discriminate]. eapply member_pstep; exact E.
Qed.

Lemma runs_late n evs n' i K : nruns cd ps sg sigok combine hon n evs n' -> late K (v_st (n_v n i)) -> late K (v_st (n_v n' i)).
Proof.
  induction 1 as [|evs n1 e n2 R IH S]; intros L; [exact L|]. destruct (net_pstep n1 e n2 i S) as [->|(e' & ms & E)]; [auto|]. exact (late_step _ _ _ _ _ _ _ _ _ _ (IH L) E).
Qed.

Lemma runs_com n evs n' i k : nruns cd ps sg sigok combine hon n evs n' -> nth k (s_flgCom (v_st (n_v n i))) false = true -> nth k (s_flgCom (v_st (n_v n' i))) false = true.
Proof.
  induction 1 as [|evs n1 e n2 R IH S]; intros L; [exact L|]. destruct (net_pstep n1 e n2 i S) as [->|(e' & ms & E)]; [auto|]. exact (pstep_mono _ _ _ _ _ _ _ _ _ _ E (IH L)).
Qed.
End Net.
