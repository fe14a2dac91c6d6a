(** Headline theorems: a whole handoff, the secret over any number of them (C29), and what a member
    lacks after one (C30). *)

Require Import ZArith List Bool Arith Lia.
From Verif Require Import Prime Fr Bytes CodecModel CodecProofs GoBase Poly PolyModel PolyProofs Biv GroupModel KzgModel KzgProofs.
From Verif Require Import PartyModel PartySpec VssModel VssProofs VssProofs2 BivProofs.
From Verif Require Import ReduceModel ReduceProofs PropertiesVss PropertiesReduce.
From Verif Require Import ProacModel ProacProofs ProacRun ProacSig ProacRecover ProacDist ProacLinks.
From Verif Require Import PropertiesProac PropertiesRefresh PropertiesRuns PropertiesDist.
Import ListNotations.
Local Open Scope F_scope.

Section World.
(** Compression of points, hash of the Prepare messages, their serialization; threshold signatures. *)
Variables (cd : g1codec) (hash : list Z -> list Z) (ser : list (list Z) -> list Z) (parse : list Z -> list (list Z)).
Variables (sign : nat -> list Z) (sigok : nat -> list Z -> bool) (combine : nat -> list (list Z) -> list Z).
Hypothesis HC : codec_ok cd.
Hypothesis HS : forall l, parse (ser l) = l.
Variables N F : nat.
Hypothesis HN : (Z.of_nat N < 2 ^ 32)%Z.

(** ** One handoff, seen by the new member [pid] *)

(** Messages of the old committee: at most F of the senders are corrupted ([bad]); F+1 honest ones
    have arrived; the others satisfy [old]. *)
Definition from_old {M} (old : Party -> Prop) (sends : Party -> M -> Prop) (bad : list Z) (dlvs : list (Z * M)) : Prop :=
  NoDup (map fst dlvs) /\ (length bad <= F)%nat /\
  (forall i m, In (i, m) dlvs -> ~ In i bad -> exists p, old p /\ Z.of_nat (p_PID p) = i /\ sends p m) /\
  (F + 1 <= length (filter (fun d => negb (existsb (Z.eqb (fst d)) bad)) dlvs))%nat.

(** What is assumed of the corrupted ones. *)
Definition no_collision (B : list (list Fr)) (dlvs : list (Z * list Z)) : Prop :=
  forall i d p l, In (i, d) dlvs -> ready N F B p -> PrepareSend cd p = Ret l -> hash d = hash (ser l) -> d = ser l.

Definition reduce_no_forgery (B : list (list Fr)) (p : Party) (bad : list Z) (dlvs : list (Z * ShareReduceMsg)) : Prop :=
  (forall i m, In (i, m) dlvs -> (0 <= i < Z.of_nat N)%Z) /\
  (forall i m, In (i, m) dlvs -> In i bad -> FromCompressedG1 cd (sr_C m) <> None /\ FromCompressedG1 cd (sr_W m) <> None) /\
  forall i m C w v, In (i, m) dlvs -> In i bad -> CommitToPoly (p_KZG p) (secy B (me p)) = Ret C ->
    FromCompressedG1 cd (sr_C m) = Some C -> FromCompressedG1 cd (sr_W m) = Some w ->
    CheckProofSingle (p_KZG p) C w (of_Z (i + 1)) v = Ret true -> v = beval B (of_Z (i + 1)) (me p).

(** A member in the state [p0] takes part in the handoff of the polynomial [B], refreshed to [B'] by the agreed
    dealers J with the polynomials [QB], and [p] is its state when it has completed it.  The old members
    are in states [oldP] when they send Prepare and [oldR] when they send ShareReduce. *)
Definition handoff_from (oldP oldR : Party -> Prop) (B B' : list (list Fr)) (QB : nat -> list (list Fr)) (J : list Z)
    (p0 p : Party) : Prop :=
  exists p1 p2 pdl bad1 rdl bad2 evs st share CQsum devs dt full,
    (* Prepare *)
    from_old oldP (fun q d => exists l, PrepareSend cd q = Ret l /\ d = ser l) bad1 pdl /\ no_collision B pdl /\
    PrepareReceive hash parse cd p0 (map snd pdl) = Ret (Some p1) /\
    (* ShareReduce *)
    from_old oldR (fun q m => exists ms, ShareReduceSend cd q = Ret ms /\ nth_error ms (p_PID p0) = Some m) bad2 rdl /\
    reduce_no_forgery B p1 bad2 rdl /\
    ShareReduceReceive cd p1 rdl = Ret (Some p2) /\
    (* Proactivize *)
    env cd p2 QB evs /\ run_of cd p2 sign sigok combine evs st /\
    (forall j, In j J -> (1 <= j <= Z.of_nat N)%Z /\ nth (Z.to_nat j) (s_flgRec st) false = true) /\
    Refresh p2 st J = Ret (Some (share, CQsum)) /\
    (* ShareDist *)
    dist_no_forgery cd (set_reducedShare p2 share) B' devs /\
    drun cd (set_reducedShare p2 share) CQsum (dist_init N) devs = Ret dt /\ d_share dt = Some full /\
    p = set_fullShare (set_reducedShare p2 share) full.

(** [p] is the state of the new member [pid] when it has completed the handoff (cmd/DyCAPs/main.go:75-99). *)
Definition handoff (old : Party -> Prop) (B B' : list (list Fr)) (QB : nat -> list (list Fr)) (J : list Z)
    (pid : nat) (p : Party) : Prop :=
  exists p0, (pid < N)%nat /\ NewHonestParty N F pid = Ret p0 /\ handoff_from old old B B' QB J p0 p.

(** B' is B plus zero sharings. *)
Definition refreshes (B B' : list (list Fr)) (QB : nat -> list (list Fr)) (J : list Z) : Prop :=
  bdeg F (2 * F) B' /\ (forall k, bdeg F (2 * F) (QB k)) /\
  (forall j, In j J -> beval (QB (Z.to_nat j)) 0 0 = 0) /\
  forall x y, beval B' x y = beval B x y + total QB J x y.

Hypothesis HF : (1 <= F)%nat.
Hypothesis HNF : (3 * F + 1 <= N)%nat.

Lemma N_small : (Z.of_nat (N + 2) <= r)%Z.
Proof. pose proof r_big. lia. Qed.

Lemma refreshes_unique B B' QB J B2 : bdeg F (2 * F) B2 -> refreshes B B' QB J ->
  (forall x y, beval B2 x y = beval B x y + total QB J x y) -> B2 = B'.
Proof.
  intros HB2 (HB' & _ & _ & HT) H2. pose proof N_small.
  apply (biv_unique F (2 * F) _ _ (map of_nat (seq 0 (S F))) (map of_nat (seq 0 (S (2 * F))))); auto.
  - apply big_points. lia.
  - apply big_points. lia.
  - rewrite map_length, seq_length. reflexivity.
  - rewrite map_length, seq_length. reflexivity.
  - intros x y _ _. rewrite H2, HT. reflexivity.
Qed.

Lemma zero_dealer B B' QB J : refreshes B B' QB J -> beval B' 0 0 = beval B 0 0.
Proof.
  intros (_ & _ & HZ & HT). rewrite HT. unfold total. rewrite (map_ext_in _ (fun _ => 0)) by (intros j Hj; apply HZ; exact Hj).
  assert (forall l : list Z, fsum (map (fun _ => 0) l) = 0) as ->; [|ring].
  induction l as [|a l IH]; [reflexivity|]. cbn [map fsum]. rewrite IH. ring.
Qed.

(** What the member has at the end; the commitments in its Proof are the old ones, and its witnesses
    those it had before. *)
Theorem c29_handoff_from : forall (oldP oldR : Party -> Prop) B B' QB J p0 p,
  (forall q, oldP q -> ready N F B q) -> (forall q, oldR q -> ready N F B q) -> bdeg F (2 * F) B -> refreshes B B' QB J ->
  party_wf party_secret p0 -> p_N p0 = N -> p_F p0 = F -> (p_PID p0 < N)%nat ->
  handoff_from oldP oldR B B' QB J p0 p ->
  party_wf party_secret p /\ p_N p = N /\ p_F p = F /\ p_PID p = p_PID p0 /\
  p_reducedShare p = secy B' (me p) /\ p_fullShare p = secx B' (me p) /\ holds_commitments B p /\
  p_witness p = p_witness p0 /\ p_witnessIndexes p = p_witnessIndexes p0.
Proof.
  intros oldP oldR B B' QB J p0 p HOP HOR HB HR W0 N0 F0 Hpid (p1 & p2 & pdl & bad1 & rdl & bad2 & evs & st & share & CQsum & devs & dt & full &
    (D1 & D2 & D3 & D4) & NC & E1 & (R1 & R2 & R3 & R4) & (F1 & F2 & F3) & E2 & HE & RO & HJ & ER & NF & ED & ES & ->).
  pose (pid := p_PID p0). assert (P0 : p_PID p0 = pid) by reflexivity. change (p_PID p0) with pid in Hpid, R3 |- *. clearbody pid.
  destruct (c22_prepare hash ser parse cd N F B p0 bad1 pdl HC HS W0 F0 HB D1 D2) as
    (p1' & E1' & A1 & A2 & A3 & A4 & A5 & A6 & A7 & A8 & A9 & A10 & A11).
  { intros i d Hin Nb. destruct (D3 i d Hin Nb) as (q & Oq & Eq & l & El & Ed). exists q, l. split; [apply HOP; exact Oq|]. auto. }
  { exact NC. }
  { exact D4. }
  rewrite E1 in E1'. apply (f_equal (fun x => match x with Ret (Some a) => a | _ => p1 end)) in E1'. subst p1'.
  assert (W1 : party_wf party_secret p1).
  { unfold party_wf. rewrite A1, A2, A4, A5, A6, A8, A9, A10. exact W0. }
  assert (M1 : me p1 = of_nat (pid + 1)) by (unfold me; rewrite A3, P0; reflexivity).
  destruct (c21_robust cd N F B pid p1 bad2 rdl HC HN Hpid W1 ltac:(congruence) HB F1 R1 R2) as (p2' & E2' & SB).
  { intros i m Hin Nb. destruct (R3 i m Hin Nb) as (q & Oq & Eq & ms & El & Ed). exists q, ms. split; [apply HOR; exact Oq|]. auto. }
  { exact F2. }
  { rewrite <- M1. exact F3. }
  { exact R4. }
  rewrite E2 in E2'. apply (f_equal (fun x => match x with Ret (Some a) => a | _ => p2 end)) in E2'. subst p2'.
  unfold same_but_reduced in SB. rewrite <- M1 in SB. change (me p1) with (me p2) in SB || idtac.
  assert (W2 : party_wf party_secret p2) by (rewrite SB; exact W1).
  assert (N2 : p_N p2 = N) by (rewrite SB; cbn [set_reducedShare p_N]; congruence).
  assert (F2' : p_F p2 = F) by (rewrite SB; cbn [set_reducedShare p_F]; congruence).
  assert (P2 : p_PID p2 = pid) by (rewrite SB; cbn [set_reducedShare p_PID]; congruence).
  assert (M2 : me p2 = me p1) by (unfold me; rewrite P2, A3, P0; reflexivity).
  assert (K2 : p_KZG p2 = p_KZG p1) by (rewrite SB; reflexivity).
  assert (RS2 : p_reducedShare p2 = secy B (me p2)) by (rewrite M2, SB; reflexivity).
  destruct HR as (HB' & HQ & HZ & HT).
  destruct (c23_refresh N F B QB J HB HQ HZ) as (B2 & HB2 & _ & HT2 & RF).
  assert (B2 = B') by (apply (refreshes_unique B B' QB J); unfold refreshes; auto). subst B2.
  destruct (RF cd party_secret p2 sign sigok combine evs st W2 N2 F2' ltac:(lia) RS2 HE RO HJ) as (CQ' & ER' & LC & VC).
  rewrite ER in ER'.
  assert (share = secy B' (me p2)) by (apply (f_equal (fun x => match x with Ret (Some (a, _)) => a | _ => share end)) in ER'; exact ER').
  assert (CQsum = CQ') by (apply (f_equal (fun x => match x with Ret (Some (_, a)) => a | _ => CQsum end)) in ER'; exact ER').
  subst share CQ'. set (p3 := set_reducedShare p2 (secy B' (me p2))) in *.
  assert (HH : holds_commitments B p3).
  { intros j Hj. change (p_F p3) with (p_F p2) in Hj. change (p_KZG p3) with (p_KZG p2). change (p_Proof p3) with (p_Proof p2).
    rewrite K2. replace (p_Proof p2) with (p_Proof p1) by (rewrite SB; reflexivity). apply A11. lia. }
  assert (FS : full = secx B' (me p3)).
  { apply (c28_safe cd p3 B B' CQsum devs dt full); auto; change (p_F p3) with (p_F p2); change (p_N p3) with (p_N p2).
    - rewrite F2'. exact HB.
    - rewrite F2'. exact HB'.
    - split; [change (p_N p3) with (p_N p2); lia|]. intros j C Hj EC. change (p_N p3) with (p_N p2) in Hj. rewrite N2 in Hj. apply VC; assumption.
    - rewrite N2. exact ED. }
  assert (LF : length full = (2 * F + 1)%nat).
  { rewrite FS. unfold secx. rewrite map_length. destruct HB' as (-> & _). lia. }
  split.
  { unfold party_wf in *. cbn [set_fullShare p_F p_KZG p_N p_tab p_Proof p_fullShare p_witness p_witnessIndexes p3 set_reducedShare].
    destruct W2 as (X1 & X2 & X3 & X4 & X5 & X6 & X7 & X8 & X9). repeat (split; [assumption|]). split; [lia|]. split; assumption. }
  split; [exact N2|]. split; [exact F2'|]. split; [exact P2|]. split; [reflexivity|]. split; [exact FS|].
  split; [exact HH|]. cbn [set_fullShare p_witness p_witnessIndexes p3 set_reducedShare]. rewrite SB.
  cbn [set_reducedShare p_witness p_witnessIndexes]. rewrite A8, A9. split; reflexivity.
Qed.

Theorem c29_handoff : forall (old : Party -> Prop) B B' QB J pid p,
  (forall q, old q -> ready N F B q) -> bdeg F (2 * F) B -> refreshes B B' QB J ->
  handoff old B B' QB J pid p ->
  party_wf party_secret p /\ p_N p = N /\ p_F p = F /\ p_PID p = pid /\ (pid < N)%nat /\
  p_reducedShare p = secy B' (me p) /\ p_fullShare p = secx B' (me p) /\ holds_commitments B p /\
  p_witness p = repeat ZeroG1 (2 * F + 1) /\ p_witnessIndexes p = repeat 0 (2 * F + 1).
Proof.
  intros old B B' QB J pid p HO HB HR (p0 & Hpid & E0 & HH).
  destruct (new_party N F pid HF HNF N_small) as (p0' & E0' & W0 & N0 & F0 & P0). rewrite E0 in E0'.
  apply (f_equal (fun x => match x with Ret a => a | _ => p0 end)) in E0'. subst p0'.
  assert (W00 : p_witness p0 = repeat ZeroG1 (2 * F + 1) /\ p_witnessIndexes p0 = repeat 0 (2 * F + 1)).
  { unfold NewHonestParty in E0. apply bind_ret in E0. destruct E0 as (K & _ & E0). apply bind_ret in E0. destruct E0 as (t & _ & E0).
    apply (f_equal (fun x => match x with Ret a => a | _ => p0 end)) in E0. subst p0. split; reflexivity. }
  destruct (c29_handoff_from old old B B' QB J p0 p HO HO HB HR W0 N0 F0 ltac:(lia) HH) as (X1 & X2 & X3 & X4 & X5 & X6 & X7 & X8 & X9).
  destruct W00 as (W1 & W2). rewrite X8, X9, W1, W2. rewrite P0 in X4. repeat (split; [assumption|]). split; reflexivity.
Qed.

(** ** Handoffs exist *)

Lemma pick {M} (P : nat -> M -> Prop) : forall n, (forall i, (i < n)%nat -> exists m, P i m) ->
  exists L : list (Z * M), map fst L = map Z.of_nat (seq 0 n) /\
    forall i m, In (i, m) L -> exists k, i = Z.of_nat k /\ (k < n)%nat /\ P k m.
Proof.
  induction n as [|n IH]; intros H.
  - exists []. split; [reflexivity|]. intros i m [].
  - destruct IH as (L & E & HL); [intros i Hi; apply H; lia|]. destruct (H n) as (m & Hm); [lia|].
    exists (L ++ [(Z.of_nat n, m)]). split.
    + rewrite map_app, E, seq_S, map_app. reflexivity.
    + intros i m' Hin. apply in_app_or in Hin. destruct Hin as [Hin|[Hin|[]]].
      * destruct (HL i m' Hin) as (k & -> & Hk & Pk). exists k. split; [reflexivity|]. split; [lia|exact Pk].
      * apply (f_equal fst) in Hin as E1. apply (f_equal snd) in Hin as E2. cbn [fst snd] in E1, E2. subst.
        exists n. split; [reflexivity|]. split; [lia|exact Hm].
Qed.

Lemma pick_nodup {M} (L : list (Z * M)) n : map fst L = map Z.of_nat (seq 0 n) -> NoDup (map fst L).
Proof.
  intros ->. apply FinFun.Injective_map_NoDup; [intros a b; lia|apply seq_NoDup].
Qed.

Lemma pick_all {M} (L : list (Z * M)) n : map fst L = map Z.of_nat (seq 0 n) ->
  length (filter (fun d => negb (existsb (Z.eqb (fst d)) [])) L) = n.
Proof.
  intros E. cbn [existsb negb]. transitivity (length L).
  - clear E. induction L as [|a L IH]; [reflexivity|]. cbn [filter length]. rewrite IH. reflexivity.
  - rewrite <- (map_length fst L), E, map_length, seq_length. reflexivity.
Qed.

Lemma nodup_fst_eq {A M} (L : list (A * M)) i m m' : NoDup (map fst L) -> In (i, m) L -> In (i, m') L -> m' = m.
Proof.
  induction L as [|(a & b) L IH]; intros ND H H'; [destruct H|]. inversion ND as [|? ? NI ND']; subst.
  assert (K : forall x, In (a, x) L -> False) by (intros x Hx; apply NI; apply (in_map fst) in Hx; exact Hx).
  destruct H as [H|H], H' as [H'|H'].
  - congruence.
  - apply (f_equal fst) in H as E. cbn [fst] in E. subst a. destruct (K _ H').
  - apply (f_equal fst) in H' as E. cbn [fst] in E. subst a. destruct (K _ H).
  - apply IH; assumption.
Qed.

(** If F+1 members of the old committee are there and follow the protocol, every member of the new one can complete. *)
Theorem c29_handoff_from_exists : forall (oldP oldR : Party -> Prop) B B' QB J p0 sg,
  (forall q, oldP q -> ready N F B q) -> (forall i, (i < F + 1)%nat -> exists q, oldP q /\ p_PID q = i) ->
  (forall q, oldR q -> ready N F B q) -> (forall i, (i < F + 1)%nat -> exists q, oldR q /\ p_PID q = i) ->
  bdeg F (2 * F) B -> refreshes B B' QB J -> (forall k, beval (QB k) 0 0 = 0) ->
  NoDup J -> (forall j, In j J -> (1 <= j <= Z.of_nat N)%Z) -> (forall k, sigok k (sg k) = true) ->
  party_wf party_secret p0 -> p_N p0 = N -> p_F p0 = F -> (p_PID p0 < N)%nat ->
  exists p, handoff_from oldP oldR B B' QB J p0 p.
Proof.
  intros oldP oldR B B' QB J p0 sg HOP HAP HOR HAR HB HR HQ0 NJ RJ SG W0 N0 F0 Hpid0.
  remember (p_PID p0) as pid eqn:P0'. assert (P0 : p_PID p0 = pid) by auto. rename Hpid0 into Hpid.
  (* Prepare *)
  destruct (pick (fun i d => exists q l, oldP q /\ p_PID q = i /\ PrepareSend cd q = Ret l /\ d = ser l) (F + 1)) as (pdl & PE & PL).
  { intros i Hi. destruct (HAP i Hi) as (q & Oq & Pq). pose proof (HOP q Oq) as (Wq & _ & _ & _ & Hq & _).
    eexists. exists q. eexists. split; [exact Oq|]. split; [exact Pq|]. split; [|reflexivity].
    apply (prepare_send_correct cd party_secret B q Wq Hq). }
  assert (D1 : from_old oldP (fun q d => exists l, PrepareSend cd q = Ret l /\ d = ser l) [] pdl).
  { split; [eapply pick_nodup; exact PE|]. split; [cbn [length]; lia|]. split.
    - intros i d Hin _. destruct (PL i d Hin) as (k & -> & _ & q & l & Oq & Pq & El & Ed).
      exists q. split; [exact Oq|]. split; [rewrite Pq; reflexivity|]. exists l. auto.
    - rewrite (pick_all _ _ PE). lia. }
  assert (D2 : no_collision B pdl).
  { intros i d p l Hin Rp Ep _. destruct (PL i d Hin) as (k & _ & _ & q & l' & Oq & _ & El & ->).
    pose proof (HOP q Oq) as (Wq & _ & Fq & _ & Hq & _). destruct Rp as (Wp & _ & Fp & _ & Hp & _).
    rewrite (prepare_send_correct cd party_secret B q Wq Hq) in El. rewrite (prepare_send_correct cd party_secret B p Wp Hp) in Ep.
    rewrite Fq in El. rewrite Fp, El in Ep. apply (f_equal (fun x => match x with Ret a => a | _ => [] end)) in Ep. congruence. }
  destruct (c22_prepare hash ser parse cd N F B p0 [] pdl HC HS W0 F0 HB (proj1 D1) (proj1 (proj2 D1))) as
    (p1 & E1 & A1 & A2 & A3 & A4 & A5 & A6 & A7 & A8 & A9 & A10 & A11).
  { intros i d Hin Nb. destruct (proj1 (proj2 (proj2 D1)) i d Hin Nb) as (q & Oq & Eq & l & El & Ed). exists q, l.
    split; [apply HOP; exact Oq|]. auto. }
  { exact D2. }
  { exact (proj2 (proj2 (proj2 D1))). }
  assert (W1 : party_wf party_secret p1).
  { unfold party_wf. rewrite A1, A2, A4, A5, A6, A8, A9, A10. exact W0. }
  assert (M1 : me p1 = of_nat (pid + 1)) by (unfold me; rewrite A3, P0; reflexivity).
  (* ShareReduce *)
  destruct (pick (fun i m => exists q ms, oldR q /\ p_PID q = i /\ ShareReduceSend cd q = Ret ms /\ nth_error ms pid = Some m) (F + 1)) as (rdl & RE & RL).
  { intros i Hi. destruct (HAR i Hi) as (q & Oq & Pq). destruct (ready_send cd N F B q pid (HOR q Oq) Hpid) as (ms & Em & En).
    eexists. exists q, ms. split; [exact Oq|]. split; [exact Pq|]. split; [exact Em|exact En]. }
  assert (R1 : from_old oldR (fun q m => exists ms, ShareReduceSend cd q = Ret ms /\ nth_error ms pid = Some m) [] rdl).
  { split; [eapply pick_nodup; exact RE|]. split; [cbn [length]; lia|]. split.
    - intros i d Hin _. destruct (RL i d Hin) as (k & -> & _ & q & l & Oq & Pq & El & Ed).
      exists q. split; [exact Oq|]. split; [rewrite Pq; reflexivity|]. exists l. auto.
    - rewrite (pick_all _ _ RE). lia. }
  assert (R2 : reduce_no_forgery B p1 [] rdl).
  { split; [|split; [intros ? ? ? []|intros ? ? ? ? ? ? []]]. intros i m Hin. destruct (RL i m Hin) as (k & -> & Hk & _). lia. }
  destruct (c21_robust cd N F B pid p1 [] rdl HC HN Hpid W1 ltac:(congruence) HB (proj1 R2) (proj1 R1) (proj1 (proj2 R1))) as (p2 & E2 & SB).
  { intros i m Hin Nb. destruct (proj1 (proj2 (proj2 R1)) i m Hin Nb) as (q & Oq & Eq & ms & El & Ed). exists q, ms. split; [apply HOR; exact Oq|]. auto. }
  { intros ? ? ? []. }
  { intros ? ? ? ? ? ? []. }
  { exact (proj2 (proj2 (proj2 R1))). }
  unfold same_but_reduced in SB. rewrite <- M1 in SB.
  assert (W2 : party_wf party_secret p2) by (rewrite SB; exact W1).
  assert (N2 : p_N p2 = N) by (rewrite SB; cbn [set_reducedShare p_N]; congruence).
  assert (F2' : p_F p2 = F) by (rewrite SB; cbn [set_reducedShare p_F]; congruence).
  assert (P2 : p_PID p2 = pid) by (rewrite SB; cbn [set_reducedShare p_PID]; congruence).
  assert (M2 : me p2 = me p1) by (unfold me; rewrite P2, A3, P0; reflexivity).
  assert (K2 : p_KZG p2 = p_KZG p1) by (rewrite SB; reflexivity).
  assert (RS2 : p_reducedShare p2 = secy B (me p2)) by (rewrite M2, SB; reflexivity).
  pose proof HR as (HB' & HQ & HZ & HT).
  (* Proactivize *)
  destruct (honest_recovery cd party_secret p2 QB sign sigok combine sg HC W2 ltac:(lia) ltac:(rewrite N2; exact HN)
    ltac:(intros k; rewrite F2'; split; [apply HQ|apply HQ0]) SG (map Z.to_nat J)) as (st & RO & HE & _ & FL & _ & _).
  { apply nodup_map_in; [|exact NJ]. intros a b Ha Hb Eab. pose proof (RJ a Ha). pose proof (RJ b Hb). lia. }
  { intros k Hk. apply in_map_iff in Hk. destruct Hk as (z & <- & Hz). pose proof (RJ z Hz). lia. }
  assert (HJ : forall j, In j J -> (1 <= j <= Z.of_nat N)%Z /\ nth (Z.to_nat j) (s_flgRec st) false = true).
  { intros j Hj. split; [apply RJ; exact Hj|]. apply FL. apply in_map. exact Hj. }
  destruct (c23_refresh N F B QB J HB HQ HZ) as (B2 & HB2 & _ & HT2 & RF).
  assert (B2 = B') by (apply (refreshes_unique B B' QB J); unfold refreshes; auto). subst B2.
  destruct (RF cd party_secret p2 sign sigok combine _ st W2 N2 F2' ltac:(lia) RS2 HE RO HJ) as (CQsum & ER & LC & VC).
  (* ShareDist *)
  set (p3 := set_reducedShare p2 (secy B' (me p2))) in *.
  assert (N3 : p_N p3 = N) by exact N2. assert (F3 : p_F p3 = F) by exact F2'. assert (P3 : p_PID p3 = pid) by exact P2.
  assert (W3 : party_wf party_secret p3) by exact W2. assert (M3 : me p3 = of_nat (pid + 1)) by (change (me p3) with (me p2); congruence).
  assert (HH : holds_commitments B p3).
  { intros j Hj. rewrite F3 in Hj. change (p_KZG p3) with (p_KZG p2). change (p_Proof p3) with (p_Proof p2).
    rewrite K2. replace (p_Proof p2) with (p_Proof p1) by (rewrite SB; reflexivity). apply A11. lia. }
  assert (HU : updates B B' p3 CQsum).
  { split; [rewrite N3; exact LC|]. intros j C Hj EC. rewrite N3 in Hj. apply VC; assumption. }
  set (D := fun i => ToCompressedG1 cd (mkG1 (peval (secx B' party_secret) (of_nat (i + 1))))).
  destruct (pick (fun i m => exists q ms, refreshed p3 B' q /\ p_PID q = i /\ NewCommitSend cd q = Ret (D i) /\ DistributeSend cd q = Ret ms /\
     nth_error ms pid = Some m /\ FromCompressedG1 cd (sd_WB m) <> None /\ sd_B m = FrTo32 (beval B' (me p3) (of_nat (i + 1)))) N) as (sdl & SE & SL).
  { intros i Hi. destruct (new_party N F i HF HNF N_small) as (q0 & _ & Wq0 & Nq & Fq & Pq).
    set (q := set_reducedShare q0 (secy B' (of_nat (i + 1)))).
    assert (Mq : me q = of_nat (i + 1)) by (unfold me, q; cbn [set_reducedShare p_PID]; rewrite Pq; reflexivity).
    pose proof Wq0 as (Q1 & _ & Q3 & _). rewrite Fq in Q1, Q3.
    set (w := fun j => mkG1 (peval (wrow party_secret B' (of_nat j)) (of_nat (i + 1)))).
    exists (mkSD (FrTo32 (EvalPolyAt (secy B' (of_nat (i + 1))) (of_nat (pid + 1)))) (ToCompressedG1 cd (w (pid + 1)%nat))), q,
      (map (fun j => mkSD (FrTo32 (EvalPolyAt (secy B' (of_nat (i + 1))) (of_nat j))) (ToCompressedG1 cd (w j))) (seq 1 N)).
    split; [|split; [exact Pq|split; [|split; [|split; [|split]]]]].
    - unfold refreshed. split; [exact Wq0|]. split; [rewrite N3; exact Nq|]. split; [rewrite F3; exact Fq|].
      split; [change (p_PID q) with (p_PID q0); change (p_N q) with (p_N q0); lia|]. rewrite Mq. reflexivity.
    - unfold NewCommitSend. change (p_KZG q) with (p_KZG q0). cbn [q set_reducedShare p_reducedShare].
      rewrite (commit_section party_secret (F + 1) _ F (2 * F) _ _ Q1 HB') by lia. reflexivity.
    - unfold DistributeSend. change (p_N q) with (p_N q0). change (p_KZG q) with (p_KZG q0). rewrite Nq.
      change (p_reducedShare q) with (secy B' (of_nat (i + 1))). apply gomap_ret. intros j _.
      rewrite (witness_section party_secret (F + 1) _ F (2 * F) _ _ _ Q1 HB') by lia. reflexivity.
    - rewrite nth_error_map, (nth_error_nth' (seq 1 N) O) by (rewrite seq_length; exact Hpid).
      rewrite seq_nth by exact Hpid. cbn [option_map]. rewrite (Nat.add_comm pid 1). reflexivity.
    - cbn [sd_WB]. rewrite (HC _). discriminate.
    - cbn [sd_B]. rewrite EvalPolyAt_correct, M3, peval_secy. reflexivity. }
  set (devs := flat_map (fun d => [DvCommit (Z.to_nat (fst d) + 1) (D (Z.to_nat (fst d))); DvRecv (fst d) (snd d)]) sdl).
  assert (IC : forall j d, In (DvCommit j d) devs -> (1 <= j)%nat /\ d = D (j - 1)%nat).
  { intros j d Hin. apply in_flat_map in Hin. destruct Hin as ((i & m) & _ & [Hin|[Hin|[]]]); [|discriminate].
    cbn [fst] in Hin. assert (E : j = (Z.to_nat i + 1)%nat) by (apply (f_equal (fun x => match x with DvCommit a _ => a | _ => 0%nat end)) in Hin; auto).
    assert (E' : d = D (Z.to_nat i)) by (apply (f_equal (fun x => match x with DvCommit _ a => a | _ => [] end)) in Hin; auto).
    split; [lia|]. rewrite E', E. f_equal. lia. }
  assert (IR : forall i m, In (DvRecv i m) devs -> In (i, m) sdl).
  { intros i m Hin. apply in_flat_map in Hin. destruct Hin as ((i' & m') & Hin & [H|[H|[]]]); [discriminate|].
    cbn [fst snd] in H. assert (i' = i) by (apply (f_equal (fun x => match x with DvRecv a _ => a | _ => i end)) in H; auto).
    assert (m' = m) by (apply (f_equal (fun x => match x with DvRecv _ a => a | _ => m end)) in H; auto). subst. exact Hin. }
  assert (NF : forall g, dist_no_forgery cd p3 B' (devs ++ map DvGo g)).
  { intros g i m w C Hin _. cbv zeta. intros _ _. apply in_app_or in Hin. destruct Hin as [Hin|Hin].
    2:{ apply in_map_iff in Hin. destruct Hin as (? & Hx & _). discriminate. }
    destruct (SL i m (IR i m Hin)) as (k & -> & Hk & q & ms & _ & _ & _ & _ & _ & _ & EB).
    rewrite EB, to32_FrTo32. unfold FrFrom32_into. rewrite FrFrom32_FrTo32.
    rewrite Z.mod_small by lia. replace (Z.of_nat k + 1)%Z with (Z.of_nat (k + 1)) by lia. reflexivity. }
  destruct (c28_runs cd p3 B B' CQsum devs ltac:(rewrite N3; exact HN) W3) as (gos & dt & ED & SD).
  { rewrite F3; exact HB. }
  { rewrite F3; exact HB'. }
  { exact HH. }
  { exact HU. }
  { specialize (NF []). cbn [map] in NF. rewrite app_nil_r in NF. exact NF. }
  { intros j d Hin. destruct (IC j d Hin) as (_ & ->). unfold D. rewrite (HC _). discriminate. }
  { intros i m Hin. destruct (SL i m (IR i m Hin)) as (k & -> & Hk & q & ms & _ & _ & _ & _ & _ & DD & _). rewrite N3. split; [lia|exact DD]. }
  assert (DS : dsenders (devs ++ map DvGo gos) = map fst sdl).
  { unfold dsenders, devs. rewrite flat_map_app. transitivity (map fst sdl ++ []).
    - f_equal.
      + clear. induction sdl as [|a l IH]; [reflexivity|]. cbn [flat_map app map]. rewrite <- IH. reflexivity.
      + clear. induction gos as [|a l IH]; [reflexivity|]. exact IH.
    - apply app_nil_r. }
  assert (AC : Forall (active cd p3 B' (devs ++ map DvGo gos)) (seq 1 (2 * F + 1))).
  { apply Forall_forall. intros j Hj. apply in_seq in Hj. 
    assert (IJ : In (Z.of_nat (j - 1)) (map fst sdl)) by (rewrite SE; apply in_map; apply in_seq; lia).
    apply in_map_iff in IJ. destruct IJ as ((i & m) & Ei & Hin). cbn [fst] in Ei. subst i.
    destruct (SL _ m Hin) as (k & Ek & Hk & q & ms & RQ & PQ & EC & EM & EN & _ & _).
    assert (Ekj : k = (j - 1)%nat) by lia. rewrite Ekj in EC, PQ. clear Ek Ekj Hk k.
    exists q, (D (j - 1)%nat), ms, m. split; [exact RQ|]. split; [lia|]. split; [exact EC|]. split; [exact EM|]. split; [rewrite P3; exact EN|].
    assert (X : In (DvCommit j (D (j - 1)%nat)) devs /\ In (DvRecv (Z.of_nat (j - 1)) m) devs).
    { split; apply in_flat_map; exists (Z.of_nat (j - 1), m); (split; [exact Hin|]); cbn [fst snd]; rewrite Nat2Z.id.
      - replace (j - 1 + 1)%nat with j by lia. left. reflexivity.
      - right. left. reflexivity. }
    split; [apply in_or_app; left; exact (proj1 X)|]. rewrite PQ. split; [apply in_or_app; left; exact (proj2 X)|]. split.
    - intros d Hd. apply in_app_or in Hd. destruct Hd as [Hd|Hd]; [apply (IC j d Hd)|].
      apply in_map_iff in Hd. destruct Hd as (? & Hx & _). discriminate.
    - intros m' Hm. apply in_app_or in Hm. destruct Hm as [Hm|Hm].
      + apply IR in Hm. apply (nodup_fst_eq sdl (Z.of_nat (j - 1))); auto. apply (pick_nodup sdl N SE).
      + apply in_map_iff in Hm. destruct Hm as (? & Hx & _). discriminate. }
  pose proof (c28_complete cd p3 B B' CQsum (devs ++ map DvGo gos) dt (seq 1 (2 * F + 1)) HC ltac:(rewrite N3; exact HN) W3 ltac:(lia)
    ltac:(rewrite F3; exact HB) ltac:(rewrite F3; exact HB') HH HU ltac:(rewrite DS; apply (pick_nodup sdl N SE))
    ltac:(intros i Hi; rewrite DS, SE in Hi; apply in_map_iff in Hi; destruct Hi as (k & <- & Hk); apply in_seq in Hk; lia)
    (NF gos) (seq_NoDup _ _) ltac:(rewrite seq_length, F3; reflexivity) AC ED SD) as FULL.
  exists (set_fullShare p3 (secx B' (me p3))).
  exists p1, p2, pdl, [], rdl, [], (honest_events cd party_secret p2 QB sg (map Z.to_nat J) (p_F p2 + 1)), st, (secy B' (me p2)), CQsum,
    (devs ++ map DvGo gos), dt, (secx B' (me p3)).
  split; [exact D1|]. split; [exact D2|]. split; [exact E1|]. split; [rewrite P0; exact R1|]. split; [exact R2|].
  split; [exact E2|]. split; [exact HE|]. split; [exact RO|]. split; [exact HJ|]. split; [exact ER|]. split; [exact (NF gos)|].
  split; [rewrite <- N3; exact ED|]. split; [exact FULL|reflexivity].
Qed.

Theorem c29_handoff_exists : forall (old : Party -> Prop) B B' QB J pid sg,
  (forall q, old q -> ready N F B q) -> (forall i, (i < F + 1)%nat -> exists q, old q /\ p_PID q = i) ->
  bdeg F (2 * F) B -> refreshes B B' QB J -> (forall k, beval (QB k) 0 0 = 0) ->
  NoDup J -> (forall j, In j J -> (1 <= j <= Z.of_nat N)%Z) -> (forall k, sigok k (sg k) = true) -> (pid < N)%nat ->
  exists p, handoff old B B' QB J pid p.
Proof.
  intros old B B' QB J pid sg HO HA HB HR HQ0 NJ RJ SG Hpid.
  destruct (new_party N F pid HF HNF N_small) as (p0 & E0 & W0 & N0 & F0 & P0).
  destruct (c29_handoff_from_exists old old B B' QB J p0 sg HO HA HO HA HB HR HQ0 NJ RJ SG W0 N0 F0 ltac:(lia)) as (p & HH).
  exists p, p0. auto.
Qed.

(** ** C29: any number of handoffs *)

(** [generation s n B mem]: a client shared [s]; after n handoffs the members [mem] hold the polynomial [B].
    The old members of a handoff are members of the previous generation (or some of them); from the
    second handoff on their commitments and witnesses have been made good by other means ([ready]),
    which the code does not do, see C30. *)
Inductive generation (s : Fr) : nat -> list (list Fr) -> (Party -> Prop) -> Prop :=
| gen_dealt rF rZ ks msgs B :
    length rF = (2 * F + 1)%nat -> length rZ = (2 * F + 1)%nat -> Forall (fun row => length row = (F + 1)%nat) rZ ->
    party_setup F = Ret ks -> Share cd ks N F s rF rZ = Ret msgs ->
    bdeg F (2 * F) B ->
    (forall j, (1 <= j <= 2 * F + 1)%nat -> secy B (of_nat j) = peval (s :: tl rF) (of_nat j) :: tl (nth (j - 1) rZ [])) ->
    generation s 0 B (fun p' => exists i p m, (i < N)%nat /\ NewHonestParty N F i = Ret p /\ nth_error msgs i = Some m /\
      VSSShareReceive cd p m = Ret (true, p'))
| gen_next n B (mem old : Party -> Prop) B' QB J :
    generation s n B mem ->
    (forall q, old q -> exists p, mem p /\ p_PID q = p_PID p /\ p_fullShare q = p_fullShare p /\ (n = 0%nat -> q = p) /\
       (n <> 0%nat -> ready N F B q)) ->
    refreshes B B' QB J ->
    generation s (S n) B' (fun p => exists pid, handoff old B B' QB J pid p).

Lemma dealt_point s rF rZ B : length rF = (2 * F + 1)%nat -> bdeg F (2 * F) B ->
  (forall j, (1 <= j <= 2 * F + 1)%nat -> secy B (of_nat j) = peval (s :: tl rF) (of_nat j) :: tl (nth (j - 1) rZ [])) ->
  beval B 0 0 = s.
Proof.
  intros LF HB H. pose proof N_small.
  assert (E : secx B 0 = s :: tl rF).
  { apply (poly_unique_list (map of_nat (seq 1 (2 * F + 1)))).
    - apply nodup_map_in; [|apply seq_NoDup]. intros a b Ha Hb E. apply in_seq in Ha, Hb. apply of_nat_inj in E; lia.
    - rewrite length_secx. destruct HB as (-> & _). destruct rF; cbn [length tl] in *; lia.
    - rewrite length_secx, map_length, seq_length. destruct HB as (-> & _). lia.
    - intros x Hx. apply in_map_iff in Hx. destruct Hx as (j & <- & Hj). apply in_seq in Hj.
      rewrite peval_secx. transitivity (peval (secy B (of_nat j)) 0); [symmetry; apply peval_secy|].
      rewrite H by lia. cbn [peval]. ring. }
  rewrite <- peval_secx, E. cbn [peval]. ring.
Qed.

Lemma generation_inv s n B mem : generation s n B mem ->
  bdeg F (2 * F) B /\ beval B 0 0 = s /\
  forall p, mem p -> (p_PID p < N)%nat /\ p_fullShare p = secx B (me p) /\ (n = 0%nat -> ready N F B p).
Proof.
  induction 1 as [rF rZ ks msgs B L1 L2 L3 ES EM HB HBr|n B mem old B' QB J G IH HO HR].
  - split; [exact HB|]. split; [exact (dealt_point s rF rZ B L1 HB HBr)|].
    intros p' (i & p & m & Hi & EP & Em & EV).
    destruct (dealt_ready cd N F s rF rZ ks msgs B HC HF HNF N_small L1 L2 L3 ES EM HB HBr i Hi) as (p1 & m1 & p2 & E1 & E2 & E3 & RD).
    rewrite EP in E1. apply (f_equal (fun x => match x with Ret a => a | _ => p end)) in E1. subst p1.
    rewrite Em in E2. apply (f_equal (fun x => match x with Some a => a | _ => m end)) in E2. subst m1.
    rewrite EV in E3. apply (f_equal (fun x => match x with Ret a => snd a | _ => p' end)) in E3. cbn [snd] in E3. subst p2.
    pose proof RD as (_ & RN & _ & RP & (_ & RF & _) & _). split; [exact RP|]. split; [exact RF|]. intros _. exact RD.
  - destruct IH as (HB & H0 & HM).
    assert (HOr : forall q, old q -> ready N F B q).
    { intros q Oq. destruct (HO q Oq) as (p & Mp & _ & _ & Z1 & Z2). destruct (Nat.eq_dec n 0) as [->|Nn]; [|apply Z2; exact Nn].
      rewrite Z1 by reflexivity. apply HM; auto. }
    split; [apply HR|]. split; [rewrite (zero_dealer B B' QB J HR); exact H0|].
    intros p (pid & HH). destruct (c29_handoff old B B' QB J pid p HOr HB HR HH) as (_ & PN & _ & PP & Hp & _ & FS & _).
    split; [lia|]. split; [exact FS|discriminate].
Qed.

Theorem c29_epochs : forall s n B mem, generation s n B mem ->
  forall ps, Forall mem ps -> NoDup (map p_PID ps) -> length ps = (F + 1)%nat ->
  exists q, LagrangeInterpolate F (map (fun p => of_nat (p_PID p + 1)) ps) (map (fun p => EvalPolyAt (p_fullShare p) 0) ps) = Ret q /\
    EvalPolyAt q 0 = s.
Proof.
  intros s n B mem G ps HP ND LP. destruct (generation_inv s n B mem G) as (HB & H0 & HM). pose proof N_small.
  assert (E : map (fun p => EvalPolyAt (p_fullShare p) 0) ps =
    map (fun x => EvalPolyAt (secx B x) 0) (map (fun p => of_nat (p_PID p + 1)) ps)).
  { rewrite map_map. apply map_ext_in. intros p Hp. rewrite Forall_forall in HP. destruct (HM p (HP p Hp)) as (_ & -> & _). reflexivity. }
  rewrite E, <- H0. apply c19_reconstruct_full; auto.
  - rewrite <- (map_map p_PID (fun i => of_nat (i + 1))). apply nodup_map_in; [|exact ND].
    intros a b Ha Hb Eab. apply in_map_iff in Ha, Hb. destruct Ha as (p & <- & Hp), Hb as (q & <- & Hq).
    rewrite Forall_forall in HP. pose proof (proj1 (HM p (HP p Hp))). pose proof (proj1 (HM q (HP q Hq))).
    apply of_nat_inj in Eab; lia.
  - rewrite map_length. exact LP.
Qed.

(** ** C30: the next handoff *)

Lemma lincomb_zero n l : length l = n -> LinCombG1 (repeat ZeroG1 n) l = Ret ZeroG1.
Proof.
  intros L. unfold LinCombG1. rewrite repeat_length, L, Nat.eqb_refl. cbn [negb]. f_equal.
  apply (loop_inv (fun _ o => o = ZeroG1)); [reflexivity|]. intros i o _ ->.
  rewrite nth_repeat.
  apply G1_ext. cbn [AddG1 MulG1 ZeroG1 dlog1]. ring.
Qed.

Lemma stale_tables s B p : party_wf s p -> bdeg (p_F p) (2 * p_F p) B -> holds_commitments B p ->
  p_witness p = repeat ZeroG1 (2 * p_F p + 1) -> p_witnessIndexes p = repeat 0 (2 * p_F p + 1) ->
  exists CB WB, reduce_tables p = Ret (CB, WB) /\
    length CB = (p_N p + 1)%nat /\ length WB = (p_N p + 1)%nat /\
    forall j, (1 <= j <= p_N p)%nat ->
      nth j CB ZeroG1 = mkG1 (peval (secx B s) (of_nat j)) /\ nth j WB ZeroG1 = ZeroG1.
Proof.
  intros (W1 & W2 & W3 & W4 & W5 & W6 & W7 & W8 & W9) HB HCm EW EI.
  unfold reduce_tables. set (N0 := p_N p) in *. set (F0 := p_F p) in *. rewrite EW, EI in *.
  match goal with |- context [bind (goloop 1 _ ?b ?s0) ?c] => set (body1 := b); set (st0 := s0); set (cont := c) end.
  destruct (goloop_inv (fun j (st : list G1 * list G1) => length (fst st) = (N0 + 1)%nat /\
     length (snd st) = (N0 + 1)%nat /\
     forall i, (1 <= i < j)%nat -> nth i (fst st) ZeroG1 = mkG1 (peval (secx B s) (of_nat i)))
     1 (2 * F0 + 1) body1 st0) as (st1 & -> & L1 & L2 & H1).
  - unfold st0. cbn [fst snd]. rewrite !repeat_length. split; [reflexivity|]. split; [reflexivity|]. intros; lia.
  - intros j st Hj (L1 & L2 & H). unfold body1.
    destruct (HCm j ltac:(lia)) as (c & Ec & Cc). unfold idx at 1. rewrite Ec. cbn [bind].
    unfold upd at 1. rewrite (proj2 (Nat.ltb_lt _ _)) by lia. cbn [bind].
    rewrite (idx_nth 0) by (rewrite repeat_length; lia). cbn [bind].
    rewrite (idx_nth ZeroG1) by (rewrite repeat_length; lia). cbn [bind]. rewrite nth_repeat.
    unfold upd_at. rewrite (proj2 (Z.ltb_lt _ _)) by (rewrite L2; change (fv 0) with 0%Z; lia). cbn [bind].
    eexists. split; [reflexivity|]. cbn [fst snd]. rewrite !length_set_nth.
    split; [exact L1|]. split; [exact L2|]. intros i Hi. destruct (Nat.eq_dec i j) as [->|Ne].
    + rewrite nth_set_nth_same by lia.
      rewrite (commit_section s (F0 + 1) (p_KZG p) F0 (2 * F0) B _ W1 HB) in Cc by lia. congruence.
    + rewrite nth_set_nth_other by lia. apply H. lia.
  - cbn [bind]. unfold cont.
    match goal with |- context [goloop 1 N0 ?b _] => set (body2 := b) end.
    destruct (goloop_inv (fun j (st : list G1 * list G1) => length (fst st) = (N0 + 1)%nat /\
       length (snd st) = (N0 + 1)%nat /\
       (forall i, (1 <= i < 2 * F0 + 2)%nat -> nth i (fst st) ZeroG1 = mkG1 (peval (secx B s) (of_nat i))) /\
       (forall i, (1 <= i < j)%nat -> nth i (fst st) ZeroG1 = mkG1 (peval (secx B s) (of_nat i)) /\
          nth i (snd st) ZeroG1 = ZeroG1))
       1 N0 body2 st1) as (st2 & E2 & L3 & L4 & _ & H2).
    + split; [exact L1|]. split; [exact L2|]. split; [intros; apply H1; lia|intros; lia].
    + intros j st Hj (A1 & A2 & A3 & A4). unfold body2.
      assert (SL : slice_to (fst st) (2 * F0 + 2) = Ret (firstn (2 * F0 + 2) (fst st))).
      { unfold slice_to. rewrite (proj2 (Nat.leb_le _ _)) by lia. reflexivity. }
      rewrite SL. cbn [bind].
      assert (TL : tl (firstn (2 * F0 + 2) (fst st)) =
        map (fun j => mkG1 (peval (secx B s) (of_nat j))) (seq 1 (2 * F0 + 1))).
      { apply (list_ext ZeroG1).
        - rewrite map_length, seq_length. destruct (fst st) as [|g l]; [simpl in A1; lia|].
          replace (2 * F0 + 2)%nat with (S (2 * F0 + 1)) by lia. cbn [firstn tl].
          rewrite firstn_length. simpl in A1. lia.
        - intros i Hi.
          assert (Hi2 : (i < 2 * F0 + 1)%nat).
          { destruct (fst st) as [|g l]; [simpl in A1; lia|].
            replace (2 * F0 + 2)%nat with (S (2 * F0 + 1)) in Hi by lia. cbn [firstn tl] in Hi.
            rewrite firstn_length in Hi. lia. }
          rewrite nth_map_seq by lia. rewrite <- A3 by lia.
          destruct (fst st) as [|g l]; [simpl in A1; lia|].
          replace (2 * F0 + 2)%nat with (S (2 * F0 + 1)) by lia. cbn [firstn tl].
          rewrite nth_firstn_lt by lia. reflexivity. }
      rewrite TL.
      rewrite (InterpolateComOrWit_correct F0 (p_tab p) N0 (2 * F0) j (secx B s)); auto; try lia.
      2:{ rewrite length_secx. destruct HB as (-> & _). lia. }
      cbn [bind]. unfold upd at 1. rewrite (proj2 (Nat.ltb_lt _ _)) by lia. cbn [bind].
      assert (EZ : InterpolateComOrWitByKnownIndexes F0 (p_tab p) (2 * F0) j (repeat 0 (2 * F0 + 1)) (repeat ZeroG1 (2 * F0 + 1)) = Ret ZeroG1).
      { unfold InterpolateComOrWitByKnownIndexes.
        assert (forall K m, is_simple K 0 (S m) = (k <- idx K 0 ;; if feqb k (of_nat (0 + 1)) then is_simple K (0 + 1) m else Ret false)) as SI by reflexivity.
        assert (is_simple (repeat 0 (2 * F0 + 1)) 0 (2 * F0 + 1) = Ret false) as ->; [|cbn [bind];
          rewrite GetLagrangeCoefficients_correct by (rewrite repeat_length; reflexivity); cbn [bind];
          apply lincomb_zero; rewrite map_length, seq_length; reflexivity].
        replace (2 * F0 + 1)%nat with (S (2 * F0)) by lia. rewrite SI.
        rewrite (idx_nth 0) by (rewrite repeat_length; lia). cbn [bind]. rewrite nth_repeat.
        destruct (feqb 0 (of_nat (0 + 1))) eqn:EF.
        - exfalso. apply feqb_eq in EF. apply f1_neq_0. symmetry. exact EF.
        - reflexivity. }
      rewrite EZ. cbn [bind]. unfold upd at 1. rewrite (proj2 (Nat.ltb_lt _ _)) by lia. cbn [bind].
      eexists. split; [reflexivity|]. cbn [fst snd]. rewrite !length_set_nth.
      split; [exact A1|]. split; [exact A2|]. split.
      * intros i Hi. destruct (Nat.eq_dec i j) as [->|Ne].
        -- rewrite nth_set_nth_same by lia. reflexivity.
        -- rewrite nth_set_nth_other by lia. apply A3. lia.
      * intros i Hi. destruct (Nat.eq_dec i j) as [->|Ne].
        -- rewrite !nth_set_nth_same by lia. split; reflexivity.
        -- rewrite !nth_set_nth_other by lia. apply A4. lia.
    + exists (fst st2), (snd st2). rewrite E2. split; [destruct st2; reflexivity|].
      split; [exact L3|]. split; [exact L4|]. intros j Hj. apply H2. lia.
Qed.

(** What a member sends to the new member j in the next handoff: the commitment of the polynomial
    before the refresh, the value after it, and no witness. *)
Theorem c30_next_messages : forall (old : Party -> Prop) B B' QB J pid p,
  (forall q, old q -> ready N F B q) -> bdeg F (2 * F) B -> refreshes B B' QB J -> handoff old B B' QB J pid p ->
  exists ms, ShareReduceSend cd p = Ret ms /\ length ms = N /\
    forall j, (j < N)%nat -> exists C, CommitToPoly (p_KZG p) (secy B (of_nat (j + 1))) = Ret C /\
      nth_error ms j = Some (mkSR (ToCompressedG1 cd C) (FrTo32 (beval B' (of_nat (pid + 1)) (of_nat (j + 1)))) (ToCompressedG1 cd ZeroG1)).
Proof.
  intros old B B' QB J pid p HO HB HR HH.
  destruct (c29_handoff old B B' QB J pid p HO HB HR HH) as (W & PN & PF & PP & Hp & _ & FS & HCm & EW & EI).
  rewrite <- PF in EW, EI. destruct (stale_tables party_secret B p W ltac:(rewrite PF; exact HB) HCm EW EI) as (CB & WB & E & L1 & L2 & HT).
  unfold ShareReduceSend. rewrite E. cbn [bind]. eexists. split.
  { apply gomap_ret with (g := fun j => mkSR (ToCompressedG1 cd (mkG1 (peval (secx B party_secret) (of_nat (j + 1)))))
      (FrTo32 (beval B' (of_nat (pid + 1)) (of_nat (j + 1)))) (ToCompressedG1 cd ZeroG1)).
    intros j Hj. apply in_seq in Hj.
    rewrite (idx_nth ZeroG1 CB) by lia. cbn [bind]. rewrite (idx_nth ZeroG1 WB) by lia. cbn [bind].
    destruct (HT (j + 1)%nat ltac:(lia)) as (-> & ->). rewrite EvalPolyAt_correct, FS. unfold me. rewrite PP. reflexivity. }
  split; [rewrite map_length, seq_length; exact PN|]. intros j Hj. pose proof W as (W1 & _). rewrite PF in W1.
  eexists. split; [apply (commit_section party_secret (F + 1) _ F (2 * F) _ _ W1 HB); lia|].
  rewrite nth_error_map, (nth_error_nth' (seq 0 (p_N p)) O) by (rewrite seq_length; lia).
  rewrite seq_nth by lia. reflexivity.
Qed.

(** Such a message is accepted exactly if B(s, j) = B'(i, j), s being the secret of the setup. *)
Theorem c30_accepted_iff : forall B B' pid j q C, setup party_secret (F + 1) = Ret (p_KZG q) -> bdeg F (2 * F) B ->
  CommitToPoly (p_KZG q) (secy B (of_nat (j + 1))) = Ret C ->
  (CheckProofSingle (p_KZG q) C ZeroG1 (of_nat (pid + 1)) (beval B' (of_nat (pid + 1)) (of_nat (j + 1))) = Ret true <->
   beval B party_secret (of_nat (j + 1)) = beval B' (of_nat (pid + 1)) (of_nat (j + 1))).
Proof.
  intros B B' pid j q C HK HB EC. rewrite (check_iff party_secret (F + 1) _ HK) by lia.
  rewrite (commit_section party_secret (F + 1) _ F (2 * F) _ _ HK HB) in EC by lia.
  apply (f_equal (fun x => match x with Ret a => dlog1 a | _ => 0 end)) in EC. rewrite <- EC. cbn [dlog1 ZeroG1]. rewrite peval_secx.
  split; intros H.
  - apply fsub_eq_0. rewrite H. ring.
  - rewrite H. ring.
Qed.

(** Whatever the polynomials, a member that completed a handoff is not ready for another one. *)
Theorem c30_not_ready : forall (old : Party -> Prop) B B' QB J pid p,
  (forall q, old q -> ready N F B q) -> bdeg F (2 * F) B -> refreshes B B' QB J -> handoff old B B' QB J pid p ->
  forall B2, ~ ready N F B2 p.
Proof.
  intros old B B' QB J pid p HO HB HR HH B2 (_ & _ & PF & _ & (_ & _ & _ & _ & ND & _) & _).
  destruct (c29_handoff old B B' QB J pid p HO HB HR HH) as (_ & _ & _ & _ & _ & _ & _ & _ & _ & EI).
  rewrite EI in ND. replace (2 * F + 1)%nat with (S (S (2 * F - 1))) in ND by lia. cbn [repeat] in ND.
  inversion ND as [|? ? NI _]. apply NI. left. reflexivity.
Qed.

Lemma all_rejected : forall q dlvs st, setup party_secret (F + 1) = Ret (p_KZG q) ->
  (forall i m, In (i, m) dlvs -> exists C v, FromCompressedG1 cd (sr_C m) = Some C /\ FromCompressedG1 cd (sr_W m) = Some ZeroG1 /\
     sr_V m = FrTo32 v /\ CheckProofSingle (p_KZG q) C ZeroG1 (of_Z ((i + 1) mod 2 ^ 32)) v = Ret false) ->
  sr_loop cd q st dlvs = Ret None.
Proof.
  intros q dlvs. induction dlvs as [|(i & m) dlvs IH]; intros st HK H; [reflexivity|].
  cbn [sr_loop]. destruct (H i m (or_introl eq_refl)) as (C & v & E1 & E2 & E3 & E4).
  unfold sr_step. unfold ReadG1. rewrite E1. cbn [bind]. rewrite E2. cbn [bind].
  rewrite E3, to32_FrTo32. unfold FrFrom32_into. rewrite FrFrom32_FrTo32, E4. cbn [bind].
  apply IH; [exact HK|]. intros i' m' Hin. apply H. right. exact Hin.
Qed.
End World.

Print Assumptions c29_handoff_from.
Print Assumptions c29_handoff_from_exists.
Print Assumptions c29_handoff.
Print Assumptions c29_handoff_exists.
Print Assumptions c29_epochs.
Print Assumptions c30_next_messages.
Print Assumptions c30_accepted_iff.
Print Assumptions c30_not_ready.

(** The client shares 7 with B(x,y) = 7 + x among 4 members (F = 1); the dealers 1 and 2 refresh with
    x y.  Every new member can complete the handoff; but in the next one their messages are all
    rejected, and the receiver waits for ever. *)
Definition demo_B : list (list Fr) := [[of_Z 7; 1]; [0; 0]; [0; 0]].
Definition demo_B2 : list (list Fr) := [[of_Z 7; 1]; [0; of_Z 2]; [0; 0]].

Lemma demo_refreshes : refreshes 1 demo_B demo_B2 demo_q [1; 2]%Z.
Proof.
  split; [split; [reflexivity|repeat constructor]|]. split; [intros k; split; [reflexivity|repeat constructor]|]. split.
  - intros j _. unfold demo_q. cbn [beval secx map peval]. ring.
  - intros x y. unfold total, demo_q, demo_B, demo_B2, beval. cbn [map fsum secx peval].
    replace (of_Z 2) with (1 + 1) by (apply Fr_ext; reflexivity). ring.
Qed.

Theorem c30_refuted : forall cd hash ser parse sign sigok combine sg, codec_ok cd -> (forall l, parse (ser l) = l) ->
  (forall k, sigok k (sg k) = true) ->
  exists mem0 mem1,
    generation cd hash ser parse sign sigok combine 4 1 (of_Z 7) 0 demo_B mem0 /\
    generation cd hash ser parse sign sigok combine 4 1 (of_Z 7) 1 demo_B2 mem1 /\
    (forall i, (i < 4)%nat -> (exists p, mem0 p /\ p_PID p = i) /\ exists p, mem1 p /\ p_PID p = i) /\
    forall q dlvs, party_wf party_secret q -> p_N q = 4%nat -> p_F q = 1%nat -> (p_PID q < 4)%nat ->
      (forall i m, In (i, m) dlvs -> exists p ms, mem1 p /\ Z.of_nat (p_PID p) = i /\ ShareReduceSend cd p = Ret ms /\
         nth_error ms (p_PID q) = Some m) ->
      ShareReduceReceive cd q dlvs = Ret None.
Proof.
  intros cd hash ser parse sign sigok combine sg HC HS SG.
  assert (HR : (Z.of_nat (4 + 2) <= r)%Z) by (rewrite r_eq; lia).
  destruct (c17_honest_dealer cd 4 1 (of_Z 7) [0; 0; 0] [[0; 1]; [0; 1]; [0; 1]] HC) as (ks & msgs & B0 & EK & EM & _);
    [lia|lia|exact HR|reflexivity|reflexivity|repeat constructor|].
  set (mem0 := fun p' => exists i p m, (i < 4)%nat /\ NewHonestParty 4 1 i = Ret p /\ nth_error msgs i = Some m /\
      VSSShareReceive cd p m = Ret (true, p')).
  assert (HB : bdeg 1 (2 * 1) demo_B) by (split; [reflexivity|repeat constructor]).
  assert (HBr : forall j, (1 <= j <= 2 * 1 + 1)%nat -> secy demo_B (of_nat j) =
    peval (of_Z 7 :: tl [0; 0; 0]) (of_nat j) :: tl (nth (j - 1) [[0; 1]; [0; 1]; [0; 1]] [])).
  { intros j Hj. assert (nth (j - 1) [[0; 1]; [0; 1]; [0; 1]] [] = [0; 1]) as ->
      by (destruct j as [|[|[|[|j]]]]; [lia|reflexivity|reflexivity|reflexivity|lia]).
    unfold secy, demo_B. cbn [map peval padd pscale tl]. f_equal; [ring|]. f_equal. ring. }
  pose proof (gen_dealt cd hash ser parse sign sigok combine 4 1 (of_Z 7) [0; 0; 0] [[0; 1]; [0; 1]; [0; 1]] ks msgs demo_B
    eq_refl eq_refl ltac:(repeat constructor) EK EM HB HBr) as G0. fold mem0 in G0.
  pose proof (generation_inv cd hash ser parse sign sigok combine HC HS 4 1 ltac:(reflexivity) ltac:(lia) ltac:(lia) _ _ _ _ G0) as (_ & _ & M0).
  assert (R0 : forall q, mem0 q -> ready 4 1 demo_B q) by (intros q Hq; apply M0; auto).
  assert (A0 : forall i, (i < 4)%nat -> exists q, mem0 q /\ p_PID q = i).
  { intros i Hi.
    destruct (dealt_ready cd 4 1 (of_Z 7) [0; 0; 0] [[0; 1]; [0; 1]; [0; 1]] ks msgs demo_B HC ltac:(lia) ltac:(lia) HR eq_refl eq_refl
      ltac:(repeat constructor) EK EM HB HBr i Hi) as (p & m & p' & E1 & E2 & E3 & _).
    exists p'. split; [exists i, p, m; auto|].
    destruct (new_party 4 1 i) as (p1 & EP1 & WP & _ & _ & PI); try lia.
    rewrite E1 in EP1. apply (f_equal (fun x => match x with Ret a => a | _ => p end)) in EP1. subst p1.
    destruct (accept_inv party_secret cd p m p' WP E3) as (_ & _ & _ & _ & PI' & _). congruence. }
  set (mem1 := fun p => exists pid, handoff cd hash ser parse sign sigok combine 4 1 mem0 demo_B demo_B2 demo_q [1; 2]%Z pid p).
  assert (G1 : generation cd hash ser parse sign sigok combine 4 1 (of_Z 7) 1 demo_B2 mem1).
  { apply gen_next with (mem := mem0); [exact G0| |exact demo_refreshes].
    intros q Hq. exists q. split; [exact Hq|]. split; [reflexivity|]. split; [reflexivity|]. split; [reflexivity|]. intros K. lia. }
  assert (M1 : forall p, mem1 p -> exists pid, handoff cd hash ser parse sign sigok combine 4 1 mem0 demo_B demo_B2 demo_q [1; 2]%Z pid p /\ p_PID p = pid /\ (pid < 4)%nat).
  { intros p (pid & HH). exists pid. split; [exact HH|].
    destruct (c29_handoff cd hash ser parse sign sigok combine HC HS 4 1 ltac:(reflexivity) ltac:(lia) ltac:(lia) mem0 demo_B demo_B2 demo_q _ pid p R0 HB demo_refreshes HH)
      as (_ & _ & _ & PP & Hp & _). auto. }
  exists mem0, mem1. split; [exact G0|]. split; [exact G1|]. split.
  - intros i Hi. split; [apply A0; exact Hi|].
    destruct (c29_handoff_exists cd hash ser parse sign sigok combine HC HS 4 1 ltac:(reflexivity) ltac:(lia) ltac:(lia) mem0 demo_B demo_B2 demo_q [1; 2]%Z i sg
      R0 ltac:(intros k Hk; apply A0; lia) HB demo_refreshes) as (p & HH).
    + intros k. unfold demo_q, beval. cbn [secx map peval]. ring.
    + repeat constructor; simpl; lia.
    + intros j Hj. simpl in Hj. lia.
    + exact SG.
    + exact Hi.
    + exists p. split; [exists i; exact HH|]. destruct (M1 p ltac:(exists i; exact HH)) as (pid' & HH' & PP & _).
      destruct (c29_handoff cd hash ser parse sign sigok combine HC HS 4 1 ltac:(reflexivity) ltac:(lia) ltac:(lia) mem0 demo_B demo_B2 demo_q _ i p R0 HB demo_refreshes HH)
      as (_ & _ & _ & PP2 & _). exact PP2.
  - intros q dlvs WQ QN QF QP HD. unfold ShareReduceReceive.
    pose proof WQ as (K1 & _). rewrite QF in K1.
    rewrite (all_rejected cd 1); [reflexivity|exact K1|].
    intros i m Hin. destruct (HD i m Hin) as (p & ms & Mp & Ei & ES & EN). destruct (M1 p Mp) as (pid & HH & PP & Hp).
    destruct (c30_next_messages cd hash ser parse sign sigok combine HC HS 4 1 ltac:(reflexivity) ltac:(lia) ltac:(lia) mem0 demo_B demo_B2 demo_q _ pid p R0 HB demo_refreshes HH)
      as (ms' & ES' & _ & HM). rewrite ES in ES'. apply (f_equal (fun x => match x with Ret a => a | _ => ms end)) in ES'. subst ms'.
    destruct (HM (p_PID q) QP) as (C & EC & EN'). rewrite EN in EN'. apply (f_equal (fun x => match x with Some a => a | _ => m end)) in EN'. subst m.
    cbn [sr_C sr_V sr_W].
    assert (KE : p_KZG p = p_KZG q).
    { destruct (c29_handoff cd hash ser parse sign sigok combine HC HS 4 1 ltac:(reflexivity) ltac:(lia) ltac:(lia) mem0 demo_B demo_B2 demo_q _ pid p R0 HB demo_refreshes HH)
        as ((K2 & _) & _ & PF & _). rewrite PF in K2. rewrite K1 in K2. apply (f_equal (fun x => match x with Ret a => a | _ => p_KZG q end)) in K2. symmetry. exact K2. }
    rewrite KE in EC. eexists. eexists. split; [apply HC|]. split; [apply HC|]. split; [reflexivity|].
    assert (EX : of_Z ((i + 1) mod 2 ^ 32) = of_nat (pid + 1)).
    { unfold of_nat. rewrite Z.mod_small; [|change (2 ^ 32)%Z with 4294967296%Z; lia]. apply f_equal. lia. }
    rewrite EX.
    pose proof (c30_accepted_iff 4 1 ltac:(lia) ltac:(lia) demo_B demo_B2 pid (p_PID q) q C K1 HB EC) as IFF.
    rewrite (check_correct party_secret 2 _ K1) in IFF |- * by lia.
    match goal with |- Ret ?b = _ => destruct b; [exfalso|reflexivity] end.
    pose proof (proj1 IFF eq_refl) as EQ. clear IFF.
    apply (secret_not_small ((pid + 1) * (1 + 2 * (p_PID q + 1)))).
    { assert (((pid + 1) * (1 + 2 * (p_PID q + 1)) <= 4 * 9)%nat) by (apply Nat.mul_le_mono; lia). lia. }
    assert (forall a b, of_nat (a * b) = of_nat a * of_nat b) as of_nat_mul by (intros; unfold of_nat; rewrite Nat2Z.inj_mul; apply of_Z_mul).
    assert (forall a b, of_nat (a + b) = of_nat a + of_nat b) as of_nat_add by (intros; unfold of_nat; rewrite Nat2Z.inj_add; apply of_Z_add).
    rewrite of_nat_mul, (of_nat_add 1%nat), of_nat_mul. unfold demo_B, demo_B2, beval in EQ. cbn [secx map peval] in EQ.
    change (of_nat 2) with (of_Z 2). change (of_nat 1) with 1.
    apply (proj1 (fsub_eq_0 _ _)). apply (proj2 (fsub_eq_0 _ _)) in EQ. rewrite <- EQ. ring.
Qed.
Print Assumptions c30_refuted.

(** ** C53: such executions exist *)
Example c53_example : exists p st, NewHonestParty 4 1 2 = Ret p /\ (1 <= p_F p)%nat /\ (0 <= 3 < Z.of_nat (p_N p))%Z /\
  drun demo_codec p (repeat ZeroG1 5) (dist_init (p_N p)) (repeat (DvRecv 3 (mkSD [] [])) (p_N p) ++ [DvRecv 1 (mkSD [5%Z] [])]) = Ret st /\
  d_share st = None.
Proof.
  destruct (new_party 4 1 2) as (p & EP & WP & PN & PF & PI); [lia|lia|rewrite r_eq; lia|]. exists p.
  rewrite PN, PF. eexists. split; [exact EP|]. split; [lia|]. split; [lia|].
  cbn [repeat app drun gofold dstep]. unfold drun, dist_init. cbn [gofold dstep repeat app]. unfold d_recv. rewrite PN.
  cbn [d_free d_ncDone d_SCom d_token d_wait d_SB d_share]. cbn. split; reflexivity.
Qed.
