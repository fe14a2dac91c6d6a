(** Headline theorems: a committee that hands over to itself (C63), role "onlyOneCommittee" of
    /repo/cmd/DyCAPs/main.go:112-162. *)

Require Import ZArith List Bool Arith Lia.
From Verif Require Import Prime Fr Bytes CodecModel CodecProofs GoBase Poly PolyModel PolyProofs Biv GroupModel KzgModel KzgProofs.
From Verif Require Import PartyModel PartySpec VssModel VssProofs VssProofs2 BivProofs.
From Verif Require Import ReduceModel ReduceProofs PropertiesVss PropertiesReduce.
From Verif Require Import ProacModel ProacProofs ProacRun ProacSig ProacRecover ProacDist ProacLinks.
From Verif Require Import PropertiesProac PropertiesRefresh PropertiesRuns PropertiesDist PropertiesEpoch.
Import ListNotations.
Local Open Scope F_scope.

Section One.
Variables (cd : g1codec) (hash : list Z -> list Z) (ser : list (list Z) -> list Z) (parse : list Z -> list (list Z)).
Variables (sign : nat -> list Z) (sigok : nat -> list Z -> bool) (combine : nat -> list (list Z) -> list Z).
Hypothesis HC : codec_ok cd.
Hypothesis HS : forall l, parse (ser l) = l.
Variables N F : nat.
Hypothesis HN : (Z.of_nat N < 2 ^ 32)%Z.
Hypothesis HF : (1 <= F)%nat.
Hypothesis HNF : (3 * F + 1 <= N)%nat.

(** The client's dealing of the secret [s] with the random polynomials rF and rZ, which is the polynomial [B]. *)
Definition dealing (s : Fr) (rF : list Fr) (rZ : list (list Fr)) (msgs : list VSSSendMsg) (B : list (list Fr)) : Prop :=
  length rF = (2 * F + 1)%nat /\ length rZ = (2 * F + 1)%nat /\ Forall (fun row => length row = (F + 1)%nat) rZ /\
  (exists ks, party_setup F = Ret ks /\ Share cd ks N F s rF rZ = Ret msgs) /\ bdeg F (2 * F) B /\
  (forall j, (1 <= j <= 2 * F + 1)%nat -> secy B (of_nat j) = peval (s :: tl rF) (of_nat j) :: tl (nth (j - 1) rZ [])).

(** main.go:125-134: a member that has received the dealing. *)
Definition dealt (msgs : list VSSSendMsg) (p' : Party) : Prop :=
  exists i p m, (i < N)%nat /\ NewHonestParty N F i = Ret p /\ nth_error msgs i = Some m /\ VSSShareReceive cd p m = Ret (true, p').

(** main.go:138-141: the same member after PrepareSend and PrepareReceive; the members it hears from are of the same
    committee, and at most F of them are corrupted. *)
Definition prepared (msgs : list VSSSendMsg) (B : list (list Fr)) (p' : Party) : Prop :=
  exists p bad pdl, dealt msgs p /\
    from_old F (dealt msgs) (fun q d => exists l, PrepareSend cd q = Ret l /\ d = ser l) bad pdl /\
    no_collision cd hash ser N F B pdl /\ PrepareReceive hash parse cd p (map snd pdl) = Ret (Some p').

(** main.go:138-156: the whole handoff.  ShareReduceSend is called after PrepareReceive here. *)
Definition own_handoff (msgs : list VSSSendMsg) (B B' : list (list Fr)) (QB : nat -> list (list Fr)) (J : list Z) (p : Party) : Prop :=
  exists p0, dealt msgs p0 /\
    handoff_from cd hash ser parse sign sigok combine N F (dealt msgs) (prepared msgs B) B B' QB J p0 p.

Lemma small : (Z.of_nat (N + 2) <= r)%Z.
Proof. pose proof r_big. lia. Qed.

Lemma dealt_is_ready s rF rZ msgs B p : dealing s rF rZ msgs B -> dealt msgs p -> ready N F B p.
Proof.
  intros (L1 & L2 & L3 & (ks & ES & EM) & HB & HBr) (i & p0 & m & Hi & E0 & Em & EV).
  destruct (dealt_ready cd N F s rF rZ ks msgs B HC HF HNF small L1 L2 L3 ES EM HB HBr i Hi) as (p1 & m1 & p2 & E1 & E2 & E3 & RD).
  rewrite E0 in E1. apply (f_equal (fun x => match x with Ret a => a | _ => p1 end)) in E1. subst p1.
  rewrite Em in E2. apply (f_equal (fun x => match x with Some a => a | _ => m end)) in E2. subst m1.
  rewrite EV in E3. apply (f_equal (fun x => match x with Ret a => snd a | _ => p end)) in E3. cbn [snd] in E3. subst p2. exact RD.
Qed.

Lemma dealt_exists s rF rZ msgs B i : dealing s rF rZ msgs B -> (i < N)%nat -> exists p, dealt msgs p /\ p_PID p = i.
Proof.
  intros (L1 & L2 & L3 & (ks & ES & EM) & HB & HBr) Hi.
  destruct (dealt_ready cd N F s rF rZ ks msgs B HC HF HNF small L1 L2 L3 ES EM HB HBr i Hi) as (p1 & m1 & p2 & E1 & E2 & E3 & RD).
  exists p2. split; [exists i, p1, m1; auto|].
  destruct (new_party N F i HF HNF small) as (p1' & E1' & W1 & _ & _ & P1). rewrite E1 in E1'.
  apply (f_equal (fun x => match x with Ret a => a | _ => p1 end)) in E1'. subst p1'.
  destruct (accept_inv party_secret cd p1 _ p2 W1 E3) as (pm & _ & A). rewrite <- P1. tauto.
Qed.

(** Receiving Prepare does not take away what a member needs for sending. *)
Lemma prepared_keeps B p p' bad pdl (old : Party -> Prop) : (forall q, old q -> ready N F B q) -> ready N F B p ->
  from_old F old (fun q d => exists l, PrepareSend cd q = Ret l /\ d = ser l) bad pdl ->
  no_collision cd hash ser N F B pdl -> PrepareReceive hash parse cd p (map snd pdl) = Ret (Some p') -> ready N F B p' /\ p_PID p' = p_PID p.
Proof.
  intros HO (W & PN & PF & PP & (HB & HH2 & HH3 & HH4 & HH5 & HH6) & HI) (D1 & D2 & D3 & D4) NC E. rewrite PF in HB.
  destruct (c22_prepare hash ser parse cd N F B p bad pdl HC HS W PF HB D1 D2) as
    (p1' & E1' & A1 & A2 & A3 & A4 & A5 & A6 & A7 & A8 & A9 & A10 & A11).
  { intros i d Hin Nb. destruct (D3 i d Hin Nb) as (q & Oq & Eq & l & El & Ed). exists q, l. split; [apply HO; exact Oq|]. auto. }
  { exact NC. }
  { exact D4. }
  rewrite E in E1'. apply (f_equal (fun x => match x with Ret (Some a) => a | _ => p' end)) in E1'. subst p1'.
  split; [|exact A3]. split; [unfold party_wf; rewrite A1, A2, A4, A5, A6, A8, A9, A10; exact W|].
  split; [congruence|]. split; [congruence|]. split; [congruence|]. split; [|rewrite A9; exact HI].
  unfold holds_full_share. rewrite A2, A3, A6, A8, A9. rewrite PF. split; [exact HB|]. split; [exact HH2|]. split.
  - intros j Hj. apply A11. exact Hj.
  - rewrite PF in HH4. rewrite A4. auto.
Qed.

Lemma prepared_is_ready s rF rZ msgs B p : dealing s rF rZ msgs B -> prepared msgs B p -> ready N F B p.
Proof.
  intros D (q & bad & pdl & Dq & FO & NC & E).
  apply (prepared_keeps B q p bad pdl (dealt msgs)); auto; [intros x Hx|]; eapply dealt_is_ready; eauto.
Qed.

(** ** C63 *)

(** What a member has in the end: its share of the refreshed polynomial. *)
Theorem c63_shares : forall s rF rZ msgs B B' QB J p, dealing s rF rZ msgs B -> refreshes F B B' QB J ->
  own_handoff msgs B B' QB J p ->
  (p_PID p < N)%nat /\ p_fullShare p = secx B' (of_nat (p_PID p + 1)) /\ p_reducedShare p = secy B' (of_nat (p_PID p + 1)).
Proof.
  intros s rF rZ msgs B B' QB J p D HR (p0 & D0 & HH). pose proof (dealt_is_ready _ _ _ _ _ _ D D0) as (W & PN & PF & PP & _).
  pose proof D as (_ & _ & _ & _ & HB & _).
  destruct (c29_handoff_from cd hash ser parse sign sigok combine HC HS N F HN HF HNF (dealt msgs) (prepared msgs B) B B' QB J p0 p)
    as (_ & X2 & _ & X4 & X5 & X6 & _); auto.
  - intros q Hq. eapply dealt_is_ready; eauto.
  - intros q Hq. eapply prepared_is_ready; eauto.
  - unfold me in X5, X6. split; [lia|]. split; assumption.
Qed.

(** Any F+1 members still have the client's secret. *)
Theorem c63_secret : forall s rF rZ msgs B B' QB J ps, dealing s rF rZ msgs B -> refreshes F B B' QB J ->
  Forall (own_handoff msgs B B' QB J) ps -> NoDup (map p_PID ps) -> length ps = (F + 1)%nat ->
  exists q, LagrangeInterpolate F (map (fun p => of_nat (p_PID p + 1)) ps) (map (fun p => EvalPolyAt (p_fullShare p) 0) ps) = Ret q /\
    EvalPolyAt q 0 = s.
Proof.
  intros s rF rZ msgs B B' QB J ps D HR HP ND LP.
  assert (HM : forall p, In p ps -> (p_PID p < N)%nat /\ p_fullShare p = secx B' (of_nat (p_PID p + 1))).
  { intros p Hp. rewrite Forall_forall in HP. destruct (c63_shares s rF rZ msgs B B' QB J p D HR (HP p Hp)) as (X1 & X2 & _). auto. }
  pose proof D as (L1 & _ & _ & _ & HB & HBr).
  assert (H0 : beval B' 0 0 = s).
  { rewrite (zero_dealer F B B' QB J HR). eapply dealt_point; eauto. }
  assert (E : map (fun p => EvalPolyAt (p_fullShare p) 0) ps =
    map (fun x => EvalPolyAt (secx B' x) 0) (map (fun p => of_nat (p_PID p + 1)) ps)).
  { rewrite map_map. apply map_ext_in. intros p Hp. destruct (HM p Hp) as (_ & ->). reflexivity. }
  rewrite E, <- H0. apply c19_reconstruct_full; auto.
  - apply HR.
  - rewrite <- (map_map p_PID (fun i => of_nat (i + 1))). apply nodup_map_in; [|exact ND].
    intros a b Ha Hb Eab. apply in_map_iff in Ha, Hb. destruct Ha as (p & <- & Hp), Hb as (q & <- & Hq).
    pose proof (proj1 (HM p Hp)). pose proof (proj1 (HM q Hq)). pose proof small. apply of_nat_inj in Eab; lia.
  - rewrite map_length. exact LP.
Qed.

(** Every member can complete. *)
Theorem c63_exists : forall s rF rZ msgs B B' QB J sg i, dealing s rF rZ msgs B -> refreshes F B B' QB J ->
  (forall k, beval (QB k) 0 0 = 0) -> NoDup J -> (forall j, In j J -> (1 <= j <= Z.of_nat N)%Z) -> (forall k, sigok k (sg k) = true) ->
  (i < N)%nat -> exists p, own_handoff msgs B B' QB J p /\ p_PID p = i.
Proof.
  intros s rF rZ msgs B B' QB J sg i D HR HQ0 NJ RJ SG Hi. pose proof D as (_ & _ & _ & _ & HB & _).
  assert (RD : forall q, dealt msgs q -> ready N F B q) by (intros q Hq; eapply dealt_is_ready; eauto).
  (* the Prepare messages of the members 0..F *)
  destruct (pick N F HF HNF (fun i d => exists q l, dealt msgs q /\ p_PID q = i /\ PrepareSend cd q = Ret l /\ d = ser l) (F + 1)) as (pdl & PE & PL).
  { intros k Hk. destruct (dealt_exists s rF rZ msgs B k D) as (q & Dq & Pq); [lia|]. pose proof (RD q Dq) as (Wq & _ & _ & _ & Hq & _).
    eexists. exists q. eexists. split; [exact Dq|]. split; [exact Pq|]. split; [|reflexivity].
    apply (prepare_send_correct cd party_secret B q Wq Hq). }
  assert (D1 : from_old F (dealt msgs) (fun q d => exists l, PrepareSend cd q = Ret l /\ d = ser l) [] pdl).
  { split; [eapply pick_nodup; eauto|]. split; [cbn [length]; lia|]. split.
    - intros k d Hin _. destruct (PL k d Hin) as (k' & -> & _ & q & l & Oq & Pq & El & Ed).
      exists q. split; [exact Oq|]. split; [rewrite Pq; reflexivity|]. exists l. auto.
    - rewrite (pick_all _ _ PE). lia. }
  assert (D2 : no_collision cd hash ser N F B pdl).
  { intros k d p l Hin Rp Ep _. destruct (PL k d Hin) as (k' & _ & _ & q & l' & Oq & _ & El & ->).
    pose proof (RD q Oq) as (Wq & _ & Fq & _ & Hq & _). destruct Rp as (Wp & _ & Fp & _ & Hp & _).
    rewrite (prepare_send_correct cd party_secret B q Wq Hq) in El. rewrite (prepare_send_correct cd party_secret B p Wp Hp) in Ep.
    rewrite Fq in El. rewrite Fp, El in Ep. apply (f_equal (fun x => match x with Ret a => a | _ => [] end)) in Ep. congruence. }
  assert (PX : forall k, (k < F + 1)%nat -> exists q, prepared msgs B q /\ p_PID q = k).
  { intros k Hk. destruct (dealt_exists s rF rZ msgs B k D) as (q & Dq & Pq); [lia|]. pose proof (RD q Dq) as (Wq & _ & Fq & _).
    destruct (c22_prepare hash ser parse cd N F B q [] pdl HC HS Wq Fq HB (proj1 D1) (proj1 (proj2 D1))) as (q' & E1 & _ & _ & A3 & _).
    { intros a d Hin Nb. destruct (proj1 (proj2 (proj2 D1)) a d Hin Nb) as (x & Ox & Ex & l & El & Ed). exists x, l.
      split; [apply RD; exact Ox|]. auto. }
    { exact D2. }
    { exact (proj2 (proj2 (proj2 D1))). }
    exists q'. split; [|congruence]. exists q, [], pdl. auto. }
  destruct (dealt_exists s rF rZ msgs B i D Hi) as (p0 & Dp & Pp). pose proof (RD p0 Dp) as (W0 & N0 & F0 & P0 & _).
  destruct (c29_handoff_from_exists cd hash ser parse sign sigok combine HC HS N F HN HF HNF (dealt msgs) (prepared msgs B) B B' QB J p0 sg)
    as (p & HH); auto.
  - intros k Hk. apply (dealt_exists s rF rZ msgs B k D). lia.
  - intros q Hq. eapply prepared_is_ready; eauto.
  - exists p. split; [exists p0; auto|].
    destruct (c29_handoff_from cd hash ser parse sign sigok combine HC HS N F HN HF HNF (dealt msgs) (prepared msgs B) B B' QB J p0 p)
      as (_ & _ & _ & X4 & _); auto; [|congruence].
    intros q Hq. eapply prepared_is_ready; eauto.
Qed.

(** The same member in a further handoff: its commitments and witnesses are still those of the dealing, so its
    message to member j is accepted exactly if the refreshing has not changed the value at (i, j). *)
Theorem c63_next : forall s rF rZ msgs B B' QB J p j, dealing s rF rZ msgs B -> refreshes F B B' QB J ->
  own_handoff msgs B B' QB J p -> (j < N)%nat ->
  exists ms m C w, ShareReduceSend cd p = Ret ms /\ nth_error ms j = Some m /\
    FromCompressedG1 cd (sr_C m) = Some C /\ FromCompressedG1 cd (sr_W m) = Some w /\
    CommitToPoly (p_KZG p) (secy B (of_nat (j + 1))) = Ret C /\
    sr_V m = FrTo32 (beval B' (of_nat (p_PID p + 1)) (of_nat (j + 1))) /\
    forall K, setup party_secret (F + 1) = Ret K ->
      (CheckProofSingle K C w (of_nat (p_PID p + 1)) (beval B' (of_nat (p_PID p + 1)) (of_nat (j + 1))) = Ret true <->
       beval B' (of_nat (p_PID p + 1)) (of_nat (j + 1)) = beval B (of_nat (p_PID p + 1)) (of_nat (j + 1))).
Proof.
  intros s rF rZ msgs B B' QB J p j D HR (p0 & D0 & HH) Hj. pose proof (dealt_is_ready _ _ _ _ _ _ D D0) as R0.
  pose proof D as (_ & _ & _ & _ & HB & _).
  assert (X : party_wf party_secret p /\ p_N p = N /\ p_F p = F /\ p_PID p = p_PID p0 /\
    p_reducedShare p = secy B' (me p) /\ p_fullShare p = secx B' (me p) /\ holds_commitments B p /\
    p_witness p = p_witness p0 /\ p_witnessIndexes p = p_witnessIndexes p0).
  { destruct R0 as (W & PN & PF & PP & _).
    apply (c29_handoff_from cd hash ser parse sign sigok combine HC HS N F HN HF HNF (dealt msgs) (prepared msgs B) B B' QB J p0 p); auto.
    - intros q Hq. eapply dealt_is_ready; eauto.
    - intros q Hq. eapply prepared_is_ready; eauto. }
  destruct X as (W & PN & PF & PP & _ & FS & HCm & WI & WX). destruct R0 as (W0 & N0 & F0 & P0 & (_ & _ & _ & H4 & H5 & H6) & HI).
  assert (KK : p_KZG p = p_KZG p0).
  { destruct W as (K1 & _), W0 as (K2 & _). rewrite PF in K1. rewrite F0, K1 in K2.
    apply (f_equal (fun x => match x with Ret a => a | _ => p_KZG p end)) in K2. exact K2. }
  (* with the old value the message would be right *)
  set (q := set_fullShare p (secx B (of_nat (p_PID p + 1)))).
  assert (RQ : ready N F B q).
  { split; [|split; [exact PN|split; [exact PF|split; [cbn [q set_fullShare p_PID]; lia|split]]]].
    - destruct W as (X1 & X2 & X3 & X4 & X5 & X6 & X7 & X8 & X9). unfold party_wf.
      cbn [q set_fullShare p_F p_KZG p_N p_tab p_Proof p_fullShare p_witness p_witnessIndexes].
      repeat (split; [assumption|]). split; [|split; assumption]. rewrite length_secx, PF. destruct HB as (-> & _). lia.
    - unfold holds_full_share. cbn [q set_fullShare p_F p_KZG p_N p_PID p_tab p_Proof p_fullShare p_witness p_witnessIndexes].
      split; [rewrite PF; exact HB|]. split; [reflexivity|]. split; [exact HCm|]. rewrite WX, WI, KK, PP, PF. rewrite F0 in H4. auto.
    - cbn [q set_fullShare p_witnessIndexes]. rewrite WX. exact HI. }
  destruct (ready_send cd N F B q j RQ Hj) as (mq & Eq & Enq). change (p_PID q) with (p_PID p) in Enq.
  unfold ShareReduceSend in Eq |- *. change (reduce_tables q) with (reduce_tables p) in Eq.
  apply bind_ret in Eq. destruct Eq as ((CB & WB) & ET & Eq). rewrite ET. cbn [bind]. change (p_N q) with (p_N p) in Eq.
  assert (G : exists ms, gomap (fun j => let polyValue := EvalPolyAt (p_fullShare p) (of_nat (j + 1)) in
      c <- idx CB (j + 1) ;; w <- idx WB (j + 1) ;;
      Ret (mkSR (ToCompressedG1 cd c) (FrTo32 polyValue) (ToCompressedG1 cd w))) (seq 0 (p_N p)) = Ret ms /\
    forall k m, nth_error mq k = Some m -> (k < N)%nat -> nth_error ms k = Some (mkSR (sr_C m) (FrTo32 (EvalPolyAt (p_fullShare p) (of_nat (k + 1)))) (sr_W m))).
  { rewrite PN in Eq |- *. clear -Eq. assert (LS : forall k, (k < N)%nat -> nth_error (seq 0 N) k = Some k).
    { intros k Hk. rewrite (nth_error_nth' (seq 0 N) O) by (rewrite seq_length; exact Hk). rewrite seq_nth by exact Hk. reflexivity. }
    revert mq Eq.
    assert (Gen : forall l mq, gomap (fun j => let polyValue := EvalPolyAt (p_fullShare q) (of_nat (j + 1)) in
        c <- idx CB (j + 1) ;; w <- idx WB (j + 1) ;;
        Ret (mkSR (ToCompressedG1 cd c) (FrTo32 polyValue) (ToCompressedG1 cd w))) l = Ret mq ->
      exists ms, gomap (fun j => let polyValue := EvalPolyAt (p_fullShare p) (of_nat (j + 1)) in
        c <- idx CB (j + 1) ;; w <- idx WB (j + 1) ;;
        Ret (mkSR (ToCompressedG1 cd c) (FrTo32 polyValue) (ToCompressedG1 cd w))) l = Ret ms /\
      forall k m a, nth_error mq k = Some m -> nth_error l k = Some a ->
        nth_error ms k = Some (mkSR (sr_C m) (FrTo32 (EvalPolyAt (p_fullShare p) (of_nat (a + 1)))) (sr_W m))).
    { induction l as [|a l IH]; intros mq E.
      - cbn [gomap] in E. apply (f_equal (fun x => match x with Ret y => y | _ => mq end)) in E. subst mq.
        exists []. split; [reflexivity|]. intros [|k] m a H; discriminate.
      - cbn [gomap] in E. apply bind_ret in E. destruct E as (b & E1 & E). apply bind_ret in E1. destruct E1 as (c & Ec & E1).
        apply bind_ret in E1. destruct E1 as (w & Ew & E1). apply (f_equal (fun x => match x with Ret y => y | _ => b end)) in E1. subst b.
        apply bind_ret in E. destruct E as (r' & Er & E). apply (f_equal (fun x => match x with Ret y => y | _ => mq end)) in E. subst mq.
        destruct (IH r' Er) as (ms & Em & Hm). cbn [gomap]. rewrite Ec, Ew. cbn [bind]. cbv zeta in Em |- *. rewrite Em. cbn [bind].
        eexists. split; [reflexivity|]. intros [|k] m a' H1 H2.
        + cbn [nth_error] in *. apply (f_equal (fun x => match x with Some y => y | _ => m end)) in H1. subst m.
          apply (f_equal (fun x => match x with Some y => y | _ => a end)) in H2. subst a'. reflexivity.
        + cbn [nth_error] in *. apply (Hm k m a' H1 H2). }
    intros mq Eq. destruct (Gen _ _ Eq) as (ms & E & H). exists ms. split; [exact E|]. intros k m H1 H2. apply (H k m k H1). apply LS. exact H2. }
  destruct G as (ms & Em & Hm). specialize (Hm j _ Enq Hj). cbn [hmsg sr_C sr_W] in Hm.
  exists ms. eexists. exists (mkG1 (peval (secx B party_secret) (of_nat (j + 1)))), (mkG1 (peval (wrow party_secret B (of_nat (p_PID p + 1))) (of_nat (j + 1)))).
  split; [exact Em|]. split; [exact Hm|]. cbn [sr_C sr_W sr_V]. split; [apply HC|]. split; [apply HC|].
  pose proof W as (K1 & _). rewrite PF in K1.
  split; [apply (commit_section party_secret (F + 1) _ F (2 * F) _ _ K1 HB); lia|].
  assert (EV : EvalPolyAt (p_fullShare p) (of_nat (j + 1)) = beval B' (of_nat (p_PID p + 1)) (of_nat (j + 1))).
  { rewrite FS, EvalPolyAt_correct, peval_secx. reflexivity. }
  split; [rewrite EV; reflexivity|]. intros K HK.
  pose proof (hmsg_check party_secret (F + 1) K B F (2 * F) (of_nat (p_PID p + 1)) (of_nat (j + 1)) HK ltac:(lia) HB) as CK.
  rewrite (check_iff party_secret (F + 1) K HK) in CK by lia. rewrite (check_iff party_secret (F + 1) K HK) by lia. cbn [dlog1] in *.
  rewrite <- CK. split; intros H; [|rewrite H; reflexivity].
  set (u := peval (secx B party_secret) (of_nat (j + 1))) in *.
  transitivity (u - (u - beval B' (of_nat (p_PID p + 1)) (of_nat (j + 1)))); [ring|]. rewrite H. ring.
Qed.
End One.

Print Assumptions c63_shares.
Print Assumptions c63_secret.
Print Assumptions c63_exists.
Print Assumptions c63_next.

(** ** The client shares 7 with 7 + x among 4 members; the dealers 1 and 2 refresh with x y *)

Lemma demo_dealing cd : codec_ok cd -> exists msgs, dealing cd 4 1 (of_Z 7) [0; 0; 0] [[0; 1]; [0; 1]; [0; 1]] msgs demo_B.
Proof.
  intros HC. assert (HR : (Z.of_nat (4 + 2) <= r)%Z) by (rewrite r_eq; lia).
  destruct (c17_honest_dealer cd 4 1 (of_Z 7) [0; 0; 0] [[0; 1]; [0; 1]; [0; 1]] HC) as (ks & msgs & B0 & EK & EM & _);
    [lia|lia|exact HR|reflexivity|reflexivity|repeat constructor|].
  exists msgs. split; [reflexivity|]. split; [reflexivity|]. split; [repeat constructor|]. split; [exists ks; auto|].
  split; [split; [reflexivity|repeat constructor]|].
  intros j Hj. assert (nth (j - 1) [[0; 1]; [0; 1]; [0; 1]] [] = [0; 1]) as ->
    by (destruct j as [|[|[|[|j]]]]; [lia|reflexivity|reflexivity|reflexivity|lia]).
  unfold secy, demo_B. cbn [map peval padd pscale tl]. f_equal; [ring|]. f_equal. ring.
Qed.

Lemma rejects_all cd q dlvs : forall st,
  (forall i m, In (i, m) dlvs -> exists C w v, FromCompressedG1 cd (sr_C m) = Some C /\ FromCompressedG1 cd (sr_W m) = Some w /\
     sr_V m = FrTo32 v /\ CheckProofSingle (p_KZG q) C w (of_Z ((i + 1) mod 2 ^ 32)) v = Ret false) ->
  sr_loop cd q st dlvs = Ret None.
Proof.
  induction dlvs as [|(i & m) dlvs IH]; intros st H; [reflexivity|].
  cbn [sr_loop]. destruct (H i m (or_introl eq_refl)) as (C & w & v & E1 & E2 & E3 & E4).
  unfold sr_step. unfold ReadG1. rewrite E1. cbn [bind]. rewrite E2. cbn [bind].
  rewrite E3, to32_FrTo32. unfold FrFrom32_into. rewrite FrFrom32_FrTo32, E4. cbn [bind].
  apply IH. intros j m' Hin. apply H. right. exact Hin.
Qed.

(** Every member can complete the handoff; if the same members then start another one, every honest message is
    rejected and nobody ever completes it. *)
Theorem c63_again_refuted : forall cd hash ser parse sign sigok combine sg, codec_ok cd -> (forall l, parse (ser l) = l) ->
  (forall k, sigok k (sg k) = true) ->
  exists rF rZ msgs, dealing cd 4 1 (of_Z 7) rF rZ msgs demo_B /\ refreshes 1 demo_B demo_B2 demo_q [1; 2]%Z /\
    let mem := own_handoff cd hash ser parse sign sigok combine 4 1 msgs demo_B demo_B2 demo_q [1; 2]%Z in
    (forall i, (i < 4)%nat -> exists p, mem p /\ p_PID p = i) /\
    forall q dlvs, mem q ->
      (forall i m, In (i, m) dlvs -> exists p ms, mem p /\ Z.of_nat (p_PID p) = i /\ ShareReduceSend cd p = Ret ms /\
         nth_error ms (p_PID q) = Some m) ->
      ShareReduceReceive cd q dlvs = Ret None.
Proof.
  intros cd hash ser parse sign sigok combine sg HC HS SG. destruct (demo_dealing cd HC) as (msgs & D).
  exists [0; 0; 0], [[0; 1]; [0; 1]; [0; 1]], msgs. split; [exact D|]. split; [exact demo_refreshes|].
  set (mem := own_handoff cd hash ser parse sign sigok combine 4 1 msgs demo_B demo_B2 demo_q [1; 2]%Z). cbv zeta. split.
  - intros i Hi.
    assert (Q0 : forall k, beval (demo_q k) 0 0 = 0) by (intros k; unfold demo_q, beval; cbn [secx map peval]; ring).
    assert (NJ : NoDup [1; 2]%Z) by (repeat constructor; simpl; lia).
    assert (RJ : forall j, In j [1; 2]%Z -> (1 <= j <= Z.of_nat 4)%Z) by (intros j Hj; simpl in Hj; lia).
    exact (c63_exists cd hash ser parse sign sigok combine HC HS 4 1 ltac:(reflexivity) ltac:(lia) ltac:(lia) _ _ _ _ _ _ _ _ sg i D demo_refreshes
      Q0 NJ RJ SG Hi).
  - intros q dlvs Mq HD.
    destruct (c63_shares cd hash ser parse sign sigok combine HC HS 4 1 ltac:(reflexivity) ltac:(lia) ltac:(lia) _ _ _ _ _ _ _ _ q D demo_refreshes Mq)
      as (QP & _).
    assert (K1 : setup party_secret 2 = Ret (p_KZG q)).
    { destruct Mq as (p0 & D0 & HH). pose proof (dealt_is_ready cd HC 4 1 ltac:(reflexivity) ltac:(lia) ltac:(lia) _ _ _ _ _ _ D D0) as (W & PN & PF & PP & _).
      destruct (c29_handoff_from cd hash ser parse sign sigok combine HC HS 4 1 ltac:(reflexivity) ltac:(lia) ltac:(lia)
        (dealt cd 4 1 msgs) (prepared cd hash ser parse 4 1 msgs demo_B) demo_B demo_B2 demo_q [1; 2]%Z p0 q) as ((K1 & _) & _ & F1 & _); auto.
      - intros x Hx. exact (dealt_is_ready cd HC 4 1 ltac:(reflexivity) ltac:(lia) ltac:(lia) _ _ _ _ _ _ D Hx).
      - intros x Hx. exact (prepared_is_ready cd hash ser parse HC HS 4 1 ltac:(reflexivity) ltac:(lia) ltac:(lia) _ _ _ _ _ _ D Hx).
      - exact (proj1 (proj2 (proj2 (proj2 (proj2 D))))).
      - exact demo_refreshes.
      - rewrite F1 in K1. exact K1. }
    unfold ShareReduceReceive. rewrite (rejects_all cd q dlvs); [reflexivity|].
    intros i m Hin. destruct (HD i m Hin) as (p & ms & Mp & Ei & ES & EN).
    destruct (c63_shares cd hash ser parse sign sigok combine HC HS 4 1 ltac:(reflexivity) ltac:(lia) ltac:(lia) _ _ _ _ _ _ _ _ p D demo_refreshes Mp)
      as (Pp & _).
    destruct (c63_next cd hash ser parse sign sigok combine HC HS 4 1 ltac:(reflexivity) ltac:(lia) ltac:(lia) _ _ _ _ _ _ _ _ p (p_PID q) D demo_refreshes Mp QP)
      as (ms' & m' & C & w & ES' & EN' & EC & EW & _ & EV & IFF).
    rewrite ES in ES'. apply (f_equal (fun x => match x with Ret a => a | _ => ms end)) in ES'. subst ms'.
    rewrite EN in EN'. apply (f_equal (fun x => match x with Some a => a | _ => m end)) in EN'. subst m'.
    specialize (IFF _ K1). exists C, w. rewrite EV. eexists. split; [exact EC|]. split; [exact EW|]. split; [reflexivity|].
    assert (EX : of_Z ((i + 1) mod 2 ^ 32) = of_nat (p_PID p + 1)).
    { unfold of_nat. rewrite Z.mod_small; [|change (2 ^ 32)%Z with 4294967296%Z; lia]. apply f_equal. lia. }
    rewrite EX. rewrite (check_correct party_secret 2 _ K1) in IFF |- * by lia.
    match goal with |- Ret ?b = _ => destruct b; [exfalso|reflexivity] end.
    pose proof (proj1 IFF eq_refl) as EQ. clear IFF.
    assert (Z0 : of_nat (2 * ((p_PID p + 1) * (p_PID q + 1))) = of_nat 0).
    { assert (forall a b, of_nat (a * b) = of_nat a * of_nat b) as of_nat_mul by (intros; unfold of_nat; rewrite Nat2Z.inj_mul; apply of_Z_mul).
      rewrite !of_nat_mul. unfold demo_B, demo_B2, beval in EQ. cbn [secx map peval] in EQ.
      change (of_nat 2) with (of_Z 2). change (of_nat 0) with 0. apply (proj2 (fsub_eq_0 _ _)) in EQ. rewrite <- EQ. ring. }
    assert (((p_PID p + 1) * (p_PID q + 1) <= 4 * 4)%nat) by (apply Nat.mul_le_mono; lia).
    assert ((1 * 1 <= (p_PID p + 1) * (p_PID q + 1))%nat) by (apply Nat.mul_le_mono; lia).
    apply of_nat_inj in Z0; [lia| |]; rewrite r_eq; lia.
Qed.
Print Assumptions c63_again_refuted.

(** A way to write lists of byte strings: every string with its length in front. *)
Definition demo_ser (l : list (list Z)) : list Z := flat_map (fun x => Z.of_nat (length x) :: x) l.
Fixpoint demo_parse_n (n : nat) (d : list Z) : list (list Z) :=
  match n, d with
  | S n, k :: d => firstn (Z.to_nat k) d :: demo_parse_n n (skipn (Z.to_nat k) d)
  | _, _ => []
  end.
Definition demo_parse (d : list Z) : list (list Z) := demo_parse_n (length d) d.

Lemma demo_parse_ser l : demo_parse (demo_ser l) = l.
Proof.
  unfold demo_parse. assert (G : forall n, (length (demo_ser l) <= n)%nat -> demo_parse_n n (demo_ser l) = l); [|apply G; lia].
  induction l as [|x l IH]; intros n Hn.
  - destruct n; reflexivity.
  - change (demo_ser (x :: l)) with ((Z.of_nat (length x) :: x) ++ demo_ser l) in *. cbn [app length] in Hn |- *. rewrite app_length in Hn.
    destruct n as [|n]; [lia|]. cbn [demo_parse_n]. rewrite Nat2Z.id.
    rewrite firstn_app, Nat.sub_diag, firstn_all, firstn_O, app_nil_r. rewrite skipn_app, Nat.sub_diag, skipn_all. cbn [app skipn].
    rewrite IH by lia. reflexivity.
Qed.

Example c63_demo : exists cd hash ser parse sign sigok combine msgs ps, codec_ok cd /\ (forall l, parse (ser l) = l) /\
  dealing cd 4 1 (of_Z 7) [0; 0; 0] [[0; 1]; [0; 1]; [0; 1]] msgs demo_B /\ refreshes 1 demo_B demo_B2 demo_q [1; 2]%Z /\
  Forall (own_handoff cd hash ser parse sign sigok combine 4 1 msgs demo_B demo_B2 demo_q [1; 2]%Z) ps /\ map p_PID ps = [1; 3]%nat.
Proof.
  set (cd := demo_codec). assert (HC : codec_ok cd) by exact demo_codec_ok.
  set (hash := fun d : list Z => d). set (sign := fun _ : nat => @nil Z). set (sigok := fun (_ : nat) (_ : list Z) => true).
  set (comb := fun (_ : nat) (_ : list (list Z)) => @nil Z).
  destruct (demo_dealing cd HC) as (msgs' & D).
  assert (Q0 : forall k, beval (demo_q k) 0 0 = 0) by (intros k; unfold demo_q, beval; cbn [secx map peval]; ring).
  assert (NJ : NoDup [1; 2]%Z) by (repeat constructor; simpl; lia).
  assert (RJ : forall j, In j [1; 2]%Z -> (1 <= j <= Z.of_nat 4)%Z) by (intros j Hj; simpl in Hj; lia).
  assert (X : forall i, (i < 4)%nat -> exists p, own_handoff cd hash demo_ser demo_parse sign sigok comb 4 1 msgs' demo_B demo_B2 demo_q [1; 2]%Z p /\ p_PID p = i).
  { intros i Hi. exact (c63_exists cd hash demo_ser demo_parse sign sigok comb HC demo_parse_ser 4 1 ltac:(reflexivity) ltac:(lia) ltac:(lia) _ _ _ _ _ _ _ _
      (fun _ => []) i D demo_refreshes Q0 NJ RJ (fun _ => eq_refl) Hi). }
  destruct (X 1%nat ltac:(lia)) as (p & Hp & Pp). destruct (X 3%nat ltac:(lia)) as (q & Hq & Pq).
  exists cd, hash, demo_ser, demo_parse, sign, sigok, comb, msgs', [p; q].
  split; [exact HC|]. split; [exact demo_parse_ser|]. split; [exact D|]. split; [exact demo_refreshes|].
  split; [repeat constructor; assumption|]. cbn [map]. rewrite Pp, Pq. reflexivity.
Qed.
