(** Headline theorems: what accepted dealings have in common (C51), which recover messages stop the recovery
    (C52), and when share distribution is not starved (C53). *)

Require Import ZArith List Bool Arith Lia.
From Verif Require Import Prime Fr Poly Bytes CodecModel GoBase PolyModel PolyProofs GroupModel Biv KzgModel KzgProofs PartyModel VssModel VssProofs
  BivProofs PartySpec VssProofs2 ProacModel ProacRun ProacLinks ProacDist PropertiesVss.
Import ListNotations.
Local Open Scope F_scope.

Lemma split_or {A} (P Q : A -> Prop) l : (forall x, In x l -> P x \/ Q x) -> (forall x, In x l -> P x) \/ exists x, In x l /\ Q x.
Proof.
  induction l as [|a l IH]; intros H; [left; intros x []|].
  destruct (H a (or_introl eq_refl)) as [Pa|Qa]; [|right; exists a; split; [left; reflexivity|exact Qa]].
  destruct IH as [IH|(x & Hx & Qx)].
  - intros x Hx. apply H. right. exact Hx.
  - left. intros x [<-|Hx]; [exact Pa|apply IH; exact Hx].
  - right. exists x. split; [right; exact Hx|exact Qx].
Qed.

Lemma Forall2_length_eq {A B} (R : A -> B -> Prop) l l' : Forall2 R l l' -> length l = length l'.
Proof. induction 1; cbn [length]; lia. Qed.

Lemma Forall2_nth {A B} (R : A -> B -> Prop) l l' : Forall2 R l l' -> forall i a b, nth_error l i = Some a -> nth_error l' i = Some b -> R a b.
Proof.
  induction 1 as [|x y l l' H _ IH]; intros [|i] a b Ha Hb; try discriminate; cbn [nth_error] in *.
  - injection Ha as <-. injection Hb as <-. exact H.
  - exact (IH i a b Ha Hb).
Qed.

(** C51: members that accept dealings with the same commitments hold sections of one polynomial, whatever
    else the client sent them, or the client, who knows the polynomials f and q behind the commitments and the
    witnesses, knows a non-zero polynomial with the secret of the setup as a root. *)
Theorem c51_same_commitments : forall cd N F L (p p' : nat -> Party) (m : nat -> VSSSendMsg) ks (f : nat -> list Fr) (q : nat -> nat -> list Fr),
  (1 <= F)%nat -> (3 * F + 1 <= N)%nat -> (Z.of_nat (N + 2) <= r)%Z -> party_setup F = Ret ks ->
  (forall i, In i L -> NewHonestParty N F i = Ret (p i) /\ VSSShareReceive cd (p i) (m i) = Ret (true, p' i)) ->
  (forall j, (1 <= j <= 2 * F + 1)%nat -> (length (f j) <= F + 1)%nat) ->
  (forall i j, In i L -> (1 <= j <= 2 * F + 1)%nat -> exists c w,
     nth_error (PiContents (p_Proof (p' i))) j = Some c /\ CommitToPoly ks (f j) = Ret (CBj c) /\
     nth_error (p_witness (p' i)) (j - 1) = Some w /\ (length (q i j) <= F + 1)%nat /\ CommitToPoly ks (q i j) = Ret w) ->
  (exists B, bdeg F (2 * F) B /\ forall i, In i L -> p_fullShare (p' i) = secx B (of_nat (i + 1))) \/
  exists i j, In i L /\ (1 <= j <= 2 * F + 1)%nat /\
    let g := psub (psub (f j) [EvalPolyAt (p_fullShare (p' i)) (of_nat j)]) (pmul [0 - of_nat (i + 1); 1] (q i j)) in
    peval g party_secret = 0 /\ ~ zero_list g.
Proof.
  intros cd N F L p p' m ks f q HF HN HR ES HA Lf HC.
  set (P := fun t : nat * nat => EvalPolyAt (p_fullShare (p' (fst t))) (of_nat (snd t)) = EvalPolyAt (f (snd t)) (of_nat (fst t + 1))).
  set (Q := fun t : nat * nat => let g := psub (psub (f (snd t)) [EvalPolyAt (p_fullShare (p' (fst t))) (of_nat (snd t))]) (pmul [0 - of_nat (fst t + 1); 1] (q (fst t) (snd t))) in
     peval g party_secret = 0 /\ ~ zero_list g).
  destruct (split_or P Q (list_prod L (seq 1 (2 * F + 1)))) as [HP|(t & Ht & Qt)].
  - intros (i & j) Ht. apply in_prod_iff in Ht. destruct Ht as (Hi & Hj). apply in_seq in Hj.
    destruct (HA i Hi) as (EP & ER). destruct (HC i j Hi ltac:(lia)) as (c & w & Ec & Cf & Ew & Lq & Cq).
    destruct (c18_sound cd N F i (p i) (m i) (p' i) HF HN HR EP ER) as (pm & ks1 & Epm & ES1 & _ & _ & A).
    destruct (A j ltac:(lia)) as (mc & CB & CZ & W0 & gF & b & wb & w1 & v & Emc & D1 & _ & _ & _ & Eb & _ & Ewb & Dw & Ec1 & Ew1 & _).
    rewrite Ec in Ec1. cbn [option_map] in Ec1. injection Ec1 as <-. rewrite Ew in Ew1. injection Ew1 as <-.
    exact (c18_extraction cd N F i (p i) (m i) (p' i) pm ks j (f j) (q i j) mc (CBj c) b wb w HF HN HR EP ES ER ltac:(lia) Epm Emc D1 Eb Ewb Dw (Lf j ltac:(lia)) Lq Cf Cq).
  - left. set (pad := fun j => f j ++ repeat 0 (F + 1 - length (f j))).
    destruct (biv_interp F (2 * F) (map of_nat (seq 1 (2 * F + 1))) (fun i => pad (i + 1)%nat)) as (B & HB & HI).
    + apply NoDup_of_nat_from. lia.
    + rewrite map_length. apply seq_length.
    + intros i Hi. unfold pad. rewrite app_length, repeat_length. specialize (Lf (i + 1)%nat ltac:(lia)). lia.
    + exists B. split; [exact HB|]. intros i Hi. destruct (HA i Hi) as (EP & ER).
      destruct (c18_sound cd N F i (p i) (m i) (p' i) HF HN HR EP ER) as (_ & _ & _ & _ & _ & LF & _).
      apply (poly_unique_list (map of_nat (seq 1 (2 * F + 1)))).
      * apply NoDup_of_nat_from. lia.
      * rewrite length_secx. destruct HB as (LB & _). lia.
      * rewrite map_length, seq_length. lia.
      * intros y Hy. apply in_map_iff in Hy. destruct Hy as (j & <- & Hj).
        specialize (HP (i, j) ltac:(apply in_prod; assumption)). unfold P in HP. cbn [fst snd] in HP. apply in_seq in Hj.
        rewrite !EvalPolyAt_correct in HP. rewrite HP. rewrite peval_secx, <- peval_secy.
        specialize (HI (j - 1)%nat ltac:(lia)). rewrite nth_map_seq in HI by lia. replace (1 + (j - 1))%nat with j in HI by lia.
        rewrite HI. replace (j - 1 + 1)%nat with j by lia. unfold pad. apply peval_ext. intros k. destruct (Nat.lt_ge_cases k (length (f j))) as [K|K]; [rewrite app_nth1 by exact K; reflexivity|].
        rewrite app_nth2 by exact K. rewrite nth_repeat0. apply nth_overflow. exact K.
  - right. destruct t as (i & j). apply in_prod_iff in Ht. destruct Ht as (Hi & Hj). apply in_seq in Hj. exists i, j. split; [exact Hi|]. split; [lia|exact Qt].
Qed.
Print Assumptions c51_same_commitments.

Lemma accept_fields cd p m p' : VSSShareReceive cd p m = Ret (true, p') -> p_F p' = p_F p /\ p_PID p' = p_PID p /\ p_KZG p' = p_KZG p.
Proof.
  intros H. unfold VSSShareReceive in H.
  apply bind_ret in H. destruct H as (pi & _ & H).
  apply bind_ret in H. destruct H as ((va, wi) & _ & H).
  apply bind_ret in H. destruct H as (b & _ & H). destruct b; [|injection H as H; discriminate].
  apply bind_ret in H. destruct H as (x1 & _ & H).
  apply bind_ret in H. destruct H as ((wit, widx) & _ & H).
  apply bind_ret in H. destruct H as (x2 & _ & H).
  apply bind_ret in H. destruct H as (x3 & _ & H). injection H as <-. cbn [p_F p_PID p_KZG]. auto.
Qed.

(** The hypotheses hold of every honest dealing, for all members. *)
Example c51_honest_dealing : forall cd N F s rF rZ, codec_ok cd ->
  (1 <= F)%nat -> (3 * F + 1 <= N)%nat -> (Z.of_nat (N + 2) <= r)%Z ->
  length rF = (2 * F + 1)%nat -> length rZ = (2 * F + 1)%nat -> Forall (fun row => length row = (F + 1)%nat) rZ ->
  exists ks msgs f q, party_setup F = Ret ks /\ Share cd ks N F s rF rZ = Ret msgs /\ (forall j, (1 <= j <= 2 * F + 1)%nat -> (length (f j) <= F + 1)%nat) /\
    forall i, (i < N)%nat -> exists p m p', NewHonestParty N F i = Ret p /\ nth_error msgs i = Some m /\ VSSShareReceive cd p m = Ret (true, p') /\
      forall j, (1 <= j <= 2 * F + 1)%nat -> exists c w,
        nth_error (PiContents (p_Proof p')) j = Some c /\ CommitToPoly ks (f j) = Ret (CBj c) /\
        nth_error (p_witness p') (j - 1) = Some w /\ (length (q i j) <= F + 1)%nat /\ CommitToPoly ks (q i j) = Ret w.
Proof.
  intros cd N F s rF rZ HC HF HN HR LF LZ LZ2.
  destruct (c17_honest_dealer cd N F s rF rZ HC HF HN HR LF LZ LZ2) as (ks & msgs & B & ES & EM & _ & HB & _ & _ & _ & HH).
  exists ks, msgs, (fun j => secy B (of_nat j)), (fun i j => fst (sdiv (secy B (of_nat j)) (of_nat (i + 1)))).
  split; [exact ES|]. split; [exact EM|]. assert (L : forall y, length (secy B y) = (F + 1)%nat) by (intros y; rewrite (length_secy F (2 * F)) by exact HB; lia).
  split; [intros j _; rewrite L; lia|].
  intros i Hi. destruct (HH i Hi) as (p & m & p' & EP & EI & ER & (_ & _ & C & LI & _ & FA) & _ & W). exists p, m, p'.
  split; [exact EP|]. split; [exact EI|]. split; [exact ER|]. destruct (accept_fields cd p m p' ER) as (PF & PI & PK).
  destruct (new_party N F i HF HN HR) as (p1 & EP1 & WP & _ & PF1 & PI1). rewrite EP in EP1. injection EP1 as <-.
  destruct WP as (WS & _). rewrite PF1 in *. rewrite PF in *. rewrite PI, PI1, PK in *.
  assert (EK : p_KZG p = ks) by (unfold party_setup in ES; rewrite ES in WS; congruence). rewrite EK in *.
  intros j Hj. destruct (C j ltac:(lia)) as (c & Ec & Cc).
  pose proof (Forall2_length_eq _ _ _ FA) as LW.
  destruct (nth_error (p_witnessIndexes p') (j - 1)) as [k|] eqn:Ek; [|apply nth_error_None in Ek; lia].
  destruct (nth_error (p_witness p') (j - 1)) as [w|] eqn:Ew; [|apply nth_error_None in Ew; lia].
  destruct (W j k w c ltac:(lia) Ec Ek Ew) as (-> & _).
  pose proof (Forall2_nth _ _ _ FA _ _ _ Ek Ew) as FW. cbn beta in FW.
  assert (NE : secy B (of_nat j) <> []) by (intros E; specialize (L (of_nat j)); rewrite E in L; simpl in L; lia).
  assert (LQ : (length (fst (sdiv (secy B (of_nat j)) (of_nat (i + 1)))) <= F + 1)%nat) by (rewrite sdiv_length, L; lia).
  exists c, w. split; [exact Ec|]. split; [exact Cc|]. split; [reflexivity|]. split; [exact LQ|].
  rewrite (commit_correct party_secret (F + 1) ks ES) by exact LQ.
  rewrite (proof_correct party_secret (F + 1) ks ES) in FW; [exact FW|exact NE|rewrite L; lia].
Qed.

(** C53: if every member sends one ShareDist message, each is taken by a goroutine when it arrives, whatever was
    delivered before. *)
Lemma step_free cd p CQsum st e st' : dstep cd p CQsum st e = Ret st' -> (0 < d_free st)%nat \/ dsenders [e] = [] ->
  (d_free st' + length (dsenders [e]) = d_free st)%nat.
Proof.
  destruct e as [j d|i m|k]; intros H K; cbn [dstep dsenders flat_map map app length] in *.
  - unfold d_commit in H. destruct (_ || _); [injection H as <-; lia|]. apply bind_ret in H. destruct H as (o & _ & H). injection H as <-.
    destruct o; cbn [d_free]; lia.
  - unfold d_recv in H. destruct (d_free st) as [|n]; [destruct K; [lia|discriminate]|]. destruct (_ <? _)%Z; [discriminate|]. injection H as <-. cbn [d_free]. lia.
  - unfold d_go in H. destruct (nth_error (d_wait st) k) as [(j & m)|]; [|injection H as <-; lia]. destruct (negb _); [injection H as <-; lia|].
    apply bind_ret in H. destruct H as (c & _ & H). apply bind_ret in H. destruct H as (w & _ & H). apply bind_ret in H. destruct H as (b & _ & H).
    destruct b; [|injection H as <-; cbn [d_free]; lia]. destruct (d_share st); [injection H as <-; cbn [d_free]; lia|].
    destruct (_ <=? _)%nat; [apply bind_ret in H; destruct H as (f & _ & H)|]; injection H as <-; cbn [d_free]; lia.
Qed.

Lemma run_free cd p CQsum evs : forall st st', drun cd p CQsum st evs = Ret st' -> (length (dsenders evs) <= d_free st)%nat ->
  (d_free st' + length (dsenders evs) = d_free st)%nat.
Proof.
  induction evs as [|e evs IH]; intros st st' H K; unfold drun in H; cbn [gofold] in H.
  - injection H as <-. cbn. lia.
  - apply bind_ret in H. destruct H as (st1 & H1 & H2). change (e :: evs) with ([e] ++ evs) in *. unfold dsenders in *. rewrite flat_map_app, app_length in *.
    fold (dsenders [e]) in *. fold (dsenders evs) in *.
    assert (E : (d_free st1 + length (dsenders [e]) = d_free st)%nat).
    { apply (step_free cd p CQsum _ _ _ H1). destruct (dsenders [e]); [right; reflexivity|left; cbn [length] in K; lia]. }
    specialize (IH st1 st' H2 ltac:(lia)). lia.
Qed.

Theorem c53_each_once : forall cd p CQsum pre i m post st, (Z.of_nat (p_N p) < 2 ^ 32)%Z ->
  NoDup (dsenders (pre ++ DvRecv i m :: post)) -> (forall k, In k (dsenders (pre ++ DvRecv i m :: post)) -> (0 <= k < Z.of_nat (p_N p))%Z) ->
  drun cd p CQsum (dist_init (p_N p)) pre = Ret st ->
  exists st', dstep cd p CQsum st (DvRecv i m) = Ret st' /\ d_wait st' = d_wait st ++ [(Z.to_nat (i + 1), m)].
Proof.
  intros cd p CQsum pre i m post st HN ND HR ER.
  assert (ED : dsenders (pre ++ DvRecv i m :: post) = dsenders pre ++ i :: dsenders post) by (unfold dsenders; rewrite flat_map_app; reflexivity).
  rewrite ED in *.
  assert (LN : (length (dsenders pre ++ i :: dsenders post) <= p_N p)%nat).
  { rewrite <- (seq_length (p_N p) 0), <- (map_length Z.of_nat (seq 0 (p_N p))). apply NoDup_incl_length; [exact ND|].
    intros k Hk. apply in_map_iff. exists (Z.to_nat k). specialize (HR k Hk). split; [lia|apply in_seq; lia]. }
  rewrite app_length in LN. cbn [length] in LN.
  pose proof (run_free cd p CQsum pre _ _ ER) as FR. change (d_free (dist_init (p_N p))) with (p_N p) in FR. specialize (FR ltac:(lia)).
  assert (Hi : (0 <= i < Z.of_nat (p_N p))%Z) by (apply HR, in_or_app; right; left; reflexivity).
  cbn [dstep]. unfold d_recv. destruct (d_free st) as [|n] eqn:EF; [lia|].
  rewrite (Z.mod_small (i + 1)) by lia. destruct (Z.ltb_spec (Z.of_nat (p_N p)) (i + 1)); [lia|].
  eexists. split; reflexivity.
Qed.
Print Assumptions c53_each_once.

(** Three messages, the goroutine of the first still waiting. *)
Example c53_example : forall cd p CQsum m, p_N p = 4%nat -> p_F p = 1%nat ->
  exists st, drun cd p CQsum (dist_init (p_N p)) [DvRecv 2%Z m; DvGo 0; DvRecv 0%Z m] = Ret st /\ d_wait st = [(3%nat, m); (1%nat, m)] /\
    NoDup (dsenders [DvRecv 2%Z m; DvGo 0; DvRecv 0%Z m; DvRecv 3%Z m]).
Proof.
  intros cd p CQsum m EN EF. rewrite EN. eexists. split; [|split].
  - unfold drun. cbn [gofold dstep]. unfold d_recv. rewrite EN. cbn. reflexivity.
  - reflexivity.
  - cbn. repeat constructor; cbn; intuition discriminate.
Qed.

(** ** C52 *)

(** The message that the receiving goroutine holds is taken by its handler as soon as the commitments of the dealer it
    names are accepted, the handler is still there and the agreement is not running. *)
Theorem c52_served : forall cd p sign sigok combine st x st', s_hold st = Some x ->
  (1 <= ro_k x)%nat -> nth (ro_k x) (s_flgCom st) false = true -> nth (ro_k x) (s_stopped st) false = false -> s_busy st = false ->
  prun cd sign sigok combine p st [EvHandle] = Ret st' -> s_hold st' = None.
Proof.
  intros cd p sign sigok combine st x st' EH HK HC HS HB E. cbn [prun pstep] in E. apply bind_ret in E. destruct E as ((st1 & out) & E1 & E).
  injection E as <-. cbn [fst]. apply bind_ret in E1. destruct E1 as (st2 & E1 & E2). injection E2 as <- _.
  unfold do_handle in E1. rewrite EH, HC, HS, HB in E1. rewrite (proj2 (Nat.leb_le _ _) HK) in E1. cbn [andb negb] in E1.
  unfold handle in E1. apply bind_ret in E1. destruct E1 as (ok & _ & E1). apply bind_ret in E1. destruct E1 as (st3 & E2 & E1).
  assert (H3 : s_hold st3 = None).
  { destruct ok; [|injection E2 as <-; reflexivity]. apply bind_ret in E2. destruct E2 as (st4 & E2 & E3).
    assert (H4 : s_hold st4 = None).
    { unfold add_point in E2. apply bind_ret in E2. destruct E2 as (old & _ & E2). cbv zeta in E2.
      destruct (negb _ && _); [apply bind_ret in E2; destruct E2 as (q & _ & E2)|]; injection E2 as <-; reflexivity. }
    unfold add_sig in E3. apply bind_ret in E3. destruct E3 as (old & _ & E3). cbv zeta in E3.
    destruct (negb _ && _); injection E3 as <-; cbn [s_hold]; exact H4. }
  injection E1 as <-. destruct (s_MVBASent st3); cbn [s_hold]; exact H3.
Qed.
Print Assumptions c52_served.

(** As long as the commitments of that dealer are not accepted (or its number is 0, or its handler has gone), nothing that
    arrives is counted, for any dealer. *)
Theorem c52_stuck : forall cd p sign sigok combine evs st st' x, s_hold st = Some x ->
  prun cd sign sigok combine p st evs = Ret st' ->
  ro_k x = 0%nat \/ nth (ro_k x) (s_flgCom st') false = false \/ nth (ro_k x) (s_stopped st) false = true ->
  s_hold st' = Some x /\ s_SRec st' = s_SRec st /\ s_flgRec st' = s_flgRec st /\ s_Q st' = s_Q st /\ s_SSig st' = s_SSig st /\
  s_MVBAIn st' = s_MVBAIn st /\ s_MVBASent st' = s_MVBASent st.
Proof.
  induction evs as [|e evs IH]; intros st st' x EH E C.
  - injection E as <-. auto 10.
  - cbn [prun] in E. apply bind_ret in E. destruct E as ((st1 & out) & E1 & E). cbn [fst] in E.
    assert (P : s_hold st1 = s_hold st /\ s_SRec st1 = s_SRec st /\ s_flgRec st1 = s_flgRec st /\ s_Q st1 = s_Q st /\
        s_SSig st1 = s_SSig st /\ s_MVBAIn st1 = s_MVBAIn st /\ s_MVBASent st1 = s_MVBASent st /\ s_stopped st1 = s_stopped st).
    { destruct e; cbn [pstep] in E1.
      + apply bind_ret in E1. destruct E1 as (st2 & E1 & E2). injection E2 as <- _. unfold do_commit in E1.
        destruct (_ || _) in E1; [injection E1 as <-; repeat split|]. apply bind_ret in E1. destruct E1 as (row & _ & E1).
        apply bind_ret in E1. destruct E1 as ((ok, row') & _ & E1). apply bind_ret in E1. destruct E1 as (CQ & _ & E1).
        injection E1 as <-. repeat split.
      + apply bind_ret in E1. destruct E1 as (l & _ & E2). injection E2 as <- _. repeat split.
      + apply bind_ret in E1. destruct E1 as (st2 & E1 & E2). injection E2 as <- _. unfold do_recv in E1.
        rewrite EH in E1. injection E1 as <-. repeat split.
      + apply bind_ret in E1. destruct E1 as (st2 & E1 & E2). injection E2 as <- _. unfold do_handle in E1. rewrite EH in E1.
        assert (K : nth (ro_k x) (s_flgCom st) false && negb (nth (ro_k x) (s_stopped st) false) && negb (s_busy st) && (1 <=? ro_k x)%nat = false).
        { destruct C as [C|[C|C]].
          - rewrite C. apply andb_false_r.
          - destruct (nth (ro_k x) (s_flgCom st) false) eqn:EC; [|reflexivity]. exfalso.
            assert (R : prun cd sign sigok combine p st (EvHandle :: evs) = Ret st').
            { cbn [prun pstep]. unfold do_handle. rewrite EH. rewrite EC. rewrite E1. exact E. }
            rewrite (flgCom_mono cd p sign sigok combine _ _ _ R _ EC) in C. discriminate.
          - rewrite C. cbn [negb]. rewrite andb_false_r. reflexivity. }
        rewrite K in E1. injection E1 as <-. repeat split.
      + injection E1 as <- _. repeat split. }
    destruct P as (P0 & P1 & P2 & P3 & P4 & P5 & P6 & P7).
    destruct (IH st1 st' x) as (Q0 & Q1 & Q2 & Q3 & Q4 & Q5 & Q6); [congruence|exact E|rewrite P7; exact C|].
    repeat split; congruence.
Qed.
Print Assumptions c52_stuck.

Lemma flgCom_only cd p sign sigok combine k : forall evs st st', prun cd sign sigok combine p st evs = Ret st' ->
  (forall data, ~ In (EvCommit k data) evs) -> nth k (s_flgCom st) false = false -> nth k (s_flgCom st') false = false.
Proof.
  induction evs as [|e evs IH]; intros st st' E NI H.
  - injection E as <-. exact H.
  - cbn [prun] in E. apply bind_ret in E. destruct E as ((st1 & out) & E1 & E). cbn [fst] in E.
    apply (IH st1 st' E); [intros d K; apply (NI d); right; exact K|].
    destruct e as [j data|i m|i m| |]; cbn [pstep] in E1.
    + apply bind_ret in E1. destruct E1 as (st2 & E1 & E2). injection E2 as <- _. unfold do_commit in E1.
      destruct (_ || _) in E1; [injection E1 as <-; exact H|]. apply bind_ret in E1. destruct E1 as (row & _ & E1).
      apply bind_ret in E1. destruct E1 as ((ok, row') & _ & E1). apply bind_ret in E1. destruct E1 as (CQ & _ & E1).
      injection E1 as <-. cbn [s_flgCom]. destruct ok; [|exact H]. rewrite nth_set_nth. destruct (Nat.eqb_spec j k) as [->|_]; [|exact H].
      exfalso. apply (NI data). left. reflexivity.
    + apply bind_ret in E1. destruct E1 as (l & _ & E2). injection E2 as <- _. exact H.
    + apply bind_ret in E1. destruct E1 as (st2 & E1 & E2). injection E2 as <- _. unfold do_recv in E1.
      destruct (s_hold st); [injection E1 as <-; exact H|]. cbv zeta in E1. apply bind_ret in E1. destruct E1 as (w & _ & E1).
      destruct (_ <? _)%Z in E1; [discriminate|]. injection E1 as <-. exact H.
    + apply bind_ret in E1. destruct E1 as (st2 & E1 & E2). injection E2 as <- _. unfold do_handle in E1.
      destruct (s_hold st) as [x|]; [|injection E1 as <-; exact H]. destruct (_ && _) in E1; [|injection E1 as <-; exact H].
      rewrite (handle_flgCom p sigok combine _ _ _ E1). exact H.
    + injection E1 as <- _. exact H.
Qed.

(** One recover message that names a dealer who never broadcasts commitments stops the recovery for all dealers:
    whatever arrives afterwards, no vote is counted. *)
Theorem c52_silent_dealer_refuted : forall cd p sign sigok combine st i m evs st' k, s_hold st = None ->
  rc_Index m = Z.of_nat k -> (1 <= k <= p_N p)%nat -> nth k (s_flgCom st) false = false ->
  (forall data, ~ In (EvCommit k data) evs) ->
  prun cd sign sigok combine p st (EvRecv i m :: evs) = Ret st' ->
  s_SRec st' = s_SRec st /\ s_flgRec st' = s_flgRec st /\ s_Q st' = s_Q st /\ s_SSig st' = s_SSig st /\
  s_MVBAIn st' = s_MVBAIn st /\ s_MVBASent st' = s_MVBASent st.
Proof.
  intros cd p sign sigok combine st i m evs st' k EH EK HK HC NI E.
  assert (F' : nth k (s_flgCom st') false = false).
  { apply (flgCom_only cd p sign sigok combine k _ _ _ E); [|exact HC]. intros d [K|K]; [discriminate|exact (NI d K)]. }
  cbn [prun] in E. apply bind_ret in E. destruct E as ((st1 & out) & E1 & E). cbn [fst] in E.
  cbn [pstep] in E1. apply bind_ret in E1. destruct E1 as (st2 & E1 & E2). injection E2 as <- _. unfold do_recv in E1.
  rewrite EH in E1. cbv zeta in E1. apply bind_ret in E1. destruct E1 as (w & _ & E1). destruct (_ <? _)%Z in E1; [discriminate|].
  injection E1 as <-.
  refine (proj2 (c52_stuck cd p sign sigok combine evs _ st' _ _ E _)); [cbn [s_hold]; reflexivity|].
  right. left. cbn [ro_k]. rewrite EK, Nat2Z.id. exact F'.
Qed.
Print Assumptions c52_silent_dealer_refuted.

(** Such a message is not an error: the run goes on. *)
Example c52_silent_example : forall cd p sign sigok combine st i m k, s_hold st = None -> rc_Index m = Z.of_nat k -> (1 <= k <= p_N p)%nat ->
  FromCompressedG1 cd (rc_W m) <> None -> exists st1 x, prun cd sign sigok combine p st [EvRecv i m] = Ret st1 /\ s_hold st1 = Some x /\ ro_k x = k /\
    s_flgCom st1 = s_flgCom st.
Proof.
  intros cd p sign sigok combine st i m k EH EK HK EW. destruct (FromCompressedG1 cd (rc_W m)) as [w|] eqn:ED; [|congruence].
  eexists. eexists. split; [|split; [|split]].
  - cbn [prun pstep]. unfold do_recv. rewrite EH. cbv zeta. unfold ReadG1. rewrite ED. cbn [bind].
    rewrite (proj2 (Z.ltb_ge (Z.of_nat (p_N p)) (rc_Index m))) by lia. cbn [bind fst]. reflexivity.
  - cbn [s_hold]. reflexivity.
  - cbn [ro_k]. rewrite EK. apply Nat2Z.id.
  - reflexivity.
Qed.
