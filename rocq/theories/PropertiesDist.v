(** Headline theorems: distribution of the refreshed shares (C28, C53), the secret over handoffs (C29),
    witnesses after a handoff (C30). *)

Require Import ZArith List Bool Arith Lia.
From Verif Require Import Prime Fr Bytes CodecModel CodecProofs GoBase Poly PolyModel PolyProofs Biv GroupModel KzgModel KzgProofs.
From Verif Require Import PartyModel PartySpec VssModel VssProofs VssProofs2 BivProofs.
From Verif Require Import ReduceModel ReduceProofs PropertiesVss PropertiesReduce.
From Verif Require Import ProacModel ProacProofs ProacRun ProacSig ProacRecover ProacDist ProacLinks.
From Verif Require Import PropertiesProac PropertiesRefresh.
Import ListNotations.
Local Open Scope F_scope.

(** ** Vocabulary *)

(** [p] has in its Proof the commitments to B(., j), j = 1..2F+1. *)
Definition holds_commitments (B : list (list Fr)) (p : Party) : Prop :=
  forall j, (1 <= j <= 2 * p_F p + 1)%nat ->
    exists c, nth_error (PiContents (p_Proof p)) j = Some c /\
      CommitToPoly (p_KZG p) (secy B (of_nat j)) = Ret (CBj c).

(** CQsum takes the commitments to B(., j) to those to B'(., j). *)
Definition updates (B B' : list (list Fr)) (p : Party) (CQsum : list G1) : Prop :=
  length CQsum = (p_N p + 1)%nat /\
  forall j C, (1 <= j <= p_N p)%nat -> CommitToPoly (p_KZG p) (secy B (of_nat j)) = Ret C ->
    CommitToPoly (p_KZG p) (secy B' (of_nat j)) = Ret (AddG1 C (nth j CQsum ZeroG1)).

(** No message opens the commitment to B'(., j) of its sender j with another value. *)
Definition dist_no_forgery (cd : g1codec) (p : Party) (B' : list (list Fr)) (evs : list dev) : Prop :=
  forall i m w C, In (DvRecv i m) evs -> FromCompressedG1 cd (sd_WB m) = Some w ->
    let X := of_Z ((i + 1) mod 2 ^ 32) in let v := FrFrom32_into 0 (to32 (sd_B m)) in
    CommitToPoly (p_KZG p) (secy B' X) = Ret C ->
    CheckProofSingle (p_KZG p) C w (me p) v = Ret true -> v = beval B' (me p) X.

(** Member [q] (of the committee of [p]) holds the refreshed reduced share. *)
Definition refreshed (p : Party) (B' : list (list Fr)) (q : Party) : Prop :=
  party_wf party_secret q /\ p_N q = p_N p /\ p_F q = p_F p /\ (p_PID q < p_N q)%nat /\
  p_reducedShare q = secy B' (me q).

(** Member j is honest and active: it has broadcast its commitment and sent its point to [p], and nothing
    else has been delivered in its name. *)
Definition active (cd : g1codec) (p : Party) (B' : list (list Fr)) (evs : list dev) (j : nat) : Prop :=
  exists q data ms m, refreshed p B' q /\ (p_PID q + 1)%nat = j /\
    NewCommitSend cd q = Ret data /\ DistributeSend cd q = Ret ms /\ nth_error ms (p_PID p) = Some m /\
    In (DvCommit j data) evs /\ In (DvRecv (Z.of_nat (p_PID q)) m) evs /\
    (forall d, In (DvCommit j d) evs -> d = data) /\
    (forall m', In (DvRecv (Z.of_nat (p_PID q)) m') evs -> m' = m).

(** Every goroutine that could go on has gone on. *)
Definition settled (st : dst) : Prop :=
  forall j m, In (j, m) (d_wait st) -> nth j (d_token st) false = false.

(** ** Connecting with the proofs *)

Definition bsub (A B : list (list Fr)) : list (list Fr) := badd A (map (map fopp) B).

Lemma beval_opp B x y : beval (map (map fopp) B) x y = - beval B x y.
Proof.
  unfold beval, secy. assert (P : forall q x, peval (map fopp q) x = - peval q x).
  { clear. induction q as [|a q IH]; intros x; cbn [map peval]; [ring|]. rewrite IH. ring. }
  rewrite map_map. induction B as [|row B IH]; cbn [map peval]; [ring|]. rewrite IH, P. ring.
Qed.

Lemma bdeg_opp dx dy B : bdeg dx dy B -> bdeg dx dy (map (map fopp) B).
Proof.
  intros (L & H). split; [rewrite map_length; exact L|]. apply Forall_forall. intros row Hr. apply in_map_iff in Hr.
  destruct Hr as (r0 & <- & Hr). rewrite map_length. rewrite Forall_forall in H. apply H. exact Hr.
Qed.

Lemma big_points n : (Z.of_nat n <= r)%Z -> NoDup (map of_nat (seq 0 n)).
Proof.
  intros H. apply nodup_map_in; [|apply seq_NoDup]. intros a b Ha Hb E. apply in_seq in Ha, Hb. apply of_nat_inj in E; lia.
Qed.

Lemma add_sub F B B' : (Z.of_nat (2 * F + 2) <= r)%Z -> bdeg F (2 * F) B -> bdeg F (2 * F) B' -> badd B (bsub B' B) = B'.
Proof.
  intros HR HB HB'. apply (biv_unique F (2 * F) _ _ (map of_nat (seq 0 (S F))) (map of_nat (seq 0 (S (2 * F))))).
  - apply bdeg_badd; [exact HB|]. apply bdeg_badd; [exact HB'|]. apply bdeg_opp. exact HB.
  - exact HB'.
  - apply big_points. lia.
  - apply big_points. lia.
  - rewrite map_length, seq_length. reflexivity.
  - rewrite map_length, seq_length. reflexivity.
  - intros x y _ _. unfold bsub. rewrite !beval_badd, beval_opp. ring.
Qed.

Section Setting.
Variables (cd : g1codec) (p : Party) (B B' : list (list Fr)) (CQsum : list G1).
Hypothesis W : party_wf party_secret p.
Hypothesis HB : bdeg (p_F p) (2 * p_F p) B.
Hypothesis HB' : bdeg (p_F p) (2 * p_F p) B'.
Hypothesis HH : holds_commitments B p.
Hypothesis HU : updates B B' p CQsum.
Notation S := (bsub B' B).

Lemma set_eq : badd B S = B'.
Proof. destruct W as (_ & _ & W3 & W4 & W5 & _). apply (add_sub (p_F p)); auto. lia. Qed.

Lemma set_deg : bdeg (p_F p) (2 * p_F p) S.
Proof. apply bdeg_badd; [exact HB'|apply bdeg_opp; exact HB]. Qed.

Lemma set_com A y : bdeg (p_F p) (2 * p_F p) A -> CommitToPoly (p_KZG p) (secy A y) = Ret (mkG1 (peval (secx A party_secret) y)).
Proof. intros HA. destruct W as (W1 & _). apply (commit_section party_secret (p_F p + 1) _ (p_F p) (2 * p_F p)); auto. lia. Qed.

Lemma set_coms : forall j, (1 <= j <= 2 * p_F p + 1)%nat ->
  exists c, nth_error (PiContents (p_Proof p)) j = Some c /\ CBj c = mkG1 (peval (secx B party_secret) (of_nat j)).
Proof.
  intros j Hj. destruct (HH j Hj) as (c & E & EC). exists c. split; [exact E|]. rewrite set_com in EC by exact HB.
  apply (f_equal (fun x => match x with Ret a => a | _ => ZeroG1 end)) in EC. symmetry. exact EC.
Qed.

Lemma set_sums : forall j, (1 <= j <= p_N p)%nat -> nth j CQsum ZeroG1 = mkG1 (peval (secx S party_secret) (of_nat j)).
Proof.
  intros j Hj. destruct HU as (_ & HV). pose proof (HV j _ Hj (set_com B (of_nat j) HB)) as E. rewrite set_com in E by exact HB'.
  apply (f_equal (fun x => match x with Ret a => dlog1 a | _ => 0 end)) in E. unfold AddG1 in E. cbn [dlog1] in E.
  destruct (nth j CQsum ZeroG1) as (g). f_equal. cbn [dlog1] in E. rewrite !peval_secx in E. rewrite peval_secx.
  unfold bsub. rewrite beval_badd, beval_opp, E. ring.
Qed.

Lemma set_ok evs : dist_no_forgery cd p B' evs -> Forall (dv_ok cd party_secret p B S) evs.
Proof.
  intros NF. apply Forall_forall. intros [j d|i m|i] Hin; cbn [dv_ok]; auto. rewrite set_eq. intros j w EX Hj EW HC.
  unfold dist_no_forgery in NF. cbv zeta in NF. specialize (NF i m w _ Hin EW (set_com B' _ HB')).
  change ((i + 1) mod 2 ^ 32)%Z with (Xof i) in NF. rewrite <- EX in NF. change (of_Z (Z.of_nat j)) with (of_nat j) in NF.
  unfold ncom in HC. rewrite set_eq in HC. apply NF. exact HC.
Qed.
End Setting.

(** ** C28 Distribution *)

(** A new commitment is accepted exactly if it is the commitment to B'(., j). *)
Theorem c28_new_commitment : forall cd p B B' CQsum j data, party_wf party_secret p ->
  bdeg (p_F p) (2 * p_F p) B -> bdeg (p_F p) (2 * p_F p) B' -> holds_commitments B p -> updates B B' p CQsum ->
  (1 <= j <= p_N p)%nat -> FromCompressedG1 cd data <> None ->
  exists o, VerifyNewCommit cd p CQsum j data = Ret o /\
    forall C, o = Some C <-> (FromCompressedG1 cd data = Some C /\ CommitToPoly (p_KZG p) (secy B' (of_nat j)) = Ret C).
Proof.
  intros cd p B B' CQsum j data W HB HB' HH HU Hj HD.
  rewrite (verify_new_commit cd party_secret p B (bsub B' B) CQsum W HB (set_coms p B W HB HH) (proj1 HU)
    (set_sums p B B' CQsum W HB HB' HU)) by exact Hj.
  unfold ncom. rewrite (set_eq p B B' W HB HB'), (set_com p W B') by exact HB'.
  destruct (FromCompressedG1 cd data) as [g|]; [|congruence]. eexists. split; [reflexivity|]. intros C.
  destruct (EqualG1 g _) eqn:EQ.
  - apply EqualG1_eq in EQ. subst g. split.
    + intros E. injection E as <-. split; reflexivity.
    + intros (E & _). exact E.
  - split; [discriminate|]. intros (E & EC). injection E as <-.
    apply (f_equal (fun x => match x with Ret a => a | _ => ZeroG1 end)) in EC. subst g.
    rewrite (proj2 (EqualG1_eq _ _) eq_refl) in EQ. discriminate.
Qed.
Print Assumptions c28_new_commitment.

(** Without forged openings the full share, when it is computed, is the refreshed one. *)
Theorem c28_safe : forall cd p B B' CQsum evs st full, party_wf party_secret p ->
  bdeg (p_F p) (2 * p_F p) B -> bdeg (p_F p) (2 * p_F p) B' -> holds_commitments B p -> updates B B' p CQsum ->
  dist_no_forgery cd p B' evs ->
  drun cd p CQsum (dist_init (p_N p)) evs = Ret st -> d_share st = Some full -> full = secx B' (me p).
Proof.
  intros cd p B B' CQsum evs st full W HB HB' HH HU NF ER ES.
  pose proof (drun_inv cd party_secret p B (bsub B' B) CQsum W HB (set_deg p B B' HB HB')
    (set_coms p B W HB HH) (proj1 HU) (set_sums p B B' CQsum W HB HB' HU) evs (dist_init (p_N p)) st
    (dinv_init cd party_secret p B (bsub B' B) CQsum (proj1 HU)) (set_ok cd p B B' W HB HB' evs NF) ER) as (_ & _ & _ & _ & _ & D).
  rewrite ES in D. rewrite (set_eq p B B' W HB HB') in D. exact D.
Qed.
Print Assumptions c28_safe.

Lemma active_hon cd p B B' evs j : codec_ok cd -> party_wf party_secret p -> (p_PID p < p_N p)%nat ->
  bdeg (p_F p) (2 * p_F p) B -> bdeg (p_F p) (2 * p_F p) B' -> active cd p B' evs j ->
  hon cd party_secret p B (bsub B' B) evs j /\
  In (DvRecv (Z.of_nat (j - 1)) (dmsg cd party_secret p B (bsub B' B) j)) evs.
Proof.
  intros HC W HP HB HB' (q & data & ms & m & (WQ & QN & QF & QP & QR) & Ej & EC & EM & EN & I1 & I2 & U1 & U2).
  pose proof W as (W1 & _ & W3 & _). pose proof WQ as (Q1 & _). rewrite QF in Q1.
  assert (ED : data = ToCompressedG1 cd (ncom party_secret B (bsub B' B) j)).
  { unfold NewCommitSend in EC. rewrite QR in EC.
    rewrite (commit_section party_secret (p_F p + 1) _ (p_F p) (2 * p_F p) _ _ Q1 HB') in EC by lia. cbn [bind] in EC.
    apply (f_equal (fun x => match x with Ret a => a | _ => [] end)) in EC. subst data. unfold ncom.
    rewrite (set_eq p B B' W HB HB'). unfold me. rewrite Ej. reflexivity. }
  assert (EMM : m = dmsg cd party_secret p B (bsub B' B) j).
  { unfold DistributeSend in EM. rewrite QN, QR in EM.
    rewrite (gomap_ret _ (fun k => mkSD (FrTo32 (beval B' (of_nat k) (me q)))
      (ToCompressedG1 cd (mkG1 (peval (wrow party_secret B' (of_nat k)) (me q)))))) in EM.
    2:{ intros k _. rewrite (witness_section party_secret (p_F p + 1) _ (p_F p) (2 * p_F p) _ _ _ Q1 HB') by lia. cbn [bind].
        rewrite EvalPolyAt_correct, peval_secy. reflexivity. }
    apply (f_equal (fun x => match x with Ret a => a | _ => [] end)) in EM. subst ms.
    rewrite nth_error_map, (nth_error_nth' (seq 1 (p_N p)) O) in EN by (rewrite seq_length; exact HP).
    rewrite seq_nth in EN by exact HP. cbn [option_map] in EN.
    apply (f_equal (fun x => match x with Some a => a | _ => m end)) in EN. rewrite <- EN. unfold dmsg.
    rewrite (set_eq p B B' W HB HB'). unfold me. rewrite Ej, (Nat.add_comm 1). reflexivity. }
  assert (EZ : Z.of_nat (p_PID q) = Z.of_nat (j - 1)) by lia. rewrite EZ in *.
  split; [|rewrite <- EMM; exact I2]. split; [lia|]. rewrite <- ED. split; [exact I1|]. split; [exact U1|].
  intros m' Hm. rewrite <- EMM. apply U2. exact Hm.
Qed.

(** With 2F+1 honest and active members, a member that has processed everything has the full refreshed share. *)
Theorem c28_complete : forall cd p B B' CQsum evs st G, codec_ok cd -> (Z.of_nat (p_N p) < 2 ^ 32)%Z ->
  party_wf party_secret p -> (p_PID p < p_N p)%nat ->
  bdeg (p_F p) (2 * p_F p) B -> bdeg (p_F p) (2 * p_F p) B' -> holds_commitments B p -> updates B B' p CQsum ->
  (* one message per member *)
  NoDup (dsenders evs) -> (forall i, In i (dsenders evs) -> (0 <= i < Z.of_nat (p_N p))%Z) ->
  dist_no_forgery cd p B' evs ->
  NoDup G -> length G = (2 * p_F p + 1)%nat -> Forall (active cd p B' evs) G ->
  drun cd p CQsum (dist_init (p_N p)) evs = Ret st -> settled st ->
  d_share st = Some (secx B' (me p)).
Proof.
  intros cd p B B' CQsum evs st G HC HN W HP HB HB' HH HU ND HR NF NG LG HA ER HS.
  rewrite <- (set_eq p B B' W HB HB') at 1.
  apply (dist_complete cd party_secret p B (bsub B' B) CQsum W HB (set_deg p B B' HB HB')
    (set_coms p B W HB HH) (proj1 HU) (set_sums p B B' CQsum W HB HB' HU) HC HN evs st G ND HR
    (set_ok cd p B B' W HB HB' evs NF) ER HS NG LG).
  intros j Hj. rewrite Forall_forall in HA. apply active_hon; auto.
Qed.
Print Assumptions c28_complete.

(** No sequence of messages that decode, from members, stops the process; and the pending goroutines
    come to an end. *)
Theorem c28_runs : forall cd p B B' CQsum evs, (Z.of_nat (p_N p) < 2 ^ 32)%Z -> party_wf party_secret p ->
  bdeg (p_F p) (2 * p_F p) B -> bdeg (p_F p) (2 * p_F p) B' -> holds_commitments B p -> updates B B' p CQsum ->
  dist_no_forgery cd p B' evs ->
  (forall j d, In (DvCommit j d) evs -> FromCompressedG1 cd d <> None) ->
  (forall i m, In (DvRecv i m) evs -> (0 <= i < Z.of_nat (p_N p))%Z /\ FromCompressedG1 cd (sd_WB m) <> None) ->
  exists gos st, drun cd p CQsum (dist_init (p_N p)) (evs ++ map DvGo gos) = Ret st /\ settled st.
Proof.
  intros cd p B B' CQsum evs HN W HB HB' HH HU NF HD1 HD2.
  destruct (drun_total cd party_secret p B (bsub B' B) CQsum W HB (set_deg p B B' HB HB')
    (set_coms p B W HB HH) (proj1 HU) (set_sums p B B' CQsum W HB HB' HU) HN evs (dist_init (p_N p))
    (dinv_init cd party_secret p B (bsub B' B) CQsum (proj1 HU))) as (st1 & E1 & I1 & D1).
  { intros j m []. }
  { apply set_ok; assumption. }
  { apply Forall_forall. intros [j d|i m|i] Hin; cbn [ev_decodes]; [eapply HD1|eapply HD2|exact I]; exact Hin. }
  destruct (drun_settle cd party_secret p B (bsub B' B) CQsum W HB (set_deg p B B' HB HB') (proj1 HU) _ st1 (le_n _) I1 D1)
    as (gos & st & E2 & Q).
  exists gos, st. split; [|exact Q]. unfold drun in *. rewrite gofold_app, E1. exact E2.
Qed.
Print Assumptions c28_runs.

(** ** C53 Starvation *)

(** N messages in the name of one member, whatever they contain, and the member never gets its full
    share: no message of the others is looked at. *)
Theorem c53_starved_refuted : forall cd p CQsum i m evs st, (1 <= p_F p)%nat -> (Z.of_nat (p_N p) < 2 ^ 32)%Z ->
  (0 <= i < Z.of_nat (p_N p))%Z ->
  drun cd p CQsum (dist_init (p_N p)) (repeat (DvRecv i m) (p_N p) ++ evs) = Ret st -> d_share st = None.
Proof.
  intros cd p CQsum i m evs st HF HN Hi E. unfold drun in E. rewrite gofold_app in E. apply bind_ret in E.
  destruct E as (st1 & E1 & E2). set (k := Z.to_nat (i + 1)).
  assert (S1 : forall n l, gofold (dstep cd p CQsum) (repeat (DvRecv i m) n)
     (mkDst (repeat false (p_N p + 1)) (repeat ZeroG1 (p_N p + 1)) (repeat false (p_N p + 1)) n l [] None) =
     Ret (mkDst (repeat false (p_N p + 1)) (repeat ZeroG1 (p_N p + 1)) (repeat false (p_N p + 1)) 0 (l ++ repeat (k, m) n) [] None)).
  { induction n as [|n IH]; intros l; [cbn [repeat gofold]; rewrite app_nil_r; reflexivity|].
    cbn [repeat gofold dstep]. unfold d_recv. cbn [d_free d_ncDone d_SCom d_token d_wait d_SB d_share].
    assert ((i + 1) mod 2 ^ 32 = i + 1)%Z as -> by (apply Z.mod_small; lia).
    destruct (Z.ltb_spec (Z.of_nat (p_N p)) (i + 1)); [lia|]. cbn [bind]. rewrite IH, <- app_assoc. reflexivity. }
  unfold dist_init in E1. rewrite S1 in E1. cbn [app] in E1. clear S1.
  set (P := fun st : dst => d_free st = O /\ (forall x, In x (d_wait st) -> fst x = k) /\ d_share st = None /\
    (k < length (d_ncDone st))%nat /\ (k < length (d_token st))%nat /\
    (length (d_SB st) + (if nth k (d_token st) false then 1 else 0) + (if nth k (d_ncDone st) false then 0 else 1) <= 1)%nat).
  assert (P1 : P st1).
  { apply (f_equal (fun x => match x with Ret a => a | _ => dist_init 0 end)) in E1. subst st1. unfold P.
    cbn [d_free d_ncDone d_SCom d_token d_wait d_SB d_share]. split; [reflexivity|]. split.
    { intros x Hx. apply repeat_spec in Hx. subst x. reflexivity. }
    split; [reflexivity|]. rewrite !repeat_length. split; [unfold k; lia|]. split; [unfold k; lia|].
    rewrite !(nth_repeat_len false false (p_N p + 1) k eq_refl). simpl. lia. }
  assert (STEP : forall e st st', P st -> dstep cd p CQsum st e = Ret st' -> P st').
  { clear - HF. intros e st st' (A1 & A2 & A3 & A4 & A5 & A6) E. destruct e as [j d|i' m'|i']; cbn [dstep] in E.
    - unfold d_commit in E. destruct (negb _ || _) eqn:G in E; [injection E as <-; unfold P; auto 10|].
      apply orb_false_iff in G. destruct G as (G1 & G2). apply negb_false_iff, andb_true_iff in G1. rewrite !Nat.leb_le in G1.
      apply bind_ret in E. destruct E as (o & _ & E).
      assert (G3 : (j < length (d_ncDone st))%nat).
      { destruct (le_lt_dec (length (d_ncDone st)) j) as [X|X]; [rewrite nth_overflow in G2 by exact X; discriminate|exact X]. }
      rewrite (nth_indep _ true false) in G2 by exact G3.
      apply (f_equal (fun x => match x with Ret a => a | _ => st' end)) in E. subst st'.
      destruct o as [C|]; unfold P; cbn [d_free d_ncDone d_SCom d_token d_wait d_SB d_share]; rewrite ?length_set_nth;
        (split; [exact A1|]; split; [exact A2|]; split; [exact A3|]; split; [exact A4|]; split; [exact A5|]);
        rewrite ?nth_set_nth; destruct (Nat.eqb_spec j k) as [->|Ne]; cbn [andb]; try (rewrite G2 in A6); 
        rewrite ?(proj2 (Nat.ltb_lt _ _) A4), ?(proj2 (Nat.ltb_lt _ _) A5); try exact A6;
        destruct (nth k (d_token st) false); lia.
    - unfold d_recv in E. rewrite A1 in E. injection E as <-. unfold P; auto 10.
    - unfold d_go in E. destruct (nth_error (d_wait st) i') as [(j, m)|] eqn:EN; [|injection E as <-; unfold P; auto 10].
      pose proof (A2 _ (nth_error_In _ _ EN)) as EJ. cbn [fst] in EJ. subst j.
      destruct (nth k (d_token st) false) eqn:ET; cbn [negb] in E; [|injection E as <-; unfold P; rewrite ET; auto 10].
      apply bind_ret in E. destruct E as (C & _ & E). cbv zeta in E. apply bind_ret in E. destruct E as (w & _ & E).
      apply bind_ret in E. destruct E as (ok & _ & E). rewrite A3 in E.
      assert (SW : forall x, In x (firstn i' (d_wait st) ++ skipn (i' + 1) (d_wait st)) -> fst x = k).
      { intros x Hx. apply A2. exact (in_remove_old _ i' x Hx). }
      assert (LB : length (d_SB st) = O) by lia.
      assert (NN : (if nth k (d_ncDone st) false then 0 else 1)%nat = O) by lia.
      destruct ok.
      + rewrite app_length, LB in E. cbn [length Nat.add] in E.
        rewrite (proj2 (Nat.leb_gt (2 * p_F p + 1) 1)) in E by lia. injection E as <-. unfold P.
        cbn [d_free d_ncDone d_SCom d_token d_wait d_SB d_share]. rewrite length_set_nth, app_length, LB, NN.
        rewrite nth_set_nth_same by exact A5. cbn [length]. repeat (split; [assumption || reflexivity|]). lia.
      + injection E as <-. unfold P.
        cbn [d_free d_ncDone d_SCom d_token d_wait d_SB d_share]. rewrite length_set_nth, LB, NN.
        rewrite nth_set_nth_same by exact A5. repeat (split; [assumption || reflexivity|]). lia. }
  assert (RUN : forall evs st st', P st -> gofold (dstep cd p CQsum) evs st = Ret st' -> P st').
  { clear - STEP. induction evs as [|e evs IH]; intros st st' HP E; [injection E as <-; exact HP|].
    cbn [gofold] in E. apply bind_ret in E. destruct E as (st1 & E1 & E). apply (IH st1); [|exact E].
    apply (STEP e st); assumption. }
  apply (RUN evs st1 st P1 E2).
Qed.
Print Assumptions c53_starved_refuted.
