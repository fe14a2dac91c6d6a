(** C28: the commitment and the point which an honest member distributes are accepted by every receiver
    (proac.go:535-565, 572-607, 627-676). *)

Require Import ZArith List Bool Arith Lia.
From Verif Require Import Prime Fr Bytes CodecModel CodecProofs GoBase Poly PolyModel PolyProofs Biv GroupModel KzgModel KzgProofs.
From Verif Require Import PartyModel PartySpec VssModel VssProofs VssProofs2 BivProofs.
From Verif Require Import ReduceModel ReduceProofs PropertiesVss PropertiesReduce.
From Verif Require Import ProacModel ProacProofs ProacRun ProacSig ProacRecover ProacDist ProacLinks.
From Verif Require Import PropertiesProac PropertiesRefresh.
From Verif Require Import PropertiesDist PropertiesStage PropertiesSplit.
Import ListNotations.
Local Open Scope F_scope.

Theorem c28_point : forall cd p B B' CQsum q, codec_ok cd -> party_wf party_secret p -> (p_PID p < p_N p)%nat ->
  bdeg (p_F p) (2 * p_F p) B -> bdeg (p_F p) (2 * p_F p) B' -> holds_commitments B p -> updates B B' p CQsum -> refreshed p B' q ->
  exists data ms m C w, NewCommitSend cd q = Ret data /\ VerifyNewCommit cd p CQsum (p_PID q + 1) data = Ret (Some C) /\
    DistributeSend cd q = Ret ms /\ length ms = p_N p /\ nth_error ms (p_PID p) = Some m /\
    sd_B m = FrTo32 (beval B' (me p) (me q)) /\ FromCompressedG1 cd (sd_WB m) = Some w /\
    CheckProofSingle (p_KZG p) C w (me p) (beval B' (me p) (me q)) = Ret true.
Proof.
  intros cd p B B' CQsum q HC W HP HB HB' HH HU (WQ & QN & QF & QP & QR).
  pose proof W as (W1 & _ & W3 & _). pose proof WQ as (Q1 & _). rewrite QF in Q1.
  set (C := mkG1 (peval (secx B' party_secret) (me q))).
  set (msg := fun k => mkSD (FrTo32 (beval B' (of_nat k) (me q))) (ToCompressedG1 cd (mkG1 (peval (wrow party_secret B' (of_nat k)) (me q))))).
  exists (ToCompressedG1 cd C), (map msg (seq 1 (p_N p))), (msg (p_PID p + 1)%nat), C, (mkG1 (peval (wrow party_secret B' (me p)) (me q))).
  split. { unfold NewCommitSend. rewrite QR, (commit_section party_secret (p_F p + 1) _ (p_F p) (2 * p_F p) _ _ Q1 HB') by lia. reflexivity. }
  split.
  { destruct (c28_new_commitment cd p B B' CQsum (p_PID q + 1) (ToCompressedG1 cd C) W HB HB' HH HU ltac:(lia) ltac:(rewrite HC; discriminate)) as (o & E & I).
    rewrite E. f_equal. apply I. split; [apply HC|]. apply (set_com p W B' _ HB'). }
  split.
  { unfold DistributeSend. rewrite QN, QR. apply gomap_ret. intros k _.
    rewrite (witness_section party_secret (p_F p + 1) _ (p_F p) (2 * p_F p) _ _ _ Q1 HB') by lia. cbn [bind]. rewrite EvalPolyAt_correct, peval_secy. reflexivity. }
  split; [rewrite map_length; apply seq_length|]. split.
  { rewrite nth_error_map, (nth_error_nth' (seq 1 (p_N p)) O) by (rewrite seq_length; exact HP). rewrite seq_nth by exact HP. cbn [option_map]. rewrite (Nat.add_comm 1). reflexivity. }
  split; [reflexivity|]. split; [apply HC|].
  apply (check_iff party_secret (p_F p + 1) _ W1); [lia|]. cbn [dlog1]. unfold C. apply (opening party_secret B' (p_F p) (2 * p_F p)). exact HB'.
Qed.
Print Assumptions c28_point.

(** N = 4, F = 1: member 3 of a committee refreshed with xy sends to member 2. *)
Definition before : list (list Fr) := [[of_nat 7; 0]; [0; of_nat 3]; [1; 0]].
Definition after : list (list Fr) := [[of_nat 7; 0]; [0; of_nat 4]; [1; 0]].
Definition gains : list G1 := map (fun j => mkG1 (party_secret * of_nat j)) (seq 0 5).
Example c28_point_example : exists p q, party_wf party_secret p /\ p_N p = 4%nat /\ p_F p = 1%nat /\ p_PID p = 1%nat /\
  bdeg 1 2 before /\ bdeg 1 2 after /\ holds_commitments before p /\ updates before after p gains /\ refreshed p after q /\ p_PID q = 2%nat /\
  exists data ms m C w, NewCommitSend demo_codec q = Ret data /\ VerifyNewCommit demo_codec p gains 3 data = Ret (Some C) /\
    DistributeSend demo_codec q = Ret ms /\ nth_error ms 1 = Some m /\ sd_B m = FrTo32 (of_nat 40) /\ FromCompressedG1 demo_codec (sd_WB m) = Some w /\
    CheckProofSingle (p_KZG p) C w (of_nat 2) (of_nat 40) = Ret true.
Proof.
  destruct c76_ex as (ps & n0 & CM & S0 & HB & HR & _). destruct CM as (C1 & _).
  destruct (C1 2%nat ltac:(apply in_seq; lia)) as (W & EN & EF & EP). destruct (C1 3%nat ltac:(apply in_seq; lia)) as (W' & EN' & EF' & EP').
  set (p := ps 2%nat) in *. set (q := set_reducedShare (ps 3%nat) (secy after (of_nat 3))).
  assert (HB' : bdeg 1 2 after) by (split; [reflexivity|repeat constructor]).
  assert (HH : holds_commitments before p) by (apply HR; lia).
  assert (HU : updates before after p gains).
  { split; [rewrite EN; reflexivity|]. intros j C Hj. rewrite (set_com p W before) by (rewrite EF; exact HB). rewrite (set_com p W after) by (rewrite EF; exact HB').
    intros E. injection E as <-. f_equal. unfold gains. set (f := fun j => mkG1 (party_secret * of_nat j)). rewrite (nth_indep _ ZeroG1 (f 0%nat)) by (rewrite map_length, seq_length; lia).
    rewrite map_nth, seq_nth by lia. unfold f. cbn [plus]. unfold AddG1. cbn [dlog1]. f_equal. rewrite !peval_secx. unfold before, after, beval. cbn [secy map peval].
    generalize party_secret (of_nat j). intros a b. replace (of_nat 4) with (of_nat 3 + 1) by (apply Fr_ext; vm_compute; reflexivity). ring. }
  assert (RF : refreshed p after q).
  { unfold refreshed, q. cbn [set_reducedShare p_N p_F p_PID p_reducedShare]. split; [exact W'|]. rewrite EN, EF, EN', EF', EP'. repeat split; try lia. unfold me. cbn [set_reducedShare p_PID]. rewrite EP'. reflexivity. }
  exists p, q. split; [exact W|]. split; [exact EN|]. split; [exact EF|]. split; [rewrite EP; reflexivity|]. split; [exact HB|]. split; [exact HB'|]. split; [exact HH|]. split; [exact HU|]. split; [exact RF|].
  split; [exact EP'|].
  destruct (c28_point demo_codec p before after gains q demo_codec_ok W) as (data & ms & m & C & w & E1 & E2 & E3 & _ & E4 & E5 & E6 & E7); auto.
  - rewrite EN, EP. lia.
  - rewrite EF. exact HB.
  - rewrite EF. exact HB'.
  - assert (V : beval after (me p) (me q) = of_nat 40) by (unfold me, q; cbn [set_reducedShare p_PID]; rewrite EP, EP'; apply Fr_ext; vm_compute; reflexivity).
    exists data, ms, m, C, w. rewrite V in E5, E7. unfold me in E7. rewrite EP in E4, E7. unfold q in E2. cbn [set_reducedShare p_PID] in E2. rewrite EP' in E2. auto 10.
Qed.
