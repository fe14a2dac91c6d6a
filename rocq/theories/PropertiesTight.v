(** Theorems added after wrong programs had passed the others: zero padding (C57), votes and the acceptance of
    commitments (C25), values of rejected messages (C21). *)

Require Import ZArith List Bool Arith Lia.
From Verif Require Import Prime Fr GoBase Poly PolyModel PolyProofs Biv GroupModel KzgModel KzgProofs.
From Verif Require Import CodecModel CodecProofs PartyModel PartySpec VssModel VssProofs BivProofs.
From Verif Require Import ReduceModel ReduceProofs PropertiesVss PropertiesReduce.
From Verif Require Import ProacModel ProacProofs ProacRun ProacSig ProacRecover ProacDist ProacLinks.
From Verif Require Import PropertiesProac.
Import ListNotations.

(** ** C57 *)

Section Zeros.
Local Open Scope Z_scope.

(** The result is the argument without its trailing zero bytes: all of them and nothing else. *)
Theorem c57_trailing : forall src, exists n,
  src = DeleteZero src ++ repeat 0 n /\ (DeleteZero src = [] \/ exists l b, DeleteZero src = l ++ [b] /\ b <> 0).
Proof.
  intros src. unfold DeleteZero.
  enough (H : forall l, exists n, rev l = rev (drop_zeros l) ++ repeat 0 n /\
    (rev (drop_zeros l) = [] \/ exists l' b, rev (drop_zeros l) = l' ++ [b] /\ b <> 0)).
  { specialize (H (rev src)). rewrite rev_involutive in H. exact H. }
  intros l. induction l as [|b l (n & E & D)].
  - exists O. split; [reflexivity|left; reflexivity].
  - cbn [drop_zeros]. destruct (Z.eqb_spec b 0) as [->|NB].
    + exists (S n). split; [|exact D]. cbn [rev]. rewrite E, <- app_assoc. f_equal.
      change (repeat 0 (S n)) with (repeat 0 (1 + n)). rewrite Nat.add_comm, repeat_app. reflexivity.
    + exists O. split; [cbn [repeat]; symmetry; apply app_nil_r|]. right. exists (rev l), b. split; [reflexivity|exact NB].
Qed.
Print Assumptions c57_trailing.

(** Padding with zeros is undone for data that does not end with a zero byte. *)
Theorem c57_unpad : forall l b n, b <> 0 -> DeleteZero ((l ++ [b]) ++ repeat 0 n) = l ++ [b].
Proof.
  intros l b n NB. unfold DeleteZero. rewrite rev_app_distr.
  assert (R : forall n, rev (repeat 0 n) = repeat 0 n).
  { clear n. induction n as [|n IH]; [reflexivity|]. cbn [repeat rev]. rewrite IH.
    change [0] with (repeat 0 1). rewrite <- repeat_app, Nat.add_comm. reflexivity. }
  assert (D : forall n, drop_zeros (repeat 0 n ++ rev (l ++ [b])) = rev (l ++ [b])).
  { clear n. induction n as [|n IH]; [|exact IH].
    cbn [repeat app]. rewrite rev_app_distr. cbn [rev app drop_zeros]. destruct (Z.eqb_spec b 0); [contradiction|reflexivity]. }
  rewrite R, D. apply rev_involutive.
Qed.
Print Assumptions c57_unpad.

(** Data that ends with a zero byte is not recovered. *)
Theorem c57_roundtrip_refuted : exists src, forall n, DeleteZero (src ++ repeat 0 n) <> src.
Proof.
  exists [5; 0]. intros n. change [5; 0] with ([5] ++ repeat 0 1) at 1. rewrite <- app_assoc, <- repeat_app.
  intros E. pose proof (c57_unpad [] 5 (1 + n) ltac:(lia)) as U. cbn [app] in U, E. rewrite U in E. discriminate E.
Qed.
Print Assumptions c57_roundtrip_refuted.

Example demo_zeros : DeleteZero [0; 7; 0; 9; 0; 0] = [0; 7; 0; 9].
Proof. reflexivity. Qed.
End Zeros.

Local Open Scope F_scope.

(** ** C25: a vote is sent only after the commitments of the dealer have been accepted *)

Section Votes.
Variables (cd : g1codec) (p : Party) (sign : nat -> list Z) (sigok : nat -> list Z -> bool)
  (combine : nat -> list (list Z) -> list Z).

(** What has been accepted stays as it was accepted. *)
Definition accepted (evs : list pev) (st : pst) : Prop :=
  length (s_CQ st) = length (s_comDone st) /\
  forall k, nth k (s_flgCom st) false = true ->
    nth k (s_comDone st) true = true /\ exists data row,
    In (EvCommit k data) evs /\ VerifyCommit cd p row data = Ret (true, nth k (s_CQ st) []).

Lemma accepted_same evs e st st' : accepted evs st -> s_flgCom st' = s_flgCom st -> s_comDone st' = s_comDone st ->
  s_CQ st' = s_CQ st -> accepted (evs ++ [e]) st'.
Proof.
  intros (L & H) E1 E2 E3. split; [congruence|]. intros k Hk. rewrite E1 in Hk. rewrite E2, E3.
  destruct (H k Hk) as (D & data & row & I & V). split; [exact D|]. exists data, row.
  split; [apply in_or_app; left; exact I|exact V].
Qed.

Lemma bind_inv {A B} (m : go A) (f : A -> go B) b : bind m f = Ret b -> exists a, m = Ret a /\ f a = Ret b.
Proof. destruct m; cbn; intros H; try discriminate. eauto. Qed.

Lemma add_point_same st x st' : add_point p st x = Ret st' ->
  s_flgCom st' = s_flgCom st /\ s_comDone st' = s_comDone st /\ s_CQ st' = s_CQ st.
Proof.
  unfold add_point. intros H. apply bind_inv in H. destruct H as (old & _ & H).
  destruct (negb _ && _)%bool.
  - apply bind_inv in H. destruct H as (q & _ & H). injection H as <-. repeat split.
  - injection H as <-. repeat split.
Qed.

Lemma add_sig_same st x st' : add_sig combine p st x = Ret st' ->
  s_flgCom st' = s_flgCom st /\ s_comDone st' = s_comDone st /\ s_CQ st' = s_CQ st.
Proof.
  unfold add_sig. intros H. apply bind_inv in H. destruct H as (old & _ & H).
  destruct (negb _ && _)%bool; injection H as <-; repeat split.
Qed.

Lemma handle_same st x st' : handle sigok combine p st x = Ret st' ->
  s_flgCom st' = s_flgCom st /\ s_comDone st' = s_comDone st /\ s_CQ st' = s_CQ st.
Proof.
  unfold handle. intros H. apply bind_inv in H. destruct H as (ok & _ & H).
  apply bind_inv in H. destruct H as (st1 & H1 & H).
  assert (S : s_flgCom st1 = s_flgCom st /\ s_comDone st1 = s_comDone st /\ s_CQ st1 = s_CQ st).
  { destruct ok; [|injection H1 as <-; repeat split]. apply bind_inv in H1. destruct H1 as (st2 & A & B).
    apply add_point_same in A. apply add_sig_same in B.
    destruct A as (A1 & A2 & A3), B as (B1 & B2 & B3). repeat split; congruence. }
  injection H as <-. destruct (s_MVBASent st1); exact S.
Qed.

Lemma pstep_accepted evs st e st' ms : accepted evs st -> pstep cd sign sigok combine p st e = Ret (st', ms) ->
  accepted (evs ++ [e]) st'.
Proof.
  intros H E. destruct e as [j data|sender m|sender m| |]; cbn [pstep] in E.
  - apply bind_inv in E. destruct E as (st1 & E & X). injection X as <- _.
    unfold do_commit in E. destruct (negb _ || nth j (s_comDone st) true)%bool eqn:G.
    + injection E as <-. eapply accepted_same; eauto.
    + apply orb_false_elim in G. destruct G as (_ & G).
      apply bind_inv in E. destruct E as (row & E1 & E). apply bind_inv in E. destruct E as ((ok & row') & E2 & E).
      apply bind_inv in E. destruct E as (CQ & E3 & E). injection E as <-.
      unfold upd in E3. destruct (Nat.ltb_spec j (length (s_CQ st))) as [Lj|]; [|discriminate E3]. injection E3 as <-.
      destruct H as (L & H). split; cbn [s_CQ s_comDone s_flgCom].
      * rewrite !length_set_nth. exact L.
      * intros k Hk. destruct (Nat.eq_dec j k) as [<-|N].
        -- split; [apply nth_set_nth_same; lia|]. rewrite nth_set_nth_same by exact Lj.
           assert (ok = true) as ->.
           { destruct ok; [reflexivity|]. destruct (H j Hk) as (D & _). congruence. }
           exists data, row. split; [apply in_or_app; right; left; reflexivity|exact E2].
        -- rewrite !nth_set_nth_other by exact N.
           assert (Hk' : nth k (s_flgCom st) false = true).
           { destruct ok; [|exact Hk]. rewrite nth_set_nth_other in Hk by exact N. exact Hk. }
           destruct (H k Hk') as (D & d & r & I & V). split; [exact D|]. exists d, r.
           split; [apply in_or_app; left; exact I|exact V].
  - apply bind_inv in E. destruct E as (ms' & _ & X). injection X as <- _. eapply accepted_same; eauto.
  - apply bind_inv in E. destruct E as (st1 & E & X). injection X as <- _. unfold do_recv in E.
    destruct (s_hold st); [injection E as <-; eapply accepted_same; eauto|].
    apply bind_inv in E. destruct E as (w & _ & E). destruct (_ <? _)%Z; [discriminate E|].
    injection E as <-. eapply accepted_same; eauto.
  - apply bind_inv in E. destruct E as (st1 & E & X). injection X as <- _. unfold do_handle in E.
    destruct (s_hold st) as [x|]; [|injection E as <-; eapply accepted_same; eauto].
    destruct (_ && _)%bool; [|injection E as <-; eapply accepted_same; eauto].
    apply handle_same in E. destruct E as (A & B & C). eapply accepted_same; eauto.
  - injection E as <- _. eapply accepted_same; eauto.
Qed.

Lemma prun_accepted : forall evs done st st', accepted done st -> prun cd sign sigok combine p st evs = Ret st' ->
  accepted (done ++ evs) st'.
Proof.
  induction evs as [|e evs IH]; intros done st st' H E; cbn [prun] in E.
  - injection E as <-. rewrite app_nil_r. exact H.
  - apply bind_inv in E. destruct E as ((st1, ms) & E1 & E2).
    pose proof (pstep_accepted _ _ _ _ _ H E1) as H1. specialize (IH _ _ _ H1 E2).
    rewrite <- app_assoc in IH. exact IH.
Qed.

Lemma init_accepted Qs st0 : proac_init p Qs = Ret st0 -> accepted [] st0.
Proof.
  unfold proac_init. intros H. apply bind_inv in H. destruct H as (cs & _ & H).
  apply bind_inv in H. destruct H as (row & _ & H). apply bind_inv in H. destruct H as (CQ & E & H).
  apply bind_inv in H. destruct H as (Q & _ & H). injection H as <-. split; cbn [s_CQ s_comDone s_flgCom].
  - unfold upd in E. destruct (_ <? _)%nat; [|discriminate E]. injection E as <-.
    rewrite length_set_nth, !repeat_length. reflexivity.
  - intros k Hk. exfalso. rewrite nth_repeat in Hk. discriminate Hk.
Qed.
End Votes.

(** In every execution, whatever is delivered in whatever order: if a member answers a reshare message with recover
    messages, then a broadcast with commitments of that dealer has been delivered before, it has passed the
    verification, and the points were checked against the commitments of this broadcast. *)
Theorem c25_votes_after_acceptance : forall cd p sign sigok combine Qs st0 evs st sender m st' ms,
  proac_init p Qs = Ret st0 -> prun cd sign sigok combine p st0 evs = Ret st ->
  pstep cd sign sigok combine p st (EvReshare sender m) = Ret (st', ms) -> ms <> [] ->
  let k := ((sender + 1) mod 2 ^ 32)%Z in
  exists data row0 row, In (EvCommit (Z.to_nat k) data) evs /\ VerifyCommit cd p row0 data = Ret (true, row) /\
    Vote cd p row k (sign (Z.to_nat k)) m = Ret (Some ms).
Proof.
  intros cd p sign sigok combine Qs st0 evs st sender m st' ms E0 ER EP NM k.
  pose proof (prun_accepted cd p sign sigok combine evs [] st0 st (init_accepted cd p Qs st0 E0) ER) as (_ & A).
  cbn [pstep] in EP. apply bind_inv in EP. destruct EP as (ms' & E & X). injection X as _ ->.
  unfold do_reshare in E. fold k in E. apply bind_inv in E. destruct E as (flg & E1 & E).
  destruct flg; cbn [negb] in E; [|injection E as E; congruence].
  apply bind_inv in E. destruct E as (row & E2 & E). apply bind_inv in E. destruct E as (o & E3 & E).
  destruct o as [ms2|]; [|injection E as E; congruence]. injection E as ->.
  unfold idx in E1, E2. destruct (nth_error (s_flgCom st) (Z.to_nat k)) as [f|] eqn:F1; [|discriminate E1].
  injection E1 as ->. destruct (nth_error (s_CQ st) (Z.to_nat k)) as [rw|] eqn:F2; [|discriminate E2].
  injection E2 as ->. apply (nth_error_nth _ _ false) in F1. apply (nth_error_nth _ _ []) in F2.
  destruct (A (Z.to_nat k) F1) as (_ & data & row0 & I & V). exists data, row0, row.
  rewrite F2 in V. split; [exact I|]. split; [exact V|exact E3].
Qed.
Print Assumptions c25_votes_after_acceptance.

(** ** C21: the value of a rejected message *)

(** Also the value of a message that was rejected is used in place of a value that is not canonical. *)
Theorem c21_stale_rejected_refuted : forall cd p' v, codec_ok cd -> party_wf party_secret p' -> p_F p' = 1%nat ->
  exists m1 m2 m3, FrFrom32 (to32 (sr_V m2)) = None /\
    CheckProofSingle (p_KZG p') (mkG1 (v + 1)) (mkG1 0) (of_Z 1) v = Ret false /\
    sr_C m1 = ToCompressedG1 cd (mkG1 (v + 1)) /\ sr_V m1 = FrTo32 v /\ sr_W m1 = ToCompressedG1 cd (mkG1 0) /\
    sr_V m3 = FrTo32 v /\
    exists p'', ShareReduceReceive cd p' [(0%Z, m1); (1%Z, m2); (2%Z, m3)] = Ret (Some p'') /\
      p_reducedShare p'' = [v; 0].
Proof.
  intros cd p' v HC WP PF. pose proof WP as (W1 & _ & W3 & _). rewrite PF in W1.
  exists (mkSR (ToCompressedG1 cd (mkG1 (v + 1))) (FrTo32 v) (ToCompressedG1 cd (mkG1 0))).
  exists (mkSR (ToCompressedG1 cd (mkG1 v)) (repeat 255%Z 32) (ToCompressedG1 cd (mkG1 0))).
  exists (mkSR (ToCompressedG1 cd (mkG1 v)) (FrTo32 v) (ToCompressedG1 cd (mkG1 0))).
  assert (EN : FrFrom32 (to32 (repeat 255%Z 32)) = None) by (vm_compute; reflexivity).
  cbn [sr_V sr_C sr_W]. split; [exact EN|].
  assert (CK : forall x, CheckProofSingle (p_KZG p') (mkG1 v) (mkG1 0) x v = Ret true).
  { intros x. apply (check_iff party_secret 2 (p_KZG p') W1); [lia|]. cbn [dlog1]. ring. }
  assert (CN : forall x, CheckProofSingle (p_KZG p') (mkG1 (v + 1)) (mkG1 0) x v = Ret false).
  { intros x. rewrite (check_correct party_secret 2 (p_KZG p') W1) by lia. f_equal.
    cbn [dlog1]. apply feqb_neq. intros Q. apply f1_neq_0.
    apply (f_equal (fun t => t)) in Q. ring_simplify in Q. exact Q. }
  split; [apply CN|]. do 4 (split; [reflexivity|]).
  assert (EL : sr_loop cd p' sr_init
    [(0%Z, mkSR (ToCompressedG1 cd (mkG1 (v + 1))) (FrTo32 v) (ToCompressedG1 cd (mkG1 0)));
     (1%Z, mkSR (ToCompressedG1 cd (mkG1 v)) (repeat 255%Z 32) (ToCompressedG1 cd (mkG1 0)));
     (2%Z, mkSR (ToCompressedG1 cd (mkG1 v)) (FrTo32 v) (ToCompressedG1 cd (mkG1 0)))] =
    Ret (Some [mkPoint 2 v; mkPoint 3 v])).
  { cbn [sr_loop]. unfold sr_step at 1. cbn [sr_C sr_W sr_V]. unfold ReadG1. rewrite !HC. cbn [bind].
    rewrite to32_FrTo32. unfold FrFrom32_into. rewrite FrFrom32_FrTo32, CN. cbn [bind].
    unfold sr_step at 1. cbn [sr_C sr_W sr_V sr_vJ sr_map_of sr_init]. unfold ReadG1. rewrite !HC. cbn [bind].
    unfold FrFrom32_into. rewrite EN, CK. cbn [bind DispatchModel.lookup fst snd].
    rewrite PF. change (1 + 1 <=? 1)%nat with false. cbn match. cbn [bind].
    unfold sr_step. cbn [sr_C sr_W sr_V sr_vJ sr_map_of]. unfold ReadG1. rewrite !HC. cbn [bind].
    unfold FrFrom32_into. rewrite to32_FrTo32, FrFrom32_FrTo32, CK. cbn [bind]. rewrite DispatchProofs.lookup_update_same. cbn [snd fst].
    rewrite PF. reflexivity. }
  unfold ShareReduceReceive. rewrite EL. cbn [bind]. rewrite PF. cbn [Nat.add seq gomap bind idx nth_error pt_X pt_Y].
  pose proof (LagrangeInterpolate_values 1 [of_Z 2; of_Z 3] [v; 0]) as LI. cbn [map] in LI.
  replace (peval [v; 0] (of_Z 2)) with v in LI by (cbn [peval]; ring).
  replace (peval [v; 0] (of_Z 3)) with v in LI by (cbn [peval]; ring).
  rewrite LI; [|repeat constructor; cbn; intuition discriminate|simpl; lia|reflexivity].
  cbn [bind]. eexists. split; reflexivity.
Qed.
Print Assumptions c21_stale_rejected_refuted.

(** With a dealer that follows the protocol the member does vote: the commitments arrive, then the points. *)
Theorem c25_vote_happens : forall cd s p sign sigok combine QB k, codec_ok cd -> party_wf s p -> (p_PID p < p_N p)%nat ->
  (Z.of_nat (p_N p) < 2 ^ 32)%Z -> bdeg (p_F p) (2 * p_F p) QB -> beval QB 0 0 = 0 -> (1 <= k <= p_N p)%nat ->
  exists st0 data st ms m votes,
    proac_init p (map (fun j => secy QB (of_nat j)) (seq 1 (2 * p_F p + 1))) = Ret st0 /\
    CommitSend cd (p_KZG p) (map (fun j => secy QB (of_nat j)) (seq 1 (2 * p_F p + 1))) = Ret data /\
    ReshareSend cd (p_KZG p) (p_N p) (map (fun j => secy QB (of_nat j)) (seq 1 (2 * p_F p + 1))) = Ret ms /\
    nth_error ms (p_PID p) = Some m /\
    prun cd sign sigok combine p st0 [EvCommit k data] = Ret st /\
    pstep cd sign sigok combine p st (EvReshare (Z.of_nat (k - 1)) m) = Ret (st, votes) /\ length votes = p_N p.
Proof.
  intros cd s p sign sigok combine QB k HC W HP HN HB H0 Hk. pose proof W as (W1 & _ & W3 & W4 & W5 & _).
  destruct (init_inv s p (fun _ => QB) W HP QB HB) as (st0 & E0 & I0 & J1 & _ & _ & _ & _ & _ & _ & _ & J9 & _).
  destruct I0 as (L & _). destruct L as (L1 & L2 & L3 & L4 & _ & _ & _ & _ & _ & L10 & _).
  destruct (verify_honest cd s p W QB (nth k (s_CQ st0) []) HC HB H0 (L10 k ltac:(lia))) as (row' & EV & LR' & HR).
  exists st0. eexists. eexists. eexists. exists (reshare_msg cd s p QB (p_PID p + 1)). eexists.
  split; [exact E0|].
  split; [apply (commit_send_correct cd s (p_KZG p) (p_F p) QB W1 HB)|].
  split; [apply (reshare_send_correct cd s (p_KZG p) (p_F p) QB W1 HB)|].
  split.
  { rewrite nth_error_map, (nth_error_nth' (seq 1 (p_N p)) O) by (rewrite seq_length; exact HP).
    rewrite seq_nth by exact HP. cbn [option_map]. rewrite (Nat.add_comm 1). reflexivity. }
  split.
  { cbn [prun pstep]. unfold do_commit.
    assert (G : (negb ((1 <=? k) && (k <=? p_N p))%nat || nth k (s_comDone st0) true)%bool = false).
    { rewrite J9, nth_repeat_in by lia. destruct (Nat.leb_spec 1 k), (Nat.leb_spec k (p_N p)); try lia; reflexivity. }
    rewrite G, (idx_nth []) by lia. cbn [bind]. rewrite EV. cbn [bind].
    unfold upd. destruct (Nat.ltb_spec k (length (s_CQ st0))); [|lia]. cbn [bind]. try reflexivity. }
  cbn [fst pstep]. unfold do_reshare. cbn [s_flgCom s_CQ].
  assert (EK : ((Z.of_nat (k - 1) + 1) mod 2 ^ 32)%Z = Z.of_nat k) by (rewrite Z.mod_small by lia; lia).
  rewrite EK, Nat2Z.id. rewrite (idx_nth false) by (rewrite length_set_nth; lia). cbn [bind].
  rewrite nth_set_nth_same by lia. cbn [negb].
  rewrite (idx_nth []) by (rewrite length_set_nth; lia). cbn [bind]. rewrite nth_set_nth_same by lia.
  rewrite (vote_honest cd s p W QB _ _ row' HC HB LR' HR). cbn [bind].
  split; [reflexivity|]. rewrite map_length, seq_length. reflexivity.
Qed.
Print Assumptions c25_vote_happens.

(** The hypotheses of the theorems on votes are met by a new member of a committee of four. *)
Example votes_example : exists p st0 data st m votes, NewHonestParty 4 1 2 = Ret p /\
  proac_init p (map (fun j => secy [[0; 0]; [0; 1]; [0; 0]] (of_nat j)) (seq 1 (2 * p_F p + 1))) = Ret st0 /\
  prun demo_codec (fun _ => [7%Z]) (fun _ _ => true) (fun _ _ => []) p st0 [EvCommit 4 data] = Ret st /\
  pstep demo_codec (fun _ => [7%Z]) (fun _ _ => true) (fun _ _ => []) p st (EvReshare 3 m) = Ret (st, votes) /\
  votes <> [].
Proof.
  destruct (new_party 4 1 2) as (p & EP & WP & PN & PF & PI); try lia; [rewrite r_eq; lia|].
  destruct (c25_vote_happens demo_codec party_secret p (fun _ => [7%Z]) (fun _ _ => true) (fun _ _ => [])
    [[0; 0]; [0; 1]; [0; 0]] 4 demo_codec_ok WP) as (st0 & data & st & ms & m & votes & E0 & _ & _ & _ & E1 & E2 & E3).
  - lia.
  - rewrite PN. reflexivity.
  - rewrite PF. split; [reflexivity|repeat constructor].
  - unfold beval. cbn [secy map peval]. ring.
  - lia.
  - exists p, st0, data, st, m, votes. repeat (split; [assumption|]). intros ->. cbn in E3. lia.
Qed.
