(** Headline theorems: refreshing of the shares in the new committee (C23-C26). *)

Require Import ZArith List Lia Bool Arith Permutation.
From Verif Require Import Prime Fr Bytes CodecModel CodecProofs GoBase Poly Biv BivProofs PolyModel PolyProofs
  GroupModel KzgModel KzgProofs PartyModel PartySpec VssModel VssProofs VssProofs2 ReduceModel ReduceProofs
  PropertiesVss PropertiesReduce ProacModel ProacProofs ProacRun ProacSig ProacRecover ProacDist ProacLinks.
Import ListNotations.
Local Open Scope F_scope.

(** ** C24 Verification of the commit messages *)

(** The commit message of a member that follows the protocol, with any randomness, is accepted by
    every member, and the member then knows the commitments to Q(., j) for all j. *)
Theorem c24_honest : forall cd s p rF rQ row, codec_ok cd -> party_wf s p ->
  length rF = (2 * p_F p + 1)%nat -> length rQ = (2 * p_F p + 1)%nat ->
  Forall (fun q => length q = (p_F p + 1)%nat) rQ -> length row = (p_N p + 1)%nat ->
  exists QB data row', bdeg (p_F p) (2 * p_F p) QB /\ beval QB 0 0 = 0 /\
    proac_Q (p_F p) rF rQ = map (fun j => secy QB (of_nat j)) (seq 1 (2 * p_F p + 1)) /\
    CommitSend cd (p_KZG p) (proac_Q (p_F p) rF rQ) = Ret data /\
    VerifyCommit cd p row data = Ret (true, row') /\
    forall j, (1 <= j <= p_N p)%nat ->
      CommitToPoly (p_KZG p) (secy QB (of_nat j)) = Ret (nth j row' ZeroG1).
Proof.
  intros cd s p rF rQ row HC W LF LQ LQ2 LR. pose proof W as (W1 & _ & W3 & W4 & W5 & _).
  destruct (proac_biv (p_F p) rF rQ W3 ltac:(lia) LF LQ LQ2) as (QB & HB & H0 & EQ).
  destruct (verify_honest cd s p W QB row HC HB H0 LR) as (row' & EV & _ & HR).
  exists QB. eexists. exists row'. split; [exact HB|]. split; [exact H0|]. split; [exact EQ|]. split.
  - rewrite EQ. apply (commit_send_correct cd s (p_KZG p) (p_F p) QB W1 HB).
  - split; [exact EV|]. intros j Hj. rewrite HR by exact Hj.
    apply (commit_section s (p_F p + 1) _ (p_F p) (2 * p_F p)); auto. lia.
Qed.
Print Assumptions c24_honest.

(** What acceptance means for any message: entry by entry the commitment splits into a part with value 0
    at 0 (the opening is checked) and a part g^f(j), where f has degree at most 2F and f(0) = 0; the
    remaining commitments continue the polynomial through the first 2F+1 ones. *)
Theorem c24_accepted : forall cd s p row data row', party_wf s p -> length row = (p_N p + 1)%nat ->
  VerifyCommit cd p row data = Ret (true, row') ->
  exists f h, (length f <= 2 * p_F p + 1)%nat /\ peval f 0 = 0 /\ (length h <= 2 * p_F p + 1)%nat /\
    (forall j, (1 <= j <= p_N p)%nat -> nth j row' ZeroG1 = MulG1 GenG1 (peval h (of_nat j))) /\
    forall j, (1 <= j <= 2 * p_F p + 1)%nat ->
      exists m CZ wZ, nth_error data (j - 1) = Some m /\
        FromCompressedG1 cd (m_CZj m) = Some CZ /\ FromCompressedG1 cd (m_WZ0 m) = Some wZ /\
        FromCompressedG1 cd (m_GFj m) = Some (MulG1 GenG1 (peval f (of_nat j))) /\
        FromCompressedG1 cd (m_CBj m) = Some (nth j row' ZeroG1) /\
        nth j row' ZeroG1 = AddG1 CZ (MulG1 GenG1 (peval f (of_nat j))) /\
        CheckProofSingle (p_KZG p) CZ wZ 0 0 = Ret true.
Proof.
  intros cd s p row data row' W LR E. pose proof W as (_ & _ & W3 & W4 & W5 & _).
  destruct (verify_commit_decodes cd p data row _ E) as (c & D).
  destruct (verify_commit_spec cd s p W data c row D LR) as (b & row2 & E2 & _ & HT & HV & _).
  rewrite E in E2. injection E2 as <- <-. destruct (proj1 HT eq_refl) as (HG & HF).
  destruct (points_poly (2 * p_F p) (fun j => gFj (c j)) ltac:(lia)) as (f & Lf & Vf).
  destruct (points_poly (2 * p_F p) (fun j => CBj (c j)) ltac:(lia)) as (h & Lh & Vh).
  assert (EM : forall x, MulG1 GenG1 x = mkG1 x) by (intros; unfold MulG1, GenG1; cbn [dlog1]; f_equal; ring).
  specialize (HV eq_refl h ltac:(lia) ltac:(intros; apply Vh; lia)).
  exists f, h. split; [lia|]. split; [apply HF; [lia|intros; apply Vf; lia]|]. split; [lia|].
  split; [intros j Hj; rewrite HV, EM by lia; reflexivity|].
  intros j Hj. destruct (D j Hj) as (m & Em & D1 & D2 & D3 & D4). destruct (HG j Hj) as (G1 & G2).
  exists m, (CZj (c j)), (WZ0 (c j)). rewrite EM. rewrite HV by lia. rewrite <- Vh, <- Vf by lia.
  repeat (split; [assumption|]). exact G2.
Qed.
Print Assumptions c24_accepted.

(** If the sender knows polynomials of degree at most F behind its group elements (q, z, g for the
    commitment and its two parts, u for the witness), acceptance shows that the committed polynomials
    give a sharing of zero -- or one of these polynomials, computed from the sender's,
    is not zero and has the setup secret as a root (the last one uses the coefficients for the
    value at 0). *)
Definition zero_candidates (p : Party) (q z g u : nat -> list Fr) : list (list Fr) :=
  let js := seq 1 (2 * p_F p + 1) in
  map (fun j => psub (psub (q j) (z j)) (g j)) js ++ map (fun j => psub (z j) (0 :: u j)) js ++
  [fold_right padd [] (map (fun j => pscale (nth (j - 1) (nth 0 (p_tab p) []) 0) (g j)) js)].

Lemma peval_fold_padd l x : peval (fold_right padd [] l) x = fsum (map (fun q => peval q x) l).
Proof. induction l as [|a l IH]; [reflexivity|]. cbn [fold_right map fsum]. rewrite peval_padd, IH. reflexivity. Qed.

Lemma length_fold_padd n l : (forall q, In q l -> (length q <= n)%nat) -> (length (fold_right padd [] l) <= n)%nat.
Proof.
  intros H. induction l as [|a l IH]; [simpl; lia|]. cbn [fold_right]. rewrite length_padd.
  pose proof (H a (or_introl eq_refl)). specialize (IH (fun q Hq => H q (or_intror Hq))). lia.
Qed.

Lemma psum_dot (row : list Fr) (g : nat -> list Fr) n x : length row = n ->
  peval (fold_right padd [] (map (fun j => pscale (nth (j - 1) row 0) (g j)) (seq 1 n))) x =
  dot (map (fun j => peval (g j) x) (seq 1 n)) row.
Proof.
  intros L. rewrite peval_fold_padd, map_map.
  assert (E : row = map (fun j => nth (j - 1) row 0) (seq 1 n)).
  { apply (list_ext 0); [rewrite map_length, seq_length; exact L|]. intros i Hi.
    rewrite (nth_map_seq (fun j => nth (j - 1) row 0)) by lia. f_equal. lia. }
  transitivity (dot (map (fun j => peval (g j) x) (seq 1 n)) (map (fun j => nth (j - 1) row 0) (seq 1 n)));
    [|f_equal; symmetry; exact E]. rewrite dot_map. f_equal. apply map_ext. intros j. rewrite peval_pscale. ring.
Qed.

Theorem c24_sharing_of_zero : forall cd s p row data row' (q z g u : nat -> list Fr),
  party_wf s p -> length row = (p_N p + 1)%nat ->
  VerifyCommit cd p row data = Ret (true, row') ->
  (forall j m, (1 <= j <= 2 * p_F p + 1)%nat -> nth_error data (j - 1) = Some m ->
     Forall (fun l => (length l <= p_F p + 1)%nat) [q j; z j; g j; u j] /\
     FromCompressedG1 cd (m_CBj m) = Some (MulG1 GenG1 (peval (q j) s)) /\
     FromCompressedG1 cd (m_CZj m) = Some (MulG1 GenG1 (peval (z j) s)) /\
     FromCompressedG1 cd (m_GFj m) = Some (MulG1 GenG1 (peval (g j) s)) /\
     FromCompressedG1 cd (m_WZ0 m) = Some (MulG1 GenG1 (peval (u j) s))) ->
  (exists f, (length f <= 2 * p_F p + 1)%nat /\ peval f 0 = 0 /\
     forall j, (1 <= j <= 2 * p_F p + 1)%nat -> peval f (of_nat j) = peval (q j) 0) \/
  (exists h, In h (zero_candidates p q z g u) /\ ~ zero_list h /\ (length h <= p_F p + 2)%nat /\ peval h s = 0).
Proof.
  intros cd s p row data row' q z g u W LR E HK. pose proof W as (W1 & W2 & W3 & W4 & W5 & _).
  destruct (c24_accepted cd s p row data row' W LR E) as (f & _ & Lf & F0 & _ & _ & HA).
  destruct (table_row (p_N p) (p_F p) (p_tab p) 0 W2 ltac:(lia) ltac:(lia)) as (trow & ET & LT & VT).
  change (of_nat 0) with 0 in VT.
  assert (ET' : nth 0 (p_tab p) [] = trow).
  { unfold idx in ET. destruct (nth_error (p_tab p) 0) eqn:EN; [|discriminate]. injection ET as <-.
    apply nth_error_nth. exact EN. }
  assert (HD : forall j, (1 <= j <= 2 * p_F p + 1)%nat ->
    Forall (fun l => (length l <= p_F p + 1)%nat) [q j; z j; g j; u j] /\
    peval (q j) s = peval (z j) s + peval (g j) s /\ peval (g j) s = peval f (of_nat j) /\
    peval (z j) s = peval (u j) s * s).
  { intros j Hj. destruct (HA j Hj) as (m & CZ & wZ & Em & A1 & A2 & A3 & A4 & A5 & A6).
    destruct (HK j m Hj Em) as (K0 & K1 & K2 & K3 & K4). split; [exact K0|].
    rewrite K1 in A4. rewrite K2 in A1. rewrite K3 in A3. rewrite K4 in A2.
    apply (f_equal (fun o => match o with Some a => dlog1 a | None => 0 end)) in A1, A2, A3, A4.
    cbn [dlog1 MulG1 GenG1] in A1, A2, A3, A4. apply (f_equal dlog1) in A5. cbn [AddG1 dlog1 MulG1 GenG1] in A5.
    apply (check_iff s (p_F p + 1) (p_KZG p) W1) in A6; [|lia].
    assert (B1 : peval (z j) s = dlog1 CZ) by (rewrite <- A1; ring).
    assert (B2 : peval (u j) s = dlog1 wZ) by (rewrite <- A2; ring).
    assert (B3 : peval (g j) s = peval f (of_nat j)).
    { transitivity (1 * peval (g j) s); [ring|]. rewrite A3. ring. }
    assert (B4 : peval (q j) s = dlog1 (nth j row' ZeroG1)) by (rewrite <- A4; ring).
    split; [|split; [exact B3|]].
    - rewrite B4, A5, B1, B3. ring.
    - rewrite B1, B2. transitivity (dlog1 CZ - 0); [ring|]. rewrite A6. ring. }
  assert (DEC : forall h : list Fr, {zero_list h} + {~ zero_list h}).
  { intros h. apply Forall_dec. intros a. apply Fr_eq_dec. }
  destruct (Forall_Exists_dec zero_list DEC (zero_candidates p q z g u)) as [HZ|HE].
  - left. rewrite Forall_forall in HZ. unfold zero_candidates in HZ.
    destruct (points_poly (2 * p_F p) (fun j => mkG1 (peval (g j) 0)) ltac:(lia)) as (f2 & L2 & V2).
    assert (V2' : forall j, (1 <= j <= 2 * p_F p + 1)%nat -> peval f2 (of_nat j) = peval (g j) 0).
    { intros j Hj. specialize (V2 j Hj). apply (f_equal dlog1) in V2. cbn [dlog1] in V2. symmetry. exact V2. }
    exists f2. split; [lia|]. split.
    + assert (Z : zero_list (fold_right padd [] (map (fun j => pscale (nth (j - 1) (nth 0 (p_tab p) []) 0) (g j))
                (seq 1 (2 * p_F p + 1))))).
      { apply HZ. apply in_or_app. right. apply in_or_app. right. left. reflexivity. }
      apply (peval_zero_list _ 0) in Z. rewrite ET', psum_dot in Z by exact LT.
      rewrite <- (VT f2) by lia. transitivity (dot (map (fun j => peval (g j) 0) (seq 1 (2 * p_F p + 1))) trow); [|exact Z]. f_equal. apply map_ext_in. intros j Hj. apply in_seq in Hj.
      apply V2'. lia.
    + intros j Hj. rewrite V2' by exact Hj.
      assert (Hs : In j (seq 1 (2 * p_F p + 1))) by (apply in_seq; lia).
      assert (Z1 : zero_list (psub (psub (q j) (z j)) (g j))).
      { apply HZ. apply in_or_app. left. apply (in_map (fun j => psub (psub (q j) (z j)) (g j))). exact Hs. }
      assert (Z2 : zero_list (psub (z j) (0 :: u j))).
      { apply HZ. apply in_or_app. right. apply in_or_app. left. apply (in_map (fun j => psub (z j) (0 :: u j))). exact Hs. }
      apply (peval_zero_list _ 0) in Z1. apply (peval_zero_list _ 0) in Z2.
      rewrite !peval_psub in Z1. rewrite peval_psub in Z2. cbn [peval] in Z2.
      assert (Z3 : peval (z j) 0 = 0).
      { transitivity (peval (z j) 0 - (0 + 0 * peval (u j) 0)); [ring|exact Z2]. }
      symmetry. apply fsub_eq_0. transitivity (peval (q j) 0 - peval (z j) 0 - peval (g j) 0); [|exact Z1].
      rewrite Z3. ring.
  - right. apply Exists_exists in HE. destruct HE as (h & Hin & NZ). exists h. split; [exact Hin|].
    split; [exact NZ|]. unfold zero_candidates in Hin. apply in_app_or in Hin. destruct Hin as [Hin|Hin];
      [|apply in_app_or in Hin; destruct Hin as [Hin|[<-|[]]]].
    + apply in_map_iff in Hin. destruct Hin as (j & <- & Hj). apply in_seq in Hj.
      destruct (HD j ltac:(lia)) as (K0 & K1 & K2 & K3). rewrite !Forall_cons_iff in K0. rewrite !length_psub, !peval_psub.
      split; [lia|]. rewrite K1. ring.
    + apply in_map_iff in Hin. destruct Hin as (j & <- & Hj). apply in_seq in Hj.
      destruct (HD j ltac:(lia)) as (K0 & K1 & K2 & K3). rewrite !Forall_cons_iff in K0. rewrite !length_psub, !peval_psub.
      cbn [length peval]. split; [lia|]. rewrite K3. ring.
    + split.
      * pose proof (length_fold_padd (p_F p + 1) (map (fun j => pscale (nth (j - 1) (nth 0 (p_tab p) []) 0) (g j)) (seq 1 (2 * p_F p + 1)))) as LL.
        cbv beta in LL. enough (forall q0, In q0 (map (fun j => pscale (nth (j - 1) (nth 0 (p_tab p) []) 0) (g j)) (seq 1 (2 * p_F p + 1))) -> (length q0 <= p_F p + 1)%nat) as HL by (specialize (LL HL); lia).
        intros x Hx. apply in_map_iff in Hx. destruct Hx as (j & <- & Hj). apply in_seq in Hj.
        destruct (HD j ltac:(lia)) as (K0 & _). rewrite !Forall_cons_iff in K0. rewrite length_pscale. apply K0.
      * rewrite ET', psum_dot by exact LT. transitivity (peval f 0); [|exact F0]. rewrite <- (VT f) by lia. f_equal. apply map_ext_in.
        intros j Hj. apply in_seq in Hj. apply (HD j). lia.
Qed.
Print Assumptions c24_sharing_of_zero.

(** A rejected message leaves a trace: whatever polynomial with a non-zero secret the sender takes,
    its otherwise well-formed message is rejected, and the commitment at 2F+1 stays. *)
Theorem c24_trace_refuted : forall cd s p QB, codec_ok cd -> party_wf s p ->
  bdeg (p_F p) (2 * p_F p) QB -> beval QB 0 0 <> 0 ->
  exists data row', CommitSend cd (p_KZG p) (map (fun j => secy QB (of_nat j)) (seq 1 (2 * p_F p + 1))) = Ret data /\
    VerifyCommit cd p (repeat ZeroG1 (p_N p + 1)) data = Ret (false, row') /\
    CommitToPoly (p_KZG p) (secy QB (of_nat (2 * p_F p + 1))) = Ret (nth (2 * p_F p + 1) row' ZeroG1).
Proof.
  intros cd s p QB HC W HB NZ. pose proof W as (W1 & _ & W3 & W4 & W5 & _).
  set (data := map (fun j => pcm_of cd (pc_of s QB j)) (seq 1 (2 * p_F p + 1))). exists data.
  destruct (verify_commit_spec cd s p W data (pc_of s QB) (repeat ZeroG1 (p_N p + 1))
    (honest_decodes cd s p QB HC) ltac:(apply repeat_length)) as (b & row' & EV & _ & HT & _ & HF).
  assert (b = false) as ->.
  { destruct b; [|reflexivity]. exfalso. apply NZ. destruct (proj1 HT eq_refl) as (_ & H).
    rewrite <- peval_secx. apply H; [rewrite length_secx; destruct HB as (-> & _); lia|].
    intros j Hj. cbn [pc_of gFj]. rewrite peval_secx. reflexivity. }
  exists row'. split; [apply (commit_send_correct cd s (p_KZG p) (p_F p) QB W1 HB)|]. split; [exact EV|].
  rewrite (HF eq_refl). rewrite Nat.ltb_irrefl, Nat.eqb_refl.
  destruct (good_dec s p W (pc_of s QB) (2 * p_F p + 1)) as [_|N]; [|destruct N; apply (honest_good s p W QB _ HB)].
  apply (commit_section s (p_F p + 1) _ (p_F p) (2 * p_F p)); auto. lia.
Qed.
Print Assumptions c24_trace_refuted.

(** ** C25 Votes *)

(** For a dealer that follows the protocol every member votes, and each of its votes opens the
    commitment to the receiver's polynomial Q(., l) to the right value. *)
Theorem c25_honest : forall cd s p rF rQ row ix sig, codec_ok cd -> party_wf s p -> (p_PID p < p_N p)%nat ->
  length rF = (2 * p_F p + 1)%nat -> length rQ = (2 * p_F p + 1)%nat ->
  Forall (fun q => length q = (p_F p + 1)%nat) rQ -> length row = (p_N p + 1)%nat ->
  exists QB data row' ms m votes, bdeg (p_F p) (2 * p_F p) QB /\
    proac_Q (p_F p) rF rQ = map (fun j => secy QB (of_nat j)) (seq 1 (2 * p_F p + 1)) /\
    CommitSend cd (p_KZG p) (proac_Q (p_F p) rF rQ) = Ret data /\ VerifyCommit cd p row data = Ret (true, row') /\
    ReshareSend cd (p_KZG p) (p_N p) (proac_Q (p_F p) rF rQ) = Ret ms /\ nth_error ms (p_PID p) = Some m /\
    Vote cd p row' ix sig m = Ret (Some votes) /\ length votes = p_N p /\
    forall l, (1 <= l <= p_N p)%nat ->
      exists v w C, nth_error votes (l - 1) = Some v /\ rc_Index v = ix /\ rc_Sig v = sig /\
        FromCompressedG1 cd (rc_W v) = Some w /\
        CommitToPoly (p_KZG p) (secy QB (of_nat l)) = Ret C /\
        FrFrom32 (to32 (rc_V v)) = Some (peval (secy QB (of_nat l)) (me p)) /\
        CheckProofSingle (p_KZG p) C w (me p) (peval (secy QB (of_nat l)) (me p)) = Ret true.
Proof.
  intros cd s p rF rQ row ix sig HC W HP LF LQ LQ2 LR. pose proof W as (W1 & _ & W3 & W4 & W5 & _).
  destruct (proac_biv (p_F p) rF rQ W3 ltac:(lia) LF LQ LQ2) as (QB & HB & H0 & EQ).
  destruct (verify_honest cd s p W QB row HC HB H0 LR) as (row' & EV & LR' & HR).
  exists QB. eexists. exists row'. eexists. exists (reshare_msg cd s p QB (p_PID p + 1)).
  exists (map (recover_msg cd s QB ix sig (p_PID p + 1)) (seq 1 (p_N p))).
  split; [exact HB|]. split; [exact EQ|].
  split; [rewrite EQ; apply (commit_send_correct cd s (p_KZG p) (p_F p) QB W1 HB)|]. split; [exact EV|].
  split; [rewrite EQ; apply (reshare_send_correct cd s (p_KZG p) (p_F p) QB W1 HB)|].
  split.
  { rewrite nth_error_map, (nth_error_nth' (seq 1 (p_N p)) O) by (rewrite seq_length; exact HP).
    rewrite seq_nth by exact HP. cbn [option_map]. rewrite (Nat.add_comm 1). reflexivity. }
  split; [apply (vote_honest cd s p W QB ix sig row' HC HB LR' HR)|].
  split; [rewrite map_length, seq_length; reflexivity|].
  intros l Hl. eexists. exists (mkG1 (peval (wrow s QB (me p)) (of_nat l))), (mkG1 (peval (secx QB s) (of_nat l))).
  split; [rewrite (nth_error_map_seq (recover_msg cd s QB ix sig (p_PID p + 1))) by lia; reflexivity|].
  split; [reflexivity|]. split; [reflexivity|]. split; [apply HC|].
  split; [apply (commit_section s (p_F p + 1) _ (p_F p) (2 * p_F p)); auto; lia|].
  split; [cbn [recover_msg rc_V]; rewrite to32_FrTo32, FrFrom32_FrTo32, peval_secy; reflexivity|].
  rewrite peval_secy. apply (hmsg_check s (p_F p + 1) _ _ (p_F p) (2 * p_F p)); auto. lia.
Qed.
Print Assumptions c25_honest.

(** One would want that a member votes only if all 2F+1 points open the commitments (refuted below).
    What holds: it votes exactly if the last one does. *)
Theorem c25_last_point : forall cd s p row ix sig m (v : nat -> Fr) (w : nat -> G1),
  party_wf s p -> length row = (p_N p + 1)%nat ->
  (forall k, (1 <= k <= 2 * p_F p + 1)%nat -> exists b wb, nth_error (rs_Qk m) (k - 1) = Some b /\
     nth_error (rs_WQk m) (k - 1) = Some wb /\ v k = FrFrom32_into 0 (to32 b) /\
     FromCompressedG1 cd wb = Some (w k)) ->
  exists o, Vote cd p row ix sig m = Ret o /\
    (o <> None <-> CheckProofSingle (p_KZG p) (nth (2 * p_F p + 1) row ZeroG1) (w (2 * p_F p + 1)%nat) (me p)
                     (v (2 * p_F p + 1)%nat) = Ret true).
Proof.
  intros cd s p row ix sig m v w W LR HD. pose proof W as (W1 & _ & W3 & W4 & W5 & _).
  assert (D : reshare_decodes cd p m v w).
  { intros k Hk. destruct (HD k Hk) as (b & wb & E1 & E2 & E3 & E4). split; [exists b|exists wb]; auto. }
  destruct (vote_check_spec cd s p W m v w row D LR) as (ok & CK & EV). unfold Vote. rewrite EV. cbn [bind].
  fold (me p) in CK. rewrite CK. destruct ok; cbn [fst snd].
  - destruct (points_poly (2 * p_F p) (fun j => mkG1 (v j)) ltac:(lia)) as (a & La & Va).
    destruct (points_poly (2 * p_F p) w ltac:(lia)) as (b & Lb & Vb).
    rewrite (map_ext_in v (fun j => peval a (of_nat j))), (map_ext_in w (fun j => mkG1 (peval b (of_nat j)))).
    + rewrite (vote_messages_correct cd s p W ix sig a b) by lia. cbn [bind]. eexists. split; [reflexivity|].
      split; [reflexivity|discriminate].
    + intros j Hj. apply in_seq in Hj. apply Vb. lia.
    + intros j Hj. apply in_seq in Hj. specialize (Va j ltac:(lia)). apply (f_equal dlog1) in Va. exact Va.
  - exists None. split; [reflexivity|]. split; [congruence|discriminate].
Qed.
Print Assumptions c25_last_point.

(** Every dealer can have all members vote for it with points of which only the last one is right. *)
Theorem c25_wrong_points_refuted : forall cd s p row ix sig QB, codec_ok cd -> party_wf s p ->
  bdeg (p_F p) (2 * p_F p) QB -> length row = (p_N p + 1)%nat ->
  (forall j, (1 <= j <= p_N p)%nat -> CommitToPoly (p_KZG p) (secy QB (of_nat j)) = Ret (nth j row ZeroG1)) ->
  exists m votes, Vote cd p row ix sig m = Ret (Some votes) /\
    forall k, (1 <= k <= 2 * p_F p)%nat -> exists b wb v w,
      nth_error (rs_Qk m) (k - 1) = Some b /\ nth_error (rs_WQk m) (k - 1) = Some wb /\
      FrFrom32 (to32 b) = Some v /\ FromCompressedG1 cd wb = Some w /\ v <> beval QB (me p) (of_nat k) /\
      CheckProofSingle (p_KZG p) (nth k row ZeroG1) w (me p) v = Ret false.
Proof.
  intros cd s p row ix sig QB HC W HB LR HR. pose proof W as (W1 & _ & W3 & W4 & W5 & _).
  set (v := fun j => beval QB (me p) (of_nat j) + (if (j =? 2 * p_F p + 1)%nat then 0 else 1)).
  set (w := fun j => mkG1 (peval (wrow s QB (me p)) (of_nat j))).
  set (m := mkRS (map (fun j => FrTo32 (v j)) (seq 1 (2 * p_F p + 1)))
                 (map (fun j => ToCompressedG1 cd (w j)) (seq 1 (2 * p_F p + 1)))).
  assert (HRow : forall j, (1 <= j <= p_N p)%nat -> nth j row ZeroG1 = mkG1 (peval (secx QB s) (of_nat j))).
  { intros j Hj. specialize (HR j Hj).
    rewrite (commit_section s (p_F p + 1) _ (p_F p) (2 * p_F p)) in HR; auto; [|lia].
    apply (f_equal (fun x => match x with Ret a => a | _ => ZeroG1 end)) in HR. symmetry. exact HR. }
  destruct (c25_last_point cd s p row ix sig m v w W LR) as (o & EO & HO).
  { intros k Hk. exists (FrTo32 (v k)), (ToCompressedG1 cd (w k)). cbn [m rs_Qk rs_WQk].
    rewrite (nth_error_map_seq (fun j => FrTo32 (v j))), (nth_error_map_seq (fun j => ToCompressedG1 cd (w j))) by lia.
    split; [reflexivity|]. split; [reflexivity|]. rewrite to32_FrTo32. unfold FrFrom32_into.
    rewrite FrFrom32_FrTo32. split; [reflexivity|apply HC]. }
  destruct o as [votes|].
  2:{ exfalso. apply (proj2 HO); [|reflexivity]. rewrite HRow by lia. unfold v, w. rewrite Nat.eqb_refl.
      replace (beval QB (me p) (of_nat (2 * p_F p + 1)) + 0) with (beval QB (me p) (of_nat (2 * p_F p + 1))) by ring.
      apply (hmsg_check s (p_F p + 1) _ _ (p_F p) (2 * p_F p)); auto. lia. }
  exists m, votes. split; [exact EO|]. intros k Hk.
  exists (FrTo32 (v k)), (ToCompressedG1 cd (w k)), (v k), (w k). cbn [m rs_Qk rs_WQk].
  rewrite (nth_error_map_seq (fun j => FrTo32 (v j))), (nth_error_map_seq (fun j => ToCompressedG1 cd (w j))) by lia.
  split; [reflexivity|]. split; [reflexivity|]. rewrite to32_FrTo32, FrFrom32_FrTo32. split; [reflexivity|].
  split; [apply HC|].
  assert (EVk : v k = beval QB (me p) (of_nat k) + 1).
  { unfold v. rewrite (proj2 (Nat.eqb_neq k (2 * p_F p + 1))) by lia. reflexivity. }
  assert (NV : v k <> beval QB (me p) (of_nat k)).
  { rewrite EVk. intros E. apply f1_neq_0. transitivity (beval QB (me p) (of_nat k) + 1 - beval QB (me p) (of_nat k)); [ring|].
    rewrite E. ring. }
  split; [exact NV|]. rewrite (check_correct s (p_F p + 1) (p_KZG p) W1) by lia. f_equal.
  destruct (feqb _ _) eqn:EB; [|reflexivity]. exfalso. apply NV. apply feqb_eq in EB. rewrite HRow in EB by lia.
  cbn [dlog1 w] in EB. rewrite <- (opening s QB (p_F p) (2 * p_F p) (me p) (of_nat k) HB) in EB.
  transitivity (peval (secx QB s) (of_nat k) - (peval (secx QB s) (of_nat k) - v k)); [ring|]. rewrite EB. ring.
Qed.
Print Assumptions c25_wrong_points_refuted.

(** ** C26 Recovery *)

(** [run_of … evs st]: member [p], started with a refreshing polynomial [B0] of its own, comes to the
    state [st] by the events [evs]. *)
Definition run_of (cd : g1codec) (p : Party) (sign : nat -> list Z) (sigok : nat -> list Z -> bool)
    (combine : nat -> list (list Z) -> list Z) (evs : list pev) (st : pst) : Prop :=
  exists B0 st0, bdeg (p_F p) (2 * p_F p) B0 /\
    proac_init p (map (fun j => secy B0 (of_nat j)) (seq 1 (2 * p_F p + 1))) = Ret st0 /\
    prun cd sign sigok combine p st0 evs = Ret st.

Lemma run_inv cd s p sign sigok combine QB evs st : party_wf s p -> (p_PID p < p_N p)%nat ->
  (forall k, bdeg (p_F p) (2 * p_F p) (QB k)) -> env cd p QB evs -> run_of cd p sign sigok combine evs st ->
  inv s p QB evs st /\ sinv p st /\ calm st.
Proof.
  intros W HP HQ HE (B0 & st0 & HB & E0 & HR).
  eapply (env_inv cd s p QB W HQ sign sigok combine HP); eassumption.
Qed.

(** Whatever arrives, in whatever order: what a member has recovered for dealer k is its share of
    the polynomial dealer k has committed to. *)
Theorem c26_recovered : forall cd s p sign sigok combine QB evs st k, party_wf s p -> (p_PID p < p_N p)%nat ->
  (forall k, bdeg (p_F p) (2 * p_F p) (QB k)) -> env cd p QB evs -> run_of cd p sign sigok combine evs st ->
  (1 <= k <= p_N p)%nat -> nth k (s_flgRec st) false = true -> nth k (s_Q st) [] = secy (QB k) (me p).
Proof.
  intros cd s p sign sigok combine QB evs st k W HP HQ HE HR Hk HF.
  destruct (run_inv cd s p sign sigok combine QB evs st W HP HQ HE HR) as ((_ & _ & _ & _ & R & _) & _).
  specialize (R k Hk). rewrite HF in R. apply R.
Qed.
Print Assumptions c26_recovered.

Lemma env_msgs cd s p QB evs ms st : party_wf s p -> (forall k, bdeg (p_F p) (2 * p_F p) (QB k)) ->
  env cd p QB (evs ++ deliver ms) ->
  (forall i m, In (i, m) ms -> (1 <= rc_Index m <= Z.of_nat (p_N p))%Z /\
     nth (Z.to_nat (rc_Index m)) (s_flgCom st) false = true /\ FromCompressedG1 cd (rc_W m) <> None) ->
  msgs_ok cd s p QB (s_flgCom st) evs ms.
Proof.
  intros W HQ HE HM. split.
  - intros i m Hin. destruct (HM i m Hin) as (H1 & H2 & H3). unfold dealer. cbn [snd].
    split; [lia|]. split; [exact H2|]. split; [exact H3|].
    pose proof (env_ok cd s p QB W HQ _ HE) as HF. rewrite Forall_forall in HF. apply HF. apply in_or_app. right.
    unfold deliver. apply in_flat_map. exists (i, m). split; [exact Hin|]. left. reflexivity.
  - destruct HE as (_ & _ & E3 & E4). apply recvs_nodup; assumption.
Qed.

(** F+1 valid messages from different members for dealer k, mixed in any order with other messages,
    valid or not, suffice -- unless the member has meanwhile started the agreement. *)
Theorem c26_recover : forall cd s p sign sigok combine QB evs st ms k sub, party_wf s p -> (p_PID p < p_N p)%nat ->
  (forall k, bdeg (p_F p) (2 * p_F p) (QB k)) ->
  run_of cd p sign sigok combine evs st -> s_hold st = None -> s_MVBASent st = false ->
  env cd p QB (evs ++ deliver ms) ->
  (forall i m, In (i, m) ms -> (1 <= rc_Index m <= Z.of_nat (p_N p))%Z /\
     nth (Z.to_nat (rc_Index m)) (s_flgCom st) false = true /\ FromCompressedG1 cd (rc_W m) <> None) ->
  (1 <= k <= p_N p)%nat ->
  NoDup sub -> incl sub ms -> length sub = (p_F p + 1)%nat -> Forall (valid_recover cd p sigok QB k) sub ->
  exists st', run_of cd p sign sigok combine (evs ++ deliver ms) st' /\
    (s_MVBASent st' = true \/
     nth k (s_flgRec st') false = true /\ nth k (s_Q st') [] = secy (QB k) (me p)).
Proof.
  intros cd s p sign sigok combine QB evs st ms k sub W HP HQ HR HH HM HE HS Hk ND INC LS HV.
  destruct (run_inv cd s p sign sigok combine QB evs st W HP HQ (env_app _ _ _ _ _ HE) HR) as (I & SI & CA).
  pose proof (env_msgs cd s p QB evs ms st W HQ HE HS) as MO.
  destruct (deliver_run cd s p sign sigok combine QB W HP (fun k _ => HQ k) ms evs st I CA (conj HH HM) MO)
    as (st' & ER & I' & _ & HC).
  assert (HR' : run_of cd p sign sigok combine (evs ++ deliver ms) st').
  { destruct HR as (B0 & st0 & HB & E0 & E1). exists B0, st0. split; [exact HB|]. split; [exact E0|].
    rewrite prun_app, E1. exact ER. }
  exists st'. split; [exact HR'|]. destruct (s_MVBASent st') eqn:EM; [left; reflexivity|right].
  destruct (HC eq_refl) as (_ & _ & CNT). specialize (CNT k).
  destruct (run_inv cd s p sign sigok combine QB _ st' W HP HQ HE HR') as (_ & SI' & _).
  assert (FR : nth k (s_flgRec st') false = true).
  { destruct SI' as (_ & _ & _ & _ & _ & _ & _ & S8). apply S8. apply (f_equal (@length _)) in CNT.
    rewrite app_length, !map_length in CNT. rewrite CNT.
    assert (length sub <= length (filter (about cd s p sigok QB k) ms))%nat; [|lia].
    apply NoDup_incl_length; [exact ND|]. intros x Hx. apply filter_In. split; [apply INC, Hx|].
    rewrite Forall_forall in HV. specialize (HV x Hx). apply (valid_about cd s p QB W HQ); [|exact HV].
    destruct HV as (-> & _). lia. }
  split; [exact FR|]. eapply c26_recovered; eassumption.
Qed.
Print Assumptions c26_recover.

Lemma filter_length_le {A} (f : A -> bool) l : (length (filter f l) <= length l)%nat.
Proof. induction l as [|a l IH]; [simpl; lia|]. cbn [filter]. destruct (f a); cbn [length]; lia. Qed.

Lemma filter_all {A} (f : A -> bool) l : (forall x, In x l -> f x = true) -> filter f l = l.
Proof.
  intros H. induction l as [|a l IH]; [reflexivity|]. cbn [filter]. rewrite (H a (or_introl eq_refl)). f_equal.
  apply IH. intros x Hx. apply H. right. exact Hx.
Qed.

(** A repeated message stops the process: F valid messages from different members for dealer k, then one
    of them again. *)
Theorem c26_replay_refuted : forall cd s p sign sigok combine QB k data xs x, codec_ok cd ->
  party_wf s p -> (p_PID p < p_N p)%nat -> (forall k, bdeg (p_F p) (2 * p_F p) (QB k)) ->
  (1 <= k <= p_N p)%nat -> beval (QB k) 0 0 = 0 ->
  CommitSend cd (p_KZG p) (map (fun j => secy (QB k) (of_nat j)) (seq 1 (2 * p_F p + 1))) = Ret data ->
  Forall (valid_recover cd p sigok QB k) xs -> length xs = p_F p -> env cd p QB (EvCommit k data :: deliver xs) ->
  In x xs ->
  exists st0, proac_init p (map (fun j => secy (QB (p_PID p + 1)%nat) (of_nat j)) (seq 1 (2 * p_F p + 1))) = Ret st0 /\
    prun cd sign sigok combine p st0 (EvCommit k data :: deliver (xs ++ [x])) = Fatal.
Proof.
  intros cd s p sign sigok combine QB k data xs x HC W HP HQ Hk Z0 ED HV LX HE Hx.
  pose proof W as (W1 & _ & W3 & W4 & W5 & _).
  destruct (init_inv s p QB W HP (QB (p_PID p + 1)%nat) (HQ _))
    as (st0 & E0 & I0 & J1 & J2 & J3 & J4 & J5 & J6 & J7 & J8 & J9 & _).
  exists st0. split; [exact E0|].
  rewrite (commit_send_correct cd s (p_KZG p) (p_F p) (QB k) W1 (HQ k)) in ED.
  apply (f_equal (fun x => match x with Ret a => a | _ => [] end)) in ED. symmetry in ED.
  change (map (fun j => pcm_of cd (pc_of s (QB k) j)) (seq 1 (2 * p_F p + 1))) with (commit_data cd s p QB k) in ED.
  subst data.
  destruct (commit_run cd s p QB W HQ sign sigok combine HP HC [k] [] st0 I0) as (st1 & E1 & I1 & SR & F1 & _).
  { intros j [<-|[]]. split; [exact Hk|]. split; [exact Z0|]. rewrite J9. apply nth_repeat_len. reflexivity. }
  { repeat constructor. intros []. }
  destruct SR as (R1 & R2 & R3 & R4 & R5 & R6). specialize (F1 k (or_introl eq_refl)).
  assert (RO : run_of cd p sign sigok combine ([EvCommit k (commit_data cd s p QB k)]) st1).
  { exists (QB (p_PID p + 1)%nat), st0. split; [apply HQ|]. split; [exact E0|exact E1]. }
  change (EvCommit k (commit_data cd s p QB k) :: deliver xs) with
    ([EvCommit k (commit_data cd s p QB k)] ++ deliver xs) in HE.
  destruct (run_inv _ s _ _ _ _ QB _ _ W HP HQ (env_app _ _ _ _ _ HE) RO) as (_ & SI1 & CA1).
  assert (LV : live st1) by (split; [rewrite R2; exact J3|rewrite R4; exact J5]).
  rewrite Forall_forall in HV.
  assert (MO : msgs_ok cd s p QB (s_flgCom st1) [EvCommit k (commit_data cd s p QB k)] xs).
  { apply env_msgs; auto. intros i m Hin. destruct (HV _ Hin) as (V1 & _ & w & C & V2 & _). cbn [snd] in *.
    rewrite V1, Nat2Z.id. split; [lia|]. split; [exact F1|]. rewrite V2. discriminate. }
  destruct (deliver_run cd s p sign sigok combine QB W HP (fun k _ => HQ k) xs _ st1 I1 CA1 LV MO)
    as (st2 & E2 & I2 & CA2 & HC2).
  assert (NM : s_MVBASent st2 = false).
  { apply (deliver_few cd s p sign sigok combine QB W HP (fun k _ => HQ k) [] ltac:(simpl; lia) xs _ st1 st2 I1 SI1 CA1 LV MO);
      [|exact E2].
    intros j _. rewrite R1, J2. rewrite (nth_repeat_len [] [] (p_N p + 1) j eq_refl). cbn [length Nat.add].
    pose proof (filter_length_le (about cd s p sigok QB j) xs). lia. }
  destruct (HC2 NM) as (LV2 & FC2 & CNT). specialize (CNT k). rewrite R1, J2 in CNT.
  rewrite (nth_repeat_len [] [] (p_N p + 1) k eq_refl) in CNT. cbn [map app] in CNT.
  assert (EF : filter (about cd s p sigok QB k) xs = xs).
  { apply filter_all. intros y Hy. specialize (HV y Hy).
    apply (valid_about cd s p QB W HQ); [|exact HV]. destruct HV as (-> & _). lia. }
  rewrite EF in CNT.
  change (EvCommit k (commit_data cd s p QB k) :: deliver (xs ++ [x])) with
    (map (fun k => EvCommit k (commit_data cd s p QB k)) [k] ++ deliver (xs ++ [x])).
  rewrite prun_app, E1. cbn [bind]. unfold deliver at 1. rewrite flat_map_app. fold (deliver xs).
  rewrite prun_app, E2. cbn [bind flat_map app].
  destruct x as (i, m). destruct (HV _ Hx) as (V1 & V2 & w & C & V3 & V4 & V5). cbn [fst snd] in *.
  pose proof I2 as (LL & A2 & P2 & D2 & FR2 & _). pose proof LL as LL'.
  destruct LL as (L1 & L2 & L3 & L4 & L5 & L6 & L7 & L8 & L9 & L10 & L11).
  destruct (CA2 NM) as (BU & ST).
  cbn [prun pstep]. unfold do_recv. destruct LV2 as (LH & _). rewrite LH. cbv zeta.
  rewrite (ReadG1_ok _ _ _ V3). cbn [bind]. rewrite V1.
  rewrite (proj2 (Z.ltb_ge (Z.of_nat (p_N p)) (Z.of_nat k))) by lia. cbn [bind fst].
  unfold do_handle. cbn [s_hold ro_k s_flgCom s_stopped s_busy]. rewrite Nat2Z.id.
  replace (nth k (s_flgCom st2) false) with true by (rewrite FC2; symmetry; exact F1). rewrite ST, BU.
  rewrite (proj2 (Nat.leb_le 1 k)) by lia. cbn [negb andb].
  unfold handle. set (stx := set_hold (mkPst _ _ _ _ _ _ _ _ _ _ _ _ _) _). set (rx := mkRecov _ _ _ _ _).
  destruct (recov_check s p sigok QB W HP stx rx) as (c & CK & ER).
  { exact LL'. }
  { exact Hk. }
  { intros j Hj. cbn [ro_k rx]. unfold stx, set_hold. cbn [s_CQ]. apply A2; [exact Hk| |exact Hj]. rewrite FC2. exact F1. }
  cbn [rx ro_k ro_w ro_sender ro_v ro_sig] in CK, ER. rewrite V2, andb_true_r in ER.
  rewrite (commit_com s p QB W HQ) in V4. apply (f_equal (fun x => match x with Ret a => a | _ => ZeroG1 end)) in V4.
  rewrite <- V4 in V5. unfold Xof, me in *. rewrite V5 in CK. injection CK as <-.
  rewrite ER. cbn [bind]. unfold add_point. cbv zeta. rewrite (idx_nth []) by (unfold stx, set_hold; cbn; lia).
  cbn [bind rx ro_k ro_sender ro_v]. unfold stx, set_hold. cbn [s_SRec s_flgRec].
  assert (LS : length (nth k (s_SRec st2) []) = p_F p).
  { apply (f_equal (@length _)) in CNT. rewrite !map_length in CNT. lia. }
  specialize (FR2 k Hk). destruct (nth k (s_flgRec st2) false) eqn:EFR.
  { exfalso. destruct (run_inv _ s _ sign sigok combine QB _ st2 W HP HQ HE) as (_ & S2 & _).
    - exists (QB (p_PID p + 1)%nat), st0. split; [apply HQ|]. split; [exact E0|].
      rewrite prun_app. change [EvCommit k (commit_data cd s p QB k)] with
        (map (fun k => EvCommit k (commit_data cd s p QB k)) [k]). rewrite E1. exact E2.
    - destruct S2 as (_ & _ & _ & _ & _ & _ & _ & S8). apply S8 in EFR. lia. }
  rewrite app_length, LS. cbn [length negb andb].
  rewrite (proj2 (Nat.leb_le (p_F p + 1) (p_F p + 1))) by lia.
  destruct (In_nth xs (i, m) (0%Z, m) Hx) as (a & Ha & Ea). rewrite LX in Ha.
  rewrite (interp_dup (p_F p)) with (i := a) (j := p_F p);
    [reflexivity|rewrite firstn_length, map_length, app_length, LS; cbn [length]; lia|exact Ha|lia| |].
  - rewrite !firstn_all2 by (rewrite map_length, app_length, LS; cbn [length]; lia).
    rewrite map_app, !app_nth2 with (n := p_F p) by (rewrite map_length; lia).
    rewrite map_length, LS, Nat.sub_diag. cbn [map nth fst].
    rewrite app_nth1 by (rewrite map_length; lia).
    rewrite <- (map_map fst of_Z), CNT, map_map.
    rewrite (nth_indep _ 0 (of_Z ((fst (0%Z, m) + 1) mod 2 ^ 32))) by (rewrite map_length; lia).
    rewrite (map_nth (fun y : Z * RecoverMsg => of_Z ((fst y + 1) mod 2 ^ 32))), Ea. reflexivity.
  - rewrite firstn_length, map_length, app_length, LS. cbn [length]. lia.
Qed.
Print Assumptions c26_replay_refuted.
