(** C49: which messages from the network end an honest member.  The statement as given is false at
    every stage; each refutation gives the bytes or the message.  Beside them: the exact set of
    messages that end the member at that stage, so all others are survived. *)

Require Import String ZArith List Bool Lia Arith.
From Verif Require Import Prime Fr Bytes CodecModel GoBase PolyModel GroupModel KzgModel FramingModel FramingProofs
  DispatchModel PartyModel VssModel ReduceModel ProacModel RbcModel MvbaModel ProtoModel ProtoProofs PropertiesProto.
Import ListNotations.
Local Open Scope Z_scope.
Local Open Scope list_scope.

(** *** The connection (receive.go) *)

Lemma receive_alive fs : snd (receive fs) = true <-> Forall (fun b => snd (UnmarshalMessage b) = true) fs.
Proof.
  induction fs as [|b fs IH]; [split; auto|]. cbn [receive].
  destruct (UnmarshalMessage b) as [m ok] eqn:U. destruct ok.
  - destruct (receive fs) as [ms alive] eqn:R. cbn [snd] in *. rewrite Forall_cons_iff, U. cbn [snd].
    rewrite IH. tauto.
  - cbn [snd]. rewrite Forall_cons_iff, U. cbn [snd]. split; [discriminate|]. intros [D _]. discriminate D.
Qed.

(** The process survives a connection exactly when the peer has not closed it and every frame was an
    envelope. *)
Theorem c49_connection es closed : snd (connection es closed) = true <->
  closed = false /\ Forall (fun b => snd (UnmarshalMessage b) = true) (out (rx_run es)).
Proof.
  unfold connection. rewrite <- receive_alive. destruct (receive (out (rx_run es))) as [ms alive]. cbn [snd].
  destruct alive, closed; cbn [andb negb]; split; intros H; try discriminate H; try (destruct H; discriminate); auto.
Qed.
Print Assumptions c49_connection.

(** Five bytes from anyone who can connect are enough, and so is hanging up after a correct message. *)
Theorem c49_connection_refuted :
  (exists es, arrived es = [0; 0; 0; 1; 255] /\ snd (connection es false) = false) /\
  (exists es m s, send_stream [m] = Ret s /\ arrived es = s /\ connection es false = ([m], true) /\
     snd (connection es true) = false).
Proof.
  split.
  - exists [Arrive [0; 0; 0; 1; 255]; Read 4; Read 1]. split; reflexivity.
  - exists [Arrive [0; 0; 0; 3; 10; 1; 65]; Read 4; Read 3], (mkMsg [65] [] 0 []), [0; 0; 0; 3; 10; 1; 65].
    repeat split.
Qed.
Print Assumptions c49_connection_refuted.

(** *** The dealing (VSS.go, party_utils.go:240-259) *)

(** An empty payload: the pointer to the proof is nil. *)
Theorem c49_dealing_refuted : exists b, forall cd p, VSSShareReceive cd p (fst (UnmarshalVSSSend b)) = Panic.
Proof. exists []. intros cd p. reflexivity. Qed.
Print Assumptions c49_dealing_refuted.

(** *** Hand-off *)

(** Compressed points have 48 bytes; the library refuses the empty string. *)
Definition rejects_empty (cd : g1codec) : Prop := FromCompressedG1 cd [] = None.

Definition readable (cd : g1codec) (b : list Z) : Prop := FromCompressedG1 cd b <> None.

(** A ShareReduce message with an empty payload. *)
Theorem c49_share_reduce_refuted : exists b, forall cd p st sender, rejects_empty cd ->
  sr_step cd p st (sender, fst (UnmarshalShareReduce b)) = Panic.
Proof. exists []. intros cd p st sender R. unfold sr_step. cbn. unfold ReadG1. rewrite R. reflexivity. Qed.
Print Assumptions c49_share_reduce_refuted.

(** A party has the second power of the trusted setup in G2. *)
Definition has_setup (p : Party) : Prop := (1 < List.length (SecretG2 (p_KZG p)))%nat.

Lemma check_total p C w x y : has_setup p -> exists b, CheckProofSingle (p_KZG p) C w x y = Ret b.
Proof.
  intros H. unfold CheckProofSingle. destruct (nth_error (SecretG2 (p_KZG p)) 1) as [g|] eqn:E.
  - unfold idx. rewrite E. cbn [bind]. eauto.
  - apply nth_error_None in E. unfold has_setup in H. lia.
Qed.

(** Exactly the messages with an unreadable point end the receiver. *)
Theorem c49_share_reduce cd p st sender m : has_setup p ->
  (sr_step cd p st (sender, m) = Panic <-> ~ (readable cd (sr_C m) /\ readable cd (sr_W m))) /\
  (readable cd (sr_C m) -> readable cd (sr_W m) -> exists x, sr_step cd p st (sender, m) = Ret x).
Proof.
  intros H. unfold sr_step, readable, ReadG1.
  destruct (FromCompressedG1 cd (sr_C m)) as [C|]; destruct (FromCompressedG1 cd (sr_W m)) as [W|]; cbn [bind].
  2,3,4: split; [split; [intros _ [A B]; (apply A; reflexivity) || (apply B; reflexivity)|reflexivity]|intros; congruence].
  destruct (check_total p C W (of_Z ((sender + 1) mod 2 ^ 32)) (FrFrom32_into (sr_vJ st) (to32 (sr_V m))) H) as [v E].
  rewrite E. cbn [bind].
  set (e := match lookup (sr_C m) (sr_map_of st) with Some (pts, n) => _ | None => _ end).
  destruct v; [destruct (p_F p + 1 <=? snd e)%nat|];
    (split; [split; [discriminate|intros A; exfalso; apply A; split; discriminate]|eauto]).
Qed.
Print Assumptions c49_share_reduce.

(** Prepare: with F+1 equal messages, for example empty ones, the commitments are indexed. *)
Theorem c49_prepare_refuted : exists b, forall hash cd p,
  PrepareReceive hash (fun d => asL (at_ 0 (fst (Unmarshal S_Prepare d)))) cd p (repeat b (p_F p + 1)) = Panic.
Proof.
  exists []. intros hash cd p.
  assert (H : forall n c mp, lookup (hash []) mp = (match c with O => None | _ => Some c end) -> (c + n = p_F p + 1)%nat ->
             (0 < n)%nat -> prep_loop hash (p_F p) mp (repeat [] n) = Some []).
  { induction n as [|n IH]; intros c mp L E P; [lia|]. cbn [repeat prep_loop]. unfold prep_step. rewrite L.
    replace (match match c with O => None | _ => Some c end with Some c0 => c0 | None => O end) with c by (destruct c; reflexivity).
    destruct (Nat.eqb_spec (c + 1) (p_F p + 1)); [reflexivity|].
    apply (IH (c + 1)%nat); [|lia|lia].
    replace (c + 1)%nat with (S c) by lia. clear. induction mp as [|[k v] mp IH]; cbn [update lookup].
    - unfold bytes_eqb. destruct (list_eq_dec Z.eq_dec (hash []) (hash [])); [reflexivity|congruence].
    - destruct (bytes_eqb (hash []) k) eqn:E; cbn [lookup]; rewrite E; [reflexivity|exact IH]. }
  unfold PrepareReceive. rewrite (H (p_F p + 1)%nat O []); [|reflexivity|lia|lia].
  unfold adopt. cbn [asL at_ nth Unmarshal parse List.length cut S_Prepare map fst snd field lens flat_map].
  unfold goloop. replace (2 * p_F p + 1)%nat with (S (2 * p_F p)) by lia. cbn [seq gofold bind].
  unfold idx at 1. cbn [nth_error]. reflexivity.
Qed.
Print Assumptions c49_prepare_refuted.

(** Commit (inside a reliable broadcast): an empty list. *)
Theorem c49_commit_refuted : exists b, forall cd p row, VerifyCommit cd p row (fst (UnmarshalCommit b)) = Panic.
Proof.
  exists []. intros cd p row. unfold VerifyCommit. replace (2 * p_F p + 1)%nat with (S (2 * p_F p)) by lia. reflexivity.
Qed.
Print Assumptions c49_commit_refuted.

(** Reshare: a claimed sender that is not a member (any of N+1 .. 2^32-2). *)
Theorem c49_reshare cd sign p st sender m : List.length (s_flgCom st) = (p_N p + 1)%nat ->
  Z.of_nat (p_N p) <= sender < 2 ^ 32 - 1 -> do_reshare cd sign p st sender m = Panic.
Proof.
  intros L S. unfold do_reshare. rewrite Z.mod_small by lia. rewrite idx_panic; [reflexivity|lia].
Qed.
Print Assumptions c49_reshare.

Theorem c49_reshare_refuted : exists sender m, forall cd sign p st, List.length (s_flgCom st) = (p_N p + 1)%nat ->
  Z.of_nat (p_N p) < 2 ^ 32 - 1 -> do_reshare cd sign p st sender m = Panic.
Proof. exists (2 ^ 32 - 2), (mkRS [] []). intros cd sign p st L B. apply c49_reshare; [exact L|lia]. Qed.
Print Assumptions c49_reshare_refuted.

(** Recover: an index beyond N or an unreadable witness, and nothing else, ends the receiving
    goroutine. *)
Theorem c49_recover cd p st sender m : s_hold st = None ->
  (do_recv cd p st sender m = Panic <-> Z.of_nat (p_N p) < rc_Index m \/ ~ readable cd (rc_W m)) /\
  (rc_Index m <= Z.of_nat (p_N p) -> readable cd (rc_W m) -> exists st', do_recv cd p st sender m = Ret st').
Proof.
  intros H. unfold do_recv, ReadG1, readable. rewrite H.
  destruct (FromCompressedG1 cd (rc_W m)) as [w|]; cbn [bind].
  - destruct (Z.ltb_spec (Z.of_nat (p_N p)) (rc_Index m)); split; try (split; intros; auto; fail);
      try (intros; lia); try (intros; eauto; fail).
    split; [discriminate|]. intros [A|A]; [lia|exfalso; apply A; discriminate].
  - split; [split; [intros _; right; intros A; apply A; reflexivity|reflexivity]|intros _ A; exfalso; apply A; reflexivity].
Qed.
Print Assumptions c49_recover.

Theorem c49_recover_refuted : exists b, forall cd p st sender, (Z.of_nat (p_N p) < 2 ^ 32 - 1) -> s_hold st = None ->
  do_recv cd p st sender (fst (UnmarshalRecover b)) = Panic.
Proof.
  exists [8; 255; 255; 255; 255; 15]. intros cd p st sender L H. apply c49_recover; [exact H|]. left.
  assert (E : rc_Index (fst (UnmarshalRecover [8; 255; 255; 255; 255; 15])) = 2 ^ 32 - 1) by reflexivity.
  rewrite E. exact L.
Qed.
Print Assumptions c49_recover_refuted.

(** The agreed dealers (MVBARes.J) are used as indexes. *)
Theorem c49_result_refuted : exists b, forall p st, List.length (s_flgCom st) = (p_N p + 1)%nat ->
  Z.of_nat (p_N p) < 2 ^ 32 - 1 -> Refresh p st (snd (fst (UnmarshalMVBAIN b))) = Panic.
Proof.
  exists [16; 255; 255; 255; 255; 15]. intros p st L B.
  assert (E : snd (fst (UnmarshalMVBAIN [16; 255; 255; 255; 255; 15])) = [2 ^ 32 - 1]) by reflexivity. rewrite E.
  unfold Refresh, refresh_sums. cbn [gofold]. rewrite idx_panic; [reflexivity|lia].
Qed.
Print Assumptions c49_result_refuted.

(** Share distribution: exactly the claimed senders N .. 2^32-2 end the goroutine that takes the message. *)
Theorem c49_share_dist p st sender m : (0 < d_free st)%nat -> 0 <= sender < 2 ^ 32 -> Z.of_nat (p_N p) < 2 ^ 32 ->
  (d_recv p st sender m = Panic <-> Z.of_nat (p_N p) <= sender < 2 ^ 32 - 1) /\
  (sender < Z.of_nat (p_N p) -> exists st', d_recv p st sender m = Ret st').
Proof.
  intros D S L. unfold d_recv. destruct (d_free st) as [|n]; [lia|].
  destruct (Z.eq_dec sender (2 ^ 32 - 1)) as [->|NE].
  - replace ((2 ^ 32 - 1 + 1) mod 2 ^ 32) with 0 by reflexivity.
    destruct (Z.ltb_spec (Z.of_nat (p_N p)) 0); [lia|]. split; [split; [discriminate|lia]|eauto].
  - rewrite Z.mod_small by lia. destruct (Z.ltb_spec (Z.of_nat (p_N p)) (sender + 1)).
    + split; [split; [lia|reflexivity]|lia].
    + split; [split; [discriminate|lia]|eauto].
Qed.
Print Assumptions c49_share_dist.

(** New commitments and witnesses are read without a check, too. *)
Theorem c49_new_commit_refuted : exists b, forall cd p CQsum j, rejects_empty cd ->
  VerifyNewCommit cd p CQsum j (asB (at_ 0 (fst (Unmarshal S_NewCommit b)))) = Panic.
Proof. exists []. intros cd p CQsum j R. unfold VerifyNewCommit, ReadG1. cbn. rewrite R. reflexivity. Qed.
Print Assumptions c49_new_commit_refuted.

(** *** Reliable broadcast (RBC.go) *)

(** The Reed-Solomon coder has nothing to split in an empty string: every member that receives an empty
    proposal panics at line 88. *)
Theorem c49_propose_refuted : exists M, forall sha rs_encode N F st, rs_encode N F [] = None -> r_prop st = false ->
  propose_step sha rs_encode N F st M = Panic.
Proof. exists []. intros sha rs_encode N F st R P. unfold propose_step. rewrite P, R. reflexivity. Qed.
Print Assumptions c49_propose_refuted.

Definition rbc_run sha rs_encode rs_verify rs_reconstruct N F (evs : list rev) (st : rst) : go rst :=
  gofold (fun st e => o <- rstep sha rs_encode rs_verify rs_reconstruct N F st e ;;
                      Ret (match o with Some (st', _) => st' | None => st end)) evs st.

(** N-F Ready messages with an empty payload, with different claimed senders (the network does not
    check them: one peer can send all), end the member whatever the other events were answered. *)
Theorem c49_ready_refuted : exists b, forall sha rs_encode rs_verify rs_reconstruct,
  let x := let v := fst (Unmarshal S_RBCReady b) in (asB (at_ 0 v), asB (at_ 1 v)) in
  rbc_run sha rs_encode rs_verify rs_reconstruct 4 1
    ([EvEcho 3 x; EvEchoCheck; EvEcho 3 x; EvEchoCheck; EvEcho 3 x] ++ map (fun s => EvReady s x) [0; 1; 2] ++ [EvDecode]) rbc_init = Panic.
Proof. exists []. intros. reflexivity. Qed.
Print Assumptions c49_ready_refuted.

(** A claimed sender beyond N in a Ready message is an index out of range. *)
Theorem c49_ready_sender_refuted : exists h : list Z, List.length h = 36%nat /\
  forall sha rs_encode rs_verify rs_reconstruct,
  rbc_run sha rs_encode rs_verify rs_reconstruct 4 1
    ([EvEcho 3 (h, []); EvEchoCheck; EvEcho 3 (h, []); EvEchoCheck; EvEcho 3 (h, [])] ++
     map (fun s => EvReady s (h, [])) [0; 1; 9] ++ [EvDecode]) rbc_init = Panic.
Proof. exists (repeat 0 36). split; [reflexivity|]. intros. reflexivity. Qed.
Print Assumptions c49_ready_sender_refuted.

(** *** Agreement (pb.go, message_handler.go) *)

(** Exactly a Finish message whose claimed sender is not a member makes a member panic. *)
Theorem c49_agreement_panic H coin N F ID st e : mstep H coin N F ID st e = Panic <->
  exists r s v sg, e = EvFinish r s v sg /\ (r <= m_r st)%nat /\ ~ (0 <= s < Z.of_nat N).
Proof.
  split.
  - destruct e; cbn [mstep]; try discriminate.
    + unfold value_step. destruct (_ && _ && _ && _); [|discriminate].
      destruct stage as [|[|[|n]]]; try discriminate. destruct (vsig _ _); discriminate.
    + unfold finish_step. destruct (Nat.leb_spec r (m_r st)); [|discriminate].
      destruct (Z.leb_spec 0 s); destruct (Z.ltb_spec s (Z.of_nat N)); cbn [andb];
        try (destruct (vsig _ _); discriminate); intros _; exists r, s, v, sg; repeat split; auto; lia.
  - intros (r & s & v & sg & -> & R & S). cbn [mstep]. unfold finish_step.
    destruct (Nat.leb_spec r (m_r st)); [|lia].
    destruct (Z.leb_spec 0 s); destruct (Z.ltb_spec s (Z.of_nat N)); cbn [andb]; try reflexivity. lia.
Qed.
Print Assumptions c49_agreement_panic.

(** Exactly a second-stage Value message without a certificate, where a receiver is waiting for it (or has
    given up the first stage because the leader is known or the member has returned), stops the process. *)
Theorem c49_agreement_fatal H coin N F ID st e : mstep H coin N F ID st e = Fatal <->
  exists r j v vd, e = EvValue r j 2 v vd /\ (r <= m_r st)%nat /\ (j < N)%nat /\
    d_past (m_rounds st r) = false /\
    (d_stage (m_rounds st r) j = 1%nat \/
     d_stage (m_rounds st r) j = 0%nat /\ (d_lead (m_rounds st r) <> None \/ m_out st <> None)) /\
    vd <> Sig (smEcho ID r j 1 (H v)).
Proof.
  split.
  - destruct e; cbn [mstep]; try discriminate.
    + unfold value_step. destruct (Nat.leb_spec r (m_r st)); [|discriminate].
      destruct (d_past (m_rounds st r)) eqn:P; [discriminate|].
      destruct (Nat.ltb_spec j N); [|discriminate].
      unfold stage_ready. cbn [andb negb].
      destruct stage as [|[|[|n]]]; try (destruct (_ || _); discriminate).
      destruct (_ || _) eqn:SR; [|discriminate].
      destruct (vsig _ _) eqn:V; [discriminate|]. intros _. exists r, j, v, vd. repeat split; auto; try lia.
      { apply orb_prop in SR. destruct SR as [SR|SR]; [apply Nat.eqb_eq in SR; left; lia|].
        apply andb_prop in SR. destruct SR as [SR Q]. cbn [Nat.eqb andb] in SR. apply Nat.eqb_eq in SR. right.
        split; [exact SR|]. destruct (d_lead (m_rounds st r)); [left; discriminate|]. destruct (m_out st); [right; discriminate|discriminate Q]. }
      intros ->. cbn [vsig] in V. unfold bytes_eqb in V.
      match goal with H : context [list_eq_dec Z.eq_dec ?a ?a] |- _ => destruct (list_eq_dec Z.eq_dec a a); congruence end.
    + unfold finish_step. destruct (_ <=? _)%nat; [|discriminate]. destruct (_ && _); [|discriminate].
      destruct (vsig _ _); discriminate.
  - intros (r & j & v & vd & -> & R & J & P & S & V). cbn [mstep]. unfold value_step.
    destruct (Nat.leb_spec r (m_r st)); [|lia]. rewrite P. destruct (Nat.ltb_spec j N); [|lia].
    assert (SR : stage_ready st (m_rounds st r) j 2 = true).
    { unfold stage_ready. destruct S as [S|(S & Q)]; rewrite S; [reflexivity|]. cbn [Nat.eqb andb orb].
      destruct (d_lead (m_rounds st r)); [reflexivity|]. destruct (m_out st); [reflexivity|]. destruct Q as [Q|Q]; exfalso; apply Q; reflexivity. }
    rewrite SR. cbn [andb negb]. destruct (vsig _ vd) eqn:Q; [|reflexivity].
    exfalso. apply V. destruct vd as [sm|]; [|discriminate Q]. cbn [vsig] in Q. unfold bytes_eqb in Q.
    destruct (list_eq_dec Z.eq_dec sm (smEcho ID r j 1 (H v))) as [->|]; [reflexivity|discriminate Q].
Qed.
Print Assumptions c49_agreement_fatal.

(** Both can be sent to a member that has just started: two Value messages, or one Finish message. *)
Theorem c49_agreement_refuted : forall H coin N F ID v, (0 < N)%nat ->
  (exists e, mstep H coin N F ID (mvba_init v) e = Panic) /\
  exists st outs, mstep H coin N F ID (mvba_init v) (EvValue 0 0 1 [] NoSig) = Ret (Some (st, outs)) /\
    mstep H coin N F ID st (EvValue 0 0 2 [] NoSig) = Fatal.
Proof.
  intros H coin N F ID v P. split.
  - exists (EvFinish 0 (Z.of_nat N) [] NoSig). apply c49_agreement_panic. exists O, (Z.of_nat N), [], NoSig. repeat split; [cbn; lia|lia].
  - destruct N as [|n]; [lia|]. eexists. eexists. split; [reflexivity|]. reflexivity.
Qed.
Print Assumptions c49_agreement_refuted.

(** *** Concrete cases *)

Example c49_demo_alive :
  snd (connection [Arrive [0; 0; 0; 3; 10; 1; 65; 0; 0]; Read 4; Read 3; Read 2] false) = true.
Proof. reflexivity. Qed.

Example c49_demo_codec : exists cd, codec_ok cd /\ rejects_empty cd.
Proof.
  exists (mkCodec (fun g => [1; fv (dlog1 g)]) (fun b => match b with [_; x] => Some (mkG1 (of_Z x)) | _ => None end)).
  split; [|reflexivity]. intros [g]. cbn. f_equal. f_equal. apply of_Z_fv.
Qed.

Example c49_demo_share_reduce : exists cd p m, has_setup p /\ readable cd (sr_C m) /\ readable cd (sr_W m).
Proof.
  exists (mkCodec (fun _ => []) (fun _ => Some ZeroG1)).
  exists (mkParty 4 1 0 (mkKZG [] [ZeroG2; ZeroG2]) (Pi_Init 1) [] [] [] [] []).
  exists (mkSR [] [] []). split; [unfold has_setup; cbn; lia|]. split; discriminate.
Qed.
