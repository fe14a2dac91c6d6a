(** Headline theorems: reduction of shares and preparation of the new committee (C20-C22). *)

Require Import ZArith List Lia Bool Arith Permutation.
From Verif Require Import Prime Fr Bytes CodecModel CodecProofs GoBase Poly Biv BivProofs PolyModel PolyProofs
  GroupModel KzgModel KzgProofs PartyModel PartySpec VssModel VssProofs VssProofs2 ReduceModel ReduceProofs
  PropertiesVss.
Import ListNotations.
Local Open Scope F_scope.

(** ** Helpers *)

Lemma ready_send cd N F B p q : ready N F B p -> (q < N)%nat ->
  exists ms, ShareReduceSend cd p = Ret ms /\
    nth_error ms q = Some (hmsg cd party_secret B (of_nat (p_PID p + 1)) (of_nat (q + 1))).
Proof.
  intros (W & EN & EF & _ & H & HI) Hq. eexists. split.
  - apply (send_correct cd party_secret B p W H). rewrite Forall_forall in HI |- *. intros k Hk.
    destruct (HI k Hk) as (j & Hj & ->). unfold of_nat. rewrite fv_of_Z.
    destruct W as (_ & _ & _ & _ & W5 & _). rewrite Z.mod_small; rewrite EN in *; lia.
  - rewrite EN, nth_error_map, (nth_error_nth' (seq 0 N) O) by (rewrite seq_length; exact Hq).
    rewrite seq_nth by exact Hq. reflexivity.
Qed.

Lemma sender_X N i : (Z.of_nat N < 2 ^ 32)%Z -> (0 <= i < Z.of_nat N)%Z ->
  Xof i = (i + 1)%Z.
Proof. intros. unfold Xof. apply Z.mod_small. lia. Qed.

Lemma hmsg_check s n ks B F dy x y : setup s n = Ret ks -> (2 <= n)%nat -> bdeg F dy B ->
  CheckProofSingle ks (mkG1 (peval (secx B s) y)) (mkG1 (peval (wrow s B x) y)) x (beval B x y) = Ret true.
Proof.
  intros HS Hn HB. apply (check_iff s n ks HS); [exact Hn|]. cbn [dlog1].
  unfold wrow. rewrite <- (sdiv_secy F dy B y x HB s).
  rewrite peval_secx, <- !peval_secy. rewrite (sdiv_eval (secy B y) x s). ring.
Qed.

Definition same_but_reduced (p p' : Party) (q : list Fr) : Prop := p' = set_reducedShare p q.

(** ** C21 (true part) Share reduction with up to F corrupted senders *)

(** Excluded are repeated senders, messages with undecodable points, and forged openings of the right
    commitment; with each of these the conclusion is false, see the refutations below. *)
Theorem c21_robust : forall cd N F B q p' bad dlvs, codec_ok cd ->
  (Z.of_nat N < 2 ^ 32)%Z -> (q < N)%nat ->
  party_wf party_secret p' -> p_F p' = F -> bdeg F (2 * F) B ->
  (* senders are members of the old committee, at most F of them corrupted, no message repeated *)
  (forall i m, In (i, m) dlvs -> (0 <= i < Z.of_nat N)%Z) -> NoDup (map fst dlvs) ->
  (length bad <= F)%nat ->
  (forall i m, In (i, m) dlvs -> ~ In i bad ->
     exists p ms, ready N F B p /\ Z.of_nat (p_PID p) = i /\ ShareReduceSend cd p = Ret ms /\
       nth_error ms q = Some m) ->
  (forall i m, In (i, m) dlvs -> In i bad ->
     FromCompressedG1 cd (sr_C m) <> None /\ FromCompressedG1 cd (sr_W m) <> None) ->
  (* no forged opening of the commitment to the receiver's polynomial *)
  (forall i m C w v, In (i, m) dlvs -> In i bad ->
     CommitToPoly (p_KZG p') (secy B (of_nat (q + 1))) = Ret C ->
     FromCompressedG1 cd (sr_C m) = Some C -> FromCompressedG1 cd (sr_W m) = Some w ->
     CheckProofSingle (p_KZG p') C w (of_Z (i + 1)) v = Ret true ->
     v = beval B (of_Z (i + 1)) (of_nat (q + 1))) ->
  (* messages of F+1 honest members have arrived *)
  (F + 1 <= length (filter (fun d => negb (existsb (Z.eqb (fst d)) bad)) dlvs))%nat ->
  exists p'', ShareReduceReceive cd p' dlvs = Ret (Some p'') /\
    same_but_reduced p' p'' (secy B (of_nat (q + 1))).
Proof.
  intros cd N F B q p' bad dlvs HC HN Hq WP PF HB HR ND Hbad Hgood Hdec Hforge HL.
  pose proof WP as (W1 & _ & W3 & W4 & _). rewrite PF in W1, W3.
  set (y := of_nat (q + 1)) in *.
  eexists. split; [|reflexivity].
  assert (HG : forall i m, In (i, m) dlvs -> ~ In i bad ->
    m = hmsg cd party_secret B (of_Z (i + 1)) y).
  { intros i m Hin Nb. destruct (Hgood i m Hin Nb) as (p & ms & RD & <- & ES & EN).
    destruct (ready_send cd N F B p q RD Hq) as (ms' & ES' & EN'). rewrite ES in ES'. injection ES' as <-.
    rewrite EN in EN'. injection EN' as ->. unfold y. f_equal. unfold of_nat. f_equal. lia. }
  apply (receive_correct cd party_secret p' (ToCompressedG1 cd (mkG1 (peval (secx B party_secret) y)))
    (mkG1 (peval (secx B party_secret) y)) (secy B y) bad); auto.
  - rewrite PF. exact Hbad.
  - apply Forall_forall. intros [i m] Hin. specialize (HR i m Hin). cbn [fst]. lia.
  - intros i m Hin Nb. rewrite (HG i m Hin Nb). unfold hmsg. cbn [sr_C sr_V sr_W].
    split; [reflexivity|]. eexists. split; [apply HC|].
    rewrite (sender_X N i HN (HR i m Hin)).
    rewrite to32_FrTo32, FrFrom32_FrTo32, !peval_secy. split; [reflexivity|].
    apply (hmsg_check party_secret (F + 1) (p_KZG p') B F (2 * F)); auto. lia.
  - intros i m Hin. destruct (in_dec Z.eq_dec i bad) as [Hb|Nb]; [apply (Hdec i m Hin Hb)|].
    rewrite (HG i m Hin Nb). unfold hmsg. cbn [sr_C sr_W]. rewrite !HC. split; discriminate.
  - intros i m w v Hin EK EW CK. rewrite (sender_X N i HN (HR i m Hin)) in *. rewrite peval_secy.
    destruct (in_dec Z.eq_dec i bad) as [Hb|Nb].
    + apply (Hforge i m (mkG1 (peval (secx B party_secret) y)) w v Hin Hb); auto.
      * apply (commit_section party_secret (F + 1) (p_KZG p') F (2 * F) B y W1 HB). lia.
      * rewrite EK. apply HC.
    + rewrite (HG i m Hin Nb) in EW. unfold hmsg in EW. cbn [sr_W] in EW. rewrite HC in EW. injection EW as <-.
      pose proof (hmsg_check party_secret (F + 1) (p_KZG p') B F (2 * F) (of_Z (i + 1)) y W1 ltac:(lia) HB) as CK2.
      apply (check_iff party_secret (F + 1) (p_KZG p') W1) in CK, CK2; try lia. cbn [dlog1] in CK, CK2.
      rewrite <- CK2 in CK. apply (f_equal (fun t => peval (secx B party_secret) y - t)) in CK. ring_simplify in CK.
      exact CK.
  - rewrite (length_secy F (2 * F) B y HB), PF. lia.
  - rewrite PF. exact HL.
Qed.
Print Assumptions c21_robust.

(** ** C20 Share reduction between honest committees *)

Lemma nodup_sub {A B} (L D : list (A * B)) : NoDup (map fst L) -> NoDup D -> incl D L -> NoDup (map fst D).
Proof.
  intros NL. induction D as [|[a b] D IH]; intros ND IN; [constructor|]. inversion ND; subst.
  cbn [map fst]. constructor.
  - rewrite in_map_iff. intros ([a' b'] & E & Hin). cbn [fst] in E. subst a'.
    assert (Hb : b' = b).
    { pose proof (IN (a, b) (or_introl eq_refl)) as I1. pose proof (IN (a, b') (or_intror Hin)) as I2.
      clear -NL I1 I2. induction L as [|[c d] L IHL]; [destruct I1|]. cbn [map fst] in NL. inversion NL; subst.
      destruct I1 as [E1|I1], I2 as [E2|I2].
      - congruence.
      - injection E1 as -> ->. exfalso. apply H1. apply (in_map fst) in I2. exact I2.
      - injection E2 as -> ->. exfalso. apply H1. apply (in_map fst) in I1. exact I1.
      - auto. }
    subst b'. auto.
  - apply IH; [assumption|]. intros x Hx. apply IN. right. exact Hx.
Qed.

Theorem c20_share_reduce : forall cd N F B ps q p', codec_ok cd -> (Z.of_nat N < 2 ^ 32)%Z ->
  Forall (ready N F B) ps -> NoDup (map p_PID ps) ->
  party_wf party_secret p' -> p_F p' = F -> p_PID p' = q -> (q < N)%nat ->
  exists sent,
    Forall2 (fun p m => exists ms, ShareReduceSend cd p = Ret ms /\ nth_error ms q = Some m) ps sent /\
    forall dlvs, NoDup dlvs -> incl dlvs (combine (map (fun p => Z.of_nat (p_PID p)) ps) sent) ->
      (F + 1 <= length dlvs)%nat ->
      exists p'', ShareReduceReceive cd p' dlvs = Ret (Some p'') /\
        p_reducedShare p'' = secy B (of_nat (p_PID p'' + 1)) /\ p_PID p'' = q.
Proof.
  intros cd N F B ps q p' HC HN HP NP WP PF PI Hq.
  set (f := fun p => hmsg cd party_secret B (of_nat (p_PID p + 1)) (of_nat (q + 1))).
  exists (map f ps). split.
  { clear NP PI. induction HP as [|p ps RD HP IH]; constructor; [|exact IH].
    apply (ready_send cd N F B p q RD Hq). }
  assert (EC : combine (map (fun p => Z.of_nat (p_PID p)) ps) (map f ps) =
    map (fun p => (Z.of_nat (p_PID p), f p)) ps).
  { clear. induction ps as [|p ps IH]; [reflexivity|]. cbn [map combine]. rewrite IH. reflexivity. }
  rewrite EC. clear EC. intros dlvs ND IN HL.
  assert (HB : bdeg F (2 * F) B).
  { destruct dlvs as [|d dlvs]; [simpl in HL; lia|].
    specialize (IN d (or_introl eq_refl)). apply in_map_iff in IN. destruct IN as (p & _ & Hp).
    rewrite Forall_forall in HP. destruct (HP p Hp) as (_ & _ & EF & _ & (HB & _) & _).
    rewrite EF in HB. exact HB. }
  assert (HH : forall i m, In (i, m) dlvs -> exists p, In p ps /\ i = Z.of_nat (p_PID p) /\ m = f p).
  { intros i m Hin. apply IN in Hin. apply in_map_iff in Hin. destruct Hin as (p & Ep & Hp).
    injection Ep as <- <-. exists p. auto. }
  rewrite Forall_forall in HP.
  destruct (c21_robust cd N F B q p' [] dlvs) as (p'' & E & ->); auto.
  - intros i m Hin. destruct (HH i m Hin) as (p & Hp & -> & _). destruct (HP p Hp) as (_ & _ & _ & H & _). lia.
  - apply (nodup_sub (map (fun p => (Z.of_nat (p_PID p), f p)) ps)); auto.
    rewrite map_map. cbn [fst]. rewrite <- (map_map p_PID Z.of_nat).
    apply FinFun.Injective_map_NoDup; [|exact NP]. intros a b. apply Nat2Z.inj.
  - simpl. lia.
  - intros i m Hin _. destruct (HH i m Hin) as (p & Hp & -> & ->).
    destruct (ready_send cd N F B p q (HP p Hp) Hq) as (ms & E1 & E2). exists p, ms. auto.
  - intros i m C w v _ [].
  - cbn [existsb negb]. replace (filter (fun _ : Z * ShareReduceMsg => true) dlvs) with dlvs; [exact HL|].
    clear. induction dlvs as [|d l IH]; [reflexivity|]. cbn [filter]. f_equal. exact IH.
  - eexists. split; [exact E|]. cbn [set_reducedShare p_reducedShare p_PID]. rewrite PI. auto.
Qed.
Print Assumptions c20_share_reduce.

(** Members who took a dealing of the client are ready: the hypotheses of C20 are met by the
    committee of C17. *)
Lemma dealt_ready cd N F s rF rZ ks msgs B : codec_ok cd ->
  (1 <= F)%nat -> (3 * F + 1 <= N)%nat -> (Z.of_nat (N + 2) <= r)%Z ->
  length rF = (2 * F + 1)%nat -> length rZ = (2 * F + 1)%nat ->
  Forall (fun row => length row = (F + 1)%nat) rZ ->
  party_setup F = Ret ks -> Share cd ks N F s rF rZ = Ret msgs -> bdeg F (2 * F) B ->
  (forall j, (1 <= j <= 2 * F + 1)%nat ->
     secy B (of_nat j) = peval (s :: tl rF) (of_nat j) :: tl (nth (j - 1) rZ [])) ->
  forall i, (i < N)%nat -> exists p m p', NewHonestParty N F i = Ret p /\ nth_error msgs i = Some m /\
    VSSShareReceive cd p m = Ret (true, p') /\ ready N F B p'.
Proof.
  intros HC HF HN HR LF LZ LZ2 HS ESh HB HBr i Hi.
  destruct (new_party N F i HF HN HR) as (p & EP & WP & PN & PF & PI).
  assert (EK : p_KZG p = ks).
  { destruct WP as (W & _). rewrite PF in W. unfold party_setup in HS. rewrite HS in W. congruence. }
  assert (HS2 : setup party_secret (F + 1) = Ret ks) by exact HS.
  rewrite (share_correct cd party_secret ks N F s rF rZ HS2 HF ltac:(lia) LF LZ LZ2) in ESh.
  injection ESh as <-.
  destruct (receive_honest cd party_secret ks F s rF rZ HS2 HF ltac:(lia) LF LZ LZ2 p (i + 1) B (mkG1 s)
              HC WP PF EK ltac:(lia) HB) as (p' & ER & HH & HW & HG & PN' & PF' & PI' & EK' & HCc).
  { intros j Hj. rewrite HBr by exact Hj. symmetry. apply (Br_form F s rF rZ HF ltac:(lia) LF LZ LZ2). exact Hj. }
  exists p. eexists. exists p'. split; [exact EP|]. split.
  { rewrite nth_error_map, (nth_error_nth' (seq 1 N) O) by (rewrite seq_length; lia).
    rewrite seq_nth by lia. rewrite (Nat.add_comm 1 i). reflexivity. }
  split; [exact ER|]. split; [exact HW|]. split; [congruence|]. split; [exact PF'|]. split; [lia|].
  split; [exact HH|].
  (* places of the witnesses *)
  revert ER. unfold VSSShareReceive. rewrite PF. intros ER.
  apply bind_ret in ER. destruct ER as (pi & _ & ER).
  apply bind_ret in ER. destruct ER as ((va, wi) & Evw & ER).
  apply values_inv in Evw. destruct Evw as (_ & LW & _).
  apply bind_ret in ER. destruct ER as (b0 & _ & ER). destruct b0; [|injection ER as ER; discriminate].
  apply bind_ret in ER. destruct ER as (pr & _ & ER).
  apply bind_ret in ER. destruct ER as ((wit, widx) & E5 & ER).
  destruct WP as (_ & _ & _ & _ & _ & _ & _ & W8 & W9). rewrite PF in W8, W9.
  rewrite (wit_loop wi F (nth 0 wi ZeroG1) (fun j => nth j wi ZeroG1)) in E5; auto.
  2:{ apply (list_as_map ZeroG1). lia. }
  injection E5 as <- <-.
  apply bind_ret in ER. destruct ER as (kv & _ & ER).
  apply bind_ret in ER. destruct ER as (q & _ & ER). injection ER as <-.
  cbn [p_witnessIndexes]. apply Forall_forall. intros k Hk. apply in_map_iff in Hk.
  destruct Hk as (j & <- & Hj). apply in_seq in Hj. exists j. split; [lia|reflexivity].
Qed.

Example c20_example : exists ps, length ps = 4%nat /\ NoDup (map p_PID ps) /\
  exists B, Forall (ready 4 1 B) ps /\ beval B 0 0 = of_Z 7.
Proof.
  destruct (c17_honest_dealer demo_codec 4 1 (of_Z 7) [of_Z 9; of_Z 2; of_Z 3]
     [[of_Z 0; of_Z 4]; [of_Z 0; of_Z 5]; [of_Z 0; of_Z 6]]) as (ks & msgs & B & E1 & E2 & _ & HB & H0 & _ & HBr & _);
    try apply c17_example_hypotheses.
  assert (HR : forall i, (i < 4)%nat -> exists p m p', NewHonestParty 4 1 i = Ret p /\ nth_error msgs i = Some m /\
    VSSShareReceive demo_codec p m = Ret (true, p') /\ ready 4 1 B p').
  { eapply dealt_ready; try apply c17_example_hypotheses; eassumption. }
  assert (HR2 : forall i, (i < 4)%nat -> exists p', p_PID p' = i /\ ready 4 1 B p').
  { intros i Hi. destruct (HR i Hi) as (p & m & p' & EP & _ & ER & RD). exists p'. split; [|exact RD].
    destruct (new_party 4 1 i) as (p1 & EP1 & WP & _ & _ & PI); try lia; [rewrite r_eq; lia|].
    rewrite EP in EP1. injection EP1 as <-.
    destruct (accept_inv party_secret demo_codec p m p' WP ER) as (_ & _ & _ & _ & PI' & _). congruence. }
  destruct (HR2 0%nat ltac:(lia)) as (p0 & I0 & R0). destruct (HR2 1%nat ltac:(lia)) as (p1 & I1 & R1).
  destruct (HR2 2%nat ltac:(lia)) as (p2 & I2 & R2). destruct (HR2 3%nat ltac:(lia)) as (p3 & I3 & R3).
  exists [p0; p1; p2; p3]. split; [reflexivity|]. split.
  - cbn [map]. rewrite I0, I1, I2, I3. repeat constructor; cbn; intuition lia.
  - exists B. split; [repeat (constructor; [assumption|]); constructor|exact H0].
Qed.

(** ** C21 (false part) *)

(** A replayed message stops the process: one old member's message, F+1 times. *)
Theorem c21_replay_refuted : forall cd N F B p q p', codec_ok cd -> (Z.of_nat N < 2 ^ 32)%Z ->
  ready N F B p -> party_wf party_secret p' -> p_F p' = F -> (q < N)%nat ->
  exists ms m, ShareReduceSend cd p = Ret ms /\ nth_error ms q = Some m /\
    ShareReduceReceive cd p' (repeat (Z.of_nat (p_PID p), m) (F + 1)) = Fatal.
Proof.
  intros cd N F B p q p' HC HN RD WP PF Hq.
  destruct (ready_send cd N F B p q RD Hq) as (ms & E1 & E2). exists ms. eexists.
  split; [exact E1|]. split; [exact E2|].
  pose proof RD as (_ & _ & EF & HP & (HB & _) & _). rewrite EF in HB.
  pose proof WP as (W1 & _ & W3 & _). rewrite PF in W1, W3.
  unfold ShareReduceReceive. rewrite <- PF.
  rewrite (sr_replay cd p' _ (Z.of_nat (p_PID p)) (mkG1 (peval (secx B party_secret) (of_nat (q + 1))))
    (mkG1 (peval (wrow party_secret B (of_nat (p_PID p + 1))) (of_nat (q + 1))))
    (beval B (of_nat (p_PID p + 1)) (of_nat (q + 1)))).
  - cbn [bind]. set (pt := mkPoint _ _).
    rewrite (gomap_ret _ (fun _ => of_Z (pt_X pt))).
    2:{ intros i Hi. apply in_seq in Hi. rewrite (idx_nth pt) by (rewrite repeat_length; lia).
        rewrite nth_repeat. reflexivity. }
    cbn [bind]. rewrite (gomap_ret _ (fun _ => pt_Y pt)).
    2:{ intros i Hi. apply in_seq in Hi. rewrite (idx_nth pt) by (rewrite repeat_length; lia).
        rewrite nth_repeat. reflexivity. }
    cbn [bind]. rewrite (interp_dup (p_F p')) with (i := 0%nat) (j := 1%nat); [reflexivity| | | | |];
      rewrite ?map_length, ?seq_length; try lia.
    rewrite !nth_map_seq by lia. reflexivity.
  - apply HC.
  - apply HC.
  - unfold hmsg. cbn [sr_V]. rewrite to32_FrTo32. apply FrFrom32_FrTo32.
  - rewrite (sender_X N) by lia.
    replace (of_Z (Z.of_nat (p_PID p) + 1)) with (of_nat (p_PID p + 1)) by (unfold of_nat; f_equal; lia).
    apply (hmsg_check party_secret (F + 1) (p_KZG p') B F (2 * F)); auto. lia.
Qed.
Print Assumptions c21_replay_refuted.

(** Messages are not compared with the prepared commitments: whatever the new member has
    adopted, F+1 messages with made-up sender numbers and one made-up polynomial give it any
    reduced share. *)
Theorem c21_foreign_refuted : forall cd p' q, codec_ok cd -> party_wf party_secret p' ->
  (Z.of_nat (p_N p') < 2 ^ 32)%Z -> length q = (p_F p' + 1)%nat ->
  exists dlvs, map fst dlvs = map Z.of_nat (seq 0 (p_F p' + 1)) /\
    exists p'', ShareReduceReceive cd p' dlvs = Ret (Some p'') /\ p_reducedShare p'' = q /\
      p_Proof p'' = p_Proof p'.
Proof.
  intros cd p' q HC WP HN LQ. pose proof WP as (W1 & _ & W3 & W4 & _). set (F := p_F p') in *.
  set (s := party_secret) in *.
  set (f := fun j => (Z.of_nat j, mkSR (ToCompressedG1 cd (mkG1 (peval q s)))
              (FrTo32 (peval q (of_nat (j + 1))))
              (ToCompressedG1 cd (mkG1 (peval (fst (sdiv q (of_nat (j + 1)))) s))))).
  assert (CK : forall x, CheckProofSingle (p_KZG p') (mkG1 (peval q s)) (mkG1 (peval (fst (sdiv q x)) s)) x
                           (peval q x) = Ret true).
  { intros x. apply (check_iff s (F + 1) (p_KZG p') W1); [lia|]. cbn [dlog1].
    rewrite (sdiv_eval q x s). ring. }
  assert (HX : forall j, (j < F + 1)%nat -> of_Z (Xof (Z.of_nat j)) = of_nat (j + 1)).
  { intros j Hj. rewrite (sender_X (p_N p')) by lia. unfold of_nat. f_equal. lia. }
  exists (map f (seq 0 (F + 1))). split; [rewrite map_map; reflexivity|].
  eexists. split.
  - apply (receive_correct cd s p' (ToCompressedG1 cd (mkG1 (peval q s))) (mkG1 (peval q s)) q []); auto.
    + simpl. lia.
    + rewrite map_map. cbn [fst f]. apply FinFun.Injective_map_NoDup; [intros a b; apply Nat2Z.inj|apply seq_NoDup].
    + apply Forall_forall. intros d Hd. apply in_map_iff in Hd. destruct Hd as (j & <- & Hj). apply in_seq in Hj.
      cbn [fst f]. fold F in Hj. lia.
    + intros i m Hd _. apply in_map_iff in Hd. destruct Hd as (j & Ej & Hj). apply in_seq in Hj.
      unfold f in Ej. injection Ej as <- <-. cbn [sr_C sr_W sr_V]. split; [reflexivity|].
      eexists. split; [apply HC|]. rewrite HX by lia. rewrite to32_FrTo32, FrFrom32_FrTo32.
      split; [reflexivity|apply CK].
    + intros i m Hd. apply in_map_iff in Hd. destruct Hd as (j & Ej & Hj).
      unfold f in Ej. injection Ej as <- <-. cbn [sr_C sr_W]. rewrite !HC. split; discriminate.
    + intros i m w v Hd _ EW CK2. apply in_map_iff in Hd. destruct Hd as (j & Ej & Hj). apply in_seq in Hj.
      unfold f in Ej. injection Ej as <- <-. cbn [sr_W] in EW. rewrite HC in EW. injection EW as <-.
      rewrite HX in CK2 by lia. rewrite HX by lia. specialize (CK (of_nat (j + 1))).
      apply (check_iff s (F + 1) (p_KZG p') W1) in CK, CK2; try lia. cbn [dlog1] in *.
      rewrite <- CK in CK2. apply (f_equal (fun t => peval q s - t)) in CK2. ring_simplify in CK2. exact CK2.
    + replace (filter _ (map f (seq 0 (F + 1)))) with (map f (seq 0 (F + 1))).
      * rewrite map_length, seq_length. fold F. lia.
      * symmetry. generalize (map f (seq 0 (F + 1))). intros l. induction l as [|d l IH]; [reflexivity|].
        cbn [filter existsb negb]. f_equal. exact IH.
  - split; reflexivity.
Qed.
Print Assumptions c21_foreign_refuted.

(** One corrupted sender among F honest ones, with an opening forged by means of the published
    secret: the new member ends with a wrong share. *)
Lemma secret_not_small n : (Z.of_nat n < 2 ^ 32)%Z -> party_secret <> of_nat n.
Proof.
  intros H E. unfold party_secret, of_nat in E. apply of_Z_inj in E; [lia| |].
  - rewrite r_eq. split; [discriminate|reflexivity].
  - pose proof r_big. lia.
Qed.

Theorem c21_forgery_refuted : forall cd N F B ps q p', codec_ok cd -> (Z.of_nat N < 2 ^ 32)%Z ->
  Forall (ready N F B) ps -> map p_PID ps = seq 0 F -> (F < N)%nat -> bdeg F (2 * F) B ->
  party_wf party_secret p' -> p_F p' = F -> (q < N)%nat ->
  exists sent forged p'',
    Forall2 (fun p m => exists ms, ShareReduceSend cd p = Ret ms /\ nth_error ms q = Some m) ps sent /\
    ShareReduceReceive cd p' (combine (map Z.of_nat (seq 0 F)) sent ++ [(Z.of_nat F, forged)]) = Ret (Some p'') /\
    p_reducedShare p'' <> secy B (of_nat (q + 1)).
Proof.
  intros cd N F B ps q p' HC HN HP EP HF HB WP PF Hq.
  pose proof WP as (W1 & _ & W3 & _). rewrite PF in W1, W3. set (s := party_secret) in *.
  set (y := of_nat (q + 1)). set (xs := map of_nat (seq 1 F)). set (xF := of_nat (F + 1)).
  set (Q := padd (secy B y) (pscale (finv (prodlin xs xF)) (plin xs))).
  assert (NX : ~ In xF xs).
  { unfold xs, xF. rewrite in_map_iff. intros (j & Ej & Hj). apply in_seq in Hj. pose proof r_big.
    apply of_nat_inj in Ej; lia. }
  assert (PX : prodlin xs xF <> 0) by (apply prodlin_neq_0; exact NX).
  assert (Qi : forall j, (j < F)%nat -> peval Q (of_nat (j + 1)) = beval B (of_nat (j + 1)) y).
  { intros j Hj. unfold Q. rewrite peval_padd, peval_pscale, peval_plin, peval_secy.
    rewrite (prodlin_0 xs (of_nat (j + 1))); [ring|]. unfold xs. apply in_map. apply in_seq. lia. }
  assert (QF : peval Q xF = beval B xF y + 1).
  { unfold Q. rewrite peval_padd, peval_pscale, peval_plin, peval_secy, finv_l by exact PX. reflexivity. }
  set (g := mkG1 (peval (secx B s) y)).
  set (wF := MulG1 (SubG1 g (MulG1 GenG1 (peval Q xF))) (finv (s - xF))).
  assert (CF : forall w v, CheckProofSingle (p_KZG p') g w xF v = Ret true <->
     w = MulG1 (SubG1 g (MulG1 GenG1 v)) (finv (s - xF))).
  { intros w v. apply (forge s (F + 1) (p_KZG p') W1); [lia|]. intros E. apply (secret_not_small (F + 1)); [lia|].
    symmetry. exact E. }
  set (hm := fun j => hmsg cd s B (of_nat (j + 1)) y).
  set (forged := mkSR (ToCompressedG1 cd g) (FrTo32 (peval Q xF)) (ToCompressedG1 cd wF)).
  exists (map hm (seq 0 F)), forged.
  set (dl := combine (map Z.of_nat (seq 0 F)) (map hm (seq 0 F)) ++ [(Z.of_nat F, forged)]).
  assert (EC : combine (map Z.of_nat (seq 0 F)) (map hm (seq 0 F)) = map (fun j => (Z.of_nat j, hm j)) (seq 0 F)).
  { generalize (seq 0 F). intros l. induction l as [|p l IH]; [reflexivity|]. cbn [map combine]. rewrite IH. reflexivity. }
  assert (HX : forall j, (j <= F)%nat -> of_Z (Xof (Z.of_nat j)) = of_nat (j + 1)).
  { intros j Hj. rewrite (sender_X N) by lia. unfold of_nat. f_equal. lia. }
  (* every message: either honest or the forged one; each is the valid opening of g to the value of Q *)
  assert (HD : forall i m, In (i, m) dl -> sr_C m = ToCompressedG1 cd g /\ (0 <= i < 2 ^ 32)%Z /\
    exists w, FromCompressedG1 cd (sr_W m) = Some w /\
      FrFrom32 (to32 (sr_V m)) = Some (peval Q (of_Z (Xof i))) /\
      CheckProofSingle (p_KZG p') g w (of_Z (Xof i)) (peval Q (of_Z (Xof i))) = Ret true).
  { intros i m Hin. unfold dl in Hin. rewrite EC in Hin. apply in_app_or in Hin. destruct Hin as [Hin|[Hin|[]]].
    - apply in_map_iff in Hin. destruct Hin as (j & Ej & Hj). apply in_seq in Hj. injection Ej as <- <-.
      unfold hm, hmsg. cbn [sr_C sr_W sr_V]. split; [reflexivity|]. split; [lia|].
      eexists. split; [apply HC|]. rewrite HX by lia. rewrite to32_FrTo32, FrFrom32_FrTo32, Qi by lia.
      split; [reflexivity|]. apply (hmsg_check s (F + 1) (p_KZG p') B F (2 * F)); auto. lia.
    - injection Hin as <- <-. unfold forged. cbn [sr_C sr_W sr_V]. split; [reflexivity|]. split; [lia|].
      eexists. split; [apply HC|]. rewrite HX by lia. fold xF. rewrite to32_FrTo32, FrFrom32_FrTo32.
      split; [reflexivity|]. apply CF. reflexivity. }
  eexists. split.
  { assert (G : forall l, Forall (ready N F B) l ->
      Forall2 (fun p m => exists ms, ShareReduceSend cd p = Ret ms /\ nth_error ms q = Some m) l (map hm (map p_PID l))).
    { induction 1 as [|p l RD Hl IH]; constructor; [|exact IH]. apply (ready_send cd N F B p q RD Hq). }
    rewrite <- EP. apply G. exact HP. }
  split.
  - apply (receive_correct cd s p' (ToCompressedG1 cd g) g Q []); auto.
    + simpl. lia.
    + fold dl. unfold dl. rewrite EC, map_app, map_map. cbn [map fst]. rewrite <- (map_map (fun j => j) Z.of_nat), map_id.
      replace (map Z.of_nat (seq 0 F) ++ [Z.of_nat F]) with (map Z.of_nat (seq 0 (S F))) by (rewrite seq_S, map_app; reflexivity).
      apply FinFun.Injective_map_NoDup; [intros a b; apply Nat2Z.inj|apply seq_NoDup].
    + apply Forall_forall. intros [i m] Hin. apply (HD i m Hin).
    + intros i m Hin _. destruct (HD i m Hin) as (A & _ & A2). auto.
    + intros i m Hin. destruct (HD i m Hin) as (A & _ & w & A2 & _). rewrite A, A2, HC. split; discriminate.
    + intros i m w v Hin _ EW CK. destruct (HD i m Hin) as (_ & _ & w' & A2 & _ & A3).
      rewrite EW in A2. injection A2 as <-.
      apply (check_iff s (F + 1) (p_KZG p') W1) in CK, A3; try lia.
      rewrite <- A3 in CK. apply (f_equal (fun t => dlog1 g - t)) in CK. ring_simplify in CK. exact CK.
    + unfold Q. rewrite length_padd, length_pscale, length_plin, (length_secy F (2 * F) B y HB).
      unfold xs. rewrite map_length, seq_length, PF. lia.
    + fold dl. replace (filter _ dl) with dl.
      * unfold dl. rewrite EC, app_length, map_length, seq_length, PF. simpl. lia.
      * symmetry. clear. generalize dl. intros l. induction l as [|d l IH]; [reflexivity|].
        cbn [filter existsb negb]. f_equal. exact IH.
  - cbn [set_reducedShare p_reducedShare]. fold y. intros E. rewrite E, peval_secy in QF.
    apply f1_neq_0. apply (f_equal (fun t => t - beval B xF y)) in QF. ring_simplify in QF. symmetry. exact QF.
Qed.
Print Assumptions c21_forgery_refuted.

(** A value that is not a canonical scalar is not rejected: the value of the previous message is
    used in its place. *)
Theorem c21_stale_value_refuted : forall cd p' v, codec_ok cd -> party_wf party_secret p' -> p_F p' = 1%nat ->
  exists m1 m2, FrFrom32 (to32 (sr_V m2)) = None /\
    exists p'', ShareReduceReceive cd p' [(0%Z, m1); (1%Z, m2)] = Ret (Some p'') /\
      p_reducedShare p'' = [v; 0].
Proof.
  intros cd p' v HC WP PF. pose proof WP as (W1 & _ & W3 & _). rewrite PF in W1.
  exists (mkSR (ToCompressedG1 cd (mkG1 v)) (FrTo32 v) (ToCompressedG1 cd (mkG1 0))).
  exists (mkSR (ToCompressedG1 cd (mkG1 v)) (repeat 255%Z 32) (ToCompressedG1 cd (mkG1 0))).
  assert (EN : FrFrom32 (to32 (repeat 255%Z 32)) = None) by (vm_compute; reflexivity).
  split; [exact EN|]. cbn [sr_V].
  assert (CK : forall x, CheckProofSingle (p_KZG p') (mkG1 v) (mkG1 0) x v = Ret true).
  { intros x. apply (check_iff party_secret 2 (p_KZG p') W1); [lia|]. cbn [dlog1]. ring. }
  assert (EL : sr_loop cd p' sr_init
    [(0%Z, mkSR (ToCompressedG1 cd (mkG1 v)) (FrTo32 v) (ToCompressedG1 cd (mkG1 0)));
     (1%Z, mkSR (ToCompressedG1 cd (mkG1 v)) (repeat 255%Z 32) (ToCompressedG1 cd (mkG1 0)))] =
    Ret (Some [mkPoint 1 v; mkPoint 2 v])).
  { cbn [sr_loop]. unfold sr_step at 1. cbn [sr_C sr_W sr_V]. unfold ReadG1. rewrite !HC. cbn [bind].
    rewrite to32_FrTo32. unfold FrFrom32_into. rewrite FrFrom32_FrTo32, CK. cbn [bind sr_init sr_map_of DispatchModel.lookup fst snd].
    rewrite PF. change (1 + 1 <=? 1)%nat with false. cbn match. cbn [bind].
    unfold sr_step. cbn [sr_C sr_W sr_V sr_vJ sr_map_of]. unfold ReadG1. rewrite !HC. cbn [bind].
    unfold FrFrom32_into. rewrite EN, CK. cbn [bind]. rewrite DispatchProofs.lookup_update_same. cbn [snd fst].
    rewrite PF. reflexivity. }
  unfold ShareReduceReceive. rewrite EL. cbn [bind]. rewrite PF. cbn [Nat.add seq gomap bind idx nth_error pt_X pt_Y].
  pose proof (LagrangeInterpolate_values 1 [of_Z 1; of_Z 2] [v; 0]) as LI. cbn [map] in LI.
  replace (peval [v; 0] (of_Z 1)) with v in LI by (cbn [peval]; ring).
  replace (peval [v; 0] (of_Z 2)) with v in LI by (cbn [peval]; ring).
  rewrite LI; [|repeat constructor; cbn; intuition discriminate|simpl; lia|reflexivity].
  cbn [bind]. eexists. split; reflexivity.
Qed.
Print Assumptions c21_stale_value_refuted.

(** The hypotheses of the refutations are met by the committee of C20 and a fresh member. *)
Example c21_example : exists p', NewHonestParty 4 1 2 = Ret p' /\ party_wf party_secret p' /\ p_F p' = 1%nat.
Proof.
  destruct (new_party 4 1 2) as (p & E & W & _ & EF & _); try lia; [rewrite r_eq; lia|]. exists p. auto.
Qed.

(** ** C22 Preparation *)

(** [hash] is SHA-256; [ser] and [parse] write and read the protobuf message. *)
Theorem c22_prepare : forall hash ser parse cd N F B p' bad (dlvs : list (Z * list Z)), codec_ok cd ->
  (forall l, parse (ser l) = l) ->
  party_wf party_secret p' -> p_F p' = F -> bdeg F (2 * F) B ->
  NoDup (map fst dlvs) -> (length bad <= F)%nat ->
  (forall i d, In (i, d) dlvs -> ~ In i bad ->
     exists p l, ready N F B p /\ Z.of_nat (p_PID p) = i /\ PrepareSend cd p = Ret l /\ d = ser l) ->
  (* no collision with the honest data *)
  (forall i d p l, In (i, d) dlvs -> ready N F B p -> PrepareSend cd p = Ret l ->
     hash d = hash (ser l) -> d = ser l) ->
  (F + 1 <= length (filter (fun d => negb (existsb (Z.eqb (fst d)) bad)) dlvs))%nat ->
  exists p'', PrepareReceive hash parse cd p' (map snd dlvs) = Ret (Some p'') /\
    p_N p'' = p_N p' /\ p_F p'' = p_F p' /\ p_PID p'' = p_PID p' /\ p_KZG p'' = p_KZG p' /\ p_tab p'' = p_tab p' /\
    p_fullShare p'' = p_fullShare p' /\ p_reducedShare p'' = p_reducedShare p' /\
    p_witness p'' = p_witness p' /\ p_witnessIndexes p'' = p_witnessIndexes p' /\
    length (PiContents (p_Proof p'')) = length (PiContents (p_Proof p')) /\
    forall j, (1 <= j <= 2 * F + 1)%nat ->
      exists c, nth_error (PiContents (p_Proof p'')) j = Some c /\
        CommitToPoly (p_KZG p'') (secy B (of_nat j)) = Ret (CBj c).
Proof.
  intros hash ser parse cd N F B p' bad dlvs HC HS WP PF HB ND Hb HG HI HL.
  pose proof WP as (W1 & _ & _ & _ & _ & W6 & _). rewrite PF in W1.
  set (D := [] :: map (fun j => ToCompressedG1 cd (mkG1 (peval (secx B party_secret) (of_nat j)))) (seq 1 (2 * F + 1))).
  assert (HP : forall p l, ready N F B p -> PrepareSend cd p = Ret l -> l = D).
  { intros p l (W & _ & EF & _ & HH & _) E. rewrite (prepare_send_correct cd party_secret B p W HH), EF in E.
    injection E as <-. reflexivity. }
  unfold PrepareReceive. rewrite PF.
  rewrite (prep_loop_honest hash F bad (ser D)); auto.
  - destruct (adopt_correct parse cd p' (ser D) (fun j => mkG1 (peval (secx B party_secret) (of_nat j))) HC W6)
      as (p'' & E & EN & EF & EI & EK & EFS & ER & EW & EWI & ET & EL & HCc).
    { rewrite HS, PF. reflexivity. }
    rewrite E. cbn [bind]. exists p''. split; [reflexivity|]. split; [exact EN|]. split; [congruence|]. split; [exact EI|].
    split; [exact EK|]. split; [exact ET|]. split; [exact EFS|]. split; [exact ER|]. split; [exact EW|]. split; [exact EWI|].
    split; [rewrite EL, W6; reflexivity|].
    intros j Hj. rewrite PF in HCc. destruct (HCc j Hj) as (c & Ec & Eg). exists c. split; [exact Ec|].
    rewrite EK, Eg. apply (commit_section party_secret (F + 1) (p_KZG p') F (2 * F) B _ W1 HB). lia.
  - intros i d Hin Nb. destruct (HG i d Hin Nb) as (p & l & RD & _ & E & ->). rewrite (HP p l RD E). reflexivity.
  - intros i d Hin Eh.
    destruct (filter (fun d => negb (existsb (Z.eqb (fst d)) bad)) dlvs) as [|[i0 d0] rest] eqn:EF; [simpl in HL; lia|].
    assert (H0 : In (i0, d0) (filter (fun d => negb (existsb (Z.eqb (fst d)) bad)) dlvs)) by (rewrite EF; left; reflexivity).
    apply filter_In in H0. destruct H0 as (H0 & Nb). cbn [fst] in Nb.
    assert (Nb' : ~ In i0 bad).
    { intros Hb'. apply negb_true_iff in Nb. rewrite <- not_true_iff_false in Nb. apply Nb.
      apply existsb_exists. exists i0. split; [exact Hb'|apply Z.eqb_refl]. }
    destruct (HG i0 d0 H0 Nb') as (p & l & RD & _ & E & _). pose proof (HP p l RD E) as ->.
    apply (HI i d p D Hin RD E). exact Eh.
Qed.
Print Assumptions c22_prepare.

(** What is adopted has been sent (up to hash collisions) in F+1 of the messages received; if no
    sender repeats itself, by F+1 different senders. *)
Theorem c22_vouched : forall hash parse cd p' p'' (dlvs : list (Z * list Z)),
  PrepareReceive hash parse cd p' (map snd dlvs) = Ret (Some p'') ->
  exists d sub, adopt parse cd p' d = Ret p'' /\
    length sub = (p_F p' + 1)%nat /\ incl sub dlvs /\ (forall x, In x sub -> hash (snd x) = hash d) /\
    In d (map snd sub) /\ (NoDup (map fst dlvs) -> NoDup (map fst sub)).
Proof.
  intros hash parse cd p' p'' dlvs H. unfold PrepareReceive in H.
  pose proof (prep_loop_spec hash (p_F p') dlvs [] [] (prep_inv_init hash (p_F p'))) as P.
  destruct (prep_loop hash (p_F p') [] (map snd dlvs)) as [d|]; [|discriminate].
  destruct (adopt parse cd p' d) as [p1| | |] eqn:EA; try discriminate. injection H as ->.
  destruct P as (l1 & l2 & i & E & EC). cbn [app] in EC.
  exists d, (filter (fun x => DispatchModel.bytes_eqb (hash (snd x)) (hash d)) (l1 ++ [(i, d)])).
  split; [exact EA|]. split; [exact EC|]. split; [|split; [|split]].
  - intros x Hx. apply filter_In in Hx. destruct Hx as (Hx & _). rewrite E. apply in_app_or in Hx. apply in_or_app.
    destruct Hx as [Hx|[Hx|[]]]; [left; exact Hx|right; left; exact Hx].
  - intros x Hx. apply filter_In in Hx. destruct Hx as (_ & Hx). apply DispatchProofs.bytes_eqb_eq in Hx. exact Hx.
  - apply in_map_iff. exists (i, d). split; [reflexivity|]. apply filter_In. split.
    + apply in_or_app. right. left. reflexivity.
    + cbn [snd]. apply DispatchProofs.bytes_eqb_refl.
  - intros ND. apply nodup_filter_map. rewrite E in ND.
    change ((i, d) :: l2) with ([(i, d)] ++ l2) in ND. rewrite app_assoc, map_app in ND.
    apply (Permutation_NoDup (Permutation_app_comm _ _)) in ND. apply NoDup_app_r in ND. exact ND.
Qed.
Print Assumptions c22_vouched.

(** One old member who repeats its message F+1 times makes a new member adopt any commitments. *)
Theorem c22_replay_refuted : forall hash ser parse cd p' (g : nat -> G1) i, codec_ok cd ->
  (forall l, parse (ser l) = l) -> party_wf party_secret p' ->
  exists (dlvs : list (Z * list Z)) p'', Forall (fun d => fst d = i) dlvs /\
    PrepareReceive hash parse cd p' (map snd dlvs) = Ret (Some p'') /\
    forall j, (1 <= j <= 2 * p_F p' + 1)%nat ->
      option_map CBj (nth_error (PiContents (p_Proof p'')) j) = Some (g j).
Proof.
  intros hash ser parse cd p' g i HC HS (_ & _ & _ & _ & _ & W6 & _).
  set (d := ser ([] :: map (fun j => ToCompressedG1 cd (g j)) (seq 1 (2 * p_F p' + 1)))).
  exists (repeat (i, d) (p_F p' + 1)).
  destruct (adopt_correct parse cd p' d g HC W6) as (p'' & E & _ & _ & _ & _ & _ & _ & _ & _ & _ & _ & H).
  { apply HS. }
  exists p''. split; [apply Forall_forall; intros x Hx; apply repeat_spec in Hx; subst; reflexivity|].
  split.
  - assert (EM : forall n, map snd (repeat (i, d) n) = repeat d n)
      by (induction n as [|n IH]; [reflexivity|]; cbn [repeat map snd]; rewrite IH; reflexivity).
    unfold PrepareReceive. rewrite EM, prep_loop_repeat, E. reflexivity.
  - intros j Hj. destruct (H j Hj) as (c & -> & <-). reflexivity.
Qed.
Print Assumptions c22_replay_refuted.

(** A run with F = 1: two equal announcements among three are needed. *)
Example c22_example : prep_loop (fun d => d) 1 [] [[1%Z]; [2%Z]; [3%Z]; [2%Z]; [1%Z]] = Some [2%Z] /\
  prep_loop (fun d => d) 1 [] [[1%Z]; [2%Z]; [3%Z]] = None.
Proof. split; reflexivity. Qed.
