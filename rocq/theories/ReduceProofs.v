(** Proofs about ReduceModel.v. *)

Require Import ZArith List Lia Bool Arith Permutation.
From Verif Require Import Prime Fr Bytes CodecModel CodecProofs GoBase Poly Biv PolyModel PolyProofs
  GroupModel KzgModel KzgProofs PartyModel PartySpec VssModel VssProofs BivProofs VssProofs2
  DispatchModel DispatchSpec DispatchProofs ReduceModel.
Import ListNotations.
Local Open Scope F_scope.

(** ** Sending *)

Definition wrow (s : Fr) (B : list (list Fr)) (x : Fr) : list Fr :=
  map (fun row => peval (fst (sdiv row x)) s) B.

Definition hmsg (cd : g1codec) (s : Fr) (B : list (list Fr)) (x y : Fr) : ShareReduceMsg :=
  mkSR (ToCompressedG1 cd (mkG1 (peval (secx B s) y))) (FrTo32 (beval B x y))
       (ToCompressedG1 cd (mkG1 (peval (wrow s B x) y))).

Lemma reduce_tables_correct s B p : party_wf s p -> holds_full_share B p ->
  Forall (fun k => (fv k <= Z.of_nat (p_N p))%Z) (p_witnessIndexes p) ->
  exists CB WB, reduce_tables p = Ret (CB, WB) /\
    length CB = (p_N p + 1)%nat /\ length WB = (p_N p + 1)%nat /\
    forall j, (1 <= j <= p_N p)%nat ->
      nth j CB ZeroG1 = mkG1 (peval (secx B s) (of_nat j)) /\
      nth j WB ZeroG1 = mkG1 (peval (wrow s B (of_nat (p_PID p + 1))) (of_nat j)).
Proof.
  intros (W1 & W2 & W3 & W4 & W5 & W6 & W7 & W8 & W9) (HB & HF & HC & HL & HN & HW) HI.
  unfold reduce_tables. set (N := p_N p) in *. set (F := p_F p) in *.
  set (x := of_nat (p_PID p + 1)) in *.
  assert (EW : p_witness p = map (fun k => mkG1 (peval (wrow s B x) k)) (p_witnessIndexes p)).
  { clear -HW HB W1. revert HW. generalize (p_witnessIndexes p), (p_witness p).
    induction 1 as [|k w ks ws H HW IH]; [reflexivity|]. cbn [map]. f_equal; [|exact IH].
    rewrite (witness_section s (F + 1) (p_KZG p) F (2 * F) B k x W1 HB) in H by lia. unfold wrow. congruence. }
  match goal with |- context [bind (goloop 1 _ ?b ?s0) ?c] => set (body1 := b); set (st0 := s0); set (cont := c) end.
  destruct (goloop_inv (fun j (st : list G1 * list G1) => length (fst st) = (N + 1)%nat /\
     length (snd st) = (N + 1)%nat /\
     forall i, (1 <= i < j)%nat -> nth i (fst st) ZeroG1 = mkG1 (peval (secx B s) (of_nat i)))
     1 (2 * F + 1) body1 st0) as (st1 & -> & L1 & L2 & H1).
  - unfold st0. cbn [fst snd]. rewrite !repeat_length. split; [reflexivity|]. split; [reflexivity|].
    intros; lia.
  - intros j st Hj (L1 & L2 & H). unfold body1.
    destruct (HC j ltac:(lia)) as (c & Ec & Cc). unfold idx at 1. rewrite Ec. cbn [bind].
    unfold upd at 1. rewrite (proj2 (Nat.ltb_lt _ _)) by lia. cbn [bind].
    rewrite (idx_nth 0 (p_witnessIndexes p)) by lia. cbn [bind].
    rewrite (idx_nth ZeroG1 (p_witness p)) by lia. cbn [bind].
    unfold upd_at.
    assert (HK : (fv (nth (j - 1) (p_witnessIndexes p) 0%F) <= Z.of_nat N)%Z).
    { rewrite Forall_forall in HI. apply HI. apply nth_In. lia. }
    rewrite (proj2 (Z.ltb_lt _ _)) by lia. cbn [bind].
    eexists. split; [reflexivity|]. cbn [fst snd]. rewrite !length_set_nth.
    split; [exact L1|]. split; [exact L2|].
    intros i Hi. destruct (Nat.eq_dec i j) as [->|Ne].
    + rewrite nth_set_nth_same by lia.
      rewrite (commit_section s (F + 1) (p_KZG p) F (2 * F) B _ W1 HB) in Cc by lia. congruence.
    + rewrite nth_set_nth_other by lia. apply H. lia.
  - cbn [bind]. unfold cont.
    match goal with |- context [goloop 1 N ?b _] => set (body2 := b) end.
    destruct (goloop_inv (fun j (st : list G1 * list G1) => length (fst st) = (N + 1)%nat /\
       length (snd st) = (N + 1)%nat /\
       (forall i, (1 <= i < 2 * F + 2)%nat -> nth i (fst st) ZeroG1 = mkG1 (peval (secx B s) (of_nat i))) /\
       (forall i, (1 <= i < j)%nat -> nth i (fst st) ZeroG1 = mkG1 (peval (secx B s) (of_nat i)) /\
          nth i (snd st) ZeroG1 = mkG1 (peval (wrow s B x) (of_nat i))))
       1 N body2 st1) as (st2 & E2 & L3 & L4 & _ & H2).
    + split; [exact L1|]. split; [exact L2|]. split; [intros; apply H1; lia|intros; lia].
    + intros j st Hj (A1 & A2 & A3 & A4). unfold body2.
      assert (SL : slice_to (fst st) (2 * F + 2) = Ret (firstn (2 * F + 2) (fst st))).
      { unfold slice_to. rewrite (proj2 (Nat.leb_le _ _)) by lia. reflexivity. }
      rewrite SL. cbn [bind].
      assert (TL : tl (firstn (2 * F + 2) (fst st)) =
        map (fun j => mkG1 (peval (secx B s) (of_nat j))) (seq 1 (2 * F + 1))).
      { apply (list_ext ZeroG1).
        - rewrite map_length, seq_length. destruct (fst st) as [|g l]; [simpl in A1; lia|].
          replace (2 * F + 2)%nat with (S (2 * F + 1)) by lia. cbn [firstn tl].
          rewrite firstn_length. simpl in A1. lia.
        - intros i Hi.
          assert (Hi2 : (i < 2 * F + 1)%nat).
          { destruct (fst st) as [|g l]; [simpl in A1; lia|].
            replace (2 * F + 2)%nat with (S (2 * F + 1)) in Hi by lia. cbn [firstn tl] in Hi.
            rewrite firstn_length in Hi. lia. }
          rewrite nth_map_seq by lia. rewrite <- A3 by lia.
          destruct (fst st) as [|g l]; [simpl in A1; lia|].
          replace (2 * F + 2)%nat with (S (2 * F + 1)) by lia. cbn [firstn tl].
          rewrite nth_firstn_lt by lia. reflexivity. }
      rewrite TL.
      rewrite (InterpolateComOrWit_correct F (p_tab p) N (2 * F) j (secx B s)); auto; try lia.
      2:{ rewrite length_secx. destruct HB as (-> & _). lia. }
      cbn [bind]. unfold upd at 1. rewrite (proj2 (Nat.ltb_lt _ _)) by lia. cbn [bind].
      rewrite EW.
      rewrite (InterpolateByKnownIndexes_correct F (p_tab p) N (2 * F) j (wrow s B x)); auto; try lia.
      2:{ unfold wrow. rewrite map_length. destruct HB as (-> & _). lia. }
      cbn [bind]. unfold upd at 1. rewrite (proj2 (Nat.ltb_lt _ _)) by lia. cbn [bind].
      eexists. split; [reflexivity|]. cbn [fst snd]. rewrite !length_set_nth.
      split; [exact A1|]. split; [exact A2|]. split.
      * intros i Hi. destruct (Nat.eq_dec i j) as [->|Ne].
        -- rewrite nth_set_nth_same by lia. reflexivity.
        -- rewrite nth_set_nth_other by lia. apply A3. lia.
      * intros i Hi. destruct (Nat.eq_dec i j) as [->|Ne].
        -- rewrite !nth_set_nth_same by lia. split; reflexivity.
        -- rewrite !nth_set_nth_other by lia. apply A4. lia.
    + exists (fst st2), (snd st2). rewrite E2. split; [destruct st2; reflexivity|].
      split; [exact L3|]. split; [exact L4|]. intros j Hj. apply H2. lia.
Qed.

Lemma send_correct cd s B p : party_wf s p -> holds_full_share B p ->
  Forall (fun k => (fv k <= Z.of_nat (p_N p))%Z) (p_witnessIndexes p) ->
  ShareReduceSend cd p =
  Ret (map (fun j => hmsg cd s B (of_nat (p_PID p + 1)) (of_nat (j + 1))) (seq 0 (p_N p))).
Proof.
  intros W H HI. destruct (reduce_tables_correct s B p W H HI) as (CB & WB & E & L1 & L2 & HT).
  unfold ShareReduceSend. rewrite E. cbn [bind]. apply gomap_ret. intros j Hj. apply in_seq in Hj.
  rewrite (idx_nth ZeroG1 CB) by lia. cbn [bind]. rewrite (idx_nth ZeroG1 WB) by lia. cbn [bind].
  destruct (HT (j + 1)%nat ltac:(lia)) as (-> & ->). unfold hmsg. rewrite EvalPolyAt_correct.
  destruct H as (_ & -> & _). reflexivity.
Qed.

(** ** Receiving *)

Definition Xof (sender : Z) : Z := ((sender + 1) mod 2 ^ 32)%Z.

Lemma r_big : (2 ^ 32 < r)%Z.
Proof. rewrite r_eq. reflexivity. Qed.

Lemma Xof_range i : (0 <= Xof i < 2 ^ 32)%Z.
Proof. apply Z.mod_pos_bound. reflexivity. Qed.

Lemma Xof_inj i j : (0 <= i < 2 ^ 32)%Z -> (0 <= j < 2 ^ 32)%Z -> Xof i = Xof j -> i = j.
Proof.
  unfold Xof. intros Hi Hj H.
  destruct (Z.eq_dec i (2 ^ 32 - 1)) as [->|Ni], (Z.eq_dec j (2 ^ 32 - 1)) as [->|Nj]; auto.
  - rewrite (Z.mod_small (j + 1)) in H by lia. replace (2 ^ 32 - 1 + 1)%Z with (2 ^ 32)%Z in H by lia.
    rewrite Z_mod_same_full in H. lia.
  - rewrite (Z.mod_small (i + 1)) in H by lia. replace (2 ^ 32 - 1 + 1)%Z with (2 ^ 32)%Z in H by lia.
    rewrite Z_mod_same_full in H. lia.
  - rewrite !Z.mod_small in H by lia. lia.
Qed.

Lemma bytes_dec (a b : list Z) : {a = b} + {a <> b}.
Proof. apply list_eq_dec, Z.eq_dec. Qed.

Lemma NoDup_snoc {A} (l : list A) a : NoDup l -> ~ In a l -> NoDup (l ++ [a]).
Proof.
  intros H1 H2. apply (Permutation_NoDup (l := a :: l)); [apply Permutation_cons_append|].
  constructor; assumption.
Qed.

Section Receive.
Variables (cd : g1codec) (s : Fr) (p : Party) (K : list Z) (C : G1) (q : list Fr) (bad : list Z).
Variable dlvs : list (Z * ShareReduceMsg).
Hypothesis HW : party_wf s p.
Hypothesis HC : FromCompressedG1 cd K = Some C.
Hypothesis Hbad : (length bad <= p_F p)%nat.
Hypothesis Hnd : NoDup (map fst dlvs).
Hypothesis Hr : Forall (fun d => 0 <= fst d < 2 ^ 32)%Z dlvs.
(* messages of the others *)
Hypothesis Hgood : forall i m, In (i, m) dlvs -> ~ In i bad ->
  sr_C m = K /\ exists w, FromCompressedG1 cd (sr_W m) = Some w /\
    FrFrom32 (to32 (sr_V m)) = Some (peval q (of_Z (Xof i))) /\
    CheckProofSingle (p_KZG p) C w (of_Z (Xof i)) (peval q (of_Z (Xof i))) = Ret true.
Hypothesis Hdec : forall i m, In (i, m) dlvs ->
  FromCompressedG1 cd (sr_C m) <> None /\ FromCompressedG1 cd (sr_W m) <> None.
Hypothesis Hforge : forall i m w v, In (i, m) dlvs -> sr_C m = K -> FromCompressedG1 cd (sr_W m) = Some w ->
  CheckProofSingle (p_KZG p) C w (of_Z (Xof i)) v = Ret true -> v = peval q (of_Z (Xof i)).

Definition sr_inv (done : list (Z * ShareReduceMsg)) (st : sr_state) : Prop :=
  (forall k pts n, lookup k (sr_map_of st) = Some (pts, n) ->
     n = length pts /\ (n <= p_F p)%nat /\ NoDup (map pt_X pts) /\
     forall pt, In pt pts -> exists i m, In (i, m) done /\ pt_X pt = Xof i /\ sr_C m = k /\
       (k = K -> pt_Y pt = peval q (of_Z (Xof i)))) /\
  (forall i m, In (i, m) done -> ~ In i bad ->
     exists pts n, lookup K (sr_map_of st) = Some (pts, n) /\ In (Xof i) (map pt_X pts)).

Lemma range_of i m : In (i, m) dlvs -> (0 <= i < 2 ^ 32)%Z.
Proof. intros H. rewrite Forall_forall in Hr. apply (Hr (i, m) H). Qed.

Lemma not_before done i m rest : dlvs = done ++ (i, m) :: rest ->
  forall i' m', In (i', m') done -> Xof i' <> Xof i.
Proof.
  intros E i' m' Hin HX.
  assert (i' = i).
  { apply Xof_inj; [apply (range_of i' m')|apply (range_of i m)|exact HX];
    rewrite E; apply in_or_app; [left; exact Hin|right; left; reflexivity]. }
  subst i'. pose proof Hnd as ND. rewrite E, map_app in ND. cbn [map fst] in ND. apply NoDup_remove_2 in ND.
  apply ND. apply in_or_app. left. apply (in_map fst) in Hin. exact Hin.
Qed.

Definition good_points (pts : list point) : Prop :=
  length pts = (p_F p + 1)%nat /\ NoDup (map pt_X pts) /\
  forall pt, In pt pts -> (0 <= pt_X pt < 2 ^ 32)%Z /\ pt_Y pt = peval q (of_Z (pt_X pt)).

Lemma sr_step_inv done i m rest st : dlvs = done ++ (i, m) :: rest -> sr_inv done st ->
  (exists st', sr_step cd p st (i, m) = Ret (inl st') /\ sr_inv (done ++ [(i, m)]) st') \/
  (exists pts, sr_step cd p st (i, m) = Ret (inr pts) /\ good_points pts).
Proof.
  intros E (I1 & I2).
  assert (Hin : In (i, m) dlvs) by (rewrite E; apply in_or_app; right; left; reflexivity).
  destruct (Hdec i m Hin) as (D1 & D2). unfold sr_step, ReadG1.
  destruct (FromCompressedG1 cd (sr_C m)) as [C'|] eqn:EC; [|congruence]. cbn [bind].
  destruct (FromCompressedG1 cd (sr_W m)) as [w|] eqn:EW; [|congruence]. cbn [bind].
  set (vJ := FrFrom32_into (sr_vJ st) (to32 (sr_V m))). fold (Xof i).
  pose proof HW as (W1 & _ & W3 & _).
  pose proof (check_correct s (p_F p + 1) (p_KZG p) W1 C' w (of_Z (Xof i)) vJ ltac:(lia)) as EK.
  destruct (feqb _ _) eqn:EV in EK; rewrite EK; cbn [bind].
  - (* verified *)
    set (e := match lookup (sr_C m) (sr_map_of st) with Some (pts, n) => _ | None => _ end).
    assert (HY : sr_C m = K -> vJ = peval q (of_Z (Xof i))).
    { intros EKm. apply (Hforge i m w vJ Hin EKm EW). rewrite EKm in EC. rewrite HC in EC.
      injection EC as <-. exact EK. }
    assert (He : snd e = length (fst e) /\ (snd e <= p_F p + 1)%nat /\ NoDup (map pt_X (fst e)) /\
      In (Xof i) (map pt_X (fst e)) /\
      (forall pts n, lookup (sr_C m) (sr_map_of st) = Some (pts, n) -> incl (map pt_X pts) (map pt_X (fst e))) /\
      forall pt, In pt (fst e) -> exists i' m', In (i', m') (done ++ [(i, m)]) /\ pt_X pt = Xof i' /\
        sr_C m' = sr_C m /\ (sr_C m = K -> pt_Y pt = peval q (of_Z (Xof i')))).
    { unfold e. destruct (lookup (sr_C m) (sr_map_of st)) as [[pts n]|] eqn:EL.
      - destruct (I1 _ _ _ EL) as (A1 & A2 & A3 & A4). cbn [fst snd].
        split; [rewrite app_length; simpl; lia|]. split; [lia|]. split.
        { rewrite map_app. cbn [map pt_X]. apply NoDup_snoc; [exact A3|].
          rewrite in_map_iff. intros (pt & EX & Hpt). destruct (A4 pt Hpt) as (i' & m' & H1 & H2 & _).
          apply (not_before done i m rest E i' m' H1). congruence. }
        split; [rewrite map_app; apply in_or_app; right; left; reflexivity|]. split.
        { intros pts' n' Hp. injection Hp as <- <-. rewrite map_app. apply incl_appl, incl_refl. }
        intros pt Hpt. apply in_app_or in Hpt. destruct Hpt as [Hpt|[<-|[]]].
        + destruct (A4 pt Hpt) as (i' & m' & H1 & H2 & H3 & H4). exists i', m'.
          split; [apply in_or_app; left; exact H1|]. auto.
        + exists i, m. split; [apply in_or_app; right; left; reflexivity|]. auto.
      - cbn [fst snd]. split; [reflexivity|]. split; [lia|]. split; [repeat constructor; intros []|].
        split; [left; reflexivity|]. split; [discriminate|].
        intros pt [<-|[]]. exists i, m. split; [apply in_or_app; right; left; reflexivity|]. auto. }
    destruct He as (E1 & E2 & E3 & E4 & E5 & E6).
    destruct (Nat.leb_spec (p_F p + 1) (snd e)) as [Hle|Hlt].
    + (* leaves the loop *)
      right. exists (fst e). split; [reflexivity|].
      destruct (bytes_dec (sr_C m) K) as [EK2|NK].
      * split; [lia|]. split; [exact E3|]. intros pt Hpt.
        destruct (E6 pt Hpt) as (i' & m' & _ & -> & _ & H4). split; [apply Xof_range|]. auto.
      * exfalso.
        assert (IN : incl (map pt_X (fst e)) (map Xof bad)).
        { intros a Ha. apply in_map_iff in Ha. destruct Ha as (pt & <- & Hpt).
          destruct (E6 pt Hpt) as (i' & m' & H1 & -> & H3 & _). apply in_map.
          destruct (in_dec Z.eq_dec i' bad) as [Y|No]; [exact Y|]. exfalso.
          assert (H1' : In (i', m') dlvs).
          { rewrite E. apply in_app_or in H1. apply in_or_app. destruct H1 as [H1|[H1|[]]]; [left; exact H1|].
            right; left; exact H1. }
          destruct (Hgood i' m' H1' No) as (H5 & _). congruence. }
        apply NoDup_incl_length in IN; [|exact E3]. rewrite !map_length in IN. lia.
    + left. eexists. split; [reflexivity|]. split; cbn [sr_map_of].
      * intros k pts n Hk. destruct (bytes_dec k (sr_C m)) as [->|Nk].
        -- rewrite lookup_update_same in Hk. injection Hk as Hk. rewrite Hk in *. cbn [fst snd] in *.
           split; [exact E1|]. split; [lia|]. split; [exact E3|]. exact E6.
        -- rewrite lookup_update_other in Hk by exact Nk.
           destruct (I1 _ _ _ Hk) as (A1 & A2 & A3 & A4).
           split; [exact A1|]. split; [exact A2|]. split; [exact A3|].
           intros pt Hpt. destruct (A4 pt Hpt) as (i' & m' & H1 & H2). exists i', m'.
           split; [apply in_or_app; left; exact H1|exact H2].
      * intros i' m' Hi Nb.
        destruct (bytes_dec K (sr_C m)) as [EK2|NK].
        -- exists (fst e), (snd e). rewrite EK2, lookup_update_same. split; [destruct e; reflexivity|].
           apply in_app_or in Hi. destruct Hi as [Hi|[Hi|[]]].
           ++ destruct (I2 i' m' Hi Nb) as (pts & n & H1 & H2). apply (E5 pts n); [congruence|exact H2].
           ++ injection Hi as <- <-. exact E4.
        -- apply in_app_or in Hi. destruct Hi as [Hi|[Hi|[]]].
           ++ destruct (I2 i' m' Hi Nb) as (pts & n & H1 & H2). exists pts, n.
              rewrite lookup_update_other by exact NK. auto.
           ++ injection Hi as <- <-. destruct (Hgood i m Hin Nb) as (H5 & _). congruence.
  - (* rejected *)
    left. eexists. split; [reflexivity|]. split; cbn [sr_map_of].
    + intros k pts n Hk. destruct (I1 _ _ _ Hk) as (A1 & A2 & A3 & A4).
      split; [exact A1|]. split; [exact A2|]. split; [exact A3|].
      intros pt Hpt. destruct (A4 pt Hpt) as (i' & m' & H1 & H2). exists i', m'.
      split; [apply in_or_app; left; exact H1|exact H2].
    + intros i' m' Hi Nb. apply in_app_or in Hi. destruct Hi as [Hi|[Hi|[]]]; [apply (I2 i' m' Hi Nb)|].
      injection Hi as <- <-. exfalso. destruct (Hgood i m Hin Nb) as (H5 & w' & H6 & H7 & H8).
      rewrite EW in H6. injection H6 as <-. rewrite H5, HC in EC. injection EC as <-.
      unfold vJ, FrFrom32_into in EK. rewrite H7 in EK. congruence.
Qed.

Lemma sr_loop_inv : forall rest done st, dlvs = done ++ rest -> sr_inv done st ->
  (p_F p + 1 <= length (filter (fun d => negb (existsb (Z.eqb (fst d)) bad)) dlvs))%nat ->
  exists pts, sr_loop cd p st rest = Ret (Some pts) /\ good_points pts.
Proof.
  induction rest as [|[i m] rest IH]; intros done st E I HH.
  - exfalso. rewrite app_nil_r in E. subst done. destruct I as (I1 & I2).
    set (hs := filter _ dlvs) in HH.
    assert (Hhs : forall d, In d hs -> In d dlvs /\ ~ In (fst d) bad).
    { intros d Hd. apply filter_In in Hd. destruct Hd as (H1 & H2). split; [exact H1|].
      intros Hb. apply negb_true_iff in H2. rewrite <- not_true_iff_false in H2. apply H2.
      apply existsb_exists. exists (fst d). split; [exact Hb|apply Z.eqb_refl]. }
    assert (ND : NoDup (map (fun d => Xof (fst d)) hs)).
    { assert (ND0 : NoDup (map fst hs)).
      { unfold hs. clear -Hnd. induction dlvs as [|d l IHl]; [constructor|]. cbn [map] in Hnd.
        inversion Hnd; subst. cbn [filter]. destruct (negb _); [|auto]. cbn [map]. constructor; [|auto].
        intros Hin. apply H1. apply in_map_iff in Hin. destruct Hin as (d' & <- & Hd').
        apply filter_In in Hd'. apply in_map. apply Hd'. }
      rewrite <- (map_map fst Xof).
      assert (RG : forall a, In a (map fst hs) -> (0 <= a < 2 ^ 32)%Z).
      { intros a Ha. apply in_map_iff in Ha. destruct Ha as ([a' m'] & <- & Hd). apply (range_of a' m').
        apply Hhs. exact Hd. }
      revert ND0 RG. generalize (map fst hs). clear. induction l as [|a l IH]; intros ND RG; [constructor|].
      inversion ND; subst. cbn [map]. constructor.
      - rewrite in_map_iff. intros (b & Eb & Hb). apply Xof_inj in Eb; [|apply RG; right; exact Hb|apply RG; left; reflexivity].
        subst b. auto.
      - apply IH; [assumption|]. intros; apply RG; right; assumption. }
    destruct hs as [|d0 hs'] eqn:Ehs; [simpl in HH; lia|].
    destruct d0 as [i0 m0].
    destruct (Hhs (i0, m0)) as (H1 & H2); [left; reflexivity|].
    destruct (I2 i0 m0 H1 H2) as (pts & n & EL & _).
    assert (IN : incl (map (fun d => Xof (fst d)) ((i0, m0) :: hs')) (map pt_X pts)).
    { intros a Ha. apply in_map_iff in Ha. destruct Ha as ([i' m'] & <- & Hd).
      destruct (Hhs _ Hd) as (H3 & H4). destruct (I2 i' m' H3 H4) as (pts' & n' & EL' & H5).
      rewrite EL in EL'. injection EL' as <- <-. exact H5. }
    apply NoDup_incl_length in IN; [|exact ND]. rewrite !map_length in IN.
    destruct (I1 _ _ _ EL) as (A1 & A2 & _). lia.
  - cbn [sr_loop]. destruct (sr_step_inv done i m rest st E I) as [(st' & -> & I')|(pts & -> & G)]; cbn [bind].
    + apply (IH (done ++ [(i, m)])); [rewrite <- app_assoc; exact E|exact I'|exact HH].
    + exists pts. auto.
Qed.

Lemma points_interp pts : good_points pts -> length q = (p_F p + 1)%nat ->
  (xs <- gomap (fun i => pt <- idx pts i ;; Ret (of_Z (pt_X pt))) (seq 0 (p_F p + 1)) ;;
   ys <- gomap (fun i => pt <- idx pts i ;; Ret (pt_Y pt)) (seq 0 (p_F p + 1)) ;;
   q <- LagrangeInterpolate (p_F p) xs ys ;;
   Ret (Some (set_reducedShare p q))) = Ret (Some (set_reducedShare p q)).
Proof.
  intros (L & ND & G) LQ. set (d := mkPoint 0 0).
  rewrite (gomap_ret _ (fun i => of_Z (pt_X (nth i pts d)))).
  2:{ intros i Hi. apply in_seq in Hi. rewrite (idx_nth d pts) by lia. reflexivity. }
  cbn [bind]. rewrite (gomap_ret _ (fun i => pt_Y (nth i pts d))).
  2:{ intros i Hi. apply in_seq in Hi. rewrite (idx_nth d pts) by lia. reflexivity. }
  cbn [bind].
  assert (M : forall {A} (f : point -> A), map (fun i => f (nth i pts d)) (seq 0 (p_F p + 1)) = map f pts).
  { intros A f. apply (list_ext (f d)); rewrite !map_length, seq_length; [lia|].
    intros i Hi. rewrite nth_map_seq by exact Hi. cbn [Nat.add]. symmetry. apply map_nth. }
  rewrite (M _ (fun pt => of_Z (pt_X pt))), (M _ pt_Y).
  replace (map pt_Y pts) with (map (peval q) (map (fun pt => of_Z (pt_X pt)) pts)).
  2:{ rewrite map_map. apply map_ext_in. intros pt Hpt. symmetry. apply G. exact Hpt. }
  rewrite LagrangeInterpolate_values; [reflexivity| | |exact LQ].
  - rewrite firstn_all2 by (rewrite map_length; lia).
    assert (RG : forall a, In a (map pt_X pts) -> (0 <= a < 2 ^ 32)%Z).
    { intros a Ha. apply in_map_iff in Ha. destruct Ha as (pt & <- & Hpt). apply G. exact Hpt. }
    rewrite <- (map_map pt_X of_Z). revert ND RG. generalize (map pt_X pts). pose proof r_big as RB. clear -RB.
    induction l as [|a l IH]; intros ND RG; [constructor|].
    inversion ND; subst. cbn [map]. constructor.
    + rewrite in_map_iff. intros (b & Eb & Hb).
      assert (B1 := RG b (or_intror Hb)). assert (B2 := RG a (or_introl eq_refl)).
      apply of_Z_inj in Eb; [subst; auto| |]; lia.
    + apply IH; [assumption|]. intros; apply RG; right; assumption.
  - rewrite map_length. lia.
Qed.

Lemma receive_correct : length q = (p_F p + 1)%nat ->
  (p_F p + 1 <= length (filter (fun d => negb (existsb (Z.eqb (fst d)) bad)) dlvs))%nat ->
  ShareReduceReceive cd p dlvs = Ret (Some (set_reducedShare p q)).
Proof.
  intros LQ HH. unfold ShareReduceReceive.
  destruct (sr_loop_inv dlvs [] sr_init) as (pts & -> & G); auto.
  - split; [intros k pts n H; discriminate H|]. intros i m [].
  - cbn [bind]. apply points_interp; assumption.
Qed.
End Receive.

(** The same message F+1 times. *)
Lemma sr_replay cd p m i C w v :
  FromCompressedG1 cd (sr_C m) = Some C -> FromCompressedG1 cd (sr_W m) = Some w ->
  FrFrom32 (to32 (sr_V m)) = Some v ->
  CheckProofSingle (p_KZG p) C w (of_Z (Xof i)) v = Ret true ->
  sr_loop cd p sr_init (repeat (i, m) (p_F p + 1)) = Ret (Some (repeat (mkPoint (Xof i) v) (p_F p + 1))).
Proof.
  intros E1 E2 E3 E4. set (pt := mkPoint (Xof i) v).
  assert (G : forall n k st, (k + n = p_F p)%nat ->
    match lookup (sr_C m) (sr_map_of st) with Some e => e | None => ([], O) end = (repeat pt k, k) ->
    sr_loop cd p st (repeat (i, m) (n + 1)) = Ret (Some (repeat pt (p_F p + 1)))).
  { induction n as [|n IH]; intros k st Hk HL; cbn [repeat sr_loop Nat.add]; unfold sr_step, ReadG1;
      rewrite E1; cbn [bind]; rewrite E2; cbn [bind]; unfold FrFrom32_into; rewrite E3; fold (Xof i);
      rewrite E4; cbn [bind].
    - set (e := match lookup (sr_C m) (sr_map_of st) with Some (pts, n) => _ | None => _ end).
      assert (Ee : e = (repeat pt (k + 1), (k + 1)%nat)).
      { unfold e. destruct (lookup (sr_C m) (sr_map_of st)) as [[pts n]|].
        - injection HL as -> ->. rewrite repeat_app. reflexivity.
        - injection HL as HL <-. reflexivity. }
      rewrite Ee. cbn [fst snd]. rewrite (proj2 (Nat.leb_le _ _)) by lia. cbn [bind].
      do 3 f_equal. lia.
    - set (e := match lookup (sr_C m) (sr_map_of st) with Some (pts, n) => _ | None => _ end).
      assert (Ee : e = (repeat pt (k + 1), (k + 1)%nat)).
      { unfold e. destruct (lookup (sr_C m) (sr_map_of st)) as [[pts n0]|].
        - injection HL as -> ->. rewrite repeat_app. reflexivity.
        - injection HL as HL <-. reflexivity. }
      rewrite Ee. cbn [fst snd]. rewrite (proj2 (Nat.leb_gt _ _)) by lia. cbn [bind].
      apply (IH (k + 1)%nat); [lia|]. cbn [sr_map_of]. rewrite lookup_update_same. reflexivity. }
  apply (G (p_F p) O); [lia|reflexivity].
Qed.

(** ** Prepare *)

Lemma prepare_send_correct cd s B p : party_wf s p -> holds_full_share B p ->
  PrepareSend cd p =
  Ret ([] :: map (fun j => ToCompressedG1 cd (mkG1 (peval (secx B s) (of_nat j)))) (seq 1 (2 * p_F p + 1))).
Proof.
  intros (W1 & _) (HB & _ & HC & _). unfold PrepareSend.
  rewrite (gomap_ret _ (fun j => ToCompressedG1 cd (mkG1 (peval (secx B s) (of_nat j))))).
  - reflexivity.
  - intros j Hj. apply in_seq in Hj. destruct (HC j ltac:(lia)) as (c & Ec & Cc).
    unfold idx. rewrite Ec. cbn [bind].
    rewrite (commit_section s (p_F p + 1) (p_KZG p) (p_F p) (2 * p_F p) B _ W1 HB) in Cc by lia.
    congruence.
Qed.

Section Prep.
Variable hash : list Z -> list Z.

Definition count_hash (h : list Z) (done : list (Z * list Z)) : nat :=
  length (filter (fun d => bytes_eqb (hash (snd d)) h) done).

Lemma count_hash_snoc h done d :
  count_hash h (done ++ [d]) = (count_hash h done + if bytes_eqb (hash (snd d)) h then 1 else 0)%nat.
Proof.
  unfold count_hash. rewrite filter_app, app_length. cbn [filter]. destruct (bytes_eqb _ _); reflexivity.
Qed.

Definition prep_inv (F : nat) (done : list (Z * list Z)) (mp : list (list Z * nat)) : Prop :=
  forall h, match lookup h mp with Some c => c | None => O end = count_hash h done /\
            (count_hash h done <= F)%nat.

Lemma prep_step_inv F done d mp : prep_inv F done mp ->
  (exists mp', prep_step hash F mp (snd d) = inl mp' /\ prep_inv F (done ++ [d]) mp') \/
  (prep_step hash F mp (snd d) = inr (snd d) /\ count_hash (hash (snd d)) (done ++ [d]) = (F + 1)%nat).
Proof.
  intros I. unfold prep_step. destruct (I (hash (snd d))) as (-> & LE).
  pose proof (count_hash_snoc (hash (snd d)) done d) as EC. rewrite bytes_eqb_refl in EC.
  destruct (Nat.eqb_spec (count_hash (hash (snd d)) done + 1) (F + 1)) as [Eq|Ne].
  - right. split; [reflexivity|lia].
  - left. eexists. split; [reflexivity|]. intros h. destruct (bytes_dec h (hash (snd d))) as [->|Nh].
    + rewrite lookup_update_same. split; [lia|]. lia.
    + rewrite lookup_update_other by exact Nh. rewrite count_hash_snoc.
      rewrite bytes_eqb_neq by congruence. rewrite Nat.add_0_r. apply I.
Qed.

(** What the loop returns occurs F+1 times (up to the hash); it returns once some data occur
    F+1 times. *)
Lemma prep_loop_spec F : forall rest done mp, prep_inv F done mp ->
  match prep_loop hash F mp (map snd rest) with
  | Some d => exists l1 l2 i, rest = l1 ++ (i, d) :: l2 /\
                count_hash (hash d) (done ++ l1 ++ [(i, d)]) = (F + 1)%nat
  | None => forall h, (count_hash h (done ++ rest) <= F)%nat
  end.
Proof.
  induction rest as [|d rest IH]; intros done mp I; cbn [map prep_loop].
  - intros h. rewrite app_nil_r. apply I.
  - destruct (prep_step_inv F done d mp I) as [(mp' & -> & I')|(-> & EC)].
    + specialize (IH (done ++ [d]) mp' I').
      destruct (prep_loop hash F mp' (map snd rest)) as [d'|].
      * destruct IH as (l1 & l2 & i & -> & EC). exists (d :: l1), l2, i. split; [reflexivity|].
        rewrite <- app_assoc in EC. exact EC.
      * intros h. specialize (IH h). rewrite <- app_assoc in IH. exact IH.
    + exists [], rest, (fst d). cbn [app]. split; [destruct d; reflexivity|]. destruct d; exact EC.
Qed.

Lemma prep_inv_init F : prep_inv F [] [].
Proof. intros h. split; [reflexivity|apply Nat.le_0_l]. Qed.

Lemma nodup_filter_map {A B} (f : A -> B) g l : NoDup (map f l) -> NoDup (map f (filter g l)).
Proof.
  induction l as [|a l IH]; cbn [map filter]; [auto|]. intros ND. inversion ND; subst.
  destruct (g a); [|auto]. cbn [map]. constructor; [|auto].
  rewrite in_map_iff. intros (b & Eb & Hb). apply filter_In in Hb. destruct Hb as (Hb & _).
  apply H1. rewrite <- Eb. apply in_map. exact Hb.
Qed.

(** With at most F dishonest senders, each counted once, the data of the honest senders win. *)
Lemma prep_loop_honest F bad d dlvs : NoDup (map fst dlvs) -> (length bad <= F)%nat ->
  (forall i d', In (i, d') dlvs -> ~ In i bad -> d' = d) ->
  (forall i d', In (i, d') dlvs -> hash d' = hash d -> d' = d) ->
  (F + 1 <= length (filter (fun x => negb (existsb (Z.eqb (fst x)) bad)) dlvs))%nat ->
  prep_loop hash F [] (map snd dlvs) = Some d.
Proof.
  intros ND HB HH HI HC. pose proof (prep_loop_spec F dlvs [] [] (prep_inv_init F)) as P.
  destruct (prep_loop hash F [] (map snd dlvs)) as [d'|].
  - destruct P as (l1 & l2 & i & E & EC). cbn [app] in EC.
    assert (Hin : forall x, In x (l1 ++ [(i, d')]) -> In x dlvs).
    { intros x Hx. rewrite E. apply in_app_or in Hx. apply in_or_app.
      destruct Hx as [Hx|[Hx|[]]]; [left; exact Hx|right; left; exact Hx]. }
    destruct (bytes_dec d' d) as [->|Nd]; [reflexivity|]. exfalso.
    set (fl := filter (fun x => bytes_eqb (hash (snd x)) (hash d')) (l1 ++ [(i, d')])).
    assert (LF : length fl = (F + 1)%nat) by exact EC.
    assert (IN : incl (map fst fl) bad).
    { intros a Ha. apply in_map_iff in Ha. destruct Ha as ([a' x] & <- & Hx). cbn [fst].
      apply filter_In in Hx. destruct Hx as (Hx & Eq). cbn [snd] in Eq.
      destruct (in_dec Z.eq_dec a' bad) as [Y|No]; [exact Y|]. exfalso.
      pose proof (HH a' x (Hin _ Hx) No) as ->.
      assert (Eh : hash d = hash d') by (apply bytes_eqb_eq; exact Eq).
      apply Nd. apply (HI i d'); [apply Hin; apply in_or_app; right; left; reflexivity|congruence]. }
    apply NoDup_incl_length in IN.
    + rewrite map_length in IN. lia.
    + unfold fl. apply nodup_filter_map.
      rewrite E in ND. change ((i, d') :: l2) with ([(i, d')] ++ l2) in ND. rewrite app_assoc, map_app in ND.
      apply (Permutation_NoDup (Permutation_app_comm _ _)) in ND. apply NoDup_app_r in ND. exact ND.
  - exfalso. specialize (P (hash d)). cbn [app] in P. unfold count_hash in P.
    assert (LE : (length (filter (fun x => negb (existsb (Z.eqb (fst x)) bad)) dlvs) <=
                  length (filter (fun x => bytes_eqb (hash (snd x)) (hash d)) dlvs))%nat).
    { clear -HH. induction dlvs as [|[i x] l IH]; [constructor|]. cbn [filter].
      specialize (IH ltac:(intros; eapply HH; [right; eassumption|assumption])).
      destruct (existsb _ bad) eqn:Ex; cbn [negb].
      - destruct (bytes_eqb _ _); cbn [length]; lia.
      - cbn [fst snd] in *. rewrite (HH i x (or_introl eq_refl)).
        + rewrite bytes_eqb_refl. cbn [length]. lia.
        + intros Hb. rewrite <- not_true_iff_false in Ex. apply Ex. apply existsb_exists.
          exists i. split; [exact Hb|apply Z.eqb_refl]. }
    lia.
Qed.

Lemma prep_loop_repeat F d : prep_loop hash F [] (repeat d (F + 1)) = Some d.
Proof.
  pose proof (prep_loop_spec F (repeat (0%Z, d) (F + 1)) [] [] (prep_inv_init F)) as P.
  assert (EM : forall n, map snd (repeat (0%Z, d) n) = repeat d n)
    by (induction n as [|n IH]; [reflexivity|]; cbn [repeat map snd]; rewrite IH; reflexivity).
  rewrite EM in P.
  destruct (prep_loop hash F [] (repeat d (F + 1))) as [d'|].
  - destruct P as (l1 & l2 & i & E & _).
    assert (Hin : In (i, d') (repeat (0%Z, d) (F + 1))) by (rewrite E; apply in_or_app; right; left; reflexivity).
    apply repeat_spec in Hin. congruence.
  - exfalso. specialize (P (hash d)). cbn [app] in P. unfold count_hash in P.
    assert (L : forall n, length (filter (fun x => bytes_eqb (hash (snd x)) (hash d)) (repeat (0%Z, d) n)) = n).
    { induction n as [|n IH]; [reflexivity|]. cbn [repeat filter snd]. rewrite bytes_eqb_refl. cbn [length].
      rewrite IH. reflexivity. }
    rewrite L in P. lia.
Qed.

Variable parse : list Z -> list (list Z).

Lemma adopt_correct cd p d (g : nat -> G1) : codec_ok cd ->
  length (PiContents (p_Proof p)) = (2 * p_F p + 2)%nat ->
  parse d = [] :: map (fun j => ToCompressedG1 cd (g j)) (seq 1 (2 * p_F p + 1)) ->
  exists p', adopt parse cd p d = Ret p' /\
    p_N p' = p_N p /\ p_F p' = p_F p /\ p_PID p' = p_PID p /\ p_KZG p' = p_KZG p /\
    p_fullShare p' = p_fullShare p /\ p_reducedShare p' = p_reducedShare p /\
    p_witness p' = p_witness p /\ p_witnessIndexes p' = p_witnessIndexes p /\ p_tab p' = p_tab p /\
    length (PiContents (p_Proof p')) = (2 * p_F p + 2)%nat /\
    forall j, (1 <= j <= 2 * p_F p + 1)%nat ->
      exists c, nth_error (PiContents (p_Proof p')) j = Some c /\ CBj c = g j.
Proof.
  intros HC L EP. unfold adopt. rewrite EP. set (F := p_F p) in *.
  match goal with |- context [goloop 1 _ ?b ?s0] => set (body := b) end.
  destruct (goloop_inv (fun j cs => length cs = (2 * F + 2)%nat /\
     forall i, (1 <= i < j)%nat -> CBj (nth i cs pc0) = g i) 1 (2 * F + 1) body (PiContents (p_Proof p)))
     as (cs & E & L2 & H).
  - split; [exact L|]. intros; lia.
  - intros j cs Hj (L2 & H). unfold body. rewrite idx_cons_seq by lia. cbn [bind].
    rewrite read_own by exact HC. cbn [bind]. rewrite (idx_nth pc0 cs) by lia. cbn [bind].
    unfold upd. rewrite (proj2 (Nat.ltb_lt _ _)) by lia. eexists. split; [reflexivity|].
    rewrite length_set_nth. split; [exact L2|]. intros i Hi. destruct (Nat.eq_dec i j) as [->|Ne].
    + rewrite nth_set_nth_same by lia. reflexivity.
    + rewrite nth_set_nth_other by lia. apply H. lia.
  - rewrite E. cbn [bind]. eexists. split; [reflexivity|]. cbn.
    do 9 (split; [reflexivity|]). split; [exact L2|].
    intros j Hj. exists (nth j cs pc0). split; [apply nth_error_nth'; unfold F in *; lia|].
    apply H. unfold F in *; lia.
Qed.
End Prep.
