(** C49, continued: for the messages that carry lists of points, the exact set that ends the receiver. *)

Require Import ZArith List Bool Lia Arith.
From Verif Require Import Prime Fr Bytes CodecModel GoBase Poly PolyModel PolyProofs GroupModel KzgModel KzgProofs PartyModel PartySpec
  VssModel VssProofs VssProofs2 ReduceModel ReduceProofs ProacModel ProacProofs ProacDist RbcModel PropertiesCrash.
Import ListNotations.
Local Open Scope F_scope.

(** *** Calls that return or panic, and do nothing else *)

Definition rp {A} (m : go A) : Prop := m = Panic \/ exists a, m = Ret a.

Lemma rp_ret {A} (a : A) : rp (Ret a).
Proof. right. eauto. Qed.
Lemma rp_bind {A B} (m : go A) (k : A -> go B) : rp m -> (forall a, rp (k a)) -> rp (bind m k).
Proof. intros [->|[a ->]] H; cbn [bind]; [left; reflexivity|apply H]. Qed.
Lemma rp_idx {A} (l : list A) i : rp (idx l i).
Proof. unfold idx. destruct (nth_error l i); [right; eauto|left; reflexivity]. Qed.
Lemma rp_upd {A} (l : list A) i a : rp (upd l i a).
Proof. unfold upd. destruct (_ <? _)%nat; [right; eauto|left; reflexivity]. Qed.
Lemma rp_read cd b : rp (ReadG1 cd b).
Proof. unfold ReadG1. destruct (FromCompressedG1 cd b); [right; eauto|left; reflexivity]. Qed.
Lemma rp_gofold {S A} (f : S -> A -> go S) l : (forall s a, rp (f s a)) -> forall s, rp (gofold f l s).
Proof. intros H. induction l as [|a l IH]; intros s; cbn [gofold]; [apply rp_ret|]. apply rp_bind; auto. Qed.
Lemma rp_goloop {S} lo n (f : S -> nat -> go S) s : (forall s a, rp (f s a)) -> rp (goloop lo n f s).
Proof. intros H. apply rp_gofold. exact H. Qed.
Lemma rp_gomap {A B} (f : A -> go B) l : (forall a, rp (f a)) -> rp (gomap f l).
Proof. intros H. induction l as [|a l IH]; cbn [gomap]; [apply rp_ret|]. apply rp_bind; [apply H|]. intros b. apply rp_bind; [exact IH|]. intros; apply rp_ret. Qed.
Lemma rp_slice {A} (l : list A) n : rp (slice_to l n).
Proof. unfold slice_to. destruct (_ <=? _)%nat; [right; eauto|left; reflexivity]. Qed.
Lemma rp_check ks C w x y : rp (CheckProofSingle ks C w x y).
Proof. unfold CheckProofSingle. apply rp_bind; [apply rp_idx|]. intros; apply rp_ret. Qed.
Lemma rp_lincomb a b : rp (LinCombG1 a b).
Proof. unfold LinCombG1. destruct (negb _); [left; reflexivity|apply rp_ret]. Qed.

Lemma panic_iff {A} (m : go A) (D : Prop) : rp m -> (D -> exists a, m = Ret a) -> (forall a, m = Ret a -> D) ->
  (m = Panic <-> ~ D).
Proof.
  intros [E|[a E]] H1 H2; rewrite E; split; intros H; try reflexivity; try discriminate H.
  - intros d. destruct (H1 d) as [a Ea]. congruence.
  - exfalso. apply H. apply (H2 a E).
Qed.

Lemma readable_some cd b : readable cd b <-> exists g, FromCompressedG1 cd b = Some g.
Proof.
  unfold readable. destruct (FromCompressedG1 cd b) as [g|]; split; intros H; eauto; try discriminate.
  - exfalso. apply H. reflexivity.
  - destruct H as [g E]. discriminate.
Qed.

(** *** The dealing *)

(** Entry j of the contents has four readable points. *)
Definition readable_content (cd : g1codec) (mc : PiContentMsg) : Prop :=
  readable cd (m_CBj mc) /\ readable cd (m_CZj mc) /\ readable cd (m_WZ0 mc) /\ readable cd (m_GFj mc).

Definition readable_dealing (cd : g1codec) (F : nat) (m : VSSSendMsg) : Prop :=
  exists pm, m_Pi m = Some pm /\ readable cd (m_Gs pm) /\
    forall j, (1 <= j <= 2 * F + 1)%nat ->
      (exists mc, nth_error (m_PiContents pm) j = Some mc /\ readable_content cd mc) /\
      (exists b, nth_error (m_BijList m) j = Some b) /\
      (exists wb, nth_error (m_WBijList m) j = Some wb /\ readable cd wb).

Lemma rp_set_from cd pi m F : rp (SetFromVSSMessage cd pi m F).
Proof.
  destruct m as [pm|]; cbn [SetFromVSSMessage]; [|left; reflexivity].
  apply rp_bind; [apply rp_read|]. intros gs. apply rp_bind; [|intros; apply rp_ret].
  apply rp_goloop. intros cs j.
  apply rp_bind; [apply rp_idx|]. intros c.
  do 4 (apply rp_bind; [apply rp_read|]; intros). apply rp_upd.
Qed.

Lemma read_readable cd b : readable cd b -> exists g, ReadG1 cd b = Ret g.
Proof. intros H. apply readable_some in H. destruct H as [g E]. unfold ReadG1. rewrite E. eauto. Qed.

Lemma set_from_total cd F pm : readable cd (m_Gs pm) ->
  (forall j, (1 <= j <= 2 * F + 1)%nat -> exists mc, nth_error (m_PiContents pm) j = Some mc /\ readable_content cd mc) ->
  exists pi, SetFromVSSMessage cd (Pi_Init F) (Some pm) F = Ret pi.
Proof.
  intros RG RC. cbn [SetFromVSSMessage]. destruct (read_readable cd _ RG) as [gs ->]. cbn [bind].
  match goal with |- context [goloop 1 _ ?b _] => set (body := b) end.
  destruct (goloop_inv (fun _ (cs : list PiContent) => length cs = (2 * F + 2)%nat) 1 (2 * F + 1) body (PiContents (Pi_Init F)))
    as (cs & E & _).
  - unfold Pi_Init. cbn [PiContents]. rewrite map_length, seq_length. lia.
  - intros i cs Hi L. unfold body. destruct (RC i ltac:(lia)) as (mc & Em & R1 & R2 & R3 & R4).
    unfold idx. rewrite Em. cbn [bind].
    destruct (read_readable cd _ R1) as [? ->]. destruct (read_readable cd _ R2) as [? ->].
    destruct (read_readable cd _ R3) as [? ->]. destruct (read_readable cd _ R4) as [? ->]. cbn [bind].
    unfold upd. rewrite (proj2 (Nat.ltb_lt i (length cs))) by lia. eexists. split; [reflexivity|]. rewrite length_set_nth. exact L.
  - rewrite E. cbn [bind]. eauto.
Qed.

Theorem c49_dealing cd s p m : party_wf s p ->
  (VSSShareReceive cd p m = Panic <-> ~ readable_dealing cd (p_F p) m) /\
  (readable_dealing cd (p_F p) m -> exists x, VSSShareReceive cd p m = Ret x).
Proof.
  intros HW. pose proof HW as (HS & HT & HF & HN & HR & LP & LFS & LW & LWI). set (F := p_F p) in *.
  set (vloop := goloop 1 (2 * F + 1)
    (fun st j =>
       b <- idx (m_BijList m) j ;;
       values <- upd (fst st) j (FrFrom32_into (nth j (fst st) 0) (to32 b)) ;;
       wb <- idx (m_WBijList m) j ;;
       w <- ReadG1 cd wb ;;
       wits <- upd (snd st) j w ;;
       Ret (values, wits)) (repeat 0 (2 * F + 2), repeat ZeroG1 (2 * F + 2))).
  assert (RV : rp vloop).
  { apply rp_goloop. intros st j. repeat (apply rp_bind; [apply rp_idx || apply rp_upd || apply rp_read|]; intros).
    apply rp_ret. }
  assert (T : forall pi vw, SetFromVSSMessage cd (Pi_Init F) (m_Pi m) F = Ret pi -> vloop = Ret vw ->
    exists x, VSSShareReceive cd p m = Ret x).
  { intros pi [values wits] E1 E2. unfold VSSShareReceive. fold F. fold vloop. rewrite E1, E2. cbn [bind].
    apply set_from_inv in E1. destruct E1 as (pm & Epm & EGs & LPi & HPi).
    apply values_inv in E2. destruct E2 as (LV & LWt & HV).
    destruct (verify_spec s p values wits pi HW LPi LV LWt) as (b & E3 & _). rewrite E3. cbn [bind].
    destruct b; [|eauto].
    set (c := fun j => nth j (PiContents pi) pc0). set (v := fun j => nth j values 0).
    set (w := fun j => nth j wits ZeroG1).
    assert (Epi : pi = mkPi (Gs pi) (c O :: map c (seq 1 (2 * F + 1)))).
    { destruct pi as (g & cs). cbn [Gs PiContents] in *. f_equal. apply (list_as_map pc0). lia. }
    assert (Ew : wits = w O :: map w (seq 1 (2 * F + 1))) by (apply (list_as_map ZeroG1); lia).
    rewrite Epi, Pi_Set_correct by exact LP. cbn [bind].
    rewrite (wit_loop wits F (w O) w _ _ Ew LW LWI). cbn [bind].
    rewrite (gomap_ret _ (fun j => v (j + 1)%nat)).
    2:{ intros j Hj. apply in_seq in Hj. unfold v. apply idx_nth. lia. }
    cbn [bind].
    destruct (LagrangeInterpolate_correct (2 * F) (map (fun j => of_nat (j + 1)) (seq 0 (2 * F + 1)))
                (map (fun j => v (j + 1)%nat) (seq 0 (2 * F + 1)))) as (q' & EQ & _).
    { rewrite firstn_all2 by (rewrite map_length, seq_length; lia). apply known_nodup. lia. }
    { rewrite map_length, seq_length. lia. }
    { rewrite map_length, seq_length. lia. }
    rewrite EQ. cbn [bind]. eauto. }
  assert (D1 : readable_dealing cd F m -> (exists pi, SetFromVSSMessage cd (Pi_Init F) (m_Pi m) F = Ret pi) /\ exists vw, vloop = Ret vw).
  { intros (pm & Epm & RG & RJ). split.
    - rewrite Epm. apply set_from_total; [exact RG|]. intros j Hj. apply (RJ j Hj).
    - unfold vloop. match goal with |- context [goloop 1 _ ?b _] => set (body := b) end.
      destruct (goloop_inv (fun _ (st : list Fr * list G1) => length (fst st) = (2 * F + 2)%nat /\ length (snd st) = (2 * F + 2)%nat)
        1 (2 * F + 1) body (repeat 0 (2 * F + 2), repeat ZeroG1 (2 * F + 2))) as (vw & E & _).
      + cbn [fst snd]. rewrite !repeat_length. auto.
      + intros i [a b] Hi [La Lb]. unfold body. cbn [fst snd] in *.
        destruct (RJ i ltac:(lia)) as (_ & (bb & Eb) & wb & Ewb & Rw). unfold idx. rewrite Eb, Ewb. cbn [bind].
        unfold upd. rewrite (proj2 (Nat.ltb_lt i (length a))) by lia. cbn [bind].
        destruct (read_readable cd _ Rw) as [g ->]. cbn [bind]. rewrite (proj2 (Nat.ltb_lt i (length b))) by lia. cbn [bind].
        eexists. split; [reflexivity|]. cbn [fst snd]. rewrite !length_set_nth. auto.
      + rewrite E. eauto. }
  assert (D2 : forall pi vw, SetFromVSSMessage cd (Pi_Init F) (m_Pi m) F = Ret pi -> vloop = Ret vw -> readable_dealing cd F m).
  { intros pi [values wits] E1 E2.
    apply set_from_inv in E1. destruct E1 as (pm & Epm & EGs & LPi & HPi).
    apply values_inv in E2. destruct E2 as (LV & LWt & HV). exists pm. split; [exact Epm|].
    split; [apply readable_some; eauto|]. intros j Hj. destruct (HPi j Hj) as (mc & Em & X1 & X2 & X3 & X4).
    destruct (HV j Hj) as ((b & Eb & _) & wb & Ew & Dw).
    split; [|split].
    - exists mc. split; [exact Em|]. unfold readable_content. rewrite !readable_some. repeat split; eauto.
    - eauto.
    - exists wb. split; [exact Ew|]. apply readable_some. eauto. }
  assert (TT : readable_dealing cd F m -> exists x, VSSShareReceive cd p m = Ret x).
  { intros D. destruct (D1 D) as [[pi E1] [vw E2]]. exact (T pi vw E1 E2). }
  split; [|exact TT].
  destruct (rp_set_from cd (Pi_Init F) (m_Pi m) F) as [E1|[pi E1]].
  { split.
    - intros _ D. destruct (D1 D) as [[pi E] _]. congruence.
    - intros _. unfold VSSShareReceive. fold F. rewrite E1. reflexivity. }
  destruct RV as [E2|[vw E2]].
  { split.
    - intros _ D. destruct (D1 D) as [_ [vw E]]. congruence.
    - intros _. unfold VSSShareReceive. fold F. fold vloop. rewrite E1, E2. reflexivity. }
  destruct (T pi vw E1 E2) as [x Ex]. rewrite Ex. split; [discriminate|]. intros ND. exfalso. apply ND. exact (D2 pi vw E1 E2).
Qed.
Print Assumptions c49_dealing.

(** *** Commit *)

Lemma rp_interpolate F tab d k L : rp (InterpolateComOrWit F tab d k L).
Proof.
  unfold InterpolateComOrWit. destruct (_ && _)%bool; [apply rp_idx|]. destruct (_ && _)%bool.
  - apply rp_bind; [apply rp_idx|]. intros; apply rp_lincomb.
  - apply rp_bind; [|intros; apply rp_lincomb]. unfold GetLagrangeCoefficients. destruct (negb _); [left; reflexivity|].
    apply rp_goloop. intros; apply rp_upd.
Qed.

Lemma rp_verify_commit cd p row data : rp (VerifyCommit cd p row data).
Proof.
  unfold VerifyCommit. apply rp_bind.
  { apply rp_gomap. intros i. apply rp_bind; [apply rp_idx|]. intros; apply rp_read. }
  intros G. apply rp_bind; [apply rp_interpolate|].
  intros i0. apply rp_bind.
  { apply rp_goloop. intros st k. apply rp_bind; [apply rp_idx|]. intros c.
    do 4 (apply rp_bind; [apply rp_read|]; intros). apply rp_bind; [apply rp_check|]. intros ok.
    destruct (_ || _); [apply rp_ret|]. apply rp_bind; [apply rp_upd|]. intros; apply rp_ret. }
  intros [rv rw]. destruct rv.
  - apply rp_bind; [|intros; apply rp_ret]. apply rp_goloop. intros; apply rp_upd.
  - apply rp_bind; [|intros; apply rp_ret]. apply rp_goloop. intros r' k.
    apply rp_bind; [apply rp_slice|]. intros. apply rp_bind; [apply rp_interpolate|intros; apply rp_upd].
Qed.

(** A choice of decoded contents for finitely many readable entries. *)
Lemma decode_choice cd data n :
  (forall k, (k < n)%nat -> exists mc, nth_error data k = Some mc /\ readable_content cd mc) ->
  exists c : nat -> PiContent, forall j, (1 <= j <= n)%nat ->
    exists mc, nth_error data (j - 1) = Some mc /\ decodes_content cd mc (c j).
Proof.
  intros H.
  set (get := fun b => match FromCompressedG1 cd b with Some g => g | None => ZeroG1 end).
  exists (fun j => match nth_error data (j - 1) with
                   | Some mc => mkPC j (get (m_CBj mc)) (get (m_CZj mc)) (get (m_WZ0 mc)) (get (m_GFj mc))
                   | None => pc0 end).
  intros j Hj. destruct (H (j - 1)%nat ltac:(lia)) as (mc & E & R1 & R2 & R3 & R4). exists mc. split; [exact E|].
  rewrite E. unfold decodes_content. cbn [CBj CZj WZ0 gFj]. unfold get.
  apply readable_some in R1, R2, R3, R4. destruct R1 as [? ->], R2 as [? ->], R3 as [? ->], R4 as [? ->]. auto.
Qed.

(** The data that reliable broadcast delivers for a dealer: 2F+1 entries with readable points, from index 0 on. *)
Theorem c49_commit cd s p row data : party_wf s p -> length row = (p_N p + 1)%nat ->
  let ok := forall k, (k < 2 * p_F p + 1)%nat -> exists mc, nth_error data k = Some mc /\ readable_content cd mc in
  (VerifyCommit cd p row data = Panic <-> ~ ok) /\ (ok -> exists x, VerifyCommit cd p row data = Ret x).
Proof.
  intros HW L ok.
  assert (T : ok -> exists x, VerifyCommit cd p row data = Ret x).
  { intros H. destruct (decode_choice cd data _ H) as [c D].
    destruct (verify_commit_spec cd s p HW data c row D L) as (b & row' & E & _). eauto. }
  split; [|exact T]. apply panic_iff; [apply rp_verify_commit|exact T|].
  intros x E. destruct (verify_commit_decodes cd p data row x E) as [c D].
  intros k Hk. destruct (D (k + 1)%nat ltac:(lia)) as (mc & Em & X1 & X2 & X3 & X4).
  replace (k + 1 - 1)%nat with k in Em by lia. exists mc. split; [exact Em|].
  unfold readable_content. rewrite !readable_some. repeat split; eauto.
Qed.
Print Assumptions c49_commit.

(** *** Reshare *)

Lemma rp_vote_check cd p row m : rp (vote_check cd p row m).
Proof.
  apply rp_goloop. intros st k. apply rp_bind; [apply rp_idx|]. intros b. apply rp_bind; [apply rp_idx|]. intros wb.
  apply rp_bind; [apply rp_read|]. intros w. apply rp_bind; [apply rp_idx|]. intros C. apply rp_bind; [apply rp_check|].
  intros; apply rp_ret.
Qed.

(** The check of a reshare message ends the member exactly when one of the first 2F+1 values or witnesses is
    missing or a witness is unreadable. *)
Theorem c49_reshare_lists cd s p row m : party_wf s p -> length row = (p_N p + 1)%nat ->
  let ok := forall k, (k < 2 * p_F p + 1)%nat -> (exists b, nth_error (rs_Qk m) k = Some b) /\
                      (exists wb, nth_error (rs_WQk m) k = Some wb /\ readable cd wb) in
  (vote_check cd p row m = Panic <-> ~ ok) /\ (ok -> exists x, vote_check cd p row m = Ret x).
Proof.
  intros HW L ok.
  assert (T : ok -> exists x, vote_check cd p row m = Ret x).
  { intros H.
    destruct (vote_check_spec cd s p HW m
      (fun k => FrFrom32_into 0 (to32 (match nth_error (rs_Qk m) (k - 1) with Some b => b | None => [] end)))
      (fun k => match nth_error (rs_WQk m) (k - 1) with
                | Some b => match FromCompressedG1 cd b with Some g => g | None => ZeroG1 end
                | None => ZeroG1 end) row) as (v & _ & E); [|exact L|eauto].
    intros k Hk. destruct (H (k - 1)%nat ltac:(lia)) as [[b Eb] (wb & Ew & R)]. rewrite Eb, Ew. split; [eauto|].
    exists wb. split; [reflexivity|]. apply readable_some in R. destruct R as [g ->]. reflexivity. }
  split; [|exact T]. apply panic_iff; [apply rp_vote_check|exact T|].
  intros x E. destruct (vote_check_decodes cd p m row x E) as (v & w & D).
  intros k Hk. destruct (D (k + 1)%nat ltac:(lia)) as [(b & Eb & _) (wb & Ew & Dw)].
  replace (k + 1 - 1)%nat with k in * by lia. split; [eauto|]. exists wb. split; [exact Ew|]. apply readable_some. eauto.
Qed.
Print Assumptions c49_reshare_lists.

(** *** Prepare *)

(** Adopting the winning Prepare message ends the new member exactly when entry 1 .. 2F+1 is missing or unreadable. *)
Theorem c49_prepare parse cd p data : length (PiContents (p_Proof p)) = (2 * p_F p + 2)%nat ->
  let ok := forall j, (1 <= j <= 2 * p_F p + 1)%nat -> exists b, nth_error (parse data) j = Some b /\ readable cd b in
  (adopt parse cd p data = Panic <-> ~ ok) /\ (ok -> exists x, adopt parse cd p data = Ret x).
Proof.
  intros L ok. unfold adopt. match goal with |- context [goloop 1 _ ?b _] => set (body := b) end.
  assert (R : rp (goloop 1 (2 * p_F p + 1) body (PiContents (p_Proof p)))).
  { apply rp_goloop. intros cs i. unfold body. apply rp_bind; [apply rp_idx|]. intros b. apply rp_bind; [apply rp_read|].
    intros g. apply rp_bind; [apply rp_idx|]. intros; apply rp_upd. }
  assert (T : ok -> exists cs, goloop 1 (2 * p_F p + 1) body (PiContents (p_Proof p)) = Ret cs).
  { intros H. destruct (goloop_inv (fun _ (cs : list PiContent) => length cs = (2 * p_F p + 2)%nat) 1 (2 * p_F p + 1) body
      (PiContents (p_Proof p)) L) as (cs & E & _); [|eauto].
    intros i cs Hi Lc. unfold body. destruct (H i ltac:(lia)) as (b & Eb & Rb). unfold idx at 1. rewrite Eb. cbn [bind].
    destruct (read_readable cd b Rb) as [g ->]. cbn [bind]. rewrite (idx_nth pc0) by lia. cbn [bind].
    unfold upd. rewrite (proj2 (Nat.ltb_lt i (length cs))) by lia. eexists. split; [reflexivity|]. rewrite length_set_nth. exact Lc. }
  assert (B : forall cs, goloop 1 (2 * p_F p + 1) body (PiContents (p_Proof p)) = Ret cs -> ok).
  { intros cs E. assert (I := goloop_ret_inv (fun i (_ : list PiContent) => forall j, (1 <= j < i)%nat ->
      exists b, nth_error (parse data) j = Some b /\ readable cd b) _ _ _ _ _ E).
    intros j0 Hj0. apply I; [| |lia].
    - intros j Hj. lia.
    - intros i a b Hi IH H j Hj. destruct (Nat.eq_dec j i) as [->|Ne]; [|apply IH; lia]. unfold body in H.
      apply bind_ret in H. destruct H as (x & Ex & H). apply idx_inv in Ex.
      apply bind_ret in H. destruct H as (g & Eg & _). apply ReadG1_inv in Eg. exists x. split; [exact Ex|].
      apply readable_some. eauto. }
  split.
  - apply panic_iff.
    + apply rp_bind; [exact R|intros; apply rp_ret].
    + intros H. destruct (T H) as [cs ->]. cbn [bind]. eauto.
    + intros x E. apply bind_ret in E. destruct E as (cs & E & _). exact (B cs E).
  - intros H. destruct (T H) as [cs ->]. cbn [bind]. eauto.
Qed.
Print Assumptions c49_prepare.

(** *** The new commitments *)

Theorem c49_new_commit cd s p CQsum j data : party_wf s p -> length CQsum = (p_N p + 1)%nat -> (1 <= j <= p_N p)%nat ->
  (VerifyNewCommit cd p CQsum j data = Panic <-> ~ readable cd data) /\
  (readable cd data -> exists x, VerifyNewCommit cd p CQsum j data = Ret x).
Proof.
  intros HW L Hj. pose proof HW as (HS & HT & HF & HN & HR & LP & _).
  assert (R : rp (VerifyNewCommit cd p CQsum j data)).
  { unfold VerifyNewCommit. apply rp_bind; [apply rp_read|]. intros g. apply rp_bind.
    - destruct (_ <=? _)%nat; [apply rp_bind; [apply rp_idx|intros; apply rp_ret]|].
      apply rp_bind; [|intros; apply rp_interpolate]. apply rp_gomap. intros i. apply rp_bind; [apply rp_idx|intros; apply rp_ret].
    - intros o. apply rp_bind; [apply rp_idx|]. intros q. destruct (EqualG1 _ _); apply rp_ret. }
  assert (T : readable cd data -> exists x, VerifyNewCommit cd p CQsum j data = Ret x).
  { intros H. unfold VerifyNewCommit. destruct (read_readable cd _ H) as [g ->]. cbn [bind].
    assert (E : exists o, (if (j <=? 2 * p_F p + 1)%nat then c <- idx (PiContents (p_Proof p)) j ;; Ret (CBj c)
            else
              cs <- gomap (fun i => c <- idx (PiContents (p_Proof p)) i ;; Ret (CBj c)) (seq 1 (2 * p_F p + 1)) ;;
              InterpolateComOrWit (p_F p) (p_tab p) (2 * p_F p) j cs) = Ret o).
    { destruct (Nat.leb_spec j (2 * p_F p + 1)).
      - rewrite (idx_nth pc0) by lia. cbn [bind]. eauto.
      - set (c := fun i => CBj (nth i (PiContents (p_Proof p)) pc0)).
        rewrite (gomap_ret _ c).
        2:{ intros i Hi. apply in_seq in Hi. rewrite (idx_nth pc0) by lia. reflexivity. }
        cbn [bind]. destruct (points_poly (2 * p_F p) c ltac:(lia)) as (f & Lf & Hf).
        rewrite (map_ext_in c (fun i => mkG1 (peval f (of_nat i)))).
        2:{ intros i Hi. apply in_seq in Hi. apply Hf. lia. }
        rewrite (InterpolateComOrWit_correct (p_F p) (p_tab p) (p_N p)) by (auto; lia). eauto. }
    destruct E as [o ->]. cbn [bind]. rewrite (idx_nth ZeroG1) by lia. cbn [bind].
    destruct (EqualG1 _ _); eauto. }
  split; [|exact T]. apply panic_iff; [exact R|exact T|].
  intros x E. unfold VerifyNewCommit in E. apply bind_ret in E. destruct E as (g & E & _). apply ReadG1_inv in E.
  apply readable_some. eauto.
Qed.
Print Assumptions c49_new_commit.

(** *** The proposal *)

(** A proposal ends the members exactly when the coder has an error for it, or gives fewer than N shards, and the member
    has not taken a proposal before. *)
Theorem c49_propose sha rs_encode N F st M :
  (propose_step sha rs_encode N F st M = Panic <-> r_prop st = false /\
     match rs_encode N F M with None => True | Some sh => (length sh < N)%nat end).
Proof.
  unfold propose_step. destruct (r_prop st).
  { split; [discriminate|]. intros [H _]. discriminate. }
  destruct (rs_encode N F M) as [sh|]; [|tauto].
  set (f := fun j => s <- idx sh j ;; Ret (SendTo j (tag sha M, s))).
  destruct (Nat.lt_ge_cases (length sh) N) as [Q|Q].
  - split; [auto|]. intros _.
    assert (E : gomap f (seq 0 N) = Panic); [|rewrite E; reflexivity].
    assert (G : forall n lo, (lo <= length sh < lo + n)%nat -> gomap f (seq lo n) = Panic).
    { induction n as [|n IH]; intros lo H; [lia|]. cbn [seq gomap]. unfold f at 1.
      destruct (Nat.eq_dec lo (length sh)) as [->|Ne]; [rewrite idx_panic by lia; reflexivity|].
      rewrite (idx_nth []) by lia. cbn [bind]. rewrite IH by lia. reflexivity. }
    apply G. lia.
  - rewrite (gomap_ret f (fun j => SendTo j (tag sha M, nth j sh []))).
    + cbn [bind]. split; [discriminate|]. intros [_ H]. lia.
    + intros j Hj. apply in_seq in Hj. unfold f. rewrite (idx_nth []) by lia. reflexivity.
Qed.
Print Assumptions c49_propose.

(** *** Decoding a broadcast *)

Lemma place_ret N k l : (0 < N)%nat -> Forall (fun e : Z * list Z => (0 <= fst e < Z.of_nat N)%Z) (firstn k l) ->
  exists M, place N k l = Ret M /\ length M = N.
Proof.
  intros P H. unfold place. destruct (gofold_inv (fun _ (M : list (list Z)) => length M = N)
    (fun M (e : Z * list Z) =>
      if (fst e <? Z.of_nat (length M))%Z && (0 <=? fst e)%Z then Ret (set_nth (Z.to_nat (fst e)) (snd e) M) else Panic)
    (firstn k l ++ repeat (0%Z, []) (k - length l)) (repeat [] N)) as (M & E & L).
  - apply repeat_length.
  - intros l1 a l2 M E L.
    assert (A : (0 <= fst a < Z.of_nat N)%Z).
    { assert (I : In a (firstn k l ++ repeat (0%Z, []) (k - length l))) by (rewrite E; apply in_or_app; right; left; reflexivity).
      apply in_app_or in I. destruct I as [I|I].
      - rewrite Forall_forall in H. exact (H a I).
      - apply repeat_spec in I. subst a. cbn [fst]. lia. }
    rewrite L. rewrite (proj2 (Z.ltb_lt _ _)), (proj2 (Z.leb_le _ _)) by lia. cbn [andb].
    eexists. split; [reflexivity|]. rewrite length_set_nth. exact L.
  - eauto.
Qed.

Lemma place_panic N k l : ~ Forall (fun e : Z * list Z => (0 <= fst e < Z.of_nat N)%Z) (firstn k l) -> place N k l = Panic.
Proof.
  intros H. unfold place. rewrite gofold_app.
  match goal with |- context [gofold ?f (firstn k l) ?s0] => assert (G : gofold f (firstn k l) s0 = Panic) end.
  2:{ rewrite G. reflexivity. }
  assert (G : forall es (M : list (list Z)), length M = N -> ~ Forall (fun e : Z * list Z => (0 <= fst e < Z.of_nat N)%Z) es ->
    gofold (fun M (e : Z * list Z) =>
      if (fst e <? Z.of_nat (length M))%Z && (0 <=? fst e)%Z then Ret (set_nth (Z.to_nat (fst e)) (snd e) M) else Panic) es M = Panic).
  { induction es as [|e es IH]; intros M L NF; [exfalso; apply NF; constructor|]. cbn [gofold]. rewrite L.
    destruct (Z.ltb_spec (fst e) (Z.of_nat N)); destruct (Z.leb_spec 0 (fst e)); cbn [andb bind]; try reflexivity.
    apply IH; [rewrite length_set_nth; exact L|]. intros A. apply NF. constructor; [lia|exact A]. }
  apply G; [apply repeat_length|exact H].
Qed.

(** A round of decoding ends the member exactly when one of the Ready messages used names a sender outside
    0 .. N-1, the announced hash is shorter than 32 bytes, or the announced length is larger than
    what was put together. *)
Theorem c49_decode sha rs_verify rs_reconstruct N F st : (0 < N)%nat ->
  let k := (N - F + r_round st)%nat in
  let used := firstn k (Tof st (r_maxHash st)) in
  (decode_step sha rs_verify rs_reconstruct N F st = Panic <->
   r_out st = None /\ r_rph st = RRecv /\ r_start st = true /\ (k <= r_maxN st)%nat /\
   ((exists s b, In (s, b) used /\ ~ (0 <= s < Z.of_nat N)%Z) \/
    (length (r_maxHash st) < 32)%nat \/
    exists M, place N k (Tof st (r_maxHash st)) = Ret M /\
      (Z.of_nat (length (concat (firstn (N - (F + 1)) (if rs_verify N F M then M else rs_reconstruct N F M)))) <
       BytesToInt (skipn 32 (r_maxHash st)))%Z)).
Proof.
  intros P k used. unfold decode_step. fold k.
  destruct (r_out st) as [o|]; [split; [discriminate|intros (H & _); discriminate]|].
  destruct (r_rph st); try (split; [discriminate|intros (_ & H & _); discriminate]).
  destruct (r_start st); cbn [andb]; [|split; [discriminate|intros (_ & _ & H & _); discriminate]].
  destruct (Nat.leb_spec k (r_maxN st)) as [Q|Q]; [|split; [discriminate|intros (_ & _ & _ & H & _); lia]].
  assert (DF : Forall (fun e : Z * list Z => (0 <= fst e < Z.of_nat N)%Z) used \/
               (exists s b, In (s, b) used /\ ~ (0 <= s < Z.of_nat N)%Z)).
  { clear. induction used as [|[s b] l IH]; [left; constructor|]. destruct IH as [IH|(s' & b' & I & NB)].
    - destruct (Z_lt_dec s 0); [right; exists s, b; split; [left; reflexivity|lia]|].
      destruct (Z_lt_dec s (Z.of_nat N)); [left; constructor; [cbn [fst]; lia|exact IH]|].
      right. exists s, b. split; [left; reflexivity|lia].
    - right. exists s', b'. split; [right; exact I|exact NB]. }
  destruct DF as [DF|DF].
  - destruct (place_ret N k _ P DF) as (M & E & LM). rewrite E. cbn [bind].
    destruct (Nat.ltb_spec (length (r_maxHash st)) 32) as [H|H].
    { split; [intros _; repeat split; auto|reflexivity]. }
    match goal with |- (if (?a <? ?b)%Z then _ else _) = _ <-> _ => destruct (Z.ltb_spec a b) as [G|G] end.
    { split; [intros _|reflexivity]. repeat split; auto. right. right. exists M. split; [reflexivity|exact G]. }
    split; [discriminate|]. intros (_ & _ & _ & _ & [(s & b & I & NB)|[B|(M' & EM & B)]]).
    + rewrite Forall_forall in DF. specialize (DF _ I). cbn [fst] in DF. contradiction.
    + lia.
    + injection EM as <-. lia.
  - rewrite place_panic.
    + cbn [bind]. split; [intros _|reflexivity]. repeat split; auto.
    + intros A. destruct DF as (s & b & I & NB). rewrite Forall_forall in A. apply NB. exact (A _ I).
Qed.
Print Assumptions c49_decode.

(** Nothing else in reliable broadcast can end the member. *)
Theorem c49_broadcast sha rs_encode rs_verify rs_reconstruct N F st e :
  rstep sha rs_encode rs_verify rs_reconstruct N F st e = Panic ->
  e = EvDecode \/ exists s M, e = EvPropose s M.
Proof. destruct e; cbn [rstep]; intros H; try discriminate H; eauto. Qed.
Print Assumptions c49_broadcast.

(** *** Reshare, the whole handler *)

Theorem c49_reshare_exact cd sign s p st sender m : party_wf s p -> (Z.of_nat (p_N p) < 2 ^ 32)%Z -> (0 <= sender < 2 ^ 32)%Z ->
  length (s_flgCom st) = (p_N p + 1)%nat -> length (s_CQ st) = (p_N p + 1)%nat ->
  Forall (fun row => length row = (p_N p + 1)%nat) (s_CQ st) ->
  let ix := Z.to_nat ((sender + 1) mod 2 ^ 32) in
  (do_reshare cd sign p st sender m = Panic <->
     (Z.of_nat (p_N p) <= sender < 2 ^ 32 - 1)%Z \/
     (nth ix (s_flgCom st) false = true /\
      ~ (forall k, (k < 2 * p_F p + 1)%nat -> (exists b, nth_error (rs_Qk m) k = Some b) /\
                      (exists wb, nth_error (rs_WQk m) k = Some wb /\ readable cd wb)))).
Proof.
  intros HW B S L1 L2 L3 ix. pose proof HW as (HS & HT & HF & HN & HR & _). unfold do_reshare. fold ix.
  assert (IX : (Z.of_nat ix = (sender + 1) mod 2 ^ 32)%Z) by (unfold ix; rewrite Z2Nat.id; [reflexivity|apply Z.mod_pos_bound; lia]).
  destruct (Nat.le_gt_cases (p_N p + 1) ix) as [Q|Q].
  - rewrite idx_panic by lia. cbn [bind]. split; [intros _; left|reflexivity].
    destruct (Z.eq_dec sender (2 ^ 32 - 1)) as [->|NE].
    + replace ((2 ^ 32 - 1 + 1) mod 2 ^ 32)%Z with 0%Z in IX by reflexivity. lia.
    + rewrite Z.mod_small in IX by lia. lia.
  - assert (NS : ~ (Z.of_nat (p_N p) <= sender < 2 ^ 32 - 1)%Z).
    { intros C. rewrite Z.mod_small in IX by lia. lia. }
    rewrite (idx_nth false) by lia. cbn [bind]. destruct (nth ix (s_flgCom st) false) eqn:FL; cbn [negb].
    2:{ split; [discriminate|]. intros [C|[C _]]; [contradiction|discriminate]. }
    rewrite (idx_nth []) by lia. cbn [bind].
    assert (LR : length (nth ix (s_CQ st) []) = (p_N p + 1)%nat).
    { rewrite Forall_forall in L3. apply L3. apply nth_In. lia. }
    destruct (c49_reshare_lists cd s p _ m HW LR) as [A _]. unfold Vote.
    destruct (rp_vote_check cd p (nth ix (s_CQ st) []) m) as [E|[[ok vw] E]].
    + rewrite E. cbn [bind]. split; [intros _; right; split; [reflexivity|apply A; exact E]|reflexivity].
    + assert (NP : ~ ~ (forall k, (k < 2 * p_F p + 1)%nat -> (exists b, nth_error (rs_Qk m) k = Some b) /\
                      (exists wb, nth_error (rs_WQk m) k = Some wb /\ readable cd wb))).
      { intros C. apply A in C. congruence. }
      rewrite E. cbn [bind].
      enough (R : exists x, (if ok then ms <- vote_messages cd p ((sender + 1) mod 2 ^ 32)%Z (sign ix) (fst vw) (snd vw) ;; Ret (Some ms) else Ret None) = Ret x).
      { destruct R as [x R]. rewrite R. cbn [bind]. split; [discriminate|]. intros [C|[_ C]]; contradiction. }
      destruct ok; [|eauto].
      destruct (vote_check_decodes cd p m _ _ E) as (v & w & D).
      destruct (vote_check_spec cd s p HW m v w _ D LR) as (ok' & _ & E'). rewrite E in E'. injection E' as _ ->. cbn [fst snd].
      destruct (points_poly (2 * p_F p) (fun j => mkG1 (v j)) ltac:(lia)) as (fa & La & Ha).
      destruct (points_poly (2 * p_F p) w ltac:(lia)) as (fb & Lb & Hb).
      rewrite (map_ext_in v (fun j => peval fa (of_nat j))).
      2:{ intros j Hj. apply in_seq in Hj. specialize (Ha j ltac:(lia)). congruence. }
      rewrite (map_ext_in w (fun j => mkG1 (peval fb (of_nat j)))).
      2:{ intros j Hj. apply in_seq in Hj. apply Hb. lia. }
      rewrite (vote_messages_correct cd s p HW) by lia. cbn [bind]. eauto.
Qed.
Print Assumptions c49_reshare_exact.

(** *** The result of the agreement *)

(** Refresh with the agreed list J: the first entry beyond N ends the member, unless an entry before it is a dealer for
    whom neither commitments nor F+1 points have arrived; then it waits. *)
Definition refresh_waits (st : pst) (j : Z) : Prop :=
  nth (Z.to_nat j) (s_flgCom st) false = false /\ nth (Z.to_nat j) (s_flgRec st) false = false.

Definition pst_shape (p : Party) (st : pst) : Prop :=
  length (s_flgCom st) = (p_N p + 1)%nat /\ length (s_Q st) = (p_N p + 1)%nat /\ length (s_CQ st) = (p_N p + 1)%nat /\
  Forall (fun q => length q = (p_F p + 1)%nat) (s_Q st) /\ Forall (fun row => length row = (p_N p + 1)%nat) (s_CQ st).

Theorem c49_result s p st J : party_wf s p -> pst_shape p st -> (p_PID p < p_N p)%nat ->
  length (p_reducedShare p) = (p_F p + 1)%nat -> Forall (fun j => 0 <= j)%Z J ->
  (Refresh p st J = Panic <->
     exists J1 j J2, J = J1 ++ j :: J2 /\ (Z.of_nat (p_N p) < j)%Z /\
       Forall (fun i => (i <= Z.of_nat (p_N p))%Z /\ ~ refresh_waits st i) J1).
Proof.
  intros HW (L1 & L2 & L3 & L4 & L5) PID LR NN. pose proof HW as (HS & HT & HF & HN & HR & _). unfold Refresh.
  assert (HB : (refresh_sums p st J = Panic <->
     exists J1 j J2, J = J1 ++ j :: J2 /\ (Z.of_nat (p_N p) < j)%Z /\
       Forall (fun i => (i <= Z.of_nat (p_N p))%Z /\ ~ refresh_waits st i) J1) /\
     (refresh_sums p st J = Panic \/ refresh_sums p st J = Ret None \/
      exists a b, refresh_sums p st J = Ret (Some (a, b)) /\ length a = (p_F p + 1)%nat)).
  { unfold refresh_sums. match goal with |- context [gofold ?f J _] => set (step := f) end.
    assert (NoneAbs : forall l, gofold step l None = Ret None).
    { induction l as [|x l IH]; [reflexivity|]. cbn [gofold]. unfold step at 1. cbn [bind]. exact IH. }
    assert (G : forall J0, Forall (fun j => 0 <= j)%Z J0 -> forall a b, length a = (p_F p + 1)%nat -> length b = (p_N p + 1)%nat ->
      (gofold step J0 (Some (a, b)) = Panic <->
       exists J1 j J2, J0 = J1 ++ j :: J2 /\ (Z.of_nat (p_N p) < j)%Z /\
         Forall (fun i => (i <= Z.of_nat (p_N p))%Z /\ ~ refresh_waits st i) J1) /\
      (gofold step J0 (Some (a, b)) = Panic \/ gofold step J0 (Some (a, b)) = Ret None \/
       exists a' b', gofold step J0 (Some (a, b)) = Ret (Some (a', b')) /\ length a' = (p_F p + 1)%nat)).
    { induction J0 as [|j J0 IH]; intros NJ a b La Lb.
      - cbn [gofold]. split; [|right; right; eauto].
        split; [discriminate|]. intros (J1 & j & J2 & E & _). destruct J1; discriminate.
      - inversion NJ as [|? ? Nj NJ']; subst. cbn [gofold].
        remember (step (Some (a, b)) j) as X eqn:EX. unfold step in EX. cbv beta iota in EX.
        destruct (Z_lt_dec (Z.of_nat (p_N p)) j) as [Q|Q].
        { rewrite idx_panic in EX by lia. cbn [bind] in EX. rewrite EX. cbn [bind]. split; [|left; reflexivity]. split; [|reflexivity].
          intros _. exists [], j, J0. repeat split; [exact Q|constructor]. }
        assert (Hj : (Z.to_nat j < p_N p + 1)%nat) by lia.
        rewrite (idx_nth false) in EX by lia. cbn [bind] in EX. rewrite (idx_nth []) in EX by lia. cbn [bind] in EX. rewrite (idx_nth []) in EX by lia. cbn [bind] in EX.
        set (q := nth (Z.to_nat j) (s_Q st) []) in *. set (row := nth (Z.to_nat j) (s_CQ st) []) in *.
        assert (Lq : length q = (p_F p + 1)%nat) by (rewrite Forall_forall in L4; apply L4; apply nth_In; lia).
        assert (Lrow : length row = (p_N p + 1)%nat) by (rewrite Forall_forall in L5; apply L5; apply nth_In; lia).
        assert (Step : forall rw, length rw = (p_N p + 1)%nat -> exists a' b', 
           (Qsum' <- gomap (fun i => a0 <- idx a i ;; b0 <- idx q i ;; Ret (a0 + b0)) (seq 0 (p_F p + 1)) ;;
            CQs <- gomap (fun i => a0 <- idx b i ;; b0 <- idx rw i ;; Ret (AddG1 a0 b0)) (seq 1 (p_N p)) ;;
            Ret (Some (Qsum', ZeroG1 :: CQs))) = Ret (Some (a', b')) /\ length a' = (p_F p + 1)%nat /\ length b' = (p_N p + 1)%nat).
        { intros rw Lrw. rewrite (gomap_ret _ (fun i => nth i a 0 + nth i q 0)).
          2:{ intros i Hi. apply in_seq in Hi. rewrite !(idx_nth 0) by lia. reflexivity. }
          cbn [bind]. rewrite (gomap_ret _ (fun i => AddG1 (nth i b ZeroG1) (nth i rw ZeroG1))).
          2:{ intros i Hi. apply in_seq in Hi. rewrite !(idx_nth ZeroG1) by lia. reflexivity. }
          cbn [bind]. eexists. eexists. split; [reflexivity|]. rewrite map_length, seq_length. cbn [length]. rewrite map_length, seq_length. lia. }
        assert (Cont : forall a' b', length a' = (p_F p + 1)%nat -> length b' = (p_N p + 1)%nat -> ~ refresh_waits st j ->
          (gofold step J0 (Some (a', b')) = Panic <->
           exists J1 j0 J2, j :: J0 = J1 ++ j0 :: J2 /\ (Z.of_nat (p_N p) < j0)%Z /\
             Forall (fun i => (i <= Z.of_nat (p_N p))%Z /\ ~ refresh_waits st i) J1) /\
          (gofold step J0 (Some (a', b')) = Panic \/ gofold step J0 (Some (a', b')) = Ret None \/
           exists a'' b'', gofold step J0 (Some (a', b')) = Ret (Some (a'', b'')) /\ length a'' = (p_F p + 1)%nat)).
        { intros a' b' La' Lb' NW. destruct (IH NJ' a' b' La' Lb') as [A1 A2]. split; [|exact A2]. rewrite A1.
          split; intros (J1 & j0 & J2 & E & Q1 & Q2).
          - exists (j :: J1), j0, J2. rewrite E. repeat split; [exact Q1|]. constructor; [split; [lia|exact NW]|exact Q2].
          - destruct J1 as [|x J1]; cbn [app] in E; injection E as -> E; [lia|].
            exists J1, j0, J2. repeat split; [exact E|exact Q1|]. inversion Q2; assumption. }
        destruct (nth (Z.to_nat j) (s_flgCom st) false) eqn:FC; cbn [negb andb bind] in EX.
        { destruct (Step row Lrow) as (a' & b' & ES & La' & Lb'). rewrite ES in EX. rewrite EX. cbn [bind]. apply Cont; auto. intros [C _]. congruence. }
        destruct (nth (Z.to_nat j) (s_flgRec st) false) eqn:FR; cbn [negb bind] in EX.
        + assert (EC : exists c, CommitToPoly (p_KZG p) q = Ret c).
          { eexists. apply (commit_correct s (p_F p + 1) _ HS). lia. }
          destruct EC as [c EC]. rewrite EC in EX. cbn [bind] in EX. unfold upd in EX. rewrite (proj2 (Nat.ltb_lt (p_PID p + 1) (length row))) in EX by lia. cbn [bind] in EX.
          destruct (Step (set_nth (p_PID p + 1) c row) ltac:(rewrite length_set_nth; exact Lrow)) as (a' & b' & ES & La' & Lb').
          rewrite ES in EX. rewrite EX. cbn [bind]. apply Cont; auto. intros [_ C]. congruence.
        + rewrite EX. cbn [bind]. rewrite NoneAbs. split; [|right; left; reflexivity]. split; [discriminate|].
          intros (J1 & j0 & J2 & E & Q1 & Q2). destruct J1 as [|x J1]; cbn [app] in E; injection E as -> E; [lia|].
          inversion Q2 as [|? ? [_ C] _]; subst. exfalso. apply C. split; assumption. }
    apply G; [exact NN|apply repeat_length|apply repeat_length]. }
  destruct HB as [H1 [H2|[H2|(a & b & H2 & La)]]].
  - rewrite <- H1, H2. cbn [bind]. tauto.
  - rewrite <- H1, H2. cbn [bind]. split; discriminate.
  - rewrite <- H1, H2. cbn [bind].
    rewrite (gomap_ret _ (fun i => nth i a 0 + nth i (p_reducedShare p) 0)).
    2:{ intros i Hi. apply in_seq in Hi. rewrite !(idx_nth 0) by lia. reflexivity. }
    cbn [bind]. split; discriminate.
Qed.
Print Assumptions c49_result.

(** *** Share distribution: the waiting goroutines *)

Lemma readable_dec cd b : {readable cd b} + {~ readable cd b}.
Proof. unfold readable. destruct (FromCompressedG1 cd b); [left; discriminate|right; intros H; apply H; reflexivity]. Qed.

Lemma nodup_firstn_ {A} n (l : list A) : NoDup l -> NoDup (firstn n l).
Proof.
  revert n. induction l as [|a l IH]; intros [|n] H; cbn [firstn]; try constructor.
  - inversion H; subst. intros I. apply H2. rewrite <- (firstn_skipn n l). apply in_or_app. left. exact I.
  - inversion H; subst. apply IH. assumption.
Qed.

Lemma nodup_of_nat_le n l : (Z.of_nat n < r)%Z -> NoDup l -> (forall x, In x l -> (x <= n)%nat) -> NoDup (map of_nat l).
Proof.
  intros B H. induction H as [|a l NI ND IH]; intros U; cbn [map]; constructor.
  - intros I. apply in_map_iff in I. destruct I as (x & E & I). apply NI.
    assert (x = a); [|subst; exact I]. apply of_nat_inj in E; [exact E| |].
    + specialize (U x (or_intror I)). lia.
    + specialize (U a (or_introl eq_refl)). lia.
  - apply IH. intros x I. apply U. right. exact I.
Qed.

Record dgood (p : Party) (st : dst) : Prop := {
  dg_done : length (d_ncDone st) = (p_N p + 1)%nat;
  dg_scom : length (d_SCom st) = (p_N p + 1)%nat;
  dg_tok : length (d_token st) = (p_N p + 1)%nat;
  dg_wait : Forall (fun e => (fst e <= p_N p)%nat) (d_wait st);
  dg_sb : Forall (fun e => (fst e <= p_N p)%nat) (d_SB st);
  dg_nd : NoDup (map fst (d_SB st));
  dg_free : forall j, nth j (d_token st) false = true -> nth j (d_ncDone st) true = true /\ ~ In j (map fst (d_SB st));
  dg_used : forall j, In j (map fst (d_SB st)) -> nth j (d_ncDone st) true = true }.

Lemma dgood_init p : dgood p (dist_init (p_N p)).
Proof.
  unfold dist_init. constructor; cbn [d_ncDone d_SCom d_token d_wait d_SB map]; try apply repeat_length; try constructor.
  - exfalso. revert H. clear. generalize (p_N p + 1)%nat. intros n. revert j. induction n as [|n IH]; intros [|j]; cbn [repeat nth]; try discriminate. apply IH.
  - intros I. destruct I.
  - intros j [].
Qed.

(** A waiting goroutine ends the member exactly when its dealer's commitment has been accepted, no other goroutine has
    used it up, and the witness it carries is unreadable; in particular the interpolation never stops it. *)
Theorem c49_share_dist_wait cd s p st i : party_wf s p -> dgood p st ->
  (d_go cd p st i = Panic <-> exists j m, nth_error (d_wait st) i = Some (j, m) /\ nth j (d_token st) false = true /\
     ~ readable cd (sd_WB m)) /\
  (d_go cd p st i = Panic \/ exists st', d_go cd p st i = Ret st' /\ dgood p st').
Proof.
  intros HW G. pose proof HW as (HS & HT & HF & HN & HR & _). unfold d_go.
  destruct (nth_error (d_wait st) i) as [[j m]|] eqn:E.
  2:{ split; [split; [discriminate|intros (j & m & H & _); discriminate]|right; eauto]. }
  destruct (nth j (d_token st) false) eqn:T; cbn [negb].
  2:{ split; [split; [discriminate|intros (j' & m' & H & H2 & _); injection H as <- <-; congruence]|right; eauto]. }
  pose proof (nth_error_In _ _ E) as IN.
  pose proof (dg_wait p st G) as GW. rewrite Forall_forall in GW. specialize (GW _ IN). cbn [fst] in GW.
  pose proof (dg_free p st G j T) as [DJ NJ].
  rewrite (idx_nth ZeroG1) by (rewrite (dg_scom p st G); lia). cbn [bind].
  destruct (readable_dec cd (sd_WB m)) as [R|R].
  2:{ assert (EP : ReadG1 cd (sd_WB m) = Panic).
      { unfold ReadG1, readable in *. destruct (FromCompressedG1 cd (sd_WB m)); [exfalso; apply R; discriminate|reflexivity]. }
      rewrite EP. cbn [bind]. split; [split; [intros _; eauto|reflexivity]|left; reflexivity]. }
  destruct (read_readable cd _ R) as [w ->]. cbn [bind].
  rewrite (check_correct s (p_F p + 1) _ HS) by lia. cbn [bind].
  assert (NP : ~ exists j0 m0, Some (j, m) = Some (j0, m0) /\ nth j0 (d_token st) false = true /\ ~ readable cd (sd_WB m0)).
  { intros (j0 & m0 & H & _ & H2). injection H as <- <-. contradiction. }
  set (wait' := firstn i (d_wait st) ++ skipn (i + 1) (d_wait st)).
  assert (W' : Forall (fun e : nat * ShareDistMsg => (fst e <= p_N p)%nat) wait').
  { pose proof (dg_wait p st G) as GG. rewrite Forall_forall in *. intros e I. apply GG. unfold wait' in I. apply in_app_or in I.
    destruct I as [I|I].
    - rewrite <- (firstn_skipn i (d_wait st)). apply in_or_app. left. exact I.
    - rewrite <- (firstn_skipn (i + 1) (d_wait st)). apply in_or_app. right. exact I. }
  assert (TK : forall k, nth k (set_nth j false (d_token st)) false = true -> nth k (d_token st) false = true /\ k <> j).
  { intros k. rewrite nth_set_nth. rewrite (dg_tok p st G). destruct (Nat.eqb_spec j k) as [->|Ne]; cbn [andb].
    - destruct (_ <? _)%nat eqn:Q; [discriminate|]. apply Nat.ltb_ge in Q. lia.
    - intros H. split; [exact H|congruence]. }
  match goal with |- context [if feqb ?a ?b then _ else _] => destruct (feqb a b) end.
  - set (v := FrFrom32_into 0 (to32 (sd_B m))).
    set (SB := d_SB st ++ [(j, v)]).
    assert (SBb : Forall (fun e : nat * Fr => (fst e <= p_N p)%nat) SB).
    { apply Forall_app. split; [exact (dg_sb p st G)|]. constructor; [exact GW|constructor]. }
    assert (ND : NoDup (map fst SB)).
    { unfold SB. rewrite map_app. cbn [map fst]. apply NoDup_snoc; [exact (dg_nd p st G)|exact NJ]. }
    assert (GD : forall sh, dgood p (mkDst (d_ncDone st) (d_SCom st) (set_nth j false (d_token st)) (d_free st) wait' SB sh)).
    { intros sh. constructor; cbn [d_ncDone d_SCom d_token d_wait d_SB].
      - apply (dg_done p st G).
      - apply (dg_scom p st G).
      - rewrite length_set_nth. apply (dg_tok p st G).
      - exact W'.
      - exact SBb.
      - exact ND.
      - intros k Hk. apply TK in Hk. destruct Hk as [Hk Ne]. destruct (dg_free p st G k Hk) as [A1 A2]. split; [exact A1|].
        unfold SB. rewrite map_app. cbn [map fst]. intros I. apply in_app_or in I. destruct I as [I|[I|[]]]; [contradiction|congruence].
      - intros k. unfold SB. rewrite map_app. cbn [map fst]. intros I. apply in_app_or in I.
        destruct I as [I|[<-|[]]]; [apply (dg_used p st G k I)|exact DJ]. }
    destruct (d_share st) as [fs|].
    + split; [split; [discriminate|intros C; contradiction]|right; eauto].
    + destruct (Nat.leb_spec (2 * p_F p + 1) (length SB)) as [Q|Q].
      * destruct (LagrangeInterpolate_correct (2 * p_F p) (map (fun e => of_nat (fst e)) (firstn (2 * p_F p + 1) SB))
                    (map snd (firstn (2 * p_F p + 1) SB))) as (q & EQ & _).
        -- rewrite firstn_all2 by (rewrite map_length, firstn_length; lia).
           rewrite <- (map_map fst of_nat). apply nodup_of_nat_le with (p_N p).
           ++ lia.
           ++ rewrite <- firstn_map. apply nodup_firstn_. exact ND.
           ++ intros x Ix. apply in_map_iff in Ix. destruct Ix as (e & <- & Ie). rewrite Forall_forall in SBb. apply SBb.
              rewrite <- (firstn_skipn (2 * p_F p + 1) SB). apply in_or_app. left. exact Ie.
        -- rewrite map_length, firstn_length. lia.
        -- rewrite map_length, firstn_length. lia.
        -- change (p_F p + (p_F p + 0))%nat with (2 * p_F p)%nat. rewrite EQ. cbn [bind].
           split; [split; [discriminate|intros C; contradiction]|right; eauto].
      * split; [split; [discriminate|intros C; contradiction]|right; eauto].
  - split; [split; [discriminate|intros C; contradiction]|]. right. eexists. split; [reflexivity|].
    constructor; cbn [d_ncDone d_SCom d_token d_wait d_SB]; try apply G.
    + rewrite length_set_nth. apply (dg_tok p st G).
    + exact W'.
    + intros k Hk. apply TK in Hk. destruct Hk as [Hk _]. apply (dg_free p st G k Hk).
Qed.
Print Assumptions c49_share_dist_wait.

(** Whatever arrives, in whatever order: the stage never ends in log.Fatal or an error, only in the panics described
    by [c49_new_commit], [c49_share_dist] and [c49_share_dist_wait]. *)
Theorem c49_share_dist_run cd s p CQsum evs : party_wf s p -> length CQsum = (p_N p + 1)%nat ->
  drun cd p CQsum (dist_init (p_N p)) evs = Panic \/
  exists st, drun cd p CQsum (dist_init (p_N p)) evs = Ret st /\ dgood p st.
Proof.
  intros HW LC.
  assert (G : forall evs st, dgood p st -> drun cd p CQsum st evs = Panic \/ exists st', drun cd p CQsum st evs = Ret st' /\ dgood p st').
  2:{ apply G. apply dgood_init. }
  clear evs. induction evs as [|e evs IH]; intros st G; cbn [drun gofold]; [right; exists st; split; [reflexivity|exact G]|].
  unfold drun in IH |- *. cbn [gofold].
  assert (S : dstep cd p CQsum st e = Panic \/ exists st', dstep cd p CQsum st e = Ret st' /\ dgood p st').
  { destruct e as [j data|sender m|i]; cbn [dstep].
    - unfold d_commit. destruct (Nat.leb_spec 1 j); destruct (Nat.leb_spec j (p_N p)); cbn [andb negb orb]; try (right; eauto; fail).
      destruct (nth j (d_ncDone st) true) eqn:DN; [right; eauto|].
      destruct (c49_new_commit cd s p CQsum j data HW LC ltac:(lia)) as [A1 A2].
      destruct (readable_dec cd data) as [R|R].
      2:{ rewrite (proj2 A1 R). left. reflexivity. }
      destruct (A2 R) as [o ->]. cbn [bind]. right. eexists. split; [reflexivity|].
      assert (NU : ~ In j (map fst (d_SB st))) by (intros I; pose proof (dg_used p st G j I); congruence).
      assert (LD := dg_done p st G). assert (LT := dg_tok p st G).
      assert (DM : forall k, nth k (d_ncDone st) true = true -> nth k (set_nth j true (d_ncDone st)) true = true).
      { intros k Hk. rewrite nth_set_nth. destruct (_ && _); auto. }
      destruct o as [CB|]; constructor; cbn [d_ncDone d_SCom d_token d_wait d_SB]; rewrite ?length_set_nth; try apply G.
      + intros k. rewrite nth_set_nth. destruct (Nat.eqb_spec j k) as [<-|Ne]; cbn [andb].
        * intros _. split; [|exact NU]. rewrite nth_set_nth_same by lia. reflexivity.
        * intros Hk. destruct (dg_free p st G k Hk) as [B1 B2]. split; [apply DM; exact B1|exact B2].
      + intros k I. apply DM. apply (dg_used p st G k I).
      + intros k Hk. destruct (dg_free p st G k Hk) as [B1 B2]. split; [apply DM; exact B1|exact B2].
      + intros k I. apply DM. apply (dg_used p st G k I).
    - unfold d_recv. destruct (d_free st) as [|n]; [right; eauto|].
      destruct (Z.ltb_spec (Z.of_nat (p_N p)) ((sender + 1) mod 2 ^ 32)) as [Q|Q]; [left; reflexivity|].
      right. eexists. split; [reflexivity|]. constructor; cbn [d_ncDone d_SCom d_token d_wait d_SB]; try apply G.
      apply Forall_app. split; [apply (dg_wait p st G)|]. constructor; [cbn [fst]; lia|constructor].
    - apply (c49_share_dist_wait cd s p st i HW G). }
  destruct S as [->|(st' & -> & G')]; cbn [bind]; [left; reflexivity|]. apply IH. exact G'.
Qed.
Print Assumptions c49_share_dist_run.

(** *** Recover: the handlers *)

Lemma nodup_or_dup (l : list Fr) : NoDup l \/ exists i j, (i < j < length l)%nat /\ nth i l 0 = nth j l 0.
Proof.
  induction l as [|a l IH]; [left; constructor|]. destruct (in_dec Fr_eq_dec a l) as [I|I].
  - right. apply (In_nth _ _ 0) in I. destruct I as (j & Hj & E). exists O, (S j). cbn [nth length]. split; [lia|congruence].
  - destruct IH as [IH|(i & j & H & E)]; [left; constructor; assumption|].
    right. exists (S i), (S j). cbn [nth length]. split; [lia|exact E].
Qed.

Lemma dup_not_nodup (l : list Fr) i j : (i < j < length l)%nat -> nth i l 0 = nth j l 0 -> ~ NoDup l.
Proof. intros H E ND. rewrite NoDup_nth in ND. specialize (ND i j ltac:(lia) ltac:(lia) E). lia. Qed.

Definition rec_shape (p : Party) (st : pst) : Prop :=
  length (s_CQ st) = (p_N p + 1)%nat /\ Forall (fun row => length row = (p_N p + 1)%nat) (s_CQ st) /\
  length (s_SRec st) = (p_N p + 1)%nat /\ length (s_SSig st) = (p_N p + 1)%nat.

(** The handler never panics.  It ends the process (log.Fatal in the interpolation) exactly when it takes a valid
    message, dealer k is not yet recovered, there are F+1 points with this one, and two of the first F+1
    are claimed by senders that are the same number as a scalar. *)
Theorem c49_recover_handle s sigok combine p st x : party_wf s p -> (p_PID p < p_N p)%nat -> rec_shape p st -> (ro_k x <= p_N p)%nat ->
  let pts := nth (ro_k x) (s_SRec st) [] ++ [(((ro_sender x + 1) mod 2 ^ 32)%Z, ro_v x)] in
  handle sigok combine p st x <> Panic /\ handle sigok combine p st x <> Error /\
  (handle sigok combine p st x = Fatal <->
     recov_ok sigok p st x = Ret true /\ nth (ro_k x) (s_flgRec st) false = false /\ (p_F p + 1 <= length pts)%nat /\
     ~ NoDup (map (fun e => of_Z (fst e)) (firstn (p_F p + 1) pts))).
Proof.
  intros HW PID (L1 & L2 & L3 & L4) HK pts. pose proof HW as (HS & HT & HF & HN & HR & _).
  assert (OK : exists ok, recov_ok sigok p st x = Ret ok).
  { unfold recov_ok. rewrite (idx_nth []) by lia. cbn [bind].
    assert (LR : length (nth (ro_k x) (s_CQ st) []) = (p_N p + 1)%nat) by (rewrite Forall_forall in L2; apply L2; apply nth_In; lia).
    rewrite (idx_nth ZeroG1) by lia. cbn [bind]. rewrite (check_correct s (p_F p + 1) _ HS) by lia. cbn [bind]. eauto. }
  destruct OK as [ok OK]. unfold handle. rewrite OK. cbn [bind]. destruct ok.
  2:{ cbn [bind]. destruct (s_MVBASent st); (split; [discriminate|]; split; [discriminate|]; split; [discriminate|]; intros (H & _); discriminate). }
  assert (SG : forall st1, s_SSig st1 = s_SSig st -> exists st2, add_sig combine p st1 x = Ret st2).
  { intros st1 E. unfold add_sig. rewrite E, (idx_nth []) by lia. cbn [bind]. destruct (_ && _); eauto. }
  unfold add_point. rewrite (idx_nth []) by lia. cbn [bind]. fold pts.
  destruct (nth (ro_k x) (s_flgRec st) false) eqn:FR; cbn [negb andb].
  { cbn [bind]. match goal with |- context [add_sig combine p ?s1 x] => destruct (SG s1 eq_refl) as [st2 ES] end. cbn [bind]. rewrite ES. cbn [bind].
    destruct (s_MVBASent st2); (split; [discriminate|]; split; [discriminate|]; split; [discriminate|]; intros (_ & H & _); discriminate). }
  destruct (Nat.leb_spec (p_F p + 1) (length pts)) as [Q|Q].
  2:{ cbn [bind]. match goal with |- context [add_sig combine p ?s1 x] => destruct (SG s1 eq_refl) as [st2 ES] end. cbn [bind]. rewrite ES. cbn [bind].
    destruct (s_MVBASent st2); (split; [discriminate|]; split; [discriminate|]; split; [discriminate|]; intros (_ & _ & H & _); lia). }
  set (xs := map (fun e => of_Z (fst e)) pts) in *. set (ys := map snd pts) in *.
  assert (LX : length xs = length pts) by apply map_length. assert (LY : length ys = length pts) by apply map_length.
  assert (EX : map (fun e : Z * Fr => of_Z (fst e)) (firstn (p_F p + 1) pts) = firstn (p_F p + 1) xs) by (unfold xs; rewrite firstn_map; reflexivity).
  rewrite EX.
  assert (LFX : length (firstn (p_F p + 1) xs) = (p_F p + 1)%nat) by (rewrite firstn_length; lia).
  assert (LFY : length (firstn (p_F p + 1) ys) = (p_F p + 1)%nat) by (rewrite firstn_length; lia).
  destruct (nodup_or_dup (firstn (p_F p + 1) xs)) as [ND|(i & j & Hij & E)].
  - destruct (LagrangeInterpolate_correct (p_F p) (firstn (p_F p + 1) xs) (firstn (p_F p + 1) ys)) as (q & EQ & _).
    + rewrite firstn_all2 by lia. exact ND.
    + lia.
    + lia.
    + rewrite EQ. cbn [bind].
      match goal with |- context [add_sig combine p ?s1 x] => destruct (SG s1 eq_refl) as [st2 ES] end. rewrite ES. cbn [bind].
      destruct (s_MVBASent st2); (split; [discriminate|]; split; [discriminate|]; split; [discriminate|]; intros (_ & _ & _ & H); contradiction).
  - rewrite (interp_dup (p_F p) (firstn (p_F p + 1) xs) (firstn (p_F p + 1) ys) ltac:(lia) i j ltac:(lia) ltac:(lia) E ltac:(lia)). cbn [bind].
    split; [discriminate|]. split; [discriminate|]. split; [|reflexivity]. intros _. repeat split; auto.
    exact (dup_not_nodup _ i j Hij E).
Qed.
Print Assumptions c49_recover_handle.

(** *** Cases *)

Lemma always_readable : exists cd, codec_ok cd /\ rejects_empty cd /\ readable cd (ToCompressedG1 cd ZeroG1).
Proof. destruct c49_demo_codec as (cd & A & B). exists cd. split; [exact A|]. split; [exact B|]. unfold readable. rewrite A. discriminate. Qed.

Example c49_demo_dealing : exists cd s p m m', party_wf s p /\
  readable_dealing cd (p_F p) m /\ ~ readable_dealing cd (p_F p) m' /\ m_Pi m' <> None.
Proof.
  destruct always_readable as (cd & A & B & R).
  destruct (new_party 4 1 0) as (p & _ & W & PN & PF & PI); [lia|lia|rewrite r_eq; lia|].
  set (z := ToCompressedG1 cd ZeroG1) in *.
  exists cd, party_secret, p, (mkVSS (Some (mkPiM z (repeat (mkPCM 0 z z z z) 4))) (repeat [] 4) (repeat z 4)),
    (mkVSS (Some (mkPiM z (repeat (mkPCM 0 z z z z) 4))) (repeat [] 4) (repeat z 3)).
  split; [exact W|]. rewrite PF. split; [|split; [|discriminate]].
  - eexists. split; [reflexivity|]. split; [exact R|]. intros j Hj. cbn [m_PiContents m_BijList m_WBijList].
    destruct j as [|[|[|[|j]]]]; try lia; (split; [eexists; split; [reflexivity|repeat split; exact R]|split; [eexists; reflexivity|]]);
      (eexists; split; [reflexivity|exact R]).
  - intros (pm & _ & _ & H). destruct (H 3%nat ltac:(lia)) as (_ & _ & wb & E & _). cbn in E. discriminate.
Qed.

Example c49_demo_handoff : exists cd s p row st, party_wf s p /\ (p_PID p < p_N p)%nat /\ length row = (p_N p + 1)%nat /\ pst_shape p st /\
  length (p_reducedShare p) = (p_F p + 1)%nat /\
  (exists x, VerifyCommit cd p row (repeat (mkPCM 0 (ToCompressedG1 cd ZeroG1) (ToCompressedG1 cd ZeroG1) (ToCompressedG1 cd ZeroG1) (ToCompressedG1 cd ZeroG1)) 3) = Ret x) /\
  VerifyCommit cd p row [] = Panic /\
  (exists x, VerifyNewCommit cd p row 4 (ToCompressedG1 cd ZeroG1) = Ret x) /\ VerifyNewCommit cd p row 4 [] = Panic /\
  Refresh p st [2%Z; 5%Z] = Panic /\ Refresh p st [3%Z; 5%Z] <> Panic.
Proof.
  destruct always_readable as (cd & A & B & R).
  destruct (new_party 4 1 0) as (p & EP & W & PN & PF & PI); [lia|lia|rewrite r_eq; lia|].
  set (row := repeat ZeroG1 5).
  set (st := mkPst [false; true; true; false; false] (repeat false 5) (repeat false 5) (repeat row 5) (repeat [0; 0] 5)
               (repeat [] 5) (repeat [] 5) (repeat None 5) (repeat false 5) [] false false None).
  assert (LR : length row = (p_N p + 1)%nat) by (rewrite PN; reflexivity).
  assert (SH : pst_shape p st) by (unfold pst_shape; rewrite PN, PF; repeat split; repeat constructor).
  assert (RS : length (p_reducedShare p) = (p_F p + 1)%nat).
  { unfold NewHonestParty in EP. apply bind_ret in EP. destruct EP as (kz & _ & EP). apply bind_ret in EP.
    destruct EP as (tb & _ & EP). injection EP as <-. reflexivity. }
  exists cd, party_secret, p, row, st. split; [exact W|]. split; [lia|]. split; [exact LR|]. split; [exact SH|]. split; [exact RS|].
  destruct (c49_commit cd party_secret p row (repeat (mkPCM 0 (ToCompressedG1 cd ZeroG1) (ToCompressedG1 cd ZeroG1) (ToCompressedG1 cd ZeroG1) (ToCompressedG1 cd ZeroG1)) 3) W LR) as [_ C1].
  destruct (c49_commit cd party_secret p row [] W LR) as [C2 _].
  split; [|split; [|split; [|split; [|split]]]].
  - apply C1. rewrite PF. intros k Hk.
    destruct k as [|[|[|k]]]; try lia; (eexists; split; [reflexivity|repeat split; exact R]).
  - apply C2. intros H. destruct (H O ltac:(lia)) as (mc & E & _). discriminate.
  - apply (c49_new_commit cd party_secret p row 4 _ W LR); [lia|exact R].
  - apply (c49_new_commit cd party_secret p row 4 _ W LR); [lia|]. intros C. apply C. exact B.
  - apply (c49_result party_secret p st _ W SH ltac:(lia) RS); [repeat constructor; lia|].
    exists [2%Z], 5%Z, []. split; [reflexivity|]. split; [lia|]. repeat constructor; [lia|]. intros [C _]. discriminate C.
  - intros H. apply (c49_result party_secret p st _ W SH ltac:(lia) RS) in H; [|repeat constructor; lia].
    destruct H as (J1 & j & J2 & E & Q1 & Q2). destruct J1 as [|x J1]; cbn [app] in E.
    + injection E as E1 E2. lia.
    + assert (x = 3%Z) by congruence. subst x. apply Forall_inv in Q2. apply (proj2 Q2). split; reflexivity.
Qed.

(** A member of four that has three Ready messages, one of them in the name of member 9; and one in the names of 0, 1, 2
    whose announced length is too large. *)
Example c49_demo_decode : forall sha rs_verify rs_reconstruct, 
  decode_step sha rs_verify rs_reconstruct 4 1
    (mkR false [] [(repeat 0%Z 36, [(0%Z, []); (9%Z, []); (2%Z, [])])] 3 (repeat 0%Z 36) true [] [] ERecv RRecv true 0 None) = Panic /\
  propose_step sha (fun _ _ M => match M with [] => None | _ => Some [M; M; M; M] end) 4 1 rbc_init [] = Panic /\
  propose_step sha (fun _ _ M => match M with [] => None | _ => Some [M; M; M; M] end) 4 1 rbc_init [7%Z] <> Panic.
Proof.
  intros sha v rc. split; [|split].
  - apply c49_decode; [lia|]. cbn. repeat split; auto. left. exists 9%Z, []. split; [right; left; reflexivity|lia].
  - apply c49_propose. split; [reflexivity|]. exact I.
  - intros H. apply c49_propose in H. destruct H as [_ H]. cbn in H. lia.
Qed.

(** The same valid message handled twice, F = 1. *)
Example c49_demo_handle : exists s p st x, party_wf s p /\ (p_PID p < p_N p)%nat /\ rec_shape p st /\ (ro_k x <= p_N p)%nat /\
  handle (fun _ _ => true) (fun _ _ => []) p st x = Fatal.
Proof.
  destruct (new_party 4 1 0) as (p & EP & W & PN & PF & PI); [lia|lia|rewrite r_eq; lia|].
  set (row := repeat ZeroG1 5).
  set (st := mkPst (repeat true 5) (repeat false 5) (repeat false 5) (repeat row 5) (repeat [0; 0] 5)
               (repeat [(3%Z, 0)] 5) (repeat [] 5) (repeat None 5) (repeat false 5) [] false false None).
  set (x := mkRecov 2 1 0 ZeroG1 []).
  assert (SH : rec_shape p st) by (unfold rec_shape; rewrite PN; repeat split; repeat constructor).
  exists party_secret, p, st, x. split; [exact W|]. split; [lia|]. split; [exact SH|]. split; [cbn; lia|].
  apply (c49_recover_handle party_secret _ _ p st x W ltac:(lia) SH ltac:(cbn; lia)). rewrite PF.
  split; [|split; [reflexivity|split; [cbn; lia|]]].
  - unfold recov_ok. rewrite PI. cbn [s_CQ st ro_k x row idx nth_error repeat bind Nat.add].
    pose proof W as (HS & _). rewrite (check_correct party_secret (p_F p + 1) _ HS) by lia. cbn [bind ro_w ro_v x dlog1 ZeroG1].
    apply (f_equal Ret). apply andb_true_intro. split; [|reflexivity]. apply feqb_eq. ring.
  - intros ND. inversion ND as [|? ? NI _]. apply NI. left. reflexivity.
Qed.
