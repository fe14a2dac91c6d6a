(** The honest dealer is accepted; what acceptance implies; secrecy and reconstruction. *)

Require Import ZArith List Lia Bool Arith.
From Verif Require Import Prime Fr Bytes CodecModel CodecProofs GoBase Poly Biv BivProofs PolyModel PolyProofs
  GroupModel KzgModel KzgProofs PartyModel PartySpec VssModel VssProofs.
Import ListNotations.
Local Open Scope F_scope.

Lemma MulG1_gen a : MulG1 GenG1 a = mkG1 a.
Proof. apply G1_ext. cbn [MulG1 GenG1 dlog1]. ring. Qed.

Lemma peval_set0 c p x : p <> [] -> peval (set_nth 0 c p) x = c + peval (set_nth 0 0 p) x.
Proof. destruct p as [|a p]; [congruence|]. intros _. cbn [set_nth peval]. ring. Qed.

Section Client.
Variables (cd : g1codec) (s0 : Fr) (ks : KZGSettings) (N F : nat) (s : Fr).
Variables (rF : list Fr) (rZ : list (list Fr)).
Hypothesis HS : setup s0 (F + 1) = Ret ks.
Hypothesis HF : (1 <= F)%nat.
Hypothesis HR : (Z.of_nat (2 * F + 2) <= r)%Z.
Hypothesis LF : length rF = (2 * F + 1)%nat.
Hypothesis LZ : length rZ = (2 * F + 1)%nat.
Hypothesis LZ2 : Forall (fun row => length row = (F + 1)%nat) rZ.

Let polyF := s :: tl rF.
Let Fv j := peval polyF (of_nat j).
Let Zr i := set_nth 0 0 (nth (i - 1) rZ []).
Let Br i := set_nth 0 (Fv i) (Zr i).

Lemma client_polyF_eq : client_polyF s rF = polyF.
Proof. unfold client_polyF, polyF. destruct rF; [simpl in LF; lia|reflexivity]. Qed.

Lemma row_length i : (1 <= i <= 2 * F + 1)%nat -> length (nth (i - 1) rZ []) = (F + 1)%nat.
Proof. intros H. rewrite Forall_forall in LZ2. apply LZ2, nth_In. lia. Qed.

Lemma Zr_length i : (1 <= i <= 2 * F + 1)%nat -> length (Zr i) = (F + 1)%nat.
Proof. intros H. unfold Zr. rewrite length_set_nth. apply row_length. exact H. Qed.

Lemma Br_length i : (1 <= i <= 2 * F + 1)%nat -> length (Br i) = (F + 1)%nat.
Proof. intros H. unfold Br. rewrite length_set_nth. apply Zr_length. exact H. Qed.

Lemma nonempty {A} (l : list A) n : length l = (n + 1)%nat -> l <> [].
Proof. intros H E. rewrite E in H. simpl in H. lia. Qed.

Lemma Zr_0 i : (1 <= i <= 2 * F + 1)%nat -> peval (Zr i) 0 = 0.
Proof.
  intros H. rewrite peval_0. unfold Zr. rewrite nth_set_nth_same; [reflexivity|].
  rewrite row_length by exact H. lia.
Qed.

Lemma Br_eval i x : (1 <= i <= 2 * F + 1)%nat -> peval (Br i) x = Fv i + peval (Zr i) x.
Proof.
  intros H. unfold Br. pose proof (Zr_length i H) as L.
  assert (Z0 : nth 0 (Zr i) 0 = 0) by (rewrite <- peval_0; apply Zr_0; exact H).
  destruct (Zr i) as [|a z]; [simpl in L; lia|]. cbn [set_nth peval]. simpl in Z0. rewrite Z0. ring.
Qed.

Lemma Br_form i : (1 <= i <= 2 * F + 1)%nat -> Br i = Fv i :: tl (nth (i - 1) rZ []).
Proof.
  intros H. unfold Br, Zr. pose proof (row_length i H) as L.
  destruct (nth (i - 1) rZ []) as [|a z]; [simpl in L; lia|]. reflexivity.
Qed.

(** The contents of the proof pi and the messages. *)
Let cc i := mkPC i (mkG1 (peval (Br i) s0)) (mkG1 (peval (Zr i) s0))
               (mkG1 (peval (fst (sdiv (Zr i) 0)) s0)) (mkG1 (Fv i)).
Let ww i j := mkG1 (peval (fst (sdiv (Br j) (of_nat i))) s0).
Let vv i j := peval (Br j) (of_nat i).

Lemma share_correct : Share cd ks N F s rF rZ =
  Ret (map (fun i => vss_msg cd F (mkG1 s) cc (vv i) (ww i)) (seq 1 N)).
Proof.
  unfold Share. rewrite client_polyF_eq.
  assert (EF : client_FVals F polyF = 0 :: map Fv (seq 1 (2 * F + 1))).
  { unfold client_FVals. f_equal. apply map_ext. intros j. apply EvalPolyAt_correct. }
  rewrite EF.
  assert (EZ : client_ZList F rZ = [] :: map Zr (seq 1 (2 * F + 1))) by reflexivity.
  rewrite EZ.
  assert (EB : client_BList F (0 :: map Fv (seq 1 (2 * F + 1))) ([] :: map Zr (seq 1 (2 * F + 1)))
     = [] :: map Br (seq 1 (2 * F + 1))).
  { unfold client_BList. f_equal. apply map_ext_in. intros i Hi. apply in_seq in Hi.
    rewrite !nth_cons_seq by lia. reflexivity. }
  rewrite EB. unfold client_contents.
  rewrite (gomap_ret _ cc).
  2:{ intros i Hi. apply in_seq in Hi. rewrite !nth_cons_seq by lia.
      rewrite !(commit_correct s0 (F + 1) ks HS) by (rewrite ?Zr_length, ?Br_length by lia; lia).
      cbn [bind].
      rewrite (proof_correct s0 (F + 1) ks HS).
      - cbn [bind]. rewrite MulG1_gen. reflexivity.
      - apply (nonempty _ F), Zr_length. lia.
      - rewrite Zr_length by lia. lia. }
  cbn [bind]. apply gomap_ret. intros i Hi. unfold client_witnesses.
  rewrite (gomap_ret _ (ww i)).
  2:{ intros j Hj. apply in_seq in Hj. rewrite nth_cons_seq by lia.
      rewrite (proof_correct s0 (F + 1) ks HS).
      - reflexivity.
      - apply (nonempty _ F), Br_length. lia.
      - rewrite Br_length by lia. lia. }
  cbn [bind]. rewrite MulG1_gen.
  replace (client_values F ([] :: map Br (seq 1 (2 * F + 1))) i)
    with (0 :: map (vv i) (seq 1 (2 * F + 1))).
  2:{ unfold client_values. f_equal. apply map_ext_in. intros j Hj. apply in_seq in Hj.
      rewrite nth_cons_seq by lia. unfold vv. symmetry. apply EvalPolyAt_correct. }
  apply encapsulate_correct.
Qed.

(** The checks of a receiver hold. *)
Lemma honest_checks i j : (1 <= j <= 2 * F + 1)%nat ->
  pc_j (cc j) = j /\
  CheckProofSingle ks (CZj (cc j)) (WZ0 (cc j)) 0 0 = Ret true /\
  CBj (cc j) = AddG1 (CZj (cc j)) (gFj (cc j)) /\
  CheckProofSingle ks (CBj (cc j)) (ww i j) (of_nat i) (vv i j) = Ret true.
Proof.
  intros Hj. unfold cc, ww, vv. cbn [pc_j CBj CZj WZ0 gFj]. split; [reflexivity|]. split; [|split].
  - apply (check_iff s0 (F + 1) ks HS); [lia|]. cbn [dlog1].
    rewrite (sdiv_eval (Zr j) 0 s0) at 1. rewrite Zr_0 by exact Hj. ring.
  - apply G1_ext. cbn [AddG1 dlog1]. rewrite Br_eval by exact Hj. ring.
  - apply (check_iff s0 (F + 1) ks HS); [lia|]. cbn [dlog1].
    rewrite (sdiv_eval (Br j) (of_nat i) s0) at 1. ring.
Qed.

(** The bivariate polynomial of the client. *)
Lemma client_biv : exists B, bdeg F (2 * F) B /\ beval B 0 0 = s /\
  (forall y, beval B 0 y = peval (s :: tl rF) y) /\
  (forall j, (1 <= j <= 2 * F + 1)%nat -> secy B (of_nat j) = Br j).
Proof.
  destruct (biv_interp F (2 * F) (map of_nat (seq 1 (2 * F + 1))) (fun i => Br (i + 1))) as (B & HB & HI).
  - apply NoDup_of_nat_from. lia.
  - rewrite map_length. apply seq_length.
  - intros i Hi. rewrite Br_length by lia. lia.
  - assert (S1 : forall j, (1 <= j <= 2 * F + 1)%nat -> secy B (of_nat j) = Br j).
    { intros j Hj. specialize (HI (j - 1)%nat ltac:(lia)).
      rewrite nth_map_seq in HI by lia. replace (1 + (j - 1))%nat with j in HI by lia.
      replace (j - 1 + 1)%nat with j in HI by lia. exact HI. }
    assert (S2 : forall y, beval B 0 y = peval polyF y).
    { intros y. rewrite <- peval_secx. f_equal.
      apply (poly_unique_list (map of_nat (seq 1 (2 * F + 1)))).
      - apply NoDup_of_nat_from. lia.
      - rewrite length_secx. destruct HB as (L & _). unfold polyF.
        destruct rF; simpl in LF |- *; lia.
      - rewrite length_secx, map_length, seq_length. destruct HB as (L & _). lia.
      - intros x Hx. apply in_map_iff in Hx. destruct Hx as (j & <- & Hj). apply in_seq in Hj.
        rewrite peval_secx, <- peval_secy, S1 by lia. rewrite Br_eval, Zr_0 by lia. unfold Fv. ring. }
    exists B. split; [exact HB|]. split; [|split; [exact S2|exact S1]].
    rewrite S2, peval_0. reflexivity.
Qed.

Lemma receive_honest p i B gs : codec_ok cd -> party_wf s0 p -> p_F p = F -> p_KZG p = ks ->
  i = (p_PID p + 1)%nat -> bdeg F (2 * F) B ->
  (forall j, (1 <= j <= 2 * F + 1)%nat -> secy B (of_nat j) = Br j) ->
  exists p', VSSShareReceive cd p (vss_msg cd F gs cc (vv i) (ww i)) = Ret (true, p') /\
    holds_full_share B p' /\ party_wf s0 p' /\ Gs (p_Proof p') = gs /\
    p_N p' = p_N p /\ p_F p' = F /\ p_PID p' = p_PID p /\ p_KZG p' = ks /\
    (forall j, (1 <= j <= 2 * F + 1)%nat -> nth_error (PiContents (p_Proof p')) j = Some (cc j)).
Proof.
  intros HC HW EF EK Ei HB HBr.
  destruct (receive_good s0 cd p gs cc (vv i) (ww i) HC HW) as (q & ER & LQ & VQ).
  { rewrite EF, EK. intros j Hj. subst i. apply honest_checks. exact Hj. }
  rewrite EF in *. eexists. split; [exact ER|].
  destruct HW as (W1 & W2 & W3 & W4 & W5 & W6 & W7 & W8 & W9). rewrite EF in *.
  assert (CN : forall j, (1 <= j <= 2 * F + 1)%nat ->
    nth_error (firstn 1 (PiContents (p_Proof p)) ++ map cc (seq 1 (2 * F + 1))) j = Some (cc j)).
  { intros j Hj. destruct (PiContents (p_Proof p)) as [|h t]; [simpl in W6; lia|].
    cbn [firstn app]. destruct j as [|j]; [lia|]. cbn [nth_error].
    rewrite nth_error_map, (nth_error_nth' (seq 1 (2 * F + 1)) O) by (rewrite seq_length; lia).
    rewrite seq_nth by lia. reflexivity. }
  assert (EQ : q = secx B (of_nat i)).
  { apply (poly_unique_list (map of_nat (seq 1 (2 * F + 1)))).
    - apply NoDup_of_nat_from. lia.
    - rewrite length_secx. destruct HB. lia.
    - rewrite map_length, seq_length. lia.
    - intros x Hx. apply in_map_iff in Hx. destruct Hx as (j & <- & Hj). apply in_seq in Hj.
      rewrite VQ by lia. rewrite peval_secx, <- peval_secy, HBr by lia. reflexivity. }
  split; [|split; [|repeat split; try reflexivity; auto]].
  - unfold holds_full_share.
    cbn [p_F p_fullShare p_PID p_Proof PiContents p_KZG p_witnessIndexes p_witness].
    split; [exact HB|]. split; [rewrite EQ, Ei; reflexivity|]. split.
    { intros j Hj. exists (cc j). split; [apply CN; exact Hj|].
      rewrite EK, HBr by exact Hj. apply (commit_correct s0 (F + 1) ks HS).
      rewrite Br_length by exact Hj. lia. }
    split; [rewrite map_length; apply seq_length|].
    split; [apply NoDup_of_nat_from; lia|].
    assert (G : forall l, (forall j, In j l -> (1 <= j <= 2 * F + 1)%nat) ->
      Forall2 (fun k w => ComputeProofSingle (p_KZG p) (secy B k) (of_nat (p_PID p + 1)) = Ret w)
        (map of_nat l) (map (ww i) l)).
    { induction l as [|j l IH]; intros Hl; cbn [map]; constructor.
      - rewrite EK, HBr by (apply Hl; left; reflexivity).
        rewrite (proof_correct s0 (F + 1) ks HS).
        + rewrite <- Ei. reflexivity.
        + apply (nonempty _ F), Br_length, Hl. left. reflexivity.
        + rewrite Br_length by (apply Hl; left; reflexivity). lia.
      - apply IH. intros j' Hj'. apply Hl. right. exact Hj'. }
    apply G. intros j Hj. apply in_seq in Hj. lia.
  - unfold party_wf. cbn [p_N p_F p_PID p_Proof PiContents p_KZG p_tab p_fullShare p_witness p_witnessIndexes].
    repeat split; auto.
    + rewrite app_length, map_length, seq_length.
      destruct (PiContents (p_Proof p)) as [|h t]; simpl in W6 |- *; lia.
    + rewrite map_length. apply seq_length.
    + rewrite map_length. apply seq_length.
Qed.

End Client.

(** ** What acceptance implies *)

Lemma bind_ret {A B} (m : go A) (k : A -> go B) b : bind m k = Ret b -> exists a, m = Ret a /\ k a = Ret b.
Proof. destruct m as [a| | |]; cbn [bind]; intros H; try discriminate. eauto. Qed.

Lemma upd_inv {A} (l : list A) i a l' : upd l i a = Ret l' -> (i < length l)%nat /\ l' = set_nth i a l.
Proof.
  unfold upd. destruct (Nat.ltb_spec i (length l)); intros E; [|discriminate].
  injection E as <-. auto.
Qed.

Lemma idx_inv {A} (l : list A) i a : idx l i = Ret a -> nth_error l i = Some a.
Proof. unfold idx. destruct (nth_error l i); intros E; [|discriminate]. congruence. Qed.

Lemma ReadG1_inv cd b g : ReadG1 cd b = Ret g -> FromCompressedG1 cd b = Some g.
Proof. unfold ReadG1. destruct (FromCompressedG1 cd b); intros E; [|discriminate]. congruence. Qed.

(** The content of a message as the receiver decodes it. *)
Definition decodes_content (cd : g1codec) (m : PiContentMsg) (c : PiContent) : Prop :=
  FromCompressedG1 cd (m_CBj m) = Some (CBj c) /\ FromCompressedG1 cd (m_CZj m) = Some (CZj c) /\
  FromCompressedG1 cd (m_WZ0 m) = Some (WZ0 c) /\ FromCompressedG1 cd (m_GFj m) = Some (gFj c).

Lemma set_from_inv cd F m pi : SetFromVSSMessage cd (Pi_Init F) m F = Ret pi ->
  exists pm, m = Some pm /\ FromCompressedG1 cd (m_Gs pm) = Some (Gs pi) /\
    length (PiContents pi) = (2 * F + 2)%nat /\
    forall j, (1 <= j <= 2 * F + 1)%nat ->
      exists mc, nth_error (m_PiContents pm) j = Some mc /\ decodes_content cd mc (nth j (PiContents pi) pc0).
Proof.
  destruct m as [pm|]; cbn [SetFromVSSMessage]; [|discriminate]. intros H.
  apply bind_ret in H. destruct H as (gs & E1 & H). apply ReadG1_inv in E1.
  apply bind_ret in H. destruct H as (cs & E2 & H). injection H as <-. cbn [Gs PiContents].
  exists pm. split; [reflexivity|]. split; [exact E1|].
  apply (goloop_ret_inv (fun i l => length l = (2 * F + 2)%nat /\
    forall j, (1 <= j < i)%nat ->
      exists mc, nth_error (m_PiContents pm) j = Some mc /\ decodes_content cd mc (nth j l pc0))) in E2.
  - destruct E2 as (L & G). split; [exact L|]. intros j Hj. apply G. lia.
  - split; [unfold Pi_Init; cbn [PiContents]; rewrite map_length; apply seq_length|]. intros j Hj. lia.
  - intros i a b Hi (L & G) H.
    apply bind_ret in H. destruct H as (c & Ec & H). apply idx_inv in Ec.
    apply bind_ret in H. destruct H as (cb & Ecb & H). apply ReadG1_inv in Ecb.
    apply bind_ret in H. destruct H as (cz & Ecz & H). apply ReadG1_inv in Ecz.
    apply bind_ret in H. destruct H as (w0 & Ew & H). apply ReadG1_inv in Ew.
    apply bind_ret in H. destruct H as (gf & Eg & H). apply ReadG1_inv in Eg.
    apply upd_inv in H. destruct H as (Hl & ->).
    split; [rewrite length_set_nth; exact L|]. intros j Hj.
    destruct (Nat.eq_dec j i) as [->|Ne].
    + exists c. split; [exact Ec|]. rewrite nth_set_nth_same by exact Hl.
      unfold decodes_content. cbn [CBj CZj WZ0 gFj]. auto.
    + rewrite nth_set_nth_other by lia. apply G. lia.
Qed.

Lemma values_inv cd F m values wits :
  goloop 1 (2 * F + 1)
    (fun st j =>
       b <- idx (m_BijList m) j ;;
       values <- upd (fst st) j (FrFrom32_into (nth j (fst st) 0) (to32 b)) ;;
       wb <- idx (m_WBijList m) j ;;
       w <- ReadG1 cd wb ;;
       wits <- upd (snd st) j w ;;
       Ret (values, wits)) (repeat 0 (2 * F + 2), repeat ZeroG1 (2 * F + 2)) = Ret (values, wits) ->
  length values = (2 * F + 2)%nat /\ length wits = (2 * F + 2)%nat /\
  forall j, (1 <= j <= 2 * F + 1)%nat ->
    (exists b, nth_error (m_BijList m) j = Some b /\ nth j values 0 = FrFrom32_into 0 (to32 b)) /\
    (exists wb, nth_error (m_WBijList m) j = Some wb /\ FromCompressedG1 cd wb = Some (nth j wits ZeroG1)).
Proof.
  intros E.
  apply (goloop_ret_inv (fun i st => length (fst st) = (2 * F + 2)%nat /\ length (snd st) = (2 * F + 2)%nat /\
    (forall j, (i <= j)%nat -> nth j (fst st) 0 = 0) /\
    forall j, (1 <= j < i)%nat ->
    (exists b, nth_error (m_BijList m) j = Some b /\ nth j (fst st) 0 = FrFrom32_into 0 (to32 b)) /\
    (exists wb, nth_error (m_WBijList m) j = Some wb /\ FromCompressedG1 cd wb = Some (nth j (snd st) ZeroG1)))) in E.
  - cbn [fst snd] in E. destruct E as (L1 & L2 & _ & G). repeat split; auto; intros; apply G; lia.
  - cbn [fst snd]. rewrite !repeat_length. repeat split; auto.
    + intros j _. apply nth_repeat0.
    + lia.
    + lia.
  - intros i (v, w) (v', w') Hi (L1 & L2 & Z & G) H. cbn [fst snd] in *.
    apply bind_ret in H. destruct H as (b & Eb & H). apply idx_inv in Eb.
    apply bind_ret in H. destruct H as (v1 & Ev & H). apply upd_inv in Ev. destruct Ev as (Hl & ->).
    apply bind_ret in H. destruct H as (wb & Ewb & H). apply idx_inv in Ewb.
    apply bind_ret in H. destruct H as (w1 & Ew & H). apply ReadG1_inv in Ew.
    apply bind_ret in H. destruct H as (w2 & Ew2 & H). apply upd_inv in Ew2. destruct Ew2 as (Hl2 & ->).
    injection H as <- <-. rewrite !length_set_nth. rewrite Z by lia.
    split; [exact L1|]. split; [exact L2|]. split.
    + intros j Hj. rewrite nth_set_nth_other by lia. apply Z. lia.
    + intros j Hj. destruct (Nat.eq_dec j i) as [->|Ne].
      * rewrite !nth_set_nth_same by assumption. split; eauto.
      * rewrite !nth_set_nth_other by lia. apply G. lia.
Qed.

Lemma list_as_map {A} d (l : list A) n : length l = S n ->
  l = nth 0 l d :: map (fun j => nth j l d) (seq 1 n).
Proof.
  intros L. apply (list_ext d).
  - simpl. rewrite map_length, seq_length. exact L.
  - intros i Hi. destruct i as [|i]; [reflexivity|]. cbn [nth].
    rewrite nth_map_seq by lia. reflexivity.
Qed.

Lemma accept_inv s cd p m p' : party_wf s p -> VSSShareReceive cd p m = Ret (true, p') ->
  exists pm, m_Pi m = Some pm /\ FromCompressedG1 cd (m_Gs pm) = Some (Gs (p_Proof p')) /\
    length (p_fullShare p') = (2 * p_F p + 1)%nat /\ p_PID p' = p_PID p /\ p_KZG p' = p_KZG p /\
    forall j, (1 <= j <= 2 * p_F p + 1)%nat ->
      exists mc c b wb w,
        nth_error (m_PiContents pm) j = Some mc /\ nth_error (PiContents (p_Proof p')) j = Some c /\
        decodes_content cd mc c /\
        nth_error (m_BijList m) j = Some b /\ peval (p_fullShare p') (of_nat j) = FrFrom32_into 0 (to32 b) /\
        nth_error (m_WBijList m) j = Some wb /\ FromCompressedG1 cd wb = Some w /\
        nth_error (p_witness p') (j - 1) = Some w /\
        CheckProofSingle (p_KZG p) (CZj c) (WZ0 c) 0 0 = Ret true /\
        CBj c = AddG1 (CZj c) (gFj c) /\
        CheckProofSingle (p_KZG p) (CBj c) w (of_nat (p_PID p + 1)) (peval (p_fullShare p') (of_nat j)) = Ret true.
Proof.
  intros HW H. pose proof HW as (HS & HT & HF & HN & HR & LP & LFS & LW & LWI).
  unfold VSSShareReceive in H. set (F := p_F p) in *.
  apply bind_ret in H. destruct H as (pi & E1 & H).
  apply bind_ret in H. destruct H as ((values, wits) & E2 & H).
  apply set_from_inv in E1. destruct E1 as (pm & Epm & EGs & LPi & HPi).
  apply values_inv in E2. destruct E2 as (LV & LWt & HV).
  apply bind_ret in H. destruct H as (b & E3 & H).
  destruct (verify_spec s p values wits pi HW LPi LV LWt) as (b' & E3' & HB). rewrite E3 in E3'.
  injection E3' as <-.
  destruct b; [|injection H as H; discriminate].
  apply bind_ret in H. destruct H as (proof & E4 & H).
  apply bind_ret in H. destruct H as ((wit, witIdx) & E5 & H).
  apply bind_ret in H. destruct H as (kv & E6 & H).
  apply bind_ret in H. destruct H as (q & E7 & H). injection H as H. subst p'.
  cbn [p_Proof p_fullShare p_PID p_KZG p_witness].
  set (c := fun j => nth j (PiContents pi) pc0). set (v := fun j => nth j values 0).
  set (w := fun j => nth j wits ZeroG1).
  assert (Epi : pi = mkPi (Gs pi) (c O :: map c (seq 1 (2 * F + 1)))).
  { destruct pi as (g & cs). cbn [Gs PiContents] in *. f_equal. apply (list_as_map pc0). lia. }
  assert (Ev : values = v O :: map v (seq 1 (2 * F + 1))) by (apply (list_as_map 0); lia).
  assert (Ew : wits = w O :: map w (seq 1 (2 * F + 1))) by (apply (list_as_map ZeroG1); lia).
  rewrite Epi in E4. rewrite Pi_Set_correct in E4 by exact LP. injection E4 as <-.
  rewrite (wit_loop wits F (w O) w _ _ Ew LW LWI) in E5. injection E5 as <- <-.
  rewrite (gomap_ret _ (fun j => v (j + 1)%nat)) in E6.
  2:{ intros j Hj. apply in_seq in Hj. unfold v. apply idx_nth. lia. }
  injection E6 as <-.
  destruct (LagrangeInterpolate_correct (2 * F) (map (fun j => of_nat (j + 1)) (seq 0 (2 * F + 1)))
              (map (fun j => v (j + 1)%nat) (seq 0 (2 * F + 1)))) as (q' & EQ & LQ & VQ & _).
  { rewrite firstn_all2 by (rewrite map_length, seq_length; lia). apply known_nodup. lia. }
  { rewrite map_length, seq_length. lia. }
  { rewrite map_length, seq_length. lia. }
  change (F + (F + 0))%nat with (2 * F)%nat in E7. rewrite EQ in E7. injection E7 as <-.
  rewrite LFS, LQ. rewrite (firstn_all2 q') by lia. rewrite skipn_all2 by lia. rewrite app_nil_r.
  exists pm. split; [exact Epm|]. cbn [Gs PiContents]. split; [exact EGs|]. split; [exact LQ|].
  split; [reflexivity|]. split; [reflexivity|]. intros j Hj.
  assert (VQj : peval q' (of_nat j) = v j).
  { specialize (VQ (j - 1)%nat ltac:(lia)). rewrite !nth_map_seq in VQ by lia.
    replace (0 + (j - 1) + 1)%nat with j in VQ by lia. exact VQ. }
  destruct (HPi j Hj) as (mc & Emc & Dmc). destruct (HV j Hj) as ((bb & Eb & Evb) & (wb & Ewb & Dwb)).
  destruct (proj1 HB eq_refl j Hj) as (C1 & C2 & C3).
  exists mc, (c j), bb, wb, (w j). rewrite VQj.
  split; [exact Emc|]. split.
  { destruct (PiContents (p_Proof p)) as [|h t]; [simpl in LP; lia|]. cbn [firstn app].
    destruct j as [|j]; [lia|]. cbn [nth_error].
    rewrite nth_error_map, (nth_error_nth' (seq 1 (2 * F + 1)) O) by (rewrite seq_length; lia).
    rewrite seq_nth by lia. reflexivity. }
  split; [exact Dmc|]. split; [exact Eb|]. split; [exact Evb|]. split; [exact Ewb|].
  split; [exact Dwb|]. split.
  { rewrite nth_error_map, (nth_error_nth' (seq 1 (2 * F + 1)) O) by (rewrite seq_length; lia).
    rewrite seq_nth by lia. cbn [option_map]. do 2 f_equal. lia. }
  auto.
Qed.

(** ** Reconstruction *)

Lemma interp_peval d xs p : NoDup xs -> length xs = (d + 1)%nat -> (length p <= d + 1)%nat ->
  exists q, LagrangeInterpolate d xs (map (peval p) xs) = Ret q /\ forall x, peval q x = peval p x.
Proof.
  intros ND LX LP.
  destruct (LagrangeInterpolate_correct d xs (map (peval p) xs)) as (q & E & LQ & VQ & U).
  - rewrite firstn_all2 by lia. exact ND.
  - lia.
  - rewrite map_length. lia.
  - exists q. split; [exact E|]. intros x. apply peval_ext. intros j. symmetry. apply U; [exact LP|].
    intros i Hi. rewrite (nth_indep (map (peval p) xs) 0 (peval p 0)) by (rewrite map_length; lia).
    rewrite map_nth. reflexivity.
Qed.

Lemma reconstruct_full F dy B xs : bdeg F dy B -> NoDup xs -> length xs = (F + 1)%nat ->
  exists q, LagrangeInterpolate F xs (map (fun x => EvalPolyAt (secx B x) 0) xs) = Ret q /\
    EvalPolyAt q 0 = beval B 0 0.
Proof.
  intros HB ND L.
  assert (E : map (fun x => EvalPolyAt (secx B x) 0) xs = map (peval (secy B 0)) xs).
  { apply map_ext. intros x. rewrite EvalPolyAt_correct, peval_secx, peval_secy. reflexivity. }
  rewrite E.
  destruct (interp_peval F xs (secy B 0) ND L) as (q & EQ & V).
  - rewrite (length_secy F dy) by exact HB. lia.
  - exists q. split; [exact EQ|]. rewrite EvalPolyAt_correct, V, peval_secy. reflexivity.
Qed.

Lemma reconstruct_reduced dx d B ys : bdeg dx d B -> NoDup ys -> length ys = (d + 1)%nat ->
  exists q, LagrangeInterpolate d ys (map (fun y => EvalPolyAt (secy B y) 0) ys) = Ret q /\
    EvalPolyAt q 0 = beval B 0 0.
Proof.
  intros HB ND L.
  assert (E : map (fun y => EvalPolyAt (secy B y) 0) ys = map (peval (secx B 0)) ys).
  { apply map_ext. intros y. rewrite EvalPolyAt_correct, peval_secx, peval_secy. reflexivity. }
  rewrite E.
  destruct (interp_peval d ys (secx B 0) ND L) as (q & EQ & V).
  - rewrite length_secx. destruct HB. lia.
  - exists q. split; [exact EQ|]. rewrite EvalPolyAt_correct, V. reflexivity.
Qed.

(** ** Secrecy of the values sent by the client *)

(** Randomness that gives the parties in [xs] the same values for the secret s + t. *)
Definition shift_rand (F : nat) (xs : list Fr) (t : Fr) (rZ : list (list Fr)) : list (list Fr) :=
  map (fun row => padd row (pscale (t * finv (prodlin xs 0)) (plin xs ++ repeat 0 (F - length xs)))) rZ.

Lemma shift_rand_length F xs t rZ : length (shift_rand F xs t rZ) = length rZ.
Proof. apply map_length. Qed.

Lemma shift_rand_rows F xs t rZ : (length xs <= F)%nat ->
  Forall (fun row => length row = (F + 1)%nat) rZ ->
  Forall (fun row => length row = (F + 1)%nat) (shift_rand F xs t rZ).
Proof.
  intros L H. apply Forall_map. eapply Forall_impl; [|exact H]. cbn beta. intros row Lr.
  rewrite length_padd, length_pscale, app_length, length_plin, repeat_length. lia.
Qed.

Lemma shift_rand_inv F xs t rZ : (length xs <= F)%nat ->
  Forall (fun row => length row = (F + 1)%nat) rZ ->
  shift_rand F xs (0 - t) (shift_rand F xs t rZ) = rZ.
Proof.
  intros L H. unfold shift_rand. rewrite map_map. rewrite <- (map_id rZ) at 2.
  apply map_ext_in. intros row Hr. rewrite Forall_forall in H. specialize (H row Hr).
  apply (list_ext 0).
  - rewrite !length_padd, !length_pscale, !app_length, !length_plin, !repeat_length. lia.
  - intros i _. rewrite !nth_padd, !nth_pscale. ring.
Qed.

Lemma client_BList_eval F s rF rZ j x : length rF = (2 * F + 1)%nat -> length rZ = (2 * F + 1)%nat ->
  Forall (fun row => length row = (F + 1)%nat) rZ -> (1 <= j <= 2 * F + 1)%nat ->
  EvalPolyAt (nth j (client_BList F (client_FVals F (client_polyF s rF)) (client_ZList F rZ)) []) x =
  peval (s :: tl rF) (of_nat j) + (peval (nth (j - 1) rZ []) x - nth 0 (nth (j - 1) rZ []) 0).
Proof.
  intros LF LZ LZ2 Hj. rewrite EvalPolyAt_correct.
  unfold client_BList, client_FVals, client_ZList.
  rewrite !nth_cons_seq by exact Hj. rewrite EvalPolyAt_correct.
  replace (client_polyF s rF) with (s :: tl rF) by (destruct rF; [simpl in LF; lia|reflexivity]).
  rewrite Forall_forall in LZ2. specialize (LZ2 (nth (j - 1) rZ []) ltac:(apply nth_In; lia)).
  destruct (nth (j - 1) rZ []) as [|a z]; [simpl in LZ2; lia|]. cbn [set_nth]. cbn [peval nth]. ring.
Qed.

Lemma same_values F s t rF rZ xs i : length rF = (2 * F + 1)%nat -> length rZ = (2 * F + 1)%nat ->
  Forall (fun row => length row = (F + 1)%nat) rZ -> (length xs <= F)%nat -> ~ In 0 xs ->
  In (of_nat i) xs ->
  client_values F (client_BList F (client_FVals F (client_polyF (s + t) rF))
                     (client_ZList F (shift_rand F xs t rZ))) i =
  client_values F (client_BList F (client_FVals F (client_polyF s rF)) (client_ZList F rZ)) i.
Proof.
  intros LF LZ LZ2 LX NZ HI. unfold client_values. f_equal. apply map_ext_in. intros j Hj.
  apply in_seq in Hj.
  rewrite !client_BList_eval; try assumption; try lia.
  2:{ rewrite shift_rand_length. exact LZ. }
  2:{ apply shift_rand_rows; assumption. }
  unfold shift_rand at 1 2.
  rewrite (nth_indep _ [] (padd [] (pscale (t * finv (prodlin xs 0)) (plin xs ++ repeat 0 (F - length xs)))))
    by (rewrite map_length; lia).
  rewrite map_nth with (f := fun row => padd row (pscale (t * finv (prodlin xs 0)) (plin xs ++ repeat 0 (F - length xs)))).
  rewrite nth_padd, nth_pscale, peval_padd, peval_pscale, peval_app, peval_repeat0, peval_plin.
  rewrite (prodlin_0 xs (of_nat i) HI).
  assert (E0 : nth 0 (plin xs ++ repeat 0 (F - length xs)) 0 = prodlin xs 0).
  { rewrite <- peval_0, peval_app, peval_repeat0, peval_plin. ring. }
  rewrite E0. pose proof (finv_r _ (prodlin_neq_0 xs 0 NZ)) as EI.
  cbn [peval].
  replace (t * finv (prodlin xs 0) * prodlin xs 0) with (t * (prodlin xs 0 * finv (prodlin xs 0))) by ring.
  rewrite EI. ring.
Qed.
