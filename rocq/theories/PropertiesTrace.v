(** Further theorems: what a published commitment of the secret is worth (C18), and what a rejected commit
    message leaves behind (C24), for all messages. *)

Require Import ZArith List Lia Bool Arith.
From Verif Require Import Prime Fr Bytes CodecModel CodecProofs GoBase Poly Biv BivProofs PolyModel PolyProofs
  GroupModel KzgModel KzgProofs PartyModel PartySpec VssModel VssProofs VssProofs2 ReduceModel ReduceProofs
  PropertiesVss PropertiesReduce ProacModel ProacProofs.
Import ListNotations.
Local Open Scope F_scope.

(** In an accepted dealing the commitment of the secret may be replaced by any point of the group: the
    dealing is accepted all the same, the party gets the same share, witnesses and commitments, and
    believes in the new commitment of the secret. *)
Theorem c18_gs : forall cd p cs gs gs' g' Bs Ws p', FromCompressedG1 cd gs' = Some g' ->
  VSSShareReceive cd p (mkVSS (Some (mkPiM gs cs)) Bs Ws) = Ret (true, p') ->
  exists p'', VSSShareReceive cd p (mkVSS (Some (mkPiM gs' cs)) Bs Ws) = Ret (true, p'') /\
    Gs (p_Proof p'') = g' /\ PiContents (p_Proof p'') = PiContents (p_Proof p') /\
    p_fullShare p'' = p_fullShare p' /\ p_witness p'' = p_witness p' /\ p_witnessIndexes p'' = p_witnessIndexes p'.
Proof.
  intros cd p cs gs gs' g' Bs Ws p' G H. unfold VSSShareReceive in *.
  cbn [m_Pi m_BijList m_WBijList] in *. unfold SetFromVSSMessage in *. cbn [m_Gs m_PiContents] in *.
  rewrite (ReadG1_ok _ _ _ G). cbn [bind].
  apply bind_ret in H. destruct H as (pi & E1 & H).
  apply bind_ret in E1. destruct E1 as (g & _ & E1).
  apply bind_ret in E1. destruct E1 as (contents & E1 & E2). injection E2 as <-. rewrite E1. cbn [bind].
  apply bind_ret in H. destruct H as ((values, wits) & E2 & H). rewrite E2. cbn [bind].
  apply bind_ret in H. destruct H as (b & E3 & H).
  unfold VerifyVSSSendReceived in *. cbn [PiContents] in *. rewrite E3. cbn [bind].
  destruct b; [|discriminate].
  apply bind_ret in H. destruct H as (proof & E4 & H).
  unfold Pi_Set in *. cbn [PiContents Gs] in *.
  apply bind_ret in E4. destruct E4 as (pcs & E4 & E5). injection E5 as <-. rewrite E4. cbn [bind].
  apply bind_ret in H. destruct H as ((wit, witIdx) & E5 & H). rewrite E5. cbn [bind].
  apply bind_ret in H. destruct H as (kv & E6 & H). rewrite E6. cbn [bind].
  apply bind_ret in H. destruct H as (share & E7 & H). rewrite E7. cbn [bind].
  injection H as <-. eexists. split; [reflexivity|]. repeat split; reflexivity.
Qed.
Print Assumptions c18_gs.

(** There are accepted dealings with any other point in place of the commitment. *)
Example c18_gs_example : exists cd p cs gs gs' g' Bs Ws p', FromCompressedG1 cd gs' = Some g' /\ g' <> Gs (p_Proof p') /\
  VSSShareReceive cd p (mkVSS (Some (mkPiM gs cs)) Bs Ws) = Ret (true, p').
Proof.
  destruct c18_gs_refuted as (cd & N & F & pid & p & m & p' & f & HC & _ & _ & _ & E & _ & _ & NE).
  destruct m as [[[gs cs]|] Bs Ws]; [|discriminate].
  exists cd, p, cs, gs, (ToCompressedG1 cd (MulG1 GenG1 (peval f 0))), (MulG1 GenG1 (peval f 0)), Bs, Ws, p'.
  split; [apply HC|]. split; [intros K; apply NE; symmetry; exact K|exact E].
Qed.

(** What a rejected commit message leaves: the commitments 0..2F are cleared, those after 2F+1 are as
    before, and the one at 2F+1 is the last one of the message if that one is in itself right, and
    otherwise what was there before. *)
Theorem c24_trace : forall cd s p row data row', party_wf s p -> length row = (p_N p + 1)%nat ->
  VerifyCommit cd p row data = Ret (false, row') ->
  (forall j, (j <= 2 * p_F p)%nat -> nth j row' ZeroG1 = ZeroG1) /\
  (forall j, (2 * p_F p + 1 < j)%nat -> nth j row' ZeroG1 = nth j row ZeroG1) /\
  exists m CB CZ wZ gF, nth_error data (2 * p_F p) = Some m /\
    FromCompressedG1 cd (m_CBj m) = Some CB /\ FromCompressedG1 cd (m_CZj m) = Some CZ /\
    FromCompressedG1 cd (m_WZ0 m) = Some wZ /\ FromCompressedG1 cd (m_GFj m) = Some gF /\
    let right_ := CB = AddG1 CZ gF /\ CheckProofSingle (p_KZG p) CZ wZ 0 0 = Ret true in
    (right_ -> nth (2 * p_F p + 1) row' ZeroG1 = CB) /\
    (~ right_ -> nth (2 * p_F p + 1) row' ZeroG1 = nth (2 * p_F p + 1) row ZeroG1).
Proof.
  intros cd s p row data row' W LR E.
  destruct (verify_commit_decodes cd p data row _ E) as (c & D).
  destruct (verify_commit_spec cd s p W data c row D LR) as (b & row2 & E2 & _ & _ & _ & HF).
  rewrite E in E2. injection E2 as <- <-. specialize (HF eq_refl).
  split; [|split].
  - intros j Hj. rewrite HF. rewrite (proj2 (Nat.ltb_lt _ _)) by lia. reflexivity.
  - intros j Hj. rewrite HF. rewrite (proj2 (Nat.ltb_ge _ _)) by lia. rewrite (proj2 (Nat.eqb_neq _ _)) by lia. reflexivity.
  - destruct (D (2 * p_F p + 1)%nat ltac:(lia)) as (m & Em & D1 & D2 & D3 & D4).
    replace (2 * p_F p + 1 - 1)%nat with (2 * p_F p)%nat in Em by lia.
    exists m, (CBj (c (2 * p_F p + 1)%nat)), (CZj (c (2 * p_F p + 1)%nat)), (WZ0 (c (2 * p_F p + 1)%nat)), (gFj (c (2 * p_F p + 1)%nat)).
    split; [exact Em|]. split; [exact D1|]. split; [exact D2|]. split; [exact D3|]. split; [exact D4|].
    rewrite HF, Nat.ltb_irrefl, Nat.eqb_refl. cbv zeta.
    destruct (good_dec s p W c (2 * p_F p + 1)) as [G|G]; split; intros R; try reflexivity; contradiction.
Qed.
Print Assumptions c24_trace.
