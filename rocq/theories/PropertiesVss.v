(** Headline theorems: sharing (C17-C19, C51). *)

Require Import ZArith List Lia Bool Arith.
From Verif Require Import Prime Fr Bytes CodecModel CodecProofs GoBase Poly Biv BivProofs PolyModel PolyProofs
  GroupModel KzgModel KzgProofs PartyModel PartySpec VssModel VssProofs VssProofs2.
Import ListNotations.
Local Open Scope F_scope.

(** A codec for the examples: a point is written as its logarithm. *)
Definition demo_codec : g1codec :=
  mkCodec (fun g => FrTo32 (dlog1 g)) (fun b => option_map mkG1 (FrFrom32 b)).

Example demo_codec_ok : codec_ok demo_codec.
Proof.
  intros g. unfold demo_codec. cbn [ToCompressedG1 FromCompressedG1].
  rewrite FrFrom32_FrTo32. destruct g. reflexivity.
Qed.

(** ** C17 Every party accepts the honest dealer *)

Theorem c17_honest_dealer : forall cd N F s rF rZ, codec_ok cd ->
  (1 <= F)%nat -> (3 * F + 1 <= N)%nat -> (Z.of_nat (N + 2) <= r)%Z ->
  length rF = (2 * F + 1)%nat -> length rZ = (2 * F + 1)%nat ->
  Forall (fun row => length row = (F + 1)%nat) rZ ->
  exists ks msgs B,
    party_setup F = Ret ks /\ Share cd ks N F s rF rZ = Ret msgs /\ length msgs = N /\
    (* the polynomial shared: F(y) = B(0,y) and B(x,j) have the client's random coefficients *)
    bdeg F (2 * F) B /\ beval B 0 0 = s /\ (forall y, beval B 0 y = peval (s :: tl rF) y) /\
    (forall j, (1 <= j <= 2 * F + 1)%nat ->
       secy B (of_nat j) = peval (s :: tl rF) (of_nat j) :: tl (nth (j - 1) rZ [])) /\
    forall i, (i < N)%nat ->
      exists p m p', NewHonestParty N F i = Ret p /\ nth_error msgs i = Some m /\
        VSSShareReceive cd p m = Ret (true, p') /\
        holds_full_share B p' /\ Gs (p_Proof p') = MulG1 GenG1 s /\
        forall j k w c, (1 <= j <= 2 * F + 1)%nat ->
          nth_error (PiContents (p_Proof p')) j = Some c ->
          nth_error (p_witnessIndexes p') (j - 1) = Some k -> nth_error (p_witness p') (j - 1) = Some w ->
          k = of_nat j /\
          CheckProofSingle ks (CBj c) w (of_nat (i + 1)) (EvalPolyAt (p_fullShare p') k) = Ret true.
Proof.
  intros cd N F s rF rZ HC HF HN HR LF LZ LZ2.
  assert (HS : party_setup F = Ret (mkKZG (g1powers party_secret (F + 1)) (g2powers party_secret (F + 1))))
    by apply setup_correct.
  set (ks := mkKZG _ _) in HS.
  destruct (client_biv 0 F s rF rZ HF ltac:(lia) LF LZ LZ2) as (B & HB & HS0 & HP & HBr).
  exists ks. eexists. exists B. split; [exact HS|].
  split; [apply (share_correct cd party_secret ks N F s rF rZ HS HF ltac:(lia) LF LZ LZ2)|].
  split; [rewrite map_length; apply seq_length|]. split; [exact HB|]. split; [exact HS0|]. split; [exact HP|].
  split.
  { intros j Hj. rewrite HBr by exact Hj. apply (Br_form F s rF rZ HF ltac:(lia) LF LZ LZ2). exact Hj. }
  intros i Hi. destruct (new_party N F i HF HN HR) as (p & EP & WP & PN & PF & PI).
  assert (EK : p_KZG p = ks).
  { destruct WP as (W & _). rewrite PF in W. unfold party_setup in HS. rewrite HS in W. congruence. }
  match goal with |- context [nth_error (map ?f (seq 1 N)) i] =>
    assert (EM : nth_error (map f (seq 1 N)) i = Some (f (i + 1)%nat)) end.
  { rewrite nth_error_map, (nth_error_nth' (seq 1 N) O) by (rewrite seq_length; lia).
    rewrite seq_nth by lia. rewrite (Nat.add_comm 1 i). reflexivity. }
  destruct (receive_honest cd party_secret ks F s rF rZ HS HF ltac:(lia) LF LZ LZ2 p (i + 1) B (mkG1 s)
              HC WP PF EK ltac:(lia) HB HBr) as (p' & ER & HH & HW & HG & _ & PF' & PI' & EK' & HCc).
  exists p. eexists. exists p'. split; [exact EP|]. split; [exact EM|]. split; [exact ER|].
  split; [exact HH|]. split; [rewrite MulG1_gen; exact HG|].
  intros j k w c Hj Ec Ek Ew.
  destruct (accept_inv party_secret cd p _ p' WP ER) as (pm & _ & _ & _ & _ & _ & A). rewrite PF in A.
  destruct (A j Hj) as (mc & c' & b & wb & w' & _ & Ec' & _ & _ & _ & _ & _ & Ew' & _ & _ & CK).
  rewrite Ec in Ec'. injection Ec' as <-. rewrite Ew in Ew'. injection Ew' as <-.
  destruct HH as (_ & _ & _ & _ & _ & FA).
  assert (Ekj : k = of_nat j).
  { pose proof (receive_good party_secret cd p (mkG1 s)) as _.
    revert ER. unfold VSSShareReceive. rewrite PF. intros ER.
    apply bind_ret in ER. destruct ER as (pi & _ & ER).
    apply bind_ret in ER. destruct ER as ((va, wi) & Evw & ER).
    apply values_inv in Evw. destruct Evw as (_ & LW & _).
    apply bind_ret in ER. destruct ER as (b0 & _ & ER). destruct b0; [|injection ER as ER; discriminate].
    apply bind_ret in ER. destruct ER as (pr & _ & ER).
    apply bind_ret in ER. destruct ER as ((wit, widx) & E5 & ER).
    destruct WP as (_ & _ & _ & _ & _ & _ & _ & W8 & W9). rewrite PF in W8, W9.
    rewrite (wit_loop wi F (nth 0 wi ZeroG1) (fun j => nth j wi ZeroG1)) in E5; auto.
    2:{ apply (list_as_map ZeroG1). lia. }
    injection E5 as <- <-.
    apply bind_ret in ER. destruct ER as (kv & _ & ER).
    apply bind_ret in ER. destruct ER as (q & _ & ER). injection ER as <-.
    cbn [p_witnessIndexes] in Ek.
    rewrite nth_error_map in Ek.
    change (F + (F + 0) + 1)%nat with (2 * F + 1)%nat in Ek.
    rewrite (nth_error_nth' (seq 1 (2 * F + 1)) O) in Ek by (rewrite seq_length; lia).
    rewrite seq_nth in Ek by lia. injection Ek as <-. f_equal. lia. }
  split; [exact Ekj|]. rewrite Ekj, EvalPolyAt_correct. rewrite EK, PI in CK. exact CK.
Qed.
Print Assumptions c17_honest_dealer.

Example c17_example_hypotheses :
  codec_ok demo_codec /\ (1 <= 1)%nat /\ (3 * 1 + 1 <= 4)%nat /\ (Z.of_nat (4 + 2) <= r)%Z /\
  length [of_Z 9; of_Z 2; of_Z 3] = (2 * 1 + 1)%nat /\
  length [[of_Z 0; of_Z 4]; [of_Z 0; of_Z 5]; [of_Z 0; of_Z 6]] = (2 * 1 + 1)%nat /\
  Forall (fun row => length row = (1 + 1)%nat) [[of_Z 0; of_Z 4]; [of_Z 0; of_Z 5]; [of_Z 0; of_Z 6]].
Proof.
  split; [apply demo_codec_ok|]. repeat split; try lia.
  - rewrite r_eq. lia.
  - repeat constructor.
Qed.

(** The values for party 2 of secret 7, F(y) = 7 + 2y + 3y^2, B(x,j) = F(j) + (3+j)x. *)
Example c17_example_values :
  client_values 1 (client_BList 1 (client_FVals 1 (client_polyF (of_Z 7) [of_Z 9; of_Z 2; of_Z 3]))
     (client_ZList 1 [[of_Z 0; of_Z 4]; [of_Z 0; of_Z 5]; [of_Z 0; of_Z 6]])) 2
  = [0; of_Z 20; of_Z 33; of_Z 52].
Proof. vm_compute. reflexivity. Qed.

(** ** C18 What acceptance of any message implies *)

Theorem c18_sound : forall cd N F pid p m p', (1 <= F)%nat -> (3 * F + 1 <= N)%nat ->
  (Z.of_nat (N + 2) <= r)%Z -> NewHonestParty N F pid = Ret p ->
  VSSShareReceive cd p m = Ret (true, p') ->
  exists pm ks, m_Pi m = Some pm /\ party_setup F = Ret ks /\
    FromCompressedG1 cd (m_Gs pm) = Some (Gs (p_Proof p')) /\
    length (p_fullShare p') = (2 * F + 1)%nat /\
    forall j, (1 <= j <= 2 * F + 1)%nat ->
      exists mc CB CZ W0 gF b wb w v,
        (* the j-th entries of the message, decoded *)
        nth_error (m_PiContents pm) j = Some mc /\
        FromCompressedG1 cd (m_CBj mc) = Some CB /\ FromCompressedG1 cd (m_CZj mc) = Some CZ /\
        FromCompressedG1 cd (m_WZ0 mc) = Some W0 /\ FromCompressedG1 cd (m_GFj mc) = Some gF /\
        nth_error (m_BijList m) j = Some b /\ v = FrFrom32_into 0 (to32 b) /\
        nth_error (m_WBijList m) j = Some wb /\ FromCompressedG1 cd wb = Some w /\
        (* what the party keeps *)
        option_map CBj (nth_error (PiContents (p_Proof p')) j) = Some CB /\
        nth_error (p_witness p') (j - 1) = Some w /\ EvalPolyAt (p_fullShare p') (of_nat j) = v /\
        (* what has been checked *)
        CheckProofSingle ks CZ W0 0 0 = Ret true /\ CB = AddG1 CZ gF /\
        CheckProofSingle ks CB w (of_nat (pid + 1)) v = Ret true.
Proof.
  intros cd N F pid p m p' HF HN HR EP H.
  destruct (new_party N F pid HF HN HR) as (p1 & EP1 & WP & PN & PF & PI).
  rewrite EP in EP1. injection EP1 as <-.
  destruct (accept_inv party_secret cd p m p' WP H) as (pm & Epm & EGs & LFS & _ & _ & A).
  exists pm, (p_KZG p). split; [exact Epm|]. destruct WP as (HS & _). rewrite PF in *.
  split; [exact HS|]. split; [exact EGs|]. split; [exact LFS|]. intros j Hj.
  destruct (A j Hj) as (mc & c & b & wb & w & Emc & Ec & (D1 & D2 & D3 & D4) & Eb & Ev & Ewb & Dw & Ew & C1 & C2 & C3).
  exists mc, (CBj c), (CZj c), (WZ0 c), (gFj c), b, wb, w, (FrFrom32_into 0 (to32 b)).
  rewrite Ec, EvalPolyAt_correct, <- Ev, <- PI.
  do 14 (split; [first [assumption | reflexivity]|]). exact C3.
Qed.
Print Assumptions c18_sound.

(** If the dealer made the j-th commitment from f and the witness from q, an accepted value v that
    is wrong makes the setup secret a root of the non-zero polynomial f - v - (X - i) q, which the
    dealer knows. *)
Theorem c18_extraction : forall cd N F pid p m p' pm ks j f q mc CB b wb w,
  (1 <= F)%nat -> (3 * F + 1 <= N)%nat -> (Z.of_nat (N + 2) <= r)%Z ->
  NewHonestParty N F pid = Ret p -> party_setup F = Ret ks ->
  VSSShareReceive cd p m = Ret (true, p') -> (1 <= j <= 2 * F + 1)%nat ->
  m_Pi m = Some pm -> nth_error (m_PiContents pm) j = Some mc -> FromCompressedG1 cd (m_CBj mc) = Some CB ->
  nth_error (m_BijList m) j = Some b -> nth_error (m_WBijList m) j = Some wb ->
  FromCompressedG1 cd wb = Some w ->
  (length f <= F + 1)%nat -> (length q <= F + 1)%nat ->
  CommitToPoly ks f = Ret CB -> CommitToPoly ks q = Ret w ->
  let v := EvalPolyAt (p_fullShare p') (of_nat j) in
  let g := psub (psub f [v]) (pmul [0 - of_nat (pid + 1); 1] q) in
  v = EvalPolyAt f (of_nat (pid + 1)) \/ (peval g party_secret = 0 /\ ~ zero_list g).
Proof.
  intros cd N F pid p m p' pm ks j f q mc CB b wb w HF HN HR EP ES H Hj Epm Emc DCB Eb Ewb Dw Lf Lq Cf Cq.
  destruct (c18_sound cd N F pid p m p' HF HN HR EP H) as (pm1 & ks1 & Epm1 & ES1 & _ & _ & A).
  rewrite Epm in Epm1. injection Epm1 as <-. rewrite ES in ES1. injection ES1 as <-.
  destruct (A j Hj) as (mc1 & CB1 & CZ & W0 & gF & b1 & wb1 & w1 & v & Emc1 & D1 & _ & _ & _ & Eb1 & _ & Ewb1 & Dw1 & _ & _ & EV & _ & _ & CK).
  rewrite Emc in Emc1. injection Emc1 as <-. rewrite DCB in D1. injection D1 as <-.
  rewrite Ewb in Ewb1. injection Ewb1 as <-. rewrite Dw in Dw1. injection Dw1 as <-.
  cbv zeta. rewrite EV, EvalPolyAt_correct.
  destruct (Fr_eq_dec v (peval f (of_nat (pid + 1)))) as [E|Ne]; [left; exact E|right].
  destruct (binding_poly party_secret (F + 1) ks ES f q (of_nat (pid + 1)) v CB w) as (G1 & G2 & G3);
    auto; lia.
Qed.
Print Assumptions c18_extraction.

(** A rejected dealing leaves the party as it was. *)
Theorem c18_reject_unchanged : forall cd p m p', VSSShareReceive cd p m = Ret (false, p') -> p' = p.
Proof.
  intros cd p m p' H. unfold VSSShareReceive in H.
  apply bind_ret in H. destruct H as (pi & _ & H).
  apply bind_ret in H. destruct H as ((va, wi) & _ & H).
  apply bind_ret in H. destruct H as (b & _ & H). destruct b; [|injection H as <-; reflexivity].
  apply bind_ret in H. destruct H as (x1 & _ & H).
  apply bind_ret in H. destruct H as ((wit, widx) & _ & H).
  apply bind_ret in H. destruct H as (x2 & _ & H).
  apply bind_ret in H. destruct H as (x3 & _ & H). injection H as H. discriminate.
Qed.
Print Assumptions c18_reject_unchanged.

(** The published g^s is not tied to the commitments: the message with any other g^s is accepted. *)
Theorem c18_gs_refuted : exists cd N F pid p m p' f,
  codec_ok cd /\ (1 <= F)%nat /\ N = (3 * F + 1)%nat /\ NewHonestParty N F pid = Ret p /\
  VSSShareReceive cd p m = Ret (true, p') /\ length f = (2 * F + 1)%nat /\
  (forall j, (1 <= j <= 2 * F + 1)%nat ->
     option_map gFj (nth_error (PiContents (p_Proof p')) j) = Some (MulG1 GenG1 (peval f (of_nat j)))) /\
  Gs (p_Proof p') <> MulG1 GenG1 (peval f 0).
Proof.
  set (rF := [0; 0; 0]). set (rZ := [[0; 0]; [0; 0]; [0; 0]]).
  assert (HR : (Z.of_nat (4 + 2) <= r)%Z) by (rewrite r_eq; lia).
  destruct (new_party 4 1 0) as (p & EP & WP & PN & PF & PI); [lia|lia|exact HR|].
  assert (LZ2 : Forall (fun row => length row = (1 + 1)%nat) rZ) by (repeat constructor).
  pose proof WP as (HS & _). rewrite PF in HS.
  destruct (client_biv 0 1 0 rF rZ ltac:(lia) ltac:(rewrite r_eq; lia) eq_refl eq_refl LZ2) as (B & HB & _ & _ & HBr).
  destruct (receive_honest demo_codec party_secret (p_KZG p) 1 0 rF rZ HS ltac:(lia)
    ltac:(rewrite r_eq; lia) eq_refl eq_refl LZ2 p 1 B (mkG1 1) demo_codec_ok WP PF eq_refl)
    as (p' & ER & _ & _ & HG & _ & _ & _ & _ & HCc); [rewrite PI; reflexivity|exact HB|exact HBr|].
  exists demo_codec, 4%nat, 1%nat, 0%nat, p. eexists. exists p', [0; 0; 0].
  split; [exact demo_codec_ok|]. split; [lia|]. split; [reflexivity|]. split; [exact EP|].
  split; [exact ER|]. split; [reflexivity|]. split.
  - intros j Hj. rewrite HCc by exact Hj. cbn [option_map gFj]. rewrite MulG1_gen. reflexivity.
  - rewrite HG, MulG1_gen. intros E. apply (f_equal dlog1) in E. cbn [dlog1 peval] in E. apply f1_neq_0. rewrite E. ring.
Qed.
Print Assumptions c18_gs_refuted.

(** ** C19 Reconstruction and secrecy *)

Theorem c19_reconstruct_full : forall F B xs, bdeg F (2 * F) B -> NoDup xs -> length xs = (F + 1)%nat ->
  exists q, LagrangeInterpolate F xs (map (fun x => EvalPolyAt (secx B x) 0) xs) = Ret q /\
    EvalPolyAt q 0 = beval B 0 0.
Proof. exact (fun F B xs => reconstruct_full F (2 * F) B xs). Qed.
Print Assumptions c19_reconstruct_full.

Theorem c19_reconstruct_reduced : forall F B ys, bdeg F (2 * F) B -> NoDup ys -> length ys = (2 * F + 1)%nat ->
  exists q, LagrangeInterpolate (2 * F) ys (map (fun y => EvalPolyAt (secy B y) 0) ys) = Ret q /\
    EvalPolyAt q 0 = beval B 0 0.
Proof. exact (fun F B ys => reconstruct_reduced F (2 * F) B ys). Qed.
Print Assumptions c19_reconstruct_reduced.

(** At most F old members (indexes xs) and at most 2F new members (indexes ys): between the sharing
    polynomials of any two secrets there is a bijection that keeps all their shares. *)
Theorem c19_secrecy : forall F xs ys s1 s2, (Z.of_nat (2 * F + 1) <= r)%Z ->
  (length xs <= F)%nat -> (length ys <= 2 * F)%nat -> ~ In 0 xs -> ~ In 0 ys ->
  exists phi psi : list (list Fr) -> list (list Fr),
    (forall B, bdeg F (2 * F) B -> beval B 0 0 = s1 ->
       bdeg F (2 * F) (phi B) /\ beval (phi B) 0 0 = s2 /\ psi (phi B) = B /\
       (forall x y, In x xs \/ In y ys -> beval (phi B) x y = beval B x y)) /\
    (forall B, bdeg F (2 * F) B -> beval B 0 0 = s2 ->
       bdeg F (2 * F) (psi B) /\ beval (psi B) 0 0 = s1 /\ phi (psi B) = B).
Proof.
  intros F xs ys s1 s2 HR Lx Ly Zx Zy.
  exists (shift_by F (2 * F) xs ys (s2 - s1)), (shift_by F (2 * F) xs ys (0 - (s2 - s1))).
  split; intros B HB HS.
  - split; [apply bdeg_shift; assumption|].
    split; [rewrite shift_secret by assumption; rewrite HS; ring|].
    split; [apply shift_back; try assumption; lia|].
    intros x y [Hx|Hy]; [apply shift_x; exact Hx|apply shift_y; exact Hy].
  - split; [apply bdeg_shift; assumption|].
    split; [rewrite shift_secret by assumption; rewrite HS; ring|].
    replace (s2 - s1) with (0 - (0 - (s2 - s1))) at 1 by ring.
    apply shift_back; try assumption; lia.
Qed.
Print Assumptions c19_secrecy.

(** The same for the client's program: for every set of at most F parties, a bijection of the
    random coefficients under which these parties receive the same values. *)
Theorem c19_secrecy_client : forall F xs s1 s2 rF, (length xs <= F)%nat -> ~ In 0 xs ->
  length rF = (2 * F + 1)%nat ->
  exists phi psi : list (list Fr) -> list (list Fr),
    forall rZ, length rZ = (2 * F + 1)%nat -> Forall (fun row => length row = (F + 1)%nat) rZ ->
      length (phi rZ) = (2 * F + 1)%nat /\ Forall (fun row => length row = (F + 1)%nat) (phi rZ) /\
      length (psi rZ) = (2 * F + 1)%nat /\ Forall (fun row => length row = (F + 1)%nat) (psi rZ) /\
      psi (phi rZ) = rZ /\ phi (psi rZ) = rZ /\
      forall i, In (of_nat i) xs ->
        client_values F (client_BList F (client_FVals F (client_polyF s2 rF)) (client_ZList F (phi rZ))) i =
        client_values F (client_BList F (client_FVals F (client_polyF s1 rF)) (client_ZList F rZ)) i.
Proof.
  intros F xs s1 s2 rF Lx Zx LF.
  exists (shift_rand F xs (s2 - s1)), (shift_rand F xs (0 - (s2 - s1))). intros rZ LZ LZ2.
  rewrite !shift_rand_length. split; [exact LZ|]. split; [apply shift_rand_rows; assumption|].
  split; [exact LZ|]. split; [apply shift_rand_rows; assumption|].
  split; [apply shift_rand_inv; assumption|]. split.
  - replace (s2 - s1) with (0 - (0 - (s2 - s1))) at 1 by ring. apply shift_rand_inv; assumption.
  - intros i Hi. replace s2 with (s1 + (s2 - s1)) at 1 by ring. apply same_values; assumption.
Qed.
Print Assumptions c19_secrecy_client.

Example c19_example :
  let B := [[of_Z 7; of_Z 1]; [of_Z 2; of_Z 3]; [of_Z 4; of_Z 5]] in
  bdeg 1 (2 * 1) B /\ beval B 0 0 = of_Z 7 /\
  LagrangeInterpolate 1 [of_Z 1; of_Z 2] (map (fun x => EvalPolyAt (secx B x) 0) [of_Z 1; of_Z 2])
    = Ret [of_Z 7; of_Z 1].
Proof.
  split; [split; [reflexivity|repeat constructor]|]. vm_compute. auto.
Qed.

(** ** C51 Agreement on the dealing *)

(** Nothing is compared between the receivers: a dealer can make three parties accept shares that
    belong to no common sharing polynomial. *)
Theorem c51_agreement_refuted : exists cd N F (p m p' : nat -> _),
  codec_ok cd /\ (1 <= F)%nat /\ N = (3 * F + 1)%nat /\
  (forall i, (i < 3)%nat -> NewHonestParty N F i = Ret (p i) /\ VSSShareReceive cd (p i) (m i) = Ret (true, p' i)) /\
  ~ exists B, bdeg F (2 * F) B /\ forall i, (i < 3)%nat -> p_fullShare (p' i) = secx B (of_nat (i + 1)).
Proof.
  set (rF := [0; 0; 0]). set (rZ := [[0; 0]; [0; 0]; [0; 0]]).
  assert (HR : (Z.of_nat (4 + 2) <= r)%Z) by (rewrite r_eq; lia).
  assert (LZ2 : Forall (fun row => length row = (1 + 1)%nat) rZ) by (repeat constructor).
  assert (G : forall i s, exists p m p', NewHonestParty 4 1 i = Ret p /\
     VSSShareReceive demo_codec p m = Ret (true, p') /\ peval (p_fullShare p') 0 = s).
  { intros i s.
    destruct (new_party 4 1 i) as (p & EP & WP & PN & PF & PI); [lia|lia|exact HR|].
    pose proof WP as (HS & _). rewrite PF in HS.
    destruct (client_biv 0 1 s rF rZ ltac:(lia) ltac:(rewrite r_eq; lia) eq_refl eq_refl LZ2) as (B & HB & _ & HP & HBr).
    destruct (receive_honest demo_codec party_secret (p_KZG p) 1 s rF rZ HS ltac:(lia)
      ltac:(rewrite r_eq; lia) eq_refl eq_refl LZ2 p (i + 1) B (mkG1 s) demo_codec_ok WP PF eq_refl)
      as (p' & ER & (_ & HFS & _) & _ & _ & _ & _ & PI' & _); [rewrite PI; reflexivity|exact HB|exact HBr|].
    exists p. eexists. exists p'. split; [exact EP|]. split; [exact ER|].
    rewrite HFS, peval_secx.
    (* B(., 0) is constant: B(., j) is for j = 1, 2, 3 *)
    assert (EB : B = [[s; 0]; [0; 0]; [0; 0]]).
    { apply (biv_unique 1 2 _ _ (map of_nat (seq 1 2)) (map of_nat (seq 1 3))).
      - exact HB.
      - split; [reflexivity|repeat constructor].
      - apply NoDup_of_nat_from. rewrite r_eq. lia.
      - apply NoDup_of_nat_from. rewrite r_eq. lia.
      - reflexivity.
      - reflexivity.
      - intros x y _ Hy. apply in_map_iff in Hy. destruct Hy as (j & <- & Hj). apply in_seq in Hj.
        rewrite <- !peval_secy, HBr by lia.
        rewrite (Br_form 1 s rF rZ ltac:(lia) ltac:(rewrite r_eq; lia) eq_refl eq_refl LZ2) by lia.
        assert (E : tl (nth (j - 1) rZ []) = [0]) by (destruct j as [|[|[|[|j]]]]; try lia; reflexivity).
        rewrite E. cbn [secy padd pscale map peval tl rF]. ring. }
    rewrite EB. unfold beval. cbn [map peval]. ring. }
  destruct (G 0%nat 0) as (p0 & m0 & q0 & P0 & R0 & V0).
  destruct (G 1%nat 0) as (p1 & m1 & q1 & P1 & R1 & V1).
  destruct (G 2%nat 1) as (p2 & m2 & q2 & P2 & R2 & V2).
  exists demo_codec, 4%nat, 1%nat, (fun i => nth i [p0; p1; p2] p0), (fun i => nth i [m0; m1; m2] m0),
    (fun i => nth i [q0; q1; q2] q0).
  split; [exact demo_codec_ok|]. split; [lia|]. split; [reflexivity|]. split.
  - intros i Hi. destruct i as [|[|[|i]]]; [split; assumption..|lia].
  - intros (B & HB & H).
    pose proof (H 0%nat ltac:(lia)) as H0. pose proof (H 1%nat ltac:(lia)) as H1.
    pose proof (H 2%nat ltac:(lia)) as H2. cbn [nth Nat.add] in H0, H1, H2.
    rewrite H0, peval_secx, <- peval_secy in V0. rewrite H1, peval_secx, <- peval_secy in V1.
    rewrite H2, peval_secx, <- peval_secy in V2.
    assert (Z : zero_list (secy B 0)).
    { apply (roots_zero [of_nat 1; of_nat 2]).
      - change [of_nat 1; of_nat 2] with (map of_nat (seq 1 2)). apply NoDup_of_nat_from. rewrite r_eq. lia.
      - rewrite (length_secy 1 2) by exact HB. simpl. lia.
      - intros x [<-|[<-|[]]]; assumption. }
    rewrite (peval_zero_list _ _ Z) in V2. exact (f1_neq_0 (eq_sym V2)).
Qed.
Print Assumptions c51_agreement_refuted.
