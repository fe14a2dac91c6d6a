(** C51: with every committee size a client can make all members accept dealings of no common polynomial
    (VSS.go:12-74: the receivers compare nothing with each other). *)

Require Import ZArith List Bool Arith Lia.
From Verif Require Import Prime Fr Poly Bytes CodecModel GoBase PolyModel PolyProofs GroupModel Biv KzgModel KzgProofs PartyModel VssModel VssProofs
  BivProofs PartySpec VssProofs2 PropertiesVss PropertiesAgree.
Import ListNotations.
Local Open Scope F_scope.

Definition no_party : Party := mkParty 0 0 0 (mkKZG [] []) (Pi_Init 0) [] [] [] [] [].  (* only to have total functions *)

(** One dealing with the constant polynomial s. *)
Lemma flat_dealing cd N F s : codec_ok cd -> (1 <= F)%nat -> (3 * F + 1 <= N)%nat -> (Z.of_nat (N + 2) <= r)%Z ->
  exists msgs, length msgs = N /\ forall i, (i < N)%nat -> exists p m p', NewHonestParty N F i = Ret p /\ nth_error msgs i = Some m /\
    VSSShareReceive cd p m = Ret (true, p') /\ peval (p_fullShare p') (of_nat 1) = s.
Proof.
  intros HC HF HN HR.
  destruct (c17_honest_dealer cd N F s (repeat 0 (2 * F + 1)) (repeat (repeat 0 (F + 1)) (2 * F + 1)) HC HF HN HR) as (ks & msgs & B & _ & _ & L & HB & _ & _ & HJ & HA).
  - apply repeat_length.
  - apply repeat_length.
  - apply Forall_forall. intros x Hx. apply repeat_spec in Hx. subst x. apply repeat_length.
  - exists msgs. split; [exact L|]. intros i Hi. destruct (HA i Hi) as (p & m & p' & E1 & E2 & E3 & (_ & HS & _) & _). exists p, m, p'. split; [exact E1|]. split; [exact E2|]. split; [exact E3|].
    rewrite HS, peval_secx, <- peval_secy, (HJ 1%nat) by lia.
    assert (Z : forall n y, peval (tl (repeat 0 n)) y = 0) by (intros [|n] y; cbn [repeat tl]; [reflexivity|apply peval_repeat0]).
    replace (nth (1 - 1) (repeat (repeat 0 (F + 1)) (2 * F + 1)) []) with (repeat 0 (F + 1)) by (rewrite (Nat.add_comm (2 * F)); reflexivity).
    cbn [peval]. rewrite !Z. ring.
Qed.

Theorem c51_split_refuted : forall cd N F, codec_ok cd -> (1 <= F)%nat -> (3 * F + 1 <= N)%nat -> (Z.of_nat (N + 2) <= r)%Z ->
  exists (p p' : nat -> Party) (m : nat -> VSSSendMsg),
  (forall i, (i < N)%nat -> NewHonestParty N F i = Ret (p i) /\ VSSShareReceive cd (p i) (m i) = Ret (true, p' i)) /\
  ~ exists B, bdeg F (2 * F) B /\ forall i, (i < N)%nat -> p_fullShare (p' i) = secx B (of_nat (i + 1)).
Proof.
  intros cd N F HC HF HN HR.
  destruct (flat_dealing cd N F 0 HC HF HN HR) as (m0 & L0 & D0). destruct (flat_dealing cd N F 1 HC HF HN HR) as (m1 & L1 & D1).
  destruct m0 as [|x0 m0]; [cbn in L0; lia|]. set (mm := fun i => nth i (if (i =? 0)%nat then m1 else x0 :: m0) x0).
  set (pp := fun i => match NewHonestParty N F i with Ret p => p | _ => no_party end).
  set (qq := fun i => match VSSShareReceive cd (pp i) (mm i) with Ret (_, p) => p | _ => no_party end).
  assert (A : forall i, (i < N)%nat -> NewHonestParty N F i = Ret (pp i) /\ VSSShareReceive cd (pp i) (mm i) = Ret (true, qq i) /\
    peval (p_fullShare (qq i)) (of_nat 1) = if (i =? 0)%nat then 1 else 0).
  { intros i Hi. unfold qq, pp, mm. destruct (Nat.eqb_spec i 0) as [E|E].
    - destruct (D1 i Hi) as (p & m & p' & E1 & E2 & E3 & E4). rewrite E1, (nth_error_nth _ _ x0 E2), E3. auto.
    - destruct (D0 i Hi) as (p & m & p' & E1 & E2 & E3 & E4). rewrite E1, (nth_error_nth _ _ x0 E2), E3. auto. }
  exists pp, qq, mm. split; [intros i Hi; destruct (A i Hi) as (E1 & E2 & _); auto|].
  intros (B & HB & H).
  assert (V : forall i, (i < N)%nat -> peval (secy B (of_nat 1)) (of_nat (i + 1)) = if (i =? 0)%nat then 1 else 0).
  { intros i Hi. destruct (A i Hi) as (_ & _ & E). rewrite (H i Hi), peval_secx, <- peval_secy in E. exact E. }
  assert (Z : zero_list (secy B (of_nat 1))).
  { apply (roots_zero (map of_nat (seq 2 (F + 1)))).
    - apply NoDup_of_nat_from. lia.
    - rewrite (length_secy F (2 * F)), map_length, seq_length by exact HB. lia.
    - intros x Hx. apply in_map_iff in Hx. destruct Hx as (j & <- & Hj). apply in_seq in Hj.
      specialize (V (j - 1)%nat ltac:(lia)). replace (j - 1 + 1)%nat with j in V by lia. rewrite V. destruct (Nat.eqb_spec (j - 1) 0); [lia|reflexivity]. }
  specialize (V 0%nat ltac:(lia)). rewrite (peval_zero_list _ _ Z) in V. exact (f1_neq_0 (eq_sym V)).
Qed.
Print Assumptions c51_split_refuted.

(** Seven members, two of which may be corrupted. *)
Example c51_split_example : exists (p p' : nat -> Party) (m : nat -> VSSSendMsg),
  (forall i, (i < 7)%nat -> NewHonestParty 7 2 i = Ret (p i) /\ VSSShareReceive demo_codec (p i) (m i) = Ret (true, p' i)) /\
  ~ exists B, bdeg 2 4 B /\ forall i, (i < 7)%nat -> p_fullShare (p' i) = secx B (of_nat (i + 1)).
Proof. apply (c51_split_refuted demo_codec 7 2 demo_codec_ok); try lia. rewrite r_eq. lia. Qed.
