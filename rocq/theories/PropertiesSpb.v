(** Headline theorems: what repeated Echo messages do to a strong provable broadcast (C88). *)

Require Import ZArith List Bool Arith Lia.
From Verif Require Import Bytes CodecModel CodecProofs GoBase DispatchModel DispatchProofs PolyProofs MvbaModel MvbaProofs SpbModel PropertiesMvba.
Import ListNotations.

(** The signers of the shares that are valid for sm, in order of arrival. *)
Fixpoint signers (sm : list Z) (l : list share) : list nat :=
  match l with
  | [] => []
  | Sh i sm' :: l => if list_eq_dec Z.eq_dec sm' sm then i :: signers sm l else signers sm l
  | ShBad :: l => signers sm l
  end.

Lemma signers_filter sm l : signers sm l = map signer (filter (vshare sm) l).
Proof.
  induction l as [|[i sm'|] l IH]; [reflexivity| |exact IH]. cbn [signers filter vshare].
  destruct (list_eq_dec Z.eq_dec sm' sm) as [->|NE].
  - rewrite (proj2 (bytes_eqb_eq _ _) eq_refl). cbn [map signer]. rewrite IH. reflexivity.
  - destruct (bytes_eqb sm' sm) eqn:E; [apply bytes_eqb_eq in E; contradiction|exact IH].
Qed.

Lemma nodupb_spec l : nodupb l = true <-> NoDup l.
Proof.
  induction l as [|a l IH]; cbn [nodupb]; [split; [constructor|reflexivity]|]. rewrite andb_true_iff, IH, negb_true_iff. split.
  - intros (A & B). constructor; [|exact B]. intros K. apply not_true_iff_false in A. apply A. apply existsb_exists. exists a. split; [exact K|apply Nat.eqb_refl].
  - intros K. inversion K as [|x y A B]; subst. split; [|exact B]. apply not_true_iff_false. intros E. apply existsb_exists in E.
    destruct E as (y & Y & E). apply Nat.eqb_eq in E. subst y. contradiction.
Qed.

(** The result of a sender: it waits for 2F+1 valid shares, whoever made them; with shares of 2F+1 different members it has
    a signature, otherwise it goes on without. *)
Lemma sender_spec F sm : forall echoes sigs, (forall s, In s sigs -> vshare sm s = true) -> (length sigs <= 2 * F)%nat ->
  Sender F sm sigs echoes =
    let l := map signer sigs ++ signers sm echoes in
    if (length l <? 2 * F + 1)%nat then None else Some (if nodupb (firstn (2 * F + 1) l) then Sig sm else NoSig).
Proof.
  induction echoes as [|s rest IH]; intros sigs HV HL; cbn zeta.
  - cbn [Sender signers]. rewrite app_nil_r, map_length, (proj2 (Nat.ltb_lt _ _)) by lia. reflexivity.
  - cbn [Sender]. destruct (vshare sm s) eqn:EV.
    + assert (ES : signers sm (s :: rest) = signer s :: signers sm rest) by (rewrite !signers_filter; cbn [filter]; rewrite EV; reflexivity).
      assert (HV' : forall x, In x (sigs ++ [s]) -> vshare sm x = true).
      { intros x Hx. apply in_app_or in Hx. destruct Hx as [Hx|[<-|[]]]; [apply HV; exact Hx|exact EV]. }
      rewrite ES. replace (map signer sigs ++ signer s :: signers sm rest) with (map signer (sigs ++ [s]) ++ signers sm rest)
        by (rewrite map_app, <- app_assoc; reflexivity).
      destruct (2 * F <? length (sigs ++ [s]))%nat eqn:EL.
      * apply Nat.ltb_lt in EL. assert (LL : length (sigs ++ [s]) = (2 * F + 1)%nat) by (rewrite app_length in *; cbn [length] in *; lia).
        rewrite (proj2 (Nat.ltb_ge _ _)) by (rewrite app_length, map_length; lia).
        unfold recover. replace (filter (vshare sm) (sigs ++ [s])) with (sigs ++ [s]).
        2: { symmetry. clear - HV'. induction (sigs ++ [s]) as [|x l IHl]; [reflexivity|]. cbn [filter]. rewrite (HV' x (or_introl eq_refl)), IHl; [reflexivity|].
             intros y Y. apply HV'. right. exact Y. }
        set (q := sigs ++ [s]) in *. clearbody q. rewrite (firstn_all2 q) by lia.
        rewrite firstn_app, (firstn_all2 (map signer q)) by (rewrite map_length; lia).
        rewrite !map_length, LL, Nat.sub_diag, Nat.leb_refl. cbn [firstn]. rewrite app_nil_r. reflexivity.
      * apply Nat.ltb_ge in EL. rewrite IH by assumption. reflexivity.
    + rewrite IH by assumption. rewrite !signers_filter. cbn [filter]. rewrite EV. reflexivity.
Qed.

Section Spb.
Variable H : list Z -> list Z.
Variable coin : list Z -> Z.
Variables N F : nat.
Variable ID : list Z.
Variables r j : nat.
Variable v : list Z.
Variable vd : sigv.
Notation sm1 := (smEcho ID r j 1 (H v)).
Notation sm2 := (smEcho ID r j 2 (H v)).

(** Exactly what the sender sends. *)
Theorem c88_sender e1 e2 :
  ((length (signers sm1 e1) < 2 * F + 1)%nat -> SPBSender H F ID r j v vd e1 e2 = ([(1%nat, (v, vd))], None)) /\
  ((2 * F + 1 <= length (signers sm1 e1))%nat -> exists c,
     fst (SPBSender H F ID r j v vd e1 e2) = [(1%nat, (v, vd)); (2%nat, (v, c))] /\
     (c = Sig sm1 <-> NoDup (firstn (2 * F + 1) (signers sm1 e1))) /\ (c = NoSig <-> ~ NoDup (firstn (2 * F + 1) (signers sm1 e1))) /\
     ((length (signers sm2 e2) < 2 * F + 1)%nat -> snd (SPBSender H F ID r j v vd e1 e2) = None) /\
     ((2 * F + 1 <= length (signers sm2 e2))%nat -> exists c', snd (SPBSender H F ID r j v vd e1 e2) = Some (v, c') /\
        (c' = Sig sm2 <-> NoDup (firstn (2 * F + 1) (signers sm2 e2))))).
Proof.
  assert (SS : forall sm e, Sender F sm [] e = if (length (signers sm e) <? 2 * F + 1)%nat then None
    else Some (if nodupb (firstn (2 * F + 1) (signers sm e)) then Sig sm else NoSig)).
  { intros sm e. rewrite sender_spec; [reflexivity|intros s []|cbn; lia]. }
  unfold SPBSender. rewrite !SS. clear SS. split.
  - intros L. rewrite (proj2 (Nat.ltb_lt _ _) L). reflexivity.
  - intros L. rewrite (proj2 (Nat.ltb_ge _ _) L). eexists. split; [reflexivity|].
    assert (D : forall sm l, ((if nodupb l then Sig sm else NoSig) = Sig sm <-> NoDup l) /\ ((if nodupb l then Sig sm else NoSig) = NoSig <-> ~ NoDup l)).
    { intros sm l. pose proof (nodupb_spec l) as P. destruct (nodupb l).
      - split; split; try (intros _; apply P; reflexivity); try reflexivity; try discriminate. intros K. exfalso. apply K, P. reflexivity.
      - split; split; try discriminate; try reflexivity; [|intros _ K]; intros; (assert (C : false = true) by (apply P; assumption); discriminate). }
    split; [apply D|]. split; [apply D|]. split.
    + intros L2. cbn [snd]. rewrite (proj2 (Nat.ltb_lt _ _) L2). reflexivity.
    + intros L2. cbn [snd]. rewrite (proj2 (Nat.ltb_ge _ _) L2). eexists. split; [reflexivity|apply D].
Qed.

(** If one member's share is among the first 2F+1 twice, the honest sender broadcasts a value without certificate, and
    every member that is ready for it, the sender included, ends its process when it takes it. *)
Theorem c88_stops e1 e2 : (2 * F + 1 <= length (signers sm1 e1))%nat -> ~ NoDup (firstn (2 * F + 1) (signers sm1 e1)) ->
  In (2%nat, (v, NoSig)) (fst (SPBSender H F ID r j v vd e1 e2)) /\
  forall st, (r <= m_r st)%nat -> d_past (m_rounds st r) = false -> (j < N)%nat -> d_stage (m_rounds st r) j = 1%nat ->
    mstep H coin N F ID st (EvValue r j 2 v NoSig) = Fatal.
Proof.
  intros L D. destruct (proj2 (c88_sender e1 e2) L) as (c & E & _ & E2 & _). rewrite E, (proj2 E2 D). split; [right; left; reflexivity|].
  intros st A B C S. cbn [mstep]. unfold value_step, stage_ready. rewrite (proj2 (Nat.leb_le _ _) A), B, (proj2 (Nat.ltb_lt _ _) C), S. reflexivity.
Qed.

(** One corrupted member can do that to every sender, with two equal messages: they only have to be taken before the last of
    2F-1 other shares. *)
Theorem c88_one i others e2 : (1 <= F)%nat -> (2 * F - 1 <= length others)%nat ->
  In (2%nat, (v, NoSig)) (fst (SPBSender H F ID r j v vd ([Sh i sm1; Sh i sm1] ++ map (fun k => Sh k sm1) others) e2)).
Proof.
  intros HF L. apply c88_stops.
  - cbn [app signers]. destruct (list_eq_dec _ _ _) as [_|K]; [|contradiction]. cbn [length].
    assert (E : forall l, signers sm1 (map (fun k => Sh k sm1) l) = l).
    { induction l as [|x l IHl]; [reflexivity|]. cbn [map signers]. destruct (list_eq_dec _ _ _) as [_|K]; [|contradiction]. rewrite IHl. reflexivity. }
    rewrite E. lia.
  - cbn [app signers]. destruct (list_eq_dec _ _ _) as [_|K]; [|contradiction]. destruct F as [|f]; [lia|].
    replace (2 * S f + 1)%nat with (S (S (2 * f + 1))) by lia. cbn [firstn]. intros K. inversion K as [|a b C]; subst. apply C. left. reflexivity.
Qed.

(** If no member's Echo is taken twice, what the sender broadcasts stops nobody. *)
Theorem c88_once e1 e2 : NoDup (signers sm1 e1) -> forall stage c, In (stage, (v, c)) (fst (SPBSender H F ID r j v vd e1 e2)) ->
  forall st, exists o, mstep H coin N F ID st (EvValue r j stage v c) = Ret o.
Proof.
  intros ND stage c HI st.
  assert (E : stage = 1%nat \/ (stage = 2%nat /\ c = Sig sm1)).
  { destruct (Nat.lt_ge_cases (length (signers sm1 e1)) (2 * F + 1)) as [L|L].
    - rewrite (proj1 (c88_sender e1 e2) L) in HI. destruct HI as [K|[]]. injection K. auto.
    - destruct (proj2 (c88_sender e1 e2) L) as (c0 & E & E1 & _). rewrite E in HI.
      destruct HI as [K|[K|[]]]; injection K as <- <-; [auto|]. right. split; [reflexivity|]. apply E1.
      rewrite <- (firstn_skipn (2 * F + 1) (signers sm1 e1)) in ND. clear - ND. revert ND. generalize (firstn (2 * F + 1) (signers sm1 e1)), (skipn (2 * F + 1) (signers sm1 e1)).
      induction l as [|x l IH]; intros l' ND; [constructor|]. inversion ND as [|a b A B]; subst. constructor; [|apply (IH l' B)].
      intros K. apply A. apply in_or_app. auto. }
  cbn [mstep]. unfold value_step. destruct (_ && stage_ready _ _ _ _); [|eauto].
  destruct E as [->|(-> & ->)]; [eauto|]. cbn [vsig]. rewrite (proj2 (bytes_eqb_eq _ _) eq_refl). eauto.
Qed.
End Spb.
Print Assumptions c88_sender.
Print Assumptions c88_stops.
Print Assumptions c88_one.
Print Assumptions c88_once.

(** A committee of four in which member 3 is corrupted: the three honest members have answered the first stage of member 0;
    the sender takes member 3's share twice and one of member 1; its next message ends all three processes, its own included. *)
Theorem c88_committee_refuted : let sm := smEcho [7%Z] 0 0 1 (toyH [10%Z]) in let e1 := [Sh 3 sm; Sh 3 sm; Sh 1 sm] in
  exists g, reach toyH toyCoin 4 1 [7%Z] [3%nat] toyVals anyp g /\ (forall s, In s e1 -> known_share 4 [3%nat] g s) /\
    In (2%nat, ([10%Z], NoSig)) (fst (SPBSender toyH 1 [7%Z] 0 0 [10%Z] NoSig e1 [])) /\
    forall i, (i < 3)%nat -> mstep toyH toyCoin 4 1 [7%Z] (gs_m g i) (EvValue 0 0 2 [10%Z] NoSig) = Fatal.
Proof.
  intros sm e1.
  destruct (run_read toyH toyCoin 4 1 [7%Z] [3%nat] toyVals anyb anyp
    (fun g => (existsb (fun t : nat * list Z => (fst t =? 1)%nat && bytes_eqb (snd t) sm) (gs_rel g),
       map (fun i => match mstep toyH toyCoin 4 1 [7%Z] (gs_m g i) (EvValue 0 0 2 [10%Z] NoSig) with Fatal => true | _ => false end) hs))
    (spb 0 0 [10%Z] hs []) (true, [true; true; true]) (fun _ _ _ _ => I) ltac:(vm_compute; reflexivity)) as (g & R & E).
  apply pair_equal_spec in E. destruct E as (E1 & E2). exists g. split; [exact R|]. split; [|split].
  - apply existsb_exists in E1. destruct E1 as ((k & s') & K1 & K2). cbn [fst snd] in K2. apply andb_prop in K2. destruct K2 as (K2 & K3).
    apply Nat.eqb_eq in K2. apply bytes_eqb_eq in K3. subst k s'.
    intros s [<-|[<-|[<-|[]]]]; cbn [known_share]; (split; [lia|]); [intros (_ & K); exfalso; apply K; left; reflexivity..|intros _; exact K1].
  - vm_compute. auto.
  - cbn [map hs] in E2. injection E2 as A0 A1 A2.
    assert (G : forall i, match mstep toyH toyCoin 4 1 [7%Z] (gs_m g i) (EvValue 0 0 2 [10%Z] NoSig) with Fatal => true | _ => false end = true ->
      mstep toyH toyCoin 4 1 [7%Z] (gs_m g i) (EvValue 0 0 2 [10%Z] NoSig) = Fatal).
    { intros i. destruct (mstep _ _ _ _ _ _ _); try discriminate. reflexivity. }
    intros i Hi. destruct i as [|[|[|i]]]; [apply G; assumption..|lia].
Qed.
Print Assumptions c88_committee_refuted.

Example c88_example : let sm := smEcho [7%Z] 0 0 1 (toyH [10%Z]) in let sm' := smEcho [7%Z] 0 0 2 (toyH [10%Z]) in
  SPBSender toyH 1 [7%Z] 0 0 [10%Z] NoSig [Sh 3 sm; ShBad; Sh 1 sm; Sh 0 sm; Sh 2 sm] [Sh 2 sm'; Sh 1 sm'; Sh 0 sm'] =
    ([(1%nat, ([10%Z], NoSig)); (2%nat, ([10%Z], Sig sm))], Some ([10%Z], Sig sm')) /\
  snd (SPBSender toyH 1 [7%Z] 0 0 [10%Z] NoSig [Sh 3 sm; Sh 3 sm'; Sh 1 sm] []) = None.
Proof. vm_compute. auto. Qed.
