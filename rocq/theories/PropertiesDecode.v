(** C74: decoding in the reliable broadcast, interleaved with the handling of Ready messages. *)

Require Import ZArith List Bool Arith Lia.
From Verif Require Import Bytes CodecModel CodecProofs GoBase DispatchModel DispatchProofs PolyProofs VssModel VssProofs VssProofs2 RbcModel RbcProofs RbcGood PropertiesRbc DecodeModel DecodeProofs.
Import ListNotations.

Section Decode.
Variable sha : list Z -> list Z.
Variable rs_encode : nat -> nat -> list Z -> option (list (list Z)).
Variable rs_verify : nat -> nat -> list (list Z) -> bool.
Variable rs_reconstruct : nat -> nat -> list (list Z) -> list (list Z).
Variables N F : nat.
Variable bad : list Z.
Variable M0 : list Z.
Variable shards : list (list Z).
Hypothesis RS : rs_good rs_encode rs_verify rs_reconstruct N F M0 shards.
Hypothesis HSHA : length (sha M0) = 32%nat.
Hypothesis HLEN : (Z.of_nat (length M0) < 2 ^ 32)%Z.
Hypothesis HNF : (3 * F + 1 <= N)%nat.
Hypothesis Hbad : (length bad <= F)%nat.
Local Notation runs := (druns sha rs_verify rs_reconstruct N F bad M0 shards).
Local Notation step := (dstep sha rs_verify rs_reconstruct N F).

(** Messages with the dealer's hash carry the sender's shard, those with other hashes come from at most F senders:
    then, however the accesses to MaxReadyNumber and MaxReadyHash interleave, nothing panics and nothing but the
    dealer's message is returned. *)
Theorem c74_safe : forall evs st, runs evs st ->
  (forall e, fair_ev sha N bad M0 shards e -> exists o, step st e = Ret o) /\ (forall o, d_d st = DOut o -> o = Some M0).
Proof.
  intros evs st R. pose proof (druns_inv sha rs_encode rs_verify rs_reconstruct N F bad M0 shards RS HSHA HLEN HNF Hbad evs st R) as I. split.
  - intros e _. destruct e as [s x| |]; [eexists; reflexivity|eexists; reflexivity|].
    destruct (decoder_total sha rs_encode rs_verify rs_reconstruct N F bad M0 shards RS HSHA HLEN HNF Hbad st I) as (o & E & _). exists o. exact E.
  - intros o E. pose proof (i_dec _ _ _ _ _ _ _ I) as D. unfold dec_inv in D. rewrite E in D. exact D.
Qed.

(** The decoding goroutine makes at most 6F+7 steps in all, and if the messages of N-F members outside [bad] have
    been taken, it can only stop, while the lock is free, by returning the dealer's message. *)
Theorem c74_ends : forall evs st, runs evs st ->
  (dec_count evs <= 6 * F + 7)%nat /\
  forall L, NoDup L -> (N - F <= length L)%nat -> (forall s, In s L -> ~ In s bad /\ exists x, In (EvTake s x) evs) ->
    d_h st = HFree -> step st EvDecoder = Ret None -> d_d st = DOut (Some M0).
Proof.
  intros evs st R. pose proof (druns_inv sha rs_encode rs_verify rs_reconstruct N F bad M0 shards RS HSHA HLEN HNF Hbad evs st R) as I. split.
  - destruct (druns_count sha rs_encode rs_verify rs_reconstruct N F bad M0 shards RS HSHA HLEN HNF Hbad evs st R). lia.
  - intros L ND LL HL HF HS. destruct (decoder_total sha rs_encode rs_verify rs_reconstruct N F bad M0 shards RS HSHA HLEN HNF Hbad st I) as (o & E & _ & K).
    cbn [dstep] in HS. rewrite E in HS. injection HS as ->. apply K; [reflexivity| |exact HF].
    assert (LT : (N - F <= length (Tat st (tag sha M0)))%nat).
    { eapply Nat.le_trans; [exact LL|]. rewrite <- (map_length fst). apply NoDup_incl_length; [exact ND|]. intros s S. destruct (HL s S) as (NB & x & X).
      apply (i_got _ _ _ _ _ _ _ I); [|exact NB]. apply (druns_got sha rs_verify rs_reconstruct N F bad M0 shards evs st R s x X). }
    destruct (i_started _ _ _ _ _ _ _ I LT) as [S|[S|[S|S]]]; [exact S|congruence..].
Qed.

Local Notation T0 := (tag sha M0).

(** The state after the Ready messages of members 0, ..., n-1. *)
Definition after (n : nat) (d : dph) (st : dst) : Prop :=
  Tat st T0 = map (fun i => (Z.of_nat i, nth i shards [])) (seq 0 n) /\ d_maxN st = n /\ ((0 < n)%nat -> d_maxH st = T0) /\
  d_got st = List.rev (map Z.of_nat (seq 0 n)) /\ d_start st = (N - F <=? n)%nat /\ d_h st = HFree /\ d_d st = d.

Definition leads (st st' : dst) : Prop := forall evs, runs evs st -> exists evs', runs evs' st'.
Lemma leads_step st e st' : fair_ev sha N bad M0 shards e -> step st e = Ret (Some st') -> leads st st'.
Proof. intros FE E evs R. exists (evs ++ [e]). exact (dr_step _ _ _ _ _ _ _ _ evs st e st' R FE E). Qed.
Lemma leads_trans a b c : leads a b -> leads b c -> leads a c.
Proof. intros H1 H2 evs R. destruct (H1 evs R) as (evs1 & R1). exact (H2 evs1 R1). Qed.

(** Member n's message up to the writes of lines 192 and 193. *)
Lemma half n d mh T st : (n < N)%nat -> st = mkD T n mh (List.rev (map Z.of_nat (seq 0 n))) (N - F <=? n)%nat HFree d ->
  Tat st T0 = map (fun i => (Z.of_nat i, nth i shards [])) (seq 0 n) ->
  exists T', leads st (mkD T' (n + 1) T0 (List.rev (map Z.of_nat (seq 0 (n + 1)))) (N - F <=? n)%nat (HHold T0) d) /\
    forall a b c d' e f, Tat (mkD T' a b c d' e f) T0 = map (fun i => (Z.of_nat i, nth i shards [])) (seq 0 (n + 1)).
Proof.
  intros HN -> ET. set (l := map (fun i => (Z.of_nat i, nth i shards [])) (seq 0 n) ++ [(Z.of_nat n, nth n shards [])]).
  assert (LE : l = map (fun i => (Z.of_nat i, nth i shards [])) (seq 0 (n + 1))) by (rewrite seq_app, map_app; reflexivity).
  assert (LL : length l = (n + 1)%nat) by (unfold l; rewrite app_length, map_length, seq_length; reflexivity).
  exists (update T0 l T). split.
  - set (st1 := mkD (update T0 l T) n mh (Z.of_nat n :: List.rev (map Z.of_nat (seq 0 n))) (N - F <=? n)%nat (HNum T0) d).
    set (st2 := mkD (update T0 l T) (n + 1) mh (Z.of_nat n :: List.rev (map Z.of_nat (seq 0 n))) (N - F <=? n)%nat (HHash T0) d).
    apply (leads_trans _ st1); [apply (leads_step _ (EvTake (Z.of_nat n) (T0, nth n shards [])))|apply (leads_trans _ st2); apply (leads_step _ EvHandler)]; try exact Logic.I.
    + left. cbn [fst snd]. rewrite Nat2Z.id. split; [reflexivity|]. split; [lia|reflexivity].
    + cbn [dstep]. unfold take_step. cbn [d_h d_got d_T d_maxN d_maxH d_start d_d fst snd].
      assert (EX : existsb (Z.eqb (Z.of_nat n)) (List.rev (map Z.of_nat (seq 0 n))) = false).
      { apply not_true_is_false. intros X. apply existsb_exists in X. destruct X as (z & Z1 & Z2). apply <- List.in_rev in Z1. apply in_map_iff in Z1. destruct Z1 as (i & <- & Z1). apply in_seq in Z1. apply Z.eqb_eq in Z2. lia. }
      rewrite EX, ET. fold l. rewrite LL. destruct (Nat.ltb_spec n (n + 1)); [|lia]. reflexivity.
    + cbn [dstep]. unfold handler_step. cbn [d_h st1]. unfold Tat at 1. cbn [d_T st1 d_maxH d_got d_start d_d]. rewrite lookup_update_same, LL. reflexivity.
    + cbn [dstep]. unfold handler_step. cbn [d_h st2 d_T d_maxN d_got d_start d_d]. rewrite seq_app, map_app, List.rev_app_distr. reflexivity.
  - intros a b c d' e f. unfold Tat. cbn [d_T]. rewrite lookup_update_same. exact LE.
Qed.

(** The rest of it. *)
Lemma other_half n d T : (forall a b c d' e f, Tat (mkD T a b c d' e f) T0 = map (fun i => (Z.of_nat i, nth i shards [])) (seq 0 (n + 1))) ->
  exists st', leads (mkD T (n + 1) T0 (List.rev (map Z.of_nat (seq 0 (n + 1)))) (N - F <=? n)%nat (HHold T0) d) st' /\ after (n + 1) d st'.
Proof.
  intros ET. exists (mkD T (n + 1) T0 (List.rev (map Z.of_nat (seq 0 (n + 1)))) (N - F <=? n + 1)%nat HFree d). split.
  - apply (leads_trans _ (mkD T (n + 1) T0 (List.rev (map Z.of_nat (seq 0 (n + 1)))) (N - F <=? n + 1)%nat HDone d)); apply (leads_step _ EvHandler); try exact Logic.I.
    + cbn [dstep]. unfold handler_step. cbn [d_h d_T d_maxN d_maxH d_got d_start d_d]. rewrite ET, map_length, seq_length. do 3 f_equal.
      destruct (Nat.leb_spec (N - F) n), (Nat.leb_spec (N - F) (n + 1)); try lia; reflexivity.
    + reflexivity.
  - unfold after. rewrite ET. cbn [d_maxN d_maxH d_got d_start d_h d_d]. repeat (split; [reflexivity|]). reflexivity.
Qed.

Lemma feed n : (n <= N)%nat -> exists evs st, runs evs st /\ after n DWait st.
Proof.
  induction n as [|n IH]; intros HN.
  - exists [], dec_init. split; [constructor|]. unfold after. cbn [dec_init d_maxN d_maxH d_got d_start d_h d_d seq map List.rev]. split; [reflexivity|]. split; [reflexivity|]. split; [lia|].
    split; [reflexivity|]. split; [|split; reflexivity]. destruct (Nat.leb_spec (N - F) 0); [lia|reflexivity].
  - destruct IH as (evs & st & R & A); [lia|]. destruct st as [T mn mh g s hp d]. destruct A as (A1 & A2 & A3 & A4 & A5 & A6 & A7). cbn [d_maxN d_maxH d_got d_start d_h d_d] in *. subst.
    destruct (half n DWait mh T _ HN eq_refl A1) as (T' & L1 & ET). destruct (other_half n DWait T' ET) as (st' & L2 & A). rewrite Nat.add_1_r in A.
    destruct (leads_trans _ _ _ L1 L2 evs R) as (evs' & R'). exists evs', st'. auto.
Qed.

(** That the first round suffices if everything that arrives is right, is refuted: for every r up to F there is a run
    in which r rounds have failed, because line 193 restores MaxReadyHash between lines 277 and 283. *)
Theorem c74_retry_refuted : forall r, (r <= F)%nat -> exists evs st, runs evs st /\ d_d st = DSpin r.
Proof.
  assert (G : forall r, (r <= F)%nat -> exists evs st, runs evs st /\ after (N - F + r) (DSpin r) st); [|intros r Hr; destruct (G r Hr) as (evs & st & R & A); exists evs, st; split; [exact R|apply A]].
  destruct (hash_facts sha N F bad M0 HSHA HLEN HNF Hbad) as (H1 & H2 & H3 & H4).
  induction r as [|r IH]; intros HR.
  - destruct (feed (N - F)) as (evs & st & R & A); [lia|]. destruct A as (A1 & A2 & A3 & A4 & A5 & A6 & A7). rewrite Nat.add_0_r.
    destruct (leads_step st EvDecoder (at_phase st (d_maxH st) (DSpin 0)) Logic.I) with (evs := evs) as (evs' & R'); [|exact R|].
    + cbn [dstep]. unfold decoder_step. rewrite A7, A5, Nat.leb_refl. reflexivity.
    + exists evs', (at_phase st (d_maxH st) (DSpin 0)). split; [exact R'|]. unfold after. repeat (split; [assumption|]). reflexivity.
  - destruct IH as (evs & st & R & A); [lia|]. pose proof (druns_inv sha rs_encode rs_verify rs_reconstruct N F bad M0 shards RS HSHA HLEN HNF Hbad evs st R) as I.
    destruct A as (A1 & A2 & A3 & A4 & A5 & A6 & A7). specialize (A3 ltac:(lia)).
    destruct (copy_ok sha rs_encode rs_verify rs_reconstruct N F bad M0 shards RS HSHA HNF Hbad st r I ltac:(lia) ltac:(lia)) as (X & EX & (pad & WX)).
    destruct st as [T mn mh g s hp d]. cbn [d_maxN d_maxH d_got d_start d_h d_d] in *. subst mh hp d g s. rewrite A2 in *. clear A2 mn. set (n := (N - F + r)%nat) in *.
    set (g := List.rev (map Z.of_nat (seq 0 n))) in *. set (s := (N - F <=? n)%nat) in *.
    assert (L0 : leads (mkD T n T0 g s HFree (DSpin r)) (mkD T n (sha M0) g s HFree (DCmp r M0))).
    { apply (leads_trans _ (mkD T n T0 g s HFree (DCopy r))); [apply (leads_step _ EvDecoder); [exact Logic.I|]|].
      { cbn [dstep]. unfold decoder_step. cbn [d_d d_maxN]. fold n. rewrite Nat.leb_refl. reflexivity. }
      apply (leads_trans _ (mkD T n T0 g s HFree (DLen r (M0 ++ pad)))); [apply (leads_step _ EvDecoder); [exact Logic.I|]|].
      { cbn [dstep]. unfold decoder_step. cbn [d_d d_h d_maxH]. fold n.
        replace (Tat (mkD T n T0 g s HFree (DCopy r)) T0) with (Tat (mkD T n T0 g s HFree (DSpin r)) T0) by reflexivity. rewrite EX. cbn [bind]. rewrite WX. reflexivity. }
      apply (leads_trans _ (mkD T n T0 g s HFree (DCut r (M0 ++ pad) (Z.of_nat (length M0))))); [apply (leads_step _ EvDecoder); [exact Logic.I|]|].
      { cbn [dstep]. unfold decoder_step. cbn [d_d d_h d_maxH]. rewrite H3, H2. reflexivity. }
      apply (leads_trans _ (mkD T n T0 g s HFree (DWrite r (M0 ++ pad) (Z.of_nat (length M0)) (sha M0)))); [apply (leads_step _ EvDecoder); [exact Logic.I|]|].
      { cbn [dstep]. unfold decoder_step. cbn [d_d d_h d_maxH]. rewrite H3, H1. reflexivity. }
      apply (leads_step _ EvDecoder); [exact Logic.I|]. cbn [dstep]. unfold decoder_step. cbn [d_d d_h d_maxH].
      rewrite (proj2 (Z.ltb_ge _ _)) by (rewrite app_length; lia). rewrite Nat2Z.id, firstn_app, firstn_all, Nat.sub_diag. cbn [firstn]. rewrite app_nil_r. reflexivity. }
    destruct (half n (DCmp r M0) (sha M0) T (mkD T n (sha M0) g s HFree (DCmp r M0))) as (T' & L1 & ET); [lia|reflexivity|exact A1|].
    destruct (other_half n (DSpin (r + 1)) T' ET) as (st' & L2 & A).
    assert (L3 : leads (mkD T' (n + 1) T0 (List.rev (map Z.of_nat (seq 0 (n + 1)))) s (HHold T0) (DCmp r M0)) (mkD T' (n + 1) T0 (List.rev (map Z.of_nat (seq 0 (n + 1)))) s (HHold T0) (DSpin (r + 1)))).
    { apply (leads_step _ EvDecoder); [exact Logic.I|]. cbn [dstep]. unfold decoder_step. cbn [d_d d_h d_maxH]. destruct (bytes_eqb (sha M0) T0) eqn:EB; [apply bytes_eqb_eq in EB; congruence|].
      destruct (Nat.ltb_spec r F); [|lia]. reflexivity. }
    destruct (leads_trans _ _ _ (leads_trans _ _ _ L0 L1) (leads_trans _ _ _ L3 L2) evs R) as (evs' & R').
    exists evs', st'. split; [exact R'|]. replace (N - F + S r)%nat with (n + 1)%nat by (unfold n; lia). rewrite <- (Nat.add_1_r r). exact A.
Qed.

(** Runs by computation. *)
Fixpoint exec (evs : list dev) (st : dst) : option dst :=
  match evs with
  | [] => Some st
  | e :: evs' => match step st e with Ret (Some st') => exec evs' st' | _ => None end
  end.
Lemma exec_runs evs' : forall evs st st', runs evs st -> Forall (fair_ev sha N bad M0 shards) evs' -> exec evs' st = Some st' -> runs (evs ++ evs') st'.
Proof.
  induction evs' as [|e evs' IH]; intros evs st st' R FE E; cbn [exec] in E; [injection E as <-; rewrite app_nil_r; exact R|].
  destruct (step st e) as [[st1|]| | |] eqn:ES; try discriminate. inversion FE; subst. replace (evs ++ e :: evs') with ((evs ++ [e]) ++ evs') by (rewrite <- app_assoc; reflexivity).
  apply (IH _ st1); [|assumption|exact E]. exact (dr_step _ _ _ _ _ _ _ _ evs st e st1 R H1 ES).
Qed.
End Decode.
Print Assumptions c74_safe.
Print Assumptions c74_ends.
Print Assumptions c74_retry_refuted.

(** Four members; member 3 announces another hash. *)
Definition demo_evs : list dev :=
  let h := tag toy_sha [5%Z] in let t s n := EvTake s (h, [5%Z]) :: repeat EvHandler n in
  EvTake 3 ([9%Z], []) :: repeat EvHandler 4 ++ t 0%Z 2 ++ t 1%Z 4.

Example c74_other_ex : exists st, druns toy_sha toy_verify toy_reconstruct 4 1 [3%Z] [5%Z] (repeat [5%Z] 4) (demo_evs ++ [EvTake 2 (tag toy_sha [5%Z], [5%Z])] ++ repeat EvHandler 4 ++ repeat EvDecoder 7) st /\
  d_d st = DOut (Some [5%Z]).
Proof.
  eexists. split.
  - apply (exec_runs toy_sha toy_verify toy_reconstruct 4 1 [3%Z] [5%Z] (repeat [5%Z] 4) _ [] dec_init); [exact (dr_nil _ _ _ _ _ _ _ _)| |vm_compute; reflexivity].
    unfold demo_evs. cbn [app repeat].
    repeat (apply Forall_cons; [first [exact Logic.I | left; cbn [fst snd]; split; [reflexivity|split; [lia|reflexivity]] | right; cbn [fst]; split; [discriminate|left; reflexivity]]|]). apply Forall_nil.
  - reflexivity.
Qed.

Example c74_retry_ex : exists evs st, druns toy_sha toy_verify toy_reconstruct 4 1 [] [5%Z] (repeat [5%Z] 4) evs st /\ d_d st = DSpin 1.
Proof.
  apply (c74_retry_refuted toy_sha toy_encode); [apply toy_good; [discriminate|lia]|apply toy_sha_length|reflexivity|lia|apply Nat.le_0_l|apply le_n].
Qed.
