(** Headline theorems: where the values returned by reliable broadcast come from (C62). *)

Require Import ZArith List Bool Arith Lia.
From Verif Require Import Bytes CodecModel GoBase DispatchModel DispatchProofs VssModel RbcModel RbcProofs RbcGood PropertiesRbc.
Import ListNotations.

Section Integ.
Variable sha : list Z -> list Z.
Variable rs_encode : nat -> nat -> list Z -> option (list (list Z)).
Variable rs_verify : nat -> nat -> list (list Z) -> bool.
Variable rs_reconstruct : nat -> nat -> list (list Z) -> list (list Z).
Variables N F : nat.
Variable bad : list nat.
Hypothesis Hbad : (length bad <= F)%nat.
Hypothesis HNF : (3 * F + 1 <= N)%nat.

(** An execution together with the list of the steps taken by honest members.  Corrupted members may
    send anything at any time; messages of honest members were sent by them. *)
Inductive run : list (nat * rev) -> gst -> Prop :=
| run_nil : run [] g_init
| run_step tr g i e st outs : run tr g -> honest N bad i -> authentic N bad g i e ->
    rstep sha rs_encode rs_verify rs_reconstruct N F (g_st g i) e = Ret (Some (st, outs)) ->
    run (tr ++ [(i, e)]) (gnext g i e st outs).

Lemma run_reach tr g : run tr g -> reach sha rs_encode rs_verify rs_reconstruct N F bad g.
Proof. induction 1; [constructor|]. econstructor; eassumption. Qed.

Lemma run_echo tr g : run tr g -> forall s j x, In (s, j, x) (g_echo g) ->
  exists d M, In (s, EvPropose d M) tr /\ fst x = tag sha M.
Proof.
  induction 1 as [|tr g i e st outs R IH Hi HA HS]; intros s j x H; [destruct H|].
  unfold gnext in H. cbn [g_echo] in H. apply in_app_or in H. destruct H as [H|H].
  - destruct (IH s j x H) as (d & M & K1 & K2). exists d, M. split; [apply in_or_app; left; exact K1|exact K2].
  - apply in_echoes in H. destruct H as (-> & H).
    destruct (step_sends sha rs_encode rs_verify rs_reconstruct N F _ _ _ HS) as [(_ & K)|(_ & _ & d & M & -> & K)].
    + exfalso. exact (K _ _ H).
    + exists d, M. split; [apply in_or_app; right; left; reflexivity|]. exact (K j x H).
Qed.

(** Every readiness message of an honest member carries the tag of a proposal that an honest member
    took, if no sender's Echo is counted twice. *)
Theorem c62_ready_from_proposal tr g : run tr g -> counted_once g ->
  forall i h m, In (i, (h, m)) (g_ready g) ->
  exists s d M, honest N bad s /\ In (s, EvPropose d M) tr /\ h = sha M ++ IntToBytes (Z.of_nat (length M)).
Proof.
  intros R ND i h m H. pose proof (reach_ginv _ _ _ _ _ _ _ Hbad HNF g (run_reach tr g R)) as I.
  destruct (i_ready _ _ _ _ I i (h, m) H) as (_ & k & m' & Hk & L). cbn [fst] in *.
  assert (NDS : NoDup (map (fun t => snd (fst t)) (took g k (h, m')))) by (eapply took_nodup; eauto).
  destruct (honest_in N F bad Hbad (map (fun t => snd (fst t)) (took g k (h, m')))) as (s & Hs & HH).
  - exact NDS.
  - intros s Hs. apply in_map_iff in Hs. destruct Hs as (((a & b) & c) & <- & Ht). apply took_in in Ht. destruct Ht as (Ht & _ & _).
    apply (i_took _ _ _ _ I _ _ _ Ht).
  - rewrite map_length. lia.
  - apply in_map_iff in Hs. destruct Hs as (((a & b) & c) & <- & Ht). apply took_in in Ht. destruct Ht as (Ht & E1 & E2). cbn [fst snd] in *. subst a c.
    destruct (i_took _ _ _ _ I _ _ _ Ht) as (_ & K). specialize (K HH). destruct (run_echo tr g R _ _ _ K) as (d & M & P1 & P2).
    exists (Z.to_nat b), d, M. split; [exact HH|]. split; [exact P1|]. exact P2.
Qed.

(** Every message returned by an honest member has the hash of a proposal that an honest member took. *)
Theorem c62_output_from_proposal tr g : run tr g -> counted_once g -> (forall M, length (sha M) = 32%nat) ->
  forall i M, honest N bad i -> r_out (g_st g i) = Some (Some M) ->
  exists s d M', honest N bad s /\ In (s, EvPropose d M') tr /\ sha M = sha M'.
Proof.
  intros R ND HL i M Hi E.
  destruct (output_ready _ _ _ _ _ _ _ Hbad HNF g i M (run_reach tr g R) Hi E) as (k & (h & m) & H1 & H2). cbn [fst] in H2.
  destruct (c62_ready_from_proposal tr g R ND k h m H1) as (s & d & M' & Hs & HP & ->).
  exists s, d, M'. split; [exact Hs|]. split; [exact HP|]. rewrite <- H2. rewrite firstn_app, (HL M'), Nat.sub_diag, firstn_O, app_nil_r.
  rewrite <- (HL M'). apply firstn_all.
Qed.

(** Integrity: if every proposal taken by an honest member is the dealer's message, then whatever up to
    F corrupted members do, an honest member returns the dealer's message or nothing (unless what it returns is a SHA-256 collision). *)
Theorem c62_integrity tr g M : run tr g -> counted_once g -> (forall M, length (sha M) = 32%nat) ->
  (forall s d M', In (s, EvPropose d M') tr -> M' = M) ->
  forall i r, honest N bad i -> r_out (g_st g i) = Some r ->
  (forall M', r = Some M' -> sha M' = sha M -> M' = M) -> r = Some M \/ r = None.
Proof.
  intros R ND HL HP i [M'|] Hi E CR; [|right; reflexivity]. left.
  destruct (c62_output_from_proposal tr g R ND HL i M' Hi E) as (s & d & M'' & _ & Hs & ES). f_equal. apply CR; [reflexivity|]. rewrite ES. f_equal. exact (HP _ _ _ Hs).
Qed.
End Integ.

Print Assumptions c62_ready_from_proposal.
Print Assumptions c62_output_from_proposal.
Print Assumptions c62_integrity.

Section Toy.
Variables N F : nat.
Variable bad : list nat.
Notation trun := (run toy_sha toy_encode toy_verify toy_reconstruct N F bad).

Lemma exec_run evs : forall tr g g', trun tr g -> exec N F bad (authb N bad) g evs = Some g' -> trun (tr ++ evs) g'.
Proof.
  induction evs as [|(i & e) evs IH]; intros tr g g' R H; cbn [exec] in H; [inversion H; subst; rewrite app_nil_r; exact R|].
  destruct (honestb N bad i && authb N bad g i e) eqn:EB; [|discriminate]. apply andb_true_iff in EB. destruct EB as (E1 & E2).
  destruct (rstep toy_sha toy_encode toy_verify toy_reconstruct N F (g_st g i) e) as [[(st & outs)|]| | |] eqn:ES; try discriminate.
  replace (tr ++ (i, e) :: evs) with ((tr ++ [(i, e)]) ++ evs) by (rewrite <- app_assoc; reflexivity).
  apply (IH _ (gnext g i e st outs) g'); [|exact H].
  constructor; [exact R|apply honestb_ok; exact E1|apply authb_ok; exact E2|exact ES].
Qed.
End Toy.

(** The hypothesis on the proposals is needed: RBCReceive (RBC.go:73) takes the first RBCPropose message of
    the instance without looking at its sender.  Member 0 is the honest dealer of [demoM]; corrupted
    member 3 proposes another message first, and honest member 1 returns that one. *)
Definition otherM : list Z := [1; 2; 3]%Z.
Definition otherX : hm := (tag toy_sha otherM, otherM).
Definition hijack : list (nat * rev) :=
  map (fun i => (i, EvPropose 3%Z otherM)) [0; 1; 2]%nat ++
  flat_map (fun i => flat_map (fun s => [(i, EvEcho s otherX); (i, EvEchoCheck)]) [0; 1; 2]%Z) [0; 1; 2]%nat ++
  map (fun s => (1%nat, EvReady s otherX)) [0; 1; 2]%Z ++ [(1%nat, EvDecode)].

Theorem c62_hijack_refuted : exists tr g, run toy_sha toy_encode toy_verify toy_reconstruct 4 1 [3%nat] tr g /\ counted_once g /\
  (forall s M, In (s, EvPropose 0%Z M) tr -> M = demoM) /\
  r_out (g_st g 1) = Some (Some otherM) /\ otherM <> demoM.
Proof.
  destruct (exec 4 1 [3%nat] (authb 4 [3%nat]) g_init hijack) as [g|] eqn:E; [|vm_compute in E; discriminate].
  exists hijack, g. split; [exact (exec_run 4 1 [3%nat] hijack [] _ _ (run_nil _ _ _ _ _ _ _) E)|].
  vm_compute in E. inversion E. clear. split; [|split; [|split; [reflexivity|discriminate]]].
  - unfold counted_once. cbn [g_took map fst].
    repeat constructor; cbn [In]; intros K; repeat (destruct K as [K|K]; [discriminate|]); exact K.
  - intros s M K. cbv [hijack map flat_map app] in K. repeat (destruct K as [K|K]; [discriminate|]). destruct K.
Qed.

(** A run as in [c62_integrity]: corrupted member 3 sends Echo and Ready messages for another value to
    member 1, which returns the dealer's message all the same. *)
Definition noisy : list (nat * rev) :=
  map (fun i => (i, EvPropose 0%Z demoM)) [0; 1; 2]%nat ++
  [(1%nat, EvEcho 3%Z otherX); (1%nat, EvEchoCheck)] ++
  flat_map (fun i => flat_map (fun s => [(i, EvEcho s demoX); (i, EvEchoCheck)]) [0; 1; 2]%Z) [0; 1; 2]%nat ++
  (1%nat, EvReady 3%Z otherX) :: map (fun s => (1%nat, EvReady s demoX)) [0; 1; 2]%Z ++ [(1%nat, EvDecode)].

Example c62_example : exists g, run toy_sha toy_encode toy_verify toy_reconstruct 4 1 [3%nat] noisy g /\ counted_once g /\
  (forall s d M, In (s, EvPropose d M) noisy -> M = demoM) /\ r_out (g_st g 1) = Some (Some demoM).
Proof.
  destruct (exec 4 1 [3%nat] (authb 4 [3%nat]) g_init noisy) as [g|] eqn:E; [|vm_compute in E; discriminate].
  exists g. split; [exact (exec_run 4 1 [3%nat] noisy [] _ _ (run_nil _ _ _ _ _ _ _) E)|].
  vm_compute in E. inversion E. clear. split; [|split; [|reflexivity]].
  - unfold counted_once. cbn [g_took map fst].
    repeat constructor; cbn [In]; intros K; repeat (destruct K as [K|K]; [discriminate|]); exact K.
  - intros s d M K. cbv [noisy map flat_map app] in K. repeat (destruct K as [K|K]; [try discriminate; inversion K; reflexivity|]). destruct K.
Qed.

Print Assumptions c62_hijack_refuted.
Print Assumptions c62_example.
