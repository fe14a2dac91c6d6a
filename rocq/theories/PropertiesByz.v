(** Headline theorems: reliable broadcast with an honest dealer and corrupted members that do send (C32). *)

Require Import ZArith List Bool Arith Lia.
From Verif Require Import Bytes CodecModel CodecProofs GoBase DispatchModel DispatchProofs PolyProofs VssModel RbcModel RbcProofs RbcGood RbcByz PropertiesRbc.
Import ListNotations.

Section Byz.
Variable sha : list Z -> list Z.
Variable rs_encode : nat -> nat -> list Z -> option (list (list Z)).
Variable rs_verify : nat -> nat -> list (list Z) -> bool.
Variable rs_reconstruct : nat -> nat -> list (list Z) -> list (list Z).
Variables N F : nat.
Variable bad : list nat.
Hypothesis Hbad : (length bad <= F)%nat.
Hypothesis HNF : (3 * F + 1 <= N)%nat.

(** C32: all proposals taken are the dealer's message, and no member takes two Echo messages of one sender.
    The corrupted members send any Echo and Ready messages, different ones to different members, but not
    the hash of the dealer's message with a wrong shard in a Ready message ([c32_wrong_shard_refuted] shows
    that this cannot be dropped).  When everything has been done that the honest members' messages allow,
    every honest member has returned the dealer's message; none returns anything else before; none panics. *)
Theorem c32_byzantine M shards g : rs_good rs_encode rs_verify rs_reconstruct N F M shards ->
  length (sha M) = 32%nat -> (Z.of_nat (length M) < 2 ^ 32)%Z ->
  byz sha rs_encode rs_verify rs_reconstruct N F bad M shards g ->
  (quiescent sha rs_encode rs_verify rs_reconstruct N F bad M g -> forall i, honest N bad i -> r_out (g_st g i) = Some (Some M)) /\
  (forall i r, honest N bad i -> r_out (g_st g i) = Some r -> r = Some M) /\
  (forall i e, honest N bad i -> byz_event sha N bad M shards g i e ->
     exists o, rstep sha rs_encode rs_verify rs_reconstruct N F (g_st g i) e = Ret o).
Proof.
  intros RS HS HL G. split; [|split].
  - intros Q i Hi. exact (byz_quiescent sha rs_encode rs_verify rs_reconstruct N F bad M shards RS HS HL HNF Hbad g G Q i Hi).
  - intros i r Hi E. exact (byz_output sha rs_encode rs_verify rs_reconstruct N F bad M shards RS HS HL HNF Hbad g i r G Hi E).
  - intros i e Hi Ge. exact (byz_no_panic sha rs_encode rs_verify rs_reconstruct N F bad M shards RS HS HL HNF Hbad g i e G Hi Ge).
Qed.

(** C32: such runs end.  Not counting repeated Ready messages, which are dropped, there are at most N(3N+4)
    steps, and from every state reached the run can go on to one in which every honest member has returned
    the dealer's message. *)
Theorem c32_ends M shards k g : rs_good rs_encode rs_verify rs_reconstruct N F M shards ->
  length (sha M) = 32%nat -> (Z.of_nat (length M) < 2 ^ 32)%Z ->
  byzn sha rs_encode rs_verify rs_reconstruct N F bad M shards k g ->
  (k <= N * (3 * N + 4))%nat /\
  exists g', leads sha rs_encode rs_verify rs_reconstruct N F bad M shards g g' /\
    forall i, honest N bad i -> r_out (g_st g' i) = Some (Some M).
Proof.
  intros RS HS HL B. split; [exact (byz_ends sha rs_encode rs_verify rs_reconstruct N F bad M shards RS HS HL HNF Hbad k g B)|].
  destruct (byz_completes sha rs_encode rs_verify rs_reconstruct N F bad M shards RS HS HL HNF Hbad k g B) as (g' & L & _ & O).
  exists g'. auto.
Qed.
End Byz.

Print Assumptions c32_byzantine.
Print Assumptions c32_ends.

(** ** A run *)

Definition byzb (N : nat) (bad : list nat) (M : list Z) (shards : list (list Z)) (g : gst) (i : nat) (e : rev) : bool :=
  match e with
  | EvPropose _ M' => bytes_eqb M' M
  | EvEcho s x => authb N bad g i e && negb (inb pair_dec (i, s) (map fst (g_took g)))
  | EvReady s x => authb N bad g i e && (negb (bytes_eqb (fst x) (tag toy_sha M)) || bytes_eqb (snd x) (nth (Z.to_nat s) shards []))
  | _ => true
  end.

Lemma byzb_ok N bad M shards g i e : byzb N bad M shards g i e = true -> byz_event toy_sha N bad M shards g i e.
Proof.
  destruct e; cbn [byzb byz_event]; auto.
  - intros H. apply bytes_eqb_eq. exact H.
  - rewrite andb_true_iff. intros (A & B). apply authb_ok in A. cbn [authentic] in A. destruct A as (A1 & A2). split; [exact A1|]. split; [exact A2|].
    apply negb_true_iff in B. intros K. apply (inb_ok pair_dec) in K. congruence.
  - rewrite andb_true_iff. intros (A & B). apply authb_ok in A. cbn [authentic] in A. destruct A as (A1 & A2). split; [exact A1|]. split; [exact A2|].
    intros K. rewrite K in B. rewrite (proj2 (bytes_eqb_eq _ _) eq_refl) in B. cbn [negb orb] in B. apply bytes_eqb_eq. exact B.
Qed.

Lemma exec_byz N F bad M shards evs : forall g g' k, byzn toy_sha toy_encode toy_verify toy_reconstruct N F bad M shards k g ->
  exec N F bad (byzb N bad M shards) g evs = Some g' -> exists k', byzn toy_sha toy_encode toy_verify toy_reconstruct N F bad M shards k' g'.
Proof.
  induction evs as [|(i & e) evs IH]; intros g g' k R H; cbn [exec] in H; [inversion H; subst; exists k; exact R|].
  destruct (honestb N bad i && byzb N bad M shards g i e) eqn:EB; [|discriminate]. apply andb_true_iff in EB. destruct EB as (E1 & E2).
  destruct (rstep toy_sha toy_encode toy_verify toy_reconstruct N F (g_st g i) e) as [[(st & outs)|]| | |] eqn:ES; try discriminate.
  eapply (IH (gnext g i e st outs) g'); [|exact H].
  constructor; [exact R|apply honestb_ok; exact E1|apply byzb_ok; exact E2|exact ES].
Qed.

(** Member 3 sends another value to member 0, a wrong shard to member 1, and announces another hash to
    member 2 and the right one, with the right shard, to member 1; all the same, all return the dealer's message. *)
Definition byz_run : list (nat * rev) :=
  map (fun i => (i, EvPropose 0%Z demoM)) [0; 1; 2]%nat ++
  [(0%nat, EvEcho 3%Z ([1%Z], [1%Z])); (0%nat, EvEchoCheck); (1%nat, EvEcho 3%Z (tag toy_sha demoM, [1%Z])); (1%nat, EvEchoCheck);
   (2%nat, EvReady 3%Z ([1%Z], [1%Z])); (1%nat, EvReady 3%Z demoX)] ++
  flat_map (fun i => flat_map (echo_from i) [2; 1; 0]%Z) [0; 1]%nat ++
  [(2%nat, EvReady 0%Z demoX); (2%nat, EvReady 1%Z demoX)] ++ flat_map (echo_from 2) [0; 1; 2]%Z ++ [(2%nat, EvReadyPop); (2%nat, EvReadySend)] ++
  flat_map (fun i => map (fun s => (i, EvReady s demoX)) [0; 1; 2]%Z) [0; 1]%nat ++ [(2%nat, EvReady 2%Z demoX)] ++
  map (fun i => (i, EvDecode)) [0; 1; 2]%nat.

Example c32_byz_example : exists k g, byzn toy_sha toy_encode toy_verify toy_reconstruct 4 1 [3%nat] demoM (repeat demoM 4) k g /\
  quiescent toy_sha toy_encode toy_verify toy_reconstruct 4 1 [3%nat] demoM g /\
  r_out (g_st g 0) = Some (Some demoM) /\ r_out (g_st g 1) = Some (Some demoM) /\ r_out (g_st g 2) = Some (Some demoM).
Proof.
  destruct (exec 4 1 [3%nat] (byzb 4 [3%nat] demoM (repeat demoM 4)) g_init byz_run) as [g|] eqn:E; [|vm_compute in E; discriminate].
  destruct (exec_byz 4 1 [3%nat] demoM (repeat demoM 4) byz_run _ _ 0 (byzn_init _ _ _ _ _ _ _ _ _) E) as (k & B).
  exists k, g. split; [exact B|].
  assert (Q : quietb 4 1 [3%nat] demoM g = true) by (vm_compute in E; inversion E; vm_compute; reflexivity).
  split; [apply quietb_ok; exact Q|]. vm_compute in E. inversion E. repeat split; reflexivity.
Qed.
