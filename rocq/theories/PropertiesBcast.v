(** Headline theorems: what arrives of a reliably broadcast message (C86). *)

Require Import String ZArith List Bool Arith Lia.
From Verif Require Import Bytes CodecModel CodecProofs GoBase DispatchModel DispatchProofs PolyProofs VssModel SendModel SendProofs ProtoModel
  RbcModel RbcProofs RbcGood RbcByz RbcSendModel PropertiesRbc PropertiesByz PropertiesNet PropertiesProto.
Import ListNotations.

(** The message all fields of which have their default values. *)
Definition empty_message : msg := mkMsg [] [] 0 [].

Section Bcast.
Variable left_over : msg -> list Z.

(** A message with a proper type is proposed as bytes from which it is read back, to every member once;
    the envelope itself survives the wire. *)
Theorem c86_send p pid M ID : open_chans (sendChannels p) (sp_N p) -> sendToNextChannels p <> None ->
  utf8_valid (m_type M) = true -> u32 (m_sender M) -> u32 pid ->
  exists p' e, RBCSend left_over p pid M ID = Ok p' /\ sendToNextChannels p' = sendToNextChannels p /\
    (forall d, log_of (sendChannels p') d = log_of (sendChannels p) d ++ if (d <? sp_N p)%nat then [e] else []) /\
    m_type e = bytes_of_string "RBCPropose" /\ m_id e = ID /\ m_sender e = pid /\
    (small (m_data e) -> UnmarshalMessage (m_data e) = (M, true)) /\
    exists b, MarshalMessage e = Ret b /\ (small b -> UnmarshalMessage b = (e, true)).
Proof.
  intros O NN U S P. set (e := proposal left_over pid M ID).
  destruct (c07_broadcast p e O NN) as (p' & E & H1 & H2). exists p', e.
  split; [unfold RBCSend; fold e; rewrite E; reflexivity|]. split; [exact H1|]. split; [exact H2|].
  split; [reflexivity|]. split; [reflexivity|]. split; [reflexivity|]. split.
  - unfold e, proposal. cbn [m_data]. unfold proposed. destruct (proj2 (c04_writable M S) U) as (b & Eb). rewrite Eb.
    intros L. apply c04_message; assumption.
  - assert (UE : utf8_valid (m_type e) = true) by reflexivity.
    destruct (proj2 (c04_writable e P) UE) as (b & Eb). exists b. split; [exact Eb|]. intros L. apply c04_message; assumption.
Qed.

(** The variant that leaves out a member. *)
Theorem c86_send_exclude p pid M ID ex : open_chans (sendChannels p) (sp_N p) -> sendToNextChannels p <> None ->
  exists p' p'' e, RBCSend left_over p pid M ID = Ok p' /\ RBCSendExclude left_over p pid M ID ex = Ok p'' /\
    (forall d, log_of (sendChannels p') d = log_of (sendChannels p) d ++ if (d <? sp_N p)%nat then [e] else []) /\
    (forall d, d <> ex -> log_of (sendChannels p'') d = log_of (sendChannels p') d) /\
    log_of (sendChannels p'') ex = log_of (sendChannels p) ex.
Proof.
  intros O NN. set (e := proposal left_over pid M ID).
  destruct (c07_broadcast p e O NN) as (p' & E & _ & H2).
  destruct (c07_broadcast_exclude p e ex O NN) as (p'' & E' & _ & H2').
  exists p', p'', e. split; [unfold RBCSend; fold e; rewrite E; reflexivity|].
  split; [unfold RBCSendExclude; fold e; rewrite E'; reflexivity|]. split; [exact H2|].
  split; [intros d Hd; rewrite H2, H2', (proj2 (Nat.eqb_neq _ _) Hd), andb_true_r; reflexivity|].
  rewrite H2', Nat.eqb_refl, andb_false_r, app_nil_r. reflexivity.
Qed.

Variable sha : list Z -> list Z.
Variable rs_encode : nat -> nat -> list Z -> option (list (list Z)).
Variable rs_verify : nat -> nat -> list (list Z) -> bool.
Variable rs_reconstruct : nat -> nat -> list (list Z) -> list (list Z).
Variables N F : nat.
Variable bad : list nat.

(** Under the conditions of C32 every honest member gets the message itself from RBCReceive: type,
    identifier, sender and data; none gets anything else before, or nil; and all get it in the end. *)
Theorem c86_returned M shards g : (length bad <= F)%nat -> (3 * F + 1 <= N)%nat ->
  utf8_valid (m_type M) = true -> u32 (m_sender M) ->
  let b := proposed left_over M in
  rs_good rs_encode rs_verify rs_reconstruct N F b shards -> length (sha b) = 32%nat -> (Z.of_nat (List.length b) < 2 ^ 32)%Z ->
  byz sha rs_encode rs_verify rs_reconstruct N F bad b shards g ->
  (forall i, honest N bad i -> RBCReturn (g_st g i) = None \/ RBCReturn (g_st g i) = Some (Some M)) /\
  (quiescent sha rs_encode rs_verify rs_reconstruct N F bad b g -> forall i, honest N bad i -> RBCReturn (g_st g i) = Some (Some M)) /\
  (exists g', leads sha rs_encode rs_verify rs_reconstruct N F bad b shards g g' /\
     forall i, honest N bad i -> RBCReturn (g_st g' i) = Some (Some M)).
Proof.
  intros HB HN U S b RS HS HL B.
  assert (R : fst (UnmarshalMessage b) = M).
  { unfold b, proposed in *. destruct (proj2 (c04_writable M S) U) as (d & Ed). rewrite Ed in *.
    rewrite (c04_message M d U S Ed); [reflexivity|]. unfold small. lia. }
  destruct (c32_byzantine sha rs_encode rs_verify rs_reconstruct N F bad HB HN b shards g RS HS HL B) as (Q & V & _).
  split; [|split].
  - intros i Hi. unfold RBCReturn. destruct (r_out (g_st g i)) as [r|] eqn:E; [|left; reflexivity].
    rewrite (V i r Hi E), R. right. reflexivity.
  - intros QQ i Hi. unfold RBCReturn. rewrite (Q QQ i Hi), R. reflexivity.
  - assert (exists k, byzn sha rs_encode rs_verify rs_reconstruct N F bad b shards k g) as (k & K).
    { clear - B. induction B as [|g i e st outs B (k & K) Hi Ge E]; [exists 0%nat; constructor|].
      eexists. eapply byzn_step; eassumption. }
    destruct (c32_ends sha rs_encode rs_verify rs_reconstruct N F bad HB HN b shards k g RS HS HL K) as (_ & g' & L & O).
    exists g'. split; [exact L|]. intros i Hi. unfold RBCReturn. rewrite (O i Hi), R. reflexivity.
Qed.

(** Whatever bytes a dealer proposes to all, honest members do not differ, and none of them learns of an error:
    all return the message that is read from the bytes, as far as it can be read, and never nil. *)
Theorem c86_any_bytes b shards g : (length bad <= F)%nat -> (3 * F + 1 <= N)%nat ->
  rs_good rs_encode rs_verify rs_reconstruct N F b shards -> length (sha b) = 32%nat -> (Z.of_nat (List.length b) < 2 ^ 32)%Z ->
  byz sha rs_encode rs_verify rs_reconstruct N F bad b shards g ->
  (forall i, honest N bad i -> RBCReturn (g_st g i) = None \/ RBCReturn (g_st g i) = Some (Some (fst (UnmarshalMessage b)))) /\
  (exists g', leads sha rs_encode rs_verify rs_reconstruct N F bad b shards g g' /\
     forall i, honest N bad i -> RBCReturn (g_st g' i) = Some (Some (fst (UnmarshalMessage b)))).
Proof.
  intros HB HN RS HS HL B.
  destruct (c32_byzantine sha rs_encode rs_verify rs_reconstruct N F bad HB HN b shards g RS HS HL B) as (_ & V & _).
  split.
  - intros i Hi. unfold RBCReturn. destruct (r_out (g_st g i)) as [r|] eqn:E; [|left; reflexivity].
    rewrite (V i r Hi E). right. reflexivity.
  - assert (exists k, byzn sha rs_encode rs_verify rs_reconstruct N F bad b shards k g) as (k & K).
    { clear - B. induction B as [|g i e st outs B (k & K) Hi Ge E]; [exists 0%nat; constructor|].
      eexists. eapply byzn_step; eassumption. }
    destruct (c32_ends sha rs_encode rs_verify rs_reconstruct N F bad HB HN b shards k g RS HS HL K) as (_ & g' & L & O).
    exists g'. split; [exact L|]. intros i Hi. unfold RBCReturn. rewrite (O i Hi). reflexivity.
Qed.

(** Only the empty message is proposed as no bytes at all ... *)
Theorem c86_empty M : utf8_valid (m_type M) = true -> u32 (m_sender M) -> (proposed left_over M = [] <-> M = empty_message).
Proof.
  intros U S. unfold proposed. destruct (proj2 (c04_writable M S) U) as (d & Ed). rewrite Ed. split.
  - intros ->. pose proof (c04_message M [] U S Ed ltac:(unfold small; cbn; lia)) as E.
    apply (f_equal fst) in E. cbv in E. symmetry. exact E.
  - intros ->. vm_compute in Ed. injection Ed as <-. reflexivity.
Qed.

(** ... and that one, which the erasure coder refuses, stops every member that takes it. *)
Theorem c86_empty_refuted : rs_encode N F [] = None -> forall st sender, r_prop st = false ->
  rstep sha rs_encode rs_verify rs_reconstruct N F st (EvPropose sender (m_data (proposal left_over sender empty_message []))) = Panic.
Proof.
  intros R st sender P. cbn [rstep proposal m_data].
  rewrite (proj2 (c86_empty empty_message eq_refl ltac:(split; cbn; lia)) eq_refl). unfold propose_step. rewrite P, R. reflexivity.
Qed.
End Bcast.
Print Assumptions c86_send.
Print Assumptions c86_send_exclude.
Print Assumptions c86_returned.
Print Assumptions c86_any_bytes.
Print Assumptions c86_empty.
Print Assumptions c86_empty_refuted.

(** ** Cases *)

Definition demo_msg : msg := mkMsg (bytes_of_string "Point") [9%Z] 2%Z [5; 7]%Z.
Definition no_left (_ : msg) : list Z := [].

Example c86_send_example : let p := init_send_next (init_send (new_party 4)) in
  match RBCSend no_left p 2 demo_msg [1%Z], RBCSendExclude no_left p 2 demo_msg [1%Z] 3 with
  | Ok a, Ok b => map (fun d => map (fun m => UnmarshalMessage (m_data m)) (log_of (sendChannels a) d)) [0; 3; 4]%nat =
        [[(demo_msg, true)]; [(demo_msg, true)]; []] /\
      map (fun d => length (log_of (sendChannels b) d)) [0; 1; 2; 3; 4]%nat = [1; 1; 1; 0; 0]%nat
  | _, _ => False
  end.
Proof. vm_compute. auto. Qed.

(** Member 3 sends other bytes, a wrong shard and another hash; the others get the message. *)
Definition sent_run (M : list Z) : list (nat * rev) :=
  let x := (tag toy_sha M, M) in
  let echoes i := flat_map (fun s => [(i, EvEcho s x); (i, EvEchoCheck)]) [0; 1; 2]%Z in
  map (fun i => (i, EvPropose 2%Z M)) [0; 1; 2]%nat ++
  [(0%nat, EvEcho 3%Z ([1%Z], [1%Z])); (0%nat, EvEchoCheck); (1%nat, EvEcho 3%Z (tag toy_sha M, [1%Z])); (1%nat, EvEchoCheck);
   (2%nat, EvReady 3%Z ([1%Z], [1%Z]))] ++
  flat_map echoes [0; 1; 2]%nat ++
  flat_map (fun i => map (fun s => (i, EvReady s x)) [0; 1; 2]%Z) [0; 1; 2]%nat ++
  map (fun i => (i, EvDecode)) [0; 1; 2]%nat.

Example c86_returned_example : let b := proposed no_left demo_msg in
  rs_good toy_encode toy_verify toy_reconstruct 4 1 b (repeat b 4) /\
  exists g, byz toy_sha toy_encode toy_verify toy_reconstruct 4 1 [3%nat] b (repeat b 4) g /\
    forall i, (i < 3)%nat -> RBCReturn (g_st g i) = Some (Some demo_msg).
Proof.
  intros b. split; [apply toy_good; [discriminate|lia]|].
  destruct (exec 4 1 [3%nat] (byzb 4 [3%nat] b (repeat b 4)) g_init (sent_run b)) as [g|] eqn:E; [|vm_compute in E; discriminate].
  destruct (exec_byz 4 1 [3%nat] b (repeat b 4) (sent_run b) _ _ 0 (byzn_init _ _ _ _ _ _ _ _ _) E) as (k & B).
  exists g. split; [exact (byzn_byz _ _ _ _ _ _ _ _ _ k g B)|].
  vm_compute in E. inversion E. intros i Hi. destruct i as [|[|[|i]]]; [reflexivity..|lia].
Qed.

(** The bytes of the message with one more byte that begins a field without contents: all return the message as if nothing had happened. *)
Example c86_any_bytes_example : let b := proposed no_left demo_msg ++ [10%Z] in
  UnmarshalMessage b = (demo_msg, false) /\ rs_good toy_encode toy_verify toy_reconstruct 4 1 b (repeat b 4) /\
  exists g, byz toy_sha toy_encode toy_verify toy_reconstruct 4 1 [3%nat] b (repeat b 4) g /\
    forall i, (i < 3)%nat -> RBCReturn (g_st g i) = Some (Some demo_msg).
Proof.
  intros b. split; [vm_compute; reflexivity|]. split; [apply toy_good; [discriminate|lia]|].
  destruct (exec 4 1 [3%nat] (byzb 4 [3%nat] b (repeat b 4)) g_init (sent_run b)) as [g|] eqn:E; [|vm_compute in E; discriminate].
  destruct (exec_byz 4 1 [3%nat] b (repeat b 4) (sent_run b) _ _ 0 (byzn_init _ _ _ _ _ _ _ _ _) E) as (k & B).
  exists g. split; [exact (byzn_byz _ _ _ _ _ _ _ _ _ k g B)|].
  vm_compute in E. inversion E. intros i Hi. destruct i as [|[|[|i]]]; [reflexivity..|lia].
Qed.

Example c86_empty_example : proposed no_left empty_message = [] /\ proposed no_left demo_msg <> [] /\ toy_encode 4 1 [] = None.
Proof. split; [reflexivity|]. split; [vm_compute; discriminate|reflexivity]. Qed.
