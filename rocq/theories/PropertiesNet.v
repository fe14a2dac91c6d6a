(** Headline theorems: codecs, framing, dispatching, broadcasting (C01, C02, C03, C05, C06, C07). *)

Require Import ZArith List Lia Bool.
From Verif Require Import Prime Fr Bytes CodecModel CodecProofs FramingModel FramingProofs
  DispatchModel DispatchSpec DispatchProofs SendModel SendProofs.
Import ListNotations.
Local Open Scope Z_scope.

(** ** C01 Scalar wire codec *)

(** The decoder accepts exactly the strings whose little-endian value is below r, and returns
    that value. *)
Theorem c01_decode : forall v, is_bytes v -> length v = 32%nat ->
  FrFrom32 v = if le_val v <? r then Some (of_Z (le_val v)) else None.
Proof. exact FrFrom32_value. Qed.
Print Assumptions c01_decode.

Theorem c01_valid_agrees : forall v, is_bytes v -> length v = 32%nat ->
  (ValidFr v = true <-> le_val v < r).
Proof. exact ValidFr_correct. Qed.
Print Assumptions c01_valid_agrees.

Theorem c01_roundtrip : forall x,
  is_bytes (FrTo32 x) /\ length (FrTo32 x) = 32%nat /\ le_val (FrTo32 x) = fv x /\
  FrFrom32 (FrTo32 x) = Some x.
Proof.
  exact (fun x => conj (FrTo32_bytes x) (conj (FrTo32_length x)
    (conj (FrTo32_le_val x) (FrFrom32_FrTo32 x)))).
Qed.
Print Assumptions c01_roundtrip.

Theorem c01_canonical : forall v x, is_bytes v -> length v = 32%nat ->
  FrFrom32 v = Some x -> FrTo32 x = v.
Proof. exact FrTo32_FrFrom32. Qed.
Print Assumptions c01_canonical.

(** r-1 is accepted, r is not; both differ only in the first byte. *)
Example c01_example :
  FrFrom32 (le_bytes 32 (r - 1)) = Some (of_Z (r - 1)) /\ FrFrom32 (le_bytes 32 r) = None /\
  FrTo32 (of_Z 258) = 2 :: 1 :: repeat 0 30.
Proof. vm_compute. auto. Qed.

(** ** C02 Integer codec *)

Theorem c02_roundtrip : forall n, 0 <= n < 2 ^ 32 ->
  length (IntToBytes n) = 4%nat /\ is_bytes (IntToBytes n) /\ BytesToInt (IntToBytes n) = n.
Proof.
  exact (fun n H => conj (IntToBytes_length n) (conj (IntToBytes_bytes n) (IntToBytes_roundtrip n H))).
Qed.
Print Assumptions c02_roundtrip.

Theorem c02_modulo : forall n, BytesToInt (IntToBytes n) = n mod 2 ^ 32.
Proof. intros n. rewrite <- (app_nil_r (IntToBytes n)). apply BytesToInt_IntToBytes. Qed.
Print Assumptions c02_modulo.

Theorem c02_injective : forall n m, 0 <= n < 2 ^ 32 -> 0 <= m < 2 ^ 32 ->
  IntToBytes n = IntToBytes m -> n = m.
Proof. exact IntToBytes_inj. Qed.
Print Assumptions c02_injective.

Theorem c02_bytes_first : forall b, is_bytes b -> length b = 4%nat -> IntToBytes (BytesToInt b) = b.
Proof. exact BytesToInt_back. Qed.
Print Assumptions c02_bytes_first.

(** Without the bound the claim is false: distinct integers collide. *)
Theorem c02_truncation_refuted : exists n m, 0 <= n /\ 0 <= m /\ n <> m /\
  IntToBytes n = IntToBytes m /\ BytesToInt (IntToBytes m) <> m.
Proof. exists 5, (5 + 2 ^ 32). vm_compute. repeat split; discriminate. Qed.
Print Assumptions c02_truncation_refuted.

Example c02_example : IntToBytes 258 = [0; 0; 1; 2] /\ BytesToInt [0; 0; 1; 2] = 258.
Proof. vm_compute. auto. Qed.

(** ** C03 Stream framing *)

Theorem c03_framing : forall ms es rest,
  Forall fits ms -> stream ms = arrived es ++ rest ->
  (exists k, out (rx_run es) = firstn k ms) /\
  (rest = [] -> kern (rx_run es) = [] -> out (rx_run es) = ms).
Proof. exact framing_correct. Qed.
Print Assumptions c03_framing.

(** The receiver never hangs with unread bytes. *)
Theorem c03_progress : forall es, kern (rx_run es) <> [] ->
  (length (kern (rx_run (es ++ [Read 1]))) < length (kern (rx_run es)))%nat.
Proof. exact framing_progress. Qed.
Print Assumptions c03_progress.

(** The bound on the message length is needed: a message of 2^32 bytes arrives as an empty one. *)
Theorem c03_too_long_refuted : exists m es,
  stream [m] = arrived es /\ m <> [] /\ out (rx_run es) = [[]].
Proof.
  exists (repeat 0 (Z.to_nat (2 ^ 32))), [Arrive (frame (repeat 0 (Z.to_nat (2 ^ 32)))); Read 4].
  split; [|split].
  - unfold stream, arrived. cbn [map concat]. rewrite !app_nil_r. reflexivity.
  - intros E. apply (f_equal (@length Z)) in E. rewrite repeat_length in E.
    change (length (@nil Z)) with O in E. lia.
  - apply framing_too_long. rewrite repeat_length, Z2Nat.id by lia. reflexivity.
Qed.
Print Assumptions c03_too_long_refuted.

(** Two messages, cut in the middle of a header and of a body. *)
Example c03_example :
  let ms := [[7; 8; 9]; []; [1]] in
  let s := stream ms in
  out (rx_run [Arrive (firstn 2 s); Read 2; Arrive (firstn 4 (skipn 2 s)); Read 1; Read 1; Read 2;
               Arrive (skipn 6 s); Read 1; Read 4; Read 3; Read 1; Read 1]) = ms.
Proof. vm_compute. reflexivity. Qed.

(** ** C05 Dispatcher *)

Theorem c05_dispatch_exact : forall N es ty id c,
  In (ty, id, c) (handles (d_run N es)) ->
  exists rest,
    got_from c (got (d_run N es)) ++ rest = filter (belongs ty id) (arrivals es) /\
    (recvq (d_run N es) = [] -> held (d_run N es) = None ->
     nth c (heap (d_run N es)) [] = [] -> rest = []).
Proof. exact dispatch_exact. Qed.
Print Assumptions c05_dispatch_exact.

Theorem c05_channels_separate : forall N es ty id c ty2 id2 c2,
  In (ty, id, c) (handles (d_run N es)) -> In (ty2, id2, c2) (handles (d_run N es)) ->
  (c = c2 <-> ty = ty2 /\ id = id2).
Proof. exact dispatch_handles. Qed.
Print Assumptions c05_channels_separate.

(** One reader asks before, one after the arrival; both get what is theirs, in order. *)
Example c05_example :
  let m1 := mkMsg [1] [9] 0 [10] in
  let m2 := mkMsg [1] [8] 0 [20] in
  let m3 := mkMsg [1] [9] 2 [30] in
  let s := d_run 4 [EGet [1] [9]; EArr m1; EArr m2; ETake; EPut; ERecv 0; ETake; EPut; EArr m3;
                    EGet [1] [8]; ERecv 1; ETake; EPut; ERecv 0] in
  got_from 0 (got s) = [m1; m3] /\ got_from 1 (got s) = [m2] /\ handles s = [([1], [9], 0%nat); ([1], [8], 1%nat)].
Proof. vm_compute. auto. Qed.

(** ** C06 Dispatcher progress *)

(** What holds: with at most N*N messages per instance the dispatcher never waits, and after finitely many steps of its
    own everything that has arrived is in the channel of its instance (or has been read from it). *)
Theorem c06_progress : forall N es,
  (forall ty id, Z.of_nat (length (filter (belongs ty id) (arrivals es))) <= capacity N) ->
  held (d_step N (d_run N es) EPut) = None /\
    exists more, (forall e, In e more -> e = ETake \/ e = EPut) /\
    recvq (d_run N (es ++ more)) = [] /\ held (d_run N (es ++ more)) = None /\
    got (d_run N (es ++ more)) = got (d_run N es) /\
    forall ty id, exists c, In (ty, id, c) (handles (d_step N (d_run N (es ++ more)) (EGet ty id))) /\
    got_from c (got (d_run N es)) ++ nth c (heap (d_step N (d_run N (es ++ more)) (EGet ty id))) [] = filter (belongs ty id) (arrivals es).
Proof.
  intros N es H. split; [apply dispatch_put; exact H|].
  set (k := length (recvq (d_run N (es ++ [EPut])))). set (more := EPut :: concat (repeat [ETake; EPut] k)).
  assert (ONLY : forall e, In e more -> e = ETake \/ e = EPut).
  { intros e [<-|X]; [auto|]. apply in_concat in X. destruct X as (l & L & X). apply repeat_spec in L. subst l. destruct X as [<-|[<-|[]]]; auto. }
  assert (A0 : arrivals (es ++ more) = arrivals es).
  { rewrite arrivals_app. replace (arrivals more) with (@nil msg); [apply app_nil_r|]. clear -ONLY. induction more as [|e l IH]; [reflexivity|].
    cbn [arrivals flat_map]. destruct (ONLY e (or_introl eq_refl)) as [-> | ->]; apply IH; intros x X; apply ONLY; right; exact X. }
  assert (G0 : forall l s, (forall e, In e l -> e = ETake \/ e = EPut) -> got (fold_left (d_step N) l s) = got s).
  { clear. induction l as [|e l IH]; intros s O; [reflexivity|]. cbn [fold_left]. rewrite IH by (intros x X; apply O; right; exact X).
    destruct (O e (or_introl eq_refl)) as [-> | ->]; cbn [d_step].
    - destruct (held s); [reflexivity|]. destruct (recvq s); [reflexivity|]. destruct (load_or_store _ _ _ _) as [[t h] c]. reflexivity.
    - destruct (held s) as [(m & c)|]; [|reflexivity]. destruct (_ <? _); reflexivity. }
  assert (GE : got (d_run N (es ++ more)) = got (d_run N es)) by (unfold d_run; rewrite fold_left_app; apply G0; exact ONLY).
  assert (H1 : held (d_run N (es ++ [EPut])) = None).
  { unfold d_run. rewrite fold_left_app. apply (dispatch_put N es H). }
  assert (A1 : arrivals (es ++ [EPut]) = arrivals es) by (rewrite arrivals_app; apply app_nil_r).
  destruct (dispatch_progress N (es ++ [EPut])) as (R & Hd); [rewrite A1; exact H|exact H1|]. fold k in R, Hd. rewrite pumps_run, <- app_assoc in R, Hd. change ([EPut] ++ concat (repeat [ETake; EPut] k)) with more in R, Hd.
  exists more. split; [exact ONLY|]. split; [exact R|]. split; [exact Hd|]. split; [exact GE|]. intros ty id. rewrite <- GE, <- A0. apply dispatch_queued; assumption.
Qed.
Print Assumptions c06_progress.

(** Seventeen messages of an instance that nobody reads, then one for another instance
    (committee of 4, so that a channel holds 16). *)
Definition flood : list devent :=
  repeat (EArr (mkMsg [1] [9] 3 [])) 17 ++ concat (repeat [ETake; EPut] 17) ++
  [EArr (mkMsg [1] [8] 0 [42])].

Example flood_stuck : stuck 4 0 (mkMsg [1] [9] 3 []) (d_run 4 flood).
Proof. split; [vm_compute; reflexivity|split]; [apply Nat.ltb_lt|apply Z.leb_le]; vm_compute; reflexivity. Qed.

Example flood_waits : recvq (d_run 4 flood) = [mkMsg [1] [8] 0 [42]].
Proof. vm_compute. reflexivity. Qed.

(** What fails: after this the message for the other instance is never delivered, whatever happens
    later, as long as nobody reads the flooded instance (channel 0). *)
Theorem c06_head_of_line_refuted : exists N pre m,
  In m (arrivals pre) /\
  forall es, ~ In (ERecv 0) es -> forall c, In (m_type m, m_id m, c) (handles (d_run N (pre ++ es))) ->
    (length (got_from c (got (d_run N (pre ++ es)))) <
     length (filter (belongs (m_type m) (m_id m)) (arrivals (pre ++ es))))%nat.
Proof.
  exists 4, flood, (mkMsg [1] [8] 0 [42]). split.
  - vm_compute. do 17 right. left. reflexivity.
  - intros es NI c H.
    apply (stuck_never 4 0 (mkMsg [1] [9] 3 []) flood es flood_stuck NI [1] [8] c H).
    rewrite flood_waits. discriminate.
Qed.
Print Assumptions c06_head_of_line_refuted.

Example c06_example :
  let es := [EArr (mkMsg [1] [9] 3 []); EArr (mkMsg [1] [8] 0 [42])] in
  let s' := pumps 4 2 (d_run 4 es) in
  recvq s' = [] /\ heap s' = [[mkMsg [1] [9] 3 []]; [mkMsg [1] [8] 0 [42]]].
Proof. vm_compute. auto. Qed.

(** ** C07 Broadcast *)

(** The message is put once into the channel of every member of the own committee; the channels to the next committee are
    not touched. *)
Theorem c07_broadcast : forall p m,
  open_chans (sendChannels p) (sp_N p) -> sendToNextChannels p <> None ->
  exists p', Broadcast p m = Ok p' /\ sendToNextChannels p' = sendToNextChannels p /\
    forall e, log_of (sendChannels p') e =
              log_of (sendChannels p) e ++ if (e <? sp_N p)%nat then [m] else [].
Proof.
  intros p m O NN. destruct (broadcast_exact p m O NN) as (p' & E & _ & H2 & _ & L). eauto.
Qed.
Print Assumptions c07_broadcast.

Theorem c07_broadcast_exclude : forall p m pid,
  open_chans (sendChannels p) (sp_N p) -> sendToNextChannels p <> None ->
  exists p', BroadcastExclude p m pid = Ok p' /\ sendToNextChannels p' = sendToNextChannels p /\
    forall e, log_of (sendChannels p') e =
      log_of (sendChannels p) e ++ if ((e <? sp_N p)%nat && negb (e =? pid)%nat) then [m] else [].
Proof.
  intros p m pid O NN. destruct (broadcast_exclude_exact p m pid O NN) as (p' & E & _ & H2 & _ & L). eauto.
Qed.
Print Assumptions c07_broadcast_exclude.

Theorem c07_broadcast_next : forall p m,
  open_chans (sendToNextChannels p) (sp_N p) ->
  exists p', BroadcastToNextCommittee p m = Ok p' /\ sendChannels p' = sendChannels p /\
    forall e, log_of (sendToNextChannels p') e =
      log_of (sendToNextChannels p) e ++ if (e <? sp_N p)%nat then [m] else [].
Proof.
  intros p m O. destruct (broadcast_next_exact p m O) as (p' & E & _ & H2 & _ & L). eauto.
Qed.
Print Assumptions c07_broadcast_next.

Theorem c07_send : forall p m d,
  open_chans (sendChannels p) (sp_N p) -> sendToNextChannels p <> None ->
  ((d < sp_N p)%nat -> exists p', Send p m d = Ok p' /\ sendToNextChannels p' = sendToNextChannels p /\
     forall e, log_of (sendChannels p') e =
               log_of (sendChannels p) e ++ if (e =? d)%nat then [m] else []) /\
  ((sp_N p <= d)%nat -> Send p m d = Err p).
Proof.
  intros p m d O NN. split.
  - intros H. destruct (Send_open p m d O NN H) as (p' & E & _ & H2 & _ & L). eauto.
  - intros H. apply send_out_of_range; assumption.
Qed.
Print Assumptions c07_send.

Theorem c07_send_next : forall p m d, open_chans (sendToNextChannels p) (sp_N p) ->
  ((d < sp_N p)%nat -> exists p', SendToNextCommittee p m d = Ok p' /\ sendChannels p' = sendChannels p /\
     forall e, log_of (sendToNextChannels p') e =
               log_of (sendToNextChannels p) e ++ if (e =? d)%nat then [m] else []) /\
  ((sp_N p <= d)%nat -> SendToNextCommittee p m d = Err p).
Proof.
  intros p m d O. split.
  - intros H. destruct (Send_next_open p m d O H) as (p' & E & _ & H2 & _ & L). eauto.
  - intros H. apply send_next_out_of_range; [|assumption]. destruct O as (l & -> & _). discriminate.
Qed.
Print Assumptions c07_send_next.

(** After any sequence of these operations the channel to a member holds exactly the messages meant for that member, in
    order, and no operation blocks or fails otherwise than with the error for a destination outside the committee. *)
Theorem c07_history : forall n os, exists q,
  sop_run (init_send_next (init_send (new_party n))) os = Ok q /\
  forall e, log_of (sendChannels q) e = flat_map (to_own n e) os /\
            log_of (sendToNextChannels q) e = flat_map (to_next n e) os.
Proof.
  intros n os. set (p := init_send_next (init_send (new_party n))).
  destruct (sop_run_exact os p) as (q & E & _ & L1 & L2).
  - exact (init_open n).
  - exact (init_next_open (init_send (new_party n))).
  - exists q. split; [exact E|]. intros e. rewrite L1, L2. unfold p, init_send_next, init_send, new_party.
    cbn [sendChannels sendToNextChannels sp_N log_of].
    assert (Z : match nth_error (repeat (Some (@nil msg)) n) e with Some (Some log) => log | _ => [] end = []).
    { destruct (nth_error (repeat (Some []) n) e) as [x|] eqn:EN; [|reflexivity].
      apply nth_error_In, repeat_spec in EN. subst x. reflexivity. }
    rewrite Z. split; reflexivity.
Qed.
Print Assumptions c07_history.

(** Without a slice of channels to the next committee nothing is sent to anybody, and the caller gets an error. *)
Theorem c07_no_channels : forall p m d, sendToNextChannels p = None ->
  Send p m d = Err p /\ Broadcast p m = Err p /\ BroadcastExclude p m d = Err p /\
  SendToNextCommittee p m d = Err p /\ BroadcastToNextCommittee p m = Err p.
Proof.
  intros p m d E. unfold Send, Broadcast, BroadcastExclude, SendToNextCommittee, BroadcastToNextCommittee,
    checkSendChannelsInit, checkInitSendChannelsToNext. rewrite E. repeat split.
Qed.
Print Assumptions c07_no_channels.

(** The error for channels that are not set up is never returned by a party made with the
    constructor: the sender blocks for ever. *)
Theorem c07_uninitialised_refuted : forall n, exists p m,
  p = new_party (S n) /\ Send p m 0 = Blocked /\ Broadcast p m = Blocked.
Proof.
  intros n. exists (new_party (S n)), (mkMsg [] [] 0 []). repeat split.
Qed.
Print Assumptions c07_uninitialised_refuted.

Example c07_example :
  let m := mkMsg [5] [6] 1 [7] in
  match BroadcastExclude (init_send (new_party 3)) m 1 with
  | Ok p => (log_of (sendChannels p) 0, log_of (sendChannels p) 1, log_of (sendChannels p) 2)
  | _ => ([], [], [])
  end = ([m], [], [m]).
Proof. vm_compute. reflexivity. Qed.

Example c07_history_example :
  let m := mkMsg [5] [6] 1 [7] in let m' := mkMsg [5] [6] 2 [8] in
  match sop_run (init_send_next (init_send (new_party 3)))
          [OBroadcast m; OSend m' 7; OBroadcastExclude m' 0; OSendNext m 2; OBroadcastNext m'] with
  | Ok p => (log_of (sendChannels p) 0, log_of (sendChannels p) 1, log_of (sendToNextChannels p) 2)
  | _ => ([], [], [])
  end = ([m], [m; m'], [m; m']).
Proof. vm_compute. reflexivity. Qed.
