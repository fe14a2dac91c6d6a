(** Broadcasts reach exactly the committee. *)

Require Import ZArith List Lia Bool Arith.
From Verif Require Import DispatchModel DispatchProofs SendModel.
Import ListNotations.

(** All channels of a slice are open; the log of destination [d]. *)
Definition open_chans (cs : option chans) (n : nat) : Prop :=
  exists l, cs = Some l /\ length l = n /\ forall d, d < n -> exists log, nth_error l d = Some (Some log).

Definition log_of (cs : option chans) (d : nat) : list msg :=
  match cs with
  | Some l => match nth_error l d with Some (Some log) => log | _ => [] end
  | None => []
  end.

Lemma nth_error_upd_same {A} (f : A -> A) : forall l i a, nth_error l i = Some a ->
  nth_error (upd_nth i f l) i = Some (f a).
Proof.
  induction l as [|b l IH]; intros [|i] a H; simpl in *; try discriminate.
  - congruence.
  - apply IH. exact H.
Qed.

Lemma nth_error_upd_other {A} (f : A -> A) : forall l i j, i <> j ->
  nth_error (upd_nth i f l) j = nth_error l j.
Proof.
  induction l as [|b l IH]; intros [|i] [|j] H; simpl; try reflexivity; try lia. apply IH. lia.
Qed.

Lemma put_open cs n d m : open_chans cs n -> d < n ->
  exists l, put cs d m = Ok l /\ open_chans (Some l) n /\
    forall e, log_of (Some l) e = log_of cs e ++ if Nat.eqb e d then [m] else [].
Proof.
  intros (l & -> & L & O) Hd. destruct (O d Hd) as (log & E). unfold put. rewrite E.
  eexists. split; [reflexivity|]. split.
  - eexists. split; [reflexivity|]. split; [rewrite length_upd_nth; exact L|].
    intros e He. destruct (Nat.eq_dec d e) as [<-|N].
    + rewrite (nth_error_upd_same _ _ _ _ E). eauto.
    + rewrite nth_error_upd_other by exact N. apply O. exact He.
  - intros e. unfold log_of. destruct (Nat.eqb_spec e d) as [->|N].
    + rewrite (nth_error_upd_same _ _ _ _ E), E. reflexivity.
    + rewrite nth_error_upd_other by congruence. rewrite app_nil_r. reflexivity.
Qed.

Lemma Send_open p m d : open_chans (sendChannels p) (sp_N p) -> sendToNextChannels p <> None ->
  d < sp_N p ->
  exists p', Send p m d = Ok p' /\ sp_N p' = sp_N p /\ sendToNextChannels p' = sendToNextChannels p /\
    open_chans (sendChannels p') (sp_N p) /\
    forall e, log_of (sendChannels p') e = log_of (sendChannels p) e ++ if Nat.eqb e d then [m] else [].
Proof.
  intros O NN Hd. unfold Send, checkSendChannelsInit.
  destruct (sendToNextChannels p) as [nx|]; [|congruence]. cbn [negb].
  destruct (Nat.ltb_spec d (sp_N p)); [|lia].
  destruct (put_open _ _ d m O Hd) as (l & -> & O' & Lg).
  eexists. split; [reflexivity|]. simpl. auto.
Qed.

Lemma Send_next_open p m d : open_chans (sendToNextChannels p) (sp_N p) -> d < sp_N p ->
  exists p', SendToNextCommittee p m d = Ok p' /\ sp_N p' = sp_N p /\ sendChannels p' = sendChannels p /\
    open_chans (sendToNextChannels p') (sp_N p) /\
    forall e, log_of (sendToNextChannels p') e = log_of (sendToNextChannels p) e ++ if Nat.eqb e d then [m] else [].
Proof.
  intros O Hd. unfold SendToNextCommittee, checkInitSendChannelsToNext.
  pose proof O as O2. destruct O2 as (l0 & E0 & _). rewrite E0. cbn [negb].
  destruct (Nat.ltb_spec d (sp_N p)); [|lia].
  rewrite <- E0.
  destruct (put_open _ _ d m O Hd) as (l & -> & O' & Lg).
  eexists. split; [reflexivity|]. simpl. auto.
Qed.

(** How often a destination occurs in a list of destinations that are actually sent to. *)
Definition times (d : nat) (ds : list nat) : nat := count_occ Nat.eq_dec ds d.

Lemma send_all_open (skip : nat -> bool) m : forall ds p,
  open_chans (sendChannels p) (sp_N p) -> sendToNextChannels p <> None ->
  Forall (fun d => d < sp_N p) ds ->
  exists p', send_all (fun q d => if skip d then Ok q else Send q m d) ds p = Ok p' /\
    sp_N p' = sp_N p /\ sendToNextChannels p' = sendToNextChannels p /\
    open_chans (sendChannels p') (sp_N p) /\
    forall e, log_of (sendChannels p') e = log_of (sendChannels p) e ++
                 if skip e then [] else repeat m (times e ds).
Proof.
  induction ds as [|d ds IH]; intros p O NN B; simpl.
  - exists p. repeat split; auto. intros e. destruct (skip e); simpl; rewrite app_nil_r; reflexivity.
  - inversion B as [|? ? Bd Bds]; subst.
    destruct (skip d) eqn:Sd.
    + destruct (IH p O NN Bds) as (p' & E & H1 & H2 & H3 & H4).
      exists p'. repeat split; auto. intros e. rewrite H4. unfold times. simpl.
      destruct (Nat.eq_dec d e) as [->|N]; [rewrite Sd; reflexivity|reflexivity].
    + destruct (Send_open p m d O NN Bd) as (p1 & -> & N1 & X1 & O1 & L1).
      destruct (IH p1) as (p' & E & H1 & H2 & H3 & H4).
      * rewrite N1. exact O1.
      * rewrite X1. exact NN.
      * rewrite N1. exact Bds.
      * exists p'. rewrite N1 in *. rewrite X1 in *. repeat split; auto.
        intros e. rewrite H4, L1, <- app_assoc. f_equal. unfold times. simpl.
        destruct (Nat.eqb_spec e d) as [->|N].
        -- destruct (Nat.eq_dec d d); [|congruence]. rewrite Sd. reflexivity.
        -- destruct (Nat.eq_dec d e); [congruence|]. reflexivity.
Qed.

Lemma send_all_next_open m : forall ds p,
  open_chans (sendToNextChannels p) (sp_N p) -> Forall (fun d => d < sp_N p) ds ->
  exists p', send_all (fun q d => SendToNextCommittee q m d) ds p = Ok p' /\
    sp_N p' = sp_N p /\ sendChannels p' = sendChannels p /\
    open_chans (sendToNextChannels p') (sp_N p) /\
    forall e, log_of (sendToNextChannels p') e = log_of (sendToNextChannels p) e ++ repeat m (times e ds).
Proof.
  induction ds as [|d ds IH]; intros p O B; simpl.
  - exists p. repeat split; auto. intros e. rewrite app_nil_r. reflexivity.
  - inversion B as [|? ? Bd Bds]; subst.
    destruct (Send_next_open p m d O Bd) as (p1 & -> & N1 & X1 & O1 & L1).
    destruct (IH p1) as (p' & E & H1 & H2 & H3 & H4).
    + rewrite N1. exact O1.
    + rewrite N1. exact Bds.
    + exists p'. rewrite N1 in *. rewrite X1 in *. repeat split; auto.
      intros e. rewrite H4, L1, <- app_assoc. f_equal. unfold times. simpl.
      destruct (Nat.eqb_spec e d) as [->|N].
      * destruct (Nat.eq_dec d d); [|congruence]. reflexivity.
      * destruct (Nat.eq_dec d e); [congruence|]. reflexivity.
Qed.

Lemma times_seq d n : times d (seq 0 n) = if d <? n then 1 else 0.
Proof.
  unfold times. destruct (Nat.ltb_spec d n) as [H|H].
  - apply NoDup_count_occ'; [apply seq_NoDup|apply in_seq; lia].
  - apply count_occ_not_In. rewrite in_seq. lia.
Qed.

Lemma seq_below n : Forall (fun d => d < n) (seq 0 n).
Proof. apply Forall_forall. intros d H. apply in_seq in H. lia. Qed.

(** The committee's channels after an operation: only these logs grew, and the channels to the next committee are as
    they were. *)
Definition grew (p p' : sparty) (f : nat -> list msg) : Prop :=
  sp_N p' = sp_N p /\ sendToNextChannels p' = sendToNextChannels p /\ open_chans (sendChannels p') (sp_N p) /\
  forall e, log_of (sendChannels p') e = log_of (sendChannels p) e ++ f e.
Definition grew_next (p p' : sparty) (f : nat -> list msg) : Prop :=
  sp_N p' = sp_N p /\ sendChannels p' = sendChannels p /\ open_chans (sendToNextChannels p') (sp_N p) /\
  forall e, log_of (sendToNextChannels p') e = log_of (sendToNextChannels p) e ++ f e.

Lemma broadcast_exact p m : open_chans (sendChannels p) (sp_N p) -> sendToNextChannels p <> None ->
  exists p', Broadcast p m = Ok p' /\ grew p p' (fun e => if e <? sp_N p then [m] else []).
Proof.
  intros O NN. unfold Broadcast, checkSendChannelsInit.
  destruct (sendToNextChannels p) as [nx|] eqn:E; [|congruence]. cbn [negb].
  destruct (send_all_open (fun _ => false) m (seq 0 (sp_N p)) p O) as (p' & S & H1 & H2 & H3 & L).
  - congruence.
  - apply seq_below.
  - exists p'. split; [exact S|]. split; [exact H1|]. split; [exact H2|]. split; [exact H3|].
    intros e. rewrite L, times_seq. destruct (e <? sp_N p); reflexivity.
Qed.

Lemma broadcast_exclude_exact p m pid : open_chans (sendChannels p) (sp_N p) -> sendToNextChannels p <> None ->
  exists p', BroadcastExclude p m pid = Ok p' /\
    grew p p' (fun e => if (e <? sp_N p) && negb (e =? pid) then [m] else []).
Proof.
  intros O NN. unfold BroadcastExclude, checkSendChannelsInit.
  destruct (sendToNextChannels p) as [nx|] eqn:E; [|congruence]. cbn [negb].
  destruct (send_all_open (fun d => Nat.eqb d pid) m (seq 0 (sp_N p)) p O) as (p' & S & H1 & H2 & H3 & L).
  - congruence.
  - apply seq_below.
  - exists p'. split; [exact S|]. split; [exact H1|]. split; [exact H2|]. split; [exact H3|].
    intros e. rewrite L, times_seq. destruct (e <? sp_N p), (e =? pid); reflexivity.
Qed.

Lemma broadcast_next_exact p m : open_chans (sendToNextChannels p) (sp_N p) ->
  exists p', BroadcastToNextCommittee p m = Ok p' /\ grew_next p p' (fun e => if e <? sp_N p then [m] else []).
Proof.
  intros O. unfold BroadcastToNextCommittee, checkInitSendChannelsToNext.
  pose proof O as O2. destruct O2 as (l0 & E0 & _). rewrite E0. cbn [negb].
  destruct (send_all_next_open m (seq 0 (sp_N p)) p O) as (p' & S & H1 & H2 & H3 & L).
  - apply seq_below.
  - exists p'. split; [exact S|]. split; [exact H1|]. split; [exact H2|]. split; [exact H3|].
    intros e. rewrite L, times_seq. destruct (e <? sp_N p); reflexivity.
Qed.

Lemma send_out_of_range p m d : sendToNextChannels p <> None -> sp_N p <= d -> Send p m d = Err p.
Proof.
  intros NN H. unfold Send, checkSendChannelsInit.
  destruct (sendToNextChannels p); [|congruence]. cbn [negb].
  destruct (Nat.ltb_spec d (sp_N p)); [lia|reflexivity].
Qed.

Lemma send_next_out_of_range p m d : sendToNextChannels p <> None -> sp_N p <= d -> SendToNextCommittee p m d = Err p.
Proof.
  intros NN H. unfold SendToNextCommittee, checkInitSendChannelsToNext.
  destruct (sendToNextChannels p); [|congruence]. cbn [negb].
  destruct (Nat.ltb_spec d (sp_N p)); [lia|reflexivity].
Qed.

(** ** Any sequence of operations *)

Inductive sop : Type :=
| OSend (m : msg) (d : nat) | OSendNext (m : msg) (d : nat)
| OBroadcast (m : msg) | OBroadcastExclude (m : msg) (d : nat) | OBroadcastNext (m : msg).

Definition sop_do (p : sparty) (o : sop) : outcome sparty :=
  match o with
  | OSend m d => Send p m d
  | OSendNext m d => SendToNextCommittee p m d
  | OBroadcast m => Broadcast p m
  | OBroadcastExclude m d => BroadcastExclude p m d
  | OBroadcastNext m => BroadcastToNextCommittee p m
  end.

(** Errors are logged and dropped by the callers. *)
Fixpoint sop_run (p : sparty) (os : list sop) : outcome sparty :=
  match os with
  | [] => Ok p
  | o :: os => match sop_do p o with Ok q | Err q => sop_run q os | Blocked => Blocked | Crashed => Crashed end
  end.

(** What an operation is meant to put on the way to member e of the own committee, of the next one. *)
Definition to_own (n : nat) (e : nat) (o : sop) : list msg :=
  if e <? n then
    match o with
    | OSend m d => if e =? d then [m] else []
    | OBroadcast m => [m]
    | OBroadcastExclude m d => if e =? d then [] else [m]
    | OSendNext _ _ | OBroadcastNext _ => []
    end
  else [].
Definition to_next (n : nat) (e : nat) (o : sop) : list msg :=
  if e <? n then
    match o with
    | OSendNext m d => if e =? d then [m] else []
    | OBroadcastNext m => [m]
    | OSend _ _ | OBroadcast _ | OBroadcastExclude _ _ => []
    end
  else [].

Lemma sop_do_exact p o : open_chans (sendChannels p) (sp_N p) -> open_chans (sendToNextChannels p) (sp_N p) ->
  exists q, (sop_do p o = Ok q \/ sop_do p o = Err q) /\ sp_N q = sp_N p /\
    open_chans (sendChannels q) (sp_N p) /\ open_chans (sendToNextChannels q) (sp_N p) /\
    (forall e, log_of (sendChannels q) e = log_of (sendChannels p) e ++ to_own (sp_N p) e o) /\
    (forall e, log_of (sendToNextChannels q) e = log_of (sendToNextChannels p) e ++ to_next (sp_N p) e o).
Proof.
  intros O ON. assert (NN : sendToNextChannels p <> None) by (destruct ON as (l & -> & _); discriminate).
  assert (Z : forall (l : list msg) e, l ++ (if e <? sp_N p then [] else []) = l)
    by (intros l e; destruct (e <? sp_N p); apply app_nil_r).
  destruct o as [m d|m d|m|m d|m]; cbn [sop_do].
  - destruct (Nat.lt_ge_cases d (sp_N p)) as [L|L].
    + destruct (Send_open p m d O NN L) as (q & E & H1 & H2 & H3 & H4). exists q.
      split; [left; exact E|]. split; [exact H1|]. split; [exact H3|]. split; [rewrite H2; exact ON|]. split.
      * intros e. rewrite H4. f_equal. unfold to_own. destruct (Nat.eqb_spec e d) as [->|ND].
        -- destruct (Nat.ltb_spec d (sp_N p)); [reflexivity|lia].
        -- destruct (e <? sp_N p); reflexivity.
      * intros e. rewrite H2. unfold to_next. symmetry. apply Z.
    + exists p. split; [right; apply send_out_of_range; assumption|]. split; [reflexivity|].
      split; [exact O|]. split; [exact ON|]. split.
      * intros e. unfold to_own. destruct (Nat.ltb_spec e (sp_N p)); [|symmetry; apply app_nil_r].
        destruct (Nat.eqb_spec e d); [lia|symmetry; apply app_nil_r].
      * intros e. unfold to_next. symmetry. apply Z.
  - destruct (Nat.lt_ge_cases d (sp_N p)) as [L|L].
    + destruct (Send_next_open p m d ON L) as (q & E & H1 & H2 & H3 & H4). exists q.
      split; [left; exact E|]. split; [exact H1|]. split; [rewrite H2; exact O|]. split; [exact H3|]. split.
      * intros e. rewrite H2. unfold to_own. symmetry. apply Z.
      * intros e. rewrite H4. f_equal. unfold to_next. destruct (Nat.eqb_spec e d) as [->|ND].
        -- destruct (Nat.ltb_spec d (sp_N p)); [reflexivity|lia].
        -- destruct (e <? sp_N p); reflexivity.
    + exists p. split; [right; apply send_next_out_of_range; assumption|]. split; [reflexivity|].
      split; [exact O|]. split; [exact ON|]. split.
      * intros e. unfold to_own. symmetry. apply Z.
      * intros e. unfold to_next. destruct (Nat.ltb_spec e (sp_N p)); [|symmetry; apply app_nil_r].
        destruct (Nat.eqb_spec e d); [lia|symmetry; apply app_nil_r].
  - destruct (broadcast_exact p m O NN) as (q & E & H1 & H2 & H3 & H4). exists q.
    split; [left; exact E|]. split; [exact H1|]. split; [exact H3|]. split; [rewrite H2; exact ON|]. split.
    + intros e. rewrite H4. reflexivity.
    + intros e. rewrite H2. unfold to_next. symmetry. apply Z.
  - destruct (broadcast_exclude_exact p m d O NN) as (q & E & H1 & H2 & H3 & H4). exists q.
    split; [left; exact E|]. split; [exact H1|]. split; [exact H3|]. split; [rewrite H2; exact ON|]. split.
    + intros e. rewrite H4. f_equal. unfold to_own. destruct (e <? sp_N p), (e =? d); reflexivity.
    + intros e. rewrite H2. unfold to_next. symmetry. apply Z.
  - destruct (broadcast_next_exact p m ON) as (q & E & H1 & H2 & H3 & H4). exists q.
    split; [left; exact E|]. split; [exact H1|]. split; [rewrite H2; exact O|]. split; [exact H3|]. split.
    + intros e. rewrite H2. unfold to_own. symmetry. apply Z.
    + intros e. rewrite H4. reflexivity.
Qed.

Lemma sop_run_exact : forall os p, open_chans (sendChannels p) (sp_N p) -> open_chans (sendToNextChannels p) (sp_N p) ->
  exists q, sop_run p os = Ok q /\ sp_N q = sp_N p /\
    (forall e, log_of (sendChannels q) e = log_of (sendChannels p) e ++ flat_map (to_own (sp_N p) e) os) /\
    (forall e, log_of (sendToNextChannels q) e = log_of (sendToNextChannels p) e ++ flat_map (to_next (sp_N p) e) os).
Proof.
  induction os as [|o os IH]; intros p O ON; cbn [sop_run flat_map].
  - exists p. split; [reflexivity|]. split; [reflexivity|]. split; intros e; symmetry; apply app_nil_r.
  - destruct (sop_do_exact p o O ON) as (q & E & H1 & H2 & H3 & H4 & H5).
    destruct (IH q) as (q' & R & K1 & K2 & K3); [rewrite H1; assumption|rewrite H1; assumption|].
    exists q'. split; [destruct E as [E|E]; rewrite E; exact R|]. split; [congruence|].
    rewrite H1 in K2, K3. split; intros e.
    + rewrite K2, H4, app_assoc. reflexivity.
    + rewrite K3, H5, app_assoc. reflexivity.
Qed.

Lemma init_open n : open_chans (sendChannels (init_send (new_party n))) n.
Proof.
  exists (repeat (Some []) n). split; [reflexivity|]. split; [apply repeat_length|].
  intros d Hd. exists []. apply nth_error_repeat. exact Hd.
Qed.

Lemma init_next_open p : open_chans (sendToNextChannels (init_send_next p)) (sp_N p).
Proof.
  exists (repeat (Some []) (sp_N p)). split; [reflexivity|]. split; [apply repeat_length|].
  intros d Hd. exists []. apply nth_error_repeat. exact Hd.
Qed.
