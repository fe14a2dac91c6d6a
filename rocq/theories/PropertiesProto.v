(** C04: messages keep their content between the sender and the receiver. *)

Require Import String ZArith List Bool Lia Arith.
From Verif Require Import Bytes CodecModel GoBase FramingModel FramingProofs DispatchModel PartyModel
  ReduceModel ProacModel ProtoModel ProtoProofs.
Import ListNotations.
Local Open Scope Z_scope.
Local Open Scope list_scope.

(** Byte strings that fit into memory (a Go [int] counts them). *)
Definition small (b : list Z) : Prop := Z.of_nat (List.length b) < 2 ^ 63.

Definition u32 (n : Z) : Prop := 0 <= n < 2 ^ 32.

(** Every message type of Message.proto which the program uses. *)
Definition all_schemas : list schema :=
  [S_Message; S_Value; S_Echo; S_Lock; S_Finish; S_Done; S_Halt; S_PreVote; S_Vote; S_RBCEcho; S_RBCReady;
   S_PiContent; S_Pi; S_VSSSend; S_ShareReduce; S_Commit; S_Reshare; S_Recover; S_NewCommit; S_ShareDist;
   S_Success; S_MVBAIN; S_Prepare].

Lemma all_schemas_ok sch : In sch all_schemas -> schema_ok sch.
Proof.
  assert (H : Forall schema_ok all_schemas).
  { unfold all_schemas.
    repeat (first [apply Forall_nil | apply Forall_cons]); split;
      repeat (first [apply Forall_nil | apply NoDup_nil
                    | apply Forall_cons; [unfold num_ok; cbn [fst]; lia|]
                    | apply NoDup_cons; [cbn; lia|]]). }
  intros I. rewrite Forall_forall in H. apply H. exact I.
Qed.

(** What [proto.Marshal] writes, [proto.Unmarshal] reads: for every message type and all field values of
    the right types. *)
Theorem c04_roundtrip sch vs b : In sch all_schemas -> Forall2 (fun f v => val_ok (snd f) v) sch vs ->
  Marshal sch vs = Ret b -> small b -> Unmarshal sch b = (vs, true).
Proof. intros I. apply marshal_rt. apply all_schemas_ok. exact I. Qed.
Print Assumptions c04_roundtrip.

Lemma rt sch vs b : Marshal sch vs = Ret b -> small b -> In sch all_schemas ->
  Forall2 (fun f v => val_ok (snd f) v) sch vs -> Unmarshal sch b = (vs, true).
Proof. intros M L I F. apply (c04_roundtrip sch vs b I F M L). Qed.

Ltac fields := repeat (constructor; [cbn [snd val_ok]; auto|]); constructor.
Ltac schemas := unfold all_schemas; cbn [In]; auto 25.

(** The envelope: same type, identifier, sender and data. *)
Theorem c04_message m b : utf8_valid (m_type m) = true -> u32 (m_sender m) ->
  MarshalMessage m = Ret b -> small b -> UnmarshalMessage b = (m, true).
Proof.
  intros U S M L. unfold UnmarshalMessage.
  rewrite (rt _ _ _ M L ltac:(schemas) ltac:(fields)). destruct m. reflexivity.
Qed.
Print Assumptions c04_message.

Lemma message_total m : utf8_valid (m_type m) = true -> u32 (m_sender m) -> exists b, MarshalMessage m = Ret b.
Proof. intros U S. unfold MarshalMessage. apply marshal_total. fields. Qed.

(** An envelope can be written exactly when its type is valid UTF-8 (all types used are ASCII). *)
Theorem c04_writable m : u32 (m_sender m) ->
  ((exists b, MarshalMessage m = Ret b) <-> utf8_valid (m_type m) = true).
Proof.
  intros S. split.
  - intros [b M]. unfold MarshalMessage in M. cbn [Marshal str_ok S_Message] in M.
    destruct (utf8_valid (m_type m)); [reflexivity|discriminate M].
  - intros U. apply message_total; auto.
Qed.
Print Assumptions c04_writable.

Theorem c04_writable_refuted : exists m, u32 (m_sender m) /\ is_bytes (m_type m) /\ send_stream [m] = Fatal.
Proof.
  exists (mkMsg [255] [] 0 []). split; [unfold u32; cbn; lia|].
  split; [constructor; [split; lia|constructor]|]. reflexivity.
Qed.
Print Assumptions c04_writable_refuted.

(** Two envelopes with the same bytes are the same. *)
Theorem c04_injective m m' b : utf8_valid (m_type m) = true -> u32 (m_sender m) ->
  utf8_valid (m_type m') = true -> u32 (m_sender m') -> small b ->
  MarshalMessage m = Ret b -> MarshalMessage m' = Ret b -> m = m'.
Proof.
  intros U S U' S' L M M'. pose proof (c04_message _ _ U S M L) as A.
  pose proof (c04_message _ _ U' S' M' L) as B. congruence.
Qed.
Print Assumptions c04_injective.

(** *** Payloads of the hand-off and of the dealing *)

Definition content_ok (c : PiContentMsg) : Prop := u32 (m_J c).

Lemma content_rt c b : content_ok c -> MarshalPiContent c = Ret b -> small b -> UnmarshalPiContent b = (c, true).
Proof.
  intros O M L. unfold UnmarshalPiContent.
  rewrite (rt _ _ _ M L ltac:(schemas) ltac:(fields)). destruct c. reflexivity.
Qed.

Lemma contents_rt cs bs : Forall content_ok cs -> Forall2 (fun c b => MarshalPiContent c = Ret b) cs bs ->
  Forall small bs ->
  Forall (fun b => snd (Unmarshal S_PiContent b) = true) bs /\ map (fun b => fst (UnmarshalPiContent b)) bs = cs.
Proof.
  intros O F. induction F as [|c b cs bs M F IH]; intros L; [split; [constructor|reflexivity]|].
  apply Forall_cons_iff in O, L. destruct O as [Oc O], L as [Lb L]. destruct (IH O L) as [A B].
  pose proof (content_rt _ _ Oc M Lb) as R. split.
  - constructor; [|exact A]. unfold UnmarshalPiContent in R. destruct (Unmarshal S_PiContent b) as [vs ok].
    injection R as _ ->. reflexivity.
  - cbn [map]. rewrite R, B. reflexivity.
Qed.

(** Records inside a message are no longer than the message. *)
Lemma repeated_len {A} sch (f : A -> go bytes) cs : forall bs n vs b,
  Forall2 (fun c b => f c = Ret b) cs bs ->
  Marshal sch vs = Ret b -> (exists k, In ((n, k), VL bs) (combine sch vs) /\ (k = KRepBytes \/ exists chk, k = KRepMsg chk)) ->
  forall d, In d bs -> (List.length d <= List.length b)%nat.
Proof.
  intros bs n vs b _. revert vs b. induction sch as [|[m k'] sch IH]; intros vs b M (k & I & K) d D; [destruct I|].
  destruct vs as [|v vs]; [destruct I|]. cbn [Marshal] in M. destruct (str_ok k' v); [|discriminate M].
  destruct (Marshal sch vs) as [r| | |] eqn:R; try discriminate M. cbn [bind] in M. injection M as <-.
  rewrite app_length. destruct I as [E|I].
  - injection E as -> -> ->.
    assert (List.length d <= List.length (put_recs (recs_of n k (VL bs))))%nat; [|lia].
    apply (put_recs_len _ n). destruct K as [->|[chk ->]]; cbn [recs_of]; apply (in_map (fun b => (n, WLen b))); exact D.
  - pose proof (IH _ _ R (ex_intro _ k (conj I K)) d D). lia.
Qed.

Lemma pi_rt p b : Forall content_ok (m_PiContents p) -> MarshalPi p = Ret b -> small b -> UnmarshalPi b = (p, true).
Proof.
  intros O M L. unfold MarshalPi in M.
  destruct (gomapB MarshalPiContent (m_PiContents p)) as [cs| | |] eqn:G; try discriminate M. cbn [bind] in M.
  apply gomapB_spec in G.
  destruct (contents_rt _ _ O G) as [A B].
  { apply Forall_forall. intros d D. unfold small in *.
    pose proof (repeated_len S_Pi MarshalPiContent _ cs 2 [VB (m_Gs p); VL cs] b G M) as H.
    enough (List.length d <= List.length b)%nat by lia. apply H; [|exact D].
    eexists. split; [right; left; reflexivity|]. right. eexists. reflexivity. }
  unfold UnmarshalPi. rewrite (rt _ _ _ M L ltac:(schemas) ltac:(fields)).
  cbn [at_ nth asB asL]. rewrite B. destruct p. reflexivity.
Qed.

Definition vss_ok (m : VSSSendMsg) : Prop :=
  match m_Pi m with None => True | Some p => Forall content_ok (m_PiContents p) end.

(** The dealing: client.go:120-125 to VSS.go:27 (through the reliable broadcast). *)
Theorem c04_vsssend m b : vss_ok m -> MarshalVSSSend m = Ret b -> small b -> UnmarshalVSSSend b = (m, true).
Proof.
  intros O M L. unfold MarshalVSSSend in M. unfold vss_ok in O.
  destruct (m_Pi m) as [p|] eqn:P; cbn [bind] in M.
  - destruct (MarshalPi p) as [q| | |] eqn:Q; try discriminate M. cbn [bind] in M.
    assert (Lq : small q).
    { unfold small in *. enough (List.length q <= List.length b)%nat by lia.
      change (bind (Marshal (tl S_VSSSend) [VL (m_BijList m); VL (m_WBijList m)])
                (fun rest => Ret (put_recs [(1, WLen q)] ++ rest)) = Ret b) in M.
      destruct (Marshal (tl S_VSSSend) _) as [r| | |]; try discriminate M. cbn [bind] in M.
      apply (f_equal (fun x => match x with Ret y => y | _ => [] end)) in M. cbv iota beta in M.
      rewrite <- M, app_length.
      pose proof (put_recs_len [(1, WLen q)] 1 q ltac:(left; reflexivity)). lia. }
    pose proof (pi_rt _ _ O Q Lq) as R.
    assert (C : snd (Unmarshal S_Pi q) = true).
    { unfold UnmarshalPi in R. destruct (Unmarshal S_Pi q) as [vs ok]. injection R as _ ->. reflexivity. }
    unfold UnmarshalVSSSend. rewrite (rt _ _ _ M L ltac:(schemas) ltac:(fields)).
    cbn [at_ nth asO asL]. rewrite R. destruct m as [mp B W]. cbn in P. subst mp. reflexivity.
  - unfold UnmarshalVSSSend. rewrite (rt _ _ _ M L ltac:(schemas) ltac:(fields)).
    cbn [at_ nth asO asL]. destruct m as [mp B W]. cbn in P. subst mp. reflexivity.
Qed.
Print Assumptions c04_vsssend.

(** Commit: ProactivizeAndShareDist.go:133 to 148. *)
Theorem c04_commit cs b : Forall content_ok cs -> MarshalCommit cs = Ret b -> small b -> UnmarshalCommit b = (cs, true).
Proof.
  intros O M L. unfold MarshalCommit in M.
  destruct (gomapB MarshalPiContent cs) as [bs| | |] eqn:G; try discriminate M. cbn [bind] in M.
  apply gomapB_spec in G.
  destruct (contents_rt _ _ O G) as [A B].
  { apply Forall_forall. intros d D. unfold small in *.
    pose proof (repeated_len S_Commit MarshalPiContent _ bs 1 [VL bs] b G M) as H.
    enough (List.length d <= List.length b)%nat by lia. apply H; [|exact D].
    eexists. split; [left; reflexivity|]. right. eexists. reflexivity. }
  unfold UnmarshalCommit. rewrite (rt _ _ _ M L ltac:(schemas) ltac:(fields)).
  cbn [at_ nth asL]. rewrite B. reflexivity.
Qed.
Print Assumptions c04_commit.

(** The flat payloads: ShareReduce.go:51 to 81; ProactivizeAndShareDist.go:248 to 266, 325 to 361,
    435 to 457, 549 to 620. *)
Theorem c04_payloads b : small b ->
  (forall m, MarshalShareReduce m = Ret b -> UnmarshalShareReduce b = (m, true)) /\
  (forall m, MarshalReshare m = Ret b -> UnmarshalReshare b = (m, true)) /\
  (forall m, u32 (rc_Index m) -> MarshalRecover m = Ret b -> UnmarshalRecover b = (m, true)) /\
  (forall m, MarshalShareDist m = Ret b -> UnmarshalShareDist b = (m, true)) /\
  (forall sigs js, Forall u32 js -> MarshalMVBAIN (sigs, js) = Ret b -> UnmarshalMVBAIN b = ((sigs, js), true)).
Proof.
  intros L. repeat split.
  - intros m M. unfold UnmarshalShareReduce. rewrite (rt _ _ _ M L ltac:(schemas) ltac:(fields)).
    destruct m. reflexivity.
  - intros m M. unfold UnmarshalReshare. rewrite (rt _ _ _ M L ltac:(schemas) ltac:(fields)).
    destruct m. reflexivity.
  - intros m U M. unfold UnmarshalRecover. rewrite (rt _ _ _ M L ltac:(schemas) ltac:(fields)).
    destruct m. reflexivity.
  - intros m M. unfold UnmarshalShareDist. rewrite (rt _ _ _ M L ltac:(schemas) ltac:(fields)).
    destruct m. reflexivity.
  - intros sigs js U M. unfold UnmarshalMVBAIN.
    rewrite (rt S_MVBAIN [VL sigs; VNs js] b M L ltac:(schemas) ltac:(fields)). reflexivity.
Qed.
Print Assumptions c04_payloads.

(** All of them can be written. *)
Theorem c04_payloads_writable :
  (forall m, vss_ok m -> exists b, MarshalVSSSend m = Ret b) /\
  (forall cs, Forall content_ok cs -> exists b, MarshalCommit cs = Ret b) /\
  (forall m, exists b, MarshalShareReduce m = Ret b) /\
  (forall m, exists b, MarshalReshare m = Ret b) /\
  (forall m, exists b, MarshalRecover m = Ret b) /\
  (forall m, exists b, MarshalShareDist m = Ret b) /\
  (forall m, exists b, MarshalMVBAIN m = Ret b).
Proof.
  assert (C : forall l : list PiContentMsg, exists bs, gomapB MarshalPiContent l = Ret bs).
  { intros l. apply gomapB_total. intros c _. eexists. reflexivity. }
  repeat split; intros.
  - unfold MarshalVSSSend. destruct (m_Pi m) as [p|]; [|eexists; reflexivity].
    unfold MarshalPi. destruct (C (m_PiContents p)) as [bs ->]. eexists. reflexivity.
  - unfold MarshalCommit. destruct (C cs) as [bs ->]. eexists. reflexivity.
  - eexists; reflexivity.
  - eexists; reflexivity.
  - eexists; reflexivity.
  - eexists; reflexivity.
  - eexists; reflexivity.
Qed.
Print Assumptions c04_payloads_writable.

(** *** Encapsulation and decapsulation *)

(** The eight payloads of the agreement protocol and the type under which the callers
    (pb.go:18, 79; main_process.go:75, 109, 134, 165, 178, 190, 208, 218) send them. *)
Definition name (p : payload) : string :=
  match p with
  | PValue _ _ => "Value" | PEcho _ => "Echo" | PLock _ _ => "Lock" | PFinish _ _ => "Finish"
  | PDone _ => "Done" | PHalt _ _ => "Halt" | PPreVote _ _ _ => "PreVote" | PVote _ _ _ _ => "Vote"
  | PMessage _ => "Message"
  end.

Definition agreement_payload (p : payload) : Prop := match p with PMessage _ => False | _ => True end.

Ltac encap S vs :=
  let d := fresh "d" in let M := fresh "M" in
  destruct (marshal_total S vs ltac:(fields)) as [d M]; exists d; split;
  [ unfold Encapsulation, encap_data;
    repeat match goal with |- context [is_ty ?a ?b] => let t := eval vm_compute in (is_ty a b) in change (is_ty a b) with t end;
    cbv iota; rewrite M; reflexivity
  | let L := fresh in let m := fresh "m" in let E := fresh in
    intros L m E; unfold Decapsulation;
    repeat match goal with |- context [is_ty ?a ?b] => let t := eval vm_compute in (is_ty a b) in change (is_ty a b) with t end;
    cbv iota zeta; rewrite E, (c04_roundtrip S vs d ltac:(schemas) ltac:(fields) M L); reflexivity ].

(** Encapsulating under the right type never fails, and decapsulating any envelope that carries the data
    under the same type gives the payload back. *)
Theorem c04_encapsulation p id sender : agreement_payload p ->
  exists data, Encapsulation (bytes_of_string (name p)) id sender p
               = Ret (mkMsg (bytes_of_string (name p)) id sender data) /\
  (small data -> forall m, m_data m = data -> Decapsulation (bytes_of_string (name p)) m = p).
Proof.
  intros A. destruct p; try destruct A; cbn [name].
  - encap S_Value [VB value; VB validation].
  - encap S_Echo [VB sigshare].
  - encap S_Lock [VB value; VB sig].
  - encap S_Finish [VB value; VB sig].
  - encap S_Done [VB coinShare].
  - encap S_Halt [VB value; VB sig].
  - encap S_PreVote [VF vote; VB value; VB sig].
  - encap S_Vote [VF vote; VB value; VB sig; VB sigshare].
Qed.
Print Assumptions c04_encapsulation.

(** A payload of another Go type makes the process panic. *)
Theorem c04_wrong_payload p q id sender : agreement_payload p -> name q <> name p ->
  Encapsulation (bytes_of_string (name p)) id sender q = Panic.
Proof.
  intros A D. destruct p; try destruct A; destruct q; cbn [name] in *; try (exfalso; apply D; reflexivity); reflexivity.
Qed.
Print Assumptions c04_wrong_payload.

(** Under any other type the payload is lost without notice: the envelope has no data, and what comes
    out is an empty envelope. *)
Theorem c04_encapsulation_refuted : exists ty id sender p m, agreement_payload p /\
  Encapsulation ty id sender p = Ret m /\ m_data m = [] /\ Decapsulation ty m <> p.
Proof.
  exists (bytes_of_string "RBCEcho"), [1], 2, (PEcho [7; 8]). eexists. split; [exact I|].
  split; [reflexivity|]. split; [reflexivity|]. discriminate.
Qed.
Print Assumptions c04_encapsulation_refuted.

(** The eight type names of the agreement protocol. *)
Definition agreement_names : list string :=
  ["Value"; "Echo"; "Lock"; "Finish"; "Done"; "Halt"; "PreVote"; "Vote"]%string.

(** Under every other type name, whatever the payload, the envelope leaves without data, and what is read
    from it under that name is an empty envelope: no payload can be told from another one. *)
Theorem c04_other_type ty id sender p : (forall n, In n agreement_names -> ty <> bytes_of_string n) ->
  exists m, Encapsulation ty id sender p = Ret m /\ m_type m = ty /\ m_id m = id /\ m_sender m = sender /\ m_data m = [] /\
    Decapsulation ty m = PMessage (mkMsg [] [] 0 []).
Proof.
  intros D. exists (mkMsg ty id sender []).
  assert (K : forall n, In n agreement_names -> is_ty ty n = false).
  { intros n I. unfold is_ty. destruct (bytes_eqb ty (bytes_of_string n)) eqn:E; [|reflexivity].
    unfold bytes_eqb in E. destruct (list_eq_dec Z.eq_dec ty (bytes_of_string n)) as [E'|]; [clear E; rename E' into E|discriminate]. exfalso. exact (D n I E). }
  unfold Encapsulation, encap_data, Decapsulation.
  rewrite !K by (unfold agreement_names; cbn [In]; tauto).
  repeat split; reflexivity.
Qed.
Print Assumptions c04_other_type.

Example c04_other_type_example : forall n, In n agreement_names -> bytes_of_string "RBCReady" <> bytes_of_string n.
Proof. intros n I E. repeat (destruct I as [<-|I]; [vm_compute in E; discriminate|]). destruct I. Qed.

(** The whole way: encapsulated, marshalled, unmarshalled, decapsulated. *)
Theorem c04_end_to_end p id sender : agreement_payload p -> u32 sender ->
  exists m b, Encapsulation (bytes_of_string (name p)) id sender p = Ret m /\ MarshalMessage m = Ret b /\
  (small b -> exists m', UnmarshalMessage b = (m', true) /\ m_type m' = bytes_of_string (name p) /\
     m_id m' = id /\ m_sender m' = sender /\ Decapsulation (m_type m') m' = p).
Proof.
  intros A S. destruct (c04_encapsulation p id sender A) as (d & E & D).
  assert (U : utf8_valid (bytes_of_string (name p)) = true) by (destruct p; reflexivity).
  destruct (message_total (mkMsg (bytes_of_string (name p)) id sender d) U S) as [b M].
  exists (mkMsg (bytes_of_string (name p)) id sender d), b. split; [exact E|]. split; [exact M|].
  intros L. exists (mkMsg (bytes_of_string (name p)) id sender d).
  split; [apply c04_message; auto|]. cbn [m_type m_id m_sender]. repeat split. apply D; [|reflexivity].
  unfold small in *. enough (List.length d <= List.length b)%nat by lia.
  destruct d as [|x d]; [cbn; lia|]. set (w := x :: d) in *.
  apply (marshal_inner S_Message _ b 4 w) with (2 := M); [fields|].
  cbn [all_recs S_Message m_type m_id m_sender m_data].
  rewrite !in_app_iff. right. right. right. left. subst w. left. reflexivity.
Qed.
Print Assumptions c04_end_to_end.

(** *** The connection *)

Definition sendable (m : msg) : Prop :=
  utf8_valid (m_type m) = true /\ u32 (m_sender m) /\
  forall b, MarshalMessage m = Ret b -> Z.of_nat (List.length b) < 2 ^ 32.

Lemma send_frames ms : Forall sendable ms -> exists bs, send_stream ms = Ret (stream bs) /\
  Forall fits bs /\ Forall2 (fun m b => MarshalMessage m = Ret b) ms bs.
Proof.
  unfold send_stream.
  assert (H : forall ms acc, Forall sendable ms -> exists bs,
    gofold (fun acc m => match MarshalMessage m with Ret b => Ret (acc ++ frame b) | _ => Fatal end) ms acc
      = Ret (acc ++ stream bs) /\ Forall fits bs /\ Forall2 (fun m b => MarshalMessage m = Ret b) ms bs).
  { clear ms. induction ms as [|m ms IH]; intros acc F.
    - exists []. cbn [gofold]. unfold stream. cbn. rewrite app_nil_r. auto.
    - apply Forall_cons_iff in F. destruct F as [(U & S & L) F].
      destruct (message_total m U S) as [b M]. cbn [gofold]. rewrite M. cbn [bind].
      destruct (IH (acc ++ frame b) F) as (bs & E & A & B). exists (b :: bs). rewrite E.
      split; [unfold stream; cbn [map concat]; rewrite <- app_assoc; reflexivity|].
      split; constructor; auto. unfold fits. apply L. exact M. }
  intros F. destruct (H ms [] F) as (bs & E & A). exists bs. split; [exact E|exact A].
Qed.

Lemma receive_ok ms bs : Forall sendable ms -> Forall2 (fun m b => MarshalMessage m = Ret b) ms bs ->
  receive bs = (ms, true).
Proof.
  intros F G. induction G as [|m b ms bs M G IH]; [reflexivity|].
  apply Forall_cons_iff in F. destruct F as [(U & S & L) F]. cbn [receive].
  rewrite (c04_message m b U S M) by (unfold small; specialize (L _ M); lia). rewrite (IH F). reflexivity.
Qed.

Lemma forall2_firstn {A B} (R : A -> B -> Prop) k : forall l1 l2, Forall2 R l1 l2 -> Forall2 R (firstn k l1) (firstn k l2).
Proof. induction k as [|k IH]; intros l1 l2 H; [constructor|]. destruct H; constructor; auto. Qed.

Lemma forall_firstn {A} (P : A -> Prop) k : forall l, Forall P l -> Forall P (firstn k l).
Proof. induction k as [|k IH]; intros l H; [constructor|]. destruct H; constructor; auto. Qed.

(** However TCP cuts the bytes, the receiver pushes a prefix of the messages that were put into the
    send channel, in order and unchanged, and all of them once all bytes arrived and were read. *)
Theorem c04_connection ms bytes_sent es rest : Forall sendable ms -> send_stream ms = Ret bytes_sent ->
  bytes_sent = arrived es ++ rest ->
  (exists k, connection es false = (firstn k ms, true)) /\
  (rest = [] -> kern (rx_run es) = [] -> connection es false = (ms, true)).
Proof.
  intros F S E. destruct (send_frames ms F) as (bs & S' & Fi & G). rewrite S' in S. injection S as <-.
  destruct (framing_correct bs es rest Fi E) as [[k P] Q]. unfold connection. split.
  - exists k. rewrite P, (receive_ok (firstn k ms)); [reflexivity|apply forall_firstn; exact F|].
    apply forall2_firstn. exact G.
  - intros R K. rewrite (Q R K), (receive_ok ms); auto.
Qed.
Print Assumptions c04_connection.

(** *** Concrete cases *)

(** The published wire format: tag, length, content. *)
Example c04_demo_bytes :
  MarshalMessage (mkMsg (bytes_of_string "Echo") [9; 0; 200] 300 [10; 1; 5]) =
  Ret [10; 4; 69; 99; 104; 111; 18; 3; 9; 0; 200; 24; 172; 2; 34; 3; 10; 1; 5].
Proof. reflexivity. Qed.

Example c04_demo_packed : MarshalMVBAIN ([[7]; []; [8; 9]], [1; 0; 300; 2 ^ 32 - 1]) =
  Ret [10; 1; 7; 10; 0; 10; 2; 8; 9; 18; 9; 1; 0; 172; 2; 255; 255; 255; 255; 15].
Proof. reflexivity. Qed.

Example c04_demo_nested : MarshalVSSSend (mkVSS (Some (mkPiM [5] [mkPCM 0 [] [] [] []; mkPCM 1 [6] [] [7] []])) [[]; [3]] [[]]) =
  Ret [10; 15; 10; 1; 5; 18; 0; 18; 8; 8; 1; 18; 1; 6; 34; 1; 7; 18; 0; 18; 1; 3; 26; 0].
Proof. reflexivity. Qed.

(** Duplicate fields: the last one counts; a truncated message is filled as far as it goes. *)
Example c04_demo_last : UnmarshalMessage [24; 5; 10; 1; 65; 24; 7; 34; 9; 1] = (mkMsg [65] [] 7 [], false).
Proof. reflexivity. Qed.

Example c04_demo_unknown : UnmarshalMessage [80; 1; 83; 8; 1; 84; 24; 7; 29; 1; 2; 3; 4] = (mkMsg [] [] 7 [], true).
Proof. reflexivity. Qed.

Example c04_demo_connection :
  Forall sendable [mkMsg [65] [1] 2 [3]; mkMsg [66] [] 0 []] /\
  exists s, send_stream [mkMsg [65] [1] 2 [3]; mkMsg [66] [] 0 []] = Ret s /\
  connection [Arrive (firstn 5 s); Read 4; Read 1; Arrive (skipn 5 s); Read 3; Read 7; Read 2; Read 2; Read 3] false =
  ([mkMsg [65] [1] 2 [3]; mkMsg [66] [] 0 []], true).
Proof.
  split.
  - repeat constructor; cbn [m_sender m_type]; unfold u32; try lia; intros b M;
      unfold MarshalMessage in M; cbn in M; injection M as <-; cbn; lia.
  - eexists. split; reflexivity.
Qed.
