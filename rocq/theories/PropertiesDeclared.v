(** C68, continued: field numbers and types are those declared in Message.proto, and every field of a parsed message is the
    declared field of that name. *)

Require Import Ascii String ZArith List Bool Arith Lia.
From Verif Require Import Bytes CodecModel CodecProofs GoBase FramingModel DispatchModel PartyModel ReduceModel ProacModel.
From Verif Require Import ProtoModel ProtoProofs WireSpec WireProofs PropertiesProto PropertiesWire DeclSpec.
Import ListNotations.
Local Open Scope Z_scope.
Local Open Scope list_scope.

(** What was read from the text of the file. *)
Lemma declarations_ok : declarations = messages_of 1000 (words Message_proto "" false).
Proof. vm_compute. reflexivity. Qed.

Lemma named_all nm sch : In (nm, sch) named_schemas -> In sch all_schemas.
Proof.
  intros H. change all_schemas with (map snd named_schemas). change sch with (snd (nm, sch)). apply in_map. exact H.
Qed.

(** Every message is modelled with the numbers, types and order of its declaration. *)
Theorem c68_declared nm sch : In (nm, sch) named_schemas ->
  exists ds, In (nm, ds) declarations /\ Forall2 (fun d f => d_num d = fst f /\ kind_is d (snd f)) ds sch.
Proof.
  assert (P : In ("PiContent"%string, S_PiContent) named_schemas) by (cbn; tauto).
  assert (Q : In ("Pi"%string, S_Pi) named_schemas) by (cbn; tauto).
  intros H. unfold named_schemas in H. cbn [In] in H.
  repeat (destruct H as [H|H];
    [injection H as <- <-; eexists; split;
     [unfold declarations; repeat (first [left; reflexivity | right])
     |repeat (first [apply Forall2_nil | apply Forall2_cons; [split; [reflexivity|constructor; assumption]|]])]
    |]).
  destruct H.
Qed.
Print Assumptions c68_declared.

(** The messages of the file are all modelled, except three that no part of the program uses. *)
Theorem c68_complete nm ds : In (nm, ds) declarations ->
  (exists sch, In (nm, sch) named_schemas) \/ In nm ["VSSEcho"; "VSSReady"; "VSSDistribute"]%string.
Proof.
  assert (C : forallb (fun x => existsb (String.eqb (fst x)) (map fst named_schemas ++ ["VSSEcho"; "VSSReady"; "VSSDistribute"]%string)) declarations = true)
    by (vm_compute; reflexivity).
  intros H. rewrite forallb_forall in C. specialize (C _ H). cbn [fst] in C. apply existsb_exists in C. destruct C as (y & Hy & E).
  apply String.eqb_eq in E. subst y. apply in_app_or in Hy. destruct Hy as [Hy|Hy]; [left|right; exact Hy].
  apply in_map_iff in Hy. destruct Hy as ((n & sch) & <- & Hs). exists sch. exact Hs.
Qed.
Print Assumptions c68_complete.

Lemma read_fields nm sch ds rs vs : In (nm, ds) declarations ->
  Forall2 (fun d f => d_num d = fst f /\ kind_is d (snd f)) ds sch ->
  Forall2 (fun f v => field_is (fst f) (snd f) rs v) sch vs ->
  Forall2 (fun d v => said nm (d_name d) rs v) ds vs.
Proof.
  intros I D. assert (G : forall ds', incl ds' ds -> Forall2 (fun d f => d_num d = fst f /\ kind_is d (snd f)) ds' sch ->
    Forall2 (fun f v => field_is (fst f) (snd f) rs v) sch vs -> Forall2 (fun d v => said nm (d_name d) rs v) ds' vs).
  { clear D. intros ds' IN D. revert vs. induction D as [|d f ds' sch (E & K) D IH]; intros vs V; inversion V; subst; constructor.
    - exists ds, d, (snd f). split; [exact I|]. split; [apply IN; left; reflexivity|]. split; [reflexivity|]. split; [exact K|]. rewrite E. assumption.
    - apply IH; [|assumption]. intros x Hx. apply IN. right. exact Hx. }
  intros V. exact (G ds (incl_refl _) D V).
Qed.

(** The values read, in the order of the declaration. *)
Theorem c68_names nm sch b : In (nm, sch) named_schemas -> is_bytes b -> snd (Unmarshal sch b) = true ->
  exists ds rs, In (nm, ds) declarations /\ stream b rs /\ Forall2 (fun d v => said nm (d_name d) rs v) ds (fst (Unmarshal sch b)).
Proof.
  intros H HB E. destruct (c68_declared nm sch H) as (ds & I & D). destruct (c68_accepts sch b (named_all _ _ H) HB) as (A & B).
  destruct (proj1 A E) as (rs & R & F). exists ds, rs. split; [exact I|]. split; [exact R|]. exact (read_fields nm sch ds rs _ I D (B rs R F)).
Qed.
Print Assumptions c68_names.

(** The same for a sequence of records that is known. *)
Lemma names_of nm sch b rs : In (nm, sch) named_schemas -> is_bytes b -> stream b rs -> Forall (fits sch) rs ->
  exists ds, In (nm, ds) declarations /\ Forall2 (fun d f => d_num d = fst f /\ kind_is d (snd f)) ds sch /\
    Forall2 (fun f v => field_is (fst f) (snd f) rs v) sch (fst (Unmarshal sch b)) /\
    Forall2 (fun d v => said nm (d_name d) rs v) ds (fst (Unmarshal sch b)).
Proof.
  intros H HB R F. destruct (c68_declared nm sch H) as (ds & I & D). destruct (c68_accepts sch b (named_all _ _ H) HB) as (_ & B).
  exists ds. split; [exact I|]. split; [exact D|]. split; [exact (B rs R F)|]. exact (read_fields nm sch ds rs _ I D (B rs R F)).
Qed.

(** A message type of the program: the fields of the Go value, by their names in Message.proto. *)
Definition reads {M} (U : bytes -> M * bool) (nm : string) (sch : schema) (content : M -> list (string * fval)) : Prop :=
  forall b rs, is_bytes b -> stream b rs -> Forall (fits sch) rs ->
    snd (U b) = true /\ Forall (fun f => said nm (fst f) rs (snd f)) (content (fst (U b))).

Lemma shape n k rs v : field_is n k rs v ->
  v = match k with
      | KBytes | KStr => VB (asB v) | KU32 => VN (asN v) | KBool => VF (asF v) | KRepBytes | KRepMsg _ => VL (asL v)
      | KRepU32 => VNs (asNs v) | KMsg _ => VO (asO v)
      end.
Proof. destruct k; cbn [field_is]; intros (x & -> & _); reflexivity. Qed.

Ltac find_in := repeat (first [left; reflexivity | right]).
Ltac say :=
  match goal with H : field_is ?n ?k ?rs ?v |- said ?m ?f ?rs ?w =>
    replace w with v by exact (shape _ _ _ _ H);
    eexists; eexists (mkDecl _ _ f n); exists k; split; [unfold declarations; find_in|]; split; [find_in|]; split; [reflexivity|];
    split; [constructor; cbn; tauto|exact H]
  end.
Ltac typed nm sch :=
  intros b rs HB R F; let A := fresh in let B := fresh in let E := fresh in
  destruct (c68_accepts sch b (named_all nm sch ltac:(cbn; tauto)) HB) as (A & B);
  specialize (B rs R F); assert (E : snd (Unmarshal sch b) = true) by (apply A; exists rs; auto); clear A F R HB;
  destruct (Unmarshal sch b) as (vs & ok); cbn [fst snd] in *; subst ok; unfold sch in *;
  repeat match goal with
    | H : Forall2 _ (_ :: _) _ |- _ => inversion H; subst; clear H
    | H : Forall2 _ [] _ |- _ => inversion H; subst; clear H
    end;
  unfold at_; cbn [fst snd nth] in *.

Ltac all_said := repeat (apply Forall_cons; [cbn [fst snd]; say|]); apply Forall_nil.

Local Open Scope string_scope.

Theorem c68_envelope_fields :
  reads UnmarshalMessage "Message" S_Message (fun m =>
    [("type", VB (m_type m)); ("id", VB (m_id m)); ("sender", VN (m_sender m)); ("data", VB (m_data m))]).
Proof.
  unfold UnmarshalMessage. typed "Message" S_Message. split; [reflexivity|]. cbn [m_type m_id m_sender m_data]. all_said.
Qed.

(** The payloads of the hand-off. *)
Theorem c68_content_fields :
  reads UnmarshalPiContent "PiContent" S_PiContent (fun c =>
    [("j", VN (m_J c)); ("CBj", VB (m_CBj c)); ("CZj", VB (m_CZj c)); ("WZ0", VB (m_WZ0 c)); ("gFj", VB (m_GFj c))]).
Proof.
  unfold UnmarshalPiContent. typed "PiContent" S_PiContent. split; [reflexivity|]. cbn [m_J m_CBj m_CZj m_WZ0 m_GFj]. all_said.
Qed.

Theorem c68_payload_fields :
  reads UnmarshalShareReduce "ShareReduce" S_ShareReduce (fun m => [("C", VB (sr_C m)); ("v", VB (sr_V m)); ("W", VB (sr_W m))]) /\
  reads UnmarshalReshare "Reshare" S_Reshare (fun m => [("Qk", VL (rs_Qk m)); ("wQk", VL (rs_WQk m))]) /\
  reads UnmarshalRecover "Recover" S_Recover (fun m =>
    [("index", VN (rc_Index m)); ("v", VB (rc_V m)); ("w", VB (rc_W m)); ("sigShare", VB (rc_Sig m))]) /\
  reads UnmarshalShareDist "ShareDist" S_ShareDist (fun m => [("B", VB (sd_B m)); ("wB", VB (sd_WB m))]) /\
  reads UnmarshalMVBAIN "MVBAIN" S_MVBAIN (fun m => [("sig", VL (fst m)); ("j", VNs (snd m))]).
Proof.
  split; [|split; [|split; [|split]]].
  - unfold UnmarshalShareReduce. typed "ShareReduce" S_ShareReduce. split; [reflexivity|]. cbn [sr_C sr_V sr_W]. all_said.
  - unfold UnmarshalReshare. typed "Reshare" S_Reshare. split; [reflexivity|]. cbn [rs_Qk rs_WQk]. all_said.
  - unfold UnmarshalRecover. typed "Recover" S_Recover. split; [reflexivity|]. cbn [rc_Index rc_V rc_W rc_Sig]. all_said.
  - unfold UnmarshalShareDist. typed "ShareDist" S_ShareDist. split; [reflexivity|]. cbn [sd_B sd_WB]. all_said.
  - unfold UnmarshalMVBAIN. typed "MVBAIN" S_MVBAIN. split; [reflexivity|]. all_said.
Qed.

(** Messages inside of messages: each is read from the bytes of one record. *)
Theorem c68_nested_fields b rs : is_bytes b -> stream b rs ->
  (Forall (fits S_Pi) rs -> snd (UnmarshalPi b) = true /\ said "Pi" "gs" rs (VB (m_Gs (fst (UnmarshalPi b)))) /\
     exists cs, said "Pi" "piContents" rs (VL cs) /\ m_PiContents (fst (UnmarshalPi b)) = map (fun c => fst (UnmarshalPiContent c)) cs) /\
  (Forall (fits S_Commit) rs -> snd (UnmarshalCommit b) = true /\
     exists cs, said "Commit" "Pi" rs (VL cs) /\ fst (UnmarshalCommit b) = map (fun c => fst (UnmarshalPiContent c)) cs) /\
  (Forall (fits S_VSSSend) rs -> snd (UnmarshalVSSSend b) = true /\
     said "VSSSend" "BijList" rs (VL (m_BijList (fst (UnmarshalVSSSend b)))) /\
     said "VSSSend" "WBijList" rs (VL (m_WBijList (fst (UnmarshalVSSSend b)))) /\
     exists o, said "VSSSend" "pi" rs (VO o) /\ m_Pi (fst (UnmarshalVSSSend b)) = option_map (fun p => fst (UnmarshalPi p)) o).
Proof.
  intros HB R. revert b rs HB R.
  assert (P1 : forall b rs, is_bytes b -> stream b rs -> Forall (fits S_Pi) rs -> snd (UnmarshalPi b) = true /\ said "Pi" "gs" rs (VB (m_Gs (fst (UnmarshalPi b)))) /\
     exists cs, said "Pi" "piContents" rs (VL cs) /\ m_PiContents (fst (UnmarshalPi b)) = map (fun c => fst (UnmarshalPiContent c)) cs).
  { unfold UnmarshalPi. typed "Pi" S_Pi. cbn [m_Gs m_PiContents]. split; [reflexivity|]. split; [say|]. eexists. split; [say|reflexivity]. }
  assert (P2 : forall b rs, is_bytes b -> stream b rs -> Forall (fits S_Commit) rs -> snd (UnmarshalCommit b) = true /\
     exists cs, said "Commit" "Pi" rs (VL cs) /\ fst (UnmarshalCommit b) = map (fun c => fst (UnmarshalPiContent c)) cs).
  { unfold UnmarshalCommit. typed "Commit" S_Commit. split; [reflexivity|]. eexists. split; [say|reflexivity]. }
  assert (P3 : forall b rs, is_bytes b -> stream b rs -> Forall (fits S_VSSSend) rs -> snd (UnmarshalVSSSend b) = true /\
     said "VSSSend" "BijList" rs (VL (m_BijList (fst (UnmarshalVSSSend b)))) /\
     said "VSSSend" "WBijList" rs (VL (m_WBijList (fst (UnmarshalVSSSend b)))) /\
     exists o, said "VSSSend" "pi" rs (VO o) /\ m_Pi (fst (UnmarshalVSSSend b)) = option_map (fun p => fst (UnmarshalPi p)) o).
  { unfold UnmarshalVSSSend. typed "VSSSend" S_VSSSend. cbn [m_Pi m_BijList m_WBijList]. split; [reflexivity|]. split; [say|]. split; [say|].
    eexists. split; [say|reflexivity]. }
  intros b rs HB R. split; [|split]; auto.
Qed.

(** The payloads of the agreement, whatever else the envelope says. *)
Definition payload_content (p : payload) : list (string * fval) :=
  match p with
  | PValue a v => [("value", VB a); ("validation", VB v)]
  | PEcho s => [("sigshare", VB s)]
  | PLock a s => [("value", VB a); ("sig", VB s)]
  | PFinish a s => [("value", VB a); ("sig", VB s)]
  | PDone s => [("coinShare", VB s)]
  | PHalt a s => [("value", VB a); ("sig", VB s)]
  | PPreVote f a s => [("vote", VF f); ("value", VB a); ("sig", VB s)]
  | PVote f a s t => [("vote", VF f); ("value", VB a); ("sig", VB s); ("sigshare", VB t)]
  | PMessage m => [("type", VB (m_type m)); ("id", VB (m_id m)); ("sender", VN (m_sender m)); ("data", VB (m_data m))]
  end.

Ltac decide_ty :=
  unfold Decapsulation;
  repeat match goal with |- context [is_ty ?a ?b] => let t := eval vm_compute in (is_ty a b) in change (is_ty a b) with t end;
  cbv iota zeta.

Lemma nodup_fst_eq {A B} (a : A) (l : list (A * B)) x y : NoDup (map fst l) -> In (a, x) l -> In (a, y) l -> x = y.
Proof.
  induction l as [|(c & z) l IH]; cbn [map fst In]; intros ND HX HY; [destruct HX|]. inversion ND as [|? ? NI ND2]; subst.
  destruct HX as [EX|HX], HY as [EY|HY]; [congruence| | |auto].
  - injection EX as -> ->. exfalso. apply NI. apply (in_map fst) in HY. exact HY.
  - injection EY as -> ->. exfalso. apply NI. apply (in_map fst) in HX. exact HX.
Qed.

Theorem c68_agreement_fields nm sch m rs : In nm ["Value"; "Echo"; "Lock"; "Finish"; "Done"; "Halt"; "PreVote"; "Vote"] ->
  In (nm, sch) named_schemas -> is_bytes (m_data m) -> stream (m_data m) rs -> Forall (fits sch) rs ->
  name (Decapsulation (bytes_of_string nm) m) = nm /\
  Forall (fun f => said nm (fst f) rs (snd f)) (payload_content (Decapsulation (bytes_of_string nm) m)).
Proof.
  intros N H. destruct m as [ty id sender d]. cbn [m_data]. revert d rs.
  assert (L : forall s, In (nm, s) named_schemas -> sch = s).
  { intros s Hs. apply (nodup_fst_eq nm named_schemas sch s); auto. repeat (first [apply NoDup_nil | apply NoDup_cons; [cbn; intuition discriminate|]]). }
  cbn [In] in N. repeat (destruct N as [<- |N]).
  - rewrite (L S_Value) by (cbn; tauto). decide_ty. cbn [m_data]. typed "Value" S_Value. split; [reflexivity|]. all_said.
  - rewrite (L S_Echo) by (cbn; tauto). decide_ty. cbn [m_data]. typed "Echo" S_Echo. split; [reflexivity|]. all_said.
  - rewrite (L S_Lock) by (cbn; tauto). decide_ty. cbn [m_data]. typed "Lock" S_Lock. split; [reflexivity|]. all_said.
  - rewrite (L S_Finish) by (cbn; tauto). decide_ty. cbn [m_data]. typed "Finish" S_Finish. split; [reflexivity|]. all_said.
  - rewrite (L S_Done) by (cbn; tauto). decide_ty. cbn [m_data]. typed "Done" S_Done. split; [reflexivity|]. all_said.
  - rewrite (L S_Halt) by (cbn; tauto). decide_ty. cbn [m_data]. typed "Halt" S_Halt. split; [reflexivity|]. all_said.
  - rewrite (L S_PreVote) by (cbn; tauto). decide_ty. cbn [m_data]. typed "PreVote" S_PreVote. split; [reflexivity|]. all_said.
  - rewrite (L S_Vote) by (cbn; tauto). decide_ty. cbn [m_data]. typed "Vote" S_Vote. split; [reflexivity|]. all_said.
  - destruct N.
Qed.

Print Assumptions c68_envelope_fields.
Print Assumptions c68_content_fields.
Print Assumptions c68_payload_fields.
Print Assumptions c68_nested_fields.
Print Assumptions c68_agreement_fields.

(** A vote: "vote" is the field 1, "value" the field 2, "sig" the field 3, "sigshare" the field 4. *)
Definition vote_bytes : bytes := [8; 1; 18; 2; 7; 8; 26; 1; 9; 34; 1; 5].

Example c68_demo_vote :
  Decapsulation (bytes_of_string "Vote") (mkMsg (bytes_of_string "Vote") [] 0 vote_bytes) = PVote true [7; 8] [9] [5] /\
  exists rs, stream vote_bytes rs /\ Forall (fits S_Vote) rs /\ said "Vote" "sig" rs (VB [9]).
Proof.
  split; [reflexivity|]. assert (HB : is_bytes vote_bytes) by (repeat constructor; unfold is_byte; lia).
  destruct (c68_accepts S_Vote vote_bytes (named_all "Vote" S_Vote ltac:(cbn; tauto)) HB) as (A & B).
  destruct (proj1 A eq_refl) as (rs & R & F). exists rs. split; [exact R|]. split; [exact F|].
  specialize (B rs R F). apply (c68_agreement_fields "Vote" S_Vote (mkMsg [] [] 0 vote_bytes) rs) in F; try assumption; [|cbn; tauto|cbn; tauto].
  destruct F as (_ & F). rewrite Forall_forall in F. apply (F ("sig", VB [9])). right. right. left. reflexivity.
Qed.
