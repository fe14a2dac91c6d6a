(** Headline theorems: which byte strings are parsed, and as what (C68). *)

Require Import Ascii String ZArith List Bool Arith Lia.
From Verif Require Import Bytes CodecModel CodecProofs GoBase FramingModel DispatchModel PartyModel ReduceModel ProacModel.
From Verif Require Import ProtoModel ProtoProofs WireSpec WireProofs PropertiesProto.
Import ListNotations.
Local Open Scope Z_scope.
Local Open Scope list_scope.

Lemma schema_nodup sch : In sch all_schemas -> NoDup (map fst sch).
Proof. intros H. destruct (all_schemas_ok sch H) as (H1 & _). exact H1. Qed.

(** A message of any type of Message.proto is read without an error exactly if the bytes are a sequence of records that
    fit its type; the fields then are what these records say. *)
Theorem c68_accepts sch b : In sch all_schemas -> is_bytes b ->
  (snd (Unmarshal sch b) = true <-> exists rs, stream b rs /\ Forall (fits sch) rs) /\
  forall rs, stream b rs -> Forall (fits sch) rs ->
    Forall2 (fun f v => field_is (fst f) (snd f) rs v) sch (fst (Unmarshal sch b)).
Proof.
  intros HS HB. pose proof (schema_nodup sch HS) as ND.
  assert (A : forall rs, stream b rs -> Forall (fits sch) rs ->
    snd (Unmarshal sch b) = true /\ Forall2 (fun f v => field_is (fst f) (snd f) rs v) sch (fst (Unmarshal sch b))).
  { intros rs HR HF. unfold Unmarshal.
    assert (parse (length b) b = (rs, true)) as ->.
    { pose proof (parse_split b rs [] ltac:(rewrite app_nil_r; exact HB) HR (or_introl eq_refl) (length b)) as P. rewrite app_nil_r in P. apply P. lia. }
    pose proof (stream_bytes _ _ HR HB) as RB. destruct (cut_spec sch rs ND RB) as (C1 & C2). apply C1 in HF as C3. specialize (C2 C3).
    destruct (cut sch rs) as (l & ok). cbn [fst snd] in *. subst l ok. split; [reflexivity|]. apply fields_spec; auto.
    intros n w _ Hw. rewrite Forall_forall in HF. apply HF. exact Hw. }
  split; [|intros rs HR HF; apply A; assumption]. split; [|intros (rs & HR & HF); apply (A rs HR HF)].
  intros E. destruct (stream_split (length b) b ltac:(lia) HB) as (b1 & rs & b2 & -> & HR & H2).
  unfold Unmarshal in E. rewrite (parse_split b1 rs b2 HB HR H2) in E by lia.
  pose proof (stream_bytes _ _ HR (is_bytes_l _ _ HB)) as RB. destruct (cut_spec sch rs ND RB) as (C1 & _).
  destruct (cut sch rs) as (l & ok). cbn [snd] in *. apply andb_true_iff in E. destruct E as (E1 & E2).
  destruct b2; [|discriminate]. rewrite app_nil_r. exists rs. split; [exact HR|apply C1; exact E2].
Qed.

(** Otherwise the parsed message (which most receivers of the program use all the same, as they ignore the error) has the
    fields of the records before the first offending place; a nested message that is not acceptable still counts. *)
Theorem c68_rejected sch b : In sch all_schemas -> is_bytes b -> snd (Unmarshal sch b) = false ->
  exists b1 rs b2 used, b = b1 ++ b2 /\ stream b1 rs /\ (b2 = [] \/ stuck b2) /\
    Forall2 (fun f v => field_is (fst f) (snd f) used v) sch (fst (Unmarshal sch b)) /\
    ((stuck b2 /\ Forall (fits sch) rs /\ used = rs) \/
     exists pre r post, rs = pre ++ r :: post /\ Forall (fits sch) pre /\ ~ fits sch r /\
       ((nested sch r /\ used = pre ++ [r]) \/ (~ nested sch r /\ used = pre))).
Proof.
  intros HS HB. pose proof (schema_nodup sch HS) as ND.
  destruct (stream_split (length b) b ltac:(lia) HB) as (b1 & rs & b2 & -> & HR & H2). intros E.
  unfold Unmarshal in *. rewrite (parse_split b1 rs b2 HB HR H2) in * by lia.
  pose proof (stream_bytes _ _ HR (is_bytes_l _ _ HB)) as RB. destruct (cut_spec sch rs ND RB) as (C1 & C2).
  pose proof (cut_fail sch rs ND RB) as C3. destruct (cut sch rs) as (l & ok). cbn [fst snd] in *.
  exists b1, rs, b2, l. split; [reflexivity|]. split; [exact HR|]. split; [exact H2|]. destruct ok.
  - specialize (C2 eq_refl). subst l. rewrite andb_true_r in E. destruct b2 as [|x b2]; [discriminate|].
    destruct H2 as [H2|H2]; [discriminate|]. assert (F : Forall (fits sch) rs) by (apply C1; reflexivity). split; [|left; auto].
    apply fields_spec; auto. intros n w _ Hw. rewrite Forall_forall in F. apply F. exact Hw.
  - destruct (C3 eq_refl) as (pre & r & post & E1 & F & NF & K). split; [|right; exists pre, r, post; auto].
    subst rs. apply Forall_app in RB. destruct RB as (RB1 & RB2). inversion RB2 as [|? ? RB3 RB4]; subst.
    rewrite Forall_forall in F. destruct K as [((chk & d & K1 & K2) & ->)|(_ & ->)].
    + apply fields_spec; [exact ND|apply Forall_app; auto|]. intros n w Hn Hw. apply in_app_or in Hw. destruct Hw as [Hw|[->|[]]]; [apply F; exact Hw|].
      cbn [fst] in K1. pose proof (lookup_in sch _ _ ND Hn). pose proof (lookup_in sch _ _ ND K1). congruence.
    + apply fields_spec; [exact ND|exact RB1|]. intros n w _ Hw. apply F. exact Hw.
Qed.

(** The records of a byte string are determined by it. *)
Theorem c68_unique b rs rs' : is_bytes b -> stream b rs -> stream b rs' -> rs = rs'.
Proof.
  intros HB H H'. assert (P : forall l, stream b l -> parse (length b) b = (l, true)).
  { intros l Hl. pose proof (parse_split b l [] ltac:(rewrite app_nil_r; exact HB) Hl (or_introl eq_refl) (length b)) as P. rewrite app_nil_r in P. apply P. lia. }
  apply P in H, H'. congruence.
Qed.

(** The envelopes which do not end the receiving process (C49, receive.go:60-63). *)
Theorem c68_envelope b : is_bytes b ->
  (snd (UnmarshalMessage b) = true <-> exists rs, stream b rs /\ forall t, In (1, WLen t) rs -> is_utf8 t).
Proof.
  intros HB. assert (E : snd (UnmarshalMessage b) = snd (Unmarshal S_Message b)) by (unfold UnmarshalMessage; destruct (Unmarshal S_Message b); reflexivity).
  rewrite E. destruct (c68_accepts S_Message b) as (A & _); [unfold all_schemas; simpl; tauto|exact HB|]. rewrite A.
  split; intros (rs & HR & H); exists rs; split; auto.
  - intros t Ht. rewrite Forall_forall in H. apply (H _ Ht KStr). left. reflexivity.
  - apply Forall_forall. intros (n & w) Hr k Hk. cbn [fst snd] in *.
    destruct Hk as [Hk|[Hk|[Hk|[Hk|[]]]]]; injection Hk as <- <-; auto. destruct w; auto.
Qed.

(** Strings: the sequences of code points in their shortest form. *)
Theorem c68_utf8 b : utf8_valid b = true <-> is_utf8 b.
Proof. apply utf8_iff. Qed.

Print Assumptions c68_accepts.
Print Assumptions c68_rejected.
Print Assumptions c68_unique.
Print Assumptions c68_envelope.
Print Assumptions c68_utf8.

(** What is written has this format, too, and says what was to be written. *)
Theorem c68_written sch vs b : In sch all_schemas -> Forall2 (fun f v => val_ok (snd f) v) sch vs ->
  Marshal sch vs = Ret b -> is_bytes b -> small b ->
  exists rs, stream b rs /\ Forall (fits sch) rs /\ Forall2 (fun f v => field_is (fst f) (snd f) rs v) sch vs.
Proof.
  intros HS HV E HB HM. pose proof (c04_roundtrip sch vs b HS HV E HM) as RT.
  destruct (c68_accepts sch b HS HB) as (A & B). rewrite RT in A, B. destruct (proj1 A eq_refl) as (rs & H1 & H2).
  exists rs. split; [exact H1|]. split; [exact H2|]. exact (B rs H1 H2).
Qed.
Print Assumptions c68_written.

(** An envelope with a sender, an unknown integer, an unknown group around another unknown integer, and a fixed 32-bit
    value under the number of the sender: accepted, and the sender is 7. *)
Definition demo_bytes : bytes := [80; 1; 83; 8; 1; 84; 24; 7; 29; 1; 2; 3; 4].
Definition demo_recs : list rec := [(10, WVarint 1); (10, WGroup); (3, WVarint 7); (3, WFixed32 [1; 2; 3; 4])].

Lemma one_byte x : 0 <= x < 128 -> is_varint [x] x.
Proof.
  intros H. exists [], x. split; [reflexivity|]. split; [constructor|]. split; [exact H|]. split; [simpl; lia|]. split; [simpl; lia|].
  cbn [septets]. rewrite Z.mod_small by lia. lia.
Qed.

Example c68_demo_stream : is_bytes demo_bytes /\ stream demo_bytes demo_recs /\ Forall (fits S_Message) demo_recs /\
  snd (UnmarshalMessage demo_bytes) = true.
Proof.
  split; [repeat constructor; unfold is_byte; lia|]. split; [|split; [|reflexivity]].
  - assert (T : forall x n wt, x = 8 * n + wt -> 1 <= n < 10 + 1 -> 0 <= wt < 8 -> is_tag [x] n wt).
    { intros x n wt -> H1 H2. split; [apply one_byte; lia|]. split; lia. }
    apply (stream_cons [80] 10 0 [1] (WVarint 1)); [apply T; lia|constructor; apply one_byte; lia|].
    apply (stream_cons [83] 10 3 [8; 1; 84] WGroup); [apply T; lia| |].
    { apply (body_group 10 [8; 1] [(1, WVarint 1)] [84]); [|apply T; lia].
      apply (stream_cons [8] 1 0 [1] (WVarint 1) [] []); [apply T; lia|constructor; apply one_byte; lia|constructor]. }
    apply (stream_cons [24] 3 0 [7] (WVarint 7)); [apply T; lia|constructor; apply one_byte; lia|].
    apply (stream_cons [29] 3 5 [1; 2; 3; 4] (WFixed32 [1; 2; 3; 4]) [] []); [apply T; lia|constructor; reflexivity|constructor].
  - repeat constructor; intros k Hk; cbn in *; destruct k; auto; repeat (destruct Hk as [Hk|Hk]; [discriminate|]); contradiction.
Qed.

(** A dealing whose nested message breaks off: refused, but the part before is used. *)
Example c68_demo_rejected : is_bytes [10; 4; 10; 1; 9; 10; 18; 0] /\ snd (Unmarshal S_VSSSend [10; 4; 10; 1; 9; 10; 18; 0]) = false /\
  m_Pi (fst (UnmarshalVSSSend [10; 4; 10; 1; 9; 10; 18; 0])) = Some (mkPiM [9] []).
Proof. split; [repeat constructor; unfold is_byte; lia|]. split; reflexivity. Qed.

(** The euro sign, and the first surrogate. *)
Example c68_demo_utf8 : is_utf8 [226; 130; 172] /\ ~ is_utf8 [237; 160; 128].
Proof.
  split.
  - exists [8364]. split; [constructor; [unfold scalar; lia|constructor]|reflexivity].
  - rewrite <- c68_utf8. discriminate.
Qed.

Example c68_demo_written : Marshal S_Recover [VN 300; VB [1]; VB []; VB [2; 3]] = Ret [8; 172; 2; 18; 1; 1; 34; 2; 2; 3].
Proof. reflexivity. Qed.
