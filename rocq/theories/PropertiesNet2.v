(** C03, C04, C07: what happens outside the conditions of the theorems of PropertiesNet.v and PropertiesProto.v, for all inputs. *)

Require Import String.
Require Import ZArith List Bool Lia.
From Verif Require Import Bytes CodecModel CodecProofs FramingModel FramingProofs GoBase DispatchModel DispatchProofs SendModel ProtoModel PropertiesProto.
Import ListNotations.
Local Open Scope nat_scope.

(** ** C03 A message that is too long (send.go:48-51, receive.go:50-54) *)

Lemma feed_mono bs : forall c, exists more, snd (feed c bs) = snd c ++ more.
Proof.
  induction bs as [|b bs IH]; intros [[ph a] o]; [exists []; symmetry; apply app_nil_r|].
  cbn [feed fold_left]. change (fold_left feed1 bs) with (fun c => feed c bs). cbn [feed1].
  destruct (length (a ++ [b]) =? target ph).
  - destruct ph as [|n]; cbn [complete].
    + destruct (Z.to_nat (BytesToInt (a ++ [b]))).
      * destruct (IH (RHead, [], o ++ [[]])) as (more & E). exists ([[]] ++ more). cbn [snd] in *. rewrite E, <- app_assoc. reflexivity.
      * apply (IH (RBody (S n), [], o)).
    + destruct (IH (RHead, [], o ++ [a ++ [b]])) as (more & E). exists ([a ++ [b]] ++ more). cbn [snd] in *. rewrite E, <- app_assoc. reflexivity.
  - apply (IH (ph, a ++ [b], o)).
Qed.

Definition cut (m : list Z) : list Z := firstn (Z.to_nat (Z.of_nat (length m) mod 2 ^ 32)) m.

Lemma cut_spec m : fits (cut m) /\ (~ fits m -> length (cut m) < length m) /\ exists tl, frame m = frame (cut m) ++ tl.
Proof.
  unfold fits, cut. set (n := Z.of_nat (length m)). pose proof (Z.mod_pos_bound n (2 ^ 32) ltac:(lia)) as B. pose proof (Z.mod_le n (2 ^ 32) ltac:(lia) ltac:(lia)) as LE.
  assert (L : Z.of_nat (length (firstn (Z.to_nat (n mod 2 ^ 32)) m)) = (n mod 2 ^ 32)%Z) by (rewrite firstn_length, Nat.min_l; lia).
  split; [lia|]. split; [intros N; lia|]. exists (skipn (Z.to_nat (n mod 2 ^ 32)) m).
  unfold frame. rewrite L, <- app_assoc, firstn_skipn. f_equal. fold n.
  rewrite <- (BytesToInt_back (IntToBytes n)) at 1; [|apply IntToBytes_bytes|apply IntToBytes_length]. f_equal.
  rewrite <- (app_nil_r (IntToBytes n)). apply BytesToInt_IntToBytes.
Qed.

(** Where a message of 2^32 bytes or more was sent after others that fit, at most its first bytes are delivered. *)
Theorem c03_too_long : forall before m after es rest, Forall fits before -> ~ fits m ->
  stream (before ++ m :: after) = arrived es ++ rest ->
  exists cutoff, (cutoff < length m) /\
    (forall x, nth_error (out (rx_run es)) (length before) = Some x -> x = firstn cutoff m) /\
    (rest = [] -> kern (rx_run es) = [] -> firstn (length before + 1) (out (rx_run es)) = before ++ [firstn cutoff m]).
Proof.
  intros before m after es rest FB NF E. destruct (cut_spec m) as (FC & SC & tl & FR). specialize (SC NF).
  assert (LC : length (cut m) = Z.to_nat (Z.of_nat (length m) mod 2 ^ 32)).
  { unfold cut in *. rewrite firstn_length in *. lia. }
  exists (Z.to_nat (Z.of_nat (length m) mod 2 ^ 32)). split; [lia|]. fold (cut m).
  set (X := stream (before ++ [cut m])).
  assert (EX : stream (before ++ m :: after) = X ++ tl ++ stream after).
  { unfold X, stream. rewrite !map_app, !concat_app. cbn [map concat]. rewrite FR, app_nil_r, <- !app_assoc. reflexivity. }
  destruct (rx_run_feed es) as (c & A & C). assert (O : out (rx_run es) = snd (feed (RHead, [], []) c)) by (rewrite <- C; reflexivity).
  rewrite EX, A, <- app_assoc in E.
  assert (FA : Forall fits (before ++ [cut m])) by (apply Forall_app; split; [exact FB|constructor; [exact FC|constructor]]).
  destruct (le_lt_dec (length X) (length c)) as [H|H].
  - assert (EC : c = X ++ skipn (length X) c).
    { rewrite <- (firstn_skipn (length X) c) at 1. f_equal. apply (f_equal (firstn (length X))) in E. rewrite !firstn_app in E.
      rewrite Nat.sub_diag in E. replace (length X - length c) with 0 in E by lia. rewrite !firstn_O, !app_nil_r, firstn_all in E. symmetry. exact E. }
    destruct (feed_stream _ FA [] X [] ltac:(rewrite app_nil_r; reflexivity)) as (_ & _ & K). specialize (K eq_refl).
    rewrite O. rewrite EC, feed_app, K. cbn [app]. destruct (feed_mono (skipn (length X) c) (RHead, [], before ++ [cut m])) as (more & Em).
    rewrite Em. cbn [snd]. split.
    + intros x Hx. rewrite <- app_assoc in Hx. rewrite nth_error_app2, Nat.sub_diag in Hx by lia. cbn in Hx. congruence.
    + intros _ _. rewrite firstn_app. replace (length before + 1) with (length (before ++ [cut m])) by (rewrite app_length; reflexivity).
      rewrite firstn_all, Nat.sub_diag. cbn [firstn]. apply app_nil_r.
  - assert (EC : X = c ++ skipn (length c) X).
    { rewrite <- (firstn_skipn (length c) X) at 1. f_equal. apply (f_equal (firstn (length c))) in E. rewrite !firstn_app in E.
      rewrite Nat.sub_diag in E. replace (length c - length X) with 0 in E by lia. rewrite !firstn_O, !app_nil_r, firstn_all in E. exact E. }
    destruct (feed_stream _ FA [] c _ EC) as (k & K & _). cbn [app] in K. rewrite O, K. split.
    + intros x Hx. assert (Hx' : nth_error (before ++ [cut m]) (length before) = Some x).
      { rewrite <- (firstn_skipn k (before ++ [cut m])). rewrite nth_error_app1; [exact Hx|]. apply nth_error_Some. congruence. }
      rewrite nth_error_app2, Nat.sub_diag in Hx' by lia. cbn in Hx'. congruence.
    + intros -> K0. rewrite K0, !app_nil_r in E. exfalso. rewrite <- E, app_length in H. lia.
Qed.
Print Assumptions c03_too_long.

(** ** C04 A type name that is none of the eight (message_encapsulation.go:12-84) *)

Definition agreement_names : list string := ["Value"; "Echo"; "Lock"; "Finish"; "Done"; "Halt"; "PreVote"; "Vote"]%string.

Lemma is_ty_iff ty s : is_ty ty s = true <-> ty = bytes_of_string s.
Proof. unfold is_ty. apply bytes_eqb_eq. Qed.

(** The payload is dropped without an error, and decapsulation does not give it back. *)
Theorem c04_lost : forall ty id sender p, (forall s, In s agreement_names -> ty <> bytes_of_string s) ->
  Encapsulation ty id sender p = Ret (mkMsg ty id sender []) /\
  forall m, agreement_payload p -> Decapsulation ty m <> p.
Proof.
  intros ty id sender p H.
  assert (N : forall s, In s agreement_names -> is_ty ty s = false).
  { intros s Hs. destruct (is_ty ty s) eqn:E; [|reflexivity]. apply is_ty_iff in E. destruct (H s Hs E). }
  unfold Encapsulation, encap_data, Decapsulation.
  rewrite !N by (unfold agreement_names; cbn [In]; auto 10). split; [reflexivity|].
  intros m A E. rewrite <- E in A. exact A.
Qed.
Print Assumptions c04_lost.

(** ** C07 Channels that were not set up (party_utils.go:37-104) *)

Lemma nth_none n d (l : list (option (list msg))) : l = repeat None n -> d < n -> nth_error l d = Some None.
Proof. intros ->. revert d. induction n as [|n IH]; intros [|d] H; cbn; try lia; [reflexivity|]. apply IH. lia. Qed.

Lemma put_none n d m : d < n -> put (Some (repeat None n)) d m = Blocked.
Proof. intros H. unfold put. rewrite (nth_none n d _ eq_refl H). reflexivity. Qed.

(** Every way of sending blocks, except a broadcast that excludes the only member. *)
Theorem c07_uninitialised : forall n m d, d < n ->
  Send (new_party n) m d = Blocked /\ Broadcast (new_party n) m = Blocked /\ SendToNextCommittee (new_party n) m d = Blocked /\
  BroadcastToNextCommittee (new_party n) m = Blocked /\ (forall e, e <> d -> BroadcastExclude (new_party n) m e = Blocked).
Proof.
  intros n m d H.
  assert (S1 : forall d, d < n -> Send (new_party n) m d = Blocked).
  { intros x Hx. unfold Send, new_party. cbn [checkSendChannelsInit sendToNextChannels negb sp_N sendChannels]. rewrite (proj2 (Nat.ltb_lt _ _) Hx), put_none by exact Hx. reflexivity. }
  assert (S2 : forall d, d < n -> SendToNextCommittee (new_party n) m d = Blocked).
  { intros x Hx. unfold SendToNextCommittee, new_party. cbn [checkInitSendChannelsToNext sendToNextChannels negb sp_N sendChannels]. rewrite (proj2 (Nat.ltb_lt _ _) Hx), put_none by exact Hx. reflexivity. }
  destruct n as [|n]; [lia|]. split; [apply S1, H|]. split; [|split; [apply S2, H|split]].
  - unfold Broadcast. cbn [new_party checkSendChannelsInit sendToNextChannels negb sp_N seq send_all]. fold (new_party (S n)). rewrite S1 by lia. reflexivity.
  - unfold BroadcastToNextCommittee. cbn [new_party checkInitSendChannelsToNext sendToNextChannels negb sp_N seq send_all]. fold (new_party (S n)). rewrite S2 by lia. reflexivity.
  - intros e He. unfold BroadcastExclude. cbn [new_party checkSendChannelsInit sendToNextChannels negb sp_N]. fold (new_party (S n)).
    destruct e as [|e].
    + destruct n as [|n]; [lia|]. cbn [seq send_all Nat.eqb]. rewrite S1 by lia. reflexivity.
    + cbn [seq send_all Nat.eqb]. rewrite S1 by lia. reflexivity.
Qed.
Print Assumptions c07_uninitialised.

(** A type name of the reliable broadcast; a party of three; a message that fits before one of 2^32 + 1 bytes. *)
Example c04_lost_example : forall s, In s agreement_names -> bytes_of_string "RBCEcho" <> bytes_of_string s.
Proof. intros s H. unfold agreement_names in H. repeat (destruct H as [<- |H]; [discriminate|]). destruct H. Qed.

Example c07_uninitialised_example : Send (new_party 3) (mkMsg [] [] 0%Z []) 2 = Blocked.
Proof. reflexivity. Qed.

Example c03_too_long_example : Forall fits [[7; 8]%Z] /\ ~ fits (repeat 5%Z (Z.to_nat (2 ^ 32 + 1))).
Proof.
  split; [repeat constructor|]. unfold fits. rewrite repeat_length, Z2Nat.id by lia. lia.
Qed.
