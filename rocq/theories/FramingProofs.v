(** The framed stream delivers the messages that were sent. *)

Require Import ZArith List Lia Bool.
From Verif Require Import Bytes CodecModel CodecProofs FramingModel.
Import ListNotations.
Local Open Scope nat_scope.

(** The receiver without its kernel buffer, one byte at a time. *)
Definition core : Type := (rx_phase * list Z * list (list Z))%type.
Definition core_of (s : rx) : core := (phase s, acc s, out s).

Definition feed1 (c : core) (b : Z) : core :=
  let '(ph, a, o) := c in
  let got := a ++ [b] in
  if length got =? target ph then let (ph', o') := complete ph got o in (ph', [], o')
  else (ph, got, o).

Definition feed (c : core) (bs : list Z) : core := fold_left feed1 bs c.

Lemma feed_app c b1 b2 : feed c (b1 ++ b2) = feed (feed c b1) b2.
Proof. apply fold_left_app. Qed.

(** Reading fewer bytes than wanted, or exactly as many. *)
Lemma feed_partial ph a o bs : length a + length bs < target ph ->
  feed (ph, a, o) bs = (ph, a ++ bs, o).
Proof.
  revert a. induction bs as [|b bs IH]; intros a H; simpl.
  - rewrite app_nil_r. reflexivity.
  - cbn [length] in H. rewrite app_length. cbn [length].
    destruct (Nat.eqb_spec (length a + 1) (target ph)); [lia|].
    rewrite IH by (rewrite app_length; simpl; lia).
    rewrite <- app_assoc. reflexivity.
Qed.

Lemma feed_full ph a o bs : bs <> [] -> length a + length bs = target ph ->
  feed (ph, a, o) bs = (fst (complete ph (a ++ bs) o), [], snd (complete ph (a ++ bs) o)).
Proof.
  intros Hne H. destruct (exists_last Hne) as (bs' & b & ->).
  rewrite feed_app. rewrite app_length in H. cbn [length] in H.
  rewrite feed_partial by lia. cbn [feed fold_left feed1].
  rewrite !app_length. cbn [length].
  destruct (Nat.eqb_spec (length a + length bs' + 1) (target ph)); [|lia].
  rewrite app_assoc. destruct (complete ph ((a ++ bs') ++ [b]) o). reflexivity.
Qed.

(** A [Read] is feeding the bytes that it takes. *)
Lemma rx_read_feed k s : exists bs, kern s = bs ++ kern (rx_read k s) /\
  core_of (rx_read k s) = feed (core_of s) bs.
Proof.
  unfold rx_read.
  destruct ((0 <? k) && (k <=? target (phase s) - length (acc s)) && (k <=? length (kern s))) eqn:G.
  2: { exists []. split; reflexivity. }
  apply andb_true_iff in G. destruct G as [G G3]. apply andb_true_iff in G. destruct G as [G1 G2].
  apply Nat.ltb_lt in G1. apply Nat.leb_le in G2. apply Nat.leb_le in G3.
  exists (firstn k (kern s)).
  assert (L : length (firstn k (kern s)) = k) by (rewrite firstn_length; lia).
  unfold core_of. rewrite app_length, L.
  destruct (Nat.eqb_spec (length (acc s) + k) (target (phase s))) as [E|E].
  - rewrite feed_full; [| |rewrite L; exact E].
    + destruct (complete (phase s) (acc s ++ firstn k (kern s)) (out s)). simpl.
      split; [symmetry; apply firstn_skipn|reflexivity].
    + intros E0. rewrite E0 in L. simpl in L. lia.
  - rewrite feed_partial by (rewrite L; lia). simpl.
    split; [symmetry; apply firstn_skipn|reflexivity].
Qed.

Lemma rx_run_feed es : exists consumed,
  arrived es = consumed ++ kern (rx_run es) /\
  core_of (rx_run es) = feed (RHead, [], []) consumed.
Proof.
  unfold rx_run. induction es as [|e es IH] using rev_ind.
  - exists []. split; reflexivity.
  - destruct IH as (c & A & C). rewrite fold_left_app. simpl.
    set (s := fold_left rx_step es rx_init) in *.
    assert (Ar : arrived (es ++ [e]) = arrived es ++ match e with Arrive seg => seg | Read _ => [] end).
    { unfold arrived. rewrite map_app, concat_app. simpl. rewrite app_nil_r. reflexivity. }
    destruct e as [seg|k]; simpl.
    + exists c. rewrite Ar, A. rewrite <- app_assoc. split; [reflexivity|exact C].
    + destruct (rx_read_feed k s) as (bs & K & F).
      exists (c ++ bs). rewrite Ar, A, app_nil_r, K, <- app_assoc. split; [reflexivity|].
      rewrite F, feed_app, C. reflexivity.
Qed.

Definition fits (m : list Z) : Prop := (Z.of_nat (length m) < 2 ^ 32)%Z.

Lemma feed_header o m : fits m -> feed (RHead, [], o) (IntToBytes (Z.of_nat (length m))) =
  match m with [] => (RHead, [], o ++ [[]]) | _ => (RBody (length m), [], o) end.
Proof.
  intros F. rewrite feed_full.
  - cbn [app complete]. rewrite IntToBytes_roundtrip by (unfold fits in F; lia).
    rewrite Nat2Z.id. destruct m; reflexivity.
  - intros E. apply (f_equal (@length Z)) in E. rewrite IntToBytes_length in E. discriminate.
  - rewrite IntToBytes_length. reflexivity.
Qed.

Lemma feed_frame o m : fits m -> feed (RHead, [], o) (frame m) = (RHead, [], o ++ [m]).
Proof.
  intros F. unfold frame. rewrite feed_app, feed_header by exact F.
  destruct m as [|b m]; [reflexivity|].
  rewrite feed_full; [reflexivity|discriminate|reflexivity].
Qed.

Lemma firstn_min {A} k (l : list A) : k <= length l -> length (firstn k l) = k.
Proof. intros H. rewrite firstn_length. lia. Qed.

(** A strict prefix of a frame delivers nothing. *)
Lemma feed_strict o m bs rest : fits m -> frame m = bs ++ rest -> rest <> [] ->
  snd (feed (RHead, [], o) bs) = o.
Proof.
  intros F E R. unfold frame in E.
  assert (L4 : length (IntToBytes (Z.of_nat (length m))) = 4) by apply IntToBytes_length.
  destruct (le_lt_dec 4 (length bs)) as [H|H].
  - assert (E1 : firstn 4 bs = IntToBytes (Z.of_nat (length m))).
    { apply (f_equal (firstn 4)) in E.
      rewrite !firstn_app in E.
      replace (4 - length (IntToBytes (Z.of_nat (length m)))) with 0 in E by lia.
      replace (4 - length bs) with 0 in E by lia.
      rewrite !firstn_O, !app_nil_r in E.
      rewrite firstn_all2 in E by lia. symmetry. exact E. }
    rewrite <- (firstn_skipn 4 bs), E1 in E. rewrite <- app_assoc in E.
    apply app_inv_head in E.
    rewrite <- (firstn_skipn 4 bs), E1, feed_app, feed_header by exact F.
    destruct m as [|b m].
    + exfalso. apply R. destruct (skipn 4 bs); [symmetry; exact E|discriminate].
    + rewrite feed_partial; [reflexivity|].
      apply (f_equal (@length Z)) in E. rewrite app_length in E. simpl in *.
      destruct rest; [congruence|]. simpl in E. lia.
  - rewrite feed_partial; [reflexivity|exact H].
Qed.

Lemma feed_stream ms : Forall fits ms -> forall o bs rest, stream ms = bs ++ rest ->
  exists k, snd (feed (RHead, [], o) bs) = o ++ firstn k ms /\
            (rest = [] -> feed (RHead, [], o) bs = (RHead, [], o ++ ms)).
Proof.
  induction 1 as [|m ms Fm F IH]; intros o bs rest E.
  - change (stream []) with (@nil Z) in E.
    destruct bs; [|discriminate]. exists 0. simpl. rewrite app_nil_r. auto.
  - change (stream (m :: ms)) with (frame m ++ stream ms) in E.
    destruct (le_lt_dec (length (frame m)) (length bs)) as [H|H].
    + assert (E1 : bs = frame m ++ skipn (length (frame m)) bs).
      { rewrite <- (firstn_skipn (length (frame m)) bs) at 1. f_equal.
        apply (f_equal (firstn (length (frame m)))) in E.
        rewrite !firstn_app in E. rewrite Nat.sub_diag in E.
        replace (length (frame m) - length bs) with 0 in E by lia.
        rewrite !firstn_O, !app_nil_r, firstn_all in E. symmetry. exact E. }
      remember (skipn (length (frame m)) bs) as tl eqn:Etl. clear Etl H. subst bs.
      rewrite <- app_assoc in E. apply app_inv_head in E.
      destruct (IH (o ++ [m]) _ _ E) as (k & K1 & K2).
      exists (S k). rewrite feed_app, feed_frame by exact Fm.
      rewrite K1. simpl. rewrite <- app_assoc. split; [reflexivity|].
      intros R. rewrite (K2 R), <- app_assoc. reflexivity.
    + assert (E1 : frame m = bs ++ skipn (length bs) (frame m)).
      { rewrite <- (firstn_skipn (length bs) (frame m)) at 1. f_equal.
        apply (f_equal (firstn (length bs))) in E.
        rewrite !firstn_app in E. rewrite Nat.sub_diag in E.
        replace (length bs - length (frame m)) with 0 in E by lia.
        rewrite !firstn_O, !app_nil_r, firstn_all in E. exact E. }
      exists 0. simpl. rewrite app_nil_r. split.
      * apply (feed_strict o m bs _ Fm E1).
        intros E0. apply (f_equal (@length Z)) in E0. rewrite skipn_length in E0. cbn [length] in E0. lia.
      * intros ->. rewrite app_nil_r in E.
        apply (f_equal (@length Z)) in E. rewrite app_length in E. lia.
Qed.

(** Main statement: with any segmentation and any read sizes, what has been delivered is a
    prefix of what was sent, and it is everything once all bytes have arrived and been read. *)
Lemma framing_correct ms es rest : Forall fits ms -> stream ms = arrived es ++ rest ->
  (exists k, out (rx_run es) = firstn k ms) /\
  (rest = [] -> kern (rx_run es) = [] -> out (rx_run es) = ms).
Proof.
  intros F E. destruct (rx_run_feed es) as (c & A & C).
  rewrite A, <- app_assoc in E.
  destruct (feed_stream ms F [] c _ E) as (k & K1 & K2).
  assert (O : out (rx_run es) = snd (feed (RHead, [], []) c)).
  { rewrite <- C. reflexivity. }
  split.
  - exists k. rewrite O, K1. reflexivity.
  - intros -> K. rewrite K in K2. rewrite O, (K2 eq_refl). reflexivity.
Qed.

(** The receiver can always go on while unread bytes are there. *)
Lemma phase_wants es : length (acc (rx_run es)) < target (phase (rx_run es)).
Proof.
  destruct (rx_run_feed es) as (c & _ & C).
  assert (W : forall bs ph a o, length a < target ph ->
            let '(ph', a', _) := feed (ph, a, o) bs in length a' < target ph').
  { induction bs as [|b bs IH]; intros ph a o H; [exact H|].
    cbn [feed fold_left]. change (fold_left feed1 bs) with (fun c => feed c bs).
    cbn [feed1]. destruct (Nat.eqb_spec (length (a ++ [b])) (target ph)) as [E|E].
    - destruct ph as [|n]; cbn [complete].
      + destruct (Z.to_nat (BytesToInt (a ++ [b]))) as [|n']; apply IH; simpl; lia.
      + apply IH. simpl. lia.
    - apply IH. rewrite app_length in *. simpl in *. lia. }
  specialize (W c RHead [] []). unfold core_of in C. rewrite <- C in W. apply W. simpl. lia.
Qed.

Lemma framing_progress es : kern (rx_run es) <> [] ->
  length (kern (rx_run (es ++ [Read 1]))) < length (kern (rx_run es)).
Proof.
  intros H. unfold rx_run. rewrite fold_left_app. cbn [fold_left rx_step]. fold (rx_run es).
  pose proof (phase_wants es) as W. unfold rx_read.
  destruct (kern (rx_run es)) as [|b k] eqn:K; [congruence|].
  set (w := target (phase (rx_run es)) - length (acc (rx_run es))).
  assert (Hw : 1 <= w) by (unfold w; lia).
  replace ((0 <? 1) && (1 <=? w) && (1 <=? length (b :: k))) with true.
  2: { symmetry. rewrite !andb_true_iff. repeat split; [apply Nat.leb_le; exact Hw]. }
  cbn [firstn skipn].
  destruct (length (acc (rx_run es) ++ [b]) =? target (phase (rx_run es))).
  - destruct (complete (phase (rx_run es)) (acc (rx_run es) ++ [b]) (out (rx_run es))). simpl. lia.
  - simpl. lia.
Qed.

(** A message of 2^32 bytes is framed with the length 0 and arrives as an empty message. *)
Lemma framing_too_long m : Z.of_nat (length m) = (2 ^ 32)%Z ->
  out (rx_run [Arrive (frame m); Read 4]) = [[]].
Proof.
  intros L. unfold frame. rewrite L. unfold rx_run. cbn [fold_left rx_step rx_init kern].
  unfold rx_read. cbn [phase target acc kern length].
  replace (IntToBytes (2 ^ 32)) with [0; 0; 0; 0]%Z by (vm_compute; reflexivity).
  reflexivity.
Qed.
