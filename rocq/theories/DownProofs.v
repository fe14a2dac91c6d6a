(** Proofs about DownModel.v. *)

Require Import ZArith List Bool Arith Lia.
From Verif Require Import CodecModel FramingModel FramingProofs GoBase DispatchModel ProtoModel StageModel HandNetProofs DownModel.
Import ListNotations.

Lemma rx_snoc es e : rx_run (es ++ [e]) = rx_step (rx_run es) e.
Proof. unfold rx_run. rewrite fold_left_app. reflexivity. Qed.

Lemma arrived_snoc es e : arrived (es ++ [e]) = arrived es ++ match e with Arrive seg => seg | Read _ => [] end.
Proof. unfold arrived. rewrite map_app, concat_app. cbn [map concat]. rewrite app_nil_r. reflexivity. Qed.

Lemma complete_out ph got o : length (snd (complete ph got o)) <= length o + 1.
Proof.
  unfold complete. destruct ph as [|n]; [destruct (Z.to_nat (BytesToInt got))|]; cbn [snd]; rewrite ?app_length; cbn [length]; lia.
Qed.

Lemma complete_grows ph got o : length o <= length (snd (complete ph got o)).
Proof.
  unfold complete. destruct ph as [|n]; [destruct (Z.to_nat (BytesToInt got))|]; cbn [snd]; rewrite ?app_length; cbn [length]; lia.
Qed.

Lemma read_effect s k : (0 <? k) && (k <=? target (phase s) - length (acc s)) && (k <=? length (kern s)) = true ->
  length (kern (rx_read k s)) + k = length (kern s) /\ 1 <= k /\
  length (out s) <= length (out (rx_read k s)) <= length (out s) + 1.
Proof.
  intros G. unfold rx_read. rewrite G. apply andb_true_iff in G. destruct G as (G & G3). apply andb_true_iff in G. destruct G as (G1 & _).
  apply Nat.ltb_lt in G1. apply Nat.leb_le in G3.
  destruct (length (acc s ++ firstn k (kern s)) =? target (phase s)).
  - pose proof (complete_out (phase s) (acc s ++ firstn k (kern s)) (out s)). pose proof (complete_grows (phase s) (acc s ++ firstn k (kern s)) (out s)).
    destruct (complete (phase s) (acc s ++ firstn k (kern s)) (out s)) as [ph o]. cbn [kern out snd] in *. rewrite skipn_length. lia.
  - cbn [kern out]. rewrite skipn_length. lia.
Qed.

Lemma sum_set_nth {A} (f : A -> nat) b : forall l x a, nth_error l x = Some a ->
  list_sum (map f (set_nth x b l)) + f a = list_sum (map f l) + f b.
Proof.
  induction l as [|c l IH]; intros [|x] a E; cbn [nth_error] in E; try discriminate.
  - injection E as ->. cbn. lia.
  - cbn [set_nth map]. change (list_sum (f c :: map f (set_nth x b l))) with (f c + list_sum (map f (set_nth x b l))).
    change (list_sum (f c :: map f l)) with (f c + list_sum (map f l)). specialize (IH x a E). lia.
Qed.

Lemma sum_put (f g : nat -> nat) k : forall l, NoDup l -> In k l -> (forall j, j <> k -> g j = f j) ->
  list_sum (map g l) + f k = list_sum (map f l) + g k.
Proof.
  induction l as [|j l IH]; intros ND Hin HE; [destruct Hin|]. apply NoDup_cons_iff in ND. destruct ND as (NI & ND).
  change (list_sum (map g (j :: l))) with (g j + list_sum (map g l)). change (list_sum (map f (j :: l))) with (f j + list_sum (map f l)).
  destruct (Nat.eq_dec j k) as [-> |NE].
  - assert (E : map g l = map f l). { apply map_ext_in. intros a Ha. apply HE. intros ->. contradiction. }
    rewrite E. lia.
  - destruct Hin as [E|Hin]; [contradiction|]. specialize (IH ND Hin HE). rewrite (HE j NE). lia.
Qed.

Lemma in_set_nth {A} (b : A) : forall l x c, In c (set_nth x b l) -> c = b \/ In c l.
Proof.
  induction l as [|a l IH]; intros [|x] c H; cbn [set_nth In] in *; auto.
  - destruct H; auto.
  - destruct H as [H|H]; [auto|]. destruct (IH _ _ H); auto.
Qed.

Lemma set_nth_in {A} (b : A) : forall l x a, nth_error l x = Some a -> In b (set_nth x b l).
Proof.
  induction l as [|c l IH]; intros [|x] a E; cbn in E; try discriminate; cbn [set_nth In]; [auto|]. right. eapply IH; eauto.
Qed.

Lemma set_nth_keep {A} (b : A) : forall l x a c, nth_error l x = Some a -> In c l -> c = a \/ In c (set_nth x b l).
Proof.
  induction l as [|d l IH]; intros [|x] a c E H; cbn in E; try discriminate; cbn [set_nth In] in *.
  - injection E as ->. destruct H; auto.
  - destruct H as [H|H]; [auto|]. destruct (IH _ _ _ E H); auto.
Qed.

(** Every connection goes to a listening process, and no more frames are handed on than were read. *)
Definition wok (w : world) : Prop :=
  NoDup (w_procs w) /\ forall c, In c (w_conns w) -> In (c_to c) (w_procs w) /\ c_done c <= length (out (rx_run (c_es c))).

Definition cw (c : conn) : nat :=
  3 * length (kern (rx_run (c_es c))) + 2 * (length (out (rx_run (c_es c))) - c_done c) + (if c_fin c then 0 else 1).
Definition pw (w : world) (j : nat) : nat := length (w_q w j) + (if w_up w j then 1 else 0).
Definition weight (w : world) : nat := list_sum (map cw (w_conns w)) + list_sum (map (pw w) (w_procs w)).

Lemma wok_set w x c c' : wok w -> nth_error (w_conns w) x = Some c -> c_to c' = c_to c -> c_done c' <= length (out (rx_run (c_es c'))) ->
  wok (set_conn w x c').
Proof.
  intros (ND & H) E ET HD. split; [exact ND|]. cbn [w_conns w_procs set_conn]. intros d Hd. apply in_set_nth in Hd. destruct Hd as [-> |Hd]; [|auto].
  split; [|exact HD]. rewrite ET. apply H. exact (nth_error_In _ _ E).
Qed.

Lemma weight_set w x c c' : nth_error (w_conns w) x = Some c -> weight (set_conn w x c') + cw c = weight w + cw c'.
Proof.
  intros E. unfold weight. cbn [w_conns w_procs set_conn]. pose proof (sum_set_nth cw c' _ _ _ E) as S1.
  change (pw (set_conn w x c')) with (pw w). lia.
Qed.

Lemma weight_stop w j : NoDup (w_procs w) -> In j (w_procs w) -> w_up w j = true -> S (weight (stop w j)) = weight w.
Proof.
  intros ND Hj U. unfold weight. cbn [w_conns w_procs stop].
  pose proof (sum_put (pw w) (pw (stop w j)) j (w_procs w) ND Hj) as SU. unfold stop in SU.
  assert (E1 : pw (mkWorld (w_procs w) (put (w_up w) j false) (w_q w) (w_conns w)) j = length (w_q w j)).
  { unfold pw. cbn [w_q w_up]. rewrite put_same. lia. }
  assert (E2 : pw w j = length (w_q w j) + 1) by (unfold pw; rewrite U; reflexivity).
  rewrite E1, E2 in SU.
  assert (SU' := SU (fun i NE => ltac:(unfold pw; cbn [w_q w_up]; rewrite put_other by exact NE; reflexivity))).
  change (stop w j) with (mkWorld (w_procs w) (put (w_up w) j false) (w_q w) (w_conns w)). lia.
Qed.

Lemma weight_q w j q : NoDup (w_procs w) -> In j (w_procs w) -> weight (set_q w j q) + length (w_q w j) = weight w + length q.
Proof.
  intros ND Hj. unfold weight. cbn [w_conns w_procs set_q].
  pose proof (sum_put (pw w) (pw (set_q w j q)) j (w_procs w) ND Hj) as SU.
  assert (E1 : pw (set_q w j q) j = length q + if w_up w j then 1 else 0) by (unfold pw; cbn [w_q w_up set_q]; rewrite put_same; reflexivity).
  rewrite E1 in SU. unfold pw at 4 in SU.
  assert (SU' := SU (fun i NE => ltac:(unfold pw; cbn [w_q w_up set_q]; rewrite put_other by exact NE; reflexivity))). lia.
Qed.

Lemma wok_stop w j : wok w -> wok (stop w j).
Proof. intros H. exact H. Qed.

Lemma wok_q w j q : wok w -> wok (set_q w j q).
Proof. intros H. exact H. Qed.

Lemma wstep_ok w e w' : wok w -> wstep w e = Some w' -> wok w'.
Proof.
  intros W E. pose proof W as (ND & HW). destruct e as [i j|i j|x seg|i|x|x|x k|x|x|j]; cbn [wstep] in E.
  - destruct (existsb (Nat.eqb j) (w_procs w)) eqn:EJ; cbn [andb] in E; [|discriminate]. destruct (w_up w i && w_up w j); [|discriminate]. injection E as <-.
    split; [exact ND|]. cbn [w_conns w_procs]. intros c H. apply in_app_or in H. destruct H as [H|[<- |[]]]; [auto|]. cbn [c_to c_done].
    split; [apply existsb_nat; exact EJ|lia].
  - destruct (_ && _); [|discriminate]. injection E as <-. apply wok_stop. exact W.
  - destruct (nth_error (w_conns w) x) as [c|] eqn:EX; [|discriminate]. destruct (c_fin c); [discriminate|]. injection E as <-.
    apply (wok_set w x c); auto. cbn [c_done c_es]. rewrite rx_snoc. cbn [rx_step out]. apply HW. exact (nth_error_In _ _ EX).
  - injection E as <-. exact W.
  - destruct (nth_error (w_conns w) x) as [c|] eqn:EX; [|discriminate]. destruct (_ && _); [|discriminate]. injection E as <-. exact W.
  - destruct (nth_error (w_conns w) x) as [c|] eqn:EX; [|discriminate]. destruct (_ && _); [|discriminate]. injection E as <-.
    apply (wok_set w x c); auto. cbn [c_done c_es]. apply (HW c). exact (nth_error_In _ _ EX).
  - destruct (nth_error (w_conns w) x) as [c|] eqn:EX; [|discriminate]. destruct (w_up w (c_to c)); cbn [andb] in E; [|discriminate].
    destruct (can_read c k) eqn:CR; [|discriminate]. injection E as <-. apply (wok_set w x c); auto. cbn [c_done c_es]. rewrite rx_snoc. cbn [rx_step].
    unfold can_read in CR. rewrite <- !andb_assoc in CR. apply andb_true_iff in CR. destruct CR as (_ & CR). rewrite andb_assoc in CR.
    pose proof (read_effect _ _ CR) as (_ & _ & G). pose proof (HW c (nth_error_In _ _ EX)) as (_ & G2). lia.
  - destruct (nth_error (w_conns w) x) as [c|] eqn:EX; [|discriminate]. destruct (_ && _); [|discriminate]. injection E as <-. exact W.
  - destruct (nth_error (w_conns w) x) as [c|] eqn:EX; [|discriminate]. destruct (nth_error (out _) (c_done c)) as [b|] eqn:EB; [|discriminate].
    destruct (w_up w (c_to c)); [|discriminate]. destruct (UnmarshalMessage b) as [m ok]. destruct ok; [|injection E as <-; exact W].
    destruct (full _); [discriminate|]. injection E as <-. apply wok_q. apply (wok_set w x c); auto. cbn [c_done c_es].
    assert (c_done c < length (out (rx_run (c_es c)))) by (apply nth_error_Some; congruence). lia.
  - destruct (w_q w j) as [|m q]; [discriminate|]. destruct (_ && _); [|discriminate]. injection E as <-. exact W.
Qed.

Lemma own_lowers w e w' : wok w -> own e = true -> wstep w e = Some w' -> weight w' < weight w.
Proof.
  intros W O E. pose proof W as (ND & HW). destruct e as [i j|i j|x seg|i|x|x|x k|x|x|j]; try discriminate O; cbn [wstep] in E.
  - destruct (nth_error (w_conns w) x) as [c|] eqn:EX; [|discriminate]. destruct (negb (w_up w (c_from c))); cbn [andb] in E; [|discriminate].
    destruct (c_fin c) eqn:EF; cbn [negb] in E; [discriminate|]. injection E as <-.
    pose proof (weight_set w x c (mkConn (c_from c) (c_to c) (c_es c) (c_done c) true) EX) as G.
    unfold cw in G. cbn [c_es c_done c_fin] in G. rewrite EF in G. lia.
  - destruct (nth_error (w_conns w) x) as [c|] eqn:EX; [|discriminate]. destruct (w_up w (c_to c)); cbn [andb] in E; [|discriminate].
    destruct (can_read c k) eqn:CR; [|discriminate]. injection E as <-.
    pose proof (weight_set w x c (mkConn (c_from c) (c_to c) (c_es c ++ [Read k]) (c_done c) (c_fin c)) EX) as G.
    unfold cw in G. cbn [c_es c_done c_fin] in G. rewrite rx_snoc in G. cbn [rx_step] in G.
    unfold can_read in CR. rewrite <- !andb_assoc in CR. apply andb_true_iff in CR. destruct CR as (_ & CR). rewrite andb_assoc in CR.
    pose proof (read_effect _ _ CR) as (G1 & G2 & G3). lia.
  - destruct (nth_error (w_conns w) x) as [c|] eqn:EX; [|discriminate]. destruct (w_up w (c_to c)) eqn:U; cbn [andb] in E; [|discriminate].
    destruct (_ && _); [|discriminate]. injection E as <-. rewrite <- (weight_stop w (c_to c) ND); [lia| |exact U]. apply HW. exact (nth_error_In _ _ EX).
  - destruct (nth_error (w_conns w) x) as [c|] eqn:EX; [|discriminate]. destruct (nth_error (out _) (c_done c)) as [b|] eqn:EB; [|discriminate].
    destruct (w_up w (c_to c)) eqn:U; [|discriminate]. destruct (UnmarshalMessage b) as [m ok].
    pose proof (HW c (nth_error_In _ _ EX)) as (HT & HD). destruct ok.
    + destruct (full _); [discriminate|]. injection E as <-.
      assert (LT : c_done c < length (out (rx_run (c_es c)))) by (apply nth_error_Some; congruence).
      set (c' := mkConn (c_from c) (c_to c) (c_es c) (c_done c + 1) (c_fin c)).
      pose proof (weight_set w x c c' EX) as G. pose proof (weight_q (set_conn w x c') (c_to c) (w_q w (c_to c) ++ [m]) ND HT) as G2.
      cbn [w_q set_conn] in G2. rewrite app_length in G2. cbn [length] in G2. unfold cw in G. subst c'. cbn [c_es c_done c_fin] in *. lia.
    + injection E as <-. rewrite <- (weight_stop w (c_to c) ND); [lia|exact HT|exact U].
  - destruct (w_q w j) as [|m q] eqn:EQ; [discriminate|]. destruct (existsb (Nat.eqb j) (w_procs w)) eqn:EJ; cbn [andb] in E; [|discriminate].
    destruct (w_up w j); [|discriminate]. injection E as <-. apply existsb_nat in EJ. pose proof (weight_q w j q ND EJ) as G. rewrite EQ in G. cbn [length] in G. lia.
Qed.

Lemma wruns_ok w0 evs w : wok w0 -> wruns w0 evs w -> wok w.
Proof. intros W R. induction R as [|evs w e w' R IH E]; [exact W|]. eapply wstep_ok; eauto. Qed.

Lemma own_bound w evs w' : wok w -> wruns w evs w' -> forallb own evs = true -> length evs + weight w' <= weight w.
Proof.
  intros W R. induction R as [|evs w1 e w2 R IH E]; intros O; [cbn; lia|]. rewrite forallb_app in O. apply andb_true_iff in O.
  destruct O as (O1 & O2). cbn [forallb] in O2. rewrite andb_true_r in O2. specialize (IH O1).
  pose proof (own_lowers w1 e w2 (wruns_ok _ _ _ W R) O2 E). rewrite app_length. cbn [length]. lia.
Qed.

(** Nothing more happens by itself, but for dispatchers that do not take. *)
Definition at_rest (stuck : nat -> bool) (w : world) : Prop :=
  forall e, own e = true -> (forall j, e = ETake j -> stuck j = false) -> wstep w e = None.

(** At rest a process that is up has read everything, unless its dispatcher does not take. *)
Lemma drained w stuck c : wok w -> at_rest stuck w -> In c (w_conns w) -> w_up w (c_to c) = true ->
  c_done c = length (out (rx_run (c_es c))) /\ kern (rx_run (c_es c)) = [] \/ stuck (c_to c) = true /\ full (w_q w (c_to c)) = true.
Proof.
  intros (ND & HW) Q Hc UT. apply In_nth_error in Hc. destruct Hc as (x & EX).
  assert (NT : forall e, own e = true -> (forall j, e <> ETake j) -> wstep w e = None).
  { intros e O N. apply Q; [exact O|]. intros j E. destruct (N j E). }
  pose proof (HW c (nth_error_In _ _ EX)) as (_ & HD).
  destruct (Nat.eq_dec (c_done c) (length (out (rx_run (c_es c))))) as [ED|ED].
  - left. split; [exact ED|]. destruct (kern (rx_run (c_es c))) as [|b l] eqn:EK; [reflexivity|exfalso].
    specialize (NT (ERead x 1) eq_refl ltac:(discriminate)). cbn [wstep] in NT. rewrite EX, UT in NT. cbn [andb] in NT.
    assert (CR : can_read c 1 = true).
    { unfold can_read. rewrite ED, Nat.eqb_refl, EK. pose proof (phase_wants (c_es c)) as PW. cbn [length].
      destruct (target (phase (rx_run (c_es c))) - length (acc (rx_run (c_es c)))) eqn:ET; [lia|reflexivity]. }
    rewrite CR in NT. discriminate.
  - right. assert (EB : exists b, nth_error (out (rx_run (c_es c))) (c_done c) = Some b).
    { destruct (nth_error (out (rx_run (c_es c))) (c_done c)) eqn:E; [eauto|]. apply nth_error_None in E. lia. }
    destruct EB as (b & EB). specialize (NT (EPush x) eq_refl ltac:(discriminate)). cbn [wstep] in NT. rewrite EX, EB, UT in NT.
    destruct (UnmarshalMessage b) as [m ok]. destruct ok; [|discriminate]. destruct (full (w_q w (c_to c))) eqn:FU; [|discriminate].
    split; [|reflexivity]. destruct (w_q w (c_to c)) as [|m' q] eqn:EQ; [discriminate FU|].
    destruct (stuck (c_to c)) eqn:ES; [reflexivity|]. exfalso. specialize (Q (ETake (c_to c)) eq_refl). cbn [wstep] in Q. rewrite EQ, UT in Q.
    assert (EI : existsb (Nat.eqb (c_to c)) (w_procs w) = true) by (apply existsb_nat; apply HW; exact (nth_error_In _ _ EX)).
    rewrite EI in Q. cbn [andb] in Q. discriminate Q. intros j E. injection E as <-. exact ES.
Qed.

Lemma link w stuck c : wok w -> at_rest stuck w -> In c (w_conns w) -> w_up w (c_from c) = false ->
  w_up w (c_to c) = false \/ stuck (c_to c) = true /\ full (w_q w (c_to c)) = true.
Proof.
  intros W Q Hc U. destruct (w_up w (c_to c)) eqn:UT; [right|auto]. destruct (drained w stuck c W Q Hc UT) as [(ED & EK)|H]; [exfalso|exact H].
  apply In_nth_error in Hc. destruct Hc as (x & EX).
  assert (NT : forall e, own e = true -> (forall j, e <> ETake j) -> wstep w e = None).
  { intros e O N. apply Q; [exact O|]. intros j E. destruct (N j E). }
  assert (EF : c_fin c = true).
  { specialize (NT (EFin x) eq_refl ltac:(discriminate)). cbn [wstep] in NT. rewrite EX, U in NT. destruct (c_fin c); [reflexivity|discriminate]. }
  specialize (NT (EEof x) eq_refl ltac:(discriminate)). cbn [wstep] in NT. rewrite EX, UT, EK, EF, ED, Nat.eqb_refl in NT. discriminate.
Qed.

(** ** Coming to rest *)

Definition candidates (stuck : nat -> bool) (w : world) : list wev :=
  flat_map (fun x => [EFin x; ERead x 1; EEof x; EPush x]) (seq 0 (length (w_conns w))) ++
  map ETake (filter (fun j => negb (stuck j)) (w_procs w)).

Lemma rest_dec stuck w : at_rest stuck w \/
  exists e w', own e = true /\ (forall j, e = ETake j -> stuck j = false) /\ wstep w e = Some w'.
Proof.
  destruct (existsb (fun e => match wstep w e with Some _ => true | None => false end) (candidates stuck w)) eqn:EX.
  - right. apply existsb_exists in EX. destruct EX as (e & He & E). destruct (wstep w e) as [w'|] eqn:ES; [|discriminate]. exists e, w'.
    apply in_app_or in He. destruct He as [He|He].
    + apply in_flat_map in He. destruct He as (x & _ & [<- |[<- |[<- |[<- |[]]]]]); (split; [reflexivity|]; split; [discriminate|reflexivity || exact ES]).
    + apply in_map_iff in He. destruct He as (j & <- & Hj). apply filter_In in Hj. destruct Hj as (_ & Hj). apply negb_true_iff in Hj.
      split; [reflexivity|]. split; [|reflexivity || exact ES]. intros i E'. injection E' as <-. exact Hj.
  - left. assert (N : forall e, In e (candidates stuck w) -> wstep w e = None).
    { intros e He. destruct (wstep w e) eqn:ES; [|reflexivity]. exfalso. rewrite <- not_true_iff_false in EX. apply EX. apply existsb_exists.
      exists e. split; [exact He|]. rewrite ES. reflexivity. }
    assert (NX : forall x c e, nth_error (w_conns w) x = Some c -> In e [EFin x; ERead x 1; EEof x; EPush x] -> wstep w e = None).
    { intros x c e E He. apply N. apply in_or_app. left. apply in_flat_map. exists x. split; [|exact He]. apply in_seq.
      assert (x < length (w_conns w)) by (apply nth_error_Some; congruence). lia. }
    intros e O HS. destruct e as [i j|i j|x seg|i|x|x|x k|x|x|j]; try discriminate O.
    + cbn [wstep]. destruct (nth_error (w_conns w) x) as [c|] eqn:E; [|reflexivity].
      specialize (NX x c (EFin x) E ltac:(cbn; auto)). cbn [wstep] in NX. rewrite E in NX. exact NX.
    + cbn [wstep]. destruct (nth_error (w_conns w) x) as [c|] eqn:E; [|reflexivity].
      specialize (NX x c (ERead x 1) E ltac:(cbn; auto)). cbn [wstep] in NX. rewrite E in NX. destruct (w_up w (c_to c)); [|reflexivity]. cbn [andb] in *.
      destruct (can_read c k) eqn:CR; [|reflexivity]. exfalso. assert (CR1 : can_read c 1 = true).
      { unfold can_read in *. apply andb_true_iff in CR. destruct CR as (CR & C4). apply andb_true_iff in CR. destruct CR as (CR & C3).
        apply andb_true_iff in CR. destruct CR as (C1 & C2). apply Nat.ltb_lt in C2. apply Nat.leb_le in C3, C4.
        rewrite C1. cbn [andb]. apply andb_true_iff. split; [apply andb_true_iff; split; [reflexivity|]|]; apply Nat.leb_le; lia. }
      rewrite CR1 in NX. discriminate.
    + cbn [wstep]. destruct (nth_error (w_conns w) x) as [c|] eqn:E; [|reflexivity].
      specialize (NX x c (EEof x) E ltac:(cbn; auto)). cbn [wstep] in NX. rewrite E in NX. exact NX.
    + cbn [wstep]. destruct (nth_error (w_conns w) x) as [c|] eqn:E; [|reflexivity].
      specialize (NX x c (EPush x) E ltac:(cbn; auto)). cbn [wstep] in NX. rewrite E in NX. exact NX.
    + cbn [wstep]. destruct (w_q w j) as [|m q] eqn:EQ; [reflexivity|]. destruct (existsb (Nat.eqb j) (w_procs w)) eqn:EJ; [|reflexivity].
      assert (HN : wstep w (ETake j) = None).
      { apply N. apply in_or_app. right. apply in_map. apply filter_In. split; [apply existsb_nat; exact EJ|]. rewrite (HS j eq_refl). reflexivity. }
      cbn [wstep] in HN. rewrite EQ, EJ in HN. exact HN.
Qed.

Lemma wruns_cons w e w1 evs w' : wstep w e = Some w1 -> wruns w1 evs w' -> wruns w (e :: evs) w'.
Proof.
  intros E R. induction R as [|evs m e' m' R IH E'].
  - change [e] with ([] ++ [e]). apply wr_step with (w := w); [constructor|exact E].
  - rewrite app_comm_cons. apply wr_step with (w := m); assumption.
Qed.

Lemma to_rest stuck w : wok w -> exists evs w', wruns w evs w' /\ forallb own evs = true /\ at_rest stuck w'.
Proof.
  remember (weight w) as L eqn:EL. revert w EL. induction L as [L IH] using lt_wf_ind. intros w -> W.
  destruct (rest_dec stuck w) as [Q|(e & w1 & O & _ & E)].
  - exists [], w. split; [constructor|]. auto.
  - destruct (IH (weight w1) (own_lowers w e w1 W O E) w1 eq_refl (wstep_ok w e w1 W E)) as (evs & w' & R & O' & Q).
    exists (e :: evs), w'. split; [eapply wruns_cons; eauto|]. cbn [forallb]. rewrite O. auto.
Qed.

(** ** Connections remain *)

Lemma conns_step w e w' c : wstep w e = Some w' -> In c (w_conns w) ->
  exists c', In c' (w_conns w') /\ c_from c' = c_from c /\ c_to c' = c_to c /\ (own e = true -> arrived (c_es c') = arrived (c_es c)).
Proof.
  assert (SET : forall w x c0 c1, nth_error (w_conns w) x = Some c0 -> c_from c1 = c_from c0 -> c_to c1 = c_to c0 ->
    (own e = true -> arrived (c_es c1) = arrived (c_es c0)) -> In c (w_conns w) ->
    exists c', In c' (w_conns (set_conn w x c1)) /\ c_from c' = c_from c /\ c_to c' = c_to c /\ (own e = true -> arrived (c_es c') = arrived (c_es c))).
  { intros v x c0 c1 EX F T A H. destruct (set_nth_keep c1 _ _ _ _ EX H) as [-> |K].
    - exists c1. split; [exact (set_nth_in c1 _ _ _ EX)|auto].
    - exists c. auto. }
  intros E H. destruct e as [i j|i j|x seg|i|x|x|x k|x|x|j]; cbn [wstep] in E.
  - destruct (_ && _); [|discriminate]. injection E as <-. exists c. cbn [w_conns]. split; [apply in_or_app; auto|auto].
  - destruct (_ && _); [|discriminate]. injection E as <-. exists c. auto.
  - destruct (nth_error (w_conns w) x) as [c0|] eqn:EX; [|discriminate]. destruct (c_fin c0); [discriminate|]. injection E as <-. eapply SET; eauto. discriminate.
  - injection E as <-. exists c. auto.
  - destruct (nth_error (w_conns w) x) as [c0|] eqn:EX; [|discriminate]. destruct (_ && _); [|discriminate]. injection E as <-. exists c. auto.
  - destruct (nth_error (w_conns w) x) as [c0|] eqn:EX; [|discriminate]. destruct (_ && _); [|discriminate]. injection E as <-. eapply SET; eauto.
  - destruct (nth_error (w_conns w) x) as [c0|] eqn:EX; [|discriminate]. destruct (_ && _); [|discriminate]. injection E as <-. eapply SET; eauto.
    intros _. cbn [c_es]. rewrite arrived_snoc, app_nil_r. reflexivity.
  - destruct (nth_error (w_conns w) x) as [c0|] eqn:EX; [|discriminate]. destruct (_ && _); [|discriminate]. injection E as <-. exists c. auto.
  - destruct (nth_error (w_conns w) x) as [c0|] eqn:EX; [|discriminate]. destruct (nth_error (out _) _) as [b|]; [|discriminate].
    destruct (w_up w (c_to c0)); [|discriminate]. destruct (UnmarshalMessage b) as [m ok]. destruct ok; [|injection E as <-; exists c; auto].
    destruct (full _); [discriminate|]. injection E as <-. cbn [w_conns set_q].
    exact (SET w x c0 (mkConn (c_from c0) (c_to c0) (c_es c0) (c_done c0 + 1) (c_fin c0)) EX eq_refl eq_refl (fun _ => eq_refl) H).
  - destruct (w_q w j) as [|m q]; [discriminate|]. destruct (_ && _); [|discriminate]. injection E as <-. exists c. auto.
Qed.

Lemma conns_runs w evs w' c : wruns w evs w' -> In c (w_conns w) ->
  exists c', In c' (w_conns w') /\ c_from c' = c_from c /\ c_to c' = c_to c /\ (forallb own evs = true -> arrived (c_es c') = arrived (c_es c)).
Proof.
  intros R Hc. induction R as [|evs w1 e w2 R IH E]; [exists c; auto|]. destruct IH as (c1 & H1 & F1 & T1 & A1).
  destruct (conns_step _ _ _ _ E H1) as (c2 & H2 & F2 & T2 & A2). exists c2. split; [exact H2|]. split; [congruence|]. split; [congruence|].
  rewrite forallb_app. cbn [forallb]. rewrite andb_true_r. intros B. apply andb_true_iff in B. destruct B as (B1 & B2). rewrite (A2 B2), (A1 B1). reflexivity.
Qed.

Lemma down_step w e w' i : wstep w e = Some w' -> w_up w i = false -> w_up w' i = false.
Proof.
  assert (ST : forall j, w_up w i = false -> w_up (stop w j) i = false).
  { intros j H. cbn [stop w_up]. unfold put. destruct (i =? j); auto. }
  intros E H. destruct e as [a b|a b|x seg|a|x|x|x k|x|x|a]; cbn [wstep] in E.
  - destruct (_ && _); [|discriminate]. injection E as <-. exact H.
  - destruct (_ && _); [|discriminate]. injection E as <-. auto.
  - destruct (nth_error (w_conns w) x) as [c0|]; [|discriminate]. destruct (c_fin c0); [discriminate|]. injection E as <-. exact H.
  - injection E as <-. auto.
  - destruct (nth_error (w_conns w) x) as [c0|]; [|discriminate]. destruct (_ && _); [|discriminate]. injection E as <-. auto.
  - destruct (nth_error (w_conns w) x) as [c0|]; [|discriminate]. destruct (_ && _); [|discriminate]. injection E as <-. exact H.
  - destruct (nth_error (w_conns w) x) as [c0|]; [|discriminate]. destruct (_ && _); [|discriminate]. injection E as <-. exact H.
  - destruct (nth_error (w_conns w) x) as [c0|]; [|discriminate]. destruct (_ && _); [|discriminate]. injection E as <-. auto.
  - destruct (nth_error (w_conns w) x) as [c0|]; [|discriminate]. destruct (nth_error (out _) _) as [b|]; [|discriminate].
    destruct (w_up w (c_to c0)); [|discriminate]. destruct (UnmarshalMessage b) as [m ok]. destruct ok; [|injection E as <-; auto].
    destruct (full _); [discriminate|]. injection E as <-. exact H.
  - destruct (w_q w a) as [|m q]; [discriminate|]. destruct (_ && _); [|discriminate]. injection E as <-. exact H.
Qed.

Lemma down_runs w evs w' i : wruns w evs w' -> w_up w i = false -> w_up w' i = false.
Proof. intros R H. induction R as [|evs w1 e w2 R IH E]; [exact H|]. eapply down_step; eauto. Qed.

(** ** What an event leaves as it was *)

(** Where a connection of the new world comes from. *)
Lemma conns_back w e w' c' : wstep w e = Some w' -> In c' (w_conns w') ->
  (exists i j, e = EOpen i j /\ c' = mkConn i j [] 0 false) \/
  exists c, In c (w_conns w) /\ c_from c' = c_from c /\ c_to c' = c_to c /\
    (exists more, arrived (c_es c') = arrived (c_es c) ++ more /\ (own e = true -> more = [])) /\
    (c_fin c' = true -> c_fin c = true \/ w_up w (c_from c) = false).
Proof.
  assert (SET : forall w x c0 c1, nth_error (w_conns w) x = Some c0 -> In c' (set_nth x c1 (w_conns w)) -> c' = c1 \/
    exists c, In c (w_conns w) /\ c_from c' = c_from c /\ c_to c' = c_to c /\
      (exists more, arrived (c_es c') = arrived (c_es c) ++ more /\ (own e = true -> more = [])) /\ (c_fin c' = true -> c_fin c = true \/ w_up w (c_from c) = false)).
  { intros v x c0 c1 EX H. apply in_set_nth in H. destruct H as [H|H]; [auto|]. right. exists c'. split; [exact H|]. split; [reflexivity|]. split; [reflexivity|].
    split; [exists []; rewrite app_nil_r; auto|auto]. }
  assert (SAME : w_conns w' = w_conns w -> In c' (w_conns w') -> (exists i j, e = EOpen i j /\ c' = mkConn i j [] 0 false) \/
    exists c, In c (w_conns w) /\ c_from c' = c_from c /\ c_to c' = c_to c /\
      (exists more, arrived (c_es c') = arrived (c_es c) ++ more /\ (own e = true -> more = [])) /\ (c_fin c' = true -> c_fin c = true \/ w_up w (c_from c) = false)).
  { intros EC H. rewrite EC in H. right. exists c'. split; [exact H|]. split; [reflexivity|]. split; [reflexivity|].
    split; [exists []; rewrite app_nil_r; auto|auto]. }
  intros E H. destruct e as [i j|i j|x seg|i|x|x|x k|x|x|j]; cbn [wstep] in E.
  - destruct (_ && _); [|discriminate]. injection E as <-. cbn [w_conns] in H. apply in_app_or in H. destruct H as [H|[<- |[]]]; [|left; eauto].
    right. exists c'. split; [exact H|]. split; [reflexivity|]. split; [reflexivity|]. split; [exists []; rewrite app_nil_r; auto|auto].
  - destruct (_ && _); [|discriminate]. injection E as <-. apply SAME; auto.
  - destruct (nth_error (w_conns w) x) as [c0|] eqn:EX; [|discriminate]. destruct (c_fin c0) eqn:EF; [discriminate|]. injection E as <-.
    destruct (SET _ _ _ _ EX H) as [-> |K]; [|right; exact K]. right. exists c0. split; [exact (nth_error_In _ _ EX)|]. cbn [c_from c_to c_es c_fin].
    split; [reflexivity|]. split; [reflexivity|]. split; [exists seg; split; [apply arrived_snoc|discriminate]|]. intros X; rewrite ?EF in *; discriminate.
  - injection E as <-. apply SAME; auto.
  - destruct (nth_error (w_conns w) x) as [c0|] eqn:EX; [|discriminate]. destruct (_ && _); [|discriminate]. injection E as <-. apply SAME; auto.
  - destruct (nth_error (w_conns w) x) as [c0|] eqn:EX; [|discriminate]. destruct (w_up w (c_from c0)) eqn:U; cbn [negb andb] in E; [discriminate|].
    destruct (c_fin c0) eqn:EF; cbn [negb] in E; [discriminate|]. injection E as <-.
    destruct (SET _ _ _ _ EX H) as [-> |K]; [|right; exact K]. right. exists c0. split; [exact (nth_error_In _ _ EX)|]. cbn [c_from c_to c_es c_fin].
    split; [reflexivity|]. split; [reflexivity|]. split; [exists []; rewrite app_nil_r; auto|auto].
  - destruct (nth_error (w_conns w) x) as [c0|] eqn:EX; [|discriminate]. destruct (_ && _); [|discriminate]. injection E as <-.
    destruct (SET _ _ _ _ EX H) as [-> |K]; [|right; exact K]. right. exists c0. split; [exact (nth_error_In _ _ EX)|]. cbn [c_from c_to c_es c_fin].
    split; [reflexivity|]. split; [reflexivity|]. split; [exists []; split; [rewrite arrived_snoc; reflexivity|auto]|auto].
  - destruct (nth_error (w_conns w) x) as [c0|] eqn:EX; [|discriminate]. destruct (_ && _); [|discriminate]. injection E as <-. apply SAME; auto.
  - destruct (nth_error (w_conns w) x) as [c0|] eqn:EX; [|discriminate]. destruct (nth_error (out _) _) as [b|]; [|discriminate].
    destruct (w_up w (c_to c0)); [|discriminate]. destruct (UnmarshalMessage b) as [m ok]. destruct ok; [|injection E as <-; apply SAME; auto].
    destruct (full _); [discriminate|]. injection E as <-. cbn [w_conns set_q set_conn] in H.
    destruct (SET _ _ _ _ EX H) as [-> |K]; [|right; exact K]. right. exists c0. split; [exact (nth_error_In _ _ EX)|]. cbn [c_from c_to c_es c_fin].
    split; [reflexivity|]. split; [reflexivity|]. split; [exists []; rewrite app_nil_r; auto|auto].
  - destruct (w_q w j) as [|m q]; [discriminate|]. destruct (_ && _); [|discriminate]. injection E as <-. apply SAME; auto.
Qed.

(** Why a process goes down in one step. *)
Lemma goes_down w e w' j : wstep w e = Some w' -> w_up w j = true -> w_up w' j = false ->
  (e = EStop j \/ exists k, e = EDial j k) \/
  (exists c, In c (w_conns w) /\ c_from c = j /\ w_up w (c_to c) = false /\ own e = false) \/
  (exists c, In c (w_conns w) /\ c_to c = j /\ c_fin c = true) \/
  (exists c b, In c (w_conns w) /\ c_to c = j /\ In b (out (rx_run (c_es c))) /\ snd (UnmarshalMessage b) = false).
Proof.
  assert (ST : forall i, w_up w j = true -> w_up (stop w i) j = false -> i = j).
  { intros i U D. cbn [stop w_up] in D. unfold put in D. destruct (Nat.eqb_spec j i); congruence. }
  intros E U D. destruct e as [a b|a b|x seg|a|x|x|x k|x|x|a]; cbn [wstep] in E.
  - destruct (_ && _); [|discriminate]. injection E as <-. cbn [w_up] in D. congruence.
  - destruct (_ && _); [|discriminate]. injection E as <-. left. right. exists b. f_equal. auto.
  - destruct (nth_error (w_conns w) x) as [c0|]; [|discriminate]. destruct (c_fin c0); [discriminate|]. injection E as <-. cbn [w_up set_conn] in D. congruence.
  - injection E as <-. left. left. f_equal. auto.
  - destruct (nth_error (w_conns w) x) as [c0|] eqn:EX; [|discriminate]. destruct (w_up w (c_from c0)); [|discriminate].
    destruct (w_up w (c_to c0)) eqn:UT; [discriminate|]. injection E as <-. right. left. exists c0. pose proof (nth_error_In _ _ EX). auto.
  - destruct (nth_error (w_conns w) x) as [c0|]; [|discriminate]. destruct (_ && _); [|discriminate]. injection E as <-. cbn [w_up set_conn] in D. congruence.
  - destruct (nth_error (w_conns w) x) as [c0|]; [|discriminate]. destruct (_ && _); [|discriminate]. injection E as <-. cbn [w_up set_conn] in D. congruence.
  - destruct (nth_error (w_conns w) x) as [c0|] eqn:EX; [|discriminate]. destruct (w_up w (c_to c0)); [|discriminate].
    destruct (c_fin c0) eqn:EF; [|rewrite andb_false_r in E; discriminate]. destruct (_ && _); [|discriminate]. injection E as <-.
    right. right. left. exists c0. pose proof (nth_error_In _ _ EX). auto.
  - destruct (nth_error (w_conns w) x) as [c0|] eqn:EX; [|discriminate]. destruct (nth_error (out _) _) as [b|] eqn:EB; [|discriminate].
    destruct (w_up w (c_to c0)); [|discriminate]. destruct (UnmarshalMessage b) as [m ok] eqn:EU. destruct ok.
    + destruct (full _); [discriminate|]. injection E as <-. cbn [w_up set_q set_conn] in D. congruence.
    + injection E as <-. right. right. right. exists c0, b. pose proof (nth_error_In _ _ EX). pose proof (nth_error_In _ _ EB). rewrite EU. auto.
  - destruct (w_q w a) as [|m q]; [discriminate|]. destruct (_ && _); [|discriminate]. injection E as <-. cbn [w_up set_q] in D. congruence.
Qed.

(** Frames that were handed on are envelopes. *)
Definition handed (w : world) : Prop := forall c k b, In c (w_conns w) -> k < c_done c -> nth_error (out (rx_run (c_es c))) k = Some b ->
  snd (UnmarshalMessage b) = true.

Lemma out_grows s e : exists l, out (rx_step s e) = out s ++ l.
Proof.
  destruct e as [seg|k]; cbn [rx_step out]; [exists []; rewrite app_nil_r; reflexivity|]. unfold rx_read.
  destruct (_ && _); [|exists []; rewrite app_nil_r; reflexivity].
  destruct (_ =? _); [|exists []; rewrite app_nil_r; reflexivity].
  unfold complete. destruct (phase s) as [|n]; [destruct (Z.to_nat (BytesToInt _))|]; cbn [out];
    [eexists; reflexivity|exists []; rewrite app_nil_r; reflexivity|eexists; reflexivity].
Qed.

Lemma handed_step w e w' : wok w -> handed w -> wstep w e = Some w' -> handed w'.
Proof.
  intros W H E.
  assert (SET : forall x c0 c1, nth_error (w_conns w) x = Some c0 ->
    (forall k b, k < c_done c1 -> nth_error (out (rx_run (c_es c1))) k = Some b -> snd (UnmarshalMessage b) = true) ->
    forall c k b, In c (set_nth x c1 (w_conns w)) -> k < c_done c -> nth_error (out (rx_run (c_es c))) k = Some b -> snd (UnmarshalMessage b) = true).
  { intros x c0 c1 EX G c k b Hc. apply in_set_nth in Hc. destruct Hc as [-> |Hc]; [apply G|apply (H c k b Hc)]. }
  assert (MORE : forall c ev k b, In c (w_conns w) -> k < c_done c -> nth_error (out (rx_run (c_es c ++ [ev]))) k = Some b -> snd (UnmarshalMessage b) = true).
  { intros c ev k b Hc Hk EB. rewrite rx_snoc in EB. destruct (out_grows (rx_run (c_es c)) ev) as (l & EO). rewrite EO in EB.
    destruct W as (_ & W). specialize (W c Hc). rewrite nth_error_app1 in EB by lia. apply (H c k b Hc Hk EB). }
  destruct e as [i j|i j|x seg|i|x|x|x k|x|x|j]; cbn [wstep] in E.
  - destruct (_ && _); [|discriminate]. injection E as <-. intros c k b Hc. cbn [w_conns] in Hc. apply in_app_or in Hc.
    destruct Hc as [Hc|[<- |[]]]; [apply (H c k b Hc)|]. cbn [c_done]. lia.
  - destruct (_ && _); [|discriminate]. injection E as <-. exact H.
  - destruct (nth_error (w_conns w) x) as [c0|] eqn:EX; [|discriminate]. destruct (c_fin c0); [discriminate|]. injection E as <-.
    refine (SET x c0 _ EX _). cbn [c_done c_es]. intros k b. apply MORE. exact (nth_error_In _ _ EX).
  - injection E as <-. exact H.
  - destruct (nth_error (w_conns w) x) as [c0|]; [|discriminate]. destruct (_ && _); [|discriminate]. injection E as <-. exact H.
  - destruct (nth_error (w_conns w) x) as [c0|] eqn:EX; [|discriminate]. destruct (_ && _); [|discriminate]. injection E as <-.
    refine (SET x c0 _ EX _). cbn [c_done c_es]. intros k b. apply (H c0 k b (nth_error_In _ _ EX)).
  - destruct (nth_error (w_conns w) x) as [c0|] eqn:EX; [|discriminate]. destruct (_ && _); [|discriminate]. injection E as <-.
    refine (SET x c0 _ EX _). cbn [c_done c_es]. intros k' b. apply MORE. exact (nth_error_In _ _ EX).
  - destruct (nth_error (w_conns w) x) as [c0|]; [|discriminate]. destruct (_ && _); [|discriminate]. injection E as <-. exact H.
  - destruct (nth_error (w_conns w) x) as [c0|] eqn:EX; [|discriminate]. destruct (nth_error (out _) _) as [b|] eqn:EB; [|discriminate].
    destruct (w_up w (c_to c0)); [|discriminate]. destruct (UnmarshalMessage b) as [m ok] eqn:EU. destruct ok; [|injection E as <-; exact H].
    destruct (full _); [discriminate|]. injection E as <-. unfold handed. cbn [w_conns set_q set_conn]. apply (SET x c0 _ EX). cbn [c_done c_es].
    intros k b' Hk EB'. destruct (Nat.eq_dec k (c_done c0)) as [-> |NE].
    + rewrite EB in EB'. injection EB' as <-. rewrite EU. reflexivity.
    + apply (H c0 k b' (nth_error_In _ _ EX)); [lia|exact EB'].
  - destruct (w_q w j) as [|m q]; [discriminate|]. destruct (_ && _); [|discriminate]. injection E as <-. exact H.
Qed.

Lemma handed_runs w evs w' : wok w -> handed w -> wruns w evs w' -> handed w'.
Proof.
  intros W H R. induction R as [|evs w1 e w2 R IH E]; [exact H|]. eapply handed_step; [exact (wruns_ok _ _ _ W R)|exact IH|exact E].
Qed.
