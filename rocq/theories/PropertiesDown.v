(** C79: one process that stops takes along every process it is connected to, and those connected to these, and so on. *)

Require Import ZArith List Bool Arith Lia.
From Verif Require Import CodecModel FramingModel FramingProofs GoBase DispatchModel ProtoModel StageModel DownModel DownProofs.
Import ListNotations.

(** The beginning: nobody is connected yet.  Any of the processes may be up or not. *)
Definition begins (w : world) : Prop := NoDup (w_procs w) /\ w_conns w = [] /\ forall j, w_q w j = [].

Definition reachable (w : world) : Prop := exists w0 evs, begins w0 /\ wruns w0 evs w.

(** i has connected to j (i has run MakeSendChannel with the address of j). *)
Definition linked (w : world) (i j : nat) : Prop := exists c, In c (w_conns w) /\ c_from c = i /\ c_to c = j.

Inductive leads (w : world) (i : nat) : nat -> Prop :=
| ld_refl : leads w i i
| ld_step j k : leads w i j -> linked w j k -> leads w i k.

(** Left to themselves, the processes come to rest after a bounded number of steps, whatever the order, and then P holds. *)
Definition inevitable (stuck : nat -> bool) (w : world) (P : world -> Prop) : Prop :=
  (exists b, forall evs w', wruns w evs w' -> forallb own evs = true -> length evs <= b) /\
  (forall evs w', wruns w evs w' -> forallb own evs = true -> exists evs2 w2, wruns w' evs2 w2 /\ forallb own evs2 = true /\ at_rest stuck w2) /\
  (forall evs w', wruns w evs w' -> forallb own evs = true -> at_rest stuck w' -> P w').

Definition none : nat -> bool := fun _ => false.

Lemma begins_ok w : begins w -> wok w.
Proof. intros (ND & NC & _). split; [exact ND|]. rewrite NC. intros c []. Qed.

Lemma reachable_ok w : reachable w -> wok w.
Proof. intros (w0 & evs & B & R). exact (wruns_ok _ _ _ (begins_ok _ B) R). Qed.

Lemma reachable_step w e w' : reachable w -> wstep w e = Some w' -> reachable w'.
Proof. intros (w0 & evs & B & R) E. exists w0, (evs ++ [e]). split; [exact B|]. eapply wr_step; eassumption. Qed.

Lemma inevitable_intro stuck w (P : world -> Prop) : wok w ->
  (forall evs w', wok w' -> wruns w evs w' -> forallb own evs = true -> at_rest stuck w' -> P w') -> inevitable stuck w P.
Proof.
  intros W H. split; [|split].
  - exists (weight w). intros evs w' R O. pose proof (own_bound _ _ _ W R O). lia.
  - intros evs w' R O. exact (to_rest stuck w' (wruns_ok _ _ _ W R)).
  - intros evs w' R O Q. exact (H evs w' (wruns_ok _ _ _ W R) R O Q).
Qed.

(** A process that is down, and j connected to from it: j goes down, unless its dispatcher has stopped taking messages and
    its receive channel is full. *)
Theorem c79_link stuck w i j : reachable w -> w_up w i = false -> linked w i j ->
  inevitable stuck w (fun w' => w_up w' j = false \/ stuck j = true /\ full (w_q w' j) = true).
Proof.
  intros RW U (c & Hc & <- & <-). apply inevitable_intro; [exact (reachable_ok _ RW)|]. intros evs w' W' R O Q.
  destruct (conns_runs _ _ _ _ R Hc) as (c' & Hc' & F & T & _). rewrite <- T. apply (link w' stuck c' W' Q Hc'). rewrite F. exact (down_runs _ _ _ _ R U).
Qed.

Theorem c79_spread w i : reachable w -> w_up w i = false ->
  inevitable none w (fun w' => forall j, leads w i j -> w_up w' j = false).
Proof.
  intros RW U. apply inevitable_intro; [exact (reachable_ok _ RW)|]. intros evs w' W' R O Q j L.
  induction L as [|j k L IH (c & Hc & F & T)]; [exact (down_runs _ _ _ _ R U)|].
  destruct (conns_runs _ _ _ _ R Hc) as (c' & Hc' & F' & T' & _). destruct (link w' none c' W' Q Hc') as [H|(H & _)]; [congruence|congruence|discriminate].
Qed.

Lemma inevitable_mono stuck w (P P' : world -> Prop) : (forall w', P w' -> P' w') -> inevitable stuck w P -> inevitable stuck w P'.
Proof. intros H (A & B & C). split; [exact A|]. split; [exact B|]. intros evs w' R O Q. exact (H w' (C evs w' R O Q)). Qed.

Lemma leads_one w i j : linked w i j -> leads w i j.
Proof. intros H. eapply ld_step; [apply ld_refl|exact H]. Qed.

(** main.go:57-58 and 90: members connect to all members of the old and the new committee, so that one member of the old
    committee takes along everybody.  The client (main.go:183) connects to the old committee only. *)
Theorem c79_handoff w olds news client i : reachable w ->
  (forall a b, In a olds -> In b (olds ++ news) -> linked w a b) -> (forall b, In b olds -> linked w client b) ->
  olds <> [] -> In i (client :: olds) -> w_up w i = false ->
  inevitable none w (fun w' => forall j, In j (olds ++ news) -> w_up w' j = false).
Proof.
  intros RW LO LC NE Hi U. apply (inevitable_mono none w (fun w' => forall j, leads w i j -> w_up w' j = false)); [|exact (c79_spread w i RW U)].
  intros w' H j Hj. apply H. destruct Hi as [<- |Hi]; [|exact (leads_one _ _ _ (LO i j Hi Hj))].
  destruct olds as [|o olds]; [congruence|]. eapply ld_step; [exact (leads_one _ _ _ (LC o (or_introl eq_refl)))|]. apply LO; [left; reflexivity|exact Hj].
Qed.

(** A committee of which every member has run InitSendChannel (main.go:90): any one of them takes along all. *)
Theorem c79_committee w ms i : reachable w -> (forall a b, In a ms -> In b ms -> linked w a b) -> In i ms -> w_up w i = false ->
  inevitable none w (fun w' => forall j, In j ms -> w_up w' j = false).
Proof.
  intros RW LM Hi U. apply (inevitable_mono none w (fun w' => forall j, leads w i j -> w_up w' j = false)); [|exact (c79_spread w i RW U)].
  intros w' H j Hj. apply H. exact (leads_one _ _ _ (LM i j Hi Hj)).
Qed.

Lemma linked_open w i j k l w' : wstep w (EOpen i j) = Some w' -> linked w k l -> linked w' k l.
Proof. intros E (c & Hc & F & T). destruct (conns_step _ _ _ _ E Hc) as (c' & Hc' & F' & T' & _). exists c'. split; [exact Hc'|split; congruence]. Qed.

Lemma opened w x j w1 : wstep w (EOpen x j) = Some w1 ->
  linked w1 x j /\ nth_error (w_conns w1) (length (w_conns w)) = Some (mkConn x j [] 0 false).
Proof.
  intros E. cbn [wstep] in E. destruct (_ && _); [|discriminate]. injection E as <-. unfold linked. cbn [w_conns]. split.
  - eexists. split; [apply in_or_app; right; left; reflexivity|]. auto.
  - rewrite nth_error_app2, Nat.sub_diag by lia. reflexivity.
Qed.

Lemma can_open w x j : In j (w_procs w) -> w_up w x = true -> w_up w j = true -> exists w1, wstep w (EOpen x j) = Some w1.
Proof.
  intros P U J. cbn [wstep]. assert (EI : existsb (Nat.eqb j) (w_procs w) = true) by (apply existsb_exists; exists j; rewrite Nat.eqb_refl; auto).
  rewrite EI, U, J. cbn [andb]. eauto.
Qed.

(** Nobody has to belong to the committee for this: a program that connects to one member and ends, without having sent a
    byte, takes along the whole committee. *)
Theorem c79_outsider w ms x j : reachable w -> (forall a b, In a ms -> In b ms -> linked w a b) -> In j ms -> In j (w_procs w) ->
  w_up w x = true -> w_up w j = true ->
  exists w', wruns w [EOpen x j; EStop x] w' /\ inevitable none w' (fun w2 => forall k, In k ms -> w_up w2 k = false).
Proof.
  intros RW LM Hj HP U UJ. destruct (can_open w x j HP U UJ) as (w1 & E1). exists (stop w1 x). split.
  { eapply wruns_cons; [exact E1|]. eapply wruns_cons; [reflexivity|constructor]. }
  assert (RW2 : reachable (stop w1 x)) by exact (reachable_step w1 (EStop x) _ (reachable_step _ _ _ RW E1) eq_refl).
  apply (inevitable_mono none _ (fun w' => forall k, leads (stop w1 x) x k -> w_up w' k = false)).
  - intros w' H k Hk. apply H. eapply ld_step; [apply leads_one; exact (proj1 (opened _ _ _ _ E1))|]. exact (linked_open _ _ _ _ _ _ E1 (LM j k Hj Hk)).
  - apply c79_spread; [exact RW2|]. cbn [stop w_up]. unfold put. rewrite Nat.eqb_refl. reflexivity.
Qed.

Lemma begins_handed w : begins w -> handed w.
Proof. intros (_ & NC & _) c k b H. rewrite NC in H. destruct H. Qed.

Lemma reachable_handed w : reachable w -> handed w.
Proof. intros (w0 & evs & B & R). exact (handed_runs _ _ _ (begins_ok _ B) (begins_handed _ B) R). Qed.

(** The same with one frame that is no envelope, the connection staying open. *)
Theorem c79_frame w ms x j b : reachable w -> (forall a c, In a ms -> In c ms -> linked w a c) -> In j ms -> In j (w_procs w) ->
  w_up w x = true -> w_up w j = true -> fits b -> snd (UnmarshalMessage b) = false ->
  exists w', wruns w [EOpen x j; EArrive (length (w_conns w)) (frame b)] w' /\
    inevitable none w' (fun w2 => forall k, In k ms -> w_up w2 k = false).
Proof.
  intros RW LM Hj HP U UJ FB NB. destruct (can_open w x j HP U UJ) as (w1 & E1). destruct (opened _ _ _ _ E1) as (L1 & N1).
  assert (E2 : exists w2, wstep w1 (EArrive (length (w_conns w)) (frame b)) = Some w2 /\ w2 = set_conn w1 (length (w_conns w)) (mkConn x j [Arrive (frame b)] 0 false)).
  { cbn [wstep]. rewrite N1. cbn [c_fin c_from c_to c_es c_done app]. eauto. }
  destruct E2 as (w2 & E2 & D2). exists w2. split; [eapply wruns_cons; [exact E1|]; eapply wruns_cons; [exact E2|constructor]|].
  assert (RW2 : reachable w2) by (eapply reachable_step; [eapply reachable_step; [exact RW|exact E1]|exact E2]).
  assert (Hc : In (mkConn x j [Arrive (frame b)] 0 false) (w_conns w2)) by (rewrite D2; exact (set_nth_in _ _ _ _ N1)).
  apply inevitable_intro; [exact (reachable_ok _ RW2)|]. intros evs w' W' R O Q.
  assert (DJ : w_up w' j = false).
  { destruct (w_up w' j) eqn:UJ'; [exfalso|reflexivity]. destruct (conns_runs _ _ _ _ R Hc) as (c & Hc' & F & T & A). specialize (A O). cbn [c_from c_to c_es] in F, T, A.
    unfold arrived in A at 2. cbn [map concat] in A. rewrite app_nil_r in A.
    rewrite <- T in UJ'. destruct (drained w' none c W' Q Hc' UJ') as [(ED & EK)|(H & _)]; [|discriminate].
    destruct (framing_correct [b] (c_es c) []) as (_ & FC).
    { constructor; [exact FB|constructor]. }
    { rewrite A, app_nil_r. unfold stream. cbn [map concat]. apply app_nil_r. }
    specialize (FC eq_refl EK). rewrite FC in ED.
    assert (HD : handed w') by exact (handed_runs _ _ _ (reachable_ok _ RW2) (reachable_handed _ RW2) R).
    specialize (HD c 0 b Hc'). rewrite ED, FC in HD. rewrite HD in NB; [discriminate|cbn [length]; lia|reflexivity]. }
  intros k Hk. pose proof (linked_open _ _ _ _ _ _ E1 (LM j k Hj Hk)) as (c & Hc1 & F1 & T1).
  destruct (conns_step _ _ _ _ E2 Hc1) as (c2 & Hc2 & F2 & T2 & _). destruct (conns_runs _ _ _ _ R Hc2) as (c3 & Hc3 & F3 & T3 & _).
  destruct (link w' none c3 W' Q Hc3) as [H|(H & _)]; [congruence|congruence|discriminate].
Qed.

(** A member that connects to a place where nobody listens stops instead of trying again, and takes along those it has
    already connected to. *)
Theorem c79_dial w i j ks : reachable w -> w_up w i = true -> w_up w j = false -> (forall k, In k ks -> linked w i k) ->
  exists w', wstep w (EDial i j) = Some w' /\ inevitable none w' (fun w2 => forall k, In k ks -> w_up w2 k = false).
Proof.
  intros RW U D L. exists (stop w i). assert (E : wstep w (EDial i j) = Some (stop w i)) by (cbn [wstep]; rewrite U, D, andb_false_r; reflexivity).
  split; [exact E|]. apply (inevitable_mono none _ (fun w' => forall k, leads (stop w i) i k -> w_up w' k = false)).
  - intros w' H k Hk. apply H. apply leads_one. exact (L k Hk).
  - apply c79_spread; [exact (reachable_step _ _ _ RW E)|]. cbn [stop w_up]. unfold put. rewrite Nat.eqb_refl. reflexivity.
Qed.

(** Backwards along a connection a process is taken along when it sends: writing to a process that is down stops the sender,
    with all that it leads to. *)
Theorem c79_write w x c : reachable w -> nth_error (w_conns w) x = Some c -> w_up w (c_from c) = true -> w_up w (c_to c) = false ->
  exists w', wstep w (EWrite x) = Some w' /\ inevitable none w' (fun w2 => forall k, leads w (c_from c) k -> w_up w2 k = false).
Proof.
  intros RW EX U D. exists (stop w (c_from c)). assert (E : wstep w (EWrite x) = Some (stop w (c_from c))) by (cbn [wstep]; rewrite EX, U, D; reflexivity).
  split; [exact E|]. apply (inevitable_mono none _ (fun w' => forall k, leads (stop w (c_from c)) (c_from c) k -> w_up w' k = false)).
  - intros w' H k Hk. apply H. clear - Hk. induction Hk as [|j k L IH Hl]; [apply ld_refl|]. exact (ld_step _ _ j k IH Hl).
  - apply c79_spread; [exact (reachable_step _ _ _ RW E)|]. cbn [stop w_up]. unfold put. rewrite Nat.eqb_refl. reflexivity.
Qed.

(** ** Nothing else stops a process here *)

(** What has arrived on every connection is the beginning of a stream of envelopes. *)
Definition sound (w : world) : Prop := forall c, In c (w_conns w) ->
  exists ms rest, Forall fits ms /\ Forall (fun b => snd (UnmarshalMessage b) = true) ms /\ stream ms = arrived (c_es c) ++ rest.

Lemma sound_out w c b : sound w -> In c (w_conns w) -> In b (out (rx_run (c_es c))) -> snd (UnmarshalMessage b) = true.
Proof.
  intros SW Hc Hb. destruct (SW c Hc) as (ms & rest & FM & UM & E). destruct (framing_correct ms (c_es c) rest FM E) as ((k & EO) & _).
  rewrite EO in Hb. rewrite Forall_forall in UM. apply UM. rewrite <- (firstn_skipn k ms). apply in_or_app. auto.
Qed.

Lemma sound_back w e w' : wstep w e = Some w' -> sound w' -> sound w.
Proof.
  intros E SW c Hc. destruct e as [i j|i j|x seg|i|x|x|x k|x|x|j].
  3:{ cbn [wstep] in E. destruct (nth_error (w_conns w) x) as [c0|] eqn:EX; [|discriminate]. destruct (c_fin c0); [discriminate|]. injection E as <-.
      destruct (set_nth_keep (mkConn (c_from c0) (c_to c0) (c_es c0 ++ [Arrive seg]) (c_done c0) false) _ _ _ _ EX Hc) as [-> |K].
      - destruct (SW _ (set_nth_in _ _ _ _ EX)) as (ms & rest & FM & UM & A). cbn [c_es] in A. rewrite arrived_snoc, <- app_assoc in A. eauto.
      - exact (SW c K). }
  1:{ cbn [wstep] in E. destruct (_ && _); [|discriminate]. injection E as <-. apply SW. cbn [w_conns]. apply in_or_app. auto. }
  1:{ cbn [wstep] in E. destruct (_ && _); [|discriminate]. injection E as <-. exact (SW c Hc). }
  1:{ cbn [wstep] in E. injection E as <-. exact (SW c Hc). }
  1:{ cbn [wstep] in E. destruct (nth_error (w_conns w) x) as [c0|]; [|discriminate]. destruct (_ && _); [|discriminate]. injection E as <-. exact (SW c Hc). }
  all: destruct (conns_step _ _ _ _ E Hc) as (c' & Hc' & _ & _ & A); specialize (A eq_refl); rewrite <- A; exact (SW c' Hc').
Qed.

Lemma sound_runs w evs w' : wruns w evs w' -> sound w' -> sound w.
Proof. intros R. induction R as [|evs w1 e w2 R IH E]; [auto|]. intros SW. apply IH. exact (sound_back _ _ _ E SW). Qed.

(** The end of the stream arrives from processes that are down only. *)
Definition fins (w : world) : Prop := forall c, In c (w_conns w) -> c_fin c = true -> w_up w (c_from c) = false.

Lemma fins_step w e w' : fins w -> wstep w e = Some w' -> fins w'.
Proof.
  intros H E c' Hc' F. destruct (conns_back _ _ _ _ E Hc') as [(i & j & _ & ->)|(c & Hc & EF & _ & _ & G)]; [discriminate|].
  rewrite EF. apply (down_step _ _ _ _ E). destruct (G F) as [G'|G']; [exact (H c Hc G')|exact G'].
Qed.

Lemma fins_runs w evs w' : fins w -> wruns w evs w' -> fins w'.
Proof. intros H R. induction R as [|evs w1 e w2 R IH E]; [exact H|]. exact (fins_step _ _ _ IH E). Qed.

Lemma reachable_fins w : reachable w -> fins w.
Proof. intros (w0 & evs & (_ & NC & _) & R). apply (fins_runs w0 evs w); [|exact R]. intros c Hc. rewrite NC in Hc. destruct Hc. Qed.

(** As long as everybody is up, what arrives are envelopes, and no process is stopped by anything else or connects in vain,
    everybody stays up. *)
Theorem c79_quiet w0 evs w : begins w0 -> (forall j, w_up w0 j = true) -> wruns w0 evs w -> sound w ->
  (forall e i j, In e evs -> e <> EStop i /\ e <> EDial i j) -> forall j, w_up w j = true.
Proof.
  intros B U R. induction R as [|evs w1 e w2 R IH E]; [auto|]. intros SW NE j.
  assert (U1 : forall i, w_up w1 i = true).
  { apply IH; [exact (sound_back _ _ _ E SW)|]. intros e' i' j' He'. apply NE. apply in_or_app. auto. }
  assert (RW : reachable w1) by (exists w0, evs; auto).
  destruct (w_up w2 j) eqn:D; [reflexivity|exfalso].
  destruct (goes_down _ _ _ _ E (U1 j) D) as [[H|(k & H)]|[(c & _ & _ & H & _)|[(c & Hc & _ & H)|(c & b & Hc & _ & Hb & H)]]].
  - destruct (NE e j j) as (N & _); [apply in_or_app; right; left; reflexivity|]. auto.
  - destruct (NE e j k) as (_ & N); [apply in_or_app; right; left; reflexivity|]. auto.
  - rewrite U1 in H. discriminate.
  - pose proof (reachable_fins _ RW c Hc H) as X. rewrite U1 in X. discriminate.
  - rewrite (sound_out w1 c b (sound_back _ _ _ E SW) Hc Hb) in H. discriminate.
Qed.

Lemma linked_back w evs w' i j : wruns w evs w' -> forallb own evs = true -> linked w' i j -> linked w i j.
Proof.
  intros R. induction R as [|evs w1 e w2 R IH E]; [auto|]. rewrite forallb_app. cbn [forallb]. rewrite andb_true_r. intros O.
  apply andb_true_iff in O. destruct O as (O1 & O2). intros (c' & Hc' & F & T). apply (IH O1).
  destruct (conns_back _ _ _ _ E Hc') as [(a & b & -> & _)|(c & Hc & F' & T' & _)]; [discriminate|]. exists c. split; [exact Hc|]. split; congruence.
Qed.

(** With envelopes on all connections, exactly those processes go down that one can get to from a process that is down. *)
Theorem c79_exact w : reachable w -> sound w ->
  inevitable none w (fun w' => forall j, w_up w' j = false <-> exists i, w_up w i = false /\ leads w i j).
Proof.
  intros RW SW. apply inevitable_intro; [exact (reachable_ok _ RW)|]. intros evs w' W' R O Q j. split.
  - clear Q. revert j. induction R as [|evs w1 e w2 R IH E]; [intros j H; exists j; split; [exact H|apply ld_refl]|].
    rewrite forallb_app in O. cbn [forallb] in O. rewrite andb_true_r in O. apply andb_true_iff in O. destruct O as (O1 & O2). intros j D.
    assert (W1 : wok w1) by exact (wruns_ok _ _ _ (reachable_ok _ RW) R).
    destruct (w_up w1 j) eqn:U1; [|exact (IH W1 O1 j U1)].
    assert (S1 : sound w1).
    { clear - SW R O1. induction R as [|evs w1 e w2 R IH E]; [exact SW|]. rewrite forallb_app in O1. cbn [forallb] in O1. rewrite andb_true_r in O1.
      apply andb_true_iff in O1. destruct O1 as (O1 & O2). specialize (IH O1). intros c' Hc'.
      destruct (conns_back _ _ _ _ E Hc') as [(a & b & -> & _)|(c & Hc & _ & _ & (more & A & M) & _)]; [discriminate|].
      rewrite A, (M O2), app_nil_r. exact (IH c Hc). }
    destruct (goes_down _ _ _ _ E U1 D) as [[H|(k & H)]|[(c & _ & _ & _ & H)|[(c & Hc & T & H)|(c & b & Hc & _ & Hb & H)]]].
    + subst e. discriminate.
    + subst e. discriminate.
    + rewrite O2 in H. discriminate.
    + destruct (IH W1 O1 (c_from c)) as (i & Ui & Li).
      { apply (fins_runs w evs w1 (reachable_fins _ RW) R c Hc H). }
      exists i. split; [exact Ui|]. eapply ld_step; [exact Li|]. apply (linked_back _ _ _ _ _ R O1). exists c. auto.
    + rewrite (sound_out w1 c b S1 Hc Hb) in H. discriminate.
  - intros (i & Ui & Li). destruct (c79_spread w i RW Ui) as (_ & _ & H). exact (H evs w' R O Q j Li).
Qed.

(** ** A dispatcher that does not take *)

(** The exception of c79_link is real: the receiver has 1024 messages in its channel that its dispatcher does not take
    (C06: one unread channel is enough), and has one more in hand; it does not notice the end of the stream. *)

Definition zeros (n : nat) : list Z := concat (repeat [0; 0; 0; 0]%Z n).
Definition reads (n k : nat) : list rx_event := Arrive (zeros n) :: repeat (Read 4) k.

Lemma repeat_snoc {A} (a : A) k : repeat a (S k) = repeat a k ++ [a].
Proof. induction k as [|k IH]; [reflexivity|]. cbn [repeat app]. f_equal. exact IH. Qed.

Lemma reads_run n k : k <= n -> rx_run (reads n k) = mkRx (zeros (n - k)) RHead [] (repeat [] k).
Proof.
  induction k as [|k IH]; intros H; [rewrite Nat.sub_0_r; reflexivity|].
  assert (ER : reads n (S k) = reads n k ++ [Read 4]) by (unfold reads; rewrite repeat_snoc; reflexivity).
  rewrite ER, rx_snoc, IH by lia. destruct (n - k) as [|d] eqn:ED; [lia|]. replace (n - S k) with d by lia. rewrite (repeat_snoc [] k). reflexivity.
Qed.

Definition first : world := mkWorld [1] (fun _ => true) (fun _ => []) [].

Lemma first_begins : begins first.
Proof. split; [constructor; [intros []|constructor]|]. split; reflexivity. Qed.

Definition at_k (n k : nat) (w : world) : Prop :=
  w_procs w = [1] /\ w_up w = (fun _ => true) /\ length (w_q w 1) = k /\ w_conns w = [mkConn 0 1 (reads n k) k false].

Lemma reads_S n k : reads n (S k) = reads n k ++ [Read 4].
Proof. unfold reads. rewrite repeat_snoc. reflexivity. Qed.

Lemma read_one n k w : k < n -> at_k n k w -> wstep w (ERead 0 4) = Some (set_conn w 0 (mkConn 0 1 (reads n (S k)) k false)).
Proof.
  intros H (_ & EU & EQ & EC). cbn [wstep]. rewrite EC, EU. cbn [nth_error c_to andb c_from c_es c_done c_fin]. unfold can_read. cbn [c_es c_done].
  rewrite (reads_run n k) by lia. cbn [out kern phase acc]. rewrite repeat_length, Nat.eqb_refl. destruct (n - k) as [|d] eqn:ED; [lia|].
  change (zeros (S d)) with ([0; 0; 0; 0]%Z ++ zeros d). rewrite app_length. cbn [length]. rewrite reads_S. reflexivity.
Qed.

Lemma reach_k n k : n = 1025 -> k <= 1024 -> exists w, reachable w /\ at_k n k w.
Proof.
  intros Hn. induction k as [|k IH]; intros H.
  - eexists. split.
    + exists first, [EOpen 0 1; EArrive 0 (zeros n)]. split; [exact first_begins|]. eapply wruns_cons; [reflexivity|]. eapply wruns_cons; [reflexivity|constructor].
    + repeat split; reflexivity.
  - destruct IH as (w & RW & A); [lia|]. assert (L : k < n) by lia. pose proof (read_one n k w L A) as E1. destruct A as (EP & EU & EQ & EC).
    pose proof (reachable_step _ _ _ RW E1) as R1. set (w1 := set_conn w 0 _) in *.
    assert (E2 : wstep w1 (EPush 0) = Some (set_q (set_conn w1 0 (mkConn 0 1 (reads n (S k)) (S k) false)) 1 (w_q w 1 ++ [fst (UnmarshalMessage [])]))).
    { assert (EC1 : nth_error (w_conns w1) 0 = Some (mkConn 0 1 (reads n (S k)) k false)) by (unfold w1; cbn [set_conn w_conns]; rewrite EC; reflexivity).
      cbn [wstep]. rewrite EC1. cbn [c_es c_done c_to c_from c_fin]. rewrite (reads_run n (S k)) by lia. cbn [out].
      rewrite nth_error_repeat by lia. change (w_up w1) with (w_up w). rewrite EU. change (w_q w1 1) with (w_q w 1).
      destruct (UnmarshalMessage []) as [m ok] eqn:EM. assert (ok = true) as -> by (vm_compute in EM; congruence). cbn [fst].
      assert (FU : full (w_q w 1) = false) by (unfold full; rewrite EQ; apply Z.leb_gt; lia). rewrite FU, Nat.add_1_r. reflexivity. }
    eexists. split; [exact (reachable_step _ _ _ R1 E2)|]. split; [exact EP|]. split; [exact EU|].
    cbn [set_q w_q w_conns set_conn]. unfold put. rewrite Nat.eqb_refl, app_length, EQ. split; [cbn [length]; lia|].
    unfold w1. cbn [set_conn w_conns]. rewrite EC. reflexivity.
Qed.

Theorem c79_stuck : exists w, reachable w /\ w_up w 0 = false /\ linked w 0 1 /\ at_rest (fun _ => true) w /\ w_up w 1 = true.
Proof.
  remember 1025 as n eqn:Hn. destruct (reach_k n 1024 Hn (le_n _)) as (w & RW & A).
  assert (L : 1024 < n) by (rewrite Hn; apply Nat.lt_succ_diag_r). pose proof (read_one n 1024 w L A) as E1. destruct A as (EP & EU & EQ & EC).
  pose proof (reachable_step _ _ _ RW E1) as R1. set (w1 := set_conn w 0 _) in *.
  pose proof (reachable_step w1 (EStop 0) (stop w1 0) R1 eq_refl) as R2.
  assert (EC2 : w_conns (stop w1 0) = [mkConn 0 1 (reads n 1025) 1024 false]) by (unfold w1; cbn [set_conn stop w_conns]; rewrite EC; reflexivity).
  set (w3 := set_conn (stop w1 0) 0 (mkConn 0 1 (reads n 1025) 1024 true)).
  assert (E3 : wstep (stop w1 0) (EFin 0) = Some w3).
  { cbn [wstep]. rewrite EC2. cbn [nth_error c_from c_fin c_to c_es c_done]. cbn [stop w_up]. unfold put. cbn [Nat.eqb negb andb]. reflexivity. }
  assert (EC3 : w_conns w3 = [mkConn 0 1 (reads n 1025) 1024 true]) by (unfold w3; cbn [set_conn w_conns]; rewrite EC2; reflexivity).
  assert (U1 : w_up w3 1 = true) by (change (put (w_up w) 0 false 1 = true); rewrite EU; reflexivity).
  exists w3. split; [exact (reachable_step _ _ _ R2 E3)|]. split; [reflexivity|]. split; [|split; [|exact U1]].
  - exists (mkConn 0 1 (reads n 1025) 1024 true). rewrite EC3. split; [left; reflexivity|auto].
  - assert (NX : forall x c, nth_error (w_conns w3) x = Some c -> c = mkConn 0 1 (reads n 1025) 1024 true).
    { intros x c H. rewrite EC3 in H. destruct x as [|[|x]]; cbn [nth_error] in H; congruence. }
    assert (RR : rx_run (reads n 1025) = mkRx [] RHead [] (repeat [] 1025)) by (rewrite (reads_run n 1025) by lia; rewrite Hn, Nat.sub_diag; reflexivity).
    assert (NE : (1024 =? length (out (rx_run (reads n 1025)))) = false) by (rewrite RR; cbn [out]; rewrite repeat_length; reflexivity).
    intros e O ST. destruct e as [i j|i j|x seg|i|x|x|x k|x|x|j]; try discriminate O; cbn [wstep].
    + destruct (nth_error (w_conns w3) x) as [c|] eqn:EX; [|reflexivity]. rewrite (NX x c EX). cbn [c_fin c_from]. rewrite andb_false_r. reflexivity.
    + destruct (nth_error (w_conns w3) x) as [c|] eqn:EX; [|reflexivity]. rewrite (NX x c EX). unfold can_read. cbn [c_done c_es]. rewrite NE, !andb_false_r. reflexivity.
    + destruct (nth_error (w_conns w3) x) as [c|] eqn:EX; [|reflexivity]. rewrite (NX x c EX). cbn [c_done c_es]. rewrite NE, !andb_false_r. reflexivity.
    + destruct (nth_error (w_conns w3) x) as [c|] eqn:EX; [|reflexivity]. rewrite (NX x c EX). cbn [c_done c_es c_to c_from c_fin]. rewrite RR. cbn [out].
      rewrite nth_error_repeat by lia. rewrite U1. destruct (UnmarshalMessage []) as [m ok] eqn:EM. assert (ok = true) as -> by (vm_compute in EM; congruence).
      assert (FU : full (w_q w3 1) = true) by (change (full (w_q w 1) = true); unfold full; rewrite EQ; reflexivity). rewrite FU. reflexivity.
    + specialize (ST j eq_refl). discriminate.
Qed.

(** ** Examples *)

Fixpoint perform (w : world) (evs : list wev) : option world :=
  match evs with [] => Some w | e :: evs => match wstep w e with Some w' => perform w' evs | None => None end end.

Lemma perform_runs evs : forall w w', perform w evs = Some w' -> wruns w evs w'.
Proof.
  induction evs as [|e evs IH]; intros w w' E; cbn [perform] in E; [injection E as <-; constructor|].
  destruct (wstep w e) as [w1|] eqn:E1; [|discriminate]. eapply wruns_cons; [exact E1|]. exact (IH w1 w' E).
Qed.

(** Old committee 0, 1, new committee 2, 3, client 4, which sends an envelope to member 0 before it stops. *)
Definition dials : list wev :=
  map (EOpen 0) [0; 1; 2; 3] ++ map (EOpen 1) [0; 1; 2; 3] ++ map (EOpen 2) [2; 3] ++ map (EOpen 3) [2; 3] ++ map (EOpen 4) [0; 1].

Definition before : world := mkWorld [0; 1; 2; 3] (fun _ => true) (fun _ => []) [].

Lemma before_begins : begins before.
Proof. split; [repeat constructor; cbn [In]; intuition lia|]. split; reflexivity. Qed.

Definition envelope : list Z := match MarshalMessage (mkMsg [1] [2] 3 [4; 5])%Z with Ret b => b | _ => [] end.

Definition sends : list wev := [EArrive 12 (firstn 3 (frame envelope)); ERead 12 2; EArrive 12 (skipn 3 (frame envelope)); ERead 12 2].

Definition pairs (w : world) : list (nat * nat) := map (fun c => (c_from c, c_to c)) (w_conns w).

Lemma pairs_linked w i j : existsb (fun p => (fst p =? i) && (snd p =? j)) (pairs w) = true -> linked w i j.
Proof.
  intros H. apply existsb_exists in H. destruct H as ((a & b) & Hp & E). apply andb_true_iff in E. destruct E as (E1 & E2).
  apply Nat.eqb_eq in E1, E2. cbn [fst snd] in E1, E2. subst. unfold pairs in Hp. apply in_map_iff in Hp. destruct Hp as (c & E & Hc).
  injection E as E1 E2. exists c. auto.
Qed.

Example c79_ex : exists w, wruns before (dials ++ sends ++ [EStop 4]) w /\ reachable w /\ sound w /\ w_up w 4 = false /\ w_up w 0 = true /\
  (forall a b, In a [0; 1] -> In b ([0; 1] ++ [2; 3]) -> linked w a b) /\ (forall b, In b [0; 1] -> linked w 4 b) /\
  (forall a b, In a [2; 3] -> In b [2; 3] -> linked w a b).
Proof.
  destruct (perform before (dials ++ sends ++ [EStop 4])) as [w|] eqn:E; [|vm_compute in E; discriminate]. exists w.
  assert (R := perform_runs _ _ _ E). split; [exact R|]. split; [exists before; eexists; split; [exact before_begins|exact R]|].
  assert (P : pairs w = [(0,0); (0,1); (0,2); (0,3); (1,0); (1,1); (1,2); (1,3); (2,2); (2,3); (3,2); (3,3); (4,0); (4,1)]).
  { clear R. vm_compute in E. injection E as <-. reflexivity. }
  split; [|split; [|split]].
  - assert (AR : map (fun c => arrived (c_es c)) (w_conns w) = repeat [] 12 ++ [frame envelope; []]).
    { clear P R. vm_compute in E. injection E as <-. vm_compute. reflexivity. }
    intros c Hc. assert (Hx : In (arrived (c_es c)) (repeat [] 12 ++ [frame envelope; []])) by (rewrite <- AR; apply in_map_iff; eauto).
    exists [envelope]. assert (K : exists rest, stream [envelope] = arrived (c_es c) ++ rest).
    { unfold stream. cbn [map concat]. rewrite app_nil_r. apply in_app_or in Hx. destruct Hx as [Hx|[<- |[<- |[]]]];
        [apply repeat_spec in Hx; rewrite Hx; eexists; reflexivity|exists []; rewrite app_nil_r; reflexivity|eexists; reflexivity]. }
    destruct K as (rest & K). exists rest. split; [constructor; [vm_compute; reflexivity|constructor]|].
    split; [constructor; [|constructor]|exact K]. vm_compute. reflexivity.
  - clear P R. vm_compute in E. injection E as <-. reflexivity.
  - clear P R. vm_compute in E. injection E as <-. reflexivity.
  - split; [|split]; intros *; cbn [In app]; intros; apply pairs_linked; rewrite P;
      repeat match goal with H : _ \/ _ |- _ => destruct H as [<- |H] end; try contradiction; reflexivity.
Qed.

Example c79_frame_ex : fits [255]%Z /\ snd (UnmarshalMessage [255]%Z) = false.
Proof. split; [vm_compute; reflexivity|vm_compute; reflexivity]. Qed.

Print Assumptions c79_link.
Print Assumptions c79_spread.
Print Assumptions c79_handoff.
Print Assumptions c79_committee.
Print Assumptions c79_outsider.
Print Assumptions c79_frame.
Print Assumptions c79_dial.
Print Assumptions c79_write.
Print Assumptions c79_quiet.
Print Assumptions c79_exact.
Print Assumptions c79_stuck.
