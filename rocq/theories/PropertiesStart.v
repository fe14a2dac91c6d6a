(** C84: when the processes of a deployment get to run.

    A process sleeps for a fixed time after its start and then connects to the others, each once.  The theorems say for
    which times of starting this works, for committees of every size and all settings of the flags: if everybody whom a
    process connects to has been started before the process stops sleeping, then nobody ends and everybody gets all their
    connections; if somebody is started later than that, the process ends, and so do all those that want to connect to it
    later on. *)

Require Import List Arith Bool Lia.
From Verif Require Import StartModel StartSpec StartProofs.
Import ListNotations.

(** Whatever the order of events: nobody ends, a connection is made exactly to the listed processes, and from every state
    that can be reached all processes can get all their connections. *)
Theorem c84_safe : forall (P : nat -> proc) (ps : list nat) (s : nat -> nat), early_enough P ps s ->
  forall evs st, follows P ps s s_init evs st ->
  (forall i, s_ph st i <> Ended) /\
  (exists evs' st', follows P ps s st evs' st' /\ forall i, In i ps -> running P st' i).
Proof.
  intros P ps s E evs st F. pose proof (follows_alive P ps s E _ _ _ F (alive_init P ps s)) as A. split; [apply A|].
  exact (completes P ps s E _ st (le_n _) A).
Qed.

(** With sleeps that end on time and connections that take no time: a process that has to connect to one that is started
    after its sleep has ended ends, and every process that wants to connect to it afterwards ends too. *)
Theorem c84_late : forall (P : nat -> proc) (ps : list nat) (s : nat -> nat) (i j : nat),
  In i ps -> In j (pr_targets (P i)) -> s i + pr_wait (P i) < s j ->
  forall evs st, prompt P ps s s_init evs st ->
  (s i + pr_wait (P i) < s_clock st -> s_ph st i = Ended) /\
  (forall k, In k ps -> In i (pr_targets (P k)) -> s i + pr_wait (P i) < s k + pr_wait (P k) -> s k + pr_wait (P k) < s_clock st ->
    s_ph st k = Ended /\ ~ In (k, i) (s_conns st)).
Proof.
  intros P ps s i j Hi Hj L evs st R.
  assert (G : forall st0, prompt P ps s st0 evs st -> missed P ps s i st0 -> missed P ps s i st).
  { clear R. intros st0 R. induction R as [|st0 e st1 evs st2 O Q E R IH]; intros M; [exact M|]. apply IH. exact (missed_step P ps s i j Hi Hj L _ _ _ M O Q E). }
  assert (M0 : missed P ps s i s_init). { split; [apply planned_init|]. cbn [s_init s_clock]. intros H. lia. }
  split; [exact (proj2 (G _ R M0))|].
  intros k Hk Hki Lk LT.
  assert (G2 : forall st0, prompt P ps s st0 evs st -> missed2 P ps s i k st0 -> missed2 P ps s i k st).
  { clear R G. intros st0 R. induction R as [|st0 e st1 evs st2 O Q E R IH]; intros M; [exact M|]. apply IH; [assumption|]. exact (missed2_step P ps s i j Hi Hj L k Hk Hki Lk _ _ _ M O Q E). }
  destruct (G2 _ R) as (_ & NC & M). { split; [exact M0|]. split; [intros []|]. cbn [s_init s_clock]. intros H. lia. }
  split; [exact (M LT)|exact NC].
Qed.

(** A process only ends because a process it connects to does not listen (not started, a client, or ended), or because one
    that had connected to it has ended; and the latter can always happen. *)
Theorem c84_ends : forall (P : nat -> proc) (ps : list nat) (s : nat -> nat) evs st, follows P ps s s_init evs st ->
  (forall e st' k, sstep P st e = Some st' -> s_ph st k <> Ended -> s_ph st' k = Ended ->
     (exists j, e = Dial k /\ In j (pr_targets (P k)) /\ (pr_listens (P j) = false \/ s_ph st j = Off \/ s_ph st j = Ended)) \/
     (exists i, e = Break i k /\ s_ph st i = Ended /\ In k (pr_targets (P i)) /\ In (i, k) (s_conns st))) /\
  (forall i j, s_ph st i = Ended -> In (i, j) (s_conns st) -> s_ph st j = Ended \/
     exists st', sstep P st (Break i j) = Some st' /\ s_ph st' j = Ended /\ forall k, k <> j -> s_ph st' k = s_ph st k).
Proof.
  intros P ps s evs st F. pose proof (follows_planned P ps s _ _ _ F (planned_init P ps s)) as I.
  assert (T : forall a b, In (a, b) (s_conns st) -> In b (pr_targets (P a))).
  { assert (G : forall st0, follows P ps s st0 evs st -> (forall a b, In (a, b) (s_conns st0) -> In b (pr_targets (P a))) -> forall a b, In (a, b) (s_conns st) -> In b (pr_targets (P a))).
    { clear F I. intros st0 F. induction F as [|st0 e st1 evs st2 O E F IH]; intros H; [exact H|]. apply IH. intros a b C. clear IH F. destruct e as [|i|i|i|i j]; cbn [sstep] in E.
      - injection E as <-. exact (H a b C).
      - destruct (s_ph st0 i); try discriminate. injection E as <-. exact (H a b C).
      - destruct (s_ph st0 i); try discriminate. destruct (_ <=? _); [|discriminate]. injection E as <-. exact (H a b C).
      - destruct (s_ph st0 i) as [| |m|]; try discriminate. destruct (nth_error _ m) as [j|] eqn:EN; [|discriminate]. destruct (accepts P st0 j); injection E as <-; [|exact (H a b C)].
        cbn [s_conns] in C. apply in_app_or in C. destruct C as [C|[C|[]]]; [exact (H a b C)|]. injection C as <- <-. exact (nth_error_In _ _ EN).
      - destruct (s_ph st0 i), (s_ph st0 j); try discriminate; (destruct (existsb _ _); [|discriminate]; injection E as <-; exact (H a b C)). }
    exact (G _ F (fun a b H => match H with end)). }
  split.
  - intros e st' k E N K. destruct e as [|i|i|i|i j]; cbn [sstep] in E.
    + injection E as <-. contradiction.
    + destruct (s_ph st i); try discriminate. injection E as <-. cbn [s_ph] in K. unfold set_ph in K. destruct (_ =? _); [discriminate|contradiction].
    + destruct (s_ph st i); try discriminate. destruct (_ <=? _); [|discriminate]. injection E as <-. cbn [s_ph] in K. unfold set_ph in K. destruct (_ =? _); [discriminate|contradiction].
    + destruct (s_ph st i) as [| |m|]; try discriminate. destruct (nth_error _ m) as [j|] eqn:EN; [|discriminate]. destruct (accepts P st j) eqn:EA; injection E as <-; cbn [s_ph] in K; unfold set_ph in K;
        (destruct (Nat.eqb_spec k i) as [-> |_]; [|contradiction]); [discriminate|]. left. exists j. split; [reflexivity|]. split; [exact (nth_error_In _ _ EN)|].
      unfold accepts in EA. apply andb_false_iff in EA. destruct EA as [EA|EA]; [left; exact EA|right]. destruct (s_ph st j); discriminate || auto.
    + right. exists i. destruct (s_ph st i) eqn:EI, (s_ph st j) eqn:EJ; try discriminate;
        (destruct (existsb _ _) eqn:EX; [|discriminate]; injection E as <-; cbn [s_ph] in K; unfold set_ph in K; destruct (Nat.eqb_spec k j) as [-> |_]; [|contradiction];
         apply existsb_exists in EX; destruct EX as ((a & b) & HC & EQ); cbn [fst snd] in EQ; apply andb_true_iff in EQ; destruct EQ as (E1 & E2); apply Nat.eqb_eq in E1, E2; subst a b;
         repeat split; [exact (T _ _ HC)|exact HC]).
  - intros i j EI HC. destruct (pl_conns _ _ _ st I i j HC) as (_ & NO).
    assert (EX : existsb (fun c => (fst c =? i) && (snd c =? j)) (s_conns st) = true) by (apply existsb_exists; exists (i, j); cbn [fst snd]; rewrite !Nat.eqb_refl; auto).
    destruct (s_ph st j) eqn:EJ; [congruence|right..|left; reflexivity]; cbn [sstep]; rewrite EI, EJ, EX; eexists; (split; [reflexivity|]); cbn [s_ph]; (split; [apply set_same|intros; apply set_other; assumption]).
Qed.

(** *** Two committees and a client, with the flags t1, t2, t3 *)

(** The members of the new committee have to be started within t1 of each other, those of the old one within t2, every
    member of the new one less than t2 after every member of the old one, and every member of the old one less than t3 after
    the client. *)
Theorem c84_deployment : forall (n t1 t2 t3 : nat) (s : nat -> nat),
  (forall i j, n <= i < 2 * n -> n <= j < 2 * n -> s j < s i + t1) ->
  (forall i j, i < n -> j < 2 * n -> s j < s i + t2) ->
  (forall j, j < n -> s j < s (2 * n) + t3) ->
  forall evs st, follows (deployment n t1 t2 t3) (seq 0 (2 * n + 1)) s s_init evs st ->
  (forall i, s_ph st i <> Ended) /\
  exists evs' st', follows (deployment n t1 t2 t3) (seq 0 (2 * n + 1)) s st evs' st' /\
    forall i, i <= 2 * n -> running (deployment n t1 t2 t3) st' i.
Proof.
  intros n t1 t2 t3 s H1 H2 H3 evs st F.
  assert (E : early_enough (deployment n t1 t2 t3) (seq 0 (2 * n + 1)) s).
  { intros i j Hi Hj. apply in_seq in Hi. unfold deployment in Hj |- *. destruct (Nat.ltb_spec i n) as [LI|GI]; cbn [pr_targets pr_wait] in *.
    - rewrite <- seq_app in Hj. apply in_seq in Hj. split; [apply in_seq; lia|]. split; [|apply H2; lia].
      destruct (j <? n); [reflexivity|]. rewrite (proj2 (Nat.ltb_lt j (2 * n))) by lia. reflexivity.
    - destruct (Nat.ltb_spec i (2 * n)) as [LI2|GI2]; cbn [pr_targets pr_wait] in *; apply in_seq in Hj.
      + split; [apply in_seq; lia|]. split; [|apply H1; lia]. destruct (j <? n); [reflexivity|]. rewrite (proj2 (Nat.ltb_lt j (2 * n))) by lia. reflexivity.
      + split; [apply in_seq; lia|]. rewrite (proj2 (Nat.ltb_lt j n)) by lia. split; [reflexivity|]. replace i with (2 * n) by lia. apply H3. lia. }
  destruct (c84_safe _ _ _ E evs st F) as (A & evs' & st' & F' & R). split; [exact A|]. exists evs', st'. split; [exact F'|]. intros i Hi. apply R, in_seq. lia.
Qed.

(** One member of the new committee that is started t2 after a member of the old committee: that one ends, and so do all
    members of the old committee who were started after it, and the client if it comes later. *)
Theorem c84_deployment_late : forall (n t1 t2 t3 : nat) (s : nat -> nat) (i j : nat),
  i < n -> j < 2 * n -> s i + t2 < s j ->
  forall evs st, prompt (deployment n t1 t2 t3) (seq 0 (2 * n + 1)) s s_init evs st ->
  (s i + t2 < s_clock st -> s_ph st i = Ended) /\
  (forall k, k < n -> s i < s k -> s k + t2 < s_clock st -> s_ph st k = Ended) /\
  (s i + t2 < s (2 * n) + t3 -> s (2 * n) + t3 < s_clock st -> s_ph st (2 * n) = Ended).
Proof.
  intros n t1 t2 t3 s i j Hi Hj L evs st R.
  assert (PI : forall a, a < n -> deployment n t1 t2 t3 a = mkProc true t2 (seq 0 n ++ seq n n)) by (intros a Ha; unfold deployment; rewrite (proj2 (Nat.ltb_lt a n) Ha); reflexivity).
  assert (PC : deployment n t1 t2 t3 (2 * n) = mkProc false t3 (seq 0 n)) by (unfold deployment; rewrite (proj2 (Nat.ltb_ge (2 * n) n)), Nat.ltb_irrefl by lia; reflexivity).
  destruct (c84_late (deployment n t1 t2 t3) (seq 0 (2 * n + 1)) s i j) with (evs := evs) (st := st) as (A & B).
  - apply in_seq. lia.
  - rewrite PI by exact Hi. cbn [pr_targets]. rewrite <- seq_app. apply in_seq. lia.
  - rewrite PI by exact Hi. exact L.
  - exact R.
  - rewrite PI in A, B by exact Hi. cbn [pr_wait] in A, B. split; [exact A|]. split.
    + intros k Hk LK LT. apply (B k); [apply in_seq; lia| |rewrite PI by exact Hk; cbn [pr_wait]; lia|rewrite PI by exact Hk; exact LT].
      rewrite PI by exact Hk. cbn [pr_targets]. apply in_or_app. left. apply in_seq. lia.
    + intros LK LT. apply (B (2 * n)); [apply in_seq; lia| |rewrite PC; exact LK|rewrite PC; exact LT]. rewrite PC. apply in_seq. lia.
Qed.

(** *** One committee handing over to itself *)

(** Everybody is started within less than t1 of each other: everybody runs.  Somebody is started more than t1 after the first
    one: the first one ends, and so do all that were started after it - the whole committee, if it was the only first one. *)
Theorem c84_one_committee : forall (n t1 : nat) (s : nat -> nat),
  ((forall i j, i < n -> j < n -> s j < s i + t1) ->
   forall evs st, follows (one_committee n t1) (seq 0 n) s s_init evs st ->
   (forall i, s_ph st i <> Ended) /\
   exists evs' st', follows (one_committee n t1) (seq 0 n) s st evs' st' /\ forall i, i < n -> running (one_committee n t1) st' i) /\
  (forall i j, i < n -> j < n -> s i + t1 < s j -> (forall k, k < n -> k <> i -> s i < s k) ->
   forall evs st, prompt (one_committee n t1) (seq 0 n) s s_init evs st -> (forall k, k < n -> s k + t1 < s_clock st) ->
   forall k, k < n -> s_ph st k = Ended).
Proof.
  intros n t1 s. split.
  - intros H evs st F. assert (E : early_enough (one_committee n t1) (seq 0 n) s).
    { intros i j Hi Hj. apply in_seq in Hi. cbn [one_committee pr_targets pr_listens pr_wait] in *. assert (JN : j < n) by (apply in_app_or in Hj; destruct Hj as [Hj|Hj]; apply in_seq in Hj; lia).
      split; [apply in_seq; lia|]. split; [reflexivity|]. apply H; lia. }
    destruct (c84_safe _ _ _ E evs st F) as (A & evs' & st' & F' & R). split; [exact A|]. exists evs', st'. split; [exact F'|]. intros i Hi. apply R, in_seq. lia.
  - intros i j Hi Hj L FI evs st R LT k Hk.
    assert (IN : forall a b, a < n -> In a (pr_targets (one_committee n t1 b))) by (intros a b Ha; apply in_or_app; left; apply in_seq; lia).
    destruct (c84_late (one_committee n t1) (seq 0 n) s i j) with (evs := evs) (st := st) as (A & B);
      [apply in_seq; lia|apply IN; exact Hj|exact L|exact R|]. cbn [one_committee pr_wait] in A, B.
    destruct (Nat.eq_dec k i) as [-> |N]; [exact (A (LT i Hi))|].
    apply (B k); [apply in_seq; lia|apply IN; exact Hi|pose proof (FI k Hk N); lia|exact (LT k Hk)].
Qed.

Print Assumptions c84_safe.
Print Assumptions c84_late.
Print Assumptions c84_ends.
Print Assumptions c84_deployment.
Print Assumptions c84_deployment_late.
Print Assumptions c84_one_committee.

(** *** Concrete cases *)

(** Runs with given scripts, checked by computation. *)
Fixpoint runs (P : nat -> proc) (ps : list nat) (s : nat -> nat) (st : sst) (evs : list sev) : option sst :=
  match evs with
  | [] => Some st
  | e :: r =>
    if match e with
       | Tick => forallb (fun i => (negb (s i =? s_clock st) || match s_ph st i with Off => false | _ => true end) &&
                                   match sstep P st (Wake i) with None => true | _ => false end &&
                                   match sstep P st (Dial i) with None => true | _ => false end) ps
       | Start i => existsb (Nat.eqb i) ps && (s i =? s_clock st)
       | _ => true
       end
    then match sstep P st e with Some st1 => runs P ps s st1 r | None => None end else None
  end.

Lemma runs_prompt P ps s evs : forall st st', runs P ps s st evs = Some st' -> prompt P ps s st evs st'.
Proof.
  induction evs as [|e r IH]; intros st st' H; cbn [runs] in H.
  - injection H as <-. constructor.
  - destruct (match e with Tick => _ | Start i => _ | _ => true end) eqn:C; [|discriminate]. destruct (sstep P st e) as [st1|] eqn:E; [|discriminate].
    apply (pt_cons _ _ _ st e st1); [| |exact E|exact (IH _ _ H)].
    + destruct e; cbn [on_time]; try exact Logic.I.
      * rewrite forallb_forall in C. intros i Hi HS. specialize (C i Hi). rewrite HS, Nat.eqb_refl in C. destruct (s_ph st i); [discriminate|congruence..].
      * apply andb_true_iff in C. destruct C as (C1 & C2). apply existsb_exists in C1. destruct C1 as (x & Hx & Ex). apply Nat.eqb_eq in Ex, C2. subst x. auto.
    + intros -> i Hi. rewrite forallb_forall in C. specialize (C i Hi). apply andb_true_iff in C. destruct C as (C & C3). apply andb_true_iff in C. destruct C as (_ & C2).
      destruct (sstep P st (Wake i)); [discriminate|]. destruct (sstep P st (Dial i)); [discriminate|]. auto.
Qed.

(** The default flags (main.go:28-30) and four members in each committee: started 0, 1, ..., 8 seconds after each other,
    the new committee first. *)
Example c84_deployment_example : let s := fun i => if i <? 4 then 4 + i else if i <? 8 then i - 4 else 8 in
  (forall i j, 4 <= i < 8 -> 4 <= j < 8 -> s j < s i + 10) /\ (forall i j, i < 4 -> j < 8 -> s j < s i + 15) /\ (forall j, j < 4 -> s j < s 8 + 20).
Proof.
  cbv zeta. split; [|split].
  - intros i j Hi Hj. rewrite !(proj2 (Nat.ltb_ge _ 4)), !(proj2 (Nat.ltb_lt _ 8)) by lia. lia.
  - intros i j Hi Hj. rewrite (proj2 (Nat.ltb_lt i 4)), (proj2 (Nat.ltb_lt j 8)) by lia. destruct (Nat.ltb_spec j 4); lia.
  - intros j Hj. rewrite (proj2 (Nat.ltb_lt j 4)) by lia. cbn. lia.
Qed.

(** A script and what holds at its end, by computation. *)
Lemma runs_ex P ps s evs (Q : sst -> bool) :
  match runs P ps s s_init evs with Some st => Q st | None => false end = true -> exists st, prompt P ps s s_init evs st /\ Q st = true.
Proof. destruct (runs P ps s s_init evs) as [st|] eqn:E; [|discriminate]. intros H. exists st. split; [exact (runs_prompt _ _ _ _ _ _ E)|exact H]. Qed.

(** Has the process ended; has it [k] connections. *)
Definition ended (st : sst) (i : nat) : bool := match s_ph st i with Ended => true | _ => false end.
Definition connected (st : sst) (i k : nat) : bool := match s_ph st i with Dialling m => m =? k | _ => false end.

(** Two members and t1 = 1: the second is started two seconds after the first; both end. *)
Example c84_one_committee_example : exists st,
  prompt (one_committee 2 1) (seq 0 2) (fun i => 2 * i) s_init
    [Start 0; Tick; Wake 0; Dial 0; Dial 0; Tick; Start 1; Tick; Wake 1; Dial 1; Tick] st /\
  ((s_clock st =? 4) && ended st 0 && ended st 1) = true.
Proof. apply (runs_ex _ _ _ _ (fun st => (s_clock st =? 4) && ended st 0 && ended st 1)). vm_compute. reflexivity. Qed.

(** Started at the same time, both run. *)
Example c84_one_committee_runs : exists st,
  prompt (one_committee 2 1) (seq 0 2) (fun _ => 0) s_init
    [Start 0; Start 1; Tick; Wake 0; Dial 0; Dial 0; Wake 1; Dial 1; Dial 0; Dial 1; Dial 0; Dial 1; Dial 1; Tick] st /\
  (connected st 0 4 && connected st 1 4) = true.
Proof. apply (runs_ex _ _ _ _ (fun st => connected st 0 4 && connected st 1 4)). vm_compute. reflexivity. Qed.

(** A member of the old committee and the client started 16 seconds before the member of the new one, with the default
    flags: both end. *)
Example c84_late_example : exists st,
  prompt (deployment 1 10 15 20) (seq 0 3) (fun i => if i =? 1 then 16 else 0) s_init
    ([Start 0; Start 2] ++ repeat Tick 15 ++ [Wake 0; Dial 0; Dial 0; Tick; Start 1] ++ repeat Tick 4 ++ [Wake 2; Dial 2; Tick]) st /\
  (ended st 0 && ended st 2) = true.
Proof. apply (runs_ex _ _ _ _ (fun st => ended st 0 && ended st 2)). vm_compute. reflexivity. Qed.

(** The member that could not connect to the second one (started too late) had connected to the third one before, which ends
    with it. *)
Example c84_ends_example : exists st,
  prompt (fun i => mkProc true 1 [2; 1]) (seq 0 3) (fun i => if i =? 1 then 3 else 0) s_init
    [Start 0; Start 2; Tick; Wake 0; Dial 0; Dial 0; Break 0 2] st /\
  (ended st 0 && ended st 2) = true.
Proof. apply (runs_ex _ _ _ _ (fun st => ended st 0 && ended st 2)). vm_compute. reflexivity. Qed.
