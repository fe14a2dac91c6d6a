(** Proofs about the start of the processes (C84). *)

Require Import List Arith Bool Lia.
From Verif Require Import StartModel StartSpec.
Import ListNotations.

Lemma set_same f i x : set_ph f i x i = x.
Proof. unfold set_ph. rewrite Nat.eqb_refl. reflexivity. Qed.
Lemma set_other f i x j : j <> i -> set_ph f i x j = f j.
Proof. intros H. unfold set_ph. rewrite (proj2 (Nat.eqb_neq _ _) H). reflexivity. Qed.

Section Plan.
Variables (P : nat -> proc) (ps : list nat) (s : nat -> nat).

(** Holds in every run that follows the plan. *)
Record planned (st : sst) : Prop := {
  pl_off : forall i, In i ps -> s i < s_clock st -> s_ph st i <> Off;
  pl_on : forall i, s_ph st i <> Off -> In i ps /\ s i <= s_clock st;
  pl_sleep : forall i t, s_ph st i = Sleeping t -> t = s i;
  pl_dial : forall i k, s_ph st i = Dialling k -> s i + pr_wait (P i) <= s_clock st /\ k <= length (pr_targets (P i)) /\
    forall m j, m < k -> nth_error (pr_targets (P i)) m = Some j -> In (i, j) (s_conns st);
  pl_conns : forall i j, In (i, j) (s_conns st) -> s_ph st i <> Off /\ s_ph st j <> Off }.

Lemma planned_init : planned s_init.
Proof.
  split; cbn [s_init s_clock s_ph s_conns].
  - intros i _ H. lia.
  - intros i H. destruct H. reflexivity.
  - intros i t H. discriminate.
  - intros i k H. discriminate.
  - intros i j [].
Qed.

Lemma planned_step st e st' : planned st -> on_time ps s st e -> sstep P st e = Some st' -> planned st'.
Proof.
  intros I O E. destruct e as [|i|i|i|i j]; cbn [sstep on_time] in *.
  - injection E as <-. split; cbn [s_clock s_ph s_conns].
    + intros i Hi H. destruct (Nat.eq_dec (s i) (s_clock st)) as [Q|Q]; [apply O; assumption|]. apply (pl_off st I); [assumption|lia].
    + intros i H. destruct (pl_on st I i H). split; [assumption|lia].
    + apply (pl_sleep st I).
    + intros i k H. destruct (pl_dial st I i k H) as (A & B & C). split; [lia|auto].
    + apply (pl_conns st I).
  - destruct (s_ph st i) eqn:EP; try discriminate. injection E as <-. destruct O as (Oi & Os). split; cbn [s_clock s_ph s_conns].
    + intros j Hj H. destruct (Nat.eq_dec j i) as [-> |N]; [rewrite set_same; discriminate|rewrite set_other by exact N; apply (pl_off st I); assumption].
    + intros j H. destruct (Nat.eq_dec j i) as [-> |N]; [split; [assumption|lia]|rewrite set_other in H by exact N; apply (pl_on st I); assumption].
    + intros j t H. destruct (Nat.eq_dec j i) as [-> |N]; [rewrite set_same in H; injection H as <-; auto|rewrite set_other in H by exact N; apply (pl_sleep st I); assumption].
    + intros j k H. destruct (Nat.eq_dec j i) as [-> |N]; [rewrite set_same in H; discriminate|rewrite set_other in H by exact N; apply (pl_dial st I); assumption].
    + intros a b H. destruct (pl_conns st I a b H) as (A & B). split; unfold set_ph; destruct (_ =? _); congruence.
  - destruct (s_ph st i) as [|t|k|] eqn:EP; try discriminate. destruct (Nat.leb_spec (t + pr_wait (P i)) (s_clock st)) as [L|L]; [|discriminate].
    injection E as <-. pose proof (pl_sleep st I i t EP) as ->. destruct (pl_on st I i ltac:(congruence)) as (Hi & Hs). split; cbn [s_clock s_ph s_conns].
    + intros j Hj H. destruct (Nat.eq_dec j i) as [-> |N]; [rewrite set_same; discriminate|rewrite set_other by exact N; apply (pl_off st I); assumption].
    + intros j H. destruct (Nat.eq_dec j i) as [-> |N]; [auto|rewrite set_other in H by exact N; apply (pl_on st I); assumption].
    + intros j t H. destruct (Nat.eq_dec j i) as [-> |N]; [rewrite set_same in H; discriminate|rewrite set_other in H by exact N; apply (pl_sleep st I); assumption].
    + intros j k H. destruct (Nat.eq_dec j i) as [-> |N]; [rewrite set_same in H; injection H as <-; split; [exact L|split; [lia|intros; lia]]|rewrite set_other in H by exact N; apply (pl_dial st I); assumption].
    + intros a b H. destruct (pl_conns st I a b H) as (A & B). split; unfold set_ph; destruct (_ =? _); congruence.
  - destruct (s_ph st i) as [|t|k|] eqn:EP; try discriminate. destruct (nth_error (pr_targets (P i)) k) as [j|] eqn:EN; [|discriminate].
    destruct (pl_on st I i ltac:(congruence)) as (Hi & Hs). destruct (pl_dial st I i k EP) as (D1 & D2 & D3).
    assert (LK : k < length (pr_targets (P i))) by (apply nth_error_Some; congruence).
    destruct (accepts P st j) eqn:EA; injection E as <-; split; cbn [s_clock s_ph s_conns].
    + intros a Ha H. destruct (Nat.eq_dec a i) as [-> |N]; [rewrite set_same; discriminate|rewrite set_other by exact N; apply (pl_off st I); assumption].
    + intros a H. destruct (Nat.eq_dec a i) as [-> |N]; [auto|rewrite set_other in H by exact N; apply (pl_on st I); assumption].
    + intros a t H. destruct (Nat.eq_dec a i) as [-> |N]; [rewrite set_same in H; discriminate|rewrite set_other in H by exact N; apply (pl_sleep st I); assumption].
    + intros a k' H. destruct (Nat.eq_dec a i) as [-> |N].
      * rewrite set_same in H. injection H as <-. split; [exact D1|]. split; [lia|]. intros m b Hm Hb. apply in_or_app.
        destruct (Nat.eq_dec m k) as [-> |NM]; [right; left; congruence|left; apply (D3 m); [lia|exact Hb]].
      * rewrite set_other in H by exact N. destruct (pl_dial st I a k' H) as (A & B & C). split; [exact A|]. split; [exact B|]. intros m b Hm Hb. apply in_or_app. left. exact (C m b Hm Hb).
    + intros a b H. assert (Q : s_ph st a <> Off /\ s_ph st b <> Off).
      { apply in_app_or in H. destruct H as [H|[H|[]]]; [exact (pl_conns st I a b H)|]. injection H as <- <-. split; [congruence|].
        unfold accepts in EA. apply andb_true_iff in EA. destruct EA as (_ & EA). intros Z. rewrite Z in EA. discriminate. }
      destruct Q as (A & B). split; unfold set_ph; destruct (_ =? _); congruence.
    + intros a Ha H. destruct (Nat.eq_dec a i) as [-> |N]; [rewrite set_same; discriminate|rewrite set_other by exact N; apply (pl_off st I); assumption].
    + intros a H. destruct (Nat.eq_dec a i) as [-> |N]; [auto|rewrite set_other in H by exact N; apply (pl_on st I); assumption].
    + intros a t H. destruct (Nat.eq_dec a i) as [-> |N]; [rewrite set_same in H; discriminate|rewrite set_other in H by exact N; apply (pl_sleep st I); assumption].
    + intros a k' H. destruct (Nat.eq_dec a i) as [-> |N]; [rewrite set_same in H; discriminate|rewrite set_other in H by exact N; apply (pl_dial st I); assumption].
    + intros a b H. destruct (pl_conns st I a b H) as (A & B). split; unfold set_ph; destruct (_ =? _); congruence.
  - assert (E' : s_ph st i = Ended /\ s_ph st j <> Off /\ st' = mkSst (s_clock st) (set_ph (s_ph st) j Ended) (s_conns st)).
    { destruct (s_ph st i), (s_ph st j); try discriminate; (destruct (existsb _ _); [|discriminate]; injection E as <-; repeat split; congruence). }
    destruct E' as (_ & NJ & ->). destruct (pl_on st I j NJ) as (Hj & Hs). split; cbn [s_clock s_ph s_conns].
    + intros a Ha H. destruct (Nat.eq_dec a j) as [-> |N]; [rewrite set_same; discriminate|rewrite set_other by exact N; apply (pl_off st I); assumption].
    + intros a H. destruct (Nat.eq_dec a j) as [-> |N]; [auto|rewrite set_other in H by exact N; apply (pl_on st I); assumption].
    + intros a t H. destruct (Nat.eq_dec a j) as [-> |N]; [rewrite set_same in H; discriminate|rewrite set_other in H by exact N; apply (pl_sleep st I); assumption].
    + intros a k' H. destruct (Nat.eq_dec a j) as [-> |N]; [rewrite set_same in H; discriminate|rewrite set_other in H by exact N; apply (pl_dial st I); assumption].
    + intros a b H. destruct (pl_conns st I a b H) as (A & B). split; unfold set_ph; destruct (_ =? _); congruence.
Qed.

Lemma follows_planned st evs st' : follows P ps s st evs st' -> planned st -> planned st'.
Proof. induction 1 as [|st e st1 evs st2 O E F IH]; intros I; [exact I|]. apply IH. exact (planned_step _ _ _ I O E). Qed.

Lemma prompt_follows st evs st' : prompt P ps s st evs st' -> follows P ps s st evs st'.
Proof. induction 1; econstructor; eassumption. Qed.

Lemma follows_app st evs st1 evs2 st2 : follows P ps s st evs st1 -> follows P ps s st1 evs2 st2 -> follows P ps s st (evs ++ evs2) st2.
Proof. induction 1; intros H2; [exact H2|]. econstructor; eauto. Qed.

(** *** Started early enough *)

Hypothesis early : early_enough P ps s.

Definition alive (st : sst) : Prop := planned st /\ forall i, s_ph st i <> Ended.

Lemma accepted st i k j : alive st -> s_ph st i = Dialling k -> nth_error (pr_targets (P i)) k = Some j -> accepts P st j = true.
Proof.
  intros (I & L) EP EN. destruct (pl_on st I i ltac:(congruence)) as (Hi & _). destruct (pl_dial st I i k EP) as (D & _).
  destruct (early i j Hi (nth_error_In _ _ EN)) as (Hj & LJ & SJ). pose proof (pl_off st I j Hj ltac:(lia)) as NO. specialize (L j).
  unfold accepts. rewrite LJ. destruct (s_ph st j); congruence || reflexivity.
Qed.

Lemma alive_step st e st' : alive st -> on_time ps s st e -> sstep P st e = Some st' -> alive st'.
Proof.
  intros A O E. split; [exact (planned_step _ _ _ (proj1 A) O E)|]. destruct A as (I & L).
  destruct e as [|i|i|i|i j]; cbn [sstep] in E.
  - injection E as <-. exact L.
  - destruct (s_ph st i) eqn:EP; try discriminate. injection E as <-. cbn [s_ph]. intros a. unfold set_ph. destruct (_ =? _); [discriminate|apply L].
  - destruct (s_ph st i) eqn:EP; try discriminate. destruct (_ <=? _); [|discriminate]. injection E as <-. cbn [s_ph]. intros a. unfold set_ph. destruct (_ =? _); [discriminate|apply L].
  - destruct (s_ph st i) as [|t|k|] eqn:EP; try discriminate. destruct (nth_error (pr_targets (P i)) k) as [j|] eqn:EN; [|discriminate].
    rewrite (accepted st i k j (conj I L) EP EN) in E. injection E as <-. cbn [s_ph]. intros a. unfold set_ph. destruct (_ =? _); [discriminate|apply L].
  - specialize (L i). destruct (s_ph st i); congruence || discriminate.
Qed.

Lemma follows_alive st evs st' : follows P ps s st evs st' -> alive st -> alive st'.
Proof. induction 1 as [|st e st1 evs st2 O E F IH]; intros I; [exact I|]. apply IH. exact (alive_step _ _ _ I O E). Qed.

Lemma alive_init : alive s_init.
Proof. split; [apply planned_init|]. intros i. discriminate. Qed.

Lemma dialled_all st i : planned st -> s_ph st i = Dialling (length (pr_targets (P i))) -> running P st i.
Proof.
  intros I EP. split; [exact EP|]. intros j Hj. apply In_nth_error in Hj. destruct Hj as (m & Hm).
  destruct (pl_dial st I i _ EP) as (_ & _ & D). apply (D m); [|exact Hm]. apply nth_error_Some. congruence.
Qed.

(** *** How much is left to do *)

Definition left (st : sst) (i : nat) : nat :=
  match s_ph st i with
  | Off => length (pr_targets (P i)) + 2
  | Sleeping _ => length (pr_targets (P i)) + 1
  | Dialling k => length (pr_targets (P i)) - k
  | Ended => 0
  end.

Definition lefts (st : sst) (l : list nat) : nat := fold_right (fun i n => left st i + n) 0 l.

Definition horizon (l : list nat) : nat := fold_right (fun i n => Nat.max (s i + pr_wait (P i)) n) 0 l.

Lemma horizon_le l i : In i l -> s i + pr_wait (P i) <= horizon l.
Proof.
  induction l as [|a l IH]; intros H; [destruct H|]. cbn [horizon fold_right]. destruct H as [-> |H]; [lia|].
  specialize (IH H). unfold horizon in IH. lia.
Qed.

Lemma lefts_le st st' l : (forall i, In i l -> left st' i <= left st i) -> lefts st' l <= lefts st l.
Proof. induction l as [|a l IH]; intros H; cbn [lefts fold_right]; [lia|]. pose proof (H a (or_introl eq_refl)). specialize (IH (fun i Hi => H i (or_intror Hi))). unfold lefts in IH. lia. Qed.

Lemma lefts_lt st st' l i : In i l -> left st' i < left st i -> (forall j, In j l -> left st' j <= left st j) -> lefts st' l < lefts st l.
Proof.
  induction l as [|a l IH]; intros Hi L H; [destruct Hi|]. cbn [lefts fold_right]. pose proof (H a (or_introl eq_refl)) as HA.
  pose proof (lefts_le st st' l (fun i Hi => H i (or_intror Hi))) as HL. unfold lefts in *. destruct Hi as [-> |Hi]; [lia|].
  specialize (IH Hi L (fun i Hi => H i (or_intror Hi))). lia.
Qed.

Definition todo (st : sst) : nat := (horizon ps - s_clock st) + lefts st ps.

Lemma left_set st i x j : left (mkSst (s_clock st) (set_ph (s_ph st) i x) (s_conns st)) j =
  if j =? i then match x with Off => length (pr_targets (P j)) + 2 | Sleeping _ => length (pr_targets (P j)) + 1 | Dialling k => length (pr_targets (P j)) - k | Ended => 0 end else left st j.
Proof. unfold left. cbn [s_ph]. unfold set_ph. destruct (j =? i); reflexivity. Qed.

Lemma advance st : alive st -> (forall i, In i ps -> s_ph st i = Dialling (length (pr_targets (P i)))) \/
  exists e st', on_time ps s st e /\ sstep P st e = Some st' /\ todo st' < todo st.
Proof.
  intros (I & L).
  destruct (Exists_dec (fun i => s_ph st i = Off /\ s i = s_clock st) ps) as [X|X].
  { intros i. destruct (s_ph st i); [|right; intros (? & _); discriminate..]. destruct (Nat.eq_dec (s i) (s_clock st)); [left; auto|right; intros (_ & ?); auto]. }
  { apply Exists_exists in X. destruct X as (i & Hi & EP & ES). right. exists (Start i). eexists. split; [split; assumption|]. cbn [sstep]. rewrite EP. split; [reflexivity|].
    unfold todo. cbn [s_clock]. apply Nat.add_lt_mono_l. apply (lefts_lt _ _ ps i Hi).
    - rewrite left_set, Nat.eqb_refl. unfold left. rewrite EP. lia.
    - intros j _. rewrite left_set. destruct (Nat.eqb_spec j i) as [-> |_]; [unfold left; rewrite EP; lia|lia]. }
  destruct (Nat.lt_ge_cases (s_clock st) (horizon ps)) as [LH|GH].
  { right. exists Tick. eexists. split.
    - cbn [on_time]. intros i Hi ES EO. apply X. apply Exists_exists. exists i. auto.
    - cbn [sstep]. split; [reflexivity|]. unfold todo. cbn [s_clock]. assert (lefts (mkSst (s_clock st + 1) (s_ph st) (s_conns st)) ps <= lefts st ps) by (apply lefts_le; intros; unfold left; cbn [s_ph]; lia). lia. }
  assert (NO : forall i, In i ps -> s_ph st i <> Off).
  { intros i Hi EO. pose proof (horizon_le ps i Hi). destruct (Nat.eq_dec (s i) (s_clock st)) as [Q|Q]; [apply X; apply Exists_exists; exists i; auto|]. exact (pl_off st I i Hi ltac:(lia) EO). }
  destruct (Exists_dec (fun i => s_ph st i <> Dialling (length (pr_targets (P i)))) ps) as [Y|Y].
  { intros i. destruct (s_ph st i) as [| |k|]; [left; discriminate|left; discriminate| |left; discriminate]. destruct (Nat.eq_dec k (length (pr_targets (P i)))); [right; intros N; apply N; congruence|left; congruence]. }
  2:{ left. intros i Hi. destruct (s_ph st i) as [| |k|] eqn:EP; try (exfalso; apply Y, Exists_exists; exists i; split; [exact Hi|congruence]).
      destruct (Nat.eq_dec k (length (pr_targets (P i)))) as [-> |N]; [reflexivity|]. exfalso. apply Y, Exists_exists. exists i. split; [exact Hi|congruence]. }
  apply Exists_exists in Y. destruct Y as (i & Hi & NR). right. destruct (s_ph st i) as [|t|k|] eqn:EP; [exfalso; exact (NO i Hi EP)| | |exfalso; exact (L i EP)].
  - exists (Wake i). eexists. split; [exact Logic.I|]. cbn [sstep]. rewrite EP. pose proof (pl_sleep st I i t EP) as ->. pose proof (horizon_le ps i Hi).
    rewrite (proj2 (Nat.leb_le _ _)) by lia. split; [reflexivity|]. unfold todo. cbn [s_clock]. apply Nat.add_lt_mono_l. apply (lefts_lt _ _ ps i Hi).
    + rewrite left_set, Nat.eqb_refl. unfold left. rewrite EP. lia.
    + intros j _. rewrite left_set. destruct (Nat.eqb_spec j i) as [-> |_]; [unfold left; rewrite EP; lia|lia].
  - destruct (pl_dial st I i k EP) as (_ & LK & _). assert (LK' : k < length (pr_targets (P i))) by (assert (k <> length (pr_targets (P i))) by congruence; lia).
    destruct (nth_error (pr_targets (P i)) k) as [j|] eqn:EN; [|apply nth_error_None in EN; lia].
    exists (Dial i). eexists. split; [exact Logic.I|]. cbn [sstep]. rewrite EP, EN, (accepted st i k j (conj I L) EP EN). split; [reflexivity|].
    unfold todo. cbn [s_clock]. apply Nat.add_lt_mono_l.
    assert (Q : forall a, left (mkSst (s_clock st) (set_ph (s_ph st) i (Dialling (k + 1))) (s_conns st ++ [(i, j)])) a = if a =? i then length (pr_targets (P a)) - (k + 1) else left st a).
    { intros a. unfold left. cbn [s_ph]. unfold set_ph. destruct (a =? i); reflexivity. }
    apply (lefts_lt _ _ ps i Hi).
    + rewrite Q, Nat.eqb_refl. unfold left. rewrite EP. lia.
    + intros a _. rewrite Q. destruct (Nat.eqb_spec a i) as [-> |_]; [unfold left; rewrite EP; lia|lia].
Qed.

Lemma completes n : forall st, todo st <= n -> alive st -> exists evs st', follows P ps s st evs st' /\ forall i, In i ps -> running P st' i.
Proof.
  induction n as [|n IH]; intros st HT A.
  - destruct (advance st A) as [D|(e & st1 & _ & _ & LT)]; [|lia]. exists [], st. split; [constructor|]. intros i Hi. apply dialled_all; [apply A|auto].
  - destruct (advance st A) as [D|(e & st1 & O & E & LT)].
    + exists [], st. split; [constructor|]. intros i Hi. apply dialled_all; [apply A|auto].
    + destruct (IH st1 ltac:(lia) (alive_step _ _ _ A O E)) as (evs & st2 & F & R). exists (e :: evs), st2. split; [econstructor; eassumption|exact R].
Qed.

End Plan.

(** *** Started too late *)

Section Late.
Variables (P : nat -> proc) (ps : list nat) (s : nat -> nat).

(** If a process never gets a connection to one of its targets, it has ended when the time of its sleep is over. *)
Lemma unlinked_ends k t st : In k ps -> In t (pr_targets (P k)) -> planned P ps s st -> ~ In (k, t) (s_conns st) ->
  (forall i, In i ps -> sstep P st (Wake i) = None /\ sstep P st (Dial i) = None) -> s_ph st k <> Off -> s_clock st = s k + pr_wait (P k) ->
  s_ph st k = Ended.
Proof.
  intros Hk Ht I NC Q NO EC. destruct (Q k Hk) as (QW & QD). cbn [sstep] in QW, QD. destruct (s_ph st k) as [|u|m|] eqn:EP; [congruence| | |reflexivity]; exfalso.
  - pose proof (pl_sleep _ _ _ st I k u EP) as ->. rewrite (proj2 (Nat.leb_le _ _)) in QW by lia. discriminate.
  - destruct (pl_dial _ _ _ st I k m EP) as (_ & LM & D). apply In_nth_error in Ht. destruct Ht as (x & Hx).
    destruct (Nat.lt_ge_cases x m) as [LX|GX]; [apply NC; exact (D x t LX Hx)|].
    destruct (nth_error (pr_targets (P k)) m) as [j|] eqn:EN; [destruct (accepts P st j); discriminate|].
    apply nth_error_None in EN. assert (x < length (pr_targets (P k))) by (apply nth_error_Some; congruence). lia.
Qed.

Lemma ended_stays st e st' k : sstep P st e = Some st' -> s_ph st k = Ended -> s_ph st' k = Ended.
Proof.
  intros E H. destruct e as [|i|i|i|i j]; cbn [sstep] in E.
  - injection E as <-. exact H.
  - destruct (s_ph st i) eqn:EP; try discriminate. injection E as <-. cbn [s_ph]. unfold set_ph. destruct (Nat.eqb_spec k i) as [-> |]; congruence.
  - destruct (s_ph st i) eqn:EP; try discriminate. destruct (_ <=? _); [|discriminate]. injection E as <-. cbn [s_ph]. unfold set_ph. destruct (Nat.eqb_spec k i) as [-> |]; congruence.
  - destruct (s_ph st i) as [| |m|] eqn:EP; try discriminate. destruct (nth_error _ m); [|discriminate]. destruct (accepts P st n); injection E as <-; cbn [s_ph]; unfold set_ph; destruct (Nat.eqb_spec k i) as [-> |]; congruence.
  - destruct (s_ph st i), (s_ph st j) eqn:EJ; try discriminate; (destruct (existsb _ _); [|discriminate]; injection E as <-; cbn [s_ph]; unfold set_ph; destruct (Nat.eqb_spec k j) as [-> |]; congruence).
Qed.

(** Connections are only made to processes that have not ended, by processes that have waited. *)
Lemma new_conn st e st' a b : sstep P st e = Some st' -> In (a, b) (s_conns st') ->
  In (a, b) (s_conns st) \/ (e = Dial a /\ s_ph st b <> Ended /\ s_ph st b <> Off /\ exists k, s_ph st a = Dialling k).
Proof.
  intros E H. destruct e as [|i|i|i|i j]; cbn [sstep] in E.
  - injection E as <-. left. exact H.
  - destruct (s_ph st i); try discriminate. injection E as <-. left. exact H.
  - destruct (s_ph st i); try discriminate. destruct (_ <=? _); [|discriminate]. injection E as <-. left. exact H.
  - destruct (s_ph st i) as [| |m|] eqn:EP; try discriminate. destruct (nth_error _ m) as [j|]; [|discriminate]. destruct (accepts P st j) eqn:EA; injection E as <-; [|left; exact H].
    cbn [s_conns] in H. apply in_app_or in H. destruct H as [H|[H|[]]]; [left; exact H|right]. injection H as <- <-. split; [reflexivity|].
    unfold accepts in EA. apply andb_true_iff in EA. destruct EA as (_ & EA). split; [|split; [|eauto]]; intros Z; rewrite Z in EA; discriminate.
  - destruct (s_ph st i), (s_ph st j); try discriminate; (destruct (existsb _ _); [|discriminate]; injection E as <-; left; exact H).
Qed.

Variables (i j : nat).
Hypothesis Hi : In i ps.
Hypothesis Hj : In j (pr_targets (P i)).
Hypothesis late : s i + pr_wait (P i) < s j.

(** The process i misses j, and ends. *)
Definition missed (st : sst) : Prop :=
  planned P ps s st /\ (s i + pr_wait (P i) < s_clock st -> s_ph st i = Ended).

Lemma missed_step st e st' : missed st -> on_time ps s st e ->
  (e = Tick -> forall i, In i ps -> sstep P st (Wake i) = None /\ sstep P st (Dial i) = None) -> sstep P st e = Some st' -> missed st'.
Proof.
  intros (I & M) O Q E. split; [exact (planned_step _ _ _ _ _ _ I O E)|]. intros LT.
  destruct (Nat.lt_ge_cases (s i + pr_wait (P i)) (s_clock st)) as [L|G]; [exact (ended_stays _ _ _ _ E (M L))|].
  assert (X : e = Tick \/ s_clock st' = s_clock st).
  { destruct e as [|a|a|a|a b]; [left; reflexivity|right..]; cbn [sstep] in E.
    - destruct (s_ph st a); try discriminate. injection E as <-. reflexivity.
    - destruct (s_ph st a); try discriminate. destruct (_ <=? _); [|discriminate]. injection E as <-. reflexivity.
    - destruct (s_ph st a) as [| |m|]; try discriminate. destruct (nth_error _ m) as [c|]; [|discriminate]. destruct (accepts P st c); injection E as <-; reflexivity.
    - destruct (s_ph st a), (s_ph st b); try discriminate; (destruct (existsb _ _); [|discriminate]; injection E as <-; reflexivity). }
  destruct X as [-> |X]; [|lia]. cbn [sstep] in E. injection E as <-. cbn [s_clock s_ph] in *. assert (EC : s_clock st = s i + pr_wait (P i)) by lia.
  apply (unlinked_ends i j st Hi Hj I); [|exact (Q eq_refl)| |exact EC].
  - intros C. destruct (pl_conns _ _ _ st I i j C) as (_ & NO). destruct (pl_on _ _ _ st I j NO) as (_ & LE). lia.
  - cbn [on_time] in O. destruct (Nat.eq_dec (s i) (s_clock st)) as [Z|Z]; [exact (O i Hi Z)|]. apply (pl_off _ _ _ st I i Hi). lia.
Qed.

(** A process that comes later and wants to connect to i ends as well. *)
Variable k : nat.
Hypothesis Hk : In k ps.
Hypothesis Hki : In i (pr_targets (P k)).
Hypothesis later : s i + pr_wait (P i) < s k + pr_wait (P k).

Definition missed2 (st : sst) : Prop :=
  missed st /\ ~ In (k, i) (s_conns st) /\ (s k + pr_wait (P k) < s_clock st -> s_ph st k = Ended).

Lemma missed2_step st e st' : missed2 st -> on_time ps s st e ->
  (e = Tick -> forall i, In i ps -> sstep P st (Wake i) = None /\ sstep P st (Dial i) = None) -> sstep P st e = Some st' -> missed2 st'.
Proof.
  intros (MI & NC & M) O Q E. pose proof (missed_step st e st' MI O Q E) as MI'. destruct MI as (I & MI).
  assert (NC' : ~ In (k, i) (s_conns st')).
  { intros C. destruct (new_conn _ _ _ _ _ E C) as [C'|(-> & NE & _ & m & EP)]; [exact (NC C')|]. destruct (pl_dial _ _ _ st I k m EP) as (W & _). apply NE, MI. lia. }
  split; [exact MI'|]. split; [exact NC'|]. intros LT.
  destruct (Nat.lt_ge_cases (s k + pr_wait (P k)) (s_clock st)) as [L|G]; [exact (ended_stays _ _ _ _ E (M L))|].
  assert (X : e = Tick \/ s_clock st' = s_clock st).
  { destruct e as [|a|a|a|a b]; [left; reflexivity|right..]; cbn [sstep] in E.
    - destruct (s_ph st a); try discriminate. injection E as <-. reflexivity.
    - destruct (s_ph st a); try discriminate. destruct (_ <=? _); [|discriminate]. injection E as <-. reflexivity.
    - destruct (s_ph st a) as [| |m|]; try discriminate. destruct (nth_error _ m) as [c|]; [|discriminate]. destruct (accepts P st c); injection E as <-; reflexivity.
    - destruct (s_ph st a), (s_ph st b); try discriminate; (destruct (existsb _ _); [|discriminate]; injection E as <-; reflexivity). }
  destruct X as [-> |X]; [|lia]. cbn [sstep] in E. injection E as <-. cbn [s_clock s_ph] in *. assert (EC : s_clock st = s k + pr_wait (P k)) by lia.
  apply (unlinked_ends k i st Hk Hki I); [exact NC|exact (Q eq_refl)| |exact EC].
  cbn [on_time] in O. destruct (Nat.eq_dec (s k) (s_clock st)) as [Z|Z]; [exact (O k Hk Z)|]. apply (pl_off _ _ _ st I k Hk). lia.
Qed.
End Late.
