(** Echo messages of one member stop a broadcast at another one for good (C71). *)

Require Import ZArith List Bool Arith Lia.
From Verif Require Import Bytes CodecModel GoBase DispatchModel DispatchProofs VssModel RbcModel RbcProofs.
Import ListNotations.

Section Flood.
Variable sha : list Z -> list Z.
Variable rs_encode : nat -> nat -> list Z -> option (list (list Z)).
Variable rs_verify : nat -> nat -> list (list Z) -> bool.
Variable rs_reconstruct : nat -> nat -> list (list Z) -> list (list Z).
Variables N F : nat.
Local Notation step := (rstep sha rs_encode rs_verify rs_reconstruct N F).

(** [st'] comes after [st] at one member: any messages from anyone, any order of its goroutines. *)
Inductive later (st : rst) : rst -> Prop :=
| later_refl : later st st
| later_step st' e st2 outs : later st st' -> step st' e = Ret (Some (st2, outs)) -> later st st2.

(** The member takes Echo messages (of one claimed sender) and does nothing else. *)
Inductive echoes (s : Z) (st : rst) : rst -> list hm -> Prop :=
| echoes_nil : echoes s st st []
| echoes_take st' st2 outs xs x : echoes s st st' xs -> step st' (EvEcho s x) = Ret (Some (st2, outs)) -> echoes s st st2 (xs ++ [x])
| echoes_check st' st2 outs xs : echoes s st st' xs -> step st' EvEchoCheck = Ret (Some (st2, outs)) -> echoes s st st2 xs.

(** The member has not announced readiness and is not about to decode. *)
Definition before_ready (st : rst) : Prop :=
  r_eph st = ERecv /\ r_rph st = RRecv /\ r_sent st = false /\ r_start st = false /\ r_out st = None.

Definition stuck (st : rst) : Prop :=
  (exists x, r_eph st = EPush x) /\ (N <= length (r_chan st))%nat /\ r_rph st = RRecv /\ r_start st = false /\ r_out st = None.

Lemma stuck_step st e st' outs : stuck st -> step st e = Ret (Some (st', outs)) -> stuck st'.
Proof.
  intros ((x & E) & L & R & S & O) X. destruct e; cbn [rstep] in X.
  - unfold propose_step in X. destruct (r_prop st); [discriminate|]. destruct (rs_encode N F M); [|discriminate].
    destruct (gomap _ _) as [o| | |]; cbn [bind] in X; try discriminate. injection X as <- <-. unfold stuck; cbn. eauto 10.
  - unfold echo_step in X. rewrite E in X. discriminate.
  - unfold push_step in X. rewrite E in X. destruct (Nat.ltb_spec (length (r_chan st)) N); [lia|discriminate].
  - unfold check_step in X. rewrite E in X. discriminate.
  - unfold ready_step in X. rewrite E in X. destruct (r_rph st); discriminate.
  - unfold pop_step in X. rewrite R in X. discriminate.
  - unfold send_step in X. rewrite R in X. discriminate.
  - unfold decode_step in X. rewrite O, R, S in X. discriminate.
Qed.

Lemma stuck_later st st' : stuck st -> later st st' -> stuck st'.
Proof. intros S. induction 1 as [|st' e st2 outs L IH X]; [exact S|]. apply (stuck_step st' e st2 outs IH X). Qed.

(** A hash that has not been counted yet. *)
Lemma fresh_key (m : list (list Z * list (list Z * nat))) : exists h, lookup h m = None.
Proof.
  assert (B : exists n, forall k v, In (k, v) m -> (length k < n)%nat).
  { induction m as [|(k, v) m (n & IH)]; [exists 0%nat; intros ? ? []|]. exists (n + S (length k))%nat.
    intros a b [E|I]; [injection E as <- <-; lia|specialize (IH a b I); lia]. }
  destruct B as (n & B). exists (repeat 0%Z n).
  assert (G : forall m', incl m' m -> lookup (repeat 0%Z n) m' = None); [|apply G; intros a I; exact I].
  induction m' as [|(k, v) m' IH]; intros I; cbn [lookup]; [reflexivity|].
  destruct (bytes_eqb _ _) eqn:E; [|apply IH; intros a Ia; apply I; right; exact Ia].
  exfalso. apply bytes_eqb_eq in E. specialize (B k v (I _ (or_introl eq_refl))). subst k. rewrite repeat_length in B. lia.
Qed.

Hypothesis HN : (2 * F + 2 <= N)%nat.

(** c further messages that stay below F+1. *)
Lemma below s st x c : before_ready st -> (count (r_echo st) x + c <= F)%nat ->
  exists st', echoes s st st' (repeat x c) /\ before_ready st' /\ r_chan st' = r_chan st /\ count (r_echo st') x = (count (r_echo st) x + c)%nat.
Proof.
  induction c as [|c IH]; intros P L.
  - exists st. cbn [repeat]. split; [apply echoes_nil|]. split; [exact P|]. split; [reflexivity|lia].
  - destruct (IH P ltac:(lia)) as (st1 & E1 & (p1 & p2 & p3 & p4 & p5) & C1 & K1).
    assert (KX : count (count_echo (r_echo st1) x) x = (count (r_echo st) x + c + 1)%nat) by (rewrite count_echo_same; lia).
    eexists. replace (repeat x (S c)) with (repeat x c ++ [x]) by (rewrite <- repeat_cons; reflexivity). split; [|split; [|split]].
    + eapply echoes_check; [eapply echoes_take; [exact E1|]|].
      * cbn [rstep]. unfold echo_step. rewrite p1. cbv zeta. rewrite KX, p3. cbn [negb andb orb].
        destruct (Nat.leb_spec (N - F) (count (r_echo st) x + c + 1)); [lia|]. destruct (Nat.leb_spec (F + 1) (count (r_echo st) x + c + 1)); [lia|]. cbn [andb]. reflexivity.
      * cbn [rstep]. unfold check_step. cbn [r_eph r_sent r_chan]. reflexivity.
    + unfold before_ready, set_echo. cbn. auto.
    + unfold set_echo. cbn. exact C1.
    + unfold set_echo. cbn [r_echo]. rewrite KX. lia.
Qed.

Lemma echoes_app s st st1 st2 xs ys : echoes s st st1 xs -> echoes s st1 st2 ys -> echoes s st st2 (xs ++ ys).
Proof.
  intros A. induction 1 as [|st' st2 outs ys y B IH X|st' st2 outs ys B IH X]; [rewrite app_nil_r; exact A| |].
  - rewrite app_assoc. eapply echoes_take; eauto.
  - eapply echoes_check; eauto.
Qed.

(** F+1 messages with a new hash occupy one place of the channel, or, when it is full, block the member. *)
Lemma one_more s st : before_ready st -> exists st' xs, echoes s st st' xs /\ length xs = (F + 1)%nat /\
  (before_ready st' /\ length (r_chan st') = S (length (r_chan st)) /\ (length (r_chan st) < N)%nat \/ stuck st' /\ (N <= length (r_chan st))%nat).
Proof.
  intros P. destruct (fresh_key (r_echo st)) as (h & Hh). set (x := (h, [] : list Z)).
  assert (C0 : count (r_echo st) x = 0%nat) by (unfold count, x; cbn [fst]; rewrite Hh; reflexivity).
  destruct (below s st x F P ltac:(lia)) as (st1 & E1 & (p1 & p2 & p3 & p4 & p5) & C1 & K1). rewrite C0 in K1. cbn [Nat.add] in K1.
  assert (KX : count (count_echo (r_echo st1) x) x = (F + 1)%nat) by (rewrite count_echo_same; lia).
  destruct (Nat.ltb_spec (length (r_chan st)) N) as [LT|GE].
  - eexists. exists (repeat x F ++ [x]). split; [|split; [rewrite app_length, repeat_length; reflexivity|left; split; [|split; [|exact LT]]]].
    + eapply echoes_check; [eapply echoes_take; [exact E1|]|].
      * cbn [rstep]. unfold echo_step. rewrite p1. cbv zeta. rewrite KX, p3, C1. cbn [negb andb orb].
        destruct (Nat.leb_spec (N - F) (F + 1)); [lia|]. rewrite Nat.leb_refl. destruct (Nat.ltb_spec (length (r_chan st)) N); [|lia]. cbn [andb negb]. reflexivity.
      * cbn [rstep]. unfold check_step. cbn [r_eph r_sent r_chan]. reflexivity.
    + unfold before_ready, set_echo. cbn. auto.
    + unfold set_echo. cbn [r_chan]. rewrite app_length. cbn [length]. lia.
  - eexists. exists (repeat x F ++ [x]). split; [|split; [rewrite app_length, repeat_length; reflexivity|right; split; [|exact GE]]].
    + eapply echoes_take; [exact E1|]. cbn [rstep]. unfold echo_step. rewrite p1. cbv zeta. rewrite KX, p3, C1. cbn [negb andb orb].
      destruct (Nat.leb_spec (N - F) (F + 1)); [lia|]. rewrite Nat.leb_refl. destruct (Nat.ltb_spec (length (r_chan st)) N); [lia|]. cbn [andb negb]. reflexivity.
    + unfold stuck. cbn. eauto 10.
Qed.

(** (N+1)(F+1) Echo messages of one sender, and nothing else, are enough at any time before the
    member announces readiness: whatever arrives afterwards, the broadcast returns nothing. *)
Theorem c71_flood_refuted s st : before_ready st -> (length (r_chan st) <= N)%nat ->
  exists xs st1, echoes s st st1 xs /\ (length xs <= (N + 1) * (F + 1))%nat /\
    forall st2, later st1 st2 -> r_out st2 = None /\ forall e st3 outs, step st2 e = Ret (Some (st3, outs)) -> exists k M, e = EvPropose k M.
Proof.
  intros P L.
  assert (G : forall d st, (N - length (r_chan st))%nat = d -> before_ready st -> (length (r_chan st) <= N)%nat ->
            exists xs st1, echoes s st st1 xs /\ (length xs <= (d + 1) * (F + 1))%nat /\ stuck st1).
  { clear st P L. induction d as [|d IH]; intros st D P L; destruct (one_more s st P) as (st' & xs & E & LX & [(P' & C' & LT)|(S' & GE)]); try lia.
    - exists xs, st'. split; [exact E|]. split; [lia|exact S'].
    - destruct (IH st' ltac:(lia) P' ltac:(lia)) as (ys & st1 & E2 & LY & S1). exists (xs ++ ys), st1.
      split; [exact (echoes_app s st st' st1 xs ys E E2)|]. split; [rewrite app_length; lia|exact S1]. }
  destruct (G _ st eq_refl P L) as (xs & st1 & E & LX & S1). exists xs, st1. split; [exact E|]. split.
  - assert (N - length (r_chan st) <= N)%nat by lia. nia.
  - intros st2 A. pose proof (stuck_later st1 st2 S1 A) as S2. split; [apply S2|].
    intros e st3 outs X. destruct S2 as ((x & E2) & L2 & R & SS & O). destruct e; try (eauto; fail); exfalso; cbn [rstep] in X.
    + unfold echo_step in X. rewrite E2 in X. discriminate.
    + unfold push_step in X. rewrite E2 in X. destruct (Nat.ltb_spec (length (r_chan st2)) N); [lia|discriminate].
    + unfold check_step in X. rewrite E2 in X. discriminate.
    + unfold ready_step in X. rewrite E2 in X. destruct (r_rph st2); discriminate.
    + unfold pop_step in X. rewrite R in X. discriminate.
    + unfold send_step in X. rewrite R in X. discriminate.
    + unfold decode_step in X. rewrite O, R, SS in X. discriminate.
Qed.
End Flood.
Print Assumptions c71_flood_refuted.

(** At the start of a broadcast in a committee of four. *)
Example c71_flood_ex sha en ve re s : exists xs st1, echoes sha en ve re 4 1 s rbc_init st1 xs /\ (length xs <= 10)%nat /\
  forall st2, later sha en ve re 4 1 st1 st2 -> r_out st2 = None.
Proof.
  destruct (c71_flood_refuted sha en ve re 4 1 ltac:(lia) s rbc_init) as (xs & st1 & E & L & A); [repeat split|cbn; lia|].
  exists xs, st1. split; [exact E|]. split; [exact L|]. intros st2 B. apply (A st2 B).
Qed.
