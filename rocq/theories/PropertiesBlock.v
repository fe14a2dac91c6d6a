(** Forged first-stage values stop the agreement (C70). *)

Require Import ZArith List Bool Arith Lia.
From Verif Require Import Bytes CodecModel GoBase DispatchModel MvbaModel MvbaProofs MvbaLive.
Import ListNotations.

Section Block.
Variable H : list Z -> list Z.
Variable coin : list Z -> Z.
Variables N F : nat.
Variable ID : list Z.
Variable bad : list nat.
Variable vals : nat -> list Z.

Local Notation hon := (hon N bad).

(** Corrupted members contribute nothing to the coin; anything else that was signed may be delivered to
    anyone, any number of times, and Value messages of the first stage may come from anyone (pb.go:60). *)
Definition no_help (g : gstate) (i : nat) (e : mev) : Prop :=
  match e with EvDone _ (Sh k _) => hon k | _ => True end.

Local Notation Reach := (reach H coin N F ID bad vals no_help).

(** [g'] comes after [g] in an execution. *)
Inductive after (g : gstate) : gstate -> Prop :=
| after_refl : after g g
| after_step g' i e st sms : after g g' -> hon i -> allowed N F bad g' e -> no_help g' i e -> w32 (m_r (gs_m g' i)) ->
    mstep H coin N F ID (gs_m g' i) e = Ret (Some (st, sms)) -> after g (gs_next g' i st sms).

(** Member [i] has signed the hash of [x i] for the first stage of every instance of round 0. *)
Definition spoiled (x : nat -> list Z) (g : gstate) : Prop :=
  forall i j, hon i -> (j < N)%nat -> In (i, smEcho ID 0 j 1 (H (x i))) (gs_rel g).

Hypothesis HH : forall v, length (H v) = 64%nat.
Hypothesis HN : w32 N.
Hypothesis Hbad : (length bad <= F)%nat.
Hypothesis HNF : (N <= 3 * F + 1)%nat.

Definition uncert (g : gstate) : Prop := forall j h, (j < N)%nat -> length h = 64%nat -> ~ certified N F bad g (smEcho ID 0 j 1 h).

Record quiet (st : mst) : Prop := mkQ {
  z_r : m_r st = 0%nat; z_out : m_out st = None; z_halt : m_halt st = None;
  z_fin : d_finN (m_rounds st 0) = 0%nat; z_coins : d_coins (m_rounds st 0) = []; z_done : d_done (m_rounds st 0) = false;
  z_sent : d_doneSent (m_rounds st 0) = false; z_lead : d_lead (m_rounds st 0) = None; z_past : d_past (m_rounds st 0) = false }.

Lemma w32_0 : w32 0. Proof. unfold w32. lia. Qed.
Lemma w32_lt j : (j < N)%nat -> w32 j. Proof. unfold w32 in *. lia. Qed.

Lemma quiet_step g i e st sms : (1 <= F)%nat -> inv H N F ID bad g -> uncert g -> (forall k, hon k -> quiet (gs_m g k)) -> hon i -> allowed N F bad g e -> no_help g i e ->
  mstep H coin N F ID (gs_m g i) e = Ret (Some (st, sms)) -> quiet st.
Proof.
  intros HF I U Q Hi AL NH X. pose proof (Q i Hi) as [z1 z2 z3 z4 z5 z6 z7 z8 z9].
  assert (FR : forall r, r <> 0%nat -> m_rounds (gs_m g i) r = rnd0) by (intros r NZ; apply (v_fresh _ _ _ _ _ _ I); lia).
  assert (LN : forall r, d_lead (m_rounds (gs_m g i) r) = None) by (intros r; destruct (Nat.eq_dec r 0) as [->|NZ]; [exact z8|rewrite (FR r NZ); reflexivity]).
  assert (Q0 : quiet (gs_m g i)) by (apply Q; exact Hi).
  destruct e; cbn [mstep] in X.
  - unfold value_step in X. destruct (_ && _) eqn:E; [|discriminate]. rewrite !andb_true_iff, Nat.leb_le in E. assert (r = 0)%nat as -> by lia.
    destruct stage as [|[|[|]]]; try discriminate; [|destruct (vsig _ _); [|discriminate]]; injE X; constructor; assumption.
  - unfold finish_step in X. destruct (Nat.leb_spec r (m_r (gs_m g i))); [|discriminate]. assert (r = 0)%nat as -> by lia.
    destruct (_ && _) eqn:E; [|discriminate]. rewrite andb_true_iff, Z.leb_le, Z.ltb_lt in E. destruct (vsig _ _) eqn:VS; [|injE X; exact Q0]. exfalso.
    pose proof (vsig_known _ _ _ g _ _ VS AL) as C. assert (SN : (Z.to_nat s < N)%nat) by lia.
    destruct C as (L & ND & LL & ML). destruct (hon_in N F bad Hbad L ND) as (k & Ik & Hk); [intros a Ia; apply (ML a Ia)|lia|].
    apply (U (Z.to_nat s) (H v) SN (HH v)). apply (stage2_from H N F ID bad g k); auto using w32_0, w32_lt. apply (ML k Ik). exact Hk.
  - unfold election_step in X. destruct (Nat.eq_dec r 0) as [->|NZ]; [rewrite z6 in X|rewrite (FR r NZ) in X; cbn [rnd0 d_done] in X]; rewrite andb_false_r in X; discriminate.
  - unfold done_step in X. rewrite LN in X. destruct (Nat.leb_spec r (m_r (gs_m g i))); [|discriminate]. assert (r = 0)%nat as -> by lia.
    destruct (vshare _ _) eqn:VS; [|injE X; exact Q0]. exfalso. destruct (vshare_eq _ _ VS) as (k & ->). cbn [allowed known_share no_help] in *.
    destruct AL as (KN & AL). destruct (v_rel _ _ _ _ _ _ I _ _ (AL NH)) as (_ & kd & KO & E & J).
    assert (KO' : kok (KDone 0)) by exact w32_0.
    destruct (render_inj_any ID ID (KDone 0) kd KO' KO E) as (_ & <-). cbn [just] in J. rewrite (z_sent _ (Q k NH)) in J. discriminate.
  - unfold leader_step in X. rewrite z2, LN in X. discriminate.
  - unfold preVote_step in X. rewrite LN in X. discriminate.
  - unfold preVoteYes_step in X. rewrite LN in X. discriminate.
  - unfold preVoteNo_step in X. rewrite LN in X. discriminate.
  - unfold vote_step in X. rewrite LN in X. discriminate.
  - unfold voteYes_step in X. rewrite LN in X. discriminate.
  - unfold voteNo_step in X. rewrite LN in X. discriminate.
  - unfold halt_step in X. rewrite LN in X. discriminate.
  - unfold haltTake_step in X. rewrite z2, z3 in X. discriminate.
  - unfold result_step in X. rewrite z1, z2, z9 in X. destruct (d_vflag _); discriminate.
Qed.

Lemma quiet_reach g : (1 <= F)%nat -> Reach g -> uncert g -> forall k, hon k -> quiet (gs_m g k).
Proof.
  intros HF. induction 1 as [|g i e st sms R IH Hi AL NH W X]; intros U k Hk; [constructor; reflexivity|].
  assert (U0 : uncert g).
  { intros j h Hj Hh C. apply (U j h Hj Hh). revert C. apply cert_mono. intros y Hy. apply in_or_app. left. exact Hy. }
  cbn [gs_next gs_m]. destruct (Nat.eqb_spec k i) as [->|]; [|exact (IH U0 k Hk)].
  apply (quiet_step g i e st sms); auto. apply (reach_inv H coin N F ID bad vals no_help); assumption.
Qed.

Lemma spoiled_uncert x g : (1 <= F)%nat -> inv H N F ID bad g -> (forall i i', hon i -> hon i' -> H (x i) = H (x i') -> i = i') -> spoiled x g -> uncert g.
Proof.
  intros HF I D S j h Hj Hh (L & ND & LL & ML).
  set (f := fun i => if in_dec Nat.eq_dec i bad then true else false). pose proof (RbcProofs.filter_split f L) as FS.
  assert (L1 : (length (filter f L) <= length bad)%nat).
  { apply NoDup_incl_length; [apply NoDup_filter; exact ND|]. intros y Hy. apply filter_In in Hy. destruct Hy as (_ & Hy). unfold f in Hy.
    destruct (in_dec Nat.eq_dec y bad); [assumption|discriminate]. }
  assert (HO : forall y, In y (filter (fun z => negb (f z)) L) -> hon y /\ H (x y) = h).
  { intros y Hy. apply filter_In in Hy. destruct Hy as (Iy & Hy). destruct (ML y Iy) as (Ny & Ey).
    assert (Hn : hon y) by (split; [exact Ny|]; unfold f in Hy; destruct (in_dec Nat.eq_dec y bad); [discriminate|assumption]).
    split; [exact Hn|]. apply (v_one _ _ _ _ _ _ I y 0 j); auto using w32_0, w32_lt. }
  assert (L2 : (length (filter (fun z => negb (f z)) L) <= 1)%nat); [|lia].
  assert (N2 : NoDup (filter (fun z => negb (f z)) L)) by (apply NoDup_filter; exact ND).
  destruct (filter (fun z => negb (f z)) L) as [|a [|b l]]; cbn [length]; try lia. exfalso.
  destruct (HO a) as (Ha & Ea); [left; reflexivity|]. destruct (HO b) as (Hb & Eb); [right; left; reflexivity|].
  assert (a = b) as -> by (apply D; congruence). inversion N2 as [|? ? NI _]. apply NI. left. reflexivity.
Qed.

(** From then on nobody gets any further, whatever is delivered. *)
Theorem c70_blocked x g i : (1 <= F)%nat -> (forall i i', hon i -> hon i' -> H (x i) = H (x i') -> i = i') -> Reach g -> spoiled x g -> hon i ->
  m_out (gs_m g i) = None /\ m_r (gs_m g i) = 0%nat /\ d_lead (m_rounds (gs_m g i) 0) = None.
Proof.
  intros HF D R S Hi. assert (I : inv H N F ID bad g) by (apply (reach_inv H coin N F ID bad vals no_help); assumption).
  destruct (quiet_reach g HF R (spoiled_uncert x g HF I D S) i Hi) as [z1 z2 z3 z4 z5 z6 z7 z8 z9]. auto.
Qed.

(** One Value message for each member and instance is enough. *)
Lemma spoil_some x (l : list (nat * nat)) : (forall i j, In (i, j) l -> hon i /\ (j < N)%nat) -> NoDup l ->
  exists g, Reach g /\ (forall i j, In (i, j) l -> In (i, smEcho ID 0 j 1 (H (x i))) (gs_rel g)) /\
    forall i, m_r (gs_m g i) = 0%nat /\ d_past (m_rounds (gs_m g i) 0) = false /\ forall j, ~ In (i, j) l -> d_stage (m_rounds (gs_m g i) 0) j = 0%nat.
Proof.
  induction l as [|(i, j) l IH]; intros OK ND.
  - exists (gs_init vals). split; [apply reach_init|]. split; [intros i j []|]. intros i. split; [reflexivity|]. split; [reflexivity|]. intros j _. reflexivity.
  - inversion ND as [|? ? NI ND']; subst. destruct IH as (g & R & S & Z); [intros a b Iab; apply OK; right; exact Iab|exact ND'|].
    destruct (OK i j (or_introl eq_refl)) as (Hi & Hj). destruct (Z i) as (Zr & Zp & Zs). specialize (Zs j NI).
    set (d := m_rounds (gs_m g i) 0) in *.
    assert (X : mstep H coin N F ID (gs_m g i) (EvValue 0 j 1 (x i) NoSig) = Ret (Some (setr (gs_m g i) 0 (mkD (up (d_stage d) j 1%nat) (d_lock d) (d_fin d) (d_finN d) (d_done d) (d_doneSent d) (d_coins d)
                 (d_lead d) (d_past d) (d_pre d) (d_pn d) (d_flag d) (d_voted d) (d_vy d) (d_vn d) (d_vflag d)), [smEcho ID 0 j 1 (H (x i))]))).
    { cbn [mstep]. unfold value_step. fold d. rewrite Zp. cbn [Nat.leb andb negb]. destruct (Nat.ltb_spec j N); [|lia].
      unfold stage_ready. rewrite Zs. reflexivity. }
    eexists. split; [|split].
    + eapply (reach_step H coin N F ID bad vals no_help g i (EvValue 0 j 1 (x i) NoSig)); [exact R|exact Hi| | | |exact X]; [cbn; auto|exact Logic.I|rewrite Zr; apply w32_0].
    + intros a b [E|Iab]; cbn [gs_next gs_rel]; apply in_or_app.
      * injection E as <- <-. right. left. reflexivity.
      * left. apply S. exact Iab.
    + intros a. cbn [gs_next gs_m]. destruct (Nat.eqb_spec a i) as [->|NE].
      * cbn [setr m_r m_rounds]. unfold putr. cbn [Nat.eqb d_past d_stage]. split; [exact Zr|]. split; [exact Zp|]. intros b NI2. unfold up.
        destruct (Nat.eqb_spec b j) as [->|]; [exfalso; apply NI2; left; reflexivity|]. apply Z. intros I2. apply NI2. right. exact I2.
      * destruct (Z a) as (Y1 & Y2 & Y3). split; [exact Y1|]. split; [exact Y2|]. intros b NI2. apply Y3. intros I2. apply NI2. right. exact I2.
Qed.

Lemma prod_nodup (A B : list nat) : NoDup A -> NoDup B -> NoDup (list_prod A B).
Proof.
  induction 1 as [|a A NI ND IH]; intros NB; cbn [list_prod]; [constructor|]. apply RbcProofs.nodup_app_intro; [|apply IH; exact NB|].
  - clear IH. induction NB as [|b B NIb NB IHb]; cbn [map]; [constructor|]. constructor; [|exact IHb].
    intros I. apply in_map_iff in I. destruct I as (c & E & I). injection E as ->. contradiction.
  - intros (u, v) I1 I2. apply in_map_iff in I1. destruct I1 as (c & E & _). injection E as <- _. apply in_prod_iff in I2. apply NI. apply I2.
Qed.

Theorem c70_spoil x : exists g, Reach g /\ spoiled x g.
Proof.
  set (hl := filter (fun i => if in_dec Nat.eq_dec i bad then false else true) (seq 0 N)).
  assert (HL : forall i, In i hl <-> hon i).
  { intros i. unfold hl. rewrite filter_In, in_seq. unfold MvbaProofs.hon. destruct (in_dec Nat.eq_dec i bad); split; intros (A & B); split; try discriminate; try contradiction; try lia; auto. }
  destruct (spoil_some x (list_prod hl (seq 0 N))) as (g & R & S & _).
  - intros i j I. apply in_prod_iff in I. rewrite HL, in_seq in I. split; [apply I|lia].
  - apply prod_nodup; [apply NoDup_filter, seq_NoDup|apply seq_NoDup].
  - exists g. split; [exact R|]. intros i j Hi Hj. apply S. apply in_prod_iff. rewrite HL, in_seq. split; [exact Hi|lia].
Qed.

Lemma after_reach g g' : Reach g -> after g g' -> Reach g' /\ forall y, In y (gs_rel g) -> In y (gs_rel g').
Proof.
  intros R. induction 1 as [|g' i e st sms A IH Hi AL NH W X]; [auto|]. destruct IH as (R' & M). split.
  - eapply reach_step; eauto.
  - intros y Hy. apply in_or_app. left. auto.
Qed.

(** So for every committee with F >= 1 and at most F corrupted members there is an execution that can no longer end. *)
Theorem c70_ends_refuted : (1 <= F)%nat -> (exists x, forall i i', hon i -> hon i' -> H (x i) = H (x i') -> i = i') ->
  exists g, Reach g /\ forall g' i, after g g' -> hon i -> m_out (gs_m g' i) = None.
Proof.
  intros HF (x & D). destruct (c70_spoil x) as (g & R & S). exists g. split; [exact R|]. intros g' i A Hi.
  destruct (after_reach g g' R A) as (R' & M). apply (c70_blocked x g' i HF D R'); [|exact Hi]. intros a b Ha Hb. apply M, S; assumption.
Qed.
End Block.

Print Assumptions c70_blocked.
Print Assumptions c70_spoil.
Print Assumptions c70_ends_refuted.

(** Four members, the last one corrupted, with values that have different hashes. *)
Definition yH (v : list Z) : list Z := firstn 64 (v ++ repeat 0%Z 64).
Example c70_ex : exists g, reach yH (fun _ => 0%Z) 4 1 [7%Z] [3%nat] (fun i => [Z.of_nat i]) (no_help 4 [3%nat]) g /\
  forall g' i, after yH (fun _ => 0%Z) 4 1 [7%Z] [3%nat] g g' -> hon 4 [3%nat] i -> m_out (gs_m g' i) = None.
Proof.
  apply c70_ends_refuted; try (unfold w32; cbn; lia).
  - intros v. unfold yH. rewrite firstn_length, app_length, repeat_length. lia.
  - exists (fun i => [Z.of_nat i]). intros i i' _ _ E. unfold yH in E. cbn [app firstn] in E. injection E as E. lia.
Qed.
