(** C72: the goroutines that collect the points of the new share (ProactivizeAndShareDist.go:645-672).

    Goroutine k of the interpolation stage has received and checked the point (index of k, value of k), with
    0 < index <= N pairwise different, and appends it to the slice SB, which all of them share without a
    mutex.  The goroutine that finds 2F+1 elements interpolates the new share from the first 2F+1.  When no
    two appends overlap, this is right in every interleaving of all the rest; when two overlap it is not:
    a point may be lost so that the stage never ends, an element may be read that is no longer there, the
    share may be interpolated from a value that belongs to another index, and the Success message may be sent
    twice. *)

Require Import ZArith List Bool Arith Lia.
From Verif Require Import Fr Poly CodecModel GoBase PolyModel PolyProofs RaceModel RaceProofs RaceRuns.
Import ListNotations.

Section Spec.
Variable F : nat.
Variable grow : nat -> nat.
Variable es : nat -> entry.

(** The goroutines below n: their points lie on the polynomial f of degree at most 2F, at different indexes. *)
Definition points_on (n : nat) (f : list Fr) : Prop :=
  length f = (2 * F + 1)%nat /\ (forall k, (k < n)%nat -> snd (es k) = peval f (of_nat (fst (es k)))) /\
  forall j k, (j < n)%nat -> (k < n)%nat -> of_nat (fst (es j)) = of_nat (fst (es k)) -> j = k.

Definition of_group (n : nat) (sched : list nat) : Prop := Forall (fun k => (k < n)%nat) sched.

(** In the schedule no goroutine starts an append while another one is inside an append. *)
Definition exclusive (n : nat) (sched : list nat) : Prop := forall a k b s, sched = a ++ k :: b -> rrun F grow es a rs_init = Ret s ->
  s_pc s k = PLoad -> forall j, (j < n)%nat -> match s_pc s j with PWrite _ | PStore _ => False | _ => True end.

Definition all_done (n : nat) (s : rstate) : Prop := forall k, (k < n)%nat -> s_pc s k = PEnd.
End Spec.

Lemma exclusive_reach F grow es n sched f : points_on F es n f -> of_group n sched -> exclusive F grow es n sched ->
  exists s, rrun F grow es sched rs_init = Ret s /\ xreach F grow es n s.
Proof.
  intros (Lf & Hv & Hd). induction sched as [|k sched IH] using rev_ind; intros G EX.
  - exists rs_init. split; [reflexivity|constructor].
  - apply Forall_app in G. destruct G as (G & Gk). inversion Gk as [|? ? Hk _]; subst.
    destruct IH as (s & E & R); [exact G| |].
    + intros a j b s Es. apply (EX a j (b ++ [k]) s). rewrite Es, <- app_assoc. reflexivity.
    + assert (AL : alone n s k).
      { intros P j J C. pose proof (EX sched k [] s eq_refl E P j J) as H. unfold crit in C. destruct (s_pc s j); contradiction. }
      destruct (xreach_inv F grow es n f Lf Hv Hd s R) as (ord & I).
      destruct (x_step_inv F grow es n f Lf Hv Hd s ord k I Hk AL) as (s' & ord' & E' & I').
      exists s'. split; [|exact (x_step F grow es n s k s' R Hk AL E')]. rewrite run_app, E. cbn [bind]. rewrite run_cons, E'. reflexivity.
Qed.

(** Without overlapping appends: no panic, never a wrong share, and the share is there when all have passed. *)
Theorem c72_exclusive F grow es n f sched : points_on F es n f -> of_group n sched -> exclusive F grow es n sched ->
  exists s, rrun F grow es sched rs_init = Ret s /\ (m_full (s_mem s) = None \/ m_full (s_mem s) = Some f) /\
    (all_done n s -> (2 * F + 1 <= n)%nat -> m_full (s_mem s) = Some f).
Proof.
  intros H G EX. destruct (exclusive_reach F grow es n sched f H G EX) as (s & E & R). exists s. split; [exact E|]. destruct H as (Lf & Hv & Hd).
  destruct (xreach_inv F grow es n f Lf Hv Hd s R) as (ord & I). split.
  - destruct (m_full (s_mem s)) as [q|] eqn:Q; [right; f_equal; exact (x_full _ _ _ _ _ _ I q Q)|left; reflexivity].
  - intros D L. assert (LO : (2 * F + 1 <= length ord)%nat).
    { apply Nat.le_trans with n; [exact L|]. rewrite <- (seq_length n 0). apply NoDup_incl_length; [apply seq_NoDup|]. intros k K. apply in_seq in K.
      pose proof (x_pc _ _ _ _ _ _ I k ltac:(lia)) as P. rewrite (D k) in P by lia. exact P. }
    destruct (x_busy _ _ _ _ _ _ I LO) as [Q|(k & K & B)].
    + destruct (m_full (s_mem s)) as [q|] eqn:EQ; [f_equal; exact (x_full _ _ _ _ _ _ I q EQ)|contradiction].
    + rewrite (D k K) in B. destruct B.
Qed.

Print Assumptions c72_exclusive.

(** In the schedule no goroutine starts while another one is between lines 646 and 671. *)
Definition serial (F : nat) (grow : nat -> nat) (es : nat -> entry) (n : nat) (sched : list nat) : Prop :=
  forall a k b s, sched = a ++ k :: b -> rrun F grow es a rs_init = Ret s ->
  s_pc s k = PLoad -> forall j, (j < n)%nat -> s_pc s j = PLoad \/ s_pc s j = PEnd.

Definition active (c : pc) : Prop := c <> PLoad /\ c <> PEnd.

Record once (n : nat) (s : rstate) : Prop := mkO {
  o_le : (m_succ (s_mem s) <= 1)%nat;
  o_full : m_succ (s_mem s) = 0%nat -> m_full (s_mem s) = None;
  o_sent : m_sent (s_mem s) = true -> m_succ (s_mem s) = 1%nat;
  o_unsent : m_sent (s_mem s) = false -> m_succ (s_mem s) = 0%nat \/ exists k, (k < n)%nat /\ s_pc s k = PMark;
  o_pc : forall k, (k < n)%nat -> match s_pc s k with PLen | PIdx _ _ _ | PVal _ _ _ | PShare _ _ => m_succ (s_mem s) = 0%nat | PMark => m_succ (s_mem s) = 1%nat | _ => True end;
  o_one : forall j k, (j < n)%nat -> (k < n)%nat -> active (s_pc s j) -> active (s_pc s k) -> j = k }.

Lemma append_sent grow m h e : let '(m', _) := append_write grow m h e in m_succ m' = m_succ m /\ m_sent m' = m_sent m /\ m_full m' = m_full m.
Proof. unfold append_write. destruct (h_len h <? h_cap h)%nat; auto. Qed.

Lemma active_dec c : active c \/ c = PLoad \/ c = PEnd.
Proof. destruct c; auto; left; split; discriminate. Qed.

Lemma once_step F grow es n s k s' : once n s -> (k < n)%nat -> (s_pc s k = PLoad -> forall j, (j < n)%nat -> s_pc s j = PLoad \/ s_pc s j = PEnd) ->
  rstep F grow es s k = Ret s' -> once n s'.
Proof.
  intros [O1 O2 O3 O4 O5 O6] K SE E. unfold rstep in E.
  (* the others are idle, before and after *)
  assert (ID : s_pc s k <> PEnd -> forall j, (j < n)%nat -> j <> k -> s_pc s j = PLoad \/ s_pc s j = PEnd).
  { intros NE j J NJ. destruct (active_dec (s_pc s k)) as [A|[A|A]]; [|apply SE; assumption|contradiction].
    destruct (active_dec (s_pc s j)) as [B|B]; [|exact B]. destruct (NJ (O6 j k J K B A)). }
  destruct (active_dec (s_pc s k)) as [A|[A|A]].
  3:{ rewrite A in E. cbn [gstep bind] in E. injection E as <-.
      assert (PE : forall j, (if (j =? k)%nat then PEnd else s_pc s j) = s_pc s j) by (intros j; destruct (Nat.eqb_spec j k) as [-> |]; [rewrite A|]; reflexivity).
      constructor; cbn [s_mem s_pc]; auto.
      - intros H. destruct (O4 H) as [Z|(j & J & P)]; [auto|right]. exists j. rewrite PE. auto.
      - intros j J. rewrite PE. apply O5. exact J.
      - intros j j' J J'. rewrite !PE. apply O6; assumption. }
  all: assert (NE : s_pc s k <> PEnd) by (first [exact (proj2 A)|rewrite A; discriminate]); specialize (ID NE).
  all: assert (WRAP : forall m c, (m_succ m <= 1)%nat -> (m_succ m = 0%nat -> m_full m = None) -> (m_sent m = true -> m_succ m = 1%nat) ->
    (m_sent m = false -> m_succ m = 0%nat \/ c = PMark) ->
    match c with PLen | PIdx _ _ _ | PVal _ _ _ | PShare _ _ => m_succ m = 0%nat | PMark => m_succ m = 1%nat | _ => True end ->
    once n (mkRS m (fun j => if (j =? k)%nat then c else s_pc s j))).
  1,3: intros m c W1 W2 W3 W4 W5; constructor; cbn [s_mem s_pc]; auto;
    [intros H; destruct (W4 H) as [Z| ->]; [left; exact Z|right; exists k; rewrite Nat.eqb_refl; auto]
    |intros j J; destruct (Nat.eqb_spec j k) as [-> |NJ]; [exact W5|destruct (ID j J NJ) as [-> | ->]; exact I]
    |intros j j' J J'; destruct (Nat.eqb_spec j k) as [-> |NJ], (Nat.eqb_spec j' k) as [-> |NJ']; auto; intros (B1 & B2) (B3 & B4);
      exfalso; try (destruct (ID j J NJ); contradiction); destruct (ID j' J' NJ'); contradiction].
  - assert (UN : s_pc s k <> PMark -> m_sent (s_mem s) = false -> m_succ (s_mem s) = 0%nat).
    { intros NM H. destruct (O4 H) as [Z|(j & J & P)]; [exact Z|]. destruct (Nat.eq_dec j k) as [-> |NJ]; [contradiction|]. destruct (ID j J NJ); congruence. }
    pose proof (O5 k K) as PK. destruct (s_pc s k) as [ |h|h| | |t xs ys|t xs ys|xs ys| | ] eqn:EP; cbn [gstep] in E.
    + destruct A. contradiction.
    + pose proof (append_sent grow (s_mem s) h (es k)) as AS. destruct (append_write grow (s_mem s) h (es k)) as (m' & h'). cbn [bind] in E. injection E as <-.
      destruct AS as (A1 & A2 & A3). apply WRAP; rewrite ?A1, ?A2, ?A3; auto. intros H. left. apply UN; [discriminate|exact H].
    + cbn [bind] in E. injection E as <-. apply WRAP; cbn [m_succ m_full m_sent]; auto. intros H. left. apply UN; [discriminate|exact H].
    + cbn [bind] in E. injection E as <-. apply WRAP; auto; [intros H; left; apply UN; [discriminate|exact H]|]. destruct (m_sent (s_mem s)) eqn:MS; [exact I|apply UN; [discriminate|reflexivity]].
    + cbn [bind] in E. injection E as <-. apply WRAP; auto. destruct (_ <=? _)%nat; [exact PK|exact I].
    + destruct (_ <? _)%nat in E; [|discriminate]. cbn [bind] in E. injection E as <-. apply WRAP; auto.
    + destruct (t <? h_len _)%nat in E; [|discriminate]. cbn [bind] in E. injection E as <-. apply WRAP; auto. destruct (t <? _)%nat; exact PK.
    + destruct (LagrangeInterpolate (2 * F) xs ys) as [full| | | ]; cbn [bind] in E; try discriminate. injection E as <-. apply WRAP; cbn [m_succ m_full m_sent]; rewrite ?PK; auto; try lia.
    + cbn [bind] in E. injection E as <-. apply WRAP; cbn [m_succ m_full m_sent]; auto; discriminate.
    + destruct A. contradiction.
  - rewrite A in E. cbn [gstep bind] in E. injection E as <-. apply WRAP; auto. intros H. destruct (O4 H) as [Z|(j & J & P)]; [auto|]. destruct (SE A j J); congruence.
Qed.

(** When whole passes do not overlap (as C28 takes them), Success is broadcast exactly once. *)
Theorem c72_serial F grow es n f sched : points_on F es n f -> of_group n sched -> serial F grow es n sched ->
  exists s, rrun F grow es sched rs_init = Ret s /\ (m_succ (s_mem s) <= 1)%nat /\
    (all_done n s -> (2 * F + 1 <= n)%nat -> m_full (s_mem s) = Some f /\ m_succ (s_mem s) = 1%nat).
Proof.
  intros H G SE.
  assert (EX : exclusive F grow es n sched). { intros a k b s Es R P j J. destruct (SE a k b s Es R P j J) as [-> | ->]; exact I. }
  destruct (c72_exclusive F grow es n f sched H G EX) as (s & E & _ & D). exists s. split; [exact E|].
  assert (O : once n s).
  { clear D EX. revert s E. induction sched as [|k sched IH] using rev_ind; intros s E.
    - injection E as <-. constructor; cbn [rs_init s_mem s_pc mem_init m_succ m_full m_sent]; auto; try discriminate. intros j k _ _ (A & _). contradiction.
    - apply Forall_app in G. destruct G as (G & Gk). inversion Gk as [|? ? Hk _]; subst. rewrite run_app in E. destruct (rrun F grow es sched rs_init) as [s1| | | ] eqn:E1; cbn [bind] in E; try discriminate.
      rewrite run_cons in E. destruct (rstep F grow es s1 k) as [s2| | | ] eqn:E2; cbn [bind] in E; try discriminate. injection E as <-.
      apply (once_step F grow es n s1 k s2); auto.
      + apply IH; auto. intros a j b s' Es. apply (SE a j (b ++ [k]) s'). rewrite Es, <- app_assoc. reflexivity.
      + apply (SE sched k [] s1 eq_refl E1). }
  split; [apply (o_le _ _ O)|]. intros AD L. pose proof (D AD L) as Q. split; [exact Q|]. pose proof (o_le _ _ O). pose proof (o_full _ _ O). destruct (m_succ (s_mem s)) as [|[|]]; [|reflexivity|lia].
  rewrite H1 in Q by reflexivity. discriminate.
Qed.
Print Assumptions c72_serial.

(** In any schedule: the only failure is a panic, and a share that was set goes through the values of 2F+1
    different members at the indexes of 2F+1 different members (but perhaps not each at its own). *)
Theorem c72_any F grow es n f sched : points_on F es n f -> of_group n sched ->
  rrun F grow es sched rs_init = Panic \/ exists s, rrun F grow es sched rs_init = Ret s /\ forall q, m_full (s_mem s) = Some q ->
    length q = (2 * F + 1)%nat /\ exists ks js : nat -> nat,
      (forall i, (i <= 2 * F)%nat -> (ks i < n)%nat /\ (js i < n)%nat /\ peval q (of_nat (fst (es (ks i)))) = snd (es (js i))) /\
      (forall i i', (i <= 2 * F)%nat -> (i' <= 2 * F)%nat -> ks i = ks i' \/ js i = js i' -> i = i').
Proof.
  intros (Lf & Hv & Hd) G. destruct (a_run F grow es n f Lf Hd sched G rs_init _ (a_init F es n f Lf)) as [P|(s & slot & E & A)]; [left; exact P|right].
  exists s. split; [exact E|]. intros q Q. destruct (a_full _ _ _ _ _ A q Q) as (L & ks & js & M). split; [exact L|]. exists ks, js. split.
  - intros i I. destruct (M i I) as (A1 & A2 & _ & _ & A3). auto.
  - intros i i' I I' [EQ|EQ]; destruct (M i I) as (_ & _ & B1 & B2 & _), (M i' I') as (_ & _ & C1 & C2 & _); congruence.
Qed.

Print Assumptions c72_any.

(** 2F+1 goroutines, all with right points, pass through and no share is set: two appends overlapped. *)
Theorem c72_lost_refuted F grow es : (1 <= F)%nat -> exists sched s, of_group (2 * F + 1) sched /\ rrun F grow es sched rs_init = Ret s /\
  all_done (2 * F + 1) s /\ m_full (s_mem s) = None /\ m_succ (s_mem s) = 0%nat.
Proof. exact (lost_run F grow es). Qed.

Print Assumptions c72_lost_refuted.

(** 2F+2 goroutines: an append that read SB early shortens it while another goroutine reads its elements. *)
Theorem c72_panic_refuted F grow es : (1 <= F)%nat -> exists sched, of_group (2 * F + 2) sched /\ rrun F grow es sched rs_init = Panic.
Proof. exact (panic_run F grow es). Qed.

Print Assumptions c72_panic_refuted.

(** 2F+2 goroutines, all with right points, and the share that is set is not f. *)
Theorem c72_wrong_refuted F grow es f : (1 <= F)%nat -> points_on F es (2 * F + 2) f -> snd (es (2 * F)) <> snd (es (2 * F + 1)) ->
  exists sched s q, of_group (2 * F + 2) sched /\ rrun F grow es sched rs_init = Ret s /\ m_full (s_mem s) = Some q /\ q <> f /\
    peval q (of_nat (fst (es (2 * F)%nat))) = snd (es (2 * F + 1)%nat).
Proof.
  intros HF (Lf & Hv & Hd) NE. destruct (wrong_run F grow es HF) as (sched & s & q & G & E & M & _ & W).
  - intros i j I J. apply Hd; lia.
  - exists sched, s, q. split; [exact G|]. split; [exact E|]. split; [exact M|]. split; [|exact W]. intros ->. apply NE. unfold X, Y in W. rewrite <- W. apply Hv. lia.
Qed.

Print Assumptions c72_wrong_refuted.

(** 2F+2 goroutines with right points: the member broadcasts Success twice. *)
Theorem c72_double_refuted F grow es f : points_on F es (2 * F + 2) f -> exists sched s, of_group (2 * F + 2) sched /\
  rrun F grow es sched rs_init = Ret s /\ m_succ (s_mem s) = 2%nat /\ m_full (s_mem s) = Some f.
Proof. intros (Lf & Hv & Hd). exact (double_run F grow es (2 * F + 2) f Lf Hv Hd eq_refl). Qed.

Print Assumptions c72_double_refuted.

(** * Concrete cases: F = 1, the points (k+1, k+1) on the polynomial x, capacities doubled. *)

Definition ex_es (k : nat) : entry := ((k + 1)%nat, of_nat (k + 1)).
Definition ex_f : list Fr := [f0; f1; f0].
Definition ex_grow (n : nat) : nat := (2 * n + 1)%nat.

Lemma ex_points n : (n <= 4)%nat -> points_on 1 ex_es n ex_f.
Proof.
  intros L. split; [reflexivity|]. split.
  - intros k K. cbn [ex_es fst snd ex_f peval]. ring.
  - intros j k J K E. cbn [ex_es fst] in E. apply of_nat_inj in E; [lia| |]; apply Z.lt_trans with 100%Z; try reflexivity; lia.
Qed.

(** The same test as a function. *)
Fixpoint exclb (n : nat) (sched : list nat) (s : rstate) : bool :=
  match sched with
  | [] => true
  | k :: r =>
    match s_pc s k with PLoad => forallb (fun j => match s_pc s j with PWrite _ | PStore _ => false | _ => true end) (seq 0 n) | _ => true end &&
    match rstep 1 ex_grow ex_es s k with Ret s' => exclb n r s' | _ => true end
  end.

Lemma exclb_ok n sched : forall s, exclb n sched s = true -> forall a k b s1, sched = a ++ k :: b -> rrun 1 ex_grow ex_es a s = Ret s1 ->
  s_pc s1 k = PLoad -> forall j, (j < n)%nat -> match s_pc s1 j with PWrite _ | PStore _ => False | _ => True end.
Proof.
  induction sched as [|k0 sched IH]; intros s B a k b s1 E R P j J; [destruct a; discriminate|]. cbn [exclb] in B. apply andb_prop in B. destruct B as (B1 & B2).
  destruct a as [|k1 a].
  - injection E as <- <-. injection R as <-. rewrite P in B1. rewrite forallb_forall in B1. specialize (B1 j). rewrite in_seq in B1. specialize (B1 ltac:(lia)).
    destruct (s_pc s j); try exact Logic.I; discriminate.
  - injection E as <- E. rewrite run_cons in R. destruct (rstep 1 ex_grow ex_es s k0) as [s2| | |] eqn:E2; try discriminate R. cbn [bind] in R. exact (IH s2 B2 a k b s1 E R P j J).
Qed.

(** Goroutines 0 and 1 interleaved after their appends, 2 to the end. *)
Definition ex_sched : list nat := [0; 0; 0; 1; 0; 1; 1; 0; 2; 1; 2; 1; 2] ++ repeat 2%nat 10.

Example c72_exclusive_ex : points_on 1 ex_es 3 ex_f /\ of_group 3 ex_sched /\ exclusive 1 ex_grow ex_es 3 ex_sched.
Proof.
  split; [apply ex_points; lia|]. split; [repeat constructor|]. intros a k b s. apply (exclb_ok 3 ex_sched). vm_compute. reflexivity.
Qed.

(** Goroutines 0, 1 and 2 one after another; the last one computes the share. *)
Definition ser_sched : list nat := repeat 0%nat 6 ++ repeat 1%nat 6 ++ repeat 2%nat 14.

Fixpoint serb (n : nat) (sched : list nat) (s : rstate) : bool :=
  match sched with
  | [] => true
  | k :: r =>
    match s_pc s k with PLoad => forallb (fun j => match s_pc s j with PLoad | PEnd => true | _ => false end) (seq 0 n) | _ => true end &&
    match rstep 1 ex_grow ex_es s k with Ret s' => serb n r s' | _ => true end
  end.

Lemma serb_ok n sched : forall s, serb n sched s = true -> forall a k b s1, sched = a ++ k :: b -> rrun 1 ex_grow ex_es a s = Ret s1 ->
  s_pc s1 k = PLoad -> forall j, (j < n)%nat -> s_pc s1 j = PLoad \/ s_pc s1 j = PEnd.
Proof.
  induction sched as [|k0 sched IH]; intros s B a k b s1 E R P j J; [destruct a; discriminate|]. cbn [serb] in B. apply andb_prop in B. destruct B as (B1 & B2).
  destruct a as [|k1 a].
  - injection E as <- <-. injection R as <-. rewrite P in B1. rewrite forallb_forall in B1. specialize (B1 j). rewrite in_seq in B1. specialize (B1 ltac:(lia)).
    destruct (s_pc s j); auto; discriminate.
  - injection E as <- E. rewrite run_cons in R. destruct (rstep 1 ex_grow ex_es s k0) as [s2| | |] eqn:E2; try discriminate R. cbn [bind] in R. exact (IH s2 B2 a k b s1 E R P j J).
Qed.

Example c72_serial_ex : points_on 1 ex_es 3 ex_f /\ of_group 3 ser_sched /\ serial 1 ex_grow ex_es 3 ser_sched /\
  match rrun 1 ex_grow ex_es ser_sched rs_init with Ret s => s_pc s 0 = PEnd /\ s_pc s 1 = PEnd /\ s_pc s 2 = PEnd | _ => False end.
Proof.
  split; [apply ex_points; lia|]. split; [repeat constructor|]. split; [intros a k b s; apply (serb_ok 3 ser_sched); vm_compute; reflexivity|vm_compute; auto].
Qed.

Example c72_refuted_ex : exists sched s q, of_group 4 sched /\ rrun 1 ex_grow ex_es sched rs_init = Ret s /\ m_full (s_mem s) = Some q /\ q <> ex_f.
Proof.
  destruct (c72_wrong_refuted 1 ex_grow ex_es ex_f) as (sched & s & q & A & B & C & D & _); [lia|apply ex_points; lia| |exists sched, s, q; auto].
  cbn [ex_es snd]. intros E. apply of_nat_inj in E; [discriminate| |]; reflexivity.
Qed.
