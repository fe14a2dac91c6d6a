(** When the agreement ends (C69). *)

Require Import ZArith List Bool Arith Lia.
From Verif Require Import Bytes CodecModel GoBase DispatchModel MvbaModel MvbaProofs MvbaNet MvbaLive MvbaQuiet MvbaSafe.
Import ListNotations.

Section Statements.
Variable H : list Z -> list Z.
Variable coin : list Z -> Z.
Variables N F : nat.
Variable ID : list Z.
Variable bad : list nat.           (* members that send nothing *)
Variable vals : nat -> list Z.     (* the inputs *)

(** The members that follow the protocol. *)
Definition active : list nat := filter (honb N bad) (seq 0 N).
Definition returns (w : nstate) (i : nat) (v : list Z) : Prop := m_out (n_st (w_mem w i)) = Some v.
Definition waiting (w : nstate) (i : nat) : Prop := m_out (n_st (w_mem w i)) = None.
Definition round_of (w : nstate) (i : nat) : nat := m_r (n_st (w_mem w i)).
Definition at_round (w : nstate) (i r : nat) : rnd := m_rounds (n_st (w_mem w i)) r.

Local Notation Reach := (nreach H coin N F ID bad vals).
Local Notation Quiet := (quiescent H coin N F ID bad).

Definition V_of (w : nstate) (i r : nat) : list Z := n_prop (w_mem w i) r.
Lemma V_agree w i : agree (V_of w) i (w_mem w i).
Proof. intros r _. reflexivity. Qed.

(** No message of a member that follows the protocol stops another one. *)
Theorem c69_no_crash w i a : Reach w -> In i active -> available w i a -> exists x, nstep H coin N F ID i (w_mem w i) a = Ret x.
Proof.
  intros R Hi AV. apply (hs_in N bad) in Hi. apply (no_crash H coin N F ID (V_of w)).
  apply (proper_of H coin N F ID bad (V_of w)); [|exact Hi|exact AV]. apply (reach_ginv _ _ _ _ _ _ _ vals); [exact R|]. intros k _. apply V_agree.
Qed.

(** All members that return return the same. *)
Theorem c69_same w i j v v' : (length active <= 4 * F + 1)%nat -> Reach w -> In i active -> In j active -> returns w i v -> returns w j v' -> v = v'.
Proof.
  intros HA R Hi Hj. apply (hs_in N bad) in Hi. apply (hs_in N bad) in Hj.
  apply (same_output H coin N F ID bad (V_of w) w); auto; try (intros; apply V_agree).
  - apply (reach_ginv _ _ _ _ _ _ _ vals); [exact R|]. intros k _. apply V_agree.
  - apply (reach_sinv _ _ _ _ _ _ _ vals); [exact R|]. intros k _. apply V_agree.
Qed.

(** What is returned is the input of a member that follows the protocol. *)
Theorem c69_input w i v : Reach w -> In i active -> returns w i v -> exists k, In k active /\ v = vals k.
Proof.
  intros R Hi E. apply (hs_in N bad) in Hi.
  assert (G : ginv H coin N F ID bad (V_of w) w) by (apply (reach_ginv _ _ _ _ _ _ _ vals); [exact R|]; intros k _; apply V_agree).
  assert (SI : sinv H coin N F ID bad (V_of w) w) by (apply (reach_sinv _ _ _ _ _ _ _ vals); [exact R|]; intros k _; apply V_agree).
  destruct (s_out _ _ _ _ _ _ _ _ SI i v Hi (or_introl E)) as (r & -> & D).
  destruct (decided_by _ _ _ _ _ _ _ _ G r D) as (Hl & Ll).
  destruct (proposed_input _ _ _ _ _ _ _ w G SI (fun k _ => V_agree w k) r _ Hl Ll) as (k & Hk & ->). exists k. split; [apply hs_in; exact Hk|].
  clear - R. unfold V_of. induction R as [|w i a nm outs R IH Hi AV X]; [reflexivity|].
  cbn [ns_next w_mem]. unfold up at 1. destruct (Nat.eqb_spec k i) as [->|]; [|exact IH].
  rewrite <- IH. symmetry. refine (nstep_agree H coin N F ID (fun _ => n_prop nm) i _ _ nm _ X _ 0%nat (Nat.le_0_l _)). intros r _. reflexivity.
Qed.

Lemma low_round w (l : list nat) : (exists i, In i l /\ waiting w i) ->
  exists i, In i l /\ waiting w i /\ forall j, In j l -> waiting w j -> (round_of w i <= round_of w j)%nat.
Proof.
  induction l as [|a l IH]; intros (i & I & W); [contradiction|].
  assert (D : (exists i, In i l /\ waiting w i) \/ ~ exists i, In i l /\ waiting w i).
  { clear. induction l as [|a l IH]; [right; intros (i & [] & _)|]. unfold waiting in *. destruct (m_out (n_st (w_mem w a))) eqn:E.
    - destruct IH as [(i & I & W)|NO]; [left; exists i; split; [right; exact I|exact W]|right]. intros (i & [->|I] & W); [congruence|]. apply NO. eauto.
    - left. exists a. split; [left; reflexivity|exact E]. }
  destruct D as [D|NO].
  - destruct (IH D) as (b & Ib & Wb & Lb). destruct (m_out (n_st (w_mem w a))) eqn:E.
    + exists b. split; [right; exact Ib|]. split; [exact Wb|]. intros j [<-|Ij] Wj; [unfold waiting in Wj; congruence|auto].
    + destruct (Nat.le_gt_cases (round_of w a) (round_of w b)) as [C|C].
      * exists a. split; [left; reflexivity|]. split; [exact E|]. intros j [<-|Ij] Wj; [apply Nat.le_refl|]. specialize (Lb j Ij Wj). lia.
      * exists b. split; [right; exact Ib|]. split; [exact Wb|]. intros j [<-|Ij] Wj; [lia|auto].
  - destruct I as [->|I]; [|exfalso; apply NO; eauto]. exists i. split; [left; reflexivity|]. split; [exact W|].
    intros j [<-|Ij] Wj; [apply Nat.le_refl|]. exfalso. apply NO. eauto.
Qed.

(** Where nothing more can happen, every member has returned, or the votes of a round are mixed: every
    member that is in the lowest round of those that wait has taken some votes of both kinds, at most 2F
    of each, together 2F+1 or more, and has no result from them.  Then some member had a lock of the
    leader and 2F+1 others had none. *)
Theorem c69_quiet w : (2 * F + 1 <= length active)%nat -> Reach w -> Quiet w ->
  (forall i, In i active -> exists v, returns w i v) \/
  exists r, (forall i, In i active -> waiting w i -> (r <= round_of w i)%nat) /\ (exists i, In i active /\ waiting w i /\ round_of w i = r) /\
    (forall i, In i active -> waiting w i -> round_of w i = r ->
       d_vflag (at_round w i r) = None /\ (1 <= length (d_vy (at_round w i r)) <= 2 * F)%nat /\ (1 <= length (d_vn (at_round w i r)) <= 2 * F)%nat /\
       (2 * F + 1 <= length (d_vy (at_round w i r)) + length (d_vn (at_round w i r)))%nat) /\
    (exists k, In k active /\ d_lock (at_round w k r) (leader_of coin N ID r) <> None) /\
    (exists L, NoDup L /\ length L = (2 * F + 1)%nat /\ forall k, In k L -> In k active /\ d_lock (at_round w k r) (leader_of coin N ID r) = None).
Proof.
  intros HA R Q. assert (G : ginv H coin N F ID bad (V_of w) w) by (apply (reach_ginv _ _ _ _ _ _ _ vals); [exact R|]; intros k _; apply V_agree).
  assert (D : (exists i, In i active /\ waiting w i) \/ forall i, In i active -> exists v, returns w i v).
  { generalize active. induction l as [|a l IH]; [right; intros i []|]. unfold waiting, returns in *. destruct (m_out (n_st (w_mem w a))) as [v|] eqn:E.
    - destruct IH as [(i & I & W)|AL]; [left; exists i; split; [right; exact I|exact W]|right]. intros i [<-|I]; eauto.
    - left. exists a. split; [left; reflexivity|exact E]. }
  destruct D as [D|D]; [right|left; exact D]. destruct (low_round w active D) as (i0 & I0 & W0 & LOW). exists (round_of w i0).
  assert (WT : forall i, In i active -> waiting w i -> waits N bad w i) by (intros i Hi Wi; split; [apply (hs_in N bad); exact Hi|exact Wi]).
  assert (LOW' : forall j, waits N bad w j -> (round_of w i0 <= round_of w j)%nat) by (intros j (Hj & Wj); apply LOW; [apply hs_in; exact Hj|exact Wj]).
  assert (MX := fun i Wi Ri => mixed H coin N F ID bad (V_of w) w G (fun k _ => V_agree w k) Q HA i (round_of w i0) Wi Ri LOW').
  split; [exact LOW|]. split; [exists i0; auto|]. split.
  - intros i Hi Wi Ri. destruct (MX i (WT i Hi Wi) Ri) as (M1 & M2 & M3 & _).
    pose proof (votes_all H coin N F ID bad (V_of w) w G (fun k _ => V_agree w k) Q HA i (round_of w i0) (WT i Hi Wi) Ri LOW') as M4. auto.
  - destruct (MX i0 (WT i0 I0 W0) eq_refl) as (_ & _ & _ & (k & Hk & K) & (L & ND & LL & AL)). split.
    + exists k. split; [apply hs_in; exact Hk|exact K].
    + exists L. split; [exact ND|]. split; [exact LL|]. intros x Hx. destruct (AL x Hx). split; [apply hs_in; assumption|assumption].
Qed.

(** If exactly 2F+1 members are active (as many as possible are missing), or nobody is allowed to be
    missing, then everybody returns. *)
Theorem c69_ends w i : length active = (2 * F + 1)%nat \/ F = 0%nat /\ active <> [] -> Reach w -> Quiet w -> In i active -> exists v, returns w i v.
Proof.
  intros HA R Q Hi. assert (LE : (2 * F + 1 <= length active)%nat).
  { destruct HA as [HA|(-> & HA)]; [lia|]. destruct active; [congruence|cbn [length]; lia]. }
  destruct (c69_quiet w LE R Q) as [AL|(r & _ & (i0 & I0 & W0 & R0) & MX & (k & Hk & K) & (L & ND & LL & AL))]; [exact (AL i Hi)|exfalso].
  destruct (MX i0 I0 W0 R0) as (_ & Y1 & _). destruct HA as [HA|(HF & _)]; [|lia].
  assert (NI : ~ In k L) by (intros X; apply K; apply AL; exact X).
  assert (LK : (length (k :: L) <= length active)%nat).
  { apply NoDup_incl_length; [constructor; assumption|]. intros x [<-|X]; [exact Hk|apply AL; exact X]. }
  cbn [length] in LK. lia.
Qed.
End Statements.

Print Assumptions c69_no_crash.
Print Assumptions c69_same.
Print Assumptions c69_input.
Print Assumptions c69_quiet.
Print Assumptions c69_ends.

(** ** Concrete executions *)

Section Runs.
Variable H : list Z -> list Z.
Variable coin : list Z -> Z.
Variables N F : nat.
Variable ID : list Z.
Variable bad : list nat.
Variable vals : nat -> list Z.

Definition msg_eq_dec (a b : nat * msg) : {a = b} + {a <> b}.
Proof.
  decide equality; [|apply Nat.eq_dec]. decide equality; try apply Nat.eq_dec; try (apply list_eq_dec, Z.eq_dec).
  all: decide equality; try apply Nat.eq_dec; try (apply list_eq_dec, Z.eq_dec).
Defined.
Definition inb (x : nat * msg) (l : list (nat * msg)) : bool := if in_dec msg_eq_dec x l then true else false.

Definition availb (w : nstate) (i : nat) (a : nev) : bool :=
  match a with NTake k m => inb (k, m) (w_sent w) && to_me i m && negb (inb (k, m) (n_got (w_mem w i))) | NAct _ => true end.

Fixpoint exec (w : nstate) (ops : list (nat * nev)) : option nstate :=
  match ops with
  | [] => Some w
  | (i, a) :: ops =>
    if honb N bad i && availb w i a then
      match nstep H coin N F ID i (w_mem w i) a with Ret (Some (nm, outs)) => exec (ns_next w i nm outs) ops | _ => None end
    else None
  end.

Lemma exec_reach ops : forall w w', nreach H coin N F ID bad vals w -> exec w ops = Some w' -> nreach H coin N F ID bad vals w'.
Proof.
  induction ops as [|(i, a) ops IH]; intros w w' R E; cbn [exec] in E; [congruence|].
  destruct (honb N bad i) eqn:Hi; [|discriminate]. destruct (availb w i a) eqn:AV; [|discriminate]. cbn [andb] in E.
  destruct (nstep H coin N F ID i (w_mem w i) a) as [[(nm, outs)|]| | |] eqn:X; try discriminate.
  apply (IH (ns_next w i nm outs)); [|exact E]. apply nreach_step with (a := a); auto.
  destruct a as [k m|e]; [|exact Logic.I]. cbn [availb available] in *. rewrite !andb_true_iff, negb_true_iff in AV. destruct AV as ((A1 & A2) & A3).
  unfold inb in A1, A3. destruct (in_dec msg_eq_dec (k, m) (w_sent w)); [|discriminate]. destruct (in_dec msg_eq_dec (k, m) (n_got (w_mem w i))); [discriminate|]. auto.
Qed.

(** Nothing is possible at member [i], checked for the messages that were sent and for round 0. *)
Definition stuckb (w : nstate) (i : nat) : bool :=
  let no a := match nstep H coin N F ID i (w_mem w i) a with Ret None => true | _ => false end in
  forallb (fun km => negb (to_me i (snd km)) || inb km (n_got (w_mem w i)) || no (NTake (fst km) (snd km))) (w_sent w) &&
  forallb (fun e => no (NAct e)) [EvElection 0; EvLeader; EvPreVote 0; EvVote 0; EvHaltTake; EvResult] && (m_r (n_st (w_mem w i)) =? 0)%nat.

Lemma stuck_quiet w : nreach H coin N F ID bad vals w ->
  forallb (fun i => match m_out (n_st (w_mem w i)) with Some _ => true | None => stuckb w i end) (filter (honb N bad) (seq 0 N)) = true ->
  quiescent H coin N F ID bad w.
Proof.
  intros R AL i a Hi O AV. rewrite forallb_forall in AL. specialize (AL i (proj2 (hs_in N bad i) Hi)). rewrite O in AL.
  assert (G : ginv H coin N F ID bad (V_of w) w) by (apply (reach_ginv _ _ _ _ _ _ _ vals); [exact R|]; intros k _; apply V_agree).
  unfold stuckb in AL. rewrite !andb_true_iff, !forallb_forall, Nat.eqb_eq in AL. destruct AL as ((A1 & A2) & A3).
  assert (F0 : forall r, r <> 0%nat -> m_rounds (n_st (w_mem w i)) r = rnd0) by (intros r NZ; apply (b_fresh _ _ _ _ _ _ _ _ (q_mem _ _ _ _ _ _ _ _ G i Hi)); lia).
  destruct a as [k m|e].
  - destruct AV as (B1 & B2 & B3). specialize (A1 (k, m) B1). cbn [fst snd] in A1. rewrite B2 in A1. cbn [negb orb] in A1. unfold inb in A1.
    destruct (in_dec msg_eq_dec (k, m) (n_got (w_mem w i))); [contradiction|]. cbn [orb] in A1.
    destruct (nstep H coin N F ID i (w_mem w i) (NTake k m)) as [[?|]| | |]; congruence.
  - assert (A2' : In e [EvElection 0; EvLeader; EvPreVote 0; EvVote 0; EvHaltTake; EvResult] -> nstep H coin N F ID i (w_mem w i) (NAct e) = Ret None).
    { intros I. specialize (A2 e I). destruct (nstep H coin N F ID i (w_mem w i) (NAct e)) as [[?|]| | |]; congruence. }
    destruct e; try reflexivity; cbn [In] in A2'; try (apply A2'; tauto).
    + destruct (Nat.eq_dec r 0) as [->|NZ]; [apply A2'; tauto|]. cbn [nstep internal]. unfold lift. cbn [mstep]. unfold election_step. rewrite (F0 r NZ).
      cbn [rnd0 d_done]. rewrite andb_false_r. reflexivity.
    + destruct (Nat.eq_dec r 0) as [->|NZ]; [apply A2'; tauto|]. cbn [nstep internal]. unfold lift. cbn [mstep]. unfold preVote_step. rewrite (F0 r NZ). reflexivity.
    + destruct (Nat.eq_dec r 0) as [->|NZ]; [apply A2'; tauto|]. cbn [nstep internal]. unfold lift. cbn [mstep]. unfold vote_step. rewrite (F0 r NZ). reflexivity.
Qed.
End Runs.

(** Member [i] puts in the byte [i]. *)
Definition xval (i : nat) : list Z := [Z.of_nat i].
Definition xV (i r : nat) : list Z := xval i.
Definition xH (v : list Z) : list Z := v.
Definition xcoin (_ : list Z) : Z := 0%Z.
Definition xID : list Z := [7%Z].
Definition each (is : list nat) (f : nat -> list nev) : list (nat * nev) := flat_map (fun i => map (fun a => (i, a)) (f i)) is.

Definition tV1 (js : list nat) (i : nat) : list nev := map (fun j => NTake j (mVal1 xV 0 j)) js.
Definition tV2 (js : list nat) (i : nat) : list nev := map (fun j => NTake j (mVal2 xH xID xV 0 j)) js.
Definition tE (s : nat) (ks : list nat) (i : nat) : list nev := map (fun k => NTake k (mEcho xH xID xV 0 i s k)) ks.
Definition tF (ks : list nat) (i : nat) : list nev := map (fun k => NTake k (mFin xH xID xV 0 k)) ks.
Definition tD (ks : list nat) (i : nat) : list nev := map (fun k => NTake k (mDone xID 0 k)) ks.
Definition tPY (N : nat) (ks : list nat) : list nev := map (fun k => NTake k (mPY xH xcoin N xID xV 0)) ks.
Definition tPN (ks : list nat) : list nev := map (fun k => NTake k (mPN xID 0 k)) ks.
Definition tVY (N : nat) (ks : list nat) : list nev := map (fun k => NTake k (mVY xH xcoin N xID xV 0 k)) ks.
Definition tVN (ks : list nat) : list nev := map (fun k => NTake k (mVN xID 0 k)) ks.

(** Three of four members, the fourth sends nothing: all return the value of member 0. *)
Definition good_ops : list (nat * nev) :=
  let a := [0; 1; 2]%nat in
  each a (tV1 a) ++ each a (tE 1 a) ++ each a (tV2 a) ++ each a (tE 2 a) ++ each a (tF a) ++ each a (fun _ => [NAct (EvElection 0)]) ++
  each a (tD a) ++ each a (fun _ => [NAct EvLeader]).

(** All four members are honest and all messages are delivered. *)
Definition mixed_ops : list (nat * nev) :=
  let a := [0; 1; 2; 3]%nat in
  each a (tV1 a) ++ each a (tE 1 [0; 1; 2]%nat) ++ each [0; 1; 2]%nat (fun i => tV2 (if (i =? 0)%nat then a else [1; 2; 3]%nat) i) ++
  each [1; 2; 3]%nat (tE 2 [0; 1; 2]%nat) ++ each a (tF [1; 2; 3]%nat) ++ each a (fun _ => [NAct (EvElection 0)]) ++
  each a (tD [0; 1; 2]%nat) ++ each a (fun _ => [NAct EvLeader]) ++ each a (fun _ => [NAct (EvPreVote 0)]) ++
  each [0; 1]%nat (fun _ => tPY 4 [0%nat] ++ tPN [1; 2; 3]%nat) ++ each [2; 3]%nat (fun _ => tPN [1; 2; 3]%nat ++ tPY 4 [0%nat]) ++
  each a (fun _ => [NAct (EvVote 0)]) ++ each a (fun _ => tVY 4 [0; 1]%nat ++ tVN [2; 3]%nat).

Definition run_ok (bad : list nat) (ops : list (nat * nev)) (chk : nstate -> bool) : bool :=
  match exec xH xcoin 4 1 xID bad (ns_init 4 bad xval) ops with
  | Some w => chk w && forallb (fun i => match m_out (n_st (w_mem w i)) with Some _ => true | None => stuckb xH xcoin 4 1 xID w i end) (filter (honb 4 bad) (seq 0 4))
  | None => false
  end.

Lemma run_reach bad ops chk : run_ok bad ops chk = true ->
  exists w, nreach xH xcoin 4 1 xID bad xval w /\ quiescent xH xcoin 4 1 xID bad w /\ chk w = true.
Proof.
  unfold run_ok. destruct (exec xH xcoin 4 1 xID bad (ns_init 4 bad xval) ops) as [w|] eqn:E; [|discriminate].
  rewrite andb_true_iff. intros (C & Q). exists w. assert (R : nreach xH xcoin 4 1 xID bad xval w).
  { eapply exec_reach; [|exact E]. apply nreach_init. }
  split; [exact R|]. split; [|exact C]. apply (stuck_quiet _ _ _ _ _ _ xval); assumption.
Qed.

(** All members return: an execution as in [c69_ends]. *)
Example c69_ends_ex : exists w, nreach xH xcoin 4 1 xID [3%nat] xval w /\ quiescent xH xcoin 4 1 xID [3%nat] w /\
  length (active 4 [3%nat]) = 3%nat /\ forall i, In i (active 4 [3%nat]) -> returns w i (xval 0).
Proof.
  destruct (run_reach [3%nat] good_ops (fun w => forallb (fun i => match m_out (n_st (w_mem w i)) with Some [0%Z] => true | _ => false end) [0; 1; 2]%nat)) as (w & R & Q & C); [vm_compute; reflexivity|].
  exists w. split; [exact R|]. split; [exact Q|]. split; [reflexivity|]. intros i I. rewrite forallb_forall in C. specialize (C i I). unfold returns. change (xval 0) with [0%Z].
  destruct (m_out (n_st (w_mem w i))) as [[|[| |] [|]]|]; congruence.
Qed.

(** Four members out of four are honest, every message is delivered, and nobody ever returns. *)
Theorem c69_ends_refuted : exists w, nreach xH xcoin 4 1 xID [] xval w /\ quiescent xH xcoin 4 1 xID [] w /\
  active 4 [] = [0; 1; 2; 3]%nat /\ forall i, In i (active 4 []) -> waiting w i.
Proof.
  destruct (run_reach [] mixed_ops (fun w => forallb (fun i => match m_out (n_st (w_mem w i)) with None => true | _ => false end) [0; 1; 2; 3]%nat)) as (w & R & Q & C); [vm_compute; reflexivity|].
  exists w. split; [exact R|]. split; [exact Q|]. split; [reflexivity|]. intros i I. rewrite forallb_forall in C. specialize (C i I). unfold waiting.
  destruct (m_out (n_st (w_mem w i))); congruence.
Qed.
Print Assumptions c69_ends_refuted.
