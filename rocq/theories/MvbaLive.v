(** When the agreement of MvbaNet.v comes to an end: what every execution with honest and silent members keeps. *)

Require Import ZArith List Bool Arith Lia.
From Verif Require Import Bytes CodecModel GoBase DispatchModel MvbaModel MvbaProofs MvbaNet.
Import ListNotations.

Lemma bytes_eqb_refl l : bytes_eqb l l = true.
Proof. unfold bytes_eqb. destruct (list_eq_dec Z.eq_dec l l); congruence. Qed.

Lemma vshare_sh k sm : vshare sm (Sh k sm) = true.
Proof. apply bytes_eqb_refl. Qed.
Lemma vsig_sig sm : vsig sm (Sig sm) = true.
Proof. apply bytes_eqb_refl. Qed.

(** Shares of different members on one message. *)
Definition shares (L : list nat) (sm : list Z) : list share := map (fun k => Sh k sm) L.

Lemma shares_length L sm : length (shares L sm) = length L.
Proof. apply map_length. Qed.
Lemma shares_snoc L sm k : shares L sm ++ [Sh k sm] = shares (L ++ [k]) sm.
Proof. unfold shares. rewrite map_app. reflexivity. Qed.
Lemma shares_signers L sm : map signer (shares L sm) = L.
Proof. unfold shares. rewrite map_map. cbn [signer]. apply map_id. Qed.
Lemma shares_valid L sm s : In s (shares L sm) -> vshare sm s = true.
Proof. unfold shares. intros I. apply in_map_iff in I. destruct I as (k & <- & _). apply vshare_sh. Qed.

Lemma recover_shares t L sm : NoDup L -> (t <= length L)%nat -> recover t sm (shares L sm) = Sig sm.
Proof.
  intros ND LE. apply recover_ok; [rewrite shares_signers; exact ND|intros s; apply shares_valid|rewrite shares_length; exact LE].
Qed.

Lemma nodup_app_l {A} (l l' : list A) : NoDup (l ++ l') -> NoDup l.
Proof.
  induction l as [|a l IH]; cbn [app]; intros ND; [constructor|]. inversion ND as [|x y K ND']; subst.
  constructor; [intros I; apply K, in_or_app; left; exact I|apply IH; exact ND'].
Qed.

Lemma Sender_shares F sm L : NoDup L ->
  (length L <= 2 * F)%nat /\ Sender F sm [] (shares L sm) = None \/
  (2 * F + 1 <= length L)%nat /\ Sender F sm [] (shares L sm) = Some (Sig sm).
Proof.
  assert (G : forall M L0, NoDup (L0 ++ M) -> (length L0 <= 2 * F)%nat ->
    (length (L0 ++ M) <= 2 * F)%nat /\ Sender F sm (shares L0 sm) (shares M sm) = None \/
    (2 * F + 1 <= length (L0 ++ M))%nat /\ Sender F sm (shares L0 sm) (shares M sm) = Some (Sig sm)).
  { induction M as [|k M IH]; intros L0 ND LE.
    - left. rewrite app_nil_r. split; [exact LE|reflexivity].
    - change (shares (k :: M) sm) with (Sh k sm :: shares M sm). cbn [Sender]. rewrite vshare_sh, shares_snoc, shares_length.
      replace (L0 ++ k :: M) with ((L0 ++ [k]) ++ M) in * by (rewrite <- app_assoc; reflexivity).
      destruct (Nat.ltb_spec (2 * F) (length (L0 ++ [k]))) as [LT|GE].
      + right. rewrite app_length. split; [lia|]. f_equal. apply recover_shares; [|lia].
        exact (nodup_app_l _ _ ND).
      + apply IH; [exact ND|exact GE]. }
  intros ND. apply (G L []); [exact ND|cbn [length]; lia].
Qed.

(** [L] is the list of the members whose message [f k] was taken. *)
Definition lists (G : list (nat * msg)) (f : nat -> msg) (L : list nat) : Prop :=
  NoDup L /\ forall k, In k L <-> In (k, f k) G.

Lemma lists_skip G f L k m : lists G f L -> m <> f k -> lists ((k, m) :: G) f L.
Proof.
  intros (ND & E) K. split; [exact ND|]. intros k0. rewrite E. cbn [In]. split; [auto|].
  intros [X|X]; [injection X as <- X; congruence|exact X].
Qed.
Lemma lists_take G f L k : lists G f L -> ~ In (k, f k) G -> lists ((k, f k) :: G) f (L ++ [k]).
Proof.
  intros (ND & E) K. split.
  - apply nodup_snoc; [exact ND|]. rewrite E. exact K.
  - intros k0. rewrite in_app_iff, E. cbn [In]. split.
    + intros [X|[X|[]]]; [auto|subst; auto].
    + intros [X|X]; [injection X as X _; auto|auto].
Qed.

Ltac df := cbn [d_stage d_lock d_fin d_finN d_done d_doneSent d_coins d_lead d_past d_pre d_pn d_flag d_voted d_vy d_vn d_vflag] in *.
Ltac injE X := apply (f_equal (fun x => match x with Ret (Some (a, b)) => Some (a, b) | _ => None end)) in X; cbv beta iota in X;
  let P := fresh in let Q := fresh in
  assert (P := f_equal (fun x => match x with Some (a, _) => Some a | None => None end) X); cbv beta iota in P;
  assert (Q := f_equal (fun x => match x with Some (_, b) => Some b | None => None end) X); cbv beta iota in Q; clear X;
  apply (f_equal (fun x => match x with Some a => a | None => mvba_init [] end)) in P; cbv beta iota in P;
  apply (f_equal (fun x => match x with Some a => a | None => [] end)) in Q; cbv beta iota in Q; subst.
Ltac mcases X :=
  match type of X with
  | mstep _ _ _ _ _ _ ?e = _ => destruct e; cbn [mstep] in X
  end;
  [ unfold value_step in X; destruct (_ && _) eqn:?; [|discriminate]; match goal with SR : (_ && stage_ready _ _ _ ?s)%bool = true |- _ => destruct s as [|[|[|?]]] end; try discriminate; [injE X|destruct (vsig _ _) eqn:?; [injE X|discriminate]]
  | unfold finish_step in X; destruct (_ <=? _)%nat eqn:?; [|discriminate]; destruct (_ && _) eqn:?; [|discriminate]; destruct (vsig _ _) eqn:?; injE X
  | unfold election_step in X; destruct (_ && _) eqn:?; [|discriminate]; injE X
  | unfold done_step in X; destruct (d_lead _) eqn:?; [discriminate|]; destruct (_ <=? _)%nat eqn:?; [|discriminate]; destruct (vshare _ _) eqn:?; injE X
  | unfold leader_step in X; destruct (m_out _) eqn:?; [discriminate|]; destruct (d_lead _) eqn:?; [|discriminate]; destruct (d_past _) eqn:?; [discriminate|];
    destruct (assoc _ _) as [(? & ?)|] eqn:?; injE X
  | unfold preVote_step in X; destruct (d_lead _) eqn:?; [|discriminate]; destruct (_ && _) eqn:?; [|discriminate]; injE X
  | unfold preVoteYes_step in X; destruct (d_lead _) eqn:?; [|discriminate]; destruct (vsig _ _) eqn:?; injE X
  | unfold preVoteNo_step in X; destruct (d_lead _) eqn:?; [|discriminate]; destruct (vshare _ _) eqn:?; injE X
  | unfold vote_step in X; destruct (d_lead _) eqn:?; [|discriminate]; destruct (d_flag _) eqn:?; [|discriminate]; destruct (_ && _) eqn:?; [|discriminate]; injE X
  | unfold voteYes_step in X; destruct (d_lead _) eqn:?; [|discriminate]; destruct (_ && _) eqn:?; injE X
  | unfold voteNo_step in X; destruct (d_lead _) eqn:?; [|discriminate]; destruct (_ && _) eqn:?; injE X
  | unfold halt_step in X; destruct (d_lead _) eqn:?; [|discriminate]; destruct (vsig _ _) eqn:?; [destruct (m_halt _) eqn:?; [discriminate|]|]; injE X
  | unfold haltTake_step in X; destruct (m_out _) eqn:?; [discriminate|]; destruct (m_halt _) eqn:?; [|discriminate]; injE X
  | unfold result_step in X; destruct (m_out _) eqn:?; [discriminate|]; destruct (d_vflag _) as [f|] eqn:?; [|discriminate];
    destruct (d_past _) eqn:?; [|discriminate]; destruct f; injE X ].
Ltac setcases r0 := unfold setr, putr; cbn [m_rounds m_r m_out m_halt]; try (match goal with |- context [if (r0 =? ?r)%nat then _ else m_rounds _ _] => destruct (Nat.eqb_spec r0 r) as [->|]; df end).

Section Live.
Variable H : list Z -> list Z.
Variable coin : list Z -> Z.
Variables N F : nat.
Variable ID : list Z.
Variable V : nat -> nat -> list Z.   (* the value that a member proposes in a round *)

Let ld (r : nat) : nat := leader_of coin N ID r.
Definition em (r j s : nat) : list Z := smEcho ID r j s (H (V j r)).

(** The messages that honest members send. *)
Definition mVal1 (r j : nat) : msg := MValue r j 1 (V j r) NoSig.
Definition mVal2 (r j : nat) : msg := MValue r j 2 (V j r) (Sig (em r j 1)).
Definition mEcho (r j s k : nat) : msg := MEcho r j s (Sh k (em r j s)).
Definition mFin (r k : nat) : msg := MFinish r (V k r) (Sig (em r k 2)).
Definition mDone (r k : nat) : msg := MDone r (Sh k (smDone ID r)).
Definition mPY (r : nat) : msg := MPreYes r (V (ld r) r) (Sig (em r (ld r) 1)).
Definition mPN (r k : nat) : msg := MPreNo r (Sh k (smNo ID r)).
Definition mVY (r k : nat) : msg := MVoteYes r (V (ld r) r) (Sig (em r (ld r) 1)) (Sh k (em r (ld r) 2)).
Definition mVN (r k : nat) : msg := MVoteNo r (Sig (smNo ID r)) (Sh k (smUnlock ID r)).
Definition mHalt (r : nat) : msg := MHalt r (V (ld r) r) (Sig (em r (ld r) 2)).

Inductive good (k : nat) : msg -> Prop :=
| g_val1 r : good k (mVal1 r k)
| g_val2 r : good k (mVal2 r k)
| g_echo1 r j : good k (mEcho r j 1 k)
| g_echo2 r j : good k (mEcho r j 2 k)
| g_fin r : good k (mFin r k)
| g_done r : good k (mDone r k)
| g_py r : good k (mPY r)
| g_pn r : good k (mPN r k)
| g_vy r : good k (mVY r k)
| g_vn r : good k (mVN r k)
| g_halt r : good k (mHalt r).

(** One round of a member that has taken the messages [G]. *)
Record rnv (G : list (nat * msg)) (r : nat) (d : rnd) : Prop := mkRnv {
  a_coins : exists L, d_coins d = shares L (smDone ID r) /\ lists G (mDone r) L;
  a_lead : d_lead d = None /\ (length (d_coins d) <= 2 * F)%nat \/ d_lead d = Some (ld r) /\ (2 * F + 1 <= length (d_coins d))%nat;
  a_fin : exists L, d_fin d = map (fun k => (k, (V k r, Sig (em r k 2)))) L /\ lists G (mFin r) L /\ d_finN d = length L;
  a_done : (2 * F + 1 <= d_finN d)%nat \/ (F + 1 <= length (d_coins d))%nat -> d_done d = true;
  a_past : d_past d = true -> d_lead d <> None;
  a_pre : d_pre d = true -> d_past d = true;
  a_voted : d_voted d = true -> d_past d = true /\ d_flag d <> None;
  a_val1 : forall j, In (j, mVal1 r j) G -> (1 <= d_stage d j)%nat;
  a_val2 : forall j, In (j, mVal2 r j) G -> (2 <= d_stage d j)%nat;
  a_lock : forall j v sg, d_lock d j = Some (v, sg) -> v = V j r /\ sg = Sig (em r j 1) /\ In (j, mVal2 r j) G;
  a_pn : exists L, d_pn d = shares L (smNo ID r) /\ lists G (mPN r) L;
  a_flag : match d_flag d with
           | None => (length (d_pn d) <= 2 * F)%nat /\ forall k, ~ In (k, mPY r) G
           | Some None => (2 * F + 1 <= length (d_pn d))%nat
           | Some (Some (v, sg)) => v = V (ld r) r /\ sg = Sig (em r (ld r) 1) /\ exists k, In (k, mPY r) G
           end;
  a_vy : exists L, d_vy d = shares L (em r (ld r) 2) /\ lists G (mVY r) L;
  a_vn : exists L, d_vn d = shares L (smUnlock ID r) /\ lists G (mVN r) L;
  a_vflag : match d_vflag d with
            | None => (length (d_vy d) <= 2 * F)%nat /\ (length (d_vn d) <= 2 * F)%nat
            | Some (VYes v s) => v = V (ld r) r /\ s = Sig (em r (ld r) 2) /\ (2 * F + 1 <= length (d_vy d))%nat
            | Some (VOther v _) => v = V (ld r) r /\ (1 <= length (d_vy d))%nat
            | Some (VNo _) => (2 * F + 1 <= length (d_vn d))%nat
            end;
  a_votes : d_vflag d <> None -> (2 * F + 1 <= length (d_vy d) + length (d_vn d))%nat }.

(** Nothing of a message for another round or of another kind matters to a round. *)
Definition apart (r : nat) (k : nat) (m : msg) : Prop :=
  m <> mDone r k /\ m <> mFin r k /\ m <> mVal1 r k /\ m <> mVal2 r k /\ m <> mPN r k /\ m <> mPY r /\ m <> mVY r k /\ m <> mVN r k.

Lemma rnv_skip G r d k m : rnv G r d -> apart r k m -> rnv ((k, m) :: G) r d.
Proof.
  intros [] (K1 & K2 & K3 & K4 & K5 & K6 & K7 & K8). constructor; auto.
  - destruct a_coins0 as (L & E1 & E2). exists L. split; [exact E1|apply lists_skip; auto].
  - destruct a_fin0 as (L & E1 & E2 & E3). exists L. split; [exact E1|]. split; [apply lists_skip; auto|exact E3].
  - intros j [X|X]; [injection X as <- X; congruence|auto].
  - intros j [X|X]; [injection X as <- X; congruence|auto].
  - intros j v sg X. destruct (a_lock0 j v sg X) as (Q1 & Q2 & Q3). split; [exact Q1|]. split; [exact Q2|right; exact Q3].
  - destruct a_pn0 as (L & E1 & E2). exists L. split; [exact E1|apply lists_skip; auto].
  - destruct (d_flag d) as [[(v & sg)|]|]; [|exact a_flag0|].
    + destruct a_flag0 as (E1 & E2 & k0 & E3). split; [exact E1|]. split; [exact E2|]. exists k0. right. exact E3.
    + destruct a_flag0 as (E1 & E2). split; [exact E1|]. intros k0 [X|X]; [injection X as <- X; congruence|exact (E2 k0 X)].
  - destruct a_vy0 as (L & E1 & E2). exists L. split; [exact E1|apply lists_skip; auto].
  - destruct a_vn0 as (L & E1 & E2). exists L. split; [exact E1|apply lists_skip; auto].
Qed.

Lemma rnv0 r : rnv [] r rnd0.
Proof.
  assert (LN : forall f, lists [] f []) by (intros f; split; [constructor|intros k; reflexivity]).
  constructor; cbn [rnd0 d_stage d_lock d_fin d_finN d_done d_doneSent d_coins d_lead d_past d_pre d_pn d_flag d_voted d_vy d_vn d_vflag length];
    try discriminate; try (exists []; auto; fail); auto.
  - left. split; [reflexivity|lia].
  - lia.
  - intros j [].
  - intros j [].
  - split; [lia|intros k []].
  - split; lia.
  - congruence.
Qed.

(** A member. *)
Record linv (i : nat) (nm : nmem) : Prop := mkLinv {
  b_got : forall k m, In (k, m) (n_got nm) -> good k m;
  b_round : forall r, rnv (n_got nm) r (m_rounds (n_st nm) r);
  b_fresh : forall r, (m_r (n_st nm) < r)%nat -> m_rounds (n_st nm) r = rnd0;
  b_next : forall r, (r < m_r (n_st nm))%nat -> d_past (m_rounds (n_st nm) r) = true /\ d_vflag (m_rounds (n_st nm) r) <> None;
  b_cur : n_prop nm (m_r (n_st nm)) = m_val (n_st nm);
  b_ech : forall r s, exists L, n_ech nm r s = shares L (em r i s) /\ lists (n_got nm) (mEcho r i s) L /\
            (m_r (n_st nm) < r -> L = [])%nat;
  b_halt : forall k r, In (k, mHalt r) (n_got nm) -> m_halt (n_st nm) <> None \/ m_out (n_st nm) <> None }.

(** The member proposes what [V] says. *)
Definition agree (i : nat) (nm : nmem) : Prop := forall r, (r <= m_r (n_st nm))%nat -> n_prop nm r = V i r.

Lemma lists_cons G f L k : lists G f L -> ~ In (k, f k) G -> lists ((k, f k) :: G) f (k :: L).
Proof.
  intros (ND & Q) K. split.
  - constructor; [rewrite Q; exact K|exact ND].
  - intros k0. cbn [In]. rewrite Q. split.
    + intros [X|X]; [subst; auto|auto].
    + intros [X|X]; [injection X as X _; auto|auto].
Qed.

Definition mround (m : msg) : nat :=
  match m with
  | MValue r _ _ _ _ | MEcho r _ _ _ | MFinish r _ _ | MDone r _ | MPreYes r _ _ | MPreNo r _ | MVoteYes r _ _ _ | MVoteNo r _ _ | MHalt r _ _ => r
  end.

Lemma apart_round r k m : mround m <> r -> apart r k m.
Proof. intros K. repeat split; intros ->; apply K; reflexivity. Qed.

Lemma rounds_put st G k m r0 d : mround m = r0 -> (forall r, rnv G r (m_rounds st r)) -> rnv ((k, m) :: G) r0 d ->
  forall r, rnv ((k, m) :: G) r (m_rounds (setr st r0 d) r).
Proof.
  intros R A B r. unfold setr, putr. cbn [m_rounds]. destruct (Nat.eqb_spec r r0) as [->|K]; [exact B|].
  apply rnv_skip; [apply A|]. apply apart_round. congruence.
Qed.
Lemma rounds_put0 st G r0 d : (forall r, rnv G r (m_rounds st r)) -> rnv G r0 d -> forall r, rnv G r (m_rounds (setr st r0 d) r).
Proof. intros A B r. unfold setr, putr. cbn [m_rounds]. destruct (Nat.eqb_spec r r0) as [->|K]; [exact B|apply A]. Qed.


Ltac skipL X := let L := fresh "L" in let A := fresh in let B := fresh in
  destruct X as (L & A & B); exists L; split; [exact A|apply lists_skip; [exact B|discriminate]].
Ltac skipF X := let L := fresh "L" in let A := fresh in let B := fresh in let C := fresh in
  destruct X as (L & A & B & C); exists L; split; [exact A|]; split; [apply lists_skip; [exact B|discriminate]|exact C].
Ltac skipK X := intros ? ? ? ?; let Q1 := fresh in let Q2 := fresh in let Q3 := fresh in
  edestruct X as (Q1 & Q2 & Q3); [eassumption|]; split; [exact Q1|]; split; [exact Q2|right; exact Q3].
Ltac skipV := let j := fresh in let X := fresh in intros j [X|X]; [discriminate X|auto].
Ltac skipFlag d X := destruct (d_flag d) as [[(? & ?)|]|]; [|exact X|];
  [destruct X as (? & ? & ? & ?); repeat (split; [assumption|]); eexists; right; eassumption
  |destruct X as (? & ?); split; [assumption|]; let k := fresh in let Y := fresh in intros k [Y|Y]; [discriminate Y|];
   match goal with P : forall _, ~ In _ _ |- _ => exact (P _ Y) end].

(** What a step of MvbaModel.v does to the rounds when its message is one that honest members send. *)
Definition rounds_ok (G : list (nat * msg)) (st : mst) : Prop := forall r, rnv G r (m_rounds st r).

Lemma value1_rounds G st r j st' sms : rounds_ok G st -> ~ In (j, mVal1 r j) G ->
  mstep H coin N F ID st (EvValue r j 1 (V j r) NoSig) = Ret (Some (st', sms)) -> rounds_ok ((j, mVal1 r j) :: G) st'.
Proof.
  intros A K X. cbn [mstep] in X. unfold value_step in X. destruct (_ && _) eqn:EB; [|discriminate]. injE X.
  unfold rounds_ok; apply (rounds_put st G j (mVal1 r j)); [reflexivity|exact A|].
  destruct (A r) as [c1 c2 c3 c4 c5 c6 c7 c8 c9 c10 c11 c12 c13 c14 c15 c16].
  rewrite !andb_true_iff in EB. destruct EB as [_ EB]. apply stage_ready_up in EB.
  constructor; df; auto; try (skipL c1); try (skipL c11); try (skipL c13); try (skipL c14); try (skipF c3).
  - intros j0 [X|X]; unfold up; [injection X as <- _; rewrite Nat.eqb_refl; lia|].
    destruct (Nat.eqb_spec j0 j); [lia|apply c8; exact X].
  - intros j0 [X|X]; unfold up; [discriminate X|]. destruct (Nat.eqb_spec j0 j); [subst; specialize (c9 j X); lia|apply c9; exact X].
  - skipK c10.
  - skipFlag (m_rounds st r) c12.
Qed.

Lemma value2_rounds G st r j st' sms : rounds_ok G st -> ~ In (j, mVal2 r j) G ->
  mstep H coin N F ID st (EvValue r j 2 (V j r) (Sig (em r j 1))) = Ret (Some (st', sms)) -> rounds_ok ((j, mVal2 r j) :: G) st'.
Proof.
  intros A K X. cbn [mstep] in X. unfold value_step in X. destruct (_ && _) eqn:EB; [|discriminate].
  change (smEcho ID r j 1 (H (V j r))) with (em r j 1) in X. rewrite vsig_sig in X. injE X.
  unfold rounds_ok; apply (rounds_put st G j (mVal2 r j)); [reflexivity|exact A|].
  destruct (A r) as [c1 c2 c3 c4 c5 c6 c7 c8 c9 c10 c11 c12 c13 c14 c15 c16].
  constructor; df; auto; try (skipL c1); try (skipL c11); try (skipL c13); try (skipL c14); try (skipF c3).
  - intros j0 [X|X]; unfold up; [discriminate X|]. destruct (Nat.eqb_spec j0 j); [lia|apply c8; exact X].
  - intros j0 [X|X]; unfold up; [injection X as <- _; rewrite Nat.eqb_refl; lia|].
    destruct (Nat.eqb_spec j0 j); [lia|apply c9; exact X].
  - intros j0 v sg. unfold up. destruct (Nat.eqb_spec j0 j) as [->|]; [intros X; injection X as <- <-; repeat split; left; reflexivity|]. intros X.
    destruct (c10 j0 v sg X) as (Q1 & Q2 & Q3). split; [exact Q1|]. split; [exact Q2|right; exact Q3].
  - skipFlag (m_rounds st r) c12.
Qed.

Lemma finish_rounds G st r k st' sms : (k < N)%nat -> rounds_ok G st -> ~ In (k, mFin r k) G ->
  mstep H coin N F ID st (EvFinish r (Z.of_nat k) (V k r) (Sig (em r k 2))) = Ret (Some (st', sms)) -> rounds_ok ((k, mFin r k) :: G) st'.
Proof.
  intros KN A K X. cbn [mstep] in X. unfold finish_step in X. destruct (r <=? m_r st)%nat; [|discriminate].
  destruct (_ && _); [|discriminate]. rewrite Nat2Z.id in X.
  change (smEcho ID r k 2 (H (V k r))) with (em r k 2) in X. rewrite vsig_sig in X. injE X.
  unfold rounds_ok; apply (rounds_put st G k (mFin r k)); [reflexivity|exact A|].
  destruct (A r) as [c1 c2 c3 c4 c5 c6 c7 c8 c9 c10 c11 c12 c13 c14 c15 c16].
  constructor; df; auto; try (skipL c1); try (skipL c11); try (skipL c13); try (skipL c14); try skipV; try (skipK c10).
  - destruct c3 as (L & E1 & E2 & E3). exists (k :: L). cbn [map length]. rewrite E1, E3. split; [reflexivity|]. split; [|reflexivity].
    apply (lists_cons G (mFin r) L k E2 K).
  - intros [X|X].
    + destruct (Nat.eqb_spec (S (d_finN (m_rounds st r))) (2 * F + 1)); [apply orb_true_r|]. rewrite c4 by (left; lia). reflexivity.
    + rewrite c4 by (right; exact X). reflexivity.
  - skipFlag (m_rounds st r) c12.
Qed.

Lemma done_rounds G st r k st' sms : rounds_ok G st -> ~ In (k, mDone r k) G ->
  mstep H coin N F ID st (EvDone r (Sh k (smDone ID r))) = Ret (Some (st', sms)) -> rounds_ok ((k, mDone r k) :: G) st'.
Proof.
  intros A K X. cbn [mstep] in X. unfold done_step in X. destruct (d_lead (m_rounds st r)) eqn:EL; [discriminate|].
  destruct (r <=? m_r st)%nat; [|discriminate]. rewrite vshare_sh in X. injE X.
  unfold rounds_ok; apply (rounds_put st G k (mDone r k)); [reflexivity|exact A|].
  destruct (A r) as [c1 c2 c3 c4 c5 c6 c7 c8 c9 c10 c11 c12 c13 c14 c15 c16].
  destruct c1 as (L & E1 & E2). pose proof (lists_take G (mDone r) L k E2 K) as T.
  destruct c2 as [(_ & c2)|(c2 & _)]; [|congruence]. rewrite E1, shares_length in c2, c4.
  constructor; df; auto; try (skipL c11); try (skipL c13); try (skipL c14); try (skipF c3); try skipV; try (skipK c10); rewrite ?E1, ?shares_snoc.
  - exists (L ++ [k]). auto.
  - destruct (Nat.ltb_spec (2 * F) (length (shares (L ++ [k]) (smDone ID r)))) as [LT|GE]; [right|left; split; [reflexivity|lia]].
    rewrite recover_shares; [|apply T|rewrite shares_length in LT; lia]. split; [reflexivity|lia].
  - intros [X|X]; [rewrite c4 by (left; exact X); reflexivity|].
    destruct (Nat.eqb_spec (length (shares (L ++ [k]) (smDone ID r))) (F + 1)) as [|NE]; [apply orb_true_r|].
    rewrite c4; [reflexivity|]. right. rewrite !shares_length, app_length in *. cbn [length] in *. lia.
  - intros X. specialize (c5 X). congruence.
  - skipFlag (m_rounds st r) c12.
Qed.

Lemma election_rounds G st r st' sms : rounds_ok G st -> mstep H coin N F ID st (EvElection r) = Ret (Some (st', sms)) -> rounds_ok G st'.
Proof.
  intros A X. cbn [mstep] in X. unfold election_step in X. destruct (_ && _); [|discriminate]. injE X.
  unfold rounds_ok; apply rounds_put0; [exact A|]. destruct (A r). constructor; df; auto.
Qed.

Lemma leader_rounds G st st' sms : rounds_ok G st -> mstep H coin N F ID st EvLeader = Ret (Some (st', sms)) -> rounds_ok G st'.
Proof.
  intros A X. cbn [mstep] in X. unfold leader_step in X. destruct (m_out st); [discriminate|].
  destruct (d_lead (m_rounds st (m_r st))) as [l|] eqn:EL; [|discriminate]. destruct (d_past _) eqn:EP; [discriminate|].
  assert (R : rounds_ok G (setr st (m_r st) (let d := m_rounds st (m_r st) in mkD (d_stage d) (d_lock d) (d_fin d) (d_finN d) (d_done d) (d_doneSent d) (d_coins d) (Some l) true
                            (d_pre d) (d_pn d) (d_flag d) (d_voted d) (d_vy d) (d_vn d) (d_vflag d)))).
  { unfold rounds_ok; apply rounds_put0; [exact A|]. destruct (A (m_r st)) as [c1 c2 c3 c4 c5 c6 c7 c8 c9 c10 c11 c12 c13 c14 c15 c16]. rewrite EL in c2.
    constructor; df; auto; [discriminate|]. intros X1. split; [reflexivity|apply c7; exact X1]. }
  destruct (assoc _ _) as [(v & sg)|]; injE X; exact R.
Qed.

Lemma preVote_rounds G st r st' sms : rounds_ok G st -> mstep H coin N F ID st (EvPreVote r) = Ret (Some (st', sms)) -> rounds_ok G st'.
Proof.
  intros A X. cbn [mstep] in X. unfold preVote_step in X. destruct (d_lead (m_rounds st r)) eqn:EL; [|discriminate].
  destruct (_ && _) eqn:EB; [|discriminate]. rewrite andb_true_iff in EB. injE X.
  unfold rounds_ok; apply rounds_put0; [exact A|]. destruct (A r) as [c1 c2 c3 c4 c5 c6 c7 c8 c9 c10 c11 c12 c13 c14 c15 c16]. rewrite EL in *.
  constructor; df; auto. intros _. apply EB.
Qed.

Lemma preYes_rounds G st r k st' sms : rounds_ok G st -> ~ In (k, mPY r) G ->
  mstep H coin N F ID st (EvPreVoteYes r (V (ld r) r) (Sig (em r (ld r) 1))) = Ret (Some (st', sms)) -> rounds_ok ((k, mPY r) :: G) st'.
Proof.
  intros A K X. cbn [mstep] in X. unfold preVoteYes_step in X. destruct (d_lead (m_rounds st r)) as [l|] eqn:EL; [|discriminate].
  destruct (A r) as [c1 c2 c3 c4 c5 c6 c7 c8 c9 c10 c11 c12 c13 c14 c15 c16].
  destruct c2 as [(c2 & _)|(c2 & c2')]; [congruence|]. rewrite EL in c2. injection c2 as ->.
  change (smEcho ID r (ld r) 1 (H (V (ld r) r))) with (em r (ld r) 1) in X. rewrite vsig_sig in X. injE X.
  unfold rounds_ok; apply (rounds_put st G k (mPY r)); [reflexivity|exact A|]. rewrite EL in *.
  constructor; df; auto; try (skipL c1); try (skipL c11); try (skipL c13); try (skipL c14); try (skipF c3); try skipV; try (skipK c10).
  - intros X. destruct (c7 X) as (Y & Z). split; [exact Y|]. destruct (d_flag _); congruence.
  - destruct (d_flag (m_rounds st r)) as [[(v & sg)|]|].
    + destruct c12 as (E1 & E2 & k0 & E3). split; [exact E1|]. split; [exact E2|]. exists k0. right. exact E3.
    + exact c12.
    + split; [reflexivity|]. split; [reflexivity|]. exists k. left. reflexivity.
Qed.

Lemma preNo_rounds G st r k st' sms : rounds_ok G st -> ~ In (k, mPN r k) G ->
  mstep H coin N F ID st (EvPreVoteNo r (Sh k (smNo ID r))) = Ret (Some (st', sms)) -> rounds_ok ((k, mPN r k) :: G) st'.
Proof.
  intros A K X. cbn [mstep] in X. unfold preVoteNo_step in X. destruct (d_lead (m_rounds st r)) as [l|] eqn:EL; [|discriminate].
  rewrite vshare_sh in X. injE X.
  unfold rounds_ok; apply (rounds_put st G k (mPN r k)); [reflexivity|exact A|].
  destruct (A r) as [c1 c2 c3 c4 c5 c6 c7 c8 c9 c10 c11 c12 c13 c14 c15 c16]. rewrite EL in *.
  destruct c11 as (L & E1 & E2). pose proof (lists_take G (mPN r) L k E2 K) as T. rewrite E1, shares_length in c12.
  constructor; df; auto; try (skipL c1); try (skipL c13); try (skipL c14); try (skipF c3); try skipV; try (skipK c10); rewrite ?E1, ?shares_snoc.
  - intros X. destruct (c7 X) as (Y & Z). split; [exact Y|]. destruct (d_flag _); congruence.
  - exists (L ++ [k]). auto.
  - rewrite shares_length in *. destruct (d_flag (m_rounds st r)) as [[(v & sg)|]|].
    + destruct c12 as (Q1 & Q2 & k0 & Q3). split; [exact Q1|]. split; [exact Q2|]. exists k0. right. exact Q3.
    + rewrite app_length. cbn [length]. lia.
    + destruct (Nat.ltb_spec (2 * F) (length (L ++ [k]))) as [LT|GE]; [lia|]. split; [lia|]. intros k0 [Y|Y]; [discriminate Y|exact (proj2 c12 k0 Y)].
Qed.

Lemma vote_rounds G st r st' sms : rounds_ok G st -> mstep H coin N F ID st (EvVote r) = Ret (Some (st', sms)) -> rounds_ok G st'.
Proof.
  intros A X. cbn [mstep] in X. unfold vote_step in X. destruct (d_lead (m_rounds st r)) eqn:EL; [|discriminate].
  destruct (d_flag (m_rounds st r)) as [f|] eqn:EF; [|discriminate].
  destruct (_ && _) eqn:EB; [|discriminate]. rewrite andb_true_iff in EB. injE X.
  unfold rounds_ok; apply rounds_put0; [exact A|]. destruct (A r) as [c1 c2 c3 c4 c5 c6 c7 c8 c9 c10 c11 c12 c13 c14 c15 c16]. rewrite EL, EF in *.
  constructor; df; auto. intros _. split; [apply EB|discriminate].
Qed.

Lemma voteYes_rounds G st r k st' sms : rounds_ok G st -> ~ In (k, mVY r k) G ->
  mstep H coin N F ID st (EvVoteYes r (V (ld r) r) (Sig (em r (ld r) 1)) (Sh k (em r (ld r) 2))) = Ret (Some (st', sms)) -> rounds_ok ((k, mVY r k) :: G) st'.
Proof.
  intros A K X. cbn [mstep] in X. unfold voteYes_step in X. destruct (d_lead (m_rounds st r)) as [l|] eqn:EL; [|discriminate].
  destruct (A r) as [c1 c2 c3 c4 c5 c6 c7 c8 c9 c10 c11 c12 c13 c14 c15 c16].
  destruct c2 as [(c2 & _)|(c2 & c2')]; [congruence|]. rewrite EL in c2. injection c2 as ->.
  change (smEcho ID r (ld r) 1 (H (V (ld r) r))) with (em r (ld r) 1) in X.
  change (smEcho ID r (ld r) 2 (H (V (ld r) r))) with (em r (ld r) 2) in X. rewrite vsig_sig, vshare_sh in X. cbn [andb] in X. injE X.
  unfold rounds_ok; apply (rounds_put st G k (mVY r k)); [reflexivity|exact A|]. rewrite EL in *.
  destruct c13 as (L & E1 & E2). pose proof (lists_take G (mVY r) L k E2 K) as T. rewrite E1, shares_length in c15, c16.
  constructor; df; auto; try (skipL c1); try (skipL c11); try (skipL c14); try (skipF c3); try skipV; try (skipK c10); rewrite ?E1, ?shares_snoc.
  - skipFlag (m_rounds st r) c12.
  - exists (L ++ [k]). auto.
  - rewrite !shares_length in *. destruct (d_vflag (m_rounds st r)) as [[v s|s|v s]|]; cbn [first]; auto.
    { destruct c15 as (Q1 & Q2 & Q3). rewrite app_length. cbn [length]. split; [exact Q1|]. split; [exact Q2|lia]. }
    { destruct c15 as (Q1 & Q3). rewrite app_length. cbn [length]. split; [exact Q1|lia]. }
    destruct (Nat.ltb_spec (2 * F) (length (L ++ [k]))) as [LT|GE].
    + split; [reflexivity|]. split; [apply recover_shares; [apply T|lia]|lia].
    + destruct (_ <? _)%nat; [split; [reflexivity|rewrite app_length; cbn [length]; lia]|]. split; [lia|apply c15].
  - rewrite !shares_length in *. intros X. destruct (d_vflag (m_rounds st r)) as [x|].
    + rewrite app_length. cbn [length]. assert (Some x <> None) as Y by discriminate. specialize (c16 Y). lia.
    + cbn [first] in X. destruct (Nat.ltb_spec (2 * F) (length (L ++ [k]))) as [LT|GE]; [lia|].
      destruct (Nat.ltb_spec (2 * F) (length (L ++ [k]) + length (d_vn (m_rounds st r)))); [lia|congruence].
Qed.

Lemma voteNo_rounds G st r k st' sms : rounds_ok G st -> ~ In (k, mVN r k) G ->
  mstep H coin N F ID st (EvVoteNo r (Sig (smNo ID r)) (Sh k (smUnlock ID r))) = Ret (Some (st', sms)) -> rounds_ok ((k, mVN r k) :: G) st'.
Proof.
  intros A K X. cbn [mstep] in X. unfold voteNo_step in X. destruct (d_lead (m_rounds st r)) as [l|] eqn:EL; [|discriminate].
  rewrite vsig_sig, vshare_sh in X. cbn [andb] in X. injE X.
  unfold rounds_ok; apply (rounds_put st G k (mVN r k)); [reflexivity|exact A|].
  destruct (A r) as [c1 c2 c3 c4 c5 c6 c7 c8 c9 c10 c11 c12 c13 c14 c15 c16]. rewrite EL in *.
  destruct c14 as (L & E1 & E2). pose proof (lists_take G (mVN r) L k E2 K) as T. rewrite E1, shares_length in c15, c16.
  constructor; df; auto; try (skipL c1); try (skipL c11); try (skipL c13); try (skipF c3); try skipV; try (skipK c10); rewrite ?E1, ?shares_snoc.
  - skipFlag (m_rounds st r) c12.
  - exists (L ++ [k]). auto.
  - rewrite !shares_length in *. destruct (d_vflag (m_rounds st r)) as [[v s|s|v s]|]; cbn [first]; auto.
    { rewrite app_length. cbn [length]. lia. }
    destruct (Nat.ltb_spec (2 * F) (length (L ++ [k]))) as [LT|GE]; [lia|]. split; [apply c15|lia].
  - rewrite !shares_length in *. intros X. destruct (d_vflag (m_rounds st r)) as [x|].
    + rewrite app_length. cbn [length]. assert (Some x <> None) as Y by discriminate. specialize (c16 Y). lia.
    + cbn [first] in X. destruct (Nat.ltb_spec (2 * F) (length (L ++ [k]))) as [LT|GE]; [lia|congruence].
Qed.

Lemma take_rounds G st k m e st' sms : rounds_ok G st -> good k m -> (k < N)%nat -> ~ In (k, m) G -> event_of k m = Some e ->
  mstep H coin N F ID st e = Ret (Some (st', sms)) -> rounds_ok ((k, m) :: G) st'.
Proof.
  intros A GD KN K EV X. destruct GD; cbn [event_of mVal1 mVal2 mEcho mFin mDone mPY mPN mVY mVN mHalt] in EV; try discriminate; injection EV as <-.
  - eapply value1_rounds; eauto.
  - eapply value2_rounds; eauto.
  - eapply finish_rounds; eauto.
  - eapply done_rounds; eauto.
  - eapply preYes_rounds; eauto.
  - eapply preNo_rounds; eauto.
  - eapply voteYes_rounds; eauto.
  - eapply voteNo_rounds; eauto.
  - cbn [mstep] in X. unfold halt_step in X. destruct (d_lead _) as [l|]; [|discriminate].
    assert (R : rounds_ok ((k, mHalt r) :: G) st).
    { intros r0. apply rnv_skip; [apply A|]. repeat split; discriminate. }
    destruct (vsig _ _); [destruct (m_halt st); [discriminate|]|]; injE X; exact R.
Qed.

Lemma act_rounds G st e st' sms : rounds_ok G st -> internal e = true ->
  mstep H coin N F ID st e = Ret (Some (st', sms)) -> rounds_ok G st'.
Proof.
  intros A IE X. destruct e; cbn [internal] in IE; try discriminate.
  - eapply election_rounds; eauto.
  - eapply leader_rounds; eauto.
  - eapply preVote_rounds; eauto.
  - eapply vote_rounds; eauto.
  - cbn [mstep] in X. unfold haltTake_step in X. destruct (m_out st); [discriminate|]. destruct (m_halt st); [|discriminate]. injE X. exact A.
  - cbn [mstep] in X. unfold result_step in X. destruct (m_out st); [discriminate|]. destruct (d_vflag _) as [f|]; [|discriminate].
    destruct (d_past _); [|discriminate]. destruct f; injE X; exact A.
Qed.

Lemma putr_any (P : rnd -> Prop) st r d r0 : P d -> P (m_rounds st r0) -> P (m_rounds (setr st r d) r0).
Proof. intros A B. unfold setr, putr. cbn [m_rounds]. destruct (r0 =? r)%nat; assumption. Qed.


Lemma step_vflag st e st' sms r0 : mstep H coin N F ID st e = Ret (Some (st', sms)) ->
  d_vflag (m_rounds st r0) <> None -> d_vflag (m_rounds st' r0) <> None.
Proof.
  intros X K. mcases X; try exact K;
    try (unfold setr, putr; cbn [m_rounds]; destruct (Nat.eqb_spec r0 r) as [->|]; [df|exact K]; try exact K).
  - unfold setr, putr; cbn [m_rounds]. destruct (Nat.eqb_spec r0 (m_r st)) as [->|]; [df|]; exact K.
  - unfold setr, putr; cbn [m_rounds]. destruct (Nat.eqb_spec r0 (m_r st)) as [->|]; [df|]; exact K.
  - destruct (d_vflag (m_rounds st r)); [discriminate|congruence].
  - destruct (d_vflag (m_rounds st r)); [discriminate|congruence].
Qed.

Lemma step_round st e st' sms : mstep H coin N F ID st e = Ret (Some (st', sms)) ->
  (m_r st' = m_r st /\ m_val st' = m_val st) \/
  (m_r st' = S (m_r st) /\ d_past (m_rounds st (m_r st)) = true /\ d_vflag (m_rounds st (m_r st)) <> None).
Proof.
  intros X. mcases X; cbn [setr m_r m_val]; auto.
  - right. repeat split; auto; congruence.
  - right. repeat split; auto; congruence.
Qed.

Lemma step_fresh0 st e st' sms : (forall r, (m_r st < r)%nat -> m_rounds st r = rnd0) ->
  mstep H coin N F ID st e = Ret (Some (st', sms)) -> forall r, (m_r st' < r)%nat -> m_rounds st' r = rnd0.
Proof.
  intros B X.
  assert (LR : forall r l, d_lead (m_rounds st r) = Some l -> (r <= m_r st)%nat).
  { intros r l Hl. destruct (Nat.le_gt_cases r (m_r st)) as [K|K]; [exact K|]. rewrite (B r K) in Hl. discriminate. }
  assert (P : forall r0 d, (r0 <= m_r st)%nat -> forall r, (m_r st < r)%nat -> m_rounds (setr st r0 d) r = rnd0).
  { intros r0 d L r Hr. unfold setr, putr. cbn [m_rounds]. destruct (Nat.eqb_spec r r0); [lia|apply B; exact Hr]. }
  mcases X; cbn [setr m_r]; try exact B; try (apply P; eauto; fail);
    try (apply P; rewrite ?andb_true_iff, ?Nat.leb_le in *; tauto).
  - intros r Hr. cbn [m_rounds] in *. apply B. lia.
  - intros r Hr. cbn [m_rounds] in *. apply B. lia.
Qed.

Lemma echo_cases i nm r s sh got nm' outs : echo_step H F ID i nm r s sh got = Some (nm', outs) ->
  r = m_r (n_st nm) /\ d_past (m_rounds (n_st nm) r) = false /\ (s = 1 \/ s = 2)%nat /\ nm' = put_ech nm r s (n_ech nm r s ++ [sh]) got.
Proof.
  unfold echo_step. destruct (_ && _) eqn:EB; [|discriminate]. rewrite andb_true_iff, Nat.eqb_eq, negb_true_iff in EB.
  destruct EB as (-> & P). destruct s as [|[|[|s]]]; try discriminate.
  - destruct (sender _ _ _ _ _ _ 1 _); [discriminate|]. intros X. apply (f_equal (fun x => match x with Some (a, _) => a | None => nm' end)) in X. subst. auto.
  - destruct (sender _ _ _ _ _ _ 1 _); [|discriminate]. destruct (sender _ _ _ _ _ _ 2 _); [discriminate|].
    intros X. apply (f_equal (fun x => match x with Some (a, _) => a | None => nm' end)) in X. subst. auto.
Qed.

(** What a taken message must be. *)
Definition proper (i : nat) (nm : nmem) (a : nev) : Prop :=
  match a with NTake k m => good k m /\ (k < N)%nat /\ to_me i m = true /\ ~ In (k, m) (n_got nm) | NAct _ => True end.

Lemma lift_cases i nm e got nm' outs : lift H coin N F ID i nm e got = Ret (Some (nm', outs)) ->
  exists sms, mstep H coin N F ID (n_st nm) e = Ret (Some (n_st nm', sms)) /\ outs = emits H F ID i (n_st nm) e /\ n_got nm' = got /\ n_ech nm' = n_ech nm /\
    n_prop nm' = if (m_r (n_st nm') =? m_r (n_st nm))%nat then n_prop nm else up (n_prop nm) (m_r (n_st nm')) (m_val (n_st nm')).
Proof.
  unfold lift. destruct (mstep _ _ _ _ _ _ _) as [[(st' & sms)|]| | |] eqn:X; try discriminate. intros Y.
  assert (P := f_equal (fun x => match x with Ret (Some (a, _)) => a | _ => nm' end) Y).
  assert (Q := f_equal (fun x => match x with Ret (Some (_, b)) => b | _ => outs end) Y). cbv beta iota in P, Q. subst nm' outs.
  exists sms. cbn [n_st n_got n_ech n_prop]. auto.
Qed.

(** A step is a step of MvbaModel.v or takes an Echo message. *)
Lemma nstep_cases i nm a nm' outs : nstep H coin N F ID i nm a = Ret (Some (nm', outs)) ->
  (exists k m e sms, a = NTake k m /\ event_of k m = Some e /\ mstep H coin N F ID (n_st nm) e = Ret (Some (n_st nm', sms)) /\
     outs = emits H F ID i (n_st nm) e /\ n_got nm' = (k, m) :: n_got nm /\ n_ech nm' = n_ech nm /\
     n_prop nm' = if (m_r (n_st nm') =? m_r (n_st nm))%nat then n_prop nm else up (n_prop nm) (m_r (n_st nm')) (m_val (n_st nm'))) \/
  (exists k r j s sh, a = NTake k (MEcho r j s sh) /\ echo_step H F ID i nm r s sh ((k, MEcho r j s sh) :: n_got nm) = Some (nm', outs)) \/
  (exists e sms, a = NAct e /\ internal e = true /\ mstep H coin N F ID (n_st nm) e = Ret (Some (n_st nm', sms)) /\
     outs = emits H F ID i (n_st nm) e /\ n_got nm' = n_got nm /\ n_ech nm' = n_ech nm /\
     n_prop nm' = if (m_r (n_st nm') =? m_r (n_st nm))%nat then n_prop nm else up (n_prop nm) (m_r (n_st nm')) (m_val (n_st nm'))).
Proof.
  unfold nstep. destruct a as [k m|e].
  - destruct (event_of k m) as [e|] eqn:EV.
    + intros X. left. exists k, m, e.
      assert (Y : lift H coin N F ID i nm e ((k, m) :: n_got nm) = Ret (Some (nm', outs))) by (destruct m; try exact X; discriminate EV).
      apply lift_cases in Y. destruct Y as (sms & Y). exists sms. auto.
    + destruct m; cbn [event_of] in EV; try discriminate. intros X. right. left. exists k, r, j, stage, sh. split; [reflexivity|]. congruence.
  - destruct (internal e) eqn:IE; [|discriminate]. intros X. right. right. exists e. apply lift_cases in X. destruct X as (sms & X). exists sms. auto.
Qed.

Definition hst (st : mst) : Prop := m_halt st <> None \/ m_out st <> None.

Lemma hst_mono st e st' sms : mstep H coin N F ID st e = Ret (Some (st', sms)) -> hst st -> hst st'.
Proof. intros ST HT. mcases ST; unfold hst in *; cbn [setr m_halt m_out] in *; auto; try (right; discriminate); try (left; discriminate); destruct HT; try congruence; auto. Qed.

Lemma hst_take st r st' sms : (d_lead (m_rounds st r) = None \/ d_lead (m_rounds st r) = Some (ld r)) ->
  mstep H coin N F ID st (EvHalt r (V (ld r) r) (Sig (em r (ld r) 2))) = Ret (Some (st', sms)) -> hst st'.
Proof.
  intros LD X. cbn [mstep] in X. unfold halt_step in X. destruct LD as [LD|LD]; rewrite LD in X; [discriminate|].
  change (smEcho ID r (ld r) 2 (H (V (ld r) r))) with (em r (ld r) 2) in X. rewrite vsig_sig in X.
  destruct (m_halt st); [discriminate|]. injE X. left. discriminate.
Qed.

Lemma step_linv i nm a nm' outs : linv i nm -> proper i nm a -> agree i nm' ->
  nstep H coin N F ID i nm a = Ret (Some (nm', outs)) -> linv i nm'.
Proof.
  intros [b1 b2 b3 b4 b5 b6 b7] PR AG X.
  assert (CUR : forall e sms, mstep H coin N F ID (n_st nm) e = Ret (Some (n_st nm', sms)) ->
    n_prop nm' = (if (m_r (n_st nm') =? m_r (n_st nm))%nat then n_prop nm else up (n_prop nm) (m_r (n_st nm')) (m_val (n_st nm'))) ->
    (forall r, (m_r (n_st nm') < r)%nat -> m_rounds (n_st nm') r = rnd0) /\
    (forall r, (r < m_r (n_st nm'))%nat -> d_past (m_rounds (n_st nm') r) = true /\ d_vflag (m_rounds (n_st nm') r) <> None) /\
    n_prop nm' (m_r (n_st nm')) = m_val (n_st nm') /\ (m_r (n_st nm) <= m_r (n_st nm'))%nat).
  { intros e sms ST PE. split; [exact (step_fresh0 _ _ _ _ b3 ST)|].
    pose proof (step_round _ _ _ _ ST) as R. assert (LE : forall r, le (m_rounds (n_st nm) r) (m_rounds (n_st nm') r)) by (eapply step_le; exact ST).
    split; [|split].
    - intros r Hr. assert (B : d_past (m_rounds (n_st nm) r) = true /\ d_vflag (m_rounds (n_st nm) r) <> None).
      { destruct R as [(R & _)|(R & R1 & R2)]; [apply b4; lia|].
        destruct (Nat.eq_dec r (m_r (n_st nm))) as [->|]; [auto|apply b4; lia]. }
      destruct B as (B1 & B2). split; [apply (e_past _ _ (LE r)); exact B1|exact (step_vflag _ _ _ _ _ ST B2)].
    - rewrite PE. destruct (Nat.eqb_spec (m_r (n_st nm')) (m_r (n_st nm))) as [Q|Q].
      + destruct R as [(_ & R)|(R & _)]; [|lia]. rewrite Q, R. exact b5.
      + unfold up. rewrite Nat.eqb_refl. reflexivity.
    - destruct R as [(R & _)|(R & _)]; lia. }
  destruct (nstep_cases _ _ _ _ _ X) as [(k & m & e & sms & -> & EV & ST & EO & EG & EE & EP)|[(k & r & j & s & sh & -> & ES)|(e & sms & -> & IE & ST & EO & EG & EE & EP)]].
  - destruct PR as (GD & KN & TM & NI). destruct (CUR e sms ST EP) as (C1 & C2 & C3 & C4). constructor; auto.
    + rewrite EG. intros k0 m0 [Y|Y]; [injection Y as <- <-; exact GD|auto].
    + rewrite EG. exact (take_rounds _ _ _ _ _ _ _ b2 GD KN NI EV ST).
    + intros r s. rewrite EE, EG. destruct (b6 r s) as (L & Q1 & Q2 & Q3). exists L. split; [exact Q1|]. split; [|intros; apply Q3; lia].
      apply lists_skip; [exact Q2|]. intros ->. discriminate EV.
    + rewrite EG. intros k0 r [Y|Y]; [|exact (hst_mono _ _ _ _ ST (b7 _ _ Y))].
      injection Y as <- ->. cbn [event_of mHalt] in EV. injection EV as <-.
      apply hst_take in ST; [exact ST|]. destruct (a_lead _ _ _ (b2 r)) as [(Q & _)|(Q & _)]; auto.
  - destruct PR as (GD & KN & TM & NI). destruct (echo_cases _ _ _ _ _ _ _ _ ES) as (ER & PA & S12 & EN). rewrite EN in *. unfold put_ech in *.
    cbn [n_st n_prop n_got n_ech] in *. constructor; cbn [n_st n_prop n_got n_ech]; auto.
    + intros k0 m0 [Y|Y]; [injection Y as <- <-; exact GD|auto].
    + intros r0. apply rnv_skip; [apply b2|]. repeat split; discriminate.
    + assert (Q : MEcho r j s sh = mEcho r i s k).
      { cbn [to_me] in TM. apply Nat.eqb_eq in TM. subst j. inversion GD; subst; reflexivity. }
      rewrite Q in *. injection Q as QJ Qsh. intros r0 s0. destruct (b6 r0 s0) as (L & Q1 & Q2 & Q3).
      unfold up. destruct (Nat.eqb_spec r0 r) as [->|NR].
      * destruct (Nat.eqb_spec s0 s) as [->|NS].
        -- exists (L ++ [k]). rewrite Q1, Qsh. split; [apply shares_snoc|]. split; [|lia].
           apply (lists_take _ (mEcho r i s) L k Q2). exact NI.
        -- exists L. split; [exact Q1|]. split; [|exact Q3]. apply lists_skip; [exact Q2|]. unfold mEcho. congruence.
      * exists L. split; [exact Q1|]. split; [|exact Q3]. apply lists_skip; [exact Q2|]. unfold mEcho. congruence.
    + intros k0 r0 [Y|Y]; [discriminate Y|exact (b7 _ _ Y)].
  - destruct (CUR e sms ST EP) as (C1 & C2 & C3 & C4). constructor; auto.
    + rewrite EG. exact b1.
    + rewrite EG. exact (act_rounds _ _ _ _ _ b2 IE ST).
    + intros r s. rewrite EE, EG. destruct (b6 r s) as (L & Q1 & Q2 & Q3). exists L. split; [exact Q1|]. split; [exact Q2|intros; apply Q3; lia].
    + rewrite EG. intros k0 r Y. exact (hst_mono _ _ _ _ ST (b7 _ _ Y)).
Qed.

Ltac injN ST nm := apply (f_equal (fun x => match x with Ret (Some (a, _)) => a | _ => n_st nm end)) in ST; cbv beta iota in ST; rewrite <- ST.

(** ** What a member has done, and the messages it has sent *)

Definition did (nm : nmem) (m : msg) : Prop :=
  let d r := m_rounds (n_st nm) r in
  match m with
  | MValue r _ 1 _ _ => (r <= m_r (n_st nm))%nat
  | MValue r _ _ _ _ => (2 * F + 1 <= length (n_ech nm r 1))%nat
  | MEcho r j s _ => (s <= d_stage (d r) j)%nat
  | MFinish r _ _ => (2 * F + 1 <= length (n_ech nm r 2))%nat
  | MDone r _ => d_doneSent (d r) = true
  | MPreYes r _ _ => d_pre (d r) = true /\ d_lock (d r) (ld r) <> None
  | MPreNo r _ => d_pre (d r) = true /\ d_lock (d r) (ld r) = None
  | MVoteYes r _ _ _ => d_voted (d r) = true /\ exists x, d_flag (d r) = Some (Some x)
  | MVoteNo r _ _ => d_voted (d r) = true /\ d_flag (d r) = Some None
  | MHalt r _ _ => m_out (n_st nm) <> None
  end.


Lemma step_doneSent st e st' sms r0 : mstep H coin N F ID st e = Ret (Some (st', sms)) ->
  d_doneSent (m_rounds st' r0) = true -> d_doneSent (m_rounds st r0) = true \/ e = EvElection r0.
Proof. intros X. mcases X; try (left; assumption); setcases r0; auto. Qed.

Lemma step_pre st e st' sms r0 : mstep H coin N F ID st e = Ret (Some (st', sms)) ->
  d_pre (m_rounds st' r0) = true -> d_pre (m_rounds st r0) = true \/ e = EvPreVote r0.
Proof. intros X. mcases X; try (left; assumption); setcases r0; auto. Qed.

Lemma step_voted st e st' sms r0 : mstep H coin N F ID st e = Ret (Some (st', sms)) ->
  d_voted (m_rounds st' r0) = true -> d_voted (m_rounds st r0) = true \/ e = EvVote r0.
Proof. intros X. mcases X; try (left; assumption); setcases r0; auto. Qed.

Lemma step_out st e st' sms : mstep H coin N F ID st e = Ret (Some (st', sms)) -> m_out st <> None -> m_out st' <> None.
Proof. intros X. mcases X; cbn [setr m_out]; try congruence. Qed.

Lemma stage_case st r0 j s r j0 stage v vd : stage_ready st (m_rounds st r) j0 stage = true ->
    (s <= d_stage (if (r0 =? r)%nat then mkD (up (d_stage (m_rounds st r)) j0 stage) (d_lock rnd0) (d_fin rnd0) (d_finN rnd0) (d_done rnd0) (d_doneSent rnd0) (d_coins rnd0)
                 (d_lead rnd0) (d_past rnd0) (d_pre rnd0) (d_pn rnd0) (d_flag rnd0) (d_voted rnd0) (d_vy rnd0) (d_vn rnd0) (d_vflag rnd0) else m_rounds st r0) j)%nat ->
    (s <= d_stage (m_rounds st r0) j)%nat \/
    exists s0 v0 vd0, EvValue r j0 stage v vd = EvValue r0 j s0 v0 vd0 /\ (s <= s0)%nat /\ (d_stage (m_rounds st r0) j < s)%nat /\
    (s0 = S (d_stage (m_rounds st r0) j) \/ d_lead (m_rounds st r0) <> None \/ m_out st <> None).
Proof.
  intros SR K. destruct (Nat.eqb_spec r0 r) as [->|]; [|auto]. df. unfold up in K.
    destruct (Nat.eqb_spec j j0) as [->|]; [|auto]. destruct (Nat.le_gt_cases s (d_stage (m_rounds st r) j0)); [auto|right].
    exists stage, v, vd. repeat split; auto. unfold stage_ready in SR. apply orb_prop in SR. destruct SR as [SR|SR]; [left; apply Nat.eqb_eq in SR; exact SR|right].
    apply andb_prop in SR. destruct SR as [_ SR]. destruct (d_lead (m_rounds st r)); [left; discriminate|]. destruct (m_out st); [right; discriminate|discriminate SR].
Qed.

Lemma step_stage st e st' sms r0 j s : mstep H coin N F ID st e = Ret (Some (st', sms)) ->
  (s <= d_stage (m_rounds st' r0) j)%nat -> (s <= d_stage (m_rounds st r0) j)%nat \/
  exists s0 v vd, e = EvValue r0 j s0 v vd /\ (s <= s0)%nat /\ (d_stage (m_rounds st r0) j < s)%nat /\
    (s0 = S (d_stage (m_rounds st r0) j) \/ d_lead (m_rounds st r0) <> None \/ m_out st <> None).
Proof.
  intros X. mcases X; try (left; assumption).
  { rewrite !andb_true_iff in *. intros K. apply stage_case; [tauto|]. unfold setr, putr in K. cbn [m_rounds] in K. destruct (r0 =? r)%nat; exact K. }
  { rewrite !andb_true_iff in *. intros K. apply stage_case; [tauto|]. unfold setr, putr in K. cbn [m_rounds] in K. destruct (r0 =? r)%nat; exact K. }
  all: intros K; revert K; unfold setr, putr; cbn [m_rounds]; match goal with |- context [if (?a =? ?r)%nat then _ else m_rounds _ _] => destruct (Nat.eqb_spec a r) as [EQR|] end; df; auto; rewrite EQR; auto.
Qed.

Lemma step_round1 st e st' sms : mstep H coin N F ID st e = Ret (Some (st', sms)) ->
  m_r st' = m_r st \/ e = EvResult /\ m_r st' = S (m_r st).
Proof. intros X. mcases X; cbn [setr m_r]; auto. Qed.

Lemma step_lock st e st' sms r0 : mstep H coin N F ID st e = Ret (Some (st', sms)) -> e = EvPreVote r0 \/ d_past (m_rounds st r0) = true ->
  forall j, d_lock (m_rounds st' r0) j = d_lock (m_rounds st r0) j.
Proof.
  intros X [->|P] j.
  - cbn [mstep] in X. unfold preVote_step in X. destruct (d_lead _); [|discriminate]. destruct (_ && _); [|discriminate]. injE X.
    rewrite setr_same. reflexivity.
  - assert (L : le (m_rounds st r0) (m_rounds st' r0)) by (eapply step_le; exact X). apply (e_past _ _ L P).
Qed.

Lemma did_mono i nm a nm' outs m : linv i nm -> nstep H coin N F ID i nm a = Ret (Some (nm', outs)) -> did nm m -> did nm' m.
Proof.
  intros I X D. assert (LN : forall e sms, mstep H coin N F ID (n_st nm) e = Ret (Some (n_st nm', sms)) -> n_ech nm' = n_ech nm -> did nm' m).
  { intros e sms ST EE. assert (LE : forall r, le (m_rounds (n_st nm) r) (m_rounds (n_st nm') r)) by (eapply step_le; exact ST).
    destruct m; cbn [did] in *; rewrite ?EE; auto.
    - destruct stage as [|[|stage]]; auto. destruct (step_round1 _ _ _ _ ST) as [->|(_ & ->)]; lia.
    - pose proof (e_stage _ _ (LE r) j). lia.
    - apply (e_doneSent _ _ (LE r)). exact D.
    - destruct D as (D1 & D2). split; [apply (e_pre _ _ (LE r)); exact D1|].
      rewrite (step_lock _ _ _ _ r ST); [exact D2|]. right. apply (a_pre _ _ _ (b_round _ _ I r)). exact D1.
    - destruct D as (D1 & D2). split; [apply (e_pre _ _ (LE r)); exact D1|].
      rewrite (step_lock _ _ _ _ r ST); [exact D2|]. right. apply (a_pre _ _ _ (b_round _ _ I r)). exact D1.
    - destruct D as (D1 & x & D2). split; [apply (e_voted _ _ (LE r)); exact D1|]. exists x. apply (e_flag _ _ (LE r)). exact D2.
    - destruct D as (D1 & D2). split; [apply (e_voted _ _ (LE r)); exact D1|]. apply (e_flag _ _ (LE r)). exact D2.
    - exact (step_out _ _ _ _ ST D). }
  destruct (nstep_cases _ _ _ _ _ X) as [(k & m0 & e & sms & -> & EV & ST & EO & EG & EE & EP)|[(k & r & j & s & sh & -> & ES)|(e & sms & -> & IE & ST & EO & EG & EE & EP)]].
  - exact (LN e sms ST EE).
  - destruct (echo_cases _ _ _ _ _ _ _ _ ES) as (ER & PA & S12 & EN). subst nm'.
    assert (LL : forall r0 s0, (length (n_ech nm r0 s0) <= length (n_ech (put_ech nm r s (n_ech nm r s ++ [sh]) ((k, MEcho r j s sh) :: n_got nm)) r0 s0))%nat).
    { intros r0 s0. unfold put_ech, up. cbn [n_ech]. destruct (Nat.eqb_spec r0 r) as [->|]; [|lia].
      destruct (Nat.eqb_spec s0 s) as [->|]; [|lia]. rewrite app_length. lia. }
    destruct m; cbn [did put_ech n_st] in *; auto.
    + destruct stage as [|[|stage]]; auto; (eapply Nat.le_trans; [exact D|apply LL]).
    + eapply Nat.le_trans; [exact D|apply LL].
  - exact (LN e sms ST EE).
Qed.

Lemma sender_val i nm r s L : n_prop nm r = V i r -> NoDup L ->
  (length L <= 2 * F)%nat /\ sender H F ID i nm r s (shares L (em r i s)) = None \/
  (2 * F + 1 <= length L)%nat /\ sender H F ID i nm r s (shares L (em r i s)) = Some (Sig (em r i s)).
Proof. intros E ND. unfold sender. rewrite E. apply Sender_shares. exact ND. Qed.

Lemma assoc_map {A} (f : nat -> A) L k a : assoc k (map (fun k => (k, f k)) L) = Some a -> a = f k /\ In k L.
Proof.
  induction L as [|k0 L IH]; cbn [map assoc]; [discriminate|]. destruct (Nat.eqb_spec k k0) as [->|].
  - intros X. injection X as <-. split; [reflexivity|left; reflexivity].
  - intros X. destruct (IH X). split; [assumption|right; assumption].
Qed.

(** Everything that is sent is one of the messages of honest members, and the member has done what it says. *)
Lemma step_sound i nm a nm' outs m : linv i nm -> proper i nm a -> agree i nm' ->
  nstep H coin N F ID i nm a = Ret (Some (nm', outs)) -> In m outs ->
  good i m /\ did nm' m /\ forall r v sg, m = MHalt r v sg -> d_lead (m_rounds (n_st nm) r) <> None.
Proof.
  intros I PR AG X HI. pose proof (step_linv _ _ _ _ _ I PR AG X) as I'.
  destruct (nstep_cases _ _ _ _ _ X) as [(k & m0 & e & sms & -> & EV & ST & EO & EG & EE & EP)|[(k & r & j & s & sh & -> & ES)|(e & sms & -> & IE & ST & EO & EG & EE & EP)]].
  - destruct PR as (GD & KN & TM & NI). subst outs. assert (LE : forall r, le (m_rounds (n_st nm) r) (m_rounds (n_st nm') r)) by (eapply step_le; exact ST).
    destruct GD; cbn [event_of mVal1 mVal2 mEcho mFin mDone mPY mPN mVY mVN mHalt] in EV; try discriminate; injection EV as <-; cbn [emits] in HI; try destruct HI as [<-|[]];
      try (destruct HI; fail).
    + split; [apply (g_echo1 i r k)|]. split; [|intros; discriminate]. cbn [did].
      destruct (Nat.le_gt_cases 1 (d_stage (m_rounds (n_st nm') r) k)) as [K|K]; [exact K|].
      pose proof (a_val1 _ _ _ (b_round _ _ I' r) k) as Q. rewrite EG in Q. apply Q. left. reflexivity.
    + split; [apply (g_echo2 i r k)|]. split; [|intros; discriminate]. cbn [did].
      pose proof (a_val2 _ _ _ (b_round _ _ I' r) k) as Q. rewrite EG in Q. apply Q. left. reflexivity.
  - destruct PR as (GD & KN & TM & NI).
    destruct (echo_cases _ _ _ _ _ _ _ _ ES) as (ER & PA & S12 & EN). subst r.
    assert (SH : sh = Sh k (em (m_r (n_st nm)) i s)).
    { cbn [to_me] in TM. apply Nat.eqb_eq in TM. subst j. inversion GD; subst; reflexivity. }
    assert (VP : n_prop nm (m_r (n_st nm)) = V i (m_r (n_st nm))).
    { specialize (AG (m_r (n_st nm))). rewrite EN in AG. cbn [put_ech n_st n_prop] in AG. apply AG. lia. }
    unfold echo_step in ES. rewrite Nat.eqb_refl, PA in ES. cbn [andb negb] in ES.
    destruct (b_ech _ _ I' (m_r (n_st nm)) s) as (L' & Q1 & (Q2 & _) & _).
    rewrite EN in Q1. unfold put_ech, up in Q1. cbn [n_ech] in Q1. rewrite !Nat.eqb_refl in Q1.
    destruct S12 as [-> | ->].
    + destruct (sender _ _ _ _ _ _ 1 (n_ech nm _ 1)) eqn:E1 in ES; [discriminate|].
      apply (f_equal (fun x => match x with Some (_, b) => b | None => [] end)) in ES. cbv beta iota in ES. subst outs. rewrite Q1 in HI.
      destruct (sender_val i nm (m_r (n_st nm)) 1 L' VP Q2) as [(_ & Y)|(Y0 & Y)]; rewrite Y in HI; [destruct HI|]. destruct HI as [<-|[]].
      rewrite VP. split; [apply (g_val2 i)|]. split; [|intros; discriminate]. cbn [did]. rewrite EN. unfold put_ech, up. cbn [n_ech]. rewrite !Nat.eqb_refl, Q1, shares_length. exact Y0.
    + destruct (sender _ _ _ _ _ _ 1 (n_ech nm _ 1)) eqn:E1 in ES; [|discriminate].
      destruct (sender _ _ _ _ _ _ 2 (n_ech nm _ 2)) eqn:E2 in ES; [discriminate|].
      apply (f_equal (fun x => match x with Some (_, b) => b | None => [] end)) in ES. cbv beta iota in ES. subst outs. rewrite Q1 in HI.
      destruct (sender_val i nm (m_r (n_st nm)) 2 L' VP Q2) as [(_ & Y)|(Y0 & Y)]; rewrite Y in HI; [destruct HI|]. destruct HI as [<-|[]].
      rewrite VP. split; [apply (g_fin i)|]. split; [|intros; discriminate]. cbn [did]. rewrite EN. unfold put_ech, up. cbn [n_ech]. rewrite !Nat.eqb_refl, Q1, shares_length. exact Y0.
  - subst outs. assert (LE : forall r, le (m_rounds (n_st nm) r) (m_rounds (n_st nm') r)) by (eapply step_le; exact ST).
    pose proof (b_round _ _ I) as BR. pose proof (b_cur _ _ I') as CU'. rewrite (AG _ (Nat.le_refl _)) in CU'.
    destruct e; cbn [internal] in IE; try discriminate; cbn [emits] in HI.
    + destruct HI as [<-|[]]. split; [apply (g_done i)|]. split; [|intros; discriminate]. cbn [did]. cbn [mstep] in ST. unfold election_step in ST.
      destruct (_ && _); [|discriminate]. injN ST nm. rewrite setr_same. reflexivity.
    + destruct (d_lead (m_rounds (n_st nm) (m_r (n_st nm)))) as [l|] eqn:EL; [|destruct HI].
      destruct (assoc l _) as [(v & sg)|] eqn:EA; [|destruct HI]. destruct HI as [<-|[]].
      destruct (a_lead _ _ _ (BR (m_r (n_st nm)))) as [(Q & _)|(Q & _)]; [congruence|]. rewrite EL in Q. injection Q as ->.
      destruct (a_fin _ _ _ (BR (m_r (n_st nm)))) as (L & Q1 & _). rewrite Q1 in EA. pose proof EA as EA0. apply (assoc_map (fun k => (V k (m_r (n_st nm)), Sig (em (m_r (n_st nm)) k 2)))) in EA. destruct EA as (EA & _). injection EA as EA1 EA2. subst v sg.
      split; [apply (g_halt i)|]. split.
      * cbn [did]. cbn [mstep] in ST. unfold leader_step in ST. destruct (m_out (n_st nm)); [discriminate|]. rewrite EL in ST. destruct (d_past _); [discriminate|].
        destruct (assoc _ _) as [(v & sg)|] eqn:EA'.
        -- injN ST nm. discriminate.
        -- exfalso. rewrite Q1, EA0 in EA'. discriminate EA'.
      * intros r v sg Y. injection Y as <- _ _. congruence.
    + destruct (d_lead (m_rounds (n_st nm) r)) as [l|] eqn:EL; [|destruct HI].
      destruct (a_lead _ _ _ (BR r)) as [(Q & _)|(Q & _)]; [congruence|]. rewrite EL in Q. injection Q as ->.
      assert (PRE : d_pre (m_rounds (n_st nm') r) = true).
      { cbn [mstep] in ST. unfold preVote_step in ST. rewrite EL in ST. destruct (_ && _); [|discriminate]. injN ST nm. rewrite setr_same. reflexivity. }
      destruct (d_lock (m_rounds (n_st nm) r) (ld r)) as [(v & sg)|] eqn:EK; destruct HI as [<-|[]].
      * destruct (a_lock _ _ _ (BR r) _ _ _ EK) as (-> & -> & _). split; [apply (g_py i)|]. split; [|intros; discriminate]. cbn [did].
        split; [exact PRE|]. rewrite (step_lock _ _ _ _ r ST) by auto. congruence.
      * split; [apply (g_pn i)|]. split; [|intros; discriminate]. cbn [did]. split; [exact PRE|]. rewrite (step_lock _ _ _ _ r ST) by auto. exact EK.
    + destruct (d_lead (m_rounds (n_st nm) r)) as [l|] eqn:EL; [|destruct HI].
      destruct (a_lead _ _ _ (BR r)) as [(Q & _)|(Q & _)]; [congruence|]. rewrite EL in Q. injection Q as ->.
      pose proof (a_flag _ _ _ (BR r)) as FL. destruct (d_flag (m_rounds (n_st nm) r)) as [f|] eqn:EF; [|destruct HI].
      assert (VT : d_voted (m_rounds (n_st nm') r) = true).
      { cbn [mstep] in ST. unfold vote_step in ST. rewrite EL, EF in ST. destruct (_ && _); [|discriminate]. injN ST nm. rewrite setr_same. reflexivity. }
      destruct f as [(v & sg)|]; destruct HI as [<-|[]].
      * destruct FL as (-> & -> & _). split; [apply (g_vy i)|]. split; [|intros; discriminate]. cbn [did].
        split; [exact VT|]. eexists. apply (e_flag _ _ (LE r)). exact EF.
      * destruct (a_pn _ _ _ (BR r)) as (L & Q1 & (Q2 & _)). rewrite Q1 in *. rewrite shares_length in FL. rewrite recover_shares by (auto; lia).
        split; [apply (g_vn i)|]. split; [|intros; discriminate]. cbn [did]. split; [exact VT|]. apply (e_flag _ _ (LE r)). exact EF.
    + destruct HI.
    + pose proof (a_vflag _ _ _ (BR (m_r (n_st nm)))) as VF. pose proof (a_past _ _ _ (BR (m_r (n_st nm)))) as PL.
      cbn [mstep] in ST. unfold result_step in ST. destruct (m_out (n_st nm)); [discriminate|].
      destruct (d_vflag (m_rounds (n_st nm) (m_r (n_st nm)))) as [f|] eqn:EF; [|destruct HI].
      destruct (d_past (m_rounds (n_st nm) (m_r (n_st nm)))) eqn:EP'; [|discriminate].
      assert (EN : m_r (n_st nm') = match f with VYes _ _ => m_r (n_st nm) | _ => S (m_r (n_st nm)) end /\
                   m_val (n_st nm') = match f with VOther v _ => v | _ => m_val (n_st nm) end /\
                   (match f with VYes _ _ => True | _ => False end -> m_out (n_st nm') <> None)).
      { destruct f; apply (f_equal (fun x => match x with Ret (Some (a, _)) => a | _ => n_st nm end)) in ST; cbv beta iota in ST; rewrite <- ST; cbn [m_r m_val m_out];
          repeat split; try discriminate; intros []. }
      destruct EN as (EN1 & EN2 & EN3). destruct f as [v sg|sg|v sg]; destruct HI as [<-|[]].
      * destruct VF as (-> & -> & _). split; [apply (g_halt i)|]. split; [cbn [did]; apply EN3; exact Logic.I|]. intros r v sg Y. injection Y as <- _ _. apply PL. reflexivity.
      * rewrite EN1, EN2 in CU'. rewrite <- CU'. split; [apply (g_val1 i)|]. split; [cbn [did]; lia|intros; discriminate].
      * rewrite EN1, EN2 in CU'. rewrite <- CU'. split; [apply (g_val1 i)|]. split; [cbn [did]; lia|intros; discriminate].
Qed.

Definition halted (nm : nmem) : Prop := m_halt (n_st nm) <> None \/ m_out (n_st nm) <> None.

(** What a member has done was sent, except that a member may skip the first stage of a broadcast when the leader is
    known or it has returned. *)
Lemma step_complete i nm a nm' outs m : linv i nm -> proper i nm a -> agree i nm' ->
  nstep H coin N F ID i nm a = Ret (Some (nm', outs)) -> good i m -> (forall r v sg, m <> MHalt r v sg) -> did nm' m ->
  did nm m \/ In m outs \/ exists r j, m = mEcho r j 1 i /\ (d_lead (m_rounds (n_st nm) r) <> None \/ m_out (n_st nm) <> None).
Proof.
  intros I PR AG X GD NH D. pose proof (step_linv _ _ _ _ _ I PR AG X) as I'.
  assert (MS : forall e sms, mstep H coin N F ID (n_st nm) e = Ret (Some (n_st nm', sms)) -> outs = emits H F ID i (n_st nm) e -> n_ech nm' = n_ech nm ->
     (forall r j s v vd, e = EvValue r j s v vd -> (s = 1 \/ s = 2)%nat /\ v = V j r) ->
     did nm m \/ In m outs \/ exists r j, m = mEcho r j 1 i /\ (d_lead (m_rounds (n_st nm) r) <> None \/ m_out (n_st nm) <> None)).
  { intros e sms ST -> EE VAL. pose proof (b_round _ _ I) as BR.
    assert (LE : forall r, le (m_rounds (n_st nm) r) (m_rounds (n_st nm') r)) by (eapply step_le; exact ST).
    destruct GD; cbn [did mVal1 mVal2 mEcho mFin mDone mPY mPN mVY mVN mHalt] in D |- *; rewrite ?EE in D; auto.
    - destruct (step_round1 _ _ _ _ ST) as [Q|(-> & Q)]; [left; lia|].
      destruct (Nat.le_gt_cases r (m_r (n_st nm))) as [K|K]; [auto|]. right. left.
      pose proof (b_cur _ _ I') as CU'. rewrite (AG _ (Nat.le_refl _)) in CU'. replace r with (m_r (n_st nm')) by lia. unfold mVal1. rewrite CU'. cbn [emits].
      cbn [mstep] in ST. unfold result_step in ST. destruct (m_out (n_st nm)); [discriminate|].
      destruct (d_vflag _) as [f|]; [|discriminate]. destruct (d_past _); [|discriminate].
      apply (f_equal (fun x => match x with Ret (Some (a, _)) => a | _ => n_st nm end)) in ST; destruct f; cbv beta iota in ST; rewrite <- ST in Q |- *; cbn [m_r m_val] in Q |- *; [lia| |]; left; reflexivity.
    - destruct (step_stage _ _ _ _ r j 1 ST D) as [Q|(s0 & v & vd & -> & L1 & L2 & L3)]; [auto|]. right.
      destruct (VAL _ _ _ _ _ eq_refl) as (S12 & ->). destruct L3 as [L3|L3]; [left|right; exists r, j; split; [reflexivity|exact L3]].
      replace s0 with 1%nat by lia. left. reflexivity.
    - destruct (step_stage _ _ _ _ r j 2 ST D) as [Q|(s0 & v & vd & -> & L1 & L2 & L3)]; [auto|]. right.
      destruct (VAL _ _ _ _ _ eq_refl) as (S12 & ->). left. replace s0 with 2%nat by lia. left. reflexivity.
    - destruct (step_doneSent _ _ _ _ r ST D) as [Q| ->]; [auto|]. right. left. left. reflexivity.
    - destruct D as (D1 & D2). destruct (step_pre _ _ _ _ r ST D1) as [Q| ->].
      + left. split; [exact Q|]. rewrite <- (step_lock _ _ _ _ r ST); [exact D2|]. right. apply (a_pre _ _ _ (BR r)). exact Q.
      + rewrite (step_lock _ _ _ _ r ST) in D2 by auto. right. left. cbn [emits]. cbn [mstep] in ST. unfold preVote_step in ST.
        destruct (d_lead (m_rounds (n_st nm) r)) as [l|] eqn:EL; [|discriminate].
        destruct (a_lead _ _ _ (BR r)) as [(Q & _)|(Q & _)]; [congruence|]. rewrite EL in Q. injection Q as ->.
        destruct (d_lock (m_rounds (n_st nm) r) (ld r)) as [(v & sg)|] eqn:EK; [|congruence].
        destruct (a_lock _ _ _ (BR r) _ _ _ EK) as (-> & -> & _). left. reflexivity.
    - destruct D as (D1 & D2). destruct (step_pre _ _ _ _ r ST D1) as [Q| ->].
      + left. split; [exact Q|]. rewrite <- (step_lock _ _ _ _ r ST); [exact D2|]. right. apply (a_pre _ _ _ (BR r)). exact Q.
      + rewrite (step_lock _ _ _ _ r ST) in D2 by auto. right. left. cbn [emits]. cbn [mstep] in ST. unfold preVote_step in ST.
        destruct (d_lead (m_rounds (n_st nm) r)) as [l|] eqn:EL; [|discriminate].
        destruct (a_lead _ _ _ (BR r)) as [(Q & _)|(Q & _)]; [congruence|]. rewrite EL in Q. injection Q as ->.
        rewrite D2. left. reflexivity.
    - destruct D as (D1 & x & D2). destruct (step_voted _ _ _ _ r ST D1) as [Q| ->].
      + left. split; [exact Q|]. destruct (a_voted _ _ _ (BR r) Q) as (_ & FN).
        destruct (d_flag (m_rounds (n_st nm) r)) as [f|] eqn:EF; [|congruence]. pose proof (e_flag _ _ (LE r) f EF) as EF'. exists x. congruence.
      + right. left. cbn [emits]. cbn [mstep] in ST. unfold vote_step in ST.
        destruct (d_lead (m_rounds (n_st nm) r)) as [l|] eqn:EL; [|discriminate].
        destruct (a_lead _ _ _ (BR r)) as [(Q & _)|(Q & _)]; [congruence|]. rewrite EL in Q. injection Q as ->.
        pose proof (a_flag _ _ _ (BR r)) as FL. destruct (d_flag (m_rounds (n_st nm) r)) as [f|] eqn:EF; [|discriminate].
        pose proof (e_flag _ _ (LE r) f EF) as EF'. rewrite D2 in EF'. injection EF' as <-. destruct x as (v & sg).
        destruct FL as (-> & -> & _). left. reflexivity.
    - destruct D as (D1 & D2). destruct (step_voted _ _ _ _ r ST D1) as [Q| ->].
      + left. split; [exact Q|]. destruct (a_voted _ _ _ (BR r) Q) as (_ & FN).
        destruct (d_flag (m_rounds (n_st nm) r)) as [f|] eqn:EF; [|congruence]. pose proof (e_flag _ _ (LE r) f EF) as EF'. congruence.
      + right. left. cbn [emits]. cbn [mstep] in ST. unfold vote_step in ST.
        destruct (d_lead (m_rounds (n_st nm) r)) as [l|] eqn:EL; [|discriminate].
        pose proof (a_flag _ _ _ (BR r)) as FL. destruct (d_flag (m_rounds (n_st nm) r)) as [f|] eqn:EF; [|discriminate].
        pose proof (e_flag _ _ (LE r) f EF) as EF'. rewrite D2 in EF'. injection EF' as <-.
        destruct (a_pn _ _ _ (BR r)) as (L & Q1 & (Q2 & _)). rewrite Q1 in *. rewrite shares_length in FL. rewrite recover_shares by (auto; lia). left. reflexivity.
    - exfalso. apply (NH r (V (ld r) r) (Sig (em r (ld r) 2))). reflexivity. }
  destruct (nstep_cases _ _ _ _ _ X) as [(k & m0 & e & sms & -> & EV & ST & EO & EG & EE & EP)|[(k & r & j & s & sh & -> & ES)|(e & sms & -> & IE & ST & EO & EG & EE & EP)]].
  - destruct PR as (GD0 & _). apply (MS e sms ST EO EE). intros r j s v vd ->. destruct GD0; cbn in EV; try discriminate; injection EV as <- <- <- <- <-; auto.
  - destruct PR as (GDe & KN & TM & NI).
    destruct (echo_cases _ _ _ _ _ _ _ _ ES) as (ER & PA & S12 & EN). subst r.
    assert (VP : n_prop nm (m_r (n_st nm)) = V i (m_r (n_st nm))).
    { specialize (AG (m_r (n_st nm))). rewrite EN in AG. cbn [put_ech n_st n_prop] in AG. apply AG. lia. }
    assert (OLD : forall s0, n_ech nm' (m_r (n_st nm)) s0 = if (s0 =? s)%nat then n_ech nm (m_r (n_st nm)) s ++ [sh] else n_ech nm (m_r (n_st nm)) s0).
    { intros s0. rewrite EN. unfold put_ech, up. cbn [n_ech]. rewrite Nat.eqb_refl. reflexivity. }
    assert (OTH : forall r0 s0, r0 <> m_r (n_st nm) -> n_ech nm' r0 s0 = n_ech nm r0 s0).
    { intros r0 s0 K. rewrite EN. unfold put_ech, up. cbn [n_ech]. destruct (Nat.eqb_spec r0 (m_r (n_st nm))); [lia|reflexivity]. }
    assert (STE : n_st nm' = n_st nm) by (rewrite EN; reflexivity).
    unfold echo_step in ES. rewrite Nat.eqb_refl, PA in ES. cbn [andb negb] in ES.
    destruct (b_ech _ _ I' (m_r (n_st nm)) s) as (L' & Q1 & (Q2 & _) & _). rewrite OLD, Nat.eqb_refl in Q1.
    destruct GD; cbn [did mVal1 mVal2 mEcho mFin mDone mPY mPN mVY mVN mHalt] in D |- *; rewrite ?STE in D; auto.
    + destruct (Nat.eq_dec r (m_r (n_st nm))) as [->|NR]; [|rewrite OTH in D by exact NR; auto]. rewrite OLD in D.
      destruct (Nat.eqb_spec 1 s) as [<-|]; [|auto]. rewrite Q1, shares_length in D. right. left.
      destruct (sender _ _ _ _ _ _ 1 (n_ech nm _ 1)) eqn:E1 in ES; [discriminate|].
      apply (f_equal (fun x => match x with Some (_, b) => b | None => [] end)) in ES. cbv beta iota in ES. subst outs. rewrite Q1.
      destruct (sender_val i nm (m_r (n_st nm)) 1 L' VP Q2) as [(Y0 & Y)|(Y0 & Y)]; [lia|]. rewrite Y, VP. left. reflexivity.
    + destruct (Nat.eq_dec r (m_r (n_st nm))) as [->|NR]; [|rewrite OTH in D by exact NR; auto]. rewrite OLD in D.
      destruct (Nat.eqb_spec 2 s) as [<-|]; [|auto]. rewrite Q1, shares_length in D. right. left.
      destruct (sender _ _ _ _ _ _ 1 (n_ech nm _ 1)) eqn:E1 in ES; [|discriminate].
      destruct (sender _ _ _ _ _ _ 2 (n_ech nm _ 2)) eqn:E2 in ES; [discriminate|].
      apply (f_equal (fun x => match x with Some (_, b) => b | None => [] end)) in ES. cbv beta iota in ES. subst outs. rewrite Q1.
      destruct (sender_val i nm (m_r (n_st nm)) 2 L' VP Q2) as [(Y0 & Y)|(Y0 & Y)]; [lia|]. rewrite Y, VP. left. reflexivity.
  - apply (MS e sms ST EO EE). intros r j s v vd ->. discriminate IE.
Qed.

Lemma step_hst i G st e st' sms : rounds_ok G st -> mstep H coin N F ID st e = Ret (Some (st', sms)) -> hst st' ->
  hst st \/ (exists r v sg, e = EvHalt r v sg /\ d_lead (m_rounds st r) <> None) \/
  (exists r v sg, In (MHalt r v sg) (emits H F ID i st e) /\ d_lead (m_rounds st r) <> None).
Proof.
  intros BR ST HT. mcases ST; unfold hst in *; cbn [setr m_halt m_out] in HT; auto.
  - right. right. cbn [emits]. rewrite Heqo0, Heqo1. exists (m_r st), l, s. split; [left; reflexivity|congruence].
  - right. left. exists r, v, sg. split; [reflexivity|congruence].
  - left. left. congruence.
  - right. right. cbn [emits]. rewrite Heqo0. exists (m_r st), v, s. split; [left; reflexivity|]. apply (a_past _ _ _ (BR (m_r st))). assumption.
  - left. left. destruct HT; congruence.
  - left. left. destruct HT; congruence.
Qed.

(** A member returns, or is about to, because of a Halt message that it took or sent. *)
Lemma step_halted i nm a nm' outs : linv i nm -> proper i nm a -> nstep H coin N F ID i nm a = Ret (Some (nm', outs)) -> halted nm' ->
  halted nm \/ (exists k r, a = NTake k (mHalt r) /\ d_lead (m_rounds (n_st nm) r) <> None) \/
  (exists r v sg, In (MHalt r v sg) outs /\ d_lead (m_rounds (n_st nm) r) <> None).
Proof.
  intros I PR X HT. unfold halted in *.
  assert (MS : forall e sms, mstep H coin N F ID (n_st nm) e = Ret (Some (n_st nm', sms)) -> outs = emits H F ID i (n_st nm) e ->
    (m_halt (n_st nm) <> None \/ m_out (n_st nm) <> None) \/ (exists r v sg, e = EvHalt r v sg /\ d_lead (m_rounds (n_st nm) r) <> None) \/
    (exists r v sg, In (MHalt r v sg) outs /\ d_lead (m_rounds (n_st nm) r) <> None)).
  { intros e sms ST ->. destruct (step_hst i (n_got nm) _ _ _ _ (b_round _ _ I) ST HT) as [Q|[Q|Q]]; auto. }
  destruct (nstep_cases _ _ _ _ _ X) as [(k & m0 & e & sms & -> & EV & ST & EO & EG & EE & EP)|[(k & r & j & s & sh & -> & ES)|(e & sms & -> & IE & ST & EO & EG & EE & EP)]].
  - destruct (MS e sms ST EO) as [Q|[(r & v & sg & -> & Q)|Q]]; auto. right. left. exists k, r. split; [|exact Q].
    destruct PR as (GD & _). f_equal. destruct GD; cbn in EV; try discriminate. injection EV as <- <- <-. reflexivity.
  - destruct (echo_cases _ _ _ _ _ _ _ _ ES) as (_ & _ & _ & EN). rewrite EN in HT. left. exact HT.
  - destruct (MS e sms ST EO) as [Q|[(r & v & sg & -> & Q)|Q]]; auto. discriminate IE.
Qed.

(** No message that an honest member sends stops a member. *)
Ltac solveRet := match goal with |- exists _, match ?x with _ => _ end = _ => destruct x as [(? & ?)|]; eexists; reflexivity end.

Lemma no_crash i nm a : proper i nm a -> exists x, nstep H coin N F ID i nm a = Ret x.
Proof.
  intros PR. destruct a as [k m|e]; cbn [nstep proper] in *.
  - destruct PR as (GD & KN & _ & _). destruct GD; cbn [mVal1 mVal2 mEcho mFin mDone mPY mPN mVY mVN mHalt event_of]; try (eexists; reflexivity);
      unfold lift; cbn [mstep].
    + unfold value_step. destruct (_ && _); eexists; reflexivity.
    + unfold value_step. destruct (_ && _); [|eexists; reflexivity]. change (smEcho ID r k 1 (H (V k r))) with (em r k 1). rewrite vsig_sig. eexists; reflexivity.
    + unfold finish_step. destruct (_ <=? _)%nat; [|eexists; reflexivity].
      destruct (Z.leb_spec 0 (Z.of_nat k)); [|lia]. destruct (Z.ltb_spec (Z.of_nat k) (Z.of_nat N)); [|lia]. cbn [andb].
      destruct (vsig _ _); eexists; reflexivity.
    + solveRet.
    + solveRet.
    + solveRet.
    + solveRet.
    + solveRet.
    + solveRet.
  - destruct (internal e) eqn:IE; [|eexists; reflexivity]. destruct e; cbn [internal] in IE; try discriminate; unfold lift; cbn [mstep].
    + solveRet.
    + solveRet.
    + solveRet.
    + solveRet.
    + solveRet.
    + solveRet.
Qed.
End Live.
