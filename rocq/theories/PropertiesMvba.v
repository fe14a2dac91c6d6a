(** C34-C37, C55, C56: provable broadcast and the agreement protocol. *)

Require Import ZArith List Bool Arith Lia.
From Verif Require Import Bytes CodecModel GoBase DispatchModel DispatchProofs MvbaModel MvbaProofs IdModel IdProofs.
Import ListNotations.

(** ** Running a schedule *)

Section Run.
Variable H : list Z -> list Z.
Variable coin : list Z -> Z.
Variables N F : nat.
Variable ID : list Z.
Variable bad : list nat.
Variable vals : nat -> list Z.

Definition memb (i : nat) (l : list nat) : bool := existsb (Nat.eqb i) l.
Definition honb (i : nat) : bool := (i <? N)%nat && negb (memb i bad).
Definition signedb (g : gstate) (i : nat) (sm : list Z) : bool :=
  memb i bad || existsb (fun p => (i =? fst p)%nat && bytes_eqb (snd p) sm) (gs_rel g).
Definition certb (g : gstate) (sm : list Z) : bool := (2 * F + 1 <=? length (filter (fun i => signedb g i sm) (seq 0 N)))%nat.
Definition sigb (g : gstate) (s : sigv) : bool := match s with Sig sm => certb g sm | NoSig => true end.
Definition shareb (g : gstate) (s : share) : bool := match s with Sh i sm => (i <? N)%nat && signedb g i sm | ShBad => true end.
Definition allowb (g : gstate) (e : mev) : bool :=
  match e with
  | EvValue _ _ _ _ s | EvFinish _ _ _ s | EvPreVoteYes _ _ s | EvHalt _ _ s => sigb g s
  | EvDone _ s | EvPreVoteNo _ s => shareb g s
  | EvVoteYes _ _ s sh | EvVoteNo _ s sh => sigb g s && shareb g sh
  | _ => true
  end.
Definition onceb (g : gstate) (i : nat) (e : mev) : bool :=
  match e with
  | EvDone r sh => negb (memb (signer sh) (map signer (d_coins (m_rounds (gs_m g i) r))))
  | EvPreVoteNo r sh => negb (memb (signer sh) (map signer (d_pn (m_rounds (gs_m g i) r))))
  | EvVoteYes r _ _ sh => negb (memb (signer sh) (map signer (d_vy (m_rounds (gs_m g i) r))))
  | EvVoteNo r _ sh => negb (memb (signer sh) (map signer (d_vn (m_rounds (gs_m g i) r))))
  | _ => true
  end.

Lemma memb_in i l : memb i l = true <-> In i l.
Proof.
  unfold memb. rewrite existsb_exists. split; [intros (x & A & B); apply Nat.eqb_eq in B; subst; exact A|]. intros K. exists i. split; [exact K|apply Nat.eqb_refl].
Qed.

Lemma signedb_ok g i sm : (i < N)%nat -> signedb g i sm = true <-> (hon N bad i -> In (i, sm) (gs_rel g)).
Proof.
  intros L. unfold signedb, hon. rewrite orb_true_iff, memb_in, existsb_exists. split.
  - intros [K|((k & s) & A & B)] (_ & Hi); [contradiction|]. apply andb_true_iff in B. cbn [fst snd] in B. destruct B as (B1 & B2).
    apply Nat.eqb_eq in B1. apply bytes_eqb_eq in B2. subst. exact A.
  - intros K. destruct (in_dec Nat.eq_dec i bad) as [D|D]; [left; exact D|right]. exists (i, sm). split; [apply K; auto|]. cbn [fst snd].
    rewrite Nat.eqb_refl. apply bytes_eqb_eq. reflexivity.
Qed.

Lemma certb_ok g sm : certb g sm = true <-> certified N F bad g sm.
Proof.
  unfold certb, certified. rewrite Nat.leb_le. split.
  - intros L. exists (filter (fun i => signedb g i sm) (seq 0 N)). split; [apply NoDup_filter; apply seq_NoDup|]. split; [exact L|].
    intros i Hi. apply filter_In in Hi. destruct Hi as (Hi & E). apply in_seq in Hi. split; [lia|]. apply signedb_ok; [lia|exact E].
  - intros (L & ND & HL & HM). apply (Nat.le_trans _ (length L)); [exact HL|]. apply NoDup_incl_length; [exact ND|]. intros i Hi. destruct (HM i Hi) as (A & B).
    apply filter_In. split; [apply in_seq; lia|]. apply signedb_ok; assumption.
Qed.

Lemma sigb_ok g s : sigb g s = true -> known_sig N F bad g s.
Proof. destruct s; cbn [sigb known_sig]; [apply certb_ok|auto]. Qed.
Lemma shareb_ok g s : shareb g s = true -> known_share N bad g s.
Proof. destruct s; cbn [shareb known_share]; [|auto]. rewrite andb_true_iff, Nat.ltb_lt. intros (A & B). split; [exact A|]. apply signedb_ok; assumption. Qed.

Lemma allowb_ok g e : allowb g e = true -> allowed N F bad g e.
Proof.
  destruct e; cbn [allowb allowed]; auto; rewrite ?andb_true_iff; try (apply sigb_ok); try (apply shareb_ok);
    intros (A & B); (split; [apply sigb_ok; exact A|apply shareb_ok; exact B]).
Qed.

Lemma onceb_ok g i e : onceb g i e = true -> once g i e.
Proof. destruct e; cbn [onceb once]; auto; rewrite negb_true_iff; intros K J; apply memb_in in J; congruence. Qed.

Definition run1 (pb : gstate -> nat -> mev -> bool) (g : gstate) (i : nat) (e : mev) : option gstate :=
  if honb i && allowb g e && pb g i e && (Z.of_nat (m_r (gs_m g i)) <? 2 ^ 32)%Z then
    match mstep H coin N F ID (gs_m g i) e with Ret (Some (st, sms)) => Some (gs_next g i st sms) | _ => None end
  else None.
Fixpoint run (pb : gstate -> nat -> mev -> bool) (g : gstate) (evs : list (nat * mev)) : option gstate :=
  match evs with
  | [] => Some g
  | (i, e) :: evs => match run1 pb g i e with Some g' => run pb g' evs | None => None end
  end.

Lemma run_reach pb (P : gstate -> nat -> mev -> Prop) : (forall g i e, pb g i e = true -> P g i e) ->
  forall evs g g', reach H coin N F ID bad vals P g -> run pb g evs = Some g' -> reach H coin N F ID bad vals P g'.
Proof.
  intros HP. induction evs as [|(i & e) evs IH]; intros g g' R E; cbn [run] in E; [inversion E; subst; exact R|].
  unfold run1 in E. destruct (honb i && _ && _ && _) eqn:EB; [|discriminate]. rewrite !andb_true_iff in EB. destruct EB as (((E1 & E2) & E3) & E4).
  destruct (mstep _ _ _ _ _ _ _) as [[(st & sms)|]| | |] eqn:ES; try discriminate.
  apply (IH (gs_next g i st sms)); [|exact E]. apply (reach_step H coin N F ID bad vals P g i e st sms R).
  - unfold honb in E1. apply andb_true_iff in E1. destruct E1 as (A & B). apply Nat.ltb_lt in A. split; [exact A|]. intros K. apply memb_in in K.
    apply negb_true_iff in B. congruence.
  - apply allowb_ok. exact E2.
  - apply HP. exact E3.
  - apply Z.ltb_lt. exact E4.
  - exact ES.
Qed.

(** A computed schedule: an execution with what is read off its last state. *)
Lemma run_read {A} pb (P : gstate -> nat -> mev -> Prop) (f : gstate -> A) evs a : (forall g i e, pb g i e = true -> P g i e) ->
  option_map f (run pb (gs_init vals) evs) = Some a -> exists g, reach H coin N F ID bad vals P g /\ f g = a.
Proof.
  intros HP E. destruct (run pb (gs_init vals) evs) as [g|] eqn:ER; [|discriminate]. cbn [option_map] in E. exists g. split.
  - apply (run_reach pb P HP evs _ _ (reach_init _ _ _ _ _ _ _ _) ER).
  - congruence.
Qed.
End Run.

Definition anyp (g : gstate) (i : nat) (e : mev) : Prop := True.
Definition anyb (g : gstate) (i : nat) (e : mev) : bool := true.

(** A stand-in for SHA3-512 that keeps short values apart, and a coin that elects 3 in round 0 and 1 afterwards. *)
Definition toyH (v : list Z) : list Z := firstn 64 (v ++ repeat 0%Z 64).
Definition toyCoin (sm : list Z) : Z := if bytes_eqb sm (smDone [7%Z] 0) then 3%Z else 1%Z.
Definition toyVals (i : nat) : list Z := [10 + Z.of_nat i]%Z.

Lemma toyH_length v : length (toyH v) = 64%nat.
Proof. unfold toyH. rewrite firstn_length, app_length, repeat_length. lia. Qed.

Definition hs : list nat := [0; 1; 2]%nat.
(** The broadcast of member j in round r with value v: stage 1 at the members a, stage 2 at the members b. *)
Definition spb (r j : nat) (v : list Z) (a b : list nat) : list (nat * mev) :=
  map (fun i => (i, EvValue r j 1 v NoSig)) a ++ map (fun i => (i, EvValue r j 2 v (Sig (smEcho [7%Z] r j 1 (toyH v))))) b.
Definition finish (r j : nat) (v : list Z) (a : list nat) : list (nat * mev) :=
  map (fun i => (i, EvFinish r (Z.of_nat j) v (Sig (smEcho [7%Z] r j 2 (toyH v))))) a.
Definition elect (r : nat) (a who : list nat) : list (nat * mev) :=
  map (fun i => (i, EvElection r)) a ++ flat_map (fun i => map (fun k => (i, EvDone r (Sh k (smDone [7%Z] r)))) who) a ++ map (fun i => (i, EvLeader)) a.

(** Round 0: the corrupted member 3 is elected; member 2 alone has its lock. *)
Definition round0 : list (nat * mev) :=
  flat_map (fun j => spb 0 j (toyVals j) hs hs) hs ++ spb 0 3 [13%Z] hs [2%nat] ++ flat_map (fun j => finish 0 j (toyVals j) hs) hs ++ elect 0 hs hs ++
  map (fun i => (i, EvPreVote 0)) hs.
(** Member 0 hears of the lock first, the others of three members without a lock. *)
Definition voting0 : list (nat * mev) :=
  [(0%nat, EvPreVoteYes 0 [13%Z] (Sig (smEcho [7%Z] 0 3 1 (toyH [13%Z]))))] ++
  flat_map (fun i => map (fun k => (i, EvPreVoteNo 0 (Sh k (smNo [7%Z] 0)))) [0; 1; 3]%nat) [1; 2]%nat ++
  map (fun i => (i, EvVote 0)) hs.
(** Member 0 takes the certificate made of its vote, the share of member 2's lock and the corrupted member's share;
    the others take three no-votes. *)
Definition ending0 : list (nat * mev) :=
  [(0%nat, EvHalt 0 [13%Z] (Sig (smEcho [7%Z] 0 3 2 (toyH [13%Z])))); (0%nat, EvHaltTake)] ++
  flat_map (fun i => map (fun k => (i, EvVoteNo 0 (Sig (smNo [7%Z] 0)) (Sh k (smUnlock [7%Z] 0)))) [1; 2; 3]%nat) [1; 2]%nat ++
  map (fun i => (i, EvResult)) [1; 2]%nat.
Definition round1 : list (nat * mev) :=
  flat_map (fun j => spb 1 j (toyVals j) [1; 2]%nat [1; 2]%nat) [1; 2; 3]%nat ++ flat_map (fun j => finish 1 j (toyVals j) [1; 2]%nat) [1; 2; 3]%nat ++
  elect 1 [1; 2]%nat [1; 2; 3]%nat.
Definition split_run : list (nat * mev) := round0 ++ voting0 ++ ending0 ++ round1.

(** ** C34: provable broadcast *)

(** A sender that comes back with a certificate has taken shares of 2F+1 different members. *)
Theorem c34_sender_members F sm echoes sm' : Sender F sm [] echoes = Some (Sig sm') ->
  sm' = sm /\ exists L, NoDup L /\ length L = (2 * F + 1)%nat /\ forall i, In i L -> In (Sh i sm) echoes.
Proof.
  assert (G : forall echoes sigs, (forall s, In s sigs -> vshare sm s = true) -> (length sigs <= 2 * F)%nat ->
    Sender F sm sigs echoes = Some (Sig sm') ->
    sm' = sm /\ exists L, NoDup L /\ length L = (2 * F + 1)%nat /\ forall i, In i L -> In (Sh i sm) (sigs ++ echoes)).
  { clear echoes. induction echoes as [|s rest IH]; intros sigs HV HL E; [discriminate|]. cbn [Sender] in E. destruct (vshare sm s) eqn:EV.
    - assert (HV' : forall x, In x (sigs ++ [s]) -> vshare sm x = true).
      { intros x Hx. apply in_app_or in Hx. destruct Hx as [Hx|[<-|[]]]; [apply HV; exact Hx|exact EV]. }
      destruct (2 * F <? length (sigs ++ [s]))%nat eqn:EL.
      + apply Nat.ltb_lt in EL. rewrite app_length in EL. cbn [length] in EL. inversion E as [ER]. unfold recover in ER.
        destruct ((_ <=? _)%nat && nodupb _) eqn:EB; [|discriminate]. inversion ER. subst sm'. apply andb_true_iff in EB. destruct EB as (EB1 & EB2).
        apply nodupb_sound in EB2. apply Nat.leb_le in EB1. split; [reflexivity|].
        exists (map signer (firstn (2 * F + 1) (filter (vshare sm) (sigs ++ [s])))). split; [exact EB2|]. split.
        { rewrite map_length in EB1 |- *. rewrite firstn_length in EB1 |- *. lia. }
        intros i Hi. apply in_map_iff in Hi. destruct Hi as (x & <- & Hx). assert (Hx' : In x (filter (vshare sm) (sigs ++ [s]))).
        { rewrite <- (firstn_skipn (2 * F + 1)). apply in_or_app. left. exact Hx. }
        apply filter_In in Hx'. destruct Hx' as (Hx1 & Hx2). destruct (vshare_eq _ _ Hx2) as (i & ->). cbn [signer].
        apply in_app_or in Hx1. apply in_or_app. destruct Hx1 as [K|[K|[]]]; [left; exact K|right; left; exact K].
      + apply Nat.ltb_ge in EL. destruct (IH (sigs ++ [s]) HV' EL E) as (A & L & B & C & D). split; [exact A|]. exists L. split; [exact B|]. split; [exact C|].
        intros i Hi. specialize (D i Hi). rewrite <- app_assoc in D. exact D.
    - destruct (IH sigs HV HL E) as (A & L & B & C & D). split; [exact A|]. exists L. split; [exact B|]. split; [exact C|].
      intros i Hi. specialize (D i Hi). apply in_app_or in D. apply in_or_app. destruct D as [D|D]; [left; exact D|right; right; exact D]. }
  intros E. apply (G echoes []); [intros s []|cbn; lia|exact E].
Qed.
Print Assumptions c34_sender_members.

Example c34_sender_example : Sender 1 [5%Z] [] [Sh 0 [5%Z]; ShBad; Sh 2 [6%Z]; Sh 3 [5%Z]; Sh 1 [5%Z]; Sh 2 [5%Z]] = Some (Sig [5%Z]).
Proof. reflexivity. Qed.

(** In executions: F+1 of them are honest and have signed. *)
Theorem c34_sender_honest N F bad g sm echoes sm' : (length bad <= F)%nat -> (forall s, In s echoes -> known_share N bad g s) ->
  Sender F sm [] echoes = Some (Sig sm') ->
  exists L, NoDup L /\ (F + 1 <= length L)%nat /\ forall i, In i L -> hon N bad i /\ In (i, sm) (gs_rel g).
Proof.
  intros HB HK E. destruct (c34_sender_members F sm echoes sm' E) as (_ & L & ND & LL & HL).
  set (f := fun i => if in_dec Nat.eq_dec i bad then true else false). pose proof (RbcProofs.filter_split f L) as FS.
  assert (L1 : (length (filter f L) <= length bad)%nat).
  { apply NoDup_incl_length; [apply NoDup_filter; exact ND|]. intros x Hx. apply filter_In in Hx. destruct Hx as (_ & Hx). unfold f in Hx.
    destruct (in_dec Nat.eq_dec x bad); [assumption|discriminate]. }
  exists (filter (fun x => negb (f x)) L). split; [apply NoDup_filter; exact ND|]. split; [lia|].
  intros i Hi. apply filter_In in Hi. destruct Hi as (Hi & Hf). destruct (HK _ (HL i Hi)) as (A & B). assert (Hh : hon N bad i).
  { split; [exact A|]. unfold f in Hf. destruct (in_dec Nat.eq_dec i bad); [discriminate|assumption]. }
  split; [exact Hh|apply B; exact Hh].
Qed.
Print Assumptions c34_sender_honest.

(** Two certificates of one instance and stage are for the same value (up to a collision of SHA3-512),
    whatever the schedule and whatever else the messages satisfy. *)
Theorem c34_certificates_unique H coin N F ID bad vals g r j s v v' :
  (forall x, length (H x) = 64%nat) -> w32 N -> (N <= 3 * F + 1)%nat -> (length bad <= F)%nat ->
  reach H coin N F ID bad vals anyp g -> w32 r -> w32 j -> s = 1%nat \/ s = 2%nat ->
  certified N F bad g (smEcho ID r j s (H v)) -> certified N F bad g (smEcho ID r j s (H v')) -> H v = H v'.
Proof.
  intros HH HN HNF HB R Hr Hj Hs C C'. assert (I : inv H N F ID bad g) by (eapply reach_inv; eassumption).
  destruct Hs as [->| ->]; [apply (unique1 H N F ID bad HB HNF g r j)|apply (unique2 H N F ID bad HB HNF g r j)]; auto.
Qed.
Print Assumptions c34_certificates_unique.

(** An honest member signs one value per instance and stage. *)
Theorem c34_one_value H coin N F ID bad vals g i r j s v v' :
  (forall x, length (H x) = 64%nat) -> w32 N -> (N <= 3 * F + 1)%nat -> (length bad <= F)%nat ->
  reach H coin N F ID bad vals anyp g -> w32 r -> w32 j -> s = 1%nat \/ s = 2%nat ->
  In (i, smEcho ID r j s (H v)) (gs_rel g) -> In (i, smEcho ID r j s (H v')) (gs_rel g) -> H v = H v'.
Proof.
  intros HH HN HNF HB R Hr Hj Hs A A'. assert (I : inv H N F ID bad g) by (eapply reach_inv; eassumption).
  destruct Hs as [->| ->]; [apply (v_one _ _ _ _ _ _ I i r j); auto|].
  apply (unique1 H N F ID bad HB HNF g r j); auto; eapply stage2_from; eauto.
Qed.
Print Assumptions c34_one_value.

Example c34_example : exists g, reach toyH toyCoin 4 1 [7%Z] [3%nat] toyVals anyp g /\
  certified 4 1 [3%nat] g (smEcho [7%Z] 0 3 1 (toyH [13%Z])) /\ certified 4 1 [3%nat] g (smEcho [7%Z] 0 3 2 (toyH [13%Z])).
Proof.
  destruct (run_read toyH toyCoin 4 1 [7%Z] [3%nat] toyVals anyb anyp
    (fun g => (certb 4 1 [3%nat] g (smEcho [7%Z] 0 3 1 (toyH [13%Z])), certb 4 1 [3%nat] g (smEcho [7%Z] 0 3 2 (toyH [13%Z]))))
    (spb 0 3 [13%Z] hs [0; 2]%nat) (true, true) (fun _ _ _ _ => I) ltac:(vm_compute; reflexivity)) as (g & R & E).
  apply pair_equal_spec in E. destruct E as (E1 & E2). exists g. split; [exact R|]. split; apply certb_ok; assumption.
Qed.

(** With more than 3F+1 members the quorums of 2F+1 do not meet: two values are certified. *)
Theorem c34_larger_committee_refuted : exists g v v', reach toyH toyCoin 5 1 [7%Z] [4%nat] toyVals anyp g /\ toyH v <> toyH v' /\
  certified 5 1 [4%nat] g (smEcho [7%Z] 0 4 1 (toyH v)) /\ certified 5 1 [4%nat] g (smEcho [7%Z] 0 4 1 (toyH v')).
Proof.
  destruct (run_read toyH toyCoin 5 1 [7%Z] [4%nat] toyVals anyb anyp
    (fun g => (certb 5 1 [4%nat] g (smEcho [7%Z] 0 4 1 (toyH [1%Z])), certb 5 1 [4%nat] g (smEcho [7%Z] 0 4 1 (toyH [2%Z]))))
    (spb 0 4 [1%Z] [0; 1]%nat [] ++ spb 0 4 [2%Z] [2; 3]%nat []) (true, true) (fun _ _ _ _ => I) ltac:(vm_compute; reflexivity)) as (g & R & E).
  apply pair_equal_spec in E. destruct E as (E1 & E2). exists g, [1%Z], [2%Z]. split; [exact R|]. split; [vm_compute; discriminate|]. split; apply certb_ok; assumption.
Qed.
Print Assumptions c34_larger_committee_refuted.

(** The share of one member repeated: the sender comes back with success and a nil signature. *)
Theorem c34_repeated_share_refuted F sm i : (1 <= F)%nat ->
  exists echoes, (forall s, In s echoes -> s = Sh i sm) /\ Sender F sm [] echoes = Some NoSig.
Proof.
  intros HF. exists (repeat (Sh i sm) (2 * F + 1)). split; [intros s Hs; apply (repeat_spec _ _ _ Hs)|].
  assert (EV : vshare sm (Sh i sm) = true) by (cbn [vshare]; apply bytes_eqb_eq; reflexivity).
  assert (G : forall m k, (k + m = 2 * F + 1)%nat -> (1 <= m)%nat -> Sender F sm (repeat (Sh i sm) k) (repeat (Sh i sm) m) = Some NoSig).
  { induction m as [|m IH]; intros k K HM; [lia|]. cbn [repeat Sender]. rewrite EV.
    assert (SN : repeat (Sh i sm) k ++ [Sh i sm] = repeat (Sh i sm) (S k)).
    { clear. induction k as [|k IH]; [reflexivity|]. cbn [repeat app] in *. rewrite IH. reflexivity. }
    rewrite SN, repeat_length. destruct (2 * F <? S k)%nat eqn:EL.
    - apply Nat.ltb_lt in EL. unfold recover.
      assert (FL : filter (vshare sm) (repeat (Sh i sm) (S k)) = repeat (Sh i sm) (S k)).
      { clear -EV. induction (S k) as [|q IH]; [reflexivity|]. cbn [repeat filter]. rewrite EV, IH. reflexivity. }
      rewrite FL. replace (2 * F + 1)%nat with (S k) by lia. replace (firstn (S k) (repeat (Sh i sm) (S k))) with (repeat (Sh i sm) (S k)).
      2: { symmetry. rewrite <- (repeat_length (Sh i sm) (S k)) at 1. apply firstn_all. }
      destruct k as [|k]; [lia|]. cbn [repeat map signer nodupb existsb]. rewrite Nat.eqb_refl. cbn. rewrite andb_false_r. reflexivity.
    - apply Nat.ltb_ge in EL. apply (IH (S k)); lia. }
  apply (G (2 * F + 1)%nat 0%nat); lia.
Qed.
Print Assumptions c34_repeated_share_refuted.

(** ** C35: views of one round *)

(** If no member takes two messages of one sender: whatever is returned has a decision certificate for
    the leader of some round, and in one round all such certificates are for one value. *)
Theorem c35_decisions H coin N F ID bad vals g i v : (forall x, length (H x) = 64%nat) -> w32 N -> (N <= 3 * F + 1)%nat -> (length bad <= F)%nat ->
  reach H coin N F ID bad vals once g -> m_out (gs_m g i) = Some v ->
  exists r, w32 r /\ certified N F bad g (smEcho ID r (leader_of coin N ID r) 2 (H v)) /\
    forall i' v' r', m_out (gs_m g i') = Some v' -> w32 r' -> certified N F bad g (smEcho ID r' (leader_of coin N ID r') 2 (H v')) -> r' = r -> H v' = H v.
Proof.
  intros HH HN HNF HB R E. destruct (reach_once H coin N F ID bad vals HH HN HB HNF g R) as (I & O & D).
  destruct (D i v (or_intror E)) as (r & l & A & B & C). exists r. split; [exact A|].
  pose proof (o_lead _ _ _ _ _ _ _ _ _ (O i r) l B) as EL. pose proof (n_lead _ _ _ _ _ _ _ _ (v_round _ _ _ _ _ _ I i r) l B) as LN. subst l.
  split; [exact C|]. intros i' v' r' _ Wr' C' ->. apply (unique2 H N F ID bad HB HNF g r (leader_of coin N ID r)); auto. unfold w32 in *; lia.
Qed.
Print Assumptions c35_decisions.

Lemma split_run_reach : exists g,
  reach toyH toyCoin 4 1 [7%Z] [3%nat] toyVals once g /\
  m_out (gs_m g 0%nat) = Some [13%Z] /\ m_out (gs_m g 1%nat) = Some [11%Z] /\
  certb 4 1 [3%nat] g (smNo [7%Z] 0) && certb 4 1 [3%nat] g (smUnlock [7%Z] 0) && certb 4 1 [3%nat] g (smEcho [7%Z] 0 3 2 (toyH [13%Z])) = true.
Proof.
  destruct (run_read toyH toyCoin 4 1 [7%Z] [3%nat] toyVals onceb once
    (fun g => (m_out (gs_m g 0%nat), (m_out (gs_m g 1%nat),
      certb 4 1 [3%nat] g (smNo [7%Z] 0) && certb 4 1 [3%nat] g (smUnlock [7%Z] 0) && certb 4 1 [3%nat] g (smEcho [7%Z] 0 3 2 (toyH [13%Z])))))
    split_run (Some [13%Z], (Some [11%Z], true)) onceb_ok ltac:(vm_compute; reflexivity)) as (g & R & E).
  apply pair_equal_spec in E. destruct E as (E1 & E). apply pair_equal_spec in E. destruct E as (E2 & E3). exists g. auto.
Qed.

Example c35_example : exists g i v, reach toyH toyCoin 4 1 [7%Z] [3%nat] toyVals once g /\ m_out (gs_m g i) = Some v.
Proof. destruct split_run_reach as (g & A & B & _). exists g, 0%nat, [13%Z]. auto. Qed.

(** The other half holds as far as locks go: beside a certificate that nobody has a lock, a decision
    certificate needs a vote of an honest member who had none. *)
Theorem c35_no_and_decision H coin N F ID bad vals g r h :
  (forall x, length (H x) = 64%nat) -> w32 N -> (N <= 3 * F + 1)%nat -> (length bad <= F)%nat ->
  reach H coin N F ID bad vals once g -> w32 r -> length h = 64%nat ->
  certified N F bad g (smNo ID r) -> certified N F bad g (smEcho ID r (leader_of coin N ID r) 2 h) ->
  exists i, hon N bad i /\ d_lock (m_rounds (gs_m g i) r) (leader_of coin N ID r) = None /\
    d_voted (m_rounds (gs_m g i) r) = true /\ exists v sg, d_flag (m_rounds (gs_m g i) r) = Some (Some (v, sg)) /\ H v = h.
Proof.
  intros HH HN HNF HB R Wr Lh C C'. destruct (reach_once H coin N F ID bad vals HH HN HB HNF g R) as (I & O & D).
  assert (HP : (0 < N)%nat).
  { destruct C as (L & _ & HL & HM). destruct L as [|a L]; [cbn in HL; lia|]. destruct (HM a (or_introl eq_refl)). lia. }
  assert (LN : (leader_of coin N ID r < N)%nat) by (unfold leader_of; pose proof (Z.mod_pos_bound (coin (smDone ID r)) (Z.of_nat N)); lia).
  destruct (no_and_decision H N F ID bad HB HNF g r _ h I Wr (ltac:(unfold w32 in *; lia) : w32 (leader_of coin N ID r)) Lh C C') as (i & Hi & _ & _ & A & l' & B1 & B2).
  exists i. split; [exact Hi|]. pose proof (o_lead _ _ _ _ _ _ _ _ _ (O i r) l' B1) as EL. subst l'. split; [exact B2|].
  destruct A as [A|A]; [contradiction|exact A].
Qed.
Print Assumptions c35_no_and_decision.

(** The statement fails: in one round there are certificates that nobody has a lock and that a decision
    is not possible, and a decision certificate. *)
Theorem c35_refuted : exists g h, reach toyH toyCoin 4 1 [7%Z] [3%nat] toyVals once g /\ length h = 64%nat /\
  certified 4 1 [3%nat] g (smNo [7%Z] 0) /\ certified 4 1 [3%nat] g (smUnlock [7%Z] 0) /\
  certified 4 1 [3%nat] g (smEcho [7%Z] 0 (leader_of toyCoin 4 [7%Z] 0) 2 h).
Proof.
  destruct split_run_reach as (g & R & _ & _ & K). rewrite !andb_true_iff in K. destruct K as ((K1 & K2) & K3).
  exists g, (toyH [13%Z]). split; [exact R|]. split; [reflexivity|]. split; [apply certb_ok; exact K1|]. split; [apply certb_ok; exact K2|].
  apply certb_ok. exact K3.
Qed.
Print Assumptions c35_refuted.

(** Yes-votes of one corrupted member, repeated: an honest member returns a value that has no decision
    certificate. *)
Theorem c35_repeated_votes_refuted : exists g v, reach toyH toyCoin 4 1 [7%Z] [3%nat] toyVals anyp g /\ m_out (gs_m g 0%nat) = Some v /\
  m_r (gs_m g 0%nat) = 0%nat /\ d_lead (m_rounds (gs_m g 0%nat) 0) = Some 3%nat /\ ~ certified 4 1 [3%nat] g (smEcho [7%Z] 0 3 2 (toyH v)).
Proof.
  destruct (run_read toyH toyCoin 4 1 [7%Z] [3%nat] toyVals anyb anyp
    (fun g => (m_out (gs_m g 0%nat), (m_r (gs_m g 0%nat), (d_lead (m_rounds (gs_m g 0%nat) 0), certb 4 1 [3%nat] g (smEcho [7%Z] 0 3 2 (toyH [13%Z]))))))
    (flat_map (fun j => spb 0 j (toyVals j) hs hs) hs ++ spb 0 3 [13%Z] hs [] ++ flat_map (fun j => finish 0 j (toyVals j) hs) hs ++ elect 0 hs hs ++
      repeat (0%nat, EvVoteYes 0 [13%Z] (Sig (smEcho [7%Z] 0 3 1 (toyH [13%Z]))) (Sh 3 (smEcho [7%Z] 0 3 2 (toyH [13%Z])))) 3 ++ [(0%nat, EvResult)])
    (Some [13%Z], (0%nat, (Some 3%nat, false))) (fun _ _ _ _ => I) ltac:(vm_compute; reflexivity)) as (g & R & E).
  apply pair_equal_spec in E. destruct E as (E1 & E). apply pair_equal_spec in E. destruct E as (E2 & E). apply pair_equal_spec in E. destruct E as (E3 & E4).
  exists g, [13%Z]. split; [exact R|]. split; [exact E1|]. split; [exact E2|]. split; [exact E3|]. intros C. apply certb_ok in C. congruence.
Qed.
Print Assumptions c35_repeated_votes_refuted.

(** ** C55: agreement on the output *)

(** Two honest members return different values, with one corrupted member of four and no message taken twice. *)
Theorem c55_refuted : exists g i j v w, reach toyH toyCoin 4 1 [7%Z] [3%nat] toyVals once g /\ hon 4 [3%nat] i /\ hon 4 [3%nat] j /\
  m_out (gs_m g i) = Some v /\ m_out (gs_m g j) = Some w /\ v <> w.
Proof.
  destruct split_run_reach as (g & R & A & B & _). exists g, 0%nat, 1%nat, [13%Z], [11%Z]. split; [exact R|].
  split; [split; [lia|intros [K|[]]; discriminate]|]. split; [split; [lia|intros [K|[]]; discriminate]|]. split; [exact A|]. split; [exact B|discriminate].
Qed.
Print Assumptions c55_refuted.

(** Two outputs of one round. *)
Example c55_example : exists g v w, reach toyH (fun _ => 1%Z) 4 1 [7%Z] [3%nat] toyVals once g /\ m_out (gs_m g 0%nat) = Some v /\ m_out (gs_m g 2%nat) = Some w /\
  m_r (gs_m g 0%nat) = 0%nat /\ m_r (gs_m g 2%nat) = 0%nat.
Proof.
  destruct (run_read toyH (fun _ => 1%Z) 4 1 [7%Z] [3%nat] toyVals onceb once
    (fun g => (m_out (gs_m g 0%nat), (m_out (gs_m g 2%nat), (m_r (gs_m g 0%nat), m_r (gs_m g 2%nat)))))
    (flat_map (fun j => spb 0 j (toyVals j) hs hs) hs ++ flat_map (fun j => finish 0 j (toyVals j) hs) hs ++ elect 0 hs hs)
    (Some [11%Z], (Some [11%Z], (0%nat, 0%nat))) onceb_ok ltac:(vm_compute; reflexivity)) as (g & R & E).
  apply pair_equal_spec in E. destruct E as (E1 & E). apply pair_equal_spec in E. destruct E as (E2 & E). apply pair_equal_spec in E. destruct E as (E3 & E4).
  exists g, [11%Z], [11%Z]. auto.
Qed.

(** ** C56: one leader per round *)

Theorem c56_common_leader H coin N F ID bad vals g i j r l l' : (forall x, length (H x) = 64%nat) -> w32 N -> (N <= 3 * F + 1)%nat -> (length bad <= F)%nat ->
  reach H coin N F ID bad vals once g -> d_lead (m_rounds (gs_m g i) r) = Some l -> d_lead (m_rounds (gs_m g j) r) = Some l' ->
  l = l' /\ l = Z.to_nat (coin (smDone ID r) mod Z.of_nat N).
Proof.
  intros HH HN HNF HB R A B. destruct (reach_once H coin N F ID bad vals HH HN HB HNF g R) as (_ & O & _).
  rewrite (o_lead _ _ _ _ _ _ _ _ _ (O i r) l A), (o_lead _ _ _ _ _ _ _ _ _ (O j r) l' B). split; reflexivity.
Qed.
Print Assumptions c56_common_leader.

(** The coin share of one member repeated makes that member's round leader 0, whatever the coin. *)
Theorem c56_refuted : exists g i j, reach toyH toyCoin 4 1 [7%Z] [3%nat] toyVals anyp g /\ hon 4 [3%nat] i /\ hon 4 [3%nat] j /\
  d_lead (m_rounds (gs_m g i) 0) = Some 0%nat /\ d_lead (m_rounds (gs_m g j) 0) = Some 3%nat.
Proof.
  destruct (run_read toyH toyCoin 4 1 [7%Z] [3%nat] toyVals anyb anyp
    (fun g => (d_lead (m_rounds (gs_m g 0%nat) 0), d_lead (m_rounds (gs_m g 1%nat) 0)))
    (flat_map (fun j => spb 0 j (toyVals j) hs hs) hs ++ flat_map (fun j => finish 0 j (toyVals j) [1; 2]%nat) hs ++
      map (fun i => (i, EvElection 0)) [1; 2]%nat ++ map (fun k => (1%nat, EvDone 0 (Sh k (smDone [7%Z] 0)))) [1; 2; 3]%nat ++
      repeat (0%nat, EvDone 0 (Sh 3 (smDone [7%Z] 0))) 3)
    (Some 0%nat, Some 3%nat) (fun _ _ _ _ => I) ltac:(vm_compute; reflexivity)) as (g & R & E).
  apply pair_equal_spec in E. destruct E as (E1 & E2). exists g, 0%nat, 1%nat. split; [exact R|].
  split; [split; [lia|intros [K|[]]; discriminate]|]. split; [split; [lia|intros [K|[]]; discriminate]|]. auto.
Qed.
Print Assumptions c56_refuted.

(** ** C36: mixed votes *)

(** Valid votes of round r with leader l as they arrive. *)
Inductive ballot : Type := Yes (v : list Z) (sg : sigv) (sh : share) | No (sg : sigv) (sh : share).
Definition bev (r : nat) (b : ballot) : mev := match b with Yes v sg sh => EvVoteYes r v sg sh | No sg sh => EvVoteNo r sg sh end.
Definition bvalid (H : list Z -> list Z) (ID : list Z) (r l : nat) (b : ballot) : Prop :=
  match b with
  | Yes v sg sh => vsig (smEcho ID r l 1 (H v)) sg = true /\ vshare (smEcho ID r l 2 (H v)) sh = true
  | No sg sh => vsig (smNo ID r) sg = true /\ vshare (smUnlock ID r) sh = true
  end.
Definition isno (b : ballot) : bool := match b with No _ _ => true | Yes _ _ _ => false end.

Fixpoint take (H : list Z -> list Z) coin N F ID (r : nat) (st : mst) (bs : list ballot) : go mst :=
  match bs with
  | [] => Ret st
  | b :: bs => bind (mstep H coin N F ID st (bev r b)) (fun o => match o with Some (st', _) => take H coin N F ID r st' bs | None => Panic end)
  end.

Lemma take_counts H coin N F ID r l : forall bs st0 st1, (forall b, In b bs -> bvalid H ID r l b) -> d_lead (m_rounds st0 r) = Some l ->
  take H coin N F ID r st0 bs = Ret st1 ->
  d_lead (m_rounds st1 r) = Some l /\ length (d_vn (m_rounds st1 r)) = (length (d_vn (m_rounds st0 r)) + length (filter isno bs))%nat /\
  (length (d_vy (m_rounds st1 r)) + length (filter isno bs) = length (d_vy (m_rounds st0 r)) + length bs)%nat.
Proof.
  induction bs as [|b bs IH]; intros st0 st1 HV L0 E; cbn [take] in E.
  - apply (f_equal (fun x => match x with Ret a => a | _ => st0 end)) in E. subst. cbn [filter length]. repeat split; [exact L0|lia].
  - pose proof (HV b (or_introl eq_refl)) as V. assert (HV' : forall x, In x bs -> bvalid H ID r l x) by (intros x Hx; apply HV; right; exact Hx).
    destruct b as [v sg sh|sg sh]; cbn [bev mstep bvalid] in E, V; destruct V as (V1 & V2).
    + unfold voteYes_step in E. rewrite L0, V1, V2 in E. cbn [andb bind] in E. apply IH in E; [|exact HV'|rewrite setr_same; reflexivity]. rewrite setr_same in E.
      cbn [d_vn d_vy] in E. rewrite app_length in E. cbn [length filter isno] in *. destruct E as (A & B & C). repeat split; [exact A|lia|lia].
    + unfold voteNo_step in E. rewrite L0, V1, V2 in E. cbn [andb bind] in E. apply IH in E; [|exact HV'|rewrite setr_same; reflexivity]. rewrite setr_same in E.
      cbn [d_vn d_vy] in E. rewrite app_length in E. cbn [length filter isno] in *. destruct E as (A & B & C). repeat split; [exact A|lia|lia].
Qed.

(** The member has heard the result exactly if there were more than 2F no-votes or a yes-vote came after
    2F other votes. *)
Theorem c36_when H coin N F ID r l st bs : d_lead (m_rounds st r) = Some l -> d_vy (m_rounds st r) = [] -> d_vn (m_rounds st r) = [] ->
  d_vflag (m_rounds st r) = None -> (forall b, In b bs -> bvalid H ID r l b) ->
  exists st', take H coin N F ID r st bs = Ret st' /\
    (d_vflag (m_rounds st' r) <> None <->
      (2 * F < length (filter isno bs))%nat \/ exists p b q, bs = p ++ b :: q /\ isno b = false /\ (2 * F <= length p)%nat).
Proof.
  intros EL EY EN EF. assert (TA : forall bs bs' st, take H coin N F ID r st (bs ++ bs') = bind (take H coin N F ID r st bs) (fun st' => take H coin N F ID r st' bs')).
  { induction bs0 as [|b bs0 IH]; intros bs' st0; [reflexivity|]. cbn [app take]. destruct (mstep H coin N F ID st0 (bev r b)) as [[(st1 & sms)|]| | |]; cbn [bind]; auto. }
  induction bs as [|b bs IH] using rev_ind; intros HV.
  - exists st. split; [reflexivity|]. rewrite EF. split; [congruence|]. intros [K|(p & b & q & K & _)]; [cbn in K; lia|destruct p; discriminate].
  - assert (G : exists st', take H coin N F ID r st bs = Ret st' /\ d_lead (m_rounds st' r) = Some l /\
        length (d_vn (m_rounds st' r)) = length (filter isno bs) /\ (length (d_vy (m_rounds st' r)) + length (filter isno bs) = length bs)%nat /\
        (d_vflag (m_rounds st' r) <> None <-> (2 * F < length (filter isno bs))%nat \/ exists p b q, bs = p ++ b :: q /\ isno b = false /\ (2 * F <= length p)%nat)).
    { assert (HV' : forall b0, In b0 bs -> bvalid H ID r l b0) by (intros b0 Hb; apply HV; apply in_or_app; left; exact Hb).
      destruct (IH HV') as (st' & E & Q). exists st'. destruct (take_counts H coin N F ID r l bs st st' HV' EL E) as (A & B & C).
      rewrite EN in B. rewrite EY in C. cbn [length] in B, C. split; [exact E|]. split; [exact A|]. split; [lia|]. split; [lia|exact Q]. }
    destruct G as (st1 & E1 & L1 & N1 & Y1 & Q1). rewrite TA, E1. cbn [bind take].
    pose proof (HV b ltac:(apply in_or_app; right; left; reflexivity)) as V.
    assert (LAST : forall x, (exists p b0 q, bs ++ [x] = p ++ b0 :: q /\ isno b0 = false /\ (2 * F <= length p)%nat) <->
       (exists p b0 q, bs = p ++ b0 :: q /\ isno b0 = false /\ (2 * F <= length p)%nat) \/ (isno x = false /\ (2 * F <= length bs)%nat)).
    { intros x. split.
      - intros (p & b0 & q & K & A & B). destruct q as [|y q] using rev_ind; [apply app_inj_tail in K; destruct K as (-> & ->); right; auto|].
        clear IHq. change (p ++ b0 :: q ++ [y]) with (p ++ (b0 :: q) ++ [y]) in K. rewrite app_assoc in K. apply app_inj_tail in K. destruct K as (-> & ->).
        left. exists p, b0, q. auto.
      - intros [(p & b0 & q & -> & A & B)|(A & B)].
        + exists p, b0, (q ++ [x]). split; [rewrite <- app_assoc; reflexivity|auto].
        + exists bs, x, []. auto. }
    rewrite filter_app, app_length. destruct b as [v sg sh|sg sh]; cbn [bev mstep bvalid filter isno length] in *; destruct V as (V1 & V2).
    + unfold voteYes_step. rewrite L1, V1, V2. cbn [andb bind]. eexists. split; [reflexivity|]. rewrite setr_same. cbn [d_vflag]. rewrite LAST, app_length. cbn [length isno].
      destruct (d_vflag (m_rounds st1 r)) as [f|]; cbn [first].
      * split; [intros _; destruct (proj1 Q1 ltac:(discriminate)) as [K|K]; [left; lia|right; left; exact K]|discriminate].
      * assert (NQ : ~ ((2 * F < length (filter isno bs))%nat \/ exists p b q, bs = p ++ b :: q /\ isno b = false /\ (2 * F <= length p)%nat)) by (intros K; apply (proj2 Q1 K); reflexivity).
        destruct (2 * F <? length (d_vy (m_rounds st1 r)) + 1)%nat eqn:E2.
        { apply Nat.ltb_lt in E2. split; [intros _; right; right; split; [reflexivity|lia]|discriminate]. }
        apply Nat.ltb_ge in E2. destruct (2 * F <? length (d_vy (m_rounds st1 r)) + 1 + length (d_vn (m_rounds st1 r)))%nat eqn:E3.
        { apply Nat.ltb_lt in E3. split; [intros _; right; right; split; [reflexivity|lia]|discriminate]. }
        apply Nat.ltb_ge in E3. split; [congruence|]. intros [K|[K|(_ & K)]]; [exfalso; apply NQ; left; lia|exfalso; apply NQ; right; exact K|lia].
    + unfold voteNo_step. rewrite L1, V1, V2. cbn [andb bind]. eexists. split; [reflexivity|]. rewrite setr_same. cbn [d_vflag]. rewrite LAST, app_length. cbn [length isno].
      destruct (d_vflag (m_rounds st1 r)) as [f|]; cbn [first].
      * split; [intros _; destruct (proj1 Q1 ltac:(discriminate)) as [K|K]; [left; lia|right; left; exact K]|discriminate].
      * assert (NQ : ~ ((2 * F < length (filter isno bs))%nat \/ exists p b q, bs = p ++ b :: q /\ isno b = false /\ (2 * F <= length p)%nat)) by (intros K; apply (proj2 Q1 K); reflexivity).
        destruct (2 * F <? length (d_vn (m_rounds st1 r)) + 1)%nat eqn:E2.
        { apply Nat.ltb_lt in E2. split; [intros _; left; lia|discriminate]. }
        apply Nat.ltb_ge in E2. split; [congruence|]. intros [K|[K|(K & _)]]; [lia|exfalso; apply NQ; right; exact K|discriminate].
Qed.
Print Assumptions c36_when.

Definition demo_st : mst := mkM (fun _ => mkD (fun _ => O) (fun _ => None) [] 0 false false [] (Some 3%nat) true false [] None false [] [] None) 0 [] None None.
Definition demo_yes : ballot := Yes [13%Z] (Sig (smEcho [7%Z] 0 3 1 (toyH [13%Z]))) (Sh 0 (smEcho [7%Z] 0 3 2 (toyH [13%Z]))).
Definition demo_no (k : nat) : ballot := No (Sig (smNo [7%Z] 0)) (Sh k (smUnlock [7%Z] 0)).

Example c36_example : (forall b, In b [demo_yes; demo_no 1; demo_no 2] -> bvalid toyH [7%Z] 0 3 b) /\ d_lead (m_rounds demo_st 0) = Some 3%nat.
Proof. split; [|reflexivity]. intros b [<-|[<-|[<-|[]]]]; split; reflexivity. Qed.

(** Whenever F is at least 1, a yes-vote before 2F no-votes leaves the member without a result although
    it has 2F+1 votes; and so it stays until a further vote arrives. *)
Theorem c36_refuted H coin N F ID r l st y ns : (1 <= F)%nat -> d_lead (m_rounds st r) = Some l -> d_vy (m_rounds st r) = [] -> d_vn (m_rounds st r) = [] ->
  d_vflag (m_rounds st r) = None -> bvalid H ID r l y -> isno y = false -> (forall b, In b ns -> bvalid H ID r l b /\ isno b = true) -> length ns = (2 * F)%nat ->
  exists st', take H coin N F ID r st (y :: ns) = Ret st' /\ d_vflag (m_rounds st' r) = None.
Proof.
  intros HF EL EY EN EF Vy Iy Vn LN.
  destruct (c36_when H coin N F ID r l st (y :: ns) EL EY EN EF) as (st' & E & Q).
  - intros b [<-|Hb]; [exact Vy|apply Vn; exact Hb].
  - exists st'. split; [exact E|]. destruct (d_vflag (m_rounds st' r)) as [f|]; [|reflexivity]. exfalso.
    assert (LF : (length (filter isno (y :: ns)) <= 2 * F)%nat).
    { cbn [filter]. rewrite Iy. rewrite <- LN. clear. induction ns as [|a q IH]; [reflexivity|]. cbn [filter]. destruct (isno a); cbn [length]; lia. }
    destruct (proj1 Q ltac:(discriminate)) as [K|(p & b & q & K & A & B)]; [lia|].
    destruct p as [|p0 p]; [cbn in B; lia|]. cbn [app] in K. inversion K. subst. assert (Hb : In b (p ++ b :: q)) by (apply in_or_app; right; left; reflexivity).
    destruct (Vn b Hb) as (_ & J). congruence.
Qed.
Print Assumptions c36_refuted.

Example c36_refuted_example : exists st', take toyH toyCoin 4 1 [7%Z] 0 demo_st [demo_yes; demo_no 1; demo_no 2] = Ret st' /\ d_vflag (m_rounds st' 0) = None.
Proof. eexists. split; [reflexivity|reflexivity]. Qed.

(** The signature that goes with more than 2F no-votes is nil in every execution: it is assembled from the shares of the yes-votes. *)
Theorem c36_no_signature_refuted H coin N F ID bad vals g i r s : (forall x, length (H x) = 64%nat) -> w32 N -> (N <= 3 * F + 1)%nat -> (length bad <= F)%nat ->
  reach H coin N F ID bad vals anyp g -> d_vflag (m_rounds (gs_m g i) r) = Some (VNo s) -> s = NoSig.
Proof.
  intros HH HN HNF HB R E. assert (I : inv H N F ID bad g) by (eapply reach_inv; eassumption).
  apply (n_vno _ _ _ _ _ _ _ _ (v_round _ _ _ _ _ _ I i r) s E).
Qed.
Print Assumptions c36_no_signature_refuted.

Example c36_no_signature_example : exists st', take toyH toyCoin 4 1 [7%Z] 0 demo_st [demo_no 0; demo_no 1; demo_no 2] = Ret st' /\ d_vflag (m_rounds st' 0) = Some (VNo NoSig).
Proof. eexists. split; [reflexivity|reflexivity]. Qed.

(** ** C37: identifiers *)

(** What is signed determines the run, the purpose, the round, the member, the stage and the hash; for
    identifiers of any length. *)
Theorem c37_signed_messages ID ID' k k' : kok k -> kok k' -> render ID k = render ID' k' -> ID = ID' /\ k = k'.
Proof. apply render_inj_any. Qed.
Print Assumptions c37_signed_messages.

Example c37_example : kok (KEcho 1 3 2 (toyH [1%Z])) /\ kok (KNo 5) /\ render [7%Z] (KEcho 1 3 2 (toyH [1%Z])) <> render [7%Z] (KEcho 1 2 2 (toyH [1%Z])).
Proof. split; [split; [unfold w32; lia|split; [unfold w32; lia|reflexivity]]|]. split; [unfold kok, w32; lia|vm_compute; discriminate]. Qed.

(** Instances of provable broadcast. *)
Theorem c37_instances ID ID' r r' j j' s s' : w32 r -> w32 r' -> w32 j -> w32 j' -> idstage ID r j s = idstage ID' r' j' s' ->
  ID = ID' /\ r = r' /\ j = j' /\ s = s'.
Proof.
  intros Hr Hr' Hj Hj' E. apply idstage_inj; try assumption. pose proof (f_equal (@length Z) E) as EL. rewrite !idstage_length in EL. lia.
Qed.
Print Assumptions c37_instances.

(** The broadcasts of a handoff. *)
Theorem c37_broadcasts ID ID' j j' : (commitID ID j = commitID ID' j' -> ID = ID' /\ j = j') /\ (newCommitID ID j = newCommitID ID' j' -> ID = ID' /\ j = j') /\
  commitID ID j <> newCommitID ID' j'.
Proof.
  unfold commitID, newCommitID. split; [|split].
  - intros E. apply bcast_inj in E. tauto.
  - intros E. apply bcast_inj in E. tauto.
  - intros E. apply bcast_inj in E. destruct E as (_ & E & _). discriminate.
Qed.
Print Assumptions c37_broadcasts.

Example c37_broadcasts_example : commitID [112]%Z 12 = [112; 95; 49; 44; 49; 50]%Z.
Proof. reflexivity. Qed.

(** A share for a resharing is no signature of the agreement protocol, and determines the dealer... *)
Theorem c37_reshare ID ID' j j' k : kok k -> (smReshare ID j = smReshare ID j' -> j = j') /\ smReshare ID j <> render ID' k.
Proof.
  intros K. split; [apply dec_inj|]. unfold smReshare. intros E. pose proof (dec_range j) as R. rewrite E in R.
  destruct k; cbn [render] in R; unfold smEcho, smDone, smNo, smUnlock, bEcho, bDone, bUnlock in R; cbn [app] in R; specialize (R _ (or_introl eq_refl)); lia.
Qed.
Print Assumptions c37_reshare.

(** ...but not the handoff: a share made in one handoff is valid in every other one under the same key. *)
Theorem c37_refuted : exists ID ID' j, ID <> ID' /\ smReshare ID j = smReshare ID' j.
Proof. exists [1%Z], [2%Z], 3%nat. split; [discriminate|reflexivity]. Qed.
Print Assumptions c37_refuted.
