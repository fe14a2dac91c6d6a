(** C55: when the outputs of MainProcess agree. *)

Require Import ZArith List Bool Arith Lia.
From Verif Require Import Bytes CodecModel GoBase DispatchModel DispatchProofs MvbaModel MvbaProofs VoteProofs PropertiesMvba AgreementProofs.
Import ListNotations.

(** A member that leaves a round with a decision certificate (for the leader's value, hash h) and without an Unlock
    certificate goes into the next one with the decided value. *)
Theorem c55_carries H coin N F ID bad vals g i h :
  (forall x, length (H x) = 64%nat) -> w32 N -> (N <= 3 * F + 1)%nat -> (length bad <= F)%nat ->
  reach H coin N F ID bad vals once g -> hon N bad i -> w32 (m_r (gs_m g i)) -> length h = 64%nat ->
  certified N F bad g (smEcho ID (m_r (gs_m g i)) (leader_of coin N ID (m_r (gs_m g i))) 2 h) ->
  ~ certified N F bad g (smUnlock ID (m_r (gs_m g i))) ->
  forall st sms, mstep H coin N F ID (gs_m g i) EvResult = Ret (Some (st, sms)) -> m_out st = None -> 
  m_r st = S (m_r (gs_m g i)) /\ H (m_val st) = h.
Proof.
  intros HH HN HNF HB R Hi W Lh D NU st sms E NO.
  assert (R' : reach H coin N F ID bad vals once (gs_next g i st sms)) by (apply (reach_step H coin N F ID bad vals once g i EvResult st sms); cbn [allowed once]; auto).
  assert (K : sms = [] /\ m_r st = S (m_r (gs_m g i))).
  { cbn [mstep] in E. unfold result_step in E. destruct (m_out (gs_m g i)); [discriminate|]. destruct (d_vflag _) as [f|]; [|discriminate].
    destruct (d_past _); [|discriminate]. destruct f; inversion E; subst; cbn [m_out m_r] in *; auto. discriminate. }
  destruct K as (-> & K). split; [exact K|].
  destruct (reach_results H coin N F ID bad vals HB HNF _ R') as (PI & _). specialize (PI i). cbn [gs_next gs_m] in PI. rewrite Nat.eqb_refl in PI.
  rewrite (p_val _ _ PI), K.
  pose proof (carries H coin N F ID bad vals HH HN HB HNF (gs_next g i st []) i (m_r (gs_m g i)) h R' Lh) as C.
  cbn [gs_next gs_m] in C. rewrite Nat.eqb_refl in C. apply C; [| |lia].
  - apply (cert_mono N F bad g); [intros x Hx; apply in_or_app; left; exact Hx|exact D].
  - intros (L & A & B & M). apply NU. exists L. split; [exact A|]. split; [exact B|]. intros q Hq. destruct (M q Hq) as (X & Y).
    split; [exact X|]. intros Hh. specialize (Y Hh). cbn [gs_next gs_rel map] in Y. rewrite app_nil_r in Y. exact Y.
Qed.
Print Assumptions c55_carries.

(** Outputs agree if no round has a decision certificate beside an Unlock certificate and the proposals of later rounds are
    values of honest members in those rounds. *)
Theorem c55_agreement H coin N F ID bad vals g i j v w :
  (forall x, length (H x) = 64%nat) -> w32 N -> (N <= 3 * F + 1)%nat -> (length bad <= F)%nat ->
  reach H coin N F ID bad vals (once_checked N bad vals) g ->
  (forall r h, certified N F bad g (smEcho ID r (leader_of coin N ID r) 2 h) -> ~ certified N F bad g (smUnlock ID r)) ->
  m_out (gs_m g i) = Some v -> m_out (gs_m g j) = Some w -> H v = H w.
Proof.
  intros HH HN HNF HB R NU Ei Ej.
  assert (R1 : reach H coin N F ID bad vals once g) by (apply (reach_weaken _ _ _ _ _ _ _ (once_checked N bad vals)); [intros ? ? ? X; apply X|exact R]).
  destruct (c35_decisions H coin N F ID bad vals g i v HH HN HNF HB R1 Ei) as (r & Wr & Dr & _).
  destruct (c35_decisions H coin N F ID bad vals g j w HH HN HNF HB R1 Ej) as (r' & Wr' & Dr' & _).
  apply (decisions_agree H coin N F ID bad vals HH HN HB HNF g r r'); auto.
Qed.
Print Assumptions c55_agreement.

(** Decisions backed by one round agree; different outputs are backed by different rounds. *)
Theorem c55_same_round H coin N F ID bad vals g i j v w : (forall x, length (H x) = 64%nat) -> w32 N -> (N <= 3 * F + 1)%nat -> (length bad <= F)%nat ->
  reach H coin N F ID bad vals once g -> m_out (gs_m g i) = Some v -> m_out (gs_m g j) = Some w ->
  exists r r', certified N F bad g (smEcho ID r (leader_of coin N ID r) 2 (H v)) /\ certified N F bad g (smEcho ID r' (leader_of coin N ID r') 2 (H w)) /\
    (r <= m_r (gs_m g i))%nat /\ (r' <= m_r (gs_m g j))%nat /\ (r = r' -> H v = H w).
Proof.
  intros HH HN HNF HB R Ei Ej. destruct (reach_once H coin N F ID bad vals HH HN HB HNF g R) as (I & O & D).
  assert (K : forall k x, m_out (gs_m g k) = Some x -> exists r, w32 r /\ certified N F bad g (smEcho ID r (leader_of coin N ID r) 2 (H x)) /\ (r <= m_r (gs_m g k))%nat).
  { intros k x Ek. destruct (D k x (or_intror Ek)) as (r & l & A & B & C). pose proof (o_lead _ _ _ _ _ _ _ _ _ (O k r) l B) as ->.
    exists r. split; [exact A|]. split; [exact C|]. destruct (Nat.le_gt_cases r (m_r (gs_m g k))) as [Q|Q]; [exact Q|].
    rewrite (v_fresh _ _ _ _ _ _ I k r Q) in B. discriminate. }
  destruct (K i v Ei) as (r & W & C & Q). destruct (K j w Ej) as (r' & W' & C' & Q'). exists r, r'. repeat split; auto. intros ->.
  destruct (leader_w32 coin N F ID bad HN HB HNF g r' (H v) C) as (LW & _).
  apply (unique2 H N F ID bad HB HNF g r' (leader_of coin N ID r')); auto.
Qed.
Print Assumptions c55_same_round.

(** ** Runs *)

(** Round 0 elects member 3, whose broadcast has only its first stage; members 0 and 1 hear of it before voting. *)
Definition coin3 (_ : list Z) : Z := 3%Z.
Definition mixed0 : list (nat * mev) :=
  flat_map (fun j => spb 0 j (toyVals j) hs hs) hs ++ spb 0 3 [13%Z] hs [] ++ flat_map (fun j => finish 0 j (toyVals j) hs) hs ++ elect 0 hs hs ++
  map (fun i => (i, EvPreVote 0)) hs ++
  map (fun i => (i, EvPreVoteYes 0 [13%Z] (Sig (smEcho [7%Z] 0 3 1 (toyH [13%Z]))))) [0; 1]%nat ++
  map (fun k => (2%nat, EvPreVoteNo 0 (Sh k (smNo [7%Z] 0)))) hs ++ map (fun i => (i, EvVote 0)) hs ++
  map (fun k => (0%nat, EvVoteYes 0 [13%Z] (Sig (smEcho [7%Z] 0 3 1 (toyH [13%Z]))) (Sh k (smEcho [7%Z] 0 3 2 (toyH [13%Z]))))) [0; 1; 3]%nat ++
  flat_map (fun i => (i, EvVoteNo 0 (Sig (smNo [7%Z] 0)) (Sh 2 (smUnlock [7%Z] 0))) ::
    map (fun k => (i, EvVoteYes 0 [13%Z] (Sig (smEcho [7%Z] 0 3 1 (toyH [13%Z]))) (Sh k (smEcho [7%Z] 0 3 2 (toyH [13%Z]))))) [0; 3]%nat) [1; 2]%nat ++
  map (fun i => (i, EvResult)) hs.
(** Round 1 with the proposal x of member 3. *)
Definition second (x : list Z) : list (nat * mev) :=
  flat_map (fun j => spb 1 j [13%Z] [1; 2]%nat [1; 2]%nat) [1; 2]%nat ++ spb 1 3 x [1; 2]%nat [1; 2]%nat ++
  flat_map (fun j => finish 1 j [13%Z] [1; 2]%nat) [1; 2]%nat ++ finish 1 3 x [1; 2]%nat ++ elect 1 [1; 2]%nat [1; 2; 3]%nat.

(** Only member 2 has signed Unlock. *)
Definition unlockers (g : gstate) : bool := forallb (fun p => negb (hd 0%Z (snd p) =? 85)%Z || (fst p =? 2)%nat) (gs_rel g).
Lemma unlockers_ok g r : unlockers g = true -> ~ certified 4 1 [3%nat] g (smUnlock [7%Z] r).
Proof.
  intros U (L & D & LL & M).
  assert (S : incl L [2; 3]%nat).
  { intros k Hk. destruct (M k Hk) as (A & B). destruct (Nat.eq_dec k 3) as [->|N3]; [right; left; reflexivity|]. left.
    unfold unlockers in U. rewrite forallb_forall in U.
    specialize (U _ (B (conj A (fun K => match K with or_introl e => N3 (eq_sym e) | or_intror f => f end)))).
    cbn in U. apply Nat.eqb_eq in U. auto. }
  pose proof (NoDup_incl_length D S). cbn in *. lia.
Qed.

(** A corrupted leader of round 1 gets another value through: the proposals are not checked.  No round has an Unlock
    certificate in this run, so this is not the case of c55_refuted. *)
Theorem c55_unvalidated_refuted : exists g i j v w, reach toyH coin3 4 1 [7%Z] [3%nat] toyVals once g /\ hon 4 [3%nat] i /\ hon 4 [3%nat] j /\
  (forall r, ~ certified 4 1 [3%nat] g (smUnlock [7%Z] r)) /\ m_out (gs_m g i) = Some v /\ m_out (gs_m g j) = Some w /\ v <> w.
Proof.
  destruct (run_read toyH coin3 4 1 [7%Z] [3%nat] toyVals onceb once
    (fun g => (m_out (gs_m g 0%nat), (m_out (gs_m g 1%nat), unlockers g))) (mixed0 ++ second [99%Z])
    (Some [13%Z], (Some [99%Z], true)) onceb_ok ltac:(vm_compute; reflexivity)) as (g & R & E).
  apply pair_equal_spec in E. destruct E as (E1 & E). apply pair_equal_spec in E. destruct E as (E2 & E3).
  exists g, 0%nat, 1%nat, [13%Z], [99%Z]. split; [exact R|].
  split; [split; [lia|intros [K|[]]; discriminate]|]. split; [split; [lia|intros [K|[]]; discriminate]|].
  split; [intros r; apply unlockers_ok; exact E3|]. split; [exact E1|]. split; [exact E2|discriminate].
Qed.
Print Assumptions c55_unvalidated_refuted.

(** The same run with the value 13 in round 1 meets the hypotheses of c55_agreement. *)
Definition checkedb (g : gstate) (e : mev) : bool :=
  match e with
  | EvValue (S k) _ 1 v _ => existsb (fun m => (S k <=? m_r (gs_m g m))%nat && bytes_eqb (entered (toyVals m) (gs_m g m) (S k)) v) hs
  | _ => true
  end.
Definition once_checkedb (g : gstate) (i : nat) (e : mev) : bool := onceb g i e && checkedb g e.
Lemma once_checkedb_ok g i e : once_checkedb g i e = true -> once_checked 4 [3%nat] toyVals g i e.
Proof.
  intros K. apply andb_true_iff in K. destruct K as (K1 & K2). split; [apply onceb_ok; exact K1|].
  destruct e; cbn [checked]; auto. destruct r as [|k]; [exact I|]. destruct stage as [|[|s]]; try exact I. cbn [checkedb] in K2.
  apply existsb_exists in K2. destruct K2 as (m & Hm & K2). apply andb_true_iff in K2. destruct K2 as (A & B).
  apply Nat.leb_le in A. apply bytes_eqb_eq in B. exists m. split; [|auto].
  destruct Hm as [<-|[<-|[<-|[]]]]; (split; [lia|intros [Q|[]]; discriminate]).
Qed.

Example c55_agreement_demo : exists g, reach toyH coin3 4 1 [7%Z] [3%nat] toyVals (once_checked 4 [3%nat] toyVals) g /\
  (forall r, ~ certified 4 1 [3%nat] g (smUnlock [7%Z] r)) /\ m_r (gs_m g 0%nat) = 0%nat /\ m_r (gs_m g 1%nat) = 1%nat /\
  m_out (gs_m g 0%nat) = Some [13%Z] /\ m_out (gs_m g 1%nat) = Some [13%Z].
Proof.
  destruct (run_read toyH coin3 4 1 [7%Z] [3%nat] toyVals once_checkedb (once_checked 4 [3%nat] toyVals)
    (fun g => (m_out (gs_m g 0%nat), (m_out (gs_m g 1%nat), (m_r (gs_m g 0%nat), (m_r (gs_m g 1%nat), unlockers g))))) (mixed0 ++ second [13%Z])
    (Some [13%Z], (Some [13%Z], (0%nat, (1%nat, true)))) once_checkedb_ok ltac:(vm_compute; reflexivity)) as (g & R & E).
  apply pair_equal_spec in E. destruct E as (E1 & E). apply pair_equal_spec in E. destruct E as (E2 & E).
  apply pair_equal_spec in E. destruct E as (E3 & E). apply pair_equal_spec in E. destruct E as (E4 & E5).
  exists g. split; [exact R|]. split; [intros r; apply unlockers_ok; exact E5|]. auto.
Qed.
