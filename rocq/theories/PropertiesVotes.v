(** C35, C36, C56: what stands behind a No-vote, a mixed result and a share of the coin. *)

Require Import ZArith List Bool Arith Lia.
From Verif Require Import Bytes CodecModel GoBase DispatchModel DispatchProofs MvbaModel MvbaProofs PropertiesMvba VoteProofs.
Import ListNotations.

(** An honest member signs Unlock for a round only when 2F+1 members have signed No for it. *)
Theorem c35_unlock_after_no H coin N F ID bad vals g i r :
  (forall x, length (H x) = 64%nat) -> w32 N -> (N <= 3 * F + 1)%nat -> (length bad <= F)%nat ->
  reach H coin N F ID bad vals once g -> w32 r -> In (i, smUnlock ID r) (gs_rel g) ->
  exists L, NoDup L /\ (2 * F + 1 <= length L)%nat /\
    forall k, In k L -> (k < N)%nat /\ (~ In k bad -> In (k, smNo ID r) (gs_rel g)).
Proof.
  intros HH HN HNF Hb R W U. destruct (reach_once H coin N F ID bad vals HH HN Hb HNF g R) as (I & _).
  pose proof (reach_votes H coin N F ID bad vals Hb HNF g R i r) as T.
  pose proof (t_flag _ _ _ _ _ _ _ _ T (unlock_sent H N F ID bad g i r I W U)) as L.
  destruct (t_pn _ _ _ _ _ _ _ _ T) as (D & K).
  destruct (shares_certify N F bad Hb HNF g _ _ D K L) as (M & M1 & M2 & M3). exists M. split; [exact M1|]. split; [exact M2|].
  intros k Hk. destruct (M3 k Hk) as (A & B). split; [exact A|]. intros Nb. apply B. split; assumption.
Qed.
Print Assumptions c35_unlock_after_no.

(** In the run behind c35_refuted members 1 and 2 sign Unlock. *)
Example c35_unlock_demo : exists g, reach toyH toyCoin 4 1 [7%Z] [3%nat] toyVals once g /\
  existsb (fun p => (1 =? fst p)%nat && bytes_eqb (snd p) (smUnlock [7%Z] 0)) (gs_rel g) = true.
Proof.
  apply (run_read toyH toyCoin 4 1 [7%Z] [3%nat] toyVals onceb once
    (fun g => existsb (fun p => (1 =? fst p)%nat && bytes_eqb (snd p) (smUnlock [7%Z] 0)) (gs_rel g)) (round0 ++ voting0) true).
  - apply onceb_ok.
  - vm_compute. reflexivity.
Qed.

(** When the votes are mixed, the member goes into the next round with the value of the Yes-votes, which 2F+1 members have
    echoed in the first stage of the leader's broadcast. *)
Theorem c36_adopts H coin N F ID bad vals g i v sg st sms :
  (forall x, length (H x) = 64%nat) -> w32 N -> (N <= 3 * F + 1)%nat -> (length bad <= F)%nat ->
  reach H coin N F ID bad vals once g -> 
  d_vflag (m_rounds (gs_m g i) (m_r (gs_m g i))) = Some (VOther v sg) ->
  mstep H coin N F ID (gs_m g i) EvResult = Ret (Some (st, sms)) ->
  m_val st = v /\ m_r st = S (m_r (gs_m g i)) /\ m_out st = None /\ sms = [] /\
  exists l, d_lead (m_rounds (gs_m g i) (m_r (gs_m g i))) = Some l /\
    certified N F bad g (smEcho ID (m_r (gs_m g i)) l 1 (H v)).
Proof.
  intros HH HN HNF Hb R V E.
  pose proof (t_other _ _ _ _ _ _ _ _ (reach_votes H coin N F ID bad vals Hb HNF g R i (m_r (gs_m g i))) v sg V) as T.
  cbn [mstep] in E. unfold result_step in E. rewrite V in E. destruct (m_out (gs_m g i)); [discriminate|].
  destruct (d_past _); [|discriminate]. inversion E; subst. cbn [m_val m_r m_out]. repeat split; try reflexivity. exact T.
Qed.
Print Assumptions c36_adopts.

(** Member 1, whose input is 11, gets two No-votes and one Yes-vote for 13: its value is 13 afterwards. *)
Definition mixed_run : list (nat * mev) := round0 ++ voting0 ++
  [(1%nat, EvVoteNo 0 (Sig (smNo [7%Z] 0)) (Sh 1 (smUnlock [7%Z] 0)));
   (1%nat, EvVoteNo 0 (Sig (smNo [7%Z] 0)) (Sh 2 (smUnlock [7%Z] 0)));
   (1%nat, EvVoteYes 0 [13%Z] (Sig (smEcho [7%Z] 0 3 1 (toyH [13%Z]))) (Sh 0 (smEcho [7%Z] 0 3 2 (toyH [13%Z]))))].
Example c36_adopts_demo : exists g, reach toyH toyCoin 4 1 [7%Z] [3%nat] toyVals once g /\
  (match d_vflag (m_rounds (gs_m g 1%nat) 0) with Some (VOther v _) => v | _ => [] end, m_val (gs_m g 1%nat),
   match mstep toyH toyCoin 4 1 [7%Z] (gs_m g 1%nat) EvResult with Ret (Some (st, _)) => m_val st | _ => [] end) = ([13%Z], [11%Z], [13%Z]).
Proof.
  apply (run_read toyH toyCoin 4 1 [7%Z] [3%nat] toyVals onceb once
    (fun g => (match d_vflag (m_rounds (gs_m g 1%nat) 0) with Some (VOther v _) => v | _ => [] end, m_val (gs_m g 1%nat),
      match mstep toyH toyCoin 4 1 [7%Z] (gs_m g 1%nat) EvResult with Ret (Some (st, _)) => m_val st | _ => [] end)) mixed_run).
  - apply onceb_ok.
  - vm_compute. reflexivity.
Qed.

(** Shares of the coin are sent only when some honest member has taken 2F+1 Finish messages, each with a certificate of the
    second stage of its sender's broadcast. *)
Theorem c56_coin_after_finish H coin N F ID bad vals g i r :
  (forall x, length (H x) = 64%nat) -> w32 N -> (N <= 3 * F + 1)%nat -> (length bad <= F)%nat ->
  reach H coin N F ID bad vals once g -> w32 r -> In (i, smDone ID r) (gs_rel g) ->
  exists j, hon N bad j /\ (2 * F + 1 <= length (d_fin (m_rounds (gs_m g j) r)))%nat /\
    forall k v sg, In (k, (v, sg)) (d_fin (m_rounds (gs_m g j) r)) -> (k < N)%nat /\ certified N F bad g (smEcho ID r k 2 (H v)).
Proof.
  intros HH HN HNF Hb R W D. destruct (reach_once H coin N F ID bad vals HH HN Hb HNF g R) as (I & _).
  pose proof (done_sent H N F ID bad g i r I W D) as S.
  pose proof (t_sent _ _ _ _ _ _ _ _ (reach_votes H coin N F ID bad vals Hb HNF g R i r) S) as S'.
  destruct (reach_finish H coin N F ID bad vals HH HN Hb HNF g R i r W S') as (j & J1 & J2). exists j. split; [exact J1|].
  rewrite (t_fin _ _ _ _ _ _ _ _ (reach_votes H coin N F ID bad vals Hb HNF g R j r)). split; [exact J2|].
  intros k v sg Hk. exact (n_fin _ _ _ _ _ _ _ _ (v_round _ _ _ _ _ _ I j r) k v sg Hk).
Qed.
Print Assumptions c56_coin_after_finish.

(** That these are Finish messages of 2F+1 different members fails: the counter counts the repetitions of one sender. *)
Definition repeated_finish : list (nat * mev) :=
  spb 0 0 (toyVals 0) hs hs ++ finish 0 0 (toyVals 0) [0; 0; 0]%nat ++ [(0%nat, EvElection 0)].
Theorem c56_distinct_finish_refuted : exists g, reach toyH toyCoin 4 1 [7%Z] [3%nat] toyVals once g /\
  existsb (fun p => (0 =? fst p)%nat && bytes_eqb (snd p) (smDone [7%Z] 0)) (gs_rel g) = true /\
  forall j, hon 4 [3%nat] j -> forall k x, In (k, x) (d_fin (m_rounds (gs_m g j) 0)) -> k = 0%nat.
Proof.
  destruct (run_read toyH toyCoin 4 1 [7%Z] [3%nat] toyVals onceb once
    (fun g => existsb (fun p => (0 =? fst p)%nat && bytes_eqb (snd p) (smDone [7%Z] 0)) (gs_rel g) &&
       forallb (fun j => forallb (fun p => (fst p =? 0)%nat) (d_fin (m_rounds (gs_m g j) 0))) (seq 0 4)) repeated_finish true) as (g & R & E).
  - apply onceb_ok.
  - vm_compute. reflexivity.
  - apply andb_true_iff in E as (E1 & E2). exists g. split; [exact R|]. split; [exact E1|].
    intros j (J & _) k x Hk. rewrite forallb_forall in E2. specialize (E2 j). rewrite forallb_forall in E2.
    assert (Hj : In j (seq 0 4)) by (apply in_seq; lia). specialize (E2 Hj (k, x) Hk). apply Nat.eqb_eq in E2. exact E2.
Qed.
Print Assumptions c56_distinct_finish_refuted.
