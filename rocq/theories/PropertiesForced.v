(** Further theorems on the votes (C35): at every moment one corrupted member can make a member return
    the leader's value, by repeating its own yes-vote. *)

Require Import ZArith List Bool Arith Lia.
From Verif Require Import Bytes CodecModel GoBase DispatchModel DispatchProofs MvbaModel MvbaProofs PropertiesMvba.
Import ListNotations.

Section Forced.
Variable H : list Z -> list Z.
Variable coin : list Z -> Z.
Variables N F : nat.
Variable ID : list Z.
Variable bad : list nat.
Variable vals : nat -> list Z.

Notation mstep' := (mstep H coin N F ID).
Notation reach' := (reach H coin N F ID bad vals anyp).

(** Member i has passed the election of its round, has not returned, and has taken yes-votes only. *)
Definition waiting (g : gstate) (i l : nat) : Prop :=
  let st := gs_m g i in let d := m_rounds st (m_r st) in
  m_out st = None /\ w32 (m_r st) /\ d_lead d = Some l /\ d_past d = true /\ d_vflag d = None /\ d_vn d = [].

(** One more yes-vote. *)
Lemma one_vote g s i l v : In s bad -> (s < N)%nat -> hon N bad i -> reach' g -> waiting g i l ->
  let r := m_r (gs_m g i) in
  certified N F bad g (smEcho ID r l 1 (H v)) ->
  exists g', reach' g' /\ (forall k, k <> i -> gs_m g' k = gs_m g k) /\ gs_rel g' = gs_rel g /\ m_r (gs_m g' i) = r /\
    let n := length (d_vy (m_rounds (gs_m g i) r)) in
    length (d_vy (m_rounds (gs_m g' i) r)) = S n /\
    ((n < 2 * F)%nat -> waiting g' i l) /\
    ((2 * F <= n)%nat -> m_out (gs_m g' i) = None /\ d_past (m_rounds (gs_m g' i) r) = true /\
       exists sg, d_vflag (m_rounds (gs_m g' i) r) = Some (VYes v sg)).
Proof.
  intros Hs Ls Hi R (Wo & Ww & Wl & Wp & Wf & Wn). cbv zeta. set (r := m_r (gs_m g i)) in *. set (d := m_rounds (gs_m g i) r) in *. intros HC.
  set (e := EvVoteYes r v (Sig (smEcho ID r l 1 (H v))) (Sh s (smEcho ID r l 2 (H v)))).
  assert (E : exists st, mstep' (gs_m g i) e = Ret (Some (st, [])) /\ m_r st = r /\ m_out st = None /\
    let d' := m_rounds st r in d_lead d' = Some l /\ d_past d' = true /\ d_vn d' = [] /\ length (d_vy d') = S (length (d_vy d)) /\
      ((length (d_vy d) < 2 * F)%nat -> d_vflag d' = None) /\
      ((2 * F <= length (d_vy d))%nat -> exists sg, d_vflag d' = Some (VYes v sg))).
  { eexists. split.
    - unfold e. cbn [mstep]. unfold voteYes_step. fold d. rewrite Wl. cbn [vsig vshare]. rewrite !bytes_eqb_refl. cbn [andb]. reflexivity.
    - split; [reflexivity|]. split; [exact Wo|]. cbv zeta. rewrite setr_same. cbn [d_lead d_past d_vn d_vy d_vflag].
      rewrite app_length, Wn, Wf. cbn [length first]. split; [reflexivity|]. split; [exact Wp|]. split; [reflexivity|]. split; [lia|].
      split; intros K.
      + rewrite (proj2 (Nat.ltb_ge _ _)) by lia. rewrite (proj2 (Nat.ltb_ge _ _)) by lia. reflexivity.
      + rewrite (proj2 (Nat.ltb_lt _ _)) by lia. eexists. reflexivity. }
  destruct E as (st & E & A1 & A2 & A3). cbv zeta in A3. destruct A3 as (A3 & A4 & A5 & A6 & A7 & A8).
  exists (gs_next g i st []).
  split; [apply (reach_step H coin N F ID bad vals anyp g i e st [] R Hi); [|exact I|exact Ww|exact E]|].
  { split; [exact HC|]. split; [exact Ls|]. intros (_ & K). contradiction. }
  unfold waiting, gs_next. cbn [gs_m gs_rel map]. split; [intros k Hk; rewrite (proj2 (Nat.eqb_neq _ _) Hk); reflexivity|].
  rewrite Nat.eqb_refl, app_nil_r. split; [reflexivity|]. split; [exact A1|]. cbv zeta. split; [exact A6|]. rewrite A1. split; intros K.
  - split; [exact A2|]. split; [exact Ww|]. split; [exact A3|]. split; [exact A4|]. split; [apply A7; exact K|exact A5].
  - split; [exact A2|]. split; [exact A4|apply A8; exact K].
Qed.

Lemma votes s i l v : In s bad -> (s < N)%nat -> hon N bad i ->
  forall n g, reach' g -> waiting g i l -> certified N F bad g (smEcho ID (m_r (gs_m g i)) l 1 (H v)) ->
  (length (d_vy (m_rounds (gs_m g i) (m_r (gs_m g i)))) + n = 2 * F)%nat ->
  exists g', reach' g' /\ (forall k, k <> i -> gs_m g' k = gs_m g k) /\ gs_rel g' = gs_rel g /\ m_r (gs_m g' i) = m_r (gs_m g i) /\
    m_out (gs_m g' i) = None /\ d_past (m_rounds (gs_m g' i) (m_r (gs_m g i))) = true /\
    exists sg, d_vflag (m_rounds (gs_m g' i) (m_r (gs_m g i))) = Some (VYes v sg).
Proof.
  intros Hs Ls Hi. induction n as [|n IH]; intros g R W HC LC;
    destruct (one_vote g s i l v Hs Ls Hi R W HC) as (g1 & R1 & O1 & Q1 & M1 & T); cbv zeta in T; destruct T as (C1 & W1 & D1).
  - exists g1. do 4 (split; [assumption|]). apply D1. lia.
  - assert (HC1 : certified N F bad g1 (smEcho ID (m_r (gs_m g1 i)) l 1 (H v))) by (unfold certified in *; rewrite M1, Q1; exact HC).
    destruct (IH g1 R1 (W1 ltac:(lia)) HC1) as (g2 & R2 & O2 & Q2 & M2 & D2); [rewrite M1, C1; lia|].
    exists g2. rewrite M1 in M2, D2. split; [exact R2|]. split; [intros k Hk; rewrite O2, O1 by exact Hk; reflexivity|].
    split; [congruence|]. split; [exact M2|exact D2].
Qed.

(** For every committee and at every moment: if a value of the leader is certified in the first stage, a
    corrupted member can make an honest member that waits for votes, has taken at most 2F yes-votes and no
    no-vote, return the value by repeating its own yes-vote.  No honest member signs anything meanwhile, so
    there is a decision certificate only if there was one before. *)
Theorem c35_forced_refuted g s i l v : In s bad -> (s < N)%nat -> hon N bad i -> reach' g -> waiting g i l ->
  certified N F bad g (smEcho ID (m_r (gs_m g i)) l 1 (H v)) ->
  (length (d_vy (m_rounds (gs_m g i) (m_r (gs_m g i)))) <= 2 * F)%nat ->
  exists g', reach' g' /\ (forall k, k <> i -> gs_m g' k = gs_m g k) /\ m_out (gs_m g' i) = Some v /\
    forall sm, certified N F bad g' sm <-> certified N F bad g sm.
Proof.
  intros Hs Ls Hi R W HC LC.
  destruct (votes s i l v Hs Ls Hi (2 * F - length (d_vy (m_rounds (gs_m g i) (m_r (gs_m g i))))) g R W HC ltac:(lia))
    as (g1 & R1 & O1 & Q1 & M1 & T1 & P1 & sg & V1).
  assert (E : exists st, mstep' (gs_m g1 i) EvResult = Ret (Some (st, [])) /\ m_out st = Some v).
  { eexists. split.
    - cbn [mstep]. unfold result_step. rewrite T1, M1, V1, P1. reflexivity.
    - reflexivity. }
  destruct E as (st & E & A). exists (gs_next g1 i st []).
  split; [apply (reach_step H coin N F ID bad vals anyp g1 i EvResult st [] R1 Hi); [exact I|exact I|rewrite M1; apply W|exact E]|].
  unfold gs_next. cbn [gs_m gs_rel map]. split; [intros k Hk; rewrite (proj2 (Nat.eqb_neq _ _) Hk); apply O1; exact Hk|].
  rewrite Nat.eqb_refl. split; [exact A|]. intros sm. unfold certified. cbn [gs_rel]. rewrite app_nil_r, Q1. tauto.
Qed.

End Forced.
Print Assumptions c35_forced_refuted.

(** Four members, the last one corrupted and elected; its broadcast got as far as the first stage.  Member 0
    is made to return its value, for which there is no decision certificate. *)
Example c35_forced_example : exists g, reach toyH toyCoin 4 1 [7%Z] [3%nat] toyVals anyp g /\ m_out (gs_m g 0%nat) = Some [13%Z] /\
  m_out (gs_m g 1%nat) = None /\ ~ certified 4 1 [3%nat] g (smEcho [7%Z] 0 3 2 (toyH [13%Z])).
Proof.
  destruct (run_read toyH toyCoin 4 1 [7%Z] [3%nat] toyVals anyb anyp
    (fun g => let d := m_rounds (gs_m g 0%nat) 0 in
      (m_r (gs_m g 0%nat), m_out (gs_m g 0%nat), m_out (gs_m g 1%nat), d_lead d, d_past d, d_vflag d, d_vn d, d_vy d,
       certb 4 1 [3%nat] g (smEcho [7%Z] 0 3 1 (toyH [13%Z])), certb 4 1 [3%nat] g (smEcho [7%Z] 0 3 2 (toyH [13%Z]))))
    (flat_map (fun j => spb 0 j (toyVals j) hs hs) hs ++ spb 0 3 [13%Z] hs [] ++ flat_map (fun j => finish 0 j (toyVals j) hs) hs ++ elect 0 hs hs)
    (0%nat, None, None, Some 3%nat, true, None, [], [], true, false) (fun _ _ _ _ => I) ltac:(vm_compute; reflexivity)) as (g & R & E).
  cbv zeta in E. rewrite !pair_equal_spec in E. destruct E as (((((((((E1 & E2) & E3) & E4) & E5) & E6) & E7) & E8) & E9) & E10).
  destruct (c35_forced_refuted toyH toyCoin 4 1 [7%Z] [3%nat] toyVals g 3 0 3 [13%Z]) as (g' & R' & O & A & C).
  - left. reflexivity.
  - lia.
  - split; [lia|]. intros [K|[]]. discriminate.
  - exact R.
  - unfold waiting. cbv zeta. rewrite E1. split; [exact E2|]. split; [unfold w32; cbn; lia|auto].
  - rewrite E1. apply certb_ok. exact E9.
  - rewrite E1, E8. cbn. lia.
  - exists g'. split; [exact R'|]. split; [exact A|]. split; [rewrite O by discriminate; exact E3|].
    intros K. apply C, certb_ok in K. congruence.
Qed.
