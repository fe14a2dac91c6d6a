(** Further theorems on the common coin (C56): repeated coin shares make the members send theirs before
    any broadcast has finished. *)

Require Import ZArith List Bool Arith Lia.
From Verif Require Import Bytes CodecModel GoBase DispatchModel DispatchProofs MvbaModel MvbaProofs PropertiesMvba.
Import ListNotations.

Section Early.
Variable H : list Z -> list Z.
Variable coin : list Z -> Z.
Variables N F : nat.
Variable ID : list Z.
Variable bad : list nat.
Variable vals : nat -> list Z.

Notation mstep' := (mstep H coin N F ID).
Notation reach' := (reach H coin N F ID bad vals anyp).

(** One more share of the coin, below the number at which the leader is elected. *)
Lemma one_more g s i r : In s bad -> (s < N)%nat -> hon N bad i -> reach' g ->
  (r <= m_r (gs_m g i))%nat -> w32 (m_r (gs_m g i)) -> d_lead (m_rounds (gs_m g i) r) = None ->
  (length (d_coins (m_rounds (gs_m g i) r)) < 2 * F)%nat ->
  exists g', reach' g' /\ (forall k, k <> i -> gs_m g' k = gs_m g k) /\ gs_rel g' = gs_rel g /\
    m_r (gs_m g' i) = m_r (gs_m g i) /\
    d_lead (m_rounds (gs_m g' i) r) = None /\ d_fin (m_rounds (gs_m g' i) r) = d_fin (m_rounds (gs_m g i) r) /\
    d_doneSent (m_rounds (gs_m g' i) r) = d_doneSent (m_rounds (gs_m g i) r) /\
    length (d_coins (m_rounds (gs_m g' i) r)) = S (length (d_coins (m_rounds (gs_m g i) r))) /\
    (S (length (d_coins (m_rounds (gs_m g i) r))) = (F + 1)%nat -> d_done (m_rounds (gs_m g' i) r) = true).
Proof.
  intros Hs Ls Hi R LR W EL LC. set (d := m_rounds (gs_m g i) r) in *.
  assert (E : exists st, mstep' (gs_m g i) (EvDone r (Sh s (smDone ID r))) = Ret (Some (st, [])) /\ m_r st = m_r (gs_m g i) /\
    d_lead (m_rounds st r) = None /\ d_fin (m_rounds st r) = d_fin d /\ d_doneSent (m_rounds st r) = d_doneSent d /\
    length (d_coins (m_rounds st r)) = S (length (d_coins d)) /\
    (S (length (d_coins d)) = (F + 1)%nat -> d_done (m_rounds st r) = true)).
  { eexists. split.
    - cbn [mstep]. unfold done_step. fold d. rewrite EL. rewrite (proj2 (Nat.leb_le _ _) LR). cbn [vshare].
      rewrite bytes_eqb_refl. reflexivity.
    - split; [reflexivity|]. rewrite setr_same. cbn [d_lead d_coins d_fin d_doneSent d_done]. rewrite app_length. cbn [length].
      rewrite (proj2 (Nat.ltb_ge _ _)) by lia. repeat (split; [first [reflexivity|lia]|]).
      intros K. rewrite (proj2 (Nat.eqb_eq _ _)) by lia. apply orb_true_r. }
  destruct E as (st & E & A). exists (gs_next g i st []).
  split; [eapply reach_step; [exact R|exact Hi| |exact I|exact W|exact E]; split; [exact Ls|]; intros (_ & K); contradiction|].
  unfold gs_next. cbn [gs_m gs_rel map]. split; [intros k Hk; rewrite (proj2 (Nat.eqb_neq _ _) Hk); reflexivity|].
  rewrite Nat.eqb_refl, app_nil_r. split; [reflexivity|exact A].
Qed.

Lemma to_done s i r : In s bad -> (s < N)%nat -> hon N bad i -> (1 <= F)%nat ->
  forall n g, reach' g -> (r <= m_r (gs_m g i))%nat -> w32 (m_r (gs_m g i)) -> d_lead (m_rounds (gs_m g i) r) = None ->
  (length (d_coins (m_rounds (gs_m g i) r)) + n = F)%nat ->
  exists g', reach' g' /\ (forall k, k <> i -> gs_m g' k = gs_m g k) /\ gs_rel g' = gs_rel g /\
    m_r (gs_m g' i) = m_r (gs_m g i) /\
    d_fin (m_rounds (gs_m g' i) r) = d_fin (m_rounds (gs_m g i) r) /\
    d_doneSent (m_rounds (gs_m g' i) r) = d_doneSent (m_rounds (gs_m g i) r) /\
    d_done (m_rounds (gs_m g' i) r) = true.
Proof.
  intros Hs Ls Hi HF. induction n as [|n IH]; intros g R LR W EL LC;
    destruct (one_more g s i r Hs Ls Hi R LR W EL ltac:(lia)) as (g1 & R1 & O1 & Q1 & M1 & L1 & F1 & S1 & C1 & D1).
  - exists g1. do 6 (split; [assumption|]). apply D1. lia.
  - destruct (IH g1 R1) as (g2 & R2 & O2 & Q2 & M2 & F2 & S2 & D2); [rewrite M1; exact LR|rewrite M1; exact W|exact L1|lia|].
    exists g2. split; [exact R2|]. split; [intros k Hk; rewrite O2, O1 by exact Hk; reflexivity|].
    split; [congruence|]. split; [congruence|]. split; [congruence|]. split; [congruence|exact D2].
Qed.

(** For every committee with F >= 1 and at every moment: a corrupted member can make an honest member, that
    has not sent its coin share of a round and has taken at most F, send it at once, by repeating its own
    share; the member need not have taken any Finish message, and nobody else notices. *)
Theorem c56_early_refuted g s i r : (1 <= F)%nat -> In s bad -> (s < N)%nat -> hon N bad i -> reach' g ->
  (r <= m_r (gs_m g i))%nat -> w32 (m_r (gs_m g i)) -> d_lead (m_rounds (gs_m g i) r) = None ->
  d_doneSent (m_rounds (gs_m g i) r) = false -> (length (d_coins (m_rounds (gs_m g i) r)) <= F)%nat ->
  exists g', reach' g' /\ (forall k, k <> i -> gs_m g' k = gs_m g k) /\
    gs_rel g' = gs_rel g ++ [(i, smDone ID r)] /\
    d_fin (m_rounds (gs_m g' i) r) = d_fin (m_rounds (gs_m g i) r).
Proof.
  intros HF Hs Ls Hi R LR W EL ES LC.
  destruct (to_done s i r Hs Ls Hi HF (F - length (d_coins (m_rounds (gs_m g i) r))) g R LR W EL ltac:(lia))
    as (g1 & R1 & O1 & Q1 & M1 & F1 & S1 & D1).
  assert (E : exists st, mstep' (gs_m g1 i) (EvElection r) = Ret (Some (st, [smDone ID r])) /\
    d_fin (m_rounds st r) = d_fin (m_rounds (gs_m g1 i) r)).
  { eexists. split.
    - cbn [mstep]. unfold election_step. rewrite D1, S1, ES, M1, (proj2 (Nat.leb_le _ _) LR). cbn [andb negb]. reflexivity.
    - rewrite setr_same. reflexivity. }
  destruct E as (st & E & A). exists (gs_next g1 i st [smDone ID r]).
  split; [apply (reach_step H coin N F ID bad vals anyp g1 i (EvElection r) st [smDone ID r] R1 Hi); [exact I|exact I|rewrite M1; exact W|exact E]|].
  unfold gs_next. cbn [gs_m gs_rel map]. split; [intros k Hk; rewrite (proj2 (Nat.eqb_neq _ _) Hk); apply O1; exact Hk|].
  rewrite Nat.eqb_refl. split; [rewrite Q1; reflexivity|congruence].
Qed.

(** So for every committee with F >= 1 and a corrupted member there is a run in which all honest members
    have sent their shares of the first coin, so that the leader is known, although none of them has taken a
    Finish message. *)
Theorem c56_all_early_refuted s : (1 <= F)%nat -> (2 * F + 1 <= N)%nat -> In s bad -> (s < N)%nat ->
  exists g, reach' g /\ (forall i, hon N bad i -> In (i, smDone ID 0) (gs_rel g)) /\ certified N F bad g (smDone ID 0) /\
    forall i, d_fin (m_rounds (gs_m g i) 0) = [].
Proof.
  intros HF HN Hs Ls.
  assert (K : forall l, NoDup l -> (forall i, In i l -> hon N bad i) ->
    exists g, reach' g /\ (forall i, In i l -> In (i, smDone ID 0) (gs_rel g)) /\
      (forall i, d_fin (m_rounds (gs_m g i) 0) = []) /\ forall i, ~ In i l -> gs_m g i = mvba_init (vals i)).
  { induction l as [|i l IH]; intros ND HL.
    - exists (gs_init vals). split; [constructor|]. split; [intros ? []|]. split; reflexivity.
    - inversion ND as [|? ? NI ND']; subst. destruct IH as (g & R & S & Fn & O); [exact ND'|intros; apply HL; right; assumption|].
      pose proof (O i NI) as Q.
      destruct (c56_early_refuted g s i 0 HF Hs Ls (HL i (or_introl eq_refl)) R) as (g' & R' & O' & S' & F');
        [lia|rewrite Q; unfold w32; cbn; lia|rewrite Q; reflexivity|rewrite Q; reflexivity|rewrite Q; cbn; lia|].
      exists g'. split; [exact R'|]. split; [|split].
      + intros k [<-|Hk]; rewrite S'; apply in_or_app; [right; left; reflexivity|left; apply S; exact Hk].
      + intros k. destruct (Nat.eq_dec k i) as [->|Hk]; [rewrite F'; apply Fn|rewrite O' by exact Hk; apply Fn].
      + intros k Hk. rewrite O' by (intros ->; apply Hk; left; reflexivity). apply O. intros J. apply Hk. right. exact J. }
  destruct (K (filter (fun i => negb (memb i bad)) (seq 0 N))) as (g & R & S & Fn & _).
  - apply NoDup_filter, seq_NoDup.
  - intros i Hi. apply filter_In in Hi as (A & B). apply in_seq in A. split; [lia|]. intros J. apply memb_in in J.
    apply negb_true_iff in B. congruence.
  - exists g. split; [exact R|].
    assert (S' : forall i, hon N bad i -> In (i, smDone ID 0) (gs_rel g)).
    { intros i (A & B). apply S, filter_In. split; [apply in_seq; lia|].
      apply negb_true_iff. destruct (memb i bad) eqn:E; [|reflexivity]. exfalso. apply B, memb_in, E. }
    split; [exact S'|]. split; [|exact Fn]. exists (seq 0 (2 * F + 1)). split; [apply seq_NoDup|]. rewrite seq_length. split; [lia|].
    intros i Hi. apply in_seq in Hi. split; [lia|apply S'].
Qed.

End Early.
Print Assumptions c56_early_refuted.
Print Assumptions c56_all_early_refuted.

(** Four members, the last one corrupted. *)
Example c56_early_example : exists g, reach toyH toyCoin 4 1 [7%Z] [3%nat] toyVals anyp g /\
  In (0%nat, smDone [7%Z] 0) (gs_rel g) /\ In (1%nat, smDone [7%Z] 0) (gs_rel g) /\ In (2%nat, smDone [7%Z] 0) (gs_rel g) /\
  d_fin (m_rounds (gs_m g 0%nat) 0) = [].
Proof.
  destruct (c56_all_early_refuted toyH toyCoin 4 1 [7%Z] [3%nat] toyVals 3) as (g & R & S & _ & Fn); [lia|lia|left; reflexivity|lia|].
  exists g. split; [exact R|].
  repeat (split; [apply S; split; [lia|intros [K|[]]; discriminate]|]). apply Fn.
Qed.
