(** C77: the honest members of a new committee, from the refreshed shares to the end of the handoff. *)

Require Import ZArith List Bool Arith Lia Permutation.
From Verif Require Import Prime Fr GoBase Poly PolyModel PolyProofs Biv GroupModel KzgModel KzgProofs.
From Verif Require Import CodecModel CodecProofs PartyModel PartySpec VssModel VssProofs VssProofs2 BivProofs.
From Verif Require Import ReduceModel ReduceProofs PropertiesVss PropertiesReduce.
From Verif Require Import ProacModel ProacProofs ProacRun ProacSig ProacRecover ProacDist ProacLinks.
From Verif Require Import PropertiesProac PropertiesDist ReshareModel ReshareProofs StageModel StageProofs StageNet StageSplit PropertiesStage PropertiesRefresh PropertiesSplit.
From Verif Require Import DistNetModel DistNetProofs.
Import ListNotations.
Local Open Scope F_scope.

(** Member i holds the share of B' that the refreshing of B has given it, and the commitments to B and the sums that lead
    to those to B'. *)
Definition renewed (N F : nat) (B B' : list (list Fr)) (CQsum : list G1) (i : nat) (p : Party) : Prop :=
  party_wf party_secret p /\ p_N p = N /\ p_F p = F /\ p_PID p = (i - 1)%nat /\
  p_reducedShare p = secy B' (of_nat i) /\ holds_commitments B p /\ updates B B' p CQsum.

(** Distinct members, at least 2F+1. *)
Definition enough (N F : nat) (hon : list nat) : Prop :=
  (Z.of_nat N < 2 ^ 32)%Z /\ (forall k, In k hon -> (1 <= k <= N)%nat) /\ NoDup hon /\ (2 * F + 1 <= length hon)%nat.

(** The distribution comes to its end: no member stops, every run is finite, and when nothing more can happen every
    honest member has its full share of B' and has left the handoff; nobody leaves it earlier than 2F+1 members have their
    shares, nor without its own. *)
Definition finishes (cd : g1codec) (F : nat) (ps : nat -> Party) (CQ : nat -> list G1) (hon : list nat) (B' : list (list Fr)) : Prop :=
  forall n0 evs n, dist_starts cd ps hon n0 -> dnruns cd ps CQ F hon n0 evs n ->
    (length evs <= 4 * length hon * length hon)%nat /\
    (forall e, exists o, dnstep cd ps CQ F hon n e = Ret o) /\
    (forall i full, In i hon -> d_share (m_d n i) = Some full -> full = secx B' (of_nat i)) /\
    (forall i, In i hon -> left_handoff F n i -> d_share (m_d n i) <> None /\
       exists G, incl G hon /\ NoDup G /\ (2 * F + 1 <= length G)%nat /\ forall k, In k G -> d_share (m_d n k) <> None) /\
    ((forall e, dnstep cd ps CQ F hon n e = Ret None) ->
       forall i, In i hon -> d_share (m_d n i) = Some (secx B' (of_nat i)) /\ left_handoff F n i) /\
    (exists evs' n', dnruns cd ps CQ F hon n evs' n' /\ forall e, dnstep cd ps CQ F hon n' e = Ret None).

Theorem c77_finish : forall cd N F ps CQ hon B B', codec_ok cd -> enough N F hon ->
  bdeg F (2 * F) B -> bdeg F (2 * F) B' -> (forall i, In i hon -> renewed N F B B' (CQ i) i (ps i)) ->
  finishes cd F ps CQ hon B'.
Proof.
  intros cd N F ps CQ hon B B' HC (HN & HH & ND & HF) HB HB' HR n0 evs n S0 R.
  assert (EX : exists i, In i hon). { destruct hon as [|a l]; [cbn in HF; lia|exists a; left; reflexivity]. }
  assert (EQ : badd B (bsub B' B) = B').
  { destruct EX as (i & Ii). destruct (HR i Ii) as (W & EN & EF & _). apply (set_eq (ps i)); auto; rewrite EF; assumption. }
  assert (HPS : forall i, In i hon -> party_wf party_secret (ps i) /\ p_N (ps i) = N /\ p_F (ps i) = F /\ p_PID (ps i) = (i - 1)%nat /\
    p_reducedShare (ps i) = secy (badd B (bsub B' B)) (of_nat i)).
  { intros i Ii. destruct (HR i Ii) as (W & EN & EF & EP & ER & _). rewrite EQ. auto. }
  assert (HS : bdeg F (2 * F) (bsub B' B)).
  { destruct EX as (i & Ii). destruct (HR i Ii) as (W & EN & EF & _). rewrite <- EF. apply set_deg; rewrite EF; assumption. }
  assert (HO : forall i j, In i hon -> (1 <= j <= 2 * F + 1)%nat ->
    exists c, nth_error (PiContents (p_Proof (ps i))) j = Some c /\ CBj c = mkG1 (peval (secx B party_secret) (of_nat j))).
  { intros i j Ii Hj. destruct (HR i Ii) as (W & EN & EF & EP & ER & HO & HU). apply (set_coms (ps i) B W); [rewrite EF; exact HB|exact HO|rewrite EF; exact Hj]. }
  assert (HL : forall i, In i hon -> length (CQ i) = (N + 1)%nat).
  { intros i Ii. destruct (HR i Ii) as (W & EN & EF & EP & ER & HO' & HU). rewrite (proj1 HU), EN. reflexivity. }
  assert (HV : forall i j, In i hon -> (1 <= j <= N)%nat -> nth j (CQ i) ZeroG1 = mkG1 (peval (secx (bsub B' B) party_secret) (of_nat j))).
  { intros i j Ii Hj. destruct (HR i Ii) as (W & EN & EF & EP & ER & HO' & HU). apply (set_sums (ps i) B B' (CQ i) W); [rewrite EF; exact HB|rewrite EF; exact HB'|exact HU|rewrite EN; exact Hj]. }
  destruct (runs_inv cd party_secret ps CQ B (bsub B' B) hon N F HC HPS HB HS HO HL HV HN HH ND HF n0 evs n S0 R) as (E & T & P).
  split; [lia|]. split.
  { intros e. destruct (step_ok cd party_secret ps CQ B (bsub B' B) hon N F HC HPS HB HS HO HL HV HN HH ND HF n E e T) as (o & EO & _). exists o. exact EO. }
  split.
  { intros i full Ii ES. destruct (t_good _ _ _ _ _ _ _ _ _ _ T i Ii) as (_ & _ & (_ & _ & _ & _ & _ & D) & _). rewrite ES in D. rewrite EQ in D. rewrite D. f_equal.
    destruct (HPS i Ii) as (_ & _ & _ & EP & _). unfold me. rewrite EP. f_equal. pose proof (HH i Ii). lia. }
  split.
  { intros i Ii LF. unfold left_handoff in LF. split; [apply (t_cnt _ _ _ _ _ _ _ _ _ _ T i Ii); lia|].
    exists (filter (fun k => match d_share (m_d n k) with Some _ => true | None => false end) hon). split; [intros k K; apply filter_In in K; apply K|]. split; [apply NoDup_filter; exact ND|]. split.
    - pose proof (t_suc _ _ _ _ _ _ _ _ _ _ T i Ii) as TS.
      assert (X : forall l, length (filter (fun k => match d_share (m_d n k) with Some _ => true | None => false end) l) = StageNet.total (fun k => has (m_d n k)) l).
      { clear. induction l as [|a l IH]; [reflexivity|]. cbn [filter]. unfold StageNet.total in *. cbn [map]. unfold list_sum in *. cbn [fold_right]. rewrite <- IH. unfold has at 1. destruct (d_share (m_d n a)); reflexivity. }
      rewrite X. lia.
    - intros k K. apply filter_In in K. destruct K as (_ & K). destruct (d_share (m_d n k)); discriminate. }
  split.
  - intros Q i Ii. destruct (quiet_end cd party_secret ps CQ B (bsub B' B) hon N F HC HPS HB HS HO HL HV HN HH ND HF n E T Q i Ii) as (A1 & A2). rewrite EQ in A1. split; assumption.
  - exact (to_dquiet cd party_secret ps CQ B (bsub B' B) hon N F HC HPS HB HS HO HL HV HN HH ND HF _ n E (le_n _) T).
Qed.
Print Assumptions c77_finish.

(** There is a start, for all such members. *)
Lemma dist_start : forall cd N F ps hon B', bdeg F (2 * F) B' ->
  (forall i, In i hon -> party_wf party_secret (ps i) /\ p_N (ps i) = N /\ p_F (ps i) = F /\ p_reducedShare (ps i) = secy B' (of_nat i)) ->
  exists n0, dist_starts cd ps hon n0.
Proof.
  intros cd N F ps hon B' DB HR.
  exists (mkDnet (fun i => dist_init (p_N (ps i))) (fun _ => O)
    (flat_map (fun k => flat_map (fun i => [QCommit k i (match NewCommitSend cd (ps k) with Ret d => d | _ => [] end);
       QShare k i (nth (i - 1) (match DistributeSend cd (ps k) with Ret ms => ms | _ => [] end) (mkSD [] []))]) hon) hon)).
  split; [intros i _; split; reflexivity|]. cbn [m_post].
  exists (fun k => match NewCommitSend cd (ps k) with Ret d => d | _ => [] end), (fun k => match DistributeSend cd (ps k) with Ret ms => ms | _ => [] end).
  split; [|reflexivity]. intros k K. destruct (HR k K) as (W & EN & EF & ER). pose proof W as (Q1 & _). rewrite EF in Q1. split.
  - unfold NewCommitSend. rewrite ER, (commit_section party_secret (F + 1) _ F (2 * F) _ _ Q1 DB) by lia. reflexivity.
  - unfold DistributeSend. rewrite EN, ER.
    rewrite (gomap_ret _ (fun i => mkSD (FrTo32 (beval B' (of_nat i) (of_nat k))) (ToCompressedG1 cd (mkG1 (peval (wrow party_secret B' (of_nat i)) (of_nat k)))))); [reflexivity|].
    intros i _. rewrite (witness_section party_secret (F + 1) _ F (2 * F) _ _ _ Q1 DB) by lia. cbn [bind]. rewrite EvalPolyAt_correct, peval_secy. reflexivity.
Qed.

(** When every honest member has recovered the polynomials of the agreed dealers, the rest of the handoff comes to its
    end, with the same secret. *)
Theorem c77_recovered : forall cd N F ps QB B J sign sigok combine evs st hon, codec_ok cd -> enough N F hon ->
  bdeg F (2 * F) B -> (forall k, bdeg F (2 * F) (QB k)) -> (forall j, In j J -> beval (QB (Z.to_nat j)) 0 0 = 0) ->
  (forall i, In i hon -> party_wf party_secret (ps i) /\ p_N (ps i) = N /\ p_F (ps i) = F /\ p_PID (ps i) = (i - 1)%nat /\
     p_reducedShare (ps i) = secy B (of_nat i) /\ holds_commitments B (ps i) /\
     env cd (ps i) QB (evs i) /\ run_of cd (ps i) (sign i) sigok combine (evs i) (st i) /\
     forall j, In j J -> (1 <= j <= Z.of_nat N)%Z /\ nth (Z.to_nat j) (s_flgRec (st i)) false = true) ->
  exists B' share CQsum, bdeg F (2 * F) B' /\ beval B' 0 0 = beval B 0 0 /\
    (forall i, In i hon -> Refresh (ps i) (st i) J = Ret (Some (share i, CQsum i)) /\ share i = secy B' (of_nat i)) /\
    finishes cd F (fun i => set_reducedShare (ps i) (share i)) CQsum hon B'.
Proof.
  intros cd N F ps QB B J sign sigok combine evs st hon HC HE HB HQ HZ HM. pose proof HE as (HN & HH & ND & HF).
  destruct (c23_refresh N F B QB J HB HQ HZ) as (B' & DB & SB & TB & RF).
  assert (R : forall i, In i hon -> exists CQsum, Refresh (ps i) (st i) J = Ret (Some (secy B' (of_nat i), CQsum)) /\ updates B B' (ps i) CQsum).
  { intros i Ii. destruct (HM i Ii) as (W & EN & EF & EP & ER & HO & EV & RU & RC). pose proof (HH i Ii).
    assert (ME : me (ps i) = of_nat i) by (unfold me; rewrite EP; f_equal; lia).
    destruct (RF cd party_secret (ps i) (sign i) sigok combine (evs i) (st i) W EN EF ltac:(lia) ltac:(rewrite ME; exact ER) EV RU RC) as (CQ & X1 & X2 & X3).
    exists CQ. rewrite <- ME. split; [exact X1|]. split; [rewrite EN; exact X2|]. intros j C Hj. rewrite EN in Hj. apply X3. exact Hj. }
  exists B', (fun i => secy B' (of_nat i)), (fun i => match Refresh (ps i) (st i) J with Ret (Some (_, c)) => c | _ => [] end).
  split; [exact DB|]. split; [exact SB|]. split.
  - intros i Ii. destruct (R i Ii) as (CQ & -> & _). split; reflexivity.
  - apply (c77_finish cd N F _ _ hon B B' HC HE HB DB). intros i Ii. destruct (HM i Ii) as (W & EN & EF & EP & ER & HO & _). destruct (R i Ii) as (CQ & -> & HU).
    unfold renewed. cbn [set_reducedShare p_N p_F p_PID p_reducedShare]. exact (conj W (conj EN (conj EF (conj EP (conj eq_refl (conj HO HU)))))).
Qed.
Print Assumptions c77_recovered.

(** There are orders of delivery with which a handoff comes to its end: for any F+1 honest dealers the messages can
    arrive so that all members give these dealers to the agreement, and whatever happens afterwards everybody gets its share. *)
Theorem c77_good_order : forall cd N F ps QB sg sigok combine hon n0 B K, codec_ok cd ->
  committee party_secret N F ps QB sg sigok hon -> starts cd ps (dealt F QB) hon n0 -> bdeg F (2 * F) B ->
  (forall i, In i hon -> p_reducedShare (ps i) = secy B (of_nat i) /\ holds_commitments B (ps i)) ->
  incl K hon -> NoDup K -> length K = (F + 1)%nat ->
  exists evs n, nruns cd ps sg sigok combine hon n0 evs n /\ (forall i, In i hon -> agreeing F n i) /\
  forall l later, In l hon -> (forall i, In i hon -> exists evs' n', nruns cd ps sg sigok combine hon n evs' n' /\ later i = v_st (n_v n' i)) ->
  exists B' share CQsum, bdeg F (2 * F) B' /\ beval B' 0 0 = beval B 0 0 /\
    (forall x y, beval B' x y = beval B x y + PropertiesRefresh.total QB (map Z.of_nat K) x y) /\
    (forall i, In i hon -> Refresh (ps i) (later i) (given n l) = Ret (Some (share i, CQsum i)) /\ share i = secy B' (of_nat i)) /\
    finishes cd F (fun i => set_reducedShare (ps i) (share i)) CQsum hon B'.
Proof.
  intros cd N F ps QB sg sigok combine hon n0 B K HC C S0 HB HR K1 K2 K3. pose proof C as (C1 & C2 & C3 & C4 & C5 & C6 & C7 & C8).
  set (st0 := fun i => v_st (n_v n0 i)). pose proof (e0 cd F ps QB hon n0 S0) as E0.
  pose proof (proj1 (inv0 cd party_secret N F ps QB sg sigok combine hon n0 C S0)) as I0.
  destruct (to_quiet_of cd party_secret ps QB sg sigok combine hon N F HC C1 C2 C3 C4 C5 C6 C7 C8 st0 E0 (fun _ => K) _ n0 _ I0 (le_n _))
    as (evs & n & E & R & NA & I & Q & CM).
  assert (SRC : forall i y, In y (sources (others (E i))) -> In (Z.to_nat (snd y)) K). { intros i y Y. destruct (CM i y Y) as [X|X]; [destruct X|exact X]. }
  assert (MS : forall i, In i hon -> s_MVBASent (v_st (n_v n i)) = true).
  { intros i Ii. apply (quiet_sent_of cd party_secret ps QB sg sigok combine hon N F HC C1 C2 C3 C4 C5 C6 C7 C8 st0 E0 (fun _ => K) n E I Q i Ii K1 K2). lia. }
  assert (LT : forall i, In i hon -> late K (v_st (n_v n i)) /\ Permutation (map fst (s_MVBAIn (v_st (n_v n i)))) K).
  { intros i Ii. destruct (C1 i Ii) as (_ & _ & EF & _).
    destruct (StageNet.loc cd party_secret ps QB sg sigok combine hon N F C1 C2 C4 C5 C8 st0 E0 i Ii) as (W & HQ' & HP & HN' & HH' & PI & E0' & VS).
    apply (late_init cd party_secret (ps i) QB sg sigok combine hon HC W HQ' HP HN' HH' _ E0' K _ _ _ (i_good _ _ _ _ _ _ _ _ _ _ _ I i Ii)); [intros y; apply SRC|exact K2|rewrite EF; exact K3|apply MS; exact Ii]. }
  exists evs, n. split; [exact R|]. split; [intros i Ii; apply (agrees cd party_secret N F ps QB sg sigok combine hon n0 HC C S0 n E i I Ii); apply MS; exact Ii|].
  intros l later Il HL.
  assert (PJ : Permutation (given n l) (map Z.of_nat K)).
  { unfold given. rewrite <- (map_map fst Z.of_nat). apply Permutation_map. apply (LT l Il). }
  assert (IJ : forall j, In j (given n l) -> exists k, In k K /\ (1 <= k <= N)%nat /\ j = Z.of_nat k).
  { intros j X. apply (Permutation_in _ PJ) in X. apply in_map_iff in X. destruct X as (k & <- & X). exists k. split; [exact X|]. split; [apply C5; apply K1; exact X|reflexivity]. }
  set (SS := bsum F QB (nats (given n l))).
  assert (DS : bdeg F (2 * F) SS) by (apply bsum_deg; intros; apply C2).
  assert (DB : bdeg F (2 * F) (badd B SS)) by (apply bdeg_badd; assumption).
  assert (RF : forall i, In i hon -> exists CQsum, Refresh (ps i) (later i) (given n l) = Ret (Some (secy (badd B SS) (of_nat i), CQsum)) /\
    length CQsum = (N + 1)%nat /\ forall j, (1 <= j <= N)%nat -> nth j CQsum ZeroG1 = mkG1 (peval (secx SS party_secret) (of_nat j))).
  { intros i Ii. destruct (HL i Ii) as (evs' & n' & R' & ->). destruct (runs_ok cd party_secret ps QB sg sigok combine hon N F HC C1 C2 C3 C4 C5 C6 C7 C8 st0 E0 n E evs' n' I R') as (E' & I' & _).
    destruct (StageNet.loc cd party_secret ps QB sg sigok combine hon N F C1 C2 C4 C5 C8 st0 E0 i Ii) as (W & HQ' & HP & HN' & HH' & PI & E0' & VS). destruct (C1 i Ii) as (_ & EN & EF & _).
    pose proof (runs_late cd ps sg sigok combine hon n evs' n' i _ R' (proj1 (LT i Ii))) as LA. pose proof (C5 i Ii) as Ii'.
    destruct (refresh_known cd party_secret (ps i) QB sg sigok combine hon HC W HQ' HP HN' HH' _ E0' K _ _ _ (given n l) B (i_good _ _ _ _ _ _ _ _ _ _ _ I' i Ii) LA) as (CQ & X1 & X2 & X3).
    - rewrite EF. exact HB.
    - rewrite PI. apply HR. exact Ii.
    - intros j Hj. destruct (IJ j Hj) as (k & HK & Hk & ->). rewrite EN, Nat2Z.id. split; [lia|]. split; [|right; exact HK].
      apply (runs_com cd ps sg sigok combine hon n evs' n' i k R'). destruct (i_com _ _ _ _ _ _ _ _ _ _ _ I i k Ii (K1 _ HK)) as [(d & D)|D]; [|exact D].
      destruct (quiet_nocom cd party_secret ps QB sg sigok combine hon N F HC C1 C2 C3 C4 C5 C8 st0 E0 (fun _ => K) n E I Q k i d D).
    - rewrite EN, EF, PI in *. exists CQ. split; [|auto]. rewrite X1. do 4 f_equal. apply f_equal. unfold SS. apply bsum_ext. intros k X. apply in_map_iff in X. destruct X as (z & <- & X).
      destruct (IJ z X) as (k & HK & Hk & ->). rewrite Nat2Z.id. unfold known. destruct (existsb _ _) eqn:EX; [reflexivity|].
      assert (existsb (Nat.eqb k) K = true) by (apply existsb_exists; exists k; split; [exact HK|apply Nat.eqb_refl]). congruence. }
  exists (badd B SS), (fun i => secy (badd B SS) (of_nat i)), (fun i => match Refresh (ps i) (later i) (given n l) with Ret (Some (_, c)) => c | _ => [] end).
  split; [exact DB|]. split.
  { rewrite beval_badd. unfold SS. rewrite bsum_secret; [ring|]. intros j X. apply in_map_iff in X. destruct X as (z & <- & X). destruct (IJ z X) as (k & HK & Hk & ->). rewrite Nat2Z.id. apply C3. apply K1. exact HK. }
  split. { intros x y. rewrite beval_badd. unfold SS. rewrite beval_bsum. rewrite (sum_perm QB _ _ x y PJ). reflexivity. }
  split. { intros i Ii. destruct (RF i Ii) as (CQ & -> & _). split; reflexivity. }
  apply (c77_finish cd N F _ _ hon B (badd B SS) HC (conj C4 (conj C5 (conj C6 C8))) HB DB). intros i Ii. destruct (C1 i Ii) as (W & EN & EF & EP). destruct (RF i Ii) as (CQ & -> & LC & VC).
  unfold renewed. cbn [set_reducedShare p_N p_F p_PID p_reducedShare]. refine (conj W (conj EN (conj EF (conj EP (conj eq_refl (conj (proj2 (HR i Ii)) _)))))).
  unfold updates. cbn [set_reducedShare p_N p_KZG]. rewrite EN. split; [exact LC|]. intros j c Hj EC.
  rewrite (set_com (ps i) W) in EC by (rewrite EF; exact HB). rewrite (set_com (ps i) W) by (rewrite EF; exact DB). apply (f_equal (fun x => match x with Ret a => a | _ => ZeroG1 end)) in EC. subst c.
  rewrite (VC j Hj). unfold AddG1. cbn [dlog1]. rewrite !peval_secx, beval_badd. reflexivity.
Qed.
Print Assumptions c77_good_order.

Lemma two_ne (a : Fr) : a + (1 + 1) <> a.
Proof.
  intros X. assert (Y : 1 + 1 = 0) by (replace (1 + 1) with ((a + (1 + 1)) - a) by ring; rewrite X; ring).
  apply (f_equal fv) in Y. vm_compute in Y. discriminate.
Qed.

(** N = 4, F = 1, all members honest, the dealers 2 and 3 agreed. *)
Example c77_ex : exists ps n0, let QB := fun _ : nat => [[0; 0]; [0; 1]; [0; 0]] in let B := [[of_nat 7; 0]; [0; of_nat 3]; [1; 0]] in
  committee party_secret 4 1 ps QB (fun _ _ => [7%Z]) (fun _ _ => true) (seq 1 4) /\
  starts demo_codec ps (dealt 1 QB) (seq 1 4) n0 /\ bdeg 1 2 B /\
  (forall i, In i (seq 1 4) -> p_reducedShare (ps i) = secy B (of_nat i) /\ holds_commitments B (ps i)) /\
  exists evs n, nruns demo_codec ps (fun _ _ => [7%Z]) (fun _ _ => true) (fun _ _ => []) (seq 1 4) n0 evs n /\ (forall i, In i (seq 1 4) -> agreeing 1 n i) /\
  exists B' share CQsum m0 evs' m, beval B' 0 0 = of_nat 7 /\ beval B' 1 1 <> beval B 1 1 /\
    (forall i, In i (seq 1 4) -> Refresh (ps i) (v_st (n_v n i)) (given n 1) = Ret (Some (share i, CQsum i))) /\
    dist_starts demo_codec (fun i => set_reducedShare (ps i) (share i)) (seq 1 4) m0 /\
    dnruns demo_codec (fun i => set_reducedShare (ps i) (share i)) CQsum 1 (seq 1 4) m0 evs' m /\
    forall i, In i (seq 1 4) -> d_share (m_d m i) = Some (secx B' (of_nat i)) /\ left_handoff 1 m i.
Proof.
  destruct c76_ex as (ps & n0 & CM & S0 & HB & HR & _). exists ps, n0. cbv zeta.
  assert (HR' : forall i, In i (seq 1 4) -> p_reducedShare (ps i) = secy [[of_nat 7; 0]; [0; of_nat 3]; [1; 0]] (of_nat i) /\ holds_commitments [[of_nat 7; 0]; [0; of_nat 3]; [1; 0]] (ps i)).
  { intros i Ii. apply in_seq in Ii. apply HR. lia. }
  split; [exact CM|]. split; [exact S0|]. split; [exact HB|]. split; [exact HR'|].
  destruct (c77_good_order demo_codec 4 1 ps _ _ _ (fun _ _ => []) _ n0 _ [2; 3]%nat demo_codec_ok CM S0 HB HR') as (evs & n & R & A & G).
  - intros k [<-|[<-|[]]]; apply in_seq; lia.
  - repeat constructor; cbn [In]; lia.
  - reflexivity.
  - exists evs, n. split; [exact R|]. split; [exact A|].
    destruct (G 1%nat (fun i => v_st (n_v n i)) ltac:(apply in_seq; lia)) as (B' & share & CQsum & D1 & D2 & D3 & D4 & D5).
    { intros i _. exists [], n. split; [constructor|reflexivity]. }
    assert (ST : exists m0, dist_starts demo_codec (fun i => set_reducedShare (ps i) (share i)) (seq 1 4) m0).
    { apply (dist_start demo_codec 4 1 _ (seq 1 4) B' D1). intros i Ii. destruct CM as (C1 & _). destruct (C1 i Ii) as (W & EN & EF & _).
      exact (conj W (conj EN (conj EF (proj2 (D4 i Ii))))). }
    destruct ST as (m0 & ST). destruct (D5 m0 [] m0 ST (dr_nil _ _ _ _ _ _)) as (_ & _ & _ & _ & _ & evs' & m & R' & Q').
    exists B', share, CQsum, m0, evs', m. split; [rewrite D2; unfold beval; cbn [secy map peval]; ring|]. split.
    { rewrite D3. intros X. apply (two_ne (beval [[of_nat 7; 0]; [0; of_nat 3]; [1; 0]] 1 1)). rewrite <- X at 2. apply (f_equal2 fadd eq_refl). unfold total, beval. cbn [map secy peval fsum]. ring. }
    split; [intros i Ii; apply (D4 i Ii)|]. split; [exact ST|]. split; [exact R'|].
    destruct (D5 m0 evs' m ST R') as (_ & _ & _ & _ & L & _). exact (L Q').
Qed.
