(** Proofs for PropertiesForged.v: a forged ShareDist message takes the place of the true one. *)

Require Import ZArith List Bool Arith Lia Permutation.
From Verif Require Import Prime Fr GoBase Poly PolyModel PolyProofs Biv GroupModel KzgModel KzgProofs.
From Verif Require Import CodecModel CodecProofs PartyModel PartySpec VssModel VssProofs BivProofs.
From Verif Require Import ReduceModel ReduceProofs.
From Verif Require Import ProacModel ProacProofs ProacRun ProacSig ProacRecover ProacDist ProacLinks.
From Verif Require Import ReshareModel ReshareProofs StageModel StageProofs StageNet DistNetModel DistNetProofs.
Import ListNotations.
Local Open Scope nat_scope.

Lemma take_other {A} (l : list A) x a b : nth_error l x = Some a -> In b l -> b <> a -> In b (firstn x l ++ skipn (S x) l).
Proof. intros E I NE. apply (Permutation_in _ (take_out l x a E)) in I. destruct I as [I|I]; [congruence|exact I]. Qed.

Lemma take_in {A} (l : list A) x a b : nth_error l x = Some a -> In b (firstn x l ++ skipn (S x) l) -> In b l.
Proof. intros E I. apply (Permutation_in _ (Permutation_sym (take_out l x a E))). right. exact I. Qed.

Lemma total_take {A} (f : A -> nat) (l : list A) x a : nth_error l x = Some a -> total f l = f a + total f (firstn x l ++ skipn (S x) l).
Proof. intros E. rewrite (total_perm f _ _ (take_out l x a E)). reflexivity. Qed.

Section Forged.
Variables (cd : g1codec) (ps : nat -> Party) (CQ : nat -> list G1).
Variables N F : nat.
Variables hon K V : list nat.
Local Notation dnstep := (dnstep cd ps CQ F hon).
Local Notation dnruns := (dnruns cd ps CQ F hon).

Lemma dnruns_app n0 e1 n1 e2 n2 : dnruns n0 e1 n1 -> dnruns n1 e2 n2 -> dnruns n0 (e1 ++ e2) n2.
Proof.
  intros R1 R2. induction R2 as [|evs n e n' R IH S]; [rewrite app_nil_r; exact R1|]. rewrite app_assoc. econstructor; [exact IH|exact S].
Qed.

(** ** Afterwards: the victims stay without a share *)

(** A victim: the tokens of [K] are gone; each token goes to an honest member and is used once. *)
Record blocked (d : dst) : Prop := {
  b_tok : forall j, nth j (d_token d) false = true -> nth j (d_ncDone d) false = true;
  b_nc : forall j, nth j (d_ncDone d) false = true -> In j hon;
  b_K : forall k, In k K -> nth k (d_ncDone d) false = true /\ nth k (d_token d) false = false;
  b_nd : NoDup (map fst (d_SB d));
  b_SB : forall j, In j (map fst (d_SB d)) -> nth j (d_ncDone d) false = true /\ nth j (d_token d) false = false /\ ~ In j K;
  b_len : length (d_ncDone d) = length (d_token d);
  b_none : d_share d = None }.

Hypothesis HK : incl K hon.
Hypothesis NK : NoDup K.
Hypothesis NH : NoDup hon.
Hypothesis HB : length hon <= 2 * F + length K.

Lemma blocked_len d : blocked d -> length (d_SB d) <= 2 * F.
Proof.
  intros B. assert (X : length (map fst (d_SB d) ++ K) <= length hon).
  { apply NoDup_incl_length.
    - apply RbcProofs.nodup_app_intro; [apply (b_nd _ B)|exact NK|]. intros j Hj Hk. destruct (b_SB _ B j Hj) as (_ & _ & X). exact (X Hk).
    - intros j Hj. apply in_app_iff in Hj. destruct Hj as [Hj|Hj]; [apply (b_nc _ B), (b_SB _ B j Hj)|apply HK; exact Hj]. }
  rewrite app_length, map_length in X. lia.
Qed.

Lemma nth_tf (l : list bool) j : nth j l true = false -> j < length l /\ nth j l false = false.
Proof.
  intros E. destruct (le_lt_dec (length l) j) as [L|L]; [rewrite nth_overflow in E by exact L; discriminate|]. split; [exact L|]. rewrite <- E. apply nth_indep. exact L.
Qed.

Lemma nth_tt (l : list bool) j : nth j l false = true -> j < length l.
Proof. intros E. destruct (le_lt_dec (length l) j) as [L|L]; [rewrite nth_overflow in E by exact L; discriminate|exact L]. Qed.

Ltac dcb := cbn [d_ncDone d_SCom d_token d_free d_wait d_SB d_share].

Lemma blocked_commit d p C k data d' : blocked d -> In k hon -> d_commit cd p C d k data = Ret d' -> blocked d'.
Proof.
  intros B Ik E. unfold d_commit in E. destruct (negb _ || _) eqn:G in E; [injection E as <-; exact B|].
  apply orb_false_iff in G. destruct G as (_ & G). destruct (nth_tf _ _ G) as (L & G0). apply bind_ret in E. destruct E as (o & _ & E).
  assert (NKk : ~ In k K) by (intros X; destruct (b_K _ B k X); congruence).
  assert (NS : ~ In k (map fst (d_SB d))) by (intros X; destruct (b_SB _ B k X) as (Y & _); congruence).
  assert (NC : forall j, nth j (set_nth k true (d_ncDone d)) false = true <-> j = k \/ nth j (d_ncDone d) false = true).
  { intros j. rewrite nth_set_nth, (proj2 (Nat.ltb_lt _ _) L), andb_true_r. destruct (Nat.eqb_spec k j) as [-> |NE]; [tauto|]. split; [auto|intros [X|X]; [congruence|exact X]]. }
  apply (f_equal (fun x => match x with Ret a => a | _ => d' end)) in E. subst d'. destruct o as [c|].
  - assert (TK : forall j, j <> k -> nth j (set_nth k true (d_token d)) false = nth j (d_token d) false).
    { intros j NE. rewrite nth_set_nth. destruct (Nat.eqb_spec k j); [congruence|reflexivity]. }
    constructor; dcb.
    + intros j T. apply NC. destruct (Nat.eq_dec j k) as [-> |NE]; [auto|right]. rewrite TK in T by exact NE. apply (b_tok _ B). exact T.
    + intros j X. apply NC in X. destruct X as [-> |X]; [exact Ik|apply (b_nc _ B); exact X].
    + intros j X. assert (j <> k) by congruence. rewrite NC, TK by assumption. destruct (b_K _ B j X). auto.
    + apply (b_nd _ B).
    + intros j X. assert (j <> k) by congruence. rewrite NC, TK by assumption. destruct (b_SB _ B j X) as (Y & Z & W). auto.
    + rewrite !length_set_nth. apply (b_len _ B).
    + apply (b_none _ B).
  - constructor; dcb.
    + intros j T. apply NC. right. apply (b_tok _ B). exact T.
    + intros j X. apply NC in X. destruct X as [-> |X]; [exact Ik|apply (b_nc _ B); exact X].
    + intros j X. rewrite NC. destruct (b_K _ B j X). auto.
    + apply (b_nd _ B).
    + intros j X. rewrite NC. destruct (b_SB _ B j X) as (Y & Z & W). auto.
    + rewrite length_set_nth. apply (b_len _ B).
    + apply (b_none _ B).
Qed.

Lemma blocked_recv d p z m d' : blocked d -> d_recv p d z m = Ret d' -> blocked d'.
Proof.
  intros B E. unfold d_recv in E. destruct (d_free d); [injection E as <-; exact B|]. destruct (_ <? _)%Z; [discriminate|].
  apply (f_equal (fun x => match x with Ret a => a | _ => d' end)) in E. subst d'. destruct B. constructor; dcb; assumption.
Qed.

Lemma blocked_go d p x d' : p_F p = F -> blocked d -> d_go cd p d x = Ret d' -> blocked d'.
Proof.
  intros EF B E. pose proof (b_none _ B) as BN. unfold d_go in E. destruct (nth_error (d_wait d) x) as [(j & m)|]; [|injection E as <-; exact B].
  destruct (nth j (d_token d) false) eqn:ET; cbn [negb] in E; [|injection E as <-; exact B].
  apply bind_ret in E. destruct E as (c & _ & E). apply bind_ret in E. destruct E as (w & _ & E). apply bind_ret in E. destruct E as (ok & _ & E).
  assert (TK : forall i, nth i (set_nth j false (d_token d)) false = true <-> i <> j /\ nth i (d_token d) false = true).
  { intros i. rewrite nth_set_nth, (proj2 (Nat.ltb_lt _ _) (nth_tt _ _ ET)), andb_true_r. destruct (Nat.eqb_spec j i) as [-> |NE]; [|intuition congruence]. split; [discriminate|intros (X & _); congruence]. }
  assert (TF : forall i, nth i (d_token d) false = false -> nth i (set_nth j false (d_token d)) false = false).
  { intros i X. destruct (nth i (set_nth j false (d_token d)) false) eqn:Y; [|reflexivity]. apply TK in Y. destruct Y. congruence. }
  assert (TJ : nth j (set_nth j false (d_token d)) false = false).
  { destruct (nth j (set_nth j false (d_token d)) false) eqn:Y; [|reflexivity]. apply TK in Y. tauto. }
  set (wait' := firstn x (d_wait d) ++ skipn (x + 1) (d_wait d)) in E. set (token' := set_nth j false (d_token d)) in *.
  assert (B1 : blocked (mkDst (d_ncDone d) (d_SCom d) token' (d_free d) wait' (d_SB d) None)).
  { constructor; dcb.
    - intros i X. apply TK in X. apply (b_tok _ B). apply X.
    - apply (b_nc _ B).
    - intros i X. destruct (b_K _ B i X). auto.
    - apply (b_nd _ B).
    - intros i X. destruct (b_SB _ B i X) as (Y & Z & W). auto.
    - unfold token'. rewrite length_set_nth. apply (b_len _ B).
    - reflexivity. }
  assert (B2 : forall v, blocked (mkDst (d_ncDone d) (d_SCom d) token' (d_free d) wait' (d_SB d ++ [(j, v)]) None)).
  { intros v. assert (NS : ~ In j (map fst (d_SB d))) by (intros X; destruct (b_SB _ B j X) as (_ & Y & _); congruence).
    assert (NKj : ~ In j K) by (intros X; destruct (b_K _ B j X); congruence).
    destruct B1 as [b1 b2 b3 b4 b5 b6 b7]. constructor; dcb; try assumption; rewrite map_app; cbn [map fst].
    - apply RbcProofs.nodup_app_intro; [exact (b_nd _ B)|repeat constructor; intros []|]. intros i Hi [<-|[]]. exact (NS Hi).
    - intros i X. apply in_app_iff in X. destruct X as [X|[<-|[]]]; [apply b5; exact X|]. split; [apply (b_tok _ B); exact ET|]. split; [exact TJ|exact NKj]. }
  destruct ok.
  - rewrite BN in E. set (v := FrFrom32_into 0 (to32 (sd_B m))) in E. pose proof (blocked_len _ (B2 v)) as L. cbn [d_SB] in L.
    destruct (Nat.leb_spec (2 * p_F p + 1) (length (d_SB d ++ [(j, v)]))) as [X|X]; [rewrite EF in X; lia|].
    apply (f_equal (fun x => match x with Ret a => a | _ => d' end)) in E. subst d'. apply B2.
  - rewrite BN in E. apply (f_equal (fun x => match x with Ret a => a | _ => d' end)) in E. subst d'. exact B1.
Qed.

Hypothesis HV : incl V hon.
Hypothesis NV : NoDup V.
Hypothesis HF : forall v, In v V -> p_F (ps v) = F.

Record stuck (n : dnet) : Prop := {
  s_bl : forall v, In v V -> blocked (m_d n v);
  s_pk : forall y, In y (m_post n) -> match y with QCommit k i _ => In k hon /\ In i hon | QShare _ i _ => In i hon | QSuccess _ _ => True end;
  s_ct : forall i, In i hon -> m_count n i + total (nsuc i) (m_post n) <= total (fun k => has (m_d n k)) hon }.

Lemma stuck_member n post i e n' : stuck n -> In i hon ->
  (forall y, In y post -> In y (m_post n)) -> (forall l, total (nsuc l) post <= total (nsuc l) (m_post n)) ->
  match e with DvCommit k _ => In k hon | _ => True end ->
  member_dist cd ps CQ hon n post i e = Ret (Some n') -> stuck n'.
Proof.
  intros T Ii PI PT PE E. unfold member_dist in E. apply bind_ret in E. destruct E as (d' & ED & E).
  apply (f_equal (fun x => match x with Ret (Some a) => a | _ => n end)) in E. subst n'. constructor; cbn [m_d m_count m_post].
  - intros v Iv. destruct (Nat.eq_dec v i) as [-> |NE]; [|rewrite put_other by exact NE; apply (s_bl _ T); exact Iv]. rewrite put_same.
    pose proof (s_bl _ T i Iv) as B. destruct e as [k data|z m|x]; cbn [dstep] in ED; [eapply blocked_commit|eapply blocked_recv|eapply blocked_go]; eauto.
  - intros y Y. apply in_app_iff in Y. destruct Y as [Y|Y]; [apply (s_pk _ T), PI, Y|]. unfold successes in Y.
    destruct (d_share (m_d n i)); [destruct Y|]. destruct (d_share d'); [|destruct Y]. apply in_map_iff in Y. destruct Y as (l0 & <- & _). exact Logic.I.
  - intros l Il. pose proof (s_ct _ T l Il) as C. pose proof (PT l) as PL. rewrite total_app.
    pose proof (total_put has (m_d n) i d' hon NH Ii) as TP.
    assert (SH : d_share d' = d_share (m_d n i) \/ d_share (m_d n i) = None /\ d_share d' <> None).
    { destruct e as [k data|z m|x]; cbn [dstep] in ED; [left; apply (commit_same _ _ _ _ _ _ _ ED)| |eapply go_same; exact ED].
      left. unfold d_recv in ED. destruct (d_free _); [injection ED as <-; reflexivity|]. destruct (_ <? _)%Z; [discriminate|]. injection ED as <-. reflexivity. }
    destruct (suc_list hon i (m_d n i) d') as [(X & ->)|[(X & X' & ->)|(X & X')]].
    + change (total (nsuc l) []) with 0. lia.
    + rewrite (tot_suc_to hon NH). destruct (in_dec Nat.eq_dec l hon); [|contradiction].
      assert (has (m_d n i) = 0) by (unfold has; rewrite X; reflexivity). assert (has d' = 1) by (unfold has; destruct (d_share d'); congruence). lia.
    + destruct SH as [SH|(SH & _)]; congruence.
Qed.

Lemma stuck_step n e n' : stuck n -> dnstep n e = Ret (Some n') -> stuck n'.
Proof.
  intros T E. destruct e as [x|i x]; cbn [DistNetModel.dnstep] in E.
  - destruct (nth_error (m_post n) x) as [pk|] eqn:EX; [|discriminate].
    assert (PI : forall y, In y (firstn x (m_post n) ++ skipn (S x) (m_post n)) -> In y (m_post n)) by (intros y; apply (take_in _ _ _ _ EX)).
    assert (PT : forall l, total (nsuc l) (m_post n) = nsuc l pk + total (nsuc l) (firstn x (m_post n) ++ skipn (S x) (m_post n))) by (intros l; apply total_take; exact EX).
    pose proof (s_pk _ T _ (nth_error_In _ _ EX)) as PK. destruct pk as [k i data|k i m|k i].
    + eapply stuck_member; [exact T|apply PK|exact PI| | |exact E]; [intros l; rewrite (PT l); lia|apply PK].
    + destruct (d_free (m_d n i)); [discriminate|]. eapply stuck_member; [exact T|apply PK|exact PI| | |exact E]; [intros l; rewrite (PT l); lia|exact Logic.I].
    + destruct (d_share (m_d n i)); [|discriminate]. destruct (_ <=? _)%nat; [discriminate|].
      apply (f_equal (fun x => match x with Ret (Some a) => a | _ => n end)) in E. subst n'. constructor; cbn [m_d m_count m_post].
      * apply (s_bl _ T).
      * intros y Y. apply (s_pk _ T), PI, Y.
      * intros l0 Il. pose proof (s_ct _ T l0 Il) as C. rewrite (PT l0) in C. cbn [nsuc] in C. unfold put. rewrite (Nat.eqb_sym l0 i). destruct (Nat.eqb_spec i l0) as [-> |NE]; lia.
  - destruct (existsb (Nat.eqb i) hon) eqn:EI; [|discriminate]. apply existsb_exists in EI. destruct EI as (i' & Ii & EI). apply Nat.eqb_eq in EI. subst i'.
    destruct (nth_error _ x) as [(j & m)|]; [|discriminate]. destruct (nth j _ false); [|discriminate].
    apply (stuck_member n (m_post n) i (DvGo x) n' T Ii (fun y H => H) (fun l => le_n _) Logic.I E).
Qed.

Lemma stuck_runs n evs n' : stuck n -> dnruns n evs n' -> stuck n'.
Proof. intros T R. induction R as [|evs n1 e n2 R IH S]; [exact T|]. eapply stuck_step; eauto. Qed.

Lemma has_bound n : stuck n -> total (fun k => has (m_d n k)) hon + length V <= length hon.
Proof.
  intros T. assert (X : forall l, total (fun k => has (m_d n k)) l + length (filter (fun k => match d_share (m_d n k) with None => true | _ => false end) l) = length l).
  { clear. induction l as [|a l IH]; [reflexivity|]. cbn [filter length]. unfold total in *. cbn [map]. unfold list_sum in *. cbn [fold_right].
    unfold has at 1. destruct (d_share (m_d n a)); cbn [length]; lia. }
  rewrite <- (X hon). apply Nat.add_le_mono_l. apply NoDup_incl_length; [exact NV|]. intros v Iv. apply filter_In. split; [apply HV; exact Iv|].
  rewrite (b_none _ (s_bl _ T v Iv)). reflexivity.
Qed.

(** ** Before: the forged messages are taken first *)

Variable com : nat -> list Z.
Variable CM : nat -> nat -> G1.
Variable m : nat -> nat -> ShareDistMsg.
Hypothesis HVC : forall k v, In k K -> In v V -> VerifyNewCommit cd (ps v) (CQ v) k (com k) = Ret (Some (CM k v)).
Hypothesis HMS : forall k v, In k K -> In v V -> exists w, FromCompressedG1 cd (sd_WB (m k v)) = Some w /\
  CheckProofSingle (p_KZG (ps v)) (CM k v) w (of_nat (p_PID (ps v) + 1)) (FrFrom32_into 0 (to32 (sd_B (m k v)))) = Ret false.
Hypothesis HN : (Z.of_nat N < 2 ^ 32)%Z.
Hypothesis HH : forall k, In k hon -> 1 <= k <= N.
Hypothesis HPN : forall v, In v V -> p_N (ps v) = N.

(** [todo]: the pairs (k, v) whose forged message is still to be taken. *)
Record before (todo : list (nat * nat)) (n : dnet) : Prop := {
  f_post : forall k v, In (k, v) todo -> In (QCommit k v (com k)) (m_post n) /\ In (QShare k v (m k v)) (m_post n);
  f_pk : forall y, In y (m_post n) -> match y with QCommit k i _ => In k hon /\ In i hon | QShare _ i _ => In i hon | QSuccess _ _ => False end;
  f_ct : forall i, In i hon -> m_count n i = 0 /\ d_share (m_d n i) = None;
  f_d : forall v, In v V -> d_wait (m_d n v) = [] /\ d_SB (m_d n v) = [] /\ length (d_ncDone (m_d n v)) = N + 1 /\ length (d_token (m_d n v)) = N + 1 /\
    length (d_SCom (m_d n v)) = N + 1 /\ (forall j, nth j (d_token (m_d n v)) false = false) /\ (forall j, nth j (d_ncDone (m_d n v)) false = true -> In j hon) /\
    (forall k, In k K -> (nth k (d_ncDone (m_d n v)) false = true <-> ~ In (k, v) todo)) /\
    length (filter (fun y => snd y =? v) todo) <= d_free (m_d n v) }.

Lemma one_pair k v todo n : NoDup ((k, v) :: todo) -> In k K -> In v V -> before ((k, v) :: todo) n ->
  exists evs n', dnruns n evs n' /\ before todo n'.
Proof.
  intros ND Ik Iv P. inversion ND as [|? ? NI ND']; subst. pose proof (HH k (HK _ Ik)) as Hk. pose proof (HV _ Iv) as Ih. destruct (HMS k v Ik Iv) as (w & EW & EC).
  destruct (f_post _ _ P k v (or_introl eq_refl)) as (I1 & I2). destruct (f_d _ _ P v Iv) as (D1 & D2 & D3 & D4 & D5 & D6 & D7 & D8 & D9).
  assert (D0 : nth k (d_ncDone (m_d n v)) false = false).
  { destruct (nth k (d_ncDone (m_d n v)) false) eqn:X; [|reflexivity]. apply (D8 k Ik) in X. destruct X. left. reflexivity. }
  cbn [filter snd length] in D9. rewrite Nat.eqb_refl in D9. cbn [length] in D9.
  set (d := m_d n v) in *. pose proof (proj2 (f_ct _ _ P v Ih)) as SN. fold d in SN.
  (* the commitment *)
  destruct (In_nth_error _ _ I1) as (x1 & E1). set (post1 := firstn x1 (m_post n) ++ skipn (S x1) (m_post n)).
  set (d1 := mkDst (set_nth k true (d_ncDone d)) (set_nth k (CM k v) (d_SCom d)) (set_nth k true (d_token d)) (d_free d) [] [] None).
  set (n1 := mkDnet (put (m_d n) v d1) (m_count n) (post1 ++ [])).
  assert (S1 : dnstep n (TDeliver x1) = Ret (Some n1)).
  { cbn [DistNetModel.dnstep]. rewrite E1. fold post1. unfold member_dist. cbn [dstep]. fold d. unfold d_commit. rewrite (HPN v Iv).
    rewrite (proj2 (Nat.leb_le 1 k) (proj1 Hk)), (proj2 (Nat.leb_le k N) (proj2 Hk)). cbn [andb negb orb].
    rewrite (nth_indep _ true false) by lia. rewrite D0. rewrite (HVC k v Ik Iv). cbn [bind]. rewrite D1, D2, SN. fold d1. unfold successes. rewrite SN. reflexivity. }
  (* the forged message *)
  assert (I2' : In (QShare k v (m k v)) post1) by (apply (take_other _ _ _ _ E1 I2); discriminate).
  destruct (In_nth_error _ _ I2') as (x2 & E2). set (post2 := firstn x2 post1 ++ skipn (S x2) post1).
  set (d2 := mkDst (set_nth k true (d_ncDone d)) (set_nth k (CM k v) (d_SCom d)) (set_nth k true (d_token d)) (d_free d - 1) [(k, m k v)] [] None).
  set (n2 := mkDnet (put (m_d n1) v d2) (m_count n) (post2 ++ [])).
  assert (S2 : dnstep n1 (TDeliver x2) = Ret (Some n2)).
  { cbn [DistNetModel.dnstep]. change (m_post n1) with (post1 ++ []). rewrite app_nil_r, E2. replace (m_d n1 v) with d1 by (symmetry; apply put_same).
    assert (X : exists fr, d_free d = S fr) by (exists (d_free d - 1); lia). destruct X as (fr & EFR). assert (EF1 : d_free d1 = S fr) by exact EFR.
    rewrite EF1. fold post2. unfold member_dist. cbn [dstep].
    replace (m_d n1 v) with d1 by (symmetry; apply put_same). unfold d_recv. rewrite EF1. rewrite (HPN v Iv).
    replace ((Z.of_nat (k - 1) + 1) mod 2 ^ 32)%Z with (Z.of_nat k) by (rewrite Z.mod_small; lia).
    destruct (Z.ltb_spec (Z.of_nat N) (Z.of_nat k)); [lia|]. rewrite Nat2Z.id. cbn [bind d_ncDone d_SCom d_token d_wait d_SB d_share app d1].
    unfold n2, d2. rewrite EFR. replace (S fr - 1) with fr by lia. reflexivity. }
  (* the check fails *)
  set (d3 := mkDst (set_nth k true (d_ncDone d)) (set_nth k (CM k v) (d_SCom d)) (set_nth k false (set_nth k true (d_token d))) (d_free d - 1) [] [] None).
  set (n3 := mkDnet (put (m_d n2) v d3) (m_count n) (post2 ++ [])).
  assert (S3 : dnstep n2 (TGo v 0) = Ret (Some n3)).
  { cbn [DistNetModel.dnstep]. replace (existsb (Nat.eqb v) hon) with true by (symmetry; apply existsb_exists; exists v; split; [exact Ih|apply Nat.eqb_refl]).
    replace (m_d n2 v) with d2 by (symmetry; apply put_same). cbn [d_wait d2 nth_error d_token].
    assert (TK : nth k (set_nth k true (d_token d)) false = true) by (rewrite nth_set_nth, Nat.eqb_refl, (proj2 (Nat.ltb_lt _ _)) by lia; reflexivity).
    rewrite TK. unfold member_dist. replace (m_d n2 v) with d2 by (symmetry; apply put_same). cbn [dstep]. unfold d_go. cbn [d_wait d2 nth_error d_token]. rewrite TK. cbn [negb].
    cbn [d_SCom d_free d_ncDone d_SB d_share d2 firstn skipn app Nat.add].
    rewrite (idx_nth ZeroG1) by (rewrite length_set_nth; lia). rewrite nth_set_nth, Nat.eqb_refl, (proj2 (Nat.ltb_lt _ _)) by lia. cbn [andb bind].
    unfold ReadG1. rewrite EW. cbn [bind]. rewrite EC. cbn [bind].
    unfold n3, d3, n2. cbn [m_post m_count m_d]. rewrite app_nil_r. reflexivity. }
  exists ([] ++ [TDeliver x1] ++ [TDeliver x2] ++ [TGo v 0]), n3. split.
  { eapply dnruns_app; [apply dr_nil|]. eapply dnruns_app; [eapply (dr_step _ _ _ _ _ _ []); [apply dr_nil|exact S1]|].
    eapply dnruns_app; [eapply (dr_step _ _ _ _ _ _ []); [apply dr_nil|exact S2]|]. eapply (dr_step _ _ _ _ _ _ []); [apply dr_nil|exact S3]. }
  assert (M3 : forall i, m_d n3 i = if i =? v then d3 else m_d n i).
  { intros i. unfold n3, n2, n1. cbn [m_d]. unfold put. destruct (i =? v); reflexivity. }
  constructor.
  - intros k' v' X. unfold n3. cbn [m_post]. rewrite app_nil_r. destruct (f_post _ _ P k' v' (or_intror X)) as (J1 & J2).
    split; (apply (take_other _ _ _ _ E2); [apply (take_other _ _ _ _ E1); [assumption|]|]); congruence.
  - intros y Y. unfold n3 in Y. cbn [m_post] in Y. rewrite app_nil_r in Y. apply (f_pk _ _ P). apply (take_in _ _ _ _ E1). apply (take_in _ _ _ _ E2). exact Y.
  - intros i Ii. rewrite M3. unfold n3. cbn [m_count]. destruct (f_ct _ _ P i Ii) as (X & Y). split; [exact X|]. destruct (i =? v); [reflexivity|exact Y].
  - intros v' Iv'. rewrite M3. destruct (Nat.eqb_spec v' v) as [-> |NE].
    + unfold d3. cbn [d_ncDone d_SCom d_token d_free d_wait d_SB d_share]. rewrite !length_set_nth.
      split; [reflexivity|]. split; [reflexivity|]. split; [exact D3|]. split; [exact D4|]. split; [exact D5|]. split.
      { intros j. rewrite !nth_set_nth, length_set_nth. destruct (Nat.eqb_spec k j) as [<-|NE]; [rewrite (proj2 (Nat.ltb_lt _ _)) by lia; reflexivity|apply D6]. }
      assert (NC : forall j, nth j (set_nth k true (d_ncDone d)) false = true <-> j = k \/ nth j (d_ncDone d) false = true).
      { intros j. rewrite nth_set_nth, (proj2 (Nat.ltb_lt _ _)), andb_true_r by lia. destruct (Nat.eqb_spec k j) as [<-|NE]; [tauto|]. split; [auto|intros [X|X]; [congruence|exact X]]. }
      split. { intros j X. apply NC in X. destruct X as [-> |X]; [apply HK; exact Ik|apply D7; exact X]. }
      split; [|lia]. intros j Ij. rewrite NC, (D8 j Ij). cbn [In]. split.
      * intros [-> |X]; [exact NI|tauto].
      * intros X. destruct (Nat.eq_dec j k) as [|NE]; [auto|]. right. intros [Y|Y]; [congruence|exact (X Y)].
    + destruct (f_d _ _ P v' Iv') as (G1 & G2 & G3 & G4 & G5 & G6 & G7 & G8 & G9).
      split; [exact G1|]. split; [exact G2|]. split; [exact G3|]. split; [exact G4|]. split; [exact G5|]. split; [exact G6|]. split; [exact G7|]. split.
      * intros j Ij. rewrite (G8 j Ij). cbn [In]. split; [tauto|]. intros X [Y|Y]; [congruence|exact (X Y)].
      * cbn [filter snd] in G9. destruct (Nat.eqb_spec v v'); [congruence|exact G9].
Qed.

Lemma all_pairs todo : forall n, NoDup todo -> (forall k v, In (k, v) todo -> In k K /\ In v V) -> before todo n ->
  exists evs n', dnruns n evs n' /\ before [] n'.
Proof.
  induction todo as [|(k, v) todo IH]; intros n ND I P; [exists [], n; split; [constructor|exact P]|].
  destruct (I k v (or_introl eq_refl)) as (Ik & Iv). destruct (one_pair k v todo n ND Ik Iv P) as (e1 & n1 & R1 & P1).
  inversion ND as [|? ? _ ND']; subst. destruct (IH n1 ND' (fun a b H => I a b (or_intror H)) P1) as (e2 & n2 & R2 & P2).
  exists (e1 ++ e2), n2. split; [eapply dnruns_app; eauto|exact P2].
Qed.

Lemma before_stuck n : before [] n -> stuck n.
Proof.
  intros P. constructor.
  - intros v Iv. destruct (f_d _ _ P v Iv) as (D1 & D2 & D3 & D4 & D5 & D6 & D7 & D8 & D9). constructor.
    + intros j X. rewrite D6 in X. discriminate.
    + exact D7.
    + intros k Ik. split; [apply (D8 k Ik); intros []|apply D6].
    + rewrite D2. constructor.
    + rewrite D2. intros j [].
    + congruence.
    + apply (f_ct _ _ P v (HV _ Iv)).
  - intros y Y. pose proof (f_pk _ _ P y Y) as X. destruct y; [exact X|exact X|exact Logic.I].
  - intros i Ii. destruct (f_ct _ _ P i Ii) as (-> & _).
    assert (X : total (nsuc i) (m_post n) = 0); [|lia]. pose proof (f_pk _ _ P) as Q. clear -Q. induction (m_post n) as [|a l IH]; [reflexivity|].
    unfold total in *. cbn [map]. unfold list_sum in *. cbn [fold_right]. rewrite IH by (intros y Y; apply Q; right; exact Y). pose proof (Q a (or_introl eq_refl)). destruct a; [reflexivity|reflexivity|contradiction].
Qed.
End Forged.
