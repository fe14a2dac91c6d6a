(** C83: one ShareDist message in the name of an honest member, taken before the true one, and nobody ends the handoff. *)

Require Import ZArith List Bool Arith Lia Permutation.
From Verif Require Import Prime Fr GoBase Poly PolyModel PolyProofs Biv GroupModel KzgModel KzgProofs.
From Verif Require Import CodecModel CodecProofs PartyModel PartySpec VssModel VssProofs VssProofs2 BivProofs.
From Verif Require Import ReduceModel ReduceProofs PropertiesVss PropertiesReduce.
From Verif Require Import ProacModel ProacProofs ProacRun ProacSig ProacRecover ProacDist ProacLinks.
From Verif Require Import PropertiesProac PropertiesDist ReshareModel ReshareProofs StageModel StageProofs StageNet StageSplit PropertiesStage PropertiesRefresh PropertiesSplit.
From Verif Require Import DistNetModel DistNetProofs PropertiesFinish PropertiesFinishBad ForgedProofs.
Import ListNotations.
Local Open Scope nat_scope.

(** A message in the name of member k that is no opening of the commitment to B'(., k) at the point of the receiver. *)
Definition false_share (cd : g1codec) (B' : list (list Fr)) (p : Party) (k : nat) (m : ShareDistMsg) : Prop :=
  exists w, FromCompressedG1 cd (sd_WB m) = Some w /\
    forall C, CommitToPoly (p_KZG p) (secy B' (of_nat k)) = Ret C ->
      CheckProofSingle (p_KZG p) C w (of_nat (p_PID p + 1)) (FrFrom32_into 0 (to32 (sd_B m))) = Ret false.

(** Members [V] get false messages in the names of the members [K]; nothing else is forged, nobody else is corrupted. *)
Theorem c83_forged : forall cd N F ps CQ hon B B' K V m n0, codec_ok cd -> enough N F hon ->
  bdeg F (2 * F) B -> bdeg F (2 * F) B' -> (forall i, In i hon -> renewed N F B B' (CQ i) i (ps i)) ->
  incl K hon -> NoDup K -> length hon <= 2 * F + length K -> incl V hon -> NoDup V ->
  (forall k v, In k K -> In v V -> false_share cd B' (ps v) k (m k v)) -> dist_starts cd ps hon n0 ->
  exists evs n, dnruns cd ps CQ F hon
      (mkDnet (m_d n0) (m_count n0) (m_post n0 ++ flat_map (fun v => map (fun k => QShare k v (m k v)) K) V)) evs n /\
    forall evs' n', dnruns cd ps CQ F hon n evs' n' ->
      (forall v, In v V -> d_share (m_d n' v) = None) /\
      (length hon <= 2 * F + length V -> forall i, In i hon -> ~ left_handoff F n' i).
Proof.
  intros cd N F ps CQ hon B B' K V m n0 HC (HN & HH & ND & HF) HB HB' HR HK NK LK HV NV HM (S1 & com & res & S2 & S3).
  assert (W : forall i, In i hon -> party_wf party_secret (ps i) /\ p_N (ps i) = N /\ p_F (ps i) = F /\ p_PID (ps i) = i - 1).
  { intros i Ii. destruct (HR i Ii) as (A1 & A2 & A3 & A4 & _). auto. }
  assert (CO : forall i A y, In i hon -> bdeg F (2 * F) A -> CommitToPoly (p_KZG (ps i)) (secy A y) = Ret (mkG1 (peval (secx A party_secret) y))).
  { intros i A y Ii DA. destruct (W i Ii) as (A1 & _ & A3 & _). apply set_com; [exact A1|rewrite A3; exact DA]. }
  set (CM := fun k (_ : nat) => mkG1 (peval (secx B' party_secret) (of_nat k))).
  assert (EC : forall k, In k hon -> com k = ToCompressedG1 cd (CM k k)).
  { intros k Ik. destruct (S2 k Ik) as (X & _). unfold NewCommitSend in X. destruct (HR k Ik) as (_ & _ & _ & _ & ER & _). rewrite ER, CO in X by assumption. cbn [bind] in X.
    apply (f_equal (fun x => match x with Ret a => a | _ => [] end)) in X. symmetry. exact X. }
  assert (HVC : forall k v, In k K -> In v V -> VerifyNewCommit cd (ps v) (CQ v) k (com k) = Ret (Some (CM k v))).
  { intros k v Ik Iv. apply HK in Ik. apply HV in Iv. destruct (HR v Iv) as (A1 & A2 & A3 & A4 & A5 & A6 & A7).
    assert (DE : FromCompressedG1 cd (com k) = Some (CM k v)) by (rewrite (EC k Ik); apply HC).
    destruct (c28_new_commitment cd (ps v) B B' (CQ v) k (com k) A1) as (o & E & O); rewrite ?A2, ?A3; auto; [rewrite DE; discriminate|].
    rewrite E. f_equal. apply O. split; [exact DE|]. apply CO; assumption. }
  assert (HMS : forall k v, In k K -> In v V -> exists w, FromCompressedG1 cd (sd_WB (m k v)) = Some w /\
    CheckProofSingle (p_KZG (ps v)) (CM k v) w (of_nat (p_PID (ps v) + 1)) (FrFrom32_into 0 (to32 (sd_B (m k v)))) = Ret false).
  { intros k v Ik Iv. destruct (HM k v Ik Iv) as (w & X & Y). exists w. split; [exact X|]. apply Y. apply CO; [apply HV; exact Iv|exact HB']. }
  assert (HPN : forall v, In v V -> p_N (ps v) = N) by (intros v Iv; apply (W v (HV v Iv))).
  assert (HPF : forall v, In v V -> p_F (ps v) = F) by (intros v Iv; apply (W v (HV v Iv))).
  set (n1 := mkDnet (m_d n0) (m_count n0) (m_post n0 ++ flat_map (fun v => map (fun k => QShare k v (m k v)) K) V)).
  assert (LKN : length K <= N).
  { rewrite <- (seq_length N 1). apply NoDup_incl_length; [exact NK|]. intros k Ik. apply in_seq. pose proof (HH k (HK k Ik)). lia. }
  assert (BF : before N hon K V com m (list_prod K V) n1).
  { constructor.
    - intros k v X. apply in_prod_iff in X. destruct X as (Ik & Iv). split; unfold n1; cbn [m_post]; apply in_app_iff.
      + left. rewrite S3. apply in_flat_map. exists k. split; [apply HK; exact Ik|]. apply in_flat_map. exists v. split; [apply HV; exact Iv|]. left. reflexivity.
      + right. apply in_flat_map. exists v. split; [exact Iv|]. apply in_map_iff. exists k. auto.
    - intros y Y. unfold n1 in Y. cbn [m_post] in Y. apply in_app_iff in Y. destruct Y as [Y|Y].
      + rewrite S3 in Y. apply in_flat_map in Y. destruct Y as (k & Ik & Y). apply in_flat_map in Y. destruct Y as (i & Ii & Y). destruct Y as [<-|[<-|[]]]; auto.
      + apply in_flat_map in Y. destruct Y as (v & Iv & Y). apply in_map_iff in Y. destruct Y as (k & <- & _). apply HV. exact Iv.
    - intros i Ii. destruct (S1 i Ii) as (X & Y). unfold n1. cbn [m_count m_d]. rewrite X. split; [exact Y|reflexivity].
    - intros v Iv. destruct (S1 v (HV v Iv)) as (X & _). unfold n1. cbn [m_d]. rewrite X, (HPN v Iv). unfold dist_init. cbn [d_ncDone d_SCom d_token d_free d_wait d_SB d_share].
      rewrite !repeat_length. assert (RF : forall j, nth j (repeat false (N + 1)) false = false) by (intros j; apply nth_repeat).
      split; [reflexivity|]. split; [reflexivity|]. split; [reflexivity|]. split; [reflexivity|]. split; [reflexivity|]. split; [exact RF|]. split.
      { intros j Y. rewrite RF in Y. discriminate. }
      split. { intros k Ik. rewrite RF. split; [discriminate|]. intros Y. destruct Y. apply in_prod; assumption. }
      assert (L : length (filter (fun y => snd y =? v) (list_prod K V)) <= length (map (fun k => (k, v)) K)).
      { apply NoDup_incl_length.
        - apply NoDup_filter. apply nodup_prod; assumption.
        - intros (a & b) Y. apply filter_In in Y. destruct Y as (Y & E). cbn [snd] in E. apply Nat.eqb_eq in E. subst b. apply in_map_iff. exists a. split; [reflexivity|]. apply in_prod_iff in Y. apply Y. }
      rewrite map_length in L. lia. }
  destruct (all_pairs cd ps CQ N F hon K V HK LK HV com CM m HVC HMS HN HH HPN (list_prod K V) n1) as (evs & n & R & P).
  { apply nodup_prod; assumption. }
  { intros k v X. apply in_prod_iff. exact X. }
  { exact BF. }
  exists evs, n. split; [exact R|]. intros evs' n' R'. pose proof (before_stuck N F hon K V LK HV com m n P) as T.
  pose proof (stuck_runs cd ps CQ N F hon K V HK NK ND LK HPF n evs' n' T R') as T'.
  split; [intros v Iv; apply (b_none _ _ _ (s_bl _ _ _ _ T' v Iv))|].
  intros LV i Ii LF. unfold left_handoff in LF. pose proof (has_bound hon K V HV NV n' T') as HBd. pose proof (s_ct _ _ _ _ T' i Ii). lia.
Qed.
Print Assumptions c83_forged.

(** Such a message needs no knowledge: of two messages with the same witness and different values one at least is false. *)
Theorem c83_easy : forall cd F B' p k m1 m2 w, party_wf party_secret p -> p_F p = F -> 1 <= F -> bdeg F (2 * F) B' ->
  FromCompressedG1 cd (sd_WB m1) = Some w -> sd_WB m2 = sd_WB m1 ->
  FrFrom32_into 0 (to32 (sd_B m1)) <> FrFrom32_into 0 (to32 (sd_B m2)) ->
  false_share cd B' p k m1 \/ false_share cd B' p k m2.
Proof.
  intros cd F B' p k m1 m2 w W EF F1 DB DW EW NE. pose proof W as (Q1 & _). rewrite EF in Q1.
  set (v1 := FrFrom32_into 0 (to32 (sd_B m1))) in *. set (v2 := FrFrom32_into 0 (to32 (sd_B m2))) in *.
  assert (CO : CommitToPoly (p_KZG p) (secy B' (of_nat k)) = Ret (mkG1 (peval (secx B' party_secret) (of_nat k)))) by (apply set_com; [exact W|rewrite EF; exact DB]).
  set (C := mkG1 (peval (secx B' party_secret) (of_nat k))) in *. set (x := of_nat (p_PID p + 1)).
  assert (T : forall v, CheckProofSingle (p_KZG p) C w x v = Ret false \/ CheckProofSingle (p_KZG p) C w x v = Ret true).
  { intros v. rewrite (check_correct party_secret (F + 1) _ Q1) by lia. destruct (feqb _ _); auto. }
  assert (L : forall m v, FromCompressedG1 cd (sd_WB m) = Some w -> v = FrFrom32_into 0 (to32 (sd_B m)) -> CheckProofSingle (p_KZG p) C w x v = Ret false -> false_share cd B' p k m).
  { intros m v D -> E. exists w. split; [exact D|]. intros C' EC. rewrite CO in EC. apply (f_equal (fun x => match x with Ret a => a | _ => C end)) in EC. subst C'. exact E. }
  destruct (T v1) as [E1|E1]; [left; apply (L m1 v1 DW eq_refl E1)|]. destruct (T v2) as [E2|E2]; [right; apply (L m2 v2); [rewrite EW; exact DW|reflexivity|exact E2]|].
  exfalso. apply NE. apply (check_iff party_secret (F + 1) _ Q1) in E1; [|lia]. apply (check_iff party_secret (F + 1) _ Q1) in E2; [|lia].
  assert (X : (dlog1 C - v1 = dlog1 C - v2)%F) by (rewrite E1, E2; reflexivity).
  transitivity (dlog1 C - (dlog1 C - v1))%F; [ring|]. rewrite X. ring.
Qed.
Print Assumptions c83_easy.

Lemma some_false cd F B' p k : codec_ok cd -> party_wf party_secret p -> p_F p = F -> 1 <= F -> bdeg F (2 * F) B' ->
  exists a, false_share cd B' p k (mkSD (FrTo32 a) (ToCompressedG1 cd ZeroG1)).
Proof.
  intros HC W EF F1 DB.
  destruct (c83_easy cd F B' p k (mkSD (FrTo32 0%F) (ToCompressedG1 cd ZeroG1)) (mkSD (FrTo32 1%F) (ToCompressedG1 cd ZeroG1)) ZeroG1 W EF F1 DB (HC ZeroG1) eq_refl) as [X|X].
  - cbn [sd_B]. rewrite !PropertiesStageBad.read_back. intros X. symmetry in X. exact (f1_neq_0 X).
  - exists 0%F. exact X.
  - exists 1%F. exact X.
Qed.

(** With 2F+1 honest members a single message is enough, in the name of any honest member to any honest member. *)
Theorem c83_one : forall cd N F ps CQ hon B B' k v m n0, codec_ok cd -> enough N F hon -> length hon = 2 * F + 1 ->
  bdeg F (2 * F) B -> bdeg F (2 * F) B' -> (forall i, In i hon -> renewed N F B B' (CQ i) i (ps i)) ->
  In k hon -> In v hon -> false_share cd B' (ps v) k m -> dist_starts cd ps hon n0 ->
  exists evs n, dnruns cd ps CQ F hon (mkDnet (m_d n0) (m_count n0) (m_post n0 ++ [QShare k v m])) evs n /\
    forall evs' n', dnruns cd ps CQ F hon n evs' n' -> d_share (m_d n' v) = None /\ forall i, In i hon -> ~ left_handoff F n' i.
Proof.
  intros cd N F ps CQ hon B B' k v m n0 HC HE HL HB HB' HR Ik Iv HM S0.
  assert (N1 : forall a : nat, NoDup [a]) by (intros a; repeat constructor; intros []).
  destruct (c83_forged cd N F ps CQ hon B B' [k] [v] (fun _ _ => m) n0 HC HE HB HB' HR) as (evs & n & R & G); auto.
  - intros a [<-|[]]. exact Ik.
  - cbn [length]. lia.
  - intros a [<-|[]]. exact Iv.
  - intros k' v' [<-|[]] [<-|[]]. exact HM.
  - exists evs, n. split; [exact R|]. intros evs' n' R'. destruct (G evs' n' R') as (G1 & G2). split; [apply G1; left; reflexivity|]. apply G2. cbn [length]. lia.
Qed.
Print Assumptions c83_one.

(** N = 4, F = 1, members 1, 2 and 4 honest: member 3 sends member 1 a false share in the name of member 2. *)
Example c83_ex : exists ps CQ B B' m0, enough 4 1 [1; 2; 4] /\ bdeg 1 2 B /\ bdeg 1 2 B' /\
  (forall i, In i [1; 2; 4] -> renewed 4 1 B B' (CQ i) i (ps i)) /\ beval B' 0%F 0%F = of_nat 7 /\
  (exists i, In i [1; 2; 4] /\ p_reducedShare (ps i) <> secy B (of_nat i)) /\
  dist_starts demo_codec ps [1; 2; 4] m0 /\ exists a,
  let m := mkSD (FrTo32 a) (ToCompressedG1 demo_codec ZeroG1) in
  false_share demo_codec B' (ps 1) 2 m /\
  exists evs n, dnruns demo_codec ps CQ 1 [1; 2; 4] (mkDnet (m_d m0) (m_count m0) (m_post m0 ++ [QShare 2 1 m])) evs n /\
    forall evs' n', dnruns demo_codec ps CQ 1 [1; 2; 4] n evs' n' -> d_share (m_d n' 1) = None /\ forall i, In i [1; 2; 4] -> ~ left_handoff 1 n' i.
Proof.
  destruct c76_ex as (ps0 & n0 & CM & _ & HB & HR & _). cbv zeta in *. set (B := [[of_nat 7; 0%F]; [0%F; of_nat 3]; [1%F; 0%F]]) in *.
  set (xy := [[0%F; 0%F]; [0%F; 1%F]; [0%F; 0%F]]) in *. set (B' := badd B xy).
  assert (DX : bdeg 1 2 xy) by (destruct CM as (_ & C2 & _); exact (C2 0)).
  assert (DB : bdeg 1 2 B') by (apply bdeg_badd; assumption).
  set (ps := fun i => set_reducedShare (ps0 i) (secy B' (of_nat i))).
  set (CQ := fun _ : nat => map (fun j => mkG1 (peval (secx xy party_secret) (of_nat j))) (seq 0 5)).
  assert (SUB : forall i, In i [1; 2; 4] -> In i (seq 1 4) /\ 1 <= i <= 4) by (intros i [<-|[<-|[<-|[]]]]; split; try apply in_seq; lia).
  assert (EN : enough 4 1 [1; 2; 4]).
  { split; [reflexivity|]. split; [intros k K; apply (SUB k K)|]. split; [repeat constructor; cbn [In]; lia|cbn [length]; lia]. }
  assert (RN : forall i, In i [1; 2; 4] -> renewed 4 1 B B' (CQ i) i (ps i)).
  { intros i Ii. destruct (SUB i Ii) as (Is & Hi). destruct CM as (C1 & _). destruct (C1 i Is) as (W & E1 & E2 & E3). pose proof (HR i Hi) as HRi.
    unfold renewed, ps. cbn [set_reducedShare p_N p_F p_PID p_reducedShare]. refine (conj W (conj E1 (conj E2 (conj E3 (conj eq_refl (conj (proj2 HRi) _)))))).
    unfold updates. cbn [set_reducedShare p_N p_KZG]. rewrite E1. split; [reflexivity|]. intros j c Hj EC.
    rewrite (set_com (ps0 i) W) in EC by (rewrite E2; exact HB). rewrite (set_com (ps0 i) W) by (rewrite E2; exact DB).
    apply (f_equal (fun x => match x with Ret a => a | _ => ZeroG1 end)) in EC. subst c. f_equal. unfold CQ.
    rewrite (nth_indep _ ZeroG1 (mkG1 (peval (secx xy party_secret) (of_nat 0)))) by (rewrite map_length, seq_length; lia).
    rewrite (map_nth (fun j => mkG1 (peval (secx xy party_secret) (of_nat j)))), seq_nth by lia. cbn [Nat.add].
    unfold AddG1. cbn [dlog1]. rewrite !peval_secx. unfold B'. rewrite beval_badd. reflexivity. }
  destruct (dist_start demo_codec 4 1 ps [1; 2; 4] B' DB) as (m0 & S0).
  { intros i Ii. destruct (RN i Ii) as (A1 & A2 & A3 & _ & A5 & _). auto. }
  exists ps, CQ, B, B', m0. split; [exact EN|]. split; [exact HB|]. split; [exact DB|]. split; [exact RN|]. split.
  { unfold B'. rewrite beval_badd. unfold B, xy, beval. cbn [map secy peval]. ring. }
  split.
  { exists 1. split; [left; reflexivity|]. unfold ps. cbn [set_reducedShare p_reducedShare]. intros X. apply (f_equal (fun q => peval q 1%F)) in X.
    rewrite !peval_secy in X. unfold B' in X. rewrite beval_badd in X. assert (Y : beval xy 1%F (of_nat 1) = 0%F) by (transitivity (beval B 1%F (of_nat 1) + beval xy 1%F (of_nat 1) - beval B 1%F (of_nat 1))%F; [ring|rewrite X; ring]).
    apply (f_equal fv) in Y. vm_compute in Y. discriminate. }
  split; [exact S0|]. set (m := fun a : Fr => mkSD (FrTo32 a) (ToCompressedG1 demo_codec ZeroG1)).
  assert (EX : exists a, false_share demo_codec B' (ps 1) 2 (m a)).
  { destruct (RN 1 (or_introl eq_refl)) as (A1 & A2 & A3 & _). exact (some_false demo_codec 1 B' (ps 1) 2 demo_codec_ok A1 A3 (le_n 1) DB). }
  destruct EX as (a & FA). exists a. split; [exact FA|].
  apply (c83_one demo_codec 4 1 ps CQ [1; 2; 4] B B' 2 1 (m a) m0 demo_codec_ok EN eq_refl HB DB RN); cbn [In]; auto.
Qed.
