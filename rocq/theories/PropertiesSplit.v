(** C76: all members of the new committee honest, and the handoff never completes. *)

Require Import ZArith List Bool Arith Lia Permutation.
From Verif Require Import Prime Fr GoBase Poly PolyModel PolyProofs Biv GroupModel KzgModel KzgProofs.
From Verif Require Import CodecModel CodecProofs PartyModel PartySpec VssModel VssProofs VssProofs2 BivProofs.
From Verif Require Import ReduceModel ReduceProofs PropertiesVss PropertiesReduce.
From Verif Require Import ProacModel ProacProofs ProacRun ProacSig ProacRecover ProacDist ProacLinks.
From Verif Require Import PropertiesProac PropertiesDist ReshareModel ReshareProofs StageModel StageProofs StageNet StageSplit PropertiesStage PropertiesRefresh.
Import ListNotations.
Local Open Scope F_scope.

(** Every new commitment delivered is the one that member j, with the share it has now, broadcasts. *)
Definition commits_of (cd : g1codec) (N : nat) (qs : nat -> Party) (evs : list dev) : Prop :=
  forall j d, In (DvCommit j d) evs -> (1 <= j <= N)%nat /\ NewCommitSend cd (qs j) = Ret d.

(** The dealers member i gives to the agreement. *)
Definition given (n : net) (i : nat) : list Z := map (fun x => Z.of_nat (fst x)) (s_MVBAIn (v_st (n_v n i))).

Lemma sum_perm QB J J' x y : Permutation J J' -> total QB J x y = total QB J' x y.
Proof.
  unfold total. induction 1; cbn [map fsum]; [reflexivity|congruence|ring|congruence].
Qed.

Lemma nats_of l : nats (map Z.of_nat l) = l.
Proof. unfold nats. rewrite map_map. rewrite <- (map_id l) at 2. apply map_ext. intros a. apply Nat2Z.id. Qed.

Lemma bsum_ext F A B l : (forall k, In k l -> A k = B k) -> bsum F A l = bsum F B l.
Proof. unfold bsum. generalize (bzero F). induction l as [|a l IH]; intros z H; [reflexivity|]. cbn [fold_left]. rewrite (H a) by (left; reflexivity). apply IH. intros k K. apply H. right. exact K. Qed.

(** The dealers whose Recover messages reach member i first. *)
Definition early (N F i : nat) : list nat := if (i <=? N - 2 * F)%nat then seq 1 (F + 1) else seq (N - F) (F + 1).

Section Split.
Variables (cd : g1codec) (s : Fr) (N F : nat) (ps : nat -> Party) (QB : nat -> list (list Fr)).
Variable sg : nat -> nat -> list Z.
Variables (sigok : nat -> list Z -> bool) (combine : nat -> list (list Z) -> list Z).
Variables (n0 : net) (B : list (list Fr)).
Local Notation hon := (seq 1 N).
Local Notation J0 := (seq (N - F) (F + 1)).
Hypothesis HC : codec_ok cd.
Hypothesis C : committee s N F ps QB sg sigok hon.
Hypothesis S0 : starts cd ps (dealt F QB) hon n0.
Hypothesis HB : bdeg F (2 * F) B.
Hypothesis HR : forall i, (1 <= i <= N)%nat -> p_reducedShare (ps i) = secy B (of_nat i) /\ holds_commitments B (ps i).
Local Notation runs := (nruns cd ps sg sigok combine hon).
Local Notation st0 := (fun i => v_st (n_v n0 i)).
Local Notation inv := (ninv cd s ps QB sg sigok combine hon st0).

Lemma sizes : (1 <= N)%nat -> (1 <= F)%nat /\ (3 * F + 1 <= N)%nat /\ (Z.of_nat (2 * F + 2) <= r)%Z.
Proof.
  intros H. destruct C as (C1 & _). destruct (C1 1%nat ltac:(apply in_seq; lia)) as ((_ & _ & W3 & W4 & W5 & _) & EN & EF & _). rewrite EN, EF in *. lia.
Qed.

Lemma pos : (1 <= N)%nat.
Proof. destruct C as (_ & _ & _ & _ & _ & _ & _ & H). rewrite seq_length in H. lia. Qed.

Lemma early_ok i : In i hon -> incl (early N F i) hon /\ NoDup (early N F i) /\ length (early N F i) = (F + 1)%nat.
Proof.
  intros Ii. destruct (sizes pos) as (H1 & H2 & _). unfold early. destruct (i <=? N - 2 * F)%nat; (split; [intros k X; apply in_seq in X; apply in_seq; lia|]); (split; [apply seq_NoDup|apply seq_length]).
Qed.

Lemma zero_add J : (forall k, In k J -> ~ In k (seq 1 (F + 1))) -> badd B (bsum F (known (ps 1%nat) QB (seq 1 (F + 1))) J) = B.
Proof.
  intros H. destruct (sizes pos) as (H1 & H2 & H3). destruct C as (C1 & _). destruct (C1 1%nat ltac:(apply in_seq; lia)) as (_ & _ & EF & _).
  rewrite (bsum_ext F _ (fun _ => bzero F) J).
  2:{ intros k K. unfold known. rewrite EF. destruct (existsb _ _) eqn:EX; [|reflexivity]. apply existsb_exists in EX. destruct EX as (k' & K1 & K2). apply Nat.eqb_eq in K2. subst k'. destruct (H k K K1). }
  apply (biv_unique F (2 * F) _ _ (map of_nat (seq 0 (S F))) (map of_nat (seq 0 (S (2 * F))))).
  - apply bdeg_badd; [exact HB|]. apply bsum_deg. intros; apply bdeg_bzero.
  - exact HB.
  - apply big_points. lia.
  - apply big_points. lia.
  - rewrite map_length, seq_length. reflexivity.
  - rewrite map_length, seq_length. reflexivity.
  - intros x y _ _. rewrite beval_badd. rewrite <- (nats_of J), beval_bsum. unfold total. rewrite fsum_map_0; [ring|]. intros a _. apply beval_bzero.
Qed.

(** The dealers of the last members: what the member N gives to the agreement. *)
Theorem c76_split_refuted : (forall a, (1 <= a <= N - 2 * F)%nat -> total QB (map Z.of_nat J0) s (of_nat a) <> 0) ->
  exists evs n, runs n0 evs n /\ (forall i, ~ In (NAgreed i) evs) /\ (forall i, In i hon -> agreeing F n i) /\
  (* the agreement returns the input of member N; every member goes on at a time of its own *)
  forall later, (forall i, In i hon -> exists evs' n', runs n evs' n' /\ later i = v_st (n_v n' i)) ->
  exists share CQsum, (forall i, In i hon -> Refresh (ps i) (later i) (given n N) = Ret (Some (share i, CQsum i))) /\
    (* the first N - 2F members keep their shares, the others have refreshed ones *)
    (forall i, (1 <= i <= N - 2 * F)%nat -> share i = p_reducedShare (ps i)) /\
    (exists B', bdeg F (2 * F) B' /\ beval B' 0 0 = beval B 0 0 /\ forall i, (N - 2 * F < i <= N)%nat -> share i = secy B' (of_nat i)) /\
    forall i dvs st, In i hon -> commits_of cd N (fun j => set_reducedShare (ps j) (share j)) dvs ->
      drun cd (set_reducedShare (ps i) (share i)) (CQsum i) (dist_init N) dvs = Ret st -> d_share st = None.
Proof.
  intros NZ. pose proof C as (C1 & C2 & C3 & C4 & C5 & C6 & C7 & C8). destruct (sizes pos) as (F1 & F3 & FR).
  pose proof (proj1 (inv0 cd s N F ps QB sg sigok combine hon n0 C S0)) as I0.
  destruct (to_quiet_of cd s ps QB sg sigok combine hon N F HC C1 C2 C3 C4 C5 C6 C7 C8 st0 (e0 cd F ps QB hon n0 S0) (early N F) _ n0 _ I0 (le_n _))
    as (evs & n & E & R & NA & I & Q & CM).
  assert (SRC : forall i y, In y (sources (others (E i))) -> In (Z.to_nat (snd y)) (early N F i)). { intros i y Y. destruct (CM i y Y) as [X|X]; [destruct X|exact X]. }
  assert (MS : forall i, In i hon -> s_MVBASent (v_st (n_v n i)) = true).
  { intros i Ii. destruct (early_ok i Ii) as (K1 & K2 & K3). apply (quiet_sent_of cd s ps QB sg sigok combine hon N F HC C1 C2 C3 C4 C5 C6 C7 C8 st0 (e0 cd F ps QB hon n0 S0) (early N F) n E I Q i Ii K1 K2). lia. }
  assert (LT : forall i, In i hon -> late (early N F i) (v_st (n_v n i)) /\ Permutation (map fst (s_MVBAIn (v_st (n_v n i)))) (early N F i)).
  { intros i Ii. destruct (early_ok i Ii) as (K1 & K2 & K3). destruct (C1 i Ii) as (_ & _ & EF & _).
    destruct (loc cd s ps QB sg sigok combine hon N F C1 C2 C4 C5 C8 st0 (e0 cd F ps QB hon n0 S0) i Ii) as (W & HQ' & HP & HN' & HH' & PI & E0' & VS).
    apply (late_init cd s (ps i) QB sg sigok combine hon HC W HQ' HP HN' HH' _ E0' (early N F i) _ _ _ (i_good _ _ _ _ _ _ _ _ _ _ _ I i Ii)); auto. rewrite EF. exact K3. }
  assert (INN : In N hon) by (apply in_seq; lia).
  assert (PJ : Permutation (given n N) (map Z.of_nat J0)).
  { unfold given. rewrite <- (map_map fst Z.of_nat). apply Permutation_map. rewrite (proj2 (LT N INN)). unfold early. rewrite (proj2 (Nat.leb_gt N (N - 2 * F))) by lia. reflexivity. }
  assert (IJ : forall j, In j (given n N) -> exists k, (N - F <= k <= N)%nat /\ j = Z.of_nat k).
  { intros j X. apply (Permutation_in _ PJ) in X. apply in_map_iff in X. destruct X as (k & <- & X). apply in_seq in X. exists k. split; [lia|reflexivity]. }
  exists evs, n. split; [exact R|]. split; [exact NA|]. split; [intros i Ii; apply (agrees cd s N F ps QB sg sigok combine hon n0 HC C S0 n E i I Ii); apply MS; exact Ii|].
  intros later HL.
  assert (RF : forall i, In i hon -> exists CQsum, Refresh (ps i) (later i) (given n N) = Ret (Some (secy (badd B (bsum F (known (ps i) QB (early N F i)) (nats (given n N)))) (of_nat i), CQsum)) /\
    length CQsum = (N + 1)%nat /\ forall j, (1 <= j <= N)%nat -> nth j CQsum ZeroG1 = mkG1 (peval (secx (bsum F QB (nats (given n N))) s) (of_nat j))).
  { intros i Ii. destruct (HL i Ii) as (evs' & n' & R' & ->). destruct (runs_ok cd s ps QB sg sigok combine hon N F HC C1 C2 C3 C4 C5 C6 C7 C8 st0 (e0 cd F ps QB hon n0 S0) n E evs' n' I R') as (E' & I' & _).
    destruct (loc cd s ps QB sg sigok combine hon N F C1 C2 C4 C5 C8 st0 (e0 cd F ps QB hon n0 S0) i Ii) as (W & HQ' & HP & HN' & HH' & PI & E0' & VS). destruct (C1 i Ii) as (_ & EN & EF & _).
    pose proof (runs_late cd ps sg sigok combine hon n evs' n' i _ R' (proj1 (LT i Ii))) as LA. pose proof (proj1 (in_seq _ _ _) Ii) as Ii'.
    destruct (refresh_known cd s (ps i) QB sg sigok combine hon HC W HQ' HP HN' HH' _ E0' (early N F i) _ _ _ (given n N) B (i_good _ _ _ _ _ _ _ _ _ _ _ I' i Ii) LA) as (CQ & X1 & X2 & X3).
    - rewrite EF. exact HB.
    - rewrite PI. apply HR. lia.
    - intros j Hj. destruct (IJ j Hj) as (k & Hk & ->). rewrite EN, Nat2Z.id. split; [lia|]. split.
      + apply (runs_com cd ps sg sigok combine hon n evs' n' i k R'). destruct (i_com _ _ _ _ _ _ _ _ _ _ _ I i k Ii ltac:(apply in_seq; lia)) as [(d & D)|D]; [|exact D].
        destruct (quiet_nocom cd s ps QB sg sigok combine hon N F HC C1 C2 C3 C4 C5 C8 st0 (e0 cd F ps QB hon n0 S0) (early N F) n E I Q k i d D).
      + rewrite PI. unfold early. destruct (Nat.leb_spec i (N - 2 * F)); [left; lia|right; apply in_seq; lia].
    - rewrite EN, EF, PI in *. exists CQ. auto. }
  exists (fun i => match Refresh (ps i) (later i) (given n N) with Ret (Some (q, _)) => q | _ => [] end), (fun i => match Refresh (ps i) (later i) (given n N) with Ret (Some (_, c)) => c | _ => [] end).
  cbv beta. split. { intros i Ii. destruct (RF i Ii) as (CQ & X & _). rewrite X. reflexivity. }
  assert (OUT : forall k, In k (nats (given n N)) -> ~ In k (seq 1 (F + 1))).
  { intros k X Y. apply in_map_iff in X. destruct X as (j & <- & X). destruct (IJ j X) as (k & Hk & ->). rewrite Nat2Z.id in Y. apply in_seq in Y. lia. }
  assert (KEEP : forall i, (1 <= i <= N - 2 * F)%nat -> exists CQ, Refresh (ps i) (later i) (given n N) = Ret (Some (secy B (of_nat i), CQ))).
  { intros i Hi. destruct (RF i ltac:(apply in_seq; lia)) as (CQ & X & _). exists CQ. rewrite X. unfold early. rewrite (proj2 (Nat.leb_le i (N - 2 * F))) by lia.
    destruct (C1 i ltac:(apply in_seq; lia)) as (_ & _ & EF & _). destruct (C1 1%nat ltac:(apply in_seq; lia)) as (_ & _ & EF1 & _).
    replace (known (ps i) QB (seq 1 (F + 1))) with (known (ps 1%nat) QB (seq 1 (F + 1))) by (unfold known; rewrite EF, EF1; reflexivity). rewrite zero_add by exact OUT. reflexivity. }
  split. { intros i Hi. destruct (KEEP i Hi) as (CQ & ->). symmetry. apply HR. lia. }
  split.
  { exists (badd B (bsum F QB (nats (given n N)))). split; [apply bdeg_badd; [exact HB|apply bsum_deg; intros; apply C2]|]. split.
    - rewrite beval_badd, bsum_secret; [ring|]. intros j X. apply in_map_iff in X. destruct X as (z & <- & X). destruct (IJ z X) as (k & Hk & ->). rewrite Nat2Z.id. apply C3. apply in_seq. lia.
    - intros i Hi. destruct (RF i ltac:(apply in_seq; lia)) as (CQ & -> & _). f_equal. f_equal. apply bsum_ext. intros k X. apply in_map_iff in X. destruct X as (z & <- & X). destruct (IJ z X) as (k & Hk & ->). rewrite Nat2Z.id.
      unfold known, early. rewrite (proj2 (Nat.leb_gt i (N - 2 * F))) by lia. destruct (existsb _ _) eqn:EX; [reflexivity|]. assert (existsb (Nat.eqb k) J0 = true) by (apply existsb_exists; exists k; split; [apply in_seq; lia|apply Nat.eqb_refl]). congruence. }
  intros i dvs st Ii CO DR. destruct (RF i Ii) as (CQ & X & LC & VC). rewrite X in DR. set (sh := secy _ _) in DR. destruct (C1 i Ii) as (W & EN & EF & EP).
  set (p := set_reducedShare (ps i) sh) in *. assert (W' : party_wf s p) by exact W.
  apply (dist_starved cd p CQ (seq (N - 2 * F + 1) (2 * F)) ltac:(rewrite seq_length; cbn [p set_reducedShare p_F]; lia) dvs st N); [|exact DR].
  intros j d g Hin Hj VN. destruct (CO j d Hin) as (Hj' & NC). apply in_seq. destruct (Nat.le_gt_cases j (N - 2 * F)) as [LJ|LJ]; [exfalso|lia].
  destruct (KEEP j ltac:(lia)) as (CQj & Y). rewrite Y in NC. unfold NewCommitSend in NC. cbn [set_reducedShare p_KZG p_reducedShare] in NC.
  destruct (C1 j ltac:(apply in_seq; lia)) as ((Wj & _) & ENj & EFj & _). rewrite EFj in Wj. rewrite (commit_section s (F + 1) _ F (2 * F) _ _ Wj HB) in NC by lia. cbn [bind] in NC. injection NC as <-.
  rewrite (verify_new_commit cd s p B (bsum F QB (nats (given n N))) CQ W') in VN.
  - rewrite HC in VN. destruct (EqualG1 _ _) eqn:EQ in VN; [|discriminate]. apply EqualG1_eq in EQ. unfold ncom in EQ. apply (f_equal dlog1) in EQ. cbn [dlog1] in EQ. rewrite !peval_secx, beval_badd, beval_bsum in EQ.
    apply (NZ j ltac:(lia)). rewrite <- (sum_perm QB _ _ s (of_nat j) PJ). apply (f_equal (fun z => z - beval B s (of_nat j))) in EQ. ring_simplify in EQ. symmetry. exact EQ.
  - cbn [p set_reducedShare p_F]. rewrite EF. exact HB.
  - intros k Hk. destruct (HR i ltac:(apply in_seq in Ii; lia)) as (_ & HO). cbn [p set_reducedShare p_F p_Proof] in *. destruct (HO k Hk) as (c & E1 & E2). exists c. split; [exact E1|].
    destruct W as (W1 & _). rewrite EF in W1. rewrite (commit_section s (F + 1) _ F (2 * F) _ _ W1 HB) in E2 by lia. injection E2 as <-. reflexivity.
  - cbn [p set_reducedShare p_N]. rewrite EN. exact LC.
  - cbn [p set_reducedShare p_N]. rewrite EN. exact VC.
  - exact Hj.
Qed.
End Split.
Print Assumptions c76_split_refuted.

(** N = 4, F = 1: member i with the share of B that it has after the reduction. *)
Definition equip (B : list (list Fr)) (p : Party) : Party :=
  mkParty (p_N p) (p_F p) (p_PID p) (p_KZG p)
    (mkPi (Gs (p_Proof p)) (map (fun j => mkPC j (mkG1 (peval (secx B party_secret) (of_nat j))) ZeroG1 ZeroG1 ZeroG1) (seq 0 (2 * p_F p + 2))))
    (p_fullShare p) (secy B (of_nat (p_PID p + 1))) (p_witness p) (p_witnessIndexes p) (p_tab p).

Example c76_ex : exists ps n0, let QB := fun _ : nat => [[0; 0]; [0; 1]; [0; 0]] in let B := [[of_nat 7; 0]; [0; of_nat 3]; [1; 0]] in
  committee party_secret 4 1 ps QB (fun _ _ => [7%Z]) (fun _ _ => true) (seq 1 4) /\
  starts demo_codec ps (dealt 1 QB) (seq 1 4) n0 /\ bdeg 1 2 B /\
  (forall i, (1 <= i <= 4)%nat -> p_reducedShare (ps i) = secy B (of_nat i) /\ holds_commitments B (ps i)) /\
  (forall a, (1 <= a <= 2)%nat -> total QB (map Z.of_nat (seq 3 2)) party_secret (of_nat a) <> 0).
Proof.
  assert (PP : exists qs, forall i, (1 <= i <= 4)%nat -> party_wf party_secret (qs i) /\ p_N (qs i) = 4%nat /\ p_F (qs i) = 1%nat /\ p_PID (qs i) = (i - 1)%nat).
  { destruct (new_party 4 1 0) as (p1 & P1 & W1); try lia; [rewrite r_eq; lia|].
    destruct (new_party 4 1 1) as (p2 & P2 & W2); try lia; [rewrite r_eq; lia|].
    destruct (new_party 4 1 2) as (p3 & P3 & W3); try lia; [rewrite r_eq; lia|].
    destruct (new_party 4 1 3) as (p4 & P4 & W4); try lia; [rewrite r_eq; lia|].
    exists (fun i => if (i =? 1)%nat then p1 else if (i =? 2)%nat then p2 else if (i =? 3)%nat then p3 else p4).
    intros i Hi. assert (i = 1 \/ i = 2 \/ i = 3 \/ i = 4)%nat as [->|[->|[->| ->]]] by lia; cbn [Nat.eqb Nat.sub]; assumption. }
  destruct PP as (qs & PP). set (QB := fun _ : nat => [[0; 0]; [0; 1]; [0; 0]]). set (B := [[of_nat 7; 0]; [0; of_nat 3]; [1; 0]]).
  set (ps := fun i => equip B (qs i)). assert (HB : bdeg 1 2 B) by (split; [reflexivity|repeat constructor]).
  assert (WF : forall i, (1 <= i <= 4)%nat -> party_wf party_secret (ps i) /\ p_N (ps i) = 4%nat /\ p_F (ps i) = 1%nat /\ p_PID (ps i) = (i - 1)%nat).
  { intros i Hi. destruct (PP i Hi) as ((W1 & W2 & W3 & W4 & W5 & W6 & W7) & EN & EF & EP). split; [|auto].
    unfold ps, equip, party_wf. cbn [p_F p_KZG p_N p_tab p_Proof PiContents p_fullShare p_witness p_witnessIndexes]. rewrite map_length, seq_length. auto 10. }
  assert (CM : committee party_secret 4 1 ps QB (fun _ _ => [7%Z]) (fun _ _ => true) (seq 1 4)).
  { split. { intros i Ii. apply in_seq in Ii. apply WF. lia. }
    split. { intros k. split; [reflexivity|repeat constructor]. }
    split. { intros k _. unfold beval, QB. cbn [secy map peval]. ring. }
    split; [reflexivity|]. split. { intros k Ik. apply in_seq in Ik. lia. }
    split; [apply seq_NoDup|]. split; [reflexivity|]. cbn [length seq]. lia. }
  destruct (stage_start demo_codec _ _ _ _ _ _ _ _ CM) as (n0 & S0). exists ps, n0. cbv zeta. split; [exact CM|]. split; [exact S0|]. split; [exact HB|]. split.
  - intros i Hi. destruct (PP i Hi) as ((W1 & _) & EN & EF & EP). rewrite EF in W1. unfold ps, equip, holds_commitments. cbn [p_reducedShare p_F p_Proof p_KZG PiContents]. rewrite EP, EF. split; [f_equal; f_equal; lia|].
    intros j Hj. eexists. split; [rewrite nth_error_map, (nth_error_nth' _ O), seq_nth by (rewrite ?seq_length; lia); reflexivity|].
    exact (commit_section party_secret 2 _ 1 2 B (of_nat j) W1 HB ltac:(lia)).
  - intros a Ha. replace (total QB (map Z.of_nat (seq 3 2)) party_secret (of_nat a)) with (of_nat (2 * a) * party_secret).
    2:{ unfold total, beval, QB. cbn [map seq secy peval fsum]. unfold of_nat. rewrite Nat2Z.inj_mul, of_Z_mul. change (of_Z (Z.of_nat 2)) with (of_Z (1 + 1)). rewrite of_Z_add. change (of_Z 1) with 1. ring. }
    apply fmul_neq_0.
    + intros X. apply (of_nat_inj (2 * a) 0) in X; [lia| |]; rewrite r_eq; lia.
    + exact (secret_not_small 0 ltac:(lia)).
Qed.
