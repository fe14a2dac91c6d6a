(** C82: as C77, while the corrupted members of the new committee take part. *)

Require Import ZArith List Bool Arith Lia Permutation.
From Verif Require Import Prime Fr GoBase Poly PolyModel PolyProofs Biv GroupModel KzgModel KzgProofs.
From Verif Require Import CodecModel CodecProofs PartyModel PartySpec VssModel VssProofs BivProofs.
From Verif Require Import ReduceModel ReduceProofs PropertiesVss PropertiesReduce.
From Verif Require Import ProacModel ProacProofs ProacRun ProacSig ProacRecover ProacDist ProacLinks.
From Verif Require Import PropertiesProac ReshareModel ReshareProofs StageModel StageProofs StageNet StageBadProofs StageBadNet PropertiesStage.
From Verif Require Import VssProofs2 PropertiesDist PropertiesRefresh StageSplit PropertiesSplit DistNetModel DistNetProofs DistBadNet.
From Verif Require Import PropertiesFinish PropertiesStageBad.
Import ListNotations.
Local Open Scope F_scope.

(** The senders of the ShareDist messages to member i that are in [post]; the number of Success messages to member i. *)
Definition shares_to (i : nat) (post : list dpacket) : list nat :=
  flat_map (fun x => match x with QShare k i' _ => if (i' =? i)%nat then [k] else [] | _ => [] end) post.
Definition successes_to (i : nat) (post : list dpacket) : nat :=
  length (filter (fun x => match x with QSuccess _ i' => (i' =? i)%nat | _ => false end) post).

(** What the corrupted members [cor] may send to honest ones: commitments that are points; one ShareDist message each,
    with a point as witness, that is no opening of the commitment to B'(., k) to a wrong value; any Success messages. *)
Record meddling (cd : g1codec) (s : Fr) (N : nat) (B' : list (list Fr)) (hon cor : list nat) (bad : list dpacket) : Prop := {
  b_cor : forall k, In k cor -> (1 <= k <= N)%nat /\ ~ In k hon;
  b_bad : forall x, In x bad -> match x with
    | QCommit k i d => In i hon /\ In k cor /\ FromCompressedG1 cd d <> None
    | QShare k i m => In i hon /\ In k cor /\ exists w, FromCompressedG1 cd (sd_WB m) = Some w /\ no_wrong_opening s B' k i (FrFrom32_into 0 (to32 (sd_B m))) w
    | QSuccess k i => In i hon
    end;
  b_once : forall i, In i hon -> NoDup (shares_to i bad) }.

(** The distribution comes to its end whatever the corrupted members send. *)
Definition finishes_with (cd : g1codec) (F : nat) (ps : nat -> Party) (CQ : nat -> list G1) (hon : list nat) (bad : list dpacket) (B' : list (list Fr)) : Prop :=
  forall n0 evs n, dist_starts cd ps hon n0 -> dnruns cd ps CQ F hon (mkDnet (m_d n0) (m_count n0) (m_post n0 ++ bad)) evs n ->
    (length evs <= 4 * length hon * length hon + 2 * length bad)%nat /\
    (forall e, exists o, dnstep cd ps CQ F hon n e = Ret o) /\
    (forall i full, In i hon -> d_share (m_d n i) = Some full -> full = secx B' (of_nat i)) /\
    (forall i, In i hon -> left_handoff F n i -> d_share (m_d n i) <> None /\
       exists G, incl G hon /\ NoDup G /\ (2 * F + 1 <= length G + successes_to i bad)%nat /\ forall k, In k G -> d_share (m_d n k) <> None) /\
    ((forall e, dnstep cd ps CQ F hon n e = Ret None) ->
       forall i, In i hon -> d_share (m_d n i) = Some (secx B' (of_nat i)) /\ left_handoff F n i) /\
    (exists evs' n', dnruns cd ps CQ F hon n evs' n' /\ forall e, dnstep cd ps CQ F hon n' e = Ret None).

Lemma wt_bad bad : (StageNet.total wt bad <= 2 * length bad)%nat.
Proof. unfold StageNet.total. induction bad as [|x l IH]; [reflexivity|]. cbn [map length]. unfold list_sum in *. cbn [fold_right]. destruct x; cbn [wt]; lia. Qed.

Lemma suc_bad i bad : StageNet.total (nsuc i) bad = successes_to i bad.
Proof.
  unfold StageNet.total, successes_to. induction bad as [|x l IH]; [reflexivity|]. cbn [map filter]. unfold list_sum in *. cbn [fold_right]. rewrite IH.
  destruct x as [| |k i']; cbn [nsuc]; [reflexivity|reflexivity|]. destruct (i' =? i)%nat; reflexivity.
Qed.

Lemma once_z i bad : (forall k, In k (shares_to i bad) -> (1 <= k)%nat) -> NoDup (shares_to i bad) -> NoDup (qsrc i bad).
Proof.
  intros R N. replace (qsrc i bad) with (map (fun k => Z.of_nat (k - 1)) (shares_to i bad)).
  - apply nodup_map_in; [|exact N]. intros a b Ha Hb. pose proof (R a Ha). pose proof (R b Hb). lia.
  - clear. unfold qsrc, shares_to. induction bad as [|x l IH]; [reflexivity|]. cbn [flat_map]. rewrite map_app, IH. f_equal. destruct x as [|k i' m|]; [reflexivity| |reflexivity]. destruct (i' =? i)%nat; reflexivity.
Qed.

Theorem c82_finish : forall cd N F ps CQ hon cor bad B B', codec_ok cd -> enough N F hon ->
  bdeg F (2 * F) B -> bdeg F (2 * F) B' -> (forall i, In i hon -> renewed N F B B' (CQ i) i (ps i)) ->
  meddling cd party_secret N B' hon cor bad -> finishes_with cd F ps CQ hon bad B'.
Proof.
  intros cd N F ps CQ hon cor bad B B' HC (HN & HH & ND & HF) HB HB' HR M n0 evs n S0 R.
  assert (EX : exists i, In i hon). { destruct hon as [|a l]; [cbn in HF; lia|exists a; left; reflexivity]. }
  assert (EQ : badd B (bsub B' B) = B').
  { destruct EX as (i & Ii). destruct (HR i Ii) as (W & EN & EF & _). apply (set_eq (ps i)); auto; rewrite EF; assumption. }
  assert (HPS : forall i, In i hon -> party_wf party_secret (ps i) /\ p_N (ps i) = N /\ p_F (ps i) = F /\ p_PID (ps i) = (i - 1)%nat /\
    p_reducedShare (ps i) = secy (badd B (bsub B' B)) (of_nat i)).
  { intros i Ii. destruct (HR i Ii) as (W & EN & EF & EP & ER & _). rewrite EQ. auto. }
  assert (HS : bdeg F (2 * F) (bsub B' B)).
  { destruct EX as (i & Ii). destruct (HR i Ii) as (W & EN & EF & _). rewrite <- EF. apply set_deg; rewrite EF; assumption. }
  assert (HO : forall i j, In i hon -> (1 <= j <= 2 * F + 1)%nat ->
    exists c, nth_error (PiContents (p_Proof (ps i))) j = Some c /\ CBj c = mkG1 (peval (secx B party_secret) (of_nat j))).
  { intros i j Ii Hj. destruct (HR i Ii) as (W & EN & EF & EP & ER & HO & HU). apply (set_coms (ps i) B W); [rewrite EF; exact HB|exact HO|rewrite EF; exact Hj]. }
  assert (HL : forall i, In i hon -> length (CQ i) = (N + 1)%nat).
  { intros i Ii. destruct (HR i Ii) as (W & EN & EF & EP & ER & HO' & HU). rewrite (proj1 HU), EN. reflexivity. }
  assert (HV : forall i j, In i hon -> (1 <= j <= N)%nat -> nth j (CQ i) ZeroG1 = mkG1 (peval (secx (bsub B' B) party_secret) (of_nat j))).
  { intros i j Ii Hj. destruct (HR i Ii) as (W & EN & EF & EP & ER & HO' & HU). apply (set_sums (ps i) B B' (CQ i) W); [rewrite EF; exact HB|rewrite EF; exact HB'|exact HU|rewrite EN; exact Hj]. }
  destruct M as [HX MB MO].
  assert (ME : forall i, In i hon -> me (ps i) = of_nat i).
  { intros i Ii. destruct (HPS i Ii) as (_ & _ & _ & EP & _). unfold me. rewrite EP. f_equal. pose proof (HH i Ii). lia. }
  assert (HBAD : Forall (badok cd party_secret ps B (bsub B' B) hon cor) bad).
  { apply Forall_forall. intros x X. specialize (MB x X). destruct x as [k i d|k i m|k i]; cbn [badok]; [exact MB| |exact MB].
    destruct MB as (Ii & K & w & EW & NW). split; [exact Ii|]. split; [exact K|]. split; [rewrite EW; discriminate|]. intros w' EW' CK. assert (w' = w) as -> by congruence.
    destruct (HPS i Ii) as ((W1 & _ & W3 & _) & _). apply (check_iff party_secret (p_F (ps i) + 1) _ W1) in CK; [|lia]. rewrite EQ. rewrite (ME i Ii) in *. apply NW.
    unfold ncom in CK. cbn [dlog1] in CK. rewrite EQ, peval_secx in CK. exact CK. }
  assert (HONCE : forall i, In i hon -> NoDup (qsrc i bad)).
  { intros i Ii. apply once_z; [|apply MO; exact Ii]. intros k K. unfold shares_to in K. apply in_flat_map in K. destruct K as (x & X & K). specialize (MB x X).
    destruct x as [|k' i' m|]; [destruct K| |destruct K]. destruct (i' =? i)%nat; [|destruct K]. destruct K as [<-|[]]. destruct MB as (_ & K & _). apply HX in K. lia. }
  destruct (runs_inv cd party_secret ps CQ B (bsub B' B) hon cor bad N F HC HPS HB HS HO HL HV HN HH ND HF HX HBAD n0 evs n S0 R) as (E & T & P).
  pose proof (wt_bad bad) as WB. split; [lia|]. split.
  { intros e. destruct (step_ok cd party_secret ps CQ B (bsub B' B) hon cor bad N F HC HPS HB HS HO HL HV HN HH ND HF HX n E e T) as (o & EO & _). exists o. exact EO. }
  split.
  { intros i full Ii ES. destruct (t_good _ _ _ _ _ _ _ _ _ _ _ _ T i Ii) as (_ & _ & (_ & _ & _ & _ & _ & D) & _). rewrite ES in D. rewrite EQ in D. rewrite D. f_equal. apply ME. exact Ii. }
  split.
  { intros i Ii LF. unfold left_handoff in LF. split; [apply (t_cnt _ _ _ _ _ _ _ _ _ _ _ _ T i Ii); lia|].
    exists (filter (fun k => match d_share (m_d n k) with Some _ => true | None => false end) hon). split; [intros k K; apply filter_In in K; apply K|]. split; [apply NoDup_filter; exact ND|]. split.
    - pose proof (t_suc _ _ _ _ _ _ _ _ _ _ _ _ T i Ii) as TS. rewrite (suc_bad i bad) in TS.
      assert (X : forall l, length (filter (fun k => match d_share (m_d n k) with Some _ => true | None => false end) l) = StageNet.total (fun k => has (m_d n k)) l).
      { clear. induction l as [|a l IH]; [reflexivity|]. cbn [filter]. unfold StageNet.total in *. cbn [map]. unfold list_sum in *. cbn [fold_right]. rewrite <- IH. unfold has at 1. destruct (d_share (m_d n a)); reflexivity. }
      rewrite X. lia.
    - intros k K. apply filter_In in K. destruct K as (_ & K). destruct (d_share (m_d n k)); discriminate. }
  split.
  - intros Q i Ii. destruct (quiet_end cd party_secret ps CQ B (bsub B' B) hon cor bad N F HC HPS HB HS HO HL HV HN HH ND HF HX HBAD HONCE n E T Q i Ii) as (A1 & A2). rewrite EQ in A1. split; assumption.
  - exact (to_dquiet cd party_secret ps CQ B (bsub B' B) hon cor bad N F HC HPS HB HS HO HL HV HN HH ND HF HX _ n E (le_n _) T).
Qed.
Print Assumptions c82_finish.

(** Both stages: the corrupted members take part in the first, and then, with what they have learned of B', in the
    second; with orders of delivery as in C77 the handoff comes to its end, with the same secret. *)
Theorem c82_good_order : forall cd N F ps QB sg sigok combine hon cor pubs dat bad n1 B K, codec_ok cd ->
  committee party_secret N F ps QB sg sigok hon -> corrupted cd party_secret N F ps QB hon cor pubs dat bad -> starts cd ps (dealt F QB) hon n1 -> bdeg F (2 * F) B ->
  (forall i, In i hon -> p_reducedShare (ps i) = secy B (of_nat i) /\ holds_commitments B (ps i)) ->
  incl K hon -> NoDup K -> length K = (F + 1)%nat ->
  exists evs n, nruns cd ps sg sigok combine hon (mkNet (n_v n1) (n_votes n1) (n_post n1 ++ bad)) evs n /\ (forall i, In i hon -> agreeing F n i) /\
  forall l later, In l hon -> (forall i, In i hon -> exists evs' n', nruns cd ps sg sigok combine hon n evs' n' /\ later i = v_st (n_v n' i)) ->
  exists B' share CQsum, bdeg F (2 * F) B' /\ beval B' 0 0 = beval B 0 0 /\
    (forall x y, beval B' x y = beval B x y + PropertiesRefresh.total QB (map Z.of_nat K) x y) /\
    (forall i, In i hon -> Refresh (ps i) (later i) (given n l) = Ret (Some (share i, CQsum i)) /\ share i = secy B' (of_nat i)) /\
    forall cor' bad', meddling cd party_secret N B' hon cor' bad' ->
      finishes_with cd F (fun i => set_reducedShare (ps i) (share i)) CQsum hon bad' B'.
Proof.
  intros cd N F ps QB sg sigok combine hon cor pubs dat bad n1 B K HC C A S0 HB HR K1 K2 K3. pose proof C as (C1 & C2 & C3 & C4 & C5 & C6 & C7 & C8).
  destruct (good_orderb cd N F ps QB sg sigok combine hon cor pubs dat bad n1 B K HC C A S0 HB HR K1 K2 K3) as (evs & n & R & G & H).
  exists evs, n. split; [exact R|]. split; [exact G|]. intros l later Il HL. destruct (H l later Il HL) as (B' & share & CQsum & D1 & D2 & D3 & D4 & D5).
  exists B', share, CQsum. refine (conj D1 (conj D2 (conj D3 (conj D4 _)))). intros cor' bad' M.
  exact (c82_finish cd N F _ _ hon cor' bad' B B' HC (conj C4 (conj C5 (conj C6 C8))) HB D1 D5 M).
Qed.
Print Assumptions c82_good_order.

(** N = 4, F = 1, member 3 corrupted in both stages.  In the second it broadcasts a point that is not the commitment, sends
    a false value to member 1 and Success, without a share, to members 1 and 2.  Members 1, 2 and 4 get their shares all
    the same. *)
Definition exbad2 (cd : g1codec) : list dpacket :=
  let z := ToCompressedG1 cd ZeroG1 in
  [QCommit 3 1 z; QCommit 3 2 z; QCommit 3 4 z; QShare 3 1 (mkSD (FrTo32 0) z); QSuccess 3 1; QSuccess 3 2].

Lemma ex_meddling cd B' : codec_ok cd -> beval B' party_secret (of_nat 3) <> 0 -> meddling cd party_secret 4 B' [1; 2; 4]%nat [3]%nat (exbad2 cd).
Proof.
  intros HC NZ. assert (DEC : forall b, b = ToCompressedG1 cd ZeroG1 -> FromCompressedG1 cd b = Some ZeroG1) by (intros b ->; apply HC). constructor.
  - intros k [<-|[]]. split; [lia|]. cbn [In]. lia.
  - intros x [<-|[<-|[<-|[<-|[<-|[<-|[]]]]]]]; cbn [In]; try tauto.
    1,2,3: split; [tauto|]; split; [tauto|]; rewrite (DEC _ eq_refl); discriminate.
    split; [tauto|]. split; [tauto|]. exists ZeroG1. split; [apply DEC; reflexivity|]. cbn [sd_B]. rewrite read_back. intros X. destruct NZ. cbn [ZeroG1 dlog1] in X.
    transitivity (beval B' party_secret (of_nat 3) - 0); [ring|]. rewrite X. ring.
  - intros i Ii. cbn [shares_to exbad2 flat_map]. destruct (1 =? i)%nat; repeat constructor. intros [].
Qed.

Example c82_ex : exists ps n1 B', let B := [[of_nat 7; 0]; [0; of_nat 3]; [1; 0]] in
  committee party_secret 4 1 ps (fun _ => xy) (fun _ _ => [7%Z]) (fun _ _ => true) [1; 2; 4]%nat /\
  corrupted demo_codec party_secret 4 1 ps (fun _ => xy) [1; 2; 4]%nat [3]%nat [1; 2; 4; 3]%nat (exdat demo_codec) (exbad demo_codec) /\
  starts demo_codec ps (dealt 1 (fun _ => xy)) [1; 2; 4]%nat n1 /\ bdeg 1 2 B /\
  (forall i, In i [1; 2; 4]%nat -> p_reducedShare (ps i) = secy B (of_nat i) /\ holds_commitments B (ps i)) /\
  meddling demo_codec party_secret 4 B' [1; 2; 4]%nat [3]%nat (exbad2 demo_codec) /\ beval B' 0 0 = of_nat 7 /\
  exists evs n share CQsum m0 evs' m,
    nruns demo_codec ps (fun _ _ => [7%Z]) (fun _ _ => true) (fun _ _ => []) [1; 2; 4]%nat (mkNet (n_v n1) (n_votes n1) (n_post n1 ++ exbad demo_codec)) evs n /\
    (forall i, In i [1; 2; 4]%nat -> Refresh (ps i) (v_st (n_v n i)) (given n 1) = Ret (Some (share i, CQsum i))) /\
    dist_starts demo_codec (fun i => set_reducedShare (ps i) (share i)) [1; 2; 4]%nat m0 /\
    dnruns demo_codec (fun i => set_reducedShare (ps i) (share i)) CQsum 1 [1; 2; 4]%nat (mkDnet (m_d m0) (m_count m0) (m_post m0 ++ exbad2 demo_codec)) evs' m /\
    forall i, In i [1; 2; 4]%nat -> d_share (m_d m i) = Some (secx B' (of_nat i)) /\ left_handoff 1 m i.
Proof.
  destruct c76_ex as (ps & n0 & CM0 & _ & HB & HR & _). cbv zeta. fold xy in CM0.
  assert (SUB : forall i, In i [1; 2; 4]%nat -> In i (seq 1 4)) by (intros i [<-|[<-|[<-|[]]]]; apply in_seq; lia).
  assert (CM : committee party_secret 4 1 ps (fun _ => xy) (fun _ _ => [7%Z]) (fun _ _ => true) [1; 2; 4]%nat).
  { destruct CM0 as (C1 & C2 & C3 & C4 & C5 & C6 & C7 & C8). split; [intros i Ii; apply C1, SUB, Ii|]. split; [exact C2|]. split; [intros i Ii; exact (C3 i (SUB i Ii))|]. split; [exact C4|].
    split; [intros i Ii; apply C5, SUB, Ii|]. split; [repeat constructor; cbn [In]; lia|]. split; [reflexivity|]. cbn [length]. lia. }
  destruct (stage_start demo_codec _ _ _ _ _ _ _ _ CM) as (n1 & S0). pose proof (ex_corrupted demo_codec ps demo_codec_ok CM) as A.
  assert (HR' : forall i, In i [1; 2; 4]%nat -> p_reducedShare (ps i) = secy [[of_nat 7; 0]; [0; of_nat 3]; [1; 0]] (of_nat i) /\ holds_commitments [[of_nat 7; 0]; [0; of_nat 3]; [1; 0]] (ps i)).
  { intros i Ii. apply HR. destruct Ii as [<-|[<-|[<-|[]]]]; lia. }
  destruct (c82_good_order demo_codec 4 1 ps _ _ _ (fun _ _ => []) _ _ _ _ _ n1 _ [2; 4]%nat demo_codec_ok CM A S0 HB HR') as (evs & n & R & AG & G).
  - intros k [<-|[<-|[]]]; cbn [In]; tauto.
  - repeat constructor; cbn [In]; lia.
  - reflexivity.
  - destruct (G 1%nat (fun i => v_st (n_v n i)) ltac:(cbn [In]; tauto)) as (B' & share & CQsum & D1 & D2 & D3 & D4 & D5).
    { intros i _. exists [], n. split; [constructor|reflexivity]. }
    assert (NZ : beval B' party_secret (of_nat 3) <> 0).
    { rewrite D3. intros X. apply (f_equal fv) in X. vm_compute in X. discriminate. }
    pose proof (ex_meddling demo_codec B' demo_codec_ok NZ) as M.
    assert (ST : exists m0, dist_starts demo_codec (fun i => set_reducedShare (ps i) (share i)) [1; 2; 4]%nat m0).
    { apply (dist_start demo_codec 4 1 _ [1; 2; 4]%nat B' D1). intros i Ii. destruct CM as (C1 & _). destruct (C1 i Ii) as (W & EN & EF & _).
      exact (conj W (conj EN (conj EF (proj2 (D4 i Ii))))). }
    destruct ST as (m0 & ST). destruct (D5 _ _ M m0 [] _ ST (dr_nil _ _ _ _ _ _)) as (_ & _ & _ & _ & _ & evs' & m & R' & Q').
    exists ps, n1, B'. split; [exact CM|]. split; [exact A|]. split; [exact S0|]. split; [exact HB|]. split; [exact HR'|]. split; [exact M|].
    split; [rewrite D2; unfold beval; cbn [secy map peval]; ring|].
    exists evs, n, share, CQsum, m0, evs', m. split; [exact R|]. split; [intros i Ii; apply (D4 i Ii)|]. split; [exact ST|]. split; [exact R'|].
    destruct (D5 _ _ M m0 evs' m ST R') as (_ & _ & _ & _ & L & _). exact (L Q').
Qed.
