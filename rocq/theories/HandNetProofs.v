(** Proofs about HandNetModel.v. *)

Require Import ZArith List Bool Arith Lia Permutation.
From Verif Require Import Prime Fr GoBase Poly PolyModel PolyProofs Biv BivProofs GroupModel KzgModel KzgProofs.
From Verif Require Import CodecModel CodecProofs PartyModel PartySpec VssModel VssProofs VssProofs2.
From Verif Require Import ReduceModel ReduceProofs PropertiesVss PropertiesReduce PropertiesDist StageModel ProacLinks DistNetProofs HandNetModel.
Import ListNotations.
Local Open Scope F_scope.

(** ** Loops and longer lists *)

Lemma sr_loop_app cd p l' : forall l st q, sr_loop cd p st (l ++ l') = Ret (Some q) ->
  sr_loop cd p st l = Ret None \/ sr_loop cd p st l = Ret (Some q).
Proof.
  induction l as [|d l IH]; intros st q E; cbn [app sr_loop] in *; [auto|].
  destruct (sr_step cd p st d) as [[st'|pts]| | |]; cbn [bind] in *; try discriminate; eauto.
Qed.

Lemma red_app cd p l l' q : ShareReduceReceive cd p (l ++ l') = Ret (Some q) ->
  ShareReduceReceive cd p l = Ret None \/ ShareReduceReceive cd p l = Ret (Some q).
Proof.
  unfold ShareReduceReceive. intros E.
  destruct (sr_loop cd p sr_init (l ++ l')) as [[pts|]| | |] eqn:EL; cbn [bind] in E; try discriminate.
  destruct (sr_loop_app cd p l' l sr_init pts EL) as [-> | ->]; cbn [bind]; auto.
Qed.

Lemma prep_loop_app hash F l' : forall l mp d, prep_loop hash F mp (l ++ l') = Some d ->
  prep_loop hash F mp l = None \/ prep_loop hash F mp l = Some d.
Proof.
  induction l as [|a l IH]; intros mp d E; cbn [app prep_loop] in *; [auto|].
  destruct (prep_step hash F mp a) as [mp'|d']; auto.
Qed.

Lemma prep_app hash parse cd p l l' q : PrepareReceive hash parse cd p (l ++ l') = Ret (Some q) ->
  PrepareReceive hash parse cd p l = Ret None \/ PrepareReceive hash parse cd p l = Ret (Some q).
Proof.
  unfold PrepareReceive. intros E. destruct (prep_loop hash (p_F p) [] (l ++ l')) as [d|] eqn:EL; [|discriminate].
  destruct (prep_loop_app hash (p_F p) l' l [] d EL) as [-> | ->]; auto.
Qed.

Lemma nd_app {A} (l l' : list A) : NoDup l -> NoDup l' -> (forall x, In x l -> ~ In x l') -> NoDup (l ++ l').
Proof.
  induction l as [|a l IH]; intros H H' D; [exact H'|]. apply NoDup_cons_iff in H. destruct H as (N & H). cbn [app]. constructor.
  - intros Hin. apply in_app_or in Hin. destruct Hin as [Hin|Hin]; [auto|]. apply (D a); [left; reflexivity|exact Hin].
  - apply IH; auto. intros x Hx. apply D. right. exact Hx.
Qed.

(** ** Completing a list of messages by the missing ones *)

Definition missing {A} (hold : list nat) (hm : nat -> A) (t : list (nat * A)) : list (nat * A) :=
  map (fun k => (k, hm k)) (filter (fun k => negb (existsb (Nat.eqb k) (map fst t))) hold).

Lemma existsb_nat k l : existsb (Nat.eqb k) l = true <-> In k l.
Proof.
  rewrite existsb_exists. split.
  - intros (x & Hx & E). apply Nat.eqb_eq in E. congruence.
  - intros H. exists k. split; [exact H|apply Nat.eqb_refl].
Qed.

Lemma missing_in {A} hold (hm : nat -> A) t k m : In (k, m) (missing hold hm t) -> In k hold /\ ~ In k (map fst t) /\ m = hm k.
Proof.
  unfold missing. intros H. apply in_map_iff in H. destruct H as (j & E & H). injection E as -> <-. apply filter_In in H.
  destruct H as (H & N). apply negb_true_iff in N. rewrite <- not_true_iff_false, existsb_nat in N. auto.
Qed.

Lemma missing_nodup {A} hold (hm : nat -> A) t : NoDup hold -> NoDup (map fst t) -> NoDup (map fst (t ++ missing hold hm t)).
Proof.
  intros H1 H2. rewrite map_app. unfold missing. rewrite map_map. cbn [fst]. rewrite map_id.
  apply nd_app; auto.
  - apply NoDup_filter. exact H1.
  - intros k Hk Hf. apply filter_In in Hf. destruct Hf as (_ & N). apply negb_true_iff in N. rewrite <- not_true_iff_false, existsb_nat in N. auto.
Qed.

Lemma missing_all {A} hold (hm : nat -> A) t k : In k hold -> In k (map fst (t ++ missing hold hm t)).
Proof.
  intros H. rewrite map_app. unfold missing. rewrite map_map. cbn [fst]. rewrite map_id. apply in_or_app.
  destruct (existsb (Nat.eqb k) (map fst t)) eqn:E.
  - left. apply existsb_nat. exact E.
  - right. apply filter_In. rewrite E. auto.
Qed.

Lemma missing_none {A} hold (hm : nat -> A) t : incl hold (map fst t) -> missing hold hm t = [].
Proof.
  intros H. unfold missing. replace (filter _ hold) with (@nil nat); [reflexivity|]. symmetry.
  induction hold as [|k l IH]; [reflexivity|]. cbn [filter].
  replace (existsb (Nat.eqb k) (map fst t)) with true; [cbn [negb]; apply IH; intros x Hx; apply H; right; exact Hx|].
  symmetry. apply existsb_nat. apply H. left. reflexivity.
Qed.

Definition zof (k : nat) : Z := Z.of_nat (k - 1).

Lemma zof_inj k j : (1 <= k)%nat -> (1 <= j)%nat -> zof k = zof j -> k = j.
Proof. unfold zof. lia. Qed.

Lemma from_fst {A} (t : list (nat * A)) : map fst (map from t) = map zof (map fst t).
Proof. rewrite !map_map. reflexivity. Qed.

Lemma nodup_zof l : (forall k, In k l -> (1 <= k)%nat) -> NoDup l -> NoDup (map zof l).
Proof.
  intros H ND. induction ND as [|k l N ND IH]; cbn [map]; constructor.
  - intros Hin. apply in_map_iff in Hin. destruct Hin as (j & E & Hj). apply zof_inj in E; [subst; auto| |]; apply H; cbn; auto.
  - apply IH. intros j Hj. apply H. right. exact Hj.
Qed.

(** F+1 messages are not from corrupted members. *)
Lemma enough_good {A} F hold cor (t : list (nat * A)) : NoDup hold -> (F + 1 <= length hold)%nat ->
  (forall k, In k hold -> (1 <= k)%nat /\ ~ In k cor) -> (forall k, In k cor -> (1 <= k)%nat) -> incl hold (map fst t) ->
  (F + 1 <= length (filter (fun d => negb (existsb (Z.eqb (fst d)) (map zof cor))) (map from t)))%nat.
Proof.
  intros ND HF HH HK HI. transitivity (length (map zof hold)); [rewrite map_length; exact HF|].
  rewrite <- (map_length fst (filter _ _)). apply NoDup_incl_length.
  - apply nodup_zof; [intros k Hk; apply HH; exact Hk|exact ND].
  - intros z Hz. apply in_map_iff in Hz. destruct Hz as (k & <- & Hk). specialize (HI k Hk). apply in_map_iff in HI.
    destruct HI as ((k' & m) & E & Hin). cbn [fst] in E. subst k'. apply in_map_iff. exists (from (k, m)). split; [reflexivity|].
    apply filter_In. split; [apply in_map; exact Hin|]. cbn [from fst]. apply negb_true_iff. apply not_true_iff_false.
    intros E. apply existsb_exists in E. destruct E as (z & Hz & E). apply Z.eqb_eq in E. subst z. apply in_map_iff in Hz.
    destruct Hz as (j & E & Hj). apply zof_inj in E; [|auto|apply HH; exact Hk]. subst j. apply (proj2 (HH k Hk)). exact Hj.
Qed.

(** ** Replacing one member's part *)

Lemma perm_one {A} (f g : nat -> list A) k : forall l, NoDup l -> In k l -> (forall j, j <> k -> g j = f j) ->
  Permutation (f k ++ flat_map g l) (g k ++ flat_map f l).
Proof.
  induction l as [|j l IH]; intros ND Hin HE; [destruct Hin|]. apply NoDup_cons_iff in ND. destruct ND as (N & ND). cbn [flat_map].
  destruct (Nat.eq_dec j k) as [-> |NE].
  - assert (E : flat_map g l = flat_map f l).
    { clear -N HE. induction l as [|j l IH]; [reflexivity|]. cbn [flat_map]. rewrite HE, IH; [reflexivity|intros H; apply N; right; exact H|].
      intros ->. apply N. left. reflexivity. }
    rewrite E, !app_assoc. apply Permutation_app_tail, Permutation_app_comm.
  - destruct Hin as [E|Hin]; [contradiction|]. rewrite (HE j NE). rewrite !app_assoc.
    rewrite (Permutation_app_comm (f k) (f j)), (Permutation_app_comm (g k) (f j)). rewrite <- !app_assoc.
    apply Permutation_app_head. apply IH; auto.
Qed.

Lemma put_same {A} (f : nat -> A) i a : put f i a i = a.
Proof. unfold put. rewrite Nat.eqb_refl. reflexivity. Qed.

Lemma put_other {A} (f : nat -> A) i a j : j <> i -> put f i a j = f j.
Proof. intros H. unfold put. destruct (Nat.eqb_spec j i); [contradiction|reflexivity]. Qed.

Definition key (x : hpacket) : nat * nat * nat :=
  match x with PVss i _ => (0, 0, i) | PPrep k i _ => (1, k, i) | PRed k i _ => (2, k, i) end%nat.

Lemma nodup_flat {A B} (h : A -> B) (f : nat -> list A) i l : NoDup (map h (flat_map f l)) -> In i l -> NoDup (map h (f i)).
Proof.
  induction l as [|j l IH]; intros ND Hin; [destruct Hin|]. cbn [flat_map] in ND. rewrite map_app in ND.
  destruct Hin as [-> |Hin]; [apply ProacLinks.NoDup_app_l in ND|apply NoDup_app_r in ND]; auto.
Qed.

(** ** The network *)

Section Net.
Variable cd : g1codec.
Hypothesis HC : codec_ok cd.
Variable hash : list Z -> list Z.
Variable ser : list (list Z) -> list Z.
Variable parse : list Z -> list (list Z).
Hypothesis HS : forall l, parse (ser l) = l.
Variables N F : nat.
Variable B : list (list Fr).
Hypothesis HB : bdeg F (2 * F) B.
Hypothesis HN : (Z.of_nat N < 2 ^ 32)%Z.
Variables os ns : nat -> Party.
Variables hold cor new : list nat.
Hypothesis Hhold : forall k, In k hold -> (1 <= k <= N)%nat /\ ~ In k cor.
Hypothesis Hcor : forall k, In k cor -> (1 <= k <= N)%nat.
Hypothesis NDhold : NoDup hold.
Hypothesis Lhold : (F + 1 <= length hold)%nat.
Hypothesis Lcor : (length cor <= F)%nat.
Hypothesis Hnew : forall i, In i new -> (1 <= i <= N)%nat.
Hypothesis NDnew : NoDup new.
Hypothesis Hns : forall i, In i new -> party_wf party_secret (ns i) /\ p_N (ns i) = N /\ p_F (ns i) = F /\ p_PID (ns i) = (i - 1)%nat.
Variable bad : list hpacket.
Hypothesis NDbad : NoDup (map key bad).
Hypothesis Hbad : forall x, In x bad ->
  match x with
  | PVss _ _ => False
  | PPrep k i d => In k cor /\ In i new /\ forall p l, ready N F B p -> PrepareSend cd p = Ret l -> hash d = hash (ser l) -> d = ser l
  | PRed k i m => In k cor /\ In i new /\ FromCompressedG1 cd (sr_C m) <> None /\ FromCompressedG1 cd (sr_W m) <> None /\
      forall C w v, CommitToPoly (p_KZG (ns i)) (secy B (of_nat i)) = Ret C ->
        FromCompressedG1 cd (sr_C m) = Some C -> FromCompressedG1 cd (sr_W m) = Some w ->
        CheckProofSingle (p_KZG (ns i)) C w (of_nat k) v = Ret true -> v = beval B (of_nat k) (of_nat i)
  end.
(** The client's messages, and the members that still wait for them at the beginning. *)
Variable vm : nat -> VSSSendMsg.
Variable old0 : nat -> option Party.
Hypothesis Hvss : forall k, In k hold -> old0 k = None ->
  exists b p, VSSShareReceive cd (os k) (vm k) = Ret (b, p) /\ ready N F B p /\ p_PID p = (k - 1)%nat.
(** Somebody is or will be ready. *)
Hypothesis Hsome : forall k, In k hold -> exists p, ready N F B p /\ p_PID p = (k - 1)%nat.

Definition pdata : list Z := ser ([] :: map (fun j => ToCompressedG1 cd (mkG1 (peval (secx B party_secret) (of_nat j)))) (seq 1 (2 * F + 1))).
Definition rmsg (i k : nat) : ShareReduceMsg := hmsg cd party_secret B (of_nat k) (of_nat i).
Definition outs (k : nat) : list hpacket := flat_map (fun l => [PPrep k l pdata; PRed k l (rmsg l k)]) new.
Definition univ : list hpacket := map (fun k => PVss k (vm k)) hold ++ flat_map outs hold ++ bad.

Lemma ready_prep p : ready N F B p -> exists l, PrepareSend cd p = Ret l /\ ser l = pdata.
Proof.
  intros (W & _ & EF & _ & HH & _). eexists. split; [apply (prepare_send_correct cd party_secret B p W HH)|]. rewrite EF. reflexivity.
Qed.

Lemma ready_red p k i : ready N F B p -> p_PID p = (k - 1)%nat -> (1 <= k)%nat -> (1 <= i <= N)%nat ->
  exists ms, ShareReduceSend cd p = Ret ms /\ nth_error ms (i - 1) = Some (rmsg i k).
Proof.
  intros RD EP Hk Hi. destruct (ready_send cd N F B p (i - 1) RD ltac:(lia)) as (ms & E & E'). exists ms. split; [exact E|].
  rewrite EP in E'. replace (k - 1 + 1)%nat with k in E' by lia. replace (i - 1 + 1)%nat with i in E' by lia. exact E'.
Qed.

Lemma hands_over_ok p k : ready N F B p -> p_PID p = (k - 1)%nat -> (1 <= k)%nat -> hands_over cd ser new k p = Ret (outs k).
Proof.
  intros RD EP Hk. unfold hands_over. destruct (ready_prep p RD) as (l & -> & El). cbn [bind].
  assert (E : exists ms, ShareReduceSend cd p = Ret ms).
  { pose proof RD as (_ & _ & _ & HP & _). destruct (ready_send cd N F B p _ RD HP) as (ms & E & _). exists ms. exact E. }
  destruct E as (ms & E). rewrite E. cbn [bind]. f_equal. unfold outs. rewrite El.
  assert (G : forall l, In l new -> nth (l - 1) ms (mkSR [] [] []) = rmsg l k).
  { intros i Hi. destruct (ready_red p k i RD EP Hk (Hnew i Hi)) as (ms' & E1 & E2). rewrite E in E1. injection E1 as <-.
    apply nth_error_nth. exact E2. }
  clear -G. induction new as [|i l0 IH]; [reflexivity|]. cbn [flat_map]. rewrite G by (left; reflexivity).
  rewrite IH; [reflexivity|]. intros j Hj. apply G. right. exact Hj.
Qed.

Lemma outs_in k x : In x (outs k) <-> exists l, In l new /\ (x = PPrep k l pdata \/ x = PRed k l (rmsg l k)).
Proof.
  unfold outs. rewrite in_flat_map. split.
  - intros (l & Hl & [<- |[<- |[]]]); exists l; auto.
  - intros (l & Hl & [-> | ->]); exists l; cbn; auto.
Qed.

Lemma univ_in x : In x univ ->
  match x with
  | PVss k m => In k hold /\ m = vm k
  | PPrep k i d => In i new /\ (In k hold /\ d = pdata \/ In x bad)
  | PRed k i m => In i new /\ (In k hold /\ m = rmsg i k \/ In x bad)
  end.
Proof.
  unfold univ. intros H. apply in_app_or in H. destruct H as [H|H].
  - apply in_map_iff in H. destruct H as (k & <- & H). auto.
  - apply in_app_or in H. destruct H as [H|H].
    + apply in_flat_map in H. destruct H as (k & Hk & H). apply outs_in in H. destruct H as (l & Hl & [-> | ->]); auto.
    + pose proof (Hbad x H). destruct x; tauto.
Qed.

Lemma univ_nodup : NoDup (map key univ).
Proof.
  unfold univ. rewrite !map_app. apply nd_app; [|apply nd_app; [|exact NDbad|]|].
  - rewrite map_map. cbn [key]. clear -NDhold. induction NDhold as [|k l NI ND IH]; cbn [map]; [constructor|]. constructor; [|exact (IH ND)].
    intros H. apply in_map_iff in H. destruct H as (j & E & H). injection E as ->. contradiction.
  - clear -NDhold NDnew. induction NDhold as [|k l N ND IH]; cbn [flat_map]; [constructor|]. rewrite map_app. apply nd_app; [|exact (IH ND)|].
    + unfold outs. clear -NDnew. induction NDnew as [|i l N ND IH]; cbn [flat_map map app]; [constructor|].
      assert (NI : forall c, ~ In (c, k, i) (map key (flat_map (fun l => [PPrep k l pdata; PRed k l (rmsg l k)]) l))).
      { intros c H. apply in_map_iff in H. destruct H as (x & E & H). apply in_flat_map in H. destruct H as (j & Hj & [<- |[<- |[]]]);
          cbn [key] in E; injection E as _ ->; contradiction. }
      constructor; [|constructor; [apply NI|exact (IH ND)]]. intros [E|H]; [discriminate|]. apply (NI 1%nat). exact H.
    + intros y Hy Hy'. apply in_map_iff in Hy. destruct Hy as (x & <- & Hx). apply in_map_iff in Hy'. destruct Hy' as (x' & E & Hx').
      apply in_flat_map in Hx'. destruct Hx' as (j & Hj & Hx'). apply outs_in in Hx. apply outs_in in Hx'.
      destruct Hx as (a & _ & [-> | ->]), Hx' as (b & _ & [-> | ->]); cbn [key] in E; injection E as -> _ || discriminate; contradiction.
  - intros y Hy Hy'. apply in_map_iff in Hy. destruct Hy as (x & <- & Hx). apply in_map_iff in Hy'. destruct Hy' as (x' & E & Hx').
    apply in_flat_map in Hx. destruct Hx as (k & Hk & Hx). apply outs_in in Hx. pose proof (Hbad x' Hx') as HB'.
    destruct (Hhold k Hk) as (_ & NC).
    destruct Hx as (a & _ & [-> | ->]), x' as [i m|k' i d|k' i m]; cbn [key] in E; try discriminate; injection E as -> _; destruct HB' as (HB' & _);
      contradiction.
  - intros y Hy Hy'. apply in_map_iff in Hy. destruct Hy as (x & <- & Hx). apply in_map_iff in Hx. destruct Hx as (k & <- & _).
    cbn [key] in Hy'. rewrite <- map_app in Hy'. apply in_map_iff in Hy'. destruct Hy' as (x' & E & Hx'). apply in_app_or in Hx'.
    destruct x' as [i m|k' i d|k' i m]; cbn [key] in E; try discriminate. destruct Hx' as [Hx'|Hx'].
    + apply in_flat_map in Hx'. destruct Hx' as (j & _ & Hx'). apply outs_in in Hx'. destruct Hx' as (a & _ & [? | ?]); discriminate.
    + apply (Hbad _ Hx').
Qed.

(** *** The receiving loops on the messages of the network *)

Definition prep_of (i : nat) (x : nat * list Z) : hpacket := PPrep (fst x) i (snd x).
Definition red_of (i : nat) (x : nat * ShareReduceMsg) : hpacket := PRed (fst x) i (snd x).

(** The member that has the commitments, and the one that has its share. *)
Definition prepared (i : nat) (p : Party) : Prop :=
  party_wf party_secret p /\ p_N p = N /\ p_F p = F /\ p_PID p = (i - 1)%nat /\ p_KZG p = p_KZG (ns i) /\ holds_commitments B p.
Definition reduced (i : nat) (p : Party) : Prop :=
  party_wf party_secret p /\ p_N p = N /\ p_F p = F /\ p_PID p = (i - 1)%nat /\ p_reducedShare p = secy B (of_nat i) /\
  holds_commitments B p.

Lemma snd_from {A} (t : list (nat * A)) : map snd (map from t) = map snd t.
Proof. rewrite map_map. reflexivity. Qed.

Lemma prep_ok i t : In i new -> incl (map (prep_of i) t) univ -> NoDup (map fst t) ->
  exists p, prepared i p /\
    (PrepareReceive hash parse cd (ns i) (map snd t) = Ret None \/ PrepareReceive hash parse cd (ns i) (map snd t) = Ret (Some p)) /\
    (incl hold (map fst t) -> PrepareReceive hash parse cd (ns i) (map snd t) = Ret (Some p)).
Proof.
  intros Hi HU ND. destruct (Hns i Hi) as (W & EN & EF & EP).
  set (t' := t ++ missing hold (fun _ => pdata) t).
  assert (IN : forall k d, In (k, d) t' -> In k hold /\ d = pdata \/ In (PPrep k i d) bad).
  { intros k d H. apply in_app_or in H. destruct H as [H|H].
    - assert (G : In (PPrep k i d) univ). { apply HU. apply in_map_iff. exists (k, d). auto. }
      apply univ_in in G. tauto.
    - apply missing_in in H. tauto. }
  destruct (c22_prepare hash ser parse cd N F B (ns i) (map zof cor) (map from t') HC HS W EF HB) as
    (p & E & E1 & E2 & E3 & E4 & E5 & E6 & E7 & E8 & E9 & E10 & E11).
  - rewrite from_fst. apply nodup_zof; [|apply missing_nodup; assumption]. intros k Hk. apply in_map_iff in Hk.
    destruct Hk as ((k' & d) & E & Hk). cbn in E. subst k'. destruct (IN k d Hk) as [(Hh & _)|Hb]; [apply Hhold; exact Hh|].
    apply Hcor. apply (Hbad _ Hb).
  - rewrite map_length. exact Lcor.
  - intros z d H NB. apply in_map_iff in H. destruct H as ((k & d') & E & H). unfold from in E. cbn in E. injection E as <- <-.
    destruct (IN k d' H) as [(Hh & ->)|Hb].
    + destruct (Hsome k Hh) as (p & RD & PD). destruct (ready_prep p RD) as (l & El & Es). exists p, l. rewrite PD. auto.
    + exfalso. apply NB. apply (in_map zof). apply (Hbad _ Hb).
  - intros z d p l H RD EL EH. apply in_map_iff in H. destruct H as ((k & d') & E & H). unfold from in E. cbn in E. injection E as <- <-.
    destruct (IN k d' H) as [(Hh & ->)|Hb].
    + destruct (ready_prep p RD) as (l' & El & Es). rewrite EL in El. injection El as <-. auto.
    + pose proof (Hbad _ Hb) as (_ & _ & G). apply (G p l); auto.
  - apply (enough_good F hold cor); auto.
    + intros k Hk. destruct (Hhold k Hk) as (? & ?). split; [lia|assumption].
    + intros k Hk. apply Hcor in Hk. lia.
    + intros k Hk. apply missing_all. exact Hk.
  - exists p. rewrite snd_from in E. split; [|split].
    + destruct W as (W1 & W2 & W3 & W4 & W5 & W6 & W7 & W8 & W9).
      assert (PF : p_F p = F) by congruence. assert (PN : p_N p = N) by congruence.
      split; [|split; [congruence|split; [congruence|split; [congruence|split; [exact E4|]]]]].
      * unfold party_wf. rewrite E1, E2, E4, E5, E6, E8, E9, E10.
        exact (conj W1 (conj W2 (conj W3 (conj W4 (conj W5 (conj W6 (conj W7 (conj W8 W9)))))))).
      * intros j Hj. apply E11. lia.
    + unfold t' in E. rewrite map_app in E. apply prep_app in E. exact E.
    + intros HI. unfold t' in E. rewrite (missing_none hold _ t HI), app_nil_r in E. exact E.
Qed.

Lemma red_ok i p t : In i new -> prepared i p -> incl (map (red_of i) t) univ -> NoDup (map fst t) ->
  exists p', reduced i p' /\
    (ShareReduceReceive cd p (map from t) = Ret None \/ ShareReduceReceive cd p (map from t) = Ret (Some p')) /\
    (incl hold (map fst t) -> ShareReduceReceive cd p (map from t) = Ret (Some p')).
Proof.
  intros Hi (W & EN & EF & EP & EK & HH) HU ND. pose proof (Hnew i Hi) as Ri.
  set (t' := t ++ missing hold (rmsg i) t).
  assert (IN : forall k m, In (k, m) t' -> In k hold /\ m = rmsg i k \/ In (PRed k i m) bad).
  { intros k m H. apply in_app_or in H. destruct H as [H|H].
    - assert (G : In (PRed k i m) univ). { apply HU. apply in_map_iff. exists (k, m). auto. }
      apply univ_in in G. tauto.
    - apply missing_in in H. tauto. }
  assert (RK : forall k m, In (k, m) t' -> (1 <= k <= N)%nat).
  { intros k m Hk. destruct (IN k m Hk) as [(Hh & _)|Hb]; [apply Hhold; exact Hh|]. apply Hcor. apply (Hbad _ Hb). }
  assert (Eq : (i - 1 + 1)%nat = i) by lia.
  assert (CO : forall k m, In (k, m) t' -> In (zof k) (map zof cor) -> In k cor).
  { intros k m H H'. apply in_map_iff in H'. destruct H' as (j & E & Hj). apply zof_inj in E; [subst j; exact Hj|apply Hcor in Hj; lia|].
    apply RK in H. lia. }
  assert (FR : forall z m, In (z, m) (map from t') -> exists k, z = zof k /\ In (k, m) t').
  { intros z m H. apply in_map_iff in H. destruct H as ((k & m') & E & H). unfold from in E. cbn in E. injection E as <- <-. exists k. auto. }
  assert (OF : forall k m, In (k, m) t' -> of_Z (zof k + 1) = of_nat k).
  { intros k m H. apply RK in H. unfold zof, of_nat. f_equal. lia. }
  destruct (c21_robust cd N F B (i - 1) p (map zof cor) (map from t') HC HN ltac:(lia) W EF HB) as (p' & E & SB).
  - intros z m H. destruct (FR z m H) as (k & -> & H'). apply RK in H'. unfold zof. lia.
  - rewrite from_fst. apply nodup_zof; [|apply missing_nodup; assumption]. intros k Hk. apply in_map_iff in Hk.
    destruct Hk as ((k' & d) & E & Hk). cbn in E. subst k'. apply RK in Hk. lia.
  - rewrite map_length. exact Lcor.
  - intros z m H NB. destruct (FR z m H) as (k & -> & H'). destruct (IN k m H') as [(Hh & ->)|Hb].
    + destruct (Hsome k Hh) as (q & RD & PD). pose proof (RK _ _ H') as Rk.
      destruct (ready_red q k i RD PD ltac:(lia) Ri) as (ms & E1 & E2). exists q, ms. rewrite PD. auto.
    + exfalso. apply NB. apply (in_map zof). apply (Hbad _ Hb).
  - intros z m H Hc. destruct (FR z m H) as (k & -> & H'). apply (CO k m H') in Hc. destruct (IN k m H') as [(Hh & _)|Hb].
    + destruct (Hhold k Hh). contradiction.
    + pose proof (Hbad _ Hb) as (_ & _ & G1 & G2 & _). auto.
  - intros z m C w v H Hc. destruct (FR z m H) as (k & -> & H'). apply (CO k m H') in Hc. rewrite (OF k m H'), Eq, EK.
    destruct (IN k m H') as [(Hh & _)|Hb].
    + destruct (Hhold k Hh). contradiction.
    + pose proof (Hbad _ Hb) as (_ & _ & _ & _ & G). apply G.
  - apply (enough_good F hold cor); auto.
    + intros k Hk. destruct (Hhold k Hk) as (? & ?). split; [lia|assumption].
    + intros k Hk. apply Hcor in Hk. lia.
    + intros k Hk. apply missing_all. exact Hk.
  - exists p'. rewrite Eq in SB. split; [|split].
    + unfold same_but_reduced in SB. subst p'. unfold set_reducedShare.
      split; [exact W|]. split; [exact EN|]. split; [exact EF|]. split; [exact EP|]. split; [reflexivity|exact HH].
    + unfold t' in E. rewrite map_app in E. apply red_app in E. exact E.
    + intros HI. unfold t' in E. rewrite (missing_none hold _ t HI), app_nil_r in E. exact E.
Qed.

(** *** The invariant *)

Definition oldpart (n : hnet) (k : nat) : list hpacket := match h_old n k with None => outs k | Some _ => [PVss k (vm k)] end.
Definition newpart (n : hnet) (i : nat) : list hpacket := map (prep_of i) (h_prep n i) ++ map (red_of i) (h_red n i).

Record hinv (n : hnet) : Prop := mkHinv {
  i_perm : Permutation (h_post n ++ flat_map (oldpart n) hold ++ flat_map (newpart n) new) univ;
  i_old : forall k, h_old n k = None -> old0 k = None;
  i_rdy : forall k p, In k hold -> h_old n k = Some p -> ready N F B p /\ p_PID p = (k - 1)%nat;
  i_prep : forall i, In i new -> PrepareReceive hash parse cd (ns i) (map snd (h_prep n i)) = Ret (h_com n i);
  i_red : forall i, In i new -> match h_com n i with
    | None => h_red n i = [] /\ h_new n i = None
    | Some p => ShareReduceReceive cd p (map from (h_red n i)) = Ret (h_new n i) end }.

Lemma inv_post n x : hinv n -> In x (h_post n) -> In x univ.
Proof. intros I H. apply (Permutation_in _ (i_perm n I)). apply in_or_app. auto. Qed.

Lemma inv_new n i : hinv n -> In i new -> incl (newpart n i) univ.
Proof.
  intros I Hi x H. apply (Permutation_in _ (i_perm n I)). apply in_or_app. right. apply in_or_app. right. apply in_flat_map. eauto.
Qed.

Lemma inv_nodup n i : hinv n -> In i new -> NoDup (map key (newpart n i)).
Proof.
  intros I Hi. pose proof (Permutation_NoDup (Permutation_sym (Permutation_map key (i_perm n I))) univ_nodup) as ND.
  rewrite !map_app in ND. apply NoDup_app_r in ND. apply NoDup_app_r in ND. exact (nodup_flat key (newpart n) i new ND Hi).
Qed.

(** After taking one more packet x. *)
Lemma inv_nodup_more n i x post : hinv n -> In i new -> Permutation (h_post n) (x :: post) -> NoDup (map key (x :: newpart n i)).
Proof.
  intros I Hi P. pose proof (Permutation_NoDup (Permutation_sym (Permutation_map key (i_perm n I))) univ_nodup) as ND.
  assert (P2 : Permutation (h_post n ++ flat_map (oldpart n) hold ++ flat_map (newpart n) new)
     ((post ++ flat_map (oldpart n) hold) ++ x :: flat_map (newpart n) new)).
  { rewrite P. cbn [app]. rewrite <- app_assoc. rewrite !(app_assoc post). apply Permutation_cons_app. reflexivity. }
  apply (Permutation_NoDup (Permutation_map key P2)) in ND. rewrite map_app in ND. apply NoDup_app_r in ND. cbn [map] in ND |- *.
  apply NoDup_cons_iff in ND. destruct ND as (ND1 & ND2). constructor; [|exact (nodup_flat key (newpart n) i new ND2 Hi)].
  intros H. apply ND1. apply in_map_iff in H. destruct H as (y & E & H). apply in_map_iff. exists y. split; [exact E|]. apply in_flat_map. eauto.
Qed.

Lemma prep_keys i t : NoDup (map key (map (prep_of i) t)) -> NoDup (map fst t).
Proof.
  intros H. rewrite map_map in H.
  replace (map (fun x => key (prep_of i x)) t) with (map (fun k => (1%nat, k, i)) (map fst t)) in H
    by (rewrite map_map; reflexivity). apply NoDup_map_inv in H. exact H.
Qed.

Lemma red_keys i t : NoDup (map key (map (red_of i) t)) -> NoDup (map fst t).
Proof.
  intros H. rewrite map_map in H.
  replace (map (fun x => key (red_of i x)) t) with (map (fun k => (2%nat, k, i)) (map fst t)) in H
    by (rewrite map_map; reflexivity). apply NoDup_map_inv in H. exact H.
Qed.

Lemma com_prepared n i p : hinv n -> In i new -> h_com n i = Some p -> prepared i p.
Proof.
  intros I Hi E. pose proof (i_prep n I i Hi) as EP. rewrite E in EP.
  destruct (prep_ok i (h_prep n i) Hi) as (p' & HP & H & _).
  - intros x Hx. apply (inv_new n i I Hi). apply in_or_app. left. exact Hx.
  - apply (prep_keys i). pose proof (inv_nodup n i I Hi) as ND. unfold newpart in ND. rewrite map_app in ND. apply NoDup_app_l in ND. exact ND.
  - rewrite EP in H. destruct H as [H|H]; [discriminate|]. injection H as ->. exact HP.
Qed.

Lemma new_reduced n i p : hinv n -> In i new -> h_new n i = Some p -> reduced i p.
Proof.
  intros I Hi E. pose proof (i_red n I i Hi) as ER. destruct (h_com n i) as [q|] eqn:EC; [|destruct ER; congruence].
  rewrite E in ER. destruct (red_ok i q (h_red n i) Hi (com_prepared n i q I Hi EC)) as (p' & HP & H & _).
  - intros x Hx. apply (inv_new n i I Hi). apply in_or_app. right. exact Hx.
  - apply (red_keys i). pose proof (inv_nodup n i I Hi) as ND. unfold newpart in ND. rewrite map_app in ND. apply NoDup_app_r in ND. exact ND.
  - rewrite ER in H. destruct H as [H|H]; [discriminate|]. injection H as ->. exact HP.
Qed.

Definition waiting (n : hnet) (k : nat) : nat := match h_old n k with None => length (outs k) | Some _ => 0 end.
Definition phi (n : hnet) : nat := (length (h_post n) + list_sum (map (waiting n) hold))%nat.

Lemma sum_upd (f g : nat -> nat) k : forall l, NoDup l -> In k l -> (forall j, j <> k -> g j = f j) ->
  (list_sum (map g l) + f k = list_sum (map f l) + g k)%nat.
Proof.
  induction l as [|j l IH]; intros ND Hin HE; [destruct Hin|]. apply NoDup_cons_iff in ND. destruct ND as (NI & ND).
  change (list_sum (map g (j :: l))) with (g j + list_sum (map g l))%nat. change (list_sum (map f (j :: l))) with (f j + list_sum (map f l))%nat.
  destruct (Nat.eq_dec j k) as [-> |NE].
  - assert (E : map g l = map f l). { apply map_ext_in. intros a Ha. apply HE. intros ->. contradiction. }
    rewrite E. lia.
  - destruct Hin as [E|Hin]; [contradiction|]. specialize (IH ND Hin HE). rewrite (HE j NE). lia.
Qed.

Lemma hstep_ok n x : hinv n -> exists o, hstep cd hash ser parse os ns new n x = Ret o /\
  forall n', o = Some n' -> hinv n' /\ S (phi n') = phi n.
Proof.
  intros I. unfold hstep. destruct (nth_error (h_post n) x) as [pk|] eqn:EX; [|exists None; split; [reflexivity|discriminate]].
  pose proof (take_out _ _ _ EX) as PP. set (post := firstn x (h_post n) ++ skipn (S x) (h_post n)) in *.
  pose proof (univ_in pk (inv_post n pk I (nth_error_In _ _ EX))) as HP. pose proof (Permutation_length PP) as LP. cbn [length] in LP.
  destruct pk as [k m|k i d|k i m].
  - destruct HP as (Hk & ->). destruct (h_old n k) as [q|] eqn:EO; [exists None; split; [reflexivity|discriminate]|].
    destruct (Hvss k Hk (i_old n I k EO)) as (b & p & EV & RD & PD). rewrite EV. cbn [bind snd].
    rewrite (hands_over_ok p k RD PD) by (apply Hhold in Hk; lia). cbn [bind]. eexists. split; [reflexivity|].
    intros n' E. injection E as <-. split.
    + constructor; cbn [h_old h_prep h_com h_red h_new h_post].
      * rewrite <- (i_perm n I), PP.
        pose proof (perm_one (oldpart n) (oldpart (mkHnet (put (h_old n) k (Some p)) (h_prep n) (h_com n) (h_red n) (h_new n) (post ++ outs k))) k hold NDhold Hk) as PO.
        unfold oldpart at 3 5 in PO. cbn [h_old] in PO. rewrite put_same, EO in PO.
        change (newpart (mkHnet (put (h_old n) k (Some p)) (h_prep n) (h_com n) (h_red n) (h_new n) (post ++ outs k))) with (newpart n).
        rewrite <- app_assoc, (app_assoc (outs k)), PO.
        -- cbn [app]. symmetry. apply Permutation_middle.
        -- intros j NE. unfold oldpart. cbn [h_old]. rewrite put_other by exact NE. reflexivity.
      * intros j E. apply (i_old n I). destruct (Nat.eq_dec j k) as [-> |NE]; [exact EO|]. rewrite put_other in E by exact NE. exact E.
      * intros j q Hj E. destruct (Nat.eq_dec j k) as [-> |NE].
        -- rewrite put_same in E. injection E as <-. auto.
        -- rewrite put_other in E by exact NE. apply (i_rdy n I j q Hj E).
      * apply (i_prep n I).
      * apply (i_red n I).
    + unfold phi. cbn [h_post h_old].
      pose proof (sum_upd (waiting n) (waiting (mkHnet (put (h_old n) k (Some p)) (h_prep n) (h_com n) (h_red n) (h_new n) (post ++ outs k))) k hold NDhold Hk) as SU.
      unfold waiting at 4 6 in SU. cbn [h_old] in SU. rewrite put_same, EO in SU. rewrite app_length, LP.
      assert (SU' := SU (fun j NE => ltac:(unfold waiting; cbn [h_old]; rewrite put_other by exact NE; reflexivity))). lia.
  - destruct HP as (Hi & HP). destruct (h_com n i) as [q|] eqn:EC; [exists None; split; [reflexivity|discriminate]|].
    set (t := h_prep n i ++ [(k, d)]).
    pose proof (inv_nodup_more n i _ _ I Hi PP) as ND.
    destruct (prep_ok i t Hi) as (p & HPr & HD & _).
    { intros y Hy. unfold t in Hy. rewrite map_app in Hy. apply in_app_or in Hy. destruct Hy as [Hy|[<- |[]]].
      - apply (inv_new n i I Hi). apply in_or_app. left. exact Hy.
      - apply (inv_post n _ I). exact (nth_error_In _ _ EX). }
    { apply (prep_keys i). unfold t. rewrite map_app, map_app. cbn [map]. unfold newpart in ND. cbn [map] in ND. rewrite map_app in ND.
      rewrite app_comm_cons in ND. apply NoDup_app_l in ND. eapply Permutation_NoDup; [|exact ND]. apply Permutation_cons_append. }
    assert (HO : exists o, PrepareReceive hash parse cd (ns i) (map snd t) = Ret o) by (destruct HD; eauto).
    destruct HO as (o & HO). rewrite HO. cbn [bind]. eexists. split; [reflexivity|]. intros n' E. injection E as <-.
    pose proof (i_red n I i Hi) as IR. rewrite EC in IR. destruct IR as (IR1 & IR2).
    split; [|unfold phi; cbn [h_post h_old]; rewrite LP; reflexivity].
    constructor; cbn [h_old h_prep h_com h_red h_new h_post].
    + rewrite <- (i_perm n I), PP.
      set (n' := mkHnet _ _ _ _ _ _). change (oldpart n') with (oldpart n).
      pose proof (perm_one (newpart n) (newpart n') i new NDnew Hi) as PO.
      assert (PN : Permutation (flat_map (newpart n') new) (PPrep k i d :: flat_map (newpart n) new)).
      { apply (Permutation_app_inv_l (newpart n i)). rewrite PO.
        - unfold newpart at 1 3. subst n'. cbn [h_prep h_red]. rewrite put_same. unfold t. rewrite IR1. cbn [map]. rewrite !app_nil_r, map_app, <- app_assoc.
          reflexivity.
        - intros j NE. unfold newpart. subst n'. cbn [h_prep h_red]. rewrite put_other by exact NE. reflexivity. }
      rewrite PN. cbn [app]. rewrite !app_assoc. symmetry. apply Permutation_middle.
    + apply (i_old n I).
    + apply (i_rdy n I).
    + intros j Hj. destruct (Nat.eq_dec j i) as [-> |NE]; [rewrite !put_same; exact HO|]. rewrite !put_other by exact NE. apply (i_prep n I j Hj).
    + intros j Hj. destruct (Nat.eq_dec j i) as [-> |NE].
      * rewrite put_same. rewrite IR1, IR2. destruct o; [reflexivity|auto].
      * rewrite put_other by exact NE. apply (i_red n I j Hj).
  - destruct HP as (Hi & HP). destruct (h_com n i) as [q|] eqn:EC; [|exists None; split; [reflexivity|discriminate]].
    destruct (h_new n i) as [q'|] eqn:ENw; [exists None; split; [reflexivity|discriminate]|].
    set (t := h_red n i ++ [(k, m)]).
    pose proof (inv_nodup_more n i _ _ I Hi PP) as ND.
    destruct (red_ok i q t Hi (com_prepared n i q I Hi EC)) as (p & HPr & HD & _).
    { intros y Hy. unfold t in Hy. rewrite map_app in Hy. apply in_app_or in Hy. destruct Hy as [Hy|[<- |[]]].
      - apply (inv_new n i I Hi). apply in_or_app. right. exact Hy.
      - apply (inv_post n _ I). exact (nth_error_In _ _ EX). }
    { apply (red_keys i). unfold t. rewrite map_app, map_app. cbn [map]. unfold newpart in ND. cbn [map] in ND. rewrite map_app in ND.
      eapply Permutation_NoDup; [apply Permutation_cons_append|]. apply NoDup_cons_iff in ND. destruct ND as (ND1 & ND2).
      constructor; [|apply NoDup_app_r in ND2; exact ND2]. intros H. apply ND1. apply in_or_app. right. exact H. }
    assert (HO : exists o, ShareReduceReceive cd q (map from t) = Ret o) by (destruct HD; eauto).
    destruct HO as (o & HO). rewrite HO. cbn [bind]. eexists. split; [reflexivity|]. intros n' E. injection E as <-.
    split; [|unfold phi; cbn [h_post h_old]; rewrite LP; reflexivity].
    constructor; cbn [h_old h_prep h_com h_red h_new h_post].
    + rewrite <- (i_perm n I), PP.
      set (n' := mkHnet _ _ _ _ _ _). change (oldpart n') with (oldpart n).
      pose proof (perm_one (newpart n) (newpart n') i new NDnew Hi) as PO.
      assert (PN : Permutation (flat_map (newpart n') new) (PRed k i m :: flat_map (newpart n) new)).
      { apply (Permutation_app_inv_l (newpart n i)). rewrite PO.
        - unfold newpart at 1 3. subst n'. cbn [h_prep h_red]. rewrite put_same. unfold t. rewrite map_app, <- !app_assoc. reflexivity.
        - intros j NE. unfold newpart. subst n'. cbn [h_prep h_red]. rewrite put_other by exact NE. reflexivity. }
      rewrite PN. cbn [app]. rewrite !app_assoc. symmetry. apply Permutation_middle.
    + apply (i_old n I).
    + apply (i_rdy n I).
    + apply (i_prep n I).
    + intros j Hj. destruct (Nat.eq_dec j i) as [-> |NE].
      * rewrite EC, !put_same. exact HO.
      * rewrite !put_other by exact NE. apply (i_red n I j Hj).
Qed.

Lemma hruns_ok n0 evs n : hinv n0 -> hruns cd hash ser parse os ns new n0 evs n -> hinv n /\ (length evs + phi n = phi n0)%nat.
Proof.
  intros I0 R. induction R as [|evs n e n' R IH E]; [auto|]. destruct IH as (I & P).
  destruct (hstep_ok n e I) as (o & E' & H). rewrite E in E'. injection E' as <-. destruct (H n' eq_refl) as (I' & P').
  split; [exact I'|]. rewrite app_length. cbn [length]. lia.
Qed.

Definition quiet (n : hnet) : Prop := forall x, hstep cd hash ser parse os ns new n x = Ret None.

Lemma quiet_done n : hinv n -> quiet n -> (forall k, In k hold -> h_old n k <> None) /\ forall i, In i new -> exists p, h_new n i = Some p.
Proof.
  intros I Q.
  assert (LOC : forall pk, In pk univ -> In pk (h_post n) \/ In pk (flat_map (oldpart n) hold) \/ In pk (flat_map (newpart n) new)).
  { intros pk H. apply (Permutation_in _ (Permutation_sym (i_perm n I))) in H. apply in_app_or in H. destruct H as [H|H]; [auto|].
    apply in_app_or in H. tauto. }
  assert (NEW : forall pk, In pk (flat_map (newpart n) new) -> match pk with PVss _ _ => False
     | PPrep k i d => In (k, d) (h_prep n i) | PRed k i m => In (k, m) (h_red n i) end).
  { intros pk H. apply in_flat_map in H. destruct H as (i & Hi & H). apply in_app_or in H.
    destruct H as [H|H]; apply in_map_iff in H; destruct H as ((k & a) & <- & H); exact H. }
  assert (OLD : forall k, In k hold -> h_old n k <> None).
  { intros k Hk EO. assert (HU : In (PVss k (vm k)) univ). { apply in_or_app. left. apply (in_map (fun k => PVss k (vm k))). exact Hk. }
    destruct (LOC _ HU) as [H|[H|H]].
    - apply In_nth_error in H. destruct H as (x & EX). specialize (Q x). unfold hstep in Q. rewrite EX, EO in Q.
      destruct (Hvss k Hk (i_old n I k EO)) as (b & p & EV & RD & PD). rewrite EV in Q. cbn [bind snd] in Q.
      rewrite (hands_over_ok p k RD PD) in Q by (apply Hhold in Hk; lia). discriminate.
    - apply in_flat_map in H. destruct H as (j & Hj & H). unfold oldpart in H. destruct (h_old n j) eqn:EJ.
      + destruct H as [H|[]]. injection H as -> _. congruence.
      + apply outs_in in H. destruct H as (l & _ & [H|H]); discriminate.
    - apply (NEW _ H). }
  split; [exact OLD|]. intros i Hi.
  assert (OUT : forall k pk, In k hold -> In pk (outs k) -> In pk (h_post n) \/ In pk (flat_map (newpart n) new)).
  { intros k pk Hk H. assert (HU : In pk univ). { apply in_or_app. right. apply in_or_app. left. apply in_flat_map. eauto. }
    destruct (LOC _ HU) as [H'|[H'|H']]; auto. exfalso. apply in_flat_map in H'. destruct H' as (j & Hj & H'). unfold oldpart in H'.
    destruct (h_old n j) eqn:EJ; [|apply (OLD j Hj EJ)]. destruct H' as [<- |[]]. apply outs_in in H. destruct H as (l & _ & [H|H]); discriminate. }
  assert (COM : exists p, h_com n i = Some p).
  { destruct (h_com n i) as [p|] eqn:EC; [eauto|]. exfalso. pose proof (i_prep n I i Hi) as EP. rewrite EC in EP.
    destruct (prep_ok i (h_prep n i) Hi) as (p & _ & _ & H).
    - intros y Hy. apply (inv_new n i I Hi). apply in_or_app. left. exact Hy.
    - apply (prep_keys i). pose proof (inv_nodup n i I Hi) as ND. unfold newpart in ND. rewrite map_app in ND. apply NoDup_app_l in ND. exact ND.
    - rewrite EP in H. discriminate H. intros k Hk. destruct (OUT k (PPrep k i pdata) Hk) as [H'|H'].
      + apply outs_in. exists i. auto.
      + exfalso. apply In_nth_error in H'. destruct H' as (x & EX). destruct (hstep_ok n x I) as (o & E & _). rewrite (Q x) in E. injection E as <-.
        specialize (Q x). unfold hstep in Q. rewrite EX, EC in Q. destruct (PrepareReceive _ _ _ _ _); discriminate Q.
      + apply NEW in H'. apply in_map_iff. exists (k, pdata). auto. }
  destruct COM as (p & EC). destruct (h_new n i) as [q|] eqn:EN; [eauto|]. exfalso.
  pose proof (i_red n I i Hi) as ER. rewrite EC, EN in ER.
  destruct (red_ok i p (h_red n i) Hi (com_prepared n i p I Hi EC)) as (p' & _ & _ & H).
  - intros y Hy. apply (inv_new n i I Hi). apply in_or_app. right. exact Hy.
  - apply (red_keys i). pose proof (inv_nodup n i I Hi) as ND. unfold newpart in ND. rewrite map_app in ND. apply NoDup_app_r in ND. exact ND.
  - rewrite ER in H. discriminate H. intros k Hk. destruct (OUT k (PRed k i (rmsg i k)) Hk) as [H'|H'].
    + apply outs_in. exists i. auto.
    + exfalso. apply In_nth_error in H'. destruct H' as (x & EX).
      specialize (Q x). unfold hstep in Q. rewrite EX, EC, EN in Q. destruct (ShareReduceReceive _ _ _); discriminate Q.
    + apply NEW in H'. apply in_map_iff. exists (k, rmsg i k). auto.
Qed.

Lemma enabled_dec n : hinv n -> quiet n \/ exists x n', hstep cd hash ser parse os ns new n x = Ret (Some n').
Proof.
  intros I.
  assert (G : forall L, (exists x n', hstep cd hash ser parse os ns new n x = Ret (Some n')) \/
    forall x, (x < L)%nat -> hstep cd hash ser parse os ns new n x = Ret None).
  { induction L as [|L IH]; [right; intros x Hx; lia|]. destruct IH as [IH|IH]; [auto|].
    destruct (hstep_ok n L I) as ([n'|] & E & _); [left; eauto|]. right. intros x Hx.
    destruct (Nat.eq_dec x L) as [-> |NE]; [exact E|]. apply IH. lia. }
  destruct (G (length (h_post n))) as [H|H]; [auto|]. left. intros x. destruct (Nat.lt_ge_cases x (length (h_post n))) as [Hx|Hx]; [auto|].
  unfold hstep. apply nth_error_None in Hx. rewrite Hx. reflexivity.
Qed.

Lemma hruns_cons n e n1 evs n' : hstep cd hash ser parse os ns new n e = Ret (Some n1) ->
  hruns cd hash ser parse os ns new n1 evs n' -> hruns cd hash ser parse os ns new n (e :: evs) n'.
Proof.
  intros E R. induction R as [|evs m e' m' R IH E'].
  - change [e] with ([] ++ [e]). apply hr_step with (n := n); [constructor|exact E].
  - rewrite app_comm_cons. apply hr_step with (n := m); assumption.
Qed.

Lemma to_quiet n : hinv n -> exists evs n', hruns cd hash ser parse os ns new n evs n' /\ quiet n'.
Proof.
  remember (phi n) as L eqn:EL. revert n EL. induction L as [|L IH]; intros n EL I.
  - exists [], n. split; [constructor|]. destruct (enabled_dec n I) as [Q|(x & n' & E)]; [exact Q|].
    destruct (hstep_ok n x I) as (o & E' & H). rewrite E in E'. injection E' as <-. destruct (H n' eq_refl). lia.
  - destruct (enabled_dec n I) as [Q|(x & n1 & E)].
    + exists [], n. split; [constructor|exact Q].
    + destruct (hstep_ok n x I) as (o & E' & H). rewrite E in E'. injection E' as <-. destruct (H n1 eq_refl) as (I1 & P1).
      destruct (IH n1 ltac:(lia) I1) as (evs & n' & R & Q). exists (x :: evs), n'. split; [|exact Q]. eapply hruns_cons; eauto.
Qed.

Lemma outs_length k : length (outs k) = (2 * length new)%nat.
Proof.
  unfold outs. clear. induction new as [|i l IH]; [reflexivity|]. cbn [flat_map app length]. rewrite IH. lia.
Qed.

Lemma sum_waiting n : (list_sum (map (waiting n) hold) <= 2 * length hold * length new)%nat.
Proof.
  clear. induction hold as [|k l IH]; [cbn; lia|]. change (list_sum (map (waiting n) (k :: l))) with (waiting n k + list_sum (map (waiting n) l))%nat.
  cbn [length]. assert (waiting n k <= 2 * length new)%nat by (unfold waiting; destruct (h_old n k); [lia|rewrite outs_length; lia]). nia.
Qed.
End Net.
