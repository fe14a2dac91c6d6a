(** Headline theorems: the refreshing of a share while polynomials are still being recovered (C80). *)

Require Import ZArith List Lia Bool Arith.
From Verif Require Import Prime Fr Bytes CodecModel CodecProofs GoBase Poly Biv BivProofs PolyModel PolyProofs
  GroupModel KzgModel KzgProofs PartyModel PartySpec VssModel VssProofs VssProofs2 ReduceModel ReduceProofs
  ProacModel ProacProofs ProacRun ProacSig ProacRecover ProacDist ProacLinks PropertiesVss PropertiesReduce
  PropertiesProac PropertiesRefresh PropertiesRuns RefreshModel RefreshProofs.
Import ListNotations.
Local Open Scope F_scope.

(** A run of a member: [evs] until the agreement has ended, then the loop of Refresh over the agreed
    dealers [J], interleaved in any way ([ies]) with the goroutines of the recovery.  Its own
    dealing, when agreed on, is the one it has made or has recovered. *)
Definition refreshing (cd : g1codec) (p : Party) sign sigok comb (QB : nat -> list (list Fr)) (J : list Z)
    (evs : list pev) (st : pst) (ies : list rev_t) (r : rst) : Prop :=
  env cd p QB (evs ++ machine ies) /\ run_of cd p sign sigok comb evs st /\
  rrun cd sign sigok comb p (refresh_init p st J) ies = Ret r /\
  forall z, In z J -> (1 <= z <= Z.of_nat (p_N p))%Z /\
    (Z.to_nat z <> (p_PID p + 1)%nat \/ nth (Z.to_nat z) (s_Q st) [] = secy (QB (Z.to_nat z)) (me p)).

Lemma total_cval s QB J j : total QB J s (of_nat j) = fsum (map (cval s QB j) J).
Proof. reflexivity. Qed.

Section Common.
Variables (cd : g1codec) (s : Fr) (p : Party) (QB : nat -> list (list Fr)).
Variables (sign : nat -> list Z) (sigok : nat -> list Z -> bool) (comb : nat -> list (list Z) -> list Z).
Hypothesis W : party_wf s p.
Hypothesis HP : (p_PID p < p_N p)%nat.
Hypothesis HQ : forall k, bdeg (p_F p) (2 * p_F p) (QB k).

Lemma refreshing_inv (tm : Prop) J evs st ies r : refreshing cd p sign sigok comb QB J evs st ies r ->
  (tm -> timely cd p sign sigok comb (refresh_init p st J) ies) ->
  inv s p QB (evs ++ machine ies) (f_st r) /\ sinv p (f_st r) /\ dealers p QB J (f_st r) /\ linv s p QB tm J r /\
  run_of cd p sign sigok comb (evs ++ machine ies) (f_st r).
Proof.
  intros (HE & HR & RR & HJ) HT.
  destruct (run_inv cd s p sign sigok comb QB evs st W HP HQ (env_app _ _ _ _ _ HE) HR) as (I0 & S0 & _).
  pose proof (env_ok cd s p QB W HQ _ HE) as OK. apply Forall_app in OK. destruct OK as (_ & OK).
  destruct (rrun_inv cd s p QB sign sigok comb W HP HQ tm J ies evs (refresh_init p st J) r) as (A1 & A2 & A3 & A4 & A5).
  - exact I0.
  - exact S0.
  - exact HJ.
  - apply linv_init; assumption.
  - exact OK.
  - destruct HE as (_ & _ & ND & WI). apply recvs_nodup; assumption.
  - exact HT.
  - exact RR.
  - repeat (split; [assumption|]). destruct HR as (B0 & st0 & H1 & H2 & H3). exists B0, st0.
    split; [exact H1|]. split; [exact H2|]. rewrite prun_app, H3. exact A5.
Qed.

Lemma timely_share J B evs st ies r : bdeg (p_F p) (2 * p_F p) B -> p_reducedShare p = secy B (me p) ->
  refreshing cd p sign sigok comb QB J evs st ies r ->
  timely cd p sign sigok comb (refresh_init p st J) ies -> f_J r = [] ->
  refresh_end p r = Ret (Some (secy (badd B (bsum (p_F p) QB (nats J))) (me p), f_CQsum r)).
Proof.
  intros HB ER HR HT HF.
  assert (HS : bdeg (p_F p) (2 * p_F p) (bsum (p_F p) QB (nats J))) by (apply bsum_deg; intros; apply HQ).
  destruct (refreshing_inv True J evs st ies r HR (fun _ => HT)) as (_ & _ & _ & L & _).
  destruct (end_share s p QB HP True J r B L HF HB ER) as (cs & share & L1 & BC & TC & E & L2 & V & _).
  rewrite E. do 3 f_equal. apply (list_ext 0).
  - rewrite L2, (length_secy (p_F p) (2 * p_F p)) by (apply bdeg_badd; assumption). lia.
  - intros i Hi. rewrite V by lia. rewrite (nth_secy_badd _ _ _ _ (p_F p) (2 * p_F p)) by assumption. f_equal.
    specialize (TC I). clear - L1 TC HQ. revert cs L1 TC. unfold nats.
    induction J as [|z J IH] using rev_ind; intros cs L1 TC.
    + cbn [map bsum fold_left combine fsum]. symmetry. apply secy_bzero.
    + destruct cs as [|c cs] using rev_ind; [rewrite app_length in L1; cbn in L1; lia|clear IHcs].
      rewrite !app_length in L1. cbn [length] in L1. rewrite combine_snoc by lia. rewrite fsum_map_app.
      apply Forall_app in TC. destruct TC as (TC1 & TC2). inversion TC2 as [|? ? <- _]; subst.
      rewrite (IH cs) by (auto; lia). rewrite map_app. cbn [map]. rewrite bsum_snoc.
      rewrite (nth_secy_badd _ _ _ _ (p_F p) (2 * p_F p)); [|apply bsum_deg; intros; apply HQ|apply HQ].
      cbn [map fsum]. unfold contrib. cbn [fst snd]. rewrite (proj2 (Nat.leb_le 0 i)) by lia. unfold me. ring.
Qed.
End Common.

(** The coefficients of the refreshed share, whatever the interleaving.  For every agreed dealer there is
    a number c between 0 and F+1: the coefficients from c on have the dealer's part, those below
    c do not.  The sums of the commitments have the parts of all agreed dealers. *)
Theorem c80_parts : forall cd s p sign sigok comb QB B J evs st ies r, party_wf s p -> (p_PID p < p_N p)%nat ->
  (forall k, bdeg (p_F p) (2 * p_F p) (QB k)) -> bdeg (p_F p) (2 * p_F p) B -> p_reducedShare p = secy B (me p) ->
  refreshing cd p sign sigok comb QB J evs st ies r -> f_J r = [] ->
  exists share CQsum cs, refresh_end p r = Ret (Some (share, CQsum)) /\ length share = (p_F p + 1)%nat /\
    length cs = length J /\ Forall (fun c => (c <= p_F p + 1)%nat) cs /\
    (forall i, (i <= p_F p)%nat -> nth i share 0 = nth i (secy B (me p)) 0 +
       fsum (map (fun zc => if (snd zc <=? i)%nat then nth i (secy (QB (Z.to_nat (fst zc))) (me p)) 0 else 0) (combine J cs))) /\
    length CQsum = (p_N p + 1)%nat /\
    forall j B' C, (1 <= j <= p_N p)%nat -> bdeg (p_F p) (2 * p_F p) B' ->
      (forall x y, beval B' x y = beval B x y + total QB J x y) ->
      CommitToPoly (p_KZG p) (secy B (of_nat j)) = Ret C ->
      CommitToPoly (p_KZG p) (secy B' (of_nat j)) = Ret (AddG1 C (nth j CQsum ZeroG1)).
Proof.
  intros cd s p sign sigok comb QB B J evs st ies r W HP HQ HB ER HR HF.
  destruct (refreshing_inv cd s p QB sign sigok comb W HP HQ False J evs st ies r HR) as (_ & _ & _ & L & _); [tauto|].
  destruct (end_share s p QB HP False J r B L HF HB ER) as (cs & share & L1 & BC & _ & E & L2 & V & L3 & VC).
  exists share, (f_CQsum r), cs. repeat (split; [assumption|]).
  intros j B' C Hj HB' EB EC. pose proof W as (W1 & _).
  rewrite (commit_section s (p_F p + 1) _ (p_F p) (2 * p_F p)) in EC; auto; [|lia].
  rewrite (commit_section s (p_F p + 1) _ (p_F p) (2 * p_F p)); auto; [|lia].
  apply (f_equal (fun x => match x with Ret a => a | _ => ZeroG1 end)) in EC. subst C. rewrite VC by exact Hj.
  unfold AddG1. cbn [dlog1]. rewrite !peval_secx, EB, (total_cval s QB J j). reflexivity.
Qed.
Print Assumptions c80_parts.

(** When every dealer is recovered, or its commitments are not yet accepted, at the moment the
    loop comes to it, the share is the one of [c23_refresh], whatever happens in between. *)
Theorem c80_timely : forall N F B QB J, bdeg F (2 * F) B -> (forall k, bdeg F (2 * F) (QB k)) ->
  (forall j, In j J -> beval (QB (Z.to_nat j)) 0 0 = 0) ->
  exists B', bdeg F (2 * F) B' /\ beval B' 0 0 = beval B 0 0 /\
    (forall x y, beval B' x y = beval B x y + total QB J x y) /\
    forall cd s p sign sigok comb evs st ies r, party_wf s p -> p_N p = N -> p_F p = F -> (p_PID p < N)%nat ->
      p_reducedShare p = secy B (me p) -> refreshing cd p sign sigok comb QB J evs st ies r ->
      timely cd p sign sigok comb (refresh_init p st J) ies -> f_J r = [] ->
      exists CQsum, refresh_end p r = Ret (Some (secy B' (me p), CQsum)) /\ length CQsum = (N + 1)%nat /\
        forall j C, (1 <= j <= N)%nat -> CommitToPoly (p_KZG p) (secy B (of_nat j)) = Ret C ->
          CommitToPoly (p_KZG p) (secy B' (of_nat j)) = Ret (AddG1 C (nth j CQsum ZeroG1)).
Proof.
  intros N F B QB J HB HQ HZ. exists (badd B (bsum F QB (nats J))).
  assert (HS : bdeg F (2 * F) (bsum F QB (nats J))) by (apply bsum_deg; intros; apply HQ).
  assert (HB' : bdeg F (2 * F) (badd B (bsum F QB (nats J)))) by (apply bdeg_badd; assumption).
  assert (EB : forall x y, beval (badd B (bsum F QB (nats J))) x y = beval B x y + total QB J x y)
    by (intros x y; rewrite beval_badd, beval_bsum; reflexivity).
  split; [exact HB'|]. split.
  { rewrite beval_badd, bsum_secret; [ring|]. intros j Hj. apply in_map_iff in Hj. destruct Hj as (z & <- & Hz).
    apply HZ. exact Hz. }
  split; [exact EB|].
  intros cd s p sign sigok comb evs st ies r W EN EF HP ER HR HT HF. subst N F.
  destruct (c80_parts cd s p sign sigok comb QB B J evs st ies r W HP HQ HB ER HR HF) as (sh2 & CQ & cs2 & E2 & _ & _ & _ & _ & LC & VC).
  pose proof (timely_share cd s p QB sign sigok comb W HP HQ J B evs st ies r HB ER HR HT HF) as E.
  rewrite E in E2. injection E2 as _ <-.
  exists (f_CQsum r). split; [exact E|]. split; [exact LC|]. intros j C Hj HC. apply VC; assumption.
Qed.
Print Assumptions c80_timely.

(** Whatever the interleaving, the next step of the loop does not fail, and it does not change what the
    other goroutines see. *)
Theorem c80_safe : forall cd s p sign sigok comb QB J evs st ies r, party_wf s p -> (p_PID p < p_N p)%nat ->
  (forall k, bdeg (p_F p) (2 * p_F p) (QB k)) -> refreshing cd p sign sigok comb QB J evs st ies r ->
  exists r', rgo p r = Ret r' /\ f_st r' = f_st r.
Proof.
  intros cd s p sign sigok comb QB J evs st ies r W HP HQ HR.
  destruct (refreshing_inv cd s p QB sign sigok comb W HP HQ False J evs st ies r HR) as (I1 & S1 & D1 & L1 & _); [tauto|].
  destruct (rgo_linv s p QB sign sigok comb W HP HQ False J _ r I1 S1 D1 ltac:(tauto) L1) as (r1 & E1 & ES & _).
  exists r1. auto.
Qed.
Print Assumptions c80_safe.

(** ** When all agreed dealers have been recovered before *)

Section Mono.
Variables (cd : g1codec) (p : Party).
Variables (sign : nat -> list Z) (sigok : nat -> list Z -> bool) (comb : nat -> list (list Z) -> list Z).

Lemma handle_rec st x st' k : handle sigok comb p st x = Ret st' -> nth k (s_flgRec st) false = true ->
  nth k (s_flgRec st') false = true.
Proof.
  intros E H. unfold handle in E. apply bind_ret in E. destruct E as (ok & _ & E).
  apply bind_ret in E. destruct E as (st2 & E2 & E).
  assert (P2 : nth k (s_flgRec st2) false = true).
  { destruct ok; [|injection E2 as <-; exact H].
    apply bind_ret in E2. destruct E2 as (st1 & E1 & E2).
    assert (P1 : nth k (s_flgRec st1) false = true).
    { unfold add_point in E1. apply bind_ret in E1. destruct E1 as (old & _ & E1). cbv zeta in E1.
      destruct (_ && _) in E1; [|injection E1 as <-; exact H].
      apply bind_ret in E1. destruct E1 as (q & _ & E1). injection E1 as <-. cbn [s_flgRec].
      rewrite nth_set_nth. destruct (_ && _); [reflexivity|exact H]. }
    unfold add_sig in E2. apply bind_ret in E2. destruct E2 as (old & _ & E2). cbv zeta in E2.
    destruct (negb _ && _) in E2; injection E2 as <-; exact P1. }
  injection E as <-. destruct (s_MVBASent st2); exact P2.
Qed.

Lemma pstep_rec st e st' ms k : pstep cd sign sigok comb p st e = Ret (st', ms) ->
  nth k (s_flgRec st) false = true -> nth k (s_flgRec st') false = true.
Proof.
  intros E H. destruct e; cbn [pstep] in E.
  - apply bind_ret in E. destruct E as (st1 & E1 & E). injection E as <- _. unfold do_commit in E1.
    destruct (_ || _); [injection E1 as <-; exact H|].
    apply bind_ret in E1. destruct E1 as (row & _ & E1). apply bind_ret in E1. destruct E1 as ((ok & row') & _ & E1).
    apply bind_ret in E1. destruct E1 as (CQ & _ & E1). injection E1 as <-. exact H.
  - apply bind_ret in E. destruct E as (st1 & E1 & E). injection E as <- _. exact H.
  - apply bind_ret in E. destruct E as (st1 & E1 & E). injection E as <- _. unfold do_recv in E1.
    destruct (s_hold st); [injection E1 as <-; exact H|].
    apply bind_ret in E1. destruct E1 as (w & _ & E1). destruct (_ <? _)%Z; [discriminate|].
    injection E1 as <-. exact H.
  - apply bind_ret in E. destruct E as (st1 & E1 & E). injection E as <- _. unfold do_handle in E1.
    destruct (s_hold st) as [x|]; [|injection E1 as <-; exact H].
    destruct (_ && _ && _ && _); [|injection E1 as <-; exact H].
    apply (handle_rec (set_hold st None) x); assumption.
  - injection E as <- _. exact H.
Qed.

Lemma rgo_rec r r' : rgo p r = Ret r' -> s_flgRec (f_st r') = s_flgRec (f_st r) /\
  forall z, In z (f_J r') -> In z (f_J r).
Proof.
  intros E. unfold rgo in E. destruct (f_J r) as [|z J] eqn:EJ; [injection E as <-; rewrite EJ; auto|].
  destruct (f_ph r).
  - apply bind_ret in E. destruct E as (flg & _ & E). injection E as <-. cbn [f_st f_J]. auto.
  - destruct (nth _ _ _); [|injection E as <-; rewrite EJ; auto].
    apply bind_ret in E. destruct E as (q & _ & E). apply bind_ret in E. destruct E as (c & _ & E).
    apply bind_ret in E. destruct E as (row & _ & E). apply bind_ret in E. destruct E as (row' & _ & E).
    apply bind_ret in E. destruct E as (CQ & _ & E). injection E as <-. cbn [f_st f_J]. auto.
  - destruct (_ <? _)%nat; [|injection E as <-; cbn [f_st f_J]; auto].
    apply bind_ret in E. destruct E as (q & _ & E). apply bind_ret in E. destruct E as (c & _ & E).
    apply bind_ret in E. destruct E as (row & _ & E). apply bind_ret in E. destruct E as (row' & _ & E).
    injection E as <-. cbn [f_st f_J]. auto.
  - destruct (_ <=? _)%nat; [|injection E as <-; cbn [f_st f_J]; split; [reflexivity|intros y Hy; right; exact Hy]].
    apply bind_ret in E. destruct E as (q & _ & E). apply bind_ret in E. destruct E as (c & _ & E).
    apply bind_ret in E. destruct E as (row & _ & E). apply bind_ret in E. destruct E as (row' & _ & E).
    injection E as <-. cbn [f_st f_J]. auto.
Qed.

Lemma recovered_timely : forall ies r, (forall z, In z (f_J r) -> nth (Z.to_nat z) (s_flgRec (f_st r)) false = true) ->
  timely cd p sign sigok comb r ies.
Proof.
  induction ies as [|e ies IH]; intros r H; [exact I|]. split.
  - intros _. unfold intime. destruct (f_J r) as [|z J]; [exact I|]. destruct (f_ph r); auto. intros _. apply H. left. reflexivity.
  - intros r' E. apply IH. destruct e as [e|]; cbn [rstep] in E.
    + apply bind_ret in E. destruct E as ((st1, ms) & E & E2). injection E2 as <-. cbn [f_J f_st fst].
      intros z Hz. apply (pstep_rec _ _ _ _ _ E). apply H. exact Hz.
    + apply rgo_rec in E. destruct E as (E1 & E2). intros z Hz. rewrite E1. apply H, E2, Hz.
Qed.
End Mono.

(** If the polynomials of all agreed dealers are recovered when the agreement ends, every
    interleaving that completes the loop gives the result of [Refresh] on the state at its
    start, and every state on the way can be completed. *)
Theorem c80_recovered : forall cd s p sign sigok comb QB B J evs st ies r, party_wf s p -> (p_PID p < p_N p)%nat ->
  (forall k, bdeg (p_F p) (2 * p_F p) (QB k)) ->
  bdeg (p_F p) (2 * p_F p) B -> p_reducedShare p = secy B (me p) ->
  (forall z, In z J -> nth (Z.to_nat z) (s_flgRec st) false = true) ->
  refreshing cd p sign sigok comb QB J evs st ies r ->
  (exists n r', rrun cd sign sigok comb p r (repeat RGo n) = Ret r' /\ f_J r' = []) /\
  (f_J r = [] -> exists share CQ CQ', refresh_end p r = Ret (Some (share, CQ)) /\
     Refresh p st J = Ret (Some (share, CQ')) /\
     forall j, (1 <= j <= p_N p)%nat -> nth j CQ ZeroG1 = nth j CQ' ZeroG1).
Proof.
  intros cd s p sign sigok comb QB B J evs st ies r W HP HQ HB ER HF HR.
  assert (HJ : forall z, In z J -> (1 <= z <= Z.of_nat (p_N p))%Z) by (intros z Hz; apply HR; exact Hz).
  pose proof (recovered_timely cd p sign sigok comb ies (refresh_init p st J) HF) as HT. split.
  - destruct (refreshing_inv cd s p QB sign sigok comb W HP HQ False J evs st ies r HR) as (I1 & S1 & D1 & L1 & _); [tauto|].
    assert (FC : forall z, In z (f_J r) -> nth (Z.to_nat z) (s_flgRec (f_st r)) false = true /\ In z J).
    { destruct HR as (_ & _ & RR & _). clear - HF RR.
      assert (G : forall ies r0, (forall z, In z (f_J r0) -> nth (Z.to_nat z) (s_flgRec (f_st r0)) false = true /\ In z J) ->
        rrun cd sign sigok comb p r0 ies = Ret r -> forall z, In z (f_J r) -> nth (Z.to_nat z) (s_flgRec (f_st r)) false = true /\ In z J).
      { clear. induction ies as [|e ies IH]; intros r0 H E; cbn [rrun] in E; [injection E as <-; exact H|].
        apply bind_ret in E. destruct E as (r1 & E1 & E). apply (IH r1); [|exact E]. destruct e as [e|]; cbn [rstep] in E1.
        - apply bind_ret in E1. destruct E1 as ((st1, ms) & E1 & E2). injection E2 as <-. cbn [f_J f_st fst].
          intros z Hz. destruct (H z Hz). split; [|assumption]. eapply pstep_rec; eassumption.
        - apply rgo_rec in E1. destruct E1 as (EA & EB). intros z Hz. rewrite EA. apply H, EB, Hz. }
      apply (G ies (refresh_init p st J) (fun z Hz => conj (HF z Hz) Hz) RR). }
    assert (FC2 : forall z, In z (f_J r) -> nth (Z.to_nat z) (s_flgCom (f_st r)) false = true).
    { intros z Hz. destruct (FC z Hz) as (X & Y). specialize (HJ z Y). eapply rec_good; eauto. lia. }
    destruct (f_ph r) eqn:EP.
    2:{ destruct (rgo_linv s p QB sign sigok comb W HP HQ False J _ r I1 S1 D1 ltac:(tauto) L1) as (r1 & E1 & ES & HL1).
        destruct (rgo_rec p r r1 E1) as (_ & HIN).
        destruct (f_J r) as [|z J'] eqn:EJ; [exists 0%nat, r; split; [reflexivity|exact EJ]|].
        assert (NW : f_ph r1 <> PWait).
        { unfold rgo in E1. rewrite EJ, EP in E1. rewrite (proj1 (FC z (or_introl eq_refl))) in E1.
          apply bind_ret in E1. destruct E1 as (q & _ & E1). apply bind_ret in E1. destruct E1 as (c & _ & E1).
          apply bind_ret in E1. destruct E1 as (row & _ & E1). apply bind_ret in E1. destruct E1 as (row' & _ & E1).
          apply bind_ret in E1. destruct E1 as (CQ & _ & E1). injection E1 as <-. discriminate. }
        destruct (loop_ends cd s p QB sign sigok comb W HP HQ J (evs ++ machine ies) (mes p r1) r1 (le_n _)) as (n & r' & E & E').
        { rewrite ES. exact I1. }
        { rewrite ES. exact S1. }
        { rewrite ES. exact D1. }
        { exact HL1. }
        { rewrite ES. intros y Hy. apply FC2, HIN, Hy. }
        { exact NW. }
        exists (S n), r'. split; [|exact E']. cbn [repeat rrun rstep]. rewrite E1. exact E. }
    all: apply (loop_ends cd s p QB sign sigok comb W HP HQ J _ (mes p r) r (le_n _) I1 S1 D1 L1 FC2); rewrite EP; discriminate.
  - intros HE. pose proof (timely_share cd s p QB sign sigok comb W HP HQ J B evs st ies r HB ER HR HT HE) as E.
    destruct (refreshing_inv cd s p QB sign sigok comb W HP HQ False J evs st ies r HR) as (_ & _ & _ & L & _); [tauto|].
    destruct (end_share s p QB HP False J r B L HE HB ER) as (_ & _ & _ & _ & _ & _ & _ & _ & _ & VC).
    destruct HR as (HEV & HRO & _ & _).
    destruct (run_inv cd s p sign sigok comb QB evs st W HP HQ (env_app _ _ _ _ _ HEV) HRO) as (I0 & _).
    destruct (refresh_correct s p QB (fun k _ => HQ k) evs st J B I0 HB ER) as (CQ' & E2 & _ & V2).
    { intros j Hj. split; [apply HJ; exact Hj|apply HF; exact Hj]. }
    eexists. exists (f_CQsum r), CQ'. split; [exact E|]. split; [exact E2|]. intros j Hj. rewrite VC, V2 by exact Hj.
    rewrite peval_secx, beval_bsum, (total_cval s QB J j). reflexivity.
Qed.
Print Assumptions c80_recovered.

(** ** A share that belongs to no set of dealers *)

Lemma env_mvba cd p QB a b : env cd p QB (a ++ b) -> env cd p QB (a ++ EvMVBA :: b).
Proof.
  assert (IN : forall e, e <> EvMVBA -> In e (a ++ EvMVBA :: b) -> In e (a ++ b)).
  { intros e Ne H. apply in_app_or in H. apply in_or_app. destruct H as [H|[H|H]]; [auto|congruence|auto]. }
  intros (H1 & H2 & H3 & H4). split; [|split; [|split]].
  - intros k data Hin. apply H1. apply IN; [discriminate|exact Hin].
  - intros i m w C Hin. apply H2. apply IN; [discriminate|exact Hin].
  - unfold sources in *. rewrite flat_map_app in *. exact H3.
  - intros i m Hin. apply H4. apply IN; [discriminate|exact Hin].
Qed.

Lemma machine_app a b : machine (a ++ b) = machine a ++ machine b.
Proof. unfold machine. apply flat_map_app. Qed.

Lemma machine_RMach l : machine (map RMach l) = l.
Proof. induction l as [|e l IH]; [reflexivity|]. cbn [map machine flat_map app]. f_equal. exact IH. Qed.

Lemma machine_RGo n : machine (repeat RGo n) = [].
Proof. induction n as [|n IH]; [reflexivity|exact IH]. Qed.

(** Every dealer shares y + x y. *)
Definition torn_q (_ : nat) : list (list Fr) := [[0; 0]; [1; 1]; [0; 0]].
Definition torn_coms (p : Party) : list pev :=
  map (fun k => EvCommit k (commit_data demo_codec party_secret p torn_q k)) [2; 3; 4]%nat.
Definition torn_vote (p : Party) : nat * nat -> Z * RecoverMsg :=
  honest_vote demo_codec party_secret p torn_q (fun _ => []).
Lemma torn_total J : total torn_q J (- (1)) 1 = 0.
Proof.
  unfold total. induction J as [|z J IH]; [reflexivity|]. cbn [map fsum]. rewrite IH.
  unfold torn_q. cbn [beval secy map peval]. ring.
Qed.

(** Member 1 gets one vote for dealer 4 and three for each of the dealers 2 and 3; the agreement runs. *)
Definition torn_votes : list (nat * nat) := [(4, 1); (2, 1); (2, 2); (2, 3); (3, 1); (3, 2); (3, 3)]%nat.
Definition torn_before (p : Party) : list pev :=
  torn_coms p ++ deliver (map (torn_vote p) torn_votes) ++ [EvMVBA].
(** The loop reads the first coefficient for dealer 4; then the second vote for dealer 4 is handled. *)
Definition torn_evs (p : Party) : list rev_t :=
  [RGo; RGo] ++ map RMach (deliver [torn_vote p (4, 2)%nat]) ++ repeat RGo 16.

Definition torn_run (x : go Party) : option (pst * rst) :=
  match x with
  | Ret p0 =>
    let p := set_reducedShare p0 [of_Z 9; 0] in
    match proac_init p (map (fun j => secy (torn_q 1) (of_nat j)) (seq 1 3)) with
    | Ret st0 =>
      match prun demo_codec (fun _ => []) (fun _ _ => true) (fun _ _ => []) p st0 (torn_before p) with
      | Ret st =>
        match rrun demo_codec (fun _ => []) (fun _ _ => true) (fun _ _ => []) p (refresh_init p st [4; 2]%Z) (torn_evs p) with
        | Ret r => Some (st, r)
        | _ => None
        end
      | _ => None
      end
    | _ => None
    end
  | _ => None
  end.

Definition torn_ok (x : go Party) : Prop :=
  match torn_run x with
  | Some (st, r) => f_J r = [] /\ f_Qsum r = [of_Z 1; of_Z 2] /\ s_MVBASent st = true
  | None => False
  end.

Lemma torn_ends : torn_ok (NewHonestParty 4 1 0).
Proof. vm_compute. repeat split. Qed.

Lemma torn_split x : torn_ok x -> exists p0 st0 st r, x = Ret p0 /\
    proac_init (set_reducedShare p0 [of_Z 9; 0]) (map (fun j => secy (torn_q 1) (of_nat j)) (seq 1 3)) = Ret st0 /\
    prun demo_codec (fun _ => []) (fun _ _ => true) (fun _ _ => []) (set_reducedShare p0 [of_Z 9; 0]) st0
      (torn_before (set_reducedShare p0 [of_Z 9; 0])) = Ret st /\
    rrun demo_codec (fun _ => []) (fun _ _ => true) (fun _ _ => []) (set_reducedShare p0 [of_Z 9; 0])
      (refresh_init (set_reducedShare p0 [of_Z 9; 0]) st [4; 2]%Z) (torn_evs (set_reducedShare p0 [of_Z 9; 0])) = Ret r /\
    f_J r = [] /\ f_Qsum r = [of_Z 1; of_Z 2] /\ s_MVBASent st = true.
Proof.
  intros H. unfold torn_ok, torn_run in H. destruct x as [p0| | |]; try contradiction. cbv zeta in H.
  destruct (proac_init _ _) as [st0| | |] eqn:E0; try contradiction.
  destruct (prun _ _ _ _ _ st0 _) as [st| | |] eqn:E1; try contradiction.
  destruct (rrun _ _ _ _ _ _ _) as [r| | |] eqn:E2; try contradiction.
  destruct H as (H1 & H2 & H3). exists p0, st0, st, r.
  split; [reflexivity|]. split; [exact E0|]. split; [exact E1|]. split; [exact E2|]. auto.
Qed.

Definition torn_share (p : Party) (evs : list pev) (st : pst) (ies : list rev_t) (r : rst) : Prop :=
  exists B share CQsum,
  (forall k, bdeg (p_F p) (2 * p_F p) (torn_q k) /\ beval (torn_q k) 0 0 = 0) /\
  bdeg (p_F p) (2 * p_F p) B /\ p_reducedShare p = secy B (me p) /\
  refreshing demo_codec p (fun _ => []) (fun _ _ => true) (fun _ _ => []) torn_q [4; 2]%Z evs st ies r /\ s_MVBASent st = true /\
  f_J r = [] /\ refresh_end p r = Ret (Some (share, CQsum)) /\
  forall J' B', (forall x y, beval B' x y = beval B x y + total torn_q J' x y) -> share <> secy B' (me p).

Lemma torn_case p st0 st r : party_wf party_secret p -> p_N p = 4%nat -> p_F p = 1%nat -> p_PID p = 0%nat ->
  p_reducedShare p = [of_Z 9; 0] ->
  proac_init p (map (fun j => secy (torn_q 1) (of_nat j)) (seq 1 3)) = Ret st0 ->
  prun demo_codec (fun _ => []) (fun _ _ => true) (fun _ _ => []) p st0 (torn_before p) = Ret st ->
  rrun demo_codec (fun _ => []) (fun _ _ => true) (fun _ _ => []) p (refresh_init p st [4; 2]%Z) (torn_evs p) = Ret r ->
  f_J r = [] -> f_Qsum r = [of_Z 1; of_Z 2] -> s_MVBASent st = true ->
  torn_share p (torn_before p) st (torn_evs p) r.
Proof.
  intros W QN QF QI QR E0 E1 E2 T1 T2 T3.
  assert (HQ : forall k, bdeg (p_F p) (2 * p_F p) (torn_q k)).
  { intros k. rewrite QF. split; [reflexivity|repeat constructor]. }
  assert (HP : (p_PID p < p_N p)%nat) by lia.
  assert (HN : (Z.of_nat (p_N p) < 2 ^ 32)%Z) by (rewrite QN; reflexivity).
  set (B := [[of_Z 7; 0]; [of_Z 2; 0]; [0; 0]]).
  assert (ME : me p = 1) by (unfold me; rewrite QI; reflexivity).
  exists B, [of_Z 10; of_Z 2], (f_CQsum r). split.
  { intros k. split; [apply HQ|]. unfold torn_q. cbn [beval secy map peval]. ring. }
  split; [rewrite QF; split; [reflexivity|repeat constructor]|]. split.
  { rewrite QR, ME. vm_compute. reflexivity. }
  split.
  { split; [|split; [|split; [exact E2|]]].
    - unfold torn_before, torn_evs. rewrite !machine_app, machine_RMach, machine_RGo. cbn [machine flat_map app]. rewrite app_nil_r.
      rewrite <- !app_assoc. cbn [app]. rewrite app_assoc. apply env_mvba. rewrite <- app_assoc.
      replace (deliver (map (torn_vote p) torn_votes) ++ deliver [torn_vote p (4, 2)%nat])
        with (deliver (map (torn_vote p) (torn_votes ++ [(4, 2)%nat]))) by (unfold deliver; rewrite map_app, flat_map_app; reflexivity).
      apply (honest_env demo_codec party_secret p torn_q W HQ HP demo_codec_ok HN (fun _ => [])).
      + unfold torn_votes. cbn [app]. repeat constructor; cbn; intuition discriminate.
      + intros k i Hin. rewrite QN. unfold torn_votes in Hin. cbn [app In] in Hin.
        repeat (destruct Hin as [Hin|Hin]; [injection Hin as <- <-; lia|]). destruct Hin.
    - exists (torn_q 1), st0. split; [apply HQ|]. rewrite QF. split; [exact E0|exact E1].
    - intros z Hz. rewrite QN, QI. cbn [In] in Hz. destruct Hz as [<-|[<-|[]]]; (split; [lia|left; discriminate]). }
  split; [exact T3|]. split; [exact T1|]. split.
  { unfold refresh_end. rewrite T1, T2, QF, QR. vm_compute. reflexivity. }
  intros J' B' EB EQ. apply (f_equal (fun q => peval q (- (1)))) in EQ. rewrite peval_secy, EB, ME in EQ.
  rewrite torn_total in EQ. apply (f_equal fv) in EQ. vm_compute in EQ. discriminate.
Qed.

(** All messages are honest, and all agreed dealers are recovered when the loop has ended.  Still the
    new share of member 1 (of the secret 7 + 2y, agreed dealers 4 and 2) is its share of no
    polynomial B + (sum of the polynomials of some of the agreed dealers). *)
Theorem c80_torn_refuted : exists cd s p sign sigok comb QB B J evs st ies r share CQsum,
  codec_ok cd /\ party_wf s p /\ (p_PID p < p_N p)%nat /\
  (forall k, bdeg (p_F p) (2 * p_F p) (QB k) /\ beval (QB k) 0 0 = 0) /\
  bdeg (p_F p) (2 * p_F p) B /\ p_reducedShare p = secy B (me p) /\ NoDup J /\ length J = (p_F p + 1)%nat /\
  refreshing cd p sign sigok comb QB J evs st ies r /\ s_MVBASent st = true /\
  f_J r = [] /\ refresh_end p r = Ret (Some (share, CQsum)) /\
  forall J' B', incl J' J -> (forall x y, beval B' x y = beval B x y + total QB J' x y) -> share <> secy B' (me p).
Proof.
  destruct (torn_split (NewHonestParty 4 1 0) torn_ends) as (p0 & st0 & st & r & EX & E0 & E1 & E2 & T1 & T2 & T3).
  destruct (new_party 4 1 0) as (p1 & EP & WP & PN & PF & PI); [lia|lia|rewrite r_eq; lia|].
  assert (H : p1 = p0) by (rewrite EP in EX; exact (f_equal (fun x => match x with Ret a => a | _ => p1 end) EX)).
  clear EX EP. subst p1.
  destruct (torn_case (set_reducedShare p0 [of_Z 9; 0]) st0 st r WP PN PF PI eq_refl E0 E1 E2 T1 T2 T3)
    as (B & share & CQsum & H1 & H2 & H3 & H4 & H5 & H6 & H7 & H8).
  exists demo_codec, party_secret, (set_reducedShare p0 [of_Z 9; 0]), (fun _ => []), (fun _ _ => true), (fun _ _ => []), torn_q, B, [4; 2]%Z,
    (torn_before (set_reducedShare p0 [of_Z 9; 0])), st, (torn_evs (set_reducedShare p0 [of_Z 9; 0])), r, share, CQsum.
  split; [exact demo_codec_ok|]. split; [exact WP|]. split; [cbn [set_reducedShare p_PID p_N]; rewrite PN, PI; lia|].
  split; [exact H1|]. split; [exact H2|]. split; [exact H3|].
  split; [repeat constructor; cbn; intuition discriminate|]. split; [cbn [set_reducedShare p_F]; rewrite PF; reflexivity|].
  split; [exact H4|]. split; [exact H5|]. split; [exact H6|]. split; [exact H7|]. intros J' B' _. apply H8.
Qed.
Print Assumptions c80_torn_refuted.

(** Member 1 of 4 with the dealers 2, 3, 4 recovered: the hypotheses of [c80_recovered], [c80_timely] and
    [c80_parts] are met by a run in which the loop completes, with another share. *)
Example c80_ex : exists p st st2 n r share CQ, let evs := honest_events demo_codec party_secret p demo_q (fun _ => []) [2; 3; 4]%nat 2 in
  NewHonestParty 4 1 0 = Ret p /\ party_wf party_secret st2 /\ (p_PID st2 < p_N st2)%nat /\
  (forall k, bdeg (p_F st2) (2 * p_F st2) (demo_q k) /\ beval (demo_q k) 0 0 = 0) /\
  st2 = set_reducedShare p [of_Z 9; 0] /\ p_reducedShare st2 = secy [[of_Z 7; 0]; [of_Z 2; 0]; [0; 0]] (me st2) /\
  (forall z, In z [2; 3]%Z -> nth (Z.to_nat z) (s_flgRec st) false = true) /\
  refreshing demo_codec st2 (fun _ => []) (fun _ _ => true) (fun _ _ => []) demo_q [2; 3]%Z evs st (repeat RGo n) r /\
  timely demo_codec st2 (fun _ => []) (fun _ _ => true) (fun _ _ => []) (refresh_init st2 st [2; 3]%Z) (repeat RGo n) /\
  f_J r = [] /\ refresh_end st2 r = Ret (Some (share, CQ)) /\ share = [of_Z 9; of_Z 2].
Proof.
  destruct (new_party 4 1 0) as (p & EP & WP & PN & PF & PI); [lia|lia|rewrite r_eq; lia|].
  set (p2 := set_reducedShare p [of_Z 9; 0]).
  assert (HQ : forall k, bdeg (p_F p2) (2 * p_F p2) (demo_q k) /\ beval (demo_q k) 0 0 = 0).
  { intros k. change (p_F p2) with (p_F p). rewrite PF. split; [split; [reflexivity|repeat constructor]|].
    unfold demo_q. cbn [beval secy map peval]. ring. }
  assert (HQ1 : forall k, bdeg (p_F p2) (2 * p_F p2) (demo_q k)) by (intros; apply HQ).
  assert (W2 : party_wf party_secret p2) by exact WP.
  assert (HP : (p_PID p2 < p_N p2)%nat) by (change (p_PID p < p_N p)%nat; rewrite PN, PI; lia).
  assert (HN : (Z.of_nat (p_N p2) < 2 ^ 32)%Z) by (change (p_N p2) with (p_N p); rewrite PN; reflexivity).
  destruct (honest_recovery demo_codec party_secret p2 demo_q (fun _ => []) (fun _ _ => true) (fun _ _ => []) (fun _ => [])
    demo_codec_ok W2 HP HN HQ (fun _ => eq_refl) [2; 3; 4]%nat) as (st & RO & HE & (H1 & H2) & FL & _ & _).
  { repeat constructor; simpl; lia. }
  { intros k Hk. change (p_N p2) with (p_N p). rewrite PN. simpl in Hk. lia. }
  change (p_F p2) with (p_F p) in RO at 1. change (p_F p2) with (p_F p) in HE at 1. rewrite PF in RO, HE.
  set (evs := honest_events demo_codec party_secret p2 demo_q (fun _ => []) [2; 3; 4]%nat 2) in *.
  set (B := [[of_Z 7; 0]; [of_Z 2; 0]; [0; 0]]).
  assert (ME : me p2 = 1) by (unfold me; change (p_PID p2) with (p_PID p); rewrite PI; reflexivity).
  assert (HB : bdeg (p_F p2) (2 * p_F p2) B) by (change (p_F p2) with (p_F p); rewrite PF; split; [reflexivity|repeat constructor]).
  assert (ES : p_reducedShare p2 = secy B (me p2)) by (rewrite ME; vm_compute; reflexivity).
  assert (REC : forall z, In z [2; 3]%Z -> nth (Z.to_nat z) (s_flgRec st) false = true).
  { intros z [<-|[<-|[]]]; apply FL; simpl; auto. }
  assert (REF : forall ies r, machine ies = [] ->
    rrun demo_codec (fun _ => []) (fun _ _ => true) (fun _ _ => []) p2 (refresh_init p2 st [2; 3]%Z) ies = Ret r ->
    refreshing demo_codec p2 (fun _ => []) (fun _ _ => true) (fun _ _ => []) demo_q [2; 3]%Z evs st ies r).
  { intros ies r EM ER. split; [rewrite EM, app_nil_r; exact HE|]. split; [exact RO|]. split; [exact ER|].
    intros z Hz. change (p_N p2) with (p_N p). change (p_PID p2) with (p_PID p). rewrite PN, PI.
    destruct Hz as [<-|[<-|[]]]; (split; [lia|left; discriminate]). }
  destruct (c80_recovered demo_codec party_secret p2 (fun _ => []) (fun _ _ => true) (fun _ _ => []) demo_q B [2; 3]%Z evs st [] (refresh_init p2 st [2; 3]%Z) W2 HP HQ1 HB ES REC
    (REF [] _ eq_refl eq_refl)) as ((n & r & ER & EJ) & _).
  pose proof (REF (repeat RGo n) r (machine_RGo n) ER) as HR.
  pose proof (recovered_timely demo_codec p2 (fun _ => []) (fun _ _ => true) (fun _ _ => []) (repeat RGo n) (refresh_init p2 st [2; 3]%Z) REC) as HT.
  pose proof (timely_share demo_codec party_secret p2 demo_q (fun _ => []) (fun _ _ => true) (fun _ _ => []) W2 HP HQ1 [2; 3]%Z B evs st _ r HB ES HR HT EJ) as E.
  exists p, st, p2, n, r. eexists. exists (f_CQsum r). cbv zeta.
  split; [exact EP|]. split; [exact W2|]. split; [exact HP|]. split; [exact HQ|]. split; [reflexivity|]. split; [exact ES|].
  split; [exact REC|]. split; [exact HR|]. split; [exact HT|]. split; [exact EJ|]. split; [exact E|].
  rewrite ME. change (p_F p2) with (p_F p). rewrite PF. vm_compute. reflexivity.
Qed.
