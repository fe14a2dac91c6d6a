(** Executions of the proactivization phase: what honest members reach (hypotheses of C23-C26 met), and
    votes counted twice (C54). *)

Require Import ZArith List Bool Arith Lia.
From Verif Require Import Prime Fr GoBase Poly PolyModel PolyProofs Biv GroupModel KzgModel KzgProofs.
From Verif Require Import CodecModel PartyModel PartySpec VssModel VssProofs BivProofs.
From Verif Require Import ReduceModel ReduceProofs PropertiesVss.
From Verif Require Import ProacModel ProacProofs ProacRun ProacSig ProacRecover ProacDist ProacLinks.
From Verif Require Import PropertiesProac PropertiesRefresh.
Import ListNotations.
Local Open Scope F_scope.

Section Runs.
Variables (cd : g1codec) (s : Fr) (p : Party) (QB : nat -> list (list Fr)).
Variables (sign : nat -> list Z) (sigok : nat -> list Z -> bool) (combine : nat -> list (list Z) -> list Z).
Variable sg : nat -> list Z.
Hypothesis HC : codec_ok cd.
Hypothesis W : party_wf s p.
Hypothesis HP : (p_PID p < p_N p)%nat.
Hypothesis HN : (Z.of_nat (p_N p) < 2 ^ 32)%Z.
Hypothesis HQ0 : forall k, bdeg (p_F p) (2 * p_F p) (QB k) /\ beval (QB k) 0 0 = 0.
Hypothesis SG : forall k, sigok k (sg k) = true.

(** The events: commitments of the dealers [Ks], then the votes of the first [n] members on them. *)
Definition honest_events (Ks : list nat) (n : nat) : list pev :=
  map (fun k => EvCommit k (commit_data cd s p QB k)) Ks ++
  deliver (map (honest_vote cd s p QB sg) (list_prod Ks (seq 1 n))).

Lemma filter_about Ks n k : NoDup Ks -> (n <= p_N p)%nat ->
  map (fun x => Xof (fst x)) (filter (about cd s p sigok QB k) (map (honest_vote cd s p QB sg) (list_prod Ks (seq 1 n)))) =
  if in_dec Nat.eq_dec k Ks then map Z.of_nat (seq 1 n) else [].
Proof.
  intros ND Hn.
  assert (AB : forall j i, (1 <= i <= p_N p)%nat ->
    about cd s p sigok QB k (honest_vote cd s p QB sg (j, i)) = (j =? k)%nat).
  { intros j i Hi. destruct (Nat.eqb_spec j k) as [->|Ne].
    - apply (valid_about cd s p QB W (fun k => proj1 (HQ0 k))); [unfold honest_vote; cbn [snd fst recover_msg rc_Index]; lia|].
      apply honest_vote_valid; auto. intros k'. apply HQ0.
    - unfold about, dealer, honest_vote. cbn [fst snd recover_msg rc_Index]. rewrite Nat2Z.id.
      rewrite (proj2 (Nat.eqb_neq _ _) Ne). reflexivity. }
  assert (G : forall j, map (fun x => Xof (fst x)) (filter (about cd s p sigok QB k)
            (map (honest_vote cd s p QB sg) (map (fun i => (j, i)) (seq 1 n)))) =
            if (j =? k)%nat then map Z.of_nat (seq 1 n) else []).
  { intros j. assert (forall l, (forall i, In i l -> (1 <= i <= p_N p)%nat) ->
      map (fun x => Xof (fst x)) (filter (about cd s p sigok QB k) (map (honest_vote cd s p QB sg) (map (fun i => (j, i)) l))) =
      if (j =? k)%nat then map Z.of_nat l else []) as X.
    { induction l as [|i l IH]; intros Hl; cbn [map filter]; [destruct (_ =? _)%nat; reflexivity|].
      rewrite AB by (apply Hl; left; reflexivity). specialize (IH (fun i Hi => Hl i (or_intror Hi))).
      destruct (j =? k)%nat; [|exact IH]. cbn [map]. rewrite IH. f_equal. unfold honest_vote. cbn [fst snd].
      apply (of_Z_sender p HP i); [apply Hl; left; reflexivity|exact HN]. }
    apply X. intros i Hi. apply in_seq in Hi. lia. }
  induction Ks as [|j Ks IH]; [reflexivity|]. cbn [list_prod]. rewrite map_app, filter_app, map_app, G.
  inversion ND as [|a b NI ND' E]; subst. rewrite (IH ND'). destruct (Nat.eqb_spec j k) as [->|Ne].
  - destruct (in_dec Nat.eq_dec k Ks) as [Hk|Hk]; [destruct (NI Hk)|]. rewrite app_nil_r.
    destruct (in_dec Nat.eq_dec k (k :: Ks)) as [_|X]; [reflexivity|]. destruct X; left; reflexivity.
  - cbn [app]. destruct (in_dec Nat.eq_dec k Ks) as [Hk|Hk], (in_dec Nat.eq_dec k (j :: Ks)) as [Hk2|Hk2]; try reflexivity.
    + destruct Hk2; right; exact Hk.
    + destruct Hk2 as [->|X]; [congruence|destruct (Hk X)].
Qed.

(** F+1 members' votes: the polynomials of all these dealers are recovered, and no certificate exists yet. *)
Lemma honest_recovery Ks : NoDup Ks -> (forall k, In k Ks -> (1 <= k <= p_N p)%nat) ->
  exists st, run_of cd p sign sigok combine (honest_events Ks (p_F p + 1)) st /\
    env cd p QB (honest_events Ks (p_F p + 1)) /\ live st /\
    (forall k, In k Ks -> nth k (s_flgCom st) false = true /\ nth k (s_flgRec st) false = true) /\
    (forall k, length (nth k (s_SSig st) []) = if in_dec Nat.eq_dec k Ks then (p_F p + 1)%nat else 0%nat) /\
    s_MVBAIn st = [].
Proof.
  intros ND HK. assert (HQ : forall k, bdeg (p_F p) (2 * p_F p) (QB k)) by (intros; apply HQ0).
  pose proof W as (W1 & _ & W3 & W4 & W5 & _).
  destruct (init_inv s p QB W HP (QB (p_PID p + 1)%nat) (HQ _))
    as (st0 & E0 & I0 & J1 & J2 & J3 & J4 & J5 & J6 & J7 & J8 & J9 & _).
  destruct (commit_run cd s p QB W HQ sign sigok combine HP HC Ks [] st0 I0) as (st1 & E1 & I1 & SR & F1 & _).
  { intros j Hj. split; [apply HK; exact Hj|]. split; [apply HQ0|]. rewrite J9. apply nth_repeat_len. reflexivity. }
  { exact ND. }
  destruct SR as (R1 & R2 & R3 & R4 & R5 & R6).
  set (coms := map (fun k => EvCommit k (commit_data cd s p QB k)) Ks) in *. cbn [app] in I1.
  set (ms := map (honest_vote cd s p QB sg) (list_prod Ks (seq 1 (p_F p + 1)))).
  assert (HE : env cd p QB (coms ++ deliver ms)).
  { apply (honest_env cd s p QB W HQ HP HC HN sg).
    - apply nodup_prod; [exact ND|apply seq_NoDup].
    - intros k i Hin. apply in_prod_iff in Hin. rewrite !in_seq in Hin. lia. }
  assert (RO : run_of cd p sign sigok combine coms st1).
  { exists (QB (p_PID p + 1)%nat), st0. split; [apply HQ|]. split; [exact E0|exact E1]. }
  destruct (run_inv _ s _ _ _ _ QB _ _ W HP HQ (env_app _ _ _ _ _ HE) RO) as (_ & SI1 & CA1).
  assert (LV : live st1) by (split; [rewrite R2; exact J3|rewrite R4; exact J5]).
  assert (MO : msgs_ok cd s p QB (s_flgCom st1) coms ms).
  { apply env_msgs; auto. intros i m Hin. apply in_map_iff in Hin. destruct Hin as ((k, l) & E & Hin). apply in_prod_iff in Hin.
    apply (f_equal snd) in E. unfold honest_vote in E. cbn [fst snd] in E. subst m.
    cbn [recover_msg rc_Index rc_W]. rewrite Nat2Z.id, HC. destruct (HK k (proj1 Hin)). split; [lia|]. split; [|discriminate].
    apply F1. apply Hin. }
  destruct (deliver_run cd s p sign sigok combine QB W HP (fun k _ => HQ k) ms _ st1 I1 CA1 LV MO)
    as (st2 & E2 & I2 & CA2 & HC2).
  assert (SENT : s_MVBASent st2 = false).
  { apply (deliver_few cd s p sign sigok combine QB W HP (fun k _ => HQ k) [] ltac:(simpl; lia) ms coms st1 st2 I1 SI1 CA1 LV MO); [|exact E2].
    intros k _. rewrite R1, J2, (nth_repeat_len [] [] _ k eq_refl). cbn [length].
    pose proof (filter_about Ks (p_F p + 1) k ND ltac:(lia)) as FA. apply (f_equal (@length _)) in FA. rewrite map_length in FA.
    fold ms in FA. rewrite FA. destruct (in_dec _ _ _); [rewrite map_length, seq_length; lia|simpl; lia]. }
  destruct (HC2 SENT) as (LV2 & FC2 & CNT).
  assert (RO2 : run_of cd p sign sigok combine (coms ++ deliver ms) st2).
  { exists (QB (p_PID p + 1)%nat), st0. split; [apply HQ|]. split; [exact E0|]. rewrite prun_app, E1. exact E2. }
  destruct (run_inv _ s _ _ _ _ QB _ _ W HP HQ HE RO2) as (_ & SI2 & _).
  destruct SI2 as (SL & S1 & S2 & S3 & S4 & S5 & S6 & S8).
  assert (LR : forall k, length (nth k (s_SRec st2) []) = if in_dec Nat.eq_dec k Ks then (p_F p + 1)%nat else 0%nat).
  { intros k. specialize (CNT k). unfold ms in CNT. rewrite filter_about in CNT by (auto; lia).
    rewrite R1, J2, (nth_repeat_len [] [] _ k eq_refl) in CNT. cbn [map app] in CNT. apply (f_equal (@length _)) in CNT.
    rewrite map_length in CNT. rewrite CNT. destruct (in_dec _ _ _); [rewrite map_length, seq_length|]; reflexivity. }
  exists st2. split; [exact RO2|]. split; [exact HE|]. split; [exact LV2|]. split; [|split].
  - intros k Hk. split; [rewrite FC2; apply F1; exact Hk|]. apply S8. rewrite LR. destruct (in_dec _ _ _); [lia|contradiction].
  - intros k. rewrite S1. apply LR.
  - destruct (s_MVBAIn st2) as [|(k, x) l] eqn:EM; [reflexivity|]. exfalso.
    assert (In k (map fst (s_MVBAIn st2))) as Hk by (rewrite EM; left; reflexivity). rewrite EM in Hk. apply S4, S2 in Hk. rewrite S1, LR in Hk.
    destruct (in_dec _ _ _); lia.
Qed.

(** A state in which dealer k has [n] votes and its polynomial is recovered. *)
Definition counting (k n : nat) (st : pst) : Prop :=
  lens p st /\ live st /\ calm st /\ nth k (s_flgCom st) false = true /\ nth k (s_flgRec st) false = true /\
  (forall j, (1 <= j <= p_N p)%nat -> nth j (nth k (s_CQ st) []) ZeroG1 = com s QB k (of_nat j)) /\
  length (nth k (s_SSig st) []) = n.

(** A further valid vote is counted, also when the voter has already voted. *)
Lemma count_again k n st i m : (1 <= k <= p_N p)%nat -> counting k n st -> s_MVBAIn st = [] -> nth k (s_Comb st) None = None ->
  (n + 1 <= 2 * p_F p + 1)%nat ->
  valid_recover cd p sigok QB k (i, m) ->
  exists st', prun cd sign sigok combine p st [EvRecv i m; EvHandle] = Ret st' /\ counting k (n + 1) st' /\
    (if (n + 1 =? 2 * p_F p + 1)%nat then map fst (s_MVBAIn st') = [k] else s_MVBAIn st' = [] /\ nth k (s_Comb st') None = None).
Proof.
  intros Hk (L & (HH & HM) & CA & FC & FR & RW & LN) EI EC Hn (V1 & V2 & w & C & V3 & V4 & V5).
  cbn [fst snd] in V1, V2, V3, V5. pose proof W as (_ & _ & W3 & _).
  destruct (CA HM) as (CB & CS).
  rewrite (commit_com s p QB W (fun k => proj1 (HQ0 k)) k (me p)) in V4.
  assert (C = com s QB k (me p)) by (apply (f_equal (fun x => match x with Ret a => a | _ => ZeroG1 end)) in V4; symmetry; exact V4). subst C.
  cbn [prun pstep]. unfold do_recv. rewrite HH. cbv zeta. rewrite (ReadG1_ok _ _ _ V3). cbn [bind].
  rewrite (proj2 (Z.ltb_ge (Z.of_nat (p_N p)) (rc_Index m))) by lia. cbn [bind fst].
  rewrite V1, Nat2Z.id. unfold do_handle. cbn [s_hold ro_k s_flgCom s_stopped s_busy].
  rewrite FC, CS, CB, (proj2 (Nat.leb_le 1 k)) by lia. cbn [negb andb]. unfold set_hold.
  cbn [s_flgCom s_comDone s_flgRec s_CQ s_Q s_SRec s_SSig s_Comb s_stopped s_MVBAIn s_MVBASent s_busy].
  set (x := mkRecov i k _ w (rc_Sig m)).
  set (st1 := mkPst _ _ _ _ _ _ _ _ _ _ _ _ None).
  assert (L1 : lens p st1) by exact L.
  destruct (recov_check s p sigok QB W HP st1 x L1 Hk RW) as (c & EQ1 & EQ2).
  cbn [ro_k ro_w ro_sender ro_v x] in EQ1.
  assert (c = true).
  { change (of_Z (Xof i)) with (of_Z ((i + 1) mod 2 ^ 32)) in EQ1. unfold me in V5. rewrite V5 in EQ1. 
    apply (f_equal (fun x => match x with Ret a => a | _ => true end)) in EQ1. symmetry. exact EQ1. }
  subst c. unfold handle. rewrite EQ2. cbn [ro_k ro_sig x]. rewrite V2. cbn [andb bind].
  destruct L as (L1' & L2 & L3 & L4 & L5 & L6 & L7 & L8 & L9 & L10 & L11).
  unfold add_point. cbn [ro_k x]. rewrite (idx_nth []) by (cbn [s_SRec st1]; lia). cbn [bind]. cbv zeta.
  change (s_flgRec st1) with (s_flgRec st). rewrite FR. cbn [negb andb bind]. unfold add_sig. cbn [ro_k x s_SSig s_Comb].
  change (s_SSig st1) with (s_SSig st). change (s_Comb st1) with (s_Comb st). rewrite (idx_nth []) by lia. cbn [bind]. cbv zeta. rewrite EC. cbn [negb andb].
  rewrite app_length. cbn [length]. rewrite LN.
  assert (LS : forall A (v : A) l, length (set_nth k v l) = length l) by (intros; apply length_set_nth).
  destruct (Nat.eqb_spec (n + 1) (2 * p_F p + 1)) as [En|En].
  - rewrite (proj2 (Nat.leb_le (2 * p_F p + 1) (n + 1))) by lia. cbn [s_MVBAIn s_MVBASent].
    change (s_MVBAIn st1) with (s_MVBAIn st). change (s_MVBASent st1) with (s_MVBASent st). rewrite EI, HM. cbn [app length negb andb orb].
    rewrite (proj2 (Nat.leb_gt (p_F p + 1) 1)) by lia. cbn [bind fst s_MVBASent].
    eexists. split; [reflexivity|]. split; [|reflexivity].
    split; [unfold lens; cbn [s_flgCom s_comDone s_flgRec s_CQ s_Q s_SRec s_SSig s_Comb s_stopped]; rewrite !LS; unfold st1; cbn [s_flgCom s_comDone s_flgRec s_CQ s_Q s_SRec s_SSig s_Comb s_stopped];
      exact (conj L1' (conj L2 (conj L3 (conj L4 (conj L5 (conj L6 (conj L7 (conj L8 (conj L9 (conj L10 L11))))))))))|].
    split; [split; reflexivity|].
    split; [intros _; split; [reflexivity|exact CS]|]. split; [exact FC|]. split; [exact FR|]. split; [exact RW|].
    cbn [s_SSig]. rewrite nth_set_nth_same by lia. rewrite app_length. cbn [length]. lia.
  - rewrite (proj2 (Nat.leb_gt (2 * p_F p + 1) (n + 1))) by lia. cbn [bind fst s_MVBASent]. change (s_MVBASent st1) with (s_MVBASent st). rewrite HM.
    eexists. split; [reflexivity|]. split; [|split; [exact EI|exact EC]].
    split; [unfold lens; cbn [s_flgCom s_comDone s_flgRec s_CQ s_Q s_SRec s_SSig s_Comb s_stopped]; rewrite !LS; unfold st1; cbn [s_flgCom s_comDone s_flgRec s_CQ s_Q s_SRec s_SSig s_Comb s_stopped];
      exact (conj L1' (conj L2 (conj L3 (conj L4 (conj L5 (conj L6 (conj L7 (conj L8 (conj L9 (conj L10 L11))))))))))|].
    split; [split; [reflexivity|first [exact HM|reflexivity]]|].
    split; [intros _; split; [first [exact CB|reflexivity]|exact CS]|]. split; [exact FC|]. split; [exact FR|]. split; [exact RW|].
    cbn [s_SSig]. rewrite nth_set_nth_same by lia. rewrite app_length. cbn [length]. lia.
Qed.

Lemma count_repeats k x : (1 <= k <= p_N p)%nat -> valid_recover cd p sigok QB k x -> forall j n st, counting k n st -> s_MVBAIn st = [] ->
  nth k (s_Comb st) None = None -> (n + S j = 2 * p_F p + 1)%nat ->
  exists st', prun cd sign sigok combine p st (deliver (repeat x (S j))) = Ret st' /\ map fst (s_MVBAIn st') = [k].
Proof.
  intros Hk V. destruct x as (i, m). induction j as [|j IH]; intros n st C EI EC En.
  - destruct (count_again k n st i m Hk C EI EC ltac:(lia) V) as (st1 & E1 & C1 & X).
    rewrite (proj2 (Nat.eqb_eq (n + 1) (2 * p_F p + 1))) in X by lia. exists st1. split; [exact E1|exact X].
  - destruct (count_again k n st i m Hk C EI EC ltac:(lia) V) as (st1 & E1 & C1 & X).
    rewrite (proj2 (Nat.eqb_neq (n + 1) (2 * p_F p + 1))) in X by lia. destruct X as (X1 & X2).
    destruct (IH (n + 1)%nat st1 C1 X1 X2 ltac:(lia)) as (st2 & E2 & Y). exists st2. split; [|exact Y].
    change (deliver (repeat (i, m) (S (S j)))) with ([EvRecv i m; EvHandle] ++ deliver (repeat (i, m) (S j))).
    rewrite prun_app, E1. exact E2.
Qed.

(** ** C54 A certificate without 2F+1 voters *)

(** The F+1 members that have voted, one of them F more times: the dealer is in the input of the agreement. *)
Theorem c54_voters_refuted : forall k, (1 <= k <= p_N p)%nat ->
  exists evs st, run_of cd p sign sigok combine evs st /\ map fst (s_MVBAIn st) = [k] /\
    exists voters, length voters = (p_F p + 1)%nat /\
      forall i m, In (EvRecv i m) evs -> In i voters /\ valid_recover cd p sigok QB k (i, m).
Proof.
  intros k Hk. assert (HQ : forall k, bdeg (p_F p) (2 * p_F p) (QB k)) by (intros; apply HQ0).
  pose proof W as (_ & _ & W3 & W4 & _).
  destruct (honest_recovery [k]) as (st & (B0 & st0 & HB0 & E0 & E1) & HE & LV & FL & LS & MI).
  { repeat constructor. intros []. }
  { intros j [<-|[]]. exact Hk. }
  destruct (run_inv cd s p sign sigok combine QB _ st W HP HQ HE) as (I & SI & CA); [exists B0, st0; auto|].
  destruct (FL k (or_introl eq_refl)) as (F1 & F2).
  set (x := honest_vote cd s p QB sg (k, 1%nat)).
  assert (HV : forall i, (1 <= i <= p_N p)%nat -> valid_recover cd p sigok QB k (honest_vote cd s p QB sg (k, i))).
  { intros i Hi. apply honest_vote_valid; auto. }
  pose proof (LS k) as LK. destruct (in_dec Nat.eq_dec k [k]) as [_|X]; [|destruct X; left; reflexivity].
  assert (CT : counting k (p_F p + 1) st).
  { destruct I as (I1 & I2 & _). split; [exact I1|]. split; [exact LV|]. split; [exact CA|]. split; [exact F1|]. split; [exact F2|].
    split; [intros j Hj; apply (I2 k Hk F1 j Hj)|exact LK]. }
  assert (CB : nth k (s_Comb st) None = None).
  { destruct (nth k (s_Comb st) None) eqn:EC; [|reflexivity]. exfalso. destruct SI as (_ & _ & _ & _ & S4 & _).
    assert (In k (map fst (s_MVBAIn st))) as Hin by (apply S4; congruence). rewrite MI in Hin. destruct Hin. }
  destruct (count_repeats k x Hk (HV 1%nat ltac:(lia)) (p_F p - 1) _ st CT MI CB ltac:(lia)) as (st' & E2 & EM).
  exists (honest_events [k] (p_F p + 1) ++ deliver (repeat x (S (p_F p - 1)))), st'.
  split; [exists B0, st0; split; [exact HB0|]; split; [exact E0|]; rewrite prun_app, E1; exact E2|].
  split; [exact EM|]. exists (map (fun i => Z.of_nat (i - 1)) (seq 1 (p_F p + 1))).
  split; [rewrite map_length, seq_length; reflexivity|].
  assert (DV : forall ms i m, In (EvRecv i m) (deliver ms) -> In (i, m) ms).
  { clear. intros ms i m H. unfold deliver in H. apply in_flat_map in H. destruct H as ((i', m') & Hin & [E|[E|[]]]); [|discriminate].
    cbn [fst snd] in E. injection E as <- <-. exact Hin. }
  assert (GV : forall i m, (exists j, (1 <= j <= p_F p + 1)%nat /\ (i, m) = honest_vote cd s p QB sg (k, j)) ->
    In i (map (fun i => Z.of_nat (i - 1)) (seq 1 (p_F p + 1))) /\ valid_recover cd p sigok QB k (i, m)).
  { intros i m (j & Hj & E). rewrite E. split; [|apply HV; lia]. apply (f_equal fst) in E. unfold honest_vote in E. cbn [fst snd] in E.
    subst i. apply in_map_iff. exists j. split; [reflexivity|apply in_seq; lia]. }
  intros i m Hin. apply GV. apply in_app_or in Hin. destruct Hin as [Hin|Hin].
  - apply in_app_or in Hin. destruct Hin as [Hin|Hin].
    + destruct Hin as [Hin|[]]. discriminate.
    + apply DV in Hin. apply in_map_iff in Hin. destruct Hin as ((k', j) & E & Hin). apply in_prod_iff in Hin. destruct Hin as ([<-|[]] & Hj).
      apply in_seq in Hj. exists j. split; [lia|symmetry; exact E].
  - apply DV in Hin. apply repeat_spec in Hin. exists 1%nat. split; [lia|exact Hin].
Qed.
End Runs.
Print Assumptions c54_voters_refuted.

(** ** A committee of 4 with one corrupted member *)

(** The member number 1 of 4, three dealers sharing q_k(x,y) = x y, two voters: the hypotheses of
    C23, C24, C25, C26 and C54 are met, and the refreshed share of the secret 7 + 2y is not the old one. *)
Definition demo_q (_ : nat) : list (list Fr) := [[0; 0]; [0; 1]; [0; 0]].

Example refresh_example : exists p st st2 m0,
  NewHonestParty 4 1 0 = Ret p /\ party_wf party_secret p /\ (p_PID p < p_N p)%nat /\
  (forall k, bdeg (p_F p) (2 * p_F p) (demo_q k) /\ beval (demo_q k) 0 0 = 0) /\
  env demo_codec p demo_q (honest_events demo_codec party_secret p demo_q (fun _ => []) [2; 3; 4]%nat 2) /\
  run_of demo_codec p (fun _ => []) (fun _ _ => true) (fun _ _ => [])
    (honest_events demo_codec party_secret p demo_q (fun _ => []) [2; 3; 4]%nat 2) st /\
  s_hold st = None /\ s_MVBASent st = false /\
  (forall k, In k [2; 3; 4]%nat -> nth k (s_flgRec st) false = true) /\
  nth 2 (s_Q st) [] = [0; 1] /\
  (* a message of member 4 could still come: C26 *)
  valid_recover demo_codec p (fun _ _ => true) demo_q 2 m0 /\
  (* refreshing with dealers 2 and 3: C23 *)
  p_reducedShare st2 = [of_Z 9; 0] /\ p_reducedShare st2 = secy [[of_Z 7; 0]; [of_Z 2; 0]; [0; 0]] (me st2) /\
  party_wf party_secret st2 /\
  exists share CQsum, Refresh st2 st [2; 3]%Z = Ret (Some (share, CQsum)) /\ share = [of_Z 9; of_Z 2].
Proof.
  assert (HR : (Z.of_nat (4 + 2) <= r)%Z) by (rewrite r_eq; lia).
  destruct (new_party 4 1 0) as (p & EP & WP & PN & PF & PI); [lia|lia|exact HR|].
  assert (HQ : forall k, bdeg (p_F p) (2 * p_F p) (demo_q k) /\ beval (demo_q k) 0 0 = 0).
  { intros k. rewrite PF. split; [split; [reflexivity|repeat constructor]|]. unfold demo_q. cbn [beval secy map peval]. ring. }
  assert (HP : (p_PID p < p_N p)%nat) by (rewrite PN, PI; lia).
  assert (HN : (Z.of_nat (p_N p) < 2 ^ 32)%Z) by (rewrite PN; reflexivity).
  destruct (honest_recovery demo_codec party_secret p demo_q (fun _ => []) (fun _ _ => true) (fun _ _ => []) (fun _ => [])
    demo_codec_ok WP HP HN HQ (fun _ => eq_refl) [2; 3; 4]%nat) as (st & RO & HE & (H1 & H2) & FL & _ & _).
  { repeat constructor; simpl; lia. }
  { intros k Hk. rewrite PN. simpl in Hk. lia. }
  rewrite PF in RO, HE. set (B := [[of_Z 7; 0]; [of_Z 2; 0]; [0; 0]]).
  set (p2 := set_reducedShare p [of_Z 9; 0]).
  assert (ME : me p = 1) by (unfold me; rewrite PI; reflexivity).
  assert (ES : p_reducedShare p2 = secy B (me p2)).
  { unfold p2, me. cbn [set_reducedShare p_PID p_reducedShare]. rewrite PI. vm_compute. reflexivity. }
  assert (W2 : party_wf party_secret p2) by exact WP.
  exists p, st, p2, (honest_vote demo_codec party_secret p demo_q (fun _ => []) (2, 4)%nat).
  split; [exact EP|]. split; [exact WP|]. split; [exact HP|]. split; [exact HQ|]. split; [exact HE|]. split; [exact RO|].
  split; [exact H1|]. split; [exact H2|]. split; [intros k Hk; apply FL; exact Hk|]. split.
  { rewrite (c26_recovered _ _ _ _ _ _ demo_q _ st 2%nat WP HP (fun k => proj1 (HQ k)) HE RO);
      [|rewrite PN; lia|apply FL; left; reflexivity]. rewrite ME. vm_compute. reflexivity. }
  split; [apply (honest_vote_valid demo_codec party_secret p demo_q WP (fun k => proj1 (HQ k)));
    [exact HP|exact demo_codec_ok|exact HN|reflexivity|rewrite PN; lia]|].
  split; [reflexivity|]. split; [exact ES|]. split; [exact W2|].
  assert (HB : bdeg (p_F p2) (2 * p_F p2) B).
  { change (p_F p2) with (p_F p). rewrite PF. split; [reflexivity|repeat constructor]. }
  destruct (c23_refresh (p_N p2) (p_F p2) B demo_q [2; 3]%Z HB (fun k => proj1 (HQ k))) as (B' & HB' & _ & EB & R).
  { intros j _. apply HQ. }
  destruct (R demo_codec party_secret p2 (fun _ => []) (fun _ _ => true) (fun _ _ => []) _ st W2 eq_refl eq_refl HP ES HE RO)
    as (CQsum & ER & _).
  { intros j Hj. change (p_N p2) with (p_N p). rewrite PN. simpl in Hj. split; [lia|]. apply FL. destruct Hj as [<-|[<-|[]]]; simpl; auto. }
  eexists. exists CQsum. split; [exact ER|]. change (me p2) with (me p). rewrite ME.
  assert (L2 : length (secy B' 1) = 2%nat).
  { rewrite (length_secy (p_F p2) (2 * p_F p2)) by exact HB'. change (p_F p2) with (p_F p). rewrite PF. reflexivity. }
  apply (poly_unique_list [0; 1]).
  - constructor; [intros [E|[]]; apply f1_neq_0; exact E|repeat constructor; intros []].
  - exact L2.
  - rewrite L2. simpl. lia.
  - assert (E9 : of_Z 9 = of_Z 7 + of_Z 2) by (vm_compute; reflexivity).
    assert (E2 : of_Z 2 = 1 + 1) by (vm_compute; reflexivity).
    intros x _. rewrite peval_secy, EB, E9. unfold total, B, demo_q, beval. cbn [map fsum secy peval]. rewrite E2. ring.
Qed.
