(** Recovery of the refreshing polynomials from a sequence of messages. *)

Require Import ZArith List Lia Bool Arith Permutation.
From Verif Require Import Prime Fr Bytes CodecModel CodecProofs GoBase Poly Biv BivProofs PolyModel PolyProofs
  GroupModel KzgModel KzgProofs PartyModel PartySpec VssModel VssProofs VssProofs2 ReduceModel ReduceProofs
  ProacModel ProacProofs ProacRun ProacSig.
Import ListNotations.
Local Open Scope F_scope.

(** Each message is taken by the receiving goroutine and handed to the handler. *)
Definition deliver (ms : list (Z * RecoverMsg)) : list pev :=
  flat_map (fun x => [EvRecv (fst x) (snd x); EvHandle]) ms.

Lemma recvs_deliver ms : recvs (deliver ms) = map (fun x => (Xof (fst x), rc_Index (snd x))) ms.
Proof. unfold recvs, deliver. induction ms as [|x ms IH]; cbn [flat_map map app]; [reflexivity|]. f_equal. exact IH. Qed.

Lemma recvs_app a b : recvs (a ++ b) = recvs a ++ recvs b.
Proof. unfold recvs. apply flat_map_app. Qed.

(** The dealer a message is about. *)
Definition dealer (x : Z * RecoverMsg) : nat := Z.to_nat (rc_Index (snd x)).

Section Deliver.
Variables (cd : g1codec) (s : Fr) (p : Party).
Variables (sign : nat -> list Z) (sigok : nat -> list Z -> bool) (combine : nat -> list (list Z) -> list Z).
Variable QB : nat -> list (list Fr).
Notation F := (p_F p).
Notation N := (p_N p).
Notation me := (of_nat (p_PID p + 1)).
Hypothesis W : party_wf s p.
Hypothesis HP : (p_PID p < N)%nat.
Hypothesis HQ : forall k, (1 <= k <= N)%nat -> bdeg F (2 * F) (QB k).

(** The message opens the commitment to Q_k(., me) at i+1 and carries a valid signature share. *)
Definition vmsg (k : nat) (x : Z * RecoverMsg) : bool :=
  match FromCompressedG1 cd (rc_W (snd x)) with
  | Some w =>
    match CheckProofSingle (p_KZG p) (com s QB k me) w (of_Z (Xof (fst x))) (FrFrom32_into 0 (to32 (rc_V (snd x)))) with
    | Ret c => c && sigok k (rc_Sig (snd x))
    | _ => false
    end
  | None => false
  end.

(** Valid messages about dealer k. *)
Definition about (k : nat) (x : Z * RecoverMsg) : bool := (dealer x =? k)%nat && vmsg k x.

(** The receiving goroutine is free and the agreement has not been called. *)
Definition live (st : pst) : Prop := s_hold st = None /\ s_MVBASent st = false.

Lemma prun_app : forall l1 l2 st, prun cd sign sigok combine p st (l1 ++ l2) =
  bind (prun cd sign sigok combine p st l1) (fun st' => prun cd sign sigok combine p st' l2).
Proof.
  induction l1 as [|e l1 IH]; intros l2 st; [reflexivity|]. cbn [app prun].
  destruct (pstep cd sign sigok combine p st e) as [x| | |]; cbn [bind]; [apply IH|reflexivity..].
Qed.

Lemma add_point_SRec st x st' : add_point p st x = Ret st' ->
  s_SRec st' = set_nth (ro_k x) (nth (ro_k x) (s_SRec st) [] ++ [(Xof (ro_sender x), ro_v x)]) (s_SRec st).
Proof.
  unfold add_point. intros E. apply bind_ret in E. destruct E as (old & Eo & E).
  pose proof (idx_Ret _ _ _ Eo) as (Lk & _). rewrite (idx_nth []) in Eo by lia. injection Eo as <-.
  destruct (_ && _) in E.
  - apply bind_ret in E. destruct E as (q & _ & E). injection E as <-. reflexivity.
  - injection E as <-. reflexivity.
Qed.

(** Messages never stop a member as long as they decode and name a dealer that exists. *)
Lemma deliver_ok done st i m : inv s p QB done st ->
  (rc_Index m <= Z.of_nat N)%Z -> FromCompressedG1 cd (rc_W m) <> None ->
  ev_ok cd s p QB (EvRecv i m) -> ~ In (Xof i, rc_Index m) (recvs done) ->
  exists st', prun cd sign sigok combine p st [EvRecv i m; EvHandle] = Ret st' /\
    inv s p QB (done ++ [EvRecv i m; EvHandle]) st'.
Proof.
  intros I EI DW OK NI. destruct (FromCompressedG1 cd (rc_W m)) as [w|] eqn:EW; [clear DW|congruence].
  assert (E1 : exists st1, do_recv cd p st i m = Ret st1).
  { unfold do_recv. destruct (s_hold st); [eauto|]. unfold ReadG1. rewrite EW. cbn [bind].
    destruct (Z.ltb_spec (Z.of_nat N) (rc_Index m)); [lia|eauto]. }
  destruct E1 as (st1 & E1). pose proof (do_recv_inv cd s p QB HP done st i m st1 I OK NI E1) as I1.
  destruct (do_handle_inv s p sigok combine QB W HP HQ _ st1 I1) as (st2 & E2 & I2).
  exists st2. split.
  - cbn [prun pstep]. rewrite E1. cbn [bind fst]. rewrite E2. reflexivity.
  - replace (done ++ [EvRecv i m; EvHandle]) with ((done ++ [EvRecv i m]) ++ [EvHandle]) by (rewrite <- app_assoc; reflexivity).
    exact I2.
Qed.

Lemma deliver_one done st i m st' : inv s p QB done st -> live st -> calm st ->
  (1 <= dealer (i, m) <= N)%nat -> nth (dealer (i, m)) (s_flgCom st) false = true ->
  ev_ok cd s p QB (EvRecv i m) -> ~ In (Xof i, rc_Index m) (recvs done) ->
  prun cd sign sigok combine p st [EvRecv i m; EvHandle] = Ret st' ->
  s_hold st' = None /\ s_flgCom st' = s_flgCom st /\
  forall k, map fst (nth k (s_SRec st') []) =
    map fst (nth k (s_SRec st) []) ++ (if about k (i, m) then [Xof i] else []).
Proof.
  intros I (F1 & F5) C Hk F2 OK NI E. destruct (C F5) as (F4 & F3).
  cbn [prun pstep] in E. apply bind_ret in E. destruct E as ((st1 & ms) & E1 & E).
  apply bind_ret in E1. destruct E1 as (st1' & E1 & E1'). injection E1' as <- _. cbn [fst] in E.
  apply bind_ret in E. destruct E as ((st2 & ms2) & E2 & E). injection E as <-.
  apply bind_ret in E2. destruct E2 as (st2' & E2 & E2'). injection E2' as <- _.
  pose proof (do_recv_inv cd s p QB HP done st i m st1' I OK NI E1) as I1.
  unfold do_recv in E1. rewrite F1 in E1. apply bind_ret in E1. destruct E1 as (w & EW & E1).
  unfold ReadG1 in EW. destruct (FromCompressedG1 cd (rc_W m)) as [w'|] eqn:EW'; [|discriminate]. injection EW as ->.
  destruct (_ <? _)%Z in E1; [discriminate|]. change (Z.to_nat (rc_Index m)) with (dealer (i, m)) in E1.
  set (k := dealer (i, m)) in *.
  set (x := mkRecov i k (FrFrom32_into 0 (to32 (rc_V m))) w (rc_Sig m)) in *.
  assert (HX : s_hold st1' = Some x) by (injection E1 as <-; reflexivity).
  assert (HO : s_flgCom st1' = s_flgCom st /\ s_busy st1' = s_busy st /\ s_stopped st1' = s_stopped st /\
     s_SRec st1' = s_SRec st) by (injection E1 as <-; auto).
  destruct HO as (O1 & O2 & O3 & O4). clear E1.
  unfold do_handle in E2. rewrite HX in E2. change (ro_k x) with k in E2.
  rewrite O1, O2, O3, F2, F3, F4 in E2. cbn [negb andb] in E2. rewrite (proj2 (Nat.leb_le 1 k)) in E2 by lia.
  pose proof (inv_drop s p QB _ st1' I1) as I0. pose proof I0 as (LL0 & A0 & _).
  set (st0 := set_hold st1' None) in *.
  assert (Z1 : s_flgCom st0 = s_flgCom st) by exact O1. assert (Z2 : s_SRec st0 = s_SRec st) by exact O4.
  assert (Z3 : s_hold st0 = None) by reflexivity.
  unfold handle in E2.
  destruct (recov_check s p sigok QB W HP st0 x LL0) as (c & EC & EO).
  { cbn [ro_k x]. exact Hk. }
  { intros j Hj. apply A0; [exact Hk|rewrite Z1; apply F2|exact Hj]. }
  rewrite EO in E2. cbn [bind] in E2. cbn [ro_k ro_sig x] in E2.
  assert (EVM : vmsg k (i, m) = c && sigok k (rc_Sig m)).
  { unfold vmsg. cbn [fst snd]. rewrite EW'. cbn [ro_k ro_w ro_sender ro_v x] in EC. rewrite EC. reflexivity. }
  assert (AB : forall k', about k' (i, m) = (k =? k')%nat && (c && sigok k (rc_Sig m))).
  { intros k'. unfold about. fold k. destruct (Nat.eqb_spec k k') as [<-|Ne]; [|reflexivity]. rewrite EVM. reflexivity. }
  rewrite <- EVM in E2. apply bind_ret in E2. destruct E2 as (st2 & E2 & E3).
  assert (G : s_hold st2 = None /\ s_flgCom st2 = s_flgCom st /\
    forall k, map fst (nth k (s_SRec st2) []) = map fst (nth k (s_SRec st) []) ++ (if about k (i, m) then [Xof i] else [])).
  { rewrite EVM in E2. destruct (c && sigok k (rc_Sig m)) eqn:GC.
    - apply andb_true_iff in GC. destruct GC as (-> & _).
      pose proof I1 as (_ & _ & _ & D & _ & H & _). destruct (D k ltac:(lia)) as (D1 & D2).
      unfold holdx in D1, D2. rewrite HX in D1, D2. cbn [ro_k x] in D1, D2. rewrite Nat.eqb_refl in D1, D2. cbn [app ro_sender] in D1, D2.
      destruct (H x HX) as (_ & HV).
      destruct (add_point_inv s p QB HP HQ _ st0 x I0) as (sta & Ea & Ia & B1 & B2 & B3 & B4 & B5 & B6 & B7 & B8 & B9 & B10); auto.
      { cbn [ro_k x]. rewrite Z1. exact F2. }
      { cbn [ro_k ro_sender x]. rewrite Z2, <- O4. inversion D1; assumption. }
      { apply D2. left. reflexivity. }
      rewrite Ea in E2. cbn [bind] in E2.
      destruct (add_sig_inv s p combine QB HP _ sta x Ia ltac:(cbn; lia)) as (stb & Eb & Ib & C1 & C2 & C3 & C4 & C5).
      rewrite Eb in E2. injection E2 as <-. split; [congruence|]. split; [congruence|].
      intros k'. rewrite C4, (add_point_SRec _ _ _ Ea), Z2, AB, andb_true_r. cbn [ro_k ro_sender x].
      pose proof LL0 as (_ & _ & _ & _ & _ & L6 & _). rewrite Z2 in L6.
      destruct (Nat.eqb_spec k k') as [<-|Ne].
      + rewrite nth_set_nth_same by lia. rewrite map_app. reflexivity.
      + rewrite nth_set_nth_other by exact Ne. rewrite app_nil_r. reflexivity.
    - injection E2 as <-. split; [exact Z3|]. split; [exact Z1|]. intros k'. rewrite AB, andb_false_r, app_nil_r, Z2. reflexivity. }
  injection E3 as <-. destruct (s_MVBASent st2); exact G.
Qed.

(** A sequence of messages about dealers whose commitments are accepted: unless the agreement is called
    meanwhile, every valid message is counted. *)
Definition msgs_ok (flg : list bool) (done : list pev) (ms : list (Z * RecoverMsg)) : Prop :=
  (forall i m, In (i, m) ms -> (1 <= dealer (i, m) <= N)%nat /\ nth (dealer (i, m)) flg false = true /\
     FromCompressedG1 cd (rc_W m) <> None /\ ev_ok cd s p QB (EvRecv i m)) /\
  NoDup (recvs (done ++ deliver ms)).

Lemma msgs_ok_cons flg done i m ms : msgs_ok flg done ((i, m) :: ms) ->
  ~ In (Xof i, rc_Index m) (recvs done) /\ msgs_ok flg (done ++ [EvRecv i m; EvHandle]) ms.
Proof.
  intros (A & B). split.
  - rewrite recvs_app in B. change (deliver ((i, m) :: ms)) with ([EvRecv i m; EvHandle] ++ deliver ms) in B.
    rewrite recvs_app in B. cbn [recvs flat_map app] in B. apply NoDup_remove_2 in B. intros X. apply B.
    apply in_or_app. left. exact X.
  - split; [intros i' m' Hin; apply A; right; exact Hin|]. rewrite <- app_assoc. exact B.
Qed.

Lemma sent_mono : forall evs st st', prun cd sign sigok combine p st evs = Ret st' ->
  s_MVBASent st = true -> s_MVBASent st' = true.
Proof.
  induction evs as [|e evs IH]; intros st st' E S; cbn [prun] in E; [injection E as <-; exact S|].
  apply bind_ret in E. destruct E as ((st1 & ms) & E1 & E). apply (IH st1 _ E). clear E IH. cbn [fst].
  destruct e; cbn [pstep] in E1.
  - apply bind_ret in E1. destruct E1 as (st2 & E1 & E). injection E as <- _. unfold do_commit in E1.
    destruct (_ || _); [injection E1 as <-; exact S|].
    apply bind_ret in E1. destruct E1 as (row & _ & E1). apply bind_ret in E1. destruct E1 as ((ok & row') & _ & E1).
    apply bind_ret in E1. destruct E1 as (CQ & _ & E1). injection E1 as <-. exact S.
  - apply bind_ret in E1. destruct E1 as (st2 & E1 & E). injection E as <- _. exact S.
  - apply bind_ret in E1. destruct E1 as (st2 & E1 & E). injection E as <- _. unfold do_recv in E1.
    destruct (s_hold st); [injection E1 as <-; exact S|].
    apply bind_ret in E1. destruct E1 as (w & _ & E1). destruct (_ <? _)%Z; [discriminate|].
    injection E1 as <-. exact S.
  - apply bind_ret in E1. destruct E1 as (st2 & E1 & E). injection E as <- _. unfold do_handle in E1.
    destruct (s_hold st) as [x|]; [|injection E1 as <-; exact S].
    destruct (_ && _ && _ && _); [|injection E1 as <-; exact S].
    unfold handle in E1. apply bind_ret in E1. destruct E1 as (ok & _ & E).
    apply bind_ret in E. destruct E as (st3 & E2 & E).
    assert (S3 : s_MVBASent st3 = true).
    { destruct ok; [|injection E2 as <-; exact S].
      apply bind_ret in E2. destruct E2 as (st4 & E3 & E2). 
      assert (S4 : s_MVBASent st4 = true).
      { unfold add_point in E3. apply bind_ret in E3. destruct E3 as (old & _ & E3). destruct (_ && _) in E3.
        - apply bind_ret in E3. destruct E3 as (q & _ & E3). injection E3 as <-. exact S.
        - injection E3 as <-. exact S. }
      unfold add_sig in E2. apply bind_ret in E2. destruct E2 as (old & _ & E2).
      destruct (_ && _)%bool in E2; injection E2 as <-; cbn [s_MVBASent]; rewrite S4; reflexivity. }
    injection E as <-. rewrite S3. reflexivity.
  - injection E1 as <- _. exact S.
Qed.

Lemma deliver_run : forall ms done st, inv s p QB done st -> calm st -> live st ->
  msgs_ok (s_flgCom st) done ms ->
  exists st', prun cd sign sigok combine p st (deliver ms) = Ret st' /\
    inv s p QB (done ++ deliver ms) st' /\ calm st' /\
    (s_MVBASent st' = false -> live st' /\ s_flgCom st' = s_flgCom st /\
     forall k, map fst (nth k (s_SRec st') []) =
       map fst (nth k (s_SRec st) []) ++ map (fun x => Xof (fst x)) (filter (about k) ms)).
Proof.
  induction ms as [|(i, m) ms IH]; intros done st I C L MO.
  - exists st. cbn [deliver flat_map prun filter map]. rewrite app_nil_r. split; [reflexivity|]. split; [exact I|].
    split; [exact C|]. intros _. split; [exact L|]. split; [reflexivity|]. intros k. rewrite app_nil_r. reflexivity.
  - destruct (msgs_ok_cons _ _ _ _ _ MO) as (NI & MO1).
    destruct (proj1 MO i m (or_introl eq_refl)) as (M1 & M2 & M3 & M4).
    assert (M5 : (rc_Index m <= Z.of_nat N)%Z) by (unfold dealer in M1; cbn [snd] in M1; lia).
    destruct (deliver_ok done st i m I M5 M3 M4 NI) as (st1 & E1 & I1).
    destruct (deliver_one done st i m st1 I L C M1 M2 M4 NI E1) as (H1 & G1 & R1).
    pose proof (prun_calm cd p sign sigok combine _ _ _ C E1) as C1.
    change (deliver ((i, m) :: ms)) with ([EvRecv i m; EvHandle] ++ deliver ms).
    destruct (s_MVBASent st1) eqn:EM.
    + (* the run goes on *)
      assert (X : forall ms done st, inv s p QB done st -> calm st -> msgs_ok (s_flgCom st1) done ms ->
                exists st', prun cd sign sigok combine p st (deliver ms) = Ret st' /\ inv s p QB (done ++ deliver ms) st').
      { clear - W HP HQ. induction ms as [|(i, m) ms IH]; intros done st I C MO.
        - exists st. cbn [deliver flat_map prun]. rewrite app_nil_r. auto.
        - destruct (msgs_ok_cons _ _ _ _ _ MO) as (NI & MO1).
          destruct (proj1 MO i m (or_introl eq_refl)) as (M1 & M2 & M3 & M4).
          assert (M5 : (rc_Index m <= Z.of_nat N)%Z) by (unfold dealer in M1; cbn [snd] in M1; lia).
          destruct (deliver_ok done st i m I M5 M3 M4 NI) as (st2 & E1 & I1).
          pose proof (prun_calm cd p sign sigok combine _ _ _ C E1) as C1.
          destruct (IH _ st2 I1 C1 MO1) as (st' & E' & I').
          exists st'. change (deliver ((i, m) :: ms)) with ([EvRecv i m; EvHandle] ++ deliver ms).
          rewrite prun_app, E1. cbn [bind]. split; [exact E'|]. rewrite app_assoc. exact I'. }
      rewrite <- G1 in MO1. destruct (X ms _ st1 I1 C1 MO1) as (st' & E' & I').
      exists st'. rewrite prun_app, E1. cbn [bind]. split; [exact E'|]. rewrite app_assoc. split; [exact I'|].
      split; [exact (prun_calm cd p sign sigok combine _ _ _ C1 E')|].
      intros S. rewrite (sent_mono _ _ _ E' EM) in S. discriminate.
    + assert (L1 : live st1) by (split; assumption). rewrite <- G1 in MO1.
      destruct (IH _ st1 I1 C1 L1 MO1) as (st' & E' & I' & C' & T').
      exists st'. rewrite prun_app, E1. cbn [bind]. split; [exact E'|]. rewrite app_assoc. split; [exact I'|].
      split; [exact C'|]. intros S. destruct (T' S) as (T1 & T2 & T3). split; [exact T1|]. split; [congruence|].
      intros k. rewrite T3, R1, <- app_assoc. f_equal. cbn [filter]. destruct (about k (i, m)); reflexivity.
Qed.

(** With fewer than F+1 dealers that can reach 2F+1 votes the agreement is not called. *)
Lemma deliver_few (L : list nat) : (length L <= F)%nat -> forall ms done st st',
  inv s p QB done st -> sinv p st -> calm st -> live st -> msgs_ok (s_flgCom st) done ms ->
  (forall k, ~ In k L -> (length (nth k (s_SRec st) []) + length (filter (about k) ms) <= 2 * F)%nat) ->
  prun cd sign sigok combine p st (deliver ms) = Ret st' -> s_MVBASent st' = false.
Proof.
  intros HL. induction ms as [|(i, m) ms IH]; intros done st st' I SI C LV MO B E.
  - cbn [deliver flat_map prun] in E. injection E as <-. apply LV.
  - change (deliver ((i, m) :: ms)) with ([EvRecv i m; EvHandle] ++ deliver ms) in E. rewrite prun_app in E.
    apply bind_ret in E. destruct E as (st1 & E1 & E).
    destruct (msgs_ok_cons _ _ _ _ _ MO) as (NI & MO1).
    destruct (proj1 MO i m (or_introl eq_refl)) as (M1 & M2 & M3 & M4).
    assert (M5 : (rc_Index m <= Z.of_nat N)%Z) by (unfold dealer in M1; cbn [snd] in M1; lia).
    destruct (deliver_ok done st i m I M5 M3 M4 NI) as (st1' & E1' & I1). rewrite E1 in E1'. injection E1' as <-.
    destruct (deliver_one done st i m st1 I LV C M1 M2 M4 NI E1) as (H1 & G1 & R1).
    pose proof (prun_calm cd p sign sigok combine _ _ _ C E1) as C1.
    pose proof (prun_sinv cd p sign sigok combine _ _ _ SI E1) as SI1.
    assert (LEN : forall k, (length (nth k (s_SRec st1) []) =
              length (nth k (s_SRec st) []) + if about k (i, m) then 1 else 0)%nat).
    { intros k. pose proof (f_equal (@length Z) (R1 k)) as X. rewrite app_length, !map_length in X. rewrite X.
      destruct (about k (i, m)); reflexivity. }
    assert (B1 : forall k, ~ In k L -> (length (nth k (s_SRec st1) []) + length (filter (about k) ms) <= 2 * F)%nat).
    { intros k Hk. specialize (B k Hk). cbn [filter] in B. specialize (LEN k).
      destruct (about k (i, m)); cbn [length] in B; lia. }
    assert (S1 : s_MVBASent st1 = false).
    { destruct (s_MVBASent st1) eqn:EM; [exfalso|reflexivity].
      destruct SI1 as (_ & S1 & S2 & S3 & S4 & S5 & _). apply S5 in EM.
      assert (X : (length (map fst (s_MVBAIn st1)) <= length L)%nat).
      { apply NoDup_incl_length; [exact S3|]. intros k Hk. destruct (in_dec Nat.eq_dec k L) as [|NL]; [assumption|].
        exfalso. apply S4, S2 in Hk. rewrite S1 in Hk. specialize (B1 k NL). lia. }
      rewrite map_length in X. lia. }
    rewrite <- G1 in MO1. apply (IH _ st1 st' I1 SI1 C1 (conj H1 S1) MO1 B1 E).
Qed.
End Deliver.
