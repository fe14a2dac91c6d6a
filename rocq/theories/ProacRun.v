(** Invariants of a member's run through Proactivize and ShareDist. *)

Require Import ZArith List Lia Bool Arith Permutation.
From Verif Require Import Prime Fr Bytes CodecModel CodecProofs GoBase Poly Biv BivProofs PolyModel PolyProofs
  GroupModel KzgModel KzgProofs PartyModel PartySpec VssModel VssProofs VssProofs2 ReduceModel ReduceProofs
  ProacModel ProacProofs.
Import ListNotations.
Local Open Scope F_scope.

Lemma nth_repeat_any {A} (a d : A) n i : nth i (repeat a n) d = a \/ nth i (repeat a n) d = d.
Proof. revert i. induction n as [|n IH]; intros [|i]; cbn [repeat nth]; auto. Qed.

Lemma nth_repeat_in {A} (a d : A) n i : (i < n)%nat -> nth i (repeat a n) d = a.
Proof. revert i. induction n as [|n IH]; intros [|i] H; cbn [repeat nth]; auto; try lia. apply IH. lia. Qed.

(** ** Recovering *)

Section Run.
Variables (cd : g1codec) (s : Fr) (p : Party).
Variables (sign : nat -> list Z) (sigok : nat -> list Z -> bool) (combine : nat -> list (list Z) -> list Z).
(** The polynomials behind the commitments of the dealers. *)
Variable QB : nat -> list (list Fr).
Notation F := (p_F p).
Notation N := (p_N p).
Notation me := (of_nat (p_PID p + 1)).

Definition com (k : nat) (y : Fr) : G1 := mkG1 (peval (secx (QB k) s) y).

(** What is assumed of the delivered messages: accepted commitments belong to [QB]; openings are not
    forged. *)
Definition ev_ok (e : pev) : Prop :=
  match e with
  | EvCommit k data => (1 <= k <= N)%nat -> forall c, decodes cd F data c ->
      forall j, (1 <= j <= 2 * F + 1)%nat -> CBj (c j) = com k (of_nat j)
  | EvRecv sender m => (0 <= sender < 2 ^ 32)%Z /\ (0 <= rc_Index m)%Z /\ forall w, FromCompressedG1 cd (rc_W m) = Some w ->
      let k := Z.to_nat (rc_Index m) in let X := of_Z (Xof sender) in
      let v := FrFrom32_into 0 (to32 (rc_V m)) in
      CheckProofSingle (p_KZG p) (com k me) w X v = Ret true -> v = beval (QB k) X me
  | _ => True
  end.

Definition recvs (evs : list pev) : list (Z * Z) :=
  flat_map (fun e => match e with EvRecv i m => [(Xof i, rc_Index m)] | _ => [] end) evs.

Definition holdx (st : pst) (k : nat) : list Z :=
  match s_hold st with Some x => if (ro_k x =? k)%nat then [Xof (ro_sender x)] else [] | None => [] end.

Definition lens (st : pst) : Prop :=
  length (s_flgCom st) = (N + 1)%nat /\ length (s_comDone st) = (N + 1)%nat /\
  length (s_flgRec st) = (N + 1)%nat /\ length (s_CQ st) = (N + 1)%nat /\ length (s_Q st) = (N + 1)%nat /\
  length (s_SRec st) = (N + 1)%nat /\ length (s_SSig st) = (N + 1)%nat /\
  length (s_Comb st) = (N + 1)%nat /\ length (s_stopped st) = (N + 1)%nat /\
  (forall k, (k <= N)%nat -> length (nth k (s_CQ st) []) = (N + 1)%nat) /\
  (forall k, (k <= N)%nat -> length (nth k (s_Q st) []) = (F + 1)%nat).

Definition inv (done : list pev) (st : pst) : Prop :=
  lens st /\
  (forall k, (1 <= k <= N)%nat -> nth k (s_flgCom st) false = true ->
     forall j, (1 <= j <= N)%nat -> nth j (nth k (s_CQ st) []) ZeroG1 = com k (of_nat j)) /\
  (forall k e, (1 <= k <= N)%nat -> In e (nth k (s_SRec st) []) ->
     (0 <= fst e < 2 ^ 32)%Z /\ snd e = beval (QB k) (of_Z (fst e)) me) /\
  (forall k, (k <= N)%nat -> NoDup (holdx st k ++ map fst (nth k (s_SRec st) [])) /\
     forall x, In x (holdx st k ++ map fst (nth k (s_SRec st) [])) -> In (x, Z.of_nat k) (recvs done)) /\
  (forall k, (1 <= k <= N)%nat ->
     if nth k (s_flgRec st) false
     then nth k (s_Q st) [] = secy (QB k) me /\ nth k (s_flgCom st) false = true
     else (length (nth k (s_SRec st) []) <= F)%nat) /\
  (forall x, s_hold st = Some x -> (ro_k x <= N)%nat /\
     (CheckProofSingle (p_KZG p) (com (ro_k x) me) (ro_w x) (of_Z (Xof (ro_sender x))) (ro_v x) = Ret true ->
      ro_v x = beval (QB (ro_k x)) (of_Z (Xof (ro_sender x))) me)) /\
  (forall k, nth k (s_comDone st) false = false -> nth k (s_flgCom st) false = false).

Hypothesis W : party_wf s p.
Hypothesis HP : (p_PID p < N)%nat.
Hypothesis HQ : forall k, (1 <= k <= N)%nat -> bdeg F (2 * F) (QB k).

Lemma recvs_snoc done e : recvs (done ++ [e]) = recvs done ++ recvs [e].
Proof. unfold recvs. rewrite flat_map_app. reflexivity. Qed.

Lemma in_recvs done e x : In x (recvs done) -> In x (recvs (done ++ [e])).
Proof. rewrite recvs_snoc, in_app_iff. auto. Qed.

Lemma nth_set_bool k j (l : list bool) : nth k (set_nth j true l) false = true ->
  k = j \/ nth k l false = true.
Proof.
  rewrite nth_set_nth. destruct (Nat.eqb_spec j k); cbn [andb]; [left; auto|right; assumption].
Qed.

Lemma do_commit_inv done st j data st' : inv done st -> ev_ok (EvCommit j data) ->
  do_commit cd p st j data = Ret st' -> inv (done ++ [EvCommit j data]) st'.
Proof.
  intros (LL & A & P & D & R & H & K) OK E.
  assert (D' : forall k, (k <= N)%nat -> NoDup (holdx st k ++ map fst (nth k (s_SRec st) [])) /\
     forall x, In x (holdx st k ++ map fst (nth k (s_SRec st) [])) ->
       In (x, Z.of_nat k) (recvs (done ++ [EvCommit j data]))).
  { intros k Hk. destruct (D k Hk) as (D1 & D2). split; [exact D1|]. intros x Hx. apply in_recvs, D2, Hx. }
  unfold do_commit in E.
  destruct (negb ((1 <=? j) && (j <=? N))%nat || nth j (s_comDone st) true) eqn:G.
  { injection E as <-. repeat (split; [assumption|]). assumption. }
  apply orb_false_iff in G. destruct G as (G1 & G2). apply negb_false_iff, andb_true_iff in G1.
  rewrite !Nat.leb_le in G1. destruct LL as (L1 & L2 & L3 & L4 & L5 & L6 & L7 & L8 & L9 & L10 & L11).
  rewrite (nth_indep _ true false) in G2 by lia.
  rewrite (idx_nth []) in E by lia. cbn [bind] in E.
  destruct (VerifyCommit cd p (nth j (s_CQ st) []) data) as [(ok, row')| | |] eqn:EV; try discriminate.
  cbn [bind] in E. unfold upd in E. rewrite (proj2 (Nat.ltb_lt j (length (s_CQ st)))) in E by lia.
  cbn [bind] in E. injection E as <-.
  destruct (verify_commit_decodes cd p data _ _ EV) as (c & Dc).
  destruct (verify_commit_spec cd s p W data c (nth j (s_CQ st) []) Dc ltac:(apply L10; lia))
    as (b & row'' & EV' & LR & _ & RT & _).
  rewrite EV in EV'. injection EV' as <- <-.
  assert (LEN : lens (mkPst (if ok then set_nth j true (s_flgCom st) else s_flgCom st)
      (set_nth j true (s_comDone st)) (s_flgRec st) (set_nth j row' (s_CQ st)) (s_Q st) (s_SRec st) (s_SSig st)
      (s_Comb st) (s_stopped st) (s_MVBAIn st) (s_MVBASent st) (s_busy st) (s_hold st))).
  { unfold lens. cbn. repeat split; auto; rewrite ?length_set_nth; auto.
    - destruct ok; rewrite ?length_set_nth; assumption.
    - intros k Hk. rewrite nth_set_nth. destruct (Nat.eqb_spec j k) as [->|]; cbn [andb]; [|auto].
      rewrite (proj2 (Nat.ltb_lt k (length (s_CQ st)))) by lia. exact LR. }
  split; [exact LEN|]. cbn [s_flgCom s_comDone s_flgRec s_CQ s_Q s_SRec s_hold].
  split; [|split; [exact P|split; [exact D'|split; [|split; [exact H|]]]]].
  - intros k Hk Hf i Hi. destruct (Nat.eq_dec j k) as [->|Ne].
    + rewrite nth_set_nth_same by lia. destruct ok.
      * apply (RT eq_refl (secx (QB k) s)); [|intros x Hx; apply (OK Hk c Dc x Hx)|exact Hi].
        rewrite length_secx. destruct (HQ k Hk) as (-> & _). lia.
      * rewrite (K k G2) in Hf. discriminate.
    + rewrite nth_set_nth_other by exact Ne. apply A; [exact Hk| |exact Hi].
      destruct ok; [|exact Hf]. rewrite nth_set_nth_other in Hf by exact Ne. exact Hf.
  - intros k Hk. specialize (R k Hk). destruct (nth k (s_flgRec st) false); [|exact R].
    destruct R as (R1 & R2). split; [exact R1|]. destruct ok; [|exact R2].
    rewrite nth_set_nth. destruct (_ && _); [reflexivity|exact R2].
  - intros k Hk. rewrite nth_set_nth in Hk. rewrite (proj2 (Nat.ltb_lt j (length (s_comDone st)))) in Hk by lia.
    destruct (Nat.eqb_spec j k) as [->|Ne]; cbn [andb] in Hk; [discriminate|].
    destruct ok; [rewrite nth_set_nth_other by exact Ne|]; apply K; exact Hk.
Qed.

Lemma do_recv_inv done st i m st' : inv done st -> ev_ok (EvRecv i m) ->
  ~ In (Xof i, rc_Index m) (recvs done) ->
  do_recv cd p st i m = Ret st' -> inv (done ++ [EvRecv i m]) st'.
Proof.
  intros (LL & A & P & D & R & H & K) (OK1 & OK0 & OK) NI E. unfold do_recv in E.
  destruct (s_hold st) as [x|] eqn:EH.
  { injection E as <-. repeat (split; [assumption|]). split; [|split; [assumption|split; [|assumption]]].
    - intros k Hk. destruct (D k Hk) as (D1 & D2). split; [exact D1|]. intros y Hy. apply in_recvs, D2, Hy.
    - rewrite EH. exact H. }
  apply bind_ret in E. destruct E as (w & Ew & E). apply ReadG1_inv in Ew.
  destruct (Z.ltb_spec (Z.of_nat N) (rc_Index m)) as [G|G]; [discriminate|]. injection E as <-.
  split; [exact LL|]. cbn [s_flgCom s_comDone s_flgRec s_CQ s_Q s_SRec s_hold].
  split; [exact A|]. split; [exact P|]. split; [|split; [exact R|split; [|exact K]]].
  - intros k Hk. destruct (D k Hk) as (D1 & D2). unfold holdx in *. rewrite EH in D1, D2. cbn [s_hold app] in *.
    cbn [ro_k ro_sender]. destruct (Nat.eqb_spec (Z.to_nat (rc_Index m)) k) as [Ek|Ek].
    + assert (EI : rc_Index m = Z.of_nat k) by lia. rewrite EI in NI. cbn [app]. split.
      * constructor; [|exact D1]. intros Hx. apply NI, D2, Hx.
      * intros x [<-|Hx]; [|apply in_recvs, D2, Hx]. rewrite recvs_snoc, in_app_iff. right.
        cbn. rewrite EI. left. reflexivity.
    + cbn [app]. split; [exact D1|]. intros x Hx. apply in_recvs, D2, Hx.
  - intros x EX. injection EX as <-. cbn [ro_k ro_w ro_sender ro_v]. split; [lia|]. apply OK. exact Ew.
Qed.

(** Taking the waiting message out. *)
Lemma inv_drop done st : inv done st -> inv done (set_hold st None).
Proof.
  intros (LL & A & P & D & R & H & K). split; [exact LL|].
  unfold set_hold. cbn [s_flgCom s_comDone s_flgRec s_CQ s_Q s_SRec s_hold].
  split; [exact A|]. split; [exact P|]. split; [|split; [exact R|split; [discriminate|exact K]]].
  intros k Hk. destruct (D k Hk) as (D1 & D2). unfold holdx. cbn [s_hold app]. split.
  - apply NoDup_app_r in D1. exact D1.
  - intros x Hx. apply D2. apply in_or_app. right. exact Hx.
Qed.

Lemma add_point_inv done st x : inv done st -> s_hold st = None ->
  (1 <= ro_k x <= N)%nat -> nth (ro_k x) (s_flgCom st) false = true ->
  ~ In (Xof (ro_sender x)) (map fst (nth (ro_k x) (s_SRec st) [])) ->
  In (Xof (ro_sender x), Z.of_nat (ro_k x)) (recvs done) ->
  ro_v x = beval (QB (ro_k x)) (of_Z (Xof (ro_sender x))) me ->
  exists st', add_point p st x = Ret st' /\ inv done st' /\ s_hold st' = None /\
    s_flgCom st' = s_flgCom st /\ s_CQ st' = s_CQ st /\ s_SSig st' = s_SSig st /\ s_Comb st' = s_Comb st /\
    s_MVBAIn st' = s_MVBAIn st /\ s_MVBASent st' = s_MVBASent st /\ s_busy st' = s_busy st /\
    s_stopped st' = s_stopped st /\
    nth (ro_k x) (s_SRec st') [] = nth (ro_k x) (s_SRec st) [] ++ [(Xof (ro_sender x), ro_v x)].
Proof.
  intros (LL & A & P & D & R & H & K) EH Hk Hf NI IR EV.
  pose proof LL as (L1 & L2 & L3 & L4 & L5 & L6 & L7 & L8 & L9 & L10 & L11).
  set (k := ro_k x) in *. unfold add_point. fold k.
  rewrite (idx_nth []) by lia. cbn [bind].
  change (((ro_sender x + 1) mod 2 ^ 32)%Z) with (Xof (ro_sender x)).
  set (old := nth k (s_SRec st) []) in *. set (new := old ++ [(Xof (ro_sender x), ro_v x)]).
  assert (PN : forall k' e, (1 <= k' <= N)%nat -> In e (nth k' (set_nth k new (s_SRec st)) []) ->
     (0 <= fst e < 2 ^ 32)%Z /\ snd e = beval (QB k') (of_Z (fst e)) me).
  { intros k' e Hk' He. destruct (Nat.eq_dec k k') as [<-|Ne].
    - rewrite nth_set_nth_same in He by lia. apply in_app_or in He. destruct He as [He|[<-|[]]].
      + apply P; [lia|exact He].
      + cbn [fst snd]. split; [apply Xof_range|exact EV].
    - rewrite nth_set_nth_other in He by exact Ne. apply P; assumption. }
  assert (DN : forall k', (k' <= N)%nat -> NoDup (map fst (nth k' (set_nth k new (s_SRec st)) [])) /\
     forall y, In y (map fst (nth k' (set_nth k new (s_SRec st)) [])) -> In (y, Z.of_nat k') (recvs done)).
  { intros k' Hk'. destruct (D k' Hk') as (D1 & D2). unfold holdx in D1, D2. rewrite EH in D1, D2. cbn [app] in D1, D2.
    destruct (Nat.eq_dec k k') as [<-|Ne].
    - rewrite nth_set_nth_same by lia. unfold new. rewrite map_app. cbn [map fst]. fold old in D1, D2. split.
      + apply NoDup_snoc; assumption.
      + intros y Hy. apply in_app_or in Hy. destruct Hy as [Hy|[<-|[]]]; [apply D2; exact Hy|exact IR].
    - rewrite nth_set_nth_other by exact Ne. auto. }
  assert (HS : nth k (set_nth k new (s_SRec st)) [] = new) by (apply nth_set_nth_same; lia).
  destruct (negb (nth k (s_flgRec st) false) && (F + 1 <=? length new)%nat) eqn:G.
  - apply andb_true_iff in G. destruct G as (G1 & G2). apply negb_true_iff in G1. apply Nat.leb_le in G2.
    pose proof (R k ltac:(lia)) as Rk. rewrite G1 in Rk. fold old in Rk.
    assert (LN : length new = (F + 1)%nat).
    { unfold new in *. rewrite app_length in *. cbn [length] in *. lia. }
    assert (EI : LagrangeInterpolate F (firstn (F + 1) (map (fun e => of_Z (fst e)) new))
       (firstn (F + 1) (map snd new)) = Ret (secy (QB k) me)).
    { rewrite !firstn_all2 by (rewrite map_length; lia).
      assert (EY : map snd new = map (peval (secy (QB k) me)) (map (fun e => of_Z (fst e)) new)).
      { rewrite map_map. apply map_ext_in. intros e He. rewrite peval_secy.
        apply (PN k e ltac:(lia)). rewrite HS. exact He. }
      rewrite EY. apply LagrangeInterpolate_values.
      - rewrite firstn_all2 by (rewrite map_length; lia).
        destruct (DN k ltac:(lia)) as (N1 & _). rewrite HS in N1.
        replace (map (fun e : Z * Fr => of_Z (fst e)) new) with (map of_Z (map fst new)) by (rewrite map_map; reflexivity).
        assert (RG : Forall (fun z => 0 <= z < 2 ^ 32)%Z (map fst new)).
        { apply Forall_forall. intros z Hz. apply in_map_iff in Hz. destruct Hz as (e & <- & He).
          apply (PN k e ltac:(lia)). rewrite HS. exact He. }
        clear -N1 RG. induction (map fst new) as [|z l IH]; [constructor|].
        inversion N1; subst. inversion RG; subst. cbn [map]. constructor; [|auto].
        rewrite in_map_iff. intros (z' & Ez & Hz'). rewrite Forall_forall in H4. specialize (H4 z' Hz').
        apply (f_equal fv) in Ez. rewrite !fv_of_Z in Ez. pose proof r_big.
        rewrite !Z.mod_small in Ez by lia. subst. contradiction.
      - rewrite map_length. lia.
      - rewrite (length_secy F (2 * F)); [lia|]. apply HQ. lia. }
    rewrite EI. cbn [bind]. eexists. split; [reflexivity|].
    split; [|cbn [s_hold s_flgCom s_CQ s_SSig s_Comb s_MVBAIn s_MVBASent s_busy s_stopped s_SRec]; auto 12].
    split; [|cbn [s_flgCom s_comDone s_flgRec s_CQ s_Q s_SRec s_hold]; split; [exact A|split; [exact PN|split; [|split; [|split; [|exact K]]]]]].
    + unfold lens. cbn. repeat split; rewrite ?length_set_nth; auto.
      intros k' Hk'. rewrite nth_set_nth. destruct (_ && _); [|auto].
      rewrite (length_secy F (2 * F)); [lia|]. apply HQ. lia.
    + intros k' Hk'. unfold holdx. cbn [s_hold]. rewrite EH. apply DN. exact Hk'.
    + intros k' Hk'. destruct (Nat.eq_dec k k') as [<-|Ne].
      * rewrite nth_set_nth_same by lia. rewrite nth_set_nth_same by lia. split; [reflexivity|exact Hf].
      * rewrite !nth_set_nth_other by exact Ne. apply R. exact Hk'.
    + intros y Ey. rewrite EH in Ey. discriminate.
  - eexists. split; [reflexivity|].
    split; [|cbn [s_hold s_flgCom s_CQ s_SSig s_Comb s_MVBAIn s_MVBASent s_busy s_stopped s_SRec]; auto 12].
    split; [|cbn [s_flgCom s_comDone s_flgRec s_CQ s_Q s_SRec s_hold]; split; [exact A|split; [exact PN|split; [|split; [|split; [|exact K]]]]]].
    + unfold lens. cbn. repeat split; rewrite ?length_set_nth; auto.
    + intros k' Hk'. unfold holdx. cbn [s_hold]. rewrite EH. apply DN. exact Hk'.
    + intros k' Hk'. specialize (R k' Hk'). destruct (nth k' (s_flgRec st) false) eqn:ER; [exact R|].
      destruct (Nat.eq_dec k k') as [<-|Ne].
      * rewrite HS. rewrite ER in G. cbn [negb andb] in G. apply Nat.leb_gt in G. lia.
      * rewrite nth_set_nth_other by exact Ne. exact R.
    + intros y Ey. rewrite EH in Ey. discriminate.
Qed.

(** Changing only what concerns signatures. *)
Lemma inv_sig done st ss cb sp mi ms bs : inv done st ->
  length ss = (N + 1)%nat -> length cb = (N + 1)%nat -> length sp = (N + 1)%nat ->
  inv done (mkPst (s_flgCom st) (s_comDone st) (s_flgRec st) (s_CQ st) (s_Q st) (s_SRec st) ss cb sp mi ms bs
    (s_hold st)).
Proof.
  intros (LL & A & P & D & R & H & K) E1 E2 E3.
  destruct LL as (L1 & L2 & L3 & L4 & L5 & L6 & L7 & L8 & L9 & L10 & L11).
  split; [unfold lens; cbn; auto 12|]. cbn [s_flgCom s_comDone s_flgRec s_CQ s_Q s_SRec s_hold]. auto 10.
Qed.

Lemma add_sig_inv done st x : inv done st -> (ro_k x <= N)%nat ->
  exists st', add_sig combine p st x = Ret st' /\ inv done st' /\ s_hold st' = s_hold st /\
    s_flgCom st' = s_flgCom st /\ s_CQ st' = s_CQ st /\ s_SRec st' = s_SRec st /\ s_stopped st' = s_stopped st.
Proof.
  intros I Hk. pose proof I as (LL & _). destruct LL as (L1 & L2 & L3 & L4 & L5 & L6 & L7 & L8 & L9 & _).
  unfold add_sig. rewrite (idx_nth []) by lia. cbn [bind].
  destruct (_ && _); (eexists; split; [reflexivity|]; split; [|cbn; auto]);
    apply inv_sig; rewrite ?length_set_nth; auto.
Qed.

Lemma recov_check st x : lens st -> (1 <= ro_k x <= N)%nat ->
  (forall j, (1 <= j <= N)%nat -> nth j (nth (ro_k x) (s_CQ st) []) ZeroG1 = com (ro_k x) (of_nat j)) ->
  exists c, CheckProofSingle (p_KZG p) (com (ro_k x) me) (ro_w x) (of_Z (Xof (ro_sender x))) (ro_v x) = Ret c /\
    recov_ok sigok p st x = Ret (c && sigok (ro_k x) (ro_sig x)).
Proof.
  intros (L1 & L2 & L3 & L4 & L5 & L6 & L7 & L8 & L9 & L10 & L11) Hk HC.
  destruct W as (W1 & _ & W3 & _). eexists. split; [apply (check_correct s (F + 1) _ W1); lia|].
  unfold recov_ok. rewrite (idx_nth []) by lia. cbn [bind].
  rewrite (idx_nth ZeroG1) by (rewrite L10 by lia; lia). cbn [bind]. rewrite HC by lia.
  change (((ro_sender x + 1) mod 2 ^ 32)%Z) with (Xof (ro_sender x)).
  rewrite (check_correct s (F + 1) _ W1) by lia. reflexivity.
Qed.

Lemma do_handle_inv done st : inv done st ->
  exists st', do_handle sigok combine p st = Ret st' /\ inv (done ++ [EvHandle]) st'.
Proof.
  intros I. assert (IE : forall st, inv done st -> inv (done ++ [EvHandle]) st).
  { intros st0 (LL & A & P & D & R & H & K). repeat (split; [assumption|]). split; [|auto].
    intros k Hk. destruct (D k Hk) as (D1 & D2). split; [exact D1|]. intros y Hy. apply in_recvs, D2, Hy. }
  unfold do_handle. destruct (s_hold st) as [x|] eqn:EH; [|eauto].
  destruct (_ && _ && _ && _) eqn:G; [|eauto].
  apply andb_true_iff in G. destruct G as (G & G4). apply andb_true_iff in G. destruct G as (G & G3).
  apply andb_true_iff in G. destruct G as (G1 & G2). apply Nat.leb_le in G4.
  pose proof I as (LL & A & P & D & R & H & K). destruct (H x EH) as (HN & HF).
  pose proof (inv_drop done st I) as I0. pose proof I0 as (LL0 & A0 & _).
  unfold handle.
  destruct (recov_check (set_hold st None) x LL0 ltac:(lia)) as (c & EC & EO).
  { intros j Hj. apply A0; [lia|exact G1|exact Hj]. }
  rewrite EO. cbn [bind].
  assert (FIN : forall st', inv done st' -> inv (done ++ [EvHandle]) (if s_MVBASent st' then
         mkPst (s_flgCom st') (s_comDone st') (s_flgRec st') (s_CQ st') (s_Q st') (s_SRec st') (s_SSig st')
           (s_Comb st') (set_nth (ro_k x) true (s_stopped st')) (s_MVBAIn st') (s_MVBASent st')
           (s_busy st') (s_hold st')
       else st')).
  { intros st' I'. apply IE. destruct (s_MVBASent st'); [|exact I'].
    pose proof I' as (LL' & _). destruct LL' as (L1 & L2 & L3 & L4 & L5 & L6 & L7 & L8 & L9 & _).
    apply inv_sig; rewrite ?length_set_nth; auto. }
  destruct (c && sigok (ro_k x) (ro_sig x)) eqn:GC.
  - apply andb_true_iff in GC. destruct GC as (-> & _).
    destruct (D (ro_k x) HN) as (D1 & D2). unfold holdx in D1, D2. rewrite EH, Nat.eqb_refl in D1, D2. cbn [app] in D1, D2.
    inversion D1; subst.
    destruct (add_point_inv done (set_hold st None) x I0) as (st1 & E1 & I1 & _); auto.
    { apply D2. left. reflexivity. }
    rewrite E1. cbn [bind].
    destruct (add_sig_inv done st1 x I1 HN) as (st2 & E2 & I2 & _). rewrite E2. cbn [bind].
    eexists. split; [reflexivity|]. apply FIN. exact I2.
  - cbn [bind]. eexists. split; [reflexivity|]. apply FIN. exact I0.
Qed.

Lemma pstep_inv done st e st' ms : inv done st -> ev_ok e ->
  (forall i m, e = EvRecv i m -> ~ In (Xof i, rc_Index m) (recvs done)) ->
  pstep cd sign sigok combine p st e = Ret (st', ms) -> inv (done ++ [e]) st'.
Proof.
  intros I OK ND E. destruct e as [j data|i m|i m| |]; cbn [pstep] in E.
  - apply bind_ret in E. destruct E as (st1 & E1 & E). injection E as <- _.
    eapply do_commit_inv; eassumption.
  - apply bind_ret in E. destruct E as (st1 & E1 & E). injection E as <- _.
    destruct I as (LL & A & P & D & R & H & K). repeat (split; [assumption|]). split; [|auto].
    intros k Hk. destruct (D k Hk) as (D1 & D2). split; [exact D1|]. intros y Hy. apply in_recvs, D2, Hy.
  - apply bind_ret in E. destruct E as (st1 & E1 & E). injection E as <- _.
    eapply do_recv_inv; try eassumption. apply ND. reflexivity.
  - apply bind_ret in E. destruct E as (st1 & E1 & E). injection E as <- _.
    destruct (do_handle_inv done st I) as (st2 & E2 & I2). rewrite E1 in E2. injection E2 as <-. exact I2.
  - injection E as <- _. pose proof I as (LL & A & P & D & R & H & K).
    destruct LL as (L1 & L2 & L3 & L4 & L5 & L6 & L7 & L8 & L9 & L10 & L11).
    assert (I2 : inv done (do_mvba st)) by (apply inv_sig; auto).
    clear -I2. destruct I2 as (LL & A & P & D & R & H & K). repeat (split; [assumption|]). split; [|auto].
    intros k Hk. destruct (D k Hk) as (D1 & D2). split; [exact D1|]. intros y Hy. apply in_recvs, D2, Hy.
Qed.

Lemma prun_inv : forall evs done st st', inv done st -> Forall ev_ok evs ->
  NoDup (recvs (done ++ evs)) -> prun cd sign sigok combine p st evs = Ret st' -> inv (done ++ evs) st'.
Proof.
  induction evs as [|e evs IH]; intros done st st' I OK ND E.
  - cbn [prun] in E. injection E as <-. rewrite app_nil_r. exact I.
  - cbn [prun] in E. apply bind_ret in E. destruct E as ((st1 & ms) & E1 & E). cbn [fst] in E.
    inversion OK as [|? ? OK1 OK2]; subst.
    replace (done ++ e :: evs) with ((done ++ [e]) ++ evs) in * by (rewrite <- app_assoc; reflexivity).
    apply (IH _ st1); auto. apply (pstep_inv done st e st1 ms); auto.
    intros i m -> Hin. unfold recvs in ND. rewrite !flat_map_app in ND. cbn [flat_map app] in ND.
    rewrite <- app_assoc in ND. cbn [app] in ND. fold (recvs done) in ND.
    apply NoDup_remove_2 in ND. apply ND. apply in_or_app. left. exact Hin.
Qed.

Lemma gofold_rows (c : nat -> PiContent) : (forall j, pc_j (c j) = j) -> forall n lo row,
  length row = (N + 1)%nat -> (lo + n <= N + 1)%nat ->
  exists row', gofold (fun row c => upd row (pc_j c) (CBj c)) (map c (seq lo n)) row = Ret row' /\
    length row' = (N + 1)%nat.
Proof.
  intros HC. induction n as [|n IH]; intros lo row L H.
  - exists row. split; [reflexivity|exact L].
  - cbn [seq map gofold]. rewrite HC. unfold upd. rewrite (proj2 (Nat.ltb_lt lo (length row))) by lia. cbn [bind].
    apply IH; [rewrite length_set_nth; exact L|lia].
Qed.

(** The initial state. *)
Lemma init_inv B0 : bdeg F (2 * F) B0 ->
  exists st, proac_init p (map (fun j => secy B0 (of_nat j)) (seq 1 (2 * F + 1))) = Ret st /\ inv [] st /\
    s_flgCom st = repeat false (N + 1) /\ s_SRec st = repeat [] (N + 1) /\ s_hold st = None /\
    s_MVBAIn st = [] /\ s_MVBASent st = false /\ s_busy st = false /\ s_stopped st = repeat false (N + 1) /\
    s_Comb st = repeat None (N + 1) /\ s_comDone st = repeat false (N + 1) /\
    (forall k, (k <= N)%nat -> k <> (p_PID p + 1)%nat -> nth k (s_Q st) [] = repeat 0 (F + 1)).
Proof.
  intros HB. destruct W as (W1 & W2 & W3 & W4 & W5 & _). unfold proac_init.
  rewrite (commit_contents_correct s (p_KZG p) F B0 W1 HB). cbn [bind].
  destruct (gofold_rows (pc_of s B0) ltac:(reflexivity) (2 * F + 1) 1 (repeat ZeroG1 (N + 1)))
    as (row & E & L).
  { apply repeat_length. }
  { lia. }
  rewrite E. cbn [bind]. unfold upd. rewrite repeat_length.
  rewrite (proj2 (Nat.ltb_lt (p_PID p + 1) (N + 1))) by lia. cbn [bind]. rewrite repeat_length.
  rewrite (proj2 (Nat.ltb_lt (p_PID p + 1) (N + 1))) by lia. cbn [bind].
  set (own := if (p_PID p + 1 <=? 2 * F + 1)%nat then _ else _).
  assert (LO : length own = (F + 1)%nat).
  { unfold own. destruct (Nat.leb_spec (p_PID p + 1) (2 * F + 1)); [|apply repeat_length].
    rewrite (nth_map_seq (fun j => secy B0 (of_nat j))) by lia. rewrite (length_secy F (2 * F)) by exact HB. lia. }
  eexists. split; [reflexivity|]. cbn [s_flgCom s_comDone s_SRec s_hold s_MVBAIn s_MVBASent s_busy s_stopped s_Comb s_Q].
  split; [|repeat (split; [reflexivity|]); intros k Hk Ne; rewrite nth_set_nth_other by auto; apply nth_repeat_in; lia].
  split; [|cbn [s_flgCom s_comDone s_flgRec s_CQ s_Q s_SRec s_hold]; repeat split].
  - unfold lens. cbn. repeat split; rewrite ?length_set_nth, ?repeat_length; auto.
    + intros k Hk. rewrite nth_set_nth, repeat_length. destruct (_ && _); [exact L|].
      rewrite nth_repeat_in by lia. apply repeat_length.
    + intros k Hk. rewrite nth_set_nth, repeat_length. destruct (_ && _); [exact LO|].
      rewrite nth_repeat_in by lia. apply repeat_length.
  - intros k Hk Hf. rewrite nth_repeat_in in Hf by lia. discriminate.
  - exfalso. rewrite nth_repeat_in in H0 by lia. destruct H0.
  - exfalso. rewrite nth_repeat_in in H0 by lia. destruct H0.
  - exfalso. rewrite nth_repeat_in in H0 by lia. destruct H0.
  - unfold holdx. cbn [s_hold app]. rewrite nth_repeat_in by lia. constructor.
  - unfold holdx. cbn [s_hold app]. rewrite nth_repeat_in by lia. intros x [].
  - intros k Hk. rewrite nth_repeat_in by lia. rewrite nth_repeat_in by lia. simpl. lia.
  - discriminate.
  - discriminate.
  - intros k _. destruct (nth_repeat_any false false (N + 1) k) as [-> | ->]; reflexivity.
Qed.
End Run.
