(** The loop of Refresh interleaved with the recovery. *)

Require Import ZArith List Lia Bool Arith.
From Verif Require Import Prime Fr Bytes CodecModel CodecProofs GoBase Poly Biv BivProofs PolyModel PolyProofs
  GroupModel KzgModel KzgProofs PartyModel PartySpec VssModel VssProofs VssProofs2 ReduceModel ReduceProofs
  ProacModel ProacProofs ProacRun ProacSig ProacRecover ProacDist ProacLinks PropertiesProac RefreshModel.
Import ListNotations.
Local Open Scope F_scope.

Lemma set_nth_id {A} (d : A) : forall l i, set_nth i (nth i l d) l = l.
Proof. induction l as [|a l IH]; intros [|i]; cbn [set_nth nth]; auto. rewrite IH. reflexivity. Qed.

Lemma fsum_map_app {A} (f : A -> Fr) l1 l2 : fsum (map f (l1 ++ l2)) = fsum (map f l1) + fsum (map f l2).
Proof. rewrite map_app, fsum_app. reflexivity. Qed.

Lemma combine_snoc {A B} (l1 : list A) (l2 : list B) a b : length l1 = length l2 ->
  combine (l1 ++ [a]) (l2 ++ [b]) = combine l1 l2 ++ [(a, b)].
Proof.
  revert l2. induction l1 as [|x l1 IH]; intros [|y l2] H; try discriminate; [reflexivity|].
  cbn [app combine]. rewrite IH by (injection H; auto). reflexivity.
Qed.

Definition machine (evs : list rev_t) : list pev :=
  flat_map (fun e => match e with RMach e => [e] | RGo => [] end) evs.

Section Loop.
Variables (cd : g1codec) (s : Fr) (p : Party) (QB : nat -> list (list Fr)).
Variables (sign : nat -> list Z) (sigok : nat -> list Z -> bool) (comb : nat -> list (list Z) -> list Z).
Hypothesis W : party_wf s p.
Hypothesis HP : (p_PID p < p_N p)%nat.
Hypothesis HQ : forall k, bdeg (p_F p) (2 * p_F p) (QB k).
Notation F := (p_F p).
Notation N := (p_N p).
Notation me := (of_nat (p_PID p + 1)).
Notation pstep := (pstep cd sign sigok comb p).

(** ** The polynomial of dealer k changes only by being recovered *)

Lemma handle_keeps st x st' k : length (s_flgRec st) = length (s_Q st) -> handle sigok comb p st x = Ret st' -> nth k (s_flgRec st') false = false ->
  nth k (s_Q st') [] = nth k (s_Q st) [].
Proof.
  intros LL E. unfold handle in E. apply bind_ret in E. destruct E as (ok & _ & E).
  apply bind_ret in E. destruct E as (st2 & E2 & E).
  assert (P2 : nth k (s_flgRec st2) false = false -> nth k (s_Q st2) [] = nth k (s_Q st) []).
  { destruct ok; [|injection E2 as <-; reflexivity].
    apply bind_ret in E2. destruct E2 as (st1 & E1 & E2).
    assert (P1 : nth k (s_flgRec st1) false = false -> nth k (s_Q st1) [] = nth k (s_Q st) []).
    { unfold add_point in E1. apply bind_ret in E1. destruct E1 as (old & _ & E1). cbv zeta in E1.
      destruct (_ && _) in E1; [|injection E1 as <-; reflexivity].
      apply bind_ret in E1. destruct E1 as (q & _ & E1). injection E1 as <-. cbn [s_flgRec s_Q].
      intros Hf. destruct (Nat.eq_dec (ro_k x) k) as [E3|Ne]; [|apply nth_set_nth_other; exact Ne].
      rewrite nth_set_nth in Hf. rewrite nth_set_nth. rewrite E3, Nat.eqb_refl in *. cbn [andb] in *.
      destruct (Nat.ltb_spec k (length (s_flgRec st))) as [L|L]; [discriminate|].
      destruct (Nat.ltb_spec k (length (s_Q st))) as [L2|L2]; [|reflexivity].
      lia. }
    unfold add_sig in E2. apply bind_ret in E2. destruct E2 as (old & _ & E2). cbv zeta in E2.
    destruct (negb _ && _) in E2; injection E2 as <-; exact P1. }
  injection E as <-. destruct (s_MVBASent st2); exact P2.
Qed.

Lemma pstep_keeps st e st' ms k : length (s_flgRec st) = length (s_Q st) -> pstep st e = Ret (st', ms) ->
  nth k (s_flgRec st') false = false -> nth k (s_Q st') [] = nth k (s_Q st) [].
Proof.
  intros LL E. destruct e; cbn [ProacModel.pstep] in E.
  - apply bind_ret in E. destruct E as (st1 & E1 & E). injection E as <- _. unfold do_commit in E1.
    destruct (_ || _); [injection E1 as <-; reflexivity|].
    apply bind_ret in E1. destruct E1 as (row & _ & E1). apply bind_ret in E1. destruct E1 as ((ok & row') & _ & E1).
    apply bind_ret in E1. destruct E1 as (CQ & _ & E1). injection E1 as <-. reflexivity.
  - apply bind_ret in E. destruct E as (st1 & E1 & E). injection E as <- _. reflexivity.
  - apply bind_ret in E. destruct E as (st1 & E1 & E). injection E as <- _. unfold do_recv in E1.
    destruct (s_hold st); [injection E1 as <-; reflexivity|].
    apply bind_ret in E1. destruct E1 as (w & _ & E1). destruct (_ <? _)%Z; [discriminate|].
    injection E1 as <-. reflexivity.
  - apply bind_ret in E. destruct E as (st1 & E1 & E). injection E as <- _. unfold do_handle in E1.
    destruct (s_hold st) as [x|]; [|injection E1 as <-; reflexivity].
    destruct (_ && _ && _ && _); [|injection E1 as <-; reflexivity].
    apply (handle_keeps (set_hold st None) x); assumption.
  - injection E as <- _. reflexivity.
Qed.

(** The loop would read the right polynomial of dealer k now. *)
Definition good (st : pst) (k : nat) : Prop := nth k (s_Q st) [] = secy (QB k) me.

Lemma good_dec st k : {good st k} + {~ good st k}.
Proof. apply list_eq_dec. exact Fr_eq_dec. Qed.

Lemma rec_good done st k : inv s p QB done st -> (1 <= k <= N)%nat -> nth k (s_flgRec st) false = true ->
  good st k /\ nth k (s_flgCom st) false = true.
Proof. intros (_ & _ & _ & _ & R & _) Hk HF. specialize (R k Hk). rewrite HF in R. exact R. Qed.

Lemma good_step done st e st' ms k : inv s p QB done st -> inv s p QB (done ++ [e]) st' ->
  pstep st e = Ret (st', ms) -> (1 <= k <= N)%nat -> good st k -> good st' k.
Proof.
  intros I I' E Hk G. destruct (nth k (s_flgRec st') false) eqn:EF; [exact (proj1 (rec_good _ _ _ I' Hk EF))|].
  unfold good. rewrite (pstep_keeps st e st' ms k); auto.
  destruct I as ((_ & _ & L3 & _ & L5 & _) & _). lia.
Qed.

(** ** The sums *)

Definition contrib (i : nat) (zc : Z * nat) : Fr :=
  if (snd zc <=? i)%nat then nth i (secy (QB (Z.to_nat (fst zc))) me) 0 else 0.
Definition cval (i : nat) (z : Z) : Fr := peval (secx (QB (Z.to_nat z)) s) (of_nat i).

Definition cur (r : rst) (c i : nat) : Fr :=
  match f_J r, f_ph r with
  | z :: _, PQ i0 => if (i <? i0)%nat then contrib i (z, c) else 0
  | z :: _, PC _ => contrib i (z, c)
  | _, _ => 0
  end.
Definition curC (r : rst) (i : nat) : Fr :=
  match f_J r, f_ph r with
  | z :: _, PC i0 => if (i <? i0)%nat then cval i z else 0
  | _, _ => 0
  end.
Definition here (tm : Prop) (r : rst) (c : nat) : Prop :=
  match f_J r, f_ph r with
  | z :: _, PQ i0 => nth (Z.to_nat z) (s_flgCom (f_st r)) false = true /\ (c <= i0 <= F + 1)%nat /\
      ((c < i0)%nat -> good (f_st r) (Z.to_nat z)) /\ (tm -> c = 0%nat /\ good (f_st r) (Z.to_nat z))
  | z :: _, PC i0 => nth (Z.to_nat z) (s_flgCom (f_st r)) false = true /\ (1 <= i0 <= N + 1)%nat /\
      (c <= F + 1)%nat /\ (tm -> c = 0%nat)
  | _, _ => True
  end.
Definition linv (tm : Prop) (J0 : list Z) (r : rst) : Prop := exists D cs c,
  D ++ f_J r = J0 /\ length D = length cs /\ length (f_Qsum r) = (F + 1)%nat /\
  length (f_CQsum r) = (N + 1)%nat /\ Forall (fun c => (c <= F + 1)%nat) cs /\ (tm -> Forall (eq 0%nat) cs) /\
  (forall i, (i <= F)%nat -> nth i (f_Qsum r) 0 = fsum (map (contrib i) (combine D cs)) + cur r c i) /\
  (forall i, (1 <= i <= N)%nat -> nth i (f_CQsum r) ZeroG1 = mkG1 (fsum (map (cval i) D) + curC r i)) /\
  here tm r c.

Lemma linv_init (tm : Prop) st J : linv tm J (refresh_init p st J).
Proof.
  exists [], [], 0%nat. unfold refresh_init, cur, curC, here. cbn [f_J f_ph f_Qsum f_CQsum f_st app length map combine fsum].
  rewrite !repeat_length. repeat (split; [solve [auto]|]). split.
  - intros i Hi. rewrite nth_repeat_in by lia. destruct J; ring.
  - split; [|destruct J; exact I]. intros i Hi. rewrite nth_repeat_in by lia. unfold ZeroG1. f_equal. destruct J; ring.
Qed.

(** Within its time: a dealer whose commitments are accepted when the loop comes to it is recovered. *)
Definition intime (r : rst) : Prop :=
  match f_J r, f_ph r with
  | z :: _, PCheck => nth (Z.to_nat z) (s_flgCom (f_st r)) false = true -> nth (Z.to_nat z) (s_flgRec (f_st r)) false = true
  | _, _ => True
  end.

Definition dealers (J0 : list Z) (st : pst) : Prop :=
  forall z, In z J0 -> (1 <= z <= Z.of_nat N)%Z /\ (Z.to_nat z <> (p_PID p + 1)%nat \/ good st (Z.to_nat z)).

Lemma rgo_linv (tm : Prop) J0 done r : inv s p QB done (f_st r) -> sinv p (f_st r) -> dealers J0 (f_st r) ->
  (tm -> intime r) -> linv tm J0 r ->
  exists r', rgo p r = Ret r' /\ f_st r' = f_st r /\ linv tm J0 r'.
Proof.
  intros HI SI HD HT (D & cs & c & EJ & LD & LQ & LC & BC & TC & VQ & VC & HH).
  pose proof HI as ((L1 & L2 & L3 & L4 & L5 & L6 & L7 & L8 & L9 & L10 & L11) & A & _).
  unfold rgo. destruct (f_J r) as [|z J'] eqn:EF.
  { exists r. split; [reflexivity|]. split; [reflexivity|]. exists D, cs, c. rewrite EF. repeat (split; [assumption|]).
    assumption. }
  assert (Hz : In z J0) by (rewrite <- EJ; apply in_or_app; right; left; reflexivity).
  destruct (HD z Hz) as (Rz & Oz). set (k := Z.to_nat z) in *. assert (Hk : (1 <= k <= N)%nat) by lia.
  destruct (f_ph r) as [| |i|i] eqn:EP.
  - rewrite (idx_nth false) by lia. cbn [bind]. eexists. split; [reflexivity|]. split; [reflexivity|].
    exists D, cs, 0%nat. cbn [f_J f_Qsum f_CQsum]. rewrite ?EF. repeat (split; [assumption|]). split; [|split].
    + intros i Hi. rewrite VQ by exact Hi. unfold cur. rewrite EF, EP. cbn [f_J f_ph].
      destruct (nth k (s_flgCom (f_st r)) false); reflexivity.
    + intros i Hi. rewrite VC by exact Hi. unfold curC. rewrite EF, EP. cbn [f_J f_ph].
      destruct (nth k (s_flgCom (f_st r)) false); reflexivity.
    + unfold here. cbn [f_J f_ph f_st]. fold k. destruct (nth k (s_flgCom (f_st r)) false) eqn:EC; [|exact I].
      split; [reflexivity|]. split; [lia|]. split; [lia|]. intros t. split; [reflexivity|].
      specialize (HT t). unfold intime in HT. rewrite EF, EP in HT. fold k in HT.
      exact (proj1 (rec_good _ _ _ HI Hk (HT EC))).
  - destruct (nth k (s_flgRec (f_st r)) false) eqn:ER.
    + destruct (rec_good _ _ _ HI Hk ER) as (G & EC).
      rewrite (idx_nth []) by lia. cbn [bind]. rewrite G. rewrite (commit_com s p QB W HQ). cbn [bind].
      rewrite (idx_nth []) by lia. cbn [bind].
      assert (LR : length (nth k (s_CQ (f_st r)) []) = (N + 1)%nat) by (apply L10; lia).
      unfold upd. rewrite (proj2 (Nat.ltb_lt _ _)) by lia. cbn [bind]. rewrite (proj2 (Nat.ltb_lt _ _)) by lia. cbn [bind].
      rewrite <- (A k Hk EC (p_PID p + 1)%nat ltac:(lia)), !set_nth_id.
      assert (ES : set_CQ (f_st r) (s_CQ (f_st r)) = f_st r) by (destruct (f_st r); reflexivity). rewrite ES.
      eexists. split; [reflexivity|]. split; [reflexivity|]. exists D, cs, 0%nat. cbn [f_J f_Qsum f_CQsum]. rewrite ?EF.
      repeat (split; [assumption|]). split; [|split].
      * intros i Hi. rewrite VQ by exact Hi. unfold cur. rewrite EF, EP. cbn [f_J f_ph]. reflexivity.
      * intros i Hi. rewrite VC by exact Hi. unfold curC. rewrite EF, EP. cbn [f_J f_ph]. reflexivity.
      * unfold here. cbn [f_J f_ph f_st]. fold k. split; [exact EC|]. split; [lia|]. split; [lia|]. intros t. auto.
    + exists r. split; [reflexivity|]. split; [reflexivity|]. exists D, cs, c. rewrite ?EF. repeat (split; [assumption|]).
      assumption.
  - unfold here in HH. rewrite EF, EP in HH. fold k in HH. destruct HH as (EC & Hc & HG & HTM).
    destruct (Nat.ltb_spec i (F + 1)) as [Li|Li].
    + rewrite (idx_nth 0) by lia. cbn [bind]. rewrite (idx_nth []) by lia. cbn [bind].
      rewrite (idx_nth 0) by (rewrite L11 by lia; lia). cbn [bind].
      unfold upd. rewrite (proj2 (Nat.ltb_lt _ _)) by lia. cbn [bind].
      eexists. split; [reflexivity|]. split; [reflexivity|].
      assert (CASE : exists c', (c' <= i + 1)%nat /\ ((c' < i + 1)%nat -> good (f_st r) k) /\
        (tm -> c' = 0%nat /\ good (f_st r) k) /\
        (forall i', (i' < i)%nat -> contrib i' (z, c') = contrib i' (z, c)) /\
        contrib i (z, c') = nth i (nth k (s_Q (f_st r)) []) 0).
      { destruct (good_dec (f_st r) k) as [G|NG].
        - exists c. split; [lia|]. split; [auto|]. split; [intros t; split; [apply HTM; exact t|exact G]|].
          split; [reflexivity|]. unfold contrib. cbn [fst snd]. rewrite (proj2 (Nat.leb_le _ _)) by lia. fold k.
          rewrite G. reflexivity.
        - assert (Ec : c = i) by (destruct (le_lt_dec i c); [lia|exfalso; apply NG, HG; assumption]). subst c.
          assert (NR : nth k (s_flgRec (f_st r)) false = false).
          { destruct (nth k (s_flgRec (f_st r)) false) eqn:ER; [|reflexivity].
            exfalso. apply NG. exact (proj1 (rec_good _ _ _ HI Hk ER)). }
          destruct SI as (_ & _ & _ & _ & _ & _ & S6 & _).
          assert (Z0 : nth k (s_Q (f_st r)) [] = repeat 0 (F + 1)) by (apply S6; [lia|tauto|exact NR]).
          exists (i + 1)%nat. split; [lia|]. split; [lia|]. split; [intros t; exfalso; apply NG, HTM; exact t|]. split.
          + intros i' Hi'. unfold contrib. cbn [fst snd]. rewrite !(proj2 (Nat.leb_gt _ _)) by lia. reflexivity.
          + unfold contrib. cbn [fst snd]. rewrite (proj2 (Nat.leb_gt _ _)) by lia. rewrite Z0, nth_repeat_in by lia. reflexivity. }
      destruct CASE as (c' & C1 & C2 & C3 & C4 & C5).
      exists D, cs, c'. cbn [f_J f_Qsum f_CQsum]. rewrite ?length_set_nth, ?EF. repeat (split; [assumption|]). split; [|split].
      * intros i' Hi'. unfold cur. cbn [f_J f_ph]. destruct (Nat.eq_dec i i') as [<-|Ne].
        -- rewrite nth_set_nth_same by lia. rewrite (proj2 (Nat.ltb_lt i (i + 1))) by lia. rewrite VQ by lia.
           unfold cur. rewrite EF, EP, Nat.ltb_irrefl, C5. ring.
        -- rewrite nth_set_nth_other by exact Ne. rewrite VQ by lia. unfold cur. rewrite EF, EP. f_equal.
           destruct (Nat.ltb_spec i' i) as [La|La].
           ++ rewrite (proj2 (Nat.ltb_lt i' (i + 1))) by lia. symmetry. apply C4. exact La.
           ++ rewrite (proj2 (Nat.ltb_ge i' (i + 1))) by lia. reflexivity.
      * intros i' Hi'. rewrite VC by exact Hi'. unfold curC. rewrite EF, EP. reflexivity.
      * unfold here. cbn [f_J f_ph f_st]. fold k. repeat (split; [solve [auto; lia]|]). exact C3.
    + eexists. split; [reflexivity|]. split; [reflexivity|]. exists D, cs, c. cbn [f_J f_Qsum f_CQsum]. rewrite ?EF.
      repeat (split; [assumption|]). split; [|split].
      * intros i' Hi'. rewrite VQ by exact Hi'. unfold cur. rewrite EF, EP. cbn [f_J f_ph].
        rewrite (proj2 (Nat.ltb_lt i' i)) by lia. reflexivity.
      * intros i' Hi'. rewrite VC by exact Hi'. unfold curC. rewrite EF, EP. cbn [f_J f_ph].
        rewrite (proj2 (Nat.ltb_ge i' 1)) by lia. reflexivity.
      * unfold here. cbn [f_J f_ph f_st]. fold k. repeat (split; [solve [auto; lia]|]). intros t. apply HTM. exact t.
  - unfold here in HH. rewrite EF, EP in HH. fold k in HH. destruct HH as (EC & Hi & Hc & HTM).
    destruct (Nat.leb_spec i N) as [Li|Li].
    + rewrite (idx_nth ZeroG1) by lia. cbn [bind]. rewrite (idx_nth []) by lia. cbn [bind].
      rewrite (idx_nth ZeroG1) by (rewrite L10 by lia; lia). cbn [bind].
      unfold upd. rewrite (proj2 (Nat.ltb_lt _ _)) by lia. cbn [bind].
      eexists. split; [reflexivity|]. split; [reflexivity|].
      exists D, cs, c. cbn [f_J f_Qsum f_CQsum]. rewrite ?length_set_nth, ?EF. repeat (split; [assumption|]). split; [|split].
      * intros i' Hi'. rewrite VQ by exact Hi'. unfold cur. rewrite EF, EP. reflexivity.
      * intros i' Hi'. unfold curC. cbn [f_J f_ph]. destruct (Nat.eq_dec i i') as [<-|Ne].
        -- rewrite nth_set_nth_same by lia. rewrite (proj2 (Nat.ltb_lt i (i + 1))) by lia. rewrite VC by lia.
           rewrite A by (auto; lia). unfold AddG1, com. cbn [dlog1]. f_equal.
           unfold curC. rewrite EF, EP, Nat.ltb_irrefl. unfold cval. fold k. ring.
        -- rewrite nth_set_nth_other by exact Ne. rewrite VC by lia. unfold curC. rewrite EF, EP. f_equal. f_equal.
           destruct (Nat.ltb_spec i' i) as [La|La].
           ++ rewrite (proj2 (Nat.ltb_lt i' (i + 1))) by lia. reflexivity.
           ++ rewrite (proj2 (Nat.ltb_ge i' (i + 1))) by lia. reflexivity.
      * unfold here. cbn [f_J f_ph f_st]. fold k. repeat (split; [solve [auto; lia]|]). exact HTM.
    + eexists. split; [reflexivity|]. split; [reflexivity|].
      exists (D ++ [z]), (cs ++ [c]), 0%nat. cbn [f_J f_Qsum f_CQsum]. rewrite <- app_assoc. cbn [app].
      split; [exact EJ|]. split; [rewrite !app_length, LD; reflexivity|]. split; [exact LQ|]. split; [exact LC|].
      split; [apply Forall_app; split; [exact BC|repeat constructor; exact Hc]|].
      split; [intros t; apply Forall_app; split; [apply TC; exact t|repeat constructor; symmetry; apply HTM; exact t]|].
      split; [|split].
      * intros i' Hi'. rewrite VQ by exact Hi'. rewrite combine_snoc by exact LD. rewrite fsum_map_app. unfold cur. rewrite EF, EP.
        cbn [f_J f_ph map fsum]. destruct J'; ring.
      * intros i' Hi'. rewrite VC by exact Hi'. f_equal. rewrite fsum_map_app. unfold curC. rewrite EF, EP.
        cbn [f_J f_ph map fsum]. rewrite (proj2 (Nat.ltb_lt i' i)) by lia. destruct J'; ring.
      * unfold here. cbn [f_J f_ph]. destruct J'; exact I.
Qed.

(** ** Runs *)

Notation rstep := (rstep cd sign sigok comb p).
Notation rrun := (rrun cd sign sigok comb p).

(** In every step of the loop to a new dealer the dealer is within its time. *)
Fixpoint timely (r : rst) (evs : list rev_t) : Prop :=
  match evs with
  | [] => True
  | e :: rest => (e = RGo -> intime r) /\ forall r', rstep r e = Ret r' -> timely r' rest
  end.

Lemma linv_state (tm : Prop) J0 r st' :
  (forall z, In z (f_J r) -> good (f_st r) (Z.to_nat z) -> good st' (Z.to_nat z)) ->
  (forall k, nth k (s_flgCom (f_st r)) false = true -> nth k (s_flgCom st') false = true) ->
  linv tm J0 r -> linv tm J0 (mkRst st' (f_J r) (f_ph r) (f_Qsum r) (f_CQsum r)).
Proof.
  intros HG HM (D & cs & c & EJ & LD & LQ & LC & BC & TC & VQ & VC & HH).
  exists D, cs, c. cbn [f_J f_Qsum f_CQsum]. repeat (split; [assumption|]).
  unfold here in *. cbn [f_J f_ph f_st]. destruct (f_J r) as [|z J']; [exact I|].
  specialize (HG z (or_introl eq_refl)). destruct (f_ph r) as [| |i|i]; [exact I|exact I| |].
  - destruct HH as (H1 & H2 & H3 & H4). split; [apply HM; exact H1|]. split; [exact H2|]. split; [auto|].
    intros t. destruct (H4 t). auto.
  - destruct HH as (H1 & H2 & H3 & H4). auto.
Qed.

Lemma rrun_inv (tm : Prop) J0 : forall evs done r r', inv s p QB done (f_st r) -> sinv p (f_st r) ->
  dealers J0 (f_st r) -> linv tm J0 r -> Forall (ev_ok cd s p QB) (machine evs) ->
  NoDup (recvs (done ++ machine evs)) -> (tm -> timely r evs) -> rrun r evs = Ret r' ->
  inv s p QB (done ++ machine evs) (f_st r') /\ sinv p (f_st r') /\ dealers J0 (f_st r') /\ linv tm J0 r' /\
  prun cd sign sigok comb p (f_st r) (machine evs) = Ret (f_st r').
Proof.
  induction evs as [|e evs IH]; intros done r r' HI SI HD HL OK ND HT HR; cbn [RefreshModel.rrun] in HR.
  - injection HR as <-. cbn [machine flat_map]. rewrite app_nil_r. auto.
  - apply bind_ret in HR. destruct HR as (r1 & E1 & HR). destruct e as [e|].
    + cbn [RefreshModel.rstep] in E1. apply bind_ret in E1. destruct E1 as ((st1, ms) & E1 & E2). injection E2 as <-.
      cbn [machine flat_map app] in *. fold (machine evs) in *. inversion OK as [|? ? OK1 OK2]; subst.
      assert (I1 : inv s p QB (done ++ [e]) st1).
      { apply (pstep_inv cd s p sign sigok comb QB W HP (fun k _ => HQ k) done (f_st r) e st1 ms HI OK1); [|exact E1].
        intros i m ->. rewrite recvs_app in ND. cbn [recvs flat_map app] in ND. intros Hin.
        apply NoDup_remove_2 in ND. apply ND, in_or_app. left. exact Hin. }
      assert (GS : forall z, In z J0 -> good (f_st r) (Z.to_nat z) -> good st1 (Z.to_nat z)).
      { intros z Hz. apply (good_step done (f_st r) e st1 ms); auto. destruct (HD z Hz). lia. }
      edestruct (IH (done ++ [e])) as (A1 & A2 & A3 & A4 & A5); [| | | | | | |exact HR|]; cbn [f_st].
      * exact I1.
      * apply (pstep_sinv cd p sign sigok comb _ _ _ _ SI E1).
      * intros z Hz. destruct (HD z Hz) as (X & Y). split; [exact X|]. destruct Y; auto.
      * cbn [fst]. apply linv_state; [| |exact HL].
        -- intros z Hz. apply GS. destruct HL as (D & _ & _ & EJ & _). rewrite <- EJ. apply in_or_app. auto.
        -- intros k. apply (flgCom_mono cd p sign sigok comb [e] (f_st r) st1). cbn [prun]. rewrite E1. reflexivity.
      * exact OK2.
      * rewrite <- app_assoc. exact ND.
      * intros t. destruct (HT t) as (_ & HT'). apply HT'. cbn [RefreshModel.rstep]. rewrite E1. reflexivity.
      * rewrite <- app_assoc in A1. cbn [f_st] in A5. split; [exact A1|]. split; [exact A2|]. split; [exact A3|].
        split; [exact A4|]. cbn [prun]. rewrite E1. exact A5.
    + cbn [machine flat_map app] in *. fold (machine evs) in *. cbn [RefreshModel.rstep] in E1.
      destruct (rgo_linv tm J0 done r HI SI HD) as (r1' & E1' & ES & HL1); [intros t; apply (HT t); reflexivity|exact HL|].
      rewrite E1 in E1'. injection E1' as <-. rewrite <- ES in *.
      apply (IH done r1 r' HI SI HD HL1 OK ND); [|exact HR]. intros t. apply (HT t). exact E1.
Qed.

(** ** The end of the loop *)

Lemma end_share (tm : Prop) J0 r B : linv tm J0 r -> f_J r = [] -> bdeg F (2 * F) B -> p_reducedShare p = secy B me ->
  exists cs share, length cs = length J0 /\ Forall (fun c => (c <= F + 1)%nat) cs /\ (tm -> Forall (eq 0%nat) cs) /\
    refresh_end p r = Ret (Some (share, f_CQsum r)) /\ length share = (F + 1)%nat /\
    (forall i, (i <= F)%nat -> nth i share 0 = nth i (secy B me) 0 + fsum (map (contrib i) (combine J0 cs))) /\
    length (f_CQsum r) = (N + 1)%nat /\
    forall i, (1 <= i <= N)%nat -> nth i (f_CQsum r) ZeroG1 = mkG1 (fsum (map (cval i) J0)).
Proof.
  intros (D & cs & c & EJ & LD & LQ & LC & BC & TC & VQ & VC & HH) EF HB HS.
  rewrite EF, app_nil_r in EJ. subst D.
  exists cs, (map (fun i => nth i (f_Qsum r) 0 + nth i (secy B me) 0) (seq 0 (F + 1))).
  split; [symmetry; exact LD|]. split; [exact BC|]. split; [exact TC|]. split.
  - unfold refresh_end. rewrite EF, (gomap_ret _ (fun i => nth i (f_Qsum r) 0 + nth i (secy B me) 0)); [reflexivity|].
    intros i Hi. apply in_seq in Hi. rewrite (idx_nth 0) by lia. cbn [bind].
    rewrite HS, (idx_nth 0) by (rewrite (length_secy F (2 * F)) by exact HB; lia). reflexivity.
  - split; [rewrite map_length, seq_length; reflexivity|]. split.
    + intros i Hi. rewrite nth_map_seq by lia. rewrite VQ by exact Hi. unfold cur. rewrite EF. cbn [Nat.add]. ring.
    + split; [exact LC|]. intros i Hi. rewrite VC by exact Hi. unfold curC. rewrite EF. f_equal. ring.
Qed.

Definition mes (r : rst) : nat :=
  match f_J r with
  | [] => 0
  | _ :: J' => length J' * (F + N + 6) + 1 +
    match f_ph r with PCheck => F + N + 5 | PWait => F + N + 4 | PQ i => (F + 1 - i) + N + 2 | PC i => N + 1 - i end
  end%nat.

Lemma loop_ends J0 done : forall n r, (mes r <= n)%nat -> inv s p QB done (f_st r) -> sinv p (f_st r) ->
  dealers J0 (f_st r) -> linv False J0 r ->
  (forall z, In z (f_J r) -> nth (Z.to_nat z) (s_flgCom (f_st r)) false = true) -> f_ph r <> PWait ->
  exists k r', rrun r (repeat RGo k) = Ret r' /\ f_J r' = [].
Proof.
  induction n as [|n IH]; intros r HM HI SI HD HL HF HW.
  - exists 0%nat, r. split; [reflexivity|]. unfold mes in HM. destruct (f_J r); [reflexivity|lia].
  - destruct (f_J r) as [|z J'] eqn:EF; [exists 0%nat, r; split; [reflexivity|exact EF]|].
    destruct (rgo_linv False J0 done r HI SI HD ltac:(tauto) HL) as (r1 & E1 & ES & HL1).
    assert (X : (mes r1 < mes r)%nat /\ (forall z, In z (f_J r1) -> In z (f_J r)) /\ f_ph r1 <> PWait).
    { pose proof HL as (_ & _ & c & _ & _ & _ & _ & _ & _ & _ & _ & HH). unfold here in HH. rewrite EF in HH.
      unfold rgo in E1. rewrite EF in E1. unfold mes at 2. rewrite EF. destruct (f_ph r) as [| |i|i] eqn:EP.
      - apply bind_ret in E1. destruct E1 as (flg & EI & E1). injection E1 as <-. unfold mes. cbn [f_J f_ph].
        specialize (HF z (or_introl eq_refl)). apply idx_Ret in EI. destruct EI as (LI & EI).
        apply (nth_error_nth _ _ false) in EI. rewrite HF in EI. subst flg. split; [lia|]. split; [auto|discriminate].
      - contradiction.
      - destruct HH as (_ & HH & _). destruct (Nat.ltb_spec i (F + 1)) as [Li|Li].
        + apply bind_ret in E1. destruct E1 as (a & _ & E1). apply bind_ret in E1. destruct E1 as (q & _ & E1).
          apply bind_ret in E1. destruct E1 as (b & _ & E1). apply bind_ret in E1. destruct E1 as (Qs & _ & E1).
          injection E1 as <-. unfold mes. cbn [f_J f_ph]. split; [lia|]. split; [auto|discriminate].
        + injection E1 as <-. unfold mes. cbn [f_J f_ph]. split; [lia|]. split; [auto|discriminate].
      - destruct HH as (_ & HH & _). destruct (Nat.leb_spec i N) as [Li|Li].
        + apply bind_ret in E1. destruct E1 as (a & _ & E1). apply bind_ret in E1. destruct E1 as (q & _ & E1).
          apply bind_ret in E1. destruct E1 as (b & _ & E1). apply bind_ret in E1. destruct E1 as (Qs & _ & E1).
          injection E1 as <-. unfold mes. cbn [f_J f_ph]. split; [lia|]. split; [auto|discriminate].
        + injection E1 as <-. unfold mes. cbn [f_J f_ph]. split; [|split; [intros y Hy; right; exact Hy|discriminate]].
          destruct J' as [|z' J']; cbn [length]; lia. }
    destruct X as (XM & XJ & XW).
    destruct (IH r1) as (k & r' & E' & F'); [lia|rewrite ES; assumption|rewrite ES; assumption|rewrite ES; assumption|exact HL1| |exact XW|].
    { intros y Hy. rewrite ES. apply HF. rewrite <- EF. apply XJ. exact Hy. }
    exists (S k), r'. split; [|exact F']. cbn [repeat RefreshModel.rrun RefreshModel.rstep]. rewrite E1. exact E'.
Qed.
End Loop.
