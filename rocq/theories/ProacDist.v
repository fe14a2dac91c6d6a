(** Refreshing and distributing: sums of the refreshing polynomials, the distribution machine. *)

Require Import ZArith List Lia Bool Arith Permutation.
From Verif Require Import Prime Fr Bytes CodecModel CodecProofs GoBase Poly Biv BivProofs PolyModel PolyProofs
  GroupModel KzgModel KzgProofs PartyModel PartySpec VssModel VssProofs VssProofs2 ReduceModel ReduceProofs
  ProacModel ProacProofs ProacRun.
Import ListNotations.
Local Open Scope F_scope.

(** ** Sums of polynomials *)

Definition bzero (F : nat) : list (list Fr) := repeat (repeat 0 (F + 1)) (2 * F + 1).

Definition bsum (F : nat) (QB : nat -> list (list Fr)) (J : list nat) : list (list Fr) :=
  fold_left (fun acc j => badd acc (QB j)) J (bzero F).

Lemma beval_bzero F x y : beval (bzero F) x y = 0.
Proof.
  unfold bzero, beval. induction (2 * F + 1)%nat as [|n IH]; [reflexivity|].
  cbn [repeat map peval]. rewrite peval_repeat0, IH. ring.
Qed.

Lemma bdeg_bzero F : bdeg F (2 * F) (bzero F).
Proof.
  split; [unfold bzero; rewrite repeat_length; lia|].
  apply Forall_forall. intros row H. apply repeat_spec in H. subst. rewrite repeat_length. lia.
Qed.

Lemma bsum_snoc F QB J j : bsum F QB (J ++ [j]) = badd (bsum F QB J) (QB j).
Proof. unfold bsum. rewrite fold_left_app. reflexivity. Qed.

Lemma bsum_deg F QB J : (forall j, In j J -> bdeg F (2 * F) (QB j)) -> bdeg F (2 * F) (bsum F QB J).
Proof.
  induction J as [|j J IH] using rev_ind; intros H; [apply bdeg_bzero|].
  rewrite bsum_snoc. apply bdeg_badd; [apply IH|apply H]; [intros k Hk; apply H|]; apply in_or_app; simpl; auto.
Qed.

Lemma bsum_secret F QB J : (forall j, In j J -> beval (QB j) 0 0 = 0) -> beval (bsum F QB J) 0 0 = 0.
Proof.
  induction J as [|j J IH] using rev_ind; intros H; [apply beval_bzero|].
  rewrite bsum_snoc, beval_badd, IH, H; [ring|apply in_or_app; simpl; auto|].
  intros k Hk; apply H, in_or_app; simpl; auto.
Qed.

Lemma nth_secy_badd A B y i dx dy : bdeg dx dy A -> bdeg dx dy B ->
  nth i (secy (badd A B) y) 0 = nth i (secy A y) 0 + nth i (secy B y) 0.
Proof.
  intros (LA & _) (LB & _). rewrite !nth_secy. rewrite <- LB in LA. clear LB. revert B LA.
  induction A as [|a A IH]; intros [|b B] L; try discriminate; cbn [badd map peval]; [ring|].
  rewrite nth_padd, IH by (simpl in L; lia). ring.
Qed.

Lemma secy_bzero F y i : nth i (secy (bzero F) y) 0 = 0.
Proof.
  rewrite nth_secy. unfold bzero. induction (2 * F + 1)%nat as [|n IH]; [reflexivity|].
  cbn [repeat map peval]. rewrite IH. destruct (nth_repeat_any 0 0 (F + 1) i) as [-> | ->]; ring.
Qed.

Lemma secx_badd A B x y : peval (secx (badd A B) x) y = peval (secx A x) y + peval (secx B x) y.
Proof. rewrite !peval_secx. apply beval_badd. Qed.

(** ** Refresh *)

Section Refreshing.
Variables (s : Fr) (p : Party) (QB : nat -> list (list Fr)).
Notation F := (p_F p).
Notation N := (p_N p).
Notation me := (of_nat (p_PID p + 1)).
Hypothesis W : party_wf s p.
Hypothesis HQ : forall k, (1 <= k <= N)%nat -> bdeg F (2 * F) (QB k).

Definition nats (J : list Z) : list nat := map Z.to_nat J.

(** The sums when [QA j] is what the member holds for dealer j, and the accepted commitments belong to
    [QB]. *)
Lemma refresh_sums_gen done st (QA : nat -> list (list Fr)) J : inv s p QB done st ->
  (forall j, In j J -> (1 <= j <= Z.of_nat N)%Z /\ nth (Z.to_nat j) (s_flgCom st) false = true /\
     bdeg F (2 * F) (QA (Z.to_nat j)) /\ nth (Z.to_nat j) (s_Q st) [] = secy (QA (Z.to_nat j)) me) ->
  let S := bsum F QB (nats J) in
  exists CQsum, refresh_sums p st J = Ret (Some (secy (bsum F QA (nats J)) me, CQsum)) /\
    length CQsum = (N + 1)%nat /\
    forall j, (1 <= j <= N)%nat -> nth j CQsum ZeroG1 = mkG1 (peval (secx S s) (of_nat j)).
Proof.
  intros (LL & A & P & D & R & H & K) HJ S.
  destruct LL as (L1 & L2 & L3 & L4 & L5 & L6 & L7 & L8 & L9 & L10 & L11).
  unfold refresh_sums.
  assert (HZ : repeat 0 (F + 1) = secy (bzero F) me).
  { apply (list_ext 0).
    - rewrite repeat_length, (length_secy F (2 * F)) by apply bdeg_bzero. lia.
    - intros i Hi. rewrite secy_bzero. destruct (nth_repeat_any 0 0 (F + 1) i) as [-> | ->]; reflexivity. }
  edestruct (gofold_inv (fun J1 acc => exists CQs, acc = Some (secy (bsum F QA (nats J1)) me, CQs) /\
      length CQs = (N + 1)%nat /\
      forall j, (1 <= j <= N)%nat -> nth j CQs ZeroG1 = mkG1 (peval (secx (bsum F QB (nats J1)) s) (of_nat j))))
    as (acc & E & CQs & EA & LC & VC).
  3:{ rewrite E. exists CQs. rewrite EA. split; [reflexivity|]. split; assumption. }
  - exists (repeat ZeroG1 (N + 1)). split; [f_equal; f_equal; exact HZ|]. split; [apply repeat_length|].
    intros j Hj. rewrite nth_repeat_in by lia. cbn [nats map bsum fold_left].
    rewrite peval_secx, beval_bzero. reflexivity.
  - intros J1 j J2 acc EJ (CQs & -> & LC & VC).
    assert (HIN : forall k, In k (J1 ++ [j]) -> In k J).
    { intros k Hk. rewrite EJ. apply in_app_or in Hk. apply in_or_app. simpl in *. tauto. }
    destruct (HJ j ltac:(apply HIN, in_or_app; simpl; auto)) as (Hj & RC & D2 & RQ).
    set (n := Z.to_nat j) in *. assert (Hn : (1 <= n <= N)%nat) by lia.
    rewrite (idx_nth false) by lia. cbn [bind]. rewrite (idx_nth []) by lia. cbn [bind].
    rewrite (idx_nth []) by lia. cbn [bind]. rewrite RC. cbn [negb andb bind].
    assert (D1 : bdeg F (2 * F) (bsum F QA (nats J1))).
    { apply bsum_deg. intros k Hk. apply in_map_iff in Hk. destruct Hk as (z & <- & Hz).
      destruct (HJ z ltac:(apply HIN, in_or_app; auto)) as (_ & _ & X & _). exact X. }
    rewrite (gomap_ret _ (fun i => nth i (secy (bsum F QA (nats (J1 ++ [j]))) me) 0)).
    2:{ intros i Hi. apply in_seq in Hi. rewrite (idx_nth 0) by (rewrite (length_secy F (2 * F)) by exact D1; lia).
        cbn [bind]. rewrite RQ. rewrite (idx_nth 0) by (rewrite (length_secy F (2 * F)) by exact D2; lia).
        cbn [bind]. unfold nats at 2. rewrite map_app. cbn [map]. fold (nats J1). fold n. rewrite bsum_snoc.
        rewrite (nth_secy_badd _ _ _ _ F (2 * F)) by assumption. reflexivity. }
    cbn [bind].
    rewrite (gomap_ret _ (fun i => mkG1 (peval (secx (bsum F QB (nats (J1 ++ [j]))) s) (of_nat i)))).
    2:{ intros i Hi. apply in_seq in Hi. rewrite (idx_nth ZeroG1) by lia. cbn [bind].
        rewrite (idx_nth ZeroG1) by (rewrite L10 by lia; lia). cbn [bind].
        rewrite VC by lia. rewrite A by (auto; lia). unfold AddG1, com. cbn [dlog1].
        unfold nats at 2. rewrite map_app. cbn [map]. fold (nats J1). fold n. rewrite bsum_snoc, secx_badd.
        reflexivity. }
    cbn [bind]. eexists. split; [reflexivity|]. eexists. split; [|split].
    + f_equal. f_equal. apply (list_ext 0).
      * rewrite map_length, seq_length, (length_secy F (2 * F)); [lia|].
        unfold nats. rewrite map_app. cbn [map]. fold (nats J1). fold n. rewrite bsum_snoc.
        apply bdeg_badd; assumption.
      * intros i Hi. rewrite map_length, seq_length in Hi. rewrite nth_map_seq by lia. reflexivity.
    + cbn [length]. rewrite map_length, seq_length. lia.
    + intros i Hi. rewrite nth_cons_seq by exact Hi. reflexivity.
Qed.

Lemma refresh_gen done st QA J B : inv s p QB done st -> bdeg F (2 * F) B ->
  p_reducedShare p = secy B me ->
  (forall j, In j J -> (1 <= j <= Z.of_nat N)%Z /\ nth (Z.to_nat j) (s_flgCom st) false = true /\
     bdeg F (2 * F) (QA (Z.to_nat j)) /\ nth (Z.to_nat j) (s_Q st) [] = secy (QA (Z.to_nat j)) me) ->
  exists CQsum, Refresh p st J = Ret (Some (secy (badd B (bsum F QA (nats J))) me, CQsum)) /\
    length CQsum = (N + 1)%nat /\
    forall j, (1 <= j <= N)%nat -> nth j CQsum ZeroG1 = mkG1 (peval (secx (bsum F QB (nats J)) s) (of_nat j)).
Proof.
  intros I HB HR HJ. destruct (refresh_sums_gen done st QA J I HJ) as (CQsum & E & L & V).
  exists CQsum. split; [|split; assumption]. unfold Refresh. rewrite E. cbn [bind].
  set (S := bsum F QA (nats J)).
  assert (DS : bdeg F (2 * F) S).
  { apply bsum_deg. intros k Hk. apply in_map_iff in Hk. destruct Hk as (z & <- & Hz).
    destruct (HJ z Hz) as (_ & _ & X & _). exact X. }
  rewrite (gomap_ret _ (fun i => nth i (secy (badd B S) me) 0)).
  2:{ intros i Hi. apply in_seq in Hi. rewrite (idx_nth 0) by (rewrite (length_secy F (2 * F)) by exact DS; lia).
      cbn [bind]. rewrite HR, (idx_nth 0) by (rewrite (length_secy F (2 * F)) by exact HB; lia). cbn [bind].
      rewrite (nth_secy_badd _ _ _ _ F (2 * F)) by assumption. f_equal. ring. }
  cbn [bind]. f_equal. f_equal. f_equal. apply (list_ext 0).
  - rewrite map_length, seq_length, (length_secy F (2 * F)); [lia|]. apply bdeg_badd; assumption.
  - intros i Hi. rewrite map_length, seq_length in Hi. rewrite nth_map_seq by lia. reflexivity.
Qed.

Lemma refresh_correct done st J B : inv s p QB done st -> bdeg F (2 * F) B ->
  p_reducedShare p = secy B me ->
  (forall j, In j J -> (1 <= j <= Z.of_nat N)%Z /\ nth (Z.to_nat j) (s_flgRec st) false = true) ->
  let S := bsum F QB (nats J) in
  exists CQsum, Refresh p st J = Ret (Some (secy (badd B S) me, CQsum)) /\ length CQsum = (N + 1)%nat /\
    forall j, (1 <= j <= N)%nat -> nth j CQsum ZeroG1 = mkG1 (peval (secx S s) (of_nat j)).
Proof.
  intros I HB HR HJ S. apply (refresh_gen done st QB J B I HB HR).
  intros j Hj. destruct (HJ j Hj) as (X & Hrec). split; [exact X|].
  assert (Hn : (1 <= Z.to_nat j <= N)%nat) by lia.
  destruct I as (_ & _ & _ & _ & R & _). specialize (R _ Hn). rewrite Hrec in R. destruct R as (R1 & R2).
  split; [exact R2|]. split; [apply HQ; exact Hn|exact R1].
Qed.
End Refreshing.

(** ** Distribution *)

Section Dist.
Variables (cd : g1codec) (s : Fr) (p : Party) (B S : list (list Fr)) (CQsum : list G1).
Notation F := (p_F p).
Notation N := (p_N p).
Notation me := (of_nat (p_PID p + 1)).
Notation B' := (badd B S).
Hypothesis W : party_wf s p.
Hypothesis HB : bdeg F (2 * F) B.
Hypothesis HS : bdeg F (2 * F) S.
(** The commitments received in Prepare. *)
Hypothesis HC : forall j, (1 <= j <= 2 * F + 1)%nat ->
  exists c, nth_error (PiContents (p_Proof p)) j = Some c /\ CBj c = mkG1 (peval (secx B s) (of_nat j)).
Hypothesis LC : length CQsum = (N + 1)%nat.
Hypothesis VC : forall j, (1 <= j <= N)%nat -> nth j CQsum ZeroG1 = mkG1 (peval (secx S s) (of_nat j)).

Definition ncom (j : nat) : G1 := mkG1 (peval (secx B' s) (of_nat j)).

Lemma B'_deg : bdeg F (2 * F) B'.
Proof. apply bdeg_badd; assumption. Qed.

Lemma verify_new_commit j data : (1 <= j <= N)%nat ->
  VerifyNewCommit cd p CQsum j data =
  match FromCompressedG1 cd data with
  | None => Panic
  | Some g => Ret (if EqualG1 g (ncom j) then Some g else None)
  end.
Proof.
  intros Hj. destruct W as (W1 & W2 & W3 & W4 & W5 & W6 & _). unfold VerifyNewCommit, ReadG1.
  destruct (FromCompressedG1 cd data) as [g|]; [|reflexivity]. cbn [bind].
  set (old := if (j <=? 2 * F + 1)%nat then _ else _).
  assert (E : old = Ret (mkG1 (peval (secx B s) (of_nat j)))).
  { unfold old. destruct (Nat.leb_spec j (2 * F + 1)) as [L|L].
    - destruct (HC j ltac:(lia)) as (c & E1 & E2). unfold idx. rewrite E1. cbn [bind]. rewrite E2. reflexivity.
    - rewrite (gomap_ret _ (fun i => mkG1 (peval (secx B s) (of_nat i)))).
      2:{ intros i Hi. apply in_seq in Hi. destruct (HC i ltac:(lia)) as (c & E1 & E2). unfold idx. rewrite E1.
          cbn [bind]. rewrite E2. reflexivity. }
      cbn [bind]. apply (InterpolateComOrWit_correct F (p_tab p) N (2 * F) j (secx B s) W2); try lia.
      rewrite length_secx. destruct HB as (-> & _). lia. }
  rewrite E. cbn [bind]. rewrite (idx_nth ZeroG1) by lia. cbn [bind]. rewrite VC by exact Hj.
  unfold AddG1. cbn [dlog1]. unfold ncom. rewrite secx_badd. destruct (EqualG1 _ _); reflexivity.
Qed.

(** No forged openings of the new commitments. *)
Definition dv_ok (e : dev) : Prop :=
  match e with
  | DvRecv sender m => forall j w, (Z.of_nat j = Xof sender)%Z -> (1 <= j <= N)%nat ->
      FromCompressedG1 cd (sd_WB m) = Some w ->
      let v := FrFrom32_into 0 (to32 (sd_B m)) in
      CheckProofSingle (p_KZG p) (ncom j) w me v = Ret true -> v = beval B' me (of_nat j)
  | _ => True
  end.

Definition wait_ok (x : nat * ShareDistMsg) : Prop :=
  (fst x <= N)%nat /\
  forall w, (1 <= fst x)%nat -> FromCompressedG1 cd (sd_WB (snd x)) = Some w ->
    let v := FrFrom32_into 0 (to32 (sd_B (snd x))) in
    CheckProofSingle (p_KZG p) (ncom (fst x)) w me v = Ret true -> v = beval B' me (of_nat (fst x)).

Definition dinv (st : dst) : Prop :=
  (length (d_ncDone st) = (N + 1)%nat /\ length (d_SCom st) = (N + 1)%nat /\ length (d_token st) = (N + 1)%nat) /\
  (forall j, nth j (d_token st) false = true ->
     (1 <= j <= N)%nat /\ nth j (d_SCom st) ZeroG1 = ncom j /\ nth j (d_ncDone st) false = true /\
     ~ In j (map fst (d_SB st))) /\
  (forall e, In e (d_SB st) -> (1 <= fst e <= N)%nat /\ snd e = beval B' me (of_nat (fst e)) /\
     nth (fst e) (d_ncDone st) false = true) /\
  NoDup (map fst (d_SB st)) /\
  Forall wait_ok (d_wait st) /\
  (match d_share st with
   | Some f => f = secx B' me
   | None => (length (d_SB st) <= 2 * F)%nat
   end).

Lemma dinv_init : dinv (dist_init N).
Proof.
  assert (NT : forall j, nth j (repeat false (N + 1)) false = true -> False).
  { intros j H. destruct (nth_repeat_any false false (N + 1) j) as [E|E]; congruence. }
  unfold dinv, dist_init. cbn [d_ncDone d_SCom d_token d_free d_wait d_SB d_share].
  rewrite !repeat_length. split; [auto|]. split; [intros j H; destruct (NT j H)|].
  split; [intros e []|]. split; [constructor|]. split; [constructor|]. simpl. lia.
Qed.

Lemma d_commit_inv st j data st' : dinv st -> d_commit cd p CQsum st j data = Ret st' -> dinv st'.
Proof.
  intros ((L1 & L2 & L3) & T & SBI & ND & WT & SH) E. unfold d_commit in E.
  destruct (negb ((1 <=? j) && (j <=? N))%nat || nth j (d_ncDone st) true) eqn:G.
  { injection E as <-. repeat split; try assumption; try (apply T; assumption); try (apply SBI; assumption). }
  apply orb_false_iff in G. destruct G as (G1 & G2). apply negb_false_iff, andb_true_iff in G1.
  rewrite !Nat.leb_le in G1. rewrite (nth_indep _ true false) in G2 by lia.
  rewrite verify_new_commit in E by lia.
  destruct (FromCompressedG1 cd data) as [g|]; [|discriminate]. cbn [bind] in E.
  assert (NCD : forall k, nth k (d_ncDone st) false = true -> nth k (set_nth j true (d_ncDone st)) false = true).
  { intros k Hk. rewrite nth_set_nth. destruct (_ && _); auto. }
  assert (SBN : forall e, In e (d_SB st) -> (1 <= fst e <= N)%nat /\ snd e = beval B' me (of_nat (fst e)) /\
     nth (fst e) (set_nth j true (d_ncDone st)) false = true).
  { intros e He. destruct (SBI e He) as (A1 & A2 & A3). auto. }
  destruct (EqualG1 g (ncom j)) eqn:EG; injection E as <-; unfold dinv;
    cbn [d_ncDone d_SCom d_token d_free d_wait d_SB d_share]; rewrite ?length_set_nth;
    (split; [auto|split; [|split; [exact SBN|auto]]]).
  - apply EqualG1_eq in EG. subst g. intros k Hk. destruct (Nat.eq_dec j k) as [<-|Ne].
    + rewrite nth_set_nth_same by lia. rewrite nth_set_nth_same by lia. repeat split; try lia.
      intros Hin. apply in_map_iff in Hin. destruct Hin as (e & <- & He). destruct (SBI e He) as (_ & _ & A3).
      congruence.
    + rewrite nth_set_nth_other in Hk by exact Ne. destruct (T k Hk) as (A1 & A2 & A3 & A4).
      rewrite !nth_set_nth_other by exact Ne. auto.
  - intros k Hk. destruct (T k Hk) as (A1 & A2 & A3 & A4). auto.
Qed.

Lemma d_recv_inv st i m st' : dinv st -> dv_ok (DvRecv i m) -> d_recv p st i m = Ret st' -> dinv st'.
Proof.
  intros (L & T & SBI & ND & WT & SH) OK E. unfold d_recv in E.
  destruct (d_free st) as [|n].
  { injection E as <-. unfold dinv. auto 10. }
  change (((i + 1) mod 2 ^ 32)%Z) with (Xof i) in E.
  destruct (Z.ltb_spec (Z.of_nat N) (Xof i)) as [G|G]; [discriminate|]. injection E as <-.
  unfold dinv. cbn [d_ncDone d_SCom d_token d_free d_wait d_SB d_share].
  repeat (split; [assumption|]). split; [|assumption].
  apply Forall_app. split; [exact WT|]. constructor; [|constructor]. pose proof (Xof_range i).
  split; cbn [fst snd]; [lia|]. intros w Hw. apply OK; lia.
Qed.

Lemma Forall_remove {A} (P : A -> Prop) i l : Forall P l -> Forall P (firstn i l ++ skipn (i + 1) l).
Proof.
  intros H. rewrite Forall_forall in H |- *. intros x Hx. apply H. apply in_app_or in Hx.
  destruct Hx as [Hx|Hx].
  - rewrite <- (firstn_skipn i l). apply in_or_app. left. exact Hx.
  - rewrite <- (firstn_skipn (i + 1) l). apply in_or_app. right. exact Hx.
Qed.

Lemma sb_points SB : NoDup (map fst SB) -> length SB = (2 * F + 1)%nat ->
  (forall e, In e SB -> (1 <= fst e <= N)%nat /\ snd e = beval B' me (of_nat (fst e))) ->
  LagrangeInterpolate (2 * F) (map (fun e => of_nat (fst e)) (firstn (2 * F + 1) SB))
    (map snd (firstn (2 * F + 1) SB)) = Ret (secx B' me).
Proof.
  intros ND L H. rewrite firstn_all2 by lia.
  assert (EY : map snd SB = map (peval (secx B' me)) (map (fun e => of_nat (fst e)) SB)).
  { rewrite map_map. apply map_ext_in. intros e He. rewrite peval_secx. apply H. exact He. }
  rewrite EY. apply LagrangeInterpolate_values.
  - rewrite firstn_all2 by (rewrite map_length; lia).
    replace (map (fun e : nat * Fr => of_nat (fst e)) SB) with (map of_nat (map fst SB)) by (rewrite map_map; reflexivity).
    destruct W as (_ & _ & _ & _ & W5 & _).
    assert (RG : Forall (fun z => (z <= N)%nat) (map fst SB)).
    { apply Forall_forall. intros z Hz. apply in_map_iff in Hz. destruct Hz as (e & <- & He).
      apply (H e He). }
    clear -ND RG W5. induction (map fst SB) as [|z l IH]; [constructor|].
    inversion ND as [|? ? N1 N2]; subst. inversion RG as [|? ? R1 R2]; subst. cbn [map]. constructor; [|auto].
    rewrite in_map_iff. intros (z' & Ez & Hz'). rewrite Forall_forall in R2. specialize (R2 z' Hz').
    unfold of_nat in Ez. apply (f_equal fv) in Ez. rewrite !fv_of_Z in Ez.
    rewrite !Z.mod_small in Ez by lia. apply Nat2Z.inj in Ez. subst. contradiction.
  - rewrite map_length. lia.
  - rewrite length_secx. destruct B'_deg as (-> & _). lia.
Qed.

Lemma d_go_inv st i st' : dinv st -> d_go cd p st i = Ret st' -> dinv st'.
Proof.
  intros I E. pose proof I as ((L1 & L2 & L3) & T & SBI & ND & WT & SH). unfold d_go in E.
  destruct (nth_error (d_wait st) i) as [(j & m)|] eqn:EN; [|injection E as <-; exact I].
  destruct (nth j (d_token st) false) eqn:ET; cbn [negb] in E; [|injection E as <-; exact I].
  destruct (T j ET) as (T1 & T2 & T3 & T4).
  rewrite (idx_nth ZeroG1) in E by lia. cbn [bind] in E. rewrite T2 in E.
  apply bind_ret in E. destruct E as (w & Ew & E). apply ReadG1_inv in Ew.
  apply bind_ret in E. destruct E as (ok & Eok & E).
  assert (WJ : wait_ok (j, m)).
  { rewrite Forall_forall in WT. apply WT. eapply nth_error_In. exact EN. }
  set (v := FrFrom32_into 0 (to32 (sd_B m))) in *.
  set (wait' := firstn i (d_wait st) ++ skipn (i + 1) (d_wait st)) in *.
  assert (WT' : Forall wait_ok wait') by (apply Forall_remove; exact WT).
  assert (TK : forall SB' : list (nat * Fr), (forall k, k <> j -> In k (map fst SB') -> In k (map fst (d_SB st))) ->
     forall k, nth k (set_nth j false (d_token st)) false = true ->
     (1 <= k <= N)%nat /\ nth k (d_SCom st) ZeroG1 = ncom k /\ nth k (d_ncDone st) false = true /\
     ~ In k (map fst SB')).
  { intros SB' HI k Hk. destruct (Nat.eq_dec j k) as [<-|Ne].
    - rewrite nth_set_nth_same in Hk by lia. discriminate.
    - rewrite nth_set_nth_other in Hk by exact Ne. destruct (T k Hk) as (A1 & A2 & A3 & A4).
      split; [exact A1|]. split; [exact A2|]. split; [exact A3|]. intros Hin. apply A4, HI; auto. }
  destruct ok.
  - assert (EV : v = beval B' me (of_nat j)).
    { destruct WJ as (_ & WJ). apply (WJ w); cbn [fst snd]; auto. lia. }
    set (SB := d_SB st ++ [(j, v)]) in *.
    assert (SBN : forall e, In e SB -> (1 <= fst e <= N)%nat /\ snd e = beval B' me (of_nat (fst e)) /\
       nth (fst e) (d_ncDone st) false = true).
    { intros e He. unfold SB in He. apply in_app_or in He. destruct He as [He|[<-|[]]]; [apply SBI; exact He|].
      cbn [fst snd]. auto. }
    assert (NDN : NoDup (map fst SB)).
    { unfold SB. rewrite map_app. apply NoDup_snoc; [exact ND|exact T4]. }
    assert (TKN : forall k, nth k (set_nth j false (d_token st)) false = true ->
     (1 <= k <= N)%nat /\ nth k (d_SCom st) ZeroG1 = ncom k /\ nth k (d_ncDone st) false = true /\
     ~ In k (map fst SB)).
    { apply TK. intros k Ne Hin. unfold SB in Hin. rewrite map_app in Hin. apply in_app_or in Hin.
      destruct Hin as [Hin|[Hin|[]]]; [exact Hin|]. cbn [fst] in Hin. congruence. }
    assert (LSB : length SB = (length (d_SB st) + 1)%nat) by (unfold SB; rewrite app_length; reflexivity).
    destruct (d_share st) as [f|].
    + injection E as <-. unfold dinv. cbn [d_ncDone d_SCom d_token d_free d_wait d_SB d_share].
      rewrite length_set_nth. auto 10.
    + destruct (Nat.leb_spec (2 * F + 1) (length SB)) as [G|G].
      * rewrite sb_points in E; auto; [|lia|intros e He; destruct (SBN e He) as (A1 & A2 & _); auto].
        cbn [bind] in E. injection E as <-.
        unfold dinv. cbn [d_ncDone d_SCom d_token d_free d_wait d_SB d_share]. rewrite length_set_nth. auto 10.
      * injection E as <-. unfold dinv. cbn [d_ncDone d_SCom d_token d_free d_wait d_SB d_share].
        rewrite length_set_nth. repeat (split; [solve [auto]|]). lia.
  - injection E as <-. unfold dinv. cbn [d_ncDone d_SCom d_token d_free d_wait d_SB d_share].
    rewrite length_set_nth. repeat (split; [solve [auto]|]). exact SH.
Qed.

Lemma dstep_inv st e st' : dinv st -> dv_ok e -> dstep cd p CQsum st e = Ret st' -> dinv st'.
Proof.
  intros I OK E. destruct e; cbn [dstep] in E.
  - eapply d_commit_inv; eassumption.
  - eapply d_recv_inv; eassumption.
  - eapply d_go_inv; eassumption.
Qed.

Lemma drun_inv : forall evs st st', dinv st -> Forall dv_ok evs -> drun cd p CQsum st evs = Ret st' -> dinv st'.
Proof.
  induction evs as [|e evs IH]; intros st st' I OK E; unfold drun in *; cbn [gofold] in E.
  - injection E as <-. exact I.
  - apply bind_ret in E. destruct E as (st1 & E1 & E). inversion OK; subst.
    apply (IH st1); auto. eapply dstep_inv; eassumption.
Qed.

(** *** Progress *)

Definition dmsg (j : nat) : ShareDistMsg :=
  mkSD (FrTo32 (beval B' me (of_nat j))) (ToCompressedG1 cd (mkG1 (peval (wrow s B' me) (of_nat j)))).

Definition dsenders (evs : list dev) : list Z :=
  flat_map (fun e => match e with DvRecv i _ => [i] | _ => [] end) evs.

(** Nothing is left to do for the messages that arrived. *)
Definition quiet (st : dst) : Prop :=
  forall j m, In (j, m) (d_wait st) -> nth j (d_token st) false = false.

(** [j] is an honest member. *)
Definition hon (evs : list dev) (j : nat) : Prop :=
  (1 <= j <= N)%nat /\ In (DvCommit j (ToCompressedG1 cd (ncom j))) evs /\
  (forall data, In (DvCommit j data) evs -> data = ToCompressedG1 cd (ncom j)) /\
  (forall m, In (DvRecv (Z.of_nat (j - 1)) m) evs -> m = dmsg j).

Definition prog (evs done : list dev) (st : dst) : Prop :=
  (d_free st + length (dsenders done) = N)%nat /\
  (forall j, hon evs j ->
     (In (DvCommit j (ToCompressedG1 cd (ncom j))) done ->
        nth j (d_token st) false = true \/ In j (map fst (d_SB st))) /\
     (nth j (d_ncDone st) false = true -> In (DvCommit j (ToCompressedG1 cd (ncom j))) done) /\
     (In (DvRecv (Z.of_nat (j - 1)) (dmsg j)) done ->
        In (j, dmsg j) (d_wait st) \/ In j (map fst (d_SB st))) /\
     (forall m, In (j, m) (d_wait st) -> m = dmsg j)).

Hypothesis CD : codec_ok cd.
Hypothesis HN : (Z.of_nat N < 2 ^ 32)%Z.

Lemma dmsg_ok j : FrFrom32_into 0 (to32 (sd_B (dmsg j))) = beval B' me (of_nat j) /\
  ReadG1 cd (sd_WB (dmsg j)) = Ret (mkG1 (peval (wrow s B' me) (of_nat j))) /\
  CheckProofSingle (p_KZG p) (ncom j) (mkG1 (peval (wrow s B' me) (of_nat j))) me (beval B' me (of_nat j)) = Ret true.
Proof.
  unfold dmsg. cbn [sd_B sd_WB]. rewrite to32_FrTo32. unfold FrFrom32_into. rewrite FrFrom32_FrTo32.
  split; [reflexivity|]. split; [apply read_own; exact CD|].
  destruct W as (W1 & _ & W3 & _). apply (check_iff s (F + 1) _ W1); [lia|]. unfold ncom. cbn [dlog1].
  apply (opening s B' F (2 * F)). apply B'_deg.
Qed.

Lemma in_remove {A} (l : list A) i x y : In y l -> nth_error l i = Some x -> y <> x ->
  In y (firstn i l ++ skipn (i + 1) l).
Proof.
  revert i. induction l as [|a l IH]; intros i Hin HE Ne; [destruct Hin|].
  destruct i as [|i]; cbn in *.
  - injection HE as ->. destruct Hin as [->|Hin]; [congruence|exact Hin].
  - destruct Hin as [->|Hin]; [left; reflexivity|right; apply IH; auto].
Qed.

Lemma in_remove_old {A} (l : list A) i y : In y (firstn i l ++ skipn (i + 1) l) -> In y l.
Proof.
  intros Hx. apply in_app_or in Hx. destruct Hx as [Hx|Hx].
  - rewrite <- (firstn_skipn i l). apply in_or_app. left. exact Hx.
  - rewrite <- (firstn_skipn (i + 1) l). apply in_or_app. right. exact Hx.
Qed.

Lemma dsenders_snoc done e : dsenders (done ++ [e]) = dsenders done ++ dsenders [e].
Proof. unfold dsenders. apply flat_map_app. Qed.

Lemma dstep_prog evs done st e rest st' : evs = done ++ e :: rest ->
  NoDup (dsenders evs) -> (forall i, In i (dsenders evs) -> (0 <= i < Z.of_nat N)%Z) ->
  dinv st -> prog evs done st -> dstep cd p CQsum st e = Ret st' -> prog evs (done ++ [e]) st'.
Proof.
  intros EE ND RG I (FR & PR) E.
  assert (INE : In e evs) by (rewrite EE; apply in_or_app; simpl; auto).
  pose proof I as ((L1 & L2 & L3) & T & SBI & NDS & WT & SH).
  destruct e as [j data|i m|i]; cbn [dstep] in E.
  - (* a new commitment *)
    assert (FR' : (d_free st + length (dsenders (done ++ [DvCommit j data])) = N)%nat).
    { rewrite dsenders_snoc. cbn [dsenders flat_map app]. rewrite app_nil_r. exact FR. }
    unfold d_commit in E.
    destruct (negb ((1 <=? j) && (j <=? N))%nat || nth j (d_ncDone st) true) eqn:G.
    + injection E as <-. split; [exact FR'|]. intros k Hk. destruct (PR k Hk) as (P1 & P2 & P3 & P4).
      assert (NJ : In (DvCommit k (ToCompressedG1 cd (ncom k))) (done ++ [DvCommit j data]) ->
                   In (DvCommit k (ToCompressedG1 cd (ncom k))) done).
      { intros Hin. apply in_app_or in Hin. destruct Hin as [Hin|[Hin|[]]]; [exact Hin|].
        injection Hin as -> ->. destruct Hk as (Hk & _). apply P2.
        apply orb_true_iff in G. destruct G as [G|G].
        - rewrite (proj2 (Nat.leb_le 1 k)), (proj2 (Nat.leb_le k N)) in G by lia. discriminate.
        - rewrite (nth_indep _ true false) in G by lia. exact G. }
      repeat split; auto.
      * intros H. apply in_or_app. left. auto.
      * intros Hin. apply P3. apply in_app_or in Hin. destruct Hin as [Hin|[Hin|[]]]; [exact Hin|discriminate].
    + apply orb_false_iff in G. destruct G as (G1 & G2). apply negb_false_iff, andb_true_iff in G1.
      rewrite !Nat.leb_le in G1. rewrite (nth_indep _ true false) in G2 by lia.
      rewrite verify_new_commit in E by lia.
      destruct (FromCompressedG1 cd data) as [g|] eqn:EG; [|discriminate]. cbn [bind] in E.
      assert (HK : forall k, hon evs k -> k = j -> g = ncom j /\ data = ToCompressedG1 cd (ncom k)).
      { intros k (_ & _ & K2 & _) ->. rewrite (K2 data INE), CD in EG. injection EG as <-. auto. }
      destruct (EqualG1 g (ncom j)) eqn:EQ; injection E as <-; (split; [exact FR'|]);
        intros k Hk; destruct (PR k Hk) as (P1 & P2 & P3 & P4);
        cbn [d_ncDone d_SCom d_token d_free d_wait d_SB d_share]; (split; [|split; [|split; [|exact P4]]]).
      * intros Hin. rewrite nth_set_nth. rewrite (proj2 (Nat.ltb_lt j (length (d_token st)))) by lia.
        destruct (Nat.eqb_spec j k) as [->|Ne]; cbn [andb]; [left; reflexivity|].
        apply P1. apply in_app_or in Hin. destruct Hin as [Hin|[Hin|[]]]; [exact Hin|]. congruence.
      * intros H. rewrite nth_set_nth in H. destruct (Nat.eqb_spec j k) as [->|Ne]; cbn [andb] in H.
        -- apply in_or_app. right. left. f_equal. apply (HK k Hk eq_refl).
        -- apply in_or_app. left. auto.
      * intros Hin. apply P3. apply in_app_or in Hin. destruct Hin as [Hin|[Hin|[]]]; [exact Hin|discriminate].
      * intros Hin. apply P1. apply in_app_or in Hin. destruct Hin as [Hin|[Hin|[]]]; [exact Hin|].
        injection Hin as -> ->. destruct (HK k Hk eq_refl) as (-> & _).
        rewrite (proj2 (EqualG1_eq _ _) eq_refl) in EQ. discriminate.
      * intros H. rewrite nth_set_nth in H. destruct (Nat.eqb_spec j k) as [->|Ne]; cbn [andb] in H.
        -- apply in_or_app. right. left. f_equal. apply (HK k Hk eq_refl).
        -- apply in_or_app. left. auto.
      * intros Hin. apply P3. apply in_app_or in Hin. destruct Hin as [Hin|[Hin|[]]]; [exact Hin|discriminate].
  - (* a message *)
    assert (HI : (0 <= i < Z.of_nat N)%Z).
    { apply RG. rewrite EE. unfold dsenders. rewrite flat_map_app. apply in_or_app. right. left. reflexivity. }
    unfold d_recv in E. destruct (d_free st) as [|n] eqn:EF.
    { exfalso. cbn [Nat.add] in FR.
      assert (LE : (length (dsenders evs) <= N)%nat).
      { rewrite <- (map_length Z.to_nat (dsenders evs)), <- (seq_length N 0).
        apply NoDup_incl_length.
        - clear -ND RG. induction (dsenders evs) as [|a l IH]; [constructor|].
          inversion ND; subst. cbn [map]. constructor.
          + rewrite in_map_iff. intros (b & Eb & Hb).
            assert (a = b). { pose proof (RG a (or_introl eq_refl)). pose proof (RG b (or_intror Hb)). lia. }
            subst. contradiction.
          + apply IH; auto. intros b Hb. apply RG. right. exact Hb.
        - intros x Hx. apply in_map_iff in Hx. destruct Hx as (z & <- & Hz). apply in_seq.
          specialize (RG z Hz). lia. }
      rewrite EE in LE. unfold dsenders in LE. rewrite flat_map_app, app_length in LE. cbn [flat_map app length] in LE.
      fold (dsenders done) in LE. lia. }
    change (((i + 1) mod 2 ^ 32)%Z) with (Xof i) in E.
    assert (EX : Xof i = (i + 1)%Z) by (unfold Xof; apply Z.mod_small; lia).
    rewrite EX in E. destruct (Z.ltb_spec (Z.of_nat N) (i + 1)) as [G|G]; [discriminate|]. injection E as <-.
    split.
    { cbn [d_free]. rewrite dsenders_snoc, app_length. cbn [dsenders flat_map app length]. lia. }
    intros k Hk. destruct (PR k Hk) as (P1 & P2 & P3 & P4).
    cbn [d_ncDone d_SCom d_token d_free d_wait d_SB d_share]. split; [|split; [|split]].
    + intros Hin. apply P1. apply in_app_or in Hin. destruct Hin as [Hin|[Hin|[]]]; [exact Hin|discriminate].
    + intros H. apply in_or_app. left. auto.
    + intros Hin. apply in_app_or in Hin. destruct Hin as [Hin|[Hin|[]]].
      * destruct (P3 Hin) as [H|H]; [left; apply in_or_app; left; exact H|right; exact H].
      * injection Hin as -> ->. left. apply in_or_app. right. left. destruct Hk as (Hk & _). f_equal. lia.
    + intros m' Hin. apply in_app_or in Hin. destruct Hin as [Hin|[Hin|[]]]; [apply P4; exact Hin|].
      injection Hin as <- <-. destruct Hk as (_ & _ & _ & K3). apply K3.
      replace (Z.of_nat (Z.to_nat (i + 1) - 1)) with i by lia. exact INE.
  - (* a goroutine continues *)
    assert (FR' : (d_free st + length (dsenders (done ++ [DvGo i])) = N)%nat).
    { rewrite dsenders_snoc. cbn [dsenders flat_map app]. rewrite app_nil_r. exact FR. }
    assert (SAME : prog evs (done ++ [DvGo i]) st).
    { split; [exact FR'|]. intros k Hk. destruct (PR k Hk) as (P1 & P2 & P3 & P4). repeat split; auto.
      - intros Hin. apply P1. apply in_app_or in Hin. destruct Hin as [Hin|[Hin|[]]]; [exact Hin|discriminate].
      - intros H. apply in_or_app. left. auto.
      - intros Hin. apply P3. apply in_app_or in Hin. destruct Hin as [Hin|[Hin|[]]]; [exact Hin|discriminate]. }
    unfold d_go in E.
    destruct (nth_error (d_wait st) i) as [(j & m)|] eqn:EN; [|injection E as <-; exact SAME].
    destruct (nth j (d_token st) false) eqn:ET; cbn [negb] in E; [|injection E as <-; exact SAME].
    destruct (T j ET) as (T1 & T2 & T3 & T4).
    rewrite (idx_nth ZeroG1) in E by lia. cbn [bind] in E. rewrite T2 in E.
    apply bind_ret in E. destruct E as (w & Ew & E).
    apply bind_ret in E. destruct E as (ok & Eok & E).
    assert (OKJ : hon evs j -> ok = true).
    { intros Hj. destruct (PR j Hj) as (_ & _ & _ & P4).
      assert (m = dmsg j) by (apply P4; eapply nth_error_In; exact EN). subst m.
      destruct (dmsg_ok j) as (D1 & D2 & D3). rewrite D2 in Ew. injection Ew as <-. rewrite D1, D3 in Eok.
      injection Eok as <-. reflexivity. }
    assert (GEN : forall SB' sh, (forall x, In x (map fst (d_SB st)) -> In x (map fst SB')) ->
      (ok = true -> In j (map fst SB')) ->
      prog evs (done ++ [DvGo i]) (mkDst (d_ncDone st) (d_SCom st) (set_nth j false (d_token st)) (d_free st)
        (firstn i (d_wait st) ++ skipn (i + 1) (d_wait st)) SB' sh)).
    { intros SB' sh HS1 HS2. destruct SAME as (_ & PS). split; [exact FR'|].
      intros k Hk. destruct (PS k Hk) as (P1 & P2 & P3 & P4).
      cbn [d_ncDone d_SCom d_token d_free d_wait d_SB d_share]. split; [|split; [|split]]; auto.
      - intros Hin. destruct (Nat.eq_dec j k) as [->|Ne]; [right; auto|].
        rewrite nth_set_nth_other by exact Ne. destruct (P1 Hin); auto.
      - intros Hin. destruct (Nat.eq_dec j k) as [->|Ne]; [right; auto|].
        destruct (P3 Hin) as [H|H]; [left|right; auto]. eapply in_remove; eauto. congruence.
      - intros m' Hin. apply P4. eapply in_remove_old. exact Hin. }
    destruct ok.
    + assert (HS1 : forall x v, In x (map fst (d_SB st)) -> In x (map fst (d_SB st ++ [(j, v)] : list (nat * Fr)))).
      { intros x v Hx. rewrite map_app. apply in_or_app. left. exact Hx. }
      assert (HS2 : forall v, In j (map fst (d_SB st ++ [(j, v)] : list (nat * Fr)))).
      { intros v. rewrite map_app. apply in_or_app. right. left. reflexivity. }
      destruct (d_share st).
      * injection E as <-. apply GEN; auto.
      * destruct (_ <=? _)%nat.
        -- apply bind_ret in E. destruct E as (f & _ & E). injection E as <-. apply GEN; auto.
        -- injection E as <-. apply GEN; auto.
    + injection E as <-. apply GEN; auto. discriminate.
Qed.

Lemma drun_prog : forall rest evs done st st', evs = done ++ rest ->
  NoDup (dsenders evs) -> (forall i, In i (dsenders evs) -> (0 <= i < Z.of_nat N)%Z) ->
  Forall dv_ok evs -> dinv st -> prog evs done st -> drun cd p CQsum st rest = Ret st' ->
  dinv st' /\ prog evs evs st'.
Proof.
  induction rest as [|e rest IH]; intros evs done st st' EE ND RG OK I P E; unfold drun in *; cbn [gofold] in E.
  - injection E as <-. rewrite app_nil_r in EE. subst done. auto.
  - apply bind_ret in E. destruct E as (st1 & E1 & E).
    apply (IH evs (done ++ [e]) st1); auto.
    + rewrite <- app_assoc. exact EE.
    + eapply dstep_inv; eauto. rewrite Forall_forall in OK. apply OK. rewrite EE. apply in_or_app. simpl. auto.
    + eapply dstep_prog; eauto.
Qed.

Lemma prog_init evs : prog evs [] (dist_init N).
Proof.
  split; [cbn; lia|]. intros j _. unfold dist_init. cbn [d_ncDone d_SCom d_token d_free d_wait d_SB d_share].
  split; [intros []|]. split; [|split; [intros []|intros m []]].
  intros H. destruct (nth_repeat_any false false (N + 1) j) as [E|E]; congruence.
Qed.

Theorem dist_complete evs st G : NoDup (dsenders evs) ->
  (forall i, In i (dsenders evs) -> (0 <= i < Z.of_nat N)%Z) -> Forall dv_ok evs ->
  drun cd p CQsum (dist_init N) evs = Ret st -> quiet st ->
  NoDup G -> length G = (2 * F + 1)%nat ->
  (forall j, In j G -> hon evs j /\ In (DvRecv (Z.of_nat (j - 1)) (dmsg j)) evs) ->
  d_share st = Some (secx B' me).
Proof.
  intros ND RG OK E Q NG LG HG.
  destruct (drun_prog evs evs [] (dist_init N) st eq_refl ND RG OK dinv_init (prog_init evs) E) as (I & _ & PR).
  pose proof I as (_ & T & SBI & NDS & WT & SH).
  assert (IN : incl G (map fst (d_SB st))).
  { intros j Hj. destruct (HG j Hj) as (Hh & Hr). destruct (PR j Hh) as (P1 & P2 & P3 & P4).
    destruct (P3 Hr) as [Hw|Hs]; [|exact Hs]. destruct (P1 (proj1 (proj2 Hh))) as [Ht|Hs]; [|exact Hs].
    rewrite (Q j _ Hw) in Ht. discriminate. }
  pose proof (NoDup_incl_length NG IN) as LE. rewrite map_length in LE.
  destruct (d_share st) as [f|]; [f_equal; exact SH|lia].
Qed.
(** Nothing stops a member as long as the points decode and the senders are members; and the goroutines
    that can go on come to an end. *)
Definition decodable (l : list (nat * ShareDistMsg)) : Prop :=
  forall j m, In (j, m) l -> FromCompressedG1 cd (sd_WB m) <> None.

Lemma d_go_total st i : dinv st -> decodable (d_wait st) ->
  exists st', d_go cd p st i = Ret st' /\ (forall x, In x (d_wait st') -> In x (d_wait st)) /\
    match nth_error (d_wait st) i with
    | Some (j, _) => nth j (d_token st) false = true -> (length (d_wait st') < length (d_wait st))%nat
    | None => True
    end.
Proof.
  intros I DC. pose proof I as ((L1 & L2 & L3) & T & SBI & ND & WT & SH). unfold d_go.
  destruct (nth_error (d_wait st) i) as [(j & m)|] eqn:EN; [|exists st; auto].
  destruct (nth j (d_token st) false) eqn:ET; cbn [negb]; [|exists st; split; [reflexivity|]; split; [auto|congruence]].
  destruct (T j ET) as (T1 & T2 & T3 & T4).
  rewrite (idx_nth ZeroG1) by lia. cbn [bind]. rewrite T2.
  pose proof (nth_error_In _ _ EN) as HIN.
  destruct (FromCompressedG1 cd (sd_WB m)) as [w|] eqn:EW; [|destruct (DC j m HIN EW)].
  unfold ReadG1. rewrite EW. cbn [bind].
  destruct W as (W1 & _ & W3 & _). rewrite (check_correct s (F + 1) _ W1) by lia. cbn [bind].
  assert (WJ : wait_ok (j, m)) by (rewrite Forall_forall in WT; apply WT; exact HIN).
  set (v := FrFrom32_into 0 (to32 (sd_B m))) in *.
  set (wait' := firstn i (d_wait st) ++ skipn (i + 1) (d_wait st)) in *.
  assert (LI : (i < length (d_wait st))%nat) by (apply nth_error_Some; congruence).
  assert (LW : (length wait' < length (d_wait st))%nat).
  { unfold wait'. rewrite app_length, firstn_length, skipn_length. lia. }
  assert (SW : forall x, In x wait' -> In x (d_wait st)).
  { intros x Hx. exact (in_remove_old _ i x Hx). }
  match goal with |- context [if ?c then _ else _] => destruct c eqn:EC end.
  2:{ eexists. split; [reflexivity|]. cbn [d_wait]. auto. }
  assert (EV : v = beval B' me (of_nat j)).
  { destruct WJ as (_ & WJ). apply (WJ w); cbn [fst snd]; auto; [lia|].
    rewrite (check_correct s (F + 1) _ W1) by lia. exact (f_equal Ret EC). }
  set (SB := d_SB st ++ [(j, v)]) in *.
  destruct (d_share st) as [f|]; [eexists; split; [reflexivity|]; cbn [d_wait]; auto|].
  assert (LSB : length SB = (length (d_SB st) + 1)%nat) by (unfold SB; rewrite app_length; reflexivity).
  destruct (Nat.leb_spec (2 * F + 1) (length SB)) as [G|G]; [|eexists; split; [reflexivity|]; cbn [d_wait]; auto].
  rewrite sb_points; [cbn [bind]; eexists; split; [reflexivity|]; cbn [d_wait]; auto| |lia|].
  - unfold SB. rewrite map_app. apply NoDup_snoc; [exact ND|exact T4].
  - intros e He. unfold SB in He. apply in_app_or in He. destruct He as [He|[<-|[]]]; [|cbn [fst snd]; auto].
    destruct (SBI e He) as (A1 & A2 & _). auto.
Qed.

Definition ev_decodes (e : dev) : Prop :=
  match e with
  | DvCommit j d => FromCompressedG1 cd d <> None
  | DvRecv i m => (0 <= i < Z.of_nat N)%Z /\ FromCompressedG1 cd (sd_WB m) <> None
  | DvGo _ => True
  end.

Lemma dstep_total st e : dinv st -> decodable (d_wait st) -> ev_decodes e ->
  exists st', dstep cd p CQsum st e = Ret st' /\ decodable (d_wait st').
Proof.
  intros I DC HE. destruct e as [j d|i m|i]; cbn [dstep ev_decodes] in *.
  - unfold d_commit. destruct (negb _ || _) eqn:G; [exists st; auto|].
    apply orb_false_iff in G. destruct G as (G1 & _). apply negb_false_iff, andb_true_iff in G1. rewrite !Nat.leb_le in G1.
    rewrite verify_new_commit by lia. destruct (FromCompressedG1 cd d); [|congruence]. cbn [bind]. eexists. split; [reflexivity|].
    destruct (EqualG1 _ _); exact DC.
  - unfold d_recv. destruct (d_free st); [exists st; auto|].
    assert ((i + 1) mod 2 ^ 32 = i + 1)%Z as -> by (apply Z.mod_small; lia).
    destruct (Z.ltb_spec (Z.of_nat N) (i + 1)); [lia|]. eexists. split; [reflexivity|]. cbn [d_wait].
    intros j m' Hin. apply in_app_or in Hin. destruct Hin as [Hin|[Hin|[]]]; [apply (DC j); exact Hin|].
    apply (f_equal snd) in Hin. cbn [snd] in Hin. subst m'. apply HE.
  - destruct (d_go_total st i I DC) as (st' & E & SW & _). exists st'. split; [exact E|].
    intros j m Hin. apply (DC j). apply SW. exact Hin.
Qed.

Lemma drun_total : forall evs st, dinv st -> decodable (d_wait st) -> Forall dv_ok evs -> Forall ev_decodes evs ->
  exists st', drun cd p CQsum st evs = Ret st' /\ dinv st' /\ decodable (d_wait st').
Proof.
  induction evs as [|e evs IH]; intros st I DC HO HE; [exists st; auto|].
  inversion HO as [|? ? O1 O2]; subst. inversion HE as [|? ? E1 E2]; subst.
  destruct (dstep_total st e I DC E1) as (st1 & ES & DC1).
  destruct (IH st1 (dstep_inv st e st1 I O1 ES) DC1 O2 E2) as (st' & ER & R).
  exists st'. split; [|exact R]. unfold drun in *. cbn [gofold]. rewrite ES. exact ER.
Qed.

Lemma drun_settle : forall n st, (length (d_wait st) <= n)%nat -> dinv st -> decodable (d_wait st) ->
  exists gos st', drun cd p CQsum st (map DvGo gos) = Ret st' /\
    forall j m, In (j, m) (d_wait st') -> nth j (d_token st') false = false.
Proof.
  induction n as [|n IH]; intros st HL I DC.
  - exists [], st. split; [reflexivity|]. intros j m Hin. destruct (d_wait st); [destruct Hin|simpl in HL; lia].
  - destruct (existsb (fun x => nth (fst x) (d_token st) false) (d_wait st)) eqn:EX.
    + apply existsb_exists in EX. destruct EX as ((j & m) & Hin & ET). apply In_nth_error in Hin. destruct Hin as (i & EN).
      destruct (d_go_total st i I DC) as (st1 & E & SW & LT). rewrite EN in LT. specialize (LT ET).
      destruct (IH st1 ltac:(lia) (d_go_inv st i st1 I E)) as (gos & st' & ER & Q).
      { intros j' m' Hin'. apply (DC j'). apply SW. exact Hin'. }
      exists (i :: gos), st'. split; [|exact Q]. unfold drun in *. cbn [map gofold dstep]. rewrite E. exact ER.
    + exists [], st. split; [reflexivity|]. intros j m Hin. destruct (nth j (d_token st) false) eqn:ET; [|reflexivity].
      rewrite <- EX. symmetry. apply existsb_exists. exists (j, m). auto.
Qed.
End Dist.
