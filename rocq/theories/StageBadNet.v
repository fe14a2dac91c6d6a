(** The invariant of StageModel.v for all honest members together, with packets of active corrupted members among
    those in flight. *)

Require Import ZArith List Bool Arith Lia Permutation.
From Verif Require Import Prime Fr GoBase Poly PolyModel PolyProofs Biv GroupModel KzgModel KzgProofs.
From Verif Require Import CodecModel CodecProofs PartyModel PartySpec VssModel VssProofs BivProofs.
From Verif Require Import ReduceModel ReduceProofs.
From Verif Require Import ProacModel ProacProofs ProacRun ProacSig ProacRecover ProacDist ProacLinks.
From Verif Require Import ReshareModel ReshareProofs StageModel StageProofs RbcProofs StageNet StageBadProofs.
Import ListNotations.
Local Open Scope F_scope.

(** The Recover message rm of member i to member l about dealer k does not open the commitment to a wrong value. *)
Definition unforged (cd : g1codec) (s : Fr) (ps : nat -> Party) (QB : nat -> list (list Fr)) (i k l : nat) (rm : RecoverMsg) : Prop :=
  forall w, FromCompressedG1 cd (rc_W rm) = Some w -> CheckProofSingle (p_KZG (ps l)) (com s QB k (of_nat l)) w (of_nat i) (FrFrom32_into 0 (to32 (rc_V rm))) = Ret true ->
    FrFrom32_into 0 (to32 (rc_V rm)) = beval (QB k) (of_nat i) (of_nat l).

Lemma nodup_app_swap {A} (a b : list A) : NoDup a -> NoDup b -> (forall x, In x a -> ~ In x b) -> NoDup (a ++ b).
Proof. intros Na Nb D. apply RbcProofs.nodup_app_intro; [exact Na|exact Nb|exact D]. Qed.

Section Net.
Variables (cd : g1codec) (s : Fr) (ps : nat -> Party) (QB : nat -> list (list Fr)).
Variable sg : nat -> nat -> list Z.
Variables (sigok : nat -> list Z -> bool) (combine : nat -> list (list Z) -> list Z).
Variables hon cor pubs acc : list nat.
Variable dat : nat -> list PiContentMsg.
Variable bad : list packet.
Variables N F : nat.
Local Notation all := (hon ++ cor).
Hypothesis HC : codec_ok cd.
Hypothesis HPS : forall i, In i hon -> party_wf s (ps i) /\ p_N (ps i) = N /\ p_F (ps i) = F /\ p_PID (ps i) = (i - 1)%nat.
Hypothesis HQ : forall k, bdeg F (2 * F) (QB k).
Hypothesis HN : (Z.of_nat N < 2 ^ 32)%Z.
Hypothesis HA : forall k, In k all -> (1 <= k <= N)%nat.
Hypothesis NDA : NoDup all.
Hypothesis IH1 : incl hon acc.
Hypothesis IH2 : incl acc pubs.
Hypothesis IH3 : incl pubs all.
Hypothesis HS : forall j k, In j hon -> In k hon -> sigok k (sg j k) = true.
Hypothesis HF : (2 * F + 1 <= length hon)%nat.
Hypothesis HDV : forall i k row, In i hon -> In k pubs -> length row = (N + 1)%nat -> exists b row', VerifyCommit cd (ps i) row (dat k) = Ret (b, row') /\ (b = true <-> In k acc).
Hypothesis HDC : forall i k j m g, In i hon -> In k pubs -> (1 <= j <= 2 * F + 1)%nat -> nth_error (dat k) (j - 1) = Some m -> FromCompressedG1 cd (m_CBj m) = Some g ->
  CommitToPoly (p_KZG (ps i)) (secy (QB k) (of_nat j)) = Ret g.
Hypothesis HDH : forall i k, In i hon -> In k hon -> dat k = commit_data cd s (ps i) QB k.
Variable st0 : nat -> pst.
Hypothesis E0 : forall i, In i hon -> proac_init (ps i) (polys QB F i) = Ret (st0 i).
Local Notation h := (length hon).
Local Notation step := (nstep cd ps sg sigok combine hon).
Local Notation Pf i := (unforged cd s ps QB i).
Local Notation goodi i := (goodb cd s (ps i) QB sg sigok combine hon all pubs acc dat (Pf i) (st0 i)).
Local Notation rmsgi i := (rmsg cd s (ps i) QB sg).
Local Notation smsgi i := (smsg cd s (ps i) QB).
Local Notation votesi i := (votes cd s (ps i) QB sg).
Local Notation okmsgi i := (okmsg cd s (ps i) QB sg hon).
Local Notation okresi i := (okres cd s (ps i) QB hon (Pf i)).
Local Notation okvotei i := (okvote cd s (ps i) QB sg hon (Pf i)).
Local Notation vstepi i := (vstep_of cd ps sg sigok combine i).
Local Notation runs := (nruns cd ps sg sigok combine hon).

Lemma ND : NoDup hon.
Proof. exact (NoDup_app_l _ _ NDA). Qed.
Lemma HH : forall k, In k hon -> (1 <= k <= N)%nat.
Proof. intros k K. apply HA. apply in_or_app. left. exact K. Qed.
Lemma honall k : In k hon -> In k all.
Proof. intros K. apply in_or_app. left. exact K. Qed.
Lemma accall k : In k acc -> In k all.
Proof. intros K. apply IH3, IH2, K. Qed.

Definition bad_ok (x : packet) : Prop :=
  match x with
  | PCommit k i d => In i hon /\ In k pubs /\ d = dat k
  | PReshare k i m => In i hon /\ In k cor /\ okresi i k m
  | PRecover j i m => In i hon /\ In j cor /\ exists k, In k acc /\ okmsgi i j k m
  end.
Hypothesis HB : Forall bad_ok bad.
Hypothesis HB1 : forall i, In i hon -> NoDup (ssrc i bad).
Hypothesis HB2 : forall i, In i hon -> NoDup (rsrc i bad).
Hypothesis HB3 : forall i k, In i hon -> In k acc -> In k hon \/ exists d, In (PCommit k i d) bad.

Lemma locb i : In i hon -> party_wf s (ps i) /\ (forall k, bdeg (p_F (ps i)) (2 * p_F (ps i)) (QB k)) /\ (p_PID (ps i) < p_N (ps i))%nat /\
  (Z.of_nat (p_N (ps i)) < 2 ^ 32)%Z /\ (forall k, In k all -> (1 <= k <= p_N (ps i))%nat) /\ (p_PID (ps i) + 1 = i)%nat /\
  proac_init (ps i) (map (fun j => secy (QB (p_PID (ps i) + 1)) (of_nat j)) (seq 1 (2 * p_F (ps i) + 1))) = Ret (st0 i) /\
  (forall v e, vstepi i v e = vstep cd (sg (p_PID (ps i) + 1)%nat) sigok combine (ps i) v e) /\
  (forall k row, In k pubs -> length row = (p_N (ps i) + 1)%nat -> exists b row', VerifyCommit cd (ps i) row (dat k) = Ret (b, row') /\ (b = true <-> In k acc)) /\
  (forall k j m g, In k pubs -> (1 <= j <= 2 * p_F (ps i) + 1)%nat -> nth_error (dat k) (j - 1) = Some m -> FromCompressedG1 cd (m_CBj m) = Some g ->
     CommitToPoly (p_KZG (ps i)) (secy (QB k) (of_nat j)) = Ret g) /\
  (forall k l, In k hon -> In l hon -> Pf i k l (recover_msg cd s (QB k) (Z.of_nat k) (sg (p_PID (ps i) + 1) k) (p_PID (ps i) + 1) l)).
Proof.
  intros I. destruct (HPS i I) as (W & EN & EF & EP). pose proof (HH i I). assert (PI : (p_PID (ps i) + 1 = i)%nat) by lia. rewrite EN, EF, PI.
  split; [exact W|]. split; [exact HQ|]. split; [lia|]. split; [exact HN|]. split; [exact HA|]. split; [reflexivity|].
  split; [apply E0; exact I|]. split; [reflexivity|]. split; [intros k row; apply HDV; exact I|]. split; [intros k j m g; apply HDC; exact I|].
  intros k l _ _ w _ _. unfold recover_msg. cbn [rc_V]. rewrite to32_FrTo32; unfold FrFrom32_into; rewrite FrFrom32_FrTo32. reflexivity.
Qed.

(** The lemmas about one member, for member i. *)
Lemma m_inv i T v log : In i hon -> goodi i T v log -> exists pevs, inv s (ps i) QB pevs (v_st v) /\ sinv (ps i) (v_st v) /\ calm (v_st v) /\ recvs pevs = recvs (others T).
Proof. intros Ii. destruct (locb i Ii) as (W & HQ' & HP & HN' & HA' & PI & E0' & VS & DV & DC & PF). eapply goodb_inv; eassumption. Qed.
Lemma m_commit i T v log k : In i hon -> goodi i T v log -> In k pubs -> exists v', vstepi i v (VOther (EvCommit k (dat k))) = Ret (Some (v', None)) /\
  goodi i (T ++ [VOther (EvCommit k (dat k))]) v' log /\ (In k acc -> nth k (s_flgCom (v_st v')) false = true) /\ pot hon v' = pot hon v.
Proof. intros Ii. destruct (locb i Ii) as (W & HQ' & HP & HN' & HA' & PI & E0' & VS & DV & DC & PF). setoid_rewrite VS. eapply goodb_commit; eassumption. Qed.
Lemma m_recv i T v log j k m : In i hon -> goodi i T v log -> In j all -> In k acc -> okmsgi i j k m -> s_hold (v_st v) = None -> ~ In (Z.of_nat (j - 1), Z.of_nat k) (sources (others T)) ->
  exists v', vstepi i v (VOther (EvRecv (Z.of_nat (j - 1)) m)) = Ret (Some (v', None)) /\
    goodi i (T ++ [VOther (EvRecv (Z.of_nat (j - 1)) m)]) v' log /\ pot hon v' = (pot hon v + 1)%nat.
Proof. intros Ii. destruct (locb i Ii) as (W & HQ' & HP & HN' & HA' & PI & E0' & VS & DV & DC & PF). setoid_rewrite VS. eapply goodb_recv; eassumption. Qed.
Lemma m_handle i T v log : In i hon -> goodi i T v log -> can_handle (v_st v) = true -> exists v', vstepi i v (VOther EvHandle) = Ret (Some (v', None)) /\
  goodi i (T ++ [VOther EvHandle]) v' log /\ (pot hon v' + 1 = pot hon v)%nat.
Proof. intros Ii. destruct (locb i Ii) as (W & HQ' & HP & HN' & HA' & PI & E0' & VS & DV & DC & PF). setoid_rewrite VS. eapply goodb_handle; eassumption. Qed.
Lemma m_agreed i T v log : In i hon -> goodi i T v log -> s_busy (v_st v) = true -> exists v', vstepi i v (VOther EvMVBA) = Ret (Some (v', None)) /\
  goodi i (T ++ [VOther EvMVBA]) v' log /\ (pot hon v' + 1 = pot hon v)%nat.
Proof. intros Ii. destruct (locb i Ii) as (W & HQ' & HP & HN' & HA' & PI & E0' & VS & DV & DC & PF). setoid_rewrite VS. eapply goodb_agreed; eassumption. Qed.
Lemma m_take i T v log k m : In i hon -> goodi i T v log -> In k all -> okresi i k m -> v_free v <> O -> ~ In (Z.of_nat (k - 1)) (map fst (takes T)) ->
  exists v' o, vstepi i v (VTake (Z.of_nat (k - 1)) m) = Ret (Some (v', o)) /\
    goodi i (T ++ [VTake (Z.of_nat (k - 1)) m]) v' (log ++ match o with Some x => [x] | None => [] end) /\
    ((o = None /\ pot hon v' = (pot hon v + 1 + 2 * length hon)%nat) \/ (exists ms, o = Some ((Z.of_nat (k - 1), m), ms) /\ In k acc /\ okvotei i k ms /\ pot hon v' = pot hon v)) /\
    v_st v' = v_st v.
Proof. intros Ii. destruct (locb i Ii) as (W & HQ' & HP & HN' & HA' & PI & E0' & VS & DV & DC & PF). setoid_rewrite VS. eapply goodb_take; eassumption. Qed.
Lemma m_tell i T v log k v' o : In i hon -> goodi i T v log -> vstepi i v (VTell k) = Ret (Some (v', o)) -> o = None /\ goodi i (T ++ [VTell k]) v' log /\ (pot hon v' + 1 = pot hon v)%nat /\ v_st v' = v_st v.
Proof. intros Ii. destruct (locb i Ii) as (W & HQ' & HP & HN' & HA' & PI & E0' & VS & DV & DC & PF). rewrite VS. eapply goodb_tell; eassumption. Qed.
Lemma m_wake i T v log x v' o : In i hon -> goodi i T v log -> vstepi i v (VWake x) = Ret (Some (v', o)) -> exists k m ms, In k acc /\ okvotei i k ms /\ o = Some ((Z.of_nat (k - 1), m), ms) /\
  goodi i (T ++ [VWake x]) v' (log ++ [((Z.of_nat (k - 1), m), ms)]) /\ (pot hon v' + 1 + 2 * length hon = pot hon v)%nat /\ v_st v' = v_st v.
Proof. intros Ii. destruct (locb i Ii) as (W & HQ' & HP & HN' & HA' & PI & E0' & VS & DV & DC & PF). rewrite VS. eapply goodb_wake; eassumption. Qed.
Lemma m_wake_total i T v log x : In i hon -> goodi i T v log -> exists o, vstepi i v (VWake x) = Ret o.
Proof. intros Ii. destruct (locb i Ii) as (W & HQ' & HP & HN' & HA' & PI & E0' & VS & DV & DC & PF). setoid_rewrite VS. eapply wakeb_total; eassumption. Qed.
Lemma m_tell_total i v k : exists o, vstepi i v (VTell k) = Ret o.
Proof. unfold vstep_of. cbn [vstep]. destruct (_ && _); eexists; reflexivity. Qed.
Lemma m_end i K0 T v log : In i hon -> goodi i T v log -> s_hold (v_st v) = None -> incl K0 hon -> NoDup K0 -> (F + 1 <= length K0)%nat ->
  (forall j k, In j hon -> In k K0 -> In (Z.of_nat (j - 1), Z.of_nat k) (sources (others T))) -> s_MVBASent (v_st v) = true.
Proof.
  intros Ii G EH IK NK LK ALL. destruct (locb i Ii) as (W & HQ' & HP & HN' & HA' & PI & E0' & VS & DV & DC & PF). destruct (HPS i Ii) as (_ & _ & EF & _).
  eapply (goodb_end_of cd s (ps i) QB sg sigok combine hon all pubs acc dat (Pf i) W HQ' HP HN' HA' ND DC (st0 i) E0' K0); try eassumption; rewrite EF; assumption.
Qed.
Lemma idx_all k : In k all -> index_of (Z.of_nat (k - 1)) = k.
Proof. intros K. pose proof (HA k K). unfold index_of. rewrite Z.mod_small by lia. lia. Qed.

Definition pkb (x : packet) : Prop :=
  match x with
  | PCommit k i d => In i hon /\ In k pubs /\ d = dat k
  | PReshare k i m => In i hon /\ In k all /\ okresi i k m
  | PRecover j i m => In i hon /\ In j all /\ exists k, In k acc /\ okmsgi i j k m
  end.

Definition nonempty {A} (l : list A) : bool := match l with [] => false | _ => true end.
Definition srcs (j : nat) (L : list vote) : list (Z * Z) :=
  flat_map (fun x => if nonempty (snd x) then [(Z.of_nat (j - 1), Z.of_nat (index_of (fst (key x))))] else []) L.
Definition votedb (n : net) : list (Z * Z) := flat_map (fun j => srcs j (n_votes n j)) hon.

Record ninvb (n : net) (E : nat -> list vev) : Prop := {
  j_pk : Forall pkb (n_post n);
  j_good : forall i, In i hon -> goodi i (E i) (n_v n i) (n_votes n i);
  j_com : forall i k, In i hon -> In k acc -> (exists d, In (PCommit k i d) (n_post n)) \/ nth k (s_flgCom (v_st (n_v n i))) false = true;
  j_res : forall i, In i hon -> Permutation (ssrc i (n_post n) ++ indexes (takes (E i))) (hon ++ ssrc i bad);
  j_rec : forall i, In i hon -> Permutation (rsrc i (n_post n) ++ sources (others (E i))) (votedb n ++ rsrc i bad) }.

Lemma srcs_app j a b : srcs j (a ++ b) = srcs j a ++ srcs j b.
Proof. apply flat_map_app. Qed.
Lemma in_srcs j L y : In y (srcs j L) -> exists x, In x L /\ y = (Z.of_nat (j - 1), Z.of_nat (index_of (fst (key x)))).
Proof. intros H. apply in_flat_map in H. destruct H as (x & X & H). destruct (nonempty (snd x)); [|destruct H]. destruct H as [<-|[]]. exists x. auto. Qed.

Lemma nodup_votedb n E : ninvb n E -> NoDup (votedb n).
Proof.
  intros I. unfold votedb. pose proof (j_good _ _ I) as GG. revert GG. generalize (n_votes n). intros vo GG.
  assert (ONE : forall j, In j hon -> NoDup (map (fun x => index_of (fst (key x))) (vo j))).
  { intros j J. pose proof (GG j J) as G.
    destruct (vruns_count _ _ _ _ _ _ _ _ _ (b_run _ _ _ _ _ _ _ _ _ _ _ _ _ _ _ _ _ G)) as (_ & PE & _). pose proof (b_ndt _ _ _ _ _ _ _ _ _ _ _ _ _ _ _ _ _ G) as NT. pose proof (b_take _ _ _ _ _ _ _ _ _ _ _ _ _ _ _ _ _ G) as AT.
    rewrite Forall_forall in AT. apply (Permutation_NoDup (Permutation_map fst PE)) in NT. rewrite map_app in NT. apply NoDup_app_r in NT.
    rewrite <- (map_map key (fun x => index_of (fst x))). rewrite <- (map_map fst index_of). apply nodup_map_in; [|exact NT].
    assert (KK : forall z, In z (map fst (map key (vo j))) -> exists k, In k all /\ z = Z.of_nat (k - 1)).
    { intros z Z. apply in_map_iff in Z. destruct Z as (x & <- & X). destruct (AT x) as (k & m & K & -> & _); [|exists k; auto]. apply (Permutation_in _ (Permutation_sym PE)). apply in_or_app. right. exact X. }
    intros a b A B AB. destruct (KK a A) as (k & K & ->). destruct (KK b B) as (k' & K' & ->). rewrite (idx_all k K), (idx_all k' K') in AB. subst. reflexivity. }
  apply nodup_flat_map; [exact ND| |].
  - intros j J. specialize (ONE j J). revert ONE. generalize (vo j). clear. intros L. induction L as [|x L IH]; intros NL; [constructor|]. cbn [map] in NL. inversion NL as [|? ? N1 N2]; subst.
    unfold srcs in *. cbn [flat_map]. destruct (nonempty (snd x)); [|apply IH; exact N2]. cbn [app]. constructor; [|apply IH; exact N2].
    intros Y. apply (in_srcs j L) in Y. destruct Y as (y & Y & EY). injection EY as EY. apply N1. apply in_map_iff. exists y. split; [lia|exact Y].
  - intros a b x A B XA XB. apply in_srcs in XA. destruct XA as (y & _ & ->). apply in_srcs in XB. destruct XB as (z & _ & XB). injection XB as XB _. pose proof (HH a A). pose proof (HH b B). lia.
Qed.

Lemma bad_src i y : In y (rsrc i bad) -> exists j, In j cor /\ fst y = Z.of_nat (j - 1).
Proof.
  intros Y. destruct (in_rsrc _ _ _ Y) as (j & m & M & ->). pose proof HB as A. rewrite Forall_forall in A. destruct (A _ M) as (_ & J & _). exists j. auto.
Qed.
Lemma disj j : In j hon -> ~ In j cor.
Proof. intros J C. apply in_split in J. destruct J as (a & b & EQ). pose proof NDA as X. rewrite EQ, <- app_assoc in X. cbn [app] in X. apply NoDup_remove_2 in X. apply X. apply in_or_app. right. apply in_or_app. right. exact C. Qed.

Lemma nodup_rec n E i : ninvb n E -> In i hon -> NoDup (votedb n ++ rsrc i bad).
Proof.
  intros I Ii. apply nodup_app_swap; [exact (nodup_votedb n E I)|apply HB2; exact Ii|]. intros y Y B. destruct (bad_src i y B) as (j & J & EJ).
  apply in_flat_map in Y. destruct Y as (j' & J' & Y). apply in_srcs in Y. destruct Y as (x & _ & ->). cbn [fst] in EJ. pose proof (HH j' J'). pose proof (HA j (in_or_app _ _ _ (or_intror J))).
  assert (j' = j) as -> by lia. exact (disj j J' J).
Qed.

Lemma nodup_res i : In i hon -> NoDup (hon ++ ssrc i bad).
Proof.
  intros Ii. apply nodup_app_swap; [exact ND|apply HB1; exact Ii|]. intros k K B. destruct (in_ssrc _ _ _ B) as (m & M). pose proof HB as A. rewrite Forall_forall in A. destruct (A _ M) as (_ & C & _). exact (disj k K C).
Qed.

Lemma votedb_put n i L v po : In i hon -> Permutation (votedb (mkNet v (put (n_votes n) i (n_votes n i ++ L)) po)) (srcs i L ++ votedb n).
Proof.
  intros I. unfold votedb. cbn [n_votes]. apply in_split in I as I'. destruct I' as (l1 & l2 & EH).
  assert (N1 : ~ In i l1 /\ ~ In i l2). { pose proof ND as X. rewrite EH in X. apply NoDup_remove_2 in X. rewrite in_app_iff in X. tauto. }
  assert (SAME : forall l, ~ In i l -> flat_map (fun j => srcs j (put (n_votes n) i (n_votes n i ++ L) j)) l = flat_map (fun j => srcs j (n_votes n j)) l).
  { intros l NI. rewrite !flat_map_concat_map. f_equal. apply map_ext_in. intros j J. rewrite put_other; [reflexivity|]. intros ->. contradiction. }
  rewrite EH, !flat_map_app. cbn [flat_map]. rewrite !SAME by apply N1. rewrite put_same, srcs_app. apply perm4.
Qed.

(** What a vote sends. *)
Lemma recovers_ok i k x ms : In i hon -> In k acc -> okvotei i k ms -> fst x = Z.of_nat (k - 1) ->
  Forall pkb (recovers hon i (Some (x, ms))) /\ (forall i', In i' hon -> rsrc i' (recovers hon i (Some (x, ms))) = srcs i [(x, ms)]) /\ (total (w hon) (recovers hon i (Some (x, ms))) <= 2 * h)%nat.
Proof.
  intros Ii K (V1 & V2 & V3) EX. destruct (HPS i Ii) as (_ & EN & _). pose proof (locb i Ii) as (_ & _ & _ & _ & _ & PI & _). unfold recovers. split; [|split].
  - apply Forall_forall. intros y Y. apply in_flat_map in Y. destruct Y as (l & L & Y). destruct (nth_error ms (l - 1)) as [rm|] eqn:ER; [|destruct Y]. destruct Y as [<-|[]]. cbn [pkb].
    split; [exact L|]. split; [apply honall; exact Ii|]. exists k. split; [exact K|]. destruct (V3 l rm L ER) as (R1 & R2 & R3). pose proof (locb l L) as (_ & _ & _ & _ & _ & PL & _). split; [exact R1|]. split; [exact R2|]. split.
    + unfold me. rewrite PL. exact R3.
    + intros _ KH. rewrite (V1 KH) in ER. unfold votes in ER. rewrite nth_error_map_seq in ER by (rewrite EN; apply HH; exact L). unfold rmsg. rewrite PL. rewrite PI in ER. congruence.
  - intros i' I'. unfold srcs. cbn [flat_map snd key fst app]. rewrite EX, (idx_all k (accall k K)). destruct V2 as [-> |LM].
    + cbn [nonempty]. clear. induction hon as [|l L IH]; [reflexivity|]. cbn [flat_map]. destruct (l - 1)%nat; exact IH.
    + rewrite EN in LM. pose proof (HH i' I'). assert (NE : nonempty ms = true). { destruct ms; [cbn [length] in LM; lia|reflexivity]. } rewrite NE, app_nil_r.
      rewrite <- (pick (Z.of_nat (i - 1), Z.of_nat k) i' hon ND I'). assert (HL : incl hon hon) by (intros z; auto). revert HL. generalize hon at 1 3 4. intros L. induction L as [|l L IH]; intros HL; [reflexivity|]. cbn [flat_map].
      rewrite rsrc_app, IH by (intros z Z; apply HL; right; exact Z). assert (Ll : In l hon) by (apply HL; left; reflexivity). pose proof (HH l Ll). f_equal.
      destruct (nth_error ms (l - 1)) as [rm|] eqn:ER; [|apply nth_error_None in ER; lia]. destruct (V3 l rm Ll ER) as (R1 & _). cbn [rsrc flat_map]. rewrite R1. destruct (l =? i')%nat; reflexivity.
  - clear. assert (HL : forall L, (total (w hon) (flat_map (fun l => match nth_error ms (l - 1) with Some m => [PRecover i l m] | None => [] end) L) <= 2 * length L)%nat); [|apply HL].
    intros L. induction L as [|l L IH]; [cbn; lia|]. cbn [flat_map length]. rewrite total_app. destruct (nth_error ms (l - 1)); unfold total at 1; cbn [map w list_sum fold_right]; lia.
Qed.

Definition voteo (i : nat) (o : vout) : Prop := o = None \/ exists k m ms, o = Some ((Z.of_nat (k - 1), m), ms) /\ In k acc /\ okvotei i k ms.

Lemma stepb_inv n E post i e v' o : ninvb n E -> In i hon -> Forall pkb post ->
  goodi i (E i ++ [e]) v' (n_votes n i ++ olist o) -> voteo i o ->
  (forall k, In k acc -> (exists d, In (PCommit k i d) post) \/ nth k (s_flgCom (v_st v')) false = true) ->
  (forall i' k, i' <> i -> (exists d, In (PCommit k i' d) (n_post n)) -> exists d, In (PCommit k i' d) post) ->
  Permutation (ssrc i post ++ indexes (takes (E i ++ [e]))) (hon ++ ssrc i bad) -> (forall i', i' <> i -> Permutation (ssrc i' post) (ssrc i' (n_post n))) ->
  Permutation (rsrc i post ++ sources (others (E i ++ [e]))) (votedb n ++ rsrc i bad) -> (forall i', i' <> i -> Permutation (rsrc i' post) (rsrc i' (n_post n))) ->
  (total (w hon) post + pot hon v' + 2 * h * length (olist o) < total (w hon) (n_post n) + pot hon (n_v n i))%nat ->
  let n' := mkNet (put (n_v n) i v') (put (n_votes n) i (n_votes n i ++ olist o)) (post ++ recovers hon i o) in
  ninvb n' (put E i (E i ++ [e])) /\ (phi hon n' < phi hon n)%nat.
Proof.
  intros I Ii PK G OO C1 C2 S1 S2 R1 R2 WT n'.
  assert (RO : Forall pkb (recovers hon i o) /\ (forall i', In i' hon -> rsrc i' (recovers hon i o) = srcs i (olist o)) /\ (total (w hon) (recovers hon i o) <= 2 * h * length (olist o))%nat).
  { destruct OO as [-> |(k & m & ms & -> & K & OV)]; [split; [constructor|]; split; [reflexivity|cbn; lia]|]. destruct (recovers_ok i k (Z.of_nat (k - 1), m) ms Ii K OV eq_refl) as (A & B & C). split; [exact A|]. split; [exact B|]. cbn [olist length]. lia. }
  destruct RO as (RO1 & RO2 & RO3). split.
  - constructor.
    + cbn [n' n_post]. apply Forall_app. split; [exact PK|exact RO1].
    + intros i' I'. cbn [n' n_v n_votes]. destruct (Nat.eq_dec i' i) as [->|NE]; [rewrite !put_same; exact G|]. rewrite !put_other by exact NE. exact (j_good _ _ I i' I').
    + intros i' k I' K. cbn [n' n_v n_post]. destruct (Nat.eq_dec i' i) as [->|NE].
      * rewrite put_same. destruct (C1 k K) as [(d & X)|X]; [left; exists d; apply in_or_app; left; exact X|right; exact X].
      * rewrite put_other by exact NE. destruct (j_com _ _ I i' k I' K) as [X|X]; [|right; exact X]. left. destruct (C2 i' k NE X) as (d & Y). exists d. apply in_or_app. left. exact Y.
    + intros i' I'. cbn [n' n_post]. rewrite ssrc_app, ssrc_recovers, app_nil_r. destruct (Nat.eq_dec i' i) as [->|NE]; [rewrite put_same; exact S1|]. rewrite put_other by exact NE. rewrite (S2 i' NE). exact (j_res _ _ I i' I').
    + intros i' I'. unfold n' at 2. rewrite (votedb_put n i (olist o) _ _ Ii). cbn [n' n_post]. rewrite rsrc_app, (RO2 i' I'). rewrite <- (app_assoc (srcs i (olist o))). apply perm_add.
      destruct (Nat.eq_dec i' i) as [->|NE]; [rewrite put_same; exact R1|]. rewrite put_other by exact NE. rewrite (R2 i' NE). exact (j_rec _ _ I i' I').
  - unfold phi. cbn [n' n_post n_v]. rewrite total_app. pose proof (total_put (pot hon) (n_v n) i v' hon ND Ii) as TP. lia.
Qed.

Lemma freeb_left n E i k : ninvb n E -> In i hon -> In k (ssrc i (n_post n)) -> v_free (n_v n i) <> O /\ ~ In (Z.of_nat (k - 1)) (map fst (takes (E i))).
Proof.
  intros I Ii KS. pose proof (j_good _ _ I i Ii) as G. pose proof (j_res _ _ I i Ii) as P. destruct (HPS i Ii) as (_ & EN & _). pose proof (nodup_res i Ii) as NR.
  destruct (vruns_count _ _ _ _ _ _ _ _ _ (b_run _ _ _ _ _ _ _ _ _ _ _ _ _ _ _ _ _ G)) as (CN & _ & _).
  assert (INA : forall x, In x (hon ++ ssrc i bad) -> In x all).
  { intros x X. apply in_app_or in X. destruct X as [X|X]; [apply honall; exact X|]. destruct (in_ssrc _ _ _ X) as (m & M). pose proof HB as A. rewrite Forall_forall in A. destruct (A _ M) as (_ & C & _). apply in_or_app. right. exact C. }
  assert (LH : (length (hon ++ ssrc i bad) <= N)%nat). { rewrite <- (seq_length N 1). apply NoDup_incl_length; [exact NR|]. intros x X. apply in_seq. pose proof (HA x (INA x X)). lia. }
  pose proof (Permutation_length P) as PL. rewrite app_length in PL. unfold indexes in PL. rewrite map_length in PL. split.
  - destruct (ssrc i (n_post n)) as [|a l] eqn:EL; [destruct KS|]. cbn [length] in PL. rewrite EN in CN. lia.
  - intros X. apply in_map_iff in X. destruct X as (y & EY & Y). pose proof (Permutation_NoDup (Permutation_sym P) NR) as NP.
    assert (KH : In k all) by (apply INA, (Permutation_in _ P); apply in_or_app; left; exact KS).
    assert (KI : In k (indexes (takes (E i)))). { unfold indexes. apply in_map_iff. exists y. split; [|exact Y]. rewrite EY. apply idx_all, KH. }
    apply in_split in KS. destruct KS as (l1 & l2 & ES). rewrite ES in NP. rewrite <- app_assoc in NP. cbn [app] in NP. apply NoDup_remove_2 in NP. apply NP. apply in_or_app. right. apply in_or_app. right. exact KI.
Qed.

Lemma not_yet n E i j k : ninvb n E -> In i hon -> In (Z.of_nat (j - 1), Z.of_nat k) (rsrc i (n_post n)) -> ~ In (Z.of_nat (j - 1), Z.of_nat k) (sources (others (E i))).
Proof.
  intros I Ii R Z. pose proof (Permutation_NoDup (Permutation_sym (j_rec _ _ I i Ii)) (nodup_rec n E i I Ii)) as NV.
  apply in_split in R. destruct R as (l1 & l2 & ER). rewrite ER in NV. rewrite <- app_assoc in NV. cbn [app] in NV. apply NoDup_remove_2 in NV. apply NV. apply in_or_app. right. apply in_or_app. right. exact Z.
Qed.

Lemma flag_mono i v e v' k : In i hon -> vstepi i v (VOther e) = Ret (Some (v', None)) -> nth k (s_flgCom (v_st v)) false = true -> nth k (s_flgCom (v_st v')) false = true.
Proof. intros Ii EV X. destruct (vstep_other _ _ _ _ _ _ _ _ _ EV) as (_ & _ & ms & EP & _). exact (pstep_mono _ _ _ _ _ _ _ _ _ _ EP X). Qed.

Lemma nstepb_ok n E e : ninvb n E -> exists o, step n e = Ret o /\ forall n', o = Some n' -> exists E', (ninvb n' E' /\ (phi hon n' < phi hon n)%nat) /\ came n e E E'.
Proof.
  intros I. assert (STAY : forall e1 i e v' o, In i hon -> vstepi i (n_v n i) e = Ret (Some (v', o)) -> goodi i (E i ++ [e]) v' (n_votes n i ++ olist o) ->
    voteo i o -> takes (E i ++ [e]) = takes (E i) -> sources (others (E i ++ [e])) = sources (others (E i)) ->
    (forall k, nth k (s_flgCom (v_st (n_v n i))) false = true -> nth k (s_flgCom (v_st v')) false = true) ->
    (pot hon v' + 2 * h * length (olist o) < pot hon (n_v n i))%nat ->
    exists o, member_step cd ps sg sigok combine hon n (n_post n) i e = Ret o /\ forall n', o = Some n' -> exists E', (ninvb n' E' /\ (phi hon n' < phi hon n)%nat) /\ came n e1 E E').
  { intros e1 i e0 v' o Ii EV G OO ET EO FM PT. unfold member_step. rewrite EV. cbn [bind]. eexists. split; [reflexivity|]. intros n' EN. injection EN as <-. exists (put E i (E i ++ [e0])).
    split; [|apply came_same; exact EO]. apply stepb_inv; try assumption; try (intros; reflexivity).
    - exact (j_pk _ _ I).
    - intros k K. destruct (j_com _ _ I i k Ii K) as [X|X]; [left; exact X|right; apply FM; exact X].
    - auto.
    - rewrite ET. exact (j_res _ _ I i Ii).
    - rewrite EO. exact (j_rec _ _ I i Ii).
    - lia. }
  destruct e as [x|i k|i x|i|i]; cbn [nstep].
  - destruct (nth_error (n_post n) x) as [pk|] eqn:NE; [|exists None; split; [reflexivity|discriminate]].
    set (rem := firstn x (n_post n) ++ skipn (S x) (n_post n)).
    assert (PP : Permutation (n_post n) (pk :: rem)). { rewrite (split_at _ _ _ NE) at 1. symmetry. apply Permutation_middle. }
    assert (PK : pkb pk /\ Forall pkb rem). { pose proof (j_pk _ _ I) as A. apply (Permutation_Forall PP) in A. inversion A; subst. split; assumption. }
    destruct PK as (PK & PR). assert (SS : forall i', Permutation (ssrc i' (n_post n)) (ssrc i' [pk] ++ ssrc i' rem)). { intros i'. rewrite (ssrc_perm i' _ _ PP). change (pk :: rem) with ([pk] ++ rem). rewrite ssrc_app. reflexivity. }
    assert (RS : forall i', Permutation (rsrc i' (n_post n)) (rsrc i' [pk] ++ rsrc i' rem)). { intros i'. rewrite (rsrc_perm i' _ _ PP). change (pk :: rem) with ([pk] ++ rem). rewrite rsrc_app. reflexivity. }
    assert (WW : total (w hon) (n_post n) = (w hon pk + total (w hon) rem)%nat). { rewrite (total_perm (w hon) _ _ PP). reflexivity. }
    assert (CC : forall i' k, (exists d, In (PCommit k i' d) (n_post n)) -> (exists d, pk = PCommit k i' d) \/ exists d, In (PCommit k i' d) rem).
    { intros i' k (d & X). apply (Permutation_in _ PP) in X. destruct X as [X|X]; [left; exists d; exact X|right; exists d; exact X]. }
    destruct pk as [k i d|k i m|j i m]; cbn [pkb] in PK.
    + destruct PK as (Ii & K & ->).
      destruct (m_commit i _ _ _ k Ii (j_good _ _ I i Ii) K) as (v' & EV & G & FK & PT).
      unfold member_step. rewrite EV. cbn [bind]. eexists. split; [reflexivity|]. intros n' EN. injection EN as <-.
      assert (FM : forall k', nth k' (s_flgCom (v_st (n_v n i))) false = true -> nth k' (s_flgCom (v_st v')) false = true) by (intros k'; exact (flag_mono i _ _ _ k' Ii EV)).
      exists (put E i (E i ++ [VOther (EvCommit k (dat k))])). split; [|apply came_same; rewrite snoc_others, sources_snoc; apply app_nil_r]. apply (stepb_inv n E rem i (VOther (EvCommit k (dat k))) v' None); try assumption; rewrite ?takes_snoc_other, ?snoc_others, ?sources_snoc, ?app_nil_r.
      * cbn [olist]; rewrite ?app_nil_r; exact G.
      * left. reflexivity.
      * intros k' K'. destruct (j_com _ _ I i k' Ii K') as [X|X]; [|right; apply FM; exact X]. destruct (CC _ _ X) as [(d & Y)|Y]; [|left; exact Y]. injection Y as -> _. right. exact (FK K').
      * intros i' k' NI X. destruct (CC _ _ X) as [(d & Y)|Y]; [|exact Y]. congruence.
      * pose proof (SS i) as P. cbn [ssrc flat_map app] in P. fold (ssrc i rem) in P. rewrite <- P. exact (j_res _ _ I i Ii).
      * intros i' _. pose proof (SS i') as P. symmetry. exact P.
      * pose proof (RS i) as P. cbn [rsrc flat_map app] in P. fold (rsrc i rem) in P. rewrite <- P. exact (j_rec _ _ I i Ii).
      * intros i' _. pose proof (RS i') as P. symmetry. exact P.
      * rewrite PT, WW. cbn [w olist length]. lia.
    + destruct PK as (Ii & K & OK).
      pose proof (SS i) as P. cbn [ssrc flat_map app] in P. fold (ssrc i rem) in P. rewrite Nat.eqb_refl in P. cbn [app] in P.
      destruct (freeb_left n E i k I Ii) as (FR & NT). { apply (Permutation_in _ (Permutation_sym P)). left. reflexivity. }
      destruct (m_take i _ _ _ k m Ii (j_good _ _ I i Ii) K OK FR NT) as (v' & o & EV & G & CO & ES).
      unfold member_step. rewrite EV. cbn [bind]. eexists. split; [reflexivity|]. intros n' EN. injection EN as <-.
      exists (put E i (E i ++ [VTake (Z.of_nat (k - 1)) m])). split; [|apply came_same; rewrite others_snoc; cbn [app]; rewrite ?app_nil_r; reflexivity]. apply (stepb_inv n E rem i (VTake (Z.of_nat (k - 1)) m) v' o); try assumption; rewrite ?takes_snoc, ?others_snoc, ?app_nil_r.
      * destruct CO as [(-> & _)|(ms & -> & AK & OV & _)]; [left; reflexivity|right; exists k, m, ms; auto].
      * intros k' K'. rewrite ES. destruct (j_com _ _ I i k' Ii K') as [X|X]; [|right; exact X]. destruct (CC _ _ X) as [(d & Y)|Y]; [discriminate|left; exact Y].
      * intros i' k' NI X. destruct (CC _ _ X) as [(d & Y)|Y]; [discriminate|exact Y].
      * unfold indexes. rewrite map_app. cbn [map fst]. rewrite (idx_all k K). rewrite app_assoc. rewrite <- Permutation_cons_append. change (k :: ssrc i rem ++ map (fun x => index_of (fst x)) (takes (E i))) with ((k :: ssrc i rem) ++ indexes (takes (E i))).
        rewrite <- P. exact (j_res _ _ I i Ii).
      * intros i' NI. pose proof (SS i') as P'. cbn [ssrc flat_map app] in P'. fold (ssrc i' rem) in P'. rewrite (proj2 (Nat.eqb_neq i i')) in P' by congruence. symmetry. exact P'.
      * pose proof (RS i) as P'. cbn [rsrc flat_map app] in P'. fold (rsrc i rem) in P'. rewrite <- P'. exact (j_rec _ _ I i Ii).
      * intros i' _. pose proof (RS i') as P'. symmetry. exact P'.
      * rewrite WW. cbn [w]. destruct CO as [(-> & PT)|(ms & -> & _ & _ & PT)]; rewrite PT; cbn [olist length]; lia.
    + destruct PK as (Ii & J & k & K & OK). pose proof OK as (O1 & _).
      destruct (s_hold (v_st (n_v n i))) as [y|] eqn:EH; [exists None; split; [reflexivity|discriminate]|].
      pose proof (RS i) as P. cbn [rsrc flat_map app] in P. fold (rsrc i rem) in P. rewrite Nat.eqb_refl in P. cbn [app] in P. rewrite O1 in P.
      assert (NI : ~ In (Z.of_nat (j - 1), Z.of_nat k) (sources (others (E i)))).
      { apply (not_yet n E i j k I Ii). apply (Permutation_in _ (Permutation_sym P)). left. reflexivity. }
      destruct (m_recv i _ _ _ j k m Ii (j_good _ _ I i Ii) J K OK EH NI) as (v' & EV & G & PT).
      unfold member_step. rewrite EV. cbn [bind]. eexists. split; [reflexivity|]. intros n' EN. injection EN as <-.
      assert (FM : forall k', nth k' (s_flgCom (v_st (n_v n i))) false = true -> nth k' (s_flgCom (v_st v')) false = true) by (intros k'; exact (flag_mono i _ _ _ k' Ii EV)).
      exists (put E i (E i ++ [VOther (EvRecv (Z.of_nat (j - 1)) m)])). split.
      2:{ intros i' y Y. destruct (Nat.eq_dec i' i) as [->|NE']; [|rewrite put_other in Y by exact NE'; left; exact Y].
          rewrite put_same, snoc_others, sources_snoc in Y. apply in_app_or in Y. destruct Y as [Y|[<-|[]]]; [left; exact Y|right]. exists x, j, m. auto. }
      apply (stepb_inv n E rem i (VOther (EvRecv (Z.of_nat (j - 1)) m)) v' None); try assumption; rewrite ?takes_snoc_other, ?snoc_others, ?sources_snoc, ?app_nil_r.
      * cbn [olist]; rewrite ?app_nil_r; exact G.
      * left. reflexivity.
      * intros k' K'. destruct (j_com _ _ I i k' Ii K') as [X|X]; [|right; apply FM; exact X]. destruct (CC _ _ X) as [(d & Y)|Y]; [discriminate|left; exact Y].
      * intros i' k' NE' X. destruct (CC _ _ X) as [(d & Y)|Y]; [discriminate|exact Y].
      * pose proof (SS i) as P'. cbn [ssrc flat_map app] in P'. fold (ssrc i rem) in P'. rewrite <- P'. exact (j_res _ _ I i Ii).
      * intros i' _. pose proof (SS i') as P'. symmetry. exact P'.
      * rewrite O1, app_assoc, <- Permutation_cons_append. change ((Z.of_nat (j - 1), Z.of_nat k) :: rsrc i rem ++ sources (others (E i))) with (((Z.of_nat (j - 1), Z.of_nat k) :: rsrc i rem) ++ sources (others (E i))).
        rewrite <- P. exact (j_rec _ _ I i Ii).
      * intros i' NE'. pose proof (RS i') as P'. cbn [rsrc flat_map app] in P'. fold (rsrc i' rem) in P'. rewrite (proj2 (Nat.eqb_neq i i')) in P' by congruence. symmetry. exact P'.
      * rewrite PT, WW. cbn [w olist length]. lia.
  - destruct (existsb (Nat.eqb i) hon) eqn:EX; [|exists None; split; [reflexivity|discriminate]]. apply existsb_exists in EX. destruct EX as (i' & Ii & EI). apply Nat.eqb_eq in EI. subst i'.
    destruct (m_tell_total i (n_v n i) k) as (o & EV).
    destruct o as [(v', o)|]; [|exists None; split; [unfold member_step; rewrite EV; reflexivity|discriminate]].
    destruct (m_tell i _ _ _ k v' o Ii (j_good _ _ I i Ii) EV) as (-> & G & PT & ES).
    apply (STAY _ i (VTell k) v' None Ii); rewrite ?takes_snoc, ?others_snoc, ?app_nil_r; try reflexivity.
    + exact EV.
    + cbn [olist]; rewrite ?app_nil_r; exact G.
    + left. reflexivity.
    + rewrite ES. auto.
    + cbn [olist length]. lia.
  - destruct (existsb (Nat.eqb i) hon) eqn:EX; [|exists None; split; [reflexivity|discriminate]]. apply existsb_exists in EX. destruct EX as (i' & Ii & EI). apply Nat.eqb_eq in EI. subst i'.
    destruct (m_wake_total i _ _ _ x Ii (j_good _ _ I i Ii)) as (o & EV).
    destruct o as [(v', o)|]; [|exists None; split; [unfold member_step; rewrite EV; reflexivity|discriminate]].
    destruct (m_wake i _ _ _ x v' o Ii (j_good _ _ I i Ii) EV) as (k & m & ms & K & OV & -> & G & PT & ES).
    apply (STAY _ i (VWake x) v' (Some ((Z.of_nat (k - 1), m), ms)) Ii); rewrite ?takes_snoc, ?others_snoc, ?app_nil_r; try reflexivity.
    + exact EV.
    + exact G.
    + right. exists k, m, ms. auto.
    + rewrite ES. auto.
    + cbn [olist length]. lia.
  - destruct (existsb (Nat.eqb i) hon) eqn:EX; [|exists None; split; [reflexivity|discriminate]]. apply existsb_exists in EX. destruct EX as (i' & Ii & EI). apply Nat.eqb_eq in EI. subst i'.
    destruct (can_handle (v_st (n_v n i))) eqn:CH; [|exists None; split; [reflexivity|discriminate]]. cbn [andb].
    destruct (m_handle i _ _ _ Ii (j_good _ _ I i Ii) CH) as (v' & EV & G & PT).
    apply (STAY _ i (VOther EvHandle) v' None Ii); rewrite ?takes_snoc_other, ?snoc_others, ?sources_snoc, ?app_nil_r; try reflexivity.
    + exact EV.
    + cbn [olist]; rewrite ?app_nil_r; exact G.
    + left. reflexivity.
    + intros k'. exact (flag_mono i _ _ _ k' Ii EV).
    + cbn [olist length]. lia.
  - destruct (existsb (Nat.eqb i) hon) eqn:EX; [|exists None; split; [reflexivity|discriminate]]. apply existsb_exists in EX. destruct EX as (i' & Ii & EI). apply Nat.eqb_eq in EI. subst i'.
    destruct (s_busy (v_st (n_v n i))) eqn:CH; [|exists None; split; [reflexivity|discriminate]]. cbn [andb].
    destruct (m_agreed i _ _ _ Ii (j_good _ _ I i Ii) CH) as (v' & EV & G & PT).
    apply (STAY _ i (VOther EvMVBA) v' None Ii); rewrite ?takes_snoc_other, ?snoc_others, ?sources_snoc, ?app_nil_r; try reflexivity.
    + exact EV.
    + cbn [olist]; rewrite ?app_nil_r; exact G.
    + left. reflexivity.
    + intros k'. exact (flag_mono i _ _ _ k' Ii EV).
    + cbn [olist length]. lia.
Qed.

Local Notation quiet_of := (quiet_of cd ps sg sigok combine hon).
Local Notation mnone := (member_none cd ps sg sigok combine hon).

Lemma quietb_nocom Kd n E : ninvb n E -> quiet_of Kd n -> forall k i d, ~ In (PCommit k i d) (n_post n).
Proof.
  intros I Q. pose proof (j_pk _ _ I) as OK. rewrite Forall_forall in OK.
  intros k i d X. pose proof (OK _ X) as (Ii & K & ED). apply In_nth_error in X. destruct X as (x & X).
  pose proof (Q (NDeliver x) ltac:(cbn [allowed]; rewrite X; reflexivity)) as S. cbn [nstep] in S. rewrite X in S. revert S. rewrite ED.
  destruct (m_commit i _ _ _ k Ii (j_good _ _ I i Ii) K) as (v' & EV & _). eapply member_none. exact EV.
Qed.

Lemma quietb_sent_of Kd n E : ninvb n E -> quiet_of Kd n -> forall i, In i hon -> incl (Kd i) hon -> NoDup (Kd i) -> (F + 1 <= length (Kd i))%nat -> s_MVBASent (v_st (n_v n i)) = true.
Proof.
  intros I Q. pose proof (j_pk _ _ I) as OK. rewrite Forall_forall in OK.
  pose proof (quietb_nocom Kd n E I Q) as NC.
  assert (NR : forall k i m, ~ In (PReshare k i m) (n_post n)).
  { intros k i m X. pose proof (OK _ X) as (Ii & K & OR). assert (KS : In k (ssrc i (n_post n))). { apply in_flat_map. exists (PReshare k i m). split; [exact X|]. rewrite Nat.eqb_refl. left. reflexivity. }
    destruct (freeb_left n E i k I Ii KS) as (FR & NT). apply In_nth_error in X. destruct X as (x & X).
    pose proof (Q (NDeliver x) ltac:(cbn [allowed]; rewrite X; reflexivity)) as S. cbn [nstep] in S. rewrite X in S. revert S.
    destruct (m_take i _ _ _ k m Ii (j_good _ _ I i Ii) K OR FR NT) as (v' & o & EV & _). eapply member_none. exact EV. }
  assert (ID : forall i, In i hon -> idle cd (sg (p_PID (ps i) + 1)%nat) sigok combine (ps i) (n_v n i)).
  { intros i Ii. pose proof (locb i Ii) as (_ & _ & _ & _ & _ & _ & _ & VS & _). split.
    - intros k. destruct (m_tell_total i (n_v n i) k) as (o & EV). destruct o as [(v', o)|]; [|rewrite <- VS; exact EV]. exfalso.
      pose proof (Q (NTell i k) eq_refl) as S. cbn [nstep] in S. rewrite (in_hon hon i Ii) in S. revert S. eapply member_none. exact EV.
    - intros x. destruct (m_wake_total i _ _ _ x Ii (j_good _ _ I i Ii)) as (o & EV). destruct o as [(v', o)|]; [|rewrite <- VS; exact EV]. exfalso.
      pose proof (Q (NWake i x) eq_refl) as S. cbn [nstep] in S. rewrite (in_hon hon i Ii) in S. revert S. eapply member_none. exact EV. }
  assert (VO : forall j k, In j hon -> In k hon -> In (Z.of_nat (j - 1), Z.of_nat k) (votedb n)).
  { intros j k J K. pose proof (j_good _ _ I j J) as G. pose proof (locb j J) as (_ & _ & HP & _).
    assert (SE : ssrc j (n_post n) = []). { apply empty. intros y Y. destruct (in_ssrc _ _ _ Y) as (m & M). exact (NR _ _ _ M). }
    pose proof (j_res _ _ I j J) as P. rewrite SE in P. cbn [app] in P. pose proof (Permutation_in k (Permutation_sym P) (in_or_app _ _ _ (or_introl K))) as KI. unfold indexes in KI. apply in_map_iff in KI. destruct KI as (x & EX & X).
    pose proof (b_take _ _ _ _ _ _ _ _ _ _ _ _ _ _ _ _ _ G) as GT. rewrite Forall_forall in GT. destruct (GT x X) as (k' & m & K' & -> & _). cbn [fst] in EX. rewrite (idx_all k' K') in EX. subst k'.
    destruct (m_inv j _ _ _ J G) as (pevs & ((L1 & _) & _) & _).
    destruct (heard cd (sg (p_PID (ps j) + 1)%nat) sigok combine (ps j) (st0 j) (E j) (n_v n j) (n_votes n j) (Z.of_nat (k - 1)) m (b_run _ _ _ _ _ _ _ _ _ _ _ _ _ _ _ _ _ G) L1 (b_ndt _ _ _ _ _ _ _ _ _ _ _ _ _ _ _ _ _ G)) as (ms & V).
    - intros y Y. destruct (GT y Y) as (k2 & m2 & K2 & -> & _). cbn [fst]. pose proof (HA k2 K2). lia.
    - exact (ID j J).
    - exact X.
    - rewrite (idx_all k K'). destruct (j_com _ _ I j k J (IH1 k K)) as [(d & D)|D]; [destruct (NC _ _ _ D)|exact D].
    - pose proof (b_votes _ _ _ _ _ _ _ _ _ _ _ _ _ _ _ _ _ G) as GV. rewrite Forall_forall in GV. destruct (GV _ V) as (k2 & m2 & ms2 & K2 & EQ & OV). injection EQ as EK _ <-. pose proof (HA k K'). pose proof (HA k2 (accall k2 K2)). assert (k2 = k) as -> by lia.
      destruct OV as (OV & _). unfold votedb. apply in_flat_map. exists j. split; [exact J|]. unfold srcs. apply in_flat_map. eexists. split; [exact V|]. cbn [snd key fst]. rewrite (idx_all k K'). rewrite (OV K). unfold votes.
      destruct (p_N (ps j)) as [|q]; [lia|]. left. reflexivity. }
  intros i Ii IK NK LK. destruct (s_MVBASent (v_st (n_v n i))) eqn:MS; [reflexivity|]. rewrite <- MS.
  pose proof (j_good _ _ I i Ii) as G.
  assert (EH : s_hold (v_st (n_v n i)) = None).
  { destruct (s_hold (v_st (n_v n i))) as [x|] eqn:EH; [|reflexivity]. exfalso. destruct (b_hold _ _ _ _ _ _ _ _ _ _ _ _ _ _ _ _ _ G x EH) as (j & k & J & K & SX & KX & _).
    destruct (m_inv i _ _ _ Ii G) as (pevs & _ & _ & CA & _). destruct (CA MS) as (B & ST).
    assert (CH : can_handle (v_st (n_v n i)) = true). { unfold can_handle. rewrite EH, B, ST, KX. rewrite (proj2 (Nat.leb_le 1 k)) by (pose proof (HA k (accall k K)); lia).
      destruct (j_com _ _ I i k Ii K) as [(d & D)|D]; [destruct (NC _ _ _ D)|]. rewrite D. reflexivity. }
    pose proof (Q (NHandle i) eq_refl) as S. cbn [nstep] in S. rewrite (in_hon hon i Ii), CH in S. cbn [andb] in S. revert S.
    destruct (m_handle i _ _ _ Ii G CH) as (v' & EV & _). eapply member_none. exact EV. }
  assert (RE : forall j k, In k (Kd i) -> ~ In (Z.of_nat (j - 1), Z.of_nat k) (rsrc i (n_post n))).
  { intros j0 k0 K0 Y. pose proof Y as Y'. destruct (in_rsrc _ _ _ Y) as (j & m & M & EY). pose proof (OK _ M) as (_ & J & k & K & OM). pose proof OM as (O1 & _).
    rewrite O1 in EY. injection EY as EJ EK. apply Nat2Z.inj in EK. subst k0. rewrite EJ in Y'. apply In_nth_error in M. destruct M as (x & X).
    pose proof (Q (NDeliver x) ltac:(cbn [allowed]; rewrite X, O1, Nat2Z.id; apply existsb_exists; exists k; split; [exact K0|apply Nat.eqb_refl])) as S. cbn [nstep] in S. rewrite X, EH in S. revert S.
    destruct (m_recv i _ _ _ j k m Ii G J K OM EH (not_yet n E i j k I Ii Y')) as (v' & EV & _). eapply member_none. exact EV. }
  apply (m_end i (Kd i) _ _ _ Ii G EH IK NK LK).
  intros j k J K. pose proof (j_rec _ _ I i Ii) as P. pose proof (Permutation_in _ (Permutation_sym P) (in_or_app _ _ _ (or_introl (VO j k J (IK k K))))) as X. apply in_app_or in X. destruct X as [X|X]; [destruct (RE j k K X)|exact X].
Qed.

Lemma runsb_ok n0 E0' evs n : ninvb n0 E0' -> runs n0 evs n -> exists E, ninvb n E /\ (phi hon n + length evs <= phi hon n0)%nat.
Proof.
  intros I0 R. induction R as [|evs n e n' R IH S]; [exists E0'; split; [exact I0|cbn [length]; lia]|].
  destruct IH as (E & I & L). destruct (nstepb_ok n E e I) as (o & EO & H). rewrite EO in S. injection S as ->. destruct (H n' eq_refl) as (E' & (I' & L') & _). exists E'. split; [exact I'|]. rewrite app_length. cbn [length]. lia.
Qed.

Lemma smsg_decodes i k : In i hon -> exists v w, reshare_decodes cd (ps i) (smsgi i k) v w.
Proof.
  intros Ii. exists (fun j => beval (QB k) (me (ps i)) (of_nat j)), (fun j => mkG1 (peval (wrow s (QB k) (me (ps i))) (of_nat j))).
  intros j Hj. unfold smsg, reshare_msg. cbn [rs_Qk rs_WQk]. rewrite !nth_error_map_seq by exact Hj. split.
  - eexists. split; [reflexivity|]. rewrite to32_FrTo32; unfold FrFrom32_into; rewrite FrFrom32_FrTo32. reflexivity.
  - eexists. split; [reflexivity|]. apply HC.
Qed.

(** The start of the honest members with the packets of the corrupted ones added. *)
Lemma startb_ok n : starts cd ps (polys QB F) hon n -> (forall i, In i hon -> st0 i = v_st (n_v n i)) ->
  ninvb (mkNet (n_v n) (n_votes n) (n_post n ++ bad)) (fun _ => []) /\
  phi hon (mkNet (n_v n) (n_votes n) (n_post n ++ bad)) = (h * (h * (3 + 2 * h)) + h * (N + 2) + total (w hon) bad)%nat.
Proof.
  intros S0 ES. destruct (start_ok cd s ps QB sg sigok combine hon N F HPS HQ HN HH ND HF st0 E0 n S0 ES) as (I & PH). destruct S0 as (S1 & com & res & S2 & EP).
  assert (LOC : forall i, In i hon -> goodi i [] (n_v n i) (n_votes n i) /\ n_votes n i = []).
  { intros i Ii. pose proof (locb i Ii) as (W & HQ' & HP & HN' & HA' & PI & E0' & VS & _). destruct (S1 i Ii) as (st & E1 & E2 & E3). destruct (HPS i Ii) as (_ & EN & EF & _).
    destruct (init_inv s (ps i) QB W HP (QB i) (HQ' i)) as (st' & Q1 & Q2 & Q3 & Q4 & Q5 & Q6 & Q7 & Q8 & Q9 & Q10 & Q11 & _). rewrite EF in Q1. fold (polys QB F i) in Q1. rewrite E1 in Q1. injection Q1 as <-.
    assert (SI : st0 i = st) by (rewrite (ES i Ii), E2; reflexivity). rewrite E3, E2. split; [|reflexivity].
    rewrite <- SI. apply goodb_init; rewrite SI; assumption. }
  assert (VN : votedb n = []). { apply empty. intros y Y. unfold votedb in Y. apply in_flat_map in Y. destruct Y as (j & J & Y). destruct (LOC j J) as (_ & EV). rewrite EV in Y. destruct Y. }
  split; [|unfold phi in *; cbn [n_post n_v]; rewrite total_app; lia]. constructor; cbn [n_post n_v n_votes].
  - apply Forall_app. split.
    + pose proof (i_pk _ _ _ _ _ _ _ _ _ _ _ I) as A. apply Forall_forall. intros x X. rewrite Forall_forall in A. specialize (A x X). destruct x as [k i d|k i m|j i m]; cbn [pk_ok pkb] in *.
      * destruct A as (K & Ii & ->). split; [exact Ii|]. split; [apply IH2, IH1, K|]. symmetry. apply HDH; assumption.
      * destruct A as (K & Ii & ->). split; [exact Ii|]. split; [apply honall, K|]. split; [apply smsg_decodes; exact Ii|]. split; [auto|]. intros row sig ms l rm _ _ _ _ X'. destruct (X' K).
      * exfalso. rewrite EP in X. apply in_flat_map in X. destruct X as (k & K & M). apply in_flat_map in M. destruct M as (a & A' & [M|[M|[]]]); discriminate.
    + pose proof HB as A. rewrite Forall_forall in *. intros x X. specialize (A x X). destruct x as [k i d|k i m|j i m]; cbn [bad_ok pkb] in *.
      * exact A.
      * destruct A as (A1 & A2 & A3). split; [exact A1|]. split; [apply in_or_app; right; exact A2|exact A3].
      * destruct A as (A1 & A2 & A3). split; [exact A1|]. split; [apply in_or_app; right; exact A2|exact A3].
  - intros i Ii. apply LOC, Ii.
  - intros i k Ii K. left. destruct (HB3 i k Ii K) as [KH|(d & D)]; [|exists d; apply in_or_app; right; exact D]. exists (com k). apply in_or_app. left. rewrite EP. apply in_flat_map. exists k. split; [exact KH|]. apply in_flat_map. exists i. split; [exact Ii|]. left. reflexivity.
  - intros i Ii. pose proof (i_res _ _ _ _ _ _ _ _ _ _ _ I i Ii) as P. cbn [takes indexes flat_map map] in *. rewrite app_nil_r in *. rewrite ssrc_app. apply Permutation_app_tail. exact P.
  - intros i Ii. cbn [others sources flat_map]. rewrite app_nil_r, rsrc_app. unfold votedb in *. cbn [n_votes]. rewrite VN. cbn [app].
    assert (R : rsrc i (n_post n) = []).
    { apply empty. intros y Y. destruct (in_rsrc _ _ _ Y) as (j & m & M & _). rewrite EP in M. apply in_flat_map in M. destruct M as (k & K & M). apply in_flat_map in M. destruct M as (a & A & [M|[M|[]]]); discriminate. }
    rewrite R. reflexivity.
Qed.

Lemma progressb_of K n E : ninvb n E -> quiet_of K n \/ exists e n', allowed K n e = true /\ step n e = Ret (Some n').
Proof.
  intros I. assert (D : forall l, (forall e, In e l -> step n e = Ret None) \/ exists e n', In e l /\ step n e = Ret (Some n')).
  { induction l as [|e l IH]; [left; intros ? []|]. destruct (nstepb_ok n E e I) as (o & EO & _). destruct o as [n'|]; [right; exists e, n'; split; [left; reflexivity|exact EO]|].
    destruct IH as [IH|(e' & n' & X & Y)]; [left; intros e' [<-|X]; [exact EO|apply IH; exact X]|right; exists e', n'; split; [right; exact X|exact Y]]. }
  destruct (D (filter (allowed K n) (cands hon n))) as [A|(e & n' & X & Y)].
  - left. intros e AE. destruct (cands_all cd ps sg sigok combine hon N F HF n e) as [X|X]; [intros i ->; discriminate| |exact X]. apply A. apply filter_In. auto.
  - right. exists e, n'. apply filter_In in X. split; [apply X|exact Y].
Qed.

Lemma to_quietb_of K m : forall n E, ninvb n E -> (phi hon n <= m)%nat -> exists evs n' E', runs n evs n' /\ (forall i, ~ In (NAgreed i) evs) /\ ninvb n' E' /\ quiet_of K n' /\
  forall i y, In y (sources (others (E' i))) -> In y (sources (others (E i))) \/ In (Z.to_nat (snd y)) (K i).
Proof.
  induction m as [|m IH]; intros n E I L; destruct (progressb_of K n E I) as [Q|(e & n1 & AL & S)].
  - exists [], n, E. split; [constructor|]. split; [intros i []|auto].
  - destruct (nstepb_ok n E e I) as (o & EO & H). rewrite EO in S. injection S as ->. destruct (H n1 eq_refl) as (E1 & (I1 & L1) & _). lia.
  - exists [], n, E. split; [constructor|]. split; [intros i []|auto].
  - destruct (nstepb_ok n E e I) as (o & EO & H). rewrite EO in S. injection S as ->. destruct (H n1 eq_refl) as (E1 & (I1 & L1) & CM). destruct (IH n1 E1 I1 ltac:(lia)) as (evs & n' & E' & R & A & I' & Q & CM').
    exists (e :: evs), n', E'. split; [exact (nruns_cons cd ps sg sigok combine hon n e n1 evs n' EO R)|]. split; [intros i [->|X]; [discriminate|exact (A i X)]|]. split; [exact I'|]. split; [exact Q|].
    intros i y Y. destruct (CM' i y Y) as [X|X]; [|right; exact X]. destruct (CM i y X) as [X'|(x & j & mm & -> & NE & ->)]; [left; exact X'|right].
    cbn [allowed] in AL. rewrite NE in AL. apply existsb_exists in AL. destruct AL as (k & K1 & K2). apply Nat.eqb_eq in K2. cbn [snd]. rewrite K2. exact K1.
Qed.
End Net.
