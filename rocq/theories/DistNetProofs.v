(** Proofs about DistNetModel.v. *)

Require Import ZArith List Bool Arith Lia Permutation.
From Verif Require Import Prime Fr GoBase Poly PolyModel PolyProofs Biv GroupModel KzgModel KzgProofs.
From Verif Require Import CodecModel CodecProofs PartyModel PartySpec VssModel VssProofs BivProofs.
From Verif Require Import ReduceModel ReduceProofs.
From Verif Require Import ProacModel ProacProofs ProacRun ProacSig ProacRecover ProacDist ProacLinks.
From Verif Require Import ReshareModel ReshareProofs StageModel StageProofs StageNet DistNetModel.
Import ListNotations.
Local Open Scope F_scope.

(** ** One member *)

Lemma take_out {A} (l : list A) : forall x a, nth_error l x = Some a -> Permutation l (a :: firstn x l ++ skipn (S x) l).
Proof.
  induction l as [|b l IH]; intros [|x] a E; cbn in E; try discriminate.
  - injection E as ->. cbn. reflexivity.
  - cbn [firstn skipn app]. rewrite (IH _ _ E) at 1. apply perm_swap.
Qed.

Definition has (d : dst) : nat := match d_share d with Some _ => 1 | None => 0 end.

Lemma commit_same cd p CQ d k data d' : d_commit cd p CQ d k data = Ret d' -> d_wait d' = d_wait d /\ d_share d' = d_share d.
Proof.
  unfold d_commit. destruct (_ || _); [intros E; injection E as <-; auto|]. intros E. apply bind_ret in E. destruct E as (o & _ & E).
  injection E as <-. destruct o; auto.
Qed.

Lemma recv_same p d z m d' : d_recv p d z m = Ret d' -> d_free d <> O -> length (d_wait d') = S (length (d_wait d)) /\ d_share d' = d_share d.
Proof.
  unfold d_recv. destruct (d_free d); [congruence|]. destruct (_ <? _)%Z; [discriminate|]. intros E _. injection E as <-.
  cbn [d_wait d_share]. rewrite app_length. cbn [length]. split; [lia|reflexivity].
Qed.

Lemma go_same cd p d x d' : d_go cd p d x = Ret d' -> d_share d' = d_share d \/ d_share d = None /\ d_share d' <> None.
Proof.
  unfold d_go. destruct (nth_error _ _) as [(j & m)|]; [|intros E; injection E as <-; auto].
  destruct (negb _); [intros E; injection E as <-; auto|]. intros E.
  apply bind_ret in E. destruct E as (c & _ & E). apply bind_ret in E. destruct E as (w & _ & E). apply bind_ret in E. destruct E as (ok & _ & E).
  destruct ok; [|injection E as <-; auto]. destruct (d_share d) as [f|] eqn:ES; [injection E as <-; auto|].
  destruct (_ <=? _)%nat; [|injection E as <-; auto]. apply bind_ret in E. destruct E as (full & _ & E). injection E as <-. right. split; [reflexivity|].
  cbn [d_share]. discriminate.
Qed.

Section Net.
Variables (cd : g1codec) (s : Fr) (ps : nat -> Party) (CQ : nat -> list G1) (B SB : list (list Fr)).
Variable hon : list nat.
Variables N F : nat.
Local Notation B' := (badd B SB).
Hypothesis HC : codec_ok cd.
Hypothesis HPS : forall i, In i hon -> party_wf s (ps i) /\ p_N (ps i) = N /\ p_F (ps i) = F /\ p_PID (ps i) = (i - 1)%nat /\
  p_reducedShare (ps i) = secy B' (of_nat i).
Hypothesis HB : bdeg F (2 * F) B.
Hypothesis HS : bdeg F (2 * F) SB.
Hypothesis HO : forall i j, In i hon -> (1 <= j <= 2 * F + 1)%nat ->
  exists c, nth_error (PiContents (p_Proof (ps i))) j = Some c /\ CBj c = mkG1 (peval (secx B s) (of_nat j)).
Hypothesis HL : forall i, In i hon -> length (CQ i) = (N + 1)%nat.
Hypothesis HV : forall i j, In i hon -> (1 <= j <= N)%nat -> nth j (CQ i) ZeroG1 = mkG1 (peval (secx SB s) (of_nat j)).
Hypothesis HN : (Z.of_nat N < 2 ^ 32)%Z.
Hypothesis HH : forall k, In k hon -> (1 <= k <= N)%nat.
Hypothesis ND : NoDup hon.
Hypothesis HF : (2 * F + 1 <= length hon)%nat.
Local Notation h := (length hon).
Local Notation dnstep := (dnstep cd ps CQ F hon).
Local Notation dnruns := (dnruns cd ps CQ F hon).

Definition dcom (k : nat) : list Z := ToCompressedG1 cd (ncom s B SB k).
Definition dshr (k i : nat) : ShareDistMsg := dmsg cd s (ps i) B SB k.

Lemma loc i : In i hon -> party_wf s (ps i) /\ bdeg (p_F (ps i)) (2 * p_F (ps i)) B /\ bdeg (p_F (ps i)) (2 * p_F (ps i)) SB /\
  (forall j, (1 <= j <= 2 * p_F (ps i) + 1)%nat ->
     exists c, nth_error (PiContents (p_Proof (ps i))) j = Some c /\ CBj c = mkG1 (peval (secx B s) (of_nat j))) /\
  length (CQ i) = (p_N (ps i) + 1)%nat /\
  (forall j, (1 <= j <= p_N (ps i))%nat -> nth j (CQ i) ZeroG1 = mkG1 (peval (secx SB s) (of_nat j))) /\
  (Z.of_nat (p_N (ps i)) < 2 ^ 32)%Z.
Proof.
  intros I. destruct (HPS i I) as (W & EN & EF & EP & _). rewrite EN, EF.
  exact (conj W (conj HB (conj HS (conj (fun j => HO i j I) (conj (HL i I) (conj (fun j => HV i j I) HN)))))).
Qed.

Lemma me_i i : In i hon -> me (ps i) = of_nat i.
Proof. intros I. destruct (HPS i I) as (_ & _ & _ & EP & _). unfold me. rewrite EP. f_equal. pose proof (HH i I). lia. Qed.

Definition evok (i : nat) (e : dev) : Prop :=
  match e with
  | DvCommit k d => In k hon /\ d = dcom k
  | DvRecv z m => exists k, In k hon /\ z = Z.of_nat (k - 1) /\ m = dshr k i
  | DvGo _ => True
  end.

Lemma evok_ok i e : In i hon -> evok i e -> dv_ok cd s (ps i) B SB e /\ ev_decodes cd (ps i) e.
Proof.
  intros I. destruct (loc i I) as (W & B1 & B2 & _ & LC & _ & _). destruct (HPS i I) as (_ & EN & _).
  destruct e as [k d|z m|x]; cbn [evok dv_ok ev_decodes].
  - intros (K & ->). split; [exact Logic.I|]. unfold dcom. rewrite HC. discriminate.
  - intros (k & K & -> & ->). pose proof (HH k K).
    destruct (dmsg_ok cd s (ps i) B SB (CQ i) W B1 B2 LC HC k) as (M1 & M2 & M3). split.
    + intros j w EX Hj _ . unfold dshr. rewrite M1. intros _. unfold Xof in EX. rewrite Z.mod_small in EX by lia.
      assert (j = k) as -> by lia. reflexivity.
    + split; [rewrite EN; lia|]. unfold dshr, dmsg. cbn [sd_WB]. rewrite HC. discriminate.
  - auto.
Qed.

Definition good1 (i : nat) (E : list dev) (d : dst) : Prop :=
  drun cd (ps i) (CQ i) (dist_init N) E = Ret d /\ Forall (evok i) E /\ dinv cd s (ps i) B SB d /\ decodable cd (d_wait d).

Lemma good1_init i : In i hon -> good1 i [] (dist_init N).
Proof.
  intros I. destruct (loc i I) as (_ & _ & _ & _ & LC & _). split; [reflexivity|]. split; [constructor|]. destruct (HPS i I) as (_ & EN & _). split; [rewrite <- EN; apply (dinv_init _ _ _ _ _ _ LC)|].
  intros j m [].
Qed.

Lemma good1_step i E d e : In i hon -> good1 i E d -> evok i e ->
  exists d', dstep cd (ps i) (CQ i) d e = Ret d' /\ good1 i (E ++ [e]) d'.
Proof.
  intros I (R & A & D1 & D2) OK. destruct (loc i I) as (W & B1 & B2 & C1 & LC & VC & N1). destruct (evok_ok i e I OK) as (O1 & O2).
  destruct (dstep_total cd s (ps i) B SB (CQ i) W B1 B2 C1 LC VC N1 d e D1 D2 O2) as (d' & ES & D2'). exists d'. split; [exact ES|].
  split; [unfold drun in *; rewrite gofold_app, R; cbn [bind gofold]; rewrite ES; reflexivity|].
  split; [apply Forall_app; split; [exact A|constructor; [exact OK|constructor]]|]. split; [|exact D2'].
  eapply dstep_inv; eauto.
Qed.

Lemma good1_free i E d : In i hon -> good1 i E d -> NoDup (dsenders E) -> (d_free d + length (dsenders E) = N)%nat.
Proof.
  intros I (R & A & D1 & D2) NS. destruct (loc i I) as (W & B1 & B2 & C1 & LC & VC & N1). destruct (HPS i I) as (_ & EN & _).
  rewrite <- EN in R |- *.
  destruct (drun_prog cd s (ps i) B SB (CQ i) W B1 B2 C1 LC VC HC N1 E E [] (dist_init (p_N (ps i))) d eq_refl NS) as (_ & (PF & _)); auto.
  - intros z Hz. unfold dsenders in Hz. apply in_flat_map in Hz. destruct Hz as (e & He & Hz). destruct e as [|z' m|]; [destruct Hz| |destruct Hz].
    destruct Hz as [-> |[]]. rewrite Forall_forall in A. destruct (A _ He) as (k & K & -> & _). pose proof (HH k K). lia.
  - eapply Forall_impl; [|exact A]. intros e He. apply (evok_ok i e I He).
  - apply (dinv_init cd s (ps i) B SB (CQ i)); assumption.
  - apply (prog_init cd s (ps i) B SB (CQ i)); assumption.
Qed.

Lemma good1_end i E d : In i hon -> good1 i E d -> Permutation (dsenders E) (map (fun k => Z.of_nat (k - 1)) hon) ->
  (forall k, In k hon -> In (DvCommit k (dcom k)) E) ->
  (forall j m, In (j, m) (d_wait d) -> nth j (d_token d) false = false) ->
  d_share d = Some (secx B' (of_nat i)).
Proof.
  intros I (R & A & D1 & D2) PS PC QU. destruct (loc i I) as (W & B1 & B2 & C1 & LC & VC & N1). destruct (HPS i I) as (_ & EN & EF & _).
  rewrite <- (me_i i I). rewrite <- EN in R. rewrite Forall_forall in A.
  assert (NS : NoDup (dsenders E)).
  { eapply Permutation_NoDup; [symmetry; exact PS|]. apply nodup_map_in; [|exact ND]. intros a b Ha Hb. pose proof (HH a Ha). pose proof (HH b Hb). lia. }
  assert (RC : forall k m, In k hon -> In (DvRecv (Z.of_nat (k - 1)) m) E -> m = dshr k i).
  { intros k m K Hm. destruct (A _ Hm) as (k' & K' & EZ & ->). pose proof (HH k K). pose proof (HH k' K'). assert (k' = k) as -> by lia. reflexivity. }
  apply (dist_complete cd s (ps i) B SB (CQ i) W B1 B2 C1 LC VC HC N1 E d (firstn (2 * F + 1) hon) NS); auto.
  - intros z Hz. apply (Permutation_in _ PS) in Hz. apply in_map_iff in Hz. destruct Hz as (k & <- & K). pose proof (HH k K). lia.
  - apply Forall_forall. intros e He. apply (evok_ok i e I). apply A. exact He.
  - rewrite <- (firstn_skipn (2 * F + 1) hon) in ND. clear -ND. revert ND. generalize (skipn (2 * F + 1) hon) as l2. generalize (firstn (2 * F + 1) hon) as l1. induction l1 as [|a l1 IH]; intros l2 H; [constructor|].
    cbn [app] in H. inversion H as [|? ? NI NL]; subst. constructor; [intros Q; apply NI; apply in_or_app; auto|]. eapply IH; exact NL.
  - rewrite firstn_length, EF. lia.
  - intros k K0. assert (K : In k hon) by (rewrite <- (firstn_skipn (2 * F + 1) hon); apply in_or_app; auto).
    pose proof (HH k K). split.
    + split; [lia|]. split; [apply PC; exact K|]. split; [intros d0 Hd; apply (A _ Hd)|]. intros m Hm. apply RC; assumption.
    + assert (Hz : In (Z.of_nat (k - 1)) (dsenders E)) by (eapply Permutation_in; [symmetry; exact PS|]; apply in_map_iff; exists k; auto).
      unfold dsenders in Hz. apply in_flat_map in Hz. destruct Hz as (e & He & Hz). destruct e as [|z' m|]; [destruct Hz| |destruct Hz].
      destruct Hz as [-> |[]]. rewrite (RC k m K He) in He. exact He.
Qed.

(** ** All members *)

Definition qsrc (i : nat) (l : list dpacket) : list Z :=
  flat_map (fun x => match x with QShare k i' _ => if (i' =? i)%nat then [Z.of_nat (k - 1)] else [] | _ => [] end) l.
Definition nsuc (i : nat) (x : dpacket) : nat := match x with QSuccess _ i' => if (i' =? i)%nat then 1 else 0 | _ => 0 end.
Definition pkok (x : dpacket) : Prop :=
  match x with
  | QCommit k i d => In k hon /\ In i hon /\ d = dcom k
  | QShare k i m => In k hon /\ In i hon /\ m = dshr k i
  | QSuccess k i => In k hon /\ In i hon
  end.

Record tinv (n : dnet) (E : nat -> list dev) : Prop := {
  t_pk : Forall pkok (m_post n);
  t_good : forall i, In i hon -> good1 i (E i) (m_d n i);
  t_com : forall i k, In i hon -> In k hon -> In (QCommit k i (dcom k)) (m_post n) \/ In (DvCommit k (dcom k)) (E i);
  t_shr : forall i, In i hon -> Permutation (qsrc i (m_post n) ++ dsenders (E i)) (map (fun k => Z.of_nat (k - 1)) hon);
  t_suc : forall i, In i hon -> (total (nsuc i) (m_post n) + m_count n i = total (fun k => has (m_d n k)) hon)%nat;
  t_cnt : forall i, In i hon -> m_count n i <> O -> d_share (m_d n i) <> None }.

Definition wt (x : dpacket) : nat := match x with QShare _ _ _ => 2 | _ => 1 end.
Definition pot1 (d : dst) : nat := (length (d_wait d) + (1 - has d) * h)%nat.
Definition tphi (n : dnet) : nat := (total wt (m_post n) + total (fun i => pot1 (m_d n i)) hon)%nat.

Lemma qsrc_perm i a b : Permutation a b -> Permutation (qsrc i a) (qsrc i b).
Proof. intros P. unfold qsrc. apply Permutation_flat_map. exact P. Qed.

Lemma suc_list i d d' : (has d' = has d /\ successes hon i d d' = []) \/ (d_share d = None /\ d_share d' <> None /\ successes hon i d d' = map (fun l => QSuccess i l) hon) \/ (d_share d <> None /\ d_share d' = None).
Proof. unfold successes, has. destruct (d_share d), (d_share d'); [left; auto|right; right; split; [discriminate|reflexivity]|right; left; split; [reflexivity|split; [discriminate|reflexivity]]|left; auto]. Qed.

Lemma tot_suc_to i l : total (nsuc l) (map (fun l => QSuccess i l) hon) = if in_dec Nat.eq_dec l hon then 1%nat else 0%nat.
Proof.
  unfold total. rewrite map_map. cbn [nsuc]. clear -ND. induction hon as [|a t IH]; [reflexivity|]. inversion ND as [|? ? NI NL]; subst.
  specialize (IH NL). cbn [map]. unfold list_sum in *. cbn [fold_right]. rewrite IH. destruct (Nat.eqb_spec a l) as [-> |NE].
  - destruct (in_dec Nat.eq_dec l t); [contradiction|]. destruct (in_dec Nat.eq_dec l (l :: t)) as [|Q]; [reflexivity|]. destruct Q. left. reflexivity.
  - destruct (in_dec Nat.eq_dec l t) as [Q|Q], (in_dec Nat.eq_dec l (a :: t)) as [R|R]; auto; [destruct R; right; exact Q|]. destruct R; [congruence|contradiction].
Qed.

Lemma tot_wt_suc i : total wt (map (fun l => QSuccess i l) hon) = h.
Proof. unfold total. rewrite map_map. cbn [wt]. clear. induction hon; [reflexivity|]. cbn [map length]. unfold list_sum in *. cbn [fold_right]. lia. Qed.

(** A step of member i that removes packets [out]. *)
Lemma member_ok n E i e post out : tinv n E -> In i hon -> evok i e -> Permutation (m_post n) (out ++ post) ->
  (forall l, total (nsuc l) out = 0%nat) ->
  (forall l, qsrc l out = if (l =? i)%nat then dsenders [e] else []) ->
  (forall k l d, In (QCommit k l d) out -> l = i /\ e = DvCommit k d) ->
  (forall d', dstep cd (ps i) (CQ i) (m_d n i) e = Ret d' ->
     (d_share d' = d_share (m_d n i) \/ d_share (m_d n i) = None /\ d_share d' <> None) /\
     (length (d_wait d') < total wt out + length (d_wait (m_d n i)))%nat) ->
  exists n' E', member_dist cd ps CQ hon n post i e = Ret (Some n') /\ tinv n' E' /\ (tphi n' < tphi n)%nat.
Proof.
  intros T Ii OK PP SU QS CO ST. destruct (good1_step i (E i) (m_d n i) e Ii (t_good _ _ T i Ii) OK) as (d' & ED & G').
  destruct (ST d' ED) as (SH & WT). pose proof (t_pk _ _ T) as PK. rewrite PP in PK. apply Forall_app in PK. destruct PK as (_ & PK).
  unfold member_dist. rewrite ED. cbn [bind]. set (su := successes hon i (m_d n i) d').
  exists (mkDnet (put (m_d n) i d') (m_count n) (post ++ su)), (put E i (E i ++ [e])). split; [reflexivity|].
  assert (SL : (has d' = has (m_d n i) /\ su = []) \/ (has (m_d n i) = 0%nat /\ has d' = 1%nat /\ su = map (fun l => QSuccess i l) hon)).
  { unfold su, has. destruct (suc_list i (m_d n i) d') as [(A & ->)|[(A & A' & ->)|(A & A')]]; [left; auto| |exfalso; destruct SH as [SH|(SH & _)]; congruence].
    right. rewrite A. destruct (d_share d'); [auto|congruence]. }
  assert (QSU : forall l, qsrc l su = []).
  { intros l. destruct SL as [(_ & ->)|(_ & _ & ->)]; [reflexivity|]. unfold qsrc. rewrite flat_map_concat_map, map_map. clear. induction hon; [reflexivity|cbn; assumption]. }
  split.
  - constructor; cbn [m_d m_count m_post].
    + apply Forall_app. split; [exact PK|]. destruct SL as [(_ & ->)|(_ & _ & ->)]; [constructor|]. apply Forall_forall. intros x Hx. apply in_map_iff in Hx.
      destruct Hx as (l & <- & L). split; assumption.
    + intros l L. destruct (Nat.eq_dec l i) as [-> |NE]; [rewrite !put_same; exact G'|]. rewrite !put_other by exact NE. apply (t_good _ _ T l L).
    + intros l k L K. destruct (t_com _ _ T l k L K) as [A|A].
      * apply (Permutation_in _ PP) in A. apply in_app_or in A. destruct A as [A|A]; [|left; apply in_or_app; left; exact A].
        destruct (CO _ _ _ A) as (-> & ->). right. rewrite put_same. apply in_or_app. right. left. reflexivity.
      * right. destruct (Nat.eq_dec l i) as [-> |NE]; [rewrite put_same; apply in_or_app; left; exact A|rewrite put_other by exact NE; exact A].
    + intros l L. pose proof (t_shr _ _ T l L) as P. rewrite (qsrc_perm l _ _ PP) in P. unfold qsrc in P. rewrite flat_map_app in P. fold (qsrc l out) (qsrc l post) in P.
      unfold qsrc at 1. rewrite flat_map_app. fold (qsrc l post) (qsrc l su). rewrite QSU, app_nil_r. rewrite QS in P.
      destruct (Nat.eqb_spec l i) as [-> |NE].
      * rewrite put_same. unfold dsenders at 1. rewrite flat_map_app. fold (dsenders (E i)) (dsenders [e]). rewrite <- P. rewrite app_assoc. rewrite (Permutation_app_comm _ (dsenders [e])). rewrite app_assoc. reflexivity.
      * rewrite put_other by exact NE. exact P.
    + intros l L. pose proof (t_suc _ _ T l L) as P. rewrite (total_perm _ _ _ PP), total_app, SU in P.
      pose proof (total_put has (m_d n) i d' hon ND Ii) as TP. rewrite total_app. destruct SL as [(A & ->)|(A & A' & ->)].
      * unfold total at 2. cbn [map list_sum fold_right]. lia.
      * rewrite tot_suc_to. destruct (in_dec Nat.eq_dec l hon); [lia|contradiction].
    + intros l L CN. destruct (Nat.eq_dec l i) as [-> |NE]; [rewrite put_same|rewrite put_other by exact NE; apply (t_cnt _ _ T l L CN)].
      destruct SH as [-> |(_ & SH)]; [apply (t_cnt _ _ T i L CN)|exact SH].
  - unfold tphi. cbn [m_d m_post]. rewrite (total_perm wt _ _ PP), !total_app. pose proof (total_put pot1 (m_d n) i d' hon ND Ii) as TP. unfold pot1 at 2 4 in TP.
    destruct SL as [(A & ->)|(A & A' & ->)].
    + unfold total at 2. cbn [map list_sum fold_right]. rewrite A in TP. lia.
    + rewrite tot_wt_suc. rewrite A, A' in TP. lia.
Qed.

(** ** Steps *)

Lemma step_ok n E e : tinv n E -> exists o, dnstep n e = Ret o /\
  match o with None => True | Some n' => exists E', tinv n' E' /\ (tphi n' < tphi n)%nat end.
Proof.
  intros T. assert (WRAP : forall (g : go (option dnet)), (exists n' E', g = Ret (Some n') /\ tinv n' E' /\ (tphi n' < tphi n)%nat) ->
    exists o, g = Ret o /\ match o with None => True | Some n' => exists E', tinv n' E' /\ (tphi n' < tphi n)%nat end).
  { intros g (n' & E' & G & R). exists (Some n'). split; [exact G|]. exists E'. exact R. }
  destruct e as [x|i x]; unfold DistNetModel.dnstep.
  - destruct (nth_error (m_post n) x) as [pk|] eqn:EX; [|exists None; auto]. pose proof (take_out _ _ _ EX) as PP.
    set (post := firstn x (m_post n) ++ skipn (S x) (m_post n)) in *. pose proof (t_pk _ _ T) as PK. rewrite Forall_forall in PK. specialize (PK _ (nth_error_In _ _ EX)).
    destruct pk as [k i d|k i m|k i]; cbn [pkok] in PK.
    + destruct PK as (K & Ii & ->). apply WRAP. apply (member_ok n E i (DvCommit k (dcom k)) post [QCommit k i (dcom k)]); auto.
      * split; auto.
      * intros l. cbn. destruct (l =? i)%nat; reflexivity.
      * intros k' l d [Q|[]]. injection Q as <- <- <-. auto.
      * intros d' ED. cbn [dstep] in ED. destruct (commit_same _ _ _ _ _ _ _ ED) as (-> & ->). split; [left; reflexivity|]. cbn. lia.
    + destruct PK as (K & Ii & ->). destruct (d_free (m_d n i)) eqn:EF; [exists None; auto|]. apply WRAP.
      apply (member_ok n E i (DvRecv (Z.of_nat (k - 1)) (dshr k i)) post [QShare k i (dshr k i)]); auto.
      * exists k. auto.
      * intros l. cbn. rewrite (Nat.eqb_sym i l). destruct (l =? i)%nat; reflexivity.
      * intros k' l d [Q|[]]. discriminate.
      * intros d' ED. cbn [dstep] in ED. destruct (recv_same _ _ _ _ _ ED) as (A & ->); [rewrite EF; discriminate|]. split; [left; reflexivity|]. rewrite A. cbn. lia.
    + destruct PK as (K & Ii). destruct (d_share (m_d n i)) as [f|] eqn:ESH; [|exists None; auto]. destruct (Nat.leb_spec (2 * F + 1) (m_count n i)) as [L|L]; [exists None; auto|].
      eexists. split; [reflexivity|]. exists E. split; [constructor; cbn [m_d m_count m_post]|].
      * pose proof (t_pk _ _ T) as A. rewrite PP in A. inversion A; assumption.
      * apply (t_good _ _ T).
      * intros l k' Hl Hk. destruct (t_com _ _ T l k' Hl Hk) as [A|A]; [|auto]. apply (Permutation_in _ PP) in A. destruct A as [A|A]; [discriminate|auto].
      * intros l Hl. pose proof (t_shr _ _ T l Hl) as P. rewrite (qsrc_perm l _ _ PP) in P. exact P.
      * intros l Hl. pose proof (t_suc _ _ T l Hl) as P. rewrite (total_perm _ _ _ PP) in P. unfold total at 1 in P. cbn [map] in P. unfold list_sum in P. cbn [fold_right nsuc] in P.
        fold (list_sum (map (nsuc l) post)) in P. fold (total (nsuc l) post) in P. unfold put. rewrite (Nat.eqb_sym l i). destruct (Nat.eqb_spec i l) as [-> |NE]; lia.
      * intros l Hl CN. destruct (Nat.eq_dec l i) as [-> |NE]; [rewrite ESH; discriminate|]. rewrite put_other in CN by exact NE. apply (t_cnt _ _ T l Hl CN).
      * unfold tphi. cbn [m_d m_post]. rewrite (total_perm wt _ _ PP). unfold total at 3. cbn [map]. unfold list_sum. cbn [fold_right wt]. fold (list_sum (map wt post)). fold (total wt post). lia.
  - destruct (existsb (Nat.eqb i) hon) eqn:EH; [|exists None; auto]. apply existsb_exists in EH. destruct EH as (i' & Ii & EQ). apply Nat.eqb_eq in EQ. subst i'.
    destruct (nth_error (d_wait (m_d n i)) x) as [(j & m)|] eqn:EX; [|exists None; auto]. destruct (nth j (d_token (m_d n i)) false) eqn:ET; [|exists None; auto].
    apply WRAP. apply (member_ok n E i (DvGo x) (m_post n) []); auto.
    + exact Logic.I.
    + intros l. cbn. destruct (l =? i)%nat; reflexivity.
    + intros k l d [].
    + intros d' ED. cbn [dstep] in ED. split; [eapply go_same; exact ED|]. destruct (t_good _ _ T i Ii) as (_ & _ & D1 & D2).
      destruct (loc i Ii) as (W & B1 & B2 & _ & LC & _). destruct (d_go_total cd s (ps i) B SB (CQ i) W B1 B2 LC (m_d n i) x D1 D2) as (d1 & ED1 & _ & SW).
      rewrite ED in ED1. injection ED1 as <-. rewrite EX in SW. cbn. apply SW. exact ET.
Qed.

Definition dquiet (n : dnet) : Prop := forall e, dnstep n e = Ret None.

Lemma quiet_end n E : tinv n E -> dquiet n -> forall i, In i hon -> d_share (m_d n i) = Some (secx B' (of_nat i)) /\ left_handoff F n i.
Proof.
  intros T Q.
  assert (NC : forall k i d, ~ In (QCommit k i d) (m_post n)).
  { intros k i d A. pose proof (t_pk _ _ T) as PK. rewrite Forall_forall in PK. destruct (PK _ A) as (K & Ii & ->). apply In_nth_error in A. destruct A as (x & A). specialize (Q (TDeliver x)).
    unfold DistNetModel.dnstep in Q. rewrite A in Q. unfold member_dist in Q.
    destruct (good1_step i (E i) (m_d n i) (DvCommit k (dcom k)) Ii (t_good _ _ T i Ii)) as (d' & ED & _); [split; auto|]. rewrite ED in Q. discriminate. }
  assert (NQ : forall i, In i hon -> qsrc i (m_post n) = []).
  { intros i Ii. pose proof (t_shr _ _ T i Ii) as P. destruct (qsrc i (m_post n)) as [|z l] eqn:EQ; [reflexivity|exfalso].
    assert (Hz : In z (qsrc i (m_post n))) by (rewrite EQ; left; reflexivity). unfold qsrc in Hz. apply in_flat_map in Hz. destruct Hz as (pk & A & Hz).
    destruct pk as [|k i' m|]; [destruct Hz| |destruct Hz]. destruct (Nat.eqb_spec i' i) as [-> |]; [|destruct Hz].
    pose proof (t_pk _ _ T) as PK. rewrite Forall_forall in PK. destruct (PK _ A) as (K & _ & ->). apply In_nth_error in A. destruct A as (x & A). specialize (Q (TDeliver x)).
    unfold DistNetModel.dnstep in Q. rewrite A in Q. destruct (d_free (m_d n i)) eqn:EF.
    - assert (NM : NoDup (map (fun k => Z.of_nat (k - 1)) hon)) by (apply nodup_map_in; [|exact ND]; intros a b Ha Hb; pose proof (HH a Ha); pose proof (HH b Hb); lia).
      pose proof (Permutation_NoDup (Permutation_sym P) NM) as NP.
      assert (NS : NoDup (dsenders (E i))). { clear -NP. induction (z :: l) as [|a t IH]; [exact NP|]. apply IH. cbn [app] in NP. inversion NP; assumption. }
      pose proof (good1_free i _ _ Ii (t_good _ _ T i Ii) NS) as FR. pose proof (Permutation_length P) as PL. cbn [app length] in PL. rewrite app_length, map_length in PL. cbn [length] in PL.
      assert (HLN : (h <= N)%nat). { rewrite <- (seq_length N 1). apply NoDup_incl_length; [exact ND|]. intros k' Hk. apply in_seq. pose proof (HH k' Hk). lia. }
      lia.
    - unfold member_dist in Q. destruct (good1_step i (E i) (m_d n i) (DvRecv (Z.of_nat (k - 1)) (dshr k i)) Ii (t_good _ _ T i Ii)) as (d' & ED & _); [exists k; auto|]. rewrite ED in Q. discriminate. }
  assert (SH : forall i, In i hon -> d_share (m_d n i) = Some (secx B' (of_nat i))).
  { intros i Ii. apply (good1_end i (E i)); auto; [apply (t_good _ _ T i Ii)| | |].
    - pose proof (t_shr _ _ T i Ii) as P. rewrite NQ in P by exact Ii. exact P.
    - intros k K. destruct (t_com _ _ T i k Ii K) as [A|A]; [destruct (NC _ _ _ A)|exact A].
    - intros j m A. apply In_nth_error in A. destruct A as (x & A). specialize (Q (TGo i x)). unfold DistNetModel.dnstep in Q.
      assert (EH : existsb (Nat.eqb i) hon = true) by (apply existsb_exists; exists i; split; [exact Ii|apply Nat.eqb_refl]). rewrite EH, A in Q.
      destruct (nth j (d_token (m_d n i)) false); [exfalso|reflexivity]. unfold member_dist in Q.
      destruct (good1_step i (E i) (m_d n i) (DvGo x) Ii (t_good _ _ T i Ii) Logic.I) as (d' & ED & _). rewrite ED in Q. discriminate. }
  intros i Ii. split; [apply SH; exact Ii|]. unfold left_handoff. destruct (le_lt_dec (2 * F + 1) (m_count n i)) as [L|L]; [exact L|exfalso].
  pose proof (t_suc _ _ T i Ii) as P.
  assert (TH : total (fun k => has (m_d n k)) hon = h).
  { unfold total. rewrite (map_ext_in _ (fun _ => 1%nat)); [|intros k K; unfold has; rewrite (SH k K); reflexivity]. clear. induction hon; [reflexivity|]. cbn [map length]. unfold list_sum in *. cbn [fold_right]. lia. }
  assert (EX : exists pk, In pk (m_post n) /\ nsuc i pk <> 0%nat).
  { assert (PO : total (nsuc i) (m_post n) <> 0%nat) by lia. clear -PO. induction (m_post n) as [|a t IH]; [destruct (PO eq_refl)|].
    destruct (nsuc i a) eqn:EA; [|exists a; split; [left; reflexivity|rewrite EA; discriminate]].
    unfold total in *. cbn [map] in PO. unfold list_sum in *. cbn [fold_right] in PO. rewrite EA in PO. destruct (IH PO) as (pk & A & A'). exists pk. split; [right; exact A|exact A']. }
  destruct EX as (pk & A & A'). destruct pk as [| |k i']; cbn [nsuc] in A'; try congruence. destruct (Nat.eqb_spec i' i) as [-> |]; [|congruence].
  apply In_nth_error in A. destruct A as (x & A). specialize (Q (TDeliver x)). unfold DistNetModel.dnstep in Q. rewrite A, (SH i Ii) in Q.
  destruct (Nat.leb_spec (2 * F + 1) (m_count n i)); [lia|discriminate].
Qed.

(** ** The beginning *)

Lemma sends k : In k hon -> NewCommitSend cd (ps k) = Ret (dcom k) /\
  exists ms, DistributeSend cd (ps k) = Ret ms /\ forall i, In i hon -> nth (i - 1) ms (mkSD [] []) = dshr k i.
Proof.
  intros K. destruct (HPS k K) as (W & EN & EF & EP & ER). pose proof W as (Q1 & _). rewrite EF in Q1.
  assert (DB : bdeg F (2 * F) B') by (apply bdeg_badd; assumption).
  split.
  - unfold NewCommitSend. rewrite ER, (commit_section s (F + 1) _ F (2 * F) _ _ Q1 DB) by lia. reflexivity.
  - unfold DistributeSend. rewrite EN, ER.
    rewrite (gomap_ret _ (fun i => mkSD (FrTo32 (beval B' (of_nat i) (of_nat k))) (ToCompressedG1 cd (mkG1 (peval (wrow s B' (of_nat i)) (of_nat k)))))).
    2:{ intros i _. rewrite (witness_section s (F + 1) _ F (2 * F) _ _ _ Q1 DB) by lia. cbn [bind]. rewrite EvalPolyAt_correct, peval_secy. reflexivity. }
    eexists. split; [reflexivity|]. intros i Ii. pose proof (HH i Ii). erewrite nth_error_nth; [reflexivity|].
    rewrite nth_error_map, (nth_error_nth' (seq 1 N) O) by (rewrite seq_length; lia). rewrite seq_nth by lia. cbn [option_map]. f_equal. unfold dshr, dmsg.
    pose proof (me_i i Ii) as ME. unfold me in ME. rewrite ?ME. replace (1 + (i - 1))%nat with i by lia. reflexivity.
Qed.

Lemma tot_flat {A C} (f : C -> nat) (g : A -> list C) (c : nat) l : (forall a, In a l -> total f (g a) = c) -> total f (flat_map g l) = (length l * c)%nat.
Proof. induction l as [|a l IH]; intros H; [reflexivity|]. cbn [flat_map length]. rewrite total_app, H, IH by (intros; apply H; right; assumption) || (left; reflexivity). lia. Qed.

Lemma start_inv n : dist_starts cd ps hon n -> tinv n (fun _ => []) /\ tphi n = (4 * h * h)%nat.
Proof.
  intros (S1 & com & res & S2 & S3).
  assert (EP : m_post n = flat_map (fun k => flat_map (fun i => [QCommit k i (dcom k); QShare k i (dshr k i)]) hon) hon).
  { rewrite S3. rewrite !flat_map_concat_map. f_equal. apply map_ext_in. intros k K. rewrite !flat_map_concat_map. f_equal. apply map_ext_in. intros i Ii.
    destruct (S2 k K) as (C1 & C2). destruct (sends k K) as (C3 & ms & C4 & C5). rewrite C1 in C3. injection C3 as ->. rewrite C2 in C4. injection C4 as ->. rewrite (C5 i Ii). reflexivity. }
  assert (D0 : forall i, In i hon -> m_d n i = dist_init N). { intros i Ii. destruct (S1 i Ii) as (-> & _). destruct (HPS i Ii) as (_ & -> & _). reflexivity. }
  split; [constructor|].
  - rewrite EP. apply Forall_forall. intros pk Hp. apply in_flat_map in Hp. destruct Hp as (k & K & Hp). apply in_flat_map in Hp. destruct Hp as (i & Ii & [<-|[<-|[]]]); cbn [pkok]; auto.
  - intros i Ii. rewrite (D0 i Ii). apply good1_init. exact Ii.
  - intros i k Ii K. left. rewrite EP. apply in_flat_map. exists k. split; [exact K|]. apply in_flat_map. exists i. split; [exact Ii|]. left. reflexivity.
  - intros i Ii. cbn [dsenders flat_map]. rewrite app_nil_r, EP. clear -ND Ii. unfold qsrc. assert (X : forall L, flat_map (fun x => match x with QShare k i' _ => if (i' =? i)%nat then [Z.of_nat (k - 1)] else [] | _ => [] end)
        (flat_map (fun k => flat_map (fun i => [QCommit k i (dcom k); QShare k i (dshr k i)]) hon) L) = map (fun k => Z.of_nat (k - 1)) L).
    { induction L as [|k L IH]; [reflexivity|]. cbn [flat_map map]. rewrite flat_map_app, IH. change (Z.of_nat (k - 1) :: map (fun k => Z.of_nat (k - 1)) L) with ([Z.of_nat (k - 1)] ++ map (fun k => Z.of_nat (k - 1)) L). f_equal.
      clear IH. revert Ii ND. induction hon as [|a t IH]; intros Ii ND; [destruct Ii|]. inversion ND as [|? ? NI NL]; subst. cbn [flat_map app].
      assert (Z0 : forall t, ~ In i t -> flat_map (fun x => match x with QShare k i' _ => if (i' =? i)%nat then [Z.of_nat (k - 1)] else [] | _ => [] end) (flat_map (fun i => [QCommit k i (dcom k); QShare k i (dshr k i)]) t) = []).
      { clear. induction t as [|a t IH]; intros NI; [reflexivity|]. cbn [flat_map app]. destruct (Nat.eqb_spec a i) as [-> |]; [destruct NI; left; reflexivity|]. cbn [app]. apply IH. intros Q. apply NI. right. exact Q. }
      destruct (Nat.eqb_spec a i) as [-> |NE]; cbn [app].
      - rewrite Z0 by exact NI. reflexivity.
      - apply IH; [|exact NL]. destruct Ii; [congruence|assumption]. }
    rewrite X. reflexivity.
  - intros i Ii. rewrite (proj2 (S1 i Ii)), EP. rewrite (tot_flat _ _ O).
    2:{ intros k _. rewrite (tot_flat _ _ O); [lia|]. intros j _. reflexivity. }
    unfold total. rewrite (map_ext_in _ (fun _ => O)); [|intros k K; rewrite (D0 k K); reflexivity]. clear. induction hon; [reflexivity|]. cbn [map length]. unfold list_sum in *. cbn [fold_right] in *. lia.
  - intros i Ii CN. destruct (CN (proj2 (S1 i Ii))).
  - unfold tphi. rewrite EP. rewrite (tot_flat _ _ (h * 3)%nat).
    2:{ intros k _. rewrite (tot_flat _ _ 3%nat); [lia|]. intros j _. reflexivity. }
    unfold total. rewrite (map_ext_in _ (fun _ => h)); [|intros k K; rewrite (D0 k K); unfold pot1, has; cbn [dist_init d_wait d_share length]; lia].
    assert (X : forall (l : list nat) c, list_sum (map (fun _ => c) l) = (length l * c)%nat) by (clear; induction l; intros; [reflexivity|]; cbn [map length]; unfold list_sum in *; cbn [fold_right]; rewrite IHl; lia).
    rewrite X. lia.
Qed.

Lemma runs_inv n0 evs n : dist_starts cd ps hon n0 -> dnruns n0 evs n -> exists E, tinv n E /\ (length evs + tphi n <= 4 * h * h)%nat.
Proof.
  intros S0 R. induction R as [|evs n e n' R IH ST].
  - destruct (start_inv n0 S0) as (T & P). eexists. split; [exact T|]. cbn [length]. lia.
  - destruct IH as (E & T & P). destruct (step_ok n E e T) as (o & EO & OK). rewrite ST in EO. injection EO as <-. destruct OK as (E' & T' & LT). exists E'. split; [exact T'|].
    rewrite app_length. cbn [length]. lia.
Qed.

Lemma to_dquiet : forall k n E, (tphi n <= k)%nat -> tinv n E -> exists evs n', dnruns n evs n' /\ dquiet n'.
Proof.
  induction k as [k IH] using lt_wf_ind. intros n E LE T.
  assert (DEC : dquiet n \/ exists e n', dnstep n e = Ret (Some n')).
  { assert (CA : forall l, (forall e, In e l -> dnstep n e = Ret None) \/ exists e n', dnstep n e = Ret (Some n')).
    { induction l as [|e l IHl]; [left; intros e []|]. destruct IHl as [A|A]; [|right; exact A]. destruct (step_ok n E e T) as ([n'|] & EO & _); [right; eauto|].
      left. intros e' [<-|H]; auto. }
    destruct (CA (map TDeliver (seq 0 (length (m_post n))) ++ flat_map (fun i => map (TGo i) (seq 0 (length (d_wait (m_d n i))))) hon)) as [A|A]; [left|right; exact A].
    intros [x|i x].
    - destruct (le_lt_dec (length (m_post n)) x) as [L|L]; [unfold DistNetModel.dnstep; rewrite (proj2 (nth_error_None _ _) L); reflexivity|].
      apply A. apply in_or_app. left. apply in_map. apply in_seq. lia.
    - destruct (le_lt_dec (length (d_wait (m_d n i))) x) as [L|L]; [unfold DistNetModel.dnstep; rewrite (proj2 (nth_error_None _ _) L); destruct (existsb _ _); reflexivity|].
      destruct (existsb (Nat.eqb i) hon) eqn:EH; [|unfold DistNetModel.dnstep; rewrite EH; reflexivity]. apply existsb_exists in EH. destruct EH as (i' & Ii & EQ). apply Nat.eqb_eq in EQ. subst i'.
      apply A. apply in_or_app. right. apply in_flat_map. exists i. split; [exact Ii|]. apply in_map. apply in_seq. lia. }
  destruct DEC as [Q|(e & n1 & ST)]; [exists [], n; split; [constructor|exact Q]|].
  destruct (step_ok n E e T) as (o & EO & OK). rewrite ST in EO. injection EO as <-. destruct OK as (E' & T' & LT).
  destruct (IH (tphi n1) ltac:(lia) n1 E' (le_n _) T') as (evs & n' & R & Q). exists (e :: evs), n'. split; [|exact Q].
  clear -R ST. change (e :: evs) with ([e] ++ evs). induction R as [|evs n2 e2 n3 R IH S2]; [apply (dr_step _ _ _ _ _ _ [] n e n1); [constructor|exact ST]|].
  rewrite app_assoc. econstructor; [exact IH|exact S2].
Qed.
End Net.
