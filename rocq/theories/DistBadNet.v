(** The invariant of DistNetModel.v for all honest members together, with packets of active corrupted members among
    those in flight. *)

Require Import ZArith List Bool Arith Lia Permutation.
From Verif Require Import Prime Fr GoBase Poly PolyModel PolyProofs Biv GroupModel KzgModel KzgProofs.
From Verif Require Import CodecModel CodecProofs PartyModel PartySpec VssModel VssProofs BivProofs.
From Verif Require Import ReduceModel ReduceProofs.
From Verif Require Import ProacModel ProacProofs ProacRun ProacSig ProacRecover ProacDist ProacLinks.
From Verif Require Import ReshareModel ReshareProofs RbcProofs StageModel StageProofs StageNet DistNetModel DistNetProofs.
Import ListNotations.
Local Open Scope F_scope.

Section Net.
Variables (cd : g1codec) (s : Fr) (ps : nat -> Party) (CQ : nat -> list G1) (B SB : list (list Fr)).
Variables hon cor : list nat.
Variable bad : list dpacket.
Variables N F : nat.
Local Notation B' := (badd B SB).
Hypothesis HC : codec_ok cd.
Hypothesis HPS : forall i, In i hon -> party_wf s (ps i) /\ p_N (ps i) = N /\ p_F (ps i) = F /\ p_PID (ps i) = (i - 1)%nat /\
  p_reducedShare (ps i) = secy B' (of_nat i).
Hypothesis HB : bdeg F (2 * F) B.
Hypothesis HS : bdeg F (2 * F) SB.
Hypothesis HO : forall i j, In i hon -> (1 <= j <= 2 * F + 1)%nat ->
  exists c, nth_error (PiContents (p_Proof (ps i))) j = Some c /\ CBj c = mkG1 (peval (secx B s) (of_nat j)).
Hypothesis HL : forall i, In i hon -> length (CQ i) = (N + 1)%nat.
Hypothesis HV : forall i j, In i hon -> (1 <= j <= N)%nat -> nth j (CQ i) ZeroG1 = mkG1 (peval (secx SB s) (of_nat j)).
Hypothesis HN : (Z.of_nat N < 2 ^ 32)%Z.
Hypothesis HH : forall k, In k hon -> (1 <= k <= N)%nat.
Hypothesis ND : NoDup hon.
Hypothesis HF : (2 * F + 1 <= length hon)%nat.
Hypothesis HX : forall k, In k cor -> (1 <= k <= N)%nat /\ ~ In k hon.
Local Notation h := (length hon).
Local Notation dnstep := (dnstep cd ps CQ F hon).
Local Notation dnruns := (dnruns cd ps CQ F hon).
Local Notation dcom := (dcom cd s B SB).
Local Notation dshr := (dshr cd s ps B SB).
Local Notation wt := DistNetProofs.wt.
Local Notation pot1 := (DistNetProofs.pot1 hon).
Local Notation tphi := (DistNetProofs.tphi hon).

(** The ShareDist message m from k to i does not open the commitment to a wrong value. *)
Definition fair (k i : nat) (m : ShareDistMsg) : Prop :=
  forall w, FromCompressedG1 cd (sd_WB m) = Some w ->
    CheckProofSingle (p_KZG (ps i)) (ncom s B SB k) w (me (ps i)) (FrFrom32_into 0 (to32 (sd_B m))) = Ret true ->
    FrFrom32_into 0 (to32 (sd_B m)) = beval B' (me (ps i)) (of_nat k).

Definition comok (k : nat) (d : list Z) : Prop := (In k hon /\ d = dcom k) \/ (In k cor /\ FromCompressedG1 cd d <> None).
Definition shrok (k i : nat) (m : ShareDistMsg) : Prop :=
  (In k hon /\ m = dshr k i) \/ (In k cor /\ FromCompressedG1 cd (sd_WB m) <> None /\ fair k i m).

Definition badok (x : dpacket) : Prop :=
  match x with
  | QCommit k i d => In i hon /\ In k cor /\ FromCompressedG1 cd d <> None
  | QShare k i m => In i hon /\ In k cor /\ FromCompressedG1 cd (sd_WB m) <> None /\ fair k i m
  | QSuccess k i => In i hon
  end.
Hypothesis HBAD : Forall badok bad.
Hypothesis HONCE : forall i, In i hon -> NoDup (qsrc i bad).

Lemma loc i : In i hon -> party_wf s (ps i) /\ bdeg (p_F (ps i)) (2 * p_F (ps i)) B /\ bdeg (p_F (ps i)) (2 * p_F (ps i)) SB /\
  (forall j, (1 <= j <= 2 * p_F (ps i) + 1)%nat ->
     exists c, nth_error (PiContents (p_Proof (ps i))) j = Some c /\ CBj c = mkG1 (peval (secx B s) (of_nat j))) /\
  length (CQ i) = (p_N (ps i) + 1)%nat /\
  (forall j, (1 <= j <= p_N (ps i))%nat -> nth j (CQ i) ZeroG1 = mkG1 (peval (secx SB s) (of_nat j))) /\
  (Z.of_nat (p_N (ps i)) < 2 ^ 32)%Z.
Proof. exact (DistNetProofs.loc s ps CQ B SB hon N F HPS HB HS HO HL HV HN i). Qed.

Lemma me_i i : In i hon -> me (ps i) = of_nat i.
Proof. exact (DistNetProofs.me_i s ps B SB hon N F HPS HH HF i). Qed.

Lemma com_pub k d : comok k d -> (1 <= k <= N)%nat /\ FromCompressedG1 cd d <> None.
Proof. intros [(K & ->)|(K & D)]; [split; [apply HH; exact K|unfold DistNetProofs.dcom; rewrite HC; discriminate]|split; [apply HX; exact K|exact D]]. Qed.

Lemma shr_dec k i m : shrok k i m -> (1 <= k <= N)%nat /\ FromCompressedG1 cd (sd_WB m) <> None.
Proof. intros [(K & ->)|(K & D & _)]; [split; [apply HH; exact K|unfold DistNetProofs.dshr, dmsg; cbn [sd_WB]; rewrite HC; discriminate]|split; [apply HX; exact K|exact D]]. Qed.

Definition evok (i : nat) (e : dev) : Prop :=
  match e with
  | DvCommit k d => comok k d
  | DvRecv z m => exists k, z = Z.of_nat (k - 1) /\ shrok k i m
  | DvGo _ => True
  end.

Lemma evok_ok i e : In i hon -> evok i e -> dv_ok cd s (ps i) B SB e /\ ev_decodes cd (ps i) e.
Proof.
  intros I. destruct (loc i I) as (W & B1 & B2 & _ & LC & _ & _). destruct (HPS i I) as (_ & EN & _).
  destruct e as [k d|z m|x]; cbn [evok dv_ok ev_decodes].
  - intros C. split; [exact Logic.I|apply (com_pub k d C)].
  - intros (k & -> & SK). destruct (shr_dec k i m SK) as (RK & DK). split; [|split; [rewrite EN; lia|exact DK]].
    intros j w EX Hj EW CH. unfold Xof in EX. rewrite Z.mod_small in EX by lia. assert (j = k) as -> by lia.
    destruct SK as [(K & ->)|(K & _ & FA)]; [|exact (FA w EW CH)].
    destruct (dmsg_ok cd s (ps i) B SB (CQ i) W B1 B2 LC HC k) as (M1 & M2 & M3). unfold DistNetProofs.dshr. exact M1.
  - auto.
Qed.

Definition good1 (i : nat) (E : list dev) (d : dst) : Prop :=
  drun cd (ps i) (CQ i) (dist_init N) E = Ret d /\ Forall (evok i) E /\ dinv cd s (ps i) B SB d /\ decodable cd (d_wait d).

Lemma good1_init i : In i hon -> good1 i [] (dist_init N).
Proof.
  intros I. destruct (loc i I) as (_ & _ & _ & _ & LC & _). split; [reflexivity|]. split; [constructor|]. destruct (HPS i I) as (_ & EN & _). split; [rewrite <- EN; apply (dinv_init _ _ _ _ _ _ LC)|].
  intros j m [].
Qed.

Lemma good1_step i E d e : In i hon -> good1 i E d -> evok i e ->
  exists d', dstep cd (ps i) (CQ i) d e = Ret d' /\ good1 i (E ++ [e]) d'.
Proof.
  intros I (R & A & D1 & D2) OK. destruct (loc i I) as (W & B1 & B2 & C1 & LC & VC & N1). destruct (evok_ok i e I OK) as (O1 & O2).
  destruct (dstep_total cd s (ps i) B SB (CQ i) W B1 B2 C1 LC VC N1 d e D1 D2 O2) as (d' & ES & D2'). exists d'. split; [exact ES|].
  split; [unfold drun in *; rewrite gofold_app, R; cbn [bind gofold]; rewrite ES; reflexivity|].
  split; [apply Forall_app; split; [exact A|constructor; [exact OK|constructor]]|]. split; [|exact D2'].
  eapply dstep_inv; eauto.
Qed.

Lemma good1_free i E d : In i hon -> good1 i E d -> NoDup (dsenders E) -> (d_free d + length (dsenders E) = N)%nat.
Proof.
  intros I (R & A & D1 & D2) NS. destruct (loc i I) as (W & B1 & B2 & C1 & LC & VC & N1). destruct (HPS i I) as (_ & EN & _).
  rewrite <- EN in R |- *.
  destruct (drun_prog cd s (ps i) B SB (CQ i) W B1 B2 C1 LC VC HC N1 E E [] (dist_init (p_N (ps i))) d eq_refl NS) as (_ & (PF & _)); auto.
  - intros z Hz. unfold dsenders in Hz. apply in_flat_map in Hz. destruct Hz as (e & He & Hz). destruct e as [|z' m|]; [destruct Hz| |destruct Hz].
    destruct Hz as [-> |[]]. rewrite Forall_forall in A. destruct (A _ He) as (k & -> & K). pose proof (shr_dec k i m K). lia.
  - eapply Forall_impl; [|exact A]. intros e He. apply (evok_ok i e I He).
  - apply (dinv_init cd s (ps i) B SB (CQ i)); assumption.
  - apply (prog_init cd s (ps i) B SB (CQ i)); assumption.
Qed.

Definition pids (i : nat) : list Z := map (fun k => Z.of_nat (k - 1)) hon ++ qsrc i bad.

Lemma qsrc_bad i z : In z (qsrc i bad) -> exists k, In k cor /\ z = Z.of_nat (k - 1).
Proof.
  unfold qsrc. intros X. apply in_flat_map in X. destruct X as (x & A & X). rewrite Forall_forall in HBAD. specialize (HBAD x A). destruct x as [|k i' m|]; [destruct X| |destruct X].
  destruct (i' =? i)%nat; [|destruct X]. destruct X as [<-|[]]. exists k. split; [apply HBAD|reflexivity].
Qed.

Lemma pids_nodup i : In i hon -> NoDup (pids i).
Proof.
  intros I. apply RbcProofs.nodup_app_intro.
  - apply nodup_map_in; [|exact ND]. intros a b Ha Hb. pose proof (HH a Ha). pose proof (HH b Hb). lia.
  - apply HONCE. exact I.
  - intros z Z1 Z2. apply in_map_iff in Z1. destruct Z1 as (k & <- & K). destruct (qsrc_bad _ _ Z2) as (k' & K' & E). pose proof (HH k K). destruct (HX k' K') as (R & NI).
    apply NI. assert (k' = k) as -> by lia. exact K.
Qed.

Lemma pids_range i z : In z (pids i) -> (0 <= z < Z.of_nat N)%Z.
Proof.
  intros X. apply in_app_or in X. destruct X as [X|X].
  - apply in_map_iff in X. destruct X as (k & <- & K). pose proof (HH k K). lia.
  - destruct (qsrc_bad _ _ X) as (k & K & ->). destruct (HX k K) as (R & _). lia.
Qed.

Lemma pids_length i : In i hon -> (length (pids i) <= N)%nat.
Proof.
  intros I. rewrite <- (seq_length N 0). rewrite <- (map_length Z.of_nat (seq 0 N)). apply NoDup_incl_length; [apply pids_nodup; exact I|].
  intros z X. pose proof (pids_range _ _ X). apply in_map_iff. exists (Z.to_nat z). split; [lia|]. apply in_seq. lia.
Qed.

Lemma good1_end i E d : In i hon -> good1 i E d -> Permutation (dsenders E) (pids i) ->
  (forall k, In k hon -> In (DvCommit k (dcom k)) E) ->
  (forall j m, In (j, m) (d_wait d) -> nth j (d_token d) false = false) ->
  d_share d = Some (secx B' (of_nat i)).
Proof.
  intros I (R & A & D1 & D2) PS PC QU. destruct (loc i I) as (W & B1 & B2 & C1 & LC & VC & N1). destruct (HPS i I) as (_ & EN & EF & _).
  rewrite <- (me_i i I). rewrite <- EN in R. rewrite Forall_forall in A.
  assert (NS : NoDup (dsenders E)) by (eapply Permutation_NoDup; [symmetry; exact PS|apply pids_nodup; exact I]).
  assert (RC : forall k m, In k hon -> In (DvRecv (Z.of_nat (k - 1)) m) E -> m = dshr k i).
  { intros k m K Hm. destruct (A _ Hm) as (k' & EZ & [(K' & ->)|(K' & _)]); pose proof (HH k K).
    - pose proof (HH k' K'). assert (k' = k) as -> by lia. reflexivity.
    - destruct (HX k' K') as (R' & NI). destruct NI. assert (k' = k) as -> by lia. exact K. }
  apply (dist_complete cd s (ps i) B SB (CQ i) W B1 B2 C1 LC VC HC N1 E d (firstn (2 * F + 1) hon) NS); auto.
  - intros z Hz. apply (Permutation_in _ PS) in Hz. rewrite EN. exact (pids_range i z Hz).
  - apply Forall_forall. intros e He. apply (evok_ok i e I). apply A. exact He.
  - rewrite <- (firstn_skipn (2 * F + 1) hon) in ND. clear -ND. revert ND. generalize (skipn (2 * F + 1) hon) as l2. generalize (firstn (2 * F + 1) hon) as l1. induction l1 as [|a l1 IH]; intros l2 H; [constructor|].
    cbn [app] in H. inversion H as [|? ? NI NL]; subst. constructor; [intros Q; apply NI; apply in_or_app; auto|]. eapply IH; exact NL.
  - rewrite firstn_length, EF. lia.
  - intros k K0. assert (K : In k hon) by (rewrite <- (firstn_skipn (2 * F + 1) hon); apply in_or_app; auto).
    pose proof (HH k K). split.
    + split; [lia|]. split; [apply PC; exact K|]. split; [|intros m Hm; apply RC; assumption].
      intros d0 Hd. destruct (A _ Hd) as [(_ & X)|(X & _)]; [exact X|]. destruct (HX k X) as (_ & NI). contradiction.
    + assert (Hz : In (Z.of_nat (k - 1)) (dsenders E)). { eapply Permutation_in; [symmetry; exact PS|]. apply in_or_app. left. apply in_map_iff. exists k. auto. }
      unfold dsenders in Hz. apply in_flat_map in Hz. destruct Hz as (e & He & Hz). destruct e as [|z' m|]; [destruct Hz| |destruct Hz].
      destruct Hz as [-> |[]]. rewrite (RC k m K He) in He. exact He.
Qed.

(** ** All members *)

Definition pkok (x : dpacket) : Prop :=
  match x with
  | QCommit k i d => In i hon /\ comok k d
  | QShare k i m => In i hon /\ shrok k i m
  | QSuccess k i => In i hon
  end.

Record tinv (n : dnet) (E : nat -> list dev) : Prop := {
  t_pk : Forall pkok (m_post n);
  t_good : forall i, In i hon -> good1 i (E i) (m_d n i);
  t_com : forall i k, In i hon -> In k hon -> In (QCommit k i (dcom k)) (m_post n) \/ In (DvCommit k (dcom k)) (E i);
  t_shr : forall i, In i hon -> Permutation (qsrc i (m_post n) ++ dsenders (E i)) (pids i);
  t_suc : forall i, In i hon -> (total (nsuc i) (m_post n) + m_count n i = total (fun k => has (m_d n k)) hon + total (nsuc i) bad)%nat;
  t_cnt : forall i, In i hon -> m_count n i <> O -> d_share (m_d n i) <> None }.

(** A step of member i that removes packets [out]. *)
Lemma member_ok n E i e post out : tinv n E -> In i hon -> evok i e -> Permutation (m_post n) (out ++ post) ->
  (forall l, total (nsuc l) out = 0%nat) ->
  (forall l, qsrc l out = if (l =? i)%nat then dsenders [e] else []) ->
  (forall k l d, In (QCommit k l d) out -> l = i /\ e = DvCommit k d) ->
  (forall d', dstep cd (ps i) (CQ i) (m_d n i) e = Ret d' ->
     (d_share d' = d_share (m_d n i) \/ d_share (m_d n i) = None /\ d_share d' <> None) /\
     (length (d_wait d') < total wt out + length (d_wait (m_d n i)))%nat) ->
  exists n' E', member_dist cd ps CQ hon n post i e = Ret (Some n') /\ tinv n' E' /\ (tphi n' < tphi n)%nat.
Proof.
  intros T Ii OK PP SU QS CO ST. destruct (good1_step i (E i) (m_d n i) e Ii (t_good _ _ T i Ii) OK) as (d' & ED & G').
  destruct (ST d' ED) as (SH & WT). pose proof (t_pk _ _ T) as PK. rewrite PP in PK. apply Forall_app in PK. destruct PK as (_ & PK).
  unfold member_dist. rewrite ED. cbn [bind]. set (su := successes hon i (m_d n i) d').
  exists (mkDnet (put (m_d n) i d') (m_count n) (post ++ su)), (put E i (E i ++ [e])). split; [reflexivity|].
  assert (SL : (has d' = has (m_d n i) /\ su = []) \/ (has (m_d n i) = 0%nat /\ has d' = 1%nat /\ su = map (fun l => QSuccess i l) hon)).
  { unfold su, has. destruct (suc_list hon i (m_d n i) d') as [(A & ->)|[(A & A' & ->)|(A & A')]]; [left; auto| |exfalso; destruct SH as [SH|(SH & _)]; congruence].
    right. rewrite A. destruct (d_share d'); [auto|congruence]. }
  assert (QSU : forall l, qsrc l su = []).
  { intros l. destruct SL as [(_ & ->)|(_ & _ & ->)]; [reflexivity|]. unfold qsrc. rewrite flat_map_concat_map, map_map. clear. induction hon; [reflexivity|cbn; assumption]. }
  split.
  - constructor; cbn [m_d m_count m_post].
    + apply Forall_app. split; [exact PK|]. destruct SL as [(_ & ->)|(_ & _ & ->)]; [constructor|]. apply Forall_forall. intros x Hx. apply in_map_iff in Hx.
      destruct Hx as (l & <- & L). exact L.
    + intros l L. destruct (Nat.eq_dec l i) as [-> |NE]; [rewrite !put_same; exact G'|]. rewrite !put_other by exact NE. apply (t_good _ _ T l L).
    + intros l k L K. destruct (t_com _ _ T l k L K) as [A|A].
      * apply (Permutation_in _ PP) in A. apply in_app_or in A. destruct A as [A|A]; [|left; apply in_or_app; left; exact A].
        destruct (CO _ _ _ A) as (-> & ->). right. rewrite put_same. apply in_or_app. right. left. reflexivity.
      * right. destruct (Nat.eq_dec l i) as [-> |NE]; [rewrite put_same; apply in_or_app; left; exact A|rewrite put_other by exact NE; exact A].
    + intros l L. pose proof (t_shr _ _ T l L) as P. rewrite (qsrc_perm l _ _ PP) in P. unfold qsrc in P. rewrite flat_map_app in P. fold (qsrc l out) (qsrc l post) in P.
      unfold qsrc at 1. rewrite flat_map_app. fold (qsrc l post) (qsrc l su). rewrite QSU, app_nil_r. rewrite QS in P.
      destruct (Nat.eqb_spec l i) as [-> |NE].
      * rewrite put_same. unfold dsenders at 1. rewrite flat_map_app. fold (dsenders (E i)) (dsenders [e]). rewrite <- P. rewrite app_assoc. rewrite (Permutation_app_comm _ (dsenders [e])). rewrite app_assoc. reflexivity.
      * rewrite put_other by exact NE. exact P.
    + intros l L. pose proof (t_suc _ _ T l L) as P. rewrite (total_perm _ _ _ PP), total_app, SU in P.
      pose proof (total_put has (m_d n) i d' hon ND Ii) as TP. rewrite total_app. destruct SL as [(A & ->)|(A & A' & ->)].
      * unfold total at 2. cbn [map list_sum fold_right]. lia.
      * rewrite (tot_suc_to hon ND). destruct (in_dec Nat.eq_dec l hon); [lia|contradiction].
    + intros l L CN. destruct (Nat.eq_dec l i) as [-> |NE]; [rewrite put_same|rewrite put_other by exact NE; apply (t_cnt _ _ T l L CN)].
      destruct SH as [-> |(_ & SH)]; [apply (t_cnt _ _ T i L CN)|exact SH].
  - unfold DistNetProofs.tphi. cbn [m_d m_post]. rewrite (total_perm wt _ _ PP), !total_app. pose proof (total_put pot1 (m_d n) i d' hon ND Ii) as TP. unfold DistNetProofs.pot1 at 2 4 in TP.
    destruct SL as [(A & ->)|(A & A' & ->)].
    + unfold total at 2. cbn [map list_sum fold_right]. rewrite A in TP. lia.
    + rewrite tot_wt_suc. rewrite A, A' in TP. lia.
Qed.

(** ** Steps *)

Lemma step_ok n E e : tinv n E -> exists o, dnstep n e = Ret o /\
  match o with None => True | Some n' => exists E', tinv n' E' /\ (tphi n' < tphi n)%nat end.
Proof.
  intros T. assert (WRAP : forall (g : go (option dnet)), (exists n' E', g = Ret (Some n') /\ tinv n' E' /\ (tphi n' < tphi n)%nat) ->
    exists o, g = Ret o /\ match o with None => True | Some n' => exists E', tinv n' E' /\ (tphi n' < tphi n)%nat end).
  { intros g (n' & E' & G & R). exists (Some n'). split; [exact G|]. exists E'. exact R. }
  destruct e as [x|i x]; unfold DistNetModel.dnstep.
  - destruct (nth_error (m_post n) x) as [pk|] eqn:EX; [|exists None; auto]. pose proof (take_out _ _ _ EX) as PP.
    set (post := firstn x (m_post n) ++ skipn (S x) (m_post n)) in *. pose proof (t_pk _ _ T) as PK. rewrite Forall_forall in PK. specialize (PK _ (nth_error_In _ _ EX)).
    destruct pk as [k i d|k i m|k i]; cbn [pkok] in PK.
    + destruct PK as (Ii & K). apply WRAP. apply (member_ok n E i (DvCommit k d) post [QCommit k i d]); auto.
      * intros l. cbn. destruct (l =? i)%nat; reflexivity.
      * intros k' l d' [Q|[]]. injection Q as <- <- <-. auto.
      * intros d' ED. cbn [dstep] in ED. destruct (commit_same _ _ _ _ _ _ _ ED) as (-> & ->). split; [left; reflexivity|]. cbn. lia.
    + destruct PK as (Ii & K). destruct (d_free (m_d n i)) eqn:EF; [exists None; auto|]. apply WRAP.
      apply (member_ok n E i (DvRecv (Z.of_nat (k - 1)) m) post [QShare k i m]); auto.
      * exists k. auto.
      * intros l. cbn. rewrite (Nat.eqb_sym i l). destruct (l =? i)%nat; reflexivity.
      * intros k' l d [Q|[]]. discriminate.
      * intros d' ED. cbn [dstep] in ED. destruct (recv_same _ _ _ _ _ ED) as (A & ->); [rewrite EF; discriminate|]. split; [left; reflexivity|]. rewrite A. cbn. lia.
    + rename PK into Ii. destruct (d_share (m_d n i)) as [f|] eqn:ESH; [|exists None; auto]. destruct (Nat.leb_spec (2 * F + 1) (m_count n i)) as [L|L]; [exists None; auto|].
      eexists. split; [reflexivity|]. exists E. split; [constructor; cbn [m_d m_count m_post]|].
      * pose proof (t_pk _ _ T) as A. rewrite PP in A. inversion A; assumption.
      * apply (t_good _ _ T).
      * intros l k' Hl Hk. destruct (t_com _ _ T l k' Hl Hk) as [A|A]; [|auto]. apply (Permutation_in _ PP) in A. destruct A as [A|A]; [discriminate|auto].
      * intros l Hl. pose proof (t_shr _ _ T l Hl) as P. rewrite (qsrc_perm l _ _ PP) in P. exact P.
      * intros l Hl. pose proof (t_suc _ _ T l Hl) as P. rewrite (total_perm _ _ _ PP) in P. unfold total at 1 in P. cbn [map] in P. unfold list_sum in P. cbn [fold_right nsuc] in P.
        fold (list_sum (map (nsuc l) post)) in P. fold (total (nsuc l) post) in P. unfold put. rewrite (Nat.eqb_sym l i). destruct (Nat.eqb_spec i l) as [-> |NE]; lia.
      * intros l Hl CN. destruct (Nat.eq_dec l i) as [-> |NE]; [rewrite ESH; discriminate|]. rewrite put_other in CN by exact NE. apply (t_cnt _ _ T l Hl CN).
      * unfold DistNetProofs.tphi. cbn [m_d m_post]. rewrite (total_perm wt _ _ PP). unfold total at 3. cbn [map]. unfold list_sum. cbn [fold_right wt]. fold (list_sum (map wt post)). fold (total wt post). lia.
  - destruct (existsb (Nat.eqb i) hon) eqn:EH; [|exists None; auto]. apply existsb_exists in EH. destruct EH as (i' & Ii & EQ). apply Nat.eqb_eq in EQ. subst i'.
    destruct (nth_error (d_wait (m_d n i)) x) as [(j & m)|] eqn:EX; [|exists None; auto]. destruct (nth j (d_token (m_d n i)) false) eqn:ET; [|exists None; auto].
    apply WRAP. apply (member_ok n E i (DvGo x) (m_post n) []); auto.
    + exact Logic.I.
    + intros l. cbn. destruct (l =? i)%nat; reflexivity.
    + intros k l d [].
    + intros d' ED. cbn [dstep] in ED. split; [eapply go_same; exact ED|]. destruct (t_good _ _ T i Ii) as (_ & _ & D1 & D2).
      destruct (loc i Ii) as (W & B1 & B2 & _ & LC & _). destruct (d_go_total cd s (ps i) B SB (CQ i) W B1 B2 LC (m_d n i) x D1 D2) as (d1 & ED1 & _ & SW).
      rewrite ED in ED1. injection ED1 as <-. rewrite EX in SW. cbn. apply SW. exact ET.
Qed.

Definition dquiet (n : dnet) : Prop := forall e, dnstep n e = Ret None.

Lemma quiet_end n E : tinv n E -> dquiet n -> forall i, In i hon -> d_share (m_d n i) = Some (secx B' (of_nat i)) /\ left_handoff F n i.
Proof.
  intros T Q.
  assert (NC : forall k i d, ~ In (QCommit k i d) (m_post n)).
  { intros k i d A. pose proof (t_pk _ _ T) as PK. rewrite Forall_forall in PK. destruct (PK _ A) as (Ii & K). apply In_nth_error in A. destruct A as (x & A). specialize (Q (TDeliver x)).
    unfold DistNetModel.dnstep in Q. rewrite A in Q. unfold member_dist in Q.
    destruct (good1_step i (E i) (m_d n i) (DvCommit k d) Ii (t_good _ _ T i Ii) K) as (d' & ED & _). rewrite ED in Q. discriminate. }
  assert (NQ : forall i, In i hon -> qsrc i (m_post n) = []).
  { intros i Ii. pose proof (t_shr _ _ T i Ii) as P. destruct (qsrc i (m_post n)) as [|z l] eqn:EQ; [reflexivity|exfalso].
    assert (Hz : In z (qsrc i (m_post n))) by (rewrite EQ; left; reflexivity). unfold qsrc in Hz. apply in_flat_map in Hz. destruct Hz as (pk & A & Hz).
    destruct pk as [|k i' m|]; [destruct Hz| |destruct Hz]. destruct (Nat.eqb_spec i' i) as [-> |]; [|destruct Hz].
    pose proof (t_pk _ _ T) as PK. rewrite Forall_forall in PK. destruct (PK _ A) as (_ & K). apply In_nth_error in A. destruct A as (x & A). specialize (Q (TDeliver x)).
    unfold DistNetModel.dnstep in Q. rewrite A in Q. destruct (d_free (m_d n i)) eqn:EF.
    - pose proof (pids_nodup i Ii) as NM.
      pose proof (Permutation_NoDup (Permutation_sym P) NM) as NP.
      assert (NS : NoDup (dsenders (E i))). { clear -NP. induction (z :: l) as [|a t IH]; [exact NP|]. apply IH. cbn [app] in NP. inversion NP; assumption. }
      pose proof (good1_free i _ _ Ii (t_good _ _ T i Ii) NS) as FR. pose proof (Permutation_length P) as PL. cbn [app length] in PL. rewrite app_length in PL. pose proof (pids_length i Ii) as HLN.
      lia.
    - unfold member_dist in Q. destruct (good1_step i (E i) (m_d n i) (DvRecv (Z.of_nat (k - 1)) m) Ii (t_good _ _ T i Ii)) as (d' & ED & _); [exists k; auto|]. rewrite ED in Q. discriminate. }
  assert (SH : forall i, In i hon -> d_share (m_d n i) = Some (secx B' (of_nat i))).
  { intros i Ii. apply (good1_end i (E i)); auto; [apply (t_good _ _ T i Ii)| | |].
    - pose proof (t_shr _ _ T i Ii) as P. rewrite NQ in P by exact Ii. exact P.
    - intros k K. destruct (t_com _ _ T i k Ii K) as [A|A]; [destruct (NC _ _ _ A)|exact A].
    - intros j m A. apply In_nth_error in A. destruct A as (x & A). specialize (Q (TGo i x)). unfold DistNetModel.dnstep in Q.
      assert (EH : existsb (Nat.eqb i) hon = true) by (apply existsb_exists; exists i; split; [exact Ii|apply Nat.eqb_refl]). rewrite EH, A in Q.
      destruct (nth j (d_token (m_d n i)) false); [exfalso|reflexivity]. unfold member_dist in Q.
      destruct (good1_step i (E i) (m_d n i) (DvGo x) Ii (t_good _ _ T i Ii) Logic.I) as (d' & ED & _). rewrite ED in Q. discriminate. }
  intros i Ii. split; [apply SH; exact Ii|]. unfold left_handoff. destruct (le_lt_dec (2 * F + 1) (m_count n i)) as [L|L]; [exact L|exfalso].
  pose proof (t_suc _ _ T i Ii) as P.
  assert (TH : total (fun k => has (m_d n k)) hon = h).
  { unfold total. rewrite (map_ext_in _ (fun _ => 1%nat)); [|intros k K; unfold has; rewrite (SH k K); reflexivity]. clear. induction hon; [reflexivity|]. cbn [map length]. unfold list_sum in *. cbn [fold_right]. lia. }
  assert (EX : exists pk, In pk (m_post n) /\ nsuc i pk <> 0%nat).
  { assert (PO : total (nsuc i) (m_post n) <> 0%nat) by lia. clear -PO. induction (m_post n) as [|a t IH]; [destruct (PO eq_refl)|].
    destruct (nsuc i a) eqn:EA; [|exists a; split; [left; reflexivity|rewrite EA; discriminate]].
    unfold total in *. cbn [map] in PO. unfold list_sum in *. cbn [fold_right] in PO. rewrite EA in PO. destruct (IH PO) as (pk & A & A'). exists pk. split; [right; exact A|exact A']. }
  destruct EX as (pk & A & A'). destruct pk as [| |k i']; cbn [nsuc] in A'; try congruence. destruct (Nat.eqb_spec i' i) as [-> |]; [|congruence].
  apply In_nth_error in A. destruct A as (x & A). specialize (Q (TDeliver x)). unfold DistNetModel.dnstep in Q. rewrite A, (SH i Ii) in Q.
  destruct (Nat.leb_spec (2 * F + 1) (m_count n i)); [lia|discriminate].
Qed.

(** ** The beginning *)

Local Notation with_bad n := (mkDnet (m_d n) (m_count n) (m_post n ++ bad)).

Lemma start_inv n : dist_starts cd ps hon n -> tinv (with_bad n) (fun _ => []) /\ tphi (with_bad n) = (4 * h * h + total wt bad)%nat.
Proof.
  intros S0. destruct (DistNetProofs.start_inv cd s ps CQ B SB hon N F HPS HB HS HO HL HV HN HH ND HF n S0) as (T & P). split.
  - constructor; cbn [m_d m_count m_post].
    + apply Forall_app. split.
      * eapply Forall_impl; [|exact (DistNetProofs.t_pk _ _ _ _ _ _ _ _ _ _ T)]. intros [k i d|k i m|k i]; cbn [DistNetProofs.pkok pkok].
        -- intros (A1 & A2 & A3). split; [exact A2|]. left. auto.
        -- intros (A1 & A2 & A3). split; [exact A2|]. left. auto.
        -- intros (A1 & A2). exact A2.
      * eapply Forall_impl; [|exact HBAD]. intros [k i d|k i m|k i]; cbn [badok pkok]; [| |auto].
        -- intros (A1 & A2). split; [exact A1|]. right. exact A2.
        -- intros (A1 & A2). split; [exact A1|]. right. exact A2.
    + intros i Ii. destruct (DistNetProofs.t_good _ _ _ _ _ _ _ _ _ _ T i Ii) as (G1 & G2 & G3 & G4). split; [exact G1|]. split; [constructor|]. split; [exact G3|exact G4].
    + intros i k Ii K. destruct (DistNetProofs.t_com _ _ _ _ _ _ _ _ _ _ T i k Ii K) as [A|A]; [left; apply in_or_app; left; exact A|right; exact A].
    + intros i Ii. pose proof (DistNetProofs.t_shr _ _ _ _ _ _ _ _ _ _ T i Ii) as A. cbn [dsenders flat_map] in *. rewrite app_nil_r in *. unfold pids. unfold qsrc at 1. rewrite flat_map_app.
      fold (qsrc i (m_post n)) (qsrc i bad). apply Permutation_app_tail. exact A.
    + intros i Ii. pose proof (DistNetProofs.t_suc _ _ _ _ _ _ _ _ _ _ T i Ii) as A. rewrite total_app. lia.
    + exact (DistNetProofs.t_cnt _ _ _ _ _ _ _ _ _ _ T).
  - unfold DistNetProofs.tphi in *. cbn [m_d m_post]. rewrite total_app. lia.
Qed.

Lemma runs_inv n0 evs n : dist_starts cd ps hon n0 -> dnruns (with_bad n0) evs n -> exists E, tinv n E /\ (length evs + tphi n <= 4 * h * h + total wt bad)%nat.
Proof.
  intros S0 R. induction R as [|evs n e n' R IH ST].
  - destruct (start_inv n0 S0) as (T & P). eexists. split; [exact T|]. cbn [length]. lia.
  - destruct IH as (E & T & P). destruct (step_ok n E e T) as (o & EO & OK). rewrite ST in EO. injection EO as <-. destruct OK as (E' & T' & LT). exists E'. split; [exact T'|].
    rewrite app_length. cbn [length]. lia.
Qed.

Lemma to_dquiet : forall k n E, (tphi n <= k)%nat -> tinv n E -> exists evs n', dnruns n evs n' /\ dquiet n'.
Proof.
  induction k as [k IH] using lt_wf_ind. intros n E LE T.
  assert (DEC : dquiet n \/ exists e n', dnstep n e = Ret (Some n')).
  { assert (CA : forall l, (forall e, In e l -> dnstep n e = Ret None) \/ exists e n', dnstep n e = Ret (Some n')).
    { induction l as [|e l IHl]; [left; intros e []|]. destruct IHl as [A|A]; [|right; exact A]. destruct (step_ok n E e T) as ([n'|] & EO & _); [right; eauto|].
      left. intros e' [<-|H]; auto. }
    destruct (CA (map TDeliver (seq 0 (length (m_post n))) ++ flat_map (fun i => map (TGo i) (seq 0 (length (d_wait (m_d n i))))) hon)) as [A|A]; [left|right; exact A].
    intros [x|i x].
    - destruct (le_lt_dec (length (m_post n)) x) as [L|L]; [unfold DistNetModel.dnstep; rewrite (proj2 (nth_error_None _ _) L); reflexivity|].
      apply A. apply in_or_app. left. apply in_map. apply in_seq. lia.
    - destruct (le_lt_dec (length (d_wait (m_d n i))) x) as [L|L]; [unfold DistNetModel.dnstep; rewrite (proj2 (nth_error_None _ _) L); destruct (existsb _ _); reflexivity|].
      destruct (existsb (Nat.eqb i) hon) eqn:EH; [|unfold DistNetModel.dnstep; rewrite EH; reflexivity]. apply existsb_exists in EH. destruct EH as (i' & Ii & EQ). apply Nat.eqb_eq in EQ. subst i'.
      apply A. apply in_or_app. right. apply in_flat_map. exists i. split; [exact Ii|]. apply in_map. apply in_seq. lia. }
  destruct DEC as [Q|(e & n1 & ST)]; [exists [], n; split; [constructor|exact Q]|].
  destruct (step_ok n E e T) as (o & EO & OK). rewrite ST in EO. injection EO as <-. destruct OK as (E' & T' & LT).
  destruct (IH (tphi n1) ltac:(lia) n1 E' (le_n _) T') as (evs & n' & R & Q). exists (e :: evs), n'. split; [|exact Q].
  clear -R ST. change (e :: evs) with ([e] ++ evs). induction R as [|evs n2 e2 n3 R IH S2]; [apply (dr_step _ _ _ _ _ _ [] n e n1); [constructor|exact ST]|].
  rewrite app_assoc. econstructor; [exact IH|exact S2].
Qed.
End Net.
