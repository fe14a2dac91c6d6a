(** The invariant of StageModel.v for all honest members together. *)

Require Import ZArith List Bool Arith Lia Permutation.
From Verif Require Import Prime Fr GoBase Poly PolyModel PolyProofs Biv GroupModel KzgModel KzgProofs.
From Verif Require Import CodecModel CodecProofs PartyModel PartySpec VssModel VssProofs BivProofs.
From Verif Require Import ReduceModel ReduceProofs.
From Verif Require Import ProacModel ProacProofs ProacRun ProacSig ProacRecover ProacDist ProacLinks.
From Verif Require Import ReshareModel ReshareProofs StageModel StageProofs RbcProofs.
Import ListNotations.
Local Open Scope F_scope.

Lemma put_same {A} (f : nat -> A) i a : put f i a i = a.
Proof. unfold put. rewrite Nat.eqb_refl. reflexivity. Qed.
Lemma put_other {A} (f : nat -> A) i a j : j <> i -> put f i a j = f j.
Proof. intros NE. unfold put. destruct (Nat.eqb_spec j i); [contradiction|reflexivity]. Qed.

Definition total {A} (f : A -> nat) (l : list A) : nat := list_sum (map f l).
Lemma total_app {A} (f : A -> nat) a b : total f (a ++ b) = (total f a + total f b)%nat.
Proof. unfold total. rewrite map_app, list_sum_app. reflexivity. Qed.
Lemma total_perm {A} (f : A -> nat) a b : Permutation a b -> total f a = total f b.
Proof. unfold total. induction 1; cbn [map list_sum fold_right]; unfold list_sum in *; cbn [fold_right]; lia. Qed.
Lemma total_put {A} (g : A -> nat) (f : nat -> A) i a l : NoDup l -> In i l -> (total (fun j => g (put f i a j)) l + g (f i) = total (fun j => g (f j)) l + g a)%nat.
Proof.
  intros ND I. apply in_split in I. destruct I as (l1 & l2 & ->). apply NoDup_remove_2 in ND.
  assert (S : forall l, ~ In i l -> total (fun j => g (put f i a j)) l = total (fun j => g (f j)) l).
  { intros l N. unfold total. f_equal. apply map_ext_in. intros j J. rewrite put_other; [reflexivity|]. intros ->. contradiction. }
  rewrite in_app_iff in ND. rewrite !total_app. unfold total at 2 4. cbn [map list_sum fold_right]. rewrite put_same. fold (list_sum (map (fun j => g (put f i a j)) l2)) (list_sum (map (fun j => g (f j)) l2)).
  fold (total (fun j => g (put f i a j)) l2) (total (fun j => g (f j)) l2). rewrite !S by tauto. unfold total, list_sum. lia.
Qed.

Definition ssrc (i : nat) (l : list packet) : list nat := flat_map (fun x => match x with PReshare k i' _ => if (i' =? i)%nat then [k] else [] | _ => [] end) l.
Definition rsrc (i : nat) (l : list packet) : list (Z * Z) :=
  flat_map (fun x => match x with PRecover j i' m => if (i' =? i)%nat then [(Z.of_nat (j - 1), rc_Index m)] else [] | _ => [] end) l.
Definition indexes (l : list (Z * ReshareMsg)) : list nat := map (fun x => index_of (fst x)) l.

Lemma nodup_flat_map {A B} (f : A -> list B) l : NoDup l -> (forall a, In a l -> NoDup (f a)) -> (forall a b x, In a l -> In b l -> In x (f a) -> In x (f b) -> a = b) -> NoDup (flat_map f l).
Proof.
  induction l as [|a l IH]; intros NL N1 N2; [constructor|]. inversion NL as [|? ? NI NL']; subst. cbn [flat_map]. apply RbcProofs.nodup_app_intro.
  - apply N1. left. reflexivity.
  - apply IH; [exact NL'|intros b Hb; apply N1; right; exact Hb|]. intros b c x Hb Hc. apply N2; right; assumption.
  - intros x X Y. apply in_flat_map in Y. destruct Y as (b & Hb & Y). rewrite (N2 a b x (or_introl eq_refl) (or_intror Hb) X Y) in NI. contradiction.
Qed.

Lemma perm4 {A} (a b c d : list A) : Permutation (a ++ (b ++ c) ++ d) (c ++ a ++ b ++ d).
Proof. pose proof (Permutation_app_swap_app (a ++ b) c d) as P. rewrite <- !app_assoc in P. rewrite <- app_assoc. exact P. Qed.

Lemma perm_add {A} (r b d v : list A) : Permutation (r ++ b) v -> Permutation ((r ++ d) ++ b) (d ++ v).
Proof. intros P. rewrite <- P. rewrite <- app_assoc. apply Permutation_app_swap_app. Qed.

Section Net.
Variables (cd : g1codec) (s : Fr) (ps : nat -> Party) (QB : nat -> list (list Fr)).
Variable sg : nat -> nat -> list Z.
Variables (sigok : nat -> list Z -> bool) (combine : nat -> list (list Z) -> list Z).
Variable hon : list nat.
Variables N F : nat.
Hypothesis HC : codec_ok cd.
Hypothesis HPS : forall i, In i hon -> party_wf s (ps i) /\ p_N (ps i) = N /\ p_F (ps i) = F /\ p_PID (ps i) = (i - 1)%nat.
Hypothesis HQ : forall k, bdeg F (2 * F) (QB k).
Hypothesis H0 : forall k, In k hon -> beval (QB k) 0 0 = 0.
Hypothesis HN : (Z.of_nat N < 2 ^ 32)%Z.
Hypothesis HH : forall k, In k hon -> (1 <= k <= N)%nat.
Hypothesis ND : NoDup hon.
Hypothesis HS : forall j k, In j hon -> In k hon -> sigok k (sg j k) = true.
Hypothesis HF : (2 * F + 1 <= length hon)%nat.
Definition polys (k : nat) : list (list Fr) := map (fun j => secy (QB k) (of_nat j)) (seq 1 (2 * F + 1)).
Variable st0 : nat -> pst.
Hypothesis E0 : forall i, In i hon -> proac_init (ps i) (polys i) = Ret (st0 i).
Local Notation h := (length hon).
Local Notation step := (nstep cd ps sg sigok combine hon).
Local Notation goodi i := (good cd s (ps i) QB sg sigok combine hon (st0 i)).
Local Notation rmsgi i := (rmsg cd s (ps i) QB sg).
Local Notation smsgi i := (smsg cd s (ps i) QB).
Local Notation votesi i := (votes cd s (ps i) QB sg).
Local Notation takeni i := (taken cd s (ps i) QB).
Local Notation vstepi i := (vstep_of cd ps sg sigok combine i).

(** The hypotheses of StageProofs.v for member i. *)
Lemma loc i : In i hon -> party_wf s (ps i) /\ (forall k, bdeg (p_F (ps i)) (2 * p_F (ps i)) (QB k)) /\ (p_PID (ps i) < p_N (ps i))%nat /\
  (Z.of_nat (p_N (ps i)) < 2 ^ 32)%Z /\ (forall k, In k hon -> (1 <= k <= p_N (ps i))%nat) /\ (p_PID (ps i) + 1 = i)%nat /\
  proac_init (ps i) (map (fun j => secy (QB (p_PID (ps i) + 1)) (of_nat j)) (seq 1 (2 * p_F (ps i) + 1))) = Ret (st0 i) /\
  forall v e, vstepi i v e = vstep cd (sg (p_PID (ps i) + 1)%nat) sigok combine (ps i) v e.
Proof.
  intros I. destruct (HPS i I) as (W & EN & EF & EP). pose proof (HH i I). assert (PI : (p_PID (ps i) + 1 = i)%nat) by lia. rewrite EN, EF, PI. split; [exact W|]. split; [exact HQ|]. split; [lia|]. split; [exact HN|]. split; [exact HH|]. split; [reflexivity|].
  split; [apply E0; exact I|]. reflexivity.
Qed.

Definition pk_ok (x : packet) : Prop :=
  match x with
  | PCommit k i d => In k hon /\ In i hon /\ d = commit_data cd s (ps i) QB k
  | PReshare k i m => In k hon /\ In i hon /\ m = smsgi i k
  | PRecover j i m => In j hon /\ In i hon /\ exists k, In k hon /\ m = rmsgi i j k
  end.

Definition voted (n : net) : list (Z * Z) :=
  flat_map (fun j => map (fun x => (Z.of_nat (j - 1), Z.of_nat (index_of (fst (key x))))) (n_votes n j)) hon.

Record ninv (n : net) (E : nat -> list vev) : Prop := {
  i_pk : Forall pk_ok (n_post n);
  i_good : forall i, In i hon -> goodi i (E i) (n_v n i) (n_votes n i);
  i_com : forall i k, In i hon -> In k hon -> (exists d, In (PCommit k i d) (n_post n)) \/ nth k (s_flgCom (v_st (n_v n i))) false = true;
  i_res : forall i, In i hon -> Permutation (ssrc i (n_post n) ++ indexes (takes (E i))) hon;
  i_rec : forall i, In i hon -> Permutation (rsrc i (n_post n) ++ sources (others (E i))) (voted n) }.

Definition w (x : packet) : nat := match x with PCommit _ _ _ => 1 | PReshare _ _ _ => 2 + 2 * h | PRecover _ _ _ => 2 end.
Definition phi (n : net) : nat := total w (n_post n) + total (fun i => pot hon (n_v n i)) hon.

Lemma nodup_voted n E : ninv n E -> NoDup (voted n).
Proof.
  intros I. unfold voted. pose proof (i_good _ _ I) as GG. revert GG. generalize (n_votes n). intros vo GG.
  assert (ONE : forall j, In j hon -> NoDup (map (fun x => index_of (fst (key x))) (vo j))).
  { intros j J. pose proof (GG j J) as G. pose proof (loc j J) as (W & HQ' & HP & HN' & HH' & PI & E0' & _).
    destruct (vruns_count _ _ _ _ _ _ _ _ _ (g_run _ _ _ _ _ _ _ _ _ _ _ _ G)) as (_ & PE & _). pose proof (g_ndt _ _ _ _ _ _ _ _ _ _ _ _ G) as NT. pose proof (g_take _ _ _ _ _ _ _ _ _ _ _ _ G) as AT.
    rewrite Forall_forall in AT. apply (Permutation_NoDup (Permutation_map fst PE)) in NT. rewrite map_app in NT. apply NoDup_app_r in NT.
    rewrite <- (map_map key (fun x => index_of (fst x))). rewrite <- (map_map fst index_of). apply nodup_map_in; [|exact NT].
    assert (KK : forall z, In z (map fst (map key (vo j))) -> exists k, In k hon /\ z = Z.of_nat (k - 1)).
    { intros z Z. apply in_map_iff in Z. destruct Z as (x & <- & X). destruct (AT x) as (k & K & ->); [|exists k; auto]. apply (Permutation_in _ (Permutation_sym PE)). apply in_or_app. right. exact X. }
    intros a b A B AB. destruct (KK a A) as (k & K & ->). destruct (KK b B) as (k' & K' & ->). rewrite (index_k (ps j) hon HP HN' HH' k K), (index_k (ps j) hon HP HN' HH' k' K') in AB. subst. reflexivity. }
  apply nodup_flat_map; [exact ND| |].
  - intros j J. rewrite <- (map_map (fun x => index_of (fst (key x))) (fun x => (Z.of_nat (j - 1), Z.of_nat x))). apply nodup_map_in; [|apply ONE; exact J]. intros a b _ _ AB. injection AB as AB. lia.
  - intros a b x A B XA XB. apply in_map_iff in XA. destruct XA as (y & <- & _). apply in_map_iff in XB. destruct XB as (z & XB & _). injection XB as XB _. pose proof (HH a A). pose proof (HH b B). lia.
Qed.

Definition olist {A} (o : option A) : list A := match o with Some a => [a] | None => [] end.

Lemma voted_put n i L v po : In i hon -> Permutation (voted (mkNet v (put (n_votes n) i (n_votes n i ++ L)) po)) (map (fun x => (Z.of_nat (i - 1), Z.of_nat (index_of (fst (key x))))) L ++ voted n).
Proof.
  intros I. unfold voted. cbn [n_votes]. apply in_split in I as I'. destruct I' as (l1 & l2 & EH).
  assert (N1 : ~ In i l1 /\ ~ In i l2). { pose proof ND as X. rewrite EH in X. apply NoDup_remove_2 in X. rewrite in_app_iff in X. tauto. }
  assert (SAME : forall l, ~ In i l -> flat_map (fun j => map (fun x => (Z.of_nat (j - 1), Z.of_nat (index_of (fst (key x))))) (put (n_votes n) i (n_votes n i ++ L) j)) l =
    flat_map (fun j => map (fun x => (Z.of_nat (j - 1), Z.of_nat (index_of (fst (key x))))) (n_votes n j)) l).
  { intros l NI. rewrite !flat_map_concat_map. f_equal. apply map_ext_in. intros j J. rewrite put_other; [reflexivity|]. intros ->. contradiction. }
  rewrite EH, !flat_map_app. cbn [flat_map]. rewrite !SAME by apply N1. rewrite put_same, map_app.
  set (A := flat_map _ l1). set (B := flat_map _ l2). set (C := map _ (n_votes n i)). set (D := map _ L).
  apply perm4.
Qed.

Lemma recovers_list i k : In i hon -> In k hon -> recovers hon i (Some (takeni i k, votesi i k)) = map (fun l => PRecover i l (rmsgi l i k)) hon.
Proof.
  intros I K. unfold recovers. cbn [fst snd]. assert (HL : incl hon hon) by (intros x; auto). revert HL. generalize hon at 1 3 4. intros L. induction L as [|l L IH]; intros HL; [reflexivity|]. cbn [flat_map map].
  rewrite IH by (intros x X; apply HL; right; exact X). assert (Ll : In l hon) by (apply HL; left; reflexivity). pose proof (HH l Ll).
  pose proof (loc i I) as (_ & _ & _ & _ & HH' & PI & _). pose proof (loc l Ll) as (_ & _ & _ & _ & _ & PL & _). unfold votes. rewrite nth_error_map_seq by (apply HH'; exact Ll).
  rewrite PI. unfold rmsg. rewrite PL. reflexivity.
Qed.

Lemma rsrc_app i a b : rsrc i (a ++ b) = rsrc i a ++ rsrc i b.
Proof. apply flat_map_app. Qed.
Lemma ssrc_app i a b : ssrc i (a ++ b) = ssrc i a ++ ssrc i b.
Proof. apply flat_map_app. Qed.
Lemma rsrc_perm i a b : Permutation a b -> Permutation (rsrc i a) (rsrc i b).
Proof. apply Permutation_flat_map. Qed.
Lemma ssrc_perm i a b : Permutation a b -> Permutation (ssrc i a) (ssrc i b).
Proof. apply Permutation_flat_map. Qed.

Lemma pick {A} (a : A) i l : NoDup l -> In i l -> flat_map (fun x => if (x =? i)%nat then [a] else []) l = [a].
Proof.
  induction l as [|x l IH]; intros NL I; [destruct I|]. inversion NL as [|? ? N1 N2]; subst. cbn [flat_map]. destruct (Nat.eqb_spec x i) as [->|NE].
  - cbn [app]. f_equal. clear IH I NL. induction l as [|y l IH]; [reflexivity|]. cbn [flat_map]. destruct (Nat.eqb_spec y i) as [->|NE]; [exfalso; apply N1; left; reflexivity|]. apply IH; [intros X; apply N1; right; exact X|inversion N2; assumption].
  - destruct I as [I|I]; [congruence|]. cbn [app]. apply IH; assumption.
Qed.

Lemma rsrc_recovers i k i' : In i hon -> In k hon -> In i' hon -> rsrc i' (recovers hon i (Some (takeni i k, votesi i k))) = [(Z.of_nat (i - 1), Z.of_nat k)].
Proof.
  intros I K I'. rewrite recovers_list by assumption. unfold rsrc. rewrite flat_map_concat_map, map_map, <- flat_map_concat_map. cbn [rmsg recover_msg rc_Index]. apply pick; assumption.
Qed.
Lemma ssrc_recovers i o i' : ssrc i' (recovers hon i o) = [].
Proof.
  unfold recovers. destruct o as [(x, ms)|]; [|reflexivity]. generalize hon. intros l. induction l as [|a l IH]; [reflexivity|]. cbn [flat_map]. rewrite ssrc_app, IH. destruct (nth_error ms (a - 1)); reflexivity.
Qed.

Lemma step_inv n E post i e v' o : ninv n E -> In i hon -> Forall pk_ok post ->
  goodi i (E i ++ [e]) v' (n_votes n i ++ olist o) -> (o = None \/ exists k, In k hon /\ o = Some (takeni i k, votesi i k)) ->
  (forall k, In k hon -> (exists d, In (PCommit k i d) post) \/ nth k (s_flgCom (v_st v')) false = true) ->
  (forall i' k, i' <> i -> (exists d, In (PCommit k i' d) (n_post n)) -> exists d, In (PCommit k i' d) post) ->
  Permutation (ssrc i post ++ indexes (takes (E i ++ [e]))) hon -> (forall i', i' <> i -> Permutation (ssrc i' post) (ssrc i' (n_post n))) ->
  Permutation (rsrc i post ++ sources (others (E i ++ [e]))) (voted n) -> (forall i', i' <> i -> Permutation (rsrc i' post) (rsrc i' (n_post n))) ->
  (total w post + pot hon v' + 2 * h * length (olist o) < total w (n_post n) + pot hon (n_v n i))%nat ->
  let n' := mkNet (put (n_v n) i v') (put (n_votes n) i (n_votes n i ++ olist o)) (post ++ recovers hon i o) in
  ninv n' (put E i (E i ++ [e])) /\ (phi n' < phi n)%nat.
Proof.
  intros I Ii PK G OO C1 C2 S1 S2 R1 R2 WT n'.
  assert (RO : forall i', In i' hon -> rsrc i' (recovers hon i o) = map (fun x => (Z.of_nat (i - 1), Z.of_nat (index_of (fst (key x))))) (olist o)).
  { intros i' I'. destruct OO as [-> |(k & K & ->)]; [reflexivity|]. rewrite rsrc_recovers by assumption. cbn [olist map key fst taken]. pose proof (loc i Ii) as (_ & _ & HP & HN' & HH' & _). rewrite (index_k (ps i) hon HP HN' HH' k K). reflexivity. }
  split.
  - constructor.
    + cbn [n' n_post]. apply Forall_app. split; [exact PK|]. destruct OO as [-> |(k & K & ->)]; [constructor|]. rewrite recovers_list by assumption. apply Forall_forall. intros x X. apply in_map_iff in X. destruct X as (l & <- & L).
      cbn [pk_ok]. split; [exact Ii|]. split; [exact L|]. exists k. auto.
    + intros i' I'. cbn [n' n_v n_votes]. destruct (Nat.eq_dec i' i) as [->|NE]; [rewrite !put_same; exact G|]. rewrite !put_other by exact NE. exact (i_good _ _ I i' I').
    + intros i' k I' K. cbn [n' n_v n_post]. destruct (Nat.eq_dec i' i) as [->|NE].
      * rewrite put_same. destruct (C1 k K) as [(d & X)|X]; [left; exists d; apply in_or_app; left; exact X|right; exact X].
      * rewrite put_other by exact NE. destruct (i_com _ _ I i' k I' K) as [X|X]; [|right; exact X]. left. destruct (C2 i' k NE X) as (d & Y). exists d. apply in_or_app. left. exact Y.
    + intros i' I'. cbn [n' n_post]. rewrite ssrc_app, ssrc_recovers, app_nil_r. destruct (Nat.eq_dec i' i) as [->|NE]; [rewrite put_same; exact S1|]. rewrite put_other by exact NE. rewrite (S2 i' NE). exact (i_res _ _ I i' I').
    + intros i' I'. unfold n' at 2. rewrite (voted_put n i (olist o) _ _ Ii). cbn [n' n_post]. rewrite rsrc_app, (RO i' I'). apply perm_add.
      destruct (Nat.eq_dec i' i) as [->|NE]; [rewrite put_same; exact R1|]. rewrite put_other by exact NE. rewrite (R2 i' NE). exact (i_rec _ _ I i' I').
  - unfold phi. cbn [n' n_post n_v]. rewrite total_app. pose proof (total_put (pot hon) (n_v n) i v' hon ND Ii) as TP.
    assert (WR : total w (recovers hon i o) = (2 * h * length (olist o))%nat).
    { destruct OO as [-> |(k & K & ->)]; [cbn [recovers olist length]; unfold total; cbn; lia|]. rewrite recovers_list by assumption. cbn [olist length]. unfold total. rewrite map_map. cbn [w].
      clear. generalize hon. intros l. induction l as [|x l IH]; [reflexivity|]. cbn [map list_sum fold_right length]. unfold list_sum in IH. lia. }
    lia.
Qed.

Lemma takes_snoc_other T e : takes (T ++ [VOther e]) = takes T.
Proof. rewrite takes_snoc, app_nil_r. reflexivity. Qed.

Lemma free_left n E i k : ninv n E -> In i hon -> In k (ssrc i (n_post n)) -> v_free (n_v n i) <> O /\ ~ In (Z.of_nat (k - 1)) (map fst (takes (E i))).
Proof.
  intros I Ii KS. pose proof (i_good _ _ I i Ii) as G. pose proof (i_res _ _ I i Ii) as P. pose proof (loc i Ii) as (_ & _ & HP & HN' & HH' & _). destruct (HPS i Ii) as (_ & EN & _).
  destruct (vruns_count _ _ _ _ _ _ _ _ _ (g_run _ _ _ _ _ _ _ _ _ _ _ _ G)) as (CN & _ & _).
  assert (LH : (h <= N)%nat). { rewrite <- (seq_length N 1). apply NoDup_incl_length; [exact ND|]. intros x X. apply in_seq. pose proof (HH x X). lia. }
  pose proof (Permutation_length P) as PL. rewrite app_length in PL. unfold indexes in PL. rewrite map_length in PL. split.
  - destruct (ssrc i (n_post n)) as [|a l] eqn:EL; [destruct KS|]. cbn [length] in PL. rewrite EN in CN. lia.
  - intros X. apply in_map_iff in X. destruct X as (y & EY & Y). pose proof (Permutation_NoDup (Permutation_sym P) ND) as NP.
    assert (KH : In k hon) by (apply (Permutation_in _ P); apply in_or_app; left; exact KS).
    assert (KI : In k (indexes (takes (E i)))). { unfold indexes. apply in_map_iff. exists y. split; [|exact Y]. rewrite EY. apply (index_k (ps i) hon HP HN' HH' k KH). }
    apply in_split in KS. destruct KS as (l1 & l2 & ES). rewrite ES in NP. rewrite <- app_assoc in NP. cbn [app] in NP. apply NoDup_remove_2 in NP. apply NP. apply in_or_app. right. apply in_or_app. right. exact KI.
Qed.

(** What a step adds to the Recover messages received: nothing, or the one that is delivered. *)
Definition came (n : net) (e : nev) (E E' : nat -> list vev) : Prop := forall i y, In y (sources (others (E' i))) ->
  In y (sources (others (E i))) \/ exists x j m, e = NDeliver x /\ nth_error (n_post n) x = Some (PRecover j i m) /\ y = (Z.of_nat (j - 1), rc_Index m).

Lemma came_same n e E i T : sources (others T) = sources (others (E i)) -> came n e E (put E i T).
Proof. intros X i' y Y. destruct (Nat.eq_dec i' i) as [->|NI]; [rewrite put_same, X in Y|rewrite put_other in Y by exact NI]; left; exact Y. Qed.

Lemma nstep_ok n E e : ninv n E -> exists o, step n e = Ret o /\ forall n', o = Some n' -> exists E', (ninv n' E' /\ (phi n' < phi n)%nat) /\ came n e E E'.
Proof.
  intros I. assert (STAY : forall e1 i e v' o, In i hon -> vstepi i (n_v n i) e = Ret (Some (v', o)) -> goodi i (E i ++ [e]) v' (n_votes n i ++ olist o) ->
    (o = None \/ exists k, In k hon /\ o = Some (takeni i k, votesi i k)) -> takes (E i ++ [e]) = takes (E i) -> sources (others (E i ++ [e])) = sources (others (E i)) ->
    (forall k, nth k (s_flgCom (v_st (n_v n i))) false = true -> nth k (s_flgCom (v_st v')) false = true) ->
    (pot hon v' + 2 * h * length (olist o) < pot hon (n_v n i))%nat ->
    exists o, member_step cd ps sg sigok combine hon n (n_post n) i e = Ret o /\ forall n', o = Some n' -> exists E', (ninv n' E' /\ (phi n' < phi n)%nat) /\ came n e1 E E').
  { intros e1 i e0 v' o Ii EV G OO ET EO FM PT. unfold member_step. rewrite EV. cbn [bind]. eexists. split; [reflexivity|]. intros n' EN. injection EN as <-. exists (put E i (E i ++ [e0])).
    split; [|apply came_same; exact EO]. apply step_inv; try assumption; try (intros; reflexivity).
    - exact (i_pk _ _ I).
    - intros k K. destruct (i_com _ _ I i k Ii K) as [X|X]; [left; exact X|right; apply FM; exact X].
    - auto.
    - rewrite ET. exact (i_res _ _ I i Ii).
    - rewrite EO. exact (i_rec _ _ I i Ii).
    - lia. }
  destruct e as [x|i k|i x|i|i]; cbn [nstep].
  - destruct (nth_error (n_post n) x) as [pk|] eqn:NE; [|exists None; split; [reflexivity|discriminate]].
    set (rem := firstn x (n_post n) ++ skipn (S x) (n_post n)).
    assert (PP : Permutation (n_post n) (pk :: rem)). { rewrite (split_at _ _ _ NE) at 1. symmetry. apply Permutation_middle. }
    assert (PK : pk_ok pk /\ Forall pk_ok rem). { pose proof (i_pk _ _ I) as A. apply (Permutation_Forall PP) in A. inversion A; subst. split; assumption. }
    destruct PK as (PK & PR). assert (SS : forall i', Permutation (ssrc i' (n_post n)) (ssrc i' [pk] ++ ssrc i' rem)). { intros i'. rewrite (ssrc_perm i' _ _ PP). change (pk :: rem) with ([pk] ++ rem). rewrite ssrc_app. reflexivity. }
    assert (RS : forall i', Permutation (rsrc i' (n_post n)) (rsrc i' [pk] ++ rsrc i' rem)). { intros i'. rewrite (rsrc_perm i' _ _ PP). change (pk :: rem) with ([pk] ++ rem). rewrite rsrc_app. reflexivity. }
    assert (WW : total w (n_post n) = (w pk + total w rem)%nat). { rewrite (total_perm w _ _ PP). reflexivity. }
    assert (CC : forall i' k, (exists d, In (PCommit k i' d) (n_post n)) -> (exists d, pk = PCommit k i' d) \/ exists d, In (PCommit k i' d) rem).
    { intros i' k (d & X). apply (Permutation_in _ PP) in X. destruct X as [X|X]; [left; exists d; exact X|right; exists d; exact X]. }
    destruct pk as [k i d|k i m|j i m]; cbn [pk_ok] in PK.
    + destruct PK as (K & Ii & ->). pose proof (loc i Ii) as (W & HQ' & HP & HN' & HH' & PI & E0' & VS).
      destruct (good_commit cd s (ps i) QB sg sigok combine hon HC W HQ' H0 HP HN' HH' (st0 i) E0' _ _ _ k (i_good _ _ I i Ii) K) as (v' & EV & G & FK & PT).
      unfold member_step. rewrite VS, EV. cbn [bind]. eexists. split; [reflexivity|]. intros n' EN. injection EN as <-.
      assert (FM : forall k', nth k' (s_flgCom (v_st (n_v n i))) false = true -> nth k' (s_flgCom (v_st v')) false = true).
      { intros k' X. destruct (vstep_other _ _ _ _ _ _ _ _ _ EV) as (_ & _ & ms & EP & _). exact (pstep_mono _ _ _ _ _ _ _ _ _ _ EP X). }
      exists (put E i (E i ++ [VOther (EvCommit k (commit_data cd s (ps i) QB k))])). split; [|apply came_same; rewrite snoc_others, sources_snoc; apply app_nil_r]. apply (step_inv n E rem i (VOther (EvCommit k (commit_data cd s (ps i) QB k))) v' None); try assumption; rewrite ?takes_snoc_other, ?snoc_others, ?sources_snoc, ?app_nil_r.
      * cbn [olist]; rewrite ?app_nil_r; exact G.
      * left. reflexivity.
      * intros k' K'. destruct (i_com _ _ I i k' Ii K') as [X|X]; [|right; apply FM; exact X]. destruct (CC _ _ X) as [(d & Y)|Y]; [|left; exact Y]. injection Y as -> _. right. exact FK.
      * intros i' k' NI X. destruct (CC _ _ X) as [(d & Y)|Y]; [|exact Y]. congruence.
      * pose proof (SS i) as P. cbn [ssrc flat_map app] in P. fold (ssrc i rem) in P. rewrite <- P. exact (i_res _ _ I i Ii).
      * intros i' _. pose proof (SS i') as P. symmetry. exact P.
      * pose proof (RS i) as P. cbn [rsrc flat_map app] in P. fold (rsrc i rem) in P. rewrite <- P. exact (i_rec _ _ I i Ii).
      * intros i' _. pose proof (RS i') as P. symmetry. exact P.
      * rewrite PT, WW. cbn [w olist length]. lia.
    + destruct PK as (K & Ii & ->). pose proof (loc i Ii) as (W & HQ' & HP & HN' & HH' & PI & E0' & VS).
      pose proof (SS i) as P. cbn [ssrc flat_map app] in P. fold (ssrc i rem) in P. rewrite Nat.eqb_refl in P. cbn [app] in P.
      destruct (free_left n E i k I Ii) as (FR & NT). { apply (Permutation_in _ (Permutation_sym P)). left. reflexivity. }
      destruct (good_take cd s (ps i) QB sg sigok combine hon HC W HQ' HP HN' HH' (st0 i) E0' _ _ _ k (i_good _ _ I i Ii) K FR NT) as (v' & o & EV & G & CO & ES).
      unfold member_step. rewrite VS, EV. cbn [bind]. eexists. split; [reflexivity|]. intros n' EN. injection EN as <-.
      exists (put E i (E i ++ [VTake (Z.of_nat (k - 1)) (smsgi i k)])). split; [|apply came_same; rewrite others_snoc; cbn [app]; rewrite ?app_nil_r; reflexivity]. apply (step_inv n E rem i (VTake (Z.of_nat (k - 1)) (smsgi i k)) v' o); try assumption; rewrite ?takes_snoc, ?others_snoc, ?app_nil_r.
      * destruct CO as [(-> & _)|(-> & _)]; [left; reflexivity|right; exists k; auto].
      * intros k' K'. rewrite ES. destruct (i_com _ _ I i k' Ii K') as [X|X]; [|right; exact X]. destruct (CC _ _ X) as [(d & Y)|Y]; [discriminate|left; exact Y].
      * intros i' k' NI X. destruct (CC _ _ X) as [(d & Y)|Y]; [discriminate|exact Y].
      * unfold indexes. rewrite map_app. cbn [map fst]. rewrite (index_k (ps i) hon HP HN' HH' k K). rewrite app_assoc. rewrite <- Permutation_cons_append. change (k :: ssrc i rem ++ map (fun x => index_of (fst x)) (takes (E i))) with ((k :: ssrc i rem) ++ indexes (takes (E i))).
        rewrite <- P. exact (i_res _ _ I i Ii).
      * intros i' NI. pose proof (SS i') as P'. cbn [ssrc flat_map app] in P'. fold (ssrc i' rem) in P'. rewrite (proj2 (Nat.eqb_neq i i')) in P' by congruence. symmetry. exact P'.
      * pose proof (RS i) as P'. cbn [rsrc flat_map app] in P'. fold (rsrc i rem) in P'. rewrite <- P'. exact (i_rec _ _ I i Ii).
      * intros i' _. pose proof (RS i') as P'. symmetry. exact P'.
      * rewrite WW. cbn [w]. destruct CO as [(-> & PT)|(-> & PT)]; rewrite PT; cbn [olist length]; lia.
    + destruct PK as (J & Ii & k & K & ->). pose proof (loc i Ii) as (W & HQ' & HP & HN' & HH' & PI & E0' & VS).
      destruct (s_hold (v_st (n_v n i))) as [y|] eqn:EH; [exists None; split; [reflexivity|discriminate]|].
      pose proof (RS i) as P. cbn [rsrc flat_map app] in P. fold (rsrc i rem) in P. rewrite Nat.eqb_refl in P. cbn [app rmsg recover_msg rc_Index] in P.
      assert (NI : ~ In (Z.of_nat (j - 1), Z.of_nat k) (sources (others (E i)))).
      { pose proof (i_rec _ _ I i Ii) as PV. rewrite P in PV. apply Permutation_sym in PV. pose proof (Permutation_NoDup PV (nodup_voted n E I)) as NV.
        cbn [app] in NV. inversion NV as [|? ? N1 N2]; subst. intros X. apply N1. apply in_or_app. right. exact X. }
      destruct (good_recv cd s (ps i) QB sg sigok combine hon HC HP HH' (st0 i) _ _ _ j k (i_good _ _ I i Ii) J K EH NI) as (v' & EV & G & PT).
      unfold member_step. rewrite VS, EV. cbn [bind]. eexists. split; [reflexivity|]. intros n' EN. injection EN as <-.
      assert (FM : forall k', nth k' (s_flgCom (v_st (n_v n i))) false = true -> nth k' (s_flgCom (v_st v')) false = true).
      { intros k' X. destruct (vstep_other _ _ _ _ _ _ _ _ _ EV) as (_ & _ & ms & EP & _). exact (pstep_mono _ _ _ _ _ _ _ _ _ _ EP X). }
      exists (put E i (E i ++ [VOther (EvRecv (Z.of_nat (j - 1)) (rmsgi i j k))])). split.
      2:{ intros i' y Y. destruct (Nat.eq_dec i' i) as [->|NE']; [|rewrite put_other in Y by exact NE'; left; exact Y].
          rewrite put_same, snoc_others, sources_snoc in Y. apply in_app_or in Y. destruct Y as [Y|[<-|[]]]; [left; exact Y|right]. exists x, j, (rmsgi i j k). auto. }
      apply (step_inv n E rem i (VOther (EvRecv (Z.of_nat (j - 1)) (rmsgi i j k))) v' None); try assumption; rewrite ?takes_snoc_other, ?snoc_others, ?sources_snoc, ?app_nil_r.
      * cbn [olist]; rewrite ?app_nil_r; exact G.
      * left. reflexivity.
      * intros k' K'. destruct (i_com _ _ I i k' Ii K') as [X|X]; [|right; apply FM; exact X]. destruct (CC _ _ X) as [(d & Y)|Y]; [discriminate|left; exact Y].
      * intros i' k' NE' X. destruct (CC _ _ X) as [(d & Y)|Y]; [discriminate|exact Y].
      * pose proof (SS i) as P'. cbn [ssrc flat_map app] in P'. fold (ssrc i rem) in P'. rewrite <- P'. exact (i_res _ _ I i Ii).
      * intros i' _. pose proof (SS i') as P'. symmetry. exact P'.
      * cbn [rmsg recover_msg rc_Index]. rewrite app_assoc, <- Permutation_cons_append. change ((Z.of_nat (j - 1), Z.of_nat k) :: rsrc i rem ++ sources (others (E i))) with (((Z.of_nat (j - 1), Z.of_nat k) :: rsrc i rem) ++ sources (others (E i))).
        rewrite <- P. exact (i_rec _ _ I i Ii).
      * intros i' NE'. pose proof (RS i') as P'. cbn [rsrc flat_map app] in P'. fold (rsrc i' rem) in P'. rewrite (proj2 (Nat.eqb_neq i i')) in P' by congruence. symmetry. exact P'.
      * rewrite PT, WW. cbn [w olist length]. lia.
  - destruct (existsb (Nat.eqb i) hon) eqn:EX; [|exists None; split; [reflexivity|discriminate]]. apply existsb_exists in EX. destruct EX as (i' & Ii & EI). apply Nat.eqb_eq in EI. subst i'.
    pose proof (loc i Ii) as (W & HQ' & HP & HN' & HH' & PI & E0' & VS). destruct (tell_total cd (ps i) sg sigok combine (n_v n i) k) as (o & EV).
    destruct o as [(v', o)|]; [|exists None; split; [unfold member_step; rewrite VS, EV; reflexivity|discriminate]].
    destruct (good_tell _ _ _ _ _ _ _ _ HP _ _ _ _ _ _ _ (i_good _ _ I i Ii) EV) as (-> & G & PT & ES).
    apply (STAY _ i (VTell k) v' None Ii); rewrite ?takes_snoc, ?others_snoc, ?app_nil_r; try reflexivity.
    + rewrite VS. exact EV.
    + cbn [olist]; rewrite ?app_nil_r; exact G.
    + left. reflexivity.
    + rewrite ES. auto.
    + cbn [olist length]. lia.
  - destruct (existsb (Nat.eqb i) hon) eqn:EX; [|exists None; split; [reflexivity|discriminate]]. apply existsb_exists in EX. destruct EX as (i' & Ii & EI). apply Nat.eqb_eq in EI. subst i'.
    pose proof (loc i Ii) as (W & HQ' & HP & HN' & HH' & PI & E0' & VS).
    destruct (wake_total cd s (ps i) QB sg sigok combine hon HC W HQ' HP HN' HH' (st0 i) E0' _ _ _ x (i_good _ _ I i Ii)) as (o & EV).
    destruct o as [(v', o)|]; [|exists None; split; [unfold member_step; rewrite VS, EV; reflexivity|discriminate]].
    destruct (good_wake cd s (ps i) QB sg sigok combine hon HC W HQ' HP HN' HH' (st0 i) E0' _ _ _ x v' o (i_good _ _ I i Ii) EV) as (k & K & -> & G & PT & ES).
    apply (STAY _ i (VWake x) v' (Some (takeni i k, votesi i k)) Ii); rewrite ?takes_snoc, ?others_snoc, ?app_nil_r; try reflexivity.
    + rewrite VS. exact EV.
    + exact G.
    + right. exists k. auto.
    + rewrite ES. auto.
    + cbn [olist length]. lia.
  - destruct (existsb (Nat.eqb i) hon) eqn:EX; [|exists None; split; [reflexivity|discriminate]]. apply existsb_exists in EX. destruct EX as (i' & Ii & EI). apply Nat.eqb_eq in EI. subst i'.
    destruct (can_handle (v_st (n_v n i))) eqn:CH; [|exists None; split; [reflexivity|discriminate]]. cbn [andb].
    pose proof (loc i Ii) as (W & HQ' & HP & HN' & HH' & PI & E0' & VS).
    destruct (good_handle cd s (ps i) QB sg sigok combine hon HC W HQ' HP HN' HH' HS (st0 i) E0' _ _ _ (i_good _ _ I i Ii) CH) as (v' & EV & G & PT).
    apply (STAY _ i (VOther EvHandle) v' None Ii); rewrite ?takes_snoc_other, ?snoc_others, ?sources_snoc, ?app_nil_r; try reflexivity.
    + rewrite VS. exact EV.
    + cbn [olist]; rewrite ?app_nil_r; exact G.
    + left. reflexivity.
    + intros k' X. destruct (vstep_other _ _ _ _ _ _ _ _ _ EV) as (_ & _ & ms & EP & _). exact (pstep_mono _ _ _ _ _ _ _ _ _ _ EP X).
    + cbn [olist length]. lia.
  - destruct (existsb (Nat.eqb i) hon) eqn:EX; [|exists None; split; [reflexivity|discriminate]]. apply existsb_exists in EX. destruct EX as (i' & Ii & EI). apply Nat.eqb_eq in EI. subst i'.
    destruct (s_busy (v_st (n_v n i))) eqn:CH; [|exists None; split; [reflexivity|discriminate]]. cbn [andb].
    pose proof (loc i Ii) as (W & HQ' & HP & HN' & HH' & PI & E0' & VS).
    destruct (good_agreed cd s (ps i) QB sg sigok combine hon HC W HQ' HP HN' HH' (st0 i) E0' _ _ _ (i_good _ _ I i Ii) CH) as (v' & EV & G & PT).
    apply (STAY _ i (VOther EvMVBA) v' None Ii); rewrite ?takes_snoc_other, ?snoc_others, ?sources_snoc, ?app_nil_r; try reflexivity.
    + rewrite VS. exact EV.
    + cbn [olist]; rewrite ?app_nil_r; exact G.
    + left. reflexivity.
    + intros k' X. destruct (vstep_other _ _ _ _ _ _ _ _ _ EV) as (_ & _ & ms & EP & _). exact (pstep_mono _ _ _ _ _ _ _ _ _ _ EP X).
    + cbn [olist length]. lia.
Qed.

(** What happens at the end of a run. *)
Definition quiet (n : net) : Prop := forall e, (forall i, e <> NAgreed i) -> step n e = Ret None.

(** The same with the Recover messages to i delivered only for the dealers in [K i]. *)
Definition allowed (K : nat -> list nat) (n : net) (e : nev) : bool :=
  match e with
  | NDeliver x => match nth_error (n_post n) x with Some (PRecover _ i m) => existsb (Nat.eqb (Z.to_nat (rc_Index m))) (K i) | _ => true end
  | NAgreed _ => false
  | _ => true
  end.
Definition quiet_of (K : nat -> list nat) (n : net) : Prop := forall e, allowed K n e = true -> step n e = Ret None.

Lemma member_none n post i e v' o : vstepi i (n_v n i) e = Ret (Some (v', o)) -> member_step cd ps sg sigok combine hon n post i e <> Ret None.
Proof. intros E. unfold member_step. rewrite E. cbn [bind]. discriminate. Qed.

Lemma in_hon i : In i hon -> existsb (Nat.eqb i) hon = true.
Proof. intros I. apply existsb_exists. exists i. split; [exact I|apply Nat.eqb_refl]. Qed.

Lemma in_ssrc i k l : In k (ssrc i l) -> exists m, In (PReshare k i m) l.
Proof.
  intros H. apply in_flat_map in H. destruct H as (x & X & H). destruct x as [| k' i' m|]; try destruct H. destruct (i' =? i)%nat eqn:E; [|destruct H]. apply Nat.eqb_eq in E. subst i'.
  destruct H as [<-|[]]. exists m. exact X.
Qed.
Lemma in_rsrc i k l : In k (rsrc i l) -> exists j m, In (PRecover j i m) l /\ k = (Z.of_nat (j - 1), rc_Index m).
Proof.
  intros H. apply in_flat_map in H. destruct H as (x & X & H). destruct x as [| |j i' m]; try destruct H. destruct (i' =? i)%nat eqn:E; [|destruct H]. apply Nat.eqb_eq in E. subst i'.
  destruct H as [<-|[]]. exists j, m. split; [exact X|reflexivity].
Qed.
Lemma empty {A} (l : list A) : (forall x, ~ In x l) -> l = [].
Proof. destruct l as [|a l]; [reflexivity|]. intros H. destruct (H a). left. reflexivity. Qed.

Lemma quiet_nocom Kd n E : ninv n E -> quiet_of Kd n -> forall k i d, ~ In (PCommit k i d) (n_post n).
Proof.
  intros I Q. pose proof (i_pk _ _ I) as OK. rewrite Forall_forall in OK.
  intros k i d X. pose proof (OK _ X) as (K & Ii & ED). apply In_nth_error in X. destruct X as (x & X). pose proof (loc i Ii) as (W & HQ' & HP & HN' & HH' & PI & E0' & VS).
    pose proof (Q (NDeliver x) ltac:(cbn [allowed]; rewrite X; reflexivity)) as S. cbn [nstep] in S. rewrite X in S. revert S. rewrite ED.
    destruct (good_commit cd s (ps i) QB sg sigok combine hon HC W HQ' H0 HP HN' HH' (st0 i) E0' _ _ _ k (i_good _ _ I i Ii) K) as (v' & EV & _). eapply member_none. rewrite VS. exact EV.
Qed.

Lemma quiet_sent_of Kd n E : ninv n E -> quiet_of Kd n -> forall i, In i hon -> incl (Kd i) hon -> NoDup (Kd i) -> (F + 1 <= length (Kd i))%nat -> s_MVBASent (v_st (n_v n i)) = true.
Proof.
  intros I Q. pose proof (i_pk _ _ I) as OK. rewrite Forall_forall in OK.
  pose proof (quiet_nocom Kd n E I Q) as NC.
  assert (NR : forall k i m, ~ In (PReshare k i m) (n_post n)).
  { intros k i m X. pose proof (OK _ X) as (K & Ii & ED). assert (KS : In k (ssrc i (n_post n))). { apply in_flat_map. exists (PReshare k i m). split; [exact X|]. rewrite Nat.eqb_refl. left. reflexivity. }
    destruct (free_left n E i k I Ii KS) as (FR & NT). apply In_nth_error in X. destruct X as (x & X). pose proof (loc i Ii) as (W & HQ' & HP & HN' & HH' & PI & E0' & VS).
    pose proof (Q (NDeliver x) ltac:(cbn [allowed]; rewrite X; reflexivity)) as S. cbn [nstep] in S. rewrite X in S. revert S. rewrite ED.
    destruct (good_take cd s (ps i) QB sg sigok combine hon HC W HQ' HP HN' HH' (st0 i) E0' _ _ _ k (i_good _ _ I i Ii) K FR NT) as (v' & o & EV & _). eapply member_none. rewrite VS. exact EV. }
  assert (ID : forall i, In i hon -> idle cd (sg (p_PID (ps i) + 1)%nat) sigok combine (ps i) (n_v n i)).
  { intros i Ii. pose proof (loc i Ii) as (W & HQ' & HP & HN' & HH' & PI & E0' & VS). split.
    - intros k. destruct (tell_total cd (ps i) sg sigok combine (n_v n i) k) as (o & EV). rewrite EV. destruct o as [(v', o)|]; [|reflexivity]. exfalso.
      pose proof (Q (NTell i k) eq_refl) as S. cbn [nstep] in S. rewrite (in_hon i Ii) in S. revert S. eapply member_none. rewrite VS. exact EV.
    - intros x. destruct (wake_total cd s (ps i) QB sg sigok combine hon HC W HQ' HP HN' HH' (st0 i) E0' _ _ _ x (i_good _ _ I i Ii)) as (o & EV). rewrite EV. destruct o as [(v', o)|]; [|reflexivity]. exfalso.
      pose proof (Q (NWake i x) eq_refl) as S. cbn [nstep] in S. rewrite (in_hon i Ii) in S. revert S. eapply member_none. rewrite VS. exact EV. }
  assert (VO : forall j k, In j hon -> In k hon -> In (Z.of_nat (j - 1), Z.of_nat k) (voted n)).
  { intros j k J K. pose proof (loc j J) as (W & HQ' & HP & HN' & HH' & PI & E0' & VS). pose proof (i_good _ _ I j J) as G.
    assert (SE : ssrc j (n_post n) = []). { apply empty. intros y Y. destruct (in_ssrc _ _ _ Y) as (m & M). exact (NR _ _ _ M). }
    pose proof (i_res _ _ I j J) as P. rewrite SE in P. cbn [app] in P. pose proof (Permutation_in k (Permutation_sym P) K) as KI. unfold indexes in KI. apply in_map_iff in KI. destruct KI as (x & EX & X).
    pose proof (g_take _ _ _ _ _ _ _ _ _ _ _ _ G) as GT. pose proof GT as GT'. rewrite Forall_forall in GT. destruct (GT x X) as (k' & K' & ->). cbn [taken fst] in EX. rewrite (index_k (ps j) hon HP HN' HH' k' K') in EX. subst k'.
    destruct (good_inv cd s (ps j) QB sg sigok combine hon HC W HQ' HP HN' HH' (st0 j) E0' _ _ _ G) as (pevs & ((L1 & _) & _) & _).
    destruct (heard cd (sg (p_PID (ps j) + 1)%nat) sigok combine (ps j) (st0 j) (E j) (n_v n j) (n_votes n j) (Z.of_nat (k - 1)) (smsgi j k) (g_run _ _ _ _ _ _ _ _ _ _ _ _ G) L1 (g_ndt _ _ _ _ _ _ _ _ _ _ _ _ G)) as (ms & V).
    - intros y Y. destruct (GT y Y) as (k2 & K2 & ->). cbn [taken fst]. pose proof (HH k2 K2). lia.
    - exact (ID j J).
    - exact X.
    - rewrite (index_k (ps j) hon HP HN' HH' k K). destruct (i_com _ _ I j k J K) as [(d & D)|D]; [destruct (NC _ _ _ D)|exact D].
    - unfold voted. apply in_flat_map. exists j. split; [exact J|]. apply in_map_iff. eexists. split; [|exact V]. cbn [key fst]. rewrite (index_k (ps j) hon HP HN' HH' k K). reflexivity. }
  intros i Ii IK NK LK. destruct (s_MVBASent (v_st (n_v n i))) eqn:MS; [reflexivity|]. rewrite <- MS.
  pose proof (loc i Ii) as (W & HQ' & HP & HN' & HH' & PI & E0' & VS). pose proof (i_good _ _ I i Ii) as G. destruct (HPS i Ii) as (_ & _ & EF & _).
  assert (EH : s_hold (v_st (n_v n i)) = None).
  { destruct (s_hold (v_st (n_v n i))) as [x|] eqn:EH; [|reflexivity]. exfalso. destruct (g_hold _ _ _ _ _ _ _ _ _ _ _ _ G x EH) as (j & k & J & K & EX).
    destruct (good_inv cd s (ps i) QB sg sigok combine hon HC W HQ' HP HN' HH' (st0 i) E0' _ _ _ G) as (pevs & _ & _ & CA & _). destruct (CA MS) as (B & ST).
    assert (CH : can_handle (v_st (n_v n i)) = true). { unfold can_handle. rewrite EH, B, ST, EX. cbn [arrived ro_k]. rewrite (proj2 (Nat.leb_le 1 k)) by (pose proof (HH k K); lia).
      destruct (i_com _ _ I i k Ii K) as [(d & D)|D]; [destruct (NC _ _ _ D)|]. rewrite D. reflexivity. }
    pose proof (Q (NHandle i) eq_refl) as S. cbn [nstep] in S. rewrite (in_hon i Ii), CH in S. cbn [andb] in S. revert S.
    destruct (good_handle cd s (ps i) QB sg sigok combine hon HC W HQ' HP HN' HH' HS (st0 i) E0' _ _ _ G CH) as (v' & EV & _). eapply member_none. rewrite VS. exact EV. }
  assert (RE : forall j k, In k (Kd i) -> ~ In (Z.of_nat (j - 1), Z.of_nat k) (rsrc i (n_post n))).
  { intros j0 k0 K0 Y. destruct (in_rsrc _ _ _ Y) as (j & m & M & EY). pose proof (OK _ M) as (J & _ & k & K & ED). subst m.
    cbn [rmsg recover_msg rc_Index] in EY. injection EY as _ EK. apply Nat2Z.inj in EK. subst k0. apply In_nth_error in M. destruct M as (x & X).
    pose proof (Q (NDeliver x) ltac:(cbn [allowed]; rewrite X; cbn [rmsg recover_msg rc_Index]; rewrite Nat2Z.id; apply existsb_exists; exists k; split; [exact K0|apply Nat.eqb_refl])) as S. cbn [nstep] in S. rewrite X, EH in S. revert S.
    assert (NI : ~ In (Z.of_nat (j - 1), Z.of_nat k) (sources (others (E i)))).
    { pose proof (Permutation_NoDup (Permutation_sym (i_rec _ _ I i Ii)) (nodup_voted n E I)) as NV. intros Z. apply nth_error_In in X.
      assert (R : In (Z.of_nat (j - 1), Z.of_nat k) (rsrc i (n_post n))). { apply in_flat_map. eexists. split; [exact X|]. cbn beta iota. rewrite Nat.eqb_refl. left. reflexivity. }
      apply in_split in R. destruct R as (l1 & l2 & ER). rewrite ER in NV. rewrite <- app_assoc in NV. cbn [app] in NV. apply NoDup_remove_2 in NV. apply NV. apply in_or_app. right. apply in_or_app. right. exact Z. }
    destruct (good_recv cd s (ps i) QB sg sigok combine hon HC HP HH' (st0 i) _ _ _ j k G J K EH NI) as (v' & EV & _). eapply member_none. rewrite VS. exact EV. }
  apply (good_end_of cd s (ps i) QB sg sigok combine hon HC W HQ' HP HN' HH' ND (st0 i) E0' (Kd i) _ _ _ G); try rewrite EF; try assumption.
  intros j k J K. pose proof (i_rec _ _ I i Ii) as P. pose proof (Permutation_in _ (Permutation_sym P) (VO j k J (IK k K))) as X. apply in_app_or in X. destruct X as [X|X]; [destruct (RE j k K X)|exact X].
Qed.

Lemma quiet_sent n E : ninv n E -> quiet n -> forall i, In i hon -> s_MVBASent (v_st (n_v n i)) = true.
Proof.
  intros I Q i Ii. apply (quiet_sent_of (fun _ => hon) n E I); [|exact Ii|intros k K; exact K|exact ND|lia].
  intros e A. apply Q. intros i' ->. discriminate.
Qed.

Lemma runs_ok n0 E0' evs n : ninv n0 E0' -> nruns cd ps sg sigok combine hon n0 evs n -> exists E, ninv n E /\ (phi n + length evs <= phi n0)%nat.
Proof.
  intros I0 R. induction R as [|evs n e n' R IH S]; [exists E0'; split; [exact I0|cbn [length]; lia]|].
  destruct IH as (E & I & L). destruct (nstep_ok n E e I) as (o & EO & H). rewrite EO in S. injection S as ->. destruct (H n' eq_refl) as (E' & (I' & L') & _). exists E'. split; [exact I'|]. rewrite app_length. cbn [length]. lia.
Qed.

(** At the start. *)
Lemma falses_repeat m : falses (repeat false m) = m.
Proof. unfold falses. induction m as [|m IH]; [reflexivity|]. cbn [repeat filter negb length]. rewrite IH. reflexivity. Qed.

Lemma total_const {A} (f : A -> nat) c l : (forall a, In a l -> f a = c) -> total f l = (length l * c)%nat.
Proof.
  unfold total. induction l as [|a l IH]; intros H; [reflexivity|]. cbn [map length]. change (list_sum (f a :: map f l)) with (f a + list_sum (map f l))%nat.
  rewrite IH by (intros b Hb; apply H; right; exact Hb). rewrite (H a (or_introl eq_refl)). lia.
Qed.
Lemma total_flat {A B} (f : B -> nat) (g : A -> list B) l : total f (flat_map g l) = total (fun a => total f (g a)) l.
Proof. unfold total. induction l as [|a l IH]; [reflexivity|]. cbn [flat_map map]. rewrite map_app, list_sum_app, IH. reflexivity. Qed.

Lemma start_ok n : starts cd ps polys hon n -> (forall i, In i hon -> st0 i = v_st (n_v n i)) ->
  ninv n (fun _ => []) /\ phi n = (h * (h * (3 + 2 * h)) + h * (N + 2))%nat.
Proof.
  intros (S1 & com & res & S2 & EP) ES.
  assert (LOC : forall i, In i hon -> goodi i [] (n_v n i) (n_votes n i) /\ pot hon (n_v n i) = (N + 2)%nat /\ n_votes n i = []).
  { intros i Ii. pose proof (loc i Ii) as (W & HQ' & HP & HN' & HH' & PI & E0' & VS). destruct (S1 i Ii) as (st & E1 & E2 & E3). destruct (HPS i Ii) as (_ & EN & EF & _).
    destruct (init_inv s (ps i) QB W HP (QB i) (HQ' i)) as (st' & Q1 & Q2 & Q3 & Q4 & Q5 & Q6 & Q7 & Q8 & Q9 & Q10 & Q11 & _). rewrite EF in Q1. fold (polys i) in Q1. rewrite E1 in Q1. injection Q1 as <-.
    assert (SI : st0 i = st) by (rewrite (ES i Ii), E2; reflexivity). rewrite E3, E2. split; [|split; [|reflexivity]].
    - rewrite <- SI. apply (good_init cd s (ps i) QB sg sigok combine hon (st0 i)); rewrite SI; assumption.
    - unfold pot, vote_init. cbn [v_told v_wait v_st length]. rewrite falses_repeat, Q5, Q7, EN. cbn [one]. lia. }
  assert (PK : forall k i, In k hon -> In i hon -> com k = commit_data cd s (ps i) QB k /\ nth (i - 1) (res k) (mkRS [] []) = smsgi i k).
  { intros k i K Ii. destruct (S2 k K) as (C1 & C2). destruct (HPS k K) as ((W1 & _) & EN & EF & _). destruct (HPS i Ii) as (_ & _ & EF' & EI). pose proof (HH i Ii) as Hi.
    rewrite EN in C2. rewrite EF in W1. unfold polys in C1, C2.
    rewrite (commit_send_correct cd s (p_KZG (ps k)) F (QB k) W1 (HQ k)) in C1. rewrite (reshare_send_correct cd s (p_KZG (ps k)) F (QB k) W1 (HQ k)) in C2.
    injection C1 as <-. injection C2 as <-. split; [unfold commit_data; rewrite EF'; reflexivity|].
    rewrite (nth_error_nth _ _ _ (nth_error_map_seq _ N i Hi)). unfold smsg, reshare_msg. rewrite EF', EI. replace (i - 1 + 1)%nat with i by lia. reflexivity. }
  split.
  - constructor.
    + apply Forall_forall. intros x X. rewrite EP in X. apply in_flat_map in X. destruct X as (k & K & X). apply in_flat_map in X. destruct X as (i & Ii & X). destruct (PK k i K Ii) as (P1 & P2).
      destruct X as [<-|[<-|[]]]; cbn [pk_ok]; auto.
    + intros i Ii. apply LOC, Ii.
    + intros i k Ii K. left. exists (com k). rewrite EP. apply in_flat_map. exists k. split; [exact K|]. apply in_flat_map. exists i. split; [exact Ii|]. left. reflexivity.
    + intros i Ii. cbn [takes indexes flat_map map]. rewrite app_nil_r, EP. clear - ND Ii.
      assert (INNER : forall k l, NoDup l -> In i l -> ssrc i (flat_map (fun i => [PCommit k i (com k); PReshare k i (nth (i - 1) (res k) (mkRS [] []))]) l) = [k]).
      { intros k l NL IL. rewrite <- (pick k i l NL IL). clear NL IL. induction l as [|a l IH]; [reflexivity|]. cbn [flat_map]. change (ssrc i ([PCommit k a (com k); PReshare k a (nth (a - 1) (res k) (mkRS [] []))] ++ flat_map (fun i => [PCommit k i (com k); PReshare k i (nth (i - 1) (res k) (mkRS [] []))]) l) = (if (a =? i)%nat then [k] else []) ++ flat_map (fun x => if (x =? i)%nat then [k] else []) l).
        rewrite ssrc_app, IH. cbn [ssrc flat_map app]. rewrite app_nil_r. reflexivity. }
      assert (OUT : forall l, ssrc i (flat_map (fun k => flat_map (fun i => [PCommit k i (com k); PReshare k i (nth (i - 1) (res k) (mkRS [] []))]) hon) l) = l).
      { intros l. induction l as [|k l IH]; [reflexivity|]. cbn [flat_map]. rewrite ssrc_app, IH, (INNER k hon ND Ii). reflexivity. }
      rewrite OUT. reflexivity.
    + intros i Ii. cbn [others sources flat_map]. rewrite app_nil_r.
      assert (R : rsrc i (n_post n) = []).
      { apply empty. intros y Y. destruct (in_rsrc _ _ _ Y) as (j & m & M & _). rewrite EP in M. apply in_flat_map in M. destruct M as (k & K & M). apply in_flat_map in M. destruct M as (a & A & [M|[M|[]]]); discriminate. }
      assert (V : voted n = []).
      { apply empty. intros y Y. unfold voted in Y. apply in_flat_map in Y. destruct Y as (j & J & Y). destruct (LOC j J) as (_ & _ & EV). rewrite EV in Y. destruct Y. }
      rewrite R, V. constructor.
  - unfold phi. rewrite (total_const _ (N + 2) hon) by (intros i Ii; apply LOC, Ii). rewrite EP, total_flat. f_equal. apply total_const. intros k K. rewrite total_flat. apply total_const. intros i Ii. unfold total. cbn [map list_sum fold_right w]. lia.
Qed.

(** There is a start. *)
Lemma start_exists : exists n, starts cd ps polys hon n.
Proof.
  exists (mkNet (fun i => vote_init (ps i) (st0 i)) (fun _ => []) (flat_map (fun k => flat_map (fun i => [PCommit k i (map (fun j => pcm_of cd (pc_of s (QB k) j)) (seq 1 (2 * F + 1)));
     PReshare k i (nth (i - 1) (map (fun a => mkRS (map (fun j => FrTo32 (beval (QB k) (of_nat a) (of_nat j))) (seq 1 (2 * F + 1)))
       (map (fun j => ToCompressedG1 cd (mkG1 (peval (wrow s (QB k) (of_nat a)) (of_nat j)))) (seq 1 (2 * F + 1)))) (seq 1 N)) (mkRS [] []))]) hon) hon)).
  split.
  - intros i Ii. exists (st0 i). split; [apply E0; exact Ii|]. split; reflexivity.
  - eexists. eexists. split; [|cbn [n_post]; reflexivity]. intros k K. destruct (HPS k K) as ((W1 & _) & EN & EF & _). rewrite EF in W1. rewrite EN. split.
    + apply (commit_send_correct cd s (p_KZG (ps k)) F (QB k) W1 (HQ k)).
    + apply (reshare_send_correct cd s (p_KZG (ps k)) F (QB k) W1 (HQ k)).
Qed.

Definition cands (n : net) : list nev :=
  map NDeliver (seq 0 (length (n_post n))) ++ flat_map (fun i => NHandle i :: map (NTell i) (seq 0 (length (v_told (n_v n i)))) ++ map (NWake i) (seq 0 (length (v_wait (n_v n i))))) hon.

Lemma cands_no_agreed n i : ~ In (NAgreed i) (cands n).
Proof.
  unfold cands. intros X. apply in_app_or in X. destruct X as [X|X]; [apply in_map_iff in X; destruct X as (? & ? & _); discriminate|].
  apply in_flat_map in X. destruct X as (j & _ & [X|X]); [discriminate|]. apply in_app_or in X. destruct X as [X|X]; apply in_map_iff in X; destruct X as (? & ? & _); discriminate.
Qed.

Lemma member_none_iff n post i e : vstepi i (n_v n i) e = Ret None -> member_step cd ps sg sigok combine hon n post i e = Ret None.
Proof. intros E. unfold member_step. rewrite E. reflexivity. Qed.

Lemma cands_all n e : (forall i, e <> NAgreed i) -> In e (cands n) \/ step n e = Ret None.
Proof.
  intros NA. destruct e as [x|i k|i x|i|i].
  - destruct (Nat.lt_ge_cases x (length (n_post n))) as [L|L].
    + left. unfold cands. apply in_or_app. left. apply in_map. apply in_seq. lia.
    + right. cbn [nstep]. rewrite (proj2 (nth_error_None (n_post n) x) L). reflexivity.
  - destruct (existsb (Nat.eqb i) hon) eqn:EX; [|right; cbn [nstep]; rewrite EX; reflexivity]. destruct (Nat.lt_ge_cases k (length (v_told (n_v n i)))) as [L|L].
    + apply existsb_exists in EX. destruct EX as (i' & Ii & EI). apply Nat.eqb_eq in EI. subst i'. left. unfold cands. apply in_or_app. right. apply in_flat_map. exists i. split; [exact Ii|]. right. apply in_or_app. left. apply in_map. apply in_seq. lia.
    + right. cbn [nstep]. rewrite EX. apply member_none_iff. unfold vstep_of. cbn [vstep]. rewrite (nth_overflow _ true L). cbn [negb]. rewrite andb_false_r. reflexivity.
  - destruct (existsb (Nat.eqb i) hon) eqn:EX; [|right; cbn [nstep]; rewrite EX; reflexivity]. destruct (Nat.lt_ge_cases x (length (v_wait (n_v n i)))) as [L|L].
    + apply existsb_exists in EX. destruct EX as (i' & Ii & EI). apply Nat.eqb_eq in EI. subst i'. left. unfold cands. apply in_or_app. right. apply in_flat_map. exists i. split; [exact Ii|]. right. apply in_or_app. right. apply in_map. apply in_seq. lia.
    + right. cbn [nstep]. rewrite EX. apply member_none_iff. unfold vstep_of. cbn [vstep]. rewrite (proj2 (nth_error_None _ x) L). reflexivity.
  - destruct (existsb (Nat.eqb i) hon) eqn:EX; [|right; cbn [nstep]; rewrite EX; reflexivity]. apply existsb_exists in EX. destruct EX as (i' & Ii & EI). apply Nat.eqb_eq in EI. subst i'. left. unfold cands. apply in_or_app. right. apply in_flat_map. exists i. split; [exact Ii|]. left. reflexivity.
  - destruct (NA i eq_refl).
Qed.

(** In every state that is not quiet some step that is allowed is possible. *)
Lemma progress_of K n E : ninv n E -> quiet_of K n \/ exists e n', allowed K n e = true /\ step n e = Ret (Some n').
Proof.
  intros I. assert (D : forall l, (forall e, In e l -> step n e = Ret None) \/ exists e n', In e l /\ step n e = Ret (Some n')).
  { induction l as [|e l IH]; [left; intros ? []|]. destruct (nstep_ok n E e I) as (o & EO & _). destruct o as [n'|]; [right; exists e, n'; split; [left; reflexivity|exact EO]|].
    destruct IH as [IH|(e' & n' & X & Y)]; [left; intros e' [<-|X]; [exact EO|apply IH; exact X]|right; exists e', n'; split; [right; exact X|exact Y]]. }
  destruct (D (filter (allowed K n) (cands n))) as [A|(e & n' & X & Y)].
  - left. intros e AE. destruct (cands_all n e) as [X|X]; [intros i ->; discriminate| |exact X]. apply A. apply filter_In. auto.
  - right. exists e, n'. apply filter_In in X. split; [apply X|exact Y].
Qed.

Lemma nruns_cons n e n1 evs n' : step n e = Ret (Some n1) -> nruns cd ps sg sigok combine hon n1 evs n' -> nruns cd ps sg sigok combine hon n (e :: evs) n'.
Proof.
  intros S R. induction R as [|evs a e2 b R IH S2]; [exact (nr_step _ _ _ _ _ _ _ [] _ _ _ (nr_nil _ _ _ _ _ _ _) S)|]. exact (nr_step _ _ _ _ _ _ _ (e :: evs) _ _ _ IH S2).
Qed.

Lemma to_quiet_of K m : forall n E, ninv n E -> (phi n <= m)%nat -> exists evs n' E', nruns cd ps sg sigok combine hon n evs n' /\ (forall i, ~ In (NAgreed i) evs) /\ ninv n' E' /\ quiet_of K n' /\
  forall i y, In y (sources (others (E' i))) -> In y (sources (others (E i))) \/ In (Z.to_nat (snd y)) (K i).
Proof.
  induction m as [|m IH]; intros n E I L; destruct (progress_of K n E I) as [Q|(e & n1 & AL & S)].
  - exists [], n, E. split; [constructor|]. split; [intros i []|auto].
  - destruct (nstep_ok n E e I) as (o & EO & H). rewrite EO in S. injection S as ->. destruct (H n1 eq_refl) as (E1 & (I1 & L1) & _). lia.
  - exists [], n, E. split; [constructor|]. split; [intros i []|auto].
  - destruct (nstep_ok n E e I) as (o & EO & H). rewrite EO in S. injection S as ->. destruct (H n1 eq_refl) as (E1 & (I1 & L1) & CM). destruct (IH n1 E1 I1 ltac:(lia)) as (evs & n' & E' & R & A & I' & Q & CM').
    exists (e :: evs), n', E'. split; [exact (nruns_cons n e n1 evs n' EO R)|]. split; [intros i [->|X]; [discriminate|exact (A i X)]|]. split; [exact I'|]. split; [exact Q|].
    intros i y Y. destruct (CM' i y Y) as [X|X]; [|right; exact X]. destruct (CM i y X) as [X'|(x & j & mm & -> & NE & ->)]; [left; exact X'|right].
    cbn [allowed] in AL. rewrite NE in AL. apply existsb_exists in AL. destruct AL as (k & K1 & K2). apply Nat.eqb_eq in K2. cbn [snd]. rewrite K2. exact K1.
Qed.

Lemma to_quiet n E : ninv n E -> exists evs n' E', nruns cd ps sg sigok combine hon n evs n' /\ (forall i, ~ In (NAgreed i) evs) /\ ninv n' E' /\ quiet_of (fun _ => hon) n'.
Proof. intros I. destruct (to_quiet_of (fun _ => hon) _ n E I (le_n _)) as (evs & n' & E' & R & A & I' & Q & _). exists evs, n', E'. auto. Qed.
End Net.
