(** C81: as C75, while the corrupted members of the new committee take part. *)

Require Import ZArith List Bool Arith Lia Permutation.
From Verif Require Import Prime Fr GoBase Poly PolyModel PolyProofs Biv GroupModel KzgModel KzgProofs.
From Verif Require Import CodecModel CodecProofs PartyModel PartySpec VssModel VssProofs BivProofs.
From Verif Require Import ReduceModel ReduceProofs PropertiesVss PropertiesReduce.
From Verif Require Import ProacModel ProacProofs ProacRun ProacSig ProacRecover ProacDist ProacLinks.
From Verif Require Import PropertiesProac ReshareModel ReshareProofs StageModel StageProofs StageNet StageBadProofs StageBadNet PropertiesStage.
From Verif Require Import VssProofs2 PropertiesDist PropertiesRefresh StageSplit PropertiesSplit DistNetModel DistNetProofs PropertiesFinish.
Import ListNotations.
Local Open Scope F_scope.

(** The member accepts the commitments. *)
Definition accepts (cd : g1codec) (p : Party) (data : list PiContentMsg) : Prop :=
  exists row, VerifyCommit cd p (repeat ZeroG1 (p_N p + 1)) data = Ret (true, row).

(** (v, w) is no opening, at x, of the commitment to the polynomial of the dealer for member l, to a wrong value. *)
Definition no_wrong_opening (s : Fr) (Q : list (list Fr)) (l i : nat) (v : Fr) (w : G1) : Prop :=
  beval Q s (of_nat l) - v = dlog1 w * (s - of_nat i) -> v = beval Q (of_nat i) (of_nat l).

(** The corrupted members whose Reshare messages are in [post] for member i, and (sender, dealer) of the Recover
    messages. *)
Definition reshares_to (i : nat) (post : list packet) : list nat :=
  flat_map (fun x => match x with PReshare k i' _ => if (i' =? i)%nat then [k] else [] | _ => [] end) post.
Definition recovers_to (i : nat) (post : list packet) : list (Z * Z) :=
  flat_map (fun x => match x with PRecover j i' m => if (i' =? i)%nat then [(Z.of_nat (j - 1), rc_Index m)] else [] | _ => [] end) post.

(** What the corrupted members [cor] may send to honest ones. *)
Definition sendable (cd : g1codec) (s : Fr) (F : nat) (ps : nat -> Party) (QB : nat -> list (list Fr)) (hon cor pubs : list nat)
    (dat : nat -> list PiContentMsg) (x : packet) : Prop :=
  match x with
  | PCommit k i d => In i hon /\ In k pubs /\ d = dat k
  | PReshare k i m => In i hon /\ In k cor /\ exists v w, 
      (forall j, (1 <= j <= 2 * F + 1)%nat -> (exists b, nth_error (rs_Qk m) (j - 1) = Some b /\ v j = FrFrom32_into 0 (to32 b)) /\
         exists b, nth_error (rs_WQk m) (j - 1) = Some b /\ FromCompressedG1 cd b = Some (w j)) /\
      (* nor are what follows by interpolation wrong openings *)
      forall a b, (length a <= 2 * F + 1)%nat -> (length b <= 2 * F + 1)%nat ->
        (forall j, (1 <= j <= 2 * F + 1)%nat -> v j = peval a (of_nat j) /\ w j = mkG1 (peval b (of_nat j))) ->
        forall l, In l hon -> no_wrong_opening s (QB k) l i (peval a (of_nat l)) (mkG1 (peval b (of_nat l)))
  | PRecover j i m => In i hon /\ In j cor /\ exists k w, In k pubs /\ (forall i', In i' hon -> accepts cd (ps i') (dat k)) /\ rc_Index m = Z.of_nat k /\
      FromCompressedG1 cd (rc_W m) = Some w /\ no_wrong_opening s (QB k) i j (FrFrom32_into 0 (to32 (rc_V m))) w
  end.

(** The corrupted members: who they are, what the reliable broadcasts (C31-C33) of the dealers [pubs] output ([dat]),
    and the packets that they send. *)
Record corrupted (cd : g1codec) (s : Fr) (N F : nat) (ps : nat -> Party) (QB : nat -> list (list Fr)) (hon cor pubs : list nat)
    (dat : nat -> list PiContentMsg) (bad : list packet) : Prop := {
  a_cor : NoDup (hon ++ cor) /\ forall k, In k cor -> (1 <= k <= N)%nat;
  a_pubs : incl hon pubs /\ incl pubs (hon ++ cor);
  a_hon : forall k, In k hon -> CommitSend cd (p_KZG (ps k)) (dealt F QB k) = Ret (dat k);
  (* points, and the polynomials behind the CB_j *)
  a_dec : forall k, In k pubs -> In k cor -> exists c, decodes cd F (dat k) c /\
    forall j, (1 <= j <= 2 * F + 1)%nat -> CBj (c j) = mkG1 (beval (QB k) s (of_nat j));
  a_bad : forall x, In x bad -> sendable cd s F ps QB hon cor pubs dat x;
  (* one Reshare message of each of them, and one Recover message of each of them for each dealer *)
  a_once : forall i, In i hon -> NoDup (reshares_to i bad) /\ NoDup (recovers_to i bad);
  (* what one honest member accepts is delivered to all *)
  a_rbc : forall i k, In i hon -> In k pubs -> accepts cd (ps i) (dat k) -> In k hon \/ exists d, In (PCommit k i d) bad }.

Lemma read_back x : FrFrom32_into 0 (to32 (FrTo32 x)) = x.
Proof. rewrite to32_FrTo32. unfold FrFrom32_into. rewrite FrFrom32_FrTo32. reflexivity. Qed.

(** What StageSplit.v shows of one member, from what is known of it here. *)
Lemma onlyb s p QB pevs st os K : ProacRun.inv s p QB pevs st -> sinv p st -> recvs pevs = recvs os -> (forall y, In y (sources os) -> In (Z.to_nat (snd y)) K) ->
  forall k, nth k (s_SRec st) [] <> [] -> In k K.
Proof.
  intros I SI ER HK k NE. destruct SI as ((LS & _) & _). destruct I as (_ & _ & _ & D & _). assert (LK : (k <= p_N p)%nat).
  { destruct (Nat.lt_ge_cases k (length (s_SRec st))) as [L|L]; [lia|]. rewrite nth_overflow in NE by exact L. congruence. }
  destruct (nth k (s_SRec st) []) as [|e l] eqn:EL; [congruence|]. destruct (D k LK) as (_ & D2). specialize (D2 (fst e)). rewrite EL in D2.
  specialize (D2 ltac:(apply in_or_app; right; left; reflexivity)). rewrite ER, recvs_sources in D2. apply in_map_iff in D2. destruct D2 as (y & EY & Y).
  specialize (HK y Y). apply (f_equal snd) in EY. cbn [snd] in EY. rewrite EY, Nat2Z.id in HK. exact HK.
Qed.

Lemma lateb_init s p QB pevs st os K : ProacRun.inv s p QB pevs st -> sinv p st -> recvs pevs = recvs os -> (forall y, In y (sources os) -> In (Z.to_nat (snd y)) K) ->
  NoDup K -> length K = (p_F p + 1)%nat -> s_MVBASent st = true -> late K st /\ Permutation (map fst (s_MVBAIn st)) K.
Proof.
  intros I SI ER HK NK LK MS. pose proof (onlyb s p QB pevs st os K I SI ER HK) as ON.
  destruct SI as ((LS & _) & S1 & S2 & S3 & S4 & S5 & _). destruct I as ((_ & _ & _ & _ & _ & _ & _ & _ & LST & _) & _).
  assert (IN : incl (map fst (s_MVBAIn st)) K).
  { intros k X. apply S4, S2 in X. rewrite S1 in X. apply ON. intros Z. rewrite Z in X. cbn [length] in X. lia. }
  assert (LE : (length K <= length (map fst (s_MVBAIn st)))%nat) by (rewrite map_length, LK; apply S5; exact MS).
  pose proof (NoDup_length_incl S3 LE IN) as IN'. split.
  - split; [exact MS|]. split; [lia|]. split; [exact IN'|]. intros k NI. destruct (nth k (s_SRec st) []) eqn:EL; [cbn [length]; lia|]. destruct NI. apply ON. rewrite EL. discriminate.
  - apply NoDup_Permutation; auto. intros k. split; auto.
Qed.

Lemma refreshb s p QB pevs st K J B : party_wf s p -> (forall k, bdeg (p_F p) (2 * p_F p) (QB k)) -> ProacRun.inv s p QB pevs st -> sinv p st -> late K st ->
  bdeg (p_F p) (2 * p_F p) B -> p_reducedShare p = secy B (of_nat (p_PID p + 1)) ->
  (forall j, In j J -> (1 <= j <= Z.of_nat (p_N p))%Z /\ nth (Z.to_nat j) (s_flgCom st) false = true /\ In (Z.to_nat j) K) ->
  exists CQsum, Refresh p st J = Ret (Some (secy (badd B (bsum (p_F p) QB (nats J))) (of_nat (p_PID p + 1)), CQsum)) /\
    length CQsum = (p_N p + 1)%nat /\
    forall j, (1 <= j <= p_N p)%nat -> nth j CQsum ZeroG1 = mkG1 (peval (secx (bsum (p_F p) QB (nats J)) s) (of_nat j)).
Proof.
  intros W HQ I SI (L1 & L2 & L3 & L4) HB HR HJ.
  apply (refresh_gen s p QB pevs st QB J B I HB HR). intros j Hj. destruct (HJ j Hj) as (J1 & J2 & KK). split; [exact J1|]. split; [exact J2|].
  destruct SI as (_ & S1 & S2 & S3 & S4 & S5 & S6 & S7). split; [apply HQ|].
  destruct I as (_ & _ & _ & _ & R & _). specialize (R (Z.to_nat j) ltac:(lia)). rewrite (proj2 (S7 _)) in R; [apply R|].
  apply L3, S4, S2 in KK. rewrite S1 in KK. lia.
Qed.

Section Stage.
Variables (cd : g1codec) (s : Fr) (N F : nat) (ps : nat -> Party) (QB : nat -> list (list Fr)).
Variable sg : nat -> nat -> list Z.
Variables (sigok : nat -> list Z -> bool) (combine : nat -> list (list Z) -> list Z).
Variables hon cor pubs : list nat.
Variable dat : nat -> list PiContentMsg.
Variable bad : list packet.
Variable n1 : net.
Hypothesis HC : codec_ok cd.
Hypothesis C : committee s N F ps QB sg sigok hon.
Hypothesis A : corrupted cd s N F ps QB hon cor pubs dat bad.
Hypothesis S0 : starts cd ps (dealt F QB) hon n1.
Local Notation n0 := (mkNet (n_v n1) (n_votes n1) (n_post n1 ++ bad)).
Local Notation step := (nstep cd ps sg sigok combine hon).
Local Notation runs := (nruns cd ps sg sigok combine hon).
Local Notation st0 := (fun i => v_st (n_v n1 i)).

(** Whether honest members accept commitments, by the first of them. *)
Definition acceptb (k : nat) : bool :=
  match VerifyCommit cd (ps (hd O hon)) (repeat ZeroG1 (p_N (ps (hd O hon)) + 1)) (dat k) with Ret (b, _) => b | _ => false end.
Definition accd : list nat := filter acceptb pubs.

Lemma C1 : forall i, In i hon -> party_wf s (ps i) /\ p_N (ps i) = N /\ p_F (ps i) = F /\ p_PID (ps i) = (i - 1)%nat.
Proof. apply C. Qed.
Lemma C2 : forall k, bdeg F (2 * F) (QB k).
Proof. apply C. Qed.
Lemma C4 : (Z.of_nat N < 2 ^ 32)%Z.
Proof. apply C. Qed.
Lemma C7 : forall j k, In j hon -> In k hon -> sigok k (sg j k) = true.
Proof. apply C. Qed.
Lemma C8 : (2 * F + 1 <= length hon)%nat.
Proof. apply C. Qed.

Lemma eb0 : forall i, In i hon -> proac_init (ps i) (polys QB F i) = Ret (st0 i).
Proof. intros i Ii. destruct S0 as (S1 & _). destruct (S1 i Ii) as (st & E1 & E2 & _). rewrite E2. exact E1. Qed.

Lemma hd_in : In (hd O hon) hon.
Proof. pose proof C8. destruct hon as [|a l]; [cbn [length] in *; lia|left; reflexivity]. Qed.

Lemma good_same i i' c j : In i hon -> In i' hon -> commit_good (ps i) c j -> commit_good (ps i') c j.
Proof.
  intros Ii Ii' (G1 & G2). split; [exact G1|]. destruct (C1 i Ii) as ((W1 & _ & W3 & _) & _ & EF & _). destruct (C1 i' Ii') as ((W1' & _ & W3' & _) & _ & EF' & _).
  apply (check_iff s (p_F (ps i') + 1) _ W1'); [lia|]. apply (check_iff s (p_F (ps i) + 1) _ W1) in G2; [exact G2|lia].
Qed.

Lemma dat_hon i k : In i hon -> In k hon -> dat k = commit_data cd s (ps i) QB k.
Proof.
  intros Ii K. pose proof (a_hon _ _ _ _ _ _ _ _ _ _ _ A k K) as E. destruct (C1 k K) as ((W1 & _) & _ & EF & _). destruct (C1 i Ii) as (_ & _ & EF' & _). rewrite EF in W1. unfold dealt in E.
  rewrite (commit_send_correct cd s (p_KZG (ps k)) F (QB k) W1 (C2 k)) in E. injection E as <-. unfold commit_data. rewrite EF'. reflexivity.
Qed.

Lemma dec_all k : In k pubs -> exists c, decodes cd F (dat k) c /\ forall j, (1 <= j <= 2 * F + 1)%nat -> CBj (c j) = mkG1 (beval (QB k) s (of_nat j)).
Proof.
  intros K. pose proof (proj2 (a_pubs _ _ _ _ _ _ _ _ _ _ _ A) k K) as X. apply in_app_or in X. destruct X as [X|X]; [|exact (a_dec _ _ _ _ _ _ _ _ _ _ _ A k K X)].
  destruct (C1 k X) as (_ & _ & EF & _). exists (pc_of s (QB k)). split.
  - rewrite (dat_hon k k X X). pose proof (honest_decodes cd s (ps k) (QB k) HC) as D. rewrite EF in D. unfold commit_data. rewrite EF. exact D.
  - intros j _. reflexivity.
Qed.

(** All honest members decide alike, whatever is in their slots. *)
Lemma verdict i k row : In i hon -> In k pubs -> length row = (N + 1)%nat -> exists b row', VerifyCommit cd (ps i) row (dat k) = Ret (b, row') /\ (b = true <-> In k accd).
Proof.
  intros Ii K LR. destruct (dec_all k K) as (c & D & _). pose proof hd_in as Hi. destruct (C1 _ Hi) as (W0 & EN0 & EF0 & _). destruct (C1 i Ii) as (W & EN & EF & _).
  destruct (verify_commit_spec cd s (ps i) W (dat k) c row) as (b & row' & E & _ & B & _); [rewrite EF; exact D|rewrite EN; exact LR|].
  destruct (verify_commit_spec cd s (ps (hd O hon)) W0 (dat k) c (repeat ZeroG1 (p_N (ps (hd O hon)) + 1))) as (b0 & row0 & E1 & _ & B0 & _); [rewrite EF0; exact D|apply repeat_length|].
  exists b, row'. split; [exact E|]. unfold accd. rewrite filter_In. unfold acceptb. rewrite E1. rewrite B. rewrite B0. rewrite EF, EF0. split.
  - intros (X & Y). split; [exact K|]. split; [intros j Hj; exact (good_same i _ c j Ii Hi (X j Hj))|exact Y].
  - intros (_ & X & Y). split; [intros j Hj; exact (good_same _ i c j Hi Ii (X j Hj))|exact Y].
Qed.

Lemma accepts_iff i k : In i hon -> In k pubs -> (accepts cd (ps i) (dat k) <-> In k accd).
Proof.
  intros Ii K. destruct (C1 i Ii) as (W & EN & EF & _). destruct (verdict i k (repeat ZeroG1 (p_N (ps i) + 1)) Ii K) as (b & row' & E & B); [rewrite repeat_length, EN; reflexivity|]. unfold accepts. split.
  - intros (row & X). rewrite E in X. apply B. congruence.
  - intros X. exists row'. rewrite E. rewrite (proj2 B X). reflexivity.
Qed.

Lemma hon_acc : incl hon accd.
Proof.
  intros k K. assert (P : In k pubs) by (apply (proj1 (a_pubs _ _ _ _ _ _ _ _ _ _ _ A)), K). apply (accepts_iff k k K P). destruct (C1 k K) as (W & EN & EF & _). 
  destruct (verify_honest cd s (ps k) W (QB k) (repeat ZeroG1 (p_N (ps k) + 1)) HC) as (row & E & _); [rewrite EF; apply C2|apply C; exact K|apply repeat_length|].
  exists row. rewrite (dat_hon k k K K). exact E.
Qed.
Lemma acc_pubs : incl accd pubs.
Proof. intros k K. apply filter_In in K. apply K. Qed.
Lemma all_range : forall k, In k (hon ++ cor) -> (1 <= k <= N)%nat.
Proof. intros k K. apply in_app_or in K. destruct K as [K|K]; [apply C; exact K|apply (a_cor _ _ _ _ _ _ _ _ _ _ _ A); exact K]. Qed.

Lemma com_open i l j g : In i hon -> In l pubs -> (1 <= j <= 2 * F + 1)%nat -> forall m, nth_error (dat l) (j - 1) = Some m -> FromCompressedG1 cd (m_CBj m) = Some g ->
  CommitToPoly (p_KZG (ps i)) (secy (QB l) (of_nat j)) = Ret g.
Proof.
  intros Ii K Hj m EM EG. destruct (dec_all l K) as (c & D & E). destruct (D j Hj) as (m' & EM' & D1 & _). rewrite EM in EM'. injection EM' as <-. rewrite EG in D1. injection D1 as ->. rewrite (E j Hj).
  destruct (C1 i Ii) as (W & _ & EF & _). 
  rewrite (commit_com s (ps i) QB W); [|intros k; rewrite EF; apply C2]. reflexivity.
Qed.

Lemma vote_fine i k m v w row sig ms l rm : In i hon -> In l hon -> (1 <= l <= N)%nat -> reshare_decodes cd (ps i) m v w -> length row = (N + 1)%nat ->
  Vote cd (ps i) row (Z.of_nat k) sig m = Ret (Some ms) -> nth_error ms (l - 1) = Some rm ->
  exists a b, (length a <= 2 * F + 1)%nat /\ (length b <= 2 * F + 1)%nat /\ (forall j, (1 <= j <= 2 * F + 1)%nat -> v j = peval a (of_nat j) /\ w j = mkG1 (peval b (of_nat j))) /\
    rm = mkRec (Z.of_nat k) (FrTo32 (peval a (of_nat l))) (ToCompressedG1 cd (mkG1 (peval b (of_nat l)))) sig.
Proof.
  intros Ii L HL DD LR EV ER. destruct (C1 i Ii) as (W & EN & EF & EP). pose proof W as (_ & _ & W3 & W4 & W5 & _).
  unfold Vote in EV. apply bind_ret in EV. destruct EV as ((ok, st) & EC & EV). 
  destruct (points_poly (2 * F) (fun j => mkG1 (v j))) as (a & La & Va); [rewrite <- EF; lia|]. destruct (points_poly (2 * F) w) as (b & Lb & Vb); [rewrite <- EF; lia|].
  assert (AB : forall j, (1 <= j <= 2 * F + 1)%nat -> v j = peval a (of_nat j) /\ w j = mkG1 (peval b (of_nat j))).
  { intros j Hj. split; [|apply Vb; exact Hj]. specialize (Va j Hj). apply (f_equal dlog1) in Va. exact Va. }
  exists a, b. split; [lia|]. split; [lia|]. split; [exact AB|].
  destruct ok; [|discriminate]. apply bind_ret in EV. destruct EV as (ms' & EM & EV). injection EV as ->.
  assert (EST : st = (map v (seq 1 (2 * F + 1)), map w (seq 1 (2 * F + 1)))).
  { rewrite <- EN in LR. destruct (vote_check_spec cd s (ps i) W m v w row DD LR) as (ok' & _ & EC'). rewrite EC' in EC. injection EC as _ <-. rewrite EF. reflexivity. }
  subst st. cbn [fst snd] in EM. rewrite (map_ext_in v (fun j => peval a (of_nat j))), (map_ext_in w (fun j => mkG1 (peval b (of_nat j)))) in EM.
  2,3: intros j Hj; apply in_seq in Hj; apply AB; lia.
  rewrite <- EF in EM. rewrite (vote_messages_correct cd s (ps i) W (Z.of_nat k) sig a b) in EM by lia. injection EM as <-. rewrite nth_error_map_seq in ER by lia. congruence.
Qed.

Lemma opens_iff i k l w v : In l hon -> CheckProofSingle (p_KZG (ps l)) (com s QB k (of_nat l)) w (of_nat i) v = Ret true -> no_wrong_opening s (QB k) l i v w -> v = beval (QB k) (of_nat i) (of_nat l).
Proof.
  intros L CK NW. destruct (C1 l L) as (WL & _). pose proof WL as (W1 & _ & W3 & _). apply (check_iff s (p_F (ps l) + 1) _ W1) in CK; [|lia]. apply NW.
  change (dlog1 (com s QB k (of_nat l))) with (beval (QB k) s (of_nat l)) in CK. exact CK.
Qed.

Lemma unforged_of i k l rm w v : In l hon -> (forall g, FromCompressedG1 cd (rc_W rm) = Some g -> g = w) -> FrFrom32_into 0 (to32 (rc_V rm)) = v -> no_wrong_opening s (QB k) l i v w -> unforged cd s ps QB i k l rm.
Proof. intros L HG EV NW g EG CK. rewrite (HG g EG) in CK. rewrite EV in CK |- *. exact (opens_iff i k l w v L CK NW). Qed.

Lemma opens_me j k i w v : In i hon -> CheckProofSingle (p_KZG (ps i)) (com s QB k (me (ps i))) w (of_nat j) v = Ret true -> no_wrong_opening s (QB k) i j v w -> v = beval (QB k) (of_nat j) (me (ps i)).
Proof.
  intros Ii CK NW. destruct (C1 i Ii) as (W & EN & EF & EP).
  assert (ME : me (ps i) = of_nat i). { unfold me. rewrite EP. f_equal. pose proof (all_range i (in_or_app _ _ _ (or_introl Ii))). lia. } rewrite ME in CK |- *. exact (opens_iff j k i w v Ii CK NW).
Qed.

Lemma recover_fine i j k m w : In i hon -> ~ In j hon -> rc_Index m = Z.of_nat k -> FromCompressedG1 cd (rc_W m) = Some w -> no_wrong_opening s (QB k) i j (FrFrom32_into 0 (to32 (rc_V m))) w -> okmsg cd s (ps i) QB sg hon j k m.
Proof.
  intros Ii NJ EI EW NW. split; [exact EI|]. split; [exists w; exact EW|]. split; [|intros JH; destruct (NJ JH)].
  intros w' EW' CK. assert (w' = w) as -> by congruence. exact (opens_me j k i w _ Ii CK NW).
Qed.

Lemma reshare_fine i k m v w : In i hon -> ~ In k hon -> reshare_decodes cd (ps i) m v w -> (forall a b, (length a <= 2 * F + 1)%nat -> (length b <= 2 * F + 1)%nat ->
        (forall j, (1 <= j <= 2 * F + 1)%nat -> v j = peval a (of_nat j) /\ w j = mkG1 (peval b (of_nat j))) ->
        forall l, In l hon -> no_wrong_opening s (QB k) l i (peval a (of_nat l)) (mkG1 (peval b (of_nat l)))) -> okres cd s (ps i) QB hon (unforged cd s ps QB i) k m.
Proof.
  intros Ii NK DD NW. destruct (C1 i Ii) as (W & EN & EF & EP). split; [exists v, w; exact DD|]. split; [intros KH; destruct (NK KH)|].
  intros row sig ms l rm LR EV L ER _. assert (HL : (1 <= l <= N)%nat) by (apply all_range, in_or_app; left; exact L). rewrite EN in LR.
  destruct (vote_fine i k m v w row sig ms l rm Ii L HL DD LR EV ER) as (a & b & La & Lb & AB & ER'). apply (unforged_of i k l rm (mkG1 (peval b (of_nat l))) (peval a (of_nat l)) L).
  - intros g EG. rewrite ER' in EG. cbn [rc_W] in EG. rewrite HC in EG. congruence.
  - rewrite ER'. cbn [rc_V]. apply read_back.
  - apply (NW a b La Lb AB l L).
Qed.

Lemma bad_fine : Forall (bad_ok cd s ps QB sg hon cor pubs accd dat) bad.
Proof.
  apply Forall_forall. intros x X. pose proof (a_bad _ _ _ _ _ _ _ _ _ _ _ A x X) as B. destruct x as [k i d|k i m|j i m].
  - exact B.
  - destruct B as (Ii & K & v & w & D & NW). split; [exact Ii|]. split; [exact K|]. destruct (C1 i Ii) as (_ & _ & EF & _). apply (reshare_fine i k m v w Ii).
    + intros KH. exact (disj hon cor (proj1 (a_cor _ _ _ _ _ _ _ _ _ _ _ A)) k KH K).
    + intros j Hj. rewrite EF in Hj. exact (D j Hj).
    + exact NW.
  - destruct B as (Ii & J & k & w & K & AC & EI & EW & NW). split; [exact Ii|]. split; [exact J|]. exists k. split; [apply (accepts_iff i k Ii K), AC, Ii|]. 
    apply (recover_fine i j k m w Ii); [|assumption..]. intros JH. exact (disj hon cor (proj1 (a_cor _ _ _ _ _ _ _ _ _ _ _ A)) j JH J).
Qed.

Local Notation inv := (ninvb cd s ps QB sg sigok combine hon cor pubs accd dat bad st0).
Local Notation bound := (length hon * (length hon * (3 + 2 * length hon)) + length hon * (N + 2) + StageNet.total (w hon) bad)%nat.

Lemma ih3 : incl pubs (hon ++ cor).
Proof. apply (a_pubs _ _ _ _ _ _ _ _ _ _ _ A). Qed.
Lemma nda : NoDup (hon ++ cor).
Proof. apply (a_cor _ _ _ _ _ _ _ _ _ _ _ A). Qed.
Lemma hdc : forall i k j m g, In i hon -> In k pubs -> (1 <= j <= 2 * F + 1)%nat -> nth_error (dat k) (j - 1) = Some m -> FromCompressedG1 cd (m_CBj m) = Some g ->
  CommitToPoly (p_KZG (ps i)) (secy (QB k) (of_nat j)) = Ret g.
Proof. intros i k j m g Ii K Hj EM EG. exact (com_open i k j g Ii K Hj m EM EG). Qed.
Lemma hb1 : forall i, In i hon -> NoDup (ssrc i bad).
Proof. intros i Ii. apply (a_once _ _ _ _ _ _ _ _ _ _ _ A i Ii). Qed.
Lemma hb2 : forall i, In i hon -> NoDup (rsrc i bad).
Proof. intros i Ii. apply (a_once _ _ _ _ _ _ _ _ _ _ _ A i Ii). Qed.
Lemma hb3 : forall i k, In i hon -> In k accd -> In k hon \/ exists d, In (PCommit k i d) bad.
Proof. intros i k Ii K. apply (a_rbc _ _ _ _ _ _ _ _ _ _ _ A i k Ii (acc_pubs k K)). apply (accepts_iff i k Ii (acc_pubs k K)). exact K. Qed.

Lemma invb0 : inv n0 (fun _ => []) /\ phi hon n0 = bound.
Proof.
  exact (startb_ok cd s ps QB sg sigok combine hon cor pubs accd dat bad N F HC C1 C2 C4 all_range nda hon_acc acc_pubs C8 verdict hdc dat_hon st0 eb0 bad_fine hb3 n1 S0 (fun i _ => eq_refl)).
Qed.

Lemma reachb n E evs n' : inv n E -> runs n evs n' -> exists E', inv n' E' /\ (phi hon n' + length evs <= phi hon n)%nat.
Proof. exact (runsb_ok cd s ps QB sg sigok combine hon cor pubs accd dat bad N F HC C1 C2 C4 all_range nda hon_acc acc_pubs ih3 C7 C8 verdict hdc st0 eb0 bad_fine hb1 hb2 n E evs n'). Qed.

Lemma invb_m n E i : inv n E -> In i hon -> exists pevs, ProacRun.inv s (ps i) QB pevs (v_st (n_v n i)) /\ sinv (ps i) (v_st (n_v n i)) /\ recvs pevs = recvs (others (E i)).
Proof.
  intros I Ii. destruct (m_inv cd s ps QB sg sigok combine hon cor pubs accd dat N F C1 C2 C4 all_range C8 verdict hdc st0 eb0 i _ _ _ Ii (j_good _ _ _ _ _ _ _ _ _ _ _ _ _ _ _ _ I i Ii)) as (pevs & A1 & A2 & _ & A3).
  exists pevs. auto.
Qed.

Lemma agreesb n E i : inv n E -> In i hon -> s_MVBASent (v_st (n_v n i)) = true -> agreeing F n i.
Proof.
  intros I Ii MS. destruct (C1 i Ii) as (_ & _ & EF & _). destruct (invb_m n E i I Ii) as (pevs & _ & SI & _).
  destruct SI as (_ & _ & _ & S3 & _ & S5 & _). unfold agreeing. split; [exact MS|]. split; [exact S3|]. rewrite <- EF. apply S5. exact MS.
Qed.

Lemma quietb K n E : inv n E -> quiet_of cd ps sg sigok combine hon K n -> forall i, In i hon -> incl (K i) hon -> NoDup (K i) -> (F + 1 <= length (K i))%nat -> s_MVBASent (v_st (n_v n i)) = true.
Proof. exact (quietb_sent_of cd s ps QB sg sigok combine hon cor pubs accd dat bad N F HC C1 C2 C4 all_range nda hon_acc acc_pubs ih3 C7 C8 verdict hdc st0 eb0 bad_fine hb1 hb2 K n E). Qed.

Lemma to_quietb K n E : inv n E -> exists evs n' E', runs n evs n' /\ (forall i, ~ In (NAgreed i) evs) /\ inv n' E' /\ quiet_of cd ps sg sigok combine hon K n' /\
  forall i y, In y (sources (others (E' i))) -> In y (sources (others (E i))) \/ In (Z.to_nat (snd y)) (K i).
Proof.
  intros I. exact (to_quietb_of cd s ps QB sg sigok combine hon cor pubs accd dat bad N F HC C1 C2 C4 all_range nda hon_acc acc_pubs ih3 C7 C8 verdict hdc st0 eb0 bad_fine hb1 hb2 K _ n E I (le_n _)).
Qed.

Lemma nocomb K n E : inv n E -> quiet_of cd ps sg sigok combine hon K n -> forall k i d, ~ In (PCommit k i d) (n_post n).
Proof. intros I Q. eapply quietb_nocom; [exact C1|exact C2|exact C4|exact all_range|exact ih3|exact C8|exact verdict|exact hdc|exact eb0|exact I|exact Q]. Qed.

(** No step makes an honest member panic or stop. *)
Theorem c81_safe : forall evs n e, runs n0 evs n -> exists o, step n e = Ret o.
Proof.
  intros evs n e R. destruct (reachb _ _ evs n (proj1 invb0) R) as (E & I & _).
  destruct (nstepb_ok cd s ps QB sg sigok combine hon cor pubs accd dat bad N F HC C1 C2 C4 all_range nda hon_acc acc_pubs ih3 C7 C8 verdict hdc st0 eb0 bad_fine hb1 hb2 n E e I) as (o & EO & _). exists o. exact EO.
Qed.

(** Every run ends: each packet of a corrupted member allows as many steps as one of the same kind of an honest one. *)
Theorem c81_ends : forall evs n, runs n0 evs n ->
  (length evs <= length hon * (length hon * (3 + 2 * length hon)) + length hon * (N + 2) + (2 + 2 * length hon) * length bad)%nat.
Proof.
  intros evs n R. destruct (reachb _ _ evs n (proj1 invb0) R) as (E & _ & L). pose proof (proj2 invb0) as P.
  assert (T : (StageNet.total (w hon) bad <= (2 + 2 * length hon) * length bad)%nat). { clear. induction bad as [|x l IH]; [cbn; lia|]. unfold StageNet.total in *. cbn [map length list_sum fold_right]. fold (list_sum (map (w hon) l)). destruct x; cbn [w]; lia. }
  lia.
Qed.

(** When nothing more can happen before the agreement returns somewhere, every honest member has called it. *)
Theorem c81_all_start : forall evs n, runs n0 evs n -> (forall e, (forall i, e <> NAgreed i) -> step n e = Ret None) -> forall i, In i hon -> agreeing F n i.
Proof.
  intros evs n R Q i Ii. destruct (reachb _ _ evs n (proj1 invb0) R) as (E & I & _). apply (agreesb n E i I Ii).
  apply (quietb (fun _ => hon) n E I); [|exact Ii|intros k K; exact K|apply C|pose proof C8; lia]. intros e AL. apply Q. intros i' ->. discriminate.
Qed.

(** From every state that can be reached the honest members get there, without an agreement that has been called
    returning. *)
Theorem c81_reached : forall evs n, runs n0 evs n -> exists evs' n', runs n evs' n' /\ (forall i, ~ In (NAgreed i) evs') /\ forall i, In i hon -> agreeing F n' i.
Proof.
  intros evs n R. destruct (reachb _ _ evs n (proj1 invb0) R) as (E & I & _).
  destruct (to_quietb (fun _ => hon) n E I) as (evs' & n' & E' & R' & NA & I' & Q & _).
  exists evs', n'. split; [exact R'|]. split; [exact NA|]. intros i Ii. apply (agreesb n' E' i I' Ii).
  apply (quietb (fun _ => hon) n' E' I' Q i Ii); [intros k K; exact K|apply C|pose proof C8; lia].
Qed.

(** All honest members decide alike about the commitments of a dealer, and accept those of honest dealers. *)
Theorem c81_accept : forall i i' k, In i hon -> In i' hon -> In k pubs -> (accepts cd (ps i) (dat k) <-> accepts cd (ps i') (dat k)) /\ (In k hon -> accepts cd (ps i) (dat k)).
Proof.
  intros i i' k Ii Ii' K. rewrite (accepts_iff i k Ii K), (accepts_iff i' k Ii' K). split; [reflexivity|]. apply hon_acc.
Qed.
End Stage.
Print Assumptions c81_safe.
Print Assumptions c81_ends.
Print Assumptions c81_all_start.
Print Assumptions c81_reached.
Print Assumptions c81_accept.

Lemma good_orderb : forall cd N F ps QB sg sigok combine hon cor pubs dat bad n1 B K, codec_ok cd ->
  committee party_secret N F ps QB sg sigok hon -> corrupted cd party_secret N F ps QB hon cor pubs dat bad -> starts cd ps (dealt F QB) hon n1 -> bdeg F (2 * F) B ->
  (forall i, In i hon -> p_reducedShare (ps i) = secy B (of_nat i) /\ holds_commitments B (ps i)) ->
  incl K hon -> NoDup K -> length K = (F + 1)%nat ->
  exists evs n, nruns cd ps sg sigok combine hon (mkNet (n_v n1) (n_votes n1) (n_post n1 ++ bad)) evs n /\ (forall i, In i hon -> agreeing F n i) /\
  forall l later, In l hon -> (forall i, In i hon -> exists evs' n', nruns cd ps sg sigok combine hon n evs' n' /\ later i = v_st (n_v n' i)) ->
  exists B' share CQsum, bdeg F (2 * F) B' /\ beval B' 0 0 = beval B 0 0 /\
    (forall x y, beval B' x y = beval B x y + PropertiesRefresh.total QB (map Z.of_nat K) x y) /\
    (forall i, In i hon -> Refresh (ps i) (later i) (given n l) = Ret (Some (share i, CQsum i)) /\ share i = secy B' (of_nat i)) /\
    (forall i, In i hon -> renewed N F B B' (CQsum i) i (set_reducedShare (ps i) (share i))).
Proof.
  intros cd N F ps QB sg sigok combine hon cor pubs dat bad n1 B K HC C A S0 HB HR K1 K2 K3. pose proof C as (C1 & C2 & C3 & C4 & C5 & C6 & C7 & C8).
  set (st0 := fun i => v_st (n_v n1 i)). pose proof (eb0 cd F ps QB hon n1 S0) as E0.
  pose proof (proj1 (invb0 cd party_secret N F ps QB sg sigok combine hon cor pubs dat bad n1 HC C A S0)) as I0.
  destruct (to_quietb cd party_secret N F ps QB sg sigok combine hon cor pubs dat bad n1 HC C A S0 (fun _ => K) _ _ I0)
    as (evs & n & E & R & NA & I & Q & CM).
  assert (SRC : forall i y, In y (sources (others (E i))) -> In (Z.to_nat (snd y)) K). { intros i y Y. destruct (CM i y Y) as [X|X]; [destruct X|exact X]. }
  assert (MS : forall i, In i hon -> s_MVBASent (v_st (n_v n i)) = true).
  { intros i Ii. apply (quietb cd party_secret N F ps QB sg sigok combine hon cor pubs dat bad n1 HC C A S0 (fun _ => K) n E I Q i Ii K1 K2). lia. }
  assert (LT : forall i, In i hon -> late K (v_st (n_v n i)) /\ Permutation (map fst (s_MVBAIn (v_st (n_v n i)))) K).
  { intros i Ii. destruct (C1 i Ii) as (_ & _ & EF & _).
    destruct (invb_m cd party_secret N F ps QB sg sigok combine hon cor pubs dat bad n1 HC C A S0 n E i I Ii) as (pevs & A1 & A2 & A3).
    apply (lateb_init _ _ _ _ _ _ K A1 A2 A3); [intros y; apply SRC|exact K2|rewrite EF; exact K3|apply MS; exact Ii]. }
  exists evs, n. split; [exact R|]. split; [intros i Ii; apply (agreesb cd party_secret N F ps QB sg sigok combine hon cor pubs dat bad n1 HC C A S0 n E i I Ii); apply MS; exact Ii|].
  intros l later Il HL.
  assert (PJ : Permutation (given n l) (map Z.of_nat K)).
  { unfold given. rewrite <- (map_map fst Z.of_nat). apply Permutation_map. apply (LT l Il). }
  assert (IJ : forall j, In j (given n l) -> exists k, In k K /\ (1 <= k <= N)%nat /\ j = Z.of_nat k).
  { intros j X. apply (Permutation_in _ PJ) in X. apply in_map_iff in X. destruct X as (k & <- & X). exists k. split; [exact X|]. split; [apply C5; apply K1; exact X|reflexivity]. }
  set (SS := bsum F QB (nats (given n l))).
  assert (DS : bdeg F (2 * F) SS) by (apply bsum_deg; intros; apply C2).
  assert (DB : bdeg F (2 * F) (badd B SS)) by (apply bdeg_badd; assumption).
  assert (RF : forall i, In i hon -> exists CQsum, Refresh (ps i) (later i) (given n l) = Ret (Some (secy (badd B SS) (of_nat i), CQsum)) /\
    length CQsum = (N + 1)%nat /\ forall j, (1 <= j <= N)%nat -> nth j CQsum ZeroG1 = mkG1 (peval (secx SS party_secret) (of_nat j))).
  { intros i Ii. destruct (HL i Ii) as (evs' & n' & R' & ->). destruct (reachb cd party_secret N F ps QB sg sigok combine hon cor pubs dat bad n1 HC C A S0 n E evs' n' I R') as (E' & I' & _).
    destruct (C1 i Ii) as (W & EN & EF & EP). destruct (invb_m cd party_secret N F ps QB sg sigok combine hon cor pubs dat bad n1 HC C A S0 n' E' i I' Ii) as (pevs & A1 & A2 & _).
    pose proof (runs_late cd ps sg sigok combine hon n evs' n' i _ R' (proj1 (LT i Ii))) as LA. pose proof (C5 i Ii) as Ii'. assert (PI : (p_PID (ps i) + 1 = i)%nat) by lia.
    destruct (refreshb party_secret (ps i) QB pevs (v_st (n_v n' i)) K (given n l) B W ltac:(rewrite EF; exact C2) A1 A2 LA) as (CQ & X1 & X2 & X3).
    - rewrite EF. exact HB.
    - rewrite PI. apply HR. exact Ii.
    - intros j Hj. destruct (IJ j Hj) as (k & HK & Hk & ->). rewrite EN, Nat2Z.id. split; [lia|]. split; [|exact HK].
      apply (runs_com cd ps sg sigok combine hon n evs' n' i k R'). destruct (j_com _ _ _ _ _ _ _ _ _ _ _ _ _ _ _ _ I i k Ii) as [(d & D)|D]; [|exfalso|exact D].
      + eapply hon_acc; [exact HC|exact C|exact A|exact S0|exact (K1 k HK)].
      + exact (nocomb cd party_secret N F ps QB sg sigok combine hon cor pubs dat bad n1 HC C A S0 (fun _ => K) n E I Q k i d D).
    - rewrite EN, EF, PI in *. exists CQ. split; [exact X1|]. split; [exact X2|exact X3]. }
  exists (badd B SS), (fun i => secy (badd B SS) (of_nat i)), (fun i => match Refresh (ps i) (later i) (given n l) with Ret (Some (_, c)) => c | _ => [] end).
  split; [exact DB|]. split.
  { rewrite beval_badd. unfold SS. rewrite bsum_secret; [ring|]. intros j X. apply in_map_iff in X. destruct X as (z & <- & X). destruct (IJ z X) as (k & HK & Hk & ->). rewrite Nat2Z.id. apply C3. apply K1. exact HK. }
  split. { intros x y. rewrite beval_badd. unfold SS. rewrite beval_bsum. rewrite (sum_perm QB _ _ x y PJ). reflexivity. }
  split. { intros i Ii. destruct (RF i Ii) as (CQ & -> & _). split; reflexivity. }
  intros i Ii. destruct (C1 i Ii) as (W & EN & EF & EP). destruct (RF i Ii) as (CQ & -> & LC & VC).
  unfold renewed. cbn [set_reducedShare p_N p_F p_PID p_reducedShare]. refine (conj W (conj EN (conj EF (conj EP (conj eq_refl (conj (proj2 (HR i Ii)) _)))))).
  unfold updates. cbn [set_reducedShare p_N p_KZG]. rewrite EN. split; [exact LC|]. intros j c Hj EC.
  rewrite (set_com (ps i) W) in EC by (rewrite EF; exact HB). rewrite (set_com (ps i) W) by (rewrite EF; exact DB). apply (f_equal (fun x => match x with Ret a => a | _ => ZeroG1 end)) in EC. subst c.
  rewrite (VC j Hj). unfold AddG1. cbn [dlog1]. rewrite !peval_secx, beval_badd. reflexivity.
Qed.

(** For any F+1 honest dealers there is an order in which all honest members agree on exactly these, whatever the
    corrupted members have sent, and from there get their shares (C77). *)
Theorem c81_good_order : forall cd N F ps QB sg sigok combine hon cor pubs dat bad n1 B K, codec_ok cd ->
  committee party_secret N F ps QB sg sigok hon -> corrupted cd party_secret N F ps QB hon cor pubs dat bad -> starts cd ps (dealt F QB) hon n1 -> bdeg F (2 * F) B ->
  (forall i, In i hon -> p_reducedShare (ps i) = secy B (of_nat i) /\ holds_commitments B (ps i)) ->
  incl K hon -> NoDup K -> length K = (F + 1)%nat ->
  exists evs n, nruns cd ps sg sigok combine hon (mkNet (n_v n1) (n_votes n1) (n_post n1 ++ bad)) evs n /\ (forall i, In i hon -> agreeing F n i) /\
  forall l later, In l hon -> (forall i, In i hon -> exists evs' n', nruns cd ps sg sigok combine hon n evs' n' /\ later i = v_st (n_v n' i)) ->
  exists B' share CQsum, bdeg F (2 * F) B' /\ beval B' 0 0 = beval B 0 0 /\
    (forall x y, beval B' x y = beval B x y + PropertiesRefresh.total QB (map Z.of_nat K) x y) /\
    (forall i, In i hon -> Refresh (ps i) (later i) (given n l) = Ret (Some (share i, CQsum i)) /\ share i = secy B' (of_nat i)) /\
    finishes cd F (fun i => set_reducedShare (ps i) (share i)) CQsum hon B'.
Proof.
  intros cd N F ps QB sg sigok combine hon cor pubs dat bad n1 B K HC C A S0 HB HR K1 K2 K3. pose proof C as (C1 & C2 & C3 & C4 & C5 & C6 & C7 & C8).
  destruct (good_orderb cd N F ps QB sg sigok combine hon cor pubs dat bad n1 B K HC C A S0 HB HR K1 K2 K3) as (evs & n & R & G & H).
  exists evs, n. split; [exact R|]. split; [exact G|]. intros l later Il HL. destruct (H l later Il HL) as (B' & share & CQsum & D1 & D2 & D3 & D4 & D5).
  exists B', share, CQsum. refine (conj D1 (conj D2 (conj D3 (conj D4 _)))). exact (c77_finish cd N F _ _ hon B B' HC (conj C4 (conj C5 (conj C6 C8))) HB D1 D5).
Qed.
Print Assumptions c81_good_order.

(** N = 4, F = 1, the members 1, 2 and 4 honest, member 3 corrupted: its commitments are those of a sharing, to member 1
    it sends a Reshare message and a Recover message about member 2 with false values, to member 4 a Recover message
    about itself with a false value. *)
Definition xy : list (list Fr) := [[0; 0]; [0; 1]; [0; 0]].
Definition exdat (cd : g1codec) (k : nat) : list PiContentMsg := map (fun j => pcm_of cd (pc_of party_secret xy j)) (seq 1 3).
Definition exbad (cd : g1codec) : list packet :=
  let z := ToCompressedG1 cd ZeroG1 in
  map (fun i => PCommit 3 i (exdat cd 3)) [1; 2; 4]%nat ++
  [PReshare 3 1 (mkRS [FrTo32 0; FrTo32 0; FrTo32 0] [z; z; z]); PRecover 3 1 (mkRec 2 (FrTo32 0) z [9%Z]); PRecover 3 4 (mkRec 3 (FrTo32 0) z [9%Z])].

Lemma xy_wrong l i v w : (1 <= l < 1000)%nat -> v = 0 -> dlog1 w = 0 -> no_wrong_opening party_secret xy l i v w.
Proof.
  intros Hl -> EW E. exfalso. rewrite EW in E. assert (X : beval xy party_secret (of_nat l) = party_secret * of_nat l). { unfold beval, xy. cbn [map peval]. ring. } rewrite X in E.
  assert (Y : party_secret * of_nat l = 0). { transitivity (party_secret * of_nat l - 0); [ring|]. rewrite E. ring. }
  destruct (fmul_eq_0 _ _ Y) as [Z|Z].
  - apply (secret_not_small 0); [lia|]. exact Z.
  - change 0 with (of_nat 0) in Z. apply of_nat_inj in Z; [lia| |]; rewrite r_eq; lia.
Qed.

Lemma ex_corrupted cd ps : codec_ok cd -> committee party_secret 4 1 ps (fun _ => xy) (fun _ _ => [7%Z]) (fun _ _ => true) [1; 2; 4]%nat ->
  corrupted cd party_secret 4 1 ps (fun _ => xy) [1; 2; 4]%nat [3]%nat [1; 2; 4; 3]%nat (exdat cd) (exbad cd).
Proof.
  intros HC C. pose proof C as (C1 & C2 & C3 & _). assert (AC : forall i k, In i [1; 2; 4]%nat -> accepts cd (ps i) (exdat cd k)).
  { intros i k Ii. destruct (C1 i Ii) as (W & EN & EF & _). destruct (verify_honest cd party_secret (ps i) W xy (repeat ZeroG1 (p_N (ps i) + 1)) HC) as (row & E & _); [rewrite EF; apply (C2 O)|exact (C3 1%nat (or_introl eq_refl))|apply repeat_length|].
    exists row. rewrite EF in E. exact E. }
  constructor.
  - split; [repeat constructor; cbn [In app]; lia|]. intros k [<-|[]]. lia.
  - split; intros k K; cbn [In app] in *; tauto.
  - intros k K. destruct (C1 k K) as ((W1 & _) & _ & EF & _). rewrite EF in W1. unfold dealt. rewrite (commit_send_correct cd party_secret (p_KZG (ps k)) 1 xy W1 (C2 O)). reflexivity.
  - intros k _ _. destruct (C1 1%nat (or_introl eq_refl)) as (_ & _ & EF & _). exists (pc_of party_secret xy). split; [|intros j _; reflexivity]. pose proof (honest_decodes cd party_secret (ps 1%nat) xy HC) as D. rewrite EF in D. exact D.
  - assert (DEC : forall b, b = ToCompressedG1 cd ZeroG1 -> FromCompressedG1 cd b = Some ZeroG1) by (intros b ->; apply HC).
    intros x X. apply in_app_or in X. destruct X as [X|X].
    { apply in_map_iff in X. destruct X as (i & <- & Ii). cbn [sendable]. split; [exact Ii|]. split; [cbn [In]; tauto|reflexivity]. }
    destruct X as [<-|[<-|[<-|[]]]]; cbn [sendable].
    + split; [left; reflexivity|]. split; [left; reflexivity|]. exists (fun _ => 0), (fun _ => ZeroG1). split.
      * intros j Hj. assert (CS : j = 1%nat \/ j = 2%nat \/ j = 3%nat) by lia. destruct CS as [->|[->| ->]]; (split; [exists (FrTo32 0); split; [reflexivity|symmetry; apply read_back]|eexists; split; [reflexivity|apply DEC; reflexivity]]).
      * intros a b La Lb AB l Ll.
        assert (ZZ : forall c, (length c <= 3)%nat -> (forall j, (1 <= j <= 3)%nat -> peval c (of_nat j) = 0) -> peval c (of_nat l) = 0).
        { intros c Lc Hc. apply (poly_unique (map of_nat (seq 1 3)) c []); [apply NoDup_of_nat_from; rewrite r_eq; lia|rewrite map_length, seq_length; exact Lc|cbn [length]; lia|].
          intros y Y. apply in_map_iff in Y. destruct Y as (j & <- & J). apply in_seq in J. apply Hc. lia. }
        apply xy_wrong; [cbn [In] in Ll; lia| |].
        -- apply ZZ; [lia|]. intros j Hj. symmetry. apply (AB j). lia.
        -- cbn [dlog1]. apply ZZ; [lia|]. intros j Hj. destruct (AB j) as (_ & E); [lia|]. apply (f_equal dlog1) in E. symmetry. exact E.
    + split; [left; reflexivity|]. split; [left; reflexivity|]. exists 2%nat, ZeroG1. split; [cbn [In]; tauto|]. split; [intros i' Ii'; apply AC; exact Ii'|]. split; [reflexivity|]. split; [apply DEC; reflexivity|].
      cbn [rc_V]. rewrite read_back. apply xy_wrong; [lia|reflexivity|reflexivity].
    + split; [cbn [In]; tauto|]. split; [left; reflexivity|]. exists 3%nat, ZeroG1. split; [cbn [In]; tauto|]. split; [intros i' Ii'; apply AC; exact Ii'|]. split; [reflexivity|]. split; [apply DEC; reflexivity|].
      cbn [rc_V]. rewrite read_back. apply xy_wrong; [lia|reflexivity|reflexivity].
  - intros i [<-|[<-|[<-|[]]]]; split; repeat constructor; cbn [In]; tauto.
  - intros i k Ii K _. cbn [In] in K. destruct K as [K|[K|[K|[K|[]]]]]; subst k; [left; cbn [In]; tauto|left; cbn [In]; tauto|left; cbn [In]; tauto|].
    right. exists (exdat cd 3). apply in_or_app. left. apply in_map_iff. exists i. split; [reflexivity|exact Ii].
Qed.

Example c81_ex : exists ps n1, (forall i, In i [1; 2; 4]%nat -> NewHonestParty 4 1 (i - 1) = Ret (ps i)) /\
  committee party_secret 4 1 ps (fun _ => xy) (fun _ _ => [7%Z]) (fun _ _ => true) [1; 2; 4]%nat /\
  corrupted demo_codec party_secret 4 1 ps (fun _ => xy) [1; 2; 4]%nat [3]%nat [1; 2; 4; 3]%nat (exdat demo_codec) (exbad demo_codec) /\
  starts demo_codec ps (dealt 1 (fun _ => xy)) [1; 2; 4]%nat n1 /\ length (exbad demo_codec) = 6%nat /\
  exists evs n, nruns demo_codec ps (fun _ _ => [7%Z]) (fun _ _ => true) (fun _ _ => []) [1; 2; 4]%nat (mkNet (n_v n1) (n_votes n1) (n_post n1 ++ exbad demo_codec)) evs n /\
    (forall i, ~ In (NAgreed i) evs) /\ forall i, In i [1; 2; 4]%nat -> agreeing 1 n i.
Proof.
  destruct c75_ex as (ps & n1 & P & CM & S0 & _ & _). exists ps, n1. pose proof (ex_corrupted demo_codec ps demo_codec_ok CM) as A.
  split; [exact P|]. split; [exact CM|]. split; [exact A|]. split; [exact S0|]. split; [reflexivity|].
  apply (c81_reached demo_codec _ _ _ _ _ _ _ (fun _ _ => []) _ _ _ _ _ n1 demo_codec_ok CM A S0 [] _). constructor.
Qed.
