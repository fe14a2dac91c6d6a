(** Proofs about the stages of Proactivize and ShareDist. *)

Require Import ZArith List Lia Bool Arith Permutation.
From Verif Require Import Prime Fr Bytes CodecModel CodecProofs GoBase Poly Biv BivProofs PolyModel PolyProofs
  GroupModel KzgModel KzgProofs PartyModel PartySpec VssModel VssProofs VssProofs2 ReduceModel ReduceProofs
  ProacModel.
Import ListNotations.
Local Open Scope F_scope.

Lemma set_nth_twice {A} (l : list A) i a b : set_nth i a (set_nth i b l) = set_nth i a l.
Proof. revert i. induction l as [|x l IH]; intros [|i]; cbn [set_nth]; try reflexivity. rewrite IH. reflexivity. Qed.

(** ** The refreshing polynomials of a member form one bivariate polynomial with value 0 at (0,0). *)
Lemma proac_biv F rF rQ : (1 <= F)%nat -> (Z.of_nat (2 * F + 2) <= r)%Z ->
  length rF = (2 * F + 1)%nat -> length rQ = (2 * F + 1)%nat ->
  Forall (fun row => length row = (F + 1)%nat) rQ ->
  exists QB, bdeg F (2 * F) QB /\ beval QB 0 0 = 0 /\
    proac_Q F rF rQ = map (fun j => secy QB (of_nat j)) (seq 1 (2 * F + 1)).
Proof.
  intros HF HR LF LQ LQ2.
  destruct (client_biv 0 F 0 rF rQ HF HR LF LQ LQ2) as (B & HB & H0 & _ & HS).
  exists B. split; [exact HB|]. split; [exact H0|].
  unfold proac_Q. apply map_ext_in. intros j Hj. apply in_seq in Hj.
  rewrite HS by lia. rewrite set_nth_twice. f_equal. rewrite EvalPolyAt_correct.
  f_equal. unfold proac_polyF. destruct rF; [simpl in LF; lia|reflexivity].
Qed.

Lemma bdeg_intro dx dy B : length B = S dy -> (forall row, In row B -> length row = S dx) -> bdeg dx dy B.
Proof. intros H1 H2. split; [exact H1|]. apply Forall_forall. exact H2. Qed.

(** ** Commit messages *)

Definition zpart (QB : list (list Fr)) (j : nat) : list Fr := set_nth 0 0 (secy QB (of_nat j)).

(** The content a member with polynomial QB publishes for index j. *)
Definition pc_of (s : Fr) (QB : list (list Fr)) (j : nat) : PiContent :=
  mkPC j (mkG1 (peval (secx QB s) (of_nat j))) (mkG1 (peval (zpart QB j) s))
    (mkG1 (peval (fst (sdiv (zpart QB j) 0)) s)) (mkG1 (beval QB 0 (of_nat j))).

Definition pcm_of (cd : g1codec) (c : PiContent) : PiContentMsg :=
  mkPCM (Z.of_nat (pc_j c)) (ToCompressedG1 cd (CBj c)) (ToCompressedG1 cd (CZj c))
    (ToCompressedG1 cd (WZ0 c)) (ToCompressedG1 cd (gFj c)).

Lemma secy_head F dy QB j : bdeg F dy QB ->
  exists t, secy QB (of_nat j) = beval QB 0 (of_nat j) :: t /\ length t = F.
Proof.
  intros HB. pose proof (length_secy F dy QB (of_nat j) HB) as L.
  destruct (secy QB (of_nat j)) as [|a t] eqn:E; [discriminate|].
  exists t. split; [|simpl in L; lia]. f_equal.
  rewrite <- peval_secy, E, peval_0. reflexivity.
Qed.

Lemma zpart_eval F dy QB j x : bdeg F dy QB ->
  peval (zpart QB j) x = beval QB x (of_nat j) - beval QB 0 (of_nat j).
Proof.
  intros HB. destruct (secy_head F dy QB j HB) as (t & E & _).
  unfold zpart. rewrite <- (peval_secy QB x), E. cbn [set_nth peval]. ring.
Qed.

Lemma zpart_length F dy QB j : bdeg F dy QB -> length (zpart QB j) = S F.
Proof. intros HB. unfold zpart. rewrite length_set_nth. apply (length_secy F dy). exact HB. Qed.

Section Commit.
Variables (cd : g1codec) (s : Fr) (ks : KZGSettings) (F : nat) (QB : list (list Fr)).
Hypothesis HS : setup s (F + 1) = Ret ks.
Hypothesis HB : bdeg F (2 * F) QB.

Let Qs := map (fun j => secy QB (of_nat j)) (seq 1 (2 * F + 1)).

Lemma commit_contents_correct : commit_contents ks Qs = Ret (map (pc_of s QB) (seq 1 (2 * F + 1))).
Proof.
  unfold commit_contents, Qs at 2. rewrite map_length, seq_length.
  apply gomap_ret. intros j Hj. apply in_seq in Hj.
  rewrite (idx_nth []) by (unfold Qs; rewrite map_length, seq_length; lia). cbn [bind].
  unfold Qs. rewrite (nth_map_seq (fun j => secy QB (of_nat j))) by lia.
  replace (1 + (j - 1))%nat with j by lia.
  pose proof (zpart_length F (2 * F) QB j HB) as LZ. fold (zpart QB j).
  assert (E0 : idx (secy QB (of_nat j)) 0 = Ret (beval QB 0 (of_nat j))).
  { destruct (secy_head F (2 * F) QB j HB) as (t & E & _). rewrite E. reflexivity. }
  rewrite E0. cbn [bind]. fold (zpart QB j).
  rewrite (commit_section s (F + 1) ks F (2 * F) QB _ HS HB) by lia. cbn [bind].
  rewrite (commit_correct s (F + 1) ks HS) by lia. cbn [bind].
  rewrite (proof_correct s (F + 1) ks HS) by (try (intros E; rewrite E in LZ; discriminate); lia).
  cbn [bind]. rewrite MulG1_gen. reflexivity.
Qed.

Lemma commit_send_correct :
  CommitSend cd ks Qs = Ret (map (fun j => pcm_of cd (pc_of s QB j)) (seq 1 (2 * F + 1))).
Proof. unfold CommitSend. rewrite commit_contents_correct. cbn [bind]. rewrite map_map. reflexivity. Qed.

Lemma reshare_send_correct N : ReshareSend cd ks N Qs =
  Ret (map (fun k => mkRS (map (fun j => FrTo32 (beval QB (of_nat k) (of_nat j))) (seq 1 (2 * F + 1)))
                       (map (fun j => ToCompressedG1 cd (mkG1 (peval (wrow s QB (of_nat k)) (of_nat j))))
                          (seq 1 (2 * F + 1)))) (seq 1 N)).
Proof.
  unfold ReshareSend. apply gomap_ret. intros k _.
  rewrite (gomap_ret _ (fun q => ToCompressedG1 cd (mkG1 (peval (fst (sdiv q (of_nat k))) s)))).
  - cbn [bind]. unfold Qs. rewrite !map_map. do 2 f_equal.
    + apply map_ext. intros j. rewrite EvalPolyAt_correct, peval_secy. reflexivity.
    + apply map_ext. intros j. unfold wrow. rewrite (sdiv_secy F (2 * F) QB _ _ HB). reflexivity.
  - intros q Hq. unfold Qs in Hq. apply in_map_iff in Hq. destruct Hq as (j & <- & _).
    pose proof (length_secy F (2 * F) QB (of_nat j) HB) as L.
    rewrite (proof_correct s (F + 1) ks HS) by (try (intros E; rewrite E in L; discriminate); lia).
    reflexivity.
Qed.
End Commit.

(** ** Verification of commit messages *)

(** [data] holds (from index 0 on) encodings of the contents [c 1], ..., [c (2F+1)]. *)
Definition decodes (cd : g1codec) (F : nat) (data : list PiContentMsg) (c : nat -> PiContent) : Prop :=
  forall j, (1 <= j <= 2 * F + 1)%nat ->
    exists m, nth_error data (j - 1) = Some m /\ decodes_content cd m (c j).

Lemma ReadG1_ok cd b g : FromCompressedG1 cd b = Some g -> ReadG1 cd b = Ret g.
Proof. intros H. unfold ReadG1. rewrite H. reflexivity. Qed.

Lemma gofold_ext {S A} (f g : S -> A -> go S) l s :
  (forall s a, In a l -> f s a = g s a) -> gofold f l s = gofold g l s.
Proof.
  revert s. induction l as [|a l IH]; intros s H; [reflexivity|]. cbn [gofold].
  rewrite H by (left; reflexivity). destruct (g s a); try reflexivity. cbn [bind]. apply IH.
  intros. apply H. right. assumption.
Qed.

(** Setting a range of a list. *)
Lemma goloop_set {A} (d : A) (g : nat -> A) n lo row : (lo + n <= length row)%nat ->
  exists row', goloop lo n (fun row k => upd row k (g k)) row = Ret row' /\ length row' = length row /\
    forall j, nth j row' d = if ((lo <=? j) && (j <? lo + n))%nat then g j else nth j row d.
Proof.
  intros Hl.
  destruct (goloop_inv (fun i row' => length row' = length row /\
     forall j, nth j row' d = if ((lo <=? j) && (j <? i))%nat then g j else nth j row d) lo n
     (fun row k => upd row k (g k)) row) as (row' & E & L & H).
  - split; [reflexivity|]. intros j. destruct (lo <=? j)%nat eqn:E1, (j <? lo)%nat eqn:E2; try reflexivity.
    apply Nat.leb_le in E1. apply Nat.ltb_lt in E2. lia.
  - intros i a Hi (L & H). unfold upd. rewrite (proj2 (Nat.ltb_lt i (length a))) by lia.
    eexists. split; [reflexivity|]. split; [rewrite length_set_nth; exact L|].
    intros j. rewrite nth_set_nth, H.
    rewrite (proj2 (Nat.ltb_lt i (length a))) by lia.
    destruct (Nat.eqb_spec i j) as [->|Ne]; cbn [andb].
    + rewrite (proj2 (Nat.leb_le lo j)) by lia. rewrite (proj2 (Nat.ltb_lt j (1 + j))) by lia. reflexivity.
    + destruct (lo <=? j)%nat; [|reflexivity]. cbn [andb].
      destruct (Nat.ltb_spec j i), (Nat.ltb_spec j (1 + i)); try reflexivity; lia.
  - exists row'. auto.
Qed.

Section Verify.
Variables (cd : g1codec) (s : Fr) (p : Party).
Hypothesis W : party_wf s p.

Notation F := (p_F p).
Notation N := (p_N p).

Definition commit_good (c : nat -> PiContent) (j : nat) : Prop :=
  CBj (c j) = AddG1 (CZj (c j)) (gFj (c j)) /\
  CheckProofSingle (p_KZG p) (CZj (c j)) (WZ0 (c j)) 0 0 = Ret true.

Lemma good_dec c j : {commit_good c j} + {~ commit_good c j}.
Proof.
  unfold commit_good. destruct W as (W1 & _ & W3 & _).
  rewrite (check_correct s (F + 1) _ W1) by lia.
  destruct (EqualG1 (CBj (c j)) (AddG1 (CZj (c j)) (gFj (c j)))) eqn:E.
  - apply EqualG1_eq in E. destruct (feqb _ _); [left; auto|right; intros (_ & H); discriminate].
  - right. intros (H & _). apply EqualG1_eq in H. congruence.
Qed.

Lemma verify_loop data c row rv : decodes cd F data c -> length row = (N + 1)%nat ->
  exists b row', goloop 0 (2 * F + 1)
    (fun (st : bool * list G1) k =>
       c <- idx data k ;;
       CQk <- ReadG1 cd (m_CBj c) ;;
       CZk <- ReadG1 cd (m_CZj c) ;;
       wZk <- ReadG1 cd (m_WZ0 c) ;;
       GFk <- ReadG1 cd (m_GFj c) ;;
       let mulRes := AddG1 CZk GFk in
       verifyKZGOk <- CheckProofSingle (p_KZG p) CZk wZk 0 0 ;;
       if negb (EqualG1 CQk mulRes) || negb verifyKZGOk then Ret (true, snd st)
       else row' <- upd (snd st) (k + 1) CQk ;; Ret (fst st, row')) (rv, row) = Ret (b, row') /\
    length row' = (N + 1)%nat /\
    (b = false <-> rv = false /\ forall j, (1 <= j <= 2 * F + 1)%nat -> commit_good c j) /\
    (forall j, (1 <= j <= 2 * F + 1)%nat -> commit_good c j -> nth j row' ZeroG1 = CBj (c j)) /\
    (forall j, ~ ((1 <= j <= 2 * F + 1)%nat /\ commit_good c j) -> nth j row' ZeroG1 = nth j row ZeroG1).
Proof.
  intros D LR. destruct W as (W1 & _ & W3 & W4 & _).
  match goal with |- context [goloop 0 _ ?b _] => set (body := b) end.
  destruct (goloop_inv (fun i (st : bool * list G1) => length (snd st) = (N + 1)%nat /\
     (fst st = false <-> rv = false /\ forall j, (1 <= j <= i)%nat -> commit_good c j) /\
     (forall j, (1 <= j <= i)%nat -> commit_good c j -> nth j (snd st) ZeroG1 = CBj (c j)) /\
     (forall j, ~ ((1 <= j <= i)%nat /\ commit_good c j) -> nth j (snd st) ZeroG1 = nth j row ZeroG1))
     0 (2 * F + 1) body (rv, row)) as ((b & row') & E & L & H1 & H2 & H3).
  - cbn [fst snd]. split; [exact LR|]. split.
    + split; [intros ->|intros (-> & _); reflexivity]. split; [reflexivity|]. intros j Hj. lia.
    + split; [intros j Hj; lia|]. reflexivity.
  - intros i (b & rw) Hi (L & H1 & H2 & H3). cbn [fst snd] in *. unfold body.
    destruct (D (i + 1)%nat ltac:(lia)) as (m & Em & D1 & D2 & D3 & D4).
    replace (i + 1 - 1)%nat with i in Em by lia.
    unfold idx. rewrite Em. cbn [bind]. rewrite (ReadG1_ok _ _ _ D1). cbn [bind].
    rewrite (ReadG1_ok _ _ _ D2). cbn [bind]. rewrite (ReadG1_ok _ _ _ D3). cbn [bind].
    rewrite (ReadG1_ok _ _ _ D4). cbn [bind].
    destruct (good_dec c (i + 1)) as [G|G].
    + pose proof G as (G1 & G2). rewrite G2. cbn [bind].
      rewrite (proj2 (EqualG1_eq _ _) G1). cbn [negb orb].
      unfold upd. cbn [snd]. rewrite (proj2 (Nat.ltb_lt (i + 1) (length rw))) by lia. cbn [bind].
      eexists. split; [reflexivity|]. cbn [fst snd].
      split; [rewrite length_set_nth; exact L|]. split; [|split].
      * rewrite H1. split; intros (A1 & A2); (split; [exact A1|]); intros j Hj.
        -- destruct (Nat.eq_dec j (i + 1)) as [->|]; [exact G|apply A2; lia].
        -- apply A2. lia.
      * intros j Hj Gj. destruct (Nat.eq_dec j (i + 1)) as [->|Ne].
        -- rewrite nth_set_nth_same by lia. reflexivity.
        -- rewrite nth_set_nth_other by lia. apply H2; [lia|exact Gj].
      * intros j Nj. rewrite nth_set_nth_other.
        -- apply H3. intros (A1 & A2). apply Nj. split; [lia|exact A2].
        -- intros <-. apply Nj. split; [lia|exact G].
    + assert (EC : exists v, CheckProofSingle (p_KZG p) (CZj (c (i + 1)%nat)) (WZ0 (c (i + 1)%nat)) 0 0 = Ret v /\
        negb (EqualG1 (CBj (c (i + 1)%nat)) (AddG1 (CZj (c (i + 1)%nat)) (gFj (c (i + 1)%nat)))) || negb v = true).
      { rewrite (check_correct s (F + 1) _ W1) by lia. eexists. split; [reflexivity|].
        destruct (EqualG1 _ _) eqn:E1; [|reflexivity]. destruct (feqb _ _) eqn:E2; [|reflexivity].
        exfalso. apply G. split; [apply EqualG1_eq; exact E1|].
        rewrite (check_correct s (F + 1) _ W1) by lia. rewrite E2. reflexivity. }
      destruct EC as (v & EC1 & EC2). rewrite EC1. cbn [bind]. rewrite EC2.
      eexists. split; [reflexivity|]. cbn [fst snd]. split; [exact L|]. split; [|split].
      * split; [discriminate|]. intros (_ & A). exfalso. apply G. apply A. lia.
      * intros j Hj Gj. apply H2; [|exact Gj]. destruct (Nat.eq_dec j (i + 1)) as [->|]; [contradiction|lia].
      * intros j Nj. apply H3. intros (A1 & A2). apply Nj. split; [lia|exact A2].
  - exists b, row'. cbn [fst snd] in *. rewrite Nat.add_0_l in *. auto.
Qed.

(** Any 2F+1 points lie on a polynomial. *)
Lemma points_poly d (g : nat -> G1) : (Z.of_nat (d + 2) <= r)%Z ->
  exists c, length c = (d + 1)%nat /\ forall j, (1 <= j <= d + 1)%nat -> g j = mkG1 (peval c (of_nat j)).
Proof.
  intros HR.
  destruct (LagrangeInterpolate_correct d (map of_nat (seq 1 (d + 1))) (map (fun j => dlog1 (g j)) (seq 1 (d + 1))))
    as (q & _ & L & H & _).
  - rewrite firstn_all2 by (rewrite map_length, seq_length; lia). apply NoDup_of_nat_from. lia.
  - rewrite map_length, seq_length. lia.
  - rewrite map_length, seq_length. lia.
  - exists q. split; [exact L|]. intros j Hj. specialize (H (j - 1)%nat ltac:(lia)).
    rewrite (nth_map_seq of_nat) in H by lia. rewrite (nth_map_seq (fun j => dlog1 (g j))) in H by lia.
    replace (1 + (j - 1))%nat with j in H by lia. rewrite H. destruct (g j). reflexivity.
Qed.

Lemma seq_list {A} (d : A) (l : list A) n : length l = (n + 1)%nat ->
  tl l = map (fun j => nth j l d) (seq 1 n).
Proof.
  intros L. destruct l as [|a l]; [simpl in L; lia|]. cbn [tl].
  pose proof (list_as_map d (a :: l) n ltac:(simpl in *; lia)) as H. injection H as H. exact H.
Qed.

(** Extension of the row to the indexes above 2F+1. *)
Lemma extend_loop row c : length row = (N + 1)%nat -> (length c <= 2 * F + 1)%nat ->
  (forall j, (1 <= j <= 2 * F + 1)%nat -> nth j row ZeroG1 = mkG1 (peval c (of_nat j))) ->
  exists row', goloop (2 * F + 2) (N - (2 * F + 1))
      (fun row k =>
         known <- slice_to row (2 * F + 2) ;;
         c <- InterpolateComOrWit F (p_tab p) (2 * F) k (tl known) ;;
         upd row k c) row = Ret row' /\ length row' = (N + 1)%nat /\
    forall j, (1 <= j <= N)%nat -> nth j row' ZeroG1 = mkG1 (peval c (of_nat j)).
Proof.
  intros LR Lc HR. destruct W as (W1 & W2 & W3 & W4 & W5 & _).
  match goal with |- context [goloop _ _ ?b _] => set (body := b) end.
  destruct (goloop_inv (fun i row' => length row' = (N + 1)%nat /\
     forall j, (1 <= j < i)%nat -> nth j row' ZeroG1 = mkG1 (peval c (of_nat j)))
     (2 * F + 2) (N - (2 * F + 1)) body row) as (row' & E & L & H).
  - split; [exact LR|]. intros j Hj. apply HR. lia.
  - intros i a Hi (L & H). unfold body, slice_to.
    rewrite (proj2 (Nat.leb_le (2 * F + 2) (length a))) by lia. cbn [bind].
    assert (ET : tl (firstn (2 * F + 2) a) = map (fun j => mkG1 (peval c (of_nat j))) (seq 1 (2 * F + 1))).
    { rewrite (seq_list ZeroG1 _ (2 * F + 1)) by (rewrite firstn_length; lia).
      apply map_ext_in. intros j Hj. apply in_seq in Hj. rewrite nth_firstn_lt by lia. apply H. lia. }
    rewrite ET, (InterpolateComOrWit_correct F (p_tab p) N) by (auto; lia). cbn [bind].
    unfold upd. rewrite (proj2 (Nat.ltb_lt i (length a))) by lia.
    eexists. split; [reflexivity|]. split; [rewrite length_set_nth; exact L|].
    intros j Hj. destruct (Nat.eq_dec j i) as [->|Ne].
    + rewrite nth_set_nth_same by lia. reflexivity.
    + rewrite nth_set_nth_other by lia. apply H. lia.
  - exists row'. split; [exact E|]. split; [exact L|]. intros j Hj. apply H. lia.
Qed.

(** The verdict of the verification, on any message whose points can be decoded. *)
Theorem verify_commit_spec data c row : decodes cd F data c -> length row = (N + 1)%nat ->
  exists b row', VerifyCommit cd p row data = Ret (b, row') /\ length row' = (N + 1)%nat /\
    (b = true <->
       (forall j, (1 <= j <= 2 * F + 1)%nat -> commit_good c j) /\
       (forall f, (length f <= 2 * F + 1)%nat ->
          (forall j, (1 <= j <= 2 * F + 1)%nat -> gFj (c j) = mkG1 (peval f (of_nat j))) -> peval f 0 = 0)) /\
    (b = true -> forall f, (length f <= 2 * F + 1)%nat ->
       (forall j, (1 <= j <= 2 * F + 1)%nat -> CBj (c j) = mkG1 (peval f (of_nat j))) ->
       forall j, (1 <= j <= N)%nat -> nth j row' ZeroG1 = mkG1 (peval f (of_nat j))) /\
    (b = false -> forall j,
       nth j row' ZeroG1 =
       if (j <? 2 * F + 1)%nat then ZeroG1
       else if (j =? 2 * F + 1)%nat then if good_dec c j then CBj (c j) else nth j row ZeroG1
       else nth j row ZeroG1).
Proof.
  intros D LR. pose proof W as (W1 & W2 & W3 & W4 & W5 & _).
  unfold VerifyCommit. cbv zeta.
  assert (EG : gomap (fun i => c <- idx data i ;; ReadG1 cd (m_GFj c)) (seq 0 (2 * F + 1)) =
    Ret (map (fun j => gFj (c j)) (seq 1 (2 * F + 1)))).
  { rewrite (gomap_ret _ (fun i => gFj (c (i + 1)%nat))).
    - f_equal. rewrite <- seq_shift, map_map. apply map_ext. intros j. do 2 f_equal. lia.
    - intros i Hi. apply in_seq in Hi. destruct (D (i + 1)%nat ltac:(lia)) as (m & Em & _ & _ & _ & D4).
      replace (i + 1 - 1)%nat with i in Em by lia. unfold idx. rewrite Em. cbn [bind].
      apply ReadG1_ok. exact D4. }
  rewrite EG. cbn [bind].
  destruct (points_poly (2 * F) (fun j => gFj (c j)) ltac:(lia)) as (f & Lf & Hf).
  assert (EM : map (fun j => gFj (c j)) (seq 1 (2 * F + 1)) = map (fun j => mkG1 (peval f (of_nat j))) (seq 1 (2 * F + 1))).
  { apply map_ext_in. intros j Hj. apply in_seq in Hj. apply Hf. lia. }
  rewrite EM, (InterpolateComOrWit_correct F (p_tab p) N) by (auto; lia). cbn [bind].
  change (of_nat 0) with 0.
  set (rv := negb (EqualG1 (mkG1 (peval f 0)) ZeroG1)).
  destruct (verify_loop data c row rv D LR) as (b & row1 & E1 & L1 & B1 & G1 & G2).
  cbv zeta in E1. rewrite E1. cbn [bind].
  assert (RV : rv = false <-> peval f 0 = 0).
  { unfold rv. rewrite negb_false_iff, EqualG1_eq. split; [intros H; injection H as H; exact H|intros ->; reflexivity]. }
  assert (RF : peval f 0 = 0 <-> (forall f, (length f <= 2 * F + 1)%nat ->
          (forall j, (1 <= j <= 2 * F + 1)%nat -> gFj (c j) = mkG1 (peval f (of_nat j))) -> peval f 0 = 0)).
  { split.
    - intros H g Lg Hg. transitivity (peval f 0); [|exact H]. apply (poly_unique (map of_nat (seq 1 (2 * F + 1)))).
      + apply NoDup_of_nat_from. lia.
      + rewrite map_length, seq_length. lia.
      + rewrite map_length, seq_length. lia.
      + intros x Hx. apply in_map_iff in Hx. destruct Hx as (j & <- & Hj). apply in_seq in Hj.
        specialize (Hf j ltac:(lia)). specialize (Hg j ltac:(lia)). rewrite Hf in Hg. injection Hg as ->. reflexivity.
    - intros H. apply H; [lia|exact Hf]. }
  destruct b.
  - destruct (goloop_set ZeroG1 (fun _ => ZeroG1) (2 * F + 1) 0 row1 ltac:(lia)) as (row' & E & L & H).
    rewrite E. cbn [bind]. exists false, row'. split; [reflexivity|]. split; [lia|].
    split; [|split].
    + split; [discriminate|]. intros (A1 & A2). assert (true = false); [|discriminate].
      apply B1. split; [apply RV, RF, A2|exact A1].
    + discriminate.
    + intros _ j. rewrite H. cbn [Nat.leb andb Nat.add].
      destruct (Nat.ltb_spec j (2 * F + 1)) as [Hj|Hj]; [reflexivity|].
      destruct (Nat.eqb_spec j (2 * F + 1)) as [Ej|Ne].
      * destruct (good_dec c j) as [G|G].
        -- apply G1; [lia|exact G].
        -- apply G2. intros (_ & A). contradiction.
      * apply G2. intros (A & _). lia.
  - destruct (proj1 B1 eq_refl) as (B2 & B3).
    destruct (points_poly (2 * F) (fun j => CBj (c j)) ltac:(lia)) as (h & Lh & Hh).
    destruct (extend_loop row1 h L1 ltac:(lia)) as (row' & E & L & H).
    { intros j Hj. rewrite G1 by (auto; lia). apply Hh. lia. }
    rewrite E. cbn [bind]. exists true, row'. split; [reflexivity|]. split; [exact L|]. split; [|split].
    + split; [|reflexivity]. intros _. split; [exact B3|]. apply RF, RV, B2.
    + intros _ g Lg Hg j Hj. rewrite H by exact Hj. f_equal.
      apply (poly_unique (map of_nat (seq 1 (2 * F + 1)))).
      * apply NoDup_of_nat_from. lia.
      * rewrite map_length, seq_length. lia.
      * rewrite map_length, seq_length. lia.
      * intros x Hx. apply in_map_iff in Hx. destruct Hx as (i & <- & Hi). apply in_seq in Hi.
        specialize (Hh i ltac:(lia)). specialize (Hg i ltac:(lia)). rewrite Hh in Hg. injection Hg as ->. reflexivity.
    + discriminate.
Qed.

(** A verification that does not panic has decoded all points. *)
Lemma verify_commit_decodes data row x : VerifyCommit cd p row data = Ret x ->
  exists c, decodes cd F data c.
Proof.
  unfold VerifyCommit. cbv zeta. intros H.
  apply bind_ret in H. destruct H as (gs & _ & H).
  apply bind_ret in H. destruct H as (ir & _ & H).
  apply bind_ret in H. destruct H as ((b, rw) & H & _).
  assert (A : forall j, exists c, (1 <= j <= 2 * F + 1)%nat ->
    exists m, nth_error data (j - 1) = Some m /\ decodes_content cd m c).
  { pose proof (goloop_ret_inv (fun i (_ : bool * list G1) => forall j, (1 <= j <= i)%nat ->
      exists c m, nth_error data (j - 1) = Some m /\ decodes_content cd m c) _ _ _ _ _ H) as I.
    intros j. destruct (Nat.le_gt_cases 1 j) as [J1|J1]; [|exists pc0; lia].
    destruct (Nat.le_gt_cases j (2 * F + 1)) as [J2|J2]; [|exists pc0; lia].
    destruct I with (j := j) as (c & m & A); try lia.
    - intros i x1 x2 Hi IH Hb k Hk. destruct (Nat.eq_dec k (1 + i)) as [->|Ne]; [|apply IH; lia].
      apply bind_ret in Hb. destruct Hb as (m & Em & Hb). apply idx_inv in Em.
      apply bind_ret in Hb. destruct Hb as (c1 & D1 & Hb). apply ReadG1_inv in D1.
      apply bind_ret in Hb. destruct Hb as (c2 & D2 & Hb). apply ReadG1_inv in D2.
      apply bind_ret in Hb. destruct Hb as (c3 & D3 & Hb). apply ReadG1_inv in D3.
      apply bind_ret in Hb. destruct Hb as (c4 & D4 & Hb). apply ReadG1_inv in D4.
      exists (mkPC 0 c1 c2 c3 c4), m. replace (1 + i - 1)%nat with i by lia. split; [exact Em|].
      unfold decodes_content. cbn [CBj CZj WZ0 gFj]. auto.
    - exists c. intros _. exists m. exact A. }
  clear H.
  assert (CH : forall n, exists f : nat -> PiContent, forall j, (j <= n)%nat -> (1 <= j <= 2 * F + 1)%nat ->
    exists m, nth_error data (j - 1) = Some m /\ decodes_content cd m (f j)).
  { induction n as [|n (f & IH)].
    - exists (fun _ => pc0). intros. lia.
    - destruct (A (S n)) as (c & HC). exists (fun j => if (j =? S n)%nat then c else f j).
      intros j J1 J2. destruct (Nat.eqb_spec j (S n)) as [->|Ne]; [apply HC; exact J2|apply IH; [lia|exact J2]]. }
  destruct (CH (2 * F + 1)%nat) as (f & Hf). exists f. intros j Hj. apply Hf; [lia|exact Hj].
Qed.

Lemma honest_good QB j : bdeg F (2 * F) QB -> commit_good (pc_of s QB) j.
Proof.
  intros HB. destruct W as (W1 & _ & W3 & _). unfold commit_good, pc_of. cbn [CBj CZj gFj WZ0]. split.
  - unfold AddG1. cbn [dlog1]. f_equal. rewrite (zpart_eval F (2 * F)) by exact HB. rewrite peval_secx. ring.
  - apply (check_iff s (F + 1) _ W1); [lia|]. cbn [dlog1].
    pose proof (sdiv_eval (zpart QB j) 0 s) as E.
    assert (Z0 : peval (zpart QB j) 0 = 0) by (rewrite (zpart_eval F (2 * F)) by exact HB; ring).
    rewrite Z0 in E. rewrite E. ring.
Qed.

Lemma honest_decodes QB : codec_ok cd ->
  decodes cd F (map (fun j => pcm_of cd (pc_of s QB j)) (seq 1 (2 * F + 1))) (pc_of s QB).
Proof.
  intros HC j Hj. eexists. split.
  - rewrite nth_error_map, (nth_error_nth' (seq 1 (2 * F + 1)) O) by (rewrite seq_length; lia).
    rewrite seq_nth by lia. replace (1 + (j - 1))%nat with j by lia. reflexivity.
  - unfold decodes_content, pcm_of. cbn [m_CBj m_CZj m_WZ0 m_GFj]. rewrite !HC. auto.
Qed.

(** Honest messages are accepted and the whole row is the commitment to QB. *)
Lemma verify_honest QB row : codec_ok cd -> bdeg F (2 * F) QB -> beval QB 0 0 = 0 ->
  length row = (N + 1)%nat ->
  exists row', VerifyCommit cd p row (map (fun j => pcm_of cd (pc_of s QB j)) (seq 1 (2 * F + 1))) = Ret (true, row') /\
    length row' = (N + 1)%nat /\
    forall j, (1 <= j <= N)%nat -> nth j row' ZeroG1 = mkG1 (peval (secx QB s) (of_nat j)).
Proof.
  intros HC HB H0 LR. pose proof W as (W1 & W2 & W3 & W4 & W5 & _).
  destruct (verify_commit_spec _ _ row (honest_decodes QB HC) LR) as (b & row' & E & L & B & R & _).
  assert (BT : b = true).
  { apply B. split; [intros j _; apply honest_good; exact HB|].
    intros f Lf Hf. transitivity (peval (secx QB 0) 0); [|exact H0].
    apply (poly_unique (map of_nat (seq 1 (2 * F + 1)))).
    - apply NoDup_of_nat_from. lia.
    - rewrite map_length, seq_length. lia.
    - rewrite length_secx, map_length, seq_length. destruct HB as (-> & _). lia.
    - intros x Hx. apply in_map_iff in Hx. destruct Hx as (j & <- & Hj). apply in_seq in Hj.
      specialize (Hf j ltac:(lia)). unfold pc_of in Hf. cbn [gFj] in Hf. injection Hf as Hf. rewrite <- Hf.
      reflexivity. }
  subst b. exists row'. split; [exact E|]. split; [exact L|]. apply R; [reflexivity| |reflexivity].
  rewrite length_secx. destruct HB as (-> & _). lia.
Qed.
End Verify.

(** ** Votes *)

Lemma table_row N F tab l : LagrangeTable N F = Ret tab -> (Z.of_nat (2 * F + 2) <= r)%Z -> (l <= N)%nat ->
  exists row, idx tab l = Ret row /\ length row = (2 * F + 1)%nat /\
    forall c, (length c <= 2 * F + 1)%nat ->
      dot (map (fun j => peval c (of_nat j)) (seq 1 (2 * F + 1))) row = peval c (of_nat l).
Proof.
  intros T HR Hl. rewrite LagrangeTable_correct in T. injection T as <-.
  eexists. split; [|split].
  - unfold idx. rewrite nth_error_map, (nth_error_nth' (seq 0 (N + 1)) O) by (rewrite seq_length; lia).
    rewrite seq_nth by lia. reflexivity.
  - rewrite map_length, seq_length. reflexivity.
  - intros c Lc.
    destruct (GetLagrangeCoefficients_apply (2 * F) (knownIndices F) (of_nat l) (repeat 0 (2 * F + 1)) c)
      as (row & E & _ & D); auto.
    + apply knownIndices_length.
    + apply repeat_length.
    + apply knownIndices_NoDup. exact HR.
    + rewrite GetLagrangeCoefficients_correct in E by (try apply knownIndices_length; apply repeat_length).
      injection E as <-. rewrite dot_comm, <- D. f_equal. rewrite knownIndices_eq, map_map. reflexivity.
Qed.

Section Votes.
Variables (cd : g1codec) (s : Fr) (p : Party).
Hypothesis W : party_wf s p.
Notation F := (p_F p).
Notation N := (p_N p).

(** The message holds (from index 0 on) the values [v 1], ... and the witnesses [w 1], ... *)
Definition reshare_decodes (m : ReshareMsg) (v : nat -> Fr) (w : nat -> G1) : Prop :=
  forall k, (1 <= k <= 2 * F + 1)%nat ->
    (exists b, nth_error (rs_Qk m) (k - 1) = Some b /\ v k = FrFrom32_into 0 (to32 b)) /\
    (exists wb, nth_error (rs_WQk m) (k - 1) = Some wb /\ FromCompressedG1 cd wb = Some (w k)).

Lemma vote_check_spec m v w row : reshare_decodes m v w -> length row = (N + 1)%nat ->
  exists ok,
    CheckProofSingle (p_KZG p) (nth (2 * F + 1) row ZeroG1) (w (2 * F + 1)%nat) (of_nat (p_PID p + 1))
      (v (2 * F + 1)%nat) = Ret ok /\
    vote_check cd p row m = Ret (ok, (map v (seq 1 (2 * F + 1)), map w (seq 1 (2 * F + 1)))).
Proof.
  intros D LR. pose proof W as (W1 & W2 & W3 & W4 & W5 & _).
  set (chk := fun k => feqb (dlog1 (nth k row ZeroG1) - v k) (dlog1 (w k) * (s - of_nat (p_PID p + 1)))).
  exists (chk (2 * F + 1)%nat). split; [apply (check_correct s (F + 1) _ W1); lia|].
  unfold vote_check.
  match goal with |- context [goloop 1 _ ?b _] => set (body := b) end.
  destruct (goloop_inv (fun i (st : bool * (list Fr * list G1)) =>
     (2 <= i -> fst st = chk (i - 1))%nat /\ snd st = (map v (seq 1 (i - 1)), map w (seq 1 (i - 1))))
     1 (2 * F + 1) body (false, ([], []))) as ((b & st) & E & H1 & H2).
  - split; [intros; lia|reflexivity].
  - intros i (b & st) Hi (_ & H2). cbn [snd] in H2. subst st. unfold body. cbn [fst snd].
    destruct (D i ltac:(lia)) as ((bb & Eb & Ev) & wb & Ewb & Dw).
    unfold idx at 1. rewrite Eb. cbn [bind]. unfold idx at 1. rewrite Ewb. cbn [bind].
    rewrite (ReadG1_ok _ _ _ Dw). cbn [bind]. rewrite (idx_nth ZeroG1) by lia. cbn [bind].
    rewrite <- Ev. rewrite (check_correct s (F + 1) _ W1) by lia. cbn [bind].
    eexists. split; [reflexivity|]. cbn [fst snd]. replace (1 + i - 1)%nat with i by lia.
    split; [reflexivity|].
    assert (ES : seq 1 i = seq 1 (i - 1) ++ [i]).
    { replace (seq 1 i) with (seq 1 ((i - 1) + 1)) by (f_equal; lia). rewrite seq_app. cbn [seq].
      do 3 f_equal. lia. }
    rewrite ES, !map_app. reflexivity.
  - change (1 + (2 * F + 1))%nat with (S (2 * F + 1)) in *. rewrite E. cbn [fst snd] in *.
    replace (S (2 * F + 1) - 1)%nat with (2 * F + 1)%nat in * by lia.
    rewrite H1 by lia. rewrite H2. reflexivity.
Qed.

Lemma vote_check_decodes m row x : vote_check cd p row m = Ret x ->
  exists v w, reshare_decodes m v w.
Proof.
  unfold vote_check. intros H.
  set (B := fun k => match nth_error (rs_Qk m) (k - 1) with Some b => b | None => [] end).
  set (V := fun k => match nth_error (rs_WQk m) (k - 1) with
                     | Some b => match FromCompressedG1 cd b with Some g => g | None => ZeroG1 end
                     | None => ZeroG1 end).
  exists (fun k => FrFrom32_into 0 (to32 (B k))), V.
  assert (I := goloop_ret_inv (fun i (_ : bool * (list Fr * list G1)) => forall k, (1 <= k < i)%nat ->
    (exists b, nth_error (rs_Qk m) (k - 1) = Some b) /\
    (exists wb g, nth_error (rs_WQk m) (k - 1) = Some wb /\ FromCompressedG1 cd wb = Some g)) _ _ _ _ _ H).
  intros k Hk. destruct I with (k := k) as ((b & Eb) & wb & g & Ew & Dg).
  - intros k' Hk'. exfalso. lia.
  - intros i a1 a2 Hi IH Hb k' Hk'. destruct (Nat.eq_dec k' i) as [->|Ne]; [|apply IH; lia].
    apply bind_ret in Hb. destruct Hb as (b & Eb & Hb). apply idx_inv in Eb.
    apply bind_ret in Hb. destruct Hb as (wb & Ew & Hb). apply idx_inv in Ew.
    apply bind_ret in Hb. destruct Hb as (g & Dg & _). apply ReadG1_inv in Dg. eauto 6.
  - lia.
  - split.
    + exists b. split; [exact Eb|]. unfold B. rewrite Eb. reflexivity.
    + exists wb. split; [exact Ew|]. unfold V. rewrite Ew, Dg. reflexivity.
Qed.

Lemma vote_messages_correct ix sig a b : (length a <= 2 * F + 1)%nat -> (length b <= 2 * F + 1)%nat ->
  vote_messages cd p ix sig (map (fun j => peval a (of_nat j)) (seq 1 (2 * F + 1)))
    (map (fun j => mkG1 (peval b (of_nat j))) (seq 1 (2 * F + 1))) =
  Ret (map (fun l => mkRec ix (FrTo32 (peval a (of_nat l))) (ToCompressedG1 cd (mkG1 (peval b (of_nat l)))) sig)
         (seq 1 N)).
Proof.
  intros La Lb. pose proof W as (W1 & W2 & W3 & W4 & W5 & _).
  unfold vote_messages. apply gomap_ret. intros l Hl. apply in_seq in Hl.
  destruct (Nat.leb_spec l (2 * F + 1)) as [H|H].
  - rewrite (idx_nth 0) by (rewrite map_length, seq_length; lia). cbn [bind].
    rewrite (idx_nth ZeroG1) by (rewrite map_length, seq_length; lia). cbn [bind].
    rewrite (nth_map_seq (fun j => peval a (of_nat j))), (nth_map_seq (fun j => mkG1 (peval b (of_nat j)))) by lia.
    replace (1 + (l - 1))%nat with l by lia. reflexivity.
  - destruct (table_row N F (p_tab p) l W2 ltac:(lia) ltac:(lia)) as (row & E & L & D).
    rewrite E. cbn [bind]. rewrite LinCombFr_correct by (rewrite map_length, seq_length; lia). cbn [bind].
    rewrite LinCombG1_correct by (rewrite map_length, seq_length; lia). cbn [bind].
    rewrite map_map. cbn [dlog1]. rewrite !D by assumption. reflexivity.
Qed.

(** Vote of an honest member on the message of an honest dealer. *)
Definition recover_msg (QB : list (list Fr)) (ix : Z) (sig : list Z) (i l : nat) : RecoverMsg :=
  mkRec ix (FrTo32 (beval QB (of_nat i) (of_nat l)))
    (ToCompressedG1 cd (mkG1 (peval (wrow s QB (of_nat i)) (of_nat l)))) sig.

Definition reshare_msg (QB : list (list Fr)) (k : nat) : ReshareMsg :=
  mkRS (map (fun j => FrTo32 (beval QB (of_nat k) (of_nat j))) (seq 1 (2 * F + 1)))
    (map (fun j => ToCompressedG1 cd (mkG1 (peval (wrow s QB (of_nat k)) (of_nat j)))) (seq 1 (2 * F + 1))).

Lemma nth_error_map_seq {A} (g : nat -> A) n k : (1 <= k <= n)%nat ->
  nth_error (map g (seq 1 n)) (k - 1) = Some (g k).
Proof.
  intros H. rewrite nth_error_map, (nth_error_nth' (seq 1 n) O) by (rewrite seq_length; lia).
  rewrite seq_nth by lia. replace (1 + (k - 1))%nat with k by lia. reflexivity.
Qed.

Lemma reshare_msg_decodes QB k : codec_ok cd ->
  reshare_decodes (reshare_msg QB k) (fun j => beval QB (of_nat k) (of_nat j))
    (fun j => mkG1 (peval (wrow s QB (of_nat k)) (of_nat j))).
Proof.
  intros HC j Hj. unfold reshare_msg. cbn [rs_Qk rs_WQk]. split.
  - eexists. split; [apply nth_error_map_seq; exact Hj|]. rewrite to32_FrTo32.
    unfold FrFrom32_into. rewrite FrFrom32_FrTo32. reflexivity.
  - eexists. split; [apply nth_error_map_seq; exact Hj|]. apply HC.
Qed.

Lemma opening QB F' dy x y : bdeg F' dy QB ->
  peval (secx QB s) y - beval QB x y = peval (wrow s QB x) y * (s - x).
Proof.
  intros HB. unfold wrow. rewrite <- (sdiv_secy F' dy QB y x HB s).
  rewrite peval_secx, <- !peval_secy. rewrite (sdiv_eval (secy QB y) x s). ring.
Qed.

Lemma vote_honest QB ix sig row : codec_ok cd -> bdeg F (2 * F) QB -> length row = (N + 1)%nat ->
  (forall j, (1 <= j <= N)%nat -> nth j row ZeroG1 = mkG1 (peval (secx QB s) (of_nat j))) ->
  Vote cd p row ix sig (reshare_msg QB (p_PID p + 1)) =
  Ret (Some (map (recover_msg QB ix sig (p_PID p + 1)) (seq 1 N))).
Proof.
  intros HC HB LR HR. pose proof W as (W1 & W2 & W3 & W4 & W5 & _).
  destruct (vote_check_spec _ _ _ row (reshare_msg_decodes QB (p_PID p + 1) HC) LR) as (ok & CK & E).
  rewrite HR in CK by lia. rewrite (check_correct s (F + 1) _ W1) in CK by lia. cbn [dlog1] in CK.
  rewrite (opening QB F (2 * F) _ _ HB) in CK. rewrite (proj2 (feqb_eq _ _) eq_refl) in CK.
  injection CK as <-. unfold Vote. rewrite E. cbn [bind fst snd].
  assert (EV := vote_messages_correct ix sig (secx QB (of_nat (p_PID p + 1))) (wrow s QB (of_nat (p_PID p + 1)))).
  unfold beval. unfold secx in EV. rewrite EV.
  - reflexivity.
  - rewrite map_length. destruct HB as (-> & _). lia.
  - unfold wrow. rewrite map_length. destruct HB as (-> & _). lia.
Qed.
End Votes.
