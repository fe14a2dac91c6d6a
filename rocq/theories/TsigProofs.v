(** Facts about threshold signatures. *)

Require Import ZArith List Lia Bool Arith Permutation.
From Verif Require Import Prime Fr Bytes CodecModel CodecProofs GoBase Poly PolyModel PolyProofs GroupModel TsigModel.
Import ListNotations.
Local Open Scope F_scope.

Lemma horner c x : loop_down 0 (length c) (fun v j => v * x + nth j c 0) 0 = peval c x.
Proof.
  unfold loop_down. induction c as [|a c IH]; [reflexivity|].
  cbn [length seq rev]. rewrite fold_left_app. cbn [fold_left nth].
  rewrite <- seq_shift, <- map_rev.
  assert (E : forall l v, fold_left (fun v j => v * x + nth j (a :: c) 0) (map S l) v =
                          fold_left (fun v j => v * x + nth j c 0) l v).
  { induction l as [|b l IHl]; intros v; cbn [map fold_left nth]; [reflexivity|apply IHl]. }
  rewrite E, IH. cbn [peval]. ring.
Qed.

Lemma PriEval_eq c i : PriEval c i = peval c (of_nat (1 + i)).
Proof. unfold PriEval. apply horner. Qed.

Lemma loop_down_g2 c x : forall l v,
  dlog2 (fold_left (fun v j => AddG2 (MulG2 v x) (nth j (Commit c) ZeroG2)) l v) =
  fold_left (fun v j => v * x + nth j c 0) l (dlog2 v).
Proof.
  induction l as [|j l IH]; intros v; cbn [fold_left]; [reflexivity|].
  rewrite IH. f_equal. cbn [AddG2 MulG2 dlog2]. f_equal.
  unfold Commit. replace ZeroG2 with (MulG2 GenG2 0).
  2:{ unfold MulG2, ZeroG2, GenG2. cbn [dlog2]. apply (f_equal mkG2). ring. }
  rewrite (map_nth (fun a => MulG2 GenG2 a)). unfold MulG2, GenG2. cbn [dlog2]. ring.
Qed.

Lemma PubEval_eq c i : dlog2 (PubEval (Commit c) i) = peval c (of_nat (1 + i)).
Proof.
  unfold PubEval, loop_down. rewrite loop_down_g2. cbn [dlog2 ZeroG2].
  unfold Commit. rewrite map_length. apply horner.
Qed.

Section Scheme.
Variable H : list Z -> G1.
Variable c : list Fr.
Notation pub := (Commit c).

Lemma partial_iff msg s : VerifyPartial H pub msg (Some s) = true <->
  ps_V s = MulG1 (H msg) (peval c (of_nat (1 + ps_I s))).
Proof.
  unfold VerifyPartial. rewrite PairingsVerify_eq, PubEval_eq. cbn [GenG2 dlog2].
  split; intros E.
  - apply G1_ext. cbn [MulG1 dlog1]. rewrite E. ring.
  - rewrite E. cbn [MulG1 dlog1]. ring.
Qed.

Lemma recovered_iff msg g : c <> [] ->
  (VerifyRecovered H pub msg g = true <-> g = MulG1 (H msg) (peval c 0)).
Proof.
  intros NE. unfold VerifyRecovered. rewrite PairingsVerify_eq. destruct c as [|a c']; [congruence|].
  cbn [Commit map nth MulG2 GenG2 dlog2]. rewrite peval_0. cbn [nth]. split; intros E.
  - apply G1_ext. cbn [MulG1 dlog1]. transitivity (dlog1 g * 1); [ring|]. rewrite <- E. ring.
  - rewrite E. cbn [MulG1 dlog1]. ring.
Qed.

Lemma insert_perm s l : Permutation (insert s l) (s :: l).
Proof.
  induction l as [|a l IH]; cbn [insert]; [apply Permutation_refl|].
  destruct (_ <=? _)%nat; [|apply Permutation_refl].
  apply perm_trans with (a :: s :: l); [apply perm_skip, IH|apply perm_swap].
Qed.

Lemma sort_perm l : Permutation (sort l) l.
Proof.
  unfold sort. assert (G : forall l acc, Permutation (fold_left (fun acc s => insert s acc) l acc) (acc ++ l)).
  { clear l. induction l as [|s l IH]; intros acc; cbn [fold_left]; [rewrite app_nil_r; apply Permutation_refl|].
    eapply perm_trans; [apply IH|].
    eapply perm_trans; [apply Permutation_app_tail, insert_perm|].
    cbn [app]. apply Permutation_middle. }
  specialize (G l []). exact G.
Qed.

Definition good_pt (msg : list Z) (s : PubShare) : Prop :=
  ps_V s = MulG1 (H msg) (peval c (of_nat (1 + ps_I s))) /\ (Z.of_nat (ps_I s) < 2 ^ 16)%Z.

Lemma xy_spec msg t : (1 <= t)%nat -> forall l acc, Forall (good_pt msg) l -> Forall (good_pt msg) acc ->
  NoDup (map ps_I acc) -> (length acc < t)%nat ->
  let pts := xyCommit t acc l in
  Forall (good_pt msg) pts /\ NoDup (map ps_I pts) /\ (length pts <= t)%nat /\
  (NoDup (map ps_I (acc ++ l)) -> length pts = Nat.min t (length acc + length l)) /\
  incl (map ps_I pts) (map ps_I (acc ++ l)).
Proof.
  intros Ht. induction l as [|s l IH]; intros acc HL HA ND LA; cbn [xyCommit].
  - rewrite app_nil_r. repeat split; auto; try lia. cbn [length]. lia. apply incl_refl.
  - inversion HL as [|? ? G1 G2]; subst.
    set (acc' := if existsb (fun a => (ps_I a =? ps_I s)%nat) acc then _ else _).
    assert (P : Forall (good_pt msg) acc' /\ NoDup (map ps_I acc') /\ (length acc' <= S (length acc))%nat /\
       (length acc <= length acc')%nat /\
       (existsb (fun a => (ps_I a =? ps_I s)%nat) acc = false -> acc' = acc ++ [s]) /\
       incl (map ps_I acc') (map ps_I (acc ++ [s]))).
    { unfold acc'. destruct (existsb _ acc) eqn:EX.
      - assert (EM : map ps_I (map (fun a => if (ps_I a =? ps_I s)%nat then s else a) acc) = map ps_I acc).
        { rewrite map_map. apply map_ext. intros a. destruct (Nat.eqb_spec (ps_I a) (ps_I s)); auto. }
        rewrite EM, map_length. repeat split; auto; try discriminate.
        + apply Forall_forall. intros a Ha. apply in_map_iff in Ha. destruct Ha as (b & <- & Hb).
          destruct (_ =? _)%nat; [exact G1|]. rewrite Forall_forall in HA. auto.
        + rewrite map_app. apply incl_appl, incl_refl.
      - rewrite map_app, app_length. cbn [map length]. repeat split; auto; try lia.
        + apply Forall_app. split; [exact HA|]. constructor; [exact G1|constructor].
        + rewrite <- (rev_involutive (map ps_I acc ++ [ps_I s])). apply NoDup_rev. rewrite rev_app_distr.
          cbn [rev app]. constructor; [|apply NoDup_rev; exact ND]. rewrite <- in_rev. intros Hin.
          apply in_map_iff in Hin. destruct Hin as (a & Ea & Ha).
          assert (T : existsb (fun a => (ps_I a =? ps_I s)%nat) acc = true).
          { apply existsb_exists. exists a. split; [exact Ha|]. apply Nat.eqb_eq. exact Ea. }
          congruence.
        + apply incl_refl. }
    destruct P as (P1 & P2 & P3 & P4 & P5 & P6).
    assert (EQA : NoDup (map ps_I (acc ++ s :: l)) -> acc' = acc ++ [s]).
    { intros NA. apply P5. destruct (existsb _ acc) eqn:EX; [|reflexivity]. exfalso.
      apply existsb_exists in EX. destruct EX as (a & Ha & Ea). apply Nat.eqb_eq in Ea.
      rewrite map_app in NA. cbn [map] in NA. apply NoDup_remove_2 in NA. apply NA, in_or_app. left.
      rewrite <- Ea. apply in_map. exact Ha. }
    assert (INC : incl (map ps_I (acc' ++ l)) (map ps_I (acc ++ s :: l))).
    { rewrite !map_app. cbn [map]. intros x Hx. apply in_app_or in Hx. destruct Hx as [Hx|Hx].
      - apply P6 in Hx. rewrite map_app in Hx. apply in_app_or in Hx. cbn [map] in Hx. apply in_or_app.
        destruct Hx as [Hx|[Hx|[]]]; [left; exact Hx|right; left; exact Hx].
      - apply in_or_app. right. right. exact Hx. }
    destruct (Nat.eqb_spec (length acc') t) as [E|E].
    + repeat split; auto; try lia.
      * intros NA. specialize (EQA NA). apply (f_equal (@length _)) in EQA. rewrite app_length in EQA.
        cbn [length] in *. lia.
      * intros x Hx. apply INC. rewrite map_app. apply in_or_app. left. exact Hx.
    + destruct (IH acc' G2 P1 P2) as (I1 & I2 & I3 & I4 & I5); [lia|].
      repeat split; auto.
      * intros NA. pose proof (EQA NA) as EA. rewrite I4.
        -- rewrite EA, app_length. cbn [length]. lia.
        -- rewrite EA, <- app_assoc. exact NA.
      * intros x Hx. apply INC, I5, Hx.
Qed.

(** The sum over the points is Lagrange's formula at zero. *)
Lemma nd_loop x n i : (i < n)%nat ->
  let nd := loop 0 n (fun nd j => if (i =? j)%nat then nd else (fst nd * x j, snd nd * (x j - x i))) (1, 1) in
  fst nd * finv (snd nd) = lbasis (map x (seq 0 n)) i 0.
Proof.
  intros Hi nd.
  assert (G : forall m, (m <= n)%nat ->
    loop 0 m (fun nd j => if (i =? j)%nat then nd else (fst nd * x j, snd nd * (x j - x i))) (1, 1) =
    let l := if (i <? m)%nat then remove_nth i (map x (seq 0 m)) else map x (seq 0 m) in
    (fpow (- (1)) (length l) * prodlin l 0, fpow (- (1)) (length l) * prodlin l (x i))).
  { induction m as [|m IH]; intros Hm.
    - rewrite loop_0. destruct (Nat.ltb_spec i 0); [lia|]. cbn. f_equal; ring.
    - change (S m) with (1 + m)%nat. rewrite loop_S, IH by lia. cbn [Nat.add]. cbv zeta. clear IH.
      rewrite (seq_S m 0), map_app. cbn [map Nat.add].
      assert (LM : length (map x (seq 0 m)) = m) by (rewrite map_length; apply seq_length).
      destruct (Nat.eqb_spec i m) as [->|Ne].
      + destruct (Nat.ltb_spec m m); [lia|]. destruct (Nat.ltb_spec m (S m)); [|lia].
        rewrite remove_nth_split by (rewrite app_length; cbn [length]; lia).
        rewrite firstn_app, skipn_app, !LM.
        replace (m - m)%nat with O by lia. replace (S m - m)%nat with 1%nat by lia.
        rewrite firstn_all2 by lia. rewrite skipn_all2 by lia. cbn [firstn skipn app]. rewrite !app_nil_r, ?LM. reflexivity.
      + assert (SN : forall l, (fpow (- (1)) (length l) * prodlin l 0 * x m,
           fpow (- (1)) (length l) * prodlin l (x i) * (x m - x i)) =
           (fpow (- (1)) (length (l ++ [x m])) * prodlin (l ++ [x m]) 0,
            fpow (- (1)) (length (l ++ [x m])) * prodlin (l ++ [x m]) (x i))).
        { intros l. rewrite !prodlin_app, app_length. cbn [length prodlin].
          replace (length l + 1)%nat with (S (length l)) by lia. cbn [fpow]. f_equal; ring. }
        destruct (Nat.ltb_spec i m) as [L|L].
        * destruct (Nat.ltb_spec i (S m)); [|lia].
          replace (remove_nth i (map x (seq 0 m) ++ [x m])) with (remove_nth i (map x (seq 0 m)) ++ [x m]).
          -- cbn [fst snd]. apply SN.
          -- rewrite !remove_nth_split by (rewrite ?app_length; cbn [length]; lia).
             rewrite firstn_app, skipn_app, !LM.
             replace (i - m)%nat with O by lia. replace (S i - m)%nat with O by lia.
             cbn [firstn skipn]. rewrite app_nil_r, app_assoc. reflexivity.
        * destruct (Nat.ltb_spec i (S m)); [lia|]. cbn [fst snd]. apply SN. }
  unfold nd. rewrite G by lia. cbv zeta. destruct (Nat.ltb_spec i n); [|lia]. cbn [fst snd].
  unfold lbasis.
  assert (E : nth i (map x (seq 0 n)) 0 = x i).
  { rewrite (nth_indep _ 0 (x O)) by (rewrite map_length, seq_length; lia). rewrite map_nth, seq_nth by lia. reflexivity. }
  rewrite E. set (l := remove_nth i _).
  assert (U : forall k, fpow (- (1)) k * fpow (- (1)) k = 1).
  { induction k as [|k IH]; cbn [fpow]; [ring|]. transitivity (fpow (- (1)) k * fpow (- (1)) k); [ring|exact IH]. }
  specialize (U (length l)). set (u := fpow (- (1)) (length l)) in *. clearbody u.
  assert (NU : u <> 0). { intros ->. apply f1_neq_0. rewrite <- U. ring. }
  rewrite fdiv_def. destruct (feqb (prodlin l (x i)) 0) eqn:EZ.
  - apply feqb_eq in EZ. rewrite EZ. replace (u * 0) with 0 by ring. rewrite finv_0. ring.
  - assert (NZ : prodlin l (x i) <> 0). { intros E0. rewrite E0 in EZ. rewrite (proj2 (feqb_eq 0 0) eq_refl) in EZ. discriminate. }
    field. auto.
Qed.

Lemma finv_of_nat_inj a b : (Z.of_nat a < r)%Z -> (Z.of_nat b < r)%Z -> of_nat a = of_nat b -> a = b.
Proof.
  intros Ha Hb E. unfold of_nat in E. apply (f_equal fv) in E. rewrite !fv_of_Z in E.
  rewrite !Z.mod_small in E by lia. lia.
Qed.

Lemma r_big16 : (2 ^ 16 + 1 < r)%Z.
Proof. reflexivity. Qed.

(** What [RecoverCommit] computes. *)
Lemma recover_value msg shares t : (1 <= t)%nat -> Forall (good_pt msg) shares ->
  let pts := xyCommit t [] (sort shares) in
  (RecoverCommit shares t = Error /\ (length pts < t)%nat) \/
  exists xs, length pts = t /\ length xs = t /\ NoDup xs /\ ~ In 0 xs /\
    RecoverCommit shares t = Ret (MulG1 (H msg) (sumn t (fun i => lbasis xs i 0 * peval c (nth i xs 0)))).
Proof.
  intros Ht HG pts.
  destruct (xy_spec msg t Ht (sort shares) []) as (X1 & X2 & X3 & _ & _).
  { rewrite Forall_forall in HG |- *. intros s Hs. apply HG. eapply Permutation_in; [apply sort_perm|exact Hs]. }
  { constructor. } { constructor. } { cbn. lia. }
  fold pts in X1, X2, X3. unfold RecoverCommit. fold pts. cbv zeta.
  destruct (Nat.ltb_spec (length pts) t) as [L|L]; [left; auto|right].
  assert (LP : length pts = t) by lia.
  set (x := fun i => of_nat (1 + ps_I (nth i pts (mkPS 0 ZeroG1)))).
  exists (map x (seq 0 t)). split; [exact LP|].
  assert (EXS : map x (seq 0 t) = map (fun s => of_nat (1 + ps_I s)) pts).
  { apply (list_ext 0); rewrite !map_length, seq_length; [lia|]. intros i Hi.
    rewrite (nth_indep _ 0 (x O)) by (rewrite map_length, seq_length; lia). rewrite map_nth, seq_nth by lia.
    cbn [Nat.add]. unfold x.
    rewrite (nth_indep (map _ pts) 0 (of_nat (1 + ps_I (mkPS 0 ZeroG1)))) by (rewrite map_length; lia).
    rewrite (map_nth (fun s => of_nat (1 + ps_I s))). reflexivity. }
  pose proof r_big16 as RB.
  split; [rewrite map_length; apply seq_length|]. split; [|split].
  - rewrite EXS. clear -X1 X2 RB. induction pts as [|s pts IH]; [constructor|].
    inversion X1 as [|? ? Y1 Y2]; inversion X2 as [|? ? Z1 Z2]; subst. cbn [map]. constructor; [|auto].
    rewrite in_map_iff. intros (s' & E & Hs'). apply Z1. rewrite Forall_forall in Y2. specialize (Y2 s' Hs').
    destruct Y1 as (_ & Y1). destruct Y2 as (_ & Y2).
    apply finv_of_nat_inj in E; [|lia|lia]. apply in_map_iff. exists s'. split; [lia|exact Hs'].
  - rewrite EXS, in_map_iff. intros (s' & E & Hs'). rewrite Forall_forall in X1. destruct (X1 s' Hs') as (_ & Y).
    change 0 with (of_nat 0) in E. apply finv_of_nat_inj in E; lia.
  - f_equal. rewrite LP.
    assert (G : forall m, (m <= t)%nat ->
      loop 0 m (fun acc i =>
         AddG1 acc (MulG1 (ps_V (nth i pts (mkPS 0 ZeroG1)))
           (fst (loop 0 t (fun nd j => if (i =? j)%nat then nd else (fst nd * x j, snd nd * (x j - x i))) (1, 1)) *
            finv (snd (loop 0 t (fun nd j => if (i =? j)%nat then nd else (fst nd * x j, snd nd * (x j - x i))) (1, 1)))))) ZeroG1
      = MulG1 (H msg) (sumn m (fun i => lbasis (map x (seq 0 t)) i 0 * peval c (nth i (map x (seq 0 t)) 0)))).
    { induction m as [|m IH]; intros Hm.
      - rewrite loop_0. apply G1_ext. cbn. ring.
      - change (S m) with (1 + m)%nat. rewrite loop_S, IH by lia. cbn [Nat.add sumn].
        rewrite (nd_loop x t m ltac:(lia)). rewrite Forall_forall in X1.
        destruct (X1 (nth m pts (mkPS 0 ZeroG1)) ltac:(apply nth_In; lia)) as (Y & _). rewrite Y.
        apply G1_ext. cbn [AddG1 MulG1 dlog1].
        rewrite (nth_indep (map x (seq 0 t)) 0 (x O)) by (rewrite map_length, seq_length; lia).
        rewrite map_nth, seq_nth by lia. change (0 + m)%nat with m.
        change (of_nat (1 + ps_I (nth m pts (mkPS 0 ZeroG1)))) with (x m).
        generalize (peval c (x m)) (lbasis (map x (seq 0 t)) m 0)
          (sumn m (fun i => lbasis (map x (seq 0 t)) i 0 * peval c (nth i (map x (seq 0 t)) 0))).
        intros u v w. ring. }
    apply G. lia.
Qed.

Lemma valid_shares_spec msg t : forall sigs acc, (length acc < t)%nat ->
  exists k, valid_shares H pub msg t acc sigs =
    acc ++ firstn k (flat_map (fun o => match o with Some s => if VerifyPartial H pub msg o then [s] else [] | None => [] end) sigs) /\
    (length (valid_shares H pub msg t acc sigs) <= t)%nat /\
    (length (valid_shares H pub msg t acc sigs) =
      Nat.min t (length acc + length (flat_map (fun o => match o with Some s => if VerifyPartial H pub msg o then [s] else [] | None => [] end) sigs)))%nat.
Proof.
  induction sigs as [|o sigs IH]; intros acc LA.
  - exists O. cbn [valid_shares flat_map firstn length]. rewrite app_nil_r. repeat split; lia.
  - cbn [valid_shares flat_map]. destruct o as [x|]; [|apply IH; exact LA].
    destruct (VerifyPartial H pub msg (Some x)); [|apply IH; exact LA].
    cbn [app]. destruct (Nat.leb_spec t (length (acc ++ [x]))) as [G|G].
    + exists 1%nat. cbn [firstn]. rewrite app_length in *. cbn [length] in *. repeat split; lia.
    + destruct (IH (acc ++ [x]) G) as (k & E & L & M). exists (S k). cbn [firstn]. rewrite E at 1.
      rewrite <- app_assoc. cbn [app]. repeat split; auto. rewrite M, app_length. cbn [length]. lia.
Qed.

Definition valid_of (msg : list Z) (sigs : list (option PubShare)) : list PubShare :=
  flat_map (fun o => match o with Some s => if VerifyPartial H pub msg o then [s] else [] | None => [] end) sigs.

Definition decoded (sigs : list (option PubShare)) : Prop :=
  forall s, In (Some s) sigs -> (Z.of_nat (ps_I s) < 2 ^ 16)%Z.

Lemma valid_of_good msg sigs : decoded sigs -> Forall (good_pt msg) (valid_of msg sigs).
Proof.
  intros D. apply Forall_forall. intros s Hs. apply in_flat_map in Hs. destruct Hs as (o & Ho & Hs).
  destruct o as [s'|]; [|destruct Hs]. destruct (VerifyPartial H pub msg (Some s')) eqn:E; [|destruct Hs].
  destruct Hs as [<-|[]]. split; [apply partial_iff; exact E|apply D; exact Ho].
Qed.

Lemma Forall_firstn {A} (P : A -> Prop) k l : Forall P l -> Forall P (firstn k l).
Proof. intros HF. rewrite Forall_forall in HF |- *. intros x Hx. apply HF. rewrite <- (firstn_skipn k l). apply in_or_app. auto. Qed.

Lemma recover_cases msg sigs t : (1 <= t)%nat -> decoded sigs ->
  (Recover H pub msg sigs t = Error /\
     ((length (valid_of msg sigs) < t)%nat \/ ~ NoDup (map ps_I (valid_of msg sigs)))) \/
  exists xs, length xs = t /\ NoDup xs /\ ~ In 0 xs /\
    Recover H pub msg sigs t = Ret (MulG1 (H msg) (sumn t (fun i => lbasis xs i 0 * peval c (nth i xs 0)))).
Proof.
  intros Ht D. unfold Recover. cbv zeta.
  destruct (valid_shares_spec msg t sigs [] ltac:(cbn; lia)) as (k & E & L & M). cbn [app length Nat.add] in E, M.
  fold (valid_of msg sigs) in E, M.
  set (ps := valid_shares H pub msg t [] sigs) in *.
  destruct (Nat.ltb_spec (length ps) t) as [G|G]; [left; split; [reflexivity|left; lia]|].
  assert (GP : Forall (good_pt msg) ps).
  { rewrite E. apply Forall_firstn, valid_of_good, D. }
  destruct (recover_value msg ps t Ht GP) as [(R1 & R2)|(xs & A1 & A2 & A3 & A4 & A5)].
  - left. split; [exact R1|]. right. intros ND.
    destruct (xy_spec msg t Ht (sort ps) []) as (_ & _ & _ & X4 & _).
    { rewrite Forall_forall in GP |- *. intros s Hs. apply GP. eapply Permutation_in; [apply sort_perm|exact Hs]. }
    { constructor. } { constructor. } { cbn. lia. }
    cbn [app length Nat.add] in X4. rewrite X4 in R2.
    + rewrite (Permutation_length (sort_perm ps)) in R2. lia.
    + eapply Permutation_NoDup; [apply Permutation_map, Permutation_sym, sort_perm|].
      rewrite E, <- firstn_map. clear -ND. revert k. induction (map ps_I (valid_of msg sigs)) as [|a l IH]; intros [|k]; cbn [firstn]; try constructor.
      * inversion ND; subst. intros Hin. apply H2. rewrite <- (firstn_skipn k l). apply in_or_app. auto.
      * inversion ND; subst. auto.
  - right. exists xs. auto.
Qed.

(** Interpolating a polynomial with one point too few: the error is the leading coefficient times the product
    of the points. *)
Lemma one_short xs : NoDup xs -> length c = S (length xs) ->
  peval c 0 - sumn (length xs) (fun i => lbasis xs i 0 * peval c (nth i xs 0)) =
  nth (length xs) c 0 * prodlin xs 0.
Proof.
  intros ND LC. set (a := nth (length xs) c 0).
  assert (LT : nth (length xs) (mlist xs) 0 = 1).
  { clear. induction xs as [|x xs IH] using rev_ind; [reflexivity|].
    unfold mlist in *. rewrite fold_left_app. cbn [fold_left]. rewrite app_length. cbn [length].
    replace (length xs + 1)%nat with (S (length xs)) by lia. rewrite nth_mulfac, IH.
    rewrite nth_overflow; [ring|]. pose proof (length_mlist xs) as E. unfold mlist in E. rewrite E. lia. }
  set (d := firstn (length xs) (psub c (pscale a (mlist xs)))).
  assert (LD : length (psub c (pscale a (mlist xs))) = S (length xs)).
  { rewrite length_psub, length_pscale, length_mlist. lia. }
  assert (TOP : nth (length xs) (psub c (pscale a (mlist xs))) 0 = 0).
  { unfold psub. rewrite nth_padd, !nth_pscale, LT. fold a. ring. }
  assert (ED : forall x, peval d x = peval c x - a * prodlin xs x).
  { intros x. transitivity (peval (psub c (pscale a (mlist xs))) x).
    - rewrite <- (firstn_skipn (length xs) (psub c (pscale a (mlist xs)))) at 1. rewrite peval_app. fold d.
      rewrite (skipn_nth 0) by lia. rewrite TOP. rewrite skipn_all2 by lia. cbn [peval]. ring.
    - rewrite peval_psub, peval_pscale, peval_mlist. reflexivity. }
  assert (LDD : (length d <= length xs)%nat) by (unfold d; rewrite firstn_length; lia).
  pose proof (lagrange_eval xs d 0 ND LDD) as LE. rewrite ED in LE.
  assert (SE : sumn (length xs) (fun i => lbasis xs i 0 * peval d (nth i xs 0)) =
               sumn (length xs) (fun i => lbasis xs i 0 * peval c (nth i xs 0))).
  { apply sumn_ext. intros i Hi. rewrite ED, prodlin_0 by (apply nth_In; exact Hi). ring. }
  rewrite SE in LE. rewrite <- LE. ring.
Qed.
End Scheme.
