(** Headline theorems: threshold signatures (C27) and their keys (C50).

    The scheme itself is in an outside library (see TsigModel.v); what is decided here is whether the
    code calls it with parameters that fit together. *)

Require Import ZArith List Lia Bool Arith Permutation.
From Verif Require Import Prime Fr Bytes CodecModel CodecProofs GoBase Poly PolyModel PolyProofs GroupModel
  TsigModel TsigProofs.
Import ListNotations.
Local Open Scope F_scope.

Lemma keygen_eq n t x rnd sh pub : SigKeyGen n t x rnd = (sh, pub) ->
  sh = Shares (x :: firstn (t - 1) rnd) n /\ pub = Commit (x :: firstn (t - 1) rnd).
Proof. intros E. split; [apply (f_equal fst) in E|apply (f_equal snd) in E]; symmetry; exact E. Qed.

(** ** C50 Threshold key generation *)

(** The key shares are the values of one polynomial of degree t-1 with the key as constant
    coefficient, and the public key commits to this polynomial. *)
Theorem c50_shares : forall n t x rnd shares pub, (1 <= t)%nat -> (t - 1 <= length rnd)%nat ->
  SigKeyGen n t x rnd = (shares, pub) ->
  exists f, length f = t /\ peval f 0 = x /\
    length shares = n /\
    (forall i, (i < n)%nat -> nth_error shares i = Some (i, peval f (of_nat (i + 1)))) /\
    length pub = t /\ (forall k, (k < t)%nat -> nth_error pub k = Some (MulG2 GenG2 (nth k f 0))).
Proof.
  intros n t x rnd shares pub Ht Hr E. apply keygen_eq in E. destruct E as (-> & ->).
  set (f := x :: firstn (t - 1) rnd).
  assert (LF : length f = t) by (unfold f; cbn [length]; rewrite firstn_length_le by lia; lia).
  exists f. split; [exact LF|]. split; [rewrite peval_0; reflexivity|].
  fold f. unfold Shares, Commit. rewrite !map_length, seq_length. split; [reflexivity|]. split; [|split; [exact LF|]].
  - intros i Hi. rewrite nth_error_map, (nth_error_nth' (seq 0 n) O) by (rewrite seq_length; exact Hi).
    rewrite seq_nth by exact Hi. cbn [option_map]. rewrite PriEval_eq. do 3 f_equal. cbn [Nat.add]. f_equal. lia.
  - intros k Hk. rewrite nth_error_map, (nth_error_nth' f 0) by lia. reflexivity.
Qed.
Print Assumptions c50_shares.

(** Any t shares determine the key (and all other shares). *)
Theorem c50_threshold : forall n t x rnd x' rnd' sh pub sh' pub' I,
  (1 <= t)%nat -> (Z.of_nat n < r)%Z -> length rnd = (t - 1)%nat -> length rnd' = (t - 1)%nat ->
  SigKeyGen n t x rnd = (sh, pub) -> SigKeyGen n t x' rnd' = (sh', pub') ->
  NoDup I -> length I = t -> (forall i, In i I -> (i < n)%nat /\ nth_error sh i = nth_error sh' i) ->
  x = x' /\ sh = sh' /\ pub = pub'.
Proof.
  intros n t x rnd x' rnd' sh pub sh' pub' I Ht Hn L L' E E' ND LI HI.
  pose proof E as E0. apply keygen_eq in E0, E'. rewrite firstn_all2 in E0, E' by lia.
  destruct E0 as (E1 & E2), E' as (E1' & E2').
  assert (EF : x :: rnd = x' :: rnd').
  { apply (poly_unique_list (map (fun i => of_nat (i + 1)) I)).
    - clear - ND HI Hn. induction ND as [|a l Ha ND IH]; [constructor|]. cbn [map]. constructor.
      + rewrite in_map_iff. intros (b & Eb & Hb). apply of_nat_inj in Eb.
        * apply Ha. replace a with b by lia. exact Hb.
        * destruct (HI b (or_intror Hb)). lia.
        * destruct (HI a (or_introl eq_refl)). lia.
      + apply IH. intros i Hi. apply HI. right. exact Hi.
    - cbn [length]. lia.
    - rewrite map_length. cbn [length]. lia.
    - intros y Hy. apply in_map_iff in Hy. destruct Hy as (i & <- & Hi). destruct (HI i Hi) as (Li & Ei).
      subst sh sh'. unfold Shares in Ei.
      rewrite !nth_error_map, !(nth_error_nth' (seq 0 n) O) in Ei by (rewrite seq_length; exact Li).
      rewrite seq_nth in Ei by exact Li. cbn [option_map Nat.add] in Ei. rewrite !PriEval_eq in Ei.
      apply (f_equal (fun o => match o with Some (_, v) => v | None => 0 end)) in Ei.
      rewrite Nat.add_comm. exact Ei. }
  rewrite EF in E1, E2. injection EF as -> _. split; [reflexivity|]. split; congruence.
Qed.
Print Assumptions c50_threshold.

(** Fewer than t shares say nothing about the key: every other key explains them as well. *)
Theorem c50_secrecy : forall n t x rnd sh pub I x',
  (1 <= t)%nat -> (Z.of_nat n < r)%Z -> length rnd = (t - 1)%nat -> SigKeyGen n t x rnd = (sh, pub) ->
  (length I < t)%nat -> (forall i, In i I -> (i < n)%nat) ->
  exists rnd' sh' pub', length rnd' = (t - 1)%nat /\ SigKeyGen n t x' rnd' = (sh', pub') /\
    forall i, In i I -> nth_error sh' i = nth_error sh i.
Proof.
  intros n t x rnd sh pub I x' Ht Hn L E LI HI.
  set (xs := map (fun i => of_nat (i + 1)) I).
  assert (Z0 : ~ In 0 xs).
  { unfold xs. rewrite in_map_iff. intros (i & Ei & Hi). specialize (HI i Hi).
    change 0 with (of_nat 0) in Ei. apply of_nat_inj in Ei; lia. }
  set (f := x :: rnd).
  set (g := padd f (pscale ((x' - x) * finv (prodlin xs 0)) (plin xs ++ repeat 0 (t - 1 - length xs)))).
  assert (LX : length xs = length I) by (unfold xs; apply map_length).
  assert (LG : length g = t).
  { unfold g. rewrite length_padd, length_pscale, app_length, length_plin, repeat_length. unfold f. cbn [length]. lia. }
  assert (EG : forall y, peval g y = peval f y + (x' - x) * finv (prodlin xs 0) * prodlin xs y).
  { intros y. unfold g. rewrite peval_padd, peval_pscale, peval_app, peval_repeat0, peval_plin. ring. }
  assert (G0 : peval g 0 = x').
  { rewrite EG. unfold f at 1. rewrite peval_0. cbn [nth].
    replace ((x' - x) * finv (prodlin xs 0) * prodlin xs 0) with ((x' - x) * (finv (prodlin xs 0) * prodlin xs 0)) by ring.
    rewrite finv_l by (apply prodlin_neq_0; exact Z0). ring. }
  rewrite peval_0 in G0.
  destruct g as [|g0 g'] eqn:Eg; [cbn [length] in LG; lia|]. cbn [nth length] in *. subst g0.
  exists g'. eexists. eexists.
  split; [lia|]. split; [reflexivity|]. intros i Hi. specialize (HI i Hi).
  apply keygen_eq in E. destruct E as (-> & _).
  unfold Shares. rewrite !nth_error_map. rewrite !(nth_error_nth' (seq 0 n) O) by (rewrite seq_length; exact HI).
  rewrite seq_nth by exact HI. cbn [option_map Nat.add]. rewrite !PriEval_eq. do 2 f_equal.
  rewrite !firstn_all2 by lia. rewrite EG, (prodlin_0 xs (of_nat (1 + i))); [unfold f; ring|].
  unfold xs. apply in_map_iff. exists i. split; [f_equal; lia|exact Hi].
Qed.
Print Assumptions c50_secrecy.

(** The variants that read the key from a file: the same sharing with the coefficients of the
    file, if there are t of them. *)
Theorem c50_file : forall n t file, (1 <= t)%nat ->
  ((t <= length file)%nat -> exists x rnd, length rnd = (t - 1)%nat /\ x = of_Z (be_value (nth 0 file [])) /\
     (forall k, (k < t - 1)%nat -> nth k rnd 0 = of_Z (be_value (nth (k + 1) file []))) /\
     SigKeyGenFix n t file = Ret (SigKeyGen n t x rnd)) /\
  ((length file < t)%nat -> SigKeyGenFix n t file = Panic).
Proof.
  intros n t file Ht.
  assert (LOOP : forall m lo acc, (lo + m <= length file)%nat ->
    goloop lo m (fun acc i => b <- idx file i ;; Ret (acc ++ [of_Z (be_value b)])) acc =
    Ret (acc ++ map (fun i => of_Z (be_value (nth i file []))) (seq lo m))).
  { induction m as [|m IH]; intros lo acc H; unfold goloop; cbn [gofold seq map]; [rewrite app_nil_r; reflexivity|].
    rewrite (idx_nth []) by lia. cbn [bind]. unfold goloop in IH. rewrite IH by lia. rewrite <- app_assoc. reflexivity. }
  assert (LOOP2 : forall m lo acc, (lo <= length file)%nat -> (length file < lo + m)%nat ->
    goloop lo m (fun acc i => b <- idx file i ;; Ret (acc ++ [of_Z (be_value b)])) acc = Panic).
  { induction m as [|m IH]; intros lo acc H1 H2; [lia|]. unfold goloop. cbn [gofold seq].
    destruct (Nat.eq_dec lo (length file)) as [->|Ne].
    - unfold idx. rewrite (proj2 (nth_error_None file (length file))) by lia. reflexivity.
    - rewrite (idx_nth []) by lia. cbn [bind]. apply IH; lia. }
  split; intros H.
  - set (g := fun i => of_Z (be_value (nth i file []))).
    exists (g 0%nat), (map g (seq 1 (t - 1))). rewrite map_length, seq_length. split; [reflexivity|].
    split; [reflexivity|]. split.
    + intros k Hk. rewrite (nth_indep _ 0 (g 0%nat)) by (rewrite map_length, seq_length; exact Hk).
      rewrite map_nth, seq_nth by exact Hk. unfold g. do 3 f_equal. lia.
    + unfold SigKeyGenFix. rewrite LOOP by lia. cbn [bind app]. unfold SigKeyGen.
      rewrite firstn_all2 by (rewrite map_length, seq_length; lia).
      destruct t as [|t]; [lia|]. cbn [seq map]. rewrite Nat.sub_succ, Nat.sub_0_r. reflexivity.
  - unfold SigKeyGenFix. rewrite LOOP2 by lia. reflexivity.
Qed.
Print Assumptions c50_file.

Example c50_example : exists sh pub, SigKeyGen 4 3 (of_Z 5) [of_Z 2; of_Z 7] = (sh, pub) /\
  nth_error sh 1 = Some (1%nat, of_Z 37).
Proof. do 2 eexists. split; [reflexivity|vm_compute; reflexivity]. Qed.

(** ** C27 Threshold signature assembly *)

(** Share i of a message is accepted exactly when it was made with key share i; bytes that are no share never are. *)
Theorem c27_shares : forall H n t x rnd sh pub i sk msg, SigKeyGen n t x rnd = (sh, pub) ->
  nth_error sh i = Some sk ->
  VerifyPartial H pub msg (Some (Sign H sk msg)) = true /\
  (forall s, ps_I s = i -> VerifyPartial H pub msg (Some s) = true -> s = Sign H sk msg) /\
  (forall o, VerifyPartial H pub msg o = true -> exists s, o = Some s).
Proof.
  intros H n t x rnd sh pub i sk msg E Hi. apply keygen_eq in E. destruct E as (-> & ->).
  unfold Shares in Hi. rewrite nth_error_map in Hi.
  destruct (nth_error (seq 0 n) i) as [j|] eqn:Ej; [|discriminate]. injection Hi as <-.
  assert (j = i).
  { assert (Li : (i < n)%nat) by (rewrite <- (seq_length n 0); apply nth_error_Some; congruence).
    rewrite (nth_error_nth' (seq 0 n) O), seq_nth in Ej by (rewrite ?seq_length; exact Li).
    injection Ej as <-. reflexivity. }
  subst j. split; [|split; [|intros [s|] V; [eauto|discriminate V]]].
  - apply partial_iff. unfold Sign. cbn [ps_V ps_I fst snd]. rewrite PriEval_eq. reflexivity.
  - intros [I V] EI HV. cbn [ps_I] in EI. subst I. apply partial_iff in HV. unfold Sign. cbn [ps_V ps_I fst snd] in *.
    rewrite PriEval_eq. rewrite HV. reflexivity.
Qed.
Print Assumptions c27_shares.

(** What [valid] means below: the share is accepted. *)
Definition valid_shares_of (H : list Z -> G1) (pub : list G2) (msg : list Z) (sigs : list (option PubShare))
    : list PubShare :=
  flat_map (fun o => match o with Some s => if VerifyPartial H pub msg o then [s] else [] | None => [] end) sigs.

(** With the threshold of the key, valid shares of as many different members give the signature,
    whatever else is among the shares. *)
Theorem c27_assembly : forall H n t x rnd sh pub msg sigs,
  (1 <= t)%nat -> length rnd = (t - 1)%nat -> SigKeyGen n t x rnd = (sh, pub) ->
  (forall s, In (Some s) sigs -> (Z.of_nat (ps_I s) < 2 ^ 16)%Z) ->
  (t <= length (valid_shares_of H pub msg sigs))%nat ->
  NoDup (map ps_I (valid_shares_of H pub msg sigs)) ->
  exists g, Recover H pub msg sigs t = Ret g /\ g = MulG1 (H msg) x /\ VerifyRecovered H pub msg g = true.
Proof.
  intros H n t x rnd sh pub msg sigs Ht L E HD HV ND. apply keygen_eq in E. destruct E as (_ & ->). rewrite firstn_all2 in * by lia.
  set (c := x :: rnd) in *.
  destruct (recover_cases H c msg sigs t Ht HD) as [(_ & [X|X])|(xs & LX & NX & ZX & E)].
  - exfalso. unfold valid_of in X. unfold valid_shares_of in HV. lia.
  - exfalso. apply X. exact ND.
  - exists (MulG1 (H msg) x). assert (EX : peval c 0 = x) by (rewrite peval_0; reflexivity). split.
    + rewrite E. do 2 f_equal. transitivity (peval c 0); [|exact EX]. subst t. symmetry. apply lagrange_eval; [exact NX|].
      unfold c. cbn [length]. lia.
    + split; [reflexivity|]. apply recovered_iff; [discriminate|]. rewrite EX. reflexivity.
Qed.
Print Assumptions c27_assembly.

(** The code assembles with threshold 2F while keys are shared with threshold 2F+1
    (ProactivizeAndShareDist.go:427, main.go:37).  Whatever the shares, the result never
    verifies, unless the leading coefficient of the key polynomial or the hash happens to be 0. *)
Theorem c27_recover_2F_refuted : forall H n F x rnd sh pub msg,
  (1 <= F)%nat -> length rnd = (2 * F)%nat -> SigKeyGen n (2 * F + 1) x rnd = (sh, pub) ->
  nth (2 * F - 1) rnd 0 <> 0 -> H msg <> ZeroG1 ->
  forall sigs g, (forall s, In (Some s) sigs -> (Z.of_nat (ps_I s) < 2 ^ 16)%Z) ->
    Recover H pub msg sigs (2 * F) = Ret g -> VerifyRecovered H pub msg g = false.
Proof.
  intros H n F x rnd sh pub msg HF L E NL NH sigs g HD ER. apply keygen_eq in E. destruct E as (_ & ->). rewrite firstn_all2 in * by lia.
  set (c := x :: rnd) in *.
  destruct (recover_cases H c msg sigs (2 * F) ltac:(lia) HD) as [(X & _)|(xs & LX & NX & ZX & E)].
  - rewrite X in ER. discriminate.
  - rewrite E in ER. injection ER as <-.
    destruct (VerifyRecovered H (Commit c) msg _) eqn:EV; [exfalso|reflexivity].
    apply recovered_iff in EV; [|discriminate].
    pose proof (one_short c xs NX) as OS. rewrite LX in OS. specialize (OS ltac:(unfold c; cbn [length]; lia)).
    apply (f_equal dlog1) in EV. unfold MulG1 in EV. cbn [dlog1] in EV.
    assert (NHM : dlog1 (H msg) <> 0).
    { intros X. apply NH. destruct (H msg) as [a]. cbn [dlog1] in X. subst a. reflexivity. }
    assert (EQ : nth (2 * F) c 0 * prodlin xs 0 = 0).
    { rewrite <- OS. apply (f_equal (fun t => finv (dlog1 (H msg)) * t)) in EV.
      set (S := sumn _ _) in *. apply fsub_eq_0.
      transitivity (finv (dlog1 (H msg)) * (dlog1 (H msg) * peval c 0)).
      - replace (finv (dlog1 (H msg)) * (dlog1 (H msg) * peval c 0)) with
          ((finv (dlog1 (H msg)) * dlog1 (H msg)) * peval c 0) by ring. rewrite finv_l by exact NHM. ring.
      - rewrite <- EV. replace (finv (dlog1 (H msg)) * (dlog1 (H msg) * S)) with
          ((finv (dlog1 (H msg)) * dlog1 (H msg)) * S) by ring. rewrite finv_l by exact NHM. ring. }
    apply fmul_eq_0 in EQ. destruct EQ as [EQ|EQ].
    + apply NL. unfold c in EQ. replace (2 * F)%nat with (S (2 * F - 1)) in EQ by lia. exact EQ.
    + apply (prodlin_neq_0 xs 0 ZX EQ).
Qed.
Print Assumptions c27_recover_2F_refuted.

(** Shares are not compared by sender: copies of one valid share count, and then nothing is
    assembled (the error is dropped by the callers, which go on with an empty signature). *)
Theorem c27_duplicates_refuted : forall H n t x rnd sh pub i sk msg,
  (2 <= t)%nat -> (i < 2 ^ 16)%nat -> SigKeyGen n t x rnd = (sh, pub) -> nth_error sh i = Some sk ->
  let sigs := repeat (Some (Sign H sk msg)) t in
  length (valid_shares_of H pub msg sigs) = t /\ Recover H pub msg sigs t = Error.
Proof.
  intros H n t x rnd sh pub i sk msg Ht Hi E Es sigs.
  destruct (c27_shares H n t x rnd sh pub i sk msg E Es) as (V & _).
  set (s := Sign H sk msg) in *.
  assert (VS : forall m, flat_map (fun o => match o with Some s => if VerifyPartial H pub msg o then [s] else [] | None => [] end)
                           (repeat (Some s) m) = repeat s m).
  { induction m as [|m IH]; [reflexivity|]. cbn [repeat flat_map]. rewrite V. cbn [app]. f_equal. exact IH. }
  split; [unfold valid_shares_of, sigs; rewrite VS; apply repeat_length|].
  assert (VL : forall m acc, (length acc + m = t)%nat -> (length acc < t)%nat ->
    valid_shares H pub msg t acc (repeat (Some s) m) = acc ++ repeat s m).
  { induction m as [|m IH]; intros acc H1 H2; [lia|]. cbn [repeat valid_shares]. rewrite V.
    rewrite app_length. cbn [length]. destruct (Nat.leb_spec t (length acc + 1)) as [G|G].
    - assert (m = O) by lia. subst m. reflexivity.
    - rewrite IH by (rewrite app_length; cbn [length]; lia). rewrite <- app_assoc. reflexivity. }
  unfold Recover, sigs. rewrite VL by (cbn [length]; lia). cbn [app]. rewrite repeat_length.
  destruct (Nat.ltb_spec t t) as [G|_]; [lia|]. unfold RecoverCommit.
  assert (SR : forall m, sort (repeat s m) = repeat s m).
  { intros m. pose proof (sort_perm (repeat s m)) as P.
    assert (AL : forall a, In a (sort (repeat s m)) -> a = s).
    { intros a Ha. apply (Permutation_in _ P) in Ha. apply repeat_spec in Ha. exact Ha. }
    apply Permutation_length in P. rewrite repeat_length in P. revert P AL. generalize (sort (repeat s m)).
    clear. intros l. revert m. induction l as [|a l IH]; intros m L AL; cbn [length] in L; subst m; [reflexivity|].
    cbn [repeat]. f_equal; [apply AL; left; reflexivity|]. apply IH; [reflexivity|]. intros b Hb. apply AL. right. exact Hb. }
  rewrite SR.
  assert (XY : forall m, xyCommit t [s] (repeat s m) = [s]).
  { induction m as [|m IH]; [reflexivity|]. cbn [repeat xyCommit existsb map]. rewrite Nat.eqb_refl. cbn [orb length].
    destruct (Nat.eqb_spec 1 t); [lia|]. exact IH. }
  destruct t as [|t']; [lia|]. cbn [repeat xyCommit existsb app length].
  destruct (Nat.eqb_spec 1 (S t')) as [X|_]; [lia|]. rewrite XY. cbn [length].
  destruct (Nat.ltb_spec 1 (S t')) as [_|X]; [reflexivity|lia].
Qed.
Print Assumptions c27_duplicates_refuted.

(** The hypotheses are met: a key for F = 1, three shares, a message with a nonzero hash. *)
Example c27_example : exists sh pub, SigKeyGen 4 3 (of_Z 5) [of_Z 2; of_Z 7] = (sh, pub) /\
  nth 1 [of_Z 2; of_Z 7] 0 <> 0 /\
  let H := fun _ : list Z => mkG1 (of_Z 11) in
  let sigs := map (fun sk => Some (Sign H sk [7%Z])) (firstn 3 sh) in
  H [7%Z] <> ZeroG1 /\ NoDup (map ps_I (valid_shares_of H pub [7%Z] sigs)) /\
  length (valid_shares_of H pub [7%Z] sigs) = 3%nat /\ exists g, Recover H pub [7%Z] sigs 2 = Ret g.
Proof.
  set (H := fun _ : list Z => mkG1 (of_Z 11)).
  destruct (SigKeyGen 4 3 (of_Z 5) [of_Z 2; of_Z 7]) as (sh, pub) eqn:E. exists sh, pub. split; [reflexivity|].
  split; [vm_compute; discriminate|]. cbv zeta. fold H. split; [vm_compute; discriminate|].
  pose proof E as E0. apply keygen_eq in E. destruct E as (-> & ->).
  set (c := of_Z 5 :: firstn (3 - 1) [of_Z 2; of_Z 7]) in *.
  set (sigs := map (fun sk => Some (Sign H sk [7%Z])) (firstn 3 (Shares c 4))). assert (VS : valid_shares_of H (Commit c) [7%Z] sigs =
     map (fun sk => Sign H sk [7%Z]) (firstn 3 (Shares c 4))).
  { unfold valid_shares_of, sigs. cbn [Shares seq map firstn flat_map].
    rewrite (proj1 (c27_shares H 4 3 (of_Z 5) [of_Z 2; of_Z 7] _ _ 0 (0%nat, PriEval c 0) [7%Z] E0 eq_refl)).
    rewrite (proj1 (c27_shares H 4 3 (of_Z 5) [of_Z 2; of_Z 7] _ _ 1 (1%nat, PriEval c 1) [7%Z] E0 eq_refl)).
    rewrite (proj1 (c27_shares H 4 3 (of_Z 5) [of_Z 2; of_Z 7] _ _ 2 (2%nat, PriEval c 2) [7%Z] E0 eq_refl)).
    reflexivity. }
  rewrite VS. split; [|split; [reflexivity|]].
  - cbn. repeat constructor; cbn; intuition lia.
  - destruct (recover_cases H c [7%Z] sigs 2 ltac:(lia)) as [(_ & [X|X])|(xs & _ & _ & _ & X)].
    + unfold decoded, sigs. cbn [Shares seq map firstn]. intros s Hs.
      destruct Hs as [Hs|[Hs|[Hs|[]]]]; injection Hs as <-; vm_compute; reflexivity.
    + unfold valid_of in X. unfold valid_shares_of in VS. rewrite VS in X. cbn in X. lia.
    + unfold valid_of in X. unfold valid_shares_of in VS. rewrite VS in X. exfalso. apply X.
      cbn. repeat constructor; cbn; intuition lia.
    + eauto.
Qed.
