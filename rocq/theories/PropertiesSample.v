(** C42-C45: vanishing polynomial, recovery of samples, data-availability extension, batch inversion and evaluation
    form. *)

Require Import ZArith List Bool Arith Lia.
From Verif Require Import Prime Fr CodecModel GoBase Poly PolyModel PolyProofs GroupModel VssModel VssProofs
  FftModel FftProofs FftProofs2 PropertiesFft SampleModel SampleProofs ZeroProofs ZeroProofs2 RecoverProofs.
Import ListNotations.
Local Open Scope F_scope.

(** The root of unity of order 2^j of the table. *)
Definition root (j : nat) : Fr := nth j Scale2RootOfUnity 0.

(** The product of the (x - w^v) for v in [vs]. *)
Definition vanishing (w : Fr) (vs : list nat) (x : Fr) : Fr :=
  fold_right (fun v acc => (x - fpow w v) * acc) 1 vs.

Lemma vanishing_prodlin w vs x : vanishing w vs x = prodlin (map (fpow w) vs) x.
Proof. induction vs as [|v vs IH]; [reflexivity|]. cbn. rewrite <- IH. reflexivity. Qed.

Lemma wj_root' k j : (j <= k)%nat -> (k <= 31)%nat -> wj (rootk k) k j = root j.
Proof. apply wj_root. Qed.

(** ** C42 *)

(** The polynomial for the missing indexes is the product of the (x - w^v); its evaluations are its values at the
    roots of unity; they are zero exactly at the missing indexes.  The number of missing indexes must be below the
    length and, from 64 on, the leaves of 64 entries, each for up to 63 indexes, must fit into the length. *)
Theorem c42_vanishing k fs j missing : settings k fs -> (j <= k)%nat -> missing <> [] ->
  (forall v, In v missing -> (v < 2 ^ j)%nat) -> (length missing < 2 ^ j)%nat ->
  (length missing <= 63 \/ (length missing + 62) / 63 * 64 <= 2 ^ j)%nat ->
  exists zeroEval zeroPoly,
    ZeroPolyViaMultiplication fs missing (2 ^ j) = Ret (zeroEval, zeroPoly) /\
    length zeroPoly = (2 ^ j)%nat /\ length zeroEval = (2 ^ j)%nat /\
    (forall x, value zeroPoly x = vanishing (root j) missing x) /\
    (forall i, (i < 2 ^ j)%nat -> nth i zeroEval 0 = value zeroPoly (fpow (root j) i)) /\
    (forall x, value zeroPoly x = 0 <-> exists v, In v missing /\ x = fpow (root j) v) /\
    (forall i, (i < 2 ^ j)%nat -> nth i zeroEval 0 = 0 <-> In i missing).
Proof.
  intros S J NE V L1 L2. destruct (settings_ok _ _ S) as (K & O).
  assert (Fi : fits (length missing) (2 ^ j)).
  { split; [exact L1|]. replace (length missing + 63 - 1)%nat with (length missing + 62)%nat by lia. exact L2. }
  destruct (ZeroPoly_ok fs k _ O missing j J NE V Fi) as (zp & E & Lz & _ & _ & R).
  rewrite wj_root' in E, R by assumption.
  assert (P : prim (root j) j) by (apply rootk_prim; lia).
  exists (dft (root j) zp), zp. split; [exact E|]. split; [exact Lz|]. split; [rewrite length_dft; exact Lz|].
  assert (VE : forall x, value zp x = vanishing (root j) missing x).
  { intros x. rewrite vanishing_prodlin, <- R, value_peval. reflexivity. }
  assert (Z : forall x, value zp x = 0 <-> exists v, In v missing /\ x = fpow (root j) v).
  { intros x. rewrite VE, vanishing_prodlin. split.
    - intros H. destruct (In_dec Fr_eq_dec x (map (fpow (root j)) missing)) as [Q|Q].
      + apply in_map_iff in Q as (v & Ev & Hv). exists v. split; [exact Hv|symmetry; exact Ev].
      + exfalso. exact (prodlin_neq_0 _ _ Q H).
    - intros (v & Hv & ->). apply prodlin_0, in_map, Hv. }
  assert (N : forall i, (i < 2 ^ j)%nat -> nth i (dft (root j) zp) 0 = value zp (fpow (root j) i)).
  { intros i Hi. rewrite nth_dft by lia. rewrite value_peval. reflexivity. }
  split; [exact VE|]. split; [exact N|]. split; [exact Z|].
  intros i Hi. rewrite N by exact Hi. rewrite Z. split.
  - intros (v & Hv & Ev). apply (prim_inj _ j) in Ev; [subst; exact Hv|exact P|exact Hi|exact (V v Hv)].
  - intros H. exists i. split; [exact H|reflexivity].
Qed.
Print Assumptions c42_vanishing.

(** Up to one half of the samples may always be missing. *)
Theorem c42_half k fs j missing : settings k fs -> (j <= k)%nat -> missing <> [] ->
  (forall v, In v missing -> (v < 2 ^ j)%nat) -> (2 * length missing <= 2 ^ j)%nat ->
  exists zeroEval zeroPoly,
    ZeroPolyViaMultiplication fs missing (2 ^ j) = Ret (zeroEval, zeroPoly) /\
    (forall x, value zeroPoly x = 0 <-> exists v, In v missing /\ x = fpow (root j) v) /\
    (forall i, (i < 2 ^ j)%nat -> nth i zeroEval 0 = value zeroPoly (fpow (root j) i)).
Proof.
  intros S J NE V L.
  assert (M1 : (1 <= length missing)%nat) by (destruct missing; [congruence|cbn; lia]).
  destruct (fits_half (length missing) j M1 L) as (L1 & L2).
  replace (length missing + 63 - 1)%nat with (length missing + 62)%nat in L2 by lia.
  destruct (c42_vanishing k fs j missing S J NE V L1 L2) as (ze & zp & E & _ & _ & _ & N & Z & _).
  exists ze, zp. split; [exact E|]. split; [exact Z|exact N].
Qed.
Print Assumptions c42_half.

(** For the empty set the returned polynomial is zero everywhere, and not the constant one. *)
Theorem c42_empty_refuted : exists k fs ze zp, settings k fs /\
  ZeroPolyViaMultiplication fs [] (2 ^ k) = Ret (ze, zp) /\
  exists x, value zp x = 0 /\ ~ exists v, In v (@nil nat) /\ x = fpow (root k) v.
Proof.
  destruct (c38_settings 2 ltac:(lia)) as (fs & S). exists 2%nat, fs, (repeat 0 4), (repeat 0 4).
  split; [exact S|]. split; [reflexivity|]. exists 1. split.
  - rewrite <- value_peval. apply peval_repeat0.
  - intros (v & [] & _).
Qed.
Print Assumptions c42_empty_refuted.

(** Without the bound the claim fails: when all of up to 32 samples are missing the process stops. *)
Theorem c42_all_missing_refuted : exists k fs missing, settings k fs /\
  (forall v, In v missing -> (v < 2 ^ k)%nat) /\ NoDup missing /\ missing <> [] /\
  ZeroPolyViaMultiplication fs missing (2 ^ k) = Panic.
Proof.
  destruct (c38_settings 3 ltac:(lia)) as (fs & S). exists 3%nat, fs, (seq 0 8).
  split; [exact S|]. split; [intros v Hv; apply in_seq in Hv; cbn; lia|]. split; [apply seq_NoDup|]. split; [discriminate|].
  destruct (settings_ok _ _ S) as (K & O). unfold ZeroPolyViaMultiplication. rewrite (fo_width _ _ _ O). reflexivity.
Qed.
Print Assumptions c42_all_missing_refuted.

(** Three of eight samples missing, in settings for 16. *)
Example demo_zero :
  match NewFFTSettings 16 4 with
  | Ret (Some fs) =>
    match ZeroPolyViaMultiplication fs [1; 4; 6]%nat 8 with
    | Ret (ze, zp) => (map (fun a => feqb a 0) ze, length zp, feqb (nth 3 zp 0) 1)
    | _ => ([], 0%nat, false)
    end
  | _ => ([], 0%nat, false)
  end = ([false; true; false; false; true; false; true; false], 8%nat, true).
Proof. vm_compute. reflexivity. Qed.

(** A case with several leaves: all the odd ones of 1024 samples. *)
Example demo_zero_tree : let missing := map (fun i => 2 * i + 1)%nat (seq 0 512) in
  (forall v, In v missing -> (v < 2 ^ 10)%nat) /\ (2 * length missing <= 2 ^ 10)%nat /\ missing <> [] /\
  ((length missing + 62) / 63 = 9)%nat.
Proof.
  intros missing. assert (L : length missing = 512%nat) by (unfold missing; rewrite map_length, seq_length; reflexivity).
  split; [|split; [|split]].
  - intros v Hv. apply in_map_iff in Hv as (i & <- & Hi). apply in_seq in Hi. change (2 ^ 10)%nat with 1024%nat. lia.
  - rewrite L. apply Nat.leb_le. reflexivity.
  - intros E. rewrite E in L. discriminate.
  - rewrite L. reflexivity.
Qed.

(** ** C43 *)

(** Missing samples. *)
Definition given (samples : list (option Fr)) (f : nat -> Fr) : Prop :=
  forall i s, nth i samples None = Some s -> s = f i.
Definition missing_count (samples : list (option Fr)) : nat :=
  length (filter (fun s => match s with None => true | Some _ => false end) samples).

Lemma missing_count_ok samples : length (missing_of samples) = missing_count samples.
Proof.
  unfold missing_of, missing_count. 
  assert (H : forall (l : list (option Fr)) pre, length (filter (fun i => match nth i (pre ++ l) None with None => true | Some _ => false end)
     (seq (length pre) (length l))) = length (filter (fun s => match s with None => true | Some _ => false end) l)).
  { induction l as [|s l IH]; intros pre; [reflexivity|]. cbn [length seq filter].
    rewrite app_nth2, Nat.sub_diag by lia. cbn [nth].
    specialize (IH (pre ++ [s])). rewrite <- app_assoc, app_length in IH. cbn [app length] in IH.
    rewrite Nat.add_1_r in IH. destruct s; cbn [length]; rewrite IH; reflexivity. }
  exact (H samples []).
Qed.

Lemma missing_nonempty samples : (1 <= missing_count samples)%nat -> missing_of samples <> [].
Proof. rewrite <- missing_count_ok. intros H E. rewrite E in H. cbn in H. lia. Qed.

(** If some samples of a polynomial of half the length are missing, at most half of them, the recovery returns all
    its values. *)
Theorem c43_recovers k fs j samples c : settings k fs -> (S j <= k)%nat -> length samples = (2 ^ S j)%nat ->
  (1 <= missing_count samples <= 2 ^ j)%nat -> (length c <= 2 ^ j)%nat ->
  given samples (fun i => value c (fpow (root (S j)) i)) ->
  RecoverPolyFromSamples fs samples (ZeroPolyViaMultiplication fs) =
  Ret (map (fun i => value c (fpow (root (S j)) i)) (seq 0 (2 ^ S j))).
Proof.
  intros S J L (M1 & M2) Lc G. destruct (settings_ok _ _ S) as (K & O).
  set (q := c ++ repeat 0 (2 ^ Datatypes.S j - missing_count samples - length c)).
  assert (Lq : length q = (2 ^ Datatypes.S j - missing_count samples)%nat).
  { unfold q. rewrite app_length, repeat_length. cbn [Nat.pow]. lia. }
  assert (Eq : forall x, peval q x = value c x).
  { intros x. unfold q. rewrite peval_app, peval_repeat0, <- value_peval. ring. }
  rewrite (Recover_ok fs k _ O samples (Datatypes.S j) q J L).
  - rewrite wj_root' by lia. f_equal. apply map_ext. intros i. apply Eq.
  - apply missing_nonempty, M1.
  - rewrite missing_count_ok. apply fits_half; [exact M1|]. cbn [Nat.pow]. lia.
  - rewrite missing_count_ok. exact Lq.
  - intros i s H. rewrite wj_root' by lia. rewrite Eq. symmetry. apply G. exact H.
Qed.
Print Assumptions c43_recovers.

(** Whatever the given samples are, the recovery never reports an error: it returns the values of a polynomial
    with as many coefficients as there are given samples, which agrees with all of them. *)
Theorem c43_never_reports k fs j samples : settings k fs -> (j <= k)%nat -> length samples = (2 ^ j)%nat ->
  (1 <= missing_count samples < 2 ^ j)%nat ->
  (missing_count samples <= 63 \/ (missing_count samples + 62) / 63 * 64 <= 2 ^ j)%nat ->
  exists q, length q = (2 ^ j - missing_count samples)%nat /\ given samples (fun i => value q (fpow (root j) i)) /\
    RecoverPolyFromSamples fs samples (ZeroPolyViaMultiplication fs) =
    Ret (map (fun i => value q (fpow (root j) i)) (seq 0 (2 ^ j))).
Proof.
  intros S J L (M1 & M2) M3. destruct (settings_ok _ _ S) as (K & O).
  assert (P : prim (root j) j) by (apply rootk_prim; lia).
  destruct (samples_interp (root j) j samples P L) as (q & Lq & Hq). exists q.
  rewrite missing_count_ok in Lq. split; [exact Lq|]. split.
  - intros i s H. rewrite <- value_peval. symmetry. apply Hq. exact H.
  - rewrite (Recover_ok fs k _ O samples j q J L).
    + rewrite wj_root' by lia. f_equal. apply map_ext. intros i. rewrite value_peval. reflexivity.
    + apply missing_nonempty, M1.
    + rewrite missing_count_ok. split; [lia|].
      replace (missing_count samples + 63 - 1)%nat with (missing_count samples + 62)%nat by lia. exact M3.
    + rewrite missing_count_ok. exact Lq.
    + intros i s H. rewrite wj_root' by lia. apply Hq. exact H.
Qed.
Print Assumptions c43_never_reports.

(** The claim that samples of no polynomial of half the length are reported fails: three of four samples, which no
    polynomial with two coefficients has, are accepted. *)
Theorem c43_inconsistent_refuted : exists k fs j samples data, settings k fs /\ (S j <= k)%nat /\
  length samples = (2 ^ S j)%nat /\ (1 <= missing_count samples <= 2 ^ j)%nat /\
  (forall c, (length c <= 2 ^ j)%nat -> ~ given samples (fun i => value c (fpow (root (S j)) i))) /\
  RecoverPolyFromSamples fs samples (ZeroPolyViaMultiplication fs) = Ret data.
Proof.
  destruct (c38_settings 2 ltac:(lia)) as (fs & S).
  set (samples := [Some 0; Some 0; Some 1; None]).
  destruct (c43_never_reports 2 fs 2 samples S ltac:(lia) eq_refl) as (q & _ & _ & E).
  - cbn. lia.
  - left. cbn. lia.
  - exists 2%nat, fs, 1%nat, samples. eexists. split; [exact S|]. split; [lia|]. split; [reflexivity|].
    split; [cbn; lia|]. split; [|exact E].
    intros c Lc G. change (2 ^ 1)%nat with 2%nat in Lc. set (w := root 2) in *.
    assert (V : forall x, value c x = nth 0 c 0 + nth 1 c 0 * x).
    { intros x. rewrite <- value_peval. destruct c as [|c0 [|c1 [|c2 c]]]; cbn in Lc |- *; try lia; ring. }
    pose proof (G 0%nat 0 eq_refl) as G0. pose proof (G 1%nat 0 eq_refl) as G1. pose proof (G 2%nat 1 eq_refl) as G2.
    cbv beta in G0, G1, G2. rewrite V in G0, G1, G2. rewrite fpow_1 in G1. change (fpow w 0) with 1 in G0.
    set (c0 := nth 0 c 0) in *. set (c1 := nth 1 c 0) in *.
    assert (W1 : w <> 1).
    { pose proof (prim_order (root 2) 2 (rootk_prim 2 ltac:(lia)) 1) as Q. rewrite fpow_1 in Q. apply Q. cbn. lia. }
    assert (C1 : c1 * (w - 1) = 0).
    { replace (c1 * (w - 1)) with ((c0 + c1 * w) - (c0 + c1 * 1)) by ring. rewrite <- G0, <- G1. ring. }
    apply fmul_eq_0 in C1 as [C1|C1].
    + rewrite C1 in G0, G2. assert (C0 : c0 = 0) by (rewrite G0; ring). rewrite C0 in G2. apply f1_neq_0.
      rewrite G2. ring.
    + apply W1. apply (proj1 (fsub_eq_0 _ _)). exact C1.
Qed.
Print Assumptions c43_inconsistent_refuted.

(** The claim that complete samples are returned unchanged fails: the process stops. *)
Theorem c43_complete_refuted fs samples : samples <> [] -> (forall i, (i < length samples)%nat -> nth i samples None <> None) ->
  RecoverPolyFromSamples fs samples (ZeroPolyViaMultiplication fs) = Panic.
Proof.
  intros NE H. assert (M : missing_of samples = []).
  { destruct (missing_of samples) as [|i l] eqn:E; [reflexivity|exfalso].
    assert (Q : In i (missing_of samples)) by (rewrite E; left; reflexivity).
    apply in_missing in Q as (Q1 & Q2). exact (H i Q1 Q2). }
  unfold RecoverPolyFromSamples. rewrite M. unfold ZeroPolyViaMultiplication. cbn [length Nat.eqb bind].
  destruct samples as [|s samples]; [congruence|]. cbn [length seq gomap repeat nth]. unfold idx at 1. cbn [nth_error bind].
  pose proof (H 0%nat) as H0. cbn [length nth] in H0. destruct s as [s|]; [|exfalso; apply H0; [lia|reflexivity]].
  rewrite (proj2 (feqb_eq 0 0) eq_refl). reflexivity.
Qed.
Print Assumptions c43_complete_refuted.

(** Four of eight samples of 2 + 3x missing. *)
Definition demo_c : list Fr := map of_Z [2; 3; 0; 0]%Z.
Definition demo_samples : list (option Fr) :=
  map (fun i => if Nat.even i then None else Some (value demo_c (fpow (root 3) i))) (seq 0 8).
Example demo_samples_ok : length demo_samples = 8%nat /\ missing_count demo_samples = 4%nat /\
  given demo_samples (fun i => value demo_c (fpow (root 3) i)).
Proof.
  split; [reflexivity|]. split; [reflexivity|]. intros i s H. unfold demo_samples in H.
  destruct (Nat.lt_ge_cases i 8) as [L|L].
  - rewrite nth_map_seq in H by exact L. cbn [plus] in H. destruct (Nat.even i); [discriminate|]. inversion H. reflexivity.
  - rewrite nth_overflow in H by (rewrite map_length, seq_length; exact L). discriminate.
Qed.

(** ** C44 *)

(** When the settings have exactly twice the length of the vector, the computed values are those, at the odd powers of
    the root of unity, of the polynomial of that length whose values at the even powers are given. *)
Theorem c44_extension k fs vals : settings k fs -> (2 <= k)%nat -> length vals = (2 ^ (k - 1))%nat ->
  exists out c, DASFFTExtension fs vals = Ret out /\ length out = length vals /\ length c = length vals /\
    (forall i, (i < length vals)%nat -> nth i vals 0 = value c (fpow (root k) (2 * i))) /\
    (forall i, (i < length vals)%nat -> nth i out 0 = value c (fpow (root k) (2 * i + 1))).
Proof.
  intros S K2 L. destruct (settings_ok _ _ S) as (K & O).
  destruct k as [|[|m]]; [lia|lia|]. replace (Datatypes.S (Datatypes.S m) - 1)%nat with (Datatypes.S m) in L by lia.
  set (k := Datatypes.S (Datatypes.S m)) in *. set (n := (2 ^ Datatypes.S m)%nat) in *.
  assert (P : prim (root k) k) by (apply rootk_prim; exact K).
  assert (P2 : prim (fpow (root k) 2) (Datatypes.S m)) by (apply prim_sq; exact P).
  set (cl := map (fun v => v * finv (of_nat n)) (dft (finv (fpow (root k) 2)) vals)).
  assert (Lc : length cl = n) by (unfold cl; rewrite map_length, length_dft; exact L).
  assert (DV : dft (fpow (root k) 2) cl = vals) by (apply dft_inv2; [exact P2|lia|exact L]).
  set (c := fun i => nth i cl 0).
  assert (EV : forall x, ev c n x = value cl x) by (intros x; unfold ev, value; rewrite Lc; reflexivity).
  assert (NV : forall i, (i < n)%nat -> nth i vals 0 = value cl (fpow (root k) (2 * i))).
  { intros i Hi. rewrite <- DV. rewrite nth_dft by lia. rewrite value_peval, <- fpow_mul. reflexivity. }
  assert (VL : vals = map (fun i => ev c n (fpow (fpow (root k) (2 ^ 0)) (2 * i))) (seq 0 n)).
  { apply (list_ext 0); [rewrite map_length, seq_length; exact L|]. intros i Hi. rewrite nth_map_seq by lia.
    change (2 ^ 0)%nat with 1%nat. rewrite fpow_1, EV. apply NV. lia. }
  pose proof (dasFFTExtension_ok fs k (rootk k) O m 0 c n) as D. change (rootk k) with (root k) in D. fold n in D.
  rewrite <- VL in D. specialize (D (le_n n) ltac:(unfold k; lia)). change (2 ^ 0)%nat with 1%nat in D.
  assert (NZ : of_nat n <> 0) by (apply pow2_nonzero; unfold k in K; lia).
  eexists. exists cl. split.
  - unfold DASFFTExtension. rewrite L, (fo_width _ _ _ O).
    assert (W2 : (2 ^ k = n * 2)%nat) by (unfold k, n; cbn [Nat.pow]; lia).
    rewrite W2, Nat.ltb_irrefl. rewrite D. cbn [bind]. rewrite map_map. reflexivity.
  - rewrite map_length, seq_length. split; [symmetry; exact L|]. split; [lia|]. split.
    + intros i Hi. apply NV. lia.
    + intros i Hi. rewrite nth_map_seq by lia. cbn [plus]. rewrite fpow_1, EV.
      replace (2 * i + 1)%nat with (Datatypes.S (2 * i)) by lia.
      set (v := value cl _). replace (of_nat n * v * finv (of_nat n)) with (v * (of_nat n * finv (of_nat n))) by ring.
      rewrite finv_r by exact NZ. ring.
Qed.
Print Assumptions c44_extension.

(** The claim fails when the settings are larger than needed, which the function allows: it always uses the roots of the
    full width. *)
Theorem c44_wide_refuted : exists k fs vals out, settings k fs /\ length vals = 2%nat /\ (2 * length vals < 2 ^ k)%nat /\
  DASFFTExtension fs vals = Ret out /\
  ~ exists c, length c = length vals /\
    (forall i, (i < length vals)%nat -> nth i vals 0 = value c (fpow (root 2) (2 * i))) /\
    (forall i, (i < length vals)%nat -> nth i out 0 = value c (fpow (root 2) (2 * i + 1))).
Proof.
  destruct (c38_settings 3 ltac:(lia)) as (fs & S). destruct (settings_ok _ _ S) as (K & O).
  (* the polynomial x *)
  set (vals := [1; fopp 1]).
  assert (T : of_nat 2 <> 0) by (apply (pow2_nonzero 1); lia).
  assert (E2 : of_nat 2 = 1 + 1) by (apply Fr_ext; reflexivity).
  exists 3%nat, fs, vals, [root 3; fopp 1 * root 3]. split; [exact S|]. split; [reflexivity|]. split; [cbn; lia|]. split.
  - unfold DASFFTExtension, vals. rewrite (fo_width _ _ _ O). change (2 ^ 3 <? length [1%F; fopp 1%F] * 2)%nat with false.
    cbn [length dasFFTExtension].
    rewrite (idx_nth 0) by (rewrite (fo_exp_length _ _ _ O); cbn; lia).
    rewrite (fo_exp_nth _ _ _ _ O) by (cbn; lia). rewrite fpow_1. change (rootk 3) with (root 3). cbn [bind map].
    apply f_equal. apply f_equal2; [|apply f_equal2; [|reflexivity]].
    + replace ((1 + fopp 1 + (1 - fopp 1) * root 3) * finv (of_nat 2)) with (root 3 * ((1 + 1) * finv (of_nat 2))) by ring.
      rewrite <- E2, finv_r by exact T. ring.
    + replace ((1 + fopp 1 - (1 - fopp 1) * root 3) * finv (of_nat 2)) with (fopp 1 * root 3 * ((1 + 1) * finv (of_nat 2))) by ring.
      rewrite <- E2, finv_r by exact T. ring.
  - intros (c & Lc & H1 & H2). destruct c as [|c0 [|c1 [|c2 c]]]; try discriminate Lc.
    assert (V : forall x, value [c0; c1] x = c0 + c1 * x) by (intros x; rewrite <- value_peval; cbn; ring).
    pose proof (H1 0%nat ltac:(cbn; lia)) as A0. pose proof (H1 1%nat ltac:(cbn; lia)) as A1.
    pose proof (H2 0%nat ltac:(cbn; lia)) as B0. rewrite V in A0, A1, B0. cbn [vals nth] in A0, A1, B0.
    change (2 * 0)%nat with 0%nat in A0. change (fpow (root 2) 0) with 1 in A0.
    change (2 * 1)%nat with 2%nat in A1. change (2 * 0 + 1)%nat with 1%nat in B0. rewrite fpow_1 in B0.
    assert (R2 : fpow (root 2) 2 = fopp 1) by exact (rootk_prim 2 ltac:(lia)). rewrite R2 in A1.
    assert (C0 : (1 + 1) * c0 = 0).
    { replace ((1 + 1) * c0) with ((c0 + c1 * 1) + (c0 + c1 * fopp 1)) by ring. rewrite <- A0, <- A1. ring. }
    apply fmul_eq_0 in C0 as [C0|C0]; [rewrite <- E2 in C0; exact (T C0)|]. rewrite C0 in A0, B0.
    assert (C1 : c1 = 1) by (rewrite A0; ring). rewrite C1 in B0.
    assert (RR : root 3 = root 2) by (rewrite B0; ring).
    assert (P3 : fpow (root 3) 4 = fopp 1) by exact (rootk_prim 3 ltac:(lia)).
    rewrite RR in P3. change 4%nat with (2 + 2)%nat in P3. rewrite fpow_add, R2 in P3.
    apply opp1_neq. rewrite <- P3. ring.
Qed.
Print Assumptions c44_wide_refuted.

(** A vector of one value is refused although it is a power of two. *)
Theorem c44_single_refuted : exists k fs v, settings k fs /\ DASFFTExtension fs [v] = Panic.
Proof.
  destruct (c38_settings 1 ltac:(lia)) as (fs & S). destruct (settings_ok _ _ S) as (K & O). exists 1%nat, fs, 1.
  split; [exact S|]. unfold DASFFTExtension. rewrite (fo_width _ _ _ O). reflexivity.
Qed.
Print Assumptions c44_single_refuted.

(** The values 1, w^2, w^4, w^6 of the polynomial x are extended by w, w^3, w^5, w^7. *)
Example demo_das :
  match NewFFTSettings 8 3 with
  | Ret (Some fs) =>
    match DASFFTExtension fs (map (fun i => fpow (root 3) (2 * i)) (seq 0 4)) with
    | Ret out => forallb (fun p => feqb (fst p) (snd p)) (combine out (map (fun i => fpow (root 3) (2 * i + 1)) (seq 0 4)))
                 && (length out =? 4)%nat
    | _ => false
    end
  | _ => false
  end = true.
Proof. vm_compute. reflexivity. Qed.

(** ** C45 *)

(** Each result of the batch inversion is the inverse of its element. *)
Theorem c45_inverses values : values <> [] -> (forall v, In v values -> v <> 0) ->
  exists outs, multiInv values = Ret outs /\ length outs = length values /\
    forall i, (i < length values)%nat -> nth i outs 0 * nth i values 0 = 1.
Proof.
  intros NE NZ. exists (map finv values). split; [apply multiInv_ok; assumption|]. split; [apply map_length|].
  intros i Hi. rewrite (nth_indep _ 0 (finv 0)) by (rewrite map_length; exact Hi). rewrite map_nth. apply finv_l.
  apply NZ, nth_In, Hi.
Qed.
Print Assumptions c45_inverses.

(** A single zero makes every result zero: the elements must all be invertible. *)
Theorem c45_zero_poisons values : In 0 values -> multiInv values = Ret (repeat 0 (length values)).
Proof. apply multiInv_zero. Qed.
Print Assumptions c45_zero_poisons.

(** The scaled polynomial has at x the value of the polynomial at kx; shifting and unshifting cancel. *)
Theorem c45_scaling poly k x :
  length (pOfKX poly k) = length poly /\ value (pOfKX poly k) x = value poly (k * x) /\
  UnshiftPoly (ShiftPoly poly) = poly.
Proof.
  split; [apply scale_powers_length|]. split; [rewrite <- !value_peval; apply pOfKX_eval|apply unshift_shift].
Qed.
Print Assumptions c45_scaling.

(** The positions are split into the even and the odd ones, halved, in their order. *)
Theorem c45_split positions :
  inefficientOddEvenDiv2 positions =
  (map (fun p => p / 2)%nat (filter Nat.even positions), map (fun p => p / 2)%nat (filter Nat.odd positions)).
Proof.
  induction positions as [|p ps IH]; [reflexivity|]. cbn [inefficientOddEvenDiv2 filter]. rewrite IH.
  assert (E : (Nat.land p 1 =? 0)%nat = Nat.even p).
  { replace 1%nat with (Nat.ones 1) by reflexivity. rewrite Nat.land_ones. change (2 ^ 1)%nat with 2%nat.
    rewrite <- Nat.bit0_mod. rewrite Nat.bit0_odd, <- Nat.negb_odd. destruct (Nat.odd p); reflexivity. }
  assert (D : Nat.shiftr p 1 = (p / 2)%nat) by (rewrite Nat.shiftr_div_pow2; reflexivity).
  rewrite E, D. rewrite <- Nat.negb_even. destruct (Nat.even p); reflexivity.
Qed.
Print Assumptions c45_split.

(** Evaluation from the values at the roots of unity: at every point outside the domain it is the value of the polynomial
    with these values. *)
Theorem c45_evaluation k fs s poly x : settings k fs -> (s <= k)%nat -> length poly = (2 ^ (k - s))%nat ->
  (forall i, (i < length poly)%nat -> x <> fpow (root (k - s)) i) ->
  forall c, (length c <= length poly)%nat ->
  (forall i, (i < length poly)%nat -> nth i poly 0 = value c (fpow (root (k - s)) i)) ->
  EvaluatePolyInEvaluationForm poly x (firstn (MaxWidth fs) (Expanded fs)) s = Ret (value c x).
Proof.
  intros S Ls L X c Lc H. destruct (settings_ok _ _ S) as (K & O).
  assert (P : prim (root (k - s)) (k - s)) by (apply rootk_prim; lia).
  assert (R : root (k - s) = fpow (rootk k) (2 ^ s)).
  { rewrite <- (wj_root' k (k - s)) by lia. unfold wj. do 2 f_equal. lia. }
  assert (KS : (2 ^ k = 2 ^ (k - s) * 2 ^ s)%nat) by (rewrite <- Nat.pow_add_r; f_equal; lia).
  assert (S0 : (2 ^ s <> 0)%nat) by (apply Nat.pow_nonzero; lia).
  assert (LR : length (firstn (MaxWidth fs) (Expanded fs)) = (2 ^ k)%nat).
  { rewrite firstn_length, (fo_exp_length _ _ _ O), (fo_width _ _ _ O). lia. }
  rewrite (EvaluatePolyInEvaluationForm_form poly x _ s (fun i => fpow (root (k - s)) i)).
  - f_equal. rewrite L. rewrite <- value_peval, <- (barycentric (root (k - s)) (k - s) c x P ltac:(lia)).
    + f_equal. apply sumn_ext. intros i Hi. rewrite H by lia. rewrite value_peval. reflexivity.
    + lia.
    + intros i Hi. apply X. lia.
  - rewrite LR, KS, Nat.div_mul by exact S0. exact L.
  - intros i Hi. rewrite (fo_width _ _ _ O). rewrite nth_firstn'.
    + rewrite (fo_exp_nth _ _ _ _ O).
      * rewrite R, <- fpow_mul. f_equal. lia.
      * rewrite KS. apply Nat.mul_le_mono_r. lia.
    + rewrite KS. apply Nat.mul_lt_mono_pos_r; lia.
Qed.
Print Assumptions c45_evaluation.

(** Such a polynomial exists. *)
Theorem c45_interpolant j poly : (j <= 31)%nat -> length poly = (2 ^ j)%nat ->
  exists c, length c = length poly /\ forall i, (i < length poly)%nat -> nth i poly 0 = value c (fpow (root j) i).
Proof.
  intros J L. assert (P : prim (root j) j) by (apply rootk_prim; exact J).
  exists (map (fun v => v * finv (of_nat (2 ^ j))) (dft (finv (root j)) poly)).
  split; [rewrite map_length, length_dft; reflexivity|]. intros i Hi.
  rewrite <- (dft_inv2 (root j) j poly P J L) at 1. rewrite nth_dft by (rewrite map_length, length_dft; exact Hi).
  apply value_peval.
Qed.
Print Assumptions c45_interpolant.

(** At a point of the domain the result is zero, not the value there. *)
Theorem c45_domain_refuted : exists k fs poly i, settings k fs /\ length poly = (2 ^ k)%nat /\ (i < length poly)%nat /\
  exists y, EvaluatePolyInEvaluationForm poly (fpow (root k) i) (firstn (MaxWidth fs) (Expanded fs)) 0 = Ret y /\
  y <> nth i poly 0.
Proof.
  destruct (c38_settings 2 ltac:(lia)) as (fs & S). destruct (settings_ok _ _ S) as (K & O).
  exists 2%nat, fs, [1; 1; 1; 1], 1%nat. split; [exact S|]. split; [reflexivity|]. split; [cbn; lia|].
  assert (LR : length (firstn (MaxWidth fs) (Expanded fs)) = 4%nat).
  { rewrite firstn_length, (fo_exp_length _ _ _ O), (fo_width _ _ _ O). reflexivity. }
  eexists. split.
  - rewrite (EvaluatePolyInEvaluationForm_form _ _ _ 0 (fun i => nth (i * 2 ^ 0) (firstn (MaxWidth fs) (Expanded fs)) 0)).
    + reflexivity.
    + rewrite LR. reflexivity.
    + reflexivity.
  - cbn [length nth]. assert (F : fpow (fpow (root 2) 1) 4 = 1).
    { rewrite fpow_1. exact (prim_one _ _ (rootk_prim 2 ltac:(lia))). }
    rewrite F. intros E. apply f1_neq_0. rewrite <- E. ring.
Qed.
Print Assumptions c45_domain_refuted.

(** A loop whose body returns or reports an error, and reports one at some index whatever was computed before. *)
Lemma goloop_error {A} j : forall n s (f : A -> nat -> go A) a, (j < n)%nat -> (forall b, f b (s + j)%nat = Error) ->
  (forall b i, (exists c, f b i = Ret c) \/ f b i = Error) -> goloop s n f a = Error.
Proof.
  intros n s f a Hj He Hf. induction n as [|n IH]; [lia|]. change (S n) with (1 + n)%nat. rewrite goloop_S.
  destruct (Nat.eq_dec j n) as [->|NE]; [|rewrite IH by lia; reflexivity].
  clear IH Hj. enough (G : (exists c, goloop s n f a = Ret c) \/ goloop s n f a = Error).
  { destruct G as [[c ->]| ->]; [apply He|reflexivity]. }
  clear He. induction n as [|n IH]; [left; eexists; reflexivity|]. change (S n) with (1 + n)%nat. rewrite goloop_S.
  destruct IH as [[c ->]| ->]; [apply Hf|right; reflexivity].
Qed.

(** Linear combinations of scalars and of polynomials; without any vectors the scalars are not looked at. *)
Theorem c45_combinations numbers factors vectors scalars d :
  (length numbers = length factors ->
     LinCombFr numbers factors = Ret (sumn (length numbers) (fun i => nth i numbers 0 * nth i factors 0))) /\
  (length numbers <> length factors -> LinCombFr numbers factors = Panic) /\
  (length scalars = length vectors -> (forall v, In v vectors -> length v = d) ->
     exists q, PolyLinComb vectors scalars d = Ret q /\ length q = d /\
       forall x, value q x = sumn (length vectors) (fun i => nth i scalars 0 * value (nth i vectors []) x)) /\
  (vectors <> [] -> length scalars <> length vectors \/ (exists v, In v vectors /\ length v <> d) ->
     PolyLinComb vectors scalars d = Error) /\
  PolyLinComb [] scalars d = Ret (repeat 0 d).
Proof.
  split; [|split; [|split; [|split; [|reflexivity]]]].
  - intros L. rewrite LinCombFr_correct by exact L. rewrite dot_nth by exact L. reflexivity.
  - intros L. unfold LinCombFr. rewrite (proj2 (Nat.eqb_neq _ _) L). reflexivity.
  - intros L H. destruct (PolyLinComb_correct vectors scalars d L) as (q & E & Lq & V).
    + apply Forall_forall. exact H.
    + exists q. split; [exact E|]. split; [exact Lq|]. intros x. rewrite <- value_peval, V.
      rewrite dot_nth by (rewrite map_length; exact L). rewrite L. apply sumn_ext. intros i Hi. f_equal.
      rewrite (nth_indep _ 0 (peval [] x)) by (rewrite map_length; exact Hi).
      rewrite (map_nth (fun v => peval v x)). apply value_peval.
  - intros NE H. unfold PolyLinComb. destruct (Nat.eqb_spec (length vectors) 0) as [E|_]; [destruct vectors; [congruence|discriminate]|].
    destruct (Nat.eqb_spec (length scalars) (length vectors)) as [E|_]; [|reflexivity]. cbn [negb].
    destruct H as [H|(v & Hv & Ld)]; [contradiction|]. apply (In_nth _ _ []) in Hv. destruct Hv as (j & Hj & Ev).
    apply (goloop_error j); [exact Hj|cbn [Nat.add]; rewrite Ev, (proj2 (Nat.eqb_neq _ _) Ld); reflexivity|].
    intros a i. destruct (negb _); [right; reflexivity|left; eexists; reflexivity].
Qed.
Print Assumptions c45_combinations.

(** Batch inversion of 2, 3, 5; evaluation at 7 of the polynomial 2 + 3x from its four values. *)
Example demo_multiInv :
  match multiInv (map of_Z [2; 3; 5]%Z) with
  | Ret outs => map (fun p => feqb (fst p * snd p) 1) (combine outs (map of_Z [2; 3; 5]%Z))
  | _ => []
  end = [true; true; true].
Proof. vm_compute. reflexivity. Qed.
Example demo_evaluation :
  match NewFFTSettings 4 2 with
  | Ret (Some fs) =>
    match EvaluatePolyInEvaluationForm (map (fun i => value (map of_Z [2; 3]%Z) (fpow (root 2) i)) (seq 0 4)) (of_Z 7)
            (firstn (MaxWidth fs) (Expanded fs)) 0 with
    | Ret y => feqb y (of_Z 23)
    | _ => false
    end
  | _ => false
  end = true.
Proof. vm_compute. reflexivity. Qed.
