(** C57 on slices with their capacity: DeleteZero and DeleteZeroWithLen (pkg/utils/utils.go:39-53). C61: powers whose
    exponent is a scalar (internal/bls/bignum_pure.go:109-111). *)

Require Import ZArith List Bool Arith Lia Permutation.
From Verif Require Import Prime Fr GoBase CodecModel CodecProofs BackendModel BackendProofs PropertiesBackend PropertiesTight SliceModel.
Import ListNotations.

(** ** C57 *)

Local Open Scope nat_scope.

Definition slice_ok (s : slice) : Prop := s_len s <= length (s_arr s).

(** Data and padding come apart exactly if the data is empty or does not end with a zero. *)
Theorem c57_unpad_iff : forall l n, DeleteZero (l ++ repeat 0%Z n) = l <-> forall l', l <> l' ++ [0%Z].
Proof.
  intros l n. destruct l as [|b l _] using rev_ind.
  - split; [intros _ l' E; destruct l'; discriminate E|]. intros _. unfold DeleteZero. cbn [app].
    enough (H : forall n, drop_zeros (repeat 0%Z n) = []).
    { replace (rev (repeat 0%Z n)) with (repeat 0%Z n); [rewrite H; reflexivity|]. clear. induction n as [|n IH]; [reflexivity|].
      cbn [repeat rev]. rewrite <- IH. change [0%Z] with (repeat 0%Z 1). rewrite <- repeat_app, Nat.add_comm. reflexivity. }
    clear. induction n; [reflexivity|exact IHn].
  - destruct (Z.eq_dec b 0) as [E|E].
    + subst b. split; [|intros H; destruct (H l eq_refl)]. intros H. exfalso.
      destruct (c57_trailing ((l ++ [0%Z]) ++ repeat 0%Z n)) as (_ & _ & [D|(l' & b & D & NB)]); rewrite H in D.
      * destruct l; discriminate D.
      * apply app_inj_tail in D. destruct D as (_ & D). apply NB. symmetry. exact D.
    + split; [|intros _; apply c57_unpad; exact E]. intros _ l' H. apply app_inj_tail in H. destruct H as (_ & H). exact (E H).
Qed.
Print Assumptions c57_unpad_iff.

Lemma strip_spec a : forall k, k <= length a ->
  strip k (mkSlice a k) = Ret (mkSlice a (length (DeleteZero (firstn k a)))) /\
  firstn (length (DeleteZero (firstn k a))) a = DeleteZero (firstn k a).
Proof.
  induction k as [|k IH]; intros H; [split; reflexivity|].
  destruct (IH ltac:(lia)) as (IH1 & IH2). cbn [strip s_len s_arr]. rewrite (proj2 (Nat.ltb_lt k (S k))) by lia.
  rewrite (idx_nth 0%Z) by lia. cbn [bind].
  assert (E : firstn (S k) a = firstn k a ++ [nth k a 0%Z]).
  { clear - H. revert k H. induction a as [|x a IH]; intros k H; [cbn in H; lia|]. destruct k as [|k]; [reflexivity|].
    cbn [firstn app nth]. f_equal. apply (IH k). cbn in H. lia. }
  destruct (Z.eqb_spec (nth k a 0%Z) 0) as [Z0|Z0].
  - unfold reslice. cbn [s_arr]. rewrite (proj2 (Z.leb_le 0 (Z.of_nat k))), (proj2 (Z.leb_le (Z.of_nat k) (Z.of_nat (length a)))) by lia.
    cbn [andb bind]. rewrite Nat2Z.id, IH1.
    replace (DeleteZero (firstn (S k) a)) with (DeleteZero (firstn k a)); [split; [reflexivity|exact IH2]|].
    rewrite E, Z0. unfold DeleteZero at 2. rewrite rev_app_distr. reflexivity.
  - pose proof (c57_unpad (firstn k a) (nth k a 0%Z) 0 Z0) as U. cbn [repeat] in U. rewrite app_nil_r, <- E in U. rewrite U.
    rewrite firstn_length, Nat.min_l by lia. split; reflexivity.
Qed.

(** DeleteZero never panics, shows the data without its trailing zeros, and leaves the bytes in place. *)
Theorem c57_slice : forall s, slice_ok s -> exists s', DeleteZeroS s = Ret s' /\ slice_ok s' /\ s_arr s' = s_arr s /\
  exists n, elems s = elems s' ++ repeat 0%Z n /\ forall l, elems s' <> l ++ [0%Z].
Proof.
  intros [a k] H. unfold slice_ok in H. cbn [s_arr s_len] in H. destruct (strip_spec a k H) as (S1 & S2).
  eexists. split; [exact S1|]. destruct (c57_trailing (firstn k a)) as (n & T1 & T2). unfold slice_ok, elems. cbn [s_arr s_len].
  split. { rewrite <- S2. rewrite firstn_length. apply Nat.le_min_r. }
  split; [reflexivity|]. exists n. rewrite S2. split; [exact T1|].
  intros l E. rewrite E in T2. destruct T2 as [T2|(l' & b & T2 & NB)]; [destruct l; discriminate T2|].
  apply app_inj_tail in T2. destruct T2 as (_ & T2). apply NB. symmetry. exact T2.
Qed.
Print Assumptions c57_slice.

(** With the length, padding is undone for all data; the bytes that DeleteZero has taken off too much come back; a length
    beyond the capacity panics, one beyond the length of the slice shows what lies behind it. *)
Theorem c57_with_len : forall s n, slice_ok s ->
  (forall l pad, elems s = l ++ pad -> n = Z.of_nat (length l) ->
     exists s', DeleteZeroWithLen s n = Ret s' /\ elems s' = l /\
     exists s1 s2, DeleteZeroS s = Ret s1 /\ DeleteZeroWithLen s1 n = Ret s2 /\ elems s2 = l) /\
  ((n < 0 \/ Z.of_nat (length (s_arr s)) < n)%Z -> DeleteZeroWithLen s n = Panic) /\
  ((Z.of_nat (s_len s) <= n <= Z.of_nat (length (s_arr s)))%Z ->
     exists s', DeleteZeroWithLen s n = Ret s' /\ length (elems s') = Z.to_nat n /\ firstn (s_len s) (elems s') = elems s).
Proof.
  intros [a k] n H. unfold slice_ok in H. cbn [s_arr s_len] in H.
  assert (X : (0 <= n <= Z.of_nat (length a))%Z -> forall k', reslice (mkSlice a k') n = Ret (mkSlice a (Z.to_nat n))).
  { intros B k'. unfold reslice. cbn [s_arr]. rewrite (proj2 (Z.leb_le 0 n)), (proj2 (Z.leb_le n (Z.of_nat (length a)))) by lia. reflexivity. }
  split; [|split].
  - intros l pad E ->. unfold elems in *. cbn [s_arr s_len] in *.
    assert (LE : length l <= k). { apply (f_equal (@length Z)) in E. rewrite firstn_length, app_length in E. lia. }
    assert (EL : firstn (length l) a = l).
    { rewrite <- (Nat.min_l (length l) k LE), <- firstn_firstn, E, firstn_app, Nat.sub_diag, firstn_all. apply app_nil_r. }
    unfold DeleteZeroWithLen. rewrite X by lia. eexists. split; [reflexivity|]. cbn [s_arr s_len]. rewrite Nat2Z.id. split; [exact EL|].
    destruct (strip_spec a k H) as (S1 & _). do 2 eexists. split; [exact S1|]. rewrite X by lia. split; [reflexivity|].
    cbn [s_arr s_len]. rewrite Nat2Z.id. exact EL.
  - cbn [s_arr]. intros B. unfold DeleteZeroWithLen, reslice. cbn [s_arr].
    destruct (Z.leb_spec 0 n); [|reflexivity]. destruct (Z.leb_spec n (Z.of_nat (length a))); [lia|reflexivity].
  - cbn [s_arr s_len]. intros B. unfold DeleteZeroWithLen. rewrite X by lia. eexists. split; [reflexivity|]. unfold elems. cbn [s_arr s_len].
    split; [rewrite firstn_length; lia|]. rewrite firstn_firstn, Nat.min_l by lia. reflexivity.
Qed.
Print Assumptions c57_with_len.

Example c57_slice_example :
  DeleteZeroS (mkSlice [7; 0; 5; 0; 0; 9]%Z 5) = Ret (mkSlice [7; 0; 5; 0; 0; 9]%Z 3) /\
  DeleteZeroWithLen (mkSlice [7; 0; 5; 0; 0; 9]%Z 3) 4 = Ret (mkSlice [7; 0; 5; 0; 0; 9]%Z 4) /\
  elems (mkSlice [7; 0; 5; 0; 0; 9]%Z 4) = [7; 0; 5; 0]%Z /\ DeleteZeroWithLen (mkSlice [7; 0; 5; 0; 0; 9]%Z 3) 7 = Panic.
Proof. repeat split. Qed.

(** ** C61 *)

(** The power in the field, with the exponent read as a number. *)
Theorem c61_pow : forall a b, PowModFr (fv a) (fv b) = fv (fpow a (Z.to_nat (fv b))).
Proof.
  intros a b. unfold PowModFr. rewrite fv_pow. pose proof (fv_range b) as R. destruct (Z.eq_dec (fv b) 0) as [E|E].
  - rewrite E. cbn [Z.to_nat Z.of_nat zpow]. rewrite Z.pow_0_r. reflexivity.
  - rewrite zpow_spec, Z2Nat.id by lia. reflexivity.
Qed.
Print Assumptions c61_pow.

(** All scalars but zero. *)
Definition below (m : nat) : list Fr := map (fun n => of_Z (Z.of_nat n)) (seq 1 m).
Definition units : list Fr := below (Z.to_nat (r - 1)).

Lemma below_nodup m : (Z.of_nat m < r)%Z -> NoDup (below m).
Proof.
  intros R. unfold below. assert (H : forall n, In n (seq 1 m) -> (0 < Z.of_nat n < r)%Z).
  { intros n Hn. apply in_seq in Hn. lia. }
  assert (D : NoDup (seq 1 m)) by apply seq_NoDup. revert H D. generalize (seq 1 m).
  induction l as [|n l IH]; intros H D; [constructor|]. inversion D. subst. cbn [map]. constructor.
  - intros Q. apply in_map_iff in Q. destruct Q as (k & E & Hk). apply (f_equal fv) in E. rewrite !fv_of_Z in E.
    pose proof (H n (or_introl eq_refl)). pose proof (H k (or_intror Hk)). rewrite !Z.mod_small in E by lia. apply Nat2Z.inj in E. subst k. contradiction.
  - apply IH; [intros k Hk; apply H; right; exact Hk|assumption].
Qed.

Lemma below_in m a : (Z.of_nat m < r)%Z -> In a (below m) <-> (0 < fv a <= Z.of_nat m)%Z.
Proof.
  intros R. pose proof (fv_range a) as A. unfold below. rewrite in_map_iff. split.
  - intros (n & E & Hn). apply in_seq in Hn. subst a. rewrite fv_of_Z, Z.mod_small by lia. lia.
  - intros N. exists (Z.to_nat (fv a)). rewrite Z2Nat.id by lia. split; [|apply in_seq; lia].
    apply Fr_ext. rewrite fv_of_Z. apply Z.mod_small. exact A.
Qed.

Lemma units_small : Z.of_nat (Z.to_nat (r - 1)) = (r - 1)%Z.
Proof. apply Z2Nat.id. pose proof r_gt_1. lia. Qed.

Lemma units_nodup : NoDup units.
Proof. unfold units. apply below_nodup. rewrite units_small. lia. Qed.

Lemma units_in a : In a units <-> a <> f0.
Proof.
  unfold units. rewrite below_in by (rewrite units_small; lia). rewrite units_small. pose proof (fv_range a) as A. split.
  - intros H E. subst a. rewrite fv_f0 in H. lia.
  - intros N. assert (fv a <> 0%Z) by (intros Q; apply N; apply Fr_ext; rewrite fv_f0; exact Q). lia.
Qed.

Lemma units_length : length units = Z.to_nat (r - 1).
Proof. unfold units, below. rewrite map_length. apply seq_length. Qed.
Opaque units.

Definition prod (l : list Fr) : Fr := fold_right fmul f1 l.

Lemma prod_perm l l' : Permutation l l' -> prod l = prod l'.
Proof. induction 1 as [|x l l' _ IH|x y l|l l' l2 _ IH1 _ IH2]; cbn [prod fold_right] in *; [reflexivity|unfold prod in IH; rewrite IH; reflexivity|ring|congruence]. Qed.

Lemma prod_scale a l : prod (map (fmul a) l) = fmul (fpow a (length l)) (prod l).
Proof. induction l as [|x l IH]; cbn [map length fpow]; [cbn; ring|]. cbn [prod fold_right]. unfold prod in IH. rewrite IH. ring. Qed.

Lemma prod_nonzero l : (forall x, In x l -> x <> f0) -> prod l <> f0.
Proof.
  induction l as [|x l IH]; intros H; cbn [prod fold_right]; [exact f1_neq_0|]. intros E.
  assert (X : x <> f0) by (apply H; left; reflexivity). apply IH; [intros y Hy; apply H; right; exact Hy|].
  transitivity (fmul (finv x) (fmul x (prod l))); [|unfold prod; rewrite E; ring]. field. exact X.
Qed.

Lemma fermat a : a <> f0 -> fpow a (Z.to_nat (r - 1)) = f1.
Proof.
  intros N. assert (P : Permutation (map (fmul a) units) units).
  { apply NoDup_Permutation; [|exact units_nodup|].
    - apply FinFun.Injective_map_NoDup; [|exact units_nodup]. intros x y E.
      transitivity (fmul (finv a) (fmul a x)); [field; exact N|]. rewrite E. field. exact N.
    - intros x. rewrite units_in, in_map_iff. split.
      + intros (y & <- & Hy) E. apply (proj1 (units_in y) Hy). transitivity (fmul (finv a) (fmul a y)); [field; exact N|]. rewrite E. ring.
      + intros X. exists (fmul (finv a) x). split; [field; exact N|]. refine (proj2 (units_in _) _). intros E. apply X.
        transitivity (fmul a (fmul (finv a) x)); [field; exact N|]. rewrite E. ring. }
  apply prod_perm in P. rewrite prod_scale in P. rewrite units_length in P.
  assert (Q : prod units <> f0) by (apply prod_nonzero; intros x Hx; exact (proj1 (units_in x) Hx)). set (q := prod units) in *. clearbody q.
  transitivity (fmul (fmul (fpow a (Z.to_nat (r - 1))) q) (finv q)); [field; exact Q|]. rewrite P. field. exact Q.
Qed.

(** The exponent r-1 gives 1, the exponent r-2 what InvModFr gives. *)
Theorem c61_pow_inverse : forall a old, a <> f0 ->
  PowModFr (fv a) (r - 1) = 1%Z /\ PowModFr (fv a) (r - 2) = ModInverse old (fv a).
Proof.
  intros a old N. pose proof r_gt_1 as R. assert (R2 : (2 < r)%Z) by reflexivity.
  assert (E1 : fv (of_Z (r - 1)) = (r - 1)%Z) by (rewrite fv_of_Z; apply Z.mod_small; lia).
  assert (E2 : fv (of_Z (r - 2)) = (r - 2)%Z) by (rewrite fv_of_Z; apply Z.mod_small; lia).
  pose proof (c61_pow a (of_Z (r - 1))) as P1. pose proof (c61_pow a (of_Z (r - 2))) as P2. rewrite E1 in P1. rewrite E2 in P2.
  rewrite P1, P2, (fermat a N). split; [reflexivity|]. rewrite inverse_fv.
  destruct (feqb a f0) eqn:E; [apply feqb_eq in E; contradiction|]. f_equal.
  pose proof (fermat a N) as X. replace (Z.to_nat (r - 1)) with (S (Z.to_nat (r - 2))) in X by lia. cbn [fpow] in X.
  transitivity (fmul (finv a) (fmul a (fpow a (Z.to_nat (r - 2))))); [field; exact N|]. rewrite X. ring.
Qed.
Print Assumptions c61_pow_inverse.

(** The exponents add up as numbers, but not as scalars: for every base but 0 and 1 the law fails for some exponents,
    although it holds as long as their sum is less than r. *)
Theorem c61_pow_add : forall a b c, (fv b + fv c < r)%Z ->
  PowModFr (fv a) (fv (fadd b c)) = fv (fmul (fpow a (Z.to_nat (fv b))) (fpow a (Z.to_nat (fv c)))).
Proof.
  intros a b c H. pose proof (fv_range b). pose proof (fv_range c). rewrite c61_pow, <- fpow_add. f_equal. f_equal.
  rewrite fv_add, Z.mod_small by lia. apply Z2Nat.inj_add; lia.
Qed.
Print Assumptions c61_pow_add.

Theorem c61_pow_add_refuted : forall a, a <> f0 -> a <> f1 -> exists b c,
  PowModFr (fv a) (fv (fadd b c)) <> (PowModFr (fv a) (fv b) * PowModFr (fv a) (fv c) mod r)%Z.
Proof.
  intros a N0 N1. exists (of_Z (r - 1)), f1. pose proof r_gt_1 as R.
  assert (E1 : fv (of_Z (r - 1)) = (r - 1)%Z) by (rewrite fv_of_Z; apply Z.mod_small; lia).
  assert (E2 : fv f1 = 1%Z) by reflexivity.
  assert (E3 : fv (fadd (of_Z (r - 1)) f1) = 0%Z) by reflexivity.
  rewrite E3, E1, (proj1 (c61_pow_inverse a 0 N0)), E2. change (PowModFr (fv a) 0) with 1%Z.
  assert (E4 : PowModFr (fv a) 1 = fv a). { rewrite <- E2 at 1. rewrite c61_pow, E2. f_equal. change (Z.to_nat 1) with 1%nat. cbn [fpow]. ring. }
  rewrite E4, Z.mul_1_l, fv_small. intros Q. apply N1. apply Fr_ext. rewrite E2. symmetry. exact Q.
Qed.
Print Assumptions c61_pow_add_refuted.

Example c61_pow_example : PowModFr 5 3 = 125%Z /\ PowModFr 2 256 = (2 ^ 256 - 2 * r)%Z /\ PowModFr 0 0 = 1%Z.
Proof. split; [vm_compute; reflexivity|]. split; vm_compute; reflexivity. Qed.
