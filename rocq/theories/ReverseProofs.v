(** Bit reversal. *)

Require Import ZArith List Bool Lia Arith Permutation.
From Verif Require Import CodecModel GoBase VssProofs ReverseModel.
Import ListNotations.
Local Open Scope Z_scope.

(** ** bitIndex *)

Lemma mask_test v n : 0 <= n <= 32 -> 0 <= v < 2 ^ 32 -> (Z.land v (2 ^ 32 - 2 ^ n) =? 0) = (v <? 2 ^ n).
Proof.
  intros Hn Hv.
  assert (M : 2 ^ 32 - 2 ^ n = Z.shiftl (Z.ones (32 - n)) n).
  { rewrite Z.shiftl_mul_pow2, Z.ones_equiv by lia.
    replace 32 with (32 - n + n) at 1 by lia. rewrite Z.pow_add_r by lia. lia. }
  assert (E : Z.land v (2 ^ 32 - 2 ^ n) = Z.shiftl (Z.shiftr v n) n).
  { rewrite M. apply Z.bits_inj'. intros i Hi. rewrite Z.land_spec, !Z.shiftl_spec by lia.
    destruct (Z.lt_ge_cases i n) as [L|L].
    - rewrite !(Z.testbit_neg_r _ (i - n)) by lia. apply andb_false_r.
    - rewrite Z.shiftr_spec by lia. replace (i - n + n) with i by lia.
      destruct (Z.lt_ge_cases i 32) as [U|U].
      + rewrite Z.ones_spec_low by lia. apply andb_true_r.
      + rewrite Z.ones_spec_high by lia. rewrite andb_false_r. symmetry.
        destruct (Z.eq_dec v 0) as [->|N]; [apply Z.bits_0|].
        apply Z.bits_above_log2; [lia|]. apply Z.lt_le_trans with 32; [apply Z.log2_lt_pow2; lia|lia]. }
  rewrite E, Z.shiftl_mul_pow2, Z.shiftr_div_pow2 by lia.
  assert (P : 0 < 2 ^ n) by (apply Z.pow_pos_nonneg; lia).
  destruct (Z.ltb_spec v (2 ^ n)) as [L|L].
  - rewrite Z.div_small by lia. reflexivity.
  - apply Z.eqb_neq. assert (1 <= v / 2 ^ n) by (apply Z.div_le_lower_bound; lia). nia.
Qed.

(** Stage k: v is the top of v0 from bit out on, below 2^(2^(k+1)); out is a multiple of 2^(k+1). *)
Lemma bi_stage_ok v0 k v out : 0 <= k <= 4 -> 0 < v < 2 ^ (2 ^ (k + 1)) -> 0 <= out -> out mod 2 ^ (k + 1) = 0 ->
  v0 / 2 ^ out = v ->
  let '(v', out') := bi_stage k (v, out) in
  0 < v' < 2 ^ (2 ^ k) /\ 0 <= out' /\ out' mod 2 ^ k = 0 /\ v0 / 2 ^ out' = v'.
Proof.
  intros Hk Hv Ho Hm Hd. unfold bi_stage, mask, bit.
  assert (Pk : 0 < 2 ^ k <= 2 ^ 4) by (split; [apply Z.pow_pos_nonneg; lia|apply Z.pow_le_mono_r; lia]).
  assert (P1 : 2 ^ (k + 1) = 2 * 2 ^ k) by (rewrite Z.pow_add_r by lia; lia).
  assert (PP : 2 ^ (2 ^ (k + 1)) = 2 ^ (2 ^ k) * 2 ^ (2 ^ k)) by (rewrite P1, <- Z.pow_add_r by lia; f_equal; lia).
  assert (Q : 0 < 2 ^ (2 ^ k)) by (apply Z.pow_pos_nonneg; lia).
  rewrite mask_test; [|lia|].
  2:{ split; [lia|]. apply Z.lt_le_trans with (2 ^ (2 ^ (k + 1))); [lia|]. apply Z.pow_le_mono_r; lia. }
  assert (Hm' : out mod 2 ^ k = 0).
  { apply Z.mod_divide in Hm; [|lia]. apply Z.mod_divide; [lia|].
    destruct Hm as (c & ->). exists (c * 2). rewrite P1. ring. }
  destruct (Z.ltb_spec v (2 ^ (2 ^ k))) as [L|L].
  - repeat split; try lia; assumption.
  - rewrite Z.shiftr_div_pow2 by lia.
    assert (OR : Z.lor out (2 ^ k) = out + 2 ^ k).
    { symmetry. apply Z.add_nocarry_lxor in Hm' as H' || idtac.
      assert (LA : Z.land out (2 ^ k) = 0).
      { apply Z.bits_inj'. intros i Hi. rewrite Z.land_spec, Z.bits_0.
        destruct (Z.eq_dec i k) as [->|N].
        - apply Z.mod_divide in Hm; [|lia]. destruct Hm as (c & ->). 
          rewrite Z.mul_pow2_bits by lia. rewrite Z.testbit_neg_r by lia. reflexivity.
        - rewrite (Z.pow2_bits_false k i) by lia. apply andb_false_r. }
      rewrite Z.add_nocarry_lxor by exact LA. rewrite Z.lxor_lor by exact LA. reflexivity. }
    rewrite OR. repeat split.
    + apply Z.div_str_pos. lia.
    + apply Z.div_lt_upper_bound; lia.
    + lia.
    + rewrite Z.add_mod, Hm', Z.mod_same by lia. reflexivity.
    + rewrite Z.pow_add_r by lia. rewrite <- Z.div_div by (try apply Z.pow_nonzero; try apply Z.pow_pos_nonneg; lia).
      rewrite Hd. reflexivity.
Qed.

Lemma bitIndex_ok v : 0 < v < 2 ^ 32 -> bitIndex v = Z.log2 v.
Proof.
  intros H. unfold bitIndex. destruct (Z.eqb_spec v 0); [lia|].
  pose proof (bi_stage_ok v 4 v 0 ltac:(lia) H ltac:(lia) ltac:(reflexivity) ltac:(apply Z.div_1_r)) as S4.
  destruct (bi_stage 4 (v, 0)) as (v4, o4). destruct S4 as (A1 & A2 & A3 & A4).
  pose proof (bi_stage_ok v 3 v4 o4 ltac:(lia) A1 A2 A3 A4) as S.
  destruct (bi_stage 3 (v4, o4)) as (v3, o3). destruct S as (B1 & B2 & B3 & B4).
  pose proof (bi_stage_ok v 2 v3 o3 ltac:(lia) B1 B2 B3 B4) as S.
  destruct (bi_stage 2 (v3, o3)) as (v2, o2). destruct S as (C1 & C2 & C3 & C4).
  pose proof (bi_stage_ok v 1 v2 o2 ltac:(lia) C1 C2 C3 C4) as S.
  destruct (bi_stage 1 (v2, o2)) as (v1, o1). destruct S as (D1 & D2 & D3 & D4).
  pose proof (bi_stage_ok v 0 v1 o1 ltac:(lia) D1 D2 D3 D4) as S. unfold bi_stage in S.
  assert (G : forall w o, 0 < w < 2 ^ (2 ^ 0) -> 0 <= o -> v / 2 ^ o = w -> o = Z.log2 v).
  { intros w o W O D. change (2 ^ (2 ^ 0)) with 2 in W. assert (w = 1) by lia. subst w.
    symmetry. apply Z.log2_unique; [exact O|]. assert (P : 0 < 2 ^ o) by (apply Z.pow_pos_nonneg; lia).
    pose proof (Z.div_mod v (2 ^ o) ltac:(lia)) as E. pose proof (Z.mod_pos_bound v (2 ^ o) P).
    rewrite H0 in E. replace (2 ^ Z.succ o) with (2 * 2 ^ o) by (rewrite Z.pow_succ_r by lia; reflexivity). lia. }
  destruct (Z.land v1 (mask 0) =? 0); destruct S as (E1 & E2 & E3 & E4); exact (G _ _ E1 E2 E4).
Qed.

Lemma bitIndex_pow2 k : 0 <= k < 32 -> bitIndex (2 ^ k) = k.
Proof.
  intros H. rewrite bitIndex_ok; [apply Z.log2_pow2; lia|].
  split; [apply Z.pow_pos_nonneg; lia|apply Z.pow_lt_mono_r; lia].
Qed.

(** ** reverseBits *)

Lemma revByte_table :
  forallb (fun x => forallb (fun i => Bool.eqb (Z.testbit (nth x revByte 0) (Z.of_nat i)) (Z.testbit (Z.of_nat x) (7 - Z.of_nat i)))
                    (seq 0 8)) (seq 0 256) = true.
Proof. vm_compute. reflexivity. Qed.

Lemma revByte_range : forallb (fun y => (0 <=? y) && (y <? 2 ^ 8)) revByte = true.
Proof. vm_compute. reflexivity. Qed.

Lemma revByte_at_range b : 0 <= revByte_at b < 2 ^ 8.
Proof.
  unfold revByte_at. pose proof (Z.mod_pos_bound b 256 ltac:(lia)).
  pose proof (proj1 (forallb_forall _ _) revByte_range (nth (Z.to_nat (b mod 256)) revByte 0)) as F.
  assert (I : In (nth (Z.to_nat (b mod 256)) revByte 0) revByte).
  { apply nth_In. change (length revByte) with 256%nat. lia. }
  apply F in I. apply andb_prop in I. destruct I as (A & B). apply Z.leb_le in A. apply Z.ltb_lt in B. lia.
Qed.

Lemma revByte_at_bit b i : 0 <= i -> Z.testbit (revByte_at b) i = (i <? 8) && Z.testbit b (7 - i).
Proof.
  intros Hi. destruct (Z.ltb_spec i 8) as [L|L]; cbn [andb].
  - unfold revByte_at. pose proof (Z.mod_pos_bound b 256 ltac:(lia)) as B.
    pose proof (proj1 (forallb_forall _ _) revByte_table (Z.to_nat (b mod 256)) ltac:(apply in_seq; lia)) as F.
    cbv beta in F. pose proof (proj1 (forallb_forall _ _) F (Z.to_nat i) ltac:(apply in_seq; lia)) as G. cbv beta in G.
    apply eqb_prop in G. rewrite !Z2Nat.id in G by lia. rewrite G.
    change 256 with (2 ^ 8). rewrite Z.mod_pow2_bits_low by lia. reflexivity.
  - pose proof (revByte_at_range b) as R. destruct (Z.eq_dec (revByte_at b) 0) as [E|E]; [rewrite E; apply Z.bits_0|].
    apply Z.bits_above_log2; [lia|]. apply Z.lt_le_trans with 8; [apply Z.log2_lt_pow2; lia|lia].
Qed.

Lemma testbit_sh x s i : 0 <= s -> 0 <= i -> (0 <= x) ->
  Z.testbit (Z.shiftl x s) i = (s <=? i) && Z.testbit x (i - s).
Proof.
  intros Hs Hi Hx. rewrite Z.shiftl_spec by lia. destruct (Z.leb_spec s i); cbn [andb]; [reflexivity|].
  apply Z.testbit_neg_r. lia.
Qed.

(** Bit i of the result is bit 31-i of the argument. *)
Lemma reverseBits_bit b i : 0 <= i < 32 -> Z.testbit (reverseBits b) i = Z.testbit b (31 - i).
Proof.
  intros Hi. unfold reverseBits.
  rewrite !Z.lor_spec, !testbit_sh by (try lia; apply revByte_at_range).
  pose proof (revByte_at_bit (Z.shiftr b 24) i ltac:(lia)) as R0. rewrite R0.
  destruct (Z.leb_spec 24 i) as [A|A]; [|destruct (Z.leb_spec 16 i) as [B|B]; [|destruct (Z.leb_spec 8 i) as [C|C]]];
    destruct (Z.leb_spec 24 i), (Z.leb_spec 16 i), (Z.leb_spec 8 i), (Z.ltb_spec i 8); try lia; cbn [andb orb].
  - rewrite !revByte_at_bit by lia.
    destruct (Z.ltb_spec (i - 24) 8), (Z.ltb_spec (i - 16) 8), (Z.ltb_spec (i - 8) 8); try lia. cbn [andb orb].
    rewrite !orb_false_r. f_equal. lia.
  - rewrite !revByte_at_bit by lia.
    destruct (Z.ltb_spec (i - 16) 8), (Z.ltb_spec (i - 8) 8); try lia. cbn [andb orb].
    rewrite !orb_false_r, Z.shiftr_spec by lia. f_equal. lia.
  - rewrite !revByte_at_bit by lia.
    destruct (Z.ltb_spec (i - 8) 8); try lia. cbn [andb orb].
    rewrite !orb_false_r, Z.shiftr_spec by lia. f_equal. lia.
  - rewrite Z.shiftr_spec by lia. f_equal. lia.
Qed.

Lemma reverseBits_range b : 0 <= reverseBits b < 2 ^ 32.
Proof.
  assert (N : forall x s, 0 <= x < 2 ^ 8 -> 0 <= s <= 24 -> 0 <= Z.shiftl x s /\ forall i, 32 <= i -> Z.testbit (Z.shiftl x s) i = false).
  { intros x s Hx Hs. split; [apply Z.shiftl_nonneg; lia|]. intros i Hi. rewrite Z.shiftl_spec by lia.
    destruct (Z.eq_dec x 0) as [->|E]; [apply Z.bits_0|].
    apply Z.bits_above_log2; [lia|]. apply Z.lt_le_trans with 8; [apply Z.log2_lt_pow2; lia|lia]. }
  assert (NN : 0 <= reverseBits b).
  { unfold reverseBits. rewrite !Z.lor_nonneg, !Z.shiftl_nonneg. repeat split; apply revByte_at_range. }
  split; [exact NN|]. destruct (Z.eq_dec (reverseBits b) 0) as [->|E]; [reflexivity|].
  apply Z.log2_lt_pow2; [lia|]. apply Z.nle_gt. intros L.
  assert (B : Z.testbit (reverseBits b) (Z.log2 (reverseBits b)) = true) by (apply Z.bit_log2; lia).
  revert B. generalize (Z.log2 (reverseBits b)) L. intros i Hi. unfold reverseBits.
  pose proof (revByte_at_range b). pose proof (revByte_at_range (Z.shiftr b 8)).
  pose proof (revByte_at_range (Z.shiftr b 16)). pose proof (revByte_at_range (Z.shiftr b 24)).
  rewrite !Z.lor_spec. rewrite !(fun x s Hx Hs => proj2 (N x s Hx Hs) i Hi) by lia.
  rewrite <- (Z.shiftl_0_r (revByte_at (Z.shiftr b 24))). rewrite (proj2 (N _ 0 (revByte_at_range _) ltac:(lia)) i Hi).
  discriminate.
Qed.

(** ** Reversal in k bits *)

(** [x] reversed in [k] bits, as the code computes it. *)
Definition revk (k x : Z) : Z := Z.shiftr (reverseBits x) (32 - k).

Lemma revk_bit k x i : 0 <= k <= 32 -> 0 <= i -> Z.testbit (revk k x) i = (i <? k) && Z.testbit x (k - 1 - i).
Proof.
  intros Hk Hi. unfold revk. rewrite Z.shiftr_spec by lia.
  destruct (Z.ltb_spec i k) as [L|L]; cbn [andb].
  - rewrite reverseBits_bit by lia. f_equal. lia.
  - pose proof (reverseBits_range x) as R. destruct (Z.eq_dec (reverseBits x) 0) as [->|E]; [apply Z.bits_0|].
    apply Z.bits_above_log2; [lia|]. apply Z.lt_le_trans with 32; [apply Z.log2_lt_pow2; lia|lia].
Qed.

Lemma revk_range k x : 0 <= k <= 32 -> 0 <= revk k x < 2 ^ k.
Proof.
  intros Hk. pose proof (reverseBits_range x) as R. unfold revk. rewrite Z.shiftr_div_pow2 by lia.
  assert (P : 0 < 2 ^ (32 - k)) by (apply Z.pow_pos_nonneg; lia).
  split; [apply Z.div_pos; lia|]. apply Z.div_lt_upper_bound; [lia|].
  rewrite <- Z.pow_add_r by lia. replace (32 - k + k) with 32 by lia. lia.
Qed.

Lemma revk_revk k x : 0 <= k <= 32 -> 0 <= x < 2 ^ k -> revk k (revk k x) = x.
Proof.
  intros Hk Hx. apply Z.bits_inj'. intros i Hi. rewrite revk_bit by lia.
  destruct (Z.ltb_spec i k) as [L|L]; cbn [andb].
  - rewrite revk_bit by lia. destruct (Z.ltb_spec (k - 1 - i) k); [|lia]. cbn [andb]. f_equal. lia.
  - symmetry. destruct (Z.eq_dec x 0) as [->|E]; [apply Z.bits_0|].
    apply Z.bits_above_log2; [lia|]. apply Z.lt_le_trans with k; [apply Z.log2_lt_pow2; lia|lia].
Qed.

(** ** Reordering of a vector *)

Definition revn (k i : nat) : nat := Z.to_nat (revk (Z.of_nat k) (Z.of_nat i)).

Lemma pow2_Z k : 2 ^ Z.of_nat k = Z.of_nat (2 ^ k).
Proof. rewrite Nat2Z.inj_pow. reflexivity. Qed.

Lemma revn_lt k i : (k <= 32)%nat -> (revn k i < 2 ^ k)%nat.
Proof.
  intros L. unfold revn. pose proof (revk_range (Z.of_nat k) (Z.of_nat i) ltac:(lia)) as R.
  rewrite pow2_Z in R. apply Nat2Z.inj_lt. rewrite Z2Nat.id by apply R. apply R.
Qed.

Lemma revn_revn k i : (k <= 32)%nat -> (i < 2 ^ k)%nat -> revn k (revn k i) = i.
Proof.
  intros L H. unfold revn. pose proof (revk_range (Z.of_nat k) (Z.of_nat i) ltac:(lia)) as R.
  rewrite Z2Nat.id by apply R. rewrite revk_revk; [apply Nat2Z.id|lia|].
  split; [lia|]. rewrite pow2_Z. apply inj_lt. exact H.
Qed.

Lemma swap_at_ok {A} (d : A) l i j : (i < length l)%nat -> (j < length l)%nat ->
  swap_at l i j = Ret (set_nth j (nth i l d) (set_nth i (nth j l d) l)).
Proof.
  intros Hi Hj. unfold swap_at. rewrite (idx_nth d l i Hi), (idx_nth d l j Hj). cbn [bind].
  unfold upd.
  apply Nat.ltb_lt in Hi. apply Nat.ltb_lt in Hj. rewrite Hi. cbn [bind]. rewrite length_set_nth, Hj. reflexivity.
Qed.

(** The swap function is called only with indexes in the vector, whatever its length. *)
Lemma reverseBitOrder_total {A} (values : list A) : Z.of_nat (length values) < 2 ^ 32 ->
  exists vs, reverseBitOrder values = Ret vs /\ length vs = length values.
Proof.
  intros L. unfold reverseBitOrder.
  destruct values as [|a values].
  { exists []. split; reflexivity. }
  set (l := a :: values) in *.
  assert (P : (0 <? Z.of_nat (length l)) = true) by (apply Z.ltb_lt; subst l; cbn [length]; lia).
  rewrite P. cbn [orb negb]. apply Z.ltb_lt in P. rewrite bitIndex_ok by lia.
  set (k := Z.log2 (Z.of_nat (length l))).
  assert (Hk : 0 <= k <= 32).
  { subst k. split; [apply Z.log2_nonneg|]. pose proof (proj1 (Z.log2_lt_pow2 _ 32 P) L). lia. }
  assert (Hl : 2 ^ k <= Z.of_nat (length l)) by (subst k; apply Z.log2_spec; lia).
  destruct (goloop_inv (fun _ vs => length vs = length l) 0 (length l) (fun vs i =>
      let r := Z.shiftr (reverseBits (Z.of_nat i)) (32 - k) in
      if r >? Z.of_nat i then swap_at vs (Z.to_nat r) i else Ret vs) l) as (vs & E & H).
  - reflexivity.
  - intros i vs Hi Hv. cbv zeta. pose proof (revk_range k (Z.of_nat i) Hk) as R. unfold revk in R.
    destruct (Z.shiftr (reverseBits (Z.of_nat i)) (32 - k) >? Z.of_nat i).
    + rewrite (swap_at_ok a) by lia. eexists. split; [reflexivity|]. rewrite !length_set_nth. exact Hv.
    + eexists. split; [reflexivity|exact Hv].
  - exists vs. split; [exact E|exact H].
Qed.

Lemma reverseBitOrder_ok {A} (d : A) (values : list A) k : (k <= 31)%nat -> length values = (2 ^ k)%nat ->
  reverseBitOrder values = Ret (map (fun i => nth (revn k i) values d) (seq 0 (2 ^ k))).
Proof.
  intros Lk E. unfold reverseBitOrder.
  pose proof (Nat.pow_nonzero 2 k ltac:(lia)) as NZ.
  assert (P : (0 <? Z.of_nat (length values)) = true) by (apply Z.ltb_lt; lia).
  rewrite P. cbn [orb negb]. rewrite E, <- pow2_Z, bitIndex_pow2 by lia.
  destruct (goloop_inv (fun m vs => length vs = (2 ^ k)%nat /\ forall j, (j < 2 ^ k)%nat ->
     nth j vs d = if (Nat.min j (revn k j) <? m)%nat then nth (revn k j) values d else nth j values d) 0 (2 ^ k) (fun vs i =>
      let r := Z.shiftr (reverseBits (Z.of_nat i)) (32 - Z.of_nat k) in
      if r >? Z.of_nat i then swap_at vs (Z.to_nat r) i else Ret vs) values) as (vs & Ev & Lv & Hv).
  - split; [exact E|]. intros j Hj. reflexivity.
  - intros m vs Hm (Lv & Hv). cbv zeta. fold (revk (Z.of_nat k) (Z.of_nat m)). fold (revn k m).
    pose proof (revk_range (Z.of_nat k) (Z.of_nat m) ltac:(lia)) as R.
    assert (RZ : revk (Z.of_nat k) (Z.of_nat m) = Z.of_nat (revn k m)) by (unfold revn; rewrite Z2Nat.id by lia; reflexivity).
    pose proof (revn_lt k m ltac:(lia)) as Lr. pose proof (revn_revn k m ltac:(lia) ltac:(lia)) as RR.
    rewrite RZ. destruct (Z.gtb_spec (Z.of_nat (revn k m)) (Z.of_nat m)) as [G|G].
    + rewrite (swap_at_ok d) by lia. eexists. split; [reflexivity|].
      split; [rewrite !length_set_nth; exact Lv|]. intros j Hj.
      rewrite !nth_set_nth, !length_set_nth, Lv.
      destruct (Nat.ltb_spec m (2 ^ k)); [|lia]. destruct (Nat.ltb_spec (revn k m) (2 ^ k)); [|lia].
      rewrite !andb_true_r.
      destruct (Nat.eqb_spec m j) as [->|N1].
      * rewrite Hv by lia. rewrite RR.
        destruct (Nat.ltb_spec (Nat.min (revn k j) j) j); [lia|].
        destruct (Nat.ltb_spec (Nat.min j (revn k j)) (1 + j)); [reflexivity|lia].
      * destruct (Nat.eqb_spec (revn k m) j) as [<-|N2].
        -- rewrite Hv by lia. rewrite RR.
           destruct (Nat.ltb_spec (Nat.min m (revn k m)) m); [lia|].
           destruct (Nat.ltb_spec (Nat.min (revn k m) m) (1 + m)); [reflexivity|lia].
        -- rewrite Hv by lia.
           assert (N3 : revn k j <> m) by (intros Q; apply N2; rewrite <- Q; apply revn_revn; lia).
           destruct (Nat.ltb_spec (Nat.min j (revn k j)) m), (Nat.ltb_spec (Nat.min j (revn k j)) (1 + m)); try reflexivity; lia.
    + eexists. split; [reflexivity|]. split; [exact Lv|]. intros j Hj. rewrite Hv by exact Hj.
      destruct (Nat.ltb_spec (Nat.min j (revn k j)) m), (Nat.ltb_spec (Nat.min j (revn k j)) (1 + m)); try reflexivity; try lia.
      assert (Q : j = m \/ revn k j = m) by lia. destruct Q as [->|Q].
      * assert (revn k m = m) by lia. congruence.
      * subst m. rewrite revn_revn in * by lia. assert (revn k j = j) by lia. congruence.
  - etransitivity; [exact Ev|]. f_equal. apply (list_ext d); [rewrite map_length, seq_length; exact Lv|].
    intros j Hj. rewrite Lv in Hj. rewrite Hv by exact Hj. rewrite nth_map_seq by exact Hj.
    destruct (Nat.ltb_spec (Nat.min j (revn k j)) (0 + 2 ^ k)); [reflexivity|lia].
Qed.
