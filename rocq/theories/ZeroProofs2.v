(** Proofs about the reduction of the leaves, and ZeroPolyViaMultiplication. *)

Require Import ZArith List Bool Arith Lia.
From Verif Require Import Prime Fr CodecModel GoBase Poly GroupModel VssModel VssProofs FftModel FftProofs FftProofs2
  SampleModel SampleProofs ZeroProofs.
Import ListNotations.
Local Open Scope F_scope.

(** ** Slices *)

Lemma length_write_at out o l : (o + length l <= length out)%nat -> length (write_at out o l) = length out.
Proof. intros L. unfold write_at. rewrite !app_length, firstn_length, skipn_length. lia. Qed.

Lemma nth_write_at out o l i d : (o + length l <= length out)%nat ->
  nth i (write_at out o l) d =
  if (o <=? i)%nat && (i <? o + length l)%nat then nth (i - o) l d else nth i out d.
Proof.
  intros L. unfold write_at. destruct (Nat.leb_spec o i) as [A|A]; cbn [andb].
  - rewrite app_nth2 by (rewrite firstn_length; lia). rewrite firstn_length, Nat.min_l by lia.
    destruct (Nat.ltb_spec i (o + length l)) as [B|B].
    + apply app_nth1. lia.
    + rewrite app_nth2 by lia. rewrite nth_skipn'. f_equal. lia.
  - rewrite app_nth1 by (rewrite firstn_length; lia). apply nth_firstn'. exact A.
Qed.

Lemma length_read_at out h : (fst h + snd h <= length out)%nat -> length (read_at out h) = snd h.
Proof. intros L. unfold read_at. rewrite firstn_length, skipn_length. lia. Qed.

Lemma nth_read_at out h i d : (i < snd h)%nat -> nth i (read_at out h) d = nth (fst h + i) out d.
Proof. intros L. unfold read_at. rewrite nth_firstn' by exact L. apply nth_skipn'. Qed.

Lemma read_at_ext out out' h : (fst h + snd h <= length out)%nat -> length out = length out' ->
  (forall i, (fst h <= i < fst h + snd h)%nat -> nth i out 0 = nth i out' 0) -> read_at out h = read_at out' h.
Proof.
  intros L E H. apply (list_ext 0); [rewrite !length_read_at by lia; reflexivity|].
  intros i Hi. rewrite length_read_at in Hi by exact L. rewrite !nth_read_at by exact Hi. apply H. lia.
Qed.

(** ** Chunks *)

Definition chunk {A} (sz : nat) (xs : list A) (a : nat) : list A := firstn sz (skipn (a * sz) xs).

Lemma length_chunk {A} sz (xs : list A) a : length (chunk sz xs a) = Nat.min sz (length xs - a * sz).
Proof. unfold chunk. rewrite firstn_length, skipn_length. reflexivity. Qed.

Lemma skipn_skipn' {A} : forall n m (l : list A), skipn n (skipn m l) = skipn (m + n) l.
Proof.
  intros n m. revert n. induction m as [|m IH]; intros n l; [reflexivity|].
  destruct l as [|a l]; [destruct n; reflexivity|]. cbn [skipn plus]. apply IH.
Qed.

Lemma firstn_plus {A} : forall a b (l : list A), firstn (a + b) l = firstn a l ++ firstn b (skipn a l).
Proof.
  induction a as [|a IH]; intros b l; [reflexivity|].
  destruct l as [|x l]; [cbn; rewrite firstn_nil; reflexivity|]. cbn [plus firstn skipn app]. rewrite IH. reflexivity.
Qed.

Lemma concat_chunks {A} sz (xs : list A) : forall t a,
  concat (map (chunk sz xs) (seq a t)) = firstn (t * sz) (skipn (a * sz) xs).
Proof.
  induction t as [|t IH]; intros a; [reflexivity|]. cbn [seq map concat]. rewrite IH. unfold chunk.
  replace (S t * sz)%nat with (sz + t * sz)%nat by lia. rewrite firstn_plus, skipn_skipn'. do 3 f_equal. lia.
Qed.

(** Four chunks, the last ones possibly missing, make a chunk of the next level. *)
Lemma chunk4 {A} sz (xs : list A) b count : (length xs <= count * sz)%nat -> (4 * b < count)%nat ->
  concat (map (chunk sz xs) (seq (4 * b) (Nat.min (4 * b + 4) count - 4 * b))) = chunk (4 * sz) xs b.
Proof.
  intros L B. rewrite concat_chunks. unfold chunk. replace (b * (4 * sz))%nat with (4 * b * sz)%nat by lia.
  destruct (Nat.le_gt_cases (4 * b + 4) count) as [Q|Q].
  - rewrite Nat.min_l by exact Q. f_equal. lia.
  - rewrite Nat.min_r by lia. rewrite !firstn_all2; [reflexivity| |]; rewrite skipn_length; nia.
Qed.

(** ** The reduction *)

Lemma nextPow_between a v : (a <= 62)%nat -> (2 ^ a < v)%nat -> (v <= 2 ^ S a)%nat ->
  Z.to_nat (nextPowOf2 (Z.of_nat v)) = (2 ^ S a)%nat.
Proof.
  intros A L U. destruct (nextPowOf2_ok (Z.of_nat v)) as (j & J1 & J2 & J3 & J4).
  - apply Nat2Z.inj_le in U. rewrite of_nat_pow2 in U. split; [lia|]. etransitivity; [exact U|].
    apply Z.pow_le_mono_r; lia.
  - rewrite J2. rewrite <- (Nat2Z.id (2 ^ S a)), of_nat_pow2. f_equal. f_equal.
    apply Nat2Z.inj_lt in L. apply Nat2Z.inj_le in U. rewrite of_nat_pow2 in L, U.
    destruct (Z.lt_trichotomy j (Z.of_nat (S a))) as [Q|[Q|Q]]; [|exact Q|].
    + exfalso. assert (2 ^ j <= 2 ^ Z.of_nat a)%Z by (apply Z.pow_le_mono_r; lia). lia.
    + exfalso. destruct J4 as [J4|J4]; [lia|].
      assert (2 ^ Z.of_nat (S a) <= 2 ^ (j - 1))%Z by (apply Z.pow_le_mono_r; lia). lia.
Qed.

Section Tree.
Variables (fs : FFTSettings) (k : nat) (W : Fr).
Hypothesis FO : fs_ok fs k W.

(** The points, and the size of out. *)
Variables (xs : list Fr) (e : nat).
Hypothesis Ek : (e <= S k)%nat.

(** The sizes at level l: roots per leaf, and entries of out per leaf. *)
Definition szl (l : nat) : nat := (63 * 4 ^ l)%nat.
Definition Sl (l : nat) : nat := (64 * 4 ^ l)%nat.

Definition leaf_ok (l : nat) (out : list Fr) (count a : nat) (h : nat * nat) : Prop :=
  fst h = (a * Sl l)%nat /\ (snd h <= Sl l)%nat /\ (fst h + snd h <= 2 ^ e)%nat /\
  (a + 1 < count -> snd h = szl l + 1)%nat /\ rep (read_at out h) (chunk (szl l) xs a).

Definition level (l : nat) (s : list Fr * list (nat * nat)) : Prop :=
  let count := length (snd s) in
  length (fst s) = (2 ^ e)%nat /\ (1 <= count)%nat /\ ((count - 1) * szl l < length xs <= count * szl l)%nat /\
  (count = 1 \/ count * Sl l <= 2 ^ e)%nat /\
  (forall a, (a < count)%nat -> leaf_ok l (fst s) count a (nth a (snd s) (0, 0)%nat)) /\
  (forall i, ((count - 1) * Sl l + length (chunk (szl l) xs (count - 1)) < i)%nat -> nth i (fst s) 0 = 0).

Lemma Sl_pow l : Sl l = (2 ^ (6 + 2 * l))%nat.
Proof. unfold Sl. rewrite Nat.pow_add_r, Nat.pow_mul_r. reflexivity. Qed.

Lemma szl_lt l : (szl l + 1 <= Sl l)%nat.
Proof. unfold szl, Sl. pose proof (Nat.pow_nonzero 4 l). lia. Qed.

Lemma Sl_S l : Sl (S l) = (4 * Sl l)%nat.
Proof. unfold Sl. cbn [Nat.pow]. lia. Qed.

Lemma szl_S l : szl (S l) = (4 * szl l)%nat.
Proof. unfold szl. cbn [Nat.pow]. lia. Qed.

Lemma pow2_multiple a b : (a <= b)%nat -> exists q, (2 ^ b = q * 2 ^ a)%nat.
Proof. intros L. exists (2 ^ (b - a))%nat. rewrite <- Nat.pow_add_r. f_equal. lia. Qed.

(** The memory of a group of four leaves: a power of two. *)
Lemma group_size l count i : (1 < count)%nat -> (count * Sl l <= 2 ^ e)%nat -> (4 * i < count)%nat ->
  exists j, (j <= e)%nat /\ (Nat.min ((4 * i + 4) * Sl l) (2 ^ e) = 4 * i * Sl l + 2 ^ j)%nat.
Proof.
  intros C1 C2 C3. rewrite Sl_pow in *. set (a := (6 + 2 * l)%nat) in *. 
  assert (A : (0 < 2 ^ a)%nat) by (apply Nat.neq_0_lt_0, Nat.pow_nonzero; lia).
  destruct (Nat.le_gt_cases (a + 2) e) as [L|L].
  - exists (a + 2)%nat. split; [exact L|]. destruct (pow2_multiple _ _ L) as (q & Q).
    rewrite Nat.pow_add_r in *. change (2 ^ 2)%nat with 4%nat in *.
    assert (C4 : (count <= 4 * q)%nat).
    { apply (Nat.mul_le_mono_pos_r _ _ (2 ^ a) A). rewrite Q in C2. lia. }
    assert (C5 : ((4 * i + 4) * 2 ^ a <= 4 * q * 2 ^ a)%nat) by (apply Nat.mul_le_mono_r; lia).
    rewrite Nat.min_l; lia.
  - exists e. split; [lia|].
    assert (P : (2 ^ e <= 2 * 2 ^ a)%nat).
    { change (2 * 2 ^ a)%nat with (2 ^ S a)%nat. apply pow2_le. lia. }
    assert (i = 0%nat) by nia. subst i. rewrite Nat.min_r by nia. lia.
Qed.

Lemma nth_firstn_skipn {A} (d : A) l a n i : (i < n)%nat -> nth i (firstn n (skipn a l)) d = nth (a + i) l d.
Proof. intros L. rewrite nth_firstn' by exact L. apply nth_skipn'. Qed.

Lemma Forall2_nth_intro {A B} (R : A -> B -> Prop) da db : forall l m, length l = length m ->
  (forall i, (i < length l)%nat -> R (nth i l da) (nth i m db)) -> Forall2 R l m.
Proof.
  induction l as [|a l IH]; intros [|b m] L H; cbn in L; try discriminate L; constructor.
  - apply (H 0%nat). cbn. lia.
  - apply IH; [lia|]. intros i Hi. apply (H (S i)). cbn. lia.
Qed.

Lemma outdeg_bound : forall ps b, (forall p, In p ps -> (1 <= length p <= b)%nat) -> ps <> [] ->
  (outdeg ps + 1 <= length ps * b)%nat.
Proof.
  induction ps as [|p ps IH]; intros b H NE; [congruence|]. pose proof (H p (or_introl eq_refl)) as Hp.
  destruct ps as [|q ps]; [cbn; lia|]. assert (T : (outdeg (q :: ps) + 1 <= length (q :: ps) * b)%nat).
  { apply IH; [intros x X; apply H; right; exact X|congruence]. }
  change (outdeg (p :: q :: ps)) with (length p - 1 + outdeg (q :: ps))%nat.
  change (length (p :: q :: ps)) with (S (length (q :: ps))). lia.
Qed.

Lemma outdeg_exact : forall ps b, (forall p, In p ps -> length p = (b + 1)%nat) -> outdeg ps = (length ps * b)%nat.
Proof.
  induction ps as [|p ps IH]; intros b H; [reflexivity|].
  change (outdeg (p :: ps)) with (length p - 1 + outdeg ps)%nat. rewrite (IH b) by (intros x X; apply H; right; exact X).
  rewrite (H p) by (left; reflexivity). cbn [length]. lia.
Qed.

(** The invariant of the inner loop, after i groups; [out0], [leaves0] is the state before the loop. *)
Definition mid (l : nat) (out0 : list Fr) (leaves0 : list (nat * nat)) (i : nat) (s : list Fr * list (nat * nat)) : Prop :=
  let count := length leaves0 in
  let rc := ((count + 4 - 1) / 4)%nat in
  length (fst s) = (2 ^ e)%nat /\ length (snd s) = count /\
  (forall a, (4 * i <= a)%nat -> (i <= a)%nat -> nth a (snd s) (0, 0)%nat = nth a leaves0 (0, 0)%nat) /\
  (forall p, (4 * i * Sl l <= p)%nat -> nth p (fst s) 0 = nth p out0 0) /\
  (forall b, (b < i)%nat -> leaf_ok (S l) (fst s) rc b (nth b (snd s) (0, 0)%nat)) /\
  (i = rc -> forall p, ((rc - 1) * Sl (S l) + length (chunk (szl (S l)) xs (rc - 1)) < p)%nat -> nth p (fst s) 0 = 0).

Lemma rc_spec count : (1 <= count)%nat ->
  let rc := ((count + 4 - 1) / 4)%nat in (4 * (rc - 1) < count <= 4 * rc /\ 1 <= rc)%nat.
Proof.
  intros C rc. unfold rc. pose proof (Nat.div_mod (count + 4 - 1) 4 ltac:(lia)) as D.
  pose proof (Nat.mod_upper_bound (count + 4 - 1) 4 ltac:(lia)). lia.
Qed.

Lemma group_ok l out0 leaves0 i s : level l (out0, leaves0) -> (e <= k \/ 4 * Sl l <= 2 ^ k)%nat -> (1 < length leaves0)%nat ->
  (i < (length leaves0 + 4 - 1) / 4)%nat -> mid l out0 leaves0 i s ->
  exists s', reduce_group fs (Sl l) s i = Ret s' /\ mid l out0 leaves0 (1 + i) s'.
Proof.
  intros (V1 & V2 & V3 & V4 & V5 & V6) FK C I M. destruct s as [out leaves].
  cbn [fst snd] in *. set (count := length leaves0) in *. set (rc := ((count + 4 - 1) / 4)%nat) in *.
  destruct (rc_spec count V2) as (RC & RC1). fold rc in RC, RC1.
  destruct M as (M1 & M2 & M3 & M4 & M5 & M6). cbn [fst snd] in *. fold count in M2. fold rc in M5, M6.
  assert (I4 : (4 * i < count)%nat) by nia.
  destruct V4 as [V4|V4]; [lia|].
  destruct (group_size l count i C V4 I4) as (j & J & G).
  assert (JK : (j <= k)%nat).
  { destruct FK as [FK|FK]; [lia|]. apply (Nat.pow_le_mono_r_iff 2); [lia|].
    pose proof (Nat.le_min_l ((4 * i + 4) * Sl l) (2 ^ e)). lia. }
  unfold reduce_group. cbv beta iota zeta. rewrite M1.
  replace (i * 4 + 4)%nat with (4 * i + 4)%nat by lia. replace (i * 4)%nat with (4 * i)%nat by lia. rewrite G.
  assert (J0 : (0 < 2 ^ j)%nat) by (apply Nat.neq_0_lt_0, Nat.pow_nonzero; lia).
  rewrite (proj2 (Nat.ltb_ge _ _)) by lia.
  replace (4 * i * Sl l + 2 ^ j - 4 * i * Sl l)%nat with (2 ^ j)%nat by lia.
  rewrite M2. set (en := Nat.min (4 * i + 4) count).
  assert (P4 : (4 * i * Sl l + 2 ^ j <= 2 ^ e)%nat) by lia.
  assert (U : (i < length leaves)%nat) by lia.
  (* the leaves of the group *)
  assert (HL : forall a, (4 * i <= a < count)%nat -> leaf_ok l out count a (nth a leaves (0, 0)%nat)).
  { intros a Ha. rewrite M3 by lia. destruct (V5 a) as (A1 & A2 & A3 & A4 & A5); [lia|].
    repeat split; try assumption. 
    all: rewrite (read_at_ext out out0); try apply A5; try lia.
    all: intros p Hp; apply M4; rewrite A1 in Hp; nia. }
  destruct (Nat.ltb_spec (4 * i + 1) en) as [TW|TW].
  - (* at least two leaves *)
    set (hs := firstn (en - 4 * i) (skipn (4 * i) leaves)).
    assert (Lhs : length hs = (en - 4 * i)%nat) by (unfold hs; rewrite firstn_length, skipn_length; lia).
    assert (Nhs : forall t, (t < en - 4 * i)%nat -> nth t hs (0, 0)%nat = nth (4 * i + t) leaves (0, 0)%nat)
      by (intros t Ht; apply nth_firstn_skipn; exact Ht).
    set (ps := map (read_at out) hs).
    assert (Lps : length ps = (en - 4 * i)%nat) by (unfold ps; rewrite map_length; exact Lhs).
    assert (Nps : forall t, (t < en - 4 * i)%nat -> nth t ps [] = read_at out (nth (4 * i + t) leaves (0, 0)%nat)).
    { intros t Ht. rewrite <- Nhs by exact Ht. unfold ps.
      rewrite (nth_indep _ [] (read_at out (0, 0)%nat)) by (rewrite map_length; lia). apply map_nth. }
    set (ys := map (chunk (szl l) xs) (seq (4 * i) (en - 4 * i))).
    assert (Lys : length ys = (en - 4 * i)%nat) by (unfold ys; rewrite map_length, seq_length; reflexivity).
    assert (Nys : forall t, (t < en - 4 * i)%nat -> nth t ys [] = chunk (szl l) xs (4 * i + t))
      by (intros t Ht; unfold ys; rewrite nth_map_seq by exact Ht; reflexivity).
    assert (R2 : Forall2 rep ps ys).
    { apply (Forall2_nth_intro _ [] []); [lia|]. intros t Ht. rewrite Nps, Nys by lia.
      destruct (HL (4 * i + t)%nat) as (_ & _ & _ & _ & Q); [lia|exact Q]. }
    assert (LEN : forall t, (t < en - 4 * i)%nat -> length (nth t ps []) = snd (nth (4 * i + t) leaves (0, 0)%nat)).
    { intros t Ht. rewrite Nps by exact Ht. apply length_read_at. rewrite M1.
      destruct (HL (4 * i + t)%nat) as (_ & _ & Q & _); [lia|exact Q]. }
    assert (LB : forall p, In p ps -> (1 <= length p <= Sl l)%nat).
    { intros p Hp. apply (In_nth _ _ []) in Hp as (t & Ht & <-). rewrite Lps in Ht. pose proof (LEN t Ht) as LT.
      destruct (HL (4 * i + t)%nat) as (_ & Q1 & _ & _ & Q2 & _); [lia|].
      rewrite <- Nps in Q2 by exact Ht. lia. }
    assert (NEp : ps <> []) by (intros Q; rewrite Q in Lps; cbn in Lps; lia).
    assert (OD : (outdeg ps + 1 <= 2 ^ j)%nat).
    { pose proof (outdeg_bound ps (Sl l) LB NEp) as Q. rewrite Lps in Q.
      assert ((en - 4 * i) * Sl l <= 2 ^ j)%nat; [|lia].
      assert (en * Sl l <= 4 * i * Sl l + 2 ^ j)%nat; [|nia]. rewrite <- G. apply Nat.min_glb.
      - apply Nat.mul_le_mono_r. unfold en. lia.
      - etransitivity; [|exact V4]. apply Nat.mul_le_mono_r. unfold en. lia. }
    destruct (reduceLeaves_ok fs k W FO j (szl l + 1) ps ys) as (dst & ED & LD & RD).
    + exact JK.
    + exact NEp.
    + exact R2.
    + exact OD.
    + intros y Hy. apply (In_nth _ _ []) in Hy as (t & Ht & <-). rewrite Nys by lia. rewrite length_chunk. lia.
    + intros p Hp. apply (In_nth _ _ []) in Hp as (t & Ht & <-).
      assert (LR : length (removelast ps) = (en - 4 * i - 1)%nat).
      { rewrite (app_removelast_last [] NEp) in Lps. rewrite app_length in Lps. cbn [length] in Lps. lia. }
      assert (NR : nth t (removelast ps) [] = nth t ps []).
      { rewrite (app_removelast_last [] NEp) at 2. rewrite app_nth1 by exact Ht. reflexivity. }
      rewrite NR, LEN by lia. destruct (HL (4 * i + t)%nat) as (_ & _ & _ & Q & _); [lia|].
      rewrite Q; [lia|]. unfold en in *. lia.
    + assert (YC : concat ys = chunk (szl (S l)) xs i).
      { unfold ys, en. rewrite szl_S. apply chunk4; lia. }
      rewrite YC in RD.
      rewrite ED. cbn [bind fst snd]. unfold upd. rewrite (proj2 (Nat.ltb_lt _ _) U). cbn [bind].
      eexists. split; [reflexivity|]. unfold mid. cbn [fst snd]. fold count. fold rc.
      assert (LW : (4 * i * Sl l + length dst <= length out)%nat) by lia.
      split; [rewrite length_write_at by exact LW; exact M1|].
      split; [rewrite length_set_nth; exact M2|].
      split. { intros a A1 A2. rewrite nth_set_nth_other by lia. apply M3; lia. }
      split. { intros p Hp. rewrite nth_write_at by exact LW.
               assert (Q : (4 * i * Sl l + length dst <= p)%nat).
               { rewrite LD. rewrite <- G. etransitivity; [apply Nat.le_min_l|]. nia. }
               rewrite (proj2 (Nat.ltb_ge _ _) Q), andb_false_r. apply M4. nia. }
      split.
      * intros b Hb. destruct (Nat.eq_dec b i) as [->|NE].
        -- rewrite nth_set_nth_same by exact U. unfold leaf_ok. cbn [fst snd]. rewrite Sl_S.
           split; [lia|]. split.
           ++ pose proof (outdeg_bound ps (Sl l) LB NEp) as Q. rewrite Lps in Q.
              assert (en - 4 * i <= 4)%nat by (unfold en; lia). nia.
           ++ split; [lia|]. split.
              ** intros Hr. rewrite szl_S. rewrite (outdeg_exact ps (szl l)).
                 --- rewrite Lps. assert (en = 4 * i + 4)%nat by (unfold en; lia). lia.
                 --- intros p Hp. apply (In_nth _ _ []) in Hp as (t & Ht & <-). rewrite LEN by lia.
                     destruct (HL (4 * i + t)%nat) as (_ & _ & _ & Q & _); [lia|]. apply Q. lia.
              ** assert (RE : read_at (write_at out (4 * i * Sl l) dst) (4 * i * Sl l, outdeg ps + 1)%nat = firstn (outdeg ps + 1) dst).
                 { apply (list_ext 0).
                   - rewrite length_read_at by (cbn [fst snd]; rewrite length_write_at by exact LW; lia). cbn [snd].
                     rewrite firstn_length. lia.
                   - intros t Ht. rewrite length_read_at in Ht by (cbn [fst snd]; rewrite length_write_at by exact LW; lia).
                     rewrite nth_read_at by exact Ht. cbn [fst snd] in *. rewrite nth_write_at by exact LW.
                     rewrite (proj2 (Nat.leb_le _ _)), (proj2 (Nat.ltb_lt _ _)) by lia. cbn [andb].
                     rewrite nth_firstn' by exact Ht. f_equal. lia. }
                 rewrite RE. apply rep_firstn; [exact RD| |lia].
                 rewrite <- YC. pose proof (outdeg_ge ps ys R2). lia.
        -- rewrite nth_set_nth_other by lia. destruct (M5 b) as (Q1 & Q2 & Q3 & Q4 & Q5); [lia|].
           split; [exact Q1|]. split; [exact Q2|]. split; [exact Q3|]. split; [exact Q4|].
           rewrite (read_at_ext _ out); [exact Q5| | |].
           ++ rewrite length_write_at by exact LW. lia.
           ++ apply length_write_at. exact LW.
           ++ intros p Hp. rewrite nth_write_at by exact LW.
              rewrite (proj2 (Nat.leb_gt (4 * i * Sl l) p)); [reflexivity|].
              rewrite Q1, Sl_S in Hp. rewrite Sl_S in Q2. assert (b + 1 <= i)%nat by lia. nia.
      * intros Ei p Hp. rewrite <- Ei in Hp. replace (1 + i - 1)%nat with i in Hp by lia.
        rewrite nth_write_at by exact LW. rewrite Sl_S in Hp.
        destruct (Nat.leb_spec (4 * i * Sl l) p) as [T|T]; [|lia]. cbn [andb].
        destruct (Nat.ltb_spec p (4 * i * Sl l + length dst)) as [T2|T2].
        -- destruct RD as (_ & Z & _). apply Z. nia.
        -- rewrite M4 by lia. apply V6. 
           (* beyond the memory of the last leaf *)
           assert (Q : (4 * i * Sl l + 2 ^ j <= p)%nat) by lia.
           destruct (Nat.le_gt_cases (2 ^ e) p) as [Pe|Pe].
           ++ assert (B : ((count - 1) * Sl l + length (chunk (szl l) xs (count - 1)) < 2 ^ e)%nat).
              { rewrite length_chunk. pose proof (szl_lt l). nia. }
              lia.
           ++ assert (Q2 : ((4 * i + 4) * Sl l <= p)%nat).
              { rewrite <- G in Q. destruct (Nat.min_spec ((4 * i + 4) * Sl l) (2 ^ e)) as [(_ & ->)|(_ & Z)] in Q; [exact Q|].
                rewrite Z in Q || idtac. lia. }
              rewrite length_chunk. pose proof (szl_lt l). assert (count <= 4 * i + 4)%nat by lia. nia.
  - (* a single leaf *)
    unfold upd. rewrite (proj2 (Nat.ltb_lt _ _) U). cbn [bind]. eexists. split; [reflexivity|].
    assert (CE : count = (4 * i + 1)%nat) by (unfold en in TW; lia).
    assert (RE : rc = (1 + i)%nat) by lia.
    assert (CH : chunk (szl (S l)) xs i = chunk (szl l) xs (count - 1)).
    { unfold chunk. rewrite szl_S. replace (count - 1)%nat with (4 * i)%nat by lia.
      replace (i * (4 * szl l))%nat with (4 * i * szl l)%nat by lia.
      rewrite !firstn_all2; [reflexivity| |]; rewrite skipn_length; nia. }
    unfold mid. cbn [fst snd]. fold count. fold rc.
    split; [exact M1|]. split; [rewrite length_set_nth; exact M2|].
    split. { intros a A1 A2. rewrite nth_set_nth_other by lia. apply M3; lia. }
    split. { intros p Hp. apply M4. nia. }
    split.
    + intros b Hb. destruct (Nat.eq_dec b i) as [->|NE].
      * rewrite nth_set_nth_same by exact U. unfold leaf_ok. cbn [fst snd]. rewrite Sl_S.
        split; [lia|]. split.
        { assert (4 * i * Sl l + 2 ^ j <= (4 * i + 4) * Sl l)%nat by (rewrite <- G; apply Nat.le_min_l). nia. }
        split; [lia|]. split; [lia|].
        destruct (HL (4 * i)%nat) as (Q1 & Q2 & Q3 & Q4 & Q5); [lia|].
        assert (D1 : (Sl l <= 2 ^ j)%nat).
        { assert ((4 * i + 1) * Sl l <= 4 * i * Sl l + 2 ^ j)%nat; [|nia]. rewrite <- G. apply Nat.min_glb; [nia|]. rewrite <- CE. exact V4. }
        rewrite CH. replace (count - 1)%nat with (4 * i)%nat by lia.
        set (h := nth (4 * i) leaves (0, 0)%nat) in *.
        assert (RD : read_at out (4 * i * Sl l, 2 ^ j)%nat = read_at out h ++ repeat 0 (2 ^ j - snd h)).
        { apply (list_ext 0).
          - rewrite length_read_at by (cbn [fst snd]; lia). rewrite app_length, length_read_at, repeat_length by lia. cbn [snd]. lia.
          - intros t Ht. rewrite length_read_at in Ht by (cbn [fst snd]; lia). rewrite nth_read_at by exact Ht. cbn [fst snd] in *.
            destruct (Nat.lt_ge_cases t (snd h)) as [T|T].
            + rewrite app_nth1 by (rewrite length_read_at; lia). rewrite nth_read_at by exact T. f_equal. lia.
            + rewrite app_nth2 by (rewrite length_read_at; lia). rewrite nth_repeat.
              rewrite M4 by lia. apply V6. replace (count - 1)%nat with (4 * i)%nat by lia.
              destruct Q5 as (Q5 & _). rewrite length_read_at in Q5 by lia. lia. }
        rewrite RD. apply rep_pad. exact Q5.
      * rewrite nth_set_nth_other by lia. apply M5. lia.
    + intros _ p Hp. rewrite RE in Hp. replace (1 + i - 1)%nat with i in Hp by lia. rewrite CH, Sl_S in Hp.
      rewrite M4 by nia. apply V6. nia.
Qed.

Lemma leafSize_ok l : (Sl l <= 2 ^ e)%nat -> Z.to_nat (nextPowOf2 (Z.of_nat (szl l + 1))) = Sl l.
Proof.
  intros L. rewrite Sl_pow in *. assert (6 + 2 * l <= e)%nat by (apply (Nat.pow_le_mono_r_iff 2); [lia|exact L]).
  assert (k <= 31)%nat by apply FO.
  replace (6 + 2 * l)%nat with (S (5 + 2 * l)) by lia. apply nextPow_between; [lia| |].
  - unfold szl. rewrite Nat.pow_add_r, Nat.pow_mul_r. change (2 ^ 5)%nat with 32%nat. change (2 ^ 2)%nat with 4%nat.
    pose proof (Nat.pow_nonzero 4 l). lia.
  - replace (S (5 + 2 * l)) with (6 + 2 * l)%nat by lia. rewrite <- Sl_pow. apply szl_lt.
Qed.

Lemma level_step l s : level l s -> (e <= k \/ 4 * Sl l <= 2 ^ k)%nat -> (1 < length (snd s))%nat ->
  exists s', goloop 0 ((length (snd s) + 4 - 1) / 4) (reduce_group fs (Sl l)) s = Ret s' /\
    level (S l) (fst s', firstn ((length (snd s) + 4 - 1) / 4) (snd s')) /\
    length (firstn ((length (snd s) + 4 - 1) / 4) (snd s')) = ((length (snd s) + 4 - 1) / 4)%nat.
Proof.
  intros V FK C. destruct s as [out leaves]. cbn [snd] in *.
  set (count := length leaves) in *. set (rc := ((count + 4 - 1) / 4)%nat) in *.
  pose proof V as (V1 & V2 & V3 & V4 & V5 & V6). cbn [fst snd] in *. fold count in V2, V3, V4, V5, V6.
  destruct (rc_spec count V2) as (RC & RC1). fold rc in RC, RC1.
  destruct (goloop_inv (mid l out leaves) 0 rc (reduce_group fs (Sl l)) (out, leaves)) as (s' & E & M).
  - split; [exact V1|]. split; [reflexivity|]. split; [reflexivity|]. split; [reflexivity|]. split; [intros b Hb; lia|].
    fold count. fold rc. intros Q. lia.
  - intros i s Hi M. apply group_ok; [exact V|exact FK|exact C|fold count; fold rc; lia|exact M].
  - exists s'. split; [exact E|]. cbn [plus] in M.
    destruct M as (M1 & M2 & M3 & M4 & M5 & M6). fold count in M2. fold rc count in M5, M6.
    assert (LF : length (firstn rc (snd s')) = rc) by (rewrite firstn_length; lia).
    split; [|exact LF]. unfold level. cbn [fst snd]. rewrite LF.
    split; [exact M1|]. split; [exact RC1|]. rewrite szl_S, Sl_S. split.
    { destruct RC as (RA & RB). split; [|nia].
      assert (4 * (rc - 1) <= count - 1)%nat by lia. nia. }
    split.
    { destruct (Nat.eq_dec rc 1) as [R1|R1]; [left; exact R1|right].
      destruct V4 as [V4|V4]; [lia|].
      assert (A : (0 < Sl l)%nat) by (pose proof (szl_lt l); lia).
      assert (L4 : (6 + 2 * l + 2 <= e)%nat).
      { apply Nat.lt_succ_r. apply (Nat.pow_lt_mono_r_iff 2); [lia|].
        cbn [Nat.pow]. rewrite Nat.pow_add_r, <- Sl_pow. change (2 ^ 2)%nat with 4%nat. nia. }
      destruct (pow2_multiple _ _ L4) as (q & Q). rewrite Nat.pow_add_r, <- Sl_pow in Q. change (2 ^ 2)%nat with 4%nat in Q.
      assert (C4 : (count <= 4 * q)%nat).
      { apply (Nat.mul_le_mono_pos_r _ _ (Sl l) A). lia. }
      assert (rc <= q)%nat by lia. nia. }
    split.
    + intros a Ha. rewrite nth_firstn' by exact Ha. apply M5. exact Ha.
    + rewrite <- szl_S, <- Sl_S. intros p Hp. apply M6; [reflexivity|exact Hp].
Qed.

Lemma reduce_all_ok : (e <= k)%nat -> forall fuel l s, level l s -> (length (snd s) <= fuel)%nat ->
  exists s' l', reduce_all fuel fs s = Ret s' /\ level l' s' /\ length (snd s') = 1%nat.
Proof.
  intros EK. induction fuel as [|fuel IH]; intros l s V L.
  - destruct V as (_ & V & _). lia.
  - cbn [reduce_all]. destruct (Nat.ltb_spec 1 (length (snd s))) as [C|C].
    + destruct (level_step l s V (or_introl EK) C) as (s' & E & V' & L').
      destruct V as (V1 & V2 & V3 & V4 & V5 & V6).
      rewrite (idx_nth (0, 0)%nat) by lia. cbn [bind].
      destruct (V5 0%nat) as (_ & _ & _ & Q & _); [lia|]. rewrite Q by lia.
      rewrite leafSize_ok.
      2:{ destruct V4 as [V4|V4]; [lia|]. pose proof (szl_lt l). nia. }
      rewrite E. cbn [bind].
      destruct (rc_spec (length (snd s)) V2) as (RC & RC1).
      destruct (IH (S l) _ V') as (s2 & l2 & E2 & W2); [cbn [snd]; rewrite L'; lia|].
      exists s2, l2. split; [exact E2|exact W2].
    + exists s, l. split; [reflexivity|]. split; [exact V|]. destruct V as (_ & V & _). lia.
Qed.
(** Leaves for more points than the settings have entries: the product of the last groups does not fit. *)
Lemma reduce_all_panic : e = S k -> (2 ^ k <= length xs)%nat -> forall fuel l s, level l s -> (1 < length (snd s))%nat ->
  reduce_all fuel fs s = Panic.
Proof.
  intros EK LX. induction fuel as [|fuel IH]; intros l s V C; [reflexivity|].
  cbn [reduce_all]. rewrite (proj2 (Nat.ltb_lt _ _) C). pose proof V as (V1 & V2 & V3 & V4 & V5 & V6).
  rewrite (idx_nth (0, 0)%nat) by lia. cbn [bind].
  destruct (V5 0%nat) as (_ & _ & _ & Q & _); [lia|]. rewrite Q by lia.
  destruct V4 as [V4|V4]; [lia|].
  assert (SP : (0 < Sl l)%nat) by (pose proof (szl_lt l); lia).
  rewrite leafSize_ok by nia.
  destruct (Nat.le_gt_cases (length (snd s)) 4) as [C4|C4].
  - replace ((length (snd s) + 4 - 1) / 4)%nat with 1%nat
      by (apply (Nat.div_unique _ 4 1 (length (snd s) - 1)); lia).
    assert (D : (2 ^ e <= 4 * Sl l)%nat).
    { pose proof (szl_lt l) as Z. assert (2 ^ k < 4 * Sl l)%nat as T by nia. rewrite EK.
      rewrite Sl_pow in *. change 4%nat with (2 ^ 2)%nat in *. rewrite <- Nat.pow_add_r in *.
      apply Nat.pow_lt_mono_r_iff in T; [|lia]. apply pow2_le. lia. }
    unfold goloop. cbn [seq gofold]. unfold reduce_group. destruct s as [out leaves]. cbn [fst snd] in *.
    cbn [Nat.mul Nat.add]. rewrite V1. replace (Sl l + (Sl l + (Sl l + (Sl l + 0))))%nat with (4 * Sl l)%nat by lia.
    rewrite Nat.min_r by exact D. rewrite (proj2 (Nat.ltb_ge _ _)) by lia.
    rewrite (proj2 (Nat.ltb_lt 1 (Nat.min 4 (length leaves)))) by lia. rewrite !Nat.sub_0_r.
    set (ps := map _ _).
    assert (R : reduceLeaves fs (2 ^ e) ps = Panic).
    { unfold reduceLeaves. destruct (negb _); [reflexivity|]. destruct (_ =? _)%nat; [reflexivity|].
      destruct (existsb _ _); [reflexivity|]. destruct (_ <? _)%nat; [reflexivity|].
      unfold InplaceFFT at 1. rewrite app_length, repeat_length, (fo_width _ _ _ FO).
      rewrite (proj2 (Nat.ltb_lt _ _)); [reflexivity|]. rewrite EK. cbn [Nat.pow].
      assert (0 < 2 ^ k)%nat by (apply Nat.neq_0_lt_0, Nat.pow_nonzero; lia). lia. }
    rewrite R. reflexivity.
  - assert (D : (4 * Sl l <= 2 ^ k)%nat).
    { rewrite EK in V4. rewrite Sl_pow in *. change 4%nat with (2 ^ 2)%nat. rewrite <- Nat.pow_add_r.
      apply pow2_le. apply Nat.lt_succ_r. apply (Nat.pow_lt_mono_r_iff 2); [lia|].
      rewrite Nat.pow_add_r. change (2 ^ 2)%nat with 4%nat. nia. }
    destruct (level_step l s V (or_intror D) C) as (s' & E & V' & L'). rewrite E. cbn [bind].
    apply (IH (S l)); [exact V'|]. cbn [snd]. rewrite L'.
    destruct (rc_spec (length (snd s)) V2) as (RC & _). cbv zeta in RC. lia.
Qed.
End Tree.

Lemma map_chunk {A B} (f : A -> B) sz l a : map f (chunk sz l a) = chunk sz (map f l) a.
Proof. unfold chunk. rewrite <- firstn_map, <- skipn_map. reflexivity. Qed.

Section Zero2.
Variables (fs : FFTSettings) (k : nat) (W : Fr).
Hypothesis FO : fs_ok fs k W.

Lemma build_leaves_ok missing stride e leafCount :
  (forall v, In v missing -> (v * stride <= 2 ^ k)%nat) ->
  (1 <= leafCount)%nat -> ((leafCount - 1) * 63 < length missing <= leafCount * 63)%nat ->
  (leafCount * 64 <= 2 ^ e)%nat ->
  exists out, build_leaves fs missing stride leafCount (repeat 0 (2 ^ e)) = Ret out /\
    level (pts W stride missing) e 0 (out, map (fun i => (i * 64, 64)%nat) (seq 0 leafCount)).
Proof.
  intros V L1 LM LE. set (xs := pts W stride missing).
  assert (Lxs : length xs = length missing) by (unfold xs, pts; apply map_length).
  unfold build_leaves. set (body := fun (out : list Fr) i => _).
  destruct (goloop_inv (fun i (out : list Fr) => length out = (2 ^ e)%nat /\
      (forall a, (a < i)%nat -> rep (read_at out (a * 64, 64)%nat) (chunk 63 xs a)) /\
      (forall p, (i * 64 <= p)%nat -> nth p out 0 = 0)) 0 leafCount body (repeat 0 (2 ^ e))) as (out & E & A1 & A2 & A3).
  - split; [apply repeat_length|]. split; [intros a Ha; lia|]. intros p _. apply nth_repeat.
  - intros i out Hi (A1 & A2 & A3). unfold body. cbv beta zeta. rewrite A1.
    assert (I64 : (i * 64 + 64 <= 2 ^ e)%nat) by lia.
    rewrite (proj2 (Nat.ltb_ge _ _)) by exact I64.
    set (idxs := firstn _ _).
    assert (EI : idxs = chunk 63 missing i).
    { unfold idxs, chunk. destruct (Nat.le_gt_cases (i * 63 + 63) (length missing)) as [Q|Q].
      - rewrite Nat.min_l by exact Q. f_equal. lia.
      - rewrite Nat.min_r by lia. rewrite !firstn_all2; [reflexivity| |]; rewrite skipn_length; lia. }
    rewrite EI. clear idxs EI.
    assert (LR : length (read_at out (i * 64, 64)%nat) = 64%nat) by (rewrite length_read_at; cbn [fst snd]; lia).
    destruct (makeZeroPolyMulLeaf_ok fs k W FO stride (chunk 63 missing i) (read_at out (i * 64, 64)%nat)) as (z & Ez & Lz & Rz).
    + rewrite LR, length_chunk. lia.
    + intros v Hv. apply V. unfold chunk in Hv.
      assert (In v (skipn (i * 63) missing)) by (rewrite <- (firstn_skipn 63 (skipn (i * 63) missing)); apply in_or_app; left; exact Hv).
      rewrite <- (firstn_skipn (i * 63) missing). apply in_or_app. right. assumption.
    + rewrite Ez. cbn [bind]. eexists. split; [reflexivity|]. rewrite LR in Lz.
      assert (LW : (i * 64 + length z <= length out)%nat) by lia.
      assert (Rz' : rep z (chunk 63 xs i)) by (unfold xs; unfold pts in *; rewrite <- map_chunk; exact Rz).
      split; [rewrite length_write_at by exact LW; exact A1|]. split.
      * intros a Ha. destruct (Nat.eq_dec a i) as [->|NE].
        -- assert (RE : read_at (write_at out (i * 64) z) (i * 64, 64)%nat = z).
           { apply (list_ext 0).
             - rewrite length_read_at by (cbn [fst snd]; rewrite length_write_at by exact LW; lia). cbn [snd]. lia.
             - intros t Ht. rewrite length_read_at in Ht by (cbn [fst snd]; rewrite length_write_at by exact LW; lia).
               rewrite nth_read_at by exact Ht. cbn [fst snd] in *. rewrite nth_write_at by exact LW.
               rewrite (proj2 (Nat.leb_le _ _)), (proj2 (Nat.ltb_lt _ _)) by lia. cbn [andb]. f_equal. lia. }
           rewrite RE. exact Rz'.
        -- rewrite (read_at_ext _ out).
           ++ apply A2. lia.
           ++ cbn [fst snd]. rewrite length_write_at by exact LW. lia.
           ++ apply length_write_at. exact LW.
           ++ cbn [fst snd]. intros p Hp. rewrite nth_write_at by exact LW.
              rewrite (proj2 (Nat.leb_gt (i * 64) p)) by lia. reflexivity.
      * intros p Hp. rewrite nth_write_at by exact LW.
        rewrite (proj2 (Nat.ltb_ge p (i * 64 + length z))) by lia. rewrite andb_false_r. apply A3. lia.
  - exists out. split; [exact E|]. cbn [plus] in A2, A3.
    unfold level. cbn [fst snd]. rewrite map_length, seq_length.
    assert (S0 : szl 0 = 63%nat) by reflexivity. assert (S1 : Sl 0 = 64%nat) by reflexivity. rewrite S0, S1, Lxs.
    split; [exact A1|]. split; [exact L1|]. split; [exact LM|]. split; [right; exact LE|]. split.
    + intros a Ha. rewrite nth_map_seq by exact Ha. cbn [plus]. unfold leaf_ok. cbn [fst snd]. rewrite S0, S1.
      split; [reflexivity|]. split; [lia|]. split; [lia|]. split; [intros _; reflexivity|]. apply A2. exact Ha.
    + intros p Hp. destruct (Nat.le_gt_cases (leafCount * 64) p) as [Q|Q]; [apply A3; exact Q|].
      destruct (A2 (leafCount - 1)%nat) as (R1 & R2 & _); [lia|].
      specialize (R2 (p - (leafCount - 1) * 64)%nat). rewrite nth_read_at in R2 by (cbn [snd]; lia). cbn [fst] in R2.
      replace ((leafCount - 1) * 64 + (p - (leafCount - 1) * 64))%nat with p in R2 by lia. apply R2. lia.
Qed.

(** The number of missing samples for which the computation fits into the length. *)
Definition fits (m len : nat) : Prop := (m < len)%nat /\ ((m <= 63)%nat \/ ((m + 63 - 1) / 63 * 64 <= len)%nat).

Lemma fits_half m j : (1 <= m)%nat -> (2 * m <= 2 ^ j)%nat -> fits m (2 ^ j).
Proof.
  intros M L. split; [lia|]. destruct (Nat.le_gt_cases m 63) as [Q|Q]; [left; exact Q|right].
  assert (J : (7 <= j)%nat).
  { destruct (Nat.le_gt_cases 7 j) as [T|T]; [exact T|]. assert (2 ^ j <= 2 ^ 6)%nat by (apply pow2_le; lia).
    change (2 ^ 6)%nat with 64%nat in *. lia. }
  destruct (Nat.eq_dec j 7) as [->|N7].
  - change (2 ^ 7)%nat with 128%nat in *. assert (m = 64)%nat by lia. subst m. cbn. lia.
  - assert (2 ^ 8 <= 2 ^ j)%nat as P8 by (apply pow2_le; lia). change (2 ^ 8)%nat with 256%nat in P8.
    pose proof (Nat.mul_div_le (m + 63 - 1) 63 ltac:(lia)). lia.
Qed.

Lemma ZeroPoly_ok missing j : (j <= k)%nat -> missing <> [] -> (forall v, In v missing -> (v < 2 ^ j)%nat) ->
  fits (length missing) (2 ^ j) ->
  exists zp, ZeroPolyViaMultiplication fs missing (2 ^ j) = Ret (dft (wj W k j) zp, zp) /\ length zp = (2 ^ j)%nat /\
    rep zp (map (fpow (wj W k j)) missing).
Proof.
  intros J NE V (F1 & F2). set (m := length missing) in *. assert (K31 : (k <= 31)%nat) by apply FO.
  assert (M1 : (1 <= m)%nat) by (unfold m; destruct missing; [congruence|cbn; lia]).
  assert (PJ : (0 < 2 ^ j)%nat) by lia.
  unfold ZeroPolyViaMultiplication. fold m.
  rewrite (proj2 (Nat.eqb_neq m 0)) by lia. rewrite (fo_width _ _ _ FO).
  rewrite (proj2 (Nat.ltb_ge _ _)) by (apply pow2_le; exact J).
  rewrite pow2_test by lia. cbn [negb]. rewrite (proj2 (Nat.eqb_neq (2 ^ j) 0)) by lia.
  assert (ST : (2 ^ k / 2 ^ j = 2 ^ (k - j))%nat).
  { replace k with (k - j + j)%nat at 1 by lia. rewrite Nat.pow_add_r, Nat.div_mul by lia. reflexivity. }
  rewrite ST. set (stride := (2 ^ (k - j))%nat).
  assert (KS : (2 ^ k = 2 ^ j * stride)%nat) by (unfold stride; rewrite <- Nat.pow_add_r; f_equal; lia).
  assert (V' : forall v, In v missing -> (v * stride <= 2 ^ k)%nat).
  { intros v Hv. rewrite KS. apply Nat.mul_le_mono_r. specialize (V v Hv). lia. }
  assert (PT : pts W stride missing = map (fpow (wj W k j)) missing).
  { unfold pts, wj. apply map_ext. intros v. rewrite <- fpow_mul. f_equal. unfold stride. lia. }
  destruct (Nat.leb_spec m 63) as [S|S].
  - rewrite (proj2 (Nat.ltb_ge _ _)) by lia.
    destruct (makeZeroPolyMulLeaf_ok fs k W FO stride missing (repeat 0 (m + 1))) as (z & E & Lz & R).
    + rewrite repeat_length. fold m. lia.
    + exact V'.
    + rewrite E. cbn [bind]. rewrite repeat_length in Lz.
      set (zp := z ++ repeat 0 (2 ^ j - (m + 1))).
      assert (Lzp : length zp = (2 ^ j)%nat) by (unfold zp; rewrite app_length, repeat_length; lia).
      rewrite (FFT_ok _ _ _ _ _ _ FO J Lzp). cbn [must bind]. exists zp. split; [reflexivity|]. split; [exact Lzp|].
      rewrite <- PT. apply rep_pad. exact R.
  - destruct F2 as [F2|F2]; [lia|].
    set (lc := ((m + 63 - 1) / 63)%nat) in *.
    assert (LC : ((lc - 1) * 63 < m <= lc * 63 /\ 2 <= lc)%nat).
    { unfold lc. pose proof (Nat.div_mod (m + 63 - 1) 63 ltac:(lia)) as D.
      pose proof (Nat.mod_upper_bound (m + 63 - 1) 63 ltac:(lia)). lia. }
    destruct (nextPowOf2_ok (Z.of_nat (lc * 64))) as (e' & E1 & E2 & E3 & E4).
    { split; [lia|]. apply Nat2Z.inj_le in F2. etransitivity; [exact F2|]. rewrite of_nat_pow2. apply Z.pow_le_mono_r; lia. }
    set (e := Z.to_nat e').
    assert (EN : Z.to_nat (nextPowOf2 (Z.of_nat (lc * 64))) = (2 ^ e)%nat).
    { rewrite E2, <- (Nat2Z.id (2 ^ e)), of_nat_pow2. unfold e. rewrite Z2Nat.id by lia. reflexivity. }
    assert (Ej : (e <= j)%nat).
    { destruct E4 as [E4|E4]; [unfold e; lia|]. apply Nat2Z.inj_le in F2. rewrite of_nat_pow2 in F2.
      assert (Q : (2 ^ (e' - 1) < 2 ^ Z.of_nat j)%Z) by lia. apply Z.pow_lt_mono_r_iff in Q; unfold e; lia. }
    assert (LE : (lc * 64 <= 2 ^ e)%nat).
    { apply Nat2Z.inj_le. rewrite of_nat_pow2. unfold e. rewrite Z2Nat.id by lia. exact E3. }
    rewrite EN.
    destruct (build_leaves_ok missing stride e lc) as (out & B & LV); [exact V'|lia|fold m; lia|exact LE|].
    rewrite B. cbn [bind].
    destruct (reduce_all_ok fs k W FO (pts W stride missing) e ltac:(lia) ltac:(lia) lc 0 _ LV) as (s & l' & RA & LV' & L1).
    { cbn [snd]. rewrite map_length, seq_length. lia. }
    rewrite RA. cbn [bind]. rewrite (idx_nth (0, 0)%nat) by lia. cbn [bind].
    destruct LV' as (W1 & _ & W3 & _ & W5 & _). rewrite L1 in W3, W5.
    destruct (W5 0%nat) as (Q1 & Q2 & Q3 & _ & Q5); [lia|].
    set (h := nth 0 (snd s) (0, 0)%nat) in *. set (z := read_at (fst s) h) in *.
    assert (Lz : length z = snd h) by (apply length_read_at; lia).
    assert (Le : (2 ^ e <= 2 ^ j)%nat) by (apply pow2_le; exact Ej).
    rewrite (proj2 (Nat.ltb_ge _ _)) by lia.
    set (zp := z ++ repeat 0 (2 ^ j - length z)).
    assert (Lzp : length zp = (2 ^ j)%nat) by (unfold zp; rewrite app_length, repeat_length; lia).
    rewrite (FFT_ok _ _ _ _ _ _ FO J Lzp). cbn [must bind]. exists zp. split; [reflexivity|]. split; [exact Lzp|].
    rewrite <- PT. apply rep_pad.
    assert (CH : chunk (szl l') (pts W stride missing) 0 = pts W stride missing).
    { unfold chunk. cbn [Nat.mul skipn]. apply firstn_all2. lia. }
    rewrite CH in Q5. exact Q5.
Qed.
(** As many indexes as there are samples: the product is one entry too long. *)
Lemma ZeroPoly_all missing j : (j <= k)%nat -> (forall v, In v missing -> (v < 2 ^ j)%nat) -> length missing = (2 ^ j)%nat ->
  ZeroPolyViaMultiplication fs missing (2 ^ j) = Panic.
Proof.
  intros J V LM. assert (K31 : (k <= 31)%nat) by apply FO.
  assert (PJ : (0 < 2 ^ j)%nat) by (apply Nat.neq_0_lt_0, Nat.pow_nonzero; lia).
  unfold ZeroPolyViaMultiplication. rewrite LM.
  rewrite (proj2 (Nat.eqb_neq (2 ^ j) 0)) by lia. rewrite (fo_width _ _ _ FO).
  rewrite (proj2 (Nat.ltb_ge (2 ^ k) (2 ^ j))) by (apply pow2_le; exact J).
  rewrite pow2_test by lia. cbn [negb].
  assert (ST : (2 ^ k / 2 ^ j = 2 ^ (k - j))%nat).
  { replace k with (k - j + j)%nat at 1 by lia. rewrite Nat.pow_add_r, Nat.div_mul by lia. reflexivity. }
  rewrite ST. set (stride := (2 ^ (k - j))%nat).
  assert (KS : (2 ^ k = 2 ^ j * stride)%nat) by (unfold stride; rewrite <- Nat.pow_add_r; f_equal; lia).
  assert (V' : forall v, In v missing -> (v * stride <= 2 ^ k)%nat).
  { intros v Hv. rewrite KS. apply Nat.mul_le_mono_r. specialize (V v Hv). lia. }
  destruct (Nat.leb_spec (2 ^ j) 63) as [S0|S0].
  - rewrite (proj2 (Nat.ltb_lt (2 ^ j) (2 ^ j + 1))) by lia. reflexivity.
  - set (lc := ((2 ^ j + 63 - 1) / 63)%nat).
    assert (LC : ((lc - 1) * 63 < 2 ^ j <= lc * 63 /\ 2 <= lc)%nat).
    { unfold lc. pose proof (Nat.div_mod (2 ^ j + 63 - 1) 63 ltac:(lia)) as D.
      pose proof (Nat.mod_upper_bound (2 ^ j + 63 - 1) 63 ltac:(lia)). lia. }
    assert (EN : Z.to_nat (nextPowOf2 (Z.of_nat (lc * 64))) = (2 ^ S j)%nat).
    { apply nextPow_between; [lia|lia|]. cbn [Nat.pow]. lia. }
    rewrite EN.
    assert (LE : (lc * 64 <= 2 ^ S j)%nat) by (cbn [Nat.pow]; lia).
    destruct (build_leaves_ok missing stride (S j) lc) as (out & B & LV); [exact V'|lia|lia|exact LE|].
    rewrite B. cbn [bind].
    assert (LX : length (pts W stride missing) = (2 ^ j)%nat) by (unfold pts; rewrite map_length; exact LM).
    destruct (Nat.eq_dec j k) as [JK|JK].
    + rewrite (reduce_all_panic fs k W FO (pts W stride missing) (S j) ltac:(lia) ltac:(lia) ltac:(rewrite LX, JK; lia) lc 0 _ LV).
      * reflexivity.
      * cbn [snd]. rewrite map_length, seq_length. lia.
    + destruct (reduce_all_ok fs k W FO (pts W stride missing) (S j) ltac:(lia) ltac:(lia) lc 0 _ LV) as (s & l' & RA & LV' & L1).
      { cbn [snd]. rewrite map_length, seq_length. lia. }
      rewrite RA. cbn [bind]. rewrite (idx_nth (0, 0)%nat) by lia. cbn [bind].
      destruct LV' as (W1 & _ & W3 & _ & W5 & _). rewrite L1 in W3, W5.
      destruct (W5 0%nat) as (Q1 & Q2 & Q3 & _ & Q5 & _); [lia|].
      assert (CH : chunk (szl l') (pts W stride missing) 0 = pts W stride missing).
      { unfold chunk. cbn [Nat.mul skipn]. apply firstn_all2. lia. }
      rewrite CH, LX in Q5. rewrite (proj2 (Nat.ltb_lt _ _) Q5). reflexivity.
Qed.
End Zero2.
