(** The FK20 procedures compute quotients at the secret. *)

Require Import ZArith List Bool Arith Lia.
From Verif Require Import Prime Fr CodecModel GoBase Poly PolyModel PolyProofs GroupModel KzgModel KzgProofs VssModel VssProofs
  FftModel FftProofs FftProofs2 FftG1 ReverseModel ReverseProofs SampleModel FkModel FkProofs.
Import ListNotations.
Local Open Scope F_scope.

Lemma nth_mk l i : nth i (map mkG1 l) ZeroG1 = mkG1 (nth i l 0).
Proof. exact (map_nth mkG1 l 0 i). Qed.

Lemma half_pow a : (2 ^ S a / 2 = 2 ^ a)%nat.
Proof. rewrite Nat.pow_succ_r', Nat.mul_comm. apply Nat.div_mul. lia. Qed.

Section Fk.
Variables (fs : FFTSettings) (K : nat) (W : Fr).
Hypothesis OK : fs_ok fs K W.

Lemma fftg1_fwd j vals : (j <= K)%nat -> length vals = (2 ^ j)%nat ->
  must (FFTG1 fs (map mkG1 vals) false) = Ret (map mkG1 (dft (wj W K j) vals)).
Proof. intros Hj L. rewrite FFTG1_sim, L, (InplaceFFT_ok fs K W vals j false OK Hj L). reflexivity. Qed.

Lemma fftg1_inv j vals : (j <= K)%nat -> length vals = (2 ^ j)%nat ->
  must (FFTG1 fs (map mkG1 (dft (wj W K j) vals)) true) = Ret (map mkG1 vals).
Proof.
  intros Hj L. rewrite FFTG1_sim, length_dft, L.
  rewrite (InplaceFFT_ok fs K W _ j true OK Hj) by (rewrite length_dft; exact L). cbn [gmap bind must].
  rewrite dft_inv; [reflexivity| |pose proof (fo_max _ _ _ OK); lia|exact L].
  apply wj_prim; [exact (fo_prim _ _ _ OK)|exact Hj].
Qed.

Lemma part2_ok j c x : (j <= K)%nat -> length c = (2 ^ j)%nat -> length x = (2 ^ j)%nat ->
  ToeplitzPart2 fs c (map mkG1 (dft (wj W K j) x)) = Ret (map mkG1 (dft (wj W K j) (fold_conv (2 ^ j) c x))).
Proof.
  intros Hj Lc Lx. unfold ToeplitzPart2. rewrite map_length, length_dft, Lc, Lx, Nat.eqb_refl. cbn [negb].
  rewrite (FFT_ok fs K W c j false OK Hj Lc). cbn [must bind]. rewrite length_dft, Lc.
  set (w := wj W K j). assert (P : prim w j) by (apply wj_prim; [exact (fo_prim _ _ _ OK)|exact Hj]).
  rewrite (gomap_ret _ (fun i => MulG1 (nth i (map mkG1 (dft w x)) ZeroG1) (nth i (dft w c) 0))).
  - f_equal. apply (list_ext ZeroG1).
    + rewrite !map_length, seq_length, length_dft, length_fold_conv. reflexivity.
    + intros i Hi. rewrite map_length, seq_length in Hi. rewrite nth_map_seq by exact Hi. rewrite !nth_mk. cbn [plus].
      rewrite !nth_dft by (rewrite ?length_fold_conv; lia). unfold MulG1. cbn [dlog1]. f_equal.
      rewrite fold_conv_eval by (try assumption; rewrite <- fpow_mul, Nat.mul_comm, fpow_mul, (prim_one w j P); apply fpow_1_l). ring.
  - intros i Hi. apply in_seq in Hi. rewrite (idx_nth ZeroG1) by (rewrite map_length, length_dft; lia).
    rewrite (idx_nth 0) by (rewrite length_dft; lia). reflexivity.
Qed.

(** ** Settings *)

Definition powers (s : Fr) (k l off : nat) : list Fr :=
  map (fun b => if (b <? k - 1)%nat then fpow s (k * l - l - 1 - off - b * l) else 0) (seq 0 k).

Lemma powers_is s k l off : (1 <= k)%nat -> is_powers s k l off (powers s k l off).
Proof.
  intros Hk. unfold is_powers, powers. split; [rewrite map_length, seq_length; reflexivity|]. split.
  - intros b Hb. rewrite nth_map_seq by lia. cbn [plus]. rewrite (proj2 (Nat.ltb_lt b (k - 1))) by lia. reflexivity.
  - rewrite nth_map_seq by lia. cbn [plus]. rewrite Nat.ltb_irrefl. reflexivity.
Qed.

Lemma powers_loop s len k l off : (1 <= k)%nat -> (off < l)%nat -> (k * l - l <= len)%nat ->
  bind (goloop 0 (k - 1) (fun x i => bind (idx (g1powers s len) (k * l - l - 1 - off - i * l)) (fun g => upd x i g)) (repeat ZeroG1 k))
    (fun x => upd x (k - 1) ZeroG1) = Ret (map mkG1 (powers s k l off)).
Proof.
  intros Hk Ho HL.
  destruct (goloop_upd ZeroG1 (fun i => mkG1 (fpow s (k * l - l - 1 - off - i * l)))
    (fun x i => bind (idx (g1powers s len) (k * l - l - 1 - off - i * l)) (fun g => upd x i g)) 0 (k - 1) (repeat ZeroG1 k)) as (t & E & L & N).
  - rewrite repeat_length. lia.
  - intros t i Hi.
    assert (A : (l <= k * l - l)%nat).
    { assert (2 * l <= k * l)%nat by (apply Nat.mul_le_mono_r; lia). lia. }
    rewrite (idx_nth ZeroG1) by (rewrite length_g1powers; lia). cbn [bind]. f_equal.
    unfold g1powers. rewrite nth_map_seq by lia. reflexivity.
  - rewrite E. cbn [bind]. rewrite repeat_length in L. unfold upd. rewrite (proj2 (Nat.ltb_lt (k - 1) (length t))) by lia.
    f_equal. apply (list_ext ZeroG1).
    + rewrite length_set_nth, map_length. unfold powers. rewrite map_length, seq_length. exact L.
    + intros i Hi. rewrite length_set_nth in Hi. rewrite nth_mk. unfold powers. rewrite nth_map_seq by lia. cbn [plus].
      destruct (Nat.ltb_spec i (k - 1)) as [B|B].
      * rewrite nth_set_nth_other by lia. rewrite N. cbn [Nat.leb andb plus]. rewrite (proj2 (Nat.ltb_lt i (k - 1))) by lia. reflexivity.
      * replace i with (k - 1)%nat by lia. rewrite nth_set_nth_same by lia. reflexivity.
Qed.

Lemma part1_ok a x : (S a <= K)%nat -> length x = (2 ^ a)%nat ->
  toeplitzPart1 fs (map mkG1 x) = Ret (map mkG1 (dft (wj W K (S a)) (x ++ repeat 0 (2 ^ a)))).
Proof.
  intros Ha L. unfold toeplitzPart1. rewrite map_length, L.
  replace (repeat ZeroG1 (2 ^ a)) with (map mkG1 (repeat 0 (2 ^ a))).
  - rewrite <- map_app. apply fftg1_fwd; [exact Ha|]. rewrite app_length, repeat_length, L. cbn [Nat.pow]. lia.
  - generalize (2 ^ a)%nat. intros n. induction n as [|n IH]; [reflexivity|]. cbn [repeat map]. rewrite IH. reflexivity.
Qed.

Definition file (s : Fr) (a l off : nat) : list G1 :=
  map mkG1 (dft (wj W K (S a)) (powers s (2 ^ a) l off ++ repeat 0 (2 ^ a))).

Lemma single_settings_ok s len ks a : setup s len = Ret ks -> (S a <= K)%nat -> (2 ^ a - 1 <= len)%nat ->
  NewFK20SingleSettings fs ks (2 ^ S a) = Ret (file s a 1 0).
Proof.
  intros S Ha HL. rewrite (ks_eq s len ks S). unfold NewFK20SingleSettings. rewrite (fo_width _ _ _ OK).
  pose proof (fo_max _ _ _ OK) as MX.
  pose proof (pow2_le _ _ Ha) as LE. rewrite (proj2 (Nat.ltb_ge (2 ^ K) (2 ^ Datatypes.S a))) by exact LE.
  rewrite pow2_test by lia. cbn [negb].
  pose proof (Nat.pow_nonzero 2 a) as NZ.
  assert (E2 : (2 ^ Datatypes.S a = 2 ^ a * 2)%nat) by (cbn [Nat.pow]; lia).
  rewrite E2. rewrite (proj2 (Nat.ltb_ge (2 ^ a * 2) 2)) by lia. rewrite Nat.div_mul by lia. cbn [SecretG1].
  pose proof (powers_loop s len (2 ^ a) 1 0) as PL. rewrite !Nat.mul_1_r in PL.
  assert (G : goloop 0 (2 ^ a - 1) (fun x i => bind (idx (g1powers s len) (2 ^ a - 2 - i)) (fun g => upd x i g)) (repeat ZeroG1 (2 ^ a)) =
    goloop 0 (2 ^ a - 1) (fun x i => bind (idx (g1powers s len) (2 ^ a - 1 - 1 - 0 - i * 1)) (fun g => upd x i g)) (repeat ZeroG1 (2 ^ a))).
  { unfold goloop. apply gofold_ext. intros x i. replace (2 ^ a - 1 - 1 - 0 - i * 1)%nat with (2 ^ a - 2 - i)%nat by lia. reflexivity. }
  rewrite G. destruct (goloop _ _ _ _) as [x| | |]; cbn [bind] in PL |- *.
  - rewrite PL by lia. cbn [bind]. rewrite (part1_ok a); [reflexivity|exact Ha|]. unfold powers. rewrite map_length, seq_length. reflexivity.
  - specialize (PL ltac:(lia) ltac:(lia) ltac:(lia)). discriminate PL.
  - specialize (PL ltac:(lia) ltac:(lia) ltac:(lia)). discriminate PL.
  - specialize (PL ltac:(lia) ltac:(lia) ltac:(lia)). discriminate PL.
Qed.

Lemma multi_settings_ok s len ks a b : setup s len = Ret ks -> (S (a + b) <= K)%nat -> (2 ^ (a + b) - 2 ^ b <= len)%nat ->
  NewFK20MultiSettings fs ks (2 ^ S (a + b)) (2 ^ b) = Ret (map (file s a (2 ^ b)) (seq 0 (2 ^ b))).
Proof.
  intros S Ha HL. rewrite (ks_eq s len ks S). unfold NewFK20MultiSettings. rewrite (fo_width _ _ _ OK).
  pose proof (fo_max _ _ _ OK) as MX.
  pose proof (pow2_le _ _ Ha) as LE. rewrite (proj2 (Nat.ltb_ge (2 ^ K) (2 ^ Datatypes.S (a + b)))) by exact LE.
  rewrite !pow2_test by lia. cbn [negb].
  pose proof (Nat.pow_nonzero 2 a) as NZ. pose proof (Nat.pow_nonzero 2 b) as NZb. pose proof (Nat.pow_nonzero 2 (a + b)) as NZab.
  assert (E2 : (2 ^ Datatypes.S (a + b) = 2 ^ (a + b) * 2)%nat) by (cbn [Nat.pow]; lia).
  rewrite E2. rewrite (proj2 (Nat.ltb_ge (2 ^ (a + b) * 2) 2)) by lia. rewrite Nat.div_mul by lia. cbn [SecretG1].
  pose proof (pow2_le b (a + b)) as LB. rewrite (proj2 (Nat.ltb_ge (2 ^ (a + b)) (2 ^ b))) by lia.
  rewrite (proj2 (Nat.ltb_ge (2 ^ b) 1)) by lia.
  assert (EP : (2 ^ (a + b) = 2 ^ a * 2 ^ b)%nat) by (apply Nat.pow_add_r). rewrite EP, Nat.div_mul by lia.
  apply gomap_ret. intros off Ho. apply in_seq in Ho.
  pose proof (powers_loop s len (2 ^ a) (2 ^ b) off) as PL.
  destruct (goloop _ _ _ _) as [x| | |]; cbn [bind] in PL |- *.
  - rewrite PL by lia. cbn [bind]. rewrite (part1_ok a); [reflexivity|lia|]. unfold powers. rewrite map_length, seq_length. reflexivity.
  - specialize (PL ltac:(lia) ltac:(lia) ltac:(lia)). discriminate PL.
  - specialize (PL ltac:(lia) ltac:(lia) ltac:(lia)). discriminate PL.
  - specialize (PL ltac:(lia) ltac:(lia) ltac:(lia)). discriminate PL.
Qed.

(** ** The sum over the offsets *)

Definition entry (s : Fr) (p : list Fr) (k l i off : nat) : Fr :=
  sumn (k - 1 - i) (fun t => fpow s (k * l - l - 1 - off - (i + t) * l) * nth (k * l - 1 - off - t * l) p 0).

Lemma one_file s p a l off : (S a <= K)%nat -> (1 <= a)%nat -> (off < l)%nat -> length p = (2 ^ a * l)%nat ->
  exists c hs, toeplitzCoeffsStepStrided p off l = Ret c /\
    ToeplitzPart2 fs c (file s a l off) = Ret (map mkG1 (dft (wj W K (S a)) hs)) /\ length hs = (2 ^ S a)%nat /\
    forall i, (i < 2 ^ a)%nat -> nth i hs 0 = entry s p (2 ^ a) l i off.
Proof.
  intros Ha A1 Ho LP. pose proof (pow2_le 1 a A1) as K2. change (2 ^ 1)%nat with 2%nat in K2.
  destruct (strided_ok p (2 ^ a) l off LP K2 Ho) as (c & Ec & Hc).
  exists c, (fold_conv (2 ^ S a) c (powers s (2 ^ a) l off ++ repeat 0 (2 ^ a))).
  pose proof (powers_is s (2 ^ a) l off) as HP. specialize (HP ltac:(lia)).
  split; [exact Ec|]. split; [|split].
  - unfold file. apply part2_ok; [exact Ha| |].
    + rewrite (proj1 Hc). cbn [Nat.pow]. lia.
    + rewrite app_length, repeat_length, (proj1 HP). cbn [Nat.pow]. lia.
  - apply length_fold_conv.
  - intros i Hi. exact (toeplitz_entry s p (2 ^ a) l off c _ i K2 Ho LP Hc HP Hi).
Qed.

Lemma dft_padd w p q : length p = length q -> forall i, (i < length p)%nat ->
  nth i (dft w (padd p q)) 0 = nth i (dft w p) 0 + nth i (dft w q) 0.
Proof.
  intros L i Hi. rewrite !nth_dft by (rewrite ?length_padd; lia). apply peval_padd.
Qed.

Lemma dft_zero w n : dft w (repeat 0 n) = repeat 0 n.
Proof.
  apply (list_ext 0); [rewrite length_dft; reflexivity|]. intros i Hi. rewrite length_dft in Hi.
  rewrite nth_dft by exact Hi. rewrite peval_repeat0, nth_repeat. reflexivity.
Qed.

Lemma map_repeat_g n : map mkG1 (repeat 0 n) = repeat ZeroG1 n.
Proof. induction n as [|n IH]; [reflexivity|]. cbn [repeat map]. rewrite IH. reflexivity. Qed.

Lemma sum_files_ok s p a l : (S a <= K)%nat -> (1 <= a)%nat -> (1 <= l)%nat -> length p = (2 ^ a * l)%nat ->
  exists hs, sum_files fs (map (file s a l) (seq 0 l)) l p (2 ^ S a) = Ret (map mkG1 (dft (wj W K (S a)) hs)) /\
    length hs = (2 ^ S a)%nat /\ forall i, (i < 2 ^ a)%nat -> nth i hs 0 = hval l s p i.
Proof.
  intros Ha A1 Hl LP. unfold sum_files.
  pose proof (pow2_le 1 a A1) as K2. change (2 ^ 1)%nat with 2%nat in K2.
  destruct (goloop_inv (fun m h => exists hs, h = map mkG1 (dft (wj W K (S a)) hs) /\ length hs = (2 ^ S a)%nat /\
      forall i, (i < 2 ^ a)%nat -> nth i hs 0 = sumn m (entry s p (2 ^ a) l i)) 0 l
    (fun hExtFFT i => bind (toeplitzCoeffsStepStrided p i l) (fun c => bind (idx (map (file s a l) (seq 0 l)) i) (fun f =>
      bind (ToeplitzPart2 fs c f) (fun hf => gomap (fun j => bind (idx hExtFFT j) (fun a0 => bind (idx hf j) (fun b => Ret (AddG1 a0 b))))
        (seq 0 (2 ^ S a)))))) (repeat ZeroG1 (2 ^ S a))) as (h & E & hs & -> & L & N).
  - exists (repeat 0 (2 ^ S a)). rewrite dft_zero, map_repeat_g. split; [reflexivity|]. split; [apply repeat_length|].
    intros i Hi. rewrite nth_repeat. reflexivity.
  - intros off h Ho (hs & -> & L & N).
    destruct (one_file s p a l off Ha A1 ltac:(lia) LP) as (c & h2 & Ec & E2 & L2 & N2).
    exists (map mkG1 (dft (wj W K (S a)) (padd hs h2))). split.
    + rewrite Ec. cbn [bind]. rewrite (idx_nth []) by (rewrite map_length, seq_length; lia). cbn [bind].
      rewrite nth_map_seq by lia. cbn [plus]. rewrite E2. cbn [bind].
      rewrite (gomap_ret _ (fun j => mkG1 (nth j (dft (wj W K (S a)) (padd hs h2)) 0))).
      * f_equal. apply (list_ext ZeroG1).
        -- rewrite !map_length, seq_length, length_dft, length_padd. lia.
        -- intros i Hi. rewrite map_length, seq_length in Hi. rewrite nth_map_seq by exact Hi. rewrite nth_mk. reflexivity.
      * intros j Hj. apply in_seq in Hj. rewrite !(idx_nth ZeroG1) by (rewrite map_length, length_dft; lia). cbn [bind].
        rewrite !nth_mk. unfold AddG1. cbn [dlog1]. rewrite dft_padd by lia. reflexivity.
    + exists (padd hs h2). split; [reflexivity|]. split; [rewrite length_padd; lia|].
      intros i Hi. rewrite nth_padd, N, N2 by exact Hi. cbn [plus sumn]. reflexivity.
  - exists hs. split; [exact E|]. split; [exact L|]. intros i Hi. rewrite N by exact Hi. cbn [plus].
    exact (toeplitz_sum s p (2 ^ a) l i K2 Hl LP Hi).
Qed.

(** ** The results *)

Definition hvec (l : nat) (s : Fr) (p : list Fr) (k : nat) : list Fr := map (hval l s p) (seq 0 k).

Lemma part3_ok s p a l hs : (S a <= K)%nat -> length hs = (2 ^ S a)%nat ->
  (forall i, (i < 2 ^ a)%nat -> nth i hs 0 = hval l s p i) ->
  ToeplitzPart3 fs (map mkG1 (dft (wj W K (S a)) hs)) = Ret (map mkG1 (hvec l s p (2 ^ a))).
Proof.
  intros Ha L N. unfold ToeplitzPart3. rewrite fftg1_inv by assumption. cbn [bind]. rewrite map_length, L.
  rewrite half_pow.
  f_equal. rewrite firstn_map. f_equal. apply (list_ext 0).
  - unfold hvec. rewrite firstn_length, map_length, seq_length, L. cbn [Nat.pow]. lia.
  - intros i Hi. rewrite firstn_length in Hi. rewrite nth_firstn' by lia. unfold hvec. rewrite nth_map_seq by lia. apply N. lia.
Qed.

(** The value at the secret of the quotient by X^l - z. *)
Definition quot (l : nat) (s : Fr) (p : list Fr) (k : nat) (z : Fr) : Fr := sumn k (fun i => hval l s p i * fpow z i).

Lemma hvec_eval l s p k e z : peval (hvec l s p k ++ repeat 0 e) z = quot l s p k z.
Proof.
  rewrite peval_app, peval_repeat0. rewrite (peval_upto _ k) by (unfold hvec; rewrite map_length, seq_length; lia).
  unfold quot. rewrite (sumn_ext k _ (fun i => hval l s p i * fpow z i)).
  - ring.
  - intros i Hi. unfold hvec. rewrite nth_map_seq by exact Hi. reflexivity.
Qed.

Lemma dft_hvec w l s p k e : dft w (hvec l s p k ++ repeat 0 e) = map (fun i => quot l s p k (fpow w i)) (seq 0 (k + e)).
Proof.
  unfold dft. rewrite app_length, repeat_length. replace (length (hvec l s p k)) with k by (unfold hvec; rewrite map_length, seq_length; reflexivity).
  apply map_ext. intros i. apply hvec_eval.
Qed.

Lemma FK20Single_ok s p a : (S a <= K)%nat -> (1 <= a)%nat -> length p = (2 ^ a)%nat ->
  FK20Single fs (file s a 1 0) p = Ret (map (fun i => mkG1 (quot 1 s p (2 ^ a) (fpow (wj W K a) i))) (seq 0 (2 ^ a))).
Proof.
  intros Ha A1 LP. pose proof (Nat.pow_nonzero 2 a) as NZ. assert (NE : p <> []) by (intros ->; cbn in LP; lia).
  unfold FK20Single. rewrite step_strided by exact NE.
  destruct (one_file s p a 1 0 Ha A1) as (c & hs & Ec & E2 & L & N); [lia|lia|].
  rewrite Ec. cbn [bind]. rewrite E2. cbn [bind].
  rewrite (part3_ok s p a 1 hs Ha L).
  - cbn [bind]. rewrite (fftg1_fwd a); [|lia|unfold hvec; rewrite map_length, seq_length; reflexivity].
    f_equal. replace (hvec 1 s p (2 ^ a)) with (hvec 1 s p (2 ^ a) ++ repeat 0 0) by apply app_nil_r.
    rewrite dft_hvec, map_map, Nat.add_0_r. reflexivity.
  - intros i Hi. rewrite N by exact Hi. rewrite <- (toeplitz_sum s p (2 ^ a) 1 i); [cbn [sumn]; unfold entry; ring| | | |exact Hi]; try lia.
    pose proof (pow2_le 1 a A1) as K2. exact K2.
Qed.

Lemma zeros_pass p n : length p = n -> forallb (fun c => feqb c 0) (skipn n (p ++ repeat 0 n)) = true.
Proof.
  intros L. rewrite <- L at 1. rewrite skipn_app, skipn_all, Nat.sub_diag. cbn [app skipn].
  apply forallb_forall. intros c Hc. apply repeat_spec in Hc. subst c. apply feqb_eq. reflexivity.
Qed.

Lemma FK20SingleDA_ok s p a : (S a <= K)%nat -> (1 <= a)%nat -> length p = (2 ^ a)%nat ->
  FK20SingleDAOptimized fs (file s a 1 0) (p ++ repeat 0 (2 ^ a)) =
  Ret (map (fun i => mkG1 (quot 1 s p (2 ^ a) (fpow (wj W K (S a)) i))) (seq 0 (2 ^ S a))).
Proof.
  intros Ha A1 LP. pose proof (Nat.pow_nonzero 2 a) as NZ. assert (NE : p <> []) by (intros ->; cbn in LP; lia).
  pose proof (fo_max _ _ _ OK) as MX. pose proof (pow2_le _ _ Ha) as LE.
  assert (E2 : (2 ^ a + 2 ^ a = 2 ^ S a)%nat) by (cbn [Nat.pow]; lia).
  unfold FK20SingleDAOptimized. rewrite app_length, repeat_length, LP, E2, (fo_width _ _ _ OK).
  rewrite (proj2 (Nat.ltb_ge (2 ^ K) (2 ^ S a))) by exact LE. rewrite pow2_test by lia. cbn [negb].
  rewrite half_pow.
  rewrite zeros_pass by exact LP. cbn [negb].
  rewrite firstn_app, <- LP, firstn_all, Nat.sub_diag, LP. cbn [firstn]. rewrite app_nil_r.
  rewrite step_strided by exact NE.
  destruct (one_file s p a 1 0 Ha A1) as (c & hs & Ec & E3 & L & N); [lia|lia|].
  rewrite Ec. cbn [bind]. rewrite E3. cbn [bind].
  rewrite (part3_ok s p a 1 hs Ha L).
  - cbn [bind]. replace (2 ^ S a - 2 ^ a)%nat with (2 ^ a)%nat by lia. rewrite <- map_repeat_g, <- map_app.
    rewrite (fftg1_fwd (S a)); [|lia|unfold hvec; rewrite app_length, repeat_length, map_length, seq_length; exact E2].
    f_equal. rewrite dft_hvec, map_map, E2. reflexivity.
  - intros i Hi. rewrite N by exact Hi. rewrite <- (toeplitz_sum s p (2 ^ a) 1 i); [cbn [sumn]; unfold entry; ring| | | |exact Hi]; try lia.
    pose proof (pow2_le 1 a A1) as K2. exact K2.
Qed.

Lemma FK20MultiDA_ok s p a b : (S (a + b) <= K)%nat -> (1 <= a)%nat -> length p = (2 ^ (a + b))%nat ->
  FK20MultiDAOptimized fs (map (file s a (2 ^ b)) (seq 0 (2 ^ b))) (2 ^ b) (p ++ repeat 0 (2 ^ (a + b))) =
  Ret (map (fun i => mkG1 (quot (2 ^ b) s p (2 ^ a) (fpow (wj W K (S a)) i))) (seq 0 (2 ^ S a))).
Proof.
  intros Ha A1 LP. pose proof (Nat.pow_nonzero 2 (a + b)) as NZ. pose proof (Nat.pow_nonzero 2 b) as NZb.
  pose proof (pow2_le _ _ Ha) as LE.
  assert (E2 : (2 ^ (a + b) + 2 ^ (a + b) = 2 ^ S (a + b))%nat) by (cbn [Nat.pow]; lia).
  assert (E3 : (2 ^ a + 2 ^ a = 2 ^ S a)%nat) by (cbn [Nat.pow]; lia).
  assert (EP : (2 ^ (a + b) = 2 ^ a * 2 ^ b)%nat) by (apply Nat.pow_add_r).
  unfold FK20MultiDAOptimized. rewrite app_length, repeat_length, LP, E2, (fo_width _ _ _ OK).
  rewrite (proj2 (Nat.ltb_ge (2 ^ K) (2 ^ S (a + b)))) by exact LE.
  rewrite half_pow.
  rewrite zeros_pass by exact LP. cbn [negb]. rewrite (proj2 (Nat.eqb_neq (2 ^ b) 0)) by lia.
  rewrite firstn_app, <- LP, firstn_all, Nat.sub_diag, LP. cbn [firstn]. rewrite app_nil_r.
  rewrite EP, Nat.div_mul by lia. replace (2 ^ a * 2)%nat with (2 ^ S a)%nat by lia.
  destruct (sum_files_ok s p a (2 ^ b)) as (hs & Eh & L & N); [lia|exact A1|lia|lia|].
  rewrite Eh. cbn [bind]. rewrite (part3_ok s p a (2 ^ b) hs) by (try assumption; lia). cbn [bind].
  replace (2 ^ S a - 2 ^ a)%nat with (2 ^ a)%nat by lia. rewrite <- map_repeat_g, <- map_app.
  rewrite (fftg1_fwd (S a)); [|lia|unfold hvec; rewrite app_length, repeat_length, map_length, seq_length; exact E3].
  f_equal. rewrite dft_hvec, map_map, E3. reflexivity.
Qed.

Lemma FK20Multi_single s p a : (S a <= K)%nat -> (1 <= a)%nat -> length p = (2 ^ a)%nat ->
  FK20Multi fs [file s a 1 0] 1 p = FK20Single fs (file s a 1 0) p.
Proof.
  intros Ha A1 LP. rewrite FK20Single_ok by assumption. pose proof (pow2_le _ _ Ha) as LE.
  unfold FK20Multi. rewrite LP, (fo_width _ _ _ OK). replace (2 ^ a * 2)%nat with (2 ^ S a)%nat by (cbn [Nat.pow]; lia).
  rewrite (proj2 (Nat.ltb_ge (2 ^ K) (2 ^ S a))) by exact LE.
  destruct (sum_files_ok s p a 1) as (hs & Eh & L & N); [lia|exact A1|lia|lia|].
  change (map (file s a 1) (seq 0 1)) with [file s a 1 0] in Eh.
  rewrite Eh. cbn [bind]. rewrite (part3_ok s p a 1 hs) by assumption. cbn [bind].
  rewrite (fftg1_fwd a); [|lia|unfold hvec; rewrite map_length, seq_length; reflexivity].
  f_equal. replace (hvec 1 s p (2 ^ a)) with (hvec 1 s p (2 ^ a) ++ repeat 0 0) by apply app_nil_r.
  rewrite dft_hvec, map_map, Nat.add_0_r. reflexivity.
Qed.

End Fk.
