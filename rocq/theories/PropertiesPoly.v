(** Headline theorems: polynomials and KZG commitments (C08-C15, C47 padding). *)

Require Import ZArith List Lia Bool Arith.
From Verif Require Import Prime Fr CodecModel GoBase Poly Biv PolyModel PolyProofs GroupModel
  KzgModel KzgProofs.
Import ListNotations.
Local Open Scope F_scope.

(** ** C08 Evaluation and linear factors *)

Theorem c08_eval : forall p x, EvalPolyAt p x = sumn (length p) (fun i => nth i p 0 * fpow x i).
Proof. exact (fun p x => eq_trans (EvalPolyAt_correct p x) (peval_sumn p x)). Qed.
Print Assumptions c08_eval.

Theorem c08_mul : forall p a q, mulPolyDegreeOne p [0 - a; 1] = Ret q ->
  length q = S (length p) /\ forall x, EvalPolyAt q x = (x - a) * EvalPolyAt p x.
Proof.
  intros p a q E. destruct (mulPolyDegreeOne_eval _ _ _ _ E) as (L & H). split; [exact L|].
  intros x. rewrite !EvalPolyAt_correct, H. ring.
Qed.
Print Assumptions c08_mul.

(** Division undoes multiplication, exactly. *)
Theorem c08_div_mul : forall p a,
  exists q, mulPolyDegreeOne p [0 - a; 1] = Ret q /\ divPolyDegreeOne q [0 - a; 1] = Ret p.
Proof.
  intros p a. eexists. split; [apply mulPolyDegreeOne_correct|].
  change (padd (pscale (0 - a) p) (0 :: pscale 1 p)) with (mulfac p a).
  rewrite divPolyDegreeOne_correct.
  - rewrite sdiv_mulfac. reflexivity.
  - intros E. apply (f_equal (@length Fr)) in E. rewrite length_mulfac in E. discriminate.
Qed.
Print Assumptions c08_div_mul.

(** Division of any polynomial: quotient and remainder p(a); exact if a is a root. *)
Theorem c08_div : forall p a, p <> [] ->
  exists q, divPolyDegreeOne p [0 - a; 1] = Ret q /\ length q = (length p - 1)%nat /\
    forall x, EvalPolyAt p x = (x - a) * EvalPolyAt q x + EvalPolyAt p a.
Proof.
  intros p a H. eexists. split; [apply divPolyDegreeOne_correct; exact H|].
  split; [apply sdiv_length|]. intros x. rewrite !EvalPolyAt_correct. apply sdiv_eval.
Qed.
Print Assumptions c08_div.

(** Multiplication undoes the division of a polynomial that has the root a, exactly. *)
Theorem c08_mul_div : forall p a, p <> [] -> EvalPolyAt p a = 0 ->
  exists q, divPolyDegreeOne p [0 - a; 1] = Ret q /\ mulPolyDegreeOne q [0 - a; 1] = Ret p.
Proof.
  intros p a H R. rewrite EvalPolyAt_correct in R. eexists. split; [apply divPolyDegreeOne_correct; exact H|].
  rewrite mulPolyDegreeOne_correct. f_equal. apply mulfac_sdiv; assumption.
Qed.
Print Assumptions c08_mul_div.

Example c08_example :
  EvalPolyAt [of_Z 5; of_Z 3; of_Z 2] (of_Z 10) = of_Z 235 /\
  EvalPolyAt [of_Z 5; of_Z 3; of_Z 2] 0 = of_Z 5 /\ EvalPolyAt [] (of_Z 3) = 0 /\
  mulPolyDegreeOne [of_Z 1; of_Z 1] [0 - of_Z (r - 2); 1] = Ret [of_Z 2; of_Z 3; of_Z 1] /\
  divPolyDegreeOne [of_Z 2; of_Z 3; of_Z 1] [0 - of_Z (r - 2); 1] = Ret [of_Z 1; of_Z 1].
Proof. vm_compute. auto. Qed.

(** ** C09 Interpolation *)

Theorem c09_interpolate : forall degree x y,
  NoDup (firstn (degree + 1) x) -> (degree + 1 <= length x)%nat -> (degree + 1 <= length y)%nat ->
  exists q, LagrangeInterpolate degree x y = Ret q /\ length q = (degree + 1)%nat /\
    (forall i, (i <= degree)%nat -> peval q (nth i x 0) = nth i y 0) /\
    (forall p, (length p <= degree + 1)%nat ->
       (forall i, (i <= degree)%nat -> peval p (nth i x 0) = nth i y 0) ->
       forall j, nth j p 0 = nth j q 0).
Proof. exact LagrangeInterpolate_correct. Qed.
Print Assumptions c09_interpolate.

Theorem c09_duplicates_stop : forall degree x y i j,
  (degree + 1 <= length x)%nat -> (i < j)%nat -> (j < degree + 1)%nat -> nth i x 0 = nth j x 0 ->
  (degree + 1 <= length y)%nat -> LagrangeInterpolate degree x y = Fatal.
Proof. exact (fun degree x y i j Lx => interp_dup degree x y Lx i j). Qed.
Print Assumptions c09_duplicates_stop.

Theorem c09_values : forall degree x p,
  NoDup (firstn (degree + 1) x) -> (degree + 1 <= length x)%nat -> length p = (degree + 1)%nat ->
  LagrangeInterpolate degree x (map (peval p) x) = Ret p.
Proof. exact LagrangeInterpolate_values. Qed.
Print Assumptions c09_values.

Example c09_example :
  LagrangeInterpolate 1 [of_Z 1; of_Z 2] [of_Z 3; of_Z 5] = Ret [of_Z 1; of_Z 2] /\
  LagrangeInterpolate 1 [of_Z 1; of_Z 1] [of_Z 3; of_Z 5] = Fatal.
Proof. vm_compute. auto. Qed.

(** ** C10 Lagrange coefficients *)

Theorem c10_coefficients : forall deg x t lambda p,
  length x = (deg + 1)%nat -> length lambda = (deg + 1)%nat -> NoDup x -> (length p <= deg + 1)%nat ->
  exists l, GetLagrangeCoefficients deg x t lambda = Ret l /\ length l = (deg + 1)%nat /\
    dot l (map (peval p) x) = peval p t.
Proof. exact GetLagrangeCoefficients_apply. Qed.
Print Assumptions c10_coefficients.

Theorem c10_unit : forall deg x k lambda,
  length x = (deg + 1)%nat -> length lambda = (deg + 1)%nat -> NoDup x -> (k <= deg)%nat ->
  exists l, GetLagrangeCoefficients deg x (nth k x 0) lambda = Ret l /\ length l = (deg + 1)%nat /\
    forall i, (i <= deg)%nat -> nth i l 0 = if (i =? k)%nat then 1 else 0.
Proof. exact GetLagrangeCoefficients_unit. Qed.
Print Assumptions c10_unit.

(** The table of a party: row k turns the values at 1..2F+1 into the value at k. *)
Theorem c10_table : forall N F p k, (Z.of_nat (2 * F + 2) <= r)%Z -> (length p <= 2 * F + 1)%nat ->
  (k <= N)%nat ->
  exists tab row, LagrangeTable N F = Ret tab /\ length tab = (N + 1)%nat /\
    nth_error tab k = Some row /\ length row = (2 * F + 1)%nat /\
    dot row (map (fun i => peval p (of_nat i)) (seq 1 (2 * F + 1))) = peval p (of_nat k).
Proof.
  intros N F p k Hr Lp Hk. eexists. eexists. split; [apply LagrangeTable_correct|].
  split; [rewrite map_length, seq_length; reflexivity|].
  split.
  { rewrite nth_error_map, (nth_error_nth' (seq 0 (N + 1)) O) by (rewrite seq_length; lia).
    rewrite seq_nth by lia. reflexivity. }
  split; [rewrite map_length, seq_length; reflexivity|].
  destruct (GetLagrangeCoefficients_apply (2 * F) (knownIndices F) (of_nat (0 + k)) (repeat 0 (2 * F + 1)) p)
    as (l & E & _ & D).
  - apply knownIndices_length.
  - apply repeat_length.
  - apply knownIndices_NoDup. exact Hr.
  - exact Lp.
  - rewrite GetLagrangeCoefficients_correct in E by (try apply knownIndices_length; apply repeat_length).
    injection E as <-. rewrite knownIndices_eq, map_map in D. rewrite <- knownIndices_eq in D. exact D.
Qed.
Print Assumptions c10_table.

(** Equal indexes do not stop the process; the coefficients are wrong. *)
Theorem c10_duplicates_refuted : exists deg x t lambda l p,
  length x = (deg + 1)%nat /\ length lambda = (deg + 1)%nat /\ (length p <= deg + 1)%nat /\
  GetLagrangeCoefficients deg x t lambda = Ret l /\ dot l (map (peval p) x) <> peval p t.
Proof.
  exists 1%nat, [of_Z 1; of_Z 1], (of_Z 3), [0; 0], [0; 0], [of_Z 5].
  split; [reflexivity|]. split; [reflexivity|]. split; [simpl; lia|]. split; [vm_compute; reflexivity|].
  intros E. apply (f_equal fv) in E. vm_compute in E. discriminate.
Qed.
Print Assumptions c10_duplicates_refuted.

Example c10_example :
  GetLagrangeCoefficients 1 [of_Z 1; of_Z 2] (of_Z 3) [0; 0] = Ret [of_Z (r - 1); of_Z 2].
Proof. vm_compute. reflexivity. Qed.

(** ** C11 Interpolation in the exponent *)

(** Commitments of the sections B(., 1), ..., B(., d+1) give the commitment of B(., t). *)
Theorem c11_commitments : forall s n ks F N tab dx d B t,
  setup s n = Ret ks -> LagrangeTable N F = Ret tab -> (3 * F + 1 <= N)%nat ->
  bdeg dx d B -> (S dx <= n)%nat -> (Z.of_nat (d + 2) <= r)%Z ->
  exists Cs C,
    gofold (fun acc j => c <- CommitToPoly ks (secy B (of_nat j)) ;; Ret (acc ++ [c])) (seq 1 (d + 1)) [] = Ret Cs /\
    CommitToPoly ks (secy B (of_nat t)) = Ret C /\
    InterpolateComOrWit F tab d t Cs = Ret C.
Proof.
  intros s n ks F N tab dx d B t HS HT HN HB Hn Hr.
  assert (G : forall l acc, gofold (fun acc j => c <- CommitToPoly ks (secy B (of_nat j)) ;; Ret (acc ++ [c])) l acc =
     Ret (acc ++ map (fun j => mkG1 (peval (secx B s) (of_nat j))) l)).
  { induction l as [|j l IH]; intros acc; cbn [gofold map].
    - rewrite app_nil_r. reflexivity.
    - rewrite (commit_section s n ks dx d) by assumption. cbn [bind]. rewrite IH, <- app_assoc. reflexivity. }
  eexists. eexists. split; [apply G|]. split; [apply (commit_section s n ks dx d); assumption|].
  cbn [app]. apply (InterpolateComOrWit_correct F tab N); auto.
  rewrite length_secx. destruct HB. lia.
Qed.
Print Assumptions c11_commitments.

(** The same for witnesses at a fixed point x. *)
Theorem c11_witnesses : forall s n ks F N tab dx d B t x,
  setup s n = Ret ks -> LagrangeTable N F = Ret tab -> (3 * F + 1 <= N)%nat ->
  bdeg dx d B -> (S dx <= n)%nat -> (Z.of_nat (d + 2) <= r)%Z ->
  exists Ws W,
    gofold (fun acc j => w <- ComputeProofSingle ks (secy B (of_nat j)) x ;; Ret (acc ++ [w])) (seq 1 (d + 1)) [] = Ret Ws /\
    ComputeProofSingle ks (secy B (of_nat t)) x = Ret W /\
    InterpolateComOrWit F tab d t Ws = Ret W.
Proof.
  intros s n ks F N tab dx d B t x HS HT HN HB Hn Hr.
  set (c := map (fun row => peval (fst (sdiv row x)) s) B).
  assert (G : forall l acc, gofold (fun acc j => w <- ComputeProofSingle ks (secy B (of_nat j)) x ;; Ret (acc ++ [w])) l acc =
     Ret (acc ++ map (fun j => mkG1 (peval c (of_nat j))) l)).
  { induction l as [|j l IH]; intros acc; cbn [gofold map].
    - rewrite app_nil_r. reflexivity.
    - rewrite (witness_section s n ks dx d) by assumption. cbn [bind]. rewrite IH, <- app_assoc. reflexivity. }
  eexists. eexists. split; [apply G|]. split; [apply (witness_section s n ks dx d); assumption|].
  cbn [app]. apply (InterpolateComOrWit_correct F tab N); auto.
  unfold c. rewrite map_length. destruct HB. lia.
Qed.
Print Assumptions c11_witnesses.

(** With any distinct known indexes. *)
Theorem c11_known_indexes : forall s n ks F N tab dx d B t K,
  setup s n = Ret ks -> LagrangeTable N F = Ret tab -> (3 * F + 1 <= N)%nat ->
  bdeg dx d B -> (S dx <= n)%nat -> (Z.of_nat (d + 2) <= r)%Z ->
  length K = (d + 1)%nat -> NoDup K ->
  exists Cs C,
    gofold (fun acc k => c <- CommitToPoly ks (secy B k) ;; Ret (acc ++ [c])) K [] = Ret Cs /\
    CommitToPoly ks (secy B (of_nat t)) = Ret C /\
    InterpolateComOrWitByKnownIndexes F tab d t K Cs = Ret C.
Proof.
  intros s n ks F N tab dx d B t K HS HT HN HB Hn Hr LK NK.
  assert (G : forall l acc, gofold (fun acc k => c <- CommitToPoly ks (secy B k) ;; Ret (acc ++ [c])) l acc =
     Ret (acc ++ map (fun k => mkG1 (peval (secx B s) k)) l)).
  { induction l as [|j l IH]; intros acc; cbn [gofold map].
    - rewrite app_nil_r. reflexivity.
    - rewrite (commit_section s n ks dx d) by assumption. cbn [bind]. rewrite IH, <- app_assoc. reflexivity. }
  eexists. eexists. split; [apply G|]. split; [apply (commit_section s n ks dx d); assumption|].
  cbn [app]. apply (InterpolateByKnownIndexes_correct F tab N); auto.
  rewrite length_secx. destruct HB. lia.
Qed.
Print Assumptions c11_known_indexes.

(** F = 0: B = 7 + 2x + y (of degree 0 in y after dropping y): commitments to B(., 1) give B(., 5). *)
Example c11_example :
  let B := [[of_Z 7; of_Z 2]] in
  bdeg 1 0 B /\
  match setup (of_Z 3) 2, LagrangeTable 1 0 with
  | Ret ks, Ret tab =>
    match CommitToPoly ks (secy B (of_nat 1)) with
    | Ret C => InterpolateComOrWit 0 tab 0 5 [C] = Ret (mkG1 (of_Z 13))
    | _ => False
    end
  | _, _ => False
  end.
Proof.
  split; [split; [reflexivity|repeat constructor]|]. vm_compute. reflexivity.
Qed.

(** ** C12 Long division *)

Theorem c12_long_division : forall dividend divisor, divisor <> [] ->
  nth (length divisor - 1) divisor 0 <> 0 -> (length divisor <= length dividend + 1)%nat ->
  exists q rem, polyLongDiv dividend divisor = Ret q /\
    length q = (length dividend + 1 - length divisor)%nat /\
    (length rem < length divisor)%nat /\
    (forall i, nth i dividend 0 = sumn (S i) (fun j => nth j divisor 0 * nth (i - j) q 0) + nth i rem 0) /\
    forall x, peval dividend x = peval divisor x * peval q x + peval rem x.
Proof.
  intros a b H1 H2 H3. destruct (polyLongDiv_correct a b H1 H2 H3) as (q & rem & E & L & LR & H).
  exists q, rem. repeat split; auto.
  - intros i. rewrite H, nth_pmul. reflexivity.
  - intros x. rewrite <- peval_pmul, <- peval_padd. apply peval_ext. intros i. rewrite nth_padd. apply H.
Qed.
Print Assumptions c12_long_division.

(** Shorter dividends: by one the quotient is empty, by more the code panics. *)
Theorem c12_short : forall dividend divisor, (length dividend + 1 < length divisor)%nat ->
  polyLongDiv dividend divisor = Panic.
Proof.
  intros a b H. unfold polyLongDiv. destruct (Nat.eqb_spec (length b) 0); [reflexivity|].
  rewrite (proj2 (Nat.ltb_lt _ _)) by exact H. reflexivity.
Qed.
Print Assumptions c12_short.

Example c12_example :
  polyLongDiv [of_Z 7; of_Z 5; of_Z 2] [of_Z 1; of_Z 2] = Ret [of_Z 2; of_Z 1].
Proof. vm_compute. reflexivity. Qed.

(** ** C13 KZG completeness *)

Theorem c13_complete : forall s n ks p x, setup s n = Ret ks ->
  (2 <= n)%nat -> p <> [] -> (length p <= n)%nat ->
  exists C w, CommitToPoly ks p = Ret C /\ ComputeProofSingle ks p x = Ret w /\
    CheckProofSingle ks C w x (EvalPolyAt p x) = Ret true.
Proof.
  intros s n ks p x HS Hn Hp HL. rewrite EvalPolyAt_correct.
  exact (kzg_complete s n ks HS p x Hn Hp HL).
Qed.
Print Assumptions c13_complete.

Theorem c13_unoptimized : forall s n ks p, setup s n = Ret ks ->
  CommitToPolyUnoptimized ks p = CommitToPoly ks p.
Proof. exact (fun s n ks p HS => commit_unopt s n ks HS p). Qed.
Print Assumptions c13_unoptimized.

(** Only the true value is accepted with an honest proof. *)
Theorem c13_exact : forall s n ks p x y C w, setup s n = Ret ks ->
  (2 <= n)%nat -> p <> [] -> (length p <= n)%nat ->
  CommitToPoly ks p = Ret C -> ComputeProofSingle ks p x = Ret w ->
  CheckProofSingle ks C w x y = Ret true -> y = EvalPolyAt p x.
Proof.
  intros s n ks p x y C w HS Hn Hp HL HC HW H.
  destruct (kzg_complete s n ks HS p x Hn Hp HL) as (C' & w' & EC & EW & H').
  rewrite HC in EC. injection EC as <-. rewrite HW in EW. injection EW as <-.
  apply (check_iff s n ks HS) in H; [|exact Hn]. apply (check_iff s n ks HS) in H'; [|exact Hn].
  rewrite <- H' in H. rewrite EvalPolyAt_correct. apply (proj1 (fsub_eq_0 _ _)).
  replace (y - peval p x) with ((dlog1 C - peval p x) - (dlog1 C - y)) by ring. rewrite H. ring.
Qed.
Print Assumptions c13_exact.

(** With F = 0 the settings of a party have one element and every check panics. *)
Theorem c13_single_party_refuted : exists F ks, party_setup F = Ret ks /\
  forall C w x y, CheckProofSingle ks C w x y = Panic.
Proof.
  exists O. eexists. split; [unfold party_setup; apply setup_correct|].
  intros C w x y. apply (check_small party_secret 1); [apply setup_correct|lia].
Qed.
Print Assumptions c13_single_party_refuted.

Example c13_example :
  match setup (of_Z 5) 3 with
  | Ret ks =>
    match CommitToPoly ks [of_Z 1; of_Z 2; of_Z 3], ComputeProofSingle ks [of_Z 1; of_Z 2; of_Z 3] (of_Z 2) with
    | Ret C, Ret w => C = mkG1 (of_Z 86) /\ w = mkG1 (of_Z 23) /\
                      CheckProofSingle ks C w (of_Z 2) (of_Z 17) = Ret true /\
                      CheckProofSingle ks C w (of_Z 2) (of_Z 18) = Ret false
    | _, _ => False
    end
  | _ => False
  end.
Proof. vm_compute. auto. Qed.

(** ** C14 Homomorphism *)

Theorem c14_commit : forall s n ks a p b q, setup s n = Ret ks ->
  (length p <= n)%nat -> (length q <= n)%nat ->
  exists Cp Cq, CommitToPoly ks p = Ret Cp /\ CommitToPoly ks q = Ret Cq /\
    CommitToPoly ks (padd (pscale a p) (pscale b q)) = Ret (AddG1 (MulG1 Cp a) (MulG1 Cq b)).
Proof. exact (fun s n ks a p b q HS => commit_linear s n ks HS a p b q). Qed.
Print Assumptions c14_commit.

Theorem c14_proof : forall s n ks a p b q x, setup s n = Ret ks ->
  p <> [] -> length p = length q -> (length p <= n)%nat ->
  exists wp wq, ComputeProofSingle ks p x = Ret wp /\ ComputeProofSingle ks q x = Ret wq /\
    ComputeProofSingle ks (padd (pscale a p) (pscale b q)) x = Ret (AddG1 (MulG1 wp a) (MulG1 wq b)).
Proof. exact (fun s n ks a p b q x HS => proof_linear s n ks HS a p b q x). Qed.
Print Assumptions c14_proof.

(** Any accepted openings combine. *)
Theorem c14_check : forall s n ks C1 w1 y1 C2 w2 y2 a b x, setup s n = Ret ks -> (2 <= n)%nat ->
  CheckProofSingle ks C1 w1 x y1 = Ret true -> CheckProofSingle ks C2 w2 x y2 = Ret true ->
  CheckProofSingle ks (AddG1 (MulG1 C1 a) (MulG1 C2 b)) (AddG1 (MulG1 w1 a) (MulG1 w2 b)) x
    (y1 * a + y2 * b) = Ret true.
Proof. exact (fun s n ks C1 w1 y1 C2 w2 y2 a b x HS => check_linear s n ks HS C1 w1 y1 C2 w2 y2 a b x). Qed.
Print Assumptions c14_check.

Example c14_example :
  match setup (of_Z 5) 2 with
  | Ret ks => CommitToPoly ks (padd (pscale (of_Z 2) [of_Z 1; of_Z 2]) (pscale (of_Z 3) [of_Z 4; of_Z 0]))
              = Ret (mkG1 (of_Z 34))
  | _ => False
  end.
Proof. vm_compute. reflexivity. Qed.

(** ** C15 Binding *)

(** Two openings to different values yield g^(1/(s-x)) by group operations (the strong
    Diffie-Hellman problem of the setup is solved). *)
Theorem c15_binding : forall s n ks C w1 w2 x y1 y2, setup s n = Ret ks -> (2 <= n)%nat ->
  CheckProofSingle ks C w1 x y1 = Ret true -> CheckProofSingle ks C w2 x y2 = Ret true ->
  y1 <> y2 -> s <> x /\ MulG1 (SubG1 w1 w2) (finv (y2 - y1)) = MulG1 GenG1 (finv (s - x)).
Proof. exact (fun s n ks C w1 w2 x y1 y2 HS => binding s n ks HS C w1 w2 x y1 y2). Qed.
Print Assumptions c15_binding.

(** If the prover made commitment and proof from polynomials it knows, a wrong value gives a
    non-zero polynomial, computed from what the prover knows, with the secret as a root. *)
Theorem c15_binding_polynomials : forall s n ks p q x y C w, setup s n = Ret ks ->
  (2 <= n)%nat -> (Z.of_nat n < r)%Z -> (length p <= n)%nat -> (length q <= n)%nat ->
  CommitToPoly ks p = Ret C -> CommitToPoly ks q = Ret w ->
  CheckProofSingle ks C w x y = Ret true -> y <> peval p x ->
  let f := psub (psub p [y]) (pmul [0 - x; 1] q) in
  peval f s = 0 /\ ~ zero_list f /\ (length f <= n + 1)%nat.
Proof. exact (fun s n ks p q x y C w HS => binding_poly s n ks HS p q x y C w). Qed.
Print Assumptions c15_binding_polynomials.

(** For every commitment, point and value there is exactly one accepted proof. *)
Theorem c15_unique_proof : forall s n ks C x y w, setup s n = Ret ks -> (2 <= n)%nat -> x <> s ->
  (CheckProofSingle ks C w x y = Ret true <-> w = MulG1 (SubG1 C (MulG1 GenG1 y)) (finv (s - x))).
Proof. exact (fun s n ks C x y w HS => forge s n ks HS C x y w). Qed.
Print Assumptions c15_unique_proof.

Example c15_example_setup : forall F, exists ks, party_setup F = Ret ks.
Proof. intros F. eexists. apply setup_correct. Qed.

(** With the secret in the program text everybody computes it: any commitment opens to any value
    at any point other than the secret, in the settings every party uses. *)
Theorem c15_fixed_secret_forgery : forall F ks C x y, (1 <= F)%nat -> party_setup F = Ret ks ->
  x <> party_secret ->
  CheckProofSingle ks C (MulG1 (SubG1 C (MulG1 GenG1 y)) (finv (party_secret - x))) x y = Ret true.
Proof.
  intros F ks C x y HF HS Hx.
  apply (proj2 (forge party_secret (F + 1) ks HS C x y _ ltac:(lia) Hx)). reflexivity.
Qed.
Print Assumptions c15_fixed_secret_forgery.

Theorem c15_fixed_secret_refuted : exists F ks C x y1 y2 w1 w2, party_setup F = Ret ks /\
  y1 <> y2 /\ CheckProofSingle ks C w1 x y1 = Ret true /\ CheckProofSingle ks C w2 x y2 = Ret true.
Proof.
  assert (D : 0 <> party_secret).
  { intros E. apply (f_equal fv) in E. vm_compute in E. discriminate. }
  destruct (c15_example_setup 1) as (ks & E).
  exists 1%nat, ks, GenG1, 0, 0, 1. eexists. eexists. split; [exact E|].
  split; [intros H; exact (f1_neq_0 (eq_sym H))|].
  split; apply (c15_fixed_secret_forgery 1 ks); auto.
Qed.
Print Assumptions c15_fixed_secret_refuted.

Example c15_example :
  match setup (of_Z 5) 2 with
  | Ret ks => let C := mkG1 (of_Z 11) in (* commits to 1 + 2X, value 3 at 1 *)
              CheckProofSingle ks C (mkG1 (of_Z 2)) (of_Z 1) (of_Z 3) = Ret true /\
              CheckProofSingle ks C (mkG1 (of_Z 1)) (of_Z 1) (of_Z 7) = Ret true
  | _ => False
  end.
Proof. vm_compute. auto. Qed.

(** ** C47 Padding *)

Theorem c47_pad : forall p w, (length p <= w)%nat ->
  exists q, PadCoeff p w = Ret q /\ length q = w /\ forall x, peval q x = peval p x.
Proof.
  intros p w H. eexists. split; [apply PadCoeff_correct; exact H|]. split.
  - rewrite app_length, repeat_length. lia.
  - intros x. rewrite peval_app, peval_repeat0. ring.
Qed.
Print Assumptions c47_pad.

Theorem c47_pad_too_long : forall p w, (w < length p)%nat -> PadCoeff p w = Fatal.
Proof. intros p w H. unfold PadCoeff. rewrite (proj2 (Nat.ltb_lt _ _)) by exact H. reflexivity. Qed.
Print Assumptions c47_pad_too_long.

Example c47_example : PadCoeff [of_Z 4; of_Z 5] 4 = Ret [of_Z 4; of_Z 5; 0; 0].
Proof. vm_compute. reflexivity. Qed.
