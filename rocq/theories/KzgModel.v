(** Model of the KZG commitments (/repo/internal/polycommit) and of the interpolation of
    commitments in the exponent (/repo/internal/party/party_utils.go). *)

Require Import ZArith List Bool Arith.
From Verif Require Import Prime Fr CodecModel GoBase PolyModel GroupModel.
Import ListNotations.
Local Open Scope F_scope.

(** kzg.go:13-21 [KZGSettings], without the FFT settings (nil in the party code). *)
Record KZGSettings : Type := mkKZG { SecretG1 : list G1; SecretG2 : list G2 }.

(** setup.go:12-29 [GenerateTestingSetup]; state (s1Out, s2Out, sPow).  The secret is given as
    a scalar instead of its decimal string. *)
Definition GenerateTestingSetup (s : Fr) (n : nat) : list G1 * list G2 :=
  fst (loop 0 n
    (fun st i => let '(o1, o2, sPow) := st in
       (set_nth i (MulG1 GenG1 sPow) o1, set_nth i (MulG2 GenG2 sPow) o2, sPow * s))
    (repeat ZeroG1 n, repeat ZeroG2 n, 1)).

(** kzg.go:23-38 [NewKZGSettings]. *)
Definition NewKZGSettings (s1 : list G1) (s2 : list G2) : go KZGSettings :=
  if negb (length s1 =? length s2)%nat then Panic else Ret (mkKZG s1 s2).

(** The settings of a party, party.go:127-128: setup of size F+1. *)
Definition party_secret : Fr :=
  of_Z 46015081477078601964787943834255776126696019968430095991502055467779756761969.
(** polycommit.GenerateTestingSetup and NewKZGSettings (kzg.go:23-37), as called at party.go:127-128. *)
Definition setup (s : Fr) (n : nat) : go KZGSettings :=
  let o := GenerateTestingSetup s n in NewKZGSettings (fst o) (snd o).
(** party.go:127-128. *)
Definition party_setup (F : nat) : go KZGSettings := setup party_secret (F + 1).

(** kzg_single_proofs.go:16-18 [CommitToEvalPoly]. *)
Definition CommitToEvalPoly (secretG1IFFT : list G1) (eval : list Fr) : go G1 := LinCombG1 secretG1IFFT eval.

(** kzg_single_proofs.go:21-23 [CommitToPoly]. *)
Definition CommitToPoly (ks : KZGSettings) (coeffs : list Fr) : go G1 :=
  s <- slice_to (SecretG1 ks) (length coeffs) ;; LinCombG1 s coeffs.

(** kzg_single_proofs.go:26-37 [CommitToPolyUnoptimized]. *)
Definition CommitToPolyUnoptimized (ks : KZGSettings) (coeffs : list Fr) : go G1 :=
  goloop 0 (length coeffs)
    (fun out i => g <- idx (SecretG1 ks) i ;; Ret (AddG1 out (MulG1 g (nth i coeffs 0)))) ZeroG1.

(** kzg_single_proofs.go:40-58 [ComputeProofSingle]. *)
Definition ComputeProofSingle (ks : KZGSettings) (poly : list Fr) (x : Fr) : go G1 :=
  q <- polyLongDiv poly [0 - x; 1] ;;
  s <- slice_to (SecretG1 ks) (length q) ;;
  LinCombG1 s q.

(** kzg_single_proofs.go:61-79 [CheckProofSingle]. *)
Definition CheckProofSingle (ks : KZGSettings) (commitment proof : G1) (x y : Fr) : go bool :=
  let xG2 := MulG2 GenG2 x in
  s2 <- idx (SecretG2 ks) 1 ;;
  let sMinuxX := SubG2 s2 xG2 in
  let yG1 := MulG1 GenG1 y in
  let commitmentMinusY := SubG1 commitment yG1 in
  Ret (PairingsVerify commitmentMinusY GenG2 proof sMinuxX).

(** kzg_multi_proofs.go:17-47 [ComputeProofMulti]: the running power [xPowN] is a zero value,
    as in the code. *)
Definition ComputeProofMulti (ks : KZGSettings) (poly : list Fr) (x : Fr) (n : nat) : go G1 :=
  let divisor := repeat 0 (n + 1) in
  let xPowN := loop 0 n (fun xPowN _ => xPowN * x) 0 in
  let divisor := set_nth 0 (0 - xPowN) divisor in
  let divisor := loop 1 (n - 1) (fun d i => set_nth i 0 d) divisor in
  let divisor := set_nth n 1 divisor in
  q <- polyLongDiv poly divisor ;;
  s <- slice_to (SecretG1 ks) (length q) ;;
  LinCombG1 s q.

(** ** Interpolation in the exponent *)

(** party_utils.go:310-336 [InterpolateComOrWit]; [F] and [tab] are the fields F and
    LagrangeCoefficients of the party.  The test [targetIndex >= 0] is always true. *)
Definition copy_into (dst src : list G1) : list G1 :=
  firstn (length dst) src ++ skipn (length src) dst.

(** party_utils.go:310-336 [InterpolateComOrWit]. *)
Definition InterpolateComOrWit (F : nat) (tab : list (list Fr)) (degree targetIndex : nat)
    (List : list G1) : go G1 :=
  let CWList := copy_into (repeat ZeroG1 (degree + 1)) List in
  if ((0 <? targetIndex) && (targetIndex <=? degree + 1))%nat then idx CWList (targetIndex - 1)
  else if ((targetIndex <=? 3 * F + 1) && (degree =? 2 * F))%nat then
    row <- idx tab targetIndex ;; LinCombG1 List row
  else
    let knownIndexes := map (fun j => of_nat (j + 1)) (seq 0 (degree + 1)) in
    lambda <- GetLagrangeCoefficients degree knownIndexes (of_nat targetIndex)
                (repeat 0 (degree + 1)) ;;
    LinCombG1 List lambda.

(** party_utils.go:338-359 [InterpolateComOrWitByKnownIndexes]. *)
Fixpoint is_simple (knownIndexes : list Fr) (i n : nat) : go bool :=
  match n with
  | O => Ret true
  | S m => k <- idx knownIndexes i ;;
           if feqb k (of_nat (i + 1)) then is_simple knownIndexes (i + 1) m else Ret false
  end.

(** party_utils.go:338-359 [InterpolateComOrWitByKnownIndexes]. *)
Definition InterpolateComOrWitByKnownIndexes (F : nat) (tab : list (list Fr))
    (degree targetIndex : nat) (knownIndexes : list Fr) (List : list G1) : go G1 :=
  isSimple <- is_simple knownIndexes 0 (degree + 1) ;;
  if (isSimple : bool) then InterpolateComOrWit F tab degree targetIndex List
  else
    lambda <- GetLagrangeCoefficients degree knownIndexes (of_nat targetIndex)
                (repeat 0 (degree + 1)) ;;
    LinCombG1 List lambda.
