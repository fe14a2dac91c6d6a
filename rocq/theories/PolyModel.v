(** Model of the polynomial arithmetic: evaluation, linear factors, Lagrange interpolation,
    Lagrange coefficients, long division, padding.

    Coefficient slices are lists, lowest coefficient first; Go ints and uint32/uint64 loop
    counters are naturals (no wrap-around: the lengths are those of slices in memory). *)

Require Import ZArith List Bool Arith.
From Verif Require Import Prime Fr CodecModel GoBase.
Import ListNotations.
Local Open Scope F_scope.

(** /repo/internal/bls/globals.go:79-98 [EvalPolyAtUnoptimized], called by [EvalPolyAt]
    (bignum_kilic.go:128-131).  The loop runs over the coefficients len-2, ..., 0. *)
Definition EvalPolyAt (coeffs : list Fr) (x : Fr) : Fr :=
  match coeffs with
  | [] => 0
  | c0 :: _ =>
    if feqb x 0 then c0
    else loop_down 0 (length coeffs - 1) (fun last i => last * x + nth i coeffs 0)
           (nth (length coeffs - 1) coeffs 0)
  end.

(** /repo/internal/polyring/interpolation.go:63-79 [mulPolyDegreeOne]; [factor] has
    length 2 at both call sites. *)
Definition mulPolyDegreeOne (poly factor : list Fr) : go (list Fr) :=
  if negb (length factor =? 2)%nat then Fatal
  else
    let ans := repeat 0 (length poly + 1) in
    let ans := loop 0 (length poly)
      (fun ans i => set_nth i (nth i poly 0 * nth 0 factor 0) ans) ans in
    let ans := loop 0 (length poly)
      (fun ans i => set_nth (i + 1) (nth (i + 1) ans 0 + nth i poly 0 * nth 1 factor 0) ans) ans in
    Ret ans.

(** /repo/internal/polyring/interpolation.go:81-107 [divPolyDegreeOne]; state (ans, inter).
    An empty [op1] makes a slice of negative length: panic. *)
Definition divPolyDegreeOne (op1 op2 : list Fr) : go (list Fr) :=
  if negb (length op2 =? 2)%nat then Fatal
  else if negb (feqb 1 (nth 1 op2 0)) then Fatal
  else if (length op1 =? 0)%nat then Panic
  else
    let deg1 := (length op1 - 1)%nat in
    let st := loop_down 1 deg1
      (fun st i =>
         let ans := set_nth (i - 1) (nth i (snd st) 0) (fst st) in
         let tmp := nth (i - 1) ans 0 * nth 0 op2 0 in
         (ans, set_nth (i - 1) (nth (i - 1) (snd st) 0 - tmp) (snd st)))
      (repeat 0 deg1, op1) in
    Ret (fst st).

(** /repo/internal/polyring/interpolation.go:9-61 [LagrangeInterpolate]. *)
Definition LagrangeInterpolate (degree : nat) (x y : list Fr) : go (list Fr) :=
  product <- goloop 0 (degree + 1)
    (fun product i => xi <- idx x i ;; mulPolyDegreeOne product [0 - xi; 1]) [1] ;;
  goloop 0 (degree + 1)
    (fun resultPoly i =>
       xi <- idx x i ;;
       inter <- divPolyDegreeOne product [0 - xi; 1] ;;
       let denominator := EvalPolyAt inter xi in
       if feqb denominator 0 then Fatal
       else
         yi <- idx y i ;;
         let denominator := finv denominator * yi in
         Ret (loop 0 (length inter)
                (fun res j => set_nth j (nth j res 0 + nth j inter 0 * denominator) res) resultPoly))
    (repeat 0 (degree + 1)).

(** /repo/internal/party/party_utils.go:176-199 [GetLagrangeCoefficients]; [lambda] is the
    slice allocated by the caller, the result its content afterwards. *)
Definition GetLagrangeCoefficients (deg : nat) (x : list Fr) (targetIndex : Fr)
    (lambda : list Fr) : go (list Fr) :=
  if negb (length x =? deg + 1)%nat then Panic
  else
    goloop 0 (deg + 1)
      (fun lambda i =>
         let res := loop 0 (deg + 1)
           (fun res j =>
              if (j =? i)%nat then res
              else finv (nth i x 0 - nth j x 0) * (res * (targetIndex - nth j x 0))) 1 in
         upd lambda i res)
      lambda.

(** /repo/internal/party/party.go:142-153: the table of coefficients for the known indexes
    1..2F+1 and the targets 0..N. *)
Definition knownIndices (F : nat) : list Fr := map (fun i => of_nat (i + 1)) (seq 0 (2 * F + 1)).

(** /repo/internal/party/party.go:142-153. *)
Definition LagrangeTable (N F : nat) : go (list (list Fr)) :=
  goloop 0 (N + 1)
    (fun tab i =>
       row <- GetLagrangeCoefficients (2 * F) (knownIndices F) (of_nat i) (repeat 0 (2 * F + 1)) ;;
       Ret (tab ++ [row])) [].

(** /repo/internal/polycommit/poly.go:9-14 [polyFactorDiv]. *)
Definition polyFactorDiv (a b : Fr) : Fr := finv b * a.

(** /repo/internal/polycommit/poly.go:17-43 [polyLongDiv]; state (out, a).  [diff] runs from
    len(dividend)-len(divisor) down to 0 and aPos = diff + bPos.  With an empty divisor the
    index -1 panics; a dividend shorter by more than one gives a slice of negative length. *)
Definition polyLongDiv (dividend divisor : list Fr) : go (list Fr) :=
  if (length divisor =? 0)%nat then Panic
  else if (length dividend + 1 <? length divisor)%nat then Panic
  else
    let bPos := (length divisor - 1)%nat in
    let n := (length dividend + 1 - length divisor)%nat in
    let st := loop_down 0 n
      (fun st diff =>
         let quot := polyFactorDiv (nth (diff + bPos) (snd st) 0) (nth bPos divisor 0) in
         (set_nth diff quot (fst st),
          loop_down 0 (bPos + 1)
            (fun a i => set_nth (diff + i) (nth (diff + i) a 0 - quot * nth i divisor 0) a) (snd st)))
      (repeat 0 n, dividend) in
    Ret (fst st).

(** /repo/internal/party/party_utils.go:159-172 [PadCoeff]. *)
Definition PadCoeff (poly_coeff : list Fr) (MaxWidth : nat) : go (list Fr) :=
  let n := length poly_coeff in
  if (MaxWidth <? n)%nat then Fatal
  else
    let ans := repeat 0 MaxWidth in
    let ans := loop 0 n (fun ans i => set_nth i (nth i poly_coeff 0) ans) ans in
    Ret (loop n (MaxWidth - n) (fun ans i => set_nth i 0 ans) ans).

(** /repo/internal/bls/globals.go:183-197 [LinCombFr]. *)
Definition LinCombFr (numbers factors : list Fr) : go Fr :=
  if negb (length numbers =? length factors)%nat then Panic
  else Ret (loop 0 (length numbers) (fun out i => nth i numbers 0 * nth i factors 0 + out) 0).

(** /repo/internal/bls/globals.go:158-181 [PolyLinComb]. *)
Definition PolyLinComb (vectors : list (list Fr)) (scalars : list Fr) (polyDegree : nat)
    : go (list Fr) :=
  if (length vectors =? 0)%nat then Ret (repeat 0 polyDegree)
  else if negb (length scalars =? length vectors)%nat then Error
  else
    goloop 0 (length vectors)
      (fun res j =>
         let v := nth j vectors [] in
         if negb (length v =? polyDegree)%nat then Error
         else Ret (loop 0 (length v)
                    (fun res i => set_nth i (nth i res 0 + nth j scalars 0 * nth i v 0) res) res))
      (repeat 0 polyDegree).
