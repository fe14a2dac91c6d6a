(** Model of the older sample recovery, /repo/internal/polycommit/legacy_recovery.go (multiInv, pOfKX and
    inefficientOddEvenDiv2 are in SampleModel.v).

    Simplification: lengths, positions and strides are naturals (uint64 in the code). *)

Require Import ZArith List Bool Arith.
From Verif Require Import Prime Fr CodecModel GoBase GroupModel VssModel FftModel SampleModel.
Import ListNotations.
Local Open Scope F_scope.

(** legacy_recovery.go:14-50 [mulPolysWithFFT]: the product in the evaluations at the roots of unity, not divided by
    their number.  A division by the stride 0 and an operand longer than the transform are run-time panics. *)
Definition mulPolysWithFFT (fs : FFTSettings) (a b : list Fr) (stride : nat) : go (list Fr) :=
  if (stride =? 0)%nat then Panic
  else
    let size := (MaxWidth fs / stride)%nat in
    if (size <? length a)%nat || (size <? length b)%nat then Panic
    else
      let aVals := a ++ repeat 0 (size - length a) in
      let bVals := b ++ repeat 0 (size - length b) in
      rootz <- slice_to (Expanded fs) (MaxWidth fs) ;;
      x1 <- fft_rec (S size) aVals 0 1 rootz stride size ;;
      x2 <- fft_rec (S size) bVals 0 1 rootz stride size ;;
      x <- gomap (fun i => u <- idx x1 i ;; v <- idx x2 i ;; Ret (u * v)) (seq 0 (length x1)) ;;
      revRootz <- slice_to (Reverse fs) (MaxWidth fs) ;;
      fft_rec (S size) x 0 1 revRootz stride size.

(** legacy_recovery.go:115-123: one position of the naive product; [i] is the number of factors with this one, [root] the
    coefficients from the highest one down. *)
Definition naive_step (fs : FFTSettings) (stride : nat) (root : list Fr) (ip : nat * nat) : go (list Fr) :=
  let (i, pos) := ip in
  x <- idx (Expanded fs) (pos * stride) ;;
  root <- upd root i 0 ;;
  gofold (fun root j =>
    a <- idx root (j - 1) ;;
    b <- idx root j ;;
    upd root j (b - a * x)) (rev (seq 1 i)) root.

(** legacy_recovery.go:97-160 [_zPoly].  [fuel]: depth of the recursion; for different positions it is not used up when it is
    more than the number of bits of a position (for five equal positions the code does not return). *)
Fixpoint zPoly (fuel : nat) (fs : FFTSettings) (positions : list nat) (stride : nat) : go (list Fr) :=
  match fuel with
  | O => Panic
  | S fuel =>
    if (length positions <=? 4)%nat then
      root <- gofold (naive_step fs stride) (combine (seq 1 (length positions)) positions)
                (1 :: repeat 0 (length positions)) ;;
      Ret (rev root)
    else
      let (even, odd) := inefficientOddEvenDiv2 positions in
      left <- zPoly fuel fs even (stride * 2) ;;
      right <- zPoly fuel fs odd (stride * 2) ;;
      invRoot <- idx (Reverse fs) stride ;;
      out <- mulPolysWithFFT fs left (pOfKX right invRoot) stride ;;
      if forallb (fun a => feqb a 0) out then
        out <- upd out 0 1 ;;
        Ret (1 :: repeat 0 (length out - 1) ++ [fopp 1])
      else Ret out
  end.

(** legacy_recovery.go:245-256: p(x) from p(kx); [invk] is 1/k. *)
Definition unscale (invk : Fr) (l : list Fr) : list Fr :=
  match l with [] => [] | a :: l' => a :: scale_powers invk invk l' end.

(** legacy_recovery.go:263-273: the output agrees with the samples; the first disagreement ends the loop. *)
Fixpoint matches (vals : list (option Fr)) (i : nat) (output : list Fr) : go bool :=
  match vals with
  | [] => Ret true
  | None :: vs => matches vs (S i) output
  | Some v :: vs => o <- idx output i ;; if feqb v o then matches vs (S i) output else Ret false
  end.

(** legacy_recovery.go:206-281: one round of the loop over k: the output if it agrees. *)
Definition attempt (fs : FFTSettings) (vals : list (option Fr)) (z pTimesZ : list Fr) (k : nat) : go (option (list Fr)) :=
  let kFr := of_nat k in
  let invk := finv kFr in
  pTimesZOfKXVals <- FFT fs (pOfKX pTimesZ kFr) false ;;
  zOfKXVals <- FFT fs (pOfKX z kFr) false ;;
  invZ <- multiInv zOfKXVals ;;
  pOfKxVals <- gomap (fun i => a <- idx pTimesZOfKXVals i ;; b <- idx invZ i ;; Ret (a * b)) (seq 0 (length pTimesZOfKXVals)) ;;
  pOfKx <- FFT fs pOfKxVals true ;;
  output <- FFT fs (unscale invk pOfKx) false ;;
  ok <- matches vals 0 output ;;
  Ret (if ok then Some output else None).

(** legacy_recovery.go:204-286: k = 2, 3, ..., at most 10 attempts (163). *)
Fixpoint attempts (fs : FFTSettings) (vals : list (option Fr)) (z pTimesZ : list Fr) (ks : list nat) : go (list Fr) :=
  match ks with
  | [] => Error
  | k :: ks =>
    o <- attempt fs vals z pTimesZ k ;;
    match o with Some out => Ret out | None => attempts fs vals z pTimesZ ks end
  end.

(** legacy_recovery.go:165-287 [ErasureCodeRecover]; a nil in vals is [None].  A division by the length 0 is a run-time
    panic. *)
Definition ErasureCodeRecover (fs : FFTSettings) (vals : list (option Fr)) : go (list Fr) :=
  let n := length vals in
  if (n =? 0)%nat then Panic
  else
    z <- zPoly (S n) fs (missing_of vals) (MaxWidth fs / n) ;;
    zVals <- FFT fs z false ;;
    pTimesZVals <- gomap (fun i =>
      match nth i vals None with
      | None => Ret 0
      | Some v => e <- idx zVals i ;; Ret (v * e)
      end) (seq 0 n) ;;
    pTimesZ <- FFT fs pTimesZVals true ;;
    attempts fs vals z pTimesZ (seq 2 10).
