(** Model of the FK20 procedures and of the check of multi-proofs: /repo/internal/polycommit/fk20_single.go, fk20_multi.go,
    kzg.go, kzg_multi_proofs.go.

    The FFT settings and the KZG settings, one embedded in the other in the code, are separate arguments here.
    Simplification: lengths are naturals (uint64 in the code). *)

Require Import ZArith List Bool Arith.
From Verif Require Import Prime Fr CodecModel GoBase PolyModel GroupModel KzgModel VssModel FftModel ReverseModel SampleModel.
Import ListNotations.
Local Open Scope F_scope.

(** ** Toeplitz multiplication *)

(** fk20_single.go:44-60 [toeplitzPart1]. *)
Definition toeplitzPart1 (fs : FFTSettings) (x : list G1) : go (list G1) :=
  must (FFTG1 fs (x ++ repeat ZeroG1 (length x)) false).

(** fk20_single.go:63-81 [ToeplitzPart2]; the transform pads its argument, so its result may be longer than xExtFFT. *)
Definition ToeplitzPart2 (fs : FFTSettings) (toeplitzCoeffs : list Fr) (xExtFFT : list G1) : go (list G1) :=
  if negb (length toeplitzCoeffs =? length xExtFFT)%nat then Panic
  else
    toeplitzCoeffsFFT <- must (FFT fs toeplitzCoeffs false) ;;
    gomap (fun i => x <- idx xExtFFT i ;; c <- idx toeplitzCoeffsFFT i ;; Ret (MulG1 x c)) (seq 0 (length toeplitzCoeffsFFT)).

(** fk20_single.go:84-91 [ToeplitzPart3]. *)
Definition ToeplitzPart3 (fs : FFTSettings) (hExtFFT : list G1) : go (list G1) :=
  out <- must (FFTG1 fs hExtFFT true) ;;
  Ret (firstn (length out / 2) out).

(** fk20_single.go:93-107 [toeplitzCoeffsStepStrided]; the offset is below the stride in all calls.  Division by zero and
    the index n-1-offset below zero are run-time panics. *)
Definition toeplitzCoeffsStepStrided (polynomial : list Fr) (offset stride : nat) : go (list Fr) :=
  let n := length polynomial in
  if (stride =? 0)%nat then Panic
  else
    let k := (n / stride)%nat in
    let k2 := (k * 2)%nat in
    if (n <=? offset)%nat then Panic
    else
      c <- idx polynomial (n - 1 - offset) ;;
      t <- upd (repeat 0 k2) 0 c ;;
      t <- goloop 1 (k + 1) (fun t i => upd t i 0) t ;;
      goloop (k + 2) (k2 - (k + 2)) (fun t i =>
        c <- idx polynomial (2 * stride - offset - 1 + (i - (k + 2)) * stride) ;; upd t i c) t.

(** fk20_single.go:110-123 [toeplitzCoeffsStep]. *)
Definition toeplitzCoeffsStep (polynomial : list Fr) : go (list Fr) :=
  let n := length polynomial in
  let n2 := (n * 2)%nat in
  if (n =? 0)%nat then Panic
  else
    c <- idx polynomial (n - 1) ;;
    t <- upd (repeat 0 n2) 0 c ;;
    t <- goloop 1 (n + 1) (fun t i => upd t i 0) t ;;
    goloop (n + 2) (n2 - (n + 2)) (fun t i => c <- idx polynomial (1 + (i - (n + 2))) ;; upd t i c) t.

(** ** Single proofs *)

(** kzg.go:45-66 [NewFK20SingleSettings]: the field xExtFFT. *)
Definition NewFK20SingleSettings (fs : FFTSettings) (ks : KZGSettings) (n2 : nat) : go (list G1) :=
  if (MaxWidth fs <? n2)%nat then Panic
  else if negb (IsPowerOfTwo (Z.of_nat n2)) then Panic
  else if (n2 <? 2)%nat then Panic
  else
    let n := (n2 / 2)%nat in
    x <- goloop 0 (n - 1) (fun x i => g <- idx (SecretG1 ks) (n - 2 - i) ;; upd x i g) (repeat ZeroG1 n) ;;
    x <- upd x (n - 1) ZeroG1 ;;
    toeplitzPart1 fs x.

(** fk20_single.go:126-138 [FK20Single]. *)
Definition FK20Single (fs : FFTSettings) (xExtFFT : list G1) (polynomial : list Fr) : go (list G1) :=
  toeplitzCoeffs <- toeplitzCoeffsStep polynomial ;;
  hExtFFT <- ToeplitzPart2 fs toeplitzCoeffs xExtFFT ;;
  h <- ToeplitzPart3 fs hExtFFT ;;
  must (FFTG1 fs h false).

(** fk20_single.go:143-176 [FK20SingleDAOptimized].  h[:n2] reuses the array of the transform, which has length n2. *)
Definition FK20SingleDAOptimized (fs : FFTSettings) (xExtFFT : list G1) (polynomial : list Fr) : go (list G1) :=
  let n2 := length polynomial in
  if (MaxWidth fs <? n2)%nat then Panic
  else if negb (IsPowerOfTwo (Z.of_nat n2)) then Panic
  else
    let n := (n2 / 2)%nat in
    if negb (forallb (fun c => feqb c 0) (skipn n polynomial)) then Panic
    else
      toeplitzCoeffs <- toeplitzCoeffsStep (firstn n polynomial) ;;
      hExtFFT <- ToeplitzPart2 fs toeplitzCoeffs xExtFFT ;;
      h <- ToeplitzPart3 fs hExtFFT ;;
      must (FFTG1 fs (h ++ repeat ZeroG1 (n2 - n)) false).

(** fk20_single.go:180-200 [DAUsingFK20]. *)
Definition DAUsingFK20 (fs : FFTSettings) (xExtFFT : list G1) (polynomial : list Fr) : go (list G1) :=
  let n := length polynomial in
  if (MaxWidth fs / 2 <? n)%nat then Panic
  else if negb (IsPowerOfTwo (Z.of_nat n)) then Panic
  else
    allProofs <- FK20SingleDAOptimized fs xExtFFT (polynomial ++ repeat 0 n) ;;
    reverseBitOrderOf allProofs.

(** ** Multi-proofs *)

(** kzg.go:75-118 [NewFK20MultiSettings]: the field xExtFFTFiles.  A start index below zero wraps around in the code; then k
    is 1 and the loop is not entered. *)
Definition NewFK20MultiSettings (fs : FFTSettings) (ks : KZGSettings) (n2 chunkLen : nat) : go (list (list G1)) :=
  if (MaxWidth fs <? n2)%nat then Panic
  else if negb (IsPowerOfTwo (Z.of_nat n2)) then Panic
  else if (n2 <? 2)%nat then Panic
  else if (n2 / 2 <? chunkLen)%nat then Panic
  else if negb (IsPowerOfTwo (Z.of_nat chunkLen)) then Panic
  else if (chunkLen <? 1)%nat then Panic
  else
    let n := (n2 / 2)%nat in
    let k := (n / chunkLen)%nat in
    gomap (fun offset =>
      x <- goloop 0 (k - 1) (fun x i => g <- idx (SecretG1 ks) (n - chunkLen - 1 - offset - i * chunkLen) ;; upd x i g)
             (repeat ZeroG1 k) ;;
      x <- upd x (k - 1) ZeroG1 ;;
      toeplitzPart1 fs x) (seq 0 chunkLen).

(** fk20_multi.go:36-49 and 76-94: the sum of the products of all files; [len] is the length of hExtFFT. *)
Definition sum_files (fs : FFTSettings) (files : list (list G1)) (chunkLen : nat) (polynomial : list Fr) (len : nat) : go (list G1) :=
  goloop 0 chunkLen (fun hExtFFT i =>
    toeplitzCoeffs <- toeplitzCoeffsStepStrided polynomial i chunkLen ;;
    file <- idx files i ;;
    hExtFFTFile <- ToeplitzPart2 fs toeplitzCoeffs file ;;
    gomap (fun j => a <- idx hExtFFT j ;; b <- idx hExtFFTFile j ;; Ret (AddG1 a b)) (seq 0 len)) (repeat ZeroG1 len).

(** fk20_multi.go:28-57 [FK20Multi]. *)
Definition FK20Multi (fs : FFTSettings) (files : list (list G1)) (chunkLen : nat) (polynomial : list Fr) : go (list G1) :=
  let n := length polynomial in
  let n2 := (n * 2)%nat in
  if (MaxWidth fs <? n2)%nat then Panic
  else
    hExtFFT <- sum_files fs files chunkLen polynomial n2 ;;
    h <- ToeplitzPart3 fs hExtFFT ;;
    must (FFTG1 fs h false).

(** fk20_multi.go:61-112 [FK20MultiDAOptimized].  h[:k2] reuses the array of the transform, which has length k2. *)
Definition FK20MultiDAOptimized (fs : FFTSettings) (files : list (list G1)) (chunkLen : nat) (polynomial : list Fr) : go (list G1) :=
  let n2 := length polynomial in
  if (MaxWidth fs <? n2)%nat then Panic
  else
    let n := (n2 / 2)%nat in
    if negb (forallb (fun c => feqb c 0) (skipn n polynomial)) then Panic
    else if (chunkLen =? 0)%nat then Panic
    else
      let k := (n / chunkLen)%nat in
      let k2 := (k * 2)%nat in
      hExtFFT <- sum_files fs files chunkLen (firstn n polynomial) k2 ;;
      h <- ToeplitzPart3 fs hExtFFT ;;
      must (FFTG1 fs (h ++ repeat ZeroG1 (k2 - k)) false).

(** fk20_multi.go:116-136 [DAUsingFK20Multi]. *)
Definition DAUsingFK20Multi (fs : FFTSettings) (files : list (list G1)) (chunkLen : nat) (polynomial : list Fr) : go (list G1) :=
  let n := length polynomial in
  if (MaxWidth fs / 2 <? n)%nat then Panic
  else if negb (IsPowerOfTwo (Z.of_nat n)) then Panic
  else
    allProofs <- FK20MultiDAOptimized fs files chunkLen (polynomial ++ repeat 0 n) ;;
    reverseBitOrderOf allProofs.

(** kzg_multi_proofs.go:51-92 [CheckProofMulti]; state (interpolationPoly, xPow). *)
Definition CheckProofMulti (fs : FFTSettings) (ks : KZGSettings) (commitment proof : G1) (x : Fr) (ys : list Fr) : go bool :=
  interpolationPoly <- must (FFT fs ys true) ;;
  let st := loop 0 (length interpolationPoly)
      (fun st i => let '(p, xPow) := st in (set_nth i (nth i p 0 * finv xPow) p, xPow * x)) (interpolationPoly, 1) in
  let interpolationPoly := fst st in
  let xPow := snd st in
  let xn2 := MulG2 GenG2 xPow in
  s2 <- idx (SecretG2 ks) (length ys) ;;
  let xnMinusYn := SubG2 s2 xn2 in
  s1 <- slice_to (SecretG1 ks) (length interpolationPoly) ;;
  is1 <- LinCombG1 s1 interpolationPoly ;;
  let commitMinusInterpolation := SubG1 commitment is1 in
  Ret (PairingsVerify commitMinusInterpolation GenG2 proof xnMinusYn).
