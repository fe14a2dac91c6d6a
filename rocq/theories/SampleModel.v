(** Model of the sample helpers of /repo/internal/polycommit: das_extension.go, zero_poly.go,
    recover_from_samples.go, and the small helpers of legacy_recovery.go; and of the evaluation form of
    /repo/internal/bls/globals.go.

    Simplification: lengths, offsets and strides are naturals (uint64 in the code; they do not wrap around for
    slices that fit into memory). *)

Require Import ZArith List Bool Arith.
From Verif Require Import Prime Fr CodecModel GoBase GroupModel VssModel FftModel.
Import ListNotations.
Local Open Scope F_scope.

(** ** Batch inversion and scaling *)

(** legacy_recovery.go:54-58: the running products partials[i], ...; [p] is partials[i] and [vs] the values
    from i on. *)
Fixpoint partials (p : Fr) (vs : list Fr) : list Fr :=
  match vs with [] => [p] | v :: vs' => p :: partials (p * v) vs' end.

(** legacy_recovery.go:53-69 [multiInv]; values[0] of an empty slice is a run-time panic.  All accesses of the
    second loop are within bounds. *)
Definition multiInv (values : list Fr) : go (list Fr) :=
  match values with
  | [] => Panic
  | v0 :: _ =>
    let ps := partials v0 values in
    Ret (fst (loop_down 0 (length values)
      (fun s i => (set_nth i (nth i ps 0 * snd s) (fst s), snd s * nth i values 0))
      (repeat 0 (length values), finv (last ps 0))))
  end.

(** The loop shared by legacy_recovery.go:76-80, recover_from_samples.go:19-25 and 36-42: entry i is multiplied
    by the running power [p], which is then multiplied by [k]. *)
Fixpoint scale_powers (k p : Fr) (l : list Fr) : list Fr :=
  match l with [] => [] | a :: l' => a * p :: scale_powers k (p * k) l' end.

(** legacy_recovery.go:72-82 [pOfKX]. *)
Definition pOfKX (poly : list Fr) (k : Fr) : list Fr := scale_powers k 1 poly.

(** recover_from_samples.go:12-27 [ShiftPoly], 30-43 [UnshiftPoly]; in place in the code. *)
Definition ShiftPoly (poly : list Fr) : list Fr := scale_powers (finv (of_nat 5)) 1 poly.
(** recover_from_samples.go:30-43 [UnshiftPoly]. *)
Definition UnshiftPoly (poly : list Fr) : list Fr := scale_powers (of_nat 5) 1 poly.

(** legacy_recovery.go:84-93 [inefficientOddEvenDiv2]. *)
Fixpoint inefficientOddEvenDiv2 (positions : list nat) : list nat * list nat :=
  match positions with
  | [] => ([], [])
  | p :: ps =>
    let (even, odd) := inefficientOddEvenDiv2 ps in
    if (Nat.land p 1 =? 0)%nat then (Nat.shiftr p 1 :: even, odd) else (even, Nat.shiftr p 1 :: odd)
  end.

(** ** Evaluation form *)

(** internal/bls/globals.go:109-156 [EvaluatePolyInEvaluationForm].  BatchInvModFr is a function of the library
    (bignum_kilic.go:120-122): each element is replaced by its inverse, zero by zero. *)
Definition EvaluatePolyInEvaluationForm (poly : list Fr) (x : Fr) (roots : list Fr) (scale : nat) : go Fr :=
  if negb (length poly =? length roots / 2 ^ scale)%nat then Panic
  else
    let n := length poly in
    let inverseWidth := finv (of_nat n) in
    denom <- gomap (fun i => d <- idx roots (i * 2 ^ scale) ;; Ret (x - d)) (seq 0 n) ;;
    let invDenom := map finv denom in
    y <- goloop 0 n (fun y i =>
      p <- idx poly i ;;
      d <- idx roots (i * 2 ^ scale) ;;
      v <- idx invDenom i ;;
      Ret (y + p * d * v)) 0 ;;
    Ret (y * ((fpow x n - 1) * inverseWidth)).

(** ** Data-availability extension *)

(** das_extension.go:10-69 [dASFFTExtension]: the new content of ab.  When the length is odd, the last entry
    of the second half takes no part in the two loops.  [fuel]: depth of the recursion, never used up when it
    is at least the length. *)
Fixpoint dasFFTExtension (fuel : nat) (fs : FFTSettings) (ab : list Fr) (stride : nat) : go (list Fr) :=
  match fuel with
  | O => Panic
  | S fuel =>
    match ab with
    | [] | [_] => Panic
    | [a0; a1] =>
      let x := a0 + a1 in
      let y := a0 - a1 in
      w <- idx (Expanded fs) stride ;;
      let tmp := y * w in
      Ret [x + tmp; x - tmp]
    | _ =>
      let half := (length ab / 2)%nat in
      let a0s := firstn half ab in
      let a1s := skipn half ab in
      lr <- gomap (fun i =>
        a0 <- idx a0s i ;;
        a1 <- idx a1s i ;;
        w <- idx (Reverse fs) (i * 2 * stride) ;;
        Ret (a0 + a1, (a0 - a1) * w)) (seq 0 half) ;;
      L <- dasFFTExtension fuel fs (map fst lr) (stride * 2) ;;
      R <- dasFFTExtension fuel fs (map snd lr ++ skipn half a1s) (stride * 2) ;;
      ps <- gomap (fun i =>
        x <- idx L i ;;
        y <- idx R i ;;
        root <- idx (Expanded fs) ((1 + 2 * i) * stride) ;;
        Ret (x + y * root, x - y * root)) (seq 0 half) ;;
      Ret (map fst ps ++ map snd ps ++ skipn half R)
    end
  end.

(** das_extension.go:74-87 [DASFFTExtension]: the new content of vals. *)
Definition DASFFTExtension (fs : FFTSettings) (vals : list Fr) : go (list Fr) :=
  if (MaxWidth fs <? length vals * 2)%nat then Panic
  else
    out <- dasFFTExtension (length vals) fs vals 1 ;;
    let invLen := finv (of_nat (length vals)) in
    Ret (map (fun v => v * invLen) out).

(** ** Polynomial with zeros at the missing samples *)

(** zero_poly.go:31-43: one round of the loop over the indices. *)
Definition leaf_step (fs : FFTSettings) (stride : nat) (dst : list Fr) (iv : nat * nat) : go (list Fr) :=
  let (i, v) := iv in
  d <- idx (Expanded fs) (v * stride) ;;
  let negDi := 0 - d in
  dst <- upd dst i negDi ;;
  if (i =? 0)%nat then Ret dst
  else
    a <- idx dst i ;;
    b <- idx dst (i - 1) ;;
    dst <- upd dst i (a + b) ;;
    dst <- gofold (fun dst j =>
      a <- idx dst j ;;
      b <- idx dst (j - 1) ;;
      upd dst j (a * negDi + b)) (rev (seq 1 (i - 1))) dst ;;
    a <- idx dst 0 ;;
    upd dst 0 (a * negDi).

(** zero_poly.go:21-44 [makeZeroPolyMulLeaf]: the new content of dst. *)
Definition makeZeroPolyMulLeaf (fs : FFTSettings) (dst : list Fr) (indices : list nat) (stride : nat)
    : go (list Fr) :=
  let m := length indices in
  if (length dst <? m + 1)%nat then Panic
  else
    let dst := firstn (m + 1) dst ++ repeat 0 (length dst - (m + 1)) in
    dst <- upd dst m 1 ;;
    gofold (leaf_step fs stride) (combine (seq 0 m) indices) dst.

(** "if err != nil { panic(err) }". zero_poly.go:92-94, 100-102, 107-109, 215-218. *)
Definition must {A} (m : go A) : go A := match m with Error => Panic | _ => m end.

(** zero_poly.go:62-110 [reduceLeaves]: the new content of dst, which has length [D], and the length of the
    slice of it that is returned.  The scratch space always suffices (n*3 at its only use) and each part of
    it is overwritten before it is read.  padPoly (46-53) and the copy of line 95 stay within bounds because of the
    test of the length. *)
Definition reduceLeaves (fs : FFTSettings) (D : nat) (ps : list (list Fr)) : go (list Fr * nat) :=
  if negb (IsPowerOfTwo (Z.of_nat D)) then Panic
  else if (length ps =? 0)%nat then Panic
  else if existsb (fun p => length p =? 0)%nat ps then Panic
  else
    let outDegree := fold_left (fun d p => d + (length p - 1))%nat ps 0%nat in
    if (D <? outDegree + 1)%nat then Panic
    else
      let lastp := last ps [] in
      let pPadded := lastp ++ repeat 0 (D - length lastp) in
      mulEval <- must (InplaceFFT fs pPadded D false) ;;
      s <- gofold (fun s p =>
        let pPadded := p ++ skipn (length p) (fst s) in
        pEval <- must (InplaceFFT fs pPadded D false) ;;
        Ret (pPadded, map (fun ab => fst ab * snd ab) (combine (snd s) pEval))) (removelast ps) (pPadded, mulEval) ;;
      dst <- must (InplaceFFT fs (snd s) D true) ;;
      Ret (dst, outDegree + 1)%nat.

(** A slice of [out] given by offset and length, and writing a slice of [out] back. zero_poly.go:164-206. *)
Definition read_at (out : list Fr) (h : nat * nat) : list Fr := firstn (snd h) (skipn (fst h) out).
(** As [read_at], zero_poly.go:164-206. *)
Definition write_at (out : list Fr) (o : nat) (l : list Fr) : list Fr :=
  firstn o out ++ l ++ skipn (o + length l) out.

(** zero_poly.go:164-173: the leaves, each a slice of 64 entries of out. *)
Definition build_leaves (fs : FFTSettings) (missing : list nat) (stride leafCount : nat) (out : list Fr)
    : go (list Fr) :=
  goloop 0 leafCount (fun out i =>
    let off := (i * 63)%nat in
    let e := Nat.min (off + 63) (length missing) in
    if (length out <? i * 64 + 64)%nat then Panic
    else
      leaf <- makeZeroPolyMulLeaf fs (read_at out (i * 64, 64)%nat) (firstn (e - off) (skipn off missing)) stride ;;
      Ret (write_at out (i * 64) leaf)) out.

(** zero_poly.go:186-205: one round of the inner loop; the state is out and the slice headers. *)
Definition reduce_group (fs : FFTSettings) (leafSize : nat) (s : list Fr * list (nat * nat)) (i : nat)
    : go (list Fr * list (nat * nat)) :=
  let (out, leaves) := s in
  let start := (i * 4)%nat in
  let outEnd := Nat.min ((start + 4) * leafSize) (length out) in
  if (outEnd <? start * leafSize)%nat then Panic
  else
    let e := Nat.min (start + 4) (length leaves) in
    let D := (outEnd - start * leafSize)%nat in
    if (start + 1 <? e)%nat then
      r <- reduceLeaves fs D (map (read_at out) (firstn (e - start) (skipn start leaves))) ;;
      leaves <- upd leaves i (start * leafSize, snd r)%nat ;;
      Ret (write_at out (start * leafSize) (fst r), leaves)
    else
      leaves <- upd leaves i (start * leafSize, D)%nat ;;
      Ret (out, leaves).

(** zero_poly.go:182-207: the outer loop.  [fuel]: number of rounds, never used up when it is at least the
    number of leaves. *)
Fixpoint reduce_all (fuel : nat) (fs : FFTSettings) (s : list Fr * list (nat * nat))
    : go (list Fr * list (nat * nat)) :=
  match fuel with
  | O => Panic
  | S fuel =>
    if (1 <? length (snd s))%nat then
      let count := length (snd s) in
      let reducedCount := ((count + 4 - 1) / 4)%nat in
      h0 <- idx (snd s) 0 ;;
      let leafSize := Z.to_nat (nextPowOf2 (Z.of_nat (snd h0))) in
      s <- goloop 0 reducedCount (reduce_group fs leafSize) s ;;
      reduce_all fuel fs (fst s, firstn reducedCount (snd s))
    else Ret s
  end.

(** zero_poly.go:120-221 [ZeroPolyViaMultiplication]: zeroEval and zeroPoly.  A division by the length 0, and
    make with a capacity below the length (137), are run-time panics. *)
Definition ZeroPolyViaMultiplication (fs : FFTSettings) (missing : list nat) (len : nat) : go (list Fr * list Fr) :=
  let m := length missing in
  if (m =? 0)%nat then Ret (repeat 0 len, repeat 0 len)
  else if (MaxWidth fs <? len)%nat then Panic
  else if negb (IsPowerOfTwo (Z.of_nat len)) then Panic
  else if (len =? 0)%nat then Panic
  else
    let stride := (MaxWidth fs / len)%nat in
    if (m <=? 63)%nat then
      if (len <? m + 1)%nat then Panic
      else
        z <- makeZeroPolyMulLeaf fs (repeat 0 (m + 1)) missing stride ;;
        let zeroPoly := z ++ repeat 0 (len - (m + 1)) in
        zeroEval <- must (FFT fs zeroPoly false) ;;
        Ret (zeroEval, zeroPoly)
    else
      let leafCount := ((m + 63 - 1) / 63)%nat in
      let n := Z.to_nat (nextPowOf2 (Z.of_nat (leafCount * 64))) in
      out <- build_leaves fs missing stride leafCount (repeat 0 n) ;;
      s <- reduce_all leafCount fs (out, map (fun i => (i * 64, 64)%nat) (seq 0 leafCount)) ;;
      h <- idx (snd s) 0 ;;
      let z := read_at (fst s) h in
      if (len <? length z)%nat then Panic
      else
        let zeroPoly := z ++ repeat 0 (len - length z) in
        zeroEval <- must (FFT fs zeroPoly false) ;;
        Ret (zeroEval, zeroPoly).

(** ** Recovery *)

(** recover_from_samples.go:48-53; a sample is nil or a scalar. *)
Definition missing_of (samples : list (option Fr)) : list nat :=
  filter (fun i => match nth i samples None with None => true | Some _ => false end) (seq 0 (length samples)).

(** recover_from_samples.go:45-112 [RecoverPolyFromSamples]; [zeroPolyFn] is a parameter of the function. *)
Definition RecoverPolyFromSamples (fs : FFTSettings) (samples : list (option Fr))
    (zeroPolyFn : list nat -> nat -> go (list Fr * list Fr)) : go (list Fr) :=
  let n := length samples in
  z <- zeroPolyFn (missing_of samples) n ;;
  let (zeroEval, zeroPoly) := z in
  _ <- gomap (fun i =>
    e <- idx zeroEval i ;;
    if Bool.eqb (match nth i samples None with None => true | Some _ => false end) (feqb e 0) then Ret tt
    else Panic) (seq 0 n) ;;
  evals <- gomap (fun i =>
    match nth i samples None with
    | None => Ret 0
    | Some s => e <- idx zeroEval i ;; Ret (s * e)
    end) (seq 0 n) ;;
  polyWithZero <- FFT fs evals true ;;
  evalShiftedPolyWithZero <- FFT fs (ShiftPoly polyWithZero) false ;;
  evalShiftedZeroPoly <- FFT fs (ShiftPoly zeroPoly) false ;;
  quotients <- gomap (fun i =>
    a <- idx evalShiftedPolyWithZero i ;;
    b <- idx evalShiftedZeroPoly i ;;
    Ret (finv b * a)) (seq 0 (length evalShiftedPolyWithZero)) ;;
  shifted <- FFT fs quotients true ;;
  data <- FFT fs (UnshiftPoly shifted) false ;;
  _ <- gomap (fun i =>
    match nth i samples None with
    | None => Ret tt
    | Some s => d <- idx data i ;; if feqb d s then Ret tt else Error
    end) (seq 0 n) ;;
  Ret data.
