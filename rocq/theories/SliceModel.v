(** Zero padding on Go slices with their capacity (pkg/utils/utils.go:39-53), and powers with a scalar as exponent
    (internal/bls/bignum_pure.go:109-111). *)

Require Import ZArith List Bool Arith.
From Verif Require Import Prime GoBase.
Import ListNotations.

(** A Go []byte: the array from the first element of the slice on, of which the first [s_len] belong to the slice; the
    capacity is the length of the array. No counterpart in /repo (the type []byte of utils.go:39 and 51). *)
Record slice := mkSlice { s_arr : list Z; s_len : nat }.

(** The elements of a slice, as [range] gives them. No counterpart in /repo (type []byte of utils.go:39 and 51). *)
Definition elems (s : slice) : list Z := firstn (s_len s) (s_arr s).

(** src[0:n], which may be longer than src; utils.go:43 and 52. *)
Definition reslice (s : slice) (n : Z) : go slice :=
  if (0 <=? n)%Z && (n <=? Z.of_nat (length (s_arr s)))%Z then Ret (mkSlice (s_arr s) (Z.to_nat n)) else Panic.

(** utils.go:41-47, the loop for i = k-1, ..., 0; an index outside of the slice panics. *)
Fixpoint strip (k : nat) (s : slice) : go slice :=
  match k with
  | O => Ret s
  | S i => if (i <? s_len s)%nat then
             b <- idx (s_arr s) i ;;
             if (b =? 0)%Z then s' <- reslice s (Z.of_nat i) ;; strip i s' else Ret s
           else Panic
  end.

(** utils.go:39-49 [DeleteZero]. *)
Definition DeleteZeroS (src : slice) : go slice := strip (s_len src) src.

(** utils.go:51-53 [DeleteZeroWithLen]. *)
Definition DeleteZeroWithLen (src : slice) (n : Z) : go slice := reslice src n.

(** internal/bls/bignum_pure.go:109-111 [PowModFr]: big.Int.Exp with a modulus; an exponent that is not positive gives 1
    (the exponents are scalars, which are not negative). *)
Definition PowModFr (a b : Z) : Z := zpow a b.
