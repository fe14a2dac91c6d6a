(** Scalars read from text: [SetFr] of three back ends (/repo/internal/bls/bignum_kilic.go:28-32, bignum_pure.go:53-57,
    bignum_hol256.go:25-33), [ToFr] and the constants computed at the start (globals.go:15-23, 65-72).

    Not modelled: bignum_hbls.go:30-34, where the text is read by the C library. *)

Require Import String Ascii ZArith NArith List Bool.
From Verif Require Import Fr GoBase TextModel.
Import ListNotations.
Local Open Scope N_scope.

(** Digits in some base up to ten; math/big, used at bignum_kilic.go:30, bignum_pure.go:54, bignum_hol256.go:27. *)
Fixpoint number (base : N) (l : text) (acc : N) : option N :=
  match l with
  | [] => Some acc
  | c :: l' =>
    let x := N_of_ascii c in
    if (48 <=? x) && (x <? 48 + base) then number base l' (base * acc + (x - 48)) else None
  end.

(** At least one digit; as [number]. *)
Definition digits_in (base : N) (l : text) : option N := match l with [] => None | _ => number base l 0 end.

(** An optional sign; math/big, as [number]. *)
Definition signed (f : text -> option N) (t : text) : option Z :=
  match t with
  | "-"%char :: l => option_map (fun n => (- Z.of_N n)%Z) (f l)
  | "+"%char :: l => option_map Z.of_N (f l)
  | _ => option_map Z.of_N (f t)
  end.

Section Text.

(** What big.Int.UnmarshalText makes of a text (without its sign) in which there are characters other than digits: prefixes as in
    0x1f and underscores are allowed. *)
Variable other : text -> option N.
(** What is left in a big.Int by SetString when the text is no number (the documentation: undefined). *)
Variable junk : text -> Z.

(** big.Int.SetString(t, 10); used at bignum_kilic.go:30. *)
Definition SetString10 (t : text) : option Z := signed (digits_in 10) t.

(** big.Int.UnmarshalText: base 0, that is, a leading 0 with more digits means base 8; used at bignum_pure.go:54 and
    bignum_hol256.go:27. *)
Definition UnmarshalText (t : text) : option Z :=
  signed (fun l =>
    match number 10 l 0 with
    | None => other l
    | Some _ => match l with "0"%char :: ((_ :: _) as l') => digits_in 8 l' | _ => digits_in 10 l end
    end) t.

(** bignum_kilic.go:28-32 [SetFr]: the result of SetString is not looked at; [Bytes] is the absolute value, which
    RedFromBytes reduces. *)
Definition SetFrKilic (t : text) : Fr :=
  of_Z (Z.abs (match SetString10 t with Some z => z | None => junk t end)).

(** bignum_pure.go:53-57 [SetFr]. *)
Definition SetFrPure (t : text) : go Z := match UnmarshalText t with Some z => Ret z | None => Panic end.

(** bignum_hol256.go:25-33 [SetFr]: SetFromBig takes the low 256 bits and reports more than 256; a negative number gives
    the complement. *)
Definition SetFrHol (t : text) : go Z :=
  match UnmarshalText t with
  | Some z => if (Z.abs z <? 2 ^ 256)%Z then Ret (z mod 2 ^ 256)%Z else Panic
  | None => Panic
  end.

(** globals.go:20-23 [ToFr]. *)
Definition ToFr (t : text) : Fr := SetFrKilic t.

End Text.

(** globals.go:65-69, the default back end. *)
Definition MODULUS_MINUS1 : Fr := fsub (of_Z 0) (of_Z 1).
(** globals.go:70. *)
Definition MODULUS_MINUS1_DIV2 : Fr := fdiv MODULUS_MINUS1 (of_Z 2).
(** globals.go:71. *)
Definition MODULUS_MINUS2 : Fr := fsub (of_Z 0) (of_Z 2).
(** globals.go:72. *)
Definition INVERSE_TWO : Fr := finv (of_Z 2).
