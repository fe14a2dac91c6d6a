(** The scalar arithmetic as seen by the rest of the code, and the four back ends that the
    build tags select: /repo/internal/bls/bignum_kilic.go (default), bignum_pure.go (tag
    bignum_pure, math/big), bignum_hol256.go (tag bignum_hol256, holiman/uint256) and
    bignum_hbls.go (tag bignum_hbls, herumi's C library).

    A back end gives the operations on its numbers.  Where an operation writes to [dst], the
    model returns the new content of [dst]; [b_inv] also takes the old content, because one
    back end may leave it unchanged.

    The libraries are taken by their documentation: [big.Int.Mod] is Euclidean;
    [big.Int.ModInverse] leaves the receiver unchanged if there is no inverse;
    [big.Int.Bytes] and [uint256.Int.Bytes] give the big-endian bytes without leading zeros;
    [uint256] arithmetic is modulo 2^256, and its AddMod, MulMod are exact.  Exponents are
    non-negative.  The fourth back end (bignum_hbls.go, tag bignum_hbls) calls a C library for
    every operation, which is taken to compute in the field; what it returns for the inverse
    of zero is a parameter.  [RandomFr] is not modelled. *)

Require Import ZArith NArith List Bool.
From Verif Require Import Prime Fr Bytes CodecModel GoBase PolyModel TextModel.
Import ListNotations.
Local Open Scope Z_scope.

(** The operations of internal/bls/bignum_kilic.go:36-135 (bignum_pure.go:25-136, bignum_hol256.go:25-147,
    bignum_hbls.go:30-141) that the rest of the code calls. *)
Record Backend : Type := mkBackend {
  num : Type;
  b_as : Z -> num;                       (* AsFr *)
  b_add : num -> num -> num;             (* AddModFr *)
  b_sub : num -> num -> num;             (* SubModFr *)
  b_mul : num -> num -> num;             (* MulModFr *)
  b_div : num -> num -> num;             (* DivModFr *)
  b_inv : num -> num -> num;             (* InvModFr: old content of dst, argument *)
  b_exp : num -> nat -> num;             (* ExpModFr *)
  b_zero : num -> bool;                  (* EqualZero *)
  b_one : num -> bool;                   (* EqualOne *)
  b_eq : num -> num -> bool;             (* EqualFr *)
  b_str : num -> text;                   (* FrStr *)
  b_from : list Z -> option num;         (* FrFrom32; None: false is returned, dst unchanged *)
  b_to : num -> go (list Z) }.           (* FrTo32 *)

(** ** bignum_kilic.go (see Fr.v and CodecModel.v) *)
(** internal/bls/bignum_kilic.go:36-135. *)
Definition Kilic : Backend := {|
  num := Fr; b_as := of_Z; b_add := fadd; b_sub := fsub; b_mul := fmul; b_div := fdiv;
  b_inv := fun _ v => finv v; b_exp := fpow;
  b_zero := fun v => feqb v f0; b_one := fun v => feqb v f1; b_eq := feqb;
  b_str := FrStr; b_from := FrFrom32; b_to := fun x => Ret (FrTo32 x) |}.

(** ** Common to the two other back ends *)

(** big.Int.ModInverse(v, r) with receiver [old].
    Used at bignum_pure.go:97-102, 113-115 and bignum_hol256.go:110-114, 121-126. *)
Definition ModInverse (old v : Z) : Z :=
  if v mod r =? 0 then old else snd (euclid inv_fuel r (v mod r) 0 1) mod r.

(** big.Int.Exp(v, e, r). Used at bignum_pure.go:134-136 and bignum_hol256.go:145-147. *)
Definition BigExp (v : Z) (e : nat) : Z := v ^ Z.of_nat e mod r.

(** Big-endian bytes without leading zeros, of a number below 2^256. *)
Definition min_bytes (z : Z) : list Z := drop_zeros (be_bytes 32 z).

(** bignum_pure.go:38-47 and bignum_hol256.go:50-59, the loop of [FrTo32]:
    [b[i], b[last-i] = b[last-i], b[i]] for i < 16 with last = len(b) - 1; both indexes are
    in range exactly if i < len(b). *)
Definition swap16 (b : list Z) : go (list Z) :=
  goloop 0 16 (fun b i =>
    if (i <? length b)%nat
    then Ret (set_nth i (nth (length b - 1 - i) b 0) (set_nth (length b - 1 - i) (nth i b 0) b))
    else Panic) b.

(** bignum_pure.go:38-47, bignum_hol256.go:50-59 [FrTo32]: [copy] into a zeroed array. *)
Definition ShortTo32 (x : Z) : go (list Z) :=
  b <- swap16 (min_bytes x) ;;
  Ret (firstn 32 b ++ repeat 0 (32 - length b)).

(** bignum_pure.go:25-35, bignum_hol256.go:37-47 [FrFrom32]. *)
Definition ShortFrom32 (v : list Z) : option Z :=
  if ValidFr v then Some (be_val (swap_loop v)) else None.

(** ** bignum_pure.go *)
(** internal/bls/bignum_pure.go:25-136; the comments give the lines of each function. *)
Definition Pure : Backend := {|
  num := Z;
  b_as := fun n => n;                                           (* 59-61 *)
  b_add := fun a b => (a + b) mod r;                            (* 92-95 *)
  b_sub := fun a b => (a - b) mod r;                            (* 87-90 *)
  b_mul := fun a b => (a * b) mod r;                            (* 104-107 *)
  b_div := fun a b => (a * ModInverse 0 b) mod r;               (* 97-102 *)
  b_inv := fun old v => ModInverse old v;                       (* 113-115 *)
  b_exp := BigExp;                                              (* 134-136 *)
  b_zero := fun v => v =? 0; b_one := fun v => v =? 1; b_eq := Z.eqb;  (* 67-77 *)
  b_str := fun v => decimal (Z.to_N v);                         (* 63-65; numbers are not negative *)
  b_from := ShortFrom32; b_to := ShortTo32 |}.

(** ** bignum_hol256.go *)

(** bignum_hol256.go:98-104 [SubModFr] in arithmetic modulo 2^256. *)
Definition HolSub (a b : Z) : Z :=
  let d := (a - b) mod 2 ^ 256 in
  if a <? b then let tmp := (0 - d) mod 2 ^ 256 in (r - tmp) mod 2 ^ 256 else d.

(** internal/bls/bignum_hol256.go:25-147; the comments give the lines of each function. *)
Definition Hol : Backend := {|
  num := Z;
  b_as := fun n => n;                                           (* 65-67 *)
  b_add := fun a b => (a + b) mod r;                            (* 106-108 *)
  b_sub := HolSub;
  b_mul := fun a b => (a * b) mod r;                            (* 116-118 *)
  b_div := fun a b => (a * ModInverse 0 b) mod r;               (* 110-114 *)
  b_inv := fun _ v => ModInverse 0 v;                           (* 121-126: via a fresh big.Int *)
  b_exp := BigExp;                                              (* 145-147 *)
  b_zero := fun v => v =? 0; b_one := fun v => v =? 1; b_eq := Z.eqb;  (* 76-86 *)
  b_str := fun v => decimal (Z.to_N v);                         (* 69-74 *)
  b_from := ShortFrom32; b_to := ShortTo32 |}.

(** ** bignum_hbls.go *)

(** The conversion int64(i) of a uint64. *)
Definition int64 (n : Z) : Z := if n <? 2 ^ 63 then n else n - 2 ^ 64.

(** [inv0]: what the library gives for the inverse of zero. *)
Definition Hbls (inv0 : Z) : Backend := {|
  num := Z;
  b_as := fun n => int64 n mod r;                               (* 62-64 *)
  b_add := fun a b => (a + b) mod r;                            (* 95-97 *)
  b_sub := fun a b => (a - b) mod r;                            (* 91-93 *)
  b_mul := fun a b => (a * b) mod r;                            (* 103-105 *)
  b_div := fun a b => (a * ModInverse inv0 b) mod r;            (* 99-101 *)
  b_inv := fun _ v => ModInverse inv0 v;                        (* 107-109 *)
  b_exp := BigExp;                                              (* 134-141: by way of decimal texts *)
  b_zero := fun v => v =? 0; b_one := fun v => v =? 1; b_eq := Z.eqb;  (* 73-83 *)
  b_str := fun v => decimal (Z.to_N v);                         (* 66-71 *)
  b_from := fun v => if ValidFr v then Some (le_val v) else None;      (* 38-44 *)
  b_to := fun x => b <- swap16 (be_bytes 32 x) ;; Ret (firstn 32 b ++ repeat 0 (32 - length b)) |}. (* 47-56: Serialize gives 32 bytes *)

(** ** Computations: what code can do with scalars *)

(** Registers are numbered; a computation writes registers and branches on tests.  Loops of
    the Go code are finite, so an execution is such a tree.
    No counterpart in /repo: it stands for any code that calls the functions of bignum_*.go. *)
Inductive comp : Type :=
| Halt
| As (d : nat) (n : Z) (k : comp)
| Add (d a b : nat) (k : comp)
| Sub (d a b : nat) (k : comp)
| Mul (d a b : nat) (k : comp)
| Div (d a b : nat) (k : comp)
| Inv (d a : nat) (k : comp)
| Exp (d a e : nat) (k : comp)
| Copy (d a : nat) (k : comp)
| From (d : nat) (v : list Z) (ok fail : comp)
| IfZero (a : nat) (k1 k2 : comp)
| IfOne (a : nat) (k1 k2 : comp)
| IfEq (a b : nat) (k1 k2 : comp).

(** Assigning to a register; helper, no counterpart in /repo. *)
Definition put {A} (s : nat -> A) (d : nat) (x : A) : nat -> A :=
  fun i => if (i =? d)%nat then x else s i.

(** Running such a computation with one of the back ends; helper, no counterpart in /repo. *)
Fixpoint run (B : Backend) (c : comp) (s : nat -> num B) : nat -> num B :=
  match c with
  | Halt => s
  | As d n k => run B k (put s d (b_as B n))
  | Add d a b k => run B k (put s d (b_add B (s a) (s b)))
  | Sub d a b k => run B k (put s d (b_sub B (s a) (s b)))
  | Mul d a b k => run B k (put s d (b_mul B (s a) (s b)))
  | Div d a b k => run B k (put s d (b_div B (s a) (s b)))
  | Inv d a k => run B k (put s d (b_inv B (s d) (s a)))
  | Exp d a e k => run B k (put s d (b_exp B (s a) e))
  | Copy d a k => run B k (put s d (s a))
  | From d v ok fail => match b_from B v with
                        | Some x => run B ok (put s d x)
                        | None => run B fail s
                        end
  | IfZero a k1 k2 => if b_zero B (s a) then run B k1 s else run B k2 s
  | IfOne a k1 k2 => if b_one B (s a) then run B k1 s else run B k2 s
  | IfEq a b k1 k2 => if b_eq B (s a) (s b) then run B k1 s else run B k2 s
  end.
