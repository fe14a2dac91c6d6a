(** Text forms: printed polynomials, hexadecimal points, address lists; sample vectors.

    Modelled: [PolyToString] and [GetSamples] (/repo/internal/party/party_utils.go:272-307),
    [FrStr] (/repo/internal/bls/bignum_kilic.go:70-75), the text form of points
    (/repo/internal/bls/bls_all.go:22-62), [ReadIpList]/[ReadPortList]
    (/repo/cmd/DyCAPs/main.go:194-210).

    Go strings are lists of [ascii]; [fmt.Sprintf] with %s and %d is concatenation with the
    decimal form. *)

Require Import String Ascii DecimalString ZArith NArith List Bool.
From Verif Require Import Fr CodecModel GoBase GroupModel PartyModel FftModel.
Import ListNotations.

(** A Go string; helper, no counterpart in /repo. *)
Definition text := list ascii.

(** A literal of the source. As at party_utils.go:299-304. *)
Definition lit (s : string) : text := list_ascii_of_string s.

(** Decimal form of a non-negative integer, as printed by [big.Int.String] and by %d.
    Used at bignum_kilic.go:70-75, party_utils.go:301. *)
Definition decimal (n : N) : text := lit (NilZero.string_of_uint (N.to_uint n)).

(** bignum_kilic.go:70-75 [FrStr] of a non-nil pointer: [RedToBig().String()]. *)
Definition FrStr (x : Fr) : text := decimal (Z.to_N (fv x)).

(** party_utils.go:291-307 [PolyToString]. *)
Definition PolyToString (p : list Fr) : text :=
  loop_down 0 (List.length p) (fun s i =>
    let c := nth i p f0 in
    if negb (i =? 0)%nat && feqb c f0 then s
    else if (0 <? i)%nat then s ++ (FrStr c ++ lit " x^" ++ decimal (N.of_nat i) ++ lit " + ")
    else s ++ FrStr c) [].

(** party_utils.go:272-289 [GetSamples].  A nil pointer of the result is [None]; that the
    pointers share memory with [Values] is not modelled.  The indexes are Go ints, which may
    be negative. *)
Definition GetSamples (ExpIndexes : list Z) (Values : list Fr) (MaxWidth : nat) : go (list (option Fr)) :=
  if negb (IsPowerOfTwo (Z.of_nat MaxWidth)) then Fatal
  else if negb (List.length ExpIndexes =? List.length Values)%nat then Fatal
  else if (MaxWidth <? List.length ExpIndexes)%nat then Fatal
  else goloop 0 (List.length ExpIndexes) (fun ans i =>
         e <- idx ExpIndexes i ;;
         v <- idx Values i ;;
         if (e <? 0)%Z then Panic else upd ans (Z.to_nat e) (Some v))
       (repeat None MaxWidth).

(** ** Points as hexadecimal text *)

(** encoding/hex: the 16 digits, lower case. *)
Definition hexdigit (d : Z) : ascii :=
  ascii_of_N (Z.to_N (if (d <? 10)%Z then 48 + d else 87 + d)).

(** encoding/hex [fromHexChar]: both cases are read. Used at bls_all.go:27-42. *)
Definition fromhex (c : ascii) : option Z :=
  let n := Z.of_N (N_of_ascii c) in
  if ((48 <=? n) && (n <=? 57))%Z then Some (n - 48)%Z
  else if ((97 <=? n) && (n <=? 102))%Z then Some (n - 87)%Z
  else if ((65 <=? n) && (n <=? 70))%Z then Some (n - 55)%Z
  else None.

(** encoding/hex [EncodeToString]. Used at bls_all.go:22-25. *)
Definition EncodeToString (b : list Z) : text :=
  flat_map (fun x => [hexdigit (x / 16)%Z; hexdigit (x mod 16)%Z]) b.

(** encoding/hex [DecodeString]: an error on a bad digit or an odd length. Used at bls_all.go:27-42. *)
Fixpoint DecodeString (t : text) : go (list Z) :=
  match t with
  | [] => Ret []
  | [_] => Error
  | a :: b :: t' =>
      match fromhex a, fromhex b with
      | Some x, Some y => rest <- DecodeString t' ;; Ret ((16 * x + y)%Z :: rest)
      | _, _ => Error
      end
  end.

(** bls_all.go:22-25 [MarshalText] of a G1 point (the error result is always nil). *)
Definition MarshalText (cd : g1codec) (p : G1) : text := EncodeToString (ToCompressedG1 cd p).

(** bls_all.go:27-42 [UnmarshalText]: the error result and what the point holds afterwards.
    [p] is the old content of the receiver, None for a nil receiver. *)
Definition UnmarshalText (cd : g1codec) (p : option G1) (t : text) : bool * option G1 :=
  match p with
  | None => (false, None)
  | Some old =>
      match DecodeString t with
      | Ret data => match FromCompressedG1 cd data with
                    | Some d => (true, Some d)
                    | None => (false, Some old)
                    end
      | _ => (false, Some old)
      end
  end.

(** ** Address lists *)

(** main.go:194-210. *)
Definition newline : ascii := ascii_of_nat 10.

(** strings.Split(s, "\n"). Used at main.go:194-210. *)
Fixpoint split_lines (t : text) : list text :=
  match t with
  | [] => [[]]
  | c :: t' =>
      if Ascii.eqb c newline then [] :: split_lines t'
      else match split_lines t' with
           | l :: ls => (c :: l) :: ls
           | [] => [[c]]
           end
  end.

(** main.go:194-210 [ReadIpList], [ReadPortList] on a file that can be read, followed by the
    slice expression [[0:N]] of the callers (main.go:48-51, 83-84, 113-114, 165-166).  A file
    that cannot be read ends the process. *)
Definition ReadList (file : option text) (N : nat) : go (list text) :=
  match file with
  | None => Fatal
  | Some t => slice_to (split_lines t) N
  end.
