(** Model of the key files: /repo/internal/party/keygen.go:73-137 and the use of the keys in
    /repo/cmd/DyCAPs/main.go:33-38, 52, 85, 122.

    The gob encoding of the standard library is a pair of functions [enc], [dec].  The two files are the contents of the
    working directory; a missing file is [None].  Random picks are arguments.  The shares printed to the log
    (keygen.go:95-98, 112-115) are left out. *)

Require Import ZArith List Bool Arith.
From Verif Require Import Prime Fr Bytes CodecModel GoBase GroupModel VssModel TsigModel.
Import ListNotations.
Local Open Scope F_scope.

(** kyber group/mod/int.go MarshalBinary, for the order of the group: 32 bytes, big-endian. *)
Definition MarshalScalar (a : Fr) : list Z := be_bytes 32 (fv a).

(** keygen.go:38, 58, 106, 122: the two files. *)
Record Directory : Type := mkDir { coefficients : option (list Z); coefficients_new : option (list Z) }.

Section Files.
Variable enc : list (list Z) -> list Z.
Variable dec : list Z -> option (list (list Z)).

(** keygen.go:73-84 [ReadFromFile]: any error is a panic.  (Decoding into a slice replaces its content and length.) *)
Definition ReadFromFile (content : option (list Z)) : go (list (list Z)) :=
  match content with
  | None => Panic
  | Some raw => match dec raw with Some data => Ret data | None => Panic end
  end.

(** kyber share/poly.go NewPriPoly: t coefficients, the first one given; t = 0 is an index out of range. *)
Definition NewPriPoly (t : nat) (x : Fr) (rnd : list Fr) : go (list Fr) :=
  if (t =? 0)%nat then Panic else Ret (x :: firstn (t - 1) rnd).

(** keygen.go:86-123 [GenCoefficientsFile] with 125-137 [WriteToFile] (errors of the file system are left out): the second
    half, 109-122, repeats the first with another polynomial. *)
Definition GenCoefficientsFile (T : nat) (x : Fr) (rnd : list Fr) (x_new : Fr) (rnd_new : list Fr) : go Directory :=
  pripoly <- NewPriPoly T x rnd ;;
  coeff_bytes <- gomap (fun i => c <- idx pripoly i ;; Ret (MarshalScalar c)) (seq 0 T) ;;
  pripoly_new <- NewPriPoly T x_new rnd_new ;;
  coeff_bytes_new <- gomap (fun i => c <- idx pripoly_new i ;; Ret (MarshalScalar c)) (seq 0 T) ;;
  Ret (mkDir (Some (enc coeff_bytes)) (Some (enc coeff_bytes_new))).

(** keygen.go:32-71: the functions of TsigModel.v on the content of a file. *)
Definition SigKeyGenFile (n t : nat) (content : option (list Z)) : go (list (nat * Fr) * list G2) :=
  file <- ReadFromFile content ;; SigKeyGenFix n t file.

(** main.go:35: the files for at most F faults. *)
Definition Setup (F : nat) (x : Fr) (rnd : list Fr) (x_new : Fr) (rnd_new : list Fr) : go Directory :=
  GenCoefficientsFile (2 * F + 1) x rnd x_new rnd_new.

(** The roles of main.go:39-162 that take part in signing. *)
Inductive Role : Type := oldCommittee | newCommittee | onlyOneCommittee.

(** main.go:37-38 and 52, 85, 122: the key share and the public polynomial given to NewHonestParty.  Both files are read
    in every role. *)
Definition Keys (role : Role) (N F id : nat) (d : Directory) : go ((nat * Fr) * list G2) :=
  k <- SigKeyGenFile N (2 * F + 1) (coefficients d) ;;
  kNew <- SigKeyGenFile N (2 * F + 1) (coefficients_new d) ;;
  let (sk, pk) := match role with newCommittee => kNew | _ => k end in
  s <- idx sk id ;;
  Ret (s, pk).
End Files.
