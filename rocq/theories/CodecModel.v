(** Model of the scalar codec (internal/bls) and of the integer codec (pkg/utils). *)

Require Import ZArith List Bool.
From Verif Require Import Prime Fr Bytes.
Import ListNotations.
Local Open Scope Z_scope.

(** ** Scalars *)

(** [binary.LittleEndian.Uint64(val[from:from+8])], used in
    /repo/internal/bls/bignum_all.go:22-37. *)
Definition u64le (v : list Z) (from : nat) : Z := le_val (firstn 8 (skipn from v)).

(** /repo/internal/bls/bignum_all.go:15-38 [ValidFr].  [v] is the [32]byte array. *)
Definition ValidFr (v : list Z) : bool :=
  if nth 31 v 0 =? 0 then true else
  let a := u64le v 24 in
  if 0x73eda753299d7d48 <? a then false
  else if a <? 0x73eda753299d7d48 then true else
  let b := u64le v 16 in
  if 0x3339d80809a1d805 <? b then false
  else if b <? 0x3339d80809a1d805 then true else
  let c := u64le v 8 in
  if 0x53bda402fffe5bfe <? c then false
  else if c <? 0x53bda402fffe5bfe then true else
  u64le v 0 <=? 0xffffffff00000000.

(** The assignment l[i] = x for an index in range; helper, no counterpart in /repo. *)
Fixpoint set_nth {A} (i : nat) (x : A) (l : list A) : list A :=
  match l, i with
  | [], _ => []
  | _ :: l', O => x :: l'
  | a :: l', S j => a :: set_nth j x l'
  end.

(** The loop [for i := 0; i < 16; i++ { v[i], v[31-i] = v[31-i], v[i] }] of
    /repo/internal/bls/bignum_kilic.go:41-43 and 53-55 (there with [last] = 31). *)
Definition swap_loop (v : list Z) : list Z :=
  fold_left (fun w i => set_nth i (nth (31 - i) w 0) (set_nth (31 - i) (nth i w 0) w))
            (seq 0 16) v.

(** /repo/internal/bls/bignum_kilic.go:36-46 [FrFrom32]; [None] is the result [false],
    in which case the destination keeps its old value.  [RedFromBytes] reads big-endian
    bytes and reduces. *)
Definition FrFrom32 (v : list Z) : option Fr :=
  if ValidFr v then Some (of_Z (be_val (swap_loop v))) else None.

(** /repo/internal/bls/bignum_kilic.go:49-58 [FrTo32].  [RedToBytes] gives 32 big-endian
    bytes. *)
Definition FrTo32 (x : Fr) : list Z := swap_loop (be_bytes 32 (fv x)).

(** Callers of [FrFrom32] in the party code ignore the result, so that on failure the
    destination variable keeps its old value [old]
    (e.g. /repo/internal/party/ShareReduce.go:101, /repo/internal/party/VSS.go:95). *)
Definition FrFrom32_into (old : Fr) (v : list Z) : Fr :=
  match FrFrom32 v with Some x => x | None => old end.

(** ** Integers *)

(** /repo/pkg/utils/utils.go:9-13 [Uint32ToBytes] (argument already a uint32). *)
Definition Uint32ToBytes (n : Z) : list Z := be_bytes 4 n.

(** /repo/pkg/utils/utils.go:32-37 [IntToBytes]; the conversion [uint32(n)] wraps around. *)
Definition IntToBytes (n : Z) : list Z := be_bytes 4 (n mod 2 ^ 32).

(** /repo/pkg/utils/utils.go:16-21 [BytesToUint32] and 24-29 [BytesToInt].  [binary.Read]
    needs four bytes; with fewer it returns an error that is dropped and the variable
    stays 0; surplus bytes are left unread. *)
Definition BytesToInt (b : list Z) : Z :=
  if (4 <=? length b)%nat then be_val (firstn 4 b) else 0.
(** /repo/pkg/utils/utils.go:16-22 [BytesToUint32]: as BytesToInt. *)
Definition BytesToUint32 (b : list Z) : Z := BytesToInt b.

(** /repo/pkg/utils/utils.go:39-49 [DeleteZero]: removes trailing zero bytes. *)
Fixpoint drop_zeros (l : list Z) : list Z :=
  match l with
  | b :: l' => if b =? 0 then drop_zeros l' else l
  | [] => []
  end.
(** /repo/pkg/utils/utils.go:39-49 [DeleteZero]. *)
Definition DeleteZero (src : list Z) : list Z := rev (drop_zeros (rev src)).
