(** The wire format of protocol buffers, stated without the parser: which byte strings are sequences of records, and
    what a message of a given type then contains (encoding documentation of protocol buffers; the types are those of
    /repo/pkg/protobuf/Message.proto).  Used for C68. *)

Require Import ZArith List Bool Lia.
From Verif Require Import Bytes ProtoModel.
Import ListNotations.
Local Open Scope Z_scope.

(** ** Integers *)

(** Seven bits per byte, least significant first. *)
Fixpoint septets (b : bytes) : Z := match b with [] => 0 | x :: b' => x mod 128 + 128 * septets b' end.

(** One to ten bytes, of which exactly the last is below 128; at most 64 bits. *)
Definition is_varint (b : bytes) (v : Z) : Prop :=
  exists init final, b = init ++ [final] /\ Forall (fun x => 128 <= x) init /\ 0 <= final < 128 /\
    (length init <= 9)%nat /\ (length init = 9%nat -> final <= 1) /\ v = septets b.

(** Field number and wire type in one integer. *)
Definition is_tag (b : bytes) (n wt : Z) : Prop := is_varint b (8 * n + wt) /\ 1 <= n < 2 ^ 29 /\ 0 <= wt < 8.

(** ** Records *)

(** [body n wt b w]: the bytes after the tag.  A group consists of records and ends with the tag of its own number. *)
Inductive body : Z -> Z -> bytes -> wire -> Prop :=
| body_varint n b v : is_varint b v -> body n 0 b (WVarint v)
| body_fixed64 n b : length b = 8%nat -> body n 1 b (WFixed64 b)
| body_len n h b : is_varint h (Z.of_nat (length b)) -> body n 2 (h ++ b) (WLen b)
| body_group n b rs t : stream b rs -> is_tag t n 4 -> body n 3 (b ++ t) WGroup
| body_fixed32 n b : length b = 4%nat -> body n 5 b (WFixed32 b)
with stream : bytes -> list rec -> Prop :=
| stream_nil : stream [] []
| stream_cons t n wt b w rest rs : is_tag t n wt -> body n wt b w -> stream rest rs ->
    stream (t ++ b ++ rest) ((n, w) :: rs).

(** ** UTF-8 *)

(** Code points, without the surrogates. *)
Definition scalar (c : Z) : Prop := 0 <= c < 55296 \/ 57344 <= c < 1114112.

Definition utf8_encode (c : Z) : bytes :=
  if c <? 128 then [c]
  else if c <? 2048 then [192 + c / 64; 128 + c mod 64]
  else if c <? 65536 then [224 + c / 4096; 128 + c / 64 mod 64; 128 + c mod 64]
  else [240 + c / 262144; 128 + c / 4096 mod 64; 128 + c / 64 mod 64; 128 + c mod 64].

Definition is_utf8 (b : bytes) : Prop := exists cs, Forall scalar cs /\ b = concat (map utf8_encode cs).

(** ** Messages *)

(** Integers one after the other. *)
Inductive packed_ints : bytes -> list Z -> Prop :=
| packed_nil : packed_ints [] []
| packed_cons h v b l : is_varint h v -> packed_ints b l -> packed_ints (h ++ b) (v :: l).

(** A record that a message of the type [sch] may have: strings must be UTF-8, lists of integers must be well formed and
    nested messages acceptable; records of an unknown number or of another wire type do not matter. *)
Definition fits (sch : schema) (r : rec) : Prop :=
  forall k, In (fst r, k) sch ->
  match k, snd r with
  | KStr, WLen b => is_utf8 b
  | KRepU32, WLen b => exists l, packed_ints b l
  | KMsg chk, WLen b | KRepMsg chk, WLen b => chk b = true
  | _, _ => True
  end.

(** The last record with the number [n] and a value that [sel] takes, or the default. *)
Definition last_value {A} (sel : wire -> A -> Prop) (n : Z) (rs : list rec) (d v : A) : Prop :=
  (exists pre w post, rs = pre ++ (n, w) :: post /\ sel w v /\ forall w' v', In (n, w') post -> ~ sel w' v') \/
  (v = d /\ forall w' v', In (n, w') rs -> ~ sel w' v').

(** The values which [sel] takes from the records with the number [n], in their order. *)
Inductive values {A} (sel : wire -> list A -> Prop) (n : Z) : list rec -> list A -> Prop :=
| values_nil : values sel n [] []
| values_take w l rs l' : sel w l -> values sel n rs l' -> values sel n ((n, w) :: rs) (l ++ l')
| values_skip m w rs l' : m <> n \/ (forall l, ~ sel w l) -> values sel n rs l' -> values sel n ((m, w) :: rs) l'.

Definition sel_bytes (w : wire) (b : bytes) : Prop := w = WLen b.
Definition sel_int (w : wire) (v : Z) : Prop := w = WVarint v.
Definition sel_one (w : wire) (l : list bytes) : Prop := exists b, w = WLen b /\ l = [b].
Definition sel_ints (w : wire) (l : list Z) : Prop :=
  (exists v, w = WVarint v /\ l = [v]) \/ (exists b, w = WLen b /\ packed_ints b l).

(** The content [v] of the field [n] of type [k] in a message with the records [rs]. *)
Definition field_is (n : Z) (k : kind) (rs : list rec) (v : fval) : Prop :=
  match k with
  | KBytes | KStr => exists b, v = VB b /\ last_value sel_bytes n rs [] b
  | KU32 => exists x, v = VN (x mod 2 ^ 32) /\ last_value sel_int n rs 0 x
  | KBool => exists x, v = VF (negb (x =? 0)) /\ last_value sel_int n rs 0 x
  | KRepBytes | KRepMsg _ => exists l, v = VL l /\ values sel_one n rs l
  | KRepU32 => exists l, v = VNs (map (fun x => x mod 2 ^ 32) l) /\ values sel_ints n rs l
  | KMsg _ => exists l, v = VO (if (length l =? 0)%nat then None else Some (concat l)) /\ values sel_one n rs l
  end.
