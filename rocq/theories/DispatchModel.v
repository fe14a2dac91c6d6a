(** Model of the message dispatcher
    (/repo/pkg/core/dispatche.go:11-28, /repo/internal/party/party_utils.go:107-113).

    Channels are references into a heap, as in Go, so that a reader can keep the channel
    which [GetMessage] gave to it.  Simplification: the receive channel that feeds the dispatcher
    is an unbounded queue (it has room for 1024 messages and the network waits
    when it is full). *)

Require Import ZArith List Bool.
From Verif Require Import Bytes.
Import ListNotations.

(** pkg/protobuf/Message.proto:5-10. *)
Record msg : Type := mkMsg { m_type : list Z; m_id : list Z; m_sender : Z; m_data : list Z }.

(** Equality of Go strings (keys of the maps); helper, no counterpart in /repo. *)
Definition bytes_eqb (a b : list Z) : bool := if list_eq_dec Z.eq_dec a b then true else false.

(** The two-layer [sync.Map]: type -> id -> channel. The inner sync.Map of dispatche.go:17-19, from ID to channel. *)
Definition imap : Type := list (list Z * nat).
(** The outer sync.Map of dispatche.go:12, from type to inner map. *)
Definition tmap : Type := list (list Z * imap).

(** Reading a map; helper, no counterpart in /repo. *)
Fixpoint lookup {V} (k : list Z) (m : list (list Z * V)) : option V :=
  match m with
  | [] => None
  | (k', v) :: m' => if bytes_eqb k k' then Some v else lookup k m'
  end.

(** Writing a map; helper, no counterpart in /repo. *)
Fixpoint update {V} (k : list Z) (v : V) (m : list (list Z * V)) : list (list Z * V) :=
  match m with
  | [] => [(k, v)]
  | (k', v') :: m' => if bytes_eqb k k' then (k', v) :: m' else (k', v') :: update k v m'
  end.

(** The maps of dispatche.go:12-19 and the channels made at dispatche.go:19 and party_utils.go:110. *)
Record dstate : Type := mkD {
  recvq : list msg;                  (** messages waiting in the receive channel *)
  held : option (msg * nat);         (** the dispatcher is about to send this message to this channel *)
  table : tmap;
  heap : list (list msg);            (** contents of the channels, by number *)
  handles : list (list Z * list Z * nat);  (** channels given out by [GetMessage] *)
  got : list (nat * msg)             (** what readers received, from which channel, oldest first *)
}.

(** dispatche.go:12: an empty map, no channel. *)
Definition d_init : dstate := mkD [] None [] [] [] [].

(** /repo/pkg/core/dispatche.go:17-19 and /repo/internal/party/party_utils.go:108-110: the two
    [LoadOrStore] calls.  A channel that is made but not stored is garbage. *)
Definition load_or_store (ty id : list Z) (t : tmap) (h : list (list msg))
  : tmap * list (list msg) * nat :=
  let im := match lookup ty t with Some im => im | None => [] end in
  let t1 := match lookup ty t with Some _ => t | None => update ty [] t end in
  match lookup id im with
  | Some c => (t1, h, c)
  | None => let c := length h in (update ty (update id c im) t1, h ++ [[]], c)
  end.

(** Changing the entry at an index; helper, no counterpart in /repo. *)
Fixpoint upd_nth {A} (i : nat) (f : A -> A) (l : list A) : list A :=
  match l, i with
  | [], _ => []
  | a :: l', O => f a :: l'
  | a :: l', S j => a :: upd_nth j f l'
  end.

(** The dispatcher handles a message (dispatche.go:16-21), or somebody calls GetMessage
    (party_utils.go:107-113). *)
Inductive devent : Type :=
| EArr (m : msg)              (** the network puts a message into the receive channel *)
| ETake                       (** dispatche.go:16-19 *)
| EPut                        (** dispatche.go:21 *)
| EGet (ty id : list Z)       (** party_utils.go:107-113 *)
| ERecv (c : nat).            (** a reader takes from a channel *)

(** dispatche.go:19, party_utils.go:110: capacity [N*N] in uint32 arithmetic. *)
Definition capacity (N : Z) : Z := ((N * N) mod 2 ^ 32)%Z.

Section Dispatcher.
  Variable N : Z.

(** dispatche.go:16-21 or party_utils.go:107-113. *)
  Definition d_step (s : dstate) (e : devent) : dstate :=
    match e with
    | EArr m => mkD (recvq s ++ [m]) (held s) (table s) (heap s) (handles s) (got s)
    | ETake =>
        match held s, recvq s with
        | None, m :: q =>
            let '(t, h, c) := load_or_store (m_type m) (m_id m) (table s) (heap s) in
            mkD q (Some (m, c)) t h (handles s) (got s)
        | _, _ => s
        end
    | EPut =>
        match held s with
        | Some (m, c) =>
            if (Z.of_nat (length (nth c (heap s) [])) <? capacity N)%Z then
              mkD (recvq s) None (table s) (upd_nth c (fun q => q ++ [m]) (heap s)) (handles s) (got s)
            else s
        | None => s
        end
    | EGet ty id =>
        let '(t, h, c) := load_or_store ty id (table s) (heap s) in
        mkD (recvq s) (held s) t h (handles s ++ [(ty, id, c)]) (got s)
    | ERecv c =>
        match nth c (heap s) [] with
        | m :: _ => mkD (recvq s) (held s) (table s) (upd_nth c (fun q => tl q) (heap s))
                        (handles s) (got s ++ [(c, m)])
        | [] => s
        end
    end.

(** A run of the dispatcher, dispatche.go:15-25, with calls of GetMessage (party_utils.go:107-113) between. *)
  Definition d_run (es : list devent) : dstate := fold_left d_step es d_init.
End Dispatcher.
