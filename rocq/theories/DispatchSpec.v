(** Vocabulary for the claims about the dispatcher. *)
Require Import ZArith List Bool.
From Verif Require Import DispatchModel.
Import ListNotations.

(** The messages that arrived, in order. *)
Definition arrivals (es : list devent) : list msg :=
  concat (map (fun e => match e with EArr m => [m] | _ => [] end) es).

(** A message belongs to the instance (type, id). *)
Definition belongs (ty id : list Z) (m : msg) : bool :=
  bytes_eqb ty (m_type m) && bytes_eqb id (m_id m).

(** What was received from a channel, in order. *)
Definition got_from (c : nat) (l : list (nat * msg)) : list msg :=
  map snd (filter (fun p => Nat.eqb (fst p) c) l).
