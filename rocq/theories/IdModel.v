(** Identifiers of the broadcast instances of a handoff and what is signed there
    (internal/party/ProactivizeAndShareDist.go). *)

Require Import ZArith List Bool Arith Lia.
Import ListNotations.

(** strconv.FormatUint(n, 10): the digits, least significant first, with enough fuel. *)
Fixpoint digits (fuel n : nat) : list Z :=
  match fuel with
  | O => []
  | S fuel => (48 + Z.of_nat (n mod 10))%Z :: (if (n <? 10)%nat then [] else digits fuel (n / 10))
  end.
(** A number as printed by %d or string conversion of an index in the IDs (ProactivizeAndShareDist.go:135, 145).
    *)
Definition dec (n : nat) : list Z := List.rev (digits (S n) n).

(** ProactivizeAndShareDist.go:135 (sender, j = PID + 1) and :145. *)
Definition commitID (ID : list Z) (j : nat) : list Z := ID ++ [95; 49; 44]%Z ++ dec j.
(** ProactivizeAndShareDist.go:565 (sender, j = PID + 1) and :573. *)
Definition newCommitID (ID : list Z) (j : nat) : list Z := ID ++ [95; 50; 44]%Z ++ dec j.

(** ProactivizeAndShareDist.go:302: what is signed for the resharing of dealer j in the handoff ID. *)
Definition smReshare (ID : list Z) (j : nat) : list Z := dec j.
