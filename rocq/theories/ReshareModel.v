(** Model of internal/party/ProactivizeAndShareDist.go:143-213 and 256-332 with the goroutines and channels.

    ProacModel.v handles a Reshare message in one step whenever the commitments of its dealer are accepted.
    Here are the N goroutines of the voting stage, each of which takes one message, whoever sent it (line 264),
    reads flgCom (line 271) and, if it is not set, waits for the one value that the verifying goroutine puts
    into startVote[indexJ] (line 208) after setting flgCom (line 207). *)

Require Import ZArith List Bool Arith Lia.
From Verif Require Import Fr Poly CodecModel GoBase PolyModel GroupModel KzgModel PartyModel VssModel ProacModel.
Import ListNotations.

(** [v_st]: the variables shared with the rest of the function.  [v_told]: line 208 has been executed for this
    dealer; [v_tok]: the value is in startVote; [v_free]: goroutines that have not taken a message; [v_wait]:
    (sender, message) of the goroutines at line 273. *)
Record vst : Type := mkV { v_st : pst; v_told : list bool; v_tok : list bool; v_free : nat; v_wait : list (Z * ReshareMsg) }.

(** Lines 27-39 and 261: N goroutines, empty channels. *)
Definition vote_init (p : Party) (st : pst) : vst :=
  mkV st (repeat false (p_N p + 1)) (repeat false (p_N p + 1)) (p_N p) [].

(** Lines 208 and 264-330. *)
Inductive vev : Type :=
| VTell (j : nat)                      (* line 208 of verifying goroutine j *)
| VTake (sender : Z) (m : ReshareMsg)  (* a goroutine takes a message and reads flgCom *)
| VWake (i : nat)                      (* waiting goroutine i receives from startVote *)
| VOther (e : pev).                    (* the other goroutines of the function *)

Section Stage.
Variable cd : g1codec.
Variable sign : nat -> list Z.
Variable sigok : nat -> list Z -> bool.
Variable combine : nat -> list (list Z) -> list Z.

(** Line 269: indexes are uint32. *)
Definition index_of (sender : Z) : nat := Z.to_nat ((sender + 1) mod 2 ^ 32).

(** Lines 276-330. *)
Definition do_vote (p : Party) (st : pst) (sender : Z) (m : ReshareMsg) : go (list RecoverMsg) :=
  row <- idx (s_CQ st) (index_of sender) ;;
  o <- Vote cd p row ((sender + 1) mod 2 ^ 32) (sign (index_of sender)) m ;;
  Ret (match o with Some ms => ms | None => [] end).

(** What a step does to the outside: a vote (dealer's message and the Recover messages sent). Lines 308-327. *)
Definition vout : Type := option (Z * ReshareMsg * list RecoverMsg).

(** One step; the inner [None]: not possible in this state. Lines 208, 264-330. *)
Definition vstep (p : Party) (v : vst) (e : vev) : go (option (vst * vout)) :=
  match e with
  | VTell j =>
    if nth j (s_flgCom (v_st v)) false && negb (nth j (v_told v) true)
    then Ret (Some (mkV (v_st v) (set_nth j true (v_told v)) (set_nth j true (v_tok v)) (v_free v) (v_wait v), None))
    else Ret None
  | VTake sender m =>
    match v_free v with
    | O => Ret None
    | S n =>
      flg <- idx (s_flgCom (v_st v)) (index_of sender) ;;
      if (flg : bool) then
        ms <- do_vote p (v_st v) sender m ;;
        Ret (Some (mkV (v_st v) (v_told v) (v_tok v) n (v_wait v), Some (sender, m, ms)))
      else Ret (Some (mkV (v_st v) (v_told v) (v_tok v) n (v_wait v ++ [(sender, m)]), None))
    end
  | VWake i =>
    match nth_error (v_wait v) i with
    | None => Ret None
    | Some (sender, m) =>
      if nth (index_of sender) (v_tok v) false then
        ms <- do_vote p (v_st v) sender m ;;
        Ret (Some (mkV (v_st v) (v_told v) (set_nth (index_of sender) false (v_tok v)) (v_free v)
                     (firstn i (v_wait v) ++ skipn (S i) (v_wait v)), Some (sender, m, ms)))
      else Ret None
    end
  | VOther (EvReshare _ _) => Ret None
  | VOther e => x <- pstep cd sign sigok combine p (v_st v) e ;; Ret (Some (mkV (fst x) (v_told v) (v_tok v) (v_free v) (v_wait v), None))
  end.
End Stage.
