(** Processes and the connections between them when processes stop: pkg/core/receive.go:35-74, pkg/core/send.go:18-61,
    internal/party/party_utils.go:15-37.

    A connection is made by the sender's MakeSendChannel and read by a goroutine of the receiver; frames are read as in
    FramingModel.v and pushed to the one receive channel of the process, from which the dispatcher takes them.  When a
    process stops, for whatever reason, the operating system closes its connections; a reader learns this when it has read
    what arrived before, and stops its own process (receive.go:55-58).  A sender that writes to a stopped process gets an
    error and stops as well (send.go:52-59).

    Simplified: bytes may arrive on a connection in any amount and with any content, also from a sender that has stopped,
    until the end of the stream arrives; which messages the dispatcher takes is left open (DispatchModel.v). *)

Require Import ZArith List Bool Arith.
From Verif Require Import CodecModel FramingModel GoBase DispatchModel ProtoModel StageModel.
Import ListNotations.

(** One connection: the history of arrivals and reads, the number of frames that were handed on, and whether the end of
    the stream has arrived. send.go:18-61, receive.go:35-74. *)
Record conn : Type := mkConn { c_from : nat; c_to : nat; c_es : list rx_event; c_done : nat; c_fin : bool }.

(** The processes that listen; which are up (also of those that only connect); receive channels; connections.
    send.go:18-61, receive.go:35-74, party_utils.go:15-37. *)
Record world : Type := mkWorld { w_procs : list nat; w_up : nat -> bool; w_q : nat -> list msg; w_conns : list conn }.

(** send.go:15 [MAXMESSAGE]. *)
Definition full (q : list msg) : bool := (1024 <=? Z.of_nat (length q))%Z.

(** log.Fatalln in process i (receive.go:55-58, send.go:52-59), or its end for another reason. *)
Definition stop (w : world) (i : nat) : world := mkWorld (w_procs w) (put (w_up w) i false) (w_q w) (w_conns w).
(** Changing a connection; helper, no counterpart in /repo. *)
Definition set_conn (w : world) (x : nat) (c : conn) : world :=
  mkWorld (w_procs w) (w_up w) (w_q w) (set_nth x c (w_conns w)).
(** Changing the receive channel of a process (receive.go:36); helper, no counterpart in /repo. *)
Definition set_q (w : world) (j : nat) (q : list msg) : world := mkWorld (w_procs w) (w_up w) (put (w_q w) j q) (w_conns w).

(** What can happen: send.go:18-61, receive.go:35-74, dispatche.go:16. *)
Inductive wev : Type :=
(* from outside *)
| EOpen (i j : nat)               (* somebody connects to process j *)
| EDial (i j : nat)               (* i connects to j, where nobody listens *)
| EArrive (x : nat) (seg : list Z)
| EStop (i : nat)                 (* i ends or is stopped by what it has received (C49) *)
| EWrite (x : nat)                (* the sender of connection x writes, the receiver being down *)
(* by themselves *)
| EFin (x : nat)                  (* the end of the stream arrives *)
| ERead (x k : nat)
| EEof (x : nat)
| EPush (x : nat)
| ETake (j : nat).                (* the dispatcher of j takes a message *)

(** Does the reader of c wait for bytes, k of which it can get? (FramingModel.rx_read) receive.go:51, 54. *)
Definition can_read (c : conn) (k : nat) : bool :=
  let s := rx_run (c_es c) in
  (c_done c =? length (out s)) && (0 <? k) && (k <=? target (phase s) - length (acc s)) && (k <=? length (kern s)).

(** [None]: the event is not possible. send.go:18-61, receive.go:35-74. *)
Definition wstep (w : world) (e : wev) : option world :=
  match e with
  | EOpen i j =>
    if existsb (Nat.eqb j) (w_procs w) && w_up w i && w_up w j
    then Some (mkWorld (w_procs w) (w_up w) (w_q w) (w_conns w ++ [mkConn i j [] 0 false])) else None
  | EDial i j => (* send.go:24-34: the loop does not try again, log.Fatalln ends the process *)
    if w_up w i && negb (existsb (Nat.eqb j) (w_procs w) && w_up w j) then Some (stop w i) else None
  | EStop i => Some (stop w i)
  | ETake j =>
    match w_q w j with
    | _ :: q => if existsb (Nat.eqb j) (w_procs w) && w_up w j then Some (set_q w j q) else None
    | [] => None
    end
  | EArrive x seg =>
    match nth_error (w_conns w) x with
    | Some c => if c_fin c then None else Some (set_conn w x (mkConn (c_from c) (c_to c) (c_es c ++ [Arrive seg]) (c_done c) (c_fin c)))
    | None => None
    end
  | EWrite x =>
    match nth_error (w_conns w) x with
    | Some c => if w_up w (c_from c) && negb (w_up w (c_to c)) then Some (stop w (c_from c)) else None
    | None => None
    end
  | EFin x =>
    match nth_error (w_conns w) x with
    | Some c => if negb (w_up w (c_from c)) && negb (c_fin c) then Some (set_conn w x (mkConn (c_from c) (c_to c) (c_es c) (c_done c) true)) else None
    | None => None
    end
  | ERead x k =>
    match nth_error (w_conns w) x with
    | Some c => if w_up w (c_to c) && can_read c k
                then Some (set_conn w x (mkConn (c_from c) (c_to c) (c_es c ++ [Read k]) (c_done c) (c_fin c))) else None
    | None => None
    end
  | EEof x =>
    match nth_error (w_conns w) x with
    | Some c => let s := rx_run (c_es c) in
      if w_up w (c_to c) && (c_done c =? length (out s)) && (length (kern s) =? 0) && c_fin c then Some (stop w (c_to c)) else None
    | None => None
    end
  | EPush x =>
    match nth_error (w_conns w) x with
    | Some c =>
      match nth_error (out (rx_run (c_es c))) (c_done c) with
      | Some b =>
        if w_up w (c_to c) then
          let (m, ok) := UnmarshalMessage b in
          if ok then
            if full (w_q w (c_to c)) then None
            else Some (set_q (set_conn w x (mkConn (c_from c) (c_to c) (c_es c) (c_done c + 1) (c_fin c))) (c_to c) (w_q w (c_to c) ++ [m]))
          else Some (stop w (c_to c))
        else None
      | None => None
      end
    | None => None
    end
  end.

(** What happens without anything from outside.
    Steps of the processes and of the network of the operating system; helper, no counterpart in /repo. *)
Definition own (e : wev) : bool := match e with EFin _ | ERead _ _ | EEof _ | EPush _ | ETake _ => true | _ => false end.

(** Runs; helper, no counterpart in /repo. *)
Inductive wruns (w0 : world) : list wev -> world -> Prop :=
| wr_nil : wruns w0 [] w0
| wr_step evs w e w' : wruns w0 evs w -> wstep w e = Some w' -> wruns w0 (evs ++ [e]) w'.
