(** Model of the length-prefixed message stream over one TCP connection
    (/repo/pkg/core/send.go:38-61, /repo/pkg/core/receive.go:47-70).

    A message is the byte string made by [proto.Marshal]; parsing it is a separate
    concern (see the envelope model).  TCP is a reliable byte stream which may
    be cut anywhere: the network appends segments to the kernel buffer, and a [Read] call
    inside [io.ReadFull] returns any positive number of bytes that are available and wanted.
    Connection failure, which stops the process ([log.Fatalln]), is in DownModel.v. *)

Require Import ZArith List Bool.
From Verif Require Import Bytes CodecModel.
Import ListNotations.
Local Open Scope Z_scope.

(** /repo/pkg/core/send.go:49-51: [conn.Write(utils.IntToBytes(length)); conn.Write(byt)]. *)
Definition frame (m : list Z) : list Z := IntToBytes (Z.of_nat (length m)) ++ m.

(** The bytes written for a sequence of messages (the loop of send.go:39-60). *)
Definition stream (ms : list (list Z)) : list Z := concat (map frame ms).

(** Which [io.ReadFull] the receiver is in: for the header (receive.go:50-51) or for a
    body of [n] bytes (receive.go:53-54). *)
Inductive rx_phase : Type := RHead | RBody (n : nat).

(** receive.go:47-70: what the reader of one connection has. *)
Record rx : Type := mkRx {
  kern : list Z;            (** arrived but unread bytes *)
  phase : rx_phase;
  acc : list Z;             (** bytes already read by the current [io.ReadFull] *)
  out : list (list Z)       (** messages pushed to the receive channel, oldest first *)
}.

(** receive.go:47-50: nothing read yet. *)
Definition rx_init : rx := mkRx [] RHead [] [].

(** receive.go:50, 53: the size of the buffer to be filled. *)
Definition target (ph : rx_phase) : nat := match ph with RHead => 4 | RBody n => n end.

(** End of one [io.ReadFull]: receive.go:52-53 after the header, 60-67 after the body.  A
    body of length 0 is complete at once, because [io.ReadFull] on an empty buffer
    returns without reading. *)
Definition complete (ph : rx_phase) (got : list Z) (o : list (list Z)) : rx_phase * list (list Z) :=
  match ph with
  | RHead => let n := Z.to_nat (BytesToInt got) in
             match n with O => (RHead, o ++ [[]]) | S _ => (RBody n, o) end
  | RBody _ => (RHead, o ++ [got])
  end.

(** One [Read] that returns [k] bytes; not enabled (no effect) unless
    0 < k <= min(wanted, available). *)
Definition rx_read (k : nat) (s : rx) : rx :=
  let want := (target (phase s) - length (acc s))%nat in
  if (0 <? k)%nat && (k <=? want)%nat && (k <=? length (kern s))%nat then
    let got := acc s ++ firstn k (kern s) in
    if (length got =? target (phase s))%nat then
      let (ph, o) := complete (phase s) got (out s) in
      mkRx (skipn k (kern s)) ph [] o
    else mkRx (skipn k (kern s)) (phase s) got (out s)
  else s.

(** Bytes arrive from the network, or io.ReadFull (receive.go:51, 54) gets some of them. *)
Inductive rx_event : Type := Arrive (seg : list Z) | Read (k : nat).

(** receive.go:47-70. *)
Definition rx_step (s : rx) (e : rx_event) : rx :=
  match e with
  | Arrive seg => mkRx (kern s ++ seg) (phase s) (acc s) (out s)
  | Read k => rx_read k s
  end.

(** receive.go:47-70 for a list of events. *)
Definition rx_run (es : list rx_event) : rx := fold_left rx_step es rx_init.

(** All bytes that arrived, in order. The bytes written at send.go:50-51 that have arrived. *)
Definition arrived (es : list rx_event) : list Z :=
  concat (map (fun e => match e with Arrive seg => seg | Read _ => [] end) es).
