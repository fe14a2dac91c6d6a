(** Model of internal/party/RBC.go:163-290 at the grain of single accesses to the shared variables.

    RbcModel.v does a round of decoding in one step.  Here the decoding goroutine and the one that handles Ready
    messages are interleaved: the latter holds mutexReadyMap (lines 179-232), the former takes it only while it
    copies T (lines 253-255) and reads and writes MaxReadyNumber and MaxReadyHash without it (lines 247, 275, 277,
    283). *)

Require Import ZArith List Bool Arith.
From Verif Require Import Bytes CodecModel GoBase DispatchModel RbcModel.
Import ListNotations.

(** Where the goroutine for Ready messages is: HFree without the lock; HNum: before line 192; HHash: before line
    193; HHold: lines 196-231, where it may wait for Echo messages as long as it likes; HDone: before line 232. *)
Inductive hph : Type := HFree | HNum (h : list Z) | HHash (h : list Z) | HHold (h : list Z) | HDone.

(** Where the decoding goroutine is: before line 243, 247, 254, 275, the read of MaxReadyHash in line 277, the write in
    line 277, the comparison of line 283, returned. *)
Inductive dph : Type :=
| DWait
| DSpin (r : nat)
| DCopy (r : nat)
| DLen (r : nat) (whole : list Z)
| DCut (r : nat) (whole : list Z) (len : Z)
| DWrite (r : nat) (whole : list Z) (len : Z) (h : list Z)
| DCmp (r : nat) (res : list Z)
| DOut (o : option (list Z)).

(** [d_start]: RSDecStart, set together with sending to RSDecStartChan. RBC.go:49-69: the variables of RBCReceive. *)
Record dst : Type := mkD {
  d_T : list (list Z * list (Z * list Z)); d_maxN : nat; d_maxH : list Z; d_got : list Z; d_start : bool;
  d_h : hph; d_d : dph }.

(** RBC.go:52-69. *)
Definition dec_init : dst := mkD [] 0 [] [] false HFree DWait.

(** The steps of the two goroutines, RBC.go:163-240 and 242-290. *)
Inductive dev : Type :=
| EvTake (sender : Z) (x : hm)   (* the handler takes a message *)
| EvHandler                      (* the handler goes on *)
| EvDecoder.                     (* the decoding goroutine goes on *)

Section Decode.
Variable sha : list Z -> list Z.
Variable rs_verify : nat -> nat -> list (list Z) -> bool.
Variable rs_reconstruct : nat -> nat -> list (list Z) -> list (list Z).
Variables N F : nat.

(** T[h] of RBC.go:183-189. *)
Definition Tat (st : dst) (h : list Z) : list (Z * list Z) :=
  match lookup h (d_T st) with Some l => l | None => [] end.

(** RBC.go:165-191. *)
Definition take_step (st : dst) (sender : Z) (x : hm) : option dst :=
  match d_h st with
  | HFree =>
    if existsb (Z.eqb sender) (d_got st) then Some st
    else
      let l := Tat st (fst x) ++ [(sender, snd x)] in
      Some (mkD (update (fst x) l (d_T st)) (d_maxN st) (d_maxH st) (sender :: d_got st) (d_start st)
              (if (d_maxN st <? length l) then HNum (fst x) else HHold (fst x)) (d_d st))
  | _ => None
  end.

(** RBC.go:192, 193, 228-232.  (The part in between, lines 196-225, touches none of the variables here.) *)
Definition handler_step (st : dst) : option dst :=
  match d_h st with
  | HFree => None
  | HNum h => Some (mkD (d_T st) (length (Tat st h)) (d_maxH st) (d_got st) (d_start st) (HHash h) (d_d st))
  | HHash h => Some (mkD (d_T st) (d_maxN st) h (d_got st) (d_start st) (HHold h) (d_d st))
  | HHold h => Some (mkD (d_T st) (d_maxN st) (d_maxH st) (d_got st)
                       (d_start st || (N - F <=? length (Tat st h))) HDone (d_d st))
  | HDone => Some (mkD (d_T st) (d_maxN st) (d_maxH st) (d_got st) (d_start st) HFree (d_d st))
  end.

(** The decoding loop moves on; helper, no counterpart in /repo. *)
Definition at_phase (st : dst) (maxH : list Z) (d : dph) : dst :=
  mkD (d_T st) (d_maxN st) maxH (d_got st) (d_start st) (d_h st) d.

(** RBC.go:243-291, one access at a time; [None]: the goroutine waits (for RSDecStartChan, for MaxReadyNumber in the
    loop of lines 246-250, for the lock). *)
Definition decoder_step (st : dst) : go (option dst) :=
  match d_d st with
  | DWait => Ret (if d_start st then Some (at_phase st (d_maxH st) (DSpin 0)) else None)
  | DSpin r => Ret (if (N - F + r <=? d_maxN st) then Some (at_phase st (d_maxH st) (DCopy r)) else None)
  | DCopy r =>
    match d_h st with
    | HFree =>
      M <- place N (N - F + r) (Tat st (d_maxH st)) ;;
      let M' := if rs_verify N F M then M else rs_reconstruct N F M in
      Ret (Some (at_phase st (d_maxH st) (DLen r (concat (firstn (N - (F + 1)) M')))))
    | _ => Ret None
    end
  | DLen r whole =>
    if (length (d_maxH st) <? 32) then Panic
    else Ret (Some (at_phase st (d_maxH st) (DCut r whole (BytesToInt (skipn 32 (d_maxH st))))))
  | DCut r whole len =>
    if (length (d_maxH st) <? 32) then Panic
    else Ret (Some (at_phase st (d_maxH st) (DWrite r whole len (firstn 32 (d_maxH st)))))
  | DWrite r whole len h =>
    if (Z.of_nat (length whole) <? len)%Z then Panic
    else Ret (Some (at_phase st h (DCmp r (firstn (Z.to_nat len) whole))))
  | DCmp r res =>
    Ret (Some (at_phase st (d_maxH st)
      (if bytes_eqb (sha res) (d_maxH st) then DOut (Some res) else if (r <? F) then DSpin (r + 1) else DOut None)))
  | DOut _ => Ret None
  end.

(** One step of either goroutine, RBC.go:163-240 or 242-290. *)
Definition dstep (st : dst) (e : dev) : go (option dst) :=
  match e with
  | EvTake s x => Ret (take_step st s x)
  | EvHandler => Ret (handler_step st)
  | EvDecoder => decoder_step st
  end.
End Decode.
