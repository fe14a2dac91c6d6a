(** Reliable broadcast of a message: from the caller of RBCSend to the result of RBCReceive. *)

Require Import String ZArith List.
From Verif Require Import Bytes GoBase DispatchModel ProtoModel SendModel RbcModel.
Import ListNotations.

Section RbcSend.
(** What proto.Marshal returns beside an error, which RBCSend drops (RBC.go:29, 39); any bytes. *)
Variable left_over : msg -> list Z.

(** RBC.go:29, 39: the bytes that are proposed. *)
Definition proposed (M : msg) : list Z := match MarshalMessage M with Ret b => b | _ => left_over M end.

(** RBC.go:30, 40: the envelope. *)
Definition proposal (pid : Z) (M : msg) (ID : list Z) : msg := mkMsg (bytes_of_string "RBCPropose") ID pid (proposed M).

(** RBC.go:27-35 [RBCSend]; an error of Broadcast is only logged. *)
Definition RBCSend (p : sparty) (pid : Z) (M : msg) (ID : list Z) : outcome sparty :=
  match Broadcast p (proposal pid M ID) with Err p' => Ok p' | o => o end.

(** RBC.go:37-42 [RBCSendExclude]. *)
Definition RBCSendExclude (p : sparty) (pid : Z) (M : msg) (ID : list Z) (ex : nat) : outcome sparty :=
  match BroadcastExclude p (proposal pid M ID) ex with Err p' => Ok p' | o => o end.
End RbcSend.

(** RBC.go:283-291: what RBCReceive returns, once it does, is parsed from the bytes without looking at the error. *)
Definition RBCReturn (st : rst) : option (option msg) :=
  match r_out st with
  | None => None
  | Some None => Some None
  | Some (Some b) => Some (Some (fst (UnmarshalMessage b)))
  end.

(** ProactivizeAndShareDist.go:145-148, 573-574: the goroutines that wait for a broadcast read the field Data of
    what RBCReceive has returned without looking whether it is nil; [Ret None]: still waiting. *)
Definition caller_data (st : rst) : go (option (list Z)) :=
  match RBCReturn st with
  | None => Ret None
  | Some None => Panic
  | Some (Some m) => Ret (Some (m_data m))
  end.
