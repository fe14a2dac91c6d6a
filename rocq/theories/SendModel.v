(** Model of sending and broadcasting
    (/repo/internal/party/party_utils.go:38-121, /repo/internal/party/party.go:163-165).

    A send channel is [None] while it is nil (a send on a nil channel blocks forever), else
    [Some log] with the messages that were put into it.  Simplification: a channel never
    fills up (the sender goroutine of send.go drains it). *)

Require Import ZArith List Bool.
From Verif Require Import DispatchModel.
Import ListNotations.

(** What party_utils.go:38-104 can end in. *)
Inductive outcome (A : Type) : Type :=
| Ok (a : A)          (** returned nil *)
| Err (a : A)         (** returned an error, with this state *)
| Blocked             (** never returns *)
| Crashed.            (** run-time panic *)
Arguments Ok {A}. Arguments Err {A}. Arguments Blocked {A}. Arguments Crashed {A}.

(** party.go:46, 50: a slice of channels, nil where none was made. *)
Definition chans : Type := list (option (list msg)).

(** The fields that matter of [HonestParty] (party.go:40-54); a nil slice is [None]. *)
Record sparty : Type := mkSP {
  sp_N : nat;
  sendChannels : option chans;
  sendToNextChannels : option chans
}.

(** party.go:123-199 [NewHonestParty]: both slices are made with N nil channels. *)
Definition new_party (n : nat) : sparty := mkSP n (Some (repeat None n)) (Some (repeat None n)).

(** party_utils.go:21-27 [InitSendChannel], 29-35 [InitSendToNextChannel]. *)
Definition init_send (p : sparty) : sparty :=
  mkSP (sp_N p) (Some (repeat (Some []) (sp_N p))) (sendToNextChannels p).
(** party_utils.go:29-35 [InitSendToNextChannel]. *)
Definition init_send_next (p : sparty) : sparty :=
  mkSP (sp_N p) (sendChannels p) (Some (repeat (Some []) (sp_N p))).

(** party_utils.go:115-117: tests the channels to the next committee. *)
Definition checkSendChannelsInit (p : sparty) : bool :=
  match sendToNextChannels p with Some _ => true | None => false end.
(** party_utils.go:119-121. *)
Definition checkInitSendChannelsToNext (p : sparty) : bool :=
  match sendToNextChannels p with Some _ => true | None => false end.

(** [c[des] <- m] on a slice of channels. party_utils.go:43, 56. *)
Definition put (cs : option chans) (des : nat) (m : msg) : outcome chans :=
  match cs with
  | None => Crashed
  | Some l => match nth_error l des with
              | None => Crashed
              | Some None => Blocked
              | Some (Some log) => Ok (upd_nth des (fun _ => Some (log ++ [m])) l)
              end
  end.

(** party_utils.go:38-48 [Send]. *)
Definition Send (p : sparty) (m : msg) (des : nat) : outcome sparty :=
  if negb (checkSendChannelsInit p) then Err p
  else if (des <? sp_N p)%nat then
    match put (sendChannels p) des m with
    | Ok l => Ok (mkSP (sp_N p) (Some l) (sendToNextChannels p))
    | Err _ => Crashed
    | Blocked => Blocked
    | Crashed => Crashed
    end
  else Err p.

(** party_utils.go:51-60 [SendToNextCommittee]. *)
Definition SendToNextCommittee (p : sparty) (m : msg) (des : nat) : outcome sparty :=
  if negb (checkInitSendChannelsToNext p) then Err p
  else if (des <? sp_N p)%nat then
    match put (sendToNextChannels p) des m with
    | Ok l => Ok (mkSP (sp_N p) (sendChannels p) (Some l))
    | Err _ => Crashed
    | Blocked => Blocked
    | Crashed => Crashed
    end
  else Err p.

(** A loop of sends that stops at the first one that does not succeed. party_utils.go:67-72, 81-88, 97-102. *)
Fixpoint send_all (send : sparty -> nat -> outcome sparty) (ds : list nat) (p : sparty) : outcome sparty :=
  match ds with
  | [] => Ok p
  | d :: ds' => match send p d with Ok p' => send_all send ds' p' | o => o end
  end.

(** party_utils.go:63-74 [Broadcast]. *)
Definition Broadcast (p : sparty) (m : msg) : outcome sparty :=
  if negb (checkSendChannelsInit p) then Err p
  else send_all (fun q d => Send q m d) (seq 0 (sp_N p)) p.

(** party_utils.go:77-90 [BroadcastExclude]. *)
Definition BroadcastExclude (p : sparty) (m : msg) (pid : nat) : outcome sparty :=
  if negb (checkSendChannelsInit p) then Err p
  else send_all (fun q d => if Nat.eqb d pid then Ok q else Send q m d) (seq 0 (sp_N p)) p.

(** party_utils.go:93-104 [BroadcastToNextCommittee]. *)
Definition BroadcastToNextCommittee (p : sparty) (m : msg) : outcome sparty :=
  if negb (checkInitSendChannelsToNext p) then Err p
  else send_all (fun q d => SendToNextCommittee q m d) (seq 0 (sp_N p)) p.
