(** Strong provable broadcast, the sender: internal/party/spb.go.  The receivers are [value_step] of MvbaModel.v. *)

Require Import ZArith List Bool Arith.
From Verif Require Import Bytes GoBase DispatchModel MvbaModel.
Import ListNotations.

(** What the sender of instance j of round r has done with the Echo messages of the two stages in order of arrival:
    the Value messages it has broadcast (stage, value, validation) and, when it is done, its Finish message.
    spb.go:16-34, pb.go:16-52, main_process.go:71-82.  (Simplified: the context is not cancelled.) *)
Definition SPBSender (H : list Z -> list Z) (F : nat) (ID : list Z) (r j : nat) (v : list Z) (vd : sigv) (e1 e2 : list share) :
    list (nat * (list Z * sigv)) * option (list Z * sigv) :=
  match Sender F (smEcho ID r j 1 (H v)) [] e1 with
  | None => ([(1%nat, (v, vd))], None)
  | Some sig1 =>
    ([(1%nat, (v, vd)); (2%nat, (v, sig1))],
     match Sender F (smEcho ID r j 2 (H v)) [] e2 with None => None | Some sig2 => Some (v, sig2) end)
  end.
