(** Model of the agreement protocol: internal/party/pb.go, spb.go, main_process.go, message_handler.go.

    Threshold signatures (kyber tbls/bls) are symbolic here: a signature share is known by its signer
    and its message, a full signature by its message; everything else does not verify.  What the
    network may deliver is restricted in [allowed] below (no forgery).  SHA3-512 is a parameter [H].
    The goroutines of a member are steps that may be taken in any order. *)

Require Import ZArith List Bool Arith Lia.
From Verif Require Import Bytes CodecModel GoBase DispatchModel.
Import ListNotations.

(** A signature share as received: by signer i on a message, or one that verifies for nothing.
    pb.go:77-82, message_handler.go:71-74. *)
Inductive share : Type := Sh (i : nat) (sm : list Z) | ShBad.
(** A full signature as received: valid for a message, or for nothing (for example nil).
    pb.go:45, message_handler.go:45, 112, 142, 196, 217. *)
Inductive sigv : Type := Sig (sm : list Z) | NoSig.

(** tbls VerifyPartial, bls Verify with SigPK.Commit(). pb.go:40, message_handler.go:71, 157, 198, 224. *)
Definition vshare (sm : list Z) (s : share) : bool := match s with Sh _ sm' => bytes_eqb sm' sm | ShBad => false end.
(** As for [vshare]: spb.go:64, message_handler.go:45, 112, 142, 196, 217. *)
Definition vsig (sm : list Z) (s : sigv) : bool := match s with Sig sm' => bytes_eqb sm' sm | NoSig => false end.

(** The index in a share (the first bytes of it, TsigModel.v); helper, no counterpart in /repo. *)
Definition signer (s : share) : nat := match s with Sh i _ => i | ShBad => O end.

(** All different; helper, no counterpart in /repo. *)
Fixpoint nodupb (l : list nat) : bool :=
  match l with [] => true | a :: l => negb (existsb (Nat.eqb a) l) && nodupb l end.

(** tbls Recover: the first t shares valid for sm; with fewer than t different signers among them it
    returns nil and an error (that all callers drop).  See TsigModel.v for the scheme itself.
    Called at pb.go:45, message_handler.go:81, 161, 202, 228. *)
Definition recover (t : nat) (sm : list Z) (l : list share) : sigv :=
  let s := map signer (firstn t (filter (vshare sm) l)) in
  if (t <=? length s)%nat && nodupb s then Sig sm else NoSig.

(** ** What is signed *)

(** pb.go:28. *)
Definition bEcho : list Z := [69; 99; 104; 111]%Z.                  (* "Echo" *)
(** main_process.go:160. *)
Definition bDone : list Z := [68; 111; 110; 101]%Z.                 (* "Done" *)
(** message_handler.go:163. *)
Definition bUnlock : list Z := [85; 110; 108; 111; 99; 107]%Z.      (* "Unlock" *)

(** main_process.go:45-48. *)
Definition idr (ID : list Z) (r : nat) : list Z := ID ++ Uint32ToBytes (Z.of_nat r).
(** main_process.go:50-56. *)
Definition idrj (ID : list Z) (r j : nat) : list Z := idr ID r ++ Uint32ToBytes (Z.of_nat j).
(** spb.go:18-23. *)
Definition idstage (ID : list Z) (r j stage : nat) : list Z := idrj ID r j ++ [Z.of_nat stage].

(** pb.go:27-31, 72-76; spb.go:57-63; message_handler.go:38-44, 105-111, 135-141, 189-195. *)
Definition smEcho (ID : list Z) (r j stage : nat) (h : list Z) : list Z := bEcho ++ idstage ID r j stage ++ h.
(** main_process.go:159-162; message_handler.go:60-63. *)
Definition smDone (ID : list Z) (r : nat) : list Z := bDone ++ idr ID r.
(** main_process.go:185-188; message_handler.go:153-156, 213-216. *)
Definition smNo (ID : list Z) (r : nat) : list Z := [0%Z] ++ idr ID r.
(** message_handler.go:162-165, 219-223. *)
Definition smUnlock (ID : list Z) (r : nat) : list Z := bUnlock ++ idr ID r.

(** ** Provable broadcast, sender *)

(** pb.go:16-52: the shares taken so far from the Echo messages in order of arrival, and the result
    (signature, true) once there are more than 2F valid ones.  [None]: still waiting. *)
Fixpoint Sender (F : nat) (sm : list Z) (sigs : list share) (echoes : list share) : option sigv :=
  match echoes with
  | [] => None
  | s :: rest =>
    if vshare sm s then
      if (2 * F <? length (sigs ++ [s]))%nat then Some (recover (2 * F + 1) sm (sigs ++ [s]))
      else Sender F sm (sigs ++ [s]) rest
    else Sender F sm sigs rest
  end.

(** ** One member *)

(** First thing put into voteFlagChannel (0, 1, 2) and what goes with it. *)
Inductive vres : Type := VYes (v : list Z) (s : sigv) | VNo (s : sigv) | VOther (v : list Z) (s : sigv).

(** One round (main_process.go:24-151) of one member. *)
Record rnd : Type := mkD {
  d_stage : nat -> nat;                      (* SPBReceiver of member j: 0 waits for stage 1, 1 for stage 2, 2 is done *)
  d_lock : nat -> option (list Z * sigv);    (* Lr *)
  d_fin : list (nat * (list Z * sigv));      (* Fr *)
  d_finN : nat;                              (* FrLength *)
  d_done : bool;                             (* something was put into doneFlagChannel *)
  d_doneSent : bool;                         (* election has ended *)
  d_coins : list share;                      (* coins *)
  d_lead : option nat;                       (* the leader *)
  d_past : bool;                             (* the main process is past line 116: preVote and vote are running *)
  d_pre : bool;                              (* preVote has ended *)
  d_pn : list share;                         (* PNr *)
  d_flag : option (option (list Z * sigv));  (* first thing put into preVoteFlagChannel: true with value and signature, or false *)
  d_voted : bool;                            (* vote has ended *)
  d_vy : list share; d_vn : list share;      (* VYr, VNr *)
  d_vflag : option vres }.

(** main_process.go:26-48: at the start of a round. *)
Definition rnd0 : rnd := mkD (fun _ => O) (fun _ => None) [] 0 false false [] None false false [] None false [] [] None.

(** The variables of main_process.go:20-24 that outlive a round. *)
Record mst : Type := mkM {
  m_rounds : nat -> rnd;
  m_r : nat;                    (* current round *)
  m_val : list Z;               (* value *)
  m_halt : option (list Z);     (* haltChannel, capacity 1 *)
  m_out : option (list Z) }.    (* returned *)

(** main_process.go:20-24. *)
Definition mvba_init (v : list Z) : mst := mkM (fun _ => rnd0) 0 v None None.

(** The steps of a member: main_process.go:58-69, 93-151, 154-227, message_handler.go:30-236, pb.go:55-88. *)
Inductive mev : Type :=
| EvValue (r j stage : nat) (v : list Z) (vd : sigv)   (* a Value message for SPBReceiver j, stage 1 or 2 *)
| EvFinish (r : nat) (s : Z) (v : list Z) (sg : sigv)
| EvElection (r : nat)
| EvDone (r : nat) (sh : share)
| EvLeader                                             (* the main process takes the leader *)
| EvPreVote (r : nat)                                  (* the goroutine preVote *)
| EvPreVoteYes (r : nat) (v : list Z) (sg : sigv)
| EvPreVoteNo (r : nat) (sh : share)
| EvVote (r : nat)                                     (* the goroutine vote *)
| EvVoteYes (r : nat) (v : list Z) (sg : sigv) (sh : share)
| EvVoteNo (r : nat) (sg : sigv) (sh : share)
| EvHalt (r : nat) (v : list Z) (sg : sigv)
| EvHaltTake                                           (* the main process takes from haltChannel *)
| EvResult.                                            (* the main process takes from voteFlagChannel *)

Section Mvba.
Variable H : list Z -> list Z.                 (* SHA3-512 *)
Variable coin : list Z -> Z.                   (* utils.BytesToUint32 of the valid signature on a message *)
Variables N F : nat.
Variable ID : list Z.

(** Changing one round; helper, no counterpart in /repo. *)
Definition putr (f : nat -> rnd) (r : nat) (d : rnd) (k : nat) : rnd := if (k =? r)%nat then d else f k.
(** Changing one round of a member; helper, no counterpart in /repo. *)
Definition setr (st : mst) (r : nat) (d : rnd) : mst :=
  mkM (putr (m_rounds st) r d) (m_r st) (m_val st) (m_halt st) (m_out st).

(** Changing one entry; helper, no counterpart in /repo. *)
Definition up {A} (f : nat -> A) (j : nat) (x : A) (k : nat) : A := if (k =? j)%nat then x else f k.

(** pb.go:55-88 in the two stages of spb.go:38-54, called at main_process.go:58-69.  Stage 1 has no
    validator.  A failing validator is a log.Fatalln (pb.go:66).  The sender of the message is not
    looked at (pb.go:60).  The goroutines have ended when the main process is past line 103.  What
    [Receiver] returns in stage 1 is not looked at (spb.go:47): when the context was cancelled
    (main_process.go:98, 102, with a Halt message or a leader) stage 1 is given up and stage 2 may
    still take a message that is there, because a Go [select] with several ready cases takes any. *)
Definition stage_ready (st : mst) (d : rnd) (j stage : nat) : bool :=
  (stage =? S (d_stage d j))%nat ||
  ((stage =? 2) && (d_stage d j =? 0))%nat &&
  match d_lead d, m_out st with None, None => false | _, _ => true end.

(** pb.go:55-88, spb.go:38-54. *)
Definition value_step (st : mst) (r j stage : nat) (v : list Z) (vd : sigv) : go (option (mst * list (list Z))) :=
  let d := m_rounds st r in
  if (r <=? m_r st)%nat && negb (d_past d) && (j <? N)%nat && stage_ready st d j stage then
    match stage with
    | 1%nat => Ret (Some (setr st r (mkD (up (d_stage d) j 1%nat) (d_lock d) (d_fin d) (d_finN d) (d_done d) (d_doneSent d) (d_coins d)
                 (d_lead d) (d_past d) (d_pre d) (d_pn d) (d_flag d) (d_voted d) (d_vy d) (d_vn d) (d_vflag d)), [smEcho ID r j 1 (H v)]))
    | 2%nat =>
      if vsig (smEcho ID r j 1 (H v)) vd then
        Ret (Some (setr st r (mkD (up (d_stage d) j 2%nat) (up (d_lock d) j (Some (v, vd))) (d_fin d) (d_finN d) (d_done d) (d_doneSent d)
                 (d_coins d) (d_lead d) (d_past d) (d_pre d) (d_pn d) (d_flag d) (d_voted d) (d_vy d) (d_vn d) (d_vflag d)),
             [smEcho ID r j 2 (H v)]))
      else Fatal
    | _ => Ret None
    end
  else Ret None.

(** message_handler.go:30-55; [IDrj\[m.Sender\]] may be out of range. *)
Definition finish_step (st : mst) (r : nat) (s : Z) (v : list Z) (sg : sigv) : go (option (mst * list (list Z))) :=
  let d := m_rounds st r in
  if (r <=? m_r st)%nat then
    if (0 <=? s)%Z && (s <? Z.of_nat N)%Z then
      if vsig (smEcho ID r (Z.to_nat s) 2 (H v)) sg then
        Ret (Some (setr st r (mkD (d_stage d) (d_lock d) ((Z.to_nat s, (v, sg)) :: d_fin d) (S (d_finN d))
              (d_done d || (S (d_finN d) =? 2 * F + 1)%nat) (d_doneSent d)
              (d_coins d) (d_lead d) (d_past d) (d_pre d) (d_pn d) (d_flag d) (d_voted d) (d_vy d) (d_vn d) (d_vflag d)), []))
      else Ret (Some (st, []))
    else Panic
  else Ret None.

(** main_process.go:154-172. *)
Definition election_step (st : mst) (r : nat) : option (mst * list (list Z)) :=
  let d := m_rounds st r in
  if (r <=? m_r st)%nat && d_done d && negb (d_doneSent d) then
    Some (setr st r (mkD (d_stage d) (d_lock d) (d_fin d) (d_finN d) (d_done d) true (d_coins d) (d_lead d) (d_past d) (d_pre d)
            (d_pn d) (d_flag d) (d_voted d) (d_vy d) (d_vn d) (d_vflag d)), [smDone ID r])
  else None.

(** message_handler.go:59-92.  A coin that could not be recovered is nil, which reads as 0. *)
Definition done_step (st : mst) (r : nat) (sh : share) : option (mst * list (list Z)) :=
  let d := m_rounds st r in
  match d_lead d with
  | Some _ => None
  | None =>
    if (r <=? m_r st)%nat then
      if vshare (smDone ID r) sh then
        let coins := d_coins d ++ [sh] in
        let lead := if (2 * F <? length coins)%nat
                    then Some (Z.to_nat ((match recover (2 * F + 1) (smDone ID r) coins with Sig sm => coin sm | NoSig => 0 end) mod Z.of_nat N)%Z)
                    else None in
        Some (setr st r (mkD (d_stage d) (d_lock d) (d_fin d) (d_finN d) (d_done d || (length coins =? F + 1)%nat) (d_doneSent d) coins
                lead (d_past d) (d_pre d) (d_pn d) (d_flag d) (d_voted d) (d_vy d) (d_vn d) (d_vflag d)), [])
      else Some (st, [])
    else None
  end.

(** Reading a map (Fr.Load, main_process.go:106); helper, no counterpart in /repo. *)
Fixpoint assoc {A} (k : nat) (l : list (nat * A)) : option A :=
  match l with [] => None | (k', a) :: l => if (k =? k')%nat then Some a else assoc k l end.

(** main_process.go:101-122: the shortcut returns the value of the leader's Finish message. *)
Definition leader_step (st : mst) : option (mst * list (list Z)) :=
  let r := m_r st in
  let d := m_rounds st r in
  match m_out st, d_lead d with
  | None, Some l =>
    if d_past d then None else
    let st' := setr st r (mkD (d_stage d) (d_lock d) (d_fin d) (d_finN d) (d_done d) (d_doneSent d) (d_coins d) (d_lead d) true
                            (d_pre d) (d_pn d) (d_flag d) (d_voted d) (d_vy d) (d_vn d) (d_vflag d)) in
    match assoc l (d_fin d) with
    | Some (v, _) => Some (mkM (m_rounds st') (m_r st') (m_val st') (m_halt st') (Some v), [])
    | None => Some (st', [])
    end
  | _, _ => None
  end.

(** main_process.go:174-197: with a lock the member announces it, without one it signs No.
    (After the shortcut the goroutine is not started; leaving it possible only adds behaviour.) *)
Definition preVote_step (st : mst) (r : nat) : option (mst * list (list Z)) :=
  let d := m_rounds st r in
  match d_lead d with
  | Some l =>
    if d_past d && negb (d_pre d) then
      Some (setr st r (mkD (d_stage d) (d_lock d) (d_fin d) (d_finN d) (d_done d) (d_doneSent d) (d_coins d) (d_lead d) (d_past d) true
              (d_pn d) (d_flag d) (d_voted d) (d_vy d) (d_vn d) (d_vflag d)),
            match d_lock d l with Some _ => [] | None => [smNo ID r] end)
    else None
  | None => None
  end.

(** message_handler.go:130-152.  The share signed at line 146 leaves the member only in [vote]; what is
    put into the channels after the first flag is never read. *)
Definition preVoteYes_step (st : mst) (r : nat) (v : list Z) (sg : sigv) : option (mst * list (list Z)) :=
  let d := m_rounds st r in
  match d_lead d with
  | Some l =>
    if vsig (smEcho ID r l 1 (H v)) sg then
      Some (setr st r (mkD (d_stage d) (d_lock d) (d_fin d) (d_finN d) (d_done d) (d_doneSent d) (d_coins d) (d_lead d) (d_past d) (d_pre d)
              (d_pn d) (match d_flag d with None => Some (Some (v, sg)) | f => f end) (d_voted d) (d_vy d) (d_vn d) (d_vflag d)), [])
    else Some (st, [])
  | None => None
  end.

(** message_handler.go:152-173. *)
Definition preVoteNo_step (st : mst) (r : nat) (sh : share) : option (mst * list (list Z)) :=
  let d := m_rounds st r in
  match d_lead d with
  | Some l =>
    if vshare (smNo ID r) sh then
      let pn := d_pn d ++ [sh] in
      Some (setr st r (mkD (d_stage d) (d_lock d) (d_fin d) (d_finN d) (d_done d) (d_doneSent d) (d_coins d) (d_lead d) (d_past d) (d_pre d)
              pn (match d_flag d with None => if (2 * F <? length pn)%nat then Some None else None | f => f end)
              (d_voted d) (d_vy d) (d_vn d) (d_vflag d)), [])
    else Some (st, [])
  | None => None
  end.

(** main_process.go:199-227: the member votes once, as the first flag says. *)
Definition vote_step (st : mst) (r : nat) : option (mst * list (list Z)) :=
  let d := m_rounds st r in
  match d_lead d, d_flag d with
  | Some l, Some f =>
    if d_past d && negb (d_voted d) then
      Some (setr st r (mkD (d_stage d) (d_lock d) (d_fin d) (d_finN d) (d_done d) (d_doneSent d) (d_coins d) (d_lead d) (d_past d) (d_pre d)
              (d_pn d) (d_flag d) true (d_vy d) (d_vn d) (d_vflag d)),
            match f with Some (v, _) => [smEcho ID r l 2 (H v)] | None => [smUnlock ID r] end)
    else None
  | _, _ => None
  end.

(** A channel of which only the first value is read (voteFlagChannel, main_process.go:129); helper, no
    counterpart in /repo. *)
Definition first {A} (a b : option A) : option A := match a with Some _ => a | None => b end.

(** message_handler.go:187-210. *)
Definition voteYes_step (st : mst) (r : nat) (v : list Z) (sg : sigv) (sh : share) : option (mst * list (list Z)) :=
  let d := m_rounds st r in
  match d_lead d with
  | Some l =>
    if vsig (smEcho ID r l 1 (H v)) sg && vshare (smEcho ID r l 2 (H v)) sh then
      let vy := d_vy d ++ [sh] in
      let res := if (2 * F <? length vy)%nat then Some (VYes v (recover (2 * F + 1) (smEcho ID r l 2 (H v)) vy))
                 else if (2 * F <? length vy + length (d_vn d))%nat then Some (VOther v sg) else None in
      Some (setr st r (mkD (d_stage d) (d_lock d) (d_fin d) (d_finN d) (d_done d) (d_doneSent d) (d_coins d) (d_lead d) (d_past d) (d_pre d)
              (d_pn d) (d_flag d) (d_voted d) vy (d_vn d) (first (d_vflag d) res)), [])
    else Some (st, [])
  | None => None
  end.

(** message_handler.go:210-234: the signature is recovered from the shares of the yes-votes (line 228). *)
Definition voteNo_step (st : mst) (r : nat) (sg : sigv) (sh : share) : option (mst * list (list Z)) :=
  let d := m_rounds st r in
  match d_lead d with
  | Some l =>
    if vsig (smNo ID r) sg && vshare (smUnlock ID r) sh then
      let vn := d_vn d ++ [sh] in
      let res := if (2 * F <? length vn)%nat then Some (VNo (recover (2 * F + 1) (smUnlock ID r) (d_vy d))) else None in
      Some (setr st r (mkD (d_stage d) (d_lock d) (d_fin d) (d_finN d) (d_done d) (d_doneSent d) (d_coins d) (d_lead d) (d_past d) (d_pre d)
              (d_pn d) (d_flag d) (d_voted d) (d_vy d) vn (first (d_vflag d) res)), [])
    else Some (st, [])
  | None => None
  end.

(** message_handler.go:97-120. *)
Definition halt_step (st : mst) (r : nat) (v : list Z) (sg : sigv) : option (mst * list (list Z)) :=
  match d_lead (m_rounds st r) with
  | Some l =>
    if vsig (smEcho ID r l 2 (H v)) sg then
      match m_halt st with
      | None => Some (mkM (m_rounds st) (m_r st) (m_val st) (Some v) (m_out st), [])
      | Some _ => None
      end
    else Some (st, [])
  | None => None
  end.

(** main_process.go:97-100, 126-128. *)
Definition haltTake_step (st : mst) : option (mst * list (list Z)) :=
  match m_out st, m_halt st with
  | None, Some v => Some (mkM (m_rounds st) (m_r st) (m_val st) None (Some v), [])
  | _, _ => None
  end.

(** main_process.go:129-148; [validation] is not modelled (no one looks at it in stage 1). *)
Definition result_step (st : mst) : option (mst * list (list Z)) :=
  let d := m_rounds st (m_r st) in
  match m_out st, d_vflag d with
  | None, Some f =>
    if d_past d then
      match f with
      | VYes v _ => Some (mkM (m_rounds st) (m_r st) (m_val st) (m_halt st) (Some v), [])
      | VNo _ => Some (mkM (m_rounds st) (S (m_r st)) (m_val st) (m_halt st) None, [])
      | VOther v _ => Some (mkM (m_rounds st) (S (m_r st)) v (m_halt st) None, [])
      end
    else None
  | _, _ => None
  end.

(** One step of a member: new state and the messages for which it has sent its signature share.
    main_process.go:20-227, message_handler.go:30-236, pb.go:55-88. *)
Definition mstep (st : mst) (e : mev) : go (option (mst * list (list Z))) :=
  match e with
  | EvValue r j stage v vd => value_step st r j stage v vd
  | EvFinish r s v sg => finish_step st r s v sg
  | EvElection r => Ret (election_step st r)
  | EvDone r sh => Ret (done_step st r sh)
  | EvLeader => Ret (leader_step st)
  | EvPreVote r => Ret (preVote_step st r)
  | EvPreVoteYes r v sg => Ret (preVoteYes_step st r v sg)
  | EvPreVoteNo r sh => Ret (preVoteNo_step st r sh)
  | EvVote r => Ret (vote_step st r)
  | EvVoteYes r v sg sh => Ret (voteYes_step st r v sg sh)
  | EvVoteNo r sg sh => Ret (voteNo_step st r sg sh)
  | EvHalt r v sg => Ret (halt_step st r v sg)
  | EvHaltTake => Ret (haltTake_step st)
  | EvResult => Ret (result_step st)
  end.
End Mvba.

(** ** The committee *)

(** The members, and which signature shares honest members have sent.
    No counterpart in /repo (all members running main_process.go:20-152). *)
Record gstate : Type := mkGS { gs_m : nat -> mst; gs_rel : list (nat * list Z) }.

(** main_process.go:20-24 at every member. *)
Definition gs_init (vals : nat -> list Z) : gstate := mkGS (fun i => mvba_init (vals i)) [].
(** One member has made a step; helper, no counterpart in /repo. *)
Definition gs_next (g : gstate) (i : nat) (st : mst) (sms : list (list Z)) : gstate :=
  mkGS (fun k => if (k =? i)%nat then st else gs_m g k) (gs_rel g ++ map (fun sm => (i, sm)) sms).
