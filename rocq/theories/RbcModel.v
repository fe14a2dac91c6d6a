(** Model of internal/party/RBC.go: reliable broadcast, one instance (one ID) at one member.

    The three goroutines of [RBCReceive] and its decoding loop become steps that may be taken in any
    order; the steps are cut where one of them can wait for or be overtaken by another.  Parsing of the
    payloads (proto.Unmarshal) is not modelled: a delivered Echo or Ready is a pair (hash, shard) of
    byte strings, any pair being possible.  SHA-256 and the Reed-Solomon coder (klauspost/reedsolomon,
    not in the repository) are parameters. *)

Require Import ZArith List Bool Arith Lia.
From Verif Require Import Bytes CodecModel GoBase DispatchModel VssModel.
Import ListNotations.

(** RBC.go:21-24: hash and shard. *)
Definition hm : Type := list Z * list Z.  (* RBC.go:21-24: hash and shard *)

(** Where the goroutine that handles Echo messages is (RBC.go:109-160). *)
Inductive ephase : Type :=
| ERecv                 (* line 111: waits for a message *)
| EPush (x : hm)        (* line 151: the channel readyChan is full; both mutexes are held *)
| ECheck                (* line 156: about to look at isReadySent *)
| EDone.                (* left the loop *)

(** Where the goroutine that handles Ready messages is (RBC.go:163-240). *)
Inductive rphase : Type :=
| RRecv                            (* line 165: waits for a message *)
| RWait (hash : list Z)            (* line 204: F+1 Ready messages for [hash]; waits for readyChan; mutexReadyMap is held *)
| RSend (hash : list Z) (x : hm).  (* line 207: got x from readyChan *)

(** The variables of RBC.go:45-69. *)
Record rst : Type := mkR {
  r_prop : bool;                               (* the Propose goroutine (lines 72-106) has ended *)
  r_echo : list (list Z * list (list Z * nat));   (* EchoMessageMap *)
  r_T : list (list Z * list (Z * list Z));     (* T: hash -> (sender, shard) ... *)
  r_maxN : nat; r_maxHash : list Z;            (* MaxReadyNumber, MaxReadyHash *)
  r_sent : bool;                               (* isReadySent *)
  r_chan : list hm;                            (* readyChan, capacity N *)
  r_got : list Z;                              (* senders with hasReceivedReady *)
  r_eph : ephase; r_rph : rphase;
  r_start : bool;                              (* RSDecStart *)
  r_round : nat;                               (* r of the loop at line 245 *)
  r_out : option (option (list Z)) }.          (* returned: the bytes parsed at line 285, or nil *)

(** RBC.go:45-69. *)
Definition rbc_init : rst := mkR false [] [] 0 [] false [] [] ERecv RRecv false 0 None.

(** Sent to member j / to all members. RBC.go:88-89, 140-141, 213-214. *)
Inductive rout : Type :=
| SendTo (j : nat) (x : hm)       (* RBCEcho *)
| SendAll (x : hm).               (* RBCReady *)

(** The steps: RBC.go:72-106, 109-160, 163-240, 245-289. *)
Inductive rev : Type :=
| EvPropose (sender : Z) (M : list Z)
| EvEcho (sender : Z) (x : hm)
| EvEchoPush
| EvEchoCheck
| EvReady (sender : Z) (x : hm)
| EvReadyPop
| EvReadySend
| EvDecode.

Section Rbc.
Variable sha : list Z -> list Z.
(** RSEncoder.Split, Encode: the N shards, or an error (then [shards] is nil or the encoder is nil). *)
Variable rs_encode : nat -> nat -> list Z -> option (list (list Z)).
(** RSEncoder.Verify without error and true; RSEncoder.Reconstruct (works in place).  A shard of length 0 is missing. *)
Variable rs_verify : nat -> nat -> list (list Z) -> bool.
Variable rs_reconstruct : nat -> nat -> list (list Z) -> list (list Z).
Variables N F : nat.

(** RBC.go:88: hash of M, then the length of M. *)
Definition tag (M : list Z) : list Z := sha M ++ IntToBytes (Z.of_nat (length M)).

(** RBC.go:72-106; a missing shard is an index out of range. *)
Definition propose_step (st : rst) (M : list Z) : go (option (rst * list rout)) :=
  if r_prop st then Ret None else
  match rs_encode N F M with
  | None => Panic
  | Some shards =>
    outs <- gomap (fun j => s <- idx shards j ;; Ret (SendTo j (tag M, s))) (seq 0 N) ;;
    Ret (Some (mkR true (r_echo st) (r_T st) (r_maxN st) (r_maxHash st) (r_sent st) (r_chan st) (r_got st)
                 (r_eph st) (r_rph st) (r_start st) (r_round st) (r_out st), outs))
  end.

(** EchoMessageMap[hash][shard], RBC.go:118-134. *)
Definition count (m : list (list Z * list (list Z * nat))) (x : hm) : nat :=
  match lookup (fst x) m with
  | Some m' => match lookup (snd x) m' with Some c => c | None => O end
  | None => O
  end.

(** RBC.go:118-134. *)
Definition count_echo (m : list (list Z * list (list Z * nat))) (x : hm) : list (list Z * list (list Z * nat)) :=
  match lookup (fst x) m with
  | Some m' =>
    let c := match lookup (snd x) m' with Some counter => (counter + 1)%nat | None => 1%nat end in
    update (fst x) (update (snd x) c m') m
  | None => update (fst x) (update (snd x) 1%nat []) m
  end.

(** RBC.go:111-154. *)
Definition echo_step (st : rst) (x : hm) : option (rst * list rout) :=
  match r_eph st with
  | ERecv =>
    let m := count_echo (r_echo st) x in
    let c := count m x in
    let fire := negb (r_sent st) && (N - F <=? c) in
    let push := (F + 1 <=? c) in
    let room := (length (r_chan st) <? N) in
    Some (mkR (r_prop st) m (r_T st) (r_maxN st) (r_maxHash st) (r_sent st || fire)
            (if push && room then r_chan st ++ [x] else r_chan st) (r_got st)
            (if push && negb room then EPush x else ECheck) (r_rph st) (r_start st) (r_round st) (r_out st),
          if fire then [SendAll x] else [])
  | _ => None
  end.

(** The Echo goroutine (RBC.go:109-160) moves on; helper, no counterpart in /repo. *)
Definition set_echo (st : rst) (ch : list hm) (e : ephase) : rst :=
  mkR (r_prop st) (r_echo st) (r_T st) (r_maxN st) (r_maxHash st) (r_sent st) ch (r_got st) e (r_rph st)
    (r_start st) (r_round st) (r_out st).

(** RBC.go:151, once there is room. *)
Definition push_step (st : rst) : option (rst * list rout) :=
  match r_eph st with
  | EPush x => if (length (r_chan st) <? N) then Some (set_echo st (r_chan st ++ [x]) ECheck, []) else None
  | _ => None
  end.

(** RBC.go:156-158. *)
Definition check_step (st : rst) : option (rst * list rout) :=
  match r_eph st with
  | ECheck => Some (set_echo st (r_chan st) (if r_sent st then EDone else ERecv), [])
  | _ => None
  end.

(** T[hash], RBC.go:183-189. *)
Definition Tof (st : rst) (h : list Z) : list (Z * list Z) :=
  match lookup h (r_T st) with Some l => l | None => [] end.

(** RBC.go:228-231: enough Ready messages to start decoding. *)
Definition dec_start (st : rst) (hash : list Z) : bool :=
  r_start st || (N - F <=? length (Tof st hash)).

(** RBC.go:165-201 and, when nothing has to be awaited, 223-232.  A Sender of the map
    hasReceivedReady may be any number.  [mutex] is held by the Echo goroutine while it waits at line 151. *)
Definition ready_step (st : rst) (sender : Z) (x : hm) : option (rst * list rout) :=
  match r_rph st, r_eph st with
  | _, EPush _ => None
  | RRecv, _ =>
    if existsb (Z.eqb sender) (r_got st) then Some (st, [])
    else
      let l := Tof st (fst x) ++ [(sender, snd x)] in
      let T := update (fst x) l (r_T st) in
      let more := (r_maxN st <? length l) in
      let st1 := mkR (r_prop st) (r_echo st) T (if more then length l else r_maxN st) (if more then fst x else r_maxHash st)
                   (r_sent st) (r_chan st) (sender :: r_got st) (r_eph st) RRecv (r_start st) (r_round st) (r_out st) in
      if negb (r_sent st) && (F + 1 <=? length l) then
        Some (mkR (r_prop st1) (r_echo st1) (r_T st1) (r_maxN st1) (r_maxHash st1) (r_sent st1) (r_chan st1) (r_got st1)
                (r_eph st1) (RWait (fst x)) (r_start st1) (r_round st1) (r_out st1), [])
      else
        Some (mkR (r_prop st1) (r_echo st1) (r_T st1) (r_maxN st1) (r_maxHash st1) (r_sent st1) (r_chan st1) (r_got st1)
                (r_eph st1) RRecv (dec_start st1 (fst x)) (r_round st1) (r_out st1), [])
  | _, _ => None
  end.

(** RBC.go:204. *)
Definition pop_step (st : rst) : option (rst * list rout) :=
  match r_rph st, r_chan st with
  | RWait hash, x :: ch =>
    Some (mkR (r_prop st) (r_echo st) (r_T st) (r_maxN st) (r_maxHash st) (r_sent st) ch (r_got st) (r_eph st)
            (RSend hash x) (r_start st) (r_round st) (r_out st), [])
  | _, _ => None
  end.

(** RBC.go:207-220, then 228-232; the hash announced is the one of the Ready messages, the shard the one of x. *)
Definition send_step (st : rst) : option (rst * list rout) :=
  match r_rph st, r_eph st with
  | RSend _ _, EPush _ => None
  | RSend hash x, _ =>
    if (F + 1 <=? count (r_echo st) x) then
      Some (mkR (r_prop st) (r_echo st) (r_T st) (r_maxN st) (r_maxHash st) true (r_chan st) (r_got st) (r_eph st)
              RRecv (dec_start st hash) (r_round st) (r_out st), [SendAll (hash, snd x)])
    else
      Some (mkR (r_prop st) (r_echo st) (r_T st) (r_maxN st) (r_maxHash st) (r_sent st) (r_chan st) (r_got st) (r_eph st)
              (RWait hash) (r_start st) (r_round st) (r_out st), [])
  | _, _ => None
  end.

(** RBC.go:252-260: the shards at their places; [mReceivedTemp] has zero values where T has too few. *)
Definition place (k : nat) (l : list (Z * list Z)) : go (list (list Z)) :=
  gofold (fun M (e : Z * list Z) =>
      if (fst e <? Z.of_nat (length M))%Z && (0 <=? fst e)%Z then Ret (set_nth (Z.to_nat (fst e)) (snd e) M) else Panic)
    (firstn k l ++ repeat (0%Z, []) (k - length l)) (repeat [] N).

(** RBC.go:245-289: one round of the loop.  (Simplified: a length larger than what was reconstructed
    panics; in Go it may still be within the capacity of the slice, which then ends in zero bytes.) *)
Definition decode_step (st : rst) : go (option (rst * list rout)) :=
  match r_out st, r_rph st with
  | None, RRecv =>
    if r_start st && (N - F + r_round st <=? r_maxN st) then
      let k := (N - F + r_round st)%nat in
      M <- place k (Tof st (r_maxHash st)) ;;
      let M' := if rs_verify N F M then M else rs_reconstruct N F M in
      let whole := concat (firstn (N - (F + 1)) M') in
      if (length (r_maxHash st) <? 32) then Panic else
      let mLen := BytesToInt (skipn 32 (r_maxHash st)) in
      let h := firstn 32 (r_maxHash st) in
      if (Z.of_nat (length whole) <? mLen)%Z then Panic else
      let res := firstn (Z.to_nat mLen) whole in
      let out := if bytes_eqb (sha res) h then Some (Some res)
                 else if (r_round st <? F) then None else Some None in
      Ret (Some (mkR (r_prop st) (r_echo st) (r_T st) (r_maxN st) h (r_sent st) (r_chan st) (r_got st) (r_eph st)
                   (r_rph st) (r_start st) (r_round st + 1) out, []))
    else Ret None
  | _, _ => Ret None
  end.

(** One step of a member; [None] is a step that cannot be taken now. RBC.go:72-289. *)
Definition rstep (st : rst) (e : rev) : go (option (rst * list rout)) :=
  match e with
  | EvPropose _ M => propose_step st M
  | EvEcho _ x => Ret (echo_step st x)
  | EvEchoPush => Ret (push_step st)
  | EvEchoCheck => Ret (check_step st)
  | EvReady s x => Ret (ready_step st s x)
  | EvReadyPop => Ret (pop_step st)
  | EvReadySend => Ret (send_step st)
  | EvDecode => decode_step st
  end.

(** ** The committee *)

(** What the honest members have sent, and which Echo messages have been taken by whom.
    No counterpart in /repo (all members running RBC.go:45-289). *)
Record gst : Type := mkG {
  g_st : nat -> rst;
  g_echo : list (nat * nat * hm);       (* (from, to, message) *)
  g_ready : list (nat * hm);            (* (from, message), to all *)
  g_took : list (nat * Z * hm) }.       (* Echo messages taken: (by, claimed sender, message) *)

(** RBC.go:45-69 at every member. *)
Definition g_init : gst := mkG (fun _ => rbc_init) [] [] [].

(** Changing one member; helper, no counterpart in /repo. *)
Definition put (f : nat -> rst) (i : nat) (st : rst) (k : nat) : rst := if (k =? i)%nat then st else f k.

(** Messages of RBC.go:89; helper, no counterpart in /repo. *)
Definition echoes_of (i : nat) (outs : list rout) : list (nat * nat * hm) :=
  flat_map (fun o => match o with SendTo j x => [(i, j, x)] | SendAll _ => [] end) outs.
(** Messages of RBC.go:141, 214; helper, no counterpart in /repo. *)
Definition readys_of (i : nat) (outs : list rout) : list (nat * hm) :=
  flat_map (fun o => match o with SendAll x => [(i, x)] | SendTo _ _ => [] end) outs.

(** History of RBC.go:111; helper, no counterpart in /repo. *)
Definition took_of (i : nat) (e : rev) : list (nat * Z * hm) :=
  match e with EvEcho s x => [(i, s, x)] | _ => [] end.

(** One member has made a step; helper, no counterpart in /repo. *)
Definition gnext (g : gst) (i : nat) (e : rev) (st : rst) (outs : list rout) : gst :=
  mkG (put (g_st g) i st) (g_echo g ++ echoes_of i outs) (g_ready g ++ readys_of i outs) (g_took g ++ took_of i e).
End Rbc.
