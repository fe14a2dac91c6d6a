(** Model of the messages of /repo/pkg/protobuf/Message.proto (generated code
    /repo/pkg/protobuf/Message.pb.go) as written by [proto.Marshal] and read by [proto.Unmarshal], of
    /repo/pkg/core/message_encapsulation.go, and of the two ends of a connection
    (/repo/pkg/core/send.go:38-61, /repo/pkg/core/receive.go:47-70).

    The library google.golang.org/protobuf v1.27.1 (go.mod) is not part of /repo; its wire format is
    modelled from its published source (encoding/protowire/wire.go, internal/impl/decode.go,
    internal/impl/codec_field.go, codec_gen.go).  Simplifications: unknown fields are dropped instead of
    being kept aside (the program never marshals a message which it has parsed); a nil and an empty
    byte string are the same value; the nesting limit for unknown groups is left out. *)

Require Import Ascii String ZArith List Bool.
From Verif Require Import Bytes CodecModel GoBase FramingModel DispatchModel PartyModel ReduceModel ProacModel.
Import ListNotations.
Local Open Scope Z_scope.
Local Open Scope list_scope.

(** []byte; helper, no counterpart in /repo. *)
Definition bytes : Type := list Z.

(** ** Variable-length integers (protowire/wire.go, [AppendVarint] and [ConsumeVarint]) *)

(** AppendVarint; library google.golang.org/protobuf v1.27.1. *)
Fixpoint put_varint (fuel : nat) (v : Z) : bytes :=
  match fuel with
  | O => []
  | S f => if v <? 128 then [v] else (v mod 128 + 128) :: put_varint f (v / 128)
  end.
(** protowire.AppendVarint; library google.golang.org/protobuf v1.27.1. *)
Definition AppendVarint (v : Z) : bytes := put_varint 10 v.

(** [left] bytes may still be read; the tenth byte may only be 0 or 1. *)
Fixpoint get_varint (left : nat) (b : bytes) : option (Z * bytes) :=
  match left, b with
  | S l, x :: b' =>
      if x <? 128 then (if (l =? 0)%nat && (1 <? x) then None else Some (x, b'))
      else match get_varint l b' with
           | Some (v, r) => Some (x - 128 + 128 * v, r)
           | None => None
           end
  | _, _ => None
  end.
(** protowire.ConsumeVarint; library google.golang.org/protobuf v1.27.1. *)
Definition ConsumeVarint (b : bytes) : option (Z * bytes) := get_varint 10 b.

(** ** Records: field number and value *)

(** The wire types 0-5; library google.golang.org/protobuf v1.27.1. *)
Inductive wire : Type :=
| WVarint (v : Z)        (* wire type 0 *)
| WFixed64 (b : bytes)   (* 1 *)
| WLen (b : bytes)       (* 2 *)
| WGroup                 (* 3, skipped up to its end *)
| WFixed32 (b : bytes).  (* 5 *)

(** Field number and value; library google.golang.org/protobuf v1.27.1. *)
Definition rec : Type := (Z * wire)%type.

(** Number and wire type of the next record; numbers are between 1 and 2^29-1. *)
Definition ConsumeTag (b : bytes) : option (Z * Z * bytes) :=
  match ConsumeVarint b with
  | Some (t, r) => if (1 <=? t / 8) && (t / 8 <=? 2 ^ 29 - 1) then Some (t / 8, t mod 8, r) else None
  | None => None
  end.

(** The first n bytes; library google.golang.org/protobuf v1.27.1. *)
Definition take (n : nat) (b : bytes) : option (bytes * bytes) :=
  if (n <=? List.length b)%nat then Some (firstn n b, skipn n b) else None.

(** Values other than groups. protowire.ConsumeFieldValue; library google.golang.org/protobuf v1.27.1. *)
Definition consume_plain (wt : Z) (b : bytes) : option (wire * bytes) :=
  if wt =? 0 then match ConsumeVarint b with Some (v, r) => Some (WVarint v, r) | None => None end
  else if wt =? 1 then match take 8 b with Some (v, r) => Some (WFixed64 v, r) | None => None end
  else if wt =? 2 then
    match ConsumeVarint b with
    | Some (n, r) =>
        if n <=? Z.of_nat (List.length r) then
          match take (Z.to_nat n) r with Some (v, r') => Some (WLen v, r') | None => None end
        else None
    | None => None
    end
  else if wt =? 5 then match take 4 b with Some (v, r) => Some (WFixed32 v, r) | None => None end
  else None.

(** Skipping the group [num]; nested groups too.
    protowire.ConsumeFieldValue, type 3; library google.golang.org/protobuf v1.27.1. *)
Fixpoint skip_group (fuel : nat) (num : Z) (b : bytes) : option bytes :=
  match fuel with
  | O => None
  | S f =>
      match ConsumeTag b with
      | None => None
      | Some (n, wt, r) =>
          if wt =? 4 then (if n =? num then Some r else None)
          else match (if wt =? 3 then skip_group f n r
                      else match consume_plain wt r with Some (_, r') => Some r' | None => None end) with
               | Some r' => skip_group f num r'
               | None => None
               end
      end
  end.

(** protowire.ConsumeTag and ConsumeFieldValue; library google.golang.org/protobuf v1.27.1. *)
Definition consume_rec (b : bytes) : option (rec * bytes) :=
  match ConsumeTag b with
  | None => None
  | Some (n, wt, r) =>
      if wt =? 3 then match skip_group (List.length r) n r with Some r' => Some ((n, WGroup), r') | None => None end
      else match consume_plain wt r with Some (w, r') => Some ((n, w), r') | None => None end
  end.

(** The records up to the first malformed one, and whether all bytes were well formed.
    The loop of impl.unmarshalPointer; library google.golang.org/protobuf v1.27.1. *)
Fixpoint parse (fuel : nat) (b : bytes) : list rec * bool :=
  match b with
  | [] => ([], true)
  | _ =>
      match fuel with
      | O => ([], false)
      | S f =>
          match consume_rec b with
          | None => ([], false)
          | Some (r, b') => let (rs, ok) := parse f b' in (r :: rs, ok)
          end
      end
  end.

(** The appenders of codec_gen.go; library google.golang.org/protobuf v1.27.1. *)
Definition put_rec (r : rec) : bytes :=
  let (n, w) := r in
  match w with
  | WVarint v => AppendVarint (n * 8) ++ AppendVarint v
  | WFixed64 b => AppendVarint (n * 8 + 1) ++ b
  | WLen b => AppendVarint (n * 8 + 2) ++ AppendVarint (Z.of_nat (List.length b)) ++ b
  | WGroup => AppendVarint (n * 8 + 3) ++ AppendVarint (n * 8 + 4)
  | WFixed32 b => AppendVarint (n * 8 + 5) ++ b
  end.
(** Several records; library google.golang.org/protobuf v1.27.1. *)
Definition put_recs (rs : list rec) : bytes := concat (map put_rec rs).

(** ** Fields *)

(** [utf8.Valid] of the Go library. *)
Definition within (lo hi x : Z) : bool := (lo <=? x) && (x <=? hi).
(** unicode/utf8 Valid; standard library of Go 1.18. *)
Fixpoint utf8_valid (b : bytes) : bool :=
  match b with
  | [] => true
  | x :: r =>
    if within 0 127 x then utf8_valid r else
    match r with
    | [] => false
    | y :: r1 =>
      if within 194 223 x && within 128 191 y then utf8_valid r1 else
      match r1 with
      | [] => false
      | z :: r2 =>
        if within 224 239 x && within (if x =? 224 then 160 else 128) (if x =? 237 then 159 else 191) y
           && within 128 191 z then utf8_valid r2 else
        match r2 with
        | [] => false
        | w :: r3 =>
          if within 240 244 x && within (if x =? 240 then 144 else 128) (if x =? 244 then 143 else 191) y
             && within 128 191 z && within 128 191 w then utf8_valid r3 else false
        end
      end
    end
  end.

(** Types of fields in Message.proto.  A nested message is kept as its bytes; [chk] tells whether they
    parse as the nested type. The types in Message.proto:5-138. *)
Inductive kind : Type :=
| KBytes | KStr | KU32 | KBool | KRepBytes | KRepU32
| KMsg (chk : bytes -> bool) | KRepMsg (chk : bytes -> bool).

(** Values of the Go structs for Message.proto:5-138. *)
Inductive fval : Type :=
| VB (b : bytes) | VN (n : Z) | VF (f : bool) | VL (l : list bytes) | VNs (l : list Z) | VO (o : option bytes).

(** Field numbers and types, as in Message.proto:5-138. *)
Definition schema : Type := list (Z * kind).

(** Records written for one field (codec_gen.go, the "NoZero" and slice encoders): zero values of
    singular fields are not written; lists of integers are packed into one record.
    For library google.golang.org/protobuf v1.27.1. *)
Definition recs_of (n : Z) (k : kind) (v : fval) : list rec :=
  match k, v with
  | KBytes, VB b | KStr, VB b => match b with [] => [] | _ => [(n, WLen b)] end
  | KU32, VN x => if x =? 0 then [] else [(n, WVarint x)]
  | KBool, VF f => if f then [(n, WVarint 1)] else []
  | KRepBytes, VL l | KRepMsg _, VL l => map (fun b => (n, WLen b)) l
  | KRepU32, VNs l => match l with [] => [] | _ => [(n, WLen (concat (map AppendVarint l)))] end
  | KMsg _, VO (Some b) => [(n, WLen b)]
  | _, _ => []
  end.

(** A string field (only Message.proto:6) must be UTF-8; library google.golang.org/protobuf v1.27.1. *)
Definition str_ok (k : kind) (v : fval) : bool :=
  match k, v with KStr, VB b => utf8_valid b | _, _ => true end.

(** [proto.Marshal]: fields in the order of their numbers; a string that is not valid UTF-8 makes it
    fail. *)
Fixpoint Marshal (sch : schema) (vs : list fval) : go bytes :=
  match sch, vs with
  | (n, k) :: sch', v :: vs' =>
      if str_ok k v then rest <- Marshal sch' vs' ;; Ret (put_recs (recs_of n k v) ++ rest) else Error
  | _, _ => Ret []
  end.

(** ** Reading *)

(** A packed list of integers. codec_gen.go consumeUint32Slice; library google.golang.org/protobuf v1.27.1. *)
Fixpoint unpack (fuel : nat) (b : bytes) : option (list Z) :=
  match b with
  | [] => Some []
  | _ =>
      match fuel with
      | O => None
      | S f =>
          match ConsumeVarint b with
          | None => None
          | Some (v, r) => match unpack f r with Some l => Some (v :: l) | None => None end
          end
      end
  end.

(** The field with a number; library google.golang.org/protobuf v1.27.1. *)
Definition lookup_kind (sch : schema) (n : Z) : option kind :=
  match find (fun f => fst f =? n) sch with Some f => Some (snd f) | None => None end.

(** What the decoder does with one well-formed record: takes it (or ignores it as unknown), stops
    without it, or stops after merging it partially.
    impl.unmarshalPointer; library google.golang.org/protobuf v1.27.1. *)
Inductive verdict : Type := Good | Stop | StopAfter.

(** impl.unmarshalPointer; library google.golang.org/protobuf v1.27.1. *)
Definition judge (sch : schema) (r : rec) : verdict :=
  match lookup_kind sch (fst r), snd r with
  | Some KStr, WLen b => if utf8_valid b then Good else Stop
  | Some KRepU32, WLen b => match unpack (List.length b) b with Some _ => Good | None => Stop end
  | Some (KMsg chk), WLen b => if chk b then Good else StopAfter
  | Some (KRepMsg chk), WLen b => if chk b then Good else Stop
  | _, _ => Good
  end.

(** The loop of impl.unmarshalPointer stops at the first error; library google.golang.org/protobuf v1.27.1. *)
Fixpoint cut (sch : schema) (rs : list rec) : list rec * bool :=
  match rs with
  | [] => ([], true)
  | r :: rs' =>
      match judge sch r with
      | Good => let (l, ok) := cut sch rs' in (r :: l, ok)
      | Stop => ([], false)
      | StopAfter => ([r], false)
      end
  end.

(** The values of the field [n] among the records: byte strings, integers, packed lists of integers.
    For library google.golang.org/protobuf v1.27.1. *)
Definition lens (n : Z) (rs : list rec) : list bytes :=
  flat_map (fun r => match snd r with WLen b => if fst r =? n then [b] else [] | _ => [] end) rs.
(** As [lens], integers; library google.golang.org/protobuf v1.27.1. *)
Definition nums (n : Z) (rs : list rec) : list Z :=
  flat_map (fun r => match snd r with WVarint v => if fst r =? n then [v] else [] | _ => [] end) rs.
(** As [lens], lists of integers; library google.golang.org/protobuf v1.27.1. *)
Definition packed (n : Z) (rs : list rec) : list Z :=
  flat_map (fun r => if fst r =? n then
                       match snd r with
                       | WVarint v => [v]
                       | WLen b => match unpack (List.length b) b with Some l => l | None => [] end
                       | _ => []
                       end
                     else []) rs.

(** The last occurrence of a singular field wins; the occurrences of a nested message are merged,
    which is the same as reading their concatenation. For library google.golang.org/protobuf v1.27.1. *)
Definition field (n : Z) (k : kind) (rs : list rec) : fval :=
  match k with
  | KBytes | KStr => VB (last (lens n rs) [])
  | KU32 => VN (last (nums n rs) 0 mod 2 ^ 32)
  | KBool => VF (negb (last (nums n rs) 0 =? 0))
  | KRepBytes | KRepMsg _ => VL (lens n rs)
  | KRepU32 => VNs (map (fun v => v mod 2 ^ 32) (packed n rs))
  | KMsg _ => VO (match lens n rs with [] => None | l => Some (concat l) end)
  end.

(** [proto.Unmarshal] into a fresh message: the fields (partially filled when it fails) and whether
    it returned nil. For library google.golang.org/protobuf v1.27.1. *)
Definition Unmarshal (sch : schema) (b : bytes) : list fval * bool :=
  let (rs, ok) := parse (List.length b) b in
  let (rs', ok') := cut sch rs in
  (map (fun f => field (fst f) (snd f) rs') sch, ok && ok').

(** ** The messages of Message.proto (line numbers of that file) *)

(** pkg/protobuf/Message.proto:5-10. *)
Definition S_Message : schema := [(1, KStr); (2, KBytes); (3, KU32); (4, KBytes)].
(** pkg/protobuf/Message.proto:14-17. *)
Definition S_Value : schema := [(1, KBytes); (2, KBytes)].
(** pkg/protobuf/Message.proto:19-21. *)
Definition S_Echo : schema := [(1, KBytes)].
(** pkg/protobuf/Message.proto:24-27. *)
Definition S_Lock : schema := [(1, KBytes); (2, KBytes)].
(** pkg/protobuf/Message.proto:29-32. *)
Definition S_Finish : schema := [(1, KBytes); (2, KBytes)].
(** pkg/protobuf/Message.proto:34-36. *)
Definition S_Done : schema := [(1, KBytes)].
(** pkg/protobuf/Message.proto:38-41. *)
Definition S_Halt : schema := [(1, KBytes); (2, KBytes)].
(** pkg/protobuf/Message.proto:43-47. *)
Definition S_PreVote : schema := [(1, KBool); (2, KBytes); (3, KBytes)].
(** pkg/protobuf/Message.proto:49-54. *)
Definition S_Vote : schema := [(1, KBool); (2, KBytes); (3, KBytes); (4, KBytes)].
(** pkg/protobuf/Message.proto:56-59. *)
Definition S_RBCEcho : schema := [(1, KBytes); (2, KBytes)].
(** pkg/protobuf/Message.proto:61-64. *)
Definition S_RBCReady : schema := [(1, KBytes); (2, KBytes)].
(** pkg/protobuf/Message.proto:66-72. *)
Definition S_PiContent : schema :=
  [(1, KU32); (2, KBytes); (3, KBytes); (4, KBytes); (5, KBytes)].
(** pkg/protobuf/Message.proto:74-77. *)
Definition S_Pi : schema := [(1, KBytes); (2, KRepMsg (fun b => snd (Unmarshal S_PiContent b)))].
(** pkg/protobuf/Message.proto:79-83. *)
Definition S_VSSSend : schema :=
  [(1, KMsg (fun b => snd (Unmarshal S_Pi b))); (2, KRepBytes); (3, KRepBytes)].
(** pkg/protobuf/Message.proto:102-106. *)
Definition S_ShareReduce : schema := [(1, KBytes); (2, KBytes); (3, KBytes)].
(** pkg/protobuf/Message.proto:107-109. *)
Definition S_Commit : schema := [(1, KRepMsg (fun b => snd (Unmarshal S_PiContent b)))].
(** pkg/protobuf/Message.proto:110-113. *)
Definition S_Reshare : schema := [(1, KRepBytes); (2, KRepBytes)].
(** pkg/protobuf/Message.proto:114-119. *)
Definition S_Recover : schema := [(1, KU32); (2, KBytes); (3, KBytes); (4, KBytes)].
(** pkg/protobuf/Message.proto:120-122. *)
Definition S_NewCommit : schema := [(1, KBytes)].
(** pkg/protobuf/Message.proto:123-126. *)
Definition S_ShareDist : schema := [(1, KBytes); (2, KBytes)].
(** pkg/protobuf/Message.proto:127-129. *)
Definition S_Success : schema := [(1, KBytes)].
(** pkg/protobuf/Message.proto:131-134. *)
Definition S_MVBAIN : schema := [(1, KRepBytes); (2, KRepU32)].
(** pkg/protobuf/Message.proto:136-138. *)
Definition S_Prepare : schema := [(1, KRepBytes)].

(** Fields of a parsed message, by position. Accessors for Message.proto:5-138. *)
Definition asB (v : fval) : bytes := match v with VB b => b | _ => [] end.
(** Accessor, uint32 fields of Message.proto:5-138. *)
Definition asN (v : fval) : Z := match v with VN n => n | _ => 0 end.
(** Accessor, bool fields of Message.proto:43-54. *)
Definition asF (v : fval) : bool := match v with VF f => f | _ => false end.
(** Accessor, repeated bytes fields of Message.proto:74-138. *)
Definition asL (v : fval) : list bytes := match v with VL l => l | _ => [] end.
(** Accessor, repeated uint32 of Message.proto:131-134. *)
Definition asNs (v : fval) : list Z := match v with VNs l => l | _ => [] end.
(** Accessor, the nested message of Message.proto:79-83. *)
Definition asO (v : fval) : option bytes := match v with VO o => o | _ => None end.
(** Field by position; helper, no counterpart in /repo. *)
Definition at_ (i : nat) (vs : list fval) : fval := nth i vs (VB []).

(** The envelope. proto.Marshal of Message.proto:5-10, called at send.go:43. *)
Definition MarshalMessage (m : msg) : go bytes :=
  Marshal S_Message [VB (m_type m); VB (m_id m); VN (m_sender m); VB (m_data m)].
(** proto.Unmarshal of Message.proto:5-10, called at receive.go:61. *)
Definition UnmarshalMessage (b : bytes) : msg * bool :=
  let (vs, ok) := Unmarshal S_Message b in
  (mkMsg (asB (at_ 0 vs)) (asB (at_ 1 vs)) (asN (at_ 2 vs)) (asB (at_ 3 vs)), ok).

(** Messages with nested messages: the inner ones are marshalled first.
    proto.Marshal of Message.proto:66-72, called at ProactivizeAndShareDist.go:133. *)
Definition MarshalPiContent (c : PiContentMsg) : go bytes :=
  Marshal S_PiContent [VN (m_J c); VB (m_CBj c); VB (m_CZj c); VB (m_WZ0 c); VB (m_GFj c)].
(** proto.Unmarshal of Message.proto:66-72, called at ProactivizeAndShareDist.go:148. *)
Definition UnmarshalPiContent (b : bytes) : PiContentMsg * bool :=
  let (vs, ok) := Unmarshal S_PiContent b in
  (mkPCM (asN (at_ 0 vs)) (asB (at_ 1 vs)) (asB (at_ 2 vs)) (asB (at_ 3 vs)) (asB (at_ 4 vs)), ok).

(** Marshalling a list of nested messages (Message.proto:74-77, 107-109); library google.golang.org/protobuf
    v1.27.1. *)
Definition gomapB {A} (f : A -> go bytes) (l : list A) : go (list bytes) :=
  gofold (fun acc a => b <- f a ;; Ret (acc ++ [b])) l [].

(** proto.Marshal of Message.proto:74-77, called at party_utils.go:236. *)
Definition MarshalPi (p : PiMsg) : go bytes :=
  cs <- gomapB MarshalPiContent (m_PiContents p) ;; Marshal S_Pi [VB (m_Gs p); VL cs].
(** proto.Unmarshal of Message.proto:74-77, called at VSS.go:27. *)
Definition UnmarshalPi (b : bytes) : PiMsg * bool :=
  let (vs, ok) := Unmarshal S_Pi b in
  (mkPiM (asB (at_ 0 vs)) (map (fun c => fst (UnmarshalPiContent c)) (asL (at_ 1 vs))), ok).

(** proto.Marshal of Message.proto:79-83, called at party_utils.go:236. *)
Definition MarshalVSSSend (m : VSSSendMsg) : go bytes :=
  o <- match m_Pi m with None => Ret None | Some p => b <- MarshalPi p ;; Ret (Some b) end ;;
  Marshal S_VSSSend [VO o; VL (m_BijList m); VL (m_WBijList m)].
(** proto.Unmarshal of Message.proto:79-83, called at VSS.go:27. *)
Definition UnmarshalVSSSend (b : bytes) : VSSSendMsg * bool :=
  let (vs, ok) := Unmarshal S_VSSSend b in
  (mkVSS (match asO (at_ 0 vs) with None => None | Some p => Some (fst (UnmarshalPi p)) end)
     (asL (at_ 1 vs)) (asL (at_ 2 vs)), ok).

(** proto.Marshal of Message.proto:107-109, called at ProactivizeAndShareDist.go:133. *)
Definition MarshalCommit (cs : list PiContentMsg) : go bytes :=
  bs <- gomapB MarshalPiContent cs ;; Marshal S_Commit [VL bs].
(** proto.Unmarshal of Message.proto:107-109, called at ProactivizeAndShareDist.go:148. *)
Definition UnmarshalCommit (b : bytes) : list PiContentMsg * bool :=
  let (vs, ok) := Unmarshal S_Commit b in
  (map (fun c => fst (UnmarshalPiContent c)) (asL (at_ 0 vs)), ok).

(** The remaining payloads of the hand-off. proto.Marshal of Message.proto:102-106, called at ShareReduce.go:51. *)
Definition MarshalShareReduce (m : ShareReduceMsg) : go bytes :=
  Marshal S_ShareReduce [VB (sr_C m); VB (sr_V m); VB (sr_W m)].
(** proto.Unmarshal of Message.proto:102-106, called at ShareReduce.go:81. *)
Definition UnmarshalShareReduce (b : bytes) : ShareReduceMsg * bool :=
  let (vs, ok) := Unmarshal S_ShareReduce b in (mkSR (asB (at_ 0 vs)) (asB (at_ 1 vs)) (asB (at_ 2 vs)), ok).
(** proto.Marshal of Message.proto:110-113, called at ProactivizeAndShareDist.go:248. *)
Definition MarshalReshare (m : ReshareMsg) : go bytes := Marshal S_Reshare [VL (rs_Qk m); VL (rs_WQk m)].
(** proto.Unmarshal of Message.proto:110-113, called at ProactivizeAndShareDist.go:266. *)
Definition UnmarshalReshare (b : bytes) : ReshareMsg * bool :=
  let (vs, ok) := Unmarshal S_Reshare b in (mkRS (asL (at_ 0 vs)) (asL (at_ 1 vs)), ok).
(** proto.Marshal of Message.proto:114-119, called at ProactivizeAndShareDist.go:325. *)
Definition MarshalRecover (m : RecoverMsg) : go bytes :=
  Marshal S_Recover [VN (rc_Index m); VB (rc_V m); VB (rc_W m); VB (rc_Sig m)].
(** proto.Unmarshal of Message.proto:114-119, called at ProactivizeAndShareDist.go:361. *)
Definition UnmarshalRecover (b : bytes) : RecoverMsg * bool :=
  let (vs, ok) := Unmarshal S_Recover b in
  (mkRec (asN (at_ 0 vs)) (asB (at_ 1 vs)) (asB (at_ 2 vs)) (asB (at_ 3 vs)), ok).
(** proto.Marshal of Message.proto:123-126, called at ProactivizeAndShareDist.go:549. *)
Definition MarshalShareDist (m : ShareDistMsg) : go bytes := Marshal S_ShareDist [VB (sd_B m); VB (sd_WB m)].
(** proto.Unmarshal of Message.proto:123-126, called at ProactivizeAndShareDist.go:620. *)
Definition UnmarshalShareDist (b : bytes) : ShareDistMsg * bool :=
  let (vs, ok) := Unmarshal S_ShareDist b in (mkSD (asB (at_ 0 vs)) (asB (at_ 1 vs)), ok).
(** The input of the agreement: certificates and the dealers' numbers.
    proto.Marshal of Message.proto:131-134, called at ProactivizeAndShareDist.go:435. *)
Definition MarshalMVBAIN (m : list bytes * list Z) : go bytes := Marshal S_MVBAIN [VL (fst m); VNs (snd m)].
(** proto.Unmarshal of Message.proto:131-134, called at ProactivizeAndShareDist.go:457. *)
Definition UnmarshalMVBAIN (b : bytes) : (list bytes * list Z) * bool :=
  let (vs, ok) := Unmarshal S_MVBAIN b in ((asL (at_ 0 vs), asNs (at_ 1 vs)), ok).

(** ** /repo/pkg/core/message_encapsulation.go *)

(** A string literal of the source (message_encapsulation.go:15-31); helper, no counterpart in /repo. *)
Fixpoint bytes_of_string (s : string) : bytes :=
  match s with EmptyString => [] | String c s' => Z.of_nat (nat_of_ascii c) :: bytes_of_string s' end.

(** A value of one of the nine Go pointer types that can come out of [Decapsulation].
    message_encapsulation.go:45-84. *)
Inductive payload : Type :=
| PValue (value validation : bytes)
| PEcho (sigshare : bytes)
| PLock (value sig : bytes)
| PFinish (value sig : bytes)
| PDone (coinShare : bytes)
| PHalt (value sig : bytes)
| PPreVote (vote : bool) (value sig : bytes)
| PVote (vote : bool) (value sig sigshare : bytes)
| PMessage (m : msg).

(** The switches of message_encapsulation.go:15-31, 46-79. *)
Definition is_ty (ty : bytes) (s : string) : bool := bytes_eqb ty (bytes_of_string s).

(** Lines 12-42.  [proto.Marshal] behind a type assertion, which panics for another dynamic type. *)
Definition encap_data (ty : bytes) (p : payload) : go bytes :=
  if is_ty ty "Value" then match p with PValue a b => Marshal S_Value [VB a; VB b] | _ => Panic end
  else if is_ty ty "Echo" then match p with PEcho a => Marshal S_Echo [VB a] | _ => Panic end
  else if is_ty ty "Lock" then match p with PLock a b => Marshal S_Lock [VB a; VB b] | _ => Panic end
  else if is_ty ty "Finish" then match p with PFinish a b => Marshal S_Finish [VB a; VB b] | _ => Panic end
  else if is_ty ty "Done" then match p with PDone a => Marshal S_Done [VB a] | _ => Panic end
  else if is_ty ty "Halt" then match p with PHalt a b => Marshal S_Halt [VB a; VB b] | _ => Panic end
  else if is_ty ty "PreVote" then
    match p with PPreVote f a b => Marshal S_PreVote [VF f; VB a; VB b] | _ => Panic end
  else if is_ty ty "Vote" then
    match p with PVote f a b c => Marshal S_Vote [VF f; VB a; VB b; VB c] | _ => Panic end
  else Ret [].

(** message_encapsulation.go:12-42 [Encapsulation]. *)
Definition Encapsulation (ty id : bytes) (sender : Z) (p : payload) : go msg :=
  match encap_data ty p with
  | Ret data => Ret (mkMsg ty id sender data)
  | Error => Fatal
  | Panic => Panic
  | Fatal => Fatal
  end.

(** Lines 45-84; the error of [proto.Unmarshal] is ignored. *)
Definition Decapsulation (ty : bytes) (m : msg) : payload :=
  let d := m_data m in
  if is_ty ty "Value" then let v := fst (Unmarshal S_Value d) in PValue (asB (at_ 0 v)) (asB (at_ 1 v))
  else if is_ty ty "Echo" then let v := fst (Unmarshal S_Echo d) in PEcho (asB (at_ 0 v))
  else if is_ty ty "Lock" then let v := fst (Unmarshal S_Lock d) in PLock (asB (at_ 0 v)) (asB (at_ 1 v))
  else if is_ty ty "Finish" then let v := fst (Unmarshal S_Finish d) in PFinish (asB (at_ 0 v)) (asB (at_ 1 v))
  else if is_ty ty "Done" then let v := fst (Unmarshal S_Done d) in PDone (asB (at_ 0 v))
  else if is_ty ty "Halt" then let v := fst (Unmarshal S_Halt d) in PHalt (asB (at_ 0 v)) (asB (at_ 1 v))
  else if is_ty ty "PreVote" then
    let v := fst (Unmarshal S_PreVote d) in PPreVote (asF (at_ 0 v)) (asB (at_ 1 v)) (asB (at_ 2 v))
  else if is_ty ty "Vote" then
    let v := fst (Unmarshal S_Vote d) in PVote (asF (at_ 0 v)) (asB (at_ 1 v)) (asB (at_ 2 v)) (asB (at_ 3 v))
  else PMessage (fst (UnmarshalMessage d)).

(** ** The two ends of a connection *)

(** /repo/pkg/core/send.go:38-61: the bytes written for the messages popped from the send channel, in
    order; a message that cannot be marshalled ends the process. *)
Definition send_stream (ms : list msg) : go bytes :=
  gofold (fun acc m => match MarshalMessage m with
                       | Ret b => Ret (acc ++ frame b)
                       | _ => Fatal
                       end) ms [].

(** /repo/pkg/core/receive.go:59-67 for the frames read so far, in order: the messages pushed to the
    receive channel, and whether the process is still alive. *)
Fixpoint receive (frames : list bytes) : list msg * bool :=
  match frames with
  | [] => ([], true)
  | b :: l =>
      let (m, ok) := UnmarshalMessage b in
      if ok then let (ms, alive) := receive l in (m :: ms, alive) else ([], false)
  end.

(** Lines 48-69 on one connection: the events of the framing model, then perhaps the end of the
    stream, which ends the process (lines 55-58). *)
Definition connection (es : list rx_event) (closed : bool) : list msg * bool :=
  let (ms, alive) := receive (out (rx_run es)) in (ms, alive && negb closed).
