(** The declarations of /repo/pkg/protobuf/Message.proto as they stand in the file, and a reader for them.  Used for C68:
    field numbers and types are those of the declarations, whatever the model of the generated code says. *)

Require Import Ascii String ZArith List Bool.
From Verif Require Import Bytes ProtoModel WireSpec.
Import ListNotations.
Local Open Scope Z_scope.
Local Open Scope list_scope.

(** pkg/protobuf/Message.proto:5-138, verbatim. *)
Definition Message_proto : string :=
"message Message {
  string type = 1;// instance id
  bytes id = 2;
  uint32 sender = 3;
  bytes data = 4;
}


// provable broadcast
message Value{
  bytes value = 1;// paload
  bytes validation = 2;// for external validating
}

message Echo{
  bytes sigshare = 1 ;
}

// smvba
message Lock{
  bytes value = 1;
  bytes sig = 2;
}

message Finish{
  bytes value = 1;
  bytes sig = 2;
}

message Done{
  bytes coinShare = 1 ;
}

message Halt{//Halt:=<Finish> of the round-leader
  bytes value = 1;
  bytes sig = 2;
}

message PreVote{
  bool vote = 1;
  bytes value = 2;
  bytes sig = 3;
}

message Vote{
  bool vote = 1;
  bytes value =2;
  bytes sig =3;
  bytes sigshare = 4 ;
}

message RBCEcho{
  bytes hash = 1;
  bytes m = 2;
}

message RBCReady{
  bytes hash = 1;
  bytes m = 2;
}

message PiContent{
  uint32 j = 1;
  bytes CBj = 2;
  bytes CZj = 3;
  bytes WZ0 = 4;
  bytes gFj = 5;
}

message Pi{
  bytes gs = 1;
  repeated PiContent piContents = 2;
}

message VSSSend{
  Pi pi = 1;
  repeated bytes BijList = 2;
  repeated bytes WBijList = 3;
}

message VSSEcho{
  Pi pi = 1;
}


message VSSReady{
  Pi pi = 1;
  string ReadyType = 2;
  bytes Bil = 3;
  bytes WBil = 4;
}

message VSSDistribute{
  bytes Bli = 1;
  bytes WBli = 2;
}

message ShareReduce{
  bytes C = 1;
  bytes v = 2;
  bytes W = 3;
}
message Commit{
  repeated PiContent Pi = 1;
}
message Reshare{
  repeated bytes Qk = 1;
  repeated bytes wQk = 2;
}
message Recover{
  uint32 index = 1;
  bytes v = 2;
  bytes w = 3;
  bytes sigShare = 4;
}
message NewCommit{
  bytes CB = 1;
}
message ShareDist{
  bytes B = 1;
  bytes wB = 2;
}
message Success{
  bytes nothing = 1;
}

message MVBAIN{
  repeated bytes sig= 1;
  repeated uint32 j = 2;
}

message Prepare{
  repeated bytes Commitments = 1;
}"%string.

(** ** Words *)

Definition newline : ascii := ascii_of_nat 10.

Definition is_letter (c : ascii) : bool :=
  let n := nat_of_ascii c in
  ((48 <=? n) && (n <=? 57) || (65 <=? n) && (n <=? 90) || (97 <=? n) && (n <=? 122))%nat.

(** The word read so far, if any, and the rest. *)
Definition flush (w : string) (l : list string) : list string := match w with EmptyString => l | _ => w :: l end.

Definition snoc (w : string) (c : ascii) : string := (w ++ String c EmptyString)%string.

(** Words and single symbols, without comments (from two slashes to the end of the line). *)
Fixpoint words (s w : string) (comment : bool) : list string :=
  match s with
  | EmptyString => flush w []
  | String c s' =>
    if Ascii.eqb c newline then flush w (words s' "" false)
    else if comment then words s' "" true
    else if is_letter c then words s' (snoc w c) false
    else if Ascii.eqb c "/"%char then flush w (words s' "" true)
    else if Ascii.eqb c " "%char then flush w (words s' "" false)
    else flush w (String c EmptyString :: words s' "" false)
  end.

(** ** Declarations *)

Record decl : Type := mkDecl { d_rep : bool; d_type : string; d_name : string; d_num : Z }.

Fixpoint digits (s : string) (acc : Z) : Z :=
  match s with EmptyString => acc | String c s' => digits s' (10 * acc + Z.of_nat (nat_of_ascii c) - 48) end.

(** The fields of one message up to the closing brace, and the words behind it. *)
Fixpoint fields_of (fuel : nat) (l : list string) : list decl * list string :=
  match fuel with
  | O => ([], l)
  | S k =>
    match l with
    | "repeated"%string :: t :: n :: "="%string :: d :: ";"%string :: l' =>
        let (fs, r) := fields_of k l' in (mkDecl true t n (digits d 0) :: fs, r)
    | t :: n :: "="%string :: d :: ";"%string :: l' =>
        let (fs, r) := fields_of k l' in (mkDecl false t n (digits d 0) :: fs, r)
    | _ :: l' => ([], l')
    | [] => ([], [])
    end
  end.

Fixpoint messages_of (fuel : nat) (l : list string) : list (string * list decl) :=
  match fuel with
  | O => []
  | S k =>
    match l with
    | "message"%string :: m :: "{"%string :: l' => let (fs, r) := fields_of k l' in (m, fs) :: messages_of k r
    | _ => []
    end
  end.

(** All declarations, computed once. *)
Definition declarations : list (string * list decl) :=
  Eval vm_compute in messages_of 1000 (words Message_proto "" false).

(** The model of each message. *)
Definition named_schemas : list (string * schema) :=
  [("Message", S_Message); ("Value", S_Value); ("Echo", S_Echo); ("Lock", S_Lock); ("Finish", S_Finish); ("Done", S_Done);
   ("Halt", S_Halt); ("PreVote", S_PreVote); ("Vote", S_Vote); ("RBCEcho", S_RBCEcho); ("RBCReady", S_RBCReady);
   ("PiContent", S_PiContent); ("Pi", S_Pi); ("VSSSend", S_VSSSend); ("ShareReduce", S_ShareReduce); ("Commit", S_Commit);
   ("Reshare", S_Reshare); ("Recover", S_Recover); ("NewCommit", S_NewCommit); ("ShareDist", S_ShareDist);
   ("Success", S_Success); ("MVBAIN", S_MVBAIN); ("Prepare", S_Prepare)]%string.

(** The kind of a declared field: its type, and for a message type the messages that are acceptable. *)
Inductive kind_is : decl -> kind -> Prop :=
| ki_bytes n x : kind_is (mkDecl false "bytes" n x) KBytes
| ki_string n x : kind_is (mkDecl false "string" n x) KStr
| ki_u32 n x : kind_is (mkDecl false "uint32" n x) KU32
| ki_bool n x : kind_is (mkDecl false "bool" n x) KBool
| ki_rbytes n x : kind_is (mkDecl true "bytes" n x) KRepBytes
| ki_ru32 n x : kind_is (mkDecl true "uint32" n x) KRepU32
| ki_msg t sch n x : In (t, sch) named_schemas -> kind_is (mkDecl false t n x) (KMsg (fun b => snd (Unmarshal sch b)))
| ki_rmsg t sch n x : In (t, sch) named_schemas -> kind_is (mkDecl true t n x) (KRepMsg (fun b => snd (Unmarshal sch b))).

(** A message of the declared type [m] with the records [rs] has the content [v] in the field called [f]. *)
Definition said (m f : string) (rs : list rec) (v : fval) : Prop :=
  exists ds d k, In (m, ds) declarations /\ In d ds /\ d_name d = f /\ kind_is d k /\ field_is (d_num d) k rs v.
