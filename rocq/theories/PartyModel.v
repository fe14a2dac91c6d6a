(** Model of the data of a committee member (/repo/internal/party/party.go) and of the helpers
    that move commitments between messages and this data (party_utils.go).

    Simplifications, here and in the files built on it: committee size N, threshold F and the
    own identity PID are naturals (uint32 in the code; sums like 2*F+2 do not wrap around
    for sizes that fit into memory); parsed protobuf messages are records whose byte fields are
    arbitrary byte strings; timing fields, file output and logging are left out. *)

Require Import ZArith List Bool Arith.
From Verif Require Import Prime Fr Bytes CodecModel GoBase PolyModel GroupModel KzgModel.
Import ListNotations.
Local Open Scope F_scope.

(** ** Encoding of points

    /repo/internal/bls/bls_kilic.go:117-124 [ToCompressedG1], [FromCompressedG1]; the curve
    library is not modelled: a codec is a parameter of the model.  [None] is the nil pointer that
    comes with an error; [FromCompressedG1] of the library also rejects points
    outside the group. *)
Record g1codec : Type := mkCodec {
  ToCompressedG1 : G1 -> list Z;
  FromCompressedG1 : list Z -> option G1 }.

(** What is assumed of the codec in theorems. bls_kilic.go:117-124. *)
Definition codec_ok (cd : g1codec) : Prop := forall g, FromCompressedG1 cd (ToCompressedG1 cd g) = Some g.

(** The pattern [tmp, _ := FromCompressedG1(b); CopyG1(&dst, tmp)] with the error ignored
    (e.g. party_utils.go:242-243): a nil pointer is dereferenced. *)
Definition ReadG1 (cd : g1codec) (b : list Z) : go G1 :=
  match FromCompressedG1 cd b with Some g => Ret g | None => Panic end.

(** The pattern [b := [32]byte{}; copy(b[:], src)] (e.g. VSS.go:37-38). *)
Definition to32 (src : list Z) : list Z := firstn 32 src ++ repeat 0%Z (32 - length src).

(** ** Data of a party *)

(** party.go:22-30 [PiContent]. *)
Record PiContent : Type := mkPC { pc_j : nat; CBj : G1; CZj : G1; WZ0 : G1; gFj : G1 }.

(** party.go:32-35 [Pi]; index 0 of the contents is not used. *)
Record Pi : Type := mkPi { Gs : G1; PiContents : list PiContent }.

(** Zero values of the Go structs ([make] of points gives the neutral element). party.go:22-30. *)
Definition pc0 : PiContent := mkPC 0 ZeroG1 ZeroG1 ZeroG1 ZeroG1.

(** party_utils.go:151-156 [Pi.Init]. *)
Definition Pi_Init (F : nat) : Pi :=
  mkPi ZeroG1 (map (fun i => mkPC i ZeroG1 ZeroG1 ZeroG1 ZeroG1) (seq 0 (2 * F + 2))).

(** party.go:39-86 [HonestParty]: the fields used by sharing and handoff. *)
Record Party : Type := mkParty {
  p_N : nat; p_F : nat; p_PID : nat;
  p_KZG : KZGSettings;
  p_Proof : Pi;
  p_fullShare : list Fr;
  p_reducedShare : list Fr;
  p_witness : list G1;
  p_witnessIndexes : list Fr;
  p_tab : list (list Fr) }.  (* LagrangeCoefficients *)

(** party.go:123-199 [NewHonestParty]. *)
Definition NewHonestParty (N F pid : nat) : go Party :=
  KZG <- party_setup F ;;
  tab <- LagrangeTable N F ;;
  Ret (mkParty N F pid KZG (Pi_Init F) (repeat 0 (2 * F + 1)) (repeat 0 (F + 1))
         (repeat ZeroG1 (2 * F + 1)) (repeat 0 (2 * F + 1)) tab).

(** ** Messages (pkg/protobuf/Message.proto) *)

(** Message.proto:66-72. *)
Record PiContentMsg : Type := mkPCM {
  m_J : Z; m_CBj : list Z; m_CZj : list Z; m_WZ0 : list Z; m_GFj : list Z }.
(** Message.proto:74-77. *)
Record PiMsg : Type := mkPiM { m_Gs : list Z; m_PiContents : list PiContentMsg }.

(** [m_Pi] is a pointer, nil when the field is missing. Message.proto:79-83. *)
Record VSSSendMsg : Type := mkVSS {
  m_Pi : option PiMsg; m_BijList : list (list Z); m_WBijList : list (list Z) }.

(** party_utils.go:201-238 [EncapsulateVSSSend], without the final serialization.  The
    loop fills index 0 with empty values and the indexes 1..2F+1 from the arguments. *)
Definition EncapsulateVSSSend (cd : g1codec) (pi : Pi) (BijList : list Fr) (WBijList : list G1)
    (F : nat) : go VSSSendMsg :=
  let js := seq 1 (2 * F + 1) in
  W <- gofold (fun acc j => w <- idx WBijList j ;; Ret (acc ++ [ToCompressedG1 cd w])) js [[]] ;;
  B <- gofold (fun acc j => v <- idx BijList j ;; Ret (acc ++ [FrTo32 v])) js [[]] ;;
  C <- gofold (fun acc j =>
         c <- idx (PiContents pi) j ;;
         Ret (acc ++ [mkPCM (Z.of_nat j) (ToCompressedG1 cd (CBj c)) (ToCompressedG1 cd (CZj c))
                        (ToCompressedG1 cd (WZ0 c)) (ToCompressedG1 cd (gFj c))]))
         js [mkPCM 0 [] [] [] []] ;;
  Ret (mkVSS (Some (mkPiM (ToCompressedG1 cd (Gs pi)) C)) B W).

(** party_utils.go:240-259 [Pi.SetFromVSSMessage]. *)
Definition SetFromVSSMessage (cd : g1codec) (pi : Pi) (m : option PiMsg) (F : nat) : go Pi :=
  match m with
  | None => Panic
  | Some m =>
    gs <- ReadG1 cd (m_Gs m) ;;
    contents <- goloop 1 (2 * F + 1)
      (fun cs j =>
         c <- idx (m_PiContents m) j ;;
         cb <- ReadG1 cd (m_CBj c) ;;
         cz <- ReadG1 cd (m_CZj c) ;;
         w0 <- ReadG1 cd (m_WZ0 c) ;;
         gf <- ReadG1 cd (m_GFj c) ;;
         upd cs j (mkPC j cb cz w0 gf)) (PiContents pi) ;;
    Ret (mkPi gs contents)
  end.

(** party_utils.go:261-270 [Pi.Set]. *)
Definition Pi_Set (pi src : Pi) (F : nat) : go Pi :=
  contents <- goloop 1 (2 * F + 1)
    (fun cs j => c <- idx (PiContents src) j ;; upd cs j c) (PiContents pi) ;;
  Ret (mkPi (Gs src) contents).
