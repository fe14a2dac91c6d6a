(** Model of sharing: the client (/repo/internal/party/client.go) and the receiving party
    (/repo/internal/party/VSS.go). *)

Require Import ZArith List Bool Arith.
From Verif Require Import Prime Fr Bytes CodecModel GoBase PolyModel GroupModel KzgModel PartyModel.
Import ListNotations.
Local Open Scope F_scope.

(** [dst = make([]T, n); for i := ... { dst[i] = f(i) }] over the given indexes. For example client.go:38-43. *)
Fixpoint gomap {A B} (f : A -> go B) (l : list A) : go (list B) :=
  match l with
  | [] => Ret []
  | a :: l' => b <- f a ;; r <- gomap f l' ;; Ret (b :: r)
  end.

(** client.go:30-42: the polynomial F with F(0) = s and its values at 1..2F+1 (index 0 unused).
    [rF] are the random coefficients drawn by the loop. *)
Definition client_polyF (s : Fr) (rF : list Fr) : list Fr := set_nth 0 s rF.
(** client.go:38-43. *)
Definition client_FVals (F : nat) (polyF : list Fr) : list Fr :=
  0 :: map (fun j => EvalPolyAt polyF (of_nat j)) (seq 1 (2 * F + 1)).

(** client.go:45-65: the polynomials Z(x,i) and B(x,i), i = 1..2F+1 (index 0 unused); [rZ] holds
    the random coefficients of row i at position i-1. *)
Definition client_ZList (F : nat) (rZ : list (list Fr)) : list (list Fr) :=
  [] :: map (fun i => set_nth 0 0 (nth (i - 1) rZ [])) (seq 1 (2 * F + 1)).
(** client.go:56-66. *)
Definition client_BList (F : nat) (FVals : list Fr) (ZList : list (list Fr)) : list (list Fr) :=
  [] :: map (fun i => set_nth 0 (nth i FVals 0) (nth i ZList [])) (seq 1 (2 * F + 1)).

(** client.go:68-85: commitments and witnesses at 0. *)
Definition client_contents (ks : KZGSettings) (F : nat) (FVals : list Fr)
    (ZList BList : list (list Fr)) : go (list PiContent) :=
  cs <- gomap (fun i =>
          CB <- CommitToPoly ks (nth i BList []) ;;
          CZ <- CommitToPoly ks (nth i ZList []) ;;
          W0 <- ComputeProofSingle ks (nth i ZList []) 0 ;;
          Ret (mkPC i CB CZ W0 (MulG1 GenG1 (nth i FVals 0)))) (seq 1 (2 * F + 1)) ;;
  Ret (pc0 :: cs).

(** client.go:88-111: values and witnesses for party i (1-based). *)
Definition client_witnesses (ks : KZGSettings) (F : nat) (BList : list (list Fr)) (i : nat)
    : go (list G1) :=
  ws <- gomap (fun j => ComputeProofSingle ks (nth j BList []) (of_nat i)) (seq 1 (2 * F + 1)) ;;
  Ret (ZeroG1 :: ws).
(** client.go:104-111. *)
Definition client_values (F : nat) (BList : list (list Fr)) (i : nat) : list Fr :=
  0 :: map (fun j => EvalPolyAt (nth j BList []) (of_nat i)) (seq 1 (2 * F + 1)).

(** client.go:17-128 [Client.Share]: the messages for the parties 0..N-1, in order.  The client is
    a party object ([client.HonestParty]) with settings [ks]; [s] is the secret. *)
Definition Share (cd : g1codec) (ks : KZGSettings) (N F : nat) (s : Fr) (rF : list Fr)
    (rZ : list (list Fr)) : go (list VSSSendMsg) :=
  let FVals := client_FVals F (client_polyF s rF) in
  let ZList := client_ZList F rZ in
  let BList := client_BList F FVals ZList in
  contents <- client_contents ks F FVals ZList BList ;;
  let pi := mkPi (MulG1 GenG1 s) contents in
  gomap (fun i =>
    W <- client_witnesses ks F BList i ;;
    EncapsulateVSSSend cd pi (client_values F BList i) W F) (seq 1 N).

(** VSS.go:94-108: the loop over k; [Ret false] is the early return. *)
Fixpoint verify_contents (ks : KZGSettings) (cs : list PiContent) (k n : nat) : go bool :=
  match n with
  | O => Ret true
  | S m =>
    c <- idx cs k ;;
    verifyEval <- CheckProofSingle ks (CZj c) (WZ0 c) 0 0 ;;
    let verifyCBj := EqualG1 (AddG1 (CZj c) (gFj c)) (CBj c) in
    if negb verifyEval || negb verifyCBj then Ret false
    else verify_contents ks cs (k + 1) m
  end.

(** VSS.go:111-122: the loop over j. *)
Fixpoint verify_points (ks : KZGSettings) (cs : list PiContent) (pos : Fr) (polyValue : list Fr)
    (witness : list G1) (j n : nat) : go bool :=
  match n with
  | O => Ret true
  | S m =>
    c <- idx cs j ;;
    w <- idx witness j ;;
    v <- idx polyValue j ;;
    ok <- CheckProofSingle ks (CBj c) w pos v ;;
    if (ok : bool) then verify_points ks cs pos polyValue witness (j + 1) m else Ret false
  end.

(** VSS.go:76-125 [VerifyVSSSendReceived].  The comparison of g^s with the product of the
    g^F_j (lines 80-91) is computed, and its result only logged. *)
Definition VerifyVSSSendReceived (p : Party) (polyValue : list Fr) (witness : list G1) (pi : Pi)
    : go bool :=
  let F := p_F p in
  gFs <- gomap (fun j => c <- idx (PiContents pi) j ;; Ret (gFj c)) (seq 1 (2 * F + 1)) ;;
  row0 <- idx (p_tab p) 0 ;;
  tmpGs <- LinCombG1 gFs row0 ;;
  ok1 <- verify_contents (p_KZG p) (PiContents pi) 1 (2 * F + 1) ;;
  if (ok1 : bool) then
    verify_points (p_KZG p) (PiContents pi) (of_nat (p_PID p + 1)) polyValue witness 1 (2 * F + 1)
  else Ret false.

(** VSS.go:12-74 [VSSShareReceive] on one message; the result is the verdict and the party
    afterwards. *)
Definition VSSShareReceive (cd : g1codec) (p : Party) (m : VSSSendMsg) : go (bool * Party) :=
  let F := p_F p in
  pi <- SetFromVSSMessage cd (Pi_Init F) (m_Pi m) F ;;
  ' (values, wits) <- goloop 1 (2 * F + 1)
    (fun st j =>
       b <- idx (m_BijList m) j ;;
       values <- upd (fst st) j (FrFrom32_into (nth j (fst st) 0) (to32 b)) ;;
       wb <- idx (m_WBijList m) j ;;
       w <- ReadG1 cd wb ;;
       wits <- upd (snd st) j w ;;
       Ret (values, wits)) (repeat 0 (2 * F + 2), repeat ZeroG1 (2 * F + 2)) ;;
  verifyOK <- VerifyVSSSendReceived p values wits pi ;;
  if (verifyOK : bool) then
    proof <- Pi_Set (p_Proof p) pi F ;;
    ' (wit, witIdx) <- goloop 1 (2 * F + 1)
      (fun st j =>
         w <- idx wits j ;;
         a <- upd (fst st) (j - 1) w ;;
         b <- upd (snd st) (j - 1) (of_nat j) ;;
         Ret (a, b)) (p_witness p, p_witnessIndexes p) ;;
    let KnownIndexes := map (fun j => of_nat (j + 1)) (seq 0 (2 * F + 1)) in
    KnownValues <- gomap (fun j => idx values (j + 1)) (seq 0 (2 * F + 1)) ;;
    share <- LagrangeInterpolate (2 * F) KnownIndexes KnownValues ;;
    (* copy(p.fullShare, share) *)
    let full := firstn (length (p_fullShare p)) share ++ skipn (length share) (p_fullShare p) in
    Ret (true, mkParty (p_N p) F (p_PID p) (p_KZG p) proof full (p_reducedShare p) wit witIdx (p_tab p))
  else Ret (false, p).
