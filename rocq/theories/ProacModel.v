(** Model of the second half of the handoff: refreshing and distributing the shares in the new
    committee, /repo/internal/party/ProactivizeAndShareDist.go.

    Go starts about 4N goroutines here.  The model gives the body of every stage as a function, and
    one machine per member whose steps are the bodies, in any order the synchronization of the code
    allows.  A step is atomic; the locks of the code, and the fact that goroutines write to
    different indexes, justify this for all variables except [SB] and [SuccessSent] (lines 646-671,
    written without a lock), where it is a simplification.  Reliable broadcast and
    the agreement (MVBA) are events with an arbitrary result.  Serialization of messages is left
    out (C04). *)

Require Import ZArith List Bool Arith.
From Verif Require Import Prime Fr Bytes CodecModel GoBase PolyModel GroupModel KzgModel PartyModel
  VssModel.
Import ListNotations.
Local Open Scope F_scope.

(** ** Refreshing polynomials *)

(** Lines 70-71: [polyF]; [rF] are the random coefficients of NewRandPoly(2F). *)
Definition proac_polyF (rF : list Fr) : list Fr := set_nth 0 0 rF.

(** Lines 87-93: the own polynomials Q[PID+1][j] for j = 1..2F+1, at position j-1; [rQ] holds the random
    coefficients of NewRandPoly(F). *)
Definition proac_Q (F : nat) (rF : list Fr) (rQ : list (list Fr)) : list (list Fr) :=
  map (fun j => set_nth 0 (EvalPolyAt (proac_polyF rF) (of_nat j)) (nth (j - 1) rQ []))
    (seq 1 (2 * F + 1)).

(** ** Commit *)

(** Lines 102-121: the contents pi_i; [Qs] are the own polynomials. *)
Definition commit_contents (ks : KZGSettings) (Qs : list (list Fr)) : go (list PiContent) :=
  gomap (fun j =>
    q <- idx Qs (j - 1) ;;
    q0 <- idx q 0 ;;
    let gF := MulG1 GenG1 q0 in
    let z := set_nth 0 0 q in
    CQ <- CommitToPoly ks q ;;
    CZ <- CommitToPoly ks z ;;
    wZ <- ComputeProofSingle ks z 0 ;;
    Ret (mkPC j CQ CZ wZ gF)) (seq 1 (length Qs)).

(** Lines 123-136: the message given to reliable broadcast (index 0 is used). *)
Definition CommitSend (cd : g1codec) (ks : KZGSettings) (Qs : list (list Fr)) : go (list PiContentMsg) :=
  cs <- commit_contents ks Qs ;;
  Ret (map (fun c => mkPCM (Z.of_nat (pc_j c)) (ToCompressedG1 cd (CBj c)) (ToCompressedG1 cd (CZj c))
                       (ToCompressedG1 cd (WZ0 c)) (ToCompressedG1 cd (gFj c))) cs).

(** Lines 147-211: verification of the message of member j; [row] is CQ[j], the result the
    verdict (flgCom[j]) and CQ[j] afterwards. *)
Definition VerifyCommit (cd : g1codec) (p : Party) (row : list G1) (data : list PiContentMsg)
    : go (bool * list G1) :=
  let F := p_F p in
  GFjList <- gomap (fun i => c <- idx data i ;; ReadG1 cd (m_GFj c)) (seq 0 (2 * F + 1)) ;;
  interRes <- InterpolateComOrWit F (p_tab p) (2 * F) 0 GFjList ;;
  let revertFlag := negb (EqualG1 interRes ZeroG1) in
  ' (revertFlag, row) <- goloop 0 (2 * F + 1)
    (fun st k =>
       c <- idx data k ;;
       CQk <- ReadG1 cd (m_CBj c) ;;
       CZk <- ReadG1 cd (m_CZj c) ;;
       wZk <- ReadG1 cd (m_WZ0 c) ;;
       GFk <- ReadG1 cd (m_GFj c) ;;
       let mulRes := AddG1 CZk GFk in
       verifyKZGOk <- CheckProofSingle (p_KZG p) CZk wZk 0 0 ;;
       if negb (EqualG1 CQk mulRes) || negb verifyKZGOk then Ret (true, snd st)
       else row' <- upd (snd st) (k + 1) CQk ;; Ret (fst st, row')) (revertFlag, row) ;;
  if (revertFlag : bool) then
    row' <- goloop 0 (2 * F + 1) (fun row k => upd row k ZeroG1) row ;;
    Ret (false, row')
  else
    row' <- goloop (2 * F + 2) (p_N p - (2 * F + 1))
      (fun row k =>
         known <- slice_to row (2 * F + 2) ;;
         c <- InterpolateComOrWit F (p_tab p) (2 * F) k (tl known) ;;
         upd row k c) row ;;
    Ret (true, row').

(** ** Reshare and vote *)

(** Message.proto:110-113. *)
Record ReshareMsg : Type := mkRS { rs_Qk : list (list Z); rs_WQk : list (list Z) }.

(** Lines 221-250: the messages for the members 1..N, in order. *)
Definition ReshareSend (cd : g1codec) (ks : KZGSettings) (N : nat) (Qs : list (list Fr))
    : go (list ReshareMsg) :=
  gomap (fun k =>
    ws <- gomap (fun q => w <- ComputeProofSingle ks q (of_nat k) ;; Ret (ToCompressedG1 cd w)) Qs ;;
    Ret (mkRS (map (fun q => FrTo32 (EvalPolyAt q (of_nat k))) Qs) ws)) (seq 1 N).

(** Lines 276-297: decoding and checking; [row] is CQ[indexJ].  State (verifyReshareOK, vjki[1:],
    wjki[1:]); the flag is assigned in every round. *)
Definition vote_check (cd : g1codec) (p : Party) (row : list G1) (m : ReshareMsg)
    : go (bool * (list Fr * list G1)) :=
  goloop 1 (2 * p_F p + 1)
    (fun st k =>
       b <- idx (rs_Qk m) (k - 1) ;;
       let v := FrFrom32_into 0 (to32 b) in
       wb <- idx (rs_WQk m) (k - 1) ;;
       w <- ReadG1 cd wb ;;
       C <- idx row k ;;
       ok <- CheckProofSingle (p_KZG p) C w (of_nat (p_PID p + 1)) v ;;
       Ret (ok, (fst (snd st) ++ [v], snd (snd st) ++ [w]))) (false, ([], [])).

(** Message.proto:114-119. *)
Record RecoverMsg : Type := mkRec { rc_Index : Z; rc_V : list Z; rc_W : list Z; rc_Sig : list Z }.

(** Lines 308-327: the recover messages for the members 1..N, in order. *)
Definition vote_messages (cd : g1codec) (p : Party) (indexJ : Z) (sig : list Z) (vs : list Fr)
    (ws : list G1) : go (list RecoverMsg) :=
  gomap (fun l =>
    if (l <=? 2 * p_F p + 1)%nat then
      v <- idx vs (l - 1) ;; w <- idx ws (l - 1) ;;
      Ret (mkRec indexJ (FrTo32 v) (ToCompressedG1 cd w) sig)
    else
      tab <- idx (p_tab p) l ;;
      v <- LinCombFr vs tab ;;
      w <- LinCombG1 ws tab ;;
      Ret (mkRec indexJ (FrTo32 v) (ToCompressedG1 cd w) sig)) (seq 1 (p_N p)).

(** Lines 276-330: the whole vote on a reshare message; [None] when the check fails. *)
Definition Vote (cd : g1codec) (p : Party) (row : list G1) (indexJ : Z) (sig : list Z) (m : ReshareMsg)
    : go (option (list RecoverMsg)) :=
  ' (ok, st) <- vote_check cd p row m ;;
  if (ok : bool) then ms <- vote_messages cd p indexJ sig (fst st) (snd st) ;; Ret (Some ms) else Ret None.

(** ** Recover, refresh: one member as a machine *)

(** A message between the receiving goroutine and a handler (party.go:114-120 [RecoverMsg]). *)
Record recov : Type := mkRecov { ro_sender : Z; ro_k : nat; ro_v : Fr; ro_w : G1; ro_sig : list Z }.

(** The variables of the function; slices of length N+1 are indexed by the dealer.  [s_Q] is
    Q[k][PID+1].  [s_comDone]: the goroutine that verifies the commitments of dealer k has
    ended.  [s_stopped]: handler k left its loop (line 445-448).  [s_busy]: a handler is inside
    MainProcess and holds the mutex of [SRec].  [s_hold]: the message with which the receiving
    goroutine waits at the unbuffered channel of its handler (line 369). *)
Record pst : Type := mkPst {
  s_flgCom : list bool; s_comDone : list bool; s_flgRec : list bool;
  s_CQ : list (list G1); s_Q : list (list Fr);
  s_SRec : list (list (Z * Fr)); s_SSig : list (list (Z * list Z));
  s_Comb : list (option (list Z)); s_stopped : list bool;
  s_MVBAIn : list (nat * list Z); s_MVBASent : bool; s_busy : bool;
  s_hold : option recov }.

(** Lines 19-93, 335-353: initial values; row PID+1 of CQ is filled by the committing goroutine
    (line 110; modelled as done before the other steps) and the own polynomial is in Q[PID+1]. *)
Definition proac_init (p : Party) (Qs : list (list Fr)) : go pst :=
  let N := p_N p in
  cs <- commit_contents (p_KZG p) Qs ;;
  let row0 := repeat ZeroG1 (N + 1) in
  row <- gofold (fun row c => upd row (pc_j c) (CBj c)) cs row0 ;;
  CQ <- upd (repeat row0 (N + 1)) (p_PID p + 1) row ;;
  let own := if (p_PID p + 1 <=? 2 * p_F p + 1)%nat then nth (p_PID p) Qs [] else repeat 0 (p_F p + 1) in
  Q <- upd (repeat (repeat 0 (p_F p + 1)) (N + 1)) (p_PID p + 1) own ;;
  let no := repeat false (N + 1) in
  Ret (mkPst no no no CQ Q (repeat [] (N + 1)) (repeat [] (N + 1)) (repeat None (N + 1)) no [] false
         false None).

(** The steps: lines 146-211, 264-330, 357-369, 381-448 and the return of MainProcess (line 437). *)
Inductive pev : Type :=
| EvCommit (j : nat) (data : list PiContentMsg)  (* reliable broadcast "_1,j" delivers *)
| EvReshare (sender : Z) (m : ReshareMsg)        (* a goroutine of Vote handles a message *)
| EvRecv (sender : Z) (m : RecoverMsg)           (* the receiving goroutine takes a message *)
| EvHandle                                       (* the handler takes the waiting message *)
| EvMVBA.                                        (* MainProcess returns *)

Section Machine.
(** Threshold signatures, on the decimal representation of the dealer's index:
    [sign k] is the own share, [sigok k] the check of a share (VerifyPartial), [combine k] the
    result of Recover(…, 2F, N). *)
Variable cd : g1codec.
Variable sign : nat -> list Z.
Variable sigok : nat -> list Z -> bool.
Variable combine : nat -> list (list Z) -> list Z.

(** Line 146-211 in the machine. *)
Definition do_commit (p : Party) (st : pst) (j : nat) (data : list PiContentMsg) : go pst :=
  if negb ((1 <=? j) && (j <=? p_N p))%nat || nth j (s_comDone st) true then Ret st
  else
    row <- idx (s_CQ st) j ;;
    ' (ok, row') <- VerifyCommit cd p row data ;;
    CQ <- upd (s_CQ st) j row' ;;
    let flg := if (ok : bool) then set_nth j true (s_flgCom st) else s_flgCom st in
    Ret (mkPst flg (set_nth j true (s_comDone st)) (s_flgRec st) CQ (s_Q st) (s_SRec st) (s_SSig st)
           (s_Comb st) (s_stopped st) (s_MVBAIn st) (s_MVBASent st) (s_busy st) (s_hold st)).

(** Lines 264-330 in the machine.  A goroutine waits until flgCom[indexJ] (or a token sent after
    it was set); a message of a member whose commitments are not accepted yet is not handled.
    That there are only N such goroutines, each for one message, is left out: the machine
    handles more messages than the code (ReshareModel.v has these goroutines, c73_refines). *)
Definition do_reshare (p : Party) (st : pst) (sender : Z) (m : ReshareMsg) : go (list RecoverMsg) :=
  let indexJ := ((sender + 1) mod 2 ^ 32)%Z in
  flg <- idx (s_flgCom st) (Z.to_nat indexJ) ;;
  if negb flg then Ret []
  else
    row <- idx (s_CQ st) (Z.to_nat indexJ) ;;
    o <- Vote cd p row indexJ (sign (Z.to_nat indexJ)) m ;;
    Ret (match o with Some ms => ms | None => [] end).

(** Lines 358-369: decoding by the receiving goroutine. *)
Definition do_recv (p : Party) (st : pst) (sender : Z) (m : RecoverMsg) : go pst :=
  match s_hold st with
  | Some _ => Ret st
  | None =>
    let v := FrFrom32_into 0 (to32 (rc_V m)) in
    w <- ReadG1 cd (rc_W m) ;;
    (* RecoverMsgChan[k] *)
    if (Z.of_nat (p_N p) <? rc_Index m)%Z then Panic
    else Ret (mkPst (s_flgCom st) (s_comDone st) (s_flgRec st) (s_CQ st) (s_Q st) (s_SRec st) (s_SSig st)
                (s_Comb st) (s_stopped st) (s_MVBAIn st) (s_MVBASent st) (s_busy st)
                (Some (mkRecov sender (Z.to_nat (rc_Index m)) v w (rc_Sig m))))
  end.

(** Lines 393-401: the two checks on a message. *)
Definition recov_ok (p : Party) (st : pst) (x : recov) : go bool :=
  row <- idx (s_CQ st) (ro_k x) ;;
  C <- idx row (p_PID p + 1) ;;
  ok <- CheckProofSingle (p_KZG p) C (ro_w x) (of_Z ((ro_sender x + 1) mod 2 ^ 32)) (ro_v x) ;;
  Ret (ok && sigok (ro_k x) (ro_sig x)).

(** Lines 405-416: storing the point; interpolation with the first F+1 points. *)
Definition add_point (p : Party) (st : pst) (x : recov) : go pst :=
  let k := ro_k x in
  old <- idx (s_SRec st) k ;;
  let rec := old ++ [(((ro_sender x + 1) mod 2 ^ 32)%Z, ro_v x)] in
  let SRec := set_nth k rec (s_SRec st) in
  if negb (nth k (s_flgRec st) false) && (p_F p + 1 <=? length rec)%nat then
    let xs := map (fun e => of_Z (fst e)) rec in
    let ys := map snd rec in
    q <- LagrangeInterpolate (p_F p) (firstn (p_F p + 1) xs) (firstn (p_F p + 1) ys) ;;
    Ret (mkPst (s_flgCom st) (s_comDone st) (set_nth k true (s_flgRec st)) (s_CQ st)
           (set_nth k q (s_Q st)) SRec (s_SSig st) (s_Comb st) (s_stopped st) (s_MVBAIn st)
           (s_MVBASent st) (s_busy st) (s_hold st))
  else
    Ret (mkPst (s_flgCom st) (s_comDone st) (s_flgRec st) (s_CQ st) (s_Q st) SRec (s_SSig st) (s_Comb st)
           (s_stopped st) (s_MVBAIn st) (s_MVBASent st) (s_busy st) (s_hold st)).

(** Lines 418-440: storing the signature share; with 2F+1 of them a signature is assembled, and with
    F+1 signatures the agreement is called (the handler is then busy until [EvMVBA]). *)
Definition add_sig (p : Party) (st : pst) (x : recov) : go pst :=
  let k := ro_k x in
  old <- idx (s_SSig st) k ;;
  let sigs := old ++ [(((ro_sender x + 1) mod 2 ^ 32)%Z, ro_sig x)] in
  let SSig := set_nth k sigs (s_SSig st) in
  let combined := match nth k (s_Comb st) None with Some _ => true | None => false end in
  if negb combined && (2 * p_F p + 1 <=? length sigs)%nat then
    let sg := combine k (map snd sigs) in
    let inp := s_MVBAIn st ++ [(k, sg)] in
    let call := negb (s_MVBASent st) && (p_F p + 1 <=? length inp)%nat in
    Ret (mkPst (s_flgCom st) (s_comDone st) (s_flgRec st) (s_CQ st) (s_Q st) (s_SRec st) SSig
           (set_nth k (Some sg) (s_Comb st)) (s_stopped st) inp (s_MVBASent st || call) call (s_hold st))
  else
    Ret (mkPst (s_flgCom st) (s_comDone st) (s_flgRec st) (s_CQ st) (s_Q st) (s_SRec st) SSig (s_Comb st)
           (s_stopped st) (s_MVBAIn st) (s_MVBASent st) (s_busy st) (s_hold st)).

(** Lines 403-448 for one message: the handler's reaction. *)
Definition handle (p : Party) (st : pst) (x : recov) : go pst :=
  ok <- recov_ok p st x ;;
  st' <- (if (ok : bool) then st1 <- add_point p st x ;; add_sig p st1 x else Ret st) ;;
  (* line 445-448 *)
  Ret (if s_MVBASent st' then
         mkPst (s_flgCom st') (s_comDone st') (s_flgRec st') (s_CQ st') (s_Q st') (s_SRec st') (s_SSig st')
           (s_Comb st') (set_nth (ro_k x) true (s_stopped st')) (s_MVBAIn st') (s_MVBASent st')
           (s_busy st') (s_hold st')
       else st').

(** The receiving goroutine at line 369; helper, no counterpart in /repo. *)
Definition set_hold (st : pst) (h : option recov) : pst :=
  mkPst (s_flgCom st) (s_comDone st) (s_flgRec st) (s_CQ st) (s_Q st) (s_SRec st) (s_SSig st) (s_Comb st)
    (s_stopped st) (s_MVBAIn st) (s_MVBASent st) (s_busy st) h.

(** Lines 381-388: handler k takes a message when the commitments of dealer k are accepted, it has
    not left its loop, and the mutex is free (a rejected message does not need the
    mutex; waiting with it changes nothing).  There is no handler 0. *)
Definition do_handle (p : Party) (st : pst) : go pst :=
  match s_hold st with
  | None => Ret st
  | Some x =>
    if nth (ro_k x) (s_flgCom st) false && negb (nth (ro_k x) (s_stopped st) false) && negb (s_busy st)
       && (1 <=? ro_k x)%nat
    then handle p (set_hold st None) x
    else Ret st
  end.

(** Line 437: MainProcess returns. *)
Definition do_mvba (st : pst) : pst :=
  mkPst (s_flgCom st) (s_comDone st) (s_flgRec st) (s_CQ st) (s_Q st) (s_SRec st) (s_SSig st) (s_Comb st)
    (s_stopped st) (s_MVBAIn st) (s_MVBASent st) false (s_hold st).

(** One step; the second component are the messages sent (to the members 1..N, in order). *)
Definition pstep (p : Party) (st : pst) (e : pev) : go (pst * list RecoverMsg) :=
  match e with
  | EvCommit j data => st' <- do_commit p st j data ;; Ret (st', [])
  | EvReshare sender m => ms <- do_reshare p st sender m ;; Ret (st, ms)
  | EvRecv sender m => st' <- do_recv p st sender m ;; Ret (st', [])
  | EvHandle => st' <- do_handle p st ;; Ret (st', [])
  | EvMVBA => Ret (do_mvba st, [])
  end.

(** A run: any order of lines 146-211, 264-330, 357-369, 381-448. *)
Fixpoint prun (p : Party) (st : pst) (evs : list pev) : go pst :=
  match evs with
  | [] => Ret st
  | e :: rest => x <- pstep p st e ;; prun p (fst x) rest
  end.
End Machine.

(** ** Refresh *)

(** Lines 464-486: the sums over the agreed dealers; state (Qsum, CQsum), index 0 of CQsum unused.
    [None]: waits for RecDone[j] (line 468) for ever. *)
Definition refresh_sums (p : Party) (st : pst) (J : list Z) : go (option (list Fr * list G1)) :=
  gofold
    (fun acc j =>
       match acc with
       | None => Ret None
       | Some (Qsum, CQsum) =>
         let j := Z.to_nat j in
         flg <- idx (s_flgCom st) j ;;
         q <- idx (s_Q st) j ;;
         row <- idx (s_CQ st) j ;;
         if negb flg && negb (nth j (s_flgRec st) false) then Ret None
         else
           row <- (if negb flg then c <- CommitToPoly (p_KZG p) q ;; upd row (p_PID p + 1) c else Ret row) ;;
           Qsum' <- gomap (fun i => a <- idx Qsum i ;; b <- idx q i ;; Ret (a + b)) (seq 0 (p_F p + 1)) ;;
           CQs <- gomap (fun i => a <- idx CQsum i ;; b <- idx row i ;; Ret (AddG1 a b)) (seq 1 (p_N p)) ;;
           Ret (Some (Qsum', ZeroG1 :: CQs))
       end) J (Some (repeat 0 (p_F p + 1), repeat ZeroG1 (p_N p + 1))).

(** Lines 455-499: the refreshed reduced share, and CQsum which the distribution uses. *)
Definition Refresh (p : Party) (st : pst) (J : list Z) : go (option (list Fr * list G1)) :=
  o <- refresh_sums p st J ;;
  match o with
  | None => Ret None
  | Some (Qsum, CQsum) =>
    share <- gomap (fun i => a <- idx Qsum i ;; b <- idx (p_reducedShare p) i ;; Ret (a + b))
               (seq 0 (p_F p + 1)) ;;
    Ret (Some (share, CQsum))
  end.

(** ** Share distribution *)

(** Message.proto:123-126. *)
Record ShareDistMsg : Type := mkSD { sd_B : list Z; sd_WB : list Z }.

(** Lines 535-551: the messages for the members 1..N, in order; [p] has the refreshed reduced share. *)
Definition DistributeSend (cd : g1codec) (p : Party) : go (list ShareDistMsg) :=
  gomap (fun j =>
    w <- ComputeProofSingle (p_KZG p) (p_reducedShare p) (of_nat j) ;;
    Ret (mkSD (FrTo32 (EvalPolyAt (p_reducedShare p) (of_nat j))) (ToCompressedG1 cd w))) (seq 1 (p_N p)).

(** Lines 558-565: the new commitment given to reliable broadcast. *)
Definition NewCommitSend (cd : g1codec) (p : Party) : go (list Z) :=
  CB <- CommitToPoly (p_KZG p) (p_reducedShare p) ;; Ret (ToCompressedG1 cd CB).

(** Lines 574-606: the commitment of member j is accepted when it is the old commitment plus the sum
    of the refreshing ones. *)
Definition VerifyNewCommit (cd : g1codec) (p : Party) (CQsum : list G1) (j : nat) (data : list Z)
    : go (option G1) :=
  let F := p_F p in
  ReceivedCB <- ReadG1 cd data ;;
  oldCB <- (if (j <=? 2 * F + 1)%nat then c <- idx (PiContents (p_Proof p)) j ;; Ret (CBj c)
            else
              cs <- gomap (fun i => c <- idx (PiContents (p_Proof p)) i ;; Ret (CBj c)) (seq 1 (2 * F + 1)) ;;
              InterpolateComOrWit F (p_tab p) (2 * F) j cs) ;;
  q <- idx CQsum j ;;
  if EqualG1 ReceivedCB (AddG1 oldCB q) then Ret (Some ReceivedCB) else Ret None.

(** The variables of the distribution.  [d_ncDone]: the verifying goroutine j has ended; [d_SCom] the
    accepted commitments; [d_token] the content of SComChan; [d_free]: goroutines of the
    interpolation stage that have not received a message; [d_wait]: messages (index, message)
    whose goroutine waits for SComChan[index]; [d_share]: the full share when it has been
    interpolated (SuccessSent). Lines 512-517, 611-625. *)
Record dst : Type := mkDst {
  d_ncDone : list bool; d_SCom : list G1; d_token : list bool;
  d_free : nat; d_wait : list (nat * ShareDistMsg);
  d_SB : list (nat * Fr); d_share : option (list Fr) }.

(** Lines 512-528, 611-614. *)
Definition dist_init (N : nat) : dst :=
  mkDst (repeat false (N + 1)) (repeat ZeroG1 (N + 1)) (repeat false (N + 1)) N [] [] None.

(** Lines 572-607 and 617-676. *)
Inductive dev : Type :=
| DvCommit (j : nat) (data : list Z)             (* reliable broadcast "_2,j" delivers *)
| DvRecv (sender : Z) (m : ShareDistMsg)         (* a goroutine takes a message *)
| DvGo (i : nat).                                (* waiting goroutine i gets its token *)

(** Lines 572-607. *)
Definition d_commit (cd : g1codec) (p : Party) (CQsum : list G1) (st : dst) (j : nat) (data : list Z)
    : go dst :=
  if negb ((1 <=? j) && (j <=? p_N p))%nat || nth j (d_ncDone st) true then Ret st
  else
    o <- VerifyNewCommit cd p CQsum j data ;;
    Ret (match o with
         | Some CB => mkDst (set_nth j true (d_ncDone st)) (set_nth j CB (d_SCom st))
                        (set_nth j true (d_token st)) (d_free st) (d_wait st) (d_SB st) (d_share st)
         | None => mkDst (set_nth j true (d_ncDone st)) (d_SCom st) (d_token st) (d_free st) (d_wait st)
                     (d_SB st) (d_share st)
         end).

(** Lines 617-625 up to the wait. *)
Definition d_recv (p : Party) (st : dst) (sender : Z) (m : ShareDistMsg) : go dst :=
  match d_free st with
  | O => Ret st
  | S n =>
    let j := ((sender + 1) mod 2 ^ 32)%Z in
    if (Z.of_nat (p_N p) <? j)%Z then Panic
    else Ret (mkDst (d_ncDone st) (d_SCom st) (d_token st) n (d_wait st ++ [(Z.to_nat j, m)]) (d_SB st)
                (d_share st))
  end.

(** Lines 627-676, as one step although no mutex is held in lines 645-672; RaceModel.v treats the interleavings of
    single accesses in these lines. *)
Definition d_go (cd : g1codec) (p : Party) (st : dst) (i : nat) : go dst :=
  match nth_error (d_wait st) i with
  | None => Ret st
  | Some (j, m) =>
    if negb (nth j (d_token st) false) then Ret st
    else
      let wait' := firstn i (d_wait st) ++ skipn (i + 1) (d_wait st) in
      let token' := set_nth j false (d_token st) in
      currentCB <- idx (d_SCom st) j ;;
      let v := FrFrom32_into 0 (to32 (sd_B m)) in
      w <- ReadG1 cd (sd_WB m) ;;
      ok <- CheckProofSingle (p_KZG p) currentCB w (of_nat (p_PID p + 1)) v ;;
      if (ok : bool) then
        let SB := d_SB st ++ [(j, v)] in
        match d_share st with
        | None =>
          if (2 * p_F p + 1 <=? length SB)%nat then
            full <- LagrangeInterpolate (2 * p_F p)
                      (map (fun e => of_nat (fst e)) (firstn (2 * p_F p + 1) SB))
                      (map snd (firstn (2 * p_F p + 1) SB)) ;;
            Ret (mkDst (d_ncDone st) (d_SCom st) token' (d_free st) wait' SB (Some full))
          else Ret (mkDst (d_ncDone st) (d_SCom st) token' (d_free st) wait' SB None)
        | Some f => Ret (mkDst (d_ncDone st) (d_SCom st) token' (d_free st) wait' SB (Some f))
        end
      else Ret (mkDst (d_ncDone st) (d_SCom st) token' (d_free st) wait' (d_SB st) (d_share st))
  end.

(** Lines 572-607, 617-625 or 627-676. *)
Definition dstep (cd : g1codec) (p : Party) (CQsum : list G1) (st : dst) (e : dev) : go dst :=
  match e with
  | DvCommit j data => d_commit cd p CQsum st j data
  | DvRecv sender m => d_recv p st sender m
  | DvGo i => d_go cd p st i
  end.

(** A run of lines 572-676. *)
Definition drun (cd : g1codec) (p : Party) (CQsum : list G1) (st : dst) (evs : list dev) : go dst :=
  gofold (dstep cd p CQsum) evs st.

(** What the handoff leaves in the party: the reduced share (line 498) and the full share
    (line 662); nothing else is written. *)
Definition set_fullShare (p : Party) (full : list Fr) : Party :=
  mkParty (p_N p) (p_F p) (p_PID p) (p_KZG p) (p_Proof p) full (p_reducedShare p) (p_witness p)
    (p_witnessIndexes p) (p_tab p).

(** Lines 685-700: counting Success messages, given by their senders; [true]: the handoff is
    left. *)
Fixpoint success_loop (F : nat) (count : nat) (senders : list Z) : bool :=
  match senders with
  | [] => false
  | _ :: rest => if (2 * F + 1 <=? count + 1)%nat then true else success_loop F (count + 1) rest
  end.
