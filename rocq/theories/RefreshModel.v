(** Model of the loop of Refresh together with the goroutines of the recovery,
    /repo/internal/party/ProactivizeAndShareDist.go:455-499.

    ProacModel.v has [Refresh] as a function of one state.  In the code the loop runs while the
    handlers of the recovery (ProacModel.pstep) go on: they do not share a lock with it
    (mutexSRec is held by the handlers only), so their steps fall between the steps of the loop.
    A handler assigns Q[k][PID+1] as a whole (line 413), and the loop evaluates Q[j][PID+1][i] anew for
    every coefficient (line 476). *)

Require Import ZArith List Bool Arith.
From Verif Require Import Prime Fr GoBase GroupModel KzgModel PartyModel VssModel ProacModel.
Import ListNotations.
Local Open Scope F_scope.

(** Where the loop is, within the body for one dealer: line 467; line 468 (RecDone); line 474-478 with
    the number of the coefficient; line 480-485 with the number of the commitment. *)
Inductive rphase : Type := PCheck | PWait | PQ (i : nat) | PC (i : nat).

(** [f_J]: the dealers still to come, the first one being worked on; [f_Qsum], [f_CQsum] lines
    461-462. *)
Record rst : Type := mkRst {
  f_st : pst; f_J : list Z; f_ph : rphase; f_Qsum : list Fr; f_CQsum : list G1 }.

(** Lines 455-464; [J] is the list in the result of the agreement. *)
Definition refresh_init (p : Party) (st : pst) (J : list Z) : rst :=
  mkRst st J PCheck (repeat 0 (p_F p + 1)) (repeat ZeroG1 (p_N p + 1)).

(** Line 470: the assignment to CQ[j]; helper, no counterpart in /repo. *)
Definition set_CQ (st : pst) (CQ : list (list G1)) : pst :=
  mkPst (s_flgCom st) (s_comDone st) (s_flgRec st) CQ (s_Q st) (s_SRec st) (s_SSig st) (s_Comb st)
    (s_stopped st) (s_MVBAIn st) (s_MVBASent st) (s_busy st) (s_hold st).

(** Lines 464-486: one step of the loop.  A loop that waits for RecDone[j] or has ended stays as it is.
    RecDone[j] (capacity 1, line 39) is filled once, with flgRec[j] (lines 414-415); that the value
    is gone when it has been taken is left out: the handler of dealer j runs only
    when flgCom[j] is set, so that line 468 is not reached again for j. *)
Definition rgo (p : Party) (r : rst) : go rst :=
  let st := f_st r in
  match f_J r with
  | [] => Ret r
  | z :: J' =>
    let j := Z.to_nat z in
    match f_ph r with
    | PCheck =>
      flg <- idx (s_flgCom st) j ;;
      Ret (mkRst st (f_J r) (if flg : bool then PQ 0 else PWait) (f_Qsum r) (f_CQsum r))
    | PWait =>
      if nth j (s_flgRec st) false then
        q <- idx (s_Q st) j ;;
        c <- CommitToPoly (p_KZG p) q ;;
        row <- idx (s_CQ st) j ;;
        row' <- upd row (p_PID p + 1) c ;;
        CQ <- upd (s_CQ st) j row' ;;
        Ret (mkRst (set_CQ st CQ) (f_J r) (PQ 0) (f_Qsum r) (f_CQsum r))
      else Ret r
    | PQ i =>
      if (i <? p_F p + 1)%nat then
        a <- idx (f_Qsum r) i ;;
        q <- idx (s_Q st) j ;;
        b <- idx q i ;;
        Qs <- upd (f_Qsum r) i (a + b) ;;
        Ret (mkRst st (f_J r) (PQ (i + 1)) Qs (f_CQsum r))
      else Ret (mkRst st (f_J r) (PC 1) (f_Qsum r) (f_CQsum r))
    | PC i =>
      if (i <=? p_N p)%nat then
        a <- idx (f_CQsum r) i ;;
        row <- idx (s_CQ st) j ;;
        b <- idx row i ;;
        Cs <- upd (f_CQsum r) i (AddG1 a b) ;;
        Ret (mkRst st (f_J r) (PC (i + 1)) (f_Qsum r) Cs)
      else Ret (mkRst st J' PCheck (f_Qsum r) (f_CQsum r))
    end
  end.

(** The loop of lines 464-486 and the goroutines of lines 146-448. *)
Inductive rev_t : Type :=
| RMach (e : pev)  (* a step of the other goroutines *)
| RGo.             (* a step of the loop *)

Section Interleaved.
Variable cd : g1codec.
Variable sign : nat -> list Z.
Variable sigok : nat -> list Z -> bool.
Variable combine : nat -> list (list Z) -> list Z.

(** A step of lines 464-486 or of lines 146-448. *)
Definition rstep (p : Party) (r : rst) (e : rev_t) : go rst :=
  match e with
  | RMach e =>
    x <- pstep cd sign sigok combine p (f_st r) e ;;
    Ret (mkRst (fst x) (f_J r) (f_ph r) (f_Qsum r) (f_CQsum r))
  | RGo => rgo p r
  end.

(** A run of both.  Lines 146-486. *)
Fixpoint rrun (p : Party) (r : rst) (evs : list rev_t) : go rst :=
  match evs with
  | [] => Ret r
  | e :: rest => r' <- rstep p r e ;; rrun p r' rest
  end.
End Interleaved.

(** Lines 492-499, after the loop: the refreshed reduced share, and CQsum. *)
Definition refresh_end (p : Party) (r : rst) : go (option (list Fr * list G1)) :=
  match f_J r with
  | _ :: _ => Ret None
  | [] =>
    share <- gomap (fun i => a <- idx (f_Qsum r) i ;; b <- idx (p_reducedShare p) i ;; Ret (a + b))
               (seq 0 (p_F p + 1)) ;;
    Ret (Some (share, f_CQsum r))
  end.
