(** Plans for the start of the processes, and runs that follow a plan.  Used for C84. *)

Require Import List Arith Bool.
From Verif Require Import StartModel.
Import ListNotations.

(** The processes [ps] are started at the times [s]. *)
Definition on_time (ps : list nat) (s : nat -> nat) (st : sst) (e : sev) : Prop :=
  match e with
  | Start i => In i ps /\ s i = s_clock st
  | Tick => forall i, In i ps -> s i = s_clock st -> s_ph st i <> Off
  | _ => True
  end.

Inductive follows (P : nat -> proc) (ps : list nat) (s : nat -> nat) : sst -> list sev -> sst -> Prop :=
| fo_nil st : follows P ps s st [] st
| fo_cons st e st1 evs st2 : on_time ps s st e -> sstep P st e = Some st1 -> follows P ps s st1 evs st2 ->
    follows P ps s st (e :: evs) st2.

(** The same, with sleeps that end on time and connections that take no time. *)
Inductive prompt (P : nat -> proc) (ps : list nat) (s : nat -> nat) : sst -> list sev -> sst -> Prop :=
| pt_nil st : prompt P ps s st [] st
| pt_cons st e st1 evs st2 : on_time ps s st e ->
    (e = Tick -> forall i, In i ps -> sstep P st (Wake i) = None /\ sstep P st (Dial i) = None) ->
    sstep P st e = Some st1 -> prompt P ps s st1 evs st2 ->
    prompt P ps s st (e :: evs) st2.

(** Everybody a process connects to is one of the processes, listens, and is started before the process stops sleeping. *)
Definition early_enough (P : nat -> proc) (ps : list nat) (s : nat -> nat) : Prop :=
  forall i j, In i ps -> In j (pr_targets (P i)) -> In j ps /\ pr_listens (P j) = true /\ s j < s i + pr_wait (P i).

(** The process has all its connections. *)
Definition running (P : nat -> proc) (st : sst) (i : nat) : Prop :=
  s_ph st i = Dialling (length (pr_targets (P i))) /\ forall j, In j (pr_targets (P i)) -> In (i, j) (s_conns st).
