(** The start of the processes: cmd/DyCAPs/main.go:36-190, internal/party/party_utils.go:15-35, pkg/core/send.go:18-35,
    pkg/core/receive.go:16-50.

    A process listens, sleeps for a fixed time, and then connects to the processes in its lists one after the other; a
    connection to a process that does not listen ends it (send.go:26-30: SetKeepAlive on a nil connection and
    log.Fatalln, there is no second attempt although the loop is called retry).  A process that ends
    takes along those it had connected to (receive.go:55-58; DownModel.v treats this in detail).

    Simplified: the lists of addresses are lists of process numbers; a process listens from its start on (the work of
    NewHonestParty before InitReceiveChannel takes no time); ports are free and addresses resolve. *)

Require Import List Arith Bool.
Import ListNotations.

(** Does the process listen, how long does it sleep, to whom does it connect?  main.go:53-58, 86-90, 123-128, 179-183. *)
Record proc : Type := mkProc { pr_listens : bool; pr_wait : nat; pr_targets : list nat }.

(** main.go:40-58 with 75-90 and 164-183: [n] members of the old committee (0, 1, ...), [n] of the new committee
    (n, n+1, ...) and the client (2n); [t1], [t2], [t3] are the flags of main.go:28-30. *)
Definition deployment (n t1 t2 t3 : nat) (i : nat) : proc :=
  if i <? n then mkProc true t2 (seq 0 n ++ seq n n)
  else if i <? 2 * n then mkProc true t1 (seq n n)
  else mkProc false t3 (seq 0 n).

(** main.go:112-128: one committee that hands over to itself; both lists are the same. *)
Definition one_committee (n t1 : nat) (_ : nat) : proc := mkProc true t1 (seq 0 n ++ seq 0 n).

(** Where a process is in main: not started; in time.Sleep, since when; in the loops of party_utils.go:21-35, after [k]
    connections; ended. main.go:36-190. *)
Inductive phase : Type := Off | Sleeping (since : nat) | Dialling (k : nat) | Ended.

(** Time in seconds; the processes; the connections made (from, to). main.go:36-190. *)
Record sst : Type := mkSst { s_clock : nat; s_ph : nat -> phase; s_conns : list (nat * nat) }.

(** Before anything is started; helper, no counterpart in /repo. *)
Definition s_init : sst := mkSst 0 (fun _ => Off) [].

(** What happens: main.go:36-190. *)
Inductive sev : Type :=
| Tick
| Start (i : nat)       (* the process is started and listens: receive.go:22-32 *)
| Wake (i : nat)        (* time.Sleep returns: main.go:55, 88, 125, 181 *)
| Dial (i : nat)        (* the next connection: send.go:24-34 *)
| Break (i j : nat).    (* j has an incoming connection from i, which has ended: receive.go:55-58 *)

(** Changing one process; helper, no counterpart in /repo. *)
Definition set_ph (f : nat -> phase) (i : nat) (x : phase) : nat -> phase := fun j => if j =? i then x else f j.

(** Is there a listener: receive.go:22-32, 40. *)
Definition accepts (P : nat -> proc) (st : sst) (j : nat) : bool :=
  pr_listens (P j) && match s_ph st j with Sleeping _ | Dialling _ => true | Off | Ended => false end.

(** One step; [None]: not possible. main.go:36-190, party_utils.go:21-35, send.go:24-34. *)
Definition sstep (P : nat -> proc) (st : sst) (e : sev) : option sst :=
  match e with
  | Tick => Some (mkSst (s_clock st + 1) (s_ph st) (s_conns st))
  | Start i => match s_ph st i with
               | Off => Some (mkSst (s_clock st) (set_ph (s_ph st) i (Sleeping (s_clock st))) (s_conns st))
               | _ => None
               end
  | Wake i => match s_ph st i with
              | Sleeping t => if t + pr_wait (P i) <=? s_clock st
                              then Some (mkSst (s_clock st) (set_ph (s_ph st) i (Dialling 0)) (s_conns st)) else None
              | _ => None
              end
  | Dial i => match s_ph st i with
              | Dialling k =>
                match nth_error (pr_targets (P i)) k with
                | Some j => if accepts P st j
                            then Some (mkSst (s_clock st) (set_ph (s_ph st) i (Dialling (k + 1))) (s_conns st ++ [(i, j)]))
                            else Some (mkSst (s_clock st) (set_ph (s_ph st) i Ended) (s_conns st))
                | None => None
                end
              | _ => None
              end
  | Break i j =>
      match s_ph st i, s_ph st j with
      | Ended, Sleeping _ | Ended, Dialling _ =>
        if existsb (fun c => (fst c =? i) && (snd c =? j)) (s_conns st)
        then Some (mkSst (s_clock st) (set_ph (s_ph st) j Ended) (s_conns st)) else None
      | _, _ => None
      end
  end.
