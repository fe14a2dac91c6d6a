(** Model of internal/party/ProactivizeAndShareDist.go:645-672 at the grain of single reads and writes.

    The N goroutines of the interpolation stage share the variables SB, SuccessSent and p.fullShare; no mutex
    is held between lines 645 and 672 (SComMutex protects SCom only, mutexKZG the check at line 641).  In
    ProacModel.v these lines are one step; here every access to a shared variable is a step of its own and
    the goroutines are interleaved in any order (sequential consistency: the weaker orders that Go's memory
    model permits for racing accesses, and torn writes of a slice header or an element, are not modelled). *)

Require Import ZArith List Bool Arith Lia.
From Verif Require Import Fr Poly CodecModel GoBase PolyModel.
Import ListNotations.

(** The fields index and v of an SBElement (party.go); the fields CB and w are never read. party.go:107-112. *)
Definition entry : Type := nat * Fr.

(** A slice: its array, length and capacity. ProactivizeAndShareDist.go:646; the Go runtime's slice header. *)
Record hdr : Type := mkH { h_arr : nat; h_len : nat; h_cap : nat }.

(** The shared variables of ProactivizeAndShareDist.go:517, 611 and p.fullShare (line 662). *)
Record mem : Type := mkMem {
  m_heap : nat -> nat -> entry;      (* the arrays and their elements *)
  m_next : nat;                      (* arrays from here on are not allocated *)
  m_SB : hdr;
  m_sent : bool;                     (* SuccessSent *)
  m_full : option (list Fr);         (* p.fullShare, if line 662 was executed *)
  m_succ : nat }.                    (* Success messages broadcast (line 669) *)

(** Where a goroutine is; the checks up to line 645 have succeeded. *)
Inductive pc : Type :=
| PLoad                                  (* line 646: append reads SB *)
| PWrite (h : hdr)                       (* append writes the element, into the same array or a new one *)
| PStore (h : hdr)                       (* the result is stored in SB *)
| PSent                                  (* line 653: reads SuccessSent *)
| PLen                                   (* line 653: reads len(SB) *)
| PIdx (t : nat) (xs ys : list Fr)       (* line 658: reads SB[t].index *)
| PVal (t : nat) (xs ys : list Fr)       (* line 659: reads SB[t].v *)
| PShare (xs ys : list Fr)               (* lines 662-669 *)
| PMark                                  (* line 670 *)
| PEnd.

(** The zero SBElement (party.go:107-112). *)
Definition e0 : entry := (0%nat, f0).

(** Line 517: an empty slice. *)
Definition mem_init : mem := mkMem (fun _ _ => e0) 1 (mkH 0 0 0) false None 0.

Section Race.
Variable F : nat.
(** The capacity append chooses for a full slice of length n; the runtime doubles it (or a bit more). *)
Variable grow : nat -> nat.
(** What goroutine k appends: the index of its sender and the value it has checked. *)
Variable es : nat -> entry.

(** Reading an element, ProactivizeAndShareDist.go:658-659. *)
Definition read (m : mem) (h : hdr) (t : nat) : entry := m_heap m (h_arr h) t.

(** runtime.growslice and the copy are one step (the old elements are read at once).
    ProactivizeAndShareDist.go:646. *)
Definition append_write (m : mem) (h : hdr) (e : entry) : mem * hdr :=
  if (h_len h <? h_cap h)%nat then
    (mkMem (fun a t => if ((a =? h_arr h) && (t =? h_len h))%nat then e else m_heap m a t)
       (m_next m) (m_SB m) (m_sent m) (m_full m) (m_succ m), mkH (h_arr h) (h_len h + 1) (h_cap h))
  else
    (mkMem (fun a t => if (a =? m_next m)%nat then (if (t <? h_len h)%nat then m_heap m (h_arr h) t else if (t =? h_len h)%nat then e else e0)
                       else m_heap m a t)
       (m_next m + 1) (m_SB m) (m_sent m) (m_full m) (m_succ m), mkH (m_next m) (h_len h + 1) (grow (h_len h))).

(** One step of goroutine k.  Line 671 (a channel of capacity 1 from which line 686 takes one token) has no
    effect on these variables and is left out. *)
Definition gstep (k : nat) (m : mem) (c : pc) : go (mem * pc) :=
  match c with
  | PLoad => Ret (m, PWrite (m_SB m))
  | PWrite h => let (m', h') := append_write m h (es k) in Ret (m', PStore h')
  | PStore h => Ret (mkMem (m_heap m) (m_next m) h (m_sent m) (m_full m) (m_succ m), PSent)
  | PSent => Ret (m, if m_sent m then PEnd else PLen)
  | PLen => Ret (m, if (2 * F + 1 <=? h_len (m_SB m))%nat then PIdx 0 [] [] else PEnd)
  | PIdx t xs ys =>
    if (t <? h_len (m_SB m))%nat then Ret (m, PVal t (xs ++ [of_nat (fst (read m (m_SB m) t))]) ys) else Panic
  | PVal t xs ys =>
    if (t <? h_len (m_SB m))%nat then
      let ys' := ys ++ [snd (read m (m_SB m) t)] in
      Ret (m, if (t <? 2 * F)%nat then PIdx (t + 1) xs ys' else PShare xs ys')
    else Panic
  | PShare xs ys =>
    full <- LagrangeInterpolate (2 * F) xs ys ;;
    Ret (mkMem (m_heap m) (m_next m) (m_SB m) (m_sent m) (Some full) (m_succ m + 1), PMark)
  | PMark => Ret (mkMem (m_heap m) (m_next m) (m_SB m) true (m_full m) (m_succ m), PEnd)
  | PEnd => Ret (m, PEnd)
  end.

(** Memory and program counters for ProactivizeAndShareDist.go:645-672. *)
Record rstate : Type := mkRS { s_mem : mem; s_pc : nat -> pc }.

(** All goroutines before ProactivizeAndShareDist.go:646. *)
Definition rs_init : rstate := mkRS mem_init (fun _ => PLoad).

(** Goroutine k runs for one step. A step within ProactivizeAndShareDist.go:645-672. *)
Definition rstep (s : rstate) (k : nat) : go rstate :=
  '(m, c) <- gstep k (s_mem s) (s_pc s k) ;; Ret (mkRS m (fun j => if (j =? k)%nat then c else s_pc s j)).

(** A schedule: which goroutine runs next. For ProactivizeAndShareDist.go:645-672. *)
Definition rrun (sched : list nat) (s : rstate) : go rstate := gofold rstep sched s.
End Race.
