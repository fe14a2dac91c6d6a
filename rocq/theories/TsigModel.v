(** Model of the threshold signatures: key generation (/repo/internal/party/keygen.go) and the scheme of
    github.com/drand/kyber v1.1.17 (sign/tbls/tbls.go, share/poly.go) which the code calls.  The source of
    kyber is not in /repo; the model follows its published source and is part of the trusted base.

    Points are discrete logarithms (see GroupModel.v).  A signature share is the index (two bytes)
    and a point; a share that does not decode is [None].  Hashing of the message to the curve is
    the parameter [H]. *)

Require Import ZArith List Bool Arith.
From Verif Require Import Prime Fr Bytes CodecModel GoBase GroupModel.
Import ListNotations.
Local Open Scope F_scope.

(** Addition in G2 (kyber; internal/bls has no such function). *)
Definition AddG2 (a b : G2) : G2 := mkG2 (dlog2 a + dlog2 b).

(** kyber share/poly.go PriPoly.Eval: Horner's rule at 1+i. *)
Definition PriEval (coeffs : list Fr) (i : nat) : Fr :=
  loop_down 0 (length coeffs) (fun v j => v * of_nat (1 + i) + nth j coeffs 0) 0.

(** kyber PriPoly.Shares. Called at keygen.go:15-71. *)
Definition Shares (coeffs : list Fr) (n : nat) : list (nat * Fr) :=
  map (fun i => (i, PriEval coeffs i)) (seq 0 n).

(** kyber PriPoly.Commit: the commitments of the coefficients, here to the base of G2. *)
Definition Commit (coeffs : list Fr) : list G2 := map (fun a => MulG2 GenG2 a) coeffs.

(** keygen.go:15-29 SigKeyGen; [x] the picked key and [rnd] the other picked coefficients (NewPriPoly picks
    t-1 of them). *)
Definition SigKeyGen (n t : nat) (x : Fr) (rnd : list Fr) : list (nat * Fr) * list G2 :=
  let pripoly := x :: firstn (t - 1) rnd in (Shares pripoly n, Commit pripoly).

(** kyber-bls12381 Scalar.SetBytes: big-endian, reduced. *)
Definition be_value (bs : list Z) : Z := fold_left (fun acc b => acc * 256 + b)%Z bs 0%Z.

(** keygen.go:32-51 SigKeyGenFix and 53-71 SigKeyGenFix_New; [file] is the decoded content of
    the file (gob decoding is not modelled). *)
Definition SigKeyGenFix (n t : nat) (file : list (list Z)) : go (list (nat * Fr) * list G2) :=
  coeff <- goloop 0 t (fun acc i => b <- idx file i ;; Ret (acc ++ [of_Z (be_value b)])) [] ;;
  Ret (Shares coeff n, Commit coeff).

Section Scheme.
Variable H : list Z -> G1.

(** kyber share/poly.go: a signature share, index and point (made at pb.go:77, ProactivizeAndShareDist.go:302).
    *)
Record PubShare : Type := mkPS { ps_I : nat; ps_V : G1 }.

(** tbls.go Sign. Called at pb.go:77. *)
Definition Sign (sk : nat * Fr) (msg : list Z) : PubShare := mkPS (fst sk) (MulG1 (H msg) (snd sk)).

(** kyber PubPoly.Eval. Used by VerifyPartial (pb.go:40). *)
Definition PubEval (pub : list G2) (i : nat) : G2 :=
  loop_down 0 (length pub) (fun v j => AddG2 (MulG2 v (of_nat (1 + i))) (nth j pub ZeroG2)) ZeroG2.

(** tbls.go VerifyPartial: e(H(m), pk_i) = e(sig, g2). *)
Definition VerifyPartial (pub : list G2) (msg : list Z) (sig : option PubShare) : bool :=
  match sig with
  | None => false
  | Some s => PairingsVerify (H msg) (PubEval pub (ps_I s)) (ps_V s) GenG2
  end.

(** tbls.go VerifyRecovered, with the committee key: the first commitment.
    The same check is made at spb.go:64, message_handler.go:45, 112. *)
Definition VerifyRecovered (pub : list G2) (msg : list Z) (sig : G1) : bool :=
  PairingsVerify (H msg) (nth 0 pub ZeroG2) sig GenG2.

(** kyber share/poly.go xyCommit: sort by index, first t different indexes. Used by Recover (pb.go:45). *)
Fixpoint insert (s : PubShare) (l : list PubShare) : list PubShare :=
  match l with
  | [] => [s]
  | a :: l' => if (ps_I a <=? ps_I s)%nat then a :: insert s l' else s :: l
  end.
(** Used by Recover (pb.go:45). *)
Definition sort (l : list PubShare) : list PubShare := fold_left (fun acc s => insert s acc) l [].

(** Used by Recover (pb.go:45). *)
Fixpoint xyCommit (t : nat) (acc l : list PubShare) : list PubShare :=
  match l with
  | [] => acc
  | s :: l' =>
    let acc' := if existsb (fun a => ps_I a =? ps_I s)%nat acc
                then map (fun a => if (ps_I a =? ps_I s)%nat then s else a) acc else acc ++ [s] in
    if (length acc' =? t)%nat then acc' else xyCommit t acc' l'
  end.

(** kyber share/poly.go RecoverCommit; the order in which Go visits the map does not matter for a sum.
    Used by Recover (pb.go:45). *)
Definition RecoverCommit (shares : list PubShare) (t : nat) : go G1 :=
  let pts := xyCommit t [] (sort shares) in
  if (length pts <? t)%nat then Error
  else
    let x i := of_nat (1 + ps_I (nth i pts (mkPS 0 ZeroG1))) in
    Ret (loop 0 (length pts)
      (fun acc i =>
         let nd := loop 0 (length pts)
           (fun nd j => if (i =? j)%nat then nd else (fst nd * x j, snd nd * (x j - x i))) (1, 1) in
         AddG1 acc (MulG1 (ps_V (nth i pts (mkPS 0 ZeroG1))) (fst nd * finv (snd nd)))) ZeroG1).

(** tbls.go Recover: takes valid shares until there are t of them. Called at pb.go:45. *)
Fixpoint valid_shares (pub : list G2) (msg : list Z) (t : nat) (acc : list PubShare)
    (sigs : list (option PubShare)) : list PubShare :=
  match sigs with
  | [] => acc
  | s :: rest =>
    match s with
    | Some x =>
      if VerifyPartial pub msg s then
        if (t <=? length (acc ++ [x]))%nat then acc ++ [x] else valid_shares pub msg t (acc ++ [x]) rest
      else valid_shares pub msg t acc rest
    | None => valid_shares pub msg t acc rest
    end
  end.

(** tbls.go Recover, called at pb.go:45 and ProactivizeAndShareDist.go:425. *)
Definition Recover (pub : list G2) (msg : list Z) (sigs : list (option PubShare)) (t : nat) : go G1 :=
  let ps := valid_shares pub msg t [] sigs in
  if (length ps <? t)%nat then Error else RecoverCommit ps t.
End Scheme.
