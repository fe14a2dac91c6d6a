(** Vocabulary of the claims about shares. *)

Require Import ZArith List Arith.
From Verif Require Import Prime Fr GoBase Poly PolyModel Biv GroupModel KzgModel PartyModel.
Import ListNotations.
Local Open Scope F_scope.

(** Party [p] holds the full share of the sharing polynomial [B] (degree F in x, 2F in y): the
    polynomial B(i, .) for its index i = PID + 1, the commitments to B(., j) for
    j = 1..2F+1, and 2F+1 witnesses for different places k: the opening of the
    commitment to B(., k) at i. *)
Definition holds_full_share (B : list (list Fr)) (p : Party) : Prop :=
  bdeg (p_F p) (2 * p_F p) B /\
  p_fullShare p = secx B (of_nat (p_PID p + 1)) /\
  (forall j, (1 <= j <= 2 * p_F p + 1)%nat ->
     exists c, nth_error (PiContents (p_Proof p)) j = Some c /\
               CommitToPoly (p_KZG p) (secy B (of_nat j)) = Ret (CBj c)) /\
  length (p_witnessIndexes p) = (2 * p_F p + 1)%nat /\ NoDup (p_witnessIndexes p) /\
  Forall2 (fun k w => ComputeProofSingle (p_KZG p) (secy B k) (of_nat (p_PID p + 1)) = Ret w)
    (p_witnessIndexes p) (p_witness p).

(** A party as [NewHonestParty] makes it, with setup secret [s]; later operations keep this. *)
Definition party_wf (s : Fr) (p : Party) : Prop :=
  setup s (p_F p + 1) = Ret (p_KZG p) /\
  LagrangeTable (p_N p) (p_F p) = Ret (p_tab p) /\
  (1 <= p_F p)%nat /\ (3 * p_F p + 1 <= p_N p)%nat /\ (Z.of_nat (p_N p + 2) <= r)%Z /\
  length (PiContents (p_Proof p)) = (2 * p_F p + 2)%nat /\
  length (p_fullShare p) = (2 * p_F p + 1)%nat /\
  length (p_witness p) = (2 * p_F p + 1)%nat /\
  length (p_witnessIndexes p) = (2 * p_F p + 1)%nat.

(** Member [p] of a committee (N, F) that is ready to hand over the polynomial [B]: the places of
    its witnesses are members' numbers. *)
Definition ready (N F : nat) (B : list (list Fr)) (p : Party) : Prop :=
  party_wf party_secret p /\ p_N p = N /\ p_F p = F /\ (p_PID p < N)%nat /\ holds_full_share B p /\
  Forall (fun k => exists j, (1 <= j <= N)%nat /\ k = of_nat j) (p_witnessIndexes p).
