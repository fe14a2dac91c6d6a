(** C75: the honest members of a new committee, from the start of Proactivize to the agreement. *)

Require Import ZArith List Bool Arith Lia Permutation.
From Verif Require Import Prime Fr GoBase Poly PolyModel PolyProofs Biv GroupModel KzgModel KzgProofs.
From Verif Require Import CodecModel CodecProofs PartyModel PartySpec VssModel VssProofs BivProofs.
From Verif Require Import ReduceModel ReduceProofs PropertiesVss PropertiesReduce.
From Verif Require Import ProacModel ProacProofs ProacRun ProacSig ProacRecover ProacDist ProacLinks.
From Verif Require Import PropertiesProac ReshareModel ReshareProofs StageModel StageProofs StageNet.
Import ListNotations.
Local Open Scope F_scope.

(** The honest members: distinct, at least 2F+1, set up as NewHonestParty does, each with polynomials of a sharing
    of zero, whose signature shares verify. *)
Definition committee (s : Fr) (N F : nat) (ps : nat -> Party) (QB : nat -> list (list Fr)) (sg : nat -> nat -> list Z)
    (sigok : nat -> list Z -> bool) (hon : list nat) : Prop :=
  (forall i, In i hon -> party_wf s (ps i) /\ p_N (ps i) = N /\ p_F (ps i) = F /\ p_PID (ps i) = (i - 1)%nat) /\
  (forall k, bdeg F (2 * F) (QB k)) /\ (forall k, In k hon -> beval (QB k) 0 0 = 0) /\ (Z.of_nat N < 2 ^ 32)%Z /\
  (forall k, In k hon -> (1 <= k <= N)%nat) /\ NoDup hon /\ (forall j k, In j hon -> In k hon -> sigok k (sg j k) = true) /\
  (2 * F + 1 <= length hon)%nat.

(** The polynomials a dealer shares, by its bivariate polynomial. *)
Definition dealt (F : nat) (QB : nat -> list (list Fr)) (k : nat) : list (list Fr) := map (fun j => secy (QB k) (of_nat j)) (seq 1 (2 * F + 1)).

(** Member i has called the agreement, with the signatures of more than F distinct dealers. *)
Definition agreeing (F : nat) (n : net) (i : nat) : Prop :=
  let st := v_st (n_v n i) in s_MVBASent st = true /\ NoDup (map fst (s_MVBAIn st)) /\ (F + 1 <= length (s_MVBAIn st))%nat.

Section Stage.
Variables (cd : g1codec) (s : Fr) (N F : nat) (ps : nat -> Party) (QB : nat -> list (list Fr)).
Variable sg : nat -> nat -> list Z.
Variables (sigok : nat -> list Z -> bool) (combine : nat -> list (list Z) -> list Z).
Variable hon : list nat.
Variables (n0 : net).
Hypothesis HC : codec_ok cd.
Hypothesis C : committee s N F ps QB sg sigok hon.
Hypothesis S0 : starts cd ps (dealt F QB) hon n0.
Local Notation step := (nstep cd ps sg sigok combine hon).
Local Notation runs := (nruns cd ps sg sigok combine hon).
Local Notation st0 := (fun i => v_st (n_v n0 i)).
Local Notation inv := (ninv cd s ps QB sg sigok combine hon st0).

Lemma e0 : forall i, In i hon -> proac_init (ps i) (polys QB F i) = Ret (st0 i).
Proof. intros i Ii. destruct S0 as (S1 & _). destruct (S1 i Ii) as (st & E1 & E2 & _). rewrite E2. exact E1. Qed.

Lemma inv0 : inv n0 (fun _ => []) /\ phi hon n0 = (length hon * (length hon * (3 + 2 * length hon)) + length hon * (N + 2))%nat.
Proof.
  destruct C as (C1 & C2 & C3 & C4 & C5 & C6 & C7 & C8).
  apply (start_ok cd s ps QB sg sigok combine hon N F C1 C2 C4 C5 C6 C8 st0 e0 n0 S0). reflexivity.
Qed.

Lemma reach evs n : runs n0 evs n -> exists E, inv n E /\ (phi hon n + length evs <= phi hon n0)%nat.
Proof.
  intros R. destruct C as (C1 & C2 & C3 & C4 & C5 & C6 & C7 & C8).
  exact (runs_ok cd s ps QB sg sigok combine hon N F HC C1 C2 C3 C4 C5 C6 C7 C8 st0 e0 n0 _ evs n (proj1 inv0) R).
Qed.

Lemma agrees n E i : inv n E -> In i hon -> s_MVBASent (v_st (n_v n i)) = true -> agreeing F n i.
Proof.
  intros I Ii MS. destruct C as (C1 & C2 & C3 & C4 & C5 & C6 & C7 & C8). destruct (C1 i Ii) as (_ & _ & EF & _).
  destruct (loc cd s ps QB sg sigok combine hon N F C1 C2 C4 C5 C8 st0 e0 i Ii) as (W & HQ' & HP & HN' & HH' & PI & E0' & VS).
  destruct (good_inv cd s (ps i) QB sg sigok combine hon HC W HQ' HP HN' HH' _ E0' _ _ _ (i_good _ _ _ _ _ _ _ _ _ _ _ I i Ii)) as (pevs & _ & SI & _).
  destruct SI as (_ & _ & _ & S3 & _ & S5 & _). unfold agreeing. split; [exact MS|]. split; [exact S3|]. rewrite <- EF. apply S5. exact MS.
Qed.

(** No step makes a member panic or stop, and every run ends. *)
Theorem c75_safe : forall evs n e, runs n0 evs n -> exists o, step n e = Ret o.
Proof.
  intros evs n e R. destruct (reach evs n R) as (E & I & _). destruct C as (C1 & C2 & C3 & C4 & C5 & C6 & C7 & C8).
  destruct (nstep_ok cd s ps QB sg sigok combine hon N F HC C1 C2 C3 C4 C5 C6 C7 C8 st0 e0 n E e I) as (o & EO & _). exists o. exact EO.
Qed.

Theorem c75_ends : forall evs n, runs n0 evs n -> (length evs <= length hon * (length hon * (3 + 2 * length hon)) + length hon * (N + 2))%nat.
Proof. intros evs n R. destruct (reach evs n R) as (E & _ & L). pose proof (proj2 inv0). lia. Qed.

(** When nothing more can happen before the agreement returns somewhere, every honest member has called it. *)
Theorem c75_all_start : forall evs n, runs n0 evs n -> (forall e, (forall i, e <> NAgreed i) -> step n e = Ret None) -> forall i, In i hon -> agreeing F n i.
Proof.
  intros evs n R Q i Ii. destruct (reach evs n R) as (E & I & _). pose proof C as (C1 & C2 & C3 & C4 & C5 & C6 & C7 & C8). apply (agrees n E i I Ii).
  exact (quiet_sent cd s ps QB sg sigok combine hon N F HC C1 C2 C3 C4 C5 C6 C7 C8 st0 e0 n E I Q i Ii).
Qed.

(** From every state that can be reached the honest members get there by themselves, without an agreement that has
    been called returning. *)
Theorem c75_reached : forall evs n, runs n0 evs n -> exists evs' n', runs n evs' n' /\ (forall i, ~ In (NAgreed i) evs') /\ forall i, In i hon -> agreeing F n' i.
Proof.
  intros evs n R. destruct (reach evs n R) as (E & I & _). pose proof C as (C1 & C2 & C3 & C4 & C5 & C6 & C7 & C8).
  destruct (to_quiet cd s ps QB sg sigok combine hon N F HC C1 C2 C3 C4 C5 C6 C7 C8 st0 e0 n E I) as (evs' & n' & E' & R' & NA & I' & Q).
  exists evs', n'. split; [exact R'|]. split; [exact NA|]. intros i Ii. apply (agrees n' E' i I' Ii).
  apply (quiet_sent_of cd s ps QB sg sigok combine hon N F HC C1 C2 C3 C4 C5 C6 C7 C8 st0 e0 _ n' E' I' Q i Ii); [intros k K; exact K|exact C6|lia].
Qed.
End Stage.
Print Assumptions c75_safe.
Print Assumptions c75_ends.
Print Assumptions c75_all_start.
Print Assumptions c75_reached.

(** There is a start, for every such committee. *)
Lemma stage_start : forall cd s N F ps QB sg sigok hon, committee s N F ps QB sg sigok hon -> exists n, starts cd ps (dealt F QB) hon n.
Proof.
  intros cd s N F ps QB sg sigok hon (C1 & C2 & C3 & C4 & C5 & C6 & C7 & C8).
  set (st0 := fun i => match proac_init (ps i) (dealt F QB i) with Ret st => st | _ => mkPst [] [] [] [] [] [] [] [] [] [] false false None end).
  apply (start_exists cd s ps QB hon N F C1 C2 st0).
  intros i Ii. destruct (C1 i Ii) as (W & EN & EF & EI). pose proof (C5 i Ii).
  destruct (init_inv s (ps i) QB W ltac:(lia) (QB i) ltac:(rewrite EF; apply C2)) as (st & E & _). rewrite EF in E. unfold st0, dealt, polys. rewrite E. reflexivity.
Qed.

(** N = 4, F = 1, the members 1, 2 and 4 honest. *)
Example c75_ex : exists ps n0, (forall i, In i [1; 2; 4]%nat -> NewHonestParty 4 1 (i - 1) = Ret (ps i)) /\
  committee party_secret 4 1 ps (fun _ => [[0; 0]; [0; 1]; [0; 0]]) (fun _ _ => [7%Z]) (fun _ _ => true) [1; 2; 4]%nat /\
  starts demo_codec ps (dealt 1 (fun _ => [[0; 0]; [0; 1]; [0; 0]])) [1; 2; 4]%nat n0 /\ length (n_post n0) = 18%nat /\
  exists evs n, nruns demo_codec ps (fun _ _ => [7%Z]) (fun _ _ => true) (fun _ _ => []) [1; 2; 4]%nat n0 evs n /\
    (forall i, ~ In (NAgreed i) evs) /\ forall i, In i [1; 2; 4]%nat -> agreeing 1 n i.
Proof.
  destruct (new_party 4 1 0) as (p1 & P1 & W1 & N1 & F1 & I1); try lia; [rewrite r_eq; lia|].
  destruct (new_party 4 1 1) as (p2 & P2 & W2 & N2 & F2 & I2); try lia; [rewrite r_eq; lia|].
  destruct (new_party 4 1 3) as (p4 & P4 & W4 & N4 & F4 & I4); try lia; [rewrite r_eq; lia|].
  set (ps := fun i : nat => if (i =? 1)%nat then p1 else if (i =? 2)%nat then p2 else p4).
  assert (CM : committee party_secret 4 1 ps (fun _ => [[0; 0]; [0; 1]; [0; 0]]) (fun _ _ => [7%Z]) (fun _ _ => true) [1; 2; 4]%nat).
  { split. { intros i [<-|[<-|[<-|[]]]]; unfold ps; cbn [Nat.eqb]; auto. }
    split. { intros k. split; [reflexivity|repeat constructor]. }
    split. { intros k _. unfold beval. cbn [secy map peval]. ring. }
    split; [reflexivity|]. split. { intros k [<-|[<-|[<-|[]]]]; lia. }
    split. { repeat constructor; cbn [In]; lia. }
    split; [reflexivity|]. cbn [length]. lia. }
  destruct (stage_start demo_codec _ _ _ _ _ _ _ _ CM) as (n0 & S0). exists ps, n0. split. { intros i [<-|[<-|[<-|[]]]]; unfold ps; cbn [Nat.eqb Nat.sub]; assumption. }
  split; [exact CM|]. split; [exact S0|]. split. { destruct S0 as (_ & com & res & _ & EP). rewrite EP. reflexivity. }
  apply (c75_reached demo_codec _ _ _ _ _ _ _ (fun _ _ => []) _ n0 demo_codec_ok CM S0 [] n0). constructor.
Qed.
