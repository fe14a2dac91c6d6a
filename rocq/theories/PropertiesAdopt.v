(** C22: what a new member takes over from the data it adopts, and what it leaves alone. *)

Require Import ZArith List Bool Arith Lia.
From Verif Require Import Fr GoBase Poly PolyModel Biv GroupModel KzgModel CodecModel PartyModel PartySpec VssModel VssProofs VssProofs2 ReduceModel ReduceProofs PropertiesVss PropertiesReduce.
Import ListNotations.

(** [part c c' g]: c' is c with the commitment g. *)
Definition part (c c' : PiContent) (g : G1) : Prop := CBj c' = g /\ pc_j c' = pc_j c /\ CZj c' = CZj c /\ WZ0 c' = WZ0 c /\ gFj c' = gFj c.

(** Whatever the data are: if adopting them succeeds, commitment j is the point read from entry j, for j = 1, ...,
    2F+1; the other parts of the proof (dealer's values, other commitments and witnesses), the shares, witnesses and
    keys of the member are as before. *)
Theorem c22_adopts : forall parse cd p d p', adopt parse cd p d = Ret p' ->
  (forall j, (1 <= j <= 2 * p_F p + 1)%nat -> exists b g c c', nth_error (parse d) j = Some b /\ ReadG1 cd b = Ret g /\
     nth_error (PiContents (p_Proof p)) j = Some c /\ nth_error (PiContents (p_Proof p')) j = Some c' /\ part c c' g) /\
  (forall j, (j = 0 \/ 2 * p_F p + 1 < j)%nat -> nth_error (PiContents (p_Proof p')) j = nth_error (PiContents (p_Proof p)) j) /\
  Gs (p_Proof p') = Gs (p_Proof p) /\ p_fullShare p' = p_fullShare p /\ p_reducedShare p' = p_reducedShare p /\ p_witness p' = p_witness p /\
  p_witnessIndexes p' = p_witnessIndexes p /\ p_KZG p' = p_KZG p /\ p_tab p' = p_tab p /\ p_N p' = p_N p /\ p_F p' = p_F p /\ p_PID p' = p_PID p.
Proof.
  intros parse cd p d p' E. unfold adopt in E. apply bind_ret in E. destruct E as (cs & EL & E). injection E as <-. cbn [p_Proof Gs PiContents p_fullShare p_reducedShare p_witness p_witnessIndexes p_KZG p_tab p_N p_F p_PID].
  set (n := (2 * p_F p + 1)%nat) in *. set (cs0 := PiContents (p_Proof p)) in *.
  match type of EL with goloop 1 n ?b cs0 = _ => set (body := b) in EL end.
  assert (G : forall k cs, goloop 1 k body cs0 = Ret cs ->
    (forall j, (1 <= j <= k)%nat -> exists b g c c', nth_error (parse d) j = Some b /\ ReadG1 cd b = Ret g /\ nth_error cs0 j = Some c /\ nth_error cs j = Some c' /\ part c c' g) /\
    (forall j, (j = 0 \/ k < j)%nat -> nth_error cs j = nth_error cs0 j)).
  { clear cs EL. induction k as [|k IH]; intros cs EL.
    - injection EL as <-. split; [intros; lia|reflexivity].
    - replace (S k) with (1 + k)%nat in EL by lia. rewrite goloop_S in EL. apply bind_ret in EL. destruct EL as (cs1 & E1 & E2). destruct (IH cs1 E1) as (A & B). unfold body in E2.
      apply bind_ret in E2. destruct E2 as (b & Eb & E2). apply bind_ret in E2. destruct E2 as (g & Eg & E2). apply bind_ret in E2. destruct E2 as (c & Ec & E2).
      apply upd_inv in E2. destruct E2 as (LK & ->). unfold idx in Eb, Ec. destruct (nth_error (parse d) (1 + k)) as [b'|] eqn:Nb; [|discriminate]. injection Eb as ->.
      destruct (nth_error cs1 (1 + k)) as [c'|] eqn:Nc; [|discriminate]. injection Ec as ->.
      assert (SO : forall j, j <> (1 + k)%nat -> nth_error (set_nth (1 + k) (set_CBj c g) cs1) j = nth_error cs1 j).
      { intros j NE. destruct (Nat.lt_ge_cases j (length cs1)) as [L|L].
        - rewrite (nth_error_nth' cs1 c L), (nth_error_nth' _ c) by (rewrite length_set_nth; exact L). rewrite nth_set_nth_other by lia. reflexivity.
        - rewrite (proj2 (nth_error_None cs1 j) L). apply nth_error_None. rewrite length_set_nth. exact L. }
      split.
      + intros j Hj. destruct (Nat.eq_dec j (1 + k)) as [->|NE].
        * exists b, g, c, (set_CBj c g). split; [exact Nb|]. split; [exact Eg|]. split; [rewrite <- Nc; symmetry; apply B; lia|]. split.
          -- rewrite (nth_error_nth' _ c) by (rewrite length_set_nth; exact LK). rewrite nth_set_nth_same by exact LK. reflexivity.
          -- unfold part. cbn [set_CBj CBj pc_j CZj WZ0 gFj]. auto.
        * destruct (A j ltac:(lia)) as (b1 & g1 & c1 & c1' & A1 & A2 & A3 & A4 & A5). exists b1, g1, c1, c1'. rewrite SO by exact NE. auto.
      + intros j Hj. rewrite SO by lia. apply B. lia. }
  destruct (G n cs EL) as (A & B). split; [exact A|]. split; [exact B|]. repeat (split; [reflexivity|]). reflexivity.
Qed.
Print Assumptions c22_adopts.

(** It happens: a new member of a committee with F = 1 adopts three commitments. *)
Example c22_adopts_ex : forall cd, codec_ok cd -> exists p0 p', NewHonestParty 4 1 2 = Ret p0 /\
  adopt (fun _ => [] :: map (fun j => ToCompressedG1 cd (mkG1 (of_nat j))) (seq 1 3)) cd p0 [] = Ret p'.
Proof.
  intros cd HC. destruct c21_example as (p0 & E & W & EF). exists p0.
  destruct (adopt_correct (fun _ => [] :: map (fun j => ToCompressedG1 cd (mkG1 (of_nat j))) (seq 1 3)) cd p0 [] (fun j => mkG1 (of_nat j)) HC) as (p' & E' & _).
  - apply W.
  - rewrite EF. reflexivity.
  - exists p'. split; [exact E|exact E'].
Qed.
