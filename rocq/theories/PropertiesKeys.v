(** C65: the key files. *)

Require Import ZArith List Bool Arith Lia.
From Verif Require Import Prime Fr Bytes CodecModel CodecProofs GoBase Poly PolyModel PolyProofs GroupModel VssModel VssProofs
  TsigModel TsigProofs PropertiesTsig KeyFileModel.
Import ListNotations.
Local Open Scope F_scope.

(** The assumption about the gob encoding. *)
Definition gob_ok (enc : list (list Z) -> list Z) (dec : list Z -> option (list (list Z))) : Prop :=
  forall l, dec (enc l) = Some l.

(** ** The bytes of a scalar *)

Lemma be_value_val l : be_value l = be_val l.
Proof.
  assert (G : forall l acc, fold_left (fun acc b => acc * 256 + b)%Z l acc = (acc * 256 ^ Z.of_nat (length l) + be_val l)%Z).
  { clear. induction l as [|b l IH]; intros acc; cbn [fold_left]; [unfold be_val; cbn; lia|]. rewrite IH. unfold be_val.
    cbn [rev length]. rewrite le_val_app, rev_length, pow256_S. cbn [le_val]. ring. }
  unfold be_value. rewrite G. lia.
Qed.

Lemma scalar_round_trip a : of_Z (be_value (MarshalScalar a)) = a.
Proof.
  unfold MarshalScalar. rewrite be_value_val, be_val_be_bytes. pose proof (fv_range a) as R.
  assert (B : (r < 256 ^ Z.of_nat 32)%Z) by (vm_compute; reflexivity).
  rewrite Z.mod_small by lia. apply of_Z_fv.
Qed.

Lemma loop_of file : forall m lo acc, (lo + m <= length file)%nat ->
  goloop lo m (fun acc i => b <- idx file i ;; Ret (acc ++ [of_Z (be_value b)])) acc =
  Ret (acc ++ map (fun i => of_Z (be_value (nth i file []))) (seq lo m)).
Proof.
  induction m as [|m IH]; intros lo acc H; unfold goloop; cbn [gofold seq map]; [rewrite app_nil_r; reflexivity|].
  rewrite (idx_nth []) by lia. cbn [bind]. unfold goloop in IH. rewrite IH by lia. rewrite <- app_assoc. reflexivity.
Qed.

Lemma read_coefficients n t c : (t <= length c)%nat ->
  SigKeyGenFix n t (map MarshalScalar c) = Ret (Shares (firstn t c) n, Commit (firstn t c)).
Proof.
  intros L. unfold SigKeyGenFix. rewrite loop_of by (rewrite map_length; lia). cbn [bind app].
  replace (map (fun i => of_Z (be_value (nth i (map MarshalScalar c) []))) (seq 0 t)) with (firstn t c); [reflexivity|].
  apply nth_ext with (d := 0) (d' := 0).
  - rewrite firstn_length, map_length, seq_length. lia.
  - intros i Hi. rewrite firstn_length in Hi. rewrite nth_firstn_lt by lia.
    rewrite (nth_indep (map _ (seq 0 t)) 0 (of_Z (be_value (nth 0 (map MarshalScalar c) [])))) by (rewrite map_length, seq_length; lia).
    rewrite (map_nth (fun i => of_Z (be_value (nth i (map MarshalScalar c) [])))), seq_nth by lia. cbn [Nat.add].
    rewrite (nth_indep _ [] (MarshalScalar 0)) by (rewrite map_length; lia). rewrite map_nth, scalar_round_trip. reflexivity.
Qed.

Lemma idx_shares c n i : idx (Shares c n) i = if (i <? n)%nat then Ret (i, peval c (of_nat (i + 1))) else Panic.
Proof.
  unfold Shares. destruct (Nat.ltb_spec i n) as [H|H].
  - unfold idx. rewrite nth_error_map, (nth_error_nth' (seq 0 n) O) by (rewrite seq_length; exact H).
    rewrite seq_nth by exact H. cbn [option_map Nat.add]. rewrite PriEval_eq. do 3 f_equal. f_equal. lia.
  - apply idx_panic. rewrite map_length, seq_length. exact H.
Qed.

Lemma ret_eq {A} (a b : A) : Ret a = Ret b -> b = a.
Proof. congruence. Qed.

Section Keys.
Variable enc : list (list Z) -> list Z.
Variable dec : list Z -> option (list (list Z)).
Hypothesis GOB : gob_ok enc dec.

Lemma setup_files F x rnd x' rnd' : length rnd = (2 * F)%nat -> length rnd' = (2 * F)%nat ->
  Setup enc F x rnd x' rnd' = Ret (mkDir (Some (enc (map MarshalScalar (x :: rnd)))) (Some (enc (map MarshalScalar (x' :: rnd'))))).
Proof.
  intros L L'. unfold Setup, GenCoefficientsFile, NewPriPoly. rewrite (proj2 (Nat.eqb_neq _ _)) by lia. cbn [bind].
  rewrite !firstn_all2 by lia.
  assert (G : forall c, length c = (2 * F + 1)%nat -> gomap (fun i => a <- idx c i ;; Ret (MarshalScalar a)) (seq 0 (2 * F + 1)) = Ret (map MarshalScalar c)).
  { intros c Lc. rewrite (gomap_ret _ (fun i => MarshalScalar (nth i c 0))).
    - f_equal. apply nth_ext with (d := MarshalScalar 0) (d' := MarshalScalar 0); [rewrite !map_length, seq_length; lia|].
      intros i Hi. rewrite map_length, seq_length in Hi. rewrite map_nth.
      rewrite (nth_indep _ (MarshalScalar 0) (MarshalScalar (nth 0 c 0))) by (rewrite map_length, seq_length; lia).
      rewrite (map_nth (fun i => MarshalScalar (nth i c 0))), seq_nth by lia. reflexivity.
    - intros i Hi. apply in_seq in Hi. rewrite (idx_nth 0) by lia. reflexivity. }
  rewrite !G by (cbn [length]; lia). reflexivity.
Qed.

Lemma keys_read role N F id c c' : (2 * F + 1 <= length c)%nat -> (2 * F + 1 <= length c')%nat ->
  Keys dec role N F id (mkDir (Some (enc (map MarshalScalar c))) (Some (enc (map MarshalScalar c')))) =
  let f := firstn (2 * F + 1) (match role with newCommittee => c' | _ => c end) in
  if (id <? N)%nat then Ret ((id, peval f (of_nat (id + 1))), map (MulG2 GenG2) f) else Panic.
Proof.
  intros L L'. unfold Keys, SigKeyGenFile, ReadFromFile. cbn [coefficients coefficients_new]. rewrite !GOB. cbn [bind].
  rewrite !read_coefficients by assumption. cbn [bind]. destruct role; cbv zeta; rewrite idx_shares; destruct (id <? N)%nat; reflexivity.
Qed.
End Keys.

(** ** C65 *)

(** The polynomial of a role. *)
Definition key_poly (role : Role) (f f_new : list Fr) : list Fr := match role with newCommittee => f_new | _ => f end.

(** All processes started with the same bound as the setup get the values of one polynomial per committee, the picked one,
    and its commitments; the size of the committee given to the setup and to the others plays no part.  An identifier that
    is not below the size stops the process. *)
Theorem c65_consistent enc dec F x rnd x' rnd' : gob_ok enc dec -> length rnd = (2 * F)%nat -> length rnd' = (2 * F)%nat ->
  exists d, Setup enc F x rnd x' rnd' = Ret d /\
    forall role N id, let f := key_poly role (x :: rnd) (x' :: rnd') in
      ((id < N)%nat -> Keys dec role N F id d = Ret ((id, peval f (of_nat (id + 1))), map (MulG2 GenG2) f)) /\
      ((N <= id)%nat -> Keys dec role N F id d = Panic).
Proof.
  intros G L L'. eexists. split; [apply setup_files; assumption|]. intros role N id.
  rewrite (keys_read enc dec G) by (cbn [length]; lia). cbv zeta.
  assert (E : firstn (2 * F + 1) match role with newCommittee => x' :: rnd' | _ => x :: rnd end = key_poly role (x :: rnd) (x' :: rnd')).
  { destruct role; apply firstn_all2; cbn [key_poly length]; lia. }
  rewrite E. split; intros H.
  - rewrite (proj2 (Nat.ltb_lt _ _) H). reflexivity.
  - rewrite (proj2 (Nat.ltb_ge _ _) H). reflexivity.
Qed.
Print Assumptions c65_consistent.

(** A process started with a larger bound than the setup, or without one of the two files, stops. *)
Theorem c65_larger_bound enc dec F x rnd x' rnd' d : gob_ok enc dec -> length rnd = (2 * F)%nat -> length rnd' = (2 * F)%nat ->
  Setup enc F x rnd x' rnd' = Ret d ->
  (forall role N F' id, (F < F')%nat -> Keys dec role N F' id d = Panic) /\
  (forall role N F' id d', coefficients d' = None \/ coefficients_new d' = None -> Keys dec role N F' id d' = Panic).
Proof.
  intros G L L' E. rewrite setup_files in E by assumption. apply ret_eq in E. subst d. split.
  2:{ intros role N F' id (a, b) [E|E]; cbn [coefficients coefficients_new] in E; subst; [reflexivity|].
      unfold Keys, SigKeyGenFile. cbn [coefficients coefficients_new ReadFromFile bind].
      destruct (ReadFromFile dec a) as [file| | |] eqn:EA; cbn [bind].
      - destruct (c50_file N (2 * F' + 1) file ltac:(lia)) as (P1 & P2).
        destruct (le_lt_dec (2 * F' + 1) (length file)) as [Q|Q].
        + destruct (P1 Q) as (x0 & rnd0 & _ & _ & _ & ->). reflexivity.
        + rewrite (P2 Q). reflexivity.
      - reflexivity.
      - destruct a as [raw|]; cbn [ReadFromFile] in EA; [destruct (dec raw)|]; discriminate.
      - destruct a as [raw|]; cbn [ReadFromFile] in EA; [destruct (dec raw)|]; discriminate. }
  intros role N F' id H. unfold Keys, SigKeyGenFile, ReadFromFile. cbn [coefficients coefficients_new]. rewrite !G. cbn [bind].
  destruct (c50_file N (2 * F' + 1) (map MarshalScalar (x :: rnd)) ltac:(lia)) as (_ & P). rewrite P; [reflexivity|].
  rewrite map_length. cbn [length]. lia.
Qed.
Print Assumptions c65_larger_bound.

(** A process started with a smaller bound does not notice: it works with the polynomial cut off, whose committee key is
    the right one.  The others accept its signature shares only if the part cut off vanishes at its index (or the hash is
    zero). *)
Theorem c65_smaller_bound enc dec F F' x rnd x' rnd' d role N id H msg : gob_ok enc dec -> (Z.of_nat N < r)%Z ->
  length rnd = (2 * F)%nat -> length rnd' = (2 * F)%nat -> Setup enc F x rnd x' rnd' = Ret d -> (F' < F)%nat -> (id < N)%nat ->
  let f := key_poly role (x :: rnd) (x' :: rnd') in
  exists sk pub pub', Keys dec role N F' id d = Ret (sk, pub') /\ pub = map (MulG2 GenG2) f /\
    length pub' = (2 * F' + 1)%nat /\ (forall i, (i <= 2 * F')%nat -> nth_error pub' i = nth_error pub i) /\
    (VerifyPartial H pub msg (Some (Sign H sk msg)) = true <->
      H msg = ZeroG1 \/ peval (skipn (2 * F' + 1) f) (of_nat (id + 1)) = 0).
Proof.
  intros G HN L L' E LT Hid f. rewrite setup_files in E by assumption. apply ret_eq in E. subst d.
  rewrite (keys_read enc dec G) by (cbn [length]; lia). cbv zeta. rewrite (proj2 (Nat.ltb_lt _ _) Hid).
  change (match role with newCommittee => x' :: rnd' | _ => x :: rnd end) with f.
  assert (Lf : length f = (2 * F + 1)%nat) by (unfold f; destruct role; cbn [key_poly length]; lia).
  do 3 eexists. split; [reflexivity|]. split; [reflexivity|]. split; [rewrite map_length, firstn_length; lia|]. split.
  - intros i Hi. rewrite !nth_error_map. f_equal. rewrite <- (firstn_skipn (2 * F' + 1) f) at 2.
    rewrite nth_error_app1 by (rewrite firstn_length; lia). reflexivity.
  - change (map (MulG2 GenG2) f) with (Commit f). rewrite (partial_iff H f msg). unfold Sign. cbn [ps_V ps_I fst snd].
    set (y := of_nat (id + 1)). replace (of_nat (1 + id)) with y by (unfold y; f_equal; lia).
    rewrite <- (firstn_skipn (2 * F' + 1) f) at 2. rewrite peval_app.
    assert (LF : length (firstn (2 * F' + 1) f) = (2 * F' + 1)%nat) by (rewrite firstn_length; lia). rewrite LF.
    assert (Y : fpow y (2 * F' + 1) <> 0).
    { apply fpow_neq_0. unfold y. change 0 with (of_nat 0). intros Q. apply of_nat_inj in Q; lia. }
    set (b := peval (skipn (2 * F' + 1) f) y). set (a := peval (firstn (2 * F' + 1) f) y). unfold MulG1. split.
    + intros Q. apply (f_equal dlog1) in Q. cbn [dlog1] in Q.
      assert (Z0 : dlog1 (H msg) * (fpow y (2 * F' + 1) * b) = 0).
      { apply (proj2 (fsub_eq_0 _ _)) in Q. replace (dlog1 (H msg) * (fpow y (2 * F' + 1) * b)) with
          (0 - (dlog1 (H msg) * a - dlog1 (H msg) * (a + fpow y (2 * F' + 1) * b))) by ring. rewrite Q. ring. }
      apply fmul_eq_0 in Z0 as [Z0|Z0].
      * left. destruct (H msg) as [h]. cbn [dlog1] in Z0. subst h. reflexivity.
      * right. apply fmul_eq_0 in Z0 as [Z0|Z0]; [contradiction|exact Z0].
    + intros [Q|Q]; [rewrite Q|rewrite Q]; apply f_equal; cbn [dlog1 ZeroG1]; ring.
Qed.
Print Assumptions c65_smaller_bound.

(** The claim that fewer members than the threshold cannot sign (C50) fails for the files: whoever reads the directory of
    one process signs every message alone, under the key of either committee, and makes the signature share of every
    member. *)
Theorem c65_one_reader_refuted enc dec H : gob_ok enc dec ->
  exists (sign_alone : Role -> Directory -> list Z -> G1) (sign_for : nat -> nat -> Role -> Directory -> list Z -> PubShare),
  forall F x rnd x' rnd' d, length rnd = (2 * F)%nat -> length rnd' = (2 * F)%nat -> Setup enc F x rnd x' rnd' = Ret d ->
  forall role N id sk pub msg, Keys dec role N F id d = Ret (sk, pub) ->
    VerifyRecovered H pub msg (sign_alone role d msg) = true /\
    forall i, ps_I (sign_for F i role d msg) = i /\ VerifyPartial H pub msg (Some (sign_for F i role d msg)) = true.
Proof.
  intros G.
  set (content := fun (role : Role) d => match role with newCommittee => coefficients_new d | _ => coefficients d end).
  exists (fun role d msg => match ReadFromFile dec (content role d) with Ret (b :: _) => MulG1 (H msg) (of_Z (be_value b)) | _ => ZeroG1 end).
  exists (fun F i role d msg => match SigKeyGenFile dec (i + 1) (2 * F + 1) (content role d) with
    | Ret (sh, _) => Sign H (nth i sh (i, 0)) msg | _ => mkPS i ZeroG1 end).
  intros F x rnd x' rnd' d L L' E role N id sk pub msg K. rewrite setup_files in E by assumption. apply ret_eq in E. subst d.
  rewrite (keys_read enc dec G) in K by (cbn [length]; lia). cbv zeta in K.
  set (f := match role with newCommittee => x' :: rnd' | _ => x :: rnd end) in *.
  assert (Lf : length f = (2 * F + 1)%nat) by (unfold f; destruct role; cbn [length]; lia).
  rewrite firstn_all2 in K by lia.
  assert (EP : pub = Commit f). { destruct (id <? N)%nat; [|discriminate]. injection K as _ <-. reflexivity. }
  set (d := mkDir _ _).
  assert (EC : content role d = Some (enc (map MarshalScalar f))) by (unfold f; destruct role; reflexivity).
  cbv beta. split.
  - rewrite EC. unfold ReadFromFile. rewrite G. destruct f as [|a f'] eqn:Ef; [cbn [length] in Lf; lia|]. rewrite EP. apply recovered_iff; [discriminate|]. cbn [map].
    rewrite scalar_round_trip, peval_0. reflexivity.
  - intros i. rewrite EC. unfold SigKeyGenFile, ReadFromFile. rewrite G. cbn [bind]. rewrite read_coefficients, firstn_all2 by lia. rewrite EP.
    assert (EN : nth i (Shares f (i + 1)) (i, 0) = (i, peval f (of_nat (i + 1)))).
    { pose proof (idx_shares f (i + 1) i) as Q. rewrite (proj2 (Nat.ltb_lt _ _)) in Q by lia. rewrite (idx_nth (i, 0)) in Q.
      - injection Q as Q. exact Q.
      - unfold Shares. rewrite map_length, seq_length. lia. }
    rewrite EN. unfold Sign. cbn [ps_I fst snd]. split; [reflexivity|]. apply partial_iff. cbn [ps_V ps_I]. do 2 f_equal. f_equal. lia.
Qed.
Print Assumptions c65_one_reader_refuted.

(** A setup for one fault; its third coefficient is not zero, so that with the bound 0 the share of member 0 is refused. *)
Example c65_demo (enc : list (list Z) -> list Z) dec H msg d : gob_ok enc dec -> H msg <> ZeroG1 ->
  Setup enc 1 (of_Z 5) [of_Z 2; of_Z 7] (of_Z 3) [of_Z 1; of_Z 1] = Ret d ->
  exists sk pub pub', Keys dec oldCommittee 4 0 0 d = Ret (sk, pub') /\ nth_error pub' 0 = nth_error pub 0 /\
    VerifyPartial H pub msg (Some (Sign H sk msg)) = false.
Proof.
  intros G NZ E. destruct (c65_smaller_bound enc dec 1 0 (of_Z 5) [of_Z 2; of_Z 7] (of_Z 3) [of_Z 1; of_Z 1] d oldCommittee 4 0 H msg G)
    as (sk & pub & pub' & K & _ & _ & P & V); try reflexivity; try lia; try exact E.
  exists sk, pub, pub'. split; [exact K|]. split; [apply P; lia|].
  destruct (VerifyPartial _ _ _ _) eqn:Q; [|reflexivity]. exfalso. destruct (proj1 V eq_refl) as [Z0|Z0]; [exact (NZ Z0)|].
  revert Z0. apply (proj1 (feqb_neq _ _)). vm_compute. reflexivity.
Qed.
