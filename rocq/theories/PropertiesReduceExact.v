(** C21, continued: what ShareReduceReceive does with any sequence of messages whose points can be decoded. *)

Require Import ZArith List Lia Bool Arith.
From Verif Require Import Prime Fr Bytes CodecModel CodecProofs GoBase Poly Biv BivProofs PolyModel PolyProofs
  GroupModel KzgModel KzgProofs PartyModel PartySpec VssModel VssProofs VssProofs2 DispatchModel DispatchProofs ReduceModel ReduceProofs
  PropertiesVss PropertiesReduce.
Import ListNotations.
Local Open Scope F_scope.

(** One message as the receiver sees it: commitment (as bytes), position, value. *)
Record entry : Type := mkEntry { e_com : list Z; e_pos : Z; e_val : Fr }.

(** The opening of a commitment (in the exponent, with the secret s of the setup). *)
Definition opens (s : Fr) (c w : G1) (x v : Fr) : Prop := dlog1 c - v = dlog1 w * (s - x).

(** [heard cd s v l es]: the messages l yield the entries es.  A message whose 32 bytes are no scalar counts with the value
    of the message before, v at the beginning. *)
Inductive heard (cd : g1codec) (s : Fr) : Fr -> list (Z * ShareReduceMsg) -> list entry -> Fr -> Prop :=
| heard_nil v : heard cd s v [] [] v
| heard_good v i m l es c w v1 v2 : FromCompressedG1 cd (sr_C m) = Some c -> FromCompressedG1 cd (sr_W m) = Some w ->
    FrFrom32 (to32 (sr_V m)) = Some v1 \/ FrFrom32 (to32 (sr_V m)) = None /\ v1 = v ->
    opens s c w (of_Z ((i + 1) mod 2 ^ 32)) v1 -> heard cd s v1 l es v2 ->
    heard cd s v ((i, m) :: l) (mkEntry (sr_C m) ((i + 1) mod 2 ^ 32) v1 :: es) v2
| heard_bad v i m l es c w v1 v2 : FromCompressedG1 cd (sr_C m) = Some c -> FromCompressedG1 cd (sr_W m) = Some w ->
    FrFrom32 (to32 (sr_V m)) = Some v1 \/ FrFrom32 (to32 (sr_V m)) = None /\ v1 = v ->
    ~ opens s c w (of_Z ((i + 1) mod 2 ^ 32)) v1 -> heard cd s v1 l es v2 ->
    heard cd s v ((i, m) :: l) es v2.

(** The entries for one commitment. *)
Definition with_com (C : list Z) (es : list entry) : list entry := filter (fun e => bytes_eqb (e_com e) C) es.

Definition pt_of (e : entry) : point := mkPoint (e_pos e) (e_val e).

Section Exact.
Variables (cd : g1codec) (p : Party).
Hypothesis WP : party_wf party_secret p.

(** The maps say which entries there are. *)
Definition maps (st : sr_state) (es : list entry) : Prop :=
  forall C, match lookup C (sr_map_of st) with
            | Some (pts, n) => pts = map pt_of (with_com C es) /\ n = length pts
            | None => with_com C es = []
            end.

Lemma with_com_app C es es' : with_com C (es ++ es') = with_com C es ++ with_com C es'.
Proof. apply filter_app. Qed.

Lemma value_into v m v1 : FrFrom32 (to32 (sr_V m)) = Some v1 \/ FrFrom32 (to32 (sr_V m)) = None /\ v1 = v ->
  FrFrom32_into v (to32 (sr_V m)) = v1.
Proof. unfold FrFrom32_into. intros [-> |(-> & ->)]; reflexivity. Qed.

Lemma check_dec c w x v : exists b, CheckProofSingle (p_KZG p) c w x v = Ret b /\ (b = true <-> opens party_secret c w x v).
Proof.
  pose proof WP as (W1 & _ & W3 & _). exists (feqb (dlog1 c - v) (dlog1 w * (party_secret - x))). split.
  - apply (check_correct party_secret (p_F p + 1) (p_KZG p) W1). lia.
  - apply feqb_eq.
Qed.

Lemma step_good st i m c w v1 es : maps st es -> FromCompressedG1 cd (sr_C m) = Some c -> FromCompressedG1 cd (sr_W m) = Some w ->
  FrFrom32 (to32 (sr_V m)) = Some v1 \/ FrFrom32 (to32 (sr_V m)) = None /\ v1 = sr_vJ st ->
  opens party_secret c w (of_Z ((i + 1) mod 2 ^ 32)) v1 ->
  let es' := es ++ [mkEntry (sr_C m) ((i + 1) mod 2 ^ 32) v1] in
  ((p_F p + 1 <= length (with_com (sr_C m) es'))%nat /\ sr_step cd p st (i, m) = Ret (inr (map pt_of (with_com (sr_C m) es')))) \/
  ((length (with_com (sr_C m) es') <= p_F p)%nat /\ exists st', sr_step cd p st (i, m) = Ret (inl st') /\ maps st' es' /\ sr_vJ st' = v1).
Proof.
  intros M HC HW HV O es'. unfold sr_step, ReadG1. rewrite HC. cbn [bind]. rewrite HW. cbn [bind]. rewrite (value_into _ _ _ HV).
  destruct (check_dec c w (of_Z ((i + 1) mod 2 ^ 32)) v1) as (b & -> & Hb). cbn [bind]. rewrite (proj2 Hb O).
  assert (W : with_com (sr_C m) es' = with_com (sr_C m) es ++ [mkEntry (sr_C m) ((i + 1) mod 2 ^ 32) v1]).
  { unfold es'. rewrite with_com_app. f_equal. unfold with_com. cbn [filter e_com]. rewrite bytes_eqb_refl. reflexivity. }
  set (e := match lookup (sr_C m) (sr_map_of st) with Some (pts, n) => _ | None => _ end).
  assert (Ee : e = (map pt_of (with_com (sr_C m) es'), length (with_com (sr_C m) es'))).
  { unfold e. specialize (M (sr_C m)). rewrite W, map_app, app_length. destruct (lookup (sr_C m) (sr_map_of st)) as [(pts & n)|].
    - destruct M as (-> & ->). rewrite map_length. reflexivity.
    - rewrite M. reflexivity. }
  rewrite Ee. cbn [fst snd]. destruct (Nat.leb_spec (p_F p + 1) (length (with_com (sr_C m) es'))) as [L|L]; [left; auto|right].
  split; [lia|]. eexists. split; [reflexivity|]. split; [|reflexivity]. intros C. cbn [sr_map_of].
  destruct (list_eq_dec Z.eq_dec C (sr_C m)) as [-> |NE].
  - rewrite lookup_update_same. rewrite map_length. auto.
  - rewrite lookup_update_other by exact NE. specialize (M C). replace (with_com C es') with (with_com C es); [exact M|].
    unfold es'. rewrite with_com_app. unfold with_com at 3. cbn [filter e_com]. rewrite bytes_eqb_neq by congruence. rewrite app_nil_r. reflexivity.
Qed.

Lemma step_bad st i m c w v1 es : maps st es -> FromCompressedG1 cd (sr_C m) = Some c -> FromCompressedG1 cd (sr_W m) = Some w ->
  FrFrom32 (to32 (sr_V m)) = Some v1 \/ FrFrom32 (to32 (sr_V m)) = None /\ v1 = sr_vJ st ->
  ~ opens party_secret c w (of_Z ((i + 1) mod 2 ^ 32)) v1 ->
  exists st', sr_step cd p st (i, m) = Ret (inl st') /\ maps st' es /\ sr_vJ st' = v1.
Proof.
  intros M HC HW HV O. unfold sr_step, ReadG1. rewrite HC. cbn [bind]. rewrite HW. cbn [bind]. rewrite (value_into _ _ _ HV).
  destruct (check_dec c w (of_Z ((i + 1) mod 2 ^ 32)) v1) as (b & -> & Hb). cbn [bind].
  destruct b; [exfalso; apply O, Hb; reflexivity|]. eexists. split; [reflexivity|]. split; [exact M|reflexivity].
Qed.

(** No commitment has F+1 entries: the loop goes on. *)
Lemma loop_on v l es v2 : heard cd party_secret v l es v2 -> forall st es0 rest, maps st es0 -> sr_vJ st = v ->
  (forall C, (length (with_com C (es0 ++ es)) <= p_F p)%nat) ->
  exists st', maps st' (es0 ++ es) /\ sr_vJ st' = v2 /\ sr_loop cd p st (l ++ rest) = sr_loop cd p st' rest.
Proof.
  induction 1 as [v|v i m l es c w v1 v2 HC HW HV O H IH|v i m l es c w v1 v2 HC HW HV O H IH]; intros st es0 rest M EV HL.
  - exists st. rewrite app_nil_r. auto.
  - subst v. destruct (step_good st i m c w v1 es0 M HC HW HV O) as [(L & _)|(_ & st' & E & M' & EV')].
    + specialize (HL (sr_C m)). change (mkEntry (sr_C m) ((i + 1) mod 2 ^ 32) v1 :: es) with ([mkEntry (sr_C m) ((i + 1) mod 2 ^ 32) v1] ++ es) in HL.
      rewrite app_assoc, with_com_app, app_length in HL. lia.
    + destruct (IH st' (es0 ++ [mkEntry (sr_C m) ((i + 1) mod 2 ^ 32) v1]) rest M' EV') as (st2 & M2 & EV2 & E2).
      { intros C. rewrite <- app_assoc. apply HL. }
      exists st2. rewrite <- app_assoc in M2. split; [exact M2|]. split; [exact EV2|]. cbn [app sr_loop]. rewrite E. cbn [bind]. exact E2.
  - subst v. destruct (step_bad st i m c w v1 es0 M HC HW HV O) as (st' & E & M' & EV').
    destruct (IH st' es0 rest M' EV' HL) as (st2 & M2 & EV2 & E2). exists st2. split; [exact M2|]. split; [exact EV2|].
    cbn [app sr_loop]. rewrite E. cbn [bind]. exact E2.
Qed.

Lemma maps_init : maps sr_init [].
Proof. intros C. reflexivity. Qed.

End Exact.

(** As long as no commitment has F+1 entries, the receiver waits. *)
Theorem c21_waits : forall cd p l es v, party_wf party_secret p -> heard cd party_secret 0 l es v ->
  (forall C, (length (with_com C es) <= p_F p)%nat) -> ShareReduceReceive cd p l = Ret None.
Proof.
  intros cd p l es v WP H HL. unfold ShareReduceReceive.
  destruct (loop_on cd p WP 0 l es v H sr_init [] [] maps_init eq_refl HL) as (st & _ & _ & E). rewrite app_nil_r in E. rewrite E. reflexivity.
Qed.

(** When one has, with different positions, the share is the polynomial through exactly these entries, whatever comes after. *)
Theorem c21_takes : forall cd p pre es v i m es' v' rest, party_wf party_secret p -> heard cd party_secret 0 pre es v ->
  (forall C, (length (with_com C es) <= p_F p)%nat) ->
  heard cd party_secret v [(i, m)] es' v' -> length (with_com (sr_C m) (es ++ es')) = (p_F p + 1)%nat ->
  NoDup (map e_pos (with_com (sr_C m) (es ++ es'))) ->
  exists q, ShareReduceReceive cd p (pre ++ (i, m) :: rest) = Ret (Some (set_reducedShare p q)) /\ length q = (p_F p + 1)%nat /\
    forall e, In e (with_com (sr_C m) (es ++ es')) -> peval q (of_Z (e_pos e)) = e_val e.
Proof.
  intros cd p pre es v i m es' v' rest WP H HL H1 LC ND. unfold ShareReduceReceive.
  destruct (loop_on cd p WP 0 pre es v H sr_init [] ((i, m) :: rest) maps_init eq_refl HL) as (st & M & EV & ->).
  cbn [app] in M. set (es2 := with_com (sr_C m) (es ++ es')) in *.
  assert (HX : forall e, In e es2 -> (0 <= e_pos e < 2 ^ 32)%Z).
  { assert (G : forall u l k u', heard cd party_secret u l k u' -> forall e, In e k -> (0 <= e_pos e < 2 ^ 32)%Z).
    { induction 1; intros e He; [destruct He| |auto]. destruct He as [<- |He]; [cbn [e_pos]; apply Z.mod_pos_bound; reflexivity|auto]. }
    intros e He. unfold es2, with_com in He. apply filter_In in He. destruct He as (He & _). apply in_app_or in He. destruct He as [He|He]; [exact (G _ _ _ _ H e He)|exact (G _ _ _ _ H1 e He)]. }
  assert (E : sr_step cd p st (i, m) = Ret (inr (map pt_of es2))).
  { inversion H1 as [|? ? ? ? ? c w v1 ? HC HW HV O HN|? ? ? ? ? c w v1 ? HC HW HV O HN]; subst.
    - inversion HN; subst. rewrite <- EV in HV || idtac. destruct (step_good cd p WP st i m c w v' es M HC HW) as [(_ & E)|(L & _)]; auto. fold es2 in L. lia.
    - inversion HN; subst. exfalso. unfold es2 in LC. rewrite app_nil_r in LC. specialize (HL (sr_C m)). lia. }
  cbn [sr_loop]. rewrite E. cbn [bind]. set (pts := map pt_of es2). set (d := mkPoint 0 0).
  assert (LP : length pts = (p_F p + 1)%nat) by (unfold pts; rewrite map_length; exact LC).
  rewrite (gomap_ret _ (fun i => of_Z (pt_X (nth i pts d)))).
  2:{ intros k Hk. apply in_seq in Hk. rewrite (idx_nth d pts) by lia. reflexivity. }
  cbn [bind]. rewrite (gomap_ret _ (fun i => pt_Y (nth i pts d))).
  2:{ intros k Hk. apply in_seq in Hk. rewrite (idx_nth d pts) by lia. reflexivity. }
  cbn [bind].
  assert (MM : forall {A} (f : point -> A), map (fun k => f (nth k pts d)) (seq 0 (p_F p + 1)) = map f pts).
  { intros A f. apply (list_ext (f d)); rewrite !map_length, seq_length; [lia|].
    intros k Hk. rewrite nth_map_seq by exact Hk. cbn [Nat.add]. symmetry. apply map_nth. }
  rewrite (MM _ (fun pt => of_Z (pt_X pt))), (MM _ pt_Y).
  destruct (LagrangeInterpolate_correct (p_F p) (map (fun pt => of_Z (pt_X pt)) pts) (map pt_Y pts)) as (q & EQ & LQ & V & _).
  - rewrite firstn_all2 by (rewrite map_length; lia). unfold pts. rewrite map_map. cbn [pt_of pt_X].
    rewrite <- (map_map e_pos of_Z). pose proof r_big as RB. revert ND HX. clear -RB. generalize es2. clear es2.
    intros l ND HX. assert (RG : forall a, In a (map e_pos l) -> (0 <= a < 2 ^ 32)%Z) by (intros a Ha; apply in_map_iff in Ha; destruct Ha as (e & <- & He); auto).
    revert ND RG. generalize (map e_pos l). clear HX l. induction l as [|a l IH]; intros ND RG; [constructor|].
    inversion ND; subst. cbn [map]. constructor.
    + rewrite in_map_iff. intros (b & Eb & Hb).
      assert (B1 := RG b (or_intror Hb)). assert (B2 := RG a (or_introl eq_refl)).
      apply of_Z_inj in Eb; [subst; auto| |]; lia.
    + apply IH; [assumption|]. intros; apply RG; right; assumption.
  - rewrite map_length. lia.
  - rewrite map_length. lia.
  - exists q. rewrite EQ. cbn [bind]. split; [reflexivity|]. split; [exact LQ|]. intros e He.
    apply (In_nth _ _ (mkEntry [] 0 0)) in He. destruct He as (k & Hk & <-). specialize (V k ltac:(lia)).
    unfold pts in V. rewrite !map_map in V. cbn [pt_of pt_X pt_Y] in V.
    rewrite (nth_indep _ 0 (of_Z (e_pos (mkEntry [] 0 0)))) in V by (rewrite map_length; exact Hk).
    rewrite (map_nth (fun e => of_Z (e_pos e))) in V.
    rewrite (nth_indep (map _ es2) 0 (e_val (mkEntry [] 0 0))) in V by (rewrite map_length; exact Hk).
    rewrite (map_nth e_val) in V. exact V.
Qed.

Print Assumptions c21_waits.
Print Assumptions c21_takes.

(** F = 1.  Two messages that carry no scalar at all count with the value 0, since nothing was received before; with the
    commitment to the zero polynomial they settle the share. *)
Lemma c21_demo_hears cd : codec_ok cd -> let m := mkSR (ToCompressedG1 cd (mkG1 0)) (repeat 255%Z 32) (ToCompressedG1 cd (mkG1 0)) in
  heard cd party_secret 0 [(0%Z, m)] [mkEntry (sr_C m) 1 0] 0 /\ heard cd party_secret 0 [(1%Z, m)] [mkEntry (sr_C m) 2 0] 0.
Proof.
  intros HC m. assert (E : FromCompressedG1 cd (ToCompressedG1 cd (mkG1 0)) = Some (mkG1 0)) by apply HC.
  assert (O : forall x, opens party_secret (mkG1 0) (mkG1 0) x 0) by (intros x; unfold opens; cbn [dlog1]; ring).
  assert (EN : FrFrom32 (to32 (repeat 255%Z 32)) = None) by (vm_compute; reflexivity).
  split.
  - apply (heard_good cd party_secret 0 0%Z m [] [] (mkG1 0) (mkG1 0) 0 0); [exact E|exact E|right; split; [exact EN|reflexivity]|apply O|constructor].
  - apply (heard_good cd party_secret 0 1%Z m [] [] (mkG1 0) (mkG1 0) 0 0); [exact E|exact E|right; split; [exact EN|reflexivity]|apply O|constructor].
Qed.

Example c21_exact_example : forall cd p, codec_ok cd -> party_wf party_secret p -> p_F p = 1%nat ->
  let m := mkSR (ToCompressedG1 cd (mkG1 0)) (repeat 255%Z 32) (ToCompressedG1 cd (mkG1 0)) in
  ShareReduceReceive cd p [(0%Z, m)] = Ret None /\
  exists q, ShareReduceReceive cd p [(0%Z, m); (1%Z, m)] = Ret (Some (set_reducedShare p q)) /\ length q = 2%nat /\
    peval q 1 = 0 /\ peval q (of_Z 2) = 0.
Proof.
  intros cd p HC WP PF m. destruct (c21_demo_hears cd HC) as (H1 & H2). fold m in H1, H2.
  assert (L1 : forall C, (length (with_com C [mkEntry (sr_C m) 1 0]) <= p_F p)%nat).
  { intros C. unfold with_com. cbn [filter]. rewrite PF. destruct (bytes_eqb _ _); cbn [length]; lia. }
  assert (W2 : with_com (sr_C m) ([mkEntry (sr_C m) 1 0] ++ [mkEntry (sr_C m) 2 0]) = [mkEntry (sr_C m) 1 0; mkEntry (sr_C m) 2 0]).
  { unfold with_com. cbn [app filter e_com]. rewrite bytes_eqb_refl. reflexivity. }
  split; [exact (c21_waits cd p _ _ _ WP H1 L1)|].
  destruct (c21_takes cd p [(0%Z, m)] _ 0 1%Z m _ 0 [] WP H1 L1 H2) as (q & E & L & V).
  - rewrite W2, PF. reflexivity.
  - rewrite W2. cbn [map e_pos]. constructor; [intros [X|[]]; discriminate X|constructor; [intros []|constructor]].
  - rewrite W2 in V. exists q. split; [exact E|]. rewrite L, PF. split; [reflexivity|]. split.
    + exact (V (mkEntry (sr_C m) 1 0) (or_introl eq_refl)).
    + exact (V (mkEntry (sr_C m) 2 0) (or_intror (or_introl eq_refl))).
Qed.
