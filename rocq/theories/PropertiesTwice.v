(** C33 for every committee: a run of honest members in which one of them announces readiness twice (RBC.go:109-240). *)

Require Import ZArith List Bool Arith Lia.
From Verif Require Import Bytes CodecModel CodecProofs GoBase DispatchModel DispatchProofs PolyProofs VssModel VssProofs RbcModel RbcProofs RbcGood RbcByz
  PropertiesRbc PropertiesForgeRbc.
Import ListNotations.

Section Twice.
Variable sha : list Z -> list Z.
Variable rs_encode : nat -> nat -> list Z -> option (list (list Z)).
Variable rs_verify : nat -> nat -> list (list Z) -> bool.
Variable rs_reconstruct : nat -> nat -> list (list Z) -> list (list Z).
Variables N F : nat.
Notation step := (rstep sha rs_encode rs_verify rs_reconstruct N F).
Notation reached := (reach sha rs_encode rs_verify rs_reconstruct N F []).
Hypothesis HNF : (2 * F < N)%nat.

Lemma all_honest i : (i < N)%nat -> honest N [] i.
Proof. intros H. split; [exact H|intros []]. Qed.

(** All members take the proposal. *)
Definition proposed : rst := mkR true [] [] 0 [] false [] [] ERecv RRecv false 0 None.

Lemma all_propose M shards : rs_encode N F M = Some shards -> length shards = N -> forall n, (n <= N)%nat ->
  exists g, reached g /\ g_ready g = [] /\ g_took g = [] /\
    (forall k, g_st g k = if (k <? n)%nat then proposed else rbc_init) /\
    forall s j, (s < n)%nat -> (j < N)%nat -> In (s, j, (tag sha M, nth j shards [])) (g_echo g).
Proof.
  intros HE HL. induction n as [|n IH]; intros Hn.
  - exists g_init. split; [constructor|]. split; [reflexivity|]. split; [reflexivity|]. split; [reflexivity|lia].
  - destruct (IH ltac:(lia)) as (g & R & G1 & G2 & G3 & G4).
    set (outs := map (fun j => SendTo j (tag sha M, nth j shards [])) (seq 0 N)).
    assert (S1 : step (g_st g n) (EvPropose 0%Z M) = Ret (Some (proposed, outs))).
    { rewrite G3, Nat.ltb_irrefl. cbn [rstep]. unfold propose_step. cbn [r_prop rbc_init]. rewrite HE.
      rewrite (gomap_ret _ (fun j => SendTo j (tag sha M, nth j shards []))); [reflexivity|].
      intros j Hj. apply in_seq in Hj. rewrite (idx_nth []) by lia. reflexivity. }
    exists (gnext g n (EvPropose 0%Z M) proposed outs). split; [exact (reach_step _ _ _ _ _ _ _ g n (EvPropose 0%Z M) _ _ R (all_honest n ltac:(lia)) I S1)|].
    unfold gnext. cbn [g_ready g_took g_st g_echo took_of]. rewrite G1, G2.
    split. { unfold outs, readys_of. clear. induction (seq 0 N) as [|a l IHl]; [reflexivity|exact IHl]. }
    split; [reflexivity|]. split.
    + intros k. unfold put. destruct (Nat.eqb_spec k n) as [E|E].
      * subst k. rewrite (proj2 (Nat.ltb_lt n (S n))) by lia. reflexivity.
      * rewrite G3. destruct (Nat.ltb_spec k n), (Nat.ltb_spec k (S n)); try lia; reflexivity.
    + intros s j Hs Hj. apply in_or_app. destruct (Nat.eq_dec s n) as [E|E]; [|left; apply G4; lia]. right. subst s.
      unfold echoes_of, outs. apply in_flat_map. exists (SendTo j (tag sha M, nth j shards [])). split; [|left; reflexivity].
      apply in_map_iff. exists j. split; [reflexivity|apply in_seq; lia].
Qed.

Definition has_echoes (x : hm) (c : nat) (st : rst) : Prop :=
  count (r_echo st) x = c /\ r_sent st = false /\ r_eph st = ERecv /\ (length (r_chan st) <= c)%nat /\ Forall (eq x) (r_chan st).

(** One member takes the Echo messages c, c+1, ..., N-F-1 and announces readiness. *)
Lemma echo_batch i x : (i < N)%nat -> forall c g, reached g -> has_echoes x c (g_st g i) -> (c < N - F)%nat ->
  (forall s, (s < N)%nat -> In (s, i, x) (g_echo g)) ->
  exists g', reached g' /\ g_ready g' = g_ready g ++ [(i, x)] /\ g_echo g' = g_echo g /\ (forall k, k <> i -> g_st g' k = g_st g k) /\
    g_took g' = g_took g ++ map (fun s => (i, Z.of_nat s, x)) (seq c (N - F - c)) /\
    r_rph (g_st g' i) = r_rph (g_st g i) /\ r_eph (g_st g' i) = ECheck /\ count (r_echo (g_st g' i)) x = (N - F)%nat /\
    exists ch, r_chan (g_st g' i) = x :: ch.
Proof.
  intros Hi c. remember (N - F - c)%nat as d eqn:Ed. revert c Ed. induction d as [|d IH]; intros c Ed g R (E1 & E2 & E3 & E4 & E5) Hc HS; [lia|].
  assert (A : authentic N [] g i (EvEcho (Z.of_nat c) x)). { cbn [authentic]. split; [lia|]. rewrite Nat2Z.id. intros _. apply HS. lia. }
  assert (ROOM : (length (r_chan (g_st g i)) <? N)%nat = true) by (apply Nat.ltb_lt; lia).
  assert (CT : count (count_echo (r_echo (g_st g i)) x) x = (c + 1)%nat) by (rewrite count_echo_same, E1; reflexivity).
  destruct (Nat.leb_spec (N - F) (c + 1)) as [L|L].
  - set (st1 := mkR (r_prop (g_st g i)) (count_echo (r_echo (g_st g i)) x) (r_T (g_st g i)) (r_maxN (g_st g i)) (r_maxHash (g_st g i)) true
      (r_chan (g_st g i) ++ [x]) (r_got (g_st g i)) ECheck (r_rph (g_st g i)) (r_start (g_st g i)) (r_round (g_st g i)) (r_out (g_st g i))).
    assert (S1 : step (g_st g i) (EvEcho (Z.of_nat c) x) = Ret (Some (st1, [SendAll x]))).
    { cbn [rstep]. unfold echo_step. rewrite E3, CT, E2, ROOM, (proj2 (Nat.leb_le _ _) L), (proj2 (Nat.leb_le (F + 1) (c + 1))) by lia. reflexivity. }
    exists (gnext g i (EvEcho (Z.of_nat c) x) st1 [SendAll x]). split; [exact (reach_step _ _ _ _ _ _ _ g i _ _ _ R (all_honest i Hi) A S1)|].
    unfold gnext. cbn [g_ready g_st g_took g_echo readys_of echoes_of flat_map app took_of]. rewrite !put_same, app_nil_r.
    split; [reflexivity|]. split; [reflexivity|]. split; [intros k Hk; apply put_other; exact Hk|].
    split. { assert (d = 0%nat) by lia. subst d. reflexivity. }
    split; [reflexivity|]. split; [reflexivity|]. split; [unfold st1; cbn [r_echo]; rewrite CT; lia|].
    unfold st1. cbn [r_chan]. destruct (r_chan (g_st g i)) as [|y l]; [exists []; reflexivity|]. inversion E5. subst. eexists. reflexivity.
  - set (st1 := mkR (r_prop (g_st g i)) (count_echo (r_echo (g_st g i)) x) (r_T (g_st g i)) (r_maxN (g_st g i)) (r_maxHash (g_st g i)) false
      (if (F + 1 <=? c + 1)%nat then r_chan (g_st g i) ++ [x] else r_chan (g_st g i)) (r_got (g_st g i)) ECheck (r_rph (g_st g i)) (r_start (g_st g i)) (r_round (g_st g i)) (r_out (g_st g i))).
    assert (S1 : step (g_st g i) (EvEcho (Z.of_nat c) x) = Ret (Some (st1, []))).
    { cbn [rstep]. unfold echo_step. rewrite E3, CT, E2, ROOM, (proj2 (Nat.leb_gt _ _) L). cbn [negb andb orb]. rewrite andb_true_r, andb_false_r. reflexivity. }
    pose proof (reach_step _ _ _ _ _ _ _ g i _ _ _ R (all_honest i Hi) A S1) as R1. set (g1 := gnext g i (EvEcho (Z.of_nat c) x) st1 []) in *.
    assert (G1 : g_st g1 i = st1) by apply put_same.
    assert (S2 : step (g_st g1 i) EvEchoCheck = Ret (Some (set_echo st1 (r_chan st1) ERecv, []))) by (rewrite G1; reflexivity).
    pose proof (reach_step _ _ _ _ _ _ _ g1 i EvEchoCheck _ _ R1 (all_honest i Hi) I S2) as R2. set (g2 := gnext g1 i EvEchoCheck _ []) in *.
    assert (G2 : g_st g2 i = set_echo st1 (r_chan st1) ERecv) by apply put_same.
    assert (GE : g_echo g2 = g_echo g) by (unfold g2, g1, gnext; cbn [g_echo echoes_of flat_map]; rewrite !app_nil_r; reflexivity).
    assert (GR : g_ready g2 = g_ready g) by (unfold g2, g1, gnext; cbn [g_ready readys_of flat_map]; rewrite !app_nil_r; reflexivity).
    assert (GT : g_took g2 = g_took g ++ [(i, Z.of_nat c, x)]) by (unfold g2, g1, gnext; cbn [g_took took_of]; rewrite app_nil_r; reflexivity).
    assert (GO : forall k, k <> i -> g_st g2 k = g_st g k) by (intros k Hk; unfold g2, g1, gnext; cbn [g_st]; rewrite !put_other by exact Hk; reflexivity).
    clearbody g2. clear R1 S2 G1.
    destruct (IH (c + 1)%nat ltac:(lia) g2 R2) as (g' & R' & I1 & I2 & I3 & I4 & I5 & I6 & I7 & I8); [|lia|intros s Hs; rewrite GE; apply HS; exact Hs|].
    + rewrite G2. unfold has_echoes, set_echo, st1. cbn [r_echo r_sent r_eph r_chan]. split; [exact CT|]. split; [reflexivity|]. split; [reflexivity|].
      destruct (F + 1 <=? c + 1)%nat; [rewrite app_length; cbn [length]; split; [lia|apply Forall_app; auto]|split; [lia|exact E5]].
    + exists g'. split; [exact R'|]. split; [rewrite I1, GR; reflexivity|]. split; [rewrite I2; exact GE|]. split; [intros k Hk; rewrite (I3 k Hk); apply GO; exact Hk|].
      split; [rewrite I4, GT, <- app_assoc; cbn [app seq map]; rewrite (Nat.add_comm c 1); reflexivity|]. split; [rewrite I5, G2; reflexivity|]. auto.
Qed.

(** A member that has announced nothing takes the Ready messages k, ..., F with one hash. *)
Lemma ready_batch t h sh : (t < N)%nat -> forall k g, reached g -> r_sent (g_st g t) = false -> r_eph (g_st g t) = ERecv -> r_rph (g_st g t) = RRecv ->
  length (Tof (g_st g t) h) = k -> (forall z, In z (r_got (g_st g t)) -> (z < Z.of_nat k)%Z) -> (k <= F)%nat ->
  (forall s, (s <= F)%nat -> In (s, (h, sh s)) (g_ready g)) ->
  exists g', reached g' /\ g_ready g' = g_ready g /\ g_echo g' = g_echo g /\ g_took g' = g_took g /\
    r_rph (g_st g' t) = RWait h /\ r_echo (g_st g' t) = r_echo (g_st g t) /\ r_chan (g_st g' t) = r_chan (g_st g t) /\ r_sent (g_st g' t) = false /\ r_eph (g_st g' t) = ERecv.
Proof.
  intros Ht k. remember (F - k)%nat as d eqn:Ed. revert k Ed. induction d as [|d IH]; intros k Ed g R E1 E2 E3 E4 E5 Hk HS.
  all: assert (A : authentic N [] g t (EvReady (Z.of_nat k) (h, sh k))) by (cbn [authentic]; split; [lia|]; rewrite Nat2Z.id; intros _; apply HS; lia).
  all: assert (NI : existsb (Z.eqb (Z.of_nat k)) (r_got (g_st g t)) = false)
    by (apply not_true_iff_false; intros Q; apply existsb_exists in Q; destruct Q as (z & Q1 & Q2); apply Z.eqb_eq in Q2; specialize (E5 z Q1); lia).
  all: set (l := Tof (g_st g t) h ++ [(Z.of_nat k, sh k)]); assert (LL : length l = (k + 1)%nat) by (unfold l; rewrite app_length, E4; reflexivity).
  - (* the last one *)
    assert (S1 : exists st1, step (g_st g t) (EvReady (Z.of_nat k) (h, sh k)) = Ret (Some (st1, [])) /\ r_rph st1 = RWait h /\
      r_echo st1 = r_echo (g_st g t) /\ r_chan st1 = r_chan (g_st g t) /\ r_sent st1 = false /\ r_eph st1 = ERecv).
    { cbn [rstep]. unfold ready_step. rewrite E2, E3, NI. cbn [fst snd]. fold l. rewrite E1, LL, (proj2 (Nat.leb_le (F + 1) (k + 1))) by lia. cbn [negb andb].
      eexists. split; [reflexivity|]. cbn. auto. }
    destruct S1 as (st1 & S1 & P). exists (gnext g t (EvReady (Z.of_nat k) (h, sh k)) st1 []). split; [exact (reach_step _ _ _ _ _ _ _ g t _ _ _ R (all_honest t Ht) A S1)|].
    unfold gnext. cbn [g_ready g_st g_took g_echo readys_of echoes_of flat_map app took_of]. rewrite !app_nil_r, put_same. auto 10.
  - assert (S1 : exists st1, step (g_st g t) (EvReady (Z.of_nat k) (h, sh k)) = Ret (Some (st1, [])) /\ r_rph st1 = RRecv /\
      r_echo st1 = r_echo (g_st g t) /\ r_chan st1 = r_chan (g_st g t) /\ r_sent st1 = false /\ r_eph st1 = ERecv /\ Tof st1 h = l /\ r_got st1 = Z.of_nat k :: r_got (g_st g t)).
    { cbn [rstep]. unfold ready_step. rewrite E2, E3, NI. cbn [fst snd]. fold l. rewrite E1, LL, (proj2 (Nat.leb_gt (F + 1) (k + 1))) by lia. cbn [negb andb].
      eexists. split; [reflexivity|]. unfold Tof. cbn. rewrite lookup_update_same. auto 10. }
    destruct S1 as (st1 & S1 & P1 & P2 & P3 & P4 & P5 & P6 & P7).
    pose proof (reach_step _ _ _ _ _ _ _ g t _ _ _ R (all_honest t Ht) A S1) as R1. set (g1 := gnext g t (EvReady (Z.of_nat k) (h, sh k)) st1 []) in *.
    assert (G1 : g_st g1 t = st1) by apply put_same.
    assert (G2 : g_ready g1 = g_ready g) by (unfold g1, gnext; cbn; rewrite app_nil_r; reflexivity).
    assert (G3 : g_echo g1 = g_echo g) by (unfold g1, gnext; cbn; rewrite app_nil_r; reflexivity).
    assert (G4 : g_took g1 = g_took g) by (unfold g1, gnext; cbn; rewrite app_nil_r; reflexivity). clearbody g1.
    destruct (IH (k + 1)%nat ltac:(lia) g1 R1) as (g' & R' & Q); rewrite ?G1, ?G2, ?G3, ?G4 in *; auto; try lia.
    + rewrite P6. exact LL.
    + rewrite P7. intros z [<-|Hz]; [lia|]. specialize (E5 z Hz). lia.
    + exists g'. split; [exact R'|]. rewrite <- P2, <- P3. exact Q.
Qed.

(** All members honest, every Echo message counted once: member F+1 announces readiness twice. *)
Theorem c33_twice_refuted : forall M shards, (F + 1 < N)%nat -> rs_encode N F M = Some shards -> length shards = N ->
  exists g, reached g /\ counted_once g /\ length (filter (fun a : nat * hm => (fst a =? F + 1)%nat) (g_ready g)) = 2%nat.
Proof.
  intros M shards HN HE HL. destruct (all_propose M shards HE HL N (le_n _)) as (g0 & R0 & A1 & A2 & A3 & A4).
  set (x := fun i => (tag sha M, nth i shards [])).
  (* the members 0, ..., F announce *)
  assert (X : forall n, (n <= F + 1)%nat -> exists g, reached g /\ g_echo g = g_echo g0 /\ g_ready g = map (fun i => (i, x i)) (seq 0 n) /\
    (forall k, (n <= k < N)%nat -> g_st g k = proposed) /\ (forall y, In y (g_took g) -> (fst (fst y) < n)%nat) /\ counted_once g).
  { induction n as [|n IH]; intros Hn.
    - exists g0. split; [exact R0|]. split; [reflexivity|]. split; [exact A1|]. split; [intros k Hk; rewrite A3, (proj2 (Nat.ltb_lt k N)) by lia; reflexivity|].
      unfold counted_once. rewrite A2. split; [intros y []|constructor].
    - destruct (IH ltac:(lia)) as (g & R & B1 & B2 & B3 & B4 & B5).
      destruct (echo_batch n (x n) ltac:(lia) 0 g R) as (g' & R' & C1 & C2 & C3 & C4 & _).
      + rewrite B3 by lia. repeat split; [cbn; lia|constructor].
      + lia.
      + intros s Hs. rewrite B1. apply A4; lia.
      + exists g'. split; [exact R'|]. split; [rewrite C2; exact B1|]. split; [rewrite C1, B2, seq_S, map_app; reflexivity|].
        split; [intros k Hk; rewrite C3 by lia; apply B3; lia|]. split.
        * intros y Hy. rewrite C4 in Hy. apply in_app_or in Hy. destruct Hy as [Hy|Hy]; [specialize (B4 y Hy); lia|].
          apply in_map_iff in Hy. destruct Hy as (s & <- & _). cbn [fst]. lia.
        * unfold counted_once in *. rewrite C4, map_app, map_map. apply nodup_app_intro; [exact B5| |].
          -- apply FinFun.Injective_map_NoDup; [|apply seq_NoDup]. intros a b E. cbn [fst] in E. injection E as E. apply Nat2Z.inj. exact E.
          -- intros a H1 H2. apply in_map_iff in H1. destruct H1 as (y & <- & Hy). specialize (B4 y Hy). apply in_map_iff in H2. destruct H2 as (s & E & _). cbn [fst] in E.
             rewrite <- E in B4. cbn [fst] in B4. lia. }
  destruct (X (F + 1)%nat (le_n _)) as (g1 & R1 & B1 & B2 & B3 & B4 & B5). set (t := (F + 1)%nat) in *.
  assert (Ht : (t < N)%nat) by exact HN.
  (* member F+1 takes their Ready messages before any Echo message *)
  destruct (ready_batch t (tag sha M) (fun s => nth s shards []) Ht 0 g1 R1) as (g2 & R2 & D1 & D2 & D3 & D4 & D5 & D6 & D7 & D8).
  1-5: rewrite B3 by lia; try reflexivity. { intros z []. } { lia. }
  { intros s Hs. rewrite B2. apply in_map_iff. exists s. split; [reflexivity|apply in_seq; unfold t; lia]. }
  rewrite B3 in D5, D6 by lia. cbn [r_echo r_chan proposed] in D5, D6.
  (* the Echo messages: the first announcement *)
  destruct (echo_batch t (x t) Ht 0 g2 R2) as (g3 & R3 & E1 & E2 & E3 & E4 & E5 & E6 & E7 & ch & E8).
  { split; [rewrite D5; reflexivity|]. split; [exact D7|]. split; [exact D8|]. rewrite D6. split; [cbn; lia|constructor]. }
  { lia. }
  { intros s Hs. rewrite D2, B1. apply A4; assumption. }
  rewrite D4 in E5.
  (* the waiting Ready goroutine: the second *)
  assert (S4 : exists st4, step (g_st g3 t) EvReadyPop = Ret (Some (st4, [])) /\ r_rph st4 = RSend (tag sha M) (x t) /\ r_eph st4 = ECheck /\ count (r_echo st4) (x t) = (N - F)%nat).
  { cbn [rstep]. unfold pop_step. rewrite E5, E8. eexists. split; [reflexivity|]. cbn. auto. }
  destruct S4 as (st4 & S4 & S4a & S4b & S4c).
  pose proof (reach_step _ _ _ _ _ _ _ g3 t EvReadyPop _ _ R3 (all_honest t Ht) I S4) as R4. set (g4 := gnext g3 t EvReadyPop st4 []) in *.
  assert (G4 : g_st g4 t = st4) by apply put_same.
  assert (S5 : exists st5, step (g_st g4 t) EvReadySend = Ret (Some (st5, [SendAll (x t)]))).
  { rewrite G4. cbn [rstep]. unfold send_step. rewrite S4a, S4b, S4c, (proj2 (Nat.leb_le (F + 1) (N - F))) by lia. eexists. reflexivity. }
  destruct S5 as (st5 & S5).
  exists (gnext g4 t EvReadySend st5 [SendAll (x t)]). split; [exact (reach_step _ _ _ _ _ _ _ g4 t EvReadySend _ _ R4 (all_honest t Ht) I S5)|].
  assert (T4 : g_took (gnext g4 t EvReadySend st5 [SendAll (x t)]) = g_took g1 ++ map (fun s => (t, Z.of_nat s, x t)) (seq 0 (N - F))).
  { unfold g4, gnext. cbn [g_took took_of]. rewrite !app_nil_r, E4, D3, Nat.sub_0_r. reflexivity. }
  assert (Q4 : g_ready (gnext g4 t EvReadySend st5 [SendAll (x t)]) = map (fun i => (i, x i)) (seq 0 t) ++ [(t, x t); (t, x t)]).
  { unfold g4, gnext. cbn [g_ready readys_of flat_map app]. rewrite app_nil_r, E1, D1, B2, <- app_assoc. reflexivity. }
  split.
  - unfold counted_once in *. rewrite T4, map_app, map_map. apply nodup_app_intro; [exact B5| |].
    + apply FinFun.Injective_map_NoDup; [|apply seq_NoDup]. intros a b E. cbn [fst] in E. injection E as E. apply Nat2Z.inj. exact E.
    + intros a H1 H2. apply in_map_iff in H1. destruct H1 as (y & <- & Hy). specialize (B4 y Hy). apply in_map_iff in H2. destruct H2 as (s & E & _). cbn [fst] in E.
      rewrite <- E in B4. cbn [fst] in B4. lia.
  - assert (Z0 : forall l, (forall i, In i l -> (i < t)%nat) -> filter (fun a : nat * hm => (fst a =? t)%nat) (map (fun i => (i, x i)) l) = []).
    { clear. induction l as [|a l IH]; intros H; [reflexivity|]. cbn [map filter fst]. pose proof (H a (or_introl eq_refl)).
      destruct (Nat.eqb_spec a t); [lia|]. apply IH. intros i Hi. apply H. right. exact Hi. }
    rewrite Q4, filter_app, Z0 by (intros i Hi; apply in_seq in Hi; lia). cbn [filter fst app]. rewrite Nat.eqb_refl. reflexivity.
Qed.
End Twice.
Print Assumptions c33_twice_refuted.

(** Seven members, two of which may be corrupted; nobody is. *)
Example c33_twice_example : exists g, reach toy_sha toy_encode toy_verify toy_reconstruct 7 2 [] g /\ counted_once g /\
  length (filter (fun a : nat * hm => (fst a =? 3)%nat) (g_ready g)) = 2%nat.
Proof.
  destruct (toy_encode 7 2 demoM) as [shards|] eqn:E; [|vm_compute in E; discriminate].
  apply (c33_twice_refuted toy_sha toy_encode toy_verify toy_reconstruct 7 2 ltac:(lia) demoM shards ltac:(lia) E).
  vm_compute in E. injection E as <-. reflexivity.
Qed.
