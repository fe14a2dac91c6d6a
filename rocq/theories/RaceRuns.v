(** Schedules of RaceModel.v that go wrong. *)

Require Import ZArith List Bool Arith Lia.
From Verif Require Import Fr Poly CodecModel GoBase PolyModel PolyProofs RaceModel RaceProofs.
Import ListNotations.

Section Runs.
Variable F : nat.
Variable grow : nat -> nat.
Variable es : nat -> entry.
Local Notation step := (rstep F grow es).
Local Notation run := (rrun F grow es).
Local Notation X := (X es).
Local Notation Y := (Y es).
Local Notation holds := (holds_list es).

(** The other variables are as in s and the other goroutines where they were. *)
Definition same (k : nat) (s s' : rstate) : Prop :=
  m_sent (s_mem s') = m_sent (s_mem s) /\ m_full (s_mem s') = m_full (s_mem s) /\ m_succ (s_mem s') = m_succ (s_mem s) /\
  (m_next (s_mem s) <= m_next (s_mem s'))%nat /\ forall j, j <> k -> s_pc s' j = s_pc s j.

Lemma same_refl k s : same k s s.
Proof. unfold same. auto 10. Qed.

Lemma write_holds m h l k : holds m h l -> let '(m', h') := append_write grow m h (es k) in
  holds m' h' (l ++ [k]) /\ holds m' h l /\ m_sent m' = m_sent m /\ m_full m' = m_full m /\ m_succ m' = m_succ m /\ (m_next m <= m_next m')%nat.
Proof.
  intros (A & B & C). unfold append_write. rewrite A. unfold holds_list. rewrite app_length. cbn [length].
  destruct (Nat.ltb_spec (length l) (h_cap h)); cbn [m_sent m_full m_succ m_next h_len h_arr m_heap].
  - split; [split; [lia|split; [exact B|]]|split; [split; [exact A|split; [exact B|]]|auto]].
    + intros t T. rewrite Nat.eqb_refl. cbn [andb]. destruct (Nat.eqb_spec t (length l)) as [->|NE]; [rewrite app_nth2, Nat.sub_diag by lia; reflexivity|rewrite app_nth1 by lia; apply C; lia].
    + intros t T. destruct (Nat.eqb_spec t (length l)); [lia|]. rewrite andb_false_r. apply C. exact T.
  - split; [split; [lia|split; [lia|]]|split; [split; [exact A|split; [lia|]]|repeat split; lia]].
    + intros t T. rewrite Nat.eqb_refl. destruct (Nat.ltb_spec t (length l)); [rewrite app_nth1 by lia; apply C; lia|].
      assert (t = length l) as -> by lia. rewrite Nat.eqb_refl, app_nth2, Nat.sub_diag by lia. reflexivity.
    + intros t T. destruct (Nat.eqb_spec (h_arr h) (m_next m)); [lia|]. apply C. exact T.
Qed.

Lemma step_of s k m c : gstep F grow es k (s_mem s) (s_pc s k) = Ret (m, c) ->
  step s k = Ret (mkRS m (fun j => if (j =? k)%nat then c else s_pc s j)).
Proof. intros E. unfold rstep. rewrite E. reflexivity. Qed.

(** An append that has read a header: the rest up to line 653. *)
Lemma tail4 s k h l : s_pc s k = PWrite h -> holds (s_mem s) h l -> m_sent (s_mem s) = false ->
  exists s', run [k; k; k; k] s = Ret s' /\ holds (s_mem s') (m_SB (s_mem s')) (l ++ [k]) /\ holds (s_mem s') h l /\ same k s s' /\
    s_pc s' k = if (2 * F + 1 <=? length l + 1)%nat then PIdx 0 [] [] else PEnd.
Proof.
  intros P Hh Hs. pose proof (write_holds (s_mem s) h l k Hh) as W. destruct (append_write grow (s_mem s) h (es k)) as (m', h') eqn:EW.
  destruct W as (W1 & W2 & W3 & W4 & W5 & W6).
  rewrite run_cons, (step_of s k m' (PStore h')) by (rewrite P; cbn [gstep]; rewrite EW; reflexivity). cbn [bind].
  rewrite run_cons. erewrite step_of by (cbn [s_mem s_pc]; rewrite Nat.eqb_refl; cbn [gstep]; reflexivity). cbn [bind s_mem s_pc].
  rewrite run_cons. erewrite step_of by (cbn [s_mem s_pc]; rewrite Nat.eqb_refl; cbn [gstep]; reflexivity). cbn [bind s_mem s_pc m_sent]. rewrite W3, Hs.
  rewrite run_cons. erewrite step_of by (cbn [s_mem s_pc]; rewrite Nat.eqb_refl; cbn [gstep]; reflexivity). cbn [bind s_mem s_pc m_SB].
  eexists. split; [reflexivity|]. cbn [s_mem s_pc m_SB]. split; [exact W1|]. split; [exact W2|]. split.
  - unfold same. cbn [s_mem s_pc m_sent m_full m_succ m_next]. rewrite ?Hs. repeat split; auto; try congruence. intros j NE. destruct (Nat.eqb_spec j k); [contradiction|reflexivity].
  - rewrite Nat.eqb_refl. destruct W1 as (-> & _). rewrite app_length. reflexivity.
Qed.

Lemma load s k : s_pc s k = PLoad -> exists s', run [k] s = Ret s' /\ s_mem s' = s_mem s /\ s_pc s' k = PWrite (m_SB (s_mem s)) /\ same k s s'.
Proof.
  intros P. rewrite run_cons, (step_of s k (s_mem s) (PWrite (m_SB (s_mem s)))) by (rewrite P; reflexivity). eexists. split; [reflexivity|].
  cbn [s_mem s_pc]. split; [reflexivity|]. split; [rewrite Nat.eqb_refl; reflexivity|]. unfold same. cbn [s_mem s_pc]. repeat split; auto.
  intros j NE. destruct (Nat.eqb_spec j k); [contradiction|reflexivity].
Qed.

Lemma same_trans k s1 s2 s3 : same k s1 s2 -> same k s2 s3 -> same k s1 s3.
Proof. unfold same. intros (A1 & A2 & A3 & A4 & A5) (B1 & B2 & B3 & B4 & B5). repeat split; try congruence; try lia. intros j NE. rewrite B5, A5 by exact NE. reflexivity. Qed.

(** A whole append without interruption. *)
Lemma solo s k l : s_pc s k = PLoad -> holds (s_mem s) (m_SB (s_mem s)) l -> m_sent (s_mem s) = false ->
  exists s', run [k; k; k; k; k] s = Ret s' /\ holds (s_mem s') (m_SB (s_mem s')) (l ++ [k]) /\ holds (s_mem s') (m_SB (s_mem s)) l /\ same k s s' /\
    s_pc s' k = if (2 * F + 1 <=? length l + 1)%nat then PIdx 0 [] [] else PEnd.
Proof.
  intros P Hh Hs. destruct (load s k P) as (s1 & E1 & M1 & P1 & S1).
  destruct (tail4 s1 k _ l P1) as (s2 & E2 & A & B & C & D); [rewrite M1; exact Hh|rewrite M1; exact Hs|].
  exists s2. split; [change [k; k; k; k; k] with ([k] ++ [k; k; k; k]); rewrite run_app, E1; exact E2|]. split; [exact A|]. split; [exact B|]. split; [exact (same_trans k s s1 s2 S1 C)|exact D].
Qed.

Definition in_turn (ks : list nat) : list nat := flat_map (fun k => repeat k 5) ks.

(** Several goroutines one after the other, before 2F+1 elements are there. *)
Lemma solos ks : forall s l, NoDup ks -> (forall k, In k ks -> s_pc s k = PLoad) -> holds (s_mem s) (m_SB (s_mem s)) l -> m_sent (s_mem s) = false ->
  (length l + length ks <= 2 * F)%nat ->
  exists s', run (in_turn ks) s = Ret s' /\ holds (s_mem s') (m_SB (s_mem s')) (l ++ ks) /\ m_sent (s_mem s') = false /\ m_full (s_mem s') = m_full (s_mem s) /\
    m_succ (s_mem s') = m_succ (s_mem s) /\ (m_next (s_mem s) <= m_next (s_mem s'))%nat /\
    (forall k, In k ks -> s_pc s' k = PEnd) /\ forall j, ~ In j ks -> s_pc s' j = s_pc s j.
Proof.
  induction ks as [|k ks IH]; intros s l ND P Hh Hs L.
  - exists s. rewrite app_nil_r. cbn [in_turn flat_map]. split; [reflexivity|]. repeat split; auto; try apply Hh. intros k [].
  - inversion ND as [|? ? NI ND']; subst. cbn [length] in L.
    destruct (solo s k l (P k (or_introl eq_refl)) Hh Hs) as (s1 & E1 & H1 & _ & (S1 & S2 & S3 & S4 & S5) & P1).
    destruct (Nat.leb_spec (2 * F + 1) (length l + 1)); [lia|].
    destruct (IH s1 (l ++ [k]) ND') as (s2 & E2 & H2 & T1 & T2 & T3 & T4 & T5 & T6); auto; try congruence.
    + intros j J. rewrite S5 by (intros ->; contradiction). apply P. right. exact J.
    + rewrite app_length. cbn [length]. lia.
    + exists s2. split; [cbn [in_turn flat_map]; rewrite run_app; cbn [repeat]; rewrite E1; exact E2|]. rewrite <- app_assoc in H2. cbn [app] in H2.
      split; [exact H2|]. split; [exact T1|]. split; [congruence|]. split; [congruence|]. split; [lia|]. split.
      * intros j [<-|J]; [rewrite T6 by exact NI; exact P1|apply T5; exact J].
      * intros j NJ. rewrite T6 by (intros J; apply NJ; right; exact J). apply S5. intros ->. apply NJ. left. reflexivity.
Qed.

(** Reading m of the points. *)
Lemma reads_some m : forall s k l t, s_pc s k = PIdx t (map X (firstn t l)) (map Y (firstn t l)) -> holds (s_mem s) (m_SB (s_mem s)) l ->
  (2 * F + 1 <= length l)%nat -> (t + m <= 2 * F)%nat ->
  exists s', run (flat_map (fun _ => [k; k]) (seq 0 m)) s = Ret s' /\ s_mem s' = s_mem s /\
    s_pc s' k = PIdx (t + m) (map X (firstn (t + m) l)) (map Y (firstn (t + m) l)) /\ forall j, j <> k -> s_pc s' j = s_pc s j.
Proof.
  induction m as [|m IH]; intros s k l t P Hh L T.
  - exists s. rewrite Nat.add_0_r. split; [reflexivity|]. auto.
  - pose proof Hh as (A & _ & C). cbn [seq flat_map app]. rewrite <- seq_shift.
    assert (FM : forall B, flat_map (fun _ : nat => B : list nat) (map S (seq 0 m)) = flat_map (fun _ => B) (seq 0 m)).
    { intros B. generalize (seq 0 m). induction l0 as [|a l0 IHl]; cbn; [reflexivity|rewrite IHl; reflexivity]. }
    rewrite FM. clear FM.
    rewrite run_cons. erewrite step_of by (rewrite P; cbn [gstep]; rewrite A; destruct (Nat.ltb_spec t (length l)); [reflexivity|lia]). cbn [bind].
    rewrite run_cons. erewrite step_of by (cbn [s_mem s_pc]; rewrite Nat.eqb_refl; cbn [gstep]; rewrite A; destruct (Nat.ltb_spec t (length l)); [|lia]; destruct (Nat.ltb_spec t (2 * F)); [reflexivity|lia]).
    cbn [bind s_mem s_pc].
    match goal with |- context [run _ ?s1] => destruct (IH s1 k l (t + 1)%nat) as (s2 & E2 & M2 & P2 & O2) end; cbn [s_mem s_pc]; auto; try lia.
    + rewrite Nat.eqb_refl. rewrite (firstn_S 0%nat) by lia. rewrite !map_app. cbn [map]. unfold read. rewrite C by lia. reflexivity.
    + exists s2. split; [exact E2|]. split; [exact M2|]. split; [rewrite P2; replace (t + 1 + m)%nat with (t + S m)%nat by lia; reflexivity|].
      intros j NE. rewrite O2 by exact NE. cbn [s_pc]. destruct (Nat.eqb_spec j k); [contradiction|reflexivity].
Qed.

Lemma init_holds : holds (s_mem rs_init) (m_SB (s_mem rs_init)) [].
Proof. split; [reflexivity|]. split; [cbn; lia|]. intros t T. cbn [length] in T. lia. Qed.

(** Two appends overlap at the start: one element is lost. *)
Lemma lost_run : (1 <= F)%nat -> exists sched s, Forall (fun k => (k < 2 * F + 1)%nat) sched /\ run sched rs_init = Ret s /\
  (forall k, (k < 2 * F + 1)%nat -> s_pc s k = PEnd) /\ m_full (s_mem s) = None /\ m_succ (s_mem s) = 0%nat.
Proof.
  intros HF.
  destruct (load rs_init 0%nat eq_refl) as (s1 & E1 & M1 & P1 & (_ & _ & _ & _ & O1)).
  destruct (load s1 1%nat) as (s2 & E2 & M2 & P2 & (_ & _ & _ & _ & O2)); [rewrite O1 by lia; reflexivity|].
  destruct (tail4 s2 0%nat (m_SB mem_init) []) as (s3 & E3 & H3 & H3' & (A3 & B3 & C3 & D3 & O3) & P3); [rewrite O2 by lia; exact P1|rewrite M2, M1; apply init_holds|rewrite M2, M1; reflexivity|].
  destruct (tail4 s3 1%nat (m_SB mem_init) []) as (s4 & E4 & H4 & _ & (A4 & B4 & C4 & D4 & O4) & P4); [rewrite O3 by lia; rewrite P2, M1; reflexivity|exact H3'|rewrite A3, M2, M1; reflexivity|].
  cbn [length Nat.add] in P3, P4. destruct (Nat.leb_spec (2 * F + 1) 1); [lia|].
  destruct (solos (seq 2 (2 * F - 1)) s4 [1%nat]) as (s5 & E5 & H5 & A5 & B5 & C5 & D5 & P5 & O5); auto using seq_NoDup.
  - intros k K. apply in_seq in K. rewrite O4, O3, O2, O1 by lia. reflexivity.
  - rewrite A4, A3, M2, M1. reflexivity.
  - rewrite seq_length. cbn [length]. lia.
  - exists ([0] ++ [1] ++ [0; 0; 0; 0] ++ [1; 1; 1; 1] ++ in_turn (seq 2 (2 * F - 1)))%nat, s5. split; [|split; [|split; [|split]]].
    + repeat (apply Forall_app; split); repeat (constructor; try lia). apply Forall_forall. intros k K. apply in_flat_map in K. destruct K as (j & J & K).
      apply repeat_spec in K. subst k. apply in_seq in J. lia.
    + rewrite run_app, E1. cbn [bind]. rewrite run_app, E2. cbn [bind]. rewrite run_app, E3. cbn [bind]. rewrite run_app, E4. cbn [bind]. exact E5.
    + intros k K. destruct (in_dec Nat.eq_dec k (seq 2 (2 * F - 1))) as [I|NI]; [apply P5; exact I|]. rewrite O5 by exact NI. rewrite in_seq in NI.
      destruct (Nat.eq_dec k 1) as [->|]; [exact P4|]. assert (k = 0)%nat as -> by lia. rewrite O4 by lia. exact P3.
    + rewrite B5, B4, B3, M2, M1. reflexivity.
    + rewrite C5, C4, C3, M2, M1. reflexivity.
Qed.

(** All but one of the first 2F+2 goroutines finish; the last has read SB when it was empty. *)
Lemma panic_run : (1 <= F)%nat -> exists sched, Forall (fun k => (k < 2 * F + 2)%nat) sched /\ run sched rs_init = Panic.
Proof.
  intros HF. set (w := (2 * F + 1)%nat). set (k := (2 * F)%nat).
  destruct (load rs_init w eq_refl) as (s1 & E1 & M1 & P1 & (_ & _ & _ & _ & O1)).
  destruct (solos (seq 0 (2 * F)) s1 []) as (s2 & E2 & H2 & A2 & B2 & C2 & D2 & P2 & O2).
  { apply seq_NoDup. }
  { intros j J. apply in_seq in J. rewrite O1 by (unfold w; lia). reflexivity. }
  { rewrite M1. apply init_holds. }
  { rewrite M1. reflexivity. }
  { rewrite seq_length. cbn [length]. lia. }
  cbn [app] in H2.
  destruct (solo s2 k (seq 0 (2 * F))) as (s3 & E3 & H3 & _ & (A3 & B3 & C3 & D3 & O3) & P3); [rewrite O2 by (rewrite in_seq; unfold k; lia); rewrite O1 by (unfold w, k; lia); reflexivity|exact H2|exact A2|].
  rewrite seq_length in P3. destruct (Nat.leb_spec (2 * F + 1) (2 * F + 1)); [|lia].
  destruct (tail4 s3 w (m_SB mem_init) []) as (s4 & E4 & H4 & _ & (A4 & B4 & C4 & D4 & O4) & P4).
  { rewrite O3 by (unfold w, k; lia). rewrite O2 by (rewrite in_seq; unfold w; lia). rewrite P1. reflexivity. }
  { split; [reflexivity|]. split; [|intros t T; cbn [length] in T; lia]. assert (X0 : m_next (s_mem s1) = 1%nat) by (rewrite M1; reflexivity). cbn [mem_init m_SB h_arr]. lia. }
  { rewrite A3, A2. reflexivity. }
  exists ([w] ++ in_turn (seq 0 (2 * F)) ++ [k; k; k; k; k] ++ [w; w; w; w] ++ [k; k; k]). split.
  - repeat (apply Forall_app; split); repeat (constructor; try (unfold w, k; lia)). apply Forall_forall. intros j J. apply in_flat_map in J. destruct J as (a & I & J).
    apply repeat_spec in J. subst j. apply in_seq in I. lia.
  - rewrite run_app, E1. cbn [bind]. rewrite run_app, E2. cbn [bind]. rewrite run_app, E3. cbn [bind]. rewrite run_app, E4. cbn [bind].
    destruct H4 as (L4 & _). cbn [app length] in L4.
    assert (Z2 : (0 <? 2 * F)%nat = true) by (apply Nat.ltb_lt; lia).
    assert (PK : s_pc s4 k = PIdx 0 [] []) by (rewrite O4 by (unfold w, k; lia); exact P3).
    rewrite run_cons. erewrite step_of by (rewrite PK; cbn [gstep]; rewrite L4; reflexivity). cbn [bind].
    rewrite run_cons. erewrite step_of by (cbn [s_mem s_pc]; rewrite Nat.eqb_refl; cbn [gstep]; rewrite L4, Z2; reflexivity). cbn [bind].
    rewrite run_cons. unfold rstep. cbn [s_mem s_pc]. rewrite Nat.eqb_refl. cbn [gstep]. rewrite L4. reflexivity.
Qed.

(** An append is completed between the reads of the index and of the value of the last point. *)
Lemma wrong_run : (1 <= F)%nat -> (forall i j, (i <= 2 * F)%nat -> (j <= 2 * F)%nat -> X i = X j -> i = j) ->
  exists sched s q, Forall (fun k => (k < 2 * F + 2)%nat) sched /\ run sched rs_init = Ret s /\ m_full (s_mem s) = Some q /\
    (forall k, (k < 2 * F)%nat -> peval q (X k) = Y k) /\ peval q (X (2 * F)) = Y (2 * F + 1).
Proof.
  intros HF D. set (w := (2 * F + 1)%nat). set (k := (2 * F)%nat).
  destruct (solos (seq 0 (2 * F)) rs_init []) as (s2 & E2 & H2 & A2 & B2 & C2 & D2 & P2 & O2); auto using seq_NoDup.
  { apply init_holds. }
  { rewrite seq_length. cbn [length]. lia. }
  cbn [app] in H2.
  destruct (load s2 w) as (s3 & E3 & M3 & P3 & (_ & _ & _ & _ & O3)); [rewrite O2 by (rewrite in_seq; unfold w; lia); reflexivity|].
  destruct (solo s3 k (seq 0 (2 * F))) as (s4 & E4 & H4 & H4' & (A4 & B4 & C4 & D4 & O4) & P4).
  { rewrite O3 by (unfold w, k; lia). rewrite O2 by (rewrite in_seq; unfold k; lia). reflexivity. }
  { rewrite M3. exact H2. }
  { rewrite M3. exact A2. }
  rewrite seq_length in P4. destruct (Nat.leb_spec (2 * F + 1) (2 * F + 1)); [|lia].
  assert (L4 : length (seq 0 (2 * F) ++ [k]) = (2 * F + 1)%nat) by (rewrite app_length, seq_length; reflexivity).
  destruct (reads_some (2 * F) s4 k (seq 0 (2 * F) ++ [k]) 0 P4 H4) as (s5 & E5 & M5 & P5 & O5); [lia|lia|]. cbn [Nat.add] in P5.
  set (l := seq 0 (2 * F) ++ [k]) in *. pose proof H4 as (LH & _ & CH).
  (* the index of the last point *)
  assert (E6 : run [k] s5 = Ret (mkRS (s_mem s5) (fun j => if (j =? k)%nat then PVal (2 * F) (map X (firstn (2 * F) l) ++ [X k]) (map Y (firstn (2 * F) l)) else s_pc s5 j))).
  { assert (R : read (s_mem s5) (m_SB (s_mem s5)) (2 * F) = es k).
    { unfold read. rewrite M5, CH by lia. unfold l. rewrite app_nth2, seq_length, Nat.sub_diag by (rewrite seq_length; lia). reflexivity. }
    assert (T1 : (2 * F <? 2 * F + 1)%nat = true) by (apply Nat.ltb_lt; lia).
    rewrite run_cons. erewrite step_of by (rewrite P5; cbn [gstep]; rewrite R, M5, LH, L4, T1; reflexivity). rewrite M5. reflexivity. }
  set (s6 := mkRS _ _) in E6.
  destruct (tail4 s6 w (m_SB (s_mem s3)) (seq 0 (2 * F))) as (s7 & E7 & H7 & _ & (A7 & B7 & C7 & D7 & O7) & P7).
  { cbn [s6 s_pc]. destruct (Nat.eqb_spec w k); [unfold w, k in *; lia|]. rewrite O5 by (unfold w, k; lia). rewrite O4 by (unfold w, k; lia). rewrite P3, M3. reflexivity. }
  { cbn [s6 s_mem]. rewrite M5. exact H4'. }
  { cbn [s6 s_mem]. rewrite M5, A4, M3. exact A2. }
  assert (LW : length (seq 0 (2 * F) ++ [w]) = (2 * F + 1)%nat) by (rewrite app_length, seq_length; reflexivity).
  destruct H7 as (LH7 & _ & CH7).
  assert (F2 : firstn (2 * F) l = seq 0 (2 * F)) by (unfold l; rewrite firstn_snoc by (rewrite seq_length; lia); rewrite firstn_all2 by (rewrite seq_length; lia); reflexivity).
  rewrite F2 in *.
  assert (PK : s_pc s7 k = PVal (2 * F) (map X (seq 0 (2 * F)) ++ [X k]) (map Y (seq 0 (2 * F)))) by (rewrite O7 by (unfold w, k; lia); cbn [s6 s_pc]; rewrite Nat.eqb_refl, F2; reflexivity).
  destruct (LagrangeInterpolate_correct (2 * F) (map X (seq 0 (2 * F)) ++ [X k]) (map Y (seq 0 (2 * F)) ++ [Y w])) as (q & EQ & LQ & VQ & _).
  { rewrite firstn_all2 by (rewrite app_length, map_length, seq_length; cbn [length]; lia). change [X k] with (map X [k]). rewrite <- map_app.
    change (seq 0 (2 * F) ++ [k]) with (seq 0 (2 * F) ++ [0 + 2 * F]%nat). rewrite <- seq_S.
    assert (G : forall m, (m <= S (2 * F))%nat -> NoDup (map X (seq 0 m))); [|apply G; lia].
    intros m. induction m as [|m IH]; intros L; [constructor|]. rewrite seq_S, map_app. cbn [map Nat.add]. apply NoDup_rev in IH; [|lia].
    rewrite <- (rev_involutive (map X (seq 0 m) ++ [X m])). apply NoDup_rev. rewrite rev_app_distr. cbn [rev app]. constructor; [|exact IH].
    rewrite <- in_rev. intros I. apply in_map_iff in I. destruct I as (a & E & I). apply in_seq in I. apply D in E; lia. }
  { rewrite app_length, map_length, seq_length. cbn [length]. lia. }
  { rewrite app_length, map_length, seq_length. cbn [length]. lia. }
  assert (E8 : exists s8, run [k; k] s7 = Ret s8 /\ m_full (s_mem s8) = Some q).
  { assert (T1 : (2 * F <? 2 * F + 1)%nat = true) by (apply Nat.ltb_lt; lia).
    rewrite run_cons. erewrite step_of by (rewrite PK; cbn [gstep]; rewrite LH7, LW, T1, Nat.ltb_irrefl; reflexivity).
    cbn [bind s_mem s_pc]. unfold read. rewrite CH7 by lia. rewrite app_nth2, seq_length, Nat.sub_diag by (rewrite seq_length; lia). cbn [nth].
    rewrite run_cons. erewrite step_of by (cbn [s_mem s_pc]; rewrite Nat.eqb_refl; cbn [gstep]; change (snd (es w)) with (Y w); rewrite EQ; reflexivity). cbn [bind].
    eexists. split; reflexivity. }
  destruct E8 as (s8 & E8 & M8).
  exists (in_turn (seq 0 (2 * F)) ++ [w] ++ [k; k; k; k; k] ++ flat_map (fun _ => [k; k]) (seq 0 (2 * F)) ++ [k] ++ [w; w; w; w] ++ [k; k]), s8, q.
  split; [|split; [|split; [exact M8|split]]].
  - repeat (apply Forall_app; split); repeat (constructor; try (unfold w, k; lia)).
    + apply Forall_forall. intros j J. apply in_flat_map in J. destruct J as (a & I & J). apply repeat_spec in J. subst j. apply in_seq in I. lia.
    + apply Forall_forall. intros j J. apply in_flat_map in J. destruct J as (a & I & [<-|[<-|[]]]); unfold k; lia.
  - rewrite run_app, E2. cbn [bind]. rewrite run_app, E3. cbn [bind]. rewrite run_app, E4. cbn [bind]. rewrite run_app, E5. cbn [bind].
    rewrite run_app, E6. cbn [bind]. rewrite run_app, E7. cbn [bind]. exact E8.
  - intros j J. specialize (VQ j ltac:(lia)). rewrite !app_nth1 in VQ by (rewrite map_length, seq_length; lia).
    rewrite (nth_indep _ f0 (X 0)), (nth_indep (map Y _) f0 (Y 0)) in VQ by (rewrite map_length, seq_length; lia). rewrite !map_nth, seq_nth in VQ by lia. exact VQ.
  - specialize (VQ (2 * F)%nat ltac:(lia)). rewrite !app_nth2 in VQ by (rewrite map_length, seq_length; lia). rewrite !map_length, seq_length, Nat.sub_diag in VQ. exact VQ.
Qed.

(** All the reads and the interpolation. *)
Definition to_share (k : nat) : list nat := flat_map (fun _ => [k; k]) (seq 0 (2 * F)) ++ [k; k; k].

Section Honest.
Variable n : nat.
Variable f : list Fr.
Hypothesis Lf : length f = (2 * F + 1)%nat.
Hypothesis Hv : forall k, (k < n)%nat -> Y k = peval f (X k).
Hypothesis Hd : forall j k, (j < n)%nat -> (k < n)%nat -> X j = X k -> j = k.

Lemma finish s k l : s_pc s k = PIdx 0 [] [] -> holds (s_mem s) (m_SB (s_mem s)) l -> (2 * F + 1 <= length l)%nat -> NoDup l -> (forall j, In j l -> (j < n)%nat) ->
  exists s', run (to_share k) s = Ret s' /\ holds (s_mem s') (m_SB (s_mem s')) l /\ m_full (s_mem s') = Some f /\ m_succ (s_mem s') = (m_succ (s_mem s) + 1)%nat /\
    s_pc s' k = PMark /\ forall j, j <> k -> s_pc s' j = s_pc s j.
Proof.
  intros P Hh L ND B. destruct (reads_some (2 * F) s k l 0 P Hh L) as (s1 & E1 & M1 & P1 & O1); [lia|]. cbn [Nat.add] in P1.
  pose proof Hh as (LH & AH & CH). unfold to_share. rewrite run_app, E1. cbn [bind].
  assert (T1 : (2 * F <? length l)%nat = true) by (apply Nat.ltb_lt; lia).
  assert (R : read (s_mem s) (m_SB (s_mem s)) (2 * F) = es (nth (2 * F) l 0%nat)) by (unfold read; rewrite CH by lia; reflexivity).
  rewrite run_cons. erewrite step_of by (rewrite P1; cbn [gstep]; rewrite M1, LH, T1, R; reflexivity). cbn [bind].
  rewrite run_cons. erewrite step_of by (cbn [s_mem s_pc]; rewrite Nat.eqb_refl; cbn [gstep]; rewrite LH, T1, Nat.ltb_irrefl, R; reflexivity). cbn [bind].
  pose proof (interp_ord F es n f Lf Hv Hd l ND B L) as EI. rewrite (firstn_S 0%nat) in EI by lia. rewrite !map_app in EI.
  rewrite run_cons. erewrite step_of by (cbn [s_mem s_pc]; rewrite Nat.eqb_refl; cbn [gstep]; change [of_nat (fst (es (nth (2 * F) l 0%nat)))] with (map X [nth (2 * F) l 0%nat]);
    change [snd (es (nth (2 * F) l 0%nat))] with (map Y [nth (2 * F) l 0%nat]); rewrite EI; reflexivity). cbn [bind].
  eexists. split; [reflexivity|]. cbn [s_mem s_pc m_full m_succ m_SB]. split; [split; [exact LH|split; [exact AH|exact CH]]|]. split; [reflexivity|]. split; [reflexivity|].
  split; [rewrite Nat.eqb_refl; reflexivity|]. intros j NE. destruct (Nat.eqb_spec j k); [contradiction|apply O1; exact NE].
Qed.

(** Two goroutines pass the test of line 653 before one of them sets SuccessSent. *)
Lemma double_run : n = (2 * F + 2)%nat -> exists sched s, Forall (fun k => (k < n)%nat) sched /\ run sched rs_init = Ret s /\ m_succ (s_mem s) = 2%nat /\ m_full (s_mem s) = Some f.
Proof.
  intros EN. set (w := (2 * F + 1)%nat). set (k := (2 * F)%nat).
  destruct (solos (seq 0 (2 * F)) rs_init []) as (s2 & E2 & H2 & A2 & B2 & C2 & D2 & P2 & O2); auto using seq_NoDup.
  { apply init_holds. }
  { rewrite seq_length. cbn [length]. lia. }
  cbn [app] in H2.
  destruct (solo s2 k (seq 0 (2 * F))) as (s3 & E3 & H3 & _ & (A3 & B3 & C3 & D3 & O3) & P3); [rewrite O2 by (rewrite in_seq; unfold k; lia); reflexivity|exact H2|exact A2|].
  destruct (solo s3 w (seq 0 (2 * F) ++ [k])) as (s4 & E4 & H4 & _ & (A4 & B4 & C4 & D4 & O4) & P4);
    [rewrite O3 by (unfold w, k; lia); rewrite O2 by (rewrite in_seq; unfold w; lia); reflexivity|exact H3|rewrite A3; exact A2|].
  rewrite seq_length in P3. rewrite app_length, seq_length in P4. cbn [length] in P4. destruct (Nat.leb_spec (2 * F + 1) (2 * F + 1)); [|lia]. destruct (Nat.leb_spec (2 * F + 1) (2 * F + 1 + 1)); [|lia].
  assert (EL : (seq 0 (2 * F) ++ [k]) ++ [w] = seq 0 n).
  { rewrite EN. replace (2 * F + 2)%nat with (S (S (2 * F))) by lia. rewrite 2 seq_S. unfold k, w. replace (0 + S (2 * F))%nat with (2 * F + 1)%nat by lia. reflexivity. }
  rewrite EL in H4.
  destruct (finish s4 k (seq 0 n)) as (s5 & E5 & H5 & F5 & C5 & P5 & O5); [rewrite O4 by (unfold w, k; lia); exact P3|exact H4|rewrite seq_length; lia|apply seq_NoDup|intros j J; apply in_seq in J; lia|].
  destruct (finish s5 w (seq 0 n)) as (s6 & E6 & H6 & F6 & C6 & P6 & O6); [rewrite O5 by (unfold w, k; lia); exact P4|exact H5|rewrite seq_length; lia|apply seq_NoDup|intros j J; apply in_seq in J; lia|].
  exists (in_turn (seq 0 (2 * F)) ++ [k; k; k; k; k] ++ [w; w; w; w; w] ++ to_share k ++ to_share w), s6. split; [|split; [|split]].
  - unfold to_share. repeat (apply Forall_app; split); repeat (constructor; try (unfold w, k; lia)).
    + apply Forall_forall. intros j J. apply in_flat_map in J. destruct J as (a & I & J). apply repeat_spec in J. subst j. apply in_seq in I. lia.
    + apply Forall_forall. intros j J. apply in_flat_map in J. destruct J as (a & I & [<-|[<-|[]]]); unfold k; lia.
    + apply Forall_forall. intros j J. apply in_flat_map in J. destruct J as (a & I & [<-|[<-|[]]]); unfold w; lia.
  - rewrite run_app, E2. cbn [bind]. rewrite run_app, E3. cbn [bind]. rewrite run_app, E4. cbn [bind]. rewrite run_app, E5. cbn [bind]. exact E6.
  - rewrite C6, C5, C4, C3, C2. reflexivity.
  - exact F6.
Qed.
End Honest.
End Runs.
