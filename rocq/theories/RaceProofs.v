(** Proofs about RaceModel.v. *)

Require Import ZArith List Bool Arith Lia.
From Verif Require Import Fr Poly CodecModel GoBase PolyModel PolyProofs RaceModel.
Import ListNotations.

Section Proofs.
Variable F : nat.
Variable grow : nat -> nat.
Variable es : nat -> entry.
Local Notation step := (rstep F grow es).
Local Notation run := (rrun F grow es).
Definition X (k : nat) : Fr := of_nat (fst (es k)).
Definition Y (k : nat) : Fr := snd (es k).

Lemma run_app a b s : run (a ++ b) s = bind (run a s) (run b).
Proof. unfold rrun. revert s. induction a as [|k a IH]; intros s; cbn [gofold app bind]; [reflexivity|]. destruct (step s k); cbn [bind]; auto. Qed.

Lemma run_cons k a s : run (k :: a) s = bind (step s k) (run a).
Proof. reflexivity. Qed.

Lemma firstn_snoc {A} t (l : list A) a : (t <= length l)%nat -> firstn t (l ++ [a]) = firstn t l.
Proof. intros L. rewrite firstn_app. replace (t - length l)%nat with 0%nat by lia. cbn [firstn]. apply app_nil_r. Qed.

Lemma firstn_S {A} d t (l : list A) : (t < length l)%nat -> firstn (t + 1) l = firstn t l ++ [nth t l d].
Proof.
  revert t. induction l as [|a l IH]; intros t L; cbn [length] in L; [lia|]. destruct t as [|t]; cbn [firstn nth Nat.add app]; [reflexivity|].
  rewrite IH by lia. reflexivity.
Qed.

(** ** Appends that do not overlap *)

Definition crit (c : pc) : Prop := match c with PWrite _ | PStore _ => True | _ => False end.
Definition busy (c : pc) : Prop := match c with PSent | PLen | PIdx _ _ _ | PVal _ _ _ | PShare _ _ => True | _ => False end.

(** Goroutine k starts an append only when nobody else is in one. *)
Definition alone (n : nat) (s : rstate) (k : nat) : Prop := s_pc s k = PLoad -> forall j, (j < n)%nat -> ~ crit (s_pc s j).

Inductive xreach (n : nat) : rstate -> Prop :=
| x_init : xreach n rs_init
| x_step s k s' : xreach n s -> (k < n)%nat -> alone n s k -> step s k = Ret s' -> xreach n s'.

Definition holds_list (m : mem) (h : hdr) (l : list nat) : Prop :=
  h_len h = length l /\ (h_arr h < m_next m)%nat /\ forall t, (t < length l)%nat -> m_heap m (h_arr h) t = es (nth t l 0%nat).

Definition pc_ok (m : mem) (ord : list nat) (k : nat) (c : pc) : Prop :=
  match c with
  | PLoad => ~ In k ord
  | PWrite h => ~ In k ord /\ h = m_SB m
  | PStore h => ~ In k ord /\ holds_list m h (ord ++ [k])
  | PSent | PLen | PMark | PEnd => In k ord
  | PIdx t xs ys => In k ord /\ (2 * F + 1 <= length ord)%nat /\ (t <= 2 * F)%nat /\ xs = map X (firstn t ord) /\ ys = map Y (firstn t ord)
  | PVal t xs ys => In k ord /\ (2 * F + 1 <= length ord)%nat /\ (t <= 2 * F)%nat /\ xs = map X (firstn (t + 1) ord) /\ ys = map Y (firstn t ord)
  | PShare xs ys => In k ord /\ (2 * F + 1 <= length ord)%nat /\ xs = map X (firstn (2 * F + 1) ord) /\ ys = map Y (firstn (2 * F + 1) ord)
  end.

Variable n : nat.
Variable f : list Fr.
Hypothesis Lf : length f = (2 * F + 1)%nat.
Hypothesis Hv : forall k, (k < n)%nat -> Y k = peval f (X k).
Hypothesis Hd : forall j k, (j < n)%nat -> (k < n)%nat -> X j = X k -> j = k.

Record xinv (s : rstate) (ord : list nat) : Prop := mkX {
  x_nodup : NoDup ord; x_in : forall k, In k ord -> (k < n)%nat;
  x_list : holds_list (s_mem s) (m_SB (s_mem s)) ord;
  x_pc : forall k, (k < n)%nat -> pc_ok (s_mem s) ord k (s_pc s k);
  x_one : forall j k, (j < n)%nat -> (k < n)%nat -> crit (s_pc s j) -> crit (s_pc s k) -> j = k;
  x_sent : m_sent (s_mem s) = true -> m_full (s_mem s) <> None;
  x_full : forall q, m_full (s_mem s) = Some q -> q = f;
  x_mark : forall k, (k < n)%nat -> s_pc s k = PMark -> m_full (s_mem s) <> None;
  x_busy : (2 * F + 1 <= length ord)%nat -> m_full (s_mem s) <> None \/ exists k, (k < n)%nat /\ busy (s_pc s k) }.

Lemma nodup_map_X l : (forall k, In k l -> (k < n)%nat) -> NoDup l -> NoDup (map X l).
Proof.
  intros B. induction 1 as [|a l NI ND IH]; cbn [map]; constructor; [|apply IH; intros k K; apply B; right; exact K].
  intros I. apply in_map_iff in I. destruct I as (b & E & I). apply NI. assert (a = b) as ->; [|exact I].
  apply Hd; [apply B; left; reflexivity|apply B; right; exact I|congruence].
Qed.

Lemma nodup_firstn {A} t (l : list A) : NoDup l -> NoDup (firstn t l).
Proof.
  intros ND. revert t. induction ND as [|a l NI ND IH]; intros [|t]; cbn [firstn]; try constructor; [|apply IH].
  intros I. apply NI. clear - I. revert t I. induction l as [|b l IH]; intros [|t] I; cbn [firstn] in I; try contradiction.
  destruct I as [->|I]; [left; reflexivity|right; exact (IH t I)].
Qed.

Lemma in_firstn {A} t (l : list A) a : In a (firstn t l) -> In a l.
Proof. revert t. induction l as [|b l IH]; intros [|t] I; cbn [firstn] in I; try contradiction. destruct I as [->|I]; [left; reflexivity|right; exact (IH t I)]. Qed.

Lemma interp_ord ord : NoDup ord -> (forall k, In k ord -> (k < n)%nat) -> (2 * F + 1 <= length ord)%nat ->
  LagrangeInterpolate (2 * F) (map X (firstn (2 * F + 1) ord)) (map Y (firstn (2 * F + 1) ord)) = Ret f.
Proof.
  intros ND B L. assert (LF : length (firstn (2 * F + 1) ord) = (2 * F + 1)%nat) by (rewrite firstn_length; lia).
  replace (map Y (firstn (2 * F + 1) ord)) with (map (peval f) (map X (firstn (2 * F + 1) ord))).
  - apply LagrangeInterpolate_values; [|rewrite map_length; lia|exact Lf].
    rewrite firstn_all2 by (rewrite map_length; lia). apply nodup_map_X; [intros k K; apply B, (in_firstn _ _ _ K)|apply nodup_firstn; exact ND].
  - rewrite map_map. apply map_ext_in. intros k K. symmetry. apply Hv, B, (in_firstn _ _ _ K).
Qed.

Lemma pc_ok_more m ord j k c : j <> k -> ~ crit c -> pc_ok m ord j c -> pc_ok m (ord ++ [k]) j c.
Proof.
  intros NE NC P. destruct c; cbn [pc_ok crit] in *; try tauto; try (apply in_or_app; left; exact P).
  - intros I. apply in_app_or in I. destruct I as [I|[<-|[]]]; [contradiction|apply NE; reflexivity].
  - destruct P as (P1 & P2 & P3 & -> & ->). rewrite app_length. cbn [length]. rewrite !firstn_snoc by lia. repeat split; auto; try lia. apply in_or_app; left; exact P1.
  - destruct P as (P1 & P2 & P3 & -> & ->). rewrite app_length. cbn [length]. rewrite !firstn_snoc by lia. repeat split; auto; try lia. apply in_or_app; left; exact P1.
  - destruct P as (P1 & P2 & -> & ->). rewrite app_length. cbn [length]. rewrite !firstn_snoc by lia. repeat split; auto; try lia. apply in_or_app; left; exact P1.
Qed.

Lemma x_step_inv s ord k : xinv s ord -> (k < n)%nat -> alone n s k ->
  exists s' ord', step s k = Ret s' /\ xinv s' ord'.
Proof.
  intros [X1 X2 (X3 & X3' & X3'') X4 X5 X6 X7 X8 X9] Hk AL. pose proof (X4 k Hk) as PK. unfold RaceModel.rstep.
  destruct (s_pc s k) as [|h|h| | |t xs ys|t xs ys|xs ys| |] eqn:EP; cbn [gstep]; cbn [pc_ok] in PK.
  - (* load *)
    eexists _, ord. split; [reflexivity|]. constructor; cbn [s_mem s_pc]; auto.
    + split; auto.
    + intros j Hj. destruct (Nat.eqb_spec j k) as [->|]; [cbn [pc_ok]; auto|apply X4; exact Hj].
    + intros a b Ha Hb. destruct (Nat.eqb_spec a k) as [->|Na]; destruct (Nat.eqb_spec b k) as [->|Nb]; auto.
      * intros _ C. exfalso. exact (AL EP b Hb C).
      * intros C. exfalso. exact (AL EP a Ha C).
    + intros j Hj. destruct (Nat.eqb_spec j k); [discriminate|apply X8; exact Hj].
    + intros L. destruct (X9 L) as [E|(j & Hj & B)]; [left; exact E|right]. exists j. split; [exact Hj|]. destruct (Nat.eqb_spec j k) as [->|]; [rewrite EP in B; contradiction|exact B].
  - (* write *)
    destruct PK as (NI & ->). unfold append_write. rewrite X3.
    assert (OT : forall j, (j < n)%nat -> j <> k -> ~ crit (s_pc s j)).
    { intros j Hj NE C. apply NE. apply X5; auto. rewrite EP. exact Logic.I. }
    assert (G : forall m' h', m_next (s_mem s) <= m_next m' -> m_SB m' = m_SB (s_mem s) -> m_sent m' = m_sent (s_mem s) -> m_full m' = m_full (s_mem s) ->
       holds_list m' (m_SB (s_mem s)) ord -> holds_list m' h' (ord ++ [k]) -> xinv (mkRS m' (fun j => if (j =? k)%nat then PStore h' else s_pc s j)) ord).
    { intros m' h' G1 G2 G3 G4 G5 G6. constructor; cbn [s_mem s_pc]; rewrite ?G2, ?G3, ?G4; auto.
      + intros j Hj. destruct (Nat.eqb_spec j k) as [->|NE]; [cbn [pc_ok]; auto|]. pose proof (X4 j Hj) as PJ. pose proof (OT j Hj NE) as NC.
        destruct (s_pc s j); cbn [pc_ok crit] in *; tauto.
      + intros a b Ha Hb. destruct (Nat.eqb_spec a k) as [->|Na]; destruct (Nat.eqb_spec b k) as [->|Nb]; auto; intros A B; exfalso; [exact (OT b Hb Nb B)|exact (OT a Ha Na A)].
      + intros j Hj. destruct (Nat.eqb_spec j k); [discriminate|apply X8; exact Hj].
      + intros L. destruct (X9 L) as [E|(j & Hj & B)]; [left; exact E|right]. exists j. split; [exact Hj|]. destruct (Nat.eqb_spec j k) as [->|]; [rewrite EP in B; contradiction|exact B]. }
    destruct (Nat.ltb_spec (length ord) (h_cap (m_SB (s_mem s)))) as [C|C]; cbn [bind]; eexists _, ord; (split; [reflexivity|]); apply G; cbn [m_next m_SB m_sent m_full]; auto; try lia.
    + split; [exact X3|]. split; [exact X3'|]. intros t T. cbn [m_heap]. destruct (Nat.eqb_spec t (length ord)); [lia|]. rewrite andb_false_r. apply X3''. exact T.
    + unfold holds_list. rewrite app_length. cbn [length h_len h_arr m_next m_heap]. split; [lia|]. split; [exact X3'|]. intros t T. rewrite Nat.eqb_refl. cbn [andb].
      destruct (Nat.eqb_spec t (length ord)) as [->|NE]; [rewrite app_nth2, Nat.sub_diag by lia; reflexivity|rewrite app_nth1 by lia; apply X3''; lia].
    + split; [exact X3|]. split; [cbn [m_next]; lia|]. intros t T. cbn [m_heap]. destruct (Nat.eqb_spec (h_arr (m_SB (s_mem s))) (m_next (s_mem s))); [lia|apply X3''; exact T].
    + unfold holds_list. rewrite app_length. cbn [length h_len h_arr m_next m_heap]. split; [lia|]. split; [lia|]. intros t T. rewrite Nat.eqb_refl.
      destruct (Nat.ltb_spec t (length ord)); [rewrite app_nth1 by lia; apply X3''; lia|]. destruct (Nat.eqb_spec t (length ord)) as [->|NE]; [rewrite app_nth2, Nat.sub_diag by lia; reflexivity|lia].
  - (* store *)
    destruct PK as (NI & HL).
    assert (OT : forall j, (j < n)%nat -> j <> k -> ~ crit (s_pc s j)).
    { intros j Hj NE C. apply NE. apply X5; auto. rewrite EP. exact Logic.I. }
    eexists _, (ord ++ [k]). split; [reflexivity|]. constructor; cbn [s_mem s_pc m_sent m_full m_SB].
    + apply NoDup_rev in X1. apply NoDup_rev in X1. rewrite rev_involutive in X1.
      clear - X1 NI. induction X1 as [|a l NA ND IH]; cbn [app]; [constructor; [intros []|constructor]|]. constructor.
      * intros I. apply in_app_or in I. destruct I as [I|[<-|[]]]; [contradiction|apply NI; left; reflexivity].
      * apply IH. intros I. apply NI. right. exact I.
    + intros j I. apply in_app_or in I. destruct I as [I|[<-|[]]]; [exact (X2 j I)|exact Hk].
    + exact HL.
    + intros j Hj. destruct (Nat.eqb_spec j k) as [->|NE]; [cbn [pc_ok]; apply in_or_app; right; left; reflexivity|].
      apply (pc_ok_more (mkMem (m_heap (s_mem s)) (m_next (s_mem s)) h (m_sent (s_mem s)) (m_full (s_mem s)) (m_succ (s_mem s))) ord j k); [exact NE|apply OT; auto|].
      pose proof (X4 j Hj) as PJ. pose proof (OT j Hj NE) as NC. destruct (s_pc s j); cbn [pc_ok crit] in *; tauto.
    + intros a b Ha Hb. destruct (Nat.eqb_spec a k) as [->|Na]; [intros []|]. destruct (Nat.eqb_spec b k) as [->|Nb]; [intros _ []|]. intros A. exfalso. exact (OT a Ha Na A).
    + exact X6.
    + exact X7.
    + intros j Hj. destruct (Nat.eqb_spec j k); [discriminate|apply X8; exact Hj].
    + intros _. right. exists k. split; [exact Hk|]. rewrite Nat.eqb_refl. exact Logic.I.
  - (* SuccessSent *)
    eexists _, ord. split; [reflexivity|]. constructor; cbn [s_mem s_pc]; auto.
    + split; auto.
    + intros j Hj. destruct (Nat.eqb_spec j k) as [->|]; [destruct (m_sent (s_mem s)); exact PK|apply X4; exact Hj].
    + intros a b Ha Hb. destruct (Nat.eqb_spec a k) as [->|Na]; [destruct (m_sent (s_mem s)); intros []|]. destruct (Nat.eqb_spec b k) as [->|Nb]; [destruct (m_sent (s_mem s)); intros _ []|]. apply X5; assumption.
    + intros j Hj. destruct (Nat.eqb_spec j k); [destruct (m_sent (s_mem s)); discriminate|apply X8; exact Hj].
    + intros L. destruct (m_sent (s_mem s)) eqn:ES; [left; apply X6; reflexivity|]. right. exists k. split; [exact Hk|]. rewrite Nat.eqb_refl. exact Logic.I.
  - (* len *)
    eexists _, ord. split; [reflexivity|]. rewrite X3. constructor; cbn [s_mem s_pc]; auto.
    + split; auto.
    + intros j Hj. destruct (Nat.eqb_spec j k) as [->|]; [|apply X4; exact Hj]. destruct (Nat.leb_spec (2 * F + 1) (length ord)); cbn [pc_ok firstn map]; [repeat split; auto; lia|exact PK].
    + intros a b Ha Hb. destruct (Nat.eqb_spec a k) as [->|Na]; [destruct (_ <=? _)%nat; intros []|]. destruct (Nat.eqb_spec b k) as [->|Nb]; [destruct (_ <=? _)%nat; intros _ []|]. apply X5; assumption.
    + intros j Hj. destruct (Nat.eqb_spec j k); [destruct (_ <=? _)%nat; discriminate|apply X8; exact Hj].
    + intros L. right. exists k. split; [exact Hk|]. rewrite Nat.eqb_refl. destruct (Nat.leb_spec (2 * F + 1) (length ord)); [exact Logic.I|lia].
  - (* index *)
    destruct PK as (IK & L & T & -> & ->). rewrite X3. destruct (Nat.ltb_spec t (length ord)); [|lia]. cbn [bind].
    eexists _, ord. split; [reflexivity|]. constructor; cbn [s_mem s_pc]; auto.
    + split; auto.
    + intros j Hj. destruct (Nat.eqb_spec j k) as [->|]; [|apply X4; exact Hj]. cbn [pc_ok]. repeat split; auto.
      rewrite (firstn_S 0%nat) by lia. rewrite map_app. cbn [map]. unfold read. rewrite X3'' by lia. reflexivity.
    + intros a b Ha Hb. destruct (Nat.eqb_spec a k) as [->|Na]; [intros []|]. destruct (Nat.eqb_spec b k) as [->|Nb]; [intros _ []|]. apply X5; assumption.
    + intros j Hj. destruct (Nat.eqb_spec j k); [discriminate|apply X8; exact Hj].
    + intros _. right. exists k. split; [exact Hk|]. rewrite Nat.eqb_refl. exact Logic.I.
  - (* value *)
    destruct PK as (IK & L & T & -> & ->). rewrite X3. destruct (Nat.ltb_spec t (length ord)); [|lia]. cbn [bind].
    assert (EY : map Y (firstn t ord) ++ [snd (read (s_mem s) (m_SB (s_mem s)) t)] = map Y (firstn (t + 1) ord)).
    { rewrite (firstn_S 0%nat) by lia. rewrite map_app. cbn [map]. unfold read. rewrite X3'' by lia. reflexivity. }
    eexists _, ord. split; [reflexivity|]. rewrite EY. constructor; cbn [s_mem s_pc]; auto.
    + split; auto.
    + intros j Hj. destruct (Nat.eqb_spec j k) as [->|]; [|apply X4; exact Hj]. destruct (Nat.ltb_spec t (2 * F)); cbn [pc_ok]; repeat split; auto; try lia.
      * replace (2 * F + 1)%nat with (t + 1)%nat by lia. reflexivity.
      * replace (2 * F + 1)%nat with (t + 1)%nat by lia. reflexivity.
    + intros a b Ha Hb. destruct (Nat.eqb_spec a k) as [->|Na]; [destruct (_ <? _)%nat; intros []|]. destruct (Nat.eqb_spec b k) as [->|Nb]; [destruct (_ <? _)%nat; intros _ []|]. apply X5; assumption.
    + intros j Hj. destruct (Nat.eqb_spec j k); [destruct (_ <? _)%nat; discriminate|apply X8; exact Hj].
    + intros _. right. exists k. split; [exact Hk|]. rewrite Nat.eqb_refl. destruct (_ <? _)%nat; exact Logic.I.
  - (* share *)
    destruct PK as (IK & L & -> & ->). rewrite interp_ord by auto. cbn [bind].
    eexists _, ord. split; [reflexivity|]. constructor; cbn [s_mem s_pc m_sent m_full m_SB]; auto; try discriminate.
    + split; auto.
    + intros j Hj. destruct (Nat.eqb_spec j k) as [->|]; [exact IK|]. pose proof (X4 j Hj) as PJ. destruct (s_pc s j); exact PJ.
    + intros a b Ha Hb. destruct (Nat.eqb_spec a k) as [->|Na]; [intros []|]. destruct (Nat.eqb_spec b k) as [->|Nb]; [intros _ []|]. apply X5; assumption.
    + intros q E. congruence.
    + intros _. left. discriminate.
  - (* mark *)
    cbn [bind]. pose proof (X8 k Hk EP) as FU. eexists _, ord. split; [reflexivity|]. constructor; cbn [s_mem s_pc m_sent m_full m_SB]; auto.
    + split; auto.
    + intros j Hj. destruct (Nat.eqb_spec j k) as [->|]; [exact PK|]. pose proof (X4 j Hj) as PJ. destruct (s_pc s j); exact PJ.
    + intros a b Ha Hb. destruct (Nat.eqb_spec a k) as [->|Na]; [intros []|]. destruct (Nat.eqb_spec b k) as [->|Nb]; [intros _ []|]. apply X5; assumption.
  - cbn [bind]. eexists _, ord. split; [reflexivity|]. constructor; cbn [s_mem s_pc]; auto.
    + split; auto.
    + intros j Hj. destruct (Nat.eqb_spec j k) as [->|]; [exact PK|apply X4; exact Hj].
    + intros a b Ha Hb. destruct (Nat.eqb_spec a k) as [->|Na]; [intros []|]. destruct (Nat.eqb_spec b k) as [->|Nb]; [intros _ []|]. apply X5; assumption.
    + intros j Hj. destruct (Nat.eqb_spec j k); [discriminate|apply X8; exact Hj].
    + intros L. destruct (X9 L) as [E|(j & Hj & B)]; [left; exact E|right]. exists j. split; [exact Hj|]. destruct (Nat.eqb_spec j k) as [->|]; [rewrite EP in B; contradiction|exact B].
Qed.

Lemma xreach_inv s : xreach n s -> exists ord, xinv s ord.
Proof.
  induction 1 as [|s k s' R (ord & IH) Hk AL E].
  - exists []. constructor; cbn [rs_init s_mem s_pc mem_init m_sent m_full m_SB]; try discriminate; auto; try (intros; contradiction).
    + constructor.
    + split; [reflexivity|]. split; [cbn; lia|]. intros t T. cbn [length] in T. lia.
    + intros k _ [].
    + cbn [length]. lia.
  - destruct (x_step_inv s ord k IH Hk AL) as (s2 & ord2 & E2 & I2). assert (s2 = s') as -> by congruence. exists ord2. exact I2.
Qed.

(** ** Any schedule: where an element can be *)

(** Goroutine k writes its element at one position only; [slot k] is that position once it has been written. *)
Definition hok (slot : nat -> option nat) (m : mem) (h : hdr) : Prop :=
  (h_arr h < m_next m)%nat /\ forall t, (t < h_len h)%nat -> exists k, (k < n)%nat /\ m_heap m (h_arr h) t = es k /\ slot k = Some t.

Definition reads (slot : nat -> option nat) (g : nat -> Fr) (l : list Fr) : Prop :=
  forall i, (i < length l)%nat -> exists k, (k < n)%nat /\ nth i l f0 = g k /\ slot k = Some i.

Definition pc_any (slot : nat -> option nat) (m : mem) (k : nat) (c : pc) : Prop :=
  match c with
  | PLoad => slot k = None
  | PWrite h => slot k = None /\ hok slot m h
  | PStore h => hok slot m h
  | PIdx t xs ys => (t <= 2 * F)%nat /\ length xs = t /\ length ys = t /\ reads slot X xs /\ reads slot Y ys
  | PVal t xs ys => (t <= 2 * F)%nat /\ length xs = (t + 1)%nat /\ length ys = t /\ reads slot X xs /\ reads slot Y ys
  | PShare xs ys => length xs = (2 * F + 1)%nat /\ length ys = (2 * F + 1)%nat /\ reads slot X xs /\ reads slot Y ys
  | _ => True
  end.

(** What can have been interpolated. *)
Definition mixture (slot : nat -> option nat) (q : list Fr) : Prop :=
  length q = (2 * F + 1)%nat /\ exists ks js : nat -> nat, forall i, (i <= 2 * F)%nat ->
    (ks i < n)%nat /\ (js i < n)%nat /\ slot (ks i) = Some i /\ slot (js i) = Some i /\ peval q (X (ks i)) = Y (js i).

Record ainv (s : rstate) (slot : nat -> option nat) : Prop := mkA {
  a_SB : hok slot (s_mem s) (m_SB (s_mem s));
  a_pc : forall k, (k < n)%nat -> pc_any slot (s_mem s) k (s_pc s k);
  a_full : forall q, m_full (s_mem s) = Some q -> mixture slot q }.

Definition ext (slot slot' : nat -> option nat) : Prop := forall k t, slot k = Some t -> slot' k = Some t.

Lemma reads_ext slot slot' g l : ext slot slot' -> reads slot g l -> reads slot' g l.
Proof. intros E R i Hi. destruct (R i Hi) as (k & A & B & C). exists k. auto. Qed.

Lemma mixture_ext slot slot' q : ext slot slot' -> mixture slot q -> mixture slot' q.
Proof. intros E (L & ks & js & M). split; [exact L|]. exists ks, js. intros i Hi. destruct (M i Hi) as (A & B & C & D & G). auto 6. Qed.

Lemma reads_snoc slot g l x t : length l = t -> reads slot g l -> (exists k, (k < n)%nat /\ x = g k /\ slot k = Some t) -> reads slot g (l ++ [x]).
Proof.
  intros L R (k & A & B & C) i Hi. rewrite app_length in Hi. cbn [length] in Hi. destruct (Nat.eq_dec i t) as [->|NE].
  - exists k. rewrite app_nth2, L, Nat.sub_diag by lia. cbn [nth]. auto.
  - rewrite app_nth1 by lia. apply R. lia.
Qed.

Lemma choose (P : nat -> nat -> Prop) m : (forall i, (i < m)%nat -> exists k, P i k) -> exists g : nat -> nat, forall i, (i < m)%nat -> P i (g i).
Proof.
  induction m as [|m IH]; intros A; [exists (fun _ => 0%nat); intros i Hi; lia|]. destruct IH as (g & G); [intros i Hi; apply A; lia|].
  destruct (A m ltac:(lia)) as (k & K). exists (fun i => if (i =? m)%nat then k else g i). intros i Hi. destruct (Nat.eqb_spec i m) as [->|NE]; [exact K|apply G; lia].
Qed.

Lemma reads_nodup slot xs : reads slot X xs -> NoDup xs.
Proof.
  intros R. apply (NoDup_nth xs f0). intros i j Hi Hj E. destruct (R i Hi) as (a & A1 & A2 & A3). destruct (R j Hj) as (b & B1 & B2 & B3).
  assert (a = b) as -> by (apply Hd; congruence). congruence.
Qed.

Lemma hok_write slot m h h2 k : slot k = None -> hok slot m h -> (k < n)%nat -> hok slot m h2 ->
  let slot' := fun j => if (j =? k)%nat then Some (h_len h) else slot j in
  let '(m', h') := append_write grow m h (es k) in ext slot slot' /\ hok slot' m' h' /\ hok slot' m' h2.
Proof.
  intros N (A1 & A2) Hk (B1 & B2). cbv zeta.
  assert (EX : ext slot (fun j => if (j =? k)%nat then Some (h_len h) else slot j)).
  { intros j t S. destruct (Nat.eqb_spec j k) as [->|]; [congruence|exact S]. }
  unfold append_write. destruct (Nat.ltb_spec (h_len h) (h_cap h)); (split; [exact EX|split; (split; cbn [m_next h_arr h_len m_heap]; [lia|])]).
  - intros t T. rewrite Nat.eqb_refl. cbn [andb]. destruct (Nat.eqb_spec t (h_len h)) as [->|NE].
    + exists k. rewrite Nat.eqb_refl. auto.
    + destruct (A2 t ltac:(lia)) as (j & J1 & J2 & J3). exists j. auto.
  - intros t T. destruct ((h_arr h2 =? h_arr h)%nat && (t =? h_len h)%nat) eqn:E.
    + apply andb_true_iff in E. destruct E as (_ & E). apply Nat.eqb_eq in E. subst t. exists k. rewrite Nat.eqb_refl. auto.
    + destruct (B2 t T) as (j & J1 & J2 & J3). exists j. auto.
  - intros t T. rewrite Nat.eqb_refl. destruct (Nat.ltb_spec t (h_len h)).
    + destruct (A2 t ltac:(lia)) as (j & J1 & J2 & J3). exists j. auto.
    + assert (t = h_len h) as -> by lia. rewrite Nat.eqb_refl. exists k. rewrite Nat.eqb_refl. auto.
  - intros t T. destruct (Nat.eqb_spec (h_arr h2) (m_next m)); [lia|]. destruct (B2 t T) as (j & J1 & J2 & J3). exists j. auto.
Qed.

Lemma append_keeps m h e : let '(m', _) := append_write grow m h e in m_SB m' = m_SB m /\ m_full m' = m_full m.
Proof. unfold append_write. destruct (_ <? _)%nat; split; reflexivity. Qed.

Lemma a_step s slot k : ainv s slot -> (k < n)%nat -> step s k = Panic \/ exists s' slot', step s k = Ret s' /\ ainv s' slot' /\ ext slot slot'.
Proof.
  intros [A1 A2 A3] Hk. pose proof (A2 k Hk) as PK. unfold RaceModel.rstep.
  assert (RF : ext slot slot) by (intros j t S; exact S).
  assert (KEEP : forall m', m_heap m' = m_heap (s_mem s) -> m_next m' = m_next (s_mem s) -> forall c, pc_any slot m' k c ->
            forall j, (j < n)%nat -> pc_any slot m' j (if (j =? k)%nat then c else s_pc s j)).
  { intros m' E1 E2 c Hc j Hj. destruct (Nat.eqb_spec j k) as [->|]; [exact Hc|]. pose proof (A2 j Hj) as PJ.
    destruct (s_pc s j); cbn [pc_any] in *; auto; unfold hok in *; rewrite E1, E2; exact PJ. }
  assert (RD : forall t, (t < h_len (m_SB (s_mem s)))%nat -> exists j, (j < n)%nat /\ read (s_mem s) (m_SB (s_mem s)) t = es j /\ slot j = Some t).
  { intros t T. destruct A1 as (_ & A1). exact (A1 t T). }
  destruct (s_pc s k) as [|h|h| | |t xs ys|t xs ys|xs ys| |] eqn:EP; cbn [gstep]; cbn [pc_any] in PK.
  - right. eexists _, slot. split; [reflexivity|]. split; [|exact RF]. constructor; cbn [s_mem s_pc]; auto. apply KEEP; auto. cbn [pc_any]. auto.
  - right. destruct PK as (P1 & P2).
    pose proof (append_keeps (s_mem s) h (es k)) as AK. pose proof (fun h2 => hok_write slot (s_mem s) h h2 k P1 P2 Hk) as HW. cbv zeta in HW.
    destruct (append_write grow (s_mem s) h (es k)) as (m', h'). destruct AK as (K1 & K2). cbn [bind].
    destruct (HW _ A1) as (EX & H1 & H2). eexists _, _. split; [reflexivity|]. split; [|exact EX]. constructor; cbn [s_mem s_pc].
    + rewrite K1. exact H2.
    + intros j Hj. destruct (Nat.eqb_spec j k) as [->|NE]; [cbn [pc_any]; exact H1|]. pose proof (A2 j Hj) as PJ.
      destruct (s_pc s j); cbn [pc_any] in *; auto.
      * destruct (Nat.eqb_spec j k); [contradiction|exact PJ].
      * destruct (Nat.eqb_spec j k); [contradiction|]. split; [apply PJ|]. destruct PJ as (_ & PJ). apply (HW _ PJ).
      * apply (HW _ PJ).
      * destruct PJ as (J1 & J2 & J3 & J4 & J5). repeat split; auto; eapply reads_ext; eauto.
      * destruct PJ as (J1 & J2 & J3 & J4 & J5). repeat split; auto; eapply reads_ext; eauto.
      * destruct PJ as (J2 & J3 & J4 & J5). repeat split; auto; eapply reads_ext; eauto.
    + intros q E. rewrite K2 in E. eapply mixture_ext; eauto.
  - right. eexists _, slot. split; [reflexivity|]. split; [|exact RF]. constructor; cbn [s_mem s_pc m_SB m_full]; auto.
    try (apply KEEP; auto; exact Logic.I).
  - right. eexists _, slot. split; [reflexivity|]. split; [|exact RF]. constructor; cbn [s_mem s_pc]; auto. apply KEEP; auto. destruct (m_sent _); exact Logic.I.
  - right. eexists _, slot. split; [reflexivity|]. split; [|exact RF]. constructor; cbn [s_mem s_pc]; auto. apply KEEP; auto.
    destruct (_ <=? _)%nat; cbn [pc_any length]; [|exact Logic.I]. repeat split; try lia; intros i Hi; cbn [length] in Hi; lia.
  - destruct PK as (P1 & P2 & P3 & P4 & P5). destruct (Nat.ltb_spec t (h_len (m_SB (s_mem s)))) as [T|]; [right|left; reflexivity].
    cbn [bind]. eexists _, slot. split; [reflexivity|]. split; [|exact RF]. constructor; cbn [s_mem s_pc]; auto. apply KEEP; auto.
    cbn [pc_any]. rewrite app_length. cbn [length]. repeat split; auto; try lia.
    apply (reads_snoc slot X xs _ t P2 P4). destruct (RD t T) as (j & J1 & J2 & J3). exists j. rewrite J2. auto.
  - destruct PK as (P1 & P2 & P3 & P4 & P5). destruct (Nat.ltb_spec t (h_len (m_SB (s_mem s)))) as [T|]; [right|left; reflexivity].
    assert (RY : reads slot Y (ys ++ [snd (read (s_mem s) (m_SB (s_mem s)) t)])).
    { apply (reads_snoc slot Y ys _ t P3 P5). destruct (RD t T) as (j & J1 & J2 & J3). exists j. rewrite J2. auto. }
    cbn [bind]. eexists _, slot. split; [reflexivity|]. split; [|exact RF]. constructor; cbn [s_mem s_pc]; auto. apply KEEP; auto.
    destruct (Nat.ltb_spec t (2 * F)); cbn [pc_any]; rewrite app_length; cbn [length]; repeat split; auto; lia.
  - right. destruct PK as (P1 & P2 & P3 & P4).
    destruct (LagrangeInterpolate_correct (2 * F) xs ys) as (q & E & L & V & _); [|lia|lia|].
    { rewrite firstn_all2 by lia. apply (reads_nodup slot); exact P3. }
    rewrite E. cbn [bind]. eexists _, slot. split; [reflexivity|]. split; [|exact RF]. constructor; cbn [s_mem s_pc m_SB m_full]; auto.
    + try (apply KEEP; auto; exact Logic.I).
    + intros q' E'. assert (q' = q) as -> by congruence. split; [exact L|].
      destruct (choose (fun i k => (k < n)%nat /\ nth i xs f0 = X k /\ slot k = Some i) (2 * F + 1)) as (ks & KS); [intros i Hi; apply P3; lia|].
      destruct (choose (fun i k => (k < n)%nat /\ nth i ys f0 = Y k /\ slot k = Some i) (2 * F + 1)) as (js & JS); [intros i Hi; apply P4; lia|].
      exists ks, js. intros i Hi. destruct (KS i ltac:(lia)) as (K1 & K2 & K3). destruct (JS i ltac:(lia)) as (J1 & J2 & J3).
      repeat split; auto. rewrite <- K2, <- J2. apply V. exact Hi.
  - right. cbn [bind]. eexists _, slot. split; [reflexivity|]. split; [|exact RF]. constructor; cbn [s_mem s_pc m_SB m_full]; auto.
  - right. cbn [bind]. eexists _, slot. split; [reflexivity|]. split; [|exact RF]. constructor; cbn [s_mem s_pc]; auto.
Qed.

Lemma a_init : ainv rs_init (fun _ => None).
Proof. constructor; cbn; try discriminate; auto. split; cbn; [lia|]. intros t T. lia. Qed.

Lemma a_run sched : Forall (fun k => (k < n)%nat) sched -> forall s slot, ainv s slot ->
  run sched s = Panic \/ exists s' slot', run sched s = Ret s' /\ ainv s' slot'.
Proof.
  induction 1 as [|k l Hk FA IH]; intros s slot A; [right; exists s, slot; split; [reflexivity|exact A]|].
  rewrite run_cons. destruct (a_step s slot k A Hk) as [->|(s1 & slot1 & -> & A1 & _)]; [left; reflexivity|]. cbn [bind]. exact (IH s1 slot1 A1).
Qed.
End Proofs.
