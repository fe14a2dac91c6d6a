(** The dispatcher delivers each message to its instance, in order. *)

Require Import ZArith List Lia Bool Arith.
From Verif Require Import DispatchModel DispatchSpec.
Import ListNotations.

Lemma bytes_eqb_eq a b : bytes_eqb a b = true <-> a = b.
Proof. unfold bytes_eqb. destruct (list_eq_dec Z.eq_dec a b); split; congruence. Qed.

Lemma bytes_eqb_refl a : bytes_eqb a a = true.
Proof. apply bytes_eqb_eq. reflexivity. Qed.

Lemma bytes_eqb_neq a b : a <> b -> bytes_eqb a b = false.
Proof. intros H. unfold bytes_eqb. destruct (list_eq_dec Z.eq_dec a b); congruence. Qed.

Lemma lookup_update_same {V} k (v : V) m : lookup k (update k v m) = Some v.
Proof.
  induction m as [|[k' v'] m IH]; simpl.
  - rewrite bytes_eqb_refl. reflexivity.
  - destruct (bytes_eqb k k') eqn:E; simpl; rewrite E; [reflexivity|exact IH].
Qed.

Lemma lookup_update_other {V} k k2 (v : V) m : k2 <> k -> lookup k2 (update k v m) = lookup k2 m.
Proof.
  intros H. induction m as [|[k' v'] m IH]; simpl.
  - rewrite bytes_eqb_neq by exact H. reflexivity.
  - destruct (bytes_eqb k k') eqn:E; simpl.
    + apply bytes_eqb_eq in E. subst k'. rewrite bytes_eqb_neq by exact H. reflexivity.
    + destruct (bytes_eqb k2 k'); [reflexivity|exact IH].
Qed.

Definition find (ty id : list Z) (t : tmap) : option nat :=
  match lookup ty t with Some im => lookup id im | None => None end.

Lemma load_or_store_spec ty id t h t' h' c :
  load_or_store ty id t h = (t', h', c) ->
  find ty id t' = Some c /\
  (forall ty2 id2, (ty2, id2) <> (ty, id) -> find ty2 id2 t' = find ty2 id2 t) /\
  ((find ty id t = Some c /\ h' = h) \/ (find ty id t = None /\ h' = h ++ [[]] /\ c = length h)).
Proof.
  unfold load_or_store, find. intros H.
  destruct (lookup ty t) as [im|] eqn:E1.
  - destruct (lookup id im) as [c0|] eqn:E2.
    + injection H as <- <- <-. rewrite E1. auto.
    + injection H as <- <- <-. split; [|split].
      * rewrite lookup_update_same, lookup_update_same. reflexivity.
      * intros ty2 id2 Ne. destruct (list_eq_dec Z.eq_dec ty2 ty) as [->|Nt].
        -- rewrite lookup_update_same, E1. apply lookup_update_other. congruence.
        -- rewrite lookup_update_other by exact Nt. reflexivity.
      * right. auto.
  - simpl in H. injection H as <- <- <-. split; [|split].
    + rewrite lookup_update_same. simpl. rewrite bytes_eqb_refl. reflexivity.
    + intros ty2 id2 Ne. destruct (list_eq_dec Z.eq_dec ty2 ty) as [->|Nt].
      * rewrite lookup_update_same, E1. simpl. rewrite bytes_eqb_neq; [reflexivity|congruence].
      * rewrite !lookup_update_other by exact Nt. reflexivity.
    + right. auto.
Qed.

Lemma nth_upd_nth_same {A} (f : A -> A) d : forall l i, i < length l ->
  nth i (upd_nth i f l) d = f (nth i l d).
Proof. induction l as [|a l IH]; intros [|i] H; simpl in *; try lia; [reflexivity|apply IH; lia]. Qed.

Lemma nth_upd_nth_other {A} (f : A -> A) d : forall l i j, i <> j ->
  nth j (upd_nth i f l) d = nth j l d.
Proof. induction l as [|a l IH]; intros [|i] [|j] H; simpl; try lia; try reflexivity; apply IH; lia. Qed.

Lemma length_upd_nth {A} (f : A -> A) : forall l i, length (upd_nth i f l) = length l.
Proof. induction l as [|a l IH]; intros [|i]; simpl; try reflexivity; rewrite IH; reflexivity. Qed.

Lemma belongs_iff ty id m : belongs ty id m = true <-> ty = m_type m /\ id = m_id m.
Proof. unfold belongs. rewrite andb_true_iff, !bytes_eqb_eq. reflexivity. Qed.

Definition held_list (s : dstate) : list msg := match held s with Some (m, _) => [m] | None => [] end.

Record Inv (s : dstate) (arr : list msg) : Prop := {
  inv_bound : forall ty id c, find ty id (table s) = Some c -> c < length (heap s);
  inv_inj : forall ty id ty2 id2 c, find ty id (table s) = Some c ->
            find ty2 id2 (table s) = Some c -> ty = ty2 /\ id = id2;
  inv_handles : forall ty id c, In (ty, id, c) (handles s) -> find ty id (table s) = Some c;
  inv_held : forall m c, held s = Some (m, c) -> find (m_type m) (m_id m) (table s) = Some c;
  inv_got : forall c m, In (c, m) (got s) -> c < length (heap s);
  inv_some : forall ty id c, find ty id (table s) = Some c ->
     got_from c (got s) ++ nth c (heap s) [] ++ filter (belongs ty id) (held_list s ++ recvq s)
     = filter (belongs ty id) arr;
  inv_none : forall ty id, find ty id (table s) = None ->
     filter (belongs ty id) (held_list s ++ recvq s) = filter (belongs ty id) arr
}.

Lemma got_from_app c l1 l2 : got_from c (l1 ++ l2) = got_from c l1 ++ got_from c l2.
Proof. unfold got_from. rewrite filter_app, map_app. reflexivity. Qed.

Lemma got_from_none c l : (forall m, ~ In (c, m) l) -> got_from c l = [].
Proof.
  intros H. unfold got_from. induction l as [|[c' m] l IH]; [reflexivity|].
  simpl. destruct (Nat.eqb_spec c' c) as [->|N].
  - exfalso. apply (H m). left. reflexivity.
  - apply IH. intros m' I. apply (H m'). right. exact I.
Qed.

Lemma find_dec (ty id ty2 id2 : list Z) : {(ty, id) = (ty2, id2)} + {(ty, id) <> (ty2, id2)}.
Proof. repeat decide equality. Defined.

Lemma inv_load s arr ty id t' h' c :
  Inv s arr -> load_or_store ty id (table s) (heap s) = (t', h', c) ->
  Inv (mkD (recvq s) (held s) t' h' (handles s) (got s)) arr /\ find ty id t' = Some c.
Proof.
  intros I L. destruct (load_or_store_spec _ _ _ _ _ _ _ L) as (F & O & [(E & ->)|(E & -> & ->)]).
  - assert (FE : forall a b, find a b t' = find a b (table s)).
    { intros a b. destruct (find_dec a b ty id) as [Eq|Ne]; [|apply O; exact Ne].
      injection Eq as -> ->. rewrite E, F. reflexivity. }
    split; [|exact F]. destruct I. constructor; simpl; intros *; rewrite ?FE; eauto.
  - split; [|exact F]. destruct I as [Ib Ii Ih Id Ig Is In']. constructor; simpl.
    + intros a b x Hx. rewrite app_length. simpl. destruct (find_dec a b ty id) as [Eq|Ne].
      * injection Eq as -> ->. rewrite F in Hx. injection Hx as <-. lia.
      * rewrite O in Hx by exact Ne. apply Ib in Hx. lia.
    + intros a b a2 b2 x Hx Hx2.
      destruct (find_dec a b ty id) as [Eq|Ne]; destruct (find_dec a2 b2 ty id) as [Eq2|Ne2].
      * split; congruence.
      * exfalso. injection Eq as -> ->. rewrite F in Hx. injection Hx as <-.
        rewrite O in Hx2 by exact Ne2. apply Ib in Hx2. lia.
      * exfalso. injection Eq2 as -> ->. rewrite F in Hx2. injection Hx2 as <-.
        rewrite O in Hx by exact Ne. apply Ib in Hx. lia.
      * rewrite O in Hx, Hx2 by assumption. eapply Ii; eassumption.
    + intros a b x Hx. apply Ih in Hx. destruct (find_dec a b ty id) as [Eq|Ne].
      * injection Eq as -> ->. congruence.
      * rewrite O by exact Ne. exact Hx.
    + intros m x Hx. apply Id in Hx. destruct (find_dec (m_type m) (m_id m) ty id) as [Eq|Ne].
      * injection Eq as E1 E2. rewrite E1, E2 in *. congruence.
      * rewrite O by exact Ne. exact Hx.
    + intros x m Hx. apply Ig in Hx. rewrite app_length. simpl. lia.
    + intros a b x Hx. destruct (find_dec a b ty id) as [Eq|Ne].
      * injection Eq as -> ->. rewrite F in Hx. injection Hx as <-.
        rewrite got_from_none by (intros m Hm; apply Ig in Hm; lia).
        rewrite app_nth2, Nat.sub_diag by lia. simpl. apply In'. exact E.
      * rewrite O in Hx by exact Ne. rewrite app_nth1 by (eapply Ib; eassumption).
        apply Is. exact Hx.
    + intros a b Hx. destruct (find_dec a b ty id) as [Eq|Ne].
      * injection Eq as -> ->. rewrite F in Hx. discriminate.
      * rewrite O in Hx by exact Ne. apply In'. exact Hx.
Qed.

Lemma filter_belongs_other ty id m : (ty, id) <> (m_type m, m_id m) -> belongs ty id m = false.
Proof.
  intros H. destruct (belongs ty id m) eqn:E; [|reflexivity].
  apply belongs_iff in E. destruct E; congruence.
Qed.

Lemma inv_step N s arr e : Inv s arr ->
  Inv (d_step N s e) (arr ++ match e with EArr m => [m] | _ => [] end).
Proof.
  intros I. destruct e as [m| | |ty id|c]; simpl; rewrite ?app_nil_r.
  - destruct I as [Ib Ii Ih Id Ig Is In']. constructor; simpl; auto.
    + intros ty id c Hx. unfold held_list in *. simpl. rewrite (app_assoc _ (recvq s)), !filter_app.
      rewrite <- (Is ty id c Hx). rewrite !filter_app, <- !app_assoc. reflexivity.
    + intros ty id Hx. unfold held_list in *. simpl. rewrite (app_assoc _ (recvq s)), !filter_app.
      rewrite <- (In' ty id Hx). rewrite !filter_app, <- !app_assoc. reflexivity.
  - destruct (held s) as [[m0 c0]|] eqn:Hh; [exact I|].
    destruct (recvq s) as [|m q] eqn:Hq; [exact I|].
    destruct (load_or_store (m_type m) (m_id m) (table s) (heap s)) as [[t h] c] eqn:L.
    destruct (inv_load _ _ _ _ _ _ _ I L) as [[Ib Ii Ih Id Ig Is In'] F].
    cbn [table heap held recvq handles got] in *. constructor; simpl; auto.
    + intros m1 c1 E. injection E as <- <-. exact F.
    + intros ty id x Hx. unfold held_list in *. cbn [held recvq] in *. rewrite Hh, Hq in *.
      apply (Is ty id x Hx).
    + intros ty id Hx. unfold held_list in *. cbn [held recvq] in *. rewrite Hh, Hq in *.
      apply (In' ty id Hx).
  - destruct (held s) as [[m c]|] eqn:Hh; [|exact I].
    destruct (_ <? _)%Z; [|exact I].
    destruct I as [Ib Ii Ih Id Ig Is In'].
    pose proof (Id m c Hh) as Fc. pose proof (Ib _ _ _ Fc) as Lc.
    constructor; simpl.
    + intros ty id x Hx. rewrite length_upd_nth. eauto.
    + exact Ii.
    + exact Ih.
    + discriminate.
    + intros x mm Hx. rewrite length_upd_nth. eauto.
    + intros ty id x Hx. specialize (Is ty id x Hx). unfold held_list in *. simpl. rewrite Hh in Is.
      destruct (Nat.eq_dec x c) as [->|Ne].
      * rewrite nth_upd_nth_same by exact Lc.
        destruct (Ii _ _ _ _ _ Hx Fc) as [-> ->].
        simpl in Is. assert (B : belongs (m_type m) (m_id m) m = true) by (apply belongs_iff; auto).
        rewrite B in Is. rewrite <- Is, <- !app_assoc. reflexivity.
      * rewrite nth_upd_nth_other by congruence.
        simpl in Is. rewrite filter_belongs_other in Is; [exact Is|].
        intros Eq. injection Eq as -> ->. congruence.
    + intros ty id Hx. specialize (In' ty id Hx). unfold held_list in *. simpl. rewrite Hh in In'.
      simpl in In'. rewrite filter_belongs_other in In'; [exact In'|].
      intros Eq. injection Eq as -> ->. congruence.
  - destruct (load_or_store ty id (table s) (heap s)) as [[t h] c] eqn:L.
    destruct (inv_load _ _ _ _ _ _ _ I L) as [[Ib Ii Ih Id Ig Is In'] F].
    cbn [table heap held recvq handles got] in *. constructor; simpl; auto.
    intros a b x Hx. apply in_app_iff in Hx. destruct Hx as [Hx|[Hx|[]]]; [auto|].
    injection Hx as <- <- <-. exact F.
  - destruct (nth c (heap s) []) as [|m q] eqn:E; [exact I|].
    destruct I as [Ib Ii Ih Id Ig Is In'].
    assert (Lc : c < length (heap s)).
    { destruct (le_lt_dec (length (heap s)) c) as [H|H]; [|exact H].
      rewrite nth_overflow in E by exact H. discriminate. }
    constructor; simpl; auto.
    + intros ty id x Hx. rewrite length_upd_nth. eauto.
    + intros x mm Hx. rewrite length_upd_nth. apply in_app_iff in Hx.
      destruct Hx as [Hx|[Hx|[]]]; [eauto|]. injection Hx as <- <-. exact Lc.
    + intros ty id x Hx. specialize (Is ty id x Hx). rewrite got_from_app.
      unfold got_from at 2. simpl.
      destruct (Nat.eqb_spec c x) as [->|Ne].
      * rewrite nth_upd_nth_same by exact Lc. rewrite E in *. simpl. rewrite <- Is, <- app_assoc.
        reflexivity.
      * rewrite nth_upd_nth_other by exact Ne. simpl. rewrite app_nil_r. exact Is.
Qed.

Lemma inv_run N es : Inv (d_run N es) (arrivals es).
Proof.
  unfold d_run. induction es as [|e es IH] using rev_ind.
  - constructor; simpl; try discriminate; try contradiction; auto.
  - rewrite fold_left_app. simpl.
    replace (arrivals (es ++ [e])) with (arrivals es ++ match e with EArr m => [m] | _ => [] end).
    + apply inv_step. exact IH.
    + unfold arrivals. rewrite map_app, concat_app. simpl. rewrite app_nil_r. reflexivity.
Qed.

(** A channel given out for (ty, id) yields exactly the arrivals of (ty, id), in order; the rest is
    in the buffer, in the dispatcher's hand or still waiting. *)
Lemma dispatch_exact N es ty id c : In (ty, id, c) (handles (d_run N es)) ->
  exists rest, got_from c (got (d_run N es)) ++ rest = filter (belongs ty id) (arrivals es) /\
    (recvq (d_run N es) = [] -> held (d_run N es) = None -> nth c (heap (d_run N es)) [] = [] -> rest = []).
Proof.
  intros H. pose proof (inv_run N es) as I. pose proof (inv_handles _ _ I _ _ _ H) as F.
  pose proof (inv_some _ _ I _ _ _ F) as E.
  eexists. split; [exact E|]. intros H1 H2 H3. unfold held_list. rewrite H1, H2, H3. reflexivity.
Qed.

(** Readers of the same instance share one channel, readers of different instances do not. *)
Lemma dispatch_handles N es ty id c ty2 id2 c2 :
  In (ty, id, c) (handles (d_run N es)) -> In (ty2, id2, c2) (handles (d_run N es)) ->
  (c = c2 <-> ty = ty2 /\ id = id2).
Proof.
  intros H H2. pose proof (inv_run N es) as I.
  pose proof (inv_handles _ _ I _ _ _ H) as F. pose proof (inv_handles _ _ I _ _ _ H2) as F2.
  split.
  - intros <-. eapply inv_inj; eassumption.
  - intros [<- <-]. congruence.
Qed.

(** ** Progress *)

Definition pump (N : Z) (s : dstate) : dstate := d_step N (d_step N s ETake) EPut.

Fixpoint pumps (N : Z) (n : nat) (s : dstate) : dstate :=
  match n with O => s | S k => pumps N k (pump N s) end.

(** If no instance gets more messages than a channel holds, the dispatcher empties the
    receive channel, whatever the readers do or do not do. *)
Lemma dispatch_progress N es :
  (forall ty id, (Z.of_nat (length (filter (belongs ty id) (arrivals es))) <= capacity N)%Z) ->
  held (d_run N es) = None ->
  let s' := pumps N (length (recvq (d_run N es))) (d_run N es) in
  recvq s' = [] /\ held s' = None.
Proof.
  intros H Hh. pose proof (inv_run N es) as I. set (arr := arrivals es) in *.
  remember (d_run N es) as s eqn:Es. clear Es.
  remember (length (recvq s)) as n eqn:En. revert s I Hh En.
  induction n as [|n IH]; intros s I Hh En.
  - simpl. split; [|exact Hh]. destruct (recvq s); [reflexivity|discriminate].
  - cbn [pumps]. destruct (recvq s) as [|m q] eqn:Hq; [discriminate|].
    pose proof (inv_step N s arr ETake I) as I1. rewrite app_nil_r in I1.
    pose proof (inv_step N _ arr EPut I1) as I2. rewrite app_nil_r in I2.
    apply (IH (pump N s) I2).
    + unfold pump. simpl in *. rewrite Hh, Hq in *.
      destruct (load_or_store (m_type m) (m_id m) (table s) (heap s)) as [[t h] c] eqn:L.
      cbn [held heap].
      destruct (Z.ltb_spec (Z.of_nat (length (nth c h []))) (capacity N)) as [Lt|Ge]; [reflexivity|].
      exfalso.
      assert (F : find (m_type m) (m_id m) t = Some c) by (apply (load_or_store_spec _ _ _ _ _ _ _ L)).
      pose proof (inv_some _ _ I1 _ _ _ F) as E. unfold held_list in E. cbn [heap held recvq got] in E.
      apply (f_equal (@length msg)) in E. simpl in E.
      replace (belongs (m_type m) (m_id m) m) with true in E by (symmetry; apply belongs_iff; auto).
      rewrite !app_length in E. simpl in E.
      specialize (H (m_type m) (m_id m)). lia.
    + unfold pump. simpl in *. rewrite Hh, Hq in *.
      destruct (load_or_store (m_type m) (m_id m) (table s) (heap s)) as [[t h] c].
      cbn [held heap recvq]. simpl in En. injection En as ->.
      destruct (_ <? _)%Z; reflexivity.
Qed.

Lemma pumps_run N n es : pumps N n (d_run N es) = d_run N (es ++ concat (repeat [ETake; EPut] n)).
Proof.
  revert es. induction n as [|n IH]; intros es; [cbn; rewrite app_nil_r; reflexivity|]. cbn [pumps repeat concat].
  replace (pump N (d_run N es)) with (d_run N (es ++ [ETake; EPut])) by (unfold pump, d_run; rewrite fold_left_app; reflexivity).
  rewrite IH, <- app_assoc. reflexivity.
Qed.

Lemma arrivals_app a b : arrivals (a ++ b) = arrivals a ++ arrivals b.
Proof. unfold arrivals. rewrite map_app, concat_app. reflexivity. Qed.

Lemma dispatch_put N es :
  (forall ty id, (Z.of_nat (length (filter (belongs ty id) (arrivals es))) <= capacity N)%Z) ->
  held (d_step N (d_run N es) EPut) = None.
Proof.
  intros H. pose proof (inv_run N es) as I. set (s := d_run N es) in *. cbn [d_step]. destruct (held s) as [(m & c)|] eqn:Hh; [|exact Hh].
  pose proof (inv_held _ _ I _ _ Hh) as F. pose proof (inv_some _ _ I _ _ _ F) as E. apply (f_equal (@length msg)) in E.
  unfold held_list in E. rewrite Hh in E. cbn [app filter] in E. replace (belongs (m_type m) (m_id m) m) with true in E by (symmetry; apply belongs_iff; auto).
  rewrite !app_length in E. cbn [length] in E. specialize (H (m_type m) (m_id m)).
  destruct (Z.ltb_spec (Z.of_nat (length (nth c (heap s) []))) (capacity N)) as [Lt|Ge]; [reflexivity|lia].
Qed.

Lemma dispatch_queued N es : recvq (d_run N es) = [] -> held (d_run N es) = None -> forall ty id,
  exists c, In (ty, id, c) (handles (d_step N (d_run N es) (EGet ty id))) /\
    got_from c (got (d_run N es)) ++ nth c (heap (d_step N (d_run N es) (EGet ty id))) [] = filter (belongs ty id) (arrivals es).
Proof.
  intros R Hd ty id. pose proof (inv_run N es) as I. set (s := d_run N es) in *. cbn [d_step].
  destruct (load_or_store ty id (table s) (heap s)) as [[t h] c] eqn:L. destruct (inv_load _ _ _ _ _ _ _ I L) as (I' & F).
  exists c. cbn [handles heap]. split; [apply in_app_iff; right; left; reflexivity|].
  pose proof (inv_some _ _ I' _ _ _ F) as E. unfold held_list in E. cbn [got heap held recvq] in E. rewrite R, Hd in E. cbn [app filter] in E. rewrite app_nil_r in E. exact E.
Qed.

(** A full channel stops everything: once the dispatcher waits for a full channel that nobody
    reads, nothing that waits behind it is ever delivered. *)
Definition stuck (N : Z) (c : nat) (m : msg) (s : dstate) : Prop :=
  held s = Some (m, c) /\ c < length (heap s) /\
  (capacity N <= Z.of_nat (length (nth c (heap s) [])))%Z.

Lemma load_heap ty id t h t' h' c' c : load_or_store ty id t h = (t', h', c') -> c < length h ->
  nth c h' [] = nth c h [] /\ c < length h'.
Proof.
  intros L Hc. destruct (load_or_store_spec _ _ _ _ _ _ _ L) as (_ & _ & [(_ & ->)|(_ & -> & _)]).
  - auto.
  - rewrite app_length. split; [rewrite app_nth1 by exact Hc; reflexivity|simpl; lia].
Qed.

Lemma stuck_step N c m s e : stuck N c m s -> e <> ERecv c ->
  stuck N c m (d_step N s e) /\
  exists added, recvq (d_step N s e) = recvq s ++ added /\
   (forall c', nth c' (heap (d_step N s e)) [] = nth c' (heap s) [] \/
               nth c' (heap (d_step N s e)) [] = tl (nth c' (heap s) [])).
Proof.
  intros (Hh & Hc & Hf) Ne. destruct e as [m1| | |ty id|c1]; simpl.
  - split; [split; [|split]; assumption|]. exists [m1]. auto.
  - rewrite Hh. split; [split; [|split]; assumption|]. exists []. rewrite app_nil_r. auto.
  - rewrite Hh. destruct (Z.ltb_spec (Z.of_nat (length (nth c (heap s) []))) (capacity N)); [lia|].
    split; [split; [|split]; assumption|]. exists []. rewrite app_nil_r. auto.
  - destruct (load_or_store ty id (table s) (heap s)) as [[t h] c'] eqn:L.
    destruct (load_heap _ _ _ _ _ _ _ c L Hc) as [E1 E2].
    split.
    + split; [exact Hh|]. simpl. split; [exact E2|]. rewrite E1. exact Hf.
    + exists []. rewrite app_nil_r. split; [reflexivity|]. intros x. simpl. left.
      destruct (load_or_store_spec _ _ _ _ _ _ _ L) as (_ & _ & [(_ & ->)|(_ & -> & _)]); [reflexivity|].
      destruct (lt_dec x (length (heap s))) as [Hx|Hx].
      * rewrite app_nth1 by exact Hx. reflexivity.
      * rewrite (nth_overflow (heap s)) by lia.
        destruct (Nat.eq_dec x (length (heap s))) as [->|Nx].
        -- rewrite app_nth2, Nat.sub_diag by lia. reflexivity.
        -- rewrite nth_overflow; [reflexivity|]. rewrite app_length. simpl. lia.
  - destruct (nth c1 (heap s) []) as [|m1 q1] eqn:E.
    + split; [split; [|split]; assumption|]. exists []. rewrite app_nil_r. auto.
    + assert (N1 : c1 <> c) by congruence.
      split.
      * split; [exact Hh|]. simpl. rewrite length_upd_nth. split; [exact Hc|].
        rewrite nth_upd_nth_other by exact N1. exact Hf.
      * exists []. rewrite app_nil_r. split; [reflexivity|]. intros x. simpl.
        destruct (Nat.eq_dec c1 x) as [->|Nx].
        -- right. rewrite nth_upd_nth_same; [rewrite E; reflexivity|].
           destruct (le_lt_dec (length (heap s)) x) as [H|H]; [|exact H].
           rewrite nth_overflow in E by exact H. discriminate.
        -- left. apply nth_upd_nth_other. exact Nx.
Qed.

(** While stuck, what a channel has buffered plus what was read from it does not grow. *)
Lemma stuck_forever N c m : forall es s, stuck N c m s -> ~ In (ERecv c) es ->
  let s' := fold_left (d_step N) es s in
  stuck N c m s' /\ exists added, recvq s' = recvq s ++ added.
Proof.
  induction es as [|e es IH]; intros s St NI; simpl.
  - split; [exact St|]. exists []. rewrite app_nil_r. reflexivity.
  - destruct (stuck_step N c m s e St) as (St1 & a1 & R1 & _).
    { intros E. apply NI. left. exact E. }
    destruct (IH _ St1 ltac:(intros X; apply NI; right; exact X)) as (St2 & a2 & R2).
    split; [exact St2|]. exists (a1 ++ a2). rewrite R2, R1, app_assoc. reflexivity.
Qed.

(** So a message that waits in the receive channel is never read by anyone. *)
Lemma stuck_never N c m pre es : stuck N c m (d_run N pre) -> ~ In (ERecv c) es ->
  forall ty id c2, In (ty, id, c2) (handles (d_run N (pre ++ es))) ->
  filter (belongs ty id) (recvq (d_run N pre)) <> [] ->
  length (got_from c2 (got (d_run N (pre ++ es)))) <
  length (filter (belongs ty id) (arrivals (pre ++ es))).
Proof.
  intros St NI ty id c2 H Hne.
  pose proof (inv_run N (pre ++ es)) as I.
  pose proof (inv_some _ _ I _ _ _ (inv_handles _ _ I _ _ _ H)) as E.
  unfold d_run in *. rewrite fold_left_app in *.
  destruct (stuck_forever N c m es _ St NI) as (_ & added & R).
  rewrite R in E. rewrite <- E. rewrite !app_length, !filter_app, !app_length.
  destruct (filter (belongs ty id) (recvq (fold_left (d_step N) pre d_init))); [congruence|].
  simpl. lia.
Qed.
