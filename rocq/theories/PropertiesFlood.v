(** Headline theorem: what an instance that nobody reads does to the others (C06), for every execution. *)

Require Import ZArith List Bool Arith Lia.
From Verif Require Import Bytes DispatchModel DispatchSpec DispatchProofs.
Import ListNotations.

(** The dispatcher handles the arrivals in order, and no channel has more than its capacity. *)
Lemma in_order N es : exists finished, arrivals es = finished ++ held_list (d_run N es) ++ recvq (d_run N es).
Proof.
  unfold d_run. induction es as [|e es (f & IH)] using rev_ind; [exists []; reflexivity|].
  rewrite fold_left_app. cbn [fold_left]. set (s := fold_left (d_step N) es d_init) in *.
  replace (arrivals (es ++ [e])) with (arrivals es ++ match e with EArr m => [m] | _ => [] end)
    by (unfold arrivals; rewrite map_app, concat_app; cbn; rewrite app_nil_r; reflexivity).
  rewrite IH. clearbody s. destruct e; cbn [d_step].
  - exists f. cbn [held_list held recvq]. unfold held_list. cbn. rewrite <- !app_assoc. reflexivity.
  - rewrite app_nil_r. unfold held_list. destruct (held s) as [(m & c)|] eqn:Eh; [exists f; rewrite Eh; reflexivity|].
    destruct (recvq s) as [|m q] eqn:Eq; [exists f; rewrite Eh, Eq; reflexivity|].
    destruct (load_or_store (m_type m) (m_id m) (table s) (heap s)) as ((t & h) & c). exists f. cbn. reflexivity.
  - rewrite app_nil_r. unfold held_list. destruct (held s) as [(m & c)|] eqn:Eh; [|exists f; rewrite Eh; reflexivity].
    destruct (_ <? _)%Z; [|exists f; rewrite Eh; reflexivity]. exists (f ++ [m]). cbn. rewrite <- app_assoc. reflexivity.
  - rewrite app_nil_r. destruct (load_or_store ty id (table s) (heap s)) as ((t & h) & c). exists f. reflexivity.
  - rewrite app_nil_r. exists f. destruct (nth c (heap s) []); reflexivity.
Qed.

Lemma capacity_nonneg N : (0 <= capacity N)%Z.
Proof. unfold capacity. apply Z.mod_pos_bound. lia. Qed.

Lemma bounded N es c : (Z.of_nat (length (nth c (heap (d_run N es)) [])) <= capacity N)%Z.
Proof.
  pose proof (capacity_nonneg N) as P. unfold d_run. induction es as [|e es IH] using rev_ind; [destruct c; cbn; lia|].
  rewrite fold_left_app. cbn [fold_left]. set (s := fold_left (d_step N) es d_init) in *. clearbody s.
  assert (load : forall ty id t h c', load_or_store ty id (table s) (heap s) = (t, h, c') -> (Z.of_nat (length (nth c h [])) <= capacity N)%Z).
  { intros ty id t h c' E. destruct (load_or_store_spec _ _ _ _ _ _ _ E) as (_ & _ & [(_ & ->)|(_ & -> & _)]); [exact IH|].
    destruct (Nat.lt_ge_cases c (length (heap s))) as [L|L]; [rewrite app_nth1 by exact L; exact IH|].
    rewrite app_nth2 by exact L. destruct (c - length (heap s))%nat as [|[|?]]; cbn; lia. }
  destruct e; cbn [d_step].
  - exact IH.
  - destruct (held s); [exact IH|]. destruct (recvq s) as [|m q]; [exact IH|].
    destruct (load_or_store (m_type m) (m_id m) (table s) (heap s)) as ((t & h) & c') eqn:E. cbn [heap]. eapply load; exact E.
  - destruct (held s) as [(m & c')|]; [|exact IH]. destruct (_ <? _)%Z eqn:E; [|exact IH]. cbn [heap].
    destruct (Nat.eq_dec c' c) as [->|Ne]; [|rewrite nth_upd_nth_other by exact Ne; exact IH].
    destruct (Nat.lt_ge_cases c (length (heap s))) as [L|L].
    + rewrite nth_upd_nth_same by exact L. rewrite app_length. cbn [length]. apply Z.ltb_lt in E. lia.
    + rewrite nth_overflow by (rewrite length_upd_nth; exact L). cbn. lia.
  - destruct (load_or_store ty id (table s) (heap s)) as ((t & h) & c') eqn:E. cbn [heap]. eapply load; exact E.
  - destruct (nth c0 (heap s) []) as [|m q] eqn:E; [exact IH|]. cbn [heap].
    destruct (Nat.eq_dec c0 c) as [->|Ne]; [|rewrite nth_upd_nth_other by exact Ne; exact IH].
    destruct (Nat.lt_ge_cases c (length (heap s))) as [L|L].
    + rewrite nth_upd_nth_same by exact L. rewrite E in IH |- *. cbn [tl length] in *. lia.
    + rewrite nth_overflow by (rewrite length_upd_nth; exact L). cbn. lia.
Qed.

Lemma prefix_or {A} : forall (a b c d : list A), a ++ b = c ++ d -> (exists e, c = a ++ e) \/ (exists e, a = c ++ e).
Proof.
  induction a as [|x a IH]; intros b c d E; [left; exists c; reflexivity|].
  destruct c as [|y c]; [right; exists (x :: a); reflexivity|]. cbn in E. injection E as -> E.
  destruct (IH _ _ _ E) as [(e & ->)|(e & ->)]; [left|right]; exists e; reflexivity.
Qed.

(** If more messages than the capacity have arrived for an instance of which nothing was read, then nothing that arrived
    after them has been delivered to anybody, and nothing will be in any continuation in which that stays so: every
    reader has only messages from before the flood was complete. *)
Theorem c06_head_of_line : forall N es ty id before after,
  arrivals es = before ++ after ->
  (capacity N < Z.of_nat (length (filter (belongs ty id) before)))%Z ->
  (forall c m, In (c, m) (got (d_run N es)) -> belongs ty id m = false) ->
  forall ty2 id2 c2, In (ty2, id2, c2) (handles (d_run N es)) ->
  exists rest, filter (belongs ty2 id2) before = got_from c2 (got (d_run N es)) ++ rest.
Proof.
  intros N es ty id before after EA HC HU ty2 id2 c2 Hh.
  pose proof (inv_run N es) as I. destruct (in_order N es) as (fin & EF).
  assert (K : forall ty id c, find ty id (table (d_run N es)) = Some c ->
    got_from c (got (d_run N es)) ++ nth c (heap (d_run N es)) [] = filter (belongs ty id) fin).
  { intros ty' id' c' Hf. pose proof (inv_some _ _ I ty' id' c' Hf) as E.
    rewrite EF, (filter_app _ fin), app_assoc in E. apply app_inv_tail in E. exact E. }
  assert (L : (Z.of_nat (length (filter (belongs ty id) fin)) <= capacity N)%Z).
  { destruct (find ty id (table (d_run N es))) as [c|] eqn:Ef.
    - rewrite <- (K ty id c Ef). rewrite app_length.
      assert (got_from c (got (d_run N es)) = []) as ->; [|cbn [length]; apply bounded].
      destruct (got_from c (got (d_run N es))) as [|m l] eqn:Eg; [reflexivity|]. exfalso.
      assert (Hin : In (c, m) (got (d_run N es))).
      { assert (X : In m (got_from c (got (d_run N es)))) by (rewrite Eg; left; reflexivity). unfold got_from in X.
        apply in_map_iff in X. destruct X as ((c' & m') & E1 & E2). apply filter_In in E2. destruct E2 as (E2 & E3). cbn in *.
        apply Nat.eqb_eq in E3. subst. exact E2. }
      assert (Hb : belongs ty id m = true).
      { pose proof (K ty id c Ef) as E. rewrite Eg in E. assert (X : In m (filter (belongs ty id) fin)) by (rewrite <- E; left; reflexivity).
        apply filter_In in X. tauto. }
      rewrite (HU c m Hin) in Hb. discriminate.
    - pose proof (inv_none _ _ I ty id Ef) as E. rewrite EF, (filter_app _ fin) in E.
      apply (f_equal (@length msg)) in E. rewrite app_length in E. pose proof (capacity_nonneg N). lia. }
  rewrite EA in EF. symmetry in EF. destruct (prefix_or _ _ _ _ EF) as [(e & ->)|(e & ->)].
  - pose proof (K ty2 id2 c2 (inv_handles _ _ I _ _ _ Hh)) as E. rewrite filter_app, <- E, <- app_assoc. eexists. reflexivity.
  - exfalso. rewrite filter_app, app_length in L. lia.
Qed.
Print Assumptions c06_head_of_line.

(** A committee of one member: a channel holds one message. *)
Example c06_demo_flood :
  let a := mkMsg [1%Z] [9%Z] 0%Z [] in let b := mkMsg [1%Z] [8%Z] 0%Z [5%Z] in
  let s := d_run 1 [EGet [1%Z] [8%Z]; EArr a; EArr a; EArr b; ETake; EPut; ETake; EPut; ETake; EPut; ERecv 0] in
  got s = [] /\ handles s = [([1%Z], [8%Z], 0)] /\ recvq s = [b].
Proof. vm_compute. auto. Qed.
