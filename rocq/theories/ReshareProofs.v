(** Proofs about ReshareModel.v. *)

Require Import ZArith List Bool Arith Lia Permutation.
From Verif Require Import Fr Poly Biv CodecModel GoBase PolyModel GroupModel KzgModel PartyModel VssModel ProacModel ProacProofs ProacRun ProacRecover ProacLinks ReshareModel.
Import ListNotations.

Lemma bind_ret {A B} (x : go A) (f : A -> go B) b : bind x f = Ret b -> exists a, x = Ret a /\ f a = Ret b.
Proof. destruct x as [a| | |]; try discriminate. intros E. exists a. auto. Qed.

(** A vote: the sender and content of the dealer's message, and the Recover messages it is answered with. *)
Definition vote : Type := (Z * ReshareMsg * list RecoverMsg)%type.

Section Proofs.
Variables (cd : g1codec) (sign : nat -> list Z) (sigok : nat -> list Z -> bool) (combine : nat -> list (list Z) -> list Z).
Variable p : Party.
Local Notation vstep := (vstep cd sign sigok combine p).
Local Notation pstep := (pstep cd sign sigok combine p).
Local Notation prun := (prun cd sign sigok combine p).
Local Notation do_vote := (do_vote cd sign p).

(** Runs of the stage, with the votes in the order in which they are given. *)
Inductive vruns (v0 : vst) : list vev -> vst -> list vote -> Prop :=
| vr_nil : vruns v0 [] v0 []
| vr_step evs v log e v' o : vruns v0 evs v log -> vstep v e = Ret (Some (v', o)) ->
    vruns v0 (evs ++ [e]) v' (log ++ match o with Some x => [x] | None => [] end).

(** Runs of the machine of ProacModel.v with the answers to Reshare messages. *)
Inductive prun_log (st0 : pst) : list pev -> pst -> list vote -> Prop :=
| pl_nil : prun_log st0 [] st0 []
| pl_step evs st log e st' ms : prun_log st0 evs st log -> pstep st e = Ret (st', ms) ->
    prun_log st0 (evs ++ [e]) st' (log ++ match e with EvReshare s m => [(s, m, ms)] | _ => [] end).

Definition is_reshare (e : pev) : bool := match e with EvReshare _ _ => true | _ => false end.

(** The messages taken, and the events of the other goroutines. *)
Definition takes (evs : list vev) : list (Z * ReshareMsg) := flat_map (fun e => match e with VTake s m => [(s, m)] | _ => [] end) evs.
Definition others (evs : list vev) : list pev := flat_map (fun e => match e with VOther e => [e] | _ => [] end) evs.

Lemma prun_log_run st0 evs st log : prun_log st0 evs st log -> prun st0 evs = Ret st.
Proof.
  induction 1 as [|evs st log e st' ms R IH E]; [reflexivity|]. rewrite (prun_app cd p sign sigok combine), IH. cbn [bind ProacModel.prun]. rewrite E. reflexivity.
Qed.

Lemma nth_true_lt l j : nth j l false = true -> (j < length l)%nat.
Proof. intros E. destruct (Nat.lt_ge_cases j (length l)) as [L|G]; [exact L|]. rewrite nth_overflow in E by exact G. discriminate. Qed.

Lemma vote_reshare st s m : nth (index_of s) (s_flgCom st) false = true -> do_reshare cd sign p st s m = do_vote st s m.
Proof.
  intros E. unfold do_reshare, ReshareModel.do_vote, index_of in *. rewrite (idx_nth false) by (apply nth_true_lt; exact E). cbn [bind]. rewrite E. reflexivity.
Qed.

Lemma pstep_mono st e st' ms j : pstep st e = Ret (st', ms) -> nth j (s_flgCom st) false = true -> nth j (s_flgCom st') false = true.
Proof. intros E H. apply (flgCom_mono cd p sign sigok combine [e] st st'); [|exact H]. cbn [ProacModel.prun]. rewrite E. reflexivity. Qed.

(** The value in a channel and line 208 come after flgCom. *)
Definition tinv (v : vst) : Prop := length (v_tok v) = length (v_told v) /\ forall j,
  (nth j (v_tok v) false = true -> nth j (v_told v) false = true) /\ (nth j (v_told v) false = true -> nth j (s_flgCom (v_st v)) false = true).

Lemma told_false v j : nth j (s_flgCom (v_st v)) false = true -> negb (nth j (v_told v) true) = true -> (j < length (v_told v))%nat /\ nth j (v_told v) false = false.
Proof.
  intros _ E. apply negb_true_iff in E. destruct (Nat.lt_ge_cases j (length (v_told v))) as [L|G]; [|rewrite nth_overflow in E by exact G; discriminate].
  split; [exact L|]. rewrite (nth_indep _ false true) by exact L. exact E.
Qed.

Lemma vstep_other v e v' o : vstep v (VOther e) = Ret (Some (v', o)) -> is_reshare e = false /\ o = None /\
  exists ms, pstep (v_st v) e = Ret (v_st v', ms) /\ v' = mkV (v_st v') (v_told v) (v_tok v) (v_free v) (v_wait v).
Proof.
  intros E. cbn [ReshareModel.vstep] in E. destruct e; try discriminate;
    (apply bind_ret in E; destruct E as ((st', ms) & E1 & E2); injection E2 as <- <-; split; [reflexivity|]; split; [reflexivity|]; exists ms; split; [exact E1|reflexivity]).
Qed.

Lemma vstep_take v s m v' o : vstep v (VTake s m) = Ret (Some (v', o)) -> exists n, v_free v = S n /\
  ((nth (index_of s) (s_flgCom (v_st v)) false = true /\ exists ms, do_vote (v_st v) s m = Ret ms /\ o = Some (s, m, ms) /\ v' = mkV (v_st v) (v_told v) (v_tok v) n (v_wait v)) \/
   (nth (index_of s) (s_flgCom (v_st v)) false = false /\ o = None /\ v' = mkV (v_st v) (v_told v) (v_tok v) n (v_wait v ++ [(s, m)]))).
Proof.
  intros E. cbn [ReshareModel.vstep] in E. destruct (v_free v) as [|n]; [discriminate|]. exists n. split; [reflexivity|].
  apply bind_ret in E. destruct E as (b & E1 & E). unfold idx in E1. destruct (nth_error _ _) as [b'|] eqn:NE; [|discriminate]. injection E1 as ->.
  rewrite (nth_error_nth _ _ false NE). destruct b.
  - left. split; [reflexivity|]. apply bind_ret in E. destruct E as (ms & EV & E). injection E as <- <-. eauto.
  - right. injection E as <- <-. auto.
Qed.

Lemma vstep_tell v j v' o : vstep v (VTell j) = Ret (Some (v', o)) -> nth j (s_flgCom (v_st v)) false = true /\ (j < length (v_told v))%nat /\ nth j (v_told v) false = false /\ o = None /\
  v' = mkV (v_st v) (set_nth j true (v_told v)) (set_nth j true (v_tok v)) (v_free v) (v_wait v).
Proof.
  intros E. cbn [ReshareModel.vstep] in E. destruct (nth j (s_flgCom (v_st v)) false) eqn:H1; [|discriminate]. cbn [andb] in E.
  destruct (negb (nth j (v_told v) true)) eqn:H2; [|discriminate]. injection E as <- <-. destruct (told_false v j H1 H2). auto.
Qed.

Lemma vstep_wake v i v' o : vstep v (VWake i) = Ret (Some (v', o)) -> exists s m ms, nth_error (v_wait v) i = Some (s, m) /\ nth (index_of s) (v_tok v) false = true /\
  do_vote (v_st v) s m = Ret ms /\ o = Some (s, m, ms) /\
  v' = mkV (v_st v) (v_told v) (set_nth (index_of s) false (v_tok v)) (v_free v) (firstn i (v_wait v) ++ skipn (S i) (v_wait v)).
Proof.
  intros E. cbn [ReshareModel.vstep] in E. destruct (nth_error (v_wait v) i) as [(s, m)|] eqn:NE; [|discriminate]. destruct (nth (index_of s) (v_tok v) false) eqn:T; [|discriminate].
  apply bind_ret in E. destruct E as (ms & EV & E). injection E as <- <-. exists s, m, ms. auto.
Qed.

Lemma tinv_step v e v' o : tinv v -> vstep v e = Ret (Some (v', o)) -> tinv v'.
Proof.
  intros (L & I) E. destruct e as [j|s m|i|e].
  - apply vstep_tell in E. destruct E as (H1 & H2 & H3 & -> & ->). split; cbn [v_tok v_told v_st]; [rewrite !length_set_nth; exact L|]. intros k. rewrite !nth_set_nth, L.
    destruct (Nat.eqb_spec j k) as [<-|NE]; cbn [andb]; [|apply I]. destruct (Nat.ltb_spec j (length (v_told v))); [|lia]. auto.
  - apply vstep_take in E. destruct E as (n & _ & [(_ & ms & _ & _ & ->)|(_ & _ & ->)]); exact (conj L I).
  - apply vstep_wake in E. destruct E as (s & m & ms & _ & T & _ & _ & ->). split; cbn [v_tok v_told v_st]; [rewrite length_set_nth; exact L|]. intros k. rewrite nth_set_nth.
    destruct ((index_of s =? k)%nat && (index_of s <? length (v_tok v))%nat); [|apply I]. split; [discriminate|apply I].
  - apply vstep_other in E. destruct E as (_ & _ & ms & E & V). rewrite V. split; cbn [v_tok v_told v_st]; [exact L|]. intros k. split; [apply I|]. intros T. apply (pstep_mono _ _ _ _ k E). apply I. exact T.
Qed.

Lemma tinv_init st : tinv (vote_init p st).
Proof. split; [reflexivity|]. intros j. cbn [vote_init v_tok v_told]. rewrite nth_repeat. split; discriminate. Qed.

Lemma vruns_tinv st0 evs v log : vruns (vote_init p st0) evs v log -> tinv v.
Proof. induction 1; [apply tinv_init|eapply tinv_step; eassumption]. Qed.

Lemma others_snoc evs e : others (evs ++ [e]) = others evs ++ match e with VOther e => [e] | _ => [] end.
Proof. unfold others. rewrite flat_map_app. cbn [flat_map]. rewrite app_nil_r. reflexivity. Qed.

Lemma takes_snoc evs e : takes (evs ++ [e]) = takes evs ++ match e with VTake s m => [(s, m)] | _ => [] end.
Proof. unfold takes. rewrite flat_map_app. cbn [flat_map]. rewrite app_nil_r. reflexivity. Qed.

(** What the stage does, the machine of ProacModel.v does too. *)
Lemma vruns_refines st0 evs v log : vruns (vote_init p st0) evs v log ->
  exists pevs, prun_log st0 pevs (v_st v) log /\ filter (fun e => negb (is_reshare e)) pevs = others evs.
Proof.
  induction 1 as [|evs v log e v' o R (pevs & P & EF) E]; [exists []; split; [constructor|reflexivity]|].
  pose proof (vruns_tinv _ _ _ _ R) as (_ & I). rewrite others_snoc. destruct e as [j|s m|i|e].
  - apply vstep_tell in E. destruct E as (_ & _ & _ & -> & ->). exists pevs. rewrite !app_nil_r. auto.
  - apply vstep_take in E. destruct E as (n & _ & [(H & ms & EV & -> & ->)|(_ & -> & ->)]).
    + exists (pevs ++ [EvReshare s m]). rewrite filter_app, EF. split; [|reflexivity]. cbn [v_st].
      apply (pl_step st0 pevs (v_st v) log (EvReshare s m) (v_st v) ms P). cbn [ProacModel.pstep]. rewrite (vote_reshare (v_st v) s m H), EV. reflexivity.
    + exists pevs. rewrite !app_nil_r. auto.
  - apply vstep_wake in E. destruct E as (s & m & ms & _ & T & EV & -> & ->). apply (proj1 (I _)) in T. apply (proj2 (I _)) in T.
    exists (pevs ++ [EvReshare s m]). rewrite filter_app, EF. split; [|reflexivity]. cbn [v_st].
    apply (pl_step st0 pevs (v_st v) log (EvReshare s m) (v_st v) ms P). cbn [ProacModel.pstep]. rewrite (vote_reshare (v_st v) s m T), EV. reflexivity.
  - apply vstep_other in E. destruct E as (NR & -> & ms & E & V). exists (pevs ++ [e]). rewrite filter_app, EF. cbn [filter]. rewrite NR. cbn [negb]. split; [|reflexivity].
    replace (@nil vote) with (match e with EvReshare s m => [(s, m, ms)] | _ => [] end) by (destruct e; try reflexivity; discriminate).
    exact (pl_step st0 pevs (v_st v) log e (v_st v') ms P E).
Qed.

Definition key (x : vote) : Z * ReshareMsg := fst x.

Lemma split_at {A} (l : list A) i a : nth_error l i = Some a -> l = firstn i l ++ a :: skipn (S i) l.
Proof.
  revert i. induction l as [|b l IH]; intros [|i] E; try discriminate; cbn [nth_error firstn skipn app] in *; [injection E as ->; reflexivity|]. f_equal. apply IH. exact E.
Qed.

(** Every message taken has been answered or is waiting; goroutines are used up; a channel is empty after line 208
    only if it was taken from. *)
Lemma vruns_count st0 evs v log : vruns (vote_init p st0) evs v log ->
  (v_free v + length (takes evs) = p_N p)%nat /\ Permutation (takes evs) (v_wait v ++ map key log) /\
  forall j, nth j (v_told v) false = true -> nth j (v_tok v) false = false -> exists x, In x log /\ index_of (fst (key x)) = j.
Proof.
  induction 1 as [|evs v log e v' o R (C & P & T) E].
  { split; [cbn [vote_init v_free takes flat_map length]; lia|]. split; [reflexivity|]. intros j. cbn [vote_init v_told]. rewrite nth_repeat. discriminate. }
  pose proof (vruns_tinv _ _ _ _ R) as (L & I). rewrite takes_snoc, app_length, map_app. destruct e as [j|s m|i|e].
  - apply vstep_tell in E. destruct E as (_ & J & _ & -> & ->). cbn [v_free length v_wait map v_told v_tok]. rewrite !app_nil_r. split; [lia|]. split; [exact P|].
    intros k. rewrite !nth_set_nth, L. destruct ((j =? k)%nat && _); [discriminate|apply T].
  - apply vstep_take in E. destruct E as (n & N' & [(H & ms & EV & -> & ->)|(_ & -> & ->)]); cbn [v_free length v_wait map v_told v_tok]; (split; [lia|]).
    + split; [rewrite app_assoc; apply Permutation_app; [exact P|reflexivity]|]. intros j J1 J2. destruct (T j J1 J2) as (x & X1 & X2). exists x. split; [apply in_or_app; left; exact X1|exact X2].
    + split; [|rewrite app_nil_r; exact T]. rewrite app_nil_r, <- app_assoc. rewrite P, <- app_assoc. apply Permutation_app_head. apply Permutation_app_comm.
  - apply vstep_wake in E. destruct E as (s & m & ms & NE & TK & EV & -> & ->). cbn [v_free length v_wait map v_told v_tok]. rewrite app_nil_r. split; [lia|]. split.
    + rewrite P. rewrite (split_at _ _ _ NE) at 1. rewrite <- !app_assoc. apply Permutation_app_head. cbn [app map key fst].
      rewrite Permutation_middle. apply Permutation_app_head. rewrite Permutation_app_comm. cbn [app]. reflexivity.
    + intros j J1. rewrite nth_set_nth. destruct (Nat.eqb_spec (index_of s) j) as [EQ|NEQ]; cbn [andb].
      * intros _. exists (s, m, ms). split; [apply in_or_app; right; left; reflexivity|exact EQ].
      * intros J2. destruct (T j J1 J2) as (x & X1 & X2). exists x. split; [apply in_or_app; left; exact X1|exact X2].
  - apply vstep_other in E. destruct E as (_ & -> & ms & E & V). rewrite V. cbn [v_free length v_wait map v_told v_tok]. rewrite !app_nil_r. split; [lia|]. split; [exact P|exact T].
Qed.

Lemma index_inj a b : (0 <= a < 2 ^ 32)%Z -> (0 <= b < 2 ^ 32)%Z -> index_of a = index_of b -> a = b.
Proof.
  unfold index_of. intros A B E. assert (H : ((a + 1) mod 2 ^ 32 = (b + 1) mod 2 ^ 32)%Z).
  { apply Z2Nat.inj; [apply Z.mod_pos_bound; lia|apply Z.mod_pos_bound; lia|exact E]. }
  change (2 ^ 32)%Z with 4294967296%Z in *. pose proof (Z.div_mod (a + 1) 4294967296). pose proof (Z.div_mod (b + 1) 4294967296).
  pose proof (Z.mod_pos_bound (a + 1) 4294967296). pose proof (Z.mod_pos_bound (b + 1) 4294967296). lia.
Qed.

(** Nothing is left to do in the stage. *)
Definition idle (v : vst) : Prop := (forall j, vstep v (VTell j) = Ret None) /\ forall i, vstep v (VWake i) = Ret None.

Lemma heard st0 evs v log s m : vruns (vote_init p st0) evs v log -> length (s_flgCom (v_st v)) = (p_N p + 1)%nat ->
  NoDup (map fst (takes evs)) -> (forall x, In x (takes evs) -> (0 <= fst x < 2 ^ 32)%Z) -> idle v ->
  In (s, m) (takes evs) -> nth (index_of s) (s_flgCom (v_st v)) false = true -> exists ms, In (s, m, ms) log.
Proof.
  intros R LF ND B (Q1 & Q2) IN FL. destruct (vruns_count _ _ _ _ R) as (_ & P & T). pose proof (vruns_tinv _ _ _ _ R) as (L & _).
  pose proof (Permutation_in _ P IN) as H. apply in_app_or in H. destruct H as [H|H].
  2:{ apply in_map_iff in H. destruct H as (((s', m'), ms) & K & H). cbn [key fst] in K. injection K as -> ->. exists ms. exact H. }
  exfalso. assert (LT : length (v_told v) = (p_N p + 1)%nat).
  { clear - R. induction R as [|evs v log e v' o R IH E]; [cbn [vote_init v_told]; apply repeat_length|]. destruct e as [j|s m|i|e].
    - apply vstep_tell in E. destruct E as (_ & _ & _ & _ & ->). cbn [v_told]. rewrite length_set_nth. exact IH.
    - apply vstep_take in E. destruct E as (n & _ & [(_ & ms & _ & _ & ->)|(_ & _ & ->)]); exact IH.
    - apply vstep_wake in E. destruct E as (s & m & ms & _ & _ & _ & _ & ->). exact IH.
    - apply vstep_other in E. destruct E as (_ & _ & ms & _ & ->). exact IH. }
  pose proof (nth_true_lt _ _ FL) as LI.
  assert (TD : nth (index_of s) (v_told v) false = true).
  { specialize (Q1 (index_of s)). cbn [ReshareModel.vstep] in Q1. rewrite FL in Q1. cbn [andb] in Q1. rewrite (nth_indep _ false true) by lia.
    destruct (nth (index_of s) (v_told v) true); [reflexivity|discriminate]. }
  destruct (nth (index_of s) (v_tok v) false) eqn:TK.
  - apply In_nth_error in H. destruct H as (i & H). specialize (Q2 i). cbn [ReshareModel.vstep] in Q2. rewrite H, TK in Q2. destruct (do_vote _ _ _); cbn [bind] in Q2; discriminate.
  - destruct (T _ TD TK) as (((s', m'), ms) & X1 & X2). cbn [key fst] in X2.
    assert (IN' : In (s', m') (takes evs)). { apply (Permutation_in _ (Permutation_sym P)). apply in_or_app. right. change (s', m') with (key (s', m', ms)). apply in_map. exact X1. }
    apply index_inj in X2; [|apply (B _ IN')|apply (B _ IN)]. subst s'.
    apply (Permutation_map fst) in P. apply (Permutation_NoDup P) in ND. rewrite map_app in ND. apply in_split in H. destruct H as (w1 & w2 & EW).
    rewrite EW, map_app, <- app_assoc in ND. cbn [map fst app] in ND. apply NoDup_remove_2 in ND. apply ND. apply in_or_app. right. apply in_or_app. right.
    apply in_map_iff. exists (key (s, m', ms)). split; [reflexivity|]. apply in_map. exact X1.
Qed.

(** After [v]: what can still be done. *)
Lemma vruns_app v0 evs v log evs' v' log' : vruns v0 evs v log -> vruns v evs' v' log' -> vruns v0 (evs ++ evs') v' (log ++ log').
Proof.
  intros R. induction 1 as [|evs' v1 log' e v2 o R' IH E]; [rewrite !app_nil_r; exact R|]. rewrite !app_assoc. apply (vr_step v0 _ v1 _ e v2 o IH E).
Qed.

(** A goroutine that has not been given the only value of its channel waits for good. *)
Lemma lost_wait v evs v' log k : vruns v evs v' log -> nth k (v_told v) false = true -> nth k (v_tok v) false = false ->
  forall s m ms, In (s, m, ms) log -> index_of s = k -> In (s, m) (takes evs).
Proof.
  intros R TD TK. assert (G : nth k (v_told v') false = true /\ nth k (v_tok v') false = false /\ forall s m ms, In (s, m, ms) log -> index_of s = k -> In (s, m) (takes evs)); [|apply G].
  induction R as [|evs v1 log e v2 o R (IH1 & IH2 & IH3) E]; [split; [exact TD|split; [exact TK|intros ? ? ? []]]|].
  assert (KEEP : forall s m ms, In (s, m, ms) log -> index_of s = k -> In (s, m) (takes (evs ++ [e]))).
  { intros s m ms X Y. rewrite takes_snoc. apply in_or_app. left. apply (IH3 s m ms X Y). }
  destruct e as [j|s m|i|e].
  - apply vstep_tell in E. destruct E as (_ & J & JF & -> & ->). cbn [v_told v_tok]. rewrite app_nil_r. assert (j <> k) by congruence.
    rewrite !nth_set_nth_other by assumption. auto.
  - apply vstep_take in E. destruct E as (n & _ & [(_ & ms & _ & -> & ->)|(_ & -> & ->)]); cbn [v_told v_tok].
    + split; [exact IH1|]. split; [exact IH2|]. intros s1 m1 ms1 X Y. apply in_app_or in X. destruct X as [X|[X|[]]]; [apply (KEEP _ _ _ X Y)|]. injection X as <- <- <-.
      rewrite takes_snoc. apply in_or_app. right. left. reflexivity.
    + rewrite app_nil_r. auto.
  - apply vstep_wake in E. destruct E as (s & m & ms & NE & T & EV & -> & ->). cbn [v_told v_tok]. assert (index_of s <> k) by congruence.
    rewrite nth_set_nth_other by assumption. split; [exact IH1|]. split; [exact IH2|]. intros s1 m1 ms1 X Y. apply in_app_or in X. destruct X as [X|[X|[]]]; [apply (KEEP _ _ _ X Y)|].
    injection X as <- <- <-. contradiction.
  - apply vstep_other in E. destruct E as (_ & -> & ms & _ & V). rewrite V. cbn [v_told v_tok]. rewrite app_nil_r. auto.
Qed.

Definition b2n (b : bool) : nat := if b then 1 else 0.

(** When all goroutines have taken the same message, one of them votes and the others wait for good. *)
Lemma starved v s m : (index_of s < length (v_told v))%nat -> length (v_tok v) = length (v_told v) ->
  v_free v = O -> (forall x, In x (v_wait v) -> x = (s, m)) -> nth (index_of s) (v_told v) false = false -> nth (index_of s) (v_tok v) false = false ->
  forall evs v' log, vruns v evs v' log -> v_free v' = O /\ (forall x, In x log -> key x = (s, m)) /\ (length log <= 1)%nat.
Proof.
  intros LT LK F0 WT TD TK evs v' log R.
  assert (G : length (v_told v') = length (v_told v) /\ length (v_tok v') = length (v_told v) /\ v_free v' = O /\ (forall x, In x (v_wait v') -> x = (s, m)) /\ (forall x, In x log -> key x = (s, m)) /\
    (length log + b2n (nth (index_of s) (v_tok v') false) + b2n (negb (nth (index_of s) (v_told v') false)) <= 1)%nat).
  2:{ destruct G as (_ & _ & G1 & _ & G2 & G3). split; [exact G1|]. split; [exact G2|]. lia. }
  induction R as [|evs v1 log e v2 o R (I1 & I2 & I3 & I4 & I5 & I6) E].
  { rewrite TD, TK. cbn [length b2n negb]. split; [reflexivity|]. split; [exact LK|]. split; [exact F0|]. split; [exact WT|]. split; [intros x []|lia]. }
  destruct e as [j|s1 m1|i|e].
  - apply vstep_tell in E. destruct E as (_ & J & JF & -> & ->). cbn [v_told v_tok v_free v_wait]. rewrite app_nil_r, !length_set_nth, !nth_set_nth, I1, I2.
    split; [reflexivity|]. split; [reflexivity|]. split; [exact I3|]. split; [exact I4|]. split; [exact I5|].
    destruct (Nat.eqb_spec j (index_of s)) as [->|NE]; cbn [andb]; [|exact I6]. rewrite JF in I6. cbn [negb b2n] in I6.
    destruct (Nat.ltb_spec (index_of s) (length (v_told v))); cbn [negb b2n]; lia.
  - apply vstep_take in E. destruct E as (n & E & _). congruence.
  - apply vstep_wake in E. destruct E as (s1 & m1 & ms & NE & T & EV & -> & ->). cbn [v_told v_tok v_free v_wait]. rewrite length_set_nth.
    assert (X : (s1, m1) = (s, m)) by (apply I4; apply nth_error_In with (n := i); exact NE). injection X as -> ->.
    split; [exact I1|]. split; [exact I2|]. split; [exact I3|]. split.
    { intros x IN. apply I4. apply in_app_or in IN. rewrite (split_at _ _ _ NE). apply in_or_app. destruct IN as [IN|IN]; [left; exact IN|right; right; exact IN]. }
    split. { intros x IN. apply in_app_or in IN. destruct IN as [IN|[<-|[]]]; [apply I5; exact IN|reflexivity]. }
    rewrite T in I6. rewrite nth_set_nth_same by lia. rewrite app_length. cbn [length b2n] in *. lia.
  - apply vstep_other in E. destruct E as (_ & -> & ms & _ & V). rewrite V. cbn [v_told v_tok v_free v_wait]. rewrite app_nil_r. repeat (split; [assumption|]). assumption.
Qed.

Lemma takes_repeat st s m n : nth_error (s_flgCom st) (index_of s) = Some false -> forall told tok fr w, (n <= fr)%nat ->
  vruns (mkV st told tok fr w) (repeat (VTake s m) n) (mkV st told tok (fr - n) (w ++ repeat (s, m) n)) [].
Proof.
  intros E told tok fr w. induction n as [|n IH]; intros L; [cbn [repeat]; rewrite app_nil_r, Nat.sub_0_r; constructor|].
  cbn [repeat]. rewrite !repeat_cons, app_assoc. apply (vr_step _ _ _ [] (VTake s m) _ None (IH ltac:(lia))).
  cbn [ReshareModel.vstep v_free v_st v_told v_tok v_wait]. replace (fr - n)%nat with (S (fr - S n)) by lia. unfold idx. rewrite E. reflexivity.
Qed.
End Proofs.
