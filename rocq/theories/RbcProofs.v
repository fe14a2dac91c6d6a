(** Proofs about RbcModel.v. *)

Require Import ZArith List Bool Arith Lia.
From Verif Require Import Bytes CodecModel CodecProofs GoBase DispatchModel DispatchProofs PolyProofs VssModel VssProofs VssProofs2 RbcModel.
Import ListNotations.

(** ** Executions of a committee *)

Section Exec.
Variable sha : list Z -> list Z.
Variable rs_encode : nat -> nat -> list Z -> option (list (list Z)).
Variable rs_verify : nat -> nat -> list (list Z) -> bool.
Variable rs_reconstruct : nat -> nat -> list (list Z) -> list (list Z).
Variables N F : nat.
Variable bad : list nat.    (* the corrupted members *)

Definition honest (i : nat) : Prop := (i < N)%nat /\ ~ In i bad.

(** The channels are authenticated: what is taken as a message of an honest member was sent by it. *)
Definition authentic (g : gst) (i : nat) (e : rev) : Prop :=
  match e with
  | EvEcho s x => (0 <= s < Z.of_nat N)%Z /\ (honest (Z.to_nat s) -> In (Z.to_nat s, i, x) (g_echo g))
  | EvReady s x => (0 <= s < Z.of_nat N)%Z /\ (honest (Z.to_nat s) -> In (Z.to_nat s, x) (g_ready g))
  | _ => True
  end.

Inductive reach : gst -> Prop :=
| reach_init : reach g_init
| reach_step g i e st outs : reach g -> honest i -> authentic g i e ->
    rstep sha rs_encode rs_verify rs_reconstruct N F (g_st g i) e = Ret (Some (st, outs)) ->
    reach (gnext g i e st outs).

(** No member takes two Echo messages of one sender. *)
Definition counted_once (g : gst) : Prop := NoDup (map fst (g_took g)).

(** ** Local facts *)

Lemma bytes_eqb_dec (a b : list Z) : bytes_eqb a b = true <-> a = b.
Proof. apply bytes_eqb_eq. Qed.

Lemma count_echo_same m x : count (count_echo m x) x = (count m x + 1)%nat.
Proof.
  unfold count, count_echo. destruct x as (h & s). cbn [fst snd]. destruct (lookup h m) as [m'|] eqn:E.
  - rewrite lookup_update_same. rewrite lookup_update_same. destruct (lookup s m'); reflexivity.
  - rewrite lookup_update_same. cbn [update lookup]. rewrite (proj2 (bytes_eqb_dec s s) eq_refl). reflexivity.
Qed.

Lemma count_echo_other m x y : y <> x -> count (count_echo m x) y = count m y.
Proof.
  intros Ne. unfold count, count_echo. destruct x as (h & s), y as (h' & s'). cbn [fst snd].
  destruct (list_eq_dec Z.eq_dec h' h) as [->|Nh].
  - assert (s' <> s) by congruence. destruct (lookup h m) as [m'|] eqn:E.
    + rewrite lookup_update_same, lookup_update_other by assumption. reflexivity.
    + rewrite lookup_update_same, lookup_update_other by assumption. reflexivity.
  - destruct (lookup h m) as [m'|]; rewrite lookup_update_other by assumption; reflexivity.
Qed.

Definition hm_dec (x y : hm) : {x = y} + {x <> y}.
Proof. decide equality; apply list_eq_dec, Z.eq_dec. Defined.

(** Echo messages with content x taken by i. *)
Definition took (g : gst) (i : nat) (x : hm) : list (nat * Z * hm) :=
  filter (fun t => (fst (fst t) =? i)%nat && (if hm_dec (snd t) x then true else false)) (g_took g).

Definition supp (g : gst) (h : list Z) : Prop :=
  exists i m, honest i /\ (N - F <= length (took g i (h, m)))%nat.

(** ** The invariant *)

Definition wait_hash (p : rphase) (h : list Z) : Prop :=
  match p with RWait h' => h' = h | RSend h' _ => h' = h | RRecv => False end.

Record ginv (g : gst) : Prop := mkInv {
  i_count : forall i x, honest i -> count (r_echo (g_st g i)) x = length (took g i x);
  i_took : forall i s x, In (i, s, x) (g_took g) -> (0 <= s < Z.of_nat N)%Z /\
     (honest (Z.to_nat s) -> In (Z.to_nat s, i, x) (g_echo g));
  i_from : forall s j x, In (s, j, x) (g_echo g) -> honest s;
  i_prop : forall s j x, In (s, j, x) (g_echo g) -> r_prop (g_st g s) = true;
  i_one : forall s j j' x x', In (s, j, x) (g_echo g) -> In (s, j', x') (g_echo g) -> fst x = fst x';
  i_ready : forall i x, In (i, x) (g_ready g) -> honest i /\ supp g (fst x);
  i_T : forall i h j m, honest i -> In (j, m) (Tof (g_st g i) h) -> (0 <= j < Z.of_nat N)%Z /\
     (honest (Z.to_nat j) -> In (Z.to_nat j, (h, m)) (g_ready g)) /\ In j (r_got (g_st g i));
  i_Tnd : forall i h, honest i -> NoDup (map fst (Tof (g_st g i) h));
  i_wait : forall i h, honest i -> wait_hash (r_rph (g_st g i)) h -> supp g h }.

Lemma ginv_init : ginv g_init.
Proof.
  constructor; try (intros; contradiction); cbn [g_init g_st g_echo g_ready g_took rbc_init].
  - intros i x _. reflexivity.
  - intros i h _. constructor.
Qed.

Lemma took_gnext g i e st outs k x :
  took (gnext g i e st outs) k x = took g k x ++ filter (fun t => (fst (fst t) =? k)%nat && (if hm_dec (snd t) x then true else false)) (took_of i e).
Proof. unfold took, gnext. cbn [g_took]. apply filter_app. Qed.

Lemma supp_mono g i e st outs h : supp g h -> supp (gnext g i e st outs) h.
Proof.
  intros (k & m & Hk & L). exists k, m. split; [exact Hk|]. rewrite took_gnext, app_length. lia.
Qed.

Lemma in_echoes i outs s j x : In (s, j, x) (echoes_of i outs) -> s = i /\ In (SendTo j x) outs.
Proof.
  unfold echoes_of. intros H. apply in_flat_map in H. destruct H as (o & Ho & H).
  destruct o as [j' x'|x']; [|destruct H]. destruct H as [H|[]]. 
  apply (f_equal (fun t => (fst (fst t), snd (fst t), snd t))) in H. cbn [fst snd] in H. inversion H; subst. auto.
Qed.

Lemma in_readys i outs s x : In (s, x) (readys_of i outs) <-> s = i /\ In (SendAll x) outs.
Proof.
  unfold readys_of. rewrite in_flat_map. split.
  - intros (o & Ho & H). destruct o as [j' x'|x']; [destruct H|]. destruct H as [H|[]]. inversion H; subst. auto.
  - intros (-> & H). exists (SendAll x). split; [exact H|]. left. reflexivity.
Qed.

(** What one step does to the parts of the state. *)
Lemma propose_inv st M o : propose_step sha rs_encode N F st M = Ret (Some o) ->
  r_prop st = false /\ r_prop (fst o) = true /\ r_echo (fst o) = r_echo st /\ r_T (fst o) = r_T st /\ r_got (fst o) = r_got st /\
  r_rph (fst o) = r_rph st /\ r_sent (fst o) = r_sent st /\ r_eph (fst o) = r_eph st /\ r_chan (fst o) = r_chan st /\
  r_maxN (fst o) = r_maxN st /\ r_maxHash (fst o) = r_maxHash st /\ r_start (fst o) = r_start st /\ r_round (fst o) = r_round st /\
  r_out (fst o) = r_out st /\
  exists shards, rs_encode N F M = Some shards /\ (N <= length shards)%nat /\
    snd o = map (fun j => SendTo j (tag sha M, nth j shards [])) (seq 0 N).
Proof.
  unfold propose_step. destruct (r_prop st) eqn:EP; [discriminate|]. destruct (rs_encode N F M) as [shards|]; [|discriminate].
  intros H. apply bind_ret in H. destruct H as (outs & E & H).
  apply (f_equal (fun x => match x with Ret (Some a) => a | _ => o end)) in H. subst o. cbn [fst snd].
  assert (L : (N <= length shards)%nat /\ outs = map (fun j => SendTo j (tag sha M, nth j shards [])) (seq 0 N)).
  { revert outs E. cut (forall l outs, gomap (fun j => s <- idx shards j;; Ret (SendTo j (tag sha M, s))) l = Ret outs ->
      (forall j, In j l -> (j < length shards)%nat) /\ outs = map (fun j => SendTo j (tag sha M, nth j shards [])) l).
    { intros C outs E. destruct (C _ _ E) as (C1 & C2). split; [|exact C2]. destruct (Nat.le_gt_cases N (length shards)) as [?|Hlt]; [assumption|].
      specialize (C1 (length shards)). rewrite in_seq in C1. lia. }
    induction l as [|j l IH]; intros outs E.
    - cbn [gomap] in E. apply (f_equal (fun x => match x with Ret a => a | _ => outs end)) in E. subst outs. split; [intros j []|reflexivity].
    - cbn [gomap] in E. apply bind_ret in E. destruct E as (o1 & E1 & E). apply bind_ret in E. destruct E as (os & E2 & E).
      apply (f_equal (fun x => match x with Ret a => a | _ => outs end)) in E. subst outs.
      apply bind_ret in E1. destruct E1 as (s & E1 & E3). apply (f_equal (fun x => match x with Ret a => a | _ => o1 end)) in E3. subst o1.
      apply idx_Ret in E1. destruct E1 as (L1 & E1). destruct (IH os E2) as (C1 & ->).
      split; [intros k [<-|Hk]; auto|]. cbn [map]. rewrite (nth_error_nth _ _ [] E1). reflexivity. }
  destruct L as (L1 & L2). repeat (split; [reflexivity|]). exists shards. auto.
Qed.

Lemma Tof_update st h l T h' : r_T st = update h l T -> Tof st h' = if list_eq_dec Z.eq_dec h' h then l else match lookup h' T with Some l => l | None => [] end.
Proof.
  intros E. unfold Tof. rewrite E. destruct (list_eq_dec Z.eq_dec h' h) as [->|Ne].
  - rewrite lookup_update_same. reflexivity.
  - rewrite lookup_update_other by exact Ne. reflexivity.
Qed.

Definition rstep' := rstep sha rs_encode rs_verify rs_reconstruct N F.

Ltac inv_some H o := apply (f_equal (fun x => match x with Ret (Some a) => a | _ => o end)) in H; subst o; cbn [fst snd] in *.

Lemma step_echo st e o : rstep' st e = Ret (Some o) ->
  match e with EvEcho _ x => r_echo (fst o) = count_echo (r_echo st) x | _ => r_echo (fst o) = r_echo st end.
Proof.
  unfold rstep', rstep. destruct e as [s M|s x| | |s x| | |]; intros H.
  - apply propose_inv in H. tauto.
  - unfold echo_step in H. destruct (r_eph st); try discriminate. inv_some H o. reflexivity.
  - unfold push_step in H. destruct (r_eph st); try discriminate. destruct (length (r_chan st) <? N); [|discriminate]. inv_some H o. reflexivity.
  - unfold check_step in H. destruct (r_eph st); try discriminate. inv_some H o. reflexivity.
  - unfold ready_step in H. destruct (r_rph st), (r_eph st); try discriminate;
      (destruct (existsb (Z.eqb s) (r_got st)); [inv_some H o; reflexivity|]; destruct (negb (r_sent st) && _); inv_some H o; reflexivity).
  - unfold pop_step in H. destruct (r_rph st), (r_chan st); try discriminate. inv_some H o. reflexivity.
  - unfold send_step in H. destruct (r_rph st), (r_eph st); try discriminate;
      (destruct (F + 1 <=? count (r_echo st) x); inv_some H o; reflexivity).
  - unfold decode_step in H. destruct (r_out st), (r_rph st); try discriminate. destruct (r_start st && _); [|discriminate].
    apply bind_ret in H. destruct H as (M & _ & H). cbv zeta in H. destruct (length (r_maxHash st) <? 32); [discriminate|].
    destruct (_ <? _)%Z; [discriminate|]. inv_some H o. reflexivity.
Qed.

Lemma step_ready st e o : rstep' st e = Ret (Some o) ->
  (r_T (fst o) = r_T st /\ r_got (fst o) = r_got st) \/
  exists s x, e = EvReady s x /\ ~ In s (r_got st) /\ r_got (fst o) = s :: r_got st /\
    r_T (fst o) = update (fst x) (Tof st (fst x) ++ [(s, snd x)]) (r_T st).
Proof.
  unfold rstep', rstep. destruct e as [s M|s x| | |s x| | |]; intros H.
  - apply propose_inv in H. left. tauto.
  - unfold echo_step in H. destruct (r_eph st); try discriminate. inv_some H o. left. split; reflexivity.
  - unfold push_step in H. destruct (r_eph st); try discriminate. destruct (length (r_chan st) <? N); [|discriminate]. inv_some H o. left. split; reflexivity.
  - unfold check_step in H. destruct (r_eph st); try discriminate. inv_some H o. left. split; reflexivity.
  - unfold ready_step in H. destruct (r_rph st), (r_eph st); try discriminate;
      (destruct (existsb (Z.eqb s) (r_got st)) eqn:EX; [inv_some H o; left; split; reflexivity|]; right; exists s, x;
       split; [reflexivity|]; split; [intros Hin; rewrite (proj2 (existsb_exists _ _)) in EX; [discriminate|exists s; split; [exact Hin|apply Z.eqb_refl]]|];
       destruct (negb (r_sent st) && _); inv_some H o; split; reflexivity).
  - unfold pop_step in H. destruct (r_rph st), (r_chan st); try discriminate. inv_some H o. left. split; reflexivity.
  - unfold send_step in H. destruct (r_rph st), (r_eph st); try discriminate;
      (destruct (F + 1 <=? count (r_echo st) x); inv_some H o; left; split; reflexivity).
  - unfold decode_step in H. destruct (r_out st), (r_rph st); try discriminate. destruct (r_start st && _); [|discriminate].
    apply bind_ret in H. destruct H as (M & _ & H). cbv zeta in H. destruct (length (r_maxHash st) <? 32); [discriminate|].
    destruct (_ <? _)%Z; [discriminate|]. inv_some H o. left. split; reflexivity.
Qed.

Lemma step_wait st e o h : rstep' st e = Ret (Some o) -> wait_hash (r_rph (fst o)) h ->
  wait_hash (r_rph st) h \/ (F + 1 <= length (Tof (fst o) h))%nat.
Proof.
  unfold rstep', rstep. destruct e as [s M|s x| | |s x| | |]; intros H W.
  - apply propose_inv in H. left. destruct H as (_ & _ & _ & _ & _ & E & _). rewrite <- E. exact W.
  - unfold echo_step in H. destruct (r_eph st); try discriminate. inv_some H o. left. exact W.
  - unfold push_step in H. destruct (r_eph st); try discriminate. destruct (length (r_chan st) <? N); [|discriminate]. inv_some H o. left. exact W.
  - unfold check_step in H. destruct (r_eph st); try discriminate. inv_some H o. left. exact W.
  - unfold ready_step in H. destruct (r_rph st) eqn:ER, (r_eph st); try discriminate;
      (destruct (existsb (Z.eqb s) (r_got st)) eqn:EX; [inv_some H o; rewrite ER in W; left; exact W|];
       destruct (negb (r_sent st) && _) eqn:EB; inv_some H o; [right|destruct W];
       cbn [wait_hash r_rph] in W; subst h; unfold Tof at 1; cbn [r_T]; rewrite lookup_update_same;
       apply andb_prop in EB; destruct EB as (_ & EB); apply Nat.leb_le in EB; exact EB).
  - unfold pop_step in H. destruct (r_rph st), (r_chan st); try discriminate. inv_some H o. left. exact W.
  - unfold send_step in H. destruct (r_rph st), (r_eph st); try discriminate;
      (destruct (F + 1 <=? count (r_echo st) x); inv_some H o; [destruct W|left; exact W]).
  - unfold decode_step in H. destruct (r_out st), (r_rph st); try discriminate. destruct (r_start st && _); [|discriminate].
    apply bind_ret in H. destruct H as (M & _ & H). cbv zeta in H. destruct (length (r_maxHash st) <? 32); [discriminate|].
    destruct (_ <? _)%Z; [discriminate|]. inv_some H o. left. exact W.
Qed.

Lemma step_outs st e o x : rstep' st e = Ret (Some o) -> In (SendAll x) (snd o) ->
  ((exists s, e = EvEcho s x) /\ (N - F <= count (r_echo (fst o)) x)%nat) \/ wait_hash (r_rph st) (fst x).
Proof.
  unfold rstep', rstep. destruct e as [s M|s y| | |s y| | |]; intros H W.
  - apply propose_inv in H. destruct H as (_ & _ & _ & _ & _ & _ & _ & _ & _ & _ & _ & _ & _ & _ & shards & _ & _ & E). rewrite E in W.
    apply in_map_iff in W. destruct W as (? & W & _). discriminate.
  - unfold echo_step in H. destruct (r_eph st); try discriminate. inv_some H o.
    destruct (negb (r_sent st) && _) eqn:EB; [|destruct W]. destruct W as [W|[]].
    apply (f_equal (fun o => match o with SendAll a => a | _ => x end)) in W. subst y. left. split; [exists s; reflexivity|].
    cbn [r_echo]. apply andb_prop in EB. destruct EB as (_ & EB). apply Nat.leb_le in EB. exact EB.
  - unfold push_step in H. destruct (r_eph st); try discriminate. destruct (length (r_chan st) <? N); [|discriminate]. inv_some H o. destruct W.
  - unfold check_step in H. destruct (r_eph st); try discriminate. inv_some H o. destruct W.
  - unfold ready_step in H. destruct (r_rph st) eqn:ER, (r_eph st); try discriminate;
      (destruct (existsb (Z.eqb s) (r_got st)) eqn:EX; [inv_some H o; destruct W|];
       destruct (negb (r_sent st) && _) eqn:EB; inv_some H o; destruct W).
  - unfold pop_step in H. destruct (r_rph st), (r_chan st); try discriminate. inv_some H o. destruct W.
  - unfold send_step in H. destruct (r_rph st), (r_eph st); try discriminate;
      (destruct (F + 1 <=? count (r_echo st) _); inv_some H o; [|destruct W]; destruct W as [W|[]];
       apply (f_equal (fun o => match o with SendAll a => a | _ => x end)) in W; subst x; right; reflexivity).
  - unfold decode_step in H. destruct (r_out st), (r_rph st); try discriminate. destruct (r_start st && _); [|discriminate].
    apply bind_ret in H. destruct H as (M & _ & H). cbv zeta in H. destruct (length (r_maxHash st) <? 32); [discriminate|].
    destruct (_ <? _)%Z; [discriminate|]. inv_some H o. destruct W.
Qed.

Lemma step_sends st e o : rstep' st e = Ret (Some o) ->
  (r_prop (fst o) = r_prop st /\ forall j x, ~ In (SendTo j x) (snd o)) \/
  (r_prop st = false /\ r_prop (fst o) = true /\ exists s M, e = EvPropose s M /\ forall j x, In (SendTo j x) (snd o) -> fst x = tag sha M).
Proof.
  unfold rstep', rstep. destruct e as [s M|s y| | |s y| | |]; intros H.
  - apply propose_inv in H. destruct H as (P & Q & _ & _ & _ & _ & _ & _ & _ & _ & _ & _ & _ & _ & shards & _ & _ & E). right.
    split; [exact P|]. split; [exact Q|]. exists s, M. split; [reflexivity|]. intros j x Hin. rewrite E in Hin.
    apply in_map_iff in Hin. destruct Hin as (k & W & _). apply (f_equal (fun o => match o with SendTo _ a => a | _ => x end)) in W. subst x. reflexivity.
  - unfold echo_step in H. destruct (r_eph st); try discriminate. inv_some H o. left. split; [reflexivity|].
    intros j x Hin. destruct (negb (r_sent st) && _); [|destruct Hin]. destruct Hin as [Hin|[]]. discriminate.
  - unfold push_step in H. destruct (r_eph st); try discriminate. destruct (length (r_chan st) <? N); [|discriminate]. inv_some H o. left. split; [reflexivity|intros ? ? []].
  - unfold check_step in H. destruct (r_eph st); try discriminate. inv_some H o. left. split; [reflexivity|intros ? ? []].
  - unfold ready_step in H. destruct (r_rph st) eqn:ER, (r_eph st); try discriminate;
      (destruct (existsb (Z.eqb s) (r_got st)) eqn:EX; [inv_some H o; left; split; [reflexivity|intros ? ? []]|];
       destruct (negb (r_sent st) && _) eqn:EB; inv_some H o; left; split; [reflexivity|intros ? ? []|reflexivity|intros ? ? []]).
  - unfold pop_step in H. destruct (r_rph st), (r_chan st); try discriminate. inv_some H o. left. split; [reflexivity|intros ? ? []].
  - unfold send_step in H. destruct (r_rph st), (r_eph st); try discriminate;
      (destruct (F + 1 <=? count (r_echo st) _); inv_some H o; left; split; [reflexivity|intros j y' [Hin|[]]; discriminate|reflexivity|intros ? ? []]).
  - unfold decode_step in H. destruct (r_out st), (r_rph st); try discriminate. destruct (r_start st && _); [|discriminate].
    apply bind_ret in H. destruct H as (M & _ & H). cbv zeta in H. destruct (length (r_maxHash st) <? 32); [discriminate|].
    destruct (_ <? _)%Z; [discriminate|]. inv_some H o. left. split; [reflexivity|intros ? ? []].
Qed.

(** ** Counting members *)

Lemma nodup_app_intro {A} (l l' : list A) : NoDup l -> NoDup l' -> (forall x, In x l -> In x l' -> False) -> NoDup (l ++ l').
Proof.
  induction l as [|a l IH]; intros H1 H2 H; [exact H2|]. inversion H1 as [|? ? NI H1']; subst. cbn [app]. constructor.
  - intros Hin. apply in_app_or in Hin. destruct Hin as [Hin|Hin]; [contradiction|]. apply (H a); [left; reflexivity|exact Hin].
  - apply IH; auto. intros x Hx Hx'. apply (H x); [right; exact Hx|exact Hx'].
Qed.

Definition members (L : list Z) : Prop := forall s, In s L -> (0 <= s < Z.of_nat N)%Z.

Lemma members_length L : NoDup L -> members L -> (length L <= N)%nat.
Proof.
  intros ND HM. rewrite <- (seq_length N 0), <- (map_length Z.of_nat (seq 0 N)). apply NoDup_incl_length; [exact ND|].
  intros s Hs. specialize (HM s Hs). apply in_map_iff. exists (Z.to_nat s). split; [lia|]. apply in_seq. lia.
Qed.

Lemma filter_split {A} (f : A -> bool) l : (length (filter f l) + length (filter (fun x => negb (f x)) l) = length l)%nat.
Proof. induction l as [|a l IH]; [reflexivity|]. cbn [filter]. destruct (f a); cbn [negb length]; lia. Qed.

Hypothesis Hbad : (length bad <= F)%nat.

Lemma honest_in L : NoDup L -> members L -> (F + 1 <= length L)%nat -> exists s, In s L /\ honest (Z.to_nat s).
Proof.
  intros ND HM HL.
  set (g := fun s : Z => if in_dec Nat.eq_dec (Z.to_nat s) bad then true else false).
  assert (L1 : (length (filter g L) <= F)%nat).
  { rewrite <- Hbad. rewrite <- (map_length Z.to_nat (filter g L)). apply NoDup_incl_length.
    - clear HL. induction L as [|a L IH]; [constructor|]. inversion ND as [|? ? NI ND']; subst. cbn [filter].
      assert (HM' : members L) by (intros x Hx; apply HM; right; exact Hx). specialize (IH ND' HM').
      destruct (g a); [|exact IH]. cbn [map]. constructor; [|exact IH]. intros Hin. apply in_map_iff in Hin.
      destruct Hin as (b & E & Hb). apply filter_In in Hb. destruct Hb as (Hb & _). apply NI.
      pose proof (HM a (or_introl eq_refl)). pose proof (HM b (or_intror Hb)). replace a with b by lia. exact Hb.
    - intros k Hk. apply in_map_iff in Hk. destruct Hk as (b & <- & Hb). apply filter_In in Hb. destruct Hb as (_ & Hb).
      unfold g in Hb. destruct (in_dec Nat.eq_dec (Z.to_nat b) bad); [assumption|discriminate]. }
  pose proof (filter_split g L) as FS.
  destruct (filter (fun x => negb (g x)) L) as [|s l] eqn:EF; [simpl in FS; lia|].
  assert (Hs : In s (filter (fun x => negb (g x)) L)) by (rewrite EF; left; reflexivity).
  apply filter_In in Hs. destruct Hs as (Hs & Eg). exists s. split; [exact Hs|]. pose proof (HM s Hs). split; [lia|].
  unfold g in Eg. destruct (in_dec Nat.eq_dec (Z.to_nat s) bad); [discriminate|assumption].
Qed.

Hypothesis HNF : (3 * F + 1 <= N)%nat.

Lemma quorums L1 L2 : NoDup L1 -> members L1 -> NoDup L2 -> members L2 ->
  (N - F <= length L1)%nat -> (N - F <= length L2)%nat -> exists s, In s L1 /\ In s L2 /\ honest (Z.to_nat s).
Proof.
  intros D1 M1 D2 M2 H1 H2.
  set (f := fun s : Z => if in_dec Z.eq_dec s L2 then true else false).
  pose proof (filter_split f L1) as FS.
  assert (U : (length (filter (fun x => negb (f x)) L1 ++ L2) <= N)%nat).
  { apply members_length.
    - apply nodup_app_intro; [apply NoDup_filter; exact D1|exact D2|].
      intros x Hx Hx2. apply filter_In in Hx. destruct Hx as (_ & Hx). unfold f in Hx. destruct (in_dec Z.eq_dec x L2); [discriminate|contradiction].
    - intros x Hx. apply in_app_or in Hx. destruct Hx as [Hx|Hx]; [|apply M2; exact Hx]. apply filter_In in Hx. apply M1. apply Hx. }
  rewrite app_length in U.
  destruct (honest_in (filter f L1)) as (s & Hs & HH).
  - apply NoDup_filter. exact D1.
  - intros x Hx. apply filter_In in Hx. apply M1. apply Hx.
  - lia.
  - apply filter_In in Hs. destruct Hs as (Hs & Ef). exists s. split; [exact Hs|]. split; [|exact HH].
    unfold f in Ef. destruct (in_dec Z.eq_dec s L2); [assumption|discriminate].
Qed.

Lemma took_in g i x t : In t (took g i x) -> In t (g_took g) /\ fst (fst t) = i /\ snd t = x.
Proof.
  unfold took. intros H. apply filter_In in H. destruct H as (H & E). apply andb_prop in E. destruct E as (E1 & E2).
  apply Nat.eqb_eq in E1. destruct (hm_dec (snd t) x); [|discriminate]. auto.
Qed.

Lemma took_nodup g i x : counted_once g -> NoDup (map (fun t => snd (fst t)) (took g i x)).
Proof.
  unfold counted_once. intros ND.
  assert (H : forall t, In t (took g i x) -> fst (fst t) = i) by (intros t Ht; apply took_in in Ht; tauto).
  assert (ND2 : NoDup (map fst (took g i x))).
  { unfold took. clear H. revert ND. generalize (g_took g). induction l as [|a l IH]; intros ND; [constructor|].
    cbn [map] in ND. inversion ND as [|? ? NI ND']; subst. cbn [filter]. destruct (_ && _); [|apply IH; exact ND'].
    cbn [map]. constructor; [|apply IH; exact ND']. intros Hin. apply NI. apply in_map_iff in Hin. destruct Hin as (b & E & Hb).
    apply filter_In in Hb. rewrite <- E. apply in_map. apply Hb. }
  revert H ND2. generalize (took g i x). induction l as [|a l IH]; intros H ND2; [constructor|].
  cbn [map] in *. inversion ND2 as [|? ? NI ND']; subst. constructor; [|apply IH; auto; intros t Ht; apply H; right; exact Ht].
  intros Hin. apply NI. apply in_map_iff in Hin. destruct Hin as (b & E & Hb). apply in_map_iff. exists b. split; [|exact Hb].
  pose proof (H a (or_introl eq_refl)). pose proof (H b (or_intror Hb)). destruct (fst a), (fst b). cbn [fst snd] in *. congruence.
Qed.

Lemma supp_unique g h h' : ginv g -> counted_once g -> supp g h -> supp g h' -> h = h'.
Proof.
  intros I ND (i & m & Hi & L) (i' & m' & Hi' & L').
  destruct (quorums (map (fun t => snd (fst t)) (took g i (h, m))) (map (fun t => snd (fst t)) (took g i' (h', m'))))
    as (s & H1 & H2 & HH); try (rewrite map_length; assumption); try (apply took_nodup; exact ND).
  - intros s Hs. apply in_map_iff in Hs. destruct Hs as (((a & b) & c) & <- & Ht). apply took_in in Ht. destruct Ht as (Ht & _).
    apply (i_took g I) in Ht. apply Ht.
  - intros s Hs. apply in_map_iff in Hs. destruct Hs as (((a & b) & c) & <- & Ht). apply took_in in Ht. destruct Ht as (Ht & _).
    apply (i_took g I) in Ht. apply Ht.
  - apply in_map_iff in H1, H2. destruct H1 as (((a & b) & c) & E1 & T1), H2 as (((a' & b') & c') & E2 & T2).
    cbn [fst snd] in E1, E2. subst b b'. apply took_in in T1, T2. cbn [fst snd] in T1, T2. destruct T1 as (T1 & -> & ->), T2 as (T2 & -> & ->).
    apply (i_took g I) in T1, T2. exact (i_one g I _ _ _ _ _ (proj2 T1 HH) (proj2 T2 HH)).
Qed.

Lemma ginv_step g i e st outs : ginv g -> honest i -> authentic g i e -> rstep' (g_st g i) e = Ret (Some (st, outs)) ->
  ginv (gnext g i e st outs).
Proof.
  intros I Hi HA HS.
  pose proof (step_echo _ _ _ HS) as SE. pose proof (step_ready _ _ _ HS) as SR.
  pose proof (fun h => step_wait _ _ _ h HS) as SW. pose proof (fun x => step_outs _ _ _ x HS) as SO. pose proof (step_sends _ _ _ HS) as SS.
  cbn [fst snd] in SE, SR, SW, SO, SS.
  assert (CNT : forall k x, honest k -> count (r_echo (put (g_st g) i st k)) x = length (took (gnext g i e st outs) k x)).
  { intros k x Hk. rewrite took_gnext, app_length, <- (i_count g I k x Hk). unfold put. destruct (Nat.eqb_spec k i) as [->|Ne].
    - destruct e as [s M|s y| | |s y| | |]; rewrite SE; cbn [took_of filter length]; try lia.
      cbn [fst snd]. rewrite Nat.eqb_refl. destruct (hm_dec y x) as [->|Nx]; cbn [andb length].
      + rewrite count_echo_same. reflexivity.
      + rewrite count_echo_other by congruence. lia.
    - destruct e as [s M|s y| | |s y| | |]; cbn [took_of filter length]; try lia.
      cbn [fst snd]. rewrite (proj2 (Nat.eqb_neq i k)) by congruence. cbn [andb length]. lia. }
  assert (TK : forall a s x, In (a, s, x) (g_took (gnext g i e st outs)) -> (0 <= s < Z.of_nat N)%Z /\
     (honest (Z.to_nat s) -> In (Z.to_nat s, a, x) (g_echo (gnext g i e st outs)))).
  { intros a s x Hin. unfold gnext in *. cbn [g_took g_echo] in *. apply in_app_or in Hin. destruct Hin as [Hin|Hin].
    - apply (i_took g I) in Hin. destruct Hin as (H1 & H2). split; [exact H1|]. intros HH. apply in_or_app. left. auto.
    - destruct e as [s' M|s' y| | |s' y| | |]; cbn [took_of] in Hin; try contradiction. destruct Hin as [Hin|[]].
      apply (f_equal (fun t => (fst (fst t), snd (fst t), snd t))) in Hin. cbn [fst snd] in Hin. inversion Hin; subst.
      destruct HA as (H1 & H2). split; [exact H1|]. intros HH. apply in_or_app. left. auto. }
  assert (TI : forall k h j m, honest k -> In (j, m) (Tof (put (g_st g) i st k) h) -> (0 <= j < Z.of_nat N)%Z /\
     (honest (Z.to_nat j) -> In (Z.to_nat j, (h, m)) (g_ready g)) /\ In j (r_got (put (g_st g) i st k))).
  { intros k h j m Hk Hin. unfold put in *. destruct (Nat.eqb_spec k i) as [->|Ne]; [|apply (i_T g I); assumption].
    destruct SR as [(ET & EG)|(s & x & -> & NG & EG & ET)].
    - unfold Tof in Hin. rewrite ET in Hin. rewrite EG. apply (i_T g I); assumption.
    - rewrite (Tof_update _ _ _ _ h ET) in Hin. rewrite EG. destruct (list_eq_dec Z.eq_dec h (fst x)) as [->|Ne].
      + apply in_app_or in Hin. destruct Hin as [Hin|[Hin|[]]].
        * destruct (i_T g I i (fst x) j m Hk Hin) as (H1 & H2 & H3). split; [exact H1|]. split; [exact H2|]. right. exact H3.
        * apply (f_equal (fun t => (fst t, snd t))) in Hin. cbn [fst snd] in Hin. inversion Hin; subst. destruct HA as (H1 & H2).
          split; [exact H1|]. split; [|left; reflexivity]. intros HH. destruct x. apply H2. exact HH.
      + destruct (i_T g I i h j m Hk Hin) as (H1 & H2 & H3). split; [exact H1|]. split; [exact H2|]. right. exact H3. }
  assert (TN : forall k h, honest k -> NoDup (map fst (Tof (put (g_st g) i st k) h))).
  { intros k h Hk. unfold put. destruct (Nat.eqb_spec k i) as [->|Ne]; [|apply (i_Tnd g I); assumption].
    destruct SR as [(ET & EG)|(s & x & -> & NG & EG & ET)].
    - unfold Tof. rewrite ET. apply (i_Tnd g I i h Hk).
    - rewrite (Tof_update _ _ _ _ h ET). destruct (list_eq_dec Z.eq_dec h (fst x)) as [->|Ne]; [|apply (i_Tnd g I i h Hk)].
      rewrite map_app. apply nodup_app_intro; [apply (i_Tnd g I i _ Hk)|repeat constructor; intros []|].
      intros z Hz [<-|[]]. apply in_map_iff in Hz. destruct Hz as ((j & m) & E & Hz). cbn [fst] in E. subst j.
      apply NG. apply (i_T g I i _ s m Hk Hz). }
  assert (WT : forall k h, honest k -> wait_hash (r_rph (put (g_st g) i st k)) h -> supp (gnext g i e st outs) h).
  { intros k h Hk HW. apply supp_mono. unfold put in HW. destruct (Nat.eqb_spec k i) as [->|Ne]; [|apply (i_wait g I k h Hk HW)].
    destruct (SW h HW) as [HW'|HL]; [apply (i_wait g I i h Hk HW')|].
    destruct (honest_in (map fst (Tof st h))) as (s & Hs & HH).
    - specialize (TN i h Hk). unfold put in TN. rewrite Nat.eqb_refl in TN. exact TN.
    - intros s Hs. apply in_map_iff in Hs. destruct Hs as ((j & m) & <- & Hj). specialize (TI i h j m Hk). unfold put in TI.
      rewrite Nat.eqb_refl in TI. apply TI. exact Hj.
    - rewrite map_length. exact HL.
    - apply in_map_iff in Hs. destruct Hs as ((j & m) & <- & Hj). specialize (TI i h j m Hk). unfold put in TI.
      rewrite Nat.eqb_refl in TI. destruct (TI Hj) as (_ & H2 & _). apply (i_ready g I) with (x := (h, m)) (i := Z.to_nat j). apply H2. exact HH. }
  constructor; unfold gnext; cbn [g_st g_echo g_ready g_took].
  - exact CNT.
  - exact TK.
  - intros s j x Hin. apply in_app_or in Hin. destruct Hin as [Hin|Hin]; [apply (i_from g I) in Hin; exact Hin|].
    apply in_echoes in Hin. destruct Hin as (-> & _). exact Hi.
  - intros s j x Hin. unfold put. apply in_app_or in Hin. destruct Hin as [Hin|Hin].
    + pose proof (i_prop g I _ _ _ Hin) as P. destruct (Nat.eqb_spec s i) as [->|Ne]; [|exact P].
      destruct SS as [(E & _)|(E & _)]; congruence.
    + apply in_echoes in Hin. destruct Hin as (-> & Hin). rewrite Nat.eqb_refl.
      destruct SS as [(_ & E)|(_ & E & _)]; [destruct (E _ _ Hin)|exact E].
  - intros s j j' x x' Hin Hin'. apply in_app_or in Hin, Hin'. destruct Hin as [Hin|Hin], Hin' as [Hin'|Hin'].
    + apply (i_one g I s j j'); assumption.
    + apply in_echoes in Hin'. destruct Hin' as (-> & Hin'). pose proof (i_prop g I _ _ _ Hin) as P.
      destruct SS as [(_ & E)|(E & _)]; [destruct (E _ _ Hin')|congruence].
    + apply in_echoes in Hin. destruct Hin as (-> & Hin). pose proof (i_prop g I _ _ _ Hin') as P.
      destruct SS as [(_ & E)|(E & _)]; [destruct (E _ _ Hin)|congruence].
    + apply in_echoes in Hin, Hin'. destruct Hin as (-> & Hin), Hin' as (_ & Hin').
      destruct SS as [(_ & E)|(_ & _ & s & M & _ & E)]; [destruct (E _ _ Hin)|]. rewrite (E _ _ Hin), (E _ _ Hin'). reflexivity.
  - intros k x Hin. apply in_app_or in Hin. destruct Hin as [Hin|Hin].
    + apply (i_ready g I) in Hin. destruct Hin as (H1 & H2). split; [exact H1|].
      apply (supp_mono g i e st outs) in H2. exact H2.
    + apply in_readys in Hin. destruct Hin as (-> & Hin). split; [exact Hi|].
      destruct (SO x Hin) as [((s & E) & HL)|HW].
      * exists i, (snd x). split; [exact Hi|]. pose proof (CNT i x Hi) as C. unfold put in C. rewrite Nat.eqb_refl in C.
        rewrite <- surjective_pairing. change (took _ i x) with (took (gnext g i e st outs) i x). lia.
      * pose proof (i_wait g I i _ Hi HW) as H2. apply (supp_mono g i e st outs) in H2. exact H2.
  - intros k h j m Hk Hin. destruct (TI k h j m Hk Hin) as (H1 & H2 & H3). split; [exact H1|]. split; [|exact H3].
    intros HH. apply in_or_app. left. auto.
  - exact TN.
  - intros k h Hk HW. apply (WT k h Hk HW).
Qed.

Lemma reach_ginv g : reach g -> ginv g.
Proof.
  induction 1 as [|g i e st outs R IH Hi HA HS]; [exact ginv_init|]. apply ginv_step; assumption.
Qed.

Theorem ready_agree g : reach g -> counted_once g ->
  forall i i' x x', In (i, x) (g_ready g) -> In (i', x') (g_ready g) -> fst x = fst x'.
Proof.
  intros R ND i i' x x' H H'. pose proof (reach_ginv g R) as I.
  apply (supp_unique g _ _ I ND); [apply (i_ready g I _ _ H)|apply (i_ready g I _ _ H')].
Qed.

(** ** What is returned *)

Definition maxinv (st : rst) : Prop :=
  (r_maxN st = 0%nat \/ exists h, (r_maxN st <= length (Tof st h))%nat /\ (r_maxHash st = h \/ r_maxHash st = firstn 32 h)) /\
  (forall M, r_out st = Some (Some M) -> exists h, (N - F <= length (Tof st h))%nat /\ firstn 32 h = sha M).

Lemma maxinv_same st st' : maxinv st -> r_T st' = r_T st -> r_maxN st' = r_maxN st -> r_maxHash st' = r_maxHash st -> r_out st' = r_out st -> maxinv st'.
Proof.
  intros (A & B) E1 E2 E3 E4. assert (ET : forall h, Tof st' h = Tof st h) by (intros h; unfold Tof; rewrite E1; reflexivity). split.
  - rewrite E2, E3. destruct A as [A|(h & A)]; [left; exact A|right; exists h; rewrite ET; exact A].
  - intros M HM. rewrite E4 in HM. destruct (B M HM) as (h & Hh). exists h. rewrite ET. exact Hh.
Qed.

Lemma maxinv_step st e o : maxinv st -> rstep' st e = Ret (Some o) -> maxinv (fst o).
Proof.
  unfold rstep', rstep. destruct e as [s M|s x| | |s x| | |]; intros I H.
  - apply propose_inv in H. apply (maxinv_same st); tauto.
  - unfold echo_step in H. destruct (r_eph st); try discriminate. inv_some H o. apply (maxinv_same st); auto.
  - unfold push_step in H. destruct (r_eph st); try discriminate. destruct (length (r_chan st) <? N); [|discriminate]. inv_some H o. apply (maxinv_same st); auto.
  - unfold check_step in H. destruct (r_eph st); try discriminate. inv_some H o. apply (maxinv_same st); auto.
  - assert (Q : fst o = st \/ (r_T (fst o) = update (fst x) (Tof st (fst x) ++ [(s, snd x)]) (r_T st) /\
       r_maxN (fst o) = (if (r_maxN st <? length (Tof st (fst x) ++ [(s, snd x)])) then length (Tof st (fst x) ++ [(s, snd x)]) else r_maxN st) /\
       r_maxHash (fst o) = (if (r_maxN st <? length (Tof st (fst x) ++ [(s, snd x)])) then fst x else r_maxHash st) /\
       r_out (fst o) = r_out st)).
    { unfold ready_step in H. destruct (r_rph st), (r_eph st); try discriminate;
        (destruct (existsb (Z.eqb s) (r_got st)); [inv_some H o; left; reflexivity|]; destruct (negb (r_sent st) && _); inv_some H o; right; auto). }
    destruct Q as [->|(E1 & E2 & E3 & E4)]; [exact I|].
    assert (MO : forall h, (length (Tof st h) <= length (Tof (fst o) h))%nat).
    { intros h. rewrite (Tof_update _ _ _ _ h E1). destruct (list_eq_dec Z.eq_dec h (fst x)) as [->|_]; [rewrite app_length; lia|]. unfold Tof. lia. }
    destruct I as (A & B). split.
    + rewrite E2, E3. destruct (r_maxN st <? length (Tof st (fst x) ++ [(s, snd x)])) eqn:EL.
      * right. exists (fst x). split; [|left; reflexivity]. rewrite (Tof_update _ _ _ _ _ E1). destruct (list_eq_dec _ _ _) as [_|K]; [lia|congruence].
      * destruct A as [A|(h & A1 & A2)]; [left; exact A|]. right. exists h. split; [|exact A2]. specialize (MO h). lia.
    + intros M HM. rewrite E4 in HM. destruct (B M HM) as (h & H1 & H2). exists h. split; [|exact H2]. specialize (MO h). lia.
  - unfold pop_step in H. destruct (r_rph st), (r_chan st); try discriminate. inv_some H o. apply (maxinv_same st); auto.
  - unfold send_step in H. destruct (r_rph st), (r_eph st); try discriminate;
      (destruct (F + 1 <=? count (r_echo st) x); inv_some H o; apply (maxinv_same st); auto).
  - unfold decode_step in H. destruct (r_out st) eqn:EO; [discriminate|]. destruct (r_rph st); try discriminate.
    destruct (r_start st && _) eqn:EB; [|discriminate]. apply andb_true_iff in EB. destruct EB as (_ & EB). apply Nat.leb_le in EB.
    apply bind_ret in H. destruct H as (M & _ & H). cbv zeta in H. destruct (length (r_maxHash st) <? 32); [discriminate|].
    destruct (_ <? _)%Z; [discriminate|]. inv_some H o. destruct I as ([A|(h & A1 & A2)] & B); [lia|].
    assert (FH : firstn 32 (r_maxHash st) = firstn 32 h) by (destruct A2 as [->| ->]; [reflexivity|rewrite firstn_firstn; reflexivity]).
    split.
    + right. exists h. split; [exact A1|]. right. exact FH.
    + cbn [r_out]. intros M' HM. exists h. split; [unfold Tof in *; cbn [r_T]; lia|]. rewrite <- FH. destruct (bytes_eqb _ _) eqn:EQ.
      * apply bytes_eqb_eq in EQ. inversion HM; subst. symmetry. exact EQ.
      * destruct (_ <? _)%nat; discriminate.
Qed.

Lemma reach_max g i : reach g -> maxinv (g_st g i).
Proof.
  induction 1 as [|g k e st outs R IH Hk HA HS].
  - split; [left; reflexivity|intros M K; discriminate].
  - unfold gnext, put. cbn [g_st]. destruct (i =? k)%nat eqn:E; [|exact IH]. apply Nat.eqb_eq in E. subst k. apply (maxinv_step _ _ _ IH HS).
Qed.

Lemma output_ready g i M : reach g -> honest i -> r_out (g_st g i) = Some (Some M) -> exists s x, In (s, x) (g_ready g) /\ firstn 32 (fst x) = sha M.
Proof.
  intros R Hi E. destruct (reach_max g i R) as (_ & B). destruct (B M E) as (h & L & HM). pose proof (reach_ginv g R) as I.
  destruct (honest_in (map fst (Tof (g_st g i) h))) as (s & Hs & HH).
  - apply (i_Tnd _ I). exact Hi.
  - intros s Hs. apply in_map_iff in Hs. destruct Hs as ((j & m) & <- & Hj). apply (i_T _ I _ _ _ _ Hi Hj).
  - rewrite map_length. lia.
  - apply in_map_iff in Hs. destruct Hs as ((j & m) & <- & Hj). cbn [fst] in HH. destruct (i_T _ I _ _ _ _ Hi Hj) as (_ & K & _).
    exists (Z.to_nat j), (h, m). split; [apply K; exact HH|exact HM].
Qed.

(** Two honest members that return a message return messages with the same SHA-256 value. *)
Theorem output_agree g i i' M M' : reach g -> counted_once g -> honest i -> honest i' ->
  r_out (g_st g i) = Some (Some M) -> r_out (g_st g i') = Some (Some M') -> sha M = sha M'.
Proof.
  intros R ND Hi Hi' E E'. destruct (output_ready g i M R Hi E) as (s & x & H1 & H2). destruct (output_ready g i' M' R Hi' E') as (s' & x' & H3 & H4).
  rewrite <- H2, <- H4. f_equal. apply (ready_agree g R ND s s'); assumption.
Qed.

(** ** How often readiness is announced *)

Definition announced (outs : list rout) : nat := length (filter (fun o => match o with SendAll _ => true | _ => false end) outs).
Definition sends (e : rev) : nat := match e with EvReadySend => 1 | _ => 0 end.

Definition ainv (st : rst) (n : nat) : Prop :=
  (r_sent st = false -> n = 0%nat) /\ (r_rph st <> RRecv -> (n <= 1)%nat) /\ (n <= 2)%nat.

Lemma announced_step st e o : rstep' st e = Ret (Some o) ->
  (announced (snd o) = 0%nat /\ (r_sent (fst o) = r_sent st) /\ (r_rph (fst o) <> RRecv -> r_rph st <> RRecv \/ r_sent st = false)) \/
  (announced (snd o) = 1%nat /\ r_sent st = false /\ r_sent (fst o) = true /\ sends e = 0%nat) \/
  (announced (snd o) = 1%nat /\ r_rph st <> RRecv /\ r_rph (fst o) = RRecv /\ r_sent (fst o) = true /\ sends e = 1%nat).
Proof using Type.
  clear Hbad HNF.
  unfold rstep', rstep. destruct e as [s M|s x| | |s x| | |]; intros H.
  - apply propose_inv in H. destruct H as (_ & _ & _ & _ & _ & ER & ES & _ & _ & _ & _ & _ & _ & _ & sh & _ & _ & E). left. rewrite ER, ES, E.
    split; [|auto]. unfold announced. clear. induction (seq 0 N) as [|a l IH]; [reflexivity|]. exact IH.
  - unfold echo_step in H. destruct (r_eph st); try discriminate. inv_some H o. cbn [r_sent r_rph]. destruct (r_sent st) eqn:ES; cbn [negb andb orb].
    + left. auto.
    + destruct (N - F <=? _); [right; left|left]; auto.
  - unfold push_step in H. destruct (r_eph st); try discriminate. destruct (length (r_chan st) <? N); [|discriminate]. inv_some H o. left. auto.
  - unfold check_step in H. destruct (r_eph st); try discriminate. inv_some H o. left. auto.
  - unfold ready_step in H. destruct (r_rph st) eqn:ER, (r_eph st); try discriminate;
      (destruct (existsb (Z.eqb s) (r_got st)); [inv_some H o; left; rewrite ER; auto|]; destruct (negb (r_sent st) && _) eqn:EN; inv_some H o; cbn [r_sent r_rph]; left;
       [apply andb_true_iff in EN; destruct EN as (EN & _); apply negb_true_iff in EN; auto|split; [reflexivity|]; split; [reflexivity|]; intros K; contradiction]).
  - unfold pop_step in H. destruct (r_rph st) eqn:ER, (r_chan st); try discriminate. inv_some H o. left. split; [reflexivity|]. split; [reflexivity|]. intros _. left. discriminate.
  - unfold send_step in H. destruct (r_rph st) eqn:ER, (r_eph st); try discriminate;
      (destruct (F + 1 <=? count (r_echo st) x); inv_some H o; cbn [r_sent r_rph];
       [right; right; split; [reflexivity|]; split; [discriminate|]; auto|left; split; [reflexivity|]; split; [reflexivity|]; intros _; left; discriminate]).
  - unfold decode_step in H. destruct (r_out st), (r_rph st) eqn:ER; try discriminate. destruct (r_start st && _); [|discriminate].
    apply bind_ret in H. destruct H as (M & _ & H). cbv zeta in H. destruct (length (r_maxHash st) <? 32); [discriminate|].
    destruct (_ <? _)%Z; [discriminate|]. inv_some H o. left. split; [reflexivity|]. split; [reflexivity|]. intros K. contradiction.
Qed.

(** A run of one member: the steps of the list that can be taken are taken. *)
Fixpoint lrun (st : rst) (evs : list rev) : go (rst * list rout) :=
  match evs with
  | [] => Ret (st, [])
  | e :: evs =>
    r <- rstep' st e ;;
    match r with
    | None => lrun st evs
    | Some o => p <- lrun (fst o) evs ;; Ret (fst p, snd o ++ snd p)
    end
  end.

Lemma announced_app a b : announced (a ++ b) = (announced a + announced b)%nat.
Proof using Type.
  clear Hbad HNF. unfold announced. rewrite filter_app, app_length. reflexivity. Qed.

Lemma lrun_announced evs : forall st n o, ainv st n -> lrun st evs = Ret o -> (n + announced (snd o) <= 2)%nat.
Proof using Type.
  clear Hbad HNF.
  induction evs as [|e evs IH]; intros st n o (A1 & A2 & A3) H; cbn [lrun] in H.
  - apply (f_equal (fun x => match x with Ret a => a | _ => o end)) in H. subst o. cbn. lia.
  - apply bind_ret in H. destruct H as ([o1|] & E & H).
    + apply bind_ret in H. destruct H as (p & E2 & H). apply (f_equal (fun x => match x with Ret a => a | _ => o end)) in H. subst o. cbn [snd].
      rewrite announced_app. rewrite Nat.add_assoc. apply (IH (fst o1)); [|exact E2].
      destruct (announced_step st e o1 E) as [(B1 & B2 & B3)|[(B1 & B2 & B3 & _)|(B1 & B2 & B3 & B4 & _)]]; rewrite B1.
      * rewrite Nat.add_0_r. split; [rewrite B2; exact A1|]. split; [|exact A3]. intros K. destruct (B3 K) as [K'|K']; [apply A2; exact K'|rewrite (A1 K'); lia].
      * rewrite (A1 B2). split; [rewrite B3; discriminate|]. split; intros; lia.
      * specialize (A2 B2). split; [rewrite B4; discriminate|]. split; [intros K; congruence|lia].
    + apply (IH st n o); [split; auto|exact H].
Qed.

Lemma lrun_announced_sends evs : forall st n k o, (r_sent st = false -> n = 0%nat) -> (n <= 1 + k)%nat -> lrun st evs = Ret o ->
  (n + announced (snd o) <= 1 + k + list_sum (map sends evs))%nat.
Proof using Type.
  clear Hbad HNF.
  induction evs as [|e evs IH]; intros st n k o A1 A3 H; cbn [lrun] in H.
  - apply (f_equal (fun x => match x with Ret a => a | _ => o end)) in H. subst o. cbn. lia.
  - cbn [map list_sum fold_right]. fold (list_sum (map sends evs)). apply bind_ret in H. destruct H as ([o1|] & E & H).
    + apply bind_ret in H. destruct H as (p & E2 & H). apply (f_equal (fun x => match x with Ret a => a | _ => o end)) in H. subst o. cbn [snd].
      rewrite announced_app, Nat.add_assoc.
      destruct (announced_step st e o1 E) as [(B1 & B2 & B3)|[(B1 & B2 & B3 & B4)|(B1 & B2 & B3 & B4 & B5)]]; rewrite B1.
      * specialize (IH (fst o1) n k p). rewrite B2 in IH. specialize (IH A1 A3 E2). lia.
      * rewrite (A1 B2), B4. specialize (IH (fst o1) 1%nat k p). rewrite B3 in IH. specialize (IH ltac:(discriminate) ltac:(lia) E2). lia.
      * rewrite B5. specialize (IH (fst o1) (n + 1)%nat (k + 1)%nat p). rewrite B4 in IH. specialize (IH ltac:(discriminate) ltac:(lia) E2). lia.
    + specialize (IH st n k o A1 A3 H). lia.
Qed.
End Exec.
