(** Headline theorems: reliable broadcast (C31-C33). *)

Require Import ZArith List Bool Arith Lia.
From Verif Require Import Bytes CodecModel CodecProofs GoBase DispatchModel DispatchProofs PolyProofs VssModel RbcModel RbcProofs RbcGood.
Import ListNotations.

Section Rbc.
Variable sha : list Z -> list Z.
Variable rs_encode : nat -> nat -> list Z -> option (list (list Z)).
Variable rs_verify : nat -> nat -> list (list Z) -> bool.
Variable rs_reconstruct : nat -> nat -> list (list Z) -> list (list Z).
Variables N F : nat.
Variable bad : list nat.
Hypothesis Hbad : (length bad <= F)%nat.
Hypothesis HNF : (3 * F + 1 <= N)%nat.

(** C31: with authenticated channels and no Echo counted twice, all readiness messages of honest
    members carry the same hash, in every reachable state; no property of SHA-256 or of the coder is used. *)
Theorem c31_no_two_values g : reach sha rs_encode rs_verify rs_reconstruct N F bad g -> counted_once g ->
  forall i i' h m h' m', In (i, (h, m)) (g_ready g) -> In (i', (h', m')) (g_ready g) -> h = h'.
Proof.
  intros R ND i i' h m h' m' H H'.
  exact (ready_agree sha rs_encode rs_verify rs_reconstruct N F bad Hbad HNF g R ND i i' _ _ H H').
Qed.

(** C31, what it is for: honest members do not return different messages, unless SHA-256 collides on them. *)
Theorem c31_outputs_agree g i i' M M' : reach sha rs_encode rs_verify rs_reconstruct N F bad g -> counted_once g ->
  honest N bad i -> honest N bad i' -> r_out (g_st g i) = Some (Some M) -> r_out (g_st g i') = Some (Some M') ->
  (sha M = sha M' -> M = M') -> M = M'.
Proof.
  intros R ND Hi Hi' E E' C. apply C.
  exact (output_agree sha rs_encode rs_verify rs_reconstruct N F bad Hbad HNF g i i' M M' R ND Hi Hi' E E').
Qed.

(** C33: a member announces readiness at most twice, whatever it receives and in whatever order its
    goroutines run; and at most once if the goroutine for Ready messages never sends. *)
Theorem c33_at_most_two evs st outs : lrun sha rs_encode rs_verify rs_reconstruct N F rbc_init evs = Ret (st, outs) ->
  (announced outs <= 2)%nat.
Proof.
  intros H. apply (lrun_announced sha rs_encode rs_verify rs_reconstruct N F evs rbc_init 0 (st, outs)); [|exact H].
  split; [reflexivity|]. split; intros; lia.
Qed.

Theorem c33_at_most_once evs st outs : lrun sha rs_encode rs_verify rs_reconstruct N F rbc_init evs = Ret (st, outs) ->
  ~ In EvReadySend evs -> (announced outs <= 1)%nat.
Proof.
  intros H NI. pose proof (lrun_announced_sends sha rs_encode rs_verify rs_reconstruct N F evs rbc_init 0 0 (st, outs) (fun _ => eq_refl) ltac:(lia) H) as K.
  assert (Z : list_sum (map sends evs) = 0%nat).
  { clear -NI. induction evs as [|e evs IH]; [reflexivity|]. cbn [map list_sum fold_right]. fold (list_sum (map sends evs)). rewrite IH.
    - destruct e; try reflexivity. exfalso. apply NI. left. reflexivity.
    - intros K. apply NI. right. exact K. }
  cbn [snd] in K. lia.
Qed.

(** C32: the corrupted members are silent ([good]: only the dealer's message and messages sent by
    honest members are taken).  When everything that could be done has been done, every honest
    member has returned the dealer's message; none returns anything else before, and none panics. *)
Theorem c32_validity M shards g : rs_good rs_encode rs_verify rs_reconstruct N F M shards ->
  length (sha M) = 32%nat -> (Z.of_nat (length M) < 2 ^ 32)%Z ->
  good sha rs_encode rs_verify rs_reconstruct N F bad M g ->
  (quiescent sha rs_encode rs_verify rs_reconstruct N F bad M g -> forall i, honest N bad i -> r_out (g_st g i) = Some (Some M)) /\
  (forall i r, honest N bad i -> r_out (g_st g i) = Some r -> r = Some M) /\
  (forall i e, honest N bad i -> good_event N bad M g i e ->
     exists o, rstep sha rs_encode rs_verify rs_reconstruct N F (g_st g i) e = Ret o).
Proof.
  intros RS HS HL G. split; [|split].
  - intros Q i Hi. exact (quiescent_output sha rs_encode rs_verify rs_reconstruct N F bad M shards RS HS HL HNF Hbad g G Q i Hi).
  - intros i r Hi E. exact (good_output sha rs_encode rs_verify rs_reconstruct N F bad M shards RS HS HL HNF Hbad g i r G Hi E).
  - intros i e Hi Ge. exact (good_no_panic sha rs_encode rs_verify rs_reconstruct N F bad M shards RS HS HL HNF Hbad g i e G Hi Ge).
Qed.
End Rbc.


Print Assumptions c31_no_two_values.
Print Assumptions c31_outputs_agree.
Print Assumptions c33_at_most_two.
Print Assumptions c33_at_most_once.
Print Assumptions c32_validity.

(** ** Runs *)

(** A coder satisfying [rs_good]: every shard is the message.  As in the library, Reconstruct only
    fills in missing shards, and Verify fails when one is missing or does not fit. *)
Definition toy_encode (N F : nat) (M : list Z) : option (list (list Z)) :=
  match M with [] => None | _ => Some (repeat M N) end.
Definition toy_verify (N F : nat) (X : list (list Z)) : bool :=
  forallb (fun s => negb (bytes_eqb s []) && bytes_eqb s (nth 0 X [])) X.
Definition toy_reconstruct (N F : nat) (X : list (list Z)) : list (list Z) :=
  let s := nth 0 (filter (fun s => negb (bytes_eqb s [])) X) [] in
  map (fun t => if bytes_eqb t [] then s else t) X.
(** 32 bytes, different for different messages of up to 32 bytes without trailing zeros. *)
Definition toy_sha (M : list Z) : list Z := firstn 32 (M ++ repeat 0%Z 32).

Lemma toy_sha_length M : length (toy_sha M) = 32%nat.
Proof. unfold toy_sha. rewrite firstn_length, app_length, repeat_length. lia. Qed.

Lemma toy_good N F M : M <> [] -> (F + 1 < N)%nat -> rs_good toy_encode toy_verify toy_reconstruct N F M (repeat M N).
Proof.
  intros NM HN. split; [|split; [|split; [|split; [|split]]]].
  - unfold toy_encode. destruct M; [contradiction|reflexivity].
  - apply repeat_length.
  - apply Forall_forall. intros s Hs. apply repeat_spec in Hs. subst s. exact NM.
  - destruct (N - (F + 1))%nat as [|k] eqn:EK; [lia|]. destruct N as [|n]; [lia|]. cbn [repeat firstn concat].
    eexists. reflexivity.
  - intros X _ H. apply Forall_forall. intros s Hs. unfold toy_verify in H. rewrite forallb_forall in H. specialize (H s Hs).
    apply andb_true_iff in H. destruct H as (H & _). intros ->. discriminate.
  - intros X LX HX HC. f_equal. unfold toy_reconstruct.
    assert (S : nth 0 (filter (fun s => negb (bytes_eqb s [])) X) [] = M).
    { set (K := filter _ X) in *. assert (I : In (nth 0 K []) K) by (apply nth_In; lia). unfold K in I at 2. apply filter_In in I. destruct I as (I1 & I2).
      destruct (In_nth _ _ [] I1) as (j & Hj & Ej). destruct (HX j ltac:(lia)) as [E|E]; rewrite Ej in E.
      - rewrite E in I2. discriminate.
      - rewrite E. clear -HN Hj LX. rewrite (nth_indep _ [] M) by (rewrite repeat_length; lia). apply nth_repeat. }
    rewrite S. apply (list_ext []); [rewrite map_length, repeat_length; exact LX|]. rewrite map_length. intros i Hi.
    assert (RN : nth i (repeat M N) [] = M) by (rewrite (nth_indep _ [] M) by (rewrite repeat_length; lia); apply nth_repeat).
    rewrite (nth_indep _ [] (if bytes_eqb [] [] then M else [])) by (rewrite map_length; exact Hi).
    rewrite (map_nth (fun t => if bytes_eqb t [] then M else t)). rewrite RN. destruct (HX i ltac:(lia)) as [E|E]; rewrite E; [reflexivity|].
    rewrite RN. destruct (bytes_eqb M []) eqn:EB; reflexivity.
Qed.

Section Executor.
Variables N F : nat.
Variable bad : list nat.
Notation tstep := (rstep toy_sha toy_encode toy_verify toy_reconstruct N F).

Definition honestb (i : nat) : bool := (i <? N)%nat && negb (existsb (Nat.eqb i) bad).
Lemma honestb_ok i : honestb i = true <-> honest N bad i.
Proof.
  unfold honestb, honest. rewrite andb_true_iff, Nat.ltb_lt, negb_true_iff. split; intros (A & B); split; auto.
  - intros K. rewrite (proj2 (existsb_exists _ _)) in B; [discriminate|]. exists i. split; [exact K|apply Nat.eqb_refl].
  - destruct (existsb (Nat.eqb i) bad) eqn:E; [|reflexivity]. exfalso. apply existsb_exists in E. destruct E as (k & H1 & H2). apply Nat.eqb_eq in H2.
    subst k. exact (B H1).
Qed.

Definition echo_dec (a b : nat * nat * hm) : {a = b} + {a <> b}.
Proof. decide equality; [apply hm_dec|decide equality; apply Nat.eq_dec]. Defined.
Definition ready_dec (a b : nat * hm) : {a = b} + {a <> b}.
Proof. decide equality; [apply hm_dec|apply Nat.eq_dec]. Defined.
Definition took_dec (a b : nat * Z * hm) : {a = b} + {a <> b}.
Proof. decide equality; [apply hm_dec|decide equality; [apply Z.eq_dec|apply Nat.eq_dec]]. Defined.
Definition pair_dec (a b : nat * Z) : {a = b} + {a <> b}.
Proof. decide equality; [apply Z.eq_dec|apply Nat.eq_dec]. Defined.
Definition inb {A} (d : forall a b : A, {a = b} + {a <> b}) (x : A) (l : list A) : bool := if in_dec d x l then true else false.
Lemma inb_ok {A} (d : forall a b : A, {a = b} + {a <> b}) x l : inb d x l = true <-> In x l.
Proof. unfold inb. destruct (in_dec d x l); split; auto; discriminate. Qed.

Definition authb (g : gst) (i : nat) (e : rev) : bool :=
  match e with
  | EvEcho s x => (0 <=? s)%Z && (s <? Z.of_nat N)%Z && (negb (honestb (Z.to_nat s)) || inb echo_dec (Z.to_nat s, i, x) (g_echo g))
  | EvReady s x => (0 <=? s)%Z && (s <? Z.of_nat N)%Z && (negb (honestb (Z.to_nat s)) || inb ready_dec (Z.to_nat s, x) (g_ready g))
  | _ => true
  end.
Lemma authb_ok g i e : authb g i e = true -> authentic N bad g i e.
Proof.
  destruct e; cbn [authb authentic]; auto; rewrite !andb_true_iff, orb_true_iff, negb_true_iff; intros ((A & B) & C); (split; [lia|]);
    intros K; apply honestb_ok in K; (destruct C as [C|C]; [congruence|apply inb_ok in C; exact C]).
Qed.

Definition goodb (M : list Z) (g : gst) (i : nat) (e : rev) : bool :=
  match e with
  | EvPropose _ M' => bytes_eqb M' M
  | EvEcho s x => (0 <=? s)%Z && honestb (Z.to_nat s) && inb echo_dec (Z.to_nat s, i, x) (g_echo g) && negb (inb pair_dec (i, s) (map fst (g_took g)))
  | EvReady s x => (0 <=? s)%Z && honestb (Z.to_nat s) && inb ready_dec (Z.to_nat s, x) (g_ready g)
  | _ => true
  end.
Lemma goodb_ok M g i e : goodb M g i e = true -> good_event N bad M g i e.
Proof.
  destruct e; cbn [goodb good_event]; auto; rewrite ?andb_true_iff.
  - intros H. apply bytes_eqb_eq. exact H.
  - intros (((A & B) & C) & D). rewrite Z.leb_le in A. rewrite honestb_ok in B. rewrite inb_ok in C. apply negb_true_iff in D.
    split; [exact A|]. split; [exact B|]. split; [exact C|]. intros K. apply (inb_ok pair_dec) in K. congruence.
  - intros ((A & B) & C). rewrite Z.leb_le in A. rewrite honestb_ok in B. rewrite inb_ok in C. auto.
Qed.

(** Executes a schedule; every step must be possible and allowed. *)
Fixpoint exec (ok : gst -> nat -> rev -> bool) (g : gst) (evs : list (nat * rev)) : option gst :=
  match evs with
  | [] => Some g
  | (i, e) :: evs =>
    if honestb i && ok g i e then
      match tstep (g_st g i) e with Ret (Some (st, outs)) => exec ok (gnext g i e st outs) evs | _ => None end
    else None
  end.

Lemma exec_reach evs : forall g g', reach toy_sha toy_encode toy_verify toy_reconstruct N F bad g -> exec authb g evs = Some g' ->
  reach toy_sha toy_encode toy_verify toy_reconstruct N F bad g'.
Proof.
  induction evs as [|(i & e) evs IH]; intros g g' R H; cbn [exec] in H; [inversion H; subst; exact R|].
  destruct (honestb i && authb g i e) eqn:EB; [|discriminate]. apply andb_true_iff in EB. destruct EB as (E1 & E2).
  destruct (tstep (g_st g i) e) as [[(st & outs)|]| | |] eqn:ES; try discriminate. apply (IH (gnext g i e st outs) g'); [|exact H].
  constructor; [exact R|apply honestb_ok; exact E1|apply authb_ok; exact E2|exact ES].
Qed.

Lemma exec_good M evs : forall g g', good toy_sha toy_encode toy_verify toy_reconstruct N F bad M g -> exec (goodb M) g evs = Some g' ->
  good toy_sha toy_encode toy_verify toy_reconstruct N F bad M g'.
Proof.
  induction evs as [|(i & e) evs IH]; intros g g' R H; cbn [exec] in H; [inversion H; subst; exact R|].
  destruct (honestb i && goodb M g i e) eqn:EB; [|discriminate]. apply andb_true_iff in EB. destruct EB as (E1 & E2).
  destruct (tstep (g_st g i) e) as [[(st & outs)|]| | |] eqn:ES; try discriminate. apply (IH (gnext g i e st outs) g'); [|exact H].
  constructor; [exact R|apply honestb_ok; exact E1|apply goodb_ok; exact E2|exact ES].
Qed.

Definition stuck (st : rst) (e : rev) : bool := match tstep st e with Ret None => true | _ => false end.
Lemma stuck_ok st e : stuck st e = true -> tstep st e = Ret None.
Proof. unfold stuck. destruct (tstep st e) as [[?|]| | |]; try discriminate. reflexivity. Qed.

Definition quietb (M : list Z) (g : gst) : bool :=
  forallb (fun i => negb (honestb i) ||
    (forallb (stuck (g_st g i)) [EvPropose 0%Z M; EvEchoPush; EvEchoCheck; EvReadyPop; EvReadySend; EvDecode] &&
     forallb (fun t : nat * nat * hm => negb (snd (fst t) =? i)%nat || inb took_dec (i, Z.of_nat (fst (fst t)), snd t) (g_took g)
         || stuck (g_st g i) (EvEcho (Z.of_nat (fst (fst t))) (snd t))) (g_echo g) &&
     forallb (fun t : nat * hm => inb Z.eq_dec (Z.of_nat (fst t)) (r_got (g_st g i)) || stuck (g_st g i) (EvReady (Z.of_nat (fst t)) (snd t))) (g_ready g)))
  (seq 0 N).
Lemma quietb_ok M g : quietb M g = true -> quiescent toy_sha toy_encode toy_verify toy_reconstruct N F bad M g.
Proof.
  intros H i Hi. unfold quietb in H. rewrite forallb_forall in H. specialize (H i ltac:(apply in_seq; destruct Hi; lia)).
  apply orb_true_iff in H. destruct H as [H|H]; [apply negb_true_iff in H; apply honestb_ok in Hi; congruence|].
  rewrite !andb_true_iff in H. destruct H as ((H1 & H2) & H3). split; [|split].
  - rewrite forallb_forall in H1. apply Forall_forall. intros e He. apply stuck_ok. apply H1. exact He.
  - intros s x Hx. rewrite forallb_forall in H2. specialize (H2 _ Hx). cbn [fst snd] in H2. rewrite Nat.eqb_refl in H2. cbn [negb orb] in H2.
    apply orb_true_iff in H2. destruct H2 as [K|K]; [left; apply inb_ok in K; exact K|right; apply stuck_ok; exact K].
  - intros s x Hx. rewrite forallb_forall in H3. specialize (H3 _ Hx). cbn [fst snd] in H3.
    apply orb_true_iff in H3. destruct H3 as [K|K]; [left; apply inb_ok in K; exact K|right; apply stuck_ok; exact K].
Qed.
End Executor.

Definition demoM : list Z := [7; 8; 9]%Z.
Definition demoX : hm := (tag toy_sha demoM, demoM).

Definition echo_from (i : nat) (s : Z) : list (nat * rev) := [(i, EvEcho s demoX); (i, EvEchoCheck)].

(** C31: the implementation counts messages, not senders; one corrupted member of four makes two
    honest members announce different values of its choice. *)
Theorem c31_replay_refuted : exists g h h' m m', reach toy_sha toy_encode toy_verify toy_reconstruct 4 1 [3%nat] g /\
  In (0%nat, (h, m)) (g_ready g) /\ In (1%nat, (h', m')) (g_ready g) /\ h <> h'.
Proof.
  pose (evs := flat_map (fun i : nat => flat_map (fun _ : nat => [(i, EvEcho 3%Z ([Z.of_nat i], [5%Z])); (i, EvEchoCheck)]) [0; 1; 2]%nat) [0; 1]%nat).
  destruct (exec 4 1 [3%nat] (authb 4 [3%nat]) g_init evs) as [g|] eqn:E; [|vm_compute in E; discriminate].
  exists g, [0%Z], [1%Z], [5%Z], [5%Z]. split; [exact (exec_reach 4 1 [3%nat] evs _ _ (reach_init _ _ _ _ _ _ _) E)|].
  vm_compute in E. inversion E. cbn [g_ready]. split; [left; reflexivity|]. split; [right; left; reflexivity|discriminate].
Qed.

(** C33: with honest members only, one of them announces readiness twice: F+1 Ready messages arrive
    before its N-F-th Echo. *)
Theorem c33_refuted : exists g, reach toy_sha toy_encode toy_verify toy_reconstruct 4 1 [] g /\ counted_once g /\
  length (filter (fun t : nat * hm => (fst t =? 2)%nat) (g_ready g)) = 2%nat.
Proof.
  pose (evs := map (fun i => (i, EvPropose 0%Z demoM)) [0; 1; 2; 3]%nat ++
     flat_map (fun i => flat_map (echo_from i) [0; 1; 2]%Z) [0; 1]%nat ++
     [(2%nat, EvReady 0%Z demoX); (2%nat, EvReady 1%Z demoX)] ++ flat_map (echo_from 2) [0; 1; 2]%Z ++ [(2%nat, EvReadyPop); (2%nat, EvReadySend)]).
  destruct (exec 4 1 [] (authb 4 []) g_init evs) as [g|] eqn:E; [|vm_compute in E; discriminate].
  exists g. split; [exact (exec_reach 4 1 [] evs _ _ (reach_init _ _ _ _ _ _ _) E)|].
  vm_compute in E. inversion E. split; [|reflexivity]. unfold counted_once. cbn [g_took map fst].
  repeat constructor; cbn [In]; intros K; repeat (destruct K as [K|K]; [discriminate|]); exact K.
Qed.

(** C32: the dealer is honest, but corrupted member 0 sends a Ready message with the right hash and a
    wrong shard: member 1, which has the Ready messages of everyone, returns nil. *)
Theorem c32_wrong_shard_refuted : exists g, reach toy_sha toy_encode toy_verify toy_reconstruct 4 1 [0%nat] g /\ counted_once g /\
  (forall s j x, In (s, j, x) (g_echo g) -> x = demoX) /\ (forall s, honest 4 [0%nat] s -> In (Z.of_nat s) (r_got (g_st g 1))) /\
  r_out (g_st g 1) = Some None.
Proof.
  pose (evs := map (fun i => (i, EvPropose 0%Z demoM)) [1; 2; 3]%nat ++
     flat_map (fun i => flat_map (echo_from i) [1; 2; 3]%Z) [1; 2; 3]%nat ++
     [(1%nat, EvReady 0%Z (tag toy_sha demoM, [6; 6; 6]%Z)); (1%nat, EvReady 1%Z demoX); (1%nat, EvReady 2%Z demoX); (1%nat, EvDecode);
      (1%nat, EvReady 3%Z demoX); (1%nat, EvDecode)]).
  destruct (exec 4 1 [0%nat] (authb 4 [0%nat]) g_init evs) as [g|] eqn:E; [|vm_compute in E; discriminate].
  exists g. split; [exact (exec_reach 4 1 [0%nat] evs _ _ (reach_init _ _ _ _ _ _ _) E)|].
  vm_compute in E. inversion E. clear. split; [|split; [|split; [|reflexivity]]].
  - unfold counted_once. cbn [g_took map fst].
    repeat constructor; cbn [In]; intros K; repeat (destruct K as [K|K]; [discriminate|]); exact K.
  - intros s j x K. cbn [g_echo] in K. repeat (destruct K as [K|K]; [inversion K; reflexivity|]). destruct K.
  - intros s (Hs & NB). destruct s as [|[|[|[|s]]]]; [exfalso; apply NB; left; reflexivity| | | |lia]; vm_compute; auto.
Qed.

(** A run as in [c32_validity], with member 3 silent, until nothing is left to do; member 2 takes
    Ready messages before Echo messages. *)
Definition demo_run : list (nat * rev) :=
  map (fun i => (i, EvPropose 0%Z demoM)) [0; 1; 2]%nat ++
  flat_map (fun i => flat_map (echo_from i) [2; 1; 0]%Z) [0; 1]%nat ++
  [(2%nat, EvReady 0%Z demoX); (2%nat, EvReady 1%Z demoX)] ++ flat_map (echo_from 2) [0; 1; 2]%Z ++ [(2%nat, EvReadyPop); (2%nat, EvReadySend)] ++
  flat_map (fun i => map (fun s => (i, EvReady s demoX)) [0; 1; 2]%Z) [0; 1]%nat ++ [(2%nat, EvReady 2%Z demoX)] ++
  map (fun i => (i, EvDecode)) [0; 1; 2]%nat.

Example c32_example : exists g, good toy_sha toy_encode toy_verify toy_reconstruct 4 1 [3%nat] demoM g /\
  quiescent toy_sha toy_encode toy_verify toy_reconstruct 4 1 [3%nat] demoM g /\ r_out (g_st g 2) = Some (Some demoM).
Proof.
  destruct (exec 4 1 [3%nat] (goodb 4 [3%nat] demoM) g_init demo_run) as [g|] eqn:E; [|vm_compute in E; discriminate].
  exists g. split; [exact (exec_good 4 1 [3%nat] demoM demo_run _ _ (good_init _ _ _ _ _ _ _ _) E)|].
  assert (Q : quietb 4 1 [3%nat] demoM g = true) by (vm_compute in E; inversion E; vm_compute; reflexivity).
  split; [apply quietb_ok; exact Q|]. vm_compute in E. inversion E. reflexivity.
Qed.

(** The hypotheses of [c31_no_two_values] hold of a run in which a corrupted member does send. *)
Example c31_example : exists g, reach toy_sha toy_encode toy_verify toy_reconstruct 4 1 [3%nat] g /\ counted_once g /\
  In (0%nat, demoX) (g_ready g) /\ In (1%nat, demoX) (g_ready g) /\ In (0%nat, 3%Z, ([1%Z], [1%Z])) (g_took g).
Proof.
  pose (evs := map (fun i => (i, EvPropose 0%Z demoM)) [0; 1; 2]%nat ++ [(0%nat, EvEcho 3%Z ([1%Z], [1%Z])); (0%nat, EvEchoCheck)] ++
     flat_map (fun i => flat_map (echo_from i) [0; 1; 2]%Z) [0; 1]%nat).
  destruct (exec 4 1 [3%nat] (authb 4 [3%nat]) g_init evs) as [g|] eqn:E; [|vm_compute in E; discriminate].
  exists g. split; [exact (exec_reach 4 1 [3%nat] evs _ _ (reach_init _ _ _ _ _ _ _) E)|].
  vm_compute in E. inversion E. clear. split; [|split; [|split]].
  - unfold counted_once. cbn [g_took map fst].
    repeat constructor; cbn [In]; intros K; repeat (destruct K as [K|K]; [discriminate|]); exact K.
  - left. reflexivity.
  - right. left. reflexivity.
  - left. reflexivity.
Qed.

Print Assumptions c31_replay_refuted.
Print Assumptions c33_refuted.
Print Assumptions c32_wrong_shard_refuted.
Print Assumptions c32_example.
