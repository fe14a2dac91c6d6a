(** Headline theorems: what nil from RBCReceive does to its callers (C87). *)

Require Import ZArith List Bool Arith Lia.
From Verif Require Import Bytes CodecModel CodecProofs GoBase DispatchModel DispatchProofs PolyProofs VssModel ProtoModel
  RbcModel RbcProofs RbcGood RbcByz RbcSendModel PropertiesRbc PropertiesByz PropertiesShard PropertiesBcast.
Import ListNotations.

Section Nil.
Variable sha : list Z -> list Z.
Variable rs_encode : nat -> nat -> list Z -> option (list (list Z)).
Variable rs_verify : nat -> nat -> list (list Z) -> bool.
Variable rs_reconstruct : nat -> nat -> list (list Z) -> list (list Z).
Variables N F : nat.

Notation runs := (runs sha rs_encode rs_verify rs_reconstruct N F).
Notation rstep := (rstep sha rs_encode rs_verify rs_reconstruct N F).

Section Wrong.
Variable M0 : list Z.
Variable a : Z.
Variables b : Z. Variable w : list Z.
Hypothesis KEEP : forall X j, length X = N -> nth j X [] <> [] -> nth j (rs_reconstruct N F X) [] = nth j X [].
Hypothesis HSHA : length (sha M0) = 32%nat.
Hypothesis HLEN : (Z.of_nat (length M0) < 2 ^ 32)%Z.
Hypothesis HNF : (F + 1 < N)%nat.
Hypothesis HA : hd_error M0 = Some a.
Hypothesis HAB : a <> b.

(** Another message with the hash of the dealer's has been returned. *)
Definition collision (st : rst) : Prop := exists V, V <> M0 /\ sha V = sha M0 /\ r_out st = Some (Some V).
Notation T0 := (announced sha M0).

Record K (seen : list Z) (st : rst) : Prop := mkK {
  k_got : incl seen (r_got st);
  k_len : length (r_got st) = length (Tof st T0);
  k_max : r_maxN st = length (Tof st T0);
  k_start : r_rph st = RRecv -> (N - F <= length (Tof st T0))%nat -> r_start st = true;
  k_ph : match r_rph st with RWait h | RSend h _ => h = T0 | RRecv => True end;
  k_round : r_out st = None -> (r_round st <= F)%nat }.

Definition seen_of (e : rev) : list Z := match e with EvReady s _ => [s] | _ => [] end.

Lemma K_step seen st e st' outs : K seen st -> about_dealer sha M0 e -> rstep st e = Ret (Some (st', outs)) -> K (seen_of e ++ seen) st'.
Proof.
  intros HK He E. destruct HK as [k1 k2 k3 k4 k5 k6]. destruct e; cbn [RbcModel.rstep seen_of app] in *.
  - unfold propose_step in E. destruct (r_prop st); [discriminate|]. destruct (rs_encode N F M); [|discriminate].
    destruct (gomap _ _); try discriminate. cbn [bind] in E. injection E as <- <-. constructor; assumption.
  - unfold echo_step in E. destruct (r_eph st); try discriminate. injection E as <- <-. constructor; assumption.
  - unfold push_step in E. destruct (r_eph st); try discriminate. destruct (_ <? _)%nat; [|discriminate]. injection E as <- <-. constructor; assumption.
  - unfold check_step in E. destruct (r_eph st); try discriminate. injection E as <- <-. constructor; assumption.
  - apply (f_equal (fun g => match g with Ret o => o | _ => None end)) in E. cbv beta iota in E. cbn [about_dealer] in He.
    unfold ready_step in E. rewrite He in E.
    assert (G : forall rph start, (rph = RRecv -> (N - F <= S (length (Tof st T0)))%nat -> start = true) ->
      match rph with RWait h | RSend h _ => h = T0 | RRecv => True end ->
      K (sender :: seen) (mkR (r_prop st) (r_echo st) (update T0 (Tof st T0 ++ [(sender, snd x)]) (r_T st))
        (if (r_maxN st <? length (Tof st T0 ++ [(sender, snd x)]))%nat then length (Tof st T0 ++ [(sender, snd x)]) else r_maxN st)
        (if (r_maxN st <? length (Tof st T0 ++ [(sender, snd x)]))%nat then T0 else r_maxHash st)
        (r_sent st) (r_chan st) (sender :: r_got st) (r_eph st) rph start (r_round st) (r_out st))).
    { intros rph start H1 H2.
      assert (TT : forall p ec m h s ch g ep rp stt ro o, Tof (mkR p ec (update T0 (Tof st T0 ++ [(sender, snd x)]) (r_T st)) m h s ch g ep rp stt ro o) T0 =
        Tof st T0 ++ [(sender, snd x)]) by (intros; unfold Tof at 1; cbn [r_T]; rewrite lookup_update_same; reflexivity).
      constructor; cbn [r_got r_maxN r_rph r_start r_out r_round]; rewrite ?TT, ?app_length; cbn [length].
      - intros y [<-|Y]; [left; reflexivity|right; apply k1; exact Y].
      - lia.
      - rewrite (proj2 (Nat.ltb_lt _ _)) by lia. reflexivity.
      - intros A B. apply H1; [exact A|lia].
      - exact H2.
      - exact k6. }
    destruct (r_rph st) eqn:ER; destruct (r_eph st) eqn:EE; try discriminate;
      (destruct (existsb (Z.eqb sender) (r_got st)) eqn:EX;
       [injection E as <- <-; apply existsb_exists in EX; destruct EX as (y & Y1 & Y2); apply Z.eqb_eq in Y2; subst y;
        constructor; rewrite ?ER; try assumption; intros z [<-|Z']; [exact Y1|apply k1; exact Z']|];
       destruct (negb _ && _); injection E as <- <-;
       [apply G; [discriminate|reflexivity]|
        apply G; [intros _ B; unfold dec_start, Tof; cbn [r_T r_start]; rewrite lookup_update_same; apply orb_true_iff; right;
          apply Nat.leb_le; fold (Tof st T0); rewrite app_length; cbn; lia|exact I]]).
  - unfold pop_step in E. destruct (r_rph st) eqn:ER, (r_chan st); try discriminate. injection E as <- <-.
    constructor; cbn [r_got r_maxN r_rph r_start r_out r_round]; try assumption. discriminate.
  - unfold send_step in E. destruct (r_rph st) eqn:ER, (r_eph st) eqn:EE; try discriminate; subst hash.
    all: destruct (_ <=? _)%nat; injection E as <- <-.
    all: constructor; cbn [r_got r_maxN r_rph r_start r_out r_round]; try assumption; try exact I.
    all: try discriminate; try reflexivity.
    all: intros _ B; unfold dec_start; apply orb_true_iff; right; apply Nat.leb_le; exact B.
  - unfold decode_step in E. destruct (r_out st) eqn:EO; [discriminate|]. destruct (r_rph st) eqn:ER; try discriminate. destruct (r_start st && _); [|discriminate].
    destruct (place _ _ _); try discriminate. cbn [bind] in E. destruct (_ <? 32)%nat; [discriminate|].
    destruct (_ <? _)%Z; [discriminate|].
    match type of E with context [bytes_eqb (sha ?x) ?y] => set (res := x) in E; clearbody res; set (h := y) in E; clearbody h end.
    injection E as <- <-. constructor; cbn [r_got r_maxN r_rph r_start r_out r_round]; rewrite ?ER; try assumption.
    intros EO'. destruct (bytes_eqb _ _); [discriminate|]. destruct (r_round st <? F)%nat eqn:B; [|discriminate]. apply Nat.ltb_lt in B. lia.
Qed.

Lemma K_runs evs : forall seen st st', K seen st -> Forall (about_dealer sha M0) evs -> runs st evs st' ->
  exists seen', K seen' st' /\ incl seen seen' /\ forall s x, In (EvReady s x) evs -> In s seen'.
Proof.
  induction evs as [|e evs IH]; intros seen st st' HK FA R; inversion R as [|sa e' sb outs evs' sc S R' E1 E2 E3]; subst.
  - exists seen. split; [exact HK|]. split; [apply incl_refl|]. intros s x [].
  - inversion FA as [|e0 l0 FE FE' Q1]; subst. pose proof (K_step _ _ _ _ _ HK FE S) as HK1.
    destruct (IH _ _ _ HK1 FE' R') as (seen' & A & B & C). exists seen'. split; [exact A|]. split.
    + intros y Y. apply B. apply in_or_app. right. exact Y.
    + intros s x [->|H]; [apply B; left; reflexivity|apply (C s x H)].
Qed.

(** One of the first N-F Ready messages that a member takes for a broadcast is one of (corrupted) member 0 with the
    dealer's hash and a shard of which the first byte is wrong; all the others announce the dealer's hash.  Then the
    goroutine that called RBCReceive never gets any data: it waits, or it panics.  And when the Ready messages of
    all members have been taken and decoding has come to an end without a panic of its own, it panics.  The only
    way out is that decoding has hit upon a collision of the hash. *)
Theorem c87_wrong_shard evs0 evs st : Forall before evs0 -> (length (filter (dealer_ready sha M0) evs0) < N - F)%nat ->
  Forall (about_dealer sha M0) evs0 -> Forall (about_dealer sha M0) evs ->
  runs rbc_init (evs0 ++ EvReady 0 (T0, b :: w) :: evs) st ->
  (caller_data st = Ret None \/ caller_data st = Panic \/ collision st) /\
  ((forall j, (1 <= j < N)%nat -> exists x, In (EvReady (Z.of_nat j) x) (evs0 ++ evs)) -> r_rph st = RRecv -> rstep st EvDecode = Ret None ->
   caller_data st = Panic \/ collision st).
Proof.
  intros FB L F0 FA R.
  assert (O : r_out st = None \/ r_out st = Some None \/ collision st).
  { destruct (r_out st) as [[V|]|] eqn:EO; [|auto..]. right. right.
    destruct (c32_wrong_shard_nothing sha rs_encode rs_verify rs_reconstruct N F M0 a b w KEEP HSHA HLEN HNF HA HAB evs0 evs st V
      FB L F0 FA R EO) as (A & B).
    exists V. auto. }
  split.
  - unfold caller_data, RBCReturn. destruct O as [-> | [-> | O]]; auto.
  - intros ALL ER ED. unfold caller_data, RBCReturn. destruct O as [EO|[EO|O]]; [|rewrite EO; auto|auto]. exfalso.
    assert (K0 : K [] rbc_init) by (constructor; cbn; try reflexivity; try exact I; [intros y []|intros; lia|intros; lia]).
    assert (FAll : Forall (about_dealer sha M0) (evs0 ++ EvReady 0 (T0, b :: w) :: evs)) by (apply Forall_app; split; [exact F0|constructor; [reflexivity|exact FA]]).
    destruct (K_runs _ _ _ _ K0 FAll R) as (seen & HK & I1 & I2). destruct HK as [k1 k2 k3 k4 k5 k6].
    assert (LN : (N <= length (r_got st))%nat).
    { rewrite <- (seq_length N 0), <- (map_length Z.of_nat (seq 0 N)). apply NoDup_incl_length.
      - apply FinFun.Injective_map_NoDup; [intros x y H; lia|apply seq_NoDup].
      - intros z Hz. apply in_map_iff in Hz. destruct Hz as (j & <- & Hj). apply in_seq in Hj. apply k1.
        destruct j as [|j]; [apply (I2 _ (T0, b :: w)); apply in_or_app; right; left; reflexivity|].
        destruct (ALL (Datatypes.S j) ltac:(lia)) as (x & Hx). apply (I2 _ x). apply in_app_or in Hx. apply in_or_app.
        destruct Hx; [left|right; right]; assumption. }
    specialize (k4 ER ltac:(lia)). specialize (k6 EO).
    cbn [RbcModel.rstep] in ED. unfold decode_step in ED. rewrite EO, ER, k4, (proj2 (Nat.leb_le _ _)) in ED by lia. cbn [andb] in ED.
    destruct (place _ _ _); try discriminate. cbn [bind] in ED. destruct (_ <? 32)%nat; [discriminate|]. destruct (_ <? _)%Z; discriminate.
Qed.
End Wrong.

(** Under the conditions of C32 no caller panics, whatever bytes were proposed. *)
Theorem c87_right_shards bad M shards g : (length bad <= F)%nat -> (3 * F + 1 <= N)%nat ->
  rs_good rs_encode rs_verify rs_reconstruct N F M shards -> length (sha M) = 32%nat -> (Z.of_nat (length M) < 2 ^ 32)%Z ->
  byz sha rs_encode rs_verify rs_reconstruct N F bad M shards g ->
  forall i, honest N bad i -> caller_data (g_st g i) = Ret None \/ caller_data (g_st g i) = Ret (Some (m_data (fst (UnmarshalMessage M)))).
Proof.
  intros HB HN RS HS HL B i Hi. unfold caller_data.
  destruct (proj1 (c86_any_bytes sha rs_encode rs_verify rs_reconstruct N F bad M shards g HB HN RS HS HL B) i Hi) as [-> | ->]; auto.
Qed.
End Nil.
Print Assumptions c87_wrong_shard.
Print Assumptions c87_right_shards.

(** Four members, all honest but member 0, which sends one wrong shard: this member panics. *)
Example c87_example : let M := [5; 7]%Z in let x := (announced toy_sha M, M) in
  exists st, runs toy_sha toy_encode toy_verify toy_reconstruct 4 1 rbc_init
    ([EvPropose 1 M; EvEcho 1 x; EvEchoCheck; EvReady 1 x] ++ EvReady 0 (announced toy_sha M, [6; 6]%Z) ::
     [EvEcho 2 x; EvEchoCheck; EvReadyPop; EvReadySend; EvEcho 3 x; EvEchoCheck; EvReady 2 x; EvDecode; EvReady 3 x; EvDecode]) st /\
  rstep toy_sha toy_encode toy_verify toy_reconstruct 4 1 st EvDecode = Ret None /\ r_rph st = RRecv /\ caller_data st = Panic.
Proof.
  intros M x. eexists. split.
  - cbn [app]. repeat (eapply runs_cons; [vm_compute; reflexivity|]). apply runs_nil.
  - split; [reflexivity|]. split; reflexivity.
Qed.

(** The whole committee: four members, an honest dealer, every Echo counted once; corrupted member 0 sends each of the
    three honest ones a single Ready message, with a wrong shard, and all three panic. *)
Theorem c87_committee_refuted : exists g, reach toy_sha toy_encode toy_verify toy_reconstruct 4 1 [0%nat] g /\ counted_once g /\
  (forall s j x, In (s, j, x) (g_echo g) -> x = demoX) /\ (forall i, honest 4 [0%nat] i -> caller_data (g_st g i) = Panic).
Proof.
  pose (evs := map (fun i => (i, EvPropose 1%Z demoM)) [1; 2; 3]%nat ++
     flat_map (fun i => flat_map (echo_from i) [1; 2; 3]%Z) [1; 2; 3]%nat ++
     flat_map (fun i => [(i, EvReady 1%Z demoX); (i, EvReady 0%Z (tag toy_sha demoM, [6; 6; 6]%Z)); (i, EvReady 2%Z demoX); (i, EvDecode);
      (i, EvReady 3%Z demoX); (i, EvDecode)]) [1; 2; 3]%nat).
  destruct (exec 4 1 [0%nat] (authb 4 [0%nat]) g_init evs) as [g|] eqn:E; [|vm_compute in E; discriminate].
  exists g. split; [exact (exec_reach 4 1 [0%nat] evs _ _ (reach_init _ _ _ _ _ _ _) E)|].
  vm_compute in E. inversion E. clear. split; [|split].
  - unfold counted_once. cbn [g_took map fst].
    repeat constructor; cbn [In]; intros K; repeat (destruct K as [K|K]; [discriminate|]); exact K.
  - intros s j x K. cbn [g_echo] in K. repeat (destruct K as [K|K]; [inversion K; reflexivity|]). destruct K.
  - intros s (Hs & NB). destruct s as [|[|[|[|s]]]]; [exfalso; apply NB; left; reflexivity| | | |lia]; vm_compute; reflexivity.
Qed.
Print Assumptions c87_committee_refuted.
