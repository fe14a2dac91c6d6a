(** Runs of the reliable broadcast (RbcModel.v) with an honest dealer and no forged message. *)

Require Import ZArith List Bool Arith Lia FinFun.
From Verif Require Import Bytes CodecModel CodecProofs GoBase DispatchModel DispatchProofs PolyProofs VssModel VssProofs VssProofs2 RbcModel RbcProofs.
Import ListNotations.

(** What is assumed of the Reed-Solomon coder for the message M: the N shards are not empty, the first
    N-(F+1) of them contain M; from N-(F+1) correct shards the missing ones are found. *)
Definition rs_good (rs_encode : nat -> nat -> list Z -> option (list (list Z))) (rs_verify : nat -> nat -> list (list Z) -> bool)
    (rs_reconstruct : nat -> nat -> list (list Z) -> list (list Z)) (N F : nat) (M : list Z) (shards : list (list Z)) : Prop :=
  rs_encode N F M = Some shards /\ length shards = N /\ Forall (fun s => s <> []) shards /\
  (exists pad, concat (firstn (N - (F + 1)) shards) = M ++ pad) /\
  (forall X, length X = N -> rs_verify N F X = true -> Forall (fun s => s <> []) X) /\
  (forall X, length X = N -> (forall j, (j < N)%nat -> nth j X [] = [] \/ nth j X [] = nth j shards []) ->
     (N - (F + 1) <= length (filter (fun s => negb (bytes_eqb s [])) X))%nat ->
     firstn (N - (F + 1)) (rs_reconstruct N F X) = firstn (N - (F + 1)) shards).

Section Good.
Variable sha : list Z -> list Z.
Variable rs_encode : nat -> nat -> list Z -> option (list (list Z)).
Variable rs_verify : nat -> nat -> list (list Z) -> bool.
Variable rs_reconstruct : nat -> nat -> list (list Z) -> list (list Z).
Variables N F : nat.
Variable bad : list nat.    (* silent members *)
Variable M0 : list Z.       (* the dealer's message *)
Variable shards : list (list Z).
Hypothesis RS : rs_good rs_encode rs_verify rs_reconstruct N F M0 shards.
Hypothesis HSHA : length (sha M0) = 32%nat.
Hypothesis HLEN : (Z.of_nat (length M0) < 2 ^ 32)%Z.
Hypothesis HNF : (3 * F + 1 <= N)%nat.
Hypothesis Hbad : (length bad <= F)%nat.

Notation honest := (honest N bad).
Notation rstep' := (rstep sha rs_encode rs_verify rs_reconstruct N F).

(** Only the dealer's message and messages of members that follow the protocol are delivered, and no
    member takes two Echo messages of one sender. *)
Definition good_event (g : gst) (i : nat) (e : rev) : Prop :=
  match e with
  | EvPropose _ M => M = M0
  | EvEcho s x => (0 <= s)%Z /\ honest (Z.to_nat s) /\ In (Z.to_nat s, i, x) (g_echo g) /\ ~ In (i, s) (map fst (g_took g))
  | EvReady s x => (0 <= s)%Z /\ honest (Z.to_nat s) /\ In (Z.to_nat s, x) (g_ready g)
  | _ => True
  end.

Inductive good : gst -> Prop :=
| good_init : good g_init
| good_step g i e st outs : good g -> honest i -> good_event g i e -> rstep' (g_st g i) e = Ret (Some (st, outs)) ->
    good (gnext g i e st outs).

(** Everything that could be done has been done. *)
Definition quiescent (g : gst) : Prop := forall i, honest i ->
  Forall (fun e => rstep' (g_st g i) e = Ret None) [EvPropose 0%Z M0; EvEchoPush; EvEchoCheck; EvReadyPop; EvReadySend; EvDecode] /\
  (forall s x, In (s, i, x) (g_echo g) -> In (i, Z.of_nat s, x) (g_took g) \/ rstep' (g_st g i) (EvEcho (Z.of_nat s) x) = Ret None) /\
  (forall s x, In (s, x) (g_ready g) -> In (Z.of_nat s) (r_got (g_st g i)) \/ rstep' (g_st g i) (EvReady (Z.of_nat s) x) = Ret None).

Definition T0 : list Z := tag sha M0.
Definition own (i : nat) : hm := (T0, nth i shards []).

(** ** Local invariant, for member i that has taken n Echo messages *)

Record linv (i n : nat) (st : rst) : Prop := mkL {
  l_cnt : count (r_echo st) (own i) = n;
  l_eph : r_eph st = ERecv \/ r_eph st = ECheck \/ (r_eph st = EDone /\ r_sent st = true);
  l_len : (length (r_chan st) <= n)%nat;
  l_chan : forall x, In x (r_chan st) -> x = own i /\ (F + 1 <= n)%nat;
  l_chan1 : r_sent st = false -> r_rph st = RRecv -> length (r_chan st) = (n - F)%nat;
  l_chan2 : forall h, r_rph st = RWait h -> h = T0 /\ length (r_chan st) = (n - F)%nat;
  l_rsend : forall h x, r_rph st = RSend h x -> h = T0 /\ x = own i /\ (F + 1 <= n)%nat;
  l_unsent : r_sent st = false -> (n < N - F)%nat;
  l_sentw : r_sent st = true -> r_rph st <> RRecv -> (N - F <= n)%nat;
  l_T : forall h, h <> T0 -> Tof st h = [];
  l_Tin : forall j m, In (j, m) (Tof st T0) -> (0 <= j < Z.of_nat N)%Z /\ m = nth (Z.to_nat j) shards [];
  l_got : forall j, In j (r_got st) <-> In j (map fst (Tof st T0));
  l_Tnd : NoDup (map fst (Tof st T0));
  l_out : (r_out st = None /\ r_round st = 0%nat /\ r_maxN st = length (Tof st T0) /\ (r_maxN st <> 0%nat -> r_maxHash st = T0)) \/
          r_out st = Some (Some M0);
  l_start : r_start st = false -> r_rph st = RRecv -> (length (Tof st T0) < N - F)%nat;
  l_started : r_start st = true -> (N - F <= length (Tof st T0))%nat }.

Lemma linv_init i : linv i 0 rbc_init.
Proof.
  constructor; cbn [rbc_init r_prop r_echo r_T r_maxN r_maxHash r_sent r_chan r_got r_eph r_rph r_start r_round r_out];
    try (intros; contradiction); try (intros; discriminate); try reflexivity; try lia.
  - left. reflexivity.
  - constructor.
  - left. split; [reflexivity|]. split; [reflexivity|]. split; [reflexivity|]. intros H. destruct H. reflexivity.
  - intros _ _. simpl. lia.
Qed.

Lemma T0_hash : firstn 32 T0 = sha M0 /\ skipn 32 T0 = IntToBytes (Z.of_nat (length M0)) /\ (32 <= length T0)%nat.
Proof.
  unfold T0, tag. split; [|split].
  - rewrite <- HSHA. rewrite firstn_app, firstn_all, Nat.sub_diag. cbn [firstn]. apply app_nil_r.
  - rewrite <- HSHA. rewrite skipn_app, skipn_all, Nat.sub_diag. reflexivity.
  - rewrite app_length, HSHA. lia.
Qed.

Lemma nodup_app_l {A} (l l' : list A) : NoDup (l ++ l') -> NoDup l.
Proof.
  induction l as [|a l IH]; [constructor|]. cbn [app]. intros H. inversion H; subst. constructor; [|auto].
  intros K. apply H2. apply in_or_app. left. exact K.
Qed.

(** Placing distinct correct shards. *)
Lemma place_correct l : (forall j m, In (j, m) l -> (0 <= j < Z.of_nat N)%Z /\ m = nth (Z.to_nat j) shards []) -> NoDup (map fst l) ->
  exists X, gofold (fun M (e : Z * list Z) =>
      if (fst e <? Z.of_nat (length M))%Z && (0 <=? fst e)%Z then Ret (set_nth (Z.to_nat (fst e)) (snd e) M) else Panic) l (repeat [] N) = Ret X /\
    length X = N /\ (forall j, (j < N)%nat -> nth j X [] = if in_dec Z.eq_dec (Z.of_nat j) (map fst l) then nth j shards [] else []).
Proof.
  induction l as [|(j & m) l IH] using List.rev_ind; intros HI ND.
  - exists (repeat [] N). split; [reflexivity|]. split; [apply repeat_length|]. intros j Hj. cbn [map in_dec]. apply nth_repeat.
  - rewrite map_app in ND. cbn [map fst] in ND. apply NoDup_remove in ND. rewrite app_nil_r in ND. destruct ND as (ND & NI).
    destruct IH as (X & E & LX & HX); [intros a b Hab; apply HI; apply in_or_app; left; exact Hab|exact ND|].
    destruct (HI j m ltac:(apply in_or_app; right; left; reflexivity)) as (Hj & Hm).
    exists (set_nth (Z.to_nat j) m X). rewrite gofold_app, E. cbn [bind gofold fst snd]. rewrite LX.
    rewrite (proj2 (Z.ltb_lt j (Z.of_nat N))) by lia. rewrite (proj2 (Z.leb_le 0 j)) by lia. cbn [andb bind].
    split; [reflexivity|]. split; [rewrite length_set_nth; exact LX|]. intros k Hk.
    destruct (Nat.eq_dec k (Z.to_nat j)) as [->|Ne].
    + rewrite nth_set_nth_same by lia. destruct (in_dec _ _ _) as [_|Hn]; [exact Hm|]. exfalso. apply Hn. rewrite map_app.
      apply in_or_app. right. left. cbn [fst]. lia.
    + rewrite nth_set_nth_other by lia. rewrite HX by exact Hk. rewrite map_app. cbn [map fst].
      destruct (in_dec Z.eq_dec (Z.of_nat k) (map fst l)) as [H1|H1], (in_dec Z.eq_dec (Z.of_nat k) (map fst l ++ [j])) as [H2|H2]; auto.
      * exfalso. apply H2. apply in_or_app. left. exact H1.
      * exfalso. apply in_app_or in H2. destruct H2 as [H2|[H2|[]]]; [contradiction|]. lia.
Qed.

Lemma place_count (X : list (list Z)) (L : list Z) : length X = N -> NoDup L -> (forall s, In s L -> (0 <= s < Z.of_nat N)%Z) ->
  (forall j, (j < N)%nat -> nth j X [] = if in_dec Z.eq_dec (Z.of_nat j) L then nth j shards [] else []) ->
  (length L <= length (filter (fun s => negb (bytes_eqb s [])) X))%nat.
Proof.
  intros LX ND HL HX. destruct RS as (_ & LS & NE & _).
  set (K := filter (fun j => negb (bytes_eqb (nth j X []) [])) (seq 0 N)).
  assert (E : length (filter (fun s => negb (bytes_eqb s [])) X) = length K).
  { unfold K. rewrite <- LX. clear. revert X. intros X.
    transitivity (length (filter (fun s => negb (bytes_eqb s [])) (map (fun j => nth j X []) (seq 0 (length X))))).
    - f_equal. f_equal. symmetry. apply (list_ext []); [rewrite map_length, seq_length; reflexivity|].
      intros i Hi. rewrite map_length, seq_length in Hi. rewrite nth_map_seq by exact Hi. reflexivity.
    - generalize (seq 0 (length X)). induction l as [|a l IH]; [reflexivity|]. cbn [map filter]. destruct (negb _); cbn [length]; rewrite IH; reflexivity. }
  rewrite E. rewrite <- (map_length Z.of_nat K). apply NoDup_incl_length; [exact ND|]. intros s Hs. pose proof (HL s Hs).
  apply in_map_iff. exists (Z.to_nat s). split; [lia|]. unfold K. apply filter_In. split; [apply in_seq; lia|].
  rewrite HX by lia. rewrite Z2Nat.id by lia. destruct (in_dec Z.eq_dec s L) as [_|Hn]; [|contradiction].
  rewrite Forall_forall in NE. specialize (NE (nth (Z.to_nat s) shards [])). destruct (bytes_eqb _ _) eqn:EB; [|reflexivity].
  exfalso. apply NE; [apply nth_In; lia|]. apply bytes_eqb_eq. exact EB.
Qed.

Lemma decode_ok i n st : linv i n st -> r_out st = None -> r_start st = true -> r_rph st = RRecv -> exists st',
  decode_step sha rs_verify rs_reconstruct N F st = Ret (Some (st', [])) /\
  st' = mkR (r_prop st) (r_echo st) (r_T st) (r_maxN st) (firstn 32 T0) (r_sent st) (r_chan st) (r_got st) (r_eph st) RRecv true 1 (Some (Some M0)).
Proof.
  intros L EO ES ER. destruct (l_out _ _ _ L) as [(_ & RD & MN & MH)|K]; [|congruence]. pose proof (l_started _ _ _ L ES) as LT.
  assert (ML : (N - F <= r_maxN st)%nat) by lia. assert (MH2 : r_maxHash st = T0) by (apply MH; lia).
  eexists. split; [|reflexivity]. unfold decode_step. rewrite EO, ER, ES, RD, MH2. cbn [andb]. rewrite Nat.add_0_r.
  rewrite (proj2 (Nat.leb_le _ _) ML). destruct T0_hash as (H1 & H2 & H3).
  unfold place. replace (N - F - length (Tof st T0))%nat with 0%nat by lia. cbn [repeat]. rewrite app_nil_r.
  set (l := firstn (N - F) (Tof st T0)).
  assert (LL : length l = (N - F)%nat) by (unfold l; rewrite firstn_length; lia).
  assert (FL : forall a, In a l -> In a (Tof st T0)).
  { intros a Ha. rewrite <- (firstn_skipn (N - F) (Tof st T0)). apply in_or_app. left. exact Ha. }
  assert (NL : NoDup (map fst l)).
  { pose proof (l_Tnd _ _ _ L) as ND. rewrite <- (firstn_skipn (N - F) (Tof st T0)), map_app in ND. apply nodup_app_l in ND. exact ND. }
  destruct (place_correct l) as (X & E & LX & HX); [intros j m Hjm; apply (l_Tin _ _ _ L); apply FL; exact Hjm|exact NL|].
  rewrite E. cbn [bind].
  assert (NM : (N - F <= length (filter (fun s => negb (bytes_eqb s [])) X))%nat).
  { rewrite <- LL, <- (map_length fst l). apply place_count; auto. intros s Hs. apply in_map_iff in Hs. destruct Hs as ((j & m) & <- & Hj).
    apply (l_Tin _ _ _ L j m). apply FL. exact Hj. }
  destruct RS as (_ & LS & NE & (pad & CP) & RV & RR).
  assert (EM : firstn (N - (F + 1)) (if rs_verify N F X then X else rs_reconstruct N F X) = firstn (N - (F + 1)) shards).
  { destruct (rs_verify N F X) eqn:EV.
    - specialize (RV X LX EV). f_equal. apply (list_ext []); [congruence|]. intros k Hk. rewrite HX by lia.
      destruct (in_dec _ _ _) as [_|Hn]; [reflexivity|]. exfalso. rewrite Forall_forall in RV. apply (RV (nth k X [])); [apply nth_In; lia|].
      rewrite HX by lia. destruct (in_dec _ _ _); [contradiction|reflexivity].
    - apply RR; [exact LX| |lia]. intros j Hj. rewrite HX by exact Hj. destruct (in_dec _ _ _); auto. }
  rewrite EM, CP. rewrite (proj2 (Nat.ltb_ge _ _) H3). rewrite H1, H2.
  rewrite IntToBytes_roundtrip by lia.
  rewrite (proj2 (Z.ltb_ge _ _)) by (rewrite app_length; lia). rewrite Nat2Z.id, firstn_app, firstn_all, Nat.sub_diag. cbn [firstn].
  rewrite app_nil_r. rewrite (proj2 (bytes_eqb_eq _ _) eq_refl). reflexivity.
Qed.

Definition good_local (i n : nat) (e : rev) : Prop :=
  match e with
  | EvPropose _ M => M = M0
  | EvEcho _ x => x = own i /\ (n < N)%nat
  | EvReady s x => (0 <= s < Z.of_nat N)%Z /\ x = own (Z.to_nat s)
  | _ => True
  end.
Definition taken (e : rev) : nat := match e with EvEcho _ _ => 1 | _ => 0 end.

Lemma linv_fields i n st st' : linv i n st -> r_echo st' = r_echo st -> r_T st' = r_T st -> r_maxN st' = r_maxN st -> r_maxHash st' = r_maxHash st ->
  r_sent st' = r_sent st -> r_chan st' = r_chan st -> r_got st' = r_got st -> r_eph st' = r_eph st -> r_rph st' = r_rph st ->
  r_start st' = r_start st -> r_round st' = r_round st -> r_out st' = r_out st -> linv i n st'.
Proof.
  intros L E1 E2 E3 E4 E5 E6 E7 E8 E9 E10 E11 E12. assert (ET : forall h, Tof st' h = Tof st h) by (intros h; unfold Tof; rewrite E2; reflexivity).
  destruct L. constructor; rewrite ?E1, ?E3, ?E4, ?E5, ?E6, ?E7, ?E8, ?E9, ?E10, ?E11, ?E12, ?ET; auto.
  intros h Hh. rewrite ET. auto.
Qed.

Ltac fields := cbn [r_prop r_echo r_T r_maxN r_maxHash r_sent r_chan r_got r_eph r_rph r_start r_round r_out] in *.

Lemma linv_echo i n st st' outs : linv i n st -> (n < N)%nat -> echo_step N F st (own i) = Some (st', outs) ->
  linv i (n + 1) st' /\ (forall x, In (SendAll x) outs -> x = own i) /\ (r_sent st' = true -> r_sent st = true \/ In (SendAll (own i)) outs).
Proof.
  intros L Hn E. unfold echo_step in E. destruct (r_eph st) eqn:EE; try discriminate.
  rewrite count_echo_same, (l_cnt _ _ _ L) in E. pose proof (l_len _ _ _ L) as LL.
  rewrite (proj2 (Nat.ltb_lt (length (r_chan st)) N)) in E by lia. rewrite andb_true_r, andb_false_r in E.
  apply (f_equal (fun o => match o with Some a => a | None => (st', outs) end)) in E.
  pose proof (f_equal fst E) as E1. pose proof (f_equal snd E) as E2. cbn [fst snd] in E1, E2. clear E.
  assert (S : r_sent st' = r_sent st || (negb (r_sent st) && (N - F <=? n + 1))) by (rewrite <- E1; reflexivity).
  assert (C : r_chan st' = if (F + 1 <=? n + 1) then r_chan st ++ [own i] else r_chan st) by (rewrite <- E1; reflexivity).
  split; [|split].
  - destruct L as [a1 a2 a3 a4 a5 a6 a7 a8 a9 a10 a11 a12 a13 a14 a15 a16]. constructor; rewrite ?S, ?C.
    + rewrite <- E1. fields. rewrite count_echo_same. lia.
    + right. left. rewrite <- E1. reflexivity.
    + destruct (F + 1 <=? n + 1); [rewrite app_length; cbn [length]|]; lia.
    + intros x Hx. destruct (F + 1 <=? n + 1) eqn:EF.
      * apply Nat.leb_le in EF. apply in_app_or in Hx. destruct Hx as [Hx|[Hx|[]]]; [|split; [symmetry; exact Hx|lia]].
        destruct (a4 x Hx). split; [assumption|lia].
      * destruct (a4 x Hx). split; [assumption|lia].
    + intros HS HR. apply orb_false_iff in HS. destruct HS as (HS & _).
      assert (HR' : r_rph st = RRecv) by (rewrite <- HR, <- E1; reflexivity).
      specialize (a5 HS HR'). destruct (F + 1 <=? n + 1) eqn:EF; [apply Nat.leb_le in EF; rewrite app_length; cbn [length]|apply Nat.leb_gt in EF]; lia.
    + intros h HR. assert (HR' : r_rph st = RWait h) by (rewrite <- HR, <- E1; reflexivity). destruct (a6 h HR') as (e1 & e2). split; [exact e1|].
      destruct (F + 1 <=? n + 1) eqn:EF; [apply Nat.leb_le in EF; rewrite app_length; cbn [length]|apply Nat.leb_gt in EF]; lia.
    + intros h x HR. assert (HR' : r_rph st = RSend h x) by (rewrite <- HR, <- E1; reflexivity). destruct (a7 h x HR') as (e1 & e2 & e3).
      split; [exact e1|]. split; [exact e2|lia].
    + intros HS. apply orb_false_iff in HS. destruct HS as (HS & HS2). rewrite HS in HS2. cbn [negb andb] in HS2. apply Nat.leb_gt in HS2. lia.
    + intros HS HR. assert (HR' : r_rph st <> RRecv) by (intros K; apply HR; rewrite <- E1; exact K).
      destruct (r_sent st) eqn:ES; [specialize (a9 eq_refl HR'); lia|]. cbn [negb andb orb] in HS. apply Nat.leb_le in HS. exact HS.
    + intros h Hh. rewrite <- E1. apply a10. exact Hh.
    + intros j m. rewrite <- E1. apply a11.
    + intros j. rewrite <- E1. apply a12.
    + rewrite <- E1. apply a13.
    + rewrite <- E1. apply a14.
    + rewrite <- E1. apply a15.
    + rewrite <- E1. apply a16.
  - intros x Hx. rewrite <- E2 in Hx. destruct (negb _ && _); [|destruct Hx]. destruct Hx as [Hx|[]]. inversion Hx. reflexivity.
  - rewrite S, <- E2. destruct (r_sent st); [auto|]. cbn [orb negb andb]. intros ->. right. left. reflexivity.
Qed.

Lemma own_fst j : fst (own j) = T0. Proof. reflexivity. Qed.
Lemma own_snd j : snd (own j) = nth j shards []. Proof. reflexivity. Qed.

Lemma linv_ready i n st st' outs s : linv i n st -> (0 <= s < Z.of_nat N)%Z -> ready_step N F st s (own (Z.to_nat s)) = Some (st', outs) ->
  linv i n st' /\ outs = [] /\ r_sent st' = r_sent st.
Proof.
  intros L Hs E. unfold ready_step in E. rewrite own_fst, own_snd in E.
  destruct (r_rph st) eqn:ER; [|destruct (r_eph st); discriminate|destruct (r_eph st); discriminate].
  destruct (r_eph st) eqn:EE; try discriminate.
  all: destruct (existsb (Z.eqb s) (r_got st)) eqn:EX;
    [apply (f_equal (fun o => match o with Some a => a | None => (st', outs) end)) in E; inversion E; subst; auto|].
  all: assert (NG : ~ In s (map fst (Tof st T0)))
    by (intros K; apply (l_got _ _ _ L) in K; rewrite (proj2 (existsb_exists _ _)) in EX; [discriminate|exists s; split; [exact K|apply Z.eqb_refl]]).
  all: cbv zeta in E; set (l := Tof st T0 ++ [(s, nth (Z.to_nat s) shards [])]) in *;
    assert (LEN : length l = (length (Tof st T0) + 1)%nat) by (unfold l; rewrite app_length; reflexivity).
  all: match type of E with (if ?b then Some ?o1 else Some ?o2) = _ =>
    assert (E' : (if b then o1 else o2) = (st', outs)) by (destruct b; inversion E; reflexivity) end; clear E.
  all: fields.
  all: match type of E' with (if ?b then _ else _) = _ => set (w := b) in * end.
  all: assert (Q : outs = [] /\ r_echo st' = r_echo st /\ r_T st' = update T0 l (r_T st) /\
     r_maxN st' = (if (r_maxN st <? length l) then length l else r_maxN st) /\
     r_maxHash st' = (if (r_maxN st <? length l) then T0 else r_maxHash st) /\
     r_sent st' = r_sent st /\ r_chan st' = r_chan st /\ r_got st' = s :: r_got st /\ r_eph st' = r_eph st /\
     r_rph st' = (if w then RWait T0 else RRecv) /\ r_round st' = r_round st /\ r_out st' = r_out st /\
     r_start st' = (if w then r_start st else r_start st || (N - F <=? length l)))
    by (destruct w; inversion E'; fields; unfold dec_start, Tof; fields; rewrite ?lookup_update_same, ?EE; repeat split; reflexivity).
  all: destruct Q as (Q0 & Q1 & Q2 & Q3 & Q4 & Q5 & Q6 & Q7 & Q8 & Q9 & Q10 & Q11 & Q12).
  all: split; [|split; [exact Q0|exact Q5]].
  all: assert (TT : Tof st' T0 = l) by (unfold Tof; rewrite Q2, lookup_update_same; reflexivity).
  all: assert (W : w = true -> r_sent st = false) by (unfold w; destruct (r_sent st); [discriminate|reflexivity]).
  all: clearbody w; clear E'.
  all: destruct L as [a1 a2 a3 a4 a5 a6 a7 a8 a9 a10 a11 a12 a13 a14 a15 a16]; constructor;
    rewrite ?Q1, ?Q3, ?Q4, ?Q5, ?Q6, ?Q7, ?Q8, ?Q9, ?Q10, ?Q11, ?Q12, ?TT; auto.
  all: try (intros h Hw; destruct w; [|discriminate]; inversion Hw; subst h; split; [reflexivity|]; apply a5; [apply W; reflexivity|exact ER]).
  all: try (intros h x Hw; destruct w; discriminate).
  all: try (intros S Hw; destruct w; [rewrite W in S by reflexivity; discriminate|contradiction]).
  all: try (intros h Hh; unfold Tof; rewrite Q2, lookup_update_other by exact Hh; apply a10; exact Hh).
  all: try (intros j m Hj; unfold l in Hj; apply in_app_or in Hj; destruct Hj as [Hj|[Hj|[]]]; [apply a11; exact Hj|inversion Hj; subst j; auto]).
  all: try (intros j; unfold l; rewrite map_app, in_app_iff; cbn [map In fst]; rewrite (a12 j); tauto).
  all: try (unfold l; rewrite map_app; apply nodup_app_intro; [exact a13|repeat constructor; intros []|intros z Hz [<-|[]]; exact (NG Hz)]).
  all: try (destruct a14 as [(b1 & b2 & b3 & b4)|b]; [left|right; exact b]; rewrite (proj2 (Nat.ltb_lt _ _)) by lia; auto).
  all: try (intros S Hw; destruct w; [discriminate|]; apply orb_false_iff in S; destruct S as (_ & S); apply Nat.leb_gt in S; exact S).
  all: try (intros S; destruct w; [specialize (a16 S); lia|]; apply orb_true_iff in S; destruct S as [S|S]; [specialize (a16 S); lia|apply Nat.leb_le in S; exact S]).
Qed.

Lemma linv_pop i n st st' outs : linv i n st -> pop_step st = Some (st', outs) -> linv i n st' /\ outs = [] /\ r_sent st' = r_sent st.
Proof.
  intros L E. unfold pop_step in E. destruct (r_rph st) as [|h|h x] eqn:ER; try discriminate. destruct (r_chan st) as [|x ch] eqn:EC; [discriminate|].
  inversion E; subst st' outs. clear E. split; [|split; reflexivity].
  destruct L as [a1 a2 a3 a4 a5 a6 a7 a8 a9 a10 a11 a12 a13 a14 a15 a16]. rewrite EC in *. cbn [length] in *.
  destruct (a6 h ER) as (e1 & e2). destruct (a4 x ltac:(left; reflexivity)) as (e3 & e4).
  constructor; fields; auto.
  - lia.
  - intros y Hy. apply a4. right. exact Hy.
  - discriminate.
  - discriminate.
  - intros h' x' H. inversion H; subst. auto.
  - intros HS _. apply a9; [exact HS|congruence].
  - discriminate.
Qed.

Lemma linv_send i n st st' outs : linv i n st -> send_step N F st = Some (st', outs) ->
  linv i n st' /\ outs = [SendAll (own i)] /\ r_sent st' = true.
Proof.
  intros L E. unfold send_step in E. destruct (r_rph st) as [|h|h x] eqn:ER; [discriminate|discriminate|].
  destruct (l_rsend _ _ _ L h x ER) as (-> & -> & Hn). rewrite (l_cnt _ _ _ L) in E. rewrite (proj2 (Nat.leb_le _ _) Hn) in E.
  assert (E2 : (mkR (r_prop st) (r_echo st) (r_T st) (r_maxN st) (r_maxHash st) true (r_chan st) (r_got st) (r_eph st) RRecv
         (dec_start N F st T0) (r_round st) (r_out st), [SendAll (T0, snd (own i))]) = (st', outs)).
  { destruct (r_eph st); inversion E; reflexivity. }
  clear E. inversion E2; subst st' outs. clear E2. split; [|split; reflexivity].
  destruct L as [a1 a2 a3 a4 a5 a6 a7 a8 a9 a10 a11 a12 a13 a14 a15 a16].
  constructor; fields; auto; try discriminate.
  - destruct a2 as [a2|[a2|(a2 & _)]]; auto.
  - unfold dec_start. intros K _. apply orb_false_iff in K. destruct K as (_ & K). apply Nat.leb_gt in K. exact K.
  - unfold dec_start. intros K. apply orb_true_iff in K. destruct K as [K|K]; [apply a16; exact K|apply Nat.leb_le in K; exact K].
Qed.

Lemma linv_check i n st st' outs : linv i n st -> check_step st = Some (st', outs) -> linv i n st' /\ outs = [] /\ r_sent st' = r_sent st.
Proof.
  intros L E. unfold check_step in E. destruct (r_eph st) eqn:EE; try discriminate. inversion E; subst st' outs. split; [|split; reflexivity].
  destruct L as [a1 a2 a3 a4 a5 a6 a7 a8 a9 a10 a11 a12 a13 a14 a15 a16]. unfold set_echo. constructor; fields; auto.
  destruct (r_sent st); auto.
Qed.

Lemma linv_decode i n st o : linv i n st -> decode_step sha rs_verify rs_reconstruct N F st = Ret (Some o) ->
  linv i n (fst o) /\ snd o = [] /\ r_sent (fst o) = r_sent st.
Proof.
  intros L E. pose proof E as E0. unfold decode_step in E0. destruct (r_out st) eqn:EO; [discriminate|]. destruct (r_rph st) eqn:ER; try discriminate.
  destruct (r_start st) eqn:ES; [|discriminate]. clear E0.
  destruct (decode_ok i n st L EO ES ER) as (st' & E2 & E3). rewrite E in E2. inversion E2 as [E4]. subst st'. subst o. cbn [fst snd].
  split; [|split; reflexivity].
  destruct L as [a1 a2 a3 a4 a5 a6 a7 a8 a9 a10 a11 a12 a13 a14 a15 a16]. constructor; fields; auto; try discriminate.
Qed.

Lemma linv_step i n st e o : linv i n st -> good_local i n e -> rstep' st e = Ret (Some o) ->
  linv i (n + taken e) (fst o) /\ (forall x, In (SendAll x) (snd o) -> x = own i) /\
  (r_sent (fst o) = true -> r_sent st = true \/ In (SendAll (own i)) (snd o)).
Proof.
  intros L G E. destruct o as (st' & outs). destruct e; cbn [rstep taken good_local] in *; rewrite ?Nat.add_0_r.
  - apply propose_inv in E. destruct E as (_ & _ & E1 & E2 & E3 & E4 & E5 & E6 & E7 & E8 & E9 & E10 & E11 & E12 & sh & _ & _ & E13). cbn [fst snd] in *.
    split; [apply (linv_fields _ _ st); assumption|]. split; [|rewrite E5; auto]. intros x Hx. rewrite E13 in Hx. apply in_map_iff in Hx.
    destruct Hx as (k & Hk & _). discriminate.
  - destruct G as (-> & Hn). apply linv_echo; [exact L|exact Hn|]. cbn [fst snd]. inversion E as [E']. rewrite E'. reflexivity.
  - assert (E' : push_step N st = Some (st', outs)) by (inversion E; reflexivity). unfold push_step in E'.
    destruct (l_eph _ _ _ L) as [K|[K|(K & _)]]; rewrite K in E'; discriminate.
  - assert (E' : check_step st = Some (st', outs)) by (inversion E; reflexivity). destruct (linv_check _ _ _ _ _ L E') as (H1 & -> & H3).
    cbn [fst snd]. rewrite H3. split; [exact H1|]. split; [intros x []|auto].
  - destruct G as (Hs & ->). assert (E' : ready_step N F st sender (own (Z.to_nat sender)) = Some (st', outs)) by (inversion E; reflexivity).
    destruct (linv_ready _ _ _ _ _ _ L Hs E') as (H1 & -> & H3). cbn [fst snd]. rewrite H3. split; [exact H1|]. split; [intros x []|auto].
  - assert (E' : pop_step st = Some (st', outs)) by (inversion E; reflexivity). destruct (linv_pop _ _ _ _ _ L E') as (H1 & -> & H3).
    cbn [fst snd]. rewrite H3. split; [exact H1|]. split; [intros x []|auto].
  - assert (E' : send_step N F st = Some (st', outs)) by (inversion E; reflexivity). destruct (linv_send _ _ _ _ _ L E') as (H1 & -> & H3).
    cbn [fst snd]. split; [exact H1|]. split; [intros x [Hx|[]]; inversion Hx; reflexivity|]. intros _. right. left. reflexivity.
  - destruct (linv_decode _ _ _ _ L E) as (H1 & H2 & H3). rewrite H2, H3. split; [exact H1|]. split; [intros x []|auto].
Qed.

(** ** The committee *)

Definition tk (g : gst) (i : nat) : list (nat * Z * hm) := filter (fun t => (fst (fst t) =? i)%nat) (g_took g).

Record gg (g : gst) : Prop := mkGG {
  q_loc : forall i, honest i -> linv i (length (tk g i)) (g_st g i);
  q_took : forall i s x, In (i, s, x) (g_took g) -> (0 <= s)%Z /\ honest (Z.to_nat s) /\ x = own i;
  q_once : NoDup (map fst (g_took g));
  q_echo : forall s j x, In (s, j, x) (g_echo g) -> honest s /\ x = own j;
  q_prop : forall i, honest i -> r_prop (g_st g i) = true -> forall j, (j < N)%nat -> In (i, j, own j) (g_echo g);
  q_ready : forall s x, In (s, x) (g_ready g) -> honest s /\ x = own s;
  q_sent : forall i, honest i -> r_sent (g_st g i) = true -> In (i, own i) (g_ready g) }.

Lemma tk_senders g i : gg g -> NoDup (map (fun t => snd (fst t)) (tk g i)) /\ members N (map (fun t => snd (fst t)) (tk g i)).
Proof.
  intros G. split.
  - pose proof (q_once _ G) as ND. unfold tk. induction (g_took g) as [|((a & s) & x) l IH]; [constructor|]. cbn [map fst] in ND. inversion ND; subst.
    cbn [filter fst]. destruct (a =? i)%nat eqn:EA; [|apply IH; assumption]. cbn [map fst snd]. constructor; [|apply IH; assumption].
    intros K. apply H1. apply in_map_iff in K. destruct K as (((b & s') & y) & K1 & K2). apply filter_In in K2. destruct K2 as (K2 & K3). cbn [fst snd] in *.
    apply Nat.eqb_eq in EA. apply Nat.eqb_eq in K3. subst. apply in_map_iff. exists (i, s, y). split; [reflexivity|exact K2].
  - intros s Hs. apply in_map_iff in Hs. destruct Hs as (((b & s') & y) & K1 & K2). cbn [fst snd] in K1. subst s'. apply filter_In in K2.
    destruct (q_took _ G _ _ _ (proj1 K2)) as (H1 & (H2 & _) & _). lia.
Qed.

Lemma tk_le g i : gg g -> (length (tk g i) <= N)%nat.
Proof.
  intros G. destruct (tk_senders g i G) as (H1 & H2). rewrite <- (map_length (fun t => snd (fst t))). apply members_length; assumption.
Qed.

Lemma tk_lt g i s : gg g -> (0 <= s)%Z -> honest (Z.to_nat s) -> ~ In (i, s) (map fst (g_took g)) -> (length (tk g i) < N)%nat.
Proof.
  intros G Hs (Hs2 & _) NI. destruct (tk_senders g i G) as (H1 & H2).
  assert (L : (length (s :: map (fun t => snd (fst t)) (tk g i)) <= N)%nat).
  { apply members_length.
    - constructor; [|exact H1]. intros K. apply NI. apply in_map_iff in K. destruct K as (((b & s') & y) & K1 & K2). cbn [fst snd] in K1. subst s'.
      apply filter_In in K2. destruct K2 as (K2 & K3). cbn [fst] in K3. apply Nat.eqb_eq in K3. subst b. apply in_map_iff. exists (i, s, y). auto.
    - intros z [<-|Hz]; [lia|apply H2; exact Hz]. }
  cbn [length] in L. rewrite map_length in L. lia.
Qed.

Lemma gg_init : gg g_init.
Proof.
  constructor; cbn [g_init g_st g_echo g_ready g_took]; try (intros; contradiction); try (intros; discriminate).
  - intros i _. apply linv_init.
  - constructor.
Qed.

Lemma gg_local g i e : gg g -> good_event g i e -> good_local i (length (tk g i)) e.
Proof.
  intros G H. destruct e; cbn [good_event good_local] in *; auto.
  - destruct H as (H1 & H2 & H3 & H4). split; [apply (q_echo _ G _ _ _ H3)|]. apply (tk_lt g i sender); assumption.
  - destruct H as (H1 & (H2 & H2') & H3). split; [lia|]. apply (q_ready _ G _ _ H3).
Qed.

Lemma gg_step g i e st outs : gg g -> honest i -> good_event g i e -> rstep' (g_st g i) e = Ret (Some (st, outs)) -> gg (gnext g i e st outs).
Proof.
  intros G Hi Ge E. pose proof (gg_local _ _ _ G Ge) as GL.
  destruct (linv_step _ _ _ _ _ (q_loc _ G i Hi) GL E) as (L & HO & HS). cbn [fst snd] in *.
  assert (TK : forall k, length (tk (gnext g i e st outs) k) = (length (tk g k) + if (k =? i)%nat then taken e else 0)%nat).
  { intros k. unfold tk, gnext. cbn [g_took]. rewrite filter_app, app_length. f_equal. destruct e; cbn [took_of taken filter length fst]; try (destruct (k =? i)%nat; reflexivity).
    rewrite (Nat.eqb_sym i k). destruct (k =? i)%nat; reflexivity. }
  assert (PR : r_prop st = r_prop (g_st g i) \/ outs = map (fun j => SendTo j (own j)) (seq 0 N)).
  { destruct (step_sends _ _ _ _ _ _ _ _ _ E) as [(K & _)|(_ & _ & s & M & -> & _)]; [left; exact K|]. right.
    cbn [rstep] in E. apply propose_inv in E. destruct E as (_ & _ & _ & _ & _ & _ & _ & _ & _ & _ & _ & _ & _ & _ & sh & E1 & _ & E2). cbn [snd] in E2.
    cbn [good_event] in Ge. subst M. destruct RS as (E3 & _). rewrite E1 in E3. inversion E3; subst sh. exact E2. }
  assert (SE : forall j x, In (SendTo j x) outs -> x = own j).
  { destruct (step_sends _ _ _ _ _ _ _ _ _ E) as [(_ & K)|(_ & _ & s & M & -> & _)]; [intros j x Hx; destruct (K j x Hx)|].
    destruct PR as [PR|PR].
    - cbn [rstep] in E. apply propose_inv in E. cbn [fst] in E. destruct E as (E1 & E2 & _). congruence.
    - intros j x Hx. rewrite PR in Hx. apply in_map_iff in Hx. destruct Hx as (k & Hk & _). inversion Hk. reflexivity. }
  constructor.
  - intros k Hk. rewrite TK. unfold gnext, put. cbn [g_st]. destruct (k =? i)%nat eqn:EK.
    + apply Nat.eqb_eq in EK. subst k. exact L.
    + rewrite Nat.add_0_r. apply (q_loc _ G). exact Hk.
  - intros k s x. unfold gnext. cbn [g_took]. rewrite in_app_iff. intros [K|K]; [apply (q_took _ G); exact K|].
    destruct e; cbn [took_of In] in K; try contradiction. destruct K as [K|[]]. inversion K; subst. cbn [good_event good_local] in *. destruct Ge as (H1 & H2 & _), GL as (H3 & _). auto.
  - unfold gnext. cbn [g_took]. rewrite map_app. apply nodup_app_intro; [apply (q_once _ G)|destruct e; cbn [took_of map]; repeat constructor; intros []|].
    intros t Ht Ht'. destruct e; cbn [took_of map In] in Ht'; try contradiction. destruct Ht' as [<-|[]]. cbn [good_event] in Ge. destruct Ge as (_ & _ & _ & K). exact (K Ht).
  - intros s j x. unfold gnext. cbn [g_echo]. rewrite in_app_iff. intros [K|K]; [apply (q_echo _ G); exact K|].
    apply in_echoes in K. destruct K as (-> & K). split; [exact Hi|apply SE; exact K].
  - intros k Hk. unfold gnext, put. cbn [g_st g_echo]. intros HP j Hj. apply in_or_app. destruct (k =? i)%nat eqn:EK.
    + apply Nat.eqb_eq in EK. subst k. destruct PR as [PR|PR].
      * left. apply (q_prop _ G); [exact Hi|congruence|exact Hj].
      * right. unfold echoes_of. apply in_flat_map. exists (SendTo j (own j)). split; [|left; reflexivity]. rewrite PR. apply in_map_iff. exists j.
        split; [reflexivity|apply in_seq; lia].
    + left. apply (q_prop _ G); assumption.
  - intros s x. unfold gnext. cbn [g_ready]. rewrite in_app_iff. intros [K|K]; [apply (q_ready _ G); exact K|].
    apply in_readys in K. destruct K as (-> & K). split; [exact Hi|apply HO; exact K].
  - intros k Hk. unfold gnext, put. cbn [g_st g_ready]. intros HP. apply in_or_app. destruct (k =? i)%nat eqn:EK.
    + apply Nat.eqb_eq in EK. subst k. destruct (HS HP) as [K|K]; [left; apply (q_sent _ G); assumption|right; apply in_readys; auto].
    + left. apply (q_sent _ G); assumption.
Qed.

Lemma good_gg g : good g -> gg g.
Proof. induction 1; [apply gg_init|eapply gg_step; eassumption]. Qed.

(** Honest members, as a list. *)
Definition hl : list nat := filter (fun i => if in_dec Nat.eq_dec i bad then false else true) (seq 0 N).

Lemma hl_in i : In i hl <-> honest i.
Proof.
  unfold hl. rewrite filter_In, in_seq. unfold RbcProofs.honest. destruct (in_dec Nat.eq_dec i bad); split; intros (A & B); try discriminate; try contradiction; split; auto; lia.
Qed.

Lemma hl_len : (N - F <= length hl)%nat.
Proof.
  unfold hl. pose proof (filter_split (fun i => if in_dec Nat.eq_dec i bad then false else true) (seq 0 N)) as S. rewrite seq_length in S.
  assert (K : (length (filter (fun x => negb (if in_dec Nat.eq_dec x bad then false else true)) (seq 0 N)) <= length bad)%nat).
  { apply NoDup_incl_length; [apply NoDup_filter, seq_NoDup|]. intros x Hx. apply filter_In in Hx. destruct Hx as (_ & Hx).
    destruct (in_dec Nat.eq_dec x bad); [assumption|discriminate]. }
  lia.
Qed.

Lemma hl_nodup : NoDup hl. Proof. apply NoDup_filter, seq_NoDup. Qed.

Lemma hl_incl (l : list Z) : (forall s, honest s -> In (Z.of_nat s) l) -> (N - F <= length l)%nat.
Proof.
  intros H. pose proof hl_len as K. rewrite <- (map_length Z.of_nat hl) in K.
  assert (Q : (length (map Z.of_nat hl) <= length l)%nat).
  { apply NoDup_incl_length; [apply FinFun.Injective_map_NoDup; [intros a b Hab; lia|apply hl_nodup]|]. intros x Hx. apply in_map_iff in Hx.
    destruct Hx as (s & <- & Hs). apply H. apply hl_in. exact Hs. }
  lia.
Qed.

Theorem quiescent_output g : good g -> quiescent g -> forall i, honest i -> r_out (g_st g i) = Some (Some M0).
Proof.
  intros G Q i Hi. apply good_gg in G.
  assert (PR : forall k, honest k -> r_prop (g_st g k) = true).
  { intros k Hk. destruct (Q k Hk) as (A & _). inversion A as [|x l A1 _ E]; subst. clear A. cbn [rstep] in A1. unfold propose_step in A1.
    destruct (r_prop (g_st g k)); [reflexivity|]. destruct RS as (E1 & _). rewrite E1 in A1. apply bind_ret in A1. destruct A1 as (o & _ & A1). discriminate. }
  assert (EC : forall k s, honest k -> honest s -> In (s, k, own k) (g_echo g)).
  { intros k s Hk Hs. apply (q_prop _ G); [exact Hs|apply PR; exact Hs|apply Hk]. }
  assert (CT : forall k, honest k -> r_eph (g_st g k) = ERecv -> (N - F <= length (tk g k))%nat).
  { intros k Hk EE. rewrite <- (map_length (fun t => snd (fst t))). apply hl_incl. intros s Hs. destruct (Q k Hk) as (_ & B & _).
    destruct (B s (own k) (EC k s Hk Hs)) as [K|K].
    - apply in_map_iff. exists (k, Z.of_nat s, own k). split; [reflexivity|]. apply filter_In. split; [exact K|]. apply Nat.eqb_refl.
    - exfalso. cbn [rstep] in K. unfold echo_step in K. rewrite EE in K. discriminate. }
  assert (EP : forall k, honest k -> r_eph (g_st g k) = ERecv \/ (r_eph (g_st g k) = EDone /\ r_sent (g_st g k) = true)).
  { intros k Hk. destruct (l_eph _ _ _ (q_loc _ G k Hk)) as [K|[K|K]]; auto. exfalso. destruct (Q k Hk) as (A & _). rewrite Forall_forall in A.
    specialize (A EvEchoCheck ltac:(cbn [In]; auto)). cbn [rstep] in A. unfold check_step in A. rewrite K in A. discriminate. }
  assert (SENT : forall k, honest k -> r_sent (g_st g k) = true).
  { intros k Hk. destruct (EP k Hk) as [K|(_ & K)]; [|exact K]. destruct (r_sent (g_st g k)) eqn:ES; [reflexivity|].
    pose proof (l_unsent _ _ _ (q_loc _ G k Hk) ES). pose proof (CT k Hk K). lia. }
  pose proof (q_loc _ G i Hi) as L. destruct (Q i Hi) as (A & B & C). rewrite Forall_forall in A.
  assert (RR : r_rph (g_st g i) = RRecv).
  { destruct (r_rph (g_st g i)) as [|h|h x] eqn:ER; [reflexivity| |]; exfalso.
    - specialize (A EvReadyPop ltac:(cbn [In]; auto)). cbn [rstep] in A. unfold pop_step in A. rewrite ER in A.
      destruct (r_chan (g_st g i)) as [|y ch] eqn:EC2; [|discriminate]. destruct (l_chan2 _ _ _ L h ER) as (_ & E). rewrite EC2 in E. cbn [length] in E.
      pose proof (l_sentw _ _ _ L (SENT i Hi) ltac:(congruence)). lia.
    - specialize (A EvReadySend ltac:(cbn [In]; auto 10)). cbn [rstep] in A. unfold send_step in A. rewrite ER in A.
      destruct (EP i Hi) as [K|(K & _)]; rewrite K in A; destruct (_ <=? _); discriminate. }
  assert (TL : (N - F <= length (Tof (g_st g i) T0))%nat).
  { rewrite <- (map_length fst). apply hl_incl. intros s Hs. apply (l_got _ _ _ L). destruct (C s (own s) (q_sent _ G s Hs (SENT s Hs))) as [K|K]; [exact K|].
    exfalso. cbn [rstep] in K. unfold ready_step in K. rewrite RR in K. destruct (EP i Hi) as [E|(E & _)]; rewrite E in K;
      (destruct (existsb _ _); [discriminate|]; cbv zeta in K; destruct (_ && _); discriminate). }
  destruct (l_out _ _ _ L) as [(O1 & _)|O]; [|exact O]. exfalso.
  assert (ST : r_start (g_st g i) = true).
  { destruct (r_start (g_st g i)) eqn:ES; [reflexivity|]. pose proof (l_start _ _ _ L ES RR). lia. }
  destruct (decode_ok _ _ _ L O1 ST RR) as (st' & E & _). specialize (A EvDecode ltac:(cbn [In]; auto 10)). cbn [rstep] in A. rewrite E in A. discriminate.
Qed.

(** No step of such a run panics. *)
Theorem good_no_panic g i e : good g -> honest i -> good_event g i e -> exists o, rstep' (g_st g i) e = Ret o.
Proof.
  intros G Hi Ge. apply good_gg in G. destruct e; cbn [rstep]; try (eexists; reflexivity).
  - cbn [good_event] in Ge. subst M. unfold propose_step. destruct (r_prop (g_st g i)); [eexists; reflexivity|]. destruct RS as (E1 & LS & _). rewrite E1.
    rewrite (gomap_ret _ (fun j => SendTo j (tag sha M0, nth j shards []))); [eexists; reflexivity|]. intros j Hj. apply in_seq in Hj.
    rewrite (idx_nth [] shards j) by lia. reflexivity.
  - destruct (r_out (g_st g i)) eqn:EO; [unfold decode_step; rewrite EO; eexists; reflexivity|].
    destruct (r_rph (g_st g i)) eqn:ER; [|unfold decode_step; rewrite EO, ER; eexists; reflexivity|unfold decode_step; rewrite EO, ER; eexists; reflexivity].
    destruct (r_start (g_st g i)) eqn:ES; [|unfold decode_step; rewrite EO, ER, ES; eexists; reflexivity].
    destruct (decode_ok _ _ _ (q_loc _ G i Hi) EO ES ER) as (st' & E & _). rewrite E. eexists. reflexivity.
Qed.

(** Whoever has returned has returned the dealer's message. *)
Theorem good_output g i r : good g -> honest i -> r_out (g_st g i) = Some r -> r = Some M0.
Proof.
  intros G Hi E. apply good_gg in G. destruct (l_out _ _ _ (q_loc _ G i Hi)) as [(K & _)|K]; congruence.
Qed.

End Good.
