(** Runs of the reliable broadcast (RbcModel.v) with an honest dealer and corrupted members that send
    whatever they like, except a shard that does not belong to the hash they announce with it. *)

Require Import ZArith List Bool Arith Lia FinFun.
From Verif Require Import Bytes CodecModel CodecProofs GoBase DispatchModel DispatchProofs PolyProofs VssModel VssProofs VssProofs2 RbcModel RbcProofs RbcGood.
Import ListNotations.

Section Byz.
Variable sha : list Z -> list Z.
Variable rs_encode : nat -> nat -> list Z -> option (list (list Z)).
Variable rs_verify : nat -> nat -> list (list Z) -> bool.
Variable rs_reconstruct : nat -> nat -> list (list Z) -> list (list Z).
Variables N F : nat.
Variable bad : list nat.    (* the corrupted members *)
Variable M0 : list Z.       (* the dealer's message *)
Variable shards : list (list Z).

Notation honest := (honest N bad).
Notation rstep' := (rstep sha rs_encode rs_verify rs_reconstruct N F).
Notation T0 := (RbcGood.T0 sha M0).
Notation own := (RbcGood.own sha M0 shards).

(** Channels are authenticated, no member takes two Echo messages of one sender, proposals are the
    dealer's message.  A corrupted member may otherwise send any Echo and Ready messages, different ones
    to different members; only with the hash of the dealer's message it does not send a wrong shard. *)
Definition byz_event (g : gst) (i : nat) (e : rev) : Prop :=
  match e with
  | EvPropose _ M => M = M0
  | EvEcho s x => (0 <= s < Z.of_nat N)%Z /\ (honest (Z.to_nat s) -> In (Z.to_nat s, i, x) (g_echo g)) /\ ~ In (i, s) (map fst (g_took g))
  | EvReady s x => (0 <= s < Z.of_nat N)%Z /\ (honest (Z.to_nat s) -> In (Z.to_nat s, x) (g_ready g)) /\
      (fst x = tag sha M0 -> snd x = nth (Z.to_nat s) shards [])
  | _ => True
  end.

Inductive byz : gst -> Prop :=
| byz_init : byz g_init
| byz_step g i e st outs : byz g -> honest i -> byz_event g i e -> rstep' (g_st g i) e = Ret (Some (st, outs)) ->
    byz (gnext g i e st outs).

Hypothesis RS : rs_good rs_encode rs_verify rs_reconstruct N F M0 shards.
Hypothesis HSHA : length (sha M0) = 32%nat.
Hypothesis HLEN : (Z.of_nat (length M0) < 2 ^ 32)%Z.
Hypothesis HNF : (3 * F + 1 <= N)%nat.
Hypothesis Hbad : (length bad <= F)%nat.

(** ** Local invariant, for member i that has taken n Echo messages with its own shard and b others *)

Record linv (i n b : nat) (st : rst) : Prop := mkL {
  l_cnt : count (r_echo st) (own i) = n;
  l_oth : forall x, x <> own i -> (count (r_echo st) x <= b)%nat;
  l_eph : r_eph st = ERecv \/ r_eph st = ECheck \/ (r_eph st = EDone /\ r_sent st = true);
  l_len : (length (r_chan st) <= n)%nat;
  l_chan : forall x, In x (r_chan st) -> x = own i /\ (F + 1 <= n)%nat;
  l_chan1 : r_sent st = false -> r_rph st = RRecv -> length (r_chan st) = (n - F)%nat;
  l_chan2 : forall h, r_rph st = RWait h -> h = T0 /\ length (r_chan st) = (n - F)%nat;
  l_rsend : forall h x, r_rph st = RSend h x -> h = T0 /\ x = own i /\ (F + 1 <= n)%nat;
  l_unsent : r_sent st = false -> (n < N - F)%nat;
  l_sentw : r_sent st = true -> r_rph st <> RRecv -> (N - F <= n)%nat;
  l_T : forall h j, h <> T0 -> In j (map fst (Tof st h)) -> (0 <= j < Z.of_nat N)%Z /\ In (Z.to_nat j) bad;
  l_Tin : forall j m, In (j, m) (Tof st T0) -> (0 <= j < Z.of_nat N)%Z /\ m = nth (Z.to_nat j) shards [];
  l_got : forall h j, In j (map fst (Tof st h)) -> In j (r_got st);
  l_goth : forall s, honest s -> In (Z.of_nat s) (r_got st) -> In (Z.of_nat s) (map fst (Tof st T0));
  l_Tnd : forall h, NoDup (map fst (Tof st h));
  l_out : (r_out st = None /\ r_round st = 0%nat /\ (length (Tof st T0) <= r_maxN st)%nat /\
            (F < r_maxN st -> r_maxN st = length (Tof st T0) /\ r_maxHash st = T0)%nat) \/
          r_out st = Some (Some M0);
  l_start : r_start st = false -> r_rph st = RRecv -> (length (Tof st T0) < N - F)%nat;
  l_started : r_start st = true -> (N - F <= length (Tof st T0))%nat }.

Lemma linv_init i : linv i 0 0 rbc_init.
Proof.
  constructor; cbn [rbc_init r_prop r_echo r_T r_maxN r_maxHash r_sent r_chan r_got r_eph r_rph r_start r_round r_out];
    try (intros; contradiction); try (intros; discriminate); try reflexivity; try lia.
  - left. reflexivity.
  - intros h. constructor.
  - left. split; [reflexivity|]. split; [reflexivity|]. split; [apply Nat.le_refl|]. intros H. lia.
  - intros _ _. change (0 < N - F)%nat. lia.
Qed.

(** Members that announced another hash are corrupted: there are at most F of them. *)
Lemma few (L : list Z) : NoDup L -> (forall j, In j L -> (0 <= j < Z.of_nat N)%Z /\ In (Z.to_nat j) bad) -> (length L <= F)%nat.
Proof.
  intros ND H. transitivity (length bad); [|exact Hbad]. rewrite <- (map_length Z.to_nat L). apply NoDup_incl_length.
  - induction L as [|a L IH]; [constructor|]. inversion ND; subst. cbn [map]. constructor.
    + intros K. apply in_map_iff in K. destruct K as (b & K1 & K2). destruct (H a ltac:(left; reflexivity)), (H b ltac:(right; exact K2)).
      assert (a = b) by lia. subst b. contradiction.
    + apply IH; [assumption|]. intros j Hj. apply H. right. exact Hj.
  - intros x Hx. apply in_map_iff in Hx. destruct Hx as (j & <- & Hj). apply H. exact Hj.
Qed.

Lemma few_T i n b st h : linv i n b st -> h <> T0 -> (length (Tof st h) <= F)%nat.
Proof.
  intros L Hh. rewrite <- (map_length fst). apply few; [apply (l_Tnd _ _ _ _ L)|]. intros j Hj. apply (l_T _ _ _ _ L h j Hh Hj).
Qed.

Ltac fields := cbn [r_prop r_echo r_T r_maxN r_maxHash r_sent r_chan r_got r_eph r_rph r_start r_round r_out] in *.

Lemma decode_ok i n b st : linv i n b st -> r_out st = None -> r_start st = true -> r_rph st = RRecv -> exists st',
  decode_step sha rs_verify rs_reconstruct N F st = Ret (Some (st', [])) /\
  st' = mkR (r_prop st) (r_echo st) (r_T st) (r_maxN st) (firstn 32 T0) (r_sent st) (r_chan st) (r_got st) (r_eph st) RRecv true 1 (Some (Some M0)).
Proof.
  intros L EO ES ER. destruct (l_out _ _ _ _ L) as [(_ & RD & MN & MH)|K]; [|congruence]. pose proof (l_started _ _ _ _ L ES) as LT.
  assert (ML : (N - F <= r_maxN st)%nat) by lia. assert (MH2 : r_maxHash st = T0) by (apply MH; lia).
  eexists. split; [|reflexivity]. unfold decode_step. rewrite EO, ER, ES, RD, MH2. cbn [andb]. rewrite Nat.add_0_r.
  rewrite (proj2 (Nat.leb_le _ _) ML). destruct (T0_hash sha N F bad M0 HSHA HNF Hbad) as (H1 & H2 & H3).
  unfold place. replace (N - F - length (Tof st T0))%nat with 0%nat by lia. cbn [repeat]. rewrite app_nil_r.
  set (l := firstn (N - F) (Tof st T0)).
  assert (LL : length l = (N - F)%nat) by (unfold l; rewrite firstn_length; lia).
  assert (FL : forall a, In a l -> In a (Tof st T0)).
  { intros a Ha. rewrite <- (firstn_skipn (N - F) (Tof st T0)). apply in_or_app. left. exact Ha. }
  assert (NL : NoDup (map fst l)).
  { pose proof (l_Tnd _ _ _ _ L T0) as ND. rewrite <- (firstn_skipn (N - F) (Tof st T0)), map_app in ND. apply nodup_app_l in ND. exact ND. }
  destruct (place_correct sha N F bad M0 shards HSHA HNF Hbad l) as (X & E & LX & HX); [intros j m Hjm; apply (l_Tin _ _ _ _ L); apply FL; exact Hjm|exact NL|].
  rewrite E. cbn [bind].
  assert (NM : (N - F <= length (filter (fun s => negb (bytes_eqb s [])) X))%nat).
  { rewrite <- LL, <- (map_length fst l). apply (place_count sha rs_encode rs_verify rs_reconstruct N F bad M0 shards RS HSHA HNF Hbad); auto. intros s Hs. apply in_map_iff in Hs. destruct Hs as ((j & m) & <- & Hj).
    apply (l_Tin _ _ _ _ L j m). apply FL. exact Hj. }
  destruct RS as (_ & LS & NE & (pad & CP) & RV & RR).
  assert (EM : firstn (N - (F + 1)) (if rs_verify N F X then X else rs_reconstruct N F X) = firstn (N - (F + 1)) shards).
  { destruct (rs_verify N F X) eqn:EV.
    - specialize (RV X LX EV). f_equal. apply (list_ext []); [congruence|]. intros k Hk. rewrite HX by lia.
      destruct (in_dec _ _ _) as [_|Hn]; [reflexivity|]. exfalso. rewrite Forall_forall in RV. apply (RV (nth k X [])); [apply nth_In; lia|].
      rewrite HX by lia. destruct (in_dec _ _ _); [contradiction|reflexivity].
    - apply RR; [exact LX| |lia]. intros j Hj. rewrite HX by exact Hj. destruct (in_dec _ _ _); auto. }
  rewrite EM, CP. rewrite (proj2 (Nat.ltb_ge _ _) H3). rewrite H1, H2.
  rewrite IntToBytes_roundtrip by lia.
  rewrite (proj2 (Z.ltb_ge _ _)) by (rewrite app_length; lia). rewrite Nat2Z.id, firstn_app, firstn_all, Nat.sub_diag. cbn [firstn].
  rewrite app_nil_r. rewrite (proj2 (bytes_eqb_eq _ _) eq_refl). reflexivity.
Qed.


Definition byz_local (i n b : nat) (e : rev) : Prop :=
  match e with
  | EvPropose _ M => M = M0
  | EvEcho _ x => if hm_dec x (own i) then (n < N)%nat else (b < F)%nat
  | EvReady s x => (0 <= s < Z.of_nat N)%Z /\ (fst x = T0 -> snd x = nth (Z.to_nat s) shards []) /\ (fst x <> T0 -> In (Z.to_nat s) bad)
  | _ => True
  end.
Definition mine (i : nat) (e : rev) : nat := match e with EvEcho _ x => if hm_dec x (own i) then 1 else 0 | _ => 0 end.
Definition other (i : nat) (e : rev) : nat := match e with EvEcho _ x => if hm_dec x (own i) then 0 else 1 | _ => 0 end.

Lemma linv_fields i n b st st' : linv i n b st -> r_echo st' = r_echo st -> r_T st' = r_T st -> r_maxN st' = r_maxN st -> r_maxHash st' = r_maxHash st ->
  r_sent st' = r_sent st -> r_chan st' = r_chan st -> r_got st' = r_got st -> r_eph st' = r_eph st -> r_rph st' = r_rph st ->
  r_start st' = r_start st -> r_round st' = r_round st -> r_out st' = r_out st -> linv i n b st'.
Proof.
  intros L E1 E2 E3 E4 E5 E6 E7 E8 E9 E10 E11 E12. assert (ET : forall h, Tof st' h = Tof st h) by (intros h; unfold Tof; rewrite E2; reflexivity).
  destruct L. constructor; rewrite ?E1, ?E3, ?E4, ?E5, ?E6, ?E7, ?E8, ?E9, ?E10, ?E11, ?E12, ?ET; auto;
    try (intros h j; rewrite ET; eauto); intros h; rewrite ET; auto.
Qed.

(** An Echo message with another hash or another shard. *)
Lemma linv_echo_other i n b st st' outs x : linv i n b st -> x <> own i -> (b < F)%nat -> echo_step N F st x = Some (st', outs) ->
  linv i n (b + 1) st' /\ outs = [] /\ r_sent st' = r_sent st.
Proof.
  intros L Hx Hb E. unfold echo_step in E. destruct (r_eph st) eqn:EE; try discriminate. cbv zeta in E.
  pose proof (l_oth _ _ _ _ L x Hx) as CX. rewrite count_echo_same in E.
  rewrite (proj2 (Nat.leb_gt (N - F) (count (r_echo st) x + 1))) in E by lia.
  rewrite (proj2 (Nat.leb_gt (F + 1) (count (r_echo st) x + 1))) in E by lia.
  rewrite andb_false_r, orb_false_r in E. cbn [andb] in E. inversion E; subst st' outs. clear E.
  split; [|split; reflexivity].
  destruct L as [a1 a0 a2 a3 a4 a5 a6 a7 a8 a9 a10 a11 a12 a12' a13 a14 a15 a16]. constructor; fields; auto.
  - rewrite count_echo_other by congruence. exact a1.
  - intros y Hy. destruct (hm_dec y x) as [->|Ne].
    + rewrite count_echo_same. lia.
    + rewrite count_echo_other by exact Ne. specialize (a0 y Hy). lia.
Qed.

Lemma linv_echo i n b st st' outs : linv i n b st -> (n < N)%nat -> echo_step N F st (own i) = Some (st', outs) ->
  linv i (n + 1) b st' /\ (forall x, In (SendAll x) outs -> x = own i) /\ (r_sent st' = true -> r_sent st = true \/ In (SendAll (own i)) outs).
Proof.
  intros L Hn E. unfold echo_step in E. destruct (r_eph st) eqn:EE; try discriminate.
  rewrite count_echo_same, (l_cnt _ _ _ _ L) in E. pose proof (l_len _ _ _ _ L) as LL.
  rewrite (proj2 (Nat.ltb_lt (length (r_chan st)) N)) in E by lia. rewrite andb_true_r, andb_false_r in E.
  apply (f_equal (fun o => match o with Some a => a | None => (st', outs) end)) in E.
  pose proof (f_equal fst E) as E1. pose proof (f_equal snd E) as E2. cbn [fst snd] in E1, E2. clear E.
  assert (S : r_sent st' = r_sent st || (negb (r_sent st) && (N - F <=? n + 1))) by (rewrite <- E1; reflexivity).
  assert (C : r_chan st' = if (F + 1 <=? n + 1) then r_chan st ++ [own i] else r_chan st) by (rewrite <- E1; reflexivity).
  split; [|split].
  - destruct L as [a1 a0 a2 a3 a4 a5 a6 a7 a8 a9 a10 a11 a12 a12' a13 a14 a15 a16]. constructor; rewrite ?S, ?C.
    + rewrite <- E1. fields. rewrite count_echo_same. lia.
    + intros x Hx. rewrite <- E1. fields. rewrite count_echo_other by exact Hx. apply a0. exact Hx.
    + right. left. rewrite <- E1. reflexivity.
    + destruct (F + 1 <=? n + 1); [rewrite app_length; cbn [length]|]; lia.
    + intros x Hx. destruct (F + 1 <=? n + 1) eqn:EF.
      * apply Nat.leb_le in EF. apply in_app_or in Hx. destruct Hx as [Hx|[Hx|[]]]; [|split; [symmetry; exact Hx|lia]].
        destruct (a4 x Hx). split; [assumption|lia].
      * destruct (a4 x Hx). split; [assumption|lia].
    + intros HS HR. apply orb_false_iff in HS. destruct HS as (HS & _).
      assert (HR' : r_rph st = RRecv) by (rewrite <- HR, <- E1; reflexivity).
      specialize (a5 HS HR'). destruct (F + 1 <=? n + 1) eqn:EF; [apply Nat.leb_le in EF; rewrite app_length; cbn [length]|apply Nat.leb_gt in EF]; lia.
    + intros h HR. assert (HR' : r_rph st = RWait h) by (rewrite <- HR, <- E1; reflexivity). destruct (a6 h HR') as (e1 & e2). split; [exact e1|].
      destruct (F + 1 <=? n + 1) eqn:EF; [apply Nat.leb_le in EF; rewrite app_length; cbn [length]|apply Nat.leb_gt in EF]; lia.
    + intros h x HR. assert (HR' : r_rph st = RSend h x) by (rewrite <- HR, <- E1; reflexivity). destruct (a7 h x HR') as (e1 & e2 & e3).
      split; [exact e1|]. split; [exact e2|lia].
    + intros HS. apply orb_false_iff in HS. destruct HS as (HS & HS2). rewrite HS in HS2. cbn [negb andb] in HS2. apply Nat.leb_gt in HS2. lia.
    + intros HS HR. assert (HR' : r_rph st <> RRecv) by (intros K; apply HR; rewrite <- E1; exact K).
      destruct (r_sent st) eqn:ES; [specialize (a9 eq_refl HR'); lia|]. cbn [negb andb orb] in HS. apply Nat.leb_le in HS. exact HS.
    + intros h j Hh. rewrite <- E1. apply a10. exact Hh.
    + intros j m. rewrite <- E1. apply a11.
    + intros h j. rewrite <- E1. apply a12.
    + intros s. rewrite <- E1. apply a12'.
    + intros h. rewrite <- E1. apply a13.
    + rewrite <- E1. apply a14.
    + rewrite <- E1. apply a15.
    + rewrite <- E1. apply a16.
  - intros x Hx. rewrite <- E2 in Hx. destruct (negb _ && _); [|destruct Hx]. destruct Hx as [Hx|[]]. inversion Hx. reflexivity.
  - rewrite S, <- E2. destruct (r_sent st); [auto|]. cbn [orb negb andb]. intros ->. right. left. reflexivity.
Qed.

(** What taking a Ready message does, whatever it carries. *)
Lemma ready_cases st s x st' outs : ready_step N F st s x = Some (st', outs) -> r_rph st = RRecv /\ outs = [] /\
  ((In s (r_got st) /\ st' = st) \/
   (~ In s (r_got st) /\
    let l := Tof st (fst x) ++ [(s, snd x)] in let w := negb (r_sent st) && (F + 1 <=? length l) in
    r_echo st' = r_echo st /\ r_T st' = update (fst x) l (r_T st) /\
    r_maxN st' = (if (r_maxN st <? length l) then length l else r_maxN st) /\
    r_maxHash st' = (if (r_maxN st <? length l) then fst x else r_maxHash st) /\
    r_sent st' = r_sent st /\ r_chan st' = r_chan st /\ r_got st' = s :: r_got st /\ r_eph st' = r_eph st /\
    r_rph st' = (if w then RWait (fst x) else RRecv) /\ r_round st' = r_round st /\ r_out st' = r_out st /\
    r_start st' = (if w then r_start st else r_start st || (N - F <=? length l)))).
Proof.
  intros E. unfold ready_step in E.
  destruct (r_rph st) eqn:ER; [|destruct (r_eph st); discriminate|destruct (r_eph st); discriminate].
  assert (E1 : (if existsb (Z.eqb s) (r_got st) then Some (st, [])
    else let l := Tof st (fst x) ++ [(s, snd x)] in
      let T := update (fst x) l (r_T st) in
      let more := (r_maxN st <? length l) in
      let st1 := mkR (r_prop st) (r_echo st) T (if more then length l else r_maxN st) (if more then fst x else r_maxHash st)
                   (r_sent st) (r_chan st) (s :: r_got st) (r_eph st) RRecv (r_start st) (r_round st) (r_out st) in
      if negb (r_sent st) && (F + 1 <=? length l) then
        Some (mkR (r_prop st1) (r_echo st1) (r_T st1) (r_maxN st1) (r_maxHash st1) (r_sent st1) (r_chan st1) (r_got st1)
                (r_eph st1) (RWait (fst x)) (r_start st1) (r_round st1) (r_out st1), [])
      else
        Some (mkR (r_prop st1) (r_echo st1) (r_T st1) (r_maxN st1) (r_maxHash st1) (r_sent st1) (r_chan st1) (r_got st1)
                (r_eph st1) RRecv (dec_start N F st1 (fst x)) (r_round st1) (r_out st1), [])) = Some (st', outs))
    by (destruct (r_eph st); [exact E|discriminate|exact E|exact E]). clear E.
  split; [reflexivity|]. destruct (existsb (Z.eqb s) (r_got st)) eqn:EX.
  - inversion E1; subst. split; [reflexivity|]. left. split; [|reflexivity]. apply existsb_exists in EX. destruct EX as (z & H1 & H2).
    apply Z.eqb_eq in H2. subst z. exact H1.
  - cbv zeta in E1. fields.
    match type of E1 with (if ?b then Some ?o1 else Some ?o2) = _ =>
      assert (E' : (if b then o1 else o2) = (st', outs)) by (destruct b; inversion E1; reflexivity) end. clear E1.
    cbv zeta.
    set (l := Tof st (fst x) ++ [(s, snd x)]) in *.
    match type of E' with (if ?b then _ else _) = _ => set (w := b) in * end.
    assert (Q : outs = [] /\ r_echo st' = r_echo st /\ r_T st' = update (fst x) l (r_T st) /\
     r_maxN st' = (if (r_maxN st <? length l) then length l else r_maxN st) /\
     r_maxHash st' = (if (r_maxN st <? length l) then fst x else r_maxHash st) /\
     r_sent st' = r_sent st /\ r_chan st' = r_chan st /\ r_got st' = s :: r_got st /\ r_eph st' = r_eph st /\
     r_rph st' = (if w then RWait (fst x) else RRecv) /\ r_round st' = r_round st /\ r_out st' = r_out st /\
     r_start st' = (if w then r_start st else r_start st || (N - F <=? length l)))
      by (destruct w; inversion E'; fields; unfold dec_start, Tof; fields; rewrite ?lookup_update_same; repeat split; reflexivity).
    destruct Q as (Q0 & Q). split; [exact Q0|]. right. split; [|exact Q]. intros K.
    rewrite (proj2 (existsb_exists _ _)) in EX; [discriminate|exists s; split; [exact K|apply Z.eqb_refl]].
Qed.

(** A Ready message with the hash of the dealer's message. *)
Lemma linv_ready i n b st st' outs s : linv i n b st -> (0 <= s < Z.of_nat N)%Z -> ready_step N F st s (own (Z.to_nat s)) = Some (st', outs) ->
  linv i n b st' /\ outs = [] /\ r_sent st' = r_sent st.
Proof.
  intros L Hs E. apply ready_cases in E. destruct E as (ER & -> & [(_ & ->)|(NG0 & Q)]); [auto|].
  cbv zeta in Q. rewrite own_fst, own_snd in Q.
  set (l := Tof st T0 ++ [(s, nth (Z.to_nat s) shards [])]) in *.
  assert (LEN : length l = (length (Tof st T0) + 1)%nat) by (unfold l; rewrite app_length; reflexivity).
  match type of Q with context [if negb (r_sent st) && ?b then RWait _ else _] => set (w := negb (r_sent st) && b) in * end.
  destruct Q as (Q1 & Q2 & Q3 & Q4 & Q5 & Q6 & Q7 & Q8 & Q9 & Q10 & Q11 & Q12).
  assert (NG : ~ In s (map fst (Tof st T0))) by (intros K; apply NG0; apply (l_got _ _ _ _ L _ _ K)).
  split; [|split; [reflexivity|exact Q5]].
  assert (TT : Tof st' T0 = l) by (unfold Tof; rewrite Q2, lookup_update_same; reflexivity).
  assert (TO : forall h, h <> T0 -> Tof st' h = Tof st h) by (intros h Hh; unfold Tof; rewrite Q2, lookup_update_other by exact Hh; reflexivity).
  assert (W : w = true -> r_sent st = false) by (unfold w; destruct (r_sent st); [discriminate|reflexivity]).
  clearbody w.
  destruct L as [a1 a0 a2 a3 a4 a5 a6 a7 a8 a9 a10 a11 a12 a12' a13 a14 a15 a16]; constructor;
    rewrite ?Q1, ?Q3, ?Q4, ?Q5, ?Q6, ?Q7, ?Q8, ?Q9, ?Q10, ?Q11, ?Q12, ?TT; auto.
  - intros h Hw. destruct w; [|discriminate]. inversion Hw; subst h. split; [reflexivity|]. apply a5; [apply W; reflexivity|exact ER].
  - intros h x Hw. destruct w; discriminate.
  - intros S Hw. destruct w; [rewrite W in S by reflexivity; discriminate|contradiction].
  - intros h j Hh. rewrite TO by exact Hh. apply a10. exact Hh.
  - intros j m Hj. unfold l in Hj. apply in_app_or in Hj. destruct Hj as [Hj|[Hj|[]]]; [apply a11; exact Hj|inversion Hj; subst j; auto].
  - intros h j Hj. destruct (list_eq_dec Z.eq_dec h T0) as [->|Ne].
    + rewrite TT in Hj. unfold l in Hj. rewrite map_app, in_app_iff in Hj. cbn [map In fst] in Hj. destruct Hj as [Hj|[Hj|[]]]; [right; apply (a12 _ _ Hj)|left; exact Hj].
    + rewrite TO in Hj by exact Ne. right. apply (a12 _ _ Hj).
  - intros z Hz [K|K]; unfold l; rewrite map_app, in_app_iff; cbn [map In fst]; [right; left; exact K|left; apply a12'; assumption].
  - intros h. destruct (list_eq_dec Z.eq_dec h T0) as [->|Ne].
    + rewrite TT. unfold l. rewrite map_app. apply nodup_app_intro; [apply a13|repeat constructor; intros []|intros z Hz [<-|[]]; exact (NG Hz)].
    + rewrite TO by exact Ne. apply a13.
  - destruct a14 as [(b1 & b2 & b3 & b4)|b1]; [left|right; exact b1]. split; [exact b1|]. split; [exact b2|].
    destruct (r_maxN st <? length l) eqn:EM; [apply Nat.ltb_lt in EM|apply Nat.ltb_ge in EM].
    + split; [lia|]. auto.
    + split; [lia|]. intros K. specialize (b4 K). lia.
  - intros S Hw. destruct w; [discriminate|]. apply orb_false_iff in S. destruct S as (_ & S). apply Nat.leb_gt in S. exact S.
  - intros S. destruct w; [specialize (a16 S); lia|]. apply orb_true_iff in S. destruct S as [S|S]; [specialize (a16 S); lia|apply Nat.leb_le in S; exact S].
Qed.

(** A Ready message with another hash, of a corrupted member. *)
Lemma linv_ready_other i n b st st' outs s x : linv i n b st -> (0 <= s < Z.of_nat N)%Z -> fst x <> T0 -> In (Z.to_nat s) bad ->
  ready_step N F st s x = Some (st', outs) -> linv i n b st' /\ outs = [] /\ r_sent st' = r_sent st.
Proof.
  intros L Hs Hx Hb E. apply ready_cases in E. destruct E as (ER & -> & [(_ & ->)|(NG0 & Q)]); [auto|].
  cbv zeta in Q. set (l := Tof st (fst x) ++ [(s, snd x)]) in *.
  assert (NDl : NoDup (map fst l)).
  { unfold l. rewrite map_app. apply nodup_app_intro; [apply (l_Tnd _ _ _ _ L)|repeat constructor; intros []|]. intros z Hz [<-|[]].
    apply NG0. apply (l_got _ _ _ _ L _ _ Hz). }
  assert (INl : forall j, In j (map fst l) -> (0 <= j < Z.of_nat N)%Z /\ In (Z.to_nat j) bad).
  { unfold l. intros j Hj. rewrite map_app, in_app_iff in Hj. cbn [map In fst] in Hj. destruct Hj as [Hj|[<-|[]]]; [apply (l_T _ _ _ _ L (fst x)); assumption|auto]. }
  assert (LEN : (length l <= F)%nat) by (rewrite <- (map_length fst l); apply few; assumption).
  assert (LE1 : (1 <= length l)%nat) by (unfold l; rewrite app_length; cbn [length]; lia).
  rewrite (proj2 (Nat.leb_gt (F + 1) (length l))) in Q by lia.
  rewrite (proj2 (Nat.leb_gt (N - F) (length l))) in Q by lia.
  rewrite andb_false_r, orb_false_r in Q.
  destruct Q as (Q1 & Q2 & Q3 & Q4 & Q5 & Q6 & Q7 & Q8 & Q9 & Q10 & Q11 & Q12).
  split; [|split; [reflexivity|exact Q5]].
  assert (TT : Tof st' T0 = Tof st T0) by (unfold Tof; rewrite Q2, lookup_update_other by congruence; reflexivity).
  assert (TX : Tof st' (fst x) = l) by (unfold Tof; rewrite Q2, lookup_update_same; reflexivity).
  assert (TO : forall h, h <> fst x -> Tof st' h = Tof st h) by (intros h Hh; unfold Tof; rewrite Q2, lookup_update_other by exact Hh; reflexivity).
  destruct L as [a1 a0 a2 a3 a4 a5 a6 a7 a8 a9 a10 a11 a12 a12' a13 a14 a15 a16]; constructor;
    rewrite ?Q1, ?Q3, ?Q4, ?Q5, ?Q6, ?Q7, ?Q8, ?Q9, ?Q10, ?Q11, ?Q12, ?TT; auto; try discriminate.
  - intros h j Hh Hj. destruct (list_eq_dec Z.eq_dec h (fst x)) as [->|Ne].
    + rewrite TX in Hj. apply INl. exact Hj.
    + rewrite TO in Hj by exact Ne. apply (a10 h); assumption.
  - intros h j Hj. destruct (list_eq_dec Z.eq_dec h (fst x)) as [->|Ne].
    + rewrite TX in Hj. unfold l in Hj. rewrite map_app, in_app_iff in Hj. cbn [map In fst] in Hj. destruct Hj as [Hj|[Hj|[]]]; [right; apply (a12 _ _ Hj)|left; exact Hj].
    + rewrite TO in Hj by exact Ne. right. apply (a12 _ _ Hj).
  - intros z Hz [K|K]; [|apply a12'; assumption]. exfalso. destruct Hz as (_ & Hz). apply Hz. subst s. rewrite Nat2Z.id in Hb. exact Hb.
  - intros h. destruct (list_eq_dec Z.eq_dec h (fst x)) as [->|Ne]; [rewrite TX; exact NDl|rewrite TO by exact Ne; apply a13].
  - destruct a14 as [(b1 & b2 & b3 & b4)|b1]; [left|right; exact b1]. split; [exact b1|]. split; [exact b2|].
    destruct (r_maxN st <? length l) eqn:EM; [apply Nat.ltb_lt in EM|apply Nat.ltb_ge in EM; auto].
    split; [lia|]. intros K. lia.
Qed.

Lemma linv_pop i n b st st' outs : linv i n b st -> pop_step st = Some (st', outs) -> linv i n b st' /\ outs = [] /\ r_sent st' = r_sent st.
Proof.
  intros L E. unfold pop_step in E. destruct (r_rph st) as [|h|h x] eqn:ER; try discriminate. destruct (r_chan st) as [|x ch] eqn:EC; [discriminate|].
  inversion E; subst st' outs. clear E. split; [|split; reflexivity].
  destruct L as [a1 a0 a2 a3 a4 a5 a6 a7 a8 a9 a10 a11 a12 a12' a13 a14 a15 a16]. rewrite EC in *. cbn [length] in *.
  destruct (a6 h ER) as (e1 & e2). destruct (a4 x ltac:(left; reflexivity)) as (e3 & e4).
  constructor; fields; auto.
  - lia.
  - intros y Hy. apply a4. right. exact Hy.
  - discriminate.
  - discriminate.
  - intros h' x' H. inversion H; subst. auto.
  - intros HS _. apply a9; [exact HS|congruence].
  - discriminate.
Qed.

Lemma linv_send i n b st st' outs : linv i n b st -> send_step N F st = Some (st', outs) ->
  linv i n b st' /\ outs = [SendAll (own i)] /\ r_sent st' = true.
Proof.
  intros L E. unfold send_step in E. destruct (r_rph st) as [|h|h x] eqn:ER; [discriminate|discriminate|].
  destruct (l_rsend _ _ _ _ L h x ER) as (-> & -> & Hn). rewrite (l_cnt _ _ _ _ L) in E. rewrite (proj2 (Nat.leb_le _ _) Hn) in E.
  assert (E2 : (mkR (r_prop st) (r_echo st) (r_T st) (r_maxN st) (r_maxHash st) true (r_chan st) (r_got st) (r_eph st) RRecv
         (dec_start N F st T0) (r_round st) (r_out st), [SendAll (T0, snd (own i))]) = (st', outs)).
  { destruct (r_eph st); inversion E; reflexivity. }
  clear E. inversion E2; subst st' outs. clear E2. split; [|split; reflexivity].
  destruct L as [a1 a0 a2 a3 a4 a5 a6 a7 a8 a9 a10 a11 a12 a12' a13 a14 a15 a16].
  constructor; fields; auto; try discriminate.
  - destruct a2 as [a2|[a2|(a2 & _)]]; auto.
  - unfold dec_start. intros K _. apply orb_false_iff in K. destruct K as (_ & K). apply Nat.leb_gt in K. exact K.
  - unfold dec_start. intros K. apply orb_true_iff in K. destruct K as [K|K]; [apply a16; exact K|apply Nat.leb_le in K; exact K].
Qed.

Lemma linv_check i n b st st' outs : linv i n b st -> check_step st = Some (st', outs) -> linv i n b st' /\ outs = [] /\ r_sent st' = r_sent st.
Proof.
  intros L E. unfold check_step in E. destruct (r_eph st) eqn:EE; try discriminate. inversion E; subst st' outs. split; [|split; reflexivity].
  destruct L as [a1 a0 a2 a3 a4 a5 a6 a7 a8 a9 a10 a11 a12 a12' a13 a14 a15 a16]. unfold set_echo. constructor; fields; auto.
  destruct (r_sent st); auto.
Qed.

Lemma linv_decode i n b st o : linv i n b st -> decode_step sha rs_verify rs_reconstruct N F st = Ret (Some o) ->
  linv i n b (fst o) /\ snd o = [] /\ r_sent (fst o) = r_sent st.
Proof.
  intros L E. pose proof E as E0. unfold decode_step in E0. destruct (r_out st) eqn:EO; [discriminate|]. destruct (r_rph st) eqn:ER; try discriminate.
  destruct (r_start st) eqn:ES; [|discriminate]. clear E0.
  destruct (decode_ok i n b st L EO ES ER) as (st' & E2 & E3). rewrite E in E2. inversion E2 as [E4]. subst st'. subst o. cbn [fst snd].
  split; [|split; reflexivity].
  destruct L as [a1 a0 a2 a3 a4 a5 a6 a7 a8 a9 a10 a11 a12 a12' a13 a14 a15 a16]. constructor; fields; auto; try discriminate.
Qed.


Lemma linv_step i n b st e o : linv i n b st -> byz_local i n b e -> rstep' st e = Ret (Some o) ->
  linv i (n + mine i e) (b + other i e) (fst o) /\ (forall x, In (SendAll x) (snd o) -> x = own i) /\
  (r_sent (fst o) = true -> r_sent st = true \/ In (SendAll (own i)) (snd o)).
Proof.
  intros L G E. destruct o as (st' & outs). destruct e; cbn [rstep mine other byz_local] in *; rewrite ?Nat.add_0_r.
  - apply propose_inv in E. destruct E as (_ & _ & E1 & E2 & E3 & E4 & E5 & E6 & E7 & E8 & E9 & E10 & E11 & E12 & sh & _ & _ & E13). cbn [fst snd] in *.
    split; [apply (linv_fields _ _ _ st); assumption|]. split; [|rewrite E5; auto]. intros x Hx. rewrite E13 in Hx. apply in_map_iff in Hx.
    destruct Hx as (k & Hk & _). discriminate.
  - assert (E' : echo_step N F st x = Some (st', outs)) by (inversion E; reflexivity). cbn [fst snd].
    destruct (hm_dec x (own i)) as [->|Ne]; rewrite ?Nat.add_0_r.
    + apply linv_echo; assumption.
    + destruct (linv_echo_other _ _ _ _ _ _ _ L Ne G E') as (H1 & -> & H3). rewrite H3. split; [exact H1|]. split; [intros y []|auto].
  - assert (E' : push_step N st = Some (st', outs)) by (inversion E; reflexivity). unfold push_step in E'.
    destruct (l_eph _ _ _ _ L) as [K|[K|(K & _)]]; rewrite K in E'; discriminate.
  - assert (E' : check_step st = Some (st', outs)) by (inversion E; reflexivity). destruct (linv_check _ _ _ _ _ _ L E') as (H1 & -> & H3).
    cbn [fst snd]. rewrite H3. split; [exact H1|]. split; [intros x []|auto].
  - destruct G as (Hs & G1 & G2). assert (E' : ready_step N F st sender x = Some (st', outs)) by (inversion E; reflexivity).
    assert (K : linv i n b st' /\ outs = [] /\ r_sent st' = r_sent st).
    { destruct (list_eq_dec Z.eq_dec (fst x) T0) as [Ex|Nx].
      - assert (EQ : x = own (Z.to_nat sender)) by (destruct x as (h & mm); cbn [fst snd] in *; rewrite Ex, (G1 Ex); reflexivity).
        rewrite EQ in E'. apply (linv_ready _ _ _ _ _ _ _ L Hs E').
      - apply (linv_ready_other _ _ _ _ _ _ _ _ L Hs Nx (G2 Nx) E'). }
    destruct K as (H1 & -> & H3). cbn [fst snd]. rewrite H3. split; [exact H1|]. split; [intros y []|auto].
  - assert (E' : pop_step st = Some (st', outs)) by (inversion E; reflexivity). destruct (linv_pop _ _ _ _ _ _ L E') as (H1 & -> & H3).
    cbn [fst snd]. rewrite H3. split; [exact H1|]. split; [intros x []|auto].
  - assert (E' : send_step N F st = Some (st', outs)) by (inversion E; reflexivity). destruct (linv_send _ _ _ _ _ _ L E') as (H1 & -> & H3).
    cbn [fst snd]. split; [exact H1|]. split; [intros x [Hx|[]]; inversion Hx; reflexivity|]. intros _. right. left. reflexivity.
  - destruct (linv_decode _ _ _ _ _ L E) as (H1 & H2 & H3). rewrite H2, H3. split; [exact H1|]. split; [intros x []|auto].
Qed.

(** ** The committee *)

Definition own_of (i : nat) (t : nat * Z * hm) : bool := if hm_dec (snd t) (own i) then true else false.
Definition tk (g : gst) (i : nat) : list (nat * Z * hm) := filter (fun t => (fst (fst t) =? i)%nat) (g_took g).
Definition mk (g : gst) (i : nat) : list (nat * Z * hm) := filter (own_of i) (tk g i).
Definition ok (g : gst) (i : nat) : list (nat * Z * hm) := filter (fun t => negb (own_of i t)) (tk g i).

Record gg (g : gst) : Prop := mkGG {
  q_loc : forall i, honest i -> linv i (length (mk g i)) (length (ok g i)) (g_st g i);
  q_took : forall i s x, In (i, s, x) (g_took g) -> (0 <= s < Z.of_nat N)%Z /\ (honest (Z.to_nat s) -> x = own i);
  q_once : NoDup (map fst (g_took g));
  q_echo : forall s j x, In (s, j, x) (g_echo g) -> honest s /\ x = own j;
  q_prop : forall i, honest i -> r_prop (g_st g i) = true -> forall j, (j < N)%nat -> In (i, j, own j) (g_echo g);
  q_ready : forall s x, In (s, x) (g_ready g) -> honest s /\ x = own s;
  q_sent : forall i, honest i -> r_sent (g_st g i) = true -> In (i, own i) (g_ready g) }.

Lemma tk_senders g i : gg g -> NoDup (map (fun t => snd (fst t)) (tk g i)) /\ members N (map (fun t => snd (fst t)) (tk g i)).
Proof.
  intros G. split.
  - pose proof (q_once _ G) as ND. unfold tk. induction (g_took g) as [|((a & s) & x) l IH]; [constructor|]. cbn [map fst] in ND. inversion ND; subst.
    cbn [filter fst]. destruct (a =? i)%nat eqn:EA; [|apply IH; assumption]. cbn [map fst snd]. constructor; [|apply IH; assumption].
    intros K. apply H1. apply in_map_iff in K. destruct K as (((b & s') & y) & K1 & K2). apply filter_In in K2. destruct K2 as (K2 & K3). cbn [fst snd] in *.
    apply Nat.eqb_eq in EA. apply Nat.eqb_eq in K3. subst. apply in_map_iff. exists (i, s, y). split; [reflexivity|exact K2].
  - intros s Hs. apply in_map_iff in Hs. destruct Hs as (((b & s') & y) & K1 & K2). cbn [fst snd] in K1. subst s'. apply filter_In in K2.
    destruct (q_took _ G _ _ _ (proj1 K2)) as (H1 & _). exact H1.
Qed.

Lemma nodup_filter_map {A B} (f : A -> B) (p : A -> bool) l : NoDup (map f l) -> NoDup (map f (filter p l)).
Proof.
  induction l as [|a l IH]; [constructor|]. cbn [map filter]. intros H. inversion H; subst. destruct (p a); [|auto]. cbn [map]. constructor; [|auto].
  intros K. apply H2. apply in_map_iff in K. destruct K as (b & K1 & K2). apply filter_In in K2. apply in_map_iff. exists b. split; [exact K1|apply K2].
Qed.

Lemma tk_lt g i s : gg g -> (0 <= s < Z.of_nat N)%Z -> ~ In (i, s) (map fst (g_took g)) -> (length (tk g i) < N)%nat.
Proof.
  intros G Hs NI. destruct (tk_senders g i G) as (H1 & H2).
  assert (L : (length (s :: map (fun t => snd (fst t)) (tk g i)) <= N)%nat).
  { apply members_length.
    - constructor; [|exact H1]. intros K. apply NI. apply in_map_iff in K. destruct K as (((b & s') & y) & K1 & K2). cbn [fst snd] in K1. subst s'.
      apply filter_In in K2. destruct K2 as (K2 & K3). cbn [fst] in K3. apply Nat.eqb_eq in K3. subst b. apply in_map_iff. exists (i, s, y). auto.
    - intros z [<-|Hz]; [lia|apply H2; exact Hz]. }
  cbn [length] in L. rewrite map_length in L. lia.
Qed.

Lemma bad_of s : (0 <= s < Z.of_nat N)%Z -> ~ honest (Z.to_nat s) -> In (Z.to_nat s) bad.
Proof.
  intros Hs NH. destruct (in_dec Nat.eq_dec (Z.to_nat s) bad) as [K|K]; [exact K|]. exfalso. apply NH. split; [lia|exact K].
Qed.

Lemma ok_lt g i s : gg g -> (0 <= s < Z.of_nat N)%Z -> In (Z.to_nat s) bad -> ~ In (i, s) (map fst (g_took g)) ->
  (length (ok g i) < F)%nat.
Proof.
  intros G Hs Hb NI. destruct (tk_senders g i G) as (H1 & H2).
  assert (L : (length (s :: map (fun t => snd (fst t)) (ok g i)) <= F)%nat).
  { apply few.
    - constructor; [|apply nodup_filter_map; exact H1]. intros K. apply NI. apply in_map_iff in K. destruct K as (((c & s') & y) & K1 & K2). cbn [fst snd] in K1. subst s'.
      unfold ok, tk in K2. apply filter_In in K2. destruct K2 as (K2 & _). apply filter_In in K2. destruct K2 as (K2 & K3). cbn [fst] in K3.
      apply Nat.eqb_eq in K3. subst c. apply in_map_iff. exists (i, s, y). auto.
    - intros z [<-|Hz]; [auto|]. apply in_map_iff in Hz. destruct Hz as (((c & s') & y) & K1 & K2). cbn [fst snd] in K1. subst s'.
      unfold ok, tk in K2. apply filter_In in K2. destruct K2 as (K2 & K4). apply filter_In in K2. destruct K2 as (K2 & K3). cbn [fst] in K3. apply Nat.eqb_eq in K3. subst c.
      destruct (q_took _ G _ _ _ K2) as (B1 & B2). split; [exact B1|]. apply bad_of; [exact B1|]. intros K. specialize (B2 K). subst y.
      unfold own_of in K4. cbn [snd] in K4. destruct (hm_dec (own i) (own i)); [discriminate|contradiction]. }
  cbn [length] in L. rewrite map_length in L. lia.
Qed.

Lemma gg_init : gg g_init.
Proof.
  constructor; cbn [g_init g_st g_echo g_ready g_took]; try (intros; contradiction); try (intros; discriminate).
  - intros i _. apply linv_init.
  - constructor.
Qed.

Lemma gg_local g i e : gg g -> byz_event g i e -> byz_local i (length (mk g i)) (length (ok g i)) e.
Proof.
  intros G H. destruct e; cbn [byz_event byz_local] in *; auto.
  - destruct H as (H1 & H2 & H3). pose proof (tk_lt g i sender G H1 H3) as LT. pose proof (filter_split (own_of i) (tk g i)) as SP.
    fold (mk g i) in SP. destruct (hm_dec x (own i)) as [->|Ne]; [lia|]. apply (ok_lt g i sender G H1); [|exact H3]. apply bad_of; [exact H1|].
    intros K. apply Ne. apply (q_echo _ G _ _ _ (H2 K)).
  - destruct H as (H1 & H2 & H3). split; [exact H1|]. split; [exact H3|]. intros Nx. apply bad_of; [exact H1|]. intros K.
    destruct (q_ready _ G _ _ (H2 K)) as (_ & ->). apply Nx. reflexivity.
Qed.

Lemma gg_step g i e st outs : gg g -> honest i -> byz_event g i e -> rstep' (g_st g i) e = Ret (Some (st, outs)) -> gg (gnext g i e st outs).
Proof.
  intros G Hi Ge E. pose proof (gg_local _ _ _ G Ge) as GL.
  destruct (linv_step _ _ _ _ _ _ (q_loc _ G i Hi) GL E) as (L & HO & HS). cbn [fst snd] in *.
  assert (MK : forall k, length (mk (gnext g i e st outs) k) = (length (mk g k) + if (k =? i)%nat then mine i e else 0)%nat).
  { intros k. unfold mk, tk, gnext. cbn [g_took]. rewrite !filter_app, app_length. f_equal.
    destruct e; cbn [took_of mine filter length fst]; try (destruct (k =? i)%nat; reflexivity).
    rewrite (Nat.eqb_sym i k). destruct (k =? i)%nat eqn:EK; [|reflexivity]. apply Nat.eqb_eq in EK. subst k. cbn [filter]. unfold own_of. cbn [snd].
    destruct (hm_dec x (own i)); reflexivity. }
  assert (OK : forall k, length (ok (gnext g i e st outs) k) = (length (ok g k) + if (k =? i)%nat then other i e else 0)%nat).
  { intros k. unfold ok, tk, gnext. cbn [g_took]. rewrite !filter_app, app_length. f_equal.
    destruct e; cbn [took_of other filter length fst]; try (destruct (k =? i)%nat; reflexivity).
    rewrite (Nat.eqb_sym i k). destruct (k =? i)%nat eqn:EK; [|reflexivity]. apply Nat.eqb_eq in EK. subst k. cbn [filter]. unfold own_of. cbn [snd].
    destruct (hm_dec x (own i)); reflexivity. }
  assert (PR : r_prop st = r_prop (g_st g i) \/ outs = map (fun j => SendTo j (own j)) (seq 0 N)).
  { destruct (step_sends _ _ _ _ _ _ _ _ _ E) as [(K & _)|(_ & _ & s & M & -> & _)]; [left; exact K|]. right.
    cbn [rstep] in E. apply propose_inv in E. destruct E as (_ & _ & _ & _ & _ & _ & _ & _ & _ & _ & _ & _ & _ & _ & sh & E1 & _ & E2). cbn [snd] in E2.
    cbn [byz_event] in Ge. subst M. destruct RS as (E3 & _). rewrite E1 in E3. inversion E3; subst sh. exact E2. }
  assert (SE : forall j x, In (SendTo j x) outs -> x = own j).
  { destruct (step_sends _ _ _ _ _ _ _ _ _ E) as [(_ & K)|(_ & _ & s & M & -> & _)]; [intros j x Hx; destruct (K j x Hx)|].
    destruct PR as [PR|PR].
    - cbn [rstep] in E. apply propose_inv in E. cbn [fst] in E. destruct E as (E1 & E2 & _). congruence.
    - intros j x Hx. rewrite PR in Hx. apply in_map_iff in Hx. destruct Hx as (k & Hk & _). inversion Hk. reflexivity. }
  constructor.
  - intros k Hk. rewrite MK, OK. unfold gnext, put. cbn [g_st]. destruct (k =? i)%nat eqn:EK.
    + apply Nat.eqb_eq in EK. subst k. exact L.
    + rewrite !Nat.add_0_r. apply (q_loc _ G). exact Hk.
  - intros k s x. unfold gnext. cbn [g_took]. rewrite in_app_iff. intros [K|K]; [apply (q_took _ G); exact K|].
    destruct e; cbn [took_of In] in K; try contradiction. destruct K as [K|[]]. inversion K; subst. cbn [byz_event] in Ge. destruct Ge as (H1 & H2 & _). split; [exact H1|]. intros K2. apply (q_echo _ G _ _ _ (H2 K2)).
  - unfold gnext. cbn [g_took]. rewrite map_app. apply nodup_app_intro; [apply (q_once _ G)|destruct e; cbn [took_of map]; repeat constructor; intros []|].
    intros t Ht Ht'. destruct e; cbn [took_of map In] in Ht'; try contradiction. destruct Ht' as [<-|[]]. cbn [byz_event] in Ge. destruct Ge as (_ & _ & K). exact (K Ht).
  - intros s j x. unfold gnext. cbn [g_echo]. rewrite in_app_iff. intros [K|K]; [apply (q_echo _ G); exact K|].
    apply in_echoes in K. destruct K as (-> & K). split; [exact Hi|apply SE; exact K].
  - intros k Hk. unfold gnext, put. cbn [g_st g_echo]. intros HP j Hj. apply in_or_app. destruct (k =? i)%nat eqn:EK.
    + apply Nat.eqb_eq in EK. subst k. destruct PR as [PR|PR].
      * left. apply (q_prop _ G); [exact Hi|congruence|exact Hj].
      * right. unfold echoes_of. apply in_flat_map. exists (SendTo j (own j)). split; [|left; reflexivity]. rewrite PR. apply in_map_iff. exists j.
        split; [reflexivity|apply in_seq; lia].
    + left. apply (q_prop _ G); assumption.
  - intros s x. unfold gnext. cbn [g_ready]. rewrite in_app_iff. intros [K|K]; [apply (q_ready _ G); exact K|].
    apply in_readys in K. destruct K as (-> & K). split; [exact Hi|apply HO; exact K].
  - intros k Hk. unfold gnext, put. cbn [g_st g_ready]. intros HP. apply in_or_app. destruct (k =? i)%nat eqn:EK.
    + apply Nat.eqb_eq in EK. subst k. destruct (HS HP) as [K|K]; [left; apply (q_sent _ G); assumption|right; apply in_readys; auto].
    + left. apply (q_sent _ G); assumption.
Qed.

Lemma byz_gg g : byz g -> gg g.
Proof. induction 1; [apply gg_init|eapply gg_step; eassumption]. Qed.

Theorem byz_quiescent g : byz g -> quiescent sha rs_encode rs_verify rs_reconstruct N F bad M0 g -> forall i, honest i -> r_out (g_st g i) = Some (Some M0).
Proof.
  intros G Q i Hi. apply byz_gg in G.
  assert (PR : forall k, honest k -> r_prop (g_st g k) = true).
  { intros k Hk. destruct (Q k Hk) as (A & _). inversion A as [|x l A1 _ E]; subst. clear A. cbn [rstep] in A1. unfold propose_step in A1.
    destruct (r_prop (g_st g k)); [reflexivity|]. destruct RS as (E1 & _). rewrite E1 in A1. apply bind_ret in A1. destruct A1 as (o & _ & A1). discriminate. }
  assert (EC : forall k s, honest k -> honest s -> In (s, k, own k) (g_echo g)).
  { intros k s Hk Hs. apply (q_prop _ G); [exact Hs|apply PR; exact Hs|apply Hk]. }
  assert (CT : forall k, honest k -> r_eph (g_st g k) = ERecv -> (N - F <= length (mk g k))%nat).
  { intros k Hk EE. rewrite <- (map_length (fun t => snd (fst t))). apply (hl_incl sha N F bad M0 HSHA HNF Hbad). intros s Hs. destruct (Q k Hk) as (_ & B & _).
    destruct (B s (own k) (EC k s Hk Hs)) as [K|K].
    - apply in_map_iff. exists (k, Z.of_nat s, own k). split; [reflexivity|]. unfold mk, tk. apply filter_In. split; [apply filter_In; split; [exact K|apply Nat.eqb_refl]|]. unfold own_of. cbn [snd]. destruct (hm_dec (own k) (own k)); [reflexivity|contradiction].
    - exfalso. cbn [rstep] in K. unfold echo_step in K. rewrite EE in K. discriminate. }
  assert (EP : forall k, honest k -> r_eph (g_st g k) = ERecv \/ (r_eph (g_st g k) = EDone /\ r_sent (g_st g k) = true)).
  { intros k Hk. destruct (l_eph _ _ _ _ (q_loc _ G k Hk)) as [K|[K|K]]; auto. exfalso. destruct (Q k Hk) as (A & _). rewrite Forall_forall in A.
    specialize (A EvEchoCheck ltac:(cbn [In]; auto)). cbn [rstep] in A. unfold check_step in A. rewrite K in A. discriminate. }
  assert (SENT : forall k, honest k -> r_sent (g_st g k) = true).
  { intros k Hk. destruct (EP k Hk) as [K|(_ & K)]; [|exact K]. destruct (r_sent (g_st g k)) eqn:ES; [reflexivity|].
    pose proof (l_unsent _ _ _ _ (q_loc _ G k Hk) ES). pose proof (CT k Hk K). lia. }
  pose proof (q_loc _ G i Hi) as L. destruct (Q i Hi) as (A & B & C). rewrite Forall_forall in A.
  assert (RR : r_rph (g_st g i) = RRecv).
  { destruct (r_rph (g_st g i)) as [|h|h x] eqn:ER; [reflexivity| |]; exfalso.
    - specialize (A EvReadyPop ltac:(cbn [In]; auto)). cbn [rstep] in A. unfold pop_step in A. rewrite ER in A.
      destruct (r_chan (g_st g i)) as [|y ch] eqn:EC2; [|discriminate]. destruct (l_chan2 _ _ _ _ L h ER) as (_ & E). rewrite EC2 in E. cbn [length] in E.
      pose proof (l_sentw _ _ _ _ L (SENT i Hi) ltac:(congruence)). lia.
    - specialize (A EvReadySend ltac:(cbn [In]; auto 10)). cbn [rstep] in A. unfold send_step in A. rewrite ER in A.
      destruct (EP i Hi) as [K|(K & _)]; rewrite K in A; destruct (_ <=? _); discriminate. }
  assert (TL : (N - F <= length (Tof (g_st g i) T0))%nat).
  { rewrite <- (map_length fst). apply (hl_incl sha N F bad M0 HSHA HNF Hbad). intros s Hs. apply (l_goth _ _ _ _ L); [exact Hs|]. destruct (C s (own s) (q_sent _ G s Hs (SENT s Hs))) as [K|K]; [exact K|].
    exfalso. cbn [rstep] in K. unfold ready_step in K. rewrite RR in K. destruct (EP i Hi) as [E|(E & _)]; rewrite E in K;
      (destruct (existsb _ _); [discriminate|]; cbv zeta in K; destruct (_ && _); discriminate). }
  destruct (l_out _ _ _ _ L) as [(O1 & _)|O]; [|exact O]. exfalso.
  assert (ST : r_start (g_st g i) = true).
  { destruct (r_start (g_st g i)) eqn:ES; [reflexivity|]. pose proof (l_start _ _ _ _ L ES RR). lia. }
  destruct (decode_ok _ _ _ _ L O1 ST RR) as (st' & E & _). specialize (A EvDecode ltac:(cbn [In]; auto 10)). cbn [rstep] in A. rewrite E in A. discriminate.
Qed.

(** No step of such a run panics. *)
Theorem byz_no_panic g i e : byz g -> honest i -> byz_event g i e -> exists o, rstep' (g_st g i) e = Ret o.
Proof.
  intros G Hi Ge. apply byz_gg in G. destruct e; cbn [rstep]; try (eexists; reflexivity).
  - cbn [byz_event] in Ge. subst M. unfold propose_step. destruct (r_prop (g_st g i)); [eexists; reflexivity|]. destruct RS as (E1 & LS & _). rewrite E1.
    rewrite (gomap_ret _ (fun j => SendTo j (tag sha M0, nth j shards []))); [eexists; reflexivity|]. intros j Hj. apply in_seq in Hj.
    rewrite (idx_nth [] shards j) by lia. reflexivity.
  - destruct (r_out (g_st g i)) eqn:EO; [unfold decode_step; rewrite EO; eexists; reflexivity|].
    destruct (r_rph (g_st g i)) eqn:ER; [|unfold decode_step; rewrite EO, ER; eexists; reflexivity|unfold decode_step; rewrite EO, ER; eexists; reflexivity].
    destruct (r_start (g_st g i)) eqn:ES; [|unfold decode_step; rewrite EO, ER, ES; eexists; reflexivity].
    destruct (decode_ok _ _ _ _ (q_loc _ G i Hi) EO ES ER) as (st' & E & _). rewrite E. eexists. reflexivity.
Qed.

(** Whoever has returned has returned the dealer's message. *)
Theorem byz_output g i r : byz g -> honest i -> r_out (g_st g i) = Some r -> r = Some M0.
Proof.
  intros G Hi E. apply byz_gg in G. destruct (l_out _ _ _ _ (q_loc _ G i Hi)) as [(K & _)|K]; congruence.
Qed.


(** ** Such runs end *)

(** A step that does something: not a repeated Ready message, which is dropped (RBC.go:166-167). *)
Definition effective (st : rst) (e : rev) : nat :=
  match e with EvReady s _ => if in_dec Z.eq_dec s (r_got st) then 0 else 1 | _ => 1 end.

(** [byzn k g]: g is reached with k steps that do something. *)
Inductive byzn : nat -> gst -> Prop :=
| byzn_init : byzn 0 g_init
| byzn_step k g i e st outs : byzn k g -> honest i -> byz_event g i e -> rstep' (g_st g i) e = Ret (Some (st, outs)) ->
    byzn (k + effective (g_st g i) e) (gnext g i e st outs).

Lemma byzn_byz k g : byzn k g -> byz g.
Proof. induction 1; [apply byz_init|eapply byz_step; eassumption]. Qed.

Definition weight (t : nat) (st : rst) : nat :=
  (if r_prop st then 0 else 1) + 2 * (N - t) + (match r_eph st with ECheck => 1 | _ => 0 end) + (N - length (r_got st)) +
  (match r_rph st with RWait _ => 2 | RSend _ _ => 1 | RRecv => if r_sent st then 0 else 2 end) +
  (match r_out st with None => 1 | Some _ => 0 end).

Lemma got_ok g i : byz g -> NoDup (r_got (g_st g i)) /\ members N (r_got (g_st g i)).
Proof.
  induction 1 as [|g k e st outs B IH Hk Ge E]; [split; [constructor|intros z []]|]. unfold gnext, put. cbn [g_st].
  destruct (i =? k)%nat eqn:EK; [|exact IH]. apply Nat.eqb_eq in EK. subst k.
  destruct (step_ready _ _ _ _ _ _ _ _ _ E) as [(_ & Q)|(s & x & -> & Q1 & Q2 & _)]; cbn [fst] in *; [rewrite Q; exact IH|].
  rewrite Q2. destruct IH as (I1 & I2). cbn [byz_event] in Ge. split; [constructor; assumption|]. intros z [<-|Hz]; [apply Ge|apply I2; exact Hz].
Qed.

Lemma tk_next g i e st outs k : length (tk (gnext g i e st outs) k) =
  (length (tk g k) + if (k =? i)%nat then match e with EvEcho _ _ => 1 | _ => 0 end else 0)%nat.
Proof.
  unfold tk, gnext. cbn [g_took]. rewrite filter_app, app_length. f_equal.
  destruct e; cbn [took_of filter length fst]; try (destruct (k =? i)%nat; reflexivity).
  rewrite (Nat.eqb_sym i k). destruct (k =? i)%nat; reflexivity.
Qed.

Lemma echo_check i n b st st' outs x : linv i n b st' -> echo_step N F st x = Some (st', outs) -> r_eph st' = ECheck.
Proof.
  intros L E. unfold echo_step in E. destruct (r_eph st); try discriminate. cbv zeta in E. inversion E; subst st'; clear E.
  pose proof (l_eph _ _ _ _ L) as K. fields. destruct (_ && negb _); [|reflexivity]. destruct K as [K|[K|(K & _)]]; discriminate.
Qed.

(** Every step that does something uses up some of the weight of its member. *)
Lemma weight_step g i e st outs : byz g -> honest i -> byz_event g i e -> rstep' (g_st g i) e = Ret (Some (st, outs)) ->
  (effective (g_st g i) e + weight (length (tk (gnext g i e st outs) i)) st <= weight (length (tk g i)) (g_st g i))%nat.
Proof.
  intros B Hi Ge E. pose proof (byz_gg _ B) as G. destruct (got_ok g i B) as (ND & ME).
  rewrite tk_next, Nat.eqb_refl. pose proof (q_loc _ G i Hi) as L. pose proof (gg_local _ _ _ G Ge) as GL. set (s0 := g_st g i) in *. unfold weight.
  destruct e; cbn [rstep effective byz_event byz_local] in *; rewrite ?Nat.add_0_r.
  - apply propose_inv in E. destruct E as (E0 & E0' & E1 & E2 & E3 & E4 & E5 & E6 & E7 & E8 & E9 & E10 & E11 & E12 & _). cbn [fst snd] in *.
    rewrite E0, E0', E3, E4, E5, E6, E12. lia.
  - assert (E' : echo_step N F s0 x = Some (st, outs)) by (inversion E; reflexivity). clear E. destruct Ge as (H1 & H2 & H3).
    pose proof (tk_lt g i sender G H1 H3) as LT. destruct (l_eph _ _ _ _ L) as [K|[K|(K & _)]]; try (unfold echo_step in E'; rewrite K in E'; discriminate).
    destruct (hm_dec x (own i)) as [->|Ne].
    + destruct (linv_echo _ _ _ _ _ _ L GL E') as (L' & _ & _). pose proof (echo_check _ _ _ _ _ _ _ L' E') as K'.
      unfold echo_step in E'. rewrite K in E'. cbv zeta in E'. inversion E'; subst st; clear E'. fields. rewrite K, K'.
      destruct (r_rph s0); try (destruct (r_sent s0); cbn [orb]); try (destruct (negb _ && _)); try (destruct (_ <=? _)); lia.
    + destruct (linv_echo_other _ _ _ _ _ _ _ L Ne GL E') as (L' & _ & ES). pose proof (echo_check _ _ _ _ _ _ _ L' E') as K'.
      unfold echo_step in E'. rewrite K in E'. cbv zeta in E'. inversion E'; subst st; clear E'. fields. rewrite ES, K, K'. lia.
  - assert (E' : push_step N s0 = Some (st, outs)) by (inversion E; reflexivity). unfold push_step in E'.
    destruct (l_eph _ _ _ _ L) as [K|[K|(K & _)]]; rewrite K in E'; discriminate.
  - assert (E' : check_step s0 = Some (st, outs)) by (inversion E; reflexivity). unfold check_step in E'. destruct (r_eph s0) eqn:EE; try discriminate.
    inversion E'; subst st. unfold set_echo. fields. destruct (r_sent s0); lia.
  - assert (E' : ready_step N F s0 sender x = Some (st, outs)) by (inversion E; reflexivity). apply ready_cases in E'.
    destruct E' as (ER & _ & [(I & ->)|(NI & Q)]).
    + destruct (in_dec Z.eq_dec sender (r_got s0)); [lia|contradiction].
    + destruct (in_dec Z.eq_dec sender (r_got s0)); [contradiction|]. cbv zeta in Q.
      destruct Q as (Q1 & Q2 & Q3 & Q4 & Q5 & Q6 & Q7 & Q8 & Q9 & Q10 & Q11 & Q12).
      assert (LN : (length (r_got st) <= N)%nat).
      { apply members_length; rewrite Q7; [constructor; assumption|]. intros z [<-|Hz]; [apply Ge|apply ME; exact Hz]. }
      assert (PR : r_prop st = r_prop s0).
      { destruct (step_sends sha rs_encode rs_verify rs_reconstruct N F s0 (EvReady sender x) (st, outs) E) as [(K & _)|(_ & _ & ? & ? & K & _)]; [exact K|discriminate]. }
      rewrite Q7 in LN. cbn [length] in LN. rewrite PR, Q8, Q9, Q5, Q7, Q11, ER. cbn [length].
      destruct (r_sent s0) eqn:ES; cbn [negb andb]; [lia|]. destruct (_ <=? _); lia.
  - assert (E' : pop_step s0 = Some (st, outs)) by (inversion E; reflexivity). unfold pop_step in E'. destruct (r_rph s0) eqn:ER; try discriminate.
    destruct (r_chan s0); [discriminate|]. inversion E'; subst st. fields. lia.
  - assert (E' : send_step N F s0 = Some (st, outs)) by (inversion E; reflexivity). pose proof E' as E2.
    unfold send_step in E2. destruct (r_rph s0) as [|h|h x] eqn:ER; [discriminate|discriminate|].
    destruct (l_rsend _ _ _ _ L h x ER) as (-> & -> & Hn). rewrite (l_cnt _ _ _ _ L) in E2. rewrite (proj2 (Nat.leb_le _ _) Hn) in E2.
    assert (E3 : (mkR (r_prop s0) (r_echo s0) (r_T s0) (r_maxN s0) (r_maxHash s0) true (r_chan s0) (r_got s0) (r_eph s0) RRecv
         (dec_start N F s0 T0) (r_round s0) (r_out s0), [SendAll (T0, snd (own i))]) = (st, outs)).
    { destruct (r_eph s0); inversion E2; reflexivity. }
    inversion E3; subst st. fields. lia.
  - pose proof E as E0. unfold decode_step in E0. destruct (r_out s0) eqn:EO; [discriminate|]. destruct (r_rph s0) eqn:ER; try discriminate.
    destruct (r_start s0) eqn:ES; [|discriminate]. clear E0.
    destruct (decode_ok _ _ _ s0 L EO ES ER) as (st' & E2 & E3). rewrite E in E2. inversion E2; subst. fields. lia.
Qed.

Lemma sum_put (l : list nat) (i c : nat) (f f' : nat -> nat) : NoDup l -> In i l -> (forall k, k <> i -> f' k = f k) -> (c + f' i <= f i)%nat ->
  (c + list_sum (map f' l) <= list_sum (map f l))%nat.
Proof.
  intros ND HI HO HC. induction l as [|a l IH]; [destruct HI|]. inversion ND; subst. cbn [map list_sum fold_right]. fold (list_sum (map f' l)) (list_sum (map f l)).
  destruct (Nat.eq_dec a i) as [->|Ne].
  - assert (E : map f' l = map f l) by (apply map_ext_in; intros k Hk; apply HO; intros ->; contradiction). rewrite E. lia.
  - destruct HI as [K|K]; [contradiction|]. rewrite (HO a Ne). specialize (IH H2 K). lia.
Qed.

Lemma list_sum_const (l : list nat) c : list_sum (map (fun _ => c) l) = (length l * c)%nat.
Proof. induction l as [|a l IH]; [reflexivity|]. cbn [map list_sum fold_right length]. fold (list_sum (map (fun _ : nat => c) l)). rewrite IH. lia. Qed.

Theorem byz_ends k g : byzn k g -> (k <= N * (3 * N + 4))%nat.
Proof.
  intros B. assert (H : (k + list_sum (map (fun i => weight (length (tk g i)) (g_st g i)) (seq 0 N)) <= N * (3 * N + 4))%nat); [|lia].
  induction B as [|k g i e st outs B IH Hi Ge E].
  - cbn [g_init]. unfold tk. cbn [g_took g_init filter length g_st].
    assert (W : weight 0 rbc_init = (3 * N + 4)%nat) by (unfold weight; cbn; lia).
    rewrite (map_ext _ (fun _ => 3 * N + 4)%nat) by (intros; exact W). rewrite list_sum_const, seq_length. lia.
  - pose proof (byzn_byz _ _ B) as BB. pose proof (weight_step g i e st outs BB Hi Ge E) as W.
    pose proof (sum_put (seq 0 N) i (effective (g_st g i) e) (fun i => weight (length (tk g i)) (g_st g i))
      (fun k => weight (length (tk (gnext g i e st outs) k)) (g_st (gnext g i e st outs) k)) (seq_NoDup _ _)) as S.
    assert (I : In i (seq 0 N)) by (apply in_seq; destruct Hi; lia). specialize (S I).
    assert (O : forall k0, k0 <> i -> weight (length (tk (gnext g i e st outs) k0)) (g_st (gnext g i e st outs) k0) = weight (length (tk g k0)) (g_st g k0)).
    { intros k0 Hk. rewrite tk_next. rewrite (proj2 (Nat.eqb_neq k0 i) Hk), Nat.add_0_r. unfold gnext, put. cbn [g_st]. rewrite (proj2 (Nat.eqb_neq k0 i) Hk). reflexivity. }
    specialize (S O). cbv beta in S. assert (ST : g_st (gnext g i e st outs) i = st) by (unfold gnext, put; cbn [g_st]; rewrite Nat.eqb_refl; reflexivity).
    rewrite ST in S. specialize (S W). lia.
Qed.

(** ** Such runs do not get stuck before everything is done *)

Lemma all_or {A} (P Q : A -> Prop) l : (forall a, In a l -> P a \/ Q a) -> (forall a, In a l -> P a) \/ exists a, In a l /\ Q a.
Proof.
  induction l as [|a l IH]; intros H; [left; intros a []|]. destruct (H a (or_introl eq_refl)) as [Pa|Qa]; [|right; exists a; split; [left; reflexivity|exact Qa]].
  destruct IH as [K|(b & K1 & K2)]; [intros b Hb; apply H; right; exact Hb| |right; exists b; split; [right; exact K1|exact K2]].
  left. intros b [<-|Hb]; [exact Pa|apply K; exact Hb].
Qed.

Definition can_move (g : gst) (i : nat) : Prop := exists e st outs, honest i /\ byz_event g i e /\ effective (g_st g i) e = 1%nat /\
  rstep' (g_st g i) e = Ret (Some (st, outs)).

Lemma blocked_or g i e : byz g -> honest i -> byz_event g i e -> effective (g_st g i) e = 1%nat -> rstep' (g_st g i) e = Ret None \/ can_move g i.
Proof.
  intros B Hi Ge Ef. destruct (byz_no_panic g i e B Hi Ge) as (o & E). destruct o as [(st & outs)|]; [right|left; exact E].
  exists e, st, outs. auto.
Qed.

Lemma move_or_quiet g : byz g -> quiescent sha rs_encode rs_verify rs_reconstruct N F bad M0 g \/ exists i, can_move g i.
Proof.
  intros B. pose proof (byz_gg _ B) as G.
  set (quiet := fun i => honest i ->
    Forall (fun e => rstep' (g_st g i) e = Ret None) [EvPropose 0%Z M0; EvEchoPush; EvEchoCheck; EvReadyPop; EvReadySend; EvDecode] /\
    (forall s x, In (s, i, x) (g_echo g) -> In (i, Z.of_nat s, x) (g_took g) \/ rstep' (g_st g i) (EvEcho (Z.of_nat s) x) = Ret None) /\
    (forall s x, In (s, x) (g_ready g) -> In (Z.of_nat s) (r_got (g_st g i)) \/ rstep' (g_st g i) (EvReady (Z.of_nat s) x) = Ret None)).
  destruct (all_or quiet (can_move g) (seq 0 N)) as [K|(i & _ & K)]; [|left; intros i Hi; apply K; [apply in_seq; destruct Hi; lia|exact Hi]|right; exists i; exact K].
  intros i Hi0. apply in_seq in Hi0. destruct (in_dec Nat.eq_dec i bad) as [Bi|NB]; [left; intros (_ & H); contradiction|].
  assert (Hi : honest i) by (split; [lia|exact NB]). unfold quiet.
  destruct (all_or (fun e => rstep' (g_st g i) e = Ret None) (fun _ => can_move g i) [EvPropose 0%Z M0; EvEchoPush; EvEchoCheck; EvReadyPop; EvReadySend; EvDecode])
    as [K1|(? & _ & K1)]; [|clear quiet|right; exact K1].
  { intros e He. apply blocked_or; [exact B|exact Hi| |]; cbn [In] in He; repeat (destruct He as [<-|He]; [cbn [byz_event effective]; auto|]); destruct He. }
  destruct (all_or (fun t : nat * nat * hm => snd (fst t) = i -> In (i, Z.of_nat (fst (fst t)), snd t) (g_took g) \/
      rstep' (g_st g i) (EvEcho (Z.of_nat (fst (fst t))) (snd t)) = Ret None) (fun _ => can_move g i) (g_echo g)) as [K2|(? & _ & K2)]; [| |right; exact K2].
  { intros ((s & j) & x) Ht. cbn [fst snd]. destruct (Nat.eq_dec j i) as [->|Ne]; [|left; intros; contradiction].
    destruct (q_echo _ G _ _ _ Ht) as (Hs & ->). destruct (in_dec (fun a b : nat * Z => ltac:(decide equality; [apply Z.eq_dec|apply Nat.eq_dec])) (i, Z.of_nat s) (map fst (g_took g))) as [I|NI].
    - left. intros _. left. apply in_map_iff in I. destruct I as (((a & b) & y) & I1 & I2). cbn [fst] in I1. inversion I1; subst a b.
      destruct (q_took _ G _ _ _ I2) as (_ & Q). rewrite Nat2Z.id in Q. rewrite <- (Q Hs). exact I2.
    - destruct (blocked_or g i (EvEcho (Z.of_nat s) (own i)) B Hi) as [Bl|Mv]; [|reflexivity|left; intros _; right; exact Bl|right; exact Mv].
      cbn [byz_event]. destruct Hs as (Hs & _). split; [lia|]. split; [intros _; rewrite Nat2Z.id; exact Ht|exact NI]. }
  destruct (all_or (fun t : nat * hm => In (Z.of_nat (fst t)) (r_got (g_st g i)) \/ rstep' (g_st g i) (EvReady (Z.of_nat (fst t)) (snd t)) = Ret None)
      (fun _ => can_move g i) (g_ready g)) as [K3|(? & _ & K3)]; [| |right; exact K3].
  { intros (s & x) Ht. cbn [fst snd]. destruct (in_dec Z.eq_dec (Z.of_nat s) (r_got (g_st g i))) as [I|NI]; [left; left; exact I|].
    destruct (q_ready _ G _ _ Ht) as (Hs & ->).
    destruct (blocked_or g i (EvReady (Z.of_nat s) (own s)) B Hi) as [Bl|Mv]; [| |left; right; exact Bl|right; exact Mv].
    - cbn [byz_event]. destruct Hs as (Hs & _). split; [lia|]. split; [intros _; rewrite Nat2Z.id; exact Ht|]. intros _. rewrite Nat2Z.id. reflexivity.
    - cbn [effective]. destruct (in_dec _ _ _); [contradiction|reflexivity]. }
  left. intros _. split; [apply Forall_forall; exact K1|]. split.
  - intros s x Hx. exact (K2 _ Hx eq_refl).
  - intros s x Hx. exact (K3 _ Hx).
Qed.

(** From every state of such a run the members come to the end, within the bound. *)
Inductive leads : gst -> gst -> Prop :=
| leads_refl g : leads g g
| leads_step g i e st outs g' : honest i -> byz_event g i e -> rstep' (g_st g i) e = Ret (Some (st, outs)) -> leads (gnext g i e st outs) g' -> leads g g'.

Theorem byz_completes k g : byzn k g -> exists g', leads g g' /\ (exists k', byzn k' g') /\ forall i, honest i -> r_out (g_st g' i) = Some (Some M0).
Proof.
  intros B. remember (N * (3 * N + 4) - k)%nat as d eqn:Ed. revert k g B Ed. induction d as [d IH] using lt_wf_ind. intros k g B Ed.
  pose proof (byzn_byz _ _ B) as BB. destruct (move_or_quiet g BB) as [Q|(i & e & st & outs & Hi & Ge & Ef & E)].
  - exists g. split; [constructor|]. split; [exists k; exact B|]. apply byz_quiescent; assumption.
  - pose proof (byzn_step k g i e st outs B Hi Ge E) as B'. rewrite Ef in B'. pose proof (byz_ends _ _ B') as LE.
    destruct (IH (N * (3 * N + 4) - (k + 1))%nat ltac:(lia) _ _ B' eq_refl) as (g' & L & R). exists g'. split; [|exact R].
    econstructor; eassumption.
Qed.
End Byz.
