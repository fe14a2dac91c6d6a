(** Further theorems on reliable broadcast (C32): what one wrong shard does, for all committees, messages
    and schedules. *)

Require Import ZArith List Bool Arith Lia.
From Verif Require Import Bytes CodecModel CodecProofs GoBase DispatchModel DispatchProofs PolyProofs VssModel RbcModel RbcProofs RbcGood PropertiesRbc.
Import ListNotations.

Section Shard.
Variable sha : list Z -> list Z.
Variable rs_encode : nat -> nat -> list Z -> option (list (list Z)).
Variable rs_verify : nat -> nat -> list (list Z) -> bool.
Variable rs_reconstruct : nat -> nat -> list (list Z) -> list (list Z).
Variables N F : nat.
Variable M0 : list Z.      (* the dealer's message *)
Variable a : Z.            (* its first byte *)
Variables b : Z. Variable w : list Z.   (* the wrong shard b :: w *)

(** Reconstruct fills in missing shards and leaves the others. *)
Hypothesis KEEP : forall X j, length X = N -> nth j X [] <> [] -> nth j (rs_reconstruct N F X) [] = nth j X [].
Hypothesis HSHA : length (sha M0) = 32%nat.
Hypothesis HLEN : (Z.of_nat (length M0) < 2 ^ 32)%Z.
Hypothesis HNF : (F + 1 < N)%nat.
Hypothesis HA : hd_error M0 = Some a.
Hypothesis HAB : a <> b.

(** The hash of the dealer's message with its length (RBC.go:88). *)
Definition announced : list Z := sha M0 ++ IntToBytes (Z.of_nat (length M0)).
Notation T0 := announced.

(** A hash under which the message could be returned. *)
Definition claims (y : list Z) : Prop := firstn 32 y = sha M0 /\ BytesToInt (skipn 32 y) = Z.of_nat (length M0).

(** The Ready messages taken afterwards announce the dealer's hash, with any shard, or one under which
    the message cannot be returned; everything else is free. *)
Definition harmless (e : rev) : Prop :=
  match e with EvReady _ x => fst x = T0 \/ ~ claims (fst x) | _ => True end.

Definition about_dealer (e : rev) : Prop := match e with EvReady _ x => fst x = T0 | _ => True end.

(** The steps of one member. *)
Inductive runs : rst -> list rev -> rst -> Prop :=
| runs_nil st : runs st [] st
| runs_cons st e st1 outs evs st2 : rstep sha rs_encode rs_verify rs_reconstruct N F st e = Ret (Some (st1, outs)) ->
    runs st1 evs st2 -> runs st (e :: evs) st2.

(** Ready messages under the dealer's hash among the events. *)
Definition dealer_ready (e : rev) : bool := match e with EvReady _ x => bytes_eqb (fst x) T0 | _ => false end.

(** Before member 0 has announced anything. *)
Definition before (e : rev) : Prop := match e with EvReady s _ => s <> 0%Z | _ => True end.

Notation nz := (fun e : Z * list Z => fst e <> 0%Z).

(** The list under the dealer's hash: at most n entries and none of member 0, or the wrong shard among the first N-F. *)
Definition tbl (o : option nat) (l : list (Z * list Z)) : Prop :=
  match o with
  | Some n => Forall nz l /\ (length l <= n)%nat
  | None => exists pre rest, l = pre ++ (0%Z, b :: w) :: rest /\ Forall nz pre /\ Forall nz rest /\ (length pre < N - F)%nat
  end.

Definition gotP (o : option nat) (g : list Z) : Prop := match o with Some _ => ~ In 0%Z g | None => In 0%Z g end.

Record J (o : option nat) (st : rst) : Prop := mkJ {
  j_T : tbl o (Tof st T0);
  j_got : gotP o (r_got st);
  j_max : r_maxHash st = T0 -> (r_maxN st <= length (Tof st T0))%nat;
  j_hash : r_maxHash st = T0 \/ ~ claims (r_maxHash st);
  j_out : r_out st <> Some (Some M0) }.

Lemma place_nz l : Forall nz l -> forall M1 M, gofold (fun M (e : Z * list Z) =>
    if (fst e <? Z.of_nat (length M))%Z && (0 <=? fst e)%Z then Ret (set_nth (Z.to_nat (fst e)) (snd e) M) else Panic) l M1 = Ret M ->
  length M = length M1 /\ nth 0 M [] = nth 0 M1 [].
Proof.
  induction 1 as [|e l E _ IH]; intros M1 M P; cbn [gofold] in P.
  - injection P as <-. auto.
  - destruct (_ && _) eqn:B; [|discriminate]. cbn [bind] in P. apply andb_prop in B. destruct B as (_ & B). apply Z.leb_le in B.
    apply IH in P. rewrite length_set_nth in P. destruct P as (P1 & P2). split; [exact P1|]. rewrite P2.
    apply nth_set_nth_other. lia.
Qed.

Lemma gofold_app {A B} (f : A -> B -> go A) l1 l2 : forall x y, gofold f (l1 ++ l2) x = Ret y -> exists z, gofold f l1 x = Ret z /\ gofold f l2 z = Ret y.
Proof.
  induction l1 as [|e l1 IH]; intros x y H; cbn [app gofold] in *; [exists x; auto|].
  destruct (f x e); try discriminate. cbn [bind] in *. apply IH. exact H.
Qed.

Lemma place_zero k l M : (N - F <= k <= length l)%nat -> tbl None l -> place N k l = Ret M -> length M = N /\ nth 0 M [] = b :: w.
Proof.
  intros HK (pre & rest & -> & FP & FR & LP) P. unfold place in P.
  replace (k - length (pre ++ (0%Z, b :: w) :: rest))%nat with O in P by lia. cbn [repeat] in P. rewrite app_nil_r in P.
  rewrite firstn_app, (firstn_all2 pre) in P by lia. destruct (k - length pre)%nat as [|k'] eqn:EK; [lia|]. cbn [firstn] in P.
  apply gofold_app in P. destruct P as (M1 & P1 & P). destruct (place_nz _ FP _ _ P1) as (L1 & _). rewrite repeat_length in L1.
  cbn [gofold fst snd] in P. rewrite L1 in P. rewrite (proj2 (Z.ltb_lt 0 (Z.of_nat N))) in P by lia. cbn [andb Z.leb Z.compare bind] in P.
  assert (FR' : Forall nz (firstn k' rest)).
  { apply Forall_forall. intros e He. rewrite Forall_forall in FR. apply FR. rewrite <- (firstn_skipn k' rest). apply in_or_app. auto. }
  apply (place_nz _ FR') in P. rewrite length_set_nth, L1 in P. destruct P as (P1' & P2). split; [exact P1'|]. rewrite P2.
  apply nth_set_nth_same. lia.
Qed.

Lemma head_whole X : length X = N -> nth 0 X [] = b :: w -> exists rest, concat (firstn (N - (F + 1)) X) = b :: rest.
Proof.
  intros L E. destruct X as [|x X]; [cbn in L; lia|]. cbn [nth] in E. subst x.
  destruct (N - (F + 1))%nat as [|n] eqn:EN; [lia|]. cbn [firstn concat]. eexists. reflexivity.
Qed.

Lemma T0_length : length T0 = 36%nat.
Proof. unfold announced. rewrite app_length, HSHA, IntToBytes_length. reflexivity. Qed.

Lemma M0_pos : (1 <= length M0)%nat.
Proof. destruct M0; [discriminate|cbn; lia]. Qed.

Lemma cut_no_claim y : ~ claims (firstn 32 y).
Proof.
  intros (_ & K). rewrite skipn_all2 in K by (rewrite firstn_length; lia). cbn in K. pose proof M0_pos. lia.
Qed.

Lemma decode_wrong o st st' outs : match o with Some n => (n < N - F)%nat | None => True end ->
  J o st -> decode_step sha rs_verify rs_reconstruct N F st = Ret (Some (st', outs)) -> J o st'.
Proof.
  intros HO [j1 j2 j3 j4 j5] E. unfold decode_step in E.
  destruct (r_out st); [discriminate|]. destruct (r_rph st); try discriminate.
  destruct (r_start st && _) eqn:B; [|discriminate]. apply andb_prop in B. destruct B as (_ & B). apply Nat.leb_le in B.
  set (k := (N - F + r_round st)%nat) in *.
  destruct (place N k (Tof st (r_maxHash st))) as [M| | |] eqn:P; try discriminate. cbn [bind] in E.
  set (M' := if rs_verify N F M then M else rs_reconstruct N F M) in *.
  set (whole := concat (firstn (N - (F + 1)) M')) in *.
  destruct (length (r_maxHash st) <? 32)%nat eqn:B32; [discriminate|]. apply Nat.ltb_ge in B32.
  set (mLen := BytesToInt (skipn 32 (r_maxHash st))) in *.
  destruct (Z.of_nat (length whole) <? mLen)%Z eqn:BL; [discriminate|]. apply Z.ltb_ge in BL.
  set (res := firstn (Z.to_nat mLen) whole) in *.
  assert (NE : res <> M0 \/ sha res <> firstn 32 (r_maxHash st)).
  { destruct j4 as [E0|NC].
    - left. rewrite E0 in P.
      specialize (j3 E0). destruct o as [n|]; [cbn [tbl] in j1; unfold k in *; lia|].
      destruct (place_zero k (Tof st T0) M ltac:(unfold k in *; lia) j1 P) as (LM & HM).
      assert (HW : exists rest, whole = b :: rest).
      { unfold whole, M'. destruct (rs_verify N F M); [apply head_whole; assumption|].
        set (X := rs_reconstruct N F M). assert (HX : nth 0 X [] = b :: w) by (unfold X; rewrite KEEP; [exact HM|exact LM|rewrite HM; discriminate]).
        clearbody X. destruct X as [|x X]; [discriminate|]. cbn [nth] in HX. subst x.
        destruct (N - (F + 1))%nat as [|n] eqn:EN; [lia|]. cbn [firstn concat]. eexists. reflexivity. }
      destruct HW as (rest & HW). intros R. unfold res in R. rewrite HW in R.
      destruct (Z.to_nat mLen) as [|m]; cbn [firstn] in R; rewrite <- R in HA; [discriminate|]. cbn in HA. congruence.
    - destruct (list_eq_dec Z.eq_dec res M0) as [R|]; [|left; assumption]. right. intros S. apply NC. split; [congruence|].
      fold mLen. rewrite <- R. unfold res. rewrite firstn_length.
      assert (0 <= mLen)%Z; [|lia].
      pose proof M0_pos as MP. rewrite <- R in MP. unfold res in MP. rewrite firstn_length in MP. lia. }
  assert (HH : exists h, h = firstn 32 (r_maxHash st)) by (eexists; reflexivity). destruct HH as (h & HH). rewrite <- HH in *.
  clearbody res. injection E as <- <-. unfold Tof in *. constructor; cbn [r_T r_got r_maxN r_maxHash r_out].
  - exact j1.
  - exact j2.
  - intros K. exfalso. apply (f_equal (@length Z)) in K. rewrite T0_length, HH, firstn_length in K. lia.
  - right. rewrite HH. apply cut_no_claim.
  - destruct (bytes_eqb (sha res) h) eqn:BE.
    + apply bytes_eqb_eq in BE. intros K. injection K as K. destruct NE as [NE|NE]; contradiction.
    + destruct (r_round st <? F)%nat; discriminate.
Qed.

Lemma ready_gen o o' st s x st' outs : J o st -> (fst x = T0 \/ ~ claims (fst x)) ->
  (~ In s (r_got st) -> (fst x = T0 -> tbl o' (Tof st T0 ++ [(s, snd x)])) /\ (fst x <> T0 -> tbl o' (Tof st T0)) /\ gotP o' (s :: r_got st)) ->
  (In s (r_got st) -> tbl o' (Tof st T0) /\ gotP o' (r_got st)) ->
  ready_step N F st s x = Some (st', outs) -> J o' st'.
Proof.
  intros [j1 j2 j3 j4 j5] HX HN HI E. unfold ready_step in E.
  assert (G : forall st1 (Hs : ~ In s (r_got st)), r_T st1 = update (fst x) (Tof st (fst x) ++ [(s, snd x)]) (r_T st) -> r_got st1 = s :: r_got st ->
    r_maxN st1 = (if (r_maxN st <? length (Tof st (fst x) ++ [(s, snd x)])) then length (Tof st (fst x) ++ [(s, snd x)]) else r_maxN st) ->
    r_maxHash st1 = (if (r_maxN st <? length (Tof st (fst x) ++ [(s, snd x)])) then fst x else r_maxHash st) ->
    r_out st1 = r_out st -> J o' st1).
  { intros st1 Hs A B C D O. destruct (HN Hs) as (H1 & H2 & H3).
    assert (TT : Tof st1 T0 = if list_eq_dec Z.eq_dec (fst x) T0 then Tof st T0 ++ [(s, snd x)] else Tof st T0).
    { unfold Tof at 1. rewrite A. destruct (list_eq_dec Z.eq_dec (fst x) T0) as [EX|NX].
      - rewrite EX, lookup_update_same. reflexivity.
      - rewrite lookup_update_other by congruence. reflexivity. }
    constructor.
    - rewrite TT. destruct (list_eq_dec Z.eq_dec (fst x) T0); auto.
    - rewrite B. exact H3.
    - rewrite C, D, TT. set (l := Tof st (fst x) ++ [(s, snd x)]) in *. destruct (r_maxN st <? length l)%nat eqn:BM.
      + intros EX. destruct (list_eq_dec Z.eq_dec (fst x) T0) as [_|NX]; [|contradiction]. unfold l. rewrite EX. lia.
      + intros EX. specialize (j3 EX). destruct (list_eq_dec Z.eq_dec (fst x) T0); [rewrite app_length; lia|exact j3].
    - rewrite D. destruct (_ <? _)%nat; [exact HX|exact j4].
    - rewrite O. exact j5. }
  destruct (r_eph st), (r_rph st); try discriminate;
  (destruct (existsb (Z.eqb s) (r_got st)) eqn:EX;
   [injection E as <- <-; apply existsb_exists in EX; destruct EX as (y & Y1 & Y2); apply Z.eqb_eq in Y2; subst y; destruct (HI Y1); constructor; assumption|];
   assert (Hs : ~ In s (r_got st)) by (intros K; apply not_true_iff_false in EX; apply EX; apply existsb_exists; exists s; split; [exact K|apply Z.eqb_refl]);
   destruct (negb _ && _); injection E as <- <-; (apply G; [exact Hs|reflexivity..])).
Qed.

Definition next (o : option nat) (e : rev) : option nat :=
  match o with Some n => Some (n + if dealer_ready e then 1 else 0)%nat | None => None end.

Lemma ready_wrong o st s x st' outs : J o st -> (o = None \/ s <> 0%Z) -> (fst x = T0 \/ ~ claims (fst x)) ->
  ready_step N F st s x = Some (st', outs) -> J (next o (EvReady s x)) st'.
Proof.
  intros HJ HS HX E. pose proof HJ as [j1 j2 _ _ _]. eapply ready_gen; [exact HJ|exact HX| | |exact E].
  - intros NI. destruct o as [n|]; cbn [next tbl gotP dealer_ready] in *.
    + destruct HS as [HS|HS]; [discriminate|]. destruct j1 as (A & B). split; [|split].
      * intros EX. rewrite (proj2 (bytes_eqb_eq _ _) EX). split; [apply Forall_app; split; [exact A|constructor; [exact HS|constructor]]|].
        rewrite app_length. cbn. lia.
      * intros _. split; [exact A|lia].
      * intros [K|K]; [congruence|contradiction].
    + assert (HS0 : s <> 0%Z) by (intros ->; contradiction). split; [|split].
      * intros _. destruct j1 as (pre & rest & -> & A & B & C). exists pre, (rest ++ [(s, snd x)]). rewrite <- app_assoc. split; [reflexivity|].
        split; [exact A|]. split; [|exact C]. apply Forall_app. split; [exact B|constructor; [exact HS0|constructor]].
      * intros _. exact j1.
      * right. exact j2.
  - intros _. destruct o as [n|]; cbn [next tbl gotP] in *; [|split; assumption]. destruct j1 as (A & B). split; [split; [exact A|lia]|exact j2].
Qed.

Lemma J_next o e st : dealer_ready e = false -> J o st -> J (next o e) st.
Proof. intros E. destruct o as [n|]; cbn [next]; [rewrite E, Nat.add_0_r|]; auto. Qed.

Lemma step_wrong o st e st' outs : match o with Some n => (n < N - F)%nat | None => True end ->
  J o st -> (o = None \/ before e) -> harmless e ->
  rstep sha rs_encode rs_verify rs_reconstruct N F st e = Ret (Some (st', outs)) -> J (next o e) st'.
Proof.
  intros HO HJ HB He E. destruct e; cbn [rstep] in E; try (apply J_next; [reflexivity|]).
  - unfold propose_step in E. destruct (r_prop st); [discriminate|]. destruct (rs_encode N F M); [|discriminate].
    destruct (gomap _ _); try discriminate. cbn [bind] in E. injection E as <- <-. destruct HJ as [j1 j2 j3 j4 j5]. constructor; assumption.
  - unfold echo_step in E. destruct (r_eph st); try discriminate. injection E as <- <-. destruct HJ as [j1 j2 j3 j4 j5]. constructor; assumption.
  - unfold push_step in E. destruct (r_eph st); try discriminate. destruct (_ <? _)%nat; [|discriminate]. injection E as <- <-.
    destruct HJ as [j1 j2 j3 j4 j5]. constructor; assumption.
  - unfold check_step in E. destruct (r_eph st); try discriminate. injection E as <- <-. destruct HJ as [j1 j2 j3 j4 j5]. constructor; assumption.
  - apply (f_equal (fun g => match g with Ret o => o | _ => None end)) in E. cbv beta iota in E.
    exact (ready_wrong o st sender x st' outs HJ HB He E).
  - unfold pop_step in E. destruct (r_rph st), (r_chan st); try discriminate. injection E as <- <-. destruct HJ as [j1 j2 j3 j4 j5]. constructor; assumption.
  - unfold send_step in E. destruct (r_rph st), (r_eph st); try discriminate; (destruct (_ <=? _)%nat; injection E as <- <-;
      destruct HJ as [j1 j2 j3 j4 j5]; constructor; assumption).
  - exact (decode_wrong o st st' outs HO HJ E).
Qed.

Lemma runs_app st evs1 evs2 st2 : runs st (evs1 ++ evs2) st2 -> exists st1, runs st evs1 st1 /\ runs st1 evs2 st2.
Proof.
  revert st. induction evs1 as [|e evs1 IH]; intros st R; [exists st; split; [constructor|exact R]|].
  inversion R as [|sa e' sb outs evs' sc S R' E1 E2 E3]; subst. destruct (IH _ R') as (s1 & A & B). exists s1. split; [econstructor; eassumption|exact B].
Qed.

Lemma J_init : J (Some 0%nat) rbc_init.
Proof.
  constructor; cbn; [split; [constructor|lia]|tauto| |right|discriminate].
  - intros K. apply (f_equal (@length Z)) in K. rewrite T0_length in K. discriminate.
  - intros (K & _). apply (f_equal (@length Z)) in K. rewrite HSHA in K. discriminate.
Qed.

Lemma J_before evs : forall n st st', J (Some n) st -> Forall before evs -> Forall harmless evs ->
  (n + length (filter dealer_ready evs) < N - F)%nat -> runs st evs st' -> exists m, J (Some m) st' /\ (m < N - F)%nat.
Proof.
  induction evs as [|e evs IH]; intros n st st' HJ FB FH L R; inversion R as [|sa e' sb outs evs' sc S R' E1 E2 E3]; subst.
  - exists n. cbn in L. split; [exact HJ|lia].
  - inversion FB as [|e0 l0 B1 B2 Q1]; subst. inversion FH as [|e1 l1 H1 H2 Q2]; subst.
    assert (L' : (n + (if dealer_ready e then 1 else 0) + length (filter dealer_ready evs) < N - F)%nat).
    { cbn [filter] in L. destruct (dealer_ready e); cbn [length] in L; lia. }
    pose proof (step_wrong (Some n) st e sb outs ltac:(cbn; lia) HJ (or_intror B1) H1 S) as HJ'.
    eapply IH; [exact HJ'|exact B2|exact H2|exact L'|exact R'].
Qed.

(** One of the first N-F Ready messages that a member takes under the dealer's hash is one of (corrupted)
    member 0, with a shard of which the first byte is wrong.  Whatever happens then, the member never returns
    the dealer's message. *)
Theorem c32_wrong_shard evs0 evs st : Forall before evs0 -> Forall harmless evs0 -> (length (filter dealer_ready evs0) < N - F)%nat ->
  Forall harmless evs -> runs rbc_init (evs0 ++ EvReady 0 (T0, b :: w) :: evs) st -> r_out st <> Some (Some M0).
Proof.
  intros FB FH0 L FH R. apply runs_app in R. destruct R as (s0 & R0 & R).
  destruct (J_before evs0 0 rbc_init s0 J_init FB FH0 L R0) as (m & HJ & Lm).
  inversion R as [|sa e s1 outs evs' sc E R1 E1 E2 E3]; subst.
  assert (J1 : J None s1).
  { cbn [rstep] in E. apply (f_equal (fun g => match g with Ret o => o | _ => None end)) in E. cbv beta iota in E.
    pose proof HJ as [j1 j2 _ _ _]. cbn [tbl gotP] in j1, j2. apply (ready_gen (Some m) None s0 0%Z (T0, b :: w) s1 outs HJ (or_introl eq_refl)); [| |exact E]; cbn [fst snd].
    - intros _. split; [|split; [congruence|left; reflexivity]]. intros _. exists (Tof s0 T0), []. split; [reflexivity|].
      split; [apply j1|]. split; [constructor|]. lia.
    - intros K. contradiction. }
  clear - J1 R1 FH KEEP HSHA HLEN HNF HA HAB. induction R1 as [|sa e sb o evs sc S R IH]; [apply J1|]. inversion FH; subst. apply IH; [assumption|].
  exact (step_wrong None sa e sb o I J1 (or_introl eq_refl) ltac:(assumption) S).
Qed.

Record J' (st : rst) : Prop := mkJ' {
  k_hash : (r_maxHash st = T0 \/ r_maxHash st = sha M0) \/ r_maxN st = 0%nat;
  k_out : forall V, r_out st = Some (Some V) -> sha V = sha M0 }.

Lemma cut_hash y : y = T0 \/ y = sha M0 -> firstn 32 y = sha M0.
Proof.
  intros [->| ->].
  - unfold announced. rewrite <- HSHA, firstn_app, firstn_all, Nat.sub_diag. cbn [firstn]. apply app_nil_r.
  - rewrite <- HSHA. apply firstn_all.
Qed.

Lemma step_hash st e st' outs : J' st -> about_dealer e ->
  rstep sha rs_encode rs_verify rs_reconstruct N F st e = Ret (Some (st', outs)) -> J' st'.
Proof.
  intros HJ He E. pose proof HJ as [k1 k2]. destruct e; cbn [rstep] in E.
  - unfold propose_step in E. destruct (r_prop st); [discriminate|]. destruct (rs_encode N F M); [|discriminate].
    destruct (gomap _ _); try discriminate. cbn [bind] in E. injection E as <- <-. constructor; assumption.
  - unfold echo_step in E. destruct (r_eph st); try discriminate. injection E as <- <-. constructor; assumption.
  - unfold push_step in E. destruct (r_eph st); try discriminate. destruct (_ <? _)%nat; [|discriminate]. injection E as <- <-. constructor; assumption.
  - unfold check_step in E. destruct (r_eph st); try discriminate. injection E as <- <-. constructor; assumption.
  - apply (f_equal (fun g => match g with Ret o => o | _ => None end)) in E. cbv beta iota in E. cbn [about_dealer] in He.
    unfold ready_step in E. destruct (r_eph st), (r_rph st); try discriminate;
      (destruct (existsb (Z.eqb sender) (r_got st)); [injection E as <- <-; exact HJ|];
       destruct (negb _ && _); injection E as <- <-; (constructor; cbn [r_maxHash r_maxN r_out]; [|exact k2]; destruct (_ <? _)%nat; [left; left; exact He|exact k1])).
  - unfold pop_step in E. destruct (r_rph st), (r_chan st); try discriminate. injection E as <- <-. constructor; assumption.
  - unfold send_step in E. destruct (r_rph st), (r_eph st); try discriminate; (destruct (_ <=? _)%nat; injection E as <- <-; constructor; assumption).
  - unfold decode_step in E.
    destruct (r_out st); [discriminate|]. destruct (r_rph st); try discriminate. destruct (r_start st && _) eqn:B0; [|discriminate].
    apply andb_prop in B0. destruct B0 as (_ & B0). apply Nat.leb_le in B0. destruct k1 as [k1|k1]; [|lia]. rewrite (cut_hash _ k1) in E.
    destruct (place _ _ _); try discriminate. cbn [bind] in E. destruct (_ <? 32)%nat; [discriminate|].
    set (mLen := BytesToInt (skipn 32 (r_maxHash st))) in E. clearbody mLen.
    destruct (_ <? _)%Z; [discriminate|].
    match type of E with context [bytes_eqb (sha ?x) _] => set (res := x) in E; clearbody res end.
    injection E as <- <-. constructor; cbn [r_maxHash r_out]; [left; right; reflexivity|].
    intros V. destruct (bytes_eqb (sha res) (sha M0)) eqn:B; [|destruct (_ <? _)%nat; discriminate].
    intros K. injection K as <-. apply bytes_eqb_eq in B. exact B.
Qed.

(** If all the other Ready messages announce the dealer's hash, right shards or not, the member returns
    nothing at all, or it has found a collision of the hash. *)
Theorem c32_wrong_shard_nothing evs0 evs st V : Forall before evs0 -> (length (filter dealer_ready evs0) < N - F)%nat ->
  Forall about_dealer evs0 -> Forall about_dealer evs ->
  runs rbc_init (evs0 ++ EvReady 0 (T0, b :: w) :: evs) st -> r_out st = Some (Some V) -> sha V = sha M0 /\ V <> M0.
Proof.
  intros FB L F0 FA R EV.
  assert (AH : forall l, Forall about_dealer l -> Forall harmless l).
  { intros l H. apply Forall_forall. intros e He. rewrite Forall_forall in H. specialize (H e He). destruct e; try exact I. left. exact H. }
  split.
  - assert (FAll : Forall about_dealer (evs0 ++ EvReady 0 (T0, b :: w) :: evs)) by (apply Forall_app; split; [exact F0|constructor; [reflexivity|exact FA]]).
    assert (J1 : J' rbc_init) by (constructor; cbn; [|discriminate]; auto). 
    revert FAll R J1. generalize (evs0 ++ EvReady 0 (T0, b :: w) :: evs), rbc_init. intros l s FAll R J1.
    induction R as [|sa e sb o evs' sc S R IH]; [apply (k_out _ J1 V EV)|]. inversion FAll; subst.
    apply IH; [assumption|assumption|]. eapply step_hash; [exact J1| |exact S]; assumption.
  - intros ->. exact (c32_wrong_shard evs0 evs st FB (AH _ F0) L (AH _ FA) R EV).
Qed.

End Shard.
Print Assumptions c32_wrong_shard.
Print Assumptions c32_wrong_shard_nothing.

(** A run that meets the hypotheses, with N = 4, F = 1: two right shards, the wrong shard of member 0, then another right one. *)
Lemma toy_keep N F X j : nth j X [] <> [] -> nth j (toy_reconstruct N F X) [] = nth j X [].
Proof.
  intros H. unfold toy_reconstruct. set (f := fun t => _).
  destruct (Nat.lt_ge_cases j (length X)) as [L|L]; [|exfalso; apply H; apply nth_overflow; exact L].
  rewrite (nth_indep _ [] (f [])) by (rewrite map_length; exact L). rewrite map_nth. unfold f.
  destruct (bytes_eqb (nth j X []) []) eqn:E; [apply bytes_eqb_eq in E; contradiction|reflexivity].
Qed.

Example c32_wrong_shard_example : let M := [5; 7]%Z in let x := (announced toy_sha M, M) in
  let evs0 := [EvReady 1 x; EvEcho 1 x; EvEchoCheck; EvEcho 2 x; EvEchoCheck; EvEcho 3 x; EvEchoCheck; EvReady 2 x] in
  Forall before evs0 /\ length (filter (dealer_ready toy_sha M) evs0) = 2%nat /\
  exists st, runs toy_sha toy_encode toy_verify toy_reconstruct 4 1 rbc_init
    (evs0 ++ EvReady 0 (announced toy_sha M, [6; 6]%Z) :: [EvDecode; EvReady 3 x; EvDecode]) st /\
  r_out st = Some None.
Proof.
  intros M x evs0. split; [repeat constructor; discriminate|]. split; [reflexivity|]. eexists. split.
  - cbn [app evs0]. repeat (eapply runs_cons; [vm_compute; reflexivity|]). apply runs_nil.
  - reflexivity.
Qed.
