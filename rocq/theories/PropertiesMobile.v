(** Headline theorems: secrecy when the corrupted members change from one committee to the next (C67). *)

Require Import ZArith List Bool Arith Lia.
From Verif Require Import Prime Fr Bytes CodecModel CodecProofs GoBase Poly PolyModel PolyProofs Biv GroupModel KzgModel KzgProofs.
From Verif Require Import PartyModel PartySpec VssModel VssProofs VssProofs2 BivProofs.
From Verif Require Import ReduceModel ReduceProofs PropertiesVss PropertiesReduce.
From Verif Require Import ProacModel ProacProofs ProacRun ProacSig ProacRecover ProacDist ProacLinks.
From Verif Require Import PropertiesProac PropertiesRefresh PropertiesRuns PropertiesDist PropertiesEpoch.
Import ListNotations.
Local Open Scope F_scope.

(** ** What the corrupted members compute *)

(** The old full share of a new member's index, from its new full share and the Reshare messages which the agreed
    dealers sent to it. *)
Definition old_share (F : nat) (full : list Fr) (ms : list ReshareMsg) : go (list Fr) :=
  LagrangeInterpolate (2 * F) (map of_nat (seq 1 (2 * F + 1)))
    (map (fun y => EvalPolyAt full (of_nat y) - fsum (map (fun m => FrFrom32_into 0 (to32 (nth (y - 1) (rs_Qk m) []))) ms))
       (seq 1 (2 * F + 1))).

(** The secret, from members of the old committee and members of the new one with the Reshare messages they got. *)
Definition pool (F : nat) (olds : list Party) (news : list (Party * list ReshareMsg)) : go Fr :=
  shares <- gomap (fun x => old_share F (p_fullShare (fst x)) (snd x)) news ;;
  q <- LagrangeInterpolate F (map (fun p => of_nat (p_PID p + 1)) (olds ++ map fst news))
         (map (fun f => EvalPolyAt f 0) (map p_fullShare olds ++ shares)) ;;
  Ret (EvalPolyAt q 0).

(** The message of a dealer with the polynomial [Q] to the member [pid]; by C23 (c23_zero) a dealer that follows the
    code has the sections of such a polynomial. *)
Definition reshared (cd : g1codec) (N F : nat) (Q : list (list Fr)) (pid : nat) (m : ReshareMsg) : Prop :=
  exists ks ms, party_setup F = Ret ks /\ ReshareSend cd ks N (map (fun j => secy Q (of_nat j)) (seq 1 (2 * F + 1))) = Ret ms /\
    nth_error ms pid = Some m.

Lemma reshared_values cd N F Q pid m : bdeg F (2 * F) Q -> reshared cd N F Q pid m ->
  rs_Qk m = map (fun j => FrTo32 (beval Q (of_nat (pid + 1)) (of_nat j))) (seq 1 (2 * F + 1)).
Proof.
  intros HQ (ks & ms & ES & EM & E). unfold party_setup in ES.
  rewrite (reshare_send_correct cd party_secret ks F Q ES HQ N) in EM.
  apply (f_equal (fun x => match x with Ret a => a | _ => [] end)) in EM. subst ms.
  assert (L : (pid < N)%nat).
  { match type of E with nth_error ?l _ = _ => assert (X : (pid < length l)%nat) by (apply nth_error_Some; congruence) end.
    rewrite map_length, seq_length in X. exact X. }
  rewrite (nth_error_nth' _ (mkRS [] [])) in E by (rewrite map_length, seq_length; exact L).
  rewrite (nth_map_seq (fun k => mkRS (map (fun j => FrTo32 (beval Q (of_nat k) (of_nat j))) (seq 1 (2 * F + 1)))
                       (map (fun j => ToCompressedG1 cd (mkG1 (peval (wrow party_secret Q (of_nat k)) (of_nat j))))
                          (seq 1 (2 * F + 1))))) in E by lia.
  apply (f_equal (fun x => match x with Some a => rs_Qk a | _ => [] end)) in E. cbn [rs_Qk] in E. rewrite <- E.
  replace (1 + pid)%nat with (pid + 1)%nat by lia. reflexivity.
Qed.

Lemma reshared_sum cd N F QB J pid ms y : (forall k, bdeg F (2 * F) (QB k)) -> (1 <= y <= 2 * F + 1)%nat ->
  Forall2 (fun j m => reshared cd N F (QB (Z.to_nat j)) pid m) J ms ->
  fsum (map (fun m => FrFrom32_into 0 (to32 (nth (y - 1) (rs_Qk m) []))) ms) = total QB J (of_nat (pid + 1)) (of_nat y).
Proof.
  intros HQ Hy. unfold total. induction 1 as [|j m J ms R _ IH]; [reflexivity|].
  cbn [map fsum]. rewrite IH. f_equal. rewrite (reshared_values cd N F _ pid m (HQ _) R).
  rewrite (nth_map_seq (fun j0 => FrTo32 (beval (QB (Z.to_nat j)) (of_nat (pid + 1)) (of_nat j0)))) by lia.
  replace (1 + (y - 1))%nat with y by lia.
  rewrite to32_FrTo32. unfold FrFrom32_into. rewrite FrFrom32_FrTo32. reflexivity.
Qed.

Section World.
Variables (cd : g1codec) (hash : list Z -> list Z) (ser : list (list Z) -> list Z) (parse : list Z -> list (list Z)).
Variables (sign : nat -> list Z) (sigok : nat -> list Z -> bool) (combine : nat -> list (list Z) -> list Z).
Hypothesis HC : codec_ok cd.
Hypothesis HS : forall l, parse (ser l) = l.
Variables N F : nat.
Hypothesis HN : (Z.of_nat N < 2 ^ 32)%Z.
Hypothesis HF : (1 <= F)%nat.
Hypothesis HNF : (3 * F + 1 <= N)%nat.

Notation handoff := (handoff cd hash ser parse sign sigok combine N F).

(** A new member gets the old full share of its own index, although it was never given one. *)
Theorem c67_old_share : forall (old : Party -> Prop) B B' QB J pid p ms,
  (forall q, old q -> ready N F B q) -> bdeg F (2 * F) B -> refreshes F B B' QB J ->
  handoff old B B' QB J pid p -> Forall2 (fun j m => reshared cd N F (QB (Z.to_nat j)) pid m) J ms ->
  old_share F (p_fullShare p) ms = Ret (secx B (of_nat (pid + 1))).
Proof.
  intros old B B' QB J pid p ms HO HB HR HH HM.
  destruct (c29_handoff cd hash ser parse sign sigok combine HC HS N F HN HF HNF old B B' QB J pid p HO HB HR HH)
    as (_ & _ & _ & PP & Hp & _ & FS & _).
  pose proof HR as (_ & HQ & _ & HT). pose proof (N_small N F HN HF HNF) as SM.
  unfold old_share. rewrite FS. unfold me. rewrite PP.
  match goal with |- LagrangeInterpolate _ _ ?l = _ =>
    assert (El : l = map (fun y => peval (secx B (of_nat (pid + 1))) (of_nat y)) (seq 1 (2 * F + 1))) end.
  { apply map_ext_in. intros y Hy. apply in_seq in Hy. rewrite (reshared_sum cd N F QB J pid ms y HQ ltac:(lia) HM).
    rewrite EvalPolyAt_correct, !peval_secx, HT. ring. }
  rewrite El. rewrite <- (map_map of_nat (peval (secx B (of_nat (pid + 1))))). apply LagrangeInterpolate_values.
  - rewrite firstn_all2 by (rewrite map_length, seq_length; lia). apply nodup_map_in; [|apply seq_NoDup].
    intros a b Ha Hb E. apply in_seq in Ha, Hb. apply of_nat_inj in E; lia.
  - rewrite map_length, seq_length. lia.
  - rewrite length_secx. destruct HB as (-> & _). lia.
Qed.

(** Old and new members with F+1 different indexes together have the secret. *)
Theorem c67_pool : forall (old : Party -> Prop) B B' QB J olds news,
  (forall q, old q -> ready N F B q) -> bdeg F (2 * F) B -> refreshes F B B' QB J ->
  Forall old olds ->
  Forall (fun x => (exists pid, handoff old B B' QB J pid (fst x)) /\
     Forall2 (fun j m => reshared cd N F (QB (Z.to_nat j)) (p_PID (fst x)) m) J (snd x)) news ->
  NoDup (map p_PID (olds ++ map fst news)) -> length (olds ++ map fst news) = (F + 1)%nat ->
  pool F olds news = Ret (beval B 0 0).
Proof.
  intros old B B' QB J olds news HO HB HR FO FN ND LN. pose proof (N_small N F HN HF HNF) as SM.
  rewrite Forall_forall in FO, FN.
  assert (PN : forall x, In x news -> (p_PID (fst x) < N)%nat /\ old_share F (p_fullShare (fst x)) (snd x) = Ret (secx B (of_nat (p_PID (fst x) + 1)))).
  { intros x Hx. destruct (FN x Hx) as ((pid & HH) & HM).
    destruct (c29_handoff cd hash ser parse sign sigok combine HC HS N F HN HF HNF old B B' QB J pid (fst x) HO HB HR HH)
      as (_ & _ & _ & PP & Hp & _). split; [lia|].
    apply (c67_old_share old B B' QB J); auto. rewrite PP. exact HH. }
  unfold pool. rewrite (gomap_ret _ (fun x => secx B (of_nat (p_PID (fst x) + 1)))) by (intros x Hx; apply PN; exact Hx).
  cbn [bind].
  assert (E : map (fun f => EvalPolyAt f 0) (map p_fullShare olds ++ map (fun x => secx B (of_nat (p_PID (fst x) + 1))) news) =
    map (fun x => EvalPolyAt (secx B x) 0) (map (fun p => of_nat (p_PID p + 1)) (olds ++ map fst news))).
  { rewrite !map_app, !map_map. f_equal. apply map_ext_in. intros q Hq.
    destruct (HO q (FO q Hq)) as (_ & _ & _ & _ & (_ & -> & _) & _). reflexivity. }
  rewrite E.
  destruct (c19_reconstruct_full F B (map (fun p => of_nat (p_PID p + 1)) (olds ++ map fst news)) HB) as (q & EQ & E0).
  - rewrite <- (map_map p_PID (fun i => of_nat (i + 1))). apply nodup_map_in; [|exact ND].
    assert (LT : forall a, In a (map p_PID (olds ++ map fst news)) -> (a < N)%nat).
    { intros a Ha. apply in_map_iff in Ha. destruct Ha as (p & <- & Hp). apply in_app_or in Hp. destruct Hp as [Hp|Hp].
      - apply (HO p (FO p Hp)).
      - apply in_map_iff in Hp. destruct Hp as (x & <- & Hx). apply PN. exact Hx. }
    intros a b Ha Hb Eab. apply LT in Ha. apply LT in Hb. apply of_nat_inj in Eab; lia.
  - rewrite map_length. exact LN.
  - rewrite EQ. cbn [bind]. rewrite E0. reflexivity.
Qed.
End World.
Print Assumptions c67_old_share.
Print Assumptions c67_pool.

Lemma pick_list {A X} (P : A -> X -> Prop) : forall l, (forall a, In a l -> exists x, P a x) -> exists xs, Forall2 P l xs.
Proof.
  induction l as [|a l IH]; intros H; [exists []; constructor|].
  destruct IH as (xs & HX); [intros b Hb; apply H; right; exact Hb|]. destruct (H a) as (x & Hx); [left; reflexivity|].
  exists (x :: xs). constructor; assumption.
Qed.

(** So the secret is not safe from F corrupted members in each committee: for all sizes, all randomness of the client and
    all refreshing polynomials, member 1 of the old committee and the members 2..F+1 of the new one compute it. *)
Theorem c67_mobile_refuted : forall cd hash ser parse sign sigok combine N F s rF rZ QB J sg, codec_ok cd -> (forall l, parse (ser l) = l) ->
  (forall k, sigok k (sg k) = true) -> (Z.of_nat N < 2 ^ 32)%Z -> (1 <= F)%nat -> (3 * F + 1 <= N)%nat ->
  length rF = (2 * F + 1)%nat -> length rZ = (2 * F + 1)%nat -> Forall (fun row => length row = (F + 1)%nat) rZ ->
  (forall k, bdeg F (2 * F) (QB k) /\ beval (QB k) 0 0 = 0) -> NoDup J -> (forall j, In j J -> (1 <= j <= Z.of_nat N)%Z) ->
  exists ks msgs B B' olds news,
    let mem p' := exists i p m, (i < N)%nat /\ NewHonestParty N F i = Ret p /\ nth_error msgs i = Some m /\
      VSSShareReceive cd p m = Ret (true, p') in
    party_setup F = Ret ks /\ Share cd ks N F s rF rZ = Ret msgs /\ refreshes F B B' QB J /\
    (length olds <= F)%nat /\ (length news <= F)%nat /\
    Forall mem olds /\
    Forall (fun x => (exists pid, handoff cd hash ser parse sign sigok combine N F mem B B' QB J pid (fst x)) /\
      Forall2 (fun j m => reshared cd N F (QB (Z.to_nat j)) (p_PID (fst x)) m) J (snd x)) news /\
    pool F olds news = Ret s.
Proof.
  intros cd hash ser parse sign sigok combine N F s rF rZ QB J sg HC HS SG HN HF HNF L1 L2 L3 HQ NJ RJ.
  pose proof (N_small N F HN HF HNF) as HR.
  destruct (c17_honest_dealer cd N F s rF rZ HC HF HNF HR L1 L2 L3) as (ks & msgs & B & EK & EM & _ & HB & H0 & _ & HBr & _).
  set (mem := fun p' => exists i p m, (i < N)%nat /\ NewHonestParty N F i = Ret p /\ nth_error msgs i = Some m /\
      VSSShareReceive cd p m = Ret (true, p')).
  pose proof (gen_dealt cd hash ser parse sign sigok combine N F s rF rZ ks msgs B L1 L2 L3 EK EM HB HBr) as G0. fold mem in G0.
  pose proof (generation_inv cd hash ser parse sign sigok combine HC HS N F HN HF HNF _ _ _ _ G0) as (_ & _ & M0).
  assert (R0 : forall q, mem q -> ready N F B q) by (intros q Hq; apply M0; auto).
  assert (A0 : forall i, (i < N)%nat -> exists q, mem q /\ p_PID q = i).
  { intros i Hi.
    destruct (dealt_ready cd N F s rF rZ ks msgs B HC HF HNF HR L1 L2 L3 EK EM HB HBr i Hi) as (p & m & p' & E1 & E2 & E3 & _).
    exists p'. split; [exists i, p, m; auto|].
    destruct (new_party N F i) as (p1 & EP1 & WP & _ & _ & PI); try lia.
    rewrite E1 in EP1. apply (f_equal (fun x => match x with Ret a => a | _ => p end)) in EP1. subst p1.
    destruct (accept_inv party_secret cd p m p' WP E3) as (_ & _ & _ & _ & PI' & _). congruence. }
  destruct (c23_refresh N F B QB J HB (fun k => proj1 (HQ k)) (fun j _ => proj2 (HQ _))) as (B' & HB' & _ & HT & _).
  assert (HRf : refreshes F B B' QB J).
  { split; [exact HB'|]. split; [intros k; apply HQ|]. split; [intros j _; apply HQ|exact HT]. }
  destruct (A0 0%nat ltac:(lia)) as (p0 & Mp0 & P0).
  destruct (pick_list (fun i (x : Party * list ReshareMsg) => p_PID (fst x) = i /\
     (exists pid, handoff cd hash ser parse sign sigok combine N F mem B B' QB J pid (fst x)) /\
      Forall2 (fun j m => reshared cd N F (QB (Z.to_nat j)) (p_PID (fst x)) m) J (snd x)) (seq 1 F)) as (news & HNw).
  { intros i Hi. apply in_seq in Hi.
    destruct (c29_handoff_exists cd hash ser parse sign sigok combine HC HS N F HN HF HNF mem B B' QB J i sg R0) as (p & HH); auto.
    - intros k Hk. apply A0. lia.
    - intros k. apply HQ.
    - lia.
    - destruct (c29_handoff cd hash ser parse sign sigok combine HC HS N F HN HF HNF mem B B' QB J i p R0 HB HRf HH) as (_ & _ & _ & PP & _).
      destruct (pick_list (fun j m => reshared cd N F (QB (Z.to_nat j)) i m) J) as (ms & HM).
      + intros j _. pose proof (reshare_send_correct cd party_secret ks F (QB (Z.to_nat j)) EK (proj1 (HQ _)) N) as ER.
        match type of ER with _ = Ret ?l => exists (nth i l (mkRS [] [])); exists ks, l end.
        split; [exact EK|]. split; [exact ER|].
        apply nth_error_nth'. rewrite map_length, seq_length. lia.
      + exists (p, ms). cbn [fst snd]. split; [exact PP|]. split; [exists i; exact HH|]. rewrite PP. exact HM. }
  assert (LP : map p_PID (map fst news) = seq 1 F).
  { clear -HNw. induction HNw as [|i x l xs (E & _) _ IH]; [reflexivity|]. cbn [map]. rewrite IH, E. reflexivity. }
  assert (LL : length news = F) by (rewrite <- (map_length fst news), <- (map_length p_PID), LP, seq_length; reflexivity).
  assert (FN : Forall (fun x => (exists pid, handoff cd hash ser parse sign sigok combine N F mem B B' QB J pid (fst x)) /\
      Forall2 (fun j m => reshared cd N F (QB (Z.to_nat j)) (p_PID (fst x)) m) J (snd x)) news).
  { clear -HNw. induction HNw as [|i x l xs (_ & E) _ IH]; constructor; auto. }
  exists ks, msgs, B, B', [p0], news. cbv zeta. fold mem.
  split; [exact EK|]. split; [exact EM|]. split; [exact HRf|]. split; [simpl; lia|]. split; [lia|].
  split; [constructor; [exact Mp0|constructor]|]. split; [exact FN|].
  rewrite <- H0. apply (c67_pool cd hash ser parse sign sigok combine HC HS N F HN HF HNF mem B B' QB J [p0] news R0 HB HRf).
  - constructor; [exact Mp0|constructor].
  - exact FN.
  - rewrite map_app. cbn [map app]. rewrite LP, P0. change (0%nat :: seq 1 F) with (seq 0 (S F)). apply seq_NoDup.
  - rewrite app_length, map_length. cbn [length]. lia.
Qed.
Print Assumptions c67_mobile_refuted.

(** ** Members with at most F indexes in any two consecutive committees learn nothing *)

(** The polynomial that the client shared, and the refreshing polynomial of each dealer in each handoff. *)
Record history : Type := mkHist { h_B : list (list Fr); h_Q : nat -> nat -> list (list Fr) }.

(** All histories with the secret [s]. *)
Definition valid (F : nat) (s : Fr) (H : history) : Prop :=
  bdeg F (2 * F) (h_B H) /\ beval (h_B H) 0 0 = s /\
  forall e k, bdeg F (2 * F) (h_Q H e k) /\ beval (h_Q H e k) 0 0 = 0.

(** Value at (x, y) of the polynomial after [e] handoffs, with the agreed dealers J 0, J 1, ... *)
Definition at_epoch (J : nat -> list Z) (H : history) (e : nat) (x y : Fr) : Fr :=
  beval (h_B H) x y + fsum (map (fun i => total (h_Q H i) (J i) x y) (seq 0 e)).

Definition same_history (H H' : history) : Prop := h_B H = h_B H' /\ forall e k, h_Q H e k = h_Q H' e k.

(** What the members with the indexes [A e] of the committee after [e] handoffs see, for e up to n: their full and
    reduced shares, the ShareReduce messages (values at their index before the refreshing), the Reshare and Recover
    messages of every dealer to them, and the polynomials they dealt themselves. *)
Definition same_view (n : nat) (A : nat -> list nat) (J : nat -> list Z) (H H' : history) : Prop :=
  (forall e a z, (e <= n)%nat -> In a (A e) ->
     at_epoch J H' e (of_nat a) z = at_epoch J H e (of_nat a) z /\ at_epoch J H' e z (of_nat a) = at_epoch J H e z (of_nat a)) /\
  forall e c, (e < n)%nat -> In c (A (S e)) ->
    (forall z, at_epoch J H' e z (of_nat c) = at_epoch J H e z (of_nat c)) /\
    (forall k z, beval (h_Q H' e k) (of_nat c) z = beval (h_Q H e k) (of_nat c) z /\
       beval (h_Q H' e k) z (of_nat c) = beval (h_Q H e k) z (of_nat c)) /\
    h_Q H' e c = h_Q H e c.

Section Shift.
Variables (F n : nat) (A : nat -> list nat) (J : nat -> list Z) (h : nat -> nat).
Hypothesis HR : (Z.of_nat (2 * F + 1) <= r)%Z.
Hypothesis HA : forall e a, In a (A e) -> (1 <= Z.of_nat a < r)%Z.
Hypothesis HL : forall e, (e <= n)%nat -> (length (nodup Nat.eq_dec (A e ++ A (S e))) <= F)%nat.
Hypothesis HJ : forall e, (e < n)%nat -> NoDup (J e) /\ In (Z.of_nat (h e)) (J e) /\ (forall j, In j (J e) -> (0 <= j)%Z) /\ ~ In (h e) (A (S e)).

Let R (e : nat) : list Fr := map of_nat (nodup Nat.eq_dec (A e ++ A (S e))).
Let sh (e : nat) := shift_by F (2 * F) (R e) (R e).
Let D (e : nat) (x y : Fr) : Fr := prodlin (R e) x * prodlin (R e) y * finv (prodlin (R e) 0 * prodlin (R e) 0).

Let move (t : Fr) (H : history) : history :=
  mkHist (sh 0 t (h_B H))
    (fun e k => if (e <? n)%nat && (k =? h e)%nat then sh (S e) t (sh e (0 - t) (h_Q H e k)) else h_Q H e k).

Let back (t : Fr) (H : history) : history :=
  mkHist (sh 0 (0 - t) (h_B H))
    (fun e k => if (e <? n)%nat && (k =? h e)%nat then sh e t (sh (S e) (0 - t) (h_Q H e k)) else h_Q H e k).

Lemma R_le e : (e <= n)%nat -> (length (R e) <= F)%nat.
Proof. intros He. unfold R. rewrite map_length. apply HL. exact He. Qed.

Lemma R_0 e : ~ In 0 (R e).
Proof.
  unfold R. intros Hin. apply in_map_iff in Hin. destruct Hin as (a & E & Ha). apply nodup_In in Ha.
  assert (1 <= Z.of_nat a < r)%Z by (apply in_app_or in Ha; destruct Ha as [Ha|Ha]; eapply HA; exact Ha).
  change 0 with (of_nat 0) in E. apply of_nat_inj in E; lia.
Qed.

Lemma R_now e a : In a (A e) -> In (of_nat a) (R e).
Proof. intros Ha. unfold R. apply in_map. apply nodup_In. apply in_or_app. left. exact Ha. Qed.

Lemma R_next e a : In a (A (S e)) -> In (of_nat a) (R e).
Proof. intros Ha. unfold R. apply in_map. apply nodup_In. apply in_or_app. right. exact Ha. Qed.

Lemma sh_eval e t B x y : (e <= n)%nat -> beval (sh e t B) x y = beval B x y + t * D e x y.
Proof.
  intros He. pose proof (R_le e He). pose proof (R_0 e). unfold sh, D. apply beval_shift; try assumption; lia.
Qed.

Lemma sh_deg e t B : (e <= n)%nat -> bdeg F (2 * F) B -> bdeg F (2 * F) (sh e t B).
Proof. intros He. pose proof (R_le e He). pose proof (R_0 e). unfold sh. apply bdeg_shift; try assumption; lia. Qed.

Lemma sh_undo e t B : (e <= n)%nat -> bdeg F (2 * F) B -> sh e (0 - t) (sh e t B) = B.
Proof. intros He HB. pose proof (R_le e He). pose proof (R_0 e). unfold sh. apply shift_back; try assumption; lia. Qed.

Lemma sh_undo' e t B : (e <= n)%nat -> bdeg F (2 * F) B -> sh e t (sh e (0 - t) B) = B.
Proof. intros He HB. replace t with (0 - (0 - t)) at 1 by ring. apply sh_undo; assumption. Qed.

Lemma D_0 e : D e 0 0 = 1.
Proof.
  unfold D. assert (prodlin (R e) 0 <> 0) by (apply prodlin_neq_0; apply R_0). field. exact H.
Qed.

Lemma D_x e a z : In (of_nat a) (R e) -> D e (of_nat a) z = 0.
Proof. intros Ha. unfold D. rewrite (prodlin_0 _ _ Ha). ring. Qed.

Lemma D_y e a z : In (of_nat a) (R e) -> D e z (of_nat a) = 0.
Proof. intros Ha. unfold D. rewrite (prodlin_0 _ _ Ha). ring. Qed.

Lemma move_deg t H e k : (forall e k, bdeg F (2 * F) (h_Q H e k) /\ beval (h_Q H e k) 0 0 = 0) ->
  bdeg F (2 * F) (h_Q (move t H) e k) /\ beval (h_Q (move t H) e k) 0 0 = 0.
Proof.
  intros HQ. cbn [move h_Q]. destruct (HQ e k) as (Q1 & Q2). destruct ((e <? n)%nat && (k =? h e)%nat) eqn:E; [|auto].
  apply andb_true_iff in E. destruct E as (E & _). apply Nat.ltb_lt in E. split; [apply sh_deg; [lia|]; apply sh_deg; [lia|exact Q1]|].
  rewrite !sh_eval by lia. rewrite !D_0, Q2. ring.
Qed.

Lemma back_deg t H e k : (forall e k, bdeg F (2 * F) (h_Q H e k) /\ beval (h_Q H e k) 0 0 = 0) ->
  bdeg F (2 * F) (h_Q (back t H) e k) /\ beval (h_Q (back t H) e k) 0 0 = 0.
Proof.
  intros HQ. cbn [back h_Q]. destruct (HQ e k) as (Q1 & Q2). destruct ((e <? n)%nat && (k =? h e)%nat) eqn:E; [|auto].
  apply andb_true_iff in E. destruct E as (E & _). apply Nat.ltb_lt in E. split; [apply sh_deg; [lia|]; apply sh_deg; [lia|exact Q1]|].
  rewrite !sh_eval by lia. rewrite !D_0, Q2. ring.
Qed.

Lemma move_valid t s H : valid F s H -> valid F (s + t) (move t H).
Proof.
  intros (V1 & V2 & V3). split; [apply sh_deg; [lia|exact V1]|]. split; [|intros e k; apply move_deg; exact V3].
  cbn [move h_B]. rewrite sh_eval by lia. rewrite D_0, V2. ring.
Qed.

Lemma back_valid t s H : valid F (s + t) H -> valid F s (back t H).
Proof.
  intros (V1 & V2 & V3). split; [apply sh_deg; [lia|exact V1]|]. split; [|intros e k; apply back_deg; exact V3].
  cbn [back h_B]. rewrite sh_eval by lia. rewrite D_0, V2. ring.
Qed.

Lemma back_move t s H : valid F s H -> same_history (back t (move t H)) H.
Proof.
  intros (V1 & _ & V3). split; [apply sh_undo; [lia|exact V1]|]. intros e k. cbn [back move h_Q].
  destruct ((e <? n)%nat && (k =? h e)%nat) eqn:E; [|reflexivity].
  apply andb_true_iff in E. destruct E as (E & _). apply Nat.ltb_lt in E. destruct (V3 e k) as (Q1 & _).
  rewrite sh_undo by (try apply sh_deg; first [lia | exact Q1]). apply sh_undo'; [lia|exact Q1].
Qed.

Lemma move_back t s H : valid F s H -> same_history (move t (back t H)) H.
Proof.
  intros (V1 & _ & V3). split; [apply sh_undo'; [lia|exact V1]|]. intros e k. cbn [back move h_Q].
  destruct ((e <? n)%nat && (k =? h e)%nat) eqn:E; [|reflexivity].
  apply andb_true_iff in E. destruct E as (E & _). apply Nat.ltb_lt in E. destruct (V3 e k) as (Q1 & _).
  rewrite sh_undo by (try apply sh_deg; first [lia | exact Q1]). apply sh_undo'; [lia|exact Q1].
Qed.

Lemma total_one (f g : nat -> list (list Fr)) k d x y : forall l, NoDup l -> (forall j, In j l -> (0 <= j)%Z) ->
  (forall i, i <> k -> g i = f i) -> beval (g k) x y = beval (f k) x y + d ->
  total g l x y = total f l x y + (if existsb (Z.eqb (Z.of_nat k)) l then d else 0).
Proof.
  unfold total. induction l as [|j l IH]; intros ND P O E; [cbn; ring|].
  inversion ND; subst. cbn [map fsum existsb]. rewrite IH by (auto; intros; apply P; right; assumption).
  destruct (Z.eqb_spec (Z.of_nat k) j) as [<-|Ne].
  - cbn [orb]. rewrite Nat2Z.id, E.
    assert (existsb (Z.eqb (Z.of_nat k)) l = false) as ->; [|ring].
    apply not_true_iff_false. intros X. apply existsb_exists in X. destruct X as (b & Hb & Eb). apply Z.eqb_eq in Eb. subst b. contradiction.
  - cbn [orb]. rewrite O; [ring|]. intros X. apply Ne. rewrite <- X. apply Z2Nat.id. apply P. left. reflexivity.
Qed.

Lemma move_at t H e x y : (e <= n)%nat -> at_epoch J (move t H) e x y = at_epoch J H e x y + t * D e x y.
Proof.
  induction e as [|e IH]; intros He.
  - unfold at_epoch. cbn [seq map fsum move h_B]. rewrite sh_eval by lia. ring.
  - assert (IH' := IH ltac:(lia)). unfold at_epoch in *. rewrite seq_S, !map_app, !fsum_app. cbn [map fsum].
    destruct (HJ e ltac:(lia)) as (J1 & J2 & J3 & _).
    change (0 + e)%nat with e.
    assert (T : total (h_Q (move t H) e) (J e) x y = total (h_Q H e) (J e) x y + (t * D (S e) x y - t * D e x y)).
    { rewrite (total_one (h_Q H e) (h_Q (move t H) e) (h e) (t * D (S e) x y - t * D e x y) x y (J e) J1 J3).
      - assert (X : existsb (Z.eqb (Z.of_nat (h e))) (J e) = true).
        { apply existsb_exists. exists (Z.of_nat (h e)). split; [exact J2|apply Z.eqb_refl]. }
        rewrite X. reflexivity.
      - intros i Hi. cbn [move h_Q]. rewrite (proj2 (Nat.eqb_neq _ _) Hi), andb_false_r. reflexivity.
      - cbn [move h_Q]. rewrite Nat.eqb_refl, (proj2 (Nat.ltb_lt e n)) by lia. cbn [andb]. rewrite !sh_eval by lia. ring. }
    rewrite T.
    transitivity (beval (h_B (move t H)) x y + fsum (map (fun i => total (h_Q (move t H) i) (J i) x y) (seq 0 e))
      + (total (h_Q H e) (J e) x y + (t * D (S e) x y - t * D e x y))); [ring|]. rewrite IH'. ring.
Qed.

Lemma move_view t H : same_view n A J H (move t H).
Proof.
  split.
  - intros e a z He Ha. apply R_now in Ha. rewrite !move_at by exact He. rewrite D_x, D_y by exact Ha. split; ring.
  - intros e c He Hc. pose proof (R_next e c Hc) as R1. pose proof (R_now (S e) c Hc) as R2. split; [|split].
    + intros z. rewrite move_at by lia. rewrite D_y by exact R1. ring.
    + intros k z. cbn [move h_Q]. destruct ((e <? n)%nat && (k =? h e)%nat); [|auto].
      rewrite !sh_eval by lia. rewrite !D_x, !D_y by assumption. split; ring.
    + cbn [move h_Q]. destruct (HJ e He) as (_ & _ & _ & J4).
      rewrite (proj2 (Nat.eqb_neq c (h e))) by (intros ->; contradiction). rewrite andb_false_r. reflexivity.
Qed.

Lemma secrecy s1 s2 : exists phi psi : history -> history,
  (forall H, valid F s1 H -> valid F s2 (phi H) /\ same_history (psi (phi H)) H /\ same_view n A J H (phi H)) /\
  (forall H, valid F s2 H -> valid F s1 (psi H) /\ same_history (phi (psi H)) H).
Proof.
  exists (move (s2 - s1)), (back (s2 - s1)). split; intros H V.
  - split; [replace s2 with (s1 + (s2 - s1)) at 1 by ring; apply move_valid; exact V|].
    split; [apply (back_move _ s1); exact V|apply move_view].
  - split; [|apply (move_back _ s2); exact V]. apply back_valid. replace (s1 + (s2 - s1)) with s2 by ring. exact V.
Qed.
End Shift.

(** Any number of handoffs; [A e]: indexes of the corrupted members after [e] handoffs; in each handoff some agreed
    dealer [h e] is honest.  If no two consecutive sets have more than F indexes between them, then there is a bijection
    between the histories with any two secrets under which the corrupted members see the same. *)
Theorem c67_secrecy : forall F n (A : nat -> list nat) (J : nat -> list Z) (h : nat -> nat) s1 s2,
  (Z.of_nat (2 * F + 1) <= r)%Z -> (forall e a, In a (A e) -> (1 <= Z.of_nat a < r)%Z) ->
  (forall e, (e <= n)%nat -> (length (nodup Nat.eq_dec (A e ++ A (S e))) <= F)%nat) ->
  (forall e, (e < n)%nat -> NoDup (J e) /\ In (Z.of_nat (h e)) (J e) /\ (forall j, In j (J e) -> (0 <= j)%Z) /\ ~ In (h e) (A (S e))) ->
  exists phi psi : history -> history,
    (forall H, valid F s1 H -> valid F s2 (phi H) /\ same_history (psi (phi H)) H /\ same_view n A J H (phi H)) /\
    (forall H, valid F s2 H -> valid F s1 (psi H) /\ same_history (phi (psi H)) H).
Proof. intros F n A J h s1 s2 HR HA HL HJ. exact (secrecy F n A J h HR HA HL HJ s1 s2). Qed.
Print Assumptions c67_secrecy.

(** After one handoff that polynomial is the one on which the new shares lie. *)
Lemma c67_at_epoch : forall F B B' QB J x y, refreshes F B B' QB J ->
  at_epoch (fun _ => J) (mkHist B (fun _ => QB)) 0 x y = beval B x y /\
  at_epoch (fun _ => J) (mkHist B (fun _ => QB)) 1 x y = beval B' x y.
Proof.
  intros F B B' QB J x y (_ & _ & _ & HB). unfold at_epoch. cbn [h_B h_Q seq map fsum]. rewrite HB. split; ring.
Qed.

(** One corrupted member of two committees of four with F = 1: the same index in both, nothing is learnt (and there are
    histories with the secret 7); another index, and the secret is lost (for any randomness of the client). *)
Example c67_demo_same : (exists H, valid 1 (of_Z 7) H) /\
  exists phi psi : history -> history,
    (forall H, valid 1 (of_Z 7) H -> valid 1 (of_Z 8) (phi H) /\ same_history (psi (phi H)) H /\
       same_view 1 (fun _ => [1%nat]) (fun _ => [1; 2]%Z) H (phi H)) /\
    (forall H, valid 1 (of_Z 8) H -> valid 1 (of_Z 7) (psi H) /\ same_history (phi (psi H)) H).
Proof.
  split.
  - exists (mkHist demo_B (fun _ => demo_q)). split; [split; [reflexivity|repeat constructor]|]. split.
    + unfold demo_B, beval. cbn [secx map peval h_B]. ring.
    + intros e k. split; [split; [reflexivity|repeat constructor]|]. unfold demo_q, beval. cbn [secx map peval h_Q]. ring.
  - apply (c67_secrecy 1 1 (fun _ => [1%nat]) (fun _ => [1; 2]%Z) (fun _ => 2%nat)).
    + rewrite r_eq. lia.
    + intros e a [<-|[]]. rewrite r_eq. lia.
    + intros e _. cbn. lia.
    + intros e _. split; [repeat constructor; simpl; lia|]. split; [simpl; tauto|]. split; [|simpl; lia].
      intros j Hj. simpl in Hj. lia.
Qed.

Example c67_demo_other : forall cd hash ser parse sign sigok combine rF rZ sg, codec_ok cd -> (forall l, parse (ser l) = l) ->
  (forall k, sigok k (sg k) = true) -> length rF = 3%nat -> length rZ = 3%nat -> Forall (fun row => length row = 2%nat) rZ ->
  exists ks msgs B B' olds news,
    let mem p' := exists i p m, (i < 4)%nat /\ NewHonestParty 4 1 i = Ret p /\ nth_error msgs i = Some m /\
      VSSShareReceive cd p m = Ret (true, p') in
    party_setup 1 = Ret ks /\ Share cd ks 4 1 (of_Z 7) rF rZ = Ret msgs /\ refreshes 1 B B' demo_q [1; 2]%Z /\
    (length olds <= 1)%nat /\ (length news <= 1)%nat /\
    Forall mem olds /\
    Forall (fun x => (exists pid, handoff cd hash ser parse sign sigok combine 4 1 mem B B' demo_q [1; 2]%Z pid (fst x)) /\
      Forall2 (fun j m => reshared cd 4 1 (demo_q (Z.to_nat j)) (p_PID (fst x)) m) [1; 2]%Z (snd x)) news /\
    pool 1 olds news = Ret (of_Z 7).
Proof.
  intros cd hash ser parse sign sigok combine rF rZ sg HC HS SG L1 L2 L3.
  apply (c67_mobile_refuted cd hash ser parse sign sigok combine 4 1 (of_Z 7) rF rZ demo_q [1; 2]%Z sg HC HS SG); auto.
  - reflexivity.
  - intros k. split; [split; [reflexivity|repeat constructor]|]. unfold demo_q, beval. cbn [secx map peval]. ring.
  - repeat constructor; simpl; lia.
  - intros j Hj. simpl in Hj. lia.
Qed.
