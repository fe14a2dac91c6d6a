(** Proofs about DecodeModel.v. *)

Require Import ZArith List Bool Arith Lia.
From Verif Require Import Bytes CodecModel CodecProofs GoBase DispatchModel DispatchProofs PolyProofs VssModel VssProofs VssProofs2 RbcModel RbcProofs RbcGood DecodeModel.
Import ListNotations.

Section Proofs.
Variable sha : list Z -> list Z.
Variable rs_encode : nat -> nat -> list Z -> option (list (list Z)).
Variable rs_verify : nat -> nat -> list (list Z) -> bool.
Variable rs_reconstruct : nat -> nat -> list (list Z) -> list (list Z).
Variables N F : nat.
Variable bad : list Z.      (* senders of Ready messages with other hashes *)
Variable M0 : list Z.       (* the dealer's message *)
Variable shards : list (list Z).
Hypothesis RS : rs_good rs_encode rs_verify rs_reconstruct N F M0 shards.
Hypothesis HSHA : length (sha M0) = 32%nat.
Hypothesis HLEN : (Z.of_nat (length M0) < 2 ^ 32)%Z.
Hypothesis HNF : (3 * F + 1 <= N)%nat.
Hypothesis Hbad : (length bad <= F)%nat.
Local Notation T0 := (tag sha M0).
Local Notation dstep := (dstep sha rs_verify rs_reconstruct N F).

(** A Ready message is the member's own shard with the dealer's hash, or has another hash and is from [bad]. *)
Definition fair (s : Z) (x : hm) : Prop :=
  (fst x = T0 /\ (0 <= s < Z.of_nat N)%Z /\ snd x = nth (Z.to_nat s) shards []) \/ (fst x <> T0 /\ In s bad).

Definition fair_ev (e : dev) : Prop := match e with EvTake s x => fair s x | _ => True end.

Inductive druns : list dev -> dst -> Prop :=
| dr_nil : druns [] dec_init
| dr_step evs st e st' : druns evs st -> fair_ev e -> dstep st e = Ret (Some st') -> druns (evs ++ [e]) st'.

Definition hwrites (st : dst) : Prop := exists h, d_h st = HHash h.

Definition active (st : dst) (r : nat) : Prop :=
  d_start st = true /\ (r <= F)%nat /\ (N - F + r <= d_maxN st)%nat /\ (hwrites st -> N - F + r < d_maxN st)%nat.

Definition is_whole (w : list Z) : Prop := exists pad, w = M0 ++ pad.

Definition dec_inv (st : dst) : Prop :=
  match d_d st with
  | DWait => ((F < d_maxN st)%nat /\ ~ hwrites st) \/ d_start st = true -> d_maxH st = T0
  | DSpin r | DCopy r => d_start st = true /\ (r <= F)%nat /\ (N - F + r <= d_maxN st)%nat /\ d_maxH st = T0
  | DLen r w => active st r /\ d_maxH st = T0 /\ is_whole w
  | DCut r w len => active st r /\ d_maxH st = T0 /\ is_whole w /\ len = Z.of_nat (length M0)
  | DWrite r w len h => active st r /\ d_maxH st = T0 /\ is_whole w /\ len = Z.of_nat (length M0) /\ h = sha M0
  | DCmp r res => active st r /\ res = M0 /\ (d_maxH st = sha M0 \/ (d_maxH st = T0 /\ (N - F + r < d_maxN st)%nat))
  | DOut o => o = Some M0
  end.

Record dinv (st : dst) : Prop := mkDI {
  i_T0 : forall j m, In (j, m) (Tat st T0) -> (0 <= j < Z.of_nat N)%Z /\ m = nth (Z.to_nat j) shards [];
  i_nd : forall h, NoDup (map fst (Tat st h)) /\ incl (map fst (Tat st h)) (d_got st);
  i_oth : forall h, h <> T0 -> incl (map fst (Tat st h)) bad;
  i_got : forall s, In s (d_got st) -> ~ In s bad -> In s (map fst (Tat st T0));
  i_max : match d_h st with
          | HNum h => (d_maxN st < length (Tat st h))%nat /\ forall h', h' <> h -> (length (Tat st h') <= d_maxN st)%nat
          | HHash h => d_maxN st = length (Tat st h) /\ forall h', (length (Tat st h') <= d_maxN st)%nat
          | _ => forall h', (length (Tat st h') <= d_maxN st)%nat
          end;
  i_att : (F < d_maxN st)%nat -> (d_maxN st <= length (Tat st T0))%nat;
  i_start : d_start st = true -> (N - F <= d_maxN st)%nat;
  i_started : (N - F <= length (Tat st T0))%nat -> d_start st = true \/ d_h st = HNum T0 \/ d_h st = HHash T0 \/ d_h st = HHold T0;
  i_dec : dec_inv st }.

Lemma oth_len st h : dinv st -> h <> T0 -> (length (Tat st h) <= F)%nat.
Proof.
  intros I NE. rewrite <- (map_length fst). eapply Nat.le_trans; [|exact Hbad]. apply NoDup_incl_length; [apply (i_nd _ I)|apply (i_oth _ I h NE)].
Qed.

Lemma T0_len st : dinv st -> (length (Tat st T0) <= N)%nat.
Proof.
  intros I. rewrite <- (map_length fst). replace N with (length (map Z.of_nat (seq 0 N))) by (rewrite map_length, seq_length; reflexivity).
  apply NoDup_incl_length; [apply (i_nd _ I)|]. intros z Z. apply in_map_iff in Z. destruct Z as ((j, m) & <- & Z). apply (i_T0 _ I) in Z. cbn [fst].
  rewrite <- (Z2Nat.id j) by lia. apply in_map, in_seq. lia.
Qed.

Lemma big_T0 st h : dinv st -> (F < length (Tat st h))%nat -> h = T0.
Proof.
  intros I L. destruct (bytes_eqb h T0) eqn:E; [apply bytes_eqb_eq in E; exact E|]. exfalso. assert (h <> T0) by (intros ->; rewrite (proj2 (bytes_eqb_eq _ _) eq_refl) in E; discriminate).
  pose proof (oth_len st h I H). lia.
Qed.

Lemma Tat_update st h l mn mh g s hp d h' : Tat (mkD (update h l (d_T st)) mn mh g s hp d) h' = if bytes_eqb h' h then l else Tat st h'.
Proof.
  unfold Tat. cbn [d_T]. destruct (bytes_eqb h' h) eqn:E.
  - apply bytes_eqb_eq in E. subst. rewrite lookup_update_same. reflexivity.
  - rewrite lookup_update_other; [reflexivity|]. intros ->. rewrite (proj2 (bytes_eqb_eq _ _) eq_refl) in E. discriminate.
Qed.

Lemma hash_facts : firstn 32 T0 = sha M0 /\ BytesToInt (skipn 32 T0) = Z.of_nat (length M0) /\ (length T0 <? 32)%nat = false /\ T0 <> sha M0.
Proof.
  destruct (T0_hash sha N F [] M0 HSHA HNF (Nat.le_0_l F)) as (H1 & H2 & H3). unfold RbcGood.T0 in *. split; [exact H1|]. split; [rewrite H2; apply IntToBytes_roundtrip; lia|]. split; [apply Nat.ltb_ge; exact H3|].
  intros E. rewrite E in H2. rewrite <- HSHA, skipn_all in H2. pose proof (IntToBytes_roundtrip (Z.of_nat (length M0)) ltac:(lia)) as R.
  assert (L : length (IntToBytes (Z.of_nat (length M0))) = 4%nat) by (apply IntToBytes_length). rewrite <- H2 in L. discriminate.
Qed.

(** What is copied under the lock reconstructs the message. *)
Lemma copy_ok st r : dinv st -> (r <= F)%nat -> (N - F + r <= d_maxN st)%nat -> exists X, place N (N - F + r) (Tat st T0) = Ret X /\
  is_whole (concat (firstn (N - (F + 1)) (if rs_verify N F X then X else rs_reconstruct N F X))).
Proof.
  intros I RF RL. pose proof (i_att _ I ltac:(lia)) as AT. unfold place. replace (N - F + r - length (Tat st T0))%nat with 0%nat by lia. cbn [repeat]. rewrite app_nil_r.
  set (l := firstn (N - F + r) (Tat st T0)).
  assert (LL : length l = (N - F + r)%nat) by (unfold l; rewrite firstn_length; lia).
  assert (FL : forall a, In a l -> In a (Tat st T0)).
  { intros a Ha. rewrite <- (firstn_skipn (N - F + r) (Tat st T0)). apply in_or_app. left. exact Ha. }
  assert (NL : NoDup (map fst l)).
  { pose proof (proj1 (i_nd _ I T0)) as ND. rewrite <- (firstn_skipn (N - F + r) (Tat st T0)), map_app in ND. apply nodup_app_l in ND. exact ND. }
  destruct (place_correct sha N F [] M0 shards HSHA HNF (Nat.le_0_l F) l) as (X & E & LX & HX); [intros j m Hjm; apply (i_T0 _ I); apply FL; exact Hjm|exact NL|].
  exists X. split; [exact E|]. destruct RS as (_ & LS & NE & (pad & CP) & RV & RR).
  assert (NM : (N - F <= length (filter (fun s => negb (bytes_eqb s [])) X))%nat).
  { eapply Nat.le_trans; [|eapply (place_count sha rs_encode rs_verify rs_reconstruct N F [] M0 shards RS HSHA HNF (Nat.le_0_l F) X (map fst l)); auto]; [rewrite map_length; lia|]. intros s Hs. apply in_map_iff in Hs. destruct Hs as ((j & m) & <- & Hj).
    apply (i_T0 _ I j m). apply FL. exact Hj. }
  assert (EM : firstn (N - (F + 1)) (if rs_verify N F X then X else rs_reconstruct N F X) = firstn (N - (F + 1)) shards).
  { destruct (rs_verify N F X) eqn:EV.
    - specialize (RV X LX EV). f_equal. apply (list_ext []); [congruence|]. intros k Hk. rewrite HX by lia.
      destruct (in_dec _ _ _) as [_|Hn]; [reflexivity|]. exfalso. rewrite Forall_forall in RV. apply (RV (nth k X [])); [apply nth_In; lia|].
      rewrite HX by lia. destruct (in_dec _ _ _); [contradiction|reflexivity].
    - apply RR; [exact LX| |lia]. intros j Hj. rewrite HX by exact Hj. destruct (in_dec _ _ _); auto. }
  rewrite EM, CP. exists pad. reflexivity.
Qed.

Lemma dinv_init : dinv dec_init.
Proof.
  constructor; unfold Tat; cbn [dec_init d_T lookup d_h d_maxN d_got d_start map length In].
  - intros j m [].
  - intros h. split; [constructor|intros x []].
  - intros h _ x [].
  - intros x [].
  - intros h. lia.
  - lia.
  - discriminate.
  - lia.
  - unfold dec_inv. cbn [dec_init d_d d_maxN d_start]. intros [(H & _)|H]; [lia|discriminate].
Qed.

Lemma not_writes st : (forall h, d_h st <> HHash h) -> ~ hwrites st.
Proof. intros H (h & E). exact (H h E). Qed.

Lemma eqb_neq (a b : list Z) : bytes_eqb a b = false -> a <> b.
Proof. intros E ->. rewrite (proj2 (bytes_eqb_eq _ _) eq_refl) in E. discriminate. Qed.

Lemma take_inv st s x st' : dinv st -> fair s x -> take_step st s x = Some st' -> dinv st'.
Proof.
  intros I FA E. unfold take_step in E. destruct (d_h st) eqn:EH; try discriminate. destruct (existsb (Z.eqb s) (d_got st)) eqn:EX; [injection E as <-; exact I|].
  assert (NG : ~ In s (d_got st)). { intros H. assert (existsb (Z.eqb s) (d_got st) = true); [|congruence]. apply existsb_exists. exists s. split; [exact H|apply Z.eqb_refl]. }
  injection E as <-. set (l := Tat st (fst x) ++ [(s, snd x)]). set (hp := if (d_maxN st <? length l)%nat then HNum (fst x) else HHold (fst x)).
  pose proof (i_max _ I) as MX. rewrite EH in MX.
  assert (LL : length l = (length (Tat st (fst x)) + 1)%nat) by (unfold l; rewrite app_length; reflexivity).
  assert (NW : forall h, hp <> HHash h) by (intros h; unfold hp; destruct (_ <? _); discriminate).
  assert (ML : map fst l = map fst (Tat st (fst x)) ++ [s]) by (unfold l; rewrite map_app; reflexivity).
  set (st' := mkD _ _ _ _ _ _ _).
  assert (TA : forall h, Tat st' h = if bytes_eqb h (fst x) then l else Tat st h) by (intros h; apply Tat_update).
  constructor.
  - intros j m. rewrite TA. destruct (bytes_eqb T0 (fst x)) eqn:EB; [|apply (i_T0 _ I)]. apply bytes_eqb_eq in EB. unfold l. rewrite <- EB. intros H. apply in_app_or in H.
    destruct H as [H|[H|[]]]; [apply (i_T0 _ I); exact H|]. injection H as <- <-. destruct FA as [(_ & F1 & F2)|(F1 & _)]; [auto|congruence].
  - intros h. rewrite TA. cbn [d_got st']. destruct (i_nd _ I h) as (D1 & D2). destruct (bytes_eqb h (fst x)) eqn:EB.
    + apply bytes_eqb_eq in EB. subst h. rewrite ML. split.
      * apply nodup_app_intro; [exact D1|constructor; [intros []|constructor]|]. intros a A [<-|[]]. apply NG, D2, A.
      * intros a A. apply in_app_or in A. destruct A as [A|[<-|[]]]; [right; apply D2; exact A|left; reflexivity].
    + split; [exact D1|]. intros a A. right. apply D2. exact A.
  - intros h NE. rewrite TA. destruct (bytes_eqb h (fst x)) eqn:EB; [|apply (i_oth _ I h NE)]. apply bytes_eqb_eq in EB. subst h. rewrite ML. intros a A. apply in_app_or in A.
    destruct A as [A|[<-|[]]]; [apply (i_oth _ I _ NE); exact A|]. destruct FA as [(F1 & _)|(_ & F2)]; [contradiction|exact F2].
  - intros a [<-|A] NB; rewrite TA.
    + destruct FA as [(F1 & _)|(_ & F2)]; [|contradiction]. rewrite <- F1, (proj2 (bytes_eqb_eq _ _) eq_refl), ML. apply in_or_app. right. left. reflexivity.
    + pose proof (i_got _ I a A NB) as G. destruct (bytes_eqb T0 (fst x)) eqn:EB; [|exact G]. apply bytes_eqb_eq in EB. rewrite ML, <- EB. apply in_or_app. left. exact G.
  - cbn [d_h d_maxN st']. unfold hp. destruct (Nat.ltb_spec (d_maxN st) (length l)) as [LT|GE].
    + rewrite TA, (proj2 (bytes_eqb_eq _ _) eq_refl). split; [exact LT|]. intros h' NE. rewrite TA. destruct (bytes_eqb h' (fst x)) eqn:EB; [apply bytes_eqb_eq in EB; contradiction|apply MX].
    + intros h'. rewrite TA. destruct (bytes_eqb h' (fst x)); [exact GE|apply MX].
  - cbn [d_maxN st']. intros H. pose proof (i_att _ I H). rewrite TA. destruct (bytes_eqb T0 (fst x)) eqn:EB; [|lia]. apply bytes_eqb_eq in EB. rewrite LL, <- EB. lia.
  - exact (i_start _ I).
  - rewrite TA. cbn [d_start d_h st']. destruct (bytes_eqb T0 (fst x)) eqn:EB.
    + apply bytes_eqb_eq in EB. intros _. right. unfold hp. rewrite <- EB. destruct (_ <? _)%nat; [left|right; right]; reflexivity.
    + intros H. destruct (i_started _ I H) as [S|[S|[S|S]]]; [left; exact S|congruence..].
  - pose proof (i_dec _ I) as D. assert (NW' : ~ hwrites st') by (apply not_writes; exact NW). assert (NW0 : ~ hwrites st) by (apply not_writes; intros h; rewrite EH; discriminate).
    assert (AC : forall r, active st r -> active st' r). { intros r (A1 & A2 & A3 & _). split; [exact A1|]. split; [exact A2|]. split; [exact A3|]. intros X. contradiction. }
    unfold dec_inv in *. cbn [d_d st'] in *. destruct (d_d st); cbn [d_maxN d_maxH d_start st'].
    + intros H. apply D. destruct H as [(H & _)|H]; [left|right]; auto.
    + exact D.
    + exact D.
    + destruct D as (D1 & D2). split; [apply AC; exact D1|exact D2].
    + destruct D as (D1 & D2). split; [apply AC; exact D1|exact D2].
    + destruct D as (D1 & D2). split; [apply AC; exact D1|exact D2].
    + destruct D as (D1 & D2). split; [apply AC; exact D1|exact D2].
    + exact D.
Qed.

Lemma handler_inv st st' : dinv st -> handler_step N F st = Some st' -> dinv st'.
Proof.
  intros I E. unfold handler_step in E. pose proof (i_max _ I) as MX. pose proof (i_dec _ I) as D. destruct (d_h st) as [|h|h|h|] eqn:EH; try discriminate; injection E as <-.
  - (* line 192 *) destruct MX as (M1 & M2). set (st' := mkD _ _ _ _ _ _ _).
    assert (TA : forall h, Tat st' h = Tat st h) by reflexivity. assert (HW : hwrites st') by (exists h; reflexivity). assert (NW : ~ hwrites st) by (apply not_writes; intros h'; rewrite EH; discriminate).
    constructor; intros; rewrite ?TA in *; cbn [d_got d_h d_maxN d_start st'] in *.
    + apply (i_T0 _ I). assumption.
    + apply (i_nd _ I).
    + apply (i_oth _ I). assumption.
    + apply (i_got _ I); assumption.
    + split; [reflexivity|]. intros h'. rewrite TA. destruct (bytes_eqb h' h) eqn:EB; [apply bytes_eqb_eq in EB; subst; lia|]. apply eqb_neq in EB. specialize (M2 h' EB). lia.
    + rewrite (big_T0 st h I) by assumption. lia.
    + pose proof (i_start _ I). match goal with H : d_start st = true |- _ => specialize (i_start _ I H) end. lia.
    + destruct (i_started _ I) as [S|[S|[S|S]]]; [assumption|left; exact S|right; right; left; congruence|congruence|congruence].
    + assert (AC : forall r, active st r -> active st' r /\ (N - F + r < length (Tat st h))%nat).
      { intros r (A1 & A2 & A3 & _). split; [|lia]. split; [exact A1|]. split; [exact A2|]. cbn [d_maxN st']. split; [lia|]. intros _. lia. }
      unfold dec_inv in *. cbn [d_d st'] in *. destruct (d_d st); cbn [d_maxN d_maxH d_start st'].
      * intros [(_ & H)|H]; [contradiction|]. apply D. right. exact H.
      * destruct D as (D1 & D2 & D3 & D4). split; [exact D1|]. split; [exact D2|]. split; [lia|exact D4].
      * destruct D as (D1 & D2 & D3 & D4). split; [exact D1|]. split; [exact D2|]. split; [lia|exact D4].
      * destruct D as (D1 & D2). split; [apply AC; exact D1|exact D2].
      * destruct D as (D1 & D2). split; [apply AC; exact D1|exact D2].
      * destruct D as (D1 & D2). split; [apply AC; exact D1|exact D2].
      * destruct D as (D1 & D2 & D3). destruct (AC _ D1) as (A1 & A2). split; [exact A1|]. split; [exact D2|]. destruct D3 as [D3|(D3 & _)]; [left; exact D3|right; split; [exact D3|lia]].
      * exact D.
  - (* line 193 *) destruct MX as (M1 & M2). set (st' := mkD _ _ _ _ _ _ _).
    assert (TA : forall h, Tat st' h = Tat st h) by reflexivity. assert (NW : ~ hwrites st') by (apply not_writes; intros h'; discriminate).
    assert (HT : (F < d_maxN st)%nat -> h = T0) by (intros H; apply (big_T0 st h I); lia). assert (HW : hwrites st) by (exists h; exact EH).
    constructor; intros; rewrite ?TA in *; cbn [d_got d_h d_maxN d_start st'] in *.
    + apply (i_T0 _ I). assumption.
    + apply (i_nd _ I).
    + apply (i_oth _ I). assumption.
    + apply (i_got _ I); assumption.
    + intros h'. rewrite TA. apply M2.
    + apply (i_att _ I). assumption.
    + apply (i_start _ I). assumption.
    + destruct (i_started _ I) as [S|[S|[S|S]]]; [assumption|left; exact S|congruence|right; right; right; congruence|congruence].
    + assert (AC : forall r, active st r -> active st' r /\ h = T0 /\ (N - F + r < d_maxN st)%nat).
      { intros r (A1 & A2 & A3 & A4). specialize (A4 HW). split; [|split; [apply HT; lia|exact A4]]. split; [exact A1|]. split; [exact A2|]. split; [exact A3|]. intros X. contradiction. }
      unfold dec_inv in *. cbn [d_d st'] in *. destruct (d_d st); cbn [d_maxN d_maxH d_start st'].
      * intros H. apply HT. destruct H as [(H & _)|H]; [exact H|]. pose proof (i_start _ I H). lia.
      * destruct D as (D1 & D2 & D3 & D4). repeat (split; [assumption|]). apply HT. lia.
      * destruct D as (D1 & D2 & D3 & D4). repeat (split; [assumption|]). apply HT. lia.
      * destruct D as (D1 & D2 & D3). destruct (AC _ D1) as (A1 & A2 & _). split; [exact A1|]. split; [exact A2|exact D3].
      * destruct D as (D1 & D2 & D3). destruct (AC _ D1) as (A1 & A2 & _). split; [exact A1|]. split; [exact A2|exact D3].
      * destruct D as (D1 & D2 & D3). destruct (AC _ D1) as (A1 & A2 & _). split; [exact A1|]. split; [exact A2|exact D3].
      * destruct D as (D1 & D2 & D3). destruct (AC _ D1) as (A1 & A2 & A3). split; [exact A1|]. split; [exact D2|]. right. split; [exact A2|exact A3].
      * exact D.
  - (* lines 228-230 *) set (st' := mkD _ _ _ _ _ _ _).
    assert (TA : forall h, Tat st' h = Tat st h) by reflexivity. assert (NW : ~ hwrites st') by (apply not_writes; intros h'; discriminate).
    assert (NW0 : ~ hwrites st) by (apply not_writes; intros h'; rewrite EH; discriminate).
    assert (SN : d_start st' = true -> d_start st = true \/ (N - F <= d_maxN st)%nat).
    { cbn [d_start st']. intros H. apply orb_true_iff in H. destruct H as [H|H]; [left; exact H|right]. apply Nat.leb_le in H. specialize (MX h). lia. }
    assert (SK : d_start st = true -> d_start st' = true) by (cbn [d_start st']; intros ->; reflexivity).
    constructor; intros; rewrite ?TA in *; cbn [d_got d_h d_maxN] in *.
    + apply (i_T0 _ I). assumption.
    + apply (i_nd _ I).
    + apply (i_oth _ I). assumption.
    + apply (i_got _ I); assumption.
    + exact MX.
    + apply (i_att _ I). assumption.
    + match goal with H : d_start st' = true |- _ => destruct (SN H) as [S|S]; [exact (i_start _ I S)|exact S] end.
    + left. destruct (i_started _ I) as [S|[S|[S|S]]]; [assumption|apply SK; exact S|congruence|congruence|]. assert (h = T0) by congruence. subst h. cbn [d_start st'].
      apply orb_true_iff. right. apply Nat.leb_le. assumption.
    + assert (AC : forall r, active st r -> active st' r). { intros r (A1 & A2 & A3 & _). split; [apply SK; exact A1|]. split; [exact A2|]. split; [exact A3|]. intros X. contradiction. }
      unfold dec_inv in *. change (d_d st') with (d_d st). change (d_maxN st') with (d_maxN st). change (d_maxH st') with (d_maxH st). destruct (d_d st).
      * intros H. apply D. destruct H as [(H & _)|H]; [left; auto|]. destruct (SN H) as [S|S]; [right; exact S|left; split; [lia|exact NW0]].
      * destruct D as (D1 & D2). split; [apply SK; exact D1|exact D2].
      * destruct D as (D1 & D2). split; [apply SK; exact D1|exact D2].
      * destruct D as (D1 & D2). split; [apply AC; exact D1|exact D2].
      * destruct D as (D1 & D2). split; [apply AC; exact D1|exact D2].
      * destruct D as (D1 & D2). split; [apply AC; exact D1|exact D2].
      * destruct D as (D1 & D2). split; [apply AC; exact D1|exact D2].
      * exact D.
  - (* line 232 *) set (st' := mkD _ _ _ _ _ _ _).
    assert (TA : forall h, Tat st' h = Tat st h) by reflexivity. assert (NW : ~ hwrites st') by (apply not_writes; intros h'; discriminate).
    assert (NW0 : ~ hwrites st) by (apply not_writes; intros h'; rewrite EH; discriminate).
    constructor; intros; rewrite ?TA in *; cbn [d_got d_h d_maxN d_start st'] in *.
    + apply (i_T0 _ I). assumption.
    + apply (i_nd _ I).
    + apply (i_oth _ I). assumption.
    + apply (i_got _ I); assumption.
    + exact MX.
    + apply (i_att _ I). assumption.
    + apply (i_start _ I). assumption.
    + left. destruct (i_started _ I) as [S|[S|[S|S]]]; [assumption|exact S|congruence|congruence|congruence].
    + assert (AC : forall r, active st r -> active st' r). { intros r (A1 & A2 & A3 & _). split; [exact A1|]. split; [exact A2|]. split; [exact A3|]. intros X. contradiction. }
      unfold dec_inv in *. cbn [d_d st'] in *. destruct (d_d st); cbn [d_maxN d_maxH d_start st'].
      * intros H. apply D. destruct H as [(H & _)|H]; [left|right]; auto.
      * exact D.
      * exact D.
      * destruct D as (D1 & D2). split; [apply AC; exact D1|exact D2].
      * destruct D as (D1 & D2). split; [apply AC; exact D1|exact D2].
      * destruct D as (D1 & D2). split; [apply AC; exact D1|exact D2].
      * destruct D as (D1 & D2). split; [apply AC; exact D1|exact D2].
      * exact D.
Qed.

Lemma decoder_total st : dinv st -> exists o, decoder_step sha rs_verify rs_reconstruct N F st = Ret o /\
  (forall st', o = Some st' -> dinv st') /\ (o = None -> d_start st = true -> d_h st = HFree -> d_d st = DOut (Some M0)).
Proof.
  intros I. pose proof (i_dec _ I) as D. destruct hash_facts as (H1 & H2 & H3 & H4).
  assert (KEEP : forall mh d, dec_inv (at_phase st mh d) -> dinv (at_phase st mh d)).
  { intros mh d K. constructor; try exact K; [exact (i_T0 _ I)|exact (i_nd _ I)|exact (i_oth _ I)|exact (i_got _ I)|exact (i_max _ I)|exact (i_att _ I)|exact (i_start _ I)|exact (i_started _ I)]. }
  unfold decoder_step. unfold dec_inv in D. destruct (d_d st) as [|r|r|r w|r w len|r w len h|r res|o] eqn:ED.
  - destruct (d_start st) eqn:ES.
    + eexists. split; [reflexivity|]. split; [|discriminate]. intros st' E. injection E as <-. apply KEEP. unfold dec_inv. cbn [at_phase d_d d_start d_maxN d_maxH].
      split; [exact ES|]. split; [lia|]. split; [pose proof (i_start _ I ES); lia|]. apply D. right. reflexivity.
    + eexists. split; [reflexivity|]. split; [discriminate|]. intros _ X. discriminate.
  - destruct D as (D1 & D2 & D3 & D4). rewrite (proj2 (Nat.leb_le _ _) D3). eexists. split; [reflexivity|]. split; [|discriminate]. intros st' E. injection E as <-. apply KEEP.
    unfold dec_inv. cbn [at_phase d_d d_start d_maxN d_maxH]. auto.
  - destruct D as (D1 & D2 & D3 & D4). destruct (d_h st) eqn:EH; try (eexists; split; [reflexivity|]; split; [discriminate|]; intros _ _ X; discriminate).
    rewrite D4. destruct (copy_ok st r I D2 D3) as (X & EX & WX). rewrite EX. cbn [bind]. eexists. split; [reflexivity|]. split; [|discriminate]. intros st' E. injection E as <-. apply KEEP.
    unfold dec_inv. cbn [at_phase d_d d_start d_maxN d_maxH]. split; [|split; [reflexivity|exact WX]]. split; [exact D1|]. split; [exact D2|]. split; [exact D3|]. intros (h & Y). cbn [at_phase d_h] in Y. congruence.
  - destruct D as (D1 & D2 & D3). rewrite D2, H3. eexists. split; [reflexivity|]. split; [|discriminate]. intros st' E. injection E as <-. apply KEEP.
    unfold dec_inv. cbn [at_phase d_d d_start d_maxN d_maxH]. split; [exact D1|]. split; [reflexivity|]. split; [exact D3|exact H2].
  - destruct D as (D1 & D2 & D3 & D4). rewrite D2, H3. eexists. split; [reflexivity|]. split; [|discriminate]. intros st' E. injection E as <-. apply KEEP.
    unfold dec_inv. cbn [at_phase d_d d_start d_maxN d_maxH]. split; [exact D1|]. split; [reflexivity|]. split; [exact D3|]. split; [exact D4|exact H1].
  - destruct D as (D1 & D2 & (pad & ->) & -> & ->). rewrite (proj2 (Z.ltb_ge _ _)) by (rewrite app_length; lia). eexists. split; [reflexivity|]. split; [|discriminate].
    intros st' E. injection E as <-. apply KEEP. unfold dec_inv. cbn [at_phase d_d d_start d_maxN d_maxH]. split; [exact D1|]. split; [|left; reflexivity].
    rewrite Nat2Z.id, firstn_app, firstn_all, Nat.sub_diag. cbn [firstn]. apply app_nil_r.
  - destruct D as (D1 & -> & D3). eexists. split; [reflexivity|]. split; [|discriminate]. intros st' E. injection E as <-. apply KEEP. unfold dec_inv. cbn [at_phase d_d].
    destruct D3 as [D3|(D3 & D4)]; rewrite D3.
    + rewrite (proj2 (bytes_eqb_eq _ _) eq_refl). reflexivity.
    + destruct (bytes_eqb (sha M0) T0) eqn:EB; [apply bytes_eqb_eq in EB; congruence|]. destruct D1 as (A1 & A2 & A3 & _).
      pose proof (i_att _ I ltac:(lia)) as AT. pose proof (T0_len st I) as TL. destruct (Nat.ltb_spec r F); [|lia]. cbn [at_phase d_start d_maxN d_maxH].
      split; [exact A1|]. split; [lia|]. split; [lia|reflexivity].
  - subst o. eexists. split; [reflexivity|]. split; [discriminate|]. reflexivity.
Qed.

Lemma druns_inv evs st : druns evs st -> dinv st.
Proof.
  induction 1 as [|evs st e st' R I FE E]; [apply dinv_init|]. destruct e as [s x| |]; cbn [DecodeModel.dstep fair_ev] in *.
  - injection E as E. exact (take_inv st s x st' I FE E).
  - injection E as E. exact (handler_inv st st' I E).
  - destruct (decoder_total st I) as (o & EO & KO & _). rewrite EO in E. injection E as E. apply KO. exact E.
Qed.

Lemma druns_got evs st : druns evs st -> forall s x, In (EvTake s x) evs -> In s (d_got st).
Proof.
  induction 1 as [|evs st e st' R IH FE E]; intros s x IN; [destruct IN|]. apply in_app_or in IN.
  assert (K : In s (d_got st) -> In s (d_got st')).
  { intros H. destruct e as [s1 x1| |]; cbn [DecodeModel.dstep] in E.
    - injection E as E. unfold take_step in E. destruct (d_h st); try discriminate. destruct (existsb _ _); injection E as <-; [exact H|right; exact H].
    - injection E as E. unfold handler_step in E. destruct (d_h st); try discriminate; injection E as <-; exact H.
    - unfold decoder_step in E. destruct (d_d st); try discriminate; repeat match type of E with
        | Ret (if ?b then _ else _) = _ => destruct b; try discriminate
        | (if ?b then _ else _) = _ => destruct b; try discriminate
        | match d_h st with _ => _ end = _ => destruct (d_h st); try discriminate
        | bind ?m _ = _ => destruct m; try discriminate; cbn [bind] in E
        end; injection E as <-; exact H. }
  destruct IN as [IN|[->|[]]]; [apply K, (IH s x IN)|]. cbn [DecodeModel.dstep] in E. injection E as E. unfold take_step in E. destruct (d_h st); try discriminate.
  destruct (existsb (Z.eqb s) (d_got st)) eqn:EX; injection E as <-; [|left; reflexivity]. apply existsb_exists in EX. destruct EX as (z & Z1 & Z2). apply Z.eqb_eq in Z2. subst z. exact Z1.
Qed.

(** How far the decoding goroutine has come. *)
Definition place_of (d : dph) : nat :=
  match d with
  | DWait => 0 | DSpin r => 6 * r + 1 | DCopy r => 6 * r + 2 | DLen r _ => 6 * r + 3 | DCut r _ _ => 6 * r + 4
  | DWrite r _ _ _ => 6 * r + 5 | DCmp r _ => 6 * r + 6 | DOut _ => 6 * F + 7 end.

Definition dec_count (evs : list dev) : nat := length (filter (fun e => match e with EvDecoder => true | _ => false end) evs).

Lemma count_snoc evs e : dec_count (evs ++ [e]) = (dec_count evs + match e with EvDecoder => 1 | _ => 0 end)%nat.
Proof. unfold dec_count. rewrite filter_app, app_length. destruct e; reflexivity. Qed.

Lemma druns_count evs st : druns evs st -> (dec_count evs <= place_of (d_d st))%nat /\ (place_of (d_d st) <= 6 * F + 7)%nat.
Proof.
  intros R. split.
  - induction R as [|evs st e st' R IH FE E]; [cbn; lia|]. rewrite count_snoc. destruct e as [s x| |]; cbn [DecodeModel.dstep] in E.
    + injection E as E. unfold take_step in E. destruct (d_h st); try discriminate. destruct (existsb _ _); injection E as <-; cbn [d_d]; lia.
    + injection E as E. unfold handler_step in E. destruct (d_h st); try discriminate; injection E as <-; cbn [d_d]; lia.
    + pose proof (druns_inv _ _ R) as I. pose proof (i_dec _ I) as D. unfold dec_inv in D. unfold decoder_step in E. destruct (d_d st) as [|r|r|r w|r w len|r w len h|r res|o]; try discriminate.
      * destruct (d_start st); [|discriminate]. injection E as <-. cbn [at_phase d_d place_of] in *. lia.
      * destruct (_ <=? _); [|discriminate]. injection E as <-. cbn [at_phase d_d place_of] in *. lia.
      * destruct (d_h st); try discriminate. destruct (place _ _ _); try discriminate. cbn [bind] in E. injection E as <-. cbn [at_phase d_d place_of] in *. lia.
      * destruct (_ <? _); [discriminate|]. injection E as <-. cbn [at_phase d_d place_of] in *. lia.
      * destruct (_ <? _); [discriminate|]. injection E as <-. cbn [at_phase d_d place_of] in *. lia.
      * destruct (_ <? _)%Z; [discriminate|]. injection E as <-. cbn [at_phase d_d place_of] in *. lia.
      * destruct D as ((_ & D & _) & _). injection E as <-. cbn [at_phase d_d place_of] in *. destruct (bytes_eqb _ _); cbn [place_of]; [lia|]. destruct (_ <? _); cbn [place_of]; lia.
  - pose proof (i_dec _ (druns_inv _ _ R)) as D. unfold dec_inv in D. destruct (d_d st) as [|r|r|r w|r w len|r w len h|r res|o]; cbn [place_of]; unfold active in D; lia.
Qed.
End Proofs.
