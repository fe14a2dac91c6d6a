(** Proofs that the parser of ProtoModel.v accepts exactly the wire format of WireSpec.v. *)

Require Import ZArith List Bool Arith Lia.
From Verif Require Import Bytes CodecModel CodecProofs GoBase ProtoModel ProtoProofs WireSpec.
Import ListNotations.
Local Open Scope Z_scope.

(** ** Integers *)

Definition gv (l : nat) (h : bytes) (v : Z) : Prop :=
  exists init final, h = init ++ [final] /\ Forall (fun x => 128 <= x) init /\ 0 <= final < 128 /\
    (length init < l)%nat /\ (S (length init) = l -> final <= 1) /\ v = septets h.

Lemma gv_varint h v : gv 10 h v <-> is_varint h v.
Proof.
  split; intros (i & f & E & H1 & H2 & H3 & H4 & H5); exists i, f; repeat split; auto; try lia; intros K; apply H4; lia.
Qed.

Lemma get_varint_sound l : forall b v r, is_bytes b -> get_varint l b = Some (v, r) -> exists h, b = h ++ r /\ gv l h v.
Proof.
  induction l as [|l IH]; intros [|x b] v r HB E; try discriminate.
  rewrite get_varint_S in E. inversion HB as [|? ? Hx Hb]; subst. unfold is_byte in Hx.
  destruct (x <? 128) eqn:Ex.
  - apply Z.ltb_lt in Ex. destruct ((l =? 0)%nat && (1 <? x)) eqn:El; [discriminate|]. injection E as <- <-.
    exists [x]. split; [reflexivity|]. exists [], x. split; [reflexivity|]. split; [constructor|]. split; [lia|]. split; [simpl; lia|]. split.
    + intros K. injection K as <-. rewrite Nat.eqb_refl in El. cbn [andb] in El. apply Z.ltb_ge in El. exact El.
    + cbn [septets]. rewrite Z.mod_small by lia. lia.
  - apply Z.ltb_ge in Ex. destruct (get_varint l b) as [(v' & r')|] eqn:E'; [|discriminate]. injection E as <- <-.
    destruct (IH _ _ _ Hb E') as (h & -> & i & f & -> & H1 & H2 & H3 & H4 & ->).
    exists (x :: i ++ [f]). split; [reflexivity|]. exists (x :: i), f. split; [reflexivity|]. split; [constructor; auto|]. split; [lia|].
    split; [simpl; lia|]. split.
    + intros K. apply H4. simpl in K. lia.
    + cbn [septets]. f_equal. rewrite <- (Z.mod_unique x 128 1 (x - 128)); lia.
Qed.

Lemma get_varint_complete l : forall h v r, is_bytes h -> gv l h v -> get_varint l (h ++ r) = Some (v, r).
Proof.
  induction l as [|l IH]; intros h v r HB (i & f & -> & H1 & H2 & H3 & H4 & ->); [lia|].
  destruct i as [|x i].
  - cbn [app]. rewrite get_varint_S. rewrite (proj2 (Z.ltb_lt f 128)) by lia.
    assert ((l =? 0)%nat && (1 <? f) = false) as ->.
    { destruct l; [|reflexivity]. cbn [Nat.eqb andb]. apply Z.ltb_ge. apply H4. reflexivity. }
    cbn [septets]. rewrite Z.mod_small by lia. apply (f_equal (fun z => Some (z, r))). lia.
  - cbn [app]. inversion H1 as [|? ? X1 X2]; subst. inversion HB as [|? ? Y1 Y2]; subst. unfold is_byte in Y1.
    rewrite get_varint_S. rewrite (proj2 (Z.ltb_ge x 128)) by lia.
    rewrite (IH (i ++ [f]) (septets (i ++ [f])) r Y2).
    + cbn [septets]. apply (f_equal (fun z => Some (z, r))). rewrite <- (Z.mod_unique x 128 1 (x - 128)); lia.
    + exists i, f. simpl in H3. repeat split; auto; try lia.
Qed.

Lemma varint_sound b v r : is_bytes b -> ConsumeVarint b = Some (v, r) -> exists h, b = h ++ r /\ is_varint h v.
Proof. intros HB E. destruct (get_varint_sound 10 b v r HB E) as (h & E1 & E2). exists h. split; [exact E1|apply gv_varint; exact E2]. Qed.

Lemma varint_complete h v r : is_bytes h -> is_varint h v -> ConsumeVarint (h ++ r) = Some (v, r).
Proof. intros HB E. apply get_varint_complete; [exact HB|apply gv_varint; exact E]. Qed.

Lemma varint_length h v : is_varint h v -> (1 <= length h)%nat.
Proof. intros (i & f & -> & _). rewrite app_length. simpl. lia. Qed.

Lemma septets_nonneg b : is_bytes b -> 0 <= septets b.
Proof. induction 1 as [|x b Hx Hb IH]; cbn [septets]; [lia|]. pose proof (Z.mod_pos_bound x 128). lia. Qed.

Lemma is_bytes_l a b : is_bytes (a ++ b) -> is_bytes a. Proof. intros H. apply is_bytes_app in H. tauto. Qed.
Lemma is_bytes_r a b : is_bytes (a ++ b) -> is_bytes b. Proof. intros H. apply is_bytes_app in H. tauto. Qed.

Lemma tag_sound b n wt r : is_bytes b -> ConsumeTag b = Some (n, wt, r) -> exists t, b = t ++ r /\ is_tag t n wt.
Proof.
  intros HB E. unfold ConsumeTag in E. destruct (ConsumeVarint b) as [(t & r')|] eqn:E'; [|discriminate].
  destruct ((1 <=? t / 8) && (t / 8 <=? 2 ^ 29 - 1)) eqn:K; [|discriminate]. injection E as <- <- <-.
  apply andb_true_iff in K. destruct K as (K1 & K2). apply Z.leb_le in K1, K2.
  destruct (varint_sound _ _ _ HB E') as (h & -> & HV). exists h. split; [reflexivity|].
  split; [|split; [lia|apply Z.mod_pos_bound; lia]]. rewrite <- (Z.div_mod t 8) by lia. exact HV.
Qed.

Lemma tag_complete t n wt r : is_bytes t -> is_tag t n wt -> ConsumeTag (t ++ r) = Some (n, wt, r).
Proof.
  intros HB (H1 & H2 & H3). unfold ConsumeTag. rewrite (varint_complete t _ r HB H1).
  assert ((8 * n + wt) / 8 = n) as -> by (symmetry; apply (Z.div_unique _ 8 n wt); lia).
  assert ((8 * n + wt) mod 8 = wt) as -> by (symmetry; apply (Z.mod_unique _ 8 n wt); lia).
  rewrite (proj2 (Z.leb_le 1 n)), (proj2 (Z.leb_le n (2 ^ 29 - 1))) by lia. reflexivity.
Qed.

(** ** Records *)

Lemma take_sound n b v r : take n b = Some (v, r) -> b = v ++ r /\ length v = n.
Proof.
  unfold take. destruct (n <=? length b)%nat eqn:E; [|discriminate]. intros K. injection K as <- <-.
  apply Nat.leb_le in E. split; [symmetry; apply firstn_skipn|]. rewrite firstn_length. lia.
Qed.

Lemma plain_sound n wt b w r : is_bytes b -> consume_plain wt b = Some (w, r) -> exists h, b = h ++ r /\ body n wt h w.
Proof.
  intros HB. unfold consume_plain.
  destruct (Z.eqb_spec wt 0) as [->|N0].
  { destruct (ConsumeVarint b) as [(v & r')|] eqn:E; [|discriminate]. intros K. injection K as <- <-.
    destruct (varint_sound _ _ _ HB E) as (h & -> & HV). exists h. split; [reflexivity|constructor; exact HV]. }
  destruct (Z.eqb_spec wt 1) as [->|N1].
  { destruct (take 8 b) as [(v & r')|] eqn:E; [|discriminate]. intros K. injection K as <- <-.
    apply take_sound in E. destruct E as (-> & L). exists v. split; [reflexivity|constructor; exact L]. }
  destruct (Z.eqb_spec wt 2) as [->|N2].
  { destruct (ConsumeVarint b) as [(m & r')|] eqn:E; [|discriminate].
    destruct (m <=? Z.of_nat (length r')) eqn:Em; [|discriminate].
    destruct (take (Z.to_nat m) r') as [(v & r'')|] eqn:E'; [|discriminate]. intros K. injection K as <- <-.
    destruct (varint_sound _ _ _ HB E) as (h & -> & HV). apply take_sound in E'. destruct E' as (-> & L).
    exists (h ++ v). split; [rewrite app_assoc; reflexivity|]. constructor.
    assert (0 <= m). { destruct HV as (? & ? & _ & _ & _ & _ & _ & ->). apply septets_nonneg. apply is_bytes_l in HB. exact HB. }
    rewrite L, Z2Nat.id by lia. exact HV. }
  destruct (Z.eqb_spec wt 5) as [->|N5]; [|discriminate].
  destruct (take 4 b) as [(v & r')|] eqn:E; [|discriminate]. intros K. injection K as <- <-.
  apply take_sound in E. destruct E as (-> & L). exists v. split; [reflexivity|constructor; exact L].
Qed.

Lemma group_sound fuel : forall n b r, is_bytes b -> skip_group fuel n b = Some r ->
  exists es rs t, b = es ++ t ++ r /\ stream es rs /\ is_tag t n 4.
Proof.
  induction fuel as [|f IH]; intros n b r HB E; [discriminate|]. cbn [skip_group] in E.
  destruct (ConsumeTag b) as [((m & wt) & b1)|] eqn:ET; [|discriminate].
  destruct (tag_sound _ _ _ _ HB ET) as (t & -> & HT). pose proof (is_bytes_r _ _ HB) as HB1.
  destruct (Z.eqb_spec wt 4) as [->|N4].
  - destruct (Z.eqb_spec m n) as [->|]; [|discriminate]. injection E as <-.
    exists [], [], t. split; [reflexivity|]. split; [constructor|exact HT].
  - destruct (Z.eqb_spec wt 3) as [->|N3].
    + destruct (skip_group f m b1) as [b2|] eqn:E1; [|discriminate].
      destruct (IH _ _ _ HB1 E1) as (es & rs & t' & -> & H1 & H2).
      assert (HB2 : is_bytes b2) by (apply is_bytes_r in HB1; apply is_bytes_r in HB1; exact HB1).
      destruct (IH _ _ _ HB2 E) as (es2 & rs2 & t2 & -> & H3 & H4).
      exists (t ++ (es ++ t') ++ es2), ((m, WGroup) :: rs2), t2.
      split; [rewrite <- !app_assoc; reflexivity|]. split; [|exact H4]. econstructor; eauto. econstructor; eauto.
    + destruct (consume_plain wt b1) as [(w & b2)|] eqn:E1; [|discriminate].
      destruct (plain_sound m _ _ _ _ HB1 E1) as (h & -> & H1).
      destruct (IH _ _ _ (is_bytes_r _ _ HB1) E) as (es2 & rs2 & t2 & -> & H3 & H4).
      exists (t ++ h ++ es2), ((m, w) :: rs2), t2.
      split; [rewrite <- !app_assoc; reflexivity|]. split; [|exact H4]. econstructor; eauto.
Qed.

Lemma rec_sound b n w r : is_bytes b -> consume_rec b = Some ((n, w), r) ->
  exists t wt h, b = t ++ h ++ r /\ is_tag t n wt /\ body n wt h w.
Proof.
  intros HB E. unfold consume_rec in E. destruct (ConsumeTag b) as [((m & wt) & b1)|] eqn:ET; [|discriminate].
  destruct (tag_sound _ _ _ _ HB ET) as (t & -> & HT). pose proof (is_bytes_r _ _ HB) as HB1.
  destruct (Z.eqb_spec wt 3) as [->|N3].
  - destruct (skip_group (length b1) m b1) as [b2|] eqn:E1; [|discriminate]. injection E as <- <- <-.
    destruct (group_sound _ _ _ _ HB1 E1) as (es & rs & t' & -> & H1 & H2).
    exists t, 3, (es ++ t'). split; [rewrite <- !app_assoc; reflexivity|]. split; [exact HT|econstructor; eauto].
  - destruct (consume_plain wt b1) as [(w' & b2)|] eqn:E1; [|discriminate]. injection E as <- <- <-.
    destruct (plain_sound m _ _ _ _ HB1 E1) as (h & -> & H1). exists t, wt, h. auto.
Qed.

Scheme body_ind2 := Induction for body Sort Prop
with stream_ind2 := Induction for stream Sort Prop.
Combined Scheme body_stream_ind from body_ind2, stream_ind2.

Lemma tag_length t n wt : is_tag t n wt -> (1 <= length t)%nat.
Proof. intros (H & _). eapply varint_length; exact H. Qed.

Lemma complete_both :
  (forall n wt b w, body n wt b w -> is_bytes b -> forall rest fuel, (length b <= fuel)%nat ->
     if wt =? 3 then w = WGroup /\ skip_group fuel n (b ++ rest) = Some rest else wt <> 4 /\ consume_plain wt (b ++ rest) = Some (w, rest)) /\
  (forall es rs, stream es rs -> is_bytes es -> forall n t rest fuel, is_bytes t -> is_tag t n 4 -> (length (es ++ t) <= fuel)%nat ->
     skip_group fuel n (es ++ t ++ rest) = Some rest).
Proof.
  apply body_stream_ind.
  - intros n b v HV HB rest fuel _. cbn [Z.eqb Pos.eqb]. split; [lia|]. unfold consume_plain. cbn [Z.eqb Pos.eqb]. rewrite (varint_complete b v rest HB HV). reflexivity.
  - intros n b L HB rest fuel _. cbn [Z.eqb Pos.eqb]. split; [lia|]. unfold consume_plain. cbn [Z.eqb Pos.eqb]. rewrite <- L, take_app. reflexivity.
  - intros n h b HV HB rest fuel _. cbn [Z.eqb Pos.eqb]. split; [lia|]. unfold consume_plain. cbn [Z.eqb Pos.eqb].
    rewrite <- app_assoc, (varint_complete h _ _ (is_bytes_l _ _ HB) HV).
    rewrite (proj2 (Z.leb_le _ _)) by (rewrite app_length; lia). rewrite Nat2Z.id, take_app. reflexivity.
  - intros n b rs t HS IH HT HB rest fuel L. cbn [Z.eqb]. change (3 =? 3) with true. cbn iota. split; [reflexivity|].
    rewrite <- app_assoc. apply IH; auto; [eapply is_bytes_l|eapply is_bytes_r]; exact HB.
  - intros n b L HB rest fuel _. cbn [Z.eqb Pos.eqb]. split; [lia|]. unfold consume_plain. cbn [Z.eqb Pos.eqb]. rewrite <- L, take_app. reflexivity.
  - intros _ n t rest fuel HB HT L. cbn [app] in *. destruct fuel as [|f]; [apply tag_length in HT; lia|].
    cbn [skip_group]. rewrite (tag_complete t n 4 rest HB HT). change (4 =? 4) with true. cbn iota. rewrite Z.eqb_refl. reflexivity.
  - intros t m wt b w rest rs HT HBo IH1 HS IH2 HB n t' rest' fuel HB' HT' L.
    pose proof (is_bytes_l _ _ HB) as B1. pose proof (is_bytes_l _ _ (is_bytes_r _ _ HB)) as B2. pose proof (is_bytes_r _ _ (is_bytes_r _ _ HB)) as B3.
    pose proof (tag_length _ _ _ HT) as LT. rewrite !app_length in L.
    destruct fuel as [|f]; [lia|]. cbn [skip_group]. rewrite <- !app_assoc. rewrite (tag_complete t m wt _ B1 HT).
    specialize (IH1 B2 (rest ++ t' ++ rest') f ltac:(lia)). specialize (IH2 B3 n t' rest' f HB' HT' ltac:(rewrite app_length; lia)).
    destruct (Z.eqb_spec wt 3) as [->|N3].
    + destruct IH1 as (_ & IH1). change (3 =? 4) with false. cbn iota. rewrite IH1. exact IH2.
    + destruct IH1 as (N4 & IH1). rewrite (proj2 (Z.eqb_neq _ _) N4). rewrite IH1. exact IH2.
Qed.

Lemma rec_complete t n wt b w rest : is_bytes (t ++ b) -> is_tag t n wt -> body n wt b w ->
  consume_rec (t ++ b ++ rest) = Some ((n, w), rest).
Proof.
  intros HB HT HBo. unfold consume_rec. rewrite (tag_complete t n wt _ (is_bytes_l _ _ HB) HT).
  pose proof (proj1 complete_both n wt b w HBo (is_bytes_r _ _ HB) rest (length (b ++ rest)) ltac:(rewrite app_length; lia)) as K.
  destruct (Z.eqb_spec wt 3) as [->|N3]; destruct K as (K1 & K2); rewrite K2; [subst w|]; reflexivity.
Qed.

Lemma stream_length b rs : stream b rs -> b = [] -> rs = [].
Proof. intros H. destruct H; [reflexivity|]. intros E. apply tag_length in H. destruct t; simpl in *; [lia|discriminate]. Qed.

(** No record begins here. *)
Definition stuck (b : bytes) : Prop :=
  b <> [] /\ forall t n wt h w rest, b = t ++ h ++ rest -> is_tag t n wt -> ~ body n wt h w.

Lemma parse_cons fuel b r b' : b <> [] -> consume_rec b = Some (r, b') ->
  parse (S fuel) b = (let (rs, ok) := parse fuel b' in (r :: rs, ok)).
Proof. intros N E. destruct b; [congruence|]. cbn [parse]. rewrite E. reflexivity. Qed.

Lemma parse_stream b1 rs b2 : stream b1 rs -> is_bytes (b1 ++ b2) -> forall fuel, (length (b1 ++ b2) <= fuel)%nat ->
  exists fuel', (length b2 <= fuel')%nat /\ parse fuel (b1 ++ b2) = (let (l, ok) := parse fuel' b2 in (rs ++ l, ok)).
Proof.
  induction 1 as [|t n wt b w rest rs HT HB HS IH]; intros HY fuel L.
  - exists fuel. split; [exact L|]. cbn [app]. destruct (parse fuel b2). reflexivity.
  - rewrite <- !app_assoc in HY |- *. rewrite <- !app_assoc, !app_length in L. pose proof (tag_length _ _ _ HT) as LT.
    destruct fuel as [|f]; [lia|].
    rewrite (parse_cons f _ (n, w) (rest ++ b2)).
    + destruct (IH (is_bytes_r _ _ (is_bytes_r _ _ HY)) f ltac:(rewrite app_length; lia)) as (f' & L' & E). exists f'. split; [exact L'|].
      rewrite E. destruct (parse f' b2). reflexivity.
    + destruct t; simpl in *; [lia|discriminate].
    + eapply rec_complete; eauto. rewrite app_assoc in HY. eapply is_bytes_l; exact HY.
Qed.

Lemma parse_stuck b fuel : is_bytes b -> stuck b -> parse fuel b = ([], false).
Proof.
  intros HB (N & H). destruct b as [|x b]; [congruence|]. destruct fuel as [|f]; [reflexivity|]. cbn [parse].
  destruct (consume_rec (x :: b)) as [((n & w) & r)|] eqn:E; [|reflexivity].
  exfalso. destruct (rec_sound _ _ _ _ HB E) as (t & wt & h & E1 & HT & HBo). exact (H t n wt h w r E1 HT HBo).
Qed.

(** Every byte string is a sequence of records, followed by nothing or by something that is not a record. *)
Lemma stream_split fuel : forall b, (length b <= fuel)%nat -> is_bytes b ->
  exists b1 rs b2, b = b1 ++ b2 /\ stream b1 rs /\ (b2 = [] \/ stuck b2).
Proof.
  induction fuel as [|f IH]; intros b L HB.
  - destruct b; [|simpl in L; lia]. exists [], [], []. repeat split; auto. constructor.
  - destruct b as [|x b]; [exists [], [], []; repeat split; auto; constructor|].
    destruct (consume_rec (x :: b)) as [((n & w) & r)|] eqn:E.
    + destruct (rec_sound _ _ _ _ HB E) as (t & wt & h & E1 & HT & HBo). pose proof (tag_length _ _ _ HT) as LT.
      rewrite E1 in HB. pose proof (f_equal (@length Z) E1) as E2. rewrite !app_length in E2.
      destruct (IH r) as (b1 & rs & b2 & -> & H1 & H2); [simpl in *; lia|apply is_bytes_r in HB; apply is_bytes_r in HB; exact HB|].
      exists (t ++ h ++ b1), ((n, w) :: rs), b2. split; [rewrite E1, <- !app_assoc; reflexivity|]. split; [econstructor; eauto|exact H2].
    + exists [], [], (x :: b). split; [reflexivity|]. split; [constructor|]. right. split; [discriminate|].
      intros t n wt h w rest E1 HT HBo. rewrite E1 in E, HB. rewrite (rec_complete t n wt h w rest) in E; [discriminate| |exact HT|exact HBo].
      rewrite app_assoc in HB. eapply is_bytes_l; exact HB.
Qed.

Lemma parse_split b1 rs b2 : is_bytes (b1 ++ b2) -> stream b1 rs -> (b2 = [] \/ stuck b2) -> forall fuel, (length (b1 ++ b2) <= fuel)%nat ->
  parse fuel (b1 ++ b2) = (rs, match b2 with [] => true | _ => false end).
Proof.
  intros HB HS H fuel L. destruct (parse_stream b1 rs b2 HS HB fuel L) as (f' & L' & ->).
  destruct H as [->|H].
  - assert (parse f' [] = ([], true)) as -> by (destruct f'; reflexivity). rewrite app_nil_r. reflexivity.
  - rewrite (parse_stuck b2 f' (is_bytes_r _ _ HB) H). rewrite app_nil_r. destruct b2; [destruct H; congruence|reflexivity].
Qed.

(** ** UTF-8 *)

Lemma within_iff lo hi x : within lo hi x = true <-> lo <= x <= hi.
Proof. unfold within. rewrite andb_true_iff, !Z.leb_le. tauto. Qed.

Lemma utf8_sound n : forall b, (length b <= n)%nat -> utf8_valid b = true -> is_utf8 b.
Proof.
  induction n as [|n IH]; intros [|x b] L E; try (exists []; split; [constructor|reflexivity]); [simpl in L; lia|].
  assert (step : forall c rest, scalar c -> utf8_valid rest = true -> (length rest <= n)%nat -> x :: b = utf8_encode c ++ rest -> is_utf8 (x :: b)).
  { intros c rest Hc Hr Lr Eq. destruct (IH rest Lr Hr) as (cs & H1 & H2). exists (c :: cs). split; [constructor; assumption|].
    cbn [map concat]. rewrite <- H2. exact Eq. }
  cbn [length] in L. cbn [utf8_valid] in E.
  destruct (within 0 127 x) eqn:W1.
  { apply within_iff in W1. apply (step x b); [unfold scalar; lia|exact E|lia|].
    unfold utf8_encode. rewrite (proj2 (Z.ltb_lt x 128)) by lia. reflexivity. }
  destruct b as [|y b]; [discriminate|]. cbn [length] in L.
  destruct (within 194 223 x && within 128 191 y) eqn:W2.
  { apply andb_true_iff in W2. destruct W2 as (W2 & W3). apply within_iff in W2, W3.
    apply (step (64 * (x - 192) + (y - 128)) b); [unfold scalar; lia|exact E|lia|].
    unfold utf8_encode. rewrite (proj2 (Z.ltb_ge _ 128)), (proj2 (Z.ltb_lt _ 2048)) by lia. cbn [app].
    f_equal; [|f_equal]; Z.div_mod_to_equations; lia. }
  destruct b as [|z b]; [discriminate|]. cbn [length] in L.
  destruct (within 224 239 x && within (if x =? 224 then 160 else 128) (if x =? 237 then 159 else 191) y && within 128 191 z) eqn:W3.
  { apply andb_true_iff in W3. destruct W3 as (W3 & W5). apply andb_true_iff in W3. destruct W3 as (W3 & W4). apply within_iff in W3, W4, W5.
    destruct (Z.eqb_spec x 224) as [->|N1]; [|destruct (Z.eqb_spec x 237) as [->|N2]].
    all: match goal with |- is_utf8 (?x :: _) => apply (step (4096 * (x - 224) + 64 * (y - 128) + (z - 128)) b); [unfold scalar; cbn in W4; lia|exact E|lia|] end.
    all: unfold utf8_encode; cbn in W4; rewrite (proj2 (Z.ltb_ge _ 128)), (proj2 (Z.ltb_ge _ 2048)), (proj2 (Z.ltb_lt _ 65536)) by lia; cbn [app].
    all: f_equal; [|f_equal; [|f_equal]]; Z.div_mod_to_equations; lia. }
  destruct b as [|w b]; [discriminate|]. cbn [length] in L.
  destruct (within 240 244 x && within (if x =? 240 then 144 else 128) (if x =? 244 then 143 else 191) y && within 128 191 z && within 128 191 w) eqn:W4; [|discriminate].
  apply andb_true_iff in W4. destruct W4 as (W4 & W7). apply andb_true_iff in W4. destruct W4 as (W4 & W6). apply andb_true_iff in W4. destruct W4 as (W4 & W5).
  apply within_iff in W4, W5, W6, W7.
  destruct (Z.eqb_spec x 240) as [->|N1]; [|destruct (Z.eqb_spec x 244) as [->|N2]].
  all: match goal with |- is_utf8 (?x :: _) => apply (step (262144 * (x - 240) + 4096 * (y - 128) + 64 * (z - 128) + (w - 128)) b); [unfold scalar; cbn in W5; lia|exact E|lia|] end.
  all: unfold utf8_encode; cbn in W5; rewrite (proj2 (Z.ltb_ge _ 128)), (proj2 (Z.ltb_ge _ 2048)), (proj2 (Z.ltb_ge _ 65536)) by lia; cbn [app].
  all: f_equal; [|f_equal; [|f_equal; [|f_equal]]]; Z.div_mod_to_equations; lia.
Qed.

Lemma utf8_step c rest : scalar c -> utf8_valid (utf8_encode c ++ rest) = utf8_valid rest.
Proof.
  intros Hc. unfold scalar in Hc. unfold utf8_encode.
  destruct (c <? 128) eqn:E1; [|destruct (c <? 2048) eqn:E2; [|destruct (c <? 65536) eqn:E3]].
  - apply Z.ltb_lt in E1. cbn [app utf8_valid]. rewrite (proj2 (within_iff 0 127 c)) by lia. reflexivity.
  - apply Z.ltb_ge in E1. apply Z.ltb_lt in E2. cbn [app utf8_valid].
    assert (2 <= c / 64 < 32) by (Z.div_mod_to_equations; lia). pose proof (Z.mod_pos_bound c 64).
    assert (within 0 127 (192 + c / 64) = false) as -> by (apply not_true_iff_false; rewrite within_iff; lia).
    rewrite (proj2 (within_iff 194 223 _)), (proj2 (within_iff 128 191 _)) by lia. reflexivity.
  - apply Z.ltb_ge in E1, E2. apply Z.ltb_lt in E3. cbn [app utf8_valid].
    set (a := c / 4096). set (b := c / 64 mod 64). set (d := c mod 64).
    assert (Ha : 0 <= a < 16 /\ 0 <= b < 64 /\ 0 <= d < 64 /\ c = 4096 * a + 64 * b + d).
    { unfold a, b, d. Z.div_mod_to_equations. lia. }
    clearbody a b d.
    assert (within 0 127 (224 + a) = false) as -> by (apply not_true_iff_false; rewrite within_iff; lia).
    assert (within 194 223 (224 + a) = false) as -> by (apply not_true_iff_false; rewrite within_iff; lia). cbn [andb].
    rewrite (proj2 (within_iff 224 239 _)), (proj2 (within_iff 128 191 (128 + d))) by lia.
    assert (within (if 224 + a =? 224 then 160 else 128) (if 224 + a =? 237 then 159 else 191) (128 + b) = true) as ->.
    { apply within_iff. destruct (Z.eqb_spec (224 + a) 224); destruct (Z.eqb_spec (224 + a) 237); lia. }
    reflexivity.
  - apply Z.ltb_ge in E1, E2, E3. cbn [app utf8_valid].
    set (a := c / 262144). set (b := c / 4096 mod 64). set (d := c / 64 mod 64). set (e := c mod 64).
    assert (Ha : 0 <= a < 5 /\ 0 <= b < 64 /\ 0 <= d < 64 /\ 0 <= e < 64 /\ c = 262144 * a + 4096 * b + 64 * d + e).
    { unfold a, b, d, e. Z.div_mod_to_equations. lia. }
    clearbody a b d e.
    assert (within 0 127 (240 + a) = false) as -> by (apply not_true_iff_false; rewrite within_iff; lia).
    assert (within 194 223 (240 + a) = false) as -> by (apply not_true_iff_false; rewrite within_iff; lia). cbn [andb].
    assert (within 224 239 (240 + a) = false) as -> by (apply not_true_iff_false; rewrite within_iff; lia). cbn [andb].
    rewrite (proj2 (within_iff 240 244 _)), (proj2 (within_iff 128 191 (128 + d))), (proj2 (within_iff 128 191 (128 + e))) by lia.
    assert (within (if 240 + a =? 240 then 144 else 128) (if 240 + a =? 244 then 143 else 191) (128 + b) = true) as ->.
    { apply within_iff. destruct (Z.eqb_spec (240 + a) 240); destruct (Z.eqb_spec (240 + a) 244); lia. }
    reflexivity.
Qed.

Lemma utf8_iff b : utf8_valid b = true <-> is_utf8 b.
Proof.
  split; [apply (utf8_sound (length b)); lia|]. intros (cs & H & ->). induction H as [|c cs Hc Hs IH]; [reflexivity|].
  cbn [map concat]. rewrite utf8_step by exact Hc. exact IH.
Qed.

(** ** Messages *)

Lemma unpack_sound fuel : forall b l, is_bytes b -> unpack fuel b = Some l -> packed_ints b l.
Proof.
  induction fuel as [|f IH]; intros [|x b] l HB E; cbn [unpack] in E; try discriminate; try (injection E as <-; constructor).
  destruct (ConsumeVarint (x :: b)) as [(v & r)|] eqn:EV; [|discriminate].
  destruct (unpack f r) as [l'|] eqn:EU; [|discriminate]. injection E as <-.
  destruct (varint_sound _ _ _ HB EV) as (h & E1 & HV). rewrite E1 in HB |- *. constructor; [exact HV|].
  apply IH; [apply is_bytes_r in HB; exact HB|exact EU].
Qed.

Lemma unpack_complete b l : packed_ints b l -> is_bytes b -> forall fuel, (length b <= fuel)%nat -> unpack fuel b = Some l.
Proof.
  induction 1 as [|h v b l HV HP IH]; intros HB fuel L; [destruct fuel; reflexivity|].
  pose proof (varint_length _ _ HV) as LH. rewrite app_length in L. destruct fuel as [|f]; [lia|].
  destruct h as [|x h]; [simpl in LH; lia|]. cbn [app unpack].
  change (x :: h ++ b) with ((x :: h) ++ b). rewrite (varint_complete _ _ b (is_bytes_l _ _ HB) HV).
  rewrite (IH (is_bytes_r _ _ HB)) by (simpl in L; lia). reflexivity.
Qed.

(** The bytes inside the records. *)
Definition rec_bytes (r : rec) : Prop := match snd r with WLen b => is_bytes b | _ => True end.

Lemma stream_bytes b rs : stream b rs -> is_bytes b -> Forall rec_bytes rs.
Proof.
  induction 1 as [|t n wt b w rest rs HT HB HS IH]; intros HY; constructor.
  - destruct HB; cbn; auto. apply is_bytes_r in HY. apply is_bytes_l in HY. apply is_bytes_r in HY. exact HY.
  - apply IH. apply is_bytes_r in HY. apply is_bytes_r in HY. exact HY.
Qed.

Lemma lookup_none sch n : lookup_kind sch n = None -> forall k, ~ In (n, k) sch.
Proof.
  unfold lookup_kind. destruct (find (fun f => fst f =? n) sch) as [f|] eqn:E; [discriminate|]. intros _ k Hin.
  pose proof (find_none _ _ E _ Hin) as K. cbn in K. rewrite Z.eqb_refl in K. discriminate.
Qed.

Lemma lookup_some sch n k : lookup_kind sch n = Some k -> In (n, k) sch.
Proof.
  unfold lookup_kind. destruct (find (fun f => fst f =? n) sch) as [(m & k')|] eqn:E; [|discriminate]. intros K. injection K as <-.
  apply find_some in E. destruct E as (H1 & H2). cbn in *. apply Z.eqb_eq in H2. subst. exact H1.
Qed.

Lemma judge_iff sch r : NoDup (map fst sch) -> rec_bytes r -> (judge sch r = Good <-> fits sch r).
Proof.
  intros ND HB. destruct r as (n & w). unfold judge, fits. cbn [fst snd] in *. unfold rec_bytes in HB. cbn [snd] in HB.
  destruct (lookup_kind sch n) as [k|] eqn:EK.
  - pose proof (lookup_some _ _ _ EK) as HIn.
    assert (U : forall k', In (n, k') sch -> k' = k).
    { intros k' Hk'. apply (lookup_in sch n k' ND) in Hk'. congruence. }
    split.
    + intros J k' Hk'. rewrite (U k' Hk'). destruct k, w; auto.
      * destruct (utf8_valid b) eqn:E; [apply utf8_iff; exact E|discriminate].
      * destruct (unpack (length b) b) as [l|] eqn:E; [exists l; apply (unpack_sound (length b)); assumption|discriminate].
      * destruct (chk b); [reflexivity|discriminate].
      * destruct (chk b); [reflexivity|discriminate].
    + intros H. specialize (H k HIn). destruct k, w; auto.
      * apply utf8_iff in H. rewrite H. reflexivity.
      * destruct H as (l & H). rewrite (unpack_complete b l H HB) by lia. reflexivity.
      * rewrite H. reflexivity.
      * rewrite H. reflexivity.
  - split; [|reflexivity]. intros _ k Hk. exfalso. exact (lookup_none _ _ EK _ Hk).
Qed.

Lemma cut_spec sch rs : NoDup (map fst sch) -> Forall rec_bytes rs ->
  (snd (cut sch rs) = true <-> Forall (fits sch) rs) /\ (snd (cut sch rs) = true -> fst (cut sch rs) = rs).
Proof.
  intros ND. induction 1 as [|r rs Hr Hs IH]; [split; [split; [constructor|reflexivity]|reflexivity]|].
  destruct IH as (IH1 & IH2). cbn [cut]. pose proof (judge_iff sch r ND Hr) as J. destruct (judge sch r) eqn:EJ.
  - destruct (cut sch rs) as (l & ok) eqn:EC. cbn [fst snd] in *. split.
    + rewrite IH1. split; [intros K; constructor; [apply J; reflexivity|exact K]|intros K; inversion K; assumption].
    + intros K. rewrite (IH2 K). reflexivity.
  - cbn. split; [|discriminate]. split; [discriminate|]. intros K. inversion K as [|? ? K1]; subst. apply J in K1. discriminate.
  - cbn. split; [|discriminate]. split; [discriminate|]. intros K. inversion K as [|? ? K1]; subst. apply J in K1. discriminate.
Qed.

Lemma last_spec {A} (sel : wire -> A -> Prop) (f : wire -> list A) n (d : A) (rs : list rec) :
  (forall w, match f w with [] => forall v, ~ sel w v | [v] => sel w v | _ => False end) ->
  last_value sel n rs d (last (flat_map (fun r => if fst r =? n then f (snd r) else []) rs) d).
Proof.
  intros Hf. induction rs as [|(m & w) rs IH] using rev_ind; [right; split; [reflexivity|intros w' v' []]|].
  rewrite flat_map_app. cbn [flat_map fst snd]. rewrite app_nil_r.
  assert (skip : (m = n -> forall v, ~ sel w v) -> last_value sel n rs d (last (flat_map (fun r => if fst r =? n then f (snd r) else []) rs) d) ->
    last_value sel n (rs ++ [(m, w)]) d (last (flat_map (fun r => if fst r =? n then f (snd r) else []) rs) d)).
  { intros Hs [(pre & w0 & post & E & H1 & H2)|(E & H2)].
    - left. exists pre, w0, (post ++ [(m, w)]). split; [rewrite E, <- app_assoc; reflexivity|]. split; [exact H1|].
      intros w' v' Hin. apply in_app_or in Hin. destruct Hin as [Hin|[Hin|[]]]; [eapply H2; exact Hin|]. injection Hin as -> ->. apply Hs. reflexivity.
    - right. split; [exact E|]. intros w' v' Hin. apply in_app_or in Hin. destruct Hin as [Hin|[Hin|[]]]; [eapply H2; exact Hin|].
      injection Hin as -> ->. apply Hs. reflexivity. }
  destruct (Z.eqb_spec m n) as [->|N].
  - specialize (Hf w). destruct (f w) as [|v [|? ?]]; [| |contradiction].
    + rewrite app_nil_r. apply skip; [auto|exact IH].
    + rewrite last_last. left. exists rs, w, []. split; [reflexivity|]. split; [exact Hf|intros w' v' []].
  - rewrite app_nil_r. apply skip; [congruence|exact IH].
Qed.

Lemma values_spec {A} (sel : wire -> list A -> Prop) (f : wire -> list A) n (rs : list rec) :
  (forall w, In (n, w) rs -> sel w (f w) \/ ((forall l, ~ sel w l) /\ f w = [])) ->
  values sel n rs (flat_map (fun r => if fst r =? n then f (snd r) else []) rs).
Proof.
  induction rs as [|(m & w) rs IH]; intros Hf; [constructor|]. cbn [flat_map fst snd].
  assert (IH' := IH (fun w' H => Hf w' (or_intror H))).
  destruct (Z.eqb_spec m n) as [->|N]; [|constructor; [left; exact N|exact IH']].
  destruct (Hf w (or_introl eq_refl)) as [H|(H1 & H2)].
  - constructor; assumption.
  - rewrite H2. cbn [app]. constructor; [right; exact H1|exact IH'].
Qed.

Lemma lens_flat n rs : lens n rs = flat_map (fun r => if fst r =? n then match snd r with WLen b => [b] | _ => [] end else []) rs.
Proof. unfold lens. apply flat_map_ext. intros (m & w). cbn [fst snd]. destruct w; destruct (m =? n); reflexivity. Qed.

Lemma nums_flat n rs : nums n rs = flat_map (fun r => if fst r =? n then match snd r with WVarint b => [b] | _ => [] end else []) rs.
Proof. unfold nums. apply flat_map_ext. intros (m & w). cbn [fst snd]. destruct w; destruct (m =? n); reflexivity. Qed.

Lemma field_spec sch n k rs : In (n, k) sch -> Forall rec_bytes rs -> (k = KRepU32 -> forall w, In (n, w) rs -> fits sch (n, w)) -> field_is n k rs (field n k rs).
Proof.
  intros HIn HB HF. assert (HL : last_value sel_bytes n rs [] (last (lens n rs) [])).
  { rewrite lens_flat. apply (last_spec sel_bytes (fun w => match w with WLen b => [b] | _ => [] end)). intros w. unfold sel_bytes. destruct w; try discriminate. reflexivity. }
  assert (HN : last_value sel_int n rs 0 (last (nums n rs) 0)).
  { rewrite nums_flat. apply (last_spec sel_int (fun w => match w with WVarint b => [b] | _ => [] end)). intros w. unfold sel_int. destruct w; try discriminate. reflexivity. }
  assert (HV : values sel_one n rs (lens n rs)).
  { rewrite lens_flat. apply (values_spec sel_one (fun w => match w with WLen b => [b] | _ => [] end)). intros w _. unfold sel_one.
    destruct w; try (right; split; [intros l (b' & E & _); discriminate|reflexivity]). left. exists b. auto. }
  destruct k; cbn [field field_is]; eauto.
  - eexists. split; [reflexivity|]. unfold packed.
    apply (values_spec sel_ints (fun w => match w with WVarint v => [v] | WLen b => match unpack (length b) b with Some l => l | None => [] end | _ => [] end)).
    intros w Hw. rewrite Forall_forall in HB. specialize (HB _ Hw). unfold rec_bytes in HB. cbn [snd] in HB. unfold sel_ints.
    specialize (HF eq_refl w Hw KRepU32 HIn). cbn [snd] in HF.
    destruct w; try (right; split; [intros l [(v' & E & _)|(b' & E & _)]; discriminate|reflexivity]).
    + left. left. exists v. auto.
    + left. right. exists b. split; [reflexivity|]. destruct HF as (l & HF). rewrite (unpack_complete b l HF HB) by lia. exact HF.
  - exists (lens n rs). split; [|exact HV]. destruct (lens n rs); reflexivity.
Qed.

Definition nested (sch : schema) (r : rec) : Prop := exists chk b, In (fst r, KMsg chk) sch /\ snd r = WLen b.

Lemma cut_fail sch rs : NoDup (map fst sch) -> Forall rec_bytes rs -> snd (cut sch rs) = false ->
  exists pre r post, rs = pre ++ r :: post /\ Forall (fits sch) pre /\ ~ fits sch r /\
    ((nested sch r /\ fst (cut sch rs) = pre ++ [r]) \/ (~ nested sch r /\ fst (cut sch rs) = pre)).
Proof.
  intros ND. induction 1 as [|r rs Hr Hs IH]; [discriminate|]. cbn [cut].
  pose proof (judge_iff sch r ND Hr) as J. destruct (judge sch r) eqn:EJ.
  - destruct (cut sch rs) as (l & ok) eqn:EC. cbn [fst snd] in *. intros ->. destruct (IH eq_refl) as (pre & r' & post & -> & H1 & H2 & H3).
    exists (r :: pre), r', post. split; [reflexivity|]. split; [constructor; [apply J; reflexivity|exact H1]|]. split; [exact H2|].
    destruct H3 as [(H3 & ->)|(H3 & ->)]; [left|right]; auto.
  - intros _. exists [], r, rs. split; [reflexivity|]. split; [constructor|]. split; [intros K; apply J in K; discriminate|].
    right. split; [|reflexivity]. intros (chk & b & H1 & H2). unfold judge in EJ. rewrite (lookup_in sch _ _ ND H1), H2 in EJ.
    destruct (chk b); discriminate.
  - intros _. exists [], r, rs. split; [reflexivity|]. split; [constructor|]. split; [intros K; apply J in K; discriminate|].
    left. split; [|reflexivity]. unfold judge in EJ. destruct (lookup_kind sch (fst r)) as [k|] eqn:EK; [|discriminate].
    apply lookup_some in EK. destruct k, (snd r) eqn:EW; try discriminate.
    + destruct (utf8_valid b); discriminate.
    + destruct (unpack (length b) b); discriminate.
    + exists chk, b. auto.
    + destruct (chk b); discriminate.
Qed.

Lemma fields_spec sch rs : NoDup (map fst sch) -> Forall rec_bytes rs ->
  (forall n w, In (n, KRepU32) sch -> In (n, w) rs -> fits sch (n, w)) ->
  Forall2 (fun f v => field_is (fst f) (snd f) rs v) sch (map (fun f => field (fst f) (snd f) rs) sch).
Proof.
  intros ND HB HF.
  assert (H : forall l, (forall f, In f l -> In f sch) -> Forall2 (fun f v => field_is (fst f) (snd f) rs v) l (map (fun f => field (fst f) (snd f) rs) l)).
  { induction l as [|(n & k) l IH]; intros Hl; cbn [map]; constructor.
    - cbn [fst snd]. apply (field_spec sch); [apply Hl; left; reflexivity|exact HB|]. intros -> w Hw. apply HF; [apply Hl; left; reflexivity|exact Hw].
    - apply IH. intros f Hf. apply Hl. right. exact Hf. }
  apply H. auto.
Qed.
