(** Proofs about text forms. *)

Require Import String Ascii DecimalString DecimalN ZArith NArith List Bool Lia.
From Verif Require Import Fr CodecModel GoBase Bytes GroupModel PartyModel FftModel TextModel.
Import ListNotations.

(** ** Decimal forms *)

Definition digit (c : ascii) : Prop := (48 <= nat_of_ascii c <= 57)%nat.

Lemma lit_inj s t : lit s = lit t -> s = t.
Proof.
  unfold lit. intros H. rewrite <- (string_of_list_ascii_of_string s), H.
  apply string_of_list_ascii_of_string.
Qed.

Lemma to_uint_not_nil n : N.to_uint n <> Decimal.Nil.
Proof.
  intros E. pose proof (Unsigned.of_to n) as H. rewrite E in H. cbn in H. subst n.
  cbn in E. discriminate.
Qed.

Lemma decimal_inj m n : decimal m = decimal n -> m = n.
Proof.
  unfold decimal. intros H. apply lit_inj in H.
  pose proof (NilZero.usu _ (to_uint_not_nil m)) as A.
  pose proof (NilZero.usu _ (to_uint_not_nil n)) as B.
  rewrite H, B in A. injection A as A. apply Unsigned.to_uint_inj. symmetry. exact A.
Qed.

Lemma empty_digits d : Forall digit (lit (NilEmpty.string_of_uint d)).
Proof.
  induction d; cbn; constructor; try assumption; unfold digit; cbn; lia.
Qed.

Lemma decimal_digits n : Forall digit (decimal n).
Proof.
  unfold decimal, NilZero.string_of_uint. destruct (N.to_uint n) eqn:E.
  - constructor; [unfold digit; cbn; lia|constructor].
  - rewrite <- E. apply empty_digits.
  - rewrite <- E. apply empty_digits.
  - rewrite <- E. apply empty_digits.
  - rewrite <- E. apply empty_digits.
  - rewrite <- E. apply empty_digits.
  - rewrite <- E. apply empty_digits.
  - rewrite <- E. apply empty_digits.
  - rewrite <- E. apply empty_digits.
  - rewrite <- E. apply empty_digits.
  - rewrite <- E. apply empty_digits.
Qed.

Lemma FrStr_inj a b : FrStr a = FrStr b -> a = b.
Proof.
  unfold FrStr. intros H. apply decimal_inj in H.
  apply Fr_ext. pose proof (fv_range a). pose proof (fv_range b).
  apply Z2N.inj in H; lia.
Qed.

Definition sp : ascii := " "%char.

Lemma not_digit_sp : ~ digit sp.
Proof. unfold digit, sp. cbn. lia. Qed.

Lemma split_digits : forall a b x y, Forall digit a -> Forall digit b ->
  a ++ sp :: x = b ++ sp :: y -> a = b /\ x = y.
Proof.
  induction a as [|c a IH]; intros [|d b] x y Ha Hb E; cbn in E.
  - injection E as E. auto.
  - inversion Hb; subst. injection E as E1 E2. subst d. destruct (not_digit_sp H1).
  - inversion Ha; subst. injection E as E1 E2. subst c. destruct (not_digit_sp H1).
  - injection E as E1 E2. inversion Ha; inversion Hb; subst.
    destruct (IH b x y H2 H6 E2) as (-> & ->). auto.
Qed.

(** ** Printed polynomials *)

(** One printed term, with the separator that follows it. *)
Definition piece (ci : Fr * nat) : text :=
  FrStr (fst ci) ++ lit " x^" ++ decimal (N.of_nat (snd ci)) ++ lit " + ".

(** The non-zero terms of positive degree, highest first. *)
Definition terms (p : list Fr) : list (Fr * nat) :=
  flat_map (fun i => if feqb (nth i p f0) f0 then [] else [(nth i p f0, i)]) (rev (seq 1 (List.length p - 1))).

Lemma fold_pieces {A} (f : A -> text) (body : text -> A -> text) : forall l s,
  (forall s i, body s i = s ++ f i) -> fold_left body l s = s ++ flat_map f l.
Proof.
  induction l as [|a l IH]; intros s H; cbn.
  - rewrite app_nil_r. reflexivity.
  - rewrite IH by exact H. rewrite H, app_assoc. reflexivity.
Qed.

Lemma flat_map_flat_map {A B C} (f : A -> list B) (g : B -> list C) l :
  flat_map g (flat_map f l) = flat_map (fun a => flat_map g (f a)) l.
Proof.
  induction l as [|a l IH]; [reflexivity|]. cbn. rewrite flat_map_app, IH. reflexivity.
Qed.

Lemma flat_map_ext_in {A B} (f g : A -> list B) l :
  (forall a, In a l -> f a = g a) -> flat_map f l = flat_map g l.
Proof.
  induction l as [|a l IH]; intros H; [reflexivity|]. cbn.
  rewrite H by (left; reflexivity). rewrite IH; [reflexivity|]. intros b Hb. apply H. right. exact Hb.
Qed.

Lemma print_ok p : p <> [] ->
  PolyToString p = flat_map piece (terms p) ++ FrStr (nth 0 p f0).
Proof.
  intros Hp. destruct p as [|c p]; [congruence|]. set (q := c :: p) in *.
  unfold PolyToString, loop_down.
  rewrite (fold_pieces (fun i =>
     if negb (i =? 0)%nat && feqb (nth i q f0) f0 then []
     else if (0 <? i)%nat then FrStr (nth i q f0) ++ lit " x^" ++ decimal (N.of_nat i) ++ lit " + "
     else FrStr (nth i q f0))).
  2: { intros s i. destruct (negb (i =? 0)%nat && feqb (nth i q f0) f0).
       - rewrite app_nil_r. reflexivity.
       - destruct (0 <? i)%nat; reflexivity. }
  cbn [List.app]. unfold terms.
  replace (List.length q) with (Datatypes.S (List.length p)) by reflexivity.
  replace (Datatypes.S (List.length p) - 1) with (List.length p) by lia.
  cbn [seq rev]. rewrite flat_map_app. f_equal.
  - rewrite flat_map_flat_map. apply flat_map_ext_in. intros i Hi.
    apply in_rev in Hi. apply in_seq in Hi.
    destruct i as [|i]; [lia|]. cbn [Nat.eqb negb andb Nat.ltb Nat.leb].
    destruct (feqb (nth (Datatypes.S i) q f0) f0); [reflexivity|].
    cbn [flat_map]. rewrite app_nil_r. reflexivity.
  - cbn [flat_map Nat.eqb negb andb Nat.ltb Nat.leb]. rewrite app_nil_r. reflexivity.
Qed.

Lemma terms_in p c i : In (c, i) (terms p) <-> (0 < i)%nat /\ c = nth i p f0 /\ c <> f0.
Proof.
  unfold terms. rewrite in_flat_map. split.
  - intros (k & Hk & H). apply in_rev in Hk. apply in_seq in Hk.
    destruct (feqb (nth k p f0) f0) eqn:E; [destruct H|].
    destruct H as [H|[]]. injection H as H1 H2. subst. apply feqb_neq in E. split; [lia|]. auto.
  - intros (Hi & Hc & Hn). exists i. split.
    + apply -> in_rev. apply in_seq. destruct (Nat.lt_ge_cases i (List.length p)); [lia|].
      rewrite nth_overflow in Hc by lia. congruence.
    + apply feqb_neq in Hn. rewrite <- Hc, Hn. left. reflexivity.
Qed.

Lemma no_space d : Forall digit d -> ~ In sp d.
Proof.
  intros H I. apply not_digit_sp. rewrite Forall_forall in H. apply H. exact I.
Qed.

Lemma pieces_inj : forall ts us a b,
  flat_map piece ts ++ FrStr a = flat_map piece us ++ FrStr b -> ts = us /\ a = b.
Proof.
  assert (P : forall c i rest, piece (c, i) ++ rest =
              FrStr c ++ sp :: (lit "x^" ++ decimal (N.of_nat i) ++ sp :: (lit "+ " ++ rest))).
  { intros. unfold piece. cbn [fst snd]. rewrite <- !app_assoc. reflexivity. }
  induction ts as [|[c i] ts IH]; intros [|[d j] us] a b E; cbn [flat_map List.app] in E.
  - split; [reflexivity|]. apply FrStr_inj. exact E.
  - rewrite <- app_assoc, P in E. exfalso.
    apply (no_space (FrStr a)); [apply decimal_digits|]. rewrite E. apply in_elt.
  - rewrite <- app_assoc, P in E. exfalso.
    apply (no_space (FrStr b)); [apply decimal_digits|]. rewrite <- E. apply in_elt.
  - rewrite <- !app_assoc, !P in E.
    apply split_digits in E; [|apply decimal_digits|apply decimal_digits].
    destruct E as (E1 & E2). apply FrStr_inj in E1. subst d.
    cbn [lit list_ascii_of_string List.app] in E2. injection E2 as E2.
    apply split_digits in E2; [|apply decimal_digits|apply decimal_digits].
    destruct E2 as (E2 & E3). apply decimal_inj in E2. apply Nat2N.inj in E2. subst j.
    injection E3 as E3.
    destruct (IH us a b E3) as (-> & ->). auto.
Qed.

(** ** Sample vectors *)

Lemma samples_ok w : forall idxs vals ans,
  List.length ans = w -> List.length idxs = List.length vals ->
  Forall (fun e => 0 <= e < Z.of_nat w)%Z idxs ->
  exists out,
    gofold (fun a (ev : Z * Fr) => if (fst ev <? 0)%Z then Panic else upd a (Z.to_nat (fst ev)) (Some (snd ev)))
           (combine idxs vals) ans = Ret out /\
    List.length out = w /\
    forall k, nth k out None =
      fold_left (fun acc (ev : Z * Fr) => if (Z.to_nat (fst ev) =? k)%nat then Some (snd ev) else acc)
                (combine idxs vals) (nth k ans None).
Proof.
  induction idxs as [|e idxs IH]; intros [|v vals] ans L LL H; cbn in LL; try discriminate.
  - exists ans. cbn. auto.
  - inversion H as [|? ? He Hr]; subst. cbn [combine gofold fst snd].
    rewrite (proj2 (Z.ltb_ge _ _)) by lia.
    unfold upd. rewrite (proj2 (Nat.ltb_lt _ _)) by lia. cbn [bind].
    destruct (IH vals (set_nth (Z.to_nat e) (Some v) ans)) as (out & E & Lo & N).
    + apply length_set_nth.
    + lia.
    + exact Hr.
    + exists out. split; [exact E|]. split; [exact Lo|]. intros k. rewrite N. cbn [fold_left fst snd].
      f_equal. rewrite nth_set_nth. rewrite (proj2 (Nat.ltb_lt (Z.to_nat e) _)) by lia.
      rewrite andb_true_r. reflexivity.
Qed.

Lemma samples_bad w : forall idxs vals ans,
  List.length ans = w -> List.length idxs = List.length vals ->
  Exists (fun e => e < 0 \/ Z.of_nat w <= e)%Z idxs ->
  gofold (fun a (ev : Z * Fr) => if (fst ev <? 0)%Z then Panic else upd a (Z.to_nat (fst ev)) (Some (snd ev)))
         (combine idxs vals) ans = Panic.
Proof.
  induction idxs as [|e idxs IH]; intros [|v vals] ans L LL H; cbn in LL; try discriminate.
  - inversion H.
  - cbn [combine gofold fst snd].
    destruct (Z.ltb_spec e 0) as [?|He]; [reflexivity|].
    unfold upd. destruct (Nat.ltb_spec (Z.to_nat e) (List.length ans)) as [?|?]; [|reflexivity].
    cbn [bind]. apply IH; [rewrite length_set_nth; exact L|lia|].
    inversion H as [? ? Hb|? ? Hb]; subst; [lia|exact Hb].
Qed.

Lemma samples_loop : forall idxs vals ans, List.length idxs = List.length vals ->
  goloop 0 (List.length idxs) (fun ans i =>
         e <- idx idxs i ;;
         v <- idx vals i ;;
         if (e <? 0)%Z then Panic else upd ans (Z.to_nat e) (Some v)) ans =
  gofold (fun a (ev : Z * Fr) => if (fst ev <? 0)%Z then Panic else upd a (Z.to_nat (fst ev)) (Some (snd ev)))
         (combine idxs vals) ans.
Proof.
  unfold goloop.
  enough (G : forall pi pv idxs vals ans, List.length pi = List.length pv ->
     List.length idxs = List.length vals ->
     gofold (fun ans i => e <- idx (pi ++ idxs) i ;; v <- idx (pv ++ vals) i ;;
         if (e <? 0)%Z then Panic else upd ans (Z.to_nat e) (Some v)) (seq (List.length pi) (List.length idxs)) ans =
     gofold (fun a (ev : Z * Fr) => if (fst ev <? 0)%Z then Panic else upd a (Z.to_nat (fst ev)) (Some (snd ev)))
         (combine idxs vals) ans).
  { intros idxs vals ans L. apply (G [] []); [reflexivity|exact L]. }
  intros pi pv idxs. revert pi pv.
  induction idxs as [|e idxs IH]; intros pi pv [|v vals] ans Lp L; cbn in L; try discriminate; [reflexivity|].
  cbn [List.length seq combine gofold fst snd].
  unfold idx at 1 2. rewrite !nth_error_app2 by lia. rewrite <- Lp, Nat.sub_diag. cbn [nth_error bind].
  destruct (e <? 0)%Z; [reflexivity|]. destruct (upd ans (Z.to_nat e) (Some v)) as [a'| | |]; cbn [bind]; try reflexivity.
  specialize (IH (pi ++ [e]) (pv ++ [v]) vals a').
  rewrite !app_length in IH. cbn [List.length] in IH.
  replace (List.length pi + 1) with (Datatypes.S (List.length pi)) in IH by lia.
  rewrite <- !app_assoc in IH. cbn [List.app] in IH. apply IH; lia.
Qed.

(** The value that a key holds after a list of assignments is that of the last one. *)
Lemma fold_last_some k v : forall (l : list (Z * Fr)) acc,
  fold_left (fun acc (ev : Z * Fr) => if (Z.to_nat (fst ev) =? k)%nat then Some (snd ev) else acc) l acc = Some v <->
  (exists l1 e l2, l = l1 ++ (e, v) :: l2 /\ Z.to_nat e = k /\ Forall (fun ev => Z.to_nat (fst ev) <> k) l2) \/
  (acc = Some v /\ Forall (fun ev => Z.to_nat (fst ev) <> k) l).
Proof.
  induction l as [|[e u] l IH]; intros acc; cbn [fold_left fst snd].
  - split.
    + intros H. right. split; [exact H|constructor].
    + intros [(l1 & e & l2 & H & _)|(H & _)]; [destruct l1; discriminate|exact H].
  - rewrite IH. destruct (Nat.eqb_spec (Z.to_nat e) k) as [Ek|Ek].
    + split.
      * intros [(l1 & e' & l2 & H & H2 & H3)|(H & H2)].
        -- left. exists ((e, u) :: l1), e', l2. rewrite H. auto.
        -- left. injection H as H. subst u. exists [], e, l. auto.
      * intros [(l1 & e' & l2 & H & H2 & H3)|(H & H2)].
        -- destruct l1 as [|x l1]; injection H as Hx Hl.
           ++ subst. right. auto.
           ++ left. exists l1, e', l2. auto.
        -- inversion H2; subst. cbn in *. congruence.
    + split.
      * intros [(l1 & e' & l2 & H & H2 & H3)|(H & H2)].
        -- left. exists ((e, u) :: l1), e', l2. rewrite H. auto.
        -- right. split; [exact H|]. constructor; assumption.
      * intros [(l1 & e' & l2 & H & H2 & H3)|(H & H2)].
        -- destruct l1 as [|x l1]; injection H as Hx Hl.
           ++ subst. congruence.
           ++ left. exists l1, e', l2. auto.
        -- inversion H2; subst. right. auto.
Qed.

(** ** Hexadecimal *)

Lemma fromhex_hexdigit d : (0 <= d < 16)%Z -> fromhex (hexdigit d) = Some d.
Proof.
  intros H. assert (C : In d (map Z.of_nat (seq 0 16))).
  { rewrite in_map_iff. exists (Z.to_nat d). split; [lia|]. apply in_seq. lia. }
  cbn in C. repeat (destruct C as [C|C]; [subst d; reflexivity|]). destruct C.
Qed.

Lemma fromhex_range c d : fromhex c = Some d -> (0 <= d < 16)%Z.
Proof.
  unfold fromhex. intros H.
  repeat match type of H with context [if ?b then _ else _] => destruct b eqn:?; cbn [andb] in * end;
    try discriminate; injection H as <-;
    repeat match goal with E : (_ && _)%bool = true |- _ => apply andb_true_iff in E; destruct E end; lia.
Qed.

Lemma decode_encode b : is_bytes b -> DecodeString (EncodeToString b) = Ret b.
Proof.
  induction 1 as [|x b Hx H IH]; [reflexivity|].
  cbn [EncodeToString flat_map List.app DecodeString]. unfold is_byte in Hx.
  rewrite !fromhex_hexdigit.
  - fold (EncodeToString b). rewrite IH. cbn [bind]. f_equal. f_equal.
    pose proof (Z.div_mod x 16 ltac:(lia)). lia.
  - apply Z.mod_pos_bound. lia.
  - split; [apply Z.div_pos; lia|apply Z.div_lt_upper_bound; lia].
Qed.

(** Exactly the texts of even length with hexadecimal digits are read. *)
Lemma decode_accepts : forall n t, List.length t = n ->
  ((exists b, DecodeString t = Ret b) <->
   Nat.Even (List.length t) /\ Forall (fun c => fromhex c <> None) t).
Proof.
  induction n as [n IH] using (well_founded_induction Wf_nat.lt_wf). intros t L.
  destruct t as [|a [|b t]]; cbn [DecodeString].
  - split; [intros _; split; [exists 0; reflexivity|constructor]|eexists; reflexivity].
  - split; [intros (b & H); discriminate|intros ((k & H) & _); cbn in H; lia].
  - cbn [List.length] in *.
    specialize (IH (List.length t) ltac:(lia) t eq_refl).
    split.
    + intros (out & H). destruct (fromhex a) eqn:Ea; [|discriminate].
      destruct (fromhex b) eqn:Eb; [|discriminate].
      destruct (DecodeString t) as [u| | |] eqn:Et; cbn in H; try discriminate.
      destruct (proj1 IH (ex_intro _ u eq_refl)) as ((k & Hk) & HF).
      split; [exists (Datatypes.S k); lia|]. constructor; [congruence|]. constructor; [congruence|exact HF].
    + intros ((k & Hk) & HF). inversion HF as [|? ? Ha HF']; subst. inversion HF' as [|? ? Hb HF'']; subst.
      destruct (proj2 IH) as (u & Hu).
      { split; [exists (k - 1); lia|exact HF'']. }
      destruct (fromhex a); [|congruence]. destruct (fromhex b); [|congruence].
      rewrite Hu. cbn. eexists. reflexivity.
Qed.

Lemma decode_not_panic : forall n t, List.length t = n ->
  DecodeString t = Error \/ exists b, DecodeString t = Ret b.
Proof.
  induction n as [n IH] using (well_founded_induction Wf_nat.lt_wf). intros t L.
  destruct t as [|a [|b t]]; cbn [DecodeString]; [right; eexists; reflexivity|left; reflexivity|].
  destruct (fromhex a); [|left; reflexivity]. destruct (fromhex b); [|left; reflexivity].
  cbn [List.length] in L. destruct (IH (List.length t) ltac:(lia) t eq_refl) as [E|(u & E)]; rewrite E; cbn.
  - left; reflexivity.
  - right; eexists; reflexivity.
Qed.

(** ** Lines *)

Fixpoint join (ls : list text) : text :=
  match ls with
  | [] => []
  | [l] => l
  | l :: ls' => l ++ newline :: join ls'
  end.

Lemma split_not_nil t : split_lines t <> [].
Proof.
  destruct t as [|c t]; cbn [split_lines]; [discriminate|]. destruct (Ascii.eqb c newline); [discriminate|].
  destruct (split_lines t); discriminate.
Qed.

Lemma split_plain l : ~ In newline l -> split_lines l = [l].
Proof.
  induction l as [|c l IH]; intros H; [reflexivity|]. cbn [split_lines].
  destruct (Ascii.eqb_spec c newline) as [E|E]; [destruct H; left; exact E|].
  rewrite IH; [reflexivity|]. intros I. apply H. right. exact I.
Qed.

Lemma split_first l t : ~ In newline l -> split_lines (l ++ newline :: t) = l :: split_lines t.
Proof.
  induction l as [|c l IH]; intros H; cbn [split_lines List.app].
  - rewrite Ascii.eqb_refl. reflexivity.
  - destruct (Ascii.eqb_spec c newline) as [E|E]; [destruct H; left; exact E|].
    rewrite IH; [reflexivity|]. intros I. apply H. right. exact I.
Qed.

Lemma split_join ls : ls <> [] -> Forall (fun l => ~ In newline l) ls -> split_lines (join ls) = ls.
Proof.
  induction ls as [|l ls IH]; intros Hn H; [congruence|].
  inversion H as [|? ? Hl Hr]; subst. destruct ls as [|m ls].
  - apply split_plain. exact Hl.
  - change (join (l :: m :: ls)) with (l ++ newline :: join (m :: ls)).
    rewrite split_first by exact Hl. rewrite IH; [reflexivity|discriminate|exact Hr].
Qed.

Lemma split_lines_plain t : Forall (fun l => ~ In newline l) (split_lines t).
Proof.
  induction t as [|c t IH]; cbn [split_lines].
  - constructor; [intros []|constructor].
  - destruct (Ascii.eqb_spec c newline) as [E|E].
    + constructor; [intros []|exact IH].
    + destruct (split_lines t) as [|l ls]; [constructor; [|constructor]; intros [H|[]]; auto|].
      inversion IH; subst. constructor; [|assumption]. intros [H|H]; auto.
Qed.

Lemma join_split t : join (split_lines t) = t.
Proof.
  induction t as [|c t IH]; [reflexivity|]. cbn [split_lines].
  destruct (Ascii.eqb_spec c newline) as [E|E].
  - subst c. pose proof (split_not_nil t). destruct (split_lines t) as [|l l0] eqn:S; [congruence|].
    change (newline :: join (l :: l0) = newline :: t). rewrite IH. reflexivity.
  - destruct (split_lines t) as [|l ls] eqn:S; [destruct (split_not_nil t S)|].
    destruct ls as [|m ls]; cbn in *; rewrite IH; reflexivity.
Qed.

(** ** The decimal form has the right value and no leading zero *)

Local Open Scope N_scope.

Definition read (t : text) (acc : N) : N := fold_left (fun a c => 10 * a + (N_of_ascii c - 48)) t acc.

Lemma read_pos : forall d p, read (lit (NilEmpty.string_of_uint d)) (Npos p) = Npos (Pos.of_uint_acc d p).
Proof.
  induction d; intros p; [reflexivity|..]; cbn [NilEmpty.string_of_uint lit list_ascii_of_string Pos.of_uint_acc];
    match goal with |- read (?c :: ?l) ?a = _ =>
      change (read (c :: l) a) with (read l (10 * a + (N_of_ascii c - 48))) end;
    fold (lit (NilEmpty.string_of_uint d)); rewrite <- IHd; f_equal;
    match goal with |- context [N_of_ascii ?c] => let v := eval vm_compute in (N_of_ascii c - 48) in change (N_of_ascii c - 48) with v end; lia.
Qed.

Lemma read_zero : forall d, read (lit (NilEmpty.string_of_uint d)) 0 = Pos.of_uint d.
Proof.
  induction d; [reflexivity|..]; cbn [NilEmpty.string_of_uint lit list_ascii_of_string Pos.of_uint];
    match goal with |- read (?c :: ?l) ?a = _ =>
      change (read (c :: l) a) with (read l (10 * a + (N_of_ascii c - 48))) end;
    fold (lit (NilEmpty.string_of_uint d)).
  - exact IHd.
  - apply read_pos.
  - apply read_pos.
  - apply read_pos.
  - apply read_pos.
  - apply read_pos.
  - apply read_pos.
  - apply read_pos.
  - apply read_pos.
  - apply read_pos.
Qed.

Lemma read_decimal n : read (decimal n) 0 = n.
Proof.
  unfold decimal, NilZero.string_of_uint. pose proof (to_uint_not_nil n) as H.
  pose proof (Unsigned.of_to n) as O. unfold N.of_uint in O.
  rewrite <- O at 2. rewrite <- read_zero.
  destruct (N.to_uint n); [congruence|reflexivity..].
Qed.

Lemma nzhead_not_zero d e : Decimal.nzhead d <> Decimal.D0 e.
Proof. induction d; cbn; try discriminate. exact IHd. Qed.

Lemma decimal_no_leading_zero n rest : decimal n = "0"%char :: rest -> n = 0.
Proof.
  unfold decimal, NilZero.string_of_uint. intros H.
  pose proof (Unsigned.of_to n) as O. pose proof (f_equal N.to_uint O) as T.
  rewrite Unsigned.to_of in T.
  destruct (N.to_uint n) as [|d|d|d|d|d|d|d|d|d|d] eqn:E; try (cbn in H; discriminate).
  - cbn [Decimal.unorm Decimal.nzhead] in T. unfold Decimal.unorm in T. cbn [Decimal.nzhead] in T.
    destruct (Decimal.nzhead d) eqn:Z.
    + injection T as T. subst d. rewrite <- O. reflexivity.
    + destruct (nzhead_not_zero d _ Z).
    + discriminate.
    + discriminate.
    + discriminate.
    + discriminate.
    + discriminate.
    + discriminate.
    + discriminate.
    + discriminate.
    + discriminate.
Qed.
