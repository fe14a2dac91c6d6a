(** C47 (printing and sample vectors), C59 (text form of points), C60 (address lists). *)

Require Import String Ascii ZArith NArith List Bool Lia.
From Verif Require Import Fr Poly GoBase Bytes CodecModel CodecProofs GroupModel PartyModel FftModel FftProofs2
  TextModel TextProofs.
Import ListNotations.

(** ** C47 Printing

    Specification: the printed form is the sum, from the highest degree down, of the
    terms with a non-zero coefficient, and the constant. *)

Fixpoint separated (sep : text) (l : list text) : text :=
  match l with [] => [] | [t] => t | t :: l' => t ++ sep ++ separated sep l' end.

(** Number read from decimal digits. *)
Definition number (t : text) : N := fold_left (fun a c => (10 * a + (N_of_ascii c - 48))%N) t 0%N.

(** [t] is the decimal form of [n]: digits only, right value, no leading zero. *)
Definition decimal_of (t : text) (n : N) : Prop :=
  Forall (fun c => 48 <= nat_of_ascii c <= 57)%nat t /\ number t = n /\ t <> [] /\
  (forall rest, t = "0"%char :: rest -> n = 0%N).

(** One term: coefficient, "x^", degree; the constant has the coefficient only. *)
Definition term_text (p : list Fr) (i : nat) (t : text) : Prop :=
  exists c, decimal_of c (Z.to_N (fv (nth i p f0))) /\
  (i = 0%nat /\ t = c \/
   exists d, (0 < i)%nat /\ decimal_of d (N.of_nat i) /\ t = c ++ lit " x^" ++ d).

(** Degrees that are printed, in order. *)
Definition shown (p : list Fr) (ds : list nat) : Prop :=
  (exists high, ds = high ++ [0%nat]) /\
  (forall i j, (i < j < List.length ds)%nat -> (nth j ds 0 < nth i ds 0)%nat) /\
  (forall d, In d ds <-> d = 0%nat \/ nth d p f0 <> f0).

Lemma decimal_ok n : decimal_of (decimal n) n.
Proof.
  split; [apply decimal_digits|]. split; [apply read_decimal|]. split.
  - intros E. pose proof (to_uint_not_nil n) as N. unfold decimal, DecimalString.NilZero.string_of_uint in E.
    destruct (N.to_uint n); cbn in E; congruence.
  - apply decimal_no_leading_zero.
Qed.

Definition term_of (ci : Fr * nat) : text := FrStr (fst ci) ++ lit " x^" ++ decimal (N.of_nat (snd ci)).

Lemma separated_pieces ts c :
  flat_map piece ts ++ c = separated (lit " + ") (map term_of ts ++ [c]).
Proof.
  induction ts as [|[d i] ts IH]; [reflexivity|].
  cbn [flat_map map List.app]. rewrite <- app_assoc, IH.
  assert (C : exists t l, map term_of ts ++ [c] = t :: l).
  { destruct ts; cbn; eauto. }
  destruct C as (t & l & C). rewrite C. cbn [separated].
  unfold piece, term_of. cbn [fst snd]. rewrite <- !app_assoc. reflexivity.
Qed.

Lemma rev_seq_nth lo n i : (i < n)%nat -> nth i (rev (seq lo n)) 0%nat = (lo + (n - 1 - i))%nat.
Proof.
  intros H. rewrite rev_nth by (rewrite seq_length; exact H). rewrite seq_length, seq_nth by lia. lia.
Qed.

(** A filtered decreasing list is decreasing. *)
Inductive decr : list nat -> Prop :=
| decr_nil : decr []
| decr_cons a l : (forall b, In b l -> (b < a)%nat) -> decr l -> decr (a :: l).

Lemma decr_rev_seq lo n : decr (rev (seq lo n)).
Proof.
  induction n as [|n IH]; [constructor|]. rewrite seq_S, rev_app_distr. cbn. constructor; [|exact IH].
  intros b Hb. apply in_rev in Hb. apply in_seq in Hb. lia.
Qed.

Lemma decr_flat (f : nat -> bool) l : decr l -> decr (flat_map (fun i => if f i then [] else [i]) l).
Proof.
  induction 1 as [|a l H D IH]; cbn; [constructor|]. destruct (f a); [exact IH|].
  cbn. constructor; [|exact IH]. intros b Hb. apply in_flat_map in Hb. destruct Hb as (x & Hx & Hb).
  destruct (f x); [destruct Hb|]. destruct Hb as [<-|[]]. apply H. exact Hx.
Qed.

Lemma decr_snoc l : decr l -> (forall b, In b l -> (0 < b)%nat) -> decr (l ++ [0%nat]).
Proof.
  induction 1 as [|a l H D IH]; intros P; cbn.
  - constructor; [intros b []|constructor].
  - constructor.
    + intros b Hb. apply in_app_or in Hb. destruct Hb as [Hb|[<-|[]]]; [apply H; exact Hb|apply P; left; reflexivity].
    + apply IH. intros b Hb. apply P. right. exact Hb.
Qed.

Lemma decr_nth l : decr l -> forall i j, (i < j < List.length l)%nat -> (nth j l 0 < nth i l 0)%nat.
Proof.
  induction 1 as [|a l H D IH]; intros i j Hij; cbn in Hij; [lia|].
  destruct j as [|j]; [lia|]. destruct i as [|i]; cbn.
  - apply H. apply nth_In. lia.
  - apply IH. lia.
Qed.

Lemma terms_snd p : map snd (terms p) =
  flat_map (fun i => if feqb (nth i p f0) f0 then [] else [i]) (rev (seq 1 (List.length p - 1))).
Proof.
  unfold terms. induction (rev (seq 1 (List.length p - 1))) as [|i l IH]; [reflexivity|].
  cbn. rewrite map_app, IH. destruct (feqb (nth i p f0) f0); reflexivity.
Qed.

Theorem c47_print : forall p, p <> [] ->
  exists ds ts, shown p ds /\ Forall2 (term_text p) ds ts /\ PolyToString p = separated (lit " + ") ts.
Proof.
  intros p Hp. exists (map snd (terms p) ++ [0%nat]), (map term_of (terms p) ++ [FrStr (nth 0 p f0)]).
  assert (S : forall d, In d (map snd (terms p)) <-> (0 < d)%nat /\ nth d p f0 <> f0).
  { intros d. rewrite in_map_iff. split.
    - intros ([c i] & E & H). cbn in E. subst i. apply terms_in in H. destruct H as (H1 & H2 & H3). subst c. auto.
    - intros (H1 & H2). exists (nth d p f0, d). split; [reflexivity|]. apply terms_in. auto. }
  split; [split; [|split]|split].
  - eexists. reflexivity.
  - apply decr_nth. apply decr_snoc.
    + rewrite terms_snd. apply decr_flat. apply decr_rev_seq.
    + intros b Hb. apply S in Hb. tauto.
  - intros d. rewrite in_app_iff, S. cbn. split.
    + intros [(H1 & H2)|[H|[]]]; auto.
    + intros [->|H]; [auto|]. destruct d; [auto|left; split; [lia|exact H]].
  - apply Forall2_app.
    + assert (A : forall c i, In (c, i) (terms p) -> (0 < i)%nat /\ c = nth i p f0).
      { intros c i H. apply terms_in in H. tauto. }
      revert A. generalize (terms p). intros ts A.
      induction ts as [|[c i] ts IH]; constructor.
      * cbn [snd]. destruct (A c i) as (A1 & A2); [left; reflexivity|]. subst c.
        exists (FrStr (nth i p f0)). split; [apply decimal_ok|]. right.
        exists (decimal (N.of_nat i)). split; [exact A1|]. split; [apply decimal_ok|]. reflexivity.
      * apply IH. intros d j H. apply A. right. exact H.
    + constructor; [|constructor]. exists (FrStr (nth 0 p f0)). split; [apply decimal_ok|]. left. auto.
  - rewrite print_ok by exact Hp. apply separated_pieces.
Qed.
Print Assumptions c47_print.

(** Nothing but zero coefficients at the top is lost. *)
Theorem c47_print_injective : forall p q, p <> [] -> q <> [] ->
  (PolyToString p = PolyToString q <-> forall i, nth i p f0 = nth i q f0).
Proof.
  intros p q Hp Hq. rewrite !print_ok by assumption. split.
  - intros E. apply pieces_inj in E. destruct E as (E1 & E2).
    intros [|i]; [exact E2|].
    destruct (Fr_eq_dec (nth (S i) p f0) f0) as [Z|Z].
    + destruct (Fr_eq_dec (nth (S i) q f0) f0) as [Z'|Z']; [congruence|].
      assert (I : In (nth (S i) q f0, S i) (terms q)) by (apply terms_in; split; [lia|auto]).
      rewrite <- E1 in I. apply terms_in in I. destruct I as (_ & I & _). symmetry. exact I.
    + assert (I : In (nth (S i) p f0, S i) (terms p)) by (apply terms_in; split; [lia|auto]).
      rewrite E1 in I. apply terms_in in I. destruct I as (_ & I & _). exact I.
  - intros E. rewrite E. f_equal. f_equal.
    (* decreasing lists with the same members are equal *)
    assert (T : forall p, terms p = map (fun i => (nth i p f0, i)) (map snd (terms p))).
    { intros u. rewrite map_map. rewrite <- (map_id (terms u)) at 1. apply map_ext_in.
      intros [c i] H. apply terms_in in H. destruct H as (_ & H & _). cbn. rewrite H. reflexivity. }
    assert (U : map snd (terms p) = map snd (terms q)).
    { assert (M : forall d, In d (map snd (terms p)) <-> In d (map snd (terms q))).
      { intros d. rewrite !in_map_iff. split; intros ([c i] & <- & H); apply terms_in in H;
          destruct H as (H1 & H2 & H3); exists (c, i); (split; [reflexivity|]); apply terms_in;
          (split; [exact H1|]); (split; [|exact H3]); rewrite H2; [|symmetry]; apply E. }
      assert (Dp : decr (map snd (terms p))) by (rewrite terms_snd; apply decr_flat, decr_rev_seq).
      assert (Dq : decr (map snd (terms q))) by (rewrite terms_snd; apply decr_flat, decr_rev_seq).
      revert M Dp Dq. generalize (map snd (terms p)) (map snd (terms q)). clear.
      induction l as [|a l IH]; intros [|b m] M Dp Dq.
      - reflexivity.
      - destruct (proj2 (M b) (or_introl eq_refl)).
      - destruct (proj1 (M a) (or_introl eq_refl)).
      - inversion Dp as [|? ? Ha Dl]; inversion Dq as [|? ? Hb Dm]; subst.
        assert (a = b).
        { destruct (proj1 (M a) (or_introl eq_refl)) as [E|I]; [congruence|].
          destruct (proj2 (M b) (or_introl eq_refl)) as [E|J]; [congruence|].
          specialize (Hb _ I). specialize (Ha _ J). lia. }
        subst b. f_equal. apply IH; [|exact Dl|exact Dm].
        intros d. split; intros H.
        + destruct (proj1 (M d) (or_intror H)) as [<-|I]; [|exact I]. specialize (Ha _ H). lia.
        + destruct (proj2 (M d) (or_intror H)) as [<-|I]; [|exact I]. specialize (Hb _ H). lia. }
    rewrite (T p), (T q), U. apply map_ext. intros i. rewrite E. reflexivity.
Qed.
Print Assumptions c47_print_injective.

Example c47_print_example :
  PolyToString [of_Z 7; of_Z 0; of_Z 12; of_Z 0] = lit "12 x^2 + 7" /\
  PolyToString [of_Z 0; of_Z 1] = lit "1 x^1 + 0" /\ PolyToString [] = [].
Proof. vm_compute. auto. Qed.

(** ** C47 Sample vectors *)

(** Position [k] holds the last value that was given for it, and nothing if none was. *)
Theorem c47_samples : forall E V w,
  IsPowerOfTwo (Z.of_nat w) = true -> List.length E = List.length V -> (List.length E <= w)%nat ->
  Forall (fun e => 0 <= e < Z.of_nat w)%Z E ->
  exists out, GetSamples E V w = Ret out /\ List.length out = w /\
  forall k v, nth k out None = Some v <->
    exists i, (i < List.length E)%nat /\ nth i E 0%Z = Z.of_nat k /\ nth i V f0 = v /\
              forall j, (i < j < List.length E)%nat -> nth j E 0%Z <> Z.of_nat k.
Proof.
  intros E V w P L W R. unfold GetSamples. rewrite P, L, Nat.eqb_refl. cbn [negb].
  rewrite (proj2 (Nat.ltb_ge _ _)) by lia. rewrite <- L, samples_loop by exact L.
  destruct (samples_ok w E V (repeat None w) (repeat_length _ _) L R) as (out & G & Lo & N).
  exists out. split; [exact G|]. split; [exact Lo|]. intros k v. rewrite N.
  rewrite fold_last_some.
  assert (Q : nth k (repeat (@None Fr) w) None = None).
  { destruct (Nat.lt_ge_cases k w); [|apply nth_overflow; rewrite repeat_length; lia].
    apply (repeat_spec w). apply nth_In. rewrite repeat_length. assumption. }
  rewrite Q.
  assert (RC : forall e, In e E -> (Z.to_nat e = k <-> e = Z.of_nat k)).
  { intros e He. rewrite Forall_forall in R. specialize (R e He). lia. }
  assert (LC : List.length (combine E V) = List.length E) by (rewrite combine_length; lia).
  assert (NC : forall i, (i < List.length E)%nat -> nth i (combine E V) (0%Z, f0) = (nth i E 0%Z, nth i V f0)).
  { intros i Hi. apply combine_nth. exact L. }
  split.
  - intros [(l1 & e & l2 & Hl & He & Hf)|(H & _)]; [|discriminate].
    assert (B : (List.length l1 < List.length E)%nat).
    { rewrite <- LC, Hl, app_length. cbn. lia. }
    pose proof (NC _ B) as X. rewrite Hl, app_nth2, Nat.sub_diag in X by lia. cbn [nth] in X.
    injection X as X1 X2. exists (List.length l1). split; [exact B|]. split.
    + rewrite <- X1. apply RC; [|exact He]. rewrite X1. apply nth_In. exact B.
    + split; [symmetry; exact X2|]. intros j Hj Ej.
      pose proof (NC j ltac:(lia)) as Y. rewrite Hl, app_nth2 in Y by lia.
      rewrite Forall_forall in Hf.
      destruct (j - List.length l1)%nat as [|m] eqn:Em; [lia|]. cbn [nth] in Y.
      apply (Hf (nth m l2 (0%Z, f0))).
      * apply nth_In. apply (f_equal (@List.length _)) in Hl. rewrite app_length in Hl. cbn in Hl. lia.
      * rewrite Y. cbn [fst]. rewrite Ej. lia.
  - intros (i & Hi & He & Hv & Hl). left.
    destruct (nth_split (combine E V) (0%Z, f0) (n := i)) as (l1 & l2 & Hs & Hlen); [lia|].
    rewrite NC, He, Hv in Hs by exact Hi.
    exists l1, (Z.of_nat k), l2. split; [exact Hs|]. split; [lia|].
    rewrite Forall_forall. intros x Hx Ex.
    destruct (In_nth _ _ (0%Z, f0) Hx) as (m & Hm & Em).
    assert (J : (i + 1 + m < List.length E)%nat).
    { rewrite <- LC, Hs, app_length. cbn. lia. }
    apply (Hl (i + 1 + m)%nat ltac:(lia)).
    pose proof (NC _ J) as Y. rewrite Hs, app_nth2 in Y by lia.
    replace (i + 1 + m - List.length l1)%nat with (S m) in Y by lia. cbn [nth] in Y.
    rewrite Em in Y. rewrite Y in Ex. cbn [fst] in Ex. apply RC; [|exact Ex]. apply nth_In. exact J.
Qed.
Print Assumptions c47_samples.

(** A width that is not a power of two, unequal lengths, and too many values end the
    process; a position outside the vector is a run-time panic. *)
Theorem c47_samples_refused : forall E V w,
  IsPowerOfTwo (Z.of_nat w) = false \/ List.length E <> List.length V \/ (w < List.length E)%nat ->
  GetSamples E V w = Fatal.
Proof.
  intros E V w H. unfold GetSamples. destruct (IsPowerOfTwo (Z.of_nat w)); cbn [negb]; [|reflexivity].
  destruct (Nat.eqb_spec (List.length E) (List.length V)) as [L|L]; cbn [negb]; [|reflexivity].
  destruct (Nat.ltb_spec w (List.length E)); [reflexivity|].
  destruct H as [H|[H|H]]; [discriminate|congruence|lia].
Qed.
Print Assumptions c47_samples_refused.

Theorem c47_samples_panic : forall E V w,
  IsPowerOfTwo (Z.of_nat w) = true -> List.length E = List.length V -> (List.length E <= w)%nat ->
  Exists (fun e => e < 0 \/ Z.of_nat w <= e)%Z E -> GetSamples E V w = Panic.
Proof.
  intros E V w P L W R. unfold GetSamples. rewrite P, L, Nat.eqb_refl. cbn [negb].
  rewrite (proj2 (Nat.ltb_ge _ _)) by lia. rewrite <- L, samples_loop by exact L.
  apply (samples_bad w); [apply repeat_length|exact L|exact R].
Qed.
Print Assumptions c47_samples_panic.

Example c47_samples_example :
  GetSamples [2; 0]%Z [of_Z 5; of_Z 6] 4 = Ret [Some (of_Z 6); None; Some (of_Z 5); None] /\
  GetSamples [2; 2]%Z [of_Z 5; of_Z 6] 4 = Ret [None; None; Some (of_Z 6); None] /\
  GetSamples [4]%Z [of_Z 5] 4 = Panic /\ GetSamples [0]%Z [of_Z 5] 3 = Fatal.
Proof. vm_compute. auto. Qed.

(** ** C59 Text form of points *)

(** The text of a point is read back as the same point, whatever the receiver held. *)
Theorem c59_roundtrip : forall cd p old, codec_ok cd -> is_bytes (ToCompressedG1 cd p) ->
  UnmarshalText cd (Some old) (MarshalText cd p) = (true, Some p).
Proof.
  intros cd p old C B. unfold UnmarshalText, MarshalText. rewrite decode_encode by exact B.
  rewrite C. reflexivity.
Qed.
Print Assumptions c59_roundtrip.

(** A text is accepted exactly if it has an even number of hexadecimal digits and its bytes
    are a point; a refused text leaves the point as it was.  Upper and lower case are both
    read. *)
Definition hex_value (c : ascii) : option Z :=
  match index 0 (String c EmptyString) "0123456789abcdef" with
  | Some n => Some (Z.of_nat n)
  | None => match index 0 (String c EmptyString) "0123456789ABCDEF" with
            | Some n => Some (Z.of_nat n)
            | None => None
            end
  end.

Lemma fromhex_spec c : fromhex c = hex_value c.
Proof.
  destruct c as [b0 b1 b2 b3 b4 b5 b6 b7].
  destruct b0, b1, b2, b3, b4, b5, b6, b7; reflexivity.
Qed.

(** Relation between a text and the bytes it stands for. *)
Inductive hexes : text -> list Z -> Prop :=
| hexes_nil : hexes [] []
| hexes_cons a b x y t l : hex_value a = Some x -> hex_value b = Some y -> hexes t l ->
    hexes (a :: b :: t) ((16 * x + y)%Z :: l).

Lemma decode_hexes : forall n t, List.length t = n -> forall l, DecodeString t = Ret l <-> hexes t l.
Proof.
  induction n as [n IH] using (well_founded_induction Wf_nat.lt_wf). intros t L l.
  destruct t as [|a [|b t]]; cbn [DecodeString].
  - split; [intros H; injection H as <-; constructor|intros H; inversion H; reflexivity].
  - split; [discriminate|intros H; inversion H].
  - cbn [List.length] in L. specialize (IH (List.length t) ltac:(lia) t eq_refl).
    rewrite !fromhex_spec. split.
    + intros H. destruct (hex_value a) eqn:Ea; [|discriminate]. destruct (hex_value b) eqn:Eb; [|discriminate].
      destruct (DecodeString t) as [u| | |]; cbn in H; try discriminate. injection H as <-.
      constructor; auto. apply IH. reflexivity.
    + intros H. inversion H; subst. match goal with A : hex_value a = _, B : hex_value b = _ |- _ => rewrite A, B end.
      match goal with A : hexes t _ |- _ => apply IH in A; rewrite A end. reflexivity.
Qed.

Theorem c59_accepts : forall cd old t p,
  UnmarshalText cd (Some old) t = (true, Some p) <->
  exists b, hexes t b /\ FromCompressedG1 cd b = Some p.
Proof.
  intros cd old t p. unfold UnmarshalText. split.
  - destruct (DecodeString t) as [b| | |] eqn:E; try discriminate.
    destruct (FromCompressedG1 cd b) as [d|] eqn:F; [|discriminate].
    intros H. injection H as <-. exists b. split; [|exact F]. apply (decode_hexes _ t eq_refl). exact E.
  - intros (b & H & F). apply (decode_hexes _ t eq_refl) in H. rewrite H, F. reflexivity.
Qed.
Print Assumptions c59_accepts.

Theorem c59_refused_unchanged : forall cd old t,
  (forall p, UnmarshalText cd (Some old) t <> (true, Some p)) ->
  UnmarshalText cd (Some old) t = (false, Some old).
Proof.
  intros cd old t H. unfold UnmarshalText in *.
  destruct (DecodeString t) as [b| | |]; try reflexivity.
  destruct (FromCompressedG1 cd b) as [d|]; [|reflexivity]. destruct (H d). reflexivity.
Qed.
Print Assumptions c59_refused_unchanged.

(** Upper-case text is read too, so a point can have several texts. *)
Definition upper (c : ascii) : ascii :=
  let n := nat_of_ascii c in if ((97 <=? n) && (n <=? 102))%nat then ascii_of_nat (n - 32) else c.

Lemma hex_upper c x : hex_value c = Some x -> hex_value (upper c) = Some x.
Proof.
  destruct c as [b0 b1 b2 b3 b4 b5 b6 b7].
  destruct b0, b1, b2, b3, b4, b5, b6, b7; vm_compute; auto.
Qed.

Theorem c59_upper_case : forall cd old t p,
  UnmarshalText cd (Some old) t = (true, Some p) ->
  UnmarshalText cd (Some old) (map upper t) = (true, Some p).
Proof.
  intros cd old t p. rewrite !c59_accepts. intros (b & H & F). exists b. split; [|exact F].
  clear F. induction H as [|a c x y t l Ha Hc H IH]; [constructor|].
  cbn [map]. constructor; [apply hex_upper, Ha|apply hex_upper, Hc|exact IH].
Qed.
Print Assumptions c59_upper_case.

(** A codec that meets the assumptions. *)
Definition text_codec : g1codec :=
  mkCodec (fun g => FrTo32 (dlog1 g))
          (fun b => if (List.length b =? 32)%nat then option_map mkG1 (FrFrom32 b) else None).

Lemma text_codec_ok : codec_ok text_codec /\ forall g, is_bytes (ToCompressedG1 text_codec g).
Proof.
  split.
  - intros [g]. unfold text_codec. cbn [ToCompressedG1 FromCompressedG1 dlog1].
    rewrite FrTo32_length, FrFrom32_FrTo32. reflexivity.
  - intros g. apply FrTo32_bytes.
Qed.

Example c59_example :
  UnmarshalText text_codec (Some ZeroG1) (MarshalText text_codec (mkG1 (of_Z 171))) = (true, Some (mkG1 (of_Z 171))) /\
  firstn 4 (MarshalText text_codec (mkG1 (of_Z 171))) = lit "ab00" /\
  UnmarshalText text_codec (Some GenG1) (lit "abc") = (false, Some GenG1) /\
  UnmarshalText text_codec (Some GenG1) (lit "0x12") = (false, Some GenG1).
Proof. vm_compute. auto. Qed.

(** ** C60 Address lists *)

(** The character with code 10, which ends a line; stated without the model. *)
Definition LF : ascii := "010"%char.

(** A file: lines separated by newlines. *)
Fixpoint file_of (ls : list text) : text :=
  match ls with
  | [] => []
  | [l] => l
  | l :: ls' => l ++ LF :: file_of ls'
  end.

Lemma file_of_join ls : file_of ls = join ls.
Proof. induction ls as [|l [|m ls] IH]; [reflexivity..|].
  change (l ++ LF :: file_of (m :: ls) = l ++ LF :: join (m :: ls)). rewrite IH. reflexivity. Qed.

(** The addresses of the committee are the first N lines, in order; a shorter file is a
    run-time panic.  A newline at the end of the file changes nothing for N lines. *)
Theorem c60_lines : forall ls N, ls <> [] -> Forall (fun l => ~ In LF l) ls ->
  ReadList (Some (file_of ls)) N =
  if (N <=? List.length ls)%nat then Ret (firstn N ls) else Panic.
Proof.
  intros ls N H F. unfold ReadList, slice_to. rewrite file_of_join, split_join by assumption. reflexivity.
Qed.
Print Assumptions c60_lines.

(** Every file is read in exactly one way. *)
Theorem c60_unique : forall t N, exists ls, ls <> [] /\ Forall (fun l => ~ In LF l) ls /\ t = file_of ls /\
  (forall ls', ls' <> [] -> Forall (fun l => ~ In LF l) ls' -> t = file_of ls' -> ls' = ls) /\
  ReadList (Some t) N = if (N <=? List.length ls)%nat then Ret (firstn N ls) else Panic.
Proof.
  intros t N. exists (split_lines t). split; [apply split_not_nil|]. split; [apply split_lines_plain|].
  split; [rewrite file_of_join, join_split; reflexivity|]. split; [|reflexivity].
  intros ls' H F E. rewrite E, file_of_join, split_join by assumption. reflexivity.
Qed.
Print Assumptions c60_unique.

(** With a newline at the end of the file, one more address than there are lines is the
    empty string instead of a panic. *)
Theorem c60_trailing_newline : forall ls, ls <> [] -> Forall (fun l => ~ In LF l) ls ->
  ReadList (Some (file_of ls ++ [LF])) (List.length ls) = Ret ls /\
  ReadList (Some (file_of ls ++ [LF])) (S (List.length ls)) = Ret (ls ++ [[]]).
Proof.
  intros ls H F.
  assert (E : file_of ls ++ [LF] = file_of (ls ++ [[]])).
  { clear F. induction ls as [|l [|m ls] IH]; [congruence|reflexivity|].
    change (file_of ((l :: m :: ls) ++ [[]])) with (l ++ LF :: file_of ((m :: ls) ++ [[]])).
    rewrite <- IH by discriminate.
    change (file_of (l :: m :: ls)) with (l ++ LF :: file_of (m :: ls)).
    rewrite <- app_assoc. reflexivity. }
  assert (G : Forall (fun l => ~ In LF l) (ls ++ [[]])).
  { apply Forall_app. split; [exact F|]. constructor; [intros []|constructor]. }
  assert (K : ls ++ [[]] <> []) by (destruct ls; discriminate).
  rewrite E, !c60_lines by assumption. rewrite app_length. cbn [List.length].
  rewrite (proj2 (Nat.leb_le (List.length ls) _)) by lia. rewrite (proj2 (Nat.leb_le (S (List.length ls)) _)) by lia.
  split; f_equal.
  - rewrite firstn_app, Nat.sub_diag, firstn_all, app_nil_r. reflexivity.
  - rewrite firstn_all2; [reflexivity|]. rewrite app_length. cbn. lia.
Qed.
Print Assumptions c60_trailing_newline.

(** The process ends exactly when the file cannot be read. *)
Theorem c60_unreadable : forall f n, ReadList f n = Fatal <-> f = None.
Proof.
  intros [t|] n; cbn [ReadList]; [|split; reflexivity]. unfold slice_to. destruct (n <=? List.length (split_lines t))%nat; split; discriminate.
Qed.
Print Assumptions c60_unreadable.

Example c60_example :
  let f := lit "10.0.0.1" ++ LF :: lit "10.0.0.2" in
  ReadList (Some f) 2 = Ret [lit "10.0.0.1"; lit "10.0.0.2"] /\
  ReadList (Some f) 1 = Ret [lit "10.0.0.1"] /\ ReadList (Some f) 3 = Panic /\ ReadList None 1 = Fatal.
Proof. vm_compute. auto. Qed.
