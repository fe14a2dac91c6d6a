(** C85: scalars as decimal text (bignum_kilic.go:28-32, 70-75; bignum_pure.go:53-65; bignum_hol256.go:25-33, 69-74). *)

Require Import String Ascii DecimalString ZArith NArith List Bool Lia.
From Verif Require Import Prime Fr GoBase TextModel TextProofs BackendModel BackendProofs PropertiesBackend FftModel ScalarTextModel.
Import ListNotations.
Local Open Scope N_scope.

Section Text.
Variable other : text -> option N.
Variable junk : text -> Z.
Notation kilic := (SetFrKilic junk).
Notation pure := (SetFrPure other).
Notation hol := (SetFrHol other).

Lemma digit_range c : digit c -> 48 <= N_of_ascii c <= 57.
Proof. unfold digit, nat_of_ascii. lia. Qed.

Lemma number10 l : forall acc, Forall digit l -> number 10 l acc = Some (read l acc).
Proof.
  induction l as [|c l IH]; intros acc D; [reflexivity|]. inversion D as [|? ? Hc Hl]. subst. apply digit_range in Hc. cbn [number read fold_left].
  rewrite (proj2 (N.leb_le 48 (N_of_ascii c))), (proj2 (N.ltb_lt (N_of_ascii c) (48 + 10))) by lia. cbn [andb]. apply IH. exact Hl.
Qed.

Lemma unsigned f l : Forall digit l -> l <> [] -> signed f l = option_map Z.of_N (f l).
Proof.
  intros D N. destruct l as [|c l]; [congruence|]. inversion D as [|? ? Hc _]. subst. clear D N. unfold signed.
  destruct c as [[] [] [] [] [] [] [] []]; try reflexivity; exfalso; unfold digit in Hc; vm_compute in Hc; lia.
Qed.

Lemma digits10 l : Forall digit l -> l <> [] -> digits_in 10 l = Some (read l 0).
Proof. intros D N. destruct l; [congruence|]. unfold digits_in. apply number10. exact D. Qed.

(** The default back end: any digits, with or without leading zeros, give the number modulo r; the sign is ignored. *)
Theorem c85_kilic : forall l, Forall digit l -> l <> [] ->
  kilic l = of_Z (Z.of_N (read l 0)) /\ kilic ("+"%char :: l) = of_Z (Z.of_N (read l 0)) /\ kilic ("-"%char :: l) = of_Z (Z.of_N (read l 0)).
Proof.
  intros l D N. unfold SetFrKilic, SetString10. rewrite unsigned by assumption. cbn [signed]. rewrite digits10 by assumption. cbn [option_map].
  rewrite Z.abs_opp, !Z.abs_eq by lia. auto.
Qed.

(** So a text with a minus sign never gives the negative of a number, unless that is zero. *)
Theorem c85_minus_refuted : forall l, Forall digit l -> l <> [] -> (Z.of_N (read l 0) mod r <> 0)%Z ->
  kilic ("-"%char :: l) <> fopp (kilic l).
Proof.
  intros l D N NZ E. destruct (c85_kilic l D N) as (E1 & _ & E2). rewrite E1, E2 in E. set (x := of_Z (Z.of_N (read l 0))) in *.
  assert (X : x <> f0). { intros Q. apply (f_equal fv) in Q. unfold x in Q. rewrite fv_of_Z, fv_f0 in Q. contradiction. }
  assert (T : fmul (of_Z 2) x = f0). { replace (of_Z 2) with (fadd f1 f1) by reflexivity. transitivity (fadd x x); [ring|]. rewrite E at 2. ring. }
  apply (fmul_neq_0 (of_Z 2) x); [|exact X|exact T]. intros Q. apply (f_equal fv) in Q. vm_compute in Q. discriminate Q.
Qed.

Definition plain (l : text) : Prop := Forall digit l /\ l <> [] /\ forall l', l = "0"%char :: l' -> l' = [].

Lemma unmarshal_plain l : plain l -> UnmarshalText other l = Some (Z.of_N (read l 0)) /\
  UnmarshalText other ("-"%char :: l) = Some (- Z.of_N (read l 0))%Z.
Proof.
  intros (D & N & Z0). unfold UnmarshalText. rewrite unsigned by assumption. cbn [signed]. rewrite number10 by exact D.
  enough (H : match l with "0"%char :: ((_ :: _) as l') => digits_in 8 l' | _ => digits_in 10 l end = Some (read l 0)).
  { rewrite H. split; reflexivity. }
  destruct l as [|c [|c2 l]]; [congruence| |].
  - destruct c as [[] [] [] [] [] [] [] []]; apply digits10; assumption.
  - destruct (ascii_dec c "0") as [E|E]; [specialize (Z0 (c2 :: l) ltac:(congruence)); discriminate Z0|].
    transitivity (digits_in 10 (c :: c2 :: l)); [|apply digits10; assumption].
    destruct c as [[] [] [] [] [] [] [] []]; try reflexivity. contradiction E. reflexivity.
Qed.

(** The other two back ends, on numbers without superfluous zeros: no reduction, a sign counts, and 256 bits are the limit of hol. *)
Theorem c85_others : forall l, plain l -> let n := Z.of_N (read l 0) in
  pure l = Ret n /\ pure ("-"%char :: l) = Ret (- n)%Z /\
  ((n < 2 ^ 256)%Z -> hol l = Ret n /\ hol ("-"%char :: l) = Ret ((- n) mod 2 ^ 256)%Z) /\
  ((2 ^ 256 <= n)%Z -> hol l = Panic /\ hol ("-"%char :: l) = Panic) /\
  (pure l = Ret (fv (kilic l)) <-> (n < r)%Z).
Proof.
  intros l P n. destruct (unmarshal_plain l P) as (U1 & U2). unfold SetFrPure, SetFrHol. rewrite U1, U2. fold n.
  assert (N0 : (0 <= n)%Z) by (unfold n; lia). rewrite Z.abs_opp, Z.abs_eq by exact N0.
  split; [reflexivity|]. split; [reflexivity|]. split; [|split].
  - intros H. rewrite (proj2 (Z.ltb_lt _ _) H). rewrite Z.mod_small by lia. auto.
  - intros H. rewrite (proj2 (Z.ltb_ge _ _) H). auto.
  - destruct P as (D & NN & _). destruct (c85_kilic l D NN) as (E & _). rewrite E. fold n. rewrite fv_of_Z. pose proof r_pos as R. split.
    + intros H. injection H as H. pose proof (Z.mod_pos_bound n r R). lia.
    + intros H. rewrite Z.mod_small by lia. reflexivity.
Qed.

(** What is printed is read again by each of them. *)
Theorem c85_roundtrip : forall x, kilic (FrStr x) = x /\ pure (FrStr x) = Ret (fv x) /\ hol (FrStr x) = Ret (fv x).
Proof.
  intros x. pose proof (fv_range x) as R. assert (R2 : (r < 2 ^ 256)%Z) by reflexivity.
  assert (V : Z.of_N (read (FrStr x) 0) = fv x) by (unfold FrStr; rewrite read_decimal; apply Z2N.id; lia).
  assert (P : plain (FrStr x)).
  { unfold FrStr. split; [apply decimal_digits|]. split.
    - unfold decimal, NilZero.string_of_uint. intros E. destruct (N.to_uint (Z.to_N (fv x))) eqn:U; cbn in E; discriminate E.
    - intros l' E. pose proof (decimal_no_leading_zero _ _ E) as Z0. rewrite Z0 in E. cbn in E. injection E as E. symmetry. exact E. }
  destruct (c85_others (FrStr x) P) as (O1 & _ & O2 & _). rewrite V in O1, O2. destruct (c85_kilic (FrStr x)) as (K & _); [apply P..|]. rewrite V in K.
  split; [rewrite K; apply Fr_ext; rewrite fv_of_Z; apply Z.mod_small; exact R|]. split; [exact O1|]. apply O2. lia.
Qed.

Lemma number8 l : forall a b z, Forall digit l -> (a < b \/ a = b /\ (l = [] \/ a <> 0)) -> number 8 l a = Some z ->
  z <= read l b /\ (z = read l b <-> a = b /\ l = []) /\ b <= read l b /\ (l = [] \/ 10 * b <= read l b).
Proof.
  induction l as [|c l IH]; intros a b z D H E.
  - injection E as E. subst z. cbn [read fold_left]. destruct H as [H|(H & _)]; split; try lia; (split; [|split; [lia|left; reflexivity]]); split; intros Q; try lia; split; auto; lia.
  - inversion D as [|? ? Hc Hl]. subst. apply digit_range in Hc. cbn [number] in E.
    destruct ((48 <=? N_of_ascii c) && (N_of_ascii c <? 48 + 8)) eqn:B; [|discriminate E]. cbn [read fold_left]. fold (read l (10 * b + (N_of_ascii c - 48))).
    destruct (IH (8 * a + (N_of_ascii c - 48)) (10 * b + (N_of_ascii c - 48)) z Hl) as (I1 & I2 & I3 & _); [left; destruct H as [H|(H & [H2|H2])]; [lia|discriminate H2|lia]|exact E|].
    split; [exact I1|]. split; [|split; [lia|right; lia]]. split; [intros Q; apply I2 in Q; destruct H as [H|(H & [H2|H2])]; [lia|discriminate H2|lia]|intros (_ & Q); discriminate Q].
Qed.

Lemma number8_zero l z : Forall digit l -> l <> [] -> number 8 l 0 = Some z -> z <= read l 0 /\ (z = read l 0 <-> read l 0 < 8).
Proof.
  induction l as [|c l IH]; intros D N E; [congruence|]. inversion D as [|? ? Hc Hl]. subst. apply digit_range in Hc. cbn [number] in E.
  destruct ((48 <=? N_of_ascii c) && (N_of_ascii c <? 48 + 8)) eqn:B; [|discriminate E]. apply andb_prop in B. destruct B as (_ & B). apply N.ltb_lt in B.
  rewrite N.mul_0_r, N.add_0_l in E. cbn [read fold_left]. rewrite N.mul_0_r, N.add_0_l. fold (read l (N_of_ascii c - 48)).
  destruct (N.eq_dec (N_of_ascii c) 48) as [Q|Q].
  - rewrite Q in *. change (48 - 48) with 0 in *. destruct l as [|c2 l]; [injection E as E; subst z; cbn; lia|]. apply IH; [exact Hl|discriminate|exact E].
  - destruct (number8 l (N_of_ascii c - 48) (N_of_ascii c - 48) z Hl) as (I1 & I2 & I3 & I4); [right; split; [reflexivity|right; lia]|exact E|].
    split; [exact I1|]. rewrite I2. split.
    + intros (_ & ->). cbn. lia.
    + intros H. split; [reflexivity|]. destruct I4 as [I4|I4]; [exact I4|lia].
Qed.

(** With a superfluous zero in front the other two read in base 8: they panic or get a smaller number, unless it is below 8. *)
Theorem c85_leading_zero : forall l, Forall digit l -> l <> [] ->
  (pure ("0"%char :: l) = Panic <-> exists c, In c l /\ 56 <= N_of_ascii c) /\
  forall z, pure ("0"%char :: l) = Ret z -> (0 <= z <= Z.of_N (read l 0))%Z /\ (z = Z.of_N (read l 0) <-> (read l 0 < 8)).
Proof.
  intros l D N.
  assert (U : UnmarshalText other ("0"%char :: l) = option_map Z.of_N (number 8 l 0)).
  { unfold UnmarshalText. rewrite unsigned; [|constructor; [unfold digit; cbn; lia|exact D]|discriminate].
    rewrite number10 by (constructor; [unfold digit; cbn; lia|exact D]). destruct l; [congruence|reflexivity]. }
  unfold SetFrPure. rewrite U. split.
  - assert (X : forall a, number 8 l a = None <-> exists c, In c l /\ 56 <= N_of_ascii c).
    { clear N U. induction l as [|c l IH]; intros a; [split; [discriminate|intros (c & [] & _)]|]. inversion D as [|? ? Hc Hl]. subst. apply digit_range in Hc. cbn [number].
      rewrite (proj2 (N.leb_le 48 _)) by lia. cbn [andb]. destruct (N.ltb_spec (N_of_ascii c) (48 + 8)) as [B|B].
      - rewrite (IH Hl). split; intros (c' & H1 & H2); [exists c'; split; [right; exact H1|exact H2]|]. destruct H1 as [H1|H1]; [subst c'; lia|exists c'; auto].
      - split; [intros _; exists c; split; [left; reflexivity|lia]|reflexivity]. }
    rewrite <- (X 0). destruct (number 8 l 0); cbn [option_map]; split; intros Q; try discriminate Q; reflexivity.
  - intros z E. destruct (number 8 l 0) as [m|] eqn:Q; cbn [option_map] in E; [|discriminate E]. injection E as E. subst z.
    destruct (number8_zero l m D N Q) as (H1 & H2). split; [lia|]. rewrite <- H2. lia.
Qed.

Lemma number_bad l : (exists c, In c l /\ ~ digit c) -> forall acc, number 10 l acc = None.
Proof.
  induction l as [|c l IH]; intros (c' & H & ND) acc; [destruct H|]. cbn [number].
  destruct (N.leb_spec 48 (N_of_ascii c)); [|reflexivity]. destruct (N.ltb_spec (N_of_ascii c) (48 + 10)); [|reflexivity]. cbn [andb].
  destruct H as [H'|H']; [|apply IH; exists c'; auto]. subst c'. exfalso. apply ND. unfold digit, nat_of_ascii. lia.
Qed.

Definition sign (s : text) : Prop := s = [] \/ s = ["+"%char] \/ s = ["-"%char].

(** No digits, or something that is no digit: the default back end does not notice; without digits the others panic. *)
Theorem c85_invalid : forall s l, sign s ->
  (l = [] \/ exists c, In c l /\ ~ digit c) -> (s = [] -> hd_error l <> Some "+"%char /\ hd_error l <> Some "-"%char) ->
  kilic (s ++ l) = of_Z (Z.abs (junk (s ++ l))) /\
  (l = [] \/ other l = None -> pure (s ++ l) = Panic /\ hol (s ++ l) = Panic).
Proof.
  intros s l HS HL HH.
  assert (X : forall f, f l = None -> signed f (s ++ l) = None).
  { intros f E. destruct HS as [->|[->| ->]]; cbn [app signed]; [|rewrite E; reflexivity|rewrite E; reflexivity]. destruct (HH eq_refl) as (H1 & H2).
    destruct l as [|c l]; [cbn; rewrite E; reflexivity|]. cbn [hd_error] in H1, H2. unfold signed.
    destruct c as [[] [] [] [] [] [] [] []]; try (rewrite E; reflexivity); exfalso; try (apply H1; reflexivity); apply H2; reflexivity. }
  split.
  - unfold SetFrKilic, SetString10. rewrite X; [reflexivity|]. destruct HL as [->|HL]; [reflexivity|]. destruct l; [reflexivity|]. unfold digits_in. apply number_bad. exact HL.
  - intros HO. enough (U : UnmarshalText other (s ++ l) = None) by (unfold SetFrPure, SetFrHol; rewrite U; auto).
    unfold UnmarshalText. apply X. destruct HL as [->|HL]; [reflexivity|]. rewrite number_bad by exact HL. destruct HO as [->|HO]; [destruct HL as (c & [] & _)|exact HO].
Qed.

End Text.
Print Assumptions c85_invalid.
Print Assumptions c85_kilic.
Print Assumptions c85_minus_refuted.
Print Assumptions c85_others.
Print Assumptions c85_roundtrip.
Print Assumptions c85_leading_zero.

(** The constants that are computed at the start. *)
Theorem c85_constants : fadd MODULUS_MINUS1 f1 = f0 /\ fadd MODULUS_MINUS1_DIV2 MODULUS_MINUS1_DIV2 = MODULUS_MINUS1 /\
  fadd MODULUS_MINUS2 (of_Z 2) = f0 /\ (forall x, fadd (fmul INVERSE_TWO x) (fmul INVERSE_TWO x) = x) /\
  fv MODULUS_MINUS1 = (r - 1)%Z /\ fv MODULUS_MINUS1_DIV2 = ((r - 1) / 2)%Z /\ fv MODULUS_MINUS2 = (r - 2)%Z.
Proof.
  assert (T : of_Z 2 = fadd f1 f1) by reflexivity. assert (T0 : of_Z 2 <> f0) by (intros Q; apply (f_equal fv) in Q; vm_compute in Q; discriminate Q).
  split; [apply Fr_ext; vm_compute; reflexivity|]. split.
  { unfold MODULUS_MINUS1_DIV2. set (m := MODULUS_MINUS1). transitivity (fmul (fadd f1 f1) (fdiv m (of_Z 2))); [ring|]. rewrite <- T. field. exact T0. }
  split; [apply Fr_ext; vm_compute; reflexivity|]. split.
  { intros x. unfold INVERSE_TWO. transitivity (fmul (fmul (fadd f1 f1) (finv (of_Z 2))) x); [ring|]. rewrite <- T. field. exact T0. }
  split; [vm_compute; reflexivity|]. split; vm_compute; reflexivity.
Qed.
Print Assumptions c85_constants.

Definition none : text -> option N := fun _ => None.
Definition left_zero : text -> Z := fun _ => 0%Z.

Example c85_example :
  fv (SetFrKilic left_zero (lit "-5")) = 5%Z /\ SetFrPure none (lit "-5") = Ret (-5)%Z /\ SetFrHol none (lit "-5") = Ret (2 ^ 256 - 5)%Z /\
  fv (SetFrKilic left_zero (lit "010")) = 10%Z /\ SetFrPure none (lit "010") = Ret 8%Z /\ SetFrHol none (lit "08") = Panic /\
  SetFrPure none (lit "-") = Panic /\ fv (SetFrKilic left_zero (lit "1x")) = 0%Z /\
  ToFr left_zero (lit "3465144826073652318776269530687742778270252468765361963008") = nth 2 Scale2RootOfUnity f0.
Proof. repeat (split; [vm_compute; reflexivity|]). apply Fr_ext. vm_compute. reflexivity. Qed.
