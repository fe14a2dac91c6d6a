(** Decimal numbers and identifiers. *)

Require Import ZArith List Bool Arith Lia.
From Verif Require Import IdModel.
Import ListNotations.

Fixpoint dval (l : list Z) : Z := match l with [] => 0%Z | d :: l => (d - 48 + 10 * dval l)%Z end.

Lemma digits_val : forall fuel n, (n < fuel)%nat -> dval (digits fuel n) = Z.of_nat n.
Proof.
  induction fuel as [|f IH]; intros n L; [lia|]. cbn [digits dval]. destruct (n <? 10)%nat eqn:E.
  - apply Nat.ltb_lt in E. rewrite Nat.mod_small by exact E. cbn [dval]. lia.
  - apply Nat.ltb_ge in E. rewrite IH by (pose proof (Nat.div_lt n 10); lia). pose proof (Nat.div_mod n 10 ltac:(lia)) as D. lia.
Qed.

Lemma digits_range : forall fuel n d, In d (digits fuel n) -> (48 <= d <= 57)%Z.
Proof.
  induction fuel as [|f IH]; intros n d K; [destruct K|]. cbn [digits] in K. destruct K as [<-|K].
  - pose proof (Nat.mod_upper_bound n 10). lia.
  - destruct (n <? 10)%nat; [destruct K|apply (IH _ _ K)].
Qed.

Lemma dec_inj a b : dec a = dec b -> a = b.
Proof.
  unfold dec. intros E. apply (f_equal (@rev Z)) in E. rewrite !rev_involutive in E. apply (f_equal dval) in E. rewrite !digits_val in E by lia. lia.
Qed.

Lemma dec_range n d : In d (dec n) -> (48 <= d <= 57)%Z.
Proof. unfold dec. intros K. apply in_rev in K. apply (digits_range _ _ _ K). Qed.

Lemma dec_nonempty n : dec n <> [].
Proof. unfold dec. intros E. apply (f_equal (@length Z)) in E. rewrite rev_length in E. discriminate. Qed.

(** The last separator splits. *)
Lemma split_last {A} (x : A) : forall a a' b b', ~ In x b -> ~ In x b' -> a ++ x :: b = a' ++ x :: b' -> a = a' /\ b = b'.
Proof.
  induction a as [|y a IH]; intros [|y' a'] b b' Hb Hb' E; cbn [app] in E.
  - inversion E. auto.
  - inversion E; subst. exfalso. apply Hb. apply in_or_app. right. left. reflexivity.
  - inversion E; subst. exfalso. apply Hb'. apply in_or_app. right. left. reflexivity.
  - inversion E; subst. destruct (IH a' b b' Hb Hb' H1) as (-> & ->). auto.
Qed.

Lemma bcast_inj ID ID' (s s' : Z) j j' : ID ++ [95; s; 44]%Z ++ dec j = ID' ++ [95; s'; 44]%Z ++ dec j' -> ID = ID' /\ s = s' /\ j = j'.
Proof.
  intros E. change ([95; s; 44]%Z ++ dec j) with ([95; s]%Z ++ 44%Z :: dec j) in E. change ([95; s'; 44]%Z ++ dec j') with ([95; s']%Z ++ 44%Z :: dec j') in E.
  rewrite !app_assoc in E. apply split_last in E.
  - destruct E as (E & E2). apply dec_inj in E2. change [95; s]%Z with ([95%Z] ++ [s]) in E. change [95; s']%Z with ([95%Z] ++ [s']) in E. rewrite !app_assoc in E.
    apply app_inj_tail in E. destruct E as (E & ->). apply app_inj_tail in E. destruct E as (-> & _). auto.
  - intros K. apply dec_range in K. lia.
  - intros K. apply dec_range in K. lia.
Qed.
