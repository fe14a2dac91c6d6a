(** C37: the identifiers and the signed messages, byte by byte.

    The theorems of PropertiesMvba.v say that identifiers never collide; here is what they look like, so that members
    running the programs of /repo and members following this description understand each other. *)

Require Import String Ascii.
Require Import ZArith List Bool Arith Lia.
From Verif Require Import Bytes CodecModel MvbaModel MvbaProofs IdModel.
Import ListNotations.

(** The bytes of a text. *)
Definition text_bytes (s : string) : list Z := map (fun c => Z.of_N (N_of_ascii c)) (list_ascii_of_string s).

(** Four bytes, most significant first. *)
Definition word (n : nat) : list Z :=
  let z := Z.of_nat n in [z / 2 ^ 24 mod 256; z / 2 ^ 16 mod 256; z / 2 ^ 8 mod 256; z mod 256]%Z.

(** A number in decimal notation: digits, no leading zero, and their value. *)
Definition decimal (l : list Z) (n : nat) : Prop :=
  l <> [] /\ (forall d, In d l -> (48 <= d <= 57)%Z) /\ (hd 0%Z l = 48%Z -> l = [48%Z]) /\
  fold_left (fun a d => (10 * a + (d - 48))%Z) l 0%Z = Z.of_nat n.

Lemma word_ok n : Uint32ToBytes (Z.of_nat n) = word n.
Proof.
  unfold Uint32ToBytes, be_bytes, word. cbn [le_bytes List.rev app]. rewrite !Z.div_div by lia. reflexivity.
Qed.

(** What is signed in the agreement: for the Echo of a stage of a broadcast, for the coin, for the missing lock (the byte
    says "false") and for the missing certificate. *)
Theorem c37_signed_bytes : forall ID r j s h,
  smEcho ID r j s h = text_bytes "Echo" ++ ID ++ word r ++ word j ++ [Z.of_nat s] ++ h /\
  smDone ID r = text_bytes "Done" ++ ID ++ word r /\
  smNo ID r = [0%Z] ++ ID ++ word r /\
  smUnlock ID r = text_bytes "Unlock" ++ ID ++ word r.
Proof.
  intros ID r j s h. unfold smEcho, smDone, smNo, smUnlock, idstage, idrj, idr. rewrite !word_ok. rewrite <- !app_assoc. repeat split.
Qed.

Lemma digits_fold fuel : forall n, (n < fuel)%nat ->
  (digits fuel n <> []) /\ (forall d, In d (digits fuel n) -> (48 <= d <= 57)%Z) /\
  (last (digits fuel n) 0%Z = 48%Z -> digits fuel n = [48%Z]) /\
  fold_right (fun d a => (10 * a + (d - 48))%Z) 0%Z (digits fuel n) = Z.of_nat n.
Proof.
  induction fuel as [|fuel IH]; intros n L; [lia|]. cbn [digits].
  assert (M : (n mod 10 < 10)%nat) by (apply Nat.mod_upper_bound; lia). pose proof (Nat.div_mod n 10 ltac:(lia)) as DM.
  destruct (Nat.ltb_spec n 10) as [C|C].
  - rewrite Nat.mod_small by exact C. split; [discriminate|]. split; [intros d [<- |[]]; lia|]. split; [cbn [last]; intros ->; reflexivity|].
    cbn [fold_right]. lia.
  - assert (D1 : (1 <= n / 10)%nat) by (apply Nat.div_le_lower_bound; lia).
    assert (D2 : (n / 10 < fuel)%nat) by (assert (n / 10 < n)%nat by (apply Nat.div_lt; lia); lia).
    destruct (IH (n / 10)%nat D2) as (N & R & Z & V). split; [discriminate|]. split; [intros d [<- |Hd]; [lia|exact (R d Hd)]|]. split.
    + intros E. destruct (digits fuel (n / 10)) as [|a t] eqn:ED; [congruence|]. rewrite <- ED in *. exfalso.
      assert (LE : last (digits fuel (n / 10)) 0%Z = 48%Z) by (rewrite <- E, ED; reflexivity). rewrite (Z LE) in V. cbn [fold_right] in V. lia.
    + cbn [fold_right]. rewrite V. rewrite DM at 3. lia.
Qed.

Lemma dec_decimal n : decimal (dec n) n.
Proof.
  destruct (digits_fold (S n) n ltac:(lia)) as (N & R & Z & V). unfold decimal, dec. split; [|split; [|split]].
  - intros E. apply N. rewrite <- (rev_involutive (digits (S n) n)), E. reflexivity.
  - intros d Hd. apply R, in_rev. exact Hd.
  - intros E. rewrite Z; [reflexivity|]. rewrite <- E. destruct (digits (S n) n) as [|a t] eqn:ED using rev_ind; [congruence|]. rewrite last_last, rev_app_distr. reflexivity.
  - rewrite <- fold_left_rev_right, rev_involutive. exact V.
Qed.

(** The identifiers of the broadcasts of a handoff and what is signed for a dealer. *)
Theorem c37_id_bytes : forall ID j, exists l, decimal l j /\
  commitID ID j = ID ++ text_bytes "_1," ++ l /\ newCommitID ID j = ID ++ text_bytes "_2," ++ l /\ smReshare ID j = l.
Proof. intros ID j. exists (dec j). split; [apply dec_decimal|]. repeat split. Qed.

(** The notation is unique. *)
Theorem c37_decimal_unique : forall l l' n, decimal l n -> decimal l' n -> l = l'.
Proof.
  assert (P : forall l a, (forall d, In d l -> (48 <= d <= 57)%Z) -> (0 <= a)%Z ->
    (10 ^ Z.of_nat (length l) * a <= fold_left (fun a d => (10 * a + (d - 48))%Z) l a < 10 ^ Z.of_nat (length l) * (a + 1))%Z).
  { induction l as [|d l IH]; intros a R A; [cbn [length fold_left]; change (Z.of_nat 0) with 0%Z; rewrite Z.pow_0_r; lia|]. cbn [fold_left length]. pose proof (R d (or_introl eq_refl)).
    specialize (IH (10 * a + (d - 48))%Z (fun x Hx => R x (or_intror Hx)) ltac:(lia)). rewrite Nat2Z.inj_succ, Z.pow_succ_r by lia.
    assert (0 < 10 ^ Z.of_nat (length l))%Z by (apply Z.pow_pos_nonneg; lia). nia. }
  assert (Q : forall l l' a, length l = length l' -> (forall d, In d l -> (48 <= d <= 57)%Z) -> (forall d, In d l' -> (48 <= d <= 57)%Z) -> forall a', (0 <= a)%Z -> (0 <= a')%Z ->
    fold_left (fun a d => (10 * a + (d - 48))%Z) l a = fold_left (fun a d => (10 * a + (d - 48))%Z) l' a' -> a = a' /\ l = l').
  { clear P. induction l as [|d l IH]; intros [|d' l'] a E R R' a' A A' V; try discriminate; [cbn in V; auto|]. cbn [fold_left] in V.
    pose proof (R d (or_introl eq_refl)). pose proof (R' d' (or_introl eq_refl)).
    destruct (IH l' (10 * a + (d - 48))%Z ltac:(injection E; auto) (fun x Hx => R x (or_intror Hx)) (fun x Hx => R' x (or_intror Hx)) (10 * a' + (d' - 48))%Z ltac:(lia) ltac:(lia) V) as (E1 & ->).
    assert (a = a' /\ d = d') as (-> & ->) by lia. auto. }
  assert (W : forall l l' n, decimal l n -> decimal l' n -> (length l' <= length l)%nat).
  { intros l l' n (N & R & Z0 & V) (N' & R' & Z0' & V'). destruct l' as [|d' t']; [congruence|]. destruct l as [|d t]; [congruence|]. cbn [length].
    destruct (Nat.le_gt_cases (length t') (length t)) as [|G]; [lia|exfalso]. cbn [hd] in Z0'.
    pose proof (R' d' (or_introl eq_refl)). assert (D1 : (1 <= d' - 48)%Z). { destruct (Z.eq_dec d' 48) as [E|]; [|lia]. specialize (Z0' E). injection Z0' as _ ->. cbn [length] in G. lia. }
    cbn [fold_left] in V, V'. pose proof (P t' (10 * 0 + (d' - 48))%Z (fun x Hx => R' x (or_intror Hx)) ltac:(lia)) as (L' & _).
    pose proof (R d (or_introl eq_refl)). pose proof (P t (10 * 0 + (d - 48))%Z (fun x Hx => R x (or_intror Hx)) ltac:(lia)) as (_ & U).
    assert (10 ^ Z.of_nat (length t') >= 10 * 10 ^ Z.of_nat (length t))%Z.
    { rewrite <- Z.pow_succ_r by lia. apply Z.le_ge, Z.pow_le_mono_r; lia. }
    assert (0 < 10 ^ Z.of_nat (length t))%Z by (apply Z.pow_pos_nonneg; lia). nia. }
  intros l l' n D D'. pose proof (W _ _ _ D D'). pose proof (W _ _ _ D' D). destruct D as (_ & R & _ & V), D' as (_ & R' & _ & V').
  apply (Q l l' 0%Z ltac:(lia) R R' 0%Z); [lia|lia|]. congruence.
Qed.

(** C02, the codec on every input: four bytes in front count, what follows does not; fewer bytes give 0 (the error of
    binary.Read is dropped). *)
Theorem c02_exact :
  (forall a b c d rest, BytesToInt (a :: b :: c :: d :: rest) = (a * 2 ^ 24 + b * 2 ^ 16 + c * 2 ^ 8 + d)%Z /\ BytesToUint32 (a :: b :: c :: d :: rest) = BytesToInt (a :: b :: c :: d :: rest)) /\
  (forall l, (length l < 4)%nat -> BytesToInt l = 0%Z /\ BytesToUint32 l = 0%Z) /\
  (forall n, (Z.of_nat n < 2 ^ 32)%Z -> Uint32ToBytes (Z.of_nat n) = word n /\ IntToBytes (Z.of_nat n) = word n).
Proof.
  split; [|split].
  - intros a b c d rest. split; [|reflexivity]. unfold BytesToInt. cbn [length Nat.leb firstn]. unfold be_val. cbn [List.rev app le_val]. lia.
  - intros l L. unfold BytesToUint32, BytesToInt. rewrite (proj2 (Nat.leb_gt _ _)) by exact L. auto.
  - intros n L. split; [apply word_ok|]. unfold IntToBytes. rewrite Z.mod_small by lia. apply word_ok.
Qed.

Print Assumptions c02_exact.
Print Assumptions c37_signed_bytes.
Print Assumptions c37_id_bytes.
Print Assumptions c37_decimal_unique.

Example c37_bytes_example : smDone [7%Z] 258 = [68; 111; 110; 101; 7; 0; 0; 1; 2]%Z /\ decimal [49; 48; 52]%Z 104 /\ smNo [7%Z] 1 = [0; 7; 0; 0; 0; 1]%Z.
Proof. split; [reflexivity|]. split; [|reflexivity]. split; [discriminate|]. split; [intros d [<- |[<- |[<- |[]]]]; lia|]. split; [discriminate|reflexivity]. Qed.
