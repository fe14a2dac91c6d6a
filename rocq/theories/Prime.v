(** The BLS12-381 scalar modulus is prime.

    [r] is the number in /repo/internal/bls/globals.go:11-15 ([ModulusStr]).
    The proof is a Pocklington certificate; nothing is assumed. *)

Require Import ZArith Znumtheory Zpow_facts List Lia Bool Wf_nat.
Import ListNotations.
Open Scope Z_scope.

(** /repo/internal/bls/globals.go: [ModulusStr], the order of the scalar field. *)
Definition r : Z :=
  52435875175126190479447740508185965837690552500527637822603658699938581184513.

(** ** A quick reduction modulo [r]

    The result is always [x mod r] ([fred_mod]); the guess of the quotient only makes
    computation faster. *)

Definition barrett_mu : Z :=
  63924783772383800510881355679045894053953907627670804454833668596624592689380.

Definition fred (x : Z) : Z :=
  let y := x - Z.shiftr (Z.shiftr x 254 * barrett_mu) 256 * r in
  if (0 <=? y) && (y <? r) then y else y mod r.

Lemma r_eq : r =
  52435875175126190479447740508185965837690552500527637822603658699938581184513.
Proof. reflexivity. Qed.

Lemma r_pos : 0 < r.
Proof. reflexivity. Qed.

Lemma fred_mod x : fred x = x mod r.
Proof.
  unfold fred.
  set (q := Z.shiftr (Z.shiftr x 254 * barrett_mu) 256).
  assert (E : (x - q * r) mod r = x mod r).
  { replace (x - q * r) with (x + (- q) * r) by ring. apply Z_mod_plus_full. }
  destruct ((0 <=? x - q * r) && (x - q * r <? r)) eqn:H; [|exact E].
  apply andb_true_iff in H. destruct H as [H1 H2].
  rewrite <- E. symmetry. apply Z.mod_small. lia.
Qed.

Fixpoint mpow (a : Z) (e : positive) : Z :=
  match e with
  | xH => fred a
  | xO e' => let b := mpow a e' in fred (b * b)
  | xI e' => let b := mpow a e' in fred (fred (b * b) * a)
  end.

Lemma mod_sq b : ((b mod r) * (b mod r)) mod r = (b * b) mod r.
Proof. symmetry. apply Zmult_mod. Qed.

Lemma mpow_spec a e : mpow a e = (a ^ Zpos e) mod r.
Proof.
  induction e as [e IH|e IH|]; cbn [mpow]; rewrite ?fred_mod.
  - rewrite IH, mod_sq, Zmult_mod_idemp_l.
    rewrite Pos2Z.inj_xI, Z.pow_add_r, (Z.mul_comm 2), Z.pow_mul_r, Z.pow_2_r, Z.pow_1_r by lia.
    reflexivity.
  - rewrite IH, mod_sq.
    rewrite Pos2Z.inj_xO, (Z.mul_comm 2), Z.pow_mul_r, Z.pow_2_r by lia. reflexivity.
  - rewrite Z.pow_1_r. reflexivity.
Qed.

(** ** Pocklington's criterion *)

Lemma prime_divisor n : 1 < n -> exists p, prime p /\ (p | n).
Proof.
  intros H. remember (Z.to_nat n) as m eqn:Em.
  revert n H Em. induction m as [m IH] using lt_wf_ind. intros n H Em.
  destruct (prime_dec n) as [P|P].
  - exists n. split; [exact P|apply Z.divide_refl].
  - destruct (not_prime_divide n H P) as (d & Hd & D).
    destruct (IH (Z.to_nat d)) with (n := d) as (p & Pp & Dp); [lia|lia|reflexivity|].
    exists p. split; [exact Pp|]. eapply Z.divide_trans; eauto.
Qed.

Lemma pow_mod_1_mul a p k m : 1 < p -> 0 <= k -> 0 <= m ->
  a ^ k mod p = 1 -> a ^ (k * m) mod p = 1.
Proof.
  intros Hp Hk Hm H. rewrite Z.pow_mul_r by lia. rewrite Zpower_mod by lia.
  rewrite H. rewrite Z.pow_1_l by lia. apply Z.mod_1_l. lia.
Qed.

Lemma mod_1_divisor x p N : 1 < p -> (p | N) -> x mod N = 1 -> x mod p = 1.
Proof.
  intros Hp D H. destruct (Z.eq_dec N 0) as [->|HN].
  - rewrite Zmod_0_r in H. subst x. apply Z.mod_1_l. lia.
  - rewrite (Z.div_mod x N HN), H. destruct D as [k ->].
    replace (k * p * (x / (k * p)) + 1) with (1 + (k * (x / (k * p))) * p) by ring.
    rewrite Z_mod_plus_full. apply Z.mod_1_l. lia.
Qed.

Section Order.
  Variables a p : Z.
  Hypothesis Pp : prime p.

  Let Hp1 : 1 < p.
  Proof. destruct Pp; lia. Qed.

  Lemma pow_cancel i j : (i <= j)%nat -> a ^ Z.of_nat j mod p = a ^ Z.of_nat i mod p ->
    ~ (p | a) -> a ^ Z.of_nat (j - i) mod p = 1.
  Proof.
    intros L E NA.
    rewrite (Nat2Z.inj_sub j i L). set (d := Z.of_nat j - Z.of_nat i).
    replace (Z.of_nat j) with (Z.of_nat i + d) in E by (unfold d; lia).
    rewrite Z.pow_add_r in E by (unfold d; lia).
    assert (D : (p | a ^ Z.of_nat i * (a ^ d - 1))).
    { apply Z.mod_divide; [lia|]. rewrite Z.mul_sub_distr_l, Z.mul_1_r.
      rewrite Zminus_mod, E, Z.sub_diag. apply Z.mod_0_l. lia. }
    apply prime_mult in D; [|exact Pp]. destruct D as [D|D].
    - exfalso. apply NA. clear - Pp D Hp1. induction i as [|i IH].
      + exfalso. apply Z.divide_1_r_nonneg in D; lia.
      + rewrite Nat2Z.inj_succ, Z.pow_succ_r in D by lia.
        apply prime_mult in D; [|exact Pp]. destruct D as [D|D]; auto.
    - destruct D as [k Hk].
      replace (a ^ d) with (1 + k * p) by lia. rewrite Z_mod_plus_full.
      apply Z.mod_1_l. lia.
  Qed.

  (** If [a^m = 1] modulo [p] for some positive m, the least such exponent d divides all
      of them and is below p. *)
  Lemma order_exists m : 0 < m -> a ^ m mod p = 1 ->
    exists d, 0 < d < p /\ a ^ d mod p = 1 /\
              forall k, 0 <= k -> a ^ k mod p = 1 -> (d | k).
  Proof.
    intros Hm H.
    set (P := fun k : nat => (0 < k)%nat /\ a ^ Z.of_nat k mod p = 1).
    destruct (dec_inh_nat_subset_has_unique_least_element P) as (d & ((Hd & Hd1) & Hmin) & _).
    { intros n. unfold P. destruct (Z.eq_dec (a ^ Z.of_nat n mod p) 1);
        destruct n; [right; lia | left; split; [lia|assumption] | right; lia | right; tauto]. }
    { exists (Z.to_nat m). split; [lia|]. rewrite Z2Nat.id by lia. exact H. }
    assert (NA : ~ (p | a)).
    { intros D. assert (D' : (p | a ^ Z.of_nat d)).
      { replace (Z.of_nat d) with (Z.succ (Z.of_nat (d - 1))) by lia.
        rewrite Z.pow_succ_r by lia. apply Z.divide_mul_l. exact D. }
      apply Z.mod_divide in D'; lia. }
    exists (Z.of_nat d). split; [split; [lia|]|split; [exact Hd1|]].
    - assert (L : (length (map (fun k => (a ^ Z.of_nat k mod p)%Z) (seq 0 d)) <=
                   length (map Z.of_nat (seq 1 (Z.to_nat p - 1))))%nat).
      { apply NoDup_incl_length.
        - assert (ND : forall l, (forall k, In k l -> (k < d)%nat) -> NoDup l ->
                    NoDup (map (fun k => a ^ Z.of_nat k mod p) l)).
          { induction l as [|x l IH]; intros B N; simpl; constructor.
            - rewrite in_map_iff. intros (y & E & Iy). inversion N; subst.
              assert (x < d)%nat by (apply B; left; reflexivity).
              assert (y < d)%nat by (apply B; right; exact Iy).
              destruct (Nat.lt_trichotomy x y) as [C|[C|C]].
              + assert (d <= y - x)%nat; [|lia]. apply Hmin. split; [lia|].
                apply pow_cancel; [lia|exact E|exact NA].
              + subst; contradiction.
              + assert (d <= x - y)%nat; [|lia]. apply Hmin. split; [lia|].
                apply pow_cancel; [lia|symmetry; exact E|exact NA].
            - apply IH; [|inversion N; assumption]. intros k I. apply B. right. exact I. }
          apply ND; [|apply seq_NoDup]. intros k I. apply in_seq in I. lia.
        - intros x I. apply in_map_iff in I. destruct I as (k & <- & I). apply in_seq in I.
          apply in_map_iff. exists (Z.to_nat (a ^ Z.of_nat k mod p)).
          pose proof (Z.mod_pos_bound (a ^ Z.of_nat k) p ltac:(lia)) as B.
          split; [apply Z2Nat.id; lia|]. apply in_seq.
          assert (a ^ Z.of_nat k mod p <> 0); [|lia].
          intros E. apply Z.mod_divide in E; [|lia].
          assert (D' : (p | a ^ Z.of_nat d)).
          { replace (Z.of_nat d) with (Z.of_nat k + Z.of_nat (d - k)) by lia.
            rewrite Z.pow_add_r by lia. apply Z.divide_mul_l. exact E. }
          apply Z.mod_divide in D'; lia. }
      rewrite !map_length, !seq_length in L. lia.
    - intros k Hk E.
      pose proof (Z.div_mod k (Z.of_nat d) ltac:(lia)) as DM.
      pose proof (Z.mod_pos_bound k (Z.of_nat d) ltac:(lia)) as B.
      set (q := k / Z.of_nat d) in *. set (t := k mod Z.of_nat d) in *.
      assert (Hq : 0 <= q) by (apply Z.div_pos; lia).
      assert (Et : a ^ t mod p = 1).
      { rewrite DM in E. rewrite Z.pow_add_r in E by nia. rewrite Zmult_mod in E.
        rewrite pow_mod_1_mul in E; try lia.
        rewrite Z.mul_1_l, Zmod_mod in E. exact E. }
      destruct (Z.eq_dec t 0) as [E0|E0].
      + exists q. lia.
      + assert (d <= Z.to_nat t)%nat; [|lia]. apply Hmin. split; [lia|].
        rewrite Z2Nat.id by lia. exact Et.
  Qed.
End Order.

(** The factored part of N-1 as a list of (prime, exponent). *)
Definition fprod (l : list (Z * Z)) : Z :=
  fold_right (fun qe acc => fst qe ^ snd qe * acc) 1 l.

Lemma rel_prime_pow_l q e m : 0 <= e -> rel_prime q m -> rel_prime (q ^ e) m.
Proof.
  intros He H. pattern e. apply natlike_ind; [| |exact He].
  - apply rel_prime_1.
  - intros x Hx IH. rewrite Z.pow_succ_r by exact Hx.
    apply rel_prime_sym. apply rel_prime_mult; apply rel_prime_sym; assumption.
Qed.

Lemma pocklington N a l :
  1 < N -> (fprod l | N - 1) -> N < fprod l * fprod l ->
  a ^ (N - 1) mod N = 1 ->
  (forall q e, In (q, e) l ->
     prime q /\ 0 <= e /\ (q | N - 1) /\
     exists u, ((a ^ ((N - 1) / q) - 1) * u) mod N = 1) ->
  prime N.
Proof.
  intros HN DF HF Ha Hl.
  assert (FP : 0 < fprod l).
  { assert (A : forall l', (forall q e, In (q, e) l' -> prime q /\ 0 <= e) -> 0 < fprod l').
    { induction l' as [|[q e] l' IH]; intros A; simpl; [lia|].
      destruct (A q e (or_introl eq_refl)) as [[Q _] E].
      pose proof (Z.pow_pos_nonneg q e ltac:(lia) E).
      specialize (IH ltac:(intros; apply A; right; assumption)). nia. }
    apply A. intros q e I. destruct (Hl q e I) as (A1 & A2 & _). auto. }
  destruct (prime_dec N) as [P|P]; [exact P|exfalso].
  (* the least prime divisor would be at most sqrt N *)
  assert (S : exists p, prime p /\ (p | N) /\ p * p <= N).
  { destruct (not_prime_divide N HN P) as (d & Hd & [c Hc]).
    assert (Hc1 : 1 < c) by nia.
    destruct (Z_le_gt_dec (d * d) N) as [L|L].
    - destruct (prime_divisor d) as (p & Pp & Dp); [lia|]. exists p.
      split; [exact Pp|]. split.
      + eapply Z.divide_trans; [exact Dp|]. exists c. exact Hc.
      + apply Z.divide_pos_le in Dp; [|lia]. destruct Pp. nia.
    - destruct (prime_divisor c) as (p & Pp & Dp); [lia|]. exists p.
      split; [exact Pp|]. split.
      + eapply Z.divide_trans; [exact Dp|]. exists d. lia.
      + apply Z.divide_pos_le in Dp; [|lia]. destruct Pp.
        assert (c <= d) by nia. rewrite Hc. apply Z.mul_le_mono_nonneg; lia. }
  destruct S as (p & Pp & Dp & Hpp).
  assert (Hp1 : 1 < p) by (destruct Pp; lia).
  destruct (order_exists a p Pp (N - 1)) as (d & Hd & Hd1 & Hmin); [lia| |].
  { eapply mod_1_divisor; eauto. }
  destruct (Hmin (N - 1)) as [m Hm]; [lia|eapply mod_1_divisor; eauto|].
  assert (RP : rel_prime (fprod l) m).
  { assert (A : forall l', (forall q e, In (q, e) l' -> In (q, e) l) -> rel_prime (fprod l') m).
    { induction l' as [|[q e] l' IH]; intros A; simpl.
      - apply rel_prime_1.
      - apply rel_prime_sym. apply rel_prime_mult; apply rel_prime_sym.
        + destruct (Hl q e (A q e (or_introl eq_refl))) as (Pq & He & Dq & u & Hu).
          apply rel_prime_pow_l; [exact He|].
          apply prime_rel_prime; [exact Pq|]. intros [k Hk].
          assert (Hq : 1 < q) by (destruct Pq; lia).
          assert (Ek : (N - 1) / q = d * k).
          { rewrite Hm, Hk. replace (k * q * d) with (d * k * q) by ring.
            apply Z.div_mul. lia. }
          assert (Hk0 : 0 <= k) by nia.
          pose proof (pow_mod_1_mul a p d k Hp1 ltac:(lia) Hk0 Hd1) as E1.
          rewrite <- Ek in E1.
          pose proof (mod_1_divisor _ p N Hp1 Dp Hu) as E2.
          rewrite Zmult_mod, Zminus_mod, E1 in E2.
          rewrite (Z.mod_1_l p) in E2 by lia.
          replace ((1 - 1) mod p) with 0 in E2 by (rewrite Z.sub_diag, Z.mod_0_l; lia).
          rewrite Z.mul_0_l, Z.mod_0_l in E2 by lia. lia.
        + apply IH. intros; apply A; right; assumption. }
    apply A. auto. }
  assert (DFd : (fprod l | d)).
  { apply Gauss with (b := m); [rewrite <- Hm; exact DF|exact RP]. }
  apply Z.divide_pos_le in DFd; [|lia]. nia.
Qed.

(** ** Primality of small numbers by trial division *)

Fixpoint no_divisor (n : Z) (k : Z) (fuel : nat) : bool :=
  match fuel with
  | O => n <? k * k
  | S f => if n <? k * k then true
           else negb (n mod k =? 0) && no_divisor n (k + 1) f
  end.

Lemma no_divisor_spec n fuel : forall k, 1 < k -> no_divisor n k fuel = true ->
  forall d, k <= d -> d * d <= n -> ~ (d | n).
Proof.
  induction fuel as [|f IH]; intros k Hk H d Hd Hdn D; simpl in H.
  - apply Z.ltb_lt in H. nia.
  - destruct (n <? k * k) eqn:E.
    + apply Z.ltb_lt in E. nia.
    + apply andb_true_iff in H. destruct H as [H1 H2].
      destruct (Z.eq_dec d k) as [->|Ne].
      * apply Z.mod_divide in D; [|lia]. rewrite D in H1. discriminate.
      * apply (IH (k + 1)) with (d := d); auto; lia.
Qed.

Lemma small_prime n fuel : 1 < n -> no_divisor n 2 fuel = true -> prime n.
Proof.
  intros Hn H. destruct (prime_dec n) as [P|P]; [exact P|exfalso].
  destruct (not_prime_divide n Hn P) as (d & Hd & [c Hc]).
  assert (1 < c) by nia.
  destruct (Z_le_gt_dec (d * d) n) as [L|L].
  - apply (no_divisor_spec n fuel 2 ltac:(lia) H d); [lia|exact L|exists c; exact Hc].
  - apply (no_divisor_spec n fuel 2 ltac:(lia) H c); [lia|nia|exists d; lia].
Qed.

(** ** The certificate for [r] *)

Definition cert : list (Z * Z) :=
  [(2, 32); (906349, 2); (2508409, 1); (2529403, 1); (859267, 1)].

Lemma cert_prime q e : In (q, e) cert -> prime q.
Proof.
  intros I. apply (small_prime q 1600%nat); simpl in I;
    intuition (match goal with H : (_, _) = (_, _) |- _ => injection H as <- <- end);
    solve [lia | vm_compute; reflexivity].
Qed.

(** [cert_b] is 7 raised to (r-1)/[cert_rad]; the powers 7^((r-1)/q) are obtained from it. *)
Definition cert_rad : Z := 2 * 906349 * 2508409 * 2529403 * 859267.
Definition cert_base_exp : Z := (r - 1) / cert_rad.
Definition cert_b : Z :=
  41044799436358185825932749176276537728444550658221308607380511596435843219102.

Definition zpow (a e : Z) : Z := match e with Zpos p => mpow a p | _ => 1 end.

Lemma zpow_spec a e : 0 < e -> zpow a e = a ^ e mod r.
Proof. destruct e; simpl; try lia. intros _. apply mpow_spec. Qed.

Lemma zpow_mod a e : 0 < e -> zpow (a mod r) e = a ^ e mod r.
Proof. intros H. rewrite zpow_spec by exact H. symmetry. apply Zpower_mod. reflexivity. Qed.

Definition cert_inv (q : Z) : Z :=
  if q =? 2 then 26217937587563095239723870254092982918845276250263818911301829349969290592256
  else if q =? 906349 then 29151262252276627170863686650079642517799996839957025940997617530301678876505
  else if q =? 2508409 then 34298639838597154104616345297652762671243825198233599603727653869914569109675
  else if q =? 2529403 then 28992909499308446102318145929488837859780004099631346323296574681787418299536
  else 31096133001792019692169709836425200062158390207101479139217653802309251457969.

Definition cert_entry_ok (qe : Z * Z) : bool :=
  let (q, e) := qe in
  (fred ((zpow cert_b (cert_rad / q) - 1) * cert_inv q) =? 1) &&
  (0 <=? e) && ((r - 1) mod q =? 0) && negb (q =? 0) && (0 <? cert_rad / q) &&
  (cert_base_exp * (cert_rad / q) =? (r - 1) / q).

Lemma cert_b_ok : zpow 7 cert_base_exp = cert_b.
Proof. vm_compute. reflexivity. Qed.

Lemma cert_entries_ok : forallb cert_entry_ok cert = true.
Proof. vm_compute. reflexivity. Qed.

Lemma cert_one_ok : zpow cert_b cert_rad = 1.
Proof. vm_compute. reflexivity. Qed.

Lemma cert_exp_pos : 0 < cert_base_exp.
Proof. vm_compute. reflexivity. Qed.

Lemma cert_rad_pos : 0 < cert_rad.
Proof. vm_compute. reflexivity. Qed.

Lemma cert_exp_rad : cert_base_exp * cert_rad = r - 1.
Proof. vm_compute. reflexivity. Qed.

Lemma cert_prod : (r - 1) mod fprod cert = 0 /\ fprod cert <> 0 /\ r < fprod cert * fprod cert.
Proof. split; [|split]; vm_compute; [reflexivity|discriminate|reflexivity]. Qed.

Lemma r_gt_1 : 1 < r.
Proof. reflexivity. Qed.

Opaque zpow cert_rad cert_base_exp cert_b r cert_inv fred cert.

Lemma cert_pow e : 0 < e -> zpow cert_b e = 7 ^ (cert_base_exp * e) mod r.
Proof.
  intros He. rewrite <- cert_b_ok. rewrite (zpow_spec 7 cert_base_exp cert_exp_pos).
  rewrite zpow_mod by exact He. rewrite Z.pow_mul_r; [reflexivity| |lia].
  pose proof cert_exp_pos. lia.
Qed.

Theorem r_prime : prime r.
Proof.
  destruct cert_prod as (F1 & F2 & F3).
  apply (pocklington r 7 cert).
  - exact r_gt_1.
  - apply Z.mod_divide; assumption.
  - exact F3.
  - rewrite <- cert_exp_rad. rewrite <- (cert_pow cert_rad cert_rad_pos). exact cert_one_ok.
  - intros q e I. split; [exact (cert_prime q e I)|].
    pose proof (proj1 (forallb_forall _ _) cert_entries_ok _ I) as C.
    unfold cert_entry_ok in C.
    repeat match goal with H : (_ && _)%bool = true |- _ => apply andb_true_iff in H; destruct H end.
    repeat match goal with
           | H : (_ =? _) = true |- _ => apply Z.eqb_eq in H
           | H : (_ <=? _) = true |- _ => apply Z.leb_le in H
           | H : (_ <? _) = true |- _ => apply Z.ltb_lt in H
           | H : negb (_ =? _) = true |- _ => apply negb_true_iff, Z.eqb_neq in H
           end.
    split; [assumption|]. split; [apply Z.mod_divide; assumption|].
    exists (cert_inv q).
    match goal with H : fred _ = 1 |- _ => rewrite fred_mod in H; rewrite cert_pow in H by assumption end.
    match goal with H : cert_base_exp * _ = _ |- _ => rewrite H in * end.
    match goal with H : _ mod r = 1 |- _ =>
      rewrite Zmult_mod, Zminus_mod, Zmod_mod in H;
      rewrite <- Zminus_mod, <- Zmult_mod in H; exact H end.
Qed.
