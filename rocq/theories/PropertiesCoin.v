(** Further theorems on the common coin (C56): which leader a member elects, for all runs, also those in
    which messages are repeated. *)

Require Import ZArith List Bool Arith Lia.
From Verif Require Import Bytes CodecModel GoBase DispatchModel DispatchProofs MvbaModel MvbaProofs PropertiesMvba.
Import ListNotations.

Section Coin.
Variable H : list Z -> list Z.
Variable coin : list Z -> Z.
Variables N F : nat.
Variable ID : list Z.
Variable bad : list nat.
Variable vals : nat -> list Z.

Notation mstep' := (mstep H coin N F ID).
Notation reach' := (reach H coin N F ID bad vals anyp).

(** The coin shares of a round and the leader elected from them. *)
Record cinv (r : nat) (d : rnd) : Prop := mkCI {
  ci_valid : forall s, In s (d_coins d) -> exists i, s = Sh i (smDone ID r);
  ci_none : d_lead d = None -> (length (d_coins d) <= 2 * F)%nat;
  ci_some : forall l, d_lead d = Some l -> length (d_coins d) = (2 * F + 1)%nat /\
     (NoDup (map signer (d_coins d)) -> l = Z.to_nat (coin (smDone ID r) mod Z.of_nat N)) /\
     (~ NoDup (map signer (d_coins d)) -> l = 0%nat) }.

Definition same (d d' : rnd) : Prop := d_coins d' = d_coins d /\ d_lead d' = d_lead d.

Lemma cinv_same r d d' : same d d' -> cinv r d -> cinv r d'.
Proof. intros (A & B) [c1 c2 c3]. constructor; rewrite ?A, ?B; assumption. Qed.

Lemma same_refl d : same d d. Proof. split; reflexivity. Qed.

Lemma same_setr st r d : same (m_rounds st r) d -> forall k, same (m_rounds st k) (m_rounds (setr st r d) k).
Proof.
  intros L k. unfold setr, putr. cbn [m_rounds]. destruct (k =? r)%nat eqn:E; [apply Nat.eqb_eq in E; subst; exact L|apply same_refl].
Qed.

Lemma recover_dup t sm l : (forall s, In s l -> exists i, s = Sh i sm) -> length l = t -> ~ NoDup (map signer l) -> recover t sm l = NoSig.
Proof.
  intros V L ND. unfold recover.
  assert (E : filter (vshare sm) l = l).
  { clear L ND. induction l as [|a l IH]; [reflexivity|]. cbn [filter]. destruct (V a (or_introl eq_refl)) as (i & ->).
    cbn [vshare]. rewrite bytes_eqb_refl. f_equal. apply IH. intros s K. apply V. right. exact K. }
  rewrite E, <- L, firstn_all. destruct (nodupb (map signer l)) eqn:B; [exfalso; apply ND; apply nodupb_sound; exact B|].
  rewrite andb_false_r. reflexivity.
Qed.

Lemma signer_dec (l : list nat) : NoDup l \/ ~ NoDup l.
Proof.
  destruct (nodupb l) eqn:E; [left; apply nodupb_sound; exact E|right; intros K; apply nodupb_ok in K; congruence].
Qed.

Ltac sf := apply same_setr; split; reflexivity.

Lemma step_cinv st e st' sms : mstep' st e = Ret (Some (st', sms)) ->
  (forall r, cinv r (m_rounds st r)) -> forall r, cinv r (m_rounds st' r).
Proof.
  intros E I.
  assert (G : (forall k, same (m_rounds st k) (m_rounds st' k)) -> forall r, cinv r (m_rounds st' r)).
  { intros K r. apply (cinv_same _ _ _ (K r)). apply I. }
  destruct e; cbn [mstep] in E.
  - unfold value_step in E. destruct (_ && _); [|discriminate]. apply G.
    destruct stage as [|[|[|s]]]; try discriminate.
    + inversion E; subst. sf.
    + destruct (vsig _ _); [|discriminate]. inversion E; subst. sf.
  - unfold finish_step in E. destruct (r <=? m_r st)%nat; [|discriminate]. destruct (_ && _); [|discriminate]. apply G.
    destruct (vsig _ _); inversion E; subst; [sf|intros; apply same_refl].
  - unfold election_step in E. apply G. destruct (_ && _); inversion E; subst. sf.
  - unfold done_step in E. destruct (d_lead (m_rounds st r)) eqn:EL; [discriminate|]. destruct (r <=? m_r st)%nat; [|discriminate].
    destruct (vshare _ _) eqn:EV; inversion E; subst; [|exact I].
    intros k. unfold setr, putr. cbn [m_rounds]. destruct (k =? r)%nat eqn:EK; [|apply I]. apply Nat.eqb_eq in EK. subst k.
    destruct (I r) as [c1 c2 c3]. specialize (c2 EL).
    set (coins := d_coins (m_rounds st r) ++ [sh]).
    assert (V : forall s, In s coins -> exists i, s = Sh i (smDone ID r)).
    { intros s K. apply in_app_or in K. destruct K as [K|[<-|[]]]; [apply c1; exact K|apply vshare_eq; exact EV]. }
    assert (L : length coins = S (length (d_coins (m_rounds st r)))) by (unfold coins; rewrite app_length; cbn; lia).
    constructor; cbn [d_coins d_lead]; fold coins; change (F + (F + 0))%nat with (2 * F)%nat; [exact V| |].
    + destruct (2 * F <? length coins)%nat eqn:B; intros K; [discriminate K|]. apply Nat.ltb_ge in B. exact B.
    + intros l. destruct (2 * F <? length coins)%nat eqn:B; [|discriminate]. apply Nat.ltb_lt in B. intros K. injection K as <-.
      assert (LL : length coins = (2 * F + 1)%nat) by lia. split; [exact LL|]. split; intros ND.
      * rewrite recover_ok; [reflexivity|exact ND| |lia]. intros s K. destruct (V s K) as (i & ->). cbn [vshare]. apply bytes_eqb_refl.
      * rewrite recover_dup by assumption. rewrite Zmod_0_l. reflexivity.
  - unfold leader_step in E. destruct (m_out st); [discriminate|]. destruct (d_lead (m_rounds st (m_r st))) eqn:EL; [|discriminate].
    destruct (d_past _) eqn:EP; [discriminate|]. apply G. rewrite <- EL in E.
    destruct (assoc _ _) as [(v & sg)|]; inversion E; subst; cbn [m_rounds]; (apply same_setr; split; cbn; congruence).
  - unfold preVote_step in E. destruct (d_lead (m_rounds st r)) eqn:EL; [|discriminate]. apply G.
    destruct (_ && _); inversion E; subst. apply same_setr; split; cbn; congruence.
  - unfold preVoteYes_step in E. destruct (d_lead (m_rounds st r)) eqn:EL; [|discriminate]. apply G. destruct (vsig _ _); inversion E; subst.
    + apply same_setr; split; cbn; congruence.
    + intros. apply same_refl.
  - unfold preVoteNo_step in E. destruct (d_lead (m_rounds st r)) eqn:EL; [|discriminate]. apply G. destruct (vshare _ _); inversion E; subst.
    + apply same_setr; split; cbn; congruence.
    + intros. apply same_refl.
  - unfold vote_step in E. destruct (d_lead (m_rounds st r)) eqn:EL; [|discriminate]. destruct (d_flag (m_rounds st r)) eqn:EF; [|discriminate].
    apply G. destruct (_ && _); inversion E; subst. apply same_setr; split; cbn; congruence.
  - unfold voteYes_step in E. destruct (d_lead (m_rounds st r)) eqn:EL; [|discriminate]. apply G. destruct (_ && _); inversion E; subst.
    + apply same_setr; split; cbn; congruence.
    + intros. apply same_refl.
  - unfold voteNo_step in E. destruct (d_lead (m_rounds st r)) eqn:EL; [|discriminate]. apply G. destruct (_ && _); inversion E; subst.
    + apply same_setr; split; cbn; congruence.
    + intros. apply same_refl.
  - unfold halt_step in E. destruct (d_lead (m_rounds st r)) eqn:EL; [|discriminate]. apply G. destruct (vsig _ _).
    + destruct (m_halt st); inversion E; subst. intros. apply same_refl.
    + inversion E; subst. intros. apply same_refl.
  - unfold haltTake_step in E. apply G. destruct (m_out st), (m_halt st); inversion E; subst. intros. apply same_refl.
  - unfold result_step in E. destruct (m_out st); [discriminate|]. destruct (d_vflag _) as [f|]; [|discriminate]. destruct (d_past _); [|discriminate].
    apply G. destruct f; inversion E; subst; intros; apply same_refl.
Qed.

Lemma reach_cinv g : reach' g -> forall i r, cinv r (m_rounds (gs_m g i) r).
Proof.
  induction 1 as [|g i e st sms R IH Hi A _ W E]; intros k r.
  - cbn. constructor; cbn; intros; try contradiction; try discriminate. lia.
  - unfold gs_next. cbn [gs_m]. destruct (k =? i)%nat; [|apply IH]. exact (step_cinv _ _ _ _ E (IH i) r).
Qed.

(** Whatever has happened, a member elects exactly when it has taken 2F+1 coin shares of the round: the
    leader given by the coin if they are of different members, and member 0 otherwise. *)
Theorem c56_leader g i r l : reach' g -> d_lead (m_rounds (gs_m g i) r) = Some l ->
  let taken := d_coins (m_rounds (gs_m g i) r) in
  length taken = (2 * F + 1)%nat /\
  (NoDup (map signer taken) -> l = Z.to_nat (coin (smDone ID r) mod Z.of_nat N)) /\
  (~ NoDup (map signer taken) -> l = 0%nat).
Proof. intros R E. exact (ci_some _ _ (reach_cinv g R i r) l E). Qed.

Lemma force sm s i r : sm = smDone ID r -> In s bad -> (s < N)%nat -> hon N bad i ->
  forall n g, reach' g -> (r <= m_r (gs_m g i))%nat -> w32 (m_r (gs_m g i)) -> d_lead (m_rounds (gs_m g i) r) = None ->
  (length (d_coins (m_rounds (gs_m g i) r)) + n = 2 * F)%nat ->
  exists g', reach' g' /\ (forall k, k <> i -> gs_m g' k = gs_m g k) /\
    d_lead (m_rounds (gs_m g' i) r) <> None /\
    d_coins (m_rounds (gs_m g' i) r) = d_coins (m_rounds (gs_m g i) r) ++ repeat (Sh s sm) (S n).
Proof.
  intros -> Hs Ls Hi. induction n as [|n IH]; intros g R LR W EL LC.
  - set (d := m_rounds (gs_m g i) r) in *.
    assert (E : exists st, mstep' (gs_m g i) (EvDone r (Sh s (smDone ID r))) = Ret (Some (st, [])) /\
      d_lead (m_rounds st r) <> None /\ d_coins (m_rounds st r) = d_coins d ++ [Sh s (smDone ID r)]).
    { eexists. split.
      - cbn [mstep]. unfold done_step. fold d. rewrite EL. rewrite (proj2 (Nat.leb_le _ _) LR). cbn [vshare].
        rewrite bytes_eqb_refl. reflexivity.
      - rewrite setr_same. cbn [d_lead d_coins]. rewrite app_length. cbn [length].
        rewrite (proj2 (Nat.ltb_lt _ _)) by lia. split; [discriminate|reflexivity]. }
    destruct E as (st & E & A & B). exists (gs_next g i st []). split.
    + eapply reach_step; [exact R|exact Hi| |exact I|exact W|exact E]. split; [exact Ls|]. intros (_ & K). contradiction.
    + unfold gs_next. cbn [gs_m]. split; [intros k Hk; rewrite (proj2 (Nat.eqb_neq _ _) Hk); reflexivity|].
      rewrite Nat.eqb_refl. auto.
  - set (d := m_rounds (gs_m g i) r) in *.
    assert (E : exists st, mstep' (gs_m g i) (EvDone r (Sh s (smDone ID r))) = Ret (Some (st, [])) /\ m_r st = m_r (gs_m g i) /\
      d_lead (m_rounds st r) = None /\ d_coins (m_rounds st r) = d_coins d ++ [Sh s (smDone ID r)]).
    { eexists. split.
      - cbn [mstep]. unfold done_step. fold d. rewrite EL. rewrite (proj2 (Nat.leb_le _ _) LR). cbn [vshare].
        rewrite bytes_eqb_refl. reflexivity.
      - split; [reflexivity|]. rewrite setr_same. cbn [d_lead d_coins]. rewrite app_length. cbn [length].
        rewrite (proj2 (Nat.ltb_ge _ _)) by lia. split; reflexivity. }
    destruct E as (st & E & A0 & A & B).
    assert (R1 : reach' (gs_next g i st [])).
    { eapply reach_step; [exact R|exact Hi| |exact I|exact W|exact E]. split; [exact Ls|]. intros (_ & K). contradiction. }
    assert (GI : gs_m (gs_next g i st []) i = st) by (unfold gs_next; cbn [gs_m]; rewrite Nat.eqb_refl; reflexivity).
    destruct (IH (gs_next g i st []) R1) as (g' & R' & O & L' & C'); rewrite ?GI.
    + rewrite A0. exact LR.
    + rewrite A0. exact W.
    + exact A.
    + rewrite B, app_length. cbn [length]. lia.
    + exists g'. split; [exact R'|]. split; [|split; [exact L'|]].
      * intros k Hk. rewrite (O k Hk). unfold gs_next. cbn [gs_m]. rewrite (proj2 (Nat.eqb_neq _ _) Hk). reflexivity.
      * rewrite C', GI, B, <- app_assoc. reflexivity.
Qed.

(** For every committee with F >= 1 and at every moment: a corrupted member can make an honest member,
    that has not elected the leader of its round yet and lacks two coin shares or more, elect member 0,
    by repeating its own share; nobody else notices. *)
Theorem c56_forced_refuted g s i r : (1 <= F)%nat -> In s bad -> (s < N)%nat -> hon N bad i -> reach' g ->
  (r <= m_r (gs_m g i))%nat -> w32 (m_r (gs_m g i)) -> d_lead (m_rounds (gs_m g i) r) = None ->
  (length (d_coins (m_rounds (gs_m g i) r)) < 2 * F)%nat ->
  exists g', reach' g' /\ (forall k, k <> i -> gs_m g' k = gs_m g k) /\ d_lead (m_rounds (gs_m g' i) r) = Some 0%nat.
Proof.
  intros HF Hs Ls Hi R LR W EL LC.
  destruct (force _ s i r eq_refl Hs Ls Hi (2 * F - length (d_coins (m_rounds (gs_m g i) r))) g R LR W EL ltac:(lia)) as (g' & R' & O & A & B).
  exists g'. split; [exact R'|]. split; [exact O|].
  destruct (d_lead (m_rounds (gs_m g' i) r)) as [l|] eqn:E; [|contradiction].
  destruct (c56_leader g' i r l R' E) as (_ & _ & Z). f_equal. apply Z.
  rewrite B. rewrite map_app. intros ND.
  destruct (2 * F - length (d_coins (m_rounds (gs_m g i) r)))%nat as [|n] eqn:EN; [lia|].
  clear - ND. induction (map signer _) as [|a l IH]; cbn [app] in ND.
  - cbn [repeat map signer] in ND. inversion ND as [|? ? K _]. apply K. left. reflexivity.
  - inversion ND. auto.
Qed.

End Coin.
Print Assumptions c56_leader.
Print Assumptions c56_forced_refuted.

(** At the start the hypotheses hold for every member, whatever F >= 1. *)
Example c56_forced_example : exists g', reach toyH toyCoin 4 1 [7%Z] [3%nat] toyVals anyp g' /\
  d_lead (m_rounds (gs_m g' 1%nat) 0) = Some 0%nat.
Proof.
  destruct (c56_forced_refuted toyH toyCoin 4 1 [7%Z] [3%nat] toyVals (gs_init toyVals) 3 1 0) as (g' & R & _ & E);
    [lia|left; reflexivity|lia|split; [lia|intros [K|[]]; discriminate]|constructor|cbn; lia|unfold w32; cbn; lia|reflexivity|cbn; lia|].
  exists g'. auto.
Qed.
