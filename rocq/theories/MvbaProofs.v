(** Proofs about MvbaModel.v: executions of a committee, uniqueness of certificates. *)

Require Import ZArith List Bool Arith Lia FinFun.
From Verif Require Import Bytes CodecModel CodecProofs GoBase DispatchModel DispatchProofs PolyProofs MvbaModel.
From Verif Require RbcProofs.
Import ListNotations.

(** ** Identifiers *)

(** What a signature is for. *)
Inductive kind : Type :=
| KEcho (r j stage : nat) (h : list Z)
| KDone (r : nat)
| KNo (r : nat)
| KUnlock (r : nat).

Definition render (ID : list Z) (k : kind) : list Z :=
  match k with
  | KEcho r j s h => smEcho ID r j s h
  | KDone r => smDone ID r
  | KNo r => smNo ID r
  | KUnlock r => smUnlock ID r
  end.

Definition w32 (n : nat) : Prop := (Z.of_nat n < 2 ^ 32)%Z.
Definition kok (k : kind) : Prop :=
  match k with
  | KEcho r j s h => w32 r /\ w32 j /\ length h = 64%nat
  | KDone r | KNo r | KUnlock r => w32 r
  end.

Lemma u32_length n : length (Uint32ToBytes n) = 4%nat.
Proof. unfold Uint32ToBytes. apply be_bytes_length. Qed.

Lemma u32_inj a b : w32 a -> w32 b -> Uint32ToBytes (Z.of_nat a) = Uint32ToBytes (Z.of_nat b) -> a = b.
Proof.
  unfold w32, Uint32ToBytes. intros Ha Hb E. apply (f_equal be_val) in E. rewrite !be_val_be_bytes in E. change (256 ^ Z.of_nat 4)%Z with (2 ^ 32)%Z in E.
  rewrite !Z.mod_small in E by lia. lia.
Qed.

Lemma app_inj_l {A} (a b c d : list A) : length a = length c -> a ++ b = c ++ d -> a = c /\ b = d.
Proof.
  revert c. induction a as [|x a IH]; intros [|y c] L E; try discriminate; [auto|]. cbn [app] in E. inversion E; subst.
  cbn [length] in L. destruct (IH c ltac:(lia) H1) as (-> & ->). auto.
Qed.

Lemma idr_length ID r : length (idr ID r) = (length ID + 4)%nat.
Proof. unfold idr. rewrite app_length, u32_length. reflexivity. Qed.
Lemma idrj_length ID r j : length (idrj ID r j) = (length ID + 8)%nat.
Proof. unfold idrj. rewrite app_length, idr_length, u32_length. lia. Qed.
Lemma idstage_length ID r j s : length (idstage ID r j s) = (length ID + 9)%nat.
Proof. unfold idstage. rewrite app_length, idrj_length. cbn [length]. lia. Qed.

(** Base identifiers of the same length. *)
Lemma idr_inj ID ID' r r' : length ID = length ID' -> w32 r -> w32 r' -> idr ID r = idr ID' r' -> ID = ID' /\ r = r'.
Proof.
  intros L Hr Hr' E. unfold idr in E. apply app_inj_l in E; [|exact L]. destruct E as (E1 & E2). split; [exact E1|apply u32_inj; assumption].
Qed.

Lemma idstage_inj ID ID' r r' j j' s s' : length ID = length ID' -> w32 r -> w32 r' -> w32 j -> w32 j' ->
  idstage ID r j s = idstage ID' r' j' s' -> ID = ID' /\ r = r' /\ j = j' /\ s = s'.
Proof.
  intros L Hr Hr' Hj Hj' E. unfold idstage in E. apply app_inj_l in E; [|rewrite !idrj_length; lia]. destruct E as (E1 & E2).
  unfold idrj in E1. apply app_inj_l in E1; [|rewrite !idr_length; lia]. destruct E1 as (E1 & E3). apply idr_inj in E1; auto. destruct E1 as (-> & ->).
  apply u32_inj in E3; auto. inversion E2 as [E4]. auto with zarith.
Qed.

Lemma render_inj ID ID' k k' : length ID = length ID' -> kok k -> kok k' -> render ID k = render ID' k' -> ID = ID' /\ k = k'.
Proof.
  intros L K K' E. pose proof (f_equal (@length Z) E) as EL.
  destruct k as [r j s h|r|r|r], k' as [r' j' s' h'|r'|r'|r']; cbn [render kok] in *; unfold smEcho, smDone, smNo, smUnlock in *;
    rewrite ?app_length, ?idstage_length, ?idr_length in EL; unfold bEcho, bDone, bUnlock in EL; cbn [length] in EL; try lia.
  - destruct K as (K1 & K2 & K3), K' as (K1' & K2' & K3'). apply app_inj_l in E; [|reflexivity]. destruct E as (_ & E).
    apply app_inj_l in E; [|rewrite !idstage_length; lia]. destruct E as (E & ->). apply idstage_inj in E; auto. destruct E as (-> & -> & -> & ->). auto.
  - apply app_inj_l in E; [|reflexivity]. destruct E as (_ & E). apply idr_inj in E; auto. destruct E as (-> & ->). auto.
  - apply app_inj_l in E; [|reflexivity]. destruct E as (_ & E). apply idr_inj in E; auto. destruct E as (-> & ->). auto.
  - apply app_inj_l in E; [|reflexivity]. destruct E as (_ & E). apply idr_inj in E; auto. destruct E as (-> & ->). auto.
Qed.

(** Base identifiers of any length: the length of what is signed gives the length of the identifier. *)
Lemma render_inj_any ID ID' k k' : kok k -> kok k' -> render ID k = render ID' k' -> ID = ID' /\ k = k'.
Proof.
  intros K K' E. apply render_inj; try assumption. pose proof (f_equal (@length Z) E) as EL. pose proof (f_equal (hd 0%Z) E) as EH.
  destruct k as [r j s h|r|r|r], k' as [r' j' s' h'|r'|r'|r']; cbn [render kok] in *; unfold smEcho, smDone, smNo, smUnlock in *; try discriminate;
    rewrite ?app_length, ?idstage_length, ?idr_length in EL; unfold bEcho, bDone, bUnlock in EL; cbn [length] in EL; lia.
Qed.

(** ** Executions *)

Section Exec.
Variable H : list Z -> list Z.
Variable coin : list Z -> Z.
Variables N F : nat.
Variable ID : list Z.
Variable bad : list nat.         (* the corrupted members *)
Variable vals : nat -> list Z.   (* the inputs of the members *)

Definition hon (i : nat) : Prop := (i < N)%nat /\ ~ In i bad.

(** 2F+1 different members have signed; corrupted members sign anything. *)
Definition certified (g : gstate) (sm : list Z) : Prop :=
  exists L, NoDup L /\ (2 * F + 1 <= length L)%nat /\ forall i, In i L -> (i < N)%nat /\ (hon i -> In (i, sm) (gs_rel g)).

(** No forgery: what the network delivers was signed. *)
Definition known_sig (g : gstate) (s : sigv) : Prop := match s with Sig sm => certified g sm | NoSig => True end.
Definition known_share (g : gstate) (s : share) : Prop :=
  match s with Sh i sm => (i < N)%nat /\ (hon i -> In (i, sm) (gs_rel g)) | ShBad => True end.

Definition allowed (g : gstate) (e : mev) : Prop :=
  match e with
  | EvValue _ _ _ _ s | EvFinish _ _ _ s | EvPreVoteYes _ _ s | EvHalt _ _ s => known_sig g s
  | EvDone _ s | EvPreVoteNo _ s => known_share g s
  | EvVoteYes _ _ s sh | EvVoteNo _ s sh => known_sig g s /\ known_share g sh
  | _ => True
  end.

(** Executions of at most 2^32 rounds in which the steps also satisfy P. *)
Variable P : gstate -> nat -> mev -> Prop.

Inductive reach : gstate -> Prop :=
| reach_init : reach (gs_init vals)
| reach_step g i e st sms : reach g -> hon i -> allowed g e -> P g i e -> w32 (m_r (gs_m g i)) ->
    mstep H coin N F ID (gs_m g i) e = Ret (Some (st, sms)) -> reach (gs_next g i st sms).

Hypothesis HH : forall v, length (H v) = 64%nat.
Hypothesis HN : w32 N.

(** ** What a step does to a round *)

Record le (d d' : rnd) : Prop := mkLe {
  e_stage : forall j, (d_stage d j <= d_stage d' j)%nat;
  e_lead : forall l, d_lead d = Some l -> d_lead d' = Some l;
  e_past : d_past d = true -> d_past d' = true /\ forall j, d_lock d' j = d_lock d j;
  e_lock : forall j, d_lock d j <> None -> d_lock d' j <> None;
  e_pre : d_pre d = true -> d_pre d' = true;
  e_voted : d_voted d = true -> d_voted d' = true;
  e_doneSent : d_doneSent d = true -> d_doneSent d' = true;
  e_flag : forall f, d_flag d = Some f -> d_flag d' = Some f }.

Lemma le_refl d : le d d. Proof. constructor; auto. Qed.

Lemma le_setr st r d : le (m_rounds st r) d -> forall k, le (m_rounds st k) (m_rounds (setr st r d) k).
Proof.
  intros L k. unfold setr, putr. cbn [m_rounds]. destruct (k =? r)%nat eqn:E; [apply Nat.eqb_eq in E; subst; exact L|apply le_refl].
Qed.

Ltac lefields := constructor; cbn [d_stage d_lock d_fin d_finN d_done d_doneSent d_coins d_lead d_past d_pre d_pn d_flag d_voted d_vy d_vn d_vflag]; auto; try (intros; congruence).
Ltac inv_s E := apply (f_equal (fun x => match x with Ret (Some a) => Some a | _ => None end)) in E; cbv beta iota in E.

Lemma stage_ready_up st d j stage : stage_ready st d j stage = true -> (d_stage d j < stage)%nat.
Proof.
  unfold stage_ready. intros E. apply orb_prop in E. destruct E as [E|E]; [apply Nat.eqb_eq in E; lia|].
  apply andb_prop in E. destruct E as [E _]. apply andb_prop in E. destruct E as [E1 E2].
  apply Nat.eqb_eq in E1. apply Nat.eqb_eq in E2. lia.
Qed.

Lemma step_le st e st' sms : mstep H coin N F ID st e = Ret (Some (st', sms)) -> forall r, le (m_rounds st r) (m_rounds st' r).
Proof.
  intros E. destruct e; cbn [mstep] in E.
  - unfold value_step in E. destruct (_ && _) eqn:EB; [|discriminate]. rewrite !andb_true_iff in EB. destruct EB as (((E1 & E2) & E3) & E4).
    apply negb_true_iff in E2. apply stage_ready_up in E4.
    assert (UP : forall j0, (d_stage (m_rounds st r) j0 <= up (d_stage (m_rounds st r)) j stage j0)%nat).
    { intros j0. unfold up. destruct (j0 =? j)%nat eqn:EJ; [apply Nat.eqb_eq in EJ; subst; lia|lia]. }
    destruct stage as [|[|[|s]]]; try discriminate.
    + inversion E; subst. apply le_setr. lefields.
    + destruct (vsig _ _); [|discriminate]. inversion E; subst. apply le_setr. lefields. intros j0 K. unfold up. destruct (j0 =? j)%nat; [discriminate|exact K].
  - unfold finish_step in E. destruct (r <=? m_r st)%nat; [|discriminate]. destruct (_ && _); [|discriminate]. destruct (vsig _ _); inversion E; subst.
    + apply le_setr. lefields.
    + intros. apply le_refl.
  - unfold election_step in E. destruct (_ && _); inversion E; subst. apply le_setr. lefields.
  - unfold done_step in E. destruct (d_lead (m_rounds st r)) eqn:EL; [discriminate|]. destruct (r <=? m_r st)%nat; [|discriminate]. destruct (vshare _ _); inversion E; subst.
    + apply le_setr. lefields.
    + intros. apply le_refl.
  - unfold leader_step in E. destruct (m_out st); [discriminate|]. destruct (d_lead (m_rounds st (m_r st))) eqn:EL; [|discriminate].
    destruct (d_past _) eqn:EP; [discriminate|]. destruct (assoc _ _) as [(v & sg)|]; inversion E; subst; cbn [m_rounds]; (apply le_setr; lefields).
  - unfold preVote_step in E. destruct (d_lead (m_rounds st r)) eqn:EL; [|discriminate]. destruct (_ && _); inversion E; subst. apply le_setr. lefields.
  - unfold preVoteYes_step in E. destruct (d_lead (m_rounds st r)) eqn:EL; [|discriminate]. destruct (vsig _ _); inversion E; subst.
    + apply le_setr. lefields. intros f ->. reflexivity.
    + intros. apply le_refl.
  - unfold preVoteNo_step in E. destruct (d_lead (m_rounds st r)) eqn:EL; [|discriminate]. destruct (vshare _ _); inversion E; subst.
    + apply le_setr. lefields. intros f ->. reflexivity.
    + intros. apply le_refl.
  - unfold vote_step in E. destruct (d_lead (m_rounds st r)) eqn:EL; [|discriminate]. destruct (d_flag (m_rounds st r)) eqn:EF; [|discriminate].
    destruct (_ && _); inversion E; subst. apply le_setr. lefields.
  - unfold voteYes_step in E. destruct (d_lead (m_rounds st r)) eqn:EL; [|discriminate]. destruct (_ && _); inversion E; subst.
    + apply le_setr. lefields.
    + intros. apply le_refl.
  - unfold voteNo_step in E. destruct (d_lead (m_rounds st r)) eqn:EL; [|discriminate]. destruct (_ && _); inversion E; subst.
    + apply le_setr. lefields.
    + intros. apply le_refl.
  - unfold halt_step in E. destruct (d_lead (m_rounds st r)) eqn:EL; [|discriminate]. destruct (vsig _ _).
    + destruct (m_halt st); inversion E; subst. intros. apply le_refl.
    + inversion E; subst. intros. apply le_refl.
  - unfold haltTake_step in E. destruct (m_out st), (m_halt st); inversion E; subst. intros. apply le_refl.
  - unfold result_step in E. destruct (m_out st); [discriminate|]. destruct (d_vflag _) as [f|]; [|discriminate]. destruct (d_past _); [|discriminate].
    destruct f; inversion E; subst; intros; apply le_refl.
Qed.

(** ** Certificates *)

Lemma cert_mono g g' sm : (forall x, In x (gs_rel g) -> In x (gs_rel g')) -> certified g sm -> certified g' sm.
Proof.
  intros M (L & H1 & H2 & H3). exists L. split; [exact H1|]. split; [exact H2|]. intros i Hi. destruct (H3 i Hi) as (A & B). split; [exact A|].
  intros K. apply M. apply B. exact K.
Qed.

Lemma share_mono g g' s : (forall x, In x (gs_rel g) -> In x (gs_rel g')) -> known_share g s -> known_share g' s.
Proof. intros M. destruct s; cbn [known_share]; auto. intros (A & B). auto. Qed.

Hypothesis Hbad : (length bad <= F)%nat.

Lemma hon_in L : NoDup L -> (forall i, In i L -> (i < N)%nat) -> (F + 1 <= length L)%nat -> exists i, In i L /\ hon i.
Proof.
  intros ND HM HL. set (f := fun i => if in_dec Nat.eq_dec i bad then true else false). pose proof (RbcProofs.filter_split f L) as FS.
  assert (L1 : (length (filter f L) <= length bad)%nat).
  { apply NoDup_incl_length; [apply NoDup_filter; exact ND|]. intros x Hx. apply filter_In in Hx. destruct Hx as (_ & Hx). unfold f in Hx.
    destruct (in_dec Nat.eq_dec x bad); [assumption|discriminate]. }
  destruct (filter (fun x => negb (f x)) L) as [|s l] eqn:EF; [cbn [length] in FS; lia|].
  assert (Hs : In s (filter (fun x => negb (f x)) L)) by (rewrite EF; left; reflexivity).
  apply filter_In in Hs. destruct Hs as (Hs & Eg). exists s. split; [exact Hs|]. split; [apply HM; exact Hs|].
  unfold f in Eg. destruct (in_dec Nat.eq_dec s bad); [discriminate|assumption].
Qed.

(** Quorums of 2F+1 meet in an honest member only if N is not larger than 3F+1. *)
Hypothesis HNF : (N <= 3 * F + 1)%nat.

Lemma meet g sm sm' : certified g sm -> certified g sm' -> exists i, hon i /\ In (i, sm) (gs_rel g) /\ In (i, sm') (gs_rel g).
Proof.
  intros (L1 & D1 & H1 & M1) (L2 & D2 & H2 & M2).
  set (f := fun s : nat => if in_dec Nat.eq_dec s L2 then true else false).
  pose proof (RbcProofs.filter_split f L1) as FS.
  assert (U : (length (filter (fun x => negb (f x)) L1 ++ L2) <= N)%nat).
  { rewrite <- (seq_length N 0). apply NoDup_incl_length.
    - apply RbcProofs.nodup_app_intro; [apply NoDup_filter; exact D1|exact D2|].
      intros x Hx Hx2. apply filter_In in Hx. destruct Hx as (_ & Hx). unfold f in Hx. destruct (in_dec Nat.eq_dec x L2); [discriminate|contradiction].
    - intros x Hx. apply in_seq. apply in_app_or in Hx. destruct Hx as [Hx|Hx]; [|destruct (M2 x Hx); lia]. apply filter_In in Hx. destruct (M1 x (proj1 Hx)); lia. }
  rewrite app_length in U.
  destruct (hon_in (filter f L1)) as (s & Hs & Hh).
  - apply NoDup_filter. exact D1.
  - intros x Hx. apply filter_In in Hx. apply M1. apply Hx.
  - lia.
  - apply filter_In in Hs. destruct Hs as (Hs & Ef). exists s. split; [exact Hh|]. unfold f in Ef. destruct (in_dec Nat.eq_dec s L2) as [Hs2|]; [|discriminate].
    split; [apply M1; assumption|apply M2; assumption].
Qed.

(** ** The invariant *)

(** Why member i has signed. *)
Definition just (g : gstate) (i : nat) (k : kind) : Prop :=
  match k with
  | KEcho r j s h =>
    (s = 1%nat /\ (1 <= d_stage (m_rounds (gs_m g i) r) j)%nat) \/ (s = 2%nat /\ certified g (smEcho ID r j 1 h) /\
      let d := m_rounds (gs_m g i) r in
      d_lock d j <> None \/ (d_lead d = Some j /\ d_voted d = true /\ exists v sg, d_flag d = Some (Some (v, sg)) /\ H v = h))
  | KDone r => d_doneSent (m_rounds (gs_m g i) r) = true
  | KNo r => let d := m_rounds (gs_m g i) r in d_pre d = true /\ d_past d = true /\ exists l, d_lead d = Some l /\ d_lock d l = None
  | KUnlock r => let d := m_rounds (gs_m g i) r in d_voted d = true /\ d_flag d = Some None
  end.

Record rinv (g : gstate) (r : nat) (d : rnd) : Prop := mkRI {
  n_lead : forall l, d_lead d = Some l -> (l < N)%nat;
  n_flag : forall l v sg, d_lead d = Some l -> d_flag d = Some (Some (v, sg)) -> certified g (smEcho ID r l 1 (H v));
  n_flagl : forall f, d_flag d = Some f -> d_lead d <> None;
  n_fin : forall j v sg, In (j, (v, sg)) (d_fin d) -> (j < N)%nat /\ certified g (smEcho ID r j 2 (H v));
  n_vy : forall sh, In sh (d_vy d) -> exists l v i, d_lead d = Some l /\ sh = Sh i (smEcho ID r l 2 (H v)) /\ known_share g sh /\
     certified g (smEcho ID r l 1 (H v));
  n_vno : forall s, d_vflag d = Some (VNo s) -> s = NoSig }.

Definition decided (g : gstate) (st : mst) (v : list Z) : Prop :=
  exists r l, w32 r /\ d_lead (m_rounds st r) = Some l /\ certified g (smEcho ID r l 2 (H v)).

Record inv (g : gstate) : Prop := mkV {
  v_rel : forall i sm, In (i, sm) (gs_rel g) -> hon i /\ exists k, kok k /\ sm = render ID k /\ just g i k;
  v_one : forall i r j h h', w32 r -> w32 j -> length h = 64%nat -> length h' = 64%nat ->
     In (i, smEcho ID r j 1 h) (gs_rel g) -> In (i, smEcho ID r j 1 h') (gs_rel g) -> h = h';
  v_fresh : forall i r, (m_r (gs_m g i) < r)%nat -> m_rounds (gs_m g i) r = rnd0;
  v_round : forall i r, rinv g r (m_rounds (gs_m g i) r) }.

Lemma rinv0 g r : rinv g r rnd0.
Proof. constructor; cbn; intros; try discriminate; contradiction. Qed.

Lemma rinv_mono g g' r d : (forall x, In x (gs_rel g) -> In x (gs_rel g')) -> rinv g r d -> rinv g' r d.
Proof.
  intros M [a1 a2 a3 a4 a5 a6]. constructor; auto.
  - intros l v sg E1 E2. apply (cert_mono g); [exact M|]. apply (a2 l v sg); assumption.
  - intros j v sg Hj. destruct (a4 j v sg Hj) as (A & B). split; [exact A|]. apply (cert_mono g); assumption.
  - intros sh Hs. destruct (a5 sh Hs) as (l & v & i & b1 & b2 & b3 & b4). exists l, v, i. split; [exact b1|]. split; [exact b2|].
    split; [apply (share_mono g); assumption|apply (cert_mono g); assumption].
Qed.

Lemma just_mono g i st sms k0 k : (forall r, le (m_rounds (gs_m g i) r) (m_rounds st r)) -> just g k0 k -> just (gs_next g i st sms) k0 k.
Proof.
  intros LE J. assert (M : forall x, In x (gs_rel g) -> In x (gs_rel (gs_next g i st sms))) by (intros x Hx; apply in_or_app; left; exact Hx).
  assert (LE' : forall r, le (m_rounds (gs_m g k0) r) (m_rounds (gs_m (gs_next g i st sms) k0) r)).
  { intros r. cbn [gs_next gs_m]. destruct (k0 =? i)%nat eqn:E; [apply Nat.eqb_eq in E; subst; apply LE|apply le_refl]. }
  destruct k as [r j s h|r|r|r]; cbn [just] in *.
  - destruct J as [(A & B)|(A & B)]; [left|right]; (split; [exact A|]).
    + pose proof (e_stage _ _ (LE' r) j). lia.
    + destruct B as (B & C). split; [apply (cert_mono g); assumption|]. destruct C as [C|(C1 & C2 & v & sg & C3 & C4)].
      * left. apply (e_lock _ _ (LE' r)). exact C.
      * right. split; [apply (e_lead _ _ (LE' r)); exact C1|]. split; [apply (e_voted _ _ (LE' r)); exact C2|]. exists v, sg.
        split; [apply (e_flag _ _ (LE' r)); exact C3|exact C4].
  - apply (e_doneSent _ _ (LE' r)). exact J.
  - destruct J as (A & B & l & C & D). destruct (e_past _ _ (LE' r) B) as (E1 & E2). split; [apply (e_pre _ _ (LE' r)); exact A|]. split; [exact E1|].
    exists l. split; [apply (e_lead _ _ (LE' r)); exact C|]. rewrite E2. exact D.
  - destruct J as (A & B). split; [apply (e_voted _ _ (LE' r)); exact A|apply (e_flag _ _ (LE' r)); exact B].
Qed.

(** Stage-1 certificates of one instance are for one value. *)
Lemma unique1 g r j h h' : inv g -> w32 r -> w32 j -> length h = 64%nat -> length h' = 64%nat ->
  certified g (smEcho ID r j 1 h) -> certified g (smEcho ID r j 1 h') -> h = h'.
Proof.
  intros I Hr Hj L L' C C'. destruct (meet g _ _ C C') as (i & _ & A & B). exact (v_one _ I i r j h h' Hr Hj L L' A B).
Qed.

(** What a step signs, and what it does to the round data. *)
Lemma vsig_known g sm s : vsig sm s = true -> known_sig g s -> certified g sm.
Proof. destruct s as [sm'|]; cbn [vsig known_sig]; [|discriminate]. intros E K. apply bytes_eqb_eq in E. subst. exact K. Qed.

Lemma vshare_eq sm s : vshare sm s = true -> exists i, s = Sh i sm.
Proof. destruct s as [i sm'|]; cbn [vshare]; [|discriminate]. intros E. apply bytes_eqb_eq in E. subst. exists i. reflexivity. Qed.

Ltac fin E := inversion E; subst; clear E.
Ltac dfields := cbn [d_stage d_lock d_fin d_finN d_done d_doneSent d_coins d_lead d_past d_pre d_pn d_flag d_voted d_vy d_vn d_vflag] in *.

Lemma setr_same st r d : m_rounds (setr st r d) r = d.
Proof. unfold setr, putr. cbn [m_rounds]. rewrite Nat.eqb_refl. reflexivity. Qed.

Lemma round_setr g st r d : (forall k, rinv g k (m_rounds st k)) -> rinv g r d -> forall k, rinv g k (m_rounds (setr st r d) k).
Proof.
  intros A B k. unfold setr, putr. cbn [m_rounds]. destruct (k =? r)%nat eqn:E; [apply Nat.eqb_eq in E; subst; exact B|apply A].
Qed.

Lemma lead_range r l : (0 < N)%nat -> Z.to_nat (r mod Z.of_nat N) = l -> (l < N)%nat.
Proof. intros HP <-. pose proof (Z.mod_pos_bound r (Z.of_nat N)). lia. Qed.

Lemma step_rounds g st e st' sms : (0 < N)%nat -> allowed g e -> (forall k, rinv g k (m_rounds st k)) ->
  mstep H coin N F ID st e = Ret (Some (st', sms)) -> forall k, rinv g k (m_rounds st' k).
Proof.
  intros HP AL I E. destruct e; cbn [mstep allowed] in *.
  - unfold value_step in E. destruct (_ && _) eqn:EB; [|discriminate]. pose proof (I r) as [a1 a2 a3 a4 a5 a6].
    destruct stage as [|[|[|s]]]; try discriminate.
    + fin E. apply round_setr; [exact I|]. constructor; dfields; assumption.
    + destruct (vsig _ _); [|discriminate]. fin E. apply round_setr; [exact I|]. constructor; dfields; assumption.
  - unfold finish_step in E. pose proof (I r) as [a1 a2 a3 a4 a5 a6]. destruct (r <=? m_r st)%nat; [|discriminate]. destruct (_ && _) eqn:ES; [|discriminate].
    destruct (vsig _ _) eqn:EV; fin E; [|exact I]. apply round_setr; [exact I|]. constructor; dfields; try assumption. intros j v0 sg0 [Hj|Hj]; [|apply a4 in Hj; exact Hj].
    inversion Hj; subst. rewrite andb_true_iff in ES. split; [lia|]. apply (vsig_known g _ _ EV AL).
  - unfold election_step in E. pose proof (I r) as [a1 a2 a3 a4 a5 a6]. destruct (_ && _); fin E. apply round_setr; [exact I|]. constructor; dfields; assumption.
  - unfold done_step in E. pose proof (I r) as [a1 a2 a3 a4 a5 a6]. destruct (d_lead (m_rounds st r)) eqn:EL; [discriminate|]. destruct (r <=? m_r st)%nat; [|discriminate].
    destruct (vshare _ _); fin E; [|exact I]. apply round_setr; [exact I|]. constructor; dfields; try assumption.
    + intros l Hl. destruct (_ <? _)%nat; [|discriminate]. apply (f_equal (fun o => match o with Some a => a | None => l end)) in Hl. apply (lead_range _ _ HP Hl).
    + intros l v sg Hl Hf. exfalso. apply (a3 _ Hf). reflexivity.
    + intros f Hf. exfalso. apply (a3 _ Hf). reflexivity.
    + intros sh0 Hs. destruct (a5 sh0 Hs) as (l & v & i & K & _). discriminate.
  - unfold leader_step in E. pose proof (I (m_r st)) as [a1 a2 a3 a4 a5 a6]. destruct (m_out st); [discriminate|]. destruct (d_lead (m_rounds st (m_r st))) eqn:EL; [|discriminate].
    destruct (d_past _) eqn:EP; [discriminate|]. destruct (assoc _ _) as [(v & sg)|]; fin E; cbn [m_rounds]; (apply round_setr; [exact I|]); constructor; dfields; assumption.
  - unfold preVote_step in E. pose proof (I r) as [a1 a2 a3 a4 a5 a6]. destruct (d_lead (m_rounds st r)) eqn:EL; [|discriminate]. destruct (_ && _); fin E.
    apply round_setr; [exact I|]. constructor; dfields; rewrite ?EL; assumption.
  - unfold preVoteYes_step in E. pose proof (I r) as [a1 a2 a3 a4 a5 a6]. destruct (d_lead (m_rounds st r)) eqn:EL; [|discriminate]. destruct (vsig _ _) eqn:EV; fin E; [|exact I].
    apply round_setr; [exact I|]. constructor; dfields; rewrite ?EL; try assumption; [|intros; discriminate].
    intros l v0 sg0 Hl. destruct (d_flag (m_rounds st r)) as [f|] eqn:EF.
    + intros Hf. apply (a2 l v0 sg0 Hl). exact Hf.
    + intros Hf. inversion Hf; subst. inversion Hl; subst. apply (vsig_known g _ _ EV AL).
  - unfold preVoteNo_step in E. pose proof (I r) as [a1 a2 a3 a4 a5 a6]. destruct (d_lead (m_rounds st r)) eqn:EL; [|discriminate]. destruct (vshare _ _) eqn:EV; fin E; [|exact I].
    apply round_setr; [exact I|]. constructor; dfields; rewrite ?EL; try assumption; [|intros; discriminate].
    intros l v0 sg0 Hl. destruct (d_flag (m_rounds st r)) as [f|] eqn:EF.
    + intros Hf. apply (a2 l v0 sg0 Hl). exact Hf.
    + destruct (_ <? _)%nat; discriminate.
  - unfold vote_step in E. pose proof (I r) as [a1 a2 a3 a4 a5 a6]. destruct (d_lead (m_rounds st r)) eqn:EL; [|discriminate]. destruct (d_flag (m_rounds st r)) eqn:EF; [|discriminate].
    destruct (_ && _); fin E. apply round_setr; [exact I|]. constructor; dfields; rewrite ?EL, ?EF; assumption.
  - unfold voteYes_step in E. pose proof (I r) as [a1 a2 a3 a4 a5 a6]. destruct (d_lead (m_rounds st r)) eqn:EL; [|discriminate].
    destruct (vsig _ _ && vshare _ _) eqn:EB; fin E; [|exact I]. apply andb_true_iff in EB. destruct EB as (EV & EW). destruct AL as (A1 & A2).
    apply round_setr; [exact I|]. constructor; dfields; rewrite ?EL; try assumption.
    2: { intros s0 Hf. destruct (d_vflag (m_rounds st r)) as [f|]; cbn [first] in Hf; [apply a6; exact Hf|]. destruct (_ <? _)%nat; [discriminate|]. destruct (_ <? _)%nat; discriminate. }
    intros sh0 Hs. apply in_app_or in Hs. destruct Hs as [Hs|[<-|[]]]; [apply a5; exact Hs|].
    destruct (vshare_eq _ _ EW) as (i & Ei). exists n, v, i. split; [reflexivity|]. split; [exact Ei|]. split; [exact A2|]. apply (vsig_known g _ _ EV A1).
  - unfold voteNo_step in E. pose proof (I r) as [a1 a2 a3 a4 a5 a6]. destruct (d_lead (m_rounds st r)) eqn:EL; [|discriminate].
    destruct (vsig _ _ && vshare _ _) eqn:EB; fin E; [|exact I].
    apply round_setr; [exact I|]. constructor; dfields; rewrite ?EL; try assumption.
    intros s0 Hf. destruct (d_vflag (m_rounds st r)) as [f|]; cbn [first] in Hf; [apply a6; exact Hf|]. destruct (_ <? _)%nat; [|discriminate]. inversion Hf. clear Hf.
    unfold recover. replace (filter (vshare (smUnlock ID r)) (d_vy (m_rounds st r))) with (@nil share); [rewrite firstn_nil; cbn [map length]; rewrite Nat.add_1_r; reflexivity|].
    symmetry. assert (NV : forall sh0, In sh0 (d_vy (m_rounds st r)) -> vshare (smUnlock ID r) sh0 = false).
    { intros sh0 Hs. destruct (a5 sh0 Hs) as (l & v & i & _ & -> & _). reflexivity. }
    clear -NV. induction (d_vy (m_rounds st r)) as [|a q IH]; [reflexivity|]. cbn [filter]. rewrite (NV a) by (left; reflexivity). apply IH. intros s Hs. apply NV. right. exact Hs.
  - unfold halt_step in E. destruct (d_lead (m_rounds st r)) eqn:EL; [|discriminate]. destruct (vsig _ _).
    + destruct (m_halt st); fin E. exact I.
    + fin E. exact I.
  - unfold haltTake_step in E. destruct (m_out st), (m_halt st); fin E. exact I.
  - unfold result_step in E. destruct (m_out st); [discriminate|]. destruct (d_vflag _) as [f|]; [|discriminate]. destruct (d_past _); [|discriminate].
    destruct f; fin E; exact I.
Qed.

(** Rounds that have not begun are untouched. *)
Lemma step_fresh st e st' sms : (forall r, (m_r st < r)%nat -> m_rounds st r = rnd0) ->
  mstep H coin N F ID st e = Ret (Some (st', sms)) -> forall r, (m_r st' < r)%nat -> m_rounds st' r = rnd0.
Proof.
  intros I E. assert (S : forall r d, (r <= m_r st)%nat -> forall k, (m_r (setr st r d) < k)%nat -> m_rounds (setr st r d) k = rnd0).
  { intros r d Hr k Hk. unfold setr, putr in *. cbn [m_rounds m_r] in *. destruct (k =? r)%nat eqn:EK; [apply Nat.eqb_eq in EK; lia|apply I; exact Hk]. }
  assert (LR : forall r l, d_lead (m_rounds st r) = Some l -> (r <= m_r st)%nat).
  { intros r l Hl. destruct (Nat.le_gt_cases r (m_r st)) as [K|K]; [exact K|]. rewrite (I r K) in Hl. discriminate. }
  destruct e; cbn [mstep] in *.
  - unfold value_step in E. destruct (_ && _) eqn:EB; [|discriminate]. rewrite !andb_true_iff, Nat.leb_le in EB. destruct stage as [|[|[|s]]]; try discriminate.
    + fin E. apply S. tauto.
    + destruct (vsig _ _); [|discriminate]. fin E. apply S. tauto.
  - unfold finish_step in E. destruct (r <=? m_r st)%nat eqn:EL; [|discriminate]. apply Nat.leb_le in EL. destruct (_ && _) eqn:ES; [|discriminate].
    destruct (vsig _ _) eqn:EV; fin E; [apply S; exact EL|exact I].
  - unfold election_step in E. destruct (_ && _) eqn:EB; fin E. rewrite !andb_true_iff, Nat.leb_le in EB. apply S. tauto.
  - unfold done_step in E. destruct (d_lead (m_rounds st r)) eqn:EL; [discriminate|]. destruct (r <=? m_r st)%nat eqn:ER; [|discriminate]. apply Nat.leb_le in ER.
    destruct (vshare _ _); fin E; [apply S; exact ER|exact I].
  - unfold leader_step in E. destruct (m_out st); [discriminate|]. destruct (d_lead (m_rounds st (m_r st))) eqn:EL; [|discriminate].
    destruct (d_past _) eqn:EP; [discriminate|]. destruct (assoc _ _) as [(v & sg)|]; fin E; cbn [m_rounds m_r]; apply S; lia.
  - unfold preVote_step in E. destruct (d_lead (m_rounds st r)) eqn:EL; [|discriminate]. destruct (_ && _); fin E. apply S. apply (LR _ _ EL).
  - unfold preVoteYes_step in E. destruct (d_lead (m_rounds st r)) eqn:EL; [|discriminate]. destruct (vsig _ _) eqn:EV; fin E; [|exact I]. apply S. apply (LR _ _ EL).
  - unfold preVoteNo_step in E. destruct (d_lead (m_rounds st r)) eqn:EL; [|discriminate]. destruct (vshare _ _) eqn:EV; fin E; [|exact I]. apply S. apply (LR _ _ EL).
  - unfold vote_step in E. destruct (d_lead (m_rounds st r)) eqn:EL; [|discriminate]. destruct (d_flag (m_rounds st r)) eqn:EF; [|discriminate].
    destruct (_ && _); fin E. apply S. apply (LR _ _ EL).
  - unfold voteYes_step in E. destruct (d_lead (m_rounds st r)) eqn:EL; [|discriminate].
    destruct (vsig _ _ && vshare _ _) eqn:EB; fin E; [|exact I]. apply S. apply (LR _ _ EL).
  - unfold voteNo_step in E. destruct (d_lead (m_rounds st r)) eqn:EL; [|discriminate].
    destruct (vsig _ _ && vshare _ _) eqn:EB; fin E; [|exact I]. apply S. apply (LR _ _ EL).
  - unfold halt_step in E. destruct (d_lead (m_rounds st r)) eqn:EL; [|discriminate]. destruct (vsig _ _).
    + destruct (m_halt st); fin E. exact I.
    + fin E. exact I.
  - unfold haltTake_step in E. destruct (m_out st), (m_halt st); fin E. exact I.
  - unfold result_step in E. destruct (m_out st); [discriminate|]. destruct (d_vflag _) as [f|]; [|discriminate]. destruct (d_past _); [|discriminate].
    destruct f; fin E; cbn [m_rounds m_r]; intros r Hr; apply I; lia.
Qed.

(** What a step signs. *)
Lemma step_signs st e st' sms sm : w32 (m_r st) -> (forall r, (m_r st < r)%nat -> m_rounds st r = rnd0) ->
  (forall r l, d_lead (m_rounds st r) = Some l -> (l < N)%nat) ->
  mstep H coin N F ID st e = Ret (Some (st', sms)) -> In sm sms ->
  exists r, (r <= m_r st)%nat /\
  ((exists j v vd, e = EvValue r j 1 v vd /\ sms = [smEcho ID r j 1 (H v)] /\ (j < N)%nat /\ d_stage (m_rounds st r) j = 0%nat /\ d_stage (m_rounds st' r) j = 1%nat) \/
   (exists j v vd, e = EvValue r j 2 v vd /\ sms = [smEcho ID r j 2 (H v)] /\ (j < N)%nat /\ vsig (smEcho ID r j 1 (H v)) vd = true /\ d_lock (m_rounds st' r) j <> None) \/
   (exists l v sg, e = EvVote r /\ sms = [smEcho ID r l 2 (H v)] /\ d_lead (m_rounds st r) = Some l /\ d_flag (m_rounds st r) = Some (Some (v, sg)) /\
      d_voted (m_rounds st' r) = true) \/
   (e = EvVote r /\ sms = [smUnlock ID r] /\ d_voted (m_rounds st' r) = true /\ d_flag (m_rounds st' r) = Some None) \/
   (e = EvElection r /\ sms = [smDone ID r] /\ d_doneSent (m_rounds st' r) = true) \/
   (e = EvPreVote r /\ sms = [smNo ID r] /\ d_pre (m_rounds st' r) = true /\ d_past (m_rounds st' r) = true /\
      exists l, d_lead (m_rounds st' r) = Some l /\ d_lock (m_rounds st' r) l = None)).
Proof.
  intros W I LN E Hin.
  assert (LR : forall r l, d_lead (m_rounds st r) = Some l -> (r <= m_r st)%nat).
  { intros r l Hl. destruct (Nat.le_gt_cases r (m_r st)) as [K|K]; [exact K|]. rewrite (I r K) in Hl. discriminate. }
  destruct e; cbn [mstep] in *.
  - exists r. unfold value_step in E. destruct (_ && _) eqn:EB; [|discriminate]. rewrite !andb_true_iff, Nat.leb_le, Nat.ltb_lt in EB.
    destruct EB as (((B1 & B2) & B3) & B4). apply stage_ready_up in B4. split; [exact B1|]. destruct stage as [|[|[|s]]]; try discriminate.
    + left. exists j, v, vd. fin E. rewrite setr_same. dfields. unfold up. rewrite Nat.eqb_refl. repeat split; auto; lia.
    + right. left. exists j, v, vd. destruct (vsig _ _) eqn:EV; [|discriminate]. fin E. rewrite setr_same. dfields. unfold up. rewrite Nat.eqb_refl. repeat split; auto. discriminate.
  - unfold finish_step in E. destruct (r <=? m_r st)%nat; [|discriminate]. destruct (_ && _); [|discriminate]. destruct (vsig _ _); fin E; destruct Hin.
  - exists r. unfold election_step in E. destruct (_ && _) eqn:EB; fin E. rewrite !andb_true_iff, Nat.leb_le in EB. split; [tauto|]. do 4 right. left.
    rewrite setr_same. auto.
  - unfold done_step in E. destruct (d_lead (m_rounds st r)) eqn:EL; [discriminate|]. destruct (r <=? m_r st)%nat eqn:ER; [|discriminate].
    destruct (vshare _ _); fin E; destruct Hin.
  - unfold leader_step in E. destruct (m_out st); [discriminate|]. destruct (d_lead (m_rounds st (m_r st))) eqn:EL; [|discriminate].
    destruct (d_past _) eqn:EP; [discriminate|]. destruct (assoc _ _) as [(v & sg)|]; fin E; destruct Hin.
  - exists r. unfold preVote_step in E. destruct (d_lead (m_rounds st r)) eqn:EL; [|discriminate]. destruct (_ && _) eqn:EB; fin E. split; [apply (LR _ _ EL)|].
    do 5 right. apply andb_true_iff in EB. destruct EB as (B1 & B2). rewrite setr_same. dfields. destruct (d_lock (m_rounds st r) n) eqn:EK; [destruct Hin|].
    repeat split; auto. exists n. auto.
  - unfold preVoteYes_step in E. destruct (d_lead (m_rounds st r)) eqn:EL; [|discriminate]. destruct (vsig _ _) eqn:EV; fin E; destruct Hin.
  - unfold preVoteNo_step in E. destruct (d_lead (m_rounds st r)) eqn:EL; [|discriminate]. destruct (vshare _ _) eqn:EV; fin E; destruct Hin.
  - exists r. unfold vote_step in E. destruct (d_lead (m_rounds st r)) eqn:EL; [|discriminate]. destruct (d_flag (m_rounds st r)) as [f|] eqn:EF; [|discriminate].
    destruct (_ && _); fin E. split; [apply (LR _ _ EL)|]. rewrite setr_same. dfields. destruct f as [(v & sg)|].
    + do 2 right. left. exists n, v, sg. repeat split; auto.
    + do 3 right. left. auto.
  - unfold voteYes_step in E. destruct (d_lead (m_rounds st r)) eqn:EL; [|discriminate]. destruct (vsig _ _ && vshare _ _) eqn:EB; fin E; destruct Hin.
  - unfold voteNo_step in E. destruct (d_lead (m_rounds st r)) eqn:EL; [|discriminate]. destruct (vsig _ _ && vshare _ _) eqn:EB; fin E; destruct Hin.
  - unfold halt_step in E. destruct (d_lead (m_rounds st r)) eqn:EL; [|discriminate]. destruct (vsig _ _).
    + destruct (m_halt st); fin E. destruct Hin.
    + fin E. destruct Hin.
  - unfold haltTake_step in E. destruct (m_out st), (m_halt st); fin E. destruct Hin.
  - unfold result_step in E. destruct (m_out st); [discriminate|]. destruct (d_vflag _) as [f|]; [|discriminate]. destruct (d_past _); [|discriminate].
    destruct f; fin E; destruct Hin.
Qed.

Lemma w32_le a b : (a <= b)%nat -> w32 b -> w32 a.
Proof. unfold w32. lia. Qed.

Lemma inv_init : inv (gs_init vals).
Proof.
  constructor; cbn; try (intros; contradiction).
  - intros; reflexivity.
  - intros i r. apply rinv0.
Qed.

Lemma inv_step g i e st sms : inv g -> hon i -> allowed g e -> w32 (m_r (gs_m g i)) ->
  mstep H coin N F ID (gs_m g i) e = Ret (Some (st, sms)) -> inv (gs_next g i st sms).
Proof.
  intros I Hi AL W E. pose proof (step_le _ _ _ _ E) as LE.
  assert (HP : (0 < N)%nat) by (destruct Hi; lia).
  assert (M : forall x, In x (gs_rel g) -> In x (gs_rel (gs_next g i st sms))) by (intros x Hx; apply in_or_app; left; exact Hx).
  assert (FR : forall r, (m_r (gs_m g i) < r)%nat -> m_rounds (gs_m g i) r = rnd0) by (intros r Hr; apply (v_fresh _ I); exact Hr).
  assert (LN : forall r l, d_lead (m_rounds (gs_m g i) r) = Some l -> (l < N)%nat) by (intros r l; apply (n_lead _ _ _ (v_round _ I i r))).
  assert (ME : gs_m (gs_next g i st sms) i = st) by (cbn [gs_next gs_m]; rewrite Nat.eqb_refl; reflexivity).
  assert (NJ : forall sm, In sm sms -> exists k, kok k /\ sm = render ID k /\ just (gs_next g i st sms) i k).
  { intros sm Hs. destruct (step_signs _ _ _ _ sm W FR LN E Hs) as (r & Hr & D). pose proof (w32_le _ _ Hr W) as Wr.
    destruct D as [(j & v & vd & -> & -> & Hj & S0 & S1)|[(j & v & vd & -> & -> & Hj & EV & LK)|[(l & v & sg & -> & -> & Hl & Hf & Hvd)|[(-> & -> & A & B)|[(-> & -> & A)|(-> & -> & A & B & C)]]]]];
      destruct Hs as [<-|[]].
    - exists (KEcho r j 1 (H v)). split; [split; [exact Wr|split; [apply (w32_le j N); [lia|exact HN]|apply HH]]|]. split; [reflexivity|]. left. split; [reflexivity|]. rewrite ME. lia.
    - exists (KEcho r j 2 (H v)). split; [split; [exact Wr|split; [apply (w32_le j N); [lia|exact HN]|apply HH]]|]. split; [reflexivity|]. right. split; [reflexivity|].
      split; [|left; rewrite ME; exact LK]. apply (cert_mono g); [exact M|]. apply (vsig_known g _ _ EV AL).
    - exists (KEcho r l 2 (H v)). pose proof (LN r l Hl). split; [split; [exact Wr|split; [apply (w32_le l N); [lia|exact HN]|apply HH]]|]. split; [reflexivity|]. right. split; [reflexivity|].
      split; [|right; rewrite ME; split; [apply (e_lead _ _ (LE r)); exact Hl|]; split; [exact Hvd|]; exists v, sg; split; [apply (e_flag _ _ (LE r)); exact Hf|reflexivity]].
      apply (cert_mono g); [exact M|]. apply (n_flag _ _ _ (v_round _ I i r) l v sg Hl Hf).
    - exists (KUnlock r). split; [exact Wr|]. split; [reflexivity|]. cbn [just]. rewrite ME. auto.
    - exists (KDone r). split; [exact Wr|]. split; [reflexivity|]. cbn [just]. rewrite ME. auto.
    - exists (KNo r). split; [exact Wr|]. split; [reflexivity|]. cbn [just]. rewrite ME. auto. }
  constructor.
  - intros k sm Hs. cbn [gs_next gs_rel] in Hs. apply in_app_or in Hs. destruct Hs as [Hs|Hs].
    + destruct (v_rel _ I k sm Hs) as (A & kd & B & C & D). split; [exact A|]. exists kd. split; [exact B|]. split; [exact C|]. apply just_mono; assumption.
    + apply in_map_iff in Hs. destruct Hs as (sm' & Es & Hs). inversion Es; subst. split; [exact Hi|]. apply NJ. exact Hs.
  - intros k r j h h' Wr Wj L L' A B. cbn [gs_next gs_rel] in A, B. apply in_app_or in A. apply in_app_or in B.
    assert (NEW : forall h0, length h0 = 64%nat -> In (k, smEcho ID r j 1 h0) (map (fun sm => (i, sm)) sms) ->
       k = i /\ sms = [smEcho ID r j 1 h0] /\ d_stage (m_rounds (gs_m g i) r) j = 0%nat).
    { intros h0 L0 K. apply in_map_iff in K. destruct K as (sm' & Es & Hs). inversion Es; subst k sm'. split; [reflexivity|].
      destruct (step_signs _ _ _ _ _ W FR LN E Hs) as (r2 & Hr & D). pose proof (w32_le _ _ Hr W) as Wr2.
      assert (KO : kok (KEcho r j 1 h0)) by (split; auto).
      assert (NK : forall k2, kok k2 -> In (smEcho ID r j 1 h0) [render ID k2] -> KEcho r j 1 h0 = k2).
      { intros k2 K2 [Q|[]]. apply (render_inj ID ID (KEcho r j 1 h0) k2 eq_refl KO K2). symmetry. exact Q. }
      destruct D as [(j2 & v & vd & -> & -> & Hj & S0 & S1)|[(j2 & v & vd & -> & -> & Hj & EV & LK)|[(l & v & sg & -> & -> & Hl & Hf & Hvd)|[(-> & -> & A' & B')|[(-> & -> & A')|(-> & -> & A' & B' & C')]]]]].
      - specialize (NK (KEcho r2 j2 1 (H v)) ltac:(split; [exact Wr2|split; [apply (w32_le j2 N); [lia|exact HN]|apply HH]]) Hs). inversion NK; subst. auto.
      - specialize (NK (KEcho r2 j2 2 (H v)) ltac:(split; [exact Wr2|split; [apply (w32_le j2 N); [lia|exact HN]|apply HH]]) Hs). discriminate.
      - pose proof (LN _ _ Hl). specialize (NK (KEcho r2 l 2 (H v)) ltac:(split; [exact Wr2|split; [apply (w32_le l N); [lia|exact HN]|apply HH]]) Hs). discriminate.
      - specialize (NK (KUnlock r2) Wr2 Hs). discriminate.
      - specialize (NK (KDone r2) Wr2 Hs). discriminate.
      - specialize (NK (KNo r2) Wr2 Hs). discriminate. }
    assert (OLD : forall h0, length h0 = 64%nat -> In (k, smEcho ID r j 1 h0) (gs_rel g) -> (1 <= d_stage (m_rounds (gs_m g k) r) j)%nat).
    { intros h0 L0 K. destruct (v_rel _ I _ _ K) as (_ & kd & Kk & Ek & J).
      destruct (render_inj ID ID (KEcho r j 1 h0) kd eq_refl ltac:(split; auto) Kk Ek) as (_ & <-). cbn [just] in J. destruct J as [(_ & J)|(J & _)]; [exact J|discriminate]. }
    destruct A as [A|A], B as [B|B].
    + apply (v_one _ I k r j h h'); assumption.
    + destruct (NEW h' L' B) as (-> & _ & Z0). pose proof (OLD h L A). lia.
    + destruct (NEW h L A) as (-> & _ & Z0). pose proof (OLD h' L' B). lia.
    + destruct (NEW h L A) as (_ & E1 & _). destruct (NEW h' L' B) as (_ & E2 & _). rewrite E1 in E2. inversion E2 as [E3].
      apply app_inv_head in E3. exact E3.
  - intros k. cbn [gs_next gs_m]. destruct (k =? i)%nat; [apply (step_fresh _ _ _ _ FR E)|apply (v_fresh _ I)].
  - intros k r. apply (rinv_mono g); [exact M|]. cbn [gs_next gs_m]. destruct (k =? i)%nat; [|apply (v_round _ I)].
    apply (step_rounds g _ _ _ _ HP AL (v_round _ I i) E).
Qed.

Theorem reach_inv g : reach g -> inv g.
Proof. induction 1; [apply inv_init|eapply inv_step; eassumption]. Qed.

Lemma stage2_from g i r j h : inv g -> w32 r -> w32 j -> length h = 64%nat -> In (i, smEcho ID r j 2 h) (gs_rel g) -> certified g (smEcho ID r j 1 h).
Proof.
  intros I Hr Hj L0 K. destruct (v_rel _ I _ _ K) as (_ & kd & Kk & Ek & J).
  destruct (render_inj ID ID (KEcho r j 2 h) kd eq_refl ltac:(split; auto) Kk Ek) as (_ & <-). cbn [just] in J. destruct J as [(J & _)|(_ & J & _)]; [discriminate|exact J].
Qed.

(** Stage-2 certificates of one instance are for one value too. *)
Lemma unique2 g r j h h' : inv g -> w32 r -> w32 j -> length h = 64%nat -> length h' = 64%nat ->
  certified g (smEcho ID r j 2 h) -> certified g (smEcho ID r j 2 h') -> h = h'.
Proof.
  intros I Hr Hj L L' C C'. destruct (meet g _ _ C C') as (i & _ & A & B).
  assert (S1 : forall h0, length h0 = 64%nat -> In (i, smEcho ID r j 2 h0) (gs_rel g) -> certified g (smEcho ID r j 1 h0)).
  { intros h0 L0 K. destruct (v_rel _ I _ _ K) as (_ & kd & Kk & Ek & J).
    destruct (render_inj ID ID (KEcho r j 2 h0) kd eq_refl ltac:(split; auto) Kk Ek) as (_ & <-). cbn [just] in J. destruct J as [(J & _)|(_ & J & _)]; [discriminate|exact J]. }
  apply (unique1 g r j); auto.
Qed.
(** A certificate that nobody has a lock beside a decision certificate: someone without a lock has
    voted for the decision. *)
Lemma no_and_decision g r l h : inv g -> w32 r -> w32 l -> length h = 64%nat ->
  certified g (smNo ID r) -> certified g (smEcho ID r l 2 h) ->
  exists i, hon i /\ In (i, smNo ID r) (gs_rel g) /\ In (i, smEcho ID r l 2 h) (gs_rel g) /\
    (d_lock (m_rounds (gs_m g i) r) l <> None \/
     d_voted (m_rounds (gs_m g i) r) = true /\ exists v sg, d_flag (m_rounds (gs_m g i) r) = Some (Some (v, sg)) /\ H v = h) /\
    exists l', d_lead (m_rounds (gs_m g i) r) = Some l' /\ d_lock (m_rounds (gs_m g i) r) l' = None.
Proof.
  intros I Hr Hl L C C'. destruct (meet g _ _ C C') as (i & Hi & A & B). exists i. split; [exact Hi|]. split; [exact A|]. split; [exact B|].
  destruct (v_rel _ I _ _ A) as (_ & ka & Ka & Ea & Ja). destruct (render_inj ID ID (KNo r) ka eq_refl Hr Ka Ea) as (_ & <-).
  destruct (v_rel _ I _ _ B) as (_ & kb & Kb & Eb & Jb). destruct (render_inj ID ID (KEcho r l 2 h) kb eq_refl ltac:(split; auto) Kb Eb) as (_ & <-).
  cbn [just] in Ja, Jb. destruct Jb as [(Jb & _)|(_ & _ & Jb)]; [discriminate|]. destruct Ja as (_ & _ & Ja). split; [|exact Ja].
  destruct Jb as [Jb|(_ & J1 & J2)]; [left; exact Jb|right; split; assumption].
Qed.

(** ** Executions in which no member takes two messages of one sender *)

Definition once (g : gstate) (i : nat) (e : mev) : Prop :=
  match e with
  | EvDone r sh => ~ In (signer sh) (map signer (d_coins (m_rounds (gs_m g i) r)))
  | EvPreVoteNo r sh => ~ In (signer sh) (map signer (d_pn (m_rounds (gs_m g i) r)))
  | EvVoteYes r _ _ sh => ~ In (signer sh) (map signer (d_vy (m_rounds (gs_m g i) r)))
  | EvVoteNo r _ sh => ~ In (signer sh) (map signer (d_vn (m_rounds (gs_m g i) r)))
  | _ => True
  end.

Lemma nodupb_ok l : NoDup l -> nodupb l = true.
Proof.
  induction 1 as [|a l Ha _ IH]; [reflexivity|]. cbn [nodupb]. rewrite IH, andb_true_r. apply negb_true_iff. apply not_true_iff_false. intros K.
  apply existsb_exists in K. destruct K as (b & Hb & E). apply Nat.eqb_eq in E. subst. contradiction.
Qed.

Lemma nodupb_sound l : nodupb l = true -> NoDup l.
Proof.
  induction l as [|a l IH]; [constructor|]. cbn [nodupb]. rewrite andb_true_iff, negb_true_iff. intros (A & B). constructor; [|auto].
  intros K. apply not_true_iff_false in A. apply A. apply existsb_exists. exists a. split; [exact K|apply Nat.eqb_refl].
Qed.

Lemma nodup_firstn {A} n (l : list A) : NoDup l -> NoDup (firstn n l).
Proof.
  revert n. induction l as [|a l IH]; intros [|n] ND; cbn [firstn]; try constructor; inversion ND; subst; auto.
  intros K. apply H2. rewrite <- (firstn_skipn n l). apply in_or_app. left. exact K.
Qed.

Lemma recover_ok t sm l : NoDup (map signer l) -> (forall s, In s l -> vshare sm s = true) -> (t <= length l)%nat -> recover t sm l = Sig sm.
Proof.
  intros ND HV HL. unfold recover. assert (E : filter (vshare sm) l = l).
  { clear ND HL. induction l as [|a l IH]; [reflexivity|]. cbn [filter]. rewrite (HV a) by (left; reflexivity). f_equal. apply IH. intros s Hs. apply HV. right. exact Hs. }
  rewrite E, map_length, firstn_length, (Nat.min_l _ _ HL), Nat.leb_refl. cbn [andb]. rewrite <- firstn_map, nodupb_ok; [reflexivity|]. apply nodup_firstn. exact ND.
Qed.

Lemma nodup_snoc {A} (l : list A) a : NoDup l -> ~ In a l -> NoDup (l ++ [a]).
Proof. intros ND K. apply RbcProofs.nodup_app_intro; [exact ND|constructor; [intros []|constructor]|]. intros x Hx [<-|[]]. contradiction. Qed.

(** The leader that the coin of a round gives. *)
Definition leader_of (r : nat) : nat := Z.to_nat (coin (smDone ID r) mod Z.of_nat N).

Record oinv (g : gstate) (r : nat) (d : rnd) : Prop := mkOI {
  o_coins : NoDup (map signer (d_coins d)) /\ forall s, In s (d_coins d) -> vshare (smDone ID r) s = true;
  o_lead : forall l, d_lead d = Some l -> l = leader_of r;
  o_vy : NoDup (map signer (d_vy d));
  o_flag : forall v s, d_vflag d = Some (VYes v s) -> exists l, d_lead d = Some l /\ certified g (smEcho ID r l 2 (H v)) }.

Lemma oinv0 g r : oinv g r rnd0.
Proof. constructor; cbn; intros; try discriminate; try constructor; try (intros; contradiction); constructor. Qed.

Lemma oinv_mono g g' r d : (forall x, In x (gs_rel g) -> In x (gs_rel g')) -> oinv g r d -> oinv g' r d.
Proof.
  intros M [a1 a2 a3 a4]. constructor; auto. intros v s E. destruct (a4 v s E) as (l & A & B). exists l. split; [exact A|apply (cert_mono g); assumption].
Qed.

Lemma oround_setr g st r d : (forall k, oinv g k (m_rounds st k)) -> oinv g r d -> forall k, oinv g k (m_rounds (setr st r d) k).
Proof.
  intros A B k. unfold setr, putr. cbn [m_rounds]. destruct (k =? r)%nat eqn:E; [apply Nat.eqb_eq in E; subst; exact B|apply A].
Qed.

(** 2F+1 yes-votes of different members make a decision certificate. *)
Lemma votes_certify g r d l v : inv g -> rinv g r d -> w32 r -> d_lead d = Some l -> NoDup (map signer (d_vy d)) -> (2 * F < length (d_vy d))%nat ->
  certified g (smEcho ID r l 1 (H v)) -> certified g (smEcho ID r l 2 (H v)).
Proof.
  intros I R Wr Hl ND HL C. exists (map signer (d_vy d)). split; [exact ND|]. split; [rewrite map_length; lia|].
  intros i Hi. apply in_map_iff in Hi. destruct Hi as (sh & <- & Hs). destruct (n_vy _ _ _ R sh Hs) as (l' & v' & i & E1 & E2 & E3 & E4).
  assert (l' = l) by congruence. subst l'. pose proof (n_lead _ _ _ R l Hl) as Ll.
  assert (EH : H v' = H v). { apply (unique1 g r l); auto. apply (w32_le l N); [lia|exact HN]. }
  subst sh. cbn [known_share signer] in *. rewrite EH in E3. exact E3.
Qed.

Lemma step_once g i e st' sms : (0 < N)%nat -> inv g -> allowed g e -> once g i e -> w32 (m_r (gs_m g i)) -> (forall k, oinv g k (m_rounds (gs_m g i) k)) ->
  mstep H coin N F ID (gs_m g i) e = Ret (Some (st', sms)) -> forall k, oinv g k (m_rounds st' k).
Proof.
  intros HP I AL ON W O E. pose proof (v_round _ I i) as RI. pose proof (v_fresh _ I i) as FR. set (st := gs_m g i) in *.
  destruct e; cbn [mstep allowed once] in *.
  - unfold value_step in E. destruct (_ && _) eqn:EB; [|discriminate]. pose proof (O r) as [a1 a2 a3 a4].
    destruct stage as [|[|[|s]]]; try discriminate.
    + fin E. apply oround_setr; [exact O|]. constructor; dfields; assumption.
    + destruct (vsig _ _); [|discriminate]. fin E. apply oround_setr; [exact O|]. constructor; dfields; assumption.
  - unfold finish_step in E. pose proof (O r) as [a1 a2 a3 a4]. destruct (r <=? m_r st)%nat; [|discriminate]. destruct (_ && _) eqn:ES; [|discriminate].
    destruct (vsig _ _) eqn:EV; fin E; [|exact O]. apply oround_setr; [exact O|]. constructor; dfields; assumption.
  - unfold election_step in E. pose proof (O r) as [a1 a2 a3 a4]. destruct (_ && _); fin E. apply oround_setr; [exact O|]. constructor; dfields; assumption.
  - unfold done_step in E. pose proof (O r) as [a1 a2 a3 a4]. destruct (d_lead (m_rounds st r)) eqn:EL; [discriminate|]. destruct (r <=? m_r st)%nat; [|discriminate].
    destruct (vshare _ _) eqn:EV; fin E; [|exact O]. fold st in ON. apply oround_setr; [exact O|].
    assert (CO : NoDup (map signer (d_coins (m_rounds st r) ++ [sh])) /\ forall s, In s (d_coins (m_rounds st r) ++ [sh]) -> vshare (smDone ID r) s = true).
    { destruct a1 as (A1 & A2). split.
      - rewrite map_app. apply nodup_snoc; assumption.
      - intros s Hs. apply in_app_or in Hs. destruct Hs as [Hs|[<-|[]]]; [apply A2; exact Hs|exact EV]. }
    constructor; dfields; try assumption.
    + intros l Hl. change (F + (F + 0))%nat with (2 * F)%nat in Hl. destruct (_ <? _)%nat eqn:E2; [|discriminate]. apply Nat.ltb_lt in E2. destruct CO as (C1 & C2). rewrite (recover_ok _ _ _ C1 C2) in Hl by lia.
      inversion Hl. reflexivity.
    + intros v s K. destruct (a4 v s K) as (l & K1 & _). discriminate.
  - unfold leader_step in E. pose proof (O (m_r st)) as [a1 a2 a3 a4]. destruct (m_out st); [discriminate|]. destruct (d_lead (m_rounds st (m_r st))) eqn:EL; [|discriminate].
    destruct (d_past _) eqn:EP; [discriminate|]. destruct (assoc _ _) as [(v & sg)|]; fin E; cbn [m_rounds]; (apply oround_setr; [exact O|]); constructor; dfields; rewrite ?EL; assumption.
  - unfold preVote_step in E. pose proof (O r) as [a1 a2 a3 a4]. destruct (d_lead (m_rounds st r)) eqn:EL; [|discriminate]. destruct (_ && _); fin E.
    apply oround_setr; [exact O|]. constructor; dfields; rewrite ?EL; assumption.
  - unfold preVoteYes_step in E. pose proof (O r) as [a1 a2 a3 a4]. destruct (d_lead (m_rounds st r)) eqn:EL; [|discriminate]. destruct (vsig _ _) eqn:EV; fin E; [|exact O].
    apply oround_setr; [exact O|]. constructor; dfields; rewrite ?EL; assumption.
  - unfold preVoteNo_step in E. pose proof (O r) as [a1 a2 a3 a4]. destruct (d_lead (m_rounds st r)) eqn:EL; [|discriminate]. destruct (vshare _ _) eqn:EV; fin E; [|exact O].
    apply oround_setr; [exact O|]. constructor; dfields; rewrite ?EL; assumption.
  - unfold vote_step in E. pose proof (O r) as [a1 a2 a3 a4]. destruct (d_lead (m_rounds st r)) eqn:EL; [|discriminate]. destruct (d_flag (m_rounds st r)) eqn:EF; [|discriminate].
    destruct (_ && _); fin E. apply oround_setr; [exact O|]. constructor; dfields; rewrite ?EL, ?EF; assumption.
  - pose proof (step_rounds g st (EvVoteYes r v sg sh) st' sms HP AL RI E) as RI'.
    unfold voteYes_step in E. pose proof (O r) as [a1 a2 a3 a4]. destruct (d_lead (m_rounds st r)) eqn:EL; [|discriminate].
    destruct (vsig _ _ && vshare _ _) eqn:EB; fin E; [|exact O]. apply andb_true_iff in EB. destruct EB as (EV & EW). destruct AL as (A1 & A2). fold st in ON.
    specialize (RI' r). rewrite setr_same in RI'. apply oround_setr; [exact O|]. constructor; dfields; rewrite ?EL; try assumption.
    + rewrite map_app. apply nodup_snoc; assumption.
    + intros v0 s0 Hf. destruct (d_vflag (m_rounds st r)) as [f|] eqn:EF; cbn [first] in Hf; [apply (a4 v0 s0); exact Hf|].
      change (F + (F + 0))%nat with (2 * F)%nat in Hf.
      destruct (2 * F <? length (d_vy (m_rounds st r) ++ [sh]))%nat eqn:E2.
      * inversion Hf as [[Hv0 Hs0]]. subst v0. exists n. split; [reflexivity|]. apply Nat.ltb_lt in E2.
        assert (Wr : w32 r).
        { destruct (Nat.le_gt_cases r (m_r st)) as [K|K]; [apply (w32_le r (m_r st)); assumption|]. rewrite (FR r K) in EL. discriminate. }
        refine (votes_certify g r _ n v I RI' Wr _ _ _ _); dfields; [reflexivity| |exact E2|apply (vsig_known g _ _ EV A1)].
        rewrite map_app. apply nodup_snoc; assumption.
      * destruct (2 * F <? length (d_vy (m_rounds st r) ++ [sh]) + _)%nat in Hf; discriminate.
  - unfold voteNo_step in E. pose proof (O r) as [a1 a2 a3 a4]. destruct (d_lead (m_rounds st r)) eqn:EL; [|discriminate].
    destruct (vsig _ _ && vshare _ _) eqn:EB; fin E; [|exact O].
    apply oround_setr; [exact O|]. constructor; dfields; rewrite ?EL; try assumption.
    intros v0 s0 Hf. destruct (d_vflag (m_rounds st r)) as [f|] eqn:EF; cbn [first] in Hf; [apply (a4 v0 s0); exact Hf|].
    destruct (_ <? _)%nat; discriminate.
  - unfold halt_step in E. destruct (d_lead (m_rounds st r)) eqn:EL; [|discriminate]. destruct (vsig _ _).
    + destruct (m_halt st); fin E. exact O.
    + fin E. exact O.
  - unfold haltTake_step in E. destruct (m_out st), (m_halt st); fin E. exact O.
  - unfold result_step in E. destruct (m_out st); [discriminate|]. destruct (d_vflag _) as [f|]; [|discriminate]. destruct (d_past _); [|discriminate].
    destruct f; fin E; exact O.
Qed.

Lemma assoc_in {A} k (l : list (nat * A)) a : assoc k l = Some a -> In (k, a) l.
Proof.
  induction l as [|(k' & a') l IH]; [discriminate|]. cbn [assoc]. destruct (k =? k')%nat eqn:E; [apply Nat.eqb_eq in E; subst; intros K; inversion K; left; reflexivity|right; auto].
Qed.

(** Every value in the halt channel and every output has a decision certificate of an elected leader. *)
Definition dinv (g : gstate) (st : mst) : Prop := forall v, m_halt st = Some v \/ m_out st = Some v -> decided g st v.

Lemma step_decided g i e st' sms : inv g -> allowed g e -> w32 (m_r (gs_m g i)) -> (forall k, oinv g k (m_rounds (gs_m g i) k)) ->
  mstep H coin N F ID (gs_m g i) e = Ret (Some (st', sms)) -> dinv g (gs_m g i) -> dinv g st'.
Proof.
  intros I AL W O E D. pose proof (step_le _ _ _ _ E) as LE. pose proof (v_round _ I i) as RI. pose proof (v_fresh _ I i) as FR. set (st := gs_m g i) in *.
  assert (UP : forall v, decided g st v -> decided g st' v).
  { intros v (r & l & A & B & C). exists r, l. split; [exact A|]. split; [apply (e_lead _ _ (LE r)); exact B|exact C]. }
  assert (SAME : m_halt st' = m_halt st -> m_out st' = m_out st -> dinv g st').
  { intros E1 E2 v K. rewrite E1, E2 in K. apply UP. apply D. exact K. }
  assert (LR : forall r l, d_lead (m_rounds st r) = Some l -> w32 r).
  { intros r l Hl. destruct (Nat.le_gt_cases r (m_r st)) as [K|K]; [apply (w32_le r (m_r st)); assumption|]. rewrite (FR r K) in Hl. discriminate. }
  destruct e; cbn [mstep allowed] in *.
  - unfold value_step in E. destruct (_ && _) eqn:EB; [|discriminate]. destruct stage as [|[|[|s]]]; try discriminate.
    + fin E. apply SAME; reflexivity.
    + destruct (vsig _ _); [|discriminate]. fin E. apply SAME; reflexivity.
  - unfold finish_step in E. destruct (r <=? m_r st)%nat; [|discriminate]. destruct (_ && _) eqn:ES; [|discriminate].
    destruct (vsig _ _) eqn:EV; fin E; apply SAME; reflexivity.
  - unfold election_step in E. destruct (_ && _); fin E. apply SAME; reflexivity.
  - unfold done_step in E. destruct (d_lead (m_rounds st r)) eqn:EL; [discriminate|]. destruct (r <=? m_r st)%nat; [|discriminate].
    destruct (vshare _ _) eqn:EV; fin E; apply SAME; reflexivity.
  - unfold leader_step in E. destruct (m_out st) eqn:EO; [discriminate|]. destruct (d_lead (m_rounds st (m_r st))) eqn:EL; [|discriminate].
    destruct (d_past _) eqn:EP; [discriminate|]. destruct (assoc _ _) as [(v & sg)|] eqn:EA; fin E.
    + intros v0 [K|K]; cbn [m_halt m_out setr] in K.
      * apply UP. apply D. left. exact K.
      * inversion K; subst v0. apply UP. exists (m_r st), n. split; [exact W|]. split; [exact EL|]. apply assoc_in in EA. apply (n_fin _ _ _ (RI (m_r st)) n v sg EA).
    + apply SAME; [reflexivity|]. cbn [setr m_out]. rewrite ?EO. reflexivity.
  - unfold preVote_step in E. destruct (d_lead (m_rounds st r)) eqn:EL; [|discriminate]. destruct (_ && _); fin E. apply SAME; reflexivity.
  - unfold preVoteYes_step in E. destruct (d_lead (m_rounds st r)) eqn:EL; [|discriminate]. destruct (vsig _ _) eqn:EV; fin E; apply SAME; reflexivity.
  - unfold preVoteNo_step in E. destruct (d_lead (m_rounds st r)) eqn:EL; [|discriminate]. destruct (vshare _ _) eqn:EV; fin E; apply SAME; reflexivity.
  - unfold vote_step in E. destruct (d_lead (m_rounds st r)) eqn:EL; [|discriminate]. destruct (d_flag (m_rounds st r)) eqn:EF; [|discriminate].
    destruct (_ && _); fin E. apply SAME; reflexivity.
  - unfold voteYes_step in E. destruct (d_lead (m_rounds st r)) eqn:EL; [|discriminate]. destruct (vsig _ _ && vshare _ _) eqn:EB; fin E; apply SAME; reflexivity.
  - unfold voteNo_step in E. destruct (d_lead (m_rounds st r)) eqn:EL; [|discriminate]. destruct (vsig _ _ && vshare _ _) eqn:EB; fin E; apply SAME; reflexivity.
  - unfold halt_step in E. destruct (d_lead (m_rounds st r)) eqn:EL; [|discriminate]. destruct (vsig _ _) eqn:EV.
    + destruct (m_halt st) eqn:EH; fin E. intros v0 [K|K]; cbn [m_halt m_out] in K.
      * inversion K; subst v0. apply UP. exists r, n. split; [apply (LR _ _ EL)|]. split; [exact EL|]. apply (vsig_known g _ _ EV AL).
      * apply UP. apply D. right. exact K.
    + fin E. apply SAME; reflexivity.
  - unfold haltTake_step in E. destruct (m_out st) eqn:EO; [discriminate|]. destruct (m_halt st) as [v|] eqn:EH; fin E.
    intros v0 [K|K]; cbn [m_halt m_out] in K; [discriminate|]. inversion K; subst v0. apply UP. apply D. left. exact EH.
  - unfold result_step in E. destruct (m_out st) eqn:EO; [discriminate|]. destruct (d_vflag _) as [f|] eqn:EF; [|discriminate]. destruct (d_past _); [|discriminate].
    destruct f as [v s|s|v s]; fin E; intros v0 [K|K]; cbn [m_halt m_out] in K; try discriminate; try (apply UP; apply D; left; exact K).
    inversion K; subst v0. apply UP. destruct (o_flag _ _ _ (O (m_r st)) v s EF) as (l & A & B). exists (m_r st), l. split; [exact W|]. split; assumption.
Qed.
End Exec.

Section Once.
Variable H : list Z -> list Z.
Variable coin : list Z -> Z.
Variables N F : nat.
Variable ID : list Z.
Variable bad : list nat.
Variable vals : nat -> list Z.
Hypothesis HH : forall v, length (H v) = 64%nat.
Hypothesis HN : w32 N.
Hypothesis Hbad : (length bad <= F)%nat.
Hypothesis HNF : (N <= 3 * F + 1)%nat.

Lemma reach_once g : reach H coin N F ID bad vals once g ->
  inv H N F ID bad g /\ (forall i r, oinv H coin N F ID bad g r (m_rounds (gs_m g i) r)) /\ (forall i, dinv H N F ID bad g (gs_m g i)).
Proof.
  induction 1 as [|g i e st sms R (IH1 & IH2 & IH3) Hi AL ON W E].
  - split; [apply inv_init|]. split; [intros i r; apply oinv0|]. intros i v [K|K]; discriminate.
  - assert (HP : (0 < N)%nat) by (destruct Hi; lia).
    assert (M : forall x, In x (gs_rel g) -> In x (gs_rel (gs_next g i st sms))) by (intros x Hx; apply in_or_app; left; exact Hx).
    split; [eapply inv_step; eassumption|]. split.
    + intros k r. apply (oinv_mono H coin N F ID bad g); [exact M|]. cbn [gs_next gs_m]. destruct (k =? i)%nat; [|apply IH2].
      eapply step_once; eauto.
    + intros k. assert (D : dinv H N F ID bad g (gs_m (gs_next g i st sms) k)).
      { cbn [gs_next gs_m]. destruct (k =? i)%nat; [|apply IH3]. eapply step_decided; eauto. }
      intros v K. destruct (D v K) as (r & l & A & B & C). exists r, l. split; [exact A|]. split; [exact B|]. apply (cert_mono N F bad g); assumption.
Qed.
End Once.
