(** Proofs about the wire format: reading back what was written. *)

Require Import String ZArith List Bool Lia Arith.
From Verif Require Import Bytes CodecModel GoBase FramingModel FramingProofs DispatchModel PartyModel
  ReduceModel ProacModel ProtoModel.
Import ListNotations.
Local Open Scope Z_scope.
Local Open Scope list_scope.

(** ** Integers *)

Lemma put_varint_S l v : put_varint (S l) v =
  if v <? 128 then [v] else (v mod 128 + 128) :: put_varint l (v / 128).
Proof. reflexivity. Qed.

Lemma get_varint_S l x b : get_varint (S l) (x :: b) =
  if x <? 128 then (if (l =? 0)%nat && (1 <? x) then None else Some (x, b))
  else match get_varint l b with Some (v, r) => Some (x - 128 + 128 * v, r) | None => None end.
Proof. reflexivity. Qed.

Lemma varint_rt l : forall v r, 0 <= v < 2 * 128 ^ Z.of_nat l ->
  get_varint (S l) (put_varint (S l) v ++ r) = Some (v, r).
Proof.
  induction l as [|l IH]; intros v r H.
  - change (2 * 128 ^ Z.of_nat 0) with 2 in H. rewrite put_varint_S.
    destruct (Z.ltb_spec v 128) as [L|L]; [|lia]. cbn [app]. rewrite get_varint_S.
    destruct (Z.ltb_spec v 128); [|lia]. destruct (Z.ltb_spec 1 v); [lia|]. reflexivity.
  - rewrite put_varint_S. destruct (Z.ltb_spec v 128) as [L|L].
    + cbn [app]. rewrite get_varint_S. destruct (Z.ltb_spec v 128); [|lia]. reflexivity.
    + rewrite <- app_comm_cons. rewrite get_varint_S.
      pose proof (Z.mod_pos_bound v 128 ltac:(lia)).
      destruct (Z.ltb_spec (v mod 128 + 128) 128); [lia|].
      assert (B : 0 <= v / 128 < 2 * 128 ^ Z.of_nat l).
      { rewrite Nat2Z.inj_succ, Z.pow_succ_r in H by lia. split; [apply Z.div_pos; lia|].
        apply Z.div_lt_upper_bound; lia. }
      rewrite (IH _ r B). f_equal. f_equal. pose proof (Z.div_mod v 128 ltac:(lia)). lia.
Qed.

Lemma consume_varint v r : 0 <= v < 2 ^ 64 -> ConsumeVarint (AppendVarint v ++ r) = Some (v, r).
Proof. intros H. unfold ConsumeVarint, AppendVarint. apply (varint_rt 9). exact H. Qed.

Lemma varint_nonempty v : (1 <= List.length (AppendVarint v))%nat.
Proof. unfold AppendVarint. cbn [put_varint]. destruct (v <? 128); cbn [List.length]; lia. Qed.

Lemma varint_is_bytes l : forall v, 0 <= v -> is_bytes (put_varint l v).
Proof.
  induction l as [|l IH]; intros v H; cbn [put_varint]; [constructor|].
  destruct (Z.ltb_spec v 128); [constructor; [split; lia|constructor]|].
  pose proof (Z.mod_pos_bound v 128 ltac:(lia)). constructor; [split; lia|]. apply IH. apply Z.div_pos; lia.
Qed.

(** ** Records *)

Definition num_ok (n : Z) : Prop := 1 <= n <= 2 ^ 29 - 1.

Definition rec_ok (r : rec) : Prop :=
  num_ok (fst r) /\
  match snd r with
  | WVarint v => 0 <= v < 2 ^ 64
  | WLen b => Z.of_nat (List.length b) < 2 ^ 63
  | _ => False
  end.

Lemma consume_tag n wt r : num_ok n -> 0 <= wt < 8 ->
  ConsumeTag (AppendVarint (n * 8 + wt) ++ r) = Some (n, wt, r).
Proof.
  intros [N1 N2] W. unfold ConsumeTag. rewrite consume_varint by lia.
  assert (D : (n * 8 + wt) / 8 = n) by (rewrite Z.div_add_l by lia; rewrite (Z.div_small wt) by lia; lia).
  assert (M : (n * 8 + wt) mod 8 = wt) by (rewrite Z.add_comm, Z_mod_plus_full; apply Z.mod_small; lia).
  rewrite D, M. destruct (Z.leb_spec 1 n); [|lia]. destruct (Z.leb_spec n (2 ^ 29 - 1)); [|lia]. reflexivity.
Qed.

Lemma take_app b r : take (List.length b) (b ++ r) = Some (b, r).
Proof.
  unfold take. rewrite app_length. replace (List.length b <=? _)%nat with true by (symmetry; apply Nat.leb_le; lia).
  rewrite firstn_app, Nat.sub_diag, firstn_all, skipn_app, Nat.sub_diag, skipn_all. cbn [firstn skipn app].
  rewrite app_nil_r. reflexivity.
Qed.

Lemma consume_rec_ok r b : rec_ok r -> consume_rec (put_rec r ++ b) = Some (r, b).
Proof.
  intros [N W]. destruct r as [n w]. unfold consume_rec, put_rec. cbn [fst snd] in N, W.
  destruct w as [v|?|d| |?]; try contradiction.
  - replace (n * 8) with (n * 8 + 0) by lia. rewrite <- app_assoc, consume_tag by (auto; lia).
    change (0 =? 3) with false. cbv iota. unfold consume_plain. change (0 =? 0) with true. cbv iota.
    rewrite consume_varint by exact W. reflexivity.
  - rewrite <- !app_assoc, consume_tag by (auto; lia).
    change (2 =? 3) with false. cbv iota. unfold consume_plain.
    change (2 =? 0) with false. change (2 =? 1) with false. change (2 =? 2) with true. cbv iota.
    rewrite consume_varint by lia.
    destruct (Z.leb_spec (Z.of_nat (List.length d)) (Z.of_nat (List.length (d ++ b)))) as [_|L].
    + rewrite Nat2Z.id, take_app. reflexivity.
    + rewrite app_length in L. lia.
Qed.

Lemma put_rec_nonempty r : (1 <= List.length (put_rec r))%nat.
Proof.
  destruct r as [n w]. unfold put_rec.
  destruct w; rewrite !app_length;
    match goal with |- context [AppendVarint ?v] => pose proof (varint_nonempty v) end; lia.
Qed.

Lemma parse_ok rs : Forall rec_ok rs -> forall fuel, (List.length (put_recs rs) <= fuel)%nat ->
  parse fuel (put_recs rs) = (rs, true).
Proof.
  induction rs as [|r rs IH]; intros F fuel L; [destruct fuel; reflexivity|].
  apply Forall_cons_iff in F. destruct F as [Fr F].
  assert (E : put_recs (r :: rs) = put_rec r ++ put_recs rs) by reflexivity. rewrite E in *.
  rewrite app_length in L. pose proof (put_rec_nonempty r) as P.
  destruct (put_rec r ++ put_recs rs) as [|x xs] eqn:Q.
  { apply (f_equal (@List.length Z)) in Q. rewrite app_length in Q. cbn in Q. lia. }
  destruct fuel as [|fuel]; [lia|]. cbn [parse]. rewrite <- Q, consume_rec_ok by exact Fr.
  rewrite IH by (auto; lia). reflexivity.
Qed.

Lemma put_recs_app a b : put_recs (a ++ b) = put_recs a ++ put_recs b.
Proof. unfold put_recs. rewrite map_app, concat_app. reflexivity. Qed.

Lemma put_recs_len rs n b : In (n, WLen b) rs -> (List.length b <= List.length (put_recs rs))%nat.
Proof.
  intros I. apply in_split in I. destruct I as (l1 & l2 & ->).
  change ((n, WLen b) :: l2) with ([(n, WLen b)] ++ l2). rewrite !put_recs_app, !app_length.
  assert (List.length b <= List.length (put_recs [(n, WLen b)]))%nat.
  { unfold put_recs. cbn [map concat put_rec]. rewrite !app_length. lia. }
  lia.
Qed.

Lemma unpack_ok l : Forall (fun v => 0 <= v < 2 ^ 64) l ->
  forall fuel, (List.length (concat (map AppendVarint l)) <= fuel)%nat ->
  unpack fuel (concat (map AppendVarint l)) = Some l.
Proof.
  induction l as [|v l IH]; intros F fuel L; [destruct fuel; reflexivity|].
  apply Forall_cons_iff in F. destruct F as [Fv F].
  assert (E : concat (map AppendVarint (v :: l)) = AppendVarint v ++ concat (map AppendVarint l)) by reflexivity.
  rewrite E in *. rewrite app_length in L. pose proof (varint_nonempty v) as P.
  destruct (AppendVarint v ++ concat (map AppendVarint l)) as [|x xs] eqn:Q.
  { apply (f_equal (@List.length Z)) in Q. rewrite app_length in Q. cbn [List.length] in Q. lia. }
  destruct fuel as [|fuel]; [lia|]. cbn [unpack]. rewrite <- Q, consume_varint by exact Fv.
  rewrite IH by (auto; lia). reflexivity.
Qed.

(** ** Messages *)

(** Values a field of each type can have. *)
Definition val_ok (k : kind) (v : fval) : Prop :=
  match k, v with
  | KBytes, VB _ => True
  | KStr, VB b => utf8_valid b = true
  | KU32, VN n => 0 <= n < 2 ^ 32
  | KBool, VF _ => True
  | KRepBytes, VL _ => True
  | KRepU32, VNs l => Forall (fun n => 0 <= n < 2 ^ 32) l
  | KMsg chk, VO o => match o with None => True | Some b => chk b = true end
  | KRepMsg chk, VL l => Forall (fun b => chk b = true) l
  | _, _ => False
  end.

Definition schema_ok (sch : schema) : Prop := NoDup (map fst sch) /\ Forall (fun f => num_ok (fst f)) sch.

Fixpoint all_recs (sch : schema) (vs : list fval) : list rec :=
  match sch, vs with
  | (n, k) :: sch', v :: vs' => recs_of n k v ++ all_recs sch' vs'
  | _, _ => []
  end.

Lemma val_str_ok k v : val_ok k v -> str_ok k v = true.
Proof. destruct k, v; cbn; try contradiction; auto. Qed.

Lemma marshal_recs sch : forall vs, Forall2 (fun f v => val_ok (snd f) v) sch vs ->
  Marshal sch vs = Ret (put_recs (all_recs sch vs)).
Proof.
  induction sch as [|[n k] sch IH]; intros vs F; inversion F as [|? v ? vs' V F']; subst; [reflexivity|].
  cbn [Marshal all_recs]. rewrite (val_str_ok k v V), (IH _ F'). cbn [bind].
  rewrite put_recs_app. reflexivity.
Qed.

Lemma recs_of_num n k v r : In r (recs_of n k v) -> fst r = n.
Proof.
  destruct k, v; cbn [recs_of]; try contradiction;
    try (destruct b; cbn; try contradiction; intros [<-|[]]; reflexivity);
    try (destruct (n0 =? 0); cbn; try contradiction; intros [<-|[]]; reflexivity);
    try (destruct f; cbn; try contradiction; intros [<-|[]]; reflexivity);
    try (destruct l; [contradiction|]; cbn; intros [<-|[]]; reflexivity);
    try (destruct o; cbn; try contradiction; intros [<-|[]]; reflexivity);
    intros I; apply in_map_iff in I; destruct I as (b & <- & _); reflexivity.
Qed.

Lemma only_self n k v : filter (fun r => fst r =? n) (recs_of n k v) = recs_of n k v.
Proof.
  assert (H : forall r, In r (recs_of n k v) -> (fst r =? n) = true).
  { intros r I. apply recs_of_num in I. apply Z.eqb_eq. exact I. }
  induction (recs_of n k v) as [|r l IH]; [reflexivity|]. cbn [filter].
  rewrite (H r) by (left; reflexivity). rewrite IH; [reflexivity|]. intros s I. apply H. right. exact I.
Qed.

Lemma only_other n n' k v : n <> n' -> filter (fun r => fst r =? n) (recs_of n' k v) = [].
Proof.
  intros D. assert (H : forall r, In r (recs_of n' k v) -> (fst r =? n) = false).
  { intros r I. apply recs_of_num in I. apply Z.eqb_neq. congruence. }
  induction (recs_of n' k v) as [|r l IH]; [reflexivity|]. cbn [filter].
  rewrite (H r) by (left; reflexivity). apply IH. intros s I. apply H. right. exact I.
Qed.

Lemma only_absent n sch : ~ In n (map fst sch) -> forall vs, filter (fun r => fst r =? n) (all_recs sch vs) = [].
Proof.
  induction sch as [|[m k] sch IH]; intros A vs; [reflexivity|]. destruct vs as [|v vs]; [reflexivity|].
  cbn [all_recs]. rewrite filter_app, only_other, IH; [reflexivity| |].
  - intros I. apply A. right. exact I.
  - intros E. apply A. left. cbn. congruence.
Qed.

Lemma flat_map_only {B} (g : rec -> list B) n rs : (forall r, fst r <> n -> g r = []) ->
  flat_map g rs = flat_map g (filter (fun r => fst r =? n) rs).
Proof.
  intros H. induction rs as [|r rs IH]; [reflexivity|]. cbn [flat_map filter].
  destruct (Z.eqb_spec (fst r) n) as [E|E]; cbn [flat_map]; rewrite IH; [reflexivity|].
  rewrite (H r E). reflexivity.
Qed.

Lemma field_only n k rs : field n k rs = field n k (filter (fun r => fst r =? n) rs).
Proof.
  assert (L : lens n rs = lens n (filter (fun r => fst r =? n) rs)).
  { apply flat_map_only. intros r E. destruct (snd r); try reflexivity.
    apply Z.eqb_neq in E. rewrite E. reflexivity. }
  assert (M : nums n rs = nums n (filter (fun r => fst r =? n) rs)).
  { apply flat_map_only. intros r E. destruct (snd r); try reflexivity.
    apply Z.eqb_neq in E. rewrite E. reflexivity. }
  assert (P : packed n rs = packed n (filter (fun r => fst r =? n) rs)).
  { apply flat_map_only. intros r E. apply Z.eqb_neq in E. rewrite E. reflexivity. }
  unfold field. rewrite <- L, <- M, <- P. reflexivity.
Qed.

Lemma lens_map n l : lens n (map (fun b => (n, WLen b)) l) = l.
Proof.
  induction l as [|b l IH]; [reflexivity|]. unfold lens in *. cbn [map flat_map fst snd].
  rewrite Z.eqb_refl, IH. reflexivity.
Qed.

Lemma field_own n k v : val_ok k v -> field n k (recs_of n k v) = v.
Proof.
  intros V. destruct k, v; cbn [val_ok] in V; try contradiction; cbn [recs_of field].
  - destruct b; [reflexivity|]. unfold lens. cbn [flat_map fst snd]. rewrite Z.eqb_refl. reflexivity.
  - destruct b; [reflexivity|]. unfold lens. cbn [flat_map fst snd]. rewrite Z.eqb_refl. reflexivity.
  - destruct (Z.eqb_spec n0 0) as [->|D]; [reflexivity|]. unfold nums. cbn [flat_map fst snd]. rewrite Z.eqb_refl.
    cbn [app last]. rewrite Z.mod_small by lia. reflexivity.
  - destruct f; [|reflexivity]. unfold nums. cbn [flat_map fst snd]. rewrite Z.eqb_refl. reflexivity.
  - rewrite lens_map. reflexivity.
  - destruct l as [|x l]; [reflexivity|]. set (w := x :: l) in *. clearbody w.
    unfold packed. cbn [flat_map fst snd]. rewrite Z.eqb_refl, app_nil_r, unpack_ok.
    + f_equal. rewrite <- (map_id w) at 2. apply map_ext_in. intros a I. rewrite Forall_forall in V.
      apply Z.mod_small. apply V. exact I.
    + eapply Forall_impl; [|exact V]. intros a A. cbn beta in A. lia.
    + lia.
  - destruct o as [b|]; [|reflexivity]. unfold lens. cbn [flat_map fst snd]. rewrite Z.eqb_refl.
    cbn [app concat]. rewrite app_nil_r. reflexivity.
  - rewrite lens_map. reflexivity.
Qed.

Lemma fields_ok sch : NoDup (map fst sch) -> forall vs, Forall2 (fun f v => val_ok (snd f) v) sch vs ->
  map (fun f => field (fst f) (snd f) (all_recs sch vs)) sch = vs.
Proof.
  induction sch as [|[n k] sch IH]; intros D vs F; inversion F as [|? v ? vs' V F']; subst; [reflexivity|].
  cbn [map fst] in D. apply NoDup_cons_iff in D. destruct D as [D1 D2].
  cbn [map fst snd all_recs]. f_equal.
  - rewrite field_only, filter_app, only_self, only_absent by exact D1. rewrite app_nil_r. apply field_own. exact V.
  - transitivity (map (fun f => field (fst f) (snd f) (all_recs sch vs')) sch); [|apply IH; auto].
    apply map_ext_in. intros [m k'] I. cbn [fst snd].
    rewrite (field_only m k' (_ ++ _)), (field_only m k' (all_recs _ _)). f_equal.
    rewrite filter_app, only_other; [reflexivity|].
    intros ->. apply D1. apply (in_map fst) in I. exact I.
Qed.

Lemma lookup_in sch n k : NoDup (map fst sch) -> In (n, k) sch -> lookup_kind sch n = Some k.
Proof.
  unfold lookup_kind. induction sch as [|[m k'] sch IH]; intros D I; [destruct I|].
  cbn [map fst] in D. apply NoDup_cons_iff in D. destruct D as [D1 D2]. cbn [find fst].
  destruct I as [E|I].
  - injection E as -> ->. rewrite Z.eqb_refl. reflexivity.
  - destruct (Z.eqb_spec m n) as [->|]; [|apply IH; auto].
    exfalso. apply D1. apply (in_map fst) in I. exact I.
Qed.

Lemma judge_own sch n k v r : NoDup (map fst sch) -> In (n, k) sch -> val_ok k v -> In r (recs_of n k v) ->
  judge sch r = Good.
Proof.
  intros D I V R. pose proof (recs_of_num _ _ _ _ R) as E. unfold judge.
  rewrite E, (lookup_in _ _ _ D I). destruct r as [m w]. cbn [fst snd] in *. subst m.
  destruct k, v; cbn [val_ok] in V; try contradiction; cbn [recs_of] in R; try reflexivity.
  - destruct b; [destruct R|]. destruct R as [R|[]]. injection R as <-. rewrite V. reflexivity.
  - destruct l as [|x l]; [destruct R|]. set (ws := x :: l) in *. clearbody ws.
    destruct R as [R|[]]. injection R as <-. rewrite unpack_ok; [reflexivity| |lia].
    eapply Forall_impl; [|exact V]. intros a A. cbn beta in A. lia.
  - destruct o as [b|]; [|destruct R]. destruct R as [R|[]]. injection R as <-. rewrite V. reflexivity.
  - apply in_map_iff in R. destruct R as (b & R & Ib). injection R as <-.
    rewrite Forall_forall in V. rewrite (V b Ib). reflexivity.
Qed.

Lemma cut_good sch rs : (forall r, In r rs -> judge sch r = Good) -> cut sch rs = (rs, true).
Proof.
  induction rs as [|r rs IH]; intros H; [reflexivity|]. cbn [cut].
  rewrite (H r) by (left; reflexivity). rewrite IH; [reflexivity|]. intros s I. apply H. right. exact I.
Qed.

Lemma all_recs_in sch : forall vs r, Forall2 (fun f v => val_ok (snd f) v) sch vs -> In r (all_recs sch vs) ->
  exists n k v, In (n, k) sch /\ val_ok k v /\ In r (recs_of n k v).
Proof.
  induction sch as [|[n k] sch IH]; intros vs r F I; [destruct I|].
  inversion F as [|? v ? vs' V F']; subst. cbn [all_recs] in I. apply in_app_or in I. destruct I as [I|I].
  - exists n, k, v. split; [left; reflexivity|]. split; [exact V|exact I].
  - destruct (IH _ _ F' I) as (n' & k' & v' & A & B & C). exists n', k', v'.
    split; [right; exact A|]. split; [exact B|exact C].
Qed.

(** A record of a well-typed field is well formed, if it is not too long. *)
Lemma recs_of_ok n k v r : num_ok n -> val_ok k v -> In r (recs_of n k v) ->
  (forall b, snd r = WLen b -> Z.of_nat (List.length b) < 2 ^ 63) -> rec_ok r.
Proof.
  intros N V R S. split; [rewrite (recs_of_num _ _ _ _ R); exact N|].
  assert (H : (exists b, snd r = WLen b) \/ exists x, snd r = WVarint x /\ 0 <= x < 2 ^ 64).
  { destruct k, v; cbn [val_ok] in V; try contradiction; cbn [recs_of] in R.
    - left. destruct b; [destruct R|]. destruct R as [<-|[]]. eexists. reflexivity.
    - left. destruct b; [destruct R|]. destruct R as [<-|[]]. eexists. reflexivity.
    - right. destruct (n0 =? 0); [destruct R|]. destruct R as [<-|[]]. exists n0. split; [reflexivity|lia].
    - right. destruct f; [|destruct R]. destruct R as [<-|[]]. exists 1. split; [reflexivity|lia].
    - left. apply in_map_iff in R. destruct R as (b & <- & _). eexists. reflexivity.
    - left. destruct l; [destruct R|]. destruct R as [<-|[]]. eexists. reflexivity.
    - left. destruct o; [|destruct R]. destruct R as [<-|[]]. eexists. reflexivity.
    - left. apply in_map_iff in R. destruct R as (b & <- & _). eexists. reflexivity. }
  destruct H as [[b E]|[x [E X]]]; rewrite E; [apply S; exact E|exact X].
Qed.

(** The round trip for any message type. *)
Lemma marshal_rt sch vs b : schema_ok sch -> Forall2 (fun f v => val_ok (snd f) v) sch vs ->
  Marshal sch vs = Ret b -> Z.of_nat (List.length b) < 2 ^ 63 -> Unmarshal sch b = (vs, true).
Proof.
  intros [D N] F M L. rewrite (marshal_recs _ _ F) in M. injection M as <-.
  unfold Unmarshal. rewrite parse_ok; [| |lia].
  - rewrite cut_good.
    + rewrite (fields_ok _ D _ F). reflexivity.
    + intros r I. destruct (all_recs_in _ _ _ F I) as (n & k & v & A & B & C). eapply judge_own; eauto.
  - apply Forall_forall. intros r I. destruct (all_recs_in _ _ _ F I) as (n & k & v & A & B & C).
    apply (recs_of_ok n k v); auto.
    + rewrite Forall_forall in N. apply (N _ A).
    + intros d E. destruct r as [m w]. cbn [snd] in E. subst w. pose proof (put_recs_len _ _ _ I). lia.
Qed.

(** Marshalling fails only because of a string that is not valid UTF-8. *)
Lemma marshal_total sch vs : Forall2 (fun f v => val_ok (snd f) v) sch vs -> exists b, Marshal sch vs = Ret b.
Proof. intros F. eexists. apply marshal_recs. exact F. Qed.

Lemma marshal_inner sch vs b n d : Forall2 (fun f v => val_ok (snd f) v) sch vs -> Marshal sch vs = Ret b ->
  In (n, WLen d) (all_recs sch vs) -> (List.length d <= List.length b)%nat.
Proof.
  intros F M I. rewrite (marshal_recs _ _ F) in M. injection M as <-. eapply put_recs_len; eauto.
Qed.

Lemma gomapB_spec {A} (f : A -> go bytes) l : forall bs, gomapB f l = Ret bs -> Forall2 (fun a b => f a = Ret b) l bs.
Proof.
  unfold gomapB.
  assert (H : forall l acc bs, gofold (fun acc a => b <- f a ;; Ret (acc ++ [b])) l acc = Ret bs ->
             exists ds, bs = acc ++ ds /\ Forall2 (fun a b => f a = Ret b) l ds).
  { clear l. induction l as [|a l IH]; intros acc bs E.
    - injection E as <-. exists []. rewrite app_nil_r. auto.
    - cbn [gofold] in E. destruct (f a) as [b| | |] eqn:Fa; try discriminate E. cbn [bind] in E.
      apply IH in E. destruct E as (ds & -> & G). exists (b :: ds). rewrite <- app_assoc. auto. }
  intros bs E. apply H in E. destruct E as (ds & -> & G). exact G.
Qed.

Lemma gomapB_total {A} (f : A -> go bytes) l : (forall a, In a l -> exists b, f a = Ret b) ->
  exists bs, gomapB f l = Ret bs.
Proof.
  intros H. unfold gomapB.
  destruct (gofold_inv (fun _ _ => True) (fun acc a => b <- f a ;; Ret (acc ++ [b])) l []) as (s & E & _).
  - exact I.
  - intros l1 a l2 s -> _. destruct (H a) as [b B]; [apply in_or_app; right; left; reflexivity|].
    rewrite B. cbn [bind]. eauto.
  - eauto.
Qed.
