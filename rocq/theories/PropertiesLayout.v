(** C17: the layout of a dealing on the wire. *)

Require Import ZArith List Bool Arith Lia.
From Verif Require Import Prime Fr Bytes CodecModel GoBase PolyModel GroupModel KzgModel PartyModel.
Import ListNotations.
Local Open Scope nat_scope.

Lemma layout_fold {A B} (l : list A) (f : nat -> A -> B) : forall js acc, (forall j, In j js -> j < length l) ->
  gofold (fun acc j => a <- idx l j ;; Ret (acc ++ [f j a])) js acc = Ret (acc ++ flat_map (fun j => match nth_error l j with Some a => [f j a] | None => [] end) js).
Proof.
  induction js as [|j js IH]; intros acc H; cbn [gofold flat_map]; [rewrite app_nil_r; reflexivity|].
  destruct (nth_error l j) as [a|] eqn:E; [|apply nth_error_None in E; specialize (H j (or_introl eq_refl)); lia].
  rewrite (idx_nth a) by (apply H; left; reflexivity). rewrite (nth_error_nth _ _ _ E). cbn [bind]. rewrite IH by (intros x Hx; apply H; right; exact Hx).
  rewrite <- app_assoc. reflexivity.
Qed.

Lemma layout_panics {A B} (l : list A) (f : nat -> A -> B) : forall js acc, ~ (forall j, In j js -> j < length l) ->
  gofold (fun acc j => a <- idx l j ;; Ret (acc ++ [f j a])) js acc = Panic.
Proof.
  induction js as [|j js IH]; intros acc H; [exfalso; apply H; intros j []|]. cbn [gofold].
  destruct (Nat.lt_ge_cases j (length l)) as [L|G]; [|rewrite idx_panic by exact G; reflexivity].
  destruct (nth_error l j) as [a|] eqn:E; [|apply nth_error_None in E; lia]. rewrite (idx_nth a) by exact L. cbn [bind]. apply IH.
  intros X. apply H. intros x [<- |Hx]; [exact L|exact (X x Hx)].
Qed.

Lemma layout_nth {A B} (l : list A) (f : nat -> A -> B) b0 n j b : n < length l -> nth_error (b0 :: flat_map (fun j => match nth_error l j with Some a => [f j a] | None => [] end) (seq 1 n)) j = Some b ->
  (j = 0 /\ b = b0) \/ (1 <= j <= n /\ exists a, nth_error l j = Some a /\ b = f j a).
Proof.
  intros L. assert (G : forall n k i b, k + n <= length l -> nth_error (flat_map (fun j => match nth_error l j with Some a => [f j a] | None => [] end) (seq k n)) i = Some b ->
    i < n /\ exists a, nth_error l (k + i) = Some a /\ b = f (k + i) a).
  { clear. induction n as [|n IH]; intros k i b L E; [destruct i; discriminate|]. cbn [seq flat_map] in E.
    destruct (nth_error l k) as [a|] eqn:EK; [|apply nth_error_None in EK; lia]. cbn [app] in E. destruct i as [|i]; cbn [nth_error] in E.
    - injection E as <-. rewrite Nat.add_0_r. split; [lia|]. eauto.
    - destruct (IH (S k) i b ltac:(lia) E) as (Li & a' & E1 & E2). split; [lia|]. exists a'. rewrite Nat.add_succ_r. auto. }
  destruct j as [|j]; cbn [nth_error]; intros E; [injection E as <-; auto|]. right. destruct (G n 1 j b ltac:(lia) E) as (Lj & a & E1 & E2). split; [lia|]. exists a. auto.
Qed.

Lemma layout_length {A B} (l : list A) (f : nat -> A -> B) n k : k + n <= length l ->
  length (flat_map (fun j => match nth_error l j with Some a => [f j a] | None => [] end) (seq k n)) = n.
Proof.
  revert k. induction n as [|n IH]; intros k L; [reflexivity|]. cbn [seq flat_map]. rewrite app_length, IH by lia.
  destruct (nth_error l k) eqn:E; [reflexivity|apply nth_error_None in E; lia].
Qed.

(** A dealing is encoded exactly if the three lists have an entry 2F+1; every list of the message has 2F+2 entries, the
    first is empty, entry j encodes entry j of the argument, and the contents carry their index. *)
Theorem c17_layout : forall cd pi Bs Ws F,
  (2 * F + 1 < length Bs /\ 2 * F + 1 < length Ws /\ 2 * F + 1 < length (PiContents pi) ->
   exists m pm, EncapsulateVSSSend cd pi Bs Ws F = Ret m /\ m_Pi m = Some pm /\ m_Gs pm = ToCompressedG1 cd (Gs pi) /\
     length (m_BijList m) = 2 * F + 2 /\ length (m_WBijList m) = 2 * F + 2 /\ length (m_PiContents pm) = 2 * F + 2 /\
     nth_error (m_BijList m) 0 = Some [] /\ nth_error (m_WBijList m) 0 = Some [] /\ nth_error (m_PiContents pm) 0 = Some (mkPCM 0 [] [] [] []) /\
     (forall j b, 1 <= j -> nth_error (m_BijList m) j = Some b -> exists x, nth_error Bs j = Some x /\ b = FrTo32 x) /\
     (forall j b, 1 <= j -> nth_error (m_WBijList m) j = Some b -> exists x, nth_error Ws j = Some x /\ b = ToCompressedG1 cd x) /\
     (forall j b, 1 <= j -> nth_error (m_PiContents pm) j = Some b -> exists c, nth_error (PiContents pi) j = Some c /\ m_J b = Z.of_nat j /\
        m_CBj b = ToCompressedG1 cd (CBj c) /\ m_CZj b = ToCompressedG1 cd (CZj c) /\ m_WZ0 b = ToCompressedG1 cd (WZ0 c) /\ m_GFj b = ToCompressedG1 cd (gFj c))) /\
  (length Bs <= 2 * F + 1 \/ length Ws <= 2 * F + 1 \/ length (PiContents pi) <= 2 * F + 1 -> EncapsulateVSSSend cd pi Bs Ws F = Panic).
Proof.
  intros cd pi Bs Ws F.
  assert (IN : forall (n : nat), 2 * F + 1 < n -> forall j, In j (seq 1 (2 * F + 1)) -> j < n) by (intros n L j Hj; apply in_seq in Hj; lia).
  assert (OUT : forall (n : nat), n <= 2 * F + 1 -> ~ forall j, In j (seq 1 (2 * F + 1)) -> j < n) by (intros n L X; specialize (X (2 * F + 1) ltac:(apply in_seq; lia)); lia).
  split.
  - intros (LB & LW & LC). unfold EncapsulateVSSSend. cbv zeta.
    rewrite (layout_fold Ws (fun _ w => ToCompressedG1 cd w)) by (apply IN; exact LW). cbn [bind].
    rewrite (layout_fold Bs (fun _ w => FrTo32 w)) by (apply IN; exact LB). cbn [bind].
    rewrite (layout_fold (PiContents pi) (fun j c => mkPCM (Z.of_nat j) (ToCompressedG1 cd (CBj c)) (ToCompressedG1 cd (CZj c)) (ToCompressedG1 cd (WZ0 c)) (ToCompressedG1 cd (gFj c)))) by (apply IN; exact LC). cbn [bind].
    do 2 eexists. split; [reflexivity|]. cbn [m_Pi m_BijList m_WBijList]. split; [reflexivity|]. cbn [m_Gs m_PiContents]. split; [reflexivity|].
    split; [cbn [app length]; rewrite layout_length; lia|]. split; [cbn [app length]; rewrite layout_length; lia|]. split; [cbn [app length]; rewrite layout_length; lia|].
    split; [reflexivity|]. split; [reflexivity|]. split; [reflexivity|]. split; [|split].
    + intros j b J E. apply (layout_nth Bs (fun _ => FrTo32)) in E; [|lia]. destruct E as [(-> & _)|(_ & x & E1 & E2)]; [lia|eauto].
    + intros j b J E. apply (layout_nth Ws (fun _ => ToCompressedG1 cd)) in E; [|lia]. destruct E as [(-> & _)|(_ & x & E1 & E2)]; [lia|eauto].
    + intros j b J E. apply (layout_nth (PiContents pi) (fun j c => mkPCM (Z.of_nat j) (ToCompressedG1 cd (CBj c)) (ToCompressedG1 cd (CZj c)) (ToCompressedG1 cd (WZ0 c)) (ToCompressedG1 cd (gFj c)))) in E; [|lia].
      destruct E as [(-> & _)|(_ & x & E1 & ->)]; [lia|]. exists x. split; [exact E1|]. repeat split.
  - intros L. unfold EncapsulateVSSSend. cbv zeta.
    destruct (Nat.lt_ge_cases (2 * F + 1) (length Ws)) as [LW|LW]; [|rewrite (layout_panics Ws (fun _ w => ToCompressedG1 cd w)) by (apply OUT; exact LW); reflexivity].
    rewrite (layout_fold Ws (fun _ w => ToCompressedG1 cd w)) by (apply IN; exact LW). cbn [bind].
    destruct (Nat.lt_ge_cases (2 * F + 1) (length Bs)) as [LB|LB]; [|rewrite (layout_panics Bs (fun _ w => FrTo32 w)) by (apply OUT; exact LB); reflexivity].
    rewrite (layout_fold Bs (fun _ w => FrTo32 w)) by (apply IN; exact LB). cbn [bind].
    rewrite (layout_panics (PiContents pi) (fun j c => mkPCM (Z.of_nat j) (ToCompressedG1 cd (CBj c)) (ToCompressedG1 cd (CZj c)) (ToCompressedG1 cd (WZ0 c)) (ToCompressedG1 cd (gFj c)))) by (apply OUT; lia). reflexivity.
Qed.
Print Assumptions c17_layout.

(** The smallest committee: four entries each. *)
Example c17_layout_example : let pi := mkPi ZeroG1 [mkPC 0 ZeroG1 ZeroG1 ZeroG1 ZeroG1; mkPC 1 GenG1 GenG1 GenG1 GenG1; mkPC 2 GenG1 ZeroG1 GenG1 GenG1; mkPC 3 GenG1 GenG1 ZeroG1 GenG1] in
  2 * 1 + 1 < length (map of_nat [0; 5; 6; 7]) /\ 2 * 1 + 1 < length [ZeroG1; GenG1; GenG1; GenG1] /\ 2 * 1 + 1 < length (PiContents pi).
Proof. cbn. lia. Qed.
