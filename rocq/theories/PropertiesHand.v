(** C78: from the client's sharing to the reduced shares of the new committee. *)

Require Import ZArith List Bool Arith Lia Permutation.
From Verif Require Import Prime Fr GoBase Poly PolyModel PolyProofs Biv BivProofs GroupModel KzgModel KzgProofs.
From Verif Require Import CodecModel CodecProofs PartyModel PartySpec VssModel VssProofs VssProofs2.
From Verif Require Import ReduceModel ReduceProofs PropertiesVss PropertiesReduce PropertiesDist StageModel ProacLinks DistNetProofs.
From Verif Require Import PropertiesOne ReshareModel PropertiesStage PropertiesSplit ProacModel ProacDist DistNetModel PropertiesFinish.
From Verif Require Import HandNetModel HandNetProofs.
Import ListNotations.
Local Open Scope F_scope.

(** Member i of the new committee has its reduced share of B and the commitments to B: the state in which the refreshing
    (C75-C77) begins. *)
Definition has_reduced (N F : nat) (B : list (list Fr)) (i : nat) (p : Party) : Prop :=
  party_wf party_secret p /\ p_N p = N /\ p_F p = F /\ p_PID p = (i - 1)%nat /\ p_reducedShare p = secy B (of_nat i) /\
  holds_commitments B p.

(** Honest and corrupted members of the old committee (at least F+1 and at most F), honest members of the new one. *)
Definition two_committees (N F : nat) (hold cor new : list nat) : Prop :=
  (Z.of_nat N < 2 ^ 32)%Z /\ (forall k, In k hold \/ In k cor \/ In k new -> (1 <= k <= N)%nat) /\
  (forall k, In k hold -> ~ In k cor) /\ NoDup hold /\ NoDup new /\ (F + 1 <= length hold)%nat /\ (length cor <= F)%nat.

(** What the corrupted members send to honest members: at most one Prepare and one ShareReduce message each to each
    receiver; no collision of the hash with the honest Prepare; points that decode; no forged opening. *)
Definition tolerated (cd : g1codec) (hash : list Z -> list Z) (ser : list (list Z) -> list Z) (N F : nat) (B : list (list Fr))
    (ns : nat -> Party) (cor new : list nat) (bad : list hpacket) : Prop :=
  NoDup (map (fun x => match x with PVss i _ => (0, 0, i) | PPrep k i _ => (1, k, i) | PRed k i _ => (2, k, i) end%nat) bad) /\
  forall x, In x bad ->
    match x with
    | PVss _ _ => False
    | PPrep k i d => In k cor /\ In i new /\
        forall p l, ready N F B p -> PrepareSend cd p = Ret l -> hash d = hash (ser l) -> d = ser l
    | PRed k i m => In k cor /\ In i new /\ FromCompressedG1 cd (sr_C m) <> None /\ FromCompressedG1 cd (sr_W m) <> None /\
        forall C w v, CommitToPoly (p_KZG (ns i)) (secy B (of_nat i)) = Ret C ->
          FromCompressedG1 cd (sr_C m) = Some C -> FromCompressedG1 cd (sr_W m) = Some w ->
          CheckProofSingle (p_KZG (ns i)) C w (of_nat k) v = Ret true -> v = beval B (of_nat k) (of_nat i)
    end.

(** From n0 on: runs are short, no honest member stops with an error, whoever has a share has the right one, and when
    nothing more can happen everybody has a share; this is reached whatever has happened before. *)
Definition hands_on (cd : g1codec) (hash : list Z -> list Z) (ser : list (list Z) -> list Z) (parse : list Z -> list (list Z))
    (N F : nat) (B : list (list Fr)) (os ns : nat -> Party) (hold new : list nat) (bound : nat) (n0 : hnet) : Prop :=
  forall evs n, hruns cd hash ser parse os ns new n0 evs n ->
    (length evs <= bound)%nat /\
    (forall x, exists o, hstep cd hash ser parse os ns new n x = Ret o) /\
    (forall k p, In k hold -> h_old n k = Some p -> ready N F B p /\ p_PID p = (k - 1)%nat) /\
    (forall i p, In i new -> h_new n i = Some p -> has_reduced N F B i p) /\
    ((forall x, hstep cd hash ser parse os ns new n x = Ret None) ->
       (forall k, In k hold -> exists p, h_old n k = Some p) /\ forall i, In i new -> exists p, h_new n i = Some p) /\
    exists evs' n', hruns cd hash ser parse os ns new n evs' n' /\ forall x, hstep cd hash ser parse os ns new n' x = Ret None.

(** The common part; [vm k] for members that have their shares does not matter. *)
Lemma hands_on_gen cd hash ser parse N F B os ns hold cor new bad vm n0 : codec_ok cd -> (forall l, parse (ser l) = l) ->
  bdeg F (2 * F) B -> two_committees N F hold cor new -> tolerated cd hash ser N F B ns cor new bad ->
  (forall i, In i new -> party_wf party_secret (ns i) /\ p_N (ns i) = N /\ p_F (ns i) = F /\ p_PID (ns i) = (i - 1)%nat) ->
  (forall k, In k hold -> h_old n0 k = None ->
     exists b p, VSSShareReceive cd (os k) (vm k) = Ret (b, p) /\ ready N F B p /\ p_PID p = (k - 1)%nat) ->
  (forall k p, In k hold -> h_old n0 k = Some p -> ready N F B p /\ p_PID p = (k - 1)%nat) ->
  fresh n0 ->
  Permutation (h_post n0 ++ flat_map (oldpart cd ser F B new vm n0) hold) (univ cd ser F B hold new bad vm) ->
  hands_on cd hash ser parse N F B os ns hold new (length (h_post n0) + 2 * length hold * length new) n0.
Proof.
  intros HC HS HB (HN & HM & HD & ND1 & ND2 & L1 & L2) (TB1 & TB2) Hns Hv Hr Hf HP.
  assert (Hsome : forall k, In k hold -> exists p, ready N F B p /\ p_PID p = (k - 1)%nat).
  { intros k Hk. destruct (h_old n0 k) as [p|] eqn:E; [exists p; auto|]. destruct (Hv k Hk E) as (_ & p & _ & H). eauto. }
  assert (Hhold : forall k, In k hold -> (1 <= k <= N)%nat /\ ~ In k cor) by (intros k Hk; split; [apply HM; auto|apply HD; exact Hk]).
  assert (Hcor : forall k, In k cor -> (1 <= k <= N)%nat) by (intros k Hk; apply HM; auto).
  assert (Hnew : forall k, In k new -> (1 <= k <= N)%nat) by (intros k Hk; apply HM; auto).
  assert (EM : map key bad = map (fun x => match x with PVss i _ => (0, 0, i) | PPrep k i _ => (1, k, i) | PRed k i _ => (2, k, i) end%nat) bad)
    by (apply map_ext; intros []; reflexivity).
  rewrite <- EM in TB1.
  assert (I0 : hinv cd hash ser parse N F B ns hold new bad vm (h_old n0) n0).
  { constructor; auto.
    - rewrite app_assoc, HP. assert (E : flat_map (newpart n0) new = []).
      { clear -Hf. induction new as [|i l IH]; [reflexivity|]. cbn [flat_map]. rewrite IH. unfold newpart.
        destruct (Hf i) as (-> & _ & -> & _). reflexivity. }
      rewrite E, app_nil_r. reflexivity.
    - intros i _. destruct (Hf i) as (-> & -> & _). reflexivity.
    - intros i _. destruct (Hf i) as (_ & -> & -> & ->). auto. }
  intros evs n R.
  destruct (hruns_ok cd HC hash ser parse HS N F B HB HN os ns hold cor new Hhold Hcor ND1 L1 L2 Hnew ND2 Hns bad TB1 TB2 vm (h_old n0) Hv Hsome n0 evs n I0 R) as (I & P).
  assert (ST := hstep_ok cd HC hash ser parse HS N F B HB HN os ns hold cor new Hhold Hcor ND1 L1 L2 Hnew ND2 Hns bad TB1 TB2 vm (h_old n0) Hv Hsome n).
  split; [|split; [|split; [|split; [|split]]]].
  - pose proof (sum_waiting cd ser F B hold new n0). unfold phi in P at 2. lia.
  - intros x. destruct (ST x I) as (o & E & _). eauto.
  - intros k p Hk E. eapply i_rdy; eauto.
  - intros i p Hi E. eapply new_reduced; eauto.
  - intros Q. destruct (quiet_done cd HC hash ser parse HS N F B HB HN os ns hold cor new Hhold Hcor ND1 L1 L2 Hnew ND2 Hns bad TB1 TB2 vm (h_old n0) Hv Hsome n I Q) as (Q1 & Q2).
    split; [|exact Q2]. intros k Hk. specialize (Q1 k Hk). destruct (h_old n k) as [p|]; [eauto|congruence].
  - eapply to_quiet; eauto.
Qed.

(** ** C78 The first handoff *)

Theorem c78_first : forall cd hash ser parse N F s rF rZ ks msgs os ns hold cor new vm, codec_ok cd -> (forall l, parse (ser l) = l) ->
  (1 <= F)%nat -> (3 * F + 1 <= N)%nat -> (Z.of_nat (N + 2) <= r)%Z ->
  length rF = (2 * F + 1)%nat -> length rZ = (2 * F + 1)%nat -> Forall (fun row => length row = (F + 1)%nat) rZ ->
  two_committees N F hold cor new ->
  (* members as they are made, and the client's messages *)
  (forall k, In k hold -> NewHonestParty N F (k - 1) = Ret (os k)) -> (forall i, In i new -> NewHonestParty N F (i - 1) = Ret (ns i)) ->
  party_setup F = Ret ks -> Share cd ks N F s rF rZ = Ret msgs -> (forall k, In k hold -> nth_error msgs (k - 1) = Some (vm k)) ->
  exists B, bdeg F (2 * F) B /\ beval B 0 0 = s /\ (forall y, beval B 0 y = peval (s :: tl rF) y) /\
  forall bad n0, tolerated cd hash ser N F B ns cor new bad ->
    (forall k, h_old n0 k = None) -> fresh n0 -> Permutation (h_post n0) (map (fun k => PVss k (vm k)) hold ++ bad) ->
    hands_on cd hash ser parse N F B os ns hold new (length hold + length bad + 2 * length hold * length new) n0.
Proof.
  intros cd hash ser parse N F s rF rZ ks msgs os ns hold cor new vm HC HS HF HN HR LF LZ LZ2 TC Hos Hns EK ESh Hvm.
  pose proof TC as (_ & HM & _).
  destruct (c17_honest_dealer cd N F s rF rZ HC HF HN HR LF LZ LZ2) as (ks' & msgs' & B & EK' & ESh' & LM & HB & B0 & BF & BZ & _).
  rewrite EK in EK'. injection EK' as <-. rewrite ESh in ESh'. injection ESh' as <-.
  exists B. split; [exact HB|]. split; [exact B0|]. split; [exact BF|].
  intros bad n0 HT HO Hfr HP.
  assert (EL : (length hold + length bad = length (h_post n0))%nat).
  { apply Permutation_length in HP. rewrite HP, app_length, map_length. reflexivity. }
  rewrite EL. apply (hands_on_gen cd hash ser parse N F B os ns hold cor new bad vm n0); auto.
  - intros i Hi. assert (Ri : (1 <= i <= N)%nat) by (apply HM; auto). destruct (new_party N F (i - 1) HF HN HR) as (p & EP & WP & PN & PF & PI).
    rewrite (Hns i Hi) in EP. injection EP as <-. auto.
  - intros k Hk _. assert (Rk : (1 <= k <= N)%nat) by (apply HM; auto).
    destruct (dealt_ready cd N F s rF rZ ks msgs B HC HF HN HR LF LZ LZ2 EK ESh HB BZ (k - 1) ltac:(lia)) as (p & m & p' & EP & Em & EV & RD).
    rewrite (Hos k Hk) in EP. injection EP as <-. rewrite (Hvm k Hk) in Em. injection Em as <-. exists true, p'. split; [exact EV|]. split; [exact RD|].
    destruct (new_party N F (k - 1) HF HN HR) as (p1 & EP1 & WP & _ & _ & PI). rewrite (Hos k Hk) in EP1. injection EP1 as <-.
    destruct (accept_inv party_secret cd (os k) (vm k) p' WP EV) as (_ & _ & _ & _ & PI' & _). congruence.
  - intros k p _ E. rewrite HO in E. discriminate.
  - assert (E : flat_map (oldpart cd ser F B new vm n0) hold = flat_map (outs cd ser F B new) hold).
    { clear -HO. induction hold as [|k l IH]; [reflexivity|]. cbn [flat_map]. rewrite IH. unfold oldpart. rewrite HO. reflexivity. }
    rewrite E, HP. unfold univ. rewrite <- app_assoc. apply Permutation_app_head. apply Permutation_app_comm.
Qed.
Print Assumptions c78_first.

(** ** C78 A later handoff *)

(** The members of the old committee have the shares that an earlier handoff has left them (C30). *)
Theorem c78_later : forall cd hash ser parse N F B os ns hold cor new out bad n0, codec_ok cd -> (forall l, parse (ser l) = l) ->
  two_committees N F hold cor new -> bdeg F (2 * F) B ->
  (forall k, In k hold -> ready N F B (os k) /\ p_PID (os k) = (k - 1)%nat) ->
  (forall i, In i new -> party_wf party_secret (ns i) /\ p_N (ns i) = N /\ p_F (ns i) = F /\ p_PID (ns i) = (i - 1)%nat) ->
  tolerated cd hash ser N F B ns cor new bad ->
  (forall k, In k hold -> h_old n0 k = Some (os k)) -> fresh n0 ->
  (forall k, In k hold -> hands_over cd ser new k (os k) = Ret (out k)) -> Permutation (h_post n0) (flat_map out hold ++ bad) ->
  hands_on cd hash ser parse N F B os ns hold new (length bad + 4 * length hold * length new) n0.
Proof.
  intros cd hash ser parse N F B os ns hold cor new out bad n0 HC HS TC HB Hos Hns HT HO Hfr Hout HP. pose proof TC as (_ & HM & _ & _ & _ & L1 & L2).
  assert (EO : flat_map out hold = flat_map (outs cd ser F B new) hold).
  { rewrite !flat_map_concat_map. f_equal. apply map_ext_in. intros k Hk. destruct (Hos k Hk) as (RD & PD).
    pose proof (Hout k Hk) as E. rewrite (hands_over_ok cd ser N F B hold cor new) in E; auto.
    - injection E as ->. reflexivity.
    - assert (1 <= k <= N)%nat by (apply HM; auto). lia. }
  assert (EL : forall l, length (flat_map (outs cd ser F B new) l) = (2 * length l * length new)%nat).
  { induction l as [|k l IH]; [reflexivity|]. cbn [flat_map length]. rewrite app_length, IH, outs_length. lia. }
  assert (LP : length (h_post n0) = (2 * length hold * length new + length bad)%nat).
  { apply Permutation_length in HP. rewrite HP, app_length, EO, EL. reflexivity. }
  set (vm := fun _ : nat => mkVSS None [] []).
  replace (length bad + 4 * length hold * length new)%nat with (length (h_post n0) + 2 * length hold * length new)%nat by (rewrite LP; lia).
  apply (hands_on_gen cd hash ser parse N F B os ns hold cor new bad vm n0); auto.
  - intros k Hk E. rewrite (HO k Hk) in E. discriminate.
  - intros k p Hk E. rewrite (HO k Hk) in E. injection E as <-. auto.
  - assert (E : flat_map (oldpart cd ser F B new vm n0) hold = map (fun k => PVss k (vm k)) hold).
    { rewrite flat_map_concat_map. rewrite (map_ext_in _ (fun k => [PVss k (vm k)])).
      - clear. induction hold as [|k l IH]; [reflexivity|]. cbn [map concat app]. rewrite IH. reflexivity.
      - intros k Hk. unfold oldpart. rewrite (HO k Hk). reflexivity. }
    rewrite E, HP, EO. unfold univ. apply Permutation_app_comm.
Qed.
Print Assumptions c78_later.

(** ** C78 The client's secret through the whole handoff *)

(** After the first part has come to rest in any order of deliveries, the refreshing (C75, C77) starts from the states the
    members are in; in a suitable order it leads every honest member of the new committee to its full share of a polynomial
    with the client's secret. *)
Theorem c78_whole : forall cd hash ser parse N F s rF rZ ks msgs os ns hold cor new vm, codec_ok cd -> (forall l, parse (ser l) = l) ->
  (1 <= F)%nat -> (3 * F + 1 <= N)%nat -> (Z.of_nat (N + 2) <= r)%Z ->
  length rF = (2 * F + 1)%nat -> length rZ = (2 * F + 1)%nat -> Forall (fun row => length row = (F + 1)%nat) rZ ->
  two_committees N F hold cor new -> (2 * F + 1 <= length new)%nat ->
  (forall k, In k hold -> NewHonestParty N F (k - 1) = Ret (os k)) -> (forall i, In i new -> NewHonestParty N F (i - 1) = Ret (ns i)) ->
  party_setup F = Ret ks -> Share cd ks N F s rF rZ = Ret msgs -> (forall k, In k hold -> nth_error msgs (k - 1) = Some (vm k)) ->
  exists B, bdeg F (2 * F) B /\ beval B 0 0 = s /\
  forall bad n0 evs n, tolerated cd hash ser N F B ns cor new bad ->
    (forall k, h_old n0 k = None) -> fresh n0 -> Permutation (h_post n0) (map (fun k => PVss k (vm k)) hold ++ bad) ->
    hruns cd hash ser parse os ns new n0 evs n -> (forall x, hstep cd hash ser parse os ns new n x = Ret None) ->
  exists ps, (forall i, In i new -> h_new n i = Some (ps i)) /\
  forall QB sg sigok combine m0 K, (forall k, bdeg F (2 * F) (QB k)) -> (forall k, In k new -> beval (QB k) 0 0 = 0) ->
    (forall j k, In j new -> In k new -> sigok k (sg j k) = true) -> starts cd ps (dealt F QB) new m0 ->
    incl K new -> NoDup K -> length K = (F + 1)%nat ->
  exists evs' m, nruns cd ps sg sigok combine new m0 evs' m /\ (forall i, In i new -> agreeing F m i) /\
  forall l later, In l new -> (forall i, In i new -> exists evs2 m', nruns cd ps sg sigok combine new m evs2 m' /\ later i = v_st (n_v m' i)) ->
  exists B' share CQsum, bdeg F (2 * F) B' /\ beval B' 0 0 = s /\
    (forall i, In i new -> Refresh (ps i) (later i) (given m l) = Ret (Some (share i, CQsum i)) /\ share i = secy B' (of_nat i)) /\
    finishes cd F (fun i => set_reducedShare (ps i) (share i)) CQsum new B'.
Proof.
  intros cd hash ser parse N F s rF rZ ks msgs os ns hold cor new vm HC HS HF HN HR LF LZ LZ2 TC LN Hos Hns EK ESh Hvm.
  destruct (c78_first cd hash ser parse N F s rF rZ ks msgs os ns hold cor new vm HC HS HF HN HR LF LZ LZ2 TC Hos Hns EK ESh Hvm)
    as (B & HB & B0 & _ & H). exists B. split; [exact HB|]. split; [exact B0|].
  intros bad n0 evs n HT HO Hf HP R Q. destruct (H bad n0 HT HO Hf HP evs n R) as (_ & _ & _ & RD & QD & _). destruct (QD Q) as (_ & QN).
  exists (fun i => match h_new n i with Some p => p | None => ns i end).
  set (ps := fun i => match h_new n i with Some p => p | None => ns i end).
  assert (HPS : forall i, In i new -> has_reduced N F B i (ps i)).
  { intros i Hi. destruct (QN i Hi) as (p & E). unfold ps. rewrite E. apply (RD i p Hi E). }
  split. { intros i Hi. destruct (QN i Hi) as (p & E). rewrite E. reflexivity. }
  intros QB sg sigok combine m0 K Q1 Q2 Q3 S0 K1 K2 K3. destruct TC as (T1 & T2 & _ & _ & T5 & _).
  assert (C : committee party_secret N F ps QB sg sigok new).
  { split; [intros i Hi; destruct (HPS i Hi) as (A1 & A2 & A3 & A4 & _); auto|]. split; [exact Q1|]. split; [exact Q2|]. split; [exact T1|].
    split; [intros k Hk; apply T2; auto|]. split; [exact T5|]. split; [exact Q3|exact LN]. }
  destruct (c77_good_order cd N F ps QB sg sigok combine new m0 B K HC C S0 HB) as (evs' & m & R' & AG & G); auto.
  { intros i Hi. destruct (HPS i Hi) as (_ & _ & _ & _ & A5 & A6). auto. }
  exists evs', m. split; [exact R'|]. split; [exact AG|]. intros l later Hl HL. destruct (G l later Hl HL) as (B' & share & CQ & D1 & D2 & _ & D3 & D4).
  exists B', share, CQ. rewrite B0 in D2. auto.
Qed.
Print Assumptions c78_whole.

(** Four members with F = 1 in both committees; member 4 of the old one sends wrong commitments and a wrong value.  The
    others get their shares of the client's secret. *)
Example c78_ex : exists cd hash ser parse os ns bad n0 B evs n, codec_ok cd /\ (forall l, parse (ser l) = l) /\
  two_committees 4 1 [1; 2; 3]%nat [4]%nat [1; 2; 3; 4]%nat /\ tolerated cd hash ser 4 1 B ns [4]%nat [1; 2; 3; 4]%nat bad /\ length bad = 2%nat /\
  bdeg 1 2 B /\ beval B 0 0 = of_nat 7 /\ (forall k, h_old n0 k = None) /\ fresh n0 /\
  hruns cd hash ser parse os ns [1; 2; 3; 4]%nat n0 evs n /\
  forall i, In i [1; 2; 3; 4]%nat -> exists p, h_new n i = Some p /\ has_reduced 4 1 B i p.
Proof.
  destruct c17_example_hypotheses as (HC & H1 & H2 & H3 & H4 & H5 & H6).
  destruct (c17_honest_dealer demo_codec 4 1 (of_nat 7) _ _ HC H1 H2 H3 H4 H5 H6) as (ks & msgs & _ & EK & ES & LM & _).
  set (nw := fun k => match NewHonestParty 4 1 (k - 1) with Ret p => p | _ => mkParty 0 0 0 ks (mkPi ZeroG1 []) [] [] [] [] [] end).
  assert (EN : forall k, NewHonestParty 4 1 (k - 1) = Ret (nw k)).
  { intros k. destruct (new_party 4 1 (k - 1) H1 H2 H3) as (p & E & _). unfold nw. rewrite E. reflexivity. }
  set (vm := fun k => nth (k - 1) msgs (mkVSS None [] [])).
  assert (TC : two_committees 4 1 [1; 2; 3]%nat [4]%nat [1; 2; 3; 4]%nat).
  { split; [lia|]. split; [cbn [In]; intros; lia|]. split; [cbn [In]; intros; lia|].
    split; [repeat constructor; cbn [In]; lia|]. split; [repeat constructor; cbn [In]; lia|]. cbn [length]. lia. }
  destruct (c78_first demo_codec (fun d => d) demo_ser demo_parse 4 1 (of_nat 7) _ _ ks msgs nw nw [1; 2; 3]%nat [4]%nat [1; 2; 3; 4]%nat vm
    HC demo_parse_ser H1 H2 H3 H4 H5 H6 TC) as (B & HB & B0 & _ & HR); auto.
  { intros k Hk. unfold vm. apply nth_error_nth'. rewrite LM. cbn [In] in Hk. lia. }
  set (g := match CommitToPoly (p_KZG (nw 1%nat)) (secy B (of_nat 1)) with Ret g => g | _ => ZeroG1 end).
  set (bad := [PPrep 4 1 [9%Z]; PRed 4 1 (mkSR (ToCompressedG1 demo_codec (mkG1 (dlog1 g + 1))) (FrTo32 (of_nat 5)) (ToCompressedG1 demo_codec ZeroG1))]).
  set (n0 := mkHnet (fun _ => None) (fun _ => []) (fun _ => None) (fun _ => []) (fun _ => None) (map (fun k => PVss k (vm k)) [1; 2; 3]%nat ++ bad)).
  assert (HT : tolerated demo_codec (fun d => d) demo_ser 4 1 B nw [4]%nat [1; 2; 3; 4]%nat bad).
  { split; [repeat constructor; cbn [In]; intuition congruence|]. intros x [<- |[<- |[]]].
    - split; [left; reflexivity|]. split; [left; reflexivity|]. auto.
    - split; [left; reflexivity|]. split; [left; reflexivity|]. cbn [sr_C sr_W]. rewrite !HC. split; [discriminate|]. split; [discriminate|].
      intros C w v E E'. exfalso. assert (EG : g = C) by (unfold g; rewrite E; reflexivity).
      assert (EC : mkG1 (dlog1 g + 1) = C) by congruence. apply (f_equal dlog1) in EC. rewrite EG in EC. cbn [dlog1] in EC.
      assert (Z1 : 1 = 0). { transitivity ((dlog1 C + 1) - dlog1 C); [ring|]. rewrite EC. ring. }
      revert Z1. exact f1_neq_0. }
  assert (HF : fresh n0) by (intros i; cbn; auto).
  specialize (HR bad n0 HT (fun _ => eq_refl) HF (Permutation_refl _)).
  destruct (HR [] n0 (hr_nil _ _ _ _ _ _ _ _)) as (_ & _ & _ & _ & _ & evs & n & R & Q).
  destruct (HR evs n R) as (_ & _ & _ & RD & QD & _). destruct (QD Q) as (_ & QN).
  exists demo_codec, (fun d => d), demo_ser, demo_parse, nw, nw, bad, n0, B, evs, n.
  split; [exact HC|]. split; [exact demo_parse_ser|]. split; [exact TC|]. split; [exact HT|]. split; [reflexivity|]. split; [exact HB|].
  split; [exact B0|]. split; [reflexivity|]. split; [exact HF|]. split; [exact R|].
  intros i Hi. destruct (QN i Hi) as (p & E). exists p. split; [exact E|]. apply (RD i p Hi E).
Qed.

(** A later handoff, with nobody corrupted sending anything. *)
Example c78_later_ex : exists cd ser parse os ns out n0 B evs n, codec_ok cd /\ (forall l, parse (ser l) = l) /\
  two_committees 4 1 [2; 3]%nat [4]%nat [1; 2; 3; 4]%nat /\ bdeg 1 2 B /\ beval B 0 0 = of_nat 7 /\
  (forall k, In k [2; 3]%nat -> ready 4 1 B (os k) /\ p_PID (os k) = (k - 1)%nat /\ h_old n0 k = Some (os k) /\
     hands_over cd ser [1; 2; 3; 4]%nat k (os k) = Ret (out k) /\ length (out k) = 8%nat) /\
  fresh n0 /\ h_post n0 = out 2%nat ++ out 3%nat /\ hruns cd (fun d => d) ser parse os ns [1; 2; 3; 4]%nat n0 evs n /\
  forall i, In i [1; 2; 3; 4]%nat -> exists p, h_new n i = Some p /\ has_reduced 4 1 B i p.
Proof.
  destruct c17_example_hypotheses as (HC & H1 & H2 & H3 & H4 & H5 & H6).
  destruct (c17_honest_dealer demo_codec 4 1 (of_nat 7) _ _ HC H1 H2 H3 H4 H5 H6) as (ks & msgs & B & EK & ES & LM & HB & B0 & _ & BZ & _).
  pose proof (dealt_ready demo_codec 4 1 _ _ _ ks msgs B HC H1 H2 H3 H4 H5 H6 EK ES HB BZ) as DR.
  assert (RD : forall k, (1 <= k <= 4)%nat -> exists p', ready 4 1 B p' /\ p_PID p' = (k - 1)%nat).
  { intros k Hk. destruct (DR (k - 1)%nat ltac:(lia)) as (p & m & p' & EP & Em & EV & R). exists p'. split; [exact R|].
    destruct (new_party 4 1 (k - 1) H1 H2 H3) as (p1 & EP1 & WP & _ & _ & PI). rewrite EP in EP1. injection EP1 as <-.
    destruct (accept_inv party_secret demo_codec p m p' WP EV) as (_ & _ & _ & _ & PI' & _). congruence. }
  destruct (RD 2%nat ltac:(lia)) as (p2 & R2 & I2). destruct (RD 3%nat ltac:(lia)) as (p3 & R3 & I3).
  set (os := fun k : nat => if (k =? 2)%nat then p2 else p3).
  set (nw := fun k => match NewHonestParty 4 1 (k - 1) with Ret p => p | _ => p2 end).
  set (new := [1; 2; 3; 4]%nat). set (out := outs demo_codec demo_ser 1 B new).
  assert (TC : two_committees 4 1 [2; 3]%nat [4]%nat new).
  { split; [lia|]. unfold new. split; [cbn [In]; intros; lia|]. split; [cbn [In]; intros; lia|].
    split; [repeat constructor; cbn [In]; lia|]. split; [repeat constructor; cbn [In]; lia|]. cbn [length]. lia. }
  set (n0 := mkHnet (fun k => Some (os k)) (fun _ => []) (fun _ => None) (fun _ => []) (fun _ => None) (out 2%nat ++ out 3%nat)).
  assert (HF : fresh n0) by (intros i; cbn; auto).
  assert (OS : forall k, In k [2; 3]%nat -> ready 4 1 B (os k) /\ p_PID (os k) = (k - 1)%nat).
  { intros k [<- |[<- |[]]]; unfold os; cbn [Nat.eqb]; auto. }
  assert (HO : forall k, In k [2; 3]%nat -> hands_over demo_codec demo_ser new k (os k) = Ret (out k)).
  { intros k Hk. destruct (OS k Hk) as (A1 & A2). unfold out. apply (hands_over_ok demo_codec demo_ser 4 1 B [2; 3]%nat [4]%nat new); auto.
    - unfold new. cbn [In]. intros. lia.
    - cbn [In] in Hk. lia. }
  assert (NW : forall i, In i new -> party_wf party_secret (nw i) /\ p_N (nw i) = 4%nat /\ p_F (nw i) = 1%nat /\ p_PID (nw i) = (i - 1)%nat).
  { intros i _. destruct (new_party 4 1 (i - 1) H1 H2 H3) as (p & E & W1 & W2 & W3 & W4). unfold nw. rewrite E. auto. }
  assert (HP : Permutation (h_post n0) (flat_map out [2; 3]%nat ++ [])).
  { cbn [flat_map h_post n0]. rewrite !app_nil_r. reflexivity. }
  assert (HT : tolerated demo_codec (fun d => d) demo_ser 4 1 B nw [4]%nat new []) by (split; [constructor|intros x []]).
  pose proof (c78_later demo_codec (fun d => d) demo_ser demo_parse 4 1 B os nw [2; 3]%nat [4]%nat new out [] n0
    HC demo_parse_ser TC HB OS NW HT (fun _ _ => eq_refl) HF HO HP) as HR.
  destruct (HR [] n0 (hr_nil _ _ _ _ _ _ _ _)) as (_ & _ & _ & _ & _ & evs & n & R & Q).
  destruct (HR evs n R) as (_ & _ & _ & RDD & QD & _). destruct (QD Q) as (_ & QN).
  exists demo_codec, demo_ser, demo_parse, os, nw, out, n0, B, evs, n.
  split; [exact HC|]. split; [exact demo_parse_ser|]. split; [exact TC|]. split; [exact HB|]. split; [exact B0|].
  split. { intros k Hk. destruct (OS k Hk) as (A1 & A2). split; [exact A1|]. split; [exact A2|]. split; [reflexivity|]. split; [apply HO; exact Hk|].
    unfold out. rewrite outs_length. reflexivity. }
  split; [exact HF|]. split; [reflexivity|]. split; [exact R|].
  intros i Hi. destruct (QN i Hi) as (p & E). exists p. split; [exact E|]. apply (RDD i p Hi E).
Qed.
