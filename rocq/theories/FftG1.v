(** The transform of points is the transform of scalars in the exponent. *)

Require Import ZArith List Bool Arith Lia.
From Verif Require Import Prime Fr CodecModel GoBase Poly GroupModel VssModel VssProofs FftModel FftProofs FftProofs2.
Import ListNotations.
Local Open Scope F_scope.

(** The result of a computation through a function. *)
Definition gmap {A B} (h : A -> B) (m : go A) : go B := bind m (fun a => Ret (h a)).

Lemma gomap_gmap {X A B} (h : A -> B) (f : X -> go A) (g : X -> go B) l :
  (forall x, g x = gmap h (f x)) -> gomap g l = gmap (map h) (gomap f l).
Proof.
  intros H. induction l as [|x l IH]; [reflexivity|]. cbn [gomap]. rewrite H, IH.
  unfold gmap. destruct (f x); cbn [bind]; try reflexivity. destruct (gomap f l); reflexivity.
Qed.

Lemma goloop_gmap {A B} (h : A -> B) (f : A -> nat -> go A) (g : B -> nat -> go B) lo n a :
  (forall a i, g (h a) i = gmap h (f a i)) -> goloop lo n g (h a) = gmap h (goloop lo n f a).
Proof.
  intros H. unfold goloop. generalize (seq lo n). intros l. revert a.
  induction l as [|i l IH]; intros a; [reflexivity|]. cbn [gofold]. rewrite H. unfold gmap in *.
  destruct (f a i); cbn [bind]; try reflexivity. apply IH.
Qed.

Lemma idx_map {A B} (h : A -> B) l i : idx (map h l) i = gmap h (idx l i).
Proof.
  unfold idx. rewrite nth_error_map. destruct (nth_error l i); reflexivity.
Qed.

Lemma simpleFTG1_sim vals off stride roots rstride l :
  simpleFTG1 (map mkG1 vals) off stride roots rstride l = gmap (map mkG1) (simpleFT vals off stride roots rstride l).
Proof.
  unfold simpleFTG1, simpleFT. apply gomap_gmap. intros i. rewrite idx_map. unfold gmap at 1.
  destruct (idx vals off) as [v| | |]; cbn [bind]; try reflexivity.
  destruct (idx roots 0) as [r| | |]; cbn [bind]; try reflexivity.
  change (MulG1 (mkG1 v) r) with (mkG1 (v * r)). apply goloop_gmap. intros a j.
  rewrite idx_map. unfold gmap. destruct (idx vals (off + j * stride)); cbn [bind]; try reflexivity.
  destruct (idx roots (((i * j) mod l) * rstride)); reflexivity.
Qed.

Lemma fftG1_rec_sim roots vals : forall fuel off stride rstride l,
  fftG1_rec fuel (map mkG1 vals) off stride roots rstride l = gmap (map mkG1) (fft_rec fuel vals off stride roots rstride l).
Proof.
  induction fuel as [|fuel IH]; intros off stride rstride l; [reflexivity|]. cbn [fftG1_rec fft_rec].
  destruct (l <=? 4)%nat; [apply simpleFTG1_sim|]. rewrite !IH. unfold gmap.
  destruct (fft_rec fuel vals off (stride * 2) roots (rstride * 2) (l / 2)) as [L| | |]; cbn [bind]; try reflexivity.
  destruct (fft_rec fuel vals (off + stride) (stride * 2) roots (rstride * 2) (l - l / 2)) as [R| | |]; cbn [bind]; try reflexivity.
  rewrite (gomap_gmap (fun p => (mkG1 (fst p), mkG1 (snd p))) (fun i =>
        x <- idx L i ;; y <- idx R i ;; root <- idx roots (i * rstride) ;; Ret (x + y * root, x - y * root))).
  - unfold gmap. destruct (gomap _ (seq 0 (l / 2))) as [ps| | |]; cbn [bind]; try reflexivity.
    rewrite !map_app, !map_map, skipn_map. reflexivity.
  - intros i. rewrite !idx_map. unfold gmap. destruct (idx L i); cbn [bind]; try reflexivity.
    destruct (idx R i); cbn [bind]; try reflexivity. destruct (idx roots (i * rstride)); reflexivity.
Qed.

Lemma FFTG1_sim fs vals inv :
  FFTG1 fs (map mkG1 vals) inv = gmap (map mkG1) (InplaceFFT fs vals (length vals) inv).
Proof.
  unfold FFTG1, InplaceFFT. rewrite map_length.
  destruct (MaxWidth fs <? length vals)%nat; [reflexivity|].
  destruct (negb (IsPowerOfTwo (Z.of_nat (length vals)))); [reflexivity|].
  destruct (length vals =? 0)%nat; [reflexivity|].
  destruct inv.
  - destruct (slice_to (Reverse fs) (MaxWidth fs)) as [rz| | |]; cbn [bind]; try reflexivity.
    rewrite fftG1_rec_sim. unfold gmap.
    destruct (fft_rec _ _ _ _ _ _ _) as [o| | |]; cbn [bind]; try reflexivity.
    rewrite !map_map. reflexivity.
  - destruct (slice_to (Expanded fs) (MaxWidth fs)) as [rz| | |]; cbn [bind]; try reflexivity.
    apply fftG1_rec_sim.
Qed.

Lemma map_dlog vals : map mkG1 (map dlog1 vals) = vals.
Proof. rewrite map_map. rewrite <- (map_id vals) at 2. apply map_ext. intros []. reflexivity. Qed.

Lemma map_mkG1_dlog vals : map dlog1 (map mkG1 vals) = vals.
Proof. rewrite map_map. rewrite <- (map_id vals) at 2. apply map_ext. reflexivity. Qed.
