(** Model of the Fourier transforms of /repo/internal/polycommit: fft.go, fft_fr.go, fft_g1.go, and of the
    power-of-two helpers.

    Simplification: lengths, offsets and strides are naturals (uint64 in the code; they do not wrap around for
    slices that fit into memory). *)

Require Import ZArith List Bool Arith.
From Verif Require Import Prime Fr CodecModel GoBase GroupModel VssModel.
Import ListNotations.
Local Open Scope F_scope.

(** ** Powers of two *)

(** math/bits Len64: the number of bits of x. *)
Definition Len64 (x : Z) : Z := if (x =? 0)%Z then 0%Z else (Z.log2 x + 1)%Z.

(** fft.go:15-20 [nextPowOf2], in uint64 arithmetic (a shift by 64 gives 0). *)
Definition nextPowOf2 (v : Z) : Z :=
  if (v =? 0)%Z then 1%Z else (Z.shiftl 1 (Len64 (v - 1)) mod 2 ^ 64)%Z.

(** internal/bls/globals.go:75-77 [IsPowerOfTwo], in uint64 arithmetic. *)
Definition IsPowerOfTwo (v : Z) : bool := (Z.land v ((v - 1) mod 2 ^ 64) =? 0)%Z.

(** internal/party/party_utils.go:125-149 [GetScaleByCommitteeSize], size+1 in uint32 arithmetic. *)
Definition GetScaleByCommitteeSize (size : Z) : go Z :=
  let m := ((size + 1) mod 2 ^ 32)%Z in
  if ((1 <? m) && (m <=? 2))%Z then Ret 1%Z
  else if ((2 <? m) && (m <=? 4))%Z then Ret 2%Z
  else if ((4 <? m) && (m <=? 8))%Z then Ret 3%Z
  else if ((8 <? m) && (m <=? 16))%Z then Ret 4%Z
  else if ((16 <? m) && (m <=? 32))%Z then Ret 5%Z
  else if ((32 <? m) && (m <=? 64))%Z then Ret 6%Z
  else if ((64 <? m) && (m <=? 128))%Z then Ret 7%Z
  else Panic.

(** ** Roots of unity *)

(** internal/bls/globals.go:32-63 [Scale2RootOfUnity]. *)
Definition Scale2RootOfUnity : list Fr := map of_Z [
  1;
  52435875175126190479447740508185965837690552500527637822603658699938581184512;
  3465144826073652318776269530687742778270252468765361963008;
  23674694431658770659612952115660802947967373701506253797663184111817857449850;
  14788168760825820622209131888203028446852016562542525606630160374691593895118;
  36581797046584068049060372878520385032448812009597153775348195406694427778894;
  31519469946562159605140591558550197856588417350474800936898404023113662197331;
  47309214877430199588914062438791732591241783999377560080318349803002842391998;
  36007022166693598376559747923784822035233416720563672082740011604939309541707;
  4214636447306890335450803789410475782380792963881561516561680164772024173390;
  22781213702924172180523978385542388841346373992886390990881355510284839737428;
  49307615728544765012166121802278658070711169839041683575071795236746050763237;
  39033254847818212395286706435128746857159659164139250548781411570340225835782;
  32731401973776920074999878620293785439674386180695720638377027142500196583783;
  39072540533732477250409069030641316533649120504872707460480262653418090977761;
  22872204467218851938836547481240843888453165451755431061227190987689039608686;
  15076889834420168339092859836519192632846122361203618639585008852351569017005;
  15495926509001846844474268026226183818445427694968626800913907911890390421264;
  20439484849038267462774237595151440867617792718791690563928621375157525968123;
  37115000097562964541269718788523040559386243094666416358585267518228781043101;
  1755840822790712607783180844474754741366353396308200820563736496551326485835;
  32468834368094611004052562760214251466632493208153926274007662173556188291130;
  4859563557044021881916617240989566298388494151979623102977292742331120628579;
  52167942466760591552294394977846462646742207006759917080697723404762651336366;
  18596002123094854211120822350746157678791770803088570110573239418060655130524;
  734830308204920577628633053915970695663549910788964686411700880930222744862;
  4541622677469846713471916119560591929733417256448031920623614406126544048514;
  15932505959375582308231798849995567447410469395474322018100309999481287547373;
  37480612446576615530266821837655054090426372233228960378061628060638903214217;
  5660829372603820951332104046316074966592589311213397907344198301300676239643;
  20094891866007995289136270587723853997043774683345353712639419774914899074390;
  34070893824967080313820779135880760772780807222436853681508667398599787661631]%Z.

(** fft.go:25-36 [expandRootOfUnity]: the entries after the first one; [this] is the last entry so far.  The loop
    need not end; [None]: not ended after [fuel] rounds. *)
Fixpoint expand_loop (fuel : nat) (root this : Fr) : option (list Fr) :=
  match fuel with
  | O => None
  | S fuel => if feqb this 1 then Some [this]
              else match expand_loop fuel root (this * root) with Some l => Some (this :: l) | None => None end
  end.
(** fft.go:25-36 [expandRootOfUnity]. *)
Definition expandRootOfUnity (fuel : nat) (root : Fr) : option (list Fr) :=
  match expand_loop fuel root root with Some l => Some (1 :: l) | None => None end.

(** fft.go:38-46 [FFTSettings] (the field RootOfUnity is not used afterwards). *)
Record FFTSettings : Type := mkFS { MaxWidth : nat; Expanded : list Fr; Reverse : list Fr }.

(** fft.go:48-65 [NewFFTSettings]; [None]: the loop of expandRootOfUnity has not ended. *)
Definition NewFFTSettings (fuel maxScale : nat) : go (option FFTSettings) :=
  root <- idx Scale2RootOfUnity maxScale ;;
  Ret (match expandRootOfUnity fuel root with
       | Some rootz => Some (mkFS (2 ^ maxScale) rootz (rev rootz))
       | None => None
       end).

(** ** Transform of scalars *)

(** fft_fr.go:11-31 [simpleFT]; [l] is the length of out. *)
Definition simpleFT (vals : list Fr) (off stride : nat) (roots : list Fr) (rstride l : nat) : go (list Fr) :=
  gomap (fun i =>
    jv <- idx vals off ;;
    r <- idx roots 0 ;;
    goloop 1 (l - 1) (fun last j =>
      jv <- idx vals (off + j * stride) ;;
      r <- idx roots (((i * j) mod l) * rstride) ;;
      Ret (last + jv * r)) (jv * r)) (seq 0 l).

(** fft_fr.go:33-56 [_fft]; [l] is the length of out.  The calls write to the two halves of out; the
    loop then replaces out[i] and out[i+half], each once.  [fuel]: depth of the recursion, never used up
    when it is at least l. *)
Fixpoint fft_rec (fuel : nat) (vals : list Fr) (off stride : nat) (roots : list Fr) (rstride l : nat)
    : go (list Fr) :=
  match fuel with
  | O => Panic
  | S fuel =>
    if (l <=? 4)%nat then simpleFT vals off stride roots rstride l
    else
      let half := (l / 2)%nat in
      L <- fft_rec fuel vals off (stride * 2) roots (rstride * 2) half ;;
      R <- fft_rec fuel vals (off + stride) (stride * 2) roots (rstride * 2) (l - half) ;;
      ps <- gomap (fun i =>
        x <- idx L i ;;
        y <- idx R i ;;
        root <- idx roots (i * rstride) ;;
        Ret (x + y * root, x - y * root)) (seq 0 half) ;;
      Ret (map fst ps ++ map snd ps ++ skipn half R)
  end.

(** fft_fr.go:79-109 [InplaceFFT]; [l] is the length of out, the result its content.  An empty [vals] passes
    the test for a power of two; the division by its length is a run-time panic. *)
Definition InplaceFFT (fs : FFTSettings) (vals : list Fr) (l : nat) (inv : bool) : go (list Fr) :=
  let n := length vals in
  if (MaxWidth fs <? n)%nat then Error
  else if negb (IsPowerOfTwo (Z.of_nat n)) then Error
  else if (n =? 0)%nat then Panic
  else if inv then
    let invLen := finv (of_nat n) in
    rootz <- slice_to (Reverse fs) (MaxWidth fs) ;;
    out <- fft_rec l vals 0 1 rootz (MaxWidth fs / n) l ;;
    Ret (map (fun v => v * invLen) out)
  else
    rootz <- slice_to (Expanded fs) (MaxWidth fs) ;;
    fft_rec l vals 0 1 rootz (MaxWidth fs / n) l.

(** fft_fr.go:58-77 [FFT]: a copy, padded with zeros. *)
Definition FFT (fs : FFTSettings) (vals : list Fr) (inv : bool) : go (list Fr) :=
  let n := length vals in
  if (MaxWidth fs <? n)%nat then Error
  else
    let n' := Z.to_nat (nextPowOf2 (Z.of_nat n)) in
    InplaceFFT fs (vals ++ repeat 0 (n' - n)) n' inv.

(** ** Transform of points *)

(** fft_g1.go:15-35 [simpleFTG1]. *)
Definition simpleFTG1 (vals : list G1) (off stride : nat) (roots : list Fr) (rstride l : nat) : go (list G1) :=
  gomap (fun i =>
    jv <- idx vals off ;;
    r <- idx roots 0 ;;
    goloop 1 (l - 1) (fun last j =>
      jv <- idx vals (off + j * stride) ;;
      r <- idx roots (((i * j) mod l) * rstride) ;;
      Ret (AddG1 last (MulG1 jv r))) (MulG1 jv r)) (seq 0 l).

(** fft_g1.go:37-60 [_fftG1]. *)
Fixpoint fftG1_rec (fuel : nat) (vals : list G1) (off stride : nat) (roots : list Fr) (rstride l : nat)
    : go (list G1) :=
  match fuel with
  | O => Panic
  | S fuel =>
    if (l <=? 4)%nat then simpleFTG1 vals off stride roots rstride l
    else
      let half := (l / 2)%nat in
      L <- fftG1_rec fuel vals off (stride * 2) roots (rstride * 2) half ;;
      R <- fftG1_rec fuel vals (off + stride) (stride * 2) roots (rstride * 2) (l - half) ;;
      ps <- gomap (fun i =>
        x <- idx L i ;;
        y <- idx R i ;;
        root <- idx roots (i * rstride) ;;
        Ret (AddG1 x (MulG1 y root), SubG1 x (MulG1 y root))) (seq 0 half) ;;
      Ret (map fst ps ++ map snd ps ++ skipn half R)
  end.

(** fft_g1.go:62-99 [FFTG1]: no padding here. *)
Definition FFTG1 (fs : FFTSettings) (vals : list G1) (inv : bool) : go (list G1) :=
  let n := length vals in
  if (MaxWidth fs <? n)%nat then Error
  else if negb (IsPowerOfTwo (Z.of_nat n)) then Error
  else if (n =? 0)%nat then Panic
  else if inv then
    let invLen := finv (of_nat n) in
    rootz <- slice_to (Reverse fs) (MaxWidth fs) ;;
    out <- fftG1_rec n vals 0 1 rootz (MaxWidth fs / n) n ;;
    Ret (map (fun v => MulG1 v invLen) out)
  else
    rootz <- slice_to (Expanded fs) (MaxWidth fs) ;;
    fftG1_rec n vals 0 1 rootz (MaxWidth fs / n) n.
