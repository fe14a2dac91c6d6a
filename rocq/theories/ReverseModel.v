(** Model of /repo/internal/polycommit/reverse_bit_order.go and of the reorderings of vectors in fft_fr.go and
    fft_g1.go.

    uint32 and uint8 values are integers; every operation below stays in range for arguments in range. *)

Require Import ZArith List Bool.
From Verif Require Import CodecModel GoBase.
Import ListNotations.
Local Open Scope Z_scope.

(** reverse_bit_order.go:7-14: the masks ^uint32(2^(2^k) - 1), k = 0..4. *)
Definition mask (k : Z) : Z := 2 ^ 32 - 2 ^ (2 ^ k).

(** reverse_bit_order.go:16-23: the bits uint8(1 << k), k = 0..4. *)
Definition bit (k : Z) : Z := 2 ^ k.

(** reverse_bit_order.go:36-51: one stage of the search: the value and the index so far. *)
Definition bi_stage (k : Z) (s : Z * Z) : Z * Z :=
  let '(v, out) := s in
  if Z.land v (mask k) =? 0 then (v, out) else (Z.shiftr v (bit k), Z.lor out (bit k)).

(** reverse_bit_order.go:29-57 [bitIndex].  The last stage (52-54) does not shift v. *)
Definition bitIndex (v : Z) : Z :=
  if v =? 0 then 0
  else
    let '(v, out) := bi_stage 1 (bi_stage 2 (bi_stage 3 (bi_stage 4 (v, 0)))) in
    if Z.land v (mask 0) =? 0 then out else Z.lor out (bit 0).

(** reverse_bit_order.go:59-76 [revByte], written in decimal. *)
Definition revByte : list Z := [
  0; 128; 64; 192; 32; 160; 96; 224; 16; 144; 80; 208; 48; 176; 112; 240;
  8; 136; 72; 200; 40; 168; 104; 232; 24; 152; 88; 216; 56; 184; 120; 248;
  4; 132; 68; 196; 36; 164; 100; 228; 20; 148; 84; 212; 52; 180; 116; 244;
  12; 140; 76; 204; 44; 172; 108; 236; 28; 156; 92; 220; 60; 188; 124; 252;
  2; 130; 66; 194; 34; 162; 98; 226; 18; 146; 82; 210; 50; 178; 114; 242;
  10; 138; 74; 202; 42; 170; 106; 234; 26; 154; 90; 218; 58; 186; 122; 250;
  6; 134; 70; 198; 38; 166; 102; 230; 22; 150; 86; 214; 54; 182; 118; 246;
  14; 142; 78; 206; 46; 174; 110; 238; 30; 158; 94; 222; 62; 190; 126; 254;
  1; 129; 65; 193; 33; 161; 97; 225; 17; 145; 81; 209; 49; 177; 113; 241;
  9; 137; 73; 201; 41; 169; 105; 233; 25; 153; 89; 217; 57; 185; 121; 249;
  5; 133; 69; 197; 37; 165; 101; 229; 21; 149; 85; 213; 53; 181; 117; 245;
  13; 141; 77; 205; 45; 173; 109; 237; 29; 157; 93; 221; 61; 189; 125; 253;
  3; 131; 67; 195; 35; 163; 99; 227; 19; 147; 83; 211; 51; 179; 115; 243;
  11; 139; 75; 203; 43; 171; 107; 235; 27; 155; 91; 219; 59; 187; 123; 251;
  7; 135; 71; 199; 39; 167; 103; 231; 23; 151; 87; 215; 55; 183; 119; 247;
  15; 143; 79; 207; 47; 175; 111; 239; 31; 159; 95; 223; 63; 191; 127; 255].

(** [revByte[uint8(b)]]; the index is below 256. *)
Definition revByte_at (b : Z) : Z := nth (Z.to_nat (b mod 256)) revByte 0.

(** reverse_bit_order.go:78-83 [reverseBits]. *)
Definition reverseBits (b : Z) : Z :=
  Z.lor (Z.lor (Z.lor (Z.shiftl (revByte_at b) 24) (Z.shiftl (revByte_at (Z.shiftr b 8)) 16))
               (Z.shiftl (revByte_at (Z.shiftr b 16)) 8))
        (revByte_at (Z.shiftr b 24)).

(** reverse_bit_order.go:85-88 [reverseBitsLimited]. *)
Definition reverseBitsLimited (length value : Z) : Z :=
  let unusedBitLen := 32 - bitIndex length in
  Z.shiftr (reverseBits value) unusedBitLen.

(** The swap function of fft_fr.go:116-120, fft_fr.go:129 and fft_g1.go:105-109. *)
Definition swap_at {A} (l : list A) (i j : nat) : go (list A) :=
  a <- idx l i ;; b <- idx l j ;; l' <- upd l i b ;; upd l' j a.

(** reverse_bit_order.go:90-105 [reverseBitOrder], applied to the swap function of a vector.  The guard of line
    91 reads "not (length > 0 or ...)". *)
Definition reverseBitOrder {A} (values : list A) : go (list A) :=
  let len := Z.of_nat (length values) in
  if negb ((0 <? len) || (Z.land len ((len - 1) mod 2 ^ 32) =? 0)) then Panic
  else
    let unusedBitLen := 32 - bitIndex len in
    goloop 0 (length values) (fun vs i =>
      let r := Z.shiftr (reverseBits (Z.of_nat i)) unusedBitLen in
      if r >? Z.of_nat i then swap_at vs (Z.to_nat r) i else Ret vs) values.

(** fft_fr.go:111-121 [reverseBitOrderFr], fft_fr.go:124-131 [reverseBitOrderFrPtr] and fft_g1.go:100-110
    [reverseBitOrderG1]: the same code at different types. *)
Definition reverseBitOrderOf {A} (values : list A) : go (list A) :=
  if (2 ^ 31 <? Z.of_nat (length values)) then Panic else reverseBitOrder values.
