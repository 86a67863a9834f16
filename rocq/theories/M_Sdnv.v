(** Model of common/util/src/Sdnv.cpp (self-delimiting numeric values, RFC 6256).
    Functions take the output buffer as a list of its bytes and return the new contents, None = a write or read
    outside the buffer or a bit scan of zero. #if 0 code is not modelled. *)
From Coq Require Import NArith List Bool.
From Verif Require Import Base M_SegmentAlloc M_Intrin.
Import ListNotations.
Open Scope N_scope.

(** * Encoding *)

(** Sdnv.cpp:34-47 SDNV32_MAX_n_BYTE, SDNV64_MAX_n_BYTE. *)
Definition sdnv32_max : list N := map (fun k => 2 ^ k - 1) [7; 14; 21; 28].
Definition sdnv64_max : list N := map (fun k => 2 ^ k - 1) [7; 14; 21; 28; 35; 42; 49; 56; 63].

(** The if / else-if chains of Sdnv.cpp:128-410: number of bytes of the branch taken. *)
Fixpoint sdnv_branch (ths : list N) (n : nat) (v : N) : nat :=
  match ths with [] => n | t :: r => if v <=? t then n else sdnv_branch r (S n) v end.
(** The assignments of an n-byte branch: outputEncoded[n-1] = v & 0x7f, outputEncoded[n-1-k] = ((v >> 7k) & 0x7f) | 0x80. *)
Fixpoint sdnv_head (k : nat) (v : N) : list N :=
  match k with
  | O => []
  | S k' => N.lor (N.land (N.shiftr v (7 * N.of_nat k)) 127) 128 :: sdnv_head k' v
  end.
Definition sdnv_branch_bytes (n : nat) (v : N) : list N := sdnv_head (pred n) v ++ [N.land v 127].

(** Sdnv.cpp:128-174 SdnvEncodeU32Classic and 210-326 SdnvEncodeU64Classic: size written (0 = too small) and buffer. *)
Definition sdnv_encode_classic (ths : list N) (v : N) (buf : list N) : option (N * list N) :=
  let n := sdnv_branch ths 1 v in
  if Nat.ltb (length buf) n then Some (0, buf)
  else option_map (pair (N.of_nat n)) (write_at 0 (sdnv_branch_bytes n v) buf).
Definition sdnv_encode32_classic := sdnv_encode_classic sdnv32_max.
Definition sdnv_encode64_classic := sdnv_encode_classic sdnv64_max.
(** Sdnv.cpp:176-207 SdnvEncodeU32ClassicBufSize5, 329-415 SdnvEncodeU64ClassicBufSize10: no size check. *)
Definition sdnv_encode_classic_nocheck (ths : list N) (v : N) (buf : list N) : option (N * list N) :=
  let n := sdnv_branch ths 1 v in
  option_map (pair (N.of_nat n)) (write_at 0 (sdnv_branch_bytes n v) buf).

(** Sdnv.cpp:492-504 mask0x80Indices[70]. *)
Definition mask0x80Indices : list N := map (fun i => N.of_nat i / 7) (seq 0 70).
(** Sdnv.cpp:519-531 masksPdepPext1[17]. *)
Definition masksPdepPext1 : list N :=
  [0x7f00000000000000; 0x7f7f000000000000; 0x7f7f7f0000000000; 0x7f7f7f7f00000000; 0x7f7f7f7f7f000000;
   0x7f7f7f7f7f7f0000; 0x7f7f7f7f7f7f7f00; 0x7f7f7f7f7f7f7f7f; 0x7f7f7f7f7f7f7f7f; 0x7f7f7f7f7f7f7f7f;
   0; 0; 0; 0; 0; 0; 0].
(** Sdnv.cpp:533-545 masksPdepPext2[17]. *)
Definition masksPdepPext2 : list N :=
  [0; 0; 0; 0; 0; 0; 0; 0; 0x7f00000000000000; 0x7f7f000000000000; 0; 0; 0; 0; 0; 0; 0].
(** Sdnv.cpp:547-559 decodedShifts[17]. *)
Definition decodedShifts : list N := [0; 0; 0; 0; 0; 0; 0; 0; 7; 14; 0; 0; 0; 0; 0; 0; 0].
(** Sdnv.cpp:561-572 masks0x80[10]. *)
Definition masks0x80 : list N :=
  [0; 0x8000000000000000; 0x8080000000000000; 0x8080800000000000; 0x8080808000000000; 0x8080808080000000;
   0x8080808080800000; 0x8080808080808000; 0x8080808080808000; 0x8080808080808000].
(** Sdnv.cpp:573-584 masks0x80_2[10]. *)
Definition masks0x80_2 : list N := [0; 0; 0; 0; 0; 0; 0; 0; 0x8000000000000000; 0x8080000000000000].
(** Sdnv.cpp:587-598 memoryOffsets[10]. *)
Definition memoryOffsets : list N := [0; 0; 0; 0; 0; 0; 0; 0; 1; 2].

(** Table lookup; None = index outside the table. *)
Definition tab (t : list N) (i : N) : option N := nth_error t (N.to_nat i).

Notation "'do' x <- e ; f" := (match e with Some x => f | None => None end)
  (at level 200, x name, e at level 100, f at level 200).

(** Sdnv.cpp:681-697 SdnvEncodeU32FastBufSize8. *)
Definition sdnv_encode32_fast (v : N) (buf : list N) : option (N * list N) :=
  do msb <- find_msb (N.lor v (N.b2n (v =? 0)));
  do idx <- tab mask0x80Indices msb;
  do m1 <- tab masksPdepPext1 idx;
  do c1 <- tab masks0x80 idx;
  let encoded64 := N.lor (pdep64 v m1) c1 in
  do buf1 <- write_at 0 (le_bytes 8 (bswap64 encoded64)) buf;
  Some (idx + 1, buf1).

(** Sdnv.cpp:700-744 SdnvEncodeU64FastBufSize10 (ENCODE_USE_BRANCHING 0). *)
Definition sdnv_encode64_fast (v : N) (buf : list N) : option (N * list N) :=
  do msb <- find_msb (N.lor v (N.b2n (v =? 0)));
  do idx <- tab mask0x80Indices msb;
  do m1 <- tab masksPdepPext1 idx;
  do c1 <- tab masks0x80 idx;
  let encoded64 := N.lor (pdep64 v m1) c1 in
  do m2 <- tab masksPdepPext2 idx;
  do c2 <- tab masks0x80_2 idx;
  let encoded64Big := N.lor (pdep64 (N.shiftr v 56) m2) c2 in
  do buf1 <- write_at 0 (le_bytes 8 (bswap64 encoded64Big)) buf;
  do off <- tab memoryOffsets idx;
  do buf2 <- write_at (N.to_nat off) (le_bytes 8 (bswap64 encoded64)) buf1;
  Some (idx + 1, buf2).

(** Sdnv.cpp:51-63, 76-87 SdnvEncodeU32, SdnvEncodeU64 with USE_SDNV_FAST. *)
Definition sdnv_encode32 (v : N) (buf : list N) : option (N * list N) :=
  if Nat.leb 8 (length buf) then sdnv_encode32_fast v buf else sdnv_encode32_classic v buf.
Definition sdnv_encode64 (v : N) (buf : list N) : option (N * list N) :=
  if Nat.leb 10 (length buf) then sdnv_encode64_fast v buf else sdnv_encode64_classic v buf.

(** Sdnv.cpp:1176-1186 SdnvGetNumBytesRequiredToEncode. *)
Definition sdnv_num_bytes (v : N) : option N :=
  do msb <- find_msb (N.lor v (N.b2n (v =? 0)));
  do idx <- tab mask0x80Indices msb;
  Some (idx + 1).

(** * Decoding: results are (returned value, *numBytes) *)

(** Sdnv.h:33-34. *)
Definition DECODE_INVALID : N * N := (0, 0).
Definition DECODE_NOT_ENOUGH : N * N := (1, 0).

(** Sdnv.cpp:430-452 and 468-490, the loop: [left] iterations left of byteCountMax = min(maxb, bufferSize), [cnt] is
    byteCount, [first] is *firstBytePtr, [w] is 2^32 or 2^64 and [lim] 0x8f or 0x81. The loop reads at most bufferSize
    bytes, so running out of list and running out of byteCountMax coincide; byteCount == maxb + 1 after the loop
    iff byteCountMax was maxb. *)
Fixpoint sdnv_decode_loop (maxb : nat) (w lim : N) (left cnt : nat) (first result : N) (bs : list N) : N * N :=
  match left, bs with
  | S left', b :: r =>
    let result1 := (N.shiftl result 7) mod w + N.land b 127 in
    if N.land b 128 =? 0
    then if Nat.eqb cnt maxb && (lim <? first) then DECODE_INVALID else (result1, N.of_nat cnt)
    else sdnv_decode_loop maxb w lim left' (S cnt) first result1 r
  | _, _ => if Nat.eqb cnt (S maxb) then DECODE_INVALID else DECODE_NOT_ENOUGH
  end.
(** Sdnv.cpp:419-453 SdnvDecodeU32Classic, 457-490 SdnvDecodeU64Classic; [bs] is exactly the bufferSize bytes. *)
Definition sdnv_decode_classic (maxb : nat) (w lim : N) (bs : list N) : N * N :=
  sdnv_decode_loop maxb w lim (Nat.min maxb (length bs)) 1 (hd 0 bs) 0 bs.
Definition sdnv_decode32_classic := sdnv_decode_classic 5 W32 0x8f.
Definition sdnv_decode64_classic := sdnv_decode_classic 10 W64 0x81.

(** Sdnv.cpp:748-782 SdnvDecodeU32FastBufSize8: _mm_loadl_epi64 loads 8 bytes, the upper lanes are zero. *)
Definition sdnv_decode32_fast (bs : list N) : option (N * N) :=
  do enc <- read_n 8 bs;
  do maskIndex <- lsb_of_not (movemask enc);
  let u64 := bswap64 (le_val enc) in
  let numBytes := (maskIndex + 1) mod 256 in
  let index1 := (N.shiftl numBytes 3) mod 256 in
  let mask1 := bswap64 (bzhi 0x7f7f7f7f7f7f7f7f index1) in
  let decoded := pext64 u64 mask1 in
  let valid := (N.lor (N.shiftl maskIndex 8) (hd 0 enc)) mod 65536 <=? 0x048f in
  Some (if valid then (decoded mod W32, numBytes) else (0, 0)).

(** Sdnv.cpp:786-868 SdnvDecodeU64FastBufSize16. 80 - index1 is an int; its low 8 bits are the bextr start. *)
Definition sdnv_decode64_fast (bs : list N) : option (N * N) :=
  do enc <- read_n 16 bs;
  do maskIndex <- lsb_of_not (movemask enc);
  let u64 := bswap64 (le_val (firstn 8 enc)) in
  let numBytes := (maskIndex + 1) mod 256 in
  let index1 := (N.shiftl numBytes 3) mod 256 in
  let mask1 := bswap64 (bzhi 0x7f7f7f7f7f7f7f7f index1) in
  let decoded := pext64 u64 mask1 in
  let mask2 := bswap64 (bextr 0x7f7f (256 + 80 - index1) 16) in
  let shift := popcnt 64 mask2 in
  let decoded1 := (N.shiftl decoded shift) mod W64 in
  let u64High := bswap64 (le_val (skipn 8 enc)) in
  let decoded2 := (pext64 u64High mask2) mod 65536 in
  let decoded3 := N.lor decoded1 decoded2 in
  let valid := (N.lor (N.shiftl maskIndex 8) (hd 0 enc)) mod 65536 <=? 0x0981 in
  Some (if valid then (decoded3, numBytes) else (0, 0)).

(** Sdnv.cpp:99-110, 113-124 SdnvDecodeU32, SdnvDecodeU64 with USE_SDNV_FAST. *)
Definition sdnv_decode32 (bs : list N) : option (N * N) :=
  if Nat.leb 8 (length bs) then sdnv_decode32_fast bs else Some (sdnv_decode32_classic bs).
Definition sdnv_decode64 (bs : list N) : option (N * N) :=
  if Nat.leb 16 (length bs) then sdnv_decode64_fast bs else Some (sdnv_decode64_classic bs).

(** * Decoding an array *)

(** Result of the array decoders: decodeErrorDetected, or the decoded values and numBytesTakenToDecode. *)
Inductive sdnv_arr := ArrError | ArrOk (vals : list N) (taken : N).

(** Sdnv.cpp:1137-1164 SdnvDecodeArrayU64Classic with decodedRemaining = n; [taken] and [acc] (reversed) are the
    progress so far. *)
Fixpoint sdnv_array_classic_loop (n : nat) (bs : list N) (acc : list N) (taken : N) : option sdnv_arr :=
  match n with
  | O => Some (ArrOk (rev acc) taken)
  | S n' =>
    do d <- sdnv_decode64 bs;
    let (v, size) := (d : N * N) in
    if size =? 0 then (if v =? 0 then Some ArrError else Some (ArrOk (rev acc) taken))
    else sdnv_array_classic_loop n' (skipn (N.to_nat size) bs) (v :: acc) (taken + size)
  end.
Definition sdnv_array_classic (n : nat) (bs : list N) : option sdnv_arr := sdnv_array_classic_loop n bs [] 0.

(** Sdnv.cpp:600-630 SHUFFLE_SHR_128I, row n. *)
Definition shuffle_row (n : nat) : list N := map N.of_nat (seq n (16 - n)) ++ repeat 0x80 n.

(** Sdnv.cpp:872-966 SdnvDecodeMultipleU64Fast ([wide] = false, 16-byte window) and 970-1061
    SdnvDecodeMultiple256BitU64Fast ([wide] = true, 32-byte window): result is (values decoded, bytes); (.., 0) with
    no values = decode error. [win] is the register, [rem] bytesRemainingIn128/256Buffer, [n] decodedRemaining.
    The values already stored to decodedValues when an error is found are not modelled (the callers discard them). *)
Fixpoint sdnv_multi_loop (wide : bool) (n : nat) (win : list N) (rem : N) (acc : list N) : option (list N * N) :=
  let width := if wide then 32 else 16 in
  match n with
  | O => Some (rev acc, width - rem)
  | S n' =>
    if rem =? 0 then Some (rev acc, width - rem)
    else
      do maskIndex <- lsb_of_not (movemask win);
      let size := maskIndex + 1 in
      if rem <? size then Some (rev acc, width - rem)
      else
        let encoded64 := le_val (firstn 8 win) in
        let valid := (N.lor (N.shiftl maskIndex 8) (encoded64 mod 256)) mod 65536 <=? 0x0981 in
        if valid then
          do m1 <- tab masksPdepPext1 maskIndex;
          do sh <- tab decodedShifts maskIndex;
          do m2 <- tab masksPdepPext2 maskIndex;
          let decoded := (N.shiftl (pext64 (bswap64 encoded64) m1) sh) mod W64 in
          let encoded64High := le_val (firstn 8 (skipn 8 win)) in
          let decoded2 := pext64 (bswap64 encoded64High) m2 in
          let win1 := if wide then alignr256 (permute_03 win) win (N.to_nat size)
                      else shuffle_epi8 win (shuffle_row (N.to_nat size)) in
          sdnv_multi_loop wide n' win1 (rem - size) (N.lor decoded decoded2 :: acc)
        else Some ([], 0)
  end.
Definition sdnv_multi (wide : bool) (n : nat) (bs : list N) : option (list N * N) :=
  do win <- read_n (if wide then 32 else 16)%nat bs;
  sdnv_multi_loop wide n win (if wide then 32 else 16) [].

(** Sdnv.cpp:1108-1126 the final classic loop of SdnvDecodeArrayU64Fast. *)
Fixpoint sdnv_array_tail_loop (n : nat) (bs : list N) (acc : list N) (taken : N) : sdnv_arr :=
  match n with
  | O => ArrOk (rev acc) taken
  | S n' =>
    let (v, size) := sdnv_decode64_classic bs in
    if size =? 0 then (if v =? 0 then ArrError else ArrOk (rev acc) taken)
    else sdnv_array_tail_loop n' (skipn (N.to_nat size) bs) (v :: acc) (taken + size)
  end.

(** Sdnv.cpp:1070-1087 and 1089-1106, the two vector loops; [fuel] bounds the iterations (each decodes at least one
    value); running out of fuel is None and is proved not to happen. The continuation [k] is what follows the loop. *)
Fixpoint sdnv_array_vec (wide : bool) (fuel n : nat) (bs acc : list N) (taken : N)
  (k : nat -> list N -> list N -> N -> option sdnv_arr) : option sdnv_arr :=
  if Nat.leb (if wide then 32 else 16)%nat (length bs) && negb (Nat.eqb n 0) then
    match fuel with
    | O => None
    | S fuel' =>
      do r <- sdnv_multi wide n bs;
      let (vals, total) := (r : list N * N) in
      if total =? 0 then Some ArrError
      else if Nat.eqb (length vals) 0 then Some (ArrOk (rev acc) taken)
      else sdnv_array_vec wide fuel' (n - length vals) (skipn (N.to_nat total) bs) (rev vals ++ acc) (taken + total) k
    end
  else k n bs acc taken.
(** Sdnv.cpp:1065-1130 SdnvDecodeArrayU64Fast (= SdnvDecodeArrayU64, 1167-1173, in the AVX2 build). *)
Definition sdnv_array_fast (n : nat) (bs : list N) : option sdnv_arr :=
  sdnv_array_vec true (S n) n bs [] 0 (fun n1 bs1 acc1 taken1 =>
  sdnv_array_vec false (S n1) n1 bs1 acc1 taken1 (fun n2 bs2 acc2 taken2 =>
  Some (sdnv_array_tail_loop n2 bs2 acc2 taken2))).
