(** Model of common/bpcodec/src/codec/Bpv7Crc.cpp: the two checksums of BPv7 blocks and their CBOR field.
    The checksum routines themselves come from Boost.CRC and from the SSE4.2 instructions; they are modelled by their
    published definitions (see [crc_optimal] and [mm_crc32]), not by their implementation. *)
From Coq Require Import NArith List Bool.
From Verif Require Import Base M_SegmentAlloc M_Intrin M_Sdnv.
Import ListNotations.
Open Scope N_scope.

(** The bits of a byte, least significant first. *)
Definition byte_bits (b : N) : list bool := map (N.testbit b) [0; 1; 2; 3; 4; 5; 6; 7].

(** One bit through the right-shifting register with reflected polynomial [poly]. *)
Definition crc_bit (poly s : N) (b : bool) : N :=
  if xorb (N.testbit s 0) b then N.lxor (N.shiftr s 1) poly else N.shiftr s 1.
(** boost::crc_optimal<Bits, TruncPoly, Init, FinalXor, true, true>: process_bytes and operator(). ReflectInput feeds
    every byte least significant bit first, ReflectRemainder keeps the register reflected; [poly] is TruncPoly
    reflected. *)
Definition crc_optimal (poly init fin : N) (data : list N) : N :=
  N.lxor fin (fold_left (crc_bit poly) (flat_map byte_bits data) init).
(** 0x1EDC6F41 and 0x1021 with their 32 / 16 bits reversed. *)
Definition CRC32C_POLY_REFLECTED : N := 0x82F63B78.
Definition CRC16_POLY_REFLECTED : N := 0x8408.
(** Bpv7Crc.cpp:63-67 Crc32C_Unaligned_Software. *)
Definition crc32c_software (data : list N) : N := crc_optimal CRC32C_POLY_REFLECTED 0xFFFFFFFF 0xFFFFFFFF data.
(** Bpv7Crc.cpp:69-73 Crc16_X25_Unaligned. *)
Definition crc16_x25 (data : list N) : N := crc_optimal CRC16_POLY_REFLECTED 0xFFFF 0xFFFF data.

(** * The instructions _mm_crc32_u8 and _mm_crc32_u64 *)

(** BIT_REFLECTn. *)
Fixpoint bit_reflect (n : nat) (x : N) : N :=
  match n with
  | O => 0
  | S n' => N.lor (N.shiftl (N.b2n (N.testbit x 0)) (N.of_nat n')) (bit_reflect n' (N.shiftr x 1))
  end.
(** x MOD2 p: remainder of polynomial division modulo 2, one bit of x at a time from the top (x of n bits, p of degree w). *)
Fixpoint mod2 (n : nat) (w p x : N) : N :=
  match n with
  | O => 0
  | S n' =>
    let r := N.lxor (N.shiftl (mod2 n' w p (N.shiftr x 1)) 1) (N.b2n (N.testbit x 0)) in
    if N.testbit r w then N.lxor r p else r
  end.
(** Intel SDM, CRC32 r32, r/m8 (n = 8) and CRC32 r64, r/m64 (n = 64):
    TEMP1 := BIT_REFLECTn(SRC); TEMP2 := BIT_REFLECT32(DEST[31:0]); TEMP5 := (TEMP1 << 32) XOR (TEMP2 << n);
    DEST[31:0] := BIT_REFLECT32(TEMP5 MOD2 11EDC6F41H); DEST[63:32] := 0. *)
Definition mm_crc32 (n : nat) (crc src : N) : N :=
  bit_reflect 32 (mod2 (32 + n) 32 0x11EDC6F41
    (N.lxor (N.shiftl (bit_reflect n src) 32) (N.shiftl (bit_reflect 32 crc) (N.of_nat n)))).

(** Bpv7Crc.cpp:34-37: bytes up to an 8-byte boundary; [addr] = dataUnaligned, [step] = _mm_crc32_u8. *)
Fixpoint hw_align (step : N -> N -> N) (addr crc : N) (data : list N) : N * list N :=
  match data with
  | [] => (crc, [])
  | b :: r => if N.land addr 7 =? 0 then (crc, data) else hw_align step (addr + 1) (step crc b) r
  end.
(** Bpv7Crc.cpp:39-44: whole 64-bit words (little-endian loads), [step] = _mm_crc32_u64; [fuel] bounds the number of
    iterations. *)
Fixpoint hw_words (step : N -> N -> N) (fuel : nat) (crc : N) (data : list N) : N * list N :=
  match fuel with
  | O => (crc, data)
  | S f =>
    if Nat.ltb 7 (length data) then hw_words step f (step crc (le_val (firstn 8 data))) (skipn 8 data)
    else (crc, data)
  end.
(** Bpv7Crc.cpp:27-52 Crc32C_Unaligned_Hardware. *)
Definition crc32c_hardware (addr : N) (data : list N) : N :=
  let (crc1, data1) := hw_align (mm_crc32 8) addr 0xFFFFFFFF data in
  let (crc2, data2) := hw_words (mm_crc32 64) (length data1) crc1 data1 in
  N.lxor (fold_left (mm_crc32 8) data2 crc2) 0xFFFFFFFF.

(** * The CRC field *)

(** Bpv7Crc.cpp:86-91 SerializeCrc16ForBpv7, 100-105 SerializeZeroedCrc16ForBpv7 (c = 0), at offset [off]. *)
Definition put_crc16 (off : nat) (c : N) (buf : list N) : option (list N) :=
  write_at off [0x42; N.shiftr c 8 mod 256; c mod 256] buf.
(** Bpv7Crc.cpp:92-99 SerializeCrc32ForBpv7, 106-113 SerializeZeroedCrc32ForBpv7 (c = 0). *)
Definition put_crc32 (off : nat) (c : N) (buf : list N) : option (list N) :=
  write_at off [0x44; N.shiftr c 24 mod 256; N.shiftr c 16 mod 256; N.shiftr c 8 mod 256; c mod 256] buf.
(** Bpv7Crc.cpp:114-125 DeserializeCrc16ForBpv7 at the front of [bs]: None = read outside, Some None = false. *)
Definition get_crc16 (bs : list N) : option (option N) :=
  match bs with
  | [] => None
  | h :: r =>
    if negb (h =? 0x42) then Some None
    else do e <- read_n 2 r; Some (Some (N.lor ((N.shiftl (nth 0 e 0) 8) mod 65536) (nth 1 e 0)))
  end.
(** Bpv7Crc.cpp:126-141 DeserializeCrc32ForBpv7. *)
Definition get_crc32 (bs : list N) : option (option N) :=
  match bs with
  | [] => None
  | h :: r =>
    if negb (h =? 0x44) then Some None
    else do e <- read_n 4 r;
      let up a := (N.shiftl a 8) mod W32 in
      Some (Some (N.lor (up (N.lor (up (N.lor (up (nth 0 e 0)) (nth 1 e 0))) (nth 2 e 0))) (nth 3 e 0)))
  end.
