(** Model of the machine intrinsics and byte order helpers the codecs use (Intel intrinsics guide semantics, as
    quoted in comments in common/util/src/Sdnv.cpp:505-516, 762-764, 832-835). A byte is an [N] below 256, memory
    a list of bytes. The host is little-endian (x86-64). *)
From Coq Require Import NArith List Bool.
From Verif Require Import Base M_SegmentAlloc.
Import ListNotations.
Open Scope N_scope.

(** A load of consecutive bytes on a little-endian host: first byte least significant. *)
Fixpoint le_val (bs : list N) : N :=
  match bs with [] => 0 | b :: r => b + 256 * le_val r end.
(** A store of the n low bytes of x on a little-endian host. *)
Fixpoint le_bytes (n : nat) (x : N) : list N :=
  match n with O => [] | S m => x mod 256 :: le_bytes m (x / 256) end.
(** First byte most significant. *)
Definition be_val (bs : list N) : N := fold_left (fun a b => a * 256 + b) bs 0.

(** boost::endian::endian_reverse / big_to_native / native_to_big of a 64-bit word (bswap). *)
Definition bswap64 (x : N) : N := be_val (le_bytes 8 x).
Definition bswap32 (x : N) : N := be_val (le_bytes 4 x).

(** Writing the bytes [d] at offset [off] of buffer [buf]; None = outside the buffer. *)
Definition write_at (off : nat) (d buf : list N) : option (list N) :=
  if Nat.leb (off + length d) (length buf)
  then Some (firstn off buf ++ d ++ skipn (off + length d) buf) else None.
(** Reading n bytes at the start of [buf]; None = outside the buffer. *)
Definition read_n (n : nat) (buf : list N) : option (list N) :=
  if Nat.leb n (length buf) then Some (firstn n buf) else None.

(** boost::multiprecision::detail::find_msb; None = argument zero (undefined). find_lsb is [lsb]. *)
Definition find_msb (x : N) : option N := match x with 0 => None | _ => Some (N.log2 x) end.

(** _pext_u64: gather the bits of x selected by m into the low bits. *)
Fixpoint pext (n : nat) (x m : N) : N :=
  match n with
  | O => 0
  | S k => if N.odd m then x mod 2 + 2 * pext k (x / 2) (m / 2) else pext k (x / 2) (m / 2)
  end.
Definition pext64 := pext 64.
(** _pdep_u64: scatter the low bits of x to the positions selected by m. *)
Fixpoint pdep (n : nat) (x m : N) : N :=
  match n with
  | O => 0
  | S k => if N.odd m then x mod 2 + 2 * pdep k (x / 2) (m / 2) else 2 * pdep k x (m / 2)
  end.
Definition pdep64 := pdep 64.
(** _bzhi_u64 and _bextr_u64 (index, start and len are taken modulo 256). *)
Definition bzhi (a idx : N) : N := if idx mod 256 <? 64 then a mod 2 ^ (idx mod 256) else a.
Definition bextr (a start len : N) : N := (a / 2 ^ (start mod 256)) mod 2 ^ (len mod 256).
(** _mm_popcnt_u64. *)
Fixpoint popcnt (n : nat) (x : N) : N := match n with O => 0 | S k => x mod 2 + popcnt k (x / 2) end.
(** _mm_movemask_epi8 / _mm256_movemask_epi8: bit i is the top bit of byte i. *)
Fixpoint movemask (bs : list N) : N :=
  match bs with [] => 0 | b :: r => b / 128 + 2 * movemask r end.
(** find_lsb<int>(~mask) on a 32-bit int; None = find_lsb(0), undefined. *)
Definition lsb_of_not (mask : N) : option N := lsb (4294967295 - mask).

(** _mm_shuffle_epi8: a control byte with its top bit set gives 0, otherwise its low 4 bits select a byte. *)
Definition shuffle_epi8 (a ctl : list N) : list N :=
  map (fun c => if 128 <=? c then 0 else nth (N.to_nat (c mod 16)) a 0) ctl.
(** _mm256_permute2f128_si256(zero, x, 0x03): low lane = high lane of x, high lane = 0. *)
Definition permute_03 (x : list N) : list N := skipn 16 x ++ repeat 0 16.
(** _mm256_alignr_epi8(a, b, n): in each 16-byte lane, (a:b) shifted right by n bytes, low 16 bytes. *)
Definition alignr_lane (a b : list N) (n : nat) : list N := firstn 16 (skipn n (b ++ a ++ repeat 0 n)).
Definition alignr256 (a b : list N) (n : nat) : list N :=
  alignr_lane (firstn 16 a) (firstn 16 b) n ++ alignr_lane (skipn 16 a) (skipn 16 b) n.
