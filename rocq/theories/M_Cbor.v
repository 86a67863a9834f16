(** Model of common/util/src/CborUint.cpp (RFC 8949 unsigned integers and arrays of them), build with USE_CBOR_FAST.
    Buffers are lists of bytes, bufferSize is the length of the list; None = access outside the buffer (or a bit scan
    of zero, see [scan]). #if 0 code is not modelled. *)
From Coq Require Import NArith List Bool.
From Verif Require Import Base M_SegmentAlloc M_Intrin M_Sdnv.
Import ListNotations.
Open Scope N_scope.

(** native_to_big / big_to_native of an n-byte word on a little-endian host. *)
Definition bswapn (n : nat) (x : N) : N := be_val (le_bytes n x).

(** The bit scan boost::multiprecision::detail::find_msb<uint64_t>, which CborUint.cpp applies to zero as well
    (lines 395, 491, 624; "bitscan seems to have undefined behavior on a value of zero") and then multiplies the result
    by false. [find_msb] makes that undefined; [scan_any j] lets it yield the arbitrary value j. *)
Definition scan_any (j v : N) : option N := match v with 0 => Some j | _ => Some (N.log2 v) end.

(** CborUint.cpp:204-223 CborGetEncodingSizeU64Classic, also the branch structure of 89-151 and 154-201. *)
Definition cbor_size_classic (v : N) : N :=
  if v <? 24 then 1 else if v <=? 255 then 2 else if v <=? 65535 then 3 else if v <=? 4294967295 then 5 else 9.
(** The bytes stored by the branches of 89-151: type byte, then the value truncated to the word, big-endian. *)
Definition cbor_branch_bytes (v : N) : list N :=
  if v <? 24 then [v mod 256]
  else if v <=? 255 then [24; v mod 256]
  else if v <=? 65535 then 25 :: le_bytes 2 (bswapn 2 (v mod 65536))
  else if v <=? 4294967295 then 26 :: le_bytes 4 (bswapn 4 (v mod W32))
  else 27 :: le_bytes 8 (bswapn 8 v).
(** CborUint.cpp:89-151 CborEncodeU64Classic. *)
Definition cbor_encode_classic (v : N) (buf : list N) : option (N * list N) :=
  if N.of_nat (length buf) <? cbor_size_classic v then Some (0, buf)
  else option_map (pair (cbor_size_classic v)) (write_at 0 (cbor_branch_bytes v) buf).
(** CborUint.cpp:154-201 CborEncodeU64ClassicBufSize9. *)
Definition cbor_encode_classic9 (v : N) (buf : list N) : option (N * list N) :=
  option_map (pair (cbor_size_classic v)) (write_at 0 (cbor_branch_bytes v) buf).

(** CborUint.cpp:336-345 msbToRequiredEncodingSize[64]. *)
Definition msbToRequiredEncodingSize : list N := repeat 1 4 ++ repeat 2 4 ++ repeat 3 8 ++ repeat 5 16 ++ repeat 9 32.
(** CborUint.cpp:349-360 encodingSizeToType[10], 361-372 encodingSizeToShifts[10]. *)
Definition encodingSizeToType : list N := [0; 0; 24; 25; 0; 26; 0; 0; 0; 27].
Definition encodingSizeToShifts : list N := [0; 0; 56; 48; 0; 32; 0; 0; 0; 0].
(** CborUint.cpp:374-377 ES2, ES3, ES5, ES9. *)
Definition ES2 : N := N.lor (N.shiftl 24 8) (N.shiftl 56 16).
Definition ES3 : N := N.lor (N.shiftl 25 8) (N.shiftl 48 16).
Definition ES5 : N := N.lor (N.shiftl 26 8) (N.shiftl 32 16).
Definition ES9 : N := N.lor (N.shiftl 27 8) (N.shiftl 0 16).
(** CborUint.cpp:378-387 msbToRequiredEncodingSizePlusTypePlusShifts[64]. *)
Definition msbToSizeTypeShifts : list N :=
  repeat 1 4 ++ repeat (N.lor 2 ES2) 4 ++ repeat (N.lor 3 ES3) 8 ++ repeat (N.lor 5 ES5) 16 ++ repeat (N.lor 9 ES9) 32.

(** CborUint.cpp:395 = 491 = 624: msb = (bool)(v >= 24) * (uint8_t)find_msb(v). *)
Definition cbor_msb (scan : N -> option N) (v : N) : option N :=
  do m <- scan v; Some (N.b2n (24 <=? v) * (m mod 256)).

(** CborUint.cpp:619-627 CborGetNumBytesRequiredToEncode. *)
Definition cbor_num_bytes (scan : N -> option N) (v : N) : option N :=
  do msb <- cbor_msb scan v; tab msbToRequiredEncodingSize msb.

(** CborUint.cpp:390-484 CborEncodeU64Fast. *)
Definition cbor_encode_fast (scan : N -> option N) (v : N) (buf : list N) : option (N * list N) :=
  do msb <- cbor_msb scan v;
  do size <- tab msbToRequiredEncodingSize msb;
  do type <- tab encodingSizeToType size;
  if Nat.leb 9 (length buf) then
    do shift <- tab encodingSizeToShifts size;
    let firstByte := N.lor type (N.b2n (size =? 1) * (v mod 256)) in
    do buf1 <- write_at 0 (le_bytes 4 firstByte) buf;
    do buf2 <- write_at 1 (le_bytes 8 (bswapn 8 ((N.shiftl v shift) mod W64))) buf1;
    Some (size, buf2)
  else if N.of_nat (length buf) <? size then Some (0, buf)
  else
    do buf1 <- write_at 0 [type] buf;
    do buf2 <- (if size =? 1 then write_at 0 [v mod 256] buf1
                else if size =? 2 then write_at 1 [v mod 256] buf1
                else if size =? 3 then write_at 1 [(N.shiftr v 8) mod 256; v mod 256] buf1
                else if size =? 5 then write_at 1 (le_bytes 4 (bswapn 4 (v mod W32))) buf1
                else if size =? 9 then write_at 1 (le_bytes 8 (bswapn 8 v)) buf1
                else Some buf1);
    Some (size, buf2).

(** CborUint.cpp:487-509 CborEncodeU64FastBufSize9 (= CborEncodeU64BufSize9, 55-61). *)
Definition cbor_encode_fast9 (scan : N -> option N) (v : N) (buf : list N) : option (N * list N) :=
  do msb <- cbor_msb scan v;
  do e <- tab msbToSizeTypeShifts msb;
  let size := e mod 256 in
  let type := (N.shiftr e 8) mod 256 in
  let shift := (N.shiftr e 16) mod 256 in
  let firstByte := N.lor type (N.b2n (size =? 1) * (v mod 256)) in
  do buf1 <- write_at 0 (le_bytes 4 firstByte) buf;
  do buf2 <- write_at 1 (le_bytes 8 (bswapn 8 ((N.shiftl v shift) mod W64))) buf1;
  Some (size, buf2).

(** CborUint.cpp:41-52 CborEncodeU64. *)
Definition cbor_encode (scan : N -> option N) (v : N) (buf : list N) : option (N * list N) :=
  if Nat.leb 9 (length buf) then cbor_encode_fast9 scan v buf else cbor_encode_fast scan v buf.

(** * Decoding: (returned value, *numBytes) *)

(** CborUint.cpp:227-284 CborDecodeU64Classic. *)
Definition cbor_decode_classic (bs : list N) : N * N :=
  match bs with
  | [] => (0, 0)
  | type :: r =>
    if type <? 24 then (type, 1)
    else if type =? 24 then (if Nat.leb 2 (length bs) then (nth 0 r 0, 2) else (0, 0))
    else if type =? 25 then (if Nat.leb 3 (length bs) then (bswapn 2 (le_val (firstn 2 r)), 3) else (0, 0))
    else if type =? 26 then (if Nat.leb 5 (length bs) then (bswapn 4 (le_val (firstn 4 r)), 5) else (0, 0))
    else if type =? 27 then (if Nat.leb 9 (length bs) then (bswapn 8 (le_val (firstn 8 r)), 9) else (0, 0))
    else (0, 0)
  end.
(** CborUint.cpp:514-566 CborDecodeU64Fast. *)
Definition cbor_decode_fast (bs : list N) : N * N :=
  match bs with
  | [] => (0, 0)
  | type :: r =>
    if type <? 24 then (type, 1)
    else if type =? 24 then (if Nat.leb 2 (length bs) then (nth 0 r 0, 2) else (0, 0))
    else if type =? 25 then (if Nat.leb 3 (length bs) then (N.lor (N.shiftl (nth 0 r 0) 8) (nth 1 r 0), 3) else (0, 0))
    else if type =? 26 then (if Nat.leb 5 (length bs) then (bswapn 4 (le_val (firstn 4 r)), 5) else (0, 0))
    else if type =? 27 then (if Nat.leb 9 (length bs) then (bswapn 8 (le_val (firstn 8 r)), 9) else (0, 0))
    else (0, 0)
  end.
(** CborUint.cpp:572-579 RIGHT_SHIFTS, NUM_BYTES. *)
Definition RIGHT_SHIFTS : list N := repeat 56 24 ++ [56; 48; 32; 0].
Definition NUM_BYTES : list N := repeat 1 24 ++ [2; 3; 5; 9].
(** CborUint.cpp:570-613 CborDecodeU64FastBufSize9 (= CborDecodeU64BufSize9, 78-84). *)
Definition cbor_decode_fast9 (bs : list N) : option (N * N) :=
  match bs with
  | [] => None
  | type :: r =>
    if 27 <? type then Some (0, 0)
    else
      do n <- tab NUM_BYTES type;
      do enc <- read_n 8 (if 24 <=? type then r else bs);
      do s <- tab RIGHT_SHIFTS type;
      Some (N.shiftr (bswapn 8 (le_val enc)) s, n)
  end.
(** CborUint.cpp:288-334 CborDecodeU64ClassicBufSize9: no size checks. *)
Definition cbor_decode_classic9 (bs : list N) : option (N * N) :=
  match bs with
  | [] => None
  | type :: r =>
    if type <? 24 then Some (type, 1)
    else if type =? 24 then do e <- read_n 1 r; Some (nth 0 e 0, 2)
    else if type =? 25 then do e <- read_n 2 r; Some (bswapn 2 (le_val e), 3)
    else if type =? 26 then do e <- read_n 4 r; Some (bswapn 4 (le_val e), 5)
    else if type =? 27 then do e <- read_n 8 r; Some (bswapn 8 (le_val e), 9)
    else Some (0, 0)
  end.
(** CborUint.cpp:64-75 CborDecodeU64. *)
Definition cbor_decode (bs : list N) : option (N * N) :=
  if Nat.leb 9 (length bs) then cbor_decode_fast9 bs else Some (cbor_decode_fast bs).

(** * Arrays *)

(** One step "serialization += Encode(serialization, e, bufferSize); bufferSize -= ..." over the rest of the buffer,
    followed by [k] on what is left; the result is the total size and the whole buffer. *)
Definition enc_then (enc : N -> list N -> option (N * list N)) (e : N) (rest : list N)
  (k : list N -> option (N * list N)) : option (N * list N) :=
  do r <- enc e rest;
  let (n, rest1) := (r : N * list N) in
  do r2 <- k (skipn (N.to_nat n) rest1);
  let (m, rest2) := (r2 : N * list N) in
  Some (n + m, firstn (N.to_nat n) rest1 ++ rest2).

(** CborUint.cpp:629-635 CborTwoUint64ArraySerialize without a buffer size. *)
Definition cbor_two_serialize (scan : N -> option N) (e1 e2 : N) (buf : list N) : option (N * list N) :=
  match buf with
  | [] => None
  | _ :: rest =>
    option_map (fun r => (1 + fst r, 0x82 :: snd r))
      (enc_then (cbor_encode_fast9 scan) e1 rest (fun rest1 => cbor_encode_fast9 scan e2 rest1))
  end.
(** CborUint.cpp:636-654 CborTwoUint64ArraySerialize with a buffer size. *)
Definition cbor_two_serialize_checked (scan : N -> option N) (e1 e2 : N) (buf : list N) : option (N * list N) :=
  match buf with
  | [] => Some (0, [])
  | _ :: rest =>
    option_map (fun r => (1 + fst r, 0x82 :: snd r))
      (enc_then (cbor_encode scan) e1 rest (fun rest1 => cbor_encode scan e2 rest1))
  end.
(** CborUint.cpp:655-660 CborTwoUint64ArraySerializationSize. *)
Definition cbor_two_size (scan : N -> option N) (e1 e2 : N) : option N :=
  do a <- cbor_num_bytes scan e1; do b <- cbor_num_bytes scan e2; Some (1 + a + b).
(** CborUint.cpp:661-706 CborTwoUint64ArrayDeserialize: outer None = out of bounds, inner None = false, otherwise the
    elements and *numBytesTakenToDecode. *)
Definition cbor_two_deserialize (bs : list N) : option (option (N * N * N)) :=
  match bs with
  | [] => Some None
  | h :: r =>
    if negb (h =? 0x82) && negb (h =? 0x9f) then Some None
    else
      do d1 <- cbor_decode r;
      let (e1, n1) := (d1 : N * N) in
      if n1 =? 0 then Some None
      else
        let r1 := skipn (N.to_nat n1) r in
        do d2 <- cbor_decode r1;
        let (e2, n2) := (d2 : N * N) in
        if n2 =? 0 then Some None
        else
          let r2 := skipn (N.to_nat n2) r1 in
          if h =? 0x9f then
            match r2 with
            | [] => Some None
            | b :: _ => if b =? 0xff then Some (Some (e1, e2, (1 + n1 + n2 + 1) mod 256)) else Some None
            end
          else Some (Some (e1, e2, (1 + n1 + n2) mod 256))
  end.

(** The element loop of 716-718 and 730-734. *)
Fixpoint cbor_elems_serialize (enc : N -> list N -> option (N * list N)) (es : list N) (buf : list N) : option (N * list N) :=
  match es with
  | [] => Some (0, buf)
  | e :: r => enc_then enc e buf (cbor_elems_serialize enc r)
  end.
(** *arrayHeaderStartPtr |= (4 << 5); None = the byte is outside the buffer. *)
Definition or_header (buf : list N) : option (list N) :=
  match buf with [] => None | b :: r => Some (N.lor b 0x80 :: r) end.
(** CborUint.cpp:709-720 and 721-736 CborArbitrarySizeUint64ArraySerialize ([enc] the unchecked or checked encoder). *)
Definition cbor_array_serialize (enc : N -> list N -> option (N * list N)) (es : list N) (buf : list N) : option (N * list N) :=
  do r <- enc (N.of_nat (length es)) buf;
  let (n, buf1) := (r : N * list N) in
  do buf2 <- or_header buf1;
  do r2 <- cbor_elems_serialize enc es (skipn (N.to_nat n) buf2);
  let (m, rest) := (r2 : N * list N) in
  Some (n + m, firstn (N.to_nat n) buf2 ++ rest).
(** CborUint.cpp:737-743 CborArbitrarySizeUint64ArraySerializationSize. *)
Fixpoint cbor_sum_sizes (scan : N -> option N) (es : list N) : option N :=
  match es with [] => Some 0 | e :: r => do a <- cbor_num_bytes scan e; do b <- cbor_sum_sizes scan r; Some (a + b) end.
Definition cbor_array_size (scan : N -> option N) (es : list N) : option N :=
  do a <- cbor_num_bytes scan (N.of_nat (length es)); do b <- cbor_sum_sizes scan es; Some (a + b).

(** The element loops 762-769 and 797-804: inner None = false, otherwise the elements, the bytes taken and the rest. *)
Fixpoint cbor_elems_deserialize (n : nat) (bs : list N) : option (option (list N * N * list N)) :=
  match n with
  | O => Some (Some ([], 0, bs))
  | S n' =>
    do d <- cbor_decode bs;
    let (e, k) := (d : N * N) in
    if k =? 0 then Some None
    else
      do r <- cbor_elems_deserialize n' (skipn (N.to_nat k) bs);
      match r with
      | None => Some None
      | Some (es, t, rest) => Some (Some (e :: es, k + t, rest))
      end
  end.
(** CborUint.cpp:744-809 CborArbitrarySizeUint64ArrayDeserialize. The header byte is changed in place and restored, so
    the buffer is unchanged. reserve / resize failing (bad_alloc) is not modelled. *)
Definition cbor_array_deserialize (maxElements : N) (bs : list N) : option (option (list N * N)) :=
  match bs with
  | [] => Some None
  | h :: r =>
    if h =? 0x9f then
      do d <- cbor_elems_deserialize (N.to_nat maxElements) r;
      match d with
      | None => Some None
      | Some (es, t, rest) =>
        match rest with
        | [] => Some None
        | b :: _ => if b =? 0xff then Some (Some (es, 1 + t + 1)) else Some None
        end
      end
    else if negb (N.shiftr h 5 =? 4) then Some None
    else
      do dh <- cbor_decode (N.land h 0x1f :: r);
      let (num, k) := (dh : N * N) in
      if k =? 0 then Some None
      else if maxElements <? num then Some None
      else
        do d <- cbor_elems_deserialize (N.to_nat num) (skipn (N.to_nat k) bs);
        match d with
        | None => Some None
        | Some (es, t, _) => Some (Some (es, k + t))
        end
  end.
