(** Model of the BPv7 block codecs in common/bpcodec/src/codec: Cbhe.cpp (Eid below), Bpv7CbhePrimaryBlock.cpp (Prim7),
    Bpv7CanonicalBlock.cpp (Canon7), Bpv7ExtensionBlocks.cpp (Ext7), with the creation timestamp of
    common/util/src/TimestampUtil.cpp (Time).
    Bytes are numbers, memory is a list of bytes. A result None is undefined behaviour (an access outside the memory
    given); an inner None is a returned false or 0. Members left over by a failed parse are not modelled.
    [scan] is the bit scan of CborUint.cpp (see M_Cbor). *)
From Coq Require Import NArith List Bool.
From Verif Require Import Base M_SegmentAlloc M_Intrin M_Sdnv M_Cbor M_Bpv6Block M_Bpv7Crc.
Import ListNotations.
Open Scope N_scope.

(** The idiom CborDecodeU64(serialization, &cborSizeDecoded, bufferSize); if cborSizeDecoded == 0 return false; advance. *)
Definition rd_uint (bs : list N) : option (option (N * list N)) :=
  do x <- cbor_decode bs;
  if snd x =? 0 then Some None else Some (Some (fst x, skipn (N.to_nat (snd x)) bs)).
(** The same with CborTwoUint64ArrayDeserialize; also Time:401-403 bpv7_creation_timestamp_t::DeserializeBpv7:
    (milliseconds, sequence number). *)
Definition rd_two (bs : list N) : option (option ((N * N) * list N)) :=
  do x <- cbor_two_deserialize bs;
  match x with None => Some None | Some (a, b, k) => Some (Some ((a, b), skipn (N.to_nat k) bs)) end.

(** ** Endpoint ids (node, service) *)
(** Eid:139-212 DeserializeBpv7. *)
Definition eid7_read (bs : list N) : option (option ((N * N) * list N)) :=
  match bs with
  | h :: code :: s :: r =>
    if negb (h =? 0x82) && negb (h =? 0x9f) then Some None else
    try (e, r1) <- (if code =? 1 then if s =? 0 then Some (Some ((0, 0), r)) else Some None
                    else if code =? 2 then rd_two (s :: r)
                    else Some None);
    if h =? 0x9f then
      match r1 with
      | [] => Some None
      | b :: r2 => if b =? 0xff then Some (Some (e, r2)) else Some None
      end
    else Some (Some (e, r1))
  | _ => Some None
  end.
(** Eid:101-114 SerializeBpv7 without a buffer size. *)
Definition eid7_put (scan : N -> option N) (e : N * N) (w : wr) : option wr :=
  do w1 <- put_bytes [0x82] w;
  if fst e =? 0 then put_bytes [1; 0] w1
  else do w2 <- put_bytes [2] w1; put (cbor_two_serialize scan (fst e) (snd e)) w2.
(** Eid:115-132 SerializeBpv7 with a buffer size, here the room left in the memory. *)
Definition eid7_put_checked (scan : N -> option N) (e : N * N) (w : wr) : option wr :=
  if Nat.ltb (room w) 3 then Some w else
  do w1 <- put_bytes [0x82] w;
  if fst e =? 0 then put_bytes [1; 0] w1
  else do w2 <- put_bytes [2] w1; put (cbor_two_serialize_checked scan (fst e) (snd e)) w2.
(** Eid:133-138 GetSerializationSizeBpv7. *)
Definition eid7_size (scan : N -> option N) (e : N * N) : option N :=
  if fst e =? 0 then Some 3 else do t <- cbor_two_size scan (fst e) (snd e); Some (2 + t).

(** ** The CRC at the end of a block *)
(** Bpv7Crc.cpp:53-60 Crc32C_Unaligned: [hw] = Some address if built with USE_CRC32C_FAST, else None. *)
Definition crc32c (hw : option N) (data : list N) : N :=
  match hw with Some addr => crc32c_hardware addr data | None => crc32c_software data end.
(** Prim7:428-492 and Canon7:472-544. [pos] is the position behind the last field before the CRC, [bs] the whole buffer
    from the start of the block; skip = skipCrcVerify. The result is the buffer afterwards and, unless false was
    returned, m_computedCrc32, m_computedCrc16 and numBytesTakenToDecode. *)
Definition crc_check (skip : bool) (hw : option N) (ct : N) (pos : nat) (bs : list N) : option (list N * option (N * N * nat)) :=
  if ct =? 0 then Some (bs, Some (0, 0, pos))
  else if ct =? 1 then
    if Nat.ltb (length bs - pos) 3 then Some (bs, None) else
    do g <- get_crc16 (skipn pos bs);
    match g with
    | None => Some (bs, None)
    | Some c =>
      if skip then Some (bs, Some (0, c, (pos + 3)%nat)) else
      do z <- put_crc16 pos 0 bs;
      let computed := crc16_x25 (firstn (pos + 3) z) in
      do b <- put_crc16 pos c z;
      Some (b, if computed =? c then Some (0, c, (pos + 3)%nat) else None)
    end
  else if ct =? 2 then
    if Nat.ltb (length bs - pos) 5 then Some (bs, None) else
    do g <- get_crc32 (skipn pos bs);
    match g with
    | None => Some (bs, None)
    | Some c =>
      if skip then Some (bs, Some (c, 0, (pos + 5)%nat)) else
      do z <- put_crc32 pos 0 bs;
      let computed := crc32c hw (firstn (pos + 5) z) in
      do b <- put_crc32 pos c z;
      Some (b, if computed =? c then Some (c, 0, (pos + 5)%nat) else None)
    end
  else Some (bs, None).
(** Prim7:211-246 (compute = true) and Canon7:180-218 (compute = doCrcComputation). [base] is the position of the block,
    [old] the members m_computedCrc32, m_computedCrc16. *)
Definition crc_put (hw : option N) (ct : N) (compute : bool) (base : nat) (old : N * N) (w : wr) : option (option ((N * N) * wr)) :=
  let block (m : list N) (n : nat) := firstn (n - base) (skipn base m) in
  if ct =? 0 then Some (Some ((0, 0), w))
  else if ct =? 1 then
    do z <- put_crc16 (snd w) 0 (fst w);
    let e := (snd w + 3)%nat in
    if compute then
      let c := crc16_x25 (block z e) in
      do m <- put_crc16 (snd w) c z; Some (Some ((0, c), (m, e)))
    else Some (Some (old, (z, e)))
  else if ct =? 2 then
    do z <- put_crc32 (snd w) 0 (fst w);
    let e := (snd w + 5)%nat in
    if compute then
      let c := crc32c hw (block z e) in
      do m <- put_crc32 (snd w) c z; Some (Some ((c, 0), (m, e)))
    else Some (Some (old, (z, e)))
  else Some None.
(** Prim7:261-262 and Canon7:231-232 CRC_TYPE_TO_SIZE[(uint8_t)m_crcType & 3]. *)
Definition crc_size (ct : N) : option N := tab [0; 3; 5; 0] (N.land ct 3).

(** ** Primary block *)
(** bpv7.h:325-335 Bpv7CbhePrimaryBlock. *)
Record prim7 := mkPrim7 {
  q_flags : N; q_dest : N * N; q_src : N * N; q_report : N * N; q_stamp : N * N; q_life : N;
  q_off : N; q_total : N; q_crc : N * N (* m_computedCrc32, m_computedCrc16 *); q_crctype : N }.
Definition with_crc7 (p : prim7) (c : N * N) : prim7 :=
  mkPrim7 (q_flags p) (q_dest p) (q_src p) (q_report p) (q_stamp p) (q_life p) (q_off p) (q_total p) c (q_crctype p).
(** bpv7.h:47-48 ISFRAGMENT, ADMINRECORD. *)
Definition q_isfrag (flags : N) : bool := negb (N.land flags 1 =? 0).
Definition q_isadmin (flags : N) : bool := negb (N.land flags 2 =? 0).
(** Prim7:119, 341: 8 + hasCrc + (isFragment << 1). *)
Definition prim7_array_size (flags ct : N) : N := 8 + N.b2n (negb (ct =? 0)) + N.shiftl (N.b2n (q_isfrag flags)) 1.
(** Prim7:399-426: the fragment fields; without the flag the members keep what they were ([old]). *)
Definition prim7_frag (flags : N) (old : N * N) (bs : list N) : option (option ((N * N) * list N)) :=
  if q_isfrag flags then try (o, r) <- rd_uint bs; try (t, r') <- rd_uint r; Some (Some ((o, t), r'))
  else Some (Some (old, bs)).
(** Prim7:346-426: the fields after the CRC type. *)
Definition prim7_rest (old : prim7) (flags ct : N) (bs : list N) : option (option (prim7 * list N)) :=
  try (d, r1) <- eid7_read bs;
  try (s, r2) <- eid7_read r1;
  try (rp, r3) <- eid7_read r2;
  try (t, r4) <- rd_two r3;
  try (life, r5) <- rd_uint r4;
  try (f, r6) <- prim7_frag flags (q_off old, q_total old) r5;
  Some (Some (mkPrim7 flags d s rp t life (fst f) (snd f) (q_crc old) ct, r6)).
(** Prim7:267-426. *)
Definition prim7_fields (old : prim7) (bs : list N) : option (option (prim7 * list N)) :=
  if Nat.ltb (length bs) 17 then Some None else
  match bs with
  | h :: version :: r =>
    let arr := N.land h 0x1f in
    if negb (N.shiftr h 5 =? 4) || (3 <? (arr + W32 - 8) mod W32) then Some None
    else if negb (version =? 7) then Some None else
    do x <- cbor_decode_fast9 r;
    let (flags, k) := (x : N * N) in
    if k =? 0 then Some None else
    match skipn (N.to_nat k) r with
    | [] => None
    | ct :: r1 => if negb (prim7_array_size flags ct =? arr) then Some None else prim7_rest old flags ct r1
    end
  | _ => None
  end.
(** Prim7:267-493 DeserializeBpv7 on an object holding [old]: the buffer afterwards, and the block with
    numBytesTakenToDecode unless false was returned. *)
Definition prim7_read (hw : option N) (old : prim7) (bs : list N) : option (list N * option (prim7 * nat)) :=
  do f <- prim7_fields old bs;
  match f with
  | None => Some (bs, None)
  | Some (p, rest) =>
    do x <- crc_check false hw (q_crctype p) (length bs - length rest) bs;
    Some (fst x, option_map (fun y : N * N * nat => (with_crc7 p (fst y), snd y)) (snd x))
  end.
(** CborEncodeU64BufSize9. *)
Definition put9 (scan : N -> option N) (v : N) : wr -> option wr := put (cbor_encode_fast9 scan v).
(** Prim7:108-209: everything before the CRC. *)
Definition prim7_body (scan : N -> option N) (p : prim7) (w : wr) : option wr :=
  do w1 <- put_bytes [N.lor 0x80 (prim7_array_size (q_flags p) (q_crctype p))] w;
  do w2 <- put_bytes [7] w1;
  do w3 <- put9 scan (q_flags p) w2;
  do w4 <- put_bytes [q_crctype p] w3;
  do w5 <- eid7_put scan (q_dest p) w4;
  do w6 <- eid7_put scan (q_src p) w5;
  do w7 <- eid7_put scan (q_report p) w6;
  do w8 <- put (cbor_two_serialize scan (fst (q_stamp p)) (snd (q_stamp p))) w7;
  do w9 <- put9 scan (q_life p) w8;
  if q_isfrag (q_flags p) then do w10 <- put9 scan (q_off p) w9; put9 scan (q_total p) w10 else Some w9.
(** Prim7:108-247 SerializeBpv7 (Time:392-394 for the timestamp): the object and the memory afterwards. *)
Definition prim7_write (scan : N -> option N) (hw : option N) (p : prim7) (w : wr) : option (option (prim7 * wr)) :=
  do w1 <- prim7_body scan p w;
  try (c, w2) <- crc_put hw (q_crctype p) true (snd w) (q_crc p) w1;
  Some (Some (with_crc7 p c, w2)).
(** Prim7:249-264 GetSerializationSize. *)
Definition prim7_size (scan : N -> option N) (p : prim7) : option N :=
  do f <- cbor_num_bytes scan (q_flags p);
  do d <- eid7_size scan (q_dest p);
  do s <- eid7_size scan (q_src p);
  do r <- eid7_size scan (q_report p);
  do t <- cbor_two_size scan (fst (q_stamp p)) (snd (q_stamp p));
  do l <- cbor_num_bytes scan (q_life p);
  do o <- cbor_num_bytes scan (q_off p);
  do n <- cbor_num_bytes scan (q_total p);
  do c <- crc_size (q_crctype p);
  let isfrag := N.b2n (q_isfrag (q_flags p)) in
  Some (3 + f + d + s + r + t + l + o * isfrag + n * isfrag + c).
(** bpv7.h:311-323 largestSerializedPrimarySize. *)
Definition largestSerializedPrimarySize : N := 1 + 1 + 9 + 1 + (1 + 9 + 9) + (1 + 9 + 9) + (1 + 9 + 9) + (1 + 9 + 9) + 9 + 9 + 9 + 5.
(** Prim7:529-541 GetExpirationSeconds, GetSequenceForSecondsScale, GetExpirationMilliseconds, GetSequenceForMillisecondsScale. *)
Definition prim7_expiration_ms (p : prim7) : N := (fst (q_stamp p) + q_life p) mod W64.
Definition prim7_expiration_s (p : prim7) : N := ((fst (q_stamp p) + q_life p) mod W64) / 1000.
Definition prim7_seq_s (p : prim7) : N := N.lor ((N.shiftl (fst (q_stamp p) mod 1000) 50) mod W64) (snd (q_stamp p)).
Definition prim7_seq_ms (p : prim7) : N := snd (q_stamp p).

(** ** Canonical blocks *)
(** bpv7.h:386-393 Bpv7CanonicalBlock; c_data = the m_dataLength bytes at m_dataPtr, None = NULL. *)
Record canon7 := mkCanon7 {
  c_type : N; c_num : N; c_flags : N; c_len : N; c_data : option (list N); c_crc : N * N; c_crctype : N }.
Definition cwith_crc (c : canon7) (x : N * N) : canon7 :=
  mkCanon7 (c_type c) (c_num c) (c_flags c) (c_len c) (c_data c) x (c_crctype c).
Definition cwith_data (c : canon7) (d : option (list N)) : canon7 :=
  mkCanon7 (c_type c) (c_num c) (c_flags c) (c_len c) d (c_crc c) (c_crctype c).
(** Canon7:443-469: the optional tag byte, the byte string header (its major type cleared for decoding and put back)
    and the data. *)
Definition canon7_data (bs : list N) : option (option (list N * list N)) :=
  match bs with
  | [] => None
  | t :: r0 =>
    let r := if t =? 0xd8 then r0 else bs in
    match r with
    | [] => Some None
    | b :: r1 =>
      if negb (N.shiftr b 5 =? 2) then Some None else
      try (len, r2) <- rd_uint (N.land b 0x1f :: r1);
      if N.of_nat (length r2) <? len then Some None
      else Some (Some (firstn (N.to_nat len) r2, skipn (N.to_nat len) r2))
    end
  end.
(** Canon7:278-469. The class of the object created (Canon7:319-361) plays no role here. *)
Definition canon7_fields (bs : list N) : option (option (canon7 * list N)) :=
  if Nat.ltb (length bs) 6 then Some None else
  match bs with
  | h :: r =>
    let arr := N.land h 0x1f in
    if negb (N.shiftr h 5 =? 4) || (1 <? (arr + W32 - 5) mod W32) then Some None else
    do x <- cbor_decode r;
    let (type, k) := (x : N * N) in
    if (k =? 0) || (2 <? k) then Some None else
    try (num, r2) <- rd_uint (skipn (N.to_nat k) r);
    try (flags, r3) <- rd_uint r2;
    if Nat.ltb (length r3) 2 then Some None else
    match r3 with
    | ct :: r4 =>
      if negb (5 + N.b2n (negb (ct =? 0)) =? arr) then Some None else
      try (d, r5) <- canon7_data r4;
      Some (Some (mkCanon7 type num flags (N.of_nat (length d)) (Some d) (0, 0) ct, r5))
    | [] => None
    end
  | [] => None
  end.
(** Canon7:278-545 DeserializeBpv7. *)
Definition canon7_read (skip : bool) (hw : option N) (bs : list N) : option (list N * option (canon7 * nat)) :=
  do f <- canon7_fields bs;
  match f with
  | None => Some (bs, None)
  | Some (c, rest) =>
    do x <- crc_check skip hw (c_crctype c) (length bs - length rest) bs;
    Some (fst x, option_map (fun y : N * N * nat => (cwith_crc c (fst y), snd y)) (snd x))
  end.
(** *p |= m at position [i]. *)
Definition or_at (i : nat) (m : N) (w : wr) : option wr :=
  do b <- nth_error (fst w) i; poke i (N.lor b m) w.
(** serialization += n over memory not written. *)
Definition skip_bytes (n : nat) (w : wr) : option wr := if Nat.leb n (room w) then Some (fst w, (snd w + n)%nat) else None.
(** Canon7:103-178: everything before the CRC; also the position of the data. *)
Definition canon7_body (scan : N -> option N) (c : canon7) (w : wr) : option (nat * wr) :=
  do w1 <- put_bytes [N.lor 0x80 (5 + N.b2n (negb (c_crctype c =? 0)))] w;
  do w2 <- put9 scan (c_type c) w1;
  do w3 <- put9 scan (c_num c) w2;
  do w4 <- put9 scan (c_flags c) w3;
  do w5 <- put_bytes [c_crctype c] w4;
  do w6 <- put9 scan (c_len c) w5;
  do w7 <- or_at (snd w5) 0x40 w6;
  do w8 <- (match c_data c with Some d => put_bytes d w7 | None => skip_bytes (N.to_nat (c_len c)) w7 end);
  Some (snd w7, w8).
(** Canon7:103-219 SerializeBpv7; the position is that of m_dataPtr afterwards. With a data pointer c_data must have
    c_len bytes. *)
Definition canon7_write (scan : N -> option N) (hw : option N) (c : canon7) (w : wr) : option (option (canon7 * nat * wr)) :=
  do x <- canon7_body scan c w;
  let (dp, w1) := (x : nat * wr) in
  let compute := match c_data c with Some _ => true | None => false end in
  try (crcs, w2) <- crc_put hw (c_crctype c) compute (snd w) (c_crc c) w1;
  Some (Some (cwith_crc (cwith_data c (Some (firstn (N.to_nat (c_len c)) (skipn dp (fst w2))))) crcs, dp, w2)).
(** Canon7:221-234 GetSerializationSize, with the size of the block-type-specific data. *)
Definition canon7_size (scan : N -> option N) (c : canon7) (datasize : N) : option N :=
  do t <- cbor_num_bytes scan (c_type c);
  do n <- cbor_num_bytes scan (c_num c);
  do f <- cbor_num_bytes scan (c_flags c);
  do l <- cbor_num_bytes scan datasize;
  do k <- crc_size (c_crctype c);
  Some (2 + t + n + f + l + datasize + k).
(** Canon7:235-247 GetSerializationSizeOfAadPart, 248-254 SerializeAadPart. *)
Definition canon7_aad_size (scan : N -> option N) (c : canon7) : option N :=
  do t <- cbor_num_bytes scan (c_type c);
  do n <- cbor_num_bytes scan (c_num c);
  do f <- cbor_num_bytes scan (c_flags c);
  Some (t + n + f).
Definition canon7_aad (scan : N -> option N) (c : canon7) (w : wr) : option wr :=
  do w1 <- put9 scan (c_type c) w;
  do w2 <- put9 scan (c_num c) w1;
  put9 scan (c_flags c) w2.
(** Canon7:259-275 RecomputeCrcAfterDataModification on the block at [base, e). *)
Definition recompute_crc (hw : option N) (ct : N) (base e : nat) (old : N * N) (m : list N) : option ((N * N) * list N) :=
  if ct =? 1 then
    do z <- put_crc16 (e - 3) 0 m;
    let c := crc16_x25 (firstn (e - base) (skipn base z)) in
    do m' <- put_crc16 (e - 3) c z; Some ((0, c), m')
  else if ct =? 2 then
    do z <- put_crc32 (e - 5) 0 m;
    let c := crc32c hw (firstn (e - base) (skipn base z)) in
    do m' <- put_crc32 (e - 5) c z; Some ((c, 0), m')
  else Some (old, m).

(** ** Extension blocks *)
(** Work on the [n] bytes of memory from position [dp] on. *)
Definition write_in (dp n : nat) (f : list N -> option (list N)) (m : list N) : option (list N) :=
  do d <- f (firstn n (skipn dp m)); Some (firstn dp m ++ d ++ skipn (dp + n) m).
(** The common scheme of Ext7:56-83, 128-163, 218-263, 329-349: set the type, reserve the size the class reports, write
    the block with the data left out, fill in the data with the buffer size m_dataLength, redo the CRC. *)
Definition ext7_write (scan : N -> option N) (hw : option N) (type : N) (size : option N) (fill : list N -> option (list N))
  (c : canon7) (w : wr) : option (option (canon7 * wr)) :=
  do len <- size;
  let c1 := mkCanon7 type (c_num c) (c_flags c) len None (c_crc c) (c_crctype c) in
  try (x, w1) <- canon7_write scan hw c1 w;
  let (c2, dp) := (x : canon7 * nat) in
  do m <- write_in dp (N.to_nat len) fill (fst w1);
  do y <- recompute_crc hw (c_crctype c) (snd w) (snd w1) (c_crc c2) m;
  let (crcs, m') := (y : (N * N) * list N) in
  Some (Some (cwith_crc (cwith_data c2 (Some (firstn (N.to_nat len) (skipn dp m')))) crcs, (m', snd w1))).
(** Fill the data with one writer; the size it reports is ignored. *)
Definition fill_with (f : wr -> option wr) (d : list N) : option (list N) := do w <- f (d, 0%nat); Some (fst w).
(** The classes of Ext7 with their members: previous node (6), bundle age (7), hop count (10: limit, count) and
    priority (13); bpv7.h:71-86 for the codes. *)
Inductive ext7 := PrevNode (e : N * N) | BundleAge (ms : N) | HopCount (limit count : N) | Priority (p : N).
Definition ext7_type (x : ext7) : N := match x with PrevNode _ => 6 | BundleAge _ => 7 | HopCount _ _ => 10 | Priority _ => 13 end.
(** Ext7:84-86, 164-166, 264-266, 351-353 GetCanonicalBlockTypeSpecificDataSerializationSize. *)
Definition ext7_size (scan : N -> option N) (x : ext7) : option N :=
  match x with
  | PrevNode e => eid7_size scan e
  | BundleAge v | Priority v => cbor_num_bytes scan v
  | HopCount l c => cbor_two_size scan l c
  end.
(** Ext7:77, 157, 257, 345: the data. *)
Definition ext7_data (scan : N -> option N) (x : ext7) : wr -> option wr :=
  match x with
  | PrevNode e => eid7_put_checked scan e
  | BundleAge v | Priority v => put (cbor_encode scan v)
  | HopCount l c => put (cbor_two_serialize_checked scan l c)
  end.
(** Ext7:56-83, 128-163, 218-263, 329-349 SerializeBpv7. *)
Definition ext7_serialize (scan : N -> option N) (hw : option N) (x : ext7) : canon7 -> wr -> option (option (canon7 * wr)) :=
  ext7_write scan hw (ext7_type x) (ext7_size scan x) (fill_with (ext7_data scan x)).
(** Ext7:88-91, 168-175, 281-284, 355-364 Virtual_DeserializeExtensionBlockDataBpv7 of the class for [type] on the data;
    inner None = false. *)
Definition all7 {A : Type} (r : option (option (A * list N))) : option (option A) :=
  try (x, rest) <- r; match rest with [] => Some (Some x) | _ :: _ => Some None end.
Definition ext7_parse (type : N) (d : list N) : option (option ext7) :=
  if type =? 6 then try e <- all7 (eid7_read d); Some (Some (PrevNode e))
  else if type =? 7 then try v <- all7 (rd_uint d); Some (Some (BundleAge v))
  else if type =? 10 then try t <- all7 (rd_two d); Some (Some (HopCount (fst t) (snd t)))
  else if type =? 13 then try v <- all7 (rd_uint d); Some (Some (Priority v))
  else Some None.
(** Ext7:268-279 TryReserializeExtensionBlockDataWithoutResizeBpv7 of a hop count block whose data is [d]: the new data,
    inner None = false. tempData has largestSerializedDataOnlySize = 19 bytes (bpv7.h:461-464), [junk] its contents. *)
Definition hop_reserialize (scan : N -> option N) (junk : list N) (limit count : N) (d : list N) : option (option (list N)) :=
  do x <- cbor_two_serialize scan limit count junk;
  if N.of_nat (length d) =? fst x then Some (Some (firstn (length d) (snd x))) else Some None.
