(** Model of the BPv7 administrative records: common/bpcodec/src/codec/Bpv7AdministrativeRecords.cpp (Adm7 below), in the
    style of M_Bpv7Block. The status indicators and times are the array m_bundleStatusInfo. Content objects are created by
    the parser; members it does not assign are those of [old]. The encapsulated bundle is the bytes behind
    m_encapsulatedBundlePtr. *)
From Coq Require Import NArith List Bool.
From Verif Require Import Base M_SegmentAlloc M_Intrin M_Sdnv M_Cbor M_Bpv6Block M_Bpv7Crc M_Bpv7Block.
Import ListNotations.
Open Scope N_scope.

(** bpv7.h:646-653 members of Bpv7AdministrativeRecordContentBundleStatusReport. *)
Record bsr7 := mkBsr7 {
  b_info : (bool * N) * (bool * N) * (bool * N) * (bool * N);
  b_reason : N; b_source : N * N; b_stamp : N * N; b_off : N; b_flen : N; b_isfrag : bool; b_timed : bool }.
(** bpv7.h:663-666 members of Bpv7AdministrativeRecordContentBibePduMessage. *)
Record bibe7 := mkBibe7 { e_id : N; e_time : N; e_bundle : list N }.
(** bpv7.h:671-672: m_adminRecordTypeCode with m_adminRecordContentPtr (none for other types). *)
Inductive admin7 := AdmReport (b : bsr7) | AdmBibe (e : bibe7) | AdmOther (type : N).

(** ** Reading *)
(** The check of a break code (Adm7:192-199, 512-519, 599-605, 834-840). *)
Definition rd_break (bs : list N) : option (option (unit * list N)) :=
  match bs with [] => Some None | b :: r => if b =? 0xff then Some (Some (tt, r)) else Some None end.
Definition rd_break_if (c : bool) (bs : list N) : option (option (unit * list N)) := if c then rd_break bs else Some (Some (tt, bs)).
(** Adm7:475-481: detection of m_reportStatusTimeFlagWasSet at the first asserted item; [r] is what follows its boolean. *)
Definition detect_timed (size : N) (r : list N) : option (option bool) :=
  if Nat.ltb (length r) 2 then Some None
  else if size =? 31 then match r with x :: _ => Some (Some (negb (x =? 0xff))) | [] => None end
  else Some (Some (size =? 2)).
(** Adm7:434-520: one status item. [det] = Some m_reportStatusTimeFlagWasSet if it has been detected, [t0] the time in the
    object. *)
Definition status_read (det : option bool) (t0 : N) (bs : list N) : option (option (((bool * N) * option bool) * list N)) :=
  match bs with
  | h :: b :: r =>
    let size := N.land h 0x1f in
    if negb (N.shiftr h 5 =? 4) then Some None
    else if negb (size =? 1) && negb (size =? 2) && negb (size =? 31) then Some None
    else if b =? 0xf4 then
      try (_, r1) <- rd_break_if (size =? 31) r; Some (Some (((false, t0), det), r1))
    else if b =? 0xf5 then
      do dt <- (match det with Some t => Some (Some t) | None => detect_timed size r end);
      match dt with
      | None => Some None
      | Some timed =>
        if negb timed && (size =? 2) then Some None
        else if timed && (size =? 1) then Some None else
        try (t, r1) <- (if timed then rd_uint r else Some (Some (t0, r)));
        try (_, r2) <- rd_break_if (size =? 31) r1;
        Some (Some (((true, t), Some timed), r2))
      end
    else Some None
  | _ => Some None
  end.
(** Adm7:528-606: reason, source, timestamp, fragment fields, break; [asize] = cborArraySizeBsr. *)
Definition report_tail (old : bsr7) (asize : N) (info : (bool * N) * (bool * N) * (bool * N) * (bool * N)) (timed : bool) (bs : list N)
  : option (option (bsr7 * list N)) :=
  try (reason, r1) <- rd_uint bs;
  try (src, r2) <- eid7_read r1;
  try (stamp, r3) <- rd_two r2;
  do isfrag <- (if asize =? 4 then Some (Some false)
                else if asize =? 6 then Some (Some true)
                else match r3 with [] => Some None | x :: _ => Some (Some (negb (x =? 0xff))) end);
  match isfrag with
  | None => Some None
  | Some fr =>
    try (f, r4) <- (if fr then try (o, q) <- rd_uint r3; try (l, q') <- rd_uint q; Some (Some ((o, l), q'))
                    else Some (Some ((b_off old, b_flen old), r3)));
    try (_, r5) <- rd_break_if (asize =? 31) r4;
    Some (Some (mkBsr7 info reason src stamp (fst f) (snd f) fr timed, r5))
  end.
(** Adm7:420-524: the four items and the rest. *)
Definition report_items (old : bsr7) (asize : N) (bs : list N) : option (option (bsr7 * list N)) :=
  match b_info old with (i1, i2, i3, i4) =>
  try (x1, r1) <- status_read None (snd i1) bs;
  try (x2, r2) <- status_read (snd x1) (snd i2) r1;
  try (x3, r3) <- status_read (snd x2) (snd i3) r2;
  try (x4, r4) <- status_read (snd x3) (snd i4) r3;
  match snd x4 with
  | None => Some None
  | Some timed => report_tail old asize (fst x1, fst x2, fst x3, fst x4) timed r4
  end end.
(** Adm7:360-609 DeserializeBpv7 of a status report. *)
Definition report_read (old : bsr7) (bs : list N) : option (option (bsr7 * list N)) :=
  match bs with
  | h :: i :: r =>
    let asize := N.land h 0x1f in
    if negb (N.shiftr h 5 =? 4) then Some None
    else if negb (asize =? 4) && negb (asize =? 6) && negb (asize =? 31) then Some None
    else if negb (i =? 0x84) && negb (i =? 0x9f) then Some None
    else report_items old asize r
  | _ => Some None
  end.
(** Adm7:796-824: the encapsulated bundle, read as the data of a canonical block is (Canon7:443-469). *)
Definition bibe_data (bs : list N) : option (option (list N * list N)) := match bs with [] => Some None | _ => canon7_data bs end.
(** Adm7:734-844 DeserializeBpv7 of a BIBE PDU. *)
Definition bibe_read (bs : list N) : option (option (bibe7 * list N)) :=
  match bs with
  | h :: r =>
    if negb (h =? 0x83) && negb (h =? 0x9f) then Some None else
    try (id, r1) <- rd_uint r;
    try (t, r2) <- rd_uint r1;
    try (d, r3) <- bibe_data r2;
    try (_, r4) <- rd_break_if (h =? 0x9f) r3;
    Some (Some (mkBibe7 id t d, r4))
  | [] => Some None
  end.
(** Adm7:123-203 Virtual_DeserializeExtensionBlockDataBpv7 of a record with data [d]; inner None = false. *)
Definition admin7_parse (old : bsr7) (d : list N) : option (option admin7) :=
  match d with
  | h :: r =>
    if negb (h =? 0x82) && negb (h =? 0x9f) then Some None else
    try (type, r1) <- rd_uint r;
    if type =? 1 then try b <- all7 (try (b, r2) <- report_read old r1; try (_, r3) <- rd_break_if (h =? 0x9f) r2; Some (Some (b, r3))); Some (Some (AdmReport b))
    else if type =? 3 then try e <- all7 (try (e, r2) <- bibe_read r1; try (_, r3) <- rd_break_if (h =? 0x9f) r2; Some (Some (e, r3))); Some (Some (AdmBibe e))
    else Some (Some (AdmOther type))
  | [] => Some None
  end.

(** ** Writing *)
(** Adm7:273-298: one status item. None inside = the function returns 0 (what it wrote stays, the position does not move). *)
Definition status_put (scan : N -> option N) (timed : bool) (i : bool * N) (w : wr) : option (option wr) :=
  if Nat.ltb (room w) 2 then Some None else
  let t := timed && fst i in
  do w1 <- put_bytes [N.lor 0x80 (1 + N.b2n t); 0xf4 + N.b2n (fst i)] w;
  if t then do w2 <- put (cbor_encode scan (snd i)) w1; Some (Some w2) else Some (Some w1).
(** Adm7:210-340 SerializeBpv7 with the room left in the memory as buffer size. [bail] stands for the memory after a return
    of 0 in the middle, which is the writer's state then with the position of the beginning. *)
Definition report_put (scan : N -> option N) (b : bsr7) (w : wr) : option wr :=
  if Nat.ltb (room w) 2 then Some w else
  do w1 <- put_bytes [N.lor 0x80 (4 + N.shiftl (N.b2n (b_isfrag b)) 1); 0x84] w;
  match b_info b with (i1, i2, i3, i4) =>
  let bail (v : wr) : option wr := Some (fst v, snd w) in
  do x1 <- status_put scan (b_timed b) i1 w1; match x1 with None => bail w1 | Some w2 =>
  do x2 <- status_put scan (b_timed b) i2 w2; match x2 with None => bail w2 | Some w3 =>
  do x3 <- status_put scan (b_timed b) i3 w3; match x3 with None => bail w3 | Some w4 =>
  do x4 <- status_put scan (b_timed b) i4 w4; match x4 with None => bail w4 | Some w5 =>
  do w6 <- put (cbor_encode scan (b_reason b)) w5;
  do w7 <- eid7_put_checked scan (b_source b) w6;
  do w8 <- put (cbor_two_serialize_checked scan (fst (b_stamp b)) (snd (b_stamp b))) w7;
  if b_isfrag b then do w9 <- put (cbor_encode scan (b_off b)) w8; put (cbor_encode scan (b_flen b)) w9 else Some w8
  end end end end end.
(** Adm7:341-359 GetSerializationSize. *)
Definition report_size (scan : N -> option N) (b : bsr7) : option N :=
  let item (i : bool * N) := if b_timed b && fst i then cbor_num_bytes scan (snd i) else Some 0 in
  match b_info b with (i1, i2, i3, i4) =>
  do s1 <- item i1; do s2 <- item i2; do s3 <- item i3; do s4 <- item i4;
  do r <- cbor_num_bytes scan (b_reason b);
  do e <- eid7_size scan (b_source b);
  do t <- cbor_two_size scan (fst (b_stamp b)) (snd (b_stamp b));
  if b_isfrag b then do o <- cbor_num_bytes scan (b_off b); do l <- cbor_num_bytes scan (b_flen b); Some (2 + 4 + 4 + s1 + s2 + s3 + s4 + r + e + t + o + l)
  else Some (2 + 4 + 4 + s1 + s2 + s3 + s4 + r + e + t)
  end.
(** Adm7:653-725 SerializeBpv7 of a BIBE PDU with a bundle pointer. *)
Definition bibe_put (scan : N -> option N) (e : bibe7) (w : wr) : option wr :=
  if Nat.ltb (room w) 1 then Some w else
  do w1 <- put_bytes [0x83] w;
  do w2 <- put (cbor_encode scan (e_id e)) w1;
  do w3 <- put (cbor_encode scan (e_time e)) w2;
  do w4 <- put (cbor_encode scan (N.of_nat (length (e_bundle e)))) w3;
  do w5 <- or_at (snd w3) 0x40 w4;
  put_bytes (e_bundle e) w5.
(** Adm7:726-733. *)
Definition bibe_size (scan : N -> option N) (e : bibe7) : option N :=
  do i <- cbor_num_bytes scan (e_id e);
  do t <- cbor_num_bytes scan (e_time e);
  do l <- cbor_num_bytes scan (N.of_nat (length (e_bundle e)));
  Some (1 + i + t + l + N.of_nat (length (e_bundle e))).
Definition admin7_type (a : admin7) : N := match a with AdmReport _ => 1 | AdmBibe _ => 3 | AdmOther t => t end.
(** Adm7:115-119 GetCanonicalBlockTypeSpecificDataSerializationSize. *)
Definition admin7_size (scan : N -> option N) (a : admin7) : option N :=
  do t <- cbor_num_bytes scan (admin7_type a);
  do c <- (match a with AdmReport b => report_size scan b | AdmBibe e => bibe_size scan e | AdmOther _ => Some 0 end);
  Some (1 + t + c).
(** Adm7:86-108: the data. *)
Definition admin7_data (scan : N -> option N) (a : admin7) (w : wr) : option wr :=
  if Nat.ltb (room w) 1 then Some w else
  do w1 <- put_bytes [0x82] w;
  do w2 <- put (cbor_encode scan (admin7_type a)) w1;
  match a with AdmReport b => report_put scan b w2 | AdmBibe e => bibe_put scan e w2 | AdmOther _ => Some w2 end.
(** Adm7:59-113 SerializeBpv7; the block type is kept, the constructor (Adm7:20-23) set it to PAYLOAD. *)
Definition admin7_serialize (scan : N -> option N) (hw : option N) (a : admin7) (c : canon7) : wr -> option (option (canon7 * wr)) :=
  ext7_write scan hw (c_type c) (admin7_size scan a) (fill_with (admin7_data scan a)) c.

(** ** Comparing *)
(** Adm7:610-647 IsEqual of two status reports. *)
Definition report_equal (a b : bsr7) : bool :=
  (b_reason a =? b_reason b) && ((fst (b_source a) =? fst (b_source b)) && (snd (b_source a) =? snd (b_source b))) &&
  ((fst (b_stamp a) =? fst (b_stamp b)) && (snd (b_stamp a) =? snd (b_stamp b))) &&
  Bool.eqb (b_isfrag a) (b_isfrag b) && Bool.eqb (b_timed a) (b_timed b) &&
  (negb (b_isfrag a) || ((b_off a =? b_off b) && (b_flen a =? b_flen b))) &&
  match b_info a, b_info b with (a1, a2, a3, a4), (b1, b2, b3, b4) =>
    Bool.eqb (fst a1) (fst b1) && Bool.eqb (fst a2) (fst b2) && Bool.eqb (fst a3) (fst b3) && Bool.eqb (fst a4) (fst b4) end.
