(** Specification vocabulary for C47 (RFC 9171 section 6.1, BIBE draft): the byte forms of BPv7 administrative records,
    independent of the routines of the model. *)
From Coq Require Import NArith List Bool.
From Verif Require Import Base M_Bpv7Block M_Bpv7Admin S_Cbor S_Bpv7Crc S_Bpv7.
Import ListNotations.
Open Scope N_scope.

(** A status item [asserted, time] as the code reads it; [t0] is the time found in the object when the bytes carry none. *)
Definition item_form (timed : bool) (t0 : N) (i : bool * N) (p : list N) : Prop :=
  if fst i then
    if timed then exists u, cbor_uint (snd i) u /\ (p = [0x82; 0xf5] ++ u \/ p = [0x9f; 0xf5] ++ u ++ [0xff])
    else snd i = t0 /\ (p = [0x81; 0xf5] \/ p = [0x9f; 0xf5; 0xff])
  else snd i = t0 /\ (p = [0x81; 0xf4] \/ p = [0x82; 0xf4] \/ p = [0x9f; 0xf4; 0xff]).
Definition asserted (b : bsr7) : bool := match b_info b with (i1, i2, i3, i4) => fst i1 || fst i2 || fst i3 || fst i4 end.
(** A status report as the code reads it. The array of the items has the header of a four element array or that of one of
    indefinite length, in both cases without a break code. *)
Definition report_form (old b : bsr7) (bs : list N) : Prop :=
  match b_info old, b_info b with (o1, o2, o3, o4), (i1, i2, i3, i4) =>
  exists h i p1 p2 p3 p4 rs src st fr brk,
    bs = [h; i] ++ p1 ++ p2 ++ p3 ++ p4 ++ rs ++ src ++ st ++ fr ++ brk /\ (i = 0x84 \/ i = 0x9f) /\
    item_form (b_timed b) (snd o1) i1 p1 /\ item_form (b_timed b) (snd o2) i2 p2 /\
    item_form (b_timed b) (snd o3) i3 p3 /\ item_form (b_timed b) (snd o4) i4 p4 /\ asserted b = true /\
    cbor_uint (b_reason b) rs /\ eid7_form (b_source b) src /\ two_form (b_stamp b) st /\
    (if b_isfrag b then cbor_items [b_off b; b_flen b] fr else fr = [] /\ (b_off b, b_flen b) = (b_off old, b_flen old)) /\
    ((h = (if b_isfrag b then 0x86 else 0x84) /\ brk = []) \/ (h = 0x9f /\ brk = [0xff]))
  end.
(** A BIBE protocol data unit. *)
Definition bibe_form (e : bibe7) (bs : list N) : Prop :=
  exists h i t tag ds brk, bs = [h] ++ i ++ t ++ tag ++ ds ++ brk /\ cbor_uint (e_id e) i /\ cbor_uint (e_time e) t /\
    (tag = [] \/ tag = [216]) /\ byte_string (e_bundle e) ds /\ ((h = 0x83 /\ brk = []) \/ (h = 0x9f /\ brk = [0xff])).
(** The data of an administrative record; of other types only the type code is looked at. *)
Definition admin_form (old : bsr7) (a : admin7) (d : list N) : Prop :=
  match a with
  | AdmReport b => exists t c, cbor_uint 1 t /\ report_form old b c /\ pair_array (t ++ c) d
  | AdmBibe e => exists t c, cbor_uint 3 t /\ bibe_form e c /\ pair_array (t ++ c) d
  | AdmOther type => exists h t c, d = h :: t ++ c /\ (h = 0x82 \/ h = 0x9f) /\ cbor_uint type t /\ type <> 1 /\ type <> 3
  end.

(** What the code writes: definite lengths, shortest integers. *)
Definition item_written (timed : bool) (i : bool * N) (p : list N) : Prop :=
  if fst i then if timed then exists u, shortest_cbor (snd i) u /\ p = [0x82; 0xf5] ++ u else p = [0x81; 0xf5]
  else p = [0x81; 0xf4].
Definition report_written (b : bsr7) (bs : list N) : Prop :=
  match b_info b with (i1, i2, i3, i4) =>
  exists p1 p2 p3 p4 rs src st fr,
    bs = [(if b_isfrag b then 0x86 else 0x84); 0x84] ++ p1 ++ p2 ++ p3 ++ p4 ++ rs ++ src ++ st ++ fr /\
    item_written (b_timed b) i1 p1 /\ item_written (b_timed b) i2 p2 /\ item_written (b_timed b) i3 p3 /\ item_written (b_timed b) i4 p4 /\
    shortest_cbor (b_reason b) rs /\ eid7_written (b_source b) src /\ shortest_two (b_stamp b) st /\
    (if b_isfrag b then shortest_items [b_off b; b_flen b] fr else fr = [])
  end.
Definition bibe_written (e : bibe7) (bs : list N) : Prop :=
  exists i t ds, bs = [0x83] ++ i ++ t ++ ds /\ shortest_cbor (e_id e) i /\ shortest_cbor (e_time e) t /\ shortest_bytes (e_bundle e) ds.
Definition admin_written (a : admin7) (d : list N) : Prop :=
  match a with
  | AdmReport b => exists c, report_written b c /\ d = [0x82; 1] ++ c
  | AdmBibe e => exists c, bibe_written e c /\ d = [0x82; 3] ++ c
  | AdmOther type => exists t, shortest_cbor type t /\ d = 0x82 :: t
  end.
(** Members that fit their C++ types. *)
Definition report_ok (b : bsr7) : Prop :=
  match b_info b with (i1, i2, i3, i4) =>
  snd i1 < 2 ^ 64 /\ snd i2 < 2 ^ 64 /\ snd i3 < 2 ^ 64 /\ snd i4 < 2 ^ 64 /\
  b_reason b < 2 ^ 64 /\ small64 (b_source b) /\ small64 (b_stamp b) /\ b_off b < 2 ^ 64 /\ b_flen b < 2 ^ 64 end.
Definition bibe_ok (e : bibe7) : Prop :=
  e_id e < 2 ^ 64 /\ e_time e < 2 ^ 64 /\ N.of_nat (length (e_bundle e)) + 64 < 2 ^ 64 /\ Forall is_octet (e_bundle e).
Definition admin_ok (a : admin7) : Prop :=
  match a with AdmReport b => report_ok b | AdmBibe e => bibe_ok e | AdmOther t => t < 2 ^ 64 end.
(** What a written report means to its reader, an object holding [old]: times and fragment fields not sent are its own. *)
Definition item_meant (timed : bool) (t0 : N) (i : bool * N) : bool * N := (fst i, if fst i && timed then snd i else t0).
Definition report_meant (old b : bsr7) : bsr7 :=
  match b_info old, b_info b with (o1, o2, o3, o4), (i1, i2, i3, i4) =>
  let m := item_meant (b_timed b) in
  mkBsr7 (m (snd o1) i1, m (snd o2) i2, m (snd o3) i3, m (snd o4) i4) (b_reason b) (eid_meant (b_source b)) (b_stamp b)
    (if b_isfrag b then b_off b else b_off old) (if b_isfrag b then b_flen b else b_flen old) (b_isfrag b) (b_timed b) end.
Definition admin_meant (old : bsr7) (a : admin7) : admin7 := match a with AdmReport b => AdmReport (report_meant old b) | _ => a end.
