(** Specification vocabulary for C45, C46 (RFC 9171 sections 4.2, 4.3.1, 4.3.2, 4.4): the byte forms of BPv7 blocks,
    independent of the routines of the model. *)
From Coq Require Import NArith List Bool.
From Verif Require Import Base M_Bpv7Block S_Cbor S_Bpv7Crc.
Import ListNotations.
Open Scope N_scope.

(** An array of two items given by their bytes, of definite or (as the code also accepts) indefinite length. *)
Definition pair_array (b bs : list N) : Prop := bs = 130 :: b \/ bs = 159 :: b ++ [255].
(** Two unsigned integers in an array. *)
Definition two_form (t : N * N) (bs : list N) : Prop := exists q, cbor_items [fst t; snd t] q /\ pair_array q bs.
(** Endpoint ids (node, service): scheme 1 with the number 0 for dtn:none, here (0, 0), or scheme 2 with node and service. *)
Definition eid7_form (e : N * N) (bs : list N) : Prop :=
  exists b, pair_array b bs /\ ((b = [1; 0] /\ e = (0, 0)) \/ exists t, b = 2 :: t /\ two_form e t).
(** The CRC field f behind the bytes [body] of a block, for the CRC type (0 none, 1 CRC-16/X-25, 2 CRC-32C) and the values
    (32 bit, 16 bit); [verified] = the value is the checksum of the block with zeros for the CRC. *)
Inductive crc_closing (verified : Prop) : N -> N * N -> list N -> list N -> Prop :=
| NoCrc body : crc_closing verified 0 (0, 0) body []
| Crc16 c body f : crc_field 2 c f -> (verified -> checksum 16 X25_POLY (body ++ [66; 0; 0]) c) -> crc_closing verified 1 (0, c) body f
| Crc32 c body f : crc_field 4 c f -> (verified -> checksum 32 CASTAGNOLI_POLY (body ++ [68; 0; 0; 0; 0]) c) -> crc_closing verified 2 (c, 0) body f.
Definition is_fragment (flags : N) : bool := N.testbit flags 0.
Definition no_crc (ct : N) : bool := ct =? 0.
(** A primary block; [stale] = the fragment offset and total length found in the object when the bytes carry none. *)
Definition primary7_form (stale : N * N) (p : prim7) (bs : list N) : Prop :=
  exists fl d s r t l fr crc body,
    body = [128 + (8 + (if no_crc (q_crctype p) then 0 else 1) + (if is_fragment (q_flags p) then 2 else 0)); 7] ++ fl ++
           [q_crctype p] ++ d ++ s ++ r ++ t ++ l ++ fr /\
    bs = body ++ crc /\
    cbor_uint (q_flags p) fl /\ eid7_form (q_dest p) d /\ eid7_form (q_src p) s /\ eid7_form (q_report p) r /\
    two_form (q_stamp p) t /\ cbor_uint (q_life p) l /\
    (if is_fragment (q_flags p) then cbor_items [q_off p; q_total p] fr else fr = [] /\ (q_off p, q_total p) = stale) /\
    crc_closing True (q_crctype p) (q_crc p) body crc.
(** A byte string: an unsigned item for the length with major type 2, then the bytes. *)
Definition byte_string (d bs : list N) : Prop :=
  exists b r, bs = (64 + b :: r) ++ d /\ cbor_uint (N.of_nat (length d)) (b :: r).
(** A canonical block as the code reads it: the type code in at most two bytes, an optional byte 0xd8 before the data. *)
Definition canon7_form (verified : Prop) (c : canon7) (bs : list N) : Prop :=
  exists t n fl tag d ds crc body,
    body = [128 + (5 + (if no_crc (c_crctype c) then 0 else 1))] ++ t ++ n ++ fl ++ [c_crctype c] ++ tag ++ ds /\
    bs = body ++ crc /\
    cbor_uint (c_type c) t /\ (length t <= 2)%nat /\ cbor_uint (c_num c) n /\ cbor_uint (c_flags c) fl /\
    (tag = [] \/ tag = [216]) /\ byte_string d ds /\ c_data c = Some d /\ c_len c = N.of_nat (length d) /\
    crc_closing verified (c_crctype c) (c_crc c) body crc.

(** What the code writes: shortest integers, definite lengths, no tag. *)
Definition shortest_two (t : N * N) (bs : list N) : Prop := exists q, shortest_items [fst t; snd t] q /\ bs = 130 :: q.
Definition eid7_written (e : N * N) (bs : list N) : Prop :=
  if fst e =? 0 then bs = [130; 1; 0] else exists t, shortest_two e t /\ bs = 130 :: 2 :: t.
(** The endpoint id meant: every service of node 0 is dtn:none. *)
Definition eid_meant (e : N * N) : N * N := if fst e =? 0 then (0, 0) else e.
Definition primary7_written (p : prim7) (body : list N) : Prop :=
  exists fl d s r t l fr,
    body = [128 + (8 + (if no_crc (q_crctype p) then 0 else 1) + (if is_fragment (q_flags p) then 2 else 0)); 7] ++ fl ++
           [q_crctype p] ++ d ++ s ++ r ++ t ++ l ++ fr /\
    shortest_cbor (q_flags p) fl /\ eid7_written (q_dest p) d /\ eid7_written (q_src p) s /\ eid7_written (q_report p) r /\
    shortest_two (q_stamp p) t /\ shortest_cbor (q_life p) l /\
    (if is_fragment (q_flags p) then shortest_items [q_off p; q_total p] fr else fr = []).
(** Members that fit their C++ types. *)
Definition small64 (t : N * N) : Prop := fst t < 2 ^ 64 /\ snd t < 2 ^ 64.
Definition prim7_ok (p : prim7) : Prop :=
  q_flags p < 2 ^ 64 /\ small64 (q_dest p) /\ small64 (q_src p) /\ small64 (q_report p) /\ small64 (q_stamp p) /\
  q_life p < 2 ^ 64 /\ q_off p < 2 ^ 64 /\ q_total p < 2 ^ 64 /\ q_crctype p < 256.
(** What a written block means to its reader. *)
Definition prim7_meant (stale : N * N) (p : prim7) (crcs : N * N) : prim7 :=
  mkPrim7 (q_flags p) (eid_meant (q_dest p)) (eid_meant (q_src p)) (eid_meant (q_report p)) (q_stamp p) (q_life p)
    (if is_fragment (q_flags p) then q_off p else fst stale) (if is_fragment (q_flags p) then q_total p else snd stale) crcs (q_crctype p).
(** The memory mem' holds the bytes bs from position pos on; what lies before is as in mem. *)
Definition written_at (mem : list N) (pos : nat) (bs : list N) (mem' : list N) : Prop :=
  exists junk, mem' = firstn pos mem ++ bs ++ junk /\ length mem' = length mem.
(** Canonical blocks as written. *)
Definition shortest_bytes (d bs : list N) : Prop :=
  exists b r, bs = (64 + b :: r) ++ d /\ shortest_cbor (N.of_nat (length d)) (b :: r).
Definition canon7_written (c : canon7) (d body : list N) : Prop :=
  exists t n fl ds,
    body = [128 + (5 + (if no_crc (c_crctype c) then 0 else 1))] ++ t ++ n ++ fl ++ [c_crctype c] ++ ds /\
    shortest_cbor (c_type c) t /\ shortest_cbor (c_num c) n /\ shortest_cbor (c_flags c) fl /\ shortest_bytes d ds.
Definition canon7_ok (c : canon7) : Prop := c_type c < 256 /\ c_num c < 2 ^ 64 /\ c_flags c < 2 ^ 64 /\ c_crctype c < 256.
(** The data of the extension blocks (RFC 9171 section 4.4): an endpoint id, a number, or two numbers. *)
Definition ext7_form (x : ext7) (d : list N) : Prop :=
  match x with
  | PrevNode e => eid7_form e d
  | BundleAge v | Priority v => cbor_uint v d
  | HopCount l c => two_form (l, c) d
  end.
Definition ext7_written (x : ext7) (d : list N) : Prop :=
  match x with
  | PrevNode e => eid7_written e d
  | BundleAge v | Priority v => shortest_cbor v d
  | HopCount l c => shortest_two (l, c) d
  end.
Definition ext7_ok (x : ext7) : Prop :=
  match x with
  | PrevNode e => small64 e
  | BundleAge v | Priority v => v < 2 ^ 64
  | HopCount l c => small64 (l, c)
  end.
Definition ext7_meant (x : ext7) : ext7 := match x with PrevNode e => PrevNode (eid_meant e) | _ => x end.
Definition ext7_code (x : ext7) : N := match x with PrevNode _ => 6 | BundleAge _ => 7 | HopCount _ _ => 10 | Priority _ => 13 end.
