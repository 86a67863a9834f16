(** Vocabulary for C37-C39: the BPv6 wire format (RFC 5050 section 4, RFC 6260 for the endpoint ids, RFC 6259, RFC 6258,
    CCSDS 734.2-B-1 and the bundle age draft for the extension blocks), independent of the codec functions. Of the model
    only the record types are used, and for the fills of an aggregate custody signal the decoder C29 is about. *)
From Coq Require Import NArith List Bool.
From Verif Require Import Base M_FragmentSet S_FragmentSet M_Acs S_Acs S_Sdnv S_Uri M_Bpv6Block M_BundleV6.
Import ListNotations.
Open Scope N_scope.

(** An SDNV of at most five bytes for a 32-bit number. *)
Definition sdnv32_for (v : N) (bs : list N) : Prop := is_sdnv bs /\ (length bs <= 5)%nat /\ sdnv_value bs = v /\ v < W32.

(** ** Primary block (RFC 5050 4.5.1, RFC 6260 2.2) *)
(** Bit 0 of the bundle flags: the bundle is a fragment; bit 1: it is an administrative record. *)
Definition fragment_flag (flags : N) : bool := N.testbit flags 0.
Definition admin_flag (flags : N) : bool := N.testbit flags 1.
(** Version 6, then flags, block length, eight endpoint numbers, creation time and sequence number, lifetime, dictionary
    length 0, and in a fragment the fragment offset and the total length. Nothing relates the block length to the rest. *)
Definition wire_primary (p : prim) (bs : list N) : Prop :=
  exists sd fr, bs = 6 :: sd ++ fr /\
    sdnvs [p_flags p; p_len p; fst (p_dest p); snd (p_dest p); fst (p_src p); snd (p_src p); fst (p_report p); snd (p_report p);
           fst (p_cust p); snd (p_cust p); p_time p; p_seq p; p_life p; 0] sd /\
    if fragment_flag (p_flags p) then sdnvs [p_off p; p_total p] fr else fr = [] /\ p_off p = 0 /\ p_total p = 0.
(** Decoding the primary block comes to 32 bytes in a row with the top bit set where an SDNV is expected. *)
Definition primary_runs_away (bs : list N) : Prop :=
  exists r, bs = 6 :: r /\
    (runs_away 14 r \/
     exists flags vs sd rest, r = sd ++ rest /\ length vs = 12%nat /\ sdnvs (flags :: vs ++ [0]) sd /\
       fragment_flag flags = true /\ runs_away 2 rest).
(** The members hold 64-bit numbers; offset and total length are only used in fragments. *)
Definition prim_ok (p : prim) : Prop :=
  Forall (fun v => v < W64) [p_flags p; fst (p_dest p); snd (p_dest p); fst (p_src p); snd (p_src p); fst (p_report p); snd (p_report p);
    fst (p_cust p); snd (p_cust p); p_time p; p_seq p; p_life p; p_off p; p_total p] /\
  (fragment_flag (p_flags p) = false -> p_off p = 0 /\ p_total p = 0).

(** ** Block-type-specific data *)
(** One or more zero-terminated endpoint texts (RFC 6258 4.1). *)
Inductive uri_texts : list (N * N) -> list N -> Prop :=
| UtOne node svc a b : number_text node a -> number_text svc b -> uri_texts [(node, svc)] (ipn_colon ++ a ++ [46] ++ b ++ [0])
| UtMore node svc a b l ts : number_text node a -> number_text svc b -> uri_texts l ts ->
    uri_texts ((node, svc) :: l) ((ipn_colon ++ a ++ [46] ++ b ++ [0]) ++ ts).
(** Fragment offset and length, if the record is about a fragment (RFC 5050 6.1). *)
Definition frag_form (isfrag : bool) (off len : N) (bs : list N) : Prop :=
  if isfrag then sdnvs [off; len] bs else bs = [] /\ off = 0 /\ len = 0.
(** A DTN time: seconds and nanoseconds (RFC 5050 6.1). *)
Definition time_form (t : N * N) (bs : list N) : Prop :=
  exists a b, bs = a ++ b /\ sdnv_for (fst t) a /\ sdnv32_for (snd t) b.
(** The times of the status flag bits i, i+1, ... that are set. *)
Inductive times_form (flags : N) : N -> list (N * N) -> list N -> Prop :=
| TmNil i : times_form flags i [] []
| TmSet i t ts a b : N.testbit flags i = true -> time_form t a -> times_form flags (i + 1) ts b -> times_form flags i (t :: ts) (a ++ b)
| TmClear i ts b : N.testbit flags i = false -> times_form flags (i + 1) ts b -> times_form flags i ((0, 0) :: ts) b.
(** The source endpoint: its length and its text. *)
Definition eid_form (eid bs : list N) : Prop :=
  exists ln, bs = ln ++ eid /\ sdnv32_for (N.of_nat (length eid)) ln /\ (5 <= length eid)%nat /\ N.of_nat (length eid) <= 65535.
(** Bundle status report and custody signal (RFC 5050 6.1.1 and 6.3). *)
Definition status_form (isfrag : bool) (s : status_report) (bs : list N) : Prop :=
  exists fr ts st e, bs = sr_flags s :: sr_reason s :: fr ++ ts ++ st ++ e /\ sr_isfrag s = isfrag /\
    frag_form isfrag (sr_off s) (sr_flen s) fr /\ length (sr_times s) = 5%nat /\ times_form (sr_flags s) 0 (sr_times s) ts /\
    sdnvs [fst (sr_stamp s); snd (sr_stamp s)] st /\ eid_form (sr_eid s) e.
Definition signal_form (isfrag : bool) (s : custody_signal) (bs : list N) : Prop :=
  exists fr t st e, bs = cs_status s :: fr ++ t ++ st ++ e /\ cs_isfrag s = isfrag /\
    frag_form isfrag (cs_off s) (cs_flen s) fr /\ time_form (cs_time s) t /\
    sdnvs [fst (cs_stamp s); snd (cs_stamp s)] st /\ eid_form (cs_eid s) e.
(** The data of a block of the given type in a bundle that is or is not an administrative record. *)
Inductive data_form (last isAdmin : bool) : N -> list N -> content -> Prop :=
| DfPlain t d : ~ In t [5; 8; 10; 20] -> (isAdmin = true -> t <> 1) -> data_form last isAdmin t d Plain
| DfCteb id sd eid : sdnv_for id sd -> (length eid <= 45)%nat -> data_form last isAdmin 10 (sd ++ eid) (Cteb id eid)
| DfPrevHop node svc a b : number_text node a -> number_text svc b -> (length a + length b <= 39)%nat ->
    data_form last isAdmin 5 ([105; 112; 110; 0] ++ a ++ [46] ++ b ++ [0]) (PrevHop node svc)
| DfAge v sd : sdnv_for v sd -> data_form last isAdmin 20 sd (Age v)
| DfUris sd l ts : sdnv_for 1 sd -> uri_texts l ts -> data_form last isAdmin 8 (sd ++ ts) (Meta 1 (Some (MUris l)))
| DfMeta code sd d : sdnv_for code sd -> code <> 1 -> data_form last isAdmin 8 (sd ++ d) (Meta code (Some (MGeneric d)))
| DfStatus h s bs : isAdmin = true -> h / 16 = 1 -> status_form (N.testbit h 0) s bs ->
    data_form last isAdmin 1 (h :: bs) (Admin 1 (N.testbit h 0) (Some (AStatus s)))
| DfSignal h s bs : isAdmin = true -> h / 16 = 2 -> signal_form (N.testbit h 0) s bs ->
    data_form last isAdmin 1 (h :: bs) (Admin 2 (N.testbit h 0) (Some (ASignal s)))
| DfAggregate h st bs fs fills : isAdmin = true -> h / 16 = 4 -> acs_fields bs fs ->
    acs_deserialize_fills last bs = Some (Some (fills, N.of_nat (length bs))) ->
    data_form last isAdmin 1 (h :: st :: bs) (Admin 4 (N.testbit h 0) (Some (AAggregate st fills))).

(** ** Canonical blocks and bundles *)
(** Type, flags, length, data (RFC 5050 4.5.2; there is no endpoint reference list). *)
Definition wire_block (type flags : N) (data bs : list N) : Prop :=
  exists f l, bs = type :: f ++ l ++ data /\ is_byte type /\ sdnv_for flags f /\ sdnv_for (N.of_nat (length data)) l.
(** A block of the view that stands for the bytes [bs] and is not touched since. *)
Definition cbv_wire (c : cbv) (bs : list N) : Prop :=
  exists data, k_data (c_blk c) = Some data /\ k_len (c_blk c) = N.of_nat (length data) /\ c_actual c = bs /\ c_dirty c = false /\
    c_del c = false /\ wire_block (k_type (c_blk c)) (k_flags (c_blk c)) data bs.
(** Its members say what its data says. *)
Definition cbv_data (last isAdmin : bool) (c : cbv) : Prop :=
  exists data, k_data (c_blk c) = Some data /\ data_form last isAdmin (k_type (c_blk c)) data (k_content (c_blk c)).
(** One or more blocks, exactly the last of which has the last-block flag (bit 3). *)
Inductive wire_blocks : list cbv -> list N -> Prop :=
| WbLast c bs : cbv_wire c bs -> N.testbit (k_flags (c_blk c)) 3 = true -> wire_blocks [c] bs
| WbMore c bs cs bs' : cbv_wire c bs -> N.testbit (k_flags (c_blk c)) 3 = false -> wire_blocks cs bs' -> wire_blocks (c :: cs) (bs ++ bs').
(** The view stands for the bytes of a whole bundle. *)
Definition wire_bundle (v : view) (bs : list N) : Prop :=
  exists pb cb, bs = pb ++ cb /\ wire_primary (v_prim v) pb /\ v_pactual v = pb /\ v_pdirty v = false /\ wire_blocks (v_blocks v) cb /\ v_bytes v = bs.
Definition bundle_data (last : bool) (v : view) : Prop := Forall (cbv_data last (admin_flag (p_flags (v_prim v)))) (v_blocks v).

(** ** What the serializers write: always the shortest SDNVs and canonical texts *)
Inductive shortest_all : list N -> list N -> Prop :=
| ShNil : shortest_all [] []
| ShCons v sd vs bs : shortest_sdnv v sd -> shortest_all vs bs -> shortest_all (v :: vs) (sd ++ bs).
Definition written_primary (p : prim) (bs : list N) : Prop :=
  exists f l sd fr, bs = 6 :: f ++ l :: sd ++ fr /\ shortest_sdnv (p_flags p) f /\ l = p_len p /\ p_len p = N.of_nat (length sd + length fr) /\ l <= 127 /\
    shortest_all [fst (p_dest p); snd (p_dest p); fst (p_src p); snd (p_src p); fst (p_report p); snd (p_report p);
      fst (p_cust p); snd (p_cust p); p_time p; p_seq p; p_life p; 0] sd /\
    shortest_all (if fragment_flag (p_flags p) then [p_off p; p_total p] else []) fr.
Inductive uris_written : list (N * N) -> list N -> Prop :=
| UwNil : uris_written [] []
| UwCons node svc t l ts : ipn_text node svc t -> uris_written l ts -> uris_written ((node, svc) :: l) (t ++ [0] ++ ts).
Inductive times_written (flags : N) : N -> list (N * N) -> list N -> Prop :=
| TwNil i : times_written flags i [] []
| TwSet i t ts a b : N.testbit flags i = true -> shortest_all [fst t; snd t] a -> times_written flags (i + 1) ts b -> times_written flags i (t :: ts) (a ++ b)
| TwClear i t ts b : N.testbit flags i = false -> times_written flags (i + 1) ts b -> times_written flags i (t :: ts) b.
Definition eid_written (eid bs : list N) : Prop := exists ln, bs = ln ++ eid /\ shortest_sdnv (N.of_nat (length eid)) ln.
Inductive admin_written : admin_content -> list N -> Prop :=
| AwStatus s fr ts st e : shortest_all (if sr_isfrag s then [sr_off s; sr_flen s] else []) fr -> times_written (sr_flags s) 0 (sr_times s) ts ->
    shortest_all [fst (sr_stamp s); snd (sr_stamp s)] st -> eid_written (sr_eid s) e ->
    admin_written (AStatus s) (sr_flags s :: sr_reason s :: fr ++ ts ++ st ++ e)
| AwSignal s fr t st e : shortest_all (if cs_isfrag s then [cs_off s; cs_flen s] else []) fr -> shortest_all [fst (cs_time s); snd (cs_time s)] t ->
    shortest_all [fst (cs_stamp s); snd (cs_stamp s)] st -> eid_written (cs_eid s) e ->
    admin_written (ASignal s) (cs_status s :: fr ++ t ++ st ++ e)
| AwAggregate status fills enc : acs_encoding 0 fills enc -> admin_written (AAggregate status fills) (status :: enc).
Inductive data_written : content -> list N -> Prop :=
| DwCteb id eid sd : shortest_sdnv id sd -> data_written (Cteb id eid) (sd ++ eid)
| DwPrevHop node svc a b : decimal node a -> decimal svc b -> data_written (PrevHop node svc) ([105; 112; 110; 0] ++ a ++ [46] ++ b ++ [0])
| DwAge v sd : shortest_sdnv v sd -> data_written (Age v) sd
| DwMetaNone code sd : shortest_sdnv code sd -> data_written (Meta code None) sd
| DwUris code sd l ts : shortest_sdnv code sd -> uris_written l ts -> data_written (Meta code (Some (MUris l))) (sd ++ ts)
| DwMeta code sd d : shortest_sdnv code sd -> data_written (Meta code (Some (MGeneric d))) (sd ++ d)
| DwAdminNone code isfrag : data_written (Admin code isfrag None) [16 * code + N.b2n isfrag]
| DwAdmin code isfrag a bs : admin_written a bs -> data_written (Admin code isfrag (Some a)) ((16 * code + N.b2n isfrag) :: bs).
(** The data a block with these members is to carry. *)
Definition block_data (b : block) (data : list N) : Prop :=
  match k_content b with
  | Plain => exists d, k_data b = Some d /\ k_len b <= N.of_nat (length d) /\ data = firstn (N.to_nat (k_len b)) d
  | c => data_written c data
  end.
(** Block types, and flags (bits 4 and 0), that classes insist on (RFC 6259 4.1, bundle age draft). *)
Definition block_type (b : block) : N := match k_content b with Cteb _ _ => 10 | PrevHop _ _ => 5 | Age _ => 20 | _ => k_type b end.
Definition block_flags (b : block) : N :=
  match k_content b with PrevHop _ _ => N.setbit (k_flags b) 4 | Age _ => N.setbit (k_flags b) 0 | _ => k_flags b end.
Definition written_block (type flags : N) (data bs : list N) : Prop :=
  exists f l, bs = type :: f ++ l ++ data /\ shortest_sdnv flags f /\ shortest_sdnv (N.of_nat (length data)) l.

(** Members within the ranges of their types, strings that fit their length fields, ids below 2^64-1 in canonical order. *)
Definition pair_ok (t : N * N) : Prop := fst t < W64 /\ snd t < W64.
Definition admin_ok (a : admin_content) : Prop :=
  match a with
  | AStatus s => is_byte (sr_flags s) /\ is_byte (sr_reason s) /\ sr_off s < W64 /\ sr_flen s < W64 /\
      Forall (fun t => fst t < W64 /\ snd t < W32) (sr_times s) /\ pair_ok (sr_stamp s) /\ Forall is_byte (sr_eid s) /\ N.of_nat (length (sr_eid s)) < W32
  | ASignal s => is_byte (cs_status s) /\ cs_off s < W64 /\ cs_flen s < W64 /\ (fst (cs_time s) < W64 /\ snd (cs_time s) < W32) /\
      pair_ok (cs_stamp s) /\ Forall is_byte (cs_eid s) /\ N.of_nat (length (cs_eid s)) < W32
  | AAggregate status fills => is_byte status /\ canonical fills
  end.
Definition content_ok (c : content) : Prop :=
  match c with
  | Plain => True
  | Cteb id eid => id < W64 /\ Forall is_byte eid
  | PrevHop node svc => node < W64 /\ svc < W64
  | Age v => v < W64
  | Meta code None => code < W64
  | Meta code (Some (MUris l)) => code < W64 /\ Forall pair_ok l
  | Meta code (Some (MGeneric d)) => code < W64 /\ Forall is_byte d
  | Admin code _ None => code < 16
  | Admin code _ (Some a) => code < 16 /\ admin_ok a
  end.
(** A block that can be serialized: its data exists (the pointer is set for a block without a class of its own). *)
Definition block_ok (b : block) : Prop :=
  is_byte (k_type b) /\ k_flags b < W64 /\ k_len b < W64 /\ content_ok (k_content b) /\
  (k_content b = Plain -> exists d, k_data b = Some d /\ Forall is_byte d /\ k_len b <= N.of_nat (length d)).
(** Members that mean the same after a round trip: the parser's length limits hold, the record type is the content's, fields the
    record does not carry have their default value. *)
Definition admin_std (code : N) (isfrag : bool) (a : admin_content) : Prop :=
  match a with
  | AStatus s => code = 1 /\ sr_isfrag s = isfrag /\ (isfrag = false -> sr_off s = 0 /\ sr_flen s = 0) /\ length (sr_times s) = 5%nat /\
      (forall i, (i < 5)%nat -> N.testbit (sr_flags s) (N.of_nat i) = false -> nth i (sr_times s) (0, 0) = (0, 0)) /\
      (5 <= length (sr_eid s))%nat /\ N.of_nat (length (sr_eid s)) <= 65535
  | ASignal s => code = 2 /\ cs_isfrag s = isfrag /\ (isfrag = false -> cs_off s = 0 /\ cs_flen s = 0) /\
      (5 <= length (cs_eid s))%nat /\ N.of_nat (length (cs_eid s)) <= 65535
  | AAggregate _ fills => code = 4 /\ fills <> []
  end.
Definition content_std (isAdmin : bool) (type : N) (c : content) : Prop :=
  match c with
  | Plain => ~ In type [5; 8; 10; 20] /\ (isAdmin = true -> type <> 1)
  | Cteb _ eid => (length eid <= 45)%nat
  | PrevHop node svc => forall a b, decimal node a -> decimal svc b -> (length a + length b <= 39)%nat
  | Age _ => True
  | Meta code (Some (MUris l)) => type = 8 /\ code = 1 /\ l <> []
  | Meta code (Some (MGeneric _)) => type = 8 /\ code <> 1
  | Meta _ None => False
  | Admin code isfrag (Some a) => isAdmin = true /\ type = 1 /\ admin_std code isfrag a
  | Admin _ _ None => False
  end.
