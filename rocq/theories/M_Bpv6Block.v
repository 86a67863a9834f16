(** Model of the BPv6 block codecs in common/bpcodec/src/codec: Bpv6CbhePrimaryBlock.cpp (Prim below),
    Bpv6CanonicalBlock.cpp (Canon), Bpv6ExtensionBlocks.cpp (Ext), Bpv6MetadataExtensionBlock.cpp (Meta),
    Bpv6AdministrativeRecords.cpp (Admin), with the endpoint ids of Cbhe.cpp and the times of
    common/util/src/TimestampUtil.cpp (Time).
    Bytes are numbers, memory is a list of bytes. A result None is undefined behaviour (a write outside the memory
    given, or the SDNV decoder's); an inner None is a returned false or 0. The Virtual_Deserialize functions are called
    with a data pointer that is not NULL. Members left over by a failed parse are not modelled. *)
From Coq Require Import NArith List Bool.
From Verif Require Import Base M_FragmentSet M_Sdnv M_Acs M_Uri.
Import ListNotations.
Open Scope N_scope.

(** Sequencing of operations that may also return false. *)
Definition bind2 {A B : Type} (e : option (option A)) (f : A -> option (option B)) : option (option B) :=
  match e with None => None | Some None => Some None | Some (Some x) => f x end.
Notation "'try' x <- e ; f" := (bind2 e (fun x => f)) (at level 200, x pattern, e at level 100, f at level 200).

(** ** Reading *)
(** The idiom SdnvDecodeU64(serialization, &sdnvSize, bufferSize); if sdnvSize == 0 return false; advance by sdnvSize. *)
Definition rd64 (bs : list N) : option (option (N * list N)) :=
  do x <- sdnv_decode64 bs;
  if snd x =? 0 then Some None else Some (Some (fst x, skipn (N.to_nat (snd x)) bs)).
Definition rd32 (bs : list N) : option (option (N * list N)) :=
  do x <- sdnv_decode32 bs;
  if snd x =? 0 then Some None else Some (Some (fst x, skipn (N.to_nat (snd x)) bs)).
(** Time:192-212 dtn_time_t::DeserializeBpv6: (seconds, nanoseconds). *)
Definition rd_time (bs : list N) : option (option ((N * N) * list N)) :=
  try (s, r) <- rd64 bs; try (ns, r') <- rd32 r; Some (Some ((s, ns), r')).
(** Time:301-321 bpv6_creation_timestamp_t::DeserializeBpv6: (seconds, sequence number). *)
Definition rd_stamp (bs : list N) : option (option ((N * N) * list N)) :=
  try (s, r) <- rd64 bs; try (q, r') <- rd64 r; Some (Some ((s, q), r')).

(** ** Writing: the memory and the position of the write pointer in it *)
Definition wr : Type := list N * nat.
Definition room (w : wr) : nat := length (fst w) - snd w.
(** Write with a routine that is given the memory from the pointer on and says how far to advance. *)
Definition put (f : list N -> option (N * list N)) (w : wr) : option wr :=
  do x <- f (skipn (snd w) (fst w)); Some (firstn (snd w) (fst w) ++ snd x, (snd w + N.to_nat (fst x))%nat).
(** Plain bytes. *)
Definition put_bytes (d : list N) : wr -> option wr :=
  put (fun b => if Nat.leb (length d) (length b) then Some (N.of_nat (length d), d ++ skipn (length d) b) else None).
(** SdnvEncodeU64BufSize10 (writes ten bytes), SdnvEncodeU64 and SdnvEncodeU32 with the buffer size. *)
Definition put10 (v : N) : wr -> option wr := put (sdnv_encode64_fast v).
Definition put64 (v : N) : wr -> option wr := put (sdnv_encode64 v).
Definition put32 (v : N) : wr -> option wr := put (sdnv_encode32 v).
Fixpoint put10s (vs : list N) (w : wr) : option wr :=
  match vs with [] => Some w | v :: r => do w' <- put10 v w; put10s r w' end.
(** Time:175-188 and 284-297, the buffer-size versions. *)
Definition put_time (t : N * N) (w : wr) : option wr := do w1 <- put64 (fst t) w; put32 (snd t) w1.
Definition put_stamp (t : N * N) (w : wr) : option wr := do w1 <- put64 (fst t) w; put64 (snd t) w1.

(** ** Primary block *)
(** bpv6.h:94-146 Bpv6CbhePrimaryBlock; endpoint ids are (node, service). *)
Record prim := mkPrim {
  p_flags : N; p_len : N; p_dest : N * N; p_src : N * N; p_report : N * N; p_cust : N * N;
  p_time : N; p_seq : N; p_life : N; p_off : N; p_total : N }.
(** bpv6.h:65-66 ISFRAGMENT, ADMINRECORD. *)
Definition p_isfrag (flags : N) : bool := negb (N.land flags 1 =? 0).
Definition p_isadmin (flags : N) : bool := negb (N.land flags 2 =? 0).
(** Prim:106-191 DeserializeBpv6: the header and the rest of the buffer. *)
Definition prim_read (bs : list N) : option (option (prim * list N)) :=
  match bs with
  | [] => Some None
  | version :: r =>
    if negb (version =? 6) then Some None else
    do a <- sdnv_array_fast 14 r;
    match a with
    | ArrOk [flags; len; d1; d2; s1; s2; r1; r2; c1; c2; t; q; life; dict] taken =>
      if negb (dict =? 0) then Some None else
      let r1' := skipn (N.to_nat taken) r in
      if p_isfrag flags then
        do f <- sdnv_array_fast 2 r1';
        match f with
        | ArrOk [off; total] taken2 =>
          Some (Some (mkPrim flags len (d1, d2) (s1, s2) (r1, r2) (c1, c2) t q life off total, skipn (N.to_nat taken2) r1'))
        | _ => Some None
        end
      else Some (Some (mkPrim flags len (d1, d2) (s1, s2) (r1, r2) (c1, c2) t q life 0 0, r1'))
    | _ => Some None
    end
  end.
(** The numbers after the block length: Prim:202-209 (Cbhe.cpp:215-220, Time:278-283). *)
Definition prim_fields (p : prim) : list N :=
  [fst (p_dest p); snd (p_dest p); fst (p_src p); snd (p_src p); fst (p_report p); snd (p_report p);
   fst (p_cust p); snd (p_cust p); p_time p; p_seq p; p_life p].
Definition with_len (p : prim) (n : N) : prim :=
  mkPrim (p_flags p) n (p_dest p) (p_src p) (p_report p) (p_cust p) (p_time p) (p_seq p) (p_life p) (p_off p) (p_total p).
(** One byte stored behind the write pointer. *)
Definition poke (i : nat) (b : N) (w : wr) : option wr :=
  if Nat.ltb i (length (fst w)) then Some (firstn i (fst w) ++ b :: skipn (S i) (fst w), snd w) else None.
(** Prim:193-227 SerializeBpv6. A length above 127 makes it return 0. *)
Definition prim_write (p : prim) (w : wr) : option (option (prim * wr)) :=
  do w1 <- put_bytes [6] w;
  do w2 <- put10 (p_flags p) w1;
  let lenPos := snd w2 in
  let w3 : wr := (fst w2, S (snd w2)) in
  do w4 <- put10s (prim_fields p) w3;
  do w5 <- put_bytes [0] w4;
  do w6 <- (if p_isfrag (p_flags p) then put10s [p_off p; p_total p] w5 else Some w5);
  let len := N.of_nat (snd w6 - (lenPos + 1)) in
  if 127 <? len then Some None
  else do w7 <- poke lenPos (len mod 256) w6; Some (Some (with_len p len, w7)).
Fixpoint sum_sizes (vs : list N) : option N :=
  match vs with [] => Some 0 | v :: r => do a <- sdnv_num_bytes v; do b <- sum_sizes r; Some (a + b) end.
(** Prim:229-250 GetSerializationSize; inner None = 0. *)
Definition prim_size (p : prim) : option (option N) :=
  do f <- sdnv_num_bytes (p_flags p);
  do s <- sum_sizes (prim_fields p ++ if p_isfrag (p_flags p) then [p_off p; p_total p] else []);
  let size := 3 + f + s in
  if 127 <? size - (f + 2) then Some None else Some (Some size).

(** ** Administrative records *)
(** bpv6.h Bpv6AdministrativeRecordContentBundleStatusReport; times are (seconds, nanoseconds) in the order of the
    status flag bits: receipt, custody acceptance, forwarding, delivery, deletion. *)
Record status_report := mkStatus {
  sr_flags : N; sr_reason : N; sr_isfrag : bool; sr_off : N; sr_flen : N; sr_times : list (N * N);
  sr_stamp : N * N; sr_eid : list N }.
(** bpv6.h Bpv6AdministrativeRecordContentCustodySignal. *)
Record custody_signal := mkSignal {
  cs_status : N; cs_isfrag : bool; cs_off : N; cs_flen : N; cs_time : N * N; cs_stamp : N * N; cs_eid : list N }.
Inductive admin_content :=
| AStatus (s : status_report)
| ASignal (s : custody_signal)
| AAggregate (status : N) (fills : fset).

(** Admin:396-410 and 673-687. *)
Definition rd_frag (isfrag : bool) (bs : list N) : option (option ((N * N) * list N)) :=
  if isfrag then rd_stamp bs else Some (Some ((0, 0), bs)).
(** Admin:412-446: the time of flag bit [i] if it is set. *)
Definition rd_time_if (flags i : N) (bs : list N) : option (option ((N * N) * list N)) :=
  if negb (N.land (2 ^ i) flags =? 0) then rd_time bs else Some (Some ((0, 0), bs)).
(** Admin:455-470 and 702-717. *)
Definition rd_eid (bs : list N) : option (option (list N * list N)) :=
  try (len, r) <- rd32 bs;
  if (65535 <? len) || (len <? 5) then Some None else
  if N.of_nat (length r) <? len then Some None else
  Some (Some (firstn (N.to_nat len) r, skipn (N.to_nat len) r)).
(** Admin:384-475. *)
Definition status_read (isfrag : bool) (bs : list N) : option (option (status_report * list N)) :=
  match bs with
  | flags :: reason :: r =>
    try (fr, r1) <- rd_frag isfrag r;
    try (t0, r2) <- rd_time_if flags 0 r1;
    try (t1, r3) <- rd_time_if flags 1 r2;
    try (t2, r4) <- rd_time_if flags 2 r3;
    try (t3, r5) <- rd_time_if flags 3 r4;
    try (t4, r6) <- rd_time_if flags 4 r5;
    try (st, r7) <- rd_stamp r6;
    try (eid, r8) <- rd_eid r7;
    Some (Some (mkStatus flags reason isfrag (fst fr) (snd fr) [t0; t1; t2; t3; t4] st eid, r8))
  | _ => Some None
  end.
(** Admin:662-722. *)
Definition signal_read (isfrag : bool) (bs : list N) : option (option (custody_signal * list N)) :=
  match bs with
  | status :: r =>
    try (fr, r1) <- rd_frag isfrag r;
    try (t, r2) <- rd_time r1;
    try (st, r3) <- rd_stamp r2;
    try (eid, r4) <- rd_eid r3;
    Some (Some (mkSignal status isfrag (fst fr) (snd fr) t st eid, r4))
  | _ => Some None
  end.
(** Admin:94-142 Virtual_DeserializeExtensionBlockDataBpv6: (type code, isFragment, content). [last] is the lookup
    variant of the aggregate signal's fragment set (see M_FragmentSet). *)
Definition admin_read (last : bool) (data : list N) : option (option (N * bool * option admin_content)) :=
  match data with
  | [] => Some None
  | h :: r =>
    let code := N.shiftr h 4 in
    let isfrag := negb (N.land h 1 =? 0) in
    if code =? 1 then
      try (s, rest) <- status_read isfrag r;
      match rest with [] => Some (Some (code, isfrag, Some (AStatus s))) | _ => Some None end
    else if code =? 2 then
      try (s, rest) <- signal_read isfrag r;
      match rest with [] => Some (Some (code, isfrag, Some (ASignal s))) | _ => Some None end
    else if code =? 4 then
      try (x, taken) <- acs_deserialize last r;
      if taken =? N.of_nat (length r) then Some (Some (code, isfrag, Some (AAggregate (fst x) (snd x)))) else Some None
    else Some None
  end.

(** Admin:335-353 and 627-645. A return of 0 is ignored by the caller (79-84), so only the bytes written matter. *)
Definition put_eid (eid : list N) (w : wr) : option wr :=
  let len := N.of_nat (length eid) mod W32 in
  let copy (w1 : wr) := if Nat.ltb (room w1) (N.to_nat len) then Some w1 else put_bytes (firstn (N.to_nat len) eid) w1 in
  if len <=? 127 then
    if Nat.eqb (room w) 0 then Some w else do w1 <- put_bytes [len] w; copy w1
  else do w1 <- put32 len w; copy w1.
(** Admin:296-304 and 608-616. *)
Definition put_frag (isfrag : bool) (off len : N) (w : wr) : option wr :=
  if isfrag then do w1 <- put64 off w; put64 len w1 else Some w.
(** Admin:305-329. *)
Fixpoint put_times (flags i : N) (ts : list (N * N)) (w : wr) : option wr :=
  match ts with
  | [] => Some w
  | t :: r =>
    do w1 <- (if negb (N.land (2 ^ i) flags =? 0) then put_time t w else Some w);
    put_times flags (i + 1) r w1
  end.
(** Admin:259-355. *)
Definition status_write (s : status_report) (w : wr) : option wr :=
  if Nat.ltb (room w) 2 then Some w else
  do w1 <- put_bytes [sr_flags s; sr_reason s] w;
  do w2 <- put_frag (sr_isfrag s) (sr_off s) (sr_flen s) w1;
  do w3 <- put_times (sr_flags s) 0 (sr_times s) w2;
  do w4 <- put_stamp (sr_stamp s) w3;
  put_eid (sr_eid s) w4.
(** Admin:579-647. *)
Definition signal_write (s : custody_signal) (w : wr) : option wr :=
  if Nat.ltb (room w) 1 then Some w else
  do w1 <- put_bytes [cs_status s] w;
  do w2 <- put_frag (cs_isfrag s) (cs_off s) (cs_flen s) w1;
  do w3 <- put_time (cs_time s) w2;
  do w4 <- put_stamp (cs_stamp s) w3;
  put_eid (cs_eid s) w4.
(** Admin:60-85, the part after the canonical header; inner None = returned 0. *)
Definition admin_write (code : N) (isfrag : bool) (c : option admin_content) (w : wr) : option (option wr) :=
  if Nat.eqb (room w) 0 then Some None else
  do w1 <- put_bytes [N.lor (N.shiftl code 4 mod 256) (N.b2n isfrag)] w;
  do w2 <- match c with
           | None => Some w1
           | Some (AStatus s) => status_write s w1
           | Some (ASignal s) => signal_write s w1
           | Some (AAggregate st fills) => put (acs_serialize st fills) w1
           end;
  Some (Some w2).
(** Admin:362-376. *)
Fixpoint times_size (flags i : N) (ts : list (N * N)) : option N :=
  match ts with
  | [] => Some 0
  | t :: r =>
    do a <- (if negb (N.land (2 ^ i) flags =? 0) then sum_sizes [fst t; snd t] else Some 0);
    do b <- times_size flags (i + 1) r; Some (a + b)
  end.
(** Admin:356-382 and 648-660 GetSerializationSize (816-818 for the aggregate signal), with the type byte of 87-90. *)
Definition admin_size (c : option admin_content) : option N :=
  match c with
  | None => Some 1
  | Some (AStatus s) =>
    do f <- (if sr_isfrag s then sum_sizes [sr_off s; sr_flen s] else Some 0);
    do t <- times_size (sr_flags s) 0 (sr_times s);
    do st <- sum_sizes [fst (sr_stamp s); snd (sr_stamp s); N.of_nat (length (sr_eid s))];
    Some (1 + (2 + f + t + st + N.of_nat (length (sr_eid s))))
  | Some (ASignal s) =>
    do f <- (if cs_isfrag s then sum_sizes [cs_off s; cs_flen s] else Some 0);
    do t <- sum_sizes [fst (cs_time s); snd (cs_time s)];
    do st <- sum_sizes [fst (cs_stamp s); snd (cs_stamp s); N.of_nat (length (cs_eid s))];
    Some (1 + (1 + f + t + st + N.of_nat (length (cs_eid s))))
  | Some (AAggregate _ fills) => do n <- acs_size fills; Some (1 + n)
  end.

(** ** Metadata *)
Inductive meta_content := MUris (l : list (N * N)) | MGeneric (d : list N).
(** Meta:233-251; every round takes at least one byte, [fuel] bounds the rounds. *)
Fixpoint uris_read (fuel : nat) (bs : list N) : option (option (list (N * N))) :=
  match fuel with
  | O => None
  | S f =>
    match parse_uri_cstring false bs with
    | Some (n, (node, Svc svc)) =>
      match skipn (N.to_nat n) bs with
      | [] => Some (Some [(node, svc)])
      | r => try l <- uris_read f r; Some (Some ((node, svc) :: l))
      end
    | _ => Some None
    end
  end.
(** Meta:106-148 Virtual_DeserializeExtensionBlockDataBpv6 (generic content: 296-300): (type code, content). *)
Definition meta_read (data : list N) : option (option (N * option meta_content)) :=
  try (code, r) <- rd64 data;
  if code =? 1 then try l <- uris_read (S (length r)) r; Some (Some (code, Some (MUris l)))
  else Some (Some (code, Some (MGeneric r))).
(** Meta:188-223. *)
Fixpoint uris_write (l : list (N * N)) (w : wr) : option wr :=
  match l with
  | [] => Some w
  | (node, svc) :: r => do w1 <- put (fun b => Some (uri_write node svc b)) w; uris_write r w1
  end.
(** Meta:57-98, the part after the canonical header, with 188-223 and 286-292. *)
Definition meta_write (code : N) (c : option meta_content) (w : wr) : option wr :=
  do w1 <- put64 code w;
  match c with
  | None => Some w1
  | Some (MUris l) => uris_write l w1
  | Some (MGeneric d) => if Nat.ltb (room w1) (length d) then Some w1 else put_bytes d w1
  end.
(** Meta:224-231. *)
Fixpoint uris_size (l : list (N * N)) : option N :=
  match l with
  | [] => Some 0
  | (node, svc) :: r => do a <- uri_cstring_len node svc; do b <- uris_size r; Some (a + b)
  end.
(** Meta:100-103, 224-231, 293-295. *)
Definition meta_size (code : N) (c : option meta_content) : option N :=
  do a <- sdnv_num_bytes code;
  do b <- match c with None => Some 0 | Some (MUris l) => uris_size l | Some (MGeneric d) => Some (N.of_nat (length d)) end;
  Some (a + b).

(** ** Canonical blocks *)
(** The class of a block with its own members. *)
Inductive content :=
| Plain
| Cteb (custodyId : N) (eid : list N)
| PrevHop (node svc : N)
| Age (microseconds : N)
| Meta (code : N) (c : option meta_content)
| Admin (code : N) (isfrag : bool) (c : option admin_content).
(** bpv6.h:185-223 Bpv6CanonicalBlock. [k_data] is what m_blockTypeSpecificDataPtr points to, None = NULL. *)
Record block := mkBlock { k_type : N; k_flags : N; k_len : N; k_data : option (list N); k_content : content }.

(** Ext:92-113, 208-222, 319-326 and the above: Virtual_DeserializeExtensionBlockDataBpv6 of the class that Canon:173-213
    creates for the type code. *)
Definition content_read (last isAdmin : bool) (type : N) (data : list N) : option (option content) :=
  if isAdmin && (type =? 1) then
    try (code, isfrag, c) <- admin_read last data; Some (Some (Admin code isfrag c))
  else if type =? 5 then
    let n := length data in
    if Nat.ltb n 7 || negb (nth 0 data 0 =? 105) || negb (nth 1 data 0 =? 112) || negb (nth 2 data 0 =? 110) ||
       negb (nth 3 data 0 =? 0) || negb (nth (n - 1) data 0 =? 0) then Some None else
    if Nat.ltb 45 n then Some None else
    match parse_ssp false (firstn (n - 5) (skipn 4 data)) with
    | Some (node, Svc svc) => Some (Some (PrevHop node svc))
    | _ => Some None
    end
  else if type =? 8 then
    try (code, c) <- meta_read data; Some (Some (Meta code c))
  else if type =? 10 then
    try (id, r) <- rd64 data;
    if Nat.ltb 45 (length r) then Some None else Some (Some (Cteb id r))
  else if type =? 20 then
    try (v, r) <- rd64 data;
    match r with [] => Some (Some (Age v)) | _ => Some None end
  else Some (Some Plain).
(** Canon:148-258 DeserializeBpv6: type, flags, data and the rest of the buffer. (Recycled block objects are of the
    class their type code asks for; what they held before is overwritten.) *)
Definition header_read (bs : list N) : option (option ((N * N * list N) * list N)) :=
  match bs with
  | type :: f :: r =>
    try (flags, r1) <- (if f <=? 127 then Some (Some (f, r)) else rd64 (f :: r));
    try (len, r2) <- rd64 r1;
    if N.of_nat (length r2) <? len then Some None else
    Some (Some ((type, flags, firstn (N.to_nat len) r2), skipn (N.to_nat len) r2))
  | _ => Some None
  end.

(** GetCanonicalBlockTypeSpecificDataSerializationSize: Canon:144-146, Ext:88-90, 200-206, 315-317, Meta:100-103,
    Admin:87-90. *)
Definition data_size (b : block) : option N :=
  match k_content b with
  | Plain => Some (k_len b)
  | Cteb id eid => do a <- sdnv_num_bytes id; Some (a + N.of_nat (length eid))
  | PrevHop node svc => do a <- uint_len node; do c <- uint_len svc; Some (4 + a + 1 + c + 1)
  | Age v => sdnv_num_bytes v
  | Meta code c => meta_size code c
  | Admin _ _ c => admin_size c
  end.
(** Canon:135-142 GetSerializationSize. *)
Definition block_size (b : block) : option N :=
  do f <- sdnv_num_bytes (k_flags b);
  do d <- data_size b;
  do l <- sdnv_num_bytes d;
  Some (1 + f + l + d).
(** Canon:98-117: type, flags and data length. *)
Definition head_write (type flags len : N) (w : wr) : option wr :=
  do w1 <- put_bytes [type] w;
  do w2 <- (if flags <=? 127 then put_bytes [flags] w1 else put10 flags w1);
  put10 len w2.
(** The class's part of SerializeBpv6, given the space for the data (Ext:70-86, 179-198, 304-313); inner None = returned 0. *)
Definition data_write (c : content) (w : wr) : option (option wr) :=
  match c with
  | Plain => Some (Some w)
  | Cteb id eid =>
    do w1 <- put64 id w;
    if Nat.ltb (room w1) (length eid) then Some None else do w2 <- put_bytes eid w1; Some (Some w2)
  | PrevHop node svc =>
    let s := uri_string node svc in
    if negb (Nat.eqb (room w) (length s + 1)) then Some None else
    do w1 <- put_bytes s w; do w2 <- poke (snd w + 3) 0 w1; do w3 <- poke (snd w + length s) 0 w2; Some (Some w3)
  | Age v => do w1 <- put64 v w; Some (Some w1)
  | Meta code m => do w1 <- meta_write code m w; Some (Some w1)
  | Admin code isfrag a => admin_write code isfrag a w
  end.
(** The type and flags SerializeBpv6 sets first: Ext:65, 173-174, 298-299. *)
Definition fixed_type (b : block) : N :=
  match k_content b with Cteb _ _ => 10 | PrevHop _ _ => 5 | Age _ => 20 | _ => k_type b end.
Definition fixed_flags (b : block) : N :=
  match k_content b with PrevHop _ _ => N.lor (k_flags b) 16 | Age _ => N.lor (k_flags b) 1 | _ => k_flags b end.
(** Canon:85-133 and the overriding SerializeBpv6: the block afterwards and the writer; inner None = returned 0. The
    memory the write pointer skips over (data pointer NULL) must exist. *)
Definition block_write (b : block) (w : wr) : option (option (block * wr)) :=
  match k_content b with
  | Plain =>
    do w1 <- head_write (k_type b) (k_flags b) (k_len b) w;
    let n := N.to_nat (k_len b) in
    match k_data b with
    | Some d => if Nat.ltb (length d) n then None
                else do w2 <- put_bytes (firstn n d) w1; Some (Some (mkBlock (k_type b) (k_flags b) (k_len b) (Some (firstn n d)) Plain, w2))
    | None => if Nat.ltb (room w1) n then None
              else Some (Some (mkBlock (k_type b) (k_flags b) (k_len b) (Some (firstn n (skipn (snd w1) (fst w1)))) Plain, (fst w1, (snd w1 + n)%nat)))
    end
  | c =>
    let type := fixed_type b in
    let flags := fixed_flags b in
    do len <- data_size b;
    do w1 <- head_write type flags len w;
    let n := N.to_nat len in
    if Nat.ltb (room w1) n then None else
    try w2 <- data_write c (firstn n (skipn (snd w1) (fst w1)), O);
    do w3 <- put_bytes (fst w2) w1;
    Some (Some (mkBlock type flags len (Some (fst w2)) c, w3))
  end.
