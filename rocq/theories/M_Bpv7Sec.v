(** Model of the BPSec security blocks: common/bpcodec/src/codec/Bpv7BpSecExtensionBlocks.cpp (Sec7 below), in the style of
    M_Bpv7Block. The parser is given the memory from the block's data on to the end of the allocation, because it can read
    past the data. Values of parameters and results are not null pointers. *)
From Coq Require Import NArith List Bool.
From Verif Require Import Base M_SegmentAlloc M_Intrin M_Sdnv M_Cbor M_Bpv6Block M_Bpv7Crc M_Bpv7Block.
Import ListNotations.
Open Scope N_scope.

(** bpv7.h:491-508 the two value classes. *)
Inductive secval := VUint (v : N) | VBytes (d : list N).
(** bpv7.h:558-563 members of Bpv7AbstractSecurityBlock. *)
Record sec7 := mkSec7 { s_targets : list N; s_ctx : N; s_flags : N; s_source : N * N;
  s_params : list (N * secval); s_results : list (N * secval) }.

(** ** Reading *)
(** The memory from the pointer to the end of the allocation, and bufferSize. *)
Definition view := (list N * N)%type.
(** bufferSize -= k in 64 bits. *)
Definition less (n k : N) : N := (n + W64 - k mod W64) mod W64.
(** Call a reader of M_Bpv7Block with the buffer size of the view. It looks at [most] bytes at the most; if bufferSize says
    there are more bytes than the memory has, None also stands for the cases in which the bytes missing do not matter. *)
Definition vread {A : Type} (most : nat) (f : list N -> option (option (A * list N))) (v : view) : option (option (A * view)) :=
  let (mem, n) := (v : view) in
  let within := n <=? N.of_nat (length mem) in
  let bs := if within then firstn (N.to_nat n) mem else mem in
  if within || Nat.leb most (length mem) then
    try (x, rest) <- f bs;
    let k := (length bs - length rest)%nat in
    Some (Some (x, (skipn k mem, less n (N.of_nat k))))
  else None.
(** One byte read without looking at bufferSize. *)
Definition vbyte (v : view) : option (N * view) :=
  match v with (b :: r, n) => Some (b, (r, less n 1)) | ([], _) => None end.
(** Sec7:871-898 DeserializeBpv7 of a byte string; the header byte is changed and restored. *)
Definition rd_bytes (v : view) : option (option (list N * view)) :=
  if snd v =? 0 then Some None else
  match fst v with
  | [] => None
  | b :: r =>
    if negb (N.shiftr b 5 =? 2) then Some None else
    try (len, v1) <- vread 9 rd_uint (N.land b 0x1f :: r, snd v);
    let (mem, n) := (v1 : view) in
    if n <? len then Some None
    else if N.of_nat (length mem) <? len then None
    else Some (Some (firstn (N.to_nat len) mem, (skipn (N.to_nat len) mem, less n len)))
  end.
(** Sec7:486-542 the class of the value; ids are converted to enumerations of type int (bpv7.h:127-132, 179-183, 207-209,
    260-265, 284-286). Some true = unsigned integer, Some false = byte string, None = return false. *)
Definition value_class (ctx : N) (isparam : bool) (id : N) : option bool :=
  let ctx := ctx mod W32 in let id := id mod W32 in
  if isparam then
    if ctx =? 1 then if (id =? 1) || (id =? 3) then Some true else if id =? 2 then Some false else None
    else if ctx =? 2 then if (id =? 2) || (id =? 4) then Some true else if (id =? 1) || (id =? 3) then Some false else None
    else None
  else if (ctx =? 1) || (ctx =? 2) then if id =? 1 then Some false else None
  else None.
(** Sec7:543-545: the value; Sec7:837-842 for an unsigned integer. *)
Definition rd_value (isuint : bool) (v : view) : option (option (secval * view)) :=
  if isuint then try (x, v1) <- vread 9 rd_uint v; Some (Some (VUint x, v1))
  else try (d, v1) <- rd_bytes v; Some (Some (VBytes d, v1)).
(** The break code of an indefinite-length array with the check of bufferSize (Sec7:412-418, 554-563). *)
Definition rd_end (indef : bool) (v : view) : option (option (unit * view)) :=
  if indef then
    if snd v =? 0 then Some None else
    do x <- vbyte v; if fst x =? 0xff then Some (Some (tt, snd x)) else Some None
  else Some (Some (tt, v)).
(** Sec7:463-567 DeserializeIdValuePairBpv7. *)
Definition rd_pair (ctx : N) (isparam : bool) (v : view) : option (option ((N * secval) * view)) :=
  if snd v =? 0 then Some None else
  do x <- vbyte v;
  let (h, v1) := (x : N * view) in
  if negb (h =? 0x82) && negb (h =? 0x9f) then Some None else
  try (id, v2) <- vread 9 rd_uint v1;
  match value_class ctx isparam id with
  | None => Some None
  | Some isuint =>
    try (y, v3) <- rd_value isuint v2;
    try (_, v4) <- rd_end (h =? 0x9f) v3;
    Some (Some ((id, y), v4))
  end.
(** Sec7:394-411 and 440-456: the loops over the elements; no check of bufferSize before the header of a wrapped pair. *)
Fixpoint rd_pairs_loop (cnt : nat) (ctx : N) (isparam wrapped : bool) (v : view) : option (option (list (N * secval) * view)) :=
  match cnt with
  | O => Some (Some ([], v))
  | S k =>
    try (_, v1) <- (if wrapped then do x <- vbyte v; if fst x =? 0x81 then Some (Some (tt, snd x)) else Some None
                    else Some (Some (tt, v)));
    try (p, v2) <- rd_pair ctx isparam v1;
    try (ps, v3) <- rd_pairs_loop k ctx isparam wrapped v2;
    Some (Some (p :: ps, v3))
  end.
(** Sec7:262. *)
Definition maxElements : N := 1000.
(** Sec7:374-461 DeserializeIdValuePairsVecBpv7. *)
Definition rd_pairs (ctx : N) (isparam wrapped : bool) (v : view) : option (option (list (N * secval) * view)) :=
  if snd v =? 0 then Some None else
  match fst v with
  | [] => None
  | h :: r =>
    if h =? 0x9f then
      try (ps, v1) <- rd_pairs_loop (N.to_nat maxElements) ctx isparam wrapped (r, less (snd v) 1);
      try (_, v2) <- rd_end true v1;
      Some (Some (ps, v2))
    else if negb (N.shiftr h 5 =? 4) then Some None else
    try (num, v1) <- vread 9 rd_uint (N.land h 0x1f :: r, snd v);
    if maxElements <? num then Some None
    else rd_pairs_loop (N.to_nat num) ctx isparam wrapped v1
  end.
(** Sec7:261-321 Virtual_DeserializeExtensionBlockDataBpv7 of a block with m_dataLength = dlen whose data starts [mem].
    Without the flag the parameters stay those of the object ([old]). The source (Sec7:296) is parsed with m_dataLength for
    the buffer size. Its parser looks at 23 bytes at the most. *)
Definition sec7_parse (old : list (N * secval)) (mem : list N) (dlen : N) : option (option sec7) :=
  if N.of_nat (length mem) <? dlen then None else
  do t <- cbor_array_deserialize maxElements (firstn (N.to_nat dlen) mem);
  match t with
  | None => Some None
  | Some (targets, k) =>
    try (ctx, v1) <- vread 9 rd_uint (skipn (N.to_nat k) mem, less dlen k);
    try (flags, v2) <- vread 9 rd_uint v1;
    if 0x1f <? flags then Some None else
    try (src, v3) <- vread 23 eid7_read (fst v2, dlen);
    let v3 := (fst v3, less (snd v2) (less dlen (snd v3))) in
    try (params, v4) <- (if N.testbit flags 0 then rd_pairs ctx true false v3 else Some (Some (old, v3)));
    try (results, v5) <- rd_pairs ctx false true v4;
    if snd v5 =? 0 then Some (Some (mkSec7 targets ctx flags src params results)) else Some None
  end.

(** ** Writing *)
(** Sec7:831-833 and 853-867: SerializeBpv7 of a value; with too little room for the bytes it returns 0. *)
Definition value_put (scan : N -> option N) (y : secval) (w : wr) : option wr :=
  match y with
  | VUint v => put (cbor_encode scan v) w
  | VBytes d =>
    do w1 <- put (cbor_encode scan (N.of_nat (length d))) w;
    do w2 <- or_at (snd w) 0x40 w1;
    if Nat.ltb (room w2) (length d) then Some (fst w2, snd w) else put_bytes d w2
  end.
(** Sec7:339-360: the loop; [base] is the position of the beginning, where a return of 0 leaves the writer. *)
Fixpoint pairs_put_loop (scan : N -> option N) (wrapped : bool) (base : nat) (ps : list (N * secval)) (w : wr) : option wr :=
  match ps with
  | [] => Some w
  | (id, y) :: r =>
    do w1 <- (if wrapped then put_bytes [0x81] w else Some w);
    if Nat.eqb (room w1) 0 then Some (fst w1, base) else
    do w2 <- put_bytes [0x82] w1;
    do w3 <- put (cbor_encode scan id) w2;
    do w4 <- value_put scan y w3;
    pairs_put_loop scan wrapped base r w4
  end.
(** Sec7:328-362 SerializeIdValuePairsVecBpv7. *)
Definition pairs_put (scan : N -> option N) (wrapped : bool) (ps : list (N * secval)) (w : wr) : option wr :=
  do w1 <- put (cbor_encode scan (N.of_nat (length ps))) w;
  do w2 <- or_at (snd w) 0x80 w1;
  pairs_put_loop scan wrapped (snd w) ps w2.
(** Sec7:834-836 and 868-870 GetSerializationSize of a value. *)
Definition value_size (scan : N -> option N) (y : secval) : option N :=
  match y with
  | VUint v => cbor_num_bytes scan v
  | VBytes d => do n <- cbor_num_bytes scan (N.of_nat (length d)); Some (n + N.of_nat (length d))
  end.
(** Sec7:366-371. *)
Fixpoint pairs_size_loop (scan : N -> option N) (wrapped : bool) (ps : list (N * secval)) : option N :=
  match ps with
  | [] => Some 0
  | (id, y) :: r =>
    do i <- cbor_num_bytes scan id;
    do s <- value_size scan y;
    do t <- pairs_size_loop scan wrapped r;
    Some (N.b2n wrapped + i + s + t)
  end.
(** Sec7:363-373 IdValuePairsVecBpv7SerializationSize. *)
Definition pairs_size (scan : N -> option N) (wrapped : bool) (ps : list (N * secval)) : option N :=
  do h <- cbor_num_bytes scan (N.of_nat (length ps));
  do t <- pairs_size_loop scan wrapped ps;
  Some (h + N.of_nat (length ps) + t).
(** Sec7:249-259 GetCanonicalBlockTypeSpecificDataSerializationSize. *)
Definition sec7_size (scan : N -> option N) (s : sec7) : option N :=
  do t <- cbor_array_size scan (s_targets s);
  do c <- cbor_num_bytes scan (s_ctx s);
  do f <- cbor_num_bytes scan (s_flags s);
  do e <- eid7_size scan (s_source s);
  do p <- (if N.testbit (s_flags s) 0 then pairs_size scan false (s_params s) else Some 0);
  do r <- pairs_size scan true (s_results s);
  Some (t + c + f + e + p + r).
(** Sec7:118-244: the data. *)
Definition sec7_data (scan : N -> option N) (s : sec7) (w : wr) : option wr :=
  do w1 <- put (cbor_array_serialize (cbor_encode scan) (s_targets s)) w;
  do w2 <- put (cbor_encode scan (s_ctx s)) w1;
  do w3 <- put (cbor_encode scan (s_flags s)) w2;
  do w4 <- eid7_put_checked scan (s_source s) w3;
  do w5 <- (if N.testbit (s_flags s) 0 then pairs_put scan false (s_params s) w4 else Some w4);
  pairs_put scan true (s_results s) w5.
(** Sec7:109-248 SerializeBpv7; the type code is the one the block has (Sec7:695, 759: 11 or 12). *)
Definition sec7_serialize (scan : N -> option N) (hw : option N) (s : sec7) (c : canon7) : wr -> option (option (canon7 * wr)) :=
  ext7_write scan hw (c_type c) (sec7_size scan s) (fill_with (sec7_data scan s)) c.

(** ** Members *)
(** Sec7:651-671 Protected_AddOrUpdateUintValueSecurityParameter: the parameters afterwards and the result. *)
Fixpoint set_uint (id v : N) (ps : list (N * secval)) : list (N * secval) * bool :=
  match ps with
  | [] => ([(id, VUint v)], true)
  | (i, y) :: r =>
    if i =? id then match y with VUint _ => ((i, VUint v) :: r, true) | VBytes _ => ((i, y) :: r, false) end
    else let (r', b) := set_uint id v r in ((i, y) :: r', b)
  end.
(** Sec7:672-688 Protected_GetUintSecurityParameter; None = success is false. *)
Fixpoint get_uint (id : N) (ps : list (N * secval)) : option N :=
  match ps with
  | [] => None
  | (i, y) :: r => if i =? id then match y with VUint v => Some v | VBytes _ => None end else get_uint id r
  end.
(** Sec7:636-650 Protected_GetByteStringParamPtr; None = NULL. *)
Fixpoint get_bytes (id : N) (ps : list (N * secval)) : option (list N) :=
  match ps with
  | [] => None
  | (i, y) :: r => if i =? id then match y with VBytes d => Some d | VUint _ => None end else get_bytes id r
  end.
(** Sec7:616-635 Protected_AddAndGetByteStringParamPtr followed by an assignment of [d] to what the pointer points at. *)
Fixpoint set_bytes (id : N) (d : list N) (ps : list (N * secval)) : list (N * secval) * bool :=
  match ps with
  | [] => ([(id, VBytes d)], true)
  | (i, y) :: r =>
    if i =? id then match y with VBytes _ => ((i, VBytes d) :: r, true) | VUint _ => ((i, y) :: r, false) end
    else let (r', b) := set_bytes id d r in ((i, y) :: r', b)
  end.
(** Sec7:722-735 and 791-804 GetSecurityParameterScope for the parameter id 3 or 4. *)
Definition scope_of (id : N) (ps : list (N * secval)) : N := match get_uint id ps with Some v => v | None => 7 end.
(** Sec7:604-615 Protected_GetAllSecurityResultsByteStringPtrs. *)
Definition all_results (id : N) (rs : list (N * secval)) : list (list N) :=
  flat_map (fun p => if fst p =? id then match snd p with VBytes d => [d] | VUint _ => [] end else []) rs.
(** Sec7:595-603 Protected_AppendAndGetSecurityResultByteStringPtr followed by an assignment of [d]. *)
Definition add_result (id : N) (d : list N) (rs : list (N * secval)) : list (N * secval) := rs ++ [(id, VBytes d)].

(** ** Comparing *)
(** operator== of vectors. *)
Fixpoint octets_equal (a b : list N) : bool :=
  match a, b with [], [] => true | x :: a', y :: b' => (x =? y) && octets_equal a' b' | _, _ => false end.
(** Sec7:843-850 and 899-906 IsEqual of values. *)
Definition value_equal (a b : secval) : bool :=
  match a, b with VUint x, VUint y => x =? y | VBytes x, VBytes y => octets_equal x y | _, _ => false end.
(** Sec7:568-591. *)
Fixpoint pairs_equal (a b : list (N * secval)) : bool :=
  match a, b with
  | [], [] => true
  | (i, x) :: a', (j, y) :: b' => (i =? j) && value_equal x y && pairs_equal a' b'
  | _, _ => false
  end.
(** Sec7:46-63 operator==, without the comparison of the canonical blocks. *)
Definition sec7_equal (a b : sec7) : bool :=
  octets_equal (s_targets a) (s_targets b) && (s_ctx a =? s_ctx b) && (s_flags a =? s_flags b) &&
  ((fst (s_source a) =? fst (s_source b)) && (snd (s_source a) =? snd (s_source b))) &&
  (negb (N.testbit (s_flags a) 0) || pairs_equal (s_params a) (s_params b)) && pairs_equal (s_results a) (s_results b).
