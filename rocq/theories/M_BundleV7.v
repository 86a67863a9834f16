(** Model of common/bpcodec/src/codec/BundleViewV7.cpp (Cpp below): loading, editing and rendering a BPv7 bundle, in the
    style of M_Bpv7Block and M_BundleV6. Buffers the view points into are modelled by the bytes they hold, with a flag that
    is false once they have been freed. [hw] stands for the addresses of all blocks (by C44 the address does not matter).
    Sizes are those of memory: sums of them do not wrap. Not modelled: the recycling of block objects, except that members
    found in an object when the bytes carry none are arbitrary; m_applicationDataUnitStartPtr; the pointers in
    m_mapEncryptedBlockNumberToBcbPtr; the object after a failed Load or a failed Render(maxBundleSizeBytes). *)
From Coq Require Import NArith List Bool.
From Verif Require Import Base M_SegmentAlloc M_Intrin M_Sdnv M_Cbor M_Bpv6Block M_Bpv7Crc M_Bpv7Block M_Bpv7Admin M_Bpv7Sec.
Import ListNotations.
Open Scope N_scope.

(** The class of a block object with its members: plain block (also: a block not parsed because it is encrypted), extension
    block, security block, administrative record. *)
Inductive content7 := CPlain | CExt (x : ext7) | CSec (s : sec7) | CAdmin (a : admin7).
(** BundleViewV7.h:90-96 Bpv7CanonicalBlockView: headerPtr, actualSerializedBlockPtr with whether the memory is alive, dirty,
    markedForDeletion, isEncrypted. *)
Record cbv7 := mkCbv7 { k_c : canon7; k_x : content7; k_actual : list N; k_live : bool; k_dirty : bool; k_del : bool; k_enc : bool }.
(** BundleViewV7.h:83-86, 129-147: primary block with its serialization, the blocks, m_nextFreeCanonicalBlockNumberMask, the
    keys of m_mapEncryptedBlockNumberToBcbPtr, m_renderedBundle. *)
Record bview7 := mkBview7 { w_prim : prim7; w_pactual : list N; w_plive : bool; w_pdirty : bool; w_blocks : list cbv7; w_mask : N; w_enc : list N; w_bytes : list N }.
(** Members found in an object: security parameters, status report. *)
Definition leftovers := (list (N * secval) * bsr7)%type.
Definition with_blocks7 (v : bview7) (l : list cbv7) (mask : N) : bview7 :=
  mkBview7 (w_prim v) (w_pactual v) (w_plive v) (w_pdirty v) l mask (w_enc v) (w_bytes v).

(** ** Block numbers *)
(** Cpp:429-442 ReserveBlockNumber, 443-452 FreeBlockNumber. *)
Definition reserve7 (n m : N) : N := if n <=? 63 then N.ldiff m (N.shiftl 1 n) else m.
Definition free7 (n m : N) : N := if n <=? 63 then N.lor m (N.shiftl 1 n) else m.
(** boost find_lsb of a number that is not zero. *)
Fixpoint ctz (p : positive) : N := match p with xO q => N.succ (ctz q) | _ => 0 end.
(** Cpp:464-470. *)
Fixpoint largest7 (l : list cbv7) (n : N) : N :=
  match l with [] => n | b :: r => largest7 r (if n <? c_num (k_c b) then c_num (k_c b) else n) end.
(** Cpp:453-473 GetNextFreeCanonicalBlockNumber. *)
Definition next_free7 (v : bview7) : N :=
  match w_mask v with 0 => (largest7 (w_blocks v) 63 + 1) mod W64 | Npos p => ctz p end.
(** Cpp:53. *)
Definition free_init : N := W64 - 1 - 3.
Definition free_all (l : list cbv7) (m : N) : N := fold_left (fun m b => free7 (c_num (k_c b)) m) l m.

(** ** Loading *)
(** Bpv7CanonicalBlock.cpp:326-361 (the class) and Virtual_DeserializeExtensionBlockDataBpv7 of the class, which is
    Bpv7CanonicalBlock.cpp:547-549 for a plain block. [mem] = memory from the data on. *)
Definition content7_parse (old : leftovers) (isAdmin : bool) (type : N) (mem data : list N) : option (option content7) :=
  if isAdmin && (type =? 1) then try a <- admin7_parse (snd old) data; Some (Some (CAdmin a))
  else if (type =? 6) || (type =? 7) || (type =? 10) || (type =? 13) then try x <- ext7_parse type data; Some (Some (CExt x))
  else if (type =? 11) || (type =? 12) then try s <- sec7_parse (fst old) mem (N.of_nat (length data)); Some (Some (CSec s))
  else Some (Some CPlain).
(** Cpp:126-137: the targets of a BCB enter the map; None = one is there already. *)
Fixpoint add_targets (ts keys : list N) : option (list N) :=
  match ts with
  | [] => Some keys
  | t :: r => if existsb (N.eqb t) keys then None else add_targets r (keys ++ [t])
  end.
(** A block between the two loops of Load: the block, the bytes, the memory from the data on, the members of a BCB. *)
Record raw7 := mkRaw7 { r_c : canon7; r_actual : list N; r_mem : list N; r_bcb : option sec7 }.
Definition crc_length (ct : N) : nat := if ct =? 1 then 3 else if ct =? 2 then 5 else 0.
Definition data_of (c : canon7) : list N := match c_data c with Some d => d | None => [] end.
(** Cpp:104-164: the loop over the blocks; a block takes at least six bytes, [fuel] bounds the rounds. [i] = number of the
    block in the list, [beyond] = memory behind the bundle. *)
Fixpoint load_blocks7 (skip : bool) (hw : option N) (old : nat -> leftovers) (beyond : list N) (fuel i : nat) (keys bs : list N)
  : option (option (list raw7 * list N)) :=
  match fuel with
  | O => None
  | S f =>
    do x <- canon7_read skip hw bs;
    match x with
    | (_, None) => Some None
    | (bs', Some (c, n)) =>
      let rest := skipn n bs' in
      let mem := skipn (n - crc_length (c_crctype c) - N.to_nat (c_len c)) bs' ++ beyond in
      try (bcb, keys') <- (if c_type c =? 12 then
          try s <- sec7_parse (fst (old i)) mem (c_len c);
          match add_targets (s_targets s) keys with None => Some None | Some k => Some (Some (Some s, k)) end
        else Some (Some (None, keys)));
      let r := mkRaw7 c (firstn n bs') mem bcb in
      if c_type c =? 1 then
        if negb (c_num c =? 1) then Some None else
        match rest with
        | [b] => if b =? 0xff then Some (Some ([r], keys')) else Some None
        | _ => Some None
        end
      else
        match rest with
        | [] => Some None
        | _ => try (l, k) <- load_blocks7 skip hw old beyond f (S i) keys' rest; Some (Some (r :: l, k))
        end
    end
  end.
(** Cpp:166-174: the second loop. *)
Fixpoint finish7 (old : nat -> leftovers) (isAdmin : bool) (keys : list N) (i : nat) (l : list raw7) : option (option (list cbv7)) :=
  match l with
  | [] => Some (Some [])
  | r :: l' =>
    let c := r_c r in
    let enc := negb (c_type c =? 12) && existsb (N.eqb (c_num c)) keys in
    try x <- (match r_bcb r with
              | Some s => Some (Some (CSec s))
              | None => if enc then Some (Some CPlain) else content7_parse (old i) isAdmin (c_type c) (r_mem r) (data_of c)
              end);
    try t <- finish7 old isAdmin keys (S i) l';
    Some (Some (mkCbv7 c x (r_actual r) true false false enc :: t))
  end.
(** Prim7:91-104 SetZero. *)
Definition zero_prim7 : prim7 := mkPrim7 0 (0, 0) (0, 0) (0, 0) (0, 0) 0 0 0 (0, 0) 0.
(** Cpp:57-176 Load of [bs] after Reset (Cpp:533-559), that is LoadBundle, SwapInAndLoadBundle, CopyAndLoadBundle (495-511). *)
Definition load7 (skip : bool) (hw : option N) (old : nat -> leftovers) (beyond : list N) (primaryOnly : bool) (bs : list N) : option (option bview7) :=
  match bs with
  | [] => Some None
  | h :: r =>
    if negb (h =? 0x9f) then Some None else
    do x <- prim7_read hw zero_prim7 r;
    match x with
    | (_, None) => Some None
    | (r', Some (p, n)) =>
      if q_isfrag (q_flags p) then Some None else
      if primaryOnly then Some (Some (mkBview7 p (firstn n r') true false [] free_init [] bs)) else
      try (l, keys) <- load_blocks7 skip hw old beyond (S (length r')) 0 [] (skipn n r');
      try bl <- finish7 old (q_isadmin (q_flags p)) keys 0 l;
      Some (Some (mkBview7 p (firstn n r') true false bl (fold_left (fun m b => reserve7 (c_num (k_c b)) m) bl free_init) keys bs))
    end
  end.

(** ** Rendering *)
(** headerPtr->SerializeBpv7, of the base class if the block is encrypted (Cpp:295-300). *)
Definition block7_write (scan : N -> option N) (hw : option N) (b : cbv7) (w : wr) : option (option (canon7 * wr)) :=
  match (if k_enc b then CPlain else k_x b) with
  | CPlain => if k_live b then try (x, w1) <- canon7_write scan hw (k_c b) w; Some (Some (fst x, w1)) else None
  | CExt x => ext7_serialize scan hw x (k_c b) w
  | CSec s => sec7_serialize scan hw s (k_c b) w
  | CAdmin a => admin7_serialize scan hw a (k_c b) w
  end.
(** bpv7.h:366-374. *)
Definition smallestSerializedCanonicalSize : nat := 6.
(** The bytes written between two states of a writer. *)
Definition between (w w1 : wr) : list N := firstn (snd w1 - snd w) (skipn (snd w) (fst w1)).
(** Cpp:273-318: the loop over the blocks that are left: the blocks afterwards and, unless it fails, the writer and whether it
    stopped before the last block. [alive] = whether the memory written to is still there when it matters. *)
Fixpoint render_blocks7 (scan : N -> option N) (hw : option N) (alive term : bool) (l : list cbv7) (w : wr)
  : option (list cbv7 * option (wr * bool)) :=
  match l with
  | [] => Some ([], Some (w, false))
  | b :: r =>
    let last := match r with [] => true | _ => false end in
    if last && negb ((c_type (k_c b) =? 1) && (c_num (k_c b) =? 1)) then Some (l, None)
    else if last && term then if k_dirty b then Some (l, None) else Some (l, Some (w, true))
    else if k_dirty b then
      do x <- block7_write scan hw b w;
      match x with
      | None => Some (l, None)
      | Some (c, w1) =>
        if Nat.ltb (snd w1 - snd w) smallestSerializedCanonicalSize then Some (l, None) else
        do y <- render_blocks7 scan hw alive term r w1;
        Some (mkCbv7 c (k_x b) (between w w1) alive false (k_del b) (k_enc b) :: fst y, snd y)
      end
    else if k_live b then
      do w1 <- put_bytes (k_actual b) w;
      do y <- render_blocks7 scan hw alive term r w1;
      Some (mkCbv7 (k_c b) (k_x b) (k_actual b) alive false (k_del b) (k_enc b) :: fst y, snd y)
    else None
  end.
(** Cpp:231-322 Render(uint8_t*, uint64_t&, bool): the view afterwards and, unless false was returned, the writer. *)
Definition render_at7 (scan : N -> option N) (hw : option N) (alive term : bool) (v : bview7) (w : wr) : option (bview7 * option wr) :=
  do w0 <- put_bytes [0x9f] w;
  do x <- (if w_pdirty v
    then do y <- prim7_write scan hw (w_prim v) w0; Some (option_map (fun z : prim7 * wr => (fst z, between w0 (snd z), snd z)) y)
    else if w_plive v then do w1 <- put_bytes (w_pactual v) w0; Some (Some (w_prim v, w_pactual v, w1))
    else None);
  match x with
  | None => Some (v, None)
  | Some (p, pa, w1) =>
    let v1 := mkBview7 p pa alive false (w_blocks v) (w_mask v) (w_enc v) (w_bytes v) in
    if q_isfrag (q_flags p) then Some (v1, None) else
    let m := free_all (filter k_del (w_blocks v)) (w_mask v) in
    do y <- render_blocks7 scan hw alive term (filter (fun b => negb (k_del b)) (w_blocks v)) w1;
    let v2 := with_blocks7 v1 (fst y) m in
    match snd y with
    | None => Some (v2, None)
    | Some (w2, true) => Some (v2, Some w2)
    | Some (w2, false) => do w3 <- put_bytes [0xff] w2; Some (v2, Some w3)
    end
  end.
Definition with_bytes7 (v : bview7) (bytes : list N) : bview7 :=
  mkBview7 (w_prim v) (w_pactual v) (w_plive v) (w_pdirty v) (w_blocks v) (w_mask v) (w_enc v) bytes.
(** Cpp:177-188 Render(maxBundleSizeBytes); [mem], [junk] and the two ways to succeed as in M_BundleV6.render: [mem] is the
    capacity of m_backBuffer after resize(maxSize) and 32 bytes of padding (PaddedVectorUint8.h:31-60). *)
Inductive rendered7 := Rendered7 (v : bview7) | RenderedMoved7 (bytes : list N).
Definition render7 (scan : N -> option N) (hw : option N) (v : bview7) (maxSize : nat) (mem junk : list N) : option (option rendered7) :=
  if Nat.eqb maxSize 0 || Nat.ltb (length mem) (maxSize + 32) then None else
  do x <- render_at7 scan hw true false v (mem, O);
  match x with
  | (_, None) => Some None
  | (v', Some w) =>
    if Nat.leb (snd w) (length mem - 32) then Some (Some (Rendered7 (with_bytes7 v' (firstn (snd w) (fst w)))))
    else Some (Some (RenderedMoved7 (firstn maxSize (fst w) ++ firstn (snd w - maxSize) junk)))
  end.

(** headerPtr->GetSerializationSize(isEncrypted), Bpv7CanonicalBlock.cpp:221-234. *)
Definition block7_size (scan : N -> option N) (b : cbv7) : option N :=
  do n <- (match (if k_enc b then CPlain else k_x b) with
           | CPlain => Some (c_len (k_c b))
           | CExt x => ext7_size scan x
           | CSec s => sec7_size scan s
           | CAdmin a => admin7_size scan a
           end);
  canon7_size scan (k_c b) n.
(** Cpp:336-356. *)
Fixpoint blocks_size7 (scan : N -> option N) (l : list cbv7) : option (option N) :=
  match l with
  | [] => Some (Some 0)
  | b :: r =>
    let last := match r with [] => true | _ => false end in
    if last && negb (c_type (k_c b) =? 1) then Some None else
    try n <- (if k_del b then Some (Some 0)
              else if k_dirty b then do n <- block7_size scan b; (if n <? N.of_nat smallestSerializedCanonicalSize then Some None else Some (Some n))
              else Some (Some (N.of_nat (length (k_actual b)))));
    try m <- blocks_size7 scan r; Some (Some (n + m))
  end.
(** Cpp:323-358 GetSerializationSize. *)
Definition view7_size (scan : N -> option N) (v : bview7) : option (option N) :=
  try p <- (if w_pdirty v then do n <- prim7_size scan (w_prim v); (if n =? 0 then Some None else Some (Some n))
            else Some (Some (N.of_nat (length (w_pactual v)))));
  try n <- blocks_size7 scan (w_blocks v); Some (Some (2 + p + n)).

(** Cpp:191-230 RenderInPlace(paddingLeft): the view and the memory afterwards, and the value returned. [pad] is the memory
    before the bundle; the memory of the bundle is the view's w_bytes, and the last block's bytes are taken to be where Load
    found them. The temporary vector is freed at the end: after a failure the blocks written to it point to freed memory. *)
Definition render_in_place7 (scan : N -> option N) (hw : option N) (v : bview7) (paddingLeft : N) (pad : list N) : option (bview7 * list N * bool) :=
  let mem := pad ++ w_bytes v in
  let failed := Some (v, mem, false) in
  do s <- view7_size scan v;
  match s with
  | None => failed
  | Some newSize =>
    match rev (w_blocks v) with
    | [] => failed
    | pl :: _ =>
      let oldSize := N.of_nat (length (w_bytes v)) in
      let plSize := N.of_nat (length (k_actual pl)) in
      if (oldSize <? newSize) && (paddingLeft <? newSize - oldSize) then failed else
      if N.of_nat (length mem) <? newSize then None else
      let start := (length mem - N.to_nat newSize)%nat in
      let space := ((if oldSize <? newSize then newSize else oldSize) + W64 - plSize + 10) mod W64 in
      let tmp := repeat 0 (N.to_nat space) in
      do x <- render_at7 scan hw true true v (tmp, O);
      match x with
      | (_, None) => do y <- render_at7 scan hw false true v (tmp, O); Some (fst y, mem, false)
      | (v1, Some _) =>
        do y <- render_at7 scan hw true true v1 (mem, start);
        match y with
        | (_, None) => do z <- render_at7 scan hw false true v (tmp, O); Some (fst z, mem, false)
        | (v2, Some w) => Some (with_bytes7 v2 (firstn (N.to_nat newSize) (skipn start (fst w))), fst w, true)
        end
      end
    end
  end.

(** ** Editing *)
Definition fresh7 (c : canon7) (x : content7) : cbv7 := mkCbv7 c x [] true true false false.
(** Cpp:360-367 AppendMoveCanonicalBlock, 368-375 PrependMoveCanonicalBlock. *)
Definition append7 (c : canon7) (x : content7) (v : bview7) : bview7 := with_blocks7 v (w_blocks v ++ [fresh7 c x]) (reserve7 (c_num c) (w_mask v)).
Definition prepend7 (c : canon7) (x : content7) (v : bview7) : bview7 := with_blocks7 v (fresh7 c x :: w_blocks v) (reserve7 (c_num c) (w_mask v)).
(** Cpp:376-388 InsertMoveCanonicalBlockAfterBlockNumber, 389-401 InsertMoveCanonicalBlockBeforeBlockNumber; None = false. *)
Fixpoint insert_at (after : bool) (n : N) (b : cbv7) (l : list cbv7) : option (list cbv7) :=
  match l with
  | [] => None
  | x :: r => if c_num (k_c x) =? n then Some (if after then x :: b :: r else b :: x :: r)
              else option_map (cons x) (insert_at after n b r)
  end.
Definition insert7 (after : bool) (c : canon7) (x : content7) (n : N) (v : bview7) : option bview7 :=
  option_map (fun l => with_blocks7 v l (reserve7 (c_num c) (w_mask v))) (insert_at after n (fresh7 c x) (w_blocks v)).
(** Cpp:474-494 DeleteAllCanonicalBlocksByType: (view, returned count). *)
Definition delete_type7 (t : N) (v : bview7) : bview7 * N :=
  let is_t b := c_type (k_c b) =? t in
  (with_blocks7 v (filter (fun b => negb (is_t b)) (w_blocks v)) (free_all (filter is_t (w_blocks v)) (w_mask v)),
   N.of_nat (length (filter is_t (w_blocks v)))).
(** Cpp:403-409 GetCanonicalBlockCountByType, 413-420 GetCanonicalBlocksByType, 421-428 GetCanonicalBlockByBlockNumber, 512-517 IsValid,
    519-531 GetPayloadSize (None = false). *)
Definition by_type7 (t : N) (v : bview7) : list cbv7 := filter (fun b => c_type (k_c b) =? t) (w_blocks v).
Definition count_type7 (t : N) (v : bview7) : N := N.of_nat (length (by_type7 t v)).
Definition by_number7 (n : N) (v : bview7) : option cbv7 := find (fun b => c_num (k_c b) =? n) (w_blocks v).
Definition is_valid7 (v : bview7) : bool := negb (1 <? count_type7 1 v).
Definition payload_size7 (v : bview7) : option N := match by_type7 1 v with [b] => Some (c_len (k_c b)) | _ => None end.
(** Cpp:44-49 SetManuallyModified, alone or after the caller has assigned to the header; markedForDeletion = true. *)
Definition touch7 (b : cbv7) : cbv7 := mkCbv7 (k_c b) (k_x b) (k_actual b) (k_live b) true (k_del b) (k_enc b).
Definition modify7 (c : canon7) (x : content7) (b : cbv7) : cbv7 := mkCbv7 c x (k_actual b) true true (k_del b) (k_enc b).
Definition mark7 (b : cbv7) : cbv7 := mkCbv7 (k_c b) (k_x b) (k_actual b) (k_live b) (k_dirty b) true (k_enc b).
Definition modify_primary7 (p : prim7) (v : bview7) : bview7 :=
  mkBview7 p (w_pactual v) (w_plive v) true (w_blocks v) (w_mask v) (w_enc v) (w_bytes v).
