(** Model of common/bpcodec/src/codec/BundleViewV6.cpp (Cpp below): loading, manipulating and rendering a BPv6 bundle.
    Buffers the view points into are modelled by the bytes they hold. Not modelled: the recycling of block objects and
    m_applicationDataUnitStartPtr; the object's state after a failed Load or Render. *)
From Coq Require Import NArith List Bool.
From Verif Require Import Base M_Sdnv M_Bpv6Block.
Import ListNotations.
Open Scope N_scope.

(** BundleViewV6.h Bpv6CanonicalBlockView: the header, the serialized block (empty if none yet), dirty, markedForDeletion. *)
Record cbv := mkCbv { c_blk : block; c_actual : list N; c_dirty : bool; c_del : bool }.
(** BundleViewV6: primary block header, its serialization, its dirty flag, the blocks, the rendered bundle. *)
Record view := mkView { v_prim : prim; v_pactual : list N; v_pdirty : bool; v_blocks : list cbv; v_bytes : list N }.

Definition with_flags (b : block) (f : N) : block := mkBlock (k_type b) f (k_len b) (k_data b) (k_content b).
(** bpv6.h:174 IS_LAST_BLOCK. *)
Definition last_flag : N := 8.
Definition set_nth (i : nat) (x : N) (l : list N) : list N := firstn i l ++ x :: skipn (S i) l.
(** Cpp:26-36 SetBlockProcessingControlFlagAndDirtyIfNecessary and 37-47 ClearBlockProcessingControlFlagAndDirtyIfNecessary;
    [flags'] is the new value. *)
Definition change_flags (c : cbv) (flag flags' : N) : cbv :=
  let b := with_flags (c_blk c) flags' in
  if (k_flags (c_blk c) <=? 127) && (flag <=? 127) && Nat.leb 2 (length (c_actual c))
  then mkCbv b (set_nth 1 (flags' mod 256) (c_actual c)) (c_dirty c) (c_del c)
  else mkCbv b (c_actual c) true (c_del c).
Definition set_flag (flag : N) (c : cbv) : cbv := change_flags c flag (N.lor (k_flags (c_blk c)) flag).
Definition clear_flag (flag : N) (c : cbv) : cbv := change_flags c flag (N.ldiff (k_flags (c_blk c)) flag).
(** Cpp:48-50 HasBlockProcessingControlFlagSet. *)
Definition has_flag (flag : N) (c : cbv) : bool := negb (N.land (k_flags (c_blk c)) flag =? 0).

(** Cpp:75-102: the loop over the blocks; a block takes at least three bytes, [fuel] bounds the rounds. *)
Fixpoint load_blocks (last isAdmin : bool) (fuel : nat) (bs : list N) : option (option (list cbv)) :=
  match fuel with
  | O => None
  | S f =>
    try (h, rest) <- header_read bs;
    let '(type, flags, data) := h in
    try c <- content_read last isAdmin type data;
    let cb := mkCbv (mkBlock type flags (N.of_nat (length data)) (Some data) c) (firstn (length bs - length rest) bs) false false in
    if has_flag last_flag cb then
      match rest with [] => Some (Some [cb]) | _ => Some None end
    else
      match rest with [] => Some None | _ => try l <- load_blocks last isAdmin f rest; Some (Some (cb :: l)) end
  end.
(** Cpp:55-104 Load (with 271-287), of the whole bundle or of the primary block only. *)
Definition load (last primaryOnly : bool) (bs : list N) : option (option view) :=
  try (p, rest) <- prim_read bs;
  let pa := firstn (length bs - length rest) bs in
  if primaryOnly then Some (Some (mkView p pa false [] bs)) else
  try l <- load_blocks last (p_isadmin (p_flags p)) (S (length rest)) rest;
  Some (Some (mkView p pa false l bs)).

(** Cpp:152-181: the loop over the blocks that are left. *)
Fixpoint render_blocks (l : list cbv) (w : wr) : option (option (list cbv * wr)) :=
  match l with
  | [] => Some (Some ([], w))
  | c :: r =>
    let c1 := match r with [] => set_flag last_flag c | _ => clear_flag last_flag c end in
    if c_dirty c1 then
      try (b, w1) <- block_write (c_blk c1) w;
      if Nat.leb (snd w1 - snd w) 2 then Some None else
      let c2 := mkCbv b (firstn (snd w1 - snd w) (skipn (snd w) (fst w1))) false (c_del c1) in
      try (r', w2) <- render_blocks r w1; Some (Some (c2 :: r', w2))
    else
      do w1 <- put_bytes (c_actual c1) w;
      try (r', w2) <- render_blocks r w1; Some (Some (c1 :: r', w2))
  end.
(** Cpp:119-184 Render(uint8_t*, uint64_t&). *)
Definition render_at (v : view) (w : wr) : option (option (view * wr)) :=
  try (p, pa, w1) <- (if v_pdirty v
    then try (p, w1) <- prim_write (v_prim v) w; Some (Some (p, firstn (snd w1 - snd w) (skipn (snd w) (fst w1)), w1))
    else do w1 <- put_bytes (v_pactual v) w; Some (Some (v_prim v, v_pactual v, w1)));
  try (l, w2) <- render_blocks (filter (fun c => negb (c_del c)) (v_blocks v)) w1;
  Some (Some (mkView p pa false l (v_bytes v), w2)).

(** How Render(maxBundleSizeBytes) can succeed: normally, or with the vector moved to new memory by the final resize,
    when only its first maxBundleSizeBytes bytes are kept and the view's block pointers point into freed memory. *)
Inductive rendered := Rendered (v : view) | RenderedMoved (bytes : list N).
(** Cpp:106-117. [mem] is the memory behind m_backBuffer after resize(maxSize): its capacity and the 32 bytes of padding
    (PaddedVectorUint8.h:31-60), so the capacity is length mem - 32. [junk] is what new memory contains. *)
Definition render (v : view) (maxSize : nat) (mem junk : list N) : option (option rendered) :=
  if Nat.eqb maxSize 0 || Nat.ltb (length mem) (maxSize + 32) then None else
  try (v', w) <- render_at v (mem, O);
  if Nat.leb (snd w) (length mem - 32)
  then let bytes := firstn (snd w) (fst w) in
       Some (Some (Rendered (mkView (v_prim v') (v_pactual v') (v_pdirty v') (v_blocks v') bytes)))
  else Some (Some (RenderedMoved (firstn maxSize (fst w) ++ firstn (snd w - maxSize) junk))).

(** Cpp:198-215. *)
Fixpoint blocks_size (l : list cbv) : option (option N) :=
  match l with
  | [] => Some (Some 0)
  | c :: r =>
    try n <- (if c_del c then Some (Some 0)
              else if c_dirty c then do n <- block_size (c_blk c); (if n <=? 2 then Some None else Some (Some n))
              else Some (Some (N.of_nat (length (c_actual c)))));
    try m <- blocks_size r; Some (Some (n + m))
  end.
(** Cpp:185-217 GetSerializationSize. *)
Definition view_size (v : view) : option (option N) :=
  try p <- (if v_pdirty v then prim_size (v_prim v) else Some (Some (N.of_nat (length (v_pactual v)))));
  try n <- blocks_size (v_blocks v); Some (Some (p + n)).

(** Cpp:219-225 AppendMoveCanonicalBlock, 226-232 PrependMoveCanonicalBlock. *)
Definition fresh (b : block) : cbv := mkCbv b [] true false.
Definition with_blocks (v : view) (l : list cbv) : view := mkView (v_prim v) (v_pactual v) (v_pdirty v) l (v_bytes v).
Definition append_block (b : block) (v : view) : view := with_blocks v (v_blocks v ++ [fresh b]).
Definition prepend_block (b : block) (v : view) : view := with_blocks v (fresh b :: v_blocks v).
(** Cpp:251-270 DeleteAllCanonicalBlocksByType: (view, returned count). *)
Definition delete_type (t : N) (v : view) : view * N :=
  (with_blocks v (filter (fun c => negb (k_type (c_blk c) =? t)) (v_blocks v)),
   N.of_nat (length (filter (fun c => k_type (c_blk c) =? t) (v_blocks v)))).
(** Cpp:233-239 GetCanonicalBlockCountByType, 288-293 IsValid. *)
Definition count_type (t : N) (v : view) : N := N.of_nat (length (filter (fun c => k_type (c_blk c) =? t) (v_blocks v))).
Definition is_valid (v : view) : bool := negb (1 <? count_type 1 v).
(** Cpp:295-309 GetPayloadSize. *)
Definition payload_size (v : view) : option N :=
  match filter (fun c => k_type (c_blk c) =? 1) (v_blocks v) with [c] => Some (k_len (c_blk c)) | _ => None end.
(** The caller assigning to a header and calling SetManuallyModified (Cpp:20-25), or setting markedForDeletion. *)
Definition modify_primary (p : prim) (v : view) : view := mkView p (v_pactual v) true (v_blocks v) (v_bytes v).
Definition modify_block (b : block) (c : cbv) : cbv := mkCbv b (c_actual c) true (c_del c).
Definition mark_deleted (c : cbv) : cbv := mkCbv (c_blk c) (c_actual c) (c_dirty c) true.

(** Bpv6Fragment.cpp:29-40 CopyPrimaryFragment. *)
Definition frag_prim (p : prim) (off total : N) : prim :=
  mkPrim (N.lor (p_flags p) 1) (p_len p) (p_dest p) (p_src p) (p_report p) (p_cust p) (p_time p) (p_seq p) (p_life p) off total.
(** Bpv6Fragment.cpp:61-76 AppendFragmentPayloadBlock. *)
Definition frag_payload (c : cbv) (s e : nat) : cbv :=
  fresh (mkBlock (k_type (c_blk c)) (k_flags (c_blk c)) (N.of_nat (e - s)) (option_map (skipn s) (k_data (c_blk c))) Plain).
(** Bpv6Fragment.cpp:181-208: the fragment of a loaded bundle that holds the payload bytes [s, e), with the blocks
    [before] and [after] its payload block copied (98-125; they are loaded blocks already), before it is rendered (208)
    into a vector as large as the original bundle. *)
Definition frag_view (v : view) (before after : list cbv) (pl : cbv) (s e : nat) (off total : N) : view :=
  mkView (frag_prim (v_prim v) off total) [] true
    (map (fun c => modify_block (c_blk c) c) before ++ frag_payload pl s e :: map (fun c => modify_block (c_blk c) c) after) [].
