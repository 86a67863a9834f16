(** Model of module/storage/src/BundleStorageManagerBase.cpp (Push, PushSegment, PushAllSegments, PopTop,
    TopSegment, ReadFirstSegment, ReadAllSegments, RemoveReadBundleFromDisk, RestoreFromDisk) together with the disk
    threads of BundleStorageManagerMT.cpp / BundleStorageManagerAsio.cpp.

    The main thread and the disk threads are interleaved arbitrarily: every event below is one atomic step. A call that
    loops (TopSegment, PushAllSegments) is a sequence of events, so other events may fall in between, which is more
    freedom than the single caller thread of the code has. The per-disk circular buffer is a FIFO list of operations
    (M_Spsc models the index buffer itself). Segment contents are kept as the header record plus the data area; the
    little-endian byte layout of the header and disk I/O errors are not modelled. *)
From Coq Require Import NArith List Bool.
From Verif Require Import Base M_SegmentAlloc.
Import ListNotations.
Open Scope N_scope.

(** Configuration: M_NUM_STORAGE_DISKS, BUNDLE_STORAGE_PER_SEGMENT_SIZE (BundleStorageConfig.h:52-71, any positive
    value), 2^(width of segment_id_t). *)
Record scfg := mkScfg { sc_disks : N; sc_per : N; sc_idw : N }.

(** BundleStorageConfig.h:45-48 SEGMENT_ID_LAST: the largest segment_id_t. *)
Definition seg_last (c : scfg) : N := sc_idw c - 1.
(** BundleStorageConfig.h:26, 28: CIRCULAR_INDEX_BUFFER_SIZE 30 (29 usable entries), READ_CACHE_NUM_SEGMENTS_PER_SESSION. *)
Definition CIRC_CAPACITY : nat := 29.
Definition READ_CACHE : N := 50.

(** BundleStorageManagerBase.cpp:35-57 StorageSegmentHeader. *)
Record shdr := mkShdr { h_size : N; h_custody : N; h_psize : N; h_next : N }.
(** One SEGMENT_SIZE block: header followed by the data area. *)
Record seg := mkSeg { sg_hdr : shdr; sg_data : list N }.

(** One entry of a disk's circular buffer: m_circularBufferReadFromStoragePointers is NULL for a write; for a read it
    points at cache slot [slot] of read session [r]. *)
Inductive dop := DWrite (id : N) (s : seg) | DRead (id r slot : N).

(** BundleStorageCatalog.h catalog_entry_t: the fields the storage manager reads. *)
Record entry := mkEntry { e_size : N; e_psize : N; e_chain : list N }.
(** BundleStorageManagerBase.h:54-57 BundleStorageManagerSession_WriteToDisk. *)
Record wsess := mkWs { ws_entry : entry; ws_next : N }.
(** BundleStorageManagerBase.h:59-74 BundleStorageManagerSession_ReadFromDisk. The catalog entry pointer is kept as a
    copy of the entry; using it after the entry was removed is excluded by the specification. *)
Record rsess := mkRs { rs_entry : option entry; rs_next : N; rs_tocache : N; rs_ri : N; rs_wi : N;
                       rs_ready : N -> bool; rs_cache : N -> seg }.

(** The manager: segment allocator, per-disk circular buffers, per-disk files (by segment offset; None = never
    written), the catalog's custody id map (the rest of the catalog is M_Catalog), and the caller's sessions. *)
Record storage := mkSt { st_mm : mm; st_queue : N -> list dop; st_file : N -> N -> option seg;
                         st_cat : list (N * entry); st_ws : N -> wsess; st_rs : N -> rsess }.

(** uint32_t arithmetic of the session indices. *)
Definition inc32 (a : N) : N := (a + 1) mod W32.
Definition diff32 (a b : N) : N := (a + W32 - b) mod W32.

Definition upd {A} (f : N -> A) (k : N) (v : A) : N -> A := fun x => if x =? k then v else f x.

(** BundleStorageManagerBase.cpp:165 totalSegmentsRequired. *)
Definition total_segments (per size : N) : N := size / per + (if size mod per =? 0 then 0 else 1).

Fixpoint cat_find (c : N) (l : list (N * entry)) : option entry :=
  match l with [] => None | (k, e) :: r => if k =? c then Some e else cat_find c r end.
Definition cat_remove (c : N) (l : list (N * entry)) : list (N * entry) := filter (fun x => negb (fst x =? c)) l.

Inductive ev :=
| EvPush (w size psize : N)
| EvPushSeg (w custody : N) (buf stale : list N) (accepted : bool)
| EvOpen (r custody : N)
| EvFetch (r : N)
| EvTake (r : N)
| EvRemove (custody : N) (stale : seg)
| EvDisk (d : N).
Inductive out := ONone | ORet (n : N) | OBytes (bs : list N).
(** [Blocked]: the step cannot happen now (the thread waits). *)
Inductive res := Undef | Blocked | Done (st : storage) (o : out).

Definition enqueue (st : storage) (d : N) (op : dop) : storage :=
  mkSt (st_mm st) (upd (st_queue st) d (st_queue st d ++ [op])) (st_file st) (st_cat st) (st_ws st) (st_rs st).
Definition queue_full (st : storage) (d : N) : bool := Nat.leb CIRC_CAPACITY (length (st_queue st d)).

(** BundleStorageManagerBase.cpp:162-176 Push (the catalog entry's other fields and the primary block are not used
    here). A failed allocation leaves an empty chain. *)
Definition push (c : scfg) (st : storage) (w size psize : N) : res :=
  let n := total_segments (sc_per c) size in
  match alloc_segments (sc_idw c) (st_mm st) (N.to_nat n) with
  | None => Undef
  | Some (m, Some ids) =>
    Done (mkSt m (st_queue st) (st_file st) (st_cat st) (upd (st_ws st) w (mkWs (mkEntry size psize ids) 0)) (st_rs st)) (ORet n)
  | Some (m, None) =>
    Done (mkSt m (st_queue st) (st_file st) (st_cat st) (upd (st_ws st) w (mkWs (mkEntry size psize []) 0)) (st_rs st)) (ORet 0)
  end.

(** BundleStorageManagerBase.cpp:178-228 PushSegment. [stale]: the previous contents of the circular buffer block,
    which remain behind the copied bytes. [accepted]: whether CatalogIncomingBundleForStore accepts the bundle (its
    result is ignored by the code; see M_Catalog for when it does). *)
Definition push_segment (c : scfg) (st : storage) (w custody : N) (buf stale : list N) (accepted : bool) : res :=
  let ws := st_ws st w in
  let e := ws_entry ws in
  let len := N.of_nat (length (e_chain e)) in
  if len <=? ws_next ws then Done st (ORet 0)
  else match nth_error (e_chain e) (N.to_nat (ws_next ws)) with
       | None => Undef
       | Some id =>
         let first := ws_next ws =? 0 in
         let next := inc32 (ws_next ws) in
         let d := id mod sc_disks c in
         if queue_full st d then Blocked
         else if sc_per c <? N.of_nat (length buf) then Undef
         else
           let hdr := mkShdr (if first then e_size e else U64MAX) custody (if first then e_psize e else U64MAX)
                             (if next =? len then seg_last c else nth (N.to_nat next) (e_chain e) 0) in
           let s := mkSeg hdr (buf ++ skipn (length buf) stale) in
           let st1 := enqueue st d (DWrite id s) in
           let cat := if (next =? len) && accepted then (custody, e) :: st_cat st else st_cat st in
           Done (mkSt (st_mm st1) (st_queue st1) (st_file st1) cat (upd (st_ws st1) w (mkWs e next)) (st_rs st1)) (ORet 1)
       end.

(** BundleStorageManagerBase.cpp:230-250 PushAllSegments: the buffer handed to PushSegment in round [i] of [n]. *)
Definition push_all_buf (per : N) (data : list N) (n i : N) : list N :=
  let sz := N.of_nat (length data) in
  let bytes := if (i =? n - 1) && negb (sz mod per =? 0) then sz mod per else per in
  firstn (N.to_nat bytes) (skipn (N.to_nat (i * per)) data).

(** BundleStorageManagerBase.cpp:252-291 PopTop once the catalog has chosen the bundle, and 394-403 the start of
    ReadFirstSegment: the session is pointed at the entry and its indices are zeroed; the ready flags, the cache and
    reads still queued for it are left alone. *)
Definition open_read (st : storage) (r custody : N) : res :=
  match cat_find custody (st_cat st) with
  | None => Done st (ORet 0)
  | Some e =>
    let rs := st_rs st r in
    Done (mkSt (st_mm st) (st_queue st) (st_file st) (st_cat st) (st_ws st)
               (upd (st_rs st) r (mkRs (Some e) 0 0 0 0 (rs_ready rs) (rs_cache rs)))) (ORet (e_size e))
  end.

(** BundleStorageManagerBase.cpp:310-311: the condition of the prefetch loop (uint32_t subtraction). *)
Definition want_fetch (rs : rsess) (e : entry) : bool :=
  (diff32 (rs_tocache rs) (rs_next rs) <? READ_CACHE) && (rs_tocache rs <? N.of_nat (length (e_chain e))).

(** BundleStorageManagerBase.cpp:310-337 one round of the prefetch loop of TopSegment. *)
Definition fetch (c : scfg) (st : storage) (r : N) : res :=
  let rs := st_rs st r in
  match rs_entry rs with
  | None => Undef
  | Some e =>
    if want_fetch rs e then
      match nth_error (e_chain e) (N.to_nat (rs_tocache rs)) with
      | None => Undef
      | Some id =>
        let d := id mod sc_disks c in
        if queue_full st d then Blocked
        else
          let st1 := enqueue st d (DRead id r (rs_wi rs)) in
          let rs' := mkRs (rs_entry rs) (rs_next rs) (inc32 (rs_tocache rs)) (rs_ri rs)
                          ((rs_wi rs + 1) mod READ_CACHE) (upd (rs_ready rs) (rs_wi rs) false) (rs_cache rs) in
          Done (mkSt (st_mm st1) (st_queue st1) (st_file st1) (st_cat st1) (st_ws st1) (upd (st_rs st1) r rs')) ONone
      end
    else Blocked
  end.

(** BundleStorageManagerBase.cpp:339-393 the rest of TopSegment: wait for the slot, then copy its data out. The
    header comparisons only log. Reading segments[nextLogicalSegment] past the end is undefined. *)
Definition take (c : scfg) (st : storage) (r : N) : res :=
  let rs := st_rs st r in
  match rs_entry rs with
  | None => Undef
  | Some e =>
    if want_fetch rs e then Blocked
    else if negb (rs_ready rs (rs_ri rs)) then Blocked
    else
      let s := rs_cache rs (rs_ri rs) in
      let next := inc32 (rs_next rs) in
      if N.of_nat (length (e_chain e)) <? next then Undef
      else
        let m := e_size e mod sc_per c in
        let size := if (h_next (sg_hdr s) =? seg_last c) && negb (m =? 0) then m else sc_per c in
        let rs' := mkRs (rs_entry rs) next (rs_tocache rs) ((rs_ri rs + 1) mod READ_CACHE) (rs_wi rs)
                        (rs_ready rs) (rs_cache rs) in
        Done (mkSt (st_mm st) (st_queue st) (st_file st) (st_cat st) (st_ws st) (upd (st_rs st) r rs'))
             (OBytes (firstn (N.to_nat size) (sg_data s)))
  end.

(** memcpy of [bs] to offset [off] of [buf]. *)
Definition write_at (buf : list N) (off : nat) (bs : list N) : list N :=
  firstn off buf ++ bs ++ skipn (off + length bs) buf.

(** BundleStorageManagerBase.cpp:415-424 ReadAllSegments: the buffer and return value, given what the successive
    TopSegment calls copied out. [blank]: contents of buf after resize. *)
Fixpoint read_all_loop (per : N) (i : N) (got : list (list N)) (buf : list N) (total : N) : list N * N :=
  match got with
  | [] => (buf, total)
  | bs :: r => read_all_loop per (i + 1) r (write_at buf (N.to_nat (i * per)) bs) (total + N.of_nat (length bs))
  end.
Definition read_all (per size : N) (blank : list N) (got : list (list N)) : list N * bool :=
  let (buf, total) := read_all_loop per 0 got blank 0 in (buf, total =? size).

(** BundleStorageManagerBase.cpp:442-489 RemoveReadBundleFromDisk(custodyId). [stale]: the previous contents of the
    circular buffer block; only its first 8 bytes are overwritten, with UINT64_MAX. *)
Definition erased (stale : seg) : seg :=
  mkSeg (mkShdr U64MAX (h_custody (sg_hdr stale)) (h_psize (sg_hdr stale)) (h_next (sg_hdr stale))) (sg_data stale).
Definition remove_bundle (c : scfg) (st : storage) (custody : N) (stale : seg) : res :=
  match cat_find custody (st_cat st) with
  | None => Done st (ORet 0)
  | Some e =>
    match e_chain e with
    | [] => Undef
    | id :: _ =>
      let d := id mod sc_disks c in
      if queue_full st d then Blocked
      else
        let st1 := enqueue st d (DWrite id (erased stale)) in
        match free_list (st_mm st1) (e_chain e) with
        | None => Undef
        | Some (m, ok) =>
          Done (mkSt m (st_queue st1) (st_file st1) (cat_remove custody (st_cat st1)) (st_ws st1) (st_rs st1))
               (ORet (if ok then 1 else 0))
        end
    end
  end.

(** BundleStorageManagerMT.cpp:105-178 one round of ThreadFunc of disk [d] (BundleStorageManagerAsio.cpp:97-199 runs
    the same operations in the same order). Reading a block that was never written leaves the slot's contents
    (fread returns short) but still marks it ready. SEGMENT_ID_LAST stops all disk threads: treated as undefined. *)
Definition disk_step (c : scfg) (st : storage) (d : N) : res :=
  match st_queue st d with
  | [] => Blocked
  | DWrite id s :: q =>
    if id =? seg_last c then Undef
    else Done (mkSt (st_mm st) (upd (st_queue st) d q) (upd (st_file st) d (upd (st_file st d) (id / sc_disks c) (Some s)))
                    (st_cat st) (st_ws st) (st_rs st)) ONone
  | DRead id r k :: q =>
    if id =? seg_last c then Undef
    else
      let rs := st_rs st r in
      let v := match st_file st d (id / sc_disks c) with Some s => s | None => rs_cache rs k end in
      let rs' := mkRs (rs_entry rs) (rs_next rs) (rs_tocache rs) (rs_ri rs) (rs_wi rs)
                      (upd (rs_ready rs) k true) (upd (rs_cache rs) k v) in
      Done (mkSt (st_mm st) (upd (st_queue st) d q) (st_file st) (st_cat st) (st_ws st) (upd (st_rs st) r rs')) ONone
  end.

Definition step (c : scfg) (st : storage) (e : ev) : res :=
  match e with
  | EvPush w size psize => push c st w size psize
  | EvPushSeg w custody buf stale accepted => push_segment c st w custody buf stale accepted
  | EvOpen r custody => open_read st r custody
  | EvFetch r => fetch c st r
  | EvTake r => take c st r
  | EvRemove custody stale => remove_bundle c st custody stale
  | EvDisk d => disk_step c st d
  end.

(** A fresh manager (BundleStorageManagerBase.cpp:66-104 without restore): empty files and buffers; read sessions hold
    arbitrary cache contents and flags [junk]; write sessions have no segments. *)
Definition st_init (max : N) (junk : N -> rsess) : storage :=
  mkSt (mm_init max) (fun _ => []) (fun _ _ => None) [] (fun _ => mkWs (mkEntry 0 0 []) 0)
       (fun r => mkRs None 0 0 0 0 (rs_ready (junk r)) (rs_cache (junk r))).
