(** Model of BundleStorageManagerBase::RestoreFromDisk (module/storage/src/BundleStorageManagerBase.cpp:506-655), which
    the constructor calls (lines 103-105) before any disk thread runs.

    All files are taken to exist and to open (lines 511-532 otherwise give up). A file is seen as whole SEGMENT_SIZE
    blocks: a shorter last block ends the restore as if it were missing (line 552) and makes fread short (line 566).
    The primary block decoders and the version byte test (lines 586-617) are one function [parse] from the data area of
    the head segment to the uuid under which the catalog files the bundle ([Some None]: a bundle without the custody flag, not
    filed by uuid; [None]: "malformed bundle" or "unknown bundle version"); the catalog is reduced to custody ids and uuids
    (M_Catalog models it). std::vector allocation does not fail. *)
From Coq Require Import NArith List Bool.
From Verif Require Import Base M_SegmentAlloc M_Storage.
Import ListNotations.
Open Scope N_scope.

(** The files at the time of the restart: number of whole blocks per disk, and their contents. *)
Record image := mkImage { im_size : N -> N; im_seg : N -> N -> seg }.

(** BundleStorageManagerBase.cpp:548-572: block [id] of the store; None when it is behind the end of its file. *)
Definition read_block (c : scfg) (im : image) (id : N) : option seg :=
  let d := id mod sc_disks c in
  let off := id / sc_disks c in
  if off <? im_size im d then Some (im_seg im d off) else None.

(** One call of CatalogIncomingBundleForStore (line 643). *)
Record found := mkFound { fd_custody : N; fd_uuid : option N; fd_entry : entry }.

(** What RestoreFromDisk has built so far: the allocator, the calls to the catalog in order, and the three totals. *)
Record rstate := mkR { r_mm : mm; r_found : list found; r_bundles : N; r_bytes : N; r_segments : N }.

Inductive walk_res := WUndef | WFail (m : mm) | WDone (m : mm) (chain : list N).
(** BundleStorageManagerBase.cpp:547-652 the inner loop from the point where the head is known: [n] logical segments are
    left to visit, the next one is block [id]; [acc] = segmentIdChainVec so far. *)
Fixpoint walk (c : scfg) (im : image) (cu : N) (n : nat) (id : N) (m : mm) (acc : list N) : walk_res :=
  match read_block c im id with
  | None => WFail m
  | Some s =>
    if negb (h_custody (sg_hdr s) =? cu) then WFail m
    else match n with
         | O => WFail m
         | S n' =>
           match is_segment_free m id with
           | None => WUndef
           | Some false => WFail m
           | Some true =>
             match alloc_segment m id with
             | None => WUndef
             | Some (m1, false) => WFail m1
             | Some (m1, true) =>
               let last := h_next (sg_hdr s) =? seg_last c in
               match n' with
               | O => if last then WDone m1 (acc ++ [id]) else WFail m1
               | S _ => if last then WFail m1 else walk c im cu n' (h_next (sg_hdr s)) m1 (acc ++ [id])
               end
             end
           end
         end
  end.

(** [RMore]: the loop is still running after the given number of rounds. [RFail]: the function returned false; the
    constructor keeps the allocator and the catalog as they are then. *)
Inductive restore_res := RUndef | RMore | RFail (r : rstate) | RDone (r : rstate).
(** BundleStorageManagerBase.cpp:534-653 the outer loop, for [fuel] rounds; [id] = potentialHeadSegmentId. *)
Fixpoint restore_loop (c : scfg) (parse : list N -> option (option N)) (im : image) (fuel : nat) (id : N) (r : rstate) : restore_res :=
  match fuel with
  | O => RMore
  | S f =>
    let next := (id + 1) mod sc_idw c in
    match is_segment_free (r_mm r) id with
    | None => RUndef
    | Some false => restore_loop c parse im f next r
    | Some true =>
      match read_block c im id with
      | None => RDone r
      | Some s =>
        if h_size (sg_hdr s) =? U64MAX then restore_loop c parse im f next r
        else match parse (sg_data s) with
             | None => RFail r
             | Some u =>
               let size := h_size (sg_hdr s) in
               let n := total_segments (sc_per c) size in
               let bytes := add64 (r_bytes r) size in
               let segs := add64 (r_segments r) n in
               match walk c im (h_custody (sg_hdr s)) (N.to_nat n) id (r_mm r) [] with
               | WUndef => RUndef
               | WFail m => RFail (mkR m (r_found r) (r_bundles r) bytes segs)
               | WDone m chain =>
                 restore_loop c parse im f next
                   (mkR m (r_found r ++ [mkFound (h_custody (sg_hdr s)) u (mkEntry size (h_psize (sg_hdr s)) chain)])
                        (add64 (r_bundles r) 1) bytes segs)
               end
             end
      end
    end
  end.

(** BundleStorageManagerBase.cpp:81, 98-101, 507, 538: the initial state. *)
Definition r_init (max : N) : rstate := mkR (mm_init max) [] 0 0 0.
Definition restore (c : scfg) (max : N) (parse : list N -> option (option N)) (im : image) (fuel : nat) : restore_res :=
  restore_loop c parse im fuel 0 (r_init max).

(** The catalog after the calls: a custody id or uuid that is already there is refused (BundleStorageCatalog.cpp:91-124,
    M_Catalog), and RestoreFromDisk ignores that. *)
Definition uuid_clash (a b : option N) : bool := match a, b with Some x, Some y => x =? y | _, _ => false end.
Definition catalogued (l : list found) : list found :=
  fold_left (fun acc f => if existsb (fun g => (fd_custody g =? fd_custody f) || uuid_clash (fd_uuid g) (fd_uuid f)) acc
                          then acc else f :: acc) l [].

(** BundleStorageManagerBase.cpp:66-123: the manager after a successful restore, on the same files (Start opens them
    with "r+b", BundleStorageManagerMT.cpp / BundleStorageManagerAsio.cpp); sessions are new. *)
Definition restarted (file : N -> N -> option seg) (r : rstate) (junk : N -> rsess) : storage :=
  mkSt (r_mm r) (fun _ => []) file (map (fun f => (fd_custody f, fd_entry f)) (catalogued (r_found r)))
       (fun _ => mkWs (mkEntry 0 0 []) 0) (fun k => mkRs None 0 0 0 0 (rs_ready (junk k)) (rs_cache (junk k))).

(** The files as the next process finds them, computed ([bound]: no block at or behind it was written). A block that was
    never written but lies below one that was reads as zeros. *)
Fixpoint size_upto (n : nat) (f : N -> option seg) : N :=
  match n with
  | O => 0
  | S m => match f (N.of_nat m) with Some _ => N.of_nat m + 1 | None => size_upto m f end
  end.
Definition image_at (c : scfg) (bound : N) (file : N -> N -> option seg) : image :=
  mkImage (fun d => size_upto (N.to_nat bound) (file d))
          (fun d off => match file d off with Some s => s | None => mkSeg (mkShdr 0 0 0 0) (repeat 0 (N.to_nat (sc_per c))) end).
