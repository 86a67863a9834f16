(** Specification of the restart: what a disk image holds, in terms of the blocks themselves. *)
From Coq Require Import NArith List Bool Sorted Permutation.
From Verif Require Import Base M_SegmentAlloc M_Storage S_Storage M_Restore.
Import ListNotations.
Open Scope N_scope.

(** The chain starting at block [hd f] of the image is a complete bundle with the data of [f]. *)
Definition head (f : found) : N := nth 0 (e_chain (fd_entry f)) 0.
Definition bundle_on (c : scfg) (parse : list N -> option (option N)) (im : image) (f : found) : Prop :=
  let e := fd_entry f in
  e_chain e <> [] /\ NoDup (e_chain e) /\ len (e_chain e) = segs_needed (sc_per c) (e_size e) /\ e_size e <> U64MAX /\
  forall i id, nth_error (e_chain e) i = Some id ->
    exists s, read_block c im id = Some s /\ h_custody (sg_hdr s) = fd_custody f /\
      (i = 0%nat -> h_size (sg_hdr s) = e_size e /\ h_psize (sg_hdr s) = e_psize e /\ parse (sg_data s) = Some (fd_uuid f)) /\
      h_next (sg_hdr s) = nth (S i) (e_chain e) (seg_last c).

Definition chains (l : list found) : list N := concat (map (fun f => e_chain (fd_entry f)) l).

(** The image holds exactly the bundles [l], ordered by first block, up to block [last], the first one that is neither
    part of a bundle nor present. *)
Record holds (c : scfg) (max : N) (parse : list N -> option (option N)) (im : image) (l : list found) (last : N) : Prop := mkHolds {
  ho_on : Forall (bundle_on c parse im) l;
  ho_lt : forall id, In id (chains l) -> id < max;
  ho_disjoint : NoDup (chains l);
  ho_sorted : StronglySorted (fun f g => head f < head g) l;
  ho_heads : forall f, In f l -> head f < last;
  ho_last : last < max /\ ~ In last (chains l) /\ read_block c im last = None;
  ho_others : forall id, id < last ->
    (exists f, In f l /\ head f < id /\ In id (e_chain (fd_entry f))) \/
    (exists s, read_block c im id = Some s /\ (h_size (sg_hdr s) = U64MAX \/ exists f, In f l /\ head f = id)) }.

Definition sum (l : list N) : N := fold_right N.add 0 l.

(** The files of a stopped manager as the next one finds them: a block below the last one written that was itself never
    written reads as zeros (the file has a hole there). *)
Definition zero_seg (per : N) : seg := mkSeg (mkShdr 0 0 0 0) (repeat 0 (N.to_nat per)).
Definition image_of (c : scfg) (file : N -> N -> option seg) (im : image) : Prop := forall d, d < sc_disks c ->
  (forall off, off < im_size im d <-> exists off', off <= off' /\ file d off' <> None) /\
  (forall off s, file d off = Some s -> im_seg im d off = s) /\
  (forall off, off < im_size im d -> file d off = None -> im_seg im d off = zero_seg (sc_per c)).

(** Every stored bundle's first block determines its uuid whatever follows it in the block, and no two share one. *)
Definition parses (per : N) (parse : list N -> option (option N)) (uuid : list N -> option N) (live : list (N * list N)) : Prop :=
  (forall cu data tail, In (cu, data) live -> parse (piece per data 0 ++ tail) = Some (uuid data)) /\
  (forall cu data cu' data', In (cu, data) live -> In (cu', data') live -> cu <> cu' -> uuid_clash (uuid data) (uuid data') = false).

(** The manager has nothing queued and every allocated segment belongs to a stored bundle (no bundle is being written,
    was abandoned or was refused). *)
Definition quiet (per : N) (sp : spec) (st : storage) : Prop :=
  (forall d, st_queue st d = []) /\ sp_used sp = sum (map (fun x => segs_needed per (len (snd x))) (sp_live sp)).

(** Histories with any number of restarts in between. The restarted manager's catalog lists the same bundles, in some
    order [live']; its sessions are new. *)
Inductive reachr (c : scfg) (max : N) (parse : list N -> option (option N)) : spec -> storage -> Prop :=
| reachr_init junk : reachr c max parse spec_init (st_init max junk)
| reachr_step sp st e st' o : reachr c max parse sp st -> legal (sc_per c) sp e -> step c st e = Done st' o ->
    reachr c max parse (spec_next (sc_per c) max sp e) st'
| reachr_restart sp st uuid im fuel r junk live' : reachr c max parse sp st -> quiet (sc_per c) sp st ->
    parses (sc_per c) parse uuid (sp_live sp) -> image_of c (st_file st) im -> restore c max parse im fuel = RDone r ->
    Permutation live' (sp_live sp) -> map fst live' = map fst (st_cat (restarted (st_file st) r junk)) ->
    reachr c max parse (mkSp (sp_used sp) live' (fun _ => None) (fun _ => RIdle)) (restarted (st_file st) r junk).
