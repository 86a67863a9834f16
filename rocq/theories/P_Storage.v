(** Property C20: a bundle written to storage is read back byte for byte. Vocabulary: S_Storage.v. *)
From Coq Require Import NArith List Bool Lia ZifyBool ZifyN.
From Verif Require Import Base M_SegmentAlloc M_Storage S_Storage L_Storage.
Import ListNotations.
Open Scope N_scope.

(** C20: for every number of disks, segment size, segment id width and capacity, and every interleaving of pushes,
    reads, removals (any number of sessions) and disk threads: no undefined behaviour; every piece read is the
    corresponding piece of the bytes pushed under that custody id; Push succeeds exactly when the segments fit;
    opening and removing find exactly the stored bundles. *)
Theorem C20_every_history_reads_back : forall c max sp st e, cfg_ok c max -> reach c max sp st -> legal (sc_per c) sp e ->
  match step c st e with
  | Undef => False
  | Blocked => True
  | Done _ o => out_ok (sc_per c) max sp e o
  end.
Proof.
  intros c max sp st e C R L. destruct (reach_inv c max sp st C R) as (A & own & I).
  pose proof (step_inv c max sp st A own e C I L) as S. destruct (step c st e); [exact S|exact Logic.I|apply S].
Qed.
Print Assumptions C20_every_history_reads_back.

(** Two disks, 4 data bytes per segment, 10 segments: two bundles interleaved, one removed, one read. *)
Definition ex_cfg := mkScfg 2 4 W32.
Definition ex_seg := mkSeg (mkShdr 7 7 7 7) [99; 98; 97; 96].
Definition ex_junk : N -> rsess := fun _ => mkRs None 0 0 0 0 (fun _ => true) (fun _ => ex_seg).
Definition ex_a : list N := [10; 11; 12; 13; 14; 15].
Definition ex_b : list N := [20; 21; 22; 23; 24; 25; 26; 27].
Definition ex_stale : list N := [90; 91; 92; 93].
Definition ex_events : list ev :=
  [EvPush 1 6 2; EvPush 2 8 3; EvPushSeg 2 500 [20; 21; 22; 23] ex_stale true] ++ ev_push_all 4 1 400 ex_stale ex_a ++
  [EvDisk 0; EvPushSeg 2 500 [24; 25; 26; 27] ex_stale true; EvOpen 9 400; EvFetch 9; EvFetch 9; EvDisk 0; EvDisk 1; EvDisk 0;
   EvTake 9; EvDisk 1; EvDisk 1; EvTake 9; EvRemove 400 ex_seg; EvPush 3 100 0; EvPush 1 3 3; EvOpen 9 500; EvFetch 9].
Example C20_every_history_reads_back_ex :
  cfg_ok ex_cfg 10 /\ legal_run 4 10 spec_init ex_events /\
  option_map snd (run ex_cfg (st_init 10 ex_junk) ex_events) =
  Some [ORet 2; ORet 2; ORet 1; ORet 1; ORet 1; ONone; ORet 1; ORet 6; ONone; ONone; ONone; ONone; ONone;
        OBytes [10; 11; 12; 13]; ONone; ONone; OBytes [14; 15]; ORet 1; ORet 0; ORet 1; ORet 8; ONone] /\
  sp_live (spec_run 4 10 spec_init ex_events) = [(500, ex_b)].
Proof.
  split; [vm_compute; repeat split; discriminate|]. split.
  - cbn. unfold finished. repeat split; try reflexivity; try (intros ? [= <-]; reflexivity); try discriminate.
  - split; vm_compute; reflexivity.
Qed.

(** C20: PushAllSegments hands PushSegment exactly the pieces the history above asks for, and ReadAllSegments puts the
    pieces together to the bundle and returns true, for every size and whatever the buffer held. *)
Theorem C20_pieces_make_the_bundle : forall per data blank, 0 < per -> 0 < len data -> length blank = length data ->
  let n := segs_needed per (len data) in
  (forall i, i < n -> push_all_buf per data n i = piece per data i /\
     len (push_all_buf per data n i) = N.min per (len data - i * per)) /\
  read_all per (len data) blank (map (fun i => piece per data (N.of_nat i)) (seq 0 (N.to_nat n))) = (data, true).
Proof. exact pieces_make_the_bundle. Qed.
Print Assumptions C20_pieces_make_the_bundle.
Example C20_pieces_make_the_bundle_ex : 0 < 4 /\ 0 < len ex_a /\ segs_needed 4 (len ex_a) = 2 /\ segs_needed 4 (len ex_b) = 2 /\
  map (push_all_buf 4 ex_a 2) [0; 1] = [[10; 11; 12; 13]; [14; 15]] /\
  read_all 4 6 [0; 0; 0; 0; 0; 0] [[10; 11; 12; 13]; [14; 15]] = (ex_a, true).
Proof. vm_compute. repeat split; reflexivity. Qed.

(** C20: nobody waits for ever. A disk thread with work to do can always do it; once the disk threads have caught up no
    legal call has to wait, and a reader can always either prefetch or take the next piece. *)
Theorem C20_nobody_waits_for_ever : forall c max sp st, cfg_ok c max -> reach c max sp st ->
  (forall d, st_queue st d <> [] -> exists st', step c st (EvDisk d) = Done st' ONone /\
     length (st_queue st d) = S (length (st_queue st' d)) /\ forall d', d' <> d -> st_queue st' d' = st_queue st d') /\
  ((forall d, st_queue st d = []) -> forall e, legal (sc_per c) sp e ->
   match e with
   | EvDisk _ => True
   | EvFetch r | EvTake r =>
     (exists st', step c st (EvFetch r) = Done st' ONone) \/ (exists st' bs, step c st (EvTake r) = Done st' (OBytes bs))
   | _ => step c st e <> Blocked
   end).
Proof.
  intros c max sp st C R. destruct (reach_inv c max sp st C R) as (A & own & I). split.
  - intros d Hq. exact (disk_can_step c max sp st A own d C I Hq).
  - intros Hq e L. exact (quiet_progress c max sp st A own e C I Hq L).
Qed.
Print Assumptions C20_nobody_waits_for_ever.
Example C20_nobody_waits_for_ever_ex : exists es, legal_run 4 10 spec_init es /\
  match run ex_cfg (st_init 10 ex_junk) es with
  | Some (st, _) => st_queue st 0 = [] /\ st_queue st 1 = [] /\
      match step ex_cfg st (EvFetch 9), step ex_cfg st (EvTake 9) with Blocked, Done _ (OBytes bs) => bs = [10; 11; 12; 13] | _, _ => False end
  | None => False
  end.
Proof.
  exists ([EvPush 1 6 2] ++ ev_push_all 4 1 400 ex_stale ex_a ++ [EvOpen 9 400; EvFetch 9; EvFetch 9; EvDisk 0; EvDisk 0; EvDisk 1; EvDisk 1]).
  split; [|vm_compute; auto]. cbn. unfold finished. repeat split; try reflexivity; try (intros ? [= <-]; reflexivity); try discriminate.
Qed.

(** The condition on re-using a read session is needed. ReadFirstSegment prefetches up to 50 segments but waits for the
    first only; PopTop and ReadFirstSegment then reset the session although reads are still queued for its cache.
    Here bundle 400 is opened, its first segment read (as ReadFirstSegment does for a deletion report), and the same
    session is used to read bundle 500: ReadAllSegments returns true with a piece of bundle 400 inside. *)
Definition stale_events : list ev :=
  [EvPush 1 8 8] ++ ev_push_all 4 1 400 ex_stale [10; 11; 12; 13; 14; 15; 16; 17] ++ [EvPush 2 8 8] ++ ev_push_all 4 2 500 ex_stale ex_b ++
  [EvDisk 0; EvDisk 0; EvDisk 0; EvDisk 0] ++
  [EvOpen 9 400; EvFetch 9; EvFetch 9; EvDisk 0; EvTake 9] ++
  [EvOpen 9 500; EvFetch 9; EvFetch 9; EvDisk 0; EvDisk 0; EvTake 9; EvTake 9].
Theorem C20_session_reused_after_ReadFirstSegment_refuted : exists c max es st os p1 p2,
  cfg_ok c max /\ run c (st_init max ex_junk) es = Some (st, os) /\ es = stale_events /\
  skipn 15 os = [ORet 8; ONone; ONone; ONone; ONone; OBytes p1; OBytes p2] /\
  snd (read_all (sc_per c) 8 (repeat 0 8) [p1; p2]) = true /\
  fst (read_all (sc_per c) 8 (repeat 0 8) [p1; p2]) = [20; 21; 22; 23; 14; 15; 16; 17] /\ ex_b = [20; 21; 22; 23; 24; 25; 26; 27].
Proof.
  exists (mkScfg 1 4 W32), 10, stale_events.
  destruct (run (mkScfg 1 4 W32) (st_init 10 ex_junk) stale_events) as [[st os]|] eqn:E.
  2:{ exfalso. revert E. vm_compute. discriminate. }
  assert (Eo : os = match run (mkScfg 1 4 W32) (st_init 10 ex_junk) stale_events with Some (_, o) => o | None => [] end) by now rewrite E.
  exists st, os, [20; 21; 22; 23], [14; 15; 16; 17]. split; [vm_compute; repeat split; discriminate|]. split; [reflexivity|].
  split; [reflexivity|]. split; [rewrite Eo; vm_compute; reflexivity|]. vm_compute. auto.
Qed.
Print Assumptions C20_session_reused_after_ReadFirstSegment_refuted.

(** PushSegment ignores the result of CatalogIncomingBundleForStore. A refused bundle keeps its segments for ever:
    nothing is stored and nothing is being written, but a bundle of one segment no longer fits. *)
Theorem C20_refused_bundle_keeps_its_segments_refuted : exists c max es e st os,
  cfg_ok c max /\ legal_run (sc_per c) max spec_init (es ++ [e]) /\ run c (st_init max ex_junk) es = Some (st, os) /\
  sp_live (spec_run (sc_per c) max spec_init es) = [] /\ (forall w, sp_w (spec_run (sc_per c) max spec_init es) w = None) /\
  st_cat st = [] /\ e = EvPush 1 1 1 /\ match step c st e with Done _ o => o = ORet 0 | _ => False end.
Proof.
  exists (mkScfg 1 4 W32), 2, [EvPush 1 8 8; EvPushSeg 1 400 [1; 2; 3; 4] ex_stale false; EvPushSeg 1 400 [5; 6; 7; 8] ex_stale false], (EvPush 1 1 1).
  eexists. eexists. split; [vm_compute; repeat split; discriminate|]. split.
  { cbn. repeat split; try reflexivity; try (intros ? [= <-]; reflexivity); try discriminate. }
  split; [cbv -[mm_init alloc_segments]; vm_compute; reflexivity|].
  split; [reflexivity|]. split; [intros w; vm_compute; destruct w as [|[p|p|]]; reflexivity|]. vm_compute. auto.
Qed.
Print Assumptions C20_refused_bundle_keeps_its_segments_refuted.
