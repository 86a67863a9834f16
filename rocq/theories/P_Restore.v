(** Property C21: what a restart restores. Vocabulary: S_Restore.v. *)
From Coq Require Import NArith List Bool Lia ZifyBool ZifyN Sorted Permutation.
From Verif Require Import Base M_SegmentAlloc S_SegmentAlloc L_SegmentAlloc M_Storage S_Storage L_Storage M_Restore S_Restore L_Restore L_Restart P_Storage.
Import ListNotations.
Open Scope N_scope.

(** C21: for every disk image whatsoever, if RestoreFromDisk succeeds then the bundles it handed to the catalog are
    complete chains on the image, no segment is in two of them, every head segment before the point where it stopped
    is accounted for, exactly their segments are allocated, and the totals are right. *)
Theorem C21_restored_bundles_are_on_the_image : forall c max parse im fuel r, cfg_ok c max -> restore c max parse im fuel = RDone r ->
  exists last, holds c max parse im (r_found r) last /\ observes (r_mm r) max (chains (r_found r)) /\
    r_bundles r = len (r_found r) mod W64 /\ r_bytes r = sum (map (fun f => e_size (fd_entry f)) (r_found r)) mod W64 /\
    r_segments r = len (chains (r_found r)) mod W64.
Proof.
  intros c max parse im fuel r C E.
  destruct (restore_sound c max parse im C fuel 0 (r_init max) r) as (last & H & R & K); try exact E; cbn [r_init r_found].
  - lia.
  - constructor.
  - constructor.
  - intros f [].
  - apply refines_init. apply C.
  - repeat split.
  - intros. lia.
  - exists last. split; [exact H|]. split; [now apply refines_observes|exact K].
Qed.
Print Assumptions C21_restored_bundles_are_on_the_image.

(** C21: an image that holds bundles [l] is restored, and to exactly [l]. *)
Theorem C21_image_is_restored : forall c max parse im l last, cfg_ok c max -> holds c max parse im l last ->
  exists r, (forall fuel, (N.to_nat last < fuel)%nat -> restore c max parse im fuel = RDone r) /\ r_found r = l /\
    observes (r_mm r) max (chains l).
Proof.
  intros c max parse im l last C H.
  destruct (restore_holds c max parse im l last C H (N.to_nat last) 0 [] l (r_init max)) as (r & H1 & H2 & H3 & _).
  - f_equal. lia.
  - lia.
  - reflexivity.
  - intros f [].
  - intros. lia.
  - reflexivity.
  - apply refines_init. apply C.
  - repeat split.
  - exists r. split; [exact H1|]. split; [exact H2|now apply refines_observes].
Qed.
Print Assumptions C21_image_is_restored.

(** C21: a manager that was stopped with its queues drained and no unfinished or refused bundle, after any legal history
    (with any number of earlier restarts), is restored to the same catalog (same custody ids, sizes and segment chains)
    and the same allocator, provided some segment of the store was never written. *)
Theorem C21_stopped_store_is_restored : forall c max parse uuid sp st im, cfg_ok c max -> reachr c max parse sp st ->
  quiet (sc_per c) sp st -> parses (sc_per c) parse uuid (sp_live sp) -> image_of c (st_file st) im ->
  (exists id, id < max /\ st_file st (id mod sc_disks c) (id / sc_disks c) = None) ->
  exists r, (forall fuel, (N.to_nat max <= fuel)%nat -> restore c max parse im fuel = RDone r) /\
    (forall junk, Permutation (st_cat (restarted (st_file st) r junk)) (st_cat st)) /\
    (forall id, is_segment_free (r_mm r) id = is_segment_free (st_mm st) id) /\
    r_bundles r = len (sp_live sp) mod W64 /\ r_bytes r = sum (map (fun x => len (snd x)) (sp_live sp)) mod W64 /\
    r_segments r = sp_used sp mod W64.
Proof.
  intros c max parse uuid sp st im C R Q Pa Im (id0 & Hid0 & Hnone).
  destruct (reachr_inv c max parse sp st C R) as (A & own & hw & I & Lo).
  destruct (quiet_holds c max parse uuid sp st A own hw im C I Lo Q Pa Im) as (HA & _ & Hh).
  pose proof (i_mm _ _ _ _ _ _ I) as Rf. pose proof (i_cat _ _ _ _ _ _ I) as F.
  assert (Hhw : hw < max).
  { pose proof (l_max _ _ _ _ Lo) as Hm. destruct (N.eq_dec hw max) as [E|]; [|lia]. exfalso.
    destruct (l_low _ _ _ _ Lo id0 ltac:(lia)) as [(U1 & U2)|U].
    - apply U2. apply HA. now apply (used_iff _ _ _ _ Rf).
    - apply U. rewrite quiet_logical by apply Q. exact Hnone. }
  destruct (Hh Hhw) as (L & P & Ho). destruct (C21_image_is_restored c max parse im L hw C Ho) as (r & E & Er & _).
  assert (Ed : restore c max parse im (S (N.to_nat hw)) = RDone r) by (apply E; lia).
  destruct (restart_state c max parse uuid sp st A own hw im _ r C I Lo Q Pa Im Ed) as (_ & P2 & Ec & _ & R2 & K1 & K2 & K3).
  exists r. split; [intros fuel Hf; apply E; lia|]. split.
  { intros junk. cbn [restarted st_cat]. rewrite Ec, map_rev. rewrite <- Permutation_rev, <- (founds_cat uuid c st own _ _ F). now apply Permutation_map. }
  split.
  { intros id. destruct (is_segment_free_refines _ _ _ id R2) as (b & -> & Hb). destruct (is_segment_free_refines _ _ _ id Rf) as (b' & -> & Hb').
    f_equal. destruct b, b'; auto; [symmetry; apply Hb'; now apply Hb|apply Hb; now apply Hb']. }
  assert (Hlen : length (st_cat st) = length (sp_live sp)) by (rewrite <- (map_length fst (st_cat st)), (map_fst_eq _ _ _ _ _ F); apply map_length).
  split; [rewrite K1; f_equal; unfold len; rewrite (Permutation_length P2); unfold founds; rewrite map_length, combine_length, Hlen; lia|].
  split.
  - rewrite K2. f_equal. transitivity (sum (map (fun f => e_size (fd_entry f)) (founds uuid (st_cat st) (sp_live sp)))).
    + clear - P2. unfold sum. induction P2; cbn [map fold_right]; lia.
    + clear - F. unfold founds, sum. induction F as [|x y cat live Ok F IH]; [reflexivity|]. cbn [combine map fold_right]. rewrite IH. f_equal. apply Ok.
  - rewrite K3. f_equal. transitivity (len (chains (founds uuid (st_cat st) (sp_live sp)))).
    + unfold len. f_equal. apply Permutation_length. now apply chains_perm.
    + destruct Q as (_ & ->). rewrite (sum_chains c st own _ _ F). unfold chains, founds. f_equal. f_equal. rewrite map_map. cbn [fd_entry].
      clear - F. induction F as [|x y cat live Ok F IH]; [reflexivity|]. cbn [combine map]. now rewrite IH.
Qed.
Print Assumptions C21_stopped_store_is_restored.

(** C21: after such restarts, in any number and at any such points, every call still behaves as prescribed: each stored
    bundle is read back byte for byte and new ones are stored without touching it. *)
Theorem C21_store_goes_on_after_restarts : forall c max parse sp st e, cfg_ok c max -> reachr c max parse sp st -> legal (sc_per c) sp e ->
  match step c st e with
  | Undef => False
  | Blocked => True
  | Done _ o => out_ok (sc_per c) max sp e o
  end.
Proof.
  intros c max parse sp st e C R L. destruct (reachr_inv c max parse sp st C R) as (A & own & hw & I & _).
  pose proof (step_inv c max sp st A own e C I L) as S. destruct (step c st e); [exact S|exact Logic.I|apply S].
Qed.
Print Assumptions C21_store_goes_on_after_restarts.

(** ** A concrete store: bundles begin with version byte 6 followed by their identity. *)
Definition ex_parse (l : list N) : option (option N) := match l with 6 :: u :: _ => Some (Some u) | _ => None end.
Definition ex_uuid (l : list N) : option N := match l with _ :: u :: _ => Some u | _ => None end.
Definition ba : list N := [6; 1; 12; 13; 14; 15].
Definition bb : list N := [6; 2; 22; 23; 24; 25; 26; 27].
Definition bc : list N := [6; 3; 33].
(** Two disks, 10 segments; three bundles, the first is removed; everything is written. *)
Definition ex_stop : list ev :=
  [EvPush 1 6 2] ++ ev_push_all 4 1 400 ex_stale ba ++ [EvPush 2 8 3] ++ ev_push_all 4 2 500 ex_stale bb ++
  [EvRemove 400 ex_seg; EvPush 1 3 1] ++ ev_push_all 4 1 600 ex_stale bc ++ [EvDisk 0; EvDisk 0; EvDisk 0; EvDisk 0; EvDisk 1; EvDisk 1].
Definition final (c : scfg) (max : N) (es : list ev) : storage :=
  match run c (st_init max ex_junk) es with Some (st, _) => st | None => st_init max ex_junk end.
Definition crash_image (c : scfg) (max : N) (es : list ev) : image := image_at c max (st_file (final c max es)).

Ltac legal_concrete := cbn; unfold finished; repeat split; try reflexivity; try (intros ? [= <-]; reflexivity); try discriminate.

Lemma crash_image_ok c max parse es : cfg_ok c max -> legal_run (sc_per c) max spec_init es -> run c (st_init max ex_junk) es <> None ->
  reachr c max parse (spec_run (sc_per c) max spec_init es) (final c max es) /\ image_of c (st_file (final c max es)) (crash_image c max es).
Proof.
  intros C L Hr. unfold final, crash_image, final. destruct (run c (st_init max ex_junk) es) as [[st os]|] eqn:E; [|congruence].
  assert (R : reachr c max parse (spec_run (sc_per c) max spec_init es) st).
  { apply reach_reachr. eapply run_reach; [apply reach_init|exact L|exact E]. }
  split; [exact R|]. apply image_at_ok. eapply reachr_bounded; eauto.
Qed.

Example C21_stopped_store_is_restored_ex :
  cfg_ok ex_cfg 10 /\ reachr ex_cfg 10 ex_parse (spec_run 4 10 spec_init ex_stop) (final ex_cfg 10 ex_stop) /\
  quiet 4 (spec_run 4 10 spec_init ex_stop) (final ex_cfg 10 ex_stop) /\
  parses 4 ex_parse ex_uuid (sp_live (spec_run 4 10 spec_init ex_stop)) /\
  image_of ex_cfg (st_file (final ex_cfg 10 ex_stop)) (crash_image ex_cfg 10 ex_stop) /\
  (exists id, id < 10 /\ st_file (final ex_cfg 10 ex_stop) (id mod 2) (id / 2) = None) /\
  sp_live (spec_run 4 10 spec_init ex_stop) = [(600, bc); (500, bb)] /\
  match restore ex_cfg 10 ex_parse (crash_image ex_cfg 10 ex_stop) 10 with
  | RDone r => r_found r = [mkFound 600 (Some 3) (mkEntry 3 1 [0]); mkFound 500 (Some 2) (mkEntry 8 3 [2; 3])] /\ r_bytes r = 11
  | _ => False
  end.
Proof.
  assert (C : cfg_ok ex_cfg 10) by (vm_compute; repeat split; discriminate).
  assert (L : legal_run 4 10 spec_init ex_stop) by legal_concrete.
  assert (Hr : run ex_cfg (st_init 10 ex_junk) ex_stop <> None) by (vm_compute; discriminate).
  destruct (crash_image_ok ex_cfg 10 ex_parse ex_stop C L Hr) as (R & Im).
  assert (El : sp_live (spec_run 4 10 spec_init ex_stop) = [(600, bc); (500, bb)]) by (vm_compute; reflexivity).
  split; [exact C|]. split; [exact R|]. split.
  { split; [|vm_compute; reflexivity]. intros d. destruct d as [|[d|d|]]; vm_compute; reflexivity. }
  split.
  { rewrite El. split.
    - intros cu data tail [[= <- <-]|[[= <- <-]|[]]]; reflexivity.
    - intros cu data cu' data' H1 H2 Hne. destruct H1 as [E|[E|[]]], H2 as [E2|[E2|[]]]; injection E as <- <-; injection E2 as <- <-;
        try reflexivity; now contradiction Hne. }
  split; [exact Im|]. split; [exists 7; vm_compute; auto|]. split; [exact El|]. vm_compute. auto.
Qed.

Example C21_image_is_restored_ex : exists l last, holds ex_cfg 10 ex_parse (crash_image ex_cfg 10 ex_stop) l last /\ length l = 2%nat.
Proof.
  destruct C21_stopped_store_is_restored_ex as (C & _ & _ & _ & _ & _ & _ & E).
  destruct (restore ex_cfg 10 ex_parse (crash_image ex_cfg 10 ex_stop) 10) as [| |r|r] eqn:Er; try contradiction.
  destruct (C21_restored_bundles_are_on_the_image _ _ _ _ _ _ C Er) as (last & H & _). exists (r_found r), last. split; [exact H|]. now rewrite (proj1 E).
Qed.
(** Stopped, restarted, and used again: the two bundles are found, one is read, and a new one fits beside them. *)
Definition ex_restarted : storage :=
  match restore ex_cfg 10 ex_parse (crash_image ex_cfg 10 ex_stop) 10 with
  | RDone r => restarted (st_file (final ex_cfg 10 ex_stop)) r ex_junk
  | _ => st_init 10 ex_junk
  end.
Example C21_store_goes_on_after_restarts_ex :
  reachr ex_cfg 10 ex_parse (mkSp 3 [(500, bb); (600, bc)] (fun _ => None) (fun _ => RIdle)) ex_restarted /\
  option_map snd (run ex_cfg ex_restarted [EvOpen 9 500; EvFetch 9; EvFetch 9; EvDisk 0; EvDisk 1; EvTake 9; EvTake 9; EvPush 1 12 1; EvPush 2 21 1; EvRemove 600 ex_seg]) =
  Some [ORet 8; ONone; ONone; ONone; ONone; OBytes [6; 2; 22; 23]; OBytes [24; 25; 26; 27]; ORet 3; ORet 0; ORet 1].
Proof.
  split; [|vm_compute; reflexivity].
  destruct C21_stopped_store_is_restored_ex as (C & R & Q & Pa & Im & _ & El & E).
  unfold ex_restarted. destruct (restore ex_cfg 10 ex_parse (crash_image ex_cfg 10 ex_stop) 10) as [| |r|r] eqn:Er; try contradiction.
  replace 3 with (sp_used (spec_run 4 10 spec_init ex_stop)) by (vm_compute; reflexivity).
  eapply reachr_restart; try eassumption.
  - rewrite El. apply perm_swap.
  - cbn [restarted st_cat]. rewrite (proj1 E). reflexivity.
Qed.

(** ** Where the claim fails *)

(** The store must not have been written up to its last segment: with every segment present on disk the loop, which ends
    only at a free segment that is behind the end of its file, never ends (IsSegmentFree is false for ids at and
    beyond the capacity, and the id wraps around). *)
Theorem C21_full_store_never_finishes : forall c max parse im fuel r, cfg_ok c max ->
  (forall id, id < max -> read_block c im id <> None) -> restore c max parse im fuel <> RDone r.
Proof.
  intros c max parse im fuel r (_ & _ & _ & Hm) H. unfold restore.
  apply (never_done c parse im max Hm fuel 0 (r_init max) [] (refines_init max Hm)). intros id Hid. right. now apply H.
Qed.
Print Assumptions C21_full_store_never_finishes.

(** A store that is exactly full and was stopped with nothing outstanding: RestoreFromDisk runs for ever. *)
Definition ex_full : list ev := [EvPush 1 8 8] ++ ev_push_all 4 1 500 ex_stale bb ++ [EvDisk 0; EvDisk 0].
Lemma all_used_runs_on c parse im : forall fuel id r, (forall x, is_segment_free (r_mm r) x = Some false) -> restore_loop c parse im fuel id r = RMore.
Proof. induction fuel as [|fuel IH]; intros id r H; cbn [restore_loop]; [reflexivity|]. rewrite H. now apply IH. Qed.
Theorem C21_full_store_hangs_at_restart_refuted : exists c max parse uuid sp st im, cfg_ok c max /\ reachr c max parse sp st /\
  quiet (sc_per c) sp st /\ parses (sc_per c) parse uuid (sp_live sp) /\ image_of c (st_file st) im /\ sp_live sp = [(500, bb)] /\
  forall fuel, restore c max parse im fuel = RMore.
Proof.
  pose (c := mkScfg 1 4 W32).
  assert (C : cfg_ok c 2) by (vm_compute; repeat split; discriminate).
  assert (L : legal_run 4 2 spec_init ex_full) by legal_concrete.
  assert (Hr : run c (st_init 2 ex_junk) ex_full <> None) by (vm_compute; discriminate).
  destruct (crash_image_ok c 2 ex_parse ex_full C L Hr) as (R & Im).
  assert (El : sp_live (spec_run 4 2 spec_init ex_full) = [(500, bb)]) by (vm_compute; reflexivity).
  exists c, 2, ex_parse, ex_uuid, (spec_run 4 2 spec_init ex_full), (final c 2 ex_full), (crash_image c 2 ex_full).
  split; [exact C|]. split; [exact R|]. split; [split; [intros d; destruct d as [|[d|d|]]; vm_compute; reflexivity|vm_compute; reflexivity]|].
  split; [rewrite El; split; [intros cu data tail [[= <- <-]|[]]; reflexivity|]|].
  { intros cu data cu' data' [E|[]] [E2|[]] Hne. injection E as <- <-. injection E2 as <- <-. now contradiction Hne. }
  split; [exact Im|]. split; [exact El|].
  intros [|fuel]; [reflexivity|]. unfold restore. cbn [restore_loop].
  assert (W : exists m, walk c (crash_image c 2 ex_full) 500 2 0 (mm_init 2) [] = WDone m [0; 1] /\ refines m 2 [1; 0]).
  { pose proof (walk_inv c (crash_image c 2 ex_full) 500 2 2 0 (mm_init 2) [] [] (refines_init 2 ltac:(discriminate))) as W.
    assert (Ed : match walk c (crash_image c 2 ex_full) 500 2 0 (mm_init 2) [] with WDone _ ch => ch = [0; 1] | _ => False end) by (vm_compute; reflexivity).
    destruct (walk c (crash_image c 2 ex_full) 500 2 0 (mm_init 2) []) as [|m|m ch]; try contradiction. subst ch.
    destruct W as (ids & E & _ & _ & _ & _ & Rm). exists m. split; [reflexivity|]. cbn [app] in E. injection E as <-. exact Rm. }
  destruct W as (m & W1 & W2).
  replace (is_segment_free (r_mm (r_init 2)) 0) with (Some true) by (vm_compute; reflexivity).
  replace (read_block c (crash_image c 2 ex_full) 0) with (Some (mkSeg (mkShdr 8 500 8 1) [6; 2; 22; 23])) by (vm_compute; reflexivity).
  cbn [sg_hdr sg_data h_size h_custody h_psize h_next ex_parse].
  replace (8 =? U64MAX) with false by reflexivity. cbn [c sc_per sc_idw]. change (N.to_nat (total_segments 4 8)) with 2%nat. fold c.
  cbn [r_mm r_init]. rewrite W1. apply all_used_runs_on. cbn [r_mm]. intros x.
  destruct (is_segment_free_refines m 2 [1; 0] x W2) as (b & -> & Hb). f_equal. destruct b; [|reflexivity]. exfalso.
  destruct Hb as (Hb & _). destruct (Hb eq_refl) as (H1 & H2). apply H2. assert (x = 0 \/ x = 1) as [->| ->] by lia; cbn; auto.
Qed.
Print Assumptions C21_full_store_hangs_at_restart_refuted.

(** Stopping between the two segment writes of one bundle loses another, completely written one: the whole restore
    gives up. (The constructor then keeps the catalog built so far, but Start truncates the files.) *)
Definition ex_torn : list ev :=
  [EvPush 1 3 1] ++ ev_push_all 4 1 600 ex_stale bc ++ [EvPush 2 8 3] ++ ev_push_all 4 2 500 ex_stale bb ++ [EvDisk 0; EvDisk 0].
Theorem C21_torn_bundle_loses_the_others_refuted : exists c max parse sp st im f, cfg_ok c max /\ reachr c max parse sp st /\ image_of c (st_file st) im /\
  bundle_on c parse im f /\ In (fd_custody f, bc) (sp_live sp) /\ match restore c max parse im 10 with RFail r => r_found r = [f] | _ => False end.
Proof.
  pose (c := mkScfg 1 4 W32).
  assert (C : cfg_ok c 10) by (vm_compute; repeat split; discriminate).
  assert (L : legal_run 4 10 spec_init ex_torn) by legal_concrete.
  assert (Hr : run c (st_init 10 ex_junk) ex_torn <> None) by (vm_compute; discriminate).
  destruct (crash_image_ok c 10 ex_parse ex_torn C L Hr) as (R & Im).
  exists c, 10, ex_parse, (spec_run 4 10 spec_init ex_torn), (final c 10 ex_torn), (crash_image c 10 ex_torn), (mkFound 600 (Some 3) (mkEntry 3 1 [0])).
  split; [exact C|]. split; [exact R|]. split; [exact Im|]. split.
  { unfold bundle_on. cbn [fd_entry e_chain e_size e_psize fd_custody fd_uuid]. split; [discriminate|]. split; [constructor; [intros []|constructor]|].
    split; [reflexivity|]. split; [discriminate|]. intros [|[|i]] id Hi; try discriminate. injection Hi as <-. eexists. split; [vm_compute; reflexivity|].
    split; [reflexivity|]. split; [intros _; repeat split|reflexivity]. }
  split; [vm_compute; auto|]. vm_compute. reflexivity.
Qed.
Print Assumptions C21_torn_bundle_loses_the_others_refuted.

(** With two disks, a slow first disk hides a completely written bundle: the restore ends at the first missing
    segment and reports success. *)
Definition ex_lag : list ev :=
  [EvPush 1 3 1] ++ ev_push_all 4 1 600 ex_stale bc ++ [EvPush 2 4 3] ++ ev_push_all 4 2 500 ex_stale [6; 2; 22; 23] ++ [EvDisk 1].
Theorem C21_slow_disk_hides_a_written_bundle_refuted : exists c max parse sp st im f, cfg_ok c max /\ reachr c max parse sp st /\ image_of c (st_file st) im /\
  bundle_on c parse im f /\ In (fd_custody f, [6; 2; 22; 23]) (sp_live sp) /\ match restore c max parse im 10 with RDone r => r_found r = [] | _ => False end.
Proof.
  assert (C : cfg_ok ex_cfg 10) by (vm_compute; repeat split; discriminate).
  assert (L : legal_run 4 10 spec_init ex_lag) by legal_concrete.
  assert (Hr : run ex_cfg (st_init 10 ex_junk) ex_lag <> None) by (vm_compute; discriminate).
  destruct (crash_image_ok ex_cfg 10 ex_parse ex_lag C L Hr) as (R & Im).
  exists ex_cfg, 10, ex_parse, (spec_run 4 10 spec_init ex_lag), (final ex_cfg 10 ex_lag), (crash_image ex_cfg 10 ex_lag), (mkFound 500 (Some 2) (mkEntry 4 3 [1])).
  split; [exact C|]. split; [exact R|]. split; [exact Im|]. split.
  { unfold bundle_on. cbn [fd_entry e_chain e_size e_psize fd_custody fd_uuid]. split; [discriminate|]. split; [constructor; [intros []|constructor]|].
    split; [reflexivity|]. split; [discriminate|]. intros [|[|i]] id Hi; try discriminate. injection Hi as <-. eexists. split; [vm_compute; reflexivity|].
    split; [reflexivity|]. split; [intros _; repeat split|reflexivity]. }
  split; [vm_compute; auto|]. vm_compute. reflexivity.
Qed.
Print Assumptions C21_slow_disk_hides_a_written_bundle_refuted.

(** A custody id that is used again for a bundle in the same segments: stopping after its first segment is written leaves
    a chain whose remaining segments belong to the removed bundle, and the restore accepts it as complete. *)
Definition ex_mixed : list ev :=
  [EvPush 1 8 3] ++ ev_push_all 4 1 500 ex_stale bb ++ [EvRemove 500 ex_seg; EvPush 1 8 3] ++ ev_push_all 4 1 500 ex_stale [6; 9; 92; 93; 94; 95; 96; 97] ++
  [EvDisk 0; EvDisk 0; EvDisk 0; EvDisk 0].
Theorem C21_half_written_bundle_accepted_refuted : exists c max parse sp st im f s0 s1, cfg_ok c max /\ reachr c max parse sp st /\ image_of c (st_file st) im /\
  sp_live sp = [(500, [6; 9; 92; 93; 94; 95; 96; 97])] /\
  match restore c max parse im 10 with RDone r => r_found r = [f] | _ => False end /\ fd_custody f = 500 /\ e_chain (fd_entry f) = [0; 1] /\
  read_block c im 0 = Some s0 /\ read_block c im 1 = Some s1 /\ sg_data s0 ++ sg_data s1 = [6; 9; 92; 93; 24; 25; 26; 27].
Proof.
  pose (c := mkScfg 1 4 W32).
  assert (C : cfg_ok c 10) by (vm_compute; repeat split; discriminate).
  assert (L : legal_run 4 10 spec_init ex_mixed) by legal_concrete.
  assert (Hr : run c (st_init 10 ex_junk) ex_mixed <> None) by (vm_compute; discriminate).
  destruct (crash_image_ok c 10 ex_parse ex_mixed C L Hr) as (R & Im).
  exists c, 10, ex_parse, (spec_run 4 10 spec_init ex_mixed), (final c 10 ex_mixed), (crash_image c 10 ex_mixed), (mkFound 500 (Some 9) (mkEntry 8 3 [0; 1])).
  eexists. eexists.
  split; [exact C|]. split; [exact R|]. split; [exact Im|]. split; [vm_compute; reflexivity|]. split; [vm_compute; reflexivity|].
  split; [reflexivity|]. split; [reflexivity|]. split; [vm_compute; reflexivity|]. split; [vm_compute; reflexivity|reflexivity].
Qed.
Print Assumptions C21_half_written_bundle_accepted_refuted.
