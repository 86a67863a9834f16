(** C22: the first pass of an LTP sending session tiles the block. *)
From Coq Require Import NArith ZArith List Bool Lia ZifyBool ZifyN.
From Verif Require Import Base M_FragmentSet S_FragmentSet L_FragmentSet M_LtpFragmentSet S_LtpFragmentSet
  M_LtpReceiver M_LtpSender S_LtpSession L_LtpSender.
Import ListNotations.
Open Scope N_scope.

(** Whatever else happens in between (reports, even malicious ones, timers, retransmissions), the segments put out by the
    first pass cover a prefix of the block consecutively, are correctly marked segments of the block, and are as long as the
    MTU and the end of their colour allow. Either the whole block was covered or every request was answered. *)
Theorem C22_first_pass_tiles_the_block : forall block red c csn0 es st out,
  1 <= sc_mtu c -> red <= size_of block -> size_of block < W64 ->
  tx_run c es (tx_init c csn0 block red) = Some (st, out) ->
  exists upto, tiles 0 (first_pass out) upto /\ upto <= size_of block /\
    Forall (segment_of block red) (first_pass out) /\
    Forall (fun sg => sg_len sg = N.min (sc_mtu c) ((if sg_off sg <? red then red else size_of block) - sg_off sg)) (first_pass out) /\
    (upto = size_of block \/ length (first_pass out) = length (first_asks es)).
Proof.
  intros block red c csn0 es st out Hm Hr HW E.
  destruct (tx_run_first block red c Hm Hr HW es (tx_init c csn0 block red) st out eq_refl eq_refl ltac:(cbn; lia) E) as (A & B & C & D & F).
  exists (tx_idx st). repeat (split; [assumption|]). split; [|exact F]. eapply Forall_impl; [|exact D].
  cbn. intros sg H. rewrite H. unfold next_len. destruct (sg_off sg <? red); apply N.min_comm.
Qed.
Print Assumptions C22_first_pass_tiles_the_block.

(** Example: seven bytes of which five red, MTU 2, a checkpoint every second red segment; a report and timers in between. *)
Definition exb : list N := [20; 21; 22; 23; 24; 25; 26].
Definition exc := mkSconf 2 2 3 false false.
Definition exes := [SvFirst; SvFirst; SvReport (mkRpkt 7 51 (mkReport 0 4 [(2, 2)])); SvCritical; SvFirst; SvCritical; SvFirst; SvFirst; SvCkTimer 52].
Example C22_first_pass_tiles_the_block_ex : option_map (fun p => first_pass (snd p)) (tx_run exc exes (tx_init exc 50 exb 5)) =
  Some [mkSeg 0 0 [20; 21] None; mkSeg 1 2 [22; 23] (Some (50, 0)); mkSeg 2 4 [24] (Some (52, 0)); mkSeg 7 5 [25; 26] None].
Proof. vm_compute. reflexivity. Qed.

(** Over a complete first pass exactly one segment carries the end-of-red-part mark, everything up to it is red and
    everything after it is green; exactly one segment, the last one, carries the end-of-block mark. *)
Theorem C22_marks_are_unique : forall block red c csn0 es st out,
  1 <= sc_mtu c -> red <= size_of block -> size_of block < W64 ->
  tx_run c es (tx_init c csn0 block red) = Some (st, out) -> tiles 0 (first_pass out) (size_of block) ->
  (0 < red -> exists a sg b, first_pass out = a ++ sg :: b /\ ends_red_part sg /\ Forall (fun x => ~ ends_red_part x) (a ++ b) /\
     Forall is_red (a ++ [sg]) /\ Forall (fun x => ~ is_red x) b) /\
  (red = 0 -> Forall (fun x => ~ is_red x) (first_pass out)) /\
  (0 < size_of block -> exists a sg, first_pass out = a ++ [sg] /\ ends_block sg /\ Forall (fun x => ~ ends_block x) a).
Proof.
  intros block red c csn0 es st out Hm Hr HW E T.
  destruct (tx_run_first block red c Hm Hr HW es (tx_init c csn0 block red) st out eq_refl eq_refl ltac:(cbn; lia) E) as (_ & _ & C & _).
  split; [|split].
  - intros H. destruct (tiles_eorp block red _ _ _ T C H Hr) as (a & sg & b & A1 & A2 & A3 & A4 & A5). exists a, sg, b. auto.
  - intros ->. eapply tiles_green; eauto. lia.
  - intros H. eapply tiles_eob; eauto.
Qed.
Print Assumptions C22_marks_are_unique.
Example C22_marks_are_unique_ex : exists st out, tx_run exc exes (tx_init exc 50 exb 5) = Some (st, out) /\
  tiles 0 (first_pass out) 7 /\ map sg_flags (first_pass out) = [0; 1; 2; 7].
Proof. eexists _, _. split; [vm_compute; reflexivity|]. cbn. repeat split. Qed.

(** First pass checkpoints have distinct (increasing) serial numbers as long as the 64-bit counter does not run over. *)
Theorem C22_checkpoint_serials_distinct : forall block red c csn0 es st out,
  1 <= sc_mtu c -> red <= size_of block -> size_of block < W64 -> csn0 + N.of_nat (length es) < W64 ->
  tx_run c es (tx_init c csn0 block red) = Some (st, out) ->
  NoDup (serials (first_pass out)) /\ Forall (N.le csn0) (serials (first_pass out)).
Proof.
  intros block red c csn0 es st out Hm Hr HW Hk E.
  destruct (tx_run_serials block red c csn0 Hm Hr HW es 0 (tx_init c csn0 block red) st out eq_refl eq_refl ltac:(unfold csn_ok; cbn; lia) ltac:(lia) E) as (A & B).
  split; [now apply sorted_lt_NoDup|exact B].
Qed.
Print Assumptions C22_checkpoint_serials_distinct.
Example C22_checkpoint_serials_distinct_ex :
  option_map (fun p => serials (first_pass (snd p))) (tx_run exc exes (tx_init exc 50 exb 5)) = Some [50; 52].
Proof. vm_compute. reflexivity. Qed.

(** Discretionary checkpoints: a red first pass segment is a checkpoint exactly if it ends the red part or its number is a
    multiple of the configured interval. *)
Theorem C22_every_nth_red_segment_is_a_checkpoint : forall block red c csn0 es st out j sg,
  1 <= sc_mtu c -> red <= size_of block -> size_of block < W64 -> sc_nth c < W64 ->
  tx_run c es (tx_init c csn0 block red) = Some (st, out) ->
  nth_error (filter (fun sg => sg_flags sg <=? 3) (first_pass out)) j = Some sg ->
  (is_checkpoint sg <-> (sc_nth c <> 0 /\ (N.of_nat j + 1) mod sc_nth c = 0) \/ ends_red_part sg).
Proof.
  intros block red c csn0 es st out j sg Hm Hr HW Hn E Hj.
  rewrite (tx_run_periodic block red c Hm Hr HW Hn es (tx_init c csn0 block red) st out eq_refl eq_refl ltac:(cbn; lia) E j sg Hj). cbn [tx_init tx_cnt].
  now rewrite N.sub_diag, N.add_0_r.
Qed.
Print Assumptions C22_every_nth_red_segment_is_a_checkpoint.
Example C22_every_nth_red_segment_is_a_checkpoint_ex : option_map (fun p => map sg_flags (first_pass (snd p)))
  (tx_run (mkSconf 1 3 3 false false) (repeat SvFirst 9) (tx_init (mkSconf 1 3 3 false false) 50 exb 7)) = Some [0; 0; 1; 0; 0; 1; 3].
Proof. vm_compute. reflexivity. Qed.

(** A report segment is believed without checking it against the block: one whose upper bound exceeds the block makes the
    sender read outside the block when it retransmits. *)
Theorem C22_report_beyond_block_reads_out_of_bounds_refuted : exists block red c r,
  1 <= sc_mtu c /\ red <= size_of block /\ well_formed true (rp_rep r) /\
  (exists st out, tx_run c [SvFirst; SvReport r] (tx_init c 1 block red) = Some (st, out)) /\
  tx_run c [SvFirst; SvReport r; SvCritical; SvCritical; SvCritical] (tx_init c 1 block red) = None.
Proof.
  exists [1; 2; 3], 3, (mkSconf 2 0 3 false false), (mkRpkt 9 0 (mkReport 0 1000 [(0, 1)])).
  split; [discriminate|]. split; [discriminate|]. split; [|split].
  - split; [reflexivity|]. split; [reflexivity|]. split; repeat constructor; vm_compute; discriminate.
  - eexists _, _. vm_compute. reflexivity.
  - vm_compute. reflexivity.
Qed.
Print Assumptions C22_report_beyond_block_reads_out_of_bounds_refuted.
