(** C23: an LTP receiving session delivers the exact red part exactly once. *)
From Coq Require Import NArith ZArith List Bool Lia ZifyBool ZifyN.
From Verif Require Import Base M_FragmentSet S_FragmentSet L_FragmentSet M_LtpFragmentSet S_LtpFragmentSet
  M_LtpReceiver M_LtpSender S_LtpSession L_LtpReceiver.
Import ListNotations.
Open Scope N_scope.

(** Fed with any multiset, in any order, of segments of one block, interleaved with any report acknowledgements,
    transmissions and timer expiries, the session never accesses memory outside its buffer and never uses stale report
    contents. *)
Theorem C23_honest_segments_are_safe : forall block L c rsn0 es,
  1 <= rc_maxclaims c -> L <= rc_maxred c -> L < U64MAX -> L <= size_of block -> size_of block < W64 ->
  Forall (segment_of block L) (segments_in es) -> csns_consistent (segments_in es) ->
  exists st out, rx_run c es (rx_init rsn0) = Some (st, out).
Proof.
  intros block L c rsn0 es H1 H2 H3 H4 H5 F HC.
  destruct (rx_run_inv block L c (conj H1 H2) H3 H4 H5 es [] (rx_init rsn0) F HC (rx_init_inv _ _ _ H4 H3)) as (st & out & E & _).
  eauto.
Qed.
Print Assumptions C23_honest_segments_are_safe.

(** Example data: six bytes, the first four red, MTU 2; the last red segment carries checkpoint 11, the first one
    discretionary checkpoint 10, and 12 is its retransmission after report 100. *)
Definition exblock : list N := [5; 6; 7; 8; 9; 10].
Definition exs0 := mkSeg 1 0 [5; 6] (Some (10, 0)).
Definition exs0' := mkSeg 0 0 [5; 6] None.
Definition exs1 := mkSeg 2 2 [7; 8] (Some (11, 0)).
Definition exs2 := mkSeg 7 4 [9; 10] None.
Definition exc := mkRconf 1000 2 3 true false 255.
Definition exes := [RvData exs2; RvData exs1; RvSend; RvData exs1; RvDelayTimer 11; RvSend; RvReportTimer 100; RvData exs0; RvSend; RvAck 100; RvData exs0'].
Lemma ex_segments : Forall (segment_of exblock 4) (segments_in exes) /\ csns_consistent (segments_in exes).
Proof.
  split.
  - cbn. repeat (apply Forall_cons || apply Forall_nil);
      (split; [vm_compute; discriminate|]; split; [vm_compute; discriminate|]; split; [reflexivity|]);
      unfold is_red, ends_red_part, ends_block, is_checkpoint, sg_len, size_of; cbn;
      first [right; repeat split; (lia || (intros [?|?]; lia) || (intros; lia))
            |left; repeat split; try lia; intros; try lia; try discriminate; eauto; match goal with H : exists _, _ |- _ => destruct H; discriminate | _ => idtac end ].
  - intros a b csn r r'. cbn. intuition subst; cbn in *; try discriminate; try (now split); congruence.
Qed.
Example C23_honest_segments_are_safe_ex : exists st out, rx_run exc exes (rx_init 100) = Some (st, out).
Proof.
  destruct ex_segments. apply (C23_honest_segments_are_safe exblock 4); auto; vm_compute; congruence.
Qed.

(** The red part reception callback is made exactly once, with exactly the red bytes, their number and the right
    end-of-block indication, if every red byte arrived; and not at all before that. (Any segment that carries the last
    red byte carries the end-of-red-part mark.) *)
Theorem C23_red_part_delivered_exactly_once : forall block L c rsn0 es st out,
  1 <= rc_maxclaims c -> L <= rc_maxred c -> L < U64MAX -> L <= size_of block -> size_of block < W64 ->
  Forall (segment_of block L) (segments_in es) -> csns_consistent (segments_in es) ->
  rx_run c es (rx_init rsn0) = Some (st, out) ->
  (0 < L -> (forall i, i < L -> red_received (segments_in es) i) ->
     rx_delivered st = [(slice block 0 L, L, L =? size_of block)]) /\
  (L = 0 \/ (exists i, i < L /\ ~ red_received (segments_in es) i) -> rx_delivered st = []).
Proof.
  intros block L c rsn0 es st out H1 H2 H3 H4 H5 F HC R.
  destruct (rx_run_inv block L c (conj H1 H2) H3 H4 H5 es [] (rx_init rsn0) F HC (rx_init_inv _ _ _ H4 H3)) as (st' & out' & E & I & _).
  rewrite E in R. injection R as <- <-. destruct I as [_ _ Hd Hdel _]. cbn [app] in *. rewrite Hdel. split.
  - intros A B. replace (rx_did st') with true; auto. symmetry. apply Hd. auto.
  - intros A. destruct (rx_did st') eqn:Ed; auto. exfalso. destruct (proj1 Hd eq_refl) as (B & C). destruct A as [A|(i & A1 & A2)]; [lia|auto].
Qed.
Print Assumptions C23_red_part_delivered_exactly_once.
Example C23_red_part_delivered_exactly_once_ex :
  option_map (fun p => rx_delivered (fst p)) (rx_run exc exes (rx_init 100)) = Some [([5; 6; 7; 8], 4, false)] /\
  option_map (fun p => rx_delivered (fst p)) (rx_run exc (firstn 7 exes) (rx_init 100)) = Some [] /\
  (forall i, i < 4 -> red_received (segments_in exes) i).
Proof.
  split; [vm_compute; reflexivity|]. split; [vm_compute; reflexivity|]. intros i Hi.
  destruct (i <? 2) eqn:E; [exists exs0|exists exs1]; (split; [cbn; tauto|]); unfold is_red, sg_len; cbn; lia.
Qed.

(** Every report sent is well formed, lies in the red part, claims something, and claims only bytes that arrived. *)
Theorem C23_reports_claim_only_received_bytes : forall block L c rsn0 es st out r,
  1 <= rc_maxclaims c -> L <= rc_maxred c -> L < U64MAX -> L <= size_of block -> size_of block < W64 ->
  Forall (segment_of block L) (segments_in es) -> csns_consistent (segments_in es) ->
  rx_run c es (rx_init rsn0) = Some (st, out) -> In r out ->
  report_within L (rp_rep r) /\ forall i, claimed (rp_rep r) i -> red_received (segments_in es) i.
Proof.
  intros block L c rsn0 es st out r H1 H2 H3 H4 H5 F HC R Hr.
  destruct (rx_run_inv block L c (conj H1 H2) H3 H4 H5 es [] (rx_init rsn0) F HC (rx_init_inv _ _ _ H4 H3)) as (st' & out' & E & _ & Fo).
  rewrite E in R. injection R as <- <-. rewrite Forall_forall in Fo. apply (Fo r Hr).
Qed.
Print Assumptions C23_reports_claim_only_received_bytes.
Example C23_reports_claim_only_received_bytes_ex : option_map snd (rx_run exc exes (rx_init 100)) =
  Some [mkRpkt 100 11 (mkReport 0 4 [(2, 2)]); mkRpkt 100 11 (mkReport 0 4 [(2, 2)])].
Proof. vm_compute. reflexivity. Qed.

(** Honest segments never make the session cancel itself as miscoloured or out of resources. *)
Theorem C23_honest_segments_never_cancelled : forall block L c rsn0 es st out,
  1 <= rc_maxclaims c -> L <= rc_maxred c -> L < U64MAX -> L <= size_of block -> size_of block < W64 ->
  Forall (segment_of block L) (segments_in es) -> csns_consistent (segments_in es) ->
  rx_run c es (rx_init rsn0) = Some (st, out) -> ~ In CancelMiscolored (rx_notes st) /\ ~ In CancelSystem (rx_notes st).
Proof.
  intros block L c rsn0 es st out H1 H2 H3 H4 H5 F HC R.
  destruct (rx_run_inv block L c (conj H1 H2) H3 H4 H5 es [] (rx_init rsn0) F HC (rx_init_inv _ _ _ H4 H3)) as (st' & out' & E & I & _).
  rewrite E in R. injection R as <- <-. pose proof (rm_notes _ _ _ _ (ri_mid _ _ _ _ I)) as B. rewrite Forall_forall in B.
  split; intros H; destruct (B _ H); discriminate.
Qed.
Print Assumptions C23_honest_segments_never_cancelled.
(** A segment that is not honest is noticed: red data above green data. *)
Example C23_honest_segments_never_cancelled_ex :
  option_map (fun p => rx_notes (fst p)) (rx_run exc (exes ++ [RvData exs2]) (rx_init 100)) = Some [Closed] /\
  option_map (fun p => rx_notes (fst p)) (rx_run exc [RvData exs1; RvData (mkSeg 4 3 [1] None)] (rx_init 100)) = Some [CancelMiscolored].
Proof. split; vm_compute; reflexivity. Qed.

(** Every green segment is handed to the client, unchanged and in arrival order. *)
Theorem C23_green_segments_handed_through : forall block L c rsn0 es st out,
  1 <= rc_maxclaims c -> L <= rc_maxred c -> L < U64MAX -> L <= size_of block -> size_of block < W64 ->
  Forall (segment_of block L) (segments_in es) -> csns_consistent (segments_in es) ->
  rx_run c es (rx_init rsn0) = Some (st, out) -> rx_green st = green_notices (segments_in es).
Proof.
  intros block L c rsn0 es st out H1 H2 H3 H4 H5 F HC R.
  exact (rx_run_green block L c (conj H1 H2) H3 H4 H5 es [] (rx_init rsn0) st out F HC (rx_init_inv _ _ _ H4 H3) R).
Qed.
Print Assumptions C23_green_segments_handed_through.
Example C23_green_segments_handed_through_ex :
  option_map (fun p => rx_green (fst p)) (rx_run exc exes (rx_init 100)) = Some [(4, [9; 10], true)].
Proof. vm_compute. reflexivity. Qed.

(** Without the assumption that offset + length does not wrap, one segment makes the session write outside its buffer:
    DataSegmentReceivedCallback checks the wrapped sum only. *)
Theorem C23_wrapping_offset_writes_out_of_bounds_refuted : exists c sg,
  1 <= rc_maxclaims c /\ sg_off sg < W64 /\ rx_run c [RvData sg] (rx_init 1) = None.
Proof.
  exists exc, (mkSeg 0 (W64 - 4) [1; 2; 3; 4; 5; 6; 7; 8] None). split; [vm_compute; discriminate|]. split; [reflexivity|].
  vm_compute. reflexivity.
Qed.
Print Assumptions C23_wrapping_offset_writes_out_of_bounds_refuted.

(** The condition on checkpoint serial numbers is needed: with correct segments that reuse a serial number on another range
    the last red byte may arrive and the red part is never delivered. *)
Theorem C23_reused_checkpoint_serial_blocks_delivery_refuted : exists block L es st out,
  Forall (segment_of block L) (segments_in es) /\ (forall i, i < L -> red_received (segments_in es) i) /\ 0 < L /\
  rx_run exc es (rx_init 1) = Some (st, out) /\ rx_delivered st = [].
Proof.
  exists [5; 6], 2, [RvData (mkSeg 1 0 [5] (Some (9, 0))); RvData (mkSeg 3 1 [6] (Some (9, 0)))]. eexists _, _.
  split; [|split; [|split; [reflexivity|split; [vm_compute; reflexivity|reflexivity]]]].
  - cbn. repeat (apply Forall_cons || apply Forall_nil);
      (split; [vm_compute; discriminate|]; split; [vm_compute; discriminate|]; split; [reflexivity|]);
      unfold is_red, ends_red_part, ends_block, is_checkpoint, sg_len, size_of; cbn;
      left; repeat split; try lia; intros; try lia; eauto.
  - intros i Hi. destruct (i =? 0) eqn:E; [exists (mkSeg 1 0 [5] (Some (9, 0)))|exists (mkSeg 3 1 [6] (Some (9, 0)))];
      (split; [cbn; tauto|]); unfold is_red, sg_len; cbn; lia.
Qed.
Print Assumptions C23_reused_checkpoint_serial_blocks_delivery_refuted.
