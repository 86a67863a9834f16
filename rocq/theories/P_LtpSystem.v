(** C24: an LTP sender reports completion only if the receiver has all red data. *)
From Coq Require Import NArith ZArith List Bool Lia ZifyBool ZifyN.
From Verif Require Import Base M_FragmentSet S_FragmentSet M_LtpFragmentSet S_LtpFragmentSet
  M_LtpReceiver M_LtpSender S_LtpSession L_LtpReceiver L_LtpSender M_LtpSystem L_LtpSystem.
Import ListNotations.
Open Scope N_scope.

(** Example system: four red bytes and one green one, MTU 2, a checkpoint on every red segment, two claims per report. The
    first segment is lost, the reports and the retransmission get through, the second data segment arrives twice. *)
Definition exb : list N := [30; 31; 32; 33; 34].
Definition exsc := mkSconf 2 1 3 false false.
Definition exrc := mkRconf 1000 2 3 true false 0.
Definition ex0 := sys_init exsc 10 100 exb 4.
Definition exs1 := mkSeg 2 2 [32; 33] (Some (11, 0)).
Definition exr0 := mkRpkt 100 11 (mkReport 0 4 [(2, 2)]).
Definition exs0' := mkSeg 1 0 [30; 31] (Some (12, 100)).
Definition exr1 := mkRpkt 101 12 (mkReport 0 2 [(0, 2)]).
Definition exacts := [AFirst; AFirst; AArrive (PData exs1); ARecvDelay 11; AEmit; AFirst; AArrive (PData exs1); AReport exr0; ACritical; ACritical;
  AArrive (PAck 100); AArrive (PData exs0'); AEmit; AReport exr1].
Ltac possible_now := vm_compute; repeat first [exact I | split | reflexivity | left; reflexivity | right].
Lemma ex_exec : exists y, exec exsc exrc ex0 14 y /\ replay exsc exrc exacts ex0 = Some y.
Proof.
  eexists. split; [|vm_compute; reflexivity].
  apply (replay_exec exsc exrc ex0 exacts 0 ex0); [constructor| |vm_compute; reflexivity]. possible_now.
Qed.

(** Whatever the network delivers, drops, repeats or reorders and whichever timers expire, no step of either side reads or
    writes outside its buffers, loops for ever or uses stale contents. *)
Theorem C24_no_step_is_undefined : forall sc rc block L csn0 rsn0 n y a,
  1 <= sc_mtu sc -> 1 <= rc_maxclaims rc -> L <= rc_maxred rc -> L <= size_of block -> L < U64MAX -> size_of block < W64 ->
  exec sc rc (sys_init sc csn0 rsn0 block L) n y -> csn0 + n + 1 < W64 -> possible y a -> exists y', sys_step sc rc a y = Some y'.
Proof.
  intros sc rc block L csn0 rsn0 n y a H1 H2 H3 H4 H5 H6 E Hn P.
  assert (C : confs_ok sc rc block L) by (unfold confs_ok; auto 10).
  destruct (sys_step_inv sc rc block L csn0 n a y C Hn P (exec_inv sc rc block L csn0 rsn0 n y C E ltac:(lia))) as (y' & S & _). eauto.
Qed.
Print Assumptions C24_no_step_is_undefined.
Example C24_no_step_is_undefined_ex : exists y, exec exsc exrc ex0 14 y /\ exists y', sys_step exsc exrc (AReport exr0) y = Some y'.
Proof. destruct ex_exec as (y & E & R). exists y. split; auto. vm_compute in R. injection R as <-. eexists. vm_compute. reflexivity. Qed.

(** Completion is reported only after the receiver holds every red byte, and the receiver's client was by then given exactly
    the red part, once. *)
Theorem C24_completion_implies_delivery : forall sc rc block L csn0 rsn0 n y,
  1 <= sc_mtu sc -> 1 <= rc_maxclaims rc -> L <= rc_maxred rc -> L <= size_of block -> L < U64MAX -> size_of block < W64 ->
  exec sc rc (sys_init sc csn0 rsn0 block L) n y -> csn0 + n < W64 -> In Completed (tx_notes (y_s y)) ->
  (forall i, i < L -> red_received (y_got y) i) /\
  (0 < L -> rx_delivered (y_r y) = [(slice block 0 L, L, L =? size_of block)]).
Proof.
  intros sc rc block L csn0 rsn0 n y H1 H2 H3 H4 H5 H6 E Hn HC.
  assert (C : confs_ok sc rc block L) by (unfold confs_ok; auto 10). destruct (exec_inv sc rc block L csn0 rsn0 n y C E Hn) as [R S _ _ _].
  destruct (si_notes _ _ _ _ _ _ _ S HC) as (_ & Hcov).
  assert (HG : forall i, i < L -> red_received (y_got y) i) by (intros i Hi; apply (si_have _ _ _ _ _ _ _ S); auto).
  split; auto. intros HL. rewrite (ri_del _ _ _ _ R). replace (rx_did (y_r y)) with true; auto. symmetry. apply (ri_did _ _ _ _ R). auto.
Qed.
Print Assumptions C24_completion_implies_delivery.
Example C24_completion_implies_delivery_ex : exists y, exec exsc exrc ex0 14 y /\ tx_notes (y_s y) = [Completed] /\
  rx_delivered (y_r y) = [([30; 31; 32; 33], 4, false)].
Proof. destruct ex_exec as (y & E & R). exists y. split; auto. vm_compute in R. injection R as <-. split; vm_compute; reflexivity. Qed.

(** Every data segment the sender ever puts out, retransmissions included, is a correctly marked piece of the block, and a
    checkpoint serial number is never reused for another range. *)
Theorem C24_every_segment_sent_is_correct : forall sc rc block L csn0 rsn0 n y,
  1 <= sc_mtu sc -> 1 <= rc_maxclaims rc -> L <= rc_maxred rc -> L <= size_of block -> L < U64MAX -> size_of block < W64 ->
  exec sc rc (sys_init sc csn0 rsn0 block L) n y -> csn0 + n < W64 ->
  (forall sg, In (PData sg) (y_fwd y) -> segment_of block L sg) /\
  (forall a b csn r r', In (PData a) (y_fwd y) -> In (PData b) (y_fwd y) -> is_red a -> is_red b ->
     sg_ckpt a = Some (csn, r) -> sg_ckpt b = Some (csn, r') -> sg_off a = sg_off b /\ sg_len a = sg_len b).
Proof.
  intros sc rc block L csn0 rsn0 n y H1 H2 H3 H4 H5 H6 E Hn.
  assert (C : confs_ok sc rc block L) by (unfold confs_ok; auto 10). destruct (exec_inv sc rc block L csn0 rsn0 n y C E Hn) as [R S _ _ _].
  split.
  - intros sg H. pose proof (si_fwd _ _ _ _ _ _ _ S) as F. rewrite Forall_forall in F. apply F. now apply data_of_In.
  - assert (CC : csns_consistent (data_of (y_fwd y))).
    { apply functional_consistent. pose proof (si_occ _ _ _ _ _ _ _ S) as (F & _). intros a b Ha Hb. apply F; apply in_app_iff; auto. }
    intros a b csn r r' Ha Hb. apply CC; now apply data_of_In.
Qed.
Print Assumptions C24_every_segment_sent_is_correct.
Example C24_every_segment_sent_is_correct_ex : exists y, exec exsc exrc ex0 14 y /\
  y_fwd y = [PData (mkSeg 1 0 [30; 31] (Some (10, 0))); PData exs1; PData (mkSeg 7 4 [34] None); PAck 100; PData exs0'].
Proof. destruct ex_exec as (y & E & R). exists y. split; auto. vm_compute in R. injection R as <-. vm_compute. reflexivity. Qed.

(** The engine is told the outcome of a session at most once. *)
Theorem C24_at_most_one_outcome : forall sc rc block L csn0 rsn0 n y,
  1 <= sc_mtu sc -> 1 <= rc_maxclaims rc -> L <= rc_maxred rc -> L <= size_of block -> L < U64MAX -> size_of block < W64 ->
  exec sc rc (sys_init sc csn0 rsn0 block L) n y -> csn0 + n < W64 -> (length (tx_notes (y_s y)) <= 1)%nat.
Proof.
  intros sc rc block L csn0 rsn0 n y H1 H2 H3 H4 H5 H6 E Hn.
  assert (C : confs_ok sc rc block L) by (unfold confs_ok; auto 10). destruct (exec_inv sc rc block L csn0 rsn0 n y C E Hn) as [_ _ _ _ O].
  destruct O as [(-> & _)|((x & ->) & _)]; cbn; lia.
Qed.
Print Assumptions C24_at_most_one_outcome.
Example C24_at_most_one_outcome_ex : exists y, exec exsc exrc ex0 14 y /\
  option_map (fun y => tx_notes (y_s y)) (replay exsc exrc [AReport exr1; AReport exr0; ACkTimer 10] y) = Some [Completed].
Proof. destruct ex_exec as (y & E & R). exists y. split; auto. vm_compute in R. injection R as <-. vm_compute. reflexivity. Qed.

(** The converse fails, even over a network that loses nothing: two red bytes in two checkpoint segments that arrive in the
    wrong order are delivered to the receiver's client, but the receiver never reports the first byte, so from that moment
    on no execution, however long, lets the sender complete. *)
Theorem C24_delivered_yet_never_completed_refuted : exists sc rc block y n,
  exec sc rc (sys_init sc 1 1 block 2) n y /\ rx_delivered (y_r y) = [(block, 2, true)] /\
  forall m y', exec sc rc y m y' -> ~ In Completed (tx_notes (y_s y')).
Proof.
  exists (mkSconf 1 1 3 false false), (mkRconf 1000 20 3 false false 0), [5; 6].
  set (acts := [AFirst; AFirst; AArrive (PData (mkSeg 3 1 [6] (Some (2, 0)))); AArrive (PData (mkSeg 1 0 [5] (Some (1, 0)))); AEmit;
    AReport (mkRpkt 1 2 (mkReport 0 2 [(1, 1)]))]).
  eexists _, _. split; [|split].
  - eapply (replay_exec _ _ _ acts 0); [constructor| |vm_compute; reflexivity]. possible_now.
  - vm_compute. reflexivity.
  - intros m y' E. apply stuck_forever in E; [apply (sk_notes _ E)|]. constructor; cbn [y_r y_s y_rev rx_did rx_pending rx_sent tx_rsns tx_idx tx_notes]; auto.
    + intros p [[<-|[]]|[<-|[]]]; cbn; auto.
Qed.
Print Assumptions C24_delivered_yet_never_completed_refuted.
