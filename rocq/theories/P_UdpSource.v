(** C65: what the UDP source reports as sent, whatever the interleaving of its threads, timers and completions. *)
From Coq Require Import PeanoNat NArith List Bool Lia Permutation.
From Verif Require Import Base M_UdpSource S_UdpSource L_UdpSource.
Import ListNotations.
Open Scope nat_scope.

(** With one kind of bundles, or without a rate limit, and without errors of the network interface: the datagrams are sent in the order of Forward, each is reported with its own user data once it was sent, and the link stays up. *)
Theorem C65_sent_in_order_and_reported : forall cap rate es s, reached cap rate es s -> no_error es -> rate = false \/ one_kind es ->
  (exists rest, r_wire s ++ rest = r_acc s) /\ r_out s = map m_user (r_wire s) /\ r_life s <> Closed.
Proof.
  intros cap rate es s H N K. assert (I : exists b, inv1 rate b s).
  { destruct K as [->|[b K]]; [exists true; apply (inv1_reached cap false es); [exact H|exact N|discriminate]|exists b; apply (inv1_reached cap rate es); auto]. }
  destruct I as [b [I1 [_ [I3 [_ [I5 _]]]]]]. split; [exists (pending s); exact I1|]. split; assumption.
Qed.
Print Assumptions C65_sent_in_order_and_reported.
(** And then, when nothing is under way any more, all that Forward accepted was sent and reported. *)
Theorem C65_everything_is_sent : forall cap rate es s, reached cap rate es s -> no_error es -> rate = false \/ one_kind es -> quiet s ->
  r_wire s = r_acc s /\ r_out s = map m_user (r_acc s).
Proof.
  intros cap rate es s H N K [Q1 [Q2 Q3]]. assert (I : exists b, inv1 rate b s).
  { destruct K as [->|[b K]]; [exists true; apply (inv1_reached cap false es); [exact H|exact N|discriminate]|exists b; apply (inv1_reached cap rate es); auto]. }
  destruct I as [b [I1 [_ [I3 _]]]]. destruct (inv_reached _ _ _ _ H) as [_ [_ [_ [J _]]]]. destruct (J Q3) as [J1 J2].
  unfold pending in I1. rewrite Q1, Q2, J1, J2 in I1. cbn in I1. rewrite app_nil_r in I1. split; [exact I1|]. rewrite <- I1. exact I3.
Qed.
Print Assumptions C65_everything_is_sent.
(** In all executions: reports come in the order of Forward, without gaps, and no more than datagrams were sent; at most cap - 1 are without a report; each accepted bundle is sent at most once, and nothing else is. *)
Theorem C65_reports_in_order : forall cap rate es s, reached cap rate es s ->
  (exists rest, r_out s ++ rest = map m_user (r_acc s) /\ length rest <= cap - 1) /\ length (r_out s) <= length (r_wire s) /\ exists others, Permutation (r_wire s ++ others) (r_acc s).
Proof.
  intros cap rate es s H. destruct (inv_reached _ _ _ _ H) as [I1 [I2 [I3 [_ [lost I5]]]]]. split; [exists (map snd (r_ring s)); split; [exact I1|rewrite map_length; exact I2]|]. split; [exact I3|]. eexists. exact I5.
Qed.
Print Assumptions C65_reports_in_order.
(** In all executions, also with two kinds and with errors: of each kind, the datagrams are sent in the order of Forward. *)
Theorem C65_each_kind_in_order : forall cap rate b es s, reached cap rate es s -> some_of (of_kind b (r_wire s)) (of_kind b (r_acc s)).
Proof. intros cap rate b es s H. destruct (inv2_reached cap rate b es s H) as [I _]. exact (some_head _ _ _ I). Qed.
Print Assumptions C65_each_kind_in_order.
(** Two of each kind under a rate limit, all sent: vectors first. *)
Example C65_kinds_example : exists s, reached 12 true [Resolved; Forward (mkMsg true 10 1); Forward (mkMsg false 10 2); Forward (mkMsg true 10 3); Forward (mkMsg false 10 4); Handle false; Handle false; Handle false; Handle false; Timer 4 true; Done true; Done true; Done true; Done true] s
  /\ map m_user (r_wire s) = [2; 4; 1; 3]%N /\ map m_user (of_kind true (r_wire s)) = [1; 3]%N.
Proof.
  exists (mkSrc Open [] [] [] [] [] false [mkMsg true 10 1; mkMsg false 10 2; mkMsg true 10 3; mkMsg false 10 4] [mkMsg false 10 2; mkMsg false 10 4; mkMsg true 10 1; mkMsg true 10 3] [1; 2; 3; 4]%N).
  split; [apply run_reached; reflexivity|]. split; reflexivity.
Qed.
(** A bundle waits for tokens only while the timer runs that will look at it. *)
Theorem C65_timer_runs_while_waiting : forall cap rate es s, reached cap rate es s -> r_vec s <> [] \/ r_zmq s <> [] -> r_timer s = true.
Proof. intros cap rate es s H W. destruct (inv_reached _ _ _ _ H) as [_ [_ [_ [J _]]]]. destruct (r_timer s); [reflexivity|]. destruct (J eq_refl). destruct W; contradiction. Qed.
Print Assumptions C65_timer_runs_while_waiting.
(** Forward accepts exactly when the link is up and fewer than cap - 1 accepted bundles are without a report. *)
Theorem C65_accepted_when_room : forall cap rate es s m s1, reached cap rate es s -> step cap rate s (Forward m) = Some s1 ->
  (r_life s = Open /\ length (r_acc s) + 1 < length (r_out s) + cap /\ r_acc s1 = r_acc s ++ [m]) \/ ((r_life s <> Open \/ length (r_out s) + cap <= length (r_acc s) + 1) /\ s1 = s).
Proof.
  intros cap rate es s m s1 H E. destruct (inv_reached _ _ _ _ H) as [I1 _]. assert (L := f_equal (@length _) I1). rewrite app_length, !map_length in L. cbn [step] in E. injection E as <-. unfold forward.
  destruct (r_life s) eqn:F; [right; split; [left; discriminate|reflexivity]| |right; split; [left; discriminate|reflexivity]].
  destruct (Nat.leb_spec cap (length (r_ring s) + 1)); [right; split; [right; lia|reflexivity]|left]. split; [reflexivity|]. split; [lia|reflexivity].
Qed.
Print Assumptions C65_accepted_when_room.
(** Once the socket was closed, nothing is accepted, sent or reported any more, and that is for ever. *)
Theorem C65_closed_for_ever : forall cap rate s e s1, r_life s = Closed -> step cap rate s e = Some s1 -> r_life s1 = Closed /\ r_acc s1 = r_acc s /\ r_wire s1 = r_wire s /\ r_out s1 = r_out s.
Proof.
  intros cap rate s e s1 C E. destruct e as [|m|tok|k full|ok]; cbn [step] in E.
  - unfold resolved in E. rewrite C in E. discriminate.
  - unfold forward in E. rewrite C in E. injection E as <-. repeat split; try exact C.
  - unfold handle in E. destruct (r_posted s) as [|[m|] p]; [discriminate| |injection E as <-; repeat split]. injection E as <-. destruct (m_zmq m); destruct (try_front _ _ _); repeat split; try exact C.
  - unfold timer in E. destruct (r_timer s); [|discriminate]. injection E as <-. repeat split; try exact C.
  - unfold done in E. rewrite C, andb_false_r in E. destruct (r_fly s); [discriminate|]. injection E as <-. repeat split; try exact C.
Qed.
Print Assumptions C65_closed_for_ever.

(** Three bundles of one kind under a rate limit: one is sent at once, two after waiting, all are reported. *)
Definition three : list event := [Resolved; Forward (mkMsg true 10 1); Forward (mkMsg true 20 2); Handle true; Forward (mkMsg true 10 3); Handle false; Done true; Handle false; Timer 1 false; Done true; Timer 1 true; Done true].
Example C65_example : reached 12 true three (mkSrc Open [] [] [] [] [] false [mkMsg true 10 1; mkMsg true 20 2; mkMsg true 10 3] [mkMsg true 10 1; mkMsg true 20 2; mkMsg true 10 3] [1; 2; 3]%N)
  /\ no_error three /\ one_kind three /\ quiet (mkSrc Open [] [] [] [] [] false [mkMsg true 10 1; mkMsg true 20 2; mkMsg true 10 3] [mkMsg true 10 1; mkMsg true 20 2; mkMsg true 10 3] [1; 2; 3]%N).
Proof.
  split; [apply run_reached; reflexivity|]. split; [unfold no_error, three; cbn; intuition discriminate|]. split; [|repeat split].
  exists true. unfold three. cbn. intros m H. repeat (destruct H as [H|H]; [try discriminate H; try (injection H as <-; reflexivity)|]). destruct H.
Qed.
Example C65_waiting_example : exists es s, reached 12 true es s /\ r_zmq s <> [] /\ r_life s = Open.
Proof. exists [Resolved; Forward (mkMsg true 10 1); Handle false], (mkSrc Open [(10, 1)]%N [] [] [mkMsg true 10 1] [] true [mkMsg true 10 1] [] []). split; [apply run_reached; reflexivity|]. split; [discriminate|reflexivity]. Qed.
(** A full ring refuses. *)
Example C65_full_example : exists s, reached 2 true [Resolved; Forward (mkMsg true 10 1); Forward (mkMsg true 10 2)] s /\ r_acc s = [mkMsg true 10 1].
Proof. exists (mkSrc Open [(10, 1)]%N [Send (mkMsg true 10 1)] [] [] [] false [mkMsg true 10 1] [] []). split; [apply run_reached; reflexivity|reflexivity]. Qed.
(** A socket that was closed by an error. *)
Example C65_closed_example : exists es s, reached 12 false es s /\ r_life s = Closed /\ r_acc s <> [].
Proof. exists [Resolved; Forward (mkMsg true 10 1); Handle true; Done false; Handle true], (mkSrc Closed [(10, 1)]%N [] [] [] [] true [mkMsg true 10 1] [] []). split; [apply run_reached; reflexivity|]. split; [reflexivity|discriminate]. Qed.

(** False: while the network interface takes all datagrams, the link stays up. Under a rate limit a vector overtakes a zmq message that was given before it, the sizes do not agree, and the socket is closed. *)
Theorem C65_link_stays_up_refuted : exists cap es s, reached cap true es s /\ no_error es /\ r_life s = Closed.
Proof.
  exists 12, [Resolved; Forward (mkMsg true 10 1); Forward (mkMsg false 20 2); Handle false; Handle false; Timer 1 false; Done true; Handle false],
    (mkSrc Closed [(10, 1); (20, 2)]%N [] [] [mkMsg true 10 1] [] true [mkMsg true 10 1; mkMsg false 20 2] [mkMsg false 20 2] []).
  split; [apply run_reached; reflexivity|]. split; [unfold no_error; cbn; intuition discriminate|reflexivity].
Qed.
Print Assumptions C65_link_stays_up_refuted.
(** False: what is reported was sent. With sizes that agree the user data of the zmq message is reported when the vector was sent. *)
Theorem C65_reported_was_sent_refuted : exists cap es s u, reached cap true es s /\ no_error es /\ In u (r_out s) /\ ~ In u (map m_user (r_wire s)).
Proof.
  exists 12, [Resolved; Forward (mkMsg true 10 1); Forward (mkMsg false 10 2); Handle false; Handle false; Timer 1 false; Done true],
    (mkSrc Open [(10, 2)]%N [] [] [mkMsg true 10 1] [] true [mkMsg true 10 1; mkMsg false 10 2] [mkMsg false 10 2] [1%N]), 1%N.
  split; [apply run_reached; reflexivity|]. split; [unfold no_error; cbn; intuition discriminate|]. cbn. split; [left; reflexivity|]. intros [H|[]]. discriminate.
Qed.
Print Assumptions C65_reported_was_sent_refuted.
(** False: a bundle of which the send failed is not reported as sent (one kind, no rate limit). A send that completes before the socket is closed is taken for the failed one. *)
Theorem C65_failed_is_not_reported_sent_refuted : exists cap es s u, reached cap false es s /\ one_kind es /\ quiet s /\ In u (r_out s) /\ ~ In u (map m_user (r_wire s)).
Proof.
  exists 12, [Resolved; Forward (mkMsg true 10 1); Forward (mkMsg true 10 2); Handle true; Handle true; Done false; Done true; Handle true; Timer 0 true],
    (mkSrc Closed [(10, 2)]%N [] [] [] [] false [mkMsg true 10 1; mkMsg true 10 2] [mkMsg true 10 2] [1%N]), 1%N.
  split; [apply run_reached; reflexivity|]. split; [exists true; cbn; intros m H; repeat (destruct H as [H|H]; [try discriminate H; try (injection H as <-; reflexivity)|]); destruct H|]. split; [repeat split|]. cbn. split; [left; reflexivity|]. intros [H|[]]. discriminate.
Qed.
Print Assumptions C65_failed_is_not_reported_sent_refuted.
(** False: each accepted bundle is reported in the end. After an error it is neither reported as sent nor as failed: the callbacks for failures are set (455-460) and never called. *)
Theorem C65_every_bundle_is_reported_refuted : exists cap es s, reached cap false es s /\ one_kind es /\ quiet s /\ r_out s = [] /\ r_acc s <> [].
Proof.
  exists 12, [Resolved; Forward (mkMsg true 10 1); Handle true; Done false; Handle true; Timer 0 true], (mkSrc Closed [(10, 1)]%N [] [] [] [] false [mkMsg true 10 1] [] []).
  split; [apply run_reached; reflexivity|]. split; [exists true; cbn; intros m H; repeat (destruct H as [H|H]; [try discriminate H; try (injection H as <-; reflexivity)|]); destruct H|]. split; [repeat split|]. split; [reflexivity|discriminate].
Qed.
Print Assumptions C65_every_bundle_is_reported_refuted.
