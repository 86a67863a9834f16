(** C53: what TCP based outducts report about the bundles they were given. *)
From Coq Require Import PeanoNat NArith List Bool Lia Permutation ZifyBool ZifyN.
From Verif Require Import Base M_TcpSender S_TcpSender L_TcpSender L_TcpSenderV4.
Import ListNotations.
Open Scope N_scope.

(** * What holds *)
(** A bundle is sent as whole, nonempty segments of at most the size agreed on. *)
Theorem C53_segments_carry_the_bundle : forall b id mx, carries (b_tag b) id mx (b_size b) 0 (segments b id mx).
Proof. exact segments_carries. Qed.
Print Assumptions C53_segments_carry_the_bundle.
Example C53_segments_ex : map (fun g => (w_start g, w_end g, w_len g, w_total g)) (segments (mkBundle 7 25) 3 10) = [(true, false, 10, 10); (false, false, 10, 20); (false, true, 5, 25)].
Proof. vm_compute. reflexivity. Qed.

Definition cfg_ex : cfg3 := mkCfg3 5 10 true.
Definition A : bundle := mkBundle 1 25.
Definition B : bundle := mkBundle 2 8.
Definition C : bundle := mkBundle 3 8.

(** TCPCL version 3, whatever the peer sends and however often the connection is lost: no index leaves its vector, and the bundles reported as
    sent are the first ones accepted, each once and in order. *)
Theorem C53_v3_reports_in_order : forall c tr, exists s k, run3 c tr start3 = Some s /\ sent_of (v_out s) = map (fun p => Some (snd p)) (firstn k (v_acc s)).
Proof.
  intros c tr. destruct (inv3_run c tr start3) as (s & R & _ & U); [split; [constructor|reflexivity]|]. exists s, (length (sent_of (v_out s))). split; [exact R|].
  rewrite <- firstn_map, <- U. symmetry. apply firstn_app_len.
Qed.
Print Assumptions C53_v3_reports_in_order.
Example C53_v3_reports_in_order_ex : exists s, run3 cfg_ex [Up3; Forward3 A 100; Forward3 B 101; Ack3 7; Ack3 9; Ack3 25; Down3; Run3; Run3; Ack3 8] start3 = Some s /\
  v_out s = [Sent (Some 100); Sent (Some 101)] /\ v_acc s = [(A, 100); (B, 101)].
Proof. eexists. split; [vm_compute; reflexivity|]. split; reflexivity. Qed.

(** On one connection with a peer that acknowledges what it gets: the peer gets the bundles accepted, in order; the bundles reported as sent are
    exactly those of which every segment was acknowledged; those reported as failed or still held are exactly those not completely written. *)
Theorem C53_v3_sent_means_acknowledged : forall c tr s, run3 c (Up3 :: tr) start3 = Some s -> ~ In Up3 tr -> honest3 c (Up3 :: tr) start3 ->
  (exists rest, data3 c (v_acc s) = t_wire (v_snd s) ++ rest) /\
  sent_of (v_out s) = map (fun p => Some (snd p)) (firstn (ends (firstn (length (v_acks s)) (t_wire (v_snd s)))) (v_acc s)) /\
  fails_of (v_out s) ++ held (t_queue (v_snd s)) ++ held (t_posted (v_snd s)) = map (fun p => Failed (fst p) None) (skipn (ends (t_wire (v_snd s))) (v_acc s)).
Proof.
  intros c tr s R N (_ & O). cbn in R, O. apply hon3_facts. eapply hon3_run; [|exact R|exact N|exact O].
  split; [apply tracks_new|]. split; [cbn; lia|]. exists [], [], 0%nat. repeat split.
Qed.
Print Assumptions C53_v3_sent_means_acknowledged.
Definition tr3_ex : list ev3 :=
  [Forward3 A 100; Run3; Run3; Wrote3; Wrote3; Ack3 10; Forward3 B 101; Run3; Run3; Wrote3; Wrote3; Ack3 20; Ack3 25; Forward3 C 102; Run3; Run3; Run3; Run3; WriteFailed3; Down3].
Example C53_v3_sent_means_acknowledged_ex : exists s, run3 cfg_ex (Up3 :: tr3_ex) start3 = Some s /\ ~ In Up3 tr3_ex /\ honest3 cfg_ex (Up3 :: tr3_ex) start3 /\
  v_out s = [Sent (Some 100); Failed B None; Failed C None] /\ length (t_wire (v_snd s)) = 3%nat.
Proof.
  eexists. split; [vm_compute; reflexivity|]. split; [intros H; cbn in H; intuition discriminate|]. split; [|split; reflexivity].
  vm_compute. repeat split; eexists; split; reflexivity.
Qed.

(** TCPCL version 4, whatever the peer sends: the bundles reported as sent are among those accepted, each once and in order, and every such report
    answers an acknowledgment with the end flag, the transfer id of the bundle and its full size. *)
Theorem C53_v4_reports_in_order : forall n tr s, run4 n tr start4 = Some s ->
  Sublist (sent_of (x_out s)) (map (fun p => Some (snd (fst p))) (x_acc s)) /\
  forall e s', step4 n e s = Some s' -> sent_of (x_out s') <> sent_of (x_out s) ->
    exists a b u, e = Ack4 a /\ In (b, u, k_id a) (x_acc s) /\ k_end a = true /\ k_total a = b_size b /\ x_out s' = x_out s ++ [Sent (Some u)].
Proof.
  intros n tr s R. assert (I : inv4 s). { eapply inv4_run; [|exact R]. split; [constructor|]. cbn. constructor. }
  split; [eapply sublist_drop; exact (proj2 I)|]. intros e s' ST NE.
  assert (Q : forall t l, sent_of l = [] -> sent_of (x_out (with_snd4 t l s)) = sent_of (x_out s)).
  { intros t l L. cbn [with_snd4 x_out]. rewrite sent_app, L. apply app_nil_r. }
  destruct e as [b u| | | | |a| |sm tm]; cbn [step4] in ST.
  - injection ST as <-. elim NE. f_equal. unfold forward4. destruct (x_ready s); [|reflexivity]. cbn [negb]. destruct (push4 _ _ _ _) as [ring rest]. destruct rest; reflexivity.
  - injection ST as <-. elim NE. now apply Q.
  - pose proof (run_posted_sent (x_snd s)). destruct (run_posted (x_snd s)) as [t l]. injection ST as <-. elim NE. now apply Q.
  - injection ST as <-. elim NE. now apply Q.
  - pose proof (write_failed_sent (x_snd s)). destruct (write_failed (x_snd s)) as [t l]. injection ST as <-. elim NE. now apply Q.
  - injection ST as <-. destruct (inv4_ack a s I) as (_ & [X|(b & u & X)]); [elim NE; now rewrite X|]. exists a, b, u. tauto.
  - injection ST as <-. now elim NE.
  - unfold up4 in ST. destruct (negb _ || _ || _); [injection ST as <-; now elim NE|]. destruct (_ =? 0); [discriminate|]. injection ST as <-. now elim NE.
Qed.
Print Assumptions C53_v4_reports_in_order.

(** Transfer ids: each accepted bundle has its own, also across connections, until 2^64 bundles have been forwarded. *)
Definition forwards4 (tr : list ev4) : N := fold_right (fun e n => match e with Forward4 _ _ => n + 1 | _ => n end) 0 tr.
Lemma ids4_step : forall n e s s' k, step4 n e s = Some s' -> x_next s + 1 < W64 -> Forall (fun p => snd p < x_next s) (x_acc s) -> NoDup (map snd (x_acc s)) ->
  k = match e with Forward4 _ _ => 1 | _ => 0 end ->
  x_next s' <= x_next s + k /\ Forall (fun p => snd p < x_next s') (x_acc s') /\ NoDup (map snd (x_acc s')).
Proof.
  intros n e s s' k H L F D ->. destruct e; cbn [step4] in H.
  - injection H as <-. unfold forward4. destruct (x_ready s); cbn [negb]; [|split; [lia|auto]].
    destruct (push4 (x_cap s) u (segments b (x_next s) (x_mru s)) (x_ring s)) as [ring rest].
    assert (E : add64 (x_next s) 1 = x_next s + 1) by (unfold add64; apply N.mod_small; exact L).
    assert (F' : Forall (fun p : bundle * N * N => snd p < x_next s + 1) (x_acc s)) by (eapply Forall_impl; [|exact F]; intros p Hp; cbv beta in *; lia).
    destruct rest; cbn [x_next x_acc]; rewrite E; (split; [lia|]); [|auto]. split.
    + apply Forall_app. split; [exact F'|]. constructor; [cbn [snd]; lia|constructor].
    + rewrite map_app. cbn [map snd]. apply (Permutation_NoDup (Permutation_cons_append _ _)). constructor; [|exact D].
      intro I. apply in_map_iff in I. destruct I as (p & E1 & I). rewrite Forall_forall in F. apply F in I. lia.
  - injection H as <-. cbn. split; [lia|auto].
  - destruct (run_posted (x_snd s)). injection H as <-. cbn. split; [lia|auto].
  - injection H as <-. cbn. split; [lia|auto].
  - destruct (write_failed (x_snd s)). injection H as <-. cbn. split; [lia|auto].
  - injection H as <-. unfold ack4. destruct (x_ring s) as [|[a' o] r]; [cbn; split; [lia|auto]|]. destruct (ack_eqb a' a); cbn; split; try lia; auto.
  - injection H as <-. cbn. split; [lia|auto].
  - unfold up4 in H. destruct (negb (quiet (x_snd s)) || x_ready s || (smru =? 0)); [injection H as <-; split; [lia|auto]|].
    destruct (segment_limit smru tmru =? 0); [discriminate|]. injection H as <-. cbn. split; [lia|auto].
Qed.
Lemma ids4_run : forall n tr s s', run4 n tr s = Some s' -> x_next s + forwards4 tr + 1 < W64 -> Forall (fun p => snd p < x_next s) (x_acc s) -> NoDup (map snd (x_acc s)) ->
  NoDup (map snd (x_acc s')).
Proof.
  intros n. induction tr as [|e tr IH]; intros s s' H L F D; cbn [run4] in H; [injection H as <-; exact D|].
  destruct (step4 n e s) as [s1|] eqn:E; [|discriminate]. cbn [forwards4 fold_right] in L. fold (forwards4 tr) in L.
  destruct (ids4_step _ _ _ _ _ E ltac:(destruct e; lia) F D eq_refl) as (A & B & C). eapply IH; [exact H| |exact B|exact C]. destruct e; lia.
Qed.
Theorem C53_v4_transfer_ids_differ : forall n tr s, run4 n tr start4 = Some s -> forwards4 tr + 1 < W64 -> NoDup (map snd (x_acc s)).
Proof. intros n tr s R L. eapply ids4_run; [exact R|exact L|constructor|constructor]. Qed.
Print Assumptions C53_v4_transfer_ids_differ.
Example C53_v4_transfer_ids_differ_ex : exists s, run4 5 [Up4 10 100; Forward4 A 100; Forward4 B 101; Run4; Run4; WriteFailed4; Run4; Run4; Down4; Up4 10 100; Forward4 A 102] start4 = Some s /\
  map snd (x_acc s) = [0; 1; 2] /\ forwards4 [Up4 10 100; Forward4 A 100; Forward4 B 101; Run4; Run4; WriteFailed4; Run4; Run4; Down4; Up4 10 100; Forward4 A 102] + 1 < W64.
Proof. eexists. split; [vm_compute; reflexivity|]. split; vm_compute; reflexivity. Qed.
Example C53_v4_reports_in_order_ex : exists s s', run4 5 [Up4 10 100; Forward4 A 100; Forward4 B 101; Ack4 (mkAck true false 0 10); Ack4 (mkAck false false 0 20)] start4 = Some s /\
  step4 5 (Ack4 (mkAck false true 0 25)) s = Some s' /\ sent_of (x_out s') <> sent_of (x_out s) /\ x_acc s = [(A, 100, 0); (B, 101, 1)].
Proof. eexists. eexists. split; [vm_compute; reflexivity|]. split; [vm_compute; reflexivity|]. split; [discriminate|reflexivity]. Qed.

(** On one connection with a peer that acknowledges what it gets and a caller that keeps within the pipeline and the transfer limit of the peer:
    the same as for version 3, and the buffer never lacks room. *)
Theorem C53_v4_sent_means_acknowledged : forall n smru tmru tr s, smru <> 0 -> segment_limit smru tmru <> 0 -> n * (tmru / segment_limit smru tmru + 1) + 10 < W32 ->
  run4 n (Up4 smru tmru :: tr) start4 = Some s -> (forall a b, ~ In (Up4 a b) tr) -> honest4 n tmru (Up4 smru tmru :: tr) start4 ->
  (exists rest, data4 (segment_limit smru tmru) (x_acc s) = t_wire (x_snd s) ++ rest) /\
  sent_of (x_out s) = map (fun p => Some (snd (fst p))) (firstn (ends (firstn (length (x_acks s)) (t_wire (x_snd s)))) (x_acc s)) /\
  fails_of (x_out s) ++ held (t_queue (x_snd s)) ++ held (t_posted (x_snd s)) = map (fun p => Failed (fst (fst p)) None) (skipn (ends (t_wire (x_snd s))) (x_acc s)) /\
  x_lost s = [].
Proof.
  intros n smru tmru tr s S M OV R N (_ & O). cbn [run4 step4] in R. cbn [step4] in O. unfold up4 in R, O. cbn [start4 quiet x_snd x_ready new_sender t_posted t_queue negb orb] in R, O.
  destruct (N.eqb_spec smru 0) as [X|_]; [contradiction|]. destruct (N.eqb_spec (segment_limit smru tmru) 0) as [X|_]; [contradiction|].
  assert (H : hon4 n (segment_limit smru tmru) tmru s).
  { eapply hon4_run; [exact M| |exact R|exact N|exact O]. constructor; cbn [x_mru x_cap x_lost x_acc x_out x_snd x_acks x_ring]; auto.
    - unfold buffer_size. set (q := tmru / segment_limit smru tmru + 1) in *. destruct (N.eq_dec n 0) as [->|NZ]; [lia|].
      assert (q < W32) by nia. unfold W32, W64 in *. rewrite (N.mod_small q) by lia. rewrite (N.mul_comm q n). rewrite (N.mod_small (n * q)) by lia. rewrite !N.mod_small by lia. lia.
    - constructor.
    - apply tracks_new. }
  destruct (hon4_facts _ _ _ _ H) as (P & Q & F). split; [exact P|]. split; [exact Q|]. split; [exact F|apply (h_lost _ _ _ _ H)].
Qed.
Print Assumptions C53_v4_sent_means_acknowledged.
Definition tr4_ex : list ev4 :=
  [Forward4 A 100; Run4; Wrote4; Ack4 (mkAck true false 0 10); Forward4 B 101; Run4; Run4; Wrote4; Wrote4; Ack4 (mkAck false false 0 20); Ack4 (mkAck false true 0 25);
   Forward4 C 102; Run4; Run4; WriteFailed4; Down4].
Example C53_v4_sent_means_acknowledged_ex : exists s, run4 2 (Up4 10 30 :: tr4_ex) start4 = Some s /\ (forall a b, ~ In (Up4 a b) tr4_ex) /\ honest4 2 30 (Up4 10 30 :: tr4_ex) start4 /\
  x_out s = [Sent (Some 100); Failed B None; Failed C None] /\ length (t_wire (x_snd s)) = 3%nat.
Proof.
  eexists. split; [vm_compute; reflexivity|]. split; [intros a b H; cbn in H; intuition discriminate|]. split; [|split; reflexivity].
  vm_compute. repeat split; try discriminate; try reflexivity; eexists; split; reflexivity.
Qed.

(** STCP, one connection: no null pointer; the bundles reported as sent are exactly those written, and the others are reported as failed, with
    their own user data, or are still held. *)
Theorem C53_stcp_sent_means_written : forall cap tr, ~ In ReadyS tr -> (forall b u, In (ForwardS b u) tr -> b_size b + 4 < W32) ->
  exists s t, runs_ cap (ReadyS :: UpS :: tr) starts = Some s /\ y_snd s = Some t /\
  sent_of (y_out s) = map (fun p => Some (snd p)) (firstn (ends (t_wire t)) (y_acc s)) /\
  fails_of (y_out s) ++ held (t_queue t) ++ held (t_posted t) = map (fun p => Failed (fst p) (Some (snd p))) (skipn (ends (t_wire t)) (y_acc s)) /\
  (exists rest, map b_tag (map fst (y_acc s)) = map w_tag (t_wire t) ++ rest).
Proof.
  intros cap tr N Z. cbn. set (s0 := mkS [] true (Some new_sender) [] []).
  assert (H : honS new_sender s0). { unfold honS. split; [reflexivity|]. split; [apply tracks_new|]. repeat split; auto using Forall_nil, le_0_n. constructor. }
  destruct (honS_safe cap tr _ _ H N Z) as (s & R). destruct (honS_run cap tr _ _ s H R N Z) as (t & H'). exists s, t. split; [exact R|]. split; [exact (proj1 H')|]. now apply honS_facts.
Qed.
Print Assumptions C53_stcp_sent_means_written.
Definition trs_ex : list evs := [ForwardS A 100; KeepAliveS; ForwardS B 101; RunS; RunS; RunS; WroteS; WroteS; ForwardS C 102; WriteFailedS; RunS; DownS].
Example C53_stcp_sent_means_written_ex : exists s, runs_ 9 (ReadyS :: UpS :: trs_ex) starts = Some s /\ ~ In ReadyS trs_ex /\ (forall b u, In (ForwardS b u) trs_ex -> b_size b + 4 < W32) /\
  y_out s = [Sent (Some 100); Failed B (Some 101); Failed C (Some 102)].
Proof.
  eexists. split; [vm_compute; reflexivity|]. split; [intros H; cbn in H; intuition discriminate|]. split; [|reflexivity].
  intros b u H. cbn in H. intuition; match goal with E : _ = ForwardS _ _ |- _ => first [discriminate E|injection E as <- <-; reflexivity] end.
Qed.

(** * What does not hold *)
(** Version 3 and 4: every report of a failure comes without the user data of its bundle, so that egress cannot tell which bundle failed (and
    writes through the null pointer of the empty vector, EgressAsync.cpp:823-826). *)
Definition bare (t : sender) : Prop := Forall (fun e => l_user e = None) (t_posted t ++ t_queue t).
Definition bare_out (l : list report) : Prop := forall b u, In (Failed b u) l -> u = None.
Lemma bare_failed : forall l, Forall (fun e => l_user e = None) l -> bare_out (flat_map failed l).
Proof.
  intros l F b u I. apply in_flat_map in I. destruct I as (e & I & X). rewrite Forall_forall in F. unfold failed in X. destruct (l_bundle e); cbn in X; [|tauto].
  destruct X as [X|[]]. injection X as _ <-. now apply F.
Qed.
Lemma bare_app : forall a b, bare_out a -> bare_out b -> bare_out (a ++ b).
Proof. intros a b X Y c u I. apply in_app_or in I. destruct I; eauto. Qed.
Lemma bare_post : forall l t, Forall (fun e => l_user e = None) l -> bare t -> bare (post l t).
Proof. unfold bare. intros l t L H. cbn. apply Forall_app in H. rewrite !Forall_app. tauto. Qed.
Lemma bare_run : forall t, bare t -> bare (fst (run_posted t)) /\ bare_out (snd (run_posted t)).
Proof.
  intros [p q err w]. unfold bare, run_posted. cbn. destruct p as [|e p]; cbn; [intros H; split; [exact H|intros b u []]|]. intros H. inversion H as [|? ? X Y]; subst. destruct err; cbn.
  - split; [exact Y|]. rewrite <- (app_nil_r (failed e)). apply (bare_failed [e]). repeat constructor. exact X.
  - split; [|intros b u []]. apply Forall_app in Y. rewrite !Forall_app. repeat split; try tauto. repeat constructor. exact X.
Qed.
Lemma bare_wrote : forall t, bare t -> bare (fst (wrote t)).
Proof. intros [p q err w]. unfold bare, wrote. cbn. destruct q as [|e q]; cbn; [auto|]. rewrite !Forall_app. intros (X & Y). inversion Y; subst. tauto. Qed.
Lemma bare_fail : forall t, bare t -> bare (fst (write_failed t)) /\ bare_out (snd (write_failed t)).
Proof.
  intros [p q err w]. unfold bare, write_failed. cbn. destruct q as [|e q]; cbn [fst snd t_posted t_queue]; [intros H; split; [exact H|intros b u []]|]. rewrite Forall_app. intros (X & Y).
  split; [rewrite app_nil_r; exact X|]. exact (bare_failed (e :: q) Y).
Qed.
Lemma bare_elements : forall b l, Forall (fun e => l_user e = None) (elements b l).
Proof. intros b l. apply Forall_forall. intros e I. apply in_map_iff in I. destruct I as (g & <- & _). reflexivity. Qed.
Theorem C53_v3_failures_are_anonymous : forall c tr s b u, run3 c tr start3 = Some s -> In (Failed b u) (v_out s) -> u = None.
Proof.
  intros c tr s b u R. assert (H : forall l s s', run3 c l s = Some s' -> bare (v_snd s) -> bare_out (v_out s) -> bare_out (v_out s')).
  { clear. induction l as [|e l IH]; intros s s' R P O; cbn in R; [injection R as <-; exact O|]. destruct (step3 c e s) as [x|] eqn:E; [|discriminate].
    assert (X : bare (v_snd x) /\ bare_out (v_out x)); [|apply (IH x s' R); tauto]. clear R IH. destruct e as [b u| | | | |n| |]; cbn [step3] in E.
    - injection E as <-. unfold forward3. destruct (negb _); [auto|]. destruct (_ <=? _); [auto|]. cbn. split; [|exact O]. apply bare_post; [|exact P]. apply Forall_app. split; [destruct (c_length c); repeat constructor|apply bare_elements].
    - injection E as <-. cbn. rewrite app_nil_r. split; [apply bare_post; [repeat constructor|exact P]|exact O].
    - destruct (bare_run _ P) as (X & Y). destruct (run_posted (v_snd s)) as [t l0]. injection E as <-. cbn in *. split; [exact X|now apply bare_app].
    - injection E as <-. cbn. rewrite app_nil_r. split; [now apply bare_wrote|exact O].
    - destruct (bare_fail _ P) as (X & Y). destruct (write_failed (v_snd s)) as [t l0]. injection E as <-. cbn in *. split; [exact X|now apply bare_app].
    - unfold ack3 in E. destruct (v_ring s) as [|en r]; [injection E as <-; auto|]. destruct (match n_frags en with [] => Some en | _ => _ end) as [e'|]; [|discriminate]. injection E as <-. cbn. split; [exact P|].
      apply bare_app; [exact O|]. destruct (match n_frags e' with [] => _ | _ => _ end); intros b u I; cbn in I; [destruct I as [I|[]]; discriminate|contradiction].
    - injection E as <-. auto.
    - destruct (quiet _ && _); injection E as <-; [|auto]. cbn. split; [constructor|exact O]. }
  intros I. exact (H tr start3 s R ltac:(constructor) ltac:(intros ? ? []) b u I).
Qed.
Print Assumptions C53_v3_failures_are_anonymous.
Example C53_v3_failures_are_anonymous_ex : exists s, run3 cfg_ex [Up3; Forward3 A 100; Forward3 B 101; Run3; Run3; WriteFailed3; Run3; Run3; Run3; Run3] start3 = Some s /\ v_out s = [Failed A None; Failed B None].
Proof. eexists. split; [vm_compute; reflexivity|reflexivity]. Qed.
Theorem C53_v4_failures_are_anonymous : forall n tr s b u, run4 n tr start4 = Some s -> In (Failed b u) (x_out s) -> u = None.
Proof.
  intros n tr s b u R. assert (H : forall l s s', run4 n l s = Some s' -> bare (x_snd s) -> bare_out (x_out s) -> bare_out (x_out s')).
  { clear. induction l as [|e l IH]; intros s s' R P O; cbn in R; [injection R as <-; exact O|]. destruct (step4 n e s) as [x|] eqn:E; [|discriminate].
    assert (X : bare (x_snd x) /\ bare_out (x_out x)); [|apply (IH x s' R); tauto]. clear R IH. destruct e as [b u| | | | |a| |sm tm]; cbn [step4] in E.
    - injection E as <-. unfold forward4. destruct (negb _); [auto|]. destruct (push4 _ _ _ _) as [ring rest]. destruct rest; cbn; [|auto]. split; [|exact O]. apply bare_post; [apply bare_elements|exact P].
    - injection E as <-. cbn. rewrite app_nil_r. split; [apply bare_post; [repeat constructor|exact P]|exact O].
    - destruct (bare_run _ P) as (X & Y). destruct (run_posted (x_snd s)) as [t l0]. injection E as <-. cbn in *. split; [exact X|now apply bare_app].
    - injection E as <-. cbn. rewrite app_nil_r. split; [now apply bare_wrote|exact O].
    - destruct (bare_fail _ P) as (X & Y). destruct (write_failed (x_snd s)) as [t l0]. injection E as <-. cbn in *. split; [exact X|now apply bare_app].
    - injection E as <-. unfold ack4. destruct (x_ring s) as [|[k w] r]; [auto|]. destruct (ack_eqb k a); [|auto]. cbn. split; [exact P|]. apply bare_app; [exact O|].
      destruct (k_end a); intros b u I; cbn in I; [destruct I as [I|[]]; discriminate|contradiction].
    - injection E as <-. auto.
    - unfold up4 in E. destruct (negb _ || _ || _); [injection E as <-; auto|]. destruct (_ =? 0); [discriminate|]. injection E as <-. cbn. split; [constructor|exact O]. }
  intros I. exact (H tr start4 s R ltac:(constructor) ltac:(intros ? ? []) b u I).
Qed.
Print Assumptions C53_v4_failures_are_anonymous.
Example C53_v4_failures_are_anonymous_ex : exists s, run4 2 [Up4 10 30; Forward4 A 100; Forward4 B 101; Run4; Run4; WriteFailed4; Run4; Run4] start4 = Some s /\ x_out s = [Failed A None; Failed B None].
Proof. eexists. split; [vm_compute; reflexivity|reflexivity]. Qed.
Theorem C53_failures_name_their_bundle_refuted : exists c tr s b u, run3 c tr start3 = Some s /\ v_acc s = [(b, u)] /\ v_out s = [Failed b None].
Proof. exists cfg_ex, [Up3; Forward3 B 101; Run3; Run3; WriteFailed3]. eexists. exists B, 101. split; [vm_compute; reflexivity|]. split; reflexivity. Qed.
Print Assumptions C53_failures_name_their_bundle_refuted.

(** Version 3: after a reconnection, an acknowledgment for a new bundle of the same size reports an old bundle as sent, here one that was never
    written and was reported as failed before; the new one, which the peer has, is never reported. *)
Theorem C53_v3_sent_after_reconnecting_refuted : exists c tr s old new u1 u2, run3 c tr start3 = Some s /\ honest3 c tr start3 /\ old <> new /\ u1 <> u2 /\
  v_acc s = [(old, u1); (new, u2)] /\ map w_tag (t_wire (v_snd s)) = [b_tag new] /\ v_acks s = [b_size new] /\ v_out s = [Failed old None; Sent (Some u1)].
Proof.
  exists cfg_ex, [Up3; Forward3 B 101; Run3; Run3; WriteFailed3; Down3; Up3; Forward3 C 102; Run3; Run3; Wrote3; Wrote3; Ack3 8]. eexists. exists B, C, 101, 102. split; [vm_compute; reflexivity|].
  split; [vm_compute; repeat split; eexists; split; reflexivity|]. split; [discriminate|]. split; [discriminate|]. repeat split.
Qed.
Print Assumptions C53_v3_sent_after_reconnecting_refuted.

(** Version 3: a bundle lost with its connection stops all reports until a bundle of its size is acknowledged. *)
Theorem C53_v3_blocked : forall c tr s s' e r, v_ring s = e :: r -> n_frags e = [] -> run3 c tr s = Some s' -> (forall n, In (Ack3 n) tr -> n <> n_size e) ->
  sent_of (v_out s') = sent_of (v_out s).
Proof.
  intros c tr. induction tr as [|x tr IH]; intros s s' e r RI FR R NA; cbn in R; [now injection R as <-|]. destruct (step3 c x s) as [s1|] eqn:E; [|discriminate].
  assert (X : exists r1, v_ring s1 = e :: r1 /\ sent_of (v_out s1) = sent_of (v_out s)).
  { destruct x as [b u| | | | |n| |]; cbn [step3] in E.
    - injection E as <-. unfold forward3. destruct (negb (v_ready s)); [eauto|]. destruct (c_unacked c + 4 <=? N.of_nat (length (v_ring s))); [eauto|]. cbn [v_ring v_out]. rewrite RI. eexists. split; reflexivity.
    - injection E as <-. cbn [with_snd3 v_ring v_out]. rewrite app_nil_r. eauto.
    - pose proof (run_posted_sent (v_snd s)) as Q. destruct (run_posted (v_snd s)) as [t l]. injection E as <-. cbn [with_snd3 v_ring v_out snd] in *. rewrite sent_app, Q, app_nil_r. eauto.
    - injection E as <-. cbn [with_snd3 v_ring v_out]. rewrite app_nil_r. eauto.
    - pose proof (write_failed_sent (v_snd s)) as Q. destruct (write_failed (v_snd s)) as [t l]. injection E as <-. cbn [with_snd3 v_ring v_out snd] in *. rewrite sent_app, Q, app_nil_r. eauto.
    - unfold ack3 in E. rewrite RI, FR in E. rewrite FR in E. destruct (N.eqb_spec (n_size e) n) as [Q|_]; [elim (NA n); [now left|now symmetry]|]. injection E as <-. cbn [v_ring v_out]. rewrite app_nil_r. eauto.
    - injection E as <-. cbn. eauto.
    - destruct (quiet _ && _); injection E as <-; cbn; eauto. }
  destruct X as (r1 & R1 & S1). rewrite <- S1. apply (IH s1 s' e r1); auto. intros n I. apply NA. now right.
Qed.
Print Assumptions C53_v3_blocked.
Theorem C53_v3_reports_resume_refuted : exists c tr s, run3 c tr start3 = Some s /\ honest3 c tr start3 /\ v_ready s = true /\ quiet (v_snd s) = true /\
  length (v_acks s) = length (t_wire (v_snd s)) /\ ends (t_wire (v_snd s)) = 2%nat /\ v_out s = [] /\
  forall tr' s', run3 c tr' s = Some s' -> (forall n, In (Ack3 n) tr' -> n <> b_size B) -> sent_of (v_out s') = [].
Proof.
  exists cfg_ex, [Up3; Forward3 B 101; Run3; Run3; Wrote3; Wrote3; Down3; Up3; Forward3 (mkBundle 4 9) 102; Forward3 (mkBundle 5 6) 103; Run3; Run3; Run3; Run3; Wrote3; Wrote3; Wrote3; Wrote3; Ack3 9; Ack3 6].
  eexists. split; [vm_compute; reflexivity|]. split; [vm_compute; repeat split; eexists; split; reflexivity|]. do 5 (split; [reflexivity|]).
  intros tr' s' R NA. match type of R with run3 _ _ ?q = _ => set (s0 := q) in R end. change [] with (sent_of (v_out s0)). apply (C53_v3_blocked cfg_ex tr' s0 s' (mkEntry 8 [] 0 101) (tl (v_ring s0))); [reflexivity|reflexivity|exact R|exact NA].
Qed.
Print Assumptions C53_v3_reports_resume_refuted.

(** Version 4: a bundle that was written but not acknowledged when the connection was lost is never reported, as sent or as failed. *)
Lemma v4_silent : forall n l s s', run4 n l s = Some s' -> (forall b u, ~ In (Forward4 b u) l) -> x_ring s = [] -> Forall (fun e => l_bundle e = None) (t_posted (x_snd s) ++ t_queue (x_snd s)) -> x_out s' = x_out s.
Proof.
  intros n l. induction l as [|e l IH]; intros s s' R NF RI EL; cbn in R; [now injection R as <-|]. destruct (step4 n e s) as [x|] eqn:E; [|discriminate].
  assert (NF' : forall b u, ~ In (Forward4 b u) l) by (intros b u I; apply (NF b u); now right).
  assert (FN : forall q, Forall (fun e => l_bundle e = None) q -> flat_map failed q = []).
  { intros q F. induction F as [|y q Y F IHq]; [reflexivity|]. cbn. unfold failed at 1. rewrite Y. exact IHq. }
  assert (X : x_ring x = [] /\ Forall (fun e => l_bundle e = None) (t_posted (x_snd x) ++ t_queue (x_snd x)) /\ x_out x = x_out s).
  { clear IH R. destruct s as [ring cap mru nx rdy [po q er w] out acc lost acks]. cbn [x_ring x_snd x_out t_posted t_queue] in *. subst ring. destruct e as [b u| | | | |a| |sm tm]; cbn [step4 x_snd] in E.
    - elim (NF b u). now left.
    - injection E as <-. cbn. rewrite app_nil_r. repeat split. apply Forall_app in EL. rewrite !Forall_app. repeat split; try tauto. repeat constructor.
    - unfold run_posted in E. cbn in E. destruct po as [|y po]; [injection E as <-; cbn; rewrite ?app_nil_r in *; auto|]. inversion EL as [|? ? Y EL']; subst. destruct er; injection E as <-; cbn.
      + unfold failed. rewrite Y, app_nil_r. auto.
      + rewrite app_nil_r. repeat split. apply Forall_app in EL'. rewrite !Forall_app. repeat split; try tauto. repeat constructor. exact Y.
    - injection E as <-. unfold wrote. cbn. destruct q as [|y q]; cbn; rewrite !app_nil_r; repeat split; [rewrite app_nil_r in EL; exact EL|]. apply Forall_app in EL. destruct EL as (E1 & E2). inversion E2; subst. apply Forall_app. auto.
    - unfold write_failed in E. cbn in E. destruct q as [|y q]; [injection E as <-; cbn; rewrite !app_nil_r in *; auto|]. apply Forall_app in EL. destruct EL as (E1 & E2).
      pose proof (FN _ E2) as Z. cbn [flat_map] in Z. rewrite Z in E. injection E as <-. cbn. rewrite !app_nil_r. auto.
    - injection E as <-. cbn. auto.
    - injection E as <-. cbn. auto.
    - unfold up4 in E. cbn [x_snd x_ready] in E. destruct (negb _ || _ || _); [injection E as <-; auto|]. destruct (_ =? 0); [discriminate|]. injection E as <-. cbn. auto. }
  destruct X as (X1 & X2 & X3). rewrite <- X3. now apply IH.
Qed.
Theorem C53_v4_every_bundle_is_reported_refuted : exists n tr s b u id, run4 n tr start4 = Some s /\ honest4 n 30 tr start4 /\ x_acc s = [(b, u, id)] /\ x_out s = [] /\
  forall tr' s', run4 n tr' s = Some s' -> (forall b u, ~ In (Forward4 b u) tr') -> x_out s' = [].
Proof.
  exists 2, [Up4 10 30; Forward4 B 101; Run4; Wrote4; Down4; Up4 10 30]. eexists. exists B, 101, 0. split; [vm_compute; reflexivity|].
  split; [vm_compute; repeat split; discriminate|]. split; [reflexivity|]. split; [reflexivity|]. intros tr' s' R NF. rewrite (v4_silent _ _ _ _ R NF); [reflexivity|reflexivity|constructor].
Qed.
Print Assumptions C53_v4_every_bundle_is_reported_refuted.

(** Version 4: a peer that announces a transfer limit of 0 crashes the node. *)
Theorem C53_v4_session_never_crashes_refuted : exists n smru tmru, smru <> 0 /\ step4 n (Up4 smru tmru) start4 = None.
Proof. exists 5, 10, 0. split; [discriminate|reflexivity]. Qed.
Print Assumptions C53_v4_session_never_crashes_refuted.
(** The peer decides how large the buffer is: whatever size is asked for (above the least), some limits lead to it. *)
Theorem C53_v4_buffer_is_bounded_refuted : exists n, n <> 0 /\ forall k, 2 <= k -> k + 10 < W64 -> buffer_size n 1 (k - 1) = k + 10.
Proof.
  exists 1. split; [discriminate|]. intros k K O. unfold buffer_size, segment_limit. destruct (N.ltb_spec (k - 1) 1) as [X|X].
  - lia.
  - rewrite N.div_1_r. replace (k - 1 + 1) with k by lia. unfold W64 in *. rewrite (N.mod_small k) by lia. rewrite N.mul_1_r, (N.mod_small k) by lia. now apply N.mod_small.
Qed.
Print Assumptions C53_v4_buffer_is_bounded_refuted.
(** A bundle larger than the transfer limit of the peer is sent all the same. *)
Theorem C53_v4_transfer_limit_is_kept_refuted : exists n smru tmru tr s, run4 n (Up4 smru tmru :: tr) start4 = Some s /\
  exists g, In g (t_wire (x_snd s)) /\ w_end g = true /\ tmru < w_total g.
Proof. exists 5, 10, 20, [Forward4 A 100; Run4; Run4; Run4; Wrote4; Wrote4; Wrote4]. eexists. split; [vm_compute; reflexivity|]. eexists. split; [right; right; left; reflexivity|]. split; reflexivity. Qed.
Print Assumptions C53_v4_transfer_limit_is_kept_refuted.
(** A bundle for whose last segment the buffer has no room disappears: it is neither accepted nor handed back, and the entries left behind
    block every later one. *)
Theorem C53_v4_no_bundle_disappears_refuted : exists n smru tmru tr s b, run4 n (Up4 smru tmru :: tr) start4 = Some s /\ x_acc s = [] /\ x_lost s = [b] /\ quiet (x_snd s) = true /\
  N.of_nat (length (x_ring s)) = x_cap s.
Proof. exists 1, 1, 5, [Forward4 (mkBundle 1 16) 100]. eexists. exists (mkBundle 1 16). split; [vm_compute; reflexivity|]. repeat split. Qed.
Print Assumptions C53_v4_no_bundle_disappears_refuted.

(** STCP: a bundle whose write failed stops all reports until a bundle of its size is written. *)
Definition other_size (n : N) (e : elem) : Prop := match l_seg e with Some g => w_len g + 4 <> n | None => True end.
Definition others (n : N) (o : option sender) : Prop := match o with Some t => Forall (other_size n) (t_posted t ++ t_queue t) | None => True end.
Theorem C53_stcp_blocked : forall cap tr s s' n r, y_ring s = n :: r -> others n (y_snd s) -> runs_ cap tr s = Some s' -> (forall b u, In (ForwardS b u) tr -> b_size b + 4 <> n) ->
  sent_of (y_out s') = sent_of (y_out s).
Proof.
  intros cap tr. induction tr as [|x tr IH]; intros s s' n r RI OT R NF; cbn in R; [now injection R as <-|]. destruct (steps cap x s) as [s1|] eqn:E; [|discriminate].
  assert (X : exists r1, y_ring s1 = n :: r1 /\ others n (y_snd s1) /\ sent_of (y_out s1) = sent_of (y_out s)).
  { destruct x as [b u| | | | | | |]; cbn [steps] in E.
    - unfold forwards in E. destruct (negb _); [injection E as <-; eauto|]. destruct (_ <=? _); [injection E as <-; eauto|]. destruct (y_snd s) as [t|]; [|discriminate]. injection E as <-. cbn [y_ring y_snd y_out]. rewrite RI.
      eexists. split; [reflexivity|]. split; [|reflexivity]. cbn in *. apply Forall_app in OT. rewrite !Forall_app. repeat split; try tauto. repeat constructor. unfold other_size. cbn. apply (NF b u). now left.
    - injection E as <-. cbn [y_ring y_snd y_out]. exists r. split; [exact RI|]. split; [|reflexivity]. destruct (y_snd s) as [t|]; cbn in *; [|exact I]. apply Forall_app in OT. rewrite !Forall_app. repeat split; try tauto. repeat constructor.
    - destruct (y_snd s) as [t|] eqn:Y; [|injection E as <-; rewrite Y; eauto]. pose proof (run_posted_sent t) as Q. unfold run_posted in *. cbn [others] in OT. destruct (t_posted t) as [|e p] eqn:P.
      + injection E as <-. cbn [y_ring y_snd y_out]. rewrite app_nil_r. exists r. split; [exact RI|]. split; [cbn; rewrite P; exact OT|reflexivity].
      + cbn in OT. inversion OT as [|? ? O1 O2]; subst. destruct (t_err t); injection E as <-; cbn [y_ring y_snd y_out snd] in *; rewrite sent_app, Q, app_nil_r; exists r; (split; [exact RI|]); (split; [|reflexivity]); cbn; [exact O2|].
        apply Forall_app in O2. rewrite !Forall_app. repeat split; try tauto. repeat constructor. exact O1.
    - destruct (y_snd s) as [t|] eqn:Y; [|injection E as <-; rewrite Y; eauto]. injection E as <-. unfold wrotes, wrote. cbn [others] in OT. apply Forall_app in OT. destruct OT as (O1 & O2). destruct (t_queue t) as [|e q] eqn:Q.
      + cbn [y_ring y_snd y_out]. exists r. split; [exact RI|]. split; [cbn; rewrite Q, app_nil_r; exact O1|reflexivity].
      + inversion O2 as [|? ? O3 O4]; subst. destruct e as [[g|] bu us]; cbn [l_seg].
        * rewrite RI. unfold other_size in O3. cbn in O3. destruct (N.eqb_spec n (w_len g + 4)) as [Z|_]; [congruence|]. cbn [y_ring y_snd y_out]. exists r. split; [reflexivity|]. split; [cbn; apply Forall_app; auto|reflexivity].
        * cbn [y_ring y_snd y_out]. exists r. split; [exact RI|]. split; [cbn; apply Forall_app; auto|reflexivity].
    - destruct (y_snd s) as [t|] eqn:Y; [|injection E as <-; rewrite Y; eauto]. pose proof (write_failed_sent t) as Q. unfold write_failed in *. cbn [others] in OT. destruct (t_queue t) as [|e q] eqn:P.
      + injection E as <-. cbn [y_ring y_snd y_out]. rewrite app_nil_r. exists r. split; [exact RI|]. split; [cbn; rewrite P; exact OT|reflexivity].
      + injection E as <-. cbn [y_ring y_snd y_out snd] in *. apply Forall_app in OT. exists r. split; [exact RI|]. split; [cbn; rewrite app_nil_r; tauto|]. rewrite sent_app. cbn [flat_map] in Q. rewrite Q. apply app_nil_r.
    - injection E as <-. cbn. eauto.
    - destruct (y_snd s) as [t|] eqn:Y; [|injection E as <-; cbn; eauto]. destruct (quiet t && _); injection E as <-; cbn; eauto. rewrite Y. eauto.
    - destruct (y_snd s) as [t|] eqn:Y; injection E as <-; cbn; [rewrite Y; eauto|]. exists r. split; [exact RI|]. split; [constructor|reflexivity]. }
  destruct X as (r1 & R1 & O1 & S1). rewrite <- S1. apply (IH s1 s' n r1); auto. intros b u I. apply (NF b u). now right.
Qed.
Print Assumptions C53_stcp_blocked.
Theorem C53_stcp_reports_resume_refuted : exists cap tr s t, runs_ cap tr starts = Some s /\ y_snd s = Some t /\ ends (t_wire t) = 1%nat /\ quiet t = true /\ y_out s = [Failed B (Some 101)] /\
  forall tr' s', runs_ cap tr' s = Some s' -> (forall b u, In (ForwardS b u) tr' -> b_size b <> b_size B) -> sent_of (y_out s') = [].
Proof.
  exists 9, [ReadyS; UpS; ForwardS B 101; RunS; WriteFailedS; DownS; ReadyS; UpS; ForwardS A 102; RunS; WroteS]. eexists. eexists. split; [vm_compute; reflexivity|]. do 4 (split; [reflexivity|]).
  intros tr' s' R NF. match type of R with runs_ _ _ ?q = _ => set (s0 := q) in R end. change [] with (sent_of (y_out s0)). apply (C53_stcp_blocked 9 tr' s0 s' 12 (tl (y_ring s0))); [reflexivity|constructor|exact R|].
  intros b u I Z. apply (NF b u I). cbn. lia.
Qed.
Print Assumptions C53_stcp_reports_resume_refuted.
(** STCP: a bundle forwarded between the two halves of OnConnect goes through a null pointer. *)
Theorem C53_stcp_never_null_refuted : exists cap b u, runs_ cap [ReadyS; ForwardS b u] starts = None.
Proof. exists 9, B, 101. reflexivity. Qed.
Print Assumptions C53_stcp_never_null_refuted.
(** STCP: a bundle of nearly 4 GiB or more that was written is not reported (its length field is wrong, too), and blocks the reports after it. *)
Theorem C53_stcp_written_means_reported_refuted : exists cap tr s t, runs_ cap (ReadyS :: UpS :: tr) starts = Some s /\ ~ In ReadyS tr /\ y_snd s = Some t /\ ends (t_wire t) = 2%nat /\ y_out s = [].
Proof.
  exists 9, [ForwardS (mkBundle 1 4294967292) 100; RunS; WroteS; ForwardS B 101; RunS; WroteS]. eexists. eexists. split; [vm_compute; reflexivity|].
  split; [intros H; cbn in H; intuition discriminate|]. repeat split.
Qed.
Print Assumptions C53_stcp_written_means_reported_refuted.
