(** C54: what egress does with bundles, answers, links and routes. *)
From Coq Require Import PeanoNat NArith List Bool Lia Permutation ZifyBool ZifyN.
From Verif Require Import Base M_CustodyId.
From Verif Require Import M_StorageIf(bundle, mkB, b_tag, b_size, emsg, mkE, e_b, e_cut, e_cid, e_idx, e_hop, e_dest, e_custody,
  eerror, NoError, LinkDown, NoOutduct, eack, mkEA, x_cut, x_cid, x_idx, x_hop, x_dest, x_delete, x_err, mkOutduct, t_idx, t_max, t_maxb, t_hop, t_eids, t_nodes, mem, set_nth).
From Verif Require Import M_Egress S_Egress L_Egress.
From Verif Require M_TcpSender S_TcpSender P_TcpSender.
Import ListNotations.
Open Scope N_scope.

(** ** An example: a TCPCL outduct to node 100, an LTP outduct to node 200; three bundles sent, failed, and passed to ingress. *)
Definition cfg_ex : list ocfg := [mkCfg Tcpcl4 100 5 1000; mkCfg LtpUdp 200 8 2000].
Definition bun (t : N) : bundle := mkB t 10 (7, 1) false 0 0 false.
Definition msg_ex (t cid i d : N) (cut : bool) : emsg := mkE (bun t) cut cid i 200 (d, 1) false.
Definition tr_ex : list event :=
  [Route 7 200; AddLink 9; Changed false 0; Bundle Storage (msg_ex 1 11 1 7 true) Took true true; Bundle Ingress (msg_ex 2 12 1 7 false) Took true true;
   Bundle Storage (msg_ex 3 13 0 9 false) Took true true; Success 1 (bun 2) (Some (owed Ingress (msg_ex 2 12 1 7 false))) true;
   Failed 1 (bun 1) (Some (owed Storage (msg_ex 1 11 1 7 true))) false true true; Relay; Relay; Bundle Ingress (msg_ex 4 14 0 8 false) Took true true;
   Bundle Storage (msg_ex 5 15 1 7 false) Took true true; Received (bun 6) true].
Fixpoint exec (l : list event) (s : state) : option state := match l with [] => Some s | e :: r => match step e s with Some s' => exec r s' | None => None end end.
Definition after (max : N) (cfg : list ocfg) (l : list event) : option state := match init max cfg with Some s => exec l s | None => None end.
Lemma exec_runs : forall l s s', exec l s = Some s' -> runs l s s'.
Proof.
  induction l as [|e l IH]; intros s s' H; cbn [exec] in H; [injection H as <-; constructor|].
  destruct (step e s) as [s1|] eqn:E; [|discriminate]. econstructor; eauto.
Qed.
Lemma after_reach : forall max cfg l s, after max cfg l = Some s -> reach max cfg l s.
Proof.
  intros max cfg l s H. unfold after in H. destruct (init max cfg) as [s0|] eqn:E; [|discriminate]. exists s0. split; [exact E|]. apply exec_runs. exact H.
Qed.
Inductive fairs (cfg : list ocfg) : list event -> list event -> list held -> list bundle -> list held -> list bundle -> Prop :=
| fairs_nil pre h d : fairs cfg pre [] h d h d
| fairs_cons pre e l h d h1 d1 h2 d2 : fair cfg pre e h d h1 d1 -> fairs cfg (pre ++ [e]) l h1 d1 h2 d2 -> fairs cfg pre (e :: l) h d h2 d2.
Lemma fairs_run : forall max cfg l pre s s' h d h' d', fair_run max cfg pre s h d -> exec l s = Some s' -> fairs cfg pre l h d h' d' -> fair_run max cfg (pre ++ l) s' h' d'.
Proof.
  intros max cfg. induction l as [|e l IH]; intros pre s s' h d h' d' R E F; cbn [exec] in E; inversion F; subst.
  - injection E as <-. rewrite app_nil_r. exact R.
  - destruct (step e s) as [s1|] eqn:St; [|discriminate]. replace (pre ++ e :: l) with ((pre ++ [e]) ++ l) by (rewrite <- app_assoc; reflexivity).
    eapply IH; [|exact E|eassumption]. econstructor; eauto.
Qed.
Lemma after_fair : forall max cfg l s h d, after max cfg l = Some s -> fairs cfg [] l [] [] h d -> fair_run max cfg l s h d.
Proof.
  intros max cfg l s h d A F. unfold after in A. destruct (init max cfg) as [s0|] eqn:E; [|discriminate].
  change l with ([] ++ l). eapply fairs_run; [apply fair_start; exact E|exact A|exact F].
Qed.
Definition m1 := msg_ex 1 11 1 7 true.
Definition m2 := msg_ex 2 12 1 7 false.
Definition m5 := msg_ex 5 15 1 7 false.
Definition held_ex : list held := [mkHeld 1 (bun 5) (Some (owed Storage m5))].
Lemma fair_ex : exists s, after 100 cfg_ex tr_ex = Some s /\ fair_run 100 cfg_ex tr_ex s held_ex [bun 2].
Proof.
  destruct (after 100 cfg_ex tr_ex) as [s|] eqn:E; [|vm_compute in E; discriminate]. exists s. split; [reflexivity|].
  apply after_fair; [exact E|]. clear E. unfold tr_ex.
  eapply fairs_cons; [apply fair_other; exact I|].
  eapply fairs_cons; [apply fair_other; exact I|].
  eapply fairs_cons; [apply fair_other; exact I|].
  eapply fairs_cons; [apply (fair_took _ _ Storage m1 true true 1 [] []); vm_compute; reflexivity|].
  eapply fairs_cons; [apply (fair_took _ _ Ingress m2 true true 1); vm_compute; reflexivity|].
  eapply fairs_cons; [apply fair_left; vm_compute; discriminate|].
  eapply fairs_cons; [apply (fair_sent _ _ 1 (bun 2) (owed Ingress m2) true [mkHeld 1 (bun 1) (Some (owed Storage m1))] [])|].
  eapply fairs_cons; [apply (fair_failed _ _ 1 (bun 1) (owed Storage m1) true true [] [])|].
  eapply fairs_cons; [apply fair_other; exact I|].
  eapply fairs_cons; [apply fair_other; exact I|].
  eapply fairs_cons; [apply fair_left; vm_compute; discriminate|].
  eapply fairs_cons; [apply (fair_took _ _ Storage m5 true true 1); vm_compute; reflexivity|].
  eapply fairs_cons; [apply fair_other; exact I|].
  apply fairs_nil.
Qed.
Lemma agreed_ex : agreed cfg_ex tr_ex.
Proof.
  unfold tr_ex. intros tr1 src m f ok1 ok2 tr2 i E W.
  do 13 (destruct tr1 as [|? tr1]; [first [discriminate E|injection E; intros; subst; vm_compute in W; first [discriminate W|injection W as <-; reflexivity]]|];
         cbn [app] in E; injection E as <- E).
  destruct tr1; discriminate E.
Qed.

(** * What holds *)
(** Every message is answered once, to the module it came from, with its own fields: the answer was sent, or could not be sent, or the bundle is
    still in an outduct and nothing was reported. *)
Theorem C54_every_answer_is_accounted_for : forall max cfg tr s h d, fair_run max cfg tr s h d ->
  Permutation (debts tr) (map plain (answers s ++ g_lost s) ++ claims h).
Proof. intros max cfg tr s h d R. apply (Permutation_count_occ user_dec). apply (ledgers _ _ _ _ _ _ R). Qed.
Print Assumptions C54_every_answer_is_accounted_for.
Example C54_every_answer_is_accounted_for_ex : exists s, fair_run 100 cfg_ex tr_ex s held_ex [bun 2] /\ length (debts tr_ex) = 5%nat /\ length (answers s) = 4%nat /\ length (claims held_ex) = 1%nat.
Proof. destruct fair_ex as (s & E & F). exists s. split; [exact F|]. vm_compute in E. injection E as <-. repeat split. Qed.

(** Every bundle is in one place: sent, in an outduct, handed to ingress, given back to storage, let go because storage has it, or gone. *)
Theorem C54_every_bundle_is_accounted_for : forall max cfg tr s h d, fair_run max cfg tr s h d ->
  Permutation (given tr) (d ++ map d_b h ++ passed s ++ returned s ++ g_kept s ++ g_gone s) /\ Forall (stored tr) (g_kept s).
Proof. intros max cfg tr s h d R. split; [|eapply kept_run; exact R]. apply (Permutation_count_occ bundle_dec). apply (ledgers _ _ _ _ _ _ R). Qed.
Print Assumptions C54_every_bundle_is_accounted_for.
Example C54_every_bundle_is_accounted_for_ex : exists s, fair_run 100 cfg_ex tr_ex s held_ex [bun 2] /\ passed s = [bun 3; bun 6] /\ returned s = [bun 1; bun 4] /\ map d_b held_ex = [bun 5].
Proof. destruct fair_ex as (s & E & F). exists s. split; [exact F|]. vm_compute in E. injection E as <-. repeat split. Qed.

(** Answers and bundles are lost only if a send fails or a bundle fails after it was reported as sent. *)
Theorem C54_nothing_is_lost : forall max cfg tr s, reach max cfg tr s -> Forall lossless tr -> g_lost s = [] /\ g_gone s = [].
Proof. exact clean_run. Qed.
Print Assumptions C54_nothing_is_lost.
Example C54_nothing_is_lost_ex : exists s, reach 100 cfg_ex tr_ex s /\ Forall lossless tr_ex /\ length tr_ex = 13%nat.
Proof.
  destruct fair_ex as (s & E & F). exists s. split; [eapply fair_reach; exact F|]. split; [|reflexivity]. unfold tr_ex. repeat (constructor; [cbn; auto|]). constructor.
Qed.

(** What is sent is true: each answer is that of a message from that module and says what happened to its bundle; a bundle goes back to storage
    exactly if it failed and storage does not have it; bundles handed to ingress were received or are for opportunistic links. *)
Theorem C54_what_is_sent_is_true : forall max cfg tr s h d, fair_run max cfg tr s h d ->
  Forall (true_storage cfg tr) (g_storage s) /\ Forall (true_ingress cfg tr) (g_ingress s) /\ Forall (true_bundle cfg tr) (g_bundles s) /\ Forall (true_lost cfg tr) (g_lost s).
Proof. exact honest_run. Qed.
Print Assumptions C54_what_is_sent_is_true.
Example C54_what_is_sent_is_true_ex : exists s, fair_run 100 cfg_ex tr_ex s held_ex [bun 2] /\
  answers s = [owed Storage (msg_ex 3 13 0 9 false); with_error LinkDown (owed Storage m1); owed Ingress m2; with_error NoOutduct (owed Ingress (msg_ex 4 14 0 8 false))] /\
  g_bundles s = [(false, bun 3); (true, bun 6)].
Proof. destruct fair_ex as (s & E & F). exists s. split; [exact F|]. vm_compute in E. injection E as <-. split; reflexivity. Qed.

(** A bundle is offered to the outduct its destination is routed to, to no other and once; one for an opportunistic link goes to ingress. *)
Theorem C54_bundles_go_their_way : forall max cfg tr s e s', reach max cfg tr s -> step e s = Some s' ->
  g_asked s' = g_asked s ++ match e with Bundle src m _ _ _ => match way_of cfg tr src m with ToOutduct i => [(i, e_b m)] | _ => [] end | _ => [] end /\
  (forall src m f, e = Bundle src m f true true -> g_bundles s' = g_bundles s ++ match way_of cfg tr src m with ToIngress => [(false, e_b m)] | _ => [] end).
Proof.
  intros max cfg tr s e s' R St. split; [eapply asked_step; eauto|]. intros src m f ->. cbn [step] in St. rewrite (on_bundle_way _ _ _ _ _ _ _ _ _ R) in St.
  assert (Q : forall i b u s0 s1, on_failed i b u false true true s0 = Some s1 -> g_bundles s1 = g_bundles s0).
  { intros i b u s0 s1 H. apply on_failed_cases in H. cbv zeta in H. fold (down_if i s0) in H. destruct (down_if_same i s0) as (_&_&_&_&E&_). rewrite <- E.
    destruct H as [(_ & ->)|(_ & src' & a & _ & H)]; [reflexivity|]. destruct src'; subst s1; destruct (x_cut a); reflexivity. }
  destruct (way_of cfg tr src m); rewrite ?app_nil_r.
  - injection St as <-. reflexivity.
  - destruct f; [injection St as <-; reflexivity|]. destruct (b_size (e_b m) =? 0); [injection St as <-; reflexivity|]. apply Q in St. exact St.
  - eapply Q; exact St.
Qed.
Print Assumptions C54_bundles_go_their_way.
Example C54_bundles_go_their_way_ex : exists s, reach 100 cfg_ex tr_ex s /\ g_asked s = [(1, bun 1); (1, bun 2); (1, bun 5)].
Proof. destruct fair_ex as (s & E & F). exists s. split; [eapply fair_reach; exact F|]. vm_compute in E. injection E as <-. reflexivity. Qed.

(** The router is told about a link when its status changes, in order; the last it hears is what was last observed. *)
Theorem C54_router_knows_the_links : forall max cfg tr s i, reach max cfg tr s ->
  if i <? N.of_nat (length cfg) then alternates (statuses i s) /\ last_is (observed cfg i tr) (statuses i s) else statuses i s = [].
Proof.
  intros max cfg tr s i R. pose proof (links_reach _ _ _ _ R i) as L. destruct (tables_reach _ _ _ _ R) as [T _ _ _].
  assert (Len : length (g_out s) = length cfg) by (apply (f_equal (@length _)) in T; rewrite !map_length in T; exact T).
  destruct (nth_error (g_out s) (N.to_nat i)) as [o|] eqn:E.
  - assert (N.to_nat i < length (g_out s))%nat by (apply nth_error_Some; congruence). replace (i <? N.of_nat (length cfg)) with true by lia.
    destruct L as (A & B & C). rewrite C in B. auto.
  - apply nth_error_None in E. replace (i <? N.of_nat (length cfg)) with false by lia. exact L.
Qed.
Print Assumptions C54_router_knows_the_links.
Example C54_router_knows_the_links_ex : exists s, reach 100 cfg_ex tr_ex s /\ statuses 0 s = [false; true] /\ statuses 1 s = [true; false] /\ observed cfg_ex 0 tr_ex = Some true /\
  observed cfg_ex 1 tr_ex = Some false.
Proof. destruct fair_ex as (s & E & F). exists s. split; [eapply fair_reach; exact F|]. vm_compute in E. injection E as <-. repeat split. Qed.

(** The three modules are sent the same telemetry; each says how destinations were routed when it was sent, the last one how they are routed. *)
Theorem C54_telemetry_follows_the_routes : forall max cfg tr s, reach max cfg tr s ->
  telem_ingress s = telem_storage s /\ telem_router s = telem_storage s /\
  (exists l t, telem_storage s = l ++ [t] /\ describes cfg (fun d => routed cfg d tr) t) /\
  (forall t, In t (telem_storage s) -> exists tr1 tr2, tr = tr1 ++ tr2 /\ describes cfg (fun d => routed cfg d tr1) t).
Proof.
  intros max cfg tr s R. destruct (telemetry_reach _ _ _ _ R) as (A & B & (l & C) & D). split; [exact A|]. split; [exact B|]. split; [|exact D].
  exists l, (caps 0 (g_route s) (g_out s)). split; [exact C|]. apply caps_describes. eapply tables_reach; exact R.
Qed.
Print Assumptions C54_telemetry_follows_the_routes.
Example C54_telemetry_follows_the_routes_ex : exists s, reach 100 cfg_ex tr_ex s /\ map (map t_nodes) (telem_storage s) = [[[]; []]; [[]; [7]]] /\ routed cfg_ex 7 tr_ex = Some 1.
Proof. destruct fair_ex as (s & E & F). exists s. split; [eapply fair_reach; exact F|]. vm_compute in E. injection E as <-. split; reflexivity. Qed.

(** An outduct's schedule and rate are those of the last contact or rate request for it. *)
Theorem C54_schedule_and_rate : forall max cfg tr s i o, reach max cfg tr s -> nth_error (g_out s) (N.to_nat i) = Some o -> o_sched o = scheduled i tr /\ o_rate o = rate_set i tr.
Proof. intros max cfg tr s i o R. eapply plan_reach; exact R. Qed.
Print Assumptions C54_schedule_and_rate.
Example C54_schedule_and_rate_ex : exists s o, reach 100 cfg_ex [Release true 1 500; Rate 1 700; Release false 0 300; Release false 1 900] s /\ nth_error (g_out s) 1 = Some o /\
  o_sched o = false /\ o_rate o = Some 700.
Proof. eexists. eexists. split; [apply after_reach; vm_compute; reflexivity|]. repeat split. Qed.

(** With outducts that report with the user data they were given, no undefined behaviour is reached. *)
Theorem C54_never_undefined : forall max cfg tr s h d e h' d', fair_run max cfg tr s h d -> fair cfg tr e h d h' d' -> exists s', step e s = Some s' /\ fair_run max cfg (tr ++ [e]) s' h' d'.
Proof.
  intros max cfg tr s h d e h' d' R F. assert (D : exists s', step e s = Some s').
  { pose proof (fair_reach _ _ _ _ _ _ R) as Rc. assert (Q : forall i b src a ok1 ok2 s0, exists s', on_failed i b (Some (src, a)) false ok1 ok2 s0 = Some s').
    { intros. unfold on_failed. destruct src; eexists; reflexivity. }
    inversion F; subst; cbn [step]; try (eexists; reflexivity).
    - rewrite (on_bundle_way _ _ _ _ _ _ _ _ _ Rc), H. eexists; reflexivity.
    - rewrite (on_bundle_way _ _ _ _ _ _ _ _ _ Rc). destruct (way_of cfg tr src m) as [|i|] eqn:W; [eexists; reflexivity| |apply Q].
      destruct (H _ eq_refl) as (-> & _). destruct (b_size (e_b m) =? 0); [eexists; reflexivity|apply Q].
    - destruct u. apply Q.
    - destruct e; try contradiction; eexists; reflexivity. }
  destruct D as (s' & St). exists s'. split; [exact St|]. econstructor; eauto.
Qed.
Print Assumptions C54_never_undefined.
Example C54_never_undefined_ex : exists s h' d', fair_run 100 cfg_ex tr_ex s held_ex [bun 2] /\ fair cfg_ex tr_ex (Failed 1 (bun 5) (Some (owed Storage m5)) false true true) held_ex [bun 2] h' d'.
Proof. destruct fair_ex as (s & E & F). exists s, [], [bun 2]. split; [exact F|]. apply (fair_failed _ _ 1 (bun 5) (owed Storage m5) true true [] []). Qed.

(** If the modules route as egress does, an answer names the outduct its bundle was offered to: a failed bundle blames the link that failed. *)
Theorem C54_failures_blame_the_outduct : forall max cfg tr s h d i b u ok1 ok2 h' d', fair_run max cfg tr s h d -> agreed cfg tr ->
  fair cfg tr (Failed i b (Some u) false ok1 ok2) h d h' d' -> x_idx (snd u) = i.
Proof.
  intros max cfg tr s h d i b u ok1 ok2 h' d' R A F. inversion F; subst; [|contradiction].
  exact (held_names _ _ _ _ _ _ R A (mkHeld i b (Some u)) u (in_elt _ _ _) eq_refl).
Qed.
Print Assumptions C54_failures_blame_the_outduct.
Example C54_failures_blame_the_outduct_ex : exists s, fair_run 100 cfg_ex tr_ex s held_ex [bun 2] /\ agreed cfg_ex tr_ex /\
  fair cfg_ex tr_ex (Failed 1 (bun 5) (Some (owed Storage m5)) false true true) held_ex [bun 2] [] [bun 2] /\ x_idx (snd (owed Storage m5)) = 1.
Proof.
  destruct fair_ex as (s & E & F). exists s. split; [exact F|]. split; [exact agreed_ex|]. split; [|reflexivity].
  apply (fair_failed _ _ 1 (bun 5) (owed Storage m5) true true [] []).
Qed.

(** Egress starts if the next hops differ, the layers are known and each outduct's pipeline holds twice the largest bundle, modulo 2^64. *)
Theorem C54_when_egress_starts : forall max cfg, init max cfg <> None <->
  Forall (fun c => (max * 2) mod W64 <= f_maxb c /\ f_layer c <> Unknown) cfg /\ NoDup (map f_hop cfg).
Proof.
  intros max cfg. unfold init. assert (Q : load max cfg nothing <> None <-> match load max cfg nothing with Some s => Some (resend s) | None => None end <> None).
  { destruct (load max cfg nothing); split; congruence. }
  rewrite <- Q, load_iff. cbn [nothing g_out map]. split; [tauto|]. intros (A & B). split; [exact A|]. split; [exact B|]. intros c _ [].
Qed.
Print Assumptions C54_when_egress_starts.
Example C54_when_egress_starts_ex : init 100 cfg_ex <> None /\ init 501 cfg_ex = None /\ init 100 (cfg_ex ++ [mkCfg Stcp 200 5 1000]) = None.
Proof. repeat split; vm_compute; discriminate. Qed.

(** The link status callback, run alone, tells the router exactly if the status changed. *)
Theorem C54_link_status_in_turn : forall r n up, nth_error (c_threads r) n = Some (CRead up) -> exists r', race_run [n; n; n] r = Some r' /\
  c_phys r' = Some up /\ c_sent r' = c_sent r ++ (if match c_phys r with Some p => Bool.eqb p up | None => false end then [] else [up]).
Proof.
  intros r n up E. assert (L : (n < length (c_threads r))%nat) by (apply nth_error_Some; congruence).
  cbn [race_run]. unfold race_step at 1. rewrite E. cbv iota beta.
  unfold race_step at 1. cbn [c_threads c_phys c_sent]. rewrite set_nth_same by exact L.
  unfold race_step at 1. cbn [c_threads c_phys c_sent]. rewrite set_nth_same by (rewrite set_nth_length; exact L).
  eexists. split; [reflexivity|]. cbn [c_phys c_sent]. split; [reflexivity|]. destruct (c_phys r) as [p|]; [destruct (Bool.eqb p up)|]; cbn [negb]; rewrite ?app_nil_r; reflexivity.
Qed.
Print Assumptions C54_link_status_in_turn.
Example C54_link_status_in_turn_ex : exists r', race_run [0; 0; 0; 1; 1; 1]%nat (mkR None [] [CRead false; CRead true]) = Some r' /\ c_sent r' = [false; true].
Proof. eexists. split; reflexivity. Qed.

(** * What does not hold *)
Ltac fair_steps := repeat (eapply fairs_cons; [first [apply fair_other; exact I | apply fair_took; vm_compute; reflexivity]|]).
(** A bundle from ingress that fails is handed to storage with outduct 0 as the one that failed (which storage takes to be down, C52), whichever it was, even if there was none. *)
Theorem C54_failed_bundle_names_its_outduct_refuted : exists max cfg tr s h d b, fair_run max cfg tr s h d /\ agreed cfg tr /\ In (Failed 1 b (Some (owed Ingress (msg_ex 2 12 1 7 false))) false true true) tr /\
  In (SFailed 0 b) (g_storage s) /\ ~ In (SFailed 1 b) (g_storage s) /\ observed cfg 0 tr = Some true.
Proof.
  exists 100, cfg_ex, [Route 7 200; Changed false 0; Bundle Ingress m2 Took true true; Failed 1 (bun 2) (Some (owed Ingress m2)) false true true].
  eexists. exists [], [], (bun 2). split; [|split; [|split; [|split; [|split]]]].
  - apply after_fair; [vm_compute; reflexivity|]. fair_steps.
    eapply fairs_cons; [apply (fair_failed _ _ 1 (bun 2) (owed Ingress m2) true true [] [])|]. apply fairs_nil.
  - intros tr1 src m f ok1 ok2 tr2 i E W.
    do 4 (destruct tr1 as [|? tr1]; [first [discriminate E|injection E; intros; subst; vm_compute in W; first [discriminate W|injection W as <-; reflexivity]]|];
          cbn [app] in E; injection E as <- E).
    destruct tr1; discriminate E.
  - cbn. auto.
  - vm_compute. auto.
  - cbn. intros H. repeat (destruct H as [H|H]; [discriminate H|]). exact H.
  - reflexivity.
Qed.
Print Assumptions C54_failed_bundle_names_its_outduct_refuted.
Theorem C54_unroutable_bundle_blames_no_outduct_refuted : exists max cfg tr s b, fair_run max cfg tr s [] [] /\ g_asked s = [] /\ In (SFailed 0 b) (g_storage s).
Proof.
  exists 100, cfg_ex, [Bundle Ingress m2 Took true true]. eexists. exists (bun 2). split; [|split].
  - apply after_fair; [vm_compute; reflexivity|]. eapply fairs_cons; [apply fair_left; vm_compute; discriminate|]. apply fairs_nil.
  - reflexivity.
  - vm_compute. auto.
Qed.
Print Assumptions C54_unroutable_bundle_blames_no_outduct_refuted.

(** A bundle that fails after it was reported as sent is dropped, though every send succeeds. *)
Theorem C54_bundle_survives_early_report_refuted : exists max cfg tr s b u, fair_run max cfg tr s [] [] /\ answers s = [u] /\ x_err (snd u) = NoError /\ g_gone s = [b] /\
  Forall (fun e => match e with Bundle _ _ _ ok1 ok2 => ok1 = true /\ ok2 = true | Success _ _ _ ok => ok = true | Failed _ _ _ _ ok1 ok2 => ok1 = true /\ ok2 = true | _ => True end) tr.
Proof.
  exists 100, cfg_ex, [Route 7 200; Bundle Storage m1 Took true true; Success 1 (bun 1) (Some (owed Storage m1)) true; Failed 1 (bun 1) None true true true].
  eexists. exists (bun 1), (owed Storage m1). split; [|split; [|split; [|split]]].
  - apply after_fair; [vm_compute; reflexivity|]. fair_steps.
    eapply fairs_cons; [apply (fair_told _ _ 1 (bun 1) (owed Storage m1) true [] [])|].
    eapply fairs_cons; [apply (fair_late _ _ 1 (bun 1) None true true [] [])|]. apply fairs_nil.
  - reflexivity.
  - reflexivity.
  - reflexivity.
  - repeat (constructor; [cbn; auto|]). constructor.
Qed.
Print Assumptions C54_bundle_survives_early_report_refuted.

(** A failure without user data is a write through a null pointer; TCPCL version 3 outducts (C53) report every failure that way. *)
Theorem C54_failures_without_user_data_refuted : (forall i b ok1 ok2 s, step (Failed i b None false ok1 ok2) s = None) /\
  exists c tr s b u, M_TcpSender.run3 c tr M_TcpSender.start3 = Some s /\ M_TcpSender.v_acc s = [(b, u)] /\ M_TcpSender.v_out s = [M_TcpSender.Failed b None].
Proof. split; [reflexivity|]. exact P_TcpSender.C53_failures_name_their_bundle_refuted. Qed.
Print Assumptions C54_failures_without_user_data_refuted.

(** A bundle released for one outduct goes to another if its destination was rerouted meanwhile; the answer names the first, which is not the one that failed. *)
Theorem C54_answers_name_the_outduct_that_failed_refuted : exists max cfg tr s h d i b u, fair_run max cfg (tr ++ [Failed i b (Some u) false true true]) s h d /\
  In u (map plain (answers s)) /\ g_asked s = [(i, b)] /\ x_idx (snd u) <> i /\ observed cfg (x_idx (snd u)) (tr ++ [Failed i b (Some u) false true true]) = Some true.
Proof.
  exists 100, cfg_ex, [Route 7 200; Changed false 1; Route 7 100; Bundle Storage m1 Took true true]. eexists. exists [], [], 0, (bun 1), (owed Storage m1).
  split; [|split; [|split; [|split]]].
  - apply after_fair; [vm_compute; reflexivity|]. cbn [app]. fair_steps.
    eapply fairs_cons; [apply (fair_failed _ _ 0 (bun 1) (owed Storage m1) true true [] [])|]. apply fairs_nil.
  - vm_compute. auto.
  - reflexivity.
  - vm_compute. discriminate.
  - reflexivity.
Qed.
Print Assumptions C54_answers_name_the_outduct_that_failed_refuted.

(** An answer that could not be sent is not sent again: the module waits for it forever. *)
Theorem C54_answers_are_repeated_refuted : exists max cfg tr s u, fair_run max cfg tr s [] [bun 1] /\ debts tr = [u] /\ answers s = [] /\ g_lost s = [u].
Proof.
  exists 100, cfg_ex, [Route 7 200; Bundle Storage m1 Took true true; Success 1 (bun 1) (Some (owed Storage m1)) false]. eexists. exists (owed Storage m1).
  split.
  - apply after_fair; [vm_compute; reflexivity|]. fair_steps.
    eapply fairs_cons; [apply (fair_sent _ _ 1 (bun 1) (owed Storage m1) false [] [])|]. apply fairs_nil.
  - repeat split.
Qed.
Print Assumptions C54_answers_are_repeated_refuted.

(** A bundle for an opportunistic link is reported as sent before it is handed to ingress: if that fails it is gone, and storage deletes its copy. *)
Theorem C54_opportunistic_bundles_are_handed_over_refuted : exists max cfg tr s b a, fair_run max cfg tr s [] [] /\ g_storage s = [STelem (caps 0 [] (g_out s)); SAck a None] /\ x_err a = NoError /\
  x_delete a = true /\ passed s = [] /\ g_gone s = [b].
Proof.
  exists 100, cfg_ex, [AddLink 9; Bundle Storage (msg_ex 3 13 0 9 false) Took true false]. eexists. exists (bun 3), (snd (owed Storage (msg_ex 3 13 0 9 false))).
  split.
  - apply after_fair; [vm_compute; reflexivity|]. eapply fairs_cons; [apply fair_other; exact I|].
    eapply fairs_cons; [apply fair_left; vm_compute; discriminate|]. apply fairs_nil.
  - repeat split.
Qed.
Print Assumptions C54_opportunistic_bundles_are_handed_over_refuted.

(** An empty bundle that an outduct does not take is taken for sent on: no answer, no bundle. *)
Theorem C54_every_bundle_left_is_answered_refuted : exists max cfg tr s b, reach max cfg tr s /\ given tr = [b] /\ debts tr <> [] /\ b_size b = 0 /\
  In (Bundle Ingress (mkE b false 12 1 200 (7, 1) false) (Left true) true true) tr /\ answers s = [] /\ g_lost s = [] /\ places s = [].
Proof.
  exists 100, cfg_ex, [Route 7 200; Bundle Ingress (mkE (mkB 1 0 (7, 1) false 0 0 false) false 12 1 200 (7, 1) false) (Left true) true true]. eexists.
  exists (mkB 1 0 (7, 1) false 0 0 false). split; [apply after_reach; vm_compute; reflexivity|]. split; [reflexivity|]. split; [discriminate|]. split; [reflexivity|]. split; [right; left; reflexivity|].
  repeat split.
Qed.
Print Assumptions C54_every_bundle_left_is_answered_refuted.

(** A bundle an outduct does not take, for instance because its pipeline is full (C53), makes its link count as down, though the outduct never said so. *)
Theorem C54_down_means_disconnected_refuted : exists max cfg tr s i, fair_run max cfg tr s [] [] /\ (forall j, ~ In (Changed true j) tr) /\ In (Changed false i) tr /\
  statuses i s = [false; true; false].
Proof.
  exists 100, cfg_ex, [Route 7 100; Changed false 0; Bundle Storage m1 (Left true) true true]. eexists. exists 0. split; [|split; [|split]].
  - apply after_fair; [vm_compute; reflexivity|]. fair_steps. eapply fairs_cons; [apply fair_left; intros i _; split; [reflexivity|vm_compute; discriminate]|]. apply fairs_nil.
  - intros j H. repeat (destruct H as [H|H]; [discriminate H|]). exact H.
  - cbn. auto.
  - reflexivity.
Qed.
Print Assumptions C54_down_means_disconnected_refuted.

(** A route to a next hop that no outduct has does not replace the old one. *)
Theorem C54_last_route_wins_refuted : exists max cfg tr d hop s, reach max cfg (tr ++ [Route d hop]) s /\ (forall c, In c cfg -> f_hop c <> hop) /\ hop <> U64MAX /\
  way_of cfg (tr ++ [Route d hop]) Storage m1 = ToOutduct 1 /\ fst (e_dest m1) = d.
Proof.
  exists 100, cfg_ex, [Route 7 200], 7, 300. eexists. split; [apply after_reach; vm_compute; reflexivity|]. split; [|repeat split; discriminate].
  intros c [<-|[<-|[]]]; discriminate.
Qed.
Print Assumptions C54_last_route_wins_refuted.

(** The check of the pipeline against the largest bundle wraps. *)
Theorem C54_pipelines_hold_the_largest_bundle_refuted : exists max cfg, init max cfg <> None /\ exists c, In c cfg /\ f_maxb c < max.
Proof. exists 9223372036854775808, [mkCfg Stcp 100 5 0]. split; [vm_compute; discriminate|]. eexists. split; [left; reflexivity|]. vm_compute. reflexivity. Qed.
Print Assumptions C54_pipelines_hold_the_largest_bundle_refuted.

(** Two threads that report an outduct's link at once: the link is up, the router was last told that it is down, and being told again that it is up does not help. *)
Theorem C54_router_knows_the_link_despite_races_refuted : exists l r, race_run l (mkR (Some true) [] [CRead false; CRead true; CRead true]) = Some r /\ c_threads r = [CDone; CDone; CDone] /\
  c_phys r = Some true /\ c_sent r = [false].
Proof. exists [0; 1; 0; 1; 0; 1; 2; 2; 2]%nat. eexists. split; [vm_compute; reflexivity|]. repeat split. Qed.
Print Assumptions C54_router_knows_the_link_despite_races_refuted.
