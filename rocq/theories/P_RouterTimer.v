(** C43: the router's timers. *)
From Coq Require Import NArith ZArith List Bool Lia ZifyBool ZifyN.
From Verif Require Import Base M_Cgr M_Router S_Router S_RouterTimer L_Router L_RouterStep L_RouterGood L_RouterTimer L_RouterTime L_RouterStore P_Router.
Import ListNotations.
Open Scope N_scope.

Lemma start_now now telem : t_now (start now telem) = now.
Proof. exact (proj1 (proj2 (proj2 (proj2 (proj2 (populate_fields telem _)))))). Qed.
(** Whatever happens, when nothing is due the events of the schedule all lie ahead. *)
Theorem C43_no_event_is_forgotten : forall me unix mgr order hold now telem l s,
  telem_ok telem -> run me unix mgr order hold (start now telem) l = Some s -> settled s ->
  Forall (fun x => t_now s < fst (fst x)) (t_sched s).
Proof.
  intros me unix mgr order hold now telem l s T E St. destruct (armed_run me unix mgr order hold l _ s (start_inv now telem T) (start_armed now telem) E) as [A B].
  destruct (t_sched s) as [|((t, k), e) r] eqn:Es; [constructor|]. assert (Ht : t_now s < t).
  { destruct B as [B|B]; apply St in B; destruct B as [B|(u & B & Hu)]; try discriminate. injection B as ->. assumption. }
  apply Forall_forall. intros ((t', k'), e') H. pose proof (head_first _ _ _ _ _ _ _ A H). cbn. lia.
Qed.
Print Assumptions C43_no_event_is_forgotten.

(** When nothing is due, a link is up by the plan exactly during its contacts. *)
Theorem C43_links_follow_the_plan : forall me unix mgr order hold now telem l s,
  telem_ok telem -> run me unix mgr order hold (start now telem) l = Some s ->
  orderly false (apart me) (step me unix mgr order hold) (start now telem) l -> settled s ->
  forall i o, get (t_outs s) i = Some o -> o_hop o <> me ->
    (o_time o = true <-> in_contact me unix (fst (in_force now ([], now) l)) (snd (in_force now ([], now) l)) (o_hop o) (t_now s)).
Proof.
  intros me unix mgr order hold now telem l s T E O St i o Ho Hm. pose proof (start_inv now telem T) as I0.
  pose proof (timed_run me unix mgr order hold (apart me) l (fun _ H => H) ([], now) (start now telem) s I0 (start_timed me unix order now telem T) O E) as Td. rewrite start_now in Td.
  assert (I : inv s) by (eapply run_inv; eassumption). set (p := in_force now ([], now) l) in *. clearbody p.
  destruct Td as [(all & done & A & B & C & D & F) L]. rewrite (D i o Ho). rewrite <- (B (o_hop o) i (t_now s)); [|apply (v_hop _ I); eauto|assumption].
  assert (X : upto (t_now s) all = done); [|now rewrite X]. rewrite C. apply upto_split; [assumption|].
  pose proof (C43_no_event_is_forgotten me unix mgr order hold now telem l s T E St) as Z. unfold strip. rewrite Forall_forall in *. intros y Hy. apply in_map_iff in Hy. destruct Hy as (z & <- & Hz). now apply Z.
Qed.
Print Assumptions C43_links_follow_the_plan.

(** Whatever happens, when nothing is due no link is down for a report of full storage older than the delay. *)
Theorem C43_full_storage_passes : forall me unix mgr order hold now telem l s,
  telem_ok telem -> run me unix mgr order hold (start now telem) l = Some s -> stor_settled s ->
  forall i o, get (t_outs s) i = Some o -> o_stor o = false -> recently_full hold (t_now s) (o_hop o) now l.
Proof.
  intros me unix mgr order hold now telem l s T E St i o Ho Hs.
  destruct (stored_run me unix mgr order hold l (fun _ => None) _ s (start_inv now telem T) (proj1 (start_stored me order hold now telem T)) E) as (rep & R & [A B C D W] & _). rewrite start_now in R.
  apply (C i o Ho) in Hs. apply in_map_iff in Hs. destruct Hs as (((t, k), j) & Ej & Hin). cbn [snd] in Ej. subst j. destruct (D t k i Hin) as (o' & r & Ho' & Hr & -> & Hl). rewrite Ho in Ho'. injection Ho' as <-.
  exists r. rewrite <- R. split; [assumption|]. destruct W as [(_ & _ & W)|(_ & [W|(u & W & _ & W')])].
  - rewrite W in Hin. destruct Hin.
  - destruct (St Expired) as [X|(u & X & _)]; [rewrite W; now left|discriminate|discriminate].
  - destruct (St (Until u)) as [X|(u' & X & Y)]; [rewrite W; now left|discriminate|]. injection X as <-. specialize (W' _ _ _ Hin). lia.
Qed.
Print Assumptions C43_full_storage_passes.

(** When neighbours known to be full do not report again, a link is down all the time from a report until the delay is over. *)
Theorem C43_links_are_held_down : forall me unix mgr order hold now telem l s,
  telem_ok telem -> run me unix mgr order hold (start now telem) l = Some s ->
  single_reports (step me unix mgr order hold) (start now telem) l ->
  forall i o, get (t_outs s) i = Some o -> recently_full hold (t_now s) (o_hop o) now l -> o_stor o = false.
Proof.
  intros me unix mgr order hold now telem l s T E Sg i o Ho (r & Hr & Hl).
  destruct (stored_run me unix mgr order hold l (fun _ => None) _ s (start_inv now telem T) (proj1 (start_stored me order hold now telem T)) E) as (rep & R & _ & G). rewrite start_now in R.
  destruct (G Sg (proj2 (start_stored me order hold now telem T))) as [_ S2]. destruct (o_stor o) eqn:Es; [|reflexivity]. exfalso. specialize (S2 i o Ho Es). rewrite R, Hr in S2. lia.
Qed.
Print Assumptions C43_links_are_held_down.

(** * All together *)
Lemma fixed_link me mgr order i f up pre ord s o s' : inv s -> get (t_outs s) i = Some o -> o_hop (f o) = o_hop o -> o_dests (f o) = o_dests o -> (changed o (f o) = true -> is_up (f o) = up) -> rates_only pre ->
  update_link me mgr order i f up pre ord s = Some s' -> forall j, option_map (fun o => (o_hop o, o_phys o)) (get (t_outs s') j) = option_map (fun p => (o_hop p, if N.eqb j i then o_phys (f o) else o_phys p)) (get (t_outs s) j).
Proof.
  intros I Hi Hh Hd Hu Hr E j. destruct (update_link_ok me mgr order i f up pre ord s o s' I Hi Hh Hd Hu Hr E) as (_ & _ & O & _). specialize (O j). destruct (N.eqb_spec j i) as [Ej|Ej]; [subst j|].
  - rewrite Hi. destruct (get (t_outs s') i) as [p|]; [|discriminate]. cbn [option_map] in *. injection O as O1 O2 O3 O4. rewrite O1, O3, Hh. reflexivity.
  - destruct (get (t_outs s') j) as [p|], (get (t_outs s) j) as [q|]; try discriminate; [|reflexivity]. cbn [option_map] in *. injection O as O1 O2 O3 O4. rewrite O1, O3. reflexivity.
Qed.
Lemma fixed_same me mgr order i f up pre ord s o s' : inv s -> get (t_outs s) i = Some o -> o_hop (f o) = o_hop o -> o_dests (f o) = o_dests o -> o_phys (f o) = o_phys o -> (changed o (f o) = true -> is_up (f o) = up) -> rates_only pre ->
  update_link me mgr order i f up pre ord s = Some s' -> forall j, option_map (fun o => (o_hop o, o_phys o)) (get (t_outs s') j) = option_map (fun o => (o_hop o, o_phys o)) (get (t_outs s) j).
Proof.
  intros I Hi Hh Hd Hp Hu Hr E j. rewrite (fixed_link me mgr order i f up pre ord s o s' I Hi Hh Hd Hu Hr E j). destruct (N.eqb_spec j i) as [Ej|Ej]; [subst j; rewrite Hi; cbn [option_map]; now rewrite Hp|reflexivity].
Qed.
Lemma fixed_step me unix mgr order hold s i s' : inv s -> step me unix mgr order hold s i = Some s' -> forall j,
  option_map (fun o => (o_hop o, o_phys o)) (get (t_outs s') j) = option_map (fun o => (o_hop o, match i with IPhysical k up _ => if N.eqb j k then up else o_phys o | _ => o_phys o end)) (get (t_outs s) j).
Proof.
  intros I E. destruct i as [i up ord|i up ord|rows ord ord'|node ord|dt|n|n|n ord|n ord]; cbn [M_Router.step] in E.
  - unfold physical in E. destruct (get (t_outs s) i) as [o|] eqn:Ei.
    + intros j. rewrite (fixed_link me mgr order i (set_phys up) up [] ord s o s' I Ei eq_refl eq_refl (phys_up up o) rates_nil E j). destruct (N.eqb_spec j i) as [Ej|Ej]; reflexivity.
    + injection E as <-. intros j. destruct (N.eqb_spec j i) as [Ej|Ej]; [subst j; now rewrite Ei|reflexivity].
  - unfold api in E. destruct (get (t_outs s) i) as [o|] eqn:Ei; [|injection E as <-; reflexivity].
    exact (fixed_same me mgr order i (set_time up) up [] ord s o s' I Ei eq_refl eq_refl eq_refl (time_up up o) rates_nil E).
  - injection E as <-. intros j. destruct (load_plan_ok me order unix rows ord ord' s I) as (_ & O & _). specialize (O j).
    destruct (get (t_outs (load_plan me unix rows ord ord' s)) j) as [p|], (get (t_outs s) j) as [q|]; try discriminate; [|reflexivity]. cbn [option_map] in *. injection O as O1 O2 O3 O4. now rewrite O1, O3.
  - unfold depleted in E. destruct (get (t_hops s) node) as [i|] eqn:En; [|injection E as <-; reflexivity].
    destruct (proj1 (v_hop _ I node i) En) as (o & Ho & _). destruct (restart_storage_frame (add_expiry i (t_now s + hold * 1000000) s)) as (w & b & Ew). rewrite Ew in E.
    refine (fixed_same me mgr order i (set_stor false) false [] ord (with_stimer (add_expiry i (t_now s + hold * 1000000) s) w b) o s' _ Ho eq_refl eq_refl eq_refl (stor_up false o) rates_nil E).
    apply (inv_ext s); try reflexivity; assumption.
  - injection E as <-. reflexivity.
  - injection E as <-. reflexivity.
  - injection E as <-. reflexivity.
  - destruct (nth_error (t_cwait s) n) as [w|]; [|injection E as <-; reflexivity].
    assert (K : forall b, contact_timer me mgr order b ord (with_ctimer s (remove_at n (t_cwait s)) (t_crun s)) = Some s' -> forall j, option_map (fun o => (o_hop o, o_phys o)) (get (t_outs s') j) = option_map (fun o => (o_hop o, o_phys o)) (get (t_outs s) j)).
    { intros b. unfold contact_timer. set (x := with_ctimer (with_ctimer s _ _) _ _). change (t_sched x) with (t_sched s). change (t_outs x) with (t_outs s).
      destruct b; [intros X; injection X as <-; reflexivity|]. destruct (t_sched s) as [|(k, e) r]; [intros X; injection X as <-; reflexivity|].
      destruct (get (t_outs s) (e_out e)) as [o|] eqn:Eo.
      - destruct (update_link _ _ _ _ _ _ _ _ x) as [y|] eqn:Ey; [|discriminate]. intros X. injection X as <-. intros j. destruct (restart_contact_frame (with_sched y r)) as (w1 & b1 & ->).
        assert (Ix : inv x) by (apply (inv_ext s); try reflexivity; assumption).
        exact (fixed_same me mgr order (e_out e) (set_time (e_up e)) (e_up e) [Rate (e_out e) (e_rate e) (e_up e)] ord x o y Ix Eo eq_refl eq_refl eq_refl (time_up _ o) (rates_one _ _ _) Ey j).
      - intros X. injection X as <-. intros j. destruct (restart_contact_frame (with_sched x r)) as (w1 & b1 & ->). reflexivity. }
    destruct w; [injection E as <-; reflexivity|exact (K false E)|exact (K true E)].
  - destruct (nth_error (t_swait s) n) as [w|]; [|injection E as <-; reflexivity].
    assert (K : forall b, storage_timer me mgr order b ord (with_stimer s (remove_at n (t_swait s)) (t_srun s)) = Some s' -> forall j, option_map (fun o => (o_hop o, o_phys o)) (get (t_outs s') j) = option_map (fun o => (o_hop o, o_phys o)) (get (t_outs s) j)).
    { intros b. unfold storage_timer. set (x := with_stimer (with_stimer s _ _) _ _).
      assert (Ix : forall w b, inv (with_stimer x w b)) by (intros; apply (inv_ext s); try reflexivity; assumption).
      destruct b; [intros X; injection X as <-; reflexivity|]. destruct (t_stor x) as [|((t, c), i) r]; [intros X; injection X as <-; reflexivity|].
      assert (Ey : exists w0 b0, (if N.ltb (t_now x) t then restart_storage_timer x else x) = with_stimer x w0 b0).
      { destruct (N.ltb (t_now x) t); [apply restart_storage_frame|]. exists (t_swait x), (t_srun x). reflexivity. }
      destruct Ey as (w0 & b0 & ->). destruct (update_link _ _ _ _ _ _ _ _ _) as [z|] eqn:Ez; [|discriminate]. intros X. injection X as <-.
      destruct (get (t_outs (with_stimer x w0 b0)) i) as [o|] eqn:Eo; [|unfold update_link in Ez; rewrite Eo in Ez; discriminate].
      intros j. destruct (restart_storage_frame (with_stor z r)) as (w1 & b1 & ->).
      exact (fixed_same me mgr order i (set_stor true) true [] ord _ o z (Ix _ _) Eo eq_refl eq_refl eq_refl (stor_up true o) rates_nil Ez j). }
    destruct w; [injection E as <-; reflexivity|exact (K false E)|exact (K true E)].
Qed.
Lemma fixed_run me unix mgr order hold l : forall s s', inv s -> run me unix mgr order hold s l = Some s' -> forall j o, get (t_outs s) j = Some o ->
  exists o', get (t_outs s') j = Some o' /\ o_hop o' = o_hop o /\ o_phys o' = last_physical j (o_phys o) l.
Proof.
  induction l as [|i l IH]; intros s s' I E j o Ho; cbn [run] in E; [injection E as <-; eauto|]. destruct (step me unix mgr order hold s i) as [x|] eqn:Es; [|discriminate].
  pose proof (fixed_step me unix mgr order hold s i x I Es j) as F. rewrite Ho in F. destruct (get (t_outs x) j) as [p|] eqn:Ep; [|discriminate]. cbn [option_map] in F. injection F as F1 F2.
  destruct (IH x s' (proj1 (step_still me unix mgr order hold s i x I Es)) E j p Ep) as (o' & Ho' & H1 & H2). exists o'. split; [assumption|]. split; [congruence|]. rewrite H2, F2. destruct i; reflexivity.
Qed.
Lemma populate_has telem : forall s i h dn, NoDup (map (fun x => fst (fst x)) telem) -> (forall i, get (t_outs s) i <> None -> ~ In i (map (fun x => fst (fst x)) telem)) ->
  In (i, h, dn) telem \/ get (t_outs s) i = Some (mkOut h false (negb dn) true []) -> get (t_outs (populate telem s)) i = Some (mkOut h false (negb dn) true []).
Proof.
  induction telem as [|((j, h'), dn') r IH]; intros s i h dn ND Hi H; [destruct H as [[]|H]; exact H|]. cbn [populate map fst snd] in *. inversion ND; subst.
  assert (G : get (t_outs s) j = None). { destruct (get (t_outs s) j) eqn:E; [|reflexivity]. exfalso. apply (Hi j); [congruence|now left]. }
  apply IH; cbn [t_outs]; [assumption|..].
  - intros k. rewrite insert_get by assumption. destruct (N.eqb_spec k j) as [->|]; [auto|]. intros X Y. apply (Hi k X). now right.
  - rewrite insert_get by assumption. destruct H as [[H|H]|H]; [injection H as -> -> ->; rewrite N.eqb_refl; auto|auto|]. destruct (N.eqb_spec i j) as [->|]; [congruence|auto].
Qed.

(** What the router announces, from what it is told only: when nothing is due, the last word on a link is that it is up exactly if
    it is physically up, a contact with its neighbour is under way and the neighbour did not report full storage recently. *)
Theorem C43_the_announced_state : forall me unix mgr order hold now telem l s i h down,
  telem_ok telem -> run me unix mgr order hold (start now telem) l = Some s ->
  orderly false (apart me) (step me unix mgr order hold) (start now telem) l -> single_reports (step me unix mgr order hold) (start now telem) l ->
  settled s -> stor_settled s -> In (i, h, down) telem -> h <> me ->
  (told_link (t_sent s) i = true <->
     last_physical i (negb down) l = true /\ in_contact me unix (fst (in_force now ([], now) l)) (snd (in_force now ([], now) l)) h (t_now s) /\ ~ recently_full hold (t_now s) h now l).
Proof.
  intros me unix mgr order hold now telem l s i h dn T E O Sg St St' Hin Hm. pose proof (start_inv now telem T) as I0.
  assert (Ho : get (t_outs (start now telem)) i = Some (mkOut h false (negb dn) true [])). { apply populate_has; [apply T|cbn; tauto|auto]. }
  destruct (fixed_run me unix mgr order hold l _ s I0 E i _ Ho) as (o & Eo & Hh & Hp). cbn [o_hop o_phys] in Hh, Hp.
  destruct (C42_the_last_word_is_the_state me unix mgr order hold now telem l s T E) as (W & _). rewrite (W i o Eo). unfold is_up. rewrite !andb_true_iff, Hp, <- Hh.
  rewrite (C43_links_follow_the_plan me unix mgr order hold now telem l s T E O St i o Eo) by congruence.
  pose proof (C43_full_storage_passes me unix mgr order hold now telem l s T E St' i o Eo) as X1. pose proof (C43_links_are_held_down me unix mgr order hold now telem l s T E Sg i o Eo) as X2.
  destruct (o_stor o); intuition discriminate.
Qed.
Print Assumptions C43_the_announced_state.

(** * An execution *)
Lemma apart_two me a b : (w_start a < w_end a) -> (w_start b < w_end b) -> (w_end a <= w_start b \/ w_end b < w_start a) -> apart me [a; b].
Proof.
  intros H1 H2 H3. split.
  - intros w [<-|[<-|[]]] _; assumption.
  - intros i j x y Hi Hj Hl _ _ _. destruct i as [|[|i]], j as [|[|j]]; try lia; cbn [nth_error] in Hi, Hj; try (destruct j; discriminate); try (destruct i; discriminate); try discriminate. injection Hi as <-. injection Hj as <-. assumption.
Qed.
Definition ex_rows2 : list row := [mkRow 0 1 2 10 60 100 1; mkRow 1 1 2 60 90 100 1].
(** A contact begins, the neighbour is full, the first contact ends as the second begins, the delay is over. *)
Definition ex_run2 : list input :=
  [IPlan ex_rows2 [] []; ITime 10000000; IExpireC 0; IRunC 0 []; ITime 10000000; IDepleted 2 []; ITime 40000000; IExpireC 0; IRunC 0 [];
   IExpireC 0; IRunC 0 []; ITime 10000000; IExpireS 0; IRunS 0 []].
Example C43_execution : exists s, run 1 false false (fun _ => []) 50 (start 5000000 ex_telem) ex_run2 = Some s /\
  orderly false (apart 1) (step 1 false false (fun _ => []) 50) (start 5000000 ex_telem) ex_run2 /\ single_reports (step 1 false false (fun _ => []) 50) (start 5000000 ex_telem) ex_run2 /\
  settled s /\ stor_settled s /\ rev (t_sent s) = [RouteTo 2 no_route; Rate 0 100 true; LinkUp 0; RouteTo 2 2; LinkDown 0; Rate 0 100 false; Rate 0 100 true; LinkUp 0].
Proof.
  eexists. split; [vm_compute; reflexivity|]. split.
  { cbn [orderly ex_run2]. split; [split; [repeat constructor; vm_compute; try reflexivity; discriminate|split; [apply apart_two; vm_compute; auto; left; discriminate|right; intros []]]|].
    vm_compute. tauto. }
  split. { vm_compute. repeat split. intros j o H Hh. destruct j; [injection H as <-; reflexivity|]. destruct p; try discriminate. injection H as <-. reflexivity. }
  split. { intros w [<-|[]]. right. eexists. split; [reflexivity|vm_compute; reflexivity]. }
  split. { intros w []. }
  vm_compute. reflexivity.
Qed.

(** * What does not hold *)
Lemma apart_unordered_two me a b : (w_start a < w_end a) -> (w_start b < w_end b) -> (w_end a <= w_start b \/ w_end b <= w_start a) -> apart_unordered me [a; b].
Proof.
  intros H1 H2 H3. split.
  - intros w [<-|[<-|[]]] _; assumption.
  - intros i j x y Hi Hj Hl _ _ _. destruct i as [|[|i]], j as [|[|j]]; try lia; cbn [nth_error] in Hi, Hj; try (destruct j; discriminate); try (destruct i; discriminate); try discriminate; injection Hi as <-; injection Hj as <-; tauto.
Qed.
(** A contact beginning when another with the same neighbour ends is lost if it comes first in the plan. *)
Theorem C43_links_follow_any_plan_refuted : exists me unix order hold now telem l s i h,
  telem_ok telem /\ run me unix false order hold (start now telem) l = Some s /\ orderly false (apart_unordered me) (step me unix false order hold) (start now telem) l /\
  single_reports (step me unix false order hold) (start now telem) l /\ settled s /\ stor_settled s /\ In (i, h, false) telem /\ h <> me /\
  last_physical i true l = true /\ in_contact me unix (fst (in_force now ([], now) l)) (snd (in_force now ([], now) l)) h (t_now s) /\ (forall r, last_report now h None l <> Some r) /\
  told_link (t_sent s) i = false.
Proof.
  set (rows := [mkRow 0 1 2 60 90 100 1; mkRow 1 1 2 10 60 100 1]).
  exists 1, false, (fun _ => []), 50, 5000000, ex_telem, [IPlan rows [] []; ITime 10000000; IExpireC 0; IRunC 0 []; ITime 50000000; IExpireC 0; IRunC 0 []; IExpireC 0; IRunC 0 []; ITime 10000000].
  eexists. exists 0, 2. split; [apply ex_telem_ok|]. split; [vm_compute; reflexivity|]. split.
  { cbn [orderly]. split; [split; [repeat constructor; vm_compute; try reflexivity; discriminate|split; [apply apart_unordered_two; vm_compute; auto; right; discriminate|right; intros []]]|].
    vm_compute. tauto. }
  split; [vm_compute; tauto|]. split. { intros w [<-|[]]. right. eexists. split; [reflexivity|vm_compute; reflexivity]. }
  split; [intros w []|]. split; [now left|]. split; [discriminate|]. split; [reflexivity|]. split.
  { exists (mkRow 0 1 2 60 90 100 1). split; [now left|]. vm_compute. repeat split; discriminate. }
  split; [discriminate|reflexivity].
Qed.
Print Assumptions C43_links_follow_any_plan_refuted.

(** If a plan is loaded when the timer has expired but its handler has not run yet, the first event of the new plan happens at once. *)
Theorem C43_links_follow_a_plan_loaded_any_time_refuted : exists me unix order hold now telem l s i h,
  telem_ok telem /\ run me unix false order hold (start now telem) l = Some s /\ orderly true (apart me) (step me unix false order hold) (start now telem) l /\
  single_reports (step me unix false order hold) (start now telem) l /\ settled s /\ stor_settled s /\ In (i, h, false) telem /\ h <> me /\
  ~ in_contact me unix (fst (in_force now ([], now) l)) (snd (in_force now ([], now) l)) h (t_now s) /\ told_link (t_sent s) i = true.
Proof.
  set (rows := [mkRow 0 1 2 10 90 100 1; mkRow 1 1 2 500 600 100 1]). set (rows' := [mkRow 0 1 2 500 600 100 1; mkRow 1 1 2 700 800 100 1]).
  exists 1, false, (fun _ => []), 50, 5000000, ex_telem, [IPlan rows [] []; ITime 10000000; IExpireC 0; IPlan rows' [] []; IRunC 0 []; ITime 10000000].
  eexists. exists 0, 2. split; [apply ex_telem_ok|]. split; [vm_compute; reflexivity|]. split.
  { cbn [orderly]. split; [split; [repeat constructor; vm_compute; try reflexivity; discriminate|split; [apply apart_two; vm_compute; auto; left; discriminate|left; reflexivity]]|].
    assert (A : Forall row_ok rows' /\ apart 1 rows'). { split; [repeat constructor; vm_compute; try reflexivity; discriminate|apply apart_two; vm_compute; auto; left; discriminate]. }
    repeat match goal with |- match step 1 false false ?o 50 ?x ?i with _ => _ end => let v := eval vm_compute in (step 1 false false o 50 x i) in change (step 1 false false o 50 x i) with v; cbv iota end.
    split; [exact Logic.I|]. repeat (match goal with |- match step 1 false false ?o 50 ?x ?i with _ => _ end => let v := eval vm_compute in (step 1 false false o 50 x i) in change (step 1 false false o 50 x i) with v; cbv iota end; split; [try exact Logic.I; (split; [apply A|split; [apply A|left; reflexivity]])|]).
    match goal with |- match ?x with _ => _ end => let v := eval vm_compute in x in change x with v end. exact Logic.I. }
  split; [vm_compute; tauto|]. split. { intros w [<-|[<-|[]]]; [now left|]. right. eexists. split; [reflexivity|vm_compute; reflexivity]. }
  split; [intros w []|]. split; [now left|]. split; [discriminate|]. split; [|reflexivity].
  intros (w & [<-|[<-|[]]] & _ & _ & X & _); vm_compute in X; now apply X.
Qed.
Print Assumptions C43_links_follow_a_plan_loaded_any_time_refuted.

(** A neighbour that reports full storage again is sent to when the delay after the first report is over: the handler notices that the
    entry expires later, but goes on. *)
Theorem C43_links_are_held_down_refuted : exists me unix order hold now telem l s i h,
  telem_ok telem /\ run me unix false order hold (start now telem) l = Some s /\ In (i, h, false) telem /\ h <> me /\
  recently_full hold (t_now s) h now l /\ told_link (t_sent s) i = true.
Proof.
  exists 1, false, (fun _ => []), 100, 5000000, ex_telem, [IPlan ex_rows [] []; ITime 10000000; IExpireC 0; IRunC 0 []; IDepleted 2 []; ITime 60000000; IDepleted 2 []; ITime 40000000; IExpireS 0; IRunS 0 []].
  eexists. exists 0, 2. split; [apply ex_telem_ok|]. split; [vm_compute; reflexivity|]. split; [now left|]. split; [discriminate|]. split; [|reflexivity].
  eexists. split; [reflexivity|]. vm_compute. reflexivity.
Qed.
Print Assumptions C43_links_are_held_down_refuted.
