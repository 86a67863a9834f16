(** C42: the router's links and routes. *)
From Coq Require Import NArith ZArith List Bool Lia ZifyBool ZifyN.
From Verif Require Import Base M_Cgr S_Cgr L_Cgr P_Cgr S_CgrMulti P_CgrMulti M_Router S_Router L_Router L_RouterStep L_RouterGood.
Import ListNotations.
Open Scope N_scope.

(** The last word on every link and on every destination is the present state. *)
Theorem C42_the_last_word_is_the_state : forall me unix mgr order hold now telem l s,
  telem_ok telem -> run me unix mgr order hold (start now telem) l = Some s ->
  (forall i o, get (t_outs s) i = Some o -> told_link (t_sent s) i = is_up o) /\
  (forall d h, get (t_routes s) d = Some h -> told_route (t_sent s) d = Some h) /\
  (forall d, get (t_routes s) d = None -> told_route (t_sent s) d = None \/ told_route (t_sent s) d = Some (2 ^ 64 - 1)).
Proof. intros. assert (I : inv s) by (eapply run_inv; [apply start_inv|]; eassumption). split; [apply I|]. split; apply I. Qed.
Print Assumptions C42_the_last_word_is_the_state.

(** Each outduct's list of destinations has, once each, those whose route begins with it. *)
Theorem C42_the_books_agree : forall me unix mgr order hold now telem l s,
  telem_ok telem -> run me unix mgr order hold (start now telem) l = Some s ->
  forall i o, get (t_outs s) i = Some o -> NoDup (o_dests o) /\ forall d, In d (o_dests o) <-> get (t_routes s) d = Some (o_hop o).
Proof. intros me unix mgr order hold now telem l s T E i o Hi. assert (I : inv s) by (eapply run_inv; [apply start_inv|]; eassumption). split; [now apply (v_dn _ I i)|intros d; now apply (v_books _ I i)]. Qed.
Print Assumptions C42_the_books_agree.

(** The router with the usual search always goes on, and every next hop is that of one of its outducts. *)
Theorem C42_next_hops_have_outducts : forall me unix order hold now telem l,
  me < 2 ^ 31 -> telem_ok telem -> Forall input_ok l -> (Z.of_N (end_time now l / 1000000) <= tmax)%Z ->
  exists s, run me unix false order hold (start now telem) l = Some s /\ t_now s = end_time now l /\
    forall d h, get (t_routes s) d = Some h -> h = 2 ^ 64 - 1 \/ exists i o, get (t_outs s) i = Some o /\ o_hop o = h.
Proof.
  intros me unix order hold now telem l Hme T H F. pose proof (start_inv now telem T) as I.
  assert (N0 : t_now (start now telem) = now) by exact (proj1 (proj2 (proj2 (proj2 (proj2 (populate_fields telem _)))))).
  destruct (run_ready me unix order hold Hme l (start now telem) I (start_ready me order now telem) H) as (s & E & I' & R & Nw); [rewrite N0; exact F|]. rewrite N0 in Nw.
  exists s. split; [exact E|]. split; [exact Nw|]. intros d h Hd. destruct (r_hop _ _ R d h Hd) as [->|X]; [left; reflexivity|right].
  destruct (get (t_hops s) h) as [i|] eqn:Ei; [|congruence]. apply (v_hop _ I') in Ei. destruct Ei as (o & Ho & Hh). eauto.
Qed.
Print Assumptions C42_next_hops_have_outducts.

Definition good_now (me : N) (s : rt) (d h : N) : Prop := good_hop (t_plan s) me (Z.of_N (router_time s)) (link_down s) d h.
(** A new plan brings no link up. *)
Definition adds (s s' : rt) : Prop := exists new, t_sent s' = new ++ t_sent s /\ forall j, ~ In (LinkUp j) new.
Lemma adds_none s s' : t_sent s' = t_sent s -> adds s s'. Proof. exists []. split; [assumption|]. intros j []. Qed.
Lemma adds_trans a b c : adds a b -> adds b c -> adds a c.
Proof. intros (x & E & H) (y & E' & H'). exists (y ++ x). split; [rewrite E', E; apply app_assoc|]. intros j Hj. apply in_app_or in Hj. destruct Hj; [eapply H'|eapply H]; eassumption. Qed.
Lemma adds_fold {A} (f : rt -> A -> rt) l : (forall s x, adds s (f s x)) -> forall s, adds s (fold_left f l s).
Proof. intros H. induction l as [|x l IH]; intros s; [now apply adds_none|]. cbn [fold_left]. eapply adds_trans; [apply H|apply IH]. Qed.
Lemma adds_plan me unix rows ord ord' s : adds s (load_plan me unix rows ord ord' s).
Proof.
  unfold load_plan. set (s0 := with_ctimer s _ _). set (s1 := drop_links s0). assert (A1 : adds s s1).
  { eapply adds_trans; [apply (adds_none s s0); reflexivity|]. apply adds_fold. intros x (i, o). cbn [fst snd]. unfold drop_link. destruct (changed _ _); [|now apply adds_none].
    exists [LinkDown i]. split; [reflexivity|]. intros j [X|[]]. discriminate. }
  set (s2 := fold_left _ _ s1). assert (A2 : adds s1 s2).
  { apply adds_fold. intros x d. destruct (get (t_routes x) d) as [h|]; [|now apply adds_none]. destruct (N.eqb h no_route); [now apply adds_none|]. exists [RouteTo d no_route]. split; [reflexivity|]. intros j [X|[]]. discriminate. }
  set (s3 := with_sched (with_routes s2 []) []). set (s4 := if unix then _ else _). assert (A4 : adds s2 s4) by (apply adds_none; unfold s4; destruct unix; reflexivity).
  set (s5 := fold_left (add_row me) rows s4). assert (A5 : adds s4 s5).
  { apply adds_fold. intros x w. destruct (add_row_frame me x w) as (y & ->). now apply adds_none. }
  set (s6 := with_plan s5 _). assert (A6 : adds s5 s6) by now apply adds_none.
  set (s7 := fold_left _ _ s6). assert (A7 : adds s6 s7).
  { apply adds_fold. intros x d. exists [RouteTo d no_route]. split; [reflexivity|]. intros j [X|[]]. discriminate. }
  assert (A8 : adds s7 (restart_contact_timer (with_ctimer s7 (t_cwait s7) false))). { destruct (restart_contact_frame (with_ctimer s7 (t_cwait s7) false)) as (w & b & ->). now apply adds_none. }
  exact (adds_trans _ _ _ A1 (adds_trans _ _ _ A2 (adds_trans _ _ _ A4 (adds_trans _ _ _ A5 (adds_trans _ _ _ A6 (adds_trans _ _ _ A7 A8)))))).
Qed.
(** What is known before and after a step that is not a new plan. *)
Lemma step_facts me unix order hold now telem l i s s' :
  me < 2 ^ 31 -> telem_ok telem -> Forall input_ok l -> (Z.of_N (end_time now l / 1000000) <= tmax)%Z ->
  run me unix false order hold (start now telem) l = Some s -> step me unix false order hold s i = Some s' -> (forall rows ord ord', i <> IPlan rows ord ord') ->
  inv s /\ inv s' /\ ready me s /\ fit (t_now s) /\ (still me false order s s' /\ t_now s' = t_now s \/ exists dt, s' = with_now s (t_now s + dt)).
Proof.
  intros Hme T H F E Es Hi. pose proof (start_inv now telem T) as I0.
  assert (N0 : t_now (start now telem) = now) by exact (proj1 (proj2 (proj2 (proj2 (proj2 (populate_fields telem _)))))).
  destruct (run_ready me unix order hold Hme l (start now telem) I0 (start_ready me order now telem) H) as (x & E' & I & R & Nw); [rewrite N0; exact F|].
  rewrite E in E'. injection E' as <-. destruct (step_still me unix false order hold s i s' I Es) as (I' & K).
  split; [assumption|]. split; [assumption|]. split; [assumption|]. split; [rewrite Nw, N0; exact F|].
  destruct i; try (left; exact K); try (right; eauto). exfalso. now apply (Hi rows ord ord').
Qed.
Lemma best_now me order s s' d h : inv s' -> ready me s -> fit (t_now s) -> still me false order s s' -> t_now s' = t_now s ->
  t_latest s' = sub64 (t_now s / 1000000) (t_sub s) -> best_hop me false order s' d = Some h -> get (t_routes s') d = Some h -> good_now me s' d h.
Proof.
  intros I' R F St Nw L B G. unfold good_now, router_time. rewrite Nw, (l_sub _ _ _ _ _ St).
  assert (E : t_latest s' = t_now s / 1000000 - t_sub s). { rewrite L. pose proof (r_sub _ _ R). unfold fit, tmax in *. apply sub64_small; unfold W64; lia. }
  destruct (best_good me order s' d I') as (h' & B' & Gd).
  - rewrite (l_plan _ _ _ _ _ St). apply R.
  - rewrite E. unfold fit in F. lia.
  - intros ->. assert (X : get (t_routes s') me = None) by (apply (l_keys _ _ _ _ _ St), R). congruence.
  - rewrite B in B'. injection B' as <-. rewrite <- E. exact Gd.
Qed.

(** When a link comes up, every route becomes one of an earliest journey. *)
Theorem C42_link_up_refreshes_every_route : forall me unix order hold now telem l i s s' new j,
  me < 2 ^ 31 -> telem_ok telem -> Forall input_ok l -> (Z.of_N (end_time now l / 1000000) <= tmax)%Z ->
  run me unix false order hold (start now telem) l = Some s -> step me unix false order hold s i = Some s' ->
  t_sent s' = new ++ t_sent s -> In (LinkUp j) new ->
  forall d h, get (t_routes s') d = Some h -> good_now me s' d h.
Proof.
  intros me unix order hold now telem l i s s' new j Hme T H F E Es Hs Hin d h Hd.
  assert (Hi : forall rows ord ord', i <> IPlan rows ord ord').
  { intros rows ord ord' ->. cbn [step] in Es. injection Es as <-. destruct (adds_plan me unix rows ord ord' s) as (x & E1 & E2). rewrite E1 in Hs. apply app_inv_tail in Hs. subst x. exact (E2 j Hin). }
  destruct (step_facts me unix order hold now telem l i s s' Hme T H F E Es Hi) as (I & I' & R & Ft & [(St & Nw)|(dt & ->)]).
  2:{ exfalso. cbn in Hs. change (t_sent s) with ([] ++ t_sent s) in Hs at 1. apply app_inv_tail in Hs. subst new. destruct Hin. }
  pose proof (l_moved _ _ _ _ _ St) as [(M & x & Ex & Hx)|(k & o & up & a & b & H1 & H2 & H2' & H3 & H4 & H5 & H6 & H7 & H8)].
  - exfalso. rewrite Ex in Hs. apply app_inv_tail in Hs. subst x. destruct (Hx _ Hin) as (? & ? & ? & X). discriminate.
  - assert (up = true) as ->.
    { change (t_sent s' = new ++ t_sent s) in Hs. rewrite H3 in Hs. rewrite app_comm_cons, app_assoc in Hs. apply app_inv_tail in Hs. subst new. apply in_app_or in Hin. destruct Hin as [X|[X|X]].
      - destruct (H4 _ X) as (? & ? & Y). discriminate.
      - destruct up; [reflexivity|discriminate].
      - destruct (H5 _ X) as (? & ? & ? & Y). discriminate. }
    assert (X : get (t_routes s) d <> None) by (rewrite <- (l_keys _ _ _ _ _ St); congruence). destruct (H7 d X (or_introl eq_refl)) as (h' & B & G). rewrite G in Hd. injection Hd as ->.
    exact (best_now me order s s' d h I' R Ft St Nw H6 B G).
Qed.
Print Assumptions C42_link_up_refreshes_every_route.

(** When a link goes down, every route over it becomes one of an earliest journey; the others stay. *)
Theorem C42_link_down_reroutes : forall me unix order hold now telem l i s s' new j o,
  me < 2 ^ 31 -> telem_ok telem -> Forall input_ok l -> (Z.of_N (end_time now l / 1000000) <= tmax)%Z ->
  run me unix false order hold (start now telem) l = Some s -> step me unix false order hold s i = Some s' ->
  (forall rows ord ord', i <> IPlan rows ord ord') -> t_sent s' = new ++ t_sent s -> In (LinkDown j) new -> get (t_outs s) j = Some o ->
  forall d, (get (t_routes s) d = Some (o_hop o) -> exists h, get (t_routes s') d = Some h /\ good_now me s' d h) /\
            (get (t_routes s) d <> Some (o_hop o) -> get (t_routes s') d = get (t_routes s) d).
Proof.
  intros me unix order hold now telem l i s s' new j o Hme T H F E Es Hi Hs Hin Hj d.
  destruct (step_facts me unix order hold now telem l i s s' Hme T H F E Es Hi) as (I & I' & R & Ft & [(St & Nw)|(dt & ->)]).
  2:{ exfalso. cbn in Hs. change (t_sent s) with ([] ++ t_sent s) in Hs at 1. apply app_inv_tail in Hs. subst new. destruct Hin. }
  pose proof (l_moved _ _ _ _ _ St) as [(M & x & Ex & Hx)|(k & p & up & a & b & H1 & H2 & H2' & H3 & H4 & H5 & H6 & H7 & H8)].
  - exfalso. rewrite Ex in Hs. apply app_inv_tail in Hs. subst x. destruct (Hx _ Hin) as (? & ? & ? & X). discriminate.
  - assert (X : up = false /\ k = j).
    { rewrite H3 in Hs. rewrite app_comm_cons, app_assoc in Hs. apply app_inv_tail in Hs. subst new. apply in_app_or in Hin. destruct Hin as [X|[X|X]].
      - destruct (H4 _ X) as (? & ? & Y). discriminate.
      - destruct up; [discriminate|]. injection X as ->. auto.
      - destruct (H5 _ X) as (? & ? & ? & Y). discriminate. }
    destruct X as (-> & ->). rewrite Hj in H1. injection H1 as <-. split; [|intros Hd; now apply H8].
    intros Hd. destruct (H7 d ltac:(congruence) (or_intror Hd)) as (h & B & G). exists h. split; [exact G|].
    exact (best_now me order s s' d h I' R Ft St Nw H6 B G).
Qed.
Print Assumptions C42_link_down_reroutes.

(** Apart from a new plan, nothing else changes a route. *)
Theorem C42_only_links_change_routes : forall me unix mgr order hold now telem l i s s' new,
  telem_ok telem -> run me unix mgr order hold (start now telem) l = Some s -> step me unix mgr order hold s i = Some s' ->
  (forall rows ord ord', i <> IPlan rows ord ord') -> t_sent s' = new ++ t_sent s -> (forall j, ~ In (LinkUp j) new /\ ~ In (LinkDown j) new) ->
  t_routes s' = t_routes s /\ forall d h, ~ In (RouteTo d h) new.
Proof.
  intros me unix mgr order hold now telem l i s s' new T E Es Hi Hs Hn. assert (I : inv s) by (eapply run_inv; [apply start_inv|]; eassumption).
  destruct (step_still me unix mgr order hold s i s' I Es) as (I' & K).
  assert (M : moved me mgr order s s').
  { destruct i; try (apply (l_moved _ _ _ _ _ (proj1 K))); [exfalso; now apply (Hi rows ord ord')|]. subst s'. left. split; [reflexivity|]. exists []. split; [reflexivity|intros m []]. }
  destruct M as [(M & x & Ex & Hx)|(k & p & up & a & b & H1 & H2 & H2' & H3 & H4 & H5 & _)].
  - split; [exact M|]. rewrite Ex in Hs. apply app_inv_tail in Hs. subst x. intros d h X. destruct (Hx _ X) as (? & ? & ? & Y). discriminate.
  - exfalso. rewrite H3 in Hs. rewrite app_comm_cons, app_assoc in Hs. apply app_inv_tail in Hs. subst new. destruct (Hn k) as (A & B). destruct up; [apply A|apply B]; apply in_or_app; right; left; reflexivity.
Qed.
Print Assumptions C42_only_links_change_routes.

(** After a new plan is loaded, all links of the old plan are down, and the destinations are those of the plan other than the
    node itself, none of which has a route. *)
Theorem C42_a_new_plan_starts_afresh : forall me unix mgr order hold now telem l s rows ord ord' s',
  telem_ok telem -> run me unix mgr order hold (start now telem) l = Some s -> step me unix mgr order hold s (IPlan rows ord ord') = Some s' -> Forall row_ok rows ->
  (forall i o, get (t_outs s') i = Some o -> o_time o = false /\ o_dests o = [] /\ told_link (t_sent s') i = false) /\
  (forall d h, get (t_routes s') d = Some h <-> d <> me /\ (exists w, In w rows /\ w_dest w = d) /\ h = 2 ^ 64 - 1).
Proof.
  intros me unix mgr order hold now telem l s rows ord ord' s' T E Es H. cbn [step] in Es. injection Es as <-.
  assert (I : inv s) by (eapply run_inv; [apply start_inv|]; eassumption).
  destruct (load_plan_ok me order unix rows ord ord' s I) as (I' & O & Rt & x & y & z & v & w & E' & _). set (s' := load_plan me unix rows ord ord' s) in *. split.
  - intros i o Ho. specialize (O i). rewrite Ho in O. destruct (get (t_outs s) i) as [p|] eqn:Ep; [|discriminate]. cbn [option_map] in O. injection O as O1 O2 O3 O4.
    split; [exact O2|]. split.
    + destruct (o_dests o) as [|d r] eqn:Ed; [reflexivity|]. exfalso. assert (X : In d (o_dests o)) by (rewrite Ed; now left). apply (v_books _ I' i o d Ho) in X. rewrite Rt in X.
      destruct (existsb _ rows); [|discriminate]. injection X as X. apply (hop_real s' i o I' Ho). now symmetry.
    + rewrite (v_link _ I' i o Ho). unfold is_up. rewrite O2. reflexivity.
  - intros d h. rewrite Rt. rewrite Forall_forall in H. assert (A : forall w, In w rows -> as_int (w_dest w) = w_dest w).
    { intros r Hr. destruct (H r Hr) as (_ & B & _). unfold as_int. destruct (N.ltb_spec (w_dest r) 2147483648); lia. }
    destruct (existsb _ rows) eqn:Ex.
    + apply existsb_exists in Ex. destruct Ex as (r & Hr & X). apply andb_prop in X. destruct X as (X1 & X2). rewrite (A r Hr) in X1. apply N.eqb_eq in X1. apply negb_true_iff, N.eqb_neq in X2.
      split; [intros X; injection X as <-; split; [assumption|split; [eauto|reflexivity]]|intros (_ & _ & ->); reflexivity].
    + split; [discriminate|]. intros (X1 & (r & Hr & X2) & _). exfalso. rewrite <- not_true_iff_false in Ex. apply Ex. apply existsb_exists. exists r. split; [assumption|]. rewrite (A r Hr), X2, N.eqb_refl. apply N.eqb_neq in X1. rewrite X1. reflexivity.
Qed.
Print Assumptions C42_a_new_plan_starts_afresh.

(** * An execution *)
(** Node 1 with outducts to 2 and 4; node 3 is behind both. *)
Definition ex_telem : list (N * N * bool) := [(0, 2, false); (1, 4, false)].
Definition ex_rows : list row := [mkRow 0 1 2 10 1000 100 1; mkRow 1 2 3 0 100 100 1; mkRow 2 1 4 20 50 100 1; mkRow 3 4 3 20 100 100 1].
Definition ex_run : list input :=
  [IPlan ex_rows [] []; ITime 10000000; IExpireC 0; IRunC 0 []; ITime 10000000; IExpireC 0; IRunC 0 []; IPhysical 0 false [];
   ITime 1000000; IPhysical 0 true []].
Lemma ex_telem_ok : telem_ok ex_telem.
Proof. unfold telem_ok, ex_telem. cbn [map fst snd]. split; [|split]; [repeat constructor; cbn; intuition discriminate..|]. cbn. intuition discriminate. Qed.
Lemma ex_run_ok : Forall input_ok ex_run /\ (Z.of_N (end_time 5000000 ex_run / 1000000) <= tmax)%Z.
Proof. split; [|vm_compute; congruence]. repeat constructor; vm_compute; try reflexivity; discriminate. Qed.
Example C42_execution : option_map (fun s => (rev (t_sent s), t_routes s, map (fun x => o_dests (snd x)) (t_outs s))) (run 1 false false (fun _ => []) 100 (start 5000000 ex_telem) ex_run) =
  Some ([RouteTo 2 no_route; RouteTo 3 no_route; RouteTo 4 no_route; Rate 0 100 true; LinkUp 0; RouteTo 2 2; RouteTo 3 2; RouteTo 4 4;
         Rate 1 100 true; LinkUp 1; LinkDown 0; RouteTo 3 4; RouteTo 2 no_route; LinkUp 0; RouteTo 2 2; RouteTo 3 2], [(2, 2); (3, 2); (4, 4)], [[3; 2]; [4]]).
Proof. vm_compute. reflexivity. Qed.

(** * What does not hold *)
Lemma journey_late use plan s t0 x t l : plan_ok plan -> journey use plan s t0 x t l -> (t0 <= t)%Z.
Proof. intros P. induction 1 as [|x t l c J IH Hin Hf Hu]; [lia|]. unfold plan_ok in P. rewrite Forall_forall in P. destruct (P c Hin) as (A & B & _). lia. Qed.
Lemma no_way_in plan me now down d : plan_ok plan -> d <> me -> Forall (fun c => k_to c = d -> (k_end c <= now)%Z) plan ->
  forall t l, ~ journey (fun c t => open c t /\ ~ blocked me now down c) plan me now d t l.
Proof.
  intros P Hd F t l J. inversion J as [E|x u k c J' Hin Hf Hu E]; subst; [congruence|]. rewrite Forall_forall in F. specialize (F c Hin eq_refl).
  pose proof (journey_late _ _ _ _ _ _ _ P J'). destruct Hu as ((Hu & _) & _). lia.
Qed.
(** Routes are not kept good as time passes: when a contact between other nodes ends, the routes over it stay. *)
Theorem C42_routes_stay_good_refuted : exists me unix order hold now telem l s d h,
  me < 2 ^ 31 /\ telem_ok telem /\ Forall input_ok l /\ run me unix false order hold (start now telem) l = Some s /\
  told_route (t_sent s) d = Some h /\ h <> 2 ^ 64 - 1 /\ t_cwait s = [Until (t_now s + 795000000)] /\
  forall t k, ~ journey (fun c t => open c t /\ ~ blocked me (Z.of_N (router_time s)) (link_down s) c) (t_plan s) me (Z.of_N (router_time s)) d t k.
Proof.
  exists 1, false, (fun _ => []), 100, 5000000, ex_telem, [IPlan [mkRow 0 1 2 10 1000 100 1; mkRow 1 2 3 0 100 100 1] [] []; ITime 10000000; IExpireC 0; IRunC 0 []; ITime 195000000]. eexists. exists 3, 2.
  split; [vm_compute; reflexivity|]. split; [apply ex_telem_ok|]. split; [repeat constructor; vm_compute; try reflexivity; discriminate|]. split; [vm_compute; reflexivity|].
  split; [reflexivity|]. split; [discriminate|]. split; [reflexivity|]. apply no_way_in; [|discriminate|].
  - repeat constructor; vm_compute; try reflexivity; discriminate.
  - cbn [t_plan]. repeat constructor; vm_compute; intros; try discriminate; congruence.
Qed.
Print Assumptions C42_routes_stay_good_refuted.

(** With the multigraph search, a link coming up brings routes over contacts that are over. *)
Theorem C42_multigraph_router_knows_the_time_refuted : exists me unix order hold now telem l i s s' new j d h,
  me < 2 ^ 31 /\ telem_ok telem /\ Forall input_ok l /\ run me unix true order hold (start now telem) l = Some s /\ step me unix true order hold s i = Some s' /\
  neighbour_order (t_plan s) order /\ t_sent s' = new ++ t_sent s /\ In (LinkUp j) new /\ In (RouteTo d h) new /\ h <> 2 ^ 64 - 1 /\
  forall t k, ~ journey (fun c t => open c t /\ ~ blocked me (Z.of_N (router_time s')) (link_down s') c) (t_plan s') me (Z.of_N (router_time s')) d t k.
Proof.
  set (rows := [mkRow 0 1 2 0 99 100 1; mkRow 1 2 3 0 99 100 1; mkRow 2 3 2 0 99 100 1; mkRow 3 1 2 150 1000 100 1]).
  exists 1, false, (some_order (map load_row rows)), 100, 5000000, ex_telem, [IPlan rows [] []; IExpireC 0; IRunC 0 []; ITime 99000000; IExpireC 0; IRunC 0 []; ITime 51000000; IExpireC 0], (IRunC 0 []).
  eexists. eexists. exists [RouteTo 3 2; LinkUp 0; Rate 0 100 true], 0, 3, 2.
  split; [vm_compute; reflexivity|]. split; [apply ex_telem_ok|]. split; [repeat constructor; vm_compute; try reflexivity; discriminate|].
  split; [vm_compute; reflexivity|]. split; [vm_compute; reflexivity|]. split; [apply some_order_ok|].
  split; [reflexivity|]. split; [right; now left|]. split; [now left|]. split; [discriminate|]. apply no_way_in; [|discriminate|].
  - repeat constructor; vm_compute; try reflexivity; discriminate.
  - cbn [t_plan]. repeat constructor; vm_compute; intros; try discriminate; congruence.
Qed.
Print Assumptions C42_multigraph_router_knows_the_time_refuted.

(** A node with a number of 2^31 or more never gets a route, whatever the contacts: the list of destinations has 0 in its place. *)
Theorem C42_every_destination_is_routed_refuted : exists me unix order hold now telem rows l s d t k,
  me < 2 ^ 31 /\ telem_ok telem /\ d < 2 ^ 32 /\ run me unix false order hold (start now telem) (IPlan rows [] [] :: l) = Some s /\ (exists w, In w rows /\ w_dest w = d) /\
  journey (fun c t => open c t /\ ~ blocked me (Z.of_N (router_time s)) (link_down s) c) (t_plan s) me (Z.of_N (router_time s)) d t k /\
  (exists m, t_sent s = [RouteTo 2 2; m; Rate 0 100 true; RouteTo 0 no_route; RouteTo 2 no_route]) /\ told_route (t_sent s) d = None.
Proof.
  set (rows := [mkRow 0 1 2 10 1000 100 1; mkRow 1 2 3000000000 0 100 100 1]).
  exists 1, false, (fun _ => []), 100, 5000000, ex_telem, rows, [ITime 10000000; IExpireC 0; IRunC 0 []]. eexists. exists 3000000000, 12%Z, (([] ++ [load_row (mkRow 0 1 2 10 1000 100 1)]) ++ [load_row (mkRow 1 2 3000000000 0 100 100 1)]).
  split; [vm_compute; reflexivity|]. split; [apply ex_telem_ok|]. split; [vm_compute; reflexivity|]. split; [vm_compute; reflexivity|].
  split; [eexists; split; [right; left; reflexivity|reflexivity]|]. split; [|split; [eexists; reflexivity|reflexivity]]. cbn [t_plan].
  set (c0 := load_row (mkRow 0 1 2 10 1000 100 1)). set (c1 := load_row (mkRow 1 2 3000000000 0 100 100 1)).
  refine (J_hop _ _ _ _ 2 11%Z [c0] c1 (J_hop _ _ _ _ 1 10%Z [] c0 (J_start _ _ _ _) _ _ _) _ _ _).
  - now left.
  - reflexivity.
  - split; [split; [reflexivity|vm_compute; discriminate]|]. intros (_ & _ & i & o & Ho & Hh & Hu). cbn [t_outs get] in Ho.
    destruct (N.eqb i 0); [injection Ho as <-; discriminate|]. destruct (N.eqb i 1); [injection Ho as <-; discriminate|discriminate].
  - right. now left.
  - reflexivity.
  - split; [split; [reflexivity|vm_compute; discriminate]|]. intros (_ & X & _). discriminate.
Qed.
Print Assumptions C42_every_destination_is_routed_refuted.
