(** Lemmas for P_Router: the next hop computed is that of an earliest journey, and the router never gets stuck. *)
From Coq Require Import NArith ZArith List Bool Lia ZifyBool ZifyN.
From Verif Require Import Base M_Cgr S_Cgr L_Cgr P_Cgr M_Router S_Router L_Router L_RouterStep.
Import ListNotations.
Open Scope N_scope.

Lemma filter_plan_ok src now down plan : plan_ok plan -> plan_ok (filter_plan src now down plan).
Proof. unfold plan_ok, filter_plan. rewrite !Forall_forall. intros H c Hc. apply filter_In in Hc. now apply H. Qed.
Lemma in_filter_plan src now down plan c : plan_ok plan -> (In c (filter_plan src now down plan) <-> In c plan /\ ~ blocked src (Z.of_N now) (fun h => down h = true) c).
Proof.
  intros P. unfold filter_plan. rewrite filter_In, negb_true_iff. split; intros (H & K); split; try assumption; unfold plan_ok in P; rewrite Forall_forall in P; destruct (P c H) as (A & B & C & D); unfold tmax in *.
  - intros (Hs & Hf & Hd). rewrite Hd in K. assert (to_u64 (k_start c) = Z.to_N (k_start c)) by (unfold to_u64; rewrite Z.mod_small by lia; reflexivity).
    assert (to_u64 (k_end c) = Z.to_N (k_end c)) by (unfold to_u64; rewrite Z.mod_small by lia; reflexivity). lia.
  - assert (to_u64 (k_start c) = Z.to_N (k_start c)) by (unfold to_u64; rewrite Z.mod_small by lia; reflexivity).
    assert (to_u64 (k_end c) = Z.to_N (k_end c)) by (unfold to_u64; rewrite Z.mod_small by lia; reflexivity).
    apply not_true_is_false. intros X. apply K. unfold blocked. repeat (apply andb_prop in X; destruct X as (X & ?)). lia.
Qed.
Lemma journey_filter src now down plan d t l : plan_ok plan ->
  (journey open (filter_plan src now down plan) src (Z.of_N now) d t l <->
   journey (fun c t => open c t /\ ~ blocked src (Z.of_N now) (fun h => down h = true) c) plan src (Z.of_N now) d t l).
Proof.
  intros P. split; induction 1 as [|x t l c J IH Hin Hf Hu]; try (apply J_start).
  - apply in_filter_plan in Hin; [|assumption]. apply (J_hop _ _ _ _ x); tauto.
  - apply (J_hop _ _ _ _ x); try tauto. apply in_filter_plan; tauto.
Qed.
Lemma compute_good order src now d down plan : plan_ok plan -> (Z.of_N now <= tmax)%Z -> src <> d ->
  exists h, compute_route false order src now d down plan = Some h /\ good_hop plan src (Z.of_N now) (fun h => down h = true) d h.
Proof.
  intros P T Hd. unfold compute_route. assert (E : to_time now = Z.of_N now) by (unfold to_time, tmax in *; destruct (N.ltb_spec now 9223372036854775808); lia). rewrite E.
  destruct (C40_dijkstra_is_earliest (filter_plan src now down plan) (root_contact src) (Z.of_N now) d) as [(r & t & R & J & M & ND)|(R & M)].
  - now apply filter_plan_ok.
  - reflexivity.
  - lia.
  - cbn. congruence.
  - destruct (C40_route_metrics_are_exact (filter_plan src now down plan) (root_contact src) (Z.of_N now) d r) as (c & l & R1 & R2 & _); [now apply filter_plan_ok|reflexivity|lia|exact R|].
    rewrite R. exists (r_next r). split; [reflexivity|]. left. exists c, l, t. rewrite R1 in J. change (k_to (root_contact src)) with src in *. split; [now apply journey_filter|]. split; [congruence|].
    intros t' l' J'. apply (M t' l'). now apply journey_filter.
  - rewrite R. exists no_route. split; [reflexivity|]. right. split; [reflexivity|]. intros t l J. apply (M t l). now apply journey_filter.
Qed.
Lemma compute_self order src now down plan : plan_ok plan -> (Z.of_N now <= tmax)%Z -> compute_route false order src now src down plan = Some no_route.
Proof.
  intros P T. unfold compute_route. assert (E : to_time now = Z.of_N now) by (unfold to_time, tmax in *; destruct (N.ltb_spec now 9223372036854775808); lia). rewrite E.
  change src with (k_to (root_contact src)) at 3. rewrite C40_no_route_to_oneself; [reflexivity|now apply filter_plan_ok|reflexivity|lia].
Qed.
(** A journey starts with a contact from the source. *)
Lemma journey_first use plan s t0 x t c l : journey use plan s t0 x t (c :: l) -> In c plan /\ k_frm c = s /\ use c t0.
Proof.
  intros J. remember (c :: l) as k eqn:E. revert c l E. induction J as [|x t l c' J IH Hin Hf Hu]; intros c m E; [discriminate|].
  destruct l as [|a l].
  - injection E as <- _. inversion J; subst; [auto|]. destruct l; discriminate.
  - injection E as <- _. now apply (IH a l).
Qed.
Lemma hop_down_link s h : inv s -> (hop_down s h = true <-> link_down s h).
Proof.
  intros I. unfold hop_down, link_down. destruct (get (t_hops s) h) as [i|] eqn:E.
  - destruct (proj1 (v_hop _ I h i) E) as (o & Ho & Hh). rewrite Ho. rewrite negb_true_iff. split; [eauto|]. intros (j & p & Hj & Hp & Hu).
    assert (i = j) as -> by (apply (hop_unique s i j o p I Ho Hj); congruence). congruence.
  - split; [discriminate|]. intros (j & p & Hj & Hp & _). assert (X : get (t_hops s) h = Some j) by (apply (v_hop _ I); eauto). congruence.
Qed.
Lemma journey_use (use use' : contact -> Z -> Prop) plan s t0 x t l : (forall c u, use c u <-> use' c u) -> (journey use plan s t0 x t l <-> journey use' plan s t0 x t l).
Proof. intros H. split; induction 1 as [|y u k c J IH Hin Hf Hu]; try (apply J_start); apply (J_hop _ _ _ _ y); try assumption; now apply H. Qed.
Lemma good_hop_down plan me now (a b : N -> Prop) d h : (forall x, a x <-> b x) -> good_hop plan me now a d h -> good_hop plan me now b d h.
Proof.
  intros E. assert (U : forall c u, (open c u /\ ~ blocked me now a c) <-> (open c u /\ ~ blocked me now b c)) by (intros c u; unfold blocked; rewrite (E (k_to c)); tauto).
  intros [(c & l & t & J & K & M)|(K & M)]; [left; exists c, l, t|right]; cbv zeta; repeat split; try assumption.
  - now apply (journey_use _ _ _ _ _ _ _ _ U).
  - intros t' l' J'. apply (M t' l'). now apply (journey_use _ _ _ _ _ _ _ _ U).
  - intros t l J. apply (M t l). now apply (journey_use _ _ _ _ _ _ _ _ U).
Qed.

Section Ready.
Variable me : N. Variable unix : bool. Variable order : N -> list N. Variable hold : N.
Hypothesis me31 : me < 2 ^ 31.
Notation best := (best_hop me false order).
Notation step := (step me unix false order hold).
Definition fit (n : N) : Prop := (Z.of_N (n / 1000000) <= tmax)%Z.
Record ready (s : rt) : Prop := {
  r_plan : plan_ok (t_plan s);
  r_src : forall c, In c (t_plan s) -> k_frm c = me -> get (t_hops s) (k_to c) <> None;
  r_sub : t_sub s <= t_now s / 1000000;
  r_stor : forall k i, In (k, i) (t_stor s) -> get (t_outs s) i <> None;
  r_me : get (t_routes s) me = None;
  r_hop : forall d h, get (t_routes s) d = Some h -> h = no_route \/ get (t_hops s) h <> None }.
Lemma best_good s d : inv s -> plan_ok (t_plan s) -> (Z.of_N (t_latest s) <= tmax)%Z -> d <> me ->
  exists h, best s d = Some h /\ good_hop (t_plan s) me (Z.of_N (t_latest s)) (link_down s) d h.
Proof.
  intros I P T Hd. destruct (compute_good order me (t_latest s) d (hop_down s) (t_plan s) P T ltac:(congruence)) as (h & E & G). exists h. split; [exact E|].
  eapply good_hop_down; [|exact G]. intros x. now apply hop_down_link.
Qed.
Lemma best_total s d : plan_ok (t_plan s) -> (Z.of_N (t_latest s) <= tmax)%Z -> exists h, best s d = Some h.
Proof.
  intros P T. destruct (N.eq_dec me d) as [<-|H]; [exists no_route; now apply compute_self|]. destruct (compute_good order me (t_latest s) d (hop_down s) (t_plan s) P T H) as (h & E & _). eauto.
Qed.
Lemma reroute_total s old d : plan_ok (t_plan s) -> (Z.of_N (t_latest s) <= tmax)%Z -> exists s', reroute me false order old d s = Some s'.
Proof. intros P T. unfold reroute. destruct (best_total s d P T) as (h & ->). destruct (N.eqb h old); eauto. Qed.
Lemma reroute_all_total l : forall s, inv s -> plan_ok (t_plan s) -> (Z.of_N (t_latest s) <= tmax)%Z -> (forall d, In d l -> get (t_routes s) d <> None) -> exists s', reroute_all me false order l s = Some s'.
Proof.
  induction l as [|d l IH]; intros s I P T H; [eexists; reflexivity|]. cbn [reroute_all]. destruct (get (t_routes s) d) as [old|] eqn:Ed; [|exfalso; apply (H d); [now left|assumption]].
  destruct (reroute_total s old d P T) as (s1 & E1). rewrite E1. destruct (reroute_ok me false order s old d s1 I Ed E1) as (I1 & Q & _ & _). apply IH; [assumption|..].
  - rewrite (q_plan _ _ Q). assumption.
  - rewrite (q_latest _ _ Q). assumption.
  - intros x Hx. rewrite (q_keys _ _ Q). apply H. now right.
Qed.
Lemma update_keeps s old new d : t_plan (update_route old new d s) = t_plan s /\ t_latest (update_route old new d s) = t_latest s.
Proof. destruct (update_fields s old new d) as (_ & A & B & _). auto. Qed.
Lemma reroute_out_total old l : forall s, plan_ok (t_plan s) -> (Z.of_N (t_latest s) <= tmax)%Z -> exists s', reroute_out me false order old l s = Some s'.
Proof.
  induction l as [|d l IH]; intros s P T; [eexists; reflexivity|]. cbn [reroute_out]. unfold reroute. destruct (best_total s d P T) as (h & ->).
  destruct (N.eqb h old); [now apply IH|]. destruct (update_keeps s old h d) as (E1 & E2). apply IH; cbn [send t_plan t_latest]; congruence.
Qed.
Lemma update_link_total i f up pre ord s : inv s -> ready s -> fit (t_now s) -> get (t_outs s) i <> None -> (forall o, o_hop (f o) = o_hop o /\ o_dests (f o) = o_dests o) -> (forall o, changed o (f o) = true -> is_up (f o) = up) -> rates_only pre ->
  exists s', update_link me false order i f up pre ord s = Some s'.
Proof.
  intros I R F Hi Hf Hu Hp. destruct (get (t_outs s) i) as [o|] eqn:Ei; [|congruence]. destruct (Hf o) as (F1 & F2).
  unfold update_link. rewrite Ei, fold_send. cbn [with_outs t_outs t_hops t_routes t_plan t_latest t_sched t_cwait t_crun t_epoch t_sub t_stor t_swait t_srun t_now t_sent].
  set (s1 := mkRt (set (t_outs s) i (f o)) _ _ _ _ _ _ _ _ _ _ _ _ _ _).
  destruct (changed o (f o)) eqn:Ec; [|eauto]. specialize (Hu o Ec).
  assert (T : (Z.of_N (sub64 (t_now s / 1000000) (t_sub s)) <= tmax)%Z).
  { pose proof (r_sub _ R). unfold fit, tmax in *. rewrite sub64_small by (unfold W64; lia). lia. }
  destruct up.
  - unfold on_link_up. apply reroute_all_total.
    + constructor; cbn [refresh_time with_latest send t_outs t_hops t_routes t_sent].
      * unfold s1. cbn [t_outs]. rewrite set_keys by congruence. apply I.
      * intros h j. change (t_hops s1) with (t_hops s). unfold s1. cbn [t_outs]. rewrite (v_hop _ I), get_set. destruct (N.eqb_spec j i) as [->|]; [|tauto]. rewrite Ei.
        split; intros (p & E & <-); injection E as <-; eexists; split; try reflexivity; congruence.
      * apply I.
      * intros j p. unfold s1. cbn [t_outs t_sent]. rewrite get_set. cbn [told_link]. destruct (N.eqb_spec j i) as [->|]; [intros E; injection E as <-; congruence|].
        rewrite (proj1 (told_rates pre _ _ Hp)). apply (v_link _ I).
      * intros j p d. unfold s1. cbn [t_outs t_routes]. rewrite get_set. destruct (N.eqb_spec j i) as [->|]; [|apply (v_books _ I)]. intros E. injection E as <-. rewrite F1, F2. now apply (v_books _ I i).
      * intros j p. unfold s1. cbn [t_outs]. rewrite get_set. destruct (N.eqb_spec j i) as [->|]; [|apply (v_dn _ I)]. intros E. injection E as <-. rewrite F2. now apply (v_dn _ I i).
      * intros d h. unfold s1. cbn [t_sent t_routes told_route]. rewrite (proj2 (told_rates pre _ _ Hp)). apply (v_told _ I).
      * intros d. unfold s1. cbn [t_sent t_routes told_route]. rewrite (proj2 (told_rates pre _ _ Hp)). apply (v_gone _ I).
    + apply R.
    + exact T.
    + intros d Hd. apply arrange_in in Hd. now apply get_in in Hd.
  - unfold on_link_down. destruct (get (t_outs (refresh_time (send (LinkDown i) s1))) i); [|eauto]. apply reroute_out_total; [apply R|exact T].
Qed.

(** * Steps *)
Lemma good_first plan now down d h : good_hop plan me now down d h -> h = no_route \/ exists c, In c plan /\ k_frm c = me /\ k_to c = h.
Proof. intros [(c & l & t & J & K & _)|(K & _)]; [right|left; exact K]. destruct (journey_first _ _ _ _ _ _ _ _ J) as (A & B & _). eauto. Qed.
Lemma still_ready s s' : inv s -> inv s' -> ready s -> fit (t_now s) -> still me false order s s' -> t_now s' = t_now s ->
  (forall k i, In (k, i) (t_stor s') -> get (t_outs s') i <> None) -> ready s'.
Proof.
  intros I I' R F [A B C E K M] N1 St. constructor.
  - rewrite B. apply R.
  - rewrite A, B. apply R.
  - rewrite C, N1. apply R.
  - exact St.
  - apply K, R.
  - rewrite A. destruct M as [(M & _)|(j & o & up & l & l' & H1 & H2 & H2' & H3 & H4 & H5 & H6 & H7 & H8)]; [rewrite M; apply R|].
    intros d h Hd. assert (Q : get (t_routes s') d = get (t_routes s) d \/ exists h, best s' d = Some h /\ get (t_routes s') d = Some h).
    { assert (X : get (t_routes s) d <> None) by (rewrite <- K; congruence). destruct up; [right; auto|]. destruct (get (t_routes s) d) as [h'|] eqn:Ed; [|congruence].
      destruct (N.eq_dec h' (o_hop o)) as [->|Hn]; [right; apply H7; [congruence|auto]|left]. rewrite <- Ed. apply H8; congruence. }
    destruct Q as [Q|(h' & Q1 & Q2)]; [rewrite Q in Hd; now apply (r_hop _ R) in Hd|]. rewrite Q2 in Hd. injection Hd as ->.
    assert (Hme : d <> me). { intros ->. rewrite (proj2 (K me)) in Q2 by apply R. discriminate. }
    assert (T : (Z.of_N (t_latest s') <= tmax)%Z). { rewrite H6. pose proof (r_sub _ R). unfold fit, tmax in *. rewrite sub64_small by (unfold W64; lia). lia. }
    destruct (best_good s' d I') as (h2 & X1 & X2); [rewrite B; apply R|exact T|exact Hme|]. rewrite Q1 in X1. injection X1 as <-.
    destruct (good_first _ _ _ _ _ X2) as [X|(c & Hc & Hf & Ht)]; [auto|]. right. rewrite <- Ht. rewrite B in Hc. now apply (r_src _ R).
Qed.
Lemma put_in {A} k (x : A) l y : In y (put k x l) <-> y = (k, x) \/ In y l.
Proof. induction l as [|(k', z) l IH]; cbn [put]; [cbn; intuition|]. destruct (key_lt k k'); cbn [In]; [intuition|]. rewrite IH. intuition. Qed.
Lemma load_row_ok w : row_ok w -> contact_ok (load_row w).
Proof.
  intros (A & B & C & D & E & F). unfold contact_ok, load_row, tmax. cbn [k_start k_end k_owlt k_rate]. split; [lia|]. split; [lia|]. split; [lia|]. destruct (N.eqb (w_rate w) 0); lia.
Qed.
Lemma plan_ready rows ord ord' s : inv s -> ready s -> Forall row_ok rows -> ready (load_plan me unix rows ord ord' s).
Proof.
  intros I R H. destruct (load_plan_ok me order unix rows ord ord' s I) as (I' & O & Rt & x & y & z & v & w & E & _). set (s' := load_plan me unix rows ord ord' s) in *.
  pose proof (twin_contact (mkRt x (t_hops s) y (map load_row (filter (routing_row me s) rows)) (t_latest s) z (map abort (t_cwait s)) false (if unix then 0 else t_now s) (if unix then 0 else t_now s / 1000000) (t_stor s) (t_swait s) (t_srun s) (t_now s) v)) as T. rewrite <- E in T.
  assert (St : t_stor s' = t_stor s). { rewrite E. unfold restart_contact_timer. cbn [t_crun t_sched]. destruct z as [|((?, ?), ?) ?]; reflexivity. }
  destruct T. cbn [t_outs t_hops t_routes t_plan t_latest t_epoch t_sub t_now t_sent] in *. clear E. rewrite Forall_forall in H. constructor.
  - rewrite w_plan. unfold plan_ok. rewrite Forall_forall. intros c Hc. apply in_map_iff in Hc. destruct Hc as (r & <- & Hr). apply filter_In in Hr. now apply load_row_ok, H.
  - rewrite w_plan, w_hops. intros c Hc Hf. apply in_map_iff in Hc. destruct Hc as (r & <- & Hr). apply filter_In in Hr. destruct Hr as (Hr & Hk). cbn [load_row k_frm k_to] in *.
    destruct (H r Hr) as (B1 & B2 & _). unfold routing_row in Hk. assert (E1 : as_int (w_source r) = w_source r) by (unfold as_int; destruct (N.ltb_spec (w_source r) 2147483648); lia).
    assert (E2 : as_int (w_dest r) = w_dest r) by (unfold as_int; destruct (N.ltb_spec (w_dest r) 2147483648); lia). rewrite E1, E2, Hf, N.eqb_refl in Hk. cbn [negb orb] in Hk.
    destruct (get (t_hops s) (w_dest r)); [discriminate|discriminate].
  - rewrite w_sub, w_now. destruct unix; [apply N.le_0_l|reflexivity].
  - rewrite St. intros k i Hi. pose proof (r_stor _ R k i Hi) as X. specialize (O i). destruct (get (t_outs s) i); [|congruence]. destruct (get (t_outs s') i); [discriminate|discriminate].
  - rewrite Rt. replace (existsb _ rows) with false; [reflexivity|]. symmetry. apply not_true_is_false. intros X. apply existsb_exists in X. destruct X as (r & _ & X). rewrite N.eqb_refl in X. destruct (N.eqb _ _); discriminate.
  - intros d h Hd. rewrite Rt in Hd. destruct (existsb _ rows); [left; congruence|discriminate].
Qed.
Lemma twin_ready s s' : twin s s' -> (forall k i, In (k, i) (t_stor s') -> In (k, i) (t_stor s) \/ get (t_outs s) i <> None) -> ready s -> ready s'.
Proof.
  intros [] H R. constructor; rewrite ?w_plan, ?w_hops, ?w_sub, ?w_now, ?w_outs, ?w_routes; try apply R. intros k i Hi. destruct (H k i Hi) as [K|K]; [now apply (r_stor _ R k)|assumption].
Qed.
Lemma update_outs_keys i f up pre ord s o s' : inv s -> get (t_outs s) i = Some o -> o_hop (f o) = o_hop o -> o_dests (f o) = o_dests o -> (changed o (f o) = true -> is_up (f o) = up) -> rates_only pre ->
  update_link me false order i f up pre ord s = Some s' -> t_stor s' = t_stor s /\ forall j, get (t_outs s) j <> None -> get (t_outs s') j <> None.
Proof.
  intros I Hi Hh Hd Hu Hp E. destruct (update_link_ok me false order i f up pre ord s o s' I Hi Hh Hd Hu Hp E) as (_ & C & O & _). split; [apply C|].
  intros j Hj. specialize (O j). destruct (N.eqb_spec j i); destruct (get (t_outs s') j); try discriminate. destruct (get (t_outs s) j); [discriminate|congruence].
Qed.
Lemma step_ready s i : inv s -> ready s -> input_ok i -> fit (t_now s) -> exists s', step s i = Some s' /\ ready s'.
Proof.
  intros I R Hi F.
  assert (L : forall j f up pre ord x, twin s x -> (forall k i, In (k, i) (t_stor x) -> In (k, i) (t_stor s) \/ get (t_outs s) i <> None) -> get (t_outs s) j <> None -> (forall o, o_hop (f o) = o_hop o /\ o_dests (f o) = o_dests o) -> (forall o, changed o (f o) = true -> is_up (f o) = up) -> rates_only pre ->
    exists s', update_link me false order j f up pre ord x = Some s' /\ ready s' /\ t_stor s' = t_stor x).
  { intros j f up pre ord x T K Hj Hf Hu Hp. assert (Ix : inv x) by (apply (twin_inv s); assumption). assert (Rx : ready x) by (apply (twin_ready s); assumption).
    assert (Fx : fit (t_now x)) by (rewrite (w_now _ _ T); assumption). assert (Hx : get (t_outs x) j <> None) by (rewrite (w_outs _ _ T); assumption).
    destruct (update_link_total j f up pre ord x Ix Rx Fx Hx Hf Hu Hp) as (s' & E). exists s'. split; [exact E|]. destruct (get (t_outs x) j) as [o|] eqn:Eo; [|congruence]. destruct (Hf o) as (F1 & F2).
    destruct (update_link_still me false order j f up pre ord x o s' Ix Eo F1 F2 (Hu o) Hp E) as (I' & St & Nw).
    destruct (update_outs_keys j f up pre ord x o s' Ix Eo F1 F2 (Hu o) Hp E) as (E1 & E2). split; [|assumption].
    apply (still_ready x s'); try assumption. rewrite E1. intros k i' Hk. apply E2. now apply (r_stor _ Rx k). }
  assert (T0 : twin s s) by (constructor; reflexivity).
  assert (Same : forall x, twin s x -> t_stor x = t_stor s -> ready x) by (intros x T E; apply (twin_ready s); [assumption|rewrite E; auto|assumption]).
  destruct i as [i up ord|i up ord|rows ord ord'|node ord|dt|n|n|n ord|n ord]; cbn [M_Router.step].
  - unfold physical. destruct (get (t_outs s) i) as [o|] eqn:Ei; [|eauto].
    destruct (L i (set_phys up) up [] ord s T0) as (s' & E & R' & _); [auto|congruence|intros p; split; reflexivity|intros p; apply phys_up|apply rates_nil|eauto].
  - unfold api. destruct (get (t_outs s) i) as [o|] eqn:Ei; [|eauto].
    destruct (L i (set_time up) up [] ord s T0) as (s' & E & R' & _); [auto|congruence|intros p; split; reflexivity|intros p; apply time_up|apply rates_nil|eauto].
  - eexists. split; [reflexivity|]. now apply plan_ready.
  - unfold depleted. destruct (get (t_hops s) node) as [i|] eqn:En; [|eauto].
    set (x := restart_storage_timer (add_expiry i (t_now s + hold * 1000000) s)).
    assert (T : twin s x). { pose proof (twin_storage (add_expiry i (t_now s + hold * 1000000) s)) as T. fold x in T. destruct T. constructor; assumption. }
    destruct (proj1 (v_hop _ I node i) En) as (o & Ho & _).
    destruct (L i (set_stor false) false [] ord x T) as (s' & E & R' & _); [|congruence|intros p; split; reflexivity|intros p; apply stor_up|apply rates_nil|eauto].
    intros k j Hk. assert (Hk' : In (k, j) (t_stor (add_expiry i (t_now s + hold * 1000000) s))). { unfold x in Hk. destruct (restart_storage_frame (add_expiry i (t_now s + hold * 1000000) s)) as (w & b & Ew). rewrite Ew in Hk. exact Hk. }
    cbn [add_expiry with_stor t_stor] in Hk'. apply put_in in Hk'. destruct Hk' as [X|X]; [injection X as _ ->; right; congruence|]. apply filter_In in X. tauto.
  - eexists. split; [reflexivity|]. constructor; try apply R. cbn [with_now t_sub t_now]. pose proof (r_sub _ R). pose proof (N.div_le_mono (t_now s) (t_now s + dt) 1000000). lia.
  - eexists. split; [reflexivity|]. apply Same; [constructor|]; reflexivity.
  - eexists. split; [reflexivity|]. apply Same; [constructor|]; reflexivity.
  - assert (K : forall b, exists s', contact_timer me false order b ord (with_ctimer s (remove_at n (t_cwait s)) (t_crun s)) = Some s' /\ ready s').
    { intros b. unfold contact_timer. set (x := with_ctimer (with_ctimer s _ _) _ _). assert (T : twin s x) by (constructor; reflexivity).
      assert (Rx : ready x) by (apply Same; [exact T|reflexivity]). destruct b; [eauto|]. destruct (t_sched x) as [|(k, e) r]; [eauto|].
      assert (Fin : forall y, ready y -> ready (restart_contact_timer (with_sched y r))).
      { intros y Ry. assert (U : twin y (restart_contact_timer (with_sched y r))). { pose proof (twin_contact (with_sched y r)) as U. destruct U. constructor; assumption. }
        apply (twin_ready y); [exact U| |exact Ry]. intros k' j Hk. left. destruct (restart_contact_frame (with_sched y r)) as (w & b & Ew). rewrite Ew in Hk. exact Hk. }
      destruct (get (t_outs x) (e_out e)) as [o|] eqn:Eo; [|eauto].
      destruct (L (e_out e) (set_time (e_up e)) (e_up e) [Rate (e_out e) (e_rate e) (e_up e)] ord x T) as (s' & E & R' & _); [auto|change (t_outs s) with (t_outs x); congruence|intros p; split; reflexivity|intros p; apply time_up|apply rates_one|].
      rewrite E. eauto. }
    destruct (nth_error (t_cwait s) n) as [[t| |]|]; eauto.
  - assert (K : forall b, exists s', storage_timer me false order b ord (with_stimer s (remove_at n (t_swait s)) (t_srun s)) = Some s' /\ ready s').
    { intros b. unfold storage_timer. set (x := with_stimer (with_stimer s _ _) _ _). assert (T : twin s x) by (constructor; reflexivity).
      assert (Rx : ready x) by (apply Same; [exact T|reflexivity]). destruct b; [eauto|]. destruct (t_stor x) as [|((t, c), i) r] eqn:Es; [eauto|].
      set (y := if N.ltb (t_now x) t then restart_storage_timer x else x).
      assert (Ty : twin s y). { unfold y. destruct (N.ltb (t_now x) t); [|assumption]. pose proof (twin_storage x) as U. destruct U. constructor; assumption. }
      assert (Sy : t_stor y = t_stor s). { unfold y. destruct (N.ltb (t_now x) t); [|reflexivity]. destruct (restart_storage_frame x) as (w & b & ->). reflexivity. }
      destruct (L i (set_stor true) true [] ord y Ty) as (s' & E & R' & Sz); [rewrite Sy; auto|apply (r_stor _ R (t, c)); change (t_stor s) with (t_stor x); rewrite Es; now left|intros p; split; reflexivity|intros p; apply stor_up|apply rates_nil|].
      rewrite E. eexists. split; [reflexivity|]. assert (U : twin s' (restart_storage_timer (with_stor s' r))). { pose proof (twin_storage (with_stor s' r)) as U. destruct U. constructor; assumption. }
      apply (twin_ready s'); [exact U| |exact R']. intros k' j Hk. left. destruct (restart_storage_frame (with_stor s' r)) as (w & b & Ew). rewrite Ew in Hk. cbn in Hk. rewrite Sz, Sy. change (t_stor s) with (t_stor x). rewrite Es. now right. }
    destruct (nth_error (t_swait s) n) as [[t| |]|]; eauto.
Qed.
Lemma end_time_le l : forall now, now <= end_time now l.
Proof. induction l as [|i l IH]; intros now; cbn [end_time]; [lia|]. destruct i; try apply IH. specialize (IH (now + dt)). lia. Qed.
Lemma fit_le a b : a <= b -> fit b -> fit a.
Proof. unfold fit. intros H. pose proof (N.div_le_mono a b 1000000). lia. Qed.
Lemma run_ready l : forall s, inv s -> ready s -> Forall input_ok l -> fit (end_time (t_now s) l) -> exists s', run me unix false order hold s l = Some s' /\ inv s' /\ ready s' /\ t_now s' = end_time (t_now s) l.
Proof.
  induction l as [|i l IH]; intros s I R H F; [exists s; auto|]. inversion H; subst. cbn [run]. 
  assert (F0 : fit (t_now s)) by (eapply fit_le; [apply (end_time_le (i :: l))|exact F]).
  destruct (step_ready s i I R) as (x & E & Rx); try assumption. rewrite E. destruct (step_still me unix false order hold s i x I E) as (Ix & K).
  assert (Nx : end_time (t_now x) l = end_time (t_now s) (i :: l)).
  { destruct i; cbn [end_time]; try (destruct K as (_ & ->); reflexivity).
    - cbn [M_Router.step] in E. injection E as <-. destruct (load_plan_ok me order unix rows ord ord' s I) as (_ & _ & _ & a & b & c & d & e & E & _). rewrite E. rewrite (w_now _ _ (twin_contact _)). reflexivity.
    - subst x. reflexivity. }
  destruct (IH x Ix Rx) as (s' & E' & I' & R' & N'); [assumption|rewrite Nx; exact F|]. exists s'. rewrite N', Nx. auto.
Qed.
Lemma populate_fields telem : forall s, let s' := populate telem s in t_plan s' = t_plan s /\ t_sub s' = t_sub s /\ t_stor s' = t_stor s /\ t_routes s' = t_routes s /\ t_now s' = t_now s /\ t_sched s' = t_sched s /\ t_cwait s' = t_cwait s /\ t_crun s' = t_crun s /\ t_swait s' = t_swait s /\ t_srun s' = t_srun s.
Proof. induction telem as [|((i, h), dn) r IH]; intros s; cbn [populate]; [repeat split|]. match goal with |- context [populate r ?x] => exact (IH x) end. Qed.
Lemma start_ready now telem : ready (start now telem).
Proof.
  unfold start. destruct (populate_fields telem (mkRt [] [] [] [] 0 [] [] false 0 0 [] [] false now [])) as (A & B & C & D & E & _).
  constructor; rewrite ?A, ?B, ?C, ?D, ?E; cbn; try discriminate; try tauto; try constructor. apply N.le_0_l.
Qed.
End Ready.
