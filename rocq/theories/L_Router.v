(** Lemmas for P_Router: maps, link states, books and messages. *)
From Coq Require Import NArith ZArith List Bool Lia ZifyBool ZifyN.
From Verif Require Import Base M_Cgr S_Cgr M_Router S_Router.
Import ListNotations.
Open Scope N_scope.

Lemma get_set {A} (l : list (N * A)) k x j : get (set l k x) j = if N.eqb j k then Some x else get l j.
Proof.
  induction l as [|(k', y) r IH]; cbn [set get]; [reflexivity|]. destruct (N.eqb_spec k k') as [<-|H]; cbn [get].
  - destruct (N.eqb_spec j k); reflexivity.
  - rewrite IH. destruct (N.eqb_spec j k'), (N.eqb_spec j k); try reflexivity. congruence.
Qed.
Lemma get_in {A} (l : list (N * A)) k : In k (map fst l) <-> get l k <> None.
Proof.
  induction l as [|(k', y) r IH]; cbn [map get]; [cbn; intuition congruence|]. cbn [In fst]. rewrite IH.
  destruct (N.eqb_spec k k') as [->|H]; intuition congruence.
Qed.
Lemma get_some_in {A} (l : list (N * A)) k x : NoDup (map fst l) -> In (k, x) l -> get l k = Some x.
Proof.
  induction l as [|(k', y) r IH]; intros ND H; [destruct H|]. cbn [map fst] in ND. inversion ND as [|? ? H1 H2]; subst. cbn [get].
  destruct H as [H|H]; [injection H as -> ->; now rewrite N.eqb_refl|]. destruct (N.eqb_spec k k') as [->|]; [|auto].
  exfalso. apply H1. apply (in_map fst) in H. exact H.
Qed.
Lemma set_keys {A} (l : list (N * A)) k x : get l k <> None -> map fst (set l k x) = map fst l.
Proof.
  induction l as [|(k', y) r IH]; cbn [set get]; [tauto|]. destruct (N.eqb_spec k k') as [<-|H]; intros Hg; cbn [map fst]; [reflexivity|]. f_equal. auto.
Qed.
Lemma mem_true x l : mem x l = true <-> In x l.
Proof. unfold mem. rewrite existsb_exists. split; [intros (y & H & E); apply N.eqb_eq in E; now subst|intros H; exists x; split; [assumption|apply N.eqb_refl]]. Qed.
Lemma mem_false x l : mem x l = false <-> ~ In x l.
Proof. rewrite <- mem_true. destruct (mem x l); intuition congruence. Qed.
Lemma arrange_in ord l x : In x (arrange ord l) <-> In x l.
Proof.
  unfold arrange. rewrite in_app_iff, !filter_In, nodup_In, mem_true, negb_true_iff, mem_false. split; [tauto|].
  intros H. destruct (in_dec N.eq_dec x ord); tauto.
Qed.
Lemma arrange_nodup ord l : NoDup l -> NoDup (arrange ord l).
Proof.
  intros H. unfold arrange. assert (A : NoDup (filter (fun x => mem x l) (nodup N.eq_dec ord))) by (apply NoDup_filter, NoDup_nodup).
  assert (B : NoDup (filter (fun x => negb (mem x ord)) l)) by now apply NoDup_filter.
  assert (D : forall x, In x (filter (fun x => mem x l) (nodup N.eq_dec ord)) -> ~ In x (filter (fun x => negb (mem x ord)) l)).
  { intros x Hx Hy. rewrite filter_In in Hx, Hy. rewrite nodup_In in Hx. destruct Hy as (_ & Hy). apply negb_true_iff, mem_false in Hy. tauto. }
  revert A D. generalize (filter (fun x => mem x l) (nodup N.eq_dec ord)) as a. induction a as [|x a IH]; intros A D; [assumption|]. cbn [app].
  inversion A; subst. constructor; [|apply IH; [assumption|intros y Hy; apply D; now right]]. rewrite in_app_iff. intros [Hx|Hx]; [tauto|]. apply (D x); [now left|assumption].
Qed.

Lemma told_send m s : t_sent (send m s) = m :: t_sent s. Proof. reflexivity. Qed.

(** * The invariant *)
Record inv (s : rt) : Prop := {
  v_nd : NoDup (map fst (t_outs s));
  v_hop : forall h i, get (t_hops s) h = Some i <-> exists o, get (t_outs s) i = Some o /\ o_hop o = h;
  v_nr : get (t_hops s) no_route = None;
  v_link : forall i o, get (t_outs s) i = Some o -> told_link (t_sent s) i = is_up o;
  v_books : forall i o d, get (t_outs s) i = Some o -> (In d (o_dests o) <-> get (t_routes s) d = Some (o_hop o));
  v_dn : forall i o, get (t_outs s) i = Some o -> NoDup (o_dests o);
  v_told : forall d h, get (t_routes s) d = Some h -> told_route (t_sent s) d = Some h;
  v_gone : forall d, get (t_routes s) d = None -> told_route (t_sent s) d = None \/ told_route (t_sent s) d = Some no_route }.
(** The invariant looks at these members only. *)
Lemma inv_ext s s' : t_outs s' = t_outs s -> t_hops s' = t_hops s -> t_routes s' = t_routes s -> t_sent s' = t_sent s -> inv s -> inv s'.
Proof. intros E1 E2 E3 E4 []. constructor; rewrite ?E1, ?E2, ?E3, ?E4; assumption. Qed.
Lemma hop_real s i o : inv s -> get (t_outs s) i = Some o -> o_hop o <> no_route.
Proof. intros I H E. pose proof (v_nr _ I) as X. assert (Y : get (t_hops s) no_route = Some i) by (apply (v_hop _ I); eauto). congruence. Qed.
Lemma hop_unique s i j o p : inv s -> get (t_outs s) i = Some o -> get (t_outs s) j = Some p -> o_hop o = o_hop p -> i = j.
Proof.
  intros I Hi Hj E. assert (A : get (t_hops s) (o_hop o) = Some i) by (apply (v_hop _ I); eauto).
  assert (B : get (t_hops s) (o_hop o) = Some j) by (apply (v_hop _ I); eauto). congruence.
Qed.

(** What rerouting keeps: everything but destinations, routes and what is said about routes. *)
Record quiet (s s' : rt) : Prop := {
  q_hops : t_hops s' = t_hops s; q_plan : t_plan s' = t_plan s; q_latest : t_latest s' = t_latest s; q_sched : t_sched s' = t_sched s;
  q_cwait : t_cwait s' = t_cwait s; q_crun : t_crun s' = t_crun s; q_epoch : t_epoch s' = t_epoch s; q_sub : t_sub s' = t_sub s;
  q_stor : t_stor s' = t_stor s; q_swait : t_swait s' = t_swait s; q_srun : t_srun s' = t_srun s; q_now : t_now s' = t_now s;
  q_outs : forall i, option_map (set_dests []) (get (t_outs s') i) = option_map (set_dests []) (get (t_outs s) i);
  q_keys : forall d, get (t_routes s') d = None <-> get (t_routes s) d = None;
  q_sent : exists l, t_sent s' = l ++ t_sent s /\ forall m, In m l -> exists d h, m = RouteTo d h }.
Lemma quiet_refl s : quiet s s.
Proof. constructor; try reflexivity. exists []. split; [reflexivity|intros m []]. Qed.
Lemma quiet_trans a b c : quiet a b -> quiet b c -> quiet a c.
Proof.
  intros Q R. constructor; try (etransitivity; [apply R|apply Q]).
  destruct (q_sent _ _ Q) as (l & E & H), (q_sent _ _ R) as (l' & E' & H'). rewrite E', E. exists (l' ++ l). split; [apply app_assoc|]. intros m Hm. apply in_app_or in Hm. destruct Hm; auto.
Qed.
Lemma flags_up o p : set_dests [] o = set_dests [] p -> is_up o = is_up p /\ o_hop o = o_hop p.
Proof. unfold set_dests, is_up. intros E. injection E as -> -> -> ->. auto. Qed.
Lemma quiet_up s s' i : quiet s s' -> option_map is_up (get (t_outs s') i) = option_map is_up (get (t_outs s) i).
Proof.
  intros Q. pose proof (q_outs _ _ Q i) as E. destruct (get (t_outs s') i), (get (t_outs s) i); cbn in *; try discriminate; [|reflexivity].
  injection E as E1 E2 E3 E4. unfold is_up. now rewrite E2, E3, E4.
Qed.
Section Hop.
Variable me : N. Variable mgr : bool. Variable order : N -> list N.
Notation best := (best_hop me mgr order).
Lemma hop_down_quiet s s' h : t_hops s' = t_hops s -> (forall i, option_map is_up (get (t_outs s') i) = option_map is_up (get (t_outs s) i)) -> hop_down s' h = hop_down s h.
Proof.
  intros E H. unfold hop_down. rewrite E. destruct (get (t_hops s) h) as [i|]; [|reflexivity]. specialize (H i).
  destruct (get (t_outs s') i), (get (t_outs s) i); cbn in H; congruence.
Qed.
Lemma best_quiet s s' d : quiet s s' -> best s' d = best s d.
Proof.
  intros Q. unfold best_hop, compute_route. rewrite (q_latest _ _ Q), (q_plan _ _ Q).
  assert (E : filter_plan me (t_latest s) (hop_down s') (t_plan s) = filter_plan me (t_latest s) (hop_down s) (t_plan s)).
  { unfold filter_plan. apply filter_ext. intros c. rewrite (hop_down_quiet s s'); [reflexivity|apply Q|]. intros i. now apply quiet_up. }
  now rewrite E.
Qed.

(** * One route *)
Definition adjust (old new d : N) (o : outduct) : outduct :=
  if N.eqb (o_hop o) new then set_dests (if mem d (o_dests o) then o_dests o else d :: o_dests o) o
  else if N.eqb (o_hop o) old then set_dests (filter (fun x => negb (N.eqb x d)) (o_dests o)) o else o.
Lemma set_same o : set_dests (o_dests o) o = o. Proof. now destruct o. Qed.
Lemma update_outs s old new d i : inv s -> old <> new -> get (t_outs (update_route old new d s)) i = option_map (adjust old new d) (get (t_outs s) i).
Proof.
  intros I Hne. unfold update_route. set (s1 := with_routes s (set (t_routes s) d new)).
  set (s2 := if N.eqb old no_route then s1 else _).
  assert (H2 : t_hops s2 = t_hops s /\ forall j, get (t_outs s2) j = option_map (fun o => if N.eqb (o_hop o) old then set_dests (filter (fun x => negb (N.eqb x d)) (o_dests o)) o else o) (get (t_outs s) j)).
  { assert (Id : forall j, (forall o, get (t_outs s) j = Some o -> o_hop o <> old) -> get (t_outs s) j = option_map (fun o => if N.eqb (o_hop o) old then set_dests (filter (fun x => negb (N.eqb x d)) (o_dests o)) o else o) (get (t_outs s) j)).
    { intros j Hj. destruct (get (t_outs s) j) as [o|]; [|reflexivity]. cbn [option_map]. destruct (N.eqb_spec (o_hop o) old); [destruct (Hj o eq_refl); assumption|reflexivity]. }
    unfold s2. destruct (N.eqb_spec old no_route) as [->|Ho].
    - split; [reflexivity|]. intros j. apply Id. intros o Hj. apply (hop_real s j o I Hj).
    - change (t_hops s1) with (t_hops s). change (t_outs s1) with (t_outs s). destruct (get (t_hops s) old) as [k|] eqn:Ek.
      + destruct (proj1 (v_hop _ I old k) Ek) as (o & Hk & Hold). rewrite Hk. split; [reflexivity|]. intros j. cbn [t_outs with_outs]. rewrite get_set.
        destruct (N.eqb_spec j k) as [->|Hj]; [rewrite Hk; cbn [option_map]; rewrite Hold, N.eqb_refl; reflexivity|]. apply Id.
        intros p Hp E. apply Hj. apply (hop_unique s j k p o I Hp Hk). congruence.
      + split; [reflexivity|]. intros j. apply Id. intros o Hj E. assert (X : get (t_hops s) old = Some j) by (apply (v_hop _ I); eauto). congruence. }
  destruct H2 as (Hh & H2). clearbody s2.
  assert (Id : forall j, (forall o, get (t_outs s) j = Some o -> o_hop o <> new) -> get (t_outs s2) j = option_map (adjust old new d) (get (t_outs s) j)).
  { intros j Hj. rewrite H2. destruct (get (t_outs s) j) as [o|]; [|reflexivity]. cbn [option_map]. unfold adjust. destruct (N.eqb_spec (o_hop o) new); [destruct (Hj o eq_refl); assumption|reflexivity]. }
  destruct (N.eqb_spec new no_route) as [->|Hn].
  - apply Id. intros o Hj. apply (hop_real s i o I Hj).
  - rewrite Hh. destruct (get (t_hops s) new) as [k|] eqn:Ek.
    + destruct (proj1 (v_hop _ I new k) Ek) as (o & Hk & Hnew).
      assert (E2 : get (t_outs s2) k = Some o). { rewrite H2, Hk. cbn [option_map]. destruct (N.eqb_spec (o_hop o) old); [congruence|reflexivity]. }
      rewrite E2. cbn [t_outs with_outs]. rewrite get_set. destruct (N.eqb_spec i k) as [->|Hi].
      * rewrite Hk. cbn [option_map]. unfold adjust. rewrite Hnew, N.eqb_refl. reflexivity.
      * apply Id. intros p Hp E. apply Hi. apply (hop_unique s i k p o I Hp Hk). congruence.
    + apply Id. intros o Hj E. assert (X : get (t_hops s) new = Some i) by (apply (v_hop _ I); eauto). congruence.
Qed.
Lemma update_fields s old new d : let s' := update_route old new d s in
  t_hops s' = t_hops s /\ t_plan s' = t_plan s /\ t_latest s' = t_latest s /\ t_sched s' = t_sched s /\ t_cwait s' = t_cwait s /\ t_crun s' = t_crun s /\
  t_epoch s' = t_epoch s /\ t_sub s' = t_sub s /\ t_stor s' = t_stor s /\ t_swait s' = t_swait s /\ t_srun s' = t_srun s /\ t_now s' = t_now s /\
  t_sent s' = t_sent s /\ t_routes s' = set (t_routes s) d new /\ map fst (t_outs s') = map fst (t_outs s).
Proof.
  unfold update_route. set (s1 := with_routes s (set (t_routes s) d new)).
  assert (G : forall (b : bool) h (f : outduct -> list N) x, let y := if b then x else match get (t_hops x) h with None => x | Some i =>
     match get (t_outs x) i with None => x | Some o => with_outs x (set (t_outs x) i (set_dests (f o) o)) end end in
     t_hops y = t_hops x /\ t_plan y = t_plan x /\ t_latest y = t_latest x /\ t_sched y = t_sched x /\ t_cwait y = t_cwait x /\ t_crun y = t_crun x /\
  t_epoch y = t_epoch x /\ t_sub y = t_sub x /\ t_stor y = t_stor x /\ t_swait y = t_swait x /\ t_srun y = t_srun x /\ t_now y = t_now x /\
  t_sent y = t_sent x /\ t_routes y = t_routes x /\ map fst (t_outs y) = map fst (t_outs x)).
  { intros b h f x. destruct b; [repeat split; reflexivity|]. destruct (get (t_hops x) h) as [i|]; [|repeat split; reflexivity].
    destruct (get (t_outs x) i) as [o|] eqn:E; [|repeat split; reflexivity]. repeat split; try reflexivity. cbn [t_outs with_outs]. apply set_keys. congruence. }
  pose proof (G (N.eqb old no_route) old (fun o => filter (fun d0 => negb (N.eqb d0 d)) (o_dests o)) s1) as G1. cbv zeta in G1.
  set (s2 := if N.eqb old no_route then s1 else _) in *.
  pose proof (G (N.eqb new no_route) new (fun o => if mem d (o_dests o) then o_dests o else d :: o_dests o) s2) as G2. cbv zeta in *.
  repeat match goal with H : _ /\ _ |- _ => destruct H end. repeat split; etransitivity; eassumption.
Qed.
Lemma reroute_ok s old d s' : inv s -> get (t_routes s) d = Some old -> reroute me mgr order old d s = Some s' ->
  inv s' /\ quiet s s' /\ (exists h, best s' d = Some h /\ get (t_routes s') d = Some h) /\ forall e, e <> d -> get (t_routes s') e = get (t_routes s) e.
Proof.
  intros I Hd. unfold reroute. destruct (best s d) as [new|] eqn:Eb; [|discriminate]. destruct (N.eqb_spec new old) as [->|Hne].
  { intros E. injection E as <-. split; [assumption|]. split; [apply quiet_refl|]. split; [exists old; auto|auto]. }
  intros E. injection E as <-. assert (Hne' : old <> new) by congruence.
  pose proof (fun i => update_outs s old new d i I Hne') as U.
  destruct (update_fields s old new d) as (F1 & F2 & F3 & F4 & F5 & F6 & F7 & F8 & F9 & F10 & F11 & F12 & F13 & F14 & F15).
  set (u := update_route old new d s) in *.
  assert (Q : quiet s (send (RouteTo d new) u)).
  { constructor; try assumption; cbn [send t_outs t_routes t_sent].
    - intros i. rewrite U. destruct (get (t_outs s) i) as [o|]; [|reflexivity]. cbn [option_map]. unfold adjust.
      destruct (N.eqb (o_hop o) new); [reflexivity|]. destruct (N.eqb (o_hop o) old); reflexivity.
    - intros x. rewrite F14, get_set. destruct (N.eqb_spec x d) as [->|]; [split; congruence|tauto].
    - exists [RouteTo d new]. split; [cbn; now rewrite F13|]. intros m [<-|[]]. eauto. }
  assert (Hr : forall e, get (t_routes (send (RouteTo d new) u)) e = if N.eqb e d then Some new else get (t_routes s) e).
  { intros e. cbn [send t_routes]. rewrite F14. apply get_set. }
  split; [|split; [exact Q|split]].
  - constructor; cbn [send t_outs t_hops t_sent].
    + rewrite F15. apply I.
    + intros h i. rewrite F1, (v_hop _ I), U. split; intros (o & Ho & Hh).
      * rewrite Ho. eexists. split; [reflexivity|]. unfold adjust. destruct (N.eqb (o_hop o) new); [assumption|]. destruct (N.eqb (o_hop o) old); assumption.
      * destruct (get (t_outs s) i) as [p|]; [|discriminate]. cbn [option_map] in Ho. injection Ho as <-. exists p. split; [reflexivity|].
        unfold adjust in Hh. destruct (N.eqb (o_hop p) new); [assumption|]. destruct (N.eqb (o_hop p) old); assumption.
    + rewrite F1. apply I.
    + intros i o. rewrite U, F13. destruct (get (t_outs s) i) as [p|] eqn:Ep; [|discriminate]. cbn [option_map]. intros X. injection X as <-.
      cbn [told_link]. rewrite (v_link _ I i p Ep). unfold adjust. destruct (N.eqb (o_hop p) new); [reflexivity|]. destruct (N.eqb (o_hop p) old); reflexivity.
    + intros i o x. rewrite U, Hr. destruct (get (t_outs s) i) as [p|] eqn:Ep; [|discriminate]. cbn [option_map]. intros X. injection X as <-.
      pose proof (v_books _ I i p x Ep) as B. unfold adjust. destruct (N.eqb_spec (o_hop p) new) as [Hn|Hn]; [|destruct (N.eqb_spec (o_hop p) old) as [Ho|Ho]]; cbn [set_dests o_dests o_hop].
      * destruct (mem d (o_dests p)) eqn:Em; [apply mem_true in Em|]; cbn [In]; destruct (N.eqb_spec x d) as [->|Hx]; rewrite ?B; intuition congruence.
      * rewrite filter_In, negb_true_iff, N.eqb_neq. destruct (N.eqb_spec x d) as [->|Hx]; rewrite ?B; intuition congruence.
      * destruct (N.eqb_spec x d) as [->|Hx]; rewrite ?B; intuition congruence.
    + intros i o. rewrite U. destruct (get (t_outs s) i) as [p|] eqn:Ep; [|discriminate]. cbn [option_map]. intros X. injection X as <-.
      pose proof (v_dn _ I i p Ep) as B. unfold adjust. destruct (N.eqb (o_hop p) new); [|destruct (N.eqb (o_hop p) old); [|assumption]]; cbn [set_dests o_dests]; [|now apply NoDup_filter].
      destruct (mem d (o_dests p)) eqn:Em; [assumption|]. constructor; [now apply mem_false|assumption].
    + intros x h. rewrite Hr, F13. cbn [told_route]. destruct (N.eqb_spec x d); [auto|apply I].
    + intros x. rewrite Hr, F13. cbn [told_route]. destruct (N.eqb_spec x d); [discriminate|apply I].
  - exists new. rewrite (best_quiet _ _ d Q), Hr, N.eqb_refl. auto.
  - intros e He. rewrite Hr. destruct (N.eqb_spec e d); congruence.
Qed.

(** * Several routes *)
Lemma reroute_all_ok l : forall s s', inv s -> reroute_all me mgr order l s = Some s' ->
  inv s' /\ quiet s s' /\ (forall d, In d l -> exists h, best s' d = Some h /\ get (t_routes s') d = Some h) /\
  forall d, ~ In d l -> get (t_routes s') d = get (t_routes s) d.
Proof.
  induction l as [|d l IH]; intros s s' I; cbn [reroute_all].
  - intros E. injection E as <-. split; [assumption|split; [apply quiet_refl|split; [intros d []|reflexivity]]].
  - destruct (get (t_routes s) d) as [old|] eqn:Ed; [|discriminate]. destruct (reroute me mgr order old d s) as [s1|] eqn:E1; [|discriminate].
    destruct (reroute_ok s old d s1 I Ed E1) as (I1 & Q1 & (h & B1 & R1) & O1). intros E. destruct (IH s1 s' I1 E) as (I2 & Q2 & F2 & O2).
    split; [assumption|]. split; [eapply quiet_trans; eassumption|]. split.
    + intros x [<-|Hx]; [|auto]. destruct (in_dec N.eq_dec d l) as [Hin|Hin]; [auto|]. exists h. rewrite (best_quiet _ _ d Q2), O2 by assumption. auto.
    + intros x Hx. rewrite O2 by (intros Y; apply Hx; now right). apply O1. intros ->. apply Hx. now left.
Qed.
Lemma reroute_out_ok old l : forall s s', inv s -> NoDup l -> (forall d, In d l -> get (t_routes s) d = Some old) -> reroute_out me mgr order old l s = Some s' ->
  inv s' /\ quiet s s' /\ (forall d, In d l -> exists h, best s' d = Some h /\ get (t_routes s') d = Some h) /\
  forall d, ~ In d l -> get (t_routes s') d = get (t_routes s) d.
Proof.
  induction l as [|d l IH]; intros s s' I ND Hl; cbn [reroute_out].
  - intros E. injection E as <-. split; [assumption|split; [apply quiet_refl|split; [intros d []|reflexivity]]].
  - destruct (reroute me mgr order old d s) as [s1|] eqn:E1; [|discriminate]. inversion ND as [|? ? N1 N2]; subst.
    destruct (reroute_ok s old d s1 I (Hl d (or_introl eq_refl)) E1) as (I1 & Q1 & (h & B1 & R1) & O1). intros E. destruct (IH s1 s' I1 N2) as (I2 & Q2 & F2 & O2); [|assumption|].
    { intros x Hx. rewrite O1; [apply Hl; now right|]. intros ->. tauto. }
    split; [assumption|]. split; [eapply quiet_trans; eassumption|]. split.
    + intros x [<-|Hx]; [|auto]. exists h. rewrite (best_quiet _ _ d Q2), O2 by assumption. auto.
    + intros x Hx. rewrite O2 by (intros Y; apply Hx; now right). apply O1. intros ->. apply Hx. now left.
Qed.

(** * A link changes its state *)
(** What such a step keeps. *)
Record calm (s s' : rt) : Prop := {
  c_hops : t_hops s' = t_hops s; c_plan : t_plan s' = t_plan s; c_sched : t_sched s' = t_sched s;
  c_cwait : t_cwait s' = t_cwait s; c_crun : t_crun s' = t_crun s; c_epoch : t_epoch s' = t_epoch s; c_sub : t_sub s' = t_sub s;
  c_stor : t_stor s' = t_stor s; c_swait : t_swait s' = t_swait s; c_srun : t_srun s' = t_srun s; c_now : t_now s' = t_now s;
  c_keys : forall d, get (t_routes s') d = None <-> get (t_routes s) d = None }.
Lemma told_link_routes l r i : (forall m, In m l -> exists d h, m = RouteTo d h) -> told_link (l ++ r) i = told_link r i.
Proof. induction l as [|m l IH]; intros H; [reflexivity|]. cbn [app]. destruct (H m (or_introl eq_refl)) as (d & h & ->). cbn [told_link]. apply IH. intros x Hx. apply H. now right. Qed.
Definition rates_only (l : list msg) : Prop := forall m, In m l -> exists i b u, m = Rate i b u.
Lemma fold_send l : forall s, fold_left (fun s m => send m s) l s = mkRt (t_outs s) (t_hops s) (t_routes s) (t_plan s) (t_latest s) (t_sched s) (t_cwait s) (t_crun s) (t_epoch s) (t_sub s) (t_stor s) (t_swait s) (t_srun s) (t_now s) (rev l ++ t_sent s).
Proof.
  induction l as [|m l IH]; intros s; [now destruct s|]. cbn [fold_left]. rewrite IH. unfold send. cbn [t_outs t_hops t_routes t_plan t_latest t_sched t_cwait t_crun t_epoch t_sub t_stor t_swait t_srun t_now t_sent rev].
  now rewrite <- app_assoc.
Qed.
Lemma told_rates l r i : rates_only l -> told_link (rev l ++ r) i = told_link r i /\ told_route (rev l ++ r) i = told_route r i.
Proof.
  intros H. assert (H' : rates_only (rev l)) by (intros m Hm; apply H; now apply in_rev). revert H'. generalize (rev l) as k. induction k as [|m k IH]; intros K; [auto|].
  destruct (K m (or_introl eq_refl)) as (j & b & u & ->). cbn [app told_link told_route]. apply IH. intros x Hx. apply K. now right.
Qed.
Lemma update_link_ok i f up pre ord s o s' :
  inv s -> get (t_outs s) i = Some o -> o_hop (f o) = o_hop o -> o_dests (f o) = o_dests o -> (changed o (f o) = true -> is_up (f o) = up) -> rates_only pre ->
  update_link me mgr order i f up pre ord s = Some s' ->
  inv s' /\ calm s s' /\
  (forall j, option_map (set_dests []) (get (t_outs s') j) = option_map (set_dests []) (if N.eqb j i then Some (f o) else get (t_outs s) j)) /\
  (exists l, t_sent s' = l ++ (if changed o (f o) then [if up then LinkUp i else LinkDown i] else []) ++ rev pre ++ t_sent s /\ forall m, In m l -> exists d h, m = RouteTo d h) /\
  (if changed o (f o) then
     t_latest s' = sub64 (t_now s / 1000000) (t_sub s) /\
     (forall d, get (t_routes s) d <> None -> up = true \/ get (t_routes s) d = Some (o_hop o) -> exists h, best s' d = Some h /\ get (t_routes s') d = Some h) /\
     (up = false -> forall d, get (t_routes s) d <> Some (o_hop o) -> get (t_routes s') d = get (t_routes s) d)
   else t_latest s' = t_latest s /\ t_routes s' = t_routes s).
Proof.
  intros I Hi Hh Hd Hu Hp. unfold update_link. rewrite Hi, fold_send. cbn [with_outs t_outs t_hops t_routes t_plan t_latest t_sched t_cwait t_crun t_epoch t_sub t_stor t_swait t_srun t_now t_sent].
  set (s1 := mkRt (set (t_outs s) i (f o)) _ _ _ _ _ _ _ _ _ _ _ _ _ _).
  assert (Ho : forall j, get (t_outs s1) j = if N.eqb j i then Some (f o) else get (t_outs s) j) by (intros j; apply get_set).
  assert (C1 : calm s s1) by (constructor; reflexivity).
  assert (I1 : forall x, t_outs x = t_outs s1 -> t_hops x = t_hops s1 -> t_routes x = t_routes s1 ->
    (forall j, told_route (t_sent x) j = told_route (t_sent s1) j) ->
    (forall j, told_link (t_sent x) j = if N.eqb j i then is_up (f o) else told_link (t_sent s1) j) -> inv x).
  { intros x E1 E2 E3 E4 E5. constructor; rewrite ?E1, ?E2, ?E3.
    - unfold s1. cbn [t_outs]. rewrite set_keys by congruence. apply I.
    - intros h j. change (t_hops s1) with (t_hops s). rewrite (v_hop _ I), Ho. destruct (N.eqb_spec j i) as [->|]; [|tauto]. rewrite Hi.
      split; intros (p & E & <-); injection E as <-; eexists; split; try reflexivity; congruence.
    - apply I.
    - intros j p. rewrite Ho, E5. destruct (N.eqb_spec j i) as [->|]; [congruence|]. intros Hj. unfold s1. cbn [t_sent]. rewrite (proj1 (told_rates pre _ _ Hp)). now apply (v_link _ I).
    - intros j p d. rewrite Ho. destruct (N.eqb_spec j i) as [->|]; [|apply (v_books _ I)]. intros E. injection E as <-. rewrite Hd, Hh. now apply (v_books _ I i).
    - intros j p. rewrite Ho. destruct (N.eqb_spec j i) as [->|]; [|apply (v_dn _ I)]. intros E. injection E as <-. rewrite Hd. now apply (v_dn _ I i).
    - intros d h. rewrite E4. unfold s1. cbn [t_sent t_routes]. rewrite (proj2 (told_rates pre _ _ Hp)). apply (v_told _ I).
    - intros d. rewrite E4. unfold s1. cbn [t_sent t_routes]. rewrite (proj2 (told_rates pre _ _ Hp)). apply (v_gone _ I). }
  assert (T1 : forall j, told_link (t_sent s1) j = told_link (t_sent s) j) by (intros j; apply (told_rates pre _ j Hp)).
  destruct (changed o (f o)) eqn:Ec.
  2:{ intros E. injection E as <-. split; [|split; [assumption|split; [intros j; now rewrite Ho|split; [exists []; split; [reflexivity|intros m []]|auto]]]].
      apply I1; try reflexivity. intros j. destruct (N.eqb_spec j i) as [->|]; [|reflexivity]. rewrite T1, (v_link _ I i o Hi).
      unfold changed in Ec. apply negb_false_iff, eqb_prop in Ec. exact Ec. }
  specialize (Hu eq_refl).
  assert (H2 : forall (m : msg) (K : m = if up then LinkUp i else LinkDown i) x y, x = refresh_time (send m s1) -> inv x /\ (quiet x y -> calm s y /\
    (forall j, option_map (set_dests []) (get (t_outs y) j) = option_map (set_dests []) (if N.eqb j i then Some (f o) else get (t_outs s) j)) /\
    (exists l, t_sent y = l ++ [if up then LinkUp i else LinkDown i] ++ rev pre ++ t_sent s /\ forall m, In m l -> exists d h, m = RouteTo d h) /\
    t_latest y = sub64 (t_now s / 1000000) (t_sub s))).
  { intros m K x y ->. split.
    - apply I1; try reflexivity; intros j; cbn [refresh_time with_latest send t_sent]; rewrite K; destruct up; cbn [told_route told_link]; try reflexivity; rewrite <- Hu; reflexivity.
    - intros Q. split; [constructor; try (rewrite ?(q_hops _ _ Q), ?(q_plan _ _ Q), ?(q_sched _ _ Q), ?(q_cwait _ _ Q), ?(q_crun _ _ Q), ?(q_epoch _ _ Q), ?(q_sub _ _ Q), ?(q_stor _ _ Q), ?(q_swait _ _ Q), ?(q_srun _ _ Q), ?(q_now _ _ Q); reflexivity); apply (q_keys _ _ Q)|].
      split; [intros j; rewrite (q_outs _ _ Q); cbn [refresh_time with_latest send t_outs]; now rewrite Ho|]. split; [|apply (q_latest _ _ Q)].
      destruct (q_sent _ _ Q) as (l & E & Hl). exists l. split; [|assumption]. rewrite E. cbn [refresh_time with_latest send t_sent]. rewrite K. reflexivity. }
  destruct up.
  - specialize (H2 (LinkUp i) eq_refl). unfold on_link_up. set (x := refresh_time (send (LinkUp i) s1)) in *. intros E.
    destruct (H2 x s' eq_refl) as (Ix & H3). destruct (reroute_all_ok _ _ _ Ix E) as (I' & Q & F & O). destruct (H3 Q) as (C & D & L & T).
    split; [assumption|]. split; [assumption|]. split; [assumption|]. split; [assumption|]. split; [assumption|]. split; [|discriminate].
    intros d Hk _. apply F. apply arrange_in. now apply get_in.
  - specialize (H2 (LinkDown i) eq_refl). unfold on_link_down. set (x := refresh_time (send (LinkDown i) s1)) in *.
    change (t_outs x) with (t_outs s1). rewrite Ho, N.eqb_refl, Hd, Hh. intros E.
    destruct (H2 x s' eq_refl) as (Ix & H3). pose proof (v_books _ I i o) as B.
    destruct (reroute_out_ok (o_hop o) _ x s' Ix (arrange_nodup ord _ (v_dn _ I i o Hi))) as (I' & Q & F & O); [|exact E|].
    { intros d Hdd. apply arrange_in in Hdd. apply (v_books _ I i o d Hi) in Hdd. exact Hdd. }
    destruct (H3 Q) as (C & D & L & T). split; [assumption|]. split; [assumption|]. split; [assumption|]. split; [assumption|]. split; [assumption|]. split.
    + intros d Hk [Hf|Hr]; [discriminate|]. apply F. apply arrange_in. now apply (B d Hi).
    + intros _ d Hr. rewrite O; [reflexivity|]. intros X. apply arrange_in in X. apply (B d Hi) in X. contradiction.
Qed.
Lemma time_up b o : changed o (set_time b o) = true -> is_up (set_time b o) = b.
Proof. unfold changed, set_time, is_up. cbn. destruct b, (o_time o), (o_phys o), (o_stor o); cbn; congruence. Qed.
Lemma phys_up b o : changed o (set_phys b o) = true -> is_up (set_phys b o) = b.
Proof. unfold changed, set_phys, is_up. cbn. destruct b, (o_time o), (o_phys o), (o_stor o); cbn; congruence. Qed.
Lemma stor_up b o : changed o (set_stor b o) = true -> is_up (set_stor b o) = b.
Proof. unfold changed, set_stor, is_up. cbn. destruct b, (o_time o), (o_phys o), (o_stor o); cbn; congruence. Qed.

(** * A new plan *)
Lemma drop_fold l : forall s, NoDup (map fst l) -> (forall i o, In (i, o) l -> get (t_outs s) i = Some o) ->
  let s' := fold_left (fun s x => drop_link (fst x) (snd x) s) l s in
  (forall i, get (t_outs s') i = if mem i (map fst l) then option_map (fun o => set_dests [] (set_time false o)) (get (t_outs s) i) else get (t_outs s) i) /\
  (forall i, told_link (t_sent s') i = if mem i (map fst l) then match get (t_outs s) i with Some o => if changed o (set_time false o) then false else told_link (t_sent s) i | None => told_link (t_sent s) i end else told_link (t_sent s) i) /\
  (forall d, told_route (t_sent s') d = told_route (t_sent s) d) /\ map fst (t_outs s') = map fst (t_outs s) /\
  exists x y, s' = mkRt x (t_hops s) (t_routes s) (t_plan s) (t_latest s) (t_sched s) (t_cwait s) (t_crun s) (t_epoch s) (t_sub s) (t_stor s) (t_swait s) (t_srun s) (t_now s) y.
Proof.
  induction l as [|(i, o) l IH]; intros s ND Hl.
  { cbn. split; [reflexivity|]. split; [reflexivity|]. split; [reflexivity|]. split; [reflexivity|]. exists (t_outs s), (t_sent s). now destruct s. }
  cbn [map fst] in ND. inversion ND as [|? ? N1 N2]; subst. cbn [fold_left fst snd]. set (s1 := drop_link i o s).
  pose proof (Hl i o (or_introl eq_refl)) as Hi.
  assert (E1 : t_outs s1 = set (t_outs s) i (set_dests [] (set_time false o)) /\ t_sent s1 = if changed o (set_time false o) then LinkDown i :: t_sent s else t_sent s).
  { unfold s1, drop_link. destruct (changed o (set_time false o)); split; reflexivity. }
  destruct E1 as (E1 & E2).
  assert (E3 : exists x y, s1 = mkRt x (t_hops s) (t_routes s) (t_plan s) (t_latest s) (t_sched s) (t_cwait s) (t_crun s) (t_epoch s) (t_sub s) (t_stor s) (t_swait s) (t_srun s) (t_now s) y).
  { unfold s1, drop_link. destruct (changed o (set_time false o)); do 2 eexists; reflexivity. }
  destruct (IH s1 N2) as (A & B & C & D & x & y & F).
  { intros j p Hj. rewrite E1, get_set. destruct (N.eqb_spec j i) as [->|]; [|apply Hl; now right]. exfalso. apply N1. apply (in_map fst) in Hj. exact Hj. }
  cbv zeta. split; [|split; [|split; [|split]]].
  - intros j. rewrite A, E1, get_set. cbn [map fst]. change (mem j (i :: map fst l)) with (N.eqb j i || mem j (map fst l)). destruct (N.eqb_spec j i) as [->|]; [|reflexivity].
    cbn [orb]. apply mem_false in N1. rewrite N1, Hi. reflexivity.
  - intros j. rewrite B, E1, get_set. cbn [map fst]. change (mem j (i :: map fst l)) with (N.eqb j i || mem j (map fst l)). destruct (N.eqb_spec j i) as [->|Hj]; cbn [orb].
    + apply mem_false in N1. rewrite N1, Hi, E2. destruct (changed o (set_time false o)); [cbn [told_link]; now rewrite N.eqb_refl|reflexivity].
    + rewrite E2. destruct (changed o (set_time false o)); [|reflexivity]. cbn [told_link]. destruct (N.eqb_spec j i); [congruence|reflexivity].
  - intros d. rewrite C, E2. destruct (changed o (set_time false o)); reflexivity.
  - rewrite D, E1. apply set_keys. congruence.
  - destruct E3 as (x1 & y1 & E3). exists x, y. etransitivity; [exact F|]. rewrite E3. reflexivity.
Qed.
Lemma close_fold l : forall s, let s' := fold_left (fun s d => match get (t_routes s) d with Some h => if N.eqb h no_route then s else send (RouteTo d no_route) s | None => s end) l s in
  (exists y, s' = mkRt (t_outs s) (t_hops s) (t_routes s) (t_plan s) (t_latest s) (t_sched s) (t_cwait s) (t_crun s) (t_epoch s) (t_sub s) (t_stor s) (t_swait s) (t_srun s) (t_now s) y) /\
  (forall i, told_link (t_sent s') i = told_link (t_sent s) i) /\
  forall d, (told_route (t_sent s) d = Some no_route -> told_route (t_sent s') d = Some no_route) /\
    (In d l -> forall h, get (t_routes s) d = Some h -> h <> no_route -> told_route (t_sent s') d = Some no_route) /\
    (get (t_routes s) d = None -> told_route (t_sent s') d = told_route (t_sent s) d).
Proof.
  induction l as [|d l IH]; intros s; cbn [fold_left].
  { split; [exists (t_sent s); now destruct s|]. split; [reflexivity|]. intros d. split; [auto|split; [intros []|auto]]. }
  set (s1 := match get (t_routes s) d with Some h => _ | None => s end).
  assert (E : s1 = s \/ s1 = send (RouteTo d no_route) s). { unfold s1. destruct (get (t_routes s) d) as [h|]; [|auto]. destruct (N.eqb h no_route); auto. }
  specialize (IH s1). cbv zeta in IH. destruct IH as ((y & A) & B & C).
  assert (E' : t_routes s1 = t_routes s /\ (forall i, told_link (t_sent s1) i = told_link (t_sent s) i) /\ exists z, s1 = mkRt (t_outs s) (t_hops s) (t_routes s) (t_plan s) (t_latest s) (t_sched s) (t_cwait s) (t_crun s) (t_epoch s) (t_sub s) (t_stor s) (t_swait s) (t_srun s) (t_now s) z).
  { destruct E as [->| ->]; split; try reflexivity; split; try reflexivity; [exists (t_sent s); now destruct s|eexists; reflexivity]. }
  destruct E' as (E1 & E2 & z & E3). split; [|split].
  - exists y. rewrite A, E3. reflexivity.
  - intros i. now rewrite B, E2.
  - intros x. destruct (C x) as (C1 & C2 & C3). rewrite E1 in C2, C3.
    assert (K : told_route (t_sent s) x = Some no_route -> told_route (t_sent s1) x = Some no_route).
    { destruct E as [->| ->]; [auto|]. cbn [send t_sent told_route]. destruct (N.eqb x d); auto. }
    split; [auto|]. split.
    + intros [<-|Hx] h Hh Hn; [|eauto]. apply C1. unfold s1. rewrite Hh. destruct (N.eqb_spec h no_route); [contradiction|]. cbn [send t_sent told_route]. now rewrite N.eqb_refl.
    + intros Hx. rewrite (C3 Hx). unfold s1. destruct (get (t_routes s) d) as [h|] eqn:Ed; [|reflexivity]. destruct (N.eqb h no_route); [reflexivity|].
      cbn [send t_sent told_route]. destruct (N.eqb_spec x d) as [->|]; [congruence|reflexivity].
Qed.
Lemma open_fold l : forall s, let s' := fold_left (fun s d => send (RouteTo d no_route) s) l s in
  (exists y, s' = mkRt (t_outs s) (t_hops s) (t_routes s) (t_plan s) (t_latest s) (t_sched s) (t_cwait s) (t_crun s) (t_epoch s) (t_sub s) (t_stor s) (t_swait s) (t_srun s) (t_now s) y) /\
  (forall i, told_link (t_sent s') i = told_link (t_sent s) i) /\
  forall d, told_route (t_sent s') d = if mem d l then Some no_route else told_route (t_sent s) d.
Proof.
  induction l as [|d l IH]; intros s; cbn [fold_left].
  { split; [exists (t_sent s); now destruct s|]. split; reflexivity. }
  specialize (IH (send (RouteTo d no_route) s)). cbv zeta in IH. destruct IH as ((y & A) & B & C). split; [exists y; exact A|]. split; [intros i; rewrite B; reflexivity|].
  intros x. rewrite C. change (mem x (d :: l)) with (N.eqb x d || mem x l). cbn [send t_sent told_route]. destruct (N.eqb x d), (mem x l); reflexivity.
Qed.
(** Adding the contacts touches the routes and the schedule only. *)
Lemma add_event_frame t e s s' : add_event t e s = Some s' -> exists x, s' = with_sched s x.
Proof. unfold add_event. destruct (existsb _ _); [discriminate|]. intros E. injection E as <-. eauto. Qed.
Lemma add_contact_frame w i s : exists x, add_contact w i s = with_sched s x.
Proof.
  unfold add_contact. destruct (add_event _ _ s) as [s1|] eqn:E1; [|exists (t_sched s); now destruct s]. apply add_event_frame in E1. destruct E1 as (x & ->).
  destruct (add_event _ _ (with_sched s x)) as [s2|] eqn:E2; [|eauto]. apply add_event_frame in E2. destruct E2 as (y & ->). exists y. reflexivity.
Qed.
Lemma add_row_frame s w : exists x, add_row me s w = with_sched (with_routes s (if N.eqb (as_int (w_dest w)) me then t_routes s else set (t_routes s) (as_int (w_dest w)) no_route)) x.
Proof.
  unfold add_row. destruct (N.eqb (as_int (w_dest w)) me); [exists (t_sched s); now destruct s|]. set (s1 := with_routes s _).
  assert (K : exists x, s1 = with_sched s1 x) by (exists (t_sched s1); now destruct s1).
  destruct (negb _); [exact K|]. destruct (get (t_hops s1) _) as [i|]; [|exact K]. apply add_contact_frame.
Qed.
Lemma add_rows_frame rows : forall s, exists x y, fold_left (add_row me) rows s = with_sched (with_routes s x) y /\
  forall d, get x d = if existsb (fun w => N.eqb (as_int (w_dest w)) d && negb (N.eqb d me)) rows then Some no_route else get (t_routes s) d.
Proof.
  induction rows as [|w rows IH]; intros s; cbn [fold_left existsb].
  { exists (t_routes s), (t_sched s). split; [now destruct s|reflexivity]. }
  destruct (add_row_frame s w) as (z & ->). destruct (IH (with_sched (with_routes s (if N.eqb (as_int (w_dest w)) me then t_routes s else set (t_routes s) (as_int (w_dest w)) no_route)) z)) as (x & y & E & H).
  exists x, y. split; [exact E|]. intros d. rewrite H. cbn [with_sched with_routes t_routes]. destruct (existsb _ rows); [rewrite orb_true_r; reflexivity|]. rewrite orb_false_r.
  destruct (N.eqb_spec (as_int (w_dest w)) me) as [Hm|Hm].
  - destruct (N.eqb_spec (as_int (w_dest w)) d) as [<-|]; [|reflexivity]. rewrite (proj2 (N.eqb_eq _ _) Hm). reflexivity.
  - rewrite get_set, (N.eqb_sym d). destruct (N.eqb_spec (as_int (w_dest w)) d) as [<-|]; [|reflexivity]. apply N.eqb_neq in Hm. rewrite Hm. reflexivity.
Qed.
Lemma restart_contact_frame s : exists w b, restart_contact_timer s = with_ctimer s w b.
Proof. unfold restart_contact_timer. destruct (t_crun s) eqn:E; [exists (t_cwait s), (t_crun s); now destruct s|]. destruct (t_sched s) as [|((t, ?), ?) ?]; [exists (t_cwait s), (t_crun s); now destruct s|eauto]. Qed.
Lemma restart_storage_frame s : exists w b, restart_storage_timer s = with_stimer s w b.
Proof. unfold restart_storage_timer. destruct (t_srun s) eqn:E; [exists (t_swait s), (t_srun s); now destruct s|]. destruct (t_stor s) as [|((t, ?), ?) ?]; [exists (t_swait s), (t_srun s); now destruct s|eauto]. Qed.

Section Plan.
Variable unix : bool.
(** The state when the contacts of the new plan are added. *)
Definition cleared (ord : list N) (s : rt) : rt :=
  let s := drop_links (with_ctimer s (map abort (t_cwait s)) (t_crun s)) in
  let s := fold_left (fun s d => match get (t_routes s) d with Some h => if N.eqb h no_route then s else send (RouteTo d no_route) s | None => s end)
             (arrange ord (map fst (t_routes s))) s in
  let s := with_sched (with_routes s []) [] in
  if unix then with_epoch s 0 0 else with_epoch s (t_now s) (t_now s / 1000000).
Lemma cleared_ok ord s : inv s -> let s' := cleared ord s in
  inv s' /\ (forall i, get (t_outs s') i = option_map (fun o => set_dests [] (set_time false o)) (get (t_outs s) i)) /\
  exists x y, s' = mkRt x (t_hops s) [] (t_plan s) (t_latest s) [] (map abort (t_cwait s)) (t_crun s) (if unix then 0 else t_now s) (if unix then 0 else t_now s / 1000000) (t_stor s) (t_swait s) (t_srun s) (t_now s) y.
Proof.
  intros I. unfold cleared. set (s0 := with_ctimer s (map abort (t_cwait s)) (t_crun s)).
  assert (I0 : inv s0) by (apply (inv_ext s); try reflexivity; assumption).
  destruct (drop_fold (t_outs s0) s0 (v_nd _ I0)) as (A & B & C & D & x & y & F); [intros i o Hi; apply get_some_in; [apply I0|assumption]|].
  fold (drop_links s0) in *. set (s1 := drop_links s0) in *.
  destruct (close_fold (arrange ord (map fst (t_routes s1))) s1) as ((z & E2) & B2 & C2). set (s2 := fold_left _ _ s1) in *.
  assert (O2 : forall i, get (t_outs s2) i = option_map (fun o => set_dests [] (set_time false o)) (get (t_outs s) i)).
  { intros i. rewrite E2. cbn [t_outs]. rewrite A. change (t_outs s0) with (t_outs s). destruct (mem i (map fst (t_outs s))) eqn:Em; [reflexivity|]. apply mem_false in Em.
    destruct (get (t_outs s) i) eqn:Eg; [|reflexivity]. exfalso. apply Em. apply get_in. congruence. }
  assert (R1 : t_routes s1 = t_routes s) by (rewrite F; reflexivity).
  assert (T2 : forall d, told_route (t_sent s2) d = None \/ told_route (t_sent s2) d = Some no_route).
  { intros d. destruct (C2 d) as (C3 & C4 & C5). rewrite R1 in C4, C5. rewrite C in C3, C5. change (t_sent s0) with (t_sent s) in *. destruct (get (t_routes s) d) as [h|] eqn:Ed.
    - right. destruct (N.eq_dec h no_route) as [->|Hn]; [apply C3; now apply (v_told _ I)|]. apply (C4 ltac:(apply arrange_in, get_in; congruence) h); auto.
    - rewrite (C5 eq_refl). now apply (v_gone _ I). }
  assert (H2 : t_hops s2 = t_hops s) by (rewrite E2, F; reflexivity).
  assert (N2 : map fst (t_outs s2) = map fst (t_outs s)) by (rewrite E2; cbn [t_outs]; rewrite D; reflexivity).
  assert (L2 : forall i o, get (t_outs s2) i = Some o -> told_link (t_sent s2) i = is_up o).
  { intros i o. rewrite O2, B2, B. change (t_outs s0) with (t_outs s). change (t_sent s0) with (t_sent s). destruct (get (t_outs s) i) as [p|] eqn:Ep; [|discriminate]. cbn [option_map]. intros E. injection E as <-.
    rewrite (proj2 (mem_true i (map fst (t_outs s)))) by (apply get_in; congruence). rewrite (v_link _ I i p Ep). unfold changed, set_time, set_dests, is_up. cbn.
    destruct (o_time p), (o_phys p), (o_stor p); reflexivity. }
  assert (I3 : forall u e b, inv (with_epoch (with_sched (with_routes u []) []) e b) <-> inv (with_routes u [])).
  { intros u e b. split; apply inv_ext; reflexivity. }
  assert (I4 : inv (with_routes s2 [])).
  { constructor; cbn [with_routes t_outs t_hops t_routes t_sent].
    - rewrite N2. apply I.
    - intros h i. rewrite H2, (v_hop _ I), O2. split; intros (o & E & <-); [rewrite E; eexists; split; reflexivity|]. destruct (get (t_outs s) i) as [p|]; [|discriminate]. cbn [option_map] in E. injection E as <-. exists p. auto.
    - rewrite H2. apply I.
    - apply L2.
    - intros i o d. rewrite O2. destruct (get (t_outs s) i) as [p|]; [|discriminate]. cbn [option_map]. intros E. injection E as <-. cbn. split; [intros []|discriminate].
    - intros i o. rewrite O2. destruct (get (t_outs s) i) as [p|]; [|discriminate]. cbn [option_map]. intros E. injection E as <-. constructor.
    - discriminate.
    - intros d _. apply T2. }
  cbv zeta. destruct unix.
  - split; [now apply I3|]. split; [exact O2|]. rewrite E2, F. do 2 eexists. reflexivity.
  - split; [now apply I3|]. split; [exact O2|]. rewrite E2, F. do 2 eexists. reflexivity.
Qed.
Lemma load_plan_ok rows ord ord' s : inv s -> let s' := load_plan me unix rows ord ord' s in
  inv s' /\ (forall i, option_map (set_dests []) (get (t_outs s') i) = option_map (fun o => set_dests [] (set_time false o)) (get (t_outs s) i)) /\
  (forall d, get (t_routes s') d = if existsb (fun w => N.eqb (as_int (w_dest w)) d && negb (N.eqb d me)) rows then Some no_route else None) /\
  (exists x y z v w, s' = restart_contact_timer (mkRt x (t_hops s) y (map load_row (filter (routing_row me s) rows)) (t_latest s) z (map abort (t_cwait s)) false (if unix then 0 else t_now s) (if unix then 0 else t_now s / 1000000) (t_stor s) (t_swait s) (t_srun s) (t_now s) v)
    /\ fold_left (add_row me) rows (cleared ord s) = w /\ t_sched w = z).
Proof.
  intros I. unfold load_plan. destruct (cleared_ok ord s I) as (I1 & O1 & x & y & E1). set (s1 := cleared ord s) in *.
  match goal with |- context [fold_left (add_row me) rows ?x] => change x with s1 end.
  destruct (add_rows_frame rows s1) as (r & z & E2 & R2). set (s2 := fold_left (add_row me) rows s1) in *.
  set (s3 := with_plan s2 _).
  destruct (open_fold (arrange ord' (map fst (t_routes s3))) s3) as ((v & E4) & B & C). set (s4 := fold_left _ _ s3) in *.
  assert (R3 : t_routes s3 = r) by (unfold s3; rewrite E2; reflexivity).
  assert (O4 : t_outs s4 = t_outs s1) by (rewrite E4; unfold s3; rewrite E2; reflexivity).
  assert (R1 : t_routes s1 = []) by (rewrite E1; reflexivity).
  assert (S1 : t_sent s3 = t_sent s1) by (unfold s3; rewrite E2; reflexivity).
  assert (H4 : t_hops s4 = t_hops s1) by (rewrite E4; unfold s3; rewrite E2; reflexivity).
  assert (R4 : t_routes s4 = r) by (rewrite E4; exact R3).
  assert (I4 : inv s4).
  { constructor; rewrite ?O4, ?H4, ?R4; try apply I1.
    - intros i o Hi. rewrite B, S1. now apply (v_link _ I1).
    - intros i o d Hi. rewrite (v_books _ I1 i o d Hi), R2, R1. cbn [get]. destruct (existsb _ rows); [|tauto]. pose proof (hop_real s1 i o I1 Hi). split; [discriminate|congruence].
    - intros d h Hd. rewrite C, R3. rewrite (proj2 (mem_true d _)) by (apply arrange_in, get_in; congruence). rewrite R2, R1 in Hd. cbn [get] in Hd. destruct (existsb _ rows); congruence.
    - intros d Hd. rewrite C, R3. rewrite (proj2 (mem_false d _)); [|rewrite arrange_in, get_in; tauto]. rewrite S1. apply (v_gone _ I1). rewrite R1. reflexivity. }
  destruct (restart_contact_frame (with_ctimer s4 (t_cwait s4) false)) as (w & b & E5).
  split; [|split; [|split]].
  - rewrite E5. apply (inv_ext s4); try reflexivity; assumption.
  - intros i. rewrite E5. cbn [with_ctimer t_outs]. rewrite O4, O1. destruct (get (t_outs s) i); reflexivity.
  - intros d. rewrite E5. cbn [with_ctimer t_routes]. rewrite R4, R2, R1. reflexivity.
  - exists (t_outs s4), r, z, v, s2. split; [|split; [reflexivity|rewrite E2; reflexivity]]. rewrite E4. unfold s3. rewrite E2, E1. reflexivity.
Qed.
End Plan.
End Hop.
