(** Lemmas for P_Router: every step keeps the invariant; what a step does to the routes. *)
From Coq Require Import NArith ZArith List Bool Lia ZifyBool ZifyN.
From Verif Require Import Base M_Cgr S_Cgr L_Cgr P_Cgr M_Router S_Router L_Router.
Import ListNotations.
Open Scope N_scope.

Lemma changed_neg o o' : changed o o' = true -> is_up o = negb (is_up o').
Proof. unfold changed. destruct (is_up o), (is_up o'); cbn; congruence. Qed.
Lemma rates_nil : rates_only []. Proof. intros m []. Qed.
Lemma rates_one i b u : rates_only [Rate i b u]. Proof. intros m [<-|[]]. eauto. Qed.

Section Step.
Variable me : N. Variable unix mgr : bool. Variable order : N -> list N. Variable hold : N.
Notation best := (best_hop me mgr order).
Notation step := (step me unix mgr order hold).

(** What a step other than a new plan does to the routes. *)
Definition moved (s s' : rt) : Prop :=
  (t_routes s' = t_routes s /\ exists l, t_sent s' = l ++ t_sent s /\ rates_only l) \/
  exists j o up l l', get (t_outs s) j = Some o /\ is_up o = negb up /\ (forall p, get (t_outs s') j = Some p -> is_up p = up) /\
    t_sent s' = l ++ (if up then LinkUp j else LinkDown j) :: l' ++ t_sent s /\ (forall m, In m l -> exists d h, m = RouteTo d h) /\ rates_only l' /\
    t_latest s' = sub64 (t_now s / 1000000) (t_sub s) /\
    (forall d, get (t_routes s) d <> None -> up = true \/ get (t_routes s) d = Some (o_hop o) -> exists h, best s' d = Some h /\ get (t_routes s') d = Some h) /\
    (up = false -> forall d, get (t_routes s) d <> Some (o_hop o) -> get (t_routes s') d = get (t_routes s) d).
Record still (s s' : rt) : Prop := {
  l_hops : t_hops s' = t_hops s; l_plan : t_plan s' = t_plan s; l_sub : t_sub s' = t_sub s; l_epoch : t_epoch s' = t_epoch s;
  l_keys : forall d, get (t_routes s') d = None <-> get (t_routes s) d = None; l_moved : moved s s' }.
Lemma still_refl s s' : t_hops s' = t_hops s -> t_plan s' = t_plan s -> t_sub s' = t_sub s -> t_epoch s' = t_epoch s -> t_routes s' = t_routes s -> t_sent s' = t_sent s -> still s s'.
Proof. intros E1 E2 E3 E4 E5 E6. constructor; try assumption; [now rewrite E5|]. left. split; [assumption|]. exists []. split; [assumption|apply rates_nil]. Qed.
(** Only members that do not matter differ. *)
Record twin (s s' : rt) : Prop := {
  w_outs : t_outs s' = t_outs s; w_hops : t_hops s' = t_hops s; w_routes : t_routes s' = t_routes s; w_plan : t_plan s' = t_plan s;
  w_latest : t_latest s' = t_latest s; w_epoch : t_epoch s' = t_epoch s; w_sub : t_sub s' = t_sub s; w_now : t_now s' = t_now s; w_sent : t_sent s' = t_sent s }.
Lemma twin_inv s s' : twin s s' -> inv s -> inv s'. Proof. intros [] I. eapply inv_ext; eassumption. Qed.
Lemma twin_best s s' d : twin s s' -> best s' d = best s d.
Proof. intros []. unfold best_hop, compute_route, filter_plan, hop_down. now rewrite w_latest0, w_plan0, w_outs0, w_hops0. Qed.
Lemma twin_contact s : twin s (restart_contact_timer s).
Proof. destruct (restart_contact_frame s) as (w & b & ->). constructor; reflexivity. Qed.
Lemma twin_storage s : twin s (restart_storage_timer s).
Proof. destruct (restart_storage_frame s) as (w & b & ->). constructor; reflexivity. Qed.
Lemma still_twins a b c d : twin a b -> still b c -> twin c d -> still a d.
Proof.
  intros T [] U. pose proof (w_routes _ _ T) as R. pose proof (w_sent _ _ T) as R'. destruct T, U. constructor; try congruence.
  - intros x. rewrite w_routes1, l_keys0, R. tauto.
  - destruct l_moved0 as [(A & l & B & C)|(j & o & up & l & l' & A & B & B' & C & D & E & F & G & H)].
    + left. split; [congruence|]. exists l. split; [congruence|assumption].
    + right. exists j, o, up, l, l'. rewrite <- w_outs0, w_outs1. split; [assumption|]. split; [assumption|]. split; [assumption|]. split; [congruence|]. split; [assumption|]. split; [assumption|]. split; [congruence|].
      rewrite R in *. split.
      * intros x Hx Hu. destruct (G x Hx Hu) as (h & K & K'). exists h. split; [|congruence].
        rewrite <- K. apply twin_best. constructor; assumption.
      * intros Hu x Hx. rewrite w_routes1. auto.
Qed.
Lemma update_link_still i f up pre ord s o s' :
  inv s -> get (t_outs s) i = Some o -> o_hop (f o) = o_hop o -> o_dests (f o) = o_dests o -> (changed o (f o) = true -> is_up (f o) = up) -> rates_only pre ->
  update_link me mgr order i f up pre ord s = Some s' -> inv s' /\ still s s' /\ t_now s' = t_now s.
Proof.
  intros I Hi Hh Hd Hu Hp E. destruct (update_link_ok me mgr order i f up pre ord s o s' I Hi Hh Hd Hu Hp E) as (I' & C & O & (l & S' & L) & M).
  split; [assumption|]. split; [|apply C]. destruct C. constructor; try assumption. destruct (changed o (f o)) eqn:Ec.
  - right. exists i, o, up, l, (rev pre). destruct M as (M1 & M2 & M3). split; [assumption|]. split; [rewrite <- (Hu eq_refl); now apply changed_neg|].
    split. { intros p Hp'. specialize (O i). rewrite Hp', N.eqb_refl in O. cbn [option_map] in O. injection O as O2 O3 O4 O5. rewrite <- (Hu eq_refl). unfold is_up. congruence. }
    split; [exact S'|]. split; [assumption|]. split; [intros m Hm; apply Hp; now apply in_rev|]. auto.
  - left. destruct M as (M1 & M2). split; [assumption|]. exists (rev pre). destruct l as [|m l]; [split; [exact S'|intros m Hm; apply Hp; now apply in_rev]|].
    exfalso. revert O. clear - E Ec Hi S' L. intros _. unfold update_link in E. rewrite Hi, Ec, fold_send in E. injection E as E. rewrite <- E in S'. cbn in S'.
    assert (X : length (rev pre ++ t_sent s) = length ((m :: l) ++ rev pre ++ t_sent s)) by exact (f_equal _ S'). rewrite (app_length (m :: l)) in X. cbn in X. lia.
Qed.

Lemma step_still s i s' : inv s -> step s i = Some s' -> inv s' /\ match i with IPlan _ _ _ => True | ITime dt => s' = with_now s (t_now s + dt) | _ => still s s' /\ t_now s' = t_now s end.
Proof.
  intros I. destruct i as [i up ord|i up ord|rows ord ord'|node ord|dt|n|n|n ord|n ord]; cbn [M_Router.step]; intros E.
  - unfold physical in E. destruct (get (t_outs s) i) as [o|] eqn:Ei; [|injection E as <-; split; [assumption|split; [now apply still_refl|reflexivity]]].
    exact (update_link_still i (set_phys up) up [] ord s o s' I Ei eq_refl eq_refl (phys_up up o) rates_nil E).
  - unfold api in E. destruct (get (t_outs s) i) as [o|] eqn:Ei; [|injection E as <-; split; [assumption|split; [now apply still_refl|reflexivity]]].
    exact (update_link_still i (set_time up) up [] ord s o s' I Ei eq_refl eq_refl (time_up up o) rates_nil E).
  - injection E as <-. split; [|exact Logic.I]. now apply (fun H => proj1 (load_plan_ok me order unix rows ord ord' s H)).
  - unfold depleted in E. destruct (get (t_hops s) node) as [i|] eqn:En; [|injection E as <-; split; [assumption|split; [now apply still_refl|reflexivity]]].
    set (x := restart_storage_timer (add_expiry i (t_now s + hold * 1000000) s)) in *.
    assert (T : twin s x). { pose proof (twin_storage (add_expiry i (t_now s + hold * 1000000) s)) as T. fold x in T. destruct T. constructor; assumption. }
    destruct (proj1 (v_hop _ I node i) En) as (o & Ho & _).
    destruct (update_link_still i (set_stor false) false [] ord x o s') as (I' & K & L); try reflexivity.
    + apply (twin_inv s); assumption.
    + rewrite (w_outs _ _ T). assumption.
    + apply stor_up.
    + apply rates_nil.
    + exact E.
    + split; [assumption|]. split; [|rewrite L; apply T]. eapply still_twins; [exact T|exact K|]. constructor; reflexivity.
  - injection E as <-. split; [apply (inv_ext s); try reflexivity; assumption|reflexivity].
  - injection E as <-. split; [apply (inv_ext s); try reflexivity; assumption|]. split; [|reflexivity]. apply still_refl; reflexivity.
  - injection E as <-. split; [apply (inv_ext s); try reflexivity; assumption|]. split; [|reflexivity]. apply still_refl; reflexivity.
  - assert (K : forall b, contact_timer me mgr order b ord (with_ctimer s (remove_at n (t_cwait s)) (t_crun s)) = Some s' -> inv s' /\ still s s' /\ t_now s' = t_now s).
    { intros b. unfold contact_timer. set (x := with_ctimer (with_ctimer s _ _) _ _). assert (T : twin s x) by (constructor; reflexivity).
      assert (Ix : inv x) by (apply (twin_inv s); assumption). destruct b.
      - intros X. injection X as <-. split; [assumption|]. split; [apply still_refl; reflexivity|reflexivity].
      - destruct (t_sched x) as [|(k, e) r]; [intros X; injection X as <-; split; [assumption|]; split; [apply still_refl; reflexivity|reflexivity]|].
        destruct (get (t_outs x) (e_out e)) as [o|] eqn:Eo.
        + destruct (update_link _ _ _ _ _ _ _ _ x) as [y|] eqn:Ey; [|discriminate]. intros X. injection X as <-.
          destruct (update_link_still (e_out e) (set_time (e_up e)) (e_up e) [Rate (e_out e) (e_rate e) (e_up e)] ord x o y Ix Eo) as (Iy & Sy & Ny); try reflexivity; [apply time_up|apply rates_one|exact Ey|].
          assert (U : twin y (restart_contact_timer (with_sched y r))). { pose proof (twin_contact (with_sched y r)) as U. destruct U. constructor; assumption. }
          split; [apply (twin_inv y); assumption|]. split; [exact (still_twins _ _ _ _ T Sy U)|]. rewrite (w_now _ _ U), Ny. reflexivity.
        + intros X. injection X as <-. assert (U : twin s (restart_contact_timer (with_sched x r))). { pose proof (twin_contact (with_sched x r)) as U. destruct U. constructor; assumption. }
          split; [apply (twin_inv s); assumption|]. split; [|apply U]. destruct U. now apply still_refl. }
    destruct (nth_error (t_cwait s) n) as [[t| |]|].
    + injection E as <-. split; [assumption|]. split; [now apply still_refl|reflexivity].
    + destruct (K false E) as (A & B & C). auto.
    + destruct (K true E) as (A & B & C). auto.
    + injection E as <-. split; [assumption|]. split; [now apply still_refl|reflexivity].
  - assert (K : forall b, storage_timer me mgr order b ord (with_stimer s (remove_at n (t_swait s)) (t_srun s)) = Some s' -> inv s' /\ still s s' /\ t_now s' = t_now s).
    { intros b. unfold storage_timer. set (x := with_stimer (with_stimer s _ _) _ _). assert (T : twin s x) by (constructor; reflexivity).
      assert (Ix : inv x) by (apply (twin_inv s); assumption). destruct b.
      - intros X. injection X as <-. split; [assumption|]. split; [apply still_refl; reflexivity|reflexivity].
      - destruct (t_stor x) as [|((t, c), i) r]; [intros X; injection X as <-; split; [assumption|]; split; [apply still_refl; reflexivity|reflexivity]|].
        set (y := if N.ltb (t_now x) t then restart_storage_timer x else x).
        assert (Ty : twin s y). { unfold y. destruct (N.ltb (t_now x) t); [|assumption]. pose proof (twin_storage x) as U. destruct U. constructor; assumption. }
        assert (Iy : inv y) by (apply (twin_inv s); assumption).
        destruct (update_link _ _ _ _ _ _ _ _ y) as [z|] eqn:Ez; [|discriminate]. intros X. injection X as <-.
        destruct (get (t_outs y) i) as [o|] eqn:Eo; [|unfold update_link in Ez; rewrite Eo in Ez; discriminate].
        destruct (update_link_still i (set_stor true) true [] ord y o z Iy Eo) as (Iz & Sz & Nz); try reflexivity; [apply stor_up|apply rates_nil|exact Ez|].
        assert (U : twin z (restart_storage_timer (with_stor z r))). { pose proof (twin_storage (with_stor z r)) as U. destruct U. constructor; assumption. }
        split; [apply (twin_inv z); assumption|]. split; [exact (still_twins _ _ _ _ Ty Sz U)|]. rewrite (w_now _ _ U), Nz. apply Ty. }
    destruct (nth_error (t_swait s) n) as [[t| |]|].
    + injection E as <-. split; [assumption|]. split; [now apply still_refl|reflexivity].
    + destruct (K false E) as (A & B & C). auto.
    + destruct (K true E) as (A & B & C). auto.
    + injection E as <-. split; [assumption|]. split; [now apply still_refl|reflexivity].
Qed.
Lemma run_inv l : forall s s', inv s -> run me unix mgr order hold s l = Some s' -> inv s'.
Proof.
  induction l as [|i l IH]; intros s s' I; cbn [run]; [congruence|]. destruct (step s i) as [x|] eqn:E; [|discriminate]. apply IH. now apply (step_still s i x I).
Qed.
End Step.

(** * The start *)
Lemma insert_get i o l j : get l i = None -> get (insert_out i o l) j = if N.eqb j i then Some o else get l j.
Proof.
  induction l as [|(k, p) l IH]; intros H; [reflexivity|]. cbn [get insert_out] in *. destruct (N.eqb_spec i k) as [->|Hk]; [discriminate|].
  destruct (N.ltb i k); cbn [get].
  - destruct (N.eqb_spec j i); reflexivity.
  - rewrite (IH H). destruct (N.eqb_spec j k), (N.eqb_spec j i); congruence.
Qed.
Lemma insert_keys i o l x : In x (map fst (insert_out i o l)) <-> x = i \/ In x (map fst l).
Proof.
  induction l as [|(k, p) l IH]; cbn [insert_out map fst In]; [intuition|]. destruct (N.eqb_spec i k) as [->|]; [cbn; intuition|].
  destruct (N.ltb i k); cbn [map fst In]; [intuition|]. rewrite IH. intuition.
Qed.
Lemma insert_nodup i o l : NoDup (map fst l) -> get l i = None -> NoDup (map fst (insert_out i o l)).
Proof.
  induction l as [|(k, p) l IH]; cbn [map fst insert_out get]; intros ND H; [constructor; [intros []|constructor]|].
  inversion ND as [|? ? N1 N2]; subst. destruct (N.eqb_spec i k) as [->|Hk]; [discriminate|]. destruct (N.ltb i k); cbn [map fst].
  - constructor; [|assumption]. intros [X|X]; [congruence|]. apply get_in in X. congruence.
  - constructor; [|auto]. rewrite insert_keys. intros [X|X]; [congruence|tauto].
Qed.
Lemma populate_ok telem : forall s, inv s -> (forall i, get (t_outs s) i <> None -> ~ In i (map (fun x => fst (fst x)) telem)) ->
  (forall h, get (t_hops s) h <> None -> ~ In h (map (fun x => snd (fst x)) telem)) -> telem_ok telem -> (forall i o, get (t_outs s) i = Some o -> o_dests o = [] /\ o_time o = false) -> t_sent s = [] -> t_routes s = [] -> inv (populate telem s).
Proof.
  induction telem as [|((i, h), dn) r IH]; intros s I Hi Hh (T1 & T2 & T3) Hf Hs Hr; [assumption|]. cbn [populate map fst snd] in *.
  inversion T1 as [|? ? N1 M1]; subst. inversion T2 as [|? ? N2 M2]; subst.
  assert (G : get (t_outs s) i = None). { destruct (get (t_outs s) i) eqn:E; [|reflexivity]. exfalso. apply (Hi i); [congruence|now left]. }
  assert (GH : get (t_hops s) h = None). { destruct (get (t_hops s) h) eqn:E; [|reflexivity]. exfalso. apply (Hh h); [congruence|now left]. }
  assert (Hnr : h <> no_route) by (intros ->; apply T3; left; reflexivity).
  set (o := mkOut h false (negb dn) true []) in *.
  apply IH; cbn [t_outs t_hops t_routes t_sent].
  - constructor; cbn [t_outs t_hops t_routes t_sent].
    + apply insert_nodup; [apply I|assumption].
    + intros h' i'. rewrite get_set, insert_get by assumption. destruct (N.eqb_spec h' h) as [->|Hn].
      * split; [intros E; injection E as <-; rewrite N.eqb_refl; exists o; auto|]. intros (p & E & Hp). destruct (N.eqb_spec i' i) as [->|]; [reflexivity|].
        exfalso. assert (X : get (t_hops s) h = Some i') by (apply (v_hop _ I); eauto). congruence.
      * rewrite (v_hop _ I). split; intros (p & E & Hp).
        -- exists p. split; [|assumption]. destruct (N.eqb_spec i' i) as [->|]; [congruence|assumption].
        -- destruct (N.eqb_spec i' i) as [->|]; [injection E as <-; cbn in Hp; congruence|eauto].
    + rewrite get_set. destruct (N.eqb_spec no_route h); [congruence|apply I].
    + intros j p. rewrite insert_get by assumption. rewrite Hs. destruct (N.eqb_spec j i); [intros E; injection E as <-; reflexivity|]. intros E. destruct (Hf j p E) as (_ & E'). unfold is_up. rewrite E'. reflexivity.
    + intros j p d. rewrite insert_get by assumption. rewrite Hr. cbn [get]. intros E. assert (X : o_dests p = []) by (destruct (N.eqb_spec j i); [injection E as <-; reflexivity|now apply (Hf j p)]). rewrite X. split; [intros []|discriminate].
    + intros j p. rewrite insert_get by assumption. intros E. assert (X : o_dests p = []) by (destruct (N.eqb_spec j i); [injection E as <-; reflexivity|now apply (Hf j p)]). rewrite X. constructor.
    + rewrite Hr. discriminate.
    + rewrite Hs. auto.
  - intros j. rewrite insert_get by assumption. destruct (N.eqb_spec j i) as [->|]; [auto|]. intros E X. apply (Hi j E). now right.
  - intros j. rewrite get_set. destruct (N.eqb_spec j h) as [->|]; [auto|]. intros E X. apply (Hh j E). now right.
  - split; [assumption|split; [assumption|]]. intros X. apply T3. now right.
  - intros j p. rewrite insert_get by assumption. destruct (N.eqb_spec j i); [intros E; injection E as <-; auto|apply Hf].
  - assumption.
  - assumption.
Qed.
Lemma start_inv now telem : telem_ok telem -> inv (start now telem).
Proof.
  intros T. unfold start. apply populate_ok; cbn; try tauto; try discriminate. constructor; cbn; try tauto; try discriminate; try (constructor).
  - discriminate.
  - intros (o & E & _). discriminate.
Qed.
