(** Lemmas for P_RouterTimer: the links follow the schedule, and the storage timer its entries. *)
From Coq Require Import NArith ZArith List Bool Lia ZifyBool ZifyN.
From Verif Require Import Base M_Cgr M_Router S_Router S_RouterTimer L_Router L_RouterStep L_RouterGood L_RouterTimer.
Import ListNotations.
Open Scope N_scope.

(** * Waits *)
Definition live (ws : list wait) : list wait := filter (fun w => match w with Aborted => false | _ => true end) ws.
Lemma live_app a b : live (a ++ b) = live a ++ live b. Proof. apply filter_app. Qed.
Lemma live_until t a : live (Until t :: a) = Until t :: live a. Proof. reflexivity. Qed.
Lemma live_expired a : live (Expired :: a) = Expired :: live a. Proof. reflexivity. Qed.
Lemma only {A} (a b : list A) w x : a ++ w :: b = [x] -> a = [] /\ b = [] /\ w = x.
Proof. destruct a as [|y a]; cbn [app]; intros H; [injection H as -> ->; auto|]. injection H as _ H. destruct a; discriminate. Qed.
Lemma live_abort ws : live ws = [] -> live (map abort ws) = [].
Proof. induction ws as [|[t| |] ws IH]; cbn; try discriminate; auto. Qed.
Lemma live_abort_until ws : ~ In Expired ws -> live (map abort ws) = [].
Proof. induction ws as [|[t| |] ws IH]; cbn; intros H; [reflexivity|apply IH; tauto|exfalso; tauto|apply IH; tauto]. Qed.
Lemma nth_split_at {A} n (l : list A) x : nth_error l n = Some x -> l = firstn n l ++ x :: skipn (S n) l /\ remove_at n l = firstn n l ++ skipn (S n) l.
Proof.
  revert n. induction l as [|y l IH]; intros [|n] H; cbn [nth_error] in H; try discriminate.
  - injection H as ->. split; reflexivity.
  - destruct (IH n H) as (E1 & E2). split; [cbn [firstn skipn app]; f_equal; exact E1|]. cbn [remove_at firstn skipn app]. f_equal. exact E2.
Qed.
Lemma live_in w ws : In w (live ws) -> In w ws. Proof. unfold live. intros H. apply filter_In in H. tauto. Qed.
(** A live wait, being the only one, is run or expires. *)
Lemma live_remove n ws w : nth_error ws n = Some w -> (match w with Aborted => live (remove_at n ws) = live ws | _ => forall x, live ws = [x] -> w = x /\ live (remove_at n ws) = [] end).
Proof.
  intros H. destruct (nth_split_at n ws w H) as (E1 & E2). rewrite E2. set (a := firstn n ws) in *. set (b := skipn (S n) ws) in *. clearbody a b. rewrite E1. clear.
  rewrite !live_app. destruct w as [t| |]; [rewrite live_until|rewrite live_expired|reflexivity]; intros x H; apply only in H; destruct H as (-> & -> & ->); auto.
Qed.
Lemma live_expire now n ws : (forall t, live ws = [Until t] -> live (expire now n ws) = [Until t] \/ live (expire now n ws) = [Expired] /\ t <= now) /\
  (live ws = [] -> live (expire now n ws) = []) /\ (live ws = [Expired] -> live (expire now n ws) = [Expired]).
Proof.
  unfold expire. destruct (nth_error ws n) as [w|] eqn:E; [|auto]. destruct w as [t| |]; [|auto..]. destruct (N.leb_spec t now) as [Ht|Ht]; [|auto].
  destruct (nth_split_at n ws _ E) as (E1 & _). set (a := firstn n ws) in *. set (b := skipn (S n) ws) in *. clearbody a b. rewrite E1. clear E E1.
  rewrite !live_app, live_until, live_expired. split; [|split].
  - intros u H. apply only in H. destruct H as (-> & -> & H). injection H as ->. right. split; [reflexivity|assumption].
  - intros H. destruct (live a); discriminate.
  - intros H. apply only in H. destruct H as (_ & _ & H). discriminate.
Qed.

(** * The links *)
Section Timed.
Variable me : N. Variable unix mgr : bool. Variable order : N -> list N. Variable hold : N.
Notation step := (step me unix mgr order hold).
Record timed (p : list row * N) (s : rt) : Prop := {
  d_all : exists all done, sorted all /\ (forall h i now, get (t_hops s) h = Some i -> h <> me -> (val i (upto now all) = true <-> in_contact me unix (fst p) (snd p) h now)) /\
    all = done ++ strip (t_sched s) /\ (forall i o, get (t_outs s) i = Some o -> o_time o = val i done) /\ Forall (fun y => fst y <= t_now s) done;
  d_live : match t_sched s with [] => live (t_cwait s) = [] | ((t, _), _) :: _ => live (t_cwait s) = [Until t] \/ live (t_cwait s) = [Expired] /\ t <= t_now s end }.
Lemma timed_frame p s s' : timed p s -> t_hops s' = t_hops s -> t_sched s' = t_sched s -> live (t_cwait s') = live (t_cwait s) -> t_now s <= t_now s' ->
  (forall i o', get (t_outs s') i = Some o' -> exists o, get (t_outs s) i = Some o /\ o_time o' = o_time o) -> timed p s'.
Proof.
  intros [(all & done & A & B & C & D & E) L] E1 E2 E3 E4 E5. constructor.
  - exists all, done. rewrite E1, E2. split; [assumption|]. split; [assumption|]. split; [assumption|]. split.
    + intros i o' Ho. destruct (E5 i o' Ho) as (o & Ho' & ->). now apply (D i).
    + eapply Forall_impl; [|exact E]. cbn. intros. lia.
  - rewrite E2, E3. destruct (t_sched s) as [|((t, k), e) r]; [assumption|]. destruct L as [L|(L & L')]; [auto|]. right. split; [assumption|lia].
Qed.
Lemma outs_time s s' i f o : (forall j, option_map (set_dests []) (get (t_outs s') j) = option_map (set_dests []) (if N.eqb j i then Some (f o) else get (t_outs s) j)) ->
  get (t_outs s) i = Some o -> forall j p', get (t_outs s') j = Some p' -> exists p, get (t_outs s) j = Some p /\ o_time p' = if N.eqb j i then o_time (f o) else o_time p.
Proof.
  intros O Hi j p' Hj. specialize (O j). rewrite Hj in O. destruct (N.eqb_spec j i) as [->|].
  - exists o. split; [assumption|]. cbn [option_map] in O. injection O as O1 O2 O3 O4. congruence.
  - destruct (get (t_outs s) j) as [p|]; [|discriminate]. exists p. split; [reflexivity|]. cbn [option_map] in O. injection O as O1 O2 O3 O4. congruence.
Qed.
(** A change of a link that is not by the plan. *)
Lemma timed_link p i f up ord s o s' : inv s -> timed p s -> get (t_outs s) i = Some o -> o_hop (f o) = o_hop o -> o_dests (f o) = o_dests o -> o_time (f o) = o_time o -> (changed o (f o) = true -> is_up (f o) = up) ->
  update_link me mgr order i f up [] ord s = Some s' -> timed p s'.
Proof.
  intros I T Hi Hh Hd Ht Hu E. destruct (update_link_ok me mgr order i f up [] ord s o s' I Hi Hh Hd Hu rates_nil E) as (_ & C & O & _). destruct C.
  apply (timed_frame p s); try assumption; [congruence|lia|]. intros j p' Hj. destruct (outs_time s s' i f o O Hi j p' Hj) as (q & Hq & Eq). exists q. split; [assumption|]. rewrite Eq.
  destruct (N.eqb_spec j i) as [->|]; [congruence|reflexivity].
Qed.
Lemma restart_live p s : t_crun s = false -> live (t_cwait s) = [] -> (exists all done, sorted all /\ (forall h i now, get (t_hops s) h = Some i -> h <> me -> (val i (upto now all) = true <-> in_contact me unix (fst p) (snd p) h now)) /\
    all = done ++ strip (t_sched s) /\ (forall i o, get (t_outs s) i = Some o -> o_time o = val i done) /\ Forall (fun y => fst y <= t_now s) done) -> timed p (restart_contact_timer s).
Proof.
  intros Hc Hl X. unfold restart_contact_timer. rewrite Hc. destruct (t_sched s) as [|((t, k), e) r] eqn:Es.
  - constructor; [rewrite Es; exact X|]. now rewrite Es.
  - constructor; cbn [with_ctimer t_hops t_sched t_outs t_now t_cwait]; rewrite Es; [exact X|]. left. unfold arm. rewrite live_app, live_abort by assumption. reflexivity.
Qed.
Lemma timed_plan p rows ord ord' s : inv s -> timed p s -> Forall row_ok rows -> apart me rows -> ~ In Expired (t_cwait s) -> timed (rows, t_now s) (load_plan me unix rows ord ord' s).
Proof.
  intros I T R A NE. destruct (load_plan_ok me order unix rows ord ord' s I) as (I' & O & _ & x & y & z & v & w & E & E2 & E3).
  destruct (cleared_ok unix ord s I) as (I1 & _ & x1 & y1 & E1). set (s0 := cleared unix ord s) in *.
  assert (H0 : t_hops s0 = t_hops s) by (rewrite E1; reflexivity). assert (P0 : t_epoch s0 = if unix then 0 else t_now s) by (rewrite E1; reflexivity).
  assert (Inj : forall h h' i, get (t_hops s0) h = Some i -> get (t_hops s0) h' = Some i -> h = h').
  { intros h h' i Hh Hh'. apply (v_hop _ I1) in Hh, Hh'. destruct Hh as (o & Ho & <-), Hh' as (o' & Ho' & <-). congruence. }
  destruct (schedule_ok me s0 ltac:(rewrite E1; reflexivity) Inj rows R A) as (_ & _ & [D S Ev V]). rewrite E2, E3 in *.
  assert (O' : forall i o, get (t_outs (load_plan me unix rows ord ord' s)) i = Some o -> o_time o = false).
  { intros i o Ho. specialize (O i). rewrite Ho in O. destruct (get (t_outs s) i); [|discriminate]. cbn [option_map] in O. injection O as _ O _ _. exact O. }
  rewrite E in O' |- *. set (u := mkRt x _ _ _ _ _ _ _ _ _ _ _ _ _ _) in *.
  assert (O2 : forall i o, get (t_outs u) i = Some o -> o_time o = false). { intros i o Ho. apply (O' i). rewrite (w_outs _ _ (twin_contact u)). exact Ho. }
  apply restart_live; [reflexivity|now apply live_abort_until|]. exists (strip z), []. cbn [app]. change (t_sched u) with z. change (t_hops u) with (t_hops s). split; [exact S|]. split.
  { intros h i now Hh Hm. rewrite V. cbn [fst snd]. unfold contact_now, in_contact, mine, at_time. rewrite P0, H0. split.
    - intros (r & Hr & (M1 & M2 & M3) & T1). exists r. split; [assumption|]. split; [assumption|]. split; [|exact T1]. rewrite H0 in Inj. now apply (Inj _ _ i).
    - intros (r & Hr & M1 & <- & T1). exists r. split; [assumption|]. split; [repeat split; assumption|exact T1]. }
  split; [reflexivity|]. split; [exact O2|constructor].
Qed.
Lemma timed_step p s i s' : inv s -> timed p s -> step s i = Some s' ->
  match i with IApi _ _ _ => True | IPlan rows _ _ => Forall row_ok rows -> apart me rows -> ~ In Expired (t_cwait s) -> timed (rows, t_now s) s' | _ => timed p s' end.
Proof.
  intros I T E. destruct i as [i up ord|i up ord|rows ord ord'|node ord|dt|n|n|n ord|n ord]; cbn [M_Router.step] in E.
  - unfold physical in E. destruct (get (t_outs s) i) as [o|] eqn:Ei; [|injection E as <-; assumption].
    apply (timed_link p i (set_phys up) up ord s o); try assumption; try reflexivity. apply phys_up.
  - exact Logic.I.
  - injection E as <-. intros. now apply (timed_plan p).
  - unfold depleted in E. destruct (get (t_hops s) node) as [i|] eqn:En; [|injection E as <-; assumption].
    destruct (proj1 (v_hop _ I node i) En) as (o & Ho & _). destruct (restart_storage_frame (add_expiry i (t_now s + hold * 1000000) s)) as (w & b & Ew). rewrite Ew in E.
    apply (timed_link p i (set_stor false) false ord _ o s') in E; try assumption; try reflexivity.
    + apply (inv_ext s); try reflexivity; assumption.
    + apply (timed_frame p s); try reflexivity; [assumption|]. intros j q Hq. exists q. auto.
    + apply stor_up.
  - injection E as <-. apply (timed_frame p s); try reflexivity; [assumption|cbn; lia|]. intros j q Hq. exists q. auto.
  - injection E as <-. destruct T as [A L]. constructor; [exact A|]. cbn [with_ctimer t_sched t_cwait t_now]. destruct (live_expire (t_now s) n (t_cwait s)) as (X1 & X2 & X3).
    destruct (t_sched s) as [|((t, k), e) r]; [auto|]. destruct L as [L|(L & L')]; [destruct (X1 t L) as [Y|Y]; auto|right; auto].
  - injection E as <-. apply (timed_frame p s); try reflexivity; [assumption|]. intros j q Hq. exists q. auto.
  - destruct (nth_error (t_cwait s) n) as [w|] eqn:En; [|injection E as <-; assumption]. pose proof (live_remove n (t_cwait s) w En) as LR. destruct w as [t| |].
    + injection E as <-. assumption.
    + (* the handler *)
      unfold contact_timer in E. set (x := with_ctimer (with_ctimer s _ _) _ _) in E. destruct T as [(all & done & A & B & C & D & F) L].
      change (t_sched x) with (t_sched s) in E. change (t_outs x) with (t_outs s) in E. destruct (t_sched s) as [|((t, k), e) r] eqn:Es.
      { exfalso. apply nth_error_In in En. assert (X : In Expired (live (t_cwait s))) by (unfold live; apply filter_In; auto). rewrite L in X. destruct X. }
      assert (Lx : live (t_cwait x) = [] /\ t <= t_now s).
      { destruct L as [L|(L & L')]; [destruct (LR _ L); discriminate|]. destruct (LR _ L) as (_ & X). auto. }
      destruct Lx as (Lx & Ht). cbn [strip map fst snd] in C. fold (strip r) in C.
      destruct (get (t_outs s) (e_out e)) as [o|] eqn:Eo.
      * destruct (update_link _ _ _ _ _ _ _ _ x) as [y|] eqn:Ey; [|discriminate]. injection E as <-.
        assert (Ix : inv x) by (apply (inv_ext s); try reflexivity; assumption).
        destruct (update_link_ok me mgr order (e_out e) (set_time (e_up e)) (e_up e) [Rate (e_out e) (e_rate e) (e_up e)] ord x o y Ix Eo eq_refl eq_refl (time_up _ o) (rates_one _ _ _) Ey) as (_ & Cy & Oy & _).
        apply restart_live.
        -- cbn. rewrite (c_crun _ _ Cy). reflexivity.
        -- cbn. rewrite (c_cwait _ _ Cy). exact Lx.
        -- exists all, (done ++ [(t, e)]). cbn [with_sched t_hops t_sched t_outs t_now]. rewrite (c_hops _ _ Cy), (c_now _ _ Cy). split; [assumption|]. split; [exact B|]. split; [rewrite <- app_assoc; exact C|]. split.
           ++ intros j q Hq. destruct (outs_time x y (e_out e) (set_time (e_up e)) o Oy Eo j q Hq) as (q' & Hq' & ->). rewrite val_snoc, (N.eqb_sym (e_out e)). destruct (N.eqb_spec j (e_out e)); [reflexivity|]. now apply (D j).
           ++ apply Forall_app. split; [exact F|]. constructor; [exact Ht|constructor].
      * injection E as <-. apply restart_live; [reflexivity|exact Lx|]. exists all, (done ++ [(t, e)]). cbn [with_sched t_hops t_sched t_outs t_now]. split; [assumption|]. split; [exact B|]. split; [rewrite <- app_assoc; exact C|]. split.
        -- intros j q Hq. rewrite val_snoc. destruct (N.eqb_spec (e_out e) j) as [Ej|]; [change (t_outs x) with (t_outs s) in Hq; congruence|]. now apply (D j).
        -- apply Forall_app. split; [exact F|]. constructor; [exact Ht|constructor].
    + cbn [contact_timer] in E. injection E as <-. apply (timed_frame p s); try reflexivity; [assumption|exact LR|]. intros j q Hq. exists q. auto.
  - destruct (nth_error (t_swait s) n) as [w|]; [|injection E as <-; assumption].
    assert (K : forall b, storage_timer me mgr order b ord (with_stimer s (remove_at n (t_swait s)) (t_srun s)) = Some s' -> timed p s').
    { intros b. unfold storage_timer. set (x := with_stimer (with_stimer s _ _) _ _).
      assert (Fr : forall w b, timed p (with_stimer x w b)). { intros w0 b0. apply (timed_frame p s); try reflexivity; [assumption|]. intros j q Hq. exists q. auto. }
      assert (Ix : forall w b, inv (with_stimer x w b)) by (intros; apply (inv_ext s); try reflexivity; assumption).
      destruct b; [intros X; injection X as <-; apply (Fr (t_swait x) (t_srun x))|]. destruct (t_stor x) as [|((t, c), i) r]; [intros X; injection X as <-; apply (Fr (t_swait x) (t_srun x))|].
      assert (Ey : exists w0 b0, (if N.ltb (t_now x) t then restart_storage_timer x else x) = with_stimer x w0 b0).
      { destruct (N.ltb (t_now x) t); [apply restart_storage_frame|]. exists (t_swait x), (t_srun x). reflexivity. }
      destruct Ey as (w0 & b0 & ->). destruct (update_link _ _ _ _ _ _ _ _ _) as [z|] eqn:Ez; [|discriminate]. intros X. injection X as <-.
      destruct (get (t_outs (with_stimer x w0 b0)) i) as [o|] eqn:Eo; [|unfold update_link in Ez; rewrite Eo in Ez; discriminate].
      assert (Tz : timed p z). { apply (timed_link p i (set_stor true) true ord (with_stimer x w0 b0) o); try reflexivity; auto. apply stor_up. }
      destruct (restart_storage_frame (with_stor z r)) as (w1 & b1 & ->). apply (timed_frame p z); try reflexivity; [assumption|]. intros j q Hq. exists q. auto. }
    destruct w; [injection E as <-; assumption|now apply (K false)|now apply (K true)].
Qed.
Lemma timed_run (good : list row -> Prop) l : (forall rows, good rows -> apart me rows) -> forall p s s', inv s -> timed p s -> orderly false good step s l -> run me unix mgr order hold s l = Some s' -> timed (in_force (t_now s) p l) s'.
Proof.
  intros G. induction l as [|i l IH]; intros p s s' I T O E; cbn [run] in E; [injection E as <-; assumption|]. cbn [orderly] in O. destruct (step s i) as [x|] eqn:Es; [|discriminate].
  destruct O as (Oi & O). pose proof (timed_step p s i x I T Es) as Tx. destruct (step_still me unix mgr order hold s i x I Es) as (Ix & St).
  destruct i; cbn [in_force]; try (destruct St as (_ & St); rewrite <- St; now apply IH).
  - destruct Oi as (O1 & O2 & [O3|O3]); [discriminate|]. specialize (Tx O1 (G _ O2) O3). assert (Nx : t_now x = t_now s).
    { cbn [M_Router.step] in Es. injection Es as <-. destruct (load_plan_ok me order unix rows ord ord' s I) as (_ & _ & _ & a & b & c & d & e & E1 & _). rewrite E1. rewrite (w_now _ _ (twin_contact _)). reflexivity. }
    rewrite <- Nx in *. now apply IH.
  - subst x. now apply (IH p (with_now s (t_now s + dt))).
Qed.
Lemma populate_time telem : forall s, (forall i o, get (t_outs s) i = Some o -> o_time o = false /\ o_stor o = true) -> NoDup (map (fun x => fst (fst x)) telem) -> (forall i, get (t_outs s) i <> None -> ~ In i (map (fun x => fst (fst x)) telem)) ->
  forall i o, get (t_outs (populate telem s)) i = Some o -> o_time o = false /\ o_stor o = true.
Proof.
  induction telem as [|((i, h), dn) r IH]; intros s H ND Hi; [exact H|]. cbn [populate map fst snd] in *. inversion ND; subst.
  assert (G : get (t_outs s) i = None). { destruct (get (t_outs s) i) eqn:E; [|reflexivity]. exfalso. apply (Hi i); [congruence|now left]. }
  apply IH; cbn [t_outs]; try assumption.
  - intros j o. rewrite insert_get by assumption. destruct (N.eqb j i); [intros X; injection X as <-; auto|apply H].
  - intros j. rewrite insert_get by assumption. destruct (N.eqb_spec j i) as [->|]; [auto|]. intros X Y. apply (Hi j X). now right.
Qed.
Lemma start_timed now telem : telem_ok telem -> timed ([], now) (start now telem).
Proof.
  intros (T1 & _). assert (P : forall i o, get (t_outs (start now telem)) i = Some o -> o_time o = false).
  { intros i o Ho. apply (populate_time telem) in Ho; [tauto|cbn; discriminate|assumption|cbn; tauto]. }
  destruct (populate_fields telem (mkRt [] [] [] [] 0 [] [] false 0 0 [] [] false now [])) as (_ & _ & _ & _ & _ & X1 & X2 & _). constructor.
  - exists [], []. unfold start in *. rewrite X1. split; [exact Logic.I|]. split; [|split; [reflexivity|split; [intros i o Ho; now rewrite (P i o Ho)|constructor]]].
    intros h i nw _ _. cbn. split; [discriminate|]. intros (r & [] & _).
  - unfold start. rewrite X1, X2. reflexivity.
Qed.
End Timed.
