(** Lemmas for P_RouterTimer: no event is forgotten, and links are held down after reports of full storage. *)
From Coq Require Import NArith ZArith List Bool Sorted Lia ZifyBool ZifyN.
From Verif Require Import Base M_Cgr M_Router S_Router S_RouterTimer L_Router L_RouterStep L_RouterGood L_RouterTimer L_RouterTime.
Import ListNotations.
Open Scope N_scope.

(** * Keys in order *)
Definition kle (a b : key) : Prop := key_lt b a = false.
Lemma kle_time a b : kle a b -> fst a <= fst b.
Proof. unfold kle, key_lt. destruct (N.eqb_spec (fst b) (fst a)); lia. Qed.
Lemma kle_trans a b c : kle a b -> kle b c -> kle a c.
Proof. unfold kle, key_lt. destruct (N.eqb_spec (fst b) (fst a)), (N.eqb_spec (fst c) (fst b)), (N.eqb_spec (fst c) (fst a)); lia. Qed.
Lemma kle_lt a b : key_lt a b = true -> kle a b.
Proof. unfold kle, key_lt. destruct (N.eqb_spec (fst a) (fst b)), (N.eqb_spec (fst b) (fst a)); lia. Qed.
Definition ksorted {A} (l : list (key * A)) : Prop := StronglySorted (fun x y => kle (fst x) (fst y)) l.
Lemma put_in {A} k (x : A) l y : In y (put k x l) <-> y = (k, x) \/ In y l.
Proof. induction l as [|(k', z) l IH]; cbn [put In]; [intuition|]. destruct (key_lt k k'); cbn [In]; [intuition|]. rewrite IH. intuition. Qed.
Lemma put_sorted {A} k (x : A) l : ksorted l -> ksorted (put k x l).
Proof.
  unfold ksorted. induction l as [|(k', z) l IH]; cbn [put]; intros H; [repeat constructor|]. inversion H; subst. destruct (key_lt k k') eqn:E.
  - constructor; [assumption|]. constructor; [now apply kle_lt|]. eapply Forall_impl; [|eassumption]. cbn. intros a Ha. exact (kle_trans _ _ _ (kle_lt _ _ E) Ha).
  - constructor; [auto|]. rewrite Forall_forall in *. intros y Hy. apply put_in in Hy. destruct Hy as [->|Hy]; [exact E|now apply H3].
Qed.
Lemma filter_sorted {A} (f : key * A -> bool) l : ksorted l -> ksorted (filter f l).
Proof.
  unfold ksorted. induction 1 as [|x l H IH F]; cbn [filter]; [constructor|]. destruct (f x); [|assumption]. constructor; [assumption|]. rewrite Forall_forall in *. intros y Hy. apply filter_In in Hy. now apply F.
Qed.
Lemma head_first {A} t k (x : A) l t' k' y : ksorted (((t, k), x) :: l) -> In ((t', k'), y) (((t, k), x) :: l) -> t <= t'.
Proof. intros H [X|X]; [injection X as -> -> ->; lia|]. inversion H; subst. rewrite Forall_forall in H3. apply H3 in X. apply kle_time in X. exact X. Qed.
Lemma free_key_time {A} (l : list (key * A)) t f i : fst (free_key l t f i) = t.
Proof. revert i. induction f as [|f IH]; intros i; cbn [free_key]; [reflexivity|]. destruct (existsb _ l); [apply IH|reflexivity]. Qed.

(** * No event is forgotten *)
Section Armed.
Variable me : N. Variable unix mgr : bool. Variable order : N -> list N. Variable hold : N.
Notation step := (step me unix mgr order hold).
Record armed (s : rt) : Prop := {
  a_sorted : ksorted (t_sched s);
  a_wait : match t_sched s with [] => True | ((t, _), _) :: _ => In (Until t) (t_cwait s) \/ In Expired (t_cwait s) end }.
Lemma armed_frame s s' : armed s -> t_sched s' = t_sched s -> (forall w, In w (t_cwait s) -> w = Aborted \/ In w (t_cwait s')) -> armed s'.
Proof.
  intros [A B] E H. constructor; rewrite E; [assumption|]. destruct (t_sched s) as [|((t, k), e) r]; [exact Logic.I|]. destruct B as [B|B]; apply H in B; destruct B as [B|B]; try discriminate; auto.
Qed.
Lemma armed_restart s : ksorted (t_sched s) -> t_crun s = false -> armed (restart_contact_timer s).
Proof.
  intros S C. unfold restart_contact_timer. rewrite C. destruct (t_sched s) as [|((t, k), e) r] eqn:Es.
  - constructor; rewrite Es; [constructor|exact Logic.I].
  - constructor; cbn [with_ctimer t_sched t_cwait]; rewrite Es; [assumption|]. left. unfold arm. apply in_or_app. right. now left.
Qed.
Lemma armed_link i f up pre ord s o s' : inv s -> armed s -> get (t_outs s) i = Some o -> o_hop (f o) = o_hop o -> o_dests (f o) = o_dests o -> (changed o (f o) = true -> is_up (f o) = up) -> rates_only pre ->
  update_link me mgr order i f up pre ord s = Some s' -> armed s'.
Proof.
  intros I T Hi Hh Hd Hu Hr E. destruct (update_link_ok me mgr order i f up pre ord s o s' I Hi Hh Hd Hu Hr E) as (_ & C & _). destruct C.
  apply (armed_frame s); [assumption..|]. intros w Hw. right. now rewrite c_cwait.
Qed.
Lemma rows_sorted rows : forall s, ksorted (t_sched s) -> ksorted (t_sched (fold_left (add_row me) rows s)).
Proof.
  assert (E : forall t e s s', ksorted (t_sched s) -> add_event t e s = Some s' -> ksorted (t_sched s')).
  { intros t e s s' S H. unfold add_event in H. destruct (existsb _ _); [discriminate|]. injection H as <-. now apply put_sorted. }
  induction rows as [|w rows IH]; intros s S; [assumption|]. cbn [fold_left]. apply IH. unfold add_row. destruct (N.eqb _ me); [assumption|]. destruct (negb _); [assumption|]. destruct (get _ _) as [i|]; [|assumption].
  unfold add_contact. destruct (add_event _ _ _) as [s1|] eqn:E1; [|assumption]. apply E in E1; [|assumption]. destruct (add_event _ _ s1) as [s2|] eqn:E2; [|assumption]. now apply E in E2.
Qed.
Lemma armed_step s i s' : inv s -> armed s -> step s i = Some s' -> armed s'.
Proof.
  intros I T E. destruct i as [i up ord|i up ord|rows ord ord'|node ord|dt|n|n|n ord|n ord]; cbn [M_Router.step] in E.
  - unfold physical in E. destruct (get (t_outs s) i) as [o|] eqn:Ei; [|injection E as <-; assumption].
    exact (armed_link i (set_phys up) up [] ord s o s' I T Ei eq_refl eq_refl (phys_up up o) rates_nil E).
  - unfold api in E. destruct (get (t_outs s) i) as [o|] eqn:Ei; [|injection E as <-; assumption].
    exact (armed_link i (set_time up) up [] ord s o s' I T Ei eq_refl eq_refl (time_up up o) rates_nil E).
  - injection E as <-. destruct (load_plan_ok me order unix rows ord ord' s I) as (_ & _ & _ & x & y & z & v & w & -> & E2 & <-). apply armed_restart; [|reflexivity]. cbn [t_sched]. rewrite <- E2. apply rows_sorted.
    destruct (cleared_ok unix ord s I) as (_ & _ & x1 & y1 & ->). constructor.
  - unfold depleted in E. destruct (get (t_hops s) node) as [i|] eqn:En; [|injection E as <-; assumption].
    destruct (proj1 (v_hop _ I node i) En) as (o & Ho & _). destruct (restart_storage_frame (add_expiry i (t_now s + hold * 1000000) s)) as (w & b & Ew). rewrite Ew in E.
    refine (armed_link i (set_stor false) false [] ord (with_stimer (add_expiry i (t_now s + hold * 1000000) s) w b) o s' _ _ Ho eq_refl eq_refl (stor_up false o) rates_nil E).
    + apply (inv_ext s); try reflexivity; assumption.
    + apply (armed_frame s); [assumption|reflexivity|]. intros u Hu. now right.
  - injection E as <-. apply (armed_frame s); [assumption|reflexivity|]. intros u Hu. now right.
  - injection E as <-. destruct T as [A B]. constructor; [exact A|]. cbn [with_ctimer t_sched t_cwait].
    destruct (t_sched s) as [|((t, k), e) r]; [exact Logic.I|]. unfold expire. destruct (nth_error (t_cwait s) n) as [[u| |]|] eqn:En; try exact B. destruct (N.leb u (t_now s)); [|exact B]. right. apply in_or_app. right. now left.
  - injection E as <-. apply (armed_frame s); [assumption|reflexivity|]. intros u Hu. now right.
  - destruct (nth_error (t_cwait s) n) as [w|] eqn:En; [|injection E as <-; assumption]. destruct w as [t| |].
    + injection E as <-. assumption.
    + unfold contact_timer in E. set (x := with_ctimer (with_ctimer s _ _) _ _) in E. change (t_sched x) with (t_sched s) in E. change (t_outs x) with (t_outs s) in E. destruct T as [A B].
      destruct (t_sched s) as [|((t, k), e) r] eqn:Es. { injection E as <-. constructor; cbn; rewrite Es; [constructor|exact Logic.I]. }
      assert (Sr : ksorted r) by (inversion A; assumption).
      destruct (get (t_outs s) (e_out e)) as [o|] eqn:Eo.
      * destruct (update_link _ _ _ _ _ _ _ _ x) as [y|] eqn:Ey; [|discriminate]. injection E as <-.
        assert (Ix : inv x) by (apply (inv_ext s); try reflexivity; assumption).
        destruct (update_link_ok me mgr order (e_out e) (set_time (e_up e)) (e_up e) [Rate (e_out e) (e_rate e) (e_up e)] ord x o y Ix Eo eq_refl eq_refl (time_up _ o) (rates_one _ _ _) Ey) as (_ & Cy & _).
        apply armed_restart; [exact Sr|]. cbn. rewrite (c_crun _ _ Cy). reflexivity.
      * injection E as <-. now apply armed_restart.
    + injection E as <-. apply (armed_frame s); [assumption|reflexivity|]. intros w Hw. cbn [with_ctimer t_cwait]. destruct (nth_split_at n _ _ En) as (E1 & E2). rewrite E2. rewrite E1 in Hw. apply in_app_or in Hw.
      destruct Hw as [Hw|[Hw|Hw]]; [right; apply in_or_app; auto|auto|right; apply in_or_app; auto].
  - destruct (nth_error (t_swait s) n) as [w|]; [|injection E as <-; assumption].
    assert (K : forall b, storage_timer me mgr order b ord (with_stimer s (remove_at n (t_swait s)) (t_srun s)) = Some s' -> armed s').
    { intros b. unfold storage_timer. set (x := with_stimer (with_stimer s _ _) _ _).
      assert (Fr : forall w b, armed (with_stimer x w b)). { intros w0 b0. apply (armed_frame s); [assumption|reflexivity|]. intros u Hu. now right. }
      assert (Ix : forall w b, inv (with_stimer x w b)) by (intros; apply (inv_ext s); try reflexivity; assumption).
      destruct b; [intros X; injection X as <-; apply (Fr (t_swait x) (t_srun x))|]. destruct (t_stor x) as [|((t, c), i) r]; [intros X; injection X as <-; apply (Fr (t_swait x) (t_srun x))|].
      assert (Ey : exists w0 b0, (if N.ltb (t_now x) t then restart_storage_timer x else x) = with_stimer x w0 b0).
      { destruct (N.ltb (t_now x) t); [apply restart_storage_frame|]. exists (t_swait x), (t_srun x). reflexivity. }
      destruct Ey as (w0 & b0 & ->). destruct (update_link _ _ _ _ _ _ _ _ _) as [z|] eqn:Ez; [|discriminate]. intros X. injection X as <-.
      destruct (get (t_outs (with_stimer x w0 b0)) i) as [o|] eqn:Eo; [|unfold update_link in Ez; rewrite Eo in Ez; discriminate].
      assert (Tz : armed z) by exact (armed_link i (set_stor true) true [] ord _ o z (Ix _ _) (Fr _ _) Eo eq_refl eq_refl (stor_up true o) rates_nil Ez).
      destruct (restart_storage_frame (with_stor z r)) as (w1 & b1 & ->). apply (armed_frame z); [assumption|reflexivity|]. intros u Hu. now right. }
    destruct w; [injection E as <-; assumption|now apply (K false)|now apply (K true)].
Qed.
Lemma armed_run l : forall s s', inv s -> armed s -> run me unix mgr order hold s l = Some s' -> armed s'.
Proof.
  induction l as [|i l IH]; intros s s' I T E; cbn [run] in E; [injection E as <-; assumption|]. destruct (step s i) as [x|] eqn:Es; [|discriminate].
  refine (IH x s' _ (armed_step s i x I T Es) E). apply (step_still me unix mgr order hold s i x I Es).
Qed.
Lemma start_armed now telem : armed (start now telem).
Proof. destruct (populate_fields telem (mkRt [] [] [] [] 0 [] [] false 0 0 [] [] false now [])) as (_ & _ & _ & _ & _ & X1 & _). constructor; unfold start; rewrite X1; [constructor|exact Logic.I]. Qed.
End Armed.

(** * Storage *)
Section Stored.
Variable me : N. Variable unix mgr : bool. Variable order : N -> list N. Variable hold : N.
Notation step := (step me unix mgr order hold).
Notation span := (hold * 1000000).
(** [rep] has the times of the last reports. *)
Record stored (rep : N -> option N) (s : rt) : Prop := {
  st_sorted : ksorted (t_stor s);
  st_one : NoDup (map snd (t_stor s));
  st_out : forall i o, get (t_outs s) i = Some o -> (o_stor o = false <-> In i (map snd (t_stor s)));
  st_all : forall t k i, In ((t, k), i) (t_stor s) -> exists o r, get (t_outs s) i = Some o /\ rep (o_hop o) = Some r /\ t = r + span /\ r <= t_now s;
  st_wait : t_swait s = [] /\ t_srun s = false /\ t_stor s = [] \/
    t_srun s = true /\ (t_swait s = [Expired] \/ exists t, t_swait s = [Until t] /\ t <= t_now s + span /\ forall t' k i, In ((t', k), i) (t_stor s) -> t <= t') }.
(** With no report from a neighbour known to be full, besides: *)
Record single (rep : N -> option N) (s : rt) : Prop := {
  sg_wait : match t_swait s with [Until t] => exists k i, In ((t, k), i) (t_stor s) | [Expired] => exists t k i, In ((t, k), i) (t_stor s) /\ t <= t_now s | _ => True end;
  sg_up : forall i o, get (t_outs s) i = Some o -> o_stor o = true -> match rep (o_hop o) with None => True | Some r => r + span <= t_now s end }.
Lemma stored_frame rep s s' : stored rep s -> t_stor s' = t_stor s -> t_swait s' = t_swait s -> t_srun s' = t_srun s -> t_now s <= t_now s' ->
  (forall i, option_map (fun o => (o_hop o, o_stor o)) (get (t_outs s') i) = option_map (fun o => (o_hop o, o_stor o)) (get (t_outs s) i)) -> stored rep s' /\ (single rep s -> single rep s').
Proof.
  intros [A B C D W] E1 E2 E3 E4 E5.
  assert (O : forall i o', get (t_outs s') i = Some o' -> exists o, get (t_outs s) i = Some o /\ o_hop o' = o_hop o /\ o_stor o' = o_stor o).
  { intros i o' H. specialize (E5 i). rewrite H in E5. destruct (get (t_outs s) i) as [o|]; [|discriminate]. injection E5 as X Y. eauto. }
  split.
  - constructor; rewrite ?E1, ?E2, ?E3; try assumption.
    + intros i o' H. destruct (O i o' H) as (o & Ho & _ & ->). now apply C.
    + intros t k i H. destruct (D t k i H) as (o & r & Ho & Hr & Ht & Hn). specialize (E5 i). rewrite Ho in E5. destruct (get (t_outs s') i) as [o'|] eqn:Eo; [|discriminate]. injection E5 as X Y. exists o', r. rewrite X. split; [reflexivity|]. split; [assumption|]. split; [assumption|lia].
    + destruct W as [W|(W1 & [W|(t & W & W' & W'')])]; [auto|auto|]. right. split; [assumption|]. right. exists t. split; [assumption|]. split; [lia|assumption].
  - intros [S1 S2]. constructor.
    + rewrite E1, E2. destruct (t_swait s) as [|[t| |] [|? ?]]; try exact S1. destruct S1 as (t & k & i & X & Y). exists t, k, i. split; [assumption|lia].
    + intros i o' H Hs. destruct (O i o' H) as (o & Ho & X & Y). rewrite X. rewrite Y in Hs. specialize (S2 i o Ho Hs). destruct (rep (o_hop o)); [lia|exact Logic.I].
Qed.
Lemma outs_rest s s' i f o : (forall j, option_map (set_dests []) (get (t_outs s') j) = option_map (set_dests []) (if N.eqb j i then Some (f o) else get (t_outs s) j)) ->
  get (t_outs s) i = Some o -> o_hop (f o) = o_hop o -> forall j, option_map (fun o => (o_hop o, o_stor o)) (get (t_outs s') j) = option_map (fun p => (o_hop p, if N.eqb j i then o_stor (f o) else o_stor p)) (get (t_outs s) j).
Proof.
  intros O Hi Hh j. specialize (O j). destruct (N.eqb_spec j i) as [Ej|Ej]; [subst j|].
  - rewrite Hi. destruct (get (t_outs s') i) as [p|]; [|discriminate]. cbn [option_map] in *. injection O as O1 O2 O3 O4. rewrite O1, O4, Hh. reflexivity.
  - destruct (get (t_outs s') j) as [p|], (get (t_outs s) j) as [q|]; try discriminate; [|reflexivity]. cbn [option_map] in *. injection O as O1 O2 O3 O4. rewrite O1, O4. reflexivity.
Qed.
Lemma stored_link rep i f up pre ord s o s' : inv s -> stored rep s -> get (t_outs s) i = Some o -> o_hop (f o) = o_hop o -> o_dests (f o) = o_dests o -> o_stor (f o) = o_stor o -> (changed o (f o) = true -> is_up (f o) = up) -> rates_only pre ->
  update_link me mgr order i f up pre ord s = Some s' -> stored rep s' /\ (single rep s -> single rep s').
Proof.
  intros I T Hi Hh Hd Hs Hu Hr E. destruct (update_link_ok me mgr order i f up pre ord s o s' I Hi Hh Hd Hu Hr E) as (_ & C & O & _). destruct C.
  apply stored_frame; [assumption..|lia|]. intros j. rewrite (outs_rest s s' i f o O Hi Hh j). destruct (N.eqb_spec j i) as [->|]; [rewrite Hi; cbn [option_map]; now rewrite Hs|reflexivity].
Qed.
Definition report (rep : N -> option N) (now node : N) (h : N) : option N := if N.eqb node h then Some now else rep h.
Definition rep_step (rep : N -> option N) (now : N) (i : input) : N -> option N := match i with IDepleted node _ => report rep now node | _ => rep end.
Lemma stored_step rep s i s' : inv s -> stored rep s -> step s i = Some s' ->
  stored (rep_step rep (t_now s) i) s' /\
  (match i with IDepleted node _ => forall j o, get (t_outs s) j = Some o -> o_hop o = node -> o_stor o = true | _ => True end -> single rep s -> single (rep_step rep (t_now s) i) s').
Proof.
  intros I T E. destruct i as [i up ord|i up ord|rows ord ord'|node ord|dt|n|n|n ord|n ord]; cbn [M_Router.step] in E; cbn [rep_step].
  - unfold physical in E. destruct (get (t_outs s) i) as [o|] eqn:Ei; [|injection E as <-; auto].
    destruct (stored_link rep i (set_phys up) up [] ord s o s' I T Ei eq_refl eq_refl eq_refl (phys_up up o) rates_nil E). auto.
  - unfold api in E. destruct (get (t_outs s) i) as [o|] eqn:Ei; [|injection E as <-; auto].
    destruct (stored_link rep i (set_time up) up [] ord s o s' I T Ei eq_refl eq_refl eq_refl (time_up up o) rates_nil E). auto.
  - injection E as <-. destruct (load_plan_ok me order unix rows ord ord' s I) as (_ & O & _ & x & y & z & v & w & E1 & _).
    assert (G : stored rep (load_plan me unix rows ord ord' s) /\ (single rep s -> single rep (load_plan me unix rows ord ord' s))); [|destruct G; auto].
    apply stored_frame; [assumption|..].
    + rewrite E1. destruct (restart_contact_frame (mkRt x (t_hops s) y (map load_row (filter (routing_row me s) rows)) (t_latest s) z (map abort (t_cwait s)) false (if unix then 0 else t_now s) (if unix then 0 else t_now s / 1000000) (t_stor s) (t_swait s) (t_srun s) (t_now s) v)) as (a & b & ->). reflexivity.
    + rewrite E1. destruct (restart_contact_frame (mkRt x (t_hops s) y (map load_row (filter (routing_row me s) rows)) (t_latest s) z (map abort (t_cwait s)) false (if unix then 0 else t_now s) (if unix then 0 else t_now s / 1000000) (t_stor s) (t_swait s) (t_srun s) (t_now s) v)) as (a & b & ->). reflexivity.
    + rewrite E1. destruct (restart_contact_frame (mkRt x (t_hops s) y (map load_row (filter (routing_row me s) rows)) (t_latest s) z (map abort (t_cwait s)) false (if unix then 0 else t_now s) (if unix then 0 else t_now s / 1000000) (t_stor s) (t_swait s) (t_srun s) (t_now s) v)) as (a & b & ->). reflexivity.
    + rewrite E1. rewrite (w_now _ _ (twin_contact _)). cbn. lia.
    + intros i. specialize (O i). destruct (get (t_outs (load_plan me unix rows ord ord' s)) i) as [p|], (get (t_outs s) i) as [q|]; try discriminate; [|reflexivity]. cbn [option_map] in *. injection O as O1 O2 O3 O4. now rewrite O1, O4.
  - unfold depleted in E. destruct (get (t_hops s) node) as [i|] eqn:En.
    2:{ injection E as <-. assert (Z : forall i o, get (t_outs s) i = Some o -> report rep (t_now s) node (o_hop o) = rep (o_hop o)).
        { intros i o Ho. unfold report. destruct (N.eqb_spec node (o_hop o)) as [->|]; [|reflexivity]. assert (X : get (t_hops s) (o_hop o) = Some i) by (apply (v_hop _ I); eauto). congruence. }
        destruct T as [A B C D W]. split.
        - constructor; try assumption. intros t k i H. destruct (D t k i H) as (o & r & Ho & X). exists o, r. rewrite (Z i o Ho). auto.
        - intros _ [S1 S2]. constructor; [assumption|]. intros i o Ho. rewrite (Z i o Ho). now apply (S2 i). }
    destruct (proj1 (v_hop _ I node i) En) as (o & Ho & Hn). destruct T as [A B C D W].
    set (x := add_expiry i (t_now s + span) s) in E.
    assert (Fx : exists w0 b0, restart_storage_timer x = with_stimer x w0 b0) by apply restart_storage_frame. destruct Fx as (w0 & b0 & Ex). rewrite Ex in E.
    assert (Ix : inv (with_stimer x w0 b0)) by (apply (inv_ext s); try reflexivity; assumption).
    destruct (update_link_ok me mgr order i (set_stor false) false [] ord _ o s' Ix Ho eq_refl eq_refl (stor_up false o) rates_nil E) as (_ & Cm & O & _).
    pose proof (outs_rest _ _ i (set_stor false) o O Ho eq_refl) as OR. change (t_outs (with_stimer x w0 b0)) with (t_outs s) in OR. clear O E.
    assert (Old : forall j o', get (t_outs s') j = Some o' -> exists p, get (t_outs s) j = Some p /\ o_hop o' = o_hop p /\ o_stor o' = if N.eqb j i then false else o_stor p).
    { intros j o' H. specialize (OR j). rewrite H in OR. destruct (get (t_outs s) j) as [p|]; [|discriminate]. injection OR as X Y. eauto. }
    assert (New : forall j p, get (t_outs s) j = Some p -> exists o', get (t_outs s') j = Some o' /\ o_hop o' = o_hop p).
    { intros j p H. specialize (OR j). rewrite H in OR. destruct (get (t_outs s') j) as [o'|]; [|discriminate]. injection OR as X Y. eauto. }
    assert (St : forall y, In y (t_stor x) <-> y = (fst (free_key (t_stor s) (t_now s + span) (S (length (t_stor s))) 0), snd (free_key (t_stor s) (t_now s + span) (S (length (t_stor s))) 0), i) \/ In y (t_stor s) /\ snd y <> i).
    { intros y. unfold x, add_expiry. cbn [with_stor t_stor]. rewrite put_in, filter_In, negb_true_iff, N.eqb_neq, <- surjective_pairing. tauto. }
    set (kk := snd (free_key _ _ _ _)) in St. rewrite free_key_time in St.
    assert (Ix2 : forall j, In j (map snd (t_stor x)) <-> j = i \/ In j (map snd (t_stor s))).
    { intros j. rewrite !in_map_iff. split.
      - intros (y & <- & H). apply St in H. destruct H as [->|(H & _)]; [now left|right; eauto].
      - intros [->|(y & <- & H)]; [eexists; split; [|apply St; now left]; reflexivity|]. destruct (N.eq_dec (snd y) i) as [Hy|Hy]; [|exists y; split; [reflexivity|apply St; auto]].
        rewrite Hy. eexists. split; [|apply St; now left]. reflexivity. }
    assert (Hop : forall j p, get (t_outs s) j = Some p -> o_hop p = node -> j = i). { intros j p Hj X. assert (Y : get (t_hops s) node = Some j) by (apply (v_hop _ I); eauto). congruence. }
    assert (Wx : b0 = true /\ (w0 = [Expired] /\ t_swait s = [Expired] \/ exists t, w0 = [Until t] /\ t <= t_now s + span /\ (forall t' k j, In ((t', k), j) (t_stor x) -> t <= t') /\ (t_swait s = [Until t] \/ exists k j, In ((t, k), j) (t_stor x)))).
    { unfold restart_storage_timer in Ex. change (t_srun x) with (t_srun s) in Ex. change (t_swait x) with (t_swait s) in Ex.
      assert (Sx : ksorted (t_stor x)) by (apply put_sorted, filter_sorted, A).
      destruct W as [(W1 & W2 & W3)|(W1 & W2)].
      - rewrite W1, W2 in Ex. destruct (t_stor x) as [|((t, k), j) r] eqn:Es.
        + exfalso. apply (proj2 (St (t_now s + span, kk, i))). now left.
        + assert (X : b0 = true /\ w0 = [Until t]). { pose proof (f_equal t_srun Ex) as X. pose proof (f_equal t_swait Ex) as Y. cbn in X, Y. split; congruence. } destruct X as (-> & ->). split; [reflexivity|]. right. exists t. split; [reflexivity|]. split.
          * assert (X : In ((t, k), j) (((t, k), j) :: r)) by now left. apply St in X. destruct X as [X|(X & _)]; [injection X as -> _ _; lia|]. rewrite W3 in X. destruct X.
          * split; [intros t' k' j' H; eapply head_first; eassumption|]. right. exists k, j. now left.
      - rewrite W1 in Ex. assert (X : b0 = true /\ w0 = t_swait s). { pose proof (f_equal t_srun Ex) as X. pose proof (f_equal t_swait Ex) as Y. cbn in X, Y. split; congruence. } destruct X as (-> & ->). split; [reflexivity|].
        destruct W2 as [W2|(t & W2 & W3 & W4)]; [auto|]. right. exists t. split; [assumption|]. split; [assumption|]. split; [|auto]. intros t' k j H. apply St in H. destruct H as [H|(H & _)]; [injection H as -> _ _; lia|eauto]. }
    destruct Wx as (-> & Wx). pose proof (c_stor _ _ Cm) as E1. pose proof (c_swait _ _ Cm) as E2. pose proof (c_srun _ _ Cm) as E3. pose proof (c_now _ _ Cm) as E4. cbn [with_stimer t_stor t_swait t_srun] in E1, E2, E3. change (t_now (with_stimer x w0 true)) with (t_now s) in E4.
    split.
    + constructor; rewrite ?E1, ?E2, ?E3, ?E4.
      * apply put_sorted, filter_sorted, A.
      * unfold x, add_expiry. cbn [with_stor t_stor]. generalize (free_key (t_stor s) (t_now s + span) (S (length (t_stor s))) 0). intros kx. clear - B.
        assert (F : forall l, NoDup (map snd l) -> NoDup (map snd (filter (fun y => negb (N.eqb (@snd key N y) i)) l)) /\ ~ In i (map snd (filter (fun y => negb (N.eqb (@snd key N y) i)) l)) ).
        { induction l as [|(k, j) l IH]; cbn [map snd filter]; intros H; [split; [constructor|intros []]|]. inversion H; subst. destruct (IH H3) as (X & Y). destruct (N.eqb_spec j i); cbn [negb]; [auto|]. cbn [map snd]. split.
          - constructor; [|assumption]. intros Z. apply H2. apply in_map_iff in Z. destruct Z as (y & <- & Z). apply filter_In in Z. apply in_map. tauto.
          - intros [Z|Z]; [congruence|auto]. }
        destruct (F _ B) as (X & Y). revert X Y. generalize (filter (fun y : key * N => negb (N.eqb (snd y) i)) (t_stor s)). intros l. induction l as [|(k, j) l IH]; cbn [put map snd]; intros X Y; [repeat constructor; intros []|].
        inversion X; subst. destruct (key_lt kx k); cbn [map snd]; [constructor; [exact Y|constructor; assumption]|]. constructor; [|apply IH; [assumption|intros Z; apply Y; now right]].
        intros Z. apply in_map_iff in Z. destruct Z as (y & <- & Z). apply put_in in Z. destruct Z as [->|Z]; [apply Y; now left|]. apply H1. now apply in_map.
      * intros j o' H. destruct (Old j o' H) as (p & Hp & X & ->). rewrite Ix2. destruct (N.eqb_spec j i) as [->|Hj]; [tauto|]. rewrite (C j p Hp). split; [auto|]. intros [Z|Z]; [contradiction|assumption].
      * intros t k j H. apply St in H. destruct H as [H|(H & Hj)].
        -- injection H as -> -> ->. destruct (New i o Ho) as (o' & Ho' & Hh). exists o', (t_now s). split; [assumption|]. split; [unfold report; rewrite Hh, Hn, N.eqb_refl; reflexivity|]. split; [reflexivity|lia].
        -- destruct (D t k j H) as (p & r & Hp & Hr & Ht & Hl). destruct (New j p Hp) as (o' & Ho' & Hh). exists o', r. split; [assumption|]. split; [|auto]. unfold report. rewrite Hh. destruct (N.eqb_spec node (o_hop p)) as [Z|]; [|assumption].
           exfalso. apply Hj. cbn [snd]. apply (Hop j p Hp). now symmetry.
      * right. split; [reflexivity|]. destruct Wx as [(-> & _)|(t & -> & X & Y & _)]; [auto|]. right. exists t. auto.
    + intros Sg [S1 S2]. specialize (Sg i o Ho Hn). assert (Ni : ~ In i (map snd (t_stor s))). { intros X. apply (C i o Ho) in X. congruence. }
      assert (Keep : forall t k j, In ((t, k), j) (t_stor s) -> In ((t, k), j) (t_stor x)). { intros t k j H. apply St. right. split; [assumption|]. cbn [snd]. intros ->. apply Ni. apply in_map_iff. exists ((t, k), i). auto. }
      constructor; rewrite ?E1, ?E2, ?E4.
      * destruct Wx as [(-> & X)|(t & -> & _ & _ & X)].
        -- rewrite X in S1. destruct S1 as (t & k & j & H & Hl). exists t, k, j. split; [now apply Keep|assumption].
        -- destruct X as [X|X]; [|exact X]. rewrite X in S1. destruct S1 as (k & j & H). exists k, j. now apply Keep.
      * intros j o' H Hs. destruct (Old j o' H) as (p & Hp & Hh & X). rewrite X in Hs. destruct (N.eqb_spec j i) as [|Hj]; [discriminate|]. rewrite Hh. unfold report. destruct (N.eqb_spec node (o_hop p)) as [Z|]; [exfalso; apply Hj; apply (Hop j p Hp); now symmetry|]. now apply (S2 j).
  - injection E as <-. assert (G : stored rep (with_now s (t_now s + dt)) /\ (single rep s -> single rep (with_now s (t_now s + dt)))); [|destruct G; auto]. apply stored_frame; try reflexivity; [assumption|cbn; lia].
  - injection E as <-. assert (G : stored rep (with_ctimer s (expire (t_now s) n (t_cwait s)) (t_crun s)) /\ (single rep s -> single rep (with_ctimer s (expire (t_now s) n (t_cwait s)) (t_crun s)))); [|destruct G; auto]. apply stored_frame; try reflexivity; assumption.
  - injection E as <-. destruct T as [A B C D W]. unfold expire. destruct W as [(W1 & W2 & W3)|(W1 & [W|(t & W & W' & W'')])].
    + rewrite W1. destruct n as [|n]; (split; [constructor; cbn; try assumption; left; auto|intros _ [S1 S2]; constructor; cbn; try assumption; exact Logic.I]).
    + rewrite W. assert (X : match nth_error [Expired] n with Some (Until t) => if N.leb t (t_now s) then firstn n [Expired] ++ Expired :: skipn (S n) [Expired] else [Expired] | _ => [Expired] end = [Expired]) by (destruct n as [|[|n]]; reflexivity). rewrite X.
      split; [constructor; cbn; try assumption; right; auto|]. intros _ [S1 S2]. constructor; [|exact S2]. rewrite W in S1. exact S1.
    + rewrite W. assert (X : let ws := match nth_error [Until t] n with Some (Until t0) => if N.leb t0 (t_now s) then firstn n [Until t] ++ Expired :: skipn (S n) [Until t] else [Until t] | _ => [Until t] end in ws = [Until t] \/ ws = [Expired] /\ t <= t_now s).
      { destruct n as [|[|n]]; cbn [nth_error]; [|left; reflexivity..]. destruct (N.leb_spec t (t_now s)); [right; split; [reflexivity|assumption]|left; reflexivity]. }
      cbv zeta in X. destruct X as [->|(-> & Ht)].
      * split; [constructor; cbn; try assumption; right; split; [assumption|]; right; exists t; auto|]. intros _ [S1 S2]. constructor; [|exact S2]. rewrite W in S1. exact S1.
      * split; [constructor; cbn; try assumption; right; auto|]. intros _ [S1 S2]. constructor; [|exact S2]. rewrite W in S1. cbn. destruct S1 as (k & i & H). exists t, k, i. auto.
  - destruct (nth_error (t_cwait s) n) as [w|]; [|injection E as <-; auto].
    assert (K : forall b, contact_timer me mgr order b ord (with_ctimer s (remove_at n (t_cwait s)) (t_crun s)) = Some s' -> stored rep s' /\ (single rep s -> single rep s')).
    { intros b. unfold contact_timer. set (x := with_ctimer (with_ctimer s _ _) _ _). change (t_sched x) with (t_sched s). change (t_outs x) with (t_outs s).
      assert (Fr : stored rep x /\ (single rep s -> single rep x)) by (apply stored_frame; try reflexivity; assumption).
      destruct b; [intros X; injection X as <-; exact Fr|]. destruct (t_sched s) as [|((t, k), e) r]; [intros X; injection X as <-; exact Fr|].
      assert (Fin : forall y, stored rep y -> stored rep (restart_contact_timer (with_sched y r)) /\ (single rep y -> single rep (restart_contact_timer (with_sched y r)))).
      { intros y Ty. destruct (restart_contact_frame (with_sched y r)) as (w1 & b1 & ->). apply stored_frame; try reflexivity; assumption. }
      destruct (get (t_outs s) (e_out e)) as [o|] eqn:Eo.
      - destruct (update_link _ _ _ _ _ _ _ _ x) as [y|] eqn:Ey; [|discriminate]. intros X. injection X as <-.
        assert (Ix : inv x) by (apply (inv_ext s); try reflexivity; assumption). destruct Fr as (Fr & Fr').
        destruct (stored_link rep (e_out e) (set_time (e_up e)) (e_up e) [Rate (e_out e) (e_rate e) (e_up e)] ord x o y Ix Fr Eo eq_refl eq_refl eq_refl (time_up _ o) (rates_one _ _ _) Ey) as (G & G').
        destruct (Fin y G). split; [assumption|auto].
      - intros X. injection X as <-. destruct Fr as (Fr & Fr'). destruct (Fin x Fr). split; [assumption|auto]. }
    destruct w; [injection E as <-; auto|destruct (K false E); auto|destruct (K true E); auto].
  - destruct T as [A B C D W]. destruct (nth_error (t_swait s) n) as [w|] eqn:En; [|injection E as <-; split; [constructor; assumption|auto]]. destruct w as [t| |].
    + injection E as <-. split; [constructor; assumption|auto].
    + assert (X : n = 0%nat /\ t_swait s = [Expired] /\ t_srun s = true).
      { destruct W as [(W1 & _)|(W1 & [W|(t & W & _)])].
        - rewrite W1 in En. destruct n; discriminate.
        - rewrite W in En |- *. destruct n as [|[|n]]; [auto|discriminate..].
        - rewrite W in En. destruct n as [|[|n]]; discriminate. }
      destruct X as (-> & W1 & W2). clear W En. unfold storage_timer in E. rewrite W1 in E. cbn [remove_at] in E. set (x := with_stimer (with_stimer s [] (t_srun s)) _ _) in E.
      change (t_stor x) with (t_stor s) in E. change (t_now x) with (t_now s) in E. destruct (t_stor s) as [|((t, k), i) r] eqn:Es.
      { injection E as <-. split.
        - constructor; cbn; rewrite ?Es; try assumption. left. auto.
        - intros _ [S1 S2]. constructor; [exact Logic.I|exact S2]. }
      destruct (D t k i (or_introl eq_refl)) as (o & rr & Ho & Hr & Ht & Hl).
      assert (Ey : exists w0 b0, (if N.ltb (t_now s) t then restart_storage_timer x else x) = with_stimer x w0 b0 /\ (t_now s < t /\ w0 = [Until t] /\ b0 = true \/ t <= t_now s /\ w0 = [] /\ b0 = false)).
      { destruct (N.ltb_spec (t_now s) t).
        - exists [Until t], true. split; [|auto]. unfold restart_storage_timer. change (t_srun x) with false. change (t_stor x) with (t_stor s). cbn iota. rewrite Es. reflexivity.
        - exists [], false. split; [reflexivity|]. right. auto. }
      destruct Ey as (w0 & b0 & Ey & Wb). rewrite Ey in E. clear Ey. destruct (update_link _ _ _ _ _ _ _ _ _) as [z|] eqn:Ez; [|discriminate]. injection E as <-.
      assert (Ix : inv (with_stimer x w0 b0)) by (apply (inv_ext s); try reflexivity; assumption).
      destruct (update_link_ok me mgr order i (set_stor true) true [] ord _ o z Ix Ho eq_refl eq_refl (stor_up true o) rates_nil Ez) as (_ & Cm & O & _).
      pose proof (outs_rest _ _ i (set_stor true) o O Ho eq_refl) as OR. change (t_outs (with_stimer x w0 b0)) with (t_outs s) in OR. clear O Ez.
      assert (Old : forall j o', get (t_outs z) j = Some o' -> exists p, get (t_outs s) j = Some p /\ o_hop o' = o_hop p /\ o_stor o' = if N.eqb j i then true else o_stor p).
      { intros j o' H. specialize (OR j). rewrite H in OR. destruct (get (t_outs s) j) as [p|]; [|discriminate]. injection OR as X Y. eauto. }
      assert (New : forall j p, get (t_outs s) j = Some p -> exists o', get (t_outs z) j = Some o' /\ o_hop o' = o_hop p).
      { intros j p H. specialize (OR j). rewrite H in OR. destruct (get (t_outs z) j) as [o'|]; [|discriminate]. injection OR as X Y. eauto. }
      pose proof (c_swait _ _ Cm) as E2. pose proof (c_srun _ _ Cm) as E3. pose proof (c_now _ _ Cm) as E4. cbn [with_stimer t_swait t_srun] in E2, E3. change (t_now (with_stimer x w0 b0)) with (t_now s) in E4.
      assert (Sr : ksorted r) by (inversion A; assumption). cbn [map snd] in B. apply NoDup_cons_iff in B. destruct B as (B1 & B2). subst t.
      destruct (restart_storage_frame (with_stor z r)) as (w1 & b1 & E5).
      assert (Wz : w1 = [] /\ b1 = false /\ r = [] \/ b1 = true /\ exists u, w1 = [Until u] /\ u <= t_now s + span /\ (forall t' k' j, In ((t', k'), j) r -> u <= t') /\ (rr + span <= t_now s -> exists k' j, In ((u, k'), j) r)).
      { unfold restart_storage_timer in E5. cbn [with_stor t_srun t_stor t_swait] in E5. rewrite E2, E3 in E5. destruct Wb as [(X1 & -> & ->)|(X1 & -> & ->)].
        - assert (X : w1 = [Until (rr + span)] /\ b1 = true). { pose proof (f_equal t_srun E5) as X. pose proof (f_equal t_swait E5) as Y. cbn in X, Y. split; congruence. } destruct X as (-> & ->). right. split; [reflexivity|]. exists (rr + span). split; [reflexivity|]. split; [lia|]. split; [intros t' k' j H; eapply (head_first _ _ _ r); [exact A|right; exact H]|]. lia.
        - destruct r as [|((u, k'), j) r'].
          + left. pose proof (f_equal t_srun E5) as X. pose proof (f_equal t_swait E5) as Y. cbn in X, Y. split; [congruence|]. split; congruence.
          + assert (X : w1 = [Until u] /\ b1 = true). { pose proof (f_equal t_srun E5) as X. pose proof (f_equal t_swait E5) as Y. cbn in X, Y. split; congruence. } destruct X as (-> & ->). right. split; [reflexivity|]. exists u. split; [reflexivity|].
            split; [destruct (D u k' j (or_intror (or_introl eq_refl))) as (_ & r1 & _ & _ & -> & X); lia|]. split; [intros t' k0 j' H; eapply head_first; [exact Sr|exact H]|]. intros _. exists k', j. now left. }
      rewrite E5. split.
      * constructor; cbn [with_stimer with_stor t_stor t_swait t_srun t_now t_outs]; rewrite ?E4; try assumption.
        -- intros j o' H. destruct (Old j o' H) as (p & Hp & _ & ->). destruct (N.eqb_spec j i) as [->|Hj]; [split; [discriminate|contradiction]|]. rewrite (C j p Hp). cbn [map snd In]. split; [intros [X|X]; [congruence|assumption]|auto].
        -- intros t' k' j H. destruct (D t' k' j (or_intror H)) as (p & r1 & Hp & X). destruct (New j p Hp) as (o' & Ho' & Hh). exists o', r1. rewrite Hh. auto.
        -- destruct Wz as [(-> & -> & ->)|(-> & u & -> & X & Y & _)]; [auto|]. right. split; [reflexivity|]. right. exists u. auto.
      * intros _ [S1 S2]. rewrite W1, Es in S1. destruct S1 as (t1 & k1 & i1 & H1 & Hl1). assert (Hd : rr + span <= t_now s). { pose proof (head_first _ _ _ _ _ _ _ A H1). lia. }
        constructor; cbn [with_stimer with_stor t_stor t_swait t_srun t_now t_outs]; rewrite ?E4.
        -- destruct Wz as [(-> & -> & ->)|(-> & u & -> & X & Y & Z)]; [exact Logic.I|]. now apply Z.
        -- intros j o' H Hs. destruct (Old j o' H) as (p & Hp & Hh & X). rewrite Hh. rewrite X in Hs. destruct (N.eqb_spec j i) as [->|Hj]; [|now apply (S2 j)]. rewrite Ho in Hp. injection Hp as <-. rewrite Hr. exact Hd.
    + exfalso. destruct W as [(W1 & _)|(W1 & [W|(t & W & _)])]; [rewrite W1 in En; destruct n; discriminate|rewrite W in En; destruct n as [|[|n]]; discriminate..].
Qed.
Lemma stored_run l : forall rep s s', inv s -> stored rep s -> run me unix mgr order hold s l = Some s' ->
  exists rep', (forall h, rep' h = last_report (t_now s) h (rep h) l) /\ stored rep' s' /\ (single_reports step s l -> single rep s -> single rep' s').
Proof.
  induction l as [|i l IH]; intros rep s s' I T E; cbn [run] in E; [injection E as <-; exists rep; split; [reflexivity|auto]|]. destruct (step s i) as [x|] eqn:Es; [|discriminate].
  destruct (step_still me unix mgr order hold s i x I Es) as (Ix & Sx). destruct (stored_step rep s i x I T Es) as (Tx & Gx). destruct (IH _ x s' Ix Tx E) as (rep' & R & T' & G').
  exists rep'. split; [|split; [assumption|]].
  - intros h. rewrite R. destruct i; cbn [last_report rep_step]; try (rewrite (proj2 Sx); reflexivity).
    + f_equal. cbn [M_Router.step] in Es. injection Es as <-. destruct (load_plan_ok me order unix rows ord ord' s I) as (_ & _ & _ & a & b & c & d & e & E1 & _). rewrite E1, (w_now _ _ (twin_contact _)). reflexivity.
    + subst x. reflexivity.
  - cbn [single_reports]. rewrite Es. intros (X & Y) Z. apply G'; [assumption|]. now apply Gx.
Qed.
Lemma start_stored now telem : telem_ok telem -> stored (fun _ => None) (start now telem) /\ single (fun _ => None) (start now telem).
Proof.
  intros (T1 & _). destruct (populate_fields telem (mkRt [] [] [] [] 0 [] [] false 0 0 [] [] false now [])) as (_ & _ & X1 & _ & _ & _ & _ & _ & X2 & X3).
  assert (P : forall i o, get (t_outs (start now telem)) i = Some o -> o_stor o = true).
  { intros i o Ho. apply (populate_time telem) in Ho; [tauto|cbn; discriminate|assumption|cbn; tauto]. }
  split; constructor; unfold start in *; rewrite ?X1, ?X2, ?X3; try (constructor; fail).
  - intros i o Ho. rewrite (P i o Ho). split; [discriminate|intros []].
  - intros t k i [].
  - left. auto.
Qed.
End Stored.
