(** Lemmas for P_Cgr: a sequence of contacts that data can travel over becomes a route, with the right metrics. *)
From Coq Require Import NArith ZArith List Bool Lia ZifyBool ZifyN Arith.
From Verif Require Import Base M_Cgr S_Cgr L_Cgr.
Import ListNotations.
Open Scope Z_scope.

Ltac times := unfold min_time, max_time in *; lia.

(** The contacts fit together in time, possibly only just. *)
Fixpoint fits (t : Z) (l : list contact) : Prop :=
  match l with [] => True | c :: r => contact_ok c /\ t <= k_end c /\ fits (Z.max (k_start c) t + k_owlt c) r end.
Lemma fits_app t a b : fits t (a ++ b) <-> fits t a /\ fits (arrival t a) b.
Proof. revert t. induction a as [|c a IH]; intros t; cbn; [tauto|]. rewrite IH. tauto. Qed.
Lemma arrival_app t a b : arrival t (a ++ b) = arrival (arrival t a) b.
Proof. revert t. induction a as [|c a IH]; intros t; cbn; [reflexivity|apply IH]. Qed.
Lemma arrival_le t t' l : t <= t' -> arrival t l <= arrival t' l.
Proof. revert t t'. induction l as [|c l IH]; intros t t' H; cbn; [assumption|]. apply IH. lia. Qed.
Lemma fits_le t t' l : t <= t' -> fits t' l -> fits t l.
Proof. revert t t'. induction l as [|c l IH]; intros t t' H; cbn; [trivial|]. intros (H1 & H2 & H3). split; [assumption|]. split; [lia|]. eapply IH; [|exact H3]. lia. Qed.
Lemma journey_fits (use : contact -> Z -> Prop) plan s t0 x t l : plan_ok plan -> (forall c u, use c u -> u <= k_end c) ->
  journey use plan s t0 x t l -> fits t0 l.
Proof.
  intros Hp Hu J. induction J as [|x t l c J IH Hc Hf Ho]; [exact I|]. apply fits_app. split; [assumption|].
  rewrite <- (journey_arrival _ _ _ _ _ _ _ J). cbn. split; [|split; [now apply Hu|exact I]].
  unfold plan_ok in Hp. rewrite Forall_forall in Hp. now apply Hp.
Qed.

Lemma times_ok l : forall m t, 0 <= t -> fits t l ->
  metrics_times l m t = Some (fold_left (fun a c => Z.min a (k_end c)) l m, arrival t l).
Proof.
  induction l as [|c l IH]; intros m t Ht F; cbn; [reflexivity|]. destruct F as ((H1 & H2 & H3 & _) & H4 & F). rewrite tmax_max in H3.
  rewrite !tadd_ok by times. replace (Z.max (t + k_owlt c) (k_start c + k_owlt c)) with (Z.max (k_start c) t + k_owlt c) by lia.
  apply IH; [lia|assumption].
Qed.
(** The hop itself is the first one equal to it. *)
Lemma from_equal_self pre c r : ~ In (k_to c) (stops pre) -> from_equal c (pre ++ c :: r) = c :: r.
Proof.
  induction pre as [|x pre IH]; cbn; intros H; [now rewrite contact_eq_refl|].
  destruct (contact_eq x c) eqn:E; [|apply IH; tauto]. apply contact_eq_true in E. exfalso. apply H. left. apply E.
Qed.
Lemma fold_stop l : forall m, fold_left (fun m s => if k_end s <? m then k_end s else m) l m = fold_left (fun a c => Z.min a (k_end c)) l m.
Proof. induction l as [|c l IH]; intros m; cbn; [reflexivity|]. rewrite IH. f_equal. destruct (k_end c <? m) eqn:E; lia. Qed.
Lemma fold_min_right l : forall m, fold_left (fun a c => Z.min a (k_end c)) l m = fold_right Z.min m (map k_end l).
Proof.
  assert (A : forall l m x, fold_right Z.min (Z.min m x) l = Z.min x (fold_right Z.min m l)).
  { clear. induction l as [|c l IH]; intros; cbn; [lia|]. rewrite IH. lia. }
  induction l as [|c l IH]; intros m; cbn; [reflexivity|]. rewrite IH, A. reflexivity.
Qed.
Lemma fold_min_start l : forall m m', Forall (fun x => x <= m) l -> Forall (fun x => x <= m') l -> l <> [] -> fold_right Z.min m l = fold_right Z.min m' l.
Proof.
  intros m m' H1 H2 Hl. destruct l as [|a l]; [tauto|]. clear Hl. revert a H1 H2. induction l as [|b l IH]; intros a H1 H2; cbn.
  - inversion H1; inversion H2; subst. lia.
  - inversion H1; inversion H2; subst. cbn in IH. f_equal. now apply IH.
Qed.
Lemma fits_stop t l c : fits t (c :: l) -> Z.max (k_start c) t <= fold_right Z.min (k_end c) (map k_end l).
Proof.
  intros ((H1 & H2 & _) & H3 & F). assert (A : forall l u m, u <= m -> fits u l -> u <= fold_right Z.min m (map k_end l)).
  { clear. induction l as [|d l IH]; intros u m Hu F; cbn; [assumption|]. destruct F as ((H1 & H2 & _) & H4 & F).
    apply Z.min_glb; [assumption|]. apply IH; [assumption|]. eapply fits_le; [|exact F]. lia. }
  apply A; [lia|]. eapply fits_le; [|exact F]. lia.
Qed.
Lemma fold_min_le l : forall m, fold_right Z.min m l <= m.
Proof. induction l as [|a l IH]; intros m; cbn; [lia|]. specialize (IH m). lia. Qed.

(** What one hop limits the volume to, as it is computed. *)
Definition limit (t : Z) (c : contact) (r : list contact) : N :=
  N.min ((to_u64 (fold_right Z.min (k_end c) (map k_end r) - Z.max (k_start c) t) * k_rate c) mod W64) (volume c).
Fixpoint limits (t : Z) (l : list contact) : list N :=
  match l with [] => [] | c :: r => limit t c r :: limits (Z.max (k_start c) t + k_owlt c) r end.
Lemma volume_loop all first : forall l pre t v, all = pre ++ l -> NoDup (stops all) -> 0 <= t -> fits t l ->
  (pre = [] -> l = [] \/ (t = 0 /\ hd_error l = Some first)) -> (pre <> [] -> hd_error pre = Some first) ->
  metrics_volume all l first t v = Some (fold_left N.min (limits t l) v).
Proof.
  induction l as [|c l IH]; intros pre t v E ND Ht F H0 H1; cbn [metrics_volume]; [reflexivity|].
  assert (Hnin : ~ In (k_to c) (stops pre)).
  { subst all. unfold stops in *. rewrite map_app in ND. cbn in ND. apply NoDup_remove_2 in ND. intros X. apply ND. apply in_or_app. now left. }
  assert (Etx : (if contact_eq c first then k_start c else Z.max (k_start c) t) = Z.max (k_start c) t).
  { destruct (contact_eq c first) eqn:Ec; [|reflexivity]. destruct pre as [|d pre].
    - destruct (H0 eq_refl) as [X|(-> & _)]; [discriminate|]. destruct F as ((X & _) & _). lia.
    - exfalso. pose proof (H1 ltac:(discriminate)) as X. cbn in X. injection X as ->. apply contact_eq_true in Ec. apply Hnin. left. symmetry. apply Ec. }
  rewrite Etx. pose proof (fits_stop t l c F) as St. destruct F as ((P1 & P2 & P3 & P4) & P5 & F). rewrite tmax_max in P3.
  rewrite tadd_ok by times.
  assert (Estop : Z.min (k_end c) (fold_left (fun m s => if k_end s <? m then k_end s else m) (from_equal c all) max_time) =
    fold_right Z.min (k_end c) (map k_end l)).
  { rewrite E, from_equal_self by assumption. rewrite fold_stop, fold_min_right. cbn [map fold_right].
    rewrite (Z.min_assoc (k_end c) (k_end c)), Z.min_id.
    assert (A : forall l m, fold_right Z.min m l = Z.min m (fold_right Z.min m l)).
    { clear. intros l m. pose proof (fold_min_le l m). lia. }
    assert (B : forall l m x, x <= m -> Z.min x (fold_right Z.min m l) = fold_right Z.min x l).
    { clear. induction l as [|y l IHl]; intros m x H; cbn; [lia|]. rewrite <- (IHl m x H). lia. }
    apply B. times. }
  rewrite Estop. pose proof (fold_min_le (map k_end l) (k_end c)) as Sl.
  rewrite tsub_ok by times.
  rewrite (IH (pre ++ [c])); try assumption.
  - cbn [limits fold_left]. f_equal. f_equal. unfold limit.
    set (x := N.min _ _). destruct (N.ltb x v) eqn:El; lia.
  - now rewrite <- app_assoc.
  - lia.
  - intros X. destruct pre; discriminate.
  - intros _. destruct pre as [|d pre]; [|apply H1; discriminate]. cbn. destruct (H0 eq_refl) as [X|(_ & X)]; [discriminate|exact X].
Qed.
Lemma refresh_ok c l vis : fits 0 (c :: l) -> NoDup (stops (c :: l)) ->
  refresh (c :: l) vis = Some (mkRoute (c :: l) vis (last (stops (c :: l)) 0%N) (k_to c) (k_start c)
    (fold_right Z.min max_time (map k_end (c :: l))) (arrival 0 (c :: l)) (fold_left N.min (limits 0 (c :: l)) U64MAX)).
Proof.
  intros F ND. unfold refresh. rewrite times_ok by (lia || assumption).
  rewrite (volume_loop (c :: l) c (c :: l) [] 0 U64MAX); try assumption; try reflexivity; try lia.
  - rewrite fold_min_right. f_equal. f_equal.
    assert (A : forall l c, k_to (last (c :: l) c) = last (stops (c :: l)) 0%N).
    { clear. induction l as [|d l IH]; intros c; [reflexivity|]. specialize (IH d). cbn in *. destruct l; [reflexivity|]. rewrite <- IH. f_equal.
      clear. revert c0. induction l as [|x l IH]; intros; [reflexivity|]. cbn in *. destruct l; [reflexivity|]. apply (IH c0). }
    apply A.
  - right. split; reflexivity.
  - intros X. congruence.
Qed.

(** Each contact of the sequence can be appended to those before it. *)
Fixpoint joins (s : N) (t : Z) (l : list contact) : Prop :=
  match l with [] => True | c :: r => k_frm c = s /\ t < k_end c /\ joins (k_to c) (Z.max (k_start c) t + k_owlt c) r end.
Lemma joins_app s t a b : joins s t (a ++ b) <-> joins s t a /\ joins (last (stops a) s) (arrival t a) b.
Proof.
  assert (L : forall (x y : N) l d, last (x :: l) d = last l x).
  { clear. intros x y l. revert x. induction l as [|z l IH]; intros; cbn in *; [reflexivity|]. destruct l; [reflexivity|]. now rewrite (IH z). }
  revert s t. induction a as [|c a IH]; intros s t; cbn [app joins stops map arrival]; [tauto|]. rewrite IH. fold (stops a).
  rewrite (L (k_to c) 0%N (stops a) s). tauto.
Qed.
Lemma journey_joins (use : contact -> Z -> Prop) plan s t0 x t l : (forall c u, use c u -> u < k_end c) ->
  journey use plan s t0 x t l -> joins s t0 l.
Proof.
  intros Hu J. induction J as [|x t l c J IH Hc Hf Ho]; [exact I|]. apply joins_app. split; [assumption|].
  rewrite <- (journey_arrival _ _ _ _ _ _ _ J), <- (journey_last _ _ _ _ _ _ _ J). cbn. repeat split; [assumption|now apply Hu].
Qed.
Lemma joins_eligible c l s t : 0 <= t -> joins s t (c :: l) -> NoDup (s :: stops (c :: l)) -> fits t (c :: l) -> forall pre d r, c :: l = pre ++ d :: r -> pre <> [] ->
  forall vis, (forall n, In n vis <-> n = s \/ In n (stops pre)) -> eligible pre vis d = Some true.
Proof.
  intros Ht J ND F pre d r E Hpre vis Hv. unfold eligible. destruct (exists_last Hpre) as (p0 & z & ->). rewrite rev_app_distr. cbn [rev app].
  rewrite E in J, ND, F. apply joins_app in J. destruct J as (_ & J). cbn in J. destruct J as (_ & J & _).
  apply fits_app in F. destruct F as (F & _). apply fits_app in F. destruct F as (_ & F). cbn in F. destruct F as ((P1 & P2 & P3 & _) & P4 & _).
  rewrite tmax_max in P3. rewrite arrival_app in J. cbn in J.
  replace (existsb (N.eqb (k_to d)) vis) with false.
  - rewrite tadd_ok by times. f_equal. apply Z.ltb_lt. lia.
  - symmetry. destruct (existsb (N.eqb (k_to d)) vis) eqn:X; [|reflexivity]. exfalso. apply existsb_in in X. apply Hv in X.
    unfold stops in ND. rewrite map_app in ND. cbn [map] in ND. rewrite app_comm_cons in ND. apply NoDup_remove_2 in ND. apply ND.
    apply in_or_app. left. destruct X as [->|X]; [now left|now right].
Qed.
Lemma append_all_ok c0 l0 s t : 0 <= t -> joins s t (c0 :: l0) -> NoDup (s :: stops (c0 :: l0)) -> fits t (c0 :: l0) ->
  forall l pre r, c0 :: l0 = pre ++ l -> pre <> [] -> r_hops r = pre -> (forall n, In n (r_visited r) <-> n = s \/ In n (stops pre)) ->
  refresh pre (r_visited r) = Some r ->
  exists vis, append_all l r = refresh (c0 :: l0) vis.
Proof.
  intros Ht J ND F. induction l as [|d l IH]; intros pre r E Hpre Hh Hv Hr; cbn [append_all].
  - exists (r_visited r). rewrite app_nil_r in E. rewrite E. now symmetry.
  - unfold append. rewrite Hh, (joins_eligible c0 l0 s t Ht J ND F pre d l E Hpre _ Hv).
    assert (Fit : fits 0 (pre ++ [d])).
    { apply (fits_le 0 t); [assumption|]. rewrite E in F. replace (pre ++ d :: l) with ((pre ++ [d]) ++ l) in F by (now rewrite <- app_assoc).
      apply fits_app in F. tauto. }
    assert (NDp : NoDup (stops (pre ++ [d]))).
    { assert (ND' : NoDup (stops (c0 :: l0))) by (now inversion ND). rewrite E in ND'. replace (pre ++ d :: l) with ((pre ++ [d]) ++ l) in ND' by (now rewrite <- app_assoc).
      unfold stops in *. rewrite map_app in ND'. clear - ND'. set (q := map k_to (pre ++ [d])) in *. induction q as [|x q IHq]; [constructor|].
      cbn in ND'. inversion ND' as [|? ? X Y]. constructor; [|auto]. intros Z. apply X. apply in_or_app. now left. }
    destruct pre as [|c pre]; [tauto|]. cbn [app] in Fit, NDp |- *. rewrite (refresh_ok c (pre ++ [d]) _ Fit NDp).
    match goal with |- exists v, append_all l ?r' = _ => destruct (IH (c :: pre ++ [d]) r') as (vis & Hvis) end.
    + rewrite E. cbn. now rewrite <- app_assoc.
    + discriminate.
    + reflexivity.
    + cbn [r_visited]. intros n. rewrite app_comm_cons. unfold stops. rewrite map_app, in_app_iff. cbn [In map].
      assert (Ef : k_frm d = s \/ In (k_frm d) (stops (c :: pre))).
      { rewrite E in J. apply joins_app in J. destruct J as (_ & J). cbn [joins] in J. destruct J as (J & _). rewrite J. right. destruct (exists_last (l := c :: pre) ltac:(discriminate)) as (p0 & z & ->).
        unfold stops. rewrite map_app. cbn. rewrite last_last. apply in_or_app. right. now left. }
      fold (stops (c :: pre)). specialize (Hv n). split.
      * intros [X|[X|X]]; [right; right; now left|rewrite <- X; destruct Ef as [->|Ef]; [now left|right; now left]|]. apply Hv in X. tauto.
      * intros [X|[X|[X|[]]]]; [right; right; apply Hv; now left|right; right; apply Hv; now right|now left].
    + cbn [r_visited]. now apply refresh_ok.
    + exists vis. exact Hvis.
Qed.
Lemma make_route_ok c l s t : 0 <= t -> joins s t (c :: l) -> NoDup (s :: stops (c :: l)) -> fits t (c :: l) ->
  exists r, make_route (c :: l) = Some r /\ r_hops r = c :: l /\ r_to r = last (stops (c :: l)) 0%N /\ r_next r = k_to c /\
    r_from_time r = k_start c /\ r_to_time r = fold_right Z.min max_time (map k_end (c :: l)) /\ r_bdt r = arrival 0 (c :: l) /\
    r_volume r = fold_left N.min (limits 0 (c :: l)) U64MAX.
Proof.
  intros Ht J ND F. unfold make_route, append. cbn [eligible rev app].
  assert (F1 : fits 0 [c]). { apply (fits_le 0 t); [assumption|]. cbn in F. cbn. tauto. }
  rewrite (refresh_ok c [] _ F1) by (cbn; constructor; [intros []|constructor]).
  match goal with |- exists r, append_all l ?r' = _ /\ _ => destruct (append_all_ok c l s t Ht J ND F l [c] r') as (vis & H) end.
  - reflexivity.
  - discriminate.
  - reflexivity.
  - cbn [r_visited stops map In]. intros n. destruct J as (J & _). split; [intros [X|[X|[]]]|intros [X|[X|[]]]]; subst; auto.
  - cbn [r_visited]. apply refresh_ok; [assumption|]. cbn. constructor; [intros []|constructor].
  - rewrite refresh_ok in H.
    + eexists. split; [exact H|]. cbn. repeat split.
    + now apply (fits_le 0 t).
    + now inversion ND.
Qed.

(** The volume is the least room there is, if it can be counted. *)
Lemma limits_room l : forall t, 0 <= t -> fits t l -> Forall countable l -> map Z.of_N (limits t l) = room t l.
Proof.
  induction l as [|c l IH]; intros t Ht F Hc; cbn [limits room map]; [reflexivity|]. inversion Hc as [|? ? Hc1 Hc2]; subst.
  pose proof (fits_stop t l c F) as St. destruct F as ((P1 & P2 & P3 & P4) & P5 & F). rewrite tmax_max in P3.
  pose proof (fold_min_le (map k_end l) (k_end c)) as Sl. unfold countable in Hc1.
  rewrite IH by (lia || assumption). f_equal. unfold limit, volume, to_u64.
  set (d := fold_right Z.min (k_end c) (map k_end l) - Z.max (k_start c) t) in *.
  assert (Hd : 0 <= d <= k_end c - k_start c) by (unfold d; lia).
  rewrite !Z.mod_small by times.
  assert (M : d * Z.of_N (k_rate c) <= (k_end c - k_start c) * Z.of_N (k_rate c)) by (apply Z.mul_le_mono_nonneg_r; lia).
  assert (E1 : Z.of_N (Z.to_N d * k_rate c) = d * Z.of_N (k_rate c)) by (rewrite N2Z.inj_mul, Z2N.id by lia; reflexivity).
  assert (E2 : Z.of_N (k_rate c * Z.to_N (k_end c - k_start c)) = (k_end c - k_start c) * Z.of_N (k_rate c)) by (rewrite N2Z.inj_mul, Z2N.id by lia; lia).
  change (2 ^ 64) with (Z.of_N W64) in Hc1.
  rewrite !N.mod_small by lia. lia.
Qed.
Lemma fold_min_in l : forall v, (In (fold_left N.min l v) l \/ fold_left N.min l v = v) /\ (fold_left N.min l v <= v)%N /\ Forall (fun x => (fold_left N.min l v <= x)%N) l.
Proof.
  induction l as [|x l IH]; intros v; cbn [fold_left]; [repeat split; [now right|lia|constructor]|].
  destruct (IH (N.min v x)) as (H1 & H2 & H3). repeat split.
  - destruct H1 as [H1|H1]; [left; now right|]. rewrite H1. destruct (N.min_spec v x) as [(_ & ->)|(_ & ->)]; [now right|left; now left].
  - lia.
  - constructor; [lia|assumption].
Qed.
Lemma volume_is_room c l : fits 0 (c :: l) -> Forall countable (c :: l) ->
  In (Z.of_N (fold_left N.min (limits 0 (c :: l)) U64MAX)) (room 0 (c :: l)) /\
  Forall (fun x => Z.of_N (fold_left N.min (limits 0 (c :: l)) U64MAX) <= x) (room 0 (c :: l)).
Proof.
  intros F Hc. rewrite <- limits_room by (lia || assumption). destruct (fold_min_in (limits 0 (c :: l)) U64MAX) as (H1 & H2 & H3). split.
  - apply in_map. destruct H1 as [H1|H1]; [assumption|]. cbn [limits] in *. inversion H3 as [|? ? H4 _]; subst. left.
    assert (limit 0 c l < W64)%N; [|unfold W64, U64MAX in *; lia]. unfold limit, volume.
    assert (((k_rate c * to_u64 (k_end c - k_start c)) mod W64 < W64)%N) by (apply N.mod_lt; discriminate). lia.
  - apply Forall_forall. intros x Hx. apply in_map_iff in Hx. destruct Hx as (y & <- & Hy). rewrite Forall_forall in H3. specialize (H3 y Hy). lia.
Qed.
