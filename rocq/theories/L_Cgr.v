(** Lemmas for P_Cgr: the contact graph search visits contacts in order of arrival and settles each node's earliest arrival. *)
From Coq Require Import NArith ZArith List Bool Lia ZifyBool ZifyN Arith.
From Verif Require Import Base M_Cgr S_Cgr.
Import ListNotations.
Open Scope Z_scope.

Lemma tmax_max : tmax = max_time. Proof. reflexivity. Qed.
Lemma existsb_in n l : existsb (N.eqb n) l = true <-> In n l.
Proof.
  rewrite existsb_exists. split.
  - intros (x & Hx & E). apply N.eqb_eq in E. now subst.
  - intros H. exists n. split; [assumption|apply N.eqb_refl].
Qed.
Lemma volume_zero c : contact_ok c -> (volume c = 0%N <-> ~ carries c).
Proof.
  intros (H1 & H2 & H3 & H4). unfold carries, volume, to_u64. rewrite tmax_max in H3. unfold max_time in H3.
  rewrite (Z.mod_small (k_end c - k_start c)) by lia.
  change (2 ^ 64) with (Z.of_N W64).
  assert (E : Z.of_N (k_rate c) * (k_end c - k_start c) = Z.of_N (k_rate c * Z.to_N (k_end c - k_start c))).
  { rewrite N2Z.inj_mul, Z2N.id by lia. reflexivity. }
  rewrite E, <- N2Z.inj_mod. split; [intros ->; now intros HH; apply HH|].
  intros H. destruct (N.eq_dec ((k_rate c * Z.to_N (k_end c - k_start c)) mod W64) 0) as [|n]; [assumption|].
  exfalso. apply H. lia.
Qed.
Lemma tadd_ok a b : min_time <= a + b <= max_time -> tadd a b = Some (a + b).
Proof. intros H. unfold tadd, in_time. replace ((min_time <=? a + b) && (a + b <=? max_time))%bool with true; [reflexivity|lia]. Qed.
Lemma tsub_ok a b : min_time <= a - b <= max_time -> tsub a b = Some (a - b).
Proof. intros H. unfold tsub, in_time. replace ((min_time <=? a - b) && (a - b <=? max_time))%bool with true; [reflexivity|lia]. Qed.
Lemma contact_eq_true a b : contact_eq a b = true ->
  k_frm a = k_frm b /\ k_to a = k_to b /\ k_start a = k_start b /\ k_end a = k_end b /\ k_rate a = k_rate b /\ k_owlt a = k_owlt b.
Proof. unfold contact_eq. rewrite !andb_true_iff, !N.eqb_eq, !Z.eqb_eq. tauto. Qed.
Lemma contact_eq_refl a : contact_eq a a = true.
Proof. unfold contact_eq. rewrite !N.eqb_refl, !Z.eqb_refl. reflexivity. Qed.

(** * Journeys *)
Lemma journey_arrival use plan s t0 x t l : journey use plan s t0 x t l -> t = arrival t0 l.
Proof.
  assert (A : forall l c u, arrival u (l ++ [c]) = Z.max (k_start c) (arrival u l) + k_owlt c).
  { clear. induction l as [|d l IH]; intros; cbn; [reflexivity|apply IH]. }
  induction 1 as [|x t l c H IH]; [reflexivity|]. rewrite A, <- IH. reflexivity.
Qed.
Lemma journey_in use plan s t0 x t l : journey use plan s t0 x t l -> incl l plan.
Proof. induction 1; [apply incl_nil_l|]. apply incl_app; [assumption|]. intros y [<-|[]]. assumption. Qed.
Lemma journey_last use plan s t0 x t l : journey use plan s t0 x t l -> x = last (stops l) s.
Proof. destruct 1; [reflexivity|]. unfold stops. rewrite map_app. cbn. now rewrite last_last. Qed.
Lemma journey_impl (use use' : contact -> Z -> Prop) plan s t0 x t l :
  (forall c u, In c plan -> use c u -> use' c u) -> journey use plan s t0 x t l -> journey use' plan s t0 x t l.
Proof. intros H. induction 1; [constructor|]. econstructor; eauto. Qed.

Section Search.
Variable plan : list contact.
Variable root : contact.
Variable t0 : Z.
Variable dest : N.
Hypothesis Hplan : plan_ok plan.
Hypothesis Hroot : k_frm root = k_to root.
Hypothesis Ht0 : t0 <= tmax.

Notation src := (k_to root).
Notation Ar s p := (w_arr (area root t0 s p)).
Notation Nd s p := (w_nodes (area root t0 s p)).
Notation dr := (deref plan root).
Notation jour := (journey open plan src t0).

Lemma plan_at i c : nth_error plan i = Some c -> contact_ok c.
Proof. intros H. apply nth_error_In in H. unfold plan_ok in Hplan. rewrite Forall_forall in Hplan. now apply Hplan. Qed.

Definition reached (s : dst) (p : ptr) (c : contact) : Prop :=
  dr p = Some c /\ match p with Root => True | At _ => Ar s p < max_time end.
(** The working area of contact [i] is what following its predecessor gives. *)
Definition linked (s : dst) (settled : ptr -> Prop) (i : nat) (c : contact) : Prop :=
  exists q d, w_pred (d_work s i) = Some q /\ settled q /\ dr q = Some d /\ k_frm c = k_to d /\ open c (Ar s q) /\
    Ar s (At i) = Z.max (k_start c) (Ar s q) + k_owlt c /\ Nd s (At i) = Nd s q ++ [k_to c] /\ ~ In (k_to c) (Nd s q).
(** Some contact gets to node [n] by time [t]. *)
Definition by_time (s : dst) (n : N) (t : Z) : Prop := exists w d, reached s w d /\ k_to d = n /\ Ar s w <= t.
Definition closed_at (s : dst) (q : ptr) (d : contact) (i : nat) : Prop :=
  forall c, nth_error plan i = Some c -> k_frm c = k_to d -> open c (Ar s q) ->
    by_time s (k_to c) (Z.max (k_start c) (Ar s q) + k_owlt c).

Record core (D : list ptr) (settled : ptr -> Prop) (s : dst) : Prop := {
  i_vis : forall i, w_vis (d_work s i) = true <-> In (At i) D;
  i_reach : forall q, settled q -> exists d, reached s q d;
  i_link : forall i c, nth_error plan i = Some c -> Ar s (At i) < max_time -> linked s settled i c;
  i_closed : forall q d i, In q D -> dr q = Some d -> closed_at s q d i;
  i_order : forall q i c, settled q -> nth_error plan i = Some c -> ~ In (At i) D -> Ar s q <= Ar s (At i);
  i_best : match d_final s with
           | None => d_best s = max_time
           | Some f => exists c, nth_error plan f = Some c /\ k_to c = dest /\ Ar s (At f) = d_best s /\ d_best s < max_time
           end;
  i_min : forall i c, nth_error plan i = Some c -> Ar s (At i) < max_time -> k_to c = dest -> d_best s <= Ar s (At i);
  i_nodup : NoDup D
}.
Definition settled_by (D : list ptr) (p : ptr) : ptr -> Prop := fun q => In q D \/ q = p.
Record inv (D : list ptr) (p : ptr) (s : dst) : Prop := {
  v_core : core D (settled_by D p) s;
  v_new : ~ In p D;
  v_last : forall q, In q D -> Ar s q <= Ar s p
}.


Lemma link_le s settled i c : nth_error plan i = Some c -> linked s settled i c ->
  exists q d, settled q /\ dr q = Some d /\ k_frm c = k_to d /\ Ar s q <= Ar s (At i) /\ Nd s (At i) = Nd s q ++ [k_to c].
Proof.
  intros Hn (q & d & _ & Hs & Hd & Hf & (Ho & _) & E & N & _). exists q, d. rewrite E.
  destruct (plan_at _ _ Hn) as (H1 & H2 & _). repeat split; try assumption. lia.
Qed.
(** Every node on the way to a reached contact was come to no later. *)
Lemma nodes_by s D settled : core D settled s -> forall k p c n, length (Nd s p) = k -> reached s p c -> In n (Nd s p) ->
  by_time s n (Ar s p).
Proof.
  intros C. induction k as [k IH] using lt_wf_ind. intros p c n Hk (Hd & Hr) Hin.
  destruct p as [|i].
  - cbn in Hin. destruct Hin as [<-|[]]. cbn in Hd. exists Root, root. repeat split. lia.
  - cbn in Hd. destruct (link_le s settled i c Hd (i_link _ _ _ C i c Hd Hr)) as (q & d & Hs & Hq & Hf & Hle & N).
    rewrite N in Hin. apply in_app_or in Hin. destruct Hin as [Hin|[<-|[]]].
    + destruct (i_reach _ _ _ C q Hs) as (d' & Hd').
      destruct (IH (length (Nd s q)) ltac:(rewrite <- Hk, N, app_length; cbn; lia) q d' n eq_refl Hd' Hin) as (w & e & Hw & Ht & Hl).
      exists w, e. repeat split; try apply Hw; try assumption. lia.
    + exists (At i), c. repeat split; try assumption. lia.
Qed.
Lemma nodes_self s D settled p c : core D settled s -> reached s p c -> In (k_to c) (Nd s p).
Proof.
  intros C (Hd & Hr). destruct p as [|i].
  - cbn in *. injection Hd as ->. now left.
  - cbn in Hd. destruct (link_le s settled i c Hd (i_link _ _ _ C i c Hd Hr)) as (q & d & _ & _ & _ & _ & N).
    rewrite N. apply in_or_app. right. now left.
Qed.
Lemma nodes_frm s D settled p c : core D settled s -> reached s p c -> In (k_frm c) (Nd s p).
Proof.
  intros C (Hd & Hr). destruct p as [|i].
  - cbn in *. injection Hd as <-. left. now rewrite Hroot.
  - cbn in Hd. destruct (link_le s settled i c Hd (i_link _ _ _ C i c Hd Hr)) as (q & d & Hs & Hq & Hf & _ & N).
    rewrite N. apply in_or_app. left. rewrite Hf. destruct (i_reach _ _ _ C q Hs) as (d' & Hd').
    assert (d' = d) by (destruct Hd' as (E & _); congruence). subst. apply (nodes_self s D settled q d C Hd').
Qed.
Lemma nodes_nodup s D settled : core D settled s -> forall k p c, length (Nd s p) = k -> reached s p c -> NoDup (Nd s p).
Proof.
  intros C. induction k as [k IH] using lt_wf_ind. intros p c Hk (Hd & Hr). destruct p as [|i].
  - cbn. constructor; [intros []|constructor].
  - cbn in Hd. destruct (i_link _ _ _ C i c Hd Hr) as (q & d & _ & Hs & Hq & _ & _ & _ & N & Hnin).
    destruct (i_reach _ _ _ C q Hs) as (d' & Hd').
    assert (Q : NoDup (Nd s q)).
    { apply (IH (length (Nd s q)) ltac:(rewrite <- Hk, N, app_length; cbn; lia) q d' eq_refl Hd'). }
    rewrite N. clear - Q Hnin. induction (Nd s q) as [|x l IHl]; cbn in *.
    + constructor; [intros []|constructor].
    + inversion Q as [|? ? X Y]; subst. constructor.
      * intros Hx. apply in_app_or in Hx. destruct Hx as [Hx|[Hx|[]]]; [tauto|]. apply Hnin. left. congruence.
      * apply IHl; tauto.
Qed.

(** * One neighbour *)
Lemma area_set s i w b f p : p <> At i -> area root t0 (mkDst (set_work (d_work s) i w) b f) p = area root t0 s p.
Proof.
  intros H. destruct p as [|j]; [reflexivity|]. cbn. unfold set_work. destruct (Nat.eqb_spec j i) as [->|]; [tauto|reflexivity].
Qed.
Lemma area_set_same s i w b f : area root t0 (mkDst (set_work (d_work s) i w) b f) (At i) = w.
Proof. cbn. unfold set_work. now rewrite Nat.eqb_refl. Qed.

Lemma by_time_mono s s' n t t' : (forall p c, reached s p c -> reached s' p c /\ Ar s' p <= Ar s p) -> t <= t' ->
  by_time s n t -> by_time s' n t'.
Proof.
  intros H Ht (w & d & Hr & Hk & Hl). destruct (H w d Hr) as (H1 & H2). exists w, d. split; [assumption|]. split; [assumption|]. lia.
Qed.

Lemma relax_ok D p cur s i c : inv D p s -> dr p = Some cur -> nth_error plan i = Some c -> k_frm c = k_to cur ->
  exists s', relax plan root t0 dest p cur s i = Some s' /\ inv D p s' /\ closed_at s' p cur i /\
    (forall d j, closed_at s p d j -> closed_at s' p d j).
Proof.
  intros V Hp Hn Hf. pose proof (v_core _ _ _ V) as C. pose proof (plan_at _ _ Hn) as (Hs & Ho & He & Hr).
  rewrite tmax_max in He.
  assert (Rp : reached s p cur).
  { destruct (i_reach _ _ _ C p (or_intror eq_refl)) as (d & Hd). destruct Hd as (Hd & X). assert (d = cur) by congruence. subst. now split. }
  unfold relax. rewrite Hn.
  destruct (w_vis (d_work s i)) eqn:Ev.
  { exists s. split; [reflexivity|]. split; [assumption|]. split; [|tauto]. intros c' Hc' Hf' (Ho' & _). assert (c' = c) by congruence. subst c'.
    apply (i_vis _ _ _ C) in Ev. destruct (i_reach _ _ _ C (At i) (or_introl Ev)) as (d & Hd).
    exists (At i), d. assert (d = c) by (destruct Hd as (X & _); cbn in X; congruence). subst d. repeat split; try apply Hd.
    pose proof (v_last _ _ _ V _ Ev). lia. }
  destruct (existsb (N.eqb (k_to c)) (Nd s p)) eqn:En.
  { exists s. split; [reflexivity|]. split; [assumption|]. split; [|tauto]. intros c' Hc' Hf' (Ho' & _). assert (c' = c) by congruence. subst c'.
    apply existsb_in in En. destruct (nodes_by s D _ C _ p cur (k_to c) eq_refl Rp En) as (w & d & Hw & Hk & Hl).
    exists w, d. repeat split; try apply Hw; try assumption. lia. }
  assert (Hnin : ~ In (k_to c) (Nd s p)). { intros X. apply existsb_in in X. congruence. }
  destruct (k_end c <=? Ar s p) eqn:Ee.
  { exists s. split; [reflexivity|]. split; [assumption|]. split; [|tauto]. intros c' Hc' Hf' (Ho' & _). assert (c' = c) by congruence. subst c'. lia. }
  destruct (N.eqb (volume c) 0) eqn:Eo.
  { exists s. split; [reflexivity|]. split; [assumption|]. split; [|tauto]. intros c' Hc' Hf' (_ & Ho'). assert (c' = c) by congruence. subst c'.
    apply N.eqb_eq in Eo. apply volume_zero in Eo; [tauto|]. now apply (plan_at i). }
  assert (Hcar : carries c).
  { destruct (Z.eq_dec ((Z.of_N (k_rate c) * (k_end c - k_start c)) mod 2 ^ 64) 0) as [X|X]; [|exact X].
    exfalso. apply N.eqb_neq in Eo. apply Eo. apply volume_zero; [now apply (plan_at i)|]. unfold carries. tauto. }
  replace (N.eqb (k_frm cur) (k_to c) && N.eqb (k_to cur) (k_frm c))%bool with false.
  2:{ symmetry. apply andb_false_iff. left. apply N.eqb_neq. intros X. apply Hnin. rewrite <- X. apply (nodes_frm s D _ p cur C Rp). }
  assert (Ea : (if k_start c <? Ar s p then tadd (Ar s p) (k_owlt c) else tadd (k_start c) (k_owlt c)) =
    Some (Z.max (k_start c) (Ar s p) + k_owlt c)).
  { destruct (k_start c <? Ar s p) eqn:El; rewrite tadd_ok; try (f_equal; lia); unfold min_time, max_time in *; lia. }
  rewrite Ea. set (a := Z.max (k_start c) (Ar s p) + k_owlt c).
  assert (Hse : k_start c <> k_end c).
  { intros X. apply Hcar. rewrite X, Z.sub_diag, Z.mul_0_r. reflexivity. }
  assert (Ha : a < max_time) by (unfold a; lia).
  assert (Hge : Ar s p <= a) by (unfold a; lia).
  assert (HiD : ~ In (At i) D). { intros X. apply (i_vis _ _ _ C) in X. congruence. }
  assert (Hip : p <> At i).
  { intros ->. cbn in Hp. assert (cur = c) by congruence. subst cur. apply Hnin. apply (nodes_self s D _ (At i) c C Rp). }
  destruct (a <=? w_arr (d_work s i)) eqn:El.
  2:{ exists s. split; [reflexivity|]. split; [assumption|]. split; [|tauto]. intros c' Hc' Hf' (_ & Ho'). assert (c' = c) by congruence. subst c'.
      exists (At i), c. repeat split; try assumption; cbn [area]; fold a; lia. }
  set (w' := mkWork a false (Some p) (Nd s p ++ [k_to c])).
  assert (G : forall b f,
    (f = d_final s /\ b = d_best s /\ (k_to c = dest -> d_best s <= a)) \/ (f = Some i /\ b = a /\ k_to c = dest /\ a < d_best s) ->
    inv D p (mkDst (set_work (d_work s) i w') b f) /\ closed_at (mkDst (set_work (d_work s) i w') b f) p cur i /\
    (forall d j, closed_at s p d j -> closed_at (mkDst (set_work (d_work s) i w') b f) p d j)).
  { intros b f Hbf. set (s' := mkDst (set_work (d_work s) i w') b f).
    assert (Keep : forall q, q <> At i -> area root t0 s' q = area root t0 s q) by (intros q Hq; now apply area_set).
    assert (Same : area root t0 s' (At i) = w') by apply area_set_same.
    assert (Mono : forall q e, reached s q e -> reached s' q e /\ Ar s' q <= Ar s q).
    { intros q e (H1 & H2). destruct (Nat.eq_dec 0 0) as [_|]; [|tauto].
      assert (X : q = At i \/ q <> At i). { destruct q as [|j]; [right; discriminate|]. destruct (Nat.eq_dec j i); [left|right]; congruence. }
      destruct X as [->|X].
      - unfold reached. rewrite Same. cbn [w' w_arr]. repeat split; [assumption|assumption|]. cbn [area]. lia.
      - unfold reached. rewrite (Keep q X). repeat split; try assumption. lia. }
    assert (Hset : forall q, settled_by D p q -> q <> At i). { intros q [Hq| ->]; [|assumption]. intros ->. tauto. }
    assert (Cl : forall q d j, settled_by D p q -> closed_at s q d j -> closed_at s' q d j).
    { intros q d j Hq H c' Hc' Hf' Ho'. rewrite (Keep q (Hset q Hq)) in Ho' |- *.
      apply (by_time_mono s s' _ _ _ Mono (Z.le_refl _)). apply H; assumption. }
    assert (Self : reached s' (At i) c). { split; [exact Hn|]. rewrite Same. exact Ha. }
    split; [split|split].
    - split.
      + intros j. rewrite <- (i_vis _ _ _ C j). cbn. unfold set_work. destruct (Nat.eqb_spec j i) as [->|]; [|tauto]. cbn. rewrite Ev. tauto.
      + intros q Hq. destruct (i_reach _ _ _ C q Hq) as (d & Hd). exists d. now apply Mono.
      + intros j e Hj Hlt. destruct (Nat.eq_dec j i) as [->|Hji].
        * assert (e = c) by congruence. subst e. exists p, cur. rewrite (Keep p Hip), Same. cbn [s' d_work]. unfold set_work.
          rewrite Nat.eqb_refl. cbn [w' w_pred w_arr w_nodes].
          repeat split; try assumption; try reflexivity; [now right|lia].
        * assert (X : At j <> At i) by congruence. rewrite (Keep _ X) in Hlt.
          destruct (i_link _ _ _ C j e Hj Hlt) as (q & d & P1 & P2 & P3 & P4 & P5 & P6 & P7 & P8).
          exists q, d. rewrite (Keep _ X), (Keep q (Hset q P2)). cbn [s' d_work]. unfold set_work.
          destruct (Nat.eqb_spec j i) as [|_]; [tauto|]. tauto.
      + intros q d j Hq Hd. apply Cl; [now left|]. now apply (i_closed _ _ _ C).
      + intros q j e Hq Hj HjD. rewrite (Keep q (Hset q Hq)). destruct (Nat.eq_dec j i) as [->|Hji].
        * rewrite Same. cbn [w' w_arr]. destruct Hq as [Hq| ->]; [pose proof (v_last _ _ _ V q Hq)|]; lia.
        * rewrite (Keep (At j)) by congruence. apply (i_order _ _ _ C q j e); assumption.
      + cbn [s' d_final d_best]. destruct Hbf as [(-> & -> & Hd)|(-> & -> & Hd & Hlt)].
        * pose proof (i_best _ _ _ C) as B. destruct (d_final s) as [g|]; [|exact B].
          destruct B as (e & B1 & B2 & B3 & B4). exists e. repeat split; try assumption.
          destruct (Nat.eq_dec g i) as [->|X]; [|rewrite Keep by congruence; exact B3].
          rewrite Same. cbn [w' w_arr]. assert (e = c) by congruence. subst e. specialize (Hd B2). cbn [area] in B3. lia.
        * exists c. rewrite Same. repeat split; try assumption.
      + intros j e Hj Hlt Hd. cbn [s' d_best]. destruct (Nat.eq_dec j i) as [->|X].
        * rewrite Same. cbn [w' w_arr]. assert (e = c) by congruence. subst e.
          destruct Hbf as [(-> & -> & Hd')|(-> & -> & _)]; [auto|lia].
        * rewrite Keep in Hlt |- * by congruence. pose proof (i_min _ _ _ C j e Hj Hlt Hd).
          destruct Hbf as [(-> & -> & _)|(-> & -> & _ & HH)]; lia.
      + apply (i_nodup _ _ _ C).
    - apply (v_new _ _ _ V).
    - intros q Hq. rewrite (Keep p Hip), (Keep q) by (apply Hset; now left). now apply (v_last _ _ _ V).
    - intros c' Hc' Hf' Ho'. assert (c' = c) by congruence. subst c'. exists (At i), c. rewrite (Keep p Hip), Same.
      cbn [w' w_arr]. repeat split; try apply Self. fold a. lia.
    - intros d j. apply Cl. now right. }
  destruct (N.eqb (k_to c) dest && (a <? d_best s))%bool eqn:Ed.
  - eexists. split; [reflexivity|]. apply G. right. rewrite andb_true_iff, N.eqb_eq, Z.ltb_lt in Ed. tauto.
  - eexists. split; [reflexivity|]. apply G. left. repeat split. intros X. rewrite andb_false_iff, N.eqb_neq, Z.ltb_ge in Ed. tauto.
Qed.

Lemma relax_all_ok D p cur : dr p = Some cur -> forall l s, inv D p s ->
  (forall i, In i l -> exists c, nth_error plan i = Some c /\ k_frm c = k_to cur) ->
  exists s', relax_all plan root t0 dest p cur s l = Some s' /\ inv D p s' /\
    (forall i, In i l -> closed_at s' p cur i) /\ (forall d j, closed_at s p d j -> closed_at s' p d j).
Proof.
  intros Hp. induction l as [|i l IH]; intros s V Hl.
  - exists s. split; [reflexivity|]. split; [assumption|]. split; [intros i []|tauto].
  - destruct (Hl i (or_introl eq_refl)) as (c & Hc & Hf). destruct (relax_ok D p cur s i c V Hp Hc Hf) as (s1 & E & V1 & K & M).
    destruct (IH s1 V1 (fun j Hj => Hl j (or_intror Hj))) as (s2 & E2 & V2 & K2 & M2).
    exists s2. cbn. rewrite E. split; [assumption|]. split; [assumption|]. split.
    + intros j [<-|Hj]; [|auto]. now apply M2.
    + intros d j Hj. now apply M2, M.
Qed.
Lemma neighbours_in n i : In i (neighbours plan n) <-> exists c, nth_error plan i = Some c /\ k_frm c = n.
Proof.
  unfold neighbours. rewrite filter_In, in_seq. split.
  - intros (_ & H). destruct (nth_error plan i) as [c|]; [|discriminate]. exists c. apply N.eqb_eq in H. tauto.
  - intros (c & H & E). rewrite H. split; [|now apply N.eqb_eq]. assert (i < length plan)%nat by (apply nth_error_Some; congruence). lia.
Qed.

(** * The next contact *)
Definition pickable (s : dst) (i : nat) : Prop := w_vis (d_work s i) = false /\ w_arr (d_work s i) <= d_best s /\ w_arr (d_work s i) < max_time.
Lemma next_spec s l acc :
  (forall e i, acc = Some (e, i) -> pickable s i /\ e = w_arr (d_work s i)) ->
  let r := fold_left (fun acc i =>
    let w := d_work s i in
    if w_vis w then acc else
    if d_best s <? w_arr w then acc else
    if w_arr w <? match acc with Some (e, _) => e | None => max_time end then Some (w_arr w, i) else acc) l acc in
  match r with
  | None => acc = None /\ forall i, In i l -> ~ pickable s i
  | Some (e, i) => pickable s i /\ e = w_arr (d_work s i) /\ (In i l \/ acc = Some (e, i)) /\
      (forall j, In j l -> pickable s j -> e <= w_arr (d_work s j)) /\ (forall e' j, acc = Some (e', j) -> e <= e')
  end.
Proof.
  revert acc. induction l as [|x l IH]; intros acc Ha; cbn [fold_left].
  - cbn. destruct acc as [[e i]|].
    + destruct (Ha e i eq_refl) as (H1 & H2). repeat split; try apply H1; try assumption; [now right|intros j []|].
      intros e' j E. injection E as -> ->. lia.
    + split; [reflexivity|intros i []].
  - set (acc' := if w_vis (d_work s x) then acc else if d_best s <? w_arr (d_work s x) then acc else
      if w_arr (d_work s x) <? match acc with Some (e, _) => e | None => max_time end then Some (w_arr (d_work s x), x) else acc).
    assert (Ha' : forall e i, acc' = Some (e, i) -> pickable s i /\ e = w_arr (d_work s i)).
    { intros e i. unfold acc'. destruct (w_vis (d_work s x)) eqn:Ev; [apply Ha|]. destruct (d_best s <? w_arr (d_work s x)) eqn:Eb; [apply Ha|].
      destruct (w_arr (d_work s x) <? _) eqn:El; [|apply Ha]. intros E. injection E as <- <-. split; [|reflexivity]. split; [assumption|].
      split; [lia|]. destruct acc as [[e i]|]; [|lia]. destruct (Ha e i eq_refl) as ((_ & _ & H) & ->). lia. }
    specialize (IH acc' Ha'). cbn zeta in IH |- *. fold acc'.
    assert (Px : forall e, match acc' with Some (e', _) => e <= e' | None => True end -> pickable s x -> acc' <> None /\ (e <= w_arr (d_work s x))).
    { intros e He (P1 & P2 & P3). unfold acc' in *. rewrite P1 in *. destruct (d_best s <? w_arr (d_work s x)) eqn:Eb; [lia|].
      destruct acc as [[e1 i1]|]; [destruct (w_arr (d_work s x) <? e1) eqn:El|destruct (w_arr (d_work s x) <? max_time) eqn:El]; (split; [discriminate|]) || idtac; lia. }
    assert (Pa : forall e i, acc = Some (e, i) -> match acc' with Some (e', _) => e' <= e | None => False end).
    { intros e i ->. unfold acc'. destruct (w_vis (d_work s x)); [lia|]. destruct (d_best s <? w_arr (d_work s x)); [lia|].
      destruct (w_arr (d_work s x) <? e) eqn:El; lia. }
    destruct (fold_left _ l acc') as [[e i]|].
    + destruct IH as (H1 & H2 & H3 & H4 & H5). split; [assumption|]. split; [assumption|]. split; [|split].
      * destruct H3 as [H3|H3]; [left; now right|]. unfold acc' in H3. destruct (w_vis (d_work s x)); [now right|].
        destruct (d_best s <? w_arr (d_work s x)); [now right|]. destruct (w_arr (d_work s x) <? _); [|now right].
        injection H3 as _ ->. left. now left.
      * intros j [<-|Hj] Pj; [|auto]. apply (Px e); [|assumption]. destruct acc' as [[e' j']|]; [|trivial]. now apply (H5 e' j').
      * intros e' j E. specialize (Pa e' j E). destruct acc' as [[e2 j2]|]; [|tauto]. specialize (H5 e2 j2 eq_refl). lia.
    + destruct IH as (H1 & H2). split.
      * destruct acc as [[e i]|]; [|reflexivity]. specialize (Pa e i eq_refl). rewrite H1 in Pa. tauto.
      * intros j [<-|Hj]; [|auto]. intros P. destruct (Px 0) as (X & _); [now rewrite H1|assumption|tauto].
Qed.
Lemma next_none s : next_contact plan s = None -> forall i, (i < length plan)%nat -> ~ pickable s i.
Proof.
  unfold next_contact. intros E i Hi. pose proof (next_spec s (seq 0 (length plan)) None) as H. cbn zeta in H. rewrite E in H.
  destruct H as (_ & H); [discriminate|]. apply H. apply in_seq. lia.
Qed.
Lemma next_some s e i : next_contact plan s = Some (e, i) ->
  (i < length plan)%nat /\ pickable s i /\ forall j, (j < length plan)%nat -> pickable s j -> w_arr (d_work s i) <= w_arr (d_work s j).
Proof.
  unfold next_contact. intros E. pose proof (next_spec s (seq 0 (length plan)) None) as H. cbn zeta in H. rewrite E in H.
  destruct H as (H1 & H2 & H3 & H4 & _); [discriminate|]. destruct H3 as [H3|]; [|discriminate]. apply in_seq in H3.
  split; [lia|]. split; [assumption|]. intros j Hj Pj. rewrite <- H2. apply H4; [apply in_seq; lia|assumption].
Qed.

(** * The search *)
Lemma visit_area s p q : w_arr (area root t0 (visit s p) q) = Ar s q /\ w_nodes (area root t0 (visit s p) q) = Nd s q /\
  w_pred (area root t0 (visit s p) q) = w_pred (area root t0 s q).
Proof.
  destruct p as [|i]; [tauto|]. destruct q as [|j]; [tauto|]. cbn. unfold set_work. destruct (Nat.eqb_spec j i) as [->|]; tauto.
Qed.
Lemma visit_arr s p q : w_arr (area root t0 (visit s p) q) = Ar s q. Proof. apply visit_area. Qed.
Lemma visit_nodes s p q : w_nodes (area root t0 (visit s p) q) = Nd s q. Proof. apply visit_area. Qed.
Lemma visit_best s p : d_best (visit s p) = d_best s /\ d_final (visit s p) = d_final s.
Proof. destruct p; split; reflexivity. Qed.
Lemma visit_vis s p i : w_vis (d_work (visit s p) i) = true <-> p = At i \/ w_vis (d_work s i) = true.
Proof.
  destruct p as [|j]; cbn; [split; [tauto|]; intros [H|H]; [discriminate|assumption]|].
  unfold set_work. destruct (Nat.eqb_spec i j) as [->|Hne]; cbn; [tauto|]. split; [tauto|]. intros [H|H]; [congruence|assumption].
Qed.
Lemma visit_by_time s p n t : by_time (visit s p) n t <-> by_time s n t.
Proof.
  unfold by_time, reached. split; intros (w & d & (H1 & H2) & H3 & H4); exists w, d; rewrite visit_arr in *; tauto.
Qed.
Lemma visit_closed s p q d i : closed_at (visit s p) q d i <-> closed_at s q d i.
Proof. unfold closed_at. rewrite visit_arr. split; intros H c H1 H2 H3; apply (visit_by_time s p); auto. Qed.

Lemma visit_ok D p cur s : inv D p s -> dr p = Some cur ->
  (forall i, In i (neighbours plan (k_to cur)) -> closed_at s p cur i) ->
  core (p :: D) (fun q => In q (p :: D)) (visit s p).
Proof.
  intros V Hp Hcl. pose proof (v_core _ _ _ V) as C.
  assert (Es : forall q, In q (p :: D) <-> settled_by D p q). { intros q. unfold settled_by. cbn. intuition congruence. }
  split.
  - intros i. rewrite visit_vis, (i_vis _ _ _ C i). cbn. tauto.
  - intros q Hq. apply Es in Hq. destruct (i_reach _ _ _ C q Hq) as (d & H1 & H2). exists d. split; [assumption|]. now rewrite visit_arr.
  - intros i c Hc Hlt. rewrite visit_arr in Hlt. destruct (i_link _ _ _ C i c Hc Hlt) as (q & d & P1 & P2 & P3 & P4 & P5 & P6 & P7 & P8).
    exists q, d. rewrite !visit_arr, !visit_nodes. split; [|rewrite Es; tauto].
    pose proof (visit_area s p (At i)) as (_ & _ & X). cbn [area] in X. now rewrite X.
  - intros q d i [<-|Hq] Hd; apply visit_closed.
    + assert (d = cur) by congruence. subst d. intros c Hc Hf Ho. apply (Hcl i); try assumption. apply neighbours_in. eauto.
    + now apply (i_closed _ _ _ C).
  - intros q i c Hq Hc Hn. rewrite !visit_arr. apply Es in Hq. apply (i_order _ _ _ C q i c Hq Hc). intros X. apply Hn. now right.
  - destruct (visit_best s p) as (-> & ->). pose proof (i_best _ _ _ C) as B. destruct (d_final s); [|exact B].
    destruct B as (c & B). exists c. rewrite visit_arr. exact B.
  - intros i c Hc Hlt Hd. rewrite visit_arr in *. destruct (visit_best s p) as (-> & _). eapply (i_min _ _ _ C); eauto.
  - constructor; [apply (v_new _ _ _ V)|apply (i_nodup _ _ _ C)].
Qed.
Lemma done_length D settled s : core D settled s -> (forall q, In q D -> settled q) -> (length D <= S (length plan))%nat.
Proof.
  intros C H. rewrite <- (seq_length (length plan) 0). rewrite <- (map_length At). change (S (length (map At (seq 0 (length plan))))) with
    (length (Root :: map At (seq 0 (length plan)))). apply NoDup_incl_length; [apply (i_nodup _ _ _ C)|].
  intros q Hq. destruct (i_reach _ _ _ C q (H q Hq)) as (d & Hd & _). destruct q as [|i]; [now left|]. right. apply in_map. apply in_seq.
  cbn in Hd. assert (i < length plan)%nat by (apply nth_error_Some; congruence). lia.
Qed.
Lemma search_ok : forall fuel D p s, inv D p s -> In Root (p :: D) -> (S (length plan) <= fuel + length D)%nat ->
  exists s' D', search plan root t0 dest fuel p s = Some s' /\ core D' (fun q => In q D') s' /\ In Root D' /\ next_contact plan s' = None.
Proof.
  induction fuel as [|f IH]; intros D p s V HR Hf; pose proof (v_core _ _ _ V) as C.
  - exfalso. destruct (i_reach _ _ _ C p (or_intror eq_refl)) as (d & Hd & _).
    assert (X : core (p :: D) (settled_by D p) s -> False).
    { intros X. apply done_length in X; [cbn in X; lia|]. intros q [<-|Hq]; [now right|now left]. }
    assert (Y : (length (p :: D) <= S (length plan))%nat).
    { rewrite <- (seq_length (length plan) 0), <- (map_length At).
      change (S (length (map At (seq 0 (length plan))))) with (length (Root :: map At (seq 0 (length plan)))).
      apply NoDup_incl_length; [constructor; [apply (v_new _ _ _ V)|apply (i_nodup _ _ _ C)]|].
      intros q Hq. assert (Hs : settled_by D p q) by (destruct Hq as [<-|Hq]; [now right|now left]).
      destruct (i_reach _ _ _ C q Hs) as (e & He & _). destruct q as [|i]; [now left|]. right. apply in_map. apply in_seq.
      cbn in He. assert (i < length plan)%nat by (apply nth_error_Some; congruence). lia. }
    cbn in Y. lia.
  - destruct (i_reach _ _ _ C p (or_intror eq_refl)) as (cur & Hp & _). cbn [search]. rewrite Hp.
    destruct (relax_all_ok D p cur Hp (neighbours plan (k_to cur)) s V) as (s1 & E & V1 & K & _).
    { intros i Hi. now apply neighbours_in. }
    rewrite E. pose proof (visit_ok D p cur s1 V1 Hp K) as C2. destruct (next_contact plan (visit s1 p)) as [[e i]|] eqn:En.
    2:{ exists (visit s1 p), (p :: D). repeat split; try assumption; apply C2. }
    apply next_some in En. destruct En as (Hi & (P1 & P2 & P3) & Hmin).
    destruct (nth_error plan i) as [c|] eqn:Hc; [|apply nth_error_None in Hc; lia].
    assert (HiD : ~ In (At i) (p :: D)). { intros X. apply (i_vis _ _ _ C2) in X. congruence. }
    apply (IH (p :: D) (At i) (visit s1 p)); [|right; exact HR|cbn; lia].
    split; [|exact HiD|intros q Hq; eapply (i_order _ _ _ C2); eauto].
    assert (Hlast : forall q, In q (p :: D) -> Ar (visit s1 p) q <= Ar (visit s1 p) (At i)) by (intros q Hq; eapply (i_order _ _ _ C2); eauto).
    split.
    + apply C2.
    + intros q [Hq| ->]; [now apply (i_reach _ _ _ C2)|]. exists c. split; [exact Hc|exact P3].
    + intros j d Hd Hlt. destruct (i_link _ _ _ C2 j d Hd Hlt) as (q & g & Q). exists q, g. unfold settled_by. tauto.
    + apply C2.
    + intros q j d [Hq| ->] Hd HjD; [now apply (i_order _ _ _ C2 q j d)|].
      cbn [area]. destruct (Z_le_gt_dec (w_arr (d_work (visit s1 p) i)) (w_arr (d_work (visit s1 p) j))) as [|G]; [assumption|]. exfalso.
      assert (Hj : (j < length plan)%nat) by (apply nth_error_Some; congruence).
      assert (Pj : pickable (visit s1 p) j).
      { split; [|lia]. destruct (w_vis (d_work (visit s1 p) j)) eqn:X; [|reflexivity]. apply (i_vis _ _ _ C2) in X. tauto. }
      specialize (Hmin j Hj Pj). lia.
    + apply C2.
    + apply C2.
    + apply C2.
Qed.
Definition dst0 : dst := mkDst (fun _ => work0) max_time None.
Lemma inv0 : inv [] Root dst0.
Proof.
  split; [split|..]; cbn.
  - intros i. split; [discriminate|tauto].
  - intros q [[]| ->]. exists root. split; [reflexivity|trivial].
  - intros i c _ H. lia.
  - tauto.
  - intros q i c [[]| ->] _ _. cbn. rewrite <- tmax_max. exact Ht0.
  - reflexivity.
  - intros i c _ H. lia.
  - constructor.
  - tauto.
  - tauto.
Qed.
Lemma search_done : exists s D, search plan root t0 dest (S (length plan)) Root dst0 = Some s /\ core D (fun q => In q D) s /\ In Root D /\
  next_contact plan s = None.
Proof. apply (search_ok (S (length plan)) [] Root dst0 inv0); [now left|cbn; lia]. Qed.

(** Whatever journey there is, the search has found something as early, or has found the destination as early. *)
Lemma search_early s D : core D (fun q => In q D) s -> In Root D -> next_contact plan s = None ->
  forall x t l, jour x t l -> by_time s x t \/ d_best s <= t.
Proof.
  intros C HR Hn x t l J. induction J as [|x t l c J IH Hc Hf Ho].
  - left. exists Root, root. repeat split. cbn. lia.
  - assert (Hge : t <= Z.max (k_start c) t + k_owlt c).
    { destruct (In_nth_error _ _ Hc) as (i & Hi). destruct (plan_at _ _ Hi) as (_ & X & _). lia. }
    destruct IH as [(w & d & Hr & Hk & Hl)|IH]; [|right; lia].
    assert (X : In w D \/ d_best s <= t).
    { destruct w as [|i]; [now left|]. destruct (w_vis (d_work s i)) eqn:Ev; [left; now apply (i_vis _ _ _ C)|]. right.
      destruct (Z_le_gt_dec (d_best s) t) as [|G]; [assumption|]. exfalso.
      assert (Hi : (i < length plan)%nat) by (apply nth_error_Some; destruct Hr as (Hr & _); cbn in Hr; congruence).
      apply (next_none s Hn i Hi). destruct Hr as (_ & Hr). cbn [area] in Hr, Hl. repeat split; [assumption|lia|assumption]. }
    destruct X as [X|X]; [|right; lia].
    destruct (In_nth_error _ _ Hc) as (i & Hi).
    destruct (i_closed _ _ _ C w d i X (proj1 Hr) c Hi) as (w' & d' & Hr' & Hk' & Hl').
    + now rewrite Hk.
    + destruct Ho as (Ho & Hca). split; [lia|assumption].
    + left. exists w', d'. repeat split; try apply Hr'; try assumption. lia.
Qed.

(** * Following the predecessors *)
Lemma chain s D : core D (fun q => In q D) s -> forall k p c, length (Nd s p) = k -> reached s p c ->
  exists l, jour (k_to c) (Ar s p) l /\ Nd s p = src :: stops l /\ length l = Nat.pred k /\
    (forall fuel acc, (k <= fuel)%nat -> back plan root t0 fuel s p acc = Some (l ++ acc)).
Proof.
  intros C. induction k as [k IH] using lt_wf_ind. intros p c Hk Hr. destruct p as [|i].
  - cbn in Hr. destruct Hr as (Hr & _). injection Hr as <-. exists []. cbn in Hk. subst k. repeat split; try constructor.
    intros [|f] acc Hf; [lia|]. cbn. now rewrite contact_eq_refl.
  - destruct Hr as (Hd & Hlt). cbn in Hd.
    destruct (i_link _ _ _ C i c Hd Hlt) as (q & d & P1 & P2 & P3 & P4 & P5 & P6 & P7 & P8).
    destruct (i_reach _ _ _ C q P2) as (d' & Hq). assert (d' = d) by (destruct Hq as (X & _); congruence). subst d'.
    assert (Hlen : length (Nd s q) = Nat.pred k) by (rewrite <- Hk, P7, app_length; cbn; lia).
    assert (Hk0 : (0 < k)%nat) by (rewrite <- Hk, P7, app_length; cbn; lia).
    destruct (IH (Nat.pred k) ltac:(lia) q d Hlen Hq) as (l & J & N & L & B).
    exists (l ++ [c]). repeat split.
    + rewrite P6. apply J_hop with (x := k_to d); try assumption. now apply (nth_error_In _ i).
    + rewrite P7, N. unfold stops. rewrite map_app. reflexivity.
    + rewrite app_length, L. cbn. assert (0 < Nat.pred k)%nat; [|lia]. rewrite <- Hlen, N. cbn. lia.
    + intros [|f] acc Hf; [lia|]. cbn [back deref area]. rewrite Hd.
      destruct (contact_eq c root) eqn:E.
      { apply contact_eq_true in E. destruct E as (_ & E & _). exfalso. apply P8. rewrite E, N. now left. }
      rewrite P1, <- app_assoc. apply B. lia.
Qed.
Lemma stops_nodup_length l : NoDup (stops l) -> incl l plan -> (length l <= length plan)%nat.
Proof. intros H. apply NoDup_incl_length. apply NoDup_map_inv with (f := k_to). exact H. Qed.

(** What the search finds, before it is made a route. *)
Lemma search_result :
  match search plan root t0 dest (S (length plan)) Root dst0 with
  | None => False
  | Some s =>
    match d_final s with
    | None => k_to root <> dest -> forall t l, ~ jour dest t l
    | Some i => exists t l, jour dest t l /\ NoDup (src :: stops l) /\ l <> [] /\ (forall t' l', jour dest t' l' -> dest <> src -> t <= t') /\
        back plan root t0 (S (S (length plan))) s (At i) [] = Some l /\ dest <> src
    end
  end.
Proof.
  destruct search_done as (s & D & E & C & HR & Hn). rewrite E.
  pose proof (search_early s D C HR Hn) as Early. pose proof (i_best _ _ _ C) as B.
  assert (Best : forall t l, jour dest t l -> k_to root <> dest -> d_best s <= t /\ d_best s < max_time).
  { intros t l J Hne. destruct (Early _ _ _ J) as [(w & d & (Hd & Hr) & Hk & Hl)|H].
    - destruct w as [|i]; [cbn in Hd; injection Hd as <-; tauto|]. pose proof (i_min _ _ _ C i d Hd Hr Hk). lia.
    - split; [assumption|]. assert (t < max_time); [|lia]. clear - J Hne Hplan. inversion J as [|x u l' c J' Hc Hf Ho]; [congruence|]. subst.
      unfold plan_ok in Hplan. rewrite Forall_forall in Hplan. destruct (Hplan _ Hc) as (H1 & H2 & H3 & _). rewrite tmax_max in H3.
      destruct Ho as (Ho & Hca). assert (k_start c <> k_end c); [|lia]. intros X. apply Hca. rewrite X, Z.sub_diag, Z.mul_0_r. reflexivity. }
  destruct (d_final s) as [i|].
  - destruct B as (c & B1 & B2 & B3 & B4).
    assert (Hr : reached s (At i) c) by (split; [exact B1|rewrite B3; exact B4]).
    destruct (chain s D C _ (At i) c eq_refl Hr) as (l & J & N & L & Bk). rewrite B2 in J.
    assert (ND : NoDup (src :: stops l)) by (rewrite <- N; apply (nodes_nodup s D _ C _ _ _ eq_refl Hr)).
    assert (Hl : l <> []).
    { intros ->. destruct (i_link _ _ _ C i c B1) as (q & d & _ & P2 & _ & _ & _ & _ & P7 & _); [rewrite B3; exact B4|].
      destruct (i_reach _ _ _ C q P2) as (g & Hg). pose proof (nodes_self s D _ q g C Hg) as X.
      rewrite P7 in N. destruct (Nd s q) as [|a [|b m]]; [destruct X|discriminate|discriminate]. }
    assert (Hds : dest <> src).
    { intros ->. pose proof (journey_last _ _ _ _ _ _ _ J) as X. inversion ND as [|? ? Hnin ND']; subst. apply Hnin. rewrite X at 1.
      destruct (exists_last Hl) as (l0 & z & ->). unfold stops. rewrite map_app. cbn. rewrite last_last. apply in_or_app. right. now left. }
    exists (Ar s (At i)), l. split; [exact J|]. split; [exact ND|]. split; [exact Hl|]. split; [|split; [|exact Hds]].
    + intros t' l' J' _. rewrite B3. destruct (Best t' l' J'); [congruence|assumption].
    + rewrite (Bk (S (S (length plan))) []); [now rewrite app_nil_r|].
      rewrite N. cbn. unfold stops. rewrite map_length. apply le_n_S.
      inversion ND as [|? ? _ ND']. pose proof (stops_nodup_length l ND' (journey_in _ _ _ _ _ _ _ J)). lia.
  - intros Hne t l J. destruct (Best t l J Hne). lia.
Qed.
End Search.
