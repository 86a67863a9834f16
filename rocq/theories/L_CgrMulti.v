(** Lemmas for P_CgrMulti: the search over the contact multigraph. *)
From Coq Require Import NArith ZArith List Bool Lia ZifyBool ZifyN Arith Permutation Sorted.
From Verif Require Import Base M_Cgr S_Cgr L_Cgr L_CgrRoute.
Import ListNotations.
Open Scope Z_scope.

(** * The binary search *)
Definition increasing (l : list Z) : Prop := forall i j a b, (i < j)%nat -> nth_error l i = Some a -> nth_error l j = Some b -> a < b.
Definition found (l : list Z) (t : Z) (x : nat) : Prop :=
  (x < length l)%nat /\ (forall y e, (y < x)%nat -> nth_error l y = Some e -> e <= t) /\
  ((exists e, nth_error l x = Some e /\ t < e) \/ x = (length l - 1)%nat).
Lemma bsearch_ok l t : increasing l -> forall fuel left right, (left <= right < length l)%nat -> (right - left <= fuel)%nat ->
  (exists e, nth_error l left = Some e /\ e <= t) -> ((exists e, nth_error l right = Some e /\ t < e) \/ right = (length l - 1)%nat) ->
  exists x, bsearch l t fuel left right = Some x /\ found l t x.
Proof.
  intros Inc. assert (Below : forall i e, nth_error l i = Some e -> e <= t -> forall y f, (y <= i)%nat -> nth_error l y = Some f -> f <= t).
  { intros i e Hi He y f Hy Hf. destruct (Nat.eq_dec y i) as [->|]; [assert (f = e) by congruence; lia|]. specialize (Inc y i f e ltac:(lia) Hf Hi). lia. }
  induction fuel as [|f IH]; intros left right Hb Hf (e & He & Hle) Hr; cbn [bsearch].
  - replace (Nat.ltb (left + 1) right) with false by (symmetry; apply Nat.ltb_ge; lia). exists right. split; [reflexivity|].
    split; [lia|]. split; [|assumption]. intros y g Hy Hg. assert (left = right) by lia. subst. apply (Below right e He Hle y g ltac:(lia) Hg).
  - destruct (Nat.ltb_spec (left + 1) right) as [H|H].
    + set (mid := Nat.div2 (left + right)). assert (Hm : (left < mid < right)%nat).
      { unfold mid. rewrite Nat.div2_div. split.
        - apply Nat.lt_le_trans with (m := ((2 * left + 2) / 2)%nat).
          + replace (2 * left + 2)%nat with ((left + 1) * 2)%nat by lia. rewrite Nat.div_mul; lia.
          + apply Nat.div_le_mono; lia.
        - apply Nat.div_lt_upper_bound; lia. }
      destruct (nth_error l mid) as [g|] eqn:Eg; [|apply nth_error_None in Eg; lia].
      destruct (Z.ltb_spec t g) as [Hg|Hg].
      * apply IH; try lia; [exists e; tauto|left; exists g; tauto].
      * apply IH; try lia; [exists g; tauto|assumption].
    + exists right. split; [reflexivity|]. split; [lia|]. split; [|assumption]. intros y g Hy Hg. apply (Below left e He Hle y g ltac:(lia) Hg).
Qed.
Lemma search_index_ok l t : increasing l -> l <> [] -> exists x, search_index l t = Some x /\ found l t x.
Proof.
  intros Inc Hl. destruct l as [|e r] eqn:El; [tauto|]. unfold search_index.
  destruct (Z.ltb_spec t e) as [H|H].
  - exists 0%nat. split; [reflexivity|]. split; [cbn; lia|]. split; [intros y g Hy; lia|]. left. exists e. split; [reflexivity|assumption].
  - apply bsearch_ok; try assumption; try (cbn [length]; lia).
    exists e. split; [reflexivity|assumption].
Qed.

(** * The queue *)
Lemma before_false y x : before y x = false <-> fst x < fst y \/ (fst x = fst y /\ (snd x <= snd y)%N).
Proof. unfold before. destruct (Z.eqb_spec (fst y) (fst x)); [rewrite N.ltb_ge|rewrite Z.ltb_ge]; lia. Qed.
Lemma pq_pop_ok l : match pq_pop l with
  | None => l = []
  | Some (x, q) => Permutation l (x :: q) /\ forall y, In y q -> before y x = false
  end.
Proof.
  induction l as [|x r IH]; [reflexivity|]. cbn. destruct (pq_pop r) as [[y q]|].
  - destruct IH as (P & H). destruct (before y x) eqn:E.
    + split; [rewrite P; apply perm_swap|]. intros z [<-|Hz]; [|now apply H]. apply before_false. unfold before in E.
      destruct (Z.eqb_spec (fst y) (fst x)); [apply N.ltb_lt in E|apply Z.ltb_lt in E]; lia.
    + split; [reflexivity|]. intros z Hz. apply (Permutation_in _ P) in Hz. destruct Hz as [<-|Hz]; [assumption|].
      apply before_false. apply before_false in E. specialize (H z Hz). apply before_false in H. lia.
  - subst. split; [constructor; constructor|intros y []].
Qed.

Section Multi.
Variable plan : list contact.
Variable src dest : N.
Variable t0 : Z.
Variable order : N -> list N.
Hypothesis Hplan : plan_ok plan.
Hypothesis Hne : Forall (fun c => k_start c < k_end c) plan.
Hypothesis Hov : no_overlap plan.
Hypothesis Hdel : same_delays plan.
Notation ns := (nodes plan dest).
Notation jour := (journey unended plan src t0).

Lemma at_ok i c : nth_error plan i = Some c -> contact_ok c /\ k_start c < k_end c /\ In c plan.
Proof.
  intros H. apply nth_error_In in H. unfold plan_ok in Hplan. rewrite Forall_forall in Hplan, Hne. auto.
Qed.

(** * The adjacencies *)
Definition starts_after (i j : nat) : Prop := forall a b, nth_error plan i = Some a -> nth_error plan j = Some b -> k_end a <= k_start b.
(** [l] is all contacts from [v] to [u] among the first [n], in order of time. *)
Definition sorted_adj (n : nat) (v u : N) (l : list nat) : Prop :=
  StronglySorted starts_after l /\
  (forall i, In i l <-> exists c, nth_error plan i = Some c /\ (i < n)%nat /\ k_frm c = v /\ k_to c = u).
Lemma sorted_ends n v u l : sorted_adj n v u l -> increasing (ends_of plan l).
Proof.
  intros (S & M). assert (M' : forall i, In i l -> exists c, nth_error plan i = Some c) by (intros i Hi; apply M in Hi; destruct Hi as (c & Hc & _); eauto).
  clear M. intros i j a b Hij. unfold ends_of. rewrite !nth_error_map. intros Ha Hb.
  destruct (nth_error l i) as [p|] eqn:Ep; [|discriminate]. destruct (nth_error l j) as [q|] eqn:Eq; [|discriminate]. cbn in Ha, Hb.
  assert (Sa : starts_after p q).
  { revert i j Hij Ep Eq. clear - S. induction S as [|x l S IH F]; intros i j Hij Ep Eq; [destruct i; discriminate|].
    destruct j as [|j]; [lia|]. cbn in Eq. destruct i as [|i].
    - cbn in Ep. injection Ep as ->. rewrite Forall_forall in F. apply F. now apply nth_error_In in Eq.
    - cbn in Ep. apply (IH i j); try assumption. lia. }
  destruct (M' p (nth_error_In _ _ Ep)) as (cp & Hp). destruct (M' q (nth_error_In _ _ Eq)) as (cq & Hq).
  rewrite Hp in Ha. rewrite Hq in Hb. injection Ha as <-. injection Hb as <-. specialize (Sa _ _ Hp Hq). destruct (at_ok _ _ Hq) as (_ & X & _). lia.
Qed.
Lemma ends_length l : length (ends_of plan l) = length l.
Proof. apply map_length. Qed.
Lemma sorted_app (a b : list nat) : StronglySorted starts_after (a ++ b) <->
  StronglySorted starts_after a /\ StronglySorted starts_after b /\ forall x y, In x a -> In y b -> starts_after x y.
Proof.
  induction a as [|x a IH]; cbn.
  - split; [intros H; repeat split; [constructor|assumption|intros x y []]|tauto].
  - split.
    + intros H. inversion H as [|? ? H1 H2]; subst. apply IH in H1. destruct H1 as (A & B & C). rewrite Forall_app in H2. destruct H2 as (F1 & F2).
      repeat split; [constructor; assumption|assumption|]. intros z y [<-|Hz] Hy; [rewrite Forall_forall in F2; auto|auto].
    + intros (A & B & C). inversion A as [|? ? A1 A2]; subst. constructor; [apply IH; auto|]. apply Forall_app. split; [assumption|].
      apply Forall_forall. auto.
Qed.
Lemma insert_ok i c l : nth_error plan i = Some c -> sorted_adj i (k_frm c) (k_to c) l ->
  exists l', adj_insert plan i c l = Some l' /\ sorted_adj (S i) (k_frm c) (k_to c) l'.
Proof.
  intros Hi SA. destruct (at_ok _ _ Hi) as (_ & Hc & _).
  assert (Sep : forall j, In j l -> exists d, nth_error plan j = Some d /\ k_start d < k_end d /\ (k_end c <= k_start d \/ k_end d <= k_start c)).
  { intros j Hj. apply SA in Hj. destruct Hj as (d & Hd & Hlt & Hf & Ht). exists d. destruct (at_ok _ _ Hd) as (_ & X & _).
    repeat split; try assumption. destruct (Hov i j c d Hi Hd ltac:(lia) (eq_sym Hf) (eq_sym Ht)); tauto. }
  assert (Mem : forall a b, l = a ++ b -> forall j, In j (a ++ i :: b) <-> exists d, nth_error plan j = Some d /\ (j < S i)%nat /\ k_frm d = k_frm c /\ k_to d = k_to c).
  { intros a b E j. assert (X : In j (a ++ i :: b) <-> j = i \/ In j l). { rewrite E, !in_app_iff. cbn. intuition congruence. }
    rewrite X. destruct SA as (_ & M). rewrite M. split.
    - intros [->|(d & Hd & Hj & Hf & Ht)]; [exists c; repeat split; try assumption; lia|exists d; repeat split; try assumption; lia].
    - intros (d & Hd & Hj & Hf & Ht). destruct (Nat.eq_dec j i) as [->|]; [now left|right]. exists d. repeat split; try assumption. lia. }
  unfold adj_insert. destruct (rev l) as [|j r] eqn:Er.
  { assert (l = []) by (rewrite <- (rev_involutive l), Er; reflexivity). subst l. exists [i]. split; [reflexivity|]. split; [repeat constructor|apply (Mem [] [] eq_refl)]. }
  assert (El : l = rev r ++ [j]) by (rewrite <- (rev_involutive l), Er; reflexivity).
  destruct (Sep j) as (d & Hd & Hd1 & Hd2); [rewrite El; apply in_or_app; right; now left|]. rewrite Hd.
  destruct (Z.ltb_spec (k_start d) (k_start c)) as [H|H].
  - exists (l ++ [i]). split; [reflexivity|]. split; [|apply (Mem l []); now rewrite app_nil_r].
    apply sorted_app. destruct SA as (S & _). split; [assumption|]. split; [repeat constructor|]. intros x y Hx [<-|[]] a b Ha Hb.
    assert (b = c) by congruence. subst b. rewrite El in Hx. apply in_app_or in Hx. destruct Hx as [Hx|[<-|[]]].
    + rewrite El in S. apply sorted_app in S. destruct S as (_ & _ & S). specialize (S x j Hx (or_introl eq_refl) a d Ha Hd). lia.
    + assert (a = d) by congruence. subst. lia.
  - destruct (search_index_ok (ends_of plan l) (k_start c)) as (x & Ex & Fx).
    { eapply sorted_ends; eassumption. }
    { intros X. apply (f_equal (@length Z)) in X. rewrite ends_length, El, app_length in X. cbn in X. lia. }
    rewrite Ex. exists (firstn x l ++ i :: skipn x l). split; [reflexivity|].
    split; [|apply Mem; symmetry; apply firstn_skipn].
    destruct Fx as (Hx & Below & Above). rewrite ends_length in Hx, Above.
    assert (Ends : forall y p, nth_error l y = Some p -> exists e, nth_error plan p = Some e /\ nth_error (ends_of plan l) y = Some (k_end e)).
    { intros y p Hy. destruct (Sep p (nth_error_In _ _ Hy)) as (e & He & _). exists e. split; [assumption|]. unfold ends_of. rewrite nth_error_map, Hy. cbn. now rewrite He. }
    destruct SA as (S & _). rewrite <- (firstn_skipn x l) in S. apply sorted_app in S. destruct S as (S1 & S2 & S3).
    apply sorted_app. split; [assumption|]. split.
    + constructor; [assumption|]. apply Forall_forall. intros q Hq a b Ha Hb. assert (a = c) by congruence. subst a.
      assert (Hin : In q l) by (rewrite <- (firstn_skipn x l); apply in_or_app; now right).
      destruct (Sep q Hin) as (e & He & He1 & He2). assert (e = b) by congruence. subst e.
      assert (k_start c < k_end b); [|lia].
      destruct (In_nth_error _ _ Hq) as (y & Hy).
      assert (Hy' : nth_error l (x + y) = Some q).
      { rewrite <- (firstn_skipn x l) at 1. rewrite nth_error_app2; rewrite firstn_length_le by lia; [|lia]. replace (x + y - x)%nat with y by lia. assumption. }
      destruct Above as [(e & He3 & He4)|Hlast].
      * destruct (nth_error l x) as [p|] eqn:Ep; [|apply nth_error_None in Ep; lia]. destruct (Ends x p Ep) as (g & Hg1 & Hg2).
        destruct y as [|y].
        { replace (x + 0)%nat with x in Hy' by lia. assert (p = q) by congruence. subst p. assert (g = b) by congruence. subst g. congruence || (rewrite He3 in Hg2; injection Hg2 as ->; lia). }
        { assert (Sa : starts_after p q).
          { assert (Ep' : nth_error (skipn x l) 0 = Some p).
            { rewrite <- (firstn_skipn x l) in Ep. rewrite nth_error_app2 in Ep; rewrite firstn_length_le in * by lia; [|lia]. now rewrite Nat.sub_diag in Ep. }
            destruct (skipn x l) as [|z m]; [discriminate|]. cbn in Ep'. injection Ep' as ->. inversion S2 as [|? ? _ F]; subst.
            rewrite Forall_forall in F. apply F. cbn in Hy. now apply nth_error_In in Hy. }
          specialize (Sa g b Hg1 Hb). rewrite He3 in Hg2. injection Hg2 as ->. lia. }
      * assert (Hy0 : (x + y < length l)%nat) by (apply nth_error_Some; congruence). assert (y = 0)%nat by lia. subst y.
        assert (q = j). { rewrite El, app_length, rev_length in Hlast. cbn in Hlast. rewrite El in Hy'. rewrite nth_error_app2 in Hy'; rewrite rev_length in *; [|lia].
          replace (x + 0 - length r)%nat with 0%nat in Hy' by lia. cbn in Hy'. congruence. }
        subst q. assert (b = d) by congruence. subst b. lia.
    + intros p q Hp [<-|Hq]; [|now apply S3]. intros a b Ha Hb. assert (b = c) by congruence. subst b.
      destruct (In_nth_error _ _ Hp) as (y & Hy). assert (Hyx : (y < x)%nat). { assert (y < length (firstn x l))%nat by (apply nth_error_Some; congruence). rewrite firstn_length_le in H0 by lia. assumption. }
      assert (Hy' : nth_error l y = Some p). { rewrite <- (firstn_skipn x l). rewrite nth_error_app1; [assumption|]. rewrite firstn_length_le by lia. assumption. }
      destruct (Ends y p Hy') as (e & He1 & He2). assert (e = a) by congruence. subst e. now apply (Below y).
Qed.
Lemma build_ok : forall l i adj, skipn i plan = l -> (i <= length plan)%nat -> (forall v u, sorted_adj i v u (adj v u)) ->
  exists adj', adj_build plan l i adj = Some adj' /\ forall v u, sorted_adj (length plan) v u (adj' v u).
Proof.
  induction l as [|c l IH]; intros i adj E Hi S; cbn [adj_build].
  - exists adj. split; [reflexivity|]. assert (i = length plan) by (apply (f_equal (@length contact)) in E; rewrite skipn_length in E; cbn in E; lia).
    subst. assumption.
  - assert (Hc : nth_error plan i = Some c).
    { rewrite <- (firstn_skipn i plan), E. rewrite nth_error_app2; rewrite firstn_length_le by lia; [|lia]. now rewrite Nat.sub_diag. }
    destruct (insert_ok i c _ Hc (S (k_frm c) (k_to c))) as (l' & E1 & S1). rewrite E1. apply IH.
    + assert (X : skipn (Datatypes.S i) plan = skipn 1 (skipn i plan)).
      { clear. revert plan. induction i as [|i IHi]; intros p; [reflexivity|]. destruct p; [reflexivity|]. apply (IHi p). }
      rewrite X, E. reflexivity.
    + assert (i < length plan)%nat by (apply nth_error_Some; congruence). lia.
    + intros v u. destruct (N.eqb_spec v (k_frm c)) as [->|Hv]; [destruct (N.eqb_spec u (k_to c)) as [->|Hu]|]; cbn [andb]; [assumption|..].
      * destruct (S (k_frm c) u) as (A & B). split; [assumption|]. intros j. rewrite B. split; intros (d & H1 & H2 & H3 & H4); exists d; repeat split; try assumption; [lia|].
        assert (j <> i) by (intros ->; congruence). lia.
      * destruct (S v u) as (A & B). split; [assumption|]. intros j. rewrite B. split; intros (d & H1 & H2 & H3 & H4); exists d; repeat split; try assumption; [lia|].
        assert (j <> i) by (intros ->; congruence). lia.
Qed.
Lemma adj_ok : exists adj, adj_build plan plan 0 (fun _ _ => []) = Some adj /\ forall v u, sorted_adj (length plan) v u (adj v u).
Proof.
  apply build_ok; [reflexivity|lia|]. intros v u. split; [constructor|]. intros i. split; [intros []|]. intros (c & _ & H & _). lia.
Qed.

(** * One neighbour *)
Hypothesis Hlate : Forall (fun c => k_end c + k_owlt c < tmax) plan.
Hypothesis Hns : forall c, In c plan -> In (k_to c) ns.
Hypothesis Hsrc : In src ns.
Hypothesis Hdest : dest <> src.
Hypothesis Ht0 : 0 <= t0 < tmax.
Hypothesis Hjit : forall n t l c, jour n t l -> In c plan -> k_frm c = n -> t <> k_end c.
Hypothesis Hord1 : forall v, NoDup (order v).
Hypothesis Hord2 : forall v u, In u (order v) <-> exists c, In c plan /\ k_frm c = v /\ k_to c = u.
Variable adj : N -> N -> list nat.
Hypothesis Hadj : forall v u, sorted_adj (length plan) v u (adj v u).

(** The time of arrival over [c] for data there at [t]. *)
Definition via (t : Z) (c : contact) : Z := Z.max (k_start c) t + k_owlt c.
Lemma jour_times n t l : jour n t l -> 0 <= t < tmax.
Proof.
  induction 1 as [|x t l c J IH Hc Hf Hu]; [assumption|]. unfold unended in Hu. unfold plan_ok in Hplan. rewrite Forall_forall in Hplan, Hlate.
  destruct (Hplan c Hc) as (A & B & _). specialize (Hlate c Hc). cbn beta in Hlate. lia.
Qed.
Lemma mem_in u l : existsb (N.eqb u) l = true <-> In u l.
Proof. rewrite existsb_exists. split; [intros (x & Hx & E); apply N.eqb_eq in E; now subst|intros H; exists u; split; [assumption|apply N.eqb_refl]]. Qed.
Lemma mem_out u l : existsb (N.eqb u) l = false <-> ~ In u l.
Proof. rewrite <- mem_in. destruct (existsb _ _); split; congruence || tauto. Qed.
Lemma in_adj c : In c plan -> exists i, In i (adj (k_frm c) (k_to c)) /\ nth_error plan i = Some c.
Proof.
  intros H. apply In_nth_error in H. destruct H as (i & Hi). exists i. split; [|assumption]. apply (Hadj (k_frm c) (k_to c)). exists c.
  repeat split; try assumption. apply nth_error_Some. congruence.
Qed.

(** Over all contacts from [v] to [u] that have not ended, [u] is not reached before time [a]. *)
Definition not_before (v u : N) (t a : Z) : Prop := forall c, In c plan -> k_frm c = v -> k_to c = u -> t < k_end c -> a <= via t c.
Lemma relax_one v s u : In u ns -> ~ In u (c_vis s) -> c_arr s u <= max_time ->
  (c_arr s v = max_time \/ exists l, jour v (c_arr s v) l) ->
  (cmr_relax plan adj ns v s u = Go s /\ not_before v u (c_arr s v) (c_arr s u)) \/
  (exists i c, nth_error plan i = Some c /\ k_frm c = v /\ k_to c = u /\ c_arr s v < k_end c /\ via (c_arr s v) c < c_arr s u /\
     not_before v u (c_arr s v) (via (c_arr s v) c) /\
     cmr_relax plan adj ns v s u = Go (mkCst (upd (c_arr s) u (via (c_arr s v) c)) (c_vis s) (upd (c_pred s) u (Some i)) ((via (c_arr s v) c, u) :: c_pq s))).
Proof.
  intros Hu Hv Hmax Hr. unfold cmr_relax. apply mem_in in Hu. rewrite Hu. cbn [negb]. apply mem_out in Hv. rewrite Hv.
  pose proof (Hadj v u) as (S & M). pose proof (sorted_ends _ _ _ _ (Hadj v u)) as Inc. set (l := adj v u) in *. set (a := c_arr s v) in *.
  destruct (rev l) as [|j r] eqn:Er.
  { left. split; [reflexivity|]. intros c Hc Hf Ht _. destruct (in_adj c Hc) as (i & Hi & _). rewrite Hf, Ht in Hi. fold l in Hi.
    assert (l = []) by (rewrite <- (rev_involutive l), Er; reflexivity). rewrite H in Hi. destruct Hi. }
  assert (El : l = rev r ++ [j]) by (rewrite <- (rev_involutive l), Er; reflexivity).
  assert (Hj : In j l) by (rewrite El; apply in_or_app; right; now left).
  apply M in Hj. destruct Hj as (d & Hd & _ & Hdf & Hdt). rewrite Hd.
  destruct (search_index_ok (ends_of plan l) a Inc) as (x & Ex & Hx & Below & Above).
  { intros X. apply (f_equal (@length Z)) in X. rewrite ends_length, El, app_length in X. cbn in X. lia. }
  rewrite Ex. rewrite ends_length in Hx, Above.
  assert (Pos : forall y p, nth_error l y = Some p -> exists c, nth_error plan p = Some c /\ k_frm c = v /\ k_to c = u /\ nth_error (ends_of plan l) y = Some (k_end c)).
  { intros y p Hy. pose proof (nth_error_In _ _ Hy) as Hp. apply M in Hp. destruct Hp as (c & Hc & _ & H1 & H2). exists c. repeat split; try assumption.
    unfold ends_of. rewrite nth_error_map, Hy. cbn. now rewrite Hc. }
  assert (Lastj : nth_error l (length l - 1) = Some j).
  { rewrite El, app_length. cbn [length]. rewrite nth_error_app2; [|rewrite !rev_length; lia].
    replace (length (rev r) + 1 - 1 - length (rev r))%nat with 0%nat by lia. reflexivity. }
  assert (Late : forall c, In c plan -> k_frm c = v -> k_to c = u -> k_end c <= k_end d).
  { intros c Hc Hf Ht. destruct (in_adj c Hc) as (i & Hi & Hic). rewrite Hf, Ht in Hi. fold l in Hi. apply In_nth_error in Hi. destruct Hi as (y & Hy).
    destruct (Pos y i Hy) as (c' & Hc' & _ & _ & Ey). assert (c' = c) by congruence. subst c'.
    destruct (Pos _ j Lastj) as (d' & Hd' & _ & _ & Ej). assert (d' = d) by congruence. subst d'.
    assert (y < length l)%nat by (apply nth_error_Some; congruence). destruct (Nat.eq_dec y (length l - 1)) as [->|]; [assert (i = j) by congruence; subst; assert (c = d) by congruence; subst; lia|].
    specialize (Inc y (length l - 1)%nat _ _ ltac:(lia) Ey Ej). lia. }
  destruct (at_ok _ _ Hd) as ((Hd1 & Hd2 & Hd3 & _) & _ & Hdin).
  destruct (nth_error l x) as [i|] eqn:Ei; [|apply nth_error_None in Ei; lia].
  destruct (Pos x i Ei) as (b & Hb & Hbf & Hbt & Hbe). rewrite Hb.
  destruct (at_ok _ _ Hb) as ((Hb1 & Hb2 & Hb3 & _) & Hb4 & Hbin). rewrite tmax_max in Hb3.
  destruct (Z.ltb_spec (k_end d) a) as [Hend|Hend]; cbn [andb].
  { destruct (Z.eqb_spec a max_time) as [Ha|Ha]; cbn [negb].
    - rewrite tsub_ok by (unfold in_time, min_time, max_time in *; lia).
      left. replace (Z.max (k_start b) a) with max_time by lia.
      assert (X : (if max_time <=? max_time - k_owlt b then max_time + k_owlt b else max_time) = max_time).
      { destruct (Z.leb_spec max_time (max_time - k_owlt b)); lia. }
      rewrite X. destruct (Z.ltb_spec max_time (c_arr s u)); [lia|]. split; [reflexivity|]. intros c Hc Hf Ht Hlt. specialize (Late c Hc Hf Ht). lia.
    - left. split; [reflexivity|]. intros c Hc Hf Ht Hlt. specialize (Late c Hc Hf Ht). lia. }
  rewrite tsub_ok by (unfold in_time, min_time, max_time in *; lia).
  assert (Ha : exists m, jour v a m).
  { destruct Hr as [Hr|Hr]; [|assumption]. exfalso. unfold plan_ok in Hplan. rewrite Forall_forall in Hlate. specialize (Hlate d Hdin). cbn beta in Hlate. rewrite tmax_max in Hlate. lia. }
  destruct Ha as (m & Ha). pose proof (Hjit v a m d Ha Hdin Hdf) as Hne'.
  assert (Hbo : a < k_end b).
  { destruct Above as [(e & He & Hlt)| ->]; [assert (e = k_end b) by congruence; lia|]. assert (i = j) by congruence. subst i. assert (b = d) by congruence. subst b. lia. }
  assert (Best : not_before v u a (via a b)).
  { intros c Hc Hf Ht Hlt. destruct (in_adj c Hc) as (p & Hp & Hpc). rewrite Hf, Ht in Hp. fold l in Hp. apply In_nth_error in Hp. destruct Hp as (y & Hy).
    destruct (Pos y p Hy) as (c' & Hc' & _ & _ & Ey). assert (c' = c) by congruence. subst c'.
    assert (x <= y)%nat. { destruct (Nat.le_gt_cases x y); [assumption|]. specialize (Below y _ H Ey). lia. }
    unfold via. rewrite (Hdel b c Hbin Hc) by congruence. destruct (Nat.eq_dec y x) as [->|]; [assert (p = i) by congruence; subst; assert (c = b) by congruence; subst; lia|].
    assert (k_end b <= k_start c); [|lia].
    assert (Sa : starts_after i p).
    { assert (exists l1 l2, l = l1 ++ i :: l2 /\ In p l2) as (l1 & l2 & E & Hin).
      { destruct (nth_error_split l x Ei) as (l1 & l2 & E & Len). exists l1, l2. split; [assumption|]. rewrite E, nth_error_app2 in Hy by lia.
        destruct (y - length l1)%nat as [|k] eqn:Ek; [lia|]. cbn in Hy. now apply nth_error_In in Hy. }
      rewrite E in S. apply sorted_app in S. destruct S as (_ & S & _). inversion S as [|? ? _ F]; subst. rewrite Forall_forall in F. now apply F. }
    now apply (Sa b c). }
  assert (X : (if Z.max (k_start b) a <=? max_time - k_owlt b then Z.max (k_start b) a + k_owlt b else Z.max (k_start b) a) = via a b).
  { unfold via. destruct (Z.leb_spec (Z.max (k_start b) a) (max_time - k_owlt b)); lia. }
  rewrite X. unfold search_predecessor. rewrite Ex, Ei.
  destruct (Z.ltb_spec (via a b) (c_arr s u)) as [Hlt|Hge].
  - right. exists i, b. repeat split; try assumption.
  - left. split; [reflexivity|]. intros c Hc Hf Ht Hlt. specialize (Best c Hc Hf Ht Hlt). lia.
Qed.

(** * All neighbours *)
Record relaxed (v : N) (s s1 : cst) (l : list N) : Prop := {
  x_vis : c_vis s1 = c_vis s;
  x_arr : forall u, (c_arr s1 u = c_arr s u /\ c_pred s1 u = c_pred s u) \/
    (~ In u (c_vis s) /\ u <> v /\ exists i c, nth_error plan i = Some c /\ k_frm c = v /\ k_to c = u /\ c_arr s v < k_end c /\
       c_arr s1 u = via (c_arr s v) c /\ c_arr s1 u < c_arr s u /\ c_pred s1 u = Some i /\ In (c_arr s1 u, u) (c_pq s1));
  x_old : forall e, In e (c_pq s) -> In e (c_pq s1);
  x_new : forall k u, In (k, u) (c_pq s1) -> In (k, u) (c_pq s) \/ (In u ns /\ c_arr s1 u <= k);
  x_len : (length (c_pq s1) <= length (c_pq s) + length l)%nat;
  x_done : forall u, In u l -> ~ In u (c_vis s) -> not_before v u (c_arr s v) (c_arr s1 u) }.
Lemma relax_all_ok v : forall l s, (forall u, In u l -> In u ns) -> (forall u, c_arr s u <= max_time) ->
  (c_arr s v = max_time \/ exists m, jour v (c_arr s v) m) ->
  exists s1, cmr_relax_all plan adj ns v s l = Go s1 /\ relaxed v s s1 l.
Proof.
  induction l as [|u l IH]; intros s Hin Hmax Hr; cbn [cmr_relax_all].
  - exists s. split; [reflexivity|]. constructor; auto; [cbn; lia|intros u []].
  - destruct (existsb (N.eqb u) (c_vis s)) eqn:Ev.
    { assert (E : cmr_relax plan adj ns v s u = Go s). { unfold cmr_relax. assert (X : existsb (N.eqb u) ns = true) by (apply mem_in, Hin; now left). now rewrite X, Ev. }
      rewrite E. destruct (IH s) as (s1 & E1 & R); auto. { intros; apply Hin; now right. } exists s1. split; [assumption|]. destruct R.
      constructor; auto; [cbn; lia|]. intros w [<-|Hw] Hn; [apply mem_in in Ev; tauto|auto]. }
    apply mem_out in Ev. destruct (relax_one v s u) as [(E & D)|(i & c & Hc & Hf & Ht & Hlt & Hless & Best & E)]; auto; [apply Hin; now left|..]; rewrite E.
    + destruct (IH s) as (s1 & E1 & R); auto. { intros; apply Hin; now right. } exists s1. split; [assumption|]. destruct R.
      constructor; auto; [cbn; lia|]. intros w [<-|Hw] Hn; [|auto]. intros c Hc Hf Ht Hlt. specialize (D c Hc Hf Ht Hlt).
      destruct (x_arr0 u) as [(X & _)|(_ & _ & _ & _ & _ & _ & _ & _ & _ & X & _)]; lia.
    + set (s' := mkCst _ _ _ _) in *. destruct (at_ok _ _ Hc) as ((Hc1 & Hc2 & Hc3 & _) & Hc4 & Hcin).
      assert (Huv : u <> v). { intros ->. unfold via in Hless. lia. }
      assert (Av : c_arr s' v = c_arr s v). { cbn. unfold upd. destruct (N.eqb_spec v u); [congruence|reflexivity]. }
      assert (Au : c_arr s' u = via (c_arr s v) c). { cbn. unfold upd. now rewrite N.eqb_refl. }
      assert (Pu : c_pred s' u = Some i). { cbn. unfold upd. now rewrite N.eqb_refl. }
      assert (Ao : forall w, w <> u -> c_arr s' w = c_arr s w /\ c_pred s' w = c_pred s w). { intros w Hw. cbn. unfold upd. destruct (N.eqb_spec w u); [congruence|auto]. }
      destruct (IH s') as (s1 & E1 & R).
      { intros; apply Hin; now right. }
      { intros w. destruct (N.eq_dec w u) as [->|Hw]; [specialize (Hmax u); lia|]. destruct (Ao w Hw) as (-> & _). apply Hmax. }
      { rewrite Av. assumption. }
      exists s1. split; [assumption|]. destruct R. rewrite Av in *. constructor.
      * assumption.
      * intros w. destruct (x_arr0 w) as [(X1 & X2)|(X1 & X2 & i' & c' & X3 & X4 & X5 & X6 & X7 & X8 & X9 & X10)].
        { destruct (N.eq_dec w u) as [->|Hw].
          - right. split; [assumption|]. split; [assumption|]. exists i, c. rewrite X1, X2, Au, Pu. repeat split; try assumption; try lia. apply x_old0. cbn. rewrite <- Au. left. cbn. unfold upd. now rewrite N.eqb_refl.
          - left. destruct (Ao w Hw). split; congruence. }
        { right. split; [assumption|]. split; [assumption|]. exists i', c'. repeat split; try assumption.
          destruct (N.eq_dec w u) as [->|Hw]; [lia|]. destruct (Ao w Hw) as (X & _). lia. }
      * intros e He. apply x_old0. cbn. now right.
      * intros k w Hk. destruct (x_new0 k w Hk) as [[X|X]|X]; [|tauto|tauto]. injection X as <- <-. right. split; [apply Hin; now left|].
        destruct (x_arr0 u) as [(X & _)|(_ & _ & _ & _ & _ & _ & _ & _ & _ & X & _)]; lia.
      * unfold s' in x_len0; cbn [c_pq length] in *. lia.
      * intros w [<-|Hw] Hn.
        { intros c' Hc' Hf' Ht' Hlt'. specialize (Best c' Hc' Hf' Ht' Hlt').
          destruct (x_arr0 u) as [(X & _)|(_ & _ & _ & _ & _ & _ & _ & _ & _ & X & _)]; lia. }
        { now apply x_done0. }
Qed.
Lemma relax_all_idle v : forall l s, (forall u, In u l -> In u ns) -> (forall u, c_arr s u <= max_time) ->
  (c_arr s v = max_time \/ exists m, jour v (c_arr s v) m) ->
  (forall u, not_before v u (c_arr s v) (c_arr s u)) -> cmr_relax_all plan adj ns v s l = Go s.
Proof.
  induction l as [|u l IH]; intros s Hin Hmax Hr Hd; cbn [cmr_relax_all]; [reflexivity|].
  assert (E : cmr_relax plan adj ns v s u = Go s).
  { destruct (existsb (N.eqb u) (c_vis s)) eqn:Ev.
    - unfold cmr_relax. assert (X : existsb (N.eqb u) ns = true) by (apply mem_in, Hin; now left). now rewrite X, Ev.
    - apply mem_out in Ev. destruct (relax_one v s u) as [(E & D)|(i & c & Hc & Hf & Ht & Hlt & Hless & Best & E)]; auto; [apply Hin; now left|].
      exfalso. apply nth_error_In in Hc. specialize (Hd u c Hc Hf Ht Hlt). lia. }
  rewrite E. apply IH; auto. intros; apply Hin; now right.
Qed.

(** * The search *)
(** [u] was reached last over its predecessor, from one of the nodes [W]. *)
Definition link (a : N -> Z) (pr : N -> option nat) (W : list N) (u : N) : Prop :=
  exists i c, pr u = Some i /\ nth_error plan i = Some c /\ k_to c = u /\ In (k_frm c) W /\ a (k_frm c) < k_end c /\ a u = via (a (k_frm c)) c.
Record cinv (v : N) (s : cst) : Prop := {
  i_src : c_arr s src = t0;
  i_max : forall n, c_arr s n <= max_time;
  i_nd : NoDup (c_vis s);
  i_in : forall n, In n (c_vis s) -> In n ns;
  i_v : In v ns /\ v <> dest;
  i_dest : ~ In dest (c_vis s);
  i_pq : forall k u, In (k, u) (c_pq s) -> In u ns /\ c_arr s u <= k;
  i_queued : forall u, ~ In u (c_vis s) -> u <> v -> c_arr s u < max_time -> In (c_arr s u, u) (c_pq s);
  i_end : In (max_time, dest) (c_pq s);
  i_order : forall w u, In w (c_vis s) -> ~ In u (c_vis s) -> c_arr s w <= c_arr s u;
  i_least : ~ In v (c_vis s) -> forall u, ~ In u (c_vis s) -> c_arr s v <= c_arr s u;
  i_jour : forall n, c_arr s n < max_time -> exists l, jour n (c_arr s n) l;
  i_chain : forall V1 u V2, c_vis s = V1 ++ u :: V2 -> u <> src -> c_arr s u < max_time -> link (c_arr s) (c_pred s) V2 u;
  i_link : forall u, ~ In u (c_vis s) -> u <> src -> c_arr s u < max_time -> link (c_arr s) (c_pred s) (c_vis s) u;
  i_start : In src (c_vis s) \/ v = src;
  i_closed : forall w u, In w (c_vis s) -> not_before w u (c_arr s w) (c_arr s u);
  i_none : forall u, c_arr s u = max_time -> c_pred s u = None }.
(** What holds at the end, with the destination as the last node taken from the queue. *)
Record cfin (s : cst) : Prop := {
  f_src : c_arr s src = t0;
  f_max : forall n, c_arr s n <= max_time;
  f_nd : NoDup (c_vis s);
  f_in : forall n, In n (c_vis s) -> In n ns;
  f_dest : ~ In dest (c_vis s);
  f_least : forall u, ~ In u (c_vis s) -> c_arr s dest <= c_arr s u;
  f_chain : forall V1 u V2, c_vis s = V1 ++ u :: V2 -> u <> src -> c_arr s u < max_time -> link (c_arr s) (c_pred s) V2 u;
  f_link : c_arr s dest < max_time -> link (c_arr s) (c_pred s) (c_vis s) dest;
  f_start : In src (c_vis s);
  f_closed : forall w u, In w (c_vis s) -> not_before w u (c_arr s w) (c_arr s u);
  f_none : c_arr s dest = max_time -> c_pred s dest = None }.

Lemma reached v s : cinv v s -> forall n, c_arr s n = max_time \/ exists l, jour n (c_arr s n) l.
Proof. intros I n. pose proof (i_max _ _ I n). destruct (Z.eq_dec (c_arr s n) max_time); [now left|right]. apply (i_jour _ _ I). lia. Qed.
Lemma order_ns v u : In u (order v) -> In u ns.
Proof. intros H. apply Hord2 in H. destruct H as (c & Hc & _ & <-). now apply Hns. Qed.

(** Taking the next node from the queue, [v] being visited now. *)
Lemma pop_ok v s k u q : cinv v s -> In v (c_vis s) -> pq_pop (c_pq s) = Some ((k, u), q) ->
  let s2 := mkCst (c_arr s) (c_vis s) (c_pred s) q in (u = dest -> cfin s2) /\ (u <> dest -> cinv u s2).
Proof.
  intros I Hv E s2. pose proof (pq_pop_ok (c_pq s)) as P. rewrite E in P. destruct P as (P & Low).
  assert (Hk : In (k, u) (c_pq s)) by (apply (Permutation_in _ (Permutation_sym P)); now left).
  destruct (i_pq _ _ I k u Hk) as (Hu & Huk).
  assert (Rest : forall e, In e (c_pq s) -> snd e <> u -> In e q).
  { intros e He Hne'. apply (Permutation_in _ P) in He. destruct He as [<-|He]; [cbn in Hne'; tauto|assumption]. }
  assert (Least : forall w, ~ In w (c_vis s) -> c_arr s u <= c_arr s w).
  { intros w Hw. destruct (N.eq_dec w u) as [->|Hwu]; [lia|]. pose proof (i_max _ _ I w). destruct (Z.eq_dec (c_arr s w) max_time) as [->|]; [apply (i_max _ _ I)|].
    assert (X : In (c_arr s w, w) q). { apply Rest; [|assumption]. apply (i_queued _ _ I); [assumption|congruence|lia]. }
    specialize (Low _ X). apply before_false in Low. cbn [fst snd] in Low. lia. }
  assert (Hs : In src (c_vis s)) by (destruct (i_start _ _ I) as [X|X]; [assumption|now subst]).
  split.
  - intros ->. destruct I. constructor; cbn [c_arr c_vis c_pred c_pq s2]; auto.
  - intros Hd. destruct I. constructor; cbn [c_arr c_vis c_pred c_pq s2]; auto.
    + intros k' w Hw. apply i_pq0. apply (Permutation_in _ (Permutation_sym P)). now right.
    + intros w Hw Hwu Hlt. apply Rest; [apply i_queued0; congruence|assumption].
Qed.
Lemma visit_ok v s s1 : cinv v s -> ~ In v (c_vis s) -> relaxed v s s1 (order v) ->
  cinv v (mkCst (c_arr s1) (v :: c_vis s1) (c_pred s1) (c_pq s1)).
Proof.
  intros I Hv R. pose proof (reached v s I v) as Rv. destruct I. destruct R. rewrite x_vis0.
  assert (Less : forall u, c_arr s1 u <= c_arr s u). { intros u. destruct (x_arr0 u) as [(X & _)|(_ & _ & _ & _ & _ & _ & _ & _ & _ & X & _)]; lia. }
  assert (Same : forall u, In u (v :: c_vis s) -> c_arr s1 u = c_arr s u /\ c_pred s1 u = c_pred s u).
  { intros u Hu. destruct (x_arr0 u) as [X|(X1 & X2 & _)]; [assumption|]. destruct Hu; [congruence|tauto]. }
  assert (Sv : c_arr s1 v = c_arr s v) by (apply Same; now left).
  assert (Via : forall c, In c plan -> c_arr s v <= via (c_arr s v) c).
  { intros c Hc. unfold plan_ok in Hplan. rewrite Forall_forall in Hplan. destruct (Hplan c Hc) as (_ & X & _). unfold via. lia. }
  assert (Keep : forall W u, (forall w, In w W -> In w (c_vis s)) -> link (c_arr s) (c_pred s) W u -> c_arr s1 u = c_arr s u -> c_pred s1 u = c_pred s u ->
     link (c_arr s1) (c_pred s1) W u).
  { intros W u HW (i & c & L1 & L2 & L3 & L4 & L5 & L6) E1 E2. exists i, c. destruct (Same (k_frm c)) as (X & _); [right; auto|]. rewrite X, E1, E2. tauto. }
  constructor; cbn [c_arr c_vis c_pred c_pq].
  - destruct (x_arr0 src) as [(X & _)|(X1 & X2 & _)]; [lia|]. destruct i_start0; [tauto|congruence].
  - intros n. specialize (Less n). specialize (i_max0 n). lia.
  - now constructor.
  - intros n [<-|Hn]; [tauto|auto].
  - tauto.
  - intros [X|X]; [destruct i_v0; congruence|tauto].
  - intros k u H. destruct (x_new0 k u H) as [X|X]; [|assumption]. destruct (i_pq0 k u X). split; [assumption|]. specialize (Less u). lia.
  - intros u Hu Huv Hlt. destruct (x_arr0 u) as [(X & _)|(_ & _ & _ & _ & _ & _ & _ & _ & _ & _ & _ & X)]; [|assumption].
    rewrite X in *. apply x_old0, i_queued0; [intros Y; apply Hu; now right|assumption|assumption].
  - auto.
  - intros w u Hw Hu. assert (Hu' : ~ In u (c_vis s)) by (intros Y; apply Hu; now right). destruct (Same w Hw) as (-> & _).
    assert (A : c_arr s w <= c_arr s v) by (destruct Hw as [<-|Hw]; [lia|auto]).
    destruct (x_arr0 u) as [(X & _)|(_ & _ & i & c & X1 & _ & _ & _ & X & _)].
    + rewrite X. destruct Hw as [<-|Hw]; [apply i_least0; assumption|apply i_order0; assumption].
    + rewrite X. apply nth_error_In in X1. specialize (Via c X1). lia.
  - intros X. exfalso. apply X. now left.
  - intros n Hn. destruct (x_arr0 n) as [(X & _)|(_ & _ & i & c & X1 & X2 & X3 & X4 & X & X5 & _)]; [rewrite X in *; auto|].
    apply nth_error_In in X1. destruct Rv as [Rv|(l & J)].
    { exfalso. unfold plan_ok in Hplan. rewrite Forall_forall in Hplan. destruct (Hplan c X1) as (Y1 & Y2 & Y3 & _). rewrite tmax_max in Y3. lia. }
    exists (l ++ [c]). rewrite X, <- X3. apply (J_hop unended plan src t0 v); assumption.
  - intros V1 u V2 E Hu Hlt. assert (Hin : In u (v :: c_vis s)) by (rewrite E; apply in_or_app; right; now left).
    destruct (Same u Hin) as (E1 & E2). rewrite E1 in Hlt. destruct V1 as [|w V1]; cbn in E; injection E as E3 E4.
    + subst u V2. apply Keep; auto.
    + apply Keep; auto; [|now apply (i_chain0 V1)]. intros w' Hw'. rewrite E4. apply in_or_app. right. now right.
  - intros u Hu Hus Hlt. assert (Hu' : ~ In u (c_vis s)) by (intros Y; apply Hu; now right).
    destruct (x_arr0 u) as [(X & Y)|(_ & _ & i & c & X1 & X2 & X3 & X4 & X & X5 & X6 & _)].
    + rewrite X in Hlt. specialize (i_link0 u Hu' Hus Hlt). destruct (Keep (c_vis s) u) as (i & c & L1 & L2 & L3 & L4 & L5 & L6); auto.
      exists i, c. repeat split; try assumption. now right.
    + exists i, c. rewrite X2, Sv. repeat split; try assumption. now left.
  - left. destruct i_start0 as [X|X]; [now right|left; congruence].
  - intros w u Hw. destruct (Same w Hw) as (-> & _). intros c Hc Hf Ht Hlt. destruct Hw as [<-|Hw].
    + destruct (existsb (N.eqb u) (c_vis s)) eqn:Eu.
      * apply mem_in in Eu. destruct (Same u) as (-> & _); [now right|]. pose proof (i_order0 u v Eu Hv). specialize (Via c Hc). lia.
      * apply mem_out in Eu. apply (x_done0 u); try assumption. apply Hord2. exists c. tauto.
    + specialize (i_closed0 w u Hw c Hc Hf Ht Hlt). specialize (Less u). lia.
  - intros u Hu. destruct (x_arr0 u) as [(X & ->)|(_ & _ & i & c & _ & _ & _ & _ & _ & X & _)]; [apply i_none0; congruence|]. specialize (i_max0 u). lia.
Qed.

(** * It ends *)
Definition load (V : list N) : nat := list_sum (map (fun w => length (order w)) (filter (fun w => negb (existsb (N.eqb w) V)) ns)).
Lemma load_visit v V : In v ns -> ~ In v V -> (load V = load (v :: V) + length (order v))%nat.
Proof.
  intros Hv HV. unfold load. assert (ND : NoDup ns) by apply NoDup_nodup. clear Hns Hsrc. induction ns as [|w l IH]; [destruct Hv|].
  inversion ND as [|? ? Hw ND']; subst. cbn [filter existsb]. destruct Hv as [->|Hv].
  - rewrite N.eqb_refl. cbn [orb negb]. apply mem_out in HV. rewrite HV. cbn [negb map list_sum]. change (list_sum (?a :: ?b)) with (a + list_sum b)%nat.
    rewrite (filter_ext_in (fun w => negb (existsb (N.eqb w) V)) (fun w => negb (existsb (N.eqb w) (v :: V)))); [cbn [existsb]; lia|].
    intros x Hx. cbn [existsb]. destruct (N.eqb_spec x v); [congruence|reflexivity].
  - specialize (IH Hv ND'). destruct (N.eqb_spec w v) as [->|Hne']; [tauto|]. cbn [orb]. destruct (negb (existsb (N.eqb w) V)); [|assumption].
    cbn [map]. change (list_sum (?a :: ?b)) with (a + list_sum b)%nat. cbn [existsb] in IH. lia.
Qed.
Lemma load_bound : (load [] <= length plan)%nat.
Proof.
  unfold load. assert (ND : NoDup ns) by apply NoDup_nodup.
  assert (G : forall l, NoDup l -> let f := flat_map (fun w => map (pair w) (order w)) l in
    NoDup f /\ length f = list_sum (map (fun w => length (order w)) (filter (fun w => negb (existsb (N.eqb w) [])) l)) /\ forall w u, In (w, u) f -> In w l /\ In u (order w)).
  { induction l as [|w l IH]; intros Hl; cbn [flat_map]; [split; [constructor|split; [reflexivity|intros w u []]]|].
    inversion Hl as [|? ? Hw Hl']; subst. destruct (IH Hl') as (A & B & C). split; [|split].
    - assert (Nm : NoDup (map (pair w) (order w))). { apply FinFun.Injective_map_NoDup; [intros x y E; congruence|apply Hord1]. }
      assert (Dis : forall e, In e (map (pair w) (order w)) -> ~ In e (flat_map (fun w => map (pair w) (order w)) l)).
      { intros (w', u) He He'. apply in_map_iff in He. destruct He as (u' & E & _). injection E as -> ->. apply C in He'. tauto. }
      revert Nm Dis. generalize (map (pair w) (order w)). induction l0 as [|e m IHm]; intros Nm Dis; [assumption|]. inversion Nm as [|? ? N1 N2]; subst. cbn. constructor.
      + rewrite in_app_iff. intros [X|X]; [tauto|]. apply (Dis e); [now left|assumption].
      + apply IHm; [assumption|]. intros e' He'. apply Dis. now right.
    - rewrite app_length, map_length, B. cbn [filter existsb negb map]. reflexivity.
    - intros w' u. rewrite in_app_iff, in_map_iff. intros [(u' & E & Hu)|H]; [injection E as -> ->; split; [now left|assumption]|]. apply C in H. split; [now right|tauto]. }
  destruct (G ns ND) as (A & B & C). rewrite <- B. rewrite <- (map_length (fun c => (k_frm c, k_to c)) plan). apply NoDup_incl_length; [assumption|].
  intros (w, u) H. apply C in H. destruct H as (_ & H). apply Hord2 in H. destruct H as (c & Hc & <- & <-). apply in_map_iff. exists c. tauto.
Qed.
Lemma search_ok : forall fuel v s, cinv v s -> (length (c_pq s) + load (c_vis s) < fuel)%nat ->
  exists s', cmr_search plan adj ns order dest fuel v s = Go s' /\ cfin s'.
Proof.
  induction fuel as [|f IH]; intros v s I Hf; [lia|]. cbn [cmr_search].
  assert (Step : forall s1, cinv v s1 -> In v (c_vis s1) -> (length (c_pq s1) + load (c_vis s1) < S f)%nat ->
     exists s', (match pq_pop (c_pq s1) with None => NoRoute | Some ((_, u), q) =>
        if N.eqb u dest then Go (mkCst (c_arr s1) (c_vis s1) (c_pred s1) q) else cmr_search plan adj ns order dest f u (mkCst (c_arr s1) (c_vis s1) (c_pred s1) q) end) = Go s' /\ cfin s').
  { intros s1 I1 Hv Hf1. pose proof (pq_pop_ok (c_pq s1)) as P. destruct (pq_pop (c_pq s1)) as [((k, u), q)|] eqn:E.
    - destruct (pop_ok v s1 k u q I1 Hv E) as (A & B). destruct P as (P & _). apply Permutation_length in P. cbn [length] in P.
      destruct (N.eqb_spec u dest) as [X|X]; [eexists; split; [reflexivity|auto]|]. apply IH; [auto|]. cbn [c_pq c_vis]. lia.
    - pose proof (i_end _ _ I1) as X. rewrite P in X. destruct X. }
  destruct (existsb (N.eqb v) (c_vis s)) eqn:Ev.
  - apply mem_in in Ev. rewrite relax_all_idle.
    + pose proof Ev as Ev'. apply mem_in in Ev'. rewrite Ev'. apply (Step s); assumption.
    + intros u. apply order_ns.
    + apply (i_max _ _ I).
    + apply (reached v s I).
    + intros u. now apply (i_closed _ _ I).
  - apply mem_out in Ev. destruct (relax_all_ok v (order v) s) as (s1 & E & R).
    + intros u. apply order_ns.
    + apply (i_max _ _ I).
    + apply (reached v s I).
    + rewrite E. pose proof (visit_ok v s s1 I Ev R) as I1. pose proof (x_vis _ _ _ _ R) as Vis. pose proof (x_len _ _ _ _ R) as Len.
      apply mem_out in Ev. rewrite Vis in *. rewrite Ev. apply (Step _ I1); [now left|]. cbn [c_pq c_vis]. apply mem_out in Ev.
      rewrite (load_visit v (c_vis s)) in Hf; [lia|apply (i_v _ _ I)|assumption].
Qed.

(** * The way back *)
Lemma back_ok s : cfin s -> forall fuel W u hops, (length W < fuel)%nat -> (exists V1, c_vis s = V1 ++ W) -> In u ns -> u <> src -> ~ In u W ->
  link (c_arr s) (c_pred s) W u ->
  exists l, cmr_back plan ns src s fuel u hops = Some (l ++ hops) /\ l <> [] /\ jour u (c_arr s u) l /\ NoDup (src :: stops l) /\
    (forall n, In n (stops l) -> n = u \/ In n W).
Proof.
  intros F. induction fuel as [|f IH]; intros W u hops Hf (V1 & EV) Hu Hus HuW (i & c & L1 & L2 & L3 & L4 & L5 & L6); [lia|]. cbn [cmr_back].
  apply mem_in in Hu. rewrite Hu. cbn [negb]. rewrite L1, L2. destruct (at_ok _ _ L2) as ((Hc1 & Hc2 & Hc3 & _) & _ & Hcin).
  destruct (N.eqb_spec (k_frm c) (k_to c)) as [X|_]; [exfalso; apply HuW; congruence|].
  destruct (N.eqb_spec (k_frm c) src) as [X|X].
  - exists [c]. split; [reflexivity|]. split; [discriminate|]. split.
    + rewrite L6, <- L3. rewrite X, (f_src _ F) in *. apply (J_hop unended plan src t0 src t0 [] c); [constructor|assumption|assumption|exact L5].
    + split; [|cbn; intros n [<-|[]]; now left]. cbn. constructor; [intros [Y|[]]; congruence|]. constructor; [intros []|constructor].
  - destruct (in_split _ _ L4) as (W1 & W2 & EW). assert (EV' : c_vis s = (V1 ++ W1) ++ k_frm c :: W2) by (rewrite EV, EW, app_assoc; reflexivity).
    assert (Hlt : c_arr s (k_frm c) < max_time) by (rewrite tmax_max in Hc3; lia).
    destruct (IH W2 (k_frm c) (c :: hops)) as (l & E & Hl & J & ND & St).
    + rewrite EW, app_length in Hf. cbn in Hf. lia.
    + exists ((V1 ++ W1) ++ [k_frm c]). rewrite EV', <- (app_assoc (V1 ++ W1)). reflexivity.
    + apply (f_in _ F). rewrite EV'. apply in_or_app. right. now left.
    + assumption.
    + pose proof (f_nd _ F) as N0. rewrite EV' in N0. apply NoDup_remove_2 in N0. intros Y. apply N0, in_or_app. now right.
    + apply (f_chain _ F (V1 ++ W1)); assumption.
    + exists (l ++ [c]). split; [rewrite E, <- app_assoc; reflexivity|]. split; [intros Y; now apply app_eq_nil in Y|]. split; [rewrite L6, <- L3; apply (J_hop unended plan src t0 (k_frm c)); trivial|].
      unfold stops. rewrite map_app. cbn [map]. fold (stops l). rewrite L3. split.
      * change (src :: stops l ++ [u]) with ((src :: stops l) ++ [u]). rewrite <- (rev_involutive ((src :: stops l) ++ [u])). apply NoDup_rev. rewrite rev_app_distr.
        cbn [rev app]. constructor; [|now apply NoDup_rev in ND]. intros Y. change (rev (stops l) ++ [src]) with (rev (src :: stops l)) in Y. apply in_rev in Y. destruct Y as [Y|Y]; [congruence|].
        apply HuW. rewrite EW. apply in_or_app. right. destruct (St u Y) as [->|Z]; [now left|now right].
      * intros n Hn. apply in_app_or in Hn. destruct Hn as [Hn|[<-|[]]]; [|now left]. right. rewrite EW. apply in_or_app. right. destruct (St n Hn) as [->|Z]; [now left|now right].
Qed.
Lemma least s : cfin s -> forall n t l, jour n t l -> (In n (c_vis s) /\ c_arr s n <= t) \/ c_arr s dest <= t.
Proof.
  intros F. induction 1 as [|n t l c J IH Hc Hf Hu].
  - left. split; [apply (f_start _ F)|rewrite (f_src _ F); lia].
  - unfold unended in Hu. unfold plan_ok in Hplan. rewrite Forall_forall in Hplan. destruct (Hplan c Hc) as (_ & X & _).
    destruct IH as [(IH1 & IH2)|IH]; [|right; lia].
    assert (A : c_arr s (k_to c) <= Z.max (k_start c) t + k_owlt c).
    { pose proof (f_closed _ F n (k_to c) IH1 c Hc Hf eq_refl ltac:(lia)) as Y. unfold via in Y. lia. }
    destruct (existsb (N.eqb (k_to c)) (c_vis s)) eqn:E; [apply mem_in in E; left; tauto|]. apply mem_out in E. right. pose proof (f_least _ F _ E). lia.
Qed.
End Multi.
