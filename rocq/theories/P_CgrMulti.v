(** C41: the search over the contact multigraph. *)
From Coq Require Import NArith ZArith List Bool Lia ZifyBool ZifyN Permutation.
From Verif Require Import Base M_Cgr S_Cgr S_CgrMulti L_Cgr L_CgrRoute L_CgrMulti.
Import ListNotations.
Open Scope Z_scope.

Lemma unended_le c t : unended c t -> t <= k_end c. Proof. unfold unended. lia. Qed.
Lemma unended_lt c t : unended c t -> t < k_end c. Proof. exact (fun H => H). Qed.
(** The neighbours in the order of the plan. *)
Definition some_order (plan : list contact) (v : N) : list N := nodup N.eq_dec (map k_to (filter (fun c => N.eqb (k_frm c) v) plan)).
Lemma some_order_ok plan : neighbour_order plan (some_order plan).
Proof.
  intros v. split; [apply NoDup_nodup|]. intros u. unfold some_order. rewrite nodup_In, in_map_iff. split.
  - intros (c & <- & H). apply filter_In in H. destruct H as (H & E). apply N.eqb_eq in E. exists c. tauto.
  - intros (c & H & E & <-). exists c. split; [reflexivity|]. apply filter_In. split; [assumption|now apply N.eqb_eq].
Qed.

(** On the plans and for the nodes it can be relied on, the search finds an earliest way if there is one. *)
Theorem C41_multigraph_search_is_earliest : forall plan order root dest,
  plan_ok plan -> proper plan -> no_overlap plan -> same_delays plan -> no_dead_end plan dest ->
  lowest plan (k_frm root) dest -> never_just_in_time plan (k_frm root) (k_start root) -> neighbour_order plan order ->
  0 <= k_start root < tmax ->
  (exists r t, cmr_dijkstra plan order root dest = Some (Some r) /\ journey unended plan (k_frm root) (k_start root) dest t (r_hops r) /\
     (forall t' l', journey unended plan (k_frm root) (k_start root) dest t' l' -> t <= t') /\ NoDup (k_frm root :: stops (r_hops r)))
  \/ (cmr_dijkstra plan order root dest = Some None /\ forall t l, ~ journey unended plan (k_frm root) (k_start root) dest t l).
Proof.
  intros plan order root dest Hp Hpr Hov Hdel Hdead ((c0 & Hc0 & Hc0s) & Hsd & Hlow) Hjit Hord Ht.
  assert (Hne : Forall (fun c => k_start c < k_end c) plan) by (eapply Forall_impl; [|exact Hpr]; cbn beta; tauto).
  assert (Hlate : Forall (fun c => k_end c + k_owlt c < tmax) plan) by (eapply Forall_impl; [|exact Hpr]; cbn beta; tauto).
  assert (Hin : forall n, In n (nodes plan dest) <-> n = dest \/ exists c, In c plan /\ k_frm c = n).
  { intros n. unfold nodes. rewrite nodup_In, in_app_iff, in_map_iff. cbn. split; [intros [(c & E & H)|[<-|[]]]; eauto|].
    intros [->|(c & H & E)]; [tauto|left; eauto]. }
  assert (Hns : forall c, In c plan -> In (k_to c) (nodes plan dest)) by (intros c Hc; apply Hin; apply Hdead; assumption).
  assert (Hsrc : In (k_frm root) (nodes plan dest)) by (apply Hin; right; eauto).
  assert (Hds : dest <> k_frm root) by lia.
  assert (Ho1 : forall v, NoDup (order v)) by (intros v; apply Hord). assert (Ho2 : forall v u, In u (order v) <-> exists c, In c plan /\ k_frm c = v /\ k_to c = u) by (intros v; apply Hord).
  unfold cmr_dijkstra. destruct (adj_ok plan (k_frm root) dest (k_start root) order Hp Hne Hov) as (adj & Ea & Sa). rewrite Ea.
  pose proof Hsrc as Hm. apply existsb_in in Hm. rewrite Hm. cbn [negb c_pq].
  pose proof (pq_pop_ok (map (fun n => (max_time, n)) (nodes plan dest))) as P.
  destruct (pq_pop (map (fun n => (max_time, n)) (nodes plan dest))) as [((k, v), q)|] eqn:E0; [|apply map_eq_nil in P; rewrite P in Hsrc; destruct Hsrc].
  destruct P as (P & Low).
  assert (Hq : forall e, In e ((k, v) :: q) -> exists n, In n (nodes plan dest) /\ e = (max_time, n)).
  { intros e He. apply (Permutation_in _ (Permutation_sym P)) in He. apply in_map_iff in He. destruct He as (n & <- & Hn). eauto. }
  destruct (Hq (k, v) (or_introl eq_refl)) as (v' & Hv & Ev). injection Ev as -> <-.
  assert (v = k_frm root) as ->.
  { assert (X : In (max_time, k_frm root) ((max_time, v) :: q)) by (apply (Permutation_in _ P), in_map_iff; eauto).
    destruct X as [X|X]; [congruence|]. specialize (Low _ X). apply before_false in Low. cbn [fst snd] in Low.
    apply Hin in Hv. destruct Hv as [->|(c & Hc & <-)]; [lia|]. specialize (Hlow c Hc). lia. }
  set (s0 := mkCst (upd (fun _ => max_time) (k_frm root) (k_start root)) [] (fun _ => None) q).
  assert (A0 : forall n, n <> k_frm root -> c_arr s0 n = max_time) by (intros n Hn; cbn; unfold upd; destruct (N.eqb_spec n (k_frm root)); congruence).
  assert (A1 : c_arr s0 (k_frm root) = k_start root) by (cbn; unfold upd; now rewrite N.eqb_refl).
  rewrite tmax_max in Ht.
  assert (I : cinv plan (k_frm root) dest (k_start root) (k_frm root) s0).
  { constructor; cbn [c_vis c_pq c_pred s0]; try (intros; now match goal with H : In _ [] |- _ => destruct H end).
    - exact A1.
    - intros n. destruct (N.eq_dec n (k_frm root)) as [->|X]; [lia|rewrite A0 by assumption; lia].
    - constructor.
    - split; [assumption|congruence].
    - tauto.
    - intros k u H. destruct (Hq (k, u) (or_intror H)) as (n & Hn & X). injection X as -> ->. split; [assumption|].
      destruct (N.eq_dec n (k_frm root)) as [->|X]; [lia|rewrite A0 by assumption; lia].
    - intros u _ Hu Hlt. rewrite A0 in Hlt by assumption. lia.
    - assert (X : In (max_time, dest) ((max_time, k_frm root) :: q)) by (apply (Permutation_in _ P), in_map_iff; exists dest; split; [reflexivity|apply Hin; now left]).
      destruct X as [X|X]; [congruence|assumption].
    - intros _ u _. destruct (N.eq_dec u (k_frm root)) as [->|X]; [lia|rewrite (A0 u) by assumption; lia].
    - intros n Hn. destruct (N.eq_dec n (k_frm root)) as [->|X]; [|rewrite A0 in Hn by assumption; lia]. rewrite A1. exists []. constructor.
    - intros V1 u V2 X. destruct V1; discriminate.
    - intros u _ X Hlt. rewrite A0 in Hlt by assumption. lia.
    - now right.
    - reflexivity. }
  rewrite <- tmax_max in Ht.
  destruct (search_ok plan (k_frm root) dest (k_start root) order Hp Hne Hdel Hlate Hns Hds Ht Hjit Ho1 Ho2 adj Sa (S (length (nodes plan dest) + length plan)) (k_frm root) s0 I) as (s & Es & F).
  { cbn [c_pq c_vis s0]. apply Permutation_length in P. rewrite map_length in P. cbn [length] in P. pose proof (load_bound plan dest (k_start root) order Ht Ho1 Ho2). lia. }
  cbn [c_arr c_pred c_vis] in *. fold s0. rewrite Es.
  assert (Least : forall t l, journey unended plan (k_frm root) (k_start root) dest t l -> c_arr s dest <= t).
  { intros t l J. destruct (least plan (k_frm root) dest (k_start root) order Hp Hns Hds Ht Hjit Ho1 Ho2 adj Sa s F dest t l J) as [(X & _)|X]; [destruct (f_dest _ _ _ _ _ F X)|assumption]. }
  pose proof (f_max _ _ _ _ _ F dest) as Hmax. destruct (Z.eq_dec (c_arr s dest) max_time) as [X|X].
  - right. cbn [cmr_back]. rewrite (f_none _ _ _ _ _ F X). assert (Y : existsb (N.eqb dest) (nodes plan dest) = true) by (apply existsb_in, Hin; now left). rewrite Y. cbn [negb].
    split; [reflexivity|]. intros t l J. specialize (Least t l J). pose proof (jour_times plan (k_frm root) dest (k_start root) order Hp Hlate Hns Hds Ht Hjit Ho1 Ho2 adj Sa dest t l J). rewrite tmax_max in *. lia.
  - left. destruct (back_ok plan (k_frm root) dest (k_start root) order Hp Hne Hns Hds Hjit Ho1 Ho2 adj Sa s F (S (length (nodes plan dest))) (c_vis s) dest []) as (l & El & Hl & J & ND & _).
    + apply PeanoNat.Nat.lt_succ_r. apply NoDup_incl_length; [apply (f_nd _ _ _ _ _ F)|]. intros n. apply (f_in _ _ _ _ _ F).
    + now exists [].
    + apply Hin. now left.
    + assumption.
    + apply (f_dest _ _ _ _ _ F).
    + apply (f_link _ _ _ _ _ F). lia.
    + rewrite El, app_nil_r. destruct l as [|c l]; [tauto|].
      destruct (make_route_ok c l (k_frm root) (k_start root) ltac:(lia)) as (r & Er & H & _).
      * eapply journey_joins; [exact unended_lt|exact J].
      * exact ND.
      * eapply journey_fits; [exact Hp|exact unended_le|exact J].
      * exists r, (c_arr s dest). rewrite Er, H. split; [reflexivity|]. split; [exact J|]. split; [exact Least|exact ND].
Qed.
Print Assumptions C41_multigraph_search_is_earliest.

(** If everything starts and lasts an even time and ends at an odd time, no data is anywhere just in time. *)
Lemma even_times plan src t0 : Z.even t0 = true ->
  forallb (fun c => Z.even (k_start c) && Z.even (k_owlt c) && Z.odd (k_end c)) plan = true -> never_just_in_time plan src t0.
Proof.
  intros Ht Hp n t l c J Hc _. rewrite forallb_forall in Hp.
  assert (E : Z.even t = true).
  { clear c Hc. induction J as [|x t l c J IH Hc Hf Hu]; [assumption|]. specialize (Hp c Hc). apply andb_prop in Hp. destruct Hp as (Hp & _). apply andb_prop in Hp.
    rewrite Z.even_add. destruct Hp as (H1 & ->). destruct (Z.max_spec (k_start c) t) as [(_ & ->)|(_ & ->)]; [rewrite IH|rewrite H1]; reflexivity. }
  specialize (Hp c Hc). apply andb_prop in Hp. destruct Hp as (_ & Hp). intros ->. rewrite <- Z.negb_even in Hp. now rewrite E in Hp.
Qed.
Ltac small_plan := unfold plan_ok, proper, contact_ok; repeat constructor; cbn; try lia; vm_compute; congruence.
(** The two properties of pairs of contacts, checked on a concrete plan. *)
Definition pairwise (f : contact -> contact -> bool) (plan : list contact) : bool :=
  forallb (fun i => forallb (fun j => Nat.eqb i j || match nth_error plan i, nth_error plan j with Some a, Some b => f a b | _, _ => true end) (seq 0 (length plan))) (seq 0 (length plan)).
Lemma pairwise_no_overlap plan :
  pairwise (fun a b => negb (N.eqb (k_frm a) (k_frm b)) || negb (N.eqb (k_to a) (k_to b)) || (k_end a <=? k_start b) || (k_end b <=? k_start a)) plan = true -> no_overlap plan.
Proof.
  unfold pairwise. rewrite forallb_forall. intros H i j a b Hi Hj Hne Hf Ht.
  assert (Li : (i < length plan)%nat) by (apply nth_error_Some; congruence). assert (Lj : (j < length plan)%nat) by (apply nth_error_Some; congruence).
  specialize (H i ltac:(apply in_seq; lia)). rewrite forallb_forall in H. specialize (H j ltac:(apply in_seq; lia)).
  apply PeanoNat.Nat.eqb_neq in Hne. rewrite Hne, Hi, Hj, Hf, Ht, !N.eqb_refl in H. cbn [orb negb] in H. lia.
Qed.
Lemma pairwise_same_delays plan :
  pairwise (fun a b => negb (N.eqb (k_frm a) (k_frm b)) || negb (N.eqb (k_to a) (k_to b)) || (k_owlt a =? k_owlt b)) plan = true -> same_delays plan.
Proof.
  unfold pairwise. rewrite forallb_forall. intros H a b Ha Hb Hf Ht. apply In_nth_error in Ha, Hb. destruct Ha as (i & Hi), Hb as (j & Hj).
  destruct (PeanoNat.Nat.eq_dec i j) as [->|Hne]; [congruence|].
  assert (Li : (i < length plan)%nat) by (apply nth_error_Some; congruence). assert (Lj : (j < length plan)%nat) by (apply nth_error_Some; congruence).
  specialize (H i ltac:(apply in_seq; lia)). rewrite forallb_forall in H. specialize (H j ltac:(apply in_seq; lia)).
  apply PeanoNat.Nat.eqb_neq in Hne. rewrite Hne, Hi, Hj, Hf, Ht, !N.eqb_refl in H. cbn [orb negb] in H. lia.
Qed.
Lemma check_no_dead_end plan dest :
  forallb (fun c => N.eqb (k_to c) dest || existsb (fun d => N.eqb (k_frm d) (k_to c)) plan) plan = true -> no_dead_end plan dest.
Proof.
  rewrite forallb_forall. intros H c Hc. specialize (H c Hc). apply orb_prop in H. destruct H as [H|H]; [left; now apply N.eqb_eq|right].
  apply existsb_exists in H. destruct H as (d & Hd & E). exists d. split; [assumption|now apply N.eqb_eq].
Qed.
Lemma check_lowest plan src dest : existsb (fun c => N.eqb (k_frm c) src) plan && N.ltb src dest && forallb (fun c => N.leb src (k_frm c)) plan = true -> lowest plan src dest.
Proof.
  intros H. apply andb_prop in H. destruct H as (H & H3). apply andb_prop in H. destruct H as (H1 & H2). apply existsb_exists in H1. destruct H1 as (c & Hc & E).
  split; [exists c; split; [assumption|now apply N.eqb_eq]|]. split; [now apply N.ltb_lt|]. rewrite forallb_forall in H3. intros d Hd. apply N.leb_le. auto.
Qed.

(** A direct contact that is late, a detour whose first contact has to be waited for, and contacts given out of order. *)
Definition ex_multi : list contact :=
  [ mkContact 1 3 400 901 1000 2 0; mkContact 1 2 200 301 1000 4 1; mkContact 1 2 0 21 1000 4 2; mkContact 2 3 100 201 500 6 3;
    mkContact 2 3 0 3 500 6 4; mkContact 2 4 0 45 2000 2 5; mkContact 4 3 40 95 2000 2 6; mkContact 4 2 0 45 2000 2 7 ].
Example C41_multigraph_search_is_earliest_ex :
  let root := root_contact 1 in
  plan_ok ex_multi /\ proper ex_multi /\ no_overlap ex_multi /\ same_delays ex_multi /\ no_dead_end ex_multi 3 /\
  lowest ex_multi (k_frm root) 3 /\ never_just_in_time ex_multi (k_frm root) (k_start root) /\ neighbour_order ex_multi (some_order ex_multi) /\
  0 <= k_start root < tmax /\
  option_map (option_map (fun r => map k_id (r_hops r))) (cmr_dijkstra ex_multi (some_order ex_multi) root 3) = Some (Some [2; 5; 6]%N).
Proof.
  cbv zeta. split; [small_plan|]. split; [small_plan|]. split; [apply pairwise_no_overlap; reflexivity|]. split; [apply pairwise_same_delays; reflexivity|].
  split; [apply check_no_dead_end; reflexivity|]. split; [apply check_lowest; reflexivity|]. split; [apply even_times; reflexivity|].
  split; [apply some_order_ok|]. split; [vm_compute; split; congruence|]. vm_compute. reflexivity.
Qed.

(** There is no route to a node with a smaller number than the source: the queue gives all nodes the same key at first, so
    the smaller number comes out first and is taken for the last node. *)
Theorem C41_any_source_refuted : exists plan order root dest t l,
  plan_ok plan /\ proper plan /\ no_overlap plan /\ same_delays plan /\ no_dead_end plan dest /\
  never_just_in_time plan (k_frm root) (k_start root) /\ neighbour_order plan order /\ 0 <= k_start root < tmax /\
  journey unended plan (k_frm root) (k_start root) dest t l /\ cmr_dijkstra plan order root dest = Some None.
Proof.
  set (c := mkContact 2 1 0 101 1000 2 0). set (p := [c; mkContact 1 2 0 101 1000 2 1]).
  exists p, (some_order p), (root_contact 2), 1%N, 2, [c].
  split; [small_plan|]. split; [small_plan|]. split; [apply pairwise_no_overlap; reflexivity|]. split; [apply pairwise_same_delays; reflexivity|].
  split; [apply check_no_dead_end; reflexivity|]. split; [apply even_times; reflexivity|].
  split; [apply some_order_ok|]. split; [vm_compute; split; congruence|].
  split; [|vm_compute; reflexivity]. apply (J_hop unended p 2%N 0 2%N 0 [] c); [constructor|now left|reflexivity|reflexivity].
Qed.
Print Assumptions C41_any_source_refuted.

(** A neighbour that no contact leaves makes the search give up. *)
Theorem C41_dead_ends_do_no_harm_refuted : exists plan order root dest t l,
  plan_ok plan /\ proper plan /\ no_overlap plan /\ same_delays plan /\ lowest plan (k_frm root) dest /\
  never_just_in_time plan (k_frm root) (k_start root) /\ neighbour_order plan order /\ 0 <= k_start root < tmax /\
  journey unended plan (k_frm root) (k_start root) dest t l /\ cmr_dijkstra plan order root dest = Some None.
Proof.
  set (c := mkContact 1 2 0 101 1000 2 0). set (p := [c; mkContact 1 3 0 101 1000 2 1]).
  exists p, (some_order p), (root_contact 1), 2%N, 2, [c].
  split; [small_plan|]. split; [small_plan|]. split; [apply pairwise_no_overlap; reflexivity|]. split; [apply pairwise_same_delays; reflexivity|].
  split; [apply check_lowest; reflexivity|]. split; [apply even_times; reflexivity|].
  split; [apply some_order_ok|]. split; [vm_compute; split; congruence|].
  split; [|vm_compute; reflexivity]. apply (J_hop unended p 1%N 0 1%N 0 [] c); [constructor|now left|reflexivity|reflexivity].
Qed.
Print Assumptions C41_dead_ends_do_no_harm_refuted.

(** A contact that ends on arrival is used, and the assertion in Route::append fails. *)
Theorem C41_no_assertion_fails_refuted : exists plan order root dest,
  plan_ok plan /\ proper plan /\ no_overlap plan /\ same_delays plan /\ no_dead_end plan dest /\
  lowest plan (k_frm root) dest /\ neighbour_order plan order /\ 0 <= k_start root < tmax /\
  cmr_dijkstra plan order root dest = None.
Proof.
  set (p := [mkContact 1 2 9 10 1000 1 0; mkContact 2 3 0 10 1000 1 1]).
  exists p, (some_order p), (root_contact 1), 3%N.
  split; [small_plan|]. split; [small_plan|]. split; [apply pairwise_no_overlap; reflexivity|]. split; [apply pairwise_same_delays; reflexivity|].
  split; [apply check_no_dead_end; reflexivity|]. split; [apply check_lowest; reflexivity|].
  split; [apply some_order_ok|]. split; [vm_compute; split; congruence|]. vm_compute. reflexivity.
Qed.
Print Assumptions C41_no_assertion_fails_refuted.

(** Of several contacts between two nodes the first is taken even if its delay is so much larger that a later one is faster. *)
Theorem C41_earliest_with_different_delays_refuted : exists plan order root dest r t t' l',
  plan_ok plan /\ proper plan /\ no_overlap plan /\ no_dead_end plan dest /\ lowest plan (k_frm root) dest /\
  never_just_in_time plan (k_frm root) (k_start root) /\ neighbour_order plan order /\ 0 <= k_start root < tmax /\
  cmr_dijkstra plan order root dest = Some (Some r) /\ journey unended plan (k_frm root) (k_start root) dest t (r_hops r) /\
  journey unended plan (k_frm root) (k_start root) dest t' l' /\ t' < t.
Proof.
  set (c := mkContact 1 2 0 11 1000 100 0). set (d := mkContact 1 2 20 31 1000 2 1). set (p := [c; d]).
  exists p, (some_order p), (root_contact 1), 2%N. eexists. exists 100, 22, [d].
  split; [small_plan|]. split; [small_plan|]. split; [apply pairwise_no_overlap; reflexivity|].
  split; [apply check_no_dead_end; reflexivity|]. split; [apply check_lowest; reflexivity|]. split; [apply even_times; reflexivity|].
  split; [apply some_order_ok|]. split; [vm_compute; split; congruence|]. split; [vm_compute; reflexivity|]. cbn [r_hops].
  split; [apply (J_hop unended p 1%N 0 1%N 0 [] c); [constructor|now left|reflexivity|reflexivity]|].
  split; [apply (J_hop unended p 1%N 0 1%N 0 [] d); [constructor|right; now left|reflexivity|reflexivity]|reflexivity].
Qed.
Print Assumptions C41_earliest_with_different_delays_refuted.

(** Of two contacts between two nodes one of which is within the other, the longer one is not used after the shorter one. *)
Theorem C41_overlapping_contacts_refuted : exists plan order root dest t l,
  plan_ok plan /\ proper plan /\ same_delays plan /\ no_dead_end plan dest /\ lowest plan (k_frm root) dest /\
  never_just_in_time plan (k_frm root) (k_start root) /\ neighbour_order plan order /\ 0 <= k_start root < tmax /\
  journey unended plan (k_frm root) (k_start root) dest t l /\ cmr_dijkstra plan order root dest = Some None.
Proof.
  set (c := mkContact 1 2 0 101 1000 50 0). set (d := mkContact 2 3 0 101 1000 2 1). set (p := [c; d; mkContact 2 3 2 7 1000 2 2]).
  exists p, (some_order p), (root_contact 1), 3%N, 52, [c; d].
  split; [small_plan|]. split; [small_plan|]. split; [apply pairwise_same_delays; reflexivity|].
  split; [apply check_no_dead_end; reflexivity|]. split; [apply check_lowest; reflexivity|]. split; [apply even_times; reflexivity|].
  split; [apply some_order_ok|]. split; [vm_compute; split; congruence|].
  split; [|vm_compute; reflexivity].
  apply (J_hop unended p 1%N 0 2%N 50 [c] d); [|right; now left|reflexivity|reflexivity].
  apply (J_hop unended p 1%N 0 1%N 0 [] c); [constructor|now left|reflexivity|reflexivity].
Qed.
Print Assumptions C41_overlapping_contacts_refuted.
