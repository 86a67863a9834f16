(** Properties C01-C04: fragment sets. Vocabulary: S_FragmentSet.v. *)
From Coq Require Import NArith List Bool Sorted Lia.
From Verif Require Import Base M_FragmentSet S_FragmentSet L_FragmentSet.
Import ListNotations.
Open Scope N_scope.

(** C01: after any sequence of insertions into an empty set, exactly the inserted indices are covered and the
    stored ranges are sorted, disjoint and non-adjacent. *)
Theorem C01_insert_history_is_union : forall last ks, Forall valid ks ->
  canonical (insert_all last [] ks) /\
  (forall i, covers (insert_all last [] ks) i <-> exists k, In k ks /\ in_frag k i).
Proof.
  intros last ks Hv. destruct (insert_all_spec last ks [] canonical_nil Hv) as (A & B).
  split; [exact A|]. intros i. rewrite B, covers_nil. tauto.
Qed.
Print Assumptions C01_insert_history_is_union.
Example C01_insert_history_is_union_ex :
  Forall valid [(5,10); (20,30); (11,19); (0,2); (2,6)] /\
  insert_all true [] [(5,10); (20,30); (11,19); (0,2); (2,6)] = [(0,30)] /\
  insert_all false [] [(5,10); (20,30); (0,2); (8,9); (12,12)] = [(0,2); (5,10); (12,12); (20,30)].
Proof.
  split; [|split; reflexivity].
  repeat constructor; unfold W64; simpl; lia.
Qed.

(** C01: each call returns true iff it made a new index covered, terminates, and covers exactly old + key. *)
Theorem C01_insert_one : forall last s key, canonical s -> valid key ->
  exists s' m, insert_fragment_full last s key = Some (s', m) /\ canonical s' /\
    (forall i, covers s' i <-> covers s i \/ in_frag key i) /\
    (m = true <-> exists i, in_frag key i /\ ~ covers s i).
Proof.
  intros last s key Hc Hk. destruct (insert_total last s key Hc Hk) as ((s' & m) & E).
  pose proof (insert_spec last s key Hc Hk) as H. unfold insert_fragment in H. rewrite E in H.
  exists s', m. split; [exact E|exact H].
Qed.
Print Assumptions C01_insert_one.
Example C01_insert_one_ex : canonical [(0,2); (5,10); (20,30)] /\ valid (3,21) /\
  insert_fragment_full true [(0,2); (5,10); (20,30)] (3,21) = Some ([(0,30)], true) /\
  insert_fragment_full true [(0,2); (5,10); (20,30)] (6,10) = Some ([(0,2); (5,10); (20,30)], false).
Proof. repeat split; repeat constructor; unfold W64; simpl; lia. Qed.

(** C01: which equivalent element std::set::insert reports does not matter. *)
Theorem C01_insert_library_choice_irrelevant : forall s key, canonical s -> valid key ->
  insert_fragment true s key = insert_fragment false s key.
Proof. exact insert_choice_irrelevant. Qed.
Print Assumptions C01_insert_library_choice_irrelevant.
Example C01_insert_library_choice_irrelevant_ex :
  set_find true [(0,2); (5,10); (20,30)] (3,21) <> set_find false [(0,2); (5,10); (20,30)] (3,21) /\
  insert_fragment true [(0,2); (5,10); (20,30)] (3,21) = insert_fragment false [(0,2); (5,10); (20,30)] (3,21).
Proof. split; [discriminate|reflexivity]. Qed.

(** C01 without the bound end < 2^64-1 is false: with end = 2^64-1 the comparator wraps and overlapping
    fragments are stored side by side. *)
Theorem C01_insert_at_uint64_max_refuted : exists s key, 
  s = insert_all true [] [(5, U64MAX)] /\ fst key <= snd key /\ snd key < W64 /\
  ~ StronglySorted gap_before (fst (insert_fragment true s key)) /\
  snd (insert_fragment true s key) = true /\ (forall i, in_frag key i -> covers s i).
Proof.
  exists [(5, U64MAX)], (10, 20). split; [reflexivity|]. split; [simpl; lia|]. split; [unfold W64; simpl; lia|].
  split; [|split; [reflexivity|]].
  - change (fst (insert_fragment true [(5, U64MAX)] (10, 20))) with [(5, U64MAX); (10, 20)].
    intros H. inversion H; subst. inversion H3; subst. unfold gap_before, U64MAX in H4. simpl in H4. lia.
  - intros i Hi. exists (5, U64MAX). split; [left; reflexivity|]. unfold in_frag, U64MAX in *. simpl in *. lia.
Qed.
Print Assumptions C01_insert_at_uint64_max_refuted.

(** C02: the queries. *)
Theorem C02_contains_entirely_iff_all_covered : forall last s key, canonical s -> valid key ->
  (contains_entirely last s key = true <-> forall i, in_frag key i -> covers s i).
Proof. exact contains_entirely_spec. Qed.
Print Assumptions C02_contains_entirely_iff_all_covered.
Example C02_contains_ex : contains_entirely true [(0,2); (5,10)] (6,10) = true /\
  contains_entirely true [(0,2); (5,10)] (2,5) = false.
Proof. split; reflexivity. Qed.

Theorem C02_does_not_contain_iff_none_covered : forall s key, canonical s -> fst key <= snd key ->
  (does_not_contain s key = true <-> forall i, in_frag key i -> ~ covers s i).
Proof. exact does_not_contain_spec. Qed.
Print Assumptions C02_does_not_contain_iff_none_covered.
Example C02_does_not_contain_ex : does_not_contain [(0,2); (5,10)] (3,4) = true /\
  does_not_contain [(0,2); (5,10)] (3,5) = false.
Proof. split; reflexivity. Qed.

Theorem C02_sets_overlap_iff_common_index : forall s1 s2, canonical s1 -> canonical s2 ->
  (sets_have_overlap s1 s2 = true <-> exists i, covers s1 i /\ covers s2 i).
Proof. exact sets_overlap_spec. Qed.
Print Assumptions C02_sets_overlap_iff_common_index.
Example C02_sets_overlap_ex : sets_have_overlap [(0,2); (5,10)] [(3,4); (11,12)] = false /\
  sets_have_overlap [(0,2); (5,10)] [(3,4); (10,12)] = true.
Proof. split; reflexivity. Qed.

Theorem C02_get_overlap_is_intersection : forall k1 k2,
  match get_overlap k1 k2 with
  | Some o => forall i, in_frag o i <-> in_frag k1 i /\ in_frag k2 i
  | None => forall i, ~ (in_frag k1 i /\ in_frag k2 i)
  end.
Proof. exact get_overlap_spec. Qed.
Print Assumptions C02_get_overlap_is_intersection.
Theorem C02_get_overlap_nonempty : forall k1 k2 o, fst k1 <= snd k1 -> fst k2 <= snd k2 ->
  get_overlap k1 k2 = Some o -> exists i, in_frag o i.
Proof.
  intros k1 k2 o H1 H2 H. exists (fst o). split; [apply N.le_refl|]. exact (get_overlap_nonempty k1 k2 o H1 H2 H).
Qed.
Print Assumptions C02_get_overlap_nonempty.
Example C02_get_overlap_ex : get_overlap (3,9) (7,20) = Some (7,9) /\ get_overlap (3,6) (7,20) = None.
Proof. split; reflexivity. Qed.

(** C03: the unconditional claim is false: a stored fragment ending just below the removed range makes
    RemoveFragment stop immediately. *)
Theorem C03_remove_uncovers_exactly_refuted : exists s key i, canonical s /\ valid key /\
  covers s i /\ in_frag key i /\ covers (fst (remove_fragment s key)) i /\ snd (remove_fragment s key) = false.
Proof.
  exists [(0,4); (10,15)], (5,20), 12.
  split; [repeat constructor; unfold W64; simpl; lia|].
  split; [unfold valid, W64; simpl; lia|].
  assert (H : covers [(0,4); (10,15)] 12).
  { exists (10,15). split; [simpl; auto|unfold in_frag; simpl; lia]. }
  split; [exact H|]. split; [unfold in_frag; simpl; lia|]. split; [exact H|reflexivity].
Qed.
Print Assumptions C03_remove_uncovers_exactly_refuted.

(** C03: with no stored fragment ending exactly one below the key, removal is exact.
    Missing from the full claim: the abutting case, in which (next theorem) nothing is removed. *)
Theorem C03_remove_uncovers_exactly_partial : forall s key, canonical s -> valid key -> ~ abuts_left s key ->
  canonical (fst (remove_fragment s key)) /\
  (forall i, covers (fst (remove_fragment s key)) i <-> covers s i /\ ~ in_frag key i) /\
  (snd (remove_fragment s key) = true <-> exists i, covers s i /\ in_frag key i).
Proof. exact remove_spec. Qed.
Print Assumptions C03_remove_uncovers_exactly_partial.
Example C03_remove_ex : canonical [(0,4); (10,15); (20,30)] /\ ~ abuts_left [(0,4); (10,15); (20,30)] (4,22) /\
  remove_fragment [(0,4); (10,15); (20,30)] (4,22) = ([(0,3); (23,30)], true) /\
  remove_fragment [(0,4); (10,15); (20,30)] (12,12) = ([(0,4); (10,11); (13,15); (20,30)], true).
Proof.
  split; [repeat constructor; unfold W64; simpl; lia|]. split; [|split; reflexivity].
  intros (e & [<-|[<-|[<-|[]]]] & H); simpl in H; lia.
Qed.

Theorem C03_remove_abutting_does_nothing : forall s key, canonical s -> valid key -> abuts_left s key ->
  remove_fragment s key = (s, false).
Proof. exact remove_abut_noop. Qed.
Print Assumptions C03_remove_abutting_does_nothing.

(** C03: removing a single index is always exact. *)
Theorem C03_remove_single_index_exact : forall s i0, canonical s -> i0 + 1 < W64 ->
  canonical (fst (remove_fragment s (i0, i0))) /\
  (forall i, covers (fst (remove_fragment s (i0, i0))) i <-> covers s i /\ i <> i0) /\
  (snd (remove_fragment s (i0, i0)) = true <-> covers s i0).
Proof. exact remove_single_spec. Qed.
Print Assumptions C03_remove_single_index_exact.
Example C03_remove_single_ex : remove_fragment [(0,4); (10,15)] (12,12) = ([(0,4); (10,11); (13,15)], true) /\
  remove_fragment [(0,4); (10,15)] (5,5) = ([(0,4); (10,15)], false).
Proof. split; reflexivity. Qed.

(** C01/C03: every history of insertions and removals leaves the set canonical. *)
Theorem C03_every_history_stays_canonical : forall last ops, Forall op_valid ops -> canonical (run last [] ops).
Proof. intros last ops H. exact (run_canonical last ops [] canonical_nil H). Qed.
Print Assumptions C03_every_history_stays_canonical.
Example C03_history_ex : Forall op_valid [Insert (0,100); Remove (10,20); Insert (15,16); Remove (0,12)] /\
  run true [] [Insert (0,100); Remove (10,20); Insert (15,16); Remove (0,12)] = [(15,16); (21,100)].
Proof. split; [repeat constructor; unfold W64; simpl; lia|reflexivity]. Qed.

(** C04. *)
Theorem C04_bounds_minus_fragments_exact : forall last bounds s, valid bounds -> canonical s ->
  canonical (bounds_minus last bounds s) /\
  (forall i, covers (bounds_minus last bounds s) i <-> in_frag bounds i /\ ~ covers s i).
Proof. exact bounds_minus_spec. Qed.
Print Assumptions C04_bounds_minus_fragments_exact.
Example C04_ex : bounds_minus true (5,50) [(0,6); (10,15); (40,60); (70,80)] = [(7,9); (16,39)].
Proof. reflexivity. Qed.
