(** Properties C08-C10: the disk segment allocator. Vocabulary: S_SegmentAlloc.v. *)
From Coq Require Import NArith List Bool Lia ZifyBool ZifyN.
From Verif Require Import Base M_SegmentAlloc S_SegmentAlloc L_SegmentAlloc.
Import ListNotations.
Open Scope N_scope.

(** C08: for every capacity up to 2^32-4, every width of segment_id_t (>= 32 bits) and every history of calls,
    no undefined behaviour occurs, every return value is the one prescribed by the specification over the set of
    allocated ids (lowest free id, FULL iff none is free, ...), and afterwards IsSegmentFree and the allocated
    count agree with that set. *)
Theorem C08_every_history_meets_specification : forall idw max os,
  W32 <= idw -> max <= MAXSEGMENTS ->
  exists st outs A, seg_run idw (mm_init max) os = Some (st, outs) /\
    spec_run max [] os outs A /\ observes st max A.
Proof.
  intros idw max os Hw Hm.
  destruct (run_refines idw max Hw os (mm_init max) [] (refines_init max Hm)) as (st & outs & A & E & S & R).
  exists st, outs, A. split; [exact E|]. split; [exact S|]. now apply refines_observes.
Qed.
Print Assumptions C08_every_history_meets_specification.
Definition C08_history := [GetFirst; GetMany 2; Free 1; Reserve 4; Reserve 4; GetFirst; Free 9; GetMany 2; GetFirst; GetFirst; FreeMany [0;4;4]; GetMany 2].
Example C08_every_history_meets_specification_ex : W32 <= W64 /\ 5 <= MAXSEGMENTS /\
  option_map snd (seg_run W64 (mm_init 5) C08_history) =
  Some [OId 0; OIds [1;2]; OBool true; OBool true; OBool false; OId 1; OBool false; OFail; OId 3; OFull; OBool false; OIds [0;4]].
Proof. split; [unfold W32, W64; lia|]. split; [unfold MAXSEGMENTS; lia|]. vm_compute. reflexivity. Qed.

(** A state some history leads to. *)
Definition reachable (idw max : N) (st : mm) : Prop :=
  exists os outs, seg_run idw (mm_init max) os = Some (st, outs).
Lemma reachable_refines idw max st : W32 <= idw -> max <= MAXSEGMENTS -> reachable idw max st -> exists A, refines st max A.
Proof.
  intros Hw Hm (os & outs & E).
  destruct (run_refines idw max Hw os (mm_init max) [] (refines_init max Hm)) as (st' & outs' & A & E' & _ & R).
  rewrite E in E'. injection E' as <- <-. now exists A.
Qed.

(** C08: in every reachable state an allocation returns the smallest id that IsSegmentFree reports free, or FULL
    iff it reports none. *)
Theorem C08_allocation_returns_lowest_free : forall idw max st, W32 <= idw -> max <= MAXSEGMENTS -> reachable idw max st ->
  (exists st' id, get_first_free idw st = Some (st', Seg id) /\ is_segment_free st id = Some true /\
      (forall j, is_segment_free st j = Some true -> id <= j) /\
      (forall j, is_segment_free st' j = Some true <-> is_segment_free st j = Some true /\ j <> id) /\
      mm_count st' = mm_count st + 1) \/
  (get_first_free idw st = Some (st, Full) /\ (forall j, is_segment_free st j = Some false) /\ mm_count st = max).
Proof.
  intros idw max st Hw Hm Hr. destruct (reachable_refines idw max st Hw Hm Hr) as (A & R).
  pose proof (refines_observes st max A R) as (_ & Hn & Hl & Hc & Ht & Hf).
  destruct (get_refines idw st max A R Hw) as [(st' & id & E & (L1 & L2) & R')|(E & NF)].
  - left. exists st', id. pose proof (refines_observes st' max _ R') as (_ & _ & _ & Hc' & Ht' & _).
    split; [exact E|]. split; [now apply Ht|]. split; [intros j Hj; apply L2; now apply Ht|]. split.
    + intros j. rewrite Ht, Ht'. unfold is_free. simpl. intuition congruence.
    + rewrite Hc', Hc. simpl length. lia.
  - right. split; [exact E|]. split; [intros j; apply Hf; apply NF|]. rewrite Hc. now apply bounded_full.
Qed.
Print Assumptions C08_allocation_returns_lowest_free.
Example C08_allocation_returns_lowest_free_ex : exists st,
  reachable W32 200 st /\ is_segment_free st 0 = Some false /\ is_segment_free st 64 = Some true /\
  option_map snd (get_first_free W32 st) = Some (Seg 64).
Proof.
  eexists. split; [exists [GetMany 70; Free 64; Free 68], [OIds (map N.of_nat (seq 0 70)); OBool true; OBool true]; vm_compute; reflexivity|].
  vm_compute. auto.
Qed.

(** C09: AllocateSegments(n) succeeds iff at least n segments are free; then the n ids are distinct, were free,
    and are exactly the ids that stop being free; on failure nothing a caller can observe has changed. *)
Theorem C09_allocate_many_all_or_nothing : forall idw max st n, W32 <= idw -> max <= MAXSEGMENTS -> reachable idw max st ->
  (mm_count st + N.of_nat n <= max /\
   exists st' ids, alloc_segments idw st n = Some (st', Some ids) /\ length ids = n /\ NoDup ids /\
     (forall j, In j ids -> is_segment_free st j = Some true) /\
     (forall j, is_segment_free st' j = Some true <-> is_segment_free st j = Some true /\ ~ In j ids) /\
     mm_count st' = mm_count st + N.of_nat n) \/
  (mm_count st + N.of_nat n > max /\
   exists st', alloc_segments idw st n = Some (st', None) /\
     (forall j, is_segment_free st' j = is_segment_free st j) /\ mm_count st' = mm_count st).
Proof.
  intros idw max st n Hw Hm Hr. destruct (reachable_refines idw max st Hw Hm Hr) as (A & R).
  pose proof (refines_observes st max A R) as (_ & Hn & Hl & Hc & Ht & Hf).
  destruct (alloc_n_refines idw max Hw n A [] A st (takes_nil max A) R) as [(st' & ids & A' & E & L & T & R')|(st' & E & R' & L)].
  - left. pose proof (takes_room max A ids A' Hn Hl T) as Room. simpl in L. rewrite L in Room. split; [lia|].
    exists st', ids. pose proof (takes_spec _ _ _ _ T) as EA. subst A'.
    pose proof (refines_observes st' max _ R') as (_ & _ & _ & Hc' & Ht' & _).
    split; [exact E|]. split; [exact L|]. split; [eapply takes_NoDup; eauto|]. split; [|split].
    + intros j Hj. apply Ht. eapply takes_In; eauto.
    + intros j. rewrite Ht, Ht'. unfold is_free. rewrite in_app_iff, <- in_rev. tauto.
    + rewrite Hc', Hc, app_length, rev_length, L. lia.
  - right. split; [lia|]. exists st'. split; [exact E|].
    pose proof (refines_observes st' max _ R') as (_ & _ & _ & Hc' & _ & _). split; [|congruence].
    intros j. destruct (is_segment_free_refines st' max A j R') as (b' & -> & Hb').
    destruct (is_segment_free_refines st max A j R) as (b & -> & Hb). f_equal.
    destruct b, b'; auto; [assert (false = true) by tauto|assert (false = true) by tauto]; congruence.
Qed.
Print Assumptions C09_allocate_many_all_or_nothing.
Example C09_allocate_many_all_or_nothing_ex : exists st st1 st2, reachable W64 70 st /\ mm_count st = 66 /\
  alloc_segments W64 st 4 = Some (st1, Some [3; 67; 68; 69]) /\
  alloc_segments W64 st 5 = Some (st2, None) /\ mm_count st2 = 66 /\ is_segment_free st2 3 = Some true.
Proof.
  eexists. eexists. eexists. split.
  - exists [GetMany 67; Free 3]. eexists. vm_compute. reflexivity.
  - split; [vm_compute; reflexivity|]. split; [vm_compute; reflexivity|]. split; [vm_compute; reflexivity|]. vm_compute. auto.
Qed.

(** C10: freeing succeeds iff the id is in range and not free, and then only that id becomes free; a failed free
    changes nothing observable. *)
Theorem C10_free_is_exact : forall idw max st id, W32 <= idw -> max <= MAXSEGMENTS -> reachable idw max st ->
  exists st' r, free_segment st id = Some (st', r) /\
    (r = true <-> id < max /\ is_segment_free st id = Some false) /\
    (forall j, is_segment_free st' j = Some true <-> is_segment_free st j = Some true \/ (r = true /\ j = id)) /\
    (mm_count st' = if r then mm_count st - 1 else mm_count st).
Proof.
  intros idw max st id Hw Hm Hr. destruct (reachable_refines idw max st Hw Hm Hr) as (A & R).
  pose proof (refines_observes st max A R) as (_ & Hn & Hl & Hc & Ht & Hf).
  destruct (free_refines st max A id R) as (st' & r & E & Hi & R'). exists st', r. split; [exact E|].
  pose proof (refines_observes st' max _ R') as (_ & _ & _ & Hc' & Ht' & _).
  assert (Hdec : In id A \/ ~ In id A) by (destruct (in_dec N.eq_dec id A); auto).
  split.
  - rewrite Hi, Hf. unfold is_free. split.
    + intros H. split; [now apply Hl|tauto].
    + intros (H1 & H2). tauto.
  - destruct r; split.
    + intros j. rewrite Ht, Ht'. unfold is_free. split.
      * intros (H1 & H2). destruct (N.eq_dec j id); [right; auto|left]. split; auto. intros H. apply H2. now apply in_in_remove.
      * intros [(H1 & H2)|(_ & ->)].
        -- split; auto. intros H. apply in_remove in H. tauto.
        -- split; [apply Hl; now apply Hi|]. intros H. apply in_remove in H. tauto.
    + rewrite Hc', Hc. apply remove_length_in; auto. now apply Hi.
    + intros j. rewrite Ht, Ht'. intuition congruence.
    + congruence.
Qed.
Print Assumptions C10_free_is_exact.
Example C10_free_is_exact_ex : exists st st1 st2, reachable W64 70 st /\
  free_segment st 3 = Some (st1, true) /\ free_segment st 66 = Some (st2, false) /\ is_segment_free st 66 = Some true.
Proof.
  eexists. eexists. eexists. split; [exists [GetMany 66]; eexists; vm_compute; reflexivity|].
  split; [vm_compute; reflexivity|]. split; vm_compute; reflexivity.
Qed.

(** C10: reserving succeeds iff the id is in range and free, and then only that id stops being free. *)
Theorem C10_reserve_is_exact : forall idw max st id, W32 <= idw -> max <= MAXSEGMENTS -> reachable idw max st ->
  exists st' r, alloc_segment st id = Some (st', r) /\
    (r = true <-> is_segment_free st id = Some true) /\
    (forall j, is_segment_free st' j = Some true <-> is_segment_free st j = Some true /\ ~ (r = true /\ j = id)) /\
    (mm_count st' = if r then mm_count st + 1 else mm_count st).
Proof.
  intros idw max st id Hw Hm Hr. destruct (reachable_refines idw max st Hw Hm Hr) as (A & R).
  pose proof (refines_observes st max A R) as (_ & Hn & Hl & Hc & Ht & Hf).
  destruct (alloc_refines st max A id R) as (st' & r & E & Hi & R'). exists st', r. split; [exact E|].
  pose proof (refines_observes st' max _ R') as (_ & _ & _ & Hc' & Ht' & _).
  split; [rewrite Ht; exact Hi|]. destruct r; split.
  - intros j. rewrite Ht, Ht'. unfold is_free. simpl. intuition congruence.
  - rewrite Hc', Hc. simpl length. lia.
  - intros j. rewrite Ht, Ht'. intuition congruence.
  - congruence.
Qed.
Print Assumptions C10_reserve_is_exact.
Example C10_reserve_is_exact_ex : exists st st1 st2, reachable W64 70 st /\
  alloc_segment st 68 = Some (st1, true) /\ alloc_segment st1 68 = Some (st2, false) /\ is_segment_free st1 69 = Some true.
Proof.
  eexists. eexists. eexists. split; [exists [GetMany 66]; eexists; vm_compute; reflexivity|].
  split; [vm_compute; reflexivity|]. split; vm_compute; reflexivity.
Qed.

(** C09/C10: freeing a list frees exactly the listed allocated ids and reports success iff each entry was
    allocated when its turn came. *)
Theorem C10_free_many_is_exact : forall idw max st ids, W32 <= idw -> max <= MAXSEGMENTS -> reachable idw max st ->
  exists st' r, free_list st ids = Some (st', r) /\
    (r = true <-> NoDup ids /\ forall id, In id ids -> id < max /\ is_segment_free st id = Some false) /\
    (forall j, is_segment_free st' j = Some true <-> is_segment_free st j = Some true \/ (j < max /\ In j ids)).
Proof.
  intros idw max st ids Hw Hm Hr. destruct (reachable_refines idw max st Hw Hm Hr) as (A & R).
  pose proof (refines_observes st max A R) as (_ & Hn & Hl & Hc & Ht & Hf).
  destruct (free_list_refines max ids st A R) as (st' & E & R'). exists st', (snd (frees A ids)). split; [exact E|].
  pose proof (refines_observes st' max _ R') as (_ & _ & _ & Hc' & Ht' & _).
  assert (K : forall ids A, NoDup A -> (snd (frees A ids) = true <-> NoDup ids /\ forall id, In id ids -> In id A) /\
                            (forall j, In j (fst (frees A ids)) <-> In j A /\ ~ In j ids)).
  { clear. induction ids as [|id ids IH]; intros A Hn; simpl.
    - split; [split; [intros _; split; [constructor|tauto]|auto]|]. tauto.
    - destruct (existsb (N.eqb id) A) eqn:Ex.
      + assert (Hin : In id A) by (apply existsb_exists in Ex; destruct Ex as (x & Hx & Hxe); apply N.eqb_eq in Hxe; now subst).
        destruct (IH (remove N.eq_dec id A) (NoDup_remove_id A id Hn)) as (I1 & I2). split.
        * rewrite I1. split.
          -- intros (H1 & H2). split.
             ++ constructor; auto. intros H. specialize (H2 id H). apply in_remove in H2. tauto.
             ++ intros x [<-|Hx]; auto. specialize (H2 x Hx). apply in_remove in H2. tauto.
          -- intros (H1 & H2). inversion H1; subst. split; auto. intros x Hx. apply in_in_remove; [intros ->; tauto|auto].
        * intros j. rewrite I2. split.
          -- intros (H1 & H2). apply in_remove in H1. intuition.
          -- intros (H1 & H2). split; [apply in_in_remove; intuition|tauto].
      + assert (Hin : ~ In id A). { intros Hin. assert (existsb (N.eqb id) A = true) by (apply existsb_exists; exists id; split; auto; lia). congruence. }
        destruct (IH A Hn) as (I1 & I2). simpl. split.
        * split; [discriminate|]. intros (_ & H). specialize (H id (or_introl eq_refl)). tauto.
        * intros j. rewrite I2. split; [|tauto]. intros (H1 & H2). split; auto. intros [<-|H]; tauto. }
  destruct (K ids A Hn) as (K1 & K2). split.
  - rewrite K1. split.
    + intros (H1 & H2). split; auto. intros id Hid. specialize (H2 id Hid). split; [now apply Hl|].
      apply Hf. unfold is_free. tauto.
    + intros (H1 & H2). split; auto. intros id Hid. destruct (H2 id Hid) as (H3 & H4). apply Hf in H4. unfold is_free in H4.
      destruct (in_dec N.eq_dec id A); tauto.
  - intros j. rewrite Ht, Ht'. unfold is_free. rewrite K2. destruct (in_dec N.eq_dec j ids), (in_dec N.eq_dec j A); tauto.
Qed.
Print Assumptions C10_free_many_is_exact.
Example C10_free_many_is_exact_ex : exists st, reachable W64 70 st /\
  option_map snd (free_list st [5; 64; 2]) = Some true /\ option_map snd (free_list st [5; 5]) = Some false.
Proof. eexists. split; [exists [GetMany 66]; eexists; vm_compute; reflexivity|]. split; vm_compute; reflexivity. Qed.
