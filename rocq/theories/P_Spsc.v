(** Property C14: the single-producer single-consumer circular index buffer. Vocabulary: S_Spsc.v. The executions of
    M_Spsc.v are all interleavings of the two threads with every value a release/acquire load may return. *)
From Coq Require Import NArith ZArith List Bool Lia ZifyBool ZifyN.
From Verif Require Import Base M_Spsc S_Spsc L_Spsc.
Import ListNotations.
Open Scope N_scope.

(** C14: no execution races on a slot, leaves the array or reads a slot never written; and what the consumer has read
    is exactly an initial part of what the producer has committed, in order. *)
Theorem C14_consumer_reads_committed_items_in_order : forall size acts r es,
  1 <= size -> size < W32 -> sp_run size sp_init acts = Some (r, es) ->
  (exists st, r = inl st) /\ exists rest, committed es = got es ++ rest.
Proof.
  intros size acts r es H1 H2 E. destruct (inv_run size H1 H2 _ _ _ _ _ (inv_init size H1 H2) E) as (st & -> & I). simpl in I.
  split; [now exists st|]. exists (skipn (length (got es)) (committed es)).
  assert (length (got es) <= commitsW es)%nat as L.
  { pose proof (i_nr _ _ _ I). pose proof (i_cv1 _ _ _ I). pose proof (i_cv2 _ _ _ I). pose proof (i_cpc _ _ _ I).
    destruct (sp_cpc st); simpl in *; lia. }
  rewrite <- (firstn_skipn (length (got es)) (committed es)) at 1. f_equal.
  unfold committed. rewrite firstn_firstn. replace (Nat.min _ _) with (length (got es)) by lia. apply (i_vals _ _ _ I).
Qed.
Print Assumptions C14_consumer_reads_committed_items_in_order.
Definition C14_acts := [PGet 0; PWrite 7; CGet 0; PCommit; PGet 0; PWrite 8; CGet 1; CRead; PCommit; PGet 0; CCommit; PGet 0; PGet 1; PWrite 9; PCommit; CGet 1; CGet 3; CRead; CCommit; CGet 3; CRead]%nat.
Example C14_consumer_reads_committed_items_in_order_ex :
  option_map snd (sp_run 3 sp_init C14_acts) =
  Some [EvIndexW 0; EvWrote 0 7; EvIndexR CB_EMPTY; EvCommitW; EvIndexW 1; EvWrote 1 8; EvIndexR 0; EvRead 0 7; EvCommitW;
        EvIndexW CB_FULL; EvCommitR; EvIndexW CB_FULL; EvIndexW 2; EvWrote 2 9; EvCommitW; EvIndexR CB_EMPTY; EvIndexR 1; EvRead 1 8; EvCommitR; EvIndexR 2; EvRead 2 9].
Proof. vm_compute. reflexivity. Qed.

(** C14: every write goes to the slot after the previous one's, with fewer than size-1 items unreleased, and that slot
    holds no item the consumer has yet to release; the j-th read returns the j-th committed item. *)
Theorem C14_writes_never_overwrite_unreleased : forall size acts r es es1 i v es2,
  1 <= size -> size < W32 -> sp_run size sp_init acts = Some (r, es) -> es = es1 ++ EvWrote i v :: es2 ->
  i = N.of_nat (length (written es1)) mod size /\
  N.of_nat (length (written es1) - commitsR es1) < size - 1 /\
  forall j, (commitsR es1 <= j < length (written es1))%nat -> slot_of size j <> i.
Proof.
  intros size acts r es es1 i v es2 H1 H2 E ->. destruct (run_split _ _ _ _ _ _ E) as (a1 & a2 & st1 & _ & E1 & E2).
  destruct (inv_run size H1 H2 _ _ _ _ _ (inv_init size H1 H2) E1) as (st & Q & I). injection Q as <-. simpl in I.
  destruct a2 as [|a a2]; [discriminate|]. simpl in E2. destruct (sp_step size st1 a) as [[st' e'|f]|] eqn:S; try discriminate.
  destruct (sp_run size st' a2) as [[r1 es']|] eqn:R; [|discriminate]. simpl in E2. injection E2 as _ -> _.
  destruct a; simpl in S; destruct (sp_ppc st1) eqn:P; try discriminate;
    try (destruct (_ && _); discriminate); try (destruct (sp_cpc st1); try discriminate; try (destruct (_ && _); discriminate); fail).
  - destruct (size <=? i0); [discriminate|]. destruct (Nat.ltb _ _); [discriminate|]. injection S as _ -> _.
    pose proof (i_ppc _ _ _ I) as PP. rewrite P in PP. destruct PP as [-> PR]. pose proof (i_nw _ _ _ I) as NW. rewrite P in NW. simpl in NW.
    pose proof (i_pv _ _ _ I). rewrite Nat.add_0_r in NW. rewrite NW. split; [reflexivity|]. split; [pose proof (i_cv1 _ _ _ I); pose proof (i_cv2 _ _ _ I); lia|].
    intros j J Q. apply (slot_inj size H1 H2) in Q; lia.
  - destruct (sp_cpc st1); try discriminate. destruct (size <=? _); [discriminate|]. destruct (sp_slots st1 _) as [[? ?]|]; [|discriminate]. destruct (Nat.ltb _ _); discriminate.
  - destruct (sp_cpc st1); try discriminate. destruct (size <=? _); [discriminate|]. destruct (sp_slots st1 _) as [[? ?]|]; [|discriminate]. destruct (Nat.ltb _ _); discriminate.
  - destruct (sp_cpc st1); try discriminate. destruct (size <=? _); [discriminate|]. destruct (sp_slots st1 _) as [[? ?]|]; [|discriminate]. destruct (Nat.ltb _ _); discriminate.
Qed.
Print Assumptions C14_writes_never_overwrite_unreleased.
Example C14_writes_never_overwrite_unreleased_ex : exists r es es1 es2, sp_run 3 sp_init C14_acts = Some (r, es) /\
  es = es1 ++ EvWrote 2 9 :: es2 /\ length (written es1) = 2%nat /\ commitsR es1 = 1%nat.
Proof.
  do 2 eexists. exists [EvIndexW 0; EvWrote 0 7; EvIndexR CB_EMPTY; EvCommitW; EvIndexW 1; EvWrote 1 8; EvIndexR 0; EvRead 0 7; EvCommitW;
        EvIndexW CB_FULL; EvCommitR; EvIndexW CB_FULL; EvIndexW 2], [EvCommitW; EvIndexR CB_EMPTY; EvIndexR 1; EvRead 1 8; EvCommitR; EvIndexR 2; EvRead 2 9].
  split; [vm_compute; reflexivity|]. repeat split.
Qed.

(** C14: at most size-1 items are ever committed and not released. *)
Theorem C14_capacity : forall size acts r es,
  1 <= size -> size < W32 -> sp_run size sp_init acts = Some (r, es) ->
  (commitsR es <= commitsW es)%nat /\ N.of_nat (commitsW es - commitsR es) <= size - 1.
Proof.
  intros size acts r es H1 H2 E. destruct (inv_run size H1 H2 _ _ _ _ _ (inv_init size H1 H2) E) as (st & -> & I). simpl in I.
  pose proof (i_room _ _ _ I). pose proof (i_pv _ _ _ I). pose proof (i_cv1 _ _ _ I). pose proof (i_cv2 _ _ _ I). lia.
Qed.
Print Assumptions C14_capacity.
(** ... and with a producer running alone exactly size-1 items go in. *)
Theorem C14_capacity_attained : forall size n, 1 <= size -> size < W32 -> N.of_nat n <= size - 1 -> exists acts st es,
  sp_run size sp_init acts = Some (inl st, es) /\ commitsW es = n /\ commitsR es = 0%nat /\ sp_ppc st = Idle /\
  exists st', sp_step size st (PGet 0) = Some (Next st' (EvIndexW (if N.of_nat n =? size - 1 then CB_FULL else N.of_nat n))).
Proof.
  intros size n H1 H2 Hn. induction n as [|n IH].
  - exists [], sp_init, []. split; [reflexivity|]. split; [reflexivity|]. split; [reflexivity|]. split; [reflexivity|].
    eexists. unfold sp_step. change (sp_ppc sp_init) with Idle. cbv iota.
    change (Nat.leb (sp_pview sp_init) 0 && Nat.ltb 0 (length (sp_startH sp_init))) with true. cbv iota.
    rewrite (write_index size H1 H2 [] sp_init 0 (inv_init size H1 H2)) by (simpl; lia).
    simpl commitsW. replace (N.of_nat 0 + 1 =? N.of_nat 0 + size) with (N.of_nat 0 =? size - 1) by lia.
    replace (slot_of size 0) with (N.of_nat 0) by (unfold slot_of; rewrite N.mod_small; lia). reflexivity.
  - destruct IH as (acts & st & es & E & W & R & P & st' & S); [lia|].
    destruct (inv_run size H1 H2 _ _ _ _ _ (inv_init size H1 H2) E) as (st0 & Q & I). injection Q as <-. simpl in I.
    replace (N.of_nat n =? size - 1) with false in S by lia.
    assert (exists st2 es2, sp_run size st [PGet 0; PWrite 5; PCommit] = Some (inl st2, es2) /\ commitsW es2 = 1%nat /\ commitsR es2 = 0%nat /\ sp_ppc st2 = Idle /\ sp_pview st2 = 0%nat) as (st2 & es2 & E2 & W2 & R2 & P2 & V2).
    { destruct (inv_step size H1 H2 _ _ _ _ I S) as (x & y & Q & I'). injection Q as <- <-.
      assert (sp_ppc st' = Got (N.of_nat n) /\ sp_pview st' = 0%nat) as (P' & V').
      { clear - S P H1 H2 Hn. unfold sp_step in S. rewrite P in S. destruct (_ && _); [|discriminate]. injection S as <- Q. simpl. rewrite Q.
        replace (N.of_nat n =? CB_FULL) with false by (unfold CB_FULL, W32 in *; lia). split; reflexivity. }
      assert (exists o, sp_step size st' (PWrite 5) = Some o) as (o & S2).
      { unfold sp_step. rewrite P'. destruct (size <=? _); [eauto|]. destruct (Nat.ltb _ _); eauto. }
      destruct (inv_step size H1 H2 _ _ _ _ I' S2) as (st3 & e3 & -> & I3).
      assert (sp_ppc st3 = Done /\ e3 = EvWrote (N.of_nat n) 5 /\ sp_pview st3 = 0%nat) as (P3 & -> & V3).
      { unfold sp_step in S2. rewrite P' in S2. destruct (size <=? _); [discriminate|]. destruct (Nat.ltb _ _); [discriminate|]. injection S2 as <- <-. auto. }
      destruct (sp_step size st3 PCommit) as [o|] eqn:S3; [|unfold sp_step in S3; rewrite P3 in S3; discriminate].
      pose proof S3 as S3'. unfold sp_step in S3'. rewrite P3 in S3'. injection S3' as <-.
      do 2 eexists. cbn [sp_run]. rewrite S, S2, S3. cbn [option_map fst snd]. split; [reflexivity|]. repeat split. exact V3. }
    exists (acts ++ [PGet 0; PWrite 5; PCommit]), st2, (es ++ es2). pose proof (run_app _ _ _ _ _ _ _ _ E E2) as EE.
    split; [exact EE|]. rewrite commitsW_app, commitsR_app, W, W2, R, R2. split; [lia|]. split; [reflexivity|]. split; [exact P2|].
    destruct (inv_run size H1 H2 _ _ _ _ _ (inv_init size H1 H2) EE) as (st0 & Q & I2). injection Q as <-. simpl in I2.
    eexists. unfold sp_step. rewrite P2, V2. rewrite (i_start _ _ _ I2) at 1. rewrite hist_len. cbn [Nat.leb Nat.ltb andb].
    rewrite (write_index size H1 H2 _ _ 0 I2) by lia. rewrite commitsW_app, W, W2.
    replace (N.of_nat (n + 1) + 1 =? N.of_nat 0 + size) with (N.of_nat (Datatypes.S n) =? size - 1) by lia.
    replace (slot_of size (n + 1)) with (N.of_nat (Datatypes.S n)) by (unfold slot_of; rewrite N.mod_small; lia). reflexivity.
Qed.
Print Assumptions C14_capacity_attained.
Example C14_capacity_ex : (N.of_nat 2 <= 3 - 1) /\ exists st es, sp_run 3 sp_init [PGet 0; PWrite 5; PCommit; PGet 0; PWrite 5; PCommit; PGet 0]%nat = Some (inl st, es) /\
  commitsW es = 2%nat /\ last es EvCommitW = EvIndexW CB_FULL.
Proof. split; [lia|]. do 2 eexists. split; [vm_compute; reflexivity|]. split; reflexivity. Qed.

(** C14: an index request that has seen k releases (k <= the releases so far) is refused exactly when the items
    committed but not among those k are size-1; otherwise it returns the next slot. With k up to date this is "full iff
    size-1 items". *)
Theorem C14_full_exactly_when_no_room : forall size acts st es k st' e,
  1 <= size -> size < W32 -> sp_run size sp_init acts = Some (inl st, es) -> sp_step size st (PGet k) = Some (Next st' e) ->
  (k <= commitsR es)%nat /\
  (e = EvIndexW CB_FULL /\ N.of_nat (commitsW es) = N.of_nat k + (size - 1) \/
   e = EvIndexW (N.of_nat (commitsW es) mod size) /\ N.of_nat (commitsW es) < N.of_nat k + (size - 1) /\ N.of_nat (commitsW es) mod size < size).
Proof.
  intros size acts st es k st' e H1 H2 E S. destruct (inv_run size H1 H2 _ _ _ _ _ (inv_init size H1 H2) E) as (st0 & Q & I). injection Q as <-. simpl in I.
  unfold sp_step in S. assert (length (sp_startH st) = Datatypes.S (commitsR es)) as HL by (rewrite (i_start _ _ _ I); apply hist_len). rewrite HL in S.
  destruct (Nat.leb_spec (sp_pview st) k), (Nat.ltb_spec k (Datatypes.S (commitsR es))); destruct (sp_ppc st); try discriminate; simpl in S;
  rewrite (write_index size H1 H2 _ _ k I) in S by lia; injection S as _ <-; (split; [lia|]);
  pose proof (i_room _ _ _ I); pose proof (slot_lt size H1 H2 (commitsW es));
  (destruct (N.eqb_spec (N.of_nat (commitsW es) + 1) (N.of_nat k + size)); [left; split; [reflexivity|lia]|right; unfold slot_of in *; repeat split; lia]).
Qed.
Print Assumptions C14_full_exactly_when_no_room.

(** C14: a read request that has seen k commits is refused exactly when all of them are released; otherwise it returns
    the slot of the oldest unreleased item. *)
Theorem C14_empty_exactly_when_nothing_committed : forall size acts st es k st' e,
  1 <= size -> size < W32 -> sp_run size sp_init acts = Some (inl st, es) -> sp_step size st (CGet k) = Some (Next st' e) ->
  (commitsR es <= k <= commitsW es)%nat /\
  (e = EvIndexR CB_EMPTY /\ k = commitsR es \/
   e = EvIndexR (N.of_nat (commitsR es) mod size) /\ (commitsR es < k)%nat /\ N.of_nat (commitsR es) mod size < size).
Proof.
  intros size acts st es k st' e H1 H2 E S. destruct (inv_run size H1 H2 _ _ _ _ _ (inv_init size H1 H2) E) as (st0 & Q & I). injection Q as <-. simpl in I.
  unfold sp_step in S. assert (length (sp_endH st) = Datatypes.S (commitsW es)) as HL by (rewrite (i_end _ _ _ I); apply hist_len). rewrite HL in S.
  pose proof (i_cv1 _ _ _ I); pose proof (slot_lt size H1 H2 (commitsR es)).
  destruct (Nat.leb_spec (sp_cview st) k), (Nat.ltb_spec k (Datatypes.S (commitsW es))); destruct (sp_cpc st); try discriminate; simpl in S;
  rewrite (read_index size H1 H2 _ _ k I) in S by lia; injection S as _ <-; (split; [lia|]);
  (destruct (Nat.eqb_spec k (commitsR es)); [left; split; [reflexivity|lia]|right; unfold slot_of in *; repeat split; lia]).
Qed.
Print Assumptions C14_empty_exactly_when_nothing_committed.
Example C14_full_empty_ex : exists st es, sp_run 3 sp_init (firstn 11 C14_acts) = Some (inl st, es) /\ commitsW es = 2%nat /\ commitsR es = 1%nat /\
  (exists st', sp_step 3 st (PGet 0) = Some (Next st' (EvIndexW CB_FULL))) /\ (exists st', sp_step 3 st (PGet 1) = Some (Next st' (EvIndexW 2))) /\
  (exists st', sp_step 3 st (CGet 1) = Some (Next st' (EvIndexR CB_EMPTY))) /\ (exists st', sp_step 3 st (CGet 2) = Some (Next st' (EvIndexR 1))).
Proof. do 2 eexists. split; [vm_compute; reflexivity|]. repeat split; eexists; vm_compute; reflexivity. Qed.

(** C14: NumInBuffer, IsFull and IsEmpty called by the producer (own index current, the other possibly old): never
    less than the true count, never more than the capacity; IsFull is then "count = size-1". *)
Theorem C14_producer_count : forall size acts st es k,
  1 <= size -> size < W32 -> sp_run size sp_init acts = Some (inl st, es) -> (sp_pview st <= k < length (sp_startH st))%nat ->
  let n := cb_num size (last (sp_endH st) 0) (nth k (sp_startH st) 0) in
  n = N.of_nat (commitsW es - k) /\ N.of_nat (commitsW es - commitsR es) <= n /\ n <= size - 1 /\
  cb_is_full size (last (sp_endH st) 0) (nth k (sp_startH st) 0) = (n =? size - 1) /\
  cb_is_empty (last (sp_endH st) 0) (nth k (sp_startH st) 0) = (n =? 0).
Proof.
  intros size acts st es k H1 H2 E K. destruct (inv_run size H1 H2 _ _ _ _ _ (inv_init size H1 H2) E) as (st0 & Q & I). injection Q as <-. simpl in I.
  pose proof (i_room _ _ _ I). pose proof (i_cv1 _ _ _ I). pose proof (i_cv2 _ _ _ I).
  rewrite (i_start _ _ _ I), hist_len in K.
  assert (cb_num size (last (sp_endH st) 0) (nth k (sp_startH st) 0) = N.of_nat (commitsW es - k)) as ->.
  { rewrite (i_start _ _ _ I), (i_end _ _ _ I), hist_last, hist_nth by lia. apply num_between; auto; lia. }
  split; [reflexivity|]. split; [lia|]. split; [lia|].
  rewrite (i_start _ _ _ I), (i_end _ _ _ I), hist_last, hist_nth by lia. split; [apply full_between; auto; lia|apply empty_between; auto; lia].
Qed.
Print Assumptions C14_producer_count.

(** C14: called by the consumer: never more than the true count. *)
Theorem C14_consumer_count : forall size acts st es k,
  1 <= size -> size < W32 -> sp_run size sp_init acts = Some (inl st, es) -> (sp_cview st <= k < length (sp_endH st))%nat ->
  let n := cb_num size (nth k (sp_endH st) 0) (last (sp_startH st) 0) in
  n = N.of_nat (k - commitsR es) /\ n <= N.of_nat (commitsW es - commitsR es) /\ n <= size - 1 /\
  cb_is_full size (nth k (sp_endH st) 0) (last (sp_startH st) 0) = (n =? size - 1) /\
  cb_is_empty (nth k (sp_endH st) 0) (last (sp_startH st) 0) = (n =? 0).
Proof.
  intros size acts st es k H1 H2 E K. destruct (inv_run size H1 H2 _ _ _ _ _ (inv_init size H1 H2) E) as (st0 & Q & I). injection Q as <-. simpl in I.
  pose proof (i_room _ _ _ I). pose proof (i_pv _ _ _ I). pose proof (i_cv1 _ _ _ I). pose proof (i_cv2 _ _ _ I).
  rewrite (i_end _ _ _ I), hist_len in K.
  assert (cb_num size (nth k (sp_endH st) 0) (last (sp_startH st) 0) = N.of_nat (k - commitsR es)) as ->.
  { rewrite (i_start _ _ _ I), (i_end _ _ _ I), hist_last, hist_nth by lia. apply num_between; auto; lia. }
  split; [reflexivity|]. split; [lia|]. split; [lia|].
  rewrite (i_start _ _ _ I), (i_end _ _ _ I), hist_last, hist_nth by lia. split; [apply full_between; auto; lia|apply empty_between; auto; lia].
Qed.
Print Assumptions C14_consumer_count.
Example C14_count_ex : exists st es, sp_run 3 sp_init (firstn 11 C14_acts) = Some (inl st, es) /\ (sp_pview st <= 0 < length (sp_startH st))%nat /\ (sp_cview st <= 2 < length (sp_endH st))%nat /\
  cb_num 3 (last (sp_endH st) 0) (nth 0 (sp_startH st) 0) = 2 /\ cb_num 3 (nth 2 (sp_endH st) 0) (last (sp_startH st) 0) = 1.
Proof. do 2 eexists. split; [vm_compute; reflexivity|]. simpl. repeat split; lia. Qed.

(** C14: the same does not hold for a third thread: NumInBuffer loads the end index first, and if both threads advance
    before it loads the start index it can report size-1 items although there was never more than one. *)
Theorem C14_third_thread_count_refuted : exists size acts1 acts2 st1 st2 es1 es2,
  2 <= size /\ size < W32 /\ sp_run size sp_init acts1 = Some (inl st1, es1) /\ sp_run size st1 acts2 = Some (inl st2, es2) /\
  (forall p q, es1 ++ es2 = p ++ q -> (commitsW p <= commitsR p + 1)%nat) /\
  cb_num size (last (sp_endH st1) 0) (last (sp_startH st2) 0) = size - 1 /\ 2 < size.
Proof.
  exists 4, [], [PGet 0; PWrite 5; PCommit; CGet 1; CRead; CCommit]%nat. do 4 eexists.
  split; [lia|]. split; [unfold W32; lia|]. split; [vm_compute; reflexivity|]. split; [vm_compute; reflexivity|].
  split; [|split; [vm_compute; reflexivity|lia]].
  intros p q. simpl. intros Q. do 7 (destruct p as [|? p]; [simpl; lia|injection Q as <- Q || discriminate]).
Qed.
Print Assumptions C14_third_thread_count_refuted.
