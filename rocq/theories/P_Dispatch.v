(** C51: what ingress does with each bundle it has processed. *)
From Coq Require Import NArith List Bool Lia ZifyBool ZifyN Permutation PeanoNat.
From Verif Require Import Base P_BundleV7 M_Ingress P_Ingress M_Dispatch S_Dispatch L_Dispatch L_DispatchInv L_DispatchFair L_DispatchFate.
Import ListNotations.
Open Scope N_scope.

Lemma reach_inv cfg s : reachable cfg s -> Inv None s.
Proof. intros (tr & R & F & L). exact (inv_runs _ _ _ _ R inv_start F L). Qed.
Lemma reach_fate cfg s : reachable cfg s -> FInv cfg s.
Proof. intros (tr & R & F & L). exact (finv_runs _ _ _ _ R inv_start (finv_start cfg) F L). Qed.
Lemma fair_reach cfg s : fair_state cfg s -> reachable cfg s.
Proof. intros (tr & R & F & L). exists tr. split; [now apply honest_is_run|auto]. Qed.
Lemma fair_fair cfg s : fair_state cfg s -> Fair s.
Proof. intros (tr & R & F & L). exact (proj2 (fair_runs _ _ _ _ R inv_start fair_start F L)). Qed.

(** ** An example: two outducts; outduct 0 takes 4 bundles and 2000 bytes, half of it for egress. *)
Definition ex51_cfg : config := mkConfig false 1000.
Definition ex51_telemetry : list outduct := [mkOutduct 0 4 2000 7 [(20, 1)] [20; 21]; mkOutduct 1 2 100 8 [(20, 2)] []].
Definition ex51_bundle (n : N) (d : N * N) (custody : bool) : bundle := mkBundle n d custody false false false false false.
Definition ex51_go (t k : nat) : list label := repeat (LThread t true) k.
(** Three bundles for (21, 1), the third finds egress full of bytes; one with custody for (20, 1); acknowledgements for the first and the
    third. *)
Definition ex51_trace : list label :=
  [LTelemetry ex51_telemetry; LLink 0 true] ++
  [LBundle (ex51_bundle 600 (21, 1) false); LBundle (ex51_bundle 300 (21, 1) false); LBundle (ex51_bundle 200 (21, 1) false);
   LBundle (ex51_bundle 50 (20, 1) true)] ++ ex51_go 0 5 ++ ex51_go 1 5 ++ ex51_go 2 5 ++ ex51_go 3 5.
Definition ex51_acks : list label := [LAckEgress 0 0 false; LAckStorage 2 0 false; LAckStorage 3 U64MAX false].
Definition ex51_state : state := match exec ex51_cfg ex51_trace start with Some s => s | None => start end.
Lemma ex51_runs : runs ex51_cfg ex51_trace start ex51_state.
Proof. apply exec_runs. vm_compute. reflexivity. Qed.
Lemma ex51_fits : Forall label_fits ex51_trace.
Proof. repeat constructor. Qed.
Lemma honest_exec cfg l : forall s s', exec cfg l s = Some s' ->
  Forall (fun x => match x with LAckEgress _ _ _ | LAckStorage _ _ _ => False | _ => True end) l -> honest_runs cfg l s s'.
Proof.
  induction l as [|x l IH]; simpl; intros s s' E F; [injection E as <-; constructor|]. inversion F; subst. destruct (step cfg x s) as [| |s1] eqn:ES; try discriminate.
  eapply honest_cons; [destruct x; simpl; auto; contradiction|exact ES|apply IH; auto].
Qed.
Lemma ex51_fair : fair_state ex51_cfg ex51_state.
Proof. exists ex51_trace. split; [apply honest_exec; [vm_compute; reflexivity|repeat constructor]|]. split; [exact ex51_fits|]. vm_compute. discriminate. Qed.
Definition ex51_end : state := match exec ex51_cfg ex51_acks ex51_state with Some s => s | None => start end.
Lemma honest_app cfg a b s s1 s2 : honest_runs cfg a s s1 -> honest_runs cfg b s1 s2 -> honest_runs cfg (a ++ b) s s2.
Proof. induction 1; intros R; [exact R|]. simpl. eapply honest_cons; eauto. Qed.
Lemma ex51_end_fair : fair_state ex51_cfg ex51_end.
Proof.
  exists (ex51_trace ++ ex51_acks). split; [|split; [apply Forall_app; split; [exact ex51_fits|repeat constructor]|vm_compute; discriminate]].
  eapply honest_app; [apply honest_exec; [vm_compute; reflexivity|repeat constructor]|].
  eapply honest_cons; [exists 600; vm_compute; auto|vm_compute; reflexivity|].
  eapply honest_cons; [exists 200; vm_compute; auto|vm_compute; reflexivity|].
  eapply honest_cons; [exists 50; vm_compute; auto|vm_compute; reflexivity|]. constructor.
Qed.

(** ** Pipelines *)
(** Whatever acknowledgements arrive - duplicates, unknown ids, at any time - the byte counters are what the entries add up to, and no
    id is entered twice. *)
Theorem C51_accounting_is_exact cfg s i a : reachable cfg s -> set_at s i = Some a ->
  a_egb a = total (a_eg a) /\ a_stb a = total (a_st a) /\ NoDup (map fst (a_eg a)) /\ NoDup (map fst (a_st a)).
Proof. intros R H. destruct (iv_sets _ _ (reach_inv _ _ R) _ _ H) as (A & B & C & D & _). auto. Qed.
Example C51_accounting_is_exact_ex : reachable ex51_cfg ex51_state /\ exists a, set_at ex51_state 0 = Some a /\ a_egb a = 900 /\ a_stb a = 200 /\
  step ex51_cfg (LAckEgress 99 0 true) ex51_state = On (put_at ex51_state 0 (set_up false a)).
Proof. split; [apply fair_reach; exact ex51_fair|]. eexists. vm_compute. repeat split. Qed.
Print Assumptions C51_accounting_is_exact.

(** When egress and storage acknowledge what they were sent, a pipeline holds exactly the bundles that a thread is about to send through
    it and those sent and not yet acknowledged. *)
Theorem C51_pipelines_hold_what_is_under_way cfg s i a : fair_state cfg s -> set_at s i = Some a ->
  Permutation (a_eg a) (flat_map (held_egress i) (g_threads s) ++ sent_through i (g_epend s)) /\
  Permutation (a_st a) (flat_map (held_storage i) (g_threads s) ++ sent_through i (g_spend s)).
Proof. intros R. exact (fair_fair _ _ R i a). Qed.
Example C51_pipelines_hold_what_is_under_way_ex : fair_state ex51_cfg ex51_state /\ exists a, set_at ex51_state 0 = Some a /\
  a_eg a = [(0, 600); (1, 300)] /\ a_st a = [(2, 200)] /\ a_st (g_single ex51_state) = [(3, 50)].
Proof. split; [exact ex51_fair|]. eexists. vm_compute. repeat split. Qed.
Print Assumptions C51_pipelines_hold_what_is_under_way.

(** Nothing leaks: when no bundle is being handled and all was acknowledged, every pipeline is empty again. *)
Theorem C51_nothing_leaks cfg s i a : fair_state cfg s -> all_done s -> g_epend s = [] -> g_spend s = [] -> set_at s i = Some a ->
  a_eg a = [] /\ a_st a = [] /\ a_egb a = 0 /\ a_stb a = 0.
Proof.
  intros R D E1 E2 H. destruct (fair_fair _ _ R i a H) as (P1 & P2). destruct (C51_accounting_is_exact _ _ _ _ (fair_reach _ _ R) H) as (B1 & B2 & _).
  assert (N : flat_map (held_egress i) (g_threads s) = [] /\ flat_map (held_storage i) (g_threads s) = []).
  { unfold all_done in D. assert (D' : Forall (fun x => done (snd x) = true) (g_threads s)).
    { rewrite Forall_forall. intros [b p] I. apply In_nth_error in I. destruct I as (t & I). exact (D t b p I). }
    clear - D'. induction D' as [|[b p] l X _ IH]; [auto|]. destruct IH as (I1 & I2). simpl in *. rewrite I1, I2. destruct p; try discriminate; auto. }
  destruct N as (N1 & N2). rewrite N1, E1 in P1. rewrite N2, E2 in P2. apply Permutation_sym, Permutation_nil in P1. apply Permutation_sym, Permutation_nil in P2.
  rewrite P1 in B1. rewrite P2 in B2. auto.
Qed.
Example C51_nothing_leaks_ex : exists s, exec ex51_cfg [LAckEgress 1 0 false] ex51_end = Some s /\ fair_state ex51_cfg s /\ all_done s /\ g_epend s = [] /\ g_spend s = [] /\
  length (g_egress s) = 2%nat /\ length (g_storage s) = 2%nat.
Proof.
  eexists. split; [vm_compute; reflexivity|]. split; [|split; [|vm_compute; auto]].
  - destruct ex51_end_fair as (tr & R & F & L). exists (tr ++ [LAckEgress 1 0 false]). split; [|split; [apply Forall_app; split; [exact F|repeat constructor]|vm_compute; discriminate]].
    eapply honest_app; [exact R|]. eapply honest_cons; [exists 300; vm_compute; auto|vm_compute; reflexivity|constructor].
  - intros [|[|[|[|[|t]]]]] b p H; vm_compute in H; try discriminate; injection H as <- <-; reflexivity.
Qed.
Print Assumptions C51_nothing_leaks.

(** While the limits stay what they were, no half of a pipeline exceeds half of them, and the one for storing is limited to 5 bundles and
    the largest bundle (5 bytes before egress has introduced itself). *)
Theorem C51_limits_hold cfg lim tr s : runs cfg tr start s -> Forall label_fits tr -> g_next s <= W64 -> Forall (same_limits lim) tr -> c_max cfg < 2 ^ 63 ->
  (forall i a, i <> U64MAX -> set_at s i = Some a ->
     (a_max a, a_maxb a) = lim i /\ N.of_nat (length (a_eg a)) <= fst (lim i) / 2 /\ a_egb a <= snd (lim i) / 2 /\
     N.of_nat (length (a_st a)) <= fst (lim i) / 2 /\ a_stb a <= snd (lim i) / 2) /\
  a_eg (g_single s) = [] /\ N.of_nat (length (a_st (g_single s))) <= 5 /\ a_stb (g_single s) <= N.max 5 (c_max cfg).
Proof.
  intros R F L SL C. pose proof (inv_runs _ _ _ _ R inv_start F L) as I. assert (C' : N.max 5 (c_max cfg) < 2 ^ 63) by lia.
  pose proof (lim_runs lim _ _ _ _ R inv_start (lim_start lim cfg) C' F SL L) as [V (O1 & O2 & O3 & W1 & W2 & W3 & W4)]. split; [|auto].
  intros i a NE H. assert (VA : valid s i). { destruct (set_at_valid s i a (iv_len _ _ I) H) as [X|X]; [congruence|exact X]. }
  destruct (V i a VA H) as (E & X1 & X2 & X3 & X4). rewrite !half_le in *. rewrite <- E. auto.
Qed.
Definition ex51_lim (i : N) : N * N := if i =? 0 then (4, 2000) else (2, 100).
Example C51_limits_hold_ex : runs ex51_cfg ex51_trace start ex51_state /\ Forall label_fits ex51_trace /\ Forall (same_limits ex51_lim) ex51_trace /\ g_next ex51_state <= W64 /\
  exists a, set_at ex51_state 0 = Some a /\ length (a_eg a) = 2%nat /\ a_egb a = 900.
Proof. split; [exact ex51_runs|]. split; [exact ex51_fits|]. split; [repeat constructor|]. split; [vm_compute; discriminate|]. eexists. vm_compute. repeat split. Qed.
Print Assumptions C51_limits_hold.

(** So the bundles that egress and storage have not yet acknowledged never take more memory than the configured limits allow in total. *)
Lemma total_pending_forall (f : pending -> bool) l : total_pending l = total_pending (filter f l) + total_pending (filter (fun p => negb (f p)) l).
Proof. unfold total_pending. induction l as [|p l IH]; [reflexivity|]. cbn [filter fold_right]. destruct (f p); cbn [negb fold_right]; lia. Qed.
Lemma total_sent i l : total (sent_through i l) = total_pending (filter (fun p => p_idx p =? i) l).
Proof. unfold sent_through, total, total_pending. induction (filter _ l) as [|p r IH]; [reflexivity|]. cbn [map fold_right snd]. rewrite IH. reflexivity. Qed.
Definition halves (l : list aset) : N := fold_right (fun a n => a_maxb a / 2 + n) 0 l.
Lemma pending_split sets : forall n l, (forall p, In p l -> n <= p_idx p < n + N.of_nat (length sets)) ->
  (forall k a, nth_error sets k = Some a -> total (sent_through (n + N.of_nat k) l) <= a_maxb a / 2) -> total_pending l <= halves sets.
Proof.
  induction sets as [|a sets IH]; intros n l R B.
  - destruct l as [|p l]; [simpl; lia|]. specialize (R p (or_introl eq_refl)). simpl in R. lia.
  - rewrite (total_pending_forall (fun p => p_idx p =? n)). cbn [halves fold_right]. fold (halves sets). pose proof (B 0%nat a eq_refl) as B0. rewrite N.add_0_r, total_sent in B0.
    assert (H : total_pending (filter (fun p => negb (p_idx p =? n)) l) <= halves sets); [|lia]. apply (IH (n + 1)).
    + intros p Hp. apply filter_In in Hp. destruct Hp as (Hp & X). specialize (R p Hp). simpl in R. lia.
    + intros k a0 Hk. specialize (B (S k) a0 Hk). replace (n + 1 + N.of_nat k) with (n + N.of_nat (S k)) by lia. rewrite total_sent in *.
      assert (E : forall r, filter (fun p => p_idx p =? n + N.of_nat (S k)) (filter (fun p => negb (p_idx p =? n)) r) = filter (fun p => p_idx p =? n + N.of_nat (S k)) r).
      { induction r as [|q r IHr]; [reflexivity|]. cbn [filter]. destruct (N.eqb_spec (p_idx q) n) as [Eq|Eq]; cbn [negb filter].
        - destruct (N.eqb_spec (p_idx q) (n + N.of_nat (S k))); [lia|exact IHr].
        - destruct (p_idx q =? n + N.of_nat (S k)); [f_equal|]; exact IHr. }
      rewrite E. exact B.
Qed.
Lemma halves_sum l : 2 * halves l <= sum_maxb l.
Proof. unfold halves, sum_maxb. induction l as [|x l IH]; simpl; [lia|]. pose proof (N.div_mod (a_maxb x) 2). lia. Qed.
Theorem C51_memory_is_bounded cfg lim tr s : honest_runs cfg tr start s -> Forall label_fits tr -> g_next s <= W64 -> Forall (same_limits lim) tr -> c_max cfg < 2 ^ 63 ->
  total_pending (g_epend s) + total_pending (g_spend s) <= sum_maxb (g_sets s) + N.max 5 (c_max cfg).
Proof.
  intros R F L SL C. destruct (fair_runs _ _ _ _ R inv_start fair_start F L) as (I & FA).
  destruct (C51_limits_hold cfg lim tr s (honest_is_run _ _ _ _ R) F L SL C) as (LV & _ & _ & LS).
  pose proof (iv_len _ _ I) as LN.
  assert (AT : forall k a, nth_error (g_sets s) k = Some a -> set_at s (0 + N.of_nat k) = Some a).
  { intros k a H. assert (k < length (g_sets s))%nat by (apply nth_error_Some; congruence). rewrite set_at_vec by (unfold U64MAX; lia). unfold vec_at. rewrite N.add_0_l, Nat2N.id. replace (N.of_nat k <? _) with true by lia. exact H. }
  assert (B : forall k a, nth_error (g_sets s) k = Some a -> total (sent_through (0 + N.of_nat k) (g_epend s)) <= a_maxb a / 2 /\ total (sent_through (0 + N.of_nat k) (g_spend s)) <= a_maxb a / 2).
  { intros k a H. assert (k < length (g_sets s))%nat by (apply nth_error_Some; congruence). pose proof (AT _ _ H) as HS. destruct (FA _ _ HS) as (P1 & P2). apply total_perm in P1, P2. rewrite total_app in P1, P2.
    destruct (iv_sets _ _ I _ _ HS) as (_ & _ & Q1 & Q2 & _). destruct (LV (0 + N.of_nat k) a ltac:(unfold U64MAX; lia) HS) as (E & X1 & X2 & X3 & X4). rewrite <- E in *. simpl in X2, X4. lia. }
  assert (BE : total_pending (g_epend s) <= halves (g_sets s)).
  { apply (pending_split _ 0); [|intros k a H; apply (B k a H)]. intros p Hp. pose proof (iv_epend _ _ I) as P. rewrite Forall_forall in P. destruct (P p Hp). lia. }
  assert (BS : total_pending (filter (fun p => negb (p_idx p =? U64MAX)) (g_spend s)) <= halves (g_sets s)).
  { apply (pending_split _ 0).
    - intros p Hp. apply filter_In in Hp. destruct Hp as (Hp & X). pose proof (iv_spend _ _ I) as P. rewrite Forall_forall in P. destruct (P p Hp) as [Y|(Y1 & Y2)]; lia.
    - intros k a H. assert (k < length (g_sets s))%nat by (apply nth_error_Some; congruence). destruct (B k a H) as (_ & X). rewrite total_sent in *.
      assert (E : forall r, filter (fun p => p_idx p =? 0 + N.of_nat k) (filter (fun p => negb (p_idx p =? U64MAX)) r) = filter (fun p => p_idx p =? 0 + N.of_nat k) r).
      { induction r as [|q r IHr]; [reflexivity|]. cbn [filter]. destruct (N.eqb_spec (p_idx q) U64MAX) as [Eq|Eq]; cbn [negb filter].
        - destruct (N.eqb_spec (p_idx q) (0 + N.of_nat k)); [unfold U64MAX in *; lia|exact IHr].
        - destruct (p_idx q =? 0 + N.of_nat k); [f_equal|]; exact IHr. }
      rewrite E. exact X. }
  assert (BM : total_pending (filter (fun p => p_idx p =? U64MAX) (g_spend s)) <= N.max 5 (c_max cfg)).
  { rewrite <- total_sent. destruct (FA U64MAX _ eq_refl) as (_ & P2). apply total_perm in P2. rewrite total_app in P2. destruct (iv_sets _ _ I U64MAX _ eq_refl) as (_ & _ & _ & Q2 & _). lia. }
  rewrite (total_pending_forall (fun p => p_idx p =? U64MAX) (g_spend s)). pose proof (halves_sum (g_sets s)). lia.
Qed.
Example C51_memory_is_bounded_ex : honest_runs ex51_cfg ex51_trace start ex51_state /\ total_pending (g_epend ex51_state) + total_pending (g_spend ex51_state) = 1150 /\ sum_maxb (g_sets ex51_state) = 2100.
Proof. split; [apply honest_exec; [vm_compute; reflexivity|repeat constructor]|]. split; vm_compute; reflexivity. Qed.
Print Assumptions C51_memory_is_bounded.

(** A thread gets a place in the egress half if there is room for the bundle and it may go there, otherwise in the storage half if there
    is room; it waits exactly while it would get neither. *)
Theorem C51_egress_first_then_storage cfg s i a check id n : reachable cfg s -> set_at s i = Some a -> n < 2 ^ 63 ->
  must_wait check true n a = (match snd (reserve check true id n a) with NoRoom => true | _ => false end) /\
  (snd (reserve check true id n a) = ForEgress <-> check = true /\ has_egress_room n a) /\
  (snd (reserve check true id n a) = ForStorage <-> ~ (check = true /\ has_egress_room n a) /\ has_storage_room n a).
Proof.
  intros R H Hn. split; [apply must_wait_iff|]. pose proof (iv_sets _ _ (reach_inv _ _ R) _ _ H) as SO. destruct SO as (_ & _ & _ & _ & B1 & B2 & _).
  unfold reserve, has_egress_room, has_storage_room. rewrite !half_le. assert (A1 : add64 (a_egb a) n = a_egb a + n) by (unfold add64; apply N.mod_small; unfold W64; lia).
  assert (A2 : add64 (a_stb a) n = a_stb a + n) by (unfold add64; apply N.mod_small; unfold W64; lia). rewrite A1, A2.
  destruct check; simpl.
  - destruct ((N.of_nat (length (a_eg a)) <? a_max a / 2) && (a_egb a + n <=? a_maxb a / 2)) eqn:E1; simpl.
    + split; split; intros X; try discriminate; try tauto; lia.
    + destruct ((N.of_nat (length (a_st a)) <? a_max a / 2) && (a_stb a + n <=? a_maxb a / 2)) eqn:E2; simpl; (split; split; intros X; try discriminate; try reflexivity; lia).
  - destruct ((N.of_nat (length (a_st a)) <? a_max a / 2) && (a_stb a + n <=? a_maxb a / 2)) eqn:E2; simpl; (split; split; intros X; try discriminate; try reflexivity; try lia; destruct X as (X & _); discriminate).
Qed.
Example C51_egress_first_then_storage_ex : exists a, set_at ex51_state 0 = Some a /\ has_storage_room 100 a /\ ~ has_egress_room 100 a /\
  snd (reserve true true 4 100 a) = ForStorage /\ must_wait true true 900 a = true.
Proof. eexists. split; [vm_compute; reflexivity|]. unfold has_storage_room, has_egress_room. simpl. vm_compute. repeat split; try discriminate. intros (X & _). discriminate. Qed.
Print Assumptions C51_egress_first_then_storage.

(** ** Bundles *)
(** Each bundle meets one fate, and until then it has gone nowhere: it is sent once to egress, or once to storage, or once on an
    opportunistic link, or is lost; never two of these. What was sent is the bundle of some thread that says so. *)
Theorem C51_one_fate cfg s : reachable cfg s ->
  (forall t b p, nth_error (g_threads s) t = Some (b, p) ->
     let e := copies e_tag t (g_egress s) in let st := copies s_tag t (g_storage s) in let l := copies (fun x => x) t (g_onlink s) in
     match p with
     | PDone ToRouter | PDone (ToEgress _) => e = 1%nat /\ st = 0%nat /\ l = 0%nat
     | PDone (ToStorage _ _) => e = 0%nat /\ st = 1%nat /\ l = 0%nat
     | PDone OnLink => e = 0%nat /\ st = 0%nat /\ l = 1%nat
     | _ => e = 0%nat /\ st = 0%nat /\ l = 0%nat
     end) /\
  (forall m, In m (g_egress s) -> (e_tag m < length (g_threads s))%nat) /\ (forall m, In m (g_storage s) -> (s_tag m < length (g_threads s))%nat) /\
  (forall t, In t (g_onlink s) -> (t < length (g_threads s))%nat).
Proof.
  intros R. destruct (reach_fate _ _ R) as [F1 F2 F3 F4 F5 _ _]. split; [|split; [|split]].
  - intros t b p H. destruct (F2 t b p H) as (E1 & E2 & E3). cbv zeta. rewrite E1, E2, E3. destruct p as [| | | | | | |f]; try destruct f; simpl; auto.
  - intros m H. destruct (F3 m H) as (b & X & _). apply nth_error_Some. congruence.
  - intros m H. destruct (F4 m H) as (b & X & _). apply nth_error_Some. congruence.
  - intros t H. destruct (F5 t H) as (b & X). apply nth_error_Some. congruence.
Qed.
Example C51_one_fate_ex : reachable ex51_cfg ex51_state /\ map snd (g_threads ex51_state) = [PDone (ToEgress 0); PDone (ToEgress 0); PDone (ToStorage 0 true); PDone (ToStorage U64MAX false)] /\
  map e_tag (g_egress ex51_state) = [0%nat; 1%nat] /\ map s_tag (g_storage ex51_state) = [2%nat; 3%nat].
Proof. split; [apply fair_reach; exact ex51_fair|]. vm_compute. repeat split. Qed.
Print Assumptions C51_one_fate.

(** A fate is final, and a thread keeps its bundle. *)
Theorem C51_fate_is_final cfg tr s s' t b p : runs cfg tr s s' -> nth_error (g_threads s) t = Some (b, p) ->
  exists p', nth_error (g_threads s') t = Some (b, p') /\ (done p = true -> p' = p).
Proof. intros R H. exact (thread_kept _ _ _ _ R t b p H). Qed.
Example C51_fate_is_final_ex : exists s, runs ex51_cfg ex51_acks ex51_state s /\ nth_error (g_threads s) 1 = Some (ex51_bundle 300 (21, 1) false, PDone (ToEgress 0)).
Proof. exists ex51_end. split; [apply exec_runs; vm_compute; reflexivity|vm_compute; reflexivity]. Qed.
Print Assumptions C51_fate_is_final.

(** Bundles that request custody, administrative records for storage and bundles to be fragmented go to storage and are stored: they
    never go to egress or through the cut-through queue, and on an opportunistic link only when they come from storage. With priorities
    enforced nothing goes to egress or on such a link directly. *)
Theorem C51_custody_goes_to_storage cfg s t b f : reachable cfg s -> nth_error (g_threads s) t = Some (b, PDone f) ->
  match f with
  | ToRouter => b_router b = true
  | ToEgress _ => plain b /\ c_priority cfg = false /\ b_router b = false
  | ToStorage i dont => (dont = true -> plain b) /\ (dont = true <-> i <> U64MAX) /\ b_router b = false
  | OnLink => (b_stored b = true \/ plain b) /\ c_priority cfg = false /\ b_router b = false
  | _ => True
  end.
Proof.
  intros R H. pose proof (fi_pc _ _ (reach_fate _ _ R) _ _ _ H) as F. destruct f; simpl in F; auto; tauto.
Qed.
Example C51_custody_goes_to_storage_ex : exists s, exec ex51_cfg ([LTelemetry ex51_telemetry; LLink 0 true; LOpportunistic 20 true; LBundle (ex51_bundle 50 (20, 1) true);
     LBundle (mkBundle 50 (20, 1) true false false false true false)] ++ ex51_go 0 5 ++ ex51_go 1 1) start = Some s /\
  map snd (g_threads s) = [PDone (ToStorage U64MAX false); PDone OnLink].
Proof. eexists. split; vm_compute; reflexivity. Qed.
Print Assumptions C51_custody_goes_to_storage.

(** Each message says what it carries: destination, custody, the outduct whose pipeline has a place for it, and an id no other message
    ever had; the counters shown to the user count the messages and their bytes. *)
Theorem C51_messages_are_exact cfg s : reachable cfg s ->
  (forall m, In m (g_egress s) -> exists b, nth_error (g_threads s) (e_tag m) = Some (b, PDone (if e_router m then ToRouter else ToEgress (e_idx m))) /\
     (e_router m = false -> e_dest m = b_dest b /\ e_custody m = b_custody b)) /\
  (forall m, In m (g_storage s) -> exists b, nth_error (g_threads s) (s_tag m) = Some (b, PDone (ToStorage (s_idx m) (s_dont m))) /\
     s_dest m = b_dest b /\ s_special m = b_custody b || b_admin b || b_frag b) /\
  NoDup (map e_id (filter (fun m => negb (e_router m)) (g_egress s)) ++ map s_id (g_storage s)) /\
  g_ecount s = N.of_nat (length (g_egress s)) mod W64 /\ g_scount s = N.of_nat (length (g_storage s)) mod W64 /\
  g_ebytes s = sum (map (fun m => size_of (g_threads s) (e_tag m)) (g_egress s)) mod W64 /\
  g_sbytes s = sum (map (fun m => size_of (g_threads s) (s_tag m)) (g_storage s)) mod W64.
Proof.
  intros R. destruct (reach_fate _ _ R) as [_ _ F3 F4 _ (F6 & _) F9]. unfold counts in F9. injection F9 as G1 G2 G3 G4. repeat split; auto.
Qed.
Example C51_messages_are_exact_ex : reachable ex51_cfg ex51_state /\ map e_id (g_egress ex51_state) = [0; 1] /\ map s_id (g_storage ex51_state) = [2; 3] /\ g_ebytes ex51_state = 900 /\ g_sbytes ex51_state = 250 /\
  map s_special (g_storage ex51_state) = [false; true].
Proof. split; [apply fair_reach; exact ex51_fair|]. vm_compute. repeat split. Qed.
Print Assumptions C51_messages_are_exact.

(** Dispatching never indexes the pipelines out of bounds, whatever telemetry arrives in between. *)
Theorem C51_dispatch_stays_in_bounds cfg s t ok : reachable cfg s -> thread_step cfg t ok s <> Bad.
Proof.
  intros R. pose proof (reach_inv _ _ R) as I. unfold thread_step. destruct (nth_error (g_threads s) t) as [[b p]|] eqn:HT; [|discriminate].
  assert (OK : pc_ok s p) by (eapply (iv_pc _ _ I); [discriminate|eassumption]). destruct p.
  - destruct (b_router b); [destruct ok; discriminate|]. destruct (try_link cfg (g_links s) b && ok); discriminate.
  - discriminate.
  - destruct (negb ok && negb (b_acks b)); [discriminate|]. destruct (N.eqb_spec (route s (b_dest b)) U64MAX) as [E|E]; [discriminate|].
    destruct (vec_some s (route s (b_dest b))) as (a & ->); [apply (route_valid s (b_dest b) I E)|discriminate].
  - destruct OK as (_ & _ & V). destruct (vec_some s i) as (a & ->); [apply V|]. destruct (ok && _); [discriminate|]. destruct (reserve _ _ _ _ _). discriminate.
  - destruct OK as (_ & _ & V). destruct (vec_some s i) as (a & ->); [apply V|]. destruct ok; discriminate.
  - destruct (ok && _); [discriminate|]. destruct (reserve _ _ _ _ _). discriminate.
  - destruct OK as (_ & [->|V]); [destruct ok; discriminate|]. rewrite set_at_vec by apply V. destruct (vec_some s i) as (a & ->); [apply V|]. destruct ok; discriminate.
  - discriminate.
Qed.
Example C51_dispatch_stays_in_bounds_ex : exists s s', exec ex51_cfg [LTelemetry ex51_telemetry; LLink 0 true; LBundle (ex51_bundle 600 (21, 1) false); LThread 0 true; LThread 0 true;
    LTelemetry [mkOutduct 0 2 10 7 [] [21]; mkOutduct 1 2 100 8 [] []]; LThread 0 true] start = Some s /\ thread_step ex51_cfg 0 true s = Off /\
  thread_step ex51_cfg 0 false s = On s' /\ nth_error (g_threads s') 0 = Some (ex51_bundle 600 (21, 1) false, PStore 0).
Proof. eexists _, _. split; [vm_compute; reflexivity|]. split; [vm_compute; reflexivity|]. split; [vm_compute; reflexivity|vm_compute; reflexivity]. Qed.
Print Assumptions C51_dispatch_stays_in_bounds.

(** Every bundle meets its fate: a thread takes at most 7 steps, and when its waits end (by timeout if not earlier) it can always take
    the next one. *)
Definition rank (p : pc) : nat := match p with PStart => 7 | PId => 6 | PLook _ => 5 | PCut _ _ => 4 | PEgress _ _ => 3 | PStore _ => 2 | PToStorage _ _ _ => 1 | PDone _ => 0 end.
Lemma rank_decreases cfg t ok s s' b p : nth_error (g_threads s) t = Some (b, p) -> thread_step cfg t ok s = On s' ->
  exists p', nth_error (g_threads s') t = Some (b, p') /\ (rank p' < rank p)%nat.
Proof.
  intros HT E. unfold thread_step in E. rewrite HT in E.
  assert (G : forall s1 q, g_threads s1 = g_threads s -> (rank q < rank p)%nat -> exists p', nth_error (g_threads (goto s1 t b q)) t = Some (b, p') /\ (rank p' < rank p)%nat).
  { intros s1 q E1 RK. exists q. split; [|exact RK]. simpl. rewrite E1. eapply set_nth_same; eassumption. }
  destruct p.
  - destruct (b_router b); [destruct ok|destruct (try_link cfg (g_links s) b && ok)]; injection E as <-; apply G; simpl; auto; lia.
  - injection E as <-. exists (PLook (g_next s mod W64)). split; [simpl; eapply set_nth_same; eassumption|simpl; lia].
  - destruct (negb ok && negb (b_acks b)); [injection E as <-; apply G; simpl; auto; lia|]. destruct (_ =? _); [injection E as <-; apply G; simpl; auto; lia|].
    destruct (vec_at s (route s (b_dest b))); [|discriminate]. injection E as <-. apply G; auto. destruct (cut_through b a); simpl; lia.
  - destruct (vec_at s i) as [a|]; [|discriminate]. destruct (ok && _); [discriminate|]. destruct (reserve _ _ _ _ _) as [a' r]. injection E as <-. apply G; [apply put_threads|]. destruct r; simpl; lia.
  - destruct (vec_at s i) as [a|]; [|discriminate]. destruct ok; injection E as <-; apply G; simpl; rewrite ?put_threads; auto; lia.
  - destruct (ok && _); [discriminate|]. destruct (reserve _ _ _ _ _) as [a' r]. injection E as <-. apply G; [apply put_threads|]. destruct r; simpl; lia.
  - destruct (set_at s i) as [a|]; [|discriminate]. destruct ok; injection E as <-; apply G; simpl; rewrite ?put_threads; auto; lia.
  - discriminate.
Qed.
Lemma can_step cfg s t b p : reachable cfg s -> nth_error (g_threads s) t = Some (b, p) -> done p = false -> exists s', thread_step cfg t false s = On s'.
Proof.
  intros R HT D. pose proof (C51_dispatch_stays_in_bounds cfg s t false R) as NB. unfold thread_step in *. rewrite HT in *. destruct p; try discriminate.
  - destruct (b_router b); eauto. destruct (_ && _); eauto.
  - eauto.
  - destruct (_ && _); eauto. destruct (_ =? _); eauto. destruct (vec_at _ _); eauto. congruence.
  - destruct (vec_at s i); [|congruence]. simpl. destruct (reserve _ _ _ _ _). eauto.
  - destruct (vec_at s i); [|congruence]. eauto.
  - simpl. destruct (reserve _ _ _ _ _). eauto.
  - destruct (set_at s i); [|congruence]. eauto.
Qed.
Lemma runs_app cfg a b s s1 s2 : runs cfg a s s1 -> runs cfg b s1 s2 -> runs cfg (a ++ b) s s2.
Proof. induction 1; intros R; [exact R|]. simpl. eapply runs_cons; eauto. Qed.
Definition steps_of (t : nat) (tr : list label) : nat := length (filter (fun x => match x with LThread u _ => Nat.eqb u t | _ => false end) tr).
Lemma steps_bounded cfg tr s s' : runs cfg tr s s' -> forall t b p, nth_error (g_threads s) t = Some (b, p) ->
  exists p', nth_error (g_threads s') t = Some (b, p') /\ (steps_of t tr + rank p' <= rank p)%nat.
Proof.
  induction 1 as [s|x l s s1 s2 E R IH]; intros t b p HT; [exists p; simpl; auto|].
  assert (X : exists p1, nth_error (g_threads s1) t = Some (b, p1) /\ ((if match x with LThread u _ => Nat.eqb u t | _ => false end then 1 else 0) + rank p1 <= rank p)%nat).
  { destruct (match x with LThread u _ => Nat.eqb u t | _ => false end) eqn:EX.
    - destruct x; try discriminate. apply Nat.eqb_eq in EX. subst t0. destruct (rank_decreases _ _ _ _ _ _ _ HT E) as (p' & H1 & H2). exists p'. split; [exact H1|lia].
    - assert (K : nth_error (g_threads s1) t = Some (b, p)).
      { destruct x; simpl in E.
        - destruct (_ && _); [discriminate|]. injection E as <-. simpl. rewrite nth_error_app1; [exact HT|]. apply nth_error_Some. congruence.
        - apply Nat.eqb_neq in EX. destruct (nth_error (g_threads s) t0) as [[b0 p0]|] eqn:H0; [|unfold thread_step in E; rewrite H0 in E; discriminate].
          assert (G : exists q, g_threads s1 = set_nth t0 q (g_threads s)).
          { unfold thread_step in E. rewrite H0 in E. destruct p0.
            - destruct (b_router b0); [destruct ok|destruct (_ && _)]; injection E as <-; eexists; reflexivity.
            - injection E as <-; eexists; reflexivity.
            - destruct (_ && _); [injection E as <-; eexists; reflexivity|]. destruct (_ =? _); [injection E as <-; eexists; reflexivity|]. destruct (vec_at _ _); [|discriminate]. injection E as <-; eexists; reflexivity.
            - destruct (vec_at _ _); [|discriminate]. destruct (_ && _); [discriminate|]. destruct (reserve _ _ _ _ _). injection E as <-. eexists. cbn [goto with_threads g_threads]. rewrite put_threads. reflexivity.
            - destruct (vec_at _ _); [|discriminate]. destruct ok; injection E as <-; eexists; cbn [goto with_threads g_threads]; rewrite ?put_threads; reflexivity.
            - destruct (_ && _); [discriminate|]. destruct (reserve _ _ _ _ _). injection E as <-. eexists. cbn [goto with_threads g_threads]. rewrite put_threads. reflexivity.
            - destruct (set_at _ _); [|discriminate]. destruct ok; injection E as <-; eexists; cbn [goto with_threads g_threads]; rewrite ?put_threads; reflexivity.
            - discriminate. }
          destruct G as (q & ->). rewrite set_nth_other by assumption. exact HT.
        - destruct (acks_busy s); [discriminate|]. unfold ack_egress in E. destruct (vec_at s i); [|discriminate]. injection E as <-. simpl. rewrite put_threads. exact HT.
        - destruct (acks_busy s); [discriminate|]. unfold ack_storage in E. destruct (set_at s i); [|discriminate]. injection E as <-. simpl. rewrite put_threads. exact HT.
        - destruct (acks_busy s); [discriminate|]. unfold link_event in E. destruct (vec_at s i); injection E as <-; rewrite ?put_threads; exact HT.
        - destruct (_ || _); [discriminate|]. injection E as <-. unfold telemetry. destruct (_ || _); [exact HT|]. destruct (telem_loop _ _ _ _ _ _) as [[[sets eids] nodes] fine]. exact HT.
        - injection E as <-. exact HT. }
      exists p. split; [exact K|lia]. }
  destruct X as (p1 & H1 & L1). destruct (IH _ _ _ H1) as (p2 & H2 & L2). exists p2. split; [exact H2|]. unfold steps_of in *. cbn [filter].
  destruct (match x with LThread u _ => Nat.eqb u t | _ => false end); simpl; lia.
Qed.
Lemma next_step cfg t s s' : thread_step cfg t false s = On s' -> g_next s' <= g_next s + 1.
Proof.
  unfold thread_step. destruct (nth_error (g_threads s) t) as [[b p]|]; [|discriminate]. intros E. destruct p.
  - destruct (b_router b); [|destruct (_ && _)]; injection E as <-; simpl; lia.
  - injection E as <-; simpl; lia.
  - destruct (_ && _); [injection E as <-; simpl; lia|]. destruct (_ =? _); [injection E as <-; simpl; lia|]. destruct (vec_at _ _); [|discriminate]. injection E as <-; simpl; lia.
  - destruct (vec_at _ _); [|discriminate]. simpl in E. destruct (reserve _ _ _ _ _). injection E as <-. rewrite put_goto_next. lia.
  - destruct (vec_at _ _); [|discriminate]. injection E as <-. rewrite put_goto_next. lia.
  - simpl in E. destruct (reserve _ _ _ _ _). injection E as <-. rewrite put_goto_next. lia.
  - destruct (set_at _ _); [|discriminate]. injection E as <-. rewrite put_goto_next. lia.
  - discriminate.
Qed.
Theorem C51_every_bundle_meets_its_fate cfg s t b p : reachable cfg s -> nth_error (g_threads s) t = Some (b, p) ->
  (forall tr s', runs cfg tr s s' -> (steps_of t tr <= 7)%nat) /\
  (g_next s + 7 <= W64 -> exists k s' f, (k <= 7)%nat /\ runs cfg (repeat (LThread t false) k) s s' /\ nth_error (g_threads s') t = Some (b, PDone f)).
Proof.
  intros R HT. split.
  - intros tr s' RN. destruct (steps_bounded _ _ _ _ RN _ _ _ HT) as (p' & _ & L). destruct p; simpl in L; lia.
  - intros NX. assert (G : forall n s p, reachable cfg s -> nth_error (g_threads s) t = Some (b, p) -> (rank p <= n)%nat -> g_next s + N.of_nat n <= W64 ->
      exists k s' f, (k <= n)%nat /\ runs cfg (repeat (LThread t false) k) s s' /\ nth_error (g_threads s') t = Some (b, PDone f)).
    { clear. induction n as [|n IH]; intros s p R HT RK NX.
      - destruct p; simpl in RK; try lia. exists 0%nat, s, f. split; [lia|]. split; [constructor|exact HT].
      - destruct (done p) eqn:D.
        + destruct p; try discriminate. exists 0%nat, s, f. split; [lia|]. split; [constructor|exact HT].
        + destruct (can_step cfg s t b p R HT D) as (s1 & E). destruct (rank_decreases _ _ _ _ _ _ _ HT E) as (p1 & H1 & L1). pose proof (next_step _ _ _ _ E).
          assert (R1 : reachable cfg s1). { destruct R as (tr & RN & F & L). exists (tr ++ [LThread t false]). split; [eapply runs_app; [exact RN|]; eapply runs_cons; [exact E|constructor]|]. split; [apply Forall_app; split; [exact F|repeat constructor]|lia]. }
          destruct (IH s1 p1 R1 H1) as (k & s' & f & K1 & K2 & K3); [lia|lia|]. exists (S k), s', f. split; [lia|]. split; [|exact K3]. simpl. eapply runs_cons; eauto. }
    apply (G 7%nat s p R HT); [destruct p; simpl; lia|lia].
Qed.
Example C51_every_bundle_meets_its_fate_ex : exists s s', exec ex51_cfg [LTelemetry ex51_telemetry; LLink 0 true; LBundle (ex51_bundle 600 (21, 1) false)] start = Some s /\
  exec ex51_cfg [LThread 0 true; LThread 0 true; LThread 0 true; LThread 0 true; LThread 0 false; LThread 0 true; LThread 0 true] s = Some s' /\
  nth_error (g_threads s') 0 = Some (ex51_bundle 600 (21, 1) false, PDone (ToStorage U64MAX false)).
Proof. eexists _, _. split; [vm_compute; reflexivity|]. split; [vm_compute; reflexivity|vm_compute; reflexivity]. Qed.
Print Assumptions C51_every_bundle_meets_its_fate.

(** ** Losing bundles *)
(** A bundle is lost only if a send fails, telemetry waits for 4 s, or the storage pipeline has 5 bundles or no room for its size. *)
Lemma storage_limits cfg s : reachable cfg s -> a_max (g_single s) = 10 /\ (g_init s = true -> a_maxb (g_single s) = c_max cfg * 2 mod W64).
Proof.
  intros (tr & R & F & L). assert (B : a_max (g_single start) = 10 /\ (g_init start = true -> a_maxb (g_single start) = c_max cfg * 2 mod W64)) by (split; [reflexivity|discriminate]).
  assert (P : forall s i a a', set_at s i = Some a -> a_max a' = a_max a -> a_maxb a' = a_maxb a -> a_max (g_single (put_at s i a')) = a_max (g_single s) /\ a_maxb (g_single (put_at s i a')) = a_maxb (g_single s)).
  { clear. intros s i a a' H E1 E2. unfold put_at. destruct (N.eqb_spec i U64MAX) as [->|NE]; [injection H as <-|]; auto. }
  assert (MP : forall id eg a, a_max (fst (pop id eg a)) = a_max a /\ a_maxb (fst (pop id eg a)) = a_maxb a) by (intros id eg a; unfold pop; destruct (find_id _ _); [destruct eg|]; auto).
  assert (MR : forall ce cs id n a, a_max (fst (reserve ce cs id n a)) = a_max a /\ a_maxb (fst (reserve ce cs id n a)) = a_maxb a) by (intros; unfold reserve; destruct (_ && _); [auto|]; destruct (_ && _); auto).
  assert (VS : forall s i a, i <> U64MAX -> vec_at s i = Some a -> set_at s i = Some a) by (intros; rewrite set_at_vec; auto).
  assert (SV : forall s i a', i <> U64MAX -> g_single (put_at s i a') = g_single s) by (intros; unfold put_at; destruct (N.eqb_spec i U64MAX); [congruence|reflexivity]).
  pose proof inv_start as I0. revert F I0 B. induction R as [s|x l s s1 s2 E R IH]; intros F I B; [exact B|]. inversion F; subst.
  pose proof (runs_next _ _ _ _ R). assert (I1 : Inv None s1) by (eapply inv_step; eauto; lia). apply IH; auto. clear IH R.
  destruct x; simpl in E.
  - destruct (_ && _); [discriminate|]. injection E as <-. exact B.
  - unfold thread_step in E. destruct (nth_error (g_threads s) t) as [[b p]|] eqn:HT; [|discriminate].
    assert (OK : pc_ok s p) by (eapply (iv_pc _ _ I); [discriminate|eassumption]). destruct p.
    + destruct (b_router b); [destruct ok|destruct (_ && _)]; injection E as <-; exact B.
    + injection E as <-; exact B.
    + destruct (_ && _); [injection E as <-; exact B|]. destruct (_ =? _); [injection E as <-; exact B|]. destruct (vec_at _ _); [|discriminate]. injection E as <-; exact B.
    + destruct OK as (_ & _ & V). destruct (vec_at _ _); [|discriminate]. destruct (_ && _); [discriminate|]. destruct (reserve _ _ _ _ _) as [a' r]. injection E as <-. cbn [goto with_threads g_single g_init]. rewrite put_init, SV by apply V. exact B.
    + destruct OK as (_ & _ & V). destruct (vec_at _ _); [|discriminate]. destruct ok; injection E as <-; [exact B|]. cbn [goto with_threads g_single g_init]. rewrite put_init, SV by apply V. exact B.
    + destruct (_ && _); [discriminate|]. pose proof (MR false true id (b_size b) (g_single s)) as M. destruct (reserve _ _ _ _ _) as [a' r]. injection E as <-. cbn [goto with_threads g_single g_init fst] in *. rewrite put_init.
      destruct (P s U64MAX _ a' eq_refl (proj1 M) (proj2 M)) as (-> & ->). exact B.
    + destruct (set_at s i) as [a|] eqn:HS; [|discriminate]. destruct ok; injection E as <-; [exact B|]. cbn [goto with_threads g_single g_init]. rewrite put_init.
      destruct (P s i a _ HS (proj1 (MP id false a)) (proj2 (MP id false a))) as (-> & ->). exact B.
    + discriminate.
  - destruct (acks_busy s); [discriminate|]. unfold ack_egress in E. destruct (vec_at s i) as [a|] eqn:EV; [|discriminate]. injection E as <-. cbn [with_pending g_single g_init].
    rewrite put_init, SV by apply (vec_not_max _ _ _ (iv_len _ _ I) EV). exact B.
  - destruct (acks_busy s); [discriminate|]. unfold ack_storage in E. destruct (set_at s i) as [a|] eqn:HS; [|discriminate]. injection E as <-. cbn [with_pending g_single g_init]. rewrite put_init.
    set (a1 := if error && negb (i =? U64MAX) then set_up false a else a). assert (M : a_max a1 = a_max a /\ a_maxb a1 = a_maxb a) by (unfold a1; destruct (_ && _); auto).
    destruct (P s i a (fst (pop id false a1)) HS) as (-> & ->); [rewrite (proj1 (MP id false a1)); apply M|rewrite (proj2 (MP id false a1)); apply M|]. exact B.
  - destruct (acks_busy s); [discriminate|]. unfold link_event in E. destruct (vec_at s i) as [a|] eqn:EV; injection E as <-; [|exact B]. rewrite put_init, SV by apply (vec_not_max _ _ _ (iv_len _ _ I) EV). exact B.
  - destruct (_ || _); [discriminate|]. injection E as <-. unfold telemetry. destruct (_ || _); [exact B|]. destruct (telem_loop _ _ _ _ _ _) as [[[sets eids] nodes] fine].
    cbn [g_single g_init]. destruct (fine && negb (g_init s)) eqn:EF; cbn [update a_max a_maxb]; [auto|]. rewrite orb_false_r. exact B.
  - injection E as <-. exact B.
Qed.
Theorem C51_lost_only_when cfg s s' t ok b p f : reachable cfg s -> nth_error (g_threads s) t = Some (b, p) -> thread_step cfg t ok s = On s' ->
  nth_error (g_threads s') t = Some (b, PDone f) -> lost f ->
  match f with
  | NoStorage => 5 <= N.of_nat (length (a_st (g_single s))) \/ a_maxb (g_single s) / 2 < a_stb (g_single s) + b_size b
  | Dropped => ok = false /\ b_acks b = false
  | _ => ok = false
  end.
Proof.
  intros R HT E HF LO. pose proof (reach_inv _ _ R) as I. unfold thread_step in E. rewrite HT in E.
  assert (G : forall s1 q, g_threads s1 = g_threads s -> s' = goto s1 t b q -> PDone f = q).
  { intros s1 q E1 ->. simpl in HF. rewrite E1, (set_nth_same _ _ _ _ HT) in HF. congruence. }
  destruct p.
  - destruct (b_router b); [destruct ok|destruct (try_link cfg (g_links s) b && ok)]; injection E as <-; (match type of HF with nth_error (g_threads (goto ?x _ _ ?q)) _ = _ => specialize (G x q eq_refl eq_refl) end); try discriminate; injection G as ->; auto; destruct LO as [X|[X|[X|X]]]; discriminate.
  - injection E as <-. simpl in HF. rewrite (set_nth_same _ _ _ _ HT) in HF. discriminate.
  - destruct (negb ok && negb (b_acks b)) eqn:EO.
    + injection E as <-. specialize (G s (PDone Dropped) eq_refl eq_refl). injection G as ->. destruct ok, (b_acks b); try discriminate. auto.
    + destruct (_ =? _); [injection E as <-; specialize (G s _ eq_refl eq_refl); discriminate|]. destruct (vec_at s (route s (b_dest b))) as [a|]; [|discriminate]. injection E as <-.
      specialize (G s _ eq_refl eq_refl). destruct (cut_through b a); discriminate.
  - destruct (vec_at s i); [|discriminate]. destruct (_ && _); [discriminate|]. destruct (reserve _ _ _ _ _) as [a' r]. injection E as <-. specialize (G _ _ (put_threads s i a') eq_refl). destruct r; discriminate.
  - destruct (vec_at s i); [|discriminate]. destruct ok; injection E as <-.
    + match type of HF with nth_error (g_threads (goto ?x _ _ ?q)) _ = _ => specialize (G x q eq_refl eq_refl) end. injection G as ->. destruct LO as [X|[X|[X|X]]]; discriminate.
    + specialize (G _ _ (put_threads s i _) eq_refl). discriminate.
  - destruct (ok && _); [discriminate|]. destruct (reserve false true id (b_size b) (g_single s)) as [a' r] eqn:ER. injection E as <-. specialize (G _ _ (put_threads s U64MAX a') eq_refl).
    destruct (C51_egress_first_then_storage cfg s U64MAX (g_single s) false id (b_size b) R eq_refl (iv_fits _ _ I _ _ _ HT)) as (_ & _ & X). rewrite ER in X. simpl in X.
    destruct (storage_limits _ _ R) as (L1 & _). unfold has_storage_room in X. rewrite L1 in X. change (10 / 2) with 5 in X.
    destruct r; try discriminate G; injection G as ->.
    + destruct (C51_egress_first_then_storage cfg s U64MAX (g_single s) false id (b_size b) R eq_refl (iv_fits _ _ I _ _ _ HT)) as (_ & Y & _). rewrite ER in Y. simpl in Y. destruct (proj1 Y eq_refl). discriminate.
    + destruct (N.lt_ge_cases (N.of_nat (length (a_st (g_single s)))) 5); [|now left]. destruct (N.le_gt_cases (a_stb (g_single s) + b_size b) (a_maxb (g_single s) / 2)); [|now right].
      enough (NoRoom = ForStorage) by discriminate. apply X. split; [intros (C & _); discriminate|lia].
  - destruct (set_at s i); [|discriminate]. destruct ok; injection E as <-.
    + match type of HF with nth_error (g_threads (goto ?x _ _ ?q)) _ = _ => specialize (G x q eq_refl eq_refl) end. injection G as ->. destruct LO as [X|[X|[X|X]]]; discriminate.
    + specialize (G _ _ (put_threads s i _) eq_refl). injection G as ->. reflexivity.
  - discriminate.
Qed.
Example C51_lost_only_when_ex : exists s s', exec ex51_cfg [LTelemetry ex51_telemetry; LBundle (ex51_bundle 1001 (21, 1) false); LThread 0 true; LThread 0 true; LThread 0 true] start = Some s /\
  thread_step ex51_cfg 0 false s = On s' /\ nth_error (g_threads s') 0 = Some (ex51_bundle 1001 (21, 1) false, PDone NoStorage).
Proof. eexists _, _. split; [vm_compute; reflexivity|]. split; [vm_compute; reflexivity|vm_compute; reflexivity]. Qed.
Print Assumptions C51_lost_only_when.

(** In particular, once the node is initialised a bundle no larger than the configured maximum that finds the storage pipeline empty gets
    its place in it at once. *)
Theorem C51_storage_takes_one_bundle cfg s t b id ok : reachable cfg s -> g_init s = true -> nth_error (g_threads s) t = Some (b, PStore id) -> a_st (g_single s) = [] ->
  b_size b <= c_max cfg -> c_max cfg < 2 ^ 63 -> exists s', thread_step cfg t ok s = On s' /\ nth_error (g_threads s') t = Some (b, PToStorage id U64MAX false).
Proof.
  intros R IN HT EM SZ C. pose proof (reach_inv _ _ R) as I. destruct (storage_limits _ _ R) as (L1 & L2). specialize (L2 IN). rewrite N.mod_small in L2 by (unfold W64; lia).
  destruct (C51_accounting_is_exact _ _ U64MAX _ R eq_refl) as (_ & B & _). rewrite EM in B. simpl in B.
  destruct (C51_egress_first_then_storage cfg s U64MAX (g_single s) false id (b_size b) R eq_refl (iv_fits _ _ I _ _ _ HT)) as (W & _ & X).
  assert (ES : snd (reserve false true id (b_size b) (g_single s)) = ForStorage).
  { apply X. split; [intros (Y & _); discriminate|]. unfold has_storage_room. rewrite EM, B, L1, L2. rewrite N.div_mul by lia. split; [reflexivity|simpl; lia]. }
  unfold thread_step. rewrite HT. rewrite W, ES, andb_false_r. destruct (reserve false true id (b_size b) (g_single s)) as [a' r]. simpl in ES. subst r. eexists. split; [reflexivity|].
  cbn [goto with_threads g_threads]. rewrite put_threads. eapply set_nth_same. eassumption.
Qed.
Example C51_storage_takes_one_bundle_ex : exists s, exec ex51_cfg [LTelemetry ex51_telemetry; LBundle (ex51_bundle 1000 (21, 1) false); LThread 0 true; LThread 0 true; LThread 0 true] start = Some s /\
  g_init s = true /\ nth_error (g_threads s) 0 = Some (ex51_bundle 1000 (21, 1) false, PStore 0) /\ a_st (g_single s) = [].
Proof. eexists. split; [vm_compute; reflexivity|vm_compute; auto]. Qed.
Print Assumptions C51_storage_takes_one_bundle.

(** ** Routes *)
(** Telemetry that lists the outducts in order is taken over as a whole: an EID goes to the last outduct that lists it, otherwise to the
    last that lists its node, otherwise there is no route; a list of another length or an empty one changes nothing. *)
Lemma find_app {A} (f : A -> bool) a b : find f (a ++ b) = match find f a with Some x => Some x | None => find f b end.
Proof. induction a as [|x a IH]; [reflexivity|]. simpl. destruct (f x); [reflexivity|exact IH]. Qed.
Lemma find_tagged {A} (f : A -> bool) (k : N) l : match find (fun e => f (fst e)) (rev (map (fun e => (e, k)) l)) with Some e => Some (snd e) | None => None end = if existsb f l then Some k else None.
Proof.
  induction l as [|x l IH]; [reflexivity|]. cbn [map rev existsb]. rewrite find_app. cbn [find fst].
  destruct (find (fun e => f (fst e)) (rev (map (fun e => (e, k)) l))) as [e|].
  - destruct (existsb f l); [|discriminate]. injection IH as ->. rewrite orb_true_r. reflexivity.
  - destruct (existsb f l); [discriminate|]. rewrite orb_false_r. destruct (f x); reflexivity.
Qed.
Lemma loop_routes initial (f : N * N -> bool) (g : N -> bool) l : forall e sets eids nodes, map t_idx l = map N.of_nat (seq (N.to_nat e) (length l)) ->
  let '(_, eids', nodes', fine) := telem_loop initial e l sets eids nodes in
  fine = true /\
  match find (fun x => f (fst x)) eids' with Some x => Some (snd x) | None => None end =
    match find (fun o => existsb f (t_eids o)) (rev l) with Some o => Some (t_idx o) | None => match find (fun x => f (fst x)) eids with Some x => Some (snd x) | None => None end end /\
  match find (fun x => g (fst x)) nodes' with Some x => Some (snd x) | None => None end =
    match find (fun o => existsb g (t_nodes o)) (rev l) with Some o => Some (t_idx o) | None => match find (fun x => g (fst x)) nodes with Some x => Some (snd x) | None => None end end.
Proof.
  induction l as [|o l IH]; intros e sets eids nodes H; [simpl; auto|]. cbn [length seq map] in H. injection H as HO HL. rewrite N2Nat.id in HO. cbn [telem_loop]. rewrite HO, N.eqb_refl. cbn [negb].
  set (sets' := if initial then _ else _). specialize (IH (e + 1) sets' (rev (map (fun x => (x, e)) (t_eids o)) ++ eids) (rev (map (fun n => (n, e)) (t_nodes o)) ++ nodes)).
  assert (HL' : map t_idx l = map N.of_nat (seq (N.to_nat (e + 1)) (length l))) by (rewrite HL; do 2 f_equal; lia). specialize (IH HL').
  destruct (telem_loop initial (e + 1) l sets' _ _) as [[[S1 E1] N1] F1]. destruct IH as (I0 & I1 & I2). split; [exact I0|]. rewrite I1, I2. cbn [rev]. rewrite !find_app. cbn [find].
  pose proof (find_tagged f e (t_eids o)) as T1. pose proof (find_tagged g e (t_nodes o)) as T2. split.
  - destruct (find (fun o0 => existsb f (t_eids o0)) (rev l)); [reflexivity|].
    destruct (find (fun e0 => f (fst e0)) (rev (map (fun x => (x, e)) (t_eids o)))); destruct (existsb f (t_eids o)); try discriminate; [rewrite HO; exact T1|reflexivity].
  - destruct (find (fun o0 => existsb g (t_nodes o0)) (rev l)); [reflexivity|].
    destruct (find (fun e0 => g (fst e0)) (rev (map (fun n => (n, e)) (t_nodes o)))); destruct (existsb g (t_nodes o)); try discriminate; [rewrite HO; exact T2|reflexivity].
Qed.
Theorem C51_routes_follow_telemetry cfg l s d : 
  (in_order l -> l <> [] -> g_sets s = [] \/ length (g_sets s) = length l ->
     route (telemetry cfg l s) d =
       (match find (fun o => existsb (fun e => eid_eqb e d) (t_eids o)) (rev l) with
        | Some o => t_idx o
        | None => match find (fun o => existsb (fun n => n =? fst d) (t_nodes o)) (rev l) with Some o => t_idx o | None => U64MAX end
        end) /\ g_init (telemetry cfg l s) = true) /\
  (l = [] \/ (g_sets s <> [] /\ length (g_sets s) <> length l) -> telemetry cfg l s = s).
Proof.
  split.
  - intros IO NE HS. unfold telemetry. destruct l as [|o l]; [congruence|]. set (ini := match g_sets s with [] => true | _ => false end).
    assert (EC : negb ini && negb (Nat.eqb (length (g_sets s)) (length (o :: l))) = false).
    { destruct HS as [HS|HS]; [unfold ini; rewrite HS; reflexivity|]. rewrite HS, Nat.eqb_refl. apply andb_false_r. }
    rewrite EC. cbn [orb]. pose proof (loop_routes ini (fun e => eid_eqb e d) (fun n => n =? fst d) (o :: l) 0 (g_sets s) [] [] IO) as LR.
    destruct (telem_loop ini 0 (o :: l) (g_sets s) [] []) as [[[S1 E1] N1] F1]. destruct LR as (-> & L1 & L2). cbn [g_init andb]. split; [|destruct (g_init s); reflexivity].
    unfold route. cbn [g_eids g_nodes]. cbn [find] in L1, L2.
    destruct (find (fun e => eid_eqb (fst e) d) E1); destruct (find (fun o0 => existsb (fun e => eid_eqb e d) (t_eids o0)) (rev (o :: l))); try discriminate; [congruence|].
    destruct (find (fun e => fst e =? fst d) N1); destruct (find (fun o0 => existsb (fun n => n =? fst d) (t_nodes o0)) (rev (o :: l))); try discriminate; congruence.
  - intros H. unfold telemetry. destruct H as [->|(H1 & H2)]; [reflexivity|]. destruct (g_sets s); [congruence|]. rewrite (proj2 (Nat.eqb_neq _ _) H2). cbn [negb andb]. rewrite orb_true_r. reflexivity.
Qed.
Example C51_routes_follow_telemetry_ex : in_order ex51_telemetry /\ map (route (telemetry ex51_cfg ex51_telemetry start)) [(20, 2); (20, 1); (20, 9); (21, 5); (22, 1)] = [1; 0; 0; 0; U64MAX].
Proof. split; vm_compute; reflexivity. Qed.
Print Assumptions C51_routes_follow_telemetry.

(** After telemetry in order every pipeline has the limits and the next hop of its outduct; a message to egress names the outduct's next hop. *)
Lemma loop_sets l : forall (initial : bool) e sets eids nodes, map t_idx l = map N.of_nat (seq (N.to_nat e) (length l)) ->
  (if initial then length sets = N.to_nat e else (N.to_nat e + length l <= length sets)%nat) ->
  forall n o, nth_error l n = Some o -> forall sets' eids' nodes' fine, telem_loop initial e l sets eids nodes = (sets', eids', nodes', fine) ->
  exists a, nth_error sets' (N.to_nat e + n) = Some a /\ a_max a = t_max o /\ a_maxb a = t_maxb o /\ a_hop a = t_hop o.
Proof.
  assert (K : forall l initial e sets eids nodes sets' eids' nodes' fine n a, map t_idx l = map N.of_nat (seq (N.to_nat e) (length l)) ->
     telem_loop initial e l sets eids nodes = (sets', eids', nodes', fine) -> (n < N.to_nat e)%nat -> (initial = true -> length sets = N.to_nat e) ->
     nth_error sets n = Some a -> nth_error sets' n = Some a).
  { clear l. intros l. induction l as [|o l IH]; intros initial e sets eids nodes sets' eids' nodes' fine n a H E L F A.
    - simpl in E. injection E as <- <- <- <-. exact A.
    - cbn [length seq map] in H. injection H as HO HL. rewrite N2Nat.id in HO. cbn [telem_loop] in E. rewrite HO, N.eqb_refl in E. cbn [negb] in E.
      eapply IH; [|exact E|lia| |].
      + rewrite HL. do 2 f_equal. lia.
      + intros ->. rewrite app_length. simpl. rewrite (F eq_refl). lia.
      + destruct initial; [rewrite nth_error_app1; [exact A|rewrite (F eq_refl); exact L]|]. destruct (nth_error sets (N.to_nat e)) as [a0|] eqn:EA; [|exact A].
        rewrite set_nth_other by lia. exact A. }
  induction l as [|o l IH]; intros initial e sets eids nodes H HS n x HX sets' eids' nodes' fine E; [destruct n; discriminate|].
  cbn [length seq map] in H. injection H as HO HL. rewrite N2Nat.id in HO. cbn [telem_loop] in E. rewrite HO, N.eqb_refl in E. cbn [negb] in E.
  assert (HL' : map t_idx l = map N.of_nat (seq (N.to_nat (e + 1)) (length l))) by (rewrite HL; do 2 f_equal; lia).
  destruct n as [|n].
  - cbn [nth_error] in HX. injection HX as <-. rewrite Nat.add_0_r.
    destruct initial.
    + exists (new_set (t_max o) (t_maxb o) (t_hop o) false). split; [|repeat split].
      eapply K; [exact HL'|exact E|lia| |].
      * intros _. rewrite app_length. simpl. lia.
      * rewrite nth_error_app2 by lia. rewrite HS, Nat.sub_diag. reflexivity.
    + cbn [length] in HS. destruct (nth_error sets (N.to_nat e)) as [a0|] eqn:EA; [|apply nth_error_None in EA; lia].
      exists (update (t_max o) (t_maxb o) (t_hop o) (a_up a0) a0). split; [|repeat split].
      eapply K; [exact HL'|exact E|lia|discriminate|]. apply (set_nth_same _ _ _ _ EA).
  - cbn [nth_error] in HX. replace (N.to_nat e + S n)%nat with (N.to_nat (e + 1) + n)%nat by lia. eapply IH; [exact HL'| |exact HX|exact E].
    destruct initial; [rewrite app_length; simpl; lia|]. cbn [length] in HS. destruct (nth_error sets (N.to_nat e)); [rewrite set_nth_length|]; lia.
Qed.
Theorem C51_limits_and_hops_follow_telemetry cfg l s n o : in_order l -> g_sets s = [] \/ length (g_sets s) = length l -> nth_error l n = Some o ->
  exists a, nth_error (g_sets (telemetry cfg l s)) n = Some a /\ a_max a = t_max o /\ a_maxb a = t_maxb o /\ a_hop a = t_hop o.
Proof.
  intros IO HS HN. unfold telemetry. destruct l as [|o1 l]; [destruct n; discriminate|]. set (ini := match g_sets s with [] => true | _ => false end).
  assert (EC : negb ini && negb (Nat.eqb (length (g_sets s)) (length (o1 :: l))) = false).
  { destruct HS as [HS|HS]; [unfold ini; rewrite HS; reflexivity|]. rewrite HS, Nat.eqb_refl. apply andb_false_r. }
  rewrite EC. cbn [orb]. destruct (telem_loop ini 0 (o1 :: l) (g_sets s) [] []) as [[[S1 E1] N1] F1] eqn:E. cbn [g_sets].
  apply (loop_sets (o1 :: l) ini 0 (g_sets s) [] []) with (3 := HN) (4 := E); [exact IO|]. unfold ini. destruct (g_sets s) as [|a r] eqn:ES; [reflexivity|].
  destruct HS as [HS|HS]; [discriminate|]. change (N.to_nat 0) with 0%nat. rewrite HS. lia.
Qed.
Example C51_limits_and_hops_follow_telemetry_ex : in_order ex51_telemetry /\ map a_hop (g_sets (telemetry ex51_cfg ex51_telemetry start)) = map t_hop ex51_telemetry.
Proof. split; vm_compute; reflexivity. Qed.
Print Assumptions C51_limits_and_hops_follow_telemetry.

(** What a step sends to egress, exactly. *)
Theorem C51_next_hop_is_the_outducts cfg t ok s s' m : thread_step cfg t ok s = On s' -> g_egress s' = g_egress s ++ [m] -> e_router m = false ->
  exists b a id, nth_error (g_threads s) t = Some (b, PEgress id (e_idx m)) /\ vec_at s (e_idx m) = Some a /\ m = mkE t false id (e_idx m) (a_hop a) (b_dest b) (b_custody b).
Proof.
  intros E G R. assert (NE : forall l : list emsg, l <> l ++ [m]).
  { intros l X. apply (f_equal (@length _)) in X. rewrite app_length in X. simpl in X. lia. }
  unfold thread_step in E. destruct (nth_error (g_threads s) t) as [[b p]|] eqn:HT; [|discriminate].
  assert (PE : forall i a, g_egress (put_at s i a) = g_egress s) by (intros i a; unfold put_at; destruct (i =? U64MAX); reflexivity).
  destruct p as [| |id|id i|id i|id|id i dont|f]; try discriminate E.
  - destruct (b_router b).
    + injection E as <-. destruct ok; cbn [g_egress goto with_threads send_egress] in G; [|destruct (NE _ G)]. apply app_inv_head in G. injection G as <-. discriminate R.
    + destruct (try_link cfg (g_links s) b && ok); injection E as <-; destruct (NE _ G).
  - injection E as <-. destruct (NE _ G).
  - destruct (negb ok && negb (b_acks b)); [injection E as <-; destruct (NE _ G)|]. destruct (route s (b_dest b) =? U64MAX); [injection E as <-; destruct (NE _ G)|].
    destruct (vec_at s (route s (b_dest b))); [|discriminate]. injection E as <-. destruct (NE _ G).
  - destruct (vec_at s i) as [a|]; [|discriminate]. destruct (ok && must_wait (negb (c_priority cfg)) true (b_size b) a); [discriminate|].
    destruct (reserve (negb (c_priority cfg)) true id (b_size b) a) as [a' r]. injection E as <-. cbn [g_egress goto with_threads] in G. rewrite PE in G. destruct (NE _ G).
  - destruct (vec_at s i) as [a|] eqn:V; [|discriminate]. destruct ok; injection E as <-.
    + cbn [g_egress goto with_threads send_egress] in G. apply app_inv_head in G. injection G as <-. exists b, a, id. cbn [e_idx]. repeat split; assumption.
    + cbn [g_egress goto with_threads] in G. rewrite PE in G. destruct (NE _ G).
  - destruct (ok && must_wait false true (b_size b) (g_single s)); [discriminate|]. destruct (reserve false true id (b_size b) (g_single s)) as [a' r]. injection E as <-.
    cbn [g_egress goto with_threads] in G. rewrite PE in G. destruct (NE _ G).
  - destruct (set_at s i) as [a|]; [|discriminate]. destruct ok; injection E as <-; cbn [g_egress goto with_threads send_storage] in G; [|rewrite PE in G]; destruct (NE _ G).
Qed.
Example C51_next_hop_is_the_outducts_ex : map (fun m => (e_idx m, e_hop m)) (g_egress ex51_state) = map (fun m => (e_idx m, match vec_at ex51_state (e_idx m) with Some a => a_hop a | None => 0 end)) (g_egress ex51_state) /\ g_egress ex51_state <> [].
Proof. split; [vm_compute; reflexivity|vm_compute; discriminate]. Qed.
Print Assumptions C51_next_hop_is_the_outducts.

(** ** Refutations *)
(** Limits lowered by telemetry: a pipeline then holds more than the limits in force. *)
Theorem C51_pipeline_always_within_current_limit_refuted : exists s a, fair_state ex51_cfg s /\ set_at s 0 = Some a /\ a_max a = 2 /\ length (a_eg a) = 2%nat /\ a_maxb a = 10 /\ a_egb a = 900.
Proof.
  exists (telemetry ex51_cfg [mkOutduct 0 2 10 7 [] []; mkOutduct 1 2 100 8 [] []] ex51_state). eexists. split.
  - destruct ex51_fair as (tr & R & F & L). exists (tr ++ [LTelemetry [mkOutduct 0 2 10 7 [] []; mkOutduct 1 2 100 8 [] []]]). split; [|split; [apply Forall_app; split; [exact F|repeat constructor]|vm_compute; discriminate]].
    eapply honest_app; [exact R|]. eapply honest_cons; [exact Logic.I|vm_compute; reflexivity|constructor].
  - vm_compute. repeat split.
Qed.
Print Assumptions C51_pipeline_always_within_current_limit_refuted.

(** The outduct index of an acknowledgement is not checked (Rx:777, 836), unlike that of a link event (Rx:1062, 1074). *)
Theorem C51_acknowledgements_stay_in_bounds_refuted : exists s, reachable ex51_cfg s /\ step ex51_cfg (LAckEgress 0 2 false) s = Bad /\ step ex51_cfg (LAckStorage 0 2 false) s = Bad /\ step ex51_cfg (LLink 2 true) s = On s.
Proof. exists ex51_state. split; [apply fair_reach; exact ex51_fair|]. vm_compute. repeat split. Qed.
Print Assumptions C51_acknowledgements_stay_in_bounds_refuted.

(** A bundle from the router is handled by the thread that reads the acknowledgements. If the storage pipeline is full it waits for
    acknowledgements that only it could read, and the bundle is lost, however fast storage is. *)
Definition ex51_router_trace : list label :=
  [LTelemetry ex51_telemetry] ++ flat_map (fun t => LBundle (ex51_bundle 1 (99, 1) false) :: ex51_go t 5) [0; 1; 2; 3; 4]%nat ++
  [LBundle (mkBundle 1 (99, 1) false false false false true true)] ++ ex51_go 5 3.
Theorem C51_bundles_from_router_wait_for_room_refuted : exists s s' b, fair_state ex51_cfg s /\ nth_error (g_threads s) 5 = Some (b, PStore 5) /\ b_acks b = true /\
  (forall t b p, t <> 5%nat -> nth_error (g_threads s) t = Some (b, p) -> done p = true) /\
  step ex51_cfg (LThread 5 true) s = Off /\ (forall id i e, step ex51_cfg (LAckStorage id i e) s = Off) /\
  step ex51_cfg (LThread 5 false) s = On s' /\ nth_error (g_threads s') 5 = Some (b, PDone NoStorage) /\ length (g_spend s) = 5%nat.
Proof.
  eexists _, _, _. split; [exists ex51_router_trace; split; [apply honest_exec; [vm_compute; reflexivity|repeat constructor]|split; [repeat constructor|vm_compute; discriminate]]|].
  split; [vm_compute; reflexivity|]. split; [reflexivity|]. split.
  { intros [|[|[|[|[|[|[|t]]]]]]] b p NE H; vm_compute in H; try discriminate; try congruence; injection H as <- <-; reflexivity. }
  split; [vm_compute; reflexivity|]. split; [intros id i e; vm_compute; reflexivity|]. split; [vm_compute; reflexivity|]. split; [vm_compute; reflexivity|vm_compute; reflexivity].
Qed.
Print Assumptions C51_bundles_from_router_wait_for_room_refuted.

(** If the first telemetry has an index out of order, the outducts before it stay; a correct list of the same length is then refused
    for ever, and the node never starts its inducts. *)
Theorem C51_bad_telemetry_is_recoverable_refuted : exists l, let s := telemetry ex51_cfg l start in length l = 3%nat /\ g_init s = false /\
  (forall l2, length l2 = length l -> telemetry ex51_cfg l2 s = s).
Proof.
  exists [mkOutduct 0 4 2000 7 [] []; mkOutduct 2 4 2000 7 [] []; mkOutduct 1 4 2000 7 [] []]. split; [reflexivity|]. split; [vm_compute; reflexivity|].
  intros l2 H. destruct l2 as [|a [|b [|c [|d r]]]]; try discriminate. vm_compute. reflexivity.
Qed.
Print Assumptions C51_bad_telemetry_is_recoverable_refuted.

(** A bundle of the largest accepted size grows by its previous node block (C50), and then never fits the storage pipeline. *)
Theorem C51_accepted_bundle_can_be_stored_refuted : exists nd o, ex50_run nd ex7_bundle = Some (Out o) /\
  let cfg := mkConfig false (n_max nd) in exists s, exec cfg [LTelemetry ex51_telemetry; LBundle (bundle_of false false o); LThread 0 true; LThread 0 true; LThread 0 true; LThread 0 false] start = Some s /\
  nth_error (g_threads s) 0 = Some (bundle_of false false o, PDone NoStorage).
Proof. exists (mkNode 10 0 2047 100 80 0). eexists. split; [vm_compute; reflexivity|]. eexists. split; [vm_compute; reflexivity|vm_compute; reflexivity]. Qed.
Print Assumptions C51_accepted_bundle_can_be_stored_refuted.

(** Reserving with an id that is in use counts bytes that are never given back. Unique ids prevent it until they wrap around. *)
Theorem C51_reserving_twice_is_undone_refuted : exists a, a_eg a = [] /\ a_egb a = 0 /\ let a1 := fst (reserve true true 5 100 a) in let a2 := fst (reserve true true 5 100 a1) in
  let a3 := fst (pop 5 true (fst (pop 5 true a2))) in a_eg a3 = [] /\ a_egb a3 = 100.
Proof. exists (new_set 10 1000 7 true). vm_compute. repeat split. Qed.
Print Assumptions C51_reserving_twice_is_undone_refuted.
