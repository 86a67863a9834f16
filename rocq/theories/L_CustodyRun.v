(** Lemmas for C56: the records' contents, the pending signals, flushing. *)
From Coq Require Import PeanoNat NArith List Bool Lia Sorted FinFun ZifyBool ZifyN.
From Verif Require Import Base M_FragmentSet M_Sdnv M_Acs M_Uri M_Bpv6Block M_BundleV6 S_FragmentSet L_FragmentSet S_Acs S_Sdnv S_Uri S_Bpv6 S_BundleV6 L_Sdnv L_Acs L_Uri
  P_Uri L_Bpv6Write L_Bpv6Trip L_BundleV6 M_Custody S_Custody L_Custody.
Import ListNotations.
Open Scope N_scope.

(** ** Contents *)
Lemma status_ok k st : status_of k = Some st -> is_byte st /\ says k st /\ (k < 7)%nat.
Proof.
  unfold status_of, reasons. intros H. do 7 (destruct k as [|k]; [cbn [nth_error] in H; injection H as <-; split; [vm_compute; reflexivity|split; [split; vm_compute; reflexivity|lia]]|]).
  cbn [nth_error] in H. destruct k; discriminate.
Qed.
Lemma status_some k : (k < 7)%nat -> exists st, status_of k = Some st.
Proof. intros L. unfold status_of, reasons. do 7 (destruct k as [|k]; [cbn; eauto|]). lia. Qed.
Lemma frag_bit flags : p_isfrag flags = fragment_flag flags.
Proof. unfold p_isfrag, fragment_flag. rewrite N.bit0_odd. destruct flags as [|[p|p|]]; reflexivity. Qed.
Lemma two_bound (f : bool) a b bs : a < W64 -> b < W64 -> shortest_all (if f then [a; b] else []) bs -> (length bs <= 20)%nat.
Proof. intros A B H. destruct f; [apply (shortest_all_bound _ _ H); auto|inversion H; cbn; lia]. Qed.
Lemma eid_bound text bs : (length text <= 45)%nat -> eid_written text bs -> (length bs <= 46)%nat.
Proof. intros L (ln & -> & S). apply shortest_low in S; [subst ln|lia]. cbn [app length]. lia. Qed.
Lemma source_ok p : prim_ok p -> ok2 (p_src p).
Proof. intros (F & _). repeat (apply Forall_cons_iff in F; destruct F as [? F]). split; assumption. Qed.
Lemma cust_ok p : prim_ok p -> ok2 (p_cust p) /\ ok2 (p_report p) /\ p_flags p < W64 /\ p_off p < W64 /\ pair_ok (p_time p, p_seq p).
Proof. intros (F & _). repeat (apply Forall_cons_iff in F; destruct F as [? F]). repeat split; assumption. Qed.
Lemma signal_content p size st time : prim_ok p -> size < W64 -> is_byte st -> fst time < W64 -> snd time < W32 ->
  admin_ok (ASignal (signal_about p size st time)) /\ admin_std 2 (p_isfrag (p_flags p)) (ASignal (signal_about p size st time)) /\
  (forall data, admin_written (ASignal (signal_about p size st time)) data -> (length data <= 107)%nat) /\
  let s := signal_about p size st time in about p size (cs_isfrag s) (cs_off s) (cs_flen s) (cs_stamp s) (cs_eid s) /\ cs_status s = st /\ cs_time s = time.
Proof.
  intros PO SZ BS T1 T2. destruct (text_ok (p_src p) (proj1 (source_ok p PO)) (proj2 (source_ok p PO))) as (TX & (L5 & L45) & TB). destruct (cust_ok p PO) as (_ & _ & _ & OF & ST).
  unfold signal_about. cbn [admin_ok admin_std cs_status cs_isfrag cs_off cs_flen cs_time cs_stamp cs_eid]. split; [|split; [|split]].
  - split; [exact BS|]. split; [destruct (p_isfrag (p_flags p)); [exact OF|unfold W64; lia]|]. split; [destruct (p_isfrag (p_flags p)); [exact SZ|unfold W64; lia]|]. split; [auto|]. split; [exact ST|]. split; [exact TB|unfold W32; lia].
  - split; [reflexivity|]. split; [reflexivity|]. split; [intros ->; auto|]. split; [exact L5|lia].
  - intros data W. inversion W as [|s fr t stp e SF STM SST EW|]; subst. cbn [cs_status cs_isfrag cs_off cs_flen cs_time cs_stamp cs_eid fst snd] in *. cbn [length]. rewrite !app_length.
    apply two_bound in SF; [|destruct (p_isfrag (p_flags p)); [exact OF|unfold W64; lia]|destruct (p_isfrag (p_flags p)); [exact SZ|unfold W64; lia]].
    pose proof (shortest_all_bound _ _ STM) as B1. cbn [length] in B1. specialize (B1 ltac:(repeat constructor; unfold W32, W64 in *; lia)). pose proof (shortest_all_bound _ _ SST ltac:(repeat constructor; apply ST)) as B2. cbn [length] in B2. apply eid_bound in EW; [|exact L45]. lia.
  - cbv zeta. split; [|split; reflexivity]. split; [apply frag_bit|]. split; [destruct (p_isfrag (p_flags p)); auto|]. split; [reflexivity|exact TX].
Qed.
Lemma report_content p size time : prim_ok p -> size < W64 -> fst time < W64 -> snd time < W32 ->
  admin_ok (AStatus (report_about p size time)) /\ admin_std 1 (p_isfrag (p_flags p)) (AStatus (report_about p size time)) /\
  (forall data, admin_written (AStatus (report_about p size time)) data -> (length data <= 108)%nat) /\
  let s := report_about p size time in about p size (sr_isfrag s) (sr_off s) (sr_flen s) (sr_stamp s) (sr_eid s).
Proof.
  intros PO SZ T1 T2. destruct (text_ok (p_src p) (proj1 (source_ok p PO)) (proj2 (source_ok p PO))) as (TX & (L5 & L45) & TB). destruct (cust_ok p PO) as (_ & _ & _ & OF & ST).
  unfold report_about. cbn [admin_ok admin_std sr_flags sr_reason sr_isfrag sr_off sr_flen sr_times sr_stamp sr_eid]. split; [|split; [|split]].
  - split; [unfold is_byte; lia|]. split; [unfold is_byte; lia|]. split; [destruct (p_isfrag (p_flags p)); [exact OF|unfold W64; lia]|]. split; [destruct (p_isfrag (p_flags p)); [exact SZ|unfold W64; lia]|].
    split; [repeat constructor; cbn; unfold W32, W64 in *; lia|]. split; [exact ST|]. split; [exact TB|unfold W32; lia].
  - split; [reflexivity|]. split; [reflexivity|]. split; [intros ->; auto|]. split; [reflexivity|]. split; [|split; [exact L5|lia]]. intros i L. do 5 (destruct i as [|i]; [cbn; first [reflexivity|discriminate]|]). lia.
  - intros data W. inversion W as [s fr ts stp e SF TS SST EW| |]; subst. cbn [sr_flags sr_reason sr_isfrag sr_off sr_flen sr_times sr_stamp sr_eid fst snd] in *. cbn [length]. rewrite !app_length.
    apply two_bound in SF; [|destruct (p_isfrag (p_flags p)); [exact OF|unfold W64; lia]|destruct (p_isfrag (p_flags p)); [exact SZ|unfold W64; lia]].
    assert (B1 : (length ts <= 20)%nat).
    { do 4 (inversion TS as [|? ? ? ? ? X|? ? ? ? X TS']; subst; [discriminate X|]; clear TS X; rename TS' into TS). inversion TS as [|? ? ? a b X S1 S2|? ? ? ? X]; subst; [|discriminate X]. inversion S2; subst. rewrite app_nil_r.
      pose proof (shortest_all_bound _ _ S1 ltac:(repeat constructor; unfold W32, W64 in *; lia)) as B. cbn [length] in B. lia. }
    pose proof (shortest_all_bound _ _ SST ltac:(repeat constructor; apply ST)) as B2. cbn [length] in B2. apply eid_bound in EW; [|exact L45]. lia.
  - cbv zeta. split; [apply frag_bit|]. split; [destruct (p_isfrag (p_flags p)); auto|]. split; [reflexivity|exact TX].
Qed.
Lemma encoding_bound prev fills enc : acs_encoding prev fills enc -> canonical fills -> (length enc <= 20 * length fills)%nat.
Proof.
  induction 1 as [|prev b e r p q rest SP SQ H IH]; intros CA; [cbn; lia|]. apply canonical_cons in CA. destruct CA as ((V1 & V2) & _ & CA). specialize (IH CA). cbn [fst snd] in *. rewrite !app_length. cbn [length].
  assert (B1 : b - prev < W64) by lia. assert (B2 : e + 1 - b < W64) by lia. pose proof (shortest_bound _ _ B1 SP). pose proof (shortest_bound _ _ B2 SQ). lia.
Qed.
Lemma acs_content st fills : is_byte st -> canonical fills -> fills <> [] -> (length fills <= 104)%nat ->
  admin_ok (AAggregate st fills) /\ admin_std 4 false (AAggregate st fills) /\ (forall data, admin_written (AAggregate st fills) data -> (length data <= 2081)%nat).
Proof. intros B C NE L. split; [split; assumption|]. split; [split; [reflexivity|exact NE]|]. intros data W. inversion W as [| |? ? enc E]; subst. cbn [length]. pose proof (encoding_bound _ _ _ E C). lia. Qed.

(** ** The map *)
Lemma eid_eqb_eq a b : eid_eqb a b = true <-> a = b.
Proof. destruct a, b. unfold eid_eqb. cbn [fst snd]. split; [intros H; f_equal; lia|intros [= -> ->]; lia]. Qed.
Definition before (a b : eid * list fset) : Prop := eid_ltb (fst a) (fst b) = true.
Lemma eid_ltb_trans a b c : eid_ltb a b = true -> eid_ltb b c = true -> eid_ltb a c = true.
Proof. unfold eid_ltb. destruct (N.eqb_spec (fst a) (fst b)), (N.eqb_spec (fst b) (fst c)), (N.eqb_spec (fst a) (fst c)); lia. Qed.
Lemma eid_ltb_irrefl a : eid_ltb a a = false.
Proof. unfold eid_ltb. rewrite N.eqb_refl. lia. Qed.
Lemma eid_total a b : eid_eqb a b = false -> eid_ltb a b = false -> eid_ltb b a = true.
Proof. unfold eid_eqb, eid_ltb. rewrite (N.eqb_sym (fst b)). destruct (N.eqb_spec (fst a) (fst b)); lia. Qed.
Lemma change_in e f m y : In y (map_change e f m) -> In y m \/ (fst y = e /\ ((exists a, In (e, a) m /\ snd y = f a) \/ snd y = f (repeat [] 7))).
Proof.
  induction m as [|[x a] m IH]; cbn [map_change].
  - intros [<-|[]]. right. auto.
  - destruct (eid_eqb e x) eqn:E; [apply eid_eqb_eq in E; subst x|destruct (eid_ltb e x)]; intros [<-|IN]; try (left; now right); try (left; now left).
    + right. cbn. split; [reflexivity|]. left. exists a. auto.
    + right. auto.
    + left. exact IN.
    + destruct (IH IN) as [|(A & [(b & B1 & B2)|B])]; [left; now right|right; split; [exact A|]; left; exists b; split; [now right|exact B2]|right; auto].
Qed.
Lemma change_sorted e f m : StronglySorted before m -> StronglySorted before (map_change e f m).
Proof.
  induction 1 as [|[x a] m S IH F]; cbn [map_change]; [repeat constructor|]. destruct (eid_eqb e x) eqn:E; [constructor; assumption|]. destruct (eid_ltb e x) eqn:L.
  - constructor; [constructor; assumption|]. constructor; [exact L|]. rewrite Forall_forall in *. intros y IN. unfold before in *. cbn [fst] in *. eapply eid_ltb_trans; [exact L|exact (F y IN)].
  - constructor; [exact IH|]. rewrite Forall_forall in *. intros y IN. destruct (change_in _ _ _ _ IN) as [IN'|(EY & _)]; [exact (F y IN')|]. unfold before. cbn [fst]. rewrite EY. now apply eid_total.
Qed.
Lemma find_none e m : (forall y, In y m -> fst y <> e) -> map_find e m = None.
Proof. induction m as [|[x a] m IH]; intros H; [reflexivity|]. cbn [map_find]. destruct (eid_eqb e x) eqn:E; [apply eid_eqb_eq in E; subst; now elim (H _ (or_introl eq_refl))|]. apply IH. intros y IN. apply H. now right. Qed.
Lemma find_in e a m : map_find e m = Some a -> In (e, a) m.
Proof. induction m as [|[x b] m IH]; [discriminate|]. cbn [map_find]. destruct (eid_eqb e x) eqn:E; [apply eid_eqb_eq in E; subst; intros [= ->]; now left|]. intros H. right. auto. Qed.
Lemma in_find e a m : StronglySorted before m -> In (e, a) m -> map_find e m = Some a.
Proof.
  induction 1 as [|[x b] m S IH F]; [intros []|]. intros [[= -> ->]|IN]; cbn [map_find]; [rewrite (proj2 (eid_eqb_eq e e) eq_refl); reflexivity|]. destruct (eid_eqb e x) eqn:E; [|auto].
  apply eid_eqb_eq in E. subst x. rewrite Forall_forall in F. specialize (F _ IN). unfold before in F. cbn [fst] in F. rewrite eid_ltb_irrefl in F. discriminate.
Qed.
Lemma find_change e f m e' : StronglySorted before m ->
  map_find e' (map_change e f m) = if eid_eqb e' e then Some (f (match map_find e m with Some a => a | None => repeat [] 7 end)) else map_find e' m.
Proof.
  induction 1 as [|[x a] m S IH F]; cbn [map_change map_find]; [reflexivity|]. destruct (eid_eqb e x) eqn:E.
  - apply eid_eqb_eq in E. subst x. cbn [map_find]. destruct (eid_eqb e' e); reflexivity.
  - destruct (eid_ltb e x) eqn:L; cbn [map_find].
    + destruct (eid_eqb e' e) eqn:E'; [|reflexivity]. rewrite (find_none e m); [reflexivity|]. intros y IN EY. rewrite Forall_forall in F. specialize (F _ IN). unfold before in F. cbn [fst] in F. rewrite EY in F. pose proof (eid_ltb_trans _ _ _ L F) as X. rewrite eid_ltb_irrefl in X. discriminate.
    + rewrite IH. destruct (eid_eqb e' x) eqn:X; [|reflexivity]. destruct (eid_eqb e' e) eqn:Y; [|reflexivity]. apply eid_eqb_eq in X, Y. subst. rewrite (proj2 (eid_eqb_eq x x) eq_refl) in E. discriminate.
Qed.
Lemma set_at_length {A} k (x : A) l : length (set_at k x l) = length l.
Proof. revert k. induction l as [|y l IH]; intros [|k]; cbn; try reflexivity. now rewrite IH. Qed.
Lemma nth_set_at {A} (d : A) k x l j : (k < length l)%nat -> nth j (set_at k x l) d = if Nat.eqb j k then x else nth j l d.
Proof. revert k j. induction l as [|y l IH]; intros [|k] [|j] L; cbn [length] in L; try lia; cbn [set_at nth Nat.eqb]; try reflexivity. apply IH. lia. Qed.
Lemma set_at_forall {A} (P : A -> Prop) k x l : P x -> Forall P l -> Forall P (set_at k x l).
Proof. intros X F. revert k. induction F as [|y l Y F IH]; intros [|k]; cbn [set_at]; constructor; auto. Qed.
Lemma nth_empty j : nth j (repeat (@nil frag) 7) [] = [].
Proof. do 8 (destruct j as [|j]; [reflexivity|]). reflexivity. Qed.

(** ** Pending signals *)
Record kept_state (s : cstate) : Prop := mkKS {
  ks_last : u_last s = 0; ks_seq : u_seq s < W64; ks_sorted : StronglySorted before (u_map s);
  ks_arrays : forall e a, In (e, a) (u_map s) -> ok2 e /\ length a = 7%nat /\ Forall (fun f => canonical f /\ N.of_nat (length f) <= u_fills s) a }.
Lemma fills_ok s e k : kept_state s -> canonical (fills_of e k s) /\ N.of_nat (length (fills_of e k s)) <= u_fills s.
Proof.
  intros [_ _ _ A]. unfold fills_of. destruct (map_find e (u_map s)) as [a|] eqn:F; [|split; [apply canonical_nil|cbn; lia]]. apply find_in in F. destruct (A _ _ F) as (_ & L & X). destruct (nth_in_or_default k a []) as [IN| ->]; [|split; [apply canonical_nil|cbn; lia]].
  rewrite Forall_forall in X. exact (X _ IN).
Qed.
Lemma insert_loop_length last f : forall s key m s' m', insert_loop last f s key m = Some (s', m') -> (length s' <= S (length s))%nat.
Proof.
  induction f as [|f IH]; intros s key m s' m'; cbn [insert_loop]; [discriminate|]. destruct (set_find last s key) as [x|].
  - destruct (_ && _); [intros [= <- <-]; lia|]. intros H. apply IH in H. unfold set_erase in H. pose proof (filter_length_le (fun y => negb (frag_eqb y x)) s). lia.
  - intros [= <- <-]. clear. induction s as [|y s IH]; cbn [ins_sorted]; [cbn; lia|]. destruct (frag_lt y key); cbn [length]; lia.
Qed.
Lemma add_ok last fills id : canonical fills -> id < U64MAX -> let r := acs_add last fills id in
  canonical (fst r) /\ (forall i, covers (fst r) i <-> covers fills i \/ i = id) /\ snd r = N.of_nat (length (fst r)) /\ (length (fst r) <= S (length fills))%nat.
Proof.
  intros C L. cbv zeta. unfold acs_add. cbn [fst snd]. assert (V : valid (id, id)) by (split; cbn [fst snd]; [lia|unfold U64MAX, W64 in *; lia]). destruct (insert_spec last fills (id, id) C V) as (A & B & _). split; [exact A|]. split; [|split; [reflexivity|]].
  - intros i. rewrite B. unfold in_frag. cbn [fst snd]. split; (intros [X|X]; [now left|right; lia]).
  - unfold insert_fragment. destruct (insert_fragment_full last fills (id, id)) as [[s' m']|] eqn:E; [|cbn [fst]; lia]. exact (insert_loop_length _ _ _ _ _ _ _ E).
Qed.
Lemma aggregate_ok last e k id s : kept_state s -> ok2 e -> (k < 7)%nat -> id < U64MAX -> let s' := aggregate last e k id s in
  kept_state s' /\ (forall e' j i, covers (fills_of e' j s') i <-> covers (fills_of e' j s) i \/ (e' = e /\ j = k /\ i = id)) /\ u_fills s <= u_fills s' <= u_fills s + 1.
Proof.
  intros K E LK LI. cbv zeta. unfold aggregate. destruct (fills_ok s e k K) as (C & LF). destruct (add_ok last (fills_of e k s) id C LI) as (A1 & A2 & A3 & A4). destruct (acs_add last (fills_of e k s) id) as [fills n]. cbn [fst snd] in *. subst n.
  pose proof K as [K1 K2 K3 K4]. set (m := N.max (N.of_nat (length fills)) (u_fills s)). assert (M : u_fills s <= m <= u_fills s + 1 /\ N.of_nat (length fills) <= m) by (unfold m; lia).
  assert (FO : forall e' j, fills_of e' j (mkC (map_change e (set_at k fills) (u_map s)) (u_last s) (u_seq s) m) = if eid_eqb e' e && Nat.eqb j k then fills else fills_of e' j s).
  { intros e' j. unfold fills_of. cbn [u_map]. rewrite find_change by exact K3. destruct (eid_eqb e' e) eqn:X; cbn [andb]; [|reflexivity]. apply eid_eqb_eq in X. subst e'. destruct (map_find e (u_map s)) as [a|] eqn:F.
    - destruct (K4 _ _ (find_in _ _ _ F)) as (_ & L & _). rewrite nth_set_at by lia. reflexivity.
    - rewrite nth_set_at by (rewrite repeat_length; exact LK). destruct (Nat.eqb j k); [reflexivity|apply nth_empty]. }
  split; [|split; [|cbn [u_fills]; apply M]].
  - constructor; cbn [u_last u_seq u_map u_fills]; [exact K1|exact K2|now apply change_sorted|]. intros x a IN. destruct (change_in _ _ _ _ IN) as [IN'|(X & Y)]; cbn [fst snd] in *.
    + destruct (K4 _ _ IN') as (O & L & F). split; [exact O|]. split; [exact L|]. eapply Forall_impl; [|exact F]. cbn. intros f (G1 & G2). split; [exact G1|lia].
    + subst x. split; [exact E|]. destruct Y as [(b & IN' & ->)| ->]; rewrite set_at_length.
      * destruct (K4 _ _ IN') as (O & L & F). split; [exact L|]. apply set_at_forall; [split; [exact A1|apply M]|]. eapply Forall_impl; [|exact F]. cbn. intros f (G1 & G2). split; [exact G1|lia].
      * split; [apply repeat_length|]. apply set_at_forall; [split; [exact A1|apply M]|]. apply Forall_forall. intros f IN2. apply repeat_spec in IN2. subst f. split; [apply canonical_nil|cbn; lia].
  - intros e' j i. rewrite FO. destruct (eid_eqb e' e) eqn:X; cbn [andb].
    + apply eid_eqb_eq in X. subst e'. destruct (Nat.eqb_spec j k) as [->|NJ]; [rewrite A2; tauto|]. intuition congruence.
    + assert (NE : e' <> e) by (intros ->; rewrite (proj2 (eid_eqb_eq e e) eq_refl) in X; discriminate). intuition congruence.
Qed.
Lemma stamp_ok now s : now < W64 -> u_seq s < W64 -> let (q, s1) := stamp now s in q < W64 /\ u_map s1 = u_map s /\ u_last s1 = u_last s /\ u_fills s1 = u_fills s /\ u_seq s1 < W64.
Proof. intros A B. unfold stamp. cbn [u_map u_last u_fills u_seq]. repeat split; [destruct (_ =? _); [exact B|unfold W64; lia]|unfold add64; apply N.mod_lt; discriminate]. Qed.
Lemma covers_nil i : ~ covers [] i.
Proof. intros (f & [] & _). Qed.
Lemma covers_some fills : canonical fills -> fills <> [] -> exists i, covers fills i.
Proof. intros C NE. destruct fills as [|[b e] r]; [congruence|]. apply canonical_cons in C. destruct C as ((V & _) & _). exists b. exists (b, e). split; [now left|]. split; cbn [fst snd] in *; lia. Qed.

(** ** Flushing *)
Fixpoint filled (k : nat) (a : list fset) : list (nat * fset) :=
  match a with [] => [] | [] :: r => filled (S k) r | f :: r => (k, f) :: filled (S k) r end.
Lemma filled_in k a j f : In (j, f) (filled k a) <-> (k <= j)%nat /\ nth_error a (j - k) = Some f /\ f <> [].
Proof.
  revert k. induction a as [|x a IH]; intros k; cbn [filled]; [split; [intros []|intros (_ & H & _); destruct (j - k)%nat; discriminate]|].
  assert (S1 : forall y, (S k <= j)%nat -> nth_error (y :: a) (j - k) = nth_error a (j - S k)) by (intros y L; replace (j - k)%nat with (S (j - S k)) by lia; reflexivity).
  destruct x as [|x0 x].
  - rewrite IH. split; intros (A & B & C).
    + split; [lia|]. rewrite S1 by exact A. auto.
    + destruct (Nat.eq_dec j k) as [->|N]; [rewrite Nat.sub_diag in B; cbn in B; congruence|]. rewrite S1 in B by lia. split; [lia|auto].
  - cbn [In]. rewrite IH. split.
    + intros [[= <- <-]|(A & B & C)]; [rewrite Nat.sub_diag; split; [lia|split; [reflexivity|discriminate]]|]. split; [lia|]. rewrite S1 by exact A. auto.
    + intros (A & B & C). destruct (Nat.eq_dec j k) as [->|N]; [left; rewrite Nat.sub_diag in B; cbn in B; congruence|]. right. rewrite S1 in B by lia. split; [lia|auto].
Qed.
Lemma filled_nodup k a : NoDup (map fst (filled k a)).
Proof.
  revert k. induction a as [|x a IH]; intros k; cbn [filled]; [constructor|]. destruct x; [apply IH|]. cbn [map fst]. constructor; [|apply IH]. intros IN. apply in_map_iff in IN. destruct IN as ((j & g) & E & IN). cbn in E. subst j. apply filled_in in IN. lia.
Qed.
(** Bundle [r] is the signal for these ids. *)
Definition is_signal (cfg : ccfg) (E : nat -> env) (e : eid) (k : nat) (fills : fset) (r : rendered) : Prop :=
  exists n v st, r = Rendered v /\ (forall last, load last false (v_bytes v) = Some (Some v)) /\ record_for (f_me cfg) e 0 (e_now (E n)) v 4 false (AAggregate st fills) /\ says k st.
Lemma flush_one_ok cfg E dest : cfg_ok cfg -> ok2 dest -> (forall n, env_ok 2175 (E n)) -> forall a k n s, u_seq s < W64 -> (k + length a <= 7)%nat -> Forall (fun f => canonical f /\ (length f <= 104)%nat) a ->
  exists l s1, flush_one cfg E dest k a n s = Some (Some (repeat [] (length a), l, (n + length l)%nat, s1)) /\ u_map s1 = u_map s /\ u_last s1 = u_last s /\ u_seq s1 < W64 /\
    Forall2 (fun x r => is_signal cfg E dest (fst x) (snd x) r) (filled k a) l.
Proof.
  intros CF DE EN. induction a as [|f a IH]; intros k n s SQ LK FA; cbn [flush_one filled repeat length].
  - exists [], s. cbn [length]. rewrite Nat.add_0_r. repeat split; try assumption. constructor.
  - cbn [length] in LK. pose proof (Forall_inv FA) as (CA & LA). apply Forall_inv_tail in FA. destruct f as [|f0 f'].
    + destruct (IH (S k) n s SQ ltac:(lia) FA) as (l & s1 & -> & A & B & C & D). exists l, s1. cbn [bind2]. repeat split; assumption.
    + set (fills := f0 :: f') in *. destruct (status_some k ltac:(lia)) as (st & ST). destruct (status_ok _ _ ST) as (BS & SA & _). destruct (EN n) as (E1 & _ & _ & E4). pose proof (stamp_ok (e_now (E n)) s E1 SQ) as SO.
      unfold acs_bundle. rewrite ST. destruct (stamp (e_now (E n)) s) as [q s1]. destruct SO as (Q & S1 & S2 & S3 & S4).
      destruct (acs_content st fills BS CA ltac:(discriminate) LA) as (AO & AS & AL).
      destruct (record_renders cfg 0 dest (e_now (E n)) q 4 false (AAggregate st fills) 2081 2175 (e_mem (E n)) (e_junk (E n)) CF DE E1 Q ltac:(lia) AO AS AL ltac:(lia) ltac:(lia) E4) as (v & RE & LO & RF & _).
      unfold acs_view, acs_room. change (175 + 2000)%nat with 2175%nat. rewrite RE. cbn [bind2].
      destruct (IH (S k) (S n) s1 S4 ltac:(lia) FA) as (l & s2 & -> & A & B & C & D). cbn [bind2]. exists (Rendered v :: l), s2. cbn [length]. replace (n + S (length l))%nat with (S n + length l)%nat by lia.
      split; [reflexivity|]. split; [congruence|]. split; [congruence|]. split; [exact C|]. constructor; [|exact D]. exists n, v, st. cbn [fst snd]. auto.
Qed.
Definition jobs (m : list (eid * list fset)) : list (eid * nat * fset) := flat_map (fun x => map (fun y => (fst x, fst y, snd y)) (filled 0 (snd x))) m.
Lemma forall2_app {A B} (P : A -> B -> Prop) a a' b b' : Forall2 P a b -> Forall2 P a' b' -> Forall2 P (a ++ a') (b ++ b').
Proof. induction 1; cbn [app]; [auto|]. intros H'. constructor; auto. Qed.
Lemma forall2_map {A B C} (P : A -> B -> Prop) (g : C -> A) l r : Forall2 (fun x y => P (g x) y) l r -> Forall2 P (map g l) r.
Proof. induction 1; cbn [map]; constructor; auto. Qed.
Lemma flush_map_ok cfg E : cfg_ok cfg -> (forall n, env_ok 2175 (E n)) -> forall m n s, u_seq s < W64 -> (forall e a, In (e, a) m -> ok2 e /\ length a = 7%nat /\ Forall (fun f => canonical f /\ (length f <= 104)%nat) a) ->
  exists l s1, flush_map cfg E m n s = Some (Some (map (fun x => (fst x, repeat [] 7)) m, l, s1)) /\ u_map s1 = u_map s /\ u_last s1 = u_last s /\ u_seq s1 < W64 /\
    Forall2 (fun j r => is_signal cfg E (fst (fst j)) (snd (fst j)) (snd j) r) (jobs m) l.
Proof.
  intros CF EN. induction m as [|[e a] m IH]; intros n s SQ FA; cbn [flush_map map jobs flat_map].
  - exists [], s. repeat split; try assumption. constructor.
  - destruct (FA e a (or_introl eq_refl)) as (OE & L7 & FF). destruct (flush_one_ok cfg E e CF OE EN a 0 n s SQ ltac:(lia) FF) as (l & s1 & -> & A & B & C & D). cbn [bind2].
    destruct (IH (n + length l)%nat s1 C ltac:(intros e' a' IN; apply FA; now right)) as (l' & s2 & -> & A' & B' & C' & D'). cbn [bind2]. exists (l ++ l'), s2. cbn [fst snd]. rewrite L7. split; [reflexivity|]. split; [congruence|]. split; [congruence|]. split; [exact C'|].
    apply forall2_app; [|exact D']. apply forall2_map. exact D.
Qed.
Lemma jobs_in m e k f : StronglySorted before m -> (In (e, k, f) (jobs m) <-> f <> [] /\ exists a, map_find e m = Some a /\ nth_error a k = Some f).
Proof.
  intros S. unfold jobs. rewrite in_flat_map. split.
  - intros ((x & a) & IN & IM). cbn [fst snd] in IM. apply in_map_iff in IM. destruct IM as ((j & g) & EQ & IF). cbn [fst snd] in EQ. injection EQ as -> -> ->. apply filled_in in IF. destruct IF as (_ & NE & NN). rewrite Nat.sub_0_r in NE. split; [exact NN|]. exists a. split; [now apply in_find|exact NE].
  - intros (NN & a & F & NE). exists (e, a). split; [now apply find_in|]. cbn [fst snd]. apply in_map_iff. exists (k, f). split; [reflexivity|]. apply filled_in. rewrite Nat.sub_0_r. split; [lia|auto].
Qed.
Lemma nodup_app {A} (a b : list A) : NoDup a -> NoDup b -> (forall x, In x a -> ~ In x b) -> NoDup (a ++ b).
Proof. induction 1 as [|x a N D IH]; intros B X; cbn [app]; [exact B|]. constructor; [rewrite in_app_iff; intros [I|I]; [contradiction|exact (X x (or_introl eq_refl) I)]|]. apply IH; [exact B|]. intros y I. apply X. now right. Qed.
Lemma jobs_nodup m : StronglySorted before m -> NoDup (map fst (jobs m)).
Proof.
  induction 1 as [|[e a] m S IH F]; [constructor|]. unfold jobs. cbn [flat_map fst snd]. fold (jobs m). rewrite map_app, map_map. cbn [fst]. apply nodup_app; [|exact IH|].
  - rewrite <- (map_map fst (fun j => (e, j))). apply FinFun.Injective_map_NoDup; [intros x y [= ->]; reflexivity|apply filled_nodup].
  - intros (x & j) I1 I2. apply in_map_iff in I1. destruct I1 as ((j' & f) & [= -> <-] & _). apply in_map_iff in I2. destruct I2 as (((y & j2) & f2) & [= -> ->] & I2). apply jobs_in in I2; [|exact S]. destruct I2 as (_ & b & FB & _). apply find_in in FB.
    rewrite Forall_forall in F. specialize (F _ FB). unfold before in F. cbn [fst] in F. rewrite eid_ltb_irrefl in F. discriminate.
Qed.

(** ** Histories *)
Lemma flush_one_inv cfg E dest : (forall n, e_now (E n) < W64) -> forall a k n s b l n1 s1, u_seq s < W64 -> flush_one cfg E dest k a n s = Some (Some (b, l, n1, s1)) -> b = repeat [] (length a) /\ u_last s1 = u_last s /\ u_seq s1 < W64.
Proof.
  intros EN. induction a as [|f a IH]; intros k n s b l n1 s1 SQ; cbn [flush_one length repeat]; [intros [= <- <- <- <-]; auto|]. destruct f as [|f0 f].
  - destruct (flush_one cfg E dest (S k) a n s) as [[[[[b' l'] n'] s']|]|] eqn:F; cbn [bind2]; try discriminate. intros [= <- <- <- <-]. destruct (IH _ _ _ _ _ _ _ SQ F) as (-> & ? & ?). auto.
  - unfold acs_bundle. destruct (status_of k) as [st|]; [|discriminate]. pose proof (stamp_ok (e_now (E n)) s (EN n) SQ) as SO. destruct (stamp (e_now (E n)) s) as [q sa]. destruct SO as (_ & _ & L1 & _ & S1).
    destruct (render _ _ _ _) as [[r|]|]; cbn [bind2]; try discriminate. destruct (flush_one cfg E dest (S k) a (S n) sa) as [[[[[b' l'] n'] s']|]|] eqn:F; cbn [bind2]; try discriminate. intros [= <- <- <- <-]. destruct (IH _ _ _ _ _ _ _ S1 F) as (-> & ? & ?). split; [reflexivity|]. split; [congruence|assumption].
Qed.
Lemma flush_map_inv cfg E : (forall n, e_now (E n) < W64) -> forall m n s m' l s1, u_seq s < W64 -> flush_map cfg E m n s = Some (Some (m', l, s1)) -> m' = map (fun x => (fst x, repeat [] (length (snd x)))) m /\ u_last s1 = u_last s /\ u_seq s1 < W64.
Proof.
  intros EN. induction m as [|[e a] m IH]; intros n s m' l s1 SQ; cbn [flush_map map]; [intros [= <- <- <-]; auto|]. destruct (flush_one cfg E e 0 a n s) as [[[[[b la] na] sa]|]|] eqn:F; cbn [bind2]; try discriminate.
  destruct (flush_one_inv cfg E e EN _ _ _ _ _ _ _ _ SQ F) as (-> & L1 & S1). destruct (flush_map cfg E m na sa) as [[[[mb lb] sb]|]|] eqn:G; cbn [bind2]; try discriminate. intros [= <- <- <-]. destruct (IH _ _ _ _ _ S1 G) as (-> & L2 & S2). cbn [fst snd]. split; [reflexivity|]. split; [congruence|exact S2].
Qed.
Lemma emptied_find e m : map_find e (map (fun x => (fst x, repeat (@nil frag) (length (snd x)))) m) = match map_find e m with Some a => Some (repeat [] (length a)) | None => None end.
Proof. induction m as [|[x a] m IH]; [reflexivity|]. cbn [map map_find fst snd]. destruct (eid_eqb e x); [reflexivity|exact IH]. Qed.
Lemma nth_repeat_nil n k : nth k (repeat (@nil frag) n) [] = [].
Proof. destruct (nth_in_or_default k (repeat (@nil frag) n) []) as [IN|E]; [now apply repeat_spec in IN|exact E]. Qed.
Lemma emptied_sorted (g : eid * list fset -> list fset) m : StronglySorted before m -> StronglySorted before (map (fun x => (fst x, g x)) m).
Proof. induction 1 as [|x m S IH F]; cbn [map]; constructor; [exact IH|]. apply Forall_map. exact F. Qed.
Lemma flush_state cfg E s l s1 : kept_state s -> (forall n, e_now (E n) < W64) -> flush cfg E s = Some (Some (l, s1)) -> kept_state s1 /\ (forall e k, fills_of e k s1 = []) /\ u_fills s1 = 0.
Proof.
  intros [K1 K2 K3 K4] EN. unfold flush. destruct (flush_map cfg E (u_map s) 0 s) as [[[[m la] sa]|]|] eqn:F; cbn [bind2]; try discriminate. intros [= <- <-]. destruct (flush_map_inv cfg E EN _ _ _ _ _ _ K2 F) as (-> & L & S). split; [|split; [|reflexivity]].
  - constructor; cbn [u_last u_seq u_map u_fills]; [congruence|exact S|exact (emptied_sorted (fun x => repeat [] (length (snd x))) _ K3)|]. intros e a IN. apply in_map_iff in IN. destruct IN as ((x & b) & [= -> <-] & IN). destruct (K4 _ _ IN) as (O & L7 & _). cbn [snd]. split; [exact O|]. split; [rewrite repeat_length; exact L7|].
    apply Forall_forall. intros f I. apply repeat_spec in I. subst f. split; [apply canonical_nil|cbn; lia].
  - intros e k. unfold fills_of. cbn [u_map]. rewrite emptied_find. destruct (map_find e (u_map s)); [apply nth_repeat_nil|reflexivity].
Qed.
Lemma due_next cfg l o e k : due cfg (l ++ [o]) e k = match o with Flush _ => [] | Decide i accept reason _ =>
      if f_aware cfg && i_valid i && ((fst (p_cust (i_prim i)) =? fst e) && (snd (p_cust (i_prim i)) =? snd e)) && Nat.eqb (if accept then 0%nat else reason) k
      then i_id i :: due cfg l e k else due cfg l e k end.
Proof. unfold due. rewrite fold_left_app. cbn [fold_left]. reflexivity. Qed.
Lemma kept_init : kept_state cinit.
Proof. constructor; cbn; [reflexivity|unfold W64; lia|constructor|intros e a []]. Qed.
Lemma run_state cfg last l s : crun cfg last l s -> kept_state s /\ forall e k i, covers (fills_of e k s) i <-> In i (due cfg l e k).
Proof.
  induction 1 as [|l s o out s1 R (K & IH) OK D].
  - split; [exact kept_init|]. intros e k i. split; [intros H; now apply covers_nil in H|intros []].
  - destruct o as [i accept reason e|E]; cbn [do_op cop_ok] in *.
    + destruct OK as (PO & SZ & RE & ID & EO). unfold generate in D. set (k := if accept then 0%nat else reason) in *. destruct (f_aware cfg && i_valid i) eqn:AV.
      * assert (VA : i_valid i = true) by (now apply andb_prop in AV). assert (LK : (k < 7)%nat) by (unfold k; destruct accept; [lia|auto]). replace (Nat.ltb k 7) with true in D by (symmetry; now apply Nat.ltb_lt). injection D as <- <-.
        destruct (aggregate_ok last (p_cust (i_prim i)) k (i_id i) s K (proj1 (cust_ok _ PO)) LK (ID VA)) as (K' & CO & _). split; [exact K'|]. intros e' j x. rewrite CO, IH, due_next. fold k. rewrite AV. cbn [andb].
        destruct (N.eqb_spec (fst (p_cust (i_prim i))) (fst e')), (N.eqb_spec (snd (p_cust (i_prim i))) (snd e')), (Nat.eqb_spec k j); cbn [andb In]; (split; [intros [?|(? & ? & ?)]; subst; try tauto; try congruence|]); try (intros [X|X]; [right|now left]); try (intros X; now left).
        split; [destruct e', (p_cust (i_prim i)); cbn [fst snd] in *; congruence|]. auto.
      * destruct (signal_bundle cfg (i_prim i) (i_size i) k e s) as [[(r & sa)|]|] eqn:SB; cbn [bind2] in D; try discriminate. injection D as <- <-. unfold signal_bundle in SB. destruct (status_of k) as [st|]; [|discriminate].
        destruct EO as (E1 & _). pose proof K as [K1 K2 K3 K4]. pose proof (stamp_ok (e_now e) s E1 K2) as SO. destruct (stamp (e_now e) s) as [q sb]. destruct SO as (_ & M1 & M2 & M3 & M4). destruct (render _ _ _ _) as [[r'|]|]; cbn [bind2] in SB; try discriminate. injection SB as <- <-.
        split; [constructor; rewrite ?M1, ?M2, ?M3; assumption|]. intros e' j x. unfold fills_of. rewrite M1. fold (fills_of e' j s). rewrite IH, due_next. rewrite AV. reflexivity.
    + destruct (flush_state cfg E s out s1 K ltac:(intros n; apply (OK n)) D) as (K' & EM & _). split; [exact K'|]. intros e k i. rewrite EM, due_next. split; [intros H; now apply covers_nil in H|intros []].
Qed.
