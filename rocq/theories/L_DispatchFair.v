(** What holds for C51 when egress and storage acknowledge only what they were sent; limits. *)
From Coq Require Import NArith List Bool Lia ZifyBool ZifyN Permutation PeanoNat.
From Verif Require Import Base M_Ingress M_Dispatch S_Dispatch L_Dispatch L_DispatchInv.
Import ListNotations.
Open Scope N_scope.

Definition Fair (s : state) : Prop := forall i a, set_at s i = Some a ->
  Permutation (a_eg a) (flat_map (held_egress i) (g_threads s) ++ sent_through i (g_epend s)) /\
  Permutation (a_st a) (flat_map (held_storage i) (g_threads s) ++ sent_through i (g_spend s)).

Lemma fair_start : Fair start.
Proof. intros i a H. apply start_set in H. subst a. split; constructor. Qed.

Lemma sent_app i l1 l2 : sent_through i (l1 ++ l2) = sent_through i l1 ++ sent_through i l2.
Proof. unfold sent_through. rewrite filter_app, map_app. reflexivity. Qed.
Lemma sent_one i id j n : sent_through i [mkPend id j n] = if j =? i then [(id, n)] else [].
Proof. unfold sent_through. cbn [filter p_idx]. destruct (j =? i); reflexivity. Qed.
Lemma sent_forget_same id i l : sent_through i (forget id i l) = erase_id id (sent_through i l).
Proof.
  unfold sent_through, forget. induction l as [|p l IH]; [reflexivity|]. cbn [filter].
  destruct (N.eqb_spec (p_idx p) i) as [EI|EI].
  - rewrite andb_true_r. cbn [map]. unfold erase_id at 1. cbn [filter fst]. fold (erase_id id (map (fun p => (p_id p, p_size p)) (filter (fun p => p_idx p =? i) l))).
    destruct (p_id p =? id); cbn [negb filter]; [exact IH|]. rewrite EI, N.eqb_refl. cbn [map]. f_equal. exact IH.
  - rewrite andb_false_r. cbn [negb filter]. destruct (N.eqb_spec (p_idx p) i); [congruence|]. exact IH.
Qed.
Lemma sent_forget_other id i j l : i <> j -> sent_through j (forget id i l) = sent_through j l.
Proof.
  intros NE. unfold sent_through, forget. induction l as [|p l IH]; [reflexivity|]. cbn [filter].
  destruct (N.eqb_spec (p_idx p) j) as [EJ|EJ].
  - destruct (N.eqb_spec (p_idx p) i); [congruence|]. rewrite andb_false_r. cbn [negb filter]. rewrite EJ, N.eqb_refl. cbn [map]. f_equal. exact IH.
  - destruct (negb ((p_id p =? id) && (p_idx p =? i))); cbn [filter]; [destruct (N.eqb_spec (p_idx p) j); [congruence|]|]; exact IH.
Qed.
Lemma sent_in id i n l : In (mkPend id i n) l -> In (id, n) (sent_through i l).
Proof.
  intros H. unfold sent_through. apply in_map_iff. exists (mkPend id i n). split; [reflexivity|]. apply filter_In. split; [exact H|]. simpl. apply N.eqb_refl.
Qed.

(** A thread that holds nothing before and after. *)
Lemma fair_goto t b p p' s : Fair s -> nth_error (g_threads s) t = Some (b, p) ->
  (forall i, held_egress i (b, p) = [] /\ held_egress i (b, p') = []) -> (forall i, held_storage i (b, p) = [] /\ held_storage i (b, p') = []) ->
  Fair (goto s t b p').
Proof.
  intros F HT H1 H2 i a E. destruct (F i a E) as (F1 & F2). destruct (H1 i) as (X1 & X2). destruct (H2 i) as (Y1 & Y2). simpl.
  pose proof (flat_map_set_nth (held_egress i) t (b, p') (g_threads s) (b, p) HT) as P1. rewrite X1, X2 in P1.
  pose proof (flat_map_set_nth (held_storage i) t (b, p') (g_threads s) (b, p) HT) as P2. rewrite Y1, Y2 in P2. simpl in P1, P2.
  rewrite P1, P2. auto.
Qed.
Lemma held_nil_e i b p : match p with PEgress _ _ => False | _ => True end -> held_egress i (b, p) = [].
Proof. destruct p; simpl; try contradiction; reflexivity. Qed.
Lemma held_nil_s i b p : match p with PToStorage _ _ _ => False | _ => True end -> held_storage i (b, p) = [].
Proof. destruct p; simpl; try contradiction; reflexivity. Qed.

Lemma held_e i b id j : held_egress i (b, PEgress id j) = if j =? i then [(id, b_size b)] else [].
Proof. reflexivity. Qed.
Lemma held_s i b id j d : held_storage i (b, PToStorage id j d) = if j =? i then [(id, b_size b)] else [].
Proof. reflexivity. Qed.
Ltac nils P := rewrite ?held_e, ?held_s, ?(fun i b p => held_nil_e i b (PDone p) Logic.I), ?(fun i b p => held_nil_s i b (PDone p) Logic.I),
  ?(fun i b p => held_nil_e i b (PStore p) Logic.I), ?(fun i b p => held_nil_s i b (PStore p) Logic.I),
  ?(fun i b p q r => held_nil_e i b (PToStorage p q r) Logic.I), ?(fun i b p q => held_nil_s i b (PEgress p q) Logic.I) in P; simpl app in P.
Ltac held := intros ?; split; first [apply held_nil_e; exact Logic.I | apply held_nil_s; exact Logic.I].

Lemma fair_thread_step cfg t ok s s' : Inv None s -> Fair s -> thread_step cfg t ok s = On s' -> Fair s'.
Proof.
  intros I F E. unfold thread_step in E. destruct (nth_error (g_threads s) t) as [[b p]|] eqn:HT; [|discriminate].
  assert (OK : pc_ok s p) by (eapply (iv_pc _ _ I); [discriminate|eassumption]).
  assert (FB : b_size b < 2 ^ 63) by exact (iv_fits _ _ I _ _ _ HT).
  destruct p.
  - destruct (b_router b).
    + destruct ok; injection E as <-.
      * eapply fair_goto; [|exact HT|held|held]. intros i a H. simpl. rewrite app_nil_r. exact (F i a H).
      * eapply fair_goto; [exact F|exact HT|held|held].
    + destruct (try_link cfg (g_links s) b && ok); injection E as <-.
      * eapply fair_goto; [|exact HT|held|held]. exact F.
      * eapply fair_goto; [exact F|exact HT|held|held].
  - injection E as <-. assert (G : Fair (goto s t b (PLook (g_next s mod W64)))) by (eapply fair_goto; [exact F|exact HT|held|held]). exact G.
  - destruct (negb ok && negb (b_acks b)); [injection E as <-; eapply fair_goto; [exact F|exact HT|held|held]|].
    destruct (route s (b_dest b) =? U64MAX); [injection E as <-; eapply fair_goto; [exact F|exact HT|held|held]|].
    destruct (vec_at s (route s (b_dest b))) as [a|]; [|discriminate]. injection E as <-.
    destruct (cut_through b a); (eapply fair_goto; [exact F|exact HT|held|held]).
  - destruct OK as (O1 & O2 & V). destruct (vec_at s i) as [a|] eqn:EV; [|discriminate].
    destruct (ok && _); [discriminate|]. destruct (reserve _ true id (b_size b) a) as [a' r] eqn:ER. injection E as <-.
    pose proof (valid_set s i a V EV) as HS. pose proof (iv_sets _ _ I _ _ HS) as SO. destruct (O2 _ _ HS) as (A1 & A2).
    pose proof (reserve_ok _ _ _ _ _ _ _ SO FB A1 A2 ER) as (_ & _ & _ & _ & _ & RC).
    intros j y Hj. rewrite set_at_goto, (set_at_put s i a' a j HS) in Hj. cbn [goto with_threads g_threads g_epend g_spend]. rewrite put_threads, put_epend, put_spend.
    set (p' := match r with ForEgress => PEgress id i | ForStorage => PToStorage id i true | NoRoom => PStore id end) in *.
    pose proof (flat_map_set_nth (held_egress j) t (b, p') (g_threads s) (b, PCut id i) HT) as P1.
    pose proof (flat_map_set_nth (held_storage j) t (b, p') (g_threads s) (b, PCut id i) HT) as P2.
    rewrite (held_nil_e j b (PCut id i) Logic.I) in P1. rewrite (held_nil_s j b (PCut id i) Logic.I) in P2. simpl app in P1, P2. rewrite P1, P2. clear P1 P2.
    destruct (N.eqb_spec i j) as [<-|NE].
    + injection Hj as <-. destruct (F _ _ HS) as (F1 & F2). destruct r; unfold p', held_egress at 1, held_storage at 1; cbn [snd fst]; rewrite ?N.eqb_refl.
      * destruct RC as (-> & -> & _). split; [|exact F2]. rewrite Permutation_app_comm. rewrite <- app_assoc. apply Permutation_app_head. exact F1.
      * destruct RC as (-> & -> & _). split; [exact F1|]. rewrite Permutation_app_comm. rewrite <- app_assoc. apply Permutation_app_head. exact F2.
      * subst a'. auto.
    + destruct (F _ _ Hj) as (F1 & F2). unfold p'. destruct r; unfold held_egress at 1, held_storage at 1; cbn [snd fst]; (destruct (N.eqb_spec i j); [congruence|]); auto.
  - destruct OK as (O1 & O2 & V). destruct (vec_at s i) as [a|] eqn:EV; [|discriminate]. pose proof (valid_set s i a V EV) as HS.
    destruct ok; injection E as <-.
    + intros j y Hj. simpl. change (set_at s j = Some y) in Hj. destruct (F _ _ Hj) as (F1 & F2).
      pose proof (flat_map_set_nth (held_egress j) t (b, PDone (ToEgress i)) (g_threads s) (b, PEgress id i) HT) as P1.
      pose proof (flat_map_set_nth (held_storage j) t (b, PDone (ToEgress i)) (g_threads s) (b, PEgress id i) HT) as P2.
      rewrite sent_app, sent_one. nils P1. nils P2. rewrite P2. split; [|exact F2].
      destruct (i =? j); simpl app in P1.
      * rewrite F1. rewrite <- P1. rewrite app_assoc. rewrite <- Permutation_cons_append. reflexivity.
      * rewrite app_nil_r, P1. exact F1.
    + pose proof (iv_sets _ _ I _ _ HS) as SO. destruct (pop id true a) as [a' k] eqn:EP. pose proof (pop_ok _ _ _ _ _ SO EP) as (_ & _ & _ & _ & _ & E1 & E2 & _).
      cbn [fst]. intros j y Hj. rewrite set_at_goto, (set_at_put s i a' a j HS) in Hj. cbn [goto with_threads g_threads g_epend g_spend]. rewrite put_threads, put_epend, put_spend.
      pose proof (flat_map_set_nth (held_egress j) t (b, PStore id) (g_threads s) (b, PEgress id i) HT) as P1.
      pose proof (flat_map_set_nth (held_storage j) t (b, PStore id) (g_threads s) (b, PEgress id i) HT) as P2.
      nils P1. nils P2. rewrite P2.
      destruct (N.eqb_spec i j) as [<-|NE].
      * injection Hj as <-. destruct (F _ _ HS) as (F1 & F2). rewrite E1, E2. split; [|exact F2].
        rewrite <- P1 in F1. simpl in F1. apply perm_take in F1; [|apply SO]. apply F1.
      * destruct (F _ _ Hj) as (F1 & F2). simpl in P1. rewrite P1. auto.
  - destruct OK as (O1 & O2). destruct (ok && _); [discriminate|].
    destruct (reserve false true id (b_size b) (g_single s)) as [a' r] eqn:ER. injection E as <-.
    assert (HS : set_at s U64MAX = Some (g_single s)) by reflexivity.
    pose proof (iv_sets _ _ I _ _ HS) as SO. destruct (O2 _ _ HS) as (A1 & A2).
    pose proof (reserve_ok _ _ _ _ _ _ _ SO FB A1 A2 ER) as (_ & _ & _ & _ & _ & RC).
    intros j y Hj. rewrite set_at_goto, (set_at_put s U64MAX a' _ j HS) in Hj. cbn [goto with_threads g_threads g_epend g_spend]. rewrite put_threads, put_epend, put_spend.
    set (p' := match r with ForStorage => PToStorage id U64MAX false | _ => PDone NoStorage end) in *.
    pose proof (flat_map_set_nth (held_egress j) t (b, p') (g_threads s) (b, PStore id) HT) as P1.
    pose proof (flat_map_set_nth (held_storage j) t (b, p') (g_threads s) (b, PStore id) HT) as P2.
    rewrite (held_nil_e j b (PStore id) Logic.I) in P1. rewrite (held_nil_s j b (PStore id) Logic.I) in P2. simpl app in P1, P2. rewrite P1, P2. clear P1 P2.
    destruct (N.eqb_spec U64MAX j) as [<-|NE].
    + injection Hj as <-. destruct (F _ _ HS) as (F1 & F2). destruct r; unfold p', held_egress at 1, held_storage at 1; cbn [snd fst]; rewrite ?N.eqb_refl.
      * destruct RC as (_ & _ & _ & _ & _ & X). discriminate.
      * destruct RC as (-> & -> & _). split; [exact F1|]. rewrite Permutation_app_comm. rewrite <- app_assoc. apply Permutation_app_head. exact F2.
      * subst a'. auto.
    + destruct (F _ _ Hj) as (F1 & F2). unfold p'. destruct r; unfold held_egress at 1, held_storage at 1; cbn [snd fst]; auto. destruct (N.eqb_spec U64MAX j); [congruence|]. auto.
  - destruct OK as (O1 & V). destruct (set_at s i) as [a|] eqn:HS; [|discriminate].
    destruct ok; injection E as <-.
    + intros j y Hj. simpl. change (set_at s j = Some y) in Hj. destruct (F _ _ Hj) as (F1 & F2).
      pose proof (flat_map_set_nth (held_egress j) t (b, PDone (ToStorage i dontStore)) (g_threads s) (b, PToStorage id i dontStore) HT) as P1.
      pose proof (flat_map_set_nth (held_storage j) t (b, PDone (ToStorage i dontStore)) (g_threads s) (b, PToStorage id i dontStore) HT) as P2.
      rewrite sent_app, sent_one. nils P1. nils P2. rewrite P1. split; [exact F1|].
      destruct (i =? j); simpl app in P2.
      * rewrite F2. rewrite <- P2. rewrite app_assoc. rewrite <- Permutation_cons_append. reflexivity.
      * rewrite app_nil_r, P2. exact F2.
    + pose proof (iv_sets _ _ I _ _ HS) as SO. destruct (pop id false a) as [a' k] eqn:EP. pose proof (pop_ok _ _ _ _ _ SO EP) as (_ & _ & _ & _ & _ & E1 & E2 & _).
      cbn [fst]. intros j y Hj. rewrite set_at_goto, (set_at_put s i a' a j HS) in Hj. cbn [goto with_threads g_threads g_epend g_spend]. rewrite put_threads, put_epend, put_spend.
      pose proof (flat_map_set_nth (held_egress j) t (b, PDone StorageFailed) (g_threads s) (b, PToStorage id i dontStore) HT) as P1.
      pose proof (flat_map_set_nth (held_storage j) t (b, PDone StorageFailed) (g_threads s) (b, PToStorage id i dontStore) HT) as P2.
      nils P1. nils P2. rewrite P1.
      destruct (N.eqb_spec i j) as [<-|NE].
      * injection Hj as <-. destruct (F _ _ HS) as (F1 & F2). rewrite E1, E2. split; [exact F1|].
        rewrite <- P2 in F2. simpl in F2. apply perm_take in F2; [|apply SO]. apply F2.
      * destruct (F _ _ Hj) as (F1 & F2). simpl in P2. rewrite P2. auto.
  - discriminate.
Qed.

Lemma take_sent id n h r : In (id, n) r -> NoDup (map fst (h ++ r)) -> erase_id id (h ++ r) = h ++ erase_id id r.
Proof.
  intros I ND. rewrite erase_app. f_equal. apply erase_id_id. intros X. rewrite map_app in ND. apply in_split in X. destruct X as (u & v & EU). rewrite EU in ND.
  rewrite <- app_assoc in ND. simpl in ND. apply NoDup_remove_2 in ND. apply ND. apply in_or_app. right. apply in_or_app. right. apply in_map_iff. exists (id, n). auto.
Qed.

Lemma fair_step cfg x s s' : Inv None s -> Fair s -> label_fits x -> honest x s -> step cfg x s = On s' -> Fair s'.
Proof.
  intros I F LF HH E. destruct x; simpl in E, LF, HH.
  - destruct (b_acks b && acks_busy s); [discriminate|]. injection E as <-. intros i a H. destruct (F i a H) as (F1 & F2). simpl. rewrite !flat_map_app.
    cbn [flat_map]. rewrite (held_nil_e i b PStart Logic.I), (held_nil_s i b PStart Logic.I). simpl. rewrite !app_nil_r. auto.
  - eapply fair_thread_step; eauto.
  - destruct (acks_busy s); [discriminate|]. unfold ack_egress in E. destruct (vec_at s i) as [a|] eqn:EV; [|discriminate]. injection E as <-.
    pose proof (vec_not_max _ _ _ (iv_len _ _ I) EV) as V. pose proof (valid_set s i a V EV) as HS. pose proof (iv_sets _ _ I _ _ HS) as SO.
    assert (SO1 : set_ok (if down then set_up false a else a)) by (destruct down; exact SO).
    destruct (pop id true (if down then set_up false a else a)) as [a' k] eqn:EP. pose proof (pop_ok _ _ _ _ _ SO1 EP) as (_ & _ & _ & _ & _ & E1 & E2 & _).
    assert (E1' : a_eg a' = erase_id id (a_eg a)) by (rewrite E1; destruct down; reflexivity).
    assert (E2' : a_st a' = a_st a) by (rewrite E2; destruct down; reflexivity).
    cbn [fst]. intros j y Hj. change (set_at (put_at s i a') j = Some y) in Hj. rewrite (set_at_put s i a' a j HS) in Hj. simpl. rewrite put_threads.
    destruct (N.eqb_spec i j) as [<-|NE].
    + injection Hj as <-. destruct (F _ _ HS) as (F1 & F2). rewrite E1', E2'. split; [|exact F2]. rewrite sent_forget_same. destruct HH as (n & HH). apply sent_in in HH.
      rewrite <- (take_sent id n); [apply erase_perm; exact F1|exact HH|]. eapply Permutation_NoDup; [apply Permutation_map; exact F1|apply SO].
    + rewrite (sent_forget_other id i j) by assumption. exact (F _ _ Hj).
  - destruct (acks_busy s); [discriminate|]. unfold ack_storage in E. destruct (set_at s i) as [a|] eqn:HS; [|discriminate]. injection E as <-.
    pose proof (iv_sets _ _ I _ _ HS) as SO. set (c := error && negb (i =? U64MAX)) in *.
    assert (SO1 : set_ok (if c then set_up false a else a)) by (destruct c; exact SO).
    destruct (pop id false (if c then set_up false a else a)) as [a' k] eqn:EP. pose proof (pop_ok _ _ _ _ _ SO1 EP) as (_ & _ & _ & _ & _ & E1 & E2 & _).
    assert (E1' : a_eg a' = a_eg a) by (rewrite E1; destruct c; reflexivity).
    assert (E2' : a_st a' = erase_id id (a_st a)) by (rewrite E2; destruct c; reflexivity).
    cbn [fst]. intros j y Hj. change (set_at (put_at s i a') j = Some y) in Hj. rewrite (set_at_put s i a' a j HS) in Hj. simpl. rewrite put_threads.
    destruct (N.eqb_spec i j) as [<-|NE].
    + injection Hj as <-. destruct (F _ _ HS) as (F1 & F2). rewrite E1', E2'. split; [exact F1|]. rewrite sent_forget_same. destruct HH as (n & HH). apply sent_in in HH.
      rewrite <- (take_sent id n); [apply erase_perm; exact F2|exact HH|]. eapply Permutation_NoDup; [apply Permutation_map; exact F2|apply SO].
    + rewrite (sent_forget_other id i j) by assumption. exact (F _ _ Hj).
  - destruct (acks_busy s); [discriminate|]. unfold link_event in E. destruct (vec_at s i) as [a|] eqn:EV; [|injection E as <-; exact F]. injection E as <-.
    pose proof (vec_not_max _ _ _ (iv_len _ _ I) EV) as V. pose proof (valid_set s i a V EV) as HS.
    intros j y Hj. rewrite (set_at_put s i (set_up up a) a j HS) in Hj. rewrite put_threads, put_epend, put_spend. destruct (N.eqb_spec i j) as [<-|NE]; [injection Hj as <-; exact (F _ _ HS)|exact (F _ _ Hj)].
  - destruct (acks_busy s || existsb (fun x => holds (snd x)) (g_threads s)) eqn:EB; [discriminate|]. injection E as <-. apply orb_false_elim in EB. destruct EB as (_ & NH).
    pose proof (iv_len _ _ I) as LN.
    destruct (telemetry_sets cfg l s (iv_eids _ _ I) (iv_nodes _ _ I)) as (Y1 & Y2 & YL & YS & YO & YO2 & T1 & T2 & T3 & T4 & _).
    intros i a' X. rewrite T1, T3, T4. unfold set_at in X. destruct (N.eqb_spec i U64MAX) as [->|NE].
    { injection X as <-. destruct YO as (M1 & M2 & _). rewrite M1, M2. exact (F U64MAX _ eq_refl). }
    unfold vec_at in X. destruct (i <? _) eqn:LI; [|discriminate]. destruct (YS _ _ X) as [(a & Ha & (M1 & M2 & _) & _)|(o & Io & _ & -> & EN)].
    + rewrite M1, M2. apply F. rewrite set_at_vec by assumption. unfold vec_at. assert (N.to_nat i < length (g_sets s))%nat by (apply nth_error_Some; congruence). replace (i <? N.of_nat (length (g_sets s))) with true by lia. exact Ha.
    + assert (HE : flat_map (held_egress i) (g_threads s) = [] /\ flat_map (held_storage i) (g_threads s) = []).
      { clear - NH. induction (g_threads s) as [|[b p] l IH]; [auto|]. simpl in NH. apply orb_false_elim in NH. destruct NH as (N1 & N2). destruct (IH N2) as (X1 & X2). simpl. rewrite X1, X2.
        destruct p; simpl in *; try discriminate; auto. }
      destruct HE as (-> & ->). simpl.
      assert (SE : sent_through i (g_epend s) = []).
      { pose proof (iv_epend _ _ I) as P. unfold sent_through. destruct (filter _ _) as [|q r] eqn:EF; [reflexivity|]. assert (IQ : In q (filter (fun p => p_idx p =? i) (g_epend s))) by (rewrite EF; now left).
        apply filter_In in IQ. rewrite Forall_forall in P. destruct (P q (proj1 IQ)) as (_ & PL). rewrite EN in PL. simpl in PL. lia. }
      assert (SS : sent_through i (g_spend s) = []).
      { pose proof (iv_spend _ _ I) as P. unfold sent_through. destruct (filter _ _) as [|q r] eqn:EF; [reflexivity|]. assert (IQ : In q (filter (fun p => p_idx p =? i) (g_spend s))) by (rewrite EF; now left).
        apply filter_In in IQ. destruct IQ as (IQ & QI). apply N.eqb_eq in QI. rewrite Forall_forall in P. destruct (P q IQ) as [PM|(_ & PL)]; [congruence|]. rewrite EN in PL. simpl in PL. lia. }
      rewrite SE, SS. split; constructor.
  - injection E as <-. exact F.
Qed.

Lemma fair_runs cfg tr s s' : honest_runs cfg tr s s' -> Inv None s -> Fair s -> Forall label_fits tr -> g_next s' <= W64 -> Inv None s' /\ Fair s'.
Proof.
  induction 1 as [s|x l s s1 s2 HH E R IH]; intros I F FT L; [auto|]. inversion FT; subst.
  pose proof (runs_next _ _ _ _ (honest_is_run _ _ _ _ R)). apply IH; auto.
  - eapply inv_step; eauto. lia.
  - eapply fair_step; eauto.
Qed.

(** ** Limits *)
Definition within (a : aset) (n b : N) : Prop :=
  N.of_nat (length (a_eg a)) <= n /\ a_egb a <= b /\ N.of_nat (length (a_st a)) <= n /\ a_stb a <= b.
Record Lim (lim : N -> N * N) (cfg : config) (s : state) : Prop := mkLim {
  lm_vec : forall i a, valid s i -> set_at s i = Some a -> (a_max a, a_maxb a) = lim i /\ within a (half (a_max a)) (half (a_maxb a));
  lm_one : a_eg (g_single s) = [] /\ a_max (g_single s) = 10 /\ (a_maxb (g_single s) = 10 \/ a_maxb (g_single s) = c_max cfg * 2) /\
           within (g_single s) 5 (N.max 5 (c_max cfg)) }.
Lemma lim_start lim cfg : Lim lim cfg start.
Proof.
  split.
  - intros i a (_ & V). simpl in V. lia.
  - split; [reflexivity|]. split; [reflexivity|]. split; [now left|]. unfold within. simpl. lia.
Qed.
Lemma erase_length id m : (length (erase_id id m) <= length m)%nat.
Proof. unfold erase_id. induction m as [|e m IH]; cbn [filter]; [simpl; lia|]. destruct (negb (fst e =? id)); simpl; lia. Qed.
Lemma pop_within id eg a n b : set_ok a -> within a n b -> within (fst (pop id eg a)) n b.
Proof.
  intros SO (W1 & W2 & W3 & W4). destruct (pop id eg a) as [a' k] eqn:E. pose proof (pop_ok _ _ _ _ _ SO E) as (_ & _ & _ & _ & _ & E1 & E2 & E3 & E4).
  unfold within. simpl. rewrite E1, E2. pose proof (erase_length id (a_eg a)). pose proof (erase_length id (a_st a)). destruct eg; repeat split; lia.
Qed.
(** Pipelines stay the same or are replaced by something within the same limits. *)
Lemma lim_put lim cfg s i a a' : Lim lim cfg s -> set_at s i = Some a -> a_max a' = a_max a -> a_maxb a' = a_maxb a ->
  (forall n b, within a n b -> n = half (a_max a) -> (i <> U64MAX -> b = half (a_maxb a)) -> (i = U64MAX -> half (a_maxb a) <= b) -> within a' n b) -> (a_eg a = [] -> i = U64MAX -> a_eg a' = []) ->
  N.max 5 (c_max cfg) < 2 ^ 63 -> Lim lim cfg (put_at s i a').
Proof.
  intros [V (O1 & O2 & O3 & O4)] HS M1 M2 W G C. split.
  - intros j y Vj Hj. rewrite valid_put in Vj. rewrite (set_at_put s i a' a j HS) in Hj. destruct (N.eqb_spec i j) as [<-|NE]; [|exact (V _ _ Vj Hj)].
    injection Hj as <-. destruct (V _ _ Vj HS) as (L & X). rewrite M1, M2. split; [exact L|]. apply W; auto. intros ->. destruct Vj. congruence.
  - destruct (N.eqb_spec i U64MAX) as [->|NE].
    + injection HS as <-. unfold put_at. rewrite N.eqb_refl. simpl. rewrite M1, M2. split; [now apply G|]. split; [exact O2|]. split; [exact O3|].
      apply W; auto; [rewrite O2; reflexivity|congruence|]. intros _. rewrite half_le. destruct O3 as [-> | ->]; [change (10 / 2) with 5|rewrite N.div_mul by lia]; lia.
    + unfold put_at. destruct (N.eqb_spec i U64MAX); [congruence|]. simpl. auto.
Qed.
Lemma lim_same lim cfg s s' : Lim lim cfg s -> g_sets s' = g_sets s -> g_single s' = g_single s -> Lim lim cfg s'.
Proof.
  intros [V O] E1 E2. split; [|rewrite E2; exact O]. intros i a Vi Hi. apply V; [unfold valid in *; rewrite E1 in Vi; exact Vi|].
  unfold set_at, vec_at in *. rewrite E1, E2 in Hi. exact Hi.
Qed.
Lemma lim_pending lim cfg s e p : Lim lim cfg s -> Lim lim cfg (with_pending s e p).
Proof. intros L. eapply lim_same; eauto. Qed.
Lemma lim_pop lim cfg s i a id eg c : Lim lim cfg s -> Inv None s -> N.max 5 (c_max cfg) < 2 ^ 63 -> set_at s i = Some a ->
  Lim lim cfg (put_at s i (fst (pop id eg (if c : bool then set_up false a else a)))).
Proof.
  intros L I C HS. pose proof (iv_sets _ _ I _ _ HS) as SO. assert (SO1 : set_ok (if c then set_up false a else a)) by (destruct c; exact SO).
  pose proof (pop_within id eg (if c then set_up false a else a)) as PW.
  destruct (pop id eg (if c then set_up false a else a)) as [a' k] eqn:E. pose proof (pop_ok _ _ _ _ _ SO1 E) as (_ & X1 & X2 & _ & _ & E1 & _).
  cbn [fst] in *. eapply lim_put; eauto.
  - rewrite X1. destruct c; reflexivity.
  - rewrite X2. destruct c; reflexivity.
  - intros n b W _ _ _. apply PW; [exact SO1|]. destruct c; exact W.
  - intros EA _. rewrite E1. destruct c, eg; simpl; rewrite ?EA; reflexivity.
Qed.
Lemma lim_reserve lim cfg s i a id n ce a' r : Lim lim cfg s -> Inv None s -> N.max 5 (c_max cfg) < 2 ^ 63 -> set_at s i = Some a ->
  n < 2 ^ 63 -> absent id s -> (i = U64MAX -> ce = false) -> reserve ce true id n a = (a', r) -> Lim lim cfg (put_at s i a').
Proof.
  intros L I C HS Hn AB CE ER. pose proof (iv_sets _ _ I _ _ HS) as SO. destruct (AB _ _ HS) as (A1 & A2).
  pose proof (reserve_ok _ _ _ _ _ _ _ SO Hn A1 A2 ER) as (_ & M1 & M2 & _ & _ & RC). eapply lim_put; eauto.
  - intros k b (W1 & W2 & W3 & W4) -> HB HB2. assert (BB : half (a_maxb a) <= b). { destruct (N.eq_dec i U64MAX) as [EI|EI]; [auto|]. rewrite HB by assumption. lia. }
    unfold within. destruct r; [destruct RC as (R1 & R2 & R3 & R4 & R5 & _)|destruct RC as (R1 & R2 & R3 & R4 & R5 & _)|subst a'; auto]; rewrite ?R2, ?R5; repeat split; auto; lia.
  - intros EA EI. destruct r; [destruct RC as (_ & _ & _ & _ & _ & R)|destruct RC as (_ & R2 & _)|subst a'; exact EA]; [rewrite (CE EI) in R; discriminate|]. now rewrite R2.
Qed.

Lemma lim_step lim cfg x s s' : Inv None s -> Lim lim cfg s -> N.max 5 (c_max cfg) < 2 ^ 63 -> same_limits lim x -> step cfg x s = On s' -> Lim lim cfg s'.
Proof.
  intros I L C SL E. destruct x; simpl in E, SL.
  - destruct (b_acks b && acks_busy s); [discriminate|]. injection E as <-. eapply lim_same; eauto.
  - unfold thread_step in E. destruct (nth_error (g_threads s) t) as [[b p]|] eqn:HT; [|discriminate].
    assert (OK : pc_ok s p) by (eapply (iv_pc _ _ I); [discriminate|eassumption]).
    assert (FB : b_size b < 2 ^ 63) by exact (iv_fits _ _ I _ _ _ HT).
    assert (GO : forall s1 q, Lim lim cfg s1 -> Lim lim cfg (goto s1 t b q)) by (intros s1 q L1; eapply lim_same; eauto).
    destruct p.
    + destruct (b_router b); [destruct ok|destruct (try_link cfg (g_links s) b && ok)]; injection E as <-; eapply lim_same; eauto.
    + injection E as <-. eapply lim_same; eauto.
    + destruct (negb ok && negb (b_acks b)); [injection E as <-; apply GO; exact L|]. destruct (route s (b_dest b) =? U64MAX); [injection E as <-; apply GO; exact L|].
      destruct (vec_at s (route s (b_dest b))); [|discriminate]. injection E as <-. apply GO; exact L.
    + destruct OK as (O1 & O2 & V). destruct (vec_at s i) as [a|] eqn:EV; [|discriminate]. destruct (ok && _); [discriminate|].
      destruct (reserve _ true id (b_size b) a) as [a' r] eqn:ER. injection E as <-. apply GO. pose proof (valid_set s i a V EV) as HS. refine (lim_reserve lim cfg s i a id (b_size b) _ a' r L I C HS FB O2 _ ER). intros ->. destruct V. congruence.
    + destruct OK as (O1 & O2 & V). destruct (vec_at s i) as [a|] eqn:EV; [|discriminate]. destruct ok; injection E as <-; [eapply lim_same; eauto|]. apply GO.
      apply (lim_pop lim cfg s i a id true false); auto. eapply valid_set; eauto.
    + destruct OK as (O1 & O2). destruct (ok && _); [discriminate|]. destruct (reserve false true id (b_size b) (g_single s)) as [a' r] eqn:ER. injection E as <-. apply GO. refine (lim_reserve lim cfg s U64MAX (g_single s) id (b_size b) _ a' r L I C eq_refl FB O2 _ ER). reflexivity.
    + destruct OK as (O1 & V). destruct (set_at s i) as [a|] eqn:HS; [|discriminate]. destruct ok; injection E as <-; [eapply lim_same; eauto|]. apply GO. apply (lim_pop lim cfg s i a id false false); auto.
    + discriminate.
  - destruct (acks_busy s); [discriminate|]. unfold ack_egress in E. destruct (vec_at s i) as [a|] eqn:EV; [|discriminate]. injection E as <-.
    apply lim_pending. apply lim_pop; auto. eapply valid_set; eauto. eapply vec_not_max; eauto. apply I.
  - destruct (acks_busy s); [discriminate|]. unfold ack_storage in E. destruct (set_at s i) as [a|] eqn:HS; [|discriminate]. injection E as <-.
    apply lim_pending. apply lim_pop; auto.
  - destruct (acks_busy s); [discriminate|]. unfold link_event in E. destruct (vec_at s i) as [a|] eqn:EV; [|injection E as <-; exact L]. injection E as <-.
    pose proof (valid_set s i a (vec_not_max _ _ _ (iv_len _ _ I) EV) EV) as HS. apply (lim_put lim cfg s i a (set_up up a)); auto.
  - destruct (acks_busy s || existsb (fun x => holds (snd x)) (g_threads s)) eqn:EB; [discriminate|]. injection E as <-.
    destruct (telemetry_sets cfg l s (iv_eids _ _ I) (iv_nodes _ _ I)) as (Y1 & Y2 & YL & YS & YO & YO2 & _).
    destruct L as [V (O1 & O2 & O3 & O4)]. split.
    + intros i a' Vi X. rewrite set_at_vec in X by apply Vi. unfold vec_at in X. destruct (i <? _) eqn:LI; [|discriminate].
      destruct (YS _ _ X) as [(a & Ha & (M1 & M2 & M3 & M4) & _ & LM)|(o & Io & TI & -> & EN)].
      * assert (Vs : valid s i). { split; [apply Vi|]. assert (N.to_nat i < length (g_sets s))%nat by (apply nth_error_Some; congruence). lia. }
        destruct (V i a Vs) as (LE & W). { rewrite set_at_vec by apply Vs. unfold vec_at. replace (i <? N.of_nat (length (g_sets s))) with true by (destruct Vs; lia). exact Ha. }
        assert (EQ : a_max a' = a_max a /\ a_maxb a' = a_maxb a). { destruct LM as [LM|(o & Io & TI & X1 & X2)]; [exact LM|]. rewrite Forall_forall in SL. specialize (SL o Io). rewrite TI, N2Nat.id in SL. rewrite <- LE in SL. injection SL as S1 S2. split; congruence. }
        destruct EQ as (-> & ->). split; [exact LE|]. unfold within in *. rewrite M1, M2, M3, M4. exact W.
      * rewrite Forall_forall in SL. specialize (SL o Io). rewrite TI, N2Nat.id in SL. split; [exact SL|]. unfold within. simpl. lia.
    + destruct YO as (M1 & M2 & M3 & M4). unfold within. rewrite M1, M2, M3, M4. split; [exact O1|].
      destruct YO2 as [-> | ->]; simpl; split; auto; split; auto; try exact O4. right. apply N.mod_small. unfold W64. lia.
  - injection E as <-. eapply lim_same; eauto.
Qed.
Lemma lim_runs lim cfg tr s s' : runs cfg tr s s' -> Inv None s -> Lim lim cfg s -> N.max 5 (c_max cfg) < 2 ^ 63 -> Forall label_fits tr -> Forall (same_limits lim) tr -> g_next s' <= W64 -> Lim lim cfg s'.
Proof.
  induction 1 as [s|x l s s1 s2 E R IH]; intros I L C F SL N; [exact L|]. inversion F; subst. inversion SL; subst. pose proof (runs_next _ _ _ _ R). apply IH; auto.
  - eapply inv_step; eauto. lia.
  - eapply lim_step; eauto.
Qed.
