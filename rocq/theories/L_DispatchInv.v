(** Invariants for C51. *)
From Coq Require Import NArith List Bool Lia ZifyBool ZifyN Permutation PeanoNat.
From Verif Require Import Base M_Ingress M_Dispatch S_Dispatch L_Dispatch.
Import ListNotations.
Open Scope N_scope.

(** ** Telemetry *)
Definition same_maps (a a' : aset) : Prop := a_eg a' = a_eg a /\ a_st a' = a_st a /\ a_egb a' = a_egb a /\ a_stb a' = a_stb a.
Definition below (n : N) {A} (l : list (A * N)) : Prop := Forall (fun e => snd e < n) l.
Lemma below_map {A} (n k : N) (l : list A) : k < n -> below n (rev (map (fun e => (e, k)) l)).
Proof. intros H. unfold below. apply Forall_rev. induction l; simpl; constructor; auto. Qed.
Lemma below_mono {A} n m (l : list (A * N)) : n <= m -> below n l -> below m l.
Proof. intros H. unfold below. apply Forall_impl. intros. lia. Qed.
Definition new_of (o : outduct) : aset := new_set (t_max o) (t_maxb o) (t_hop o) false.

Lemma telem_initial l : forall sets eids nodes sets' eids' nodes' fine,
  telem_loop true (N.of_nat (length sets)) l sets eids nodes = (sets', eids', nodes', fine) ->
  below (N.of_nat (length sets)) eids -> below (N.of_nat (length sets)) nodes ->
  exists k r, l = k ++ r /\ sets' = sets ++ map new_of k /\ (fine = true -> r = []) /\
    (forall n o, nth_error k n = Some o -> t_idx o = N.of_nat (length sets + n)) /\
    below (N.of_nat (length sets')) eids' /\ below (N.of_nat (length sets')) nodes'.
Proof.
  induction l as [|o l IH]; intros sets eids nodes sets' eids' nodes' fine E B1 B2; simpl in E.
  - injection E as <- <- <- <-. exists [], []. simpl. rewrite app_nil_r. repeat split; auto. intros [|n] o; discriminate.
  - destruct (N.eqb_spec (t_idx o) (N.of_nat (length sets))) as [EI|EI]; simpl in E.
    + replace (N.of_nat (length sets) + 1) with (N.of_nat (length (sets ++ [new_set (t_max o) (t_maxb o) (t_hop o) false]))) in E
        by (rewrite app_length; simpl; lia).
      apply IH in E.
      * destruct E as (k & r & -> & -> & F & X & Y1 & Y2). exists (o :: k), r. split; [reflexivity|]. split; [rewrite <- app_assoc; reflexivity|].
        split; [exact F|]. split; [|auto]. intros [|n] o' Hn; simpl in Hn.
        -- injection Hn as <-. rewrite EI. f_equal. lia.
        -- rewrite (X _ _ Hn). rewrite app_length. simpl. f_equal. lia.
      * apply Forall_app. rewrite app_length. simpl. split; [apply below_map; lia|]. eapply below_mono; [|exact B1]. lia.
      * apply Forall_app. rewrite app_length. simpl. split; [apply below_map; lia|]. eapply below_mono; [|exact B2]. lia.
    + injection E as <- <- <- <-. exists [], (o :: l). simpl. rewrite app_nil_r. repeat split; auto; try discriminate. intros [|n] o'; discriminate.
Qed.

Lemma telem_later l : forall e sets eids nodes sets' eids' nodes' fine,
  telem_loop false e l sets eids nodes = (sets', eids', nodes', fine) ->
  e + N.of_nat (length l) <= N.of_nat (length sets) ->
  below (N.of_nat (length sets)) eids -> below (N.of_nat (length sets)) nodes ->
  length sets' = length sets /\
  (forall n a', nth_error sets' n = Some a' -> exists a, nth_error sets n = Some a /\ same_maps a a' /\ a_up a' = a_up a /\
     ((a_max a' = a_max a /\ a_maxb a' = a_maxb a) \/ exists o, In o l /\ t_idx o = N.of_nat n /\ a_max a' = t_max o /\ a_maxb a' = t_maxb o)) /\
  below (N.of_nat (length sets)) eids' /\ below (N.of_nat (length sets)) nodes'.
Proof.
  induction l as [|o l IH]; intros e sets eids nodes sets' eids' nodes' fine E L B1 B2; simpl in E.
  - injection E as <- <- <- <-. split; [reflexivity|]. split; [|auto]. intros n a' H. exists a'. unfold same_maps. auto 10.
  - destruct (N.eqb_spec (t_idx o) e) as [EI|EI]; simpl in E.
    + destruct (nth_error sets (N.to_nat e)) as [a0|] eqn:EN; [|apply nth_error_None in EN; simpl in L; lia].
      apply IH in E.
      * rewrite set_nth_length in E. destruct E as (E1 & E2 & E3 & E4). split; [exact E1|]. split; [|auto].
        intros n a' H. destruct (E2 n a' H) as (a & HA & M & U & X).
        destruct (Nat.eq_dec (N.to_nat e) n) as [<-|NE].
        -- rewrite (set_nth_same _ _ _ _ EN) in HA. injection HA as <-. exists a0. split; [exact EN|].
           unfold same_maps, update in *; simpl in *. split; [tauto|]. split; [tauto|]. right.
           destruct X as [(X1 & X2)|(o' & I1 & I2 & X1 & X2)].
           ++ exists o. split; [now left|]. split; [lia|]. auto.
           ++ exists o'. split; [now right|]. auto.
        -- rewrite set_nth_other in HA by assumption. exists a. split; [exact HA|]. split; [exact M|]. split; [exact U|].
           destruct X as [X|(o' & I1 & X)]; [now left|]. right. exists o'. split; [now right|exact X].
      * rewrite set_nth_length. simpl in L. lia.
      * rewrite set_nth_length. apply Forall_app. split; [apply below_map; simpl in L; lia|exact B1].
      * rewrite set_nth_length. apply Forall_app. split; [apply below_map; simpl in L; lia|exact B2].
    + injection E as <- <- <- <-. split; [reflexivity|]. split; [|auto]. intros n a' H. exists a'. unfold same_maps. auto 10.
Qed.

(** What telemetry does to the pipelines. *)
Lemma telemetry_sets cfg l s : below (N.of_nat (length (g_sets s))) (g_eids s) -> below (N.of_nat (length (g_sets s))) (g_nodes s) ->
  let s' := telemetry cfg l s in
  below (N.of_nat (length (g_sets s'))) (g_eids s') /\ below (N.of_nat (length (g_sets s'))) (g_nodes s') /\
  (length (g_sets s) <= length (g_sets s') <= Nat.max (length (g_sets s)) (length l))%nat /\
  (forall n a', nth_error (g_sets s') n = Some a' ->
     (exists a, nth_error (g_sets s) n = Some a /\ same_maps a a' /\ a_up a' = a_up a /\
       ((a_max a' = a_max a /\ a_maxb a' = a_maxb a) \/ exists o, In o l /\ t_idx o = N.of_nat n /\ a_max a' = t_max o /\ a_maxb a' = t_maxb o)) \/
     (exists o, In o l /\ t_idx o = N.of_nat n /\ a' = new_of o /\ g_sets s = [])) /\
  same_maps (g_single s) (g_single s') /\
  (g_single s' = g_single s \/ g_single s' = update 10 (c_max cfg * 2 mod W64) U64MAX false (g_single s)) /\
  g_threads s' = g_threads s /\ g_next s' = g_next s /\ g_epend s' = g_epend s /\ g_spend s' = g_spend s /\ g_egress s' = g_egress s /\
  g_storage s' = g_storage s /\ g_onlink s' = g_onlink s.
Proof.
  intros B1 B2. cbv zeta. unfold telemetry.
  match goal with |- context [if ?c then _ else _] => destruct c eqn:C end.
  { split; [exact B1|]. split; [exact B2|]. split; [lia|]. split; [|unfold same_maps; auto 20].
    intros n a' H. left. exists a'. unfold same_maps. auto 10. }
  apply orb_false_elim in C. destruct C as [C0 C].
  assert (SM : forall c, same_maps (g_single s) (if c : bool then update 10 (c_max cfg * 2 mod W64) U64MAX false (g_single s) else g_single s)).
  { intros []; unfold same_maps, update; simpl; auto. }
  destruct (g_sets s) as [|a0 r0] eqn:ES.
  - destruct (telem_loop true 0 l [] [] []) as [[[sets eids] nodes] fine] eqn:E.
    change 0 with (N.of_nat (length (@nil aset))) in E. apply telem_initial in E; [|constructor..].
    destruct E as (k & r & -> & -> & F & X & Y1 & Y2). simpl in *.
    split; [exact Y1|]. split; [exact Y2|]. split; [rewrite map_length, app_length; lia|]. split.
    + intros n a' H. right. rewrite nth_error_map in H. destruct (nth_error k n) as [o|] eqn:EN; [|discriminate].
      injection H as <-. exists o. split; [apply in_or_app; left; eapply nth_error_In; eassumption|]. split; [exact (X _ _ EN)|auto].
    + split; [apply SM|]. split; [|auto 20]. destruct (fine && negb (g_init s)); auto.
  - cbn [negb andb] in C. apply negb_false_iff, Nat.eqb_eq in C.
    destruct (telem_loop false 0 l (a0 :: r0) [] []) as [[[sets eids] nodes] fine] eqn:E.
    apply telem_later in E; [|rewrite C; lia|constructor..].
    destruct E as (L & X & Y1 & Y2). cbn [g_sets g_eids g_nodes g_single g_threads g_next g_epend g_spend g_egress g_storage g_onlink].
    rewrite L. split; [exact Y1|]. split; [exact Y2|]. split; [lia|]. split.
    + intros n a' H. left. exact (X n a' H).
    + split; [apply SM|]. split; [|auto 20]. destruct (fine && negb (g_init s)); auto.
Qed.

(** ** The invariant that needs no honest acks *)
Definition absent (id : N) (s : state) : Prop := forall i a, set_at s i = Some a -> ~ In id (keys_e a) /\ ~ In id (keys_s a).
Definition only_egress (id i : N) (s : state) : Prop :=
  forall j a, set_at s j = Some a -> ~ In id (keys_s a) /\ (j <> i -> ~ In id (keys_e a)).
Definition valid (s : state) (i : N) : Prop := i <> U64MAX /\ i < N.of_nat (length (g_sets s)).
Definition valid_or_max (s : state) (i : N) : Prop := i = U64MAX \/ valid s i.
Definition pc_id (p : pc) : option N :=
  match p with PLook id | PCut id _ | PEgress id _ | PStore id | PToStorage id _ _ => Some id | _ => None end.
Definition pc_ok (s : state) (p : pc) : Prop :=
  match p with
  | PLook id => id < g_next s /\ absent id s
  | PCut id i => id < g_next s /\ absent id s /\ valid s i
  | PEgress id i => id < g_next s /\ only_egress id i s /\ valid s i
  | PStore id => id < g_next s /\ absent id s
  | PToStorage id i _ => id < g_next s /\ valid_or_max s i
  | _ => True
  end.
(** [ex] = a thread that need not be in order. *)
Record Inv (ex : option nat) (s : state) : Prop := mkInv {
  iv_len : N.of_nat (length (g_sets s)) < 2 ^ 63;
  iv_sets : forall i a, set_at s i = Some a -> set_ok a;
  iv_keys : forall i a id, set_at s i = Some a -> In id (keys_e a) \/ In id (keys_s a) -> id < g_next s;
  iv_fits : forall t b p, nth_error (g_threads s) t = Some (b, p) -> bundle_fits b;
  iv_pc : forall t b p, ex <> Some t -> nth_error (g_threads s) t = Some (b, p) -> pc_ok s p;
  iv_distinct : forall t t' b p b' p' id, nth_error (g_threads s) t = Some (b, p) -> nth_error (g_threads s) t' = Some (b', p') ->
    pc_id p = Some id -> pc_id p' = Some id -> t = t';
  iv_idlt : forall t b p id, nth_error (g_threads s) t = Some (b, p) -> pc_id p = Some id -> id < g_next s;
  iv_eids : below (N.of_nat (length (g_sets s))) (g_eids s);
  iv_nodes : below (N.of_nat (length (g_sets s))) (g_nodes s);
  iv_epend : Forall (fun p => valid s (p_idx p)) (g_epend s);
  iv_spend : Forall (fun p => valid_or_max s (p_idx p)) (g_spend s) }.

Lemma start_set i a : set_at start i = Some a -> a = g_single start.
Proof.
  unfold set_at. destruct (i =? U64MAX); [intros [= <-]; reflexivity|]. unfold vec_at. change (N.of_nat (length (g_sets start))) with 0.
  replace (i <? 0) with false by lia. discriminate.
Qed.
Lemma inv_start : Inv None start.
Proof.
  split.
  - reflexivity.
  - intros i a H. apply start_set in H. subst a. repeat split; try constructor.
  - intros i a id H. apply start_set in H. subst a. intros [[]|[]].
  - intros [|t]; discriminate.
  - intros [|t]; discriminate.
  - intros [|t]; discriminate.
  - intros [|t]; discriminate.
  - constructor.
  - constructor.
  - constructor.
  - constructor.
Qed.

Lemma inv_weaken t s : Inv None s -> Inv (Some t) s.
Proof. intros [A B C D E F G H I J K]. split; auto. intros t' b p _ X. eapply E; [discriminate|exact X]. Qed.

Lemma valid_put s i a j : valid (put_at s i a) j <-> valid s j.
Proof. unfold valid. rewrite put_length. reflexivity. Qed.

Definition keys_within (id : N) (a a' : aset) : Prop :=
  (forall x, In x (keys_e a') -> In x (keys_e a) \/ x = id) /\ (forall x, In x (keys_s a') -> In x (keys_s a) \/ x = id).
Lemma absent_put x id s i a a' : absent x s -> set_at s i = Some a -> keys_within id a a' -> x <> id -> absent x (put_at s i a').
Proof.
  intros A H (K1 & K2) N j b Hj. rewrite (set_at_put s i a' a j H) in Hj. destruct (N.eqb_spec i j) as [<-|NE].
  - injection Hj as <-. destruct (A i a H) as [A1 A2]. split; intros I; [apply K1 in I|apply K2 in I]; tauto.
  - exact (A j b Hj).
Qed.
Lemma only_put x k id s i a a' : only_egress x k s -> set_at s i = Some a -> keys_within id a a' -> x <> id -> only_egress x k (put_at s i a').
Proof.
  intros A H (K1 & K2) N j b Hj. rewrite (set_at_put s i a' a j H) in Hj. destruct (N.eqb_spec i j) as [<-|NE].
  - injection Hj as <-. destruct (A i a H) as [A1 A2]. split; [intros I; apply K2 in I; tauto|]. intros NJ I. apply K1 in I. specialize (A2 NJ). tauto.
  - exact (A j b Hj).
Qed.
Lemma pc_ok_put s i a a' id p : pc_ok s p -> (forall x, pc_id p = Some x -> x <> id) -> set_at s i = Some a -> keys_within id a a' -> pc_ok (put_at s i a') p.
Proof.
  intros P X H K. destruct p; simpl in *; auto; unfold valid_or_max; rewrite ?put_next, ?valid_put; try assumption.
  - split; [tauto|]. eapply absent_put; eauto. tauto.
  - split; [tauto|]. split; [|tauto]. eapply absent_put; eauto. tauto.
  - split; [tauto|]. split; [|tauto]. eapply only_put; eauto. tauto.
  - split; [tauto|]. eapply absent_put; eauto. tauto.
Qed.

(** A thread (or none) changes one pipeline. *)
Lemma inv_put t b p id s i a a' : Inv None s -> nth_error (g_threads s) t = Some (b, p) -> pc_id p = Some id ->
  set_at s i = Some a -> set_ok a' -> keys_within id a a' -> Inv (Some t) (put_at s i a').
Proof.
  intros I HT HP HS OK KW. pose proof (iv_idlt _ _ I _ _ _ _ HT HP) as LT. destruct I as [A B C D E F G H II J K].
  split; rewrite ?put_length, ?put_threads, ?put_next, ?put_eids, ?put_nodes, ?put_epend, ?put_spend; auto.
  - intros j x Hj. rewrite (set_at_put s i a' a j HS) in Hj. destruct (i =? j); [injection Hj as <-; exact OK|exact (B _ _ Hj)].
  - intros j x k Hj Hk. rewrite (set_at_put s i a' a j HS) in Hj. destruct (i =? j); [injection Hj as <-|exact (C _ _ _ Hj Hk)].
    destruct KW as (K1 & K2). destruct Hk as [Hk|Hk]; [apply K1 in Hk|apply K2 in Hk]; destruct Hk as [Hk|Hk]; subst; eauto.
  - intros t' b' p' NE HT'. eapply pc_ok_put; eauto; [eapply E; [discriminate|eassumption]|].
    intros x HX ->. apply NE. f_equal. exact (F _ _ _ _ _ _ _ HT HT' HP HX).
  - eapply Forall_impl; [|exact J]. intros q. simpl. rewrite valid_put. auto.
  - eapply Forall_impl; [|exact K]. intros q. simpl. unfold valid_or_max. rewrite valid_put. auto.
Qed.
(** An ack, or a link event: keys only go. *)
Lemma inv_put_less s i a a' : Inv None s -> set_at s i = Some a -> set_ok a' ->
  (forall x, In x (keys_e a') -> In x (keys_e a)) -> (forall x, In x (keys_s a') -> In x (keys_s a)) -> Inv None (put_at s i a').
Proof.
  intros [A B C D E F G H II J K] HS OK K1 K2.
  split; rewrite ?put_length, ?put_threads, ?put_next, ?put_eids, ?put_nodes, ?put_epend, ?put_spend; auto.
  - intros j x Hj. rewrite (set_at_put s i a' a j HS) in Hj. destruct (i =? j); [injection Hj as <-; exact OK|exact (B _ _ Hj)].
  - intros j x k Hj Hk. rewrite (set_at_put s i a' a j HS) in Hj. destruct (i =? j); [injection Hj as <-|exact (C _ _ _ Hj Hk)].
    destruct Hk as [Hk|Hk]; [apply K1 in Hk|apply K2 in Hk]; eauto.
  - intros t b p _ HT. assert (P : pc_ok s p) by (eapply E; [discriminate|eassumption]).
    assert (AB : forall x, absent x s -> absent x (put_at s i a')).
    { intros x AX j y Hj. rewrite (set_at_put s i a' a j HS) in Hj. destruct (i =? j); [injection Hj as <-|exact (AX _ _ Hj)].
      destruct (AX _ _ HS). split; intros Z; [apply K1 in Z|apply K2 in Z]; tauto. }
    destruct p; simpl in *; auto; unfold valid_or_max; rewrite ?put_next, ?valid_put; try assumption.
    1: (split; [tauto|apply AB; tauto]). 1: (split; [tauto|]; split; [apply AB|]; tauto). 2: (split; [tauto|apply AB; tauto]).
    split; [tauto|]. split; [|tauto]. destruct P as (_ & P & _). intros j y Hj. rewrite (set_at_put s i a' a j HS) in Hj.
    destruct (N.eqb_spec i j) as [<-|NE]; [injection Hj as <-|exact (P _ _ Hj)]. destruct (P _ _ HS) as [P1 P2]. split; [auto|]. intros NJ Z. apply (P2 NJ). auto.
  - eapply Forall_impl; [|exact J]. intros q. simpl. rewrite valid_put. auto.
  - eapply Forall_impl; [|exact K]. intros q. simpl. unfold valid_or_max. rewrite valid_put. auto.
Qed.

(** The thread goes on. *)
Lemma inv_goto t b p p' s : Inv (Some t) s -> nth_error (g_threads s) t = Some (b, p) ->
  (forall x, pc_id p' = Some x -> pc_id p = Some x) -> pc_ok s p' -> Inv None (goto s t b p').
Proof.
  intros [A B C D E F G H I J K] HT HP OK.
  assert (TH : forall t' b' q, nth_error (set_nth t (b, p') (g_threads s)) t' = Some (b', q) ->
    (t' = t /\ b' = b /\ q = p') \/ (t' <> t /\ nth_error (g_threads s) t' = Some (b', q))).
  { intros t' b' q X. destruct (Nat.eq_dec t t') as [<-|NE]; [rewrite (set_nth_same _ _ _ _ HT) in X; injection X as <- <-; auto|].
    rewrite set_nth_other in X by assumption. right. auto. }
  split; auto; simpl.
  - intros t' b' q X. destruct (TH _ _ _ X) as [(-> & -> & ->)|(NE & X')]; eauto.
  - intros t' b' q _ X. destruct (TH _ _ _ X) as [(-> & -> & ->)|(NE & X')]; [exact OK|]. eapply (E t'); [congruence|exact X'].
  - intros t1 t2 b1 q1 b2 q2 id X1 X2 Y1 Y2.
    destruct (TH _ _ _ X1) as [(-> & -> & ->)|(N1 & X1')], (TH _ _ _ X2) as [(-> & -> & ->)|(N2 & X2')]; auto.
    + eapply F; eauto.
    + eapply F; eauto.
    + eapply F; eauto.
  - intros t' b' q id X Y. destruct (TH _ _ _ X) as [(-> & -> & ->)|(NE & X')]; eauto.
Qed.

Lemma inv_send_egress ex s m l n : Inv ex s -> Forall (fun p => valid s (p_idx p)) l -> Inv ex (send_egress s m l n).
Proof. intros [A B C D E F G H I J K] HL. split; auto. simpl. apply Forall_app. split; assumption. Qed.
Lemma inv_send_storage ex s m n : Inv ex s -> valid_or_max s (s_idx m) -> Inv ex (send_storage s m n).
Proof. intros [A B C D E F G H I J K] HL. split; auto. simpl. apply Forall_app. split; [assumption|]. constructor; [exact HL|constructor]. Qed.
Lemma inv_send_link ex s t : Inv ex s -> Inv ex (send_link s t).
Proof. intros [A B C D E F G H I J K]. split; auto. Qed.

Lemma reserve_within ce cs id n a a' r : set_ok a -> n < 2 ^ 63 -> ~ In id (keys_e a) -> ~ In id (keys_s a) -> reserve ce cs id n a = (a', r) ->
  keys_within id a a'.
Proof.
  intros K Hn H1 H2 E. apply reserve_ok in E; auto. destruct E as (_ & _ & _ & _ & _ & E). unfold keys_within, keys_e, keys_s. destruct r.
  - destruct E as (-> & -> & _). split; [|auto]. intros x I. rewrite map_app in I. apply in_app_or in I. simpl in I. intuition congruence.
  - destruct E as (-> & -> & _). split; [auto|]. intros x I. rewrite map_app in I. apply in_app_or in I. simpl in I. intuition congruence.
  - subst. auto.
Qed.
Lemma pop_less id eg a : set_ok a ->
  (forall x, In x (keys_e (fst (pop id eg a))) -> In x (keys_e a)) /\ (forall x, In x (keys_s (fst (pop id eg a))) -> In x (keys_s a)).
Proof.
  intros K. destruct (pop id eg a) as [a' ok] eqn:E. apply pop_ok in E; auto. destruct E as (_ & _ & _ & _ & _ & E1 & E2 & _).
  unfold keys_e, keys_s. simpl. rewrite E1, E2. destruct eg; split; auto; intros x I; apply erase_id_keys in I; tauto.
Qed.

(** A thread that waits does not hold a reservation; what it reserves it then holds. *)
Lemma only_after_reserve id i s a a' n : absent id s -> set_at s i = Some a -> a_eg a' = a_eg a ++ [(id, n)] -> a_st a' = a_st a ->
  only_egress id i (put_at s i a').
Proof.
  intros A H E1 E2 j b Hj. rewrite (set_at_put s i a' a j H) in Hj. destruct (N.eqb_spec i j) as [<-|NE].
  - injection Hj as <-. unfold keys_s. rewrite E2. destruct (A _ _ H). split; [assumption|congruence].
  - destruct (A _ _ Hj). auto.
Qed.
Lemma absent_after_pop id i s a : only_egress id i s -> set_at s i = Some a -> set_ok a -> absent id (put_at s i (fst (pop id true a))).
Proof.
  intros A H K j b Hj. destruct (pop id true a) as [a' ok] eqn:E. apply pop_ok in E; auto. destruct E as (_ & _ & _ & _ & _ & E1 & E2 & _).
  simpl in Hj. rewrite (set_at_put s i a' a j H) in Hj. destruct (N.eqb_spec i j) as [<-|NE].
  - injection Hj as <-. unfold keys_e, keys_s. rewrite E1, E2. destruct (A _ _ H). split; [|assumption]. intros I. apply erase_id_keys in I. tauto.
  - destruct (A _ _ Hj). auto.
Qed.

Lemma valid_set s i a : valid s i -> vec_at s i = Some a -> set_at s i = Some a.
Proof. intros (H & _) E. rewrite set_at_vec by assumption. exact E. Qed.
Lemma route_valid s d : Inv None s -> route s d <> U64MAX -> valid s (route s d).
Proof.
  intros I H. split; [exact H|]. unfold route in *. destruct (find _ (g_eids s)) as [e|] eqn:E.
  - apply find_some in E. pose proof (iv_eids _ _ I) as F. unfold below in F. rewrite Forall_forall in F. apply F. tauto.
  - destruct (find _ (g_nodes s)) as [e|] eqn:E2; [|congruence].
    apply find_some in E2. pose proof (iv_nodes _ _ I) as F. unfold below in F. rewrite Forall_forall in F. apply F. tauto.
Qed.

Lemma inv_thread_step cfg t ok s s' : Inv None s -> g_next s' <= W64 -> thread_step cfg t ok s = On s' -> Inv None s'.
Proof.
  intros I LT E. unfold thread_step in E. destruct (nth_error (g_threads s) t) as [[b p]|] eqn:HT; [|discriminate].
  assert (OK : pc_ok s p) by (eapply (iv_pc _ _ I); [discriminate|eassumption]).
  assert (FB : b_size b < 2 ^ 63) by exact (iv_fits _ _ I _ _ _ HT).
  pose proof (inv_weaken t _ I) as IW.
  destruct p.
  - destruct (b_router b).
    + destruct ok; injection E as <-.
      * eapply inv_goto; [apply inv_send_egress; [exact IW|constructor]|exact HT|discriminate|exact Logic.I].
      * eapply inv_goto; [exact IW|exact HT|discriminate|exact Logic.I].
    + destruct (try_link cfg (g_links s) b && ok); injection E as <-.
      * eapply inv_goto; [apply inv_send_link; exact IW|exact HT|discriminate|exact Logic.I].
      * eapply inv_goto; [exact IW|exact HT|discriminate|exact Logic.I].
  - injection E as <-. simpl in LT. rewrite N.mod_small by (unfold W64 in *; lia).
    destruct I as [A B C D EE F G H J K L].
    assert (TH : forall t' b' q, nth_error (set_nth t (b, PLook (g_next s)) (g_threads s)) t' = Some (b', q) ->
      (t' = t /\ b' = b /\ q = PLook (g_next s)) \/ (t' <> t /\ nth_error (g_threads s) t' = Some (b', q))).
    { intros t' b' q X. destruct (Nat.eq_dec t t') as [<-|NE]; [rewrite (set_nth_same _ _ _ _ HT) in X; injection X as <- <-; auto|].
      rewrite set_nth_other in X by assumption. right. auto. }
    split; auto; simpl.
    + intros i a id Hi Hk. specialize (C i a id Hi Hk). lia.
    + intros t' b' q X. destruct (TH _ _ _ X) as [(-> & -> & ->)|(NE & X')]; eauto.
    + intros t' b' q _ X. destruct (TH _ _ _ X) as [(-> & -> & ->)|(NE & X')].
      * simpl. split; [lia|]. intros i a Hi. split; intros Z; [specialize (C i a _ Hi (or_introl Z))|specialize (C i a _ Hi (or_intror Z))]; lia.
      * assert (P : pc_ok s q) by (eapply (EE t'); [discriminate|exact X']).
        destruct q; simpl in *; auto.
        -- destruct P as (P1 & P2). split; [lia|exact P2].
        -- destruct P as (P1 & P2 & P3). split; [lia|]. split; [exact P2|exact P3].
        -- destruct P as (P1 & P2 & P3). split; [lia|]. split; [exact P2|exact P3].
        -- destruct P as (P1 & P2). split; [lia|exact P2].
        -- destruct P as (P1 & P2). split; [lia|exact P2].
    + intros t1 t2 b1 q1 b2 q2 id X1 X2 Y1 Y2.
      destruct (TH _ _ _ X1) as [(-> & -> & ->)|(N1 & X1')], (TH _ _ _ X2) as [(-> & -> & ->)|(N2 & X2')]; auto.
      * injection Y1 as <-. pose proof (G _ _ _ _ X2' Y2). lia.
      * injection Y2 as <-. pose proof (G _ _ _ _ X1' Y1). lia.
      * eapply F; eauto.
    + intros t' b' q id X Y. destruct (TH _ _ _ X) as [(-> & -> & ->)|(NE & X')]; [injection Y as <-; lia|].
      pose proof (G _ _ _ _ X' Y). lia.
  - destruct OK as (O1 & O2). destruct (negb ok && negb (b_acks b)).
    { injection E as <-. eapply inv_goto; [exact IW|exact HT|discriminate|exact Logic.I]. }
    destruct (N.eqb_spec (route s (b_dest b)) U64MAX) as [EM|NM].
    { injection E as <-. eapply inv_goto; [exact IW|exact HT|simpl; auto|simpl; auto]. }
    destruct (vec_at s (route s (b_dest b))) as [a|] eqn:EV; [|discriminate]. injection E as <-.
    pose proof (route_valid s _ I NM) as V. destruct (cut_through b a); (eapply inv_goto; [exact IW|exact HT|simpl; auto|simpl; auto]).
  - destruct OK as (O1 & O2 & V). destruct (vec_at s i) as [a|] eqn:EV; [|discriminate].
    destruct (ok && must_wait (negb (c_priority cfg)) true (b_size b) a); [discriminate|].
    destruct (reserve (negb (c_priority cfg)) true id (b_size b) a) as [a' r] eqn:ER. injection E as <-.
    pose proof (valid_set s i a V EV) as HS. pose proof (iv_sets _ _ I _ _ HS) as SO. destruct (O2 _ _ HS) as (A1 & A2).
    pose proof (reserve_within _ _ _ _ _ _ _ SO FB A1 A2 ER) as KW.
    pose proof (reserve_ok _ _ _ _ _ _ _ SO FB A1 A2 ER) as (RO & _ & _ & _ & _ & RC).
    assert (HT' : nth_error (g_threads (put_at s i a')) t = Some (b, PCut id i)) by (rewrite put_threads; exact HT).
    eapply inv_goto; [eapply (inv_put t b (PCut id i) id s i a a' I HT eq_refl HS RO KW)|exact HT'|destruct r; simpl; auto|].
    destruct r; simpl; rewrite put_next; unfold valid_or_max; rewrite ?valid_put.
    + split; [exact O1|]. split; [|exact V]. destruct RC as (E1 & E2 & _). eapply only_after_reserve; eauto.
    + split; [exact O1|]. right. exact V.
    + split; [exact O1|]. subst a'. intros j y Hj. rewrite (set_at_put s i a a j HS) in Hj. destruct (N.eqb_spec i j) as [<-|NE]; [injection Hj as <-; eapply O2; exact HS|eapply O2; exact Hj].
  - destruct OK as (O1 & O2 & V). destruct (vec_at s i) as [a|] eqn:EV; [|discriminate]. pose proof (valid_set s i a V EV) as HS.
    destruct ok; injection E as <-.
    + eapply inv_goto; [apply inv_send_egress; [exact IW|constructor; [exact V|constructor]]|exact HT|discriminate|exact Logic.I].
    + pose proof (iv_sets _ _ I _ _ HS) as SO. destruct (pop_less id true a SO) as (K1 & K2).
      assert (PO : set_ok (fst (pop id true a))) by (destruct (pop id true a) eqn:EP; exact (proj1 (pop_ok _ _ _ _ _ SO EP))).
      eapply (inv_goto t b (PEgress id i)); [apply inv_weaken; eapply inv_put_less; eauto|rewrite put_threads; exact HT|simpl; auto|].
      simpl. rewrite put_next. split; [exact O1|]. eapply absent_after_pop; eauto.
  - destruct OK as (O1 & O2). destruct (ok && must_wait false true (b_size b) (g_single s)); [discriminate|].
    destruct (reserve false true id (b_size b) (g_single s)) as [a' r] eqn:ER. injection E as <-.
    assert (HS : set_at s U64MAX = Some (g_single s)) by reflexivity.
    pose proof (iv_sets _ _ I _ _ HS) as SO. destruct (O2 _ _ HS) as (A1 & A2).
    pose proof (reserve_within _ _ _ _ _ _ _ SO FB A1 A2 ER) as KW.
    pose proof (reserve_ok _ _ _ _ _ _ _ SO FB A1 A2 ER) as (RO & _ & _ & _ & _ & RC).
    eapply inv_goto; [eapply (inv_put t b (PStore id) id s U64MAX _ a' I HT eq_refl HS RO KW)|rewrite put_threads; exact HT|destruct r; simpl; auto; discriminate|].
    destruct r; simpl; auto. split; [exact O1|]. now left.
  - destruct OK as (O1 & V). destruct (set_at s i) as [a|] eqn:HS; [|discriminate].
    destruct ok; injection E as <-.
    + eapply inv_goto; [apply inv_send_storage; [exact IW|exact V]|exact HT|discriminate|exact Logic.I].
    + pose proof (iv_sets _ _ I _ _ HS) as SO. destruct (pop_less id false a SO) as (K1 & K2).
      assert (PO : set_ok (fst (pop id false a))) by (destruct (pop id false a) eqn:EP; exact (proj1 (pop_ok _ _ _ _ _ SO EP))).
      eapply (inv_goto t b (PToStorage id i dontStore)); [apply inv_weaken; eapply inv_put_less; eauto|rewrite put_threads; exact HT|discriminate|exact Logic.I].
  - discriminate.
Qed.

Lemma set_up_ok up a : set_ok a -> set_ok (set_up up a).
Proof. intros H. exact H. Qed.
Lemma inv_pending s ep sp : Inv None s -> incl ep (g_epend s) -> incl sp (g_spend s) -> Inv None (with_pending s ep sp).
Proof.
  intros [A B C D E F G H I J K] H1 H2. split; auto; simpl.
  - rewrite Forall_forall in *. intros q X. exact (J q (H1 q X)).
  - rewrite Forall_forall in *. intros q X. exact (K q (H2 q X)).
Qed.
Lemma forget_incl id i l : incl (forget id i l) l.
Proof. intros x X. apply filter_In in X. tauto. Qed.
Lemma vec_not_max s i a : N.of_nat (length (g_sets s)) < 2 ^ 63 -> vec_at s i = Some a -> valid s i.
Proof. intros H E. apply vec_lt in E. unfold valid, U64MAX. lia. Qed.
Lemma set_at_valid s i a : N.of_nat (length (g_sets s)) < 2 ^ 63 -> set_at s i = Some a -> valid_or_max s i.
Proof. intros H E. unfold set_at in E. destruct (N.eqb_spec i U64MAX); [now left|right]. eapply vec_not_max; eauto. Qed.

Lemma inv_telemetry cfg l s : Inv None s -> Forall outduct_fits l -> N.of_nat (length l) < 2 ^ 63 -> existsb (fun x => holds (snd x)) (g_threads s) = false ->
  Inv None (telemetry cfg l s).
Proof.
  intros I HF HL NH. pose proof I as [A B C D E F G H J K L].
  destruct (telemetry_sets cfg l s H J) as (Y1 & Y2 & YL & YS & YO & YO2 & T1 & T2 & T3 & T4 & _).
  assert (NT : forall t b p, nth_error (g_threads s) t = Some (b, p) -> holds p = false).
  { intros t b p X. apply nth_error_In in X. destruct (holds p) eqn:EH; [|reflexivity]. rewrite <- NH. symmetry. apply existsb_exists. exists (b, p). auto. }
  assert (SA : forall i a', set_at (telemetry cfg l s) i = Some a' ->
    (exists a, set_at s i = Some a /\ same_maps a a' /\ a_maxb a' < W64) \/ (a_eg a' = [] /\ a_st a' = [] /\ set_ok a')).
  { intros i a' X. unfold set_at in X. destruct (N.eqb_spec i U64MAX) as [->|NE].
    - injection X as <-. left. exists (g_single s). split; [reflexivity|]. split; [exact YO|].
      destruct YO2 as [->| ->]; [apply (B U64MAX); reflexivity|]. simpl. apply N.mod_lt. discriminate.
    - pose proof (vec_lt _ _ _ X) as VL. unfold vec_at in X. destruct (i <? _); [|discriminate].
      destruct (YS _ _ X) as [(a & Ha & M & _ & LM)|(o & Io & _ & -> & _)].
      + left. exists a. assert (SI : set_at s i = Some a).
        { rewrite set_at_vec by assumption. unfold vec_at. assert (N.to_nat i < length (g_sets s))%nat by (apply nth_error_Some; congruence). replace (i <? N.of_nat (length (g_sets s))) with true by lia. exact Ha. }
        split; [exact SI|]. split; [exact M|]. destruct LM as [(_ & ->)|(o & Io & _ & _ & ->)]; [apply (B i); exact SI|]. rewrite Forall_forall in HF. apply HF. exact Io.
      + right. split; [reflexivity|]. split; [reflexivity|]. rewrite Forall_forall in HF. destruct (HF o Io). unfold set_ok, keys_e, keys_s, new_of, new_set, update. simpl.
        repeat split; try constructor; try lia. }
  assert (VV : forall i, valid s i -> valid (telemetry cfg l s) i) by (intros i (V1 & V2); split; [exact V1|lia]).
  split; rewrite ?T1, ?T2, ?T3, ?T4; auto.
  - lia.
  - intros i a' X. destruct (SA i a' X) as [(a & Ha & (M1 & M2 & M3 & M4) & MB)|(_ & _ & X')]; [|exact X'].
    pose proof (B _ _ Ha) as (K1 & K2 & K3 & K4 & K5 & K6 & K7). unfold set_ok, keys_e, keys_s in *. rewrite M1, M2, M3, M4. auto 10.
  - intros i a' id X Hk. destruct (SA i a' X) as [(a & Ha & (M1 & M2 & M3 & M4) & MB)|(E1 & E2 & _)].
    + unfold keys_e, keys_s in Hk. rewrite M1, M2 in Hk. eapply C; eauto.
    + unfold keys_e, keys_s in Hk. rewrite E1, E2 in Hk. destruct Hk as [[]|[]].
  - intros t b p _ X. assert (P : pc_ok s p) by (eapply E; [discriminate|exact X]). pose proof (NT _ _ _ X) as NH'.
    destruct p; simpl in NH'; try discriminate; simpl in *; auto. destruct P as (P1 & P2). rewrite T2. split; [exact P1|].
    intros i a' Y. destruct (SA i a' Y) as [(a & Ha & (M1 & M2 & _) & _)|(E1 & E2 & _)].
    + unfold keys_e, keys_s. rewrite M1, M2. exact (P2 _ _ Ha).
    + unfold keys_e, keys_s. rewrite E1, E2. split; intros [].
  - eapply Forall_impl; [|exact K]. intros q. simpl. apply VV.
  - eapply Forall_impl; [|exact L]. intros q. simpl. intros [V|V]; [now left|right; auto].
Qed.

Lemma inv_step cfg x s s' : Inv None s -> label_fits x -> g_next s' <= W64 -> step cfg x s = On s' -> Inv None s'.
Proof.
  intros I LF LT E. destruct x; simpl in E, LF.
  - destruct (b_acks b && acks_busy s); [discriminate|]. injection E as <-. destruct I as [A B C D E F G H J K L].
    assert (TH : forall t' b' q, nth_error (g_threads s ++ [(b, PStart)]) t' = Some (b', q) ->
      (b' = b /\ q = PStart) \/ nth_error (g_threads s) t' = Some (b', q)).
    { intros t' b' q X. destruct (Nat.lt_ge_cases t' (length (g_threads s))) as [LE|GE].
      - rewrite nth_error_app1 in X by assumption. auto.
      - rewrite nth_error_app2 in X by assumption. destruct (t' - length (g_threads s))%nat as [|k]; simpl in X; [injection X as <- <-; auto|destruct k; discriminate]. }
    split; auto; simpl.
    + intros t b' p X. destruct (TH _ _ _ X) as [(-> & ->)|X']; eauto.
    + intros t b' p _ X. destruct (TH _ _ _ X) as [(-> & ->)|X']; [exact Logic.I|]. eapply (E t); [discriminate|exact X'].
    + intros t t' b1 p1 b2 p2 id X1 X2 Y1 Y2. destruct (TH _ _ _ X1) as [(-> & ->)|X1']; [discriminate|]. destruct (TH _ _ _ X2) as [(-> & ->)|X2']; [discriminate|]. eapply F; eauto.
    + intros t b' p id X Y. destruct (TH _ _ _ X) as [(-> & ->)|X']; [discriminate|eauto].
  - eapply inv_thread_step; eauto.
  - destruct (acks_busy s); [discriminate|]. unfold ack_egress in E. destruct (vec_at s i) as [a|] eqn:EV; [|discriminate]. injection E as <-.
    pose proof (vec_not_max _ _ _ (iv_len _ _ I) EV) as V. pose proof (valid_set s i a V EV) as HS.
    pose proof (iv_sets _ _ I _ _ HS) as SO.
    assert (SO1 : set_ok (if down then set_up false a else a)) by (destruct down; exact SO).
    apply inv_pending; rewrite ?put_epend, ?put_spend; [|apply forget_incl|apply incl_refl].
    destruct (pop_less id true _ SO1) as (K1 & K2).
    eapply inv_put_less; [exact I|exact HS| | |].
    + destruct (pop id true (if down then set_up false a else a)) eqn:EP. exact (proj1 (pop_ok _ _ _ _ _ SO1 EP)).
    + intros x X. apply K1 in X. destruct down; exact X.
    + intros x X. apply K2 in X. destruct down; exact X.
  - destruct (acks_busy s); [discriminate|]. unfold ack_storage in E. destruct (set_at s i) as [a|] eqn:HS; [|discriminate]. injection E as <-.
    pose proof (iv_sets _ _ I _ _ HS) as SO. set (c := error && negb (i =? U64MAX)) in *.
    assert (SO1 : set_ok (if c then set_up false a else a)) by (destruct c; exact SO).
    apply inv_pending; rewrite ?put_epend, ?put_spend; [|apply incl_refl|apply forget_incl].
    destruct (pop_less id false _ SO1) as (K1 & K2).
    eapply inv_put_less; [exact I|exact HS| | |].
    + destruct (pop id false (if c then set_up false a else a)) eqn:EP. exact (proj1 (pop_ok _ _ _ _ _ SO1 EP)).
    + intros x X. apply K1 in X. destruct c; exact X.
    + intros x X. apply K2 in X. destruct c; exact X.
  - destruct (acks_busy s); [discriminate|]. unfold link_event in E. destruct (vec_at s i) as [a|] eqn:EV; [|injection E as <-; exact I]. injection E as <-.
    pose proof (vec_not_max _ _ _ (iv_len _ _ I) EV) as V. pose proof (valid_set s i a V EV) as HS.
    eapply inv_put_less; [exact I|exact HS|exact (iv_sets _ _ I _ _ HS)|auto|auto].
  - destruct (acks_busy s || existsb (fun x => holds (snd x)) (g_threads s)) eqn:EB; [discriminate|]. injection E as <-. apply orb_false_elim in EB.
    apply inv_telemetry; tauto.
  - injection E as <-. destruct I as [A B C D E F G H J K L]. split; auto.
Qed.

Lemma put_goto_next s i a t b p : g_next (goto (put_at s i a) t b p) = g_next s.
Proof. exact (put_next s i a). Qed.
Lemma next_mono cfg x s s' : step cfg x s = On s' -> g_next s <= g_next s'.
Proof.
  destruct x; simpl; intros E.
  - destruct (b_acks b && acks_busy s); [discriminate|]. injection E as <-. simpl. lia.
  - unfold thread_step in E. destruct (nth_error (g_threads s) t) as [[b p]|]; [|discriminate]. destruct p.
    + destruct (b_router b); [destruct ok|destruct (try_link cfg (g_links s) b && ok)]; injection E as <-; simpl; lia.
    + injection E as <-. simpl. lia.
    + destruct (negb ok && negb (b_acks b)); [injection E as <-; simpl; lia|]. destruct (route s (b_dest b) =? U64MAX); [injection E as <-; simpl; lia|].
      destruct (vec_at s (route s (b_dest b))); [|discriminate]. injection E as <-. simpl. lia.
    + destruct (vec_at s i); [|discriminate]. destruct (ok && _); [discriminate|]. destruct (reserve _ _ _ _ _) as [a' r]. injection E as <-. rewrite put_goto_next. lia.
    + destruct (vec_at s i); [|discriminate]. destruct ok; injection E as <-; [simpl; lia|]. rewrite put_goto_next. lia.
    + destruct (ok && _); [discriminate|]. destruct (reserve _ _ _ _ _) as [a' r]. injection E as <-. rewrite put_goto_next. lia.
    + destruct (set_at s i); [|discriminate]. destruct ok; injection E as <-; [simpl; lia|]. rewrite put_goto_next. lia.
    + discriminate.
  - destruct (acks_busy s); [discriminate|]. unfold ack_egress in E. destruct (vec_at s i); [|discriminate]. injection E as <-. simpl. rewrite put_next. lia.
  - destruct (acks_busy s); [discriminate|]. unfold ack_storage in E. destruct (set_at s i); [|discriminate]. injection E as <-. simpl. rewrite put_next. lia.
  - destruct (acks_busy s); [discriminate|]. unfold link_event in E. destruct (vec_at s i); injection E as <-; rewrite ?put_next; lia.
  - destruct (acks_busy s || _); [discriminate|]. injection E as <-. unfold telemetry. destruct (_ || _); [lia|]. destruct (telem_loop _ _ _ _ _ _) as [[[? ?] ?] ?]. simpl. lia.
  - injection E as <-. simpl. lia.
Qed.
Lemma runs_next cfg tr s s' : runs cfg tr s s' -> g_next s <= g_next s'.
Proof. induction 1; [lia|]. apply next_mono in H. lia. Qed.
Lemma inv_runs cfg tr s s' : runs cfg tr s s' -> Inv None s -> Forall label_fits tr -> g_next s' <= W64 -> Inv None s'.
Proof.
  induction 1 as [s|x l s s1 s2 E R IH]; intros I F L; [exact I|]. inversion F; subst. apply IH; auto.
  eapply inv_step; eauto. pose proof (runs_next _ _ _ _ R). lia.
Qed.
Lemma honest_is_run cfg tr s s' : honest_runs cfg tr s s' -> runs cfg tr s s'.
Proof. induction 1; econstructor; eauto. Qed.
Lemma exec_runs cfg l : forall s s', exec cfg l s = Some s' -> runs cfg l s s'.
Proof.
  induction l as [|x l IH]; simpl; intros s s' E; [injection E as <-; constructor|].
  destruct (step cfg x s) eqn:EX; try discriminate. econstructor; eauto.
Qed.
