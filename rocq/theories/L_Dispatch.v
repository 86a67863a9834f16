(** Lemmas for C51. *)
From Coq Require Import NArith List Bool Lia ZifyBool ZifyN Permutation PeanoNat.
From Verif Require Import Base M_Ingress M_Dispatch S_Dispatch.
Import ListNotations.
Open Scope N_scope.

(** ** Lists *)
Lemma set_nth_length {A} n (x : A) l : length (set_nth n x l) = length l.
Proof. revert n; induction l as [|y l IH]; intros [|n]; simpl; auto. Qed.
Lemma set_nth_same {A} n (x : A) l y : nth_error l n = Some y -> nth_error (set_nth n x l) n = Some x.
Proof. revert n; induction l as [|z l IH]; intros [|n]; simpl; intros H; try discriminate; auto. Qed.
Lemma set_nth_other {A} n m (x : A) l : n <> m -> nth_error (set_nth n x l) m = nth_error l m.
Proof.
  revert n m; induction l as [|z l IH]; intros [|n] [|m] H; simpl; auto; try congruence.
Qed.
Lemma set_nth_split {A} n (x : A) l y : nth_error l n = Some y -> exists p q, l = p ++ y :: q /\ set_nth n x l = p ++ x :: q /\ length p = n.
Proof.
  revert n; induction l as [|z l IH]; intros [|n] H; simpl in *; try discriminate.
  - injection H as ->. exists [], l. auto.
  - destruct (IH _ H) as (p & q & -> & E & L). exists (z :: p), q. simpl. rewrite E. auto.
Qed.
Lemma flat_map_set_nth {A B} (f : A -> list B) n x l y : nth_error l n = Some y ->
  Permutation (f y ++ flat_map f (set_nth n x l)) (f x ++ flat_map f l).
Proof.
  intros H. destruct (set_nth_split n x l y H) as (p & q & -> & -> & _).
  rewrite !flat_map_app. simpl. rewrite !app_assoc.
  assert (P : Permutation ((f y ++ flat_map f p) ++ f x) ((f x ++ flat_map f p) ++ f y)).
  { rewrite <- !app_assoc. rewrite (Permutation_app_comm (f y)), <- app_assoc, (Permutation_app_comm (f x) (flat_map f p ++ f y)).
    rewrite <- app_assoc. apply Permutation_app_head. apply Permutation_app_comm. }
  rewrite <- !app_assoc in *. rewrite !app_assoc in *. apply Permutation_app_tail. exact P.
Qed.

(** ** The maps *)
Lemma find_id_in id m n : find_id id m = Some n -> In (id, n) m.
Proof.
  unfold find_id. destruct (find _ m) as [[k v]|] eqn:E; [|discriminate].
  intros [= <-]. apply find_some in E. simpl in E. destruct E as [I E]. apply N.eqb_eq in E. subst. exact I.
Qed.
Lemma find_id_none id m : find_id id m = None -> ~ In id (map fst m).
Proof.
  unfold find_id. destruct (find _ m) as [[k v]|] eqn:E; [discriminate|]. intros _ I.
  apply in_map_iff in I. destruct I as ([k v] & <- & I). apply (find_none _ _ E) in I. simpl in I. rewrite N.eqb_refl in I. discriminate.
Qed.
Lemma find_id_absent id m : ~ In id (map fst m) -> find_id id m = None.
Proof.
  intros H. destruct (find_id id m) as [n|] eqn:E; [|reflexivity]. apply find_id_in in E.
  exfalso. apply H. apply in_map_iff. exists (id, n). auto.
Qed.
Lemma emplace_new id n m : ~ In id (map fst m) -> emplace id n m = m ++ [(id, n)].
Proof. intros H. unfold emplace. rewrite find_id_absent by assumption. reflexivity. Qed.
Lemma erase_id_keys id m x : In x (map fst (erase_id id m)) -> In x (map fst m) /\ x <> id.
Proof.
  intros I. apply in_map_iff in I. destruct I as (e & <- & I). apply filter_In in I. destruct I as [I E]. split.
  - apply in_map. exact I.
  - intros X. rewrite X, N.eqb_refl in E. discriminate.
Qed.
Lemma erase_id_nodup id m : NoDup (map fst m) -> NoDup (map fst (erase_id id m)).
Proof.
  induction m as [|e m IH]; cbn [map erase_id filter]; intros H; [constructor|]. inversion H; subst. unfold erase_id. cbn [filter]. fold (erase_id id m).
  destruct (negb (fst e =? id)); cbn [map]; [|auto]. constructor; [|auto]. intros I. apply erase_id_keys in I. tauto.
Qed.
Lemma erase_id_id id m : ~ In id (map fst m) -> erase_id id m = m.
Proof.
  induction m as [|e m IH]; cbn [map In]; intros H; [reflexivity|]. unfold erase_id. cbn [filter]. fold (erase_id id m).
  destruct (fst e =? id) eqn:E; cbn [negb]; [apply N.eqb_eq in E; tauto|]. f_equal. apply IH. tauto.
Qed.
Lemma total_cons e m : total (e :: m) = snd e + total m.
Proof. reflexivity. Qed.
Lemma total_app a b : total (a ++ b) = total a + total b.
Proof. unfold total. induction a as [|e a IH]; simpl; [reflexivity|]. unfold total in *. lia. Qed.
Lemma total_perm a b : Permutation a b -> total a = total b.
Proof. unfold total. induction 1; simpl; lia. Qed.
Lemma total_erase id m n : NoDup (map fst m) -> find_id id m = Some n -> total m = n + total (erase_id id m).
Proof.
  induction m as [|e m IH]; intros H E; [discriminate|]. simpl in H. inversion H; subst.
  unfold find_id in E. cbn [find] in E. unfold erase_id. cbn [filter]. fold (erase_id id m). destruct (fst e =? id) eqn:K; cbn [negb].
  - injection E as <-. apply N.eqb_eq in K. subst id. rewrite erase_id_id by assumption. rewrite total_cons. lia.
  - rewrite !total_cons, (IH H3 E). lia.
Qed.
Lemma erase_perm id a b : Permutation a b -> Permutation (erase_id id a) (erase_id id b).
Proof.
  unfold erase_id. induction 1; simpl; auto.
  - destruct (negb (fst x =? id)); auto.
  - destruct (negb (fst x =? id)), (negb (fst y =? id)); auto. apply perm_swap.
  - eauto using Permutation_trans.
Qed.
Lemma erase_app id a b : erase_id id (a ++ b) = erase_id id a ++ erase_id id b.
Proof. unfold erase_id. apply filter_app. Qed.
Lemma perm_take id n m r : Permutation m ((id, n) :: r) -> NoDup (map fst m) -> find_id id m = Some n /\ Permutation (erase_id id m) r.
Proof.
  intros P H. pose proof (Permutation_NoDup (Permutation_map fst P) H) as H'. simpl in H'. inversion H'; subst. split.
  - destruct (find_id id m) as [k|] eqn:E.
    + apply find_id_in in E. apply (Permutation_in _ P) in E. simpl in E. destruct E as [E|E]; [congruence|].
      exfalso. apply H2. apply in_map_iff. exists (id, k). auto.
    + exfalso. apply (find_id_none _ _ E). apply (Permutation_in _ (Permutation_sym (Permutation_map fst P))). simpl. auto.
  - rewrite (erase_perm id _ _ P). simpl. rewrite N.eqb_refl. simpl. rewrite erase_id_id by assumption. reflexivity.
Qed.

(** ** Sets *)
Definition keys_e (a : aset) := map fst (a_eg a).
Definition keys_s (a : aset) := map fst (a_st a).
Definition set_ok (a : aset) : Prop :=
  NoDup (keys_e a) /\ NoDup (keys_s a) /\ a_egb a = total (a_eg a) /\ a_stb a = total (a_st a) /\ a_egb a < 2 ^ 63 /\ a_stb a < 2 ^ 63
  /\ a_maxb a < W64.
Lemma half_le n : half n = n / 2.
Proof. unfold half. rewrite N.shiftr_div_pow2. reflexivity. Qed.
Lemma half_small n : n < W64 -> half n < 2 ^ 63.
Proof. intros H. rewrite half_le. apply N.div_lt_upper_bound; [lia|]. unfold W64 in H. lia. Qed.
Lemma room_small a n : set_ok a -> n < 2 ^ 63 -> forall b, b < 2 ^ 63 -> add64 b n <= half (a_maxb a) -> add64 b n = b + n.
Proof. intros _ H b Hb _. apply add64_small. unfold W64. lia. Qed.

Lemma reserve_ok ce cs id n a a' r : set_ok a -> n < 2 ^ 63 -> ~ In id (keys_e a) -> ~ In id (keys_s a) ->
  reserve ce cs id n a = (a', r) ->
  set_ok a' /\ a_max a' = a_max a /\ a_maxb a' = a_maxb a /\ a_up a' = a_up a /\ a_hop a' = a_hop a /\
  match r with
  | ForEgress => a_eg a' = a_eg a ++ [(id, n)] /\ a_st a' = a_st a
                 /\ N.of_nat (length (a_eg a')) <= half (a_max a) /\ a_egb a' <= half (a_maxb a) /\ a_stb a' = a_stb a /\ ce = true
  | ForStorage => a_st a' = a_st a ++ [(id, n)] /\ a_eg a' = a_eg a
                 /\ N.of_nat (length (a_st a')) <= half (a_max a) /\ a_stb a' <= half (a_maxb a) /\ a_egb a' = a_egb a /\ cs = true
  | NoRoom => a' = a
  end.
Proof.
  intros (K1 & K2 & K3 & K4 & K5 & K6 & K7) Hn H1 H2 E. unfold reserve in E. pose proof (half_small _ K7) as Hh.
  destruct (ce && ((N.of_nat (length (a_eg a)) <? half (a_max a)) && (add64 (a_egb a) n <=? half (a_maxb a)))) eqn:C1.
  { apply andb_prop in C1. destruct C1 as [-> C1]. apply andb_prop in C1. destruct C1 as [C1 C2].
    injection E as <- <-. simpl. rewrite emplace_new by assumption.
    assert (A : add64 (a_egb a) n = a_egb a + n) by (apply add64_small; unfold W64; lia).
    unfold set_ok, keys_e, keys_s in *. simpl.
    repeat (split; [first [assumption | reflexivity | idtac]|]); auto.
    - rewrite map_app. simpl.
      apply Permutation_NoDup with (l := id :: map fst (a_eg a)); [apply Permutation_cons_append|constructor; assumption].
    - rewrite A, total_app. unfold total at 2. simpl. lia.
    - lia.
    - rewrite app_length. simpl. lia.
    - lia. }
  destruct (cs && ((N.of_nat (length (a_st a)) <? half (a_max a)) && (add64 (a_stb a) n <=? half (a_maxb a)))) eqn:C2.
  { apply andb_prop in C2. destruct C2 as [-> C2]. apply andb_prop in C2. destruct C2 as [C2 C3].
    injection E as <- <-. simpl. rewrite emplace_new by assumption.
    assert (A : add64 (a_stb a) n = a_stb a + n) by (apply add64_small; unfold W64; lia).
    unfold set_ok, keys_e, keys_s in *. simpl.
    repeat (split; [first [assumption | reflexivity | idtac]|]); auto.
    - rewrite map_app. simpl.
      apply Permutation_NoDup with (l := id :: map fst (a_st a)); [apply Permutation_cons_append|constructor; assumption].
    - rewrite A, total_app. unfold total at 2. simpl. lia.
    - lia.
    - rewrite app_length. simpl. lia.
    - lia. }
  injection E as <- <-. unfold set_ok. tauto.
Qed.

Lemma pop_ok id eg a a' ok : set_ok a -> pop id eg a = (a', ok) ->
  set_ok a' /\ a_max a' = a_max a /\ a_maxb a' = a_maxb a /\ a_up a' = a_up a /\ a_hop a' = a_hop a /\
  a_eg a' = (if eg then erase_id id (a_eg a) else a_eg a) /\ a_st a' = (if eg then a_st a else erase_id id (a_st a))
  /\ a_egb a' <= a_egb a /\ a_stb a' <= a_stb a.
Proof.
  intros (K1 & K2 & K3 & K4 & K5 & K6 & K7) E. unfold pop in E. destruct eg.
  - destruct (find_id id (a_eg a)) as [n|] eqn:F.
    + injection E as <- <-. simpl. pose proof (total_erase _ _ _ K1 F) as T.
      assert (S : sub64 (a_egb a) n = a_egb a - n) by (apply sub64_small; [lia|unfold W64; lia]).
      unfold set_ok, keys_e, keys_s in *. simpl. rewrite S. repeat split; auto; try lia. apply erase_id_nodup. assumption.
    + injection E as <- <-. rewrite erase_id_id by (apply find_id_none; assumption). unfold set_ok. repeat split; auto; lia.
  - destruct (find_id id (a_st a)) as [n|] eqn:F.
    + injection E as <- <-. simpl. pose proof (total_erase _ _ _ K2 F) as T.
      assert (S : sub64 (a_stb a) n = a_stb a - n) by (apply sub64_small; [lia|unfold W64; lia]).
      unfold set_ok, keys_e, keys_s in *. simpl. rewrite S. repeat split; auto; try lia. apply erase_id_nodup. assumption.
    + injection E as <- <-. rewrite erase_id_id by (apply find_id_none; assumption). unfold set_ok. repeat split; auto; lia.
Qed.

(** Waiting ends exactly when there is room. *)
Lemma must_wait_iff ce cs id n a : must_wait ce cs n a = match snd (reserve ce cs id n a) with NoRoom => true | _ => false end.
Proof.
  unfold must_wait, reserve.
  destruct ce, cs; simpl N.b2n; rewrite ?N.mul_1_r, ?N.mul_0_r; simpl andb;
    repeat match goal with
    | |- context [if ?b then _ else _] => destruct b eqn:?
    end; simpl; lia.
Qed.

(** ** The state *)
Lemma vec_lt s i a : vec_at s i = Some a -> i < N.of_nat (length (g_sets s)).
Proof. unfold vec_at. destruct (i <? N.of_nat (length (g_sets s))) eqn:E; [lia|discriminate]. Qed.
Lemma vec_some s i : i < N.of_nat (length (g_sets s)) -> exists a, vec_at s i = Some a.
Proof.
  intros H. unfold vec_at. replace (i <? N.of_nat (length (g_sets s))) with true by lia.
  destruct (nth_error (g_sets s) (N.to_nat i)) eqn:E; [eauto|]. apply nth_error_None in E. lia.
Qed.
Lemma set_at_vec s i : i <> U64MAX -> set_at s i = vec_at s i.
Proof. intros H. unfold set_at. destruct (N.eqb_spec i U64MAX); congruence. Qed.
Lemma put_length s i a : length (g_sets (put_at s i a)) = length (g_sets s).
Proof. unfold put_at. destruct (i =? U64MAX); simpl; [reflexivity|apply set_nth_length]. Qed.
Lemma set_at_put s i a b j : set_at s i = Some b -> set_at (put_at s i a) j = if i =? j then Some a else set_at s j.
Proof.
  intros H. unfold set_at in *. destruct (N.eqb_spec i U64MAX) as [->|Hi].
  - unfold put_at. rewrite N.eqb_refl. destruct (N.eqb_spec j U64MAX) as [->|Hj]; [rewrite N.eqb_refl; reflexivity|].
    destruct (N.eqb_spec U64MAX j); [congruence|]. reflexivity.
  - unfold put_at. destruct (N.eqb_spec i U64MAX); [congruence|].
    destruct (N.eqb_spec j U64MAX) as [->|Hj].
    + destruct (N.eqb_spec i U64MAX); [congruence|]. reflexivity.
    + unfold vec_at in *. simpl. rewrite set_nth_length. destruct (i <? N.of_nat (length (g_sets s))) eqn:L; [|discriminate].
      destruct (N.eqb_spec i j) as [->|Hij].
      * rewrite L. eapply set_nth_same. eassumption.
      * destruct (j <? N.of_nat (length (g_sets s))); [|reflexivity]. apply set_nth_other. lia.
Qed.
Lemma put_threads s i a : g_threads (put_at s i a) = g_threads s.
Proof. unfold put_at. destruct (i =? U64MAX); reflexivity. Qed.
Lemma put_next s i a : g_next (put_at s i a) = g_next s.
Proof. unfold put_at. destruct (i =? U64MAX); reflexivity. Qed.
Lemma put_eids s i a : g_eids (put_at s i a) = g_eids s.
Proof. unfold put_at. destruct (i =? U64MAX); reflexivity. Qed.
Lemma put_nodes s i a : g_nodes (put_at s i a) = g_nodes s.
Proof. unfold put_at. destruct (i =? U64MAX); reflexivity. Qed.
Lemma put_epend s i a : g_epend (put_at s i a) = g_epend s.
Proof. unfold put_at. destruct (i =? U64MAX); reflexivity. Qed.
Lemma put_spend s i a : g_spend (put_at s i a) = g_spend s.
Proof. unfold put_at. destruct (i =? U64MAX); reflexivity. Qed.
Lemma put_egress s i a : g_egress (put_at s i a) = g_egress s.
Proof. unfold put_at. destruct (i =? U64MAX); reflexivity. Qed.
Lemma put_storage s i a : g_storage (put_at s i a) = g_storage s.
Proof. unfold put_at. destruct (i =? U64MAX); reflexivity. Qed.
Lemma put_onlink s i a : g_onlink (put_at s i a) = g_onlink s.
Proof. unfold put_at. destruct (i =? U64MAX); reflexivity. Qed.
Lemma put_init s i a : g_init (put_at s i a) = g_init s.
Proof. unfold put_at. destruct (i =? U64MAX); reflexivity. Qed.
Lemma put_counts s i a : g_ecount (put_at s i a) = g_ecount s /\ g_ebytes (put_at s i a) = g_ebytes s
  /\ g_scount (put_at s i a) = g_scount s /\ g_sbytes (put_at s i a) = g_sbytes s.
Proof. unfold put_at. destruct (i =? U64MAX); auto. Qed.
Lemma set_at_goto s t b p i : set_at (goto s t b p) i = set_at s i.
Proof. reflexivity. Qed.
