(** Lemmas for P_RouterTimer: the schedule made from a plan. *)
From Coq Require Import NArith ZArith List Bool Lia ZifyBool ZifyN FinFun.
From Verif Require Import Base M_Cgr M_Router S_Router S_RouterTimer L_Router L_RouterStep.
Import ListNotations.
Open Scope N_scope.

(** * Keys *)
Definition strip {A} (l : list (key * A)) : list (N * A) := map (fun x => (fst (fst x), snd x)) l.
Fixpoint ins {A} (t : N) (x : A) (l : list (N * A)) : list (N * A) :=
  match l with [] => [(t, x)] | (u, y) :: r => if N.ltb t u then (t, x) :: l else (u, y) :: ins t x r end.
Definition dense {A} (l : list (key * A)) : Prop := forall t k j, In (t, k) (map fst l) -> j < k -> In (t, j) (map fst l).
Lemma has_key {A} (l : list (key * A)) k : existsb (fun e => key_eq (fst e) k) l = true <-> In k (map fst l).
Proof.
  rewrite existsb_exists, in_map_iff. split; intros (e & H1 & H2).
  - exists e. unfold key_eq in H2. destruct (fst e) as (a, b), k as (c, d). cbn in H2. apply andb_prop in H2. destruct H2 as (E1 & E2). apply N.eqb_eq in E1, E2. subst. auto.
  - exists e. split; [assumption|]. rewrite H1. unfold key_eq. now rewrite !N.eqb_refl.
Qed.
Lemma free_key_spec {A} (l : list (key * A)) t : forall fuel i, (forall j, j < i -> In (t, j) (map fst l)) ->
  exists j, free_key l t fuel i = (t, j) /\ (forall k, k < j -> In (t, k) (map fst l)) /\ (~ In (t, j) (map fst l) \/ j = i + N.of_nat fuel).
Proof.
  induction fuel as [|f IH]; intros i H; cbn [free_key].
  - exists i. split; [reflexivity|]. split; [assumption|]. right. lia.
  - destruct (existsb _ l) eqn:E.
    + apply has_key in E. destruct (IH (i + 1)) as (j & E1 & E2 & E3).
      { intros j Hj. destruct (N.eq_dec j i) as [->|]; [assumption|]. apply H. lia. }
      exists j. split; [assumption|]. split; [assumption|]. destruct E3 as [E3|E3]; [auto|]. right. lia.
    + exists i. split; [reflexivity|]. split; [assumption|]. left. rewrite <- has_key. congruence.
Qed.
Definition upto_keys (t : N) (n : nat) : list key := map (fun i => (t, N.of_nat i)) (seq 0 n).
Lemma free_key_free {A} (l : list (key * A)) t : dense l -> exists j, free_key l t (S (length l)) 0 = (t, j) /\ (forall k, In (t, k) (map fst l) <-> k < j).
Proof.
  intros D. destruct (free_key_spec l t (S (length l)) 0) as (j & E & H1 & H2); [lia|]. exists j. split; [exact E|].
  assert (F : ~ In (t, j) (map fst l)).
  { destruct H2 as [H2|H2]; [assumption|]. exfalso. assert (I : incl (upto_keys t (S (length l))) (map fst l)).
    { intros k Hk. unfold upto_keys in Hk. apply in_map_iff in Hk. destruct Hk as (n & <- & Hn). apply in_seq in Hn. apply H1. lia. }
    assert (ND : NoDup (upto_keys t (S (length l)))).
    { unfold upto_keys. apply Injective_map_NoDup; [|apply seq_NoDup]. intros a b X. injection X as X. lia. }
    apply NoDup_incl_length in I; [|assumption]. unfold upto_keys in I. rewrite !map_length, seq_length in I. lia. }
  intros k. split; [|apply H1]. intros K. destruct (N.lt_trichotomy k j) as [X|[->|X]]; [assumption|contradiction|]. exfalso. apply F. now apply (D t k).
Qed.
Lemma put_strip {A} (l : list (key * A)) t j x : (forall k, In (t, k) (map fst l) -> k < j) -> strip (put (t, j) x l) = ins t x (strip l).
Proof.
  induction l as [|((u, k), y) l IH]; intros H; [reflexivity|]. cbn [put strip map fst snd ins]. fold (strip l).
  assert (E : key_lt (t, j) (u, k) = N.ltb t u).
  { unfold key_lt. cbn [fst snd]. destruct (N.eqb_spec t u) as [->|]; [|reflexivity]. specialize (H k (or_introl eq_refl)). rewrite N.ltb_irrefl. apply N.ltb_ge. lia. }
  rewrite E. destruct (N.ltb t u); [reflexivity|]. cbn [strip map fst snd]. f_equal. apply IH. intros k' Hk. apply H. now right.
Qed.
Lemma put_keys {A} (l : list (key * A)) k x y : In y (map fst (put k x l)) <-> y = k \/ In y (map fst l).
Proof.
  induction l as [|(k', z) l IH]; cbn [put map fst In]; [intuition|]. destruct (key_lt k k'); cbn [map fst In]; [intuition|]. rewrite IH. intuition.
Qed.
Lemma put_dense {A} (l : list (key * A)) t j x : dense l -> (forall k, In (t, k) (map fst l) <-> k < j) -> dense (put (t, j) x l).
Proof.
  intros D H u k i Hk Hi. rewrite put_keys in *. destruct Hk as [X|X]; [injection X as -> ->; right; now apply H|right; now apply (D u k)].
Qed.
Lemma ins_in {A} t (x : A) l y : In y (ins t x l) <-> y = (t, x) \/ In y l.
Proof. induction l as [|(u, z) l IH]; cbn [ins In]; [intuition|]. destruct (N.ltb t u); cbn [In]; [intuition|]. rewrite IH. intuition. Qed.

(** Sorted by time. *)
Fixpoint sorted {A} (l : list (N * A)) : Prop := match l with [] => True | (t, _) :: r => Forall (fun y => t <= fst y) r /\ sorted r end.
Lemma ins_sorted {A} t (x : A) l : sorted l -> sorted (ins t x l).
Proof.
  induction l as [|(u, z) l IH]; cbn [ins sorted]; [auto|]. intros (H1 & H2). destruct (N.ltb_spec t u); cbn [sorted].
  - split; [|auto]. constructor; [cbn; lia|]. eapply Forall_impl; [|exact H1]. cbn. intros. lia.
  - split; [|auto]. rewrite Forall_forall in *. intros y Hy. apply ins_in in Hy. destruct Hy as [->|Hy]; [assumption|auto].
Qed.

(** The last event for an outduct says whether it is up. *)
Fixpoint val (i : N) (l : list (N * event)) : bool :=
  match l with
  | [] => false
  | (_, e) :: r => if existsb (fun y => N.eqb (e_out (snd y)) i) r then val i r else N.eqb (e_out e) i && e_up e
  end.
Lemma val_cons i t e r : val i ((t, e) :: r) = if existsb (fun y => N.eqb (e_out (snd y)) i) r then val i r else N.eqb (e_out e) i && e_up e.
Proof. reflexivity. Qed.
Lemma val_snoc i l t e : val i (l ++ [(t, e)]) = if N.eqb (e_out e) i then e_up e else val i l.
Proof.
  induction l as [|(u, f) l IH]; cbn [app val existsb].
  - destruct (N.eqb (e_out e) i); reflexivity.
  - rewrite existsb_app, IH. cbn [existsb snd]. rewrite orb_false_r. destruct (N.eqb (e_out e) i); [now rewrite orb_true_r|]. rewrite orb_false_r. reflexivity.
Qed.
Lemma val_none i l : existsb (fun y => N.eqb (e_out (snd y)) i) l = false -> val i l = false.
Proof.
  induction l as [|(u, f) l IH]; [reflexivity|]. cbn [val existsb snd]. intros H. apply orb_false_elim in H. destruct H as (H1 & H2). rewrite H2, H1. reflexivity.
Qed.
Definition later (i t : N) (l : list (N * event)) : bool := existsb (fun y => N.eqb (e_out (snd y)) i && N.ltb t (fst y)) l.
Lemma later_none i t l : later i t l = true -> existsb (fun y => N.eqb (e_out (snd y)) i) l = true.
Proof. unfold later. rewrite !existsb_exists. intros (y & H & E). apply andb_prop in E. exists y. tauto. Qed.
Lemma later_all i t u l : Forall (fun y => u <= fst y) l -> t < u -> later i t l = existsb (fun y => N.eqb (e_out (snd y)) i) l.
Proof.
  intros F H. unfold later. induction l as [|y l IH]; [reflexivity|]. cbn [existsb]. inversion F; subst. rewrite IH by assumption. replace (N.ltb t (fst y)) with true by lia. now rewrite andb_true_r.
Qed.
Lemma ins_exists i t e l : existsb (fun y => N.eqb (e_out (snd y)) i) (ins t e l) = N.eqb (e_out e) i || existsb (fun y => N.eqb (e_out (snd y)) i) l.
Proof.
  induction l as [|(u, f) l IH]; [reflexivity|]. cbn [ins]. destruct (N.ltb t u); [reflexivity|]. cbn [existsb snd]. rewrite IH. destruct (N.eqb (e_out e) i), (N.eqb (e_out f) i); reflexivity.
Qed.
Lemma val_ins i t e l : sorted l -> val i (ins t e l) = if N.eqb (e_out e) i then if later i t l then val i l else e_up e else val i l.
Proof.
  induction l as [|(u, f) l IH]; cbn [ins sorted]; intros S.
  - cbn [val existsb later]. destruct (N.eqb (e_out e) i); reflexivity.
  - destruct S as (S1 & S2). destruct (N.ltb_spec t u) as [H|H].
    + assert (L : later i t ((u, f) :: l) = existsb (fun y => N.eqb (e_out (snd y)) i) ((u, f) :: l)).
      { apply (later_all i t u); [constructor; [cbn; lia|assumption]|assumption]. }
      rewrite L, (val_cons i t e). destruct (existsb (fun y => N.eqb (e_out (snd y)) i) ((u, f) :: l)) eqn:E.
      * destruct (N.eqb (e_out e) i); reflexivity.
      * rewrite (val_none i ((u, f) :: l) E). destruct (N.eqb (e_out e) i); reflexivity.
    + cbn [val]. rewrite ins_exists, (IH S2). assert (L : later i t ((u, f) :: l) = later i t l).
      { unfold later. cbn [existsb fst]. replace (N.ltb t u) with false by lia. now rewrite andb_false_r. }
      rewrite L. destruct (N.eqb (e_out e) i); cbn [orb]; [|reflexivity]. destruct (later i t l) eqn:El; [|reflexivity]. rewrite (later_none i t l El). reflexivity.
Qed.
(** The events until a time. *)
Definition upto {A} (now : N) (l : list (N * A)) : list (N * A) := filter (fun y => N.leb (fst y) now) l.
Lemma upto_ins {A} now t (x : A) l : sorted l -> upto now (ins t x l) = if N.leb t now then ins t x (upto now l) else upto now l.
Proof.
  induction l as [|(u, f) l IH]; cbn [ins sorted]; intros S.
  - cbn [upto filter fst]. destruct (N.leb t now); reflexivity.
  - destruct S as (S1 & S2). destruct (N.ltb_spec t u) as [H|H].
    + cbn [upto filter fst]. destruct (N.leb_spec t now) as [Ht|Ht]; [|reflexivity]. destruct (N.leb_spec u now) as [Hu|Hu].
      * cbn [ins]. replace (N.ltb t u) with true by lia. reflexivity.
      * assert (E : filter (fun y : N * A => fst y <=? now) l = []).
        { clear IH S2. induction l as [|y l IH]; [reflexivity|]. inversion S1; subst. cbn [filter]. replace (fst y <=? now) with false by lia. now apply IH. }
        rewrite E. reflexivity.
    + cbn [upto filter fst]. specialize (IH S2). unfold upto in IH. destruct (N.leb_spec u now) as [Hu|Hu]; rewrite IH; destruct (N.leb_spec t now); try reflexivity.
      * cbn [ins]. replace (N.ltb t u) with false by lia. reflexivity.
Qed.
Lemma later_ins i t u e l : later i t (ins u e l) = N.eqb (e_out e) i && N.ltb t u || later i t l.
Proof.
  unfold later. induction l as [|(v, f) l IH]; [reflexivity|]. cbn [ins]. destruct (N.ltb u v); [reflexivity|]. cbn [existsb snd fst]. rewrite IH.
  destruct (N.eqb (e_out e) i && N.ltb t u), (N.eqb (e_out f) i && N.ltb t v); reflexivity.
Qed.
Lemma later_false i t l : (forall y, In y l -> e_out (snd y) = i -> fst y <= t) -> later i t l = false.
Proof.
  intros H. apply not_true_is_false. unfold later. rewrite existsb_exists. intros (y & Hy & E). apply andb_prop in E. destruct E as (E1 & E2). apply N.eqb_eq in E1. specialize (H y Hy E1). lia.
Qed.
Lemma later_bound i t l y : later i t l = false -> In y l -> e_out (snd y) = i -> fst y <= t.
Proof.
  intros H Hy E. destruct (N.leb_spec (fst y) t); [assumption|]. exfalso. rewrite <- not_true_iff_false in H. apply H. unfold later. apply existsb_exists. exists y. split; [assumption|]. rewrite E, N.eqb_refl. lia.
Qed.
Lemma upto_sorted {A} now (l : list (N * A)) : sorted l -> sorted (upto now l).
Proof.
  induction l as [|(u, f) l IH]; [auto|]. cbn [sorted upto filter fst]. intros (S1 & S2). destruct (N.leb u now); [|auto]. cbn [sorted]. split; [|auto]. rewrite Forall_forall in *. intros y Hy. apply filter_In in Hy. now apply S1.
Qed.
Lemma upto_split {A} now (a b : list (N * A)) : Forall (fun y => fst y <= now) a -> Forall (fun y => now < fst y) b -> upto now (a ++ b) = a.
Proof.
  intros Ha Hb. unfold upto. induction a as [|y a IH]; cbn [app filter].
  - induction b as [|y b IH]; [reflexivity|]. inversion Hb; subst. cbn [filter]. replace (N.leb (fst y) now) with false by lia. auto.
  - inversion Ha; subst. replace (N.leb (fst y) now) with true by lia. f_equal. auto.
Qed.

(** * The schedule of a plan *)
Section Schedule.
Variable me : N.
Variable s0 : rt.
Hypothesis empty : t_sched s0 = [].
Hypothesis inj : forall h h' i, get (t_hops s0) h = Some i -> get (t_hops s0) h' = Some i -> h = h'.
Notation ep := (t_epoch s0).
Definition ev (w : row) (i : N) (up : bool) : event := mkEvent (as_int (w_contact w)) (w_source w) (w_dest w) (w_start w) (w_rate w) i up.
Definition mine (w : row) (i : N) : Prop := w_source w = me /\ w_dest w <> me /\ get (t_hops s0) (w_dest w) = Some i.
Definition at_time (w : row) (up : bool) : N := ep + (if up then w_start w else w_end w) * 1000000.
Definition contact_now (rows : list row) (i now : N) : Prop := exists w, In w rows /\ mine w i /\ at_time w true <= now < at_time w false.
Record sched_ok (rows : list row) (l : list (key * event)) : Prop := {
  k_dense : dense l; k_sorted : sorted (strip l);
  k_events : forall t e, In (t, e) (strip l) <-> exists w i up, In w rows /\ mine w i /\ t = at_time w up /\ e = ev w i up;
  k_val : forall i now, val i (upto now (strip l)) = true <-> contact_now rows i now }.
Lemma as_int_small n : n < 2 ^ 31 -> as_int n = n.
Proof. unfold as_int. destruct (N.ltb_spec n 2147483648); lia. Qed.
Lemma add_event_ok t e s : dense (t_sched s) -> (forall x, In x (strip (t_sched s)) -> same_event (snd x) e = false) ->
  exists l, add_event t e s = Some (with_sched s l) /\ strip l = ins t e (strip (t_sched s)) /\ dense l.
Proof.
  intros D H. unfold add_event. destruct (free_key_free (t_sched s) t D) as (j & E & K). rewrite E.
  destruct (existsb _ _) eqn:Ex.
  - exfalso. apply existsb_exists in Ex. destruct Ex as (x & Hx & Hs). apply (in_map (fun x => (fst (fst x), snd x))) in Hx. specialize (H _ Hx). change (same_event (snd x) e = false) in H. rewrite H in Hs. discriminate.
  - eexists. split; [reflexivity|]. split; [|now apply put_dense]. apply put_strip. intros k Hk. now apply K.
Qed.
Lemma in_contact_app rows w i now : contact_now (rows ++ [w]) i now <-> contact_now rows i now \/ mine w i /\ at_time w true <= now < at_time w false.
Proof.
  unfold contact_now. split.
  - intros (r & Hr & M & T). apply in_app_or in Hr. destruct Hr as [Hr|[<-|[]]]; [left; eauto|right; auto].
  - intros [(r & Hr & M & T)|(M & T)]; [exists r|exists w]; (split; [apply in_or_app; cbn; tauto|auto]).
Qed.
Lemma schedule_ok rows : Forall row_ok rows -> apart me rows ->
  let s := fold_left (add_row me) rows s0 in t_hops s = t_hops s0 /\ t_epoch s = t_epoch s0 /\ sched_ok rows (t_sched s).
Proof.
  induction rows as [|w rows IH] using rev_ind; intros R A; cbv zeta.
  { cbn [fold_left]. rewrite empty. split; [reflexivity|]. split; [reflexivity|]. constructor.
    - intros t k j [].
    - exact Logic.I.
    - intros t e. cbn. split; [intros []|intros (w & i & up & [] & _)].
    - intros i now. cbn. split; [discriminate|intros (w & [] & _)]. }
  apply Forall_app in R. destruct R as (R & Rw). inversion Rw as [|? ? W _]; subst. destruct A as (A1 & A2).
  assert (Lt : forall r, In r rows -> w_source r = me -> w_start r < w_end r) by (intros r Hr; apply A1, in_or_app; now left).
  assert (Ap : forall r, In r rows -> w_source r = me -> w_source w = me -> w_dest r = w_dest w -> w_end r <= w_start w \/ w_end w < w_start r).
  { intros r Hr Hs Hs' Hd. apply In_nth_error in Hr. destruct Hr as (n & Hn). assert (Hl : (n < length rows)%nat) by (apply nth_error_Some; congruence).
    apply (A2 n (length rows) r w); try assumption.
    - rewrite nth_error_app1 by assumption. exact Hn.
    - rewrite nth_error_app2 by lia. rewrite Nat.sub_diag. reflexivity. }
  destruct IH as (E1 & E2 & [D S Ev V]); [assumption|split; [exact Lt|]|].
  { intros i j a b Ha Hb. apply (A2 i j).
    - rewrite nth_error_app1; [assumption|]. apply nth_error_Some. congruence.
    - rewrite nth_error_app1; [assumption|]. apply nth_error_Some. congruence. }
  rewrite fold_left_app. cbn [fold_left]. set (s := fold_left (add_row me) rows s0) in *.
  destruct W as (W1 & W2 & W3 & W4 & W5 & W6).
  assert (Skip : (forall i, ~ mine w i) -> forall s', t_sched s' = t_sched s -> t_hops s' = t_hops s -> t_epoch s' = t_epoch s -> t_hops s' = t_hops s0 /\ t_epoch s' = t_epoch s0 /\ sched_ok (rows ++ [w]) (t_sched s')).
  { intros M s' Q1 Q2 Q3. split; [congruence|]. split; [congruence|]. rewrite Q1. constructor; try assumption.
    - intros t e. rewrite Ev. split; intros (r & i & up & Hr & Mr & X); exists r, i, up.
      + split; [apply in_or_app; now left|auto].
      + apply in_app_or in Hr. destruct Hr as [Hr|[<-|[]]]; [auto|]. destruct (M i Mr).
    - intros i now. rewrite V, in_contact_app. split; [auto|]. intros [X|(X & _)]; [assumption|destruct (M i X)]. }
  unfold add_row. rewrite (as_int_small (w_dest w)), (as_int_small (w_source w)) by assumption.
  destruct (N.eqb_spec (w_dest w) me) as [Hd|Hd]. { apply Skip; try reflexivity. intros i (_ & X & _). contradiction. }
  set (s1 := with_routes s _). destruct (N.eqb_spec (w_source w) me) as [Hs|Hs]; cbn [negb]. 2:{ apply Skip; try reflexivity. intros i (X & _). contradiction. }
  change (t_hops s1) with (t_hops s). rewrite E1. destruct (get (t_hops s0) (w_dest w)) as [i0|] eqn:Ei. 2:{ apply Skip; try reflexivity. intros i (_ & _ & X). congruence. }
  assert (M : mine w i0) by (repeat split; assumption).
  unfold add_contact. rewrite (as_int_small (w_dest w)), (as_int_small (w_source w)), (as_int_small (w_start w)), (as_int_small (w_end w)) by lia.
  change (t_epoch s1) with (t_epoch s). rewrite E2. pose proof (A1 w ltac:(apply in_or_app; right; now left) Hs) as Lt'.
  assert (NS : forall t e b, In (t, e) (strip (t_sched s)) -> same_event e (ev w i0 b) = false).
  { intros t e b He. apply Ev in He. destruct He as (r & i & up & Hr & (M1 & M2 & M3) & -> & ->). apply not_true_is_false. unfold same_event, ev. cbn [e_contact e_source e_dest e_start e_up].
    intros X. repeat (apply andb_prop in X; destruct X as (X & ?)). pose proof (Lt r Hr M1). destruct (Ap r Hr M1 Hs ltac:(lia)); lia. }
  fold (ev w i0 true). fold (ev w i0 false). change (mkEvent _ _ _ _ _ i0 true) with (ev w i0 true). change (mkEvent _ _ _ _ _ i0 false) with (ev w i0 false).
  change (ep + w_start w * 1000000) with (at_time w true). change (ep + w_end w * 1000000) with (at_time w false).
  destruct (add_event_ok (at_time w true) (ev w i0 true) s1) as (l1 & F1 & F2 & F3); [exact D|intros (t, e) He; now apply (NS t)|]. rewrite F1.
  destruct (add_event_ok (at_time w false) (ev w i0 false) (with_sched s1 l1)) as (l2 & G1 & G2 & G3); [exact F3| |].
  { intros (t, e) He. cbn [with_sched t_sched] in He. rewrite F2 in He. apply ins_in in He. destruct He as [He|He]; [injection He as -> ->|now apply (NS t)].
    unfold same_event, ev. cbn [snd e_up]. cbn. now rewrite !andb_false_r. }
  rewrite G1. cbn [with_sched t_hops t_epoch t_sched s1 with_routes]. split; [exact E1|]. split; [exact E2|]. cbn [with_sched t_sched] in G2. rewrite F2 in G2.
  change (t_sched s1) with (t_sched s) in *. set (L := strip (t_sched s)) in *.
  assert (T12 : at_time w true < at_time w false) by (unfold at_time; lia).
  constructor.
  - exact G3.
  - rewrite G2. now apply ins_sorted, ins_sorted.
  - intros t e. rewrite G2, !ins_in, Ev. split.
    + intros [X|[X|(r & i & up & Hr & X)]].
      * injection X as -> ->. exists w, i0, false. split; [apply in_or_app; right; now left|auto].
      * injection X as -> ->. exists w, i0, true. split; [apply in_or_app; right; now left|auto].
      * exists r, i, up. split; [apply in_or_app; now left|auto].
    + intros (r & i & up & Hr & Mr & -> & ->). apply in_app_or in Hr. destruct Hr as [Hr|[<-|[]]]; [right; right; exists r, i, up; auto|].
      assert (i = i0) as -> by (destruct Mr as (_ & _ & X); congruence). destruct up; auto.
  - intros i now. rewrite G2, in_contact_app. rewrite upto_ins by now apply ins_sorted. rewrite upto_ins by assumption. specialize (V i now).
    assert (SP : sorted (upto now L)) by now apply upto_sorted.
    destruct (N.eq_dec i i0) as [->|Hi].
    2:{ assert (X : forall b, N.eqb (e_out (ev w i0 b)) i = false) by (intros b; cbn; lia).
        assert (Y : ~ mine w i) by (intros (_ & _ & Y); congruence).
        replace (val i _) with (val i (upto now L)); [tauto|]. destruct (N.leb (at_time w false) now), (N.leb (at_time w true) now); rewrite ?val_ins by (try apply ins_sorted; assumption); rewrite ?X; reflexivity. }
    assert (Rows : forall y, In y (upto now L) -> e_out (snd y) = i0 -> exists r up, In r rows /\ mine r i0 /\ fst y = at_time r up /\ fst y <= now /\ w_start r < w_end r /\ (w_end r <= w_start w \/ w_end w < w_start r)).
    { intros (t, e) Hy He. unfold upto in Hy. apply filter_In in Hy. destruct Hy as (Hy & Ht). apply Ev in Hy. destruct Hy as (r & i & up & Hr & Mr & -> & ->). cbn in He. subst i.
      destruct Mr as (M1 & M2 & M3). exists r, up. split; [assumption|]. split; [repeat split; assumption|]. split; [reflexivity|]. cbn [fst] in *. split; [lia|]. split; [now apply Lt|].
      apply Ap; try assumption. apply (inj _ _ i0); [assumption|apply M]. }
    assert (Out : forall b, N.eqb (e_out (ev w i0 b)) i0 = true) by (intros b; apply N.eqb_refl).
    destruct (N.leb_spec (at_time w true) now) as [H1|H1].
    + destruct (N.leb_spec (at_time w false) now) as [H2|H2].
      * rewrite val_ins by now apply ins_sorted. rewrite Out, later_ins, Out, val_ins, Out by assumption. replace (N.ltb (at_time w false) (at_time w true)) with false by lia. cbn [andb orb].
        destruct (later i0 (at_time w false) (upto now L)) eqn:El.
        -- replace (later i0 (at_time w true) (upto now L)) with true. { rewrite V. split; [auto|]. intros [X|(_ & X)]; [assumption|lia]. }
           symmetry. unfold later in *. apply existsb_exists in El. apply existsb_exists. destruct El as (y & Hy & E). exists y. split; [assumption|]. apply andb_prop in E. destruct E as (Ea & Eb). rewrite Ea. lia.
        -- cbn [ev e_up]. split; [discriminate|]. intros [X|(_ & X)]; [|lia]. exfalso. destruct X as (r & Hr & Mr & Tr).
           pose proof (later_bound i0 _ _ (at_time r true, ev r i0 true) El) as B. cbn [fst snd] in B.
           assert (Hin : In (at_time r true, ev r i0 true) (upto now L)). { unfold upto. apply filter_In. cbn [fst]. split; [|lia]. apply Ev. exists r, i0, true. auto. }
           specialize (B Hin eq_refl). destruct Mr as (M1 & M2 & M3). destruct (Ap r Hr M1 Hs) as [X|X]; [apply (inj _ _ i0); [assumption|apply M]|..]; unfold at_time in *; lia.
      * rewrite val_ins, Out by assumption. replace (later i0 (at_time w true) (upto now L)) with false. { cbn [ev e_up]. split; [intros _; right; split; [assumption|lia]|reflexivity]. }
        symmetry. apply later_false. intros y Hy He. destruct (Rows y Hy He) as (r & up & Hr & Mr & Et & Hn & Hlt & [X|X]); rewrite Et in *; unfold at_time in *; destruct up; lia.
    + replace (N.leb (at_time w false) now) with false by lia. rewrite V. split; [auto|]. intros [X|(_ & X)]; [assumption|lia].
Qed.
End Schedule.
