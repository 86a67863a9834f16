(** Lemmas about the processing of received security blocks. *)
From Coq Require Import PeanoNat NArith List Bool Lia ZifyBool ZifyN.
From Verif Require Import Base M_Uri M_Policy M_PolicyRx S_PolicyRx.
Import ListNotations.
Open Scope N_scope.

Lemma upd_length : forall A (f : A -> A) l i, length (upd i f l) = length l.
Proof. induction l; destruct i; cbn [upd length]; auto. Qed.
Lemma upd_nth : forall A (f : A -> A) l i k, nth_error (upd i f l) k = if (i =? k)%nat then option_map f (nth_error l k) else nth_error l k.
Proof.
  induction l; intros i k.
  - destruct i, k; cbn; auto; destruct (i =? k)%nat; auto.
  - destruct i, k; cbn [upd nth_error option_map Nat.eqb]; auto.
Qed.

Lemma find_number_some : forall n bs i, find_number n bs = Some i -> exists b, is_block bs n i b.
Proof.
  induction bs; intros i; cbn [find_number]; [discriminate|].
  destruct (k_number a =? n) eqn:E.
  - intros [= <-]. exists a. split; [reflexivity|]. split; [lia|]. intros j c Hj; lia.
  - destruct (find_number n bs) as [k|] eqn:F; [|discriminate]. intros [= <-].
    destruct (IHbs _ eq_refl) as [b [H1 [H2 H3]]]. exists b. split; [exact H1|]. split; [exact H2|].
    intros [|j] c Hj; cbn [nth_error].
    + intros [= <-]. lia.
    + apply H3. lia.
Qed.
Lemma find_number_none : forall n bs, find_number n bs = None -> no_block bs n.
Proof.
  induction bs; cbn [find_number]; intros H b [].
  - subst. destruct (k_number b =? n) eqn:E; [discriminate|]. lia.
  - destruct (k_number a =? n); [discriminate|]. destruct (find_number n bs); [discriminate|]. apply IHbs; auto.
Qed.
Lemma is_block_fun : forall bs n i b j c, is_block bs n i b -> is_block bs n j c -> i = j /\ b = c.
Proof.
  intros bs n i b j c [A1 [A2 A3]] [B1 [B2 B3]].
  assert (i = j).
  { destruct (Nat.lt_trichotomy i j) as [H|[H|H]]; auto.
    - exfalso. exact (B3 _ _ H A1 A2).
    - exfalso. exact (A3 _ _ H B1 B2). }
  subst. split; [reflexivity|]. rewrite A1 in B1. congruence.
Qed.
Lemma is_block_in : forall bs n i b, is_block bs n i b -> ~ no_block bs n.
Proof. intros bs n i b [A [B _]] H. exact (H b (nth_error_In _ _ A) B). Qed.
Lemma find_number_is : forall bs n i b, is_block bs n i b -> find_number n bs = Some i.
Proof.
  intros bs n i b H. destruct (find_number n bs) as [k|] eqn:E.
  - destruct (find_number_some _ _ _ E) as [c C]. destruct (is_block_fun _ _ _ _ _ _ H C). subst. reflexivity.
  - exfalso. exact (is_block_in _ _ _ _ H (find_number_none _ _ E)).
Qed.

(** Lists of blocks that agree in type, number and nothing else. *)
Definition same_id (b c : block) : Prop := k_type c = k_type b /\ k_number c = k_number b.
Definition ids (bs cs : list block) : Prop := length cs = length bs /\ forall i b, nth_error bs i = Some b -> exists c, nth_error cs i = Some c /\ same_id b c.
Lemma ids_refl : forall bs, ids bs bs.
Proof. intro bs. split; [reflexivity|]. intros i b H. exists b. repeat split; auto. Qed.
Lemma ids_trans : forall a b c, ids a b -> ids b c -> ids a c.
Proof.
  intros a b c [A1 A2] [B1 B2]. split; [congruence|]. intros i x H. destruct (A2 _ _ H) as [y [Y1 [Y2 Y3]]]. destruct (B2 _ _ Y1) as [z [Z1 [Z2 Z3]]].
  exists z. split; [exact Z1|]. split; congruence.
Qed.
Lemma ids_back : forall bs cs i c, ids bs cs -> nth_error cs i = Some c -> exists b, nth_error bs i = Some b /\ same_id b c.
Proof.
  intros bs cs i c [L H] Hc. assert (i < length cs)%nat by (apply nth_error_Some; congruence).
  destruct (nth_error bs i) as [b|] eqn:E; [|apply nth_error_None in E; lia].
  destruct (H _ _ E) as [c' [C1 C2]]. exists b. split; [reflexivity|]. congruence.
Qed.
Lemma ids_upd : forall f bs i, (forall b, same_id b (f b)) -> ids bs (upd i f bs).
Proof.
  intros f bs i H. split; [apply upd_length|]. intros k b Hb. rewrite upd_nth, Hb. destruct (i =? k)%nat; cbn [option_map]; eexists; split; eauto. repeat split.
Qed.
Lemma ids_find : forall n bs cs, ids bs cs -> find_number n cs = find_number n bs.
Proof.
  induction bs; intros cs [L H]; destruct cs; try discriminate; [reflexivity|].
  cbn [find_number]. destruct (H 0%nat a eq_refl) as [c [C1 [C2 C3]]]. cbn in C1. injection C1 as <-. rewrite C3.
  destruct (k_number a =? n); [reflexivity|]. rewrite IHbs; [reflexivity|]. split; [cbn in L; lia|]. intros i x Hx. exact (H (S i) x Hx).
Qed.
Lemma mark_ids : forall n bs, ids bs (mark n bs).
Proof. intros. unfold mark. destruct (find_number n bs); [apply ids_upd; intro; split; reflexivity|apply ids_refl]. Qed.
Lemma mark_nth : forall n bs i b, nth_error bs i = Some b -> exists c, nth_error (mark n bs) i = Some c /\ same_id b c /\ k_asb c = k_asb b /\ k_encrypted c = k_encrypted b /\
  (k_deleted c = true <-> k_deleted b = true \/ is_block bs n i b).
Proof.
  intros n bs i b H. unfold mark. destruct (find_number n bs) as [k|] eqn:E.
  - destruct (find_number_some _ _ _ E) as [x X]. rewrite upd_nth, H. destruct (k =? i)%nat eqn:Q; cbn [option_map].
    + apply Nat.eqb_eq in Q. subst. eexists. split; [reflexivity|]. split; [split; reflexivity|]. split; [reflexivity|]. split; [reflexivity|].
      cbn [delete k_deleted]. split; [|reflexivity]. intros _. right. destruct X as [X1 [X2 X3]]. split; [exact H|]. split; [congruence|exact X3].
    + apply Nat.eqb_neq in Q. eexists. split; [reflexivity|]. split; [split; reflexivity|]. do 2 (split; [reflexivity|]).
      split; [auto|]. intros [|Y]; [auto|]. destruct (is_block_fun _ _ _ _ _ _ X Y). congruence.
  - eexists. split; [exact H|]. split; [split; reflexivity|]. do 2 (split; [reflexivity|]).
    split; [auto|]. intros [|Y]; [auto|]. exfalso. exact (is_block_in _ _ _ _ Y (find_number_none _ _ E)).
Qed.
Lemma is_block_ids : forall bs cs n i b c, ids bs cs -> nth_error bs i = Some b -> nth_error cs i = Some c -> (is_block cs n i c <-> is_block bs n i b).
Proof.
  intros bs cs n i b c H Hb Hc. split; intro K.
  - assert (F := find_number_is _ _ _ _ K). rewrite (ids_find _ _ _ H) in F. destruct (find_number_some _ _ _ F) as [x X].
    assert (x = b) by (destruct X; congruence). subst; exact X.
  - assert (F := find_number_is _ _ _ _ K). rewrite <- (ids_find _ _ _ H) in F. destruct (find_number_some _ _ _ F) as [x X].
    assert (x = c) by (destruct X; congruence). subst; exact X.
Qed.

(** erase and without. *)
Lemma erase_nth_lt : forall A (l : list A) j k, (k < j)%nat -> nth_error (erase j l) k = nth_error l k.
Proof. induction l; intros [|j] [|k] H; cbn [erase nth_error]; auto; try lia. apply IHl. lia. Qed.
Lemma without_ext : forall A (l : list A) p q k, (forall j, (k <= j)%nat -> p j = q j) -> without p k l = without q k l.
Proof. induction l; intros p q k H; cbn [without]; [reflexivity|]. rewrite (H k) by lia. rewrite (IHl p q (S k)) by (intros; apply H; lia). reflexivity. Qed.
Lemma without_none : forall A (l : list A) p k, (forall j, (k <= j)%nat -> p j = false) -> without p k l = l.
Proof. induction l; intros p k H; cbn [without]; [reflexivity|]. rewrite (H k) by lia. rewrite IHl; [reflexivity|]. intros; apply H; lia. Qed.
Lemma without_erase : forall A (l : list A) j p k, (j < length l)%nat -> (forall i, (k + j <= i)%nat -> p i = false) ->
  without p k (erase j l) = without (fun i => (i =? k + j)%nat || p i) k l.
Proof.
  induction l; intros j p k Hj Hp; cbn [length] in Hj; [lia|]. destruct j; cbn [erase without].
  - replace (k =? k + 0)%nat with true by (symmetry; apply Nat.eqb_eq; lia). cbn [orb].
    rewrite without_none by (intros; apply Hp; lia). symmetry. apply without_none. intros i Hi.
    replace (i =? k + 0)%nat with false by (symmetry; apply Nat.eqb_neq; lia). cbn [orb]. apply Hp. lia.
  - replace (k =? k + S j)%nat with false by (symmetry; apply Nat.eqb_neq; lia). cbn [orb].
    rewrite (IHl j p (S k)); [|lia|intros; apply Hp; lia]. replace (S k + j)%nat with (k + S j)%nat by lia. reflexivity.
Qed.
Lemma erase_length : forall A (l : list A) j, (j < length l)%nat -> length (erase j l) = pred (length l).
Proof. induction l; intros [|j] H; cbn [erase length pred] in *; try lia. rewrite IHl by lia. destruct l; cbn [length] in *; lia. Qed.

(** One error. *)
Lemma event_demanded : forall l acc c, event l acc c = demanded l acc c.
Proof. intros l [|] [|]; reflexivity. Qed.
Lemma fail_one_none : forall l acc int pos c bs b, nth_error bs pos = Some b ->
  fail_one l acc int pos (None, c) bs = match react l acc int (a_targets (k_asb b)) (None, c) with
    | None => Drop | Some (ro, _) => Keep (if ro then upd pos delete bs else bs) end.
Proof.
  intros l acc int pos c bs b H. unfold fail_one, react, reaction, about_payload. rewrite H. cbn [fst snd]. rewrite !event_demanded.
  replace (U64MAX =? U64MAX) with true by reflexivity. rewrite orb_true_r, andb_true_r.
  destruct acc; cbn [andb orb].
  - destruct int; cbn [negb andb].
    + destruct (demanded l true c) as [m|]; [|reflexivity]. cbn [remove_op]. rewrite andb_true_r. destruct (N.testbit m 3); [reflexivity|]. destruct (N.testbit m 1); reflexivity.
    + destruct (demanded l true c); reflexivity.
  - rewrite ?event_demanded. destruct (demanded l false c) as [m|]; [|reflexivity]. rewrite andb_true_r. cbn [remove_op].
    destruct (N.testbit m 0), (N.testbit m 3), (N.testbit m 1); reflexivity.
Qed.
Lemma fail_one_some : forall l acc int pos j c bs b t, nth_error bs pos = Some b -> nth_error (a_targets (k_asb b)) j = Some t ->
  fail_one l acc int pos (Some j, c) bs = match react l acc int (a_targets (k_asb b)) (Some j, c) with
    | None => Drop
    | Some (ro, rt) =>
      if ro && negb (length (a_targets (k_asb b)) =? length (a_results (k_asb b)))%nat then Drop
      else let bs1 := if ro then upd pos (erase_op j) bs else bs in Keep (if rt then mark t bs1 else bs1)
    end.
Proof.
  intros l acc int pos j c bs b t H Ht.
  assert (R : remove_op pos (Some j) bs = if (length (a_targets (k_asb b)) =? length (a_results (k_asb b)))%nat then Some (upd pos (erase_op j) bs) else None).
  { cbn [remove_op]. rewrite H. assert (L : (j <? length (a_targets (k_asb b)))%nat = true) by (apply Nat.ltb_lt, nth_error_Some; congruence). rewrite L, andb_true_r. reflexivity. }
  unfold fail_one, react, reaction, about_payload. rewrite H. cbn [fst snd]. rewrite !event_demanded. rewrite Ht, R.
  assert (U : ((t =? 1) || (t =? U64MAX)) = false -> forall a m, remove_targets a t m = mark t m).
  { intros E a m. unfold remove_targets. destruct (t =? U64MAX); [rewrite orb_true_r in E; discriminate|reflexivity]. }
  destruct ((t =? 1) || (t =? U64MAX)); [clear U|specialize (U eq_refl)];
  destruct (length (a_targets (k_asb b)) =? length (a_results (k_asb b)))%nat; cbn [negb andb orb] in *;
  destruct acc; destruct int; cbn [negb andb orb];
  rewrite ?event_demanded; (match goal with |- context[demanded l ?x c] => destruct (demanded l x c) as [m|] end); cbn [negb andb orb]; try reflexivity;
  destruct (N.testbit m 0), (N.testbit m 3), (N.testbit m 1); cbn [negb andb orb]; rewrite ?R, ?U; reflexivity.
Qed.

Fixpoint decr (n : nat) (es : list err) : Prop := match es with [] => True | (Some j, _) :: r => (j < n)%nat /\ decr j r | (None, _) :: _ => False end.
Lemma reported_decr : forall n es, reported n es -> (exists c, es = [(None, c)]) \/ decr n es.
Proof.
  intros n es [H|[H1 H2]]; [left; exact H|right]. revert n H1 H2. induction es as [|[[j|] c] r IH]; intros n H1 H2; cbn [decr]; [exact I| |].
  - destruct (H1 (Some j, c) (or_introl eq_refl)) as [j' [E L]]. injection E as <-. split; [exact L|]. apply IH.
    + intros e He. destruct (H1 e (or_intror He)) as [k [E1 E2]]. exists k. split; [exact E1|].
      destruct (In_nth_error _ _ He) as [i Hi]. destruct e as [e1 e2]. cbn in E1. subst e1.
      exact (H2 0%nat (S i) j c (Nat.lt_0_succ _) eq_refl k e2 Hi).
    + intros i k a b L1 L2 x y L3. exact (H2 (S i) (S k) a b ltac:(lia) L2 x y L3).
  - destruct (H1 (None, c) (or_introl eq_refl)) as [j [E _]]. discriminate.
Qed.
Lemma decr_in : forall n es o c, decr n es -> In (o, c) es -> exists j, o = Some j /\ (j < n)%nat.
Proof.
  intros n es; revert n; induction es as [|[[j|] d] r IH]; intros n o c H I; cbn [decr] in H; [destruct I| |destruct H].
  destruct I as [E|I].
  - injection E as <- <-. exists j. split; [reflexivity|apply H].
  - destruct (IH j o c (proj2 H) I) as [k [E L]]. exists k. split; [exact E|]. lia.
Qed.

Definition outcome l acc int pos (a : asb) es bs : Prop :=
  (fail_all l acc int pos es bs = Drop <-> dropped_by l acc int a es) /\ fail_all l acc int pos es bs <> Ub /\
  forall bs', fail_all l acc int pos es bs = Keep bs' -> after l acc int pos a es bs bs'.

Lemma asb_eta : forall a, mkAsb (a_source a) (a_targets a) (a_results a) = a.
Proof. destruct a; reflexivity. Qed.
Lemma outcome_nil : forall l acc int pos bs b, nth_error bs pos = Some b -> outcome l acc int pos (k_asb b) [] bs.
Proof.
  intros l acc int pos bs b H. unfold outcome. cbn [fail_all]. split; [|split].
  - split; [discriminate|]. intros [[e [[] _]]|[_ [j [c [x [[] _]]]]]].
  - discriminate.
  - intros bs' [= <-]. split; [reflexivity|]. intros i c Hc. exists c. do 5 (split; [auto|]).
    assert (W : forall A (l0 : list A), without (op_removed l acc int (a_targets (k_asb b)) []) 0 l0 = l0) by (intros; apply without_none; reflexivity).
    split.
    + intros ->. rewrite !W, asb_eta. congruence.
    + rewrite W. split; [auto|]. intros [D|[[n [[j [d [x [[] _]]]] _]]|[_ [[d [x [[] _]]]|[A B]]]]]; [auto|contradiction].
Qed.
Lemma outcome_none : forall l acc int pos bs b c, nth_error bs pos = Some b -> outcome l acc int pos (k_asb b) [(None, c)] bs.
Proof.
  intros l acc int pos bs b c H. unfold outcome. cbn [fail_all]. rewrite (fail_one_none _ _ _ _ _ _ _ H).
  destruct (react l acc int (a_targets (k_asb b)) (None, c)) as [[ro rt]|] eqn:R.
  - split; [|split].
    + split; [discriminate|]. intros [[e [[<-|[]] E]]|[_ [j [d [x [[E|[]] _]]]]]]; [congruence|discriminate].
    + discriminate.
    + intros bs' [= <-].
      assert (W : forall A (l0 : list A), without (op_removed l acc int (a_targets (k_asb b)) [(None, c)]) 0 l0 = l0) by (intros; apply without_none; reflexivity).
      split; [destruct ro; [apply upd_length|reflexivity]|]. intros i d Hd.
      exists (if ro && (pos =? i)%nat then delete d else d). split; [|split; [|split; [|split; [|split; [|split]]]]].
      * destruct ro; cbn [andb]; [|exact Hd]. rewrite upd_nth, Hd. destruct (pos =? i)%nat; reflexivity.
      * destruct (ro && (pos =? i)%nat); reflexivity.
      * destruct (ro && (pos =? i)%nat); reflexivity.
      * destruct (ro && (pos =? i)%nat); reflexivity.
      * intros. destruct (ro && (pos =? i)%nat); reflexivity.
      * intros ->. rewrite !W, asb_eta. replace d with b by congruence. destruct (ro && (pos =? pos)%nat); reflexivity.
      * rewrite W. split.
        { destruct ro; cbn [andb]; [|auto]. destruct (pos =? i)%nat eqn:Q; [|auto]. intros _. right. right. split; [apply Nat.eqb_eq in Q; auto|].
          left. exists c, rt. split; [left; reflexivity|exact R]. }
        { intros [D|[[n [[j [e [x [[E|[]] _]]]] _]]|[-> [[e [x [[E|[]] F]]]|[A B]]]]].
          - destruct (ro && (pos =? i)%nat); [reflexivity|exact D].
          - discriminate.
          - injection E as <-. replace ro with true by congruence. rewrite Nat.eqb_refl. reflexivity.
          - contradiction. }
  - split; [|split].
    + split; [|reflexivity]. intros _. left. exists (None, c). split; [left; reflexivity|exact R].
    + discriminate.
    + discriminate.
Qed.

Lemma react_nth : forall l acc int ts ts' j c, nth_error ts' j = nth_error ts j -> react l acc int ts' (Some j, c) = react l acc int ts (Some j, c).
Proof. intros. unfold react, about_payload. cbn [fst]. rewrite H. reflexivity. Qed.
Lemma outcome_decr : forall es l acc int pos bs b n, nth_error bs pos = Some b -> (n <= length (a_targets (k_asb b)))%nat -> decr n es -> outcome l acc int pos (k_asb b) es bs.
Proof.
  induction es as [|[[j|] c] r IH]; intros l acc int pos bs b n H Hn D; [apply outcome_nil; exact H| |destruct D].
  destruct D as [Hj D]. assert (Hj' : (j < length (a_targets (k_asb b)))%nat) by lia. assert (NE : a_targets (k_asb b) <> []) by (intro W; rewrite W in Hj'; cbn in Hj'; lia).
  destruct (nth_error (a_targets (k_asb b)) j) as [t|] eqn:T; [|apply nth_error_None in T; lia].
  unfold outcome. cbn [fail_all]. rewrite (fail_one_some _ _ _ _ _ c _ _ _ H T).
  destruct (react l acc int (a_targets (k_asb b)) (Some j, c)) as [[ro rt]|] eqn:R.
  2:{ split; [|split]; [|discriminate|discriminate]. split; [|reflexivity]. intros _. left. exists (Some j, c). split; [left; reflexivity|exact R]. }
  destruct (ro && negb (length (a_targets (k_asb b)) =? length (a_results (k_asb b)))%nat) eqn:M.
  { apply andb_true_iff in M. destruct M as [-> M]. apply negb_true_iff, Nat.eqb_neq in M.
    split; [|split]; [|discriminate|discriminate]. split; [|reflexivity]. intros _. right. split; [exact M|]. exists j, c, rt. split; [left; reflexivity|exact R]. }
  cbv beta iota zeta. set (bs1 := if ro then upd pos (erase_op j) bs else bs).
  set (bs2 := if rt then mark t bs1 else bs1).
  set (b1 := if ro then erase_op j b else b).
  assert (H1 : nth_error bs1 pos = Some b1).
  { unfold bs1, b1. destruct ro; [|exact H]. rewrite upd_nth, Nat.eqb_refl, H. reflexivity. }
  assert (I1 : ids bs bs1) by (unfold bs1; destruct ro; [apply ids_upd; intro; split; reflexivity|apply ids_refl]).
  assert (N1 : forall i x, nth_error bs i = Some x -> exists y, nth_error bs1 i = Some y /\ same_id x y /\ k_encrypted y = k_encrypted x /\ (i <> pos -> k_asb y = k_asb x /\ k_deleted y = k_deleted x)).
  { intros i x Hx. unfold bs1. destruct ro.
    - rewrite upd_nth, Hx. destruct (pos =? i)%nat eqn:Q; cbn [option_map]; eexists; (split; [reflexivity|]); (split; [split; reflexivity|]); (split; [reflexivity|]).
      + apply Nat.eqb_eq in Q. congruence.
      + auto.
    - exists x. repeat split; auto. }
  assert (Hb2 : exists b2, nth_error bs2 pos = Some b2 /\ k_asb b2 = k_asb b1 /\ same_id b1 b2).
  { unfold bs2. destruct rt; [|exists b1; repeat split; auto]. destruct (mark_nth t bs1 pos b1 H1) as [y [Y1 [Y2 [Y3 _]]]]. exists y. auto. }
  destruct Hb2 as [b2 [H2 [A2 _]]].
  assert (I2 : ids bs bs2) by (unfold bs2; destruct rt; [eapply ids_trans; [exact I1|apply mark_ids]|exact I1]).
  assert (K1 : a_targets (k_asb b2) = if ro then erase j (a_targets (k_asb b)) else a_targets (k_asb b)) by (rewrite A2; unfold b1; destruct ro; reflexivity).
  assert (K2 : a_results (k_asb b2) = if ro then erase j (a_results (k_asb b)) else a_results (k_asb b)) by (rewrite A2; unfold b1; destruct ro; reflexivity).
  assert (K3 : a_source (k_asb b2) = a_source (k_asb b)) by (rewrite A2; unfold b1; destruct ro; reflexivity).
  assert (Hlen : (j <= length (a_targets (k_asb b2)))%nat).
  { rewrite K1. destruct ro; [rewrite erase_length by exact Hj'; lia|lia]. }
  specialize (IH l acc int pos bs2 b2 j H2 Hlen D). destruct IH as [IA [IB IC]].
  assert (NTH : forall k, (k < j)%nat -> nth_error (a_targets (k_asb b2)) k = nth_error (a_targets (k_asb b)) k).
  { intros k Hk. rewrite K1. destruct ro; [apply erase_nth_lt; exact Hk|reflexivity]. }
  assert (RE : forall e, In e r -> react l acc int (a_targets (k_asb b2)) e = react l acc int (a_targets (k_asb b)) e).
  { intros [o d] He. destruct (decr_in _ _ _ _ D He) as [k [-> Hk]]. apply react_nth, NTH, Hk. }
  assert (LEN : ro = true -> length (a_targets (k_asb b)) = length (a_results (k_asb b))).
  { intros ->. cbn [andb] in M. apply negb_false_iff, Nat.eqb_eq in M. exact M. }
  assert (OP : forall k, op_removed l acc int (a_targets (k_asb b2)) r k = op_removed l acc int (a_targets (k_asb b)) r k).
  { intro k. unfold op_removed. clear -RE. induction r as [|e r IHr]; [reflexivity|]. cbn [existsb]. rewrite (RE e) by (left; reflexivity). f_equal. apply IHr. intros; apply RE; right; auto. }
  assert (OPj : forall k, (j <= k)%nat -> op_removed l acc int (a_targets (k_asb b2)) r k = false).
  { intros k Hk. apply not_true_is_false. intro E. unfold op_removed in E. apply existsb_exists in E. destruct E as [[o d] [E1 E2]].
    destruct (decr_in _ _ _ _ D E1) as [i [-> Hi]]. cbn [fst] in E2. revert E2. destruct (react l acc int (a_targets (k_asb b2)) (Some i, d)) as [[[] x]|]; intro E2; try discriminate. apply Nat.eqb_eq in E2. lia. }
  assert (OPc : forall k, op_removed l acc int (a_targets (k_asb b)) ((Some j, c) :: r) k = (ro && (j =? k)%nat) || op_removed l acc int (a_targets (k_asb b)) r k).
  { intro k. unfold op_removed. cbn [existsb fst]. rewrite R. destruct ro; reflexivity. }
  assert (WT : without (op_removed l acc int (a_targets (k_asb b2)) r) 0 (a_targets (k_asb b2)) = without (op_removed l acc int (a_targets (k_asb b)) ((Some j, c) :: r)) 0 (a_targets (k_asb b))).
  { rewrite K1 at 2. destruct ro.
    - rewrite without_erase by (auto; intros; apply OPj; lia). apply without_ext. intros k _. rewrite OPc, OP. cbn [andb]. rewrite (Nat.eqb_sym j k). reflexivity.
    - apply without_ext. intros k _. rewrite OPc, OP. reflexivity. }
  assert (WR : without (op_removed l acc int (a_targets (k_asb b2)) r) 0 (a_results (k_asb b2)) = without (op_removed l acc int (a_targets (k_asb b)) ((Some j, c) :: r)) 0 (a_results (k_asb b))).
  { rewrite K2. destruct ro.
    - rewrite without_erase; [|rewrite <- LEN by reflexivity; exact Hj'|intros; apply OPj; lia]. apply without_ext. intros k _. rewrite OPc, OP. cbn [andb]. rewrite (Nat.eqb_sym j k). reflexivity.
    - apply without_ext. intros k _. rewrite OPc, OP. reflexivity. }
  split; [|split; [exact IB|]].
  - rewrite IA. unfold dropped_by. split.
    + intros [[e [E1 E2]]|[L [k [d [x [E1 E2]]]]]].
      * left. exists e. split; [right; exact E1|]. rewrite <- RE by exact E1. exact E2.
      * right. split.
        { rewrite K1, K2 in L. destruct ro; [|exact L]. assert (Q := LEN eq_refl). rewrite !erase_length in L by lia. lia. }
        { exists k, d, x. split; [right; exact E1|]. rewrite <- RE by exact E1. exact E2. }
    + intros [[e [[<-|E1] E2]]|[L [k [d [x [[E1|E1] E2]]]]]].
      * congruence.
      * left. exists e. split; [exact E1|]. rewrite RE by exact E1. exact E2.
      * injection E1 as <- <-. assert (ro = true) by congruence. contradiction (LEN H0).
      * right. split.
        { rewrite K1, K2. destruct ro; [contradiction (LEN eq_refl)|exact L]. }
        { exists k, d, x. split; [exact E1|]. rewrite RE by exact E1. exact E2. }
  - intros bs' E. destruct (IC bs' E) as [L F]. split; [rewrite L; apply I2|]. intros i x Hx.
    destruct (N1 i x Hx) as [y [Y1 [[Y2 Y3] [Y4 Y5]]]].
    assert (HZ : exists z, nth_error bs2 i = Some z /\ same_id y z /\ k_asb z = k_asb y /\ k_encrypted z = k_encrypted y /\ (k_deleted z = true <-> k_deleted y = true \/ (rt = true /\ is_block bs1 t i y))).
    { unfold bs2. destruct rt.
      - destruct (mark_nth t bs1 i y Y1) as [z [Z1 [Z2 [Z3 [Z4 Z5]]]]]. exists z. do 4 (split; [auto|]). rewrite Z5. tauto.
      - exists y. do 4 (split; [auto; split; reflexivity|]). split; [auto|intros [|[Q _]]; [auto|discriminate]]. }
    destruct HZ as [z [Z1 [[Z2 Z2'] [Z3 [Z4 Z5]]]]].
    destruct (F i z Z1) as [c' [C1 [C2 [C3 [C4 [C5 [C6 C7]]]]]]]. exists c'. split; [exact C1|]. split; [congruence|]. split; [congruence|]. split; [congruence|].
    split; [intro Q; rewrite C5 by exact Q; rewrite Z3; apply Y5; exact Q|].
    split; [intro Q; rewrite C6 by exact Q; rewrite WT, WR, K3; reflexivity|].
    rewrite C7, Z5, WT.
    assert (B : forall n, is_block bs2 n i z <-> is_block bs n i x) by (intro; apply is_block_ids; auto).
    assert (B1 : is_block bs1 t i y <-> is_block bs t i x) by (apply is_block_ids; auto).
    assert (YD : k_deleted y = true <-> k_deleted x = true \/ (i = pos /\ ro = true /\ erase j (a_targets (k_asb b)) = [])).
    { destruct (Nat.eq_dec i pos) as [->|Q].
      - assert (x = b) by congruence. subst x. assert (y = b1) by congruence. subst y. unfold b1. destruct ro.
        2:{ split; [auto|]. intros [|[_ [Q _]]]; [auto|discriminate]. }
        cbn [erase_op k_deleted k_asb a_targets]. destruct (erase j (a_targets (k_asb b))).
        { split; [auto|reflexivity]. }
        { split; [auto|]. intros [|[_ [_ Q]]]; [auto|discriminate]. }
      - destruct (Y5 Q) as [_ ->]. split; [auto|]. intros [|[W _]]; [auto|contradiction]. }
    rewrite YD. unfold target_removed, all_removed. split.
    + intros [[[X|[Q1 [Q2 Q3]]]|[Q1 Q2]]|[[nn [[k [d [w [E1 [E2 E3]]]]] E4]]|[Q [[d [w [E1 _]]]|[Q1 Q2]]]]].
      * left; exact X.
      * right. right. split; [exact Q1|]. right. split; [exact NE|]. refine (eq_trans (eq_sym WT) _). rewrite K1, Q2, Q3. reflexivity.
      * right. left. exists t. split; [|apply B1; exact Q2]. subst rt. exists j, c, ro. split; [left; reflexivity|]. split; [exact T|exact R].
      * right. left. exists nn. split; [|apply B; exact E4]. exists k, d, w. split; [right; exact E1|]. destruct (decr_in _ _ _ _ D E1) as [k' [[= <-] Hk]].
        rewrite NTH in E2 by exact Hk. split; [exact E2|]. rewrite <- RE by exact E1. exact E3.
      * destruct (decr_in _ _ _ _ D E1) as [k' [W _]]. discriminate.
      * right. right. split; [exact Q|]. right. split; [exact NE|exact Q2].
    + intros [X|[[nn [[k [d [w [[E1|E1] [E2 E3]]]]] E4]]|[Q [[d [w [[E1|E1] _]]]|[Q1 Q2]]]]].
      * left. left. left. exact X.
      * injection E1 as <- <-. left. right. assert (rt = true) by congruence. split; [assumption|]. assert (nn = t) by congruence. subst nn. apply B1. exact E4.
      * right. left. exists nn. split; [|apply B; exact E4]. exists k, d, w. split; [exact E1|]. destruct (decr_in _ _ _ _ D E1) as [k' [[= <-] Hk]].
        rewrite NTH by exact Hk. split; [exact E2|]. rewrite RE by exact E1. exact E3.
      * discriminate.
      * destruct (decr_in _ _ _ _ D E1) as [k' [W _]]. discriminate.
      * destruct (a_targets (k_asb b2)) eqn:TT.
        { left. left. right. split; [exact Q|]. destruct ro; [split; [reflexivity|]|]; [exact (eq_sym K1)|]. contradiction (NE (eq_sym K1)). }
        { right. right. split; [exact Q|]. right. split; [discriminate|exact Q2]. }
Qed.

(** The loops over the targets. *)
Definition errs (j : nat) (rs : list (option code)) : list err :=
  rev (flat_map (fun jr : nat * option code => match snd jr with Some c => [(Some (fst jr), c)] | None => [] end) (combine (seq j (length rs)) rs)).
Lemma errs_cons : forall j r rs, errs j (r :: rs) = errs (S j) rs ++ match r with Some c => [(Some j, c)] | None => [] end.
Proof. intros. unfold errs. cbn [length seq combine flat_map fst snd]. rewrite rev_app_distr. f_equal. destruct r; reflexivity. Qed.
Lemma errs_decr : forall rs j n, (j + length rs <= n)%nat -> forall es m, (m <= n)%nat -> decr m es -> (m <= j)%nat -> decr n (errs j rs ++ es).
Proof.
  induction rs as [|r rs IH]; intros j n H es m Hm D L.
  - cbn. clear -D Hm. destruct es as [|[[k|] c] es]; cbn [decr] in *; auto. split; [lia|apply D].
  - cbn [length] in H. rewrite errs_cons, <- app_assoc. destruct r as [c|].
    + apply (IH (S j) n ltac:(lia) _ (S j)); [lia| |lia]. cbn [app decr]. split; [lia|]. clear -D L. destruct es as [|[[k|] c] es]; cbn [decr] in *; auto. split; [lia|apply D].
    + cbn [app]. apply (IH (S j) n ltac:(lia) _ m); auto.
Qed.
Lemma errs_nil : forall rs j, errs j rs = [] <-> forall r, In r rs -> r = None.
Proof.
  induction rs as [|r rs IH]; intro j.
  - split; [intros _ r []|reflexivity].
  - rewrite errs_cons. split.
    + intros H x [<-|I]; apply app_eq_nil in H; destruct H as [A B]; [destruct r; [discriminate|reflexivity]|apply (IH (S j)); auto].
    + intro H. rewrite (H r (or_introl eq_refl)). rewrite app_nil_r. apply IH. intros; apply H; right; auto.
Qed.
Lemma types_mask_spec : forall ts t, N.testbit (types_mask ts) t = true <-> In t ts.
Proof.
  intros ts t. unfold types_mask.
  assert (G : forall ts m, N.testbit (fold_left (fun m t => N.lor m (N.shiftl 1 t)) ts m) t = true <-> N.testbit m t = true \/ In t ts).
  { clear. induction ts as [|x r IH]; intro m; cbn [fold_left In]; [tauto|]. rewrite IH, N.lor_spec, orb_true_iff.
    assert (N.testbit (N.shiftl 1 x) t = true <-> x = t).
    { rewrite N.shiftl_1_l, N.pow2_bits_eqb, N.eqb_eq. tauto. }
    tauto. }
  rewrite G. rewrite N.bits_0. intuition discriminate.
Qed.
Lemma expected_dec : forall ts b, ((k_type b <=? 63) && negb (N.testbit (types_mask ts) (k_type b))) = true <-> ~ expected_type ts (k_type b).
Proof.
  intros ts b. unfold expected_type. rewrite andb_true_iff, negb_true_iff, N.leb_le, <- not_true_iff_false, types_mask_spec.
  split; [intros [A B] C; auto|]. intro H. destruct (N.le_gt_cases (k_type b) 63) as [L|L]; [split; [exact L|]; intro; apply H; auto|exfalso; apply H; intro; lia].
Qed.
Lemma expected_dec' : forall ts b, ((k_type b <=? 63) && negb (N.testbit (types_mask ts) (k_type b))) = false <-> expected_type ts (k_type b).
Proof.
  intros ts b. rewrite <- not_true_iff_false, expected_dec. split; [|tauto].
  intro H. intro L. destruct (in_dec N.eq_dec (k_type b) ts); [assumption|]. exfalso. apply H. intro E. exact (n (E L)).
Qed.
Lemma bit_or : forall m x t, N.testbit (N.lor m (N.shiftl 1 x)) t = true <-> N.testbit m t = true \/ t = x.
Proof. intros. rewrite N.lor_spec, orb_true_iff, N.shiftl_1_l, N.pow2_bits_eqb, N.eqb_eq. intuition. Qed.

(** What opening does to the blocks. *)
Definition opened_by ts o verify j targets bs bs' : Prop :=
  ids bs bs' /\ forall i c, nth_error bs i = Some c -> exists c', nth_error bs' i = Some c' /\ k_deleted c' = k_deleted c /\
    (k_encrypted c' = true <-> k_encrypted c = true /\ ~ opens ts o verify j targets bs i c) /\ (~ opens ts o verify j targets bs i c -> k_asb c' = k_asb c).
Lemma bcb_error_ids : forall bs cs ts verify o j t r, ids bs cs -> bcb_error cs ts verify o j t r -> bcb_error bs ts verify o j t r.
Proof.
  intros bs cs ts verify o j t r H [[A B]|[i [c [A B]]]].
  - left. split; [|exact B]. intros b Hb. destruct (In_nth_error _ _ Hb) as [k K]. destruct H as [_ H]. destruct (H _ _ K) as [c [C1 [C2 C3]]].
    intro E. apply (A c (nth_error_In _ _ C1)). congruence.
  - right. destruct (ids_back _ _ _ _ H (proj1 A)) as [b [B1 [B2 B3]]]. exists i, b. split; [apply (is_block_ids _ _ _ _ _ _ H B1 (proj1 A)); exact A|]. rewrite <- B2. exact B.
Qed.
Definition types_of bs targets t : Prop := exists n i b, In n targets /\ is_block bs n i b /\ k_type b = t.
Lemma types_of_ids : forall bs cs targets t, ids bs cs -> (types_of cs targets t <-> types_of bs targets t).
Proof.
  intros bs cs targets t H. split; intros [n [i [b [A [B C]]]]].
  - destruct (ids_back _ _ _ _ H (proj1 B)) as [c [C1 [C2 C3]]]. exists n, i, c. split; [exact A|]. split; [apply (is_block_ids _ _ _ _ _ _ H C1 (proj1 B)); exact B|congruence].
  - destruct (proj2 H _ _ (proj1 B)) as [c [C1 [C2 C3]]]. exists n, i, c. split; [exact A|]. split; [apply (is_block_ids _ _ _ _ _ _ H (proj1 B) C1); exact B|congruence].
Qed.
Lemma opened_step : forall ts o verify j t r bs bs1 bs',
  ids bs bs1 -> (forall i c, nth_error bs i = Some c -> exists c1, nth_error bs1 i = Some c1 /\ k_deleted c1 = k_deleted c /\
    (k_encrypted c1 = true <-> k_encrypted c = true /\ ~ (verify = false /\ is_block bs t i c /\ expected_type ts (k_type c) /\ o j <> Failed)) /\
    (~ (verify = false /\ is_block bs t i c /\ expected_type ts (k_type c) /\ o j <> Failed) -> k_asb c1 = k_asb c)) ->
  opened_by ts o verify (S j) r bs1 bs' -> opened_by ts o verify j (t :: r) bs bs'.
Proof.
  intros ts o verify j t r bs bs1 bs' I1 H1 [I2 H2]. split; [eapply ids_trans; eassumption|]. intros i c Hc.
  destruct (H1 i c Hc) as [c1 [C1 [C2 [C3 C4]]]]. destruct (H2 i c1 C1) as [c' [D1 [D2 [D3 D4]]]]. exists c'. split; [exact D1|]. split; [congruence|].
  assert (E : opens ts o verify j (t :: r) bs i c <-> (verify = false /\ is_block bs t i c /\ expected_type ts (k_type c) /\ o j <> Failed) \/ opens ts o verify (S j) r bs1 i c1).
  { assert (T : k_type c1 = k_type c) by (destruct (proj2 I1 i c Hc) as [x [X1 [X2 X3]]]; congruence).
    unfold opens. split.
    - intros [V [[|k] [u [K1 [K2 [K3 K4]]]]]]; cbn [nth_error] in K1.
      + injection K1 as <-. left. rewrite Nat.add_0_r in K4. auto.
      + right. split; [exact V|]. exists k, u. split; [exact K1|]. split; [apply (is_block_ids _ _ _ _ _ _ I1 Hc C1); exact K2|]. rewrite T. split; [exact K3|]. replace (S j + k)%nat with (j + S k)%nat by lia. exact K4.
    - intros [[V [K2 [K3 K4]]]|[V [k [u [K1 [K2 [K3 K4]]]]]]].
      + split; [exact V|]. exists 0%nat, t. rewrite Nat.add_0_r. auto.
      + split; [exact V|]. exists (S k), u. split; [exact K1|]. split; [apply (is_block_ids _ _ _ _ _ _ I1 Hc C1); exact K2|]. rewrite <- T. split; [exact K3|]. replace (j + S k)%nat with (S j + k)%nat by lia. exact K4. }
  rewrite E. split.
  - rewrite D3, C3. tauto.
  - intro N. rewrite D4 by tauto. apply C4. tauto.
Qed.
Lemma open_targets_spec : forall ts o verify targets j bs es got, exists rs bs' got',
  open_targets (types_mask ts) o verify targets j bs es got = (bs', errs j rs ++ es, got') /\ length rs = length targets /\
  (forall k t r, nth_error targets k = Some t -> nth_error rs k = Some r -> bcb_error bs ts verify o (j + k) t r) /\
  opened_by ts o verify j targets bs bs' /\
  (forall x, N.testbit got' x = true -> N.testbit got x = true \/ (x <= 63 /\ In x ts /\ types_of bs targets x)) /\
  (forall x, N.testbit got x = true -> N.testbit got' x = true) /\
  ((forall r, In r rs -> r = None) -> forall x, x <= 63 -> types_of bs targets x -> N.testbit got' x = true).
Proof.
  intros ts o verify. induction targets as [|t r IH]; intros j bs es got.
  { exists [], bs, got. cbn [open_targets]. split; [reflexivity|]. split; [reflexivity|]. split; [intros [|k] t r; discriminate|].
    split.
    { split; [apply ids_refl|]. intros i c Hc. exists c. split; [exact Hc|]. split; [reflexivity|]. split; [|auto].
      split; [|tauto]. intro E. split; [exact E|]. intros [_ [[|k] [t [K _]]]]; discriminate. }
    split; [auto|]. split; [auto|]. intros _ x _ [n [i [b [[] _]]]]. }
  (* one more target, the rest with bs1, es1 and got1 *)
  assert (STEP : forall res bs1 got1,
     bcb_error bs ts verify o j t res ->
     open_targets (types_mask ts) o verify (t :: r) j bs es got = open_targets (types_mask ts) o verify r (S j) bs1 (match res with Some c => [(Some j, c)] | None => [] end ++ es) got1 ->
     ids bs bs1 -> (forall i c, nth_error bs i = Some c -> exists c1, nth_error bs1 i = Some c1 /\ k_deleted c1 = k_deleted c /\
    (k_encrypted c1 = true <-> k_encrypted c = true /\ ~ (verify = false /\ is_block bs t i c /\ expected_type ts (k_type c) /\ o j <> Failed)) /\
    (~ (verify = false /\ is_block bs t i c /\ expected_type ts (k_type c) /\ o j <> Failed) -> k_asb c1 = k_asb c)) ->
     (forall x, N.testbit got1 x = true -> N.testbit got x = true \/ (x <= 63 /\ In x ts /\ types_of bs [t] x)) ->
     (forall x, N.testbit got x = true -> N.testbit got1 x = true) ->
     (res = None -> forall x, x <= 63 -> types_of bs [t] x -> N.testbit got1 x = true) ->
     exists rs bs' got', open_targets (types_mask ts) o verify (t :: r) j bs es got = (bs', errs j rs ++ es, got') /\ length rs = length (t :: r) /\
      (forall k t0 r0, nth_error (t :: r) k = Some t0 -> nth_error rs k = Some r0 -> bcb_error bs ts verify o (j + k) t0 r0) /\
      opened_by ts o verify j (t :: r) bs bs' /\
      (forall x, N.testbit got' x = true -> N.testbit got x = true \/ (x <= 63 /\ In x ts /\ types_of bs (t :: r) x)) /\
      (forall x, N.testbit got x = true -> N.testbit got' x = true) /\
      ((forall r, In r rs -> r = None) -> forall x, x <= 63 -> types_of bs (t :: r) x -> N.testbit got' x = true)).
  { intros res bs1 got1 E0 E1 I1 F1 G1 G2 G3. destruct (IH (S j) bs1 (match res with Some c => [(Some j, c)] | None => [] end ++ es) got1) as [rs [bs' [got' [A1 [A2 [A3 [A4 [A5 [A6 A7]]]]]]]]].
    exists (res :: rs), bs', got'. rewrite E1, A1, errs_cons, <- app_assoc. split; [reflexivity|]. split; [cbn; lia|]. split.
    { intros [|k] t0 r0 K1 K2; cbn [nth_error] in K1, K2.
      - injection K1 as <-. injection K2 as <-. rewrite Nat.add_0_r. exact E0.
      - replace (j + S k)%nat with (S j + k)%nat by lia. apply (bcb_error_ids bs bs1); [exact I1|]. apply A3; assumption. }
    split; [eapply opened_step; eassumption|].
    assert (TC : forall x, types_of bs (t :: r) x <-> types_of bs [t] x \/ types_of bs1 r x).
    { intro x. rewrite (types_of_ids bs bs1 r x I1). unfold types_of. split.
      - intros [n [i [b [[<-|N] B]]]]; [left|right]; [exists t, i, b; split; [left; reflexivity|exact B]|exists n, i, b; auto].
      - intros [[n [i [b [[<-|[]] B]]]]|[n [i [b [N B]]]]]; [exists t, i, b|exists n, i, b]; (split; [cbn; auto|exact B]). }
    split.
    { intros x X. rewrite TC. destruct (A5 x X) as [Y|Y]; [destruct (G1 x Y) as [Z|Z]; [auto|right; tauto]|right; tauto]. }
    split; [auto|]. intros AN x X Y. apply TC in Y. destruct Y as [Y|Y].
    - apply A6, G3; auto. apply AN. left. reflexivity.
    - apply A7; auto. intros; apply AN; right; auto. }
  assert (SAME : (verify = true \/ (forall i c, is_block bs t i c -> ~ expected_type ts (k_type c)) \/ o j = Failed) -> forall i c, nth_error bs i = Some c -> exists c1, nth_error bs i = Some c1 /\ k_deleted c1 = k_deleted c /\
    (k_encrypted c1 = true <-> k_encrypted c = true /\ ~ (verify = false /\ is_block bs t i c /\ expected_type ts (k_type c) /\ o j <> Failed)) /\
    (~ (verify = false /\ is_block bs t i c /\ expected_type ts (k_type c) /\ o j <> Failed) -> k_asb c1 = k_asb c)).
  { intros H i c Hc. exists c. split; [exact Hc|]. split; [reflexivity|]. split; [|auto]. split; [|tauto]. intro E. split; [exact E|]. intros [V [B [X O]]].
    destruct H as [H|[H|H]]; [congruence|exact (H i c B X)|exact (O H)]. }
  destruct (find_number t bs) as [i|] eqn:F.
  2:{ apply (STEP (Some Corrupted) bs got); auto.
    - left. split; [apply find_number_none; exact F|reflexivity].
    - cbn [open_targets]. rewrite F. reflexivity.
    - apply ids_refl.
    - apply SAME. right. left. intros i c B. exfalso. exact (is_block_in _ _ _ _ B (find_number_none _ _ F)).
    - discriminate. }
  destruct (find_number_some _ _ _ F) as [b B]. assert (Nb := proj1 B).
  destruct ((k_type b <=? 63) && negb (N.testbit (types_mask ts) (k_type b))) eqn:X.
  { assert (X' := X). apply expected_dec in X'. apply (STEP (Some Misconfigured) bs got); auto.
    - right. exists i, b. split; [exact B|]. left. auto.
    - cbn [open_targets]. rewrite F, Nb, X. reflexivity.
    - apply ids_refl.
    - apply SAME. right. left. intros k c C. destruct (is_block_fun _ _ _ _ _ _ B C) as [_ <-]. exact X'.
    - discriminate. }
  assert (X' := X). apply expected_dec' in X'.
  set (got1 := if k_type b <=? 63 then N.lor got (N.shiftl 1 (k_type b)) else got).
  assert (G1 : forall x, N.testbit got1 x = true -> N.testbit got x = true \/ (x <= 63 /\ In x ts /\ types_of bs [t] x)).
  { intros x. unfold got1. destruct (k_type b <=? 63) eqn:Q; [|auto]. rewrite bit_or. apply N.leb_le in Q. intros [Y | -> ]; [auto|]. right. split; [exact Q|]. split; [apply X'; exact Q|].
    exists t, i, b. split; [left; reflexivity|]. auto. }
  assert (G2 : forall x, N.testbit got x = true -> N.testbit got1 x = true).
  { intros x. unfold got1. destruct (k_type b <=? 63); [|auto]. rewrite bit_or. auto. }
  assert (G3 : forall x, x <= 63 -> types_of bs [t] x -> N.testbit got1 x = true).
  { intros x L [n [k [c [[<-|[]] [C1 C2]]]]]. destruct (is_block_fun _ _ _ _ _ _ B C1) as [_ <-]. subst x. unfold got1. replace (k_type b <=? 63) with true by (symmetry; apply N.leb_le; exact L).
    rewrite bit_or. auto. }
  assert (OPEN : forall a, verify = false -> o j <> Failed -> forall k c, nth_error bs k = Some c -> exists c1, nth_error (upd i (set_plain a) bs) k = Some c1 /\ k_deleted c1 = k_deleted c /\
    (k_encrypted c1 = true <-> k_encrypted c = true /\ ~ (verify = false /\ is_block bs t k c /\ expected_type ts (k_type c) /\ o j <> Failed)) /\
    (~ (verify = false /\ is_block bs t k c /\ expected_type ts (k_type c) /\ o j <> Failed) -> k_asb c1 = k_asb c)).
  { intros a V O k c Hc. rewrite upd_nth, Hc. destruct (i =? k)%nat eqn:Q; cbn [option_map]; eexists; (split; [reflexivity|]); (split; [reflexivity|]).
    - apply Nat.eqb_eq in Q. subst k. assert (c = b) by congruence. subst c. cbn [set_plain k_encrypted k_asb].
      split; [|tauto]. split; [discriminate|tauto].
    - split; [|auto]. split; [|tauto]. intro E. split; [exact E|]. intros [_ [C _]]. destruct (is_block_fun _ _ _ _ _ _ B C) as [W _]. apply Nat.eqb_neq in Q. contradiction. }
  assert (BE : bcb_error bs ts verify o j t (match o j with Failed => Some Corrupted | Unreadable _ => if verify then None else Some Corrupted | Readable _ => None end)).
  { right. exists i, b. split; [exact B|]. right. auto. }
  destruct (o j) as [|a|a] eqn:O.
  - apply (STEP (Some Corrupted) bs got1); auto.
    + cbn [open_targets]. rewrite F, Nb, X, O. reflexivity.
    + apply ids_refl.
  - destruct verify eqn:V.
    + apply (STEP None bs got1); auto.
      * cbn [open_targets]. rewrite F, Nb, X, O. reflexivity.
      * apply ids_refl.
    + apply (STEP (Some Corrupted) (upd i (set_plain a) bs) got1); auto.
      * cbn [open_targets]. rewrite F, Nb, X, O. reflexivity.
      * apply ids_upd. intro; split; reflexivity.
      * apply OPEN; [reflexivity|discriminate].
  - destruct verify eqn:V.
    + apply (STEP None bs got1); auto.
      * cbn [open_targets]. rewrite F, Nb, X, O. reflexivity.
      * apply ids_refl.
    + apply (STEP None (upd i (set_plain a) bs) got1); auto.
      * cbn [open_targets]. rewrite F, Nb, X, O. reflexivity.
      * apply ids_upd. intro; split; reflexivity.
      * apply OPEN; [reflexivity|discriminate].
Qed.
