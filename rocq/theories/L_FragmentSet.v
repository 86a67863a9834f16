From Coq Require Import NArith List Bool Lia Sorted ZifyBool ZifyN.
From Verif Require Import Base M_FragmentSet S_FragmentSet.
Import ListNotations.
Open Scope N_scope.


Lemma covers_nil i : covers [] i <-> False.
Proof. split; [intros (f & [] & _)|tauto]. Qed.
Lemma covers_cons e s i : covers (e :: s) i <-> in_frag e i \/ covers s i.
Proof.
  unfold covers. split.
  - intros (f & [->|H] & Hf); [auto|]. right; eauto.
  - intros [H|(f & H & Hf)]; [exists e|exists f]; simpl; auto.
Qed.
Lemma covers_app s t i : covers (s ++ t) i <-> covers s i \/ covers t i.
Proof.
  unfold covers. split.
  - intros (f & Hin & Hf). apply in_app_or in Hin. destruct Hin; [left|right]; eauto.
  - intros [(f & H & Hf)|(f & H & Hf)]; exists f; split; auto using in_or_app.
Qed.

Lemma canonical_nil : canonical [].
Proof. split; constructor. Qed.
Lemma canonical_cons e s : canonical (e :: s) <-> valid e /\ Forall (gap_before e) s /\ canonical s.
Proof.
  unfold canonical. split.
  - intros [H1 H2]. inversion H1; inversion H2; subst. auto.
  - intros (H1 & H2 & H3 & H4). split; constructor; auto.
Qed.
Lemma canonical_one e : valid e -> canonical [e].
Proof. intros. apply canonical_cons. split; auto. split; [constructor|apply canonical_nil]. Qed.

Lemma frag_lt_valid a b : valid a -> frag_lt a b = true <-> gap_before a b.
Proof.
  unfold valid, frag_lt, gap_before. intros [_ H]. rewrite add64_small by lia. lia.
Qed.
Lemma frag_lt_valid_false a b : valid a -> frag_lt a b = false <-> ~ gap_before a b.
Proof. intros H. rewrite <- (frag_lt_valid a b H). destruct (frag_lt a b); intuition congruence. Qed.
Lemma frag_eqb_eq a b : frag_eqb a b = true <-> a = b.
Proof.
  destruct a, b. unfold frag_eqb. simpl. split.
  - intros H. f_equal; lia.
  - intros [= -> ->]. rewrite !N.eqb_refl. reflexivity.
Qed.

(** touch: overlapping or adjacent *)
Definition touch (a b : frag) : Prop := ~ gap_before a b /\ ~ gap_before b a.
Lemma frag_equiv_touch a b : valid a -> valid b -> frag_equiv a b = true <-> touch a b.
Proof.
  intros Ha Hb. unfold frag_equiv, touch.
  rewrite andb_true_iff, !negb_true_iff, !frag_lt_valid_false by auto. tauto.
Qed.

Lemma find_some_equiv last s key e :
  set_find last s key = Some e -> In e s /\ frag_equiv key e = true.
Proof.
  unfold set_find. intros H. apply find_some in H. destruct H as [H1 H2].
  split; auto. destruct last; auto. now apply in_rev in H1.
Qed.
Lemma find_none_equiv last s key :
  set_find last s key = None -> forall e, In e s -> frag_equiv key e = false.
Proof.
  unfold set_find. intros H e Hin. eapply find_none in H; eauto. destruct last; auto. now apply -> in_rev.
Qed.

Lemma canonical_In s e : canonical s -> In e s -> valid e.
Proof. intros [H _] Hin. rewrite Forall_forall in H. auto. Qed.

Lemma canonical_apart s a b : canonical s -> In a s -> In b s -> a = b \/ gap_before a b \/ gap_before b a.
Proof.
  induction s as [|e s IH]; intros Hc Ha Hb; [destruct Ha|].
  apply canonical_cons in Hc. destruct Hc as (Hv & Hg & Hc). rewrite Forall_forall in Hg.
  destruct Ha as [->|Ha], Hb as [->|Hb]; auto.
Qed.

Lemma erase_In e s x : In x (set_erase e s) <-> In x s /\ x <> e.
Proof.
  unfold set_erase. rewrite filter_In, negb_true_iff. rewrite <- not_true_iff_false, frag_eqb_eq. tauto.
Qed.
Lemma erase_canonical e s : canonical s -> canonical (set_erase e s).
Proof.
  induction s as [|x s IH]; intros Hc; [apply canonical_nil|].
  apply canonical_cons in Hc. destruct Hc as (Hv & Hg & Hc). simpl.
  destruct (negb (frag_eqb x e)); auto. apply canonical_cons. split; [auto|]. split; [|apply IH; auto].
  rewrite Forall_forall in *. intros y Hy. apply erase_In in Hy. apply Hg, Hy.
Qed.
Lemma erase_length e s : In e s -> (length (set_erase e s) < length s)%nat.
Proof.
  induction s as [|x s IH]; simpl; [tauto|]. intros [->|H].
  - replace (frag_eqb e e) with true by (symmetry; now apply frag_eqb_eq). simpl.
    pose proof (filter_length_le (fun x => negb (frag_eqb x e)) s). unfold set_erase. lia.
  - destruct (negb (frag_eqb x e)); simpl; [specialize (IH H); lia|].
    pose proof (filter_length_le (fun x => negb (frag_eqb x e)) s). unfold set_erase in *. lia.
Qed.

Lemma ins_In k s x : In x (ins_sorted k s) <-> x = k \/ In x s.
Proof.
  induction s as [|e s IH]; simpl.
  - intuition.
  - destruct (frag_lt e k); simpl; rewrite ?IH; intuition.
Qed.
Lemma ins_canonical k s : canonical s -> valid k -> (forall e, In e s -> gap_before k e \/ gap_before e k) ->
  canonical (ins_sorted k s).
Proof.
  induction s as [|e s IH]; intros Hc Hk Ha; simpl.
  - now apply canonical_one.
  - pose proof Hc as Hc'. apply canonical_cons in Hc. destruct Hc as (Hv & Hg & Hc).
    destruct (frag_lt e k) eqn:E.
    + apply frag_lt_valid in E; auto. apply canonical_cons. split; auto. split.
      * rewrite Forall_forall in *. intros x Hx. apply ins_In in Hx. destruct Hx as [->|Hx]; auto.
      * apply IH; auto. intros. apply Ha. now right.
    + apply frag_lt_valid_false in E; auto. apply canonical_cons. split; auto. split; auto.
      destruct (Ha e (or_introl eq_refl)) as [Hke|Hke]; [|tauto].
      constructor; auto. rewrite Forall_forall in *. intros x Hx. specialize (Hg x Hx).
      unfold gap_before, valid in *. lia.
Qed.
Lemma ins_covers k s i : covers (ins_sorted k s) i <-> in_frag k i \/ covers s i.
Proof.
  unfold covers. split.
  - intros (f & Hin & Hf). apply ins_In in Hin. destruct Hin as [->|Hin]; eauto.
  - intros [H|(f & Hin & Hf)]; [exists k|exists f]; rewrite ins_In; auto.
Qed.

Definition union_frag (k e : frag) : frag := (N.min (fst k) (fst e), N.max (snd k) (snd e)).
Lemma union_covers k e i : valid k -> valid e -> touch k e -> in_frag (union_frag k e) i <-> in_frag k i \/ in_frag e i.
Proof. destruct k, e. unfold valid, touch, gap_before, in_frag, union_frag; simpl. lia. Qed.
Lemma union_valid k e : valid k -> valid e -> valid (union_frag k e).
Proof. destruct k, e. unfold valid, union_frag; simpl. lia. Qed.

(** Containment of a range in a single stored fragment. *)
Definition within (k e : frag) : Prop := fst e <= fst k /\ snd k <= snd e.

Lemma covers_all_within s k : canonical s -> valid k ->
  (forall i, in_frag k i -> covers s i) -> exists e, In e s /\ within k e.
Proof.
  intros Hc Hk Hall.
  destruct (Hall (fst k)) as (e & Hin & He). { unfold in_frag, valid in *; lia. }
  exists e. split; auto. unfold within. split; [apply He|].
  destruct (N.le_gt_cases (snd k) (snd e)) as [|Hlt]; auto. exfalso.
  assert (Hce : covers s (snd e + 1)). { apply Hall. unfold in_frag in *. lia. }
  destruct Hce as (f & Hf & Hif). unfold in_frag in *.
  destruct (canonical_apart s e f Hc Hin Hf) as [->|[H|H]]; unfold gap_before in *.
  - lia.
  - lia.
  - pose proof (canonical_In s e Hc Hin). unfold valid in *. lia.
Qed.

Lemma insert_loop_spec last fuel : forall s key m, canonical s -> valid key -> (length s < fuel)%nat ->
  exists s' m', insert_loop last fuel s key m = Some (s', m') /\ canonical s' /\
    (forall i, covers s' i <-> covers s i \/ in_frag key i) /\
    (m' = true <-> m = true \/ exists i, in_frag key i /\ ~ covers s i).
Proof.
  induction fuel as [|fuel IH]; intros s key m Hc Hk Hlen; [lia|]. simpl.
  destruct (set_find last s key) as [e|] eqn:Hf.
  - apply find_some_equiv in Hf. destruct Hf as [Hin Heq].
    assert (Hve : valid e) by (eapply canonical_In; eauto).
    apply frag_equiv_touch in Heq; auto.
    destruct ((fst e <=? fst key) && (snd key <=? snd e)) eqn:Hw.
    + exists s, m. split; [auto|]. split; [auto|].
      assert (Hcov : forall i, in_frag key i -> covers s i).
      { intros i Hi. exists e. unfold in_frag in *. split; auto. lia. }
      split.
      * intros i. specialize (Hcov i). tauto.
      * split; [tauto|]. intros [?|(i & Hi & Hn)]; [auto|]. exfalso. apply Hn, Hcov, Hi.
    + change (N.min (fst key) (fst e), N.max (snd key) (snd e)) with (union_frag key e).
      destruct (IH (set_erase e s) (union_frag key e) true) as (s' & m' & Hr & Hc' & Hcov & Hm).
      1: now apply erase_canonical.
      1: now apply union_valid.
      1: pose proof (erase_length e s Hin); lia.
      exists s', m'. split; [auto|]. split; [auto|]. split.
      * intros i. rewrite Hcov, union_covers by auto. unfold covers. split.
        -- intros [(f & Hfin & Hfi)|[H|H]]; [|tauto|left; eauto].
           apply erase_In in Hfin. left. exists f. tauto.
        -- intros [(f & Hfin & Hfi)|H]; [|tauto].
           destruct (frag_eqb f e) eqn:Efe.
           ++ apply frag_eqb_eq in Efe. subst. tauto.
           ++ left. exists f. split; auto. apply erase_In. split; auto.
              intros ->. rewrite (proj2 (frag_eqb_eq e e) eq_refl) in Efe. discriminate.
      * split; [|intros _; apply Hm; auto]. intros _.
        (* key is not covered: otherwise it would be within one element, which must be e *)
        right. 
        assert (Hdec : ~ (forall i, in_frag key i -> covers s i)).
        { intros Hall. destruct (covers_all_within s key Hc Hk Hall) as (f & Hfin & Hwf).
          destruct (canonical_apart s e f Hc Hin Hfin) as [->|[H|H]].
          - unfold within in Hwf. lia.
          - pose proof (canonical_In s f Hc Hfin). unfold within, touch, gap_before, valid in *. lia.
          - pose proof (canonical_In s f Hc Hfin). unfold within, touch, gap_before, valid in *. lia. }
        (* constructive witness: one of fst e - 1 or snd e + 1 *)
        assert (Hcase : fst key < fst e \/ snd e < snd key) by lia.
        destruct Hcase as [Hlo|Hhi].
        -- exists (fst e - 1). split. { unfold touch, gap_before, in_frag, valid in *; lia. }
           intros (f & Hfin & Hfi). unfold in_frag in Hfi.
           pose proof (canonical_In s f Hc Hfin).
           destruct (canonical_apart s e f Hc Hin Hfin) as [->|[H1|H1]];
             unfold gap_before, valid, touch in *; lia.
        -- exists (snd e + 1). split. { unfold touch, gap_before, in_frag, valid in *; lia. }
           intros (f & Hfin & Hfi). unfold in_frag in Hfi.
           pose proof (canonical_In s f Hc Hfin).
           destruct (canonical_apart s e f Hc Hin Hfin) as [->|[H1|H1]];
             unfold gap_before, valid, touch in *; lia.
  - assert (Hap : forall e, In e s -> gap_before key e \/ gap_before e key).
    { intros e Hin. pose proof (find_none_equiv _ _ _ Hf e Hin) as Hq.
      assert (Hve : valid e) by (eapply canonical_In; eauto).
      assert (~ touch key e). { rewrite <- frag_equiv_touch by auto. congruence. }
      unfold touch, gap_before in *. lia. }
    exists (ins_sorted key s), true. split; [auto|]. split.
    + apply ins_canonical; auto.
    + split. { intros i. rewrite ins_covers. tauto. }
      split; auto. intros _. right. exists (fst key). split; [unfold in_frag, valid in *; lia|].
      intros (f & Hfin & Hfi). specialize (Hap f Hfin). unfold in_frag, gap_before, valid in *. lia.
Qed.

Lemma insert_total last s key : canonical s -> valid key -> exists r, insert_fragment_full last s key = Some r.
Proof.
  intros. unfold insert_fragment_full.
  destruct (insert_loop_spec last (S (length s)) s key false) as (s' & m & Hr & _); auto.
  eauto.
Qed.

Lemma insert_spec last s key : canonical s -> valid key ->
  canonical (fst (insert_fragment last s key)) /\
  (forall i, covers (fst (insert_fragment last s key)) i <-> covers s i \/ in_frag key i) /\
  (snd (insert_fragment last s key) = true <-> exists i, in_frag key i /\ ~ covers s i).
Proof.
  intros Hc Hk. unfold insert_fragment, insert_fragment_full.
  destruct (insert_loop_spec last (S (length s)) s key false) as (s' & m & -> & H1 & H2 & H3); auto.
  simpl. split; auto. split; auto. rewrite H3. intuition congruence.
Qed.

(** Uniqueness of the canonical form. *)
Lemma canonical_unique : forall s t, canonical s -> canonical t -> (forall i, covers s i <-> covers t i) -> s = t.
Proof.
  assert (Hhead : forall e s, canonical (e :: s) -> forall i, covers (e :: s) i -> fst e <= i).
  { intros e s Hc i Hi. apply canonical_cons in Hc. destruct Hc as (Hv & Hg & _).
    apply covers_cons in Hi. destruct Hi as [Hi|(f & Hin & Hi)]; [apply Hi|].
    rewrite Forall_forall in Hg. specialize (Hg f Hin). unfold gap_before, valid, in_frag in *. lia. }
  assert (Htail : forall e s i, canonical (e :: s) -> covers s i -> snd e + 1 < i).
  { intros e s i Hc (f & Hin & Hi). apply canonical_cons in Hc. destruct Hc as (Hv & Hg & _).
    rewrite Forall_forall in Hg. specialize (Hg f Hin). unfold gap_before, valid, in_frag in *. lia. }
  induction s as [|a s IH]; intros t Hs Ht Hiff.
  - destruct t as [|b t]; auto. exfalso. apply (covers_nil (fst b)). apply Hiff. apply covers_cons. left.
    apply canonical_cons in Ht. unfold in_frag, valid in *. lia.
  - destruct t as [|b t].
    + exfalso. apply (covers_nil (fst a)). apply Hiff. apply covers_cons. left.
      apply canonical_cons in Hs. unfold in_frag, valid in *. lia.
    + assert (Hva : valid a) by (apply canonical_cons in Hs; tauto).
      assert (Hvb : valid b) by (apply canonical_cons in Ht; tauto).
      assert (Hfst : fst a = fst b).
      { apply N.le_antisymm.
        - apply (Hhead a s Hs). apply Hiff. apply covers_cons. left. unfold in_frag, valid in *. lia.
        - apply (Hhead b t Ht). apply Hiff. apply covers_cons. left. unfold in_frag, valid in *. lia. }
      assert (Hsnd : snd a = snd b).
      { destruct (N.lt_trichotomy (snd a) (snd b)) as [H|[H|H]]; auto; exfalso.
        - assert (Hx : covers (a :: s) (snd a + 1)).
          { apply Hiff, covers_cons. left. unfold in_frag, valid in *. lia. }
          apply covers_cons in Hx. destruct Hx as [Hx|Hx]; [unfold in_frag in Hx; lia|].
          apply (Htail a s _ Hs) in Hx. lia.
        - assert (Hx : covers (b :: t) (snd b + 1)).
          { apply Hiff, covers_cons. left. unfold in_frag, valid in *. lia. }
          apply covers_cons in Hx. destruct Hx as [Hx|Hx]; [unfold in_frag in Hx; lia|].
          apply (Htail b t _ Ht) in Hx. lia. }
      assert (a = b) by (destruct a, b; simpl in *; congruence). subst b. f_equal.
      apply IH; [apply canonical_cons in Hs; tauto|apply canonical_cons in Ht; tauto|].
      intros i. specialize (Hiff i). rewrite !covers_cons in Hiff.
      split; intros Hi.
      * assert (~ in_frag a i). { apply (Htail a s _ Hs) in Hi. unfold in_frag. lia. } tauto.
      * assert (~ in_frag a i). { apply (Htail a t _ Ht) in Hi. unfold in_frag. lia. } tauto.
Qed.

Lemma insert_choice_irrelevant s key : canonical s -> valid key ->
  insert_fragment true s key = insert_fragment false s key.
Proof.
  intros Hc Hk. pose proof (insert_spec true s key Hc Hk) as (A1 & A2 & A3).
  pose proof (insert_spec false s key Hc Hk) as (B1 & B2 & B3).
  apply injective_projections.
  - apply canonical_unique; auto. intros i. rewrite A2, B2. tauto.
  - apply eq_true_iff_eq. rewrite A3, B3. tauto.
Qed.

(** ** Queries *)
Lemma contains_entirely_spec last s key : canonical s -> valid key ->
  contains_entirely last s key = true <-> (forall i, in_frag key i -> covers s i).
Proof.
  intros Hc Hk. unfold contains_entirely. split.
  - destruct (set_find last s key) as [e|] eqn:Hf; [|discriminate]. intros Hw i Hi.
    apply find_some_equiv in Hf. exists e. unfold in_frag in *. split; [tauto|lia].
  - intros Hall. destruct (covers_all_within s key Hc Hk Hall) as (e & Hin & Hw).
    assert (Hve := canonical_In s e Hc Hin).
    destruct (set_find last s key) as [f|] eqn:Hf.
    + apply find_some_equiv in Hf. destruct Hf as [Hfin Hfe].
      assert (Hvf := canonical_In s f Hc Hfin). apply frag_equiv_touch in Hfe; auto.
      destruct (canonical_apart s e f Hc Hin Hfin) as [->|[H|H]]; unfold within, touch, gap_before, valid in *; lia.
    + pose proof (find_none_equiv _ _ _ Hf e Hin) as Hq.
      assert (touch key e). { unfold touch, gap_before, within, valid in *. lia. }
      apply frag_equiv_touch in H; auto. congruence.
Qed.

Lemma equiv_abut_spec k e : frag_equiv_abut k e = true <-> fst e <= snd k /\ fst k <= snd e.
Proof. unfold frag_equiv_abut, frag_lt_abut. lia. Qed.

Lemma does_not_contain_spec s key : canonical s -> fst key <= snd key ->
  does_not_contain s key = true <-> (forall i, in_frag key i -> ~ covers s i).
Proof.
  intros Hc Hk. unfold does_not_contain. split.
  - destruct (find _ s) as [e|] eqn:Hf; [discriminate|]. intros _ i Hi (e & Hin & He).
    eapply find_none in Hf; eauto.
    assert (frag_equiv_abut key e = true). { apply equiv_abut_spec. unfold in_frag in *. lia. } congruence.
  - intros Hall. destruct (find _ s) as [e|] eqn:Hf; auto. exfalso.
    apply find_some in Hf. destruct Hf as [Hin He]. apply equiv_abut_spec in He.
    assert (Hve := canonical_In s e Hc Hin).
    apply (Hall (N.max (fst key) (fst e))).
    + unfold in_frag, valid in *. lia.
    + exists e. unfold in_frag, valid in *. split; auto. lia.
Qed.

Lemma sets_overlap_spec s1 s2 : canonical s1 -> canonical s2 ->
  sets_have_overlap s1 s2 = true <-> exists i, covers s1 i /\ covers s2 i.
Proof.
  intros H1 H2. unfold sets_have_overlap. rewrite existsb_exists. split.
  - intros (e & Hin & Hn). apply negb_true_iff in Hn.
    assert (Hve := canonical_In s1 e H1 Hin).
    unfold does_not_contain in Hn. destruct (find _ s2) as [f|] eqn:Hf; [|discriminate].
    apply find_some in Hf. destruct Hf as [Hfin Hfe]. apply equiv_abut_spec in Hfe.
    assert (Hvf := canonical_In s2 f H2 Hfin).
    exists (N.max (fst e) (fst f)). split; [exists e|exists f]; unfold in_frag, valid in *; split; auto; lia.
  - intros (i & (e & Hin & He) & Hc2). exists e. split; auto. apply negb_true_iff.
    assert (Hve := canonical_In s1 e H1 Hin).
    apply not_true_is_false. rewrite does_not_contain_spec; auto; [|apply Hve]. intros Hall. now apply (Hall i).
Qed.

Lemma get_overlap_spec k1 k2 : 
  match get_overlap k1 k2 with
  | Some o => forall i, in_frag o i <-> in_frag k1 i /\ in_frag k2 i
  | None => forall i, ~ (in_frag k1 i /\ in_frag k2 i)
  end.
Proof.
  unfold get_overlap. destruct ((fst k2 <=? snd k1) && (fst k1 <=? snd k2)) eqn:E; intros i; unfold in_frag; simpl; lia.
Qed.
Lemma get_overlap_nonempty k1 k2 o : fst k1 <= snd k1 -> fst k2 <= snd k2 -> get_overlap k1 k2 = Some o -> fst o <= snd o.
Proof.
  unfold get_overlap. destruct ((fst k2 <=? snd k1) && (fst k1 <=? snd k2)) eqn:E; [|discriminate].
  intros ? ? [= <-]. simpl. lia.
Qed.

(** ** Removal *)
Lemma lower_bound_app key s : forall a b, lower_bound key s = (a, b) -> s = a ++ b.
Proof.
  induction s as [|e s IH]; simpl; intros a b H.
  - now injection H as <- <-.
  - destruct (frag_lt e key).
    + destruct (lower_bound key s) as [a' b'] eqn:E. injection H as <- <-. simpl. f_equal. now apply IH.
    + now injection H as <- <-.
Qed.
Lemma lower_bound_before key s : forall a b, canonical s -> lower_bound key s = (a, b) ->
  Forall (fun e => gap_before e key) a /\ match b with [] => True | e :: _ => ~ gap_before e key end.
Proof.
  induction s as [|e s IH]; simpl; intros a b Hc H.
  - injection H as <- <-. auto.
  - apply canonical_cons in Hc. destruct Hc as (Hv & Hg & Hc). destruct (frag_lt e key) eqn:E.
    + apply frag_lt_valid in E; auto.
      destruct (lower_bound key s) as [a' b'] eqn:E'. injection H as <- <-.
      destruct (IH _ _ Hc eq_refl). auto.
    + apply frag_lt_valid_false in E; auto. injection H as <- <-. auto.
Qed.

Lemma canonical_app s t : canonical (s ++ t) <-> canonical s /\ canonical t /\ (forall a b, In a s -> In b t -> gap_before a b).
Proof.
  induction s as [|e s IH]; simpl.
  - split; [intros; repeat split; auto; try apply canonical_nil; try tauto; apply H|tauto].
  - rewrite !canonical_cons, IH, Forall_app. rewrite !Forall_forall. intuition (subst; eauto).
Qed.


(** All produced pieces lie inside the original elements. *)
Lemma remove_loop_inside key : fst key <= snd key -> forall s m, canonical s ->
  forall f, In f (fst (remove_loop key s m)) -> exists e, In e s /\ fst e <= fst f /\ snd f <= snd e /\ fst f <= snd f.
Proof.
  destruct key as [db de]. simpl. intros Hk.
  induction s as [|[b e] s IH]; intros m Hc f Hf; [destruct Hf|].
  apply canonical_cons in Hc. destruct Hc as (Hv & Hg & Hc).
  assert (Hself : exists e0, In e0 ((b, e) :: s) /\ fst e0 <= b /\ e <= snd e0 /\ b <= e).
  { exists (b, e). unfold valid in Hv. simpl in *. split; [auto|lia]. }
  unfold valid in Hv. simpl in Hv, Hf.
  assert (Hrest : forall m', In f (fst (remove_loop (db, de) s m')) -> exists e0, In e0 ((b, e) :: s) /\ fst e0 <= fst f /\ snd f <= snd e0 /\ fst f <= snd f).
  { intros m' H. destruct (IH m' Hc f H) as (e0 & H0 & H1). exists e0. simpl. auto. }
  destruct (e <? db) eqn:E1.
  { simpl in Hf. exists f. split; [auto|]. 
    assert (valid f). { destruct Hf as [<-|Hf]; [unfold valid; simpl; lia|eapply canonical_In; eauto]. }
    unfold valid in *. lia. }
  destruct (de <? b) eqn:E2.
  { specialize (Hrest m). destruct (remove_loop (db, de) s m) as [r' m']. simpl in *.
    destruct Hf as [<-|Hf]; [exists (b, e); simpl; split; [auto|lia]|auto]. }
  destruct ((db <=? b) && (e <=? de)) eqn:E3. { eauto. }
  specialize (Hrest true).
  destruct ((b <? db) && (de <? e)) eqn:E4.
  { destruct (remove_loop (db, de) s true) as [r' m']. simpl in *.
    destruct Hf as [<-|[<-|Hf]]; auto; exists (b, e); simpl; split; auto; lia. }
  destruct ((db <=? b) && (b <=? de)) eqn:E5.
  { destruct (remove_loop (db, de) s true) as [r' m']. simpl in *.
    destruct Hf as [<-|Hf]; auto; exists (b, e); simpl; split; auto; lia. }
  destruct ((db <=? e) && (e <=? de)) eqn:E6.
  { destruct (remove_loop (db, de) s true) as [r' m']. simpl in *.
    destruct Hf as [<-|Hf]; auto; exists (b, e); simpl; split; auto; lia. }
  lia.
Qed.

Lemma remove_loop_spec key : valid key -> forall s m, canonical s ->
  (match s with [] => True | e :: _ => fst key <= snd e end) ->
  canonical (fst (remove_loop key s m)) /\
  (forall i, covers (fst (remove_loop key s m)) i <-> covers s i /\ ~ in_frag key i) /\
  (snd (remove_loop key s m) = true <-> m = true \/ exists i, covers s i /\ in_frag key i).
Proof.
  destruct key as [db de]. intros Hk. 
  induction s as [|[b e] s IH]; intros m Hc Hhd.
  - simpl. split; [apply canonical_nil|]. split.
    + intros i. rewrite covers_nil. tauto.
    + split; [tauto|]. intros [?|(i & Hi & _)]; auto. now apply covers_nil in Hi.
  - pose proof Hc as Hc0. apply canonical_cons in Hc. destruct Hc as (Hv & Hg & Hc).
    pose proof (remove_loop_inside (db, de) ltac:(apply Hk) s) as Hins.
    assert (Hhd' : match s with [] => True | e0 :: _ => fst (db, de) <= snd e0 end).
    { destruct s as [|f s]; auto. inversion Hg; subst.
      apply canonical_cons in Hc. destruct Hc as (Hvf & _). destruct f. unfold gap_before, valid in *. simpl in *. lia. }
    assert (Hgr : forall m x, x <= e + 1 -> forall f, In f (fst (remove_loop (db, de) s m)) -> x < fst f).
    { intros m0 x Hx f Hf. destruct (Hins m0 Hc f Hf) as (e0 & He0 & Hle & _).
      rewrite Forall_forall in Hg. specialize (Hg e0 He0). unfold gap_before in Hg. simpl in Hg. lia. }
    unfold valid in Hv, Hk. simpl in Hv, Hk, Hhd.
    simpl remove_loop.
    destruct (e <? db) eqn:E1; [lia|].
    destruct (de <? b) eqn:E2.
    { specialize (IH m Hc Hhd'). specialize (Hgr m). destruct (remove_loop (db, de) s m) as [r' m']. simpl in *.
      destruct IH as (I1 & I2 & I3). split; [|split].
      - apply canonical_cons. split; [unfold valid; simpl; lia|]. split; auto.
        rewrite Forall_forall. intros f Hf. apply (Hgr (e+1)); [lia|auto].
      - intros i. rewrite !covers_cons, I2. unfold in_frag at 1 3 4. unfold in_frag at 1. simpl. 
        split; [intros [H|H]; [split; [tauto|lia]|tauto]|tauto].
      - rewrite I3. split; intros [?|(i & Hi & Hi')]; auto; right; exists i.
        + rewrite covers_cons. tauto.
        + rewrite covers_cons in Hi. destruct Hi as [Hi|Hi]; [unfold in_frag in *; simpl in *; lia|tauto]. }
    assert (Hovl : exists i, covers ((b, e) :: s) i /\ in_frag (db, de) i).
    { exists (N.max b db). rewrite covers_cons. unfold in_frag. simpl. split; [left|]; lia. }
    specialize (IH true Hc Hhd'). specialize (Hgr true).
    destruct (remove_loop (db, de) s true) as [r' m']. simpl fst in *. simpl snd in *.
    destruct IH as (I1 & I2 & I3).
    assert (I3' : m' = true) by (apply I3; auto).
    assert (Hm : m' = true <-> m = true \/ (exists i, covers ((b, e) :: s) i /\ in_frag (db, de) i)) by tauto.
    assert (Hcons : forall f, valid f -> snd f <= e -> canonical (f :: r')).
    { intros f Hf Hle. apply canonical_cons. split; auto. split; auto. rewrite Forall_forall. intros x Hx.
      unfold gap_before. apply (Hgr (snd f + 1)); [lia|auto]. }
    destruct ((db <=? b) && (e <=? de)) eqn:E3.
    { simpl. split; auto. split; auto. intros i. rewrite covers_cons, I2. unfold in_frag. simpl.
      split; [intuition|]. intros [[H|H] Hn]; [lia|intuition]. }
    destruct ((b <? db) && (de <? e)) eqn:E4.
    { simpl. split; [|split; auto].
      - apply canonical_cons. split; [unfold valid; simpl; lia|]. split.
        + constructor; [unfold gap_before; simpl; lia|]. rewrite Forall_forall. intros x Hx.
          unfold gap_before. apply Hgr; auto. simpl. lia.
        + apply Hcons; [unfold valid|]; simpl; lia.
      - intros i. rewrite !covers_cons, I2. unfold in_frag. simpl.
        assert (Hx : covers s i -> e + 1 < i).
        { intros (f & Hf & Hfi). rewrite Forall_forall in Hg. specialize (Hg f Hf). unfold gap_before, in_frag in *. simpl in *. lia. }
        destruct (N.lt_ge_cases i db); intuition lia. }
    destruct ((db <=? b) && (b <=? de)) eqn:E5.
    { simpl. split; [|split; auto].
      - apply Hcons; [unfold valid|]; simpl; lia.
      - intros i. rewrite !covers_cons, I2. unfold in_frag. simpl.
        assert (Hx : covers s i -> e + 1 < i).
        { intros (f & Hf & Hfi). rewrite Forall_forall in Hg. specialize (Hg f Hf). unfold gap_before, in_frag in *. simpl in *. lia. }
        intuition; lia. }
    destruct ((db <=? e) && (e <=? de)) eqn:E6.
    { simpl. split; [|split; auto].
      - apply Hcons; [unfold valid|]; simpl; lia.
      - intros i. rewrite !covers_cons, I2. unfold in_frag. simpl.
        assert (Hx : covers s i -> e + 1 < i).
        { intros (f & Hf & Hfi). rewrite Forall_forall in Hg. specialize (Hg f Hf). unfold gap_before, in_frag in *. simpl in *. lia. }
        intuition; lia. }
    lia.
Qed.

Lemma remove_spec s key : canonical s -> valid key -> ~ abuts_left s key ->
  canonical (fst (remove_fragment s key)) /\
  (forall i, covers (fst (remove_fragment s key)) i <-> covers s i /\ ~ in_frag key i) /\
  (snd (remove_fragment s key) = true <-> exists i, covers s i /\ in_frag key i).
Proof.
  intros Hc Hk Hab. unfold remove_fragment.
  destruct (snd key <? fst key) eqn:E; [unfold valid in Hk; lia|].
  destruct (lower_bound key s) as [a b] eqn:Elb.
  pose proof (lower_bound_app _ _ _ _ Elb) as Happ.
  pose proof (lower_bound_before _ _ _ _ Hc Elb) as [Hba Hbb].
  subst s. pose proof Hc as Hc'. apply canonical_app in Hc'. destruct Hc' as (Hca & Hcb & Hcab).
  assert (Hhd : match b with [] => True | e :: _ => fst key <= snd e end).
  { destruct b as [|e b]; auto.
    assert (snd e + 1 <> fst key). { intros Heq. apply Hab. exists e. split; auto. apply in_or_app. right. now left. }
    unfold gap_before in Hbb. lia. }
  pose proof (remove_loop_spec key Hk b false Hcb Hhd) as (R1 & R2 & R3).
  pose proof (remove_loop_inside key ltac:(apply Hk) b false Hcb) as Hins.
  destruct (remove_loop key b false) as [b' m]. simpl in *.
  assert (Hna : forall i, covers a i -> ~ in_frag key i).
  { intros i (f & Hf & Hfi) Hi. rewrite Forall_forall in Hba. specialize (Hba f Hf).
    unfold gap_before, in_frag in *. lia. }
  split; [|split].
  - apply canonical_app. split; auto. split; auto. intros x y Hx Hy.
    destruct (Hins y Hy) as (e0 & He0 & Hle & _). specialize (Hcab x e0 Hx He0). unfold gap_before in *. lia.
  - intros i. rewrite !covers_app, R2. specialize (Hna i). tauto.
  - rewrite R3. split.
    + intros [?|(i & H1 & H2)]; [discriminate|]. exists i. rewrite covers_app. tauto.
    + intros (i & H1 & H2). right. exists i. rewrite covers_app in H1. specialize (Hna i). tauto.
Qed.

(** When a fragment abuts the key on the left, RemoveFragment does nothing at all. *)
Lemma remove_abut_noop s key : canonical s -> valid key -> abuts_left s key -> remove_fragment s key = (s, false).
Proof.
  intros Hc Hk (e & Hin & He). unfold remove_fragment.
  destruct (snd key <? fst key) eqn:E; [unfold valid in Hk; lia|].
  destruct (lower_bound key s) as [a b] eqn:Elb.
  pose proof (lower_bound_app _ _ _ _ Elb) as Happ.
  pose proof (lower_bound_before _ _ _ _ Hc Elb) as [Hba Hbb].
  assert (Hb : exists b', b = e :: b').
  { destruct b as [|f b'].
    - exfalso. rewrite app_nil_r in Happ. subst. rewrite Forall_forall in Hba. specialize (Hba e Hin). unfold gap_before in Hba. lia.
    - exists b'. f_equal. subst s. apply in_app_or in Hin. destruct Hin as [Hin|[|Hin]]; auto.
      + exfalso. rewrite Forall_forall in Hba. specialize (Hba e Hin). unfold gap_before in Hba. lia.
      + exfalso. apply canonical_app in Hc. destruct Hc as (_ & Hcb & _). apply canonical_cons in Hcb.
        destruct Hcb as (Hv & Hg & Hcb). rewrite Forall_forall in Hg. specialize (Hg e Hin).
        pose proof (canonical_In _ _ Hcb Hin). unfold gap_before, valid in *. lia. }
  destruct Hb as (b' & ->). destruct e as [eb ee]. destruct key as [db de]. simpl in *.
  destruct (ee <? db) eqn:E2; [|lia]. now subst.
Qed.

Lemma remove_invalid_noop s key : snd key < fst key -> remove_fragment s key = (s, false).
Proof. intros. unfold remove_fragment. now replace (snd key <? fst key) with true by lia. Qed.

(** Single-index removal never hits the early stop in a harmful way. *)
Lemma remove_single_spec s i0 : canonical s -> i0 + 1 < W64 ->
  canonical (fst (remove_fragment s (i0, i0))) /\
  (forall i, covers (fst (remove_fragment s (i0, i0))) i <-> covers s i /\ i <> i0) /\
  (snd (remove_fragment s (i0, i0)) = true <-> covers s i0).
Proof.
  intros Hc Hi.
  assert (Hv : valid (i0, i0)) by (unfold valid; simpl; lia).
  assert (Hdec : abuts_left s (i0, i0) \/ ~ abuts_left s (i0, i0)).
  { unfold abuts_left. simpl. destruct (existsb (fun e => snd e + 1 =? i0) s) eqn:E.
    - left. apply existsb_exists in E. destruct E as (e & H1 & H2). exists e. split; auto. lia.
    - right. intros (e & H1 & H2). assert (existsb (fun e => snd e + 1 =? i0) s = true).
      { apply existsb_exists. exists e. split; auto. lia. } congruence. }
  destruct Hdec as [Hab|Hab].
  - rewrite remove_abut_noop by auto. simpl. destruct Hab as (e & Hin & He). simpl in He.
    assert (Hn : ~ covers s i0).
    { intros (f & Hf & Hfi). unfold in_frag in Hfi. pose proof (canonical_In _ _ Hc Hin). pose proof (canonical_In _ _ Hc Hf).
      destruct (canonical_apart s e f Hc Hin Hf) as [->|[H1|H1]]; unfold gap_before, valid in *; lia. }
    split; auto. split.
    + intros i. split; [|tauto]. intros H. split; auto. intros ->. tauto.
    + intuition congruence.
  - pose proof (remove_spec s (i0, i0) Hc Hv Hab) as (R1 & R2 & R3). split; auto. split.
    + intros i. rewrite R2. unfold in_frag. simpl. intuition lia.
    + rewrite R3. unfold in_frag. simpl. split.
      * intros (i & H1 & H2). replace i0 with i by lia. auto.
      * intros. exists i0. split; auto. lia.
Qed.

Lemma remove_canonical s key : canonical s -> snd key + 1 < W64 -> canonical (fst (remove_fragment s key)).
Proof.
  intros Hc Hk. destruct (N.lt_ge_cases (snd key) (fst key)).
  - rewrite remove_invalid_noop; auto.
  - assert (Hv : valid key) by (unfold valid; lia).
    destruct (existsb (fun e => snd e + 1 =? fst key) s) eqn:E.
    + rewrite remove_abut_noop; auto. apply existsb_exists in E. destruct E as (e & H1 & H2). exists e. split; auto. lia.
    + apply remove_spec; auto. intros (e & H1 & H2). assert (existsb (fun e => snd e + 1 =? fst key) s = true).
      { apply existsb_exists. exists e. split; auto. lia. } congruence.
Qed.

(** ** Bounds minus fragments *)
Lemma remove_loop_ends key : fst key <= snd key -> forall s m f, In f (fst (remove_loop key s m)) ->
  snd f + 1 = fst key \/ exists e, In e s /\ snd f = snd e.
Proof.
  destruct key as [db de]. simpl. intros Hk.
  induction s as [|[b e] s IH]; intros m f Hf; [destruct Hf|]. simpl in Hf.
  assert (Hrest : forall m', In f (fst (remove_loop (db, de) s m')) -> snd f + 1 = db \/ exists e0, In e0 ((b, e) :: s) /\ snd f = snd e0).
  { intros m' H. destruct (IH m' f H) as [?|(e0 & H0 & H1)]; auto. right. exists e0. simpl. auto. }
  assert (Hsame : forall b', f = (b', e) -> snd f + 1 = db \/ exists e0, In e0 ((b, e) :: s) /\ snd f = snd e0).
  { intros b' ->. right. exists (b, e). simpl. auto. }
  destruct (e <? db) eqn:E1. { simpl in Hf. right. exists f. auto. }
  destruct (de <? b) eqn:E2.
  { specialize (Hrest m). destruct (remove_loop (db, de) s m) as [r' m']. simpl in *. destruct Hf as [<-|Hf]; eauto. }
  destruct ((db <=? b) && (e <=? de)) eqn:E3. { eauto. }
  specialize (Hrest true).
  destruct ((b <? db) && (de <? e)) eqn:E4.
  { destruct (remove_loop (db, de) s true) as [r' m']. simpl in *.
    destruct Hf as [<-|[<-|Hf]]; eauto. left. simpl. lia. }
  destruct ((db <=? b) && (b <=? de)) eqn:E5.
  { destruct (remove_loop (db, de) s true) as [r' m']. simpl in *. destruct Hf as [<-|Hf]; eauto. }
  destruct ((db <=? e) && (e <=? de)) eqn:E6.
  { destruct (remove_loop (db, de) s true) as [r' m']. simpl in *. destruct Hf as [<-|Hf]; eauto. left. simpl. lia. }
  lia.
Qed.
Lemma remove_ends s key : fst key <= snd key -> forall f, In f (fst (remove_fragment s key)) ->
  snd f + 1 = fst key \/ exists e, In e s /\ snd f = snd e.
Proof.
  intros Hk f. unfold remove_fragment. destruct (snd key <? fst key) eqn:E; [lia|].
  destruct (lower_bound key s) as [a b] eqn:Elb. apply lower_bound_app in Elb. subst.
  pose proof (remove_loop_ends key Hk b false f) as H. destruct (remove_loop key b false) as [b' m]. simpl in *.
  intros Hin. apply in_app_or in Hin. destruct Hin as [Hin|Hin].
  - right. exists f. split; auto. apply in_or_app. auto.
  - destruct (H Hin) as [?|(e & H1 & H2)]; auto. right. exists e. split; auto. apply in_or_app. auto.
Qed.

Lemma abuts_left_dec s key : abuts_left s key \/ ~ abuts_left s key.
Proof.
  unfold abuts_left. destruct (existsb (fun e => snd e + 1 =? fst key) s) eqn:E.
  - left. apply existsb_exists in E. destruct E as (e & H1 & H2). exists e. split; auto. lia.
  - right. intros (e & H1 & H2). assert (existsb (fun e => snd e + 1 =? fst key) s = true).
    { apply existsb_exists. exists e. split; auto. lia. } congruence.
Qed.

(** Loop invariant: pieces end at the top of the bounds or well before any fragment still to be removed. *)
Lemma bounds_minus_loop hi : forall s acc, canonical s -> canonical acc ->
  (forall f, In f acc -> snd f <= hi /\ (snd f = hi \/ forall e, In e s -> snd f + 1 < fst e)) ->
  canonical (fold_left (fun acc e => fst (remove_fragment acc e)) s acc) /\
  (forall i, covers (fold_left (fun acc e => fst (remove_fragment acc e)) s acc) i <-> covers acc i /\ ~ covers s i).
Proof.
  induction s as [|k s IH]; intros acc Hs Hacc Hinv; simpl.
  - split; auto. intros i. rewrite covers_nil. tauto.
  - apply canonical_cons in Hs. destruct Hs as (Hvk & Hg & Hs). rewrite Forall_forall in Hg.
    assert (Hstep : canonical (fst (remove_fragment acc k)) /\
      (forall i, covers (fst (remove_fragment acc k)) i <-> covers acc i /\ ~ in_frag k i)).
    { destruct (abuts_left_dec acc k) as [Hab|Hab].
      - rewrite remove_abut_noop by auto. simpl. split; auto. intros i. split; [|tauto].
        intros Hi. split; auto. destruct Hab as (e & Hin & He).
        destruct (Hinv e Hin) as (_ & [Hhi|Hlt]); [|specialize (Hlt k (or_introl eq_refl)); lia].
        destruct Hi as (f & Hf & Hfi). destruct (Hinv f Hf) as (Hle & _). unfold in_frag in *. lia.
      - pose proof (remove_spec acc k Hacc Hvk Hab) as (R1 & R2 & R3). auto. }
    destruct Hstep as (S1 & S2).
    destruct (IH (fst (remove_fragment acc k)) Hs S1) as (I1 & I2).
    + intros f Hf. destruct (remove_ends acc k ltac:(apply Hvk) f Hf) as [Heq|(e & He & Heq)].
      * assert (Hcf : covers acc (snd f)).
        { apply S2. exists f. split; auto. pose proof (canonical_In _ _ S1 Hf). unfold in_frag, valid in *. lia. }
        destruct Hcf as (g & Hg1 & Hg2). destruct (Hinv g Hg1) as (Hle & _). unfold in_frag in Hg2. split; [lia|].
        right. intros e He. specialize (Hg e He). unfold gap_before, valid in *. lia.
      * rewrite Heq. destruct (Hinv e He) as (H1 & H2). split; auto. destruct H2 as [H2|H2]; auto.
        right. intros x Hx. apply H2. now right.
    + split; auto. intros i. rewrite I2, S2, covers_cons. tauto.
Qed.

Lemma bounds_minus_spec last bounds s : valid bounds -> canonical s ->
  canonical (bounds_minus last bounds s) /\
  (forall i, covers (bounds_minus last bounds s) i <-> in_frag bounds i /\ ~ covers s i).
Proof.
  intros Hb Hs. unfold bounds_minus.
  assert (Hi : fst (insert_fragment last [] bounds) = [bounds]).
  { unfold insert_fragment, insert_fragment_full. simpl. unfold set_find. destruct last; reflexivity. }
  rewrite Hi. destruct (bounds_minus_loop (snd bounds) s [bounds] Hs (canonical_one _ Hb)) as (B1 & B2).
  - intros f [<-|[]]. split; [lia|auto].
  - split; auto. intros i. rewrite B2, covers_cons, covers_nil. tauto.
Qed.

(** ** Histories of insertions *)

Lemma insert_all_spec last : forall ks s, canonical s -> Forall valid ks ->
  canonical (insert_all last s ks) /\
  (forall i, covers (insert_all last s ks) i <-> covers s i \/ exists k, In k ks /\ in_frag k i).
Proof.
  induction ks as [|k ks IH]; intros s Hs Hv; simpl.
  - split; auto. intros i. split; [tauto|]. intros [?|(k & [] & _)]; auto.
  - inversion Hv; subst. pose proof (insert_spec last s k Hs H1) as (A & B & _).
    destruct (IH _ A H2) as (C & D). split; auto. intros i. rewrite D, B. split.
    + intros [[?|?]|(k' & ? & ?)]; auto; right; [exists k|exists k']; auto.
    + intros [?|(k' & [<-|?] & ?)]; auto. right. eauto.
Qed.

(** Histories mixing insertions and removals keep the set canonical. *)
Lemma run_canonical last : forall ops s, canonical s -> Forall op_valid ops -> canonical (run last s ops).
Proof.
  induction ops as [|o ops IH]; intros s Hs Ho; simpl; auto. inversion Ho; subst.
  apply IH; auto. destruct o; simpl in *.
  - now apply insert_spec.
  - apply remove_canonical; auto.
Qed.
