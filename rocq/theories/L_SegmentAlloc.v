From Coq Require Import NArith List Bool Lia ZifyBool ZifyN Arith FinFun.
From Verif Require Import Base M_SegmentAlloc S_SegmentAlloc.
Import ListNotations.
Open Scope N_scope.

(** ** Bits *)
Lemma shiftr6 x : N.shiftr x 6 = x / 64.
Proof. rewrite N.shiftr_div_pow2. reflexivity. Qed.
Lemma land63 x : N.land x 63 = x mod 64.
Proof. change 63 with (N.ones 6). rewrite N.land_ones. reflexivity. Qed.
Lemma shiftl_1 b : N.shiftl 1 b = 2 ^ b.
Proof. rewrite N.shiftl_mul_pow2. lia. Qed.
Lemma land_mask w b : (N.land w (N.shiftl 1 b) =? 0) = negb (N.testbit w b).
Proof.
  rewrite shiftl_1. destruct (N.testbit w b) eqn:E; simpl.
  - apply N.eqb_neq. intros H. assert (X : N.testbit (N.land w (2 ^ b)) b = true).
    { rewrite N.land_spec, E, N.pow2_bits_true. reflexivity. }
    rewrite H, N.bits_0 in X. discriminate.
  - apply N.eqb_eq. apply N.bits_inj. intros n. rewrite N.land_spec, N.bits_0.
    destruct (N.eq_dec b n) as [<-|Hn]; [rewrite E; reflexivity|].
    rewrite N.pow2_bits_false by auto. apply andb_false_r.
Qed.
Lemma ldiff_mask_bit w b n : N.testbit (N.ldiff w (N.shiftl 1 b)) n = N.testbit w n && negb (n =? b).
Proof.
  rewrite shiftl_1, N.ldiff_spec. f_equal. f_equal. rewrite N.pow2_bits_eqb. apply N.eqb_sym.
Qed.
Lemma lor_mask_bit w b n : N.testbit (N.lor w (N.shiftl 1 b)) n = N.testbit w n || (n =? b).
Proof. rewrite shiftl_1, N.lor_spec. f_equal. rewrite N.pow2_bits_eqb. apply N.eqb_sym. Qed.
Lemma nonzero_bit w : w <> 0 <-> exists n, N.testbit w n = true.
Proof.
  split.
  - intros H. exists (N.log2 w). now apply N.bit_log2.
  - intros (n & H) ->. rewrite N.bits_0 in H. discriminate.
Qed.
Lemma zero_bit w : w = 0 <-> forall n, N.testbit w n = false.
Proof.
  split; [intros ->; apply N.bits_0|]. intros H. apply N.bits_inj. intros n. now rewrite H, N.bits_0.
Qed.
Lemma lsb_pos_spec : forall p, N.testbit (Npos p) (lsb_pos p) = true /\ forall n, N.testbit (Npos p) n = true -> lsb_pos p <= n.
Proof.
  induction p as [p IH|p IH|]; simpl lsb_pos.
  - split; [reflexivity|]. lia.
  - destruct IH as (A & B). split.
    + rewrite N.add_1_l. change (N.pos p~0) with (N.double (Npos p)). rewrite N.double_spec, N.testbit_even_succ by lia. exact A.
    + intros n Hn. destruct (N.eq_dec n 0) as [->|H0].
      * change (N.pos p~0) with (N.double (Npos p)) in Hn. rewrite N.double_spec, N.testbit_even_0 in Hn. discriminate.
      * replace n with (N.succ (n - 1)) in Hn by lia. change (N.pos p~0) with (N.double (Npos p)) in Hn.
        rewrite N.double_spec, N.testbit_even_succ in Hn by lia. specialize (B _ Hn). lia.
  - split; [reflexivity|]. lia.
Qed.
Lemma lsb_spec w : w <> 0 -> exists b, lsb w = Some b /\ N.testbit w b = true /\ forall n, N.testbit w n = true -> b <= n.
Proof. destruct w as [|p]; [congruence|]. intros _. exists (lsb_pos p). split; [reflexivity|]. apply lsb_pos_spec. Qed.

Lemma shl6_lor x b : b < 64 -> N.lor (N.shiftl x 6) b = x * 64 + b.
Proof.
  intros Hb. replace (x * 64) with (N.shiftl x 6) by (rewrite N.shiftl_mul_pow2; reflexivity).
  rewrite N.add_nocarry_lxor.
  - rewrite N.lxor_lor; auto. apply N.bits_inj. intros n. rewrite N.land_spec, N.bits_0.
    destruct (N.lt_ge_cases n 6).
    + rewrite N.shiftl_spec_low by auto. reflexivity.
    + rewrite (N.bits_above_log2 b n); [apply andb_false_r|].
      destruct (N.eq_dec b 0) as [->|Hz]; [simpl; lia|]. apply N.log2_lt_pow2; [lia|].
      apply N.lt_le_trans with (2^6); [exact Hb|]. apply N.pow_le_mono_r; lia.
  - apply N.bits_inj. intros n. rewrite N.land_spec, N.bits_0.
    destruct (N.lt_ge_cases n 6).
    + rewrite N.shiftl_spec_low by auto. reflexivity.
    + rewrite (N.bits_above_log2 b n); [apply andb_false_r|].
      destruct (N.eq_dec b 0) as [->|Hz]; [simpl; lia|]. apply N.log2_lt_pow2; [lia|].
      apply N.lt_le_trans with (2^6); [exact Hb|]. apply N.pow_le_mono_r; lia.
Qed.

(** ** Paths *)
Lemma up_S k id : up (S k) id = up k id / 64.
Proof. simpl. apply shiftr6. Qed.
Local Arguments up : simpl never.
Lemma up_mono k a b : a <= b -> up k a <= up k b.
Proof. intros H. induction k; [exact H|]. rewrite !up_S. apply N.div_le_mono; [lia|exact IHk]. Qed.
Lemma up_le k id : up k id <= id.
Proof. induction k; [reflexivity|]. rewrite up_S. etransitivity; [|exact IHk]. apply N.div_le_upper_bound; lia. Qed.
Lemma up_split k id : up k id = up (S k) id * 64 + up k id mod 64.
Proof. rewrite up_S. rewrite N.mul_comm. apply N.div_mod. lia. Qed.
Lemma up6 id : id < 64 ^ 6 -> up 6 id = 0.
Proof.
  intros H. rewrite !up_S. change (up 0 id) with id. rewrite !N.div_div by lia. apply N.div_small.
  change (64 * (64 * (64 * (64 * (64 * 64))))) with (64^6). exact H.
Qed.
Lemma child_of i b : b < 64 -> (i * 64 + b) / 64 = i /\ (i * 64 + b) mod 64 = b.
Proof.
  intros H. split.
  - symmetry. apply N.div_unique with b; lia.
  - symmetry. apply N.mod_unique with i; lia.
Qed.

(** ** Invariant *)
Definition leaf_bit (st : mm) (id : N) : bool := N.testbit (mm_words st 0 (id / 64)) (id mod 64).
Record inv (st : mm) : Prop := mkInv {
  inv_max : 0 <= mm_max st <= MAXSEGMENTS;
  inv_range : forall k i n, N.testbit (mm_words st k i) n = true -> n < 64;
  inv_tree : forall k i b, (k < 5)%nat -> b < 64 ->
     (N.testbit (mm_words st (S k) i) b = true <-> mm_words st k (i * 64 + b) <> 0);
  inv_tail : forall id, mm_max st <= id -> leaf_bit st id = true
}.

Lemma u64max_bits n : N.testbit U64MAX n = (n <? 64).
Proof.
  change U64MAX with (N.ones 64). destruct (n <? 64) eqn:E.
  - apply N.ones_spec_low. lia.
  - apply N.ones_spec_high. lia.
Qed.
Lemma inv_init max : max <= MAXSEGMENTS -> inv (mm_init max).
Proof.
  intros H. constructor; simpl.
  - lia.
  - intros k i n Hn. rewrite u64max_bits in Hn. lia.
  - intros k i b Hk Hb. rewrite u64max_bits. unfold U64MAX. split; [intros _; lia|intros _; lia].
  - intros id _. unfold leaf_bit. simpl. rewrite u64max_bits. pose proof (N.mod_lt id 64). lia.
Qed.

(** A set leaf bit makes every word on its path non-zero. *)
Lemma path_nonzero st id : inv st -> leaf_bit st id = true -> forall k, (k <= 5)%nat -> mm_words st k (up (S k) id) <> 0.
Proof.
  intros I H. induction k as [|k IH]; intros Hk.
  - apply nonzero_bit. exists (id mod 64). rewrite up_S. exact H.
  - apply nonzero_bit. exists (up (S k) id mod 64). apply (inv_tree st I); [lia|apply N.mod_lt; lia|].
    rewrite <- up_split. apply IH. lia.
Qed.
Lemma sentinel st : inv st -> forall k, (k <= 5)%nat -> mm_words st k (up (S k) (mm_max st)) <> 0.
Proof. intros I k Hk. apply path_nonzero; auto. apply (inv_tail st I). lia. Qed.

Lemma row_len_le max k i : (row_len max k <=? i) = negb (i <=? up (S k) max).
Proof. unfold row_len. lia. Qed.

(** ** Clearing one id: common effect of GetAndSet and AllocateSegmentId *)
Fixpoint clear_up (k : nat) (id : N) (st : mm) : mm :=
  match k with
  | O => set_word st 0 (id / 64) (N.ldiff (mm_words st 0 (id / 64)) (N.shiftl 1 (id mod 64)))
  | S k' =>
    let st1 := clear_up k' id st in
    if mm_words st1 k' (up (S k') id) =? 0
    then set_word st1 k (up (S k) id) (N.ldiff (mm_words st1 k (up (S k) id)) (N.shiftl 1 (up k id mod 64)))
    else st1
  end.

Lemma clear_up_max k id st : mm_max (clear_up k id st) = mm_max st /\ mm_count (clear_up k id st) = mm_count st.
Proof. induction k; simpl; auto. destruct (_ =? 0); simpl; auto. Qed.

Lemma set_word_same st k i w : mm_words (set_word st k i w) k i = w.
Proof. simpl. rewrite Nat.eqb_refl, N.eqb_refl. reflexivity. Qed.
Lemma set_word_other st k i w k' i' : k' <> k \/ i' <> i -> mm_words (set_word st k i w) k' i' = mm_words st k' i'.
Proof.
  intros H. simpl. destruct (Nat.eqb k' k) eqn:E1; simpl; auto. apply Nat.eqb_eq in E1.
  destruct (i' =? i) eqn:E2; auto. destruct H; [congruence|lia].
Qed.

(** Levels above k untouched; at levels <= k, off-path words untouched; on-path words keep all bits but the path
    bit, which is cleared iff the level below became zero (or at the leaf). *)
Lemma clear_up_above k id st : forall k' i, (k < k')%nat -> mm_words (clear_up k id st) k' i = mm_words st k' i.
Proof.
  induction k as [|k IH]; intros k' i Hk.
  - simpl clear_up. apply set_word_other. lia.
  - simpl clear_up. destruct (_ =? 0).
    + rewrite set_word_other by lia. apply IH. lia.
    + apply IH. lia.
Qed.
Lemma clear_up_stable k id st : forall k' i, (k' <= k)%nat -> mm_words (clear_up (S k) id st) k' i = mm_words (clear_up k id st) k' i.
Proof. intros k' i H. simpl clear_up. destruct (_ =? 0); auto. apply set_word_other. lia. Qed.
Lemma clear_up_stable_le k K id st : (k <= K)%nat -> forall i, mm_words (clear_up K id st) k i = mm_words (clear_up k id st) k i.
Proof.
  induction K as [|K IH]; intros H i.
  - replace k with 0%nat by lia. reflexivity.
  - destruct (Nat.eq_dec k (S K)) as [->|Hn]; auto. rewrite clear_up_stable by lia. apply IH. lia.
Qed.
Lemma clear_up_word k id st i n : N.testbit (mm_words (clear_up k id st) k i) n =
  N.testbit (mm_words st k i) n &&
  negb ((i =? up (S k) id) && (n =? up k id mod 64) &&
        match k with O => true | S k' => mm_words (clear_up k' id st) k' (up (S k') id) =? 0 end).
Proof.
  destruct k as [|k].
  - simpl clear_up. rewrite up_S. change (up 0 id) with id. destruct (N.eq_dec i (id / 64)) as [->|Hn].
    + rewrite set_word_same, ldiff_mask_bit, N.eqb_refl. simpl. now rewrite andb_true_r.
    + rewrite set_word_other by auto. replace (i =? id / 64) with false by lia. simpl. now rewrite andb_true_r.
  - simpl clear_up. destruct (_ =? 0) eqn:E.
    + destruct (N.eq_dec i (up (S (S k)) id)) as [->|Hn].
      * change (N.shiftr (up (S k) id) 6) with (up (S (S k)) id).
        rewrite set_word_same, ldiff_mask_bit, N.eqb_refl, clear_up_above by lia. simpl. now rewrite andb_true_r.
      * rewrite set_word_other by auto. rewrite clear_up_above by lia. replace (i =? up (S (S k)) id) with false by lia.
        simpl. now rewrite andb_true_r.
    + rewrite clear_up_above by lia. rewrite !andb_false_r. simpl. now rewrite andb_true_r.
Qed.

Lemma clear_up_leaf K id st j : leaf_bit (clear_up K id st) j = leaf_bit st j && negb (j =? id).
Proof.
  unfold leaf_bit. rewrite (clear_up_stable_le 0 K) by lia. rewrite clear_up_word. f_equal. f_equal.
  rewrite up_S. change (up 0 id) with id. rewrite andb_true_r.
  destruct (N.eq_dec j id) as [->|Hn]; [now rewrite !N.eqb_refl|].
  replace (j =? id) with false by lia. apply andb_false_iff.
  destruct (N.eq_dec (j / 64) (id / 64)) as [E|E]; [right|left; lia].
  apply N.eqb_neq. intros E2. apply Hn. rewrite (N.div_mod j 64), (N.div_mod id 64) by lia. congruence.
Qed.

Lemma clear_up_inv id st : inv st -> id < mm_max st -> inv (clear_up 5 id st).
Proof.
  intros I Hid. constructor.
  - rewrite (proj1 (clear_up_max 5 id st)). apply I.
  - intros k i n H. destruct (Nat.le_gt_cases k 5).
    + rewrite (clear_up_stable_le k 5) in H by lia. rewrite clear_up_word in H. apply andb_true_iff in H. 
      apply (inv_range st I k i). tauto.
    + rewrite clear_up_above in H by lia. apply (inv_range st I k i n H).
  - intros k i b Hk Hb. rewrite (clear_up_stable_le (S k) 5) by lia. rewrite (clear_up_stable_le k 5) by lia.
    rewrite clear_up_word. pose proof (inv_tree st I k i b Hk Hb) as T.
    destruct (N.eq_dec (i * 64 + b) (up (S k) id)) as [E|E].
    + assert (E1 : i = up (S (S k)) id) by (rewrite up_S, <- E; symmetry; apply child_of; auto).
      assert (E2 : b = up (S k) id mod 64) by (rewrite <- E; symmetry; apply child_of; auto).
      rewrite <- E1, <- E2, !N.eqb_refl, E. simpl.
      destruct (mm_words (clear_up k id st) k (up (S k) id) =? 0) eqn:Z.
      * simpl. rewrite andb_false_r. split; [discriminate|]. lia.
      * simpl. rewrite andb_true_r, T, E. split; [intros _; lia|]. intros _.
        apply N.eqb_neq in Z. apply nonzero_bit in Z. destruct Z as (n & Z). rewrite clear_up_word in Z.
        apply andb_true_iff in Z. apply nonzero_bit. exists n. tauto.
    + assert (Hw : (i =? up (S (S k)) id) && (b =? up (S k) id mod 64) = false).
      { apply andb_false_iff. destruct (N.eq_dec i (up (S (S k)) id)) as [Ei|Ei]; [right|left; lia].
        apply N.eqb_neq. intros Eb. apply E. rewrite Ei, Eb. symmetry. apply up_split. }
      rewrite Hw. simpl. rewrite andb_true_r, T.
      assert (Heq : mm_words (clear_up k id st) k (i * 64 + b) = mm_words st k (i * 64 + b)).
      { apply N.bits_inj. intros n. rewrite clear_up_word. replace (i * 64 + b =? up (S k) id) with false by lia.
        simpl. apply andb_true_r. }
      rewrite Heq. reflexivity.
  - rewrite (proj1 (clear_up_max 5 id st)). intros j Hj. rewrite clear_up_leaf. rewrite (inv_tail st I j Hj). simpl. lia.
Qed.

(** ** GetAndSet *)
Definition st_eq (a b : mm) : Prop := mm_max a = mm_max b /\ mm_count a = mm_count b /\ forall k i, mm_words a k i = mm_words b k i.

Lemma get_and_set_spec idw st : inv st -> W32 <= idw -> forall k seg, (k <= 5)%nat ->
  seg <= up (S k) (mm_max st) -> mm_words st k seg <> 0 ->
  exists st' id full, get_and_set idw k st seg = Some (st', id, full) /\
    leaf_bit st id = true /\ up (S k) id = seg /\ id <= mm_max st /\
    (forall j, leaf_bit st j = true -> up (S k) j = seg -> id <= j) /\
    (id < mm_max st -> st' = clear_up k id st /\ full = (mm_words (clear_up k id st) k seg =? 0)) /\
    (id = mm_max st -> st' = st /\ full = false).
Proof.
  intros I Hidw. pose proof (inv_max st I) as Hmax. unfold MAXSEGMENTS in Hmax. unfold W32 in Hidw.
  induction k as [|k IH]; intros seg Hk Hseg Hnz.
  - simpl get_and_set. rewrite row_len_le. replace (seg <=? up 1 (mm_max st)) with true by lia. simpl negb.
    destruct (lsb_spec _ Hnz) as (b & -> & Hb & Hmin). pose proof (inv_range st I _ _ _ Hb) as Hb64.
    destruct (child_of seg b Hb64) as (Hd & Hm).
    rewrite shl6_lor by auto.
    assert (Hle : seg * 64 + b <= mm_max st).
    { rewrite up_S in Hseg. change (up 0 (mm_max st)) with (mm_max st) in Hseg.
      destruct (N.lt_ge_cases seg (mm_max st / 64)) as [Hlt|Hge].
      - pose proof (N.div_mod (mm_max st) 64). lia.
      - assert (Es : seg = mm_max st / 64) by lia.
        assert (Hs : leaf_bit st (mm_max st) = true) by (apply (inv_tail st I); lia).
        unfold leaf_bit in Hs. rewrite <- Es in Hs. specialize (Hmin _ Hs). pose proof (N.div_mod (mm_max st) 64). lia. }
    rewrite N.mod_small by lia. set (id := seg * 64 + b) in *.
    eexists _, id, _. split; [reflexivity|].
    assert (Hlb : leaf_bit st id = true). { unfold leaf_bit. rewrite Hd, Hm. exact Hb. }
    split; [exact Hlb|]. split; [rewrite up_S; exact Hd|]. split; [exact Hle|]. split.
    { intros j Hj Hju. unfold leaf_bit in Hj. rewrite up_S in Hju. change (up 0 j) with j in Hju. rewrite Hju in Hj.
      specialize (Hmin _ Hj). pose proof (N.div_mod j 64). unfold id. lia. }
    split.
    + intros Hlt. replace (id <? mm_max st) with true by lia. simpl clear_up. rewrite Hd, Hm. auto.
    + intros Heq. replace (id <? mm_max st) with false by lia. simpl. split; auto. lia.
  - simpl get_and_set. rewrite row_len_le. replace (seg <=? up (S (S k)) (mm_max st)) with true by lia. simpl negb.
    destruct (lsb_spec _ Hnz) as (b & -> & Hb & Hmin). pose proof (inv_range st I _ _ _ Hb) as Hb64.
    destruct (child_of seg b Hb64) as (Hd & Hm).
    rewrite shl6_lor by auto.
    assert (Hle : seg * 64 + b <= up (S k) (mm_max st)).
    { rewrite (up_S (S k)) in Hseg. destruct (N.lt_ge_cases seg (up (S k) (mm_max st) / 64)) as [Hlt|Hge].
      - pose proof (N.div_mod (up (S k) (mm_max st)) 64). lia.
      - assert (Es : seg = up (S k) (mm_max st) / 64) by lia.
        pose proof (sentinel st I k ltac:(lia)) as Hs. rewrite up_split in Hs.
        apply (inv_tree st I) in Hs; [|lia|apply N.mod_lt; lia].
        rewrite (up_S (S k)) in Hs. rewrite <- Es in Hs. specialize (Hmin _ Hs).
        pose proof (N.div_mod (up (S k) (mm_max st)) 64). lia. }
    pose proof (up_le (S k) (mm_max st)) as Hul.
    rewrite N.mod_small by lia.
    assert (Hcn : mm_words st k (seg * 64 + b) <> 0) by (apply (inv_tree st I); auto; lia).
    destruct (IH (seg * 64 + b) ltac:(lia) Hle Hcn) as (st1 & id & full & -> & L & U & LE & MIN & LT & EQ).
    eexists _, id, _. split; [reflexivity|]. split; [exact L|].
    split; [rewrite up_S, U; exact Hd|]. split; [exact LE|]. split.
    { intros j Hj Hju. pose proof (path_nonzero st j I Hj k ltac:(lia)) as Hp. rewrite up_split in Hp. rewrite Hju in Hp.
      apply (inv_tree st I) in Hp; [|lia|apply N.mod_lt; lia]. specialize (Hmin _ Hp).
      destruct (N.eq_dec b (up (S k) j mod 64)) as [Eb|Eb].
      - apply MIN; auto. rewrite up_split, Hju, <- Eb. reflexivity.
      - destruct (N.lt_ge_cases j id) as [Hlt|]; auto. exfalso.
        assert (Hmono : up (S k) j <= up (S k) id) by (apply up_mono; lia). rewrite (up_split (S k) j), Hju, U in Hmono. lia. }
    split.
    + intros Hlt. destruct (LT Hlt) as (-> & ->). replace (id <? mm_max st) with true by lia. rewrite andb_true_r.
      assert (Eu : up (S (S k)) id = seg) by (rewrite up_S, U; exact Hd).
      assert (Em : up (S k) id mod 64 = b) by (rewrite U; exact Hm).
      simpl clear_up. change (N.shiftr (up k id) 6) with (up (S k) id).
      change (N.shiftr (up (S k) id) 6) with (up (S (S k)) id). rewrite U, Eu, Hm.
      split; reflexivity.
    + intros Heq. destruct (EQ Heq) as (-> & ->). simpl. split; auto. lia.
Qed.

(** ** Reserve *)
Lemma clear_up_full_stop k K id st : (k <= K)%nat -> (mm_words (clear_up k id st) k (up (S k) id) =? 0) = false ->
  inv st -> leaf_bit st id = true -> (K <= 5)%nat -> clear_up K id st = clear_up k id st.
Proof.
  intros Hk Hz I Hl. induction K as [|K IH]; intros HK.
  - replace k with 0%nat by lia. reflexivity.
  - destruct (Nat.eq_dec k (S K)) as [->|Hn]; auto.
    assert (HkK : (k <= K)%nat) by lia. specialize (IH HkK ltac:(lia)). simpl clear_up. rewrite IH.
    destruct (Nat.eq_dec k K) as [->|HnK].
    + change (N.shiftr (up K id) 6) with (up (S K) id). rewrite Hz. reflexivity.
    + rewrite clear_up_above by lia. change (N.shiftr (up K id) 6) with (up (S K) id).
      pose proof (path_nonzero st id I Hl K ltac:(lia)) as Hp. apply N.eqb_neq in Hp. rewrite Hp. reflexivity.
Qed.

Lemma alloc_up_eq id st : inv st -> id < mm_max st -> leaf_bit st id = true -> forall n k, (n + k = 5)%nat ->
  alloc_up n (S k) (up (S k) id) (mm_words (clear_up k id st) k (up (S k) id) =? 0) (clear_up k id st) = Some (clear_up 5 id st).
Proof.
  intros I Hid Hl. induction n as [|n IH]; intros k Hnk.
  - simpl in Hnk. subst k. reflexivity.
  - simpl alloc_up. change (N.shiftr (up k id) 6) with (up (S k) id).
    destruct (mm_words (clear_up k id st) k (up (S k) id) =? 0) eqn:E.
    + change (N.shiftr (up (S k) id) 6) with (up (S (S k)) id).
      rewrite (proj1 (clear_up_max k id st)). rewrite row_len_le.
      pose proof (up_mono (S (S k)) id (mm_max st) ltac:(lia)).
      replace (up (S (S k)) id <=? up (S (S k)) (mm_max st)) with true by lia. simpl negb. cbv iota.
      rewrite land63.
      assert (Hc : clear_up (S k) id st = set_word (clear_up k id st) (S k) (up (S (S k)) id)
                (N.ldiff (mm_words (clear_up k id st) (S k) (up (S (S k)) id)) (N.shiftl 1 (up (S k) id mod 64)))).
      { simpl clear_up. change (N.shiftr (up k id) 6) with (up (S k) id). rewrite E. reflexivity. }
      specialize (IH (S k) ltac:(lia)). rewrite <- IH. rewrite Hc. f_equal. rewrite set_word_same. reflexivity.
    + f_equal. symmetry. apply clear_up_full_stop; auto; lia.
Qed.

Lemma set_word_id st k i w : w = mm_words st k i -> st_eq (set_word st k i w) st.
Proof.
  intros ->. split; [reflexivity|]. split; [reflexivity|]. intros k' i'. simpl.
  destruct (Nat.eqb k' k) eqn:E1; simpl; auto. destruct (i' =? i) eqn:E2; auto.
  apply Nat.eqb_eq in E1. apply N.eqb_eq in E2. now subst.
Qed.
Lemma st_eq_inv a b : st_eq a b -> inv b -> inv a.
Proof.
  intros (E1 & E2 & E3) I. constructor.
  - rewrite E1. apply I.
  - intros k i n. rewrite E3. apply I.
  - intros k i b'. rewrite !E3. apply I.
  - intros id. unfold leaf_bit. rewrite E1, E3. apply I.
Qed.
Lemma st_eq_leaf a b id : st_eq a b -> leaf_bit a id = leaf_bit b id.
Proof. intros (_ & _ & E). unfold leaf_bit. now rewrite E. Qed.

Lemma alloc_segment_spec st id : inv st ->
  exists st' r, alloc_segment st id = Some (st', r) /\
    (r = true <-> id < mm_max st /\ leaf_bit st id = true) /\
    (r = true -> st' = mkMm (mm_max st) (add64 (mm_count st) 1) (mm_words (clear_up 5 id st))) /\
    (r = false -> st_eq st' st).
Proof.
  intros I. unfold alloc_segment. destruct (mm_max st <=? id) eqn:E.
  - exists st, false. split; auto. split; [split; [discriminate|lia]|]. split; [discriminate|]. intros _. repeat split.
  - rewrite row_len_le, shiftr6, land63. pose proof (up_mono 1 id (mm_max st) ltac:(lia)) as Hm. rewrite !up_S in Hm.
    change (up 0 id) with id in Hm. change (up 0 (mm_max st)) with (mm_max st) in Hm.
    rewrite up_S. change (up 0 (mm_max st)) with (mm_max st).
    replace (id / 64 <=? mm_max st / 64) with true by lia. simpl negb. cbv iota.
    rewrite land_mask, negb_involutive.
    change (N.testbit (mm_words st 0 (id / 64)) (id mod 64)) with (leaf_bit st id).
    destruct (leaf_bit st id) eqn:L; simpl negb; cbv iota.
    + pose proof (alloc_up_eq id st I ltac:(lia) L 5 0 eq_refl) as A.
      rewrite up_S in A. change (up 0 id) with id in A. unfold clear_up in A at 1 2. rewrite set_word_same in A.
      change top_level with 5%nat. rewrite A.
      eexists _, true. split; [reflexivity|]. split; [split; [intros _; lia|auto]|]. split; [|discriminate].
      intros _. destruct (clear_up_max 5 id st) as (-> & ->). reflexivity.
    + eexists _, false. split; [reflexivity|]. split; [split; [discriminate|intros (_ & ?); discriminate]|].
      split; [discriminate|]. intros _. apply set_word_id. apply N.bits_inj. intros n. rewrite ldiff_mask_bit.
      destruct (N.eq_dec n (id mod 64)) as [->|Hn].
      * rewrite N.eqb_refl. simpl. rewrite andb_false_r. symmetry. exact L.
      * replace (n =? id mod 64) with false by lia. simpl. apply andb_true_r.
Qed.

(** ** Free *)
Fixpoint set_up (k : nat) (id : N) (st : mm) : mm :=
  match k with
  | O => set_word st 0 (id / 64) (N.lor (mm_words st 0 (id / 64)) (N.shiftl 1 (id mod 64)))
  | S k' => let st1 := set_up k' id st in
    set_word st1 k (up (S k) id) (N.lor (mm_words st1 k (up (S k) id)) (N.shiftl 1 (up k id mod 64)))
  end.
Lemma set_up_max k id st : mm_max (set_up k id st) = mm_max st /\ mm_count (set_up k id st) = mm_count st.
Proof. induction k; simpl; auto. Qed.
Lemma set_up_above k id st : forall k' i, (k < k')%nat -> mm_words (set_up k id st) k' i = mm_words st k' i.
Proof.
  induction k as [|k IH]; intros k' i Hk; simpl set_up.
  - apply set_word_other. lia.
  - rewrite set_word_other by lia. apply IH. lia.
Qed.
Lemma set_up_stable_le k K id st : (k <= K)%nat -> forall i, mm_words (set_up K id st) k i = mm_words (set_up k id st) k i.
Proof.
  induction K as [|K IH]; intros H i.
  - replace k with 0%nat by lia. reflexivity.
  - destruct (Nat.eq_dec k (S K)) as [->|Hn]; auto. simpl set_up at 1. rewrite set_word_other by lia. apply IH. lia.
Qed.
Lemma set_up_word k id st i n : N.testbit (mm_words (set_up k id st) k i) n =
  N.testbit (mm_words st k i) n || ((i =? up (S k) id) && (n =? up k id mod 64)).
Proof.
  destruct k as [|k]; simpl set_up.
  - rewrite up_S. change (up 0 id) with id. destruct (N.eq_dec i (id / 64)) as [->|Hn].
    + rewrite set_word_same, lor_mask_bit, N.eqb_refl. reflexivity.
    + rewrite set_word_other by auto. replace (i =? id / 64) with false by lia. now rewrite orb_false_r.
  - change (N.shiftr (N.shiftr (up k id) 6) 6) with (up (S (S k)) id).
    destruct (N.eq_dec i (up (S (S k)) id)) as [->|Hn].
    + rewrite set_word_same, lor_mask_bit, N.eqb_refl, set_up_above by lia. reflexivity.
    + rewrite set_word_other by auto. rewrite set_up_above by lia. replace (i =? up (S (S k)) id) with false by lia.
      now rewrite orb_false_r.
Qed.
Lemma set_up_leaf K id st j : leaf_bit (set_up K id st) j = leaf_bit st j || (j =? id).
Proof.
  unfold leaf_bit. rewrite (set_up_stable_le 0 K) by lia. rewrite set_up_word. f_equal.
  rewrite up_S. change (up 0 id) with id.
  destruct (N.eq_dec j id) as [->|Hn]; [now rewrite !N.eqb_refl|].
  replace (j =? id) with false by lia. apply andb_false_iff.
  destruct (N.eq_dec (j / 64) (id / 64)) as [E|E]; [right|left; lia].
  apply N.eqb_neq. intros E2. apply Hn. rewrite (N.div_mod j 64), (N.div_mod id 64) by lia. congruence.
Qed.
Lemma set_up_inv id st : inv st -> inv (set_up 5 id st).
Proof.
  intros I. constructor.
  - rewrite (proj1 (set_up_max 5 id st)). apply I.
  - intros k i n H. destruct (Nat.le_gt_cases k 5).
    + rewrite (set_up_stable_le k 5) in H by lia. rewrite set_up_word in H. apply orb_true_iff in H.
      destruct H as [H|H]; [apply (inv_range st I k i n H)|]. pose proof (N.mod_lt (up k id) 64). lia.
    + rewrite set_up_above in H by lia. apply (inv_range st I k i n H).
  - intros k i b Hk Hb. rewrite (set_up_stable_le (S k) 5), (set_up_stable_le k 5) by lia.
    rewrite set_up_word. pose proof (inv_tree st I k i b Hk Hb) as T.
    destruct (N.eq_dec (i * 64 + b) (up (S k) id)) as [E|E].
    + assert (E1 : i = up (S (S k)) id) by (rewrite up_S, <- E; symmetry; apply child_of; auto).
      assert (E2 : b = up (S k) id mod 64) by (rewrite <- E; symmetry; apply child_of; auto).
      rewrite <- E1, <- E2, !N.eqb_refl, E. rewrite orb_true_r. split; [|auto]. intros _. apply nonzero_bit.
      exists (up k id mod 64). rewrite set_up_word, !N.eqb_refl. apply orb_true_r.
    + assert (Hw : (i =? up (S (S k)) id) && (b =? up (S k) id mod 64) = false).
      { apply andb_false_iff. destruct (N.eq_dec i (up (S (S k)) id)) as [Ei|Ei]; [right|left; lia].
        apply N.eqb_neq. intros Eb. apply E. rewrite Ei, Eb. symmetry. apply up_split. }
      rewrite Hw, orb_false_r, T.
      assert (Heq : mm_words (set_up k id st) k (i * 64 + b) = mm_words st k (i * 64 + b)).
      { apply N.bits_inj. intros n. rewrite set_up_word. replace (i * 64 + b =? up (S k) id) with false by lia.
        apply orb_false_r. }
      rewrite Heq. reflexivity.
  - rewrite (proj1 (set_up_max 5 id st)). intros j Hj. rewrite set_up_leaf, (inv_tail st I j Hj). reflexivity.
Qed.
Lemma free_up_eq id st : id < mm_max st -> forall n k, (n + k = 5)%nat ->
  free_up n (S k) (up (S k) id) (set_up k id st) = Some (set_up 5 id st).
Proof.
  intros Hid. induction n as [|n IH]; intros k Hnk.
  - simpl in Hnk. subst k. reflexivity.
  - simpl free_up. change (N.shiftr (up (S k) id) 6) with (up (S (S k)) id).
    rewrite (proj1 (set_up_max k id st)), row_len_le.
    pose proof (up_mono (S (S k)) id (mm_max st) ltac:(lia)).
    replace (up (S (S k)) id <=? up (S (S k)) (mm_max st)) with true by lia. simpl negb. cbv iota.
    rewrite land63. specialize (IH (S k) ltac:(lia)). rewrite <- IH. reflexivity.
Qed.
Lemma free_segment_spec st id : inv st ->
  exists st' r, free_segment st id = Some (st', r) /\
    (r = true <-> id < mm_max st /\ leaf_bit st id = false) /\
    (r = true -> st' = mkMm (mm_max st) (sub64 (mm_count st) 1) (mm_words (set_up 5 id st))) /\
    (r = false -> st_eq st' st).
Proof.
  intros I. unfold free_segment. destruct (mm_max st <=? id) eqn:E.
  - exists st, false. split; auto. split; [split; [discriminate|lia]|]. split; [discriminate|]. intros _. repeat split.
  - rewrite row_len_le, shiftr6, land63. pose proof (up_mono 1 id (mm_max st) ltac:(lia)) as Hm. rewrite !up_S in Hm.
    change (up 0 id) with id in Hm. change (up 0 (mm_max st)) with (mm_max st) in Hm.
    rewrite up_S. change (up 0 (mm_max st)) with (mm_max st).
    replace (id / 64 <=? mm_max st / 64) with true by lia. simpl negb. cbv iota.
    rewrite land_mask, negb_involutive.
    change (N.testbit (mm_words st 0 (id / 64)) (id mod 64)) with (leaf_bit st id).
    destruct (leaf_bit st id) eqn:L.
    + eexists _, false. split; [reflexivity|]. split; [split; [discriminate|intros (_ & ?); discriminate]|].
      split; [discriminate|]. intros _. apply set_word_id. apply N.bits_inj. intros n. rewrite lor_mask_bit.
      destruct (N.eq_dec n (id mod 64)) as [->|Hn].
      * rewrite N.eqb_refl, orb_true_r. symmetry. exact L.
      * replace (n =? id mod 64) with false by lia. apply orb_false_r.
    + pose proof (free_up_eq id st ltac:(lia) 5 0 eq_refl) as A.
      rewrite up_S in A. change (up 0 id) with id in A. unfold set_up in A at 1.
      change top_level with 5%nat. rewrite A.
      eexists _, true. split; [reflexivity|]. split; [split; [intros _; lia|auto]|]. split; [|discriminate].
      intros _. destruct (set_up_max 5 id st) as (-> & ->). reflexivity.
Qed.

(** ** Refinement *)
Record refines (st : mm) (max : N) (A : list N) : Prop := mkRef {
  ref_inv : inv st;
  ref_max : mm_max st = max;
  ref_nodup : NoDup A;
  ref_lt : forall id, In id A -> id < max;
  ref_bits : forall id, id < max -> (leaf_bit st id = true <-> ~ In id A);
  ref_count : mm_count st = N.of_nat (length A)
}.

Lemma bounded_length max (A : list N) : NoDup A -> (forall id, In id A -> id < max) -> N.of_nat (length A) <= max.
Proof.
  intros Hn Hl. assert (H : incl A (map N.of_nat (seq 0 (N.to_nat max)))).
  { intros x Hx. specialize (Hl x Hx). apply in_map_iff. exists (N.to_nat x). split; [lia|]. apply in_seq. lia. }
  pose proof (NoDup_incl_length Hn H) as L. rewrite map_length, seq_length in L. lia.
Qed.
Lemma bounded_full max (A : list N) : NoDup A -> (forall id, In id A -> id < max) ->
  (none_free max A <-> N.of_nat (length A) = max).
Proof.
  intros Hn Hl. pose proof (bounded_length max A Hn Hl) as Hle. split.
  - intros H. destruct (N.lt_ge_cases (N.of_nat (length A)) max); [|lia]. exfalso.
    assert (Hi : incl (map N.of_nat (seq 0 (N.to_nat max))) A).
    { intros x Hx. apply in_map_iff in Hx. destruct Hx as (y & <- & Hy). apply in_seq in Hy.
      destruct (in_dec N.eq_dec (N.of_nat y) A) as [|Hni]; auto. exfalso. apply (H (N.of_nat y)). split; [lia|auto]. }
    assert (Hnd : NoDup (map N.of_nat (seq 0 (N.to_nat max)))).
    { apply FinFun.Injective_map_NoDup; [intros a b; lia|apply seq_NoDup]. }
    pose proof (NoDup_incl_length Hnd Hi) as L. rewrite map_length, seq_length in L. lia.
  - intros E j (Hj & Hnj).
    assert (Hn2 : NoDup (j :: A)) by (constructor; auto).
    assert (Hl2 : forall id, In id (j :: A) -> id < max) by (intros id [<-|H]; auto).
    pose proof (bounded_length max (j :: A) Hn2 Hl2) as L. simpl length in L. lia.
Qed.

Lemma inv_same_words a b : mm_max a = mm_max b -> mm_words a = mm_words b -> inv b -> inv a.
Proof. intros E1 E2 I. constructor; unfold leaf_bit; rewrite ?E1, ?E2; apply I. Qed.

Lemma refines_alloc st max A id : refines st max A -> is_free max A id ->
  refines (mkMm max (add64 (mm_count st) 1) (mm_words (clear_up 5 id st))) max (id :: A).
Proof.
  intros R (Hlt & Hni). destruct R. subst max.
  pose proof (inv_max st ref_inv0) as Hm. unfold MAXSEGMENTS in Hm.
  pose proof (bounded_length (mm_max st) A ref_nodup0 ref_lt0) as Hlen.
  constructor; cbn [mm_max mm_count].
  - apply (inv_same_words _ (clear_up 5 id st)); [cbn [mm_max]; symmetry; apply (clear_up_max 5)|reflexivity|]. now apply clear_up_inv.
  - reflexivity.
  - now constructor.
  - intros j [<-|H]; auto.
  - intros j Hj. change (leaf_bit (clear_up 5 id st) j = true <-> ~ (id = j \/ In j A)).
    rewrite clear_up_leaf, andb_true_iff, (ref_bits0 j Hj). split.
    + intros (H1 & H2) [->|H]; [lia|auto].
    + intros H. split; [tauto|]. destruct (N.eq_dec j id); [subst; exfalso; tauto|lia].
  - rewrite ref_count0. rewrite add64_small; [simpl length; lia|]. unfold W64. lia.
Qed.
Lemma remove_length_in A id : NoDup A -> In id A -> N.of_nat (length (remove N.eq_dec id A)) = N.of_nat (length A) - 1.
Proof.
  induction A as [|a A IH]; intros Hn Hin; [destruct Hin|]. inversion Hn; subst. simpl. destruct (N.eq_dec id a) as [->|Hne].
  - rewrite notin_remove by auto. simpl length. lia.
  - destruct Hin as [->|Hin]; [congruence|]. simpl length. specialize (IH H2 Hin). 
    assert (length A <> 0)%nat by (destruct A; [destruct Hin|discriminate]). lia.
Qed.
Lemma NoDup_remove_id A id : NoDup A -> NoDup (remove N.eq_dec id A).
Proof.
  induction A as [|a A IH]; intros Hn; simpl; auto. inversion Hn; subst. destruct (N.eq_dec id a); auto.
  constructor; auto. intros H. apply in_remove in H. tauto.
Qed.
Lemma refines_free st max A id : refines st max A -> In id A ->
  refines (mkMm max (sub64 (mm_count st) 1) (mm_words (set_up 5 id st))) max (remove N.eq_dec id A).
Proof.
  intros R Hin. destruct R. subst max.
  pose proof (inv_max st ref_inv0) as Hm. unfold MAXSEGMENTS in Hm.
  pose proof (bounded_length (mm_max st) A ref_nodup0 ref_lt0) as Hlen.
  constructor; cbn [mm_max mm_count].
  - apply (inv_same_words _ (set_up 5 id st)); [cbn [mm_max]; symmetry; apply (set_up_max 5)|reflexivity|]. now apply set_up_inv.
  - reflexivity.
  - now apply NoDup_remove_id.
  - intros j H. apply in_remove in H. now apply ref_lt0.
  - intros j Hj. change (leaf_bit (set_up 5 id st) j = true <-> ~ In j (remove N.eq_dec id A)).
    rewrite set_up_leaf, orb_true_iff, (ref_bits0 j Hj). split.
    + intros [H|H] Hr; apply in_remove in Hr; [tauto|lia].
    + intros H. destruct (N.eq_dec j id) as [|Hne]; [right; lia|left]. intros Hj2. apply H. now apply in_in_remove.
  - rewrite remove_length_in by auto. rewrite ref_count0.
    assert (length A <> 0)%nat by (destruct A; [destruct Hin|discriminate]).
    apply sub64_small; [lia|unfold W64; lia].
Qed.
Lemma refines_eq st st' max A : st_eq st' st -> refines st max A -> refines st' max A.
Proof.
  intros E R. destruct R. constructor; auto.
  - eapply st_eq_inv; eauto.
  - destruct E as (E & _). congruence.
  - intros id H. rewrite (st_eq_leaf _ _ id E). auto.
  - destruct E as (_ & E & _). congruence.
Qed.

Lemma alloc_refines st max A id : refines st max A ->
  exists st' r, alloc_segment st id = Some (st', r) /\ (r = true <-> is_free max A id) /\
    refines st' max (if r then id :: A else A).
Proof.
  intros R. destruct (alloc_segment_spec st id (ref_inv _ _ _ R)) as (st' & r & E & H1 & H2 & H3).
  exists st', r. split; auto.
  assert (Hr : r = true <-> is_free max A id).
  { rewrite H1, (ref_max _ _ _ R). unfold is_free. split.
    - intros (X & Y). split; auto. now apply (ref_bits _ _ _ R).
    - intros (X & Y). split; auto. now apply (ref_bits _ _ _ R). }
  split; auto. destruct r.
  - rewrite (H2 eq_refl). rewrite (ref_max _ _ _ R). apply refines_alloc; auto. now apply Hr.
  - eapply refines_eq; [apply H3; reflexivity|auto].
Qed.
Lemma free_refines st max A id : refines st max A ->
  exists st' r, free_segment st id = Some (st', r) /\ (r = true <-> In id A) /\
    refines st' max (if r then remove N.eq_dec id A else A).
Proof.
  intros R. destruct (free_segment_spec st id (ref_inv _ _ _ R)) as (st' & r & E & H1 & H2 & H3).
  exists st', r. split; auto.
  assert (Hr : r = true <-> In id A).
  { rewrite H1, (ref_max _ _ _ R). split.
    - intros (X & Y). destruct (in_dec N.eq_dec id A) as [|Hni]; auto. apply (ref_bits _ _ _ R id X) in Hni. congruence.
    - intros X. pose proof (ref_lt _ _ _ R id X). split; auto. destruct (leaf_bit st id) eqn:L; auto.
      apply (ref_bits _ _ _ R id H) in L. tauto. }
  split; auto. destruct r.
  - rewrite (H2 eq_refl). rewrite (ref_max _ _ _ R). apply refines_free; auto. now apply Hr.
  - eapply refines_eq; [apply H3; reflexivity|auto].
Qed.
Lemma get_refines idw st max A : refines st max A -> W32 <= idw ->
  (exists st' id, get_first_free idw st = Some (st', Seg id) /\ lowest_free max A id /\ refines st' max (id :: A)) \/
  (get_first_free idw st = Some (st, Full) /\ none_free max A).
Proof.
  intros R Hw. pose proof (ref_inv _ _ _ R) as I. unfold get_first_free.
  assert (Hm := inv_max st I). unfold MAXSEGMENTS in Hm.
  assert (Hz : forall j, j <= mm_max st -> up 6 j = 0).
  { intros j Hj. apply up6. assert (64 ^ 6 = 68719476736) by reflexivity. lia. }
  pose proof (sentinel st I 5 ltac:(lia)) as Hs. rewrite (Hz (mm_max st)) in Hs by lia.
  change top_level with 5%nat. apply N.eqb_neq in Hs. rewrite Hs. apply N.eqb_neq in Hs.
  destruct (get_and_set_spec idw st I Hw 5 0 ltac:(lia) ltac:(lia) Hs) as (st' & id & full & E & L & U & LE & MIN & LT & EQ).
  rewrite E. rewrite (ref_max _ _ _ R) in *. destruct (max <=? id) eqn:Ec.
  - right. destruct EQ as (-> & _); [lia|]. split; auto. intros j (Hj & Hnj).
    apply (ref_bits _ _ _ R j Hj) in Hnj. specialize (MIN j Hnj (Hz j ltac:(lia))). lia.
  - left. destruct LT as (-> & _); [lia|]. destruct (clear_up_max 5 id st) as (Em & En).
    eexists _, id. split; [reflexivity|].
    assert (Hf : is_free max A id). { split; [lia|]. apply (ref_bits _ _ _ R id); [lia|exact L]. }
    split.
    + split; auto. intros j (Hj & Hnj). apply (ref_bits _ _ _ R j Hj) in Hnj. apply MIN; auto. apply Hz. lia.
    + rewrite Em, En, (ref_max _ _ _ R). apply refines_alloc; auto.
Qed.

Lemma free_list_refines max : forall ids st A, refines st max A ->
  exists st', free_list st ids = Some (st', snd (frees A ids)) /\ refines st' max (fst (frees A ids)).
Proof.
  induction ids as [|id ids IH]; intros st A R; simpl.
  - exists st. auto.
  - destruct (free_refines st max A id R) as (st1 & r & -> & Hr & R1).
    destruct (existsb (N.eqb id) A) eqn:E.
    + assert (Hin : In id A). { apply existsb_exists in E. destruct E as (x & Hx & Hxe). apply N.eqb_eq in Hxe. now subst. }
      apply Hr in Hin. subst r. destruct (IH st1 _ R1) as (st2 & -> & R2). exists st2. split; auto.
    + assert (Hin : ~ In id A). { intros Hin. assert (existsb (N.eqb id) A = true) by (apply existsb_exists; exists id; split; auto; lia). congruence. }
      destruct r; [tauto|]. destruct (IH st1 _ R1) as (st2 & -> & R2). exists st2. split; auto.
Qed.

Lemma takes_app max A ids A1 id : takes max A ids A1 -> lowest_free max A1 id -> takes max A (ids ++ [id]) (id :: A1).
Proof. intros H. induction H; simpl; intros L; econstructor; eauto. constructor. Qed.
Lemma takes_spec max A ids A' : takes max A ids A' -> A' = rev ids ++ A.
Proof. intros H. induction H; simpl; auto. rewrite IHtakes, <- app_assoc. reflexivity. Qed.
Lemma takes_In max A ids A' : takes max A ids A' -> forall id, In id ids -> is_free max A id.
Proof.
  intros H. induction H; intros x Hx; [destruct Hx|]. destruct Hx as [<-|Hx]; [apply H|].
  destruct (IHtakes x Hx) as (X & Y). split; auto. intros Hn. apply Y. now right.
Qed.
Lemma takes_NoDup max A ids A' : takes max A ids A' -> NoDup ids.
Proof.
  intros H. induction H; constructor; auto. intros Hx. pose proof (takes_In _ _ _ _ H0 _ Hx) as (_ & Hn). apply Hn. now left.
Qed.

(** Freeing exactly the ids just taken gives back a permutation-free equal list of allocated ids. *)
Lemma remove_head_notin (id : N) l : ~ In id l -> remove N.eq_dec id (id :: l) = l.
Proof. intros H. simpl. destruct (N.eq_dec id id); [|congruence]. now apply notin_remove. Qed.
Lemma frees_keep id : forall l B, ~ In id l -> frees (id :: B) l = (id :: fst (frees B l), snd (frees B l)).
Proof.
  induction l as [|x l IH]; intros B Hni; simpl; auto.
  replace (x =? id) with false by (symmetry; apply N.eqb_neq; intros ->; apply Hni; now left). simpl.
  destruct (N.eq_dec x id) as [->|Hne]; [exfalso; apply Hni; now left|].
  destruct (existsb (N.eqb x) B); rewrite IH; auto; intros H; apply Hni; now right.
Qed.
Lemma frees_app : forall l1 l2 B, frees B (l1 ++ l2) = (fst (frees (fst (frees B l1)) l2), snd (frees B l1) && snd (frees (fst (frees B l1)) l2)).
Proof.
  induction l1 as [|x l1 IH]; intros l2 B; simpl.
  - destruct (frees B l2); reflexivity.
  - destruct (existsb (N.eqb x) B); rewrite IH; auto.
Qed.
Lemma frees_undo : forall ids A, NoDup ids -> (forall id, In id ids -> ~ In id A) -> frees (rev ids ++ A) ids = (A, true).
Proof.
  induction ids as [|id ids IH] using rev_ind; intros A Hn Hd; simpl; auto.
  apply NoDup_remove in Hn. rewrite app_nil_r in Hn. destruct Hn as (Hn1 & Hn2).
  rewrite rev_app_distr. simpl. rewrite frees_app, frees_keep by auto.
  rewrite IH; auto; [|intros x Hx; apply Hd; apply in_or_app; now left].
  cbn [fst snd andb]. simpl frees. rewrite N.eqb_refl. simpl. destruct (N.eq_dec id id); [|congruence].
  rewrite notin_remove; auto. apply Hd. apply in_or_app. right. now left.
Qed.

Lemma alloc_n_refines idw max : W32 <= idw -> forall n A0 got A st,
  takes max A0 got A -> refines st max A ->
  (exists st' ids A', alloc_n idw st n got = Some (st', Some ids) /\ length ids = (length got + n)%nat /\ takes max A0 ids A' /\ refines st' max A') \/
  (exists st', alloc_n idw st n got = Some (st', None) /\ refines st' max A0 /\ N.of_nat (length A) + N.of_nat n > max).
Proof.
  intros Hw. induction n as [|n IH]; intros A0 got A st T R; simpl.
  - left. exists st, got, A. split; [reflexivity|]. split; [lia|]. split; [exact T|exact R].
  - destruct (get_refines idw st max A R Hw) as [(st1 & id & E & L & R1)|(E & NF)]; rewrite E.
    + destruct (IH A0 (got ++ [id]) (id :: A) st1 (takes_app _ _ _ _ _ T L) R1) as [(st' & ids & A' & E2 & Len & T2 & R2)|(st' & E2 & R2 & Len)].
      * left. exists st', ids, A'. rewrite app_length in Len. simpl in Len. split; [exact E2|]. split; [lia|]. split; [exact T2|exact R2].
      * right. exists st'. simpl length in Len. split; [exact E2|]. split; [exact R2|lia].
    + right. destruct (free_list_refines max got st A R) as (st2 & -> & R2).
      exists st2. split; auto. 
      pose proof (takes_spec _ _ _ _ T) as EA. rewrite EA in R2.
      rewrite frees_undo in R2; [|eapply takes_NoDup; eauto|intros id Hid; eapply takes_In; eauto].
      split; auto.
      assert (Hf : N.of_nat (length A) = max). { apply bounded_full; auto; destruct R; auto. }
      lia.
Qed.

Lemma refines_init max : max <= MAXSEGMENTS -> refines (mm_init max) max [].
Proof.
  intros H. constructor; auto using inv_init; simpl; try constructor; try tauto.
  unfold leaf_bit. simpl. rewrite u64max_bits. pose proof (N.mod_lt id 64). lia.
Qed.

Lemma is_segment_free_refines st max A id : refines st max A ->
  exists b, is_segment_free st id = Some b /\ (b = true <-> is_free max A id).
Proof.
  intros R. unfold is_segment_free. rewrite (ref_max _ _ _ R). unfold is_free. destruct (max <=? id) eqn:E.
  - exists false. split; auto. split; [discriminate|]. lia.
  - rewrite row_len_le, shiftr6, land63. pose proof (up_mono 1 id max ltac:(lia)) as Hm. rewrite !up_S in Hm.
    change (up 0 id) with id in Hm. change (up 0 max) with max in Hm. rewrite up_S. change (up 0 max) with max.
    replace (id / 64 <=? max / 64) with true by lia. simpl negb. cbv iota. rewrite land_mask, negb_involutive.
    change (N.testbit (mm_words st 0 (id / 64)) (id mod 64)) with (leaf_bit st id).
    exists (leaf_bit st id). split; auto. rewrite (ref_bits _ _ _ R id) by lia. split; [|tauto]. intros; split; [lia|auto].
Qed.
Lemma refines_observes st max A : refines st max A -> observes st max A.
Proof.
  intros R. unfold observes. split; [apply R|]. split; [apply R|]. split; [apply R|]. split; [apply R|].
  split; intros id; destruct (is_segment_free_refines st max A id R) as (b & -> & Hb); split; intros H.
  - injection H as ->. now apply Hb.
  - f_equal. now apply Hb.
  - injection H as ->. intros X. apply Hb in X. discriminate.
  - f_equal. destruct b; auto. exfalso. apply H. now apply Hb.
Qed.

Lemma step_refines idw st max A o : refines st max A -> W32 <= idw ->
  exists st' out A', step idw st o = Some (st', out) /\ spec_step max A o out A' /\ refines st' max A'.
Proof.
  intros R Hw. destruct o as [|id|id|n|ids]; simpl.
  - destruct (get_refines idw st max A R Hw) as [(st1 & id & -> & L & R1)|(-> & NF)].
    + exists st1, (OId id), (id :: A). split; [reflexivity|split; [|assumption]]. now constructor.
    + exists st, OFull, A. split; [reflexivity|split; [|assumption]]. now constructor.
  - destruct (alloc_refines st max A id R) as (st1 & r & -> & Hr & R1).
    exists st1, (OBool r), (if r then id :: A else A). split; [reflexivity|split; [|assumption]].
    destruct r; constructor; [now apply Hr|]. intros X. apply Hr in X. discriminate.
  - destruct (free_refines st max A id R) as (st1 & r & -> & Hr & R1).
    exists st1, (OBool r), (if r then remove N.eq_dec id A else A). split; [reflexivity|split; [|assumption]].
    destruct r; constructor; [now apply Hr|]. intros X. apply Hr in X. discriminate.
  - unfold alloc_segments. destruct (alloc_n_refines idw max Hw n A [] A st) as [(st' & ids & A' & -> & L & T & R')|(st' & -> & R' & L)]; auto.
    + constructor.
    + exists st', (OIds ids), A'. split; [reflexivity|split; [|assumption]]. constructor; auto.
    + exists st', OFail, A. split; [reflexivity|split; [|assumption]]. constructor; auto.
  - destruct (free_list_refines max ids st A R) as (st' & -> & R'). eexists _, _, _. split; [reflexivity|split; [constructor|assumption]].
Qed.

Lemma run_refines idw max : W32 <= idw -> forall os st A, refines st max A ->
  exists st' outs A', seg_run idw st os = Some (st', outs) /\ spec_run max A os outs A' /\ refines st' max A'.
Proof.
  intros Hw. induction os as [|o os IH]; intros st A R; simpl.
  - exists st, [], A. split; [reflexivity|split; [constructor|assumption]].
  - destruct (step_refines idw st max A o R Hw) as (st1 & out & A1 & -> & S1 & R1).
    destruct (IH st1 A1 R1) as (st2 & outs & A2 & -> & S2 & R2).
    exists st2, (out :: outs), A2. split; [reflexivity|]. split; [econstructor; eauto|exact R2].
Qed.

(** Facts about the specification itself. *)
Lemma takes_room max A ids A' : NoDup A -> (forall id, In id A -> id < max) -> takes max A ids A' ->
  N.of_nat (length A) + N.of_nat (length ids) <= max.
Proof.
  intros Hn Hl T. induction T as [A|A id ids A' L T IH].
  - simpl. pose proof (bounded_length max A Hn Hl). lia.
  - destruct L as ((Hlt & Hni) & _). assert (Hn' : NoDup (id :: A)) by (constructor; auto).
    assert (Hl' : forall x, In x (id :: A) -> x < max) by (intros x [<-|Hx]; auto).
    specialize (IH Hn' Hl'). simpl length in *. lia.
Qed.
