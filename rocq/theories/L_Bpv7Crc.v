(** Lemmas for C44: shift registers and polynomial remainders. *)
From Coq Require Import NArith Arith List Bool Lia.
From Verif Require Import Base M_SegmentAlloc M_Intrin M_Sdnv M_Bpv7Crc S_Cbor S_Bpv7Crc.
Import ListNotations.
Open Scope N_scope.

(** * Bits *)
Lemma testbit_small x n i : x < 2 ^ n -> n <= i -> N.testbit x i = false.
Proof.
  intros Hx Hi. destruct (N.eq_dec x 0) as [E | E]; [subst; apply N.bits_0|].
  apply N.bits_above_log2. apply N.lt_le_trans with n; [|assumption]. apply N.log2_lt_pow2; lia.
Qed.
Lemma bits_small x n : (forall i, n <= i -> N.testbit x i = false) -> x < 2 ^ n.
Proof.
  intros H. destruct (N.eq_dec x 0) as [E | E]; [subst; apply N.neq_0_lt_0, N.pow_nonzero; lia|].
  destruct (N.lt_ge_cases x (2 ^ n)) as [Hl | Hl]; [assumption|]. exfalso.
  apply N.log2_le_pow2 in Hl; [|lia]. specialize (H _ Hl). rewrite N.bit_log2 in H by assumption. discriminate.
Qed.
Lemma lxor_small a b n : a < 2 ^ n -> b < 2 ^ n -> N.lxor a b < 2 ^ n.
Proof.
  intros Ha Hb. apply bits_small. intros i Hi. rewrite N.lxor_spec, !(testbit_small _ n) by assumption. reflexivity.
Qed.
Lemma double_bit x i : N.testbit (2 * x) i = if i =? 0 then false else N.testbit x (i - 1).
Proof.
  destruct (N.eqb_spec i 0) as [E | E]; [subst; apply N.testbit_even_0|].
  replace i with (N.succ (i - 1)) at 1 by lia. now rewrite N.testbit_even_succ by lia.
Qed.
Lemma double_lxor a b : 2 * N.lxor a b = N.lxor (2 * a) (2 * b).
Proof.
  apply N.bits_inj. intros i. rewrite N.lxor_spec, !double_bit, N.lxor_spec. now destruct (i =? 0).
Qed.
Lemma mul_pow_bit x n i : N.testbit (x * 2 ^ n) i = if i <? n then false else N.testbit x (i - n).
Proof.
  destruct (N.ltb_spec i n); [now apply N.mul_pow2_bits_low | now apply N.mul_pow2_bits_high].
Qed.

(** * Polynomial multiplication *)
Lemma pmul_0 P : pmul 0 P = 0. Proof. reflexivity. Qed.
Lemma pmul_even q P : pmul (2 * q) P = 2 * pmul q P.
Proof. destruct q; reflexivity. Qed.
Lemma pmul_odd q P : pmul (2 * q + 1) P = N.lxor P (2 * pmul q P).
Proof. destruct q; [cbn; now rewrite N.lxor_0_r | reflexivity]. Qed.
Definition sel (i : bool) (P : N) : N := if i then P else 0.
Lemma pmul_step q i P : pmul (2 * q + N.b2n i) P = N.lxor (sel i P) (2 * pmul q P).
Proof. destruct i; cbn [N.b2n sel]; [apply pmul_odd|]. now rewrite N.add_0_r, pmul_even, N.lxor_0_l. Qed.
Lemma split_bit x : x = 2 * N.shiftr x 1 + N.b2n (N.testbit x 0).
Proof.
  rewrite N.shiftr_div_pow2, N.bit0_mod. change (2 ^ 1) with 2. apply N.div_mod. lia.
Qed.
Lemma succ_bit x c k : N.testbit (2 * x + N.b2n c) k = if k =? 0 then c else N.testbit x (k - 1).
Proof.
  destruct (N.eqb_spec k 0) as [E | E].
  - subst. apply N.testbit_0_r.
  - replace k with (N.succ (k - 1)) at 1 by lia. apply N.testbit_succ_r.
Qed.
Lemma lxor_step a i b j : N.lxor (2 * a + N.b2n i) (2 * b + N.b2n j) = 2 * N.lxor a b + N.b2n (xorb i j).
Proof.
  apply N.bits_inj. intros k. rewrite N.lxor_spec, !succ_bit, N.lxor_spec. now destruct (k =? 0).
Qed.
Lemma shiftr1_lt x : x <> 0 -> N.shiftr x 1 < x.
Proof. intros. rewrite N.shiftr_div_pow2. apply N.div_lt; cbn; lia. Qed.
Lemma pmul_lxor P a : forall b, pmul (N.lxor a b) P = N.lxor (pmul a P) (pmul b P).
Proof.
  induction a as [a IH] using (well_founded_induction N.lt_wf_0). intros b.
  destruct (N.eq_dec a 0) as [E | E]; [subst a; now rewrite N.lxor_0_l, pmul_0, N.lxor_0_l|].
  rewrite (split_bit a), (split_bit b) at 1. rewrite lxor_step, pmul_step, IH by now apply shiftr1_lt.
  rewrite (split_bit a) at 3. rewrite (split_bit b) at 3. rewrite !pmul_step, double_lxor.
  set (p := 2 * pmul (N.shiftr a 1) P). set (q := 2 * pmul (N.shiftr b 1) P).
  apply N.bits_inj. intros k. rewrite !N.lxor_spec.
  destruct (N.testbit a 0), (N.testbit b 0); cbn [sel xorb]; rewrite ?N.bits_0;
    destruct (N.testbit P k), (N.testbit p k), (N.testbit q k); reflexivity.
Qed.
Lemma lxor_cancel a b : N.lxor a (N.lxor a b) = b.
Proof. now rewrite <- N.lxor_assoc, N.lxor_nilpotent, N.lxor_0_l. Qed.

(** * Reversal *)
Lemma bits_poly_snoc bits b : bits_poly (bits ++ [b]) = 2 * bits_poly bits + N.b2n b.
Proof. unfold bits_poly. rewrite fold_left_app. cbn. now destruct b. Qed.
Lemma bits_poly_bit bits i : N.testbit (bits_poly bits) i =
  nth (length bits - 1 - N.to_nat i) bits false && (i <? N.of_nat (length bits)).
Proof.
  revert i. induction bits as [|b bits IH] using rev_ind; intros i.
  - change (bits_poly []) with 0. rewrite N.bits_0. destruct (N.ltb_spec i (N.of_nat (length (@nil bool)))); [cbn in *; lia|].
    now rewrite andb_false_r.
  - rewrite bits_poly_snoc, succ_bit, app_length. cbn [length]. destruct (N.eqb_spec i 0) as [E | E].
    + subst. rewrite app_nth2 by (cbn; lia).
      replace (length bits + 1 - 1 - N.to_nat 0 - length bits)%nat with 0%nat by (cbn; lia).
      destruct (N.ltb_spec 0 (N.of_nat (length bits + 1))); [cbn; now rewrite andb_true_r | lia].
    + rewrite IH.
      destruct (N.ltb_spec i (N.of_nat (length bits + 1))), (N.ltb_spec (i - 1) (N.of_nat (length bits))); try lia;
        rewrite ?andb_false_r; try reflexivity.
      rewrite app_nth1 by lia. do 2 f_equal. lia.
Qed.
Lemma reversed_bit n c i : N.testbit (reversed n c) i = (i <? N.of_nat n) && N.testbit c (N.of_nat n - 1 - i).
Proof.
  unfold reversed. rewrite bits_poly_bit, map_length, seq_length.
  destruct (N.ltb_spec i (N.of_nat n)); [|now rewrite andb_false_r]. rewrite andb_true_r, andb_true_l.
  rewrite nth_indep with (d' := N.testbit c (N.of_nat 0)) by (rewrite map_length, seq_length; lia).
  rewrite (map_nth (fun i => N.testbit c (N.of_nat i))). rewrite seq_nth by lia. f_equal. lia.
Qed.
Lemma reversed_small n c : reversed n c < 2 ^ N.of_nat n.
Proof.
  apply bits_small. intros i Hi. rewrite reversed_bit. destruct (N.ltb_spec i (N.of_nat n)); [lia | reflexivity].
Qed.
Lemma reversed_invol n c : c < 2 ^ N.of_nat n -> reversed n (reversed n c) = c.
Proof.
  intros Hc. apply N.bits_inj. intros i. rewrite !reversed_bit. destruct (N.ltb_spec i (N.of_nat n)).
  - destruct (N.ltb_spec (N.of_nat n - 1 - i) (N.of_nat n)); [|lia]. cbn [andb]. f_equal. lia.
  - symmetry. apply testbit_small with (N.of_nat n); [assumption | lia].
Qed.
Lemma bit_reflect_reversed n : forall c, bit_reflect n c = reversed n c.
Proof.
  induction n as [|n IH]; intros c; [reflexivity|]. cbn [bit_reflect]. apply N.bits_inj. intros i.
  rewrite N.lor_spec, N.shiftl_mul_pow2, mul_pow_bit, IH, !reversed_bit, N.shiftr_spec by apply N.le_0_l.
  destruct (N.ltb_spec i (N.of_nat n)), (N.ltb_spec i (N.of_nat (S n))); try lia; cbn [orb andb].
  - f_equal. lia.
  - replace (i - N.of_nat n) with 0 by lia. replace (N.of_nat (S n) - 1 - i) with 0 by lia.
    rewrite orb_false_r. now destruct (N.testbit c 0).
  - rewrite orb_false_r. rewrite testbit_small with (n := 1); [reflexivity | destruct (N.testbit c 0); cbn; lia | lia].
Qed.
Lemma shiftr1_small s n : s < 2 ^ n -> N.shiftr s 1 < 2 ^ n.
Proof.
  intros. destruct (N.eq_dec s 0) as [E | E]; [subst; assumption|]. pose proof (shiftr1_lt s E). lia.
Qed.
Lemma ones_small n : ones n < 2 ^ n.
Proof. unfold ones. assert (2 ^ n <> 0) by (apply N.pow_nonzero; lia). lia. Qed.
Lemma ones_bit n i : N.testbit (ones n) i = (i <? n).
Proof.
  unfold ones. replace (2 ^ n - 1) with (N.ones n) by (rewrite N.ones_equiv; lia).
  destruct (N.ltb_spec i n); [now apply N.ones_spec_low | now apply N.ones_spec_high].
Qed.

(** * Remainders by a polynomial P of degree w *)
Section Poly.
Variables (w : nat) (low polyR : N).
Let wN := N.of_nat w.
Let P := 2 ^ wN + low.
Hypothesis Hw : (0 < w)%nat.
Hypothesis Hlow : low < 2 ^ wN.

Lemma P_bit i : N.testbit P i = if i =? wN then true else N.testbit low i.
Proof.
  unfold P. destruct (N.eqb_spec i wN) as [E | E].
  - subst i. rewrite N.add_comm, N.testbit_eqb. replace (2 ^ wN) with (1 * 2 ^ wN) at 1 by lia.
    rewrite N.div_add by (apply N.pow_nonzero; lia). rewrite (N.div_small low) by assumption. reflexivity.
  - rewrite N.add_nocarry_lxor.
    + rewrite N.lxor_spec, N.pow2_bits_false by congruence. now destruct (N.testbit low i).
    + apply N.bits_inj. intros k. rewrite N.land_spec, N.bits_0. destruct (N.eq_dec k wN) as [e | e].
      * subst k. rewrite (testbit_small low wN) by (auto; lia). apply andb_false_r.
      * rewrite N.pow2_bits_false by congruence. reflexivity.
Qed.
Lemma P_small : P < 2 ^ (wN + 1).
Proof. unfold P. rewrite N.pow_add_r. change (2 ^ 1) with 2. lia. Qed.

Lemma pmul_degree q : q <> 0 -> N.testbit (pmul q P) (N.log2 q + wN) = true /\ pmul q P < 2 ^ (N.log2 q + wN + 1).
Proof.
  induction q as [q IH] using (well_founded_induction N.lt_wf_0). intros Hq.
  rewrite (split_bit q). set (h := N.shiftr q 1). set (i := N.testbit q 0). rewrite pmul_step.
  destruct (N.eq_dec h 0) as [E | E].
  - rewrite E, pmul_0. assert (i = true) as Ei.
    { destruct i eqn:Ei; [reflexivity|]. exfalso. apply Hq. rewrite (split_bit q). fold h i. now rewrite E, Ei. }
    rewrite Ei. change (N.log2 (2 * 0 + N.b2n true)) with 0. cbn [sel]. rewrite N.mul_0_r, N.lxor_0_r, N.add_0_l.
    split; [rewrite P_bit; now rewrite N.eqb_refl | apply P_small].
  - destruct (IH h) as [B L]; [now apply shiftr1_lt | assumption|].
    assert (N.log2 (2 * h + N.b2n i) = N.succ (N.log2 h)) as El.
    { destruct i; cbn [N.b2n]; [apply N.log2_succ_double; lia | rewrite N.add_0_r; apply N.log2_double; lia]. }
    rewrite El. assert (sel i P < 2 ^ (N.succ (N.log2 h) + wN)) as Hs.
    { apply N.lt_le_trans with (2 ^ (wN + 1)).
      - destruct i; cbn [sel]; [apply P_small | apply N.neq_0_lt_0, N.pow_nonzero; lia].
      - apply N.pow_le_mono_r; lia. }
    split.
    + rewrite N.lxor_spec. rewrite (testbit_small (sel i P) (N.succ (N.log2 h) + wN)) by (auto; lia).
      rewrite double_bit. destruct (N.eqb_spec (N.succ (N.log2 h) + wN) 0); [lia|].
      replace (N.succ (N.log2 h) + wN - 1) with (N.log2 h + wN) by lia. now rewrite B.
    + apply lxor_small.
      * apply N.lt_le_trans with (1 := Hs). apply N.pow_le_mono_r; lia.
      * replace (N.succ (N.log2 h) + wN + 1) with (N.succ (N.log2 h + wN + 1)) by lia. rewrite N.pow_succ_r'. lia.
Qed.
Lemma remainder_unique a r1 r2 : remainder wN P a r1 -> remainder wN P a r2 -> r1 = r2.
Proof.
  intros [H1 [q1 E1]] [H2 [q2 E2]].
  assert (pmul (N.lxor q1 q2) P = N.lxor r1 r2) as E.
  { rewrite pmul_lxor. apply (f_equal (N.lxor (pmul q1 P))) in E1. rewrite lxor_cancel in E1.
    apply (f_equal (N.lxor (pmul q2 P))) in E2. rewrite lxor_cancel in E2. rewrite <- E1, <- E2.
    apply N.bits_inj. intros k. rewrite !N.lxor_spec.
    destruct (N.testbit (pmul q1 P) k), (N.testbit (pmul q2 P) k), (N.testbit a k); reflexivity. }
  destruct (N.eq_dec (N.lxor q1 q2) 0) as [Z | Z].
  - rewrite Z, pmul_0 in E. symmetry in E. now apply N.lxor_eq in E.
  - destruct (pmul_degree _ Z) as [B _]. rewrite E in B.
    rewrite (testbit_small _ wN) in B by (try apply lxor_small; auto; lia). discriminate.
Qed.

(** One more bit at the bottom: t is reduced when its bit w is set. *)
Definition reduce (t : N) : N := if N.testbit t wN then N.lxor t P else t.
Lemma reduce_small t : t < 2 ^ (wN + 1) -> reduce t < 2 ^ wN.
Proof.
  intros Ht. unfold reduce. apply bits_small. intros i Hi. destruct (N.testbit t wN) eqn:B.
  - rewrite N.lxor_spec, P_bit. destruct (N.eqb_spec i wN) as [E | E]; [subst; now rewrite B|].
    rewrite (testbit_small t (wN + 1)), (testbit_small low wN) by (auto; lia). reflexivity.
  - destruct (N.eq_dec i wN) as [E | E]; [now subst|]. apply testbit_small with (wN + 1); [assumption | lia].
Qed.
Lemma remainder_step a r c : c < 2 ^ (wN + 1) -> remainder wN P a r ->
  remainder wN P (N.lxor (2 * a) c) (reduce (N.lxor (2 * r) c)).
Proof.
  intros Hc [Hr [q E]]. split.
  - apply reduce_small, lxor_small; [|assumption]. rewrite N.pow_add_r. change (2 ^ 1) with 2. lia.
  - rewrite E, double_lxor, N.lxor_assoc. unfold reduce. destruct (N.testbit (N.lxor (2 * r) c) wN).
    + exists (2 * q + 1). rewrite pmul_odd. apply N.bits_inj. intros k. rewrite !N.lxor_spec.
      destruct (N.testbit P k), (N.testbit (2 * pmul q P) k), (N.testbit (2 * r) k), (N.testbit c k); reflexivity.
    + exists (2 * q). now rewrite pmul_even.
Qed.

(** * MOD2 *)
Lemma mod2_remainder n : forall x, x < 2 ^ N.of_nat n -> remainder wN P x (mod2 n wN P x).
Proof.
  induction n as [|n IH]; intros x Hx; cbn [mod2].
  - change (2 ^ N.of_nat 0) with 1 in Hx. assert (x = 0) as E by lia. subst x.
    split; [apply N.neq_0_lt_0, N.pow_nonzero; lia|]. exists 0. reflexivity.
  - assert (N.shiftr x 1 < 2 ^ N.of_nat n) as Hs.
    { rewrite N.shiftr_div_pow2. apply N.div_lt_upper_bound; [cbn; lia|].
      replace (N.of_nat (S n)) with (1 + N.of_nat n) in Hx by lia. now rewrite N.pow_add_r in Hx. }
    specialize (IH _ Hs). apply remainder_step with (c := N.b2n (N.testbit x 0)) in IH.
    + rewrite N.shiftl_mul_pow2, (N.mul_comm _ (2 ^ 1)). change (2 ^ 1) with 2. fold (reduce (N.lxor (2 * mod2 n wN P (N.shiftr x 1)) (N.b2n (N.testbit x 0)))).
      replace x with (N.lxor (2 * N.shiftr x 1) (N.b2n (N.testbit x 0))) at 1; [exact IH|].
      rewrite (split_bit x) at 3. rewrite <- (N.add_0_r (2 * N.shiftr x 1)). change 0 with (N.b2n false) at 1.
      replace (N.b2n (N.testbit x 0)) with (2 * 0 + N.b2n (N.testbit x 0)) at 1 by lia.
      rewrite lxor_step, N.lxor_0_r. now rewrite xorb_false_l, N.add_0_r.
    + apply N.lt_le_trans with 2; [destruct (N.testbit x 0); cbn; lia|].
      rewrite N.pow_add_r. change (2 ^ 1) with 2. assert (2 ^ wN <> 0) by (apply N.pow_nonzero; lia). lia.
Qed.

(** * The left-shifting register *)
Definition ustep (r : N) (b : bool) : N := reduce (N.lxor (2 * r) (N.b2n b * 2 ^ wN)).
Definition aug (s : N) (bits : list bool) : N := N.lxor (s * 2 ^ N.of_nat (length bits)) (bits_poly bits * 2 ^ wN).
Lemma b2n_pow b : N.b2n b * 2 ^ wN < 2 ^ (wN + 1).
Proof.
  rewrite N.pow_add_r. change (2 ^ 1) with 2. assert (2 ^ wN <> 0) by (apply N.pow_nonzero; lia). destruct b; cbn [N.b2n]; lia.
Qed.
Lemma add_mul_lxor x b : (2 * x + N.b2n b) * 2 ^ wN = N.lxor (2 * (x * 2 ^ wN)) (N.b2n b * 2 ^ wN).
Proof.
  apply N.bits_inj. intros k. rewrite N.lxor_spec, double_bit, !mul_pow_bit.
  destruct (N.ltb_spec k wN).
  - destruct (N.eqb_spec k 0); [reflexivity|]. destruct (N.ltb_spec (k - 1) wN); [reflexivity | lia].
  - rewrite succ_bit. destruct (N.eqb_spec (k - wN) 0) as [E | E].
    + rewrite E. replace (N.testbit (N.b2n b) 0) with b by now destruct b. destruct (N.eqb_spec k 0); [now destruct b|].
      destruct (N.ltb_spec (k - 1) wN); [now destruct b | lia].
    + destruct (N.eqb_spec k 0); [lia|]. destruct (N.ltb_spec (k - 1) wN); [lia|].
      replace (k - 1 - wN) with (k - wN - 1) by lia.
      rewrite (testbit_small (N.b2n b) 1); [now rewrite xorb_false_r | destruct b; cbn; lia | lia].
Qed.
Lemma aug_snoc s bits b : aug s (bits ++ [b]) = N.lxor (2 * aug s bits) (N.b2n b * 2 ^ wN).
Proof.
  unfold aug. rewrite bits_poly_snoc, add_mul_lxor, app_length. cbn [length].
  replace (N.of_nat (length bits + 1)) with (N.succ (N.of_nat (length bits))) by lia. rewrite N.pow_succ_r'.
  rewrite double_lxor, N.lxor_assoc. f_equal. lia.
Qed.
Lemma ustep_remainder s bits : s < 2 ^ wN -> remainder wN P (aug s bits) (fold_left ustep bits s).
Proof.
  intros Hs. induction bits as [|b bits IH] using rev_ind.
  - unfold aug. cbn [length fold_left bits_poly]. change (bits_poly []) with 0. rewrite N.mul_0_l, N.lxor_0_r, N.mul_1_r.
    split; [assumption|]. exists 0. reflexivity.
  - rewrite aug_snoc, fold_left_app. cbn [fold_left]. unfold ustep at 1. apply remainder_step; [apply b2n_pow | assumption].
Qed.


(** * The right-shifting register is the left-shifting one, reversed *)
Hypothesis HpolyR : polyR = reversed w low.
Lemma polyR_small : polyR < 2 ^ wN.
Proof. subst polyR. apply reversed_small. Qed.
Lemma crc_bit_small s b : s < 2 ^ wN -> crc_bit polyR s b < 2 ^ wN.
Proof.
  intros. unfold crc_bit. destruct (xorb _ _); [apply lxor_small; [|apply polyR_small]|]; now apply shiftr1_small.
Qed.
Lemma crc_bits_small bits : forall s, s < 2 ^ wN -> fold_left (crc_bit polyR) bits s < 2 ^ wN.
Proof. induction bits as [|b bits IH]; intros s Hs; cbn [fold_left]; [assumption|]. apply IH. now apply crc_bit_small. Qed.
Lemma crc_bit_reversed s b : s < 2 ^ wN -> reversed w (crc_bit polyR s b) = ustep (reversed w s) b.
Proof.
  intros Hs. unfold ustep. set (t := N.lxor (2 * reversed w s) (N.b2n b * 2 ^ wN)).
  assert (Ht : forall i, i < wN -> N.testbit t i = if i =? 0 then false else N.testbit s (wN - i)).
  { intros i Hi. unfold t. rewrite N.lxor_spec, mul_pow_bit, double_bit. destruct (N.ltb_spec i wN); [|lia].
    rewrite xorb_false_r. destruct (N.eqb_spec i 0); [reflexivity|]. rewrite reversed_bit. fold wN.
    destruct (N.ltb_spec (i - 1) wN); [|lia]. cbn [andb]. f_equal. lia. }
  assert (Htw : N.testbit t wN = xorb (N.testbit s 0) b).
  { unfold t. rewrite N.lxor_spec, mul_pow_bit, double_bit. destruct (N.ltb_spec wN wN); [lia|].
    destruct (N.eqb_spec wN 0); [lia|]. rewrite reversed_bit. fold wN. destruct (N.ltb_spec (wN - 1) wN); [|lia].
    replace (wN - 1 - (wN - 1)) with 0 by lia. replace (wN - wN) with 0 by lia. now destruct b. }
  assert (Hts : t < 2 ^ (wN + 1)).
  { unfold t. apply lxor_small; [|apply b2n_pow]. rewrite N.pow_add_r. change (2 ^ 1) with 2.
    pose proof (reversed_small w s). fold wN in H. lia. }
  pose proof (reduce_small t Hts) as Hrs. apply N.bits_inj. intros i. destruct (N.lt_ge_cases i wN) as [Hi | Hi].
  2: { rewrite (testbit_small (reduce t) wN) by assumption. rewrite reversed_bit. fold wN.
       destruct (N.ltb_spec i wN); [lia | reflexivity]. }
  rewrite reversed_bit. fold wN. destruct (N.ltb_spec i wN); [|lia]. cbn [andb]. unfold reduce, crc_bit. rewrite Htw.
  assert (N.testbit (N.shiftr s 1) (wN - 1 - i) = N.testbit t i) as E.
  { rewrite Ht by assumption. rewrite N.shiftr_spec by apply N.le_0_l. destruct (N.eqb_spec i 0) as [Z | Z].
    - subst i. apply testbit_small with wN; [assumption | lia].
    - f_equal. lia. }
  destruct (xorb (N.testbit s 0) b); [|exact E]. rewrite !N.lxor_spec, E. f_equal. rewrite P_bit.
  destruct (N.eqb_spec i wN); [lia|]. subst polyR. rewrite reversed_bit. fold wN.
  destruct (N.ltb_spec (wN - 1 - i) wN); [|lia]. cbn [andb]. f_equal. lia.
Qed.
Lemma crc_bits_reversed bits : forall s, s < 2 ^ wN ->
  reversed w (fold_left (crc_bit polyR) bits s) = fold_left ustep bits (reversed w s).
Proof.
  induction bits as [|b bits IH]; intros s Hs; cbn [fold_left]; [reflexivity|].
  rewrite IH by now apply crc_bit_small. now rewrite crc_bit_reversed.
Qed.

(** * Checksums *)
Lemma reversed_ones : reversed w (ones wN) = ones wN.
Proof.
  apply N.bits_inj. intros i. rewrite reversed_bit, !ones_bit. fold wN.
  destruct (N.ltb_spec i wN); [|reflexivity]. destruct (N.ltb_spec (wN - 1 - i) wN); [reflexivity | lia].
Qed.
Lemma message_bits_model data : flat_map byte_bits data = message_bits data. Proof. reflexivity. Qed.
Lemma crc_optimal_checksum data : checksum w P data (crc_optimal polyR (ones wN) (ones wN) data).
Proof.
  unfold crc_optimal. rewrite message_bits_model. set (bits := message_bits data).
  set (s := fold_left (crc_bit polyR) bits (ones wN)). assert (s < 2 ^ wN) as Hs by (apply crc_bits_small, ones_small).
  split; [apply lxor_small; [apply ones_small | assumption]|]. fold bits wN.
  assert (N.lxor (N.lxor (ones wN) s) (ones wN) = s) as E by (rewrite N.lxor_comm; apply lxor_cancel).
  rewrite E. unfold s. rewrite crc_bits_reversed by apply ones_small. rewrite reversed_ones.
  rewrite N.lxor_comm. fold (aug (ones wN) bits). apply ustep_remainder, ones_small.
Qed.
Lemma checksum_unique data c1 c2 : checksum w P data c1 -> checksum w P data c2 -> c1 = c2.
Proof.
  intros [H1 R1] [H2 R2]. pose proof (remainder_unique _ _ _ R1 R2) as E.
  assert (N.lxor c1 (ones wN) = N.lxor c2 (ones wN)) as X.
  { rewrite <- (reversed_invol w (N.lxor c1 (ones wN))), <- (reversed_invol w (N.lxor c2 (ones wN)));
      try (apply lxor_small; [assumption | apply ones_small]). now f_equal. }
  apply (f_equal (N.lxor (ones wN))) in X. rewrite (N.lxor_comm c1), (N.lxor_comm c2), !lxor_cancel in X. exact X.
Qed.

(** * Bursts *)
Hypothesis HlowOdd : N.testbit low 0 = true.
Lemma crc_bit_top s b : s < 2 ^ wN -> N.testbit (crc_bit polyR s b) (wN - 1) = xorb (N.testbit s 0) b.
Proof.
  intros Hs. unfold crc_bit.
  assert (N.testbit (N.shiftr s 1) (wN - 1) = false) as Z.
  { rewrite N.shiftr_spec by apply N.le_0_l. apply testbit_small with wN; [assumption | lia]. }
  destruct (xorb (N.testbit s 0) b); [|assumption]. rewrite N.lxor_spec, Z, HpolyR, reversed_bit. fold wN.
  destruct (N.ltb_spec (wN - 1) wN); [|lia]. replace (wN - 1 - (wN - 1)) with 0 by lia. now rewrite HlowOdd.
Qed.
(** Runs that end alike agree above the bits that can have been shifted out. *)
Lemma runs_meet bits1 : forall bits2 s1 s2, length bits1 = length bits2 -> (length bits1 <= w)%nat ->
  s1 < 2 ^ wN -> s2 < 2 ^ wN -> fold_left (crc_bit polyR) bits1 s1 = fold_left (crc_bit polyR) bits2 s2 ->
  N.shiftr s1 (N.of_nat (length bits1)) = N.shiftr s2 (N.of_nat (length bits1)).
Proof.
  induction bits1 as [|b1 r1 IH]; intros [|b2 r2] s1 s2 Hl Hn H1 H2 E; cbn [length] in *; try discriminate.
  - cbn in E. now subst.
  - cbn [fold_left] in E. injection Hl as Hl. specialize (IH r2 _ _ Hl ltac:(lia) (crc_bit_small s1 b1 H1) (crc_bit_small s2 b2 H2) E).
    assert (xorb (N.testbit s1 0) b1 = xorb (N.testbit s2 0) b2) as X.
    { rewrite <- !crc_bit_top by assumption. apply (f_equal (fun x => N.testbit x (wN - 1 - N.of_nat (length r1)))) in IH.
      rewrite !N.shiftr_spec in IH by apply N.le_0_l. replace (wN - 1 - N.of_nat (length r1) + N.of_nat (length r1)) with (wN - 1) in IH by lia.
      exact IH. }
    apply N.bits_inj. intros i. apply (f_equal (fun x => N.testbit x i)) in IH. rewrite !N.shiftr_spec in * by apply N.le_0_l.
    unfold crc_bit in IH. rewrite <- X in IH. destruct (xorb (N.testbit s1 0) b1); rewrite ?N.lxor_spec, !N.shiftr_spec in IH by apply N.le_0_l.
    + apply (f_equal (xorb (N.testbit polyR (i + N.of_nat (length r1))))) in IH.
      rewrite !(xorb_comm (N.testbit polyR _)), !xorb_assoc, !xorb_nilpotent, !xorb_false_r in IH.
      replace (i + N.of_nat (S (length r1))) with (i + N.of_nat (length r1) + 1) by lia. exact IH.
    + replace (i + N.of_nat (S (length r1))) with (i + N.of_nat (length r1) + 1) by lia. exact IH.
Qed.
Lemma burst_injective bits1 : forall bits2 s, length bits1 = length bits2 -> (length bits1 <= w)%nat -> s < 2 ^ wN ->
  fold_left (crc_bit polyR) bits1 s = fold_left (crc_bit polyR) bits2 s -> bits1 = bits2.
Proof.
  induction bits1 as [|b1 r1 IH]; intros [|b2 r2] s Hl Hn Hs E; cbn [length] in *; try discriminate; [reflexivity|].
  injection Hl as Hl. cbn [fold_left] in E.
  pose proof (runs_meet r1 r2 _ _ Hl ltac:(lia) (crc_bit_small s b1 Hs) (crc_bit_small s b2 Hs) E) as M.
  assert (b1 = b2) as X.
  { assert (xorb (N.testbit s 0) b1 = xorb (N.testbit s 0) b2) as X.
    { rewrite <- !crc_bit_top by assumption. apply (f_equal (fun x => N.testbit x (wN - 1 - N.of_nat (length r1)))) in M.
      rewrite !N.shiftr_spec in M by apply N.le_0_l. replace (wN - 1 - N.of_nat (length r1) + N.of_nat (length r1)) with (wN - 1) in M by lia.
      exact M. }
    destruct (N.testbit s 0), b1, b2; try reflexivity; discriminate. }
  subst b2. f_equal. apply IH with (crc_bit polyR s b1); auto; [lia | now apply crc_bit_small].
Qed.
Lemma crc_bit_injective s1 s2 b : s1 < 2 ^ wN -> s2 < 2 ^ wN -> crc_bit polyR s1 b = crc_bit polyR s2 b -> s1 = s2.
Proof.
  intros H1 H2 E. pose proof (runs_meet [b] [b] s1 s2 eq_refl ltac:(cbn; lia) H1 H2 E) as M.
  apply (f_equal (fun x => N.testbit x (wN - 1))) in E. rewrite !crc_bit_top in E by assumption.
  assert (N.testbit s1 0 = N.testbit s2 0) as Z by (destruct (N.testbit s1 0), (N.testbit s2 0), b; try reflexivity; discriminate).
  cbn [length] in M. change (N.of_nat 1) with 1 in M. rewrite (split_bit s1), (split_bit s2). now rewrite M, Z.
Qed.
Lemma crc_bits_injective bits : forall s1 s2, s1 < 2 ^ wN -> s2 < 2 ^ wN ->
  fold_left (crc_bit polyR) bits s1 = fold_left (crc_bit polyR) bits s2 -> s1 = s2.
Proof.
  induction bits as [|b bits IH]; intros s1 s2 H1 H2 E; cbn [fold_left] in E; [assumption|].
  apply IH in E; try now apply crc_bit_small. now apply crc_bit_injective in E.
Qed.
End Poly.

(** * Bytes *)
Lemma message_bits_cons b d : message_bits (b :: d) = byte_bits b ++ message_bits d. Proof. reflexivity. Qed.
Lemma message_bits_app a b : message_bits (a ++ b) = message_bits a ++ message_bits b.
Proof. apply flat_map_app. Qed.
Lemma message_bits_length d : length (message_bits d) = (8 * length d)%nat.
Proof. induction d as [|b d IH]; [reflexivity|]. cbn [message_bits flat_map length]. rewrite app_length. fold (message_bits d). rewrite IH. cbn. lia. Qed.
Lemma byte_bits_inj a b : is_octet a -> is_octet b -> byte_bits a = byte_bits b -> a = b.
Proof.
  unfold is_octet. intros Ha Hb E. apply N.bits_inj. intros i. destruct (N.lt_ge_cases i 8) as [Hi | Hi].
  - unfold byte_bits in E. cbn [map] in E. injection E as E0 E1 E2 E3 E4 E5 E6 E7.
    assert (i = 0 \/ i = 1 \/ i = 2 \/ i = 3 \/ i = 4 \/ i = 5 \/ i = 6 \/ i = 7) as C by lia.
    destruct C as [C|[C|[C|[C|[C|[C|[C|C]]]]]]]; subst i; assumption.
  - rewrite !(testbit_small _ 8) by (auto; lia). reflexivity.
Qed.
Lemma message_bits_inj a : forall b, length a = length b -> Forall is_octet a -> Forall is_octet b -> message_bits a = message_bits b -> a = b.
Proof.
  induction a as [|x a IH]; intros [|y b] Hl Ha Hb E; try discriminate; [reflexivity|].
  inversion Ha as [|? ? Hx Ha']; subst. inversion Hb as [|? ? Hy Hb']; subst. injection Hl as Hl.
  change (byte_bits x ++ message_bits a = byte_bits y ++ message_bits b) in E.
  assert (byte_bits x = byte_bits y /\ message_bits a = message_bits b) as [E1 E2].
  { assert (firstn 8 (byte_bits x ++ message_bits a) = byte_bits x) as F1 by reflexivity.
    assert (firstn 8 (byte_bits y ++ message_bits b) = byte_bits y) as F2 by reflexivity.
    split; [now rewrite <- F1, E, F2|].
    change (message_bits a) with (skipn 8 (byte_bits x ++ message_bits a)). now rewrite E. }
  f_equal; [now apply byte_bits_inj | now apply IH].
Qed.
(** The bits of a little-endian word are the bits of its bytes. *)
Lemma le_val_small bs : Forall is_octet bs -> le_val bs < 2 ^ N.of_nat (8 * length bs).
Proof.
  induction 1 as [|b bs Hb _ IH]; [reflexivity|]. cbn [le_val length]. unfold is_octet in Hb.
  replace (N.of_nat (8 * S (length bs))) with (8 + N.of_nat (8 * length bs)) by lia. rewrite N.pow_add_r. change (2 ^ 8) with 256. nia.
Qed.
Lemma le_val_bit b bs i : is_octet b -> N.testbit (le_val (b :: bs)) i = if i <? 8 then N.testbit b i else N.testbit (le_val bs) (i - 8).
Proof.
  intros Hb. cbn [le_val]. change 256 with (2 ^ 8). rewrite (N.mul_comm (2 ^ 8)).
  rewrite N.add_nocarry_lxor.
  - rewrite N.lxor_spec, mul_pow_bit. destruct (N.ltb_spec i 8); [apply xorb_false_r|].
    rewrite (testbit_small b 8) by (assumption || exact Hb). apply xorb_false_l.
  - apply N.bits_inj. intros k. rewrite N.land_spec, mul_pow_bit, N.bits_0. destruct (N.ltb_spec k 8); [apply andb_false_r|].
    rewrite (testbit_small b 8) by (assumption || exact Hb). reflexivity.
Qed.
Lemma le_val_bits bs : Forall is_octet bs ->
  map (fun i => N.testbit (le_val bs) (N.of_nat i)) (seq 0 (8 * length bs)) = message_bits bs.
Proof.
  induction 1 as [|b bs Hb Hbs IH]; [reflexivity|]. cbn [length].
  replace (8 * S (length bs))%nat with (8 + 8 * length bs)%nat by lia. rewrite seq_app, map_app.
  change (message_bits (b :: bs)) with (map (fun i => N.testbit b (N.of_nat i)) (seq 0 8) ++ message_bits bs). f_equal.
  - apply map_ext_in. intros i Hi. apply in_seq in Hi. rewrite le_val_bit by assumption.
    destruct (N.ltb_spec (N.of_nat i) 8); [reflexivity | lia].
  - rewrite <- IH. replace (0 + 8)%nat with (8 + 0)%nat by lia.
    clear IH Hbs. generalize (8 * length bs)%nat as n. intros n.
    assert (ES : forall k, seq (8 + k) n = map (fun i => (8 + i)%nat) (seq k n)).
    { induction n as [|n IHn]; intros k; [reflexivity|]. cbn [seq map]. f_equal.
      replace (S (8 + k)) with (8 + S k)%nat by lia. apply IHn. }
    rewrite ES, map_map. apply map_ext. intros i. rewrite le_val_bit by assumption.
    destruct (N.ltb_spec (N.of_nat (8 + i)) 8); [lia|]. f_equal. lia.
Qed.

(** * The instructions *)
Definition castagnoli_low : N := 0x1EDC6F41.
Lemma castagnoli_rev : CRC32C_POLY_REFLECTED = reversed 32 castagnoli_low. Proof. reflexivity. Qed.
Lemma castagnoli_lt : castagnoli_low < 2 ^ N.of_nat 32. Proof. reflexivity. Qed.
Definition x25_low : N := 0x1021.
Lemma x25_rev : CRC16_POLY_REFLECTED = reversed 16 x25_low. Proof. reflexivity. Qed.
Lemma x25_lt : x25_low < 2 ^ N.of_nat 16. Proof. reflexivity. Qed.
Definition crc32_bits : list bool -> N -> N := fold_left (crc_bit CRC32C_POLY_REFLECTED).
Lemma crc32_bits_small bits s : s < 2 ^ 32 -> crc32_bits bits s < 2 ^ 32.
Proof. intros Hs. unfold crc32_bits. pose proof (crc_bits_small 32 castagnoli_low CRC32C_POLY_REFLECTED) as H.
  apply H; auto; try (cbn; lia); try exact castagnoli_lt; exact castagnoli_rev. Qed.
Lemma crc32_bits_app a b s : crc32_bits (a ++ b) s = crc32_bits b (crc32_bits a s).
Proof. apply fold_left_app. Qed.
Lemma mm_crc32_bits n crc src : src < 2 ^ N.of_nat n -> crc < 2 ^ 32 ->
  mm_crc32 n crc src = crc32_bits (map (fun i => N.testbit src (N.of_nat i)) (seq 0 n)) crc.
Proof.
  intros Hs Hc. unfold mm_crc32. rewrite !bit_reflect_reversed, !N.shiftl_mul_pow2.
  set (bits := map (fun i => N.testbit src (N.of_nat i)) (seq 0 n)).
  set (T := N.lxor (reversed n src * 2 ^ 32) (reversed 32 crc * 2 ^ N.of_nat n)).
  assert (T = aug 32 (reversed 32 crc) bits) as ET.
  { unfold T, aug. rewrite N.lxor_comm. unfold bits at 1. rewrite map_length, seq_length. reflexivity. }
  assert (T < 2 ^ N.of_nat (32 + n)) as HT.
  { unfold T. replace (N.of_nat (32 + n)) with (N.of_nat n + 32) by lia. apply lxor_small.
    - rewrite N.pow_add_r. apply N.mul_lt_mono_pos_r; [reflexivity | apply reversed_small].
    - rewrite N.add_comm, N.pow_add_r. apply N.mul_lt_mono_pos_r; [apply N.neq_0_lt_0, N.pow_nonzero; lia | apply (reversed_small 32)]. }
  pose proof (mod2_remainder 32 castagnoli_low ltac:(lia) castagnoli_lt (32 + n) T HT) as R1.
  pose proof (ustep_remainder 32 castagnoli_low ltac:(lia) castagnoli_lt (reversed 32 crc) bits (reversed_small 32 crc)) as R2.
  rewrite <- ET in R2. pose proof (remainder_unique 32 castagnoli_low ltac:(lia) castagnoli_lt T _ _ R1 R2) as E.
  change (2 ^ N.of_nat 32 + castagnoli_low) with 0x11EDC6F41 in E. change (N.of_nat 32) with 32 in E. rewrite E.
  rewrite <- (crc_bits_reversed 32 castagnoli_low CRC32C_POLY_REFLECTED ltac:(lia) castagnoli_lt castagnoli_rev bits crc Hc).
  apply (reversed_invol 32). now apply crc32_bits_small.
Qed.
Lemma mm_crc32_8 crc b : is_octet b -> crc < 2 ^ 32 -> mm_crc32 8 crc b = crc32_bits (byte_bits b) crc.
Proof. intros Hb Hc. rewrite mm_crc32_bits; auto. Qed.
Lemma mm_crc32_64 crc bs : Forall is_octet bs -> length bs = 8%nat -> crc < 2 ^ 32 ->
  mm_crc32 64 crc (le_val bs) = crc32_bits (message_bits bs) crc.
Proof.
  intros Hb Hl Hc. pose proof (le_val_small bs Hb) as S. pose proof (le_val_bits bs Hb) as B. rewrite Hl in S, B.
  change (8 * 8)%nat with 64%nat in *. rewrite mm_crc32_bits by assumption. now rewrite B.
Qed.
Section Steps.
Variables (step8 step64 : N -> N -> N).
Hypothesis H8 : forall crc b, is_octet b -> crc < 2 ^ 32 -> step8 crc b = crc32_bits (byte_bits b) crc.
Hypothesis H64 : forall crc bs, Forall is_octet bs -> length bs = 8%nat -> crc < 2 ^ 32 ->
  step64 crc (le_val bs) = crc32_bits (message_bits bs) crc.
Lemma hw_bytes data : forall crc, Forall is_octet data -> crc < 2 ^ 32 ->
  fold_left step8 data crc = crc32_bits (message_bits data) crc.
Proof.
  induction data as [|b d IH]; intros crc Hd Hc; [reflexivity|]. inversion Hd; subst. cbn [fold_left].
  rewrite H8 by assumption. rewrite IH by (auto; now apply crc32_bits_small).
  now rewrite message_bits_cons, crc32_bits_app.
Qed.
Lemma hw_align_spec data : forall addr crc, Forall is_octet data -> crc < 2 ^ 32 ->
  exists d1 d2, data = d1 ++ d2 /\ hw_align step8 addr crc data = (crc32_bits (message_bits d1) crc, d2).
Proof.
  induction data as [|b d IH]; intros addr crc Hd Hc; cbn [hw_align].
  - exists [], []. now split.
  - inversion Hd; subst. destruct (N.land addr 7 =? 0).
    + exists [], (b :: d). now split.
    + rewrite H8 by assumption. destruct (IH (addr + 1) (crc32_bits (byte_bits b) crc)) as (d1 & d2 & E & R); auto.
      { now apply crc32_bits_small. }
      exists (b :: d1), d2. rewrite R. split; [now rewrite E|]. now rewrite message_bits_cons, crc32_bits_app.
Qed.
Lemma hw_words_spec fuel : forall data crc, Forall is_octet data -> crc < 2 ^ 32 ->
  exists d1 d2, data = d1 ++ d2 /\ hw_words step64 fuel crc data = (crc32_bits (message_bits d1) crc, d2).
Proof.
  induction fuel as [|f IH]; intros data crc Hd Hc; cbn [hw_words].
  - exists [], data. now split.
  - destruct (Nat.ltb_spec 7 (length data)) as [Hl | Hl].
    + assert (Forall is_octet (firstn 8 data) /\ Forall is_octet (skipn 8 data)) as [H1 H2].
      { rewrite <- (firstn_skipn 8 data), Forall_app in Hd. exact Hd. }
      rewrite H64 by (auto; rewrite firstn_length; lia).
      destruct (IH (skipn 8 data) (crc32_bits (message_bits (firstn 8 data)) crc)) as (d1 & d2 & E & R); auto.
      { now apply crc32_bits_small. }
      exists (firstn 8 data ++ d1), d2. rewrite R. split; [now rewrite <- app_assoc, <- E, firstn_skipn|].
      now rewrite message_bits_app, crc32_bits_app.
    + exists [], data. now split.
Qed.
Lemma hw_all addr data : Forall is_octet data ->
  (let (crc1, data1) := hw_align step8 addr 0xFFFFFFFF data in
   let (crc2, data2) := hw_words step64 (length data1) crc1 data1 in
   N.lxor (fold_left step8 data2 crc2) 0xFFFFFFFF) = crc32c_software data.
Proof.
  intros Hd. unfold crc32c_software, crc_optimal.
  destruct (hw_align_spec data addr 0xFFFFFFFF Hd ltac:(reflexivity)) as (d1 & r1 & E1 & R1). rewrite R1.
  rewrite E1, Forall_app in Hd. destruct Hd as [Hd1 Hr1].
  assert (crc32_bits (message_bits d1) 4294967295 < 2 ^ 32) as S1 by (now apply crc32_bits_small).
  destruct (hw_words_spec (length r1) r1 _ Hr1 S1) as (d2 & r2 & E2 & R2). rewrite R2.
  rewrite E2, Forall_app in Hr1. destruct Hr1 as [Hd2 Hr2].
  rewrite hw_bytes by (auto; now apply crc32_bits_small). rewrite N.lxor_comm. f_equal.
  assert (flat_map byte_bits data = message_bits d1 ++ message_bits d2 ++ message_bits r2) as M.
  { rewrite E1, E2. now rewrite !flat_map_app. }
  rewrite M. change (fold_left (crc_bit CRC32C_POLY_REFLECTED)) with crc32_bits. now rewrite !crc32_bits_app.
Qed.
End Steps.
Lemma hardware_software addr data : Forall is_octet data -> crc32c_hardware addr data = crc32c_software data.
Proof. intros Hd. unfold crc32c_hardware. now apply hw_all; [exact mm_crc32_8 | exact mm_crc32_64|]. Qed.

(** * Bursts in bytes *)
Lemma crc_optimal_burst w low polyR d1 d2 : (0 < w)%nat -> low < 2 ^ N.of_nat w -> polyR = reversed w low -> N.testbit low 0 = true ->
  Forall is_octet d1 -> Forall is_octet d2 -> (forall n, (8 * n <= w)%nat -> differ_within n d1 d2 ->
  crc_optimal polyR (ones (N.of_nat w)) (ones (N.of_nat w)) d1 <> crc_optimal polyR (ones (N.of_nat w)) (ones (N.of_nat w)) d2).
Proof.
  intros Hw Hl Hp Ho H1 H2 n Hn (pre & m1 & m2 & post & E1 & E2 & Hm & Hlen & Hne) E. apply Hne.
  unfold crc_optimal in E. apply (f_equal (N.lxor (ones (N.of_nat w)))) in E. rewrite !lxor_cancel in E.
  rewrite !message_bits_model, E1, E2, !message_bits_app, !fold_left_app in E.
  assert (So : ones (N.of_nat w) < 2 ^ N.of_nat w) by apply ones_small.
  pose proof (crc_bits_small w low polyR Hp) as Sm.
  apply (crc_bits_injective w low polyR Hw Hl Hp Ho) in E; auto.
  apply (burst_injective w low polyR Hw Hl Hp Ho) in E; auto.
  - rewrite E1, !Forall_app in H1. rewrite E2, !Forall_app in H2. now apply message_bits_inj.
  - rewrite !message_bits_length. lia.
  - rewrite message_bits_length. lia.
Qed.

(** * The CRC field *)
Lemma be2 a b : be_value [a; b] = a * 256 + b.
Proof. cbn. lia. Qed.
Lemma be4 a b c d : be_value [a; b; c; d] = ((a * 256 + b) * 256 + c) * 256 + d.
Proof. cbn. lia. Qed.
Lemma or_byte a b : b < 256 -> N.lor (N.shiftl a 8) b = a * 256 + b.
Proof.
  intros Hb. rewrite N.shiftl_mul_pow2. change (2 ^ 8) with 256.
  assert (N.land (a * 2 ^ 8) b = 0) as Z.
  { apply N.bits_inj. intros k. rewrite N.land_spec, mul_pow_bit, N.bits_0. destruct (N.ltb_spec k 8); [reflexivity|].
    rewrite (testbit_small b 8) by (assumption || exact Hb). apply andb_false_r. }
  change (2 ^ 8) with 256 in Z. rewrite N.add_nocarry_lxor by assumption.
  apply N.bits_inj. intros k. apply (f_equal (fun x => N.testbit x k)) in Z. rewrite N.land_spec, N.bits_0 in Z.
  rewrite N.lor_spec, N.lxor_spec. destruct (N.testbit (a * 256) k), (N.testbit b k); cbn in *; congruence.
Qed.
Lemma field16 c : c < 65536 -> crc_field 2 c [0x42; N.shiftr c 8 mod 256; c mod 256].
Proof.
  intros Hc. exists [N.shiftr c 8 mod 256; c mod 256]. split; [reflexivity|]. split; [reflexivity|]. split.
  - repeat constructor; unfold is_octet; apply N.mod_lt; lia.
  - rewrite be2, N.shiftr_div_pow2. change (2 ^ 8) with 256. rewrite (N.mod_small (c / 256)) by (apply N.div_lt_upper_bound; lia).
    rewrite N.mul_comm. symmetry. apply N.div_mod. lia.
Qed.
Lemma field32 c : c < W32 -> crc_field 4 c [0x44; N.shiftr c 24 mod 256; N.shiftr c 16 mod 256; N.shiftr c 8 mod 256; c mod 256].
Proof.
  intros Hc. eexists. split; [reflexivity|]. split; [reflexivity|]. split.
  - repeat constructor; unfold is_octet; apply N.mod_lt; lia.
  - rewrite be4, !N.shiftr_div_pow2. unfold W32 in Hc.
    replace (c / 2 ^ 24) with (c / 256 / 256 / 256) by (rewrite !N.div_div by lia; reflexivity).
    replace (c / 2 ^ 16) with (c / 256 / 256) by (rewrite !N.div_div by lia; reflexivity).
    change (2 ^ 8) with 256.
    pose proof (N.div_mod c 256). pose proof (N.div_mod (c / 256) 256). pose proof (N.div_mod (c / 256 / 256) 256).
    assert (c / 256 / 256 / 256 < 256). { rewrite !N.div_div by lia. apply N.div_lt_upper_bound; lia. }
    rewrite (N.mod_small (c / 256 / 256 / 256)) by assumption. lia.
Qed.
Lemma write_mid f pre old post : length old = length f -> write_at (length pre) f (pre ++ old ++ post) = Some (pre ++ f ++ post).
Proof.
  intros Hl. unfold write_at. rewrite !app_length. destruct (Nat.leb_spec (length pre + length f) (length pre + (length old + length post))); [|lia].
  f_equal. rewrite firstn_app, firstn_all, Nat.sub_diag. cbn [firstn]. rewrite app_nil_r. f_equal. f_equal.
  rewrite <- Hl. rewrite skipn_app. rewrite (skipn_all2 pre) by lia. cbn [app].
  replace (length pre + length old - length pre)%nat with (length old) by lia.
  now rewrite skipn_app, skipn_all, Nat.sub_diag.
Qed.
Lemma be_value_small e : Forall is_octet e -> be_value e < 2 ^ N.of_nat (8 * length e).
Proof.
  unfold be_value. intros H. assert (forall a, fold_left (fun a b => a * 256 + b) e a < (a + 1) * 2 ^ N.of_nat (8 * length e)) as G.
  { induction H as [|b e Hb _ IH]; intros a; cbn [fold_left length]; [cbn; lia|]. unfold is_octet in Hb.
    replace (N.of_nat (8 * S (length e))) with (8 + N.of_nat (8 * length e)) by lia. rewrite N.pow_add_r. change (2 ^ 8) with 256.
    specialize (IH (a * 256 + b)). eapply N.lt_le_trans; [exact IH|]. nia. }
  specialize (G 0). lia.
Qed.
Lemma get16_val a b : is_octet a -> is_octet b -> N.lor ((N.shiftl a 8) mod 65536) b = be_value [a; b].
Proof.
  unfold is_octet. intros Ha Hb. rewrite be2. rewrite N.mod_small; [now apply or_byte|].
  rewrite N.shiftl_mul_pow2. change (2 ^ 8) with 256. lia.
Qed.
Lemma get32_val a b c d : is_octet a -> is_octet b -> is_octet c -> is_octet d ->
  let up x := (N.shiftl x 8) mod W32 in N.lor (up (N.lor (up (N.lor (up a) b)) c)) d = be_value [a; b; c; d].
Proof.
  intros Ha Hb Hc Hd up. unfold is_octet in *. rewrite be4.
  assert (U : forall x y, x < 16777216 -> y < 256 -> N.lor (up x) y = x * 256 + y).
  { intros x y Hx Hy. unfold up. rewrite N.mod_small; [now apply or_byte|]. rewrite N.shiftl_mul_pow2. change (2 ^ 8) with 256. unfold W32. lia. }
  rewrite (U a b) by lia. rewrite (U (a * 256 + b) c) by lia. rewrite (U _ d) by lia. reflexivity.
Qed.
Lemma get16_field c f post : crc_field 2 c f -> c < 65536 -> get_crc16 (f ++ post) = Some (Some c).
Proof.
  intros (e & E & Hl & Ho & V) Hc. subst f. change (64 + N.of_nat 2) with 0x42. cbn [app get_crc16 negb].
  rewrite N.eqb_refl. cbn [negb]. destruct e as [|a [|b [|? ?]]]; try discriminate.
  unfold read_n. cbn [app length Nat.leb firstn nth]. inversion Ho as [|? ? Ha Ho']; subst. inversion Ho'; subst.
  now rewrite get16_val.
Qed.
Lemma get32_field c f post : crc_field 4 c f -> c < W32 -> get_crc32 (f ++ post) = Some (Some c).
Proof.
  intros (e & E & Hl & Ho & V) Hc. subst f. change (64 + N.of_nat 4) with 0x44. cbn [app get_crc32 negb].
  rewrite N.eqb_refl. cbn [negb]. destruct e as [|a [|b [|d [|g [|? ?]]]]]; try discriminate.
  unfold read_n. cbn [app length Nat.leb firstn nth]. inversion Ho as [|? ? Ha Ho1]; subst. inversion Ho1 as [|? ? Hb Ho2]; subst.
  inversion Ho2 as [|? ? Hd Ho3]; subst. inversion Ho3; subst. now rewrite get32_val.
Qed.
Lemma get16_inv bs c : Forall is_octet bs -> get_crc16 bs = Some (Some c) -> exists f rest, bs = f ++ rest /\ crc_field 2 c f.
Proof.
  intros Hb E. destruct bs as [|h r]; [discriminate|]. cbn [get_crc16] in E. destruct (N.eqb_spec h 0x42) as [Eh | Eh]; [|discriminate].
  cbn [negb] in E. unfold read_n in E. destruct (Nat.leb_spec 2 (length r)) as [Hl | Hl]; [|discriminate].
  destruct r as [|a [|b r]]; cbn [length] in Hl; try lia. cbn [firstn nth] in E.
  inversion Hb as [|? ? _ H1]; subst. inversion H1 as [|? ? Ha H2]; subst. inversion H2 as [|? ? Hbb H3]; subst.
  rewrite get16_val in E by assumption. exists [0x42; a; b], r. split; [reflexivity|]. exists [a; b].
  split; [reflexivity|]. split; [reflexivity|]. split; [auto|]. congruence.
Qed.
Lemma get32_inv bs c : Forall is_octet bs -> get_crc32 bs = Some (Some c) -> exists f rest, bs = f ++ rest /\ crc_field 4 c f.
Proof.
  intros Hb E. destruct bs as [|h r]; [discriminate|]. cbn [get_crc32] in E. destruct (N.eqb_spec h 0x44) as [Eh | Eh]; [|discriminate].
  cbn [negb] in E. unfold read_n in E. destruct (Nat.leb_spec 4 (length r)) as [Hl | Hl]; [|discriminate].
  destruct r as [|a [|b [|d [|g r]]]]; cbn [length] in Hl; try lia. cbn [firstn nth] in E.
  inversion Hb as [|? ? _ H1]; subst. inversion H1 as [|? ? Ha H2]; subst. inversion H2 as [|? ? Hbb H3]; subst.
  inversion H3 as [|? ? Hd H4]; subst. inversion H4 as [|? ? Hg H5]; subst.
  rewrite get32_val in E by assumption. exists [0x44; a; b; d; g], r. split; [reflexivity|]. exists [a; b; d; g].
  split; [reflexivity|]. split; [reflexivity|]. split; [auto|]. congruence.
Qed.
