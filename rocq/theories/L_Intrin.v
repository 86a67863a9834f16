(** Lemmas about the intrinsics. *)
From Coq Require Import NArith ZArith List Bool Lia ZifyBool ZifyN.
From Verif Require Import Base M_SegmentAlloc M_Intrin.
Import ListNotations.
Open Scope N_scope.
Ltac Zify.zify_post_hook ::= Z.div_mod_to_equations.

Definition bytes (bs : list N) : Prop := Forall (fun b => b < 256) bs.

Lemma forall_below n (P : N -> bool) : forallb P (map N.of_nat (seq 0 n)) = true -> forall b, b < N.of_nat n -> P b = true.
Proof.
  intros H b Hb. rewrite forallb_forall in H. apply H. apply in_map_iff. exists (N.to_nat b). split; [lia|].
  apply in_seq. lia.
Qed.

Lemma land127 x : N.land x 127 = x mod 128.
Proof. exact (N.land_ones x 7). Qed.
Lemma land_low x k : N.land x (N.ones k) = x mod 2 ^ k.
Proof. apply N.land_ones. Qed.
Lemma land128_byte b : b < 256 -> (N.land b 128 =? 0) = (b <? 128).
Proof.
  intros H. apply eqb_prop.
  exact (forall_below 256 (fun b => Bool.eqb (N.land b 128 =? 0) (b <? 128)) ltac:(vm_compute; reflexivity) b H).
Qed.
Lemma shiftl_mul x k : N.shiftl x k = x * 2 ^ k.
Proof. apply N.shiftl_mul_pow2. Qed.
Lemma shiftr_div x k : N.shiftr x k = x / 2 ^ k.
Proof. apply N.shiftr_div_pow2. Qed.
Lemma testbit_small b k n : b < 2 ^ k -> k <= n -> N.testbit b n = false.
Proof.
  intros H L. destruct (N.eq_dec b 0) as [->|NZ]; [apply N.bits_0|].
  apply N.bits_above_log2. apply N.lt_le_trans with k; [|exact L]. apply N.log2_lt_pow2; lia.
Qed.
Lemma small_testbit b k : (forall n, k <= n -> N.testbit b n = false) -> b < 2 ^ k.
Proof.
  intros H. assert (E : b = b mod 2 ^ k).
  { apply N.bits_inj. intros n. destruct (N.lt_ge_cases n k) as [L|L].
    - now rewrite N.mod_pow2_bits_low.
    - rewrite N.mod_pow2_bits_high by exact L. now apply H. }
  rewrite E. apply N.mod_lt. apply N.pow_nonzero. lia.
Qed.
Lemma split_bit a x k n : a < 2 ^ k ->
  N.testbit (a + 2 ^ k * x) n = if n <? k then N.testbit a n else N.testbit x (n - k).
Proof.
  intros Ha. assert (P : 2 ^ k <> 0) by (apply N.pow_nonzero; lia).
  destruct (n <? k) eqn:L.
  - rewrite <- (N.mod_pow2_bits_low _ k n) by lia.
    replace (a + 2 ^ k * x) with (a + x * 2 ^ k) by lia. rewrite N.mod_add by exact P.
    rewrite N.mod_small by exact Ha. reflexivity.
  - replace n with ((n - k) + k) at 1 by lia. rewrite <- N.div_pow2_bits.
    replace (a + 2 ^ k * x) with (a + x * 2 ^ k) by lia. rewrite N.div_add by exact P.
    rewrite N.div_small by exact Ha. reflexivity.
Qed.
Lemma lor_bound a c k : a < 2 ^ k -> c < 2 ^ k -> N.lor a c < 2 ^ k.
Proof.
  intros Ha Hc. apply small_testbit. intros n Hn. rewrite N.lor_spec.
  now rewrite (testbit_small a k n), (testbit_small c k n).
Qed.
Lemma lor_split a c x y k : a < 2 ^ k -> c < 2 ^ k ->
  N.lor (a + 2 ^ k * x) (c + 2 ^ k * y) = N.lor a c + 2 ^ k * N.lor x y.
Proof.
  intros Ha Hc. apply N.bits_inj. intros n. rewrite N.lor_spec, !split_bit by auto using lor_bound.
  destruct (n <? k); rewrite N.lor_spec; reflexivity.
Qed.
Lemma lor_low x b k : b < 2 ^ k -> N.lor (x * 2 ^ k) b = x * 2 ^ k + b.
Proof.
  intros H. replace (x * 2 ^ k) with (0 + 2 ^ k * x) by lia. replace b with (b + 2 ^ k * 0) at 1 by lia.
  rewrite lor_split by (try exact H; pose proof (N.pow_nonzero 2 k); lia).
  rewrite N.lor_0_l, N.lor_0_r. lia.
Qed.

(** Byte lists. *)
Lemma le_val_app a b : le_val (a ++ b) = le_val a + 256 ^ N.of_nat (length a) * le_val b.
Proof.
  induction a as [|x a IH]; cbn [app le_val length].
  - change (256 ^ N.of_nat 0) with 1. lia.
  - rewrite IH. rewrite Nat2N.inj_succ, N.pow_succ_r'. lia.
Qed.
Lemma le_val_bound bs : bytes bs -> le_val bs < 256 ^ N.of_nat (length bs).
Proof.
  induction bs as [|b r IH]; intros H; cbn [le_val length]; [reflexivity|].
  pose proof (Forall_inv H) as Hb. simpl in Hb. pose proof (IH (Forall_inv_tail H)).
  rewrite Nat2N.inj_succ, N.pow_succ_r'. lia.
Qed.
Lemma le_bytes_val bs : bytes bs -> le_bytes (length bs) (le_val bs) = bs.
Proof.
  induction bs as [|b r IH]; intros H; cbn [le_val length le_bytes]; [reflexivity|].
  pose proof (Forall_inv H) as Hb. simpl in Hb. f_equal; [lia|].
  replace ((b + 256 * le_val r) / 256) with (le_val r) by lia. apply IH. exact (Forall_inv_tail H).
Qed.
Lemma le_bytes_length n x : length (le_bytes n x) = n.
Proof. revert x. induction n; intros x; simpl; [reflexivity|]. now rewrite IHn. Qed.
Lemma le_bytes_bytes n x : bytes (le_bytes n x).
Proof. revert x. induction n; intros x; simpl; constructor; [lia|]. apply IHn. Qed.
Lemma le_val_bytes n x : x < 256 ^ N.of_nat n -> le_val (le_bytes n x) = x.
Proof.
  revert x. induction n; intros x H; cbn [le_bytes le_val].
  - change (256 ^ N.of_nat 0) with 1 in H. lia.
  - rewrite IHn; [lia|]. rewrite Nat2N.inj_succ, N.pow_succ_r' in H. lia.
Qed.
Lemma be_val_acc bs : forall a, fold_left (fun a b => a * 256 + b) bs a = a * 256 ^ N.of_nat (length bs) + be_val bs.
Proof.
  unfold be_val. induction bs as [|b r IH]; intros a; cbn [fold_left length].
  - change (256 ^ N.of_nat 0) with 1. lia.
  - rewrite IH, (IH (0 * 256 + b)), Nat2N.inj_succ, N.pow_succ_r'. lia.
Qed.
Lemma be_val_app a b : be_val (a ++ b) = be_val a * 256 ^ N.of_nat (length b) + be_val b.
Proof. unfold be_val at 1. rewrite fold_left_app. apply be_val_acc. Qed.
Lemma be_val_rev bs : be_val bs = le_val (rev bs).
Proof.
  induction bs as [|b r IH] using rev_ind; [reflexivity|].
  rewrite be_val_app, rev_app_distr, IH. cbn. change (256 ^ 1) with 256. lia.
Qed.
Lemma bswap64_le bs : bytes bs -> length bs = 8%nat -> bswap64 (le_val bs) = le_val (rev bs).
Proof. intros H L. unfold bswap64. rewrite <- L, le_bytes_val by exact H. apply be_val_rev. Qed.
Lemma bytes_rev bs : bytes bs -> bytes (rev bs).
Proof. apply Forall_rev. Qed.
Lemma store_be bs : bytes bs -> length bs = 8%nat -> le_bytes 8 (bswap64 (le_val (rev bs))) = bs.
Proof.
  intros H L. rewrite bswap64_le by (try apply bytes_rev; try rewrite rev_length; assumption).
  rewrite rev_involutive. rewrite <- L. now apply le_bytes_val.
Qed.

Lemma mod2_odd m : m mod 2 = if N.odd m then 1 else 0.
Proof. rewrite <- N.bit0_mod, N.bit0_odd. now destruct (N.odd m). Qed.
(** pext / pdep split at a bit position. *)
Lemma pext_split n x2 m2 : forall a x1 m1, x1 < 2 ^ N.of_nat a -> m1 < 2 ^ N.of_nat a ->
  pext (a + n) (x1 + 2 ^ N.of_nat a * x2) (m1 + 2 ^ N.of_nat a * m2) =
  pext a x1 m1 + 2 ^ popcnt a m1 * pext n x2 m2.
Proof.
  induction a as [|a IH]; intros x1 m1 Hx Hm.
  - change (2 ^ N.of_nat 0) with 1 in *. simpl. change (2 ^ 0) with 1.
    replace x1 with 0 by lia. replace m1 with 0 by lia.
    replace (0 + 1 * x2) with x2 by lia. replace (0 + 1 * m2) with m2 by lia. lia.
  - rewrite Nat2N.inj_succ, N.pow_succ_r' in *. set (P := 2 ^ N.of_nat a) in *.
    cbn [pext popcnt Nat.add].
    replace (N.odd (m1 + 2 * P * m2)) with (N.odd m1).
    2:{ rewrite N.odd_add, !N.odd_mul. change (N.odd 2) with false. simpl. now rewrite xorb_false_r. }
    replace ((x1 + 2 * P * x2) mod 2) with (x1 mod 2).
    2:{ replace (x1 + 2 * P * x2) with (x1 + (P * x2) * 2) by lia. now rewrite N.mod_add. }
    replace ((x1 + 2 * P * x2) / 2) with (x1 / 2 + P * x2).
    2:{ replace (x1 + 2 * P * x2) with (x1 + (P * x2) * 2) by lia. now rewrite N.div_add. }
    replace ((m1 + 2 * P * m2) / 2) with (m1 / 2 + P * m2).
    2:{ replace (m1 + 2 * P * m2) with (m1 + (P * m2) * 2) by lia. now rewrite N.div_add. }
    rewrite IH by lia.
    pose proof (mod2_odd m1) as E.
    rewrite E. destruct (N.odd m1).
    + rewrite N.pow_add_r. change (2 ^ 1) with 2. lia.
    + reflexivity.
Qed.
Lemma pdep_split n m2 : forall a x m1, m1 < 2 ^ N.of_nat a ->
  pdep (a + n) x (m1 + 2 ^ N.of_nat a * m2) =
  pdep a x m1 + 2 ^ N.of_nat a * pdep n (x / 2 ^ popcnt a m1) m2.
Proof.
  induction a as [|a IH]; intros x m1 Hm.
  - change (2 ^ N.of_nat 0) with 1 in *. simpl. change (2 ^ 0) with 1.
    replace m1 with 0 by lia. rewrite N.div_1_r.
    replace (0 + 1 * m2) with m2 by lia. lia.
  - rewrite Nat2N.inj_succ, N.pow_succ_r' in *. set (P := 2 ^ N.of_nat a) in *.
    cbn [pdep popcnt Nat.add].
    replace (N.odd (m1 + 2 * P * m2)) with (N.odd m1).
    2:{ rewrite N.odd_add, !N.odd_mul. change (N.odd 2) with false. simpl. now rewrite xorb_false_r. }
    replace ((m1 + 2 * P * m2) / 2) with (m1 / 2 + P * m2).
    2:{ replace (m1 + 2 * P * m2) with (m1 + (P * m2) * 2) by lia. now rewrite N.div_add. }
    pose proof (mod2_odd m1) as E.
    rewrite E. destruct (N.odd m1).
    + rewrite IH by lia. rewrite N.pow_add_r. change (2 ^ 1) with 2.
      rewrite N.div_div by (try apply N.pow_nonzero; lia). lia.
    + rewrite IH by lia. replace (0 + popcnt a (m1 / 2)) with (popcnt a (m1 / 2)) by lia. lia.
Qed.
Lemma pdep_zero n x : pdep n x 0 = 0.
Proof. induction n; simpl; [reflexivity|]. change (0 / 2) with 0. rewrite IHn. reflexivity. Qed.
Lemma pdep_ones n : forall x, pdep n x (2 ^ N.of_nat n - 1) = x mod 2 ^ N.of_nat n.
Proof.
  induction n as [|n IH]; intros x.
  - change (2 ^ N.of_nat 0) with 1. simpl. now rewrite N.mod_1_r.
  - rewrite Nat2N.inj_succ, N.pow_succ_r'. set (P := 2 ^ N.of_nat n) in *.
    assert (HP : P <> 0) by (apply N.pow_nonzero; lia).
    cbn [pdep]. replace (2 * P - 1) with (1 + 2 * (P - 1)) by lia.
    rewrite N.odd_add, N.odd_mul. change (N.odd 2) with false. cbn [andb xorb].
    change (N.odd 1) with true. cbn [xorb]. cbv iota.
    replace ((1 + 2 * (P - 1)) / 2) with (P - 1) by lia. rewrite IH. rewrite N.mod_mul_r by lia. reflexivity.
Qed.
Lemma pdep8_127 x : pdep 8 x 127 = x mod 128.
Proof.
  change 8%nat with (7 + 1)%nat. replace 127 with ((2 ^ N.of_nat 7 - 1) + 2 ^ N.of_nat 7 * 0) by reflexivity.
  rewrite pdep_split by (vm_compute; reflexivity). rewrite pdep_ones, pdep_zero. rewrite N.mul_0_r, N.add_0_r. reflexivity.
Qed.

(** Gathering / scattering 7 bits per byte: [ms] is a byte mask list of 0x7f and 0x00, least significant first. *)
Fixpoint gather7 (bs ms : list N) : N :=
  match bs, ms with
  | b :: r, m :: q => if m =? 127 then b mod 128 + 128 * gather7 r q else gather7 r q
  | _, _ => 0
  end.
Fixpoint scatter7 (x : N) (ms : list N) : list N :=
  match ms with
  | [] => []
  | m :: q => if m =? 127 then x mod 128 :: scatter7 (x / 128) q else 0 :: scatter7 x q
  end.
Definition mask7 (ms : list N) : Prop := Forall (fun m => m = 127 \/ m = 0) ms.
Lemma pext_gather ms : mask7 ms -> forall bs, bytes bs -> length bs = length ms ->
  pext (8 * length ms) (le_val bs) (le_val ms) = gather7 bs ms.
Proof.
  induction ms as [|m q IH]; intros Hm bs Hb L.
  - destruct bs; [|discriminate]. reflexivity.
  - destruct bs as [|b r]; [discriminate|]. injection L as L.
    pose proof (Forall_inv Hm) as Hm0. pose proof (Forall_inv Hb) as Hb0. simpl in Hm0, Hb0.
    replace (8 * length (m :: q))%nat with (8 + 8 * length q)%nat by (simpl; lia).
    cbn [le_val gather7]. 
    change 256 with (2 ^ N.of_nat 8). rewrite pext_split.
    2:{ change (2 ^ N.of_nat 8) with 256; lia. } 2:{ change (2 ^ N.of_nat 8) with 256; lia. }
    rewrite IH; [|exact (Forall_inv_tail Hm)|exact (Forall_inv_tail Hb)|exact L].
    destruct Hm0 as [-> | ->].
    + change (127 =? 127) with true. cbv iota. change (2 ^ popcnt 8 127) with 128. f_equal.
      apply N.eqb_eq. exact (forall_below 256 (fun b => pext 8 b 127 =? b mod 128) ltac:(vm_compute; reflexivity) b Hb0).
    + change (0 =? 127) with false. cbv iota. change (2 ^ popcnt 8 0) with 1.
      assert (E : pext 8 b 0 = 0).
      { apply N.eqb_eq. exact (forall_below 256 (fun b => pext 8 b 0 =? 0) ltac:(vm_compute; reflexivity) b Hb0). }
      rewrite E. lia.
Qed.
Lemma pdep_scatter ms : mask7 ms -> forall x, pdep (8 * length ms) x (le_val ms) = le_val (scatter7 x ms).
Proof.
  induction ms as [|m q IH]; intros Hm x; [reflexivity|].
  pose proof (Forall_inv Hm) as Hm0. simpl in Hm0.
  replace (8 * length (m :: q))%nat with (8 + 8 * length q)%nat by (simpl; lia).
  cbn [le_val scatter7].
  change 256 with (2 ^ N.of_nat 8) at 1. rewrite pdep_split by (change (2 ^ N.of_nat 8) with 256; lia).
  rewrite IH by exact (Forall_inv_tail Hm). change (2 ^ N.of_nat 8) with 256.
  destruct Hm0 as [-> | ->].
  - change (127 =? 127) with true. cbv iota. cbn [le_val]. rewrite pdep8_127. reflexivity.
  - change (0 =? 127) with false. cbv iota. cbn [le_val]. rewrite pdep_zero.
    change (2 ^ popcnt 8 0) with 1. now rewrite N.div_1_r.
Qed.
Fixpoint lor_bytes (a b : list N) : list N :=
  match a, b with x :: r, y :: q => N.lor x y :: lor_bytes r q | _, _ => [] end.
Lemma lor_le_val a : forall b, bytes a -> bytes b -> length a = length b ->
  N.lor (le_val a) (le_val b) = le_val (lor_bytes a b).
Proof.
  induction a as [|x r IH]; intros b Ha Hb L; destruct b as [|y q]; try discriminate; [reflexivity|].
  injection L as L. pose proof (Forall_inv Ha) as Ha0. pose proof (Forall_inv Hb) as Hb0. simpl in Ha0, Hb0.
  cbn [le_val lor_bytes]. change 256 with (2 ^ 8) at 1 2. rewrite lor_split by assumption.
  rewrite IH; [reflexivity|exact (Forall_inv_tail Ha)|exact (Forall_inv_tail Hb)|exact L].
Qed.

(** Number of leading bytes with the top bit set. *)
Fixpoint lead (bs : list N) : nat :=
  match bs with [] => O | b :: r => if b <? 128 then O else S (lead r) end.
Lemma lsb_odd x : N.odd x = true -> lsb x = Some 0.
Proof. destruct x as [|p]; [discriminate|]. destruct p; simpl; intros H; try reflexivity; discriminate. Qed.
Lemma lsb_double x : lsb (2 * x) = option_map (N.add 1) (lsb x).
Proof. destruct x as [|p]; reflexivity. Qed.
Lemma lsb_not_mask bs : bytes bs -> forall n, (length bs <= n)%nat -> (lead bs < n)%nat ->
  lsb (2 ^ N.of_nat n - 1 - movemask bs) = Some (N.of_nat (lead bs)).
Proof.
  induction bs as [|b r IH]; intros Hb n Hn Hl; cbn [movemask lead length] in *.
  - destruct n as [|n]; [lia|]. rewrite Nat2N.inj_succ, N.pow_succ_r'. apply lsb_odd.
    assert (P : 2 ^ N.of_nat n <> 0) by (apply N.pow_nonzero; lia). set (Q := 2 ^ N.of_nat n) in *.
    replace (2 * Q - 1 - 0) with (1 + 2 * (Q - 1)) by lia. rewrite N.odd_add, N.odd_mul. reflexivity.
  - destruct n as [|n]; [lia|]. pose proof (Forall_inv Hb) as Hb0. simpl in Hb0.
    assert (M : forall l, bytes l -> movemask l <= 2 ^ N.of_nat (length l) - 1).
    { clear. induction l as [|x l IH]; intros H; cbn [movemask length]; [lia|].
      pose proof (Forall_inv H) as Hx. simpl in Hx. pose proof (IH (Forall_inv_tail H)).
      rewrite Nat2N.inj_succ, N.pow_succ_r'. assert (2 ^ N.of_nat (length l) <> 0) by (apply N.pow_nonzero; lia). lia. }
    pose proof (M r (Forall_inv_tail Hb)) as Mr.
    assert (Q1 : 2 ^ N.of_nat (length r) <= 2 ^ N.of_nat n) by (apply N.pow_le_mono_r; lia).
    rewrite Nat2N.inj_succ, N.pow_succ_r'. set (Q := 2 ^ N.of_nat n) in *.
    assert (2 ^ N.of_nat (length r) <> 0) by (apply N.pow_nonzero; lia).
    destruct (b <? 128) eqn:E.
    + apply lsb_odd. replace (2 * Q - 1 - (b / 128 + 2 * movemask r)) with (1 + 2 * (Q - 1 - movemask r)) by lia.
      rewrite N.odd_add, N.odd_mul. reflexivity.
    + replace (2 * Q - 1 - (b / 128 + 2 * movemask r)) with (2 * (Q - 1 - movemask r)) by lia.
      rewrite lsb_double. unfold Q. rewrite (IH (Forall_inv_tail Hb) n) by lia.
      cbn [option_map]. f_equal. lia.
Qed.
Lemma lsb_of_not_lead bs : bytes bs -> (length bs <= 32)%nat -> (lead bs < 32)%nat ->
  lsb_of_not (movemask bs) = Some (N.of_nat (lead bs)).
Proof. intros. unfold lsb_of_not. change 4294967295 with (2 ^ N.of_nat 32 - 1). now apply lsb_not_mask. Qed.
Lemma lead_le bs : (lead bs <= length bs)%nat.
Proof. induction bs as [|b r IH]; simpl; [lia|]. destruct (b <? 128); simpl; lia. Qed.
Lemma lead_split bs : (lead bs < length bs)%nat -> exists p b r, bs = p ++ b :: r /\ length p = lead bs /\ Forall (fun x => 128 <= x) p /\ b < 128.
Proof.
  induction bs as [|b r IH]; simpl; [lia|]. destruct (b <? 128) eqn:E; simpl; intros H.
  - exists [], b, r. split; [reflexivity|]. split; [reflexivity|]. split; [constructor|lia].
  - destruct IH as (p & c & q & -> & L & F & C); [lia|]. exists (b :: p), c, q. split; [reflexivity|].
    simpl. split; [lia|]. split; [constructor; [lia|exact F]|exact C].
Qed.
Lemma lead_all bs : lead bs = length bs -> Forall (fun x => 128 <= x) bs.
Proof.
  induction bs as [|b r IH]; simpl; intros H; [constructor|]. destruct (b <? 128) eqn:E; [discriminate|].
  injection H as H. constructor; [lia|]. now apply IH.
Qed.
Lemma lead_app p r : Forall (fun x => 128 <= x) p -> lead (p ++ r) = (length p + lead r)%nat.
Proof.
  induction p as [|b p IH]; intros H; simpl; [reflexivity|]. pose proof (Forall_inv H) as Hb. simpl in Hb.
  destruct (b <? 128) eqn:E; [lia|]. simpl. now rewrite IH by exact (Forall_inv_tail H).
Qed.
