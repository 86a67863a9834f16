(** Lemmas for C25, C26. *)
From Coq Require Import NArith ZArith List Bool Lia ZifyBool ZifyN.
From Verif Require Import Base M_LtpIds.
Import ListNotations.
Open Scope N_scope.

(** * Session recreation prevention *)
Lemma set_has_iff s x : set_has s x = true <-> In x s.
Proof. unfold set_has. rewrite existsb_exists. split; [intros (y & I & E); apply N.eqb_eq in E; now subst|]. intros I. exists x. split; [exact I|apply N.eqb_refl]. Qed.
Lemma vec_write_app a o b x : vec_write (a ++ o :: b) (length a) x = Some (a ++ x :: b).
Proof. induction a as [|y a IH]; cbn [app length vec_write]; [reflexivity|]. now rewrite IH. Qed.
(** [acc]: accepted numbers, oldest first; the last [num] of them are remembered. *)
Definition lastn {A} (n : nat) (l : list A) : list A := skipn (length l - n) l.
Record pinv (p : preventer) (acc : list N) : Prop := {
  p_pos : 1 <= pv_num p < W64;
  p_len : N.of_nat (length (pv_vec p)) = pv_num p;
  p_nd : NoDup (lastn (N.to_nat (pv_num p)) acc);
  p_set : forall x, In x (pv_set p) <-> In x (lastn (N.to_nat (pv_num p)) acc);
  p_vec : exists a b, pv_vec p = a ++ b /\ b <> [] /\ pv_next p = N.of_nat (length a) /\
    if pv_full p then lastn (N.to_nat (pv_num p)) acc = b ++ a else acc = a }.
Lemma lastn_all {A} n (l : list A) : (length l <= n)%nat -> lastn n l = l.
Proof. intros H. unfold lastn. replace (length l - n)%nat with O by lia. reflexivity. Qed.
Lemma lastn_app {A} n (l : list A) x : (length l < n)%nat -> lastn n (l ++ [x]) = l ++ [x].
Proof. intros H. apply lastn_all. rewrite app_length. cbn. lia. Qed.
Lemma lastn_length {A} n (l : list A) : length (lastn n l) = Nat.min n (length l).
Proof. unfold lastn. rewrite skipn_length. lia. Qed.
Lemma lastn_step {A} n (l : list A) o w x : lastn n l = o :: w -> length (o :: w) = n -> lastn n (l ++ [x]) = w ++ [x].
Proof.
  intros E L. pose proof (lastn_length n l) as LL. rewrite E, L in LL. unfold lastn in *. rewrite app_length. cbn [length].
  replace (length l + 1 - n)%nat with (S (length l - n)) by lia.
  assert (skipn (S (length l - n)) l = w) as S1.
  { clear - E. revert E. generalize (length l - n)%nat as k. intros k. revert l. induction k as [|k IH]; intros [|y l] E; try discriminate; [now injection E|]. cbn [skipn] in *. now apply IH. }
  rewrite skipn_app, S1. replace (S (length l - n) - length l)%nat with O by (cbn [length] in L; lia). reflexivity.
Qed.
Lemma nodup_snoc (l : list N) x : NoDup l -> ~ In x l -> NoDup (l ++ [x]).
Proof. intros N I. apply NoDup_rev in N. rewrite <- (rev_involutive (l ++ [x])). apply NoDup_rev. rewrite rev_app_distr. cbn [rev app]. constructor; [now rewrite <- in_rev|exact N]. Qed.
Lemma pinv_new n : 1 <= n < W64 -> pinv (pv_new n) [].
Proof.
  intros H. constructor; cbn [pv_new pv_num pv_set pv_vec pv_full pv_next].
  - exact H.
  - rewrite repeat_length. lia.
  - rewrite lastn_all by (cbn; lia). constructor.
  - intros x. rewrite lastn_all by (cbn; lia). tauto.
  - exists [], (repeat 0 (N.to_nat n)). split; [reflexivity|]. split; [|split; reflexivity].
    destruct (N.to_nat n) eqn:E; [lia|]. discriminate.
Qed.
Lemma pv_add_spec p acc x : pinv p acc ->
  exists p' ok, pv_add p x = Some (p', ok) /\ pv_num p' = pv_num p /\ (ok = false <-> In x (lastn (N.to_nat (pv_num p)) acc)) /\
    pinv p' (if ok then acc ++ [x] else acc).
Proof.
  intros [PP PL PN PS (a & b & EV & NB & EN & W)]. unfold pv_add. destruct (set_has (pv_set p) x) eqn:SH.
  - apply set_has_iff in SH. exists p, false. split; [reflexivity|]. split; [reflexivity|]. split; [split; [intros _; now apply PS|reflexivity]|].
    constructor; auto. exists a, b. auto.
  - assert (~ In x (lastn (N.to_nat (pv_num p)) acc)) as NI by (intros I; apply PS, set_has_iff in I; congruence).
    destruct b as [|o b]; [congruence|]. rewrite EN, Nnat.Nat2N.id, EV.
    pose proof PL as PL'. rewrite EV, app_length in PL'. cbn [length] in PL'.
    assert (nth_error (a ++ o :: b) (length a) = Some o) as ->.
    { rewrite nth_error_app2 by lia. rewrite PeanoNat.Nat.sub_diag. reflexivity. }
    rewrite vec_write_app.
    assert (add64 (N.of_nat (length a)) 1 = N.of_nat (length a) + 1) as AD by (unfold add64; apply N.mod_small; lia). rewrite AD.
    assert (forall s', (forall y, In y s' <-> In y (lastn (N.to_nat (pv_num p)) (acc ++ [x]))) -> NoDup (lastn (N.to_nat (pv_num p)) (acc ++ [x])) ->
      (if pv_full p then lastn (N.to_nat (pv_num p)) (acc ++ [x]) = b ++ a ++ [x] else acc ++ [x] = a ++ [x]) ->
      exists p' ok, (if pv_num p <=? N.of_nat (length a) + 1 then Some (mkPrev (pv_num p) s' (a ++ x :: b) true 0, true)
                     else Some (mkPrev (pv_num p) s' (a ++ x :: b) (pv_full p) (N.of_nat (length a) + 1), true)) = Some (p', ok) /\
        pv_num p' = pv_num p /\ (ok = false <-> In x (lastn (N.to_nat (pv_num p)) acc)) /\ pinv p' (if ok then acc ++ [x] else acc)) as Go.
    { intros s' HS HN HW. destruct (N.leb_spec (pv_num p) (N.of_nat (length a) + 1)) as [LE|LT].
      - assert (b = []) as -> by (destruct b; [reflexivity|cbn [length] in PL'; lia]).
        eexists _, true. split; [reflexivity|]. split; [reflexivity|]. split; [split; [discriminate|tauto]|].
        constructor; cbn [pv_num pv_set pv_vec pv_full pv_next]; auto.
        + rewrite app_length. cbn [length]. lia.
        + exists [], (a ++ [x]). split; [reflexivity|]. split; [now destruct a|]. split; [reflexivity|]. rewrite app_nil_r.
          destruct (pv_full p); [exact HW|]. rewrite HW. apply lastn_all. rewrite app_length. cbn [length]. lia.
      - eexists _, true. split; [reflexivity|]. split; [reflexivity|]. split; [split; [discriminate|tauto]|].
        constructor; cbn [pv_num pv_set pv_vec pv_full pv_next]; auto.
        + rewrite app_length. cbn [length]. lia.
        + exists (a ++ [x]), b. split; [now rewrite <- app_assoc|]. split; [destruct b; [cbn [length] in PL'; lia|discriminate]|]. split; [rewrite app_length; cbn [length]; lia|].
          destruct (pv_full p); exact HW. }
    destruct (pv_full p) eqn:FULL.
    + cbn [set_erase]. unfold set_erase.
      assert (In o (x :: pv_set p)) as IO by (right; apply PS; rewrite W; now left). apply set_has_iff in IO. rewrite IO.
      cbn [app] in W. assert (length (o :: b ++ a) = N.to_nat (pv_num p)) as LW by (cbn [length]; rewrite app_length; lia).
      pose proof (lastn_step _ _ _ _ x W LW) as W'. rewrite <- app_assoc in W'. rewrite W in PN, NI. inversion PN as [|? ? N1 N2]; subst.
      apply Go.
      * intros y. rewrite W'. rewrite app_assoc, in_app_iff, filter_In. cbn [In]. rewrite PS, W. cbn [In].
        destruct (N.eqb_spec o y) as [->|NE]; cbn [negb].
        -- split; [intros [_ D]; discriminate|]. intros [I|[<-|[]]]; [contradiction|]. destruct NI. now left.
        -- split; [intros [[<-|[E|I]] _]; [right; now left|congruence|now left]|]. intros [I|[<-|[]]]; (split; [|reflexivity]); [right; now right|now left].
      * rewrite W', app_assoc. apply nodup_snoc; [exact N2|]. intros I. apply NI. now right.
      * exact W'.
    + rewrite W in *. assert (lastn (N.to_nat (pv_num p)) (a ++ [x]) = a ++ [x]) as LA by (apply lastn_app; lia).
      rewrite (lastn_all _ a) in PN, PS, NI by lia.
      specialize (Go (x :: pv_set p)). rewrite LA in Go. apply Go.
      * intros y. rewrite in_app_iff. cbn [In]. rewrite PS. tauto.
      * now apply nodup_snoc.
      * reflexivity.
Qed.

(** * Random numbers *)
Lemma land_ones_small a n : a < 2 ^ n -> N.land a (N.ones n) = a.
Proof. intros H. rewrite N.land_ones. now apply N.mod_small. Qed.
Lemma shiftl_low a k n : n <= k -> N.land (N.shiftl a k) (N.ones n) = 0.
Proof.
  intros H. apply N.bits_inj. intros i. rewrite N.land_spec, N.bits_0. destruct (N.lt_ge_cases i n) as [L|L].
  - rewrite N.shiftl_spec_low by lia. reflexivity.
  - rewrite N.ones_spec_high by lia. apply andb_false_r.
Qed.
Lemma mod_low a n m : n <= m -> N.land (a mod 2 ^ m) (N.ones n) = N.land a (N.ones n).
Proof.
  intros H. rewrite <- N.land_ones, <- N.land_assoc. f_equal. apply N.bits_inj. intros i. rewrite N.land_spec.
  destruct (N.lt_ge_cases i n) as [L|L]; [rewrite !N.ones_spec_low by lia; reflexivity|]. rewrite (N.ones_spec_high n) by lia. apply andb_false_r.
Qed.
Lemma shiftl_small idx k m : idx < 2 ^ m -> N.shiftl idx k mod 2 ^ (k + m) = N.shiftl idx k.
Proof.
  intros H. apply N.mod_small. rewrite N.shiftl_mul_pow2, N.pow_add_r. rewrite N.mul_comm. apply N.mul_lt_mono_pos_l; [|exact H].
  apply N.neq_0_lt_0. now apply N.pow_nonzero.
Qed.
(** The shared shape: random part under [mask], index above, incremental part below. *)
Lemma session_parts idx inc x mask k w top : N.land mask (N.ones k) = 0 -> N.shiftr mask top = 0 -> k <= top -> inc < 2 ^ k -> idx < 2 ^ w ->
  let n := N.lor (N.lor (N.land x mask) (N.shiftl idx top)) inc in
  N.land n (N.ones k) = inc /\ N.shiftr n top = idx /\ n < 2 ^ (top + w).
Proof.
  intros M1 M2 K I X. cbv zeta. assert (N.shiftr (N.lor (N.lor (N.land x mask) (N.shiftl idx top)) inc) top = idx) as S.
  { rewrite !N.shiftr_lor, N.shiftr_land, M2, N.land_0_r, N.lor_0_l, N.shiftr_shiftl_l by lia. rewrite N.sub_diag, N.shiftl_0_r.
    rewrite (N.shiftr_div_pow2 inc), N.div_small, N.lor_0_r; [reflexivity|]. eapply N.lt_le_trans; [exact I|]. apply N.pow_le_mono_r; lia. }
  split; [|split; [exact S|]].
  - rewrite !N.land_lor_distr_l, <- N.land_assoc, M1, N.land_0_r, N.lor_0_l, shiftl_low by exact K. rewrite N.lor_0_l. now apply land_ones_small.
  - rewrite N.shiftr_div_pow2 in S. rewrite N.pow_add_r. pose proof (N.div_mod (N.lor (N.lor (N.land x mask) (N.shiftl idx top)) inc) (2 ^ top)) as D.
    assert (2 ^ top <> 0) as P by now apply N.pow_nonzero. specialize (D P). rewrite S in D. pose proof (N.mod_lt (N.lor (N.lor (N.land x mask) (N.shiftl idx top)) inc) (2 ^ top) P).
    rewrite D. nia.
Qed.
Lemma session64_parts idx inc r : idx < 8 -> 1 <= inc < 2 ^ 24 ->
  N.land (fst (session64 idx inc r)) (N.ones 24) = inc /\ N.shiftr (fst (session64 idx inc r)) 61 = idx /\ fst (session64 idx inc r) < W64 /\
  N.testbit (fst (session64 idx inc r)) 60 = false /\ snd (session64 idx inc r) = (if inc =? 2 ^ 24 - 1 then 1 else inc + 1).
Proof.
  intros X I. unfold session64. cbn [fst snd]. change W64 with (2 ^ (61 + 3)). rewrite (shiftl_small idx 61 3) by exact X.
  destruct (session_parts idx inc (N.shiftl r 24 mod 2 ^ (61 + 3)) 0xfffffffff000000 24 3 61) as (A & B & C); try reflexivity; try exact X; try lia; try apply I.
  split; [exact A|]. split; [exact B|]. split; [exact C|]. split.
  - rewrite !N.lor_spec, N.land_spec. change (N.testbit 0xfffffffff000000 60) with false. rewrite andb_false_r. rewrite N.shiftl_spec_low by lia.
    rewrite <- (N.mod_small inc (2 ^ 24)) by lia. rewrite N.mod_pow2_bits_high by lia. reflexivity.
  - change 0xffffff with (N.ones 24). rewrite N.land_ones. rewrite (N.mod_small (inc + 1) W32) by (unfold W32; lia).
    destruct (N.eqb_spec inc (2 ^ 24 - 1)) as [->|NE]; [reflexivity|]. rewrite N.mod_small by lia. destruct (N.eqb_spec (inc + 1) 0); [lia|reflexivity].
Qed.
Lemma session32_parts idx inc r : idx < 8 -> 1 <= inc < 2 ^ 21 ->
  N.land (fst (session32 idx inc r)) (N.ones 21) = inc /\ N.shiftr (fst (session32 idx inc r)) 29 = idx /\ fst (session32 idx inc r) < W32 /\
  N.testbit (fst (session32 idx inc r)) 28 = false /\ snd (session32 idx inc r) = (if inc =? 2 ^ 21 - 1 then 1 else inc + 1).
Proof.
  intros X I. unfold session32. cbn [fst snd].
  assert (N.shiftl idx 29 mod W64 = N.shiftl idx 29) as ->.
  { apply N.mod_small. rewrite N.shiftl_mul_pow2. unfold W64. lia. }
  destruct (session_parts idx inc (N.shiftl r 21 mod W64) 0xfe00000 21 3 29) as (A & B & C); try reflexivity; try exact X; try lia; try apply I.
  change (2 ^ (29 + 3)) with W32 in C. rewrite (N.mod_small _ W32 C).
  split; [exact A|]. split; [exact B|]. split; [exact C|]. split.
  - rewrite !N.lor_spec, N.land_spec. change (N.testbit 0xfe00000 28) with false. rewrite andb_false_r. rewrite N.shiftl_spec_low by lia.
    rewrite <- (N.mod_small inc (2 ^ 21)) by lia. rewrite N.mod_pow2_bits_high by lia. reflexivity.
  - change 0x1fffff with (N.ones 21). rewrite N.land_ones. rewrite (N.mod_small (inc + 1) W32) by (unfold W32; lia).
    destruct (N.eqb_spec inc (2 ^ 21 - 1)) as [->|NE]; [reflexivity|]. rewrite N.mod_small by lia. destruct (N.eqb_spec (inc + 1) 0); [lia|reflexivity].
Qed.
Lemma ping_bit60 idx : N.testbit (ping64 idx) 60 = true.
Proof. unfold ping64. rewrite N.lor_spec. reflexivity. Qed.
Lemma ping_bit28 idx : N.testbit (ping32 idx) 28 = true.
Proof. unfold ping32. change W32 with (2 ^ 32). rewrite N.mod_pow2_bits_low by lia. rewrite N.lor_spec. reflexivity. Qed.
(** Successive numbers: the incremental parts walk around 1 .. 2^k-1. *)
Lemma sessions_inc gen idx k : 1 <= k -> (forall inc r, 1 <= inc < 2 ^ k -> N.land (fst (gen idx inc r)) (N.ones k) = inc /\ snd (gen idx inc r) = if inc =? 2 ^ k - 1 then 1 else inc + 1) ->
  forall rs inc i n, 1 <= inc < 2 ^ k -> nth_error (sessions gen idx inc rs) i = Some n -> exists r, In r rs /\ exists c, 1 <= c < 2 ^ k /\ n = fst (gen idx c r) /\ c = 1 + (inc - 1 + N.of_nat i) mod (2 ^ k - 1).
Proof.
  intros K G. induction rs as [|r rs IH]; intros inc i n I E; cbn [sessions] in E; [destruct i; discriminate|].
  destruct (G inc r I) as [_ S]. destruct (gen idx inc r) as [m inc'] eqn:GE. cbn [snd] in S.
  assert (2 <= 2 ^ k) as P by (change 2 with (2 ^ 1) at 1; apply N.pow_le_mono_r; lia).
  destruct i as [|i]; cbn [nth_error] in E.
  - injection E as <-. exists r. split; [now left|]. exists inc. split; [exact I|]. split; [now rewrite GE|]. rewrite N.add_0_r, N.mod_small by lia. lia.
  - assert (1 <= inc' < 2 ^ k) as I' by (rewrite S; destruct (N.eqb_spec inc (2 ^ k - 1)); lia).
    destruct (IH inc' i n I' E) as (r' & IN & c & C & EN & EC). exists r'. split; [now right|]. exists c. split; [exact C|]. split; [exact EN|]. rewrite EC. f_equal.
    rewrite S. destruct (N.eqb_spec inc (2 ^ k - 1)) as [->|NE].
    + replace (2 ^ k - 1 - 1 + N.of_nat (Datatypes.S i)) with (N.of_nat i + 1 * (2 ^ k - 1)) by lia. rewrite N.mod_add by lia. f_equal; lia.
    + f_equal; lia.
Qed.
Lemma walk_distinct m a i j : 1 <= m -> i < j -> j - i < m -> (a + i) mod m <> (a + j) mod m.
Proof.
  intros M L D E. pose proof (N.div_mod (a + i) m). pose proof (N.div_mod (a + j) m). assert ((a + j) / m = (a + i) / m \/ (a + j) / m >= (a + i) / m + 1 \/ (a + j) / m + 1 <= (a + i) / m) as [Q|[Q|Q]] by lia.
  - rewrite Q in *. lia.
  - assert (m * ((a + j) / m) >= m * ((a + i) / m + 1)) by nia. lia.
  - assert (m * ((a + j) / m + 1) <= m * ((a + i) / m)) by nia. lia.
Qed.
Lemma sessions_distinct gen idx k : 1 <= k -> (forall inc r, 1 <= inc < 2 ^ k -> N.land (fst (gen idx inc r)) (N.ones k) = inc /\ snd (gen idx inc r) = if inc =? 2 ^ k - 1 then 1 else inc + 1) ->
  forall rs inc i j a b, 1 <= inc < 2 ^ k -> nth_error (sessions gen idx inc rs) i = Some a -> nth_error (sessions gen idx inc rs) j = Some b ->
  (i < j)%nat -> N.of_nat (j - i) < 2 ^ k - 1 -> a <> b.
Proof.
  intros K G rs inc i j a b I A B L D E. subst b.
  destruct (sessions_inc gen idx k K G rs inc i a I A) as (r & _ & c & C & EA & EC).
  destruct (sessions_inc gen idx k K G rs inc j a I B) as (r' & _ & c' & C' & EB & EC').
  assert (c = c') as Q. { rewrite <- (proj1 (G c r C)), <- (proj1 (G c' r' C')). congruence. }
  assert (2 <= 2 ^ k) as P by (change 2 with (2 ^ 1) at 1; apply N.pow_le_mono_r; lia).
  apply (walk_distinct (2 ^ k - 1) (inc - 1) (N.of_nat i) (N.of_nat j)); lia.
Qed.
