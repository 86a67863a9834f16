(** C25, C26: LTP session recreation prevention and random numbers. *)
From Coq Require Import NArith ZArith List Bool Lia ZifyBool ZifyN.
From Verif Require Import Base M_LtpIds S_LtpIds L_LtpIds.
Import ListNotations.
Open Scope N_scope.

(** C25: whatever numbers are offered, a preventer for [n] numbers refuses exactly those among the [n] latest accepted. *)
Theorem C25_remembers_exactly_the_latest n calls : 1 <= n < W64 -> remembers (N.to_nat n) (pv_new n) [] calls.
Proof.
  intros H. assert (forall calls p acc, pv_num p = n -> pinv p (rev acc) -> remembers (N.to_nat n) p acc calls) as Go.
  { clear calls. induction calls as [|x r IH]; intros p acc E I; cbn [remembers]; [exact Logic.I|].
    assert (forall (l : list N) y, In y (lastn (N.to_nat n) (rev l)) <-> In y (firstn (N.to_nat n) l)) as FL.
    { intros l y. unfold lastn. rewrite rev_length, skipn_rev, <- in_rev. destruct (Nat.le_gt_cases (length l) (N.to_nat n)).
      - rewrite !firstn_all2 by lia. tauto.
      - replace (length l - (length l - N.to_nat n))%nat with (N.to_nat n) by lia. tauto. }
    destruct (pv_add_spec p (rev acc) x I) as (p' & ok & EA & EN & OK & I'). rewrite E in *.
    exists p', ok, (if ok then x :: acc else acc). split; [exact EA|]. split; [rewrite OK; apply FL|]. split; [reflexivity|].
    assert (pinv p' (rev (if ok then x :: acc else acc))) as I2 by (destruct ok; exact I'). split; [|now apply IH].
    intros y. unfold pv_contains. rewrite set_has_iff, (p_set _ _ I2), EN. apply FL. }
  intros. apply Go; [reflexivity|]. now apply pinv_new.
Qed.
Print Assumptions C25_remembers_exactly_the_latest.
(** Non-vacuity: room for two numbers; 5 is refused twice, forgotten after two others were accepted, then accepted again. *)
Example ex_prev : let step '(p, out) x := match pv_add p x with Some (p', ok) => (p', out ++ [ok]) | None => (p, out) end in
  snd (fold_left step [5; 5; 6; 5; 7; 6; 5; 7] (pv_new 2, [])) = [true; false; true; false; true; false; true; false].
Proof. vm_compute. reflexivity. Qed.
(** N = 0 is outside the class's domain (the first AddSession writes past an empty vector); LtpEngine.cpp:1434-1437 creates a
    preventer only for a non-zero size. *)
Theorem C25_size_zero_undefined_refuted : exists x, pv_add (pv_new 0) x = None.
Proof. exists 1. vm_compute. reflexivity. Qed.
Print Assumptions C25_size_zero_undefined_refuted.

(** C26: numbers produced by one generator, from the initial incremental part, for any outputs [rs] of the random source. *)
Theorem C26_session_numbers_64 idx rs : 1 <= idx < 8 ->
  (forall i n, nth_error (sessions session64 idx inc_new rs) i = Some n -> 0 < n < W64 /\ engine_index n = idx /\ forall e, n <> ping64 e) /\
  (forall i j a b, nth_error (sessions session64 idx inc_new rs) i = Some a -> nth_error (sessions session64 idx inc_new rs) j = Some b ->
    (i < j)%nat -> N.of_nat (j - i) < 2 ^ 24 - 1 -> a <> b).
Proof.
  intros X. assert (forall inc r, 1 <= inc < 2 ^ 24 -> N.land (fst (session64 idx inc r)) (N.ones 24) = inc /\ snd (session64 idx inc r) = if inc =? 2 ^ 24 - 1 then 1 else inc + 1) as G.
  { intros inc r I. destruct (session64_parts idx inc r) as (A & _ & _ & _ & B); [lia|exact I|]. now split. }
  split; [|intros i j a b; apply (sessions_distinct session64 idx 24); [lia|exact G|unfold inc_new; lia]].
  intros i n E. destruct (sessions_inc session64 idx 24 ltac:(lia) G rs inc_new i n) as (r & _ & c & C & -> & _); [unfold inc_new; lia|exact E|].
  destruct (session64_parts idx c r) as (A & B & L & T & _); [lia|exact C|]. split; [split; [|exact L]|split].
  - apply N.neq_0_lt_0. intros Z. rewrite Z, N.land_0_l in A. lia.
  - unfold engine_index. rewrite B, (N.mod_small idx 256) by lia. destruct (N.eqb_spec idx 0); [lia|]. rewrite N.mul_0_r, N.add_0_l. apply N.mod_small. lia.
  - intros e Q. rewrite Q, ping_bit60 in T. discriminate.
Qed.
Print Assumptions C26_session_numbers_64.
Theorem C26_session_numbers_32 idx rs : 1 <= idx < 8 ->
  (forall i n, nth_error (sessions session32 idx inc_new rs) i = Some n -> 0 < n < W32 /\ engine_index n = idx /\ forall e, n <> ping32 e) /\
  (forall i j a b, nth_error (sessions session32 idx inc_new rs) i = Some a -> nth_error (sessions session32 idx inc_new rs) j = Some b ->
    (i < j)%nat -> N.of_nat (j - i) < 2 ^ 21 - 1 -> a <> b).
Proof.
  intros X. assert (forall inc r, 1 <= inc < 2 ^ 21 -> N.land (fst (session32 idx inc r)) (N.ones 21) = inc /\ snd (session32 idx inc r) = if inc =? 2 ^ 21 - 1 then 1 else inc + 1) as G.
  { intros inc r I. destruct (session32_parts idx inc r) as (A & _ & _ & _ & B); [lia|exact I|]. now split. }
  split; [|intros i j a b; apply (sessions_distinct session32 idx 21); [lia|exact G|unfold inc_new; lia]].
  intros i n E. destruct (sessions_inc session32 idx 21 ltac:(lia) G rs inc_new i n) as (r & _ & c & C & -> & _); [unfold inc_new; lia|exact E|].
  destruct (session32_parts idx c r) as (A & B & L & T & _); [lia|exact C|]. split; [split; [|exact L]|split].
  - apply N.neq_0_lt_0. intros Z. rewrite Z, N.land_0_l in A. lia.
  - unfold engine_index. rewrite B, (N.mod_small idx 256) by lia.
    rewrite N.shiftr_div_pow2, N.div_small by (eapply N.lt_trans; [exact L|reflexivity]). cbn [N.eqb]. change (0 mod 256 =? 0) with true. cbv iota.
    rewrite N.mod_0_l by lia. rewrite N.mul_1_r, N.add_0_r. apply N.mod_small. lia.
  - intros e Q. rewrite Q, ping_bit28 in T. discriminate.
Qed.
Print Assumptions C26_session_numbers_32.
(** Non-vacuity: three numbers of engine 3, and where the engine index sits. *)
Example ex_sessions : sessions session64 3 inc_new [0x123456789abcdef0; W64 - 1; 7] = [0x689abcdef0000001; 0x6fffffffff000002; 0x6000000007000003]
  /\ map engine_index (sessions session64 3 inc_new [0x123456789abcdef0; W64 - 1; 7]) = [3; 3; 3] /\ map engine_index (sessions session32 5 inc_new [9; W64 - 1]) = [5; 5].
Proof. vm_compute. auto. Qed.
(** The ping numbers carry the engine index too and are recognised by IsPingSession. *)
Theorem C26_ping_numbers idx : 1 <= idx < 8 -> engine_index (ping64 idx) = idx /\ is_ping (ping64 idx) false = true /\ ping64 idx < W64 /\
  engine_index (ping32 idx) = idx /\ is_ping (ping32 idx) true = true /\ ping32 idx < W32.
Proof.
  intros X. assert (idx = 1 \/ idx = 2 \/ idx = 3 \/ idx = 4 \/ idx = 5 \/ idx = 6 \/ idx = 7) as C by lia.
  repeat (destruct C as [->|C]; [now vm_compute|]). subst. now vm_compute.
Qed.
Print Assumptions C26_ping_numbers.
(** IsPingSession looks at fewer bits than the reserved pattern has, so an ordinary session number can pass for a ping: every
    32-bit one with incremental part 2^21-1 and random low bits 111. *)
Theorem C26_ordinary_session_taken_for_ping_refuted : exists idx inc r inc' r',
  1 <= idx < 8 /\ 1 <= inc < 2 ^ 21 /\ is_ping (fst (session32 idx inc r)) true = true /\ 1 <= inc' < 2 ^ 24 /\ is_ping (fst (session64 idx inc' r')) false = true.
Proof. exists 1, 0x1fffff, 7, 0xffffff, (W64 - 1). vm_compute. repeat split; discriminate. Qed.
Print Assumptions C26_ordinary_session_taken_for_ping_refuted.
(** The exact extent: a 32-bit number is taken for a ping iff the incremental part is all ones and so are the three lowest random bits. *)
Theorem C26_when_taken_for_ping_32 idx inc r : 1 <= idx < 8 -> 1 <= inc < 2 ^ 21 ->
  is_ping (fst (session32 idx inc r)) true = true <-> inc = 2 ^ 21 - 1 /\ r mod 8 = 7.
Proof.
  intros X I. destruct (session32_parts idx inc r) as (A & B & L & T & _); [lia|exact I|].
  assert (N.land 0x00ffffff (fst (session32 idx inc r)) = N.lor (N.shiftl (r mod 8) 21) inc) as E.
  { unfold session32. cbn [fst]. rewrite N.land_comm. change 0x00ffffff with (N.ones 24). change W32 with (2 ^ 32). rewrite mod_low by lia.
    rewrite !N.land_lor_distr_l. change W64 with (2 ^ 64). rewrite mod_low, (shiftl_low idx 29 24), N.lor_0_r by lia.
    rewrite (land_ones_small inc 24) by lia. f_equal.
    apply N.bits_inj. intros i. rewrite !N.land_spec. destruct (N.lt_ge_cases i 21).
    - rewrite (N.shiftl_spec_low (r mod 8)) by lia. rewrite N.mod_pow2_bits_low by lia. rewrite N.shiftl_spec_low by lia. reflexivity.
    - rewrite N.shiftl_spec_high' by lia. change 8 with (2 ^ 3). destruct (N.lt_ge_cases i 24).
      + rewrite N.mod_pow2_bits_low by lia. rewrite N.shiftl_spec_high' by lia. rewrite N.ones_spec_low by lia. rewrite (N.mod_pow2_bits_low r) by lia.
        assert (i = 21 \/ i = 22 \/ i = 23) as [->|[->| ->]] by lia; rewrite !andb_true_r; reflexivity || (cbn; now rewrite andb_true_r).
      + rewrite (N.ones_spec_high 24) by lia. rewrite (N.mod_pow2_bits_high r) by lia. apply andb_false_r. }
  unfold is_ping. rewrite E, N.eqb_eq. assert (r mod 8 < 8) as R by (apply N.mod_lt; lia).
  assert (N.lor (N.shiftl (r mod 8) 21) inc = r mod 8 * 2 ^ 21 + inc) as ->.
  { rewrite N.shiftl_mul_pow2. assert (N.land (r mod 8 * 2 ^ 21) inc = 0) as D.
    { rewrite <- N.shiftl_mul_pow2. apply N.bits_inj. intros i. rewrite N.land_spec, N.bits_0. destruct (N.lt_ge_cases i 21).
      - now rewrite N.shiftl_spec_low by lia.
      - rewrite <- (N.mod_small inc (2 ^ 21)) by lia. rewrite (N.mod_pow2_bits_high inc) by lia. apply andb_false_r. }
    rewrite <- N.lxor_lor by exact D. symmetry. apply N.add_nocarry_lxor. exact D. }
  lia.
Qed.
Print Assumptions C26_when_taken_for_ping_32.
(** For every 64-bit (32-bit) number, IsPingSession holds exactly when the low 56 (24) bits are all ones. *)
Theorem C26_is_ping_exact n : (is_ping n false = true <-> n mod 2 ^ 56 = 2 ^ 56 - 1) /\ (is_ping n true = true <-> n mod 2 ^ 24 = 2 ^ 24 - 1).
Proof.
  unfold is_ping. change 0xffffffffffffff with (N.ones 56). change 0xffffff with (N.ones 24).
  rewrite !(N.land_comm (N.ones _)), !N.land_ones, !N.eqb_eq. split; reflexivity.
Qed.
Print Assumptions C26_is_ping_exact.
Example ex_is_ping : is_ping 0x21ffffffffffffff false = true /\ is_ping 0x20ffffffffffffff false = true /\ is_ping 0x20fffffffffffffe false = false.
Proof. vm_compute. auto. Qed.
(** Serial numbers: never zero, 1 modulo 2^16, with the top bit clear, so at least 2^63 (2^31) further ones fit. *)
Theorem C26_serial_numbers r : 0 < serial64 r < 2 ^ 63 /\ serial64 r mod 2 ^ 16 = 1 /\ 0 < serial32 r < 2 ^ 31 /\ serial32 r mod 2 ^ 16 = 1.
Proof.
  assert (forall x mask top, N.land mask (N.ones 16) = 0 -> N.shiftr mask top = 0 -> 16 <= top ->
    N.lor (N.land x mask) 1 mod 2 ^ 16 = 1 /\ 0 < N.lor (N.land x mask) 1 < 2 ^ top) as G.
  { intros x mask top M1 M2 T. assert (N.lor (N.land x mask) 1 mod 2 ^ 16 = 1) as E.
    { rewrite <- N.land_ones, N.land_lor_distr_l, <- N.land_assoc, M1, N.land_0_r. reflexivity. }
    split; [exact E|]. split; [destruct (N.lor (N.land x mask) 1); [discriminate|lia]|].
    assert (N.shiftr (N.lor (N.land x mask) 1) top = 0) as S.
    { rewrite N.shiftr_lor, N.shiftr_land, M2, N.land_0_r, N.shiftr_div_pow2, N.div_small; [reflexivity|]. eapply N.lt_le_trans; [|apply N.pow_le_mono_r with (b := 16); lia]. reflexivity. }
    rewrite N.shiftr_div_pow2 in S. apply N.div_small_iff in S; [exact S|]. now apply N.pow_nonzero. }
  destruct (G (N.shiftl r 16 mod W64) 0x7fffffffffff0000 63) as (A & B); [reflexivity|reflexivity|lia|].
  destruct (G (N.shiftl r 16 mod W64) 0x7fff0000 31) as (C & D); [reflexivity|reflexivity|lia|].
  unfold serial64, serial32. rewrite (N.mod_small (N.lor (N.land (N.shiftl r 16 mod W64) 0x7fff0000) 1) W32) by (unfold W32; lia). auto.
Qed.
Print Assumptions C26_serial_numbers.
Example ex_serial : serial64 (W64 - 1) = 0x7fffffffffff0001 /\ serial64 0 = 1 /\ serial32 0x12345 = 0x23450001.
Proof. vm_compute. auto. Qed.
