(** Property C31: the token rate limiter. Vocabulary: S_TokenRate.v. *)
From Coq Require Import ZArith List Bool Lia ZifyBool.
From Verif Require Import M_TokenRate S_TokenRate.
Import ListNotations.
Open Scope Z_scope.

Lemma s64_some x y : s64 x = Some y -> y = x /\ - I64 <= x < I64.
Proof. unfold s64. destruct (_ && _) eqn:E; [|discriminate]. intros [= <-]. lia. Qed.
Lemma s64_ok x : - I64 <= x < I64 -> s64 x = Some x.
Proof. intros. unfold s64. replace (_ && _) with true by lia. reflexivity. Qed.
Lemma conv_small x : 0 <= x < I64 -> u64_to_s64 x = x.
Proof. intros. unfold u64_to_s64. rewrite Z.mod_small by lia. replace (x <? I64) with true by lia. reflexivity. Qed.

Lemma run_app ops1 : forall st ops2 st' bs, rl_run st (ops1 ++ ops2) = Some (st', bs) ->
  exists st1 bs1 bs2, rl_run st ops1 = Some (st1, bs1) /\ rl_run st1 ops2 = Some (st', bs2) /\ bs = bs1 ++ bs2.
Proof.
  induction ops1 as [|[d|n] ops1 IH]; intros st ops2 st' bs E; simpl in *.
  - exists st, [], bs. auto.
  - destruct (rl_add st d) as [st1|]; [|discriminate]. eauto.
  - destruct (rl_take st n) as [[st1 b]|]; [|discriminate]. destruct (rl_run st1 (ops1 ++ ops2)) as [[st2 bs']|] eqn:R; [|discriminate].
    injection E as -> <-. destruct (IH _ _ _ _ R) as (x & b1 & b2 & -> & R2 & ->). exists x, (b :: b1), b2. auto.
Qed.
Lemma run_consts : forall ops st st' bs, rl_run st ops = Some (st', bs) -> rl_remain st <= rl_limit st -> Forall (op_ok (rl_interval st)) ops -> 0 <= rl_rate st -> 0 <= rl_interval st ->
  rl_rate st' = rl_rate st /\ rl_interval st' = rl_interval st /\ rl_limit st' = rl_limit st /\ rl_remain st' <= rl_limit st.
Proof.
  induction ops as [|[d|n] ops IH]; intros st st' bs E L F R I; simpl in E.
  - injection E as <- <-. auto.
  - destruct (rl_add st d) as [st1|] eqn:A; [|discriminate]. unfold rl_add in A. destruct (s64 _) as [x|]; [|discriminate]. destruct (s64 (_ + x)) as [r|]; [|discriminate]. injection A as <-.
    apply Forall_inv_tail in F. apply IH in E; simpl in *; auto. destruct (_ <? _) eqn:Q; simpl; lia.
  - destruct (rl_take st n) as [[st1 b]|] eqn:A; [|discriminate]. destruct (rl_run st1 ops) as [[st2 bs']|] eqn:R1; [|discriminate]. injection E as -> <-.
    pose proof (Forall_inv F) as [F1 F2]. apply Forall_inv_tail in F. unfold rl_take in A. destruct (_ <? 0) eqn:Q.
    + injection A as <- <-. eauto.
    + rewrite conv_small in A by (split; [apply Z.mul_nonneg_nonneg; lia|lia]). destruct (s64 _) as [r|] eqn:S; [|discriminate]. injection A as <- <-.
      apply s64_some in S. apply IH in R1; simpl in *; auto. nia.
Qed.

(** The accounting: remaining budget never exceeds what is left of the start plus what time brought. *)
Lemma run_account : forall ops st st' bs, rl_run st ops = Some (st', bs) -> Forall (op_ok (rl_interval st)) ops -> 0 <= rl_rate st -> 0 <= rl_interval st ->
  rl_remain st' <= rl_remain st + rl_rate st * elapsed ops - rl_interval st * granted ops bs.
Proof.
  induction ops as [|[d|n] ops IH]; intros st st' bs E F R I; simpl in E; cbn [elapsed granted].
  - injection E as <- <-. lia.
  - destruct (rl_add st d) as [st1|] eqn:A; [|discriminate]. unfold rl_add in A. destruct (s64 _) as [x|] eqn:S; [|discriminate]. destruct (s64 (_ + x)) as [r|] eqn:S2; [|discriminate]. injection A as <-.
    apply s64_some in S. apply s64_some in S2. apply Forall_inv_tail in F. apply IH in E; simpl in *; auto. destruct (_ <? _) eqn:Q in E; lia.
  - destruct (rl_take st n) as [[st1 b]|] eqn:A; [|discriminate]. destruct (rl_run st1 ops) as [[st2 bs']|] eqn:R1; [|discriminate]. injection E as -> <-.
    pose proof (Forall_inv F) as [F1 F2]. apply Forall_inv_tail in F. unfold rl_take in A. destruct (_ <? 0) eqn:Q.
    + injection A as <- <-. apply IH in R1; auto.
    + rewrite conv_small in A by (split; [apply Z.mul_nonneg_nonneg; lia|lia]). destruct (s64 _) as [r|] eqn:S; [|discriminate]. injection A as <- <-.
      apply s64_some in S. apply IH in R1; simpl in *; auto. lia.
Qed.

(** C31: over any stretch of any history, the tokens granted without the last grant never exceed the bucket plus what
    the rate brings in the time elapsed. (Exact units: tokens x interval.) *)
Theorem C31_never_over_budget : forall tokens itv window st0 before during n after st bs,
  0 <= tokens -> 0 < itv -> rl_set tokens itv window = Some st0 ->
  Forall (op_ok itv) (before ++ during ++ Take n :: after) ->
  rl_run st0 (before ++ during ++ [Take n]) = Some (st, bs) ->
  exists bs1 bs2 b, bs = bs1 ++ bs2 ++ [b] /\
    (b = true -> itv * granted during bs2 <= tokens * window + tokens * elapsed during).
Proof.
  intros tokens itv window st0 before during n after st bs Ht Hi E F R.
  unfold rl_set in E. destruct (s64 (tokens * window)) as [l|] eqn:S; [|discriminate]. injection E as <-. apply s64_some in S. destruct S as [-> _].
  apply Forall_app in F. destruct F as [F1 F2]. apply Forall_app in F2. destruct F2 as [F2 F3].
  destruct (run_app _ _ _ _ _ R) as (st1 & bs1 & bs' & R1 & R2 & ->). destruct (run_app _ _ _ _ _ R2) as (st2 & bs2 & bs3 & R3 & R4 & ->).
  destruct (run_consts _ _ _ _ R1) as (C1 & C2 & C3 & C4); simpl in *; auto; try lia.
  assert (rl_interval st1 = itv) as C2' by exact C2. rewrite <- C2' in F2.
  pose proof (run_account _ _ _ _ R3 F2 ltac:(lia) ltac:(lia)) as A. unfold rl_take in R4. destruct (rl_remain st2 <? 0) eqn:Q.
  - injection R4 as <- <-. exists bs1, bs2, false. split; [reflexivity|]. discriminate.
  - destruct (s64 _) as [r|]; [|discriminate]. injection R4 as <- <-. exists bs1, bs2, true. split; [reflexivity|]. intros _. rewrite C1, C2 in A. lia.
Qed.
Print Assumptions C31_never_over_budget.
Example C31_never_over_budget_ex : exists st0 st bs, rl_set 1000 1000000 20000 = Some st0 /\
  rl_run st0 ([Take 15] ++ [Wait 5000; Take 100; Take 3; Wait 95000; Take 4] ++ [Take 7]) = Some (st, bs) /\ bs = [true; true; false; true; true] /\ rl_remain st = -6000000.
Proof. do 3 eexists. split; [reflexivity|]. split; [vm_compute; reflexivity|]. split; reflexivity. Qed.

(** C31: CanTakeTokens says exactly whether TakeTokens grants; a refused request changes nothing. *)
Theorem C31_can_take_agrees : forall st n st' b, rl_take st n = Some (st', b) -> b = rl_can st /\ (b = false -> st' = st).
Proof.
  intros st n st' b. unfold rl_take, rl_can. destruct (_ <? 0) eqn:Q.
  - intros [= <- <-]. split; [lia|reflexivity].
  - destruct (s64 _); [|discriminate]. intros [= _ <-]. split; [lia|discriminate].
Qed.
Print Assumptions C31_can_take_agrees.

(** C31: no starvation: from any state, once the rate has brought back the overdraft, a request is granted; and a bucket
    left alone long enough is full. *)
Theorem C31_refills : forall st d st', rl_remain st <= rl_limit st -> 0 <= rl_limit st -> rl_add st d = Some st' ->
  (- rl_remain st <= rl_rate st * d -> rl_can st' = true) /\
  (rl_limit st - rl_remain st <= rl_rate st * d -> rl_full st' = true).
Proof.
  intros st d st' L L0 A. unfold rl_add in A. destruct (s64 _) as [x|] eqn:S; [|discriminate]. destruct (s64 (_ + x)) as [r|] eqn:S2; [|discriminate].
  injection A as <-. apply s64_some in S. apply s64_some in S2. unfold rl_can, rl_full. simpl. destruct (_ <? _) eqn:Q; lia.
Qed.
Print Assumptions C31_refills.
Example C31_refills_ex : exists st', rl_add (mkRl 1000 1000000 20000000 (-3000000)) 3000 = Some st' /\ rl_can st' = true /\ rl_full st' = false.
Proof. eexists. split; [vm_compute; reflexivity|]. split; reflexivity. Qed.

(** C31: no arithmetic overflow occurs as long as each single wait brings less than 2^62 units, the bucket holds at most
    2^62 and each request is at most 2^62 units. *)
Theorem C31_no_overflow : forall ops st, let B := 4611686018427387904 in
  0 <= rl_rate st -> 0 <= rl_interval st -> - B <= rl_remain st <= rl_limit st -> 0 <= rl_limit st < B ->
  Forall (fun o => match o with Wait d => 0 <= d /\ rl_rate st * d <= B | Take n => 0 <= n /\ n * rl_interval st <= B end) ops ->
  rl_run st ops <> None.
Proof.
  cbv zeta. induction ops as [|[d|n] ops IH]; intros st R I H1 H2 F; simpl; [discriminate| |]; pose proof (Forall_inv F) as [F1 F2]; apply Forall_inv_tail in F.
  - unfold rl_add. rewrite s64_ok by (unfold I64; nia). rewrite s64_ok by (unfold I64; nia). apply IH; simpl; auto. destruct (_ <? _) eqn:Q; nia.
  - unfold rl_take. destruct (_ <? 0) eqn:Q.
    + destruct (rl_run st ops) as [[? ?]|] eqn:E; [discriminate|]. exfalso. revert E. apply IH; auto.
    + rewrite conv_small by (unfold I64; nia). rewrite s64_ok by (unfold I64; nia).
      destruct (rl_run _ ops) as [[? ?]|] eqn:E; [discriminate|]. exfalso. revert E. apply IH; simpl; auto. nia.
Qed.
Print Assumptions C31_no_overflow.
Example C31_no_overflow_ex : exists st, rl_set 125000000 1000000 100000 = Some st /\ 0 <= rl_limit st < 4611686018427387904 /\
  Forall (fun o => match o with Wait d => 0 <= d /\ rl_rate st * d <= 4611686018427387904 | Take n => 0 <= n /\ n * rl_interval st <= 4611686018427387904 end) [Take 1000000; Wait 36000000000].
Proof. eexists. split; [vm_compute; reflexivity|]. simpl. split; [lia|]. repeat constructor; lia. Qed.

(** C31: without that limit it fails. The refresh timer of LtpEngine.cpp:1580-1598 and UdpBundleSource.cpp:405-453 is not
    restarted while the bucket is full, and the next AddTime gets the whole idle time: at 8 Gbit/s (10^9 bytes per
    second) three idle hours overflow int64_t. *)
Theorem C31_idle_time_overflows_refuted : exists rate window idle st,
  rate = 1000000000 /\ idle = 3 * 3600 * 1000000 /\ rl_set rate 1000000 window = Some st /\ rl_full st = true /\ rl_add st idle = None.
Proof. exists 1000000000, 100000, (3 * 3600 * 1000000). eexists. split; [reflexivity|]. split; [reflexivity|]. split; [vm_compute; reflexivity|]. split; vm_compute; reflexivity. Qed.
Print Assumptions C31_idle_time_overflows_refuted.

(** C31: GetRemainingTokens is the remaining budget in whole tokens, rounded towards zero. *)
Theorem C31_remaining_tokens : forall st n, 0 < rl_interval st -> rl_tokens st = Some n ->
  (0 <= rl_remain st -> n * rl_interval st <= rl_remain st < (n + 1) * rl_interval st) /\
  (rl_remain st <= 0 -> (n - 1) * rl_interval st < rl_remain st <= n * rl_interval st).
Proof.
  intros st n I E. unfold rl_tokens in E. replace (_ =? 0) with false in E by lia. injection E as <-.
  pose proof (Z.quot_rem' (rl_remain st) (rl_interval st)) as Q. split; intros H.
  - pose proof (Z.rem_bound_pos (rl_remain st) (rl_interval st) H I). lia.
  - assert (rl_remain st = - (- rl_remain st)) as N by lia. rewrite N in *. rewrite Z.rem_opp_l, Z.quot_opp_l in * by lia.
    pose proof (Z.rem_bound_pos (- rl_remain st) (rl_interval st) ltac:(lia) I). lia.
Qed.
Print Assumptions C31_remaining_tokens.
Example C31_remaining_tokens_ex : rl_tokens (mkRl 5 10 100 37) = Some 3 /\ rl_tokens (mkRl 5 10 100 (-37)) = Some (-3).
Proof. split; reflexivity. Qed.
