(** Lemmas about the LTP sending session. *)
From Coq Require Import NArith ZArith List Bool Lia ZifyBool ZifyN.
From Verif Require Import Base M_FragmentSet S_FragmentSet L_FragmentSet M_LtpFragmentSet S_LtpFragmentSet L_LtpFragmentSet
  M_LtpReceiver M_LtpSender S_LtpSession.
Import ListNotations.
Open Scope N_scope.

(** What the first pass depends on. *)
Definition same_pass (a b : tx) : Prop :=
  tx_block a = tx_block b /\ tx_red a = tx_red b /\ tx_idx a = tx_idx b /\ tx_cnt a = tx_cnt b.
Lemma same_pass_refl a : same_pass a a. Proof. repeat split. Qed.
Lemma same_pass_trans a b c : same_pass a b -> same_pass b c -> same_pass a c.
Proof. unfold same_pass. intuition congruence. Qed.

Lemma resend_range_stop fuel c rsn e lf idx st : e < idx -> resend_range fuel c rsn e lf idx st = Some st.
Proof. intros H. destruct fuel; cbn [resend_range]; replace (idx <=? e) with false by lia; reflexivity. Qed.
Lemma resend_range_big c rsn e lf : U64MAX <= e -> forall fuel idx st, idx <= e -> resend_range fuel c rsn e lf idx st = None.
Proof.
  intros He. induction fuel as [|fuel IH]; intros idx st Hi; cbn [resend_range]; replace (idx <=? e) with true by lia; [reflexivity|].
  apply IH. match goal with |- add64 ?a ?b <= _ => pose proof (N.mod_lt (a + b) W64 ltac:(discriminate)) as H; change (add64 a b < W64) in H; generalize dependent (add64 a b) end.
  intros x Hx. unfold U64MAX, W64 in *. lia.
Qed.

(** The state of csn after a range: at most one more, and only for the last range of a report. *)
Lemma resend_range_frame c rsn e lf : forall fuel idx st st', resend_range fuel c rsn e lf idx st = Some st' ->
  same_pass st' st /\ tx_pending st' = tx_pending st /\
  (tx_csn st + 1 < W64 -> tx_csn st <= tx_csn st' /\ tx_csn st' <= tx_csn st + (if lf then 1 else 0)).
Proof.
  induction fuel as [|fuel IH]; intros idx st st' E.
  - cbn [resend_range] in E. destruct (idx <=? e); [discriminate|]. injection E as <-. repeat split; lia.
  - destruct (N.le_gt_cases U64MAX e) as [He|He].
    + destruct (N.le_gt_cases idx e) as [Hi|Hi].
      * rewrite resend_range_big in E by assumption. discriminate.
      * rewrite resend_range_stop in E by assumption. injection E as <-. repeat split; lia.
    + cbn [resend_range] in E. destruct (idx <=? e) eqn:Hi; [|injection E as <-; repeat split; lia].
      set (bytes := N.min _ _) in *. set (lastpkt := lf && _) in *. destruct lastpkt eqn:El.
      * apply andb_prop in El. destruct El as (-> & El). apply N.eqb_eq in El.
        rewrite El in E. rewrite resend_range_stop in E by (unfold add64, U64MAX, W64 in *; rewrite N.mod_small; lia).
        injection E as <-. cbn. repeat split; unfold add64; intros; rewrite N.mod_small by lia; lia.
      * apply IH in E. destruct E as (A & B & C). split; [|split].
        -- eapply same_pass_trans; [exact A|]. repeat split.
        -- rewrite B. reflexivity.
        -- exact C.
Qed.

Lemma resend_report_frame c rsn : forall fs st st', resend_report c rsn fs st = Some st' ->
  same_pass st' st /\ tx_pending st' = tx_pending st /\
  (tx_csn st + 1 < W64 -> tx_csn st <= tx_csn st' /\ tx_csn st' <= tx_csn st + 1).
Proof.
  induction fs as [|[b e] fs IH]; intros st st' E; cbn [resend_report] in E.
  - injection E as <-. repeat split; lia.
  - destruct (resend_range _ _ _ _ _ _ _) as [s1|] eqn:E1; [|discriminate]. apply resend_range_frame in E1. destruct E1 as (A & B & C).
    destruct fs as [|x fs].
    + cbn in E. injection E as <-. split; auto.
    + apply IH in E. destruct E as (A' & B' & C'). split; [eapply same_pass_trans; eauto|]. split; [congruence|]. lia.
Qed.
Lemma resend_reports_frame c : forall l st st', resend_reports c l st = Some st' ->
  same_pass st' st /\ tx_pending st' = tx_pending st /\
  (tx_csn st + N.of_nat (length l) < W64 -> tx_csn st <= tx_csn st' /\ tx_csn st' <= tx_csn st + N.of_nat (length l)).
Proof.
  induction l as [|[rsn fs] l IH]; intros st st' E; cbn [resend_reports] in E.
  - injection E as <-. repeat split; lia.
  - destruct (resend_report _ _ _ _) as [s1|] eqn:E1; [|discriminate]. apply resend_report_frame in E1. destruct E1 as (A & B & C).
    apply IH in E. destruct E as (A' & B' & C'). split; [eapply same_pass_trans; eauto|]. split; [congruence|]. cbn [length]. lia.
Qed.
Lemma reduce_length lst : forall p s, (length (reduce_loop lst p s) <= length p)%nat.
Proof.
  induction p as [|[b r] p IH]; intros s; cbn; [lia|]. specialize (IH (fst (insert_fragment lst s b))).
  destruct (bounds_minus lst b s); cbn; lia.
Qed.
Lemma ds_emplace_length k v m : (length (ds_emplace k v m) <= S (length m))%nat.
Proof. induction m as [|x m IH]; cbn; [lia|]. destruct (lex_lt _ _); cbn; [lia|]. destruct (lex_lt _ _); cbn; lia. Qed.

Lemma tx_notify_pass n st : same_pass (tx_notify n st) st /\ tx_pending (tx_notify n st) = tx_pending st /\ tx_csn (tx_notify n st) = tx_csn st.
Proof. unfold tx_notify. destruct (tx_noted st); repeat split. Qed.

(** One more checkpoint serial number or one more pending report per event, at most. *)
Definition csn_ok (csn0 k : N) (st : tx) : Prop :=
  csn0 <= tx_csn st /\ tx_csn st + N.of_nat (length (tx_pending st)) <= csn0 + k.

Lemma tx_resend_for_frame c r st st' csn0 k : tx_resend_for c r st = Some st' ->
  same_pass st' st /\ (csn0 + k + 1 < W64 -> csn_ok csn0 k st -> csn_ok csn0 (k + 1) st' /\ tx_csn st <= tx_csn st').
Proof.
  unfold tx_resend_for, csn_ok. set (bounds := (rs_lower (rp_rep r), _)). set (need := bounds_minus _ _ _). destruct (negb (sc_defer c)).
  { intros E. apply resend_report_frame in E. destruct E as (A & B & C). split; auto. rewrite B. lia. }
  destruct (tx_pending st) as [|x p] eqn:Ep.
  - destruct need; intros E; injection E as <-; (split; [repeat split|]); cbn [tx_csn tx_pending tup_pending length]; try rewrite Ep; cbn [length]; lia.
  - pose proof (ds_emplace_length bounds (rp_rsn r) (x :: p)) as HL.
    set (em := ds_emplace bounds (rp_rsn r) (x :: p)) in *. clearbody em.
    destruct (contains_entirely _ _ _); intros E; injection E as <-; (split; [repeat split|]); cbn [tx_csn tx_pending tup_pending length]; cbn [length] in HL; lia.
Qed.
Lemma tx_report_frame c r st st' csn0 k : tx_report c r st = Some st' ->
  same_pass st' st /\ (csn0 + k + 1 < W64 -> csn_ok csn0 k st -> csn_ok csn0 (k + 1) st' /\ tx_csn st <= tx_csn st').
Proof.
  unfold tx_report. cbn [tx_rsns tup_queues]. destruct (existsb _ _).
  { intros E. injection E as <-. split; [repeat split|]. unfold csn_ok. cbn. lia. }
  destruct (add_report _ _ _) as [acked new]. destruct (negb new).
  { intros E. injection E as <-. split; [repeat split|]. unfold csn_ok. cbn. lia. }
  match goal with |- tx_resend_for c r ?x = _ -> _ => set (s1 := x) end. intros E.
  assert (A : same_pass s1 st /\ tx_pending s1 = tx_pending st /\ tx_csn s1 = tx_csn st).
  { unfold s1. destruct (_ && _); [|repeat split]. match goal with |- context [tx_notify ?n ?x] => destruct (tx_notify_pass n x) as (A & B & C) end.
    split; [eapply same_pass_trans; [exact A|]; repeat split|]. rewrite B, C. split; reflexivity. }
  destruct A as (A & B & C). apply (tx_resend_for_frame _ _ _ _ csn0 k) in E. destruct E as (E1 & E2).
  split; [eapply same_pass_trans; eauto|]. intros Hk Hc. rewrite <- C. apply E2; auto. unfold csn_ok in *. now rewrite B, C.
Qed.
Lemma tx_critical_frame st st' o : tx_critical st = Some (st', o) ->
  same_pass st' st /\ tx_pending st' = tx_pending st /\ tx_csn st' = tx_csn st.
Proof.
  unfold tx_critical, tx_resend_next. destruct (tx_ras st).
  - destruct (tx_allred st); [intros E; injection E as <- <-; repeat split|]. destruct (tx_resend st); [intros E; injection E as <- <-; repeat split|].
    destruct (block_bytes _ _ _); [|discriminate]. intros E; injection E as <- <-; repeat split.
  - intros E; injection E as <- <-; repeat split.
Qed.
Lemma tx_ck_timer_frame c csn st : same_pass (tx_ck_timer c csn st) st /\ tx_pending (tx_ck_timer c csn st) = tx_pending st /\ tx_csn (tx_ck_timer c csn st) = tx_csn st.
Proof.
  unfold tx_ck_timer. destruct (find _ _); [|repeat split]. destruct (_ <=? _).
  - destruct (_ && _); repeat split.
  - match goal with |- context [tx_notify ?n ?x] => destruct (tx_notify_pass n x) as (A & B & C) end.
    split; [eapply same_pass_trans; [exact A|]; repeat split|]. rewrite B, C. split; reflexivity.
Qed.
Lemma tx_delay_timer_frame c st st' csn0 k : tx_delay_timer c st = Some st' ->
  same_pass st' st /\ (csn0 + k + 1 < W64 -> csn_ok csn0 k st -> csn_ok csn0 (k + 1) st' /\ tx_csn st <= tx_csn st').
Proof.
  unfold tx_delay_timer. destruct (resend_reports _ _ _) as [s1|] eqn:E1; [|discriminate]. intros E. injection E as <-.
  apply resend_reports_frame in E1. destruct E1 as (A & B & C). pose proof (reduce_length (sc_last c) (tx_pending st) (tx_acked st)) as R.
  unfold reduce_reports in *. split; [eapply same_pass_trans; [|exact A]; repeat split|]. unfold csn_ok. cbn [tx_csn tx_pending tup_pending length]. lia.
Qed.

(** Everything that is not the first pass. *)
Lemma tx_other_frame c e st st' o csn0 k : e <> SvFirst -> tx_step c e st = Some (st', o) ->
  same_pass st' st /\ (csn0 + k + 1 < W64 -> csn_ok csn0 k st -> csn_ok csn0 (k + 1) st' /\ tx_csn st <= tx_csn st').
Proof.
  intros He E. destruct e as [| |r|csn|]; cbn [tx_step] in E; [congruence|..].
  - apply tx_critical_frame in E. destruct E as (A & B & C). split; auto. unfold csn_ok. rewrite B, C. lia.
  - destruct (tx_report c r st) as [s1|] eqn:E1; [|discriminate]. injection E as <- <-. now apply (tx_report_frame _ _ _ _ csn0 k) in E1.
  - injection E as <- <-. destruct (tx_ck_timer_frame c csn st) as (A & B & C). split; auto. unfold csn_ok. rewrite B, C. lia.
  - destruct (tx_delay_timer c st) as [s1|] eqn:E1; [|discriminate]. injection E as <- <-. now apply (tx_delay_timer_frame _ _ _ csn0 k) in E1.
Qed.

(** What one first pass step does. *)
Definition next_len (c : sconf) (red size off : N) : N := N.min (if off <? red then red - off else size - off) (sc_mtu c).

Lemma slice_len l off n : off + n <= size_of l -> N.of_nat (length (slice l off n)) = n.
Proof. intros H. unfold slice, size_of in *. rewrite firstn_length, skipn_length. lia. Qed.
Lemma block_bytes_slice st off n : off + n <= tx_size st -> block_bytes st off n = Some (slice (tx_block st) off n).
Proof. intros H. unfold block_bytes. replace (_ <=? _) with true by lia. reflexivity. Qed.

Lemma first_pass_end_frame st : same_pass (first_pass_end st) st /\ tx_csn (first_pass_end st) = tx_csn st /\
  tx_pending (first_pass_end st) = tx_pending st /\ tx_timers (first_pass_end st) = tx_timers st /\ tx_acked (first_pass_end st) = tx_acked st /\
  tx_resend (first_pass_end st) = tx_resend st /\ tx_allred (first_pass_end st) = tx_allred st.
Proof.
  unfold first_pass_end, tx_notify. destruct (tx_idx st =? tx_size st); [|repeat split]. cbn [tx_red tup_initial tx_noted].
  destruct (tx_red st =? 0); [destruct (tx_noted st); repeat split|]. destruct (acked_all_red _); [destruct (tx_noted st); repeat split|repeat split].
Qed.

Lemma tx_first_done c st : tx_size st <= tx_idx st -> tx_first c st = Some (st, None).
Proof. intros H. unfold tx_first. replace (_ <? _) with false by lia. reflexivity. Qed.

Definition nth_due (c : sconf) (cnt : N) : bool := negb (sc_nth c =? 0) && (sub64 cnt 1 =? 0).
Lemma tx_first_step block red c st : tx_block st = block -> tx_red st = red -> 1 <= sc_mtu c -> red <= size_of block -> size_of block < W64 ->
  tx_idx st < size_of block ->
  exists st' sg, tx_first c st = Some (st', Some (PData sg)) /\
    segment_of block red sg /\ sg_off sg = tx_idx st /\ sg_len sg = next_len c red (size_of block) (tx_idx st) /\
    tx_block st' = block /\ tx_red st' = red /\ tx_idx st' = tx_idx st + sg_len sg /\ tx_pending st' = tx_pending st /\
    tx_acked st' = tx_acked st /\ tx_resend st' = tx_resend st /\ tx_allred st' = tx_allred st /\
    (is_red sg -> tx_cnt st' = (if sc_nth c =? 0 then tx_cnt st else if sub64 (tx_cnt st) 1 =? 0 then sc_nth c else sub64 (tx_cnt st) 1) /\
      (is_checkpoint sg <-> nth_due c (tx_cnt st) = true \/ ends_red_part sg)) /\
    ((sg_ckpt sg = None /\ tx_csn st' = tx_csn st /\ tx_timers st' = tx_timers st) \/
     (sg_ckpt sg = Some (tx_csn st, 0) /\ tx_csn st' = add64 (tx_csn st) 1 /\
      tx_timers st' = start_timer (mkRfrag (sg_off sg) (sg_len sg) (tx_csn st) 0 (sg_flags sg) 1) (tx_timers st))).
Proof.
  intros HB HR Hm Hr HW Hi. assert (Hsz : tx_size st = size_of block) by (unfold tx_size, size_of; now rewrite HB).
  unfold tx_first, next_len. replace (tx_idx st <? tx_size st) with true by lia. rewrite HR.
  destruct (tx_idx st <? red) eqn:Ei.
  - rewrite sub64_small by lia. set (bytes := N.min (red - tx_idx st) (sc_mtu c)).
    assert (Hb : 1 <= bytes /\ tx_idx st + bytes <= red) by (unfold bytes; lia). destruct Hb as (Hb1 & Hb2).
    rewrite (add64_small bytes) by lia. rewrite block_bytes_slice by lia. rewrite HB.
    eexists _, _. split; [reflexivity|].
    match goal with |- context [first_pass_end ?x] => destruct (first_pass_end_frame x) as ((F1 & F2 & F3 & F4) & F5 & F6 & F7 & F8 & F9 & F10) end.
    rewrite F1, F2, F3, F4, F5, F6, F7, F8, F9, F10. clear F1 F2 F3 F4 F5 F6 F7 F8 F9 F10.
    assert (Hl : N.of_nat (length (slice block (tx_idx st) bytes)) = bytes) by (apply slice_len; lia).
    unfold segment_of, is_red, ends_red_part, ends_block, is_checkpoint, sg_len.
    cbn [sg_flags sg_off sg_data sg_ckpt tup_pass tx_block tx_red tx_idx tx_csn tx_cnt tx_timers tx_pending tx_acked tx_resend tx_allred]. rewrite Hl.
    rewrite Hsz. rewrite (add64_small (tx_idx st)) by lia. clear Hl.
    unfold nth_due. set (p := negb (sc_nth c =? 0)) in *.
    assert (Hcnt : (if sc_nth c =? 0 then tx_cnt st else sub64 (tx_cnt st) 1) = if p then sub64 (tx_cnt st) 1 else tx_cnt st) by (unfold p; now destruct (sc_nth c =? 0)).
    rewrite Hcnt. clear Hcnt.
    assert (Hq : p && ((if p then sub64 (tx_cnt st) 1 else tx_cnt st) =? 0) = p && (sub64 (tx_cnt st) 1 =? 0)) by (now destruct p). rewrite Hq. clear Hq.
    set (due := p && (sub64 (tx_cnt st) 1 =? 0)).
    assert (Hc2 : (if due then sc_nth c else if p then sub64 (tx_cnt st) 1 else tx_cnt st) =
      (if sc_nth c =? 0 then tx_cnt st else if sub64 (tx_cnt st) 1 =? 0 then sc_nth c else sub64 (tx_cnt st) 1)).
    { unfold due, p. destruct (sc_nth c =? 0); cbn [negb andb]; [reflexivity|]. destruct (sub64 (tx_cnt st) 1 =? 0); reflexivity. }
    rewrite Hc2. clear Hc2. clearbody due p. clear p.
    assert (Hflag : exists eorp, eorp = (bytes + tx_idx st =? red) /\ (eorp = true <-> tx_idx st + bytes = red)) by (eexists; split; [reflexivity|lia]).
    destruct Hflag as (eorp & <- & He). 
    assert (Heob : (red =? size_of block) = true <-> red = size_of block) by lia.
    clearbody bytes. clear Hsz.
    split.
    { split; [lia|]. split; [lia|]. split; [reflexivity|]. left. destruct due, eorp, (red =? size_of block); cbn;
       (repeat split; intros; try lia; try discriminate; eauto; try (match goal with H : exists _, _ |- _ => destruct H; discriminate end)). }
    split; [reflexivity|]. split; [reflexivity|]. repeat (split; [first [reflexivity|exact HB|exact HR]|]).
    split.
    + intros _. split; [reflexivity|]. destruct due, eorp, (red =? size_of block); cbn; intuition (try lia; try discriminate).
    + destruct due, eorp; cbn; auto.
  - rewrite sub64_small by lia. rewrite Hsz. set (bytes := N.min (size_of block - tx_idx st) (sc_mtu c)).
    assert (Hb : 1 <= bytes /\ tx_idx st + bytes <= size_of block) by (unfold bytes; lia). destruct Hb as (Hb1 & Hb2).
    rewrite (add64_small bytes) by lia. rewrite block_bytes_slice by lia. rewrite HB.
    eexists _, _. split; [reflexivity|].
    match goal with |- context [first_pass_end ?x] => destruct (first_pass_end_frame x) as ((F1 & F2 & F3 & F4) & F5 & F6 & F7 & F8 & F9 & F10) end.
    rewrite F1, F2, F3, F4, F5, F6, F7, F8, F9, F10. clear F1 F2 F3 F4 F5 F6 F7 F8 F9 F10.
    assert (Hl : N.of_nat (length (slice block (tx_idx st) bytes)) = bytes) by (apply slice_len; lia).
    unfold segment_of, is_red, ends_red_part, ends_block, is_checkpoint, sg_len.
    cbn [sg_flags sg_off sg_data sg_ckpt tup_pass tx_block tx_red tx_idx tx_csn tx_cnt tx_timers tx_pending tx_acked tx_resend tx_allred]. rewrite Hl.
    rewrite (add64_small (tx_idx st)) by lia. clear Hl.
    assert (He : (bytes + tx_idx st =? size_of block) = true <-> tx_idx st + bytes = size_of block) by lia.
    clearbody bytes. destruct (bytes + tx_idx st =? size_of block).
    + split; [split; [lia|]; split; [lia|]; split; [reflexivity|]; right; repeat split; intros; try lia|]. repeat (split; [first [reflexivity|exact HB|exact HR]|]). split; [lia|]. auto.
    + split; [split; [lia|]; split; [lia|]; split; [reflexivity|]; right; repeat split; intros; try lia|]. repeat (split; [first [reflexivity|exact HB|exact HR]|]). split; [lia|]. auto.
Qed.

(** Runs. *)
Lemma tiles_app a : forall from b mid upto, tiles from a mid -> tiles mid b upto -> tiles from (a ++ b) upto.
Proof. induction a as [|x a IH]; intros from b mid upto; cbn; [now intros ->|]. intros (A & B) C. split; eauto. Qed.
Lemma same_pass_size a b : same_pass a b -> tx_size a = tx_size b.
Proof. intros (A & _). unfold tx_size. now rewrite A. Qed.

Lemma tx_run_first block red c : 1 <= sc_mtu c -> red <= size_of block -> size_of block < W64 ->
  forall es st st' out, tx_block st = block -> tx_red st = red -> tx_idx st <= size_of block -> tx_run c es st = Some (st', out) ->
  tiles (tx_idx st) (first_pass out) (tx_idx st') /\ tx_idx st' <= size_of block /\ Forall (segment_of block red) (first_pass out) /\
  Forall (fun sg => sg_len sg = next_len c red (size_of block) (sg_off sg)) (first_pass out) /\
  (tx_idx st' = size_of block \/ length (first_pass out) = length (first_asks es)).
Proof.
  intros Hm Hr HW. induction es as [|e es IH]; intros st st' out HB HR Hi E.
  - cbn in E. injection E as <- <-. cbn. auto 6.
  - cbn [tx_run] in E. destruct (tx_step c e st) as [[s1 o]|] eqn:E1; [|discriminate].
    destruct (tx_run c es s1) as [[s2 out2]|] eqn:E2; [|discriminate]. injection E as <- <-.
    assert (Hdec : e = SvFirst \/ e <> SvFirst) by (destruct e; (now left) || (right; discriminate)).
    destruct Hdec as [->|He].
    + cbn [tx_step] in E1. destruct (N.lt_ge_cases (tx_idx st) (size_of block)) as [Hl|Hl].
      * destruct (tx_first_step block red c st HB HR Hm Hr HW Hl) as (s1' & sg & F & S & O & Ln & B1 & R1 & I1 & _).
        rewrite F in E1. injection E1 as <- <-. assert (Hb : tx_idx s1' <= size_of block) by (destruct S as (_ & S & _); lia).
        destruct (IH _ _ _ B1 R1 Hb E2) as (P1 & P2 & P3 & P4 & P5). cbn [first_pass flat_map app first_asks filter length].
        split; [split; [exact O|rewrite <- I1; exact P1]|]. split; [exact P2|]. split; [constructor; auto|].
        split; [constructor; [now rewrite O|exact P4]|]. destruct P5 as [P5|P5]; [now left|]. right. unfold first_pass, first_asks in P5. now rewrite P5.
      * rewrite tx_first_done in E1 by (unfold tx_size; rewrite HB; exact Hl). injection E1 as <- <-.
        destruct (IH _ _ _ HB HR Hi E2) as (P1 & P2 & P3 & P4 & P5). repeat (split; [assumption|]). left.
        assert (HH : tx_idx st <= tx_idx s2).
        { clear - P1. revert P1. generalize (tx_idx st), (first_pass out2). intros n l. revert n. induction l as [|x l IHl]; cbn; intros n H; [lia|]. destruct H as (_ & H). apply IHl in H. lia. }
        lia.
    + pose proof E1 as Ek. apply (tx_other_frame c e st s1 o 0 0 He) in E1. destruct E1 as ((A1 & A2 & A3 & A4) & _).
      assert (Fp : first_pass match o with Some p => (e, p) :: out2 | None => out2 end = first_pass out2).
      { destruct o; [|reflexivity]. destruct e; try reflexivity. congruence. }
      assert (Fa : first_asks (e :: es) = first_asks es) by (destruct e; try reflexivity; congruence).
      rewrite Fp, Fa, <- A3. apply IH; congruence.
Qed.

Lemma tx_run_serials block red c csn0 : 1 <= sc_mtu c -> red <= size_of block -> size_of block < W64 ->
  forall es k st st' out, tx_block st = block -> tx_red st = red -> csn_ok csn0 k st -> csn0 + k + N.of_nat (length es) < W64 ->
  tx_run c es st = Some (st', out) ->
  Sorted.StronglySorted N.lt (serials (first_pass out)) /\ Forall (N.le (tx_csn st)) (serials (first_pass out)).
Proof.
  intros Hm Hr HW. induction es as [|e es IH]; intros k st st' out HB HR Hc Hk E.
  - cbn in E. injection E as <- <-. cbn. split; constructor.
  - cbn [tx_run] in E. destruct (tx_step c e st) as [[s1 o]|] eqn:E1; [|discriminate].
    destruct (tx_run c es s1) as [[s2 out2]|] eqn:E2; [|discriminate]. injection E as <- <-. cbn [length] in Hk.
    assert (Hdec : e = SvFirst \/ e <> SvFirst) by (destruct e; (now left) || (right; discriminate)).
    destruct Hdec as [->|He].
    + cbn [tx_step] in E1. destruct (N.lt_ge_cases (tx_idx st) (size_of block)) as [Hl|Hl].
      * destruct (tx_first_step block red c st HB HR Hm Hr HW Hl) as (s1' & sg & F & S & O & Ln & B1 & R1 & I1 & Q1 & _ & _ & _ & _ & D).
        rewrite F in E1. injection E1 as <- <-. cbn [first_pass flat_map app serials].
        destruct D as [(D1 & D2 & _)|(D1 & D2 & _)]; rewrite D1.
        -- cbn [app]. rewrite <- D2. apply (IH (k + 1) s1' s2 out2); auto; [|lia]. unfold csn_ok in *. rewrite D2, Q1. lia.
        -- unfold csn_ok in *. rewrite add64_small in D2 by lia.
           destruct (IH (k + 1) s1' s2 out2 B1 R1) as (P1 & P2); auto; [rewrite D2, Q1; lia|lia|]. cbn [app].
           rewrite D2 in P2. split; constructor; auto; [|lia|]; (eapply Forall_impl; [|exact P2]); cbn; intros; lia.
      * rewrite tx_first_done in E1 by (unfold tx_size; rewrite HB; exact Hl). injection E1 as <- <-.
        apply (IH (k + 1) st s2 out2); auto; [|lia]. unfold csn_ok in *. lia.
    + apply (tx_other_frame c e st s1 o csn0 k He) in E1. destruct E1 as ((A1 & A2 & A3 & A4) & A5).
      assert (Fp : first_pass match o with Some p => (e, p) :: out2 | None => out2 end = first_pass out2).
      { destruct o; [|reflexivity]. destruct e; try reflexivity. congruence. }
      rewrite Fp. destruct (A5 ltac:(lia) Hc) as (A6 & A7).
      destruct (IH (k + 1) s1 s2 out2) as (P1 & P2); auto; try congruence; try lia.
      split; auto. eapply Forall_impl; [|exact P2]. cbn. intros; lia.
Qed.

Definition red_only (segs : list dseg) : list dseg := filter (fun sg => sg_flags sg <=? 3) segs.
Lemma mod_step a n : 1 <= n -> a < n -> (a + 1) mod n = if a + 1 =? n then 0 else a + 1.
Proof. intros H1 H2. destruct (a + 1 =? n) eqn:E; [apply N.eqb_eq in E; rewrite E; apply N.mod_same; lia|apply N.mod_small; lia]. Qed.
Lemma tx_run_periodic block red c : 1 <= sc_mtu c -> red <= size_of block -> size_of block < W64 -> sc_nth c < W64 ->
  forall es st st' out, tx_block st = block -> tx_red st = red -> (sc_nth c <> 0 -> 1 <= tx_cnt st <= sc_nth c) ->
  tx_run c es st = Some (st', out) ->
  forall j sg, nth_error (red_only (first_pass out)) j = Some sg ->
    (is_checkpoint sg <-> (sc_nth c <> 0 /\ (N.of_nat j + 1 + (sc_nth c - tx_cnt st)) mod sc_nth c = 0) \/ ends_red_part sg).
Proof.
  intros Hm Hr HW Hn. induction es as [|e es IH]; intros st st' out HB HR Hc E j sg Hj.
  - cbn in E. injection E as <- <-. destruct j; discriminate.
  - cbn [tx_run] in E. destruct (tx_step c e st) as [[s1 o]|] eqn:E1; [|discriminate].
    destruct (tx_run c es s1) as [[s2 out2]|] eqn:E2; [|discriminate]. injection E as <- <-.
    assert (Hdec : e = SvFirst \/ e <> SvFirst) by (destruct e; (now left) || (right; discriminate)).
    destruct Hdec as [->|He].
    + cbn [tx_step] in E1. destruct (N.lt_ge_cases (tx_idx st) (size_of block)) as [Hl|Hl].
      * destruct (tx_first_step block red c st HB HR Hm Hr HW Hl) as (s1' & x & F & S & O & Ln & B1 & R1 & I1 & Q1 & _ & _ & _ & D & _).
        rewrite F in E1. injection E1 as <- <-. cbn [first_pass flat_map app red_only filter] in Hj.
        destruct (sg_flags x <=? 3) eqn:Ex.
        -- destruct (D ltac:(unfold is_red; lia)) as (D1 & D2). unfold nth_due in D2. destruct (sc_nth c =? 0) eqn:E0.
           ++ destruct j as [|j].
              ** cbn in Hj. injection Hj as <-. rewrite D2. cbn. split; [intros [?|?]; [discriminate|auto]|intros [(?&_)|?]; [lia|auto]].
              ** cbn in Hj. rewrite (IH s1' s2 out2 B1 R1 ltac:(lia) E2 j sg Hj). split; (intros [(?&_)|?]; [lia|auto]).
           ++ specialize (Hc ltac:(lia)). rewrite sub64_small in D1, D2 by lia. cbn [negb andb] in D2.
              destruct j as [|j].
              ** cbn in Hj. injection Hj as <-. rewrite D2. replace (N.of_nat 0 + 1 + (sc_nth c - tx_cnt st)) with (sc_nth c - tx_cnt st + 1) by lia.
                 rewrite mod_step by lia. clear - Hc E0.
                 destruct (sc_nth c - tx_cnt st + 1 =? sc_nth c) eqn:X, (tx_cnt st - 1 =? 0) eqn:Y; try lia; intuition (try lia; try discriminate).
              ** cbn in Hj. assert (Hc' : sc_nth c <> 0 -> 1 <= tx_cnt s1' <= sc_nth c) by (rewrite D1; destruct (tx_cnt st - 1 =? 0) eqn:Y; lia).
                 rewrite (IH s1' s2 out2 B1 R1 Hc' E2 j sg Hj).
                 assert (Hmod : (N.of_nat j + 1 + (sc_nth c - tx_cnt s1')) mod sc_nth c = (N.of_nat (Datatypes.S j) + 1 + (sc_nth c - tx_cnt st)) mod sc_nth c).
                 { rewrite D1. destruct (tx_cnt st - 1 =? 0) eqn:Y.
                   - replace (N.of_nat (Datatypes.S j) + 1 + (sc_nth c - tx_cnt st)) with (N.of_nat j + 1 + (sc_nth c - sc_nth c) + 1 * sc_nth c) by lia.
                     rewrite N.mod_add by lia. reflexivity.
                   - f_equal. lia. }
                 rewrite Hmod. reflexivity.
        -- assert (Hx : (tx_cnt s1' = tx_cnt st)).
           { unfold tx_first in F. rewrite HR in F.
             destruct (tx_idx st <? _); [|discriminate]. destruct (tx_idx st <? red).
             - exfalso. destruct (block_bytes _ _ _); [|discriminate]. injection F as <- <-. cbn [sg_flags] in Ex.
               repeat match type of Ex with context [if ?b then _ else _] => destruct b end; vm_compute in Ex; discriminate.
             - destruct (block_bytes _ _ _); [|discriminate]. injection F as <- <-.
               match goal with |- tx_cnt (first_pass_end ?y) = _ => destruct (first_pass_end_frame y) as ((_ & _ & _ & F4) & _) end. rewrite F4. reflexivity. }
           rewrite <- Hx. apply (IH s1' s2 out2); auto. now rewrite Hx.
      * rewrite tx_first_done in E1 by (unfold tx_size; rewrite HB; exact Hl). injection E1 as <- <-. eapply IH; eauto.
    + apply (tx_other_frame c e st s1 o 0 0 He) in E1. destruct E1 as ((A1 & A2 & A3 & A4) & A5).
      assert (Fp : first_pass match o with Some p => (e, p) :: out2 | None => out2 end = first_pass out2).
      { destruct o; [|reflexivity]. destruct e; try reflexivity. congruence. }
      rewrite Fp in Hj. rewrite <- A4. eapply IH; eauto; try congruence. now rewrite A4.
Qed.

(** The marks of a complete tiling. *)
Lemma tiles_green block red : forall segs from upto, tiles from segs upto -> Forall (segment_of block red) segs -> red <= from ->
  Forall (fun sg => ~ is_red sg) segs.
Proof.
  induction segs as [|sg segs IH]; intros from upto T F H; [constructor|]. destruct T as (T1 & T2). pose proof (Forall_inv F) as S.
  apply Forall_inv_tail in F. constructor.
  - destruct S as (S1 & _ & _ & [(_ & S2 & _)|(S2 & _)]); [lia|unfold is_red; lia].
  - eapply IH; eauto. lia.
Qed.
Lemma tiles_eorp block red : forall segs from upto, tiles from segs upto -> Forall (segment_of block red) segs -> from < red -> red <= upto ->
  exists a sg b, segs = a ++ sg :: b /\ ends_red_part sg /\ Forall is_red (a ++ [sg]) /\ Forall (fun x => ~ ends_red_part x) (a ++ b) /\
    Forall (fun x => ~ is_red x) b.
Proof.
  induction segs as [|sg segs IH]; intros from upto T F H1 H2; [cbn in T; lia|]. destruct T as (T1 & T2). pose proof (Forall_inv F) as S.
  apply Forall_inv_tail in F. destruct S as (S1 & S2 & S3 & [(R1 & R2 & R3 & R4 & R5)|(R1 & R2 & _)]); [|lia].
  destruct (N.eq_dec (sg_off sg + sg_len sg) red) as [E|E].
  - exists [], sg, segs. assert (G : Forall (fun x => ~ is_red x) segs) by (eapply tiles_green; eauto; lia).
    split; [reflexivity|]. split; [now apply R3|]. split; [constructor; auto|]. split; [|exact G]. cbn.
    eapply Forall_impl; [|exact G]. unfold is_red, ends_red_part. cbn. intros; lia.
  - destruct (IH _ _ T2 F ltac:(lia) H2) as (a & x & b & -> & A & B & C & D). exists (sg :: a), x, b.
    split; [reflexivity|]. split; [exact A|]. split; [constructor; auto|]. split; [|exact D]. cbn. constructor; auto. rewrite R3. exact E.
Qed.
Lemma tiles_eob block red : forall segs from, tiles from segs (size_of block) -> Forall (segment_of block red) segs -> from < size_of block ->
  exists a sg, segs = a ++ [sg] /\ ends_block sg /\ Forall (fun x => ~ ends_block x) a.
Proof.
  induction segs as [|sg segs IH]; intros from T F H1; [cbn in T; lia|]. destruct T as (T1 & T2). pose proof (Forall_inv F) as S.
  apply Forall_inv_tail in F. destruct S as (S1 & S2 & S3 & S4).
  assert (R : ends_block sg <-> sg_off sg + sg_len sg = size_of block) by tauto.
  destruct (N.eq_dec (sg_off sg + sg_len sg) (size_of block)) as [E|E].
  - exists [], sg. destruct segs as [|y segs]; [split; [reflexivity|]; split; [now apply R|constructor]|]. exfalso.
    destruct T2 as (T3 & T4). apply Forall_inv in F. destruct F as (G1 & G2 & _). lia.
  - destruct (IH _ T2 F ltac:(lia)) as (a & x & -> & A & B). exists (sg :: a), x. split; [reflexivity|]. split; auto. constructor; auto. now rewrite R.
Qed.
Lemma sorted_lt_NoDup l : Sorted.StronglySorted N.lt l -> NoDup l.
Proof.
  induction 1; constructor; auto. intros H1. rewrite Forall_forall in H0. specialize (H0 _ H1). lia.
Qed.
