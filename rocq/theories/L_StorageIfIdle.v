(** C52: what serving a link leaves behind and in which order it sends. *)
From Coq Require Import PeanoNat NArith List Bool Lia Permutation ZifyBool ZifyN.
From Verif Require Import Base M_CustodyId M_StorageIf S_StorageIf L_StorageIf L_StorageIfInv L_StorageIfSend L_StorageIfAll L_StorageIfDisk L_StorageIfHonest.
Import ListNotations.
Open Scope N_scope.

Lemma move_dests r k k' : moves none r k k' -> k_dests k' = k_dests k.
Proof. intros M. induction M as [|k k1 k2 M MS IH]; [reflexivity|]. rewrite IH. destruct M; try reflexivity. destruct H. Qed.
Lemma pop_some cfg ds d c b w : picks cfg -> pop cfg ds d = Some ((c, b), w) -> matches ds b /\ forall e, In e (d_wait d) -> matches ds (snd e) -> b_prio (snd e) <= b_prio b.
Proof.
  intros PK. unfold pop. specialize (PK ds (d_wait d)). destruct (c_pick cfg ds (d_wait d)) as [n|]; [|discriminate]. destruct PK as (e & NE & ME & AL). rewrite NE. intros H. remember (firstn n (d_wait d) ++ skipn (S n) (d_wait d)) as w0. injection H as -> _.
  split; [exact ME|]. intros e' I M. apply (AL e' I M).
Qed.
Lemma pop_none cfg ds d : picks cfg -> pop cfg ds d = None -> forall e, In e (d_wait d) -> ~ matches ds (snd e).
Proof. intros PK. unfold pop. specialize (PK ds (d_wait d)). destruct (c_pick cfg ds (d_wait d)) as [n|]; [|auto]. destruct PK as (e & NE & _). rewrite NE. discriminate. Qed.
Definition clear (ds : list (eid * bool)) (s : state) : Prop := forall e, In e (d_wait (g_disk s)) -> ~ matches ds (snd e).
Lemma peek_none cfg ds s s' : picks cfg -> peek cfg ds s = (None, s') -> s' = s /\ clear ds s.
Proof. intros PK. unfold peek. destruct (pop cfg ds (g_disk s)) as [[x rest]|] eqn:P; [discriminate|]. intros [= <-]. split; [reflexivity|]. exact (pop_none _ _ _ PK P). Qed.
(** Storage is looked at: nothing matches, or it was sent, or it still waits. *)
Lemma send_stored_after cfg r k room s : inv s -> get_link s r = Some k -> picks cfg ->
  let s' := send_stored cfg r k room s in
  (clear (k_dests k) s /\ s' = s) \/ g_poll s' = 0 \/ (g_poll s' = g_poll s /\ Permutation (d_wait (g_disk s')) (d_wait (g_disk s)) /\ exists e, In e (d_wait (g_disk s')) /\ matches (k_dests k) (snd e)).
Proof.
  intros I G PK. pose proof I as [[K OK] II RR]. cbv zeta. unfold send_stored. destruct (pop cfg (k_dests k) (g_disk s)) as [[[c b] rest]|] eqn:P; [|left; split; [exact (pop_none _ _ _ PK P)|reflexivity]]. right.
  destruct (pop_split _ _ _ _ _ _ P) as (p & q & E & ->). destruct (pop_some _ _ _ _ _ _ PK P) as (MT & _).
  assert (PM : Permutation ((c, b) :: p ++ q) (d_wait (g_disk s))) by (rewrite E; apply Permutation_middle).
  assert (BK : forall s', g_poll s' = g_poll s -> d_wait (g_disk s') = (c, b) :: p ++ q -> g_poll s' = 0 \/ (g_poll s' = g_poll s /\ Permutation (d_wait (g_disk s')) (d_wait (g_disk s)) /\ exists e, In e (d_wait (g_disk s')) /\ matches (k_dests k) (snd e))).
  { intros s' A1 A2. right. split; [exact A1|]. rewrite A2. split; [exact PM|]. exists (c, b). split; [left; reflexivity|exact MT]. }
  destruct (room <? b_size b); [apply BK; reflexivity|]. destruct (read_bit _) as [rd s1] eqn:R. destruct (read_frame _ _ _ R) as (l1 & -> & RT). destruct (RT RR) as (-> & RL). cbn [negb].
  destruct (bit _) as [st s2] eqn:B. destruct (bit_frame _ _ _ B) as (l2 & ->). destruct st; cbn [negb]; [|apply BK; reflexivity].
  assert (NO : find_id c (k_open k) = None).
  { destruct (find_id c (k_open k)) as [z|] eqn:F; [|reflexivity]. exfalso. apply find_id_in in F. assert (CW : In c (map fst (d_wait (g_disk s)))) by (rewrite E, map_app; apply in_or_app; right; left; reflexivity).
    apply (so_wo _ _ OK c CW). eapply open_in; [exact G|]. apply in_fst. eauto. }
  rewrite NO. left. reflexivity.
Qed.
Lemma cut_same r k x rest s : g_disk (send_cut r k x rest s) = g_disk s.
Proof. destruct (cut_moves r k x rest s) as (k' & ms & lo & _ & _ & _ & _ & _ & _ & _ & _ & _ & A & _). exact A. Qed.
Lemma flip_same r s : g_disk (flip r s) = g_disk s /\ g_poll (flip r s) = g_poll s.
Proof. unfold flip. destruct (get_link s r); [|auto]. destruct (put_fields s r (set_try (negb (k_try l)) l)) as (_ & _ & _ & _ & A & B & _). auto. Qed.
Lemma serve_idle cfg n s s' : picks cfg -> inv s -> g_ptrs s = up_refs (links s) -> serve cfg n s = Some s' -> 1 < g_poll s' ->
  exists r k, nth_error (g_ptrs s) n = Some r /\ get_link s r = Some k /\ clear (k_dests k) s' /\ incl (d_wait (g_disk s')) (d_wait (g_disk s)).
Proof.
  intros PK I P SV PL. pose proof (sf_keys _ (iv_safe _ I)) as K. pose proof SV as SV0. apply (serve_visit cfg n s s' K P) in SV0 as (r & k & k' & ms & NE & G & U & VI & _). exists r, k. split; [exact NE|]. split; [exact G|].
  unfold serve in SV. rewrite NE, G in SV. change (N.of_nat (length (k_open k) + length (k_acks k))) with (count k) in SV. cbv zeta in SV. set (room := sub64 _ _) in *.
  destruct (if count k <? k_max k then _ else Some s) as [s1|] eqn:E; [|discriminate].
  assert (X : 1 < g_poll s1 /\ s' = s1 /\ clear (k_dests k) s1).
  { assert (V1 : exists k1, get_link s1 r = Some k1 /\ k_dests k1 = k_dests k).
    { destruct (N.ltb_spec (count k) (k_max k)) as [C|C]; [|injection E as <-; eauto]. destruct (c_priority cfg).
      - destruct (priority_visit cfg r k s s1 K G U C E) as (k1 & ms1 & V). exists k1. split; [eapply visit_get; eassumption|apply (move_dests r), (vi_moves _ _ _ _ _ _ _ V)].
      - injection E as <-. destruct (default_visit cfg r k s K G U C) as (k1 & ms1 & V). exists k1. split; [eapply visit_get; eassumption|apply (move_dests r), (vi_moves _ _ _ _ _ _ _ V)]. }
    destruct V1 as (k1 & G1 & D1). destruct ((g_poll s1 =? 0) || (g_poll s1 =? 1)) eqn:Z; [injection SV as <-; lia|]. rewrite G1 in SV. injection SV as <-. destruct (peek cfg (k_dests k1) s1) as [[w|] s2] eqn:PE; [proj; lia|].
    destruct (peek_none _ _ _ _ PK PE) as (-> & CL). rewrite D1 in CL. split; [exact PL|]. split; [reflexivity|exact CL]. }
  destruct X as (PL1 & -> & CL). split; [exact CL|]. clear SV VI PL.
  assert (STO : forall k0 s0, inv s0 -> get_link s0 r = Some k0 -> k_dests k0 = k_dests k -> 1 < g_poll (send_stored cfg r k0 room s0) ->
     (forall e, In e (d_wait (g_disk (send_stored cfg r k0 room s0))) -> In e (d_wait (g_disk s1))) -> clear (k_dests k) s0 /\ send_stored cfg r k0 room s0 = s0).
  { intros k0 s0 I0 G0 D0 L0 W0. destruct (send_stored_after cfg r k0 room s0 I0 G0 PK) as [(A & B)|[A|(A & B & e & IE & ME)]]; [rewrite D0 in A; auto|lia|]. exfalso. rewrite D0 in ME. exact (CL e (W0 e IE) ME). }
  destruct (count k <? k_max k); [|injection E as <-; apply incl_refl]. destruct (c_priority cfg).
  - unfold priority_send in E. destruct (k_queue k) as [|x rest].
    + injection E as <-. destruct (STO k s I G eq_refl PL1) as (_ & ->); [auto|apply incl_refl].
    + destruct (peek cfg (k_dests k) s) as [[[c b]|] s2] eqn:PE; destruct (peek_inv _ _ _ _ _ I PE) as (I2 & O2); destruct (peek_grows _ _ _ _ _ PE) as (_ & _ & _ & PW); assert (G2 : get_link s2 r = Some k) by (rewrite (da_get _ _ r O2); exact G).
      * cbv zeta in E. set (same := match queue_prio x with Some p => p =? b_prio b | None => false end) in *. set (higher := match queue_prio x with Some p => b_prio b <? p | None => false end) in *.
        set (k1 := if same && (b_size (q_b x) <=? room) then set_try (negb (k_try k)) k else k) in *. assert (KO : k_open k1 = k_open k /\ k_dests k1 = k_dests k) by (unfold k1; destruct (same && _); auto). destruct KO as (KO & KD).
        assert (I3 : inv (put_link s2 r k1)) by (eapply put_inv; eassumption). assert (G3 : get_link (put_link s2 r k1) r = Some k1) by (apply (get_put s2 r k k1); [apply I2|exact G2]).
        assert (MT : exists e, In e (d_wait (g_disk (put_link s2 r k1))) /\ matches (k_dests k) (snd e)).
        { destruct (put_fields s2 r k1) as (_ & _ & _ & _ & Q5 & _). rewrite Q5. unfold peek in PE. destruct (pop cfg (k_dests k) (g_disk s)) as [[[c0 b0] w]|] eqn:PO; [|discriminate]. injection PE as -> -> <-. exists (c, b). split; [left; reflexivity|]. apply (pop_some _ _ _ _ _ _ PK PO). }
        destruct (put_fields s2 r k1) as (_ & _ & _ & _ & Q5 & _). set (s3 := put_link s2 r k1) in *.
        destruct (if same then _ else higher).
        -- injection E as <-. assert (D : d_wait (g_disk (if b_size (q_b x) <=? room then send_cut r k1 x rest s3 else s3)) = d_wait (g_disk s2)) by (destruct (_ <=? _); rewrite ?cut_same, Q5; reflexivity). rewrite D. intros e IE. eapply Permutation_in; eassumption.
        -- exfalso. destruct (write (q_b x) Whole false None (send_stored cfg r k1 room s3)) as [s4|] eqn:W; [|discriminate]. set (a := mkA (q_id x) (ref_idx r) false) in *. destruct (get_link (ack_ingress a s4) r) as [k5|]; [|discriminate]. injection E as E.
           pose proof (send_stored_inv cfg r k1 room s3 I3 G3) as I4. destruct (write_plain (q_b x) _ I4) as (s4' & E4 & W4). rewrite W in E4. injection E4 as <-.
           destruct (put_fields (ack_ingress a s4) r (set_queue rest k5)) as (_ & _ & _ & _ & QA & QB & _). rewrite E in QA, QB. destruct (acked_more a s4) as (_ & EA). pose proof (da_poll _ _ (ack_ingress_da a s4)) as PA. pose proof (od_poll _ _ (wr_od _ _ W4)) as PB.
           destruct (STO k1 s3 I3 G3 KD) as (CS & _); [lia| |].
           ++ intros e IE. rewrite QA, EA. apply (wr_wait _ _ W4). exact IE.
           ++ destruct MT as (e & IE & ME). exact (CS e IE ME).
      * injection E as <-. assert (D : d_wait (g_disk (if b_size (q_b x) <=? room then send_cut r k x rest s2 else s2)) = d_wait (g_disk s2)) by (destruct (_ <=? _); rewrite ?cut_same; reflexivity). rewrite D. intros e IE. eapply Permutation_in; eassumption.
  - injection E as <-. unfold default_send in *. match goal with |- context[flip r ?e] => set (z := e) in * end. destruct (flip_same r z) as (F1 & F2). rewrite F1. rewrite F2 in PL1. unfold z in *. destruct (k_queue k) as [|x rest].
    + destruct (STO k s I G eq_refl PL1) as (_ & ->); [rewrite F1; auto|apply incl_refl].
    + destruct (_ && _); [rewrite cut_same; apply incl_refl|]. destruct (STO k s I G eq_refl PL1) as (_ & ->); [rewrite F1; auto|apply incl_refl].
Qed.
(** One more: the loop. *)
Lemma visits_idle cfg l s s' : picks cfg -> visits cfg l s s' -> inv s -> g_ptrs s = up_refs (links s) -> 1 < g_poll s' -> (forall n, In n l -> (n < length (g_ptrs s))%nat) ->
  incl (d_wait (g_disk s')) (d_wait (g_disk s)) /\ forall n r k, In n l -> nth_error (g_ptrs s) n = Some r -> get_link s r = Some k -> clear (k_dests k) s'.
Proof.
  intros PK V. induction V as [s|n l s s1 s2 SV V IH]; intros I P PL LN; [split; [apply incl_refl|intros n r k []]|].
  assert (IR : inv (with_rr s n)) by (destruct I as [[A B] C D]; constructor; [constructor; assumption|exact C|exact D]). assert (KR : keys (with_rr s n)) by apply IR.
  destruct (serve_inv cfg n (with_rr s n) IR P) as (s1' & E & I1); [apply LN; left; reflexivity|]. rewrite SV in E. injection E as <-.
  destruct (serve_rr cfg n (with_rr s n) s1 KR P SV) as (_ & R2 & K1 & P1).
  assert (PP : 1 < g_poll s1).
  { assert (MONO : forall l a b, visits cfg l a b -> keys a -> g_ptrs a = up_refs (links a) -> 1 < g_poll b -> 1 < g_poll a).
    { clear. intros l a b V. induction V as [|n l a a1 b SV V IH]; [auto|]. intros K P H. destruct (serve_visit cfg n (with_rr a n) a1 K P SV) as (r & k & k' & ms & _ & G & _ & VI & _).
      assert (K1 : keys a1) by (eapply visit_keys; [|exact VI]; exact K). assert (P1 : g_ptrs a1 = up_refs (links a1)) by (eapply visit_ptrs; [|exact G|exact VI|]; assumption).
      specialize (IH K1 P1 H). destruct (vi_poll _ _ _ _ _ _ _ VI) as [X|X]; [proj; lia|lia]. }
    exact (MONO _ _ _ V K1 P1 PL). }
  destruct (IH I1 P1 PL) as (INC & CLR); [intros m M; rewrite R2; apply LN; right; exact M|].
  destruct (serve_idle cfg n (with_rr s n) s1 PK IR P SV PP) as (r0 & k0 & NE0 & G0 & CL0 & INC0). split; [eapply incl_tran; [exact INC|exact INC0]|].
  intros m r k M NE G. destruct (Nat.eq_dec m n) as [->|NM].
  - proj. rewrite NE0 in NE. injection NE as <-. change (get_link (with_rr s n) r0 = Some k) in G. rewrite G0 in G. injection G as <-. intros e IE. exact (CL0 e (INC e IE)).
  - destruct M as [M|M]; [congruence|]. proj. destruct (serve_visit cfg n (with_rr s n) s1 KR P SV) as (r1 & k1 & k1' & ms & NE1 & G1 & _ & VI & _). rewrite <- R2 in NE.
    apply (CLR m r k M NE). rewrite (visit_other _ _ _ _ _ _ _ r VI); [exact G|]. intros ->. rewrite R2 in NE. proj.
    pose proof (proj1 (NoDup_nth_error (g_ptrs s)) (ptrs_nodup s (sf_keys _ (iv_safe _ I)) P)) as INJ. apply NM. apply INJ; [apply nth_error_Some; congruence|congruence].
Qed.
Lemma evolve_in (l l' : list (ref * link)) r k' : evolve none l l' -> In (r, k') l' -> exists k, In (r, k) l /\ moves none r k k'.
Proof.
  intros E. induction E as [|x y l l' (A & M) E IH]; [intros []|]. intros [->|I]; [|destruct (IH I) as (k & J & M'); exists k; split; [right; exact J|exact M']]. destruct x as [r0 k0]. cbn [fst snd] in *. subst r0. exists k0. split; [left; reflexivity|exact M].
Qed.
Lemma send_idle cfg s s' : picks cfg -> inv s -> books s -> do_send cfg s = Some s' -> 1 < g_poll s' -> forall r k, In (r, k) (links s') -> k_up k = true -> clear (k_dests k) s'.
Proof.
  intros PK I [K P _] H PL r k IL U. destruct (send_sweep cfg s s' K P H) as (l & ND & [S1 S2 S3 S4 S5 S6 S7 S8 S9 S10] & m & EL & LE & V & ST).
  assert (M : m = length (g_ptrs s)) by (destruct (Nat.lt_ge_cases m (length (g_ptrs s))) as [X|X]; [specialize (ST X); lia|lia]).
  assert (LT : forall n, In n l -> (n < length (g_ptrs s))%nat). { intros n X. rewrite EL in X. apply in_map_iff in X as (j & <- & X). apply in_seq in X. unfold turn. apply Nat.mod_upper_bound. lia. }
  destruct (visits_idle cfg l (with_poll s 250) s' PK V (poll_inv s 250 I) P PL LT) as (_ & CLR).
  assert (RP : In r (g_ptrs s)). { change (g_ptrs s) with (g_ptrs (with_poll s 250)). rewrite <- S3, S2. unfold up_refs. apply in_map_iff. exists (r, k). split; [reflexivity|]. apply filter_In. auto. }
  apply In_nth_error in RP as (n & NE). destruct (evolve_in _ _ _ _ S4 IL) as (k0 & J & MV). rewrite (move_dests _ _ _ MV).
  apply (CLR n r k0); [|exact NE|apply (in_get s); [exact K|exact J]]. assert (NL : (n < length (g_ptrs s))%nat) by (apply nth_error_Some; congruence).
  (* every position is visited *)
  assert (INC : incl (seq 0 (length (g_ptrs s))) l). { apply NoDup_length_incl; [exact ND|rewrite EL, map_length, !seq_length; lia|]. intros x X. apply in_seq. specialize (LT x X). lia. }
  apply INC. apply in_seq. lia.
Qed.
(** Who goes first. *)
Lemma stored_which cfg r k room s m : picks cfg -> g_egress (send_stored cfg r k room s) = g_egress s ++ [m] -> keys s -> get_link s r = Some k ->
  e_cut m = false /\ matches (k_dests k) (e_b m) /\ forall e, In e (d_wait (g_disk s)) -> matches (k_dests k) (snd e) -> b_prio (snd e) <= b_prio (e_b m).
Proof.
  intros PK E K G. unfold send_stored in E. destruct (pop cfg (k_dests k) (g_disk s)) as [[[c b] rest]|] eqn:P; [|apply (f_equal (@length _)) in E; rewrite app_length in E; cbn [length] in E; lia]. destruct (pop_some _ _ _ _ _ _ PK P) as (MT & MX).
  assert (NO : forall s', g_egress s' = g_egress s -> g_egress s' = g_egress s ++ [m] -> False) by (intros s' A B; rewrite A in B; apply (f_equal (@length _)) in B; rewrite app_length in B; cbn [length] in B; lia).
  destruct (room <? b_size b); [exfalso; eapply NO; [|exact E]; reflexivity|]. destruct (read_bit _) as [rd s1] eqn:R. destruct (read_frame _ _ _ R) as (l1 & -> & _). destruct rd; cbn [negb] in E; [|exfalso; eapply NO; [|exact E]; reflexivity].
  destruct (bit _) as [st s2] eqn:B. destruct (bit_frame _ _ _ B) as (l2 & ->). destruct st; cbn [negb] in E; [|exfalso; eapply NO; [|exact E]; reflexivity].
  assert (M : m = mkE b false c (k_idx k) (k_hop k) (b_dest b) (b_cust b)).
  { destruct (find_id c (k_open k)); [proj; cbn [emit] in E; unfold emit in E; proj; apply app_inv_head in E; congruence|]. match type of E with g_egress (with_poll (put_link ?a ?b0 ?c0) 0) = _ => destruct (put_fields a b0 c0) as (_ & _ & _ & _ & _ & _ & Q7 & _) end.
    proj. rewrite Q7 in E. destruct (b_cust b); unfold emit in E; proj; apply app_inv_head in E; congruence. }
  subst m. cbn [e_cut e_b]. auto.
Qed.
Lemma cut_which r k x rest s m : g_egress (send_cut r k x rest s) = g_egress s ++ [m] -> e_b m = q_b x.
Proof.
  unfold send_cut. destruct (bit s) as [st s1] eqn:B. destruct (bit_frame _ _ _ B) as (l2 & ->). destruct st; cbn [negb].
  - destruct (find_id (q_id x) (k_acks k)); intros E; proj; match type of E with g_egress (put_link ?a ?b0 ?c0) = _ => destruct (put_fields a b0 c0) as (_ & _ & _ & _ & _ & _ & Q7 & _); rewrite Q7 in E end; unfold emit in E; proj; apply app_inv_head in E; injection E as <-; reflexivity.
  - intros E. proj. match type of E with g_egress (put_link ?a ?b0 ?c0) = _ => destruct (put_fields a b0 c0) as (_ & _ & _ & _ & _ & _ & Q7 & _); rewrite Q7 in E end. proj. apply (f_equal (@length _)) in E. rewrite app_length in E. cbn [length] in E. lia.
Qed.
Lemma serve_order cfg n s s' m : picks cfg -> c_priority cfg = true -> keys s -> serve cfg n s = Some s' -> g_egress s' = g_egress s ++ [m] ->
  exists r k, nth_error (g_ptrs s) n = Some r /\ get_link s r = Some k /\
    (forall e, In e (d_wait (g_disk s)) -> matches (k_dests k) (snd e) -> b_prio (snd e) <= b_prio (e_b m)) /\
    (forall x rest, k_queue k = x :: rest -> b_bad (q_b x) = false -> b_prio (q_b x) <= b_prio (e_b m)).
Proof.
  intros PK PR K SV EM. unfold serve in SV. destruct (nth_error (g_ptrs s) n) as [r|] eqn:NE; [|discriminate]. destruct (get_link s r) as [k|] eqn:G; [|discriminate]. exists r, k. split; [reflexivity|]. split; [exact G|]. cbv zeta in SV. set (room := sub64 _ _) in *. rewrite PR in SV.
  assert (SAME : forall z, g_egress z = g_egress s -> g_egress z = g_egress s ++ [m] -> False) by (intros z A B; rewrite A in B; apply (f_equal (@length _)) in B; rewrite app_length in B; cbn [length] in B; lia).
  destruct (if _ <? k_max k then _ else Some s) as [s1|] eqn:E; [|discriminate].
  assert (EM1 : g_egress s1 = g_egress s ++ [m]).
  { rewrite <- EM. destruct (_ || _); [injection SV as <-; reflexivity|]. destruct (get_link s1 r) as [k1|]; [|discriminate]. injection SV as <-. destruct (peek cfg (k_dests k1) s1) as [w s2] eqn:PE. destruct (peek_grows _ _ _ _ _ PE) as (O & _). pose proof (da_egress _ _ (od_da _ _ O)) as X. destruct w; proj; congruence. }
  clear SV EM. destruct (_ <? k_max k); [|injection E as <-; exfalso; eapply SAME; [|exact EM1]; reflexivity].
  unfold priority_send in E. destruct (k_queue k) as [|x rest] eqn:Q.
  - injection E as <-. destruct (stored_which _ _ _ _ _ _ PK EM1 K G) as (_ & _ & A). split; [exact A|]. intros x0 r0. discriminate.
  - assert (XQ : forall x0 r0, x :: rest = x0 :: r0 -> x0 = x) by (intros x0 r0 [= <- _]; reflexivity).
    destruct (peek cfg (k_dests k) s) as [[[c b]|] s2] eqn:PE; destruct (peek_grows _ _ _ _ _ PE) as (O & _ & _ & PW); pose proof (da_egress _ _ (od_da _ _ O)) as EG.
    + cbv zeta in E. set (same := match queue_prio x with Some p => p =? b_prio b | None => false end) in *. set (higher := match queue_prio x with Some p => b_prio b <? p | None => false end) in *.
      set (k1 := if same && (b_size (q_b x) <=? room) then set_try (negb (k_try k)) k else k) in *. assert (KD : k_dests k1 = k_dests k) by (unfold k1; destruct (same && _); reflexivity).
      assert (MX : forall e, In e (d_wait (g_disk s)) -> matches (k_dests k) (snd e) -> b_prio (snd e) <= b_prio b).
      { unfold peek in PE. destruct (pop cfg (k_dests k) (g_disk s)) as [[[c0 b0] w]|] eqn:PO; [|discriminate]. injection PE as -> -> _. apply (pop_some _ _ _ _ _ _ PK PO). }
      assert (BW : In (c, b) (d_wait (g_disk s2)) /\ matches (k_dests k) b).
      { unfold peek in PE. destruct (pop cfg (k_dests k) (g_disk s)) as [[[c0 b0] w]|] eqn:PO; [|discriminate]. injection PE as -> -> <-. split; [left; reflexivity|]. apply (pop_some _ _ _ _ _ _ PK PO). }
      destruct (put_fields s2 r k1) as (_ & _ & _ & _ & Q5 & _ & Q7 & _). assert (K3 : keys (put_link s2 r k1)) by (apply put_keys; rewrite (da_keys _ _ (od_da _ _ O)); exact K).
      assert (G3 : get_link (put_link s2 r k1) r = Some k1) by (apply (get_put s2 r k k1); [rewrite (da_keys _ _ (od_da _ _ O)); exact K|rewrite (da_get _ _ r (od_da _ _ O)); exact G]).
      destruct (if same then _ else higher) eqn:FQ.
      * injection E as <-. destruct (b_size (q_b x) <=? room); [|exfalso; eapply SAME; [|exact EM1]; congruence]. rewrite <- EG, <- Q7 in EM1. apply cut_which in EM1. rewrite EM1.
        assert (QP : b_prio b <= b_prio (q_b x)). { revert FQ. unfold same, higher, queue_prio. destruct (b_bad (q_b x)); [discriminate|]. intros FQ. destruct (N.eqb_spec (b_prio (q_b x)) (b_prio b)); lia. }
        split; [intros e IE ME; specialize (MX e IE ME); lia|]. intros x0 r0 X _. rewrite (XQ _ _ X). lia.
      * destruct (write (q_b x) Whole false None _) as [s4|] eqn:W; [|discriminate]. destruct (get_link (ack_ingress _ s4) r) as [k5|]; [|discriminate]. injection E as E. pose proof (da_egress _ _ (od_da _ _ (write_od _ _ _ _ _ _ W))) as O4.
        match type of E with put_link (ack_ingress ?a ?s0) _ ?kk = _ => pose proof (da_egress _ _ (ack_ingress_da a s0)) as O5; destruct (put_fields (ack_ingress a s0) r kk) as (_ & _ & _ & _ & _ & _ & Z7 & _) end.
        rewrite E in Z7. assert (EM2 : g_egress (send_stored cfg r k1 room (put_link s2 r k1)) = g_egress (put_link s2 r k1) ++ [m]) by congruence.
        destruct (stored_which _ _ _ _ _ _ PK EM2 K3 G3) as (_ & _ & A). rewrite KD, Q5 in A. split; [intros e IE ME; apply A; [eapply Permutation_in; [apply Permutation_sym; exact PW|exact IE]|exact ME]|].
        intros x0 r0 X BD. rewrite (XQ _ _ X) in *. specialize (A _ (proj1 BW) (proj2 BW)). cbn [snd] in A. revert FQ. unfold same, higher, queue_prio. rewrite BD. destruct (N.eqb_spec (b_prio (q_b x)) (b_prio b)); lia.
    + injection E as <-. assert (NM := peek_none _ _ _ _ PK PE). destruct NM as (-> & CL). split; [intros e IE ME; elim (CL e IE ME)|]. intros x0 r0 X _. rewrite (XQ _ _ X).
      destruct (b_size (q_b x) <=? room); [|exfalso; eapply SAME; [|exact EM1]; reflexivity]. apply cut_which in EM1. rewrite EM1. lia.
Qed.
(** Whose turn it is. *)
Lemma visits_rr cfg l : forall s s', visits cfg l s s' -> keys s -> g_ptrs s = up_refs (links s) -> l <> [] -> g_rr s' = last l 0%nat.
Proof.
  induction l as [|n l IH]; intros s s' V K P NL; [congruence|]. inversion V as [|? ? ? s1 ? SV V2]; subst. destruct (serve_rr cfg n (with_rr s n) s1 K P SV) as (R1 & R2 & K1 & P1).
  destruct l as [|n2 l]; [inversion V2; subst; exact R1|]. rewrite (IH s1 s' V2 K1 P1); [reflexivity|discriminate].
Qed.
Lemma last_map_seq (f : nat -> nat) m : last (map f (seq 0 (S m))) 0%nat = f m.
Proof. rewrite seq_S, map_app. cbn [map]. rewrite last_last. f_equal. Qed.
Lemma send_turns cfg s s' : books s -> do_send cfg s = Some s' -> exists m, (m <= length (g_ptrs s))%nat /\ visits cfg (map (turn s) (seq 0 m)) (with_poll s 250) s' /\ ((m < length (g_ptrs s))%nat -> g_poll s' = 0) /\
  ((0 < length (g_ptrs s))%nat -> exists j, m = S j /\ g_rr s' = turn s j) /\ g_ptrs s' = g_ptrs s.
Proof.
  intros [K P _] H. destruct (send_sweep cfg s s' K P H) as (l & ND & SW & m & -> & LE & V & ST). exists m. split; [exact LE|]. split; [exact V|]. split; [exact ST|]. split; [|exact (sw_same _ _ _ SW)].
  intros L. destruct m as [|j]; [inversion V; subst; specialize (ST L); discriminate|]. exists j. split; [reflexivity|]. rewrite (visits_rr cfg _ _ _ V K P); [apply last_map_seq|discriminate].
Qed.
Lemma link_down_rr r s s' : link_down r s = Some s' -> g_rr s' = g_rr s.
Proof.
  unfold link_down. destruct (get_link s r) as [k|]; [|discriminate]. destruct (k_up k); [|intros [= <-]; reflexivity]. destruct (dump _ _ _) as [s1|] eqn:D; [|discriminate]. intros [= <-]. unfold repopulate. proj.
  rewrite (da_rr _ _ (dump_da _ _ _ _ D)). apply put_fields.
Qed.
Lemma handle_rr cfg e s s' : e <> Send -> handle cfg e s = Some s' -> g_rr s' = g_rr s.
Proof.
  intros NS. destruct e; cbn [handle].
  - unfold on_telemetry. set (v := match g_vec s with [] => _ | v => v end). destruct (negb _); [intros [= <-]; reflexivity|]. destruct (telem 0 l v); [|discriminate]. intros [= <-]. reflexivity.
  - unfold on_ack. destruct (negb (g_init s)); [intros [= <-]; reflexivity|]. destruct (ack_link x s) as [[r|]|]; [|intros [= <-]; reflexivity|discriminate]. destruct (x_cut x).
    + unfold ack_cut. destruct (get_link s r) as [k|]; [|discriminate]. destruct (find_id _ _) as [z|]; [|intros [= <-]; reflexivity]. destruct (if is_error (x_err x) then _ else _) as [s1|] eqn:E; [|discriminate].
      set (a := mkA _ _ _). destruct (get_link (ack_ingress a s1) r) as [k2|]; [|discriminate]. intros [= <-].
      assert (R : g_rr s1 = g_rr s). { destruct (is_error (x_err x)); [|injection E as <-; reflexivity]. destruct (write b Whole false None s) as [s0|] eqn:W; [|discriminate]. pose proof (od_rr _ _ (write_od _ _ _ _ _ _ W)) as R0. destruct (is_down (x_err x)); [apply link_down_rr in E; congruence|injection E as <-; exact R0]. }
      rewrite <- R, <- (da_rr _ _ (ack_ingress_da a s1)). apply put_fields.
    + unfold ack_read. destruct (get_link s r) as [k|]; [|discriminate]. destruct (find_id _ _) as [z|]; [|intros [= <-]; reflexivity].
      match goal with |- match (match ?e with _ => _ end) with _ => _ end = _ -> _ => destruct e as [s1|] eqn:E; [|discriminate] end. destruct (get_link s1 r) as [k1|]; [|discriminate]. intros [= <-]. proj.
      assert (R : g_rr s1 = g_rr s).
      { destruct (is_error (x_err x)).
        - destruct (if is_down (x_err x) then _ else _) as [s2|] eqn:D; [|discriminate]. assert (R : g_rr s2 = g_rr s) by (destruct (is_down (x_err x)); [apply link_down_rr in D; exact D|injection D as <-; reflexivity]).
          destruct (give_back _ _) as [d|]; [|discriminate]. destruct (_ && _); [discriminate|]. injection E as <-. exact R.
        - destruct (x_delete x); [destruct (remove_read _ _); [|discriminate]; injection E as <-; reflexivity|]. injection E as <-. destruct (mem _ _); [|reflexivity]. destruct (find_b _ _); [|reflexivity]. destruct (has_timer _ _); reflexivity. }
      rewrite <- R. apply put_fields.
  - unfold on_failed. destruct (write b Whole false None s) as [s1|] eqn:W; [|discriminate]. pose proof (od_rr _ _ (write_od _ _ _ _ _ _ W)) as R0. destruct (g_init s1); [|intros [= <-]; exact R0]. destruct (vec_ref s1 i); [|discriminate]. intros H. apply link_down_rr in H. congruence.
  - intros [= <-]. unfold add_opp. destruct (opp_find _ _); reflexivity.
  - intros [= <-]. unfold remove_opp. destruct (opp_find _ _); reflexivity.
  - unfold on_store. destruct (if s_dont m then _ else None) as [[r k]|]; [intros [= <-]; apply put_fields|]. destruct (write b c (s_special m) _ s) as [s1|] eqn:W; [|discriminate]. intros [= <-]. rewrite (da_rr _ _ (ack_ingress_da _ s1)). exact (od_rr _ _ (write_od _ _ _ _ _ _ W)).
  - unfold on_up. destruct (g_init s) eqn:GI; [|intros [= <-]; reflexivity]. destruct (vec_ref s i) as [r|]; [|intros [= <-]; reflexivity]. destruct (get_link s r) as [k|]; [|discriminate]. intros [= <-]. destruct (k_up k); [reflexivity|]. unfold repopulate. proj. apply put_fields.
  - unfold on_down. destruct (g_init s) eqn:GI; [|intros [= <-]; reflexivity]. destruct (vec_ref s i) as [r|]; [|intros [= <-]; reflexivity]. apply link_down_rr.
  - unfold on_signals. clear NS. revert s. induction l as [|b l IH]; intros s; [intros [= <-]; reflexivity|]. destruct (write_one b s) as [[s1 ok]|] eqn:W; [|discriminate]. intros H. apply IH in H. rewrite H. exact (od_rr _ _ (write_one_od _ _ _ _ W)).
  - unfold on_timer. destruct (has_timer _ _); [|intros [= <-]; reflexivity]. destruct (give_back _ _); [|discriminate]. intros [= <-]. reflexivity.
  - unfold on_expired. destruct (find_b _ _) as [b|]; [|intros [= <-]; reflexivity]. match goal with |- match ?e with _ => _ end = _ -> _ => destruct e as [s1|] eqn:E; [|discriminate] end. intros [= <-]. proj.
    destruct (b_cust b); [|injection E as <-; reflexivity]. destruct report as [p|]; [|injection E as <-; reflexivity]. match type of E with match write_one p ?z with _ => _ end = _ => destruct (write_one p z) as [[s2 ok]|] eqn:W; [|discriminate] end. injection E as <-.
    rewrite (od_rr _ _ (write_one_od _ _ _ _ W)). reflexivity.
  - congruence.
Qed.
Lemma steady_ptrs cfg p tr s s' : steady cfg p tr s s' -> g_ptrs s = p. Proof. destruct 1; assumption. Qed.
Lemma turn_comes cfg p i : forall tr s s' d, steady cfg p tr s s' -> books s -> (0 < length p)%nat -> i = ((next_rr s + d) mod length p)%nat -> (d < length (filter is_send tr))%nat ->
  exists a x b s1 s2 l, tr = a ++ x :: b /\ l_event x = Send /\ runs cfg a s s1 /\ step cfg x s1 = Some s2 /\
    visits cfg l (with_poll (with_oracle s1 (l_ids x) (l_bits x) (l_reads x)) 250) s2 /\ In i l.
Proof.
  induction tr as [|x tr IH]; intros s s' d ST B L E D; [cbn [filter length] in D; lia|]. inversion ST as [|? ? ? s1 ? PT SX ST2]; subst x0 l s0 s2. pose proof (step_books cfg x s s1 B SX) as B1. cbn [filter] in D.
  assert (GO : forall d', i = ((next_rr s1 + d') mod length p)%nat -> (d' < length (filter is_send tr))%nat -> exists a x0 b s2 s3 l, x :: tr = a ++ x0 :: b /\ l_event x0 = Send /\ runs cfg a s s2 /\ step cfg x0 s2 = Some s3 /\
    visits cfg l (with_poll (with_oracle s2 (l_ids x0) (l_bits x0) (l_reads x0)) 250) s3 /\ In i l).
  { intros d' E' D'. destruct (IH s1 s' d' ST2 B1 L E' D') as (a & x0 & b & s2 & s3 & l & A1 & A2 & A3 & A4 & A5 & A6). exists (x :: a), x0, b, s2, s3, l. split; [cbn [app]; congruence|]. split; [exact A2|]. split; [econstructor; eassumption|auto]. }
  unfold is_send in D at 1. destruct (l_event x) eqn:EV.
  12: { set (s0 := with_oracle s (l_ids x) (l_bits x) (l_reads x)). assert (B0 : books s0) by (destruct B; constructor; assumption). unfold step in SX. rewrite EV in SX. cbn [handle] in SX. fold s0 in SX.
    destruct (send_turns cfg s0 s1 B0 SX) as (m & M1 & M2 & M3 & M4 & M5). change (g_ptrs s0) with (g_ptrs s) in *. rewrite PT in *. destruct (Nat.lt_ge_cases d m) as [DM|DM].
    - exists [], x, tr, s, s1, (map (turn s0) (seq 0 m)). split; [reflexivity|]. split; [exact EV|]. split; [constructor|]. split; [unfold step; rewrite EV; exact SX|]. split; [exact M2|]. rewrite E. apply in_map_iff. exists d. split; [|apply in_seq; lia].
      unfold turn, s0. cbn [g_ptrs with_oracle]. rewrite PT. reflexivity.
    - destruct (M4 L) as (j & -> & RR). apply (GO (d - S j)%nat); [|cbn [length] in D; lia].
      assert (NX : next_rr s1 = ((next_rr s + S j) mod length p)%nat).
      { unfold next_rr at 1. rewrite M5, RR. unfold turn, s0. cbn [g_ptrs with_oracle]. rewrite PT. change (next_rr (with_oracle s (l_ids x) (l_bits x) (l_reads x))) with (next_rr s). rewrite mod_next; [|lia|apply Nat.mod_upper_bound; lia].
        rewrite <- (Nat.add_1_l (_ mod _)), Nat.add_mod_idemp_r by lia. f_equal. lia. }
      rewrite NX, Nat.add_mod_idemp_l by lia. rewrite E. f_equal. lia. }
  all: assert (RR : g_rr s1 = g_rr s) by (unfold step in SX; rewrite EV in SX; apply handle_rr in SX; [exact SX|discriminate]);
    apply (GO d); [|exact D]; rewrite E; f_equal; unfold next_rr; rewrite RR, (steady_ptrs _ _ _ _ _ ST2), PT; reflexivity.
Qed.
