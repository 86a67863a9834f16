(** Lemmas about a sending and a receiving session joined by a network. *)
From Coq Require Import NArith ZArith List Bool Lia ZifyBool ZifyN.
From Verif Require Import Base M_FragmentSet S_FragmentSet L_FragmentSet M_LtpFragmentSet S_LtpFragmentSet L_LtpFragmentSet
  M_LtpReceiver M_LtpSender S_LtpSession L_LtpReceiver L_LtpSender M_LtpSystem.
Import ListNotations.
Open Scope N_scope.

(** The segment a queued fragment will become. *)
Definition frag_seg (block : list N) (f : rfrag) : dseg :=
  mkSeg (rf_flags f) (rf_off f) (slice block (rf_off f) (rf_len f)) (if rf_flags f =? 0 then None else Some (rf_csn f, rf_rsn f)).
Definition gfrag (block : list N) (red : N) (f : rfrag) : Prop :=
  1 <= rf_len f /\ rf_off f + rf_len f <= size_of block /\ rf_flags f <= 3 /\ segment_of block red (frag_seg block f).
(** Occurrences of checkpoint serial numbers. *)
Definition occ := (N * N * N)%type.
Definition frag_occ (f : rfrag) : list occ := if rf_flags f =? 0 then [] else [(rf_csn f, rf_off f, rf_len f)].
Definition seg_occ (sg : dseg) : list occ :=
  if sg_flags sg <=? 3 then match sg_ckpt sg with Some (csn, _) => [(csn, sg_off sg, sg_len sg)] | None => [] end else [].
Definition o_csn (o : occ) : N := fst (fst o).
Definition functional (l : list occ) : Prop := forall a b, In a l -> In b l -> o_csn a = o_csn b -> a = b.
Definition occ_ok (l : list occ) (csn : N) : Prop := functional l /\ forall a, In a l -> o_csn a < csn.

Lemma occ_ok_sub l l' csn csn' : occ_ok l csn -> (forall a, In a l' -> In a l) -> csn <= csn' -> occ_ok l' csn'.
Proof. intros (A & B) H1 H2. split; [intros a b Ha Hb; apply A; auto|]. intros a Ha. specialize (B a (H1 a Ha)). lia. Qed.
Lemma occ_ok_app l new csn csn' : occ_ok l csn -> functional new -> (forall a, In a new -> csn <= o_csn a < csn') -> csn <= csn' ->
  occ_ok (l ++ new) csn'.
Proof.
  intros (A & B) F H Hc. split.
  - intros a b Ha Hb E. apply in_app_iff in Ha, Hb. destruct Ha as [Ha|Ha], Hb as [Hb|Hb]; auto.
    + specialize (B a Ha). specialize (H b Hb). lia.
    + specialize (B b Hb). specialize (H a Ha). lia.
  - intros a Ha. apply in_app_iff in Ha. destruct Ha as [Ha|Ha]; [specialize (B a Ha)|specialize (H a Ha)]; lia.
Qed.
Lemma functional_nil : functional []. Proof. intros a b []. Qed.
Lemma functional_one x : functional [x]. Proof. intros a b [<-|[]] [<-|[]]; auto. Qed.

(** st' is st with good fragments appended to the resend queue. *)
Definition grown (block : list N) (red : N) (st st' : tx) : Prop := exists new csn',
  st' = tup_resend st csn' (tx_resend st ++ new) /\ Forall (gfrag block red) new /\ functional (flat_map frag_occ new) /\
  (forall a, In a (flat_map frag_occ new) -> tx_csn st <= o_csn a < csn') /\ tx_csn st <= csn'.
Lemma grown_refl block red st : grown block red st st.
Proof.
  exists [], (tx_csn st). rewrite app_nil_r. repeat split; auto; try lia.
  - destruct st; reflexivity.
  - apply functional_nil.
  - destruct H. 
  - destruct H.
Qed.
Lemma grown_trans block red a b c : grown block red a b -> grown block red b c -> grown block red a c.
Proof.
  intros (n1 & c1 & -> & F1 & U1 & O1 & L1) (n2 & c2 & -> & F2 & U2 & O2 & L2). cbn [tx_csn tx_resend tup_resend] in *.
  exists (n1 ++ n2), c2. split; [now rewrite app_assoc|]. split; [now apply Forall_app|]. rewrite flat_map_app.
  assert (K : occ_ok (flat_map frag_occ n1 ++ flat_map frag_occ n2) c2).
  { apply (occ_ok_app _ _ c1); auto. split; auto. intros x Hx. specialize (O1 x Hx). lia. }
  split; [apply K|]. split; [|lia]. intros x Hx. split; [|now apply K].
  apply in_app_iff in Hx. destruct Hx as [Hx|Hx]; [specialize (O1 x Hx)|specialize (O2 x Hx)]; lia.
Qed.

Lemma resend_range_ok block red c rsn e lf : 1 <= sc_mtu c -> red <= size_of block -> size_of block < W64 -> e < red -> (lf = false -> e + 1 < red) ->
  forall fuel idx st, tx_block st = block -> tx_red st = red -> tx_csn st + 1 < W64 -> e + 1 - idx <= N.of_nat fuel ->
  exists st', resend_range fuel c rsn e lf idx st = Some st' /\ grown block red st st'.
Proof.
  intros Hm Hr HW He Hlf. induction fuel as [|fuel IH]; intros idx st HB HR Hc Hf.
  - rewrite resend_range_stop by lia. eauto using grown_refl.
  - cbn [resend_range]. destruct (idx <=? e) eqn:Ei; [|eauto using grown_refl].
    rewrite sub64_small, (add64_small (e - idx)) by lia. set (bytes := N.min (e - idx + 1) (sc_mtu c)).
    assert (Hb : 1 <= bytes /\ idx + bytes <= e + 1) by (unfold bytes; lia). clearbody bytes. destruct Hb as (Hb1 & Hb2).
    rewrite (add64_small idx bytes), (add64_small e 1), (add64_small bytes idx) by lia. rewrite HR.
    assert (Hsz : tx_size st = size_of block) by (unfold tx_size, size_of; now rewrite HB). rewrite Hsz.
    match goal with |- context [resend_range fuel c rsn e lf (idx + bytes) ?x] => set (s1 := x) end.
    assert (G : grown block red st s1 /\ (lf && (idx + bytes =? e + 1) = true \/ tx_csn s1 = tx_csn st)).
    { unfold s1. split.
      - eexists _, _. split; [reflexivity|].
        assert (Hl : N.of_nat (length (slice block idx bytes)) = bytes) by (apply slice_len; lia).
        rewrite (add64_small (tx_csn st)) by lia. split.
        + constructor; [|constructor]. unfold gfrag, frag_seg, segment_of, is_red, ends_red_part, ends_block, is_checkpoint, sg_len.
          cbn [rf_flags rf_off rf_len rf_csn rf_rsn sg_flags sg_off sg_data sg_ckpt]. rewrite Hl.
          split; [lia|]. split; [lia|]. clear - Hb1 Hb2 He Hlf Hr.
          destruct lf; cbn [andb].
          * destruct (idx + bytes =? e + 1) eqn:E1; cbn [negb].
            -- destruct (bytes + idx =? red) eqn:E2; cbn [negb]; [destruct (red =? size_of block) eqn:E3|];
                 (split; [lia|]; split; [lia|]; split; [lia|]; split; [reflexivity|]; left; repeat split; intros; try lia; try (eexists; reflexivity)).
            -- split; [lia|]; split; [lia|]; split; [lia|]; split; [reflexivity|]; left; repeat split; intros; try lia.
               destruct H as (? & H). change (None = Some x) in H. discriminate.
          * specialize (Hlf eq_refl). cbn [negb]. split; [lia|]; split; [lia|]; split; [lia|]; split; [reflexivity|]; left; repeat split; intros; try lia.
            destruct H as (? & H). change (None = Some x) in H. discriminate.
        + cbn [flat_map]. rewrite app_nil_r. unfold frag_occ. cbn [rf_flags rf_csn rf_off rf_len].
          destruct (lf && (idx + bytes =? e + 1)); cbn [negb].
          * split; [destruct (_ =? 0); [apply functional_nil|apply functional_one]|]. split; [|lia].
            intros a Ha. destruct (_ =? 0); [destruct Ha|]. destruct Ha as [<-|[]]. unfold o_csn. cbn. lia.
          * split; [apply functional_nil|]. split; [|lia]. intros a [].
      - destruct (lf && _); [now left|now right]. }
    destruct G as (G & Hg). destruct Hg as [Hg|Hg].
    + assert (idx + bytes = e + 1) by lia. rewrite resend_range_stop by lia. eauto.
    + destruct (IH (idx + bytes) s1) as (st' & E & G'); auto; try (rewrite Hg; lia); try lia.
      exists st'. split; auto. eapply grown_trans; eauto.
Qed.

Lemma grown_keeps block red st st' : grown block red st st' -> tx_block st' = tx_block st /\ tx_red st' = tx_red st /\ tx_pending st' = tx_pending st.
Proof. intros (n & c & -> & _). repeat split. Qed.

Lemma resend_report_ok block red c rsn : 1 <= sc_mtu c -> red <= size_of block -> size_of block < W64 ->
  forall fs st, canonical fs -> (forall i, covers fs i -> i < red) -> tx_block st = block -> tx_red st = red -> tx_csn st + 1 < W64 ->
  exists st', resend_report c rsn fs st = Some st' /\ grown block red st st'.
Proof.
  intros Hm Hr HW. induction fs as [|[b e] fs IH]; intros st Hc Hcov HB HR Hk; cbn [resend_report]; [eauto using grown_refl|].
  pose proof (canonical_In _ _ Hc (or_introl eq_refl)) as (V & _). cbn [fst snd] in V.
  assert (He : e < red) by (apply Hcov; exists (b, e); split; [now left|]; unfold in_frag; cbn; lia).
  assert (Hlf : (match fs with [] => true | _ => false end) = false -> e + 1 < red).
  { destruct fs as [|[b2 e2] fs]; [discriminate|]. intros _. pose proof (canonical_head_lt (b, e) _ (b2, e2) Hc (or_introl eq_refl)) as H. cbn [fst snd] in H.
    assert (V2 : valid (b2, e2)) by (apply (canonical_In _ _ Hc); right; now left). destruct V2 as (V2 & _). cbn [fst snd] in V2.
    assert (b2 < red) by (apply Hcov; exists (b2, e2); split; [right; now left|]; unfold in_frag; cbn; lia). lia. }
  destruct (resend_range_ok block red c rsn e _ Hm Hr HW He Hlf (S (N.to_nat (e - b))) b st HB HR Hk ltac:(lia)) as (s1 & E & G).
  rewrite E. pose proof (grown_keeps _ _ _ _ G) as (K1 & K2 & _).
  pose proof (resend_range_frame _ _ _ _ _ _ _ _ E) as (_ & _ & Fr). specialize (Fr Hk).
  destruct fs as [|x fs]; [cbn; eauto|].
  destruct (IH s1) as (st' & E' & G').
  - apply canonical_cons in Hc. tauto.
  - intros i Hi. apply Hcov. rewrite covers_cons. now right.
  - congruence.
  - congruence.
  - lia.
  - exists st'. split; auto. eapply grown_trans; eauto.
Qed.

Lemma resend_reports_ok block red c : 1 <= sc_mtu c -> red <= size_of block -> size_of block < W64 ->
  forall l st, Forall (fun p => canonical (snd p) /\ forall i, covers (snd p) i -> i < red) l -> tx_block st = block -> tx_red st = red ->
  tx_csn st + N.of_nat (length l) < W64 ->
  exists st', resend_reports c l st = Some st' /\ grown block red st st'.
Proof.
  intros Hm Hr HW. induction l as [|[rsn fs] l IH]; intros st F HB HR Hk; cbn [resend_reports]; [eauto using grown_refl|].
  pose proof (Forall_inv F) as (F1 & F2). apply Forall_inv_tail in F. cbn [snd length] in *.
  destruct (resend_report_ok block red c rsn Hm Hr HW fs st F1 F2 HB HR ltac:(lia)) as (s1 & E & G). rewrite E.
  pose proof (grown_keeps _ _ _ _ G) as (K1 & K2 & _). pose proof (resend_report_frame _ _ _ _ _ E) as (_ & _ & Fr). specialize (Fr ltac:(lia)).
  destruct (IH s1 F ltac:(congruence) ltac:(congruence) ltac:(lia)) as (st' & E' & G'). exists st'. split; auto. eapply grown_trans; eauto.
Qed.

(** The invariant of the sender. have: bytes the receiver holds; fwd: data segments sent so far. *)
Definition occs (fwd : list dseg) (st : tx) : list occ :=
  flat_map seg_occ fwd ++ flat_map frag_occ (tx_timers st) ++ flat_map frag_occ (tx_resend st).
Record sinv (block : list N) (red csn0 k : N) (have : N -> Prop) (fwd : list dseg) (st : tx) : Prop := {
  si_block : tx_block st = block;
  si_red : tx_red st = red;
  si_idx : tx_idx st <= size_of block;
  si_acked : canonical (tx_acked st);
  si_have : forall i, covers (tx_acked st) i -> have i;
  si_resend : Forall (gfrag block red) (tx_resend st);
  si_timers : Forall (fun f => gfrag block red f /\ rf_flags f <> 0) (tx_timers st);
  si_pend : Forall (fun p => fst (fst p) <= snd (fst p) /\ snd (fst p) < red) (tx_pending st);
  si_occ : occ_ok (occs fwd st) (tx_csn st);
  si_fwd : Forall (segment_of block red) fwd;
  si_csn : csn_ok csn0 k st;
  si_all : tx_allred st = true -> forall i, i < red -> covers (tx_acked st) i;
  si_notes : In Completed (tx_notes st) -> tx_idx st = size_of block /\ forall i, i < red -> covers (tx_acked st) i }.

Lemma sinv_have block red csn0 k (have have' : N -> Prop) fwd st : (forall i, have i -> have' i) ->
  sinv block red csn0 k have fwd st -> sinv block red csn0 k have' fwd st.
Proof. intros H []. constructor; auto. Qed.
Lemma sinv_k block red csn0 k have fwd st : sinv block red csn0 k have fwd st -> sinv block red csn0 (k + 1) have fwd st.
Proof. intros []. constructor; auto. unfold csn_ok in *. lia. Qed.

Lemma acked_all_red_spec st : canonical (tx_acked st) -> tx_red st < W64 -> acked_all_red st = true -> forall i, i < tx_red st -> covers (tx_acked st) i.
Proof.
  unfold acked_all_red. intros Hc Hr. destruct (tx_acked st) as [|[b e] [|y l]] eqn:Ea; try discriminate. intros H i Hi.
  rewrite sub64_small in H by lia. exists (b, e). split; [now left|]. unfold in_frag. cbn. lia.
Qed.

Lemma tx_notify_same n st : exists m, tx_notify n st = mkTx (tx_block st) (tx_red st) (tx_idx st) (tx_csn st) (tx_cnt st) (tx_acked st) (tx_rsns st) (tx_ras st)
    (tx_resend st) (tx_timers st) (tx_pending st) (tx_largest st) (tx_allred st) true (tx_initial st) m /\ (m = tx_notes st \/ m = tx_notes st ++ [n]).
Proof.
  unfold tx_notify. destruct (tx_noted st) eqn:E; [|eexists; split; [reflexivity|auto]]. exists (tx_notes st). split; [|auto]. destruct st; cbn in *. now subst.
Qed.
Lemma sinv_notify block red csn0 k have fwd n st : (n = Completed -> tx_idx st = size_of block /\ forall i, i < red -> covers (tx_acked st) i) ->
  sinv block red csn0 k have fwd st -> sinv block red csn0 k have fwd (tx_notify n st).
Proof.
  intros Hn []. destruct (tx_notify_same n st) as (m & -> & Hm). constructor; auto. cbn [tx_notes tx_idx tx_acked].
  intros H. destruct Hm as [->| ->]; [auto|]. apply in_app_iff in H. destruct H as [H|[H|[]]]; auto.
Qed.

Lemma first_pass_end_notes st : In Completed (tx_notes (first_pass_end st)) ->
  In Completed (tx_notes st) \/ (tx_idx st = tx_size st /\ (tx_red st = 0 \/ acked_all_red st = true)).
Proof.
  unfold first_pass_end. destruct (tx_idx st =? tx_size st) eqn:E; [|auto]. apply N.eqb_eq in E. cbn [tx_red tup_initial].
  destruct (tx_red st =? 0) eqn:E2; [apply N.eqb_eq in E2; auto|]. change (acked_all_red (tup_initial st)) with (acked_all_red st).
  destruct (acked_all_red st); auto.
Qed.
Lemma tx_first_notes c st st' o : tx_first c st = Some (st', o) -> In Completed (tx_notes st') ->
  In Completed (tx_notes st) \/ (tx_idx st' = tx_size st' /\ (tx_red st' = 0 \/ acked_all_red st' = true)).
Proof.
  unfold tx_first. destruct (_ <? _); [|intros E; injection E as <- <-; auto].
  destruct (_ <? _); (destruct (block_bytes _ _ _); [|discriminate]); intros E; injection E as <- <-; intros H;
    (match type of H with In _ (tx_notes (first_pass_end ?x)) =>
      apply first_pass_end_notes in H; destruct (first_pass_end_frame x) as ((F1 & F2 & F3 & _) & _ & _ & _ & F8 & _) end);
    unfold tx_size, acked_all_red in *; rewrite F1, F2, F3, F8; exact H.
Qed.

Lemma start_timer_In f l x : In x (start_timer f l) -> x = f \/ In x l.
Proof. unfold start_timer. destruct (existsb _ _); [auto|]. intros [<-|H]; auto. Qed.

Lemma tx_first_inv block red csn0 k have fwd c st : 1 <= sc_mtu c -> red <= size_of block -> size_of block < W64 -> csn0 + k + 1 < W64 ->
  sinv block red csn0 k have fwd st ->
  exists st' o, tx_first c st = Some (st', o) /\
    sinv block red csn0 (k + 1) have (fwd ++ match o with Some (PData sg) => [sg] | _ => [] end) st'.
Proof.
  intros Hm Hr HW Hk I. destruct (N.lt_ge_cases (tx_idx st) (size_of block)) as [Hl|Hl].
  2:{ rewrite tx_first_done by (unfold tx_size; rewrite (si_block _ _ _ _ _ _ _ I); exact Hl). eexists _, _. split; [reflexivity|]. rewrite app_nil_r. now apply sinv_k. }
  destruct (tx_first_step block red c st (si_block _ _ _ _ _ _ _ I) (si_red _ _ _ _ _ _ _ I) Hm Hr HW Hl)
    as (st' & sg & F & S & O & Ln & B1 & R1 & I1 & Q1 & A1 & RS1 & AL1 & _ & D).
  eexists _, _. split; [exact F|]. destruct I. cbn [app].
  assert (Hidx : tx_idx st' <= size_of block) by (destruct S as (_ & S & _); lia).
  constructor; auto.
  - now rewrite A1.
  - now rewrite A1.
  - now rewrite RS1.
  - destruct D as [(_ & _ & ->)|(D1 & D2 & ->)]; auto. apply Forall_forall. intros x Hx. apply start_timer_In in Hx. destruct Hx as [->|Hx].
    + cbn [rf_flags]. pose proof S as (S1 & S2 & S3 & S4).
      assert (Hck : sg_flags sg <> 0 /\ sg_flags sg <= 3).
      { destruct S4 as [(X1 & _ & _ & _ & X5)|(X1 & X2 & _)].
        - unfold is_red, is_checkpoint in *. split; [|lia]. assert (exists p, sg_ckpt sg = Some p) by eauto. apply X5 in H. lia.
        - (* a green segment carries no checkpoint *)
          exfalso. rewrite O in *. unfold tx_first in F. rewrite si_red0 in F. unfold tx_size in F. rewrite si_block0 in F. fold (size_of block) in F.
          replace (tx_idx st <? size_of block) with true in F by lia. replace (tx_idx st <? red) with false in F by lia.
          destruct (block_bytes _ _ _); [|discriminate]. injection F as _ <-. discriminate D1. }
      destruct Hck as (Hck1 & Hck2). split; [|exact Hck1]. unfold gfrag. cbn [rf_len rf_off rf_flags]. repeat (split; [lia|]).
      unfold frag_seg. cbn [rf_len rf_off rf_flags rf_csn rf_rsn]. replace (sg_flags sg =? 0) with false by lia. rewrite <- S3, <- D1. destruct sg; exact S.
    + rewrite Forall_forall in si_timers0. auto.
  - now rewrite Q1.
  - unfold occs. rewrite RS1. destruct D as [(D1 & D2 & D3)|(D1 & D2 & D3)]; rewrite D2, D3.
    + apply (occ_ok_sub _ _ _ _ si_occ0); [|lia]. intros a. rewrite flat_map_app. unfold occs. rewrite !in_app_iff.
      cbn [flat_map]. unfold seg_occ at 2. rewrite D1. destruct (sg_flags sg <=? 3); cbn; tauto.
    + unfold csn_ok in si_csn0. rewrite add64_small by lia.
      assert (K : occ_ok (occs fwd st ++ [(tx_csn st, sg_off sg, sg_len sg)]) (tx_csn st + 1)).
      { apply (occ_ok_app _ _ (tx_csn st)); auto; [apply functional_one| |lia]. intros a [<-|[]]. unfold o_csn. cbn. lia. }
      apply (occ_ok_sub _ _ _ _ K); [|lia]. intros a. rewrite flat_map_app. unfold occs. rewrite !in_app_iff. cbn [flat_map].
      intros [[H|H]|[H|H]]; auto.
      * rewrite app_nil_r in H. unfold seg_occ in H. rewrite D1 in H. destruct (_ <=? 3); [|destruct H]. destruct H as [<-|[]]. right. now left.
      * apply in_flat_map in H. destruct H as (x & Hx & Ha). apply start_timer_In in Hx. destruct Hx as [->|Hx].
        -- unfold frag_occ in Ha. cbn [rf_flags rf_csn rf_off rf_len] in Ha. destruct (_ =? 0); [destruct Ha|]. destruct Ha as [<-|[]]. right. now left.
        -- left. right. left. apply in_flat_map. eauto.
  - apply Forall_app. auto.
  - unfold csn_ok in *. rewrite Q1. destruct D as [(_ & -> & _)|(_ & -> & _)]; [lia|]. rewrite add64_small by lia. lia.
  - rewrite AL1, A1. exact si_all0.
  - intros H. destruct (tx_first_notes _ _ _ _ F H) as [H'|(H1 & H2)]; [destruct (si_notes0 H'); lia|].
    unfold tx_size in H1. rewrite B1 in H1. split; [exact H1|]. destruct H2 as [H2|H2]; [rewrite R1 in H2; lia|].
    intros i Hi. rewrite <- R1 in Hi. apply acked_all_red_spec; auto; [now rewrite A1|lia].
Qed.

Lemma frag_seg_len block f : rf_off f + rf_len f <= size_of block -> sg_len (frag_seg block f) = rf_len f.
Proof. intros H. unfold sg_len, frag_seg. cbn [sg_data]. now apply slice_len. Qed.

Lemma tx_critical_inv block red csn0 k have fwd st : size_of block < W64 ->
  sinv block red csn0 k have fwd st ->
  exists st' o, tx_critical st = Some (st', o) /\
    sinv block red csn0 (k + 1) have (fwd ++ match o with Some (PData sg) => [sg] | _ => [] end) st'.
Proof.
  intros HW I. unfold tx_critical. destruct (tx_ras st) as [|r q] eqn:Er.
  2:{ eexists _, _. split; [reflexivity|]. rewrite app_nil_r. apply sinv_k. destruct I. constructor; auto. }
  unfold tx_resend_next. destruct (tx_allred st) eqn:Ea.
  { eexists _, _. split; [reflexivity|]. rewrite app_nil_r. apply sinv_k. destruct I. constructor; auto.
    - constructor.
    - apply (occ_ok_sub _ _ _ _ si_occ0); [|cbn; lia]. intros a. unfold occs. cbn [tx_timers tx_resend tup_queues flat_map]. rewrite !in_app_iff. cbn. tauto. }
  destruct (tx_resend st) as [|f q] eqn:Eq.
  { eexists _, _. split; [reflexivity|]. rewrite app_nil_r. now apply sinv_k. }
  destruct I. rewrite Eq in si_resend0. pose proof (Forall_inv si_resend0) as G. apply Forall_inv_tail in si_resend0. pose proof G as (G1 & G2 & G3 & G4).
  rewrite block_bytes_slice by (unfold tx_size; rewrite si_block0; exact G2). rewrite si_block0.
  eexists _, _. split; [reflexivity|].
  assert (Hsg : mkSeg (rf_flags f) (rf_off f) (slice block (rf_off f) (rf_len f)) (if negb (rf_flags f =? 0) then Some (rf_csn f, rf_rsn f) else None) = frag_seg block f).
  { unfold frag_seg. destruct (rf_flags f =? 0); reflexivity. }
  rewrite Hsg. apply sinv_k. constructor; auto.
  - cbn [tx_timers tup_queues]. destruct (rf_flags f =? 0) eqn:E0; cbn [negb]; auto. apply Forall_forall. intros x Hx. apply start_timer_In in Hx.
    destruct Hx as [->|Hx]; [split; auto; lia|]. rewrite Forall_forall in si_timers0. auto.
  - apply (occ_ok_sub _ _ _ _ si_occ0); [|cbn; lia]. intros a. unfold occs. cbn [tx_timers tx_resend tup_queues]. rewrite Eq. rewrite flat_map_app. cbn [flat_map]. rewrite app_nil_r.
    assert (Hf : In a (seg_occ (frag_seg block f)) -> In a (frag_occ f)).
    { unfold seg_occ, frag_occ. rewrite frag_seg_len by exact G2. unfold frag_seg. cbn [sg_flags sg_ckpt sg_off]. destruct (rf_flags f <=? 3); [|intros []]. destruct (rf_flags f =? 0); auto. }
    rewrite !in_app_iff. intros [[H|H]|[H|H]]; auto.
    destruct (negb (rf_flags f =? 0)); [|auto]. apply in_flat_map in H. destruct H as (x & Hx & Ha). apply start_timer_In in Hx. destruct Hx as [->|Hx]; [auto|].
    right. left. apply in_flat_map. eauto.
  - apply Forall_app. auto.
Qed.

Lemma filter_timers (P : rfrag -> bool) l a : In a (flat_map frag_occ (filter P l)) -> In a (flat_map frag_occ l).
Proof. rewrite !in_flat_map. intros (x & Hx & Ha). apply filter_In in Hx. exists x. tauto. Qed.
Lemma Forall_filter {A} (P : A -> Prop) f l : Forall P l -> Forall P (filter f l).
Proof. rewrite !Forall_forall. intros H x Hx. apply filter_In in Hx. apply H. tauto. Qed.

Lemma sinv_drop_timers block red csn0 k have fwd st ras P : sinv block red csn0 k have fwd st ->
  sinv block red csn0 k have fwd (tup_queues st ras (tx_resend st) (filter P (tx_timers st))).
Proof.
  intros []. constructor; auto.
  - now apply Forall_filter.
  - apply (occ_ok_sub _ _ _ _ si_occ0); [|cbn; lia]. intros a. unfold occs. cbn [tx_timers tx_resend tup_queues]. rewrite !in_app_iff.
    intros [H|[H|H]]; auto. right. left. now apply filter_timers in H.
Qed.

Lemma tx_ck_timer_inv block red csn0 k have fwd c csn st : sinv block red csn0 k have fwd st ->
  sinv block red csn0 (k + 1) have fwd (tx_ck_timer c csn st).
Proof.
  intros I. apply sinv_k. unfold tx_ck_timer. destruct (find _ (tx_timers st)) as [f|] eqn:Ef; auto. apply find_some in Ef. destruct Ef as (Hin & _).
  match goal with |- context [tup_queues st ?a ?b ?d] => pose proof (sinv_drop_timers block red csn0 k have fwd st a (fun t => negb (rf_csn t =? csn)) I) as I1; set (s1 := tup_queues st a b d) in * end.
  destruct (rf_retry f <=? sc_retries c); [|apply sinv_notify; [discriminate|exact I1]].
  destruct (_ && _); [exact I1|].
  destruct I as [_ _ _ _ _ _ HT _ HO _ _ _ _]. rewrite Forall_forall in HT. destruct (HT f Hin) as (Gf & Gz).
  assert (Sub : forall a, In a (occs fwd (tup_queues s1 (tx_ras s1) (tx_resend s1 ++ [mkRfrag (rf_off f) (rf_len f) (rf_csn f) (rf_rsn f) (rf_flags f) (rf_retry f + 1)]) (tx_timers s1))) -> In a (occs fwd st)).
  { intros a. unfold occs, s1. cbn [tx_timers tx_resend tup_queues]. rewrite flat_map_app. rewrite !in_app_iff. intros [H|[H|[H|H]]]; auto.
    - apply filter_timers in H. auto.
    - right. left. apply in_flat_map. exists f. split; auto. cbn in H. rewrite app_nil_r in H. unfold frag_occ in *. cbn in H. exact H. }
  destruct I1. constructor; auto.
  - cbn [tx_resend tup_queues]. apply Forall_app. split; [exact si_resend0|]. constructor; [exact Gf|constructor].
  - exact (occ_ok_sub _ _ _ _ HO Sub (N.le_refl _)).
Qed.

Lemma grown_inv block red csn0 k k' have fwd st st' : sinv block red csn0 k have fwd st -> grown block red st st' -> csn_ok csn0 k' st' ->
  sinv block red csn0 k' have fwd st'.
Proof.
  intros [] (new & c' & -> & F & U & O & L) Hk. constructor; auto.
  - apply Forall_app. auto.
  - cbn [tx_csn tup_resend]. apply (occ_ok_sub (occs fwd st ++ flat_map frag_occ new) _ c'); [|unfold occs; cbn [tx_timers tx_resend tup_resend]; intros a; rewrite flat_map_app, !in_app_iff; tauto|lia].
    apply (occ_ok_app _ _ (tx_csn st)); auto.
Qed.

Lemma tx_delay_timer_inv block red csn0 k have fwd c st : 1 <= sc_mtu c -> red <= size_of block -> size_of block < W64 -> csn0 + k + 1 < W64 ->
  sinv block red csn0 k have fwd st ->
  exists st', tx_delay_timer c st = Some st' /\ sinv block red csn0 (k + 1) have fwd st'.
Proof.
  intros Hm Hr HW Hk I. pose proof I as I0. destruct I.
  assert (HV : Forall (fun p => valid (fst p)) (tx_pending st)).
  { eapply Forall_impl; [|exact si_pend0]. intros [[a b] r] (H1 & H2). unfold valid. cbn [fst snd] in *. lia. }
  destruct (reduce_spec (sc_last c) (tx_pending st) (tx_acked st) si_acked0 HV) as (R1 & _ & _).
  pose proof (reduce_length (sc_last c) (tx_pending st) (tx_acked st)) as RL. unfold csn_ok in si_csn0.
  destruct (resend_reports_ok block red c Hm Hr HW (reduce_reports (sc_last c) (tx_pending st) (tx_acked st)) st) as (s1 & E & G); auto.
  { eapply Forall_impl; [|exact R1]. intros p (A & _ & b & B & C). split; auto. intros i Hi. apply C in Hi. rewrite Forall_forall in si_pend0. specialize (si_pend0 _ B). unfold in_frag in Hi. cbn [fst snd] in *. lia. }
  { unfold reduce_reports. lia. }
  pose proof (resend_reports_frame _ _ _ _ E) as (_ & P1 & P2). unfold reduce_reports in *. specialize (P2 ltac:(lia)).
  unfold tx_delay_timer, reduce_reports. rewrite E. eexists. split; [reflexivity|].
  assert (I1 : sinv block red csn0 (k + N.of_nat (length (tx_pending st))) have fwd s1).
  { eapply grown_inv; eauto. unfold csn_ok. rewrite P1. lia. }
  destruct I1. constructor; auto; [constructor|]. unfold csn_ok. cbn [tx_csn tx_pending tup_pending length]. lia.
Qed.

Lemma tx_resend_for_inv block red csn0 k have fwd c r st : 1 <= sc_mtu c -> red <= size_of block -> size_of block < W64 -> csn0 + k + 1 < W64 ->
  rs_lower (rp_rep r) < rs_upper (rp_rep r) -> rs_upper (rp_rep r) <= red -> sinv block red csn0 k have fwd st ->
  exists st', tx_resend_for c r st = Some st' /\ sinv block red csn0 (k + 1) have fwd st'.
Proof.
  intros Hm Hr HW Hk H1 H2 I. pose proof I as I0. destruct I. unfold tx_resend_for. rewrite sub64_small by lia.
  set (bounds := (rs_lower (rp_rep r), rs_upper (rp_rep r) - 1)). assert (HV : valid bounds) by (unfold valid, bounds; cbn; lia).
  destruct (bounds_minus_spec (sc_last c) bounds (tx_acked st) HV si_acked0) as (B1 & B2).
  set (need := bounds_minus (sc_last c) bounds (tx_acked st)) in *. unfold csn_ok in si_csn0.
  destruct (negb (sc_defer c)).
  - destruct (resend_report_ok block red c (rp_rsn r) Hm Hr HW need st) as (st' & E & G); auto; [|lia|].
    { intros i Hi. apply B2 in Hi. unfold in_frag, bounds in Hi. cbn in Hi. lia. }
    exists st'. split; auto. eapply grown_inv; eauto. pose proof (resend_report_frame _ _ _ _ _ E) as (_ & P1 & P2). specialize (P2 ltac:(lia)). unfold csn_ok. rewrite P1. lia.
  - assert (Hb : fst bounds <= snd bounds /\ snd bounds < red) by (unfold bounds; cbn; lia).
    destruct (tx_pending st) as [|x p] eqn:Ep.
    + destruct need; eexists; (split; [reflexivity|]); [now apply sinv_k|]. constructor; auto; [constructor; auto|]. unfold csn_ok. cbn. lia.
    + pose proof (ds_emplace_length bounds (rp_rsn r) (x :: p)) as HL.
      assert (HI : forall e, In e (ds_emplace bounds (rp_rsn r) (x :: p)) -> e = (bounds, rp_rsn r) \/ In e (x :: p)).
      { generalize (x :: p). induction l as [|y l IH]; intros e; cbn; [intros [<-|[]]; auto|]. destruct (lex_lt _ _); cbn.
        - intros [<-|H]; auto. destruct (IH e H); auto.
        - destruct (lex_lt _ _); cbn; [|auto]. intros [<-|H]; auto. }
      set (em := ds_emplace bounds (rp_rsn r) (x :: p)) in *. clearbody em.
      destruct (contains_entirely _ _ _); eexists; (split; [reflexivity|]); constructor; auto.
      * cbn. constructor.
      * unfold csn_ok. cbn [tx_csn tx_pending tup_pending length] in *. lia.
      * cbn [tx_pending tup_pending]. apply Forall_forall. intros e He. destruct (HI e He) as [->|He']; [exact Hb|]. rewrite Forall_forall in si_pend0. auto.
      * unfold csn_ok. cbn [tx_csn tx_pending tup_pending length] in *. lia.
Qed.

Lemma tx_report_inv block red csn0 k have fwd c r st : 1 <= sc_mtu c -> red <= size_of block -> size_of block < W64 -> csn0 + k + 1 < W64 ->
  rep_ok red have (rp_rep r) -> sinv block red csn0 k have fwd st ->
  exists st', tx_report c r st = Some st' /\ sinv block red csn0 (k + 1) have fwd st'.
Proof.
  intros Hm Hr HW Hk ((WF & Hup & _) & Hcl) I. unfold tx_report. cbn [tx_rsns tup_queues].
  assert (I1 : forall ras, sinv block red csn0 k have fwd (tup_queues st ras (tx_resend st) (tx_timers st))).
  { intros ras. destruct I. constructor; auto. }
  destruct (existsb _ _). { eexists. split; [reflexivity|]. apply sinv_k, I1. }
  match goal with |- context [add_report _ (tx_acked ?x) _] => set (s1 := x) end.
  assert (I2 : sinv block red csn0 k have fwd s1).
  { unfold s1. destruct (rp_csn r =? 0); [apply I1|]. cbn [tx_ras tx_resend tx_timers tup_queues].
    change (tup_queues (tup_queues st (tx_ras st ++ [rp_rsn r]) (tx_resend st) (tx_timers st)) (tx_ras st ++ [rp_rsn r]) (tx_resend st)
       (filter (fun t => negb (rf_csn t =? rp_csn r)) (tx_timers st))) with (tup_queues st (tx_ras st ++ [rp_rsn r]) (tx_resend st)
       (filter (fun t => negb (rf_csn t =? rp_csn r)) (tx_timers st))). now apply sinv_drop_timers. }
  clearbody s1. destruct (add_report_spec (sc_last c) (rp_rep r) false WF (tx_acked s1) (si_acked _ _ _ _ _ _ _ I2)) as (A1 & A2 & A3).
  destruct (add_report (sc_last c) (tx_acked s1) (rp_rep r)) as [acked new]. cbn [fst snd] in *.
  assert (I3 : forall rsns al, (al = true -> forall i, i < red -> covers acked i) -> sinv block red csn0 k have fwd (tup_acks s1 acked rsns al)).
  { intros rsns al Hal. destruct I2. constructor; auto.
    - intros i Hi. cbn [tx_acked tup_acks] in Hi. apply A2 in Hi. destruct Hi; auto.
    - cbn [tx_notes tx_idx tx_acked tup_acks]. intros H. destruct (si_notes0 H) as (X & Y). split; auto. intros i Hi. apply A2. auto. }
  assert (Hold : tx_allred s1 = true -> forall i, i < red -> covers acked i).
  { intros H i Hi. apply A2. left. now apply (si_all _ _ _ _ _ _ _ I2). }
  destruct (negb new). { eexists. split; [reflexivity|]. apply sinv_k, I3. exact Hold. }
  cbn [tx_rsns tup_acks tx_allred].
  assert (Hall : tx_allred s1 || acked_all_red (tup_acks s1 acked (rp_rsn r :: tx_rsns st) (tx_allred s1)) = true -> forall i, i < red -> covers acked i).
  { intros H. apply orb_prop in H. destruct H as [H|H]; [now apply Hold|]. intros i Hi. refine (acked_all_red_spec (tup_acks s1 acked (rp_rsn r :: tx_rsns st) (tx_allred s1)) A1 _ H i _).
    - cbn [tx_red tup_acks]. rewrite (si_red _ _ _ _ _ _ _ I2). lia.
    - cbn [tx_red tup_acks]. now rewrite (si_red _ _ _ _ _ _ _ I2). }
  set (al := tx_allred s1 || _) in *.
  change (tup_acks (tup_acks s1 acked (rp_rsn r :: tx_rsns st) (tx_allred s1)) acked (rp_rsn r :: tx_rsns st) al) with (tup_acks s1 acked (rp_rsn r :: tx_rsns st) al).
  specialize (I3 (rp_rsn r :: tx_rsns st) al Hall). set (s2 := tup_acks s1 acked _ al) in *.
  assert (I4 : sinv block red csn0 k have fwd (if (tx_idx s2 =? tx_size s2) && tx_allred s2 then tx_notify Completed s2 else s2)).
  { destruct (_ && _) eqn:E; auto. apply andb_prop in E. destruct E as (E1 & E2). apply N.eqb_eq in E1. apply sinv_notify; auto. intros _.
    unfold tx_size in E1. rewrite (si_block _ _ _ _ _ _ _ I3) in E1. split; [exact E1|]. apply Hall. exact E2. }
  destruct WF as (W1 & _). eapply tx_resend_for_inv; eauto.
Qed.

Lemma tx_step_inv block red csn0 k have fwd c e st : 1 <= sc_mtu c -> red <= size_of block -> size_of block < W64 -> csn0 + k + 1 < W64 ->
  (forall r, e = SvReport r -> rep_ok red have (rp_rep r)) -> sinv block red csn0 k have fwd st ->
  exists st' o, tx_step c e st = Some (st', o) /\
    sinv block red csn0 (k + 1) have (fwd ++ match o with Some (PData sg) => [sg] | _ => [] end) st'.
Proof.
  intros Hm Hr HW Hk He I. destruct e as [| |r|csn|]; cbn [tx_step].
  - now apply tx_first_inv.
  - now apply tx_critical_inv.
  - destruct (tx_report_inv block red csn0 k have fwd c r st Hm Hr HW Hk (He r eq_refl) I) as (st' & -> & I'). eexists _, _. split; [reflexivity|]. now rewrite app_nil_r.
  - eexists _, _. split; [reflexivity|]. rewrite app_nil_r. now apply tx_ck_timer_inv.
  - destruct (tx_delay_timer_inv block red csn0 k have fwd c st Hm Hr HW Hk I) as (st' & -> & I'). eexists _, _. split; [reflexivity|]. now rewrite app_nil_r.
Qed.

(** At most one notification. *)
Definition one_note (st : tx) : Prop := (tx_notes st = [] /\ tx_noted st = false) \/ (exists n, tx_notes st = [n]) /\ tx_noted st = true.
Lemma one_note_notify n st : one_note st -> one_note (tx_notify n st).
Proof. intros [(A & B)|(A & B)]; unfold tx_notify; rewrite B; [right; cbn; rewrite A; split; [exists n|]; reflexivity|now right]. Qed.
Lemma resend_range_notes c rsn e lf : forall fuel idx st st', resend_range fuel c rsn e lf idx st = Some st' ->
  tx_notes st' = tx_notes st /\ tx_noted st' = tx_noted st.
Proof.
  induction fuel as [|fuel IH]; intros idx st st' E; cbn [resend_range] in E; destruct (idx <=? e); try discriminate; try (injection E as <-; auto).
  apply IH in E. exact E.
Qed.
Lemma resend_report_notes c rsn : forall fs st st', resend_report c rsn fs st = Some st' -> tx_notes st' = tx_notes st /\ tx_noted st' = tx_noted st.
Proof.
  induction fs as [|[b e] fs IH]; intros st st' E; cbn [resend_report] in E; [injection E as <-; auto|].
  destruct (resend_range _ _ _ _ _ _ _) eqn:E1; [|discriminate]. apply resend_range_notes in E1. apply IH in E. intuition congruence.
Qed.
Lemma resend_reports_notes c : forall l st st', resend_reports c l st = Some st' -> tx_notes st' = tx_notes st /\ tx_noted st' = tx_noted st.
Proof.
  induction l as [|[b e] fs IH]; intros st st' E; cbn [resend_reports] in E; [injection E as <-; auto|].
  destruct (resend_report _ _ _ _) eqn:E1; [|discriminate]. apply resend_report_notes in E1. apply IH in E. intuition congruence.
Qed.
Lemma one_note_same a b : tx_notes a = tx_notes b /\ tx_noted a = tx_noted b -> one_note b -> one_note a.
Proof. unfold one_note. intros (-> & ->). auto. Qed.
Lemma one_note_step c e st st' o : tx_step c e st = Some (st', o) -> one_note st -> one_note st'.
Proof.
  intros E H. destruct e as [| |r|csn|]; cbn [tx_step] in E.
  - assert (FE : forall x, one_note x -> one_note (first_pass_end x)).
    { intros x Hx. unfold first_pass_end. destruct (_ =? _); auto. destruct (tx_red _ =? 0); [|destruct (acked_all_red _)]; try apply one_note_notify; exact Hx. }
    unfold tx_first in E. destruct (_ <? _); [|injection E as <- <-; auto].
    destruct (_ <? _); (destruct (block_bytes _ _ _); [|discriminate]); injection E as <- <-; apply FE; exact H.
  - unfold tx_critical, tx_resend_next in E. destruct (tx_ras st); [|injection E as <- <-; exact H]. destruct (tx_allred st); [injection E as <- <-; exact H|].
    destruct (tx_resend st); [injection E as <- <-; exact H|]. destruct (block_bytes _ _ _); [|discriminate]. injection E as <- <-; exact H.
  - destruct (tx_report c r st) as [s|] eqn:E1; [|discriminate]. injection E as <- <-. unfold tx_report in E1.
    destruct (existsb _ _); [injection E1 as <-; exact H|]. destruct (add_report _ _ _) as [acked new]. destruct (negb new); [injection E1 as <-; exact H|].
    match type of E1 with tx_resend_for c r ?x = _ => set (s1 := x) in E1 end.
    assert (H1 : one_note s1) by (unfold s1; destruct (_ && _); [apply one_note_notify|]; exact H). clearbody s1. revert E1.
    unfold tx_resend_for. destruct (negb (sc_defer c)); [intros E1; apply resend_report_notes in E1; eapply one_note_same; eauto|].
    destruct (tx_pending s1).
    + destruct (bounds_minus _ _ _); intros E1; injection E1 as <-; exact H1.
    + destruct (contains_entirely _ _ _); intros E1; injection E1 as <-; exact H1.
  - injection E as <- <-. unfold tx_ck_timer. destruct (find _ _); [|exact H]. destruct (_ <=? _); [destruct (_ && _); exact H|]. apply one_note_notify. exact H.
  - destruct (tx_delay_timer c st) as [s|] eqn:E1; [|discriminate]. injection E as <- <-. unfold tx_delay_timer in E1.
    destruct (resend_reports _ _ _) eqn:E2; [|discriminate]. injection E1 as <-. apply resend_reports_notes in E2. eapply one_note_same; [|exact H]. exact E2.
Qed.

(** The whole system. *)
Definition data_of (l : list packet) : list dseg := flat_map (fun p => match p with PData sg => [sg] | PAck _ => [] end) l.
Record yinv (block : list N) (L csn0 k : N) (y : sys) : Prop := {
  yi_r : rinv block L (y_got y) (y_r y);
  yi_s : sinv block L csn0 k (red_received (y_got y)) (data_of (y_fwd y)) (y_s y);
  yi_rev : Forall (fun p => rep_ok L (red_received (y_got y)) (rp_rep p)) (y_rev y);
  yi_got : forall sg, In sg (y_got y) -> In (PData sg) (y_fwd y);
  yi_one : one_note (y_s y) }.

Lemma data_of_In sg l : In sg (data_of l) <-> In (PData sg) l.
Proof.
  unfold data_of. rewrite in_flat_map. split.
  - intros (p & H1 & H2). destruct p as [x|x]; [destruct H2 as [<-|[]]; auto|destruct H2].
  - intros H. exists (PData sg). split; auto. now left.
Qed.
Lemma data_of_snoc l p : data_of (l ++ [p]) = data_of l ++ match p with PData sg => [sg] | PAck _ => [] end.
Proof. unfold data_of. rewrite flat_map_app. cbn. now rewrite app_nil_r. Qed.
Lemma functional_consistent segs : functional (flat_map seg_occ segs) -> csns_consistent segs.
Proof.
  intros F a b csn r r' Ha Hb Ra Rb Ca Cb. unfold is_red in *.
  assert (X : (csn, sg_off a, sg_len a) = (csn, sg_off b, sg_len b)); [|now injection X as -> ->].
  apply F; [| |reflexivity]; apply in_flat_map; [exists a|exists b]; (split; [assumption|]); unfold seg_occ; replace (_ <=? 3) with true by lia; [rewrite Ca|rewrite Cb]; now left.
Qed.
Lemma red_received_mono a b i : red_received a i -> red_received (a ++ b) i.
Proof. intros (sg & H & K). exists sg. rewrite in_app_iff. auto. Qed.

Definition confs_ok (sc : sconf) (rc : rconf) (block : list N) (L : N) : Prop :=
  1 <= sc_mtu sc /\ 1 <= rc_maxclaims rc /\ L <= rc_maxred rc /\ L <= size_of block /\ L < U64MAX /\ size_of block < W64.

Lemma on_sender_inv sc rc block L csn0 k e y : confs_ok sc rc block L -> csn0 + k + 1 < W64 ->
  (forall r, e = SvReport r -> In r (y_rev y)) -> yinv block L csn0 k y ->
  exists y', on_sender sc e y = Some y' /\ yinv block L csn0 (k + 1) y'.
Proof.
  intros (C1 & C2 & C3 & C4 & C5 & C6) Hk He []. unfold on_sender.
  destruct (tx_step_inv block L csn0 k (red_received (y_got y)) (data_of (y_fwd y)) sc e (y_s y) C1 C4 C6 Hk) as (st' & o & E & I); auto.
  { intros r ->. rewrite Forall_forall in yi_rev0. auto. }
  rewrite E. eexists. split; [reflexivity|]. constructor; auto.
  - cbn [y_got y_fwd y_s]. destruct o as [p|]; [|now rewrite app_nil_r in I]. rewrite data_of_snoc. destruct p; exact I.
  - cbn [y_got y_fwd]. intros sg H. destruct o; auto. apply in_app_iff. auto.
  - cbn [y_s]. eapply one_note_step; eauto.
Qed.
Lemma on_receiver_inv sc rc block L csn0 k e y : confs_ok sc rc block L ->
  (forall sg, In sg (seg_of_event e) -> In (PData sg) (y_fwd y)) -> yinv block L csn0 k y ->
  exists y', on_receiver rc e (seg_of_event e) y = Some y' /\ yinv block L csn0 (k + 1) y'.
Proof.
  intros (C1 & C2 & C3 & C4 & C5 & C6) He []. unfold on_receiver.
  assert (Hsub : forall sg, In sg (y_got y ++ seg_of_event e) -> In sg (data_of (y_fwd y))).
  { intros sg H. apply data_of_In. apply in_app_iff in H. destruct H; auto. }
  assert (HF : Forall (segment_of block L) (y_got y ++ seg_of_event e)).
  { pose proof (si_fwd _ _ _ _ _ _ _ yi_s0) as F. rewrite Forall_forall in *. auto. }
  assert (HC : csns_consistent (y_got y ++ seg_of_event e)).
  { apply (csns_consistent_sub _ (data_of (y_fwd y))); auto. apply functional_consistent. pose proof (si_occ _ _ _ _ _ _ _ yi_s0) as (F & _).
    intros a b Ha Hb. apply F; apply in_app_iff; auto. }
  destruct (rx_step_inv block L (y_got y) rc e (y_r y) (conj C2 C3) C5 C4 C6 HF HC yi_r0) as (st' & o & E & I & Ho).
  rewrite E. eexists. split; [reflexivity|]. constructor; auto.
  - cbn [y_s y_got y_fwd]. apply sinv_k. eapply sinv_have; [|exact yi_s0]. intros i. apply red_received_mono.
  - cbn [y_rev y_got]. assert (HH : Forall (fun p => rep_ok L (red_received (y_got y ++ seg_of_event e)) (rp_rep p)) (y_rev y)).
    { eapply Forall_impl; [|exact yi_rev0]. intros p Hp. eapply rep_ok_mono; [|exact Hp]. intros i. apply red_received_mono. }
    destruct o as [p|]; [|exact HH]. apply Forall_app. split; [exact HH|]. constructor; [|constructor].
    pose proof (rm_sent _ _ _ _ (ri_mid _ _ _ _ yi_r0)) as S. rewrite Forall_forall in S. eapply rep_ok_mono; [|apply S; apply Ho; reflexivity].
    intros i. apply red_received_mono.
  - cbn [y_got y_fwd]. intros sg H. apply in_app_iff in H. destruct H; auto.
Qed.

Lemma sys_step_inv sc rc block L csn0 k a y : confs_ok sc rc block L -> csn0 + k + 1 < W64 -> possible y a -> yinv block L csn0 k y ->
  exists y', sys_step sc rc a y = Some y' /\ yinv block L csn0 (k + 1) y'.
Proof.
  intros C Hk P I. destruct a as [| |csn| |p|r| |rsn|csn]; cbn [sys_step possible] in *.
  - apply (on_sender_inv sc rc); auto. discriminate.
  - apply (on_sender_inv sc rc); auto. discriminate.
  - apply (on_sender_inv sc rc); auto. discriminate.
  - apply (on_sender_inv sc rc); auto. discriminate.
  - destruct p as [sg|rsn].
    + apply (on_receiver_inv sc rc block L csn0 k (RvData sg) y C); auto. intros x [<-|[]]. exact P.
    + apply (on_receiver_inv sc rc block L csn0 k (RvAck rsn) y C); auto. intros x [].
  - apply (on_sender_inv sc rc); auto. intros x Hx. injection Hx as <-. exact P.
  - apply (on_receiver_inv sc rc block L csn0 k RvSend y C); auto. intros x [].
  - apply (on_receiver_inv sc rc block L csn0 k (RvReportTimer rsn) y C); auto. intros x [].
  - apply (on_receiver_inv sc rc block L csn0 k (RvDelayTimer csn) y C); auto. intros x [].
Qed.

Lemma sys_init_inv sc rc block L csn0 rsn0 : confs_ok sc rc block L -> yinv block L csn0 0 (sys_init sc csn0 rsn0 block L).
Proof.
  intros (C1 & C2 & C3 & C4 & C5 & C6). constructor; cbn; auto.
  - now apply rx_init_inv.
  - assert (Hcv : forall i, ~ covers [] i) by (intros i H; now apply covers_nil in H).
    constructor; cbn; auto using canonical_nil; try discriminate; try tauto.
    + lia.
    + intros i H. destruct (Hcv i H).
    + split; [apply functional_nil|intros a []].
    + unfold csn_ok. cbn. lia.
  - left. auto.
Qed.
Lemma exec_inv sc rc block L csn0 rsn0 n y : confs_ok sc rc block L -> exec sc rc (sys_init sc csn0 rsn0 block L) n y -> csn0 + n < W64 ->
  yinv block L csn0 n y.
Proof.
  intros C E. remember (sys_init sc csn0 rsn0 block L) as y0. induction E as [|y n y1 a y2 E IH P S]; intros Hn.
  - subst. now apply (sys_init_inv sc rc).
  - specialize (IH Heqy0 ltac:(lia)). destruct (sys_step_inv sc rc block L csn0 n a y1 C ltac:(lia) P IH) as (y' & S' & I'). congruence.
Qed.

(** Nothing the sender can still learn. *)
Lemma resend_range_form c rsn e lf : forall fuel idx st st', resend_range fuel c rsn e lf idx st = Some st' -> exists csn q, st' = tup_resend st csn q.
Proof.
  assert (R : forall st, exists csn q, st = tup_resend st csn q) by (intros []; eexists _, _; reflexivity).
  induction fuel as [|fuel IH]; intros idx st st' E; cbn [resend_range] in E; destruct (idx <=? e); try discriminate; try (injection E as <-; apply R).
  apply IH in E. destruct E as (a & b & ->). eexists _, _. reflexivity.
Qed.
Lemma resend_report_form c rsn : forall fs st st', resend_report c rsn fs st = Some st' -> exists csn q, st' = tup_resend st csn q.
Proof.
  assert (R : forall st, exists csn q, st = tup_resend st csn q) by (intros []; eexists _, _; reflexivity).
  induction fs as [|[b e] fs IH]; intros st st' E; cbn [resend_report] in E; [injection E as <-; apply R|].
  destruct (resend_range _ _ _ _ _ _ _) eqn:E1; [|discriminate]. apply resend_range_form in E1. destruct E1 as (x & y & ->). apply IH in E. destruct E as (a & d & ->).
  eexists _, _. reflexivity.
Qed.
Lemma resend_reports_form c : forall l st st', resend_reports c l st = Some st' -> exists csn q, st' = tup_resend st csn q.
Proof.
  assert (R : forall st, exists csn q, st = tup_resend st csn q) by (intros []; eexists _, _; reflexivity).
  induction l as [|[b e] fs IH]; intros st st' E; cbn [resend_reports] in E; [injection E as <-; apply R|].
  destruct (resend_report _ _ _ _) eqn:E1; [|discriminate]. apply resend_report_form in E1. destruct E1 as (x & y & ->). apply IH in E. destruct E as (a & d & ->).
  eexists _, _. reflexivity.
Qed.

Record stuck (y : sys) : Prop := {
  sk_did : rx_did (y_r y) = true;
  sk_pend : rx_pending (y_r y) = [];
  sk_known : forall p, In p (rx_sent (y_r y)) \/ In p (y_rev y) -> In (rp_rsn p) (tx_rsns (y_s y));
  sk_idx : tx_idx (y_s y) = tx_size (y_s y);
  sk_notes : ~ In Completed (tx_notes (y_s y)) }.

Lemma stuck_receiver c e st st' o : rx_did st = true -> rx_pending st = [] -> rx_step c e st = Some (st', o) ->
  rx_did st' = true /\ rx_pending st' = [] /\ rx_sent st' = rx_sent st /\ (forall p, o = Some p -> In p (rx_sent st)).
Proof.
  intros D P E. assert (HN : forall n s, rx_did (notify n s) = rx_did s /\ rx_pending (notify n s) = rx_pending s /\ rx_sent (notify n s) = rx_sent s).
  { intros n s. unfold notify. destruct (rx_noted s); auto. }
  destruct e as [sg|rsn| |rsn|csn]; cbn [rx_step] in E.
  - destruct (rx_segment c sg st) as [s|] eqn:E1; [|discriminate]. injection E as <- <-. unfold rx_segment in E1.
    set (s0 := if _ && _ then _ else st) in E1.
    assert (A : rx_did s0 = true /\ rx_pending s0 = [] /\ rx_sent s0 = rx_sent st) by (unfold s0; destruct (_ && _); auto). clearbody s0. destruct A as (A1 & A2 & A3).
    assert (G : rx_did s = rx_did s0 /\ rx_pending s = rx_pending s0 /\ rx_sent s = rx_sent s0).
    { destruct (sg_flags sg <=? 3).
      - unfold rx_red in E1. set (s1 := if _ <? _ then up_marks _ _ _ _ _ _ else s0) in E1.
        assert (B : rx_did s1 = rx_did s0 /\ rx_pending s1 = rx_pending s0 /\ rx_sent s1 = rx_sent s0) by (unfold s1; destruct (_ <? _); auto). clearbody s1.
        destruct (_ <? _). { injection E1 as <-. destruct (HN CancelMiscolored s1) as (-> & -> & ->). exact B. }
        destruct B as (B1 & B2). rewrite B1, A1 in E1. injection E1 as <-. auto.
      - injection E1 as <-. unfold rx_green_seg. destruct (_ <? _); [match goal with |- context [notify ?n ?x] => destruct (HN n x) as (-> & -> & ->) end; auto|]. destruct (_ && _); [|auto].
        destruct (_ || _); [|auto]. match goal with |- context [notify ?n ?x] => destruct (HN n x) as (-> & -> & ->) end. auto. }
    destruct G as (-> & -> & ->). repeat split; auto. discriminate.
  - injection E as <- <-. unfold rx_ack. destruct (rx_queue _), (rx_timers _); try (repeat split; auto; discriminate). destruct (_ && _); [|repeat split; auto; discriminate].
    match goal with |- context [notify ?n ?x] => destruct (HN n x) as (-> & -> & ->) end. repeat split; auto; discriminate.
  - unfold rx_send in E. destruct (rx_queue st) as [|[a b] q]; injection E as <- <-; repeat split; auto; try discriminate.
    intros p Hp. apply find_some in Hp. tauto.
  - injection E as <- <-. unfold rx_report_timer. destruct (find _ _) as [[a b]|]; [|repeat split; auto; discriminate]. destruct (_ <=? _); [repeat split; auto; discriminate|].
    match goal with |- context [notify ?n ?x] => destruct (HN n x) as (-> & -> & ->) end. repeat split; auto; discriminate.
  - unfold rx_delay_timer in E. rewrite P in E. cbn in E. injection E as <- <-. repeat split; auto; discriminate.
Qed.

Lemma stuck_sender c e st st' o : tx_idx st = tx_size st -> ~ In Completed (tx_notes st) ->
  (forall r, e = SvReport r -> In (rp_rsn r) (tx_rsns st)) -> tx_step c e st = Some (st', o) ->
  tx_idx st' = tx_size st' /\ ~ In Completed (tx_notes st') /\ tx_rsns st' = tx_rsns st.
Proof.
  intros Hi Hn Hr E. destruct e as [| |r|csn|]; cbn [tx_step] in E.
  - rewrite tx_first_done in E by lia. injection E as <- <-. auto.
  - unfold tx_critical, tx_resend_next in E. destruct (tx_ras st); [|injection E as <- <-; auto]. destruct (tx_allred st); [injection E as <- <-; auto|].
    destruct (tx_resend st); [injection E as <- <-; auto|]. destruct (block_bytes _ _ _); [|discriminate]. injection E as <- <-; auto.
  - unfold tx_report in E. cbn [tx_rsns tup_queues] in E. replace (existsb (N.eqb (rp_rsn r)) (tx_rsns st)) with true in E.
    + injection E as <- <-. auto.
    + symmetry. apply existsb_exists. exists (rp_rsn r). split; [auto|lia].
  - injection E as <- <-. unfold tx_ck_timer. destruct (find _ _); [|auto]. destruct (_ <=? _); [destruct (_ && _); auto|].
    match goal with |- context [tx_notify ?n ?x] => destruct (tx_notify_same n x) as (m & -> & Hm) end. cbn. split; [exact Hi|]. split; [|reflexivity].
    destruct Hm as [->| ->]; [exact Hn|]. cbn [tx_notes tup_queues]. rewrite in_app_iff. intros [H|[H|[]]]; [auto|discriminate].
  - destruct (tx_delay_timer c st) as [s|] eqn:E1; [|discriminate]. injection E as <- <-. unfold tx_delay_timer in E1.
    destruct (resend_reports _ _ _) eqn:E2; [|discriminate]. injection E1 as <-. apply resend_reports_form in E2. destruct E2 as (a & b & ->). cbn. auto.
Qed.

Lemma stuck_step sc rc a y y' : stuck y -> possible y a -> sys_step sc rc a y = Some y' -> stuck y'.
Proof.
  intros [] P E.
  assert (HS : forall e, (forall r, e = SvReport r -> In r (y_rev y)) -> on_sender sc e y = Some y' -> stuck y').
  { intros e He E1. unfold on_sender in E1. destruct (tx_step sc e (y_s y)) as [[s o]|] eqn:E2; [|discriminate]. injection E1 as <-.
    destruct (stuck_sender sc e (y_s y) s o sk_idx0 sk_notes0 ltac:(intros r Hr; apply sk_known0; right; auto) E2) as (A & B & C).
    constructor; cbn [y_r y_s y_rev]; auto. rewrite C. exact sk_known0. }
  assert (HR : forall e g, on_receiver rc e g y = Some y' -> stuck y').
  { intros e g E1. unfold on_receiver in E1. destruct (rx_step rc e (y_r y)) as [[s o]|] eqn:E2; [|discriminate]. injection E1 as <-.
    destruct (stuck_receiver rc e (y_r y) s o sk_did0 sk_pend0 E2) as (A & B & C & D).
    constructor; cbn [y_r y_s y_rev]; auto. rewrite C. intros p [H|H]; [apply sk_known0; auto|]. destruct o as [q|]; [|apply sk_known0; auto].
    apply in_app_iff in H. destruct H as [H|[<-|[]]]; apply sk_known0; auto. }
  destruct a as [| |csn| |p|r| |rsn|csn]; cbn [sys_step possible] in *; try (eapply HR; eassumption); try (eapply HS; [|eassumption]; discriminate).
  - destruct p; eapply HR; eassumption.
  - eapply HS; [|eassumption]. intros x Hx. injection Hx as <-. exact P.
Qed.
Lemma stuck_forever sc rc y n y' : stuck y -> exec sc rc y n y' -> stuck y'.
Proof. intros S E. induction E as [|y n y1 a y2 E IH P T]; auto. eapply stuck_step; [apply IH; exact S|exact P|exact T]. Qed.

(** Replaying a concrete list of actions. *)
Fixpoint replay (sc : sconf) (rc : rconf) (acts : list act) (y : sys) : option sys :=
  match acts with [] => Some y | a :: r => match sys_step sc rc a y with None => None | Some y' => replay sc rc r y' end end.
Fixpoint all_possible (sc : sconf) (rc : rconf) (acts : list act) (y : sys) : Prop :=
  match acts with [] => True | a :: r => possible y a /\ match sys_step sc rc a y with None => False | Some y' => all_possible sc rc r y' end end.
Lemma replay_exec sc rc y0 : forall acts n y y', exec sc rc y0 n y -> all_possible sc rc acts y -> replay sc rc acts y = Some y' ->
  exec sc rc y0 (n + N.of_nat (length acts)) y'.
Proof.
  induction acts as [|a acts IH]; intros n y y' E P R; cbn [replay all_possible length] in *.
  - injection R as <-. now rewrite N.add_0_r.
  - destruct P as (P1 & P2). destruct (sys_step sc rc a y) as [y1|] eqn:S; [|discriminate].
    replace (n + N.of_nat (Datatypes.S (length acts))) with (n + 1 + N.of_nat (length acts)) by lia. eapply IH; eauto. econstructor; eauto.
Qed.
