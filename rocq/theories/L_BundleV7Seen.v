(** Lemmas for C49: rendered bundles at the receiver. *)
From Coq Require Import NArith ZArith List Bool Lia ZifyBool ZifyN.
From Verif Require Import Base M_SegmentAlloc M_Intrin M_Sdnv M_Cbor M_Bpv6Block M_Bpv7Crc M_Bpv7Block M_Bpv7Admin M_Bpv7Sec M_BundleV7.
From Verif Require Import S_Sdnv S_Cbor S_Bpv7Crc S_Bpv7 S_Bpv7Admin S_Bpv7Sec S_BundleV7.
From Verif Require Import L_Intrin L_Cbor P_Cbor L_Bpv7Crc P_Bpv7Crc L_Bpv6Read L_Bpv6Write L_Bpv7Read L_Bpv7Write L_Bpv7Canon P_Bpv7Block P_Bpv7Canon L_Bpv7Admin P_Bpv7Admin L_Bpv7Sec P_Bpv7Sec L_BundleV7 L_BundleV7Render.
Import ListNotations.
Open Scope N_scope.

Lemma items2_form a b w : shortest_items [a; b] w -> cbor_items [a; b] w.
Proof.
  intros (ps & -> & F2). inversion F2 as [|? p1 ? ? X1 F3]; subst. inversion F3 as [|? p2 ? ? X2 F4]; subst. inversion F4; subst.
  apply items_two. exists p1, p2. cbn [concat]. rewrite app_nil_r. split; [reflexivity|]. split; [apply X1|apply X2].
Qed.
Lemma prim_written_form stale p body crc crcs : primary7_written p body -> crc_closing True (q_crctype p) crcs body crc -> primary7_form stale (prim7_meant stale p crcs) (body ++ crc).
Proof.
  intros (fl & d & s & r & t & l & fr & -> & W1 & W2 & W3 & W4 & W5 & W6 & W7) C. exists fl, d, s, r, t, l, fr, crc. eexists. cbn [prim7_meant q_flags q_dest q_src q_report q_stamp q_life q_off q_total q_crc q_crctype].
  split; [reflexivity|]. split; [reflexivity|]. split; [apply W1|]. split; [now apply eid_written_form|]. split; [now apply eid_written_form|]. split; [now apply eid_written_form|].
  split. { destruct W5 as (w & IW & ->). exists w. split; [now apply items2_form|left; reflexivity]. } split; [apply W6|]. split; [|exact C].
  destruct (is_fragment (q_flags p)); [now apply items2_form|]. split; [exact W7|]. now destruct stale.
Qed.
Lemma item_seen timed t1 t2 i p : item_form timed t1 i p -> item_form timed t2 (item_meant timed t2 i) p.
Proof. unfold item_form, item_meant. cbn [fst snd]. destruct (fst i), timed; cbn [andb]; [auto|intros (_ & H)|intros (_ & H)|intros (_ & H)]; auto. Qed.
Lemma content_clean o1 o2 admin t x d : content_form o1 admin t x d -> content_form o2 admin t (content_seen o2 x) d.
Proof.
  destruct x as [|e|s|a]; cbn [content_form content_seen]; [auto|auto| |].
  - intros (T & (tg & c & f & src & ps & rs & -> & H1 & H2 & H3 & H4 & H5 & H6 & H7)). split; [exact T|]. exists tg, c, f, src, ps, rs. cbn [s_targets s_ctx s_flags s_source s_params s_results]. do 6 (split; [assumption || reflexivity|]). split; [|exact H7].
    destruct (has_params (s_flags s)); [exact H6|]. split; [apply H6|reflexivity].
  - destruct a as [b|e|y]; cbn [content_seen]; [|cbn; auto|cbn; auto]. destruct (b_info (snd o2)) as [[[n1 n2] n3] n4] eqn:E2. destruct (b_info b) as [[[i1 i2] i3] i4] eqn:EB. cbn [content_form].
    intros (A & T & (ty & c & U & R & PA)). split; [exact A|]. split; [exact T|]. exists ty, c. split; [exact U|]. split; [|exact PA]. unfold report_form in *. rewrite E2. rewrite EB in R. destruct (b_info (snd o1)) as [[[m1 m2] m3] m4].
    destruct R as (h & i & p1 & p2 & p3 & p4 & rs & src & st & fr & brk & -> & HI & H1 & H2 & H3 & H4 & AS & H5 & H6 & H7 & H8 & H9). cbn [b_info b_timed b_isfrag b_reason b_source b_stamp b_off b_flen].
    exists h, i, p1, p2, p3, p4, rs, src, st, fr, brk. split; [reflexivity|]. split; [exact HI|]. do 4 (split; [eapply item_seen; eassumption|]). split; [unfold asserted in *; rewrite EB in AS; exact AS|]. do 3 (split; [assumption|]). split; [|exact H9].
    destruct (b_isfrag b); [exact H8|]. split; [apply H8|reflexivity].
Qed.
Lemma content_dirty old admin t b d : content_ok (k_c b) (k_x b) -> k_enc b = false -> content_written b d -> content_readable admin t (k_x b) -> content_form old admin t (content_seen old (content_sent (k_x b))) d.
Proof.
  intros OK EN W R. unfold content_written in W. rewrite EN in W. destruct (k_x b) as [|e|s|a]; cbn [content_ok content_readable content_sent content_seen content_form] in *.
  - exact R.
  - split; [destruct e; exact R|]. destruct OK as (OX & CX). assert (d = cext e) as -> by (eapply (content_unique (mkCbv7 (k_c b) (CExt e) [] true true false false)); [split; assumption|exact W|now apply cext_written]). now apply cext_form.
  - destruct R as (T & R). split; [exact T|]. exact (sec_written_form (fst old) s d W R).
  - destruct R as (A & T & R1 & R2). assert (d = cadmin a) as -> by (eapply written_unique; [exact OK|exact W|now apply cadmin_written]). pose proof (cadmin_form (snd old) a OK R1 R2) as F.
    destruct a as [r|e|y]; cbn [content_seen content_form admin_meant] in *; auto. unfold report_meant in F. cbn [b_info b_timed b_isfrag b_reason b_source b_stamp b_off b_flen].
    destruct (b_info (snd old)) as [[[n1 n2] n3] n4], (b_info r) as [[[i1 i2] i3] i4]. cbn [content_form]. auto.
Qed.
Lemma sent_numbers b b' : sent_block7 b b' -> block_num b' = block_num b /\ block_type b' = block_type b.
Proof. unfold sent_block7, block_num, block_type. destruct (k_dirty b); [intros (d & body & crc & crcs & _ & _ & _ & ->); cbn; auto|intros ->; auto]. Qed.
Lemma content_octets b d : content_ok (k_c b) (if k_enc b then CPlain else k_x b) -> content_written b d -> N.of_nat (length d) < 2 ^ 64 /\ Forall is_octet d.
Proof.
  intros CO H1. unfold content_written in H1. destruct (if k_enc b then CPlain else k_x b) as [|x|s|a]; cbn [content_ok] in CO.
  - destruct CO as (d0 & CD & CL & LL & Hd). rewrite CD in H1. injection H1 as <-. rewrite <- CL. auto.
  - assert (d = cext x) as -> by (eapply (content_unique (mkCbv7 (k_c b) (CExt x) [] true true false false)); [exact CO|exact H1|now apply cext_written]). split; [pose proof (cext_len x); lia|now apply cext_octets].
  - assert (d = csec s) as -> by (eapply C48_written_data_is_unique; [exact H1|now apply csec_written, small_sec_ok]). split; [pose proof (csec_len s CO); unfold sec_ok in CO; lia|now apply csec_octets].
  - assert (d = cadmin a) as -> by (eapply written_unique; [exact CO|exact H1|now apply cadmin_written]). split; [exact (cadmin_len a CO)|now apply cadmin_octets].
Qed.
Lemma block_seen_form skip old admin keys b b' : sendable7 b -> readable7 admin keys b -> sent_block7 b b' ->
  block_form (skip = false) old admin keys (block_seen old b b') /\ Forall is_octet (k_actual b') /\ targets_of (block_seen old b b') = targets_of b.
Proof.
  intros SE (EN & RD) SB. destruct (sent_numbers b b' SB) as (NU & TY). unfold sendable7 in SE. unfold sent_block7 in SB.
  assert (TG : targets_of (block_seen old b b') = targets_of b).
  { unfold targets_of. replace (block_type (block_seen old b b')) with (block_type b) by (symmetry; exact TY). destruct (N.eqb_spec (block_type b) 12) as [T|T]; [|reflexivity]. cbn [block_seen k_x].
    destruct (k_enc b); [exfalso; now apply (proj1 (proj1 EN eq_refl))|]. destruct (k_dirty b), (k_x b) as [|e|s|[r|e|y]]; cbn [content_sent content_seen]; try reflexivity; cbn [b_info]; destruct (b_info (snd old)) as [[[? ?] ?] ?], (b_info r) as [[[? ?] ?] ?]; reflexivity. }
  assert (N1 : block_num (block_seen old b b') = block_num b) by exact NU. assert (T1 : block_type (block_seen old b b') = block_type b) by exact TY.
  unfold block_form. rewrite N1, T1. cbn [block_seen k_c k_actual k_live k_dirty k_del k_enc k_x]. destruct (k_dirty b).
  - destruct SE as (OK & CT & CO & _). destruct SB as (d & body & crc & crcs & H1 & H2 & H3 & ->). cbn [k_c k_actual]. destruct (content_octets b d CO H1) as (LD & HD). split; [|split; [|exact TG]].
    + split. { apply (form_verified True); [auto|]. now apply written_form. } do 3 (split; [reflexivity|]). split; [exact EN|]. destruct (k_enc b) eqn:EE; [reflexivity|]. exists d. split; [reflexivity|].
      apply content_dirty; auto.
    + apply Forall_app. split; [eapply written_octets; eassumption|eapply closing_octets; eassumption].
  - subst b'. destruct RD as (CF & OC & RX). split; [|split; [exact OC|exact TG]]. split; [now apply (form_verified True)|]. do 3 (split; [reflexivity|]). split; [exact EN|]. destruct (k_enc b); [reflexivity|].
    destruct RX as (o & d & CD & X). exists d. split; [exact CD|]. eapply content_clean; eassumption.
Qed.
Lemma blocks_seen_form skip old admin keys : forall l l' i, Forall sendable7 l -> Forall (readable7 admin keys) l -> Forall2 sent_block7 l l' ->
  blocks_form (skip = false) old admin keys i (blocks_seen old i l l') /\ Forall is_octet (actuals7 l') /\ encrypted_numbers (blocks_seen old i l l') = encrypted_numbers l /\
  map k_actual (blocks_seen old i l l') = map k_actual l' /\ map block_num (blocks_seen old i l l') = map block_num l /\ map block_type (blocks_seen old i l l') = map block_type l /\ map block_num l' = map block_num l.
Proof.
  induction l as [|b l IH]; intros l' i SE RD SB; inversion SB as [|? b' ? l2 S1 S2]; subst; cbn [blocks_seen blocks_form]; [repeat split; constructor|]. inversion SE as [|? ? SE1 SE2]; subst. inversion RD as [|? ? RD1 RD2]; subst.
  destruct (IH l2 (S i) SE2 RD2 S2) as (I1 & I2 & I3 & I4 & I5 & I6 & I7). destruct (block_seen_form skip (old i) admin keys b b' SE1 RD1 S1) as (B1 & B2 & B3). destruct (sent_numbers b b' S1) as (NU & TY).
  split; [auto|]. split; [unfold actuals7; cbn [map concat]; apply Forall_app; auto|]. unfold encrypted_numbers in *. cbn [flat_map map]. rewrite B3, I3, I4, I5, I6, I7, NU. split; [reflexivity|]. split; [reflexivity|].
  split; [f_equal; exact NU|]. split; [f_equal; exact TY|reflexivity].
Qed.
Lemma payload_map l l' : map block_num l = map block_num l' -> map block_type l = map block_type l' -> payload_last l -> payload_last l'.
Proof.
  intros EN ET (front & pl & -> & T & N1 & F). destruct (exists_last (l := l')) as (front' & pl' & ->). { destruct l'; [rewrite map_app in EN; destruct front; discriminate|discriminate]. }
  rewrite !map_app in EN, ET. cbn [map] in *. apply app_inj_tail in EN, ET. destruct EN as (EN & N2), ET as (ET & T2). exists front', pl'. split; [reflexivity|]. split; [congruence|]. split; [congruence|].
  clear - F ET. revert front' ET. induction F as [|b l X F IH]; intros [|b' l'] ET; cbn in ET; try discriminate; constructor; [injection ET; congruence|apply IH; now injection ET].
Qed.
Lemma seen_form skip old v v' : view7_ok v -> view7_readable v -> sent7 v v' -> exists m,
  bundle7_form (skip = false) old (mkBview7 (primary_seen v v') (w_pactual v') true false (blocks_seen old 0 (kept7 (w_blocks v)) (w_blocks v')) m (encrypted_numbers (kept7 (w_blocks v))) (w_bytes v')) (w_bytes v') /\
  Forall is_octet (w_bytes v') /\ mask_form (w_blocks v') m.
Proof.
  intros (POK & NF & SE) (PL & ND & RD & PC) (SP & F2 & _ & _ & _ & _ & EB). set (l := kept7 (w_blocks v)) in *.
  destruct (blocks_seen_form skip old (is_admin (q_flags (w_prim v))) (encrypted_numbers l) l (w_blocks v') 0 SE RD F2) as (I1 & I2 & I3 & I4 & I5 & I6 & I7).
  set (bl := blocks_seen old 0 l (w_blocks v')) in *. set (m := fold_left (fun m b => reserve7 (c_num (k_c b)) m) bl free_init). assert (M : mask_form bl m) by exact (proj1 (mask_loaded bl m) eq_refl). exists m.
  assert (P : primary7_form (0, 0) (primary_seen v v') (w_pactual v') /\ Forall is_octet (w_pactual v') /\ q_flags (primary_seen v v') = q_flags (w_prim v)).
  { unfold primary_seen, sent_primary7 in *. destruct (w_pdirty v).
    - destruct SP as (body & crc & crcs & H1 & H2 & -> & ->). cbn [q_crc with_crc7]. destruct POK as (OK & CT). split; [now apply prim_written_form|]. split; [|reflexivity]. apply Forall_app. split; [|eapply closing_octets; eassumption].
      rewrite (prim_unique _ body (cprim (w_prim v)) H1 (cprim_written _ OK)). now apply cprim_octets.
    - destruct SP as (-> & _). destruct (PC eq_refl). auto. }
  destruct P as (P1 & P2 & P3). split; [|split].
  - unfold bundle7_form. cbn [w_prim w_pactual w_plive w_pdirty w_blocks w_mask w_enc w_bytes]. rewrite P3, I4, I3. split; [exact EB|]. do 2 (split; [reflexivity || assumption|]). split; [exact NF|]. do 2 (split; [reflexivity|]). split; [|auto 10].
    apply (payload_map l); [congruence|congruence|exact PL].
  - rewrite EB. fold (actuals7 (w_blocks v')). repeat (apply Forall_app; split); try assumption; repeat constructor.
  - unfold mask_form in *. rewrite I7, <- I5. exact M.
Qed.
