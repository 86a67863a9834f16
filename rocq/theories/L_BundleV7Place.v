(** Lemmas for C49: loading as a whole, rendering in place, block numbers. *)
From Coq Require Import NArith ZArith List Bool Lia ZifyBool ZifyN.
From Verif Require Import Base M_SegmentAlloc M_Intrin M_Sdnv M_Cbor M_Bpv6Block M_Bpv7Crc M_Bpv7Block M_Bpv7Admin M_Bpv7Sec M_BundleV7.
From Verif Require Import S_Sdnv S_Cbor S_Bpv7Crc S_Bpv7 S_Bpv7Admin S_Bpv7Sec S_BundleV7.
From Verif Require Import L_Intrin L_Cbor P_Cbor L_Bpv7Crc P_Bpv7Crc L_Bpv6Read L_Bpv6Write L_Bpv7Read L_Bpv7Write L_Bpv7Canon P_Bpv7Block P_Bpv7Canon L_Bpv7Admin P_Bpv7Admin L_Bpv7Sec P_Bpv7Sec L_BundleV7 L_BundleV7Render.
Import ListNotations.
Open Scope N_scope.

Lemma load_ok skip hw old beyond bs v : Forall is_octet bs -> Forall is_octet beyond -> (23 <= length beyond)%nat -> N.of_nat (length (bs ++ beyond)) < 2 ^ 64 ->
  (load7 skip hw old beyond false bs = Some (Some v) <-> bundle7_form (skip = false) old v bs).
Proof.
  intros HB BO B23 HL. unfold load7. destruct bs as [|h r]; [split; [discriminate|intros (E & _); discriminate]|].
  destruct (N.eqb_spec h 159) as [->|NH]; cbn [negb]. 2: { split; [discriminate|]. intros (E & _). cbn in E. congruence. }
  assert (HR : Forall is_octet r) by (now inversion HB). destruct (C45_parse_is_exact hw zero_prim7 r HR) as (x & E & K). rewrite E. cbn [q_off q_total zero_prim7] in K. clear E.
  assert (UN : forall p b rest, r = b ++ rest -> primary7_form (0, 0) p b -> x = Some (p, length b)) by (intros; apply K; eauto).
  destruct x as [(p, n)|]. 2: { split; [discriminate|]. intros (EB & _ & PF & _). cbn in EB. injection EB as EB. specialize (UN _ _ _ EB PF). discriminate. }
  destruct (proj1 (K p n) eq_refl) as (b & rest & ER & EN & PF). subst n. clear K.
  replace (firstn (length b) r) with b by (rewrite ER; symmetry; apply firstn_pref). replace (skipn (length b) r) with rest by (rewrite ER; symmetry; apply skipn_pref).
  assert (HR2 : Forall is_octet rest) by (rewrite ER in HR; now apply Forall_app in HR).
  assert (LR : (length rest < S (length r))%nat) by (rewrite ER, app_length; lia). assert (LR2 : N.of_nat (length (rest ++ beyond)) < 2 ^ 64) by (cbn [app length] in HL; rewrite app_length in *; lia).
  assert (UP : forall v', bundle7_form (skip = false) old v' (159 :: r) -> w_prim v' = p /\ w_pactual v' = b /\ rest = concat (map k_actual (w_blocks v')) ++ [255]).
  { intros v' (EB & _ & PF' & _). cbn [app] in EB. injection EB as EB. specialize (UN _ _ _ EB PF'). injection UN as -> LB. rewrite ER in EB. apply app_inj_len in EB; [|exact LB]. destruct EB as (-> & ->). auto. }
  rewrite isfrag_bit. destruct (is_fragment (q_flags p)) eqn:EF.
  { split; [discriminate|]. intros F. destruct (UP _ F) as (EP & _). destruct F as (_ & _ & _ & X & _). rewrite EP in X. congruence. }
  pose proof (load_blocks_ok skip hw old beyond B23 BO (S (length r)) 0 [] rest LR HR2 LR2 (NoDup_nil _)) as LB. rewrite isadmin_bit.
  pose proof (finish_ok skip old beyond B23 BO) as FI. pose proof (raws_made skip old beyond) as RM. pose proof (made_raws skip old beyond) as MR.
  split.
  - destruct (load_blocks7 skip hw old beyond (S (length r)) 0 [] rest) as [[(l, k)|]|]; cbn [bind2]; try discriminate. pose proof (proj1 (LB l k) eq_refl) as RF. clear LB.
    destruct (finish7 old (is_admin (q_flags p)) k 0 l) as [[bl|]|] eqn:E1; cbn [bind2]; try discriminate. intros [= <-]. apply (FI _ _ _ _ _ _ _ RF HR2 LR2) in E1. destruct E1 as (F2 & BF). destruct (RM _ _ _ _ _ _ _ _ RF F2 BF) as (E3 & PL & EK & ND).
    unfold bundle7_form. cbn [w_prim w_pactual w_plive w_pdirty w_blocks w_mask w_enc w_bytes]. rewrite <- E3, <- ER. split; [reflexivity|]. split; [reflexivity|]. split; [exact PF|]. split; [exact EF|]. do 2 (split; [reflexivity|]). split; [exact PL|].
    split; [exact EK|]. split; [apply ND; constructor|]. split; [exact BF|]. exact (proj1 (mask_loaded bl _) eq_refl).
  - intros F. destruct (UP _ F) as (EP & EA & ES). destruct v as [vp va vl vd bl m K vb]. unfold bundle7_form in F. cbn [w_prim w_pactual w_plive w_pdirty w_blocks w_mask w_enc w_bytes] in *. subst vp va. destruct F as (_ & -> & _ & _ & -> & -> & PL & EK & ND & BF & M).
    destruct (MR _ _ bl 0%nat [] BF PL) as (l & RF & F2); [cbn [app]; now rewrite <- EK|]. cbn [app] in RF. rewrite <- ES, <- EK in RF. rewrite (proj2 (LB l K) RF). cbn [bind2].
    rewrite (proj2 (FI _ K l 0%nat [] K rest RF HR2 LR2 bl) (conj F2 BF)). cbn [bind2]. do 3 f_equal. now apply mask_loaded.
Qed.
(** What is beyond the bundle only matters to the security blocks. *)
Definition has_sec (bs : list N) : Prop := exists pre b post c, bs = pre ++ b ++ post /\ canon7_form False c b /\ (c_type c = 11 \/ c_type c = 12).
Lemma form_unverified P c b : canon7_form P c b -> canon7_form False c b.
Proof. intros (t & n & fl & tag & d & ds & crc & body & H1 & H2 & H3 & H4 & H5 & H6 & H7 & H8 & H9 & H10 & CC). exists t, n, fl, tag, d, ds, crc, body. do 10 (split; [assumption|]). inversion CC; subst; econstructor; eauto; contradiction. Qed.
Lemma has_sec_app pre bs : has_sec bs -> has_sec (pre ++ bs).
Proof. intros (p & b & q & c & -> & H). exists (pre ++ p), b, q, c. now rewrite <- app_assoc. Qed.
Lemma load_blocks_def skip hw old beyond : forall fuel i keys bs, (length bs < fuel)%nat -> Forall is_octet bs -> load_blocks7 skip hw old beyond fuel i keys bs = None -> has_sec bs.
Proof.
  induction fuel as [|fuel IH]; [lia|]. intros i keys bs HF HO. cbn [load_blocks7]. destruct (C46_parse_is_exact skip hw bs HO) as (x & E & K). rewrite E. destruct x as [(c, n)|]; [|discriminate].
  destruct (proj1 (K c n) eq_refl) as (b & rest & EB & EN & F). subst n. cbv zeta. replace (skipn (length b) bs) with rest by (rewrite EB; symmetry; apply skipn_pref).
  destruct (N.eqb_spec (c_type c) 12) as [T|T]; [intros _; exists [], b, rest, c; split; [exact EB|]; split; [eapply form_unverified; exact F|auto]|]. cbn [bind2]. destruct (c_type c =? 1).
  - destruct (negb (c_num c =? 1)); [discriminate|]. destruct rest as [|y [|? ?]]; try discriminate. destruct (y =? 255); discriminate.
  - destruct rest as [|y rest]; [discriminate|]. set (r := y :: rest) in *. destruct (load_blocks7 skip hw old beyond fuel (S i) keys r) as [[(l, k)|]|] eqn:E2; cbn [bind2]; try discriminate. intros _. rewrite EB. apply has_sec_app. apply (IH (S i) keys); [|rewrite EB in HO; now apply Forall_app in HO|exact E2].
    destruct (form_split _ _ _ F) as (h & d & crc & Eb & _ & _ & _ & L). assert (1 <= length b)%nat by (rewrite Eb, app_length; lia). rewrite EB, app_length in HF. lia.
Qed.
Lemma finish_def skip old beyond admin K : forall l i keys k bs, Forall is_octet bs -> raws_form skip old beyond i keys l k bs -> finish7 old admin K i l = None -> has_sec bs.
Proof.
  induction l as [|r l IH]; intros i keys k bs HO RF; [destruct RF|]. cbn [raws_form] in RF. destruct RF as (rest & keys' & EB & F & EM & BC & RT). cbn [finish7].
  set (part := match r_bcb r with Some s => _ | None => _ end). assert (D : part = None -> has_sec bs).
  { unfold part. destruct (r_bcb r) as [s|]; [discriminate|]. destruct (negb (c_type (r_c r) =? 12) && _); [discriminate|]. unfold content7_parse. assert (HD : Forall is_octet (data_of (r_c r))).
    { destruct (form_split _ _ _ F) as (h & d & crc & Eb & CD & _). unfold data_of. rewrite CD. rewrite EB, Eb in HO. apply Forall_app in HO. destruct HO as (HO & _). apply Forall_app in HO. destruct HO as (_ & HO). now apply Forall_app in HO. }
    destruct (admin && (c_type (r_c r) =? 1)). { destruct (C47_parse_is_exact (snd (old i)) _ HD) as (x & -> & _). destruct x; discriminate. }
    destruct ((c_type (r_c r) =? 6) || (c_type (r_c r) =? 7) || (c_type (r_c r) =? 10) || (c_type (r_c r) =? 13)). { destruct (C46_extension_parse_is_exact (c_type (r_c r)) _ HD) as (x & -> & _). destruct x; discriminate. }
    destruct ((c_type (r_c r) =? 11) || (c_type (r_c r) =? 12)) eqn:ET; [|discriminate]. intros _. exists [], (r_actual r), rest, (r_c r). split; [exact EB|]. split; [eapply form_unverified; exact F|]. apply orb_true_iff in ET. rewrite !N.eqb_eq in ET. exact ET. }
  destruct part as [[x|]|]; cbn [bind2]; [|discriminate|auto]. destruct (finish7 old admin K (S i) l) as [[t|]|] eqn:E; cbn [bind2]; try discriminate. intros _. destruct l as [|r2 l]; [discriminate E|]. destruct RT as (_ & RT). rewrite EB. apply has_sec_app. eapply IH; [|exact RT|exact E]. rewrite EB in HO. now apply Forall_app in HO.
Qed.
Lemma load_def skip hw old beyond prim bs : Forall is_octet bs -> Forall is_octet beyond -> (23 <= length beyond)%nat -> N.of_nat (length (bs ++ beyond)) < 2 ^ 64 -> load7 skip hw old beyond prim bs = None -> has_sec bs.
Proof.
  intros HB BO B23 HL. unfold load7. destruct bs as [|h r]; [discriminate|]. destruct (negb (h =? 159)); [discriminate|]. assert (HR : Forall is_octet r) by (now inversion HB).
  destruct (C45_parse_is_exact hw zero_prim7 r HR) as (x & -> & K). destruct x as [(p, n)|]; [|discriminate]. destruct (q_isfrag (q_flags p)); [discriminate|]. destruct prim; [discriminate|].
  destruct (proj1 (K p n) eq_refl) as (b & rest & ER & EN & PF). subst n. replace (skipn (length b) r) with rest by (rewrite ER; symmetry; apply skipn_pref).
  assert (HR2 : Forall is_octet rest) by (rewrite ER in HR; now apply Forall_app in HR). assert (LR : (length rest < S (length r))%nat) by (rewrite ER, app_length; lia). assert (LR2 : N.of_nat (length (rest ++ beyond)) < 2 ^ 64) by (cbn [app length] in HL; rewrite app_length in *; rewrite ER, app_length in HL; lia).
  change (h :: r) with ([h] ++ r). intros E. apply has_sec_app. rewrite ER. apply has_sec_app. revert E.
  destruct (load_blocks7 skip hw old beyond (S (length r)) 0 [] rest) as [[(l, k)|]|] eqn:E1; cbn [bind2]; [|discriminate|intros _; now apply load_blocks_def in E1].
  apply (load_blocks_ok skip hw old beyond B23 BO (S (length r)) 0 [] rest LR HR2 LR2 (NoDup_nil _)) in E1.
  destruct (finish7 old (q_isadmin (q_flags p)) k 0 l) as [[bl|]|] eqn:E2; cbn [bind2]; try discriminate. intros _. eapply finish_def; eassumption.
Qed.

(** Writing over bytes that are there. *)
Lemma put_exact (d P M Q : list N) : length M = length d -> put_bytes d (P ++ M ++ Q, length P) = Some (P ++ d ++ Q, (length P + length d)%nat).
Proof.
  intros L. unfold put_bytes, put. cbn [fst snd]. rewrite skipn_pref, firstn_pref, app_length. replace (Nat.leb (length d) (length M + length Q)) with true by (symmetry; apply Nat.leb_le; lia). cbn [fst snd]. rewrite Nat2N.id, <- L, skipn_pref. reflexivity.
Qed.
Lemma put_step (d e P M Q : list N) : length M = (length d + length e)%nat -> exists M', length M' = length e /\ put_bytes d (P ++ M ++ Q, length P) = Some ((P ++ d) ++ M' ++ Q, length (P ++ d)).
Proof.
  intros L. exists (skipn (length d) M). split; [rewrite skipn_length; lia|]. rewrite <- (firstn_skipn (length d) M) at 1. rewrite <- app_assoc, put_exact by (rewrite firstn_length; lia). now rewrite <- app_assoc, app_length.
Qed.
Definition clean7 (b : cbv7) : Prop := k_dirty b = false /\ k_live b = true /\ k_del b = false.
Lemma front_exact scan hw alive pl : forall front P M Q, Forall clean7 front -> length M = length (actuals7 front) -> clean7 pl -> block_type pl = 1 -> block_num pl = 1 ->
  render_blocks7 scan hw alive true (front ++ [pl]) (P ++ M ++ Q, length P) = Some (map (set_live alive) front ++ [pl], Some ((P ++ actuals7 front ++ Q, (length P + length (actuals7 front))%nat), true)).
Proof.
  induction front as [|b front IH]; intros P M Q FC L PC T N1; cbn [app map].
  - destruct M; [|discriminate L]. cbn [render_blocks7 andb]. unfold block_type, block_num in T, N1. rewrite T, N1. change (1 =? 1) with true. destruct PC as (-> & _). cbn. now rewrite Nat.add_0_r.
  - inversion FC as [|? ? (D & LV & DE) FC']; subst. unfold actuals7 in L. cbn [map concat] in L. fold (actuals7 front) in L. rewrite app_length in L. cbn [render_blocks7]. destruct (front ++ [pl]) as [|b2 r] eqn:EF; [destruct front; discriminate|]. cbn [andb]. rewrite D, LV.
    destruct (put_step (k_actual b) (actuals7 front) P M Q L) as (M' & LM & ->). rewrite IH by assumption. cbn [fst snd]. unfold set_live at 2. rewrite D. unfold actuals7. cbn [map concat]. fold (actuals7 front). rewrite !app_length, <- !app_assoc. do 4 f_equal. f_equal. lia.
Qed.
Lemma clean_kept l : Forall clean7 l -> kept7 l = l /\ filter k_del l = [].
Proof. induction l as [|b l IH]; intros F; [auto|]. inversion F as [|? ? (_ & _ & D) F']; subst. destruct (IH F') as (A & B). unfold kept7 in *. cbn [filter]. rewrite D. cbn [negb]. rewrite A, B. auto. Qed.
Lemma place_exact scan hw v front pl P M Q : w_pdirty v = false -> w_plive v = true -> is_fragment (q_flags (w_prim v)) = false -> w_blocks v = front ++ [pl] -> Forall clean7 (front ++ [pl]) -> block_type pl = 1 -> block_num pl = 1 ->
  length M = length (front_bytes (w_pactual v) front) ->
  render_at7 scan hw true true v (P ++ M ++ Q, length P) = Some (v, Some (P ++ front_bytes (w_pactual v) front ++ Q, (length P + length (front_bytes (w_pactual v) front))%nat)).
Proof.
  intros PD PL NF EB FC T N1 L. unfold render_at7. destruct (put_step [159] (w_pactual v ++ actuals7 front) P M Q L) as (M1 & L1 & ->). rewrite PD, PL. rewrite app_length in L1. destruct (put_step (w_pactual v) (actuals7 front) (P ++ [159]) M1 Q L1) as (M2 & L2 & ->).
  rewrite isfrag_bit, NF, EB. destruct (clean_kept _ FC) as (K1 & K2). fold (kept7 (front ++ [pl])). rewrite K1, K2. pose proof FC as FC0. apply Forall_app in FC. destruct FC as (FC & PC). inversion PC as [|? ? PC' _]; subst.
  rewrite (front_exact scan hw true pl front _ M2 Q FC L2 PC' T N1). cbn [fst snd free_all fold_left]. rewrite set_live_id by exact FC. unfold front_bytes, with_blocks7. cbn [w_prim w_pactual w_plive w_pdirty w_enc w_bytes w_mask w_blocks].
  rewrite !app_length, <- !app_assoc. destruct v as [vp va vl vd bl m K vb]. cbn [w_prim w_pactual w_plive w_pdirty w_enc w_bytes w_mask w_blocks] in *. subst. do 3 f_equal. cbn [length app]. f_equal. cbn. lia.
Qed.
Lemma sent_flags v v' : sent_primary7 v v' -> q_flags (w_prim v') = q_flags (w_prim v).
Proof. unfold sent_primary7. destruct (w_pdirty v); [intros (b & c & x & _ & _ & _ & ->); reflexivity|intros (_ & ->); reflexivity]. Qed.
Lemma in_place_ok j hw v front0 pl rest pad paddingLeft : j < 256 -> view7_ok v -> w_blocks v = front0 ++ [pl] -> block_type pl = 1 -> block_num pl = 1 -> k_del pl = false ->
  w_bytes v = rest ++ k_actual pl ++ [255] -> paddingLeft <= N.of_nat (length pad) -> N.of_nat (length (pad ++ w_bytes v)) + 10 < 2 ^ 64 -> exists v', sent7 v v' /\
  let new := N.of_nat (length (w_bytes v')) in let old := N.of_nat (length (w_bytes v)) in let mem := pad ++ w_bytes v in
  view7_size (scan_any j) v = Some (Some new) /\
  (old + paddingLeft < new -> render_in_place7 (scan_any j) hw v paddingLeft pad = Some (v, mem, false)) /\
  (new <= old + paddingLeft -> k_dirty pl = false -> (exists front', w_blocks v' = front' ++ [pl]) /\
     render_in_place7 (scan_any j) hw v paddingLeft pad = Some (v', firstn (length mem - length (w_bytes v')) mem ++ w_bytes v', true)).
Proof.
  intros J OK EB T N1 PD EW PL HL. assert (EK : kept7 (w_blocks v) = kept7 front0 ++ [pl]) by (rewrite EB; unfold kept7; rewrite filter_app; cbn [filter]; rewrite PD; reflexivity).
  destruct (render_at_ok j hw J v (kept7 front0) pl OK EK T N1) as (p & pa & front' & pl' & SE & F2 & FC & SZ & _ & RE). cbv zeta in *. specialize (SZ (ex_intro _ front0 (ex_intro _ pl (conj EB T)))).
  set (v' := with_bytes7 (view_of true p pa (front' ++ [pl']) v) (all_bytes pa (front' ++ [pl']))). assert (SV : sent7 v v') by (apply (SE true v'); reflexivity). exists v'. split; [exact SV|]. change (w_bytes v') with (all_bytes pa (front' ++ [pl'])).
  set (new := length (all_bytes pa (front' ++ [pl']))) in *. split; [exact SZ|].
  assert (NF : is_fragment (q_flags p) = false). { change p with (w_prim v'). rewrite (sent_flags v v') by apply SV. apply OK. }
  unfold render_in_place7. rewrite SZ, EB, rev_app_distr. cbn [rev app]. fold (all_bytes pa (front' ++ [pl'])). fold new. split.
  - intros LT. replace ((N.of_nat (length (w_bytes v)) <? N.of_nat new) && (paddingLeft <? N.of_nat new - N.of_nat (length (w_bytes v)))) with true; [reflexivity|]. symmetry. apply andb_true_iff. rewrite !N.ltb_lt. lia.
  - intros GE CL. assert (EP : pl' = pl). { apply Forall2_app_inv_l in F2. destruct F2 as (f2 & q2 & _ & F2 & E). inversion F2 as [|? ? ? ? S1 S2]; subst. inversion S2; subst. apply app_inj_tail in E. destruct E as (_ & ->). unfold sent_block7 in S1. now rewrite CL in S1. }
    subst pl'. split; [exists front'; reflexivity|].
    replace ((N.of_nat (length (w_bytes v)) <? N.of_nat new) && (paddingLeft <? N.of_nat new - N.of_nat (length (w_bytes v)))) with false by (symmetry; apply andb_false_iff; rewrite !N.ltb_ge; lia).
    assert (EN : new = (length (front_bytes pa front') + length (k_actual pl) + 1)%nat). { unfold new, all_bytes, front_bytes. rewrite actuals_app. unfold actuals7 at 2. cbn [map concat]. rewrite app_nil_r, !app_length. cbn [length]. lia. }
    assert (LW : length (w_bytes v) = (length rest + length (k_actual pl) + 1)%nat) by (rewrite EW, !app_length; cbn [length]; lia). rewrite app_length in HL.
    assert (LM : (new <= length (pad ++ w_bytes v))%nat) by (rewrite app_length; lia). replace (N.of_nat (length (pad ++ w_bytes v)) <? N.of_nat new) with false by (symmetry; apply N.ltb_ge; lia).
    set (space := (_ mod W64)%N). assert (ES : (length (front_bytes pa front') + 8 <= N.to_nat space)%nat).
    { unfold space. set (mx := if N.of_nat (length (w_bytes v)) <? N.of_nat new then N.of_nat new else N.of_nat (length (w_bytes v))). assert (MX : N.of_nat new <= mx < 2 ^ 64 - 10) by (rewrite app_length in LM; unfold mx; destruct (N.ltb_spec (N.of_nat (length (w_bytes v))) (N.of_nat new)); lia).
      replace (mx + W64 - N.of_nat (length (k_actual pl)) + 10) with ((mx - N.of_nat (length (k_actual pl)) + 10) + 1 * W64) by (unfold W64; lia). rewrite N.mod_add, N.mod_small by (unfold W64; lia). lia. }
    assert (W0 : wok (N.to_nat space) (repeat 0 (N.to_nat space), 0%nat) []) by (split; [apply repeat_length|split; reflexivity]).
    destruct (RE true _ _ [] W0 ES) as (w1 & -> & _). rewrite CL. apply Forall_app in FC. pose proof FC as (FC1 & FC2). rewrite (set_live_id front') by exact FC1.
    set (v1 := view_of true p pa (front' ++ [pl]) v). rewrite !Nat2N.id. set (start := (length (pad ++ w_bytes v) - new)%nat).
    assert (EM : pad ++ w_bytes v = firstn start (pad ++ rest) ++ skipn start (pad ++ rest) ++ k_actual pl ++ [255]) by (rewrite EW, (app_assoc (firstn _ _)), firstn_skipn, <- app_assoc; reflexivity).
    assert (LS : (start <= length (pad ++ rest))%nat) by (unfold start; rewrite EW, !app_length; cbn [length]; lia).
    assert (LP : length (firstn start (pad ++ rest)) = start) by (rewrite firstn_length; lia).
    assert (PE : render_at7 (scan_any j) hw true true v1 (pad ++ w_bytes v, start) = Some (v1, Some (firstn start (pad ++ rest) ++ front_bytes pa front' ++ k_actual pl ++ [255], (start + length (front_bytes pa front'))%nat))).
    { assert (LQ : length (skipn start (pad ++ rest)) = length (front_bytes pa front')).
      { rewrite skipn_length. unfold start. rewrite EW, !app_length. cbn [length]. rewrite EW, app_length in LM. rewrite !app_length in LM. cbn [length] in LM. lia. }
      pose proof (place_exact (scan_any j) hw v1 front' pl (firstn start (pad ++ rest)) (skipn start (pad ++ rest)) (k_actual pl ++ [255]) eq_refl eq_refl NF eq_refl (proj2 (Forall_app _ _ _) FC) T N1 LQ) as X.
      rewrite LP, <- EM in X. exact X. }
    rewrite PE. cbn [fst].
    assert (EQ : front_bytes pa front' ++ k_actual pl ++ [255] = all_bytes pa (front' ++ [pl])). { unfold all_bytes, front_bytes. rewrite actuals_app. unfold actuals7 at 3. cbn [map concat]. now rewrite app_nil_r, <- !app_assoc. }
    rewrite EQ. replace (firstn start (pad ++ w_bytes v)) with (firstn start (pad ++ rest)) by (rewrite EM; symmetry; apply firstn_exact; exact LP).
    rewrite (skipn_exact _ _ _ start LP). unfold new. rewrite firstn_all. reflexivity.
Qed.

(** Block numbers. *)
Lemma ctz_bit : forall p, N.testbit (Npos p) (ctz p) = true /\ forall k, k < ctz p -> N.testbit (Npos p) k = false.
Proof.
  induction p as [p IH|p IH|]; cbn [ctz]; [split; [reflexivity|lia]| |split; [reflexivity|lia]]. destruct IH as (A & B). change (Npos p~0) with (2 * Npos p). split; [now rewrite N.double_bits_succ|].
  intros k L. destruct k as [|q]; [apply N.testbit_even_0|]. replace (Npos q) with (N.succ (Npos q - 1)) by lia. rewrite N.double_bits_succ. apply B. lia.
Qed.
Lemma largest_ok : forall l n, n <= largest7 l n /\ Forall (fun b => block_num b <= largest7 l n) l /\ (largest7 l n = n \/ In (largest7 l n) (map block_num l)).
Proof.
  induction l as [|b l IH]; intros n; cbn [largest7 map In]; [split; [lia|split; [constructor|auto]]|]. set (n1 := if n <? c_num (k_c b) then c_num (k_c b) else n). assert (B1 : n <= n1 /\ block_num b <= n1 /\ (n1 = n \/ n1 = block_num b)) by (unfold n1, block_num; destruct (N.ltb_spec n (c_num (k_c b))); lia).
  destruct (IH n1) as (A & B & C). split; [lia|]. split; [constructor; [lia|exact B]|]. destruct C as [C|C]; [|auto]. destruct B1 as (_ & _ & [E|E]); [left; congruence|right; left; congruence].
Qed.
