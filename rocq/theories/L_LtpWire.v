(** Lemmas for C28: the automaton accepts well-formed segments; cut streams. *)
From Coq Require Import NArith ZArith List Bool Lia ZifyBool ZifyN.
From Verif Require Import Base M_SegmentAlloc M_Intrin M_Sdnv S_Sdnv L_Intrin L_Sdnv P_Sdnv L_SdnvRead M_LtpCodec S_LtpCodec L_LtpCodec L_LtpSim.
Import ListNotations.
Open Scope N_scope.

Section Wire.
Variable al : N -> bool.
Ltac leti := match goal with |- ?L = ?B => match L with context [xrun al ?y []] => change (xrun al y []) with B; destruct B; reflexivity end end.
Lemma xrunE r o bs : xrun al (Some (r, o)) bs = let (o2, y) := rrun al r bs in (o ++ o2, y).
Proof. reflexivity. Qed.
Lemma xrun_app x a b : xrun al x (a ++ b) = let (o, y) := xrun al x a in match y with None => (o, None) | Some r => let (o2, z) := rrun al r b in (o ++ o2, z) end.
Proof.
  destruct x as [[r o]|]; [|reflexivity]. cbn [xrun]. rewrite rrun_app. destruct (rrun al r a) as [o1 [r1|]]; [|reflexivity]. destruct (rrun al r1 b) as [o2 z]. now rewrite app_assoc.
Qed.
Lemma push_snoc (hx : list ext) t v b : push_last (hx ++ [(t, v)]) b = Some (hx ++ [(t, v ++ [b])]).
Proof.
  induction hx as [|e hx IH]; [reflexivity|]. cbn [app]. destruct (hx ++ [(t, v)]) as [|e1 r] eqn:E; [destruct hx; discriminate|].
  destruct e as [t0 v0]. change (push_last ((t0, v0) :: e1 :: r) b) with (option_map (cons (t0, v0)) (push_last (e1 :: r) b)). now rewrite IH.
Qed.
Lemma last_snoc (hx : list ext) t v : last_len (hx ++ [(t, v)]) = N.of_nat (length v).
Proof. unfold last_len. now rewrite last_last. Qed.
(** One extension. *)
Lemma hval (hx : list ext) t bs : forall c v, bs <> [] -> c_hx c = hx ++ [(t, v)] ->
  rrun al (RHVal c (N.of_nat (length v + length bs))) bs = xrun al (hnext (cset c (hx ++ [(t, v ++ bs)]))) [].
Proof.
  induction bs as [|b bs IH]; intros c v NB E; [contradiction|]. cbn [rrun rstep]. rewrite E, push_snoc, last_snoc, app_length. cbn [length].
  destruct bs as [|b2 bs].
  - cbn [length]. rewrite N.eqb_refl. destruct (hnext _) as [[r o]|]; reflexivity.
  - replace (N.of_nat (length v + 1) =? _) with false by (cbn [length]; lia).
    specialize (IH (cset c (hx ++ [(t, v ++ [b])])) (v ++ [b]) ltac:(discriminate) eq_refl). rewrite app_length in IH.
    replace (length v + length [b] + length (b2 :: bs))%nat with (length v + S (length (b2 :: bs)))%nat in IH by (cbn [length]; lia).
    rewrite IH, <- app_assoc. cbn [app]. leti.
Qed.
Lemma tval c x (tx : list ext) t bs : forall v, bs <> [] ->
  rrun al (RTVal c x (tx ++ [(t, v)]) (N.of_nat (length v + length bs))) bs = xrun al (Some (tnext c x (tx ++ [(t, v ++ bs)]))) [].
Proof.
  induction bs as [|b bs IH]; intros v NB; [contradiction|]. cbn [rrun rstep]. rewrite push_snoc, last_snoc, app_length. cbn [length].
  destruct bs as [|b2 bs].
  - cbn [length]. rewrite N.eqb_refl. destruct (tnext _ _ _) as [r o]; reflexivity.
  - replace (N.of_nat (length v + 1) =? _) with false by (cbn [length]; lia).
    specialize (IH (v ++ [b]) ltac:(discriminate)). rewrite app_length in IH.
    replace (length v + length [b] + length (b2 :: bs))%nat with (length v + S (length (b2 :: bs)))%nat in IH by (cbn [length]; lia).
    rewrite IH, <- app_assoc. cbn [app]. leti.
Qed.
Definition room (e : ext) : Prop := snd e = [] \/ al (N.of_nat (length (snd e))) = true.
Lemma xnil x : xrun al x [] = match x with None => ([], None) | Some (r, o) => (o, Some r) end.
Proof. destruct x as [[r o]|]; [|reflexivity]. cbn [xrun rrun]. now rewrite app_nil_r. Qed.
Lemma hext c t v sd : room (t, v) -> sdnv_for (N.of_nat (length v)) sd -> rrun al (RHTag c) (t :: sd ++ v) = xrun al (hnext (cset c (c_hx c ++ [(t, v)]))) [].
Proof.
  intros R S. cbn [rrun rstep]. set (c1 := cset c (c_hx c ++ [(t, [])])). rewrite rrun_app, (collect_ok al (RHLen c1) _ (fun _ _ => eq_refl) _ _ S).
  destruct v as [|b v].
  - cbn [length]. change (N.of_nat 0 =? 0) with true. cbn iota. change (hnext c1) with (hnext (cset c (c_hx c ++ [(t, [])]))). rewrite xnil. destruct (hnext _) as [[r o]|]; [|reflexivity]. cbn [rrun app]. now rewrite ?app_nil_r.
  - replace (N.of_nat (length (b :: v)) =? 0) with false by (cbn [length]; lia). destruct R as [R|R]; [discriminate|]. cbn [snd] in R. rewrite R. cbn [negb].
    pose proof (hval (c_hx c) t (b :: v) c1 [] ltac:(discriminate) eq_refl) as E. cbn [length Nat.add app] in E |- *. rewrite E. leti.
Qed.
Lemma text c x (tx : list ext) t v sd : room (t, v) -> sdnv_for (N.of_nat (length v)) sd -> rrun al (RTTag c x tx) (t :: sd ++ v) = xrun al (Some (tnext c x (tx ++ [(t, v)]))) [].
Proof.
  intros R S. cbn [rrun rstep]. rewrite rrun_app, (collect_ok al (RTLen c x (tx ++ [(t, [])])) _ (fun _ _ => eq_refl) _ _ S).
  destruct v as [|b v].
  - cbn [length]. change (N.of_nat 0 =? 0) with true. cbn iota. rewrite xnil. destruct (tnext _ _ _) as [r o]. cbn [rrun app]. now rewrite ?app_nil_r.
  - replace (N.of_nat (length (b :: v)) =? 0) with false by (cbn [length]; lia). destruct R as [R|R]; [discriminate|]. cbn [snd] in R. rewrite R. cbn [negb].
    pose proof (tval c x tx t (b :: v) [] ltac:(discriminate)) as E. cbn [length Nat.add app] in E |- *. rewrite E. leti.
Qed.
Lemma hexts xs bs : wire_exts xs bs -> forall c, xs <> [] -> Forall room xs -> (N.of_nat (length (c_hx c) + length xs) = c_nh c) ->
  rrun al (RHTag c) bs = xrun al (ent (cset c (c_hx c ++ xs))) [].
Proof.
  induction 1 as [|t v sd xs bs HT HV S W IH]; intros c NX F L; [contradiction|]. inversion F as [|? ? F1 F2]; subst.
  replace (t :: sd ++ v ++ bs) with ((t :: sd ++ v) ++ bs) by (cbn [app]; now rewrite <- app_assoc). rewrite rrun_app, hext by assumption. unfold hnext.
  change (c_hx (cset c (c_hx c ++ [(t, v)]))) with (c_hx c ++ [(t, v)]). change (c_nh (cset c (c_hx c ++ [(t, v)]))) with (c_nh c). rewrite app_length. cbn [length] in L |- *.
  destruct xs as [|e xs].
  - inversion W; subst. replace (N.of_nat (length (c_hx c) + 1) =? c_nh c) with true by (cbn [length] in L; lia). rewrite xnil. destruct (ent _) as [[r o]|]; [|reflexivity]. cbn [rrun app]. now rewrite ?app_nil_r.
  - replace (N.of_nat (length (c_hx c) + 1) =? c_nh c) with false by (cbn [length] in L; lia). cbn [xrun rrun]. rewrite IH; [|discriminate|exact F2|].
    + cbn [c_hx cset]. rewrite <- app_assoc. cbn [app]. leti.
    + cbn [c_hx cset c_nh]. rewrite app_length. cbn [length] in *. lia.
Qed.
Lemma texts c x xs bs : wire_exts xs bs -> forall tx, xs <> [] -> Forall room xs -> (N.of_nat (length tx + length xs) = c_nt c) ->
  rrun al (RTTag c x tx) bs = ([out c x (tx ++ xs)], Some RCtl).
Proof.
  induction 1 as [|t v sd xs bs HT HV S W IH]; intros tx NX F L; [contradiction|]. inversion F as [|? ? F1 F2]; subst.
  replace (t :: sd ++ v ++ bs) with ((t :: sd ++ v) ++ bs) by (cbn [app]; now rewrite <- app_assoc). rewrite rrun_app, text by assumption. unfold tnext.
  rewrite app_length. cbn [length] in L |- *. destruct xs as [|e xs].
  - inversion W; subst. replace (N.of_nat (length tx + 1) =? c_nt c) with true by (cbn [length] in L; lia). reflexivity.
  - replace (N.of_nat (length tx + 1) =? c_nt c) with false by (cbn [length] in L; lia). cbn [xrun rrun]. rewrite IH; [|discriminate|exact F2|].
    + cbn [app]. rewrite <- app_assoc. reflexivity.
    + rewrite app_length. cbn [length] in *. lia.
Qed.
Lemma fin_run c x tx bs : wire_exts tx bs -> Forall room tx -> N.of_nat (length tx) = c_nt c -> xrun al (Some (fin c x)) bs = ([out c x tx], Some RCtl).
Proof.
  intros W F L. unfold fin. destruct tx as [|e tx].
  - inversion W; subst. rewrite <- L. reflexivity.
  - replace (c_nt c =? 0) with false by (cbn [length] in L; lia). cbn [xrun]. rewrite (texts c x (e :: tx) bs W []); [reflexivity|discriminate|exact F|exact L].
Qed.
(** The content. *)
Lemma rdat_one c vals v sd : sdnv_for v sd -> rrun al (RDat c vals []) sd = xrun al (dnext al c (vals ++ [v])) [].
Proof. intros S. rewrite (collect_ok al (RDat c vals) _ (fun _ _ => eq_refl) _ _ S), xnil. destruct (dnext al c _) as [[r o]|]; reflexivity. Qed.
Lemma rrep_one c vals v sd : sdnv_for v sd -> rrun al (RRep c vals []) sd = xrun al (pnext al c (vals ++ [v])) [].
Proof. intros S. rewrite (collect_ok al (RRep c vals) _ (fun _ _ => eq_refl) _ _ S), xnil. destruct (pnext al c _) as [[r o]|]; reflexivity. Qed.
Lemma set_last_snoc cl o l v : set_last_len (cl ++ [(o, l)]) v = Some (cl ++ [(o, v)]).
Proof.
  induction cl as [|[o1 l1] cl IH]; [reflexivity|]. cbn [app]. destruct (cl ++ [(o, l)]) as [|e1 r] eqn:E; [destruct cl; discriminate|].
  change (set_last_len ((o1, l1) :: e1 :: r) v) with (option_map (cons (o1, l1)) (set_last_len (e1 :: r) v)). now rewrite IH.
Qed.
Lemma claims_run c f claims : forall cl bs, claims <> [] -> Forall (fun x => snd x <> 0) claims -> N.of_nat (length cl + length claims) = nth 4 f 0 ->
  sdnvs (flat_map (fun x => [fst x; snd x]) claims) bs -> rrun al (RClm c f cl []) bs = xrun al (Some (fin c (BRep f (cl ++ claims)))) [].
Proof.
  induction claims as [|[o l] claims IH]; intros cl bs NC F L H; [contradiction|]. cbn [flat_map fst snd app] in H.
  inversion H as [|? s1 ? b1 S1 H1]; subst. inversion H1 as [|? s2 ? b2 S2 H2]; subst. inversion F as [|? ? F1 F2]; subst. cbn [snd] in F1.
  rewrite rrun_app, (collect_ok al (RClm c f cl) _ (fun _ _ => eq_refl) _ _ S1). cbn iota.
  rewrite rrun_app, (collect_ok al (RClmL c f (cl ++ [(o, 0)])) _ (fun _ _ => eq_refl) _ _ S2). unfold lnext. replace (l =? 0) with false by lia.
  rewrite set_last_snoc, app_length. cbn [length] in *. destruct claims as [|e claims].
  - replace (N.of_nat (length cl + 1) <? nth 4 f 0) with false by (cbn [length] in L; lia). inversion H2; subst. destruct (fin _ _) as [r o2]. cbn [rrun xrun app]. reflexivity.
  - replace (N.of_nat (length cl + 1) <? nth 4 f 0) with true by (cbn [length] in L; lia). rewrite (IH (cl ++ [(o, l)]) b2); [|discriminate|exact F2|rewrite app_length; cbn [length] in *; lia|exact H2].
    rewrite <- app_assoc. cbn [app]. leti.
Qed.
Definition fits (ct : content) : Prop :=
  match ct with
  | Data _ _ _ _ d => d <> [] /\ al (N.of_nat (length d)) = true
  | Report _ _ _ _ claims => claims <> [] /\ Forall (fun c => snd c <> 0) claims /\ al (16 * N.of_nat (length claims)) = true
  | _ => True
  end.
Ltac sinv H := inversion H as [|? ? ? ? ? ?]; subst; clear H.
Lemma content_run c ct bs : wire_content ct bs -> c_f c = type_flags ct -> fits ct ->
  exists x, xrun al (ent c) bs = xrun al (Some (fin c x)) [] /\ forall tx, out c x tx = report_of (mkSeg (c_eng c) (c_num c) (c_hx c) ct tx).
Proof.
  intros W EF FT. destruct W as [f csid off d sd IF BD S|f csid off cp rp d sd IF BD S|rsn cp ub lb claims sd S|rsn sd S|s reason B|s]; cbn [type_flags] in EF.
  - destruct FT as [ND A]. exists (BData csid off (N.of_nat (length d)) None d). split; [|intros tx; cbn; now rewrite EF].
    assert (E : ent c = Some (RDat c [] [], []) /\ is_cp (c_f c) = false) by (unfold ent; rewrite EF; destruct IF as [<-|[<-|[<-|[]]]]; split; reflexivity).
    destruct E as [-> EC]. rewrite xrun_nil, rrun_app. inversion S as [|? s1 ? b1 S1 H1]; subst. inversion H1 as [|? s2 ? b2 S2 H2]; subst. inversion H2 as [|? s3 ? b3 S3 H3]; subst. inversion H3; subst. rewrite app_nil_r.
    rewrite rrun_app, (rdat_one c [] _ _ S1). cbn [app dnext xrun rrun]. rewrite rrun_app, (rdat_one c _ _ _ S2). cbn [app dnext xrun rrun]. rewrite (rdat_one c _ _ _ S3). cbn [app dnext].
    replace (N.of_nat (length d) =? 0) with false by (destruct d; [contradiction|cbn [length]; lia]). rewrite A, EC. cbn [negb xrun rrun app].
    rewrite (rrun_bytes_all (fun _ => false) al ltac:(discriminate) ltac:(discriminate)); [|exact ND|cbn; lia]. cbn [app]. destruct (fin c _) as [r o]. cbn [rrun app]. now rewrite app_nil_r.
  - destruct FT as [ND A]. exists (BData csid off (N.of_nat (length d)) (Some (cp, rp)) d). split; [|intros tx; cbn; now rewrite EF].
    assert (E : ent c = Some (RDat c [] [], []) /\ is_cp (c_f c) = true) by (unfold ent; rewrite EF; destruct IF as [<-|[<-|[<-|[]]]]; split; reflexivity).
    destruct E as [-> EC]. rewrite xrun_nil, rrun_app. inversion S as [|? s1 ? b1 S1 H1]; subst. inversion H1 as [|? s2 ? b2 S2 H2]; subst. inversion H2 as [|? s3 ? b3 S3 H3]; subst.
    inversion H3 as [|? s4 ? b4 S4 H4]; subst. inversion H4 as [|? s5 ? b5 S5 H5]; subst. inversion H5; subst. rewrite app_nil_r.
    rewrite rrun_app, (rdat_one c [] _ _ S1). cbn [app dnext xrun rrun]. rewrite rrun_app, (rdat_one c _ _ _ S2). cbn [app dnext xrun rrun]. rewrite rrun_app, (rdat_one c _ _ _ S3). cbn [app dnext].
    replace (N.of_nat (length d) =? 0) with false by (destruct d; [contradiction|cbn [length]; lia]). rewrite A, EC. cbn [negb xrun rrun app].
    rewrite rrun_app, (rdat_one c _ _ _ S4). cbn [app dnext xrun rrun]. rewrite (rdat_one c _ _ _ S5). cbn [app dnext]. rewrite A. cbn [negb xrun rrun app].
    rewrite (rrun_bytes_all (fun _ => false) al ltac:(discriminate) ltac:(discriminate)); [|exact ND|cbn; lia]. cbn [app]. destruct (fin c _) as [r o]. cbn [rrun app]. now rewrite app_nil_r.
  - destruct FT as (NC & F & A). exists (BRep [rsn; cp; ub; lb; N.of_nat (length claims)] claims). split; [|intros tx; reflexivity].
    assert (E : ent c = Some (RRep c [] [], [])) by (unfold ent; now rewrite EF). rewrite E, xrun_nil. cbn [app] in S.
    inversion S as [|? s1 ? b1 S1 H1]; subst. inversion H1 as [|? s2 ? b2 S2 H2]; subst. inversion H2 as [|? s3 ? b3 S3 H3]; subst.
    inversion H3 as [|? s4 ? b4 S4 H4]; subst. inversion H4 as [|? s5 ? b5 S5 H5]; subst.
    rewrite rrun_app, (rrep_one c [] _ _ S1). cbn [app pnext xrun rrun]. rewrite rrun_app, (rrep_one c _ _ _ S2). cbn [app pnext xrun rrun]. rewrite rrun_app, (rrep_one c _ _ _ S3). cbn [app pnext xrun rrun].
    rewrite rrun_app, (rrep_one c _ _ _ S4). cbn [app pnext xrun rrun]. rewrite rrun_app, (rrep_one c _ _ _ S5). cbn [app pnext].
    replace (N.of_nat (length claims) =? 0) with false by (destruct claims; [contradiction|cbn [length]; lia]). rewrite A. cbn [negb xrun rrun app].
    rewrite (claims_run c _ claims [] b5 NC F); [|reflexivity|exact H5]. cbn [app]. leti.
  - exists (BAck rsn). split; [|intros tx; reflexivity]. assert (E : ent c = Some (RAck c [], [])) by (unfold ent; now rewrite EF). rewrite E, xrun_nil.
    inversion S as [|? s1 ? b1 S1 H1]; subst. inversion H1; subst. rewrite app_nil_r, (collect_ok al (RAck c) _ (fun _ _ => eq_refl) _ _ S1), xnil. destruct (fin _ _); reflexivity.
  - exists (BCan reason). split; [|intros tx; cbn; rewrite EF; now destruct s].
    assert (E : ent c = Some (RCan c, [])) by (unfold ent; rewrite EF; now destruct s). rewrite E, xrun_nil. cbn [rrun rstep]. rewrite xnil. destruct (fin _ _). now rewrite app_nil_r.
  - exists BCack. split; [|intros tx; cbn; rewrite EF; now destruct s]. assert (E : ent c = Some (fin c BCack)) by (unfold ent; rewrite EF; now destruct s). now rewrite E.
Qed.
Lemma nibbles a b : a < 16 -> b < 16 -> N.shiftr (16 * a + b) 4 = a /\ N.land (16 * a + b) 15 = b.
Proof.
  intros A B. split.
  - rewrite N.shiftr_div_pow2. change (2 ^ 4) with 16. symmetry. apply (N.div_unique _ _ _ b); lia.
  - change 15 with (N.ones 4). rewrite N.land_ones. change (2 ^ 4) with 16. symmetry. apply (N.mod_unique _ _ a); lia.
Qed.
(** A whole segment. *)
Lemma segment_run g bs : wire g bs -> acceptable al g -> rrun al RCtl bs = ([LcEngine (g_eng g); report_of g], Some RCtl).
Proof.
  intros W AC. destruct W as [g sid hb cb tb L1 L2 SID WH WC WT]. destruct AC as [AX AC]. apply Forall_app in AX. destruct AX as [AH AT].
  inversion SID as [|? s1 ? b1 S1 H1]; subst. inversion H1 as [|? s2 ? b2 S2 H2]; subst. inversion H2; subst. rewrite app_nil_r. clear SID H1 H2.
  set (f := type_flags (g_content g)). assert (LF : f <? 16 = true).
  { unfold f. destruct WC as [? ? ? ? ? IF|? ? ? ? ? ? ? IF| | | |]; cbn [type_flags]; try reflexivity; try (now destruct s); cbn in IF; lia. }
  cbn [rrun rstep]. rewrite LF, <- app_assoc, rrun_app, (collect_ok al (REng f) _ (fun _ _ => eq_refl) _ _ S1). cbn iota.
  rewrite rrun_app, (collect_ok al (RNum f (g_eng g)) _ (fun _ _ => eq_refl) _ _ S2). cbn iota. cbn [rrun rstep].
  destruct (nibbles (N.of_nat (length (g_hx g))) (N.of_nat (length (g_tx g)))) as [E1 E2]; [lia|lia|]. rewrite E1, E2.
  set (c := mkCx f (g_eng g) (g_num g) (N.of_nat (length (g_hx g))) (N.of_nat (length (g_tx g))) (g_hx g)).
  assert (BODY : xrun al (ent c) (cb ++ tb) = ([report_of g], Some RCtl)).
  { destruct (content_run c (g_content g) cb WC eq_refl AC) as (x & E & O). rewrite xrun_app, E, xnil.
    pose proof (fin_run c x (g_tx g) tb WT AT eq_refl) as FR. destruct (fin c x) as [r o]. cbn [xrun] in FR. rewrite FR, O. cbn [c c_eng c_num c_hx]. now destruct g. }
  assert (HEAD : match (if negb (N.of_nat (length (g_hx g)) =? 0) then Some (RHTag (mkCx f (g_eng g) (g_num g) (N.of_nat (length (g_hx g))) (N.of_nat (length (g_tx g))) []), [])
     else ent (mkCx f (g_eng g) (g_num g) (N.of_nat (length (g_hx g))) (N.of_nat (length (g_tx g))) [])) with None => ([], None) | Some (r', o) => let (o2, x) := rrun al r' (hb ++ cb ++ tb) in (o ++ o2, x) end = ([report_of g], Some RCtl)).
  { destruct (g_hx g) as [|e hx] eqn:EH.
    - inversion WH; subst. cbn [length N.of_nat app]. change (negb (0 =? 0)) with false. cbn iota. exact BODY.
    - replace (N.of_nat (length (e :: hx)) =? 0) with false by (cbn [length]; lia). cbn [negb]. rewrite rrun_app, (hexts (e :: hx) hb WH); [|discriminate|exact AH|reflexivity].
      cbn [c_hx app]. change (cset _ (e :: hx)) with c. revert BODY. rewrite xnil. destruct (ent c) as [[r o]|]; [|discriminate]. cbn [xrun]. intros ->. reflexivity. }
  rewrite HEAD. reflexivity.
Qed.
Lemma stream_run gs bs : stream gs bs -> Forall (acceptable al) gs -> rrun al RCtl bs = (callbacks gs, Some RCtl).
Proof.
  induction 1 as [|g b gs bs W S IH]; intros A; [reflexivity|]. inversion A as [|? ? A1 A2]; subst. rewrite rrun_app, (segment_run g b W A1), (IH A2). reflexivity.
Qed.
(** Segments are reported exactly on returning to the start. *)
Lemma report_ctl r b r' o : rstep al r b = Some (r', o) -> (r' = RCtl <-> segments o <> []).
Proof.
  intros E. assert (PL : forall r0 : rst, r0 <> RCtl -> (r0 = RCtl <-> segments [] <> [])) by (intros r0 H; cbn; split; congruence).
  assert (F : forall c x, fin c x = (r', o) -> (r' = RCtl <-> segments o <> [])).
  { intros c x H. unfold fin in H. destruct (_ =? 0); injection H as <- <-; [|cbn; split; [discriminate|congruence]]. destruct x; cbn; split; congruence || discriminate. }
  assert (T : forall c x tx, tnext c x tx = (r', o) -> (r' = RCtl <-> segments o <> [])).
  { intros c x tx H. unfold tnext in H. destruct (_ =? _); injection H as <- <-; [|cbn; split; [discriminate|congruence]]. destruct x; cbn; split; congruence || discriminate. }
  assert (EN : forall c, ent c = Some (r', o) -> (r' = RCtl <-> segments o <> [])).
  { intros c H. unfold ent in H. destruct (_ =? 13); [apply (F c BCack); congruence|]. destruct (_ || _); [discriminate|].
    destruct (_ <=? 7); [injection H as <- <-; apply PL; discriminate|]. destruct (_ =? 8); [injection H as <- <-; apply PL; discriminate|].
    destruct (_ =? 9); injection H as <- <-; apply PL; discriminate. }
  assert (HN : forall c, hnext c = Some (r', o) -> (r' = RCtl <-> segments o <> [])).
  { intros c H. unfold hnext in H. destruct (_ =? _); [now apply (EN c)|]. injection H as <- <-. apply PL. discriminate. }
  assert (SD : forall X nx p, (forall q, X q <> RCtl) -> sd X nx p b = Some (r', o) -> (forall v, nx v = Some (r', o) -> (r' = RCtl <-> segments o <> [])) -> (r' = RCtl <-> segments o <> [])).
  { intros X nx p NX H HK. unfold sd in H. destruct (rsd p b) as [| |v]; [injection H as <- <-; apply PL, NX|discriminate|now apply (HK v)]. }
  destruct r; cbn [rstep] in E.
  - destruct (b <? 16); [|discriminate]. injection E as <- <-. apply PL. discriminate.
  - eapply SD; [|exact E|]; [discriminate|]. intros v H; cbn beta in H. injection H as <- <-. cbn. split; [discriminate|congruence].
  - eapply SD; [|exact E|]; [discriminate|]. intros v H; cbn beta in H. injection H as <- <-. apply PL. discriminate.
  - destruct (negb _); [injection E as <- <-; apply PL; discriminate|now apply (EN _ E)].
  - injection E as <- <-. apply PL. discriminate.
  - eapply SD; [|exact E|]; [discriminate|]. intros v H; cbn beta in H. destruct (v =? 0); [now apply (HN _ H)|]. destruct (negb _); [discriminate|]. injection H as <- <-. apply PL. discriminate.
  - destruct (push_last _ _); [|discriminate]. destruct (_ =? _); [now apply (HN _ E)|]. injection E as <- <-. apply PL. discriminate.
  - eapply SD; [|exact E|]; [discriminate|]. intros v H; cbn beta in H. unfold dnext in H. destruct (vals ++ [v]) as [|v0 [|v1 [|v2 [|v3 [|v4 [|v5 vs]]]]]];
      repeat match type of H with context [if ?x then _ else _] => destruct x end; try discriminate; injection H as <- <-; apply PL; discriminate.
  - destruct (_ =? _); [apply (F c (BData csid off len ser (d ++ [b]))); congruence|]. injection E as <- <-. apply PL. discriminate.
  - eapply SD; [|exact E|]; [discriminate|]. intros v H; cbn beta in H. unfold pnext in H. destruct (vals ++ [v]) as [|v0 [|v1 [|v2 [|v3 [|v4 [|v5 vs]]]]]];
      repeat match type of H with context [if ?x then _ else _] => destruct x end; try discriminate; injection H as <- <-; apply PL; discriminate.
  - eapply SD; [|exact E|]; [discriminate|]. intros v H; cbn beta in H. injection H as <- <-. apply PL. discriminate.
  - eapply SD; [|exact E|]; [discriminate|]. intros v H; cbn beta in H. unfold lnext in H. destruct (v =? 0); [discriminate|]. destruct (set_last_len _ _) as [x|]; [|discriminate].
    destruct (_ <? _); [injection H as <- <-; apply PL; discriminate|]. apply (F c (BRep f x)). congruence.
  - eapply SD; [|exact E|]; [discriminate|]. intros v H; cbn beta in H. apply (F c (BAck v)). congruence.
  - apply (F c (BCan b)). congruence.
  - injection E as <- <-. apply PL. discriminate.
  - eapply SD; [|exact E|]; [discriminate|]. intros v H; cbn beta in H. destruct (v =? 0); [apply (T c b0 tx); congruence|]. destruct (negb _); [discriminate|]. injection H as <- <-. apply PL. discriminate.
  - destruct (push_last _ _) as [y|]; [|discriminate]. destruct (_ =? _); [apply (T c b0 y); congruence|]. injection E as <- <-. apply PL. discriminate.
Qed.
(** Reaching the start again takes a report. *)
Lemma back bs : forall r o, bs <> [] -> rrun al r bs = (o, Some RCtl) -> segments o <> [].
Proof.
  induction bs as [|b bs IH]; intros r o NB E; [contradiction|]. cbn [rrun] in E. destruct (rstep al r b) as [[r1 o1]|] eqn:ES; [|discriminate].
  destruct (rrun al r1 bs) as [o2 x] eqn:ER. injection E as <- ->. rewrite segments_app. destruct bs as [|b2 bs].
  - cbn [rrun] in ER. injection ER as <- ->. apply (report_ctl _ _ _ _) in ES. intros H. apply app_eq_nil in H. destruct H as [H _]. now apply ES.
  - specialize (IH r1 o2 ltac:(discriminate) ER). intros H. apply app_eq_nil in H. now destruct H.
Qed.
(** A report before the end of a run that returns to the start and one byte further there is another. *)
Lemma early p : forall r o r1 q o2, rrun al r p = (o, Some r1) -> segments o <> [] -> q <> [] -> rrun al r1 q = (o2, Some RCtl) -> (2 <= length (segments (o ++ o2)))%nat.
Proof.
  induction p as [|b p IH]; intros r o r1 q o2 E NO NQ E2; cbn [rrun] in E; [injection E as <- <-; contradiction|].
  destruct (rstep al r b) as [[r2 oa]|] eqn:ES; [|discriminate]. destruct (rrun al r2 p) as [ob x] eqn:ER. injection E as <- ->. rewrite <- app_assoc, segments_app, app_length.
  destruct (segments oa) as [|s1 sr] eqn:EO.
  - cbn [length Nat.add]. apply (IH r2 ob r1 q o2 ER); [|exact NQ|exact E2]. now rewrite segments_app, EO in NO.
  - assert (E3 : rrun al r2 (p ++ q) = (ob ++ o2, Some RCtl)) by now rewrite rrun_app, ER, E2.
    assert (NE : p ++ q <> []) by (intros H; apply app_eq_nil in H; now destruct H).
    apply back in E3; [|exact NE]. destruct (segments (ob ++ o2)); [contradiction|cbn [length]; lia].
Qed.
Lemma cut_run g p q : wire g (p ++ q) -> acceptable al g -> q <> [] -> p <> [] ->
  exists o r, rrun al RCtl p = (o, Some r) /\ r <> RCtl /\ (o = [] \/ o = [LcEngine (g_eng g)]).
Proof.
  intros W A NQ NP. pose proof (segment_run g _ W A) as E. rewrite rrun_app in E. destruct (rrun al RCtl p) as [o [r|]] eqn:EP; [|discriminate].
  destruct (rrun al r q) as [o2 y] eqn:EQ. injection E as E ->. assert (SG : segments o = []).
  { destruct (segments o) eqn:ES; [reflexivity|]. exfalso. assert (H : (2 <= length (segments (o ++ o2)))%nat) by (eapply early; [exact EP|rewrite ES; discriminate|exact NQ|exact EQ]).
    rewrite E in H. cbn in H. destruct (report_of g); cbn in H; lia. }
  exists o, r. split; [reflexivity|]. split.
  - intros ->. now apply back in EP.
  - destruct o as [|a [|b o]]; [now left|injection E as -> E; now right|]. exfalso. injection E as -> -> E. unfold report_of in SG. destruct (g_content g); discriminate SG.
Qed.
End Wire.
