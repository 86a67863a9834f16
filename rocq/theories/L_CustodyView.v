(** Lemmas for C56: the custody fields of a bundle, and what the next node gets. *)
From Coq Require Import PeanoNat NArith List Bool Lia ZifyBool ZifyN.
From Verif Require Import Base M_FragmentSet M_Sdnv M_Acs M_Uri M_Bpv6Block M_BundleV6 S_FragmentSet S_Sdnv S_Uri S_Bpv6 S_BundleV6 L_Sdnv L_Uri
  P_Uri L_Bpv6Write L_Bpv6Trip L_BundleV6 P_BundleV6 M_Custody S_Custody L_Custody L_CustodyRun.
Import ListNotations.
Open Scope N_scope.

Lemma filter_none {A} (f : A -> bool) l : filter f l = [] <-> Forall (fun x => f x = false) l.
Proof. induction l as [|x l IH]; cbn [filter]; [split; [constructor|reflexivity]|]. destruct (f x) eqn:E; [split; [discriminate|intros H; apply Forall_inv in H; congruence]|]. rewrite IH, Forall_cons_iff. tauto. Qed.
Lemma filter_one {A} (f : A -> bool) l c : filter f l = [c] <-> exists a b, l = a ++ c :: b /\ f c = true /\ Forall (fun x => f x = false) (a ++ b).
Proof.
  split.
  - induction l as [|x l IH]; cbn [filter]; [discriminate|]. destruct (f x) eqn:E.
    + intros [= -> H]. exists [], l. split; [reflexivity|]. split; [exact E|]. now apply filter_none.
    + intros H. destruct (IH H) as (a & b & -> & A1 & A2). exists (x :: a), b. split; [reflexivity|]. split; [exact A1|]. constructor; assumption.
  - intros (a & b & -> & E & F). apply Forall_app in F. destruct F as (F1 & F2). rewrite filter_app. cbn [filter]. rewrite E. apply filter_none in F1, F2. now rewrite F1, F2.
Qed.
Lemma filter_type t v c : filter (fun c => k_type (c_blk c) =? t) (v_blocks v) = [c] <-> only_block t c v.
Proof.
  rewrite filter_one. unfold only_block, type_of. split; intros (a & b & E & T & F); exists a, b; (split; [exact E|]); (split; [now apply N.eqb_eq|]); (eapply Forall_impl; [|exact F]); cbn; intros x; apply N.eqb_neq.
Qed.
Lemma without_filter t v : filter (fun c => k_type (c_blk c) =? t) (v_blocks v) = [] <-> without t v.
Proof. rewrite filter_none. unfold without, type_of. split; apply Forall_impl; intros x; apply N.eqb_neq. Qed.
Lemma parse_form text node svc : parse_uri_string false text = Some (node, Svc svc) <-> exists a b, text = ipn_colon ++ a ++ [46] ++ b /\ number_text node a /\ number_text svc b.
Proof.
  rewrite (proj1 (C36_parse_is_exact false text)). split.
  - intros (ssp & -> & P). apply C36_parse_ssp_is_exact in P. destruct P as (a & b & -> & A & B). eauto 10.
  - intros (a & b & -> & A & B). exists (a ++ [46] ++ b). split; [reflexivity|]. apply C36_parse_ssp_is_exact. eauto 10.
Qed.
Lemma parse_no_any text node : parse_uri_string false text <> Some (node, AnySvc).
Proof. intros H. apply (proj1 (C36_parse_is_exact false text)) in H. destruct H as (ssp & _ & P). apply C36_parse_ssp_is_exact in P. destruct P as (? & ? & _ & _ & X & _). discriminate. Qed.
Lemma enhanced_cteb v o : enhanced v o -> match o with None => cteb v = Some None | Some (id, e) => cteb v = Some (Some (id, eid_eqb (p_cust (v_prim v)) e)) end.
Proof.
  intros H. unfold cteb, is_cteb, cteb_type. destruct H as [W|c id node svc a b O C A B].
  - apply without_filter in W. now rewrite W.
  - rewrite (proj2 (filter_type 10 v c) O), C. rewrite (proj2 (parse_form _ node svc)) by eauto. reflexivity.
Qed.
Lemma cteb_enhanced v x : cteb v = Some x -> match x with None => enhanced v None | Some (id, b) => exists e, enhanced v (Some (id, e)) /\ b = eid_eqb (p_cust (v_prim v)) e end.
Proof.
  unfold cteb, is_cteb, cteb_type. destruct (filter _ (v_blocks v)) as [|c [|d q]] eqn:F; try discriminate.
  - intros [= <-]. constructor. now apply without_filter.
  - destruct (k_content (c_blk c)) as [|id text| | | |] eqn:C; try discriminate. destruct (parse_uri_string false text) as [[node [svc|]]|] eqn:P; try discriminate. intros [= <-]. apply filter_type in F.
    apply parse_form in P. destruct P as (a & b & -> & A & B). exists (node, svc). split; [|reflexivity]. exact (enh_some v c id node svc a b F C A B).
Qed.
Lemma info_knows cfg v i : get_info cfg v = Some i -> knows (f_aware cfg) v i.
Proof.
  unfold get_info. destruct (payload_size v) as [n|] eqn:P; [|discriminate]. unfold payload_size in P. destruct (filter _ (v_blocks v)) as [|c [|d q]] eqn:F; try discriminate. injection P as <-. apply filter_type in F.
  unfold knows. destruct (f_aware cfg).
  - destruct (cteb v) as [x|] eqn:C; [|discriminate]. apply cteb_enhanced in C. destruct x as [(id & b)|].
    + destruct C as (e & EN & ->). destruct (eid_eqb (p_cust (v_prim v)) e) eqn:Q; intros [= <-]; cbn [i_prim i_size i_valid i_id]; (split; [reflexivity|]; split; [eauto|]; exists (Some (id, e)); split; [exact EN|]).
      * apply eid_eqb_eq in Q. split; [auto|congruence].
      * split; [intros ->; rewrite (proj2 (eid_eqb_eq _ _) eq_refl) in Q; discriminate|auto].
    + intros [= <-]. cbn [i_prim i_size i_valid]. split; [reflexivity|]. split; [eauto|]. exists None. auto.
  - intros [= <-]. cbn [i_prim i_size i_valid]. split; [reflexivity|]. split; [eauto|reflexivity].
Qed.
Lemma no_info cfg v i : get_info cfg v = None -> ~ knows (f_aware cfg) v i.
Proof.
  unfold get_info, knows. intros H (_ & (c & O & _) & K). apply filter_type in O. unfold payload_size in H. rewrite O in H. destruct (f_aware cfg); [|discriminate]. destruct K as (o & EN & _). apply enhanced_cteb in EN. destruct o as [(id & e)|]; rewrite EN in H; [destruct (eid_eqb _ _)|]; discriminate.
Qed.

(** ** Loaded bundles *)
Lemma wire_prim_ok p bs : wire_primary p bs -> prim_ok p.
Proof.
  assert (G : forall vs bs, sdnvs vs bs -> Forall (fun v => v < W64) vs) by (intros vs bs' H; induction H as [|? ? ? ? (_ & _ & _ & S)]; constructor; assumption).
  intros (sd & fr & _ & S & F). apply G in S. repeat (apply Forall_cons_iff in S; destruct S as [? S]). unfold prim_ok. destruct (fragment_flag (p_flags p)).
  - apply G in F. repeat (apply Forall_cons_iff in F; destruct F as [? F]). split; [repeat constructor; assumption|discriminate].
  - destruct F as (_ & -> & ->). split; [repeat constructor; try assumption; unfold W64; lia|auto].
Qed.
Definition tc (c : cbv) : N * content := (type_of c, k_content (c_blk c)).
(** Blocks that keep what they are when sent. *)
Definition steady (c : cbv) : Prop := rewritten c = false \/ exists id text, tc c = (10, Cteb id text).
Lemma clear_last_bit il f : N.clearbit (last_bit il f) 3 = N.clearbit f 3.
Proof. apply N.bits_inj. intros j. unfold last_bit. destruct il; rewrite !N.clearbit_eqb, ?N.setbit_eqb, ?N.clearbit_eqb; destruct (N.eqb_spec 3 j); cbn [negb andb orb]; destruct (N.testbit f j); reflexivity. Qed.
Lemma sent_steady il c c' : sent_block il c c' -> steady c -> tc c' = tc c /\ (rewritten c = false -> essence c' = essence c).
Proof.
  intros (_ & _ & C & data & KD & _ & H) S. unfold tc, type_of, essence. rewrite C, KD. destruct (rewritten c) eqn:R.
  - destruct S as [X|(id & text & T)]; [congruence|]. unfold tc, type_of in T. injection T as T1 T2. destruct H as (_ & T & _). rewrite T. unfold block_type, refl_block. cbn [k_content k_type]. rewrite T2. split; [congruence|discriminate].
  - destruct H as (D & T & F & _). rewrite T, F, D. unfold refl_block. cbn [k_type k_flags]. split; [reflexivity|]. intros _. now rewrite clear_last_bit.
Qed.
Definition non10 (c : cbv) : bool := negb (type_of c =? 10).
Lemma tc_type c c' : tc c' = tc c -> type_of c' = type_of c.
Proof. unfold tc. intros [= A _]. exact A. Qed.
Lemma sent_steadies cs cs' : sent_blocks cs cs' -> Forall steady cs -> map tc cs' = map tc cs /\ (Forall (fun c => non10 c = true -> rewritten c = false) cs -> map essence (filter non10 cs') = map essence (filter non10 cs)) /\
  (Forall (fun c => rewritten c = false) cs -> map essence cs' = map essence cs).
Proof.
  induction 1 as [|c c' S|c c' d cs cs' S SS IH]; intros F; [auto|..].
  - destruct (sent_steady _ _ _ S (Forall_inv F)) as (T & E). split; [cbn [map]; now rewrite T|]. split; intros R; apply Forall_inv in R; cbn [filter map].
    + unfold non10 in *. rewrite (tc_type _ _ T). destruct (negb _); [|reflexivity]. cbn [map]. now rewrite E by auto.
    + now rewrite E.
  - destruct (sent_steady _ _ _ S (Forall_inv F)) as (T & E). destruct (IH (Forall_inv_tail F)) as (T' & E1 & E2). split; [cbn [map] in *; now rewrite T, T'|]. split; intros R; pose proof (Forall_inv R) as R1; apply Forall_inv_tail in R; cbn beta in R1.
    + specialize (E1 R). remember (d :: cs) as q. cbn [filter]. assert (NT : non10 c' = non10 c) by (unfold non10; now rewrite (tc_type _ _ T)). rewrite NT. destruct (non10 c); [|exact E1]. cbn [map]. now rewrite E1, E by auto.
    + specialize (E2 R). remember (d :: cs) as q. cbn [map]. now rewrite E2, E.
Qed.
Lemma enhanced_tc v w o : map tc (v_blocks w) = map tc (v_blocks v) -> enhanced v o -> enhanced w o.
Proof.
  assert (G : forall t a b, map tc a = map tc b -> Forall (fun x => type_of x <> t) b -> Forall (fun x => type_of x <> t) a).
  { intros t a b E F. rewrite Forall_forall in *. intros x IN. assert (IT : In (tc x) (map tc b)) by (rewrite <- E; now apply in_map). apply in_map_iff in IT. destruct IT as (y & TY & IY). rewrite <- (tc_type _ _ TY). auto. }
  intros E [W|c id node svc a b (l & r & EV & T & F) C A B]; [constructor; exact (G _ _ _ E W)|]. rewrite EV, map_app in E. cbn [map] in E. apply map_eq_app in E. destruct E as (l' & q & EW & EL & EQ). apply map_eq_cons in EQ. destruct EQ as (c' & r' & -> & EC & ER).
  apply (enh_some w c' id node svc a b); [|unfold tc in EC; congruence|exact A|exact B]. exists l', r'. split; [exact EW|]. split; [now rewrite (tc_type _ _ EC)|]. apply Forall_app in F. destruct F as (F1 & F2). apply Forall_app. split; eapply G; eauto.
Qed.

(** ** Handing on *)
Lemma handed last bs v v1 : Forall is_byte bs -> load last false bs = Some (Some v) -> Forall (fun c => one_byte_flags (c_actual c)) (v_blocks v) -> edited v v1 -> primary_fits v1 -> kept (v_blocks v1) <> [] ->
  Forall (cbv_std last (admin_flag (p_flags (v_prim v1)))) (kept (v_blocks v1)) ->
  exists v', sent v1 v' /\ load last false (v_bytes v') = Some (Some v') /\
    forall maxSize mem junk, (0 < maxSize)%nat -> (maxSize + 32 <= length mem)%nat -> (length (v_bytes v') + 32 <= length mem)%nat -> render v1 maxSize mem junk = Some (Some (Rendered v')).
Proof.
  intros Hb LO OB ED PF NE ST. pose proof (C39_edits_keep_views_sendable last bs v v1 Hb LO OB ED) as OK. destruct (C39_render_is_exact v1 OK PF) as (v' & SE & _ & _ & RE). exists v'. split; [exact SE|]. split; [|exact RE]. now apply (sent_load last v1 v').
Qed.
Lemma loaded_facts last bs v : Forall is_byte bs -> load last false bs = Some (Some v) -> Forall (fun c => one_byte_flags (c_actual c)) (v_blocks v) ->
  prim_ok (v_prim v) /\ v_blocks v <> [] /\ v_pdirty v = false /\ Forall (fun c => c_del c = false /\ rewritten c = false /\ block_ok (mkBlock (k_type (c_blk c)) (k_flags (c_blk c)) 0 (k_data (c_blk c)) (Cteb 0 [])) /\ k_len (c_blk c) < W64 /\
    cbv_std last (admin_flag (p_flags (v_prim v))) c) (v_blocks v).
Proof.
  intros Hb LO OB. apply load_exact in LO; [|exact Hb]. destruct LO as (WB & BD). destruct (loaded_ok v bs WB Hb OB) as (OK & PF & K & NE). destruct WB as (pb & cb & _ & WP & _ & PD & WB & _). split; [exact (wire_prim_ok _ _ WP)|]. split; [exact NE|]. split; [exact PD|].
  unfold bundle_data in BD. clear - WB BD OB. induction WB as [c b1 H T|c b1 cs b2 H T HH IH]; (constructor; [|try constructor; apply IH; eapply Forall_inv_tail; eassumption]);
    destruct H as (data & KD & KL & A & D0 & DL & WB); pose proof (Forall_inv OB) as O; cbn beta in O; rewrite A in O; destruct (one_byte_form _ _ _ _ WB O) as (rest & _ & F & _); destruct WB as (f & l & _ & TB & (_ & _ & _ & SF) & (_ & _ & _ & SL));
    (assert (RW : rewritten c = false) by (unfold rewritten; rewrite D0; cbn [orb]; apply N.ltb_ge; lia)); (split; [exact DL|]); (split; [exact RW|]); (split; [|split; [now rewrite KL|unfold cbv_std; rewrite RW; exact (Forall_inv BD)]]);
    (split; [exact TB|]); cbn [k_type k_flags k_len k_data k_content content_ok]; (split; [exact SF|]); (split; [unfold W64; lia|]); (split; [split; [unfold W64; lia|constructor]|discriminate]).
Qed.
Lemma kept_all l : Forall (fun c => c_del c = false) l -> kept l = l.
Proof. induction 1 as [|c l D F IH]; [reflexivity|]. unfold kept in *. cbn [filter]. rewrite D. cbn [negb]. now rewrite IH. Qed.
Lemma handed_blocks last bs v v1 B : Forall is_byte bs -> load last false bs = Some (Some v) -> Forall (fun c => one_byte_flags (c_actual c)) (v_blocks v) -> edited v v1 -> primary_fits v1 ->
  p_flags (v_prim v1) = p_flags (v_prim v) -> kept (v_blocks v1) = B -> B <> [] -> Forall (fun c => steady c /\ cbv_std last (admin_flag (p_flags (v_prim v))) c) B ->
  exists v', deliverable last v1 v' /\ sent_primary v1 v' /\ map tc (v_blocks v') = map tc B /\
    (Forall (fun c => non10 c = true -> rewritten c = false) B -> others v' = map essence (filter non10 B)) /\ (Forall (fun c => rewritten c = false) B -> map essence (v_blocks v') = map essence B).
Proof.
  intros Hb LO OB ED PF FL KB NE FB. destruct (handed last bs v v1 Hb LO OB ED PF) as (v' & SE & LO' & RE); [now rewrite KB|rewrite FL, KB; eapply Forall_impl; [|exact FB]; cbn; tauto|]. exists v'. split; [split; assumption|]. destruct SE as (_ & SP & SB & _). split; [exact SP|]. rewrite KB in SB.
  apply sent_steadies in SB; [|eapply Forall_impl; [|exact FB]; cbn; tauto]. destruct SB as (A & B1 & B2). split; [exact A|]. split; [exact B1|exact B2].
Qed.
Lemma cteb_block_ok b id (e : eid) : block_ok (mkBlock (k_type b) (k_flags b) 0 (k_data b) (Cteb 0 [])) -> k_len b < W64 -> id < W64 -> fst e < W64 -> snd e < W64 ->
  addable (mkBlock (k_type b) (k_flags b) (k_len b) (k_data b) (Cteb id (uri_string (fst e) (snd e)))).
Proof.
  intros (A & B & _) L I E1 E2. destruct (text_ok e E1 E2) as (_ & L45 & TB). split.
  - split; [exact A|]. split; [exact B|]. split; [exact L|]. split; [split; [exact I|exact TB]|discriminate].
  - intros data BD. unfold block_data in BD. cbn [k_content] in BD. inversion BD as [? ? sd S| | | | | | |]; subst. pose proof (shortest_bound _ _ I S). rewrite app_length. unfold W64. lia.
Qed.
Lemma me_parsed (e : eid) : fst e < W64 -> snd e < W64 -> exists a b, uri_string (fst e) (snd e) = ipn_colon ++ a ++ [46] ++ b /\ number_text (fst e) a /\ number_text (snd e) b.
Proof. intros A B. apply parse_form. now apply (C36_roundtrip false). Qed.
Lemma accepted last bs v cfg id v1 : Forall is_byte bs -> load last false bs = Some (Some v) -> Forall (fun c => one_byte_flags (c_actual c)) (v_blocks v) -> cfg_ok cfg -> id < W64 ->
  update cfg true id v = Some v1 -> primary_fits v1 -> exists v', deliverable last v1 v' /\ but_custodian (v_prim v) (v_prim v') /\ p_cust (v_prim v') = f_me cfg /\ others v' = others v /\
    if f_aware cfg then enhanced v' (Some (id, f_me cfg)) else map essence (v_blocks v') = map essence (v_blocks v).
Proof.
  intros Hb LO OB (C1 & C2) LI UP PF. destruct (loaded_facts last bs v Hb LO OB) as (PO & NE & PD & FB). set (p := with_cust (v_prim v) (f_me cfg)). assert (PO1 : prim_ok p).
  { destruct PO as (F & G). split; [|exact G]. repeat (apply Forall_cons_iff in F; destruct F as [? F]). repeat constructor; assumption. }
  assert (ED0 : edited v (modify_primary p v)) by (apply EdPrimary; [constructor|exact PO1]). destruct (me_parsed (f_me cfg) C1 C2) as (ta & tb & TX & NA & NB).
  assert (PR : forall w v', v_prim w = p -> v_pdirty w = true -> sent_primary w v' -> but_custodian (v_prim v) (v_prim v') /\ p_cust (v_prim v') = f_me cfg).
  { intros w v' W1 W2. unfold sent_primary. rewrite W1, W2. intros (S & _). unfold but_custodian. rewrite S. split; reflexivity. }
  assert (KV : kept (v_blocks v) = v_blocks v) by (apply kept_all; eapply Forall_impl; [|exact FB]; cbn; tauto).
  assert (SV : Forall (fun c => steady c /\ cbv_std last (admin_flag (p_flags (v_prim v))) c) (v_blocks v)) by (eapply Forall_impl; [|exact FB]; cbn; unfold steady; intros c; tauto).
  assert (RV : Forall (fun c => rewritten c = false) (v_blocks v)) by (eapply Forall_impl; [|exact FB]; cbn; tauto).
  set (text := uri_string (fst (f_me cfg)) (snd (f_me cfg))) in *. assert (L45 : (length text <= 45)%nat) by (apply (text_ok (f_me cfg) C1 C2)). unfold update in UP. fold p text in UP. destruct (f_aware cfg) eqn:AW.
  - destruct (cteb v) as [x|] eqn:CT; [|discriminate]. apply cteb_enhanced in CT. destruct x as [(id0 & valid)|]; injection UP as UP.
    + destruct CT as (e & EN & _). inversion EN as [|c id1 node svc a b O CO NA' NB']; subst id1 e. destruct O as (l & r & EB & T & FO). set (b1 := mkBlock (k_type (c_blk c)) (k_flags (c_blk c)) (k_len (c_blk c)) (k_data (c_blk c)) (Cteb id text)).
      assert (IC : In c (v_blocks v)) by (rewrite EB; apply in_elt). rewrite Forall_forall in FB. destruct (FB c IC) as (DC & _ & BO & KL & _).
      assert (RU : reuse id text c = modify_block b1 c) by (unfold reuse, modify_block; now rewrite DC).
      assert (MB : map (fun c => if is_cteb c then reuse id text c else c) (v_blocks v) = l ++ modify_block b1 c :: r).
      { assert (SAME : forall q, Forall (fun x => type_of x <> 10) q -> map (fun c => if is_cteb c then reuse id text c else c) q = q).
        { intros q H. induction H as [|x q N H IH]; [reflexivity|]. cbn [map]. rewrite IH. unfold is_cteb, cteb_type. apply N.eqb_neq in N. unfold type_of in N. now rewrite N. }
        apply Forall_app in FO. destruct FO as (F1 & F2). rewrite EB, map_app. cbn [map]. rewrite (SAME l F1), (SAME r F2). unfold is_cteb at 1. unfold cteb_type. unfold type_of in T. rewrite T, N.eqb_refl, RU. reflexivity. }
      unfold on_cteb in UP. cbn [modify_primary v_blocks] in UP. rewrite MB in UP. subst v1.
      assert (AD : addable b1) by (apply cteb_block_ok; assumption).
      rewrite EB in KV, SV, RV. unfold kept in KV. rewrite filter_app in KV. cbn [filter] in KV. rewrite DC in KV. cbn [negb] in KV.
      apply Forall_app in SV. destruct SV as (S1 & S2). apply Forall_app in RV. destruct RV as (R1 & R2).
      assert (KN : kept (l ++ modify_block b1 c :: r) = l ++ modify_block b1 c :: r).
      { apply kept_all. apply Forall_forall. intros x IN. rewrite in_app_iff in IN. cbn [In] in IN. destruct IN as [IN|[<-|IN]]; [apply FB; rewrite EB, in_app_iff; auto|exact DC|apply FB; rewrite EB, in_app_iff; cbn [In]; auto]. }
      destruct (handed_blocks last bs v (with_blocks (modify_primary p v) (l ++ modify_block b1 c :: r)) (l ++ modify_block b1 c :: r) Hb LO OB) as (v' & DE & SP & TC & OT & _).
      * apply (EdBlock v (modify_primary p v) l c r b1 ED0 EB AD).
      * exact PF.
      * reflexivity.
      * exact KN.
      * destruct l; discriminate.
      * apply Forall_app. split; [exact S1|]. constructor; [|exact (Forall_inv_tail S2)]. split; [right; exists id, text; unfold tc, type_of; cbn [modify_block c_blk b1 k_type k_content]; unfold type_of in T; now rewrite T|]. unfold cbv_std, rewritten. cbn [modify_block c_dirty orb c_blk b1 k_content content_std]. exact L45.
      * exists v'. split; [exact DE|]. destruct (PR (with_blocks (modify_primary p v) (l ++ modify_block b1 c :: r)) v' eq_refl eq_refl SP) as (P1 & P2). split; [exact P1|]. split; [exact P2|].
        assert (NT : non10 c = false) by (unfold non10; rewrite T; reflexivity). assert (NT1 : non10 (modify_block b1 c) = false) by exact NT. split.
        { rewrite OT. { unfold others. fold non10. rewrite EB. rewrite !filter_app. cbn [filter]. change (filter (fun c0 => negb (type_of c0 =? 10))) with (filter non10). rewrite NT1. change (negb (type_of c =? 10)) with (non10 c). rewrite NT. reflexivity. }
          apply Forall_app. split; [eapply Forall_impl; [|exact R1]; cbn; auto|]. constructor; [congruence|]. eapply Forall_impl; [|exact (Forall_inv_tail R2)]. cbn. auto. }
        apply (enhanced_tc (with_blocks v (l ++ modify_block b1 c :: r))); [exact TC|]. destruct (f_me cfg) as [mn ms] eqn:ME. cbn [fst snd] in *. apply (enh_some _ (modify_block b1 c) id mn ms ta tb); [|cbn [modify_block c_blk b1 k_content]; now rewrite TX|exact NA|exact NB]. exists l, r. split; [reflexivity|]. split; [exact T|exact FO].
    + subst v1. set (b1 := new_cteb id text). inversion CT as [W|]; subst.
      assert (AD : addable b1) by (apply (cteb_block_ok (mkBlock 10 0 0 None Plain)); try assumption; cbn [k_type k_flags k_len k_data]; [split; [unfold is_byte; cbn; lia|]; split; [unfold W64; cbn; lia|]; split; [unfold W64; cbn; lia|]; split; [split; [unfold W64; lia|constructor]|discriminate]|unfold W64; lia]).
      destruct (handed_blocks last bs v (append_block b1 (modify_primary p v)) (v_blocks v ++ [fresh b1]) Hb LO OB) as (v' & DE & SP & TC & OT & _).
      * now apply EdAppend.
      * exact PF.
      * reflexivity.
      * cbn [append_block with_blocks v_blocks modify_primary]. unfold kept in *. rewrite filter_app, KV. reflexivity.
      * destruct (v_blocks v); discriminate.
      * apply Forall_app. split; [exact SV|]. constructor; [|constructor]. split; [right; exists id, text; reflexivity|]. exact L45.
      * exists v'. split; [exact DE|]. destruct (PR (append_block b1 (modify_primary p v)) v' eq_refl eq_refl SP) as (P1 & P2). split; [exact P1|]. split; [exact P2|]. split.
        { rewrite OT. { rewrite filter_app. cbn [filter]. change (non10 (fresh b1)) with false. now rewrite app_nil_r. }
          apply Forall_app. split; [eapply Forall_impl; [|exact RV]; cbn; auto|]. constructor; [discriminate|constructor]. }
        apply (enhanced_tc (with_blocks v (v_blocks v ++ [fresh b1]))); [exact TC|]. destruct (f_me cfg) as [mn ms] eqn:ME. cbn [fst snd] in *. apply (enh_some _ (fresh b1) id mn ms ta tb); [|cbn [fresh c_blk b1 new_cteb k_content]; now rewrite TX|exact NA|exact NB]. exists (v_blocks v), []. split; [reflexivity|]. split; [reflexivity|]. now rewrite app_nil_r.
  - injection UP as <-. destruct (handed_blocks last bs v (modify_primary p v) (v_blocks v) Hb LO OB ED0 PF eq_refl KV NE SV) as (v' & DE & SP & TC & OT & ES). exists v'. split; [exact DE|]. destruct (PR (modify_primary p v) v' eq_refl eq_refl SP) as (P1 & P2). split; [exact P1|]. split; [exact P2|].
    split; [apply OT; eapply Forall_impl; [|exact RV]; cbn; auto|auto].
Qed.
Lemma refused last bs v cfg id i : Forall is_byte bs -> load last false bs = Some (Some v) -> Forall (fun c => one_byte_flags (c_actual c)) (v_blocks v) -> get_info cfg v = Some i ->
  exists v1 v', update cfg false id v = Some v1 /\ deliverable last v1 v' /\ v_prim v' = v_prim v /\ others v' = others v /\
    ((forall x e, f_aware cfg = true -> enhanced v (Some (x, e)) -> e = p_cust (v_prim v)) -> v_bytes v' = bs) /\
    (f_aware cfg = true -> enhanced v' (if i_valid i then Some (i_id i, p_cust (v_prim v)) else None)).
Proof.
  intros Hb LO OB GI. destruct (loaded_facts last bs v Hb LO OB) as (PO & NE & PD & FB). assert (KV : kept (v_blocks v) = v_blocks v) by (apply kept_all; eapply Forall_impl; [|exact FB]; cbn; tauto).
  assert (SV : Forall (fun c => steady c /\ cbv_std last (admin_flag (p_flags (v_prim v))) c) (v_blocks v)) by (eapply Forall_impl; [|exact FB]; cbn; unfold steady; intros c; tauto).
  assert (RV : Forall (fun c => rewritten c = false) (v_blocks v)) by (eapply Forall_impl; [|exact FB]; cbn; tauto).
  assert (PF : forall B, primary_fits (with_blocks v B)) by (intros B D; cbn [with_blocks v_pdirty] in D; congruence).
  assert (SAME : deliverable last v v /\ v_bytes v = bs).
  { assert (VB : v_bytes v = bs) by (apply load_exact in LO; [|exact Hb]; destruct LO as ((? & ? & _ & _ & _ & _ & _ & VB) & _); exact VB). split; [|exact VB]. split; [rewrite VB; exact LO|]. intros maxSize mem junk M0 M1 L. rewrite VB in L. now apply (C39_load_render_is_identity last bs v maxSize mem junk Hb LO OB M0 M1 L). }
  destruct SAME as (DV & VB). unfold update, get_info in *. destruct (payload_size v) as [n|] eqn:PS; [|discriminate]. destruct (f_aware cfg).
  - destruct (cteb v) as [x|] eqn:CT; [|discriminate]. pose proof (cteb_enhanced _ _ CT) as EN. destruct x as [(id0 & valid)|].
    + destruct EN as (e & EN & VE). destruct valid.
      * injection GI as <-. exists v, v. split; [reflexivity|]. split; [exact DV|]. split; [reflexivity|]. split; [reflexivity|]. split; [intros _; exact VB|]. intros _. cbn [i_valid i_id]. symmetry in VE. apply eid_eqb_eq in VE. subst e. exact EN.
      * injection GI as <-. inversion EN as [|c id1 node svc a b O CO NA' NB']; subst id1 e. destruct O as (l & r & EB & T & FO).
        assert (MB : map (fun c => if is_cteb c then mark_deleted c else c) (v_blocks v) = l ++ mark_deleted c :: r).
        { assert (SM : forall q, Forall (fun x => type_of x <> 10) q -> map (fun c => if is_cteb c then mark_deleted c else c) q = q).
          { intros q H. induction H as [|x q N H IH]; [reflexivity|]. cbn [map]. rewrite IH. unfold is_cteb, cteb_type. apply N.eqb_neq in N. unfold type_of in N. now rewrite N. }
          pose proof (proj1 (Forall_app _ _ _) FO) as (F1 & F2). rewrite EB, map_app. cbn [map]. rewrite (SM l F1), (SM r F2). unfold is_cteb at 1. unfold cteb_type. unfold type_of in T. rewrite T, N.eqb_refl. reflexivity. }
        assert (KN : kept (l ++ mark_deleted c :: r) = l ++ r). { rewrite EB in KV. unfold kept in *. rewrite filter_app in *. cbn [filter mark_deleted c_del negb] in *. rewrite EB in FB. apply Forall_app in FB. destruct FB as (FB1 & FB2). apply Forall_inv_tail in FB2.
          fold (kept l) (kept r). rewrite (kept_all l), (kept_all r); [reflexivity|eapply Forall_impl; [|exact FB2]; cbn; tauto|eapply Forall_impl; [|exact FB1]; cbn; tauto]. }
        destruct (handed_blocks last bs v (with_blocks v (l ++ mark_deleted c :: r)) (l ++ r) Hb LO OB) as (v' & DE & SP & TC & OT & _).
        { apply (EdMark v v l c r); [constructor|exact EB]. }
        { apply PF. }
        { reflexivity. }
        { exact KN. }
        { unfold payload_size in PS. rewrite EB, filter_app in PS. cbn [filter] in PS. unfold type_of in T. rewrite T in PS. change (10 =? 1) with false in PS. cbv iota in PS. rewrite <- filter_app in PS. intros X. rewrite X in PS. discriminate. }
        { rewrite EB in SV. apply Forall_app in SV. destruct SV as (S1 & S2). apply Forall_app. split; [exact S1|exact (Forall_inv_tail S2)]. }
        exists (with_blocks v (l ++ mark_deleted c :: r)), v'. split; [unfold on_cteb; now rewrite MB|]. split; [exact DE|]. split; [unfold sent_primary in SP; cbn [with_blocks v_pdirty v_prim] in SP; rewrite PD in SP; apply SP|]. split; [|split].
        { rewrite OT. { unfold others. fold non10. rewrite EB. rewrite !filter_app. cbn [filter]. change (filter (fun c0 => negb (type_of c0 =? 10))) with (filter non10). change (negb (type_of c =? 10)) with (non10 c). assert (NT : non10 c = false) by (unfold non10; rewrite T; reflexivity). rewrite NT. reflexivity. }
          rewrite EB in RV. apply Forall_app in RV. destruct RV as (R1 & R2). apply Forall_app. split; [eapply Forall_impl; [|exact R1]; cbn; auto|]. eapply Forall_impl; [|exact (Forall_inv_tail R2)]. cbn. auto. }
        { intros H. specialize (H _ _ eq_refl EN). rewrite <- H in VE. rewrite (proj2 (eid_eqb_eq _ _) eq_refl) in VE. discriminate. }
        intros _. cbn [i_valid]. apply (enhanced_tc (with_blocks v (l ++ r))); [exact TC|]. constructor. exact FO.
    + injection GI as <-. exists v, v. split; [reflexivity|]. split; [exact DV|]. split; [reflexivity|]. split; [reflexivity|]. split; [intros _; exact VB|]. intros _. exact EN.
  - exists v, v. split; [reflexivity|]. split; [exact DV|]. split; [reflexivity|]. split; [reflexivity|]. split; [intros _; exact VB|discriminate].
Qed.
