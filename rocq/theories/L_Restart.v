(** What the files of a manager hold, and the manager built from them by a restart. *)
From Coq Require Import NArith ZArith List Bool Lia ZifyBool ZifyN Sorted Permutation.
From Verif Require Import Base M_SegmentAlloc S_SegmentAlloc L_SegmentAlloc M_Storage S_Storage L_Storage M_Restore S_Restore L_Restore.
Import ListNotations.
Open Scope N_scope.

(** ** Segments are handed out from the bottom *)
Definition used (st : storage) (id : N) : Prop := is_segment_free (st_mm st) id = Some false.
Definition in_cat (st : storage) (id : N) : Prop := exists x, In x (st_cat st) /\ In id (e_chain (snd x)).
Definition head_cat (st : storage) (id : N) : Prop := exists x, In x (st_cat st) /\ nth_error (e_chain (snd x)) 0 = Some id.

(** [hw]: the segments that were ever allocated are those below. *)
Record lows (c : scfg) (max : N) (st : storage) (hw : N) : Prop := mkLows {
  l_max : hw <= max;
  l_used : forall id, id < max -> used st id -> id < hw;
  l_low : forall id, id < hw -> (used st id /\ ~ in_cat st id) \/ logical c st id <> None;
  l_log : forall id s, logical c st id = Some s -> id < hw /\
    (h_size (sg_hdr s) = U64MAX \/ head_cat st id \/ (used st id /\ ~ in_cat st id));
  l_size : forall x, In x (st_cat st) -> e_size (snd x) < U64MAX;
  l_wsize : forall w, e_size (ws_entry (st_ws st w)) < U64MAX }.

Lemma used_iff m max A id : refines m max A -> id < max -> (is_segment_free m id = Some false <-> In id A).
Proof.
  intros R Hid. destruct (refines_observes _ _ _ R) as (_ & _ & _ & _ & _ & H). rewrite H. unfold is_free. split.
  - intros Hn. destruct (in_dec N.eq_dec id A) as [|Hni]; [assumption|]. exfalso. apply Hn. now split.
  - intros Hi (_ & Hni). contradiction.
Qed.

Lemma lows_frame c max st st' hw : st_mm st' = st_mm st -> st_cat st' = st_cat st -> st_ws st' = st_ws st ->
  (forall id, logical c st' id = logical c st id) -> lows c max st hw -> lows c max st' hw.
Proof.
  intros E1 E2 E3 E4 [L1 L2 L3 L4 L5 L6]. unfold used, in_cat, head_cat in *. constructor; unfold used, in_cat, head_cat.
  - exact L1.
  - rewrite E1. exact L2.
  - intros id. rewrite E1, E2, E4. apply L3.
  - intros id s. rewrite E1, E2, E4. apply L4.
  - rewrite E2. exact L5.
  - rewrite E3. exact L6.
Qed.

Lemma takes_low max : forall ids A A' hw, takes max A ids A' -> hw <= max -> (forall x, In x A -> x < hw) ->
  exists hw', hw <= hw' /\ hw' <= max /\ (forall x, In x A' -> x < hw') /\ (forall x, hw <= x -> x < hw' -> In x ids).
Proof.
  induction ids as [|id ids IH]; intros A A' hw T Hm HA; inversion T as [|a b d e L T']; subst.
  - exists hw. split; [lia|]. split; [exact Hm|]. split; [exact HA|]. intros. lia.
  - destruct L as ((Hlt & Hni) & Hlow).
    destruct (N.lt_ge_cases id hw) as [Hl|Hg].
    + destruct (IH (id :: A) A' hw T' Hm) as (hw' & H1 & H2 & H3 & H4); [intros x [<-|Hx]; auto|].
      exists hw'. do 3 (split; [assumption|]). intros x Hx1 Hx2. right. now apply H4.
    + assert (id = hw). { assert (id <= hw); [|lia]. apply Hlow. split; [lia|]. intros Hx. apply HA in Hx. lia. } subst id.
      destruct (IH (hw :: A) A' (hw + 1) T') as (hw' & H1 & H2 & H3 & H4); [lia|intros x [<-|Hx]; [lia|apply HA in Hx; lia]|].
      exists hw'. split; [lia|]. split; [exact H2|]. split; [exact H3|]. intros x Hx1 Hx2.
      destruct (N.eq_dec x hw) as [->|]; [now left|]. right. apply H4; lia.
Qed.

Lemma cat_owner c st own cat live x : Forall2 (cat_ok c st own) cat live -> In x cat -> forall id, In id (e_chain (snd x)) -> own id = Some (OC (fst x)).
Proof.
  induction 1 as [|a b cat live Ok F IH]; intros Hx; [destruct Hx|]. destruct Hx as [<-|Hx]; [|now apply IH].
  destruct Ok as (_ & _ & _ & _ & (_ & Ho) & _). exact Ho.
Qed.
Lemma map_fst_eq c st own cat live : Forall2 (cat_ok c st own) cat live -> map fst cat = map fst live.
Proof. induction 1 as [|x y cat live Ok F IH]; [reflexivity|]. cbn [map]. f_equal; [apply Ok|exact IH]. Qed.
Lemma cat_find_unique cu cat e x : NoDup (map fst cat) -> cat_find cu cat = Some e -> In x cat -> fst x = cu -> x = (cu, e).
Proof.
  induction cat as [|[k y] r IH]; cbn [map fst cat_find]; intros Hn Hf Hx Hk; [destruct Hx|]. inversion Hn as [|a b Hni Hn']; subst.
  destruct (N.eqb_spec k (fst x)) as [E|E].
  - injection Hf as ->. destruct Hx as [<-|Hx]; [reflexivity|]. exfalso. apply Hni. rewrite E. now apply in_map.
  - destruct Hx as [<-|Hx]; [now contradiction E|]. now apply IH.
Qed.

Lemma push_low c max sp st A own hw w size psize st' o : cfg_ok c max -> inv c max sp st A own -> lows c max st hw -> size < U64MAX ->
  push c st w size psize = Done st' o -> exists hw', lows c max st' hw'.
Proof.
  intros (Hd & Hp & Hw & Hm) I Lo Hsz E. unfold push in E. cbv zeta in E. unfold alloc_segments in E.
  destruct (alloc_n_refines (sc_idw c) max Hw (N.to_nat (total_segments (sc_per c) size)) A [] A (st_mm st) (takes_nil max A) (i_mm _ _ _ _ _ _ I))
    as [(m & ids & A' & Ea & L & T & R)|(m & Ea & R & L)]; rewrite Ea in E; injection E as <- _.
  - destruct Lo as [L1 L2 L3 L4 L5 L6]. pose proof (i_mm _ _ _ _ _ _ I) as R0.
    destruct (takes_low max ids A A' hw T L1) as (hw' & H1 & H2 & H3 & H4).
    { intros x Hx. apply L2; [eapply inv_lt; eauto|]. apply (used_iff _ _ _ _ R0); [eapply inv_lt; eauto|exact Hx]. }
    pose proof (takes_spec _ _ _ _ T) as EA. pose proof (takes_In _ _ _ _ T) as TI.
    exists hw'. constructor; unfold used, in_cat, head_cat in *; cbn [st_mm st_cat st_ws].
    + exact H2.
    + intros id Hid Hu. apply H3. now apply (used_iff _ _ _ _ R).
    + assert (Hup : forall id, id < max -> is_segment_free (st_mm st) id = Some false -> is_segment_free m id = Some false).
      { intros id Hid Hu. apply (used_iff _ _ _ _ R); [exact Hid|]. rewrite EA. apply in_or_app. right. now apply (used_iff _ _ _ _ R0). }
      intros id Hid. destruct (N.lt_ge_cases id hw) as [Hl|Hg].
      * destruct (L3 id Hl) as [(U1 & U2)|U]; [left|right]; [split; [apply Hup; [lia|exact U1]|exact U2]|exact U].
      * left. assert (Hin : In id ids) by now apply H4. split.
        -- apply (used_iff _ _ _ _ R); [lia|]. rewrite EA. apply in_or_app. left. now apply -> in_rev.
        -- intros (x & X1 & X2). destruct (TI id Hin) as (_ & Hni). apply Hni. eapply i_own; [exact I|].
           eapply cat_owner; [apply (i_cat _ _ _ _ _ _ I)|exact X1|exact X2].
    + intros id s Hs. change (logical c st id = Some s) in Hs. destruct (L4 id s Hs) as (U1 & U2). split; [lia|].
      destruct U2 as [U2|[U2|(U2 & U3)]]; [now left|right; now left|]. right. right. split; [|exact U3].
      apply (used_iff _ _ _ _ R); [lia|]. rewrite EA. apply in_or_app. right. apply (used_iff _ _ _ _ R0); [lia|exact U2].
    + exact L5.
    + intros w'. unfold upd. destruct (w' =? w); [exact Hsz|apply L6].
  - exists hw. destruct Lo as [L1 L2 L3 L4 L5 L6]. pose proof (i_mm _ _ _ _ _ _ I) as R0.
    assert (Hsame : forall id, id < max -> (is_segment_free m id = Some false <-> is_segment_free (st_mm st) id = Some false)).
    { intros id Hid. rewrite (used_iff _ _ _ _ R Hid), (used_iff _ _ _ _ R0 Hid). reflexivity. }
    constructor; unfold used, in_cat, head_cat in *; cbn [st_mm st_cat st_ws].
    + exact L1.
    + intros id Hid Hu. apply L2; [exact Hid|]. now apply Hsame.
    + intros id Hid. destruct (L3 id Hid) as [(U1 & U2)|U]; [left|right]; [split; [apply Hsame; [lia|exact U1]|exact U2]|exact U].
    + intros id s Hs. change (logical c st id = Some s) in Hs. destruct (L4 id s Hs) as (U1 & U2). split; [exact U1|].
      destruct U2 as [U2|[U2|(U2 & U3)]]; [now left|right; now left|]. right. right. split; [|exact U3]. apply Hsame; [lia|exact U2].
    + exact L5.
    + intros w'. unfold upd. destruct (w' =? w); [exact Hsz|apply L6].
Qed.

Lemma push_segment_low c max sp st A own hw w custody buf stale acc st' o : cfg_ok c max -> inv c max sp st A own -> lows c max st hw ->
  legal (sc_per c) sp (EvPushSeg w custody buf stale acc) -> push_segment c st w custody buf stale acc = Done st' o ->
  exists hw', lows c max st' hw'.
Proof.
  intros C I Lo Leg E. pose proof (push_segment_ok c max sp st A own w custody buf stale acc C I Leg) as Sok. rewrite E in Sok.
  destruct Sok as (_ & A' & own' & I'). exists hw. pose proof C as (Hd & Hp & Hw & Hm).
  unfold push_segment in E. cbv zeta in E. fold (len (e_chain (ws_entry (st_ws st w)))) in E.
  destruct (len (e_chain (ws_entry (st_ws st w))) <=? ws_next (st_ws st w)) eqn:El; [now injection E as <- _|].
  pose proof (i_w _ _ _ _ _ _ I w) as Iw. destruct (sp_w sp w) as [wp|] eqn:Ew; [|lia].
  destruct Iw as (W1 & W2 & W3 & W4 & W5 & W6 & W7).
  set (e := ws_entry (st_ws st w)) in *. destruct (nth_error (e_chain e) _) as [id|] eqn:Eid; [|discriminate].
  destruct (queue_full st (id mod sc_disks c)); [discriminate|]. destruct (_ <? _); [discriminate|]. injection E as <- _.
  set (s := mkSeg _ _) in *. set (st' := mkSt _ _ _ _ _ _) in *.
  assert (LG : forall x, logical c st' x = if x =? id then Some s else logical c st x).
  { intros x. rewrite <- (logical_write c st id s x Hd). apply logical_ext; reflexivity. }
  assert (Hidin : In id (e_chain e)) by (eapply nth_error_In; eauto).
  assert (Hused : used st id).
  { apply (used_iff _ _ _ _ (i_mm _ _ _ _ _ _ I)); [eapply inv_lt; [exact I|]|]; eapply i_own; try exact I; now apply W3. }
  assert (Hidhw : id < hw).
  { eapply l_used; [exact Lo| |exact Hused]. eapply inv_lt; [exact I|]; eapply i_own; try exact I; now apply W3. }
  assert (Hnc : ~ in_cat st id).
  { intros (x & X1 & X2). pose proof (cat_owner _ _ _ _ _ _ (i_cat _ _ _ _ _ _ I) X1 id X2). apply W3 in Hidin. congruence. }
  destruct Lo as [L1 L2 L3 L4 L5 L6].
  assert (Hws : forall w', e_size (ws_entry (st_ws st' w')) < U64MAX).
  { intros w'. subst st'. cbn [st_ws enqueue]. unfold upd. destruct (w' =? w); [cbn [ws_entry]; apply (L6 w)|apply L6]. }
  destruct ((inc32 (ws_next (st_ws st w)) =? len (e_chain e)) && acc) eqn:Efin.
  - assert (Ecat : st_cat st' = (custody, e) :: st_cat st) by reflexivity.
    pose proof (i_cat _ _ _ _ _ _ I') as F. rewrite Ecat in F. inversion F as [|a b cc dd Ok F2 E1 E2]; subst a cc.
    destruct Ok as (_ & _ & _ & _ & _ & Sto). cbn [fst snd] in Sto.
    assert (Hin : forall x, In x (e_chain e) -> exists s', logical c st' x = Some s' /\ (h_size (sg_hdr s') = U64MAX \/ head_cat st' x)).
    { intros x Hx. apply In_nth_error in Hx. destruct Hx as (i & Hi). pose proof (nth_error_some_lt _ _ _ Hi) as Hlt.
      destruct (Sto (N.of_nat i) x) as (s' & S1 & S2 & _); [unfold len; lia|now rewrite Nat2N.id|]. exists s'. split; [exact S1|].
      destruct i as [|i].
      - right. exists (custody, e). rewrite Ecat. split; [now left|exact Hi].
      - left. rewrite S2. replace (N.of_nat (S i) =? 0) with false by lia. reflexivity. }
    constructor.
    + exact L1.
    + exact L2.
    + intros x Hx. destruct (in_dec N.eq_dec x (e_chain e)) as [Hi|Hi].
      { right. destruct (Hin x Hi) as (s' & -> & _). discriminate. }
      destruct (L3 x Hx) as [(U1 & U2)|U].
      * left. split; [exact U1|]. intros (y & Y1 & Y2). rewrite Ecat in Y1. destruct Y1 as [<-|Y1]; [contradiction|]. apply U2. exists y. auto.
      * right. rewrite LG. destruct (x =? id); [discriminate|exact U].
    + intros x s' Hs'. assert (Hxhw : x < hw).
      { rewrite LG in Hs'. destruct (N.eqb_spec x id) as [->|]; [exact Hidhw|]. now apply L4 in Hs'. }
      split; [exact Hxhw|]. destruct (in_dec N.eq_dec x (e_chain e)) as [Hi|Hi].
      { destruct (Hin x Hi) as (s2 & S1 & S2). rewrite Hs' in S1. injection S1 as <-. destruct S2; auto. }
      rewrite LG in Hs'. destruct (N.eqb_spec x id) as [->|]; [contradiction|]. destruct (L4 x s' Hs') as (_ & [U|[(y & Y1 & Y2)|(U1 & U2)]]).
      * now left.
      * right. left. exists y. rewrite Ecat. split; [now right|exact Y2].
      * right. right. split; [exact U1|]. intros (y & Y1 & Y2). rewrite Ecat in Y1. destruct Y1 as [<-|Y1]; [contradiction|]. apply U2. exists y. auto.
    + intros x Hx. rewrite Ecat in Hx. destruct Hx as [<-|Hx]; [apply (L6 w)|now apply L5].
    + exact Hws.
  - assert (Ecat : st_cat st' = st_cat st) by reflexivity.
    constructor; unfold in_cat, head_cat; rewrite ?Ecat; try assumption.
    + intros x Hx. rewrite LG. destruct (x =? id); [right; discriminate|]. destruct (L3 x Hx); auto.
    + intros x s'. rewrite LG. destruct (N.eqb_spec x id) as [->|]; [|apply L4]. intros _. split; [exact Hidhw|]. right. right. split; assumption.
Qed.

Lemma remove_low c max sp st A own hw cu stale st' o : cfg_ok c max -> inv c max sp st A own -> lows c max st hw ->
  remove_bundle c st cu stale = Done st' o -> exists hw', lows c max st' hw'.
Proof.
  intros C I Lo E. pose proof C as (Hd & Hp & Hw & Hm). exists hw. unfold remove_bundle in E.
  pose proof (find_pair c st own cu _ _ (i_cat _ _ _ _ _ _ I)) as FP.
  destruct (cat_find cu (st_cat st)) as [e|] eqn:Ec; [|now injection E as <- _].
  destruct (sp_find cu (sp_live sp)) as [data|] eqn:Es; [|contradiction]. destruct FP as (Ok & Hcin & _).
  pose proof Ok as (_ & K2 & K3 & K4 & K5 & K6). cbn [fst snd] in K2, K3, K4, K5, K6.
  destruct (e_chain e) as [|id rest] eqn:Ech; [discriminate|]. rewrite <- Ech in K4, K5, K6, E. cbv zeta in E.
  destruct (queue_full st (id mod sc_disks c)); [discriminate|]. cbn [enqueue st_mm] in E.
  destruct (free_list_refines max (e_chain e) (st_mm st) A (i_mm _ _ _ _ _ _ I)) as (m & Em & R). rewrite Em in E. injection E as <- _.
  pose proof (i_mm _ _ _ _ _ _ I) as R0.
  destruct (frees_sub (e_chain e) A (ref_nodup _ _ _ R0) (proj1 K5)) as (F1 & F2 & F3 & F4).
  { intros x Hx. eapply i_own; [exact I|]. now apply K5. }
  set (A' := fst (frees A (e_chain e))) in *. set (st' := mkSt _ _ _ _ _ _).
  assert (LG : forall x, logical c st' x = if x =? id then Some (erased stale) else logical c st x).
  { intros x. rewrite <- (logical_write c st id (erased stale) x Hd). apply logical_ext; reflexivity. }
  assert (Ecat : st_cat st' = cat_remove cu (st_cat st)) by reflexivity.
  assert (Hnd : NoDup (map fst (st_cat st))) by (erewrite map_fst_eq by apply (i_cat _ _ _ _ _ _ I); apply (i_nodup _ _ _ _ _ _ I)).
  assert (Hu : forall x, x < max -> (used st' x <-> used st x /\ ~ In x (e_chain e))).
  { intros x Hx. unfold used. subst st'. cbn [st_mm]. rewrite (used_iff _ _ _ _ R Hx), (used_iff _ _ _ _ R0 Hx). apply F3. }
  assert (Hsub : forall x, In x (st_cat st') -> In x (st_cat st)) by (intros x; rewrite Ecat; unfold cat_remove; intros Hx; now apply filter_In in Hx).
  assert (Hrest : forall x, In x (st_cat st) -> x = (cu, e) \/ In x (st_cat st')).
  { intros x Hx. destruct (N.eq_dec (fst x) cu) as [Ex|Ex]; [left; eapply cat_find_unique; eauto|]. right. rewrite Ecat. unfold cat_remove.
    apply filter_In. split; [exact Hx|]. now replace (fst x =? cu) with false by lia. }
  assert (Hidin : In id (e_chain e)) by (rewrite Ech; now left).
  destruct Lo as [L1 L2 L3 L4 L5 L6].
  assert (Hidhw : id < hw).
  { destruct (K6 0 id) as (s & S1 & _); [rewrite Ech; unfold len; cbn [length]; lia|rewrite Ech; reflexivity|]. now apply L4 in S1. }
  assert (Hkeep : forall x, x < max -> used st x /\ ~ in_cat st x -> used st' x /\ ~ in_cat st' x).
  { intros x Hx (U1 & U2). split.
    - apply Hu; [exact Hx|]. split; [exact U1|]. intros Hi. apply U2. exists (cu, e). auto.
    - intros (y & Y1 & Y2). apply U2. exists y. auto. }
  constructor.
  - exact L1.
  - intros x Hx Hx2. apply L2; [exact Hx|]. now apply Hu in Hx2.
  - intros x Hx. destruct (L3 x Hx) as [U|U]; [left; apply Hkeep; [lia|exact U]|right]. rewrite LG. destruct (x =? id); [discriminate|exact U].
  - intros x s. rewrite LG. destruct (N.eqb_spec x id) as [->|Hne].
    + intros [= <-]. split; [exact Hidhw|]. now left.
    + intros Hs. destruct (L4 x s Hs) as (U0 & [U|[(y & Y1 & Y2)|U]]); (split; [exact U0|]).
      * now left.
      * destruct (Hrest y Y1) as [->|Hy]; [|right; left; exists y; auto]. exfalso. cbn [snd] in Y2. rewrite Ech in Y2. injection Y2 as <-. now apply Hne.
      * right. right. apply Hkeep; [lia|exact U].
  - intros x Hx. apply L5. now apply Hsub.
  - exact L6.
Qed.

Lemma disk_logical c st d st' o : disk_step c st d = Done st' o -> forall x, logical c st' x = logical c st x.
Proof.
  unfold disk_step. destruct (st_queue st d) as [|[id s|id r k] q] eqn:Eq; [discriminate| |];
    destruct (id =? seg_last c); try discriminate; intros [= <- _] x; unfold logical; cbv zeta; cbn [st_queue st_file];
    destruct (N.eq_dec (x mod sc_disks c) d) as [Ex|Ex]; try (now rewrite !upd_other).
  - rewrite Ex, !upd_same, Eq. cbn [after]. unfold upd. rewrite (N.eqb_sym (x / sc_disks c)). reflexivity.
  - rewrite Ex, !upd_same, Eq. reflexivity.
Qed.

Lemma step_low c max sp st A own hw e st' o : cfg_ok c max -> inv c max sp st A own -> lows c max st hw ->
  legal (sc_per c) sp e -> step c st e = Done st' o -> exists hw', lows c max st' hw'.
Proof.
  intros C I Lo L E. destruct e; cbn [step] in E.
  - eapply push_low; eauto.
  - eapply push_segment_low; eauto.
  - exists hw. unfold open_read in E. destruct (cat_find custody (st_cat st)); injection E as <- _; [|exact Lo]. eapply lows_frame; [| | | |exact Lo]; reflexivity.
  - exists hw. unfold fetch in E. destruct (rs_entry _); [|discriminate]. destruct (want_fetch _ _); [|discriminate]. destruct (nth_error _ _); [|discriminate].
    cbv zeta in E. destruct (queue_full _ _); [discriminate|]. injection E as <- _. eapply lows_frame; [| | | |exact Lo]; try reflexivity.
    intros id. rewrite <- (logical_read c st (n mod sc_disks c) n r (rs_wi (st_rs st r)) id). apply logical_ext; reflexivity.
  - exists hw. unfold take in E. destruct (rs_entry _); [|discriminate]. destruct (want_fetch _ _); [discriminate|]. destruct (negb _); [discriminate|].
    cbv zeta in E. destruct (_ <? _); [discriminate|]. injection E as <- _. eapply lows_frame; [| | | |exact Lo]; reflexivity.
  - eapply remove_low; eauto.
  - exists hw. pose proof (disk_logical c st d st' o E) as LG. unfold disk_step in E. destruct (st_queue st d) as [|[id s|id r k] q]; [discriminate| |];
    destruct (id =? seg_last c); try discriminate; injection E as <- _; (eapply lows_frame; [| | | |exact Lo]; [reflexivity|reflexivity|reflexivity|exact LG]).
Qed.
Lemma lows_init c max junk : max <= MAXSEGMENTS -> lows c max (st_init max junk) 0.
Proof.
  intros Hm. constructor; cbn.
  - lia.
  - intros id Hid Hu. unfold used in Hu. cbn in Hu. apply (used_iff _ max [] id (refines_init max Hm) Hid) in Hu. destruct Hu.
  - intros. lia.
  - intros id s. unfold logical. cbn. discriminate.
  - intros x [].
  - reflexivity.
Qed.

(** ** The image of a quiet store *)
Fixpoint insert_found (f : found) (l : list found) : list found :=
  match l with [] => [f] | g :: r => if head f <? head g then f :: l else g :: insert_found f r end.
Lemma insert_perm f l : Permutation (insert_found f l) (f :: l).
Proof.
  induction l as [|g r IH]; cbn [insert_found]; [reflexivity|]. destruct (head f <? head g); [reflexivity|].
  rewrite IH. apply perm_swap.
Qed.
Lemma insert_sorted f l : StronglySorted (fun a b => head a < head b) l -> (forall g, In g l -> head g <> head f) ->
  StronglySorted (fun a b => head a < head b) (insert_found f l).
Proof.
  induction l as [|g r IH]; intros S N1; cbn [insert_found]; [repeat constructor|]. inversion S as [|a b S1 F1]; subst.
  destruct (N.ltb_spec (head f) (head g)) as [Hl|Hg].
  - constructor; [exact S|]. constructor; [exact Hl|]. rewrite Forall_forall in *. intros x Hx. apply F1 in Hx. lia.
  - constructor; [apply IH; [exact S1|intros x Hx; apply N1; now right]|].
    apply Forall_forall. intros x Hx. apply (Permutation_in _ (insert_perm f r)) in Hx. destruct Hx as [<-|Hx].
    + assert (head g <> head f) by (apply N1; now left). lia.
    + rewrite Forall_forall in F1. now apply F1.
Qed.
Lemma sort_exists l : NoDup (map head l) -> exists l', Permutation l' l /\ StronglySorted (fun a b => head a < head b) l'.
Proof.
  induction l as [|f l IH]; cbn [map]; intros H; [exists []; split; [reflexivity|constructor]|]. inversion H as [|a b Hni Hn]; subst.
  destruct (IH Hn) as (l' & P & S). exists (insert_found f l'). split.
  - rewrite insert_perm. now constructor.
  - apply insert_sorted; [exact S|]. intros g Hg E. apply Hni. rewrite <- E. apply in_map. eapply Permutation_in; eauto.
Qed.

(** Pairing the catalog with the specification's list. *)
Definition founds (uuid : list N -> option N) (cat : list (N * entry)) (live : list (N * list N)) : list found :=
  map (fun p => mkFound (fst (fst p)) (uuid (snd (snd p))) (snd (fst p))) (combine cat live).
Lemma founds_cat uuid c st own cat live : Forall2 (cat_ok c st own) cat live ->
  map (fun f => (fd_custody f, fd_entry f)) (founds uuid cat live) = cat.
Proof. unfold founds. induction 1 as [|[k e] y cat live Ok F IH]; cbn [combine map]; [reflexivity|]. f_equal. exact IH. Qed.
Lemma founds_in uuid c st own cat live f : Forall2 (cat_ok c st own) cat live -> In f (founds uuid cat live) ->
  exists data, In (fd_custody f, fd_entry f) cat /\ In (fd_custody f, data) live /\ fd_uuid f = uuid data /\ cat_ok c st own (fd_custody f, fd_entry f) (fd_custody f, data).
Proof.
  unfold founds. induction 1 as [|[k e] [k' d] cat live Ok F IH]; cbn [combine map]; [intros []|]. intros [<-|Hf].
  - cbn [fst snd fd_custody fd_entry fd_uuid]. pose proof Ok as (Ek & _). cbn [fst] in Ek. subst k'.
    exists d. split; [now left|]. split; [now left|]. split; [reflexivity|exact Ok].
  - destruct (IH Hf) as (data & H1 & H2 & H3 & H4). exists data. split; [now right|]. split; [now right|]. auto.
Qed.

Lemma chains_owner own : forall l, NoDup (map fd_custody l) ->
  (forall f, In f l -> chain_ok own (OC (fd_custody f)) (e_chain (fd_entry f))) -> NoDup (chains l).
Proof.
  unfold chains. induction l as [|f l IH]; cbn [map concat]; intros Hn Ho; [constructor|]. inversion Hn as [|a b Hni Hn']; subst.
  assert (H1 : NoDup (concat (map (fun f => e_chain (fd_entry f)) l))) by (apply IH; [exact Hn'|intros g Hg; apply Ho; now right]).
  destruct (Ho f (or_introl eq_refl)) as (N1 & N2).
  assert (Hd : forall x, In x (e_chain (fd_entry f)) -> ~ In x (concat (map (fun f => e_chain (fd_entry f)) l))).
  { intros x Hx Hx2. apply in_concat in Hx2. destruct Hx2 as (ch & C1 & C2). apply in_map_iff in C1. destruct C1 as (g & <- & Hg).
    destruct (Ho g (or_intror Hg)) as (_ & G2). apply N2 in Hx. apply G2 in C2. rewrite Hx in C2. injection C2 as C2. apply Hni. rewrite C2. now apply in_map. }
  clear - N1 H1 Hd. induction (e_chain (fd_entry f)) as [|x r IHr]; [exact H1|]. cbn [app]. inversion N1; subst. constructor.
  - intros Hx. apply in_app_or in Hx. destruct Hx as [Hx|Hx]; [contradiction|]. apply (Hd x); [now left|exact Hx].
  - apply IHr; [assumption|]. intros y Hy. apply Hd. now right.
Qed.
Lemma nodup_map_in {T} (h : T -> N) l : (forall a b, In a l -> In b l -> h a = h b -> a = b) -> NoDup l -> NoDup (map h l).
Proof.
  induction l as [|x l IH]; intros H Hn; cbn [map]; [constructor|]. inversion Hn; subst. constructor.
  - intros Hx. apply in_map_iff in Hx. destruct Hx as (y & E & Hy). apply H2. rewrite (H x y); [exact Hy|now left|now right|now symmetry].
  - apply IH; [|assumption]. intros a b Ha Hb. apply H; now right.
Qed.
Lemma chains_perm l l' : Permutation l l' -> Permutation (chains l) (chains l').
Proof. intros P. unfold chains. induction P; cbn [map concat]; [reflexivity|now apply Permutation_app_head| |etransitivity; eauto].
  rewrite !app_assoc. apply Permutation_app_tail. apply Permutation_app_comm. Qed.

Lemma quiet_logical c st id : (forall d, st_queue st d = []) -> logical c st id = st_file st (id mod sc_disks c) (id / sc_disks c).
Proof. intros H. unfold logical. cbv zeta. now rewrite H. Qed.
Lemma read_present c st im id s : 0 < sc_disks c -> image_of c (st_file st) im ->
  st_file st (id mod sc_disks c) (id / sc_disks c) = Some s -> read_block c im id = Some s.
Proof.
  intros Hd Im H. destruct (Im (id mod sc_disks c)) as (I1 & I2 & _); [apply N.mod_lt; lia|]. unfold read_block. cbv zeta.
  replace (id / sc_disks c <? im_size im (id mod sc_disks c)) with true.
  - f_equal. now apply I2.
  - symmetry. apply N.ltb_lt. apply I1. exists (id / sc_disks c). split; [lia|congruence].
Qed.

Definition covered (sp : spec) (per : N) : Prop := sp_used sp = sum (map (fun x => segs_needed per (len (snd x))) (sp_live sp)).
Lemma sum_chains c st own cat live : Forall2 (cat_ok c st own) cat live ->
  sum (map (fun x => segs_needed (sc_per c) (len (snd x))) live) = len (concat (map (fun x => e_chain (snd x)) cat)).
Proof.
  induction 1 as [|x y cat live Ok F IH]; [reflexivity|]. cbn [map concat]. unfold sum in *. cbn [fold_right]. rewrite IH.
  destruct Ok as (_ & _ & _ & <- & _). unfold len. rewrite app_length. lia.
Qed.

Lemma quiet_holds c max parse uuid sp st A own hw im : cfg_ok c max -> inv c max sp st A own -> lows c max st hw ->
  quiet (sc_per c) sp st -> parses (sc_per c) parse uuid (sp_live sp) -> image_of c (st_file st) im ->
  (forall id, In id A -> in_cat st id) /\
  (forall id, id < hw -> read_block c im id <> None) /\
  (hw < max -> exists L, Permutation L (founds uuid (st_cat st) (sp_live sp)) /\ holds c max parse im L hw).
Proof.
  intros C I Lo (Hq & Hcov) (Pa1 & Pa2) Im. pose proof C as (Hd & Hp & Hw & Hm). pose proof (i_mm _ _ _ _ _ _ I) as R.
  pose proof (i_cat _ _ _ _ _ _ I) as F.
  set (L0 := founds uuid (st_cat st) (sp_live sp)).
  assert (Hn0 : NoDup (map fd_custody L0)).
  { replace (map fd_custody L0) with (map fst (map (fun f => (fd_custody f, fd_entry f)) L0)) by (rewrite map_map; reflexivity).
    unfold L0. rewrite (founds_cat uuid c st own _ _ F). rewrite (map_fst_eq _ _ _ _ _ F). apply (i_nodup _ _ _ _ _ _ I). }
  assert (Ho0 : forall f, In f L0 -> chain_ok own (OC (fd_custody f)) (e_chain (fd_entry f))).
  { intros f Hf. destruct (founds_in uuid c st own _ _ f F Hf) as (data & _ & _ & _ & Ok). apply Ok. }
  assert (Ec0 : chains L0 = concat (map (fun x => e_chain (snd x)) (st_cat st))).
  { unfold chains. f_equal. pose proof (founds_cat uuid c st own _ _ F) as E. fold L0 in E. rewrite <- E at 1. rewrite map_map. reflexivity. }
  assert (Hcat : forall id, In id (chains L0) <-> in_cat st id).
  { intros id. rewrite Ec0. unfold in_cat. rewrite in_concat. split.
    - intros (ch & C1 & C2). apply in_map_iff in C1. destruct C1 as (x & <- & Hx). eauto.
    - intros (x & X1 & X2). exists (e_chain (snd x)). split; [apply in_map_iff; eauto|exact X2]. }
  assert (Hnd0 : NoDup (chains L0)) by (eapply chains_owner; eauto).
  assert (HA : forall id, In id A -> in_cat st id).
  { intros id Hid. apply Hcat. revert id Hid. apply NoDup_length_incl; [exact Hnd0| |].
    - pose proof (i_used _ _ _ _ _ _ I) as Hu. rewrite Hcov, (sum_chains _ _ _ _ _ F), <- Ec0 in Hu. unfold len in Hu. lia.
    - intros id Hid. apply In_chains in Hid. destruct Hid as (f & F1 & F2). eapply i_own; [exact I|]. now apply (Ho0 f F1). }
  split; [exact HA|]. pose proof Lo as [L1 L2 L3 L4 L5 L6].
  assert (Hlow : forall id, id < hw -> exists s, logical c st id = Some s /\ read_block c im id = Some s).
  { intros id Hid. destruct (L3 id Hid) as [(U1 & U2)|U].
    - exfalso. apply U2. apply HA. apply (used_iff _ _ _ _ R); [lia|exact U1].
    - destruct (logical c st id) as [s|] eqn:E; [|congruence]. exists s. split; [reflexivity|].
      rewrite quiet_logical in E by exact Hq. now apply (read_present c st). }
  split; [intros id Hid; destruct (Hlow id Hid) as (s & _ & ->); discriminate|]. intros Hhw.
  assert (Bon : forall f, In f L0 -> bundle_on c parse im f).
  { intros f Hf. destruct (founds_in uuid c st own _ _ f F Hf) as (data & D1 & D2 & D3 & Ok).
    destruct Ok as (_ & K2 & K3 & K4 & K5 & K6). cbn [fst snd] in K2, K3, K4, K5, K6.
    destruct (segs_bounds (sc_per c) (len data) Hp K3) as (_ & _ & Hpos).
    unfold bundle_on. cbv zeta. split; [intros E; rewrite E in K4; change (len (@nil N)) with 0 in K4; lia|].
    split; [apply K5|]. split; [rewrite K2; exact K4|]. split; [apply L5 in D1; cbn [snd] in D1; lia|].
    intros i id Hi. pose proof (nth_error_some_lt _ _ _ Hi) as Hlt.
    destruct (K6 (N.of_nat i) id) as (s & S1 & S2 & S3 & S4 & S5 & tail & S6); [unfold len; lia|now rewrite Nat2N.id|].
    exists s. rewrite quiet_logical in S1 by exact Hq. split; [now apply (read_present c st)|]. split; [exact S3|]. split.
    - intros ->. cbn in S2, S4. split; [exact S2|]. split; [exact S4|]. rewrite S6, D3. change (N.of_nat 0) with 0. apply (Pa1 _ _ _ D2).
    - rewrite S5. destruct (N.eqb_spec (N.of_nat i + 1) (len (e_chain (fd_entry f)))) as [E|E].
      + rewrite nth_overflow; [reflexivity|unfold len in E; lia].
      + replace (N.to_nat (N.of_nat i + 1)) with (S i) by lia. apply nth_indep. unfold len in E. lia. }
  destruct (sort_exists L0) as (L & P & S).
  { apply nodup_map_in.
    - intros f g Hf Hg E. pose proof (head_in _ _ _ _ (Bon f Hf)) as H1. pose proof (head_in _ _ _ _ (Bon g Hg)) as H2. rewrite <- E in H2.
      apply (Ho0 f Hf) in H1. apply (Ho0 g Hg) in H2. rewrite H1 in H2. injection H2 as H2.
      clear - Hn0 Hf Hg H2. induction L0 as [|a l IH]; [destruct Hf|]. cbn [map] in Hn0. inversion Hn0; subst.
      destruct Hf as [->|Hf], Hg as [->|Hg]; auto.
      + exfalso. apply H1. rewrite H2. now apply in_map.
      + exfalso. apply H1. rewrite <- H2. now apply in_map.
    - eapply NoDup_map_inv. exact Hn0. }
  exists L. split; [exact P|]. assert (Hin : forall f, In f L <-> In f L0) by (intros f; split; apply Permutation_in; [exact P|now apply Permutation_sym]).
  assert (PC : Permutation (chains L) (chains L0)) by now apply chains_perm.
  assert (Hlt : forall id, In id (chains L0) -> id < hw).
  { intros id Hid. apply In_chains in Hid. destruct Hid as (f & F1 & F2). pose proof (Ho0 f F1) as (_ & Ho). apply Ho in F2.
    assert (HinA : In id A) by (eapply i_own; eauto). apply L2; [eapply inv_lt; eauto|]. apply (used_iff _ _ _ _ R); [eapply inv_lt; eauto|exact HinA]. }
  constructor.
  - apply Forall_forall. intros f Hf. apply Bon. now apply Hin.
  - intros id Hid. apply (Permutation_in _ PC) in Hid. apply Hlt in Hid. lia.
  - eapply Permutation_NoDup; [apply Permutation_sym; exact PC|exact Hnd0].
  - exact S.
  - intros f Hf. apply Hin in Hf. apply Hlt. apply In_chains. exists f. split; [exact Hf|]. eapply head_in. now apply Bon.
  - split; [exact Hhw|]. split.
    + intros Hid. apply (Permutation_in _ PC) in Hid. apply Hlt in Hid. lia.
    + unfold read_block. cbv zeta. destruct (Im (hw mod sc_disks c)) as (I1 & _); [apply N.mod_lt; lia|].
      destruct (N.ltb_spec (hw / sc_disks c) (im_size im (hw mod sc_disks c))) as [Hl|]; [|reflexivity]. exfalso.
      apply I1 in Hl. destruct Hl as (off' & O1 & O2).
      assert (E1 : (off' * sc_disks c + hw mod sc_disks c) mod sc_disks c = hw mod sc_disks c).
      { rewrite N.add_comm, N.mod_add by lia. apply N.mod_mod. lia. }
      assert (E2 : (off' * sc_disks c + hw mod sc_disks c) / sc_disks c = off').
      { rewrite N.add_comm, N.div_add by lia. rewrite N.div_small; [lia|]. apply N.mod_lt. lia. }
      destruct (st_file st (hw mod sc_disks c) off') as [s|] eqn:Ef; [|congruence].
      destruct (L4 (off' * sc_disks c + hw mod sc_disks c) s) as (Hc & _).
      { rewrite quiet_logical by exact Hq. now rewrite E1, E2. }
      pose proof (N.div_mod hw (sc_disks c) ltac:(lia)). nia.
  - intros id Hid. right. destruct (Hlow id Hid) as (s & S1 & S2). exists s. split; [exact S2|].
    destruct (L4 id s S1) as (_ & [U|[(x & X1 & X2)|(U1 & U2)]]); [now left| |].
    + right. assert (Hx : In x (map (fun f => (fd_custody f, fd_entry f)) L0)) by (unfold L0; rewrite (founds_cat uuid c st own _ _ F); exact X1).
      apply in_map_iff in Hx. destruct Hx as (f & <- & Hf). exists f. split; [now apply Hin|]. cbn [snd] in X2. unfold head. now apply nth_error_nth with (d := 0) in X2.
    + exfalso. apply U2. apply HA. apply (used_iff _ _ _ _ R); [lia|exact U1].
Qed.

(** ** More rounds do not change the result *)
Lemma restore_more c parse im : forall fuel k r r' n, restore_loop c parse im fuel k r = RDone r' -> restore_loop c parse im (fuel + n) k r = RDone r'.
Proof.
  induction fuel as [|fuel IH]; intros k r r' n; cbn [restore_loop Nat.add]; [discriminate|].
  destruct (is_segment_free (r_mm r) k) as [[]|]; auto. destruct (read_block c im k); auto. destruct (_ =? U64MAX); auto.
  destruct (parse _); auto. destruct (walk _ _ _ _ _ _ _); auto.
Qed.

(** ** The catalog after the restart *)
Lemma catalogued_rev l : NoDup (map fd_custody l) ->
  (forall f g, In f l -> In g l -> fd_custody f <> fd_custody g -> uuid_clash (fd_uuid f) (fd_uuid g) = false) -> catalogued l = rev l.
Proof.
  intros Hn Hu. unfold catalogued.
  assert (G : forall b a, a ++ b = l -> fold_left (fun acc f => if existsb (fun g => (fd_custody g =? fd_custody f) || uuid_clash (fd_uuid g) (fd_uuid f)) acc
    then acc else f :: acc) b (rev a) = rev l).
  { induction b as [|f b IH]; intros a E; cbn [fold_left]; [rewrite app_nil_r in E; now subst|].
    replace (existsb _ (rev a)) with false.
    - rewrite <- (IH (a ++ [f])); [now rewrite rev_app_distr|]. now rewrite <- app_assoc.
    - symmetry. apply not_true_is_false. intros Hex. apply existsb_exists in Hex. destruct Hex as (g & G1 & G2). apply in_rev in G1.
      assert (Hne : fd_custody g <> fd_custody f).
      { intros Eq. rewrite <- E, map_app in Hn. cbn [map] in Hn. apply (nodup_disj _ _ (fd_custody g) Hn); [now apply in_map|rewrite Eq; now left]. }
      rewrite (Hu g f) in G2; [|rewrite <- E; apply in_or_app; now left|rewrite <- E; apply in_or_app; right; now left|exact Hne].
      rewrite orb_false_r in G2. lia. }
  exact (G l [] eq_refl).
Qed.

Lemma Forall2_pairs c st own cat live : Forall2 (cat_ok c st own) cat live -> NoDup (map fst live) ->
  forall x y, In x cat -> In y live -> fst x = fst y -> cat_ok c st own x y.
Proof.
  induction 1 as [|a b cat live Ok F IH]; intros Hn x y Hx Hy E; [destruct Hx|]. cbn [map] in Hn. inversion Hn as [|u v Hni Hn']; subst.
  pose proof Ok as (Eab & _). destruct Hx as [->|Hx], Hy as [->|Hy].
  - exact Ok.
  - exfalso. apply Hni. rewrite <- Eab, E. now apply in_map.
  - exfalso. apply Hni. rewrite <- E. rewrite <- (map_fst_eq _ _ _ _ _ F). now apply in_map.
  - now apply IH.
Qed.
Lemma Forall2_keys {P : N * entry -> N * list N -> Prop} : forall l1 l2, map fst l1 = map fst l2 ->
  (forall x y, In x l1 -> In y l2 -> fst x = fst y -> P x y) -> Forall2 P l1 l2.
Proof.
  induction l1 as [|x l1 IH]; intros [|y l2] E H; cbn [map] in E; try discriminate; constructor.
  - injection E as E _. apply H; [now left|now left|exact E].
  - injection E as _ E. apply IH; [exact E|]. intros a b Ha Hb. apply H; now right.
Qed.

Lemma restart_state c max parse uuid sp st A own hw im fuel r : cfg_ok c max -> inv c max sp st A own -> lows c max st hw ->
  quiet (sc_per c) sp st -> parses (sc_per c) parse uuid (sp_live sp) -> image_of c (st_file st) im -> restore c max parse im fuel = RDone r ->
  hw < max /\ Permutation (r_found r) (founds uuid (st_cat st) (sp_live sp)) /\ catalogued (r_found r) = rev (r_found r) /\
  holds c max parse im (r_found r) hw /\ refines (r_mm r) max A /\ counts r.
Proof.
  intros C I Lo Q Pa Im E. pose proof C as (Hd & Hp & Hw & Hm). pose proof (i_mm _ _ _ _ _ _ I) as R. pose proof (i_cat _ _ _ _ _ _ I) as F.
  destruct (quiet_holds c max parse uuid sp st A own hw im C I Lo Q Pa Im) as (HA & Hpre & Hh).
  assert (Hhw : hw < max).
  { destruct (N.eq_dec hw max) as [->|]; [|pose proof (l_max _ _ _ _ Lo); lia]. exfalso. unfold restore in E.
    refine (never_done c parse im max Hm fuel 0 (r_init max) [] (refines_init max Hm) _ r E). intros id Hid. right. now apply Hpre. }
  split; [exact Hhw|]. destruct (Hh Hhw) as (L & P & Ho).
  destruct (restore_holds c max parse im L hw C Ho (N.to_nat hw) 0 [] L (r_init max)) as (r' & H1 & H2 & H3 & H4).
  { f_equal. lia. }
  { lia. }
  { reflexivity. }
  { intros f []. }
  { intros. lia. }
  { reflexivity. }
  { apply refines_init. exact Hm. }
  { repeat split. }
  assert (r' = r).
  { specialize (H1 (fuel + S (N.to_nat hw))%nat ltac:(lia)). unfold restore in E. rewrite (restore_more _ _ _ _ _ _ _ _ E) in H1. now injection H1 as <-. }
  subst r'. rewrite H2. split; [exact P|]. split; [|split; [exact Ho|split; [|exact H4]]].
  - apply catalogued_rev.
    + eapply Permutation_NoDup; [apply Permutation_map, Permutation_sym; exact P|].
      replace (map fd_custody (founds uuid (st_cat st) (sp_live sp))) with (map fst (map (fun f => (fd_custody f, fd_entry f)) (founds uuid (st_cat st) (sp_live sp)))) by (rewrite map_map; reflexivity).
      rewrite (founds_cat uuid c st own _ _ F), (map_fst_eq _ _ _ _ _ F). apply (i_nodup _ _ _ _ _ _ I).
    + intros f g Hf Hg Hne. apply (Permutation_in _ P) in Hf, Hg.
      destruct (founds_in uuid c st own _ _ f F Hf) as (d1 & _ & D2 & D3 & _). destruct (founds_in uuid c st own _ _ g F Hg) as (d2 & _ & D2' & D3' & _).
      rewrite D3, D3'. now apply (proj2 Pa _ _ _ _ D2 D2').
  - eapply refines_perm; [exact H3|]. apply NoDup_Permutation; [apply (ho_disjoint _ _ _ _ _ _ Ho)|apply (ref_nodup _ _ _ R)|].
    intros id. assert (PC : Permutation (chains L) (chains (founds uuid (st_cat st) (sp_live sp)))) by now apply chains_perm.
    assert (Hcat : In id (chains (founds uuid (st_cat st) (sp_live sp))) <-> in_cat st id).
    { rewrite In_chains. unfold in_cat. pose proof (founds_cat uuid c st own _ _ F) as Ef. split.
      - intros (f & F1 & F2). exists (fd_custody f, fd_entry f). split; [rewrite <- Ef; apply in_map_iff; eauto|exact F2].
      - intros (x & X1 & X2). rewrite <- Ef in X1. apply in_map_iff in X1. destruct X1 as (f & <- & Hf). eauto. }
    split; intros Hid.
    + apply (Permutation_in _ PC) in Hid. apply Hcat in Hid. destruct Hid as (x & X1 & X2). eapply i_own; [exact I|]. eapply cat_owner; eauto.
    + apply (Permutation_in _ (Permutation_sym PC)). apply Hcat. now apply HA.
Qed.

Lemma restart_inv c max parse uuid sp st A own hw im fuel r junk live' : cfg_ok c max -> inv c max sp st A own -> lows c max st hw ->
  quiet (sc_per c) sp st -> parses (sc_per c) parse uuid (sp_live sp) -> image_of c (st_file st) im -> restore c max parse im fuel = RDone r ->
  Permutation live' (sp_live sp) -> map fst live' = map fst (st_cat (restarted (st_file st) r junk)) ->
  inv c max (mkSp (sp_used sp) live' (fun _ => None) (fun _ => RIdle)) (restarted (st_file st) r junk) A own /\
  lows c max (restarted (st_file st) r junk) hw.
Proof.
  intros C I Lo Q Pa Im E Pl Em. destruct (restart_state _ _ _ _ _ _ _ _ _ _ _ _ C I Lo Q Pa Im E) as (Hhw & P & Ecat & Ho & R & _).
  pose proof (i_cat _ _ _ _ _ _ I) as F. destruct Q as (Hq & Hcov).
  assert (Hst : forall x, In x (st_cat (restarted (st_file st) r junk)) <-> In x (st_cat st)).
  { intros x. cbn [restarted st_cat]. rewrite Ecat, map_rev, <- in_rev. rewrite <- (founds_cat uuid c st own _ _ F).
    split; apply Permutation_in; [|apply Permutation_sym]; now apply Permutation_map. }
  assert (LG : forall id, logical c (restarted (st_file st) r junk) id = logical c st id).
  { intros id. rewrite (quiet_logical c st id Hq), quiet_logical; reflexivity. }
  split.
  - apply mkInv.
    + exact R.
    + apply (i_used _ _ _ _ _ _ I).
    + intros d op [].
    + apply (i_own _ _ _ _ _ _ I).
    + cbn [sp_live]. apply Forall2_keys; [symmetry; exact Em|]. intros x y Hx Hy Exy.
      eapply cat_ok_frame; [|apply (Forall2_pairs c st own _ _ F (i_nodup _ _ _ _ _ _ I) x y); [now apply Hst|eapply Permutation_in; eauto|exact Exy]].
      intros id Hid. split; [reflexivity|apply LG].
    + cbn [sp_live]. eapply Permutation_NoDup; [apply Permutation_map, Permutation_sym; exact Pl|apply (i_nodup _ _ _ _ _ _ I)].
    + intros w. cbn [sp_w restarted st_ws ws_entry ws_next e_chain]. unfold len. cbn [length]. lia.
    + intros k s d. reflexivity.
  - destruct Lo as [L1 L2 L3 L4 L5 L6]. pose proof (i_mm _ _ _ _ _ _ I) as R0.
    assert (Hu : forall id, id < max -> (used (restarted (st_file st) r junk) id <-> used st id)).
    { intros id Hid. unfold used. cbn [restarted st_mm]. rewrite (used_iff _ _ _ _ R Hid), (used_iff _ _ _ _ R0 Hid). reflexivity. }
    assert (Hc : forall id, in_cat (restarted (st_file st) r junk) id <-> in_cat st id).
    { intros id. unfold in_cat. split; intros (x & X1 & X2); exists x; (split; [now apply Hst|exact X2]). }
    constructor.
    + exact L1.
    + intros id Hid Hx. apply L2; [exact Hid|]. now apply Hu.
    + intros id Hid. rewrite LG, Hc. destruct (L3 id Hid) as [(U1 & U2)|U]; [left|now right]. split; [apply Hu; [lia|exact U1]|exact U2].
    + intros id s. rewrite LG. intros Hs. destruct (L4 id s Hs) as (U0 & U). split; [exact U0|].
      destruct U as [U|[(x & X1 & X2)|(U1 & U2)]]; [now left|right; left; exists x; split; [now apply Hst|exact X2]|].
      right. right. split; [apply Hu; [lia|exact U1]|]. now rewrite Hc.
    + intros x Hx. apply L5. now apply Hst.
    + intros w. reflexivity.
Qed.

Lemma reachr_inv c max parse sp st : cfg_ok c max -> reachr c max parse sp st ->
  exists A own hw, inv c max sp st A own /\ lows c max st hw.
Proof.
  intros C. induction 1 as [junk|sp st e st' o R IH L E|sp st uuid im fuel r junk live' R IH Q Pa Im E Pl Em].
  - exists [], (fun _ => None), 0. split; [apply inv_start; apply C|apply lows_init; apply C].
  - destruct IH as (A & own & hw & I & Lo). pose proof (step_inv c max sp st A own e C I L) as S. rewrite E in S. destruct S as (_ & A' & own' & I').
    destruct (step_low c max sp st A own hw e st' o C I Lo L E) as (hw' & Lo'). eauto.
  - destruct IH as (A & own & hw & I & Lo). exists A, own, hw. eapply restart_inv; eauto.
Qed.

(** ** Images exist *)
Lemma size_upto_spec f : forall n off, (forall o, N.of_nat n <= o -> f o = None) ->
  (off < size_upto n f <-> exists off', off <= off' /\ f off' <> None).
Proof.
  induction n as [|n IH]; intros off Hb; cbn [size_upto].
  - split; [lia|]. intros (o & _ & Ho). exfalso. apply Ho. apply Hb. lia.
  - destruct (f (N.of_nat n)) as [s|] eqn:E.
    + split.
      * intros H. exists (N.of_nat n). split; [lia|congruence].
      * intros (o & H1 & H2). destruct (N.lt_ge_cases o (N.of_nat (S n))) as [|Hg]; [lia|]. exfalso. apply H2. apply Hb. exact Hg.
    + apply IH. intros o Ho. destruct (N.eq_dec o (N.of_nat n)) as [->|]; [exact E|]. apply Hb. lia.
Qed.
Lemma image_at_ok c bound file : (forall d off, bound <= off -> file d off = None) -> image_of c file (image_at c bound file).
Proof.
  intros Hb d Hd. cbn [image_at im_size im_seg]. split; [|split].
  - intros off. apply size_upto_spec. intros o Ho. apply Hb. lia.
  - intros off s ->. reflexivity.
  - intros off _ ->. reflexivity.
Qed.
Lemma step_bounded c max sp st A own e st' o : cfg_ok c max -> inv c max sp st A own -> step c st e = Done st' o ->
  (forall d off, max <= off -> st_file st d off = None) -> forall d off, max <= off -> st_file st' d off = None.
Proof.
  intros C I E B. destruct e; cbn [step] in E.
  - unfold push in E. cbv zeta in E. destruct (alloc_segments _ _ _) as [[m [ids|]]|]; try discriminate; injection E as <- _; exact B.
  - unfold push_segment in E. cbv zeta in E. destruct (_ <=? _); [injection E as <- _; exact B|]. destruct (nth_error _ _); [|discriminate].
    destruct (queue_full _ _); [discriminate|]. destruct (_ <? _); [discriminate|]. injection E as <- _. exact B.
  - unfold open_read in E. destruct (cat_find custody (st_cat st)); injection E as <- _; exact B.
  - unfold fetch in E. destruct (rs_entry _); [|discriminate]. destruct (want_fetch _ _); [|discriminate]. destruct (nth_error _ _); [|discriminate].
    cbv zeta in E. destruct (queue_full _ _); [discriminate|]. injection E as <- _. exact B.
  - unfold take in E. destruct (rs_entry _); [|discriminate]. destruct (want_fetch _ _); [discriminate|]. destruct (negb _); [discriminate|].
    cbv zeta in E. destruct (_ <? _); [discriminate|]. injection E as <- _. exact B.
  - unfold remove_bundle in E. destruct (cat_find custody (st_cat st)); [|injection E as <- _; exact B]. destruct (e_chain e); [discriminate|].
    cbv zeta in E. destruct (queue_full _ _); [discriminate|]. destruct (free_list _ _) as [[]|]; [|discriminate]. injection E as <- _. exact B.
  - unfold disk_step in E. destruct (st_queue st d) as [|[id s|id r k] q] eqn:Eq; [discriminate| |]; destruct (id =? seg_last c); try discriminate; injection E as <- _; [|exact B].
    intros d' off Hoff. cbn [st_file]. unfold upd. destruct (N.eqb_spec d' d) as [->|]; [|now apply B].
    destruct (N.eqb_spec off (id / sc_disks c)) as [->|]; [|now apply B]. exfalso.
    assert (H : id < max) by (eapply (i_q _ _ _ _ _ _ I d (DWrite id s)); rewrite Eq; now left).
    destruct C as (Hd & _). pose proof (N.div_le_upper_bound id (sc_disks c) id ltac:(lia)) as Hle. nia.
Qed.
Lemma reachr_bounded c max parse sp st : cfg_ok c max -> reachr c max parse sp st -> forall d off, max <= off -> st_file st d off = None.
Proof.
  intros C R. induction R as [junk|sp st e st' o R IH L E|sp st uuid im fuel r junk live' R IH Q Pa Im E Pl Em].
  - reflexivity.
  - destruct (reachr_inv _ _ _ _ _ C R) as (A & own & hw & I & _). eapply step_bounded; eauto.
  - exact IH.
Qed.
Lemma reach_reachr c max parse sp st : reach c max sp st -> reachr c max parse sp st.
Proof. induction 1; [apply reachr_init|eapply reachr_step; eauto]. Qed.

Lemma run_reach c max : forall es sp st st' os, reach c max sp st -> legal_run (sc_per c) max sp es ->
  run c st es = Some (st', os) -> reach c max (spec_run (sc_per c) max sp es) st'.
Proof.
  induction es as [|e r IH]; intros sp st st' os R L E; cbn [run] in E.
  - injection E as <- <-. exact R.
  - destruct L as (L1 & L2). destruct (step c st e) as [| |st1 o] eqn:Es; try discriminate.
    destruct (run c st1 r) as [[st2 os2]|] eqn:Er; [|discriminate]. injection E as <- <-.
    unfold spec_run. cbn [fold_left]. eapply IH; eauto. econstructor; eauto.
Qed.

