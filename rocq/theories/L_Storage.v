(** Lemmas for C20: the disk queues, pending reads, and the invariant of the storage manager. *)
From Coq Require Import NArith ZArith List Bool Lia ZifyBool ZifyN ZifyNat.
From Verif Require Import Base M_SegmentAlloc S_SegmentAlloc L_SegmentAlloc M_Storage S_Storage.
Import ListNotations.
Open Scope N_scope.

Lemma upd_same {A} (f : N -> A) k v : upd f k v k = v.
Proof. unfold upd. now rewrite N.eqb_refl. Qed.
Lemma upd_other {A} (f : N -> A) k v x : x <> k -> upd f k v x = f x.
Proof. unfold upd. intros H. destruct (N.eqb_spec x k); [contradiction|reflexivity]. Qed.

Lemma Forall2_impl {A B} (P Q : A -> B -> Prop) l1 l2 :
  (forall x y, P x y -> Q x y) -> Forall2 P l1 l2 -> Forall2 Q l1 l2.
Proof. intros H. induction 1; constructor; auto. Qed.

(** ** Arithmetic of pieces *)
Lemma segs_total per size : 0 < per -> total_segments per size = segs_needed per size.
Proof.
  intros Hp. unfold total_segments, segs_needed.
  pose proof (N.div_mod size per ltac:(lia)) as E. pose proof (N.mod_lt size per ltac:(lia)) as L.
  set (q := size / per) in *. set (r := size mod per) in *.
  destruct (N.eqb_spec r 0) as [Hr|Hr].
  - assert (H : (size + per - 1) / per = q); [|lia].
    symmetry. apply N.div_unique with (r := per - 1); nia.
  - apply N.div_unique with (r := r - 1); nia.
Qed.

(** ceil: (n-1)*per < size <= n*per. *)
Lemma segs_bounds per size : 0 < per -> 0 < size ->
  (segs_needed per size - 1) * per < size /\ size <= segs_needed per size * per /\ 0 < segs_needed per size.
Proof.
  intros Hp Hs. unfold segs_needed. pose proof (N.div_mod (size + per - 1) per ltac:(lia)) as E.
  pose proof (N.mod_lt (size + per - 1) per ltac:(lia)) as L.
  set (q := (size + per - 1) / per) in *. set (r := (size + per - 1) mod per) in *.
  assert (0 < q) by nia. split; [nia|]. split; [nia|lia].
Qed.
Lemma segs_unique per size n : 0 < per -> 0 < n -> (n - 1) * per < size -> size <= n * per -> segs_needed per size = n.
Proof.
  intros Hp Hn H1 H2. unfold segs_needed. symmetry. apply N.div_unique with (r := size + per - 1 - per * n); nia.
Qed.
Lemma segs_zero per : 0 < per -> segs_needed per 0 = 0.
Proof. intros. unfold segs_needed. apply N.div_small. lia. Qed.

Lemma piece_len per data i : 0 < per -> len (piece per data i) = N.min per (len data - i * per).
Proof. intros. unfold piece, len. rewrite firstn_length, skipn_length. lia. Qed.
Lemma piece_app per data buf i : len data = i * per -> len buf <= per -> piece per (data ++ buf) i = buf.
Proof.
  unfold len. intros H1 H2. unfold piece. rewrite skipn_app, skipn_all2 by lia.
  replace (N.to_nat (i * per) - length data)%nat with 0%nat by lia. cbn [skipn app].
  apply firstn_all2. lia.
Qed.
Lemma piece_app_old per data buf i j : len data = i * per -> j < i -> piece per (data ++ buf) j = piece per data j.
Proof.
  unfold len. intros H1 H2. unfold piece. rewrite skipn_app.
  replace (N.to_nat (j * per) - length data)%nat with 0%nat by nia. cbn [skipn].
  rewrite firstn_app, skipn_length.
  replace (N.to_nat per - (length data - N.to_nat (j * per)))%nat with 0%nat by nia.
  cbn [firstn]. apply app_nil_r.
Qed.

(** ** The disk queues *)
Definition op_id (o : dop) : N := match o with DWrite id _ => id | DRead id _ _ => id end.
(** Contents of block [off] once the queue has been executed. *)
Fixpoint after (nd : N) (q : list dop) (v : option seg) (off : N) : option seg :=
  match q with
  | [] => v
  | DWrite j s :: r => after nd r (if j / nd =? off then Some s else v) off
  | DRead _ _ _ :: r => after nd r v off
  end.
(** What the reads queued for slot [k] of session [r] will deliver. *)
Fixpoint pend (nd : N) (f : N -> option seg) (q : list dop) (r k : N) : list (option seg) :=
  match q with
  | [] => []
  | DWrite j s :: t => pend nd (upd f (j / nd) (Some s)) t r k
  | DRead id r' k' :: t => (if (r' =? r) && (k' =? k) then [f (id / nd)] else []) ++ pend nd f t r k
  end.
Definition logical (c : scfg) (st : storage) (id : N) : option seg :=
  let d := id mod sc_disks c in
  after (sc_disks c) (st_queue st d) (st_file st d (id / sc_disks c)) (id / sc_disks c).
Definition pending (c : scfg) (st : storage) (r k d : N) : list (option seg) :=
  pend (sc_disks c) (st_file st d) (st_queue st d) r k.

Lemma after_app nd q1 : forall q2 v off, after nd (q1 ++ q2) v off = after nd q2 (after nd q1 v off) off.
Proof. induction q1 as [|[j s|j r k] t IH]; intros; cbn [app after]; auto. Qed.
Lemma pend_write nd q : forall f j s r k, pend nd f (q ++ [DWrite j s]) r k = pend nd f q r k.
Proof.
  induction q as [|[j' s'|j' r' k'] t IH]; intros; cbn [app pend]; auto. now rewrite IH.
Qed.
Lemma pend_read nd q : forall f id r k r' k',
  pend nd f (q ++ [DRead id r k]) r' k' =
  pend nd f q r' k' ++ (if (r =? r') && (k =? k') then [after nd q (f (id / nd)) (id / nd)] else []).
Proof.
  induction q as [|[j' s'|j' r2 k2] t IH]; intros; cbn [app pend after].
  - now rewrite app_nil_r.
  - rewrite IH. unfold upd. rewrite (N.eqb_sym (id / nd) (j' / nd)). reflexivity.
  - rewrite IH, app_assoc. reflexivity.
Qed.

Lemma same_block nd a b : 0 < nd -> a mod nd = b mod nd -> a / nd = b / nd -> a = b.
Proof. intros H H1 H2. rewrite (N.div_mod a nd), (N.div_mod b nd) by lia. congruence. Qed.

Lemma queue_enqueue st d op d' : st_queue (enqueue st d op) d' = if d' =? d then st_queue st d ++ [op] else st_queue st d'.
Proof. unfold enqueue, upd. cbn [st_queue]. now destruct (N.eqb_spec d' d). Qed.

Lemma logical_write c st id s id' : 0 < sc_disks c ->
  logical c (enqueue st (id mod sc_disks c) (DWrite id s)) id' = if id' =? id then Some s else logical c st id'.
Proof.
  intros Hd. unfold logical. cbv zeta. rewrite queue_enqueue. cbn [enqueue st_file].
  destruct (N.eqb_spec (id' mod sc_disks c) (id mod sc_disks c)) as [E|E].
  - rewrite after_app. cbn [after]. rewrite <- E.
    destruct (N.eqb_spec id' id) as [->|Hne]; [now rewrite N.eqb_refl|].
    destruct (N.eqb_spec (id / sc_disks c) (id' / sc_disks c)) as [E2|E2]; [|reflexivity].
    exfalso. apply Hne. now apply (same_block (sc_disks c)).
  - destruct (N.eqb_spec id' id) as [->|Hne]; [contradiction|reflexivity].
Qed.
Lemma logical_read c st d id r k id' : logical c (enqueue st d (DRead id r k)) id' = logical c st id'.
Proof.
  unfold logical. cbv zeta. rewrite queue_enqueue. cbn [enqueue st_file].
  destruct (N.eqb_spec (id' mod sc_disks c) d) as [->|]; [|reflexivity]. now rewrite after_app.
Qed.
Lemma pending_write c st d id s r k d' : pending c (enqueue st d (DWrite id s)) r k d' = pending c st r k d'.
Proof.
  unfold pending. rewrite queue_enqueue. cbn [enqueue st_file].
  destruct (N.eqb_spec d' d) as [->|]; [apply pend_write|reflexivity].
Qed.
Lemma pending_read c st id r k r' k' d' :
  pending c (enqueue st (id mod sc_disks c) (DRead id r k)) r' k' d' =
  pending c st r' k' d' ++
  (if (d' =? id mod sc_disks c) && ((r =? r') && (k =? k')) then [logical c st id] else []).
Proof.
  unfold pending, logical. rewrite queue_enqueue. cbn [enqueue st_file].
  destruct (N.eqb_spec d' (id mod sc_disks c)) as [->|]; cbn [andb]; [apply pend_read|now rewrite app_nil_r].
Qed.

(** Fields not touched. *)
Lemma logical_ext c st st' id : st_queue st' = st_queue st -> st_file st' = st_file st -> logical c st' id = logical c st id.
Proof. intros E1 E2. unfold logical. now rewrite E1, E2. Qed.
Lemma pending_ext c st st' r k d : st_queue st' = st_queue st -> st_file st' = st_file st -> pending c st' r k d = pending c st r k d.
Proof. intros E1 E2. unfold pending. now rewrite E1, E2. Qed.

(** ** The invariant *)
Inductive owner := OC (custody : N) | OW (w : N).

Definition seg_ok (c : scfg) (cu : N) (e : entry) (data : list N) (i : N) (s : seg) : Prop :=
  h_size (sg_hdr s) = (if i =? 0 then e_size e else U64MAX) /\
  h_custody (sg_hdr s) = cu /\
  h_psize (sg_hdr s) = (if i =? 0 then e_psize e else U64MAX) /\
  h_next (sg_hdr s) = (if i + 1 =? len (e_chain e) then seg_last c else nth (N.to_nat (i + 1)) (e_chain e) 0) /\
  exists tail, sg_data s = piece (sc_per c) data i ++ tail.

Definition stored (c : scfg) (st : storage) (cu : N) (e : entry) (data : list N) (n : N) : Prop :=
  forall i id, i < n -> nth_error (e_chain e) (N.to_nat i) = Some id ->
  exists s, logical c st id = Some s /\ seg_ok c cu e data i s.

Definition chain_ok (own : N -> option owner) (o : owner) (chain : list N) : Prop :=
  NoDup chain /\ forall id, In id chain -> own id = Some o.

Definition cat_ok (c : scfg) (st : storage) (own : N -> option owner) (x : N * entry) (y : N * list N) : Prop :=
  fst x = fst y /\ e_size (snd x) = len (snd y) /\ 0 < len (snd y) /\
  len (e_chain (snd x)) = segs_needed (sc_per c) (len (snd y)) /\
  chain_ok own (OC (fst x)) (e_chain (snd x)) /\
  stored c st (fst x) (snd x) (snd y) (len (e_chain (snd x))).

Definition write_ok (c : scfg) (st : storage) (own : N -> option owner) (w : N) (wp : wspec) : Prop :=
  let ws := st_ws st w in
  let e := ws_entry ws in
  e_size e = wp_size wp /\ len (e_chain e) = segs_needed (sc_per c) (wp_size wp) /\
  chain_ok own (OW w) (e_chain e) /\
  len (wp_data wp) < wp_size wp /\ len (wp_data wp) = ws_next ws * sc_per c /\
  (wp_custody wp = None -> ws_next ws = 0) /\
  (forall cu, wp_custody wp = Some cu -> stored c st cu e (wp_data wp) (ws_next ws)).

Definition slot_idle (c : scfg) (st : storage) (r k : N) : Prop := forall d, pending c st r k d = [].
Definition slot_ok (c : scfg) (st : storage) (r k : N) (P : seg -> Prop) : Prop :=
  (rs_ready (st_rs st r) k = true /\ P (rs_cache (st_rs st r) k) /\ slot_idle c st r k) \/
  (rs_ready (st_rs st r) k = false /\
   exists d s, pending c st r k d = [Some s] /\ P s /\ forall d', d' <> d -> pending c st r k d' = []).

Definition read_ok (c : scfg) (st : storage) (sp : spec) (r cu : N) (data : list N) (pos : N) (started : bool) : Prop :=
  let rs := st_rs st r in
  exists e, cat_find cu (st_cat st) = Some e /\ sp_find cu (sp_live sp) = Some data /\
    rs_entry rs = Some e /\ rs_next rs = pos /\ pos <= rs_tocache rs /\ rs_tocache rs <= len (e_chain e) /\
    rs_tocache rs <= pos + READ_CACHE /\ rs_ri rs = pos mod READ_CACHE /\ rs_wi rs = rs_tocache rs mod READ_CACHE /\
    (started = false -> rs_tocache rs = 0) /\
    (forall j, pos <= j -> j < rs_tocache rs -> slot_ok c st r (j mod READ_CACHE) (seg_ok c cu e data j)) /\
    (forall k, (forall j, pos <= j -> j < rs_tocache rs -> j mod READ_CACHE <> k) -> slot_idle c st r k).

Record inv (c : scfg) (max : N) (sp : spec) (st : storage) (A : list N) (own : N -> option owner) : Prop := mkInv {
  i_mm : refines (st_mm st) max A;
  i_used : len A = sp_used sp;
  i_q : forall d op, In op (st_queue st d) -> op_id op < max;
  i_own : forall id o, own id = Some o -> In id A;
  i_cat : Forall2 (cat_ok c st own) (st_cat st) (sp_live sp);
  i_nodup : NoDup (map fst (sp_live sp));
  i_w : forall w, match sp_w sp w with
                  | None => len (e_chain (ws_entry (st_ws st w))) <= ws_next (st_ws st w)
                  | Some wp => write_ok c st own w wp
                  end;
  i_r : forall r, match sp_r sp r with
                  | RIdle => forall k, slot_idle c st r k
                  | ROpen cu data pos started => read_ok c st sp r cu data pos started
                  | RDead => True
                  end }.

Lemma stored_frame c st st' cu e data n :
  (forall id, In id (e_chain e) -> logical c st' id = logical c st id) -> stored c st cu e data n -> stored c st' cu e data n.
Proof.
  intros H S i id Hi Hn. destruct (S i id Hi Hn) as (s & L & Ok). exists s. split; [|exact Ok].
  rewrite H; [exact L|]. eapply nth_error_In; eauto.
Qed.
Lemma cat_ok_frame c st st' own own' x y :
  (forall id, In id (e_chain (snd x)) -> own' id = own id /\ logical c st' id = logical c st id) ->
  cat_ok c st own x y -> cat_ok c st' own' x y.
Proof.
  intros H (H1 & H2 & H3 & H4 & (H5 & H6) & H7). do 4 (split; [assumption|]). split.
  - split; [exact H5|]. intros id Hid. destruct (H id Hid) as (-> & _). now apply H6.
  - eapply stored_frame; [|exact H7]. intros id Hid. now apply H.
Qed.
Lemma write_ok_frame c st st' own own' w wp : st_ws st' w = st_ws st w ->
  (forall id, In id (e_chain (ws_entry (st_ws st w))) -> own' id = own id /\ logical c st' id = logical c st id) ->
  write_ok c st own w wp -> write_ok c st' own' w wp.
Proof.
  intros E H (H1 & H2 & (H3 & H3') & H4 & H5 & H6 & H7). unfold write_ok. rewrite E. cbv zeta.
  do 2 (split; [assumption|]). split; [split; [exact H3|intros id Hid; destruct (H id Hid) as (-> & _); now apply H3']|].
  do 3 (split; [assumption|]). intros cu Hcu. eapply stored_frame; [|now apply H7]. intros id Hid. now apply H.
Qed.
Lemma read_ok_frame c st st' sp sp' r cu data pos started :
  st_rs st' r = st_rs st r -> (forall k d, pending c st' r k d = pending c st r k d) ->
  cat_find cu (st_cat st') = cat_find cu (st_cat st) -> sp_find cu (sp_live sp') = sp_find cu (sp_live sp) ->
  read_ok c st sp r cu data pos started -> read_ok c st' sp' r cu data pos started.
Proof.
  intros E1 E2 E3 E4 (e & H1 & H2 & H3 & H4 & H5 & H6 & H7 & H8 & H9 & H10 & H11 & H12).
  exists e. rewrite E1, E3, E4. do 10 (split; [assumption|]). split.
  - intros j Hj1 Hj2. destruct (H11 j Hj1 Hj2) as [(S1 & S2 & S3)|(S1 & d & s & S2 & S3 & S4)].
    + left. rewrite E1. do 2 (split; [assumption|]). intros d. rewrite E2. apply S3.
    + right. rewrite E1. split; [assumption|]. exists d, s. rewrite E2. do 2 (split; [assumption|]).
      intros d' Hd'. rewrite E2. now apply S4.
  - intros k Hk d. rewrite E2. now apply H12.
Qed.
Lemma idle_frame c st st' r : (forall k d, pending c st' r k d = pending c st r k d) ->
  (forall k, slot_idle c st r k) -> forall k, slot_idle c st' r k.
Proof. intros E H k d. rewrite E. apply H. Qed.

(** Reading sessions are untouched. *)
Lemma reads_frame c st st' sp sp' :
  (forall r, st_rs st' r = st_rs st r) -> (forall r k d, pending c st' r k d = pending c st r k d) ->
  (forall r, sp_r sp' r = sp_r sp r) ->
  (forall cu, sp_find cu (sp_live sp) <> None -> cat_find cu (st_cat st') = cat_find cu (st_cat st) /\
     sp_find cu (sp_live sp') = sp_find cu (sp_live sp)) ->
  (forall r, match sp_r sp r with RIdle => forall k, slot_idle c st r k
             | ROpen cu data pos started => read_ok c st sp r cu data pos started | RDead => True end) ->
  (forall r, match sp_r sp' r with RIdle => forall k, slot_idle c st' r k
             | ROpen cu data pos started => read_ok c st' sp' r cu data pos started | RDead => True end).
Proof.
  intros E1 E2 E3 E4 H r. rewrite E3. specialize (H r). destruct (sp_r sp r) as [|cu data pos started|]; auto.
  - eapply idle_frame; eauto.
  - assert (Hl : sp_find cu (sp_live sp) <> None) by (destruct H as (e & _ & Hf & _); congruence).
    destruct (E4 cu Hl) as (F1 & F2). eapply read_ok_frame; eauto.
Qed.

Lemma find_pair c st own cu : forall cat live, Forall2 (cat_ok c st own) cat live ->
  match cat_find cu cat, sp_find cu live with
  | Some e, Some data => cat_ok c st own (cu, e) (cu, data) /\ In (cu, e) cat /\ In (cu, data) live
  | None, None => True
  | _, _ => False
  end.
Proof.
  induction 1 as [|[k e] [k' d] cat live Ok F IH]; [exact I|]. cbn [cat_find sp_find].
  pose proof Ok as (Ek & _). cbn [fst] in Ek. subst k'. destruct (N.eqb_spec k cu) as [->|].
  - split; [exact Ok|]. split; now left.
  - destruct (cat_find cu cat), (sp_find cu live); auto. destruct IH as (? & ? & ?). split; [assumption|]. split; now right.
Qed.

Lemma sp_find_In cu live d : sp_find cu live = Some d -> In (cu, d) live.
Proof.
  induction live as [|[k x] r IH]; cbn [sp_find]; [discriminate|].
  destruct (N.eqb_spec k cu) as [->|]; [intros [= ->]; now left|right; auto].
Qed.
Lemma sp_find_None cu live : sp_find cu live = None <-> ~ In cu (map fst live).
Proof.
  induction live as [|[k x] r IH]; cbn [sp_find map fst]; [now split|].
  destruct (N.eqb_spec k cu) as [->|].
  - split; [discriminate|]. intros H. exfalso. apply H. now left.
  - rewrite IH. cbn [In]. intuition congruence.
Qed.

(** Windows of the read cache. *)
Ltac Zify.zify_post_hook ::= Z.div_mod_to_equations.
Lemma window_inj pos j j' : pos <= j -> j < pos + READ_CACHE -> pos <= j' -> j' < pos + READ_CACHE ->
  j mod READ_CACHE = j' mod READ_CACHE -> j = j'.
Proof. unfold READ_CACHE. intros. lia. Qed.
Ltac Zify.zify_post_hook ::= idtac.

Lemma frees_sub : forall ids A, NoDup A -> NoDup ids -> (forall x, In x ids -> In x A) ->
  snd (frees A ids) = true /\ NoDup (fst (frees A ids)) /\
  (forall x, In x (fst (frees A ids)) <-> In x A /\ ~ In x ids) /\ len (fst (frees A ids)) + len ids = len A.
Proof.
  induction ids as [|id ids IH]; intros A HA Hn Hi; cbn [frees].
  - cbn [fst snd]. split; [reflexivity|]. split; [exact HA|]. split; [cbn [In]; tauto|unfold len; cbn [length]; lia].
  - assert (Hin : In id A) by (apply Hi; now left).
    replace (existsb (N.eqb id) A) with true by (symmetry; apply existsb_exists; exists id; split; [exact Hin|apply N.eqb_refl]).
    inversion Hn as [|x y Hni Hn2]; subst.
    destruct (IH (remove N.eq_dec id A)) as (S & N1 & I1 & L1).
    + now apply NoDup_remove_id.
    + exact Hn2.
    + intros x Hx. apply in_in_remove; [intros ->; contradiction|]. apply Hi. now right.
    + split; [exact S|]. split; [exact N1|]. split.
      * intros x. rewrite I1. split.
        -- intros (H1 & H2). apply in_remove in H1. destruct H1 as (H1 & H3). split; [exact H1|].
           intros [->|H4]; [now apply H3|contradiction].
        -- intros (H1 & H2). split; [apply in_in_remove; [intros ->; apply H2; now left|exact H1]|].
           intros H4. apply H2. now right.
      * pose proof (remove_length_in A id HA Hin) as L2. unfold len in *. cbn [length].
        assert (0 < N.of_nat (length A)) by (destruct A; [destruct Hin|cbn [length]; lia]). lia.
Qed.

Ltac fields := try match goal with
  | |- forall r : N, match sp_r _ r with RIdle => _ | ROpen _ _ _ _ => _ | RDead => _ end => fail 1
  | _ => cbn [st_mm st_queue st_file st_cat st_ws st_rs sp_used sp_live sp_w sp_r]
  end.
Definition step_ok (c : scfg) (max : N) (sp : spec) (st : storage) (e : ev) (r : res) : Prop :=
  match r with
  | Undef => False
  | Blocked => True
  | Done st' o => out_ok (sc_per c) max sp e o /\
      exists A' own', inv c max (spec_next (sc_per c) max sp e) st' A' own'
  end.

Lemma push_ok c max sp st A own w size psize : cfg_ok c max -> inv c max sp st A own ->
  step_ok c max sp st (EvPush w size psize) (push c st w size psize).
Proof.
  intros (Hd & Hp & Hw & Hm) I. unfold push. cbv zeta. rewrite segs_total by exact Hp.
  unfold alloc_segments.
  destruct (alloc_n_refines (sc_idw c) max Hw (N.to_nat (segs_needed (sc_per c) size)) A [] A (st_mm st) (takes_nil max A) (i_mm _ _ _ _ _ _ I))
    as [(m & ids & A' & E & L & T & R)|(m & E & R & L)]; rewrite E.
  - cbn [length plus] in L.
    pose proof (refines_observes _ _ _ (i_mm _ _ _ _ _ _ I)) as (_ & Hn & Hl & _ & _ & _).
    pose proof (takes_room max A ids A' Hn Hl T) as Room. rewrite L in Room.
    pose proof (i_used _ _ _ _ _ _ I) as Hu. unfold len in Hu.
    split.
    { cbn [out_ok]. replace (_ <=? max) with true by lia. reflexivity. }
    pose proof (takes_spec _ _ _ _ T) as EA. pose proof (takes_In _ _ _ _ T) as TI. pose proof (takes_NoDup _ _ _ _ T) as TN.
    set (n := segs_needed (sc_per c) size) in *.
    exists A', (fun id => if in_dec N.eq_dec id ids then Some (OW w) else own id).
    cbn [spec_next]. fold n. replace (sp_used sp + n <=? max) with true by lia. cbn [andb].
    assert (Hold : forall id o, own id = Some o -> (if in_dec N.eq_dec id ids then Some (OW w) else own id) = own id).
    { intros id o Ho. destruct (in_dec N.eq_dec id ids) as [Hin|]; [|reflexivity].
      exfalso. destruct (TI id Hin) as (_ & Hni). apply Hni. eapply i_own; eauto. }
    assert (Ecat : forall x y, cat_ok c st own x y -> cat_ok c
      (mkSt m (st_queue st) (st_file st) (st_cat st) (upd (st_ws st) w (mkWs (mkEntry size psize ids) 0)) (st_rs st))
      (fun id => if in_dec N.eq_dec id ids then Some (OW w) else own id) x y).
    { intros x y Hxy. eapply cat_ok_frame; [|exact Hxy]. intros id Hid. split; [|reflexivity].
      destruct Hxy as (_ & _ & _ & _ & (_ & Ho) & _). eapply Hold. now apply Ho. }
    destruct (negb (n =? 0)) eqn:En.
    + apply mkInv; fields.
      * exact R.
      * subst A'. unfold len. rewrite app_length, rev_length, L. lia.
      * apply (i_q _ _ _ _ _ _ I).
      * intros id o Ho. subst A'. apply in_or_app. destruct (in_dec N.eq_dec id ids); [left; now apply in_rev in i|].
        right. eapply i_own; eauto.
      * eapply Forall2_impl; [|apply (i_cat _ _ _ _ _ _ I)]. exact Ecat.
      * apply (i_nodup _ _ _ _ _ _ I).
      * intros w'. destruct (N.eq_dec w' w) as [->|Hne].
        -- rewrite upd_same. unfold write_ok. cbn [st_ws]. rewrite upd_same. cbn [ws_entry ws_next e_size e_chain wp_size wp_data wp_custody].
           split; [reflexivity|]. split; [unfold len; lia|]. split.
           { split; [exact TN|]. intros id Hid. destruct (in_dec N.eq_dec id ids); [reflexivity|contradiction]. }
           unfold len. cbn [length]. split.
           { destruct (N.eq_dec size 0) as [->|]; [|lia]. exfalso. unfold n in En. rewrite segs_zero in En by exact Hp. discriminate. }
           split; [lia|]. split; [reflexivity|]. discriminate.
        -- rewrite upd_other by exact Hne. pose proof (i_w _ _ _ _ _ _ I w') as Iw.
           destruct (sp_w sp w') as [wp|].
           ++ eapply write_ok_frame; [| |exact Iw]; [cbn [st_ws]; now rewrite upd_other|].
              intros id Hid. split; [|reflexivity]. destruct Iw as (_ & _ & (_ & Ho) & _). eapply Hold. now apply Ho.
           ++ now rewrite upd_other.
      * eapply reads_frame; [| | | |apply (i_r _ _ _ _ _ _ I)]; try reflexivity. intros cu _. split; reflexivity.
    + assert (n = 0) by lia. assert (ids = []) by (destruct ids; [reflexivity|cbn [length] in L; lia]). subst ids.
      cbn [rev app] in EA. subst A'.
      apply mkInv; fields.
      * exact R.
      * exact Hu.
      * apply (i_q _ _ _ _ _ _ I).
      * intros id o Ho. cbn in Ho. eapply i_own; eauto.
      * eapply Forall2_impl; [|apply (i_cat _ _ _ _ _ _ I)]. exact Ecat.
      * apply (i_nodup _ _ _ _ _ _ I).
      * intros w'. destruct (N.eq_dec w' w) as [->|Hne].
        -- rewrite !upd_same. cbn [ws_entry ws_next e_chain]. unfold len. cbn [length]. lia.
        -- rewrite !upd_other by exact Hne. pose proof (i_w _ _ _ _ _ _ I w') as Iw.
           destruct (sp_w sp w') as [wp|]; [|exact Iw].
           eapply write_ok_frame; [| |exact Iw]; [cbn [st_ws]; now rewrite upd_other|].
           intros id Hid. split; reflexivity.
      * eapply reads_frame; [| | | |apply (i_r _ _ _ _ _ _ I)]; try reflexivity. intros cu _. split; reflexivity.
  - pose proof (i_used _ _ _ _ _ _ I) as Hu. unfold len in Hu.
    split.
    { cbn [out_ok]. replace (_ <=? max) with false by lia. reflexivity. }
    exists A, own. cbn [spec_next]. replace (_ <=? max) with false by lia. cbn [andb].
    apply mkInv; fields.
    + exact R.
    + exact Hu.
    + apply (i_q _ _ _ _ _ _ I).
    + apply (i_own _ _ _ _ _ _ I).
    + eapply Forall2_impl; [|apply (i_cat _ _ _ _ _ _ I)]. intros x y Hxy. eapply cat_ok_frame; [|exact Hxy]. intros; split; reflexivity.
    + apply (i_nodup _ _ _ _ _ _ I).
    + intros w'. destruct (N.eq_dec w' w) as [->|Hne].
      * rewrite !upd_same. cbn [ws_entry ws_next e_chain]. unfold len. cbn [length]. lia.
      * rewrite !upd_other by exact Hne. pose proof (i_w _ _ _ _ _ _ I w') as Iw.
        destruct (sp_w sp w') as [wp|]; [|exact Iw].
        eapply write_ok_frame; [| |exact Iw]; [cbn [st_ws]; now rewrite upd_other|].
        intros id Hid. split; reflexivity.
    + eapply reads_frame; [| | | |apply (i_r _ _ _ _ _ _ I)]; try reflexivity. intros cu _. split; reflexivity.
Qed.

Lemma nth_error_NoDup_ne (l : list N) i j a b : NoDup l -> nth_error l i = Some a -> nth_error l j = Some b -> i <> j -> a <> b.
Proof.
  intros Hn Ha Hb Hne ->. apply Hne. eapply NoDup_nth_error; eauto; [|congruence]. apply nth_error_Some. congruence.
Qed.
Lemma nth_error_some_lt {A} (l : list A) i a : nth_error l i = Some a -> (i < length l)%nat.
Proof. intros H. apply nth_error_Some. congruence. Qed.
Lemma inv_lt c max sp st A own : inv c max sp st A own -> forall id, In id A -> id < max.
Proof. intros I. pose proof (refines_observes _ _ _ (i_mm _ _ _ _ _ _ I)) as (_ & _ & Hl & _). exact Hl. Qed.
Lemma chain_short c max sp st A own o chain : cfg_ok c max -> inv c max sp st A own -> chain_ok own o chain -> len chain < W32.
Proof.
  intros (_ & _ & _ & Hm) I (Hn & Ho). assert (H : len chain <= max).
  { apply bounded_length; [exact Hn|]. intros id Hid. eapply inv_lt; [exact I|]. eapply i_own; eauto. }
  unfold MAXSEGMENTS in Hm. unfold W32. lia.
Qed.

Lemma push_segment_ok c max sp st A own w custody buf stale acc : cfg_ok c max -> inv c max sp st A own ->
  legal (sc_per c) sp (EvPushSeg w custody buf stale acc) ->
  step_ok c max sp st (EvPushSeg w custody buf stale acc) (push_segment c st w custody buf stale acc).
Proof.
  intros C I Leg. pose proof C as (Hd & Hp & Hw & Hm). unfold push_segment. cbv zeta.
  fold (len (e_chain (ws_entry (st_ws st w)))).
  pose proof (i_w _ _ _ _ _ _ I w) as Iw. cbn [legal] in Leg.
  destruct (sp_w sp w) as [wp|] eqn:Ew.
  2:{ replace (len _ <=? _) with true by lia. split; [cbn [out_ok]; now rewrite Ew|].
      exists A, own. cbn [spec_next]. now rewrite Ew. }
  destruct Leg as (Lc & Lf & Lb).
  pose proof Iw as (W1 & W2 & W3 & W4 & W5 & W6 & W7).
  set (e := ws_entry (st_ws st w)) in *. set (i := ws_next (st_ws st w)) in *.
  set (per := sc_per c) in *. set (n := len (e_chain e)) in *.
  destruct (segs_bounds per (wp_size wp) Hp ltac:(lia)) as (B1 & B2 & B3). rewrite <- W2 in B1, B2, B3.
  assert (Hi : i < n) by nia.
  pose proof (chain_short _ _ _ _ _ _ _ _ C I W3) as Hshort. fold n in Hshort.
  replace (n <=? i) with false by lia.
  destruct (nth_error (e_chain e) (N.to_nat i)) as [id|] eqn:Eid.
  2:{ apply nth_error_None in Eid. unfold n, len in Hi. lia. }
  assert (Hinc : inc32 i = i + 1) by (unfold inc32; apply N.mod_small; lia). rewrite Hinc.
  destruct (queue_full st (id mod sc_disks c)); [exact Logic.I|].
  fold (len buf). replace (per <? len buf) with false by lia.
  assert (Hidin : In id (e_chain e)) by (eapply nth_error_In; eauto).
  assert (Howid : own id = Some (OW w)) by (now apply W3).
  set (s := mkSeg _ _).
  set (st' := mkSt _ _ _ _ _ _).
  assert (LG : forall x, logical c st' x = if x =? id then Some s else logical c st x).
  { intros x. rewrite <- (logical_write c st id s x Hd). apply logical_ext; reflexivity. }
  assert (PD : forall r k d, pending c st' r k d = pending c st r k d).
  { intros r k d. rewrite <- (pending_write c st (id mod sc_disks c) id s r k d). apply pending_ext; reflexivity. }
  assert (Hother : forall x o, own x = Some o -> o <> OW w -> logical c st' x = logical c st x).
  { intros x o Ho Hne. rewrite LG. destruct (N.eqb_spec x id) as [->|]; [congruence|reflexivity]. }
  assert (Sok : seg_ok c custody e (wp_data wp ++ buf) i s).
  { unfold seg_ok, s. cbn [sg_hdr sg_data h_size h_custody h_psize h_next]. fold n.
    do 4 (split; [reflexivity|]). exists (skipn (length buf) stale). f_equal. symmetry. apply piece_app; [exact W5|lia]. }
  assert (Stored : stored c st' custody e (wp_data wp ++ buf) (i + 1)).
  { intros j x Hj Hx. destruct (N.eq_dec j i) as [->|Hne].
    - rewrite Eid in Hx. injection Hx as <-. exists s. rewrite LG, N.eqb_refl. split; [reflexivity|exact Sok].
    - assert (Hji : j < i) by lia.
      destruct (wp_custody wp) as [cu|] eqn:Ecu; [|specialize (W6 eq_refl); lia].
      assert (cu = custody) by (now apply Lc). subst cu.
      destruct (W7 _ eq_refl j x Hji Hx) as (s' & L1 & K1 & K2 & K3 & K4 & K5).
      exists s'. rewrite LG. destruct (N.eqb_spec x id) as [->|].
      { exfalso. assert (id <> id); [|congruence]. eapply nth_error_NoDup_ne; [apply W3|exact Hx|exact Eid|lia]. }
      split; [exact L1|]. do 4 (split; [assumption|]). fold per. rewrite (piece_app_old per _ _ i) by assumption. exact K5. }
  assert (Hqs : forall d op, In op (st_queue st' d) -> op_id op < max).
  { intros d op. subst st'. cbn [st_queue]. rewrite queue_enqueue. destruct (N.eqb_spec d (id mod sc_disks c)) as [->|].
    - intros Hop. apply in_app_or in Hop. destruct Hop as [Hop|[<-|[]]]; [eapply i_q; eauto|]. cbn [op_id].
      eapply inv_lt; [exact I|]. eapply i_own; eauto.
    - eapply i_q; eauto. }
  assert (Hlen : len (wp_data wp ++ buf) = len (wp_data wp) + len buf) by (unfold len; rewrite app_length; lia).
  split; [cbn [out_ok]; now rewrite Ew|].
  cbn [spec_next]. rewrite Ew, Hlen.
  destruct (N.eqb_spec (len (wp_data wp) + len buf) (wp_size wp)) as [Ef|Ef].
  - (* last segment *)
    assert (Hfin : i + 1 = n) by nia.
    destruct acc.
    + exists A, (fun x => if in_dec N.eq_dec x (e_chain e) then Some (OC custody) else own x).
      assert (Hcatown : forall x o, own x = Some o -> o <> OW w -> (if in_dec N.eq_dec x (e_chain e) then Some (OC custody) else own x) = own x).
      { intros x o Ho Hne. destruct (in_dec N.eq_dec x (e_chain e)) as [Hin|]; [|reflexivity]. apply W3 in Hin. congruence. }
      apply mkInv; fields.
      * apply (i_mm _ _ _ _ _ _ I).
      * apply (i_used _ _ _ _ _ _ I).
      * exact Hqs.
      * intros x o Ho. destruct (in_dec N.eq_dec x (e_chain e)) as [Hin|]; [|eapply i_own; eauto].
        eapply i_own; [exact I|]. now apply W3.
      * subst st'. cbn [st_cat]. replace (i + 1 =? n) with true by lia. cbn [andb]. constructor.
        -- unfold cat_ok. cbn [fst snd]. rewrite Hlen, Ef. fold per n. split; [reflexivity|]. split; [exact W1|]. split; [lia|].
           split; [exact W2|]. split.
           { split; [apply W3|]. intros x Hx. destruct (in_dec N.eq_dec x (e_chain e)); [reflexivity|contradiction]. }
           rewrite <- Hfin. exact Stored.
        -- eapply Forall2_impl; [|apply (i_cat _ _ _ _ _ _ I)]. intros x y Hxy. eapply cat_ok_frame; [|exact Hxy].
           intros z Hz. destruct Hxy as (_ & _ & _ & _ & (_ & Ho) & _). split; [eapply Hcatown|eapply Hother]; try (now apply Ho); discriminate.
      * cbn [map fst]. constructor; [now apply sp_find_None|apply (i_nodup _ _ _ _ _ _ I)].
      * intros w'. destruct (N.eq_dec w' w) as [->|Hne].
        -- rewrite upd_same. subst st'. cbn [st_ws enqueue]. rewrite upd_same. cbn [ws_entry ws_next]. fold n. lia.
        -- rewrite upd_other by exact Hne. pose proof (i_w _ _ _ _ _ _ I w') as Iw'.
           destruct (sp_w sp w') as [wp'|].
           ++ eapply write_ok_frame; [| |exact Iw']; [subst st'; cbn [st_ws enqueue]; now rewrite upd_other|].
              intros x Hx. destruct Iw' as (_ & _ & (_ & Ho) & _). split; [eapply Hcatown|eapply Hother]; try (now apply Ho); congruence.
           ++ subst st'. cbn [st_ws enqueue]. now rewrite upd_other.
      * eapply reads_frame; [| | | |apply (i_r _ _ _ _ _ _ I)]; try reflexivity; [exact PD|].
        intros cu Hcu. subst st'. cbn [st_cat sp_live]. replace (i + 1 =? n) with true by lia. cbn [andb cat_find sp_find].
        destruct (N.eqb_spec custody cu) as [->|]; [congruence|]. split; reflexivity.
    + exists A, own. apply mkInv; fields.
      * apply (i_mm _ _ _ _ _ _ I).
      * apply (i_used _ _ _ _ _ _ I).
      * exact Hqs.
      * apply (i_own _ _ _ _ _ _ I).
      * subst st'. cbn [st_cat]. rewrite andb_false_r.
        eapply Forall2_impl; [|apply (i_cat _ _ _ _ _ _ I)]. intros x y Hxy. eapply cat_ok_frame; [|exact Hxy].
        intros z Hz. destruct Hxy as (_ & _ & _ & _ & (_ & Ho) & _). split; [reflexivity|]. eapply Hother; [now apply Ho|discriminate].
      * apply (i_nodup _ _ _ _ _ _ I).
      * intros w'. destruct (N.eq_dec w' w) as [->|Hne].
        -- rewrite upd_same. subst st'. cbn [st_ws enqueue]. rewrite upd_same. cbn [ws_entry ws_next]. fold n. lia.
        -- rewrite upd_other by exact Hne. pose proof (i_w _ _ _ _ _ _ I w') as Iw'.
           destruct (sp_w sp w') as [wp'|].
           ++ eapply write_ok_frame; [| |exact Iw']; [subst st'; cbn [st_ws enqueue]; now rewrite upd_other|].
              intros x Hx. destruct Iw' as (_ & _ & (_ & Ho) & _). split; [reflexivity|]. eapply Hother; [now apply Ho|congruence].
           ++ subst st'. cbn [st_ws enqueue]. now rewrite upd_other.
      * eapply reads_frame; [| | | |apply (i_r _ _ _ _ _ _ I)]; try reflexivity; [exact PD|].
        intros cu Hcu. subst st'. cbn [st_cat sp_live]. rewrite andb_false_r. split; reflexivity.
  - (* more to come *)
    assert (Hmore : i + 1 < n) by nia.
    exists A, own. apply mkInv; fields.
    + apply (i_mm _ _ _ _ _ _ I).
    + apply (i_used _ _ _ _ _ _ I).
    + exact Hqs.
    + apply (i_own _ _ _ _ _ _ I).
    + subst st'. cbn [st_cat]. replace (i + 1 =? n) with false by lia. cbn [andb].
      eapply Forall2_impl; [|apply (i_cat _ _ _ _ _ _ I)]. intros x y Hxy. eapply cat_ok_frame; [|exact Hxy].
      intros z Hz. destruct Hxy as (_ & _ & _ & _ & (_ & Ho) & _). split; [reflexivity|]. eapply Hother; [now apply Ho|discriminate].
    + apply (i_nodup _ _ _ _ _ _ I).
    + intros w'. destruct (N.eq_dec w' w) as [->|Hne].
      * rewrite upd_same. unfold write_ok. subst st'. cbn [st_ws enqueue]. rewrite upd_same. cbn [ws_entry ws_next wp_size wp_data wp_custody].
        fold per n. rewrite Hlen. split; [exact W1|]. split; [exact W2|]. split; [exact W3|]. split; [lia|]. split; [nia|].
        split; [discriminate|]. intros cu [= <-]. exact Stored.
      * rewrite upd_other by exact Hne. pose proof (i_w _ _ _ _ _ _ I w') as Iw'.
        destruct (sp_w sp w') as [wp'|].
        -- eapply write_ok_frame; [| |exact Iw']; [subst st'; cbn [st_ws enqueue]; now rewrite upd_other|].
           intros x Hx. destruct Iw' as (_ & _ & (_ & Ho) & _). split; [reflexivity|]. eapply Hother; [now apply Ho|congruence].
        -- subst st'. cbn [st_ws enqueue]. now rewrite upd_other.
    + eapply reads_frame; [| | | |apply (i_r _ _ _ _ _ _ I)]; try reflexivity; [exact PD|].
      intros cu Hcu. subst st'. cbn [st_cat sp_live]. replace (i + 1 =? n) with false by lia. split; reflexivity.
Qed.

(** A session that has read everything it asked for has nothing outstanding. *)
Lemma finished_idle c max sp st A own r cu data pos started : inv c max sp st A own ->
  sp_r sp r = ROpen cu data pos started -> finished (sc_per c) data pos started -> forall k, slot_idle c st r k.
Proof.
  intros I E F k. pose proof (i_r _ _ _ _ _ _ I r) as Ir. rewrite E in Ir.
  destruct Ir as (e & H1 & H2 & H3 & H4 & H5 & H6 & H7 & H8 & H9 & H10 & H11 & H12).
  apply H12. intros j Hj1 Hj2. exfalso. destruct F as [F|F].
  - rewrite (H10 F) in Hj2. lia.
  - pose proof (find_pair c st own cu _ _ (i_cat _ _ _ _ _ _ I)) as FP. rewrite H1, H2 in FP.
    destruct FP as ((_ & _ & _ & E4 & _) & _). cbn [snd] in E4. rewrite <- F in E4. lia.
Qed.

Lemma open_ok c max sp st A own r cu : inv c max sp st A own -> legal (sc_per c) sp (EvOpen r cu) ->
  step_ok c max sp st (EvOpen r cu) (open_read st r cu).
Proof.
  intros I Leg. cbn [legal] in Leg. unfold open_read.
  assert (Idle : forall k, slot_idle c st r k).
  { destruct (sp_r sp r) as [|cu0 d0 p0 s0|] eqn:Er; [|eapply finished_idle; eauto|contradiction].
    pose proof (i_r _ _ _ _ _ _ I r) as Ir. now rewrite Er in Ir. }
  pose proof (find_pair c st own cu _ _ (i_cat _ _ _ _ _ _ I)) as FP.
  destruct (cat_find cu (st_cat st)) as [e|] eqn:Ec; destruct (sp_find cu (sp_live sp)) as [data|] eqn:Es; try contradiction.
  - destruct FP as (Ok & _ & _). pose proof Ok as (_ & K2 & _). cbn [snd] in K2. cbv zeta.
    split; [cbn [out_ok]; rewrite Es; congruence|]. exists A, own. cbn [spec_next]. rewrite Es.
    apply mkInv; fields.
    + apply (i_mm _ _ _ _ _ _ I).
    + apply (i_used _ _ _ _ _ _ I).
    + apply (i_q _ _ _ _ _ _ I).
    + apply (i_own _ _ _ _ _ _ I).
    + eapply Forall2_impl; [|apply (i_cat _ _ _ _ _ _ I)]. intros x y Hxy. eapply cat_ok_frame; [|exact Hxy]. intros; split; reflexivity.
    + apply (i_nodup _ _ _ _ _ _ I).
    + intros w. pose proof (i_w _ _ _ _ _ _ I w) as Iw. destruct (sp_w sp w); [|exact Iw].
      eapply write_ok_frame; [| |exact Iw]; [reflexivity|]. intros; split; reflexivity.
    + intros r'. destruct (N.eq_dec r' r) as [->|Hne].
      * cbn [sp_r]. rewrite upd_same. exists e. cbn [st_rs st_cat sp_live]. rewrite upd_same.
        cbn [rs_entry rs_next rs_tocache rs_ri rs_wi rs_ready rs_cache]. unfold READ_CACHE.
        do 4 (split; [assumption || reflexivity|]). do 3 (split; [lia|]). do 2 (split; [reflexivity|]).
        split; [reflexivity|]. split; [intros; lia|]. intros k _. exact (Idle k).
      * cbn [sp_r]. rewrite upd_other by exact Hne. pose proof (i_r _ _ _ _ _ _ I r') as Ir.
        destruct (sp_r sp r'); auto. eapply read_ok_frame; [| | | |exact Ir]; try reflexivity.
        cbn [st_rs]. now rewrite upd_other.
  - split; [cbn [out_ok]; now rewrite Es|]. exists A, own. cbn [spec_next]. now rewrite Es.
Qed.

(** The facts a legal TopSegment step starts from. *)
Lemma reading_facts c max sp st A own r cu data pos started : inv c max sp st A own ->
  sp_r sp r = ROpen cu data pos started -> exists e, rs_entry (st_rs st r) = Some e /\
  cat_ok c st own (cu, e) (cu, data) /\ read_ok c st sp r cu data pos started /\
  cat_find cu (st_cat st) = Some e /\ sp_find cu (sp_live sp) = Some data.
Proof.
  intros I E. pose proof (i_r _ _ _ _ _ _ I r) as Ir. rewrite E in Ir. pose proof Ir as (e & H1 & H2 & H3 & _).
  exists e. split; [exact H3|]. pose proof (find_pair c st own cu _ _ (i_cat _ _ _ _ _ _ I)) as FP. rewrite H1, H2 in FP.
  split; [apply FP|]. split; [exact Ir|]. auto.
Qed.

Lemma mod_succ x : (x mod READ_CACHE + 1) mod READ_CACHE = (x + 1) mod READ_CACHE.
Proof. rewrite N.add_mod_idemp_l by (unfold READ_CACHE; lia). reflexivity. Qed.
Lemma diff_small a b : b <= a -> a < W32 -> diff32 a b = a - b.
Proof.
  intros H1 H2. unfold diff32. replace (a + W32 - b) with ((a - b) + 1 * W32) by lia.
  rewrite N.mod_add by (unfold W32; lia). apply N.mod_small. lia.
Qed.

Lemma fetch_ok c max sp st A own r : cfg_ok c max -> inv c max sp st A own -> legal (sc_per c) sp (EvFetch r) ->
  step_ok c max sp st (EvFetch r) (fetch c st r).
Proof.
  intros C I Leg. pose proof C as (Hd & Hp & Hw & Hm). cbn [legal] in Leg.
  destruct (sp_r sp r) as [|cu data pos started|] eqn:Er; try contradiction.
  destruct (reading_facts _ _ _ _ _ _ _ _ _ _ _ I Er) as (e & Ee & Ok & Rok & Ec & Es).
  destruct Rok as (e2 & H1 & H2 & H3 & H4 & H5 & H6 & H7 & H8 & H9 & H10 & H11 & H12).
  assert (e2 = e) by congruence. subst e2.
  pose proof Ok as (_ & K2 & K3 & K4 & K5 & K6). cbn [fst snd] in K2, K3, K4, K5, K6.
  pose proof (chain_short _ _ _ _ _ _ _ _ C I K5) as Hshort.
  unfold fetch. cbv zeta. rewrite Ee. unfold want_fetch. fold (len (e_chain e)).
  set (rs := st_rs st r) in *. set (tc := rs_tocache rs) in *.
  rewrite H4, diff_small by lia.
  destruct ((tc - pos <? READ_CACHE) && (tc <? len (e_chain e))) eqn:Ew; [|exact Logic.I].
  apply andb_prop in Ew. destruct Ew as (Ew1 & Ew2).
  destruct (nth_error (e_chain e) (N.to_nat tc)) as [id|] eqn:Eid.
  2:{ apply nth_error_None in Eid. unfold len in Ew2. lia. }
  destruct (queue_full st (id mod sc_disks c)); [exact Logic.I|].
  assert (Hinc : inc32 tc = tc + 1) by (unfold inc32; apply N.mod_small; lia). rewrite Hinc.
  set (k0 := rs_wi rs) in *.
  set (st' := mkSt _ _ _ _ _ _).
  assert (LG : forall x, logical c st' x = logical c st x).
  { intros x. rewrite <- (logical_read c st (id mod sc_disks c) id r k0 x). apply logical_ext; reflexivity. }
  assert (PD : forall r' k d, pending c st' r' k d = pending c st r' k d ++
     (if (d =? id mod sc_disks c) && ((r =? r') && (k0 =? k)) then [logical c st id] else [])).
  { intros r' k d. rewrite <- pending_read. apply pending_ext; reflexivity. }
  destruct (K6 tc id ltac:(lia) Eid) as (s & Ls & Sok).
  assert (Hidle : slot_idle c st r k0).
  { apply H12. intros j Hj1 Hj2. rewrite H9. intros EE. apply window_inj with (pos := pos) in EE; lia. }
  split; [reflexivity|]. exists A, own. cbn [spec_next]. rewrite Er.
  apply mkInv; fields.
  - apply (i_mm _ _ _ _ _ _ I).
  - apply (i_used _ _ _ _ _ _ I).
  - intros d op. subst st'. cbn [st_queue]. rewrite queue_enqueue. destruct (N.eqb_spec d (id mod sc_disks c)) as [->|].
    + intros Hop. apply in_app_or in Hop. destruct Hop as [Hop|[<-|[]]]; [eapply i_q; eauto|]. cbn [op_id].
      eapply inv_lt; [exact I|]. eapply i_own; [exact I|]. apply K5. eapply nth_error_In; eauto.
    + eapply i_q; eauto.
  - apply (i_own _ _ _ _ _ _ I).
  - subst st'. cbn [st_cat]. eapply Forall2_impl; [|apply (i_cat _ _ _ _ _ _ I)]. intros x y Hxy. eapply cat_ok_frame; [|exact Hxy].
    intros z Hz. split; [reflexivity|apply LG].
  - apply (i_nodup _ _ _ _ _ _ I).
  - intros w. pose proof (i_w _ _ _ _ _ _ I w) as Iw. destruct (sp_w sp w); [|exact Iw].
    eapply write_ok_frame; [| |exact Iw]; [reflexivity|]. intros z Hz. split; [reflexivity|apply LG].
  - intros r'. cbn [sp_r]. destruct (N.eq_dec r' r) as [->|Hne].
    + rewrite upd_same. assert (Srs : st_rs st' r = mkRs (Some e) pos (tc + 1) (rs_ri rs) ((k0 + 1) mod READ_CACHE)
        (upd (rs_ready rs) k0 false) (rs_cache rs)).
      { subst st'. cbn [st_rs]. now rewrite upd_same. }
      exists e. rewrite Srs. cbn [rs_entry rs_next rs_tocache rs_ri rs_wi sp_live].
      split; [exact Ec|]. split; [exact Es|]. do 2 (split; [reflexivity|]). split; [lia|]. split; [lia|]. split; [lia|].
      split; [exact H8|]. split; [now rewrite H9, mod_succ|]. split; [discriminate|]. split.
      * intros j Hj1 Hj2. destruct (N.eq_dec j tc) as [->|Hjne].
        -- rewrite <- H9. right. rewrite Srs. cbn [rs_ready]. rewrite upd_same. split; [reflexivity|].
           exists (id mod sc_disks c), s. rewrite PD, !N.eqb_refl. cbn [andb]. rewrite Hidle, Ls.
           split; [reflexivity|]. split; [exact Sok|]. intros d' Hd'. rewrite PD, Hidle.
           destruct (N.eqb_spec d' (id mod sc_disks c)); [contradiction|reflexivity].
        -- assert (Hkne : j mod READ_CACHE <> k0).
           { rewrite H9. intros EE. apply window_inj with (pos := pos) in EE; lia. }
           assert (PD' : forall d, pending c st' r (j mod READ_CACHE) d = pending c st r (j mod READ_CACHE) d).
           { intros d. rewrite PD. destruct (N.eqb_spec k0 (j mod READ_CACHE)); [congruence|]. rewrite !andb_false_r. apply app_nil_r. }
           destruct (H11 j Hj1 ltac:(lia)) as [(S1 & S2 & S3)|(S1 & d & s2 & S2 & S3 & S4)].
           ++ left. rewrite Srs. cbn [rs_ready rs_cache]. rewrite upd_other by exact Hkne.
              split; [exact S1|]. split; [exact S2|]. intros d. rewrite PD'. apply S3.
           ++ right. rewrite Srs. cbn [rs_ready]. rewrite upd_other by exact Hkne. split; [exact S1|].
              exists d, s2. rewrite PD'. split; [exact S2|]. split; [exact S3|]. intros d' Hd'. rewrite PD'. now apply S4.
      * intros k Hk d. rewrite PD. rewrite H12.
        -- destruct (N.eqb_spec k0 k) as [<-|]; [|now rewrite !andb_false_r].
           exfalso. apply (Hk tc); [lia|lia|]. now rewrite H9.
        -- intros j Hj1 Hj2. apply Hk; lia.
    + rewrite upd_other by exact Hne. pose proof (i_r _ _ _ _ _ _ I r') as Ir.
      assert (PD' : forall k d, pending c st' r' k d = pending c st r' k d).
      { intros k d. rewrite PD. destruct (N.eqb_spec r r'); [congruence|]. cbn [andb]. rewrite andb_false_r. apply app_nil_r. }
      destruct (sp_r sp r') as [|cu' d' p' s'|]; auto.
      * intros k d. rewrite PD'. apply Ir.
      * eapply read_ok_frame; [| | | |exact Ir]; try reflexivity; [subst st'; cbn [st_rs]; now rewrite upd_other|exact PD'].
Qed.

Lemma piece_size per size i n : 0 < per -> 0 < size -> n = segs_needed per size -> i < n ->
  N.min per (size - i * per) = if (i + 1 =? n) && negb (size mod per =? 0) then size mod per else per.
Proof.
  intros Hp Hs -> Hi. destruct (segs_bounds per size Hp Hs) as (B1 & B2 & B3). set (n := segs_needed per size) in *.
  pose proof (N.div_mod size per ltac:(lia)) as E. pose proof (N.mod_lt size per ltac:(lia)) as L.
  set (q := size / per) in *. set (m := size mod per) in *.
  destruct (N.eqb_spec (i + 1) n) as [E1|E1]; cbn [andb].
  - destruct (N.eqb_spec m 0) as [E2|E2]; cbn [negb].
    + assert (q = n) by nia. nia.
    + assert (q = n - 1) by nia. nia.
  - nia.
Qed.

Lemma take_ok c max sp st A own r : cfg_ok c max -> inv c max sp st A own -> legal (sc_per c) sp (EvTake r) ->
  step_ok c max sp st (EvTake r) (take c st r).
Proof.
  intros C I Leg. pose proof C as (Hd & Hp & Hw & Hm). cbn [legal] in Leg.
  destruct (sp_r sp r) as [|cu data pos started|] eqn:Er; try contradiction.
  destruct (reading_facts _ _ _ _ _ _ _ _ _ _ _ I Er) as (e & Ee & Ok & Rok & Ec & Es).
  destruct Rok as (e2 & H1 & H2 & H3 & H4 & H5 & H6 & H7 & H8 & H9 & H10 & H11 & H12).
  assert (e2 = e) by congruence. subst e2.
  pose proof Ok as (_ & K2 & K3 & K4 & K5 & K6). cbn [fst snd] in K2, K3, K4, K5, K6.
  pose proof (chain_short _ _ _ _ _ _ _ _ C I K5) as Hshort.
  unfold take. cbv zeta. rewrite Ee. unfold want_fetch. fold (len (e_chain e)).
  set (rs := st_rs st r) in *. set (tc := rs_tocache rs) in *.
  rewrite H4, diff_small by lia.
  destruct ((tc - pos <? READ_CACHE) && (tc <? len (e_chain e))) eqn:Ew; [exact Logic.I|].
  assert (Htc : pos < tc) by (rewrite K4 in Ew; unfold READ_CACHE in *; lia).
  destruct (rs_ready rs (rs_ri rs)) eqn:Erd; cbn [negb]; [|exact Logic.I].
  assert (Hinc : inc32 pos = pos + 1) by (unfold inc32; apply N.mod_small; lia). rewrite Hinc.
  replace (len (e_chain e) <? pos + 1) with false by lia.
  rewrite H8 in *.
  destruct (H11 pos ltac:(lia) Htc) as [(S1 & (G1 & G2 & G3 & G4 & tail & G5) & S3)|(S1 & _)]; [|unfold rs in Erd; congruence].
  fold rs in G1, G2, G3, G4, G5.
  set (s := rs_cache rs (pos mod READ_CACHE)) in *.
  assert (Hsize : firstn (N.to_nat (if (h_next (sg_hdr s) =? seg_last c) && negb (e_size e mod sc_per c =? 0) then e_size e mod sc_per c else sc_per c)) (sg_data s)
    = piece (sc_per c) data pos).
  { assert (El : (h_next (sg_hdr s) =? seg_last c) = (pos + 1 =? len (e_chain e))).
    { rewrite G4. destruct (N.eqb_spec (pos + 1) (len (e_chain e))) as [Ep|Ep]; [apply N.eqb_refl|].
      apply N.eqb_neq. assert (Hin : In (nth (N.to_nat (pos + 1)) (e_chain e) 0) (e_chain e)) by (apply nth_In; unfold len in *; lia).
      apply K5 in Hin. apply (i_own _ _ _ _ _ _ I) in Hin. apply (inv_lt _ _ _ _ _ _ I) in Hin.
      unfold seg_last, MAXSEGMENTS, W32 in *. lia. }
    rewrite El, K2.
    rewrite <- (piece_size (sc_per c) (len data) pos (len (e_chain e)) Hp K3 K4) by lia.
    rewrite G5, <- piece_len by exact Hp. unfold len. rewrite Nnat.Nat2N.id, firstn_app, firstn_all, Nat.sub_diag.
    cbn [firstn]. apply app_nil_r. }
  rewrite Hsize. split; [cbn [out_ok]; rewrite Er; reflexivity|].
  exists A, own. cbn [spec_next]. rewrite Er.
  apply mkInv; fields.
  - apply (i_mm _ _ _ _ _ _ I).
  - apply (i_used _ _ _ _ _ _ I).
  - apply (i_q _ _ _ _ _ _ I).
  - apply (i_own _ _ _ _ _ _ I).
  - eapply Forall2_impl; [|apply (i_cat _ _ _ _ _ _ I)]. intros x y Hxy. eapply cat_ok_frame; [|exact Hxy]. intros; split; reflexivity.
  - apply (i_nodup _ _ _ _ _ _ I).
  - intros w. pose proof (i_w _ _ _ _ _ _ I w) as Iw. destruct (sp_w sp w); [|exact Iw].
    eapply write_ok_frame; [| |exact Iw]; [reflexivity|]. intros; split; reflexivity.
  - intros r'. cbn [sp_r]. destruct (N.eq_dec r' r) as [->|Hne].
    + rewrite upd_same. exists e. cbn [st_rs st_cat sp_live]. rewrite upd_same. cbn [rs_entry rs_next rs_tocache rs_ri rs_wi].
      do 3 (split; [assumption || reflexivity|]). split; [reflexivity|]. split; [fold tc; lia|]. split; [fold tc; lia|]. split; [fold tc; lia|].
      split; [now rewrite mod_succ|]. split; [exact H9|]. split; [exact H10|]. split.
      * intros j Hj1 Hj2. destruct (H11 j ltac:(lia) Hj2) as [X|X]; [left|right].
        -- unfold slot_idle in *. cbn [st_rs]. rewrite upd_same. cbn [rs_ready rs_cache]. exact X.
        -- cbn [st_rs]. rewrite upd_same. cbn [rs_ready rs_cache]. exact X.
      * intros k Hk. destruct (N.eq_dec k (pos mod READ_CACHE)) as [->|Hk2]; [exact S3|].
        intros d. apply (H12 k). intros j Hj1 Hj2. destruct (N.eq_dec j pos) as [->|]; [congruence|]. apply Hk; [lia|exact Hj2].
    + rewrite upd_other by exact Hne. pose proof (i_r _ _ _ _ _ _ I r') as Ir.
      destruct (sp_r sp r'); auto. eapply read_ok_frame; [| | | |exact Ir]; try reflexivity.
      cbn [st_rs]. now rewrite upd_other.
Qed.

Lemma Forall2_remove c st own cu : forall cat live, Forall2 (cat_ok c st own) cat live ->
  Forall2 (fun x y => cat_ok c st own x y /\ fst x <> cu) (cat_remove cu cat) (sp_remove cu live).
Proof.
  induction 1 as [|[k e] [k' d] cat live Ok F IH]; [constructor|]. unfold cat_remove, sp_remove in *. cbn [filter fst].
  pose proof Ok as (Ek & _). cbn [fst] in Ek. subst k'. destruct (N.eqb_spec k cu); cbn [negb]; [exact IH|].
  constructor; [split; [exact Ok|assumption]|exact IH].
Qed.
Lemma cat_find_remove cu k cat : k <> cu -> cat_find k (cat_remove cu cat) = cat_find k cat.
Proof.
  intros H. unfold cat_remove. induction cat as [|[x e] r IH]; [reflexivity|]. cbn [filter cat_find fst].
  destruct (N.eqb_spec x cu) as [->|]; cbn [negb cat_find].
  - destruct (N.eqb_spec cu k); [congruence|exact IH].
  - now rewrite IH.
Qed.
Lemma sp_find_remove cu k live : k <> cu -> sp_find k (sp_remove cu live) = sp_find k live.
Proof.
  intros H. unfold sp_remove. induction live as [|[x e] r IH]; [reflexivity|]. cbn [filter sp_find fst].
  destruct (N.eqb_spec x cu) as [->|]; cbn [negb sp_find].
  - destruct (N.eqb_spec cu k); [congruence|exact IH].
  - now rewrite IH.
Qed.
Lemma NoDup_map_filter {A B} (f : A -> B) (p : A -> bool) l : NoDup (map f l) -> NoDup (map f (filter p l)).
Proof.
  induction l as [|x r IH]; cbn [map filter]; [auto|]. intros H. inversion H as [|? ? H1 H2]; subst.
  destruct (p x); cbn [map]; [constructor; auto|auto]. intros Hin. apply H1. apply in_map_iff in Hin.
  destruct Hin as (y & <- & Hy). apply filter_In in Hy. apply in_map. apply Hy.
Qed.
Lemma finishedb_spec per data pos started : finishedb per data pos started = true <-> finished per data pos started.
Proof. unfold finishedb, finished. rewrite orb_true_iff, negb_true_iff, N.eqb_eq. tauto. Qed.

Lemma remove_ok c max sp st A own cu stale : cfg_ok c max -> inv c max sp st A own ->
  step_ok c max sp st (EvRemove cu stale) (remove_bundle c st cu stale).
Proof.
  intros C I. pose proof C as (Hd & Hp & Hw & Hm). unfold remove_bundle.
  pose proof (find_pair c st own cu _ _ (i_cat _ _ _ _ _ _ I)) as FP.
  destruct (cat_find cu (st_cat st)) as [e|] eqn:Ec; destruct (sp_find cu (sp_live sp)) as [data|] eqn:Es; try contradiction.
  2:{ split; [cbn [out_ok]; now rewrite Es|]. exists A, own. cbn [spec_next]. now rewrite Es. }
  destruct FP as (Ok & _ & _). pose proof Ok as (_ & K2 & K3 & K4 & K5 & K6). cbn [fst snd] in K2, K3, K4, K5, K6.
  destruct (segs_bounds (sc_per c) (len data) Hp K3) as (_ & _ & Hpos).
  destruct (e_chain e) as [|id rest] eqn:Ech; [change (len (@nil N)) with 0 in K4; lia|]. rewrite <- Ech in K4, K5, K6 |- *. cbv zeta.
  destruct (queue_full st (id mod sc_disks c)); [exact Logic.I|].
  assert (Hidin : In id (e_chain e)) by (rewrite Ech; now left).
  cbn [enqueue st_mm].
  destruct (free_list_refines max (e_chain e) (st_mm st) A (i_mm _ _ _ _ _ _ I)) as (m & -> & R).
  pose proof (refines_observes _ _ _ (i_mm _ _ _ _ _ _ I)) as (_ & HnA & _).
  destruct (frees_sub (e_chain e) A HnA (proj1 K5)) as (F1 & F2 & F3 & F4).
  { intros x Hx. eapply i_own; [exact I|]. now apply K5. }
  rewrite F1. set (A' := fst (frees A (e_chain e))) in *.
  set (own' := fun x => if in_dec N.eq_dec x (e_chain e) then None else own x).
  set (st' := mkSt _ _ _ _ _ _).
  assert (LG : forall x, logical c st' x = if x =? id then Some (erased stale) else logical c st x).
  { intros x. rewrite <- (logical_write c st id (erased stale) x Hd). apply logical_ext; reflexivity. }
  assert (PD : forall r k d, pending c st' r k d = pending c st r k d).
  { intros r k d. rewrite <- (pending_write c st (id mod sc_disks c) id (erased stale) r k d). apply pending_ext; reflexivity. }
  assert (Hother : forall x o, own x = Some o -> o <> OC cu -> own' x = own x /\ logical c st' x = logical c st x).
  { intros x o Ho Hne. split.
    - unfold own'. destruct (in_dec N.eq_dec x (e_chain e)) as [Hin|]; [|reflexivity]. apply K5 in Hin. congruence.
    - rewrite LG. destruct (N.eqb_spec x id) as [->|]; [apply K5 in Hidin; congruence|reflexivity]. }
  split; [cbn [out_ok]; now rewrite Es|]. exists A', own'. cbn [spec_next]. rewrite Es.
  apply mkInv; fields.
  - exact R.
  - pose proof (i_used _ _ _ _ _ _ I). lia.
  - intros d op. subst st'. cbn [st_queue]. rewrite queue_enqueue. destruct (N.eqb_spec d (id mod sc_disks c)) as [->|].
    + intros Hop. apply in_app_or in Hop. destruct Hop as [Hop|[<-|[]]]; [eapply i_q; eauto|]. cbn [op_id].
      eapply inv_lt; [exact I|]. eapply i_own; [exact I|]. now apply K5.
    + eapply i_q; eauto.
  - intros x o Ho. unfold own' in Ho. destruct (in_dec N.eq_dec x (e_chain e)); [discriminate|]. apply F3. split; [|assumption].
    eapply i_own; eauto.
  - subst st'. cbn [st_cat enqueue]. eapply Forall2_impl; [|apply Forall2_remove; apply (i_cat _ _ _ _ _ _ I)].
    intros x y (Hxy & Hne). eapply cat_ok_frame; [|exact Hxy].
    intros z Hz. destruct Hxy as (_ & _ & _ & _ & (_ & Ho) & _). eapply Hother; [now apply Ho|congruence].
  - apply NoDup_map_filter. apply (i_nodup _ _ _ _ _ _ I).
  - intros w. pose proof (i_w _ _ _ _ _ _ I w) as Iw. destruct (sp_w sp w); [|exact Iw].
    eapply write_ok_frame; [| |exact Iw]; [reflexivity|]. intros z Hz.
    destruct Iw as (_ & _ & (_ & Ho) & _). eapply Hother; [now apply Ho|discriminate].
  - intros r. cbn [sp_r]. pose proof (i_r _ _ _ _ _ _ I r) as Ir.
    destruct (sp_r sp r) as [|cu' d' p' s'|] eqn:Er; auto.
    + intros k d. rewrite PD. apply Ir.
    + destruct (N.eqb_spec cu' cu) as [->|Hne].
      * destruct (finishedb (sc_per c) d' p' s') eqn:Ef; [|exact Logic.I]. apply finishedb_spec in Ef.
        intros k d. rewrite PD. eapply finished_idle; eauto.
      * eapply read_ok_frame; [| | | |exact Ir]; try reflexivity; [exact (PD r)| |].
        -- subst st'. cbn [st_cat enqueue]. now apply cat_find_remove.
        -- cbn [sp_live]. now apply sp_find_remove.
Qed.

Lemma disk_ok c max sp st A own d : cfg_ok c max -> inv c max sp st A own ->
  step_ok c max sp st (EvDisk d) (disk_step c st d).
Proof.
  intros C I. pose proof C as (Hd & Hp & Hw & Hm). unfold disk_step.
  destruct (st_queue st d) as [|op q] eqn:Eq; [exact Logic.I|].
  assert (Hlast : op_id op =? seg_last c = false).
  { apply N.eqb_neq. assert (H : op_id op < max) by (eapply i_q; [exact I|]; rewrite Eq; now left).
    unfold seg_last, MAXSEGMENTS, W32 in *. lia. }
  destruct op as [id s|id r k]; cbn [op_id] in Hlast; rewrite Hlast.
  - set (st' := mkSt _ _ _ _ _ _).
    assert (LG : forall x, logical c st' x = logical c st x).
    { intros x. unfold logical. cbv zeta. subst st'. cbn [st_queue st_file].
      destruct (N.eq_dec (x mod sc_disks c) d) as [Ex|Ex].
      - rewrite Ex, !upd_same, Eq. cbn [after]. unfold upd. rewrite (N.eqb_sym (x / sc_disks c)). reflexivity.
      - now rewrite !upd_other. }
    assert (PD : forall r k d', pending c st' r k d' = pending c st r k d').
    { intros r k d'. unfold pending. subst st'. cbn [st_queue st_file].
      destruct (N.eq_dec d' d) as [->|]; [now rewrite !upd_same, Eq|now rewrite !upd_other]. }
    split; [reflexivity|]. exists A, own. cbn [spec_next]. apply mkInv; fields.
    + apply (i_mm _ _ _ _ _ _ I).
    + apply (i_used _ _ _ _ _ _ I).
    + intros d' op. subst st'. cbn [st_queue]. unfold upd. destruct (N.eqb_spec d' d) as [->|]; [|eapply i_q; eauto].
      intros Hop. eapply i_q; [exact I|]. rewrite Eq. now right.
    + apply (i_own _ _ _ _ _ _ I).
    + subst st'. cbn [st_cat]. eapply Forall2_impl; [|apply (i_cat _ _ _ _ _ _ I)]. intros x y Hxy. eapply cat_ok_frame; [|exact Hxy].
      intros z Hz. split; [reflexivity|apply LG].
    + apply (i_nodup _ _ _ _ _ _ I).
    + intros w. pose proof (i_w _ _ _ _ _ _ I w) as Iw. destruct (sp_w sp w); [|exact Iw].
      eapply write_ok_frame; [| |exact Iw]; [reflexivity|]. intros z Hz. split; [reflexivity|apply LG].
    + eapply reads_frame; [| | | |apply (i_r _ _ _ _ _ _ I)]; try reflexivity; [exact PD|]. intros; split; reflexivity.
  - cbv zeta. set (v := match st_file st d (id / sc_disks c) with Some s => s | None => rs_cache (st_rs st r) k end).
    set (st' := mkSt _ _ _ _ _ _).
    assert (LG : forall x, logical c st' x = logical c st x).
    { intros x. unfold logical. cbv zeta. subst st'. cbn [st_queue st_file].
      destruct (N.eq_dec (x mod sc_disks c) d) as [Ex|Ex].
      - rewrite Ex, !upd_same, Eq. reflexivity.
      - now rewrite !upd_other. }
    assert (PD : forall r' k' d', pending c st r' k' d' =
       (if (d' =? d) && ((r =? r') && (k =? k')) then [st_file st d (id / sc_disks c)] else []) ++ pending c st' r' k' d').
    { intros r' k' d'. unfold pending. subst st'. cbn [st_queue st_file].
      destruct (N.eqb_spec d' d) as [->|]; [|now rewrite upd_other].
      rewrite upd_same, Eq. reflexivity. }
    split; [reflexivity|]. exists A, own. cbn [spec_next]. apply mkInv; fields.
    + apply (i_mm _ _ _ _ _ _ I).
    + apply (i_used _ _ _ _ _ _ I).
    + intros d' op. subst st'. cbn [st_queue]. unfold upd. destruct (N.eqb_spec d' d) as [->|]; [|eapply i_q; eauto].
      intros Hop. eapply i_q; [exact I|]. rewrite Eq. now right.
    + apply (i_own _ _ _ _ _ _ I).
    + subst st'. cbn [st_cat]. eapply Forall2_impl; [|apply (i_cat _ _ _ _ _ _ I)]. intros x y Hxy. eapply cat_ok_frame; [|exact Hxy].
      intros z Hz. split; [reflexivity|apply LG].
    + apply (i_nodup _ _ _ _ _ _ I).
    + intros w. pose proof (i_w _ _ _ _ _ _ I w) as Iw. destruct (sp_w sp w); [|exact Iw].
      eapply write_ok_frame; [| |exact Iw]; [reflexivity|]. intros z Hz. split; [reflexivity|apply LG].
    + intros r'. pose proof (i_r _ _ _ _ _ _ I r') as Ir.
      destruct (N.eq_dec r' r) as [->|Hne].
      * assert (Srs : st_rs st' r = mkRs (rs_entry (st_rs st r)) (rs_next (st_rs st r)) (rs_tocache (st_rs st r)) (rs_ri (st_rs st r))
            (rs_wi (st_rs st r)) (upd (rs_ready (st_rs st r)) k true) (upd (rs_cache (st_rs st r)) k v)).
        { subst st'. cbn [st_rs]. now rewrite upd_same. }
        pose proof (PD r k d) as PDd. rewrite !N.eqb_refl in PDd. cbn [andb app] in PDd.
        destruct (sp_r sp r) as [|cu data pos started|]; auto.
        -- specialize (Ir k d). rewrite PDd in Ir. discriminate.
        -- destruct Ir as (e & H1 & H2 & H3 & H4 & H5 & H6 & H7 & H8 & H9 & H10 & H11 & H12).
           exists e. rewrite Srs. cbn [rs_entry rs_next rs_tocache rs_ri rs_wi].
           do 10 (split; [assumption|]). split.
           ++ intros j Hj1 Hj2. destruct (H11 j Hj1 Hj2) as [(S1 & S2 & S3)|(S1 & d1 & s1 & S2 & S3 & S4)].
              ** left. rewrite Srs. cbn [rs_ready rs_cache].
                 assert (Hk : j mod READ_CACHE <> k).
                 { intros Ek. specialize (S3 d). rewrite Ek, PDd in S3. discriminate. }
                 rewrite !upd_other by exact Hk. split; [exact S1|]. split; [exact S2|].
                 intros d'. specialize (S3 d'). rewrite PD in S3. now apply app_eq_nil in S3.
              ** destruct (N.eq_dec (j mod READ_CACHE) k) as [Ek|Hk].
                 --- left. rewrite Srs. cbn [rs_ready rs_cache]. rewrite Ek, !upd_same. split; [reflexivity|].
                     assert (d1 = d). { destruct (N.eq_dec d1 d); [assumption|]. assert (X : pending c st r (j mod READ_CACHE) d = []) by (apply S4; congruence).
                       rewrite Ek, PDd in X. discriminate. }
                     subst d1. rewrite Ek in S2. rewrite PDd in S2. injection S2 as Ef Ep.
                     split; [unfold v; now rewrite Ef|]. intros d'. destruct (N.eq_dec d' d) as [->|Hd']; [exact Ep|].
                     specialize (S4 d' Hd'). rewrite Ek, PD in S4. now apply app_eq_nil in S4.
                 --- right. rewrite Srs. cbn [rs_ready]. rewrite upd_other by exact Hk. split; [exact S1|].
                     assert (PD' : forall d', pending c st r (j mod READ_CACHE) d' = pending c st' r (j mod READ_CACHE) d').
                     { intros d'. rewrite PD. destruct (N.eqb_spec k (j mod READ_CACHE)); [congruence|]. now rewrite !andb_false_r. }
                     exists d1, s1. rewrite <- PD'. split; [exact S2|]. split; [exact S3|]. intros d' Hd'. rewrite <- PD'. now apply S4.
           ++ intros k' Hk' d'. specialize (H12 k' Hk' d'). rewrite PD in H12. now apply app_eq_nil in H12.
      * assert (PD' : forall k' d', pending c st' r' k' d' = pending c st r' k' d').
        { intros k' d'. rewrite PD. destruct (N.eqb_spec r r'); [congruence|]. cbn [andb]. now rewrite andb_false_r. }
        destruct (sp_r sp r') as [|cu' d' p' s'|]; auto.
        -- intros k' d'. rewrite PD'. apply Ir.
        -- eapply read_ok_frame; [| | | |exact Ir]; try reflexivity; [subst st'; cbn [st_rs]; now rewrite upd_other|exact PD'].
Qed.

Lemma step_inv c max sp st A own e : cfg_ok c max -> inv c max sp st A own -> legal (sc_per c) sp e ->
  step_ok c max sp st e (step c st e).
Proof.
  intros C I L. destruct e; cbn [step].
  - eapply push_ok; eauto.
  - eapply push_segment_ok; eauto.
  - eapply open_ok; eauto.
  - eapply fetch_ok; eauto.
  - eapply take_ok; eauto.
  - eapply remove_ok; eauto.
  - eapply disk_ok; eauto.
Qed.

Lemma inv_start c max junk : max <= MAXSEGMENTS -> inv c max spec_init (st_init max junk) [] (fun _ => None).
Proof.
  intros Hm. constructor; cbn.
  - now apply refines_init.
  - reflexivity.
  - intros d op [].
  - discriminate.
  - constructor.
  - constructor.
  - intros w. unfold len. cbn [length]. lia.
  - intros r k d. reflexivity.
Qed.

Lemma reach_inv c max sp st : cfg_ok c max -> reach c max sp st -> exists A own, inv c max sp st A own.
Proof.
  intros C. induction 1 as [junk|sp st e st' o R IH L E].
  - exists [], (fun _ => None). apply inv_start. apply C.
  - destruct IH as (A & own & I). pose proof (step_inv c max sp st A own e C I L) as S. rewrite E in S. apply S.
Qed.

(** ** Putting the pieces together *)
Lemma push_all_piece per data i : 0 < per -> 0 < len data -> i < segs_needed per (len data) ->
  push_all_buf per data (segs_needed per (len data)) i = piece per data i.
Proof.
  intros Hp Hs Hi. unfold push_all_buf. cbv zeta. fold (len data).
  replace (i =? segs_needed per (len data) - 1) with (i + 1 =? segs_needed per (len data)) by lia.
  rewrite <- (piece_size per (len data) i (segs_needed per (len data)) Hp Hs eq_refl Hi).
  unfold piece. destruct (N.min_spec per (len data - i * per)) as [(H1 & ->)|(H1 & ->)]; [reflexivity|].
  rewrite !firstn_all2; [reflexivity| |]; rewrite skipn_length; unfold len in *; lia.
Qed.
Lemma skipn_twice {T} (l : list T) a b : skipn a (skipn b l) = skipn (b + a) l.
Proof. revert l. induction b as [|b IH]; intros l; [reflexivity|]. destruct l; [now rewrite !skipn_nil|apply IH]. Qed.
Lemma write_at_piece per data blank k : length blank = length data -> (k <= length data)%nat ->
  write_at (firstn k data ++ skipn k blank) k (firstn per (skipn k data)) = firstn (k + per) data ++ skipn (k + per) blank.
Proof.
  intros Hb Hk. unfold write_at. rewrite firstn_app, firstn_firstn, firstn_length, Nat.min_id, (Nat.min_l k (length data)) by lia.
  rewrite Nat.sub_diag. cbn [firstn]. rewrite app_nil_r, skipn_app, firstn_length, firstn_length, skipn_length.
  rewrite (skipn_all2 (firstn k data)) by (rewrite firstn_length; lia). cbn [app].
  rewrite (Nat.min_l k (length data)) by lia.
  replace (k + Nat.min per (length data - k) - k)%nat with (Nat.min per (length data - k)) by lia.
  rewrite skipn_twice, app_assoc. f_equal.
  - rewrite <- (firstn_skipn k (firstn (k + per) data)). f_equal.
    + rewrite firstn_firstn. f_equal. lia.
    + rewrite skipn_firstn_comm. f_equal. lia.
  - destruct (Nat.min_spec per (length data - k)) as [(H1 & ->)|(H1 & ->)]; [f_equal; lia|].
    rewrite !skipn_all2; [reflexivity| |]; lia.
Qed.
Lemma read_all_loop_spec per data blank : 0 < per -> length blank = length data -> forall m i total,
  (i + N.of_nat m) * per < len data + per -> total = N.min (i * per) (len data) ->
  read_all_loop per i (map (fun j => piece per data (i + N.of_nat j)) (seq 0 m)) (firstn (N.to_nat (i * per)) data ++ skipn (N.to_nat (i * per)) blank) total
  = (firstn (N.to_nat ((i + N.of_nat m) * per)) data ++ skipn (N.to_nat ((i + N.of_nat m) * per)) blank, N.min ((i + N.of_nat m) * per) (len data)).
Proof.
  intros Hp Hb. induction m as [|m IH]; intros i total H1 Ht.
  - cbn [seq map read_all_loop]. replace (i + N.of_nat 0) with i by lia. now rewrite Ht.
  - cbn [seq map read_all_loop]. replace (i + N.of_nat 0) with i by lia.
    assert (Hi : i * per < len data) by nia.
    assert (W : write_at (firstn (N.to_nat (i * per)) data ++ skipn (N.to_nat (i * per)) blank) (N.to_nat (i * per)) (piece per data i)
      = firstn (N.to_nat ((i + 1) * per)) data ++ skipn (N.to_nat ((i + 1) * per)) blank).
    { unfold piece. rewrite write_at_piece by (unfold len in *; lia).
      replace (N.to_nat (i * per) + N.to_nat per)%nat with (N.to_nat ((i + 1) * per)) by nia. reflexivity. }
    rewrite W. clear W.
    rewrite <- seq_shift, map_map.
    replace (map (fun x => piece per data (i + N.of_nat (S x))) (seq 0 m)) with (map (fun j => piece per data (i + 1 + N.of_nat j)) (seq 0 m)).
    2:{ apply map_ext. intros a. f_equal. lia. }
    rewrite IH.
    + replace (i + 1 + N.of_nat m) with (i + N.of_nat (S m)) by lia. reflexivity.
    + replace (i + 1 + N.of_nat m) with (i + N.of_nat (S m)) by lia. exact H1.
    + pose proof (piece_len per data i Hp) as PL. unfold len in PL at 1. rewrite PL, Ht. nia.
Qed.
Lemma pieces_make_the_bundle : forall per data blank, 0 < per -> 0 < len data -> length blank = length data ->
  let n := segs_needed per (len data) in
  (forall i, i < n -> push_all_buf per data n i = piece per data i /\
     len (push_all_buf per data n i) = N.min per (len data - i * per)) /\
  read_all per (len data) blank (map (fun i => piece per data (N.of_nat i)) (seq 0 (N.to_nat n))) = (data, true).
Proof.
  intros per data blank Hp Hs Hb n. destruct (segs_bounds per (len data) Hp Hs) as (B1 & B2 & B3). fold n in B1, B2, B3. split.
  - intros i Hi. rewrite push_all_piece by assumption. split; [reflexivity|now apply piece_len].
  - unfold read_all. pose proof (read_all_loop_spec per data blank Hp Hb (N.to_nat n) 0 0) as R.
    replace (0 + N.of_nat (N.to_nat n)) with n in R by lia. rewrite N.mul_0_l in R. change (N.to_nat 0) with 0%nat in R. cbn [firstn skipn app] in R.
    change (fun j : nat => piece per data (0 + N.of_nat j)) with (fun j : nat => piece per data (N.of_nat j)) in R.
    rewrite R by nia.
    rewrite firstn_all2, skipn_all2 by (unfold len in *; lia). rewrite app_nil_r. f_equal. lia.
Qed.

(** ** Progress *)
Lemma disk_can_step c max sp st A own d : cfg_ok c max -> inv c max sp st A own -> st_queue st d <> [] ->
  exists st', step c st (EvDisk d) = Done st' ONone /\
     length (st_queue st d) = S (length (st_queue st' d)) /\ forall d', d' <> d -> st_queue st' d' = st_queue st d'.
Proof.
  intros (_ & _ & Hw & Hm) I Hq. cbn [step]. unfold disk_step. destruct (st_queue st d) as [|op q] eqn:Eq; [congruence|].
  assert (Hlast : op_id op =? seg_last c = false).
  { apply N.eqb_neq. assert (H : op_id op < max) by (eapply i_q; [exact I|]; rewrite Eq; now left).
    unfold seg_last, MAXSEGMENTS, W32 in *. lia. }
  destruct op as [id s|id r k]; cbn [op_id] in Hlast; rewrite Hlast; eexists; (split; [reflexivity|]); cbn [st_queue]; rewrite upd_same;
    (split; [reflexivity|]); intros d' Hd'; now rewrite upd_other.
Qed.
Lemma quiet_progress c max sp st A own e : cfg_ok c max -> inv c max sp st A own -> (forall d, st_queue st d = []) ->
  legal (sc_per c) sp e ->
  match e with
  | EvDisk _ => True
  | EvFetch r | EvTake r =>
    (exists st', step c st (EvFetch r) = Done st' ONone) \/ (exists st' bs, step c st (EvTake r) = Done st' (OBytes bs))
  | _ => step c st e <> Blocked
  end.
Proof.
  intros C I Hq L.
  assert (Hnf : forall d, queue_full st d = false) by (intros d; unfold queue_full; rewrite Hq; reflexivity).
  assert (Hread : forall r, legal (sc_per c) sp (EvTake r) ->
    (exists st', step c st (EvFetch r) = Done st' ONone) \/ (exists st' bs, step c st (EvTake r) = Done st' (OBytes bs))).
  { intros r Lr. pose proof Lr as Lr2. cbn [legal] in Lr2.
    destruct (sp_r sp r) as [|cu data pos started|] eqn:Er; try contradiction.
    destruct (reading_facts _ _ _ _ _ _ _ _ _ _ _ I Er) as (e0 & Ee & Ok & Rok & Ec & Es).
    pose proof Ok as (_ & _ & _ & K4 & K5 & _). cbn [fst snd] in K4, K5. pose proof (chain_short _ _ _ _ _ _ _ _ C I K5) as Hshort.
    pose proof (take_ok c max sp st A own r C I Lr) as T. pose proof (fetch_ok c max sp st A own r C I Lr) as F.
    cbn [step]. unfold fetch, take in *. cbv zeta in *. rewrite Ee in *.
    destruct (want_fetch (st_rs st r) e0) eqn:Ew.
    - left. destruct (nth_error (e_chain e0) (N.to_nat (rs_tocache (st_rs st r)))); [|destruct F]. rewrite Hnf. eexists. reflexivity.
    - right. destruct Rok as (e2 & H1 & H2 & H3 & H4 & H5 & H6 & H7 & H8 & H9 & H10 & H11 & H12).
      assert (e2 = e0) by congruence. subst e2.
      unfold want_fetch in Ew. fold (len (e_chain e0)) in Ew. rewrite H4, diff_small in Ew by lia.
      assert (Htc : pos < rs_tocache (st_rs st r)) by (unfold READ_CACHE in *; lia).
      rewrite H8 in *. destruct (H11 pos ltac:(lia) Htc) as [(S1 & _)|(S1 & d & s & S2 & _)].
      + rewrite S1 in *. cbn [negb] in *.
        destruct (N.of_nat (length (e_chain e0)) <? inc32 (rs_next (st_rs st r))); [destruct T|]. eexists. eexists. reflexivity.
      + unfold pending in S2. rewrite Hq in S2. discriminate. }
  destruct e; try exact Logic.I; try (now apply Hread); cbn [step].
  - unfold push. cbv zeta. destruct (alloc_segments _ _ _) as [[m [ids|]]|]; discriminate.
  - unfold push_segment. cbv zeta. destruct (_ <=? _); [discriminate|]. destruct (nth_error _ _); [|discriminate].
    rewrite Hnf. destruct (_ <? _); discriminate.
  - unfold open_read. destruct (cat_find _ _); discriminate.
  - unfold remove_bundle. destruct (cat_find _ _); [|discriminate]. destruct (e_chain e); [discriminate|]. cbv zeta. rewrite Hnf.
    destruct (free_list _ _) as [[]|]; discriminate.
Qed.
