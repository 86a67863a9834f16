(** C39: loading, editing and rendering BPv6 bundles. *)
From Coq Require Import NArith ZArith List Bool Lia ZifyBool ZifyN.
From Verif Require Import Base M_FragmentSet M_Sdnv M_Acs M_Uri M_Bpv6Block M_BundleV6 S_FragmentSet S_Acs S_Sdnv S_Uri S_Bpv6 S_BundleV6 L_Sdnv P_Sdnv L_SdnvRead L_Acs
  L_Uri L_Bpv6Read L_Bpv6Load L_Bpv6Write L_Bpv6Trip L_BundleV6.
Import ListNotations.
Open Scope N_scope.

(** Loading succeeds exactly on the byte strings that are a primary block and one or more blocks, the last of which and no
    other has the last-block flag, all with data of the format of their type; the view then says what the bytes say. *)
Theorem C39_load_is_exact : forall last bs v, Forall is_byte bs -> (load last false bs = Some (Some v) <-> wire_bundle v bs /\ bundle_data last v).
Proof. intros last bs v Hb. now apply load_exact. Qed.
Print Assumptions C39_load_is_exact.
Definition ex_primary : list N := [6; 144; 16; 13; 1; 2; 3; 4; 0; 0; 0; 0; 129; 0; 1; 60; 0].
Definition ex_bundle : list N := ex_primary ++ [10; 1; 5; 9; 105; 112; 110; 58] ++ [20; 1; 1; 77] ++ [1; 8; 3; 104; 101; 121].
Definition ex_view : view :=
  mkView (mkPrim 2064 13 (1, 2) (3, 4) (0, 0) (0, 0) 128 1 60 0 0) ex_primary false
    [mkCbv (mkBlock 10 1 5 (Some [9; 105; 112; 110; 58]) (Cteb 9 [105; 112; 110; 58])) [10; 1; 5; 9; 105; 112; 110; 58] false false;
     mkCbv (mkBlock 20 1 1 (Some [77]) (Age 77)) [20; 1; 1; 77] false false;
     mkCbv (mkBlock 1 8 3 (Some [104; 101; 121]) Plain) [1; 8; 3; 104; 101; 121] false false] ex_bundle.
Example C39_load_is_exact_ex : load false false ex_bundle = Some (Some ex_view) /\
  load false false (ex_bundle ++ [0]) = Some None /\ load false false (ex_primary ++ [1; 0; 1; 5]) = Some None /\
  load false false (ex_primary ++ [20; 8; 2; 7; 7]) = Some None.
Proof. repeat split; vm_compute; reflexivity. Qed.

(** It is undefined exactly where parsing the primary block is; the blocks cannot make it undefined. *)
Theorem C39_load_undefined_iff : forall last bs, Forall is_byte bs -> (load last false bs = None <-> primary_runs_away bs).
Proof. intros last bs Hb. now apply load_undefined. Qed.
Print Assumptions C39_load_undefined_iff.
Example C39_load_undefined_iff_ex : load false false (6 :: repeat 255 32) = None /\ load false false (ex_primary ++ 1 :: repeat 255 40) = Some None.
Proof. split; vm_compute; reflexivity. Qed.

(** Rendering a view that can be sent, into a vector whose capacity suffices: the result is a well-formed bundle with the
    view's primary block and blocks, in order and without those marked for deletion; only the last-block flag and what the
    serializers insist on change. Its size is the one announced, unless there is an unchanged block with flags above 127. *)
Theorem C39_render_is_exact : forall v, view_ok v -> primary_fits v ->
  exists v', sent v v' /\ (kept (v_blocks v) <> [] -> wire_bundle v' (v_bytes v') /\ Forall is_byte (v_bytes v')) /\
    (Forall (fun c => rewritten c = c_dirty c) (kept (v_blocks v)) -> view_size v = Some (Some (N.of_nat (length (v_bytes v'))))) /\
    forall maxSize mem junk, (0 < maxSize)%nat -> (maxSize + 32 <= length mem)%nat -> (length (v_bytes v') + 32 <= length mem)%nat ->
      render v maxSize mem junk = Some (Some (Rendered v')).
Proof.
  intros v OK PF. destruct (render_ok v OK PF) as (v' & SE & SZ & RE). exists v'. split; [exact SE|]. split; [intros NE; exact (sent_wire_bundle v v' OK SE NE)|]. split; [exact SZ|].
  intros maxSize mem junk M0 M1 L. rewrite RE by (try assumption; lia). replace (Nat.leb (length (v_bytes v')) (length mem - 32)) with true by (symmetry; apply Nat.leb_le; lia). reflexivity.
Qed.
Print Assumptions C39_render_is_exact.
Example C39_render_is_exact_ex :
  let v := append_block (mkBlock 5 0 0 None (PrevHop 7 0)) (fst (delete_type 20 ex_view)) in
  let out := ex_primary ++ [10; 1; 5; 9; 105; 112; 110; 58] ++ [1; 0; 3; 104; 101; 121] ++ [5; 24; 8; 105; 112; 110; 0; 55; 46; 48; 0] in
  view_size v = Some (Some 42) /\ exists v', render v 100 (repeat 0 132) [] = Some (Some (Rendered v')) /\ v_bytes v' = out /\ load false false out = Some (Some v').
Proof. cbv zeta. split; [vm_compute; reflexivity|]. eexists. split; [vm_compute; reflexivity|]. split; vm_compute; reflexivity. Qed.

(** Otherwise, that is if the primary block was changed and is too long, both the size query and Render report failure. *)
Theorem C39_render_refuses_long_primary : forall v, view_ok v -> ~ primary_fits v ->
  view_size v = Some None /\
  forall maxSize mem junk, (0 < maxSize)%nat -> (maxSize + 32 <= length mem)%nat -> (161 <= length mem)%nat -> render v maxSize mem junk = Some None.
Proof. exact render_fails. Qed.
Print Assumptions C39_render_refuses_long_primary.
Example C39_render_refuses_long_primary_ex :
  let m := W64 - 1 in let v := modify_primary (mkPrim 1 0 (m, m) (m, m) (m, m) (m, m) m m m m m) ex_view in
  view_size v = Some None /\ render v 200 (repeat 0 232) [] = Some None.
Proof. cbv zeta. split; vm_compute; reflexivity. Qed.

(** Loading what was rendered gives the rendered view: nothing the receiver sees differs from what the sender has. *)
Theorem C39_render_then_load : forall last v maxSize mem junk v', view_ok v -> kept (v_blocks v) <> [] ->
  Forall (cbv_std last (admin_flag (p_flags (v_prim v)))) (kept (v_blocks v)) ->
  (forall n, view_size v = Some (Some n) -> (N.to_nat n + 32 <= length mem)%nat) -> (161 <= length mem)%nat ->
  Forall (fun c => rewritten c = c_dirty c) (kept (v_blocks v)) ->
  render v maxSize mem junk = Some (Some (Rendered v')) -> sent v v' /\ load last false (v_bytes v') = Some (Some v').
Proof.
  intros last v maxSize mem junk v' OK NE ST LM L161 RW E.
  assert (M : (0 < maxSize)%nat /\ (maxSize + 32 <= length mem)%nat).
  { unfold render in E. destruct (Nat.eqb_spec maxSize 0); [discriminate|]. destruct (Nat.ltb_spec (length mem) (maxSize + 32)); [discriminate|]. lia. }
  assert (PF : primary_fits v).
  { destruct (primary_ok v (proj1 OK)) as [(PF & _)|(NF & _)]; [exact PF|]. destruct (render_fails v OK NF) as (_ & F). rewrite F in E by lia. discriminate. }
  destruct (C39_render_is_exact v OK PF) as (v2 & SE & _ & SZ & RE). specialize (LM _ (SZ RW)). rewrite Nat2N.id in LM. rewrite RE in E by lia. injection E as <-. split; [exact SE|].
  now apply (sent_load last v v2).
Qed.
Print Assumptions C39_render_then_load.
Example C39_render_then_load_ex :
  let v := prepend_block (mkBlock 8 1 0 None (Meta 1 (Some (MUris [(1, 2); (30, 40)])))) (modify_primary (mkPrim 17 0 (8, 9) (3, 4) (0, 0) (0, 0) 128 1 60 1000 2000) ex_view) in
  exists v', render v 100 (repeat 0 200) [] = Some (Some (Rendered v')) /\ load true false (v_bytes v') = Some (Some v') /\
    map (fun c => k_content (c_blk c)) (v_blocks v') = Meta 1 (Some (MUris [(1, 2); (30, 40)])) :: map (fun c => k_content (c_blk c)) (v_blocks ex_view) /\
    p_len (v_prim v') = 17.
Proof. cbv zeta. eexists. split; [vm_compute; reflexivity|]. split; [vm_compute; reflexivity|]. split; vm_compute; reflexivity. Qed.

(** Loading and rendering without a change reproduces the bundle byte for byte, if the flags of every block take one byte. *)
Theorem C39_load_render_is_identity : forall last bs v maxSize mem junk, Forall is_byte bs -> load last false bs = Some (Some v) ->
  Forall (fun c => one_byte_flags (c_actual c)) (v_blocks v) ->
  (0 < maxSize)%nat -> (maxSize + 32 <= length mem)%nat -> (length bs + 32 <= length mem)%nat ->
  view_size v = Some (Some (N.of_nat (length bs))) /\ v_bytes v = bs /\ render v maxSize mem junk = Some (Some (Rendered v)).
Proof.
  intros last bs v maxSize mem junk Hb E OB M0 M1 L. apply load_exact in E; [|exact Hb]. destruct E as (WB & _). destruct (loaded_ok v bs WB Hb OB) as (OK & PF & K & NE).
  destruct (C39_render_is_exact v OK PF) as (v' & SE & _ & SZ & RE). pose proof (loaded_sent v bs v' WB OB SE) as ->. assert (VB : v_bytes v = bs) by (destruct WB as (? & ? & _ & _ & _ & _ & _ & VB); exact VB).
  rewrite VB in *. split; [|split; [reflexivity|now apply RE]]. apply SZ. rewrite K. clear - WB OB. destruct WB as (pb & cb & _ & _ & _ & _ & WB & _).
  induction WB as [c b1 (data & KD & KL & A & D0 & DL & WB) T|c b1 cs b2 (data & KD & KL & A & D0 & DL & WB) T H IH]; constructor; try (now apply IH; apply Forall_inv_tail in OB); try constructor;
    (pose proof (Forall_inv OB) as O; cbn beta in O; rewrite A in O; destruct (one_byte_form _ _ _ _ WB O) as (rest & _ & F & _); unfold rewritten; rewrite D0; cbn [orb]; apply N.ltb_ge; lia).
Qed.
Print Assumptions C39_load_render_is_identity.
Example C39_load_render_is_identity_ex : render ex_view 35 (repeat 0 67) [] = Some (Some (Rendered ex_view)) /\ view_size ex_view = Some (Some 35).
Proof. split; vm_compute; reflexivity. Qed.

(** What a program does with a view between loading and rendering. *)
Definition addable (b : block) : Prop := block_ok b /\ forall data, block_data b data -> N.of_nat (length data) < W64.
Inductive edited (v : view) : view -> Prop :=
| EdNone : edited v v
| EdAppend v1 b : edited v v1 -> addable b -> edited v (append_block b v1)
| EdPrepend v1 b : edited v v1 -> addable b -> edited v (prepend_block b v1)
| EdDelete v1 t : edited v v1 -> edited v (fst (delete_type t v1))
| EdMark v1 l c r : edited v v1 -> v_blocks v1 = l ++ c :: r -> edited v (with_blocks v1 (l ++ mark_deleted c :: r))
| EdBlock v1 l c r b : edited v v1 -> v_blocks v1 = l ++ c :: r -> addable b -> edited v (with_blocks v1 (l ++ modify_block b c :: r))
| EdPrimary v1 p : edited v v1 -> prim_ok p -> edited v (modify_primary p v1).
(** Whatever is done, in any order and number, the view can still be sent. *)
Theorem C39_edits_keep_views_sendable : forall last bs v v', Forall is_byte bs -> load last false bs = Some (Some v) ->
  Forall (fun c => one_byte_flags (c_actual c)) (v_blocks v) -> edited v v' -> view_ok v'.
Proof.
  intros last bs v v' Hb E OB ED. apply load_exact in E; [|exact Hb]. destruct E as (WB & _). destruct (loaded_ok v bs WB Hb OB) as (OK & _).
  assert (AD : forall b, addable b -> sendable (fresh b)) by (intros b (A & B); split; assumption).
  assert (KA : forall a b, kept (a ++ b) = kept a ++ kept b) by (intros; apply filter_app).
  induction ED as [|v1 b ED IH A|v1 b ED IH A|v1 t ED IH|v1 l c r ED IH EB|v1 l c r b ED IH EB A|v1 p ED IH A]; [exact OK|..]; destruct IH as (P & B).
  - split; [exact P|]. cbn [append_block with_blocks v_blocks]. rewrite KA. apply Forall_app. split; [exact B|]. constructor; [now apply AD|constructor].
  - split; [exact P|]. constructor; [now apply AD|exact B].
  - split; [exact P|]. cbn [delete_type fst with_blocks v_blocks]. apply Forall_forall. intros c H. apply (proj1 (Forall_forall _ _) B). apply filter_In in H. destruct H as (H & K). apply filter_In in H. apply filter_In. tauto.
  - split; [exact P|]. cbn [with_blocks v_blocks]. rewrite EB, KA in B. rewrite KA. apply Forall_app in B. destruct B as (B1 & B2). apply Forall_app. split; [exact B1|].
    unfold kept in *. cbn [filter mark_deleted c_del negb] in *. destruct (negb (c_del c)); [exact (Forall_inv_tail B2)|exact B2].
  - split; [exact P|]. cbn [with_blocks v_blocks]. rewrite EB, KA in B. rewrite KA. apply Forall_app in B. destruct B as (B1 & B2). apply Forall_app. split; [exact B1|].
    unfold kept in *. cbn [filter modify_block c_del] in *. destruct (negb (c_del c)); [|exact B2]. constructor; [split; apply A|exact (Forall_inv_tail B2)].
  - split; [exact A|exact B].
Qed.
Print Assumptions C39_edits_keep_views_sendable.
Example C39_edits_keep_views_sendable_ex : Forall (fun c => one_byte_flags (c_actual c)) (v_blocks ex_view) /\ addable (mkBlock 20 0 0 None (Age 5)) /\
  edited ex_view (append_block (mkBlock 20 0 0 None (Age 5)) (fst (delete_type 10 ex_view))).
Proof.
  assert (A : addable (mkBlock 20 0 0 None (Age 5))).
  { split; [repeat split; try (vm_compute; reflexivity); intros; discriminate|]. cbn [block_data k_content]. intros data H. unfold block_data in H. cbn [k_content] in H. inversion H as [| |? ? S| | | | |]; subst.
    pose proof (shortest_bound 5 data ltac:(vm_compute; reflexivity) S). unfold W64. lia. }
  split; [|split; [exact A|apply EdAppend; [apply EdDelete; apply EdNone|exact A]]].
  repeat (apply Forall_cons; [eexists _, _, _; split; [reflexivity|lia]|]). apply Forall_nil.
Qed.

(** Each edit changes what will be sent as it should: a block added comes last or first and is serialized anew, a marked
    block is left out, a changed block or primary block is the changed one and is serialized anew; the rest stays. *)
Theorem C39_edits_take_effect : forall v b p l c r,
  (exists n, v_blocks (append_block b v) = v_blocks v ++ [n] /\ c_blk n = b /\ rewritten n = true /\ kept [n] = [n]) /\
  (exists n, v_blocks (prepend_block b v) = n :: v_blocks v /\ c_blk n = b /\ rewritten n = true /\ kept [n] = [n]) /\
  (v_prim (append_block b v), v_pactual (append_block b v), v_pdirty (append_block b v)) = (v_prim v, v_pactual v, v_pdirty v) /\
  (v_prim (prepend_block b v), v_pactual (prepend_block b v), v_pdirty (prepend_block b v)) = (v_prim v, v_pactual v, v_pdirty v) /\
  (v_prim (modify_primary p v) = p /\ v_pdirty (modify_primary p v) = true /\ v_blocks (modify_primary p v) = v_blocks v) /\
  kept (l ++ mark_deleted c :: r) = kept l ++ kept r /\
  (c_blk (modify_block b c) = b /\ rewritten (modify_block b c) = true /\ c_del (modify_block b c) = c_del c).
Proof.
  intros v b p l c r. split; [exists (fresh b); repeat split|]. split; [exists (fresh b); repeat split|]. split; [reflexivity|]. split; [reflexivity|].
  split; [repeat split|]. split; [|repeat split]. unfold kept. rewrite filter_app. reflexivity.
Qed.
Print Assumptions C39_edits_take_effect.
Example C39_edits_take_effect_ex :
  map (fun c => k_type (c_blk c)) (v_blocks (append_block (mkBlock 5 0 0 None (PrevHop 7 0)) (prepend_block (mkBlock 20 0 0 None (Age 9)) ex_view))) = [20; 10; 20; 1; 5].
Proof. reflexivity. Qed.

(** A view is valid iff it has at most one payload block; the payload size is known iff it has exactly one, and for a bundle
    that was loaded it is the number of bytes of payload. *)
Theorem C39_payload_size_is_exact : forall v,
  (is_valid v = true <-> forall l1 a l2 d l3, v_blocks v = l1 ++ a :: l2 ++ d :: l3 -> ~ (k_type (c_blk a) = 1 /\ k_type (c_blk d) = 1)) /\
  (forall n, payload_size v = Some n <->
     exists l1 c l2, v_blocks v = l1 ++ c :: l2 /\ k_type (c_blk c) = 1 /\ k_len (c_blk c) = n /\ Forall (fun d => k_type (c_blk d) <> 1) (l1 ++ l2)) /\
  (forall last bs n, Forall is_byte bs -> load last false bs = Some (Some v) -> payload_size v = Some n ->
     exists c data, In c (v_blocks v) /\ k_type (c_blk c) = 1 /\ k_data (c_blk c) = Some data /\ n = N.of_nat (length data)).
Proof.
  intros v. set (f := fun c => k_type (c_blk c) =? 1).
  assert (Nil : forall l, filter f l = [] -> Forall (fun d => k_type (c_blk d) <> 1) l).
  { intros l E. apply Forall_forall. intros d Hd X. assert (In d (filter f l)) by (apply filter_In; split; [exact Hd|now apply N.eqb_eq]). rewrite E in H. destruct H. }
  assert (Sp : forall l c q, filter f l = c :: q -> exists l1 l2, l = l1 ++ c :: l2 /\ filter f l1 = [] /\ filter f l2 = q /\ k_type (c_blk c) = 1).
  { induction l as [|x l IH]; intros c q E; [discriminate|]. cbn in E. unfold f in E at 1. destruct (N.eqb_spec (k_type (c_blk x)) 1) as [X|X].
    - injection E as -> E. exists [], l. repeat split; assumption.
    - destruct (IH c q E) as (l1 & l2 & -> & E1 & E2 & E3). exists (x :: l1), l2. repeat split; try assumption. cbn. unfold f at 1. apply N.eqb_neq in X. now rewrite X. }
  assert (No : forall l, Forall (fun d => k_type (c_blk d) <> 1) l -> filter f l = []).
  { induction 1 as [|x l X _ IH]; [reflexivity|]. cbn. unfold f at 1. apply N.eqb_neq in X. now rewrite X. }
  assert (P : forall n, payload_size v = Some n <->
     exists l1 c l2, v_blocks v = l1 ++ c :: l2 /\ k_type (c_blk c) = 1 /\ k_len (c_blk c) = n /\ Forall (fun d => k_type (c_blk d) <> 1) (l1 ++ l2)).
  { intros n. unfold payload_size. fold f. split.
    - destruct (filter f (v_blocks v)) as [|c [|d q]] eqn:E; try discriminate. intros X. injection X as <-. destruct (Sp _ _ _ E) as (l1 & l2 & E0 & E1 & E2 & E3).
      exists l1, c, l2. repeat split; try assumption. apply Forall_app. split; apply Nil; assumption.
    - intros (l1 & c & l2 & E0 & E1 & E2 & E3). apply Forall_app in E3. destruct E3 as (N1 & N2). rewrite E0, filter_app, (No l1 N1). cbn. unfold f at 1.
      rewrite E1, N.eqb_refl, (No l2 N2), <- E2. reflexivity. }
  split; [|split; [exact P|]].
  - unfold is_valid, count_type. fold f. rewrite negb_true_iff, N.ltb_ge. split.
    + intros H l1 a l2 d l3 E (Ta & Td). rewrite E, filter_app in H. cbn [filter] in H. rewrite filter_app in H. cbn [filter] in H. change (f a) with (k_type (c_blk a) =? 1) in H. change (f d) with (k_type (c_blk d) =? 1) in H. rewrite Ta, Td, N.eqb_refl in H.
      rewrite app_length in H. cbn [length] in H. rewrite app_length in H. cbn [length] in H. lia.
    + intros H. destruct (filter f (v_blocks v)) as [|c [|d q]] eqn:E; cbn [length]; try lia. exfalso. destruct (Sp _ _ _ E) as (l1 & l2 & E0 & E1 & E2 & E3).
      destruct (Sp _ _ _ E2) as (l3 & l4 & -> & _ & _ & E4). apply (H l1 c l3 d l4 E0). split; assumption.
  - intros last bs n Hb E Hn. apply P in Hn. destruct Hn as (l1 & c & l2 & E0 & E1 & E2 & _). apply load_exact in E; [|exact Hb]. destruct E as (WB & _).
    destruct WB as (pb & cb & _ & _ & _ & _ & WB & _).
    assert (W : forall c, In c (v_blocks v) -> exists data, k_data (c_blk c) = Some data /\ k_len (c_blk c) = N.of_nat (length data)).
    { clear - WB. induction WB as [d b1 (data & KD & KL & _) T|d b1 cs b2 (data & KD & KL & _) T _ IH]; intros c [<-|H]; eauto. destruct H. }
    assert (Hc : In c (v_blocks v)) by (rewrite E0; apply in_or_app; right; now left). destruct (W c Hc) as (data & D1 & D2). exists c, data. repeat split; try assumption. congruence.
Qed.
Print Assumptions C39_payload_size_is_exact.
Example C39_payload_size_is_exact_ex : payload_size ex_view = Some 3 /\ is_valid ex_view = true /\
  is_valid (append_block (mkBlock 1 0 0 (Some []) Plain) ex_view) = false /\ payload_size (append_block (mkBlock 1 0 0 (Some []) Plain) ex_view) = None.
Proof. repeat split; vm_compute; reflexivity. Qed.

(** Deleting by type removes exactly the blocks of the type and returns their number. *)
Theorem C39_delete_by_type_is_exact : forall t v, let v' := fst (delete_type t v) in
  snd (delete_type t v) = count_type t v /\ count_type t v' = 0 /\
  (forall c, In c (v_blocks v') <-> In c (v_blocks v) /\ k_type (c_blk c) <> t) /\
  (length (v_blocks v') + N.to_nat (snd (delete_type t v)) = length (v_blocks v))%nat.
Proof.
  intros t v v'. split; [reflexivity|]. unfold v', count_type. cbn [delete_type fst snd with_blocks v_blocks].
  assert (G : forall c l, In c (filter (fun c => negb (k_type (c_blk c) =? t)) l) <-> In c l /\ k_type (c_blk c) <> t).
  { intros c l. rewrite filter_In. split; intros (A & B); (split; [exact A|]); [apply negb_true_iff, N.eqb_neq in B; exact B|apply negb_true_iff, N.eqb_neq; exact B]. }
  split; [|split; [intros c; apply G|]].
  - induction (v_blocks v) as [|c l IH]; [reflexivity|]. cbn [filter]. destruct (N.eqb_spec (k_type (c_blk c)) t) as [E|E]; cbn [negb]; [exact IH|]. cbn [filter]. apply N.eqb_neq in E. now rewrite E.
  - rewrite Nat2N.id. induction (v_blocks v) as [|c l IH]; [reflexivity|]. cbn [filter]. destruct (k_type (c_blk c) =? t); cbn [negb length]; lia.
Qed.
Print Assumptions C39_delete_by_type_is_exact.
Example C39_delete_by_type_is_exact_ex : snd (delete_type 20 ex_view) = 1 /\ map (fun c => k_type (c_blk c)) (v_blocks (fst (delete_type 20 ex_view))) = [10; 1].
Proof. split; vm_compute; reflexivity. Qed.

(** Rendering a loaded and unchanged bundle corrupts it if a block's flags are small but not in shortest form: the
    last-block flag is stored into the first of the two flag bytes. *)
Theorem C39_load_render_is_always_identity_refuted :
  exists bs v v', load false false bs = Some (Some v) /\ render v 100 (repeat 0 132) [] = Some (Some (Rendered v')) /\ v_bytes v' <> bs /\ load false false (v_bytes v') <> Some (Some v) /\
    k_data (c_blk (nth 0 (v_blocks v) (mkCbv (mkBlock 0 0 0 None Plain) [] false false))) = Some [104; 101; 121] /\ load false false (v_bytes v') = Some None.
Proof.
  exists (ex_primary ++ [1; 128; 8; 3; 104; 101; 121]). eexists _, _. split; [vm_compute; reflexivity|]. split; [vm_compute; reflexivity|]. split; [vm_compute; discriminate|].
  split; [vm_compute; discriminate|]. split; vm_compute; reflexivity.
Qed.
Print Assumptions C39_load_render_is_always_identity_refuted.
(** The announced size can be wrong: an unchanged block with flags above 127 counts with the size it arrived in, but is
    written anew, in shortest form. *)
Theorem C39_announced_size_is_always_right_refuted :
  exists bs v v', load false false bs = Some (Some v) /\ view_size v = Some (Some 25) /\ render v 100 (repeat 0 132) [] = Some (Some (Rendered v')) /\ length (v_bytes v') = 24%nat.
Proof.
  exists (ex_primary ++ [1; 129; 8; 128; 3; 104; 101; 121]). eexists _, _. split; [vm_compute; reflexivity|]. split; [vm_compute; reflexivity|]. split; vm_compute; reflexivity.
Qed.
Print Assumptions C39_announced_size_is_always_right_refuted.
(** A fragment can be larger than the original bundle (a piece one byte short of the payload, and two more fields in the
    primary block); the fragmenter renders it into a vector of the original's size, so growing the vector afterwards loses
    the end of the payload. *)
Theorem C39_fragments_fit_original_size_refuted :
  exists bs v c piece bytes, load false false bs = Some (Some v) /\ v_blocks v = [c] /\ k_data (c_blk c) = Some [1; 2; 3; 4; 5; 6; 7; 8; 9; 10] /\
    piece = frag_view v [] [] c 0 9 0 10 /\ view_size piece = Some (Some (N.of_nat (length bs) + 1)) /\
    render piece (length bs) (repeat 0 (length bs + 32)) (repeat 238 100) = Some (Some (RenderedMoved bytes)) /\
    skipn (length bytes - 9) bytes = [1; 2; 3; 4; 5; 6; 7; 8; 238].
Proof.
  exists (ex_primary ++ [1; 8; 10; 1; 2; 3; 4; 5; 6; 7; 8; 9; 10]). eexists _, _, _, _. split; [vm_compute; reflexivity|]. split; [vm_compute; reflexivity|]. split; [vm_compute; reflexivity|].
  split; [reflexivity|]. split; [vm_compute; reflexivity|]. split; vm_compute; reflexivity.
Qed.
Print Assumptions C39_fragments_fit_original_size_refuted.
(** A fragment of an administrative record cannot be received: its piece of the record is parsed as a whole record. *)
Theorem C39_fragments_of_records_load_refuted :
  exists bs v c p1 p2 v1 v2, load false false bs = Some (Some v) /\ v_blocks v = [c] /\ admin_flag (p_flags (v_prim v)) = true /\
    p1 = frag_view v [] [] c 0 8 0 14 /\ p2 = frag_view v [] [] c 8 14 8 14 /\
    render p1 100 (repeat 0 132) [] = Some (Some (Rendered v1)) /\ render p2 100 (repeat 0 132) [] = Some (Some (Rendered v2)) /\
    load false false (v_bytes v1) = Some None /\ load false false (v_bytes v2) = Some None.
Proof.
  exists ([6; 2; 12; 1; 2; 3; 4; 0; 0; 0; 0; 9; 1; 60; 0] ++ [1; 8; 14] ++ [32; 128; 3; 7; 129; 0; 1; 6; 105; 112; 110; 58; 49; 46]). eexists _, _, _, _, _, _.
  split; [vm_compute; reflexivity|]. split; [vm_compute; reflexivity|]. split; [vm_compute; reflexivity|]. split; [reflexivity|]. split; [reflexivity|].
  split; [vm_compute; reflexivity|]. split; [vm_compute; reflexivity|]. split; vm_compute; reflexivity.
Qed.
Print Assumptions C39_fragments_of_records_load_refuted.
