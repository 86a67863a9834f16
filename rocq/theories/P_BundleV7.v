(** C49: loading, editing and rendering BPv7 bundles (BundleViewV7). *)
From Coq Require Import NArith ZArith List Bool Lia ZifyBool ZifyN.
From Verif Require Import Base M_SegmentAlloc M_Intrin M_Sdnv M_Cbor M_Bpv6Block M_Bpv7Crc M_Bpv7Block M_Bpv7Admin M_Bpv7Sec M_BundleV7.
From Verif Require Import S_Sdnv S_Cbor S_Bpv7Crc S_Bpv7 S_Bpv7Admin S_Bpv7Sec S_BundleV7.
From Verif Require Import L_Intrin L_Cbor P_Cbor L_Bpv7Crc P_Bpv7Crc L_Bpv6Read L_Bpv6Write L_Bpv7Read L_Bpv7Write L_Bpv7Canon P_Bpv7Block P_Bpv7Canon L_Bpv7Admin P_Bpv7Admin L_Bpv7Sec P_Bpv7Sec L_BundleV7 L_BundleV7Render L_BundleV7Seen L_BundleV7Place.
Import ListNotations.
Open Scope N_scope.

Definition ex7_old (i : nat) : leftovers := ([], mkBsr7 ((false, 0), (false, 0), (false, 0), (false, 0)) 0 (0, 0) (0, 0) 0 0 false false).
Definition ex7_beyond : list N := repeat 0 32.
Definition ex7_primary : list N := [136; 7; 4; 0; 130; 2; 130; 2; 1; 130; 2; 130; 1; 1; 130; 1; 0; 130; 25; 3; 232; 5; 26; 5; 38; 92; 0].
Definition ex7_hops : list N := [133; 10; 2; 0; 0; 68; 130; 24; 30; 5].
Definition ex7_bcb : sec7 := mkSec7 [5] 2 0 (5, 7) [] [(1, VBytes [170])].
Definition ex7_bcb_block : list N := [133; 12; 4; 0; 0; 79] ++ csec ex7_bcb.
Definition ex7_secret : list N := [133; 7; 5; 0; 0; 67; 1; 2; 3].
Definition ex7_payload : list N := [133; 1; 1; 0; 0; 67; 104; 101; 121].
Definition ex7_bundle : list N := [159] ++ ex7_primary ++ ex7_hops ++ ex7_bcb_block ++ ex7_secret ++ ex7_payload ++ [255].
Definition ex7_prim : prim7 := mkPrim7 4 (2, 1) (1, 1) (0, 0) (1000, 5) 86400000 0 0 (0, 0) 0.
Definition ex7_clean (c : canon7) (x : content7) (a : list N) (enc : bool) : cbv7 := mkCbv7 c x a true false false enc.
Definition ex7_b2 : cbv7 := ex7_clean (mkCanon7 10 2 0 4 (Some [130; 24; 30; 5]) (0, 0) 0) (CExt (HopCount 30 5)) ex7_hops false.
Definition ex7_b4 : cbv7 := ex7_clean (mkCanon7 12 4 0 15 (Some (csec ex7_bcb)) (0, 0) 0) (CSec ex7_bcb) ex7_bcb_block false.
Definition ex7_b5 : cbv7 := ex7_clean (mkCanon7 7 5 0 3 (Some [1; 2; 3]) (0, 0) 0) CPlain ex7_secret true.
Definition ex7_b1 : cbv7 := ex7_clean (mkCanon7 1 1 0 3 (Some [104; 101; 121]) (0, 0) 0) CPlain ex7_payload false.
Definition ex7_view : bview7 := mkBview7 ex7_prim ex7_primary true false [ex7_b2; ex7_b4; ex7_b5; ex7_b1] 0xFFFFFFFFFFFFFFC8 [5] ex7_bundle.

(** Load accepts exactly the bundles of RFC 9171 with a payload block as the last block, and gives the view that says what the
    bundle says: 32 bytes of memory behind the bundle (here: 23) are what the buffers of the project have. *)
Theorem C49_load_is_exact : forall skip hw old beyond bs v, Forall is_octet bs -> Forall is_octet beyond -> (23 <= length beyond)%nat -> N.of_nat (length (bs ++ beyond)) < 2 ^ 64 ->
  (load7 skip hw old beyond false bs = Some (Some v) <-> bundle7_form (skip = false) old v bs).
Proof. intros skip hw old beyond bs v. apply load_ok. Qed.
Print Assumptions C49_load_is_exact.
Example C49_load_is_exact_ex : load7 false None ex7_old ex7_beyond false ex7_bundle = Some (Some ex7_view) /\
  load7 false None ex7_old ex7_beyond false ([159] ++ ex7_primary ++ ex7_hops ++ [255]) = Some None /\
  load7 false None ex7_old ex7_beyond false ([159] ++ ex7_primary ++ ex7_payload ++ ex7_hops ++ [255]) = Some None /\
  load7 false None ex7_old ex7_beyond false ([159] ++ ex7_primary ++ ex7_secret ++ ex7_payload ++ [255]) = Some None /\
  load7 false None ex7_old ex7_beyond false (ex7_bundle ++ [0]) = Some None.
Proof. repeat split; vm_compute; reflexivity. Qed.

(** Loading never leaves defined behaviour unless the bundle has a security block (type 11 or 12); see C48 for those. *)
Theorem C49_load_is_defined : forall skip hw old beyond primaryOnly bs, Forall is_octet bs -> Forall is_octet beyond -> (23 <= length beyond)%nat ->
  N.of_nat (length (bs ++ beyond)) < 2 ^ 64 -> load7 skip hw old beyond primaryOnly bs = None ->
  exists pre b post c, bs = pre ++ b ++ post /\ canon7_form False c b /\ (c_type c = 11 \/ c_type c = 12).
Proof. intros skip hw old beyond primaryOnly bs. apply load_def. Qed.
Print Assumptions C49_load_is_defined.
Example C49_load_is_defined_ex : Forall is_octet ex7_payload /\ load7 true None ex7_old ex7_beyond false ([159] ++ ex7_primary ++ [133; 10; 2; 0; 0; 68; 130; 24] ++ [255]) = Some None /\
  load7 false None ex7_old ex7_beyond false ([159] ++ ex7_primary) = Some None.
Proof. split; [repeat constructor|]. split; vm_compute; reflexivity. Qed.

(** Loading the primary block only looks no further than that. *)
Theorem C49_load_primary_only : forall skip hw old beyond bs v, Forall is_octet bs ->
  (load7 skip hw old beyond true bs = Some (Some v) <->
   exists rest, bs = [159] ++ w_pactual v ++ rest /\ primary7_form (0, 0) (w_prim v) (w_pactual v) /\ is_fragment (q_flags (w_prim v)) = false /\
     w_plive v = true /\ w_pdirty v = false /\ w_blocks v = [] /\ mask_form [] (w_mask v) /\ w_enc v = [] /\ w_bytes v = bs).
Proof.
  intros skip hw old beyond bs v HB. unfold load7. destruct bs as [|h r]; [split; [discriminate|intros (rest & E & _); discriminate]|].
  destruct (N.eqb_spec h 159) as [->|NH]; cbn [negb]. 2: { split; [discriminate|]. intros (rest & E & _). cbn in E. congruence. }
  assert (HR : Forall is_octet r) by (now inversion HB). destruct (C45_parse_is_exact hw zero_prim7 r HR) as (x & -> & K). cbn [q_off q_total zero_prim7] in K.
  assert (MI : mask_form [] free_init) by exact (proj1 (mask_loaded [] _) eq_refl). split.
  - destruct x as [(p, n)|]; [|discriminate]. rewrite isfrag_bit. destruct (is_fragment (q_flags p)) eqn:EF; [discriminate|]. intros [= <-]. destruct (proj1 (K p n) eq_refl) as (b & rest & -> & -> & PF). rewrite firstn_pref. exists rest.
    cbn [w_prim w_pactual w_plive w_pdirty w_blocks w_mask w_enc w_bytes]. auto 12.
  - intros (rest & EB & PF & NF & PL & PD & BL & M & EN & WB). cbn [app] in EB. injection EB as EB. assert (X : x = Some (w_prim v, length (w_pactual v))) by (apply K; eauto). rewrite X, isfrag_bit, NF. rewrite EB, firstn_pref.
    destruct v as [vp va vl vd bl m k vb]. cbn [w_prim w_pactual w_plive w_pdirty w_blocks w_mask w_enc w_bytes] in *. subst. do 3 f_equal. exact (proj2 (mask_loaded [] m) M).
Qed.
Print Assumptions C49_load_primary_only.
Example C49_load_primary_only_ex : load7 false None ex7_old ex7_beyond true ([159] ++ ex7_primary ++ [1; 2; 3]) =
  Some (Some (mkBview7 ex7_prim ex7_primary true false [] (2 ^ 64 - 4) [] ([159] ++ ex7_primary ++ [1; 2; 3]))).
Proof. vm_compute. reflexivity. Qed.

(** Rendering a view that can be sent and whose last block left is payload block number 1: the bundle has the view's primary
    block and blocks in order, without those marked for deletion; unchanged ones byte for byte, the others written in shortest
    form with a right checksum; numbers of deleted blocks are free again. The announced size is right if the last block of the
    list is a payload block. *)
Theorem C49_render_is_exact : forall j hw v, j < 256 -> view7_ok v -> ends_in_payload (kept7 (w_blocks v)) ->
  exists v', sent7 v v' /\
    ((exists f q, w_blocks v = f ++ [q] /\ block_type q = 1) -> view7_size (scan_any j) v = Some (Some (N.of_nat (length (w_bytes v'))))) /\
    forall maxSize mem junk, (0 < maxSize)%nat -> (maxSize + 32 <= length mem)%nat -> (length (w_bytes v') + 32 <= length mem)%nat ->
      render7 (scan_any j) hw v maxSize mem junk = Some (Some (Rendered7 v')).
Proof.
  intros j hw v J OK (front & pl & EK & T & N1). destruct (render_at_ok j hw J v front pl OK EK T N1) as (p & pa & front' & pl' & SE & F2 & FC & SZ & RE & _). cbv zeta in *. set (l' := front' ++ [pl']) in *.
  exists (with_bytes7 (view_of true p pa l' v) (all_bytes pa l')). split; [apply (SE true); reflexivity|]. split; [exact SZ|]. cbn [with_bytes7 w_bytes]. intros maxSize mem junk M0 M1 L. unfold render7.
  replace (Nat.eqb maxSize 0 || Nat.ltb (length mem) (maxSize + 32)) with false by (symmetry; apply orb_false_iff; split; [apply Nat.eqb_neq; lia|apply Nat.ltb_ge; lia]).
  assert (W0 : wok (length mem) (mem, 0%nat) []) by (split; [reflexivity|split; reflexivity]). destruct (RE true _ _ [] W0) as (w' & -> & (_ & P & F)); [cbn [length]; lia|]. rewrite set_live_id by exact FC. cbn [app] in P, F. rewrite F, P.
  replace (Nat.leb (length (all_bytes pa l')) (length mem - 32)) with true by (symmetry; apply Nat.leb_le; lia). reflexivity.
Qed.
Print Assumptions C49_render_is_exact.
Ltac easy7 := repeat first [reflexivity | discriminate | constructor | intro].
Definition ex7_prev : cbv7 := fresh7 (mkCanon7 6 3 1 0 None (0, 0) 1) (CExt (PrevNode (4, 0))).
Definition ex7_edit : bview7 := prepend7 (k_c ex7_prev) (k_x ex7_prev) (fst (delete_type7 10 ex7_view)).
Example C49_render_is_exact_ex : exists c1 c2 v', render7 (scan_any 9) None ex7_edit 100 (repeat 0 132) [] = Some (Some (Rendered7 v')) /\
  w_bytes v' = [159] ++ ex7_primary ++ [134; 6; 3; 1; 1; 69; 130; 2; 130; 4; 0; 66; c1; c2] ++ ex7_bcb_block ++ ex7_secret ++ ex7_payload ++ [255] /\
  view7_size (scan_any 9) ex7_edit = Some (Some 82) /\ next_free7 v' = 2.
Proof. eexists _, _, _. split; [vm_compute; reflexivity|]. split; [vm_compute; reflexivity|]. split; vm_compute; reflexivity. Qed.

(** Render reports failure if there is a last block but it is not payload block number 1. *)
Theorem C49_render_needs_payload : forall j hw v, j < 256 -> view7_ok v -> kept7 (w_blocks v) <> [] -> ~ ends_in_payload (kept7 (w_blocks v)) ->
  exists need, forall maxSize mem junk, (0 < maxSize)%nat -> (maxSize + 32 <= length mem)%nat -> (need <= length mem)%nat -> render7 (scan_any j) hw v maxSize mem junk = Some None.
Proof.
  intros j hw v J OK NE NP. destruct (primary_ok7 j hw J v OK) as (p & pa & SP & NF & _ & PW). destruct (blocks_refused j hw J (kept7 (w_blocks v)) (kept_del7 _) (proj2 (proj2 OK)) NE NP) as (need & K).
  exists (1 + length pa + need + 8)%nat. intros maxSize mem junk M0 M1 L. unfold render7. replace (Nat.eqb maxSize 0 || Nat.ltb (length mem) (maxSize + 32)) with false by (symmetry; apply orb_false_iff; split; [apply Nat.eqb_neq; lia|apply Nat.ltb_ge; lia]).
  assert (W0 : wok (length mem) (mem, 0%nat) []) by (split; [reflexivity|split; reflexivity]). unfold render_at7. destruct (put_bytes_writes [159] _ _ _ W0) as (w1 & -> & W1); [cbn [length]; lia|].
  destruct (PW _ _ _ W1) as (w2 & -> & W2); [cbn [length app]; lia|]. rewrite NF. destruct (K true false _ _ _ W2) as (l' & E); [rewrite !app_length; cbn [length app]; lia|]. fold (kept7 (w_blocks v)). rewrite E. reflexivity.
Qed.
Print Assumptions C49_render_needs_payload.
Example C49_render_needs_payload_ex : let v := append7 (k_c ex7_prev) (k_x ex7_prev) ex7_view in
  view7_ok v /\ kept7 (w_blocks v) <> [] /\ ~ ends_in_payload (kept7 (w_blocks v)) /\ render7 (scan_any 9) None v 200 (repeat 0 232) [] = Some None.
Proof.
  cbv zeta. split; [|split; [discriminate|split; [|vm_compute; reflexivity]]].
  - split; [reflexivity|]. split; [reflexivity|]. easy7.
  - intros (f & q & E & T & _). assert (X : q = ex7_prev) by (apply (f_equal (@rev cbv7)) in E; rewrite rev_app_distr in E; cbn in E; now injection E). subst q. discriminate T.
Qed.

(** A bundle that was loaded and rendered without a change comes out byte for byte, and the view is as before. *)
Lemma loaded_blocks P old admin keys : forall l i, blocks_form P old admin keys i l -> Forall clean7 l /\ Forall sendable7 l.
Proof.
  induction l as [|b l IH]; intros i F; [split; constructor|]. destruct F as ((_ & L & D & K & _) & F). destruct (IH _ F) as (I1 & I2). split; constructor; try assumption; [split; auto|]. unfold sendable7. now rewrite D.
Qed.
Lemma loaded_view P old v bs : bundle7_form P old v bs -> view7_ok v /\ ends_in_payload (kept7 (w_blocks v)) /\ kept7 (w_blocks v) = w_blocks v /\ filter k_del (w_blocks v) = [] /\ (exists f q, w_blocks v = f ++ [q] /\ block_type q = 1).
Proof.
  intros (_ & _ & _ & NF & PL & PD & PA & _ & _ & BF & _). destruct (loaded_blocks _ _ _ _ _ _ BF) as (CL & SE). destruct (clean_kept _ CL) as (K1 & K2). unfold view7_ok. rewrite PD, K1. destruct PA as (f & q & EB & T & N1 & _).
  split; [auto|]. split; [exists f, q; auto|]. split; [reflexivity|]. split; [exact K2|]. exists f, q. auto.
Qed.
Theorem C49_load_render_is_identity : forall j hw skip old beyond bs v maxSize mem junk, j < 256 -> Forall is_octet bs -> Forall is_octet beyond -> (23 <= length beyond)%nat ->
  N.of_nat (length (bs ++ beyond)) < 2 ^ 64 -> load7 skip hw old beyond false bs = Some (Some v) ->
  (0 < maxSize)%nat -> (maxSize + 32 <= length mem)%nat -> (length bs + 32 <= length mem)%nat ->
  view7_size (scan_any j) v = Some (Some (N.of_nat (length bs))) /\ w_bytes v = bs /\ render7 (scan_any j) hw v maxSize mem junk = Some (Some (Rendered7 v)).
Proof.
  intros j hw skip old beyond bs v maxSize mem junk J HB BO B23 HL E M0 M1 L. apply load_ok in E; try assumption. destruct (loaded_view _ _ _ _ E) as (OK & EP & K1 & K2 & LA).
  destruct (C49_render_is_exact j hw v J OK EP) as (v' & (SP & F2 & L1 & D1 & E1 & MS & EB) & SZ & RE). destruct E as (EQ & WB & _ & _ & PL & PD & _ & _ & _ & BF & _). destruct (loaded_blocks _ _ _ _ _ _ BF) as (CL & _).
  assert (X : v' = v).
  { unfold sent_primary7 in SP. rewrite PD in SP. destruct SP as (S1 & S2). rewrite K1 in F2. assert (S3 : w_blocks v' = w_blocks v). { clear - F2 CL. induction F2 as [|b b' l l' S F2 IH]; [reflexivity|]. inversion CL as [|? ? (D & _) CL']; subst. unfold sent_block7 in S. rewrite D in S. subst b'. f_equal. now apply IH. }
    assert (S4 : w_mask v' = w_mask v). { apply N.bits_inj. intros n. specialize (MS n). rewrite K2 in MS. cbn [map In] in MS. destruct (N.testbit (w_mask v') n), (N.testbit (w_mask v) n); intuition congruence. }
    rewrite S1, S3, <- EQ in EB. destruct v as [a1 a2 a3 a4 a5 a6 a7 a8], v' as [b1 b2 b3 b4 b5 b6 b7 b8]. cbn [w_prim w_pactual w_plive w_pdirty w_blocks w_mask w_enc w_bytes] in *. congruence. }
  subst v'. rewrite WB in *. split; [now apply SZ|]. split; [reflexivity|]. now apply RE.
Qed.
Print Assumptions C49_load_render_is_identity.
Example C49_load_render_is_identity_ex : render7 (scan_any 0) None ex7_view 77 (repeat 0 110) [] = Some (Some (Rendered7 ex7_view)) /\ view7_size (scan_any 0) ex7_view = Some (Some 78).
Proof. split; vm_compute; reflexivity. Qed.

(** What a sender rendered, the receiver loads, and sees what the sender's view says: members not sent are the receiver's, endpoint ids of
    node 0 are dtn:none, what is encrypted is opaque. The blocks have to be such that a receiver takes them (view7_readable). *)
Theorem C49_render_then_load : forall skip hw old beyond v v', view7_ok v -> view7_readable v -> sent7 v v' -> Forall is_octet beyond -> (23 <= length beyond)%nat ->
  N.of_nat (length (w_bytes v' ++ beyond)) < 2 ^ 64 ->
  exists m, load7 skip hw old beyond false (w_bytes v') = Some (Some (mkBview7 (primary_seen v v') (w_pactual v') true false
      (blocks_seen old 0 (kept7 (w_blocks v)) (w_blocks v')) m (encrypted_numbers (kept7 (w_blocks v))) (w_bytes v'))) /\ mask_form (w_blocks v') m.
Proof.
  intros skip hw old beyond v v' OK RD SE BO B23 HL. destruct (seen_form skip old v v' OK RD SE) as (m & BF & HO & M). exists m. split; [|exact M]. now apply load_ok.
Qed.
Print Assumptions C49_render_then_load.
Definition ex7_report : bsr7 := mkBsr7 ((true, 7), (false, 8), (false, 0), (false, 0)) 2 (0, 5) (1, 2) 3 4 false false.
Definition ex7_admin : bview7 := modify_primary7 (mkPrim7 2 (2, 1) (0, 9) (0, 0) (1, 2) 60 0 0 (0, 0) 2)
  (with_blocks7 ex7_edit [ex7_prev; ex7_b4; ex7_b5; modify7 (mkCanon7 1 1 0 0 None (0, 0) 2) (CAdmin (AdmReport ex7_report)) ex7_b1] (w_mask ex7_edit)).
Example C49_render_then_load_ex : view7_ok ex7_admin /\ view7_readable ex7_admin /\
  exists v' v2, render7 (scan_any 9) None ex7_admin 200 (repeat 0 232) [] = Some (Some (Rendered7 v')) /\ load7 false None ex7_old ex7_beyond false (w_bytes v') = Some (Some v2) /\
    map k_x (w_blocks v2) = [CExt (PrevNode (4, 0)); CSec ex7_bcb; CPlain; CAdmin (AdmReport (mkBsr7 ((true, 0), (false, 0), (false, 0), (false, 0)) 2 (0, 0) (1, 2) 0 0 false false))] /\
    q_src (w_prim v2) = (0, 0).
Proof.
  split; [split; [split; easy7|split; [reflexivity|easy7]]|]. split.
  - assert (B : bundle7_form (false = false) ex7_old ex7_view ex7_bundle) by (apply (C49_load_is_exact false None ex7_old ex7_beyond); [repeat constructor|repeat constructor|repeat constructor|reflexivity|vm_compute; reflexivity]).
    destruct B as (_ & _ & _ & _ & _ & _ & _ & _ & _ & B & _). cbn [blocks_form w_blocks ex7_view] in B. destruct B as (_ & (B1 & _ & _ & _ & _ & X1) & (B2 & _ & _ & _ & _ & X2) & _). cbn [k_enc ex7_clean k_c k_actual k_x] in *.
    assert (E5 : encrypted_numbers (kept7 (w_blocks ex7_admin)) = [5]) by reflexivity. unfold view7_readable. cbv zeta. rewrite E5.
    split; [eexists [_; _; _], _; split; [reflexivity|]; split; [reflexivity|]; split; [reflexivity|]; repeat constructor; discriminate|]. split; [repeat constructor; intros []|]. split; [|discriminate].
    constructor; [|constructor; [|constructor; [|constructor; [|constructor]]]]; unfold readable7; cbn.
    + split; [split; [discriminate|intros (_ & [E|[]]); discriminate E]|]. intros _. reflexivity.
    + split; [split; [discriminate|intros (H & _); now elim H]|]. split; [eapply form_verified; [|exact B1]; auto|]. split; [repeat constructor|]. destruct X1 as (d & CD & CF). exists (ex7_old 1), d. auto.
    + split; [split; [intros _; split; [discriminate|auto]|auto]|]. split; [eapply form_verified; [|exact B2]; auto|]. split; [repeat constructor|]. reflexivity.
    + split; [split; [discriminate|intros (_ & [E|[]]); discriminate E]|]. intros _. split; [reflexivity|]. split; [reflexivity|]. split; [intros b [= <-]; reflexivity|discriminate].
  - eexists _, _. split; [vm_compute; reflexivity|]. split; [vm_compute; reflexivity|]. split; vm_compute; reflexivity.
Qed.

(** RenderInPlace of a view whose last block is payload block number 1, unchanged and lying at the end of the bundle (so Load
    leaves it): if the padding takes what the bundle grows by, the bundle sent ends where the old one ended, nothing before its start
    is touched, and the payload was not moved; otherwise nothing happens at all. *)
Theorem C49_render_in_place_is_exact : forall j hw v front0 pl rest pad paddingLeft, j < 256 -> view7_ok v ->
  w_blocks v = front0 ++ [pl] -> block_type pl = 1 -> block_num pl = 1 -> k_del pl = false -> w_bytes v = rest ++ k_actual pl ++ [255] ->
  paddingLeft <= N.of_nat (length pad) -> N.of_nat (length (pad ++ w_bytes v)) + 10 < 2 ^ 64 -> exists v', sent7 v v' /\
  let new := N.of_nat (length (w_bytes v')) in let old := N.of_nat (length (w_bytes v)) in let mem := pad ++ w_bytes v in
  view7_size (scan_any j) v = Some (Some new) /\
  (old + paddingLeft < new -> render_in_place7 (scan_any j) hw v paddingLeft pad = Some (v, mem, false)) /\
  (new <= old + paddingLeft -> k_dirty pl = false -> (exists front', w_blocks v' = front' ++ [pl]) /\
     render_in_place7 (scan_any j) hw v paddingLeft pad = Some (v', firstn (length mem - length (w_bytes v')) mem ++ w_bytes v', true)).
Proof. intros j hw v front0 pl rest pad paddingLeft. apply in_place_ok. Qed.
Print Assumptions C49_render_in_place_is_exact.
Example C49_render_in_place_is_exact_ex :
  w_bytes ex7_edit = ([159] ++ ex7_primary ++ ex7_hops ++ ex7_bcb_block ++ ex7_secret) ++ k_actual ex7_b1 ++ [255] /\
  (exists v' mem, render_in_place7 (scan_any 9) None ex7_edit 4 [1; 2; 3; 4; 5] = Some (v', mem, true) /\ mem = 1 :: w_bytes v' /\ length (w_bytes v') = 82%nat) /\
  render_in_place7 (scan_any 9) None ex7_edit 3 [1; 2; 3; 4; 5] = Some (ex7_edit, [1; 2; 3; 4; 5] ++ ex7_bundle, false) /\
  exists v' mem, render_in_place7 (scan_any 9) None (fst (delete_type7 10 ex7_view)) 0 [1] = Some (v', mem, true) /\ mem = 1 :: firstn 10 ex7_bundle ++ w_bytes v' /\ length (w_bytes v') = 68%nat.
Proof. split; [reflexivity|]. split; [eexists _, _; split; [vm_compute; reflexivity|split; vm_compute; reflexivity]|]. split; [vm_compute; reflexivity|]. eexists _, _; split; [vm_compute; reflexivity|split; vm_compute; reflexivity]. Qed.

(** Bundles marked as fragments are never rendered. *)
Theorem C49_render_refuses_fragments : forall scan hw v, is_fragment (q_flags (w_prim v)) = true ->
  (forall maxSize mem junk r, render7 scan hw v maxSize mem junk <> Some (Some r)) /\
  (forall paddingLeft pad v' mem', render_in_place7 scan hw v paddingLeft pad <> Some (v', mem', true)).
Proof.
  intros scan hw v FR. assert (K : forall term w v1 o, render_at7 scan hw true term v w = Some (v1, o) -> o = None).
  { intros term w v1 o. unfold render_at7. destruct (put_bytes [159] w) as [w0|]; [|discriminate]. destruct (w_pdirty v).
    - destruct (prim7_write scan hw (w_prim v) w0) as [[(p, w1)|]|] eqn:E; cbn [option_map fst snd]; [|now intros [= <- <-]|discriminate].
      assert (F : q_flags p = q_flags (w_prim v)). { revert E. unfold prim7_write. destruct (prim7_body _ _ _) as [w2|]; [|discriminate]. destruct (crc_put _ _ _ _ _ _) as [[(c, w3)|]|]; cbn [bind2]; [|discriminate|discriminate]. now intros [= <- _]. }
      rewrite isfrag_bit, F, FR. now intros [= <- <-].
    - destruct (w_plive v); [|discriminate]. destruct (put_bytes (w_pactual v) w0) as [w1|]; [|discriminate]. rewrite isfrag_bit, FR. now intros [= <- <-]. }
  split.
  - intros maxSize mem junk r. unfold render7. destruct (_ || _); [discriminate|]. destruct (render_at7 scan hw true false v (mem, 0%nat)) as [(v1, o)|] eqn:E; [|discriminate]. apply K in E. subst o. discriminate.
  - intros paddingLeft pad v' mem' E. unfold render_in_place7 in E. destruct (view7_size scan v) as [[n|]|]; [|discriminate|discriminate]. destruct (rev (w_blocks v)) as [|pl r]; [discriminate|]. destruct (_ && _); [discriminate|]. destruct (_ <? n) in E; [discriminate|].
    set (tmp := repeat 0 _) in E. destruct (render_at7 scan hw true true v (tmp, 0%nat)) as [(v1, o)|] eqn:E1; [|discriminate]. apply K in E1. subst o. destruct (render_at7 scan hw false true v (tmp, 0%nat)); discriminate.
Qed.
Print Assumptions C49_render_refuses_fragments.
Example C49_render_refuses_fragments_ex : let v := modify_primary7 (mkPrim7 1 (2, 1) (1, 1) (0, 0) (1000, 5) 60 0 10 (0, 0) 1) ex7_view in
  is_fragment (q_flags (w_prim v)) = true /\ render7 (scan_any 0) None v 100 (repeat 0 132) [] = Some None /\ exists v' mem, render_in_place7 (scan_any 0) None v 10 (repeat 0 10) = Some (v', mem, false).
Proof. cbv zeta. split; [reflexivity|]. split; [vm_compute; reflexivity|]. eexists _, _. vm_compute. reflexivity. Qed.

(** It never succeeds if the payload block, or whatever is last, was changed. *)
Theorem C49_render_in_place_needs_unchanged_payload : forall scan hw v front pl paddingLeft pad v' mem', w_blocks v = front ++ [pl] -> k_del pl = false -> k_dirty pl = true ->
  render_in_place7 scan hw v paddingLeft pad <> Some (v', mem', true).
Proof.
  intros scan hw v front pl paddingLeft pad v' mem' EB ND D E.
  assert (B : forall l w x, snd x <> None -> render_blocks7 scan hw true true (l ++ [pl]) w = Some x -> False).
  { induction l as [|b l IH]; intros w x NX; cbn [app render_blocks7].
    - cbn [andb]. rewrite D. destruct (negb _); intros [= <-]; now apply NX.
    - destruct (l ++ [pl]) as [|b2 r] eqn:EL; [destruct l; discriminate|]. cbn [andb]. destruct (k_dirty b).
      + destruct (block7_write scan hw b w) as [[(c, w1)|]|]; [|intros [= <-]; now apply NX|discriminate]. destruct (Nat.ltb _ _); [intros [= <-]; now apply NX|].
        destruct (render_blocks7 scan hw true true (b2 :: r) w1) as [y|] eqn:E2; [|discriminate]. intros [= <-]. exact (IH _ y NX E2).
      + destruct (k_live b); [|discriminate]. destruct (put_bytes (k_actual b) w) as [w1|]; [|discriminate]. destruct (render_blocks7 scan hw true true (b2 :: r) w1) as [y|] eqn:E2; [|discriminate]. intros [= <-]. exact (IH _ y NX E2). }
  unfold render_in_place7 in E. destruct (view7_size scan v) as [[n|]|]; [|discriminate|discriminate]. rewrite EB, rev_app_distr in E. cbn [rev app] in E. destruct (_ && _); [discriminate|]. destruct (_ <? n) in E; [discriminate|].
  set (tmp := repeat 0 _) in E. destruct (render_at7 scan hw true true v (tmp, 0%nat)) as [(v1, o)|] eqn:E1; [|discriminate]. destruct o as [w|]; [|destruct (render_at7 scan hw false true v (tmp, 0%nat)); discriminate]. clear E. revert E1. unfold render_at7.
  destruct (put_bytes _ _) as [w0|]; [|discriminate]. match goal with |- match ?z with _ => _ end = _ -> _ => destruct z as [[((p, pa), w1)|]|]; [|discriminate|discriminate] end. destruct (q_isfrag (q_flags p)); [discriminate|].
  rewrite EB, filter_app. cbn [filter]. rewrite ND. cbn [negb]. destruct (render_blocks7 scan hw true true _ w1) as [y|] eqn:E2; [|discriminate]. destruct (snd y) as [(w2, b)|] eqn:E3; [intros _; apply (B _ _ _ ltac:(rewrite E3; discriminate) E2)|discriminate].
Qed.
Print Assumptions C49_render_in_place_needs_unchanged_payload.
Example C49_render_in_place_needs_unchanged_payload_ex : exists v' mem',
  render_in_place7 (scan_any 9) None (with_blocks7 ex7_view [ex7_b2; touch7 ex7_b1] 0) 32 (repeat 0 32) = Some (v', mem', false).
Proof. eexists _, _. vm_compute. reflexivity. Qed.

(** What a program does with a view between loading and rendering; a block added or changed is one that can be sent. *)
Definition addable7 (c : canon7) (x : content7) : Prop := canon7_ok c /\ c_crctype c <= 2 /\ content_ok c x.
Inductive edited7 (v : bview7) : bview7 -> Prop :=
| Ed7None : edited7 v v
| Ed7Append v1 c x : edited7 v v1 -> addable7 c x -> edited7 v (append7 c x v1)
| Ed7Prepend v1 c x : edited7 v v1 -> addable7 c x -> edited7 v (prepend7 c x v1)
| Ed7Insert v1 after c x n v2 : edited7 v v1 -> addable7 c x -> insert7 after c x n v1 = Some v2 -> edited7 v v2
| Ed7Delete v1 t : edited7 v v1 -> edited7 v (fst (delete_type7 t v1))
| Ed7Mark v1 l b r : edited7 v v1 -> w_blocks v1 = l ++ b :: r -> edited7 v (with_blocks7 v1 (l ++ mark7 b :: r) (w_mask v1))
| Ed7Block v1 l b r c x : edited7 v v1 -> w_blocks v1 = l ++ b :: r -> addable7 c (if k_enc b then CPlain else x) ->
    edited7 v (with_blocks7 v1 (l ++ modify7 c x b :: r) (w_mask v1))
| Ed7Primary v1 p : edited7 v v1 -> prim7_ok p -> q_crctype p <= 2 -> is_fragment (q_flags p) = false -> edited7 v (modify_primary7 p v1).
(** Inserting puts the block right after or before the first block with the number. *)
Lemma insert_at_ok after n b : forall l l', insert_at after n b l = Some l' <-> exists f x r, l = f ++ x :: r /\ block_num x = n /\ ~ In n (map block_num f) /\ l' = f ++ (if after then [x; b] else [b; x]) ++ r.
Proof.
  induction l as [|x l IH]; intros l'; cbn [insert_at].
  - split; [discriminate|]. intros ([|] & ? & ? & E & _); discriminate.
  - destruct (N.eqb_spec (c_num (k_c x)) n) as [E|E].
    + split.
      * intros [= <-]. exists [], x, l. split; [reflexivity|]. split; [exact E|]. split; [intros []|]. destruct after; reflexivity.
      * intros (f & y & r & E1 & E2 & E3 & ->). destruct f as [|f1 f]; cbn [app] in E1; injection E1 as -> ->; [destruct after; reflexivity|]. exfalso. apply E3. now left.
    + destruct (insert_at after n b l) as [l2|]; cbn [option_map].
      * destruct (proj1 (IH l2) eq_refl) as (f & y & r & -> & E2 & E3 & ->). split.
        -- intros [= <-]. exists (x :: f), y, r. split; [reflexivity|]. split; [exact E2|]. split; [|reflexivity]. intros [H|H]; [now apply E|now apply E3].
        -- intros (f' & y' & r' & E4 & E5 & E6 & ->). destruct f' as [|f1 f']; cbn [app] in E4; injection E4 as -> E4; [now elim E|]. cbn [app]. do 2 f_equal. assert (X : Some (f ++ (if after then [y; b] else [b; y]) ++ r) = Some (f' ++ (if after then [y'; b] else [b; y']) ++ r')).
           { apply IH. exists f', y', r'. split; [exact E4|]. split; [exact E5|]. split; [|reflexivity]. intros H. apply E6. now right. } now injection X.
      * split; [discriminate|]. intros (f' & y' & r' & E4 & E5 & E6 & ->). destruct f' as [|f1 f']; cbn [app] in E4; injection E4 as -> E4; [now elim E|].
        assert (X : None = Some (f' ++ (if after then [y'; b] else [b; y']) ++ r')) by (apply IH; exists f', y', r'; split; [exact E4|]; split; [exact E5|]; split; [intros H; apply E6; now right|reflexivity]). discriminate.
Qed.
(** Whatever is done, in any order and number, the view can still be sent. *)
Theorem C49_edits_keep_views_sendable : forall skip hw old beyond bs v v', Forall is_octet bs -> Forall is_octet beyond -> (23 <= length beyond)%nat ->
  N.of_nat (length (bs ++ beyond)) < 2 ^ 64 -> load7 skip hw old beyond false bs = Some (Some v) -> edited7 v v' -> view7_ok v'.
Proof.
  intros skip hw old beyond bs v v' HB BO B23 HL E ED. apply load_ok in E; try assumption. destruct (loaded_view _ _ _ _ E) as (OK & _). clear E.
  assert (AD : forall c x, addable7 c x -> sendable7 (fresh7 c x)) by (intros c x (A & B & C); repeat split; assumption || apply A).
  assert (KA : forall a b, kept7 (a ++ b) = kept7 a ++ kept7 b) by (intros; apply filter_app).
  induction ED as [|v1 c x ED IH A|v1 c x ED IH A|v1 after c x n v2 ED IH A EI|v1 t ED IH|v1 l b r ED IH EB|v1 l b r c x ED IH EB A|v1 p ED IH A1 A2 A3]; [exact OK|..]; destruct IH as (P & NF & B).
  - split; [exact P|]. split; [exact NF|]. cbn [append7 with_blocks7 w_blocks]. rewrite KA. apply Forall_app. split; [exact B|]. constructor; [now apply AD|constructor].
  - split; [exact P|]. split; [exact NF|]. constructor; [now apply AD|exact B].
  - unfold insert7 in EI. destruct (insert_at after n (fresh7 c x) (w_blocks v1)) as [l|] eqn:EA; [|discriminate]. injection EI as <-. split; [exact P|]. split; [exact NF|]. cbn [with_blocks7 w_blocks].
    apply insert_at_ok in EA. destruct EA as (f & y & r & EB & _ & _ & ->). rewrite EB in B. replace (f ++ y :: r) with (f ++ [y] ++ r) in B by reflexivity. rewrite !KA in B. apply Forall_app in B. destruct B as (B1 & B2). apply Forall_app in B2. destruct B2 as (B2 & B3).
    rewrite !KA. apply Forall_app. split; [exact B1|]. apply Forall_app. split; [|exact B3]. replace (if after then [y; fresh7 c x] else [fresh7 c x; y]) with ((if after then [y] else [fresh7 c x]) ++ (if after then [fresh7 c x] else [y])) by (destruct after; reflexivity).
    assert (S1 : Forall sendable7 (kept7 [fresh7 c x])) by (constructor; [now apply AD|constructor]). rewrite KA. apply Forall_app. destruct after; auto.
  - split; [exact P|]. split; [exact NF|]. cbn [delete_type7 fst with_blocks7 w_blocks]. apply Forall_forall. intros c H. apply (proj1 (Forall_forall _ _) B). apply filter_In in H. destruct H as (H & K). apply filter_In in H. apply filter_In. tauto.
  - split; [exact P|]. split; [exact NF|]. cbn [with_blocks7 w_blocks]. rewrite EB, KA in B. rewrite KA. apply Forall_app in B. destruct B as (B1 & B2). apply Forall_app. split; [exact B1|].
    unfold kept7 in *. cbn [filter mark7 k_del negb] in *. destruct (negb (k_del b)); [exact (Forall_inv_tail B2)|exact B2].
  - split; [exact P|]. split; [exact NF|]. cbn [with_blocks7 w_blocks]. rewrite EB, KA in B. rewrite KA. apply Forall_app in B. destruct B as (B1 & B2). apply Forall_app. split; [exact B1|].
    unfold kept7 in *. cbn [filter modify7 k_del] in *. destruct (negb (k_del b)); [|exact B2]. constructor; [|exact (Forall_inv_tail B2)]. destruct A as (A1 & A2 & A3). unfold sendable7. cbn [modify7 k_dirty k_c k_x k_enc k_live]. auto.
  - split; [split; assumption|]. split; [exact A3|exact B].
Qed.
Print Assumptions C49_edits_keep_views_sendable.
Example C49_edits_keep_views_sendable_ex : addable7 (k_c ex7_prev) (k_x ex7_prev) /\ edited7 ex7_view ex7_edit.
Proof. assert (A : addable7 (k_c ex7_prev) (k_x ex7_prev)) by easy7. split; [exact A|]. apply Ed7Prepend; [|exact A]. apply Ed7Delete. constructor. Qed.

(** Each edit changes what will be sent as it should: a block added is where it was asked for and is written anew, a marked
    block is left out, a changed block or primary block is the changed one and is written anew; the rest stays. *)
Theorem C49_edits_take_effect : forall v c x p l b r,
  (exists n, w_blocks (append7 c x v) = w_blocks v ++ [n] /\ k_c n = c /\ k_x n = x /\ k_dirty n = true /\ k_enc n = false /\ kept7 [n] = [n] /\
     w_blocks (prepend7 c x v) = n :: w_blocks v /\
     forall after m v', insert7 after c x m v = Some v' <->
       exists f y s, w_blocks v = f ++ y :: s /\ block_num y = m /\ ~ In m (map block_num f) /\ v' = with_blocks7 v (f ++ (if after then [y; n] else [n; y]) ++ s) (w_mask (append7 c x v))) /\
  (forall v1, In v1 [append7 c x v; prepend7 c x v] -> w_prim v1 = w_prim v /\ w_pactual v1 = w_pactual v /\ w_pdirty v1 = w_pdirty v /\ w_plive v1 = w_plive v /\ w_enc v1 = w_enc v /\ w_bytes v1 = w_bytes v /\ w_mask v1 = w_mask (append7 c x v)) /\
  (w_prim (modify_primary7 p v) = p /\ w_pdirty (modify_primary7 p v) = true /\ w_blocks (modify_primary7 p v) = w_blocks v) /\
  kept7 (l ++ mark7 b :: r) = kept7 l ++ kept7 r /\
  (k_c (modify7 c x b) = c /\ k_x (modify7 c x b) = x /\ k_dirty (modify7 c x b) = true /\ k_del (modify7 c x b) = k_del b /\ k_enc (modify7 c x b) = k_enc b) /\
  (k_c (touch7 b) = k_c b /\ k_x (touch7 b) = k_x b /\ k_dirty (touch7 b) = true /\ k_del (touch7 b) = k_del b /\ k_enc (touch7 b) = k_enc b).
Proof.
  intros v c x p l b r. split; [|split; [intros v1 [<- | [<- | []]]; repeat split|split; [repeat split|split; [|split; repeat split]]]].
  - exists (fresh7 c x). do 7 (split; [reflexivity|]). intros after m v'. unfold insert7. destruct (insert_at after m (fresh7 c x) (w_blocks v)) as [l0|] eqn:EI; cbn [option_map].
    + apply insert_at_ok in EI. destruct EI as (f & y & s & EB & EN & NI & ->). split; [intros [= <-]; exists f, y, s; auto|]. intros (f' & y' & s' & EB' & EN' & NI' & ->).
      assert (X : insert_at after m (fresh7 c x) (w_blocks v) = Some (f ++ (if after then [y; fresh7 c x] else [fresh7 c x; y]) ++ s)) by (apply insert_at_ok; exists f, y, s; auto).
      assert (Y : insert_at after m (fresh7 c x) (w_blocks v) = Some (f' ++ (if after then [y'; fresh7 c x] else [fresh7 c x; y']) ++ s')) by (apply insert_at_ok; exists f', y', s'; auto). rewrite X in Y. injection Y as Y. now rewrite Y.
    + split; [discriminate|]. intros (f' & y' & s' & EB' & EN' & NI' & ->). assert (Y : insert_at after m (fresh7 c x) (w_blocks v) = Some (f' ++ (if after then [y'; fresh7 c x] else [fresh7 c x; y']) ++ s')) by (apply insert_at_ok; exists f', y', s'; auto). congruence.
  - unfold kept7. rewrite filter_app. reflexivity.
Qed.
Print Assumptions C49_edits_take_effect.
Example C49_edits_take_effect_ex : option_map (fun v => map block_num (w_blocks v)) (insert7 true (mkCanon7 7 9 0 0 None (0, 0) 0) (CExt (BundleAge 3)) 4 ex7_edit) = Some [3; 4; 9; 5; 1] /\
  option_map (fun v => map block_num (w_blocks v)) (insert7 false (mkCanon7 7 9 0 0 None (0, 0) 0) (CExt (BundleAge 3)) 1 ex7_edit) = Some [3; 4; 5; 9; 1] /\
  insert7 false (mkCanon7 7 9 0 0 None (0, 0) 0) (CExt (BundleAge 3)) 2 ex7_edit = None.
Proof. repeat split; vm_compute; reflexivity. Qed.

(** Queries: all blocks of a type in order, the first block with a number; a view is valid iff it has at most one payload block, the
    payload size is known iff it has exactly one; for a bundle that was loaded it is the number of bytes of payload. *)
Theorem C49_queries_are_exact : forall v,
  (forall t, by_type7 t v = filter (fun b => block_type b =? t) (w_blocks v) /\ count_type7 t v = N.of_nat (length (by_type7 t v))) /\
  (forall n b, by_number7 n v = Some b <-> exists f r, w_blocks v = f ++ b :: r /\ block_num b = n /\ ~ In n (map block_num f)) /\
  (is_valid7 v = true <-> forall l1 a l2 d l3, w_blocks v = l1 ++ a :: l2 ++ d :: l3 -> ~ (block_type a = 1 /\ block_type d = 1)) /\
  (forall n, payload_size7 v = Some n <->
     exists l1 b l2, w_blocks v = l1 ++ b :: l2 /\ block_type b = 1 /\ c_len (k_c b) = n /\ Forall (fun d => block_type d <> 1) (l1 ++ l2)) /\
  (forall verified old bs, bundle7_form verified old v bs -> exists l1 b d, w_blocks v = l1 ++ [b] /\ block_type b = 1 /\ c_data (k_c b) = Some d /\ payload_size7 v = Some (N.of_nat (length d))).
Proof.
  intros v. split; [intros t; split; reflexivity|]. set (f := fun b => c_type (k_c b) =? 1).
  assert (Nil : forall l, filter f l = [] -> Forall (fun d => block_type d <> 1) l).
  { intros l E. apply Forall_forall. intros d Hd X. assert (In d (filter f l)) by (apply filter_In; split; [exact Hd|now apply N.eqb_eq]). rewrite E in H. destruct H. }
  assert (Sp : forall l c q, filter f l = c :: q -> exists l1 l2, l = l1 ++ c :: l2 /\ filter f l1 = [] /\ filter f l2 = q /\ block_type c = 1).
  { induction l as [|x l IH]; intros c q E; [discriminate|]. cbn in E. unfold f in E at 1. destruct (N.eqb_spec (c_type (k_c x)) 1) as [X|X].
    - injection E as -> E. exists [], l. repeat split; assumption.
    - destruct (IH c q E) as (l1 & l2 & -> & E1 & E2 & E3). exists (x :: l1), l2. repeat split; try assumption. cbn. unfold f at 1. apply N.eqb_neq in X. now rewrite X. }
  assert (No : forall l, Forall (fun d => block_type d <> 1) l -> filter f l = []).
  { induction 1 as [|x l X _ IH]; [reflexivity|]. cbn. unfold f at 1. apply N.eqb_neq in X. unfold block_type in X. now rewrite X. }
  assert (P : forall n, payload_size7 v = Some n <->
     exists l1 b l2, w_blocks v = l1 ++ b :: l2 /\ block_type b = 1 /\ c_len (k_c b) = n /\ Forall (fun d => block_type d <> 1) (l1 ++ l2)).
  { intros n. unfold payload_size7, by_type7. fold f. split.
    - destruct (filter f (w_blocks v)) as [|c [|d q]] eqn:E; try discriminate. intros X. injection X as <-. destruct (Sp _ _ _ E) as (l1 & l2 & E0 & E1 & E2 & E3).
      exists l1, c, l2. repeat split; try assumption. apply Forall_app. split; apply Nil; assumption.
    - intros (l1 & c & l2 & E0 & E1 & E2 & E3). apply Forall_app in E3. destruct E3 as (N1 & N2). rewrite E0, filter_app, (No l1 N1). cbn. unfold f at 1. unfold block_type in E1.
      rewrite E1, N.eqb_refl, (No l2 N2), <- E2. reflexivity. }
  split; [|split; [|split; [exact P|]]].
  - clear P. intros n b. unfold by_number7. induction (w_blocks v) as [|x l IH]; cbn [find].
    + split; [discriminate|]. intros ([|] & ? & E & _); discriminate.
    + destruct (N.eqb_spec (c_num (k_c x)) n) as [E|E].
      * split; [intros [= <-]; exists [], l; split; [reflexivity|]; split; [exact E|intros []]|]. intros (g & r & E1 & E2 & E3). destruct g as [|y g]; cbn [app] in E1; injection E1 as -> ->; [reflexivity|]. exfalso. apply E3. now left.
      * rewrite IH. split; intros (g & r & E1 & E2 & E3).
        -- subst l. exists (x :: g), r. split; [reflexivity|]. split; [exact E2|]. intros [H|H]; auto.
        -- destruct g as [|y g]; cbn [app] in E1; injection E1 as -> ->; [now elim E|]. exists g, r. split; [reflexivity|]. split; [exact E2|]. intros H. apply E3. now right.
  - unfold is_valid7, count_type7, by_type7. fold f. rewrite negb_true_iff, N.ltb_ge. split.
    + intros H l1 a l2 d l3 E (Ta & Td). rewrite E, filter_app in H. cbn [filter] in H. rewrite filter_app in H. cbn [filter] in H. change (f a) with (block_type a =? 1) in H. change (f d) with (block_type d =? 1) in H. rewrite Ta, Td, N.eqb_refl in H.
      rewrite app_length in H. cbn [length] in H. rewrite app_length in H. cbn [length] in H. lia.
    + intros H. destruct (filter f (w_blocks v)) as [|c [|d q]] eqn:E; cbn [length]; try lia. exfalso. destruct (Sp _ _ _ E) as (l1 & l2 & E0 & E1 & E2 & E3).
      destruct (Sp _ _ _ E2) as (l3 & l4 & -> & _ & _ & E4). apply (H l1 c l3 d l4 E0). split; assumption.
  - intros verified old bs (_ & _ & _ & _ & _ & _ & (l1 & b & EB & T & _ & F) & _ & _ & BF & _). assert (BF1 : canon7_form verified (k_c b) (k_actual b)).
    { rewrite EB in BF. clear - BF. revert BF. generalize 0%nat. induction l1 as [|x l IH]; intros i H; [apply H|]. destruct H as (_ & H). exact (IH _ H). }
    destruct (form_split _ _ _ BF1) as (h & d & crc & _ & CD & CL & _). exists l1, b, d. split; [exact EB|]. split; [exact T|]. split; [exact CD|]. apply P. exists l1, b, []. rewrite app_nil_r. auto.
Qed.
Print Assumptions C49_queries_are_exact.
Example C49_queries_are_exact_ex : payload_size7 ex7_view = Some 3 /\ is_valid7 ex7_view = true /\ by_number7 5 ex7_view = Some ex7_b5 /\ by_number7 6 ex7_view = None /\
  by_type7 10 ex7_view = [ex7_b2] /\ is_valid7 (append7 (k_c ex7_b1) CPlain ex7_view) = false /\ payload_size7 (append7 (k_c ex7_b1) CPlain ex7_view) = None.
Proof. repeat split; vm_compute; reflexivity. Qed.

(** Deleting by type removes exactly the blocks of the type, keeps the order of the others, and returns their number. *)
Theorem C49_delete_by_type_is_exact : forall t v, let v' := fst (delete_type7 t v) in
  snd (delete_type7 t v) = count_type7 t v /\ w_blocks v' = filter (fun b => negb (block_type b =? t)) (w_blocks v) /\ count_type7 t v' = 0 /\
  (forall n, N.testbit (w_mask v') n = true <-> N.testbit (w_mask v) n = true \/ (n < 64 /\ In n (map block_num (by_type7 t v)))) /\
  w_prim v' = w_prim v /\ w_pactual v' = w_pactual v /\ w_pdirty v' = w_pdirty v /\ w_plive v' = w_plive v /\ w_enc v' = w_enc v /\ w_bytes v' = w_bytes v.
Proof.
  intros t v v'. split; [reflexivity|]. split; [reflexivity|]. split; [|split; [|repeat split]].
  - unfold v', count_type7, by_type7. cbn [delete_type7 fst with_blocks7 w_blocks]. induction (w_blocks v) as [|c l IH]; [reflexivity|]. cbn [filter]. destruct (N.eqb_spec (c_type (k_c c)) t) as [E|E]; cbn [negb]; [exact IH|]. cbn [filter]. apply N.eqb_neq in E. now rewrite E.
  - intros n. apply (frees_bit 0 eq_refl).
Qed.
Print Assumptions C49_delete_by_type_is_exact.
Example C49_delete_by_type_is_exact_ex : snd (delete_type7 10 ex7_view) = 1 /\ w_blocks (fst (delete_type7 10 ex7_view)) = [ex7_b4; ex7_b5; ex7_b1] /\ next_free7 ex7_view = 3 /\ next_free7 (fst (delete_type7 10 ex7_view)) = 2.
Proof. repeat split; vm_compute; reflexivity. Qed.

(** The number offered for a new block: the least from 2 on that is not used, or one more than the largest if all up to 63 are. It is
    unused as long as no block has number 2^64-1 and the record of used numbers is right (mask_form, see below). *)
Theorem C49_next_free_number : forall v, mask_form (w_blocks v) (w_mask v) -> Forall (fun b => block_num b < 2 ^ 64 - 1) (w_blocks v) ->
  let n := next_free7 v in let used := map block_num (w_blocks v) in
  2 <= n < 2 ^ 64 /\ ~ In n used /\
  (n < 64 -> forall k, 2 <= k < n -> In k used) /\
  (64 <= n -> (forall k, 2 <= k < 64 -> In k used) /\ (forall k, In k used -> k < n) /\ (n = 64 \/ In (n - 1) used)).
Proof.
  intros v M B n used. assert (DE : forall k, In k used \/ ~ In k used) by (intros k; destruct (in_dec N.eq_dec k used); auto). unfold n, next_free7. unfold mask_form in M. fold used in M. destruct (w_mask v) as [|p].
  - destruct (largest_ok (w_blocks v) 63) as (L1 & L2 & L3). set (g := largest7 (w_blocks v) 63) in *. assert (G : g < 2 ^ 64 - 1). { destruct L3 as [->|I]; [reflexivity|]. apply in_map_iff in I. destruct I as (b & <- & I). exact (proj1 (Forall_forall _ _) B b I). }
    rewrite N.mod_small by (unfold W64; lia). assert (U : forall k, In k used -> k < g + 1). { intros k I. apply in_map_iff in I. destruct I as (b & <- & I). pose proof (proj1 (Forall_forall _ _) L2 b I) as X. cbn beta in X. lia. }
    split; [lia|]. split; [intros I; apply U in I; lia|]. split; [lia|]. intros _. split; [|split; [exact U|]].
    + intros k K. destruct (DE k) as [I|I]; [exact I|]. exfalso. assert (X : N.testbit 0 k = true) by (apply M; auto). rewrite N.bits_0 in X. discriminate.
    + replace (g + 1 - 1) with g by lia. destruct L3 as [E|I]; [left; lia|right; exact I].
  - destruct (ctz_bit p) as (C1 & C2). apply M in C1. destruct C1 as (C1 & C3). split; [lia|]. split; [exact C3|]. split; [|lia]. intros _ k K. destruct (DE k) as [I|I]; [exact I|]. exfalso. assert (X : N.testbit (Npos p) k = true) by (apply M; split; [lia|exact I]). rewrite C2 in X by lia. discriminate.
Qed.
Print Assumptions C49_next_free_number.
Example C49_next_free_number_ex : mask_form (w_blocks ex7_view) (w_mask ex7_view) /\ next_free7 ex7_view = 3 /\
  let v := with_blocks7 ex7_view (map (fun n => fresh7 (mkCanon7 200 (N.of_nat n) 0 0 (Some []) (0, 0) 0) CPlain) (seq 2 70)) 0 in next_free7 v = 72.
Proof. split; [apply mask_loaded; vm_compute; reflexivity|]. split; vm_compute; reflexivity. Qed.

(** The record of used numbers is right after Load (C49_load_is_exact) and stays right: whatever is added, and whatever is deleted
    as long as the numbers are distinct and those deleted are not 0 or 1. *)
Lemma parted {A : Type} (g : A -> N) (f : A -> bool) n : forall l, NoDup (map g l) ->
  (In n (map g l) <-> In n (map g (filter f l)) \/ In n (map g (filter (fun b => negb (f b)) l))) /\ ~ (In n (map g (filter f l)) /\ In n (map g (filter (fun b => negb (f b)) l))).
Proof.
  induction l as [|x l IH]; intros ND; [cbn; tauto|]. cbn [map] in ND. inversion ND as [|? ? NI ND']; subst. destruct (IH ND') as (I1 & I2). assert (SUB : forall h, In (g x) (map g (filter h l)) -> False).
  { intros h H. apply NI. apply in_map_iff in H. destruct H as (y & E & H). apply filter_In in H. apply in_map_iff. exists y. tauto. }
  cbn [map filter In]. destruct (f x); cbn [negb map In]; (split; [tauto|]); intros ([E|H1] & H2) || intros (H1 & [E|H2]); try (now apply I2); subst n; eapply SUB; eassumption.
Qed.
Theorem C49_numbers_stay_right : forall v, mask_form (w_blocks v) (w_mask v) ->
  (forall c x v1, In v1 [append7 c x v; prepend7 c x v] \/ (exists after n, insert7 after c x n v = Some v1) -> mask_form (w_blocks v1) (w_mask v1)) /\
  (NoDup (map block_num (w_blocks v)) ->
   (forall t, (forall b, In b (w_blocks v) -> block_type b = t -> 2 <= block_num b) -> mask_form (w_blocks (fst (delete_type7 t v))) (w_mask (fst (delete_type7 t v)))) /\
   (forall v', (forall b, In b (w_blocks v) -> k_del b = true -> 2 <= block_num b) -> sent7 v v' -> mask_form (w_blocks v') (w_mask v'))).
Proof.
  intros v M. split.
  - assert (G : forall c l n, (forall k, In k (map block_num l) <-> c_num c = k \/ In k (map block_num (w_blocks v))) -> n = reserve7 (c_num c) (w_mask v) -> mask_form l n).
    { intros c l n H ->. intros k. rewrite reserve_bit, andb_true_iff, H, (M k), negb_true_iff, andb_false_iff, N.eqb_neq, N.leb_gt. intuition lia. }
    intros c x v1 [[<- | [<- | []]] | (after & n & E)].
    + apply (G c); [|reflexivity]. intros k. cbn [append7 with_blocks7 w_blocks]. rewrite map_app, in_app_iff. cbn. tauto.
    + apply (G c); [|reflexivity]. intros k. cbn. tauto.
    + unfold insert7 in E. destruct (insert_at after n (fresh7 c x) (w_blocks v)) as [l|] eqn:EI; [|discriminate]. injection E as <-. apply insert_at_ok in EI. destruct EI as (f & y & r & EB & _ & _ & ->). apply (G c); [|reflexivity].
      intros k. rewrite EB. cbn [with_blocks7 w_blocks]. rewrite !map_app, !in_app_iff. destruct after; cbn; tauto.
  - intros ND. assert (G : forall f l n, map block_num l = map block_num (filter (fun b => negb (f b)) (w_blocks v)) -> (forall b, In b (w_blocks v) -> f b = true -> 2 <= block_num b) ->
      (forall k, N.testbit n k = true <-> N.testbit (w_mask v) k = true \/ (k < 64 /\ In k (map block_num (filter f (w_blocks v))))) -> mask_form l n).
    { intros f l n EL GE B k. rewrite B, EL, (M k). destruct (parted block_num f k (w_blocks v) ND) as (P1 & P2). assert (P3 : In k (map block_num (filter f (w_blocks v))) -> 2 <= k).
      { intros H. apply in_map_iff in H. destruct H as (b & <- & H). apply filter_In in H. now apply GE. }
      rewrite P1. destruct (in_dec N.eq_dec k (map block_num (filter f (w_blocks v)))) as [D|D]; tauto. }
    split.
    + intros t GE. apply (G (fun b => block_type b =? t)); [reflexivity|intros b I T; apply GE; [exact I|now apply N.eqb_eq]|]. intros k. apply (frees_bit 0 eq_refl).
    + intros v' GE (_ & F2 & _ & _ & _ & MS & _). apply (G k_del); [|exact GE|exact MS]. fold (kept7 (w_blocks v)). clear - F2. induction F2 as [|b b' l l' S F2 IH]; [reflexivity|]. cbn [map]. rewrite IH. f_equal. now destruct (sent_numbers b b' S).
Qed.
Print Assumptions C49_numbers_stay_right.
Example C49_numbers_stay_right_ex : NoDup (map block_num (w_blocks ex7_view)) /\ mask_form (w_blocks ex7_view) (w_mask ex7_view) /\ mask_form (w_blocks ex7_edit) (w_mask ex7_edit).
Proof.
  split; [repeat constructor; cbn; intuition discriminate|]. split; apply mask_loaded; vm_compute; reflexivity.
Qed.

(** ** Refuted claims *)
(** What Render reports as rendered need not be a bundle: with the only block left marked for deletion it writes no payload block,
    and Load refuses the result. *)
Theorem C49_rendered_bundles_load_refuted : exists bs v v', load7 false None ex7_old ex7_beyond false bs = Some (Some v) /\
  let v1 := with_blocks7 v (map mark7 (w_blocks v)) (w_mask v) in edited7 v v1 /\ view7_ok v1 /\
  render7 (scan_any 0) None v1 100 (repeat 0 132) [] = Some (Some (Rendered7 v')) /\ load7 false None ex7_old ex7_beyond false (w_bytes v') = Some None.
Proof.
  exists ([159] ++ ex7_primary ++ ex7_payload ++ [255]). eexists _, _. split; [vm_compute; reflexivity|]. cbv zeta. split; [|split; [|split; [vm_compute; reflexivity|vm_compute; reflexivity]]].
  - eapply (Ed7Mark _ _ []); [constructor|reflexivity].
  - split; [reflexivity|]. split; [reflexivity|constructor].
Qed.
Print Assumptions C49_rendered_bundles_load_refuted.

(** GetSerializationSize does not say whether Render will work: it fails although the bundle can be rendered, if a block marked for
    deletion is behind the payload, and it gives a size although the bundle cannot, if the payload block is marked and last. *)
Theorem C49_size_known_iff_renderable_refuted :
  (exists v n v', view7_ok v /\ view7_size (scan_any 0) v = Some None /\ render7 (scan_any 0) None v 100 (repeat 0 132) [] = Some (Some (Rendered7 v')) /\ n = length (w_bytes v') /\ n = 78%nat) /\
  (exists v n, view7_ok v /\ view7_size (scan_any 0) v = Some (Some n) /\ render7 (scan_any 0) None v 100 (repeat 0 132) [] = Some None).
Proof.
  split.
  - exists (with_blocks7 ex7_view (w_blocks ex7_view ++ [mark7 ex7_prev]) 0). eexists _, _. split; [split; [reflexivity|split; [reflexivity|easy7]]|]. split; [vm_compute; reflexivity|]. split; [vm_compute; reflexivity|]. split; [reflexivity|vm_compute; reflexivity].
  - exists (with_blocks7 ex7_view [ex7_b2; mark7 ex7_b1] 0). eexists. split; [split; [reflexivity|split; [reflexivity|easy7]]|]. split; [vm_compute; reflexivity|vm_compute; reflexivity].
Qed.
Print Assumptions C49_size_known_iff_renderable_refuted.

(** Load accepts bundles with blocks of the same number, with number 0 (that of the primary block) and with number 1 for a block that is
    not the payload (RFC 9171 section 4.1: numbers identify blocks uniquely). *)
Theorem C49_block_numbers_are_unique_refuted : exists bs v, load7 false None ex7_old ex7_beyond false bs = Some (Some v) /\ map block_num (w_blocks v) = [2; 2; 0; 1; 1].
Proof. exists ([159] ++ ex7_primary ++ ex7_hops ++ ex7_hops ++ [133; 7; 0; 0; 0; 65; 1] ++ [133; 13; 1; 0; 0; 65; 1] ++ ex7_payload ++ [255]). eexists. split; vm_compute; reflexivity. Qed.
Print Assumptions C49_block_numbers_are_unique_refuted.

(** The number offered for a new block can be in use, or be 0 or 1: after deleting one of two blocks with the same number, after deleting
    a payload block, and if all of 2 to 63 and 2^64-1 are used. *)
Definition ex7_many : list N := flat_map (fun n => [133; 24; 200] ++ cenc n ++ [0; 0; 64]) (2 ^ 64 - 1 :: map N.of_nat (seq 2 62)).
Theorem C49_next_free_is_unused_refuted :
  (exists bs v, load7 false None ex7_old ex7_beyond false bs = Some (Some v) /\ let v1 := fst (delete_type7 10 v) in In (next_free7 v1) (map block_num (w_blocks v1))) /\
  (exists bs v, load7 false None ex7_old ex7_beyond false bs = Some (Some v) /\ next_free7 (fst (delete_type7 1 v)) = 1) /\
  (exists bs v, load7 false None ex7_old ex7_beyond false bs = Some (Some v) /\ next_free7 v = 0).
Proof.
  split; [|split].
  - exists ([159] ++ ex7_primary ++ ex7_hops ++ [133; 7; 2; 0; 0; 65; 1] ++ ex7_payload ++ [255]). eexists. split; [vm_compute; reflexivity|]. vm_compute. auto.
  - exists ex7_bundle. eexists. split; vm_compute; reflexivity.
  - exists ([159] ++ ex7_primary ++ ex7_many ++ ex7_payload ++ [255]). eexists. split; vm_compute; reflexivity.
Qed.
Print Assumptions C49_next_free_is_unused_refuted.

(** A BCB whose target is not in the bundle is accepted (RFC 9172 section 3.2: targets are blocks of the bundle). *)
Theorem C49_bcb_targets_exist_refuted : exists bs v n, load7 false None ex7_old ex7_beyond false bs = Some (Some v) /\ In n (w_enc v) /\ ~ In n (map block_num (w_blocks v)).
Proof. exists ([159] ++ ex7_primary ++ ex7_bcb_block ++ ex7_payload ++ [255]). eexists _, 5. split; [vm_compute; reflexivity|]. split; [vm_compute; auto|]. vm_compute. intuition discriminate. Qed.
Print Assumptions C49_bcb_targets_exist_refuted.

(** RenderInPlace is not safe if the payload block was changed: the temporary vector is sized by the old payload block, so blocks in
    front of it that grew are written beyond its end; and where that does not happen, it fails and leaves the view pointing into freed
    memory, so that the next Render reads it. *)
Definition ex7_long : list N := [133; 1; 1; 0; 0; 88; 100] ++ repeat 7 100.
Definition ex7_long_block : cbv7 := ex7_clean (mkCanon7 1 1 0 100 (Some (repeat 7 100)) (0, 0) 0) CPlain ex7_long false.
Definition ex7_long_view : bview7 := mkBview7 ex7_prim ex7_primary true false [ex7_long_block] (2 ^ 64 - 4) [] ([159] ++ ex7_primary ++ ex7_long ++ [255]).
Theorem C49_render_in_place_is_safe_refuted :
  (exists bs v v1, load7 false None ex7_old ex7_beyond false bs = Some (Some v) /\ edited7 v v1 /\ view7_ok v1 /\ ends_in_payload (kept7 (w_blocks v1)) /\ render_in_place7 (scan_any 0) None v1 256 (repeat 0 256) = None) /\
  (exists bs v v1 v2 mem, load7 false None ex7_old ex7_beyond false bs = Some (Some v) /\ edited7 v v1 /\ view7_ok v1 /\ ends_in_payload (kept7 (w_blocks v1)) /\ render_in_place7 (scan_any 0) None v1 256 (repeat 0 256) = Some (v2, mem, false) /\
     render7 (scan_any 0) None v2 200 (repeat 0 232) [] = None).
Proof.
  assert (A : addable7 (mkCanon7 1 1 0 1 (Some [7]) (0, 0) 0) CPlain). { split; [easy7|]. split; [discriminate|]. exists [7]. split; [reflexivity|]. split; [reflexivity|]. split; [reflexivity|repeat constructor]. }
  assert (P : addable7 (mkCanon7 200 2 0 90 (Some (repeat 9 90)) (0, 0) 0) CPlain). { split; [easy7|]. split; [discriminate|]. exists (repeat 9 90). split; [reflexivity|]. split; [reflexivity|]. split; [reflexivity|repeat constructor]. }
  split.
  - exists ([159] ++ ex7_primary ++ ex7_long ++ [255]), ex7_long_view, (prepend7 (mkCanon7 200 2 0 90 (Some (repeat 9 90)) (0, 0) 0) CPlain (with_blocks7 ex7_long_view ([] ++ modify7 (mkCanon7 1 1 0 1 (Some [7]) (0, 0) 0) CPlain ex7_long_block :: []) (w_mask ex7_long_view))).
    split; [vm_compute; reflexivity|]. split; [apply Ed7Prepend; [|exact P]; eapply (Ed7Block _ _ []); [constructor|reflexivity|exact A]|]. split; [|split; [eexists [_], _; split; [reflexivity|split; reflexivity]|vm_compute; reflexivity]].
    split; [reflexivity|]. split; [reflexivity|]. destruct A as (A1 & A2 & A3), P as (P1 & P2 & P3). constructor; [split; [exact P1|split; [exact P2|split; [exact P3|reflexivity]]]|]. constructor; [split; [exact A1|split; [exact A2|split; [exact A3|reflexivity]]]|constructor].
  - exists ex7_bundle, ex7_view, (with_blocks7 ex7_view ([ex7_b2; ex7_b4; ex7_b5] ++ modify7 (mkCanon7 1 1 0 1 (Some [7]) (0, 0) 0) CPlain ex7_b1 :: []) (w_mask ex7_view)). eexists _, _. split; [vm_compute; reflexivity|].
    split; [eapply Ed7Block; [constructor|reflexivity|exact A]|]. split; [|split; [eexists [_; _; _], _; split; [reflexivity|split; reflexivity]|split; [vm_compute; reflexivity|vm_compute; reflexivity]]].
    split; [reflexivity|]. split; [reflexivity|]. destruct A as (A1 & A2 & A3). do 3 (constructor; [reflexivity|]). constructor; [split; [exact A1|split; [exact A2|split; [exact A3|reflexivity]]]|constructor].
Qed.
Print Assumptions C49_render_in_place_is_safe_refuted.
