(** C32: BPv6 fragmentation tiles the payload, and reassembly gives it back. *)
From Coq Require Import NArith ZArith List Bool Lia ZifyBool ZifyN Permutation.
From Verif Require Import Base M_FragmentSet S_FragmentSet L_FragmentSet M_Bpv6Frag S_Bpv6Frag L_Bpv6Frag.
Import ListNotations.
Open Scope N_scope.

(** Fragmenting a bundle with blocks pre, payload, post into pieces of at most sz bytes: the number of pieces is the least
    that suffices; piece i carries bytes [i*sz, (i+1)*sz) of the payload, its offset is the original's plus i*sz, its total
    length is the original's (the payload length if the original is not itself a fragment), the flag is set and nothing
    else in the primary block changes; blocks before the payload go to the first fragment, blocks after it to the last,
    those marked for replication to all. *)
Theorem C32_fragments_tile_the_payload : forall orig sz pre pl post,
  bv_blocks orig = pre ++ pl :: post -> bk_type pl = 1 -> Forall (fun b => bk_type b <> 1) (pre ++ post) ->
  N.testbit (pr_flags (bv_primary orig)) 2 = false ->
  let L := N.of_nat (length (bk_data pl)) in
  let isfrag := N.testbit (pr_flags (bv_primary orig)) 0 in
  let base := if isfrag then pr_off (bv_primary orig) else 0 in
  0 < sz -> sz < L -> L < 2 ^ 63 -> base + L <= W64 ->
  exists fs n, fragment orig sz = Some (Some fs) /\ length fs = N.to_nat n /\ (n - 1) * sz < L <= n * sz /\ 2 <= n /\
    concat (map (fun f => concat (map bk_data (payload_blocks f))) fs) = bk_data pl /\
    forall i f, nth_error fs i = Some f ->
      pr_off (bv_primary f) = base + N.of_nat i * sz /\
      pr_total (bv_primary f) = (if isfrag then pr_total (bv_primary orig) else L) /\
      N.testbit (pr_flags (bv_primary f)) 0 = true /\ same_other_fields (bv_primary f) (bv_primary orig) /\
      bv_blocks f = (if Nat.eqb i 0 then pre else filter (fun b => N.testbit (bk_flags b) 0) pre) ++
        mkBlock (bk_type pl) (bk_flags pl) (piece (bk_data pl) (N.of_nat i * sz) (N.min sz (L - N.of_nat i * sz))) ::
        (if Nat.eqb (S i) (N.to_nat n) then post else filter (fun b => N.testbit (bk_flags b) 0) post).
Proof.
  intros orig sz pre pl post HB Hpl Hno Hnf L isfrag base H1 H2 H3 H4.
  assert (NP : Forall (fun b => is_payload b = false) (pre ++ post)).
  { eapply Forall_impl; [|exact Hno]. intros b Hb. unfold is_payload. now apply N.eqb_neq. }
  apply Forall_app in NP. destruct NP as [Npre Npost]. assert (PP : is_payload pl = true) by now apply N.eqb_eq.
  pose proof (fragment_ok orig sz pre pl post HB Npre Npost PP Hnf H1 H2 H3 H4) as E. cbv zeta in E. fold L in E.
  set (n := calc_num_fragments L sz) in *. destruct (num_spec L sz H1 H2 H3) as (N1 & N2 & N3 & N4). fold n in N1, N2, N3, N4.
  eexists _, n. split; [exact E|]. split; [now rewrite map_length, seq_length|]. split; [lia|]. split; [exact N1|]. split.
  - rewrite map_map. erewrite map_ext.
    2:{ intros i. rewrite ith_payload by assumption. cbn [map concat]. rewrite app_nil_r. unfold cut. cbn [bk_data]. reflexivity. }
    rewrite concat_pieces by (left; rewrite N2Nat.id; exact N2). rewrite N2Nat.id. fold L. rewrite N.min_r by lia. apply piece_all.
  - intros i f Hf. pose proof Hf as Hlt. apply nth_error_In in Hlt. apply in_map_iff in Hlt. destruct Hlt as (j & Hj & _).
    assert (Hi : (i < N.to_nat n)%nat). { rewrite <- (seq_length (N.to_nat n) 0), <- (map_length (ith orig pre pl post (base_of orig) (total_of orig L) sz n)). apply nth_error_Some. congruence. }
    rewrite (map_nth_error _ i (seq 0 (N.to_nat n)) (d := i)) in Hf.
    2:{ rewrite (nth_error_nth' _ 0%nat) by (rewrite seq_length; exact Hi). rewrite seq_nth by exact Hi. reflexivity. }
    injection Hf as <-. unfold ith. cbn [bv_primary bv_blocks copy_primary_fragment pr_off pr_total pr_flags]. split; [reflexivity|]. split; [reflexivity|].
    split; [apply N.setbit_eq|]. split; [|reflexivity]. repeat split. intros k Hk. cbn [pr_flags]. apply N.setbit_neq. lia.
Qed.
Print Assumptions C32_fragments_tile_the_payload.
(** Example data used below: a bundle with four blocks, and its fragments' primary block. *)
Definition exb : bundle := mkBundle (mkPrimary 16 (1,2) (3,4) 0 0 [99])
  [mkBlock 20 1 [7]; mkBlock 5 0 [8]; mkBlock 1 0 [10;11;12;13;14;15;16]; mkBlock 6 0 [9]].
Definition exh (off : N) := mkPrimary 17 (1,2) (3,4) off 7 [99].
Example C32_fragments_tile_the_payload_ex : fragment exb 3 = Some (Some
  [mkBundle (exh 0) [mkBlock 20 1 [7]; mkBlock 5 0 [8]; mkBlock 1 0 [10;11;12]];
   mkBundle (exh 3) [mkBlock 20 1 [7]; mkBlock 1 0 [13;14;15]];
   mkBundle (exh 6) [mkBlock 20 1 [7]; mkBlock 1 0 [16]; mkBlock 6 0 [9]]]).
Proof. vm_compute. reflexivity. Qed.

(** Fragmentation is refused, and nothing produced, exactly when the size is zero, the bundle must not be fragmented, it has
    not exactly one payload block, or it already fits. *)
Theorem C32_fragment_refuses : forall orig sz,
  (sz = 0 \/ N.testbit (pr_flags (bv_primary orig)) 2 = true \/ (forall d, ~ payload_is orig d) \/
   exists d, payload_is orig d /\ N.of_nat (length d) <= sz) -> fragment orig sz = Some None.
Proof.
  intros orig sz H. unfold fragment. destruct (N.eqb_spec sz 0) as [Z|Z]; [reflexivity|]. unfold no_fragment.
  destruct (N.testbit (pr_flags (bv_primary orig)) 2) eqn:T; [reflexivity|]. destruct (payload_blocks orig) as [|pl [|q r]] eqn:E; try reflexivity.
  destruct H as [H|[H|[H|(d & D & HL)]]]; [congruence|congruence| |].
  - exfalso. apply (H (bk_data pl)). now exists pl.
  - assert (d = bk_data pl) by (apply (payload_is_fun orig); [exact D|now exists pl]). subst d.
    destruct (N.leb_spec (N.of_nat (length (bk_data pl))) sz); [reflexivity|lia].
Qed.
Print Assumptions C32_fragment_refuses.
Example C32_fragment_refuses_ex : fragment exb 0 = Some None /\ fragment exb 7 = Some None /\
  fragment (mkBundle (mkPrimary 4 (1,2) (3,4) 0 0 []) (bv_blocks exb)) 3 = Some None.
Proof. repeat split; vm_compute; reflexivity. Qed.

(** Any collection of fragments of one application data unit that together contain every byte, in any order, overlapping
    or repeated, assembles to exactly that data unit. *)
Theorem C32_any_complete_collection_assembles : forall last adu fs, N.of_nat (length adu) < W64 ->
  Forall (fragment_of adu) fs -> fs <> [] -> same_bundle fs -> complete adu fs ->
  exists b, assemble last fs = Some (Some b) /\ payload_is b adu /\ N.testbit (pr_flags (bv_primary b)) 0 = false /\
    pr_off (bv_primary b) = 0 /\ pr_total (bv_primary b) = 0 /\
    exists f0, In f0 fs /\ (forall g, In g fs -> pr_off (bv_primary f0) <= pr_off (bv_primary g)) /\ same_other_fields (bv_primary b) (bv_primary f0).
Proof.
  intros last adu fs HW HF Hne HS HC. destruct (assemble_ok last adu fs HW HF Hne HC HS) as (f0 & l0 & I1 & I2 & I3 & E).
  eexists. split; [exact E|]. rewrite Forall_forall in HF. destruct (HF f0 I1) as (d0 & D0 & _). destruct (HF l0 I2) as (d1 & D1 & _).
  split; [now apply (assembled_payload adu f0 l0 _ d0 d1)|]. cbn [bv_primary copy_primary_nofragment pr_flags].
  split; [apply N.clearbit_eq|]. split; [reflexivity|]. split; [reflexivity|]. exists f0. split; [exact I1|]. split; [intros g Hg; now apply I3|].
  repeat split. intros k Hk. cbn [pr_flags]. apply N.clearbit_neq. lia.
Qed.
Print Assumptions C32_any_complete_collection_assembles.
Example C32_any_complete_collection_assembles_ex :
  assemble false [mkBundle (exh 3) [mkBlock 1 0 [13;14;15;16]]; mkBundle (exh 0) [mkBlock 5 0 [8]; mkBlock 1 0 [10;11;12]]; mkBundle (exh 2) [mkBlock 1 0 [12;13]]] =
  Some (Some (mkBundle (mkPrimary 16 (1,2) (3,4) 0 0 [99]) [mkBlock 5 0 [8]; mkBlock 1 0 [10;11;12;13;14;15;16]])).
Proof. vm_compute. reflexivity. Qed.

(** Round trip: reassembling the fragments of an unfragmented bundle, in any order, gives the original bundle back. *)
Theorem C32_roundtrip_in_any_order : forall last orig sz fs fs',
  N.testbit (pr_flags (bv_primary orig)) 0 = false -> pr_off (bv_primary orig) = 0 -> pr_total (bv_primary orig) = 0 ->
  (forall d, payload_is orig d -> N.of_nat (length d) < 2 ^ 63) ->
  fragment orig sz = Some (Some fs) -> Permutation fs' fs -> assemble last fs' = Some (Some orig).
Proof.
  intros last orig sz fs fs' Hfl Ho Ht HL E HP.
  assert (F : exists pl, payload_blocks orig = [pl] /\ sz <> 0 /\ sz < N.of_nat (length (bk_data pl)) /\ no_fragment (bv_primary orig) = false).
  { unfold fragment in E. destruct (N.eqb_spec sz 0); [discriminate|]. destruct (no_fragment (bv_primary orig)) eqn:NF; [discriminate|].
    destruct (payload_blocks orig) as [|pl [|q r]]; try discriminate. destruct (N.leb_spec (N.of_nat (length (bk_data pl))) sz); [discriminate|].
    exists pl. repeat split; assumption. }
  destruct F as (pl & EP & Hz & HS & Hnf). specialize (HL (bk_data pl) ltac:(now exists pl)).
  unfold payload_blocks in EP. destruct (payload_split _ _ EP) as (pre & post & HB & Npre & Npost & PP).
  set (L := N.of_nat (length (bk_data pl))) in *.
  assert (B0 : base_of orig = 0) by (unfold base_of, is_fragment; now rewrite Hfl).
  assert (T0 : total_of orig L = L) by (unfold total_of, is_fragment; now rewrite Hfl).
  pose proof (fragment_ok orig sz pre pl post HB Npre Npost PP Hnf ltac:(lia) HS HL) as E'. cbv zeta in E'. fold L in E'.
  rewrite B0, T0 in E'. specialize (E' ltac:(change (2 ^ 63) with 9223372036854775808 in HL; unfold W64; lia)). rewrite E in E'. injection E' as ->.
  destruct (num_spec L sz ltac:(lia) HS HL) as (N1 & N2 & N3 & N4). set (n := calc_num_fragments L sz) in *.
  set (g := ith orig pre pl post 0 L sz n) in *.
  assert (IN : forall f, In f fs' <-> exists i, (i < N.to_nat n)%nat /\ f = g i).
  { intros f. assert (X : In f fs' <-> In f (map g (seq 0 (N.to_nat n)))) by (split; apply Permutation_in; [exact HP|now apply Permutation_sym]).
    rewrite X, in_map_iff. split; [intros (i & <- & Hi); apply in_seq in Hi; exists i; split; [lia|reflexivity]|intros (i & Hi & ->); exists i; split; [reflexivity|apply in_seq; lia]]. }
  assert (PL : forall i, (i < N.to_nat n)%nat -> payload_is (g i) (piece (bk_data pl) (N.of_nat i * sz) (N.min sz (L - N.of_nat i * sz)))).
  { intros i Hi. unfold payload_is, g. rewrite ith_payload by assumption. eexists. split; reflexivity. }
  assert (LE : forall i, (i < N.to_nat n)%nat -> N.of_nat i * sz < L) by (intros i Hi; nia).
  assert (FO : Forall (fragment_of (bk_data pl)) fs').
  { apply Forall_forall. intros f Hf. apply IN in Hf. destruct Hf as (i & Hi & ->). specialize (LE i Hi). specialize (PL i Hi).
    eexists. split; [exact PL|]. rewrite (piece_length (bk_data pl)) by (fold L; lia). rewrite N2Nat.id. unfold g, ith. cbn [bv_primary copy_primary_fragment pr_off pr_total].
    rewrite N.add_0_l. fold L. split; [|split; [lia|split; reflexivity]].
    intros Z. apply (f_equal (@length N)) in Z. rewrite piece_length in Z by (fold L; lia). cbn in Z. lia. }
  assert (SB : same_bundle fs').
  { intros f f' Hf Hf'. apply IN in Hf, Hf'. destruct Hf as (i & Hi & ->), Hf' as (i' & Hi' & ->). split; [reflexivity|]. apply N.setbit_eq. }
  assert (CO : complete (bk_data pl) fs').
  { intros i Hi. fold L in Hi. assert (Q : i / sz < n). { apply N.div_lt_upper_bound; lia. }
    pose proof (N.div_mod i sz ltac:(lia)) as D. pose proof (N.mod_lt i sz ltac:(lia)) as M. set (q := i / sz) in *.
    exists (g (N.to_nat q)). split; [apply IN; exists (N.to_nat q); split; [lia|reflexivity]|].
    assert (Hq : (N.to_nat q < N.to_nat n)%nat) by lia. eexists. split; [apply PL; exact Hq|]. specialize (LE _ Hq). rewrite N2Nat.id in *.
    rewrite piece_length by (fold L; lia). unfold g, ith. cbn [bv_primary copy_primary_fragment pr_off]. rewrite N2Nat.id. clear -D M Hi LE. nia. }
  assert (NE : fs' <> []). { intros ->. assert (X : In (g 0%nat) []) by (apply IN; exists 0%nat; split; [lia|reflexivity]). destruct X. }
  destruct (assemble_ok last (bk_data pl) fs') as (f0 & l0 & I1 & I2 & I3 & EA); try assumption.
  { fold L. change (2 ^ 63) with 9223372036854775808 in HL. unfold W64. lia. }
  rewrite EA. do 2 f_equal. apply IN in I1, I2. destruct I1 as (i & Hi & ->), I2 as (j & Hj & ->).
  assert (i = 0%nat).
  { specialize (I3 (g 0%nat) ltac:(apply IN; exists 0%nat; split; [lia|reflexivity])). unfold g, ith in I3. cbn [bv_primary copy_primary_fragment pr_off] in I3. nia. }
  assert (j = (N.to_nat n - 1)%nat).
  { specialize (I3 (g (N.to_nat n - 1)%nat) ltac:(apply IN; exists (N.to_nat n - 1)%nat; split; [lia|reflexivity])). unfold g, ith in I3. cbn [bv_primary copy_primary_fragment pr_off] in I3. nia. }
  subst i j. unfold g, ith. cbn [bv_primary bv_blocks]. change (Nat.eqb 0 0) with true. cbv iota.
  replace (Nat.eqb (S (N.to_nat n - 1)) (N.to_nat n)) with true by (symmetry; apply Nat.eqb_eq; lia).
  rewrite before_split by assumption. rewrite after_split; [| |exact PP].
  2:{ destruct (Nat.eqb_spec (N.to_nat n - 1) 0); [lia|]. now apply filter_repl_none. }
  destruct orig as [[fl sr ts of to ot] bl]. cbn [bv_primary bv_blocks pr_off pr_total pr_flags] in *. subst of to. rewrite HB. destruct pl as [pt pf pd].
  unfold cut. cbn [bk_type bk_flags bk_data]. rewrite <- app_assoc. cbn [app]. f_equal.
  unfold copy_primary_nofragment, copy_primary_fragment. cbn [pr_flags pr_src pr_ts pr_other]. f_equal.
  apply N.bits_inj. intros k. rewrite N.clearbit_eqb, N.setbit_eqb. destruct (N.eqb_spec 0 k) as [<-|]; [rewrite Hfl; reflexivity|]. now rewrite andb_true_r.
Qed.
Print Assumptions C32_roundtrip_in_any_order.
Example C32_roundtrip_in_any_order_ex : assemble true
  [mkBundle (exh 6) [mkBlock 20 1 [7]; mkBlock 1 0 [16]; mkBlock 6 0 [9]];
   mkBundle (exh 0) [mkBlock 20 1 [7]; mkBlock 5 0 [8]; mkBlock 1 0 [10;11;12]];
   mkBundle (exh 3) [mkBlock 20 1 [7]; mkBlock 1 0 [13;14;15]]] = Some (Some exb).
Proof. vm_compute. reflexivity. Qed.

(** Fragmenting a fragment gives fragments of the same application data unit covering the same bytes, so that data units
    cut up repeatedly still assemble (by the theorem above). *)
Theorem C32_fragments_of_a_fragment : forall adu orig sz fs, fragment_of adu orig -> N.of_nat (length adu) < 2 ^ 63 ->
  N.testbit (pr_flags (bv_primary orig)) 0 = true -> fragment orig sz = Some (Some fs) ->
  Forall (fragment_of adu) fs /\ (forall f, In f fs -> bundle_id f = bundle_id orig /\ N.testbit (pr_flags (bv_primary f)) 0 = true) /\
  forall i, has_byte orig i <-> exists f, In f fs /\ has_byte f i.
Proof.
  intros adu orig sz fs (d & (pl & EP & ED) & Hd & Ho & Hp & Ht) HW Hfl E.
  assert (F : sz <> 0 /\ sz < N.of_nat (length d) /\ no_fragment (bv_primary orig) = false).
  { unfold fragment in E. destruct (N.eqb_spec sz 0); [discriminate|]. destruct (no_fragment (bv_primary orig)) eqn:NF; [discriminate|].
    rewrite EP, ED in E. destruct (N.leb_spec (N.of_nat (length d)) sz); [discriminate|]. repeat split; assumption. }
  destruct F as (Hz & HS & Hnf). pose proof EP as EP'. unfold payload_blocks in EP'. destruct (payload_split _ _ EP') as (pre & post & HB & Npre & Npost & PP).
  set (base := pr_off (bv_primary orig)) in *. change (2 ^ 63) with 9223372036854775808 in HW.
  assert (B0 : base_of orig = base) by (unfold base_of, is_fragment; now rewrite Hfl).
  assert (T0 : total_of orig (N.of_nat (length d)) = N.of_nat (length adu)) by (unfold total_of, is_fragment; now rewrite Hfl).
  pose proof (fragment_ok orig sz pre pl post HB Npre Npost PP Hnf) as E'. cbv zeta in E'. rewrite ED, B0, T0 in E'.
  specialize (E' ltac:(lia) HS ltac:(change (2 ^ 63) with 9223372036854775808; lia) ltac:(unfold W64; lia)). rewrite E in E'. injection E' as ->.
  destruct (num_spec (N.of_nat (length d)) sz ltac:(lia) HS ltac:(change (2 ^ 63) with 9223372036854775808; lia)) as (N1 & N2 & N3 & N4).
  set (n := calc_num_fragments (N.of_nat (length d)) sz) in *. set (g := ith orig pre pl post base (N.of_nat (length adu)) sz n) in *.
  assert (PL : forall i, (i < N.to_nat n)%nat -> payload_is (g i) (piece d (N.of_nat i * sz) (N.min sz (N.of_nat (length d) - N.of_nat i * sz)))).
  { intros i Hi. unfold payload_is, g. rewrite ith_payload by assumption. rewrite ED. eexists. split; [reflexivity|]. unfold cut. cbn [bk_data]. now rewrite ED. }
  assert (LE : forall i, (i < N.to_nat n)%nat -> N.of_nat i * sz < N.of_nat (length d)) by (intros i Hi; nia).
  split; [|split].
  - apply Forall_forall. intros f Hf. apply in_map_iff in Hf. destruct Hf as (i & <- & Hi). apply in_seq in Hi.
    assert (Hi' : (i < N.to_nat n)%nat) by lia. specialize (LE i Hi'). eexists. split; [apply PL; exact Hi'|].
    rewrite piece_length by lia. rewrite N2Nat.id. unfold g, ith. cbn [bv_primary copy_primary_fragment pr_off pr_total].
    split; [|split; [lia|split; [|reflexivity]]].
    + intros Z. apply (f_equal (@length N)) in Z. rewrite piece_length in Z by lia. cbn in Z. lia.
    + rewrite Hp at 1. rewrite piece_piece by lia. reflexivity.
  - intros f Hf. apply in_map_iff in Hf. destruct Hf as (i & <- & Hi). split; [reflexivity|]. apply N.setbit_eq.
  - intros x. split.
    + intros (d' & D' & HX). assert (d' = d) by (apply (payload_is_fun orig); [exact D'|now exists pl]). subst d'. fold base in HX.
      assert (Q : (x - base) / sz < n). { apply N.div_lt_upper_bound; lia. }
      pose proof (N.div_mod (x - base) sz ltac:(lia)) as D. pose proof (N.mod_lt (x - base) sz ltac:(lia)) as M. set (q := (x - base) / sz) in *.
      exists (g (N.to_nat q)). split; [apply in_map_iff; exists (N.to_nat q); split; [reflexivity|apply in_seq; lia]|].
      assert (Hq : (N.to_nat q < N.to_nat n)%nat) by lia. eexists. split; [apply PL; exact Hq|]. specialize (LE _ Hq). rewrite N2Nat.id in *.
      rewrite piece_length by lia. unfold g, ith. cbn [bv_primary copy_primary_fragment pr_off]. rewrite N2Nat.id. clear -D M HX LE. nia.
    + intros (f & Hf & d' & D' & HX). apply in_map_iff in Hf. destruct Hf as (i & <- & Hi). apply in_seq in Hi.
      assert (Hi' : (i < N.to_nat n)%nat) by lia. specialize (LE i Hi'). rewrite (payload_is_fun _ _ _ D' (PL i Hi')) in HX.
      rewrite piece_length in HX by lia. unfold g, ith in HX. cbn [bv_primary copy_primary_fragment pr_off] in HX.
      exists d. split; [now exists pl|]. fold base. lia.
Qed.
Print Assumptions C32_fragments_of_a_fragment.
Example C32_fragments_of_a_fragment_ex : fragment (mkBundle (exh 3) [mkBlock 20 1 [7]; mkBlock 1 0 [13;14;15]]) 2 = Some (Some
  [mkBundle (exh 3) [mkBlock 20 1 [7]; mkBlock 1 0 [13;14]]; mkBundle (exh 5) [mkBlock 20 1 [7]; mkBlock 1 0 [15]]]).
Proof. vm_compute. reflexivity. Qed.

(** The fragment manager, fed any interleaving of fragments of any number of data units (one per bundle id): every arrival
    is accepted, a bundle comes out exactly when the fragments of its id received since its last completion contain every
    byte, and its payload is then that data unit. *)
Theorem C32_manager_completes_exactly : forall last adu m h f,
  (forall k, N.of_nat (length (adu k)) < W64) -> history last m h ->
  Forall (fun g => fragment_of (adu (bundle_id g)) g /\ N.testbit (pr_flags (bv_primary g)) 0 = true) (f :: map fst h) ->
  exists m' out, fmgr_add last m f = Some (m', true, out) /\
    (out <> None <-> complete (adu (bundle_id f)) (pending (bundle_id f) h ++ [f])) /\
    forall b, out = Some b -> payload_is b (adu (bundle_id f)).
Proof.
  intros last adu m h f HW HH HG. pose proof (Forall_inv HG) as Gf. pose proof (Forall_inv_tail HG) as Gr.
  destruct (fmgr_step last adu m h f HW (history_holds last adu m h HW HH Gr) Gr Gf) as (m' & out & A & _ & B & C & _).
  exists m', out. split; [exact A|]. split; [exact B|exact C].
Qed.
Print Assumptions C32_manager_completes_exactly.
Example C32_manager_completes_exactly_ex :
  let f1 := mkBundle (exh 0) [mkBlock 1 0 [10;11;12]] in let f2 := mkBundle (exh 3) [mkBlock 1 0 [13;14;15;16]] in
  match fmgr_add false [] f2 with
  | Some (m, true, None) => match fmgr_add false m f1 with
      | Some ([], true, Some b) => payload_blocks b = [mkBlock 1 0 [10;11;12;13;14;15;16]] | _ => False end
  | _ => False end.
Proof. vm_compute. reflexivity. Qed.

(** Fragments of different bundles, or bundles not marked as fragments, are never assembled together. *)
Theorem C32_foreign_fragments_refused : forall last fs f g, In f fs -> In g fs ->
  pr_src (bv_primary f) <> pr_src (bv_primary g) \/ pr_ts (bv_primary f) <> pr_ts (bv_primary g) \/
  N.testbit (pr_flags (bv_primary f)) 0 = false -> assemble last fs = Some None.
Proof.
  intros last fs f g Hf Hg H. unfold assemble. destruct (validate fs) eqn:V; [|reflexivity]. exfalso.
  destruct fs as [|h r]; [destruct Hf|]. unfold validate in V. rewrite forallb_forall in V.
  pose proof (V f Hf) as V1. pose proof (V g Hg) as V2. rewrite !andb_true_iff, !pair_eqb_eq in V1, V2. unfold is_fragment in V1. intuition congruence.
Qed.
Print Assumptions C32_foreign_fragments_refused.
Example C32_foreign_fragments_refused_ex : assemble false
  [mkBundle (exh 0) [mkBlock 1 0 [10;11;12]]; mkBundle (mkPrimary 17 (1,2) (3,5) 3 7 [99]) [mkBlock 1 0 [13;14;15;16]]] = Some None.
Proof. vm_compute. reflexivity. Qed.

(** The manager keeps bundles with different source or creation timestamp apart. *)
Theorem C32_manager_keeps_bundles_apart : forall last m f m' ret out src ts, fmgr_add last m f = Some (m', ret, out) ->
  src <> pr_src (bv_primary f) \/ ts <> pr_ts (bv_primary f) -> fmgr_get m' (src, ts) = fmgr_get m (src, ts).
Proof.
  intros last m f m' ret out src ts E H. assert (NE : bundle_id f <> (src, ts)) by (unfold bundle_id; intros E0; injection E0 as E1 E2; destruct H; congruence).
  unfold fmgr_add in E. destruct (negb (is_fragment (bv_primary f))); [injection E as <- _ _; reflexivity|].
  destruct (payload_blocks f) as [|pl [|q r]]; [injection E as <- _ _; now apply get_put_other| |injection E as <- _ _; now apply get_put_other].
  match type of E with (if ?c then _ else _) = _ => destruct c end; [injection E as <- _ _; now apply get_put_other|].
  match type of E with match ?c with Some _ => _ | None => _ end = _ => destruct c as [[b|]|]; [| |discriminate] end; injection E as <- _ _; now apply get_erase_other.
Qed.
Print Assumptions C32_manager_keeps_bundles_apart.
Example C32_manager_keeps_bundles_apart_ex :
  let f1 := mkBundle (exh 0) [mkBlock 1 0 [10;11;12]] in let f2 := mkBundle (mkPrimary 17 (1,2) (3,5) 3 7 [99]) [mkBlock 1 0 [13;14;15;16]] in
  match fmgr_add false [] f2 with
  | Some (m, true, None) => match fmgr_add false m f1 with
      | Some (m', true, None) => fmgr_get m' ((1,2),(3,5)) = ([f2], [(3,6)]) /\ fmgr_get m' ((1,2),(3,4)) = ([f1], [(0,2)]) | _ => False end
  | _ => False end.
Proof. vm_compute. split; reflexivity. Qed.

(** "Assemble refuses an incomplete collection" is false: the check that the fragments make up the whole bundle looks the
    expected range up in a set whose comparison treats overlapping ranges as equal, so any contiguous run passes and the
    missing bytes are zero. *)
Theorem C32_assemble_refuses_incomplete_refuted : exists adu fs b d, Forall (fragment_of adu) fs /\ same_bundle fs /\ ~ complete adu fs /\
  assemble false fs = Some (Some b) /\ payload_is b d /\ d <> adu.
Proof.
  exists [10;11;12;13;14;15;16], [mkBundle (exh 3) [mkBlock 1 0 [13;14;15]]], (mkBundle (mkPrimary 16 (1,2) (3,4) 0 0 [99]) [mkBlock 1 0 [0;0;0;13;14;15;0]]), [0;0;0;13;14;15;0].
  split; [|split; [|split; [|split; [|split]]]].
  - constructor; [|constructor]. exists [13;14;15]. split; [exists (mkBlock 1 0 [13;14;15]); split; reflexivity|]. cbn. repeat split; try discriminate. 
  - intros f g [<-|[]] [<-|[]]. split; reflexivity.
  - intros H. destruct (H 0 ltac:(reflexivity)) as (f & [<-|[]] & d & _ & HX). cbn in HX. lia.
  - vm_compute. reflexivity.
  - exists (mkBlock 1 0 [0;0;0;13;14;15;0]). split; reflexivity.
  - discriminate.
Qed.
Print Assumptions C32_assemble_refuses_incomplete_refuted.

(** "The manager only completes bundles whose bytes all arrived" is false for hostile fragments: a fragment announcing a
    smaller total length than the first one completes the bundle early, and a single fragment with an empty payload at
    offset 0 completes it at once. *)
Theorem C32_manager_never_early_refuted :
  (exists f g m b, fmgr_add false [] f = Some (m, true, None) /\ fmgr_add false m g = Some ([], true, Some b) /\
     payload_is f [10] /\ payload_is g [11] /\ payload_is b [10;11;0;0;0;0;0]) /\
  (exists f b, fmgr_add false [] f = Some ([], true, Some b) /\ payload_is f [] /\ payload_is b [0;0;0;0;0;0;0]).
Proof.
  split.
  - exists (mkBundle (exh 0) [mkBlock 1 0 [10]]), (mkBundle (mkPrimary 17 (1,2) (3,4) 1 2 [99]) [mkBlock 1 0 [11]]).
    eexists _, (mkBundle (mkPrimary 16 (1,2) (3,4) 0 0 [99]) [mkBlock 1 0 [10;11;0;0;0;0;0]]). split; [vm_compute; reflexivity|]. split; [vm_compute; reflexivity|].
    repeat split; eexists; split; reflexivity.
  - exists (mkBundle (exh 0) [mkBlock 1 0 []]), (mkBundle (mkPrimary 16 (1,2) (3,4) 0 0 [99]) [mkBlock 1 0 [0;0;0;0;0;0;0]]).
    split; [vm_compute; reflexivity|]. split; eexists; split; reflexivity.
Qed.
Print Assumptions C32_manager_never_early_refuted.

(** "Reassembly never writes outside its buffer" is false: offset plus length is compared after wrapping, so a fragment with
    an offset near 2^64 is copied to before the start of the buffer. *)
Theorem C32_manager_memory_safe_refuted : exists f g m, fmgr_add false [] f = Some (m, true, None) /\ fmgr_add false m g = None /\
  payload_is f [1;2;3] /\ payload_is g [10;11;12;13;14;15;16].
Proof.
  exists (mkBundle (exh (U64MAX - 1)) [mkBlock 1 0 [1;2;3]]), (mkBundle (exh 0) [mkBlock 1 0 [10;11;12;13;14;15;16]]).
  eexists. split; [vm_compute; reflexivity|]. split; [vm_compute; reflexivity|]. split; eexists; split; reflexivity.
Qed.
Print Assumptions C32_manager_memory_safe_refuted.
