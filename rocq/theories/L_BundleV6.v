(** Lemmas for C39: loading and rendering bundle views. *)
From Coq Require Import NArith ZArith List Bool Lia ZifyBool ZifyN.
From Verif Require Import Base M_FragmentSet M_Sdnv M_Acs M_Uri M_Bpv6Block M_BundleV6 S_FragmentSet S_Acs S_Sdnv S_Uri S_Bpv6 S_BundleV6 L_Sdnv P_Sdnv L_SdnvRead L_Acs
  L_Uri L_Bpv6Read L_Bpv6Load L_Bpv6Write L_Bpv6Trip.
Import ListNotations.
Open Scope N_scope.

Lemma load_exact last bs v : Forall is_byte bs -> (load last false bs = Some (Some v) <-> wire_bundle v bs /\ bundle_data last v).
Proof.
  intros Hb. split.
  - intros H. unfold load in H. destruct (prim_sound bs Hb) as [(E & _)|[E|(p & pb & rest & EB & W & E)]]; rewrite E in H; try discriminate. cbn [bind2] in H.
    assert (Hr : Forall is_byte rest) by (rewrite EB in Hb; now apply Forall_app in Hb).
    destruct (load_blocks_sound last (p_isadmin (p_flags p)) (S (length rest)) rest Hr ltac:(lia)) as (r & El & K). rewrite El in H. destruct r as [cs|]; [|discriminate].
    destruct (K cs eq_refl) as [KW KD]. cbn [bind2] in H. injection H as <-. rewrite admin_bit in KD. split; [|exact KD].
    exists pb, rest. cbn [v_prim v_pactual v_pdirty v_blocks v_bytes]. rewrite EB, firstn_drop. repeat split; assumption.
  - intros ((pb & cb & -> & W & PA & PD & WB & VB) & D). destruct v as [p pa pd l vb]. cbn [v_prim v_pactual v_pdirty v_blocks v_bytes] in *. subst pa pd vb.
    unfold load. rewrite (prim_complete p pb cb W Hb). cbn [bind2]. unfold bundle_data in D. cbn [v_prim v_blocks] in D. rewrite <- admin_bit in D. apply Forall_app in Hb.
    rewrite (load_blocks_complete last _ l cb WB D (proj2 Hb)) by lia. cbn [bind2]. now rewrite firstn_drop.
Qed.
Lemma load_undefined last bs : Forall is_byte bs -> (load last false bs = None <-> primary_runs_away bs).
Proof.
  intros Hb. split.
  - intros H. unfold load in H. destruct (prim_sound bs Hb) as [(E & A)|[E|(p & pb & rest & EB & W & E)]]; [exact A|rewrite E in H; discriminate|]. rewrite E in H. cbn [bind2] in H.
    assert (Hr : Forall is_byte rest) by (rewrite EB in Hb; now apply Forall_app in Hb).
    destruct (load_blocks_sound last (p_isadmin (p_flags p)) (S (length rest)) rest Hr ltac:(lia)) as (r & El & K). rewrite El in H. destruct r; discriminate.
  - intros A. unfold load. now rewrite (prim_away bs Hb A).
Qed.

(** ** Rendering blocks *)
Lemma set_last flags : N.lor flags last_flag = last_bit true flags.
Proof. unfold last_bit. now rewrite N.setbit_spec'. Qed.
Lemma clear_last flags : N.ldiff flags last_flag = last_bit false flags.
Proof. unfold last_bit. now rewrite N.clearbit_spec'. Qed.
Lemma last_bit_div (il : bool) (flags : N) : last_bit il flags / 128 = flags / 128.
Proof. destruct il; [apply setbit_low; lia|apply clearbit_low; lia]. Qed.
(** The flag correction at the start of a round. *)
Definition fix_last (il : bool) (c : cbv) : cbv := change_flags c last_flag (last_bit il (k_flags (c_blk c))).
Lemma fix_last_eq (il : bool) c : (if il then set_flag last_flag c else clear_flag last_flag c) = fix_last il c.
Proof. unfold fix_last, set_flag, clear_flag. rewrite set_last, clear_last. now destruct il. Qed.
Lemma refl_ok b flags : flags / 128 = k_flags b / 128 -> block_ok b -> block_ok (refl_block b flags).
Proof. intros E (A & B & C & D & F). repeat split; cbn; try assumption. now apply (div128_lt (k_flags b)); [symmetry|]. Qed.

(** One round of the loop. *)
Definition render_one (c1 : cbv) (w : wr) : option (option (cbv * wr)) :=
  if c_dirty c1 then
    try (b, w1) <- block_write (c_blk c1) w;
    if Nat.leb (snd w1 - snd w) 2 then Some None else
    Some (Some (mkCbv b (firstn (snd w1 - snd w) (skipn (snd w) (fst w1))) false (c_del c1), w1))
  else do w1 <- put_bytes (c_actual c1) w; Some (Some (c1, w1)).
Definition is_nil {A : Type} (l : list A) : bool := match l with [] => true | _ => false end.
Lemma render_step c r w : render_blocks (c :: r) w =
  try (c', w1) <- render_one (fix_last (is_nil r) c) w; try (r', w2) <- render_blocks r w1; Some (Some (c' :: r', w2)).
Proof.
  cbn [render_blocks]. rewrite <- fix_last_eq. replace (match r with [] => set_flag last_flag c | _ :: _ => clear_flag last_flag c end) with (if is_nil r then set_flag last_flag c else clear_flag last_flag c) by (now destruct r).
  set (c1 := if is_nil r then _ else _). unfold render_one. destruct (c_dirty c1).
  - destruct (block_write (c_blk c1) w) as [[[b w1]|]|]; try reflexivity. cbn [bind2]. destruct (Nat.leb (snd w1 - snd w) 2); [reflexivity|]. reflexivity.
  - destruct (put_bytes (c_actual c1) w); reflexivity.
Qed.
Lemma wok_slice size w pre w' bs : wok size w pre -> wok size w' (pre ++ bs) -> (snd w' - snd w)%nat = length bs /\ firstn (snd w' - snd w) (skipn (snd w) (fst w')) = bs.
Proof.
  intros (A & B & C) (A' & B' & C'). rewrite app_length in B'. assert (L : (snd w' - snd w)%nat = length bs) by lia. split; [exact L|].
  rewrite <- (firstn_skipn (snd w') (fst w')), C', <- app_assoc, B, skipn_len_app. replace (snd w' - length pre)%nat with (length bs) by lia. apply firstn_len_app.
Qed.
Lemma written_length type flags data bs : written_block type flags data bs -> (3 + length data <= length bs)%nat.
Proof.
  intros (f & l & -> & (Sf & _) & (Sl & _)). cbn [length]. rewrite !app_length. destruct Sf as (i & x & -> & _), Sl as (j & y & -> & _). rewrite !app_length. cbn [length]. lia.
Qed.
Lemma block_data_refl b flags data : block_data (refl_block b flags) data <-> block_data b data.
Proof. reflexivity. Qed.
Lemma one_byte_form type flags data bs : wire_block type flags data bs -> one_byte_flags bs -> exists rest, bs = type :: flags :: rest /\ flags < 128 /\
  forall flags', flags' < 128 -> wire_block type flags' data (type :: flags' :: rest).
Proof.
  intros (f & l & -> & BT & SF & SL) (t & x & rest & E & X). injection E as <- E. pose proof (sdnv_for_nonempty _ _ SF) as NE. destruct f as [|y f]; [congruence|]. cbn [app] in E. injection E as -> E.
  destruct (sdnv_low_first _ _ _ SF ltac:(lia)) as [-> ->]. cbn [app] in *. exists (l ++ data). split; [reflexivity|]. split; [exact X|].
  intros flags' F. exists [flags'], l. split; [reflexivity|]. split; [exact BT|]. split; [now apply one_byte_sdnv|exact SL].
Qed.
Lemma round_ok il c : c_del c = false -> sendable c ->
  exists c', sent_block il c c' /\ (rewritten c = c_dirty c -> (if c_dirty c then block_size (c_blk c) else Some (N.of_nat (length (c_actual c)))) = Some (N.of_nat (length (c_actual c')))) /\
    forall size w pre, wok size w pre -> (length pre + length (c_actual c') + 9 <= size)%nat ->
      exists w', render_one (fix_last il c) w = Some (Some (c', w')) /\ wok size w' (pre ++ c_actual c').
Proof.
  intros DL SD. set (flags' := last_bit il (k_flags (c_blk c))). set (b := refl_block (c_blk c) flags'). unfold sendable in SD. destruct (rewritten c) eqn:RW.
  - destruct SD as (OK & LD). assert (OKb : block_ok b) by (apply refl_ok; [apply last_bit_div|exact OK]). destruct (block_data_exists b OKb) as (data & BD).
    assert (L64 : N.of_nat (length data) < W64) by exact (LD data BD). destruct (block_write_ok b data OKb BD L64) as (bs & WB & SZ & WR).
    assert (CB : c_blk (fix_last il c) = b /\ c_dirty (fix_last il c) = true /\ c_del (fix_last il c) = false).
    { unfold fix_last, change_flags. fold flags'. unfold rewritten in RW. destruct (N.leb_spec (k_flags (c_blk c)) 127) as [Z|Z]; cbn [andb].
      - assert (c_dirty c = true) by (apply orb_true_iff in RW; destruct RW as [RW|RW]; [exact RW|apply N.ltb_lt in RW; lia]). change (last_flag <=? 127) with true. cbn [andb]. destruct (Nat.leb 2 (length (c_actual c))); cbn [c_blk c_dirty c_del]; auto.
      - auto. }
    destruct CB as (CB & CD & CL).
    exists (mkCbv (mkBlock (block_type b) (block_flags b) (N.of_nat (length data)) (Some data) (k_content b)) bs false false). cbn [c_actual]. split; [|split].
    + unfold sent_block. fold flags'. fold b. rewrite RW. cbn [c_dirty c_del c_blk k_content k_data k_len k_type k_flags c_actual]. repeat split. exists data. repeat split; assumption.
    + intros CDc. rewrite <- CDc. rewrite <- SZ. unfold block_size. f_equal.
      assert (LE : sdnv_num_bytes (k_flags (c_blk c)) = sdnv_num_bytes (k_flags b)).
      { destruct OK as (_ & F1 & _). destruct OKb as (_ & F2 & _). destruct (shortest_exists _ F1) as (e1 & S1). destruct (shortest_exists _ F2) as (e2 & S2).
        rewrite (C11_num_bytes_is_shortest_length _ _ F1 S1), (C11_num_bytes_is_shortest_length _ _ F2 S2). do 2 f_equal. apply (same_width (k_flags (c_blk c)) (k_flags b)); try assumption. symmetry. apply last_bit_div. }
      rewrite LE. reflexivity.
    + intros size w pre W L. destruct (WR size w pre W L) as (w' & E & W'). exists w'. split; [|exact W']. unfold render_one. rewrite CD, CB, E. cbn [bind2].
      destruct (wok_slice _ _ _ _ _ W W') as [SL SF]. rewrite SF, SL. pose proof (written_length _ _ _ _ WB) as WL. replace (Nat.leb (length bs) 2) with false by (symmetry; apply Nat.leb_gt; lia).
      now rewrite CL.
  - destruct SD as (data & KD & KL & WB & OB & BY). destruct (one_byte_form _ _ _ _ WB OB) as (rest & AE & F128 & WB').
    assert (F' : flags' < 128) by (pose proof (proj1 (div128_low (k_flags (c_blk c)) flags' (eq_sym (last_bit_div _ _))) ltac:(lia)); lia).
    assert (CD : c_dirty c = false) by (unfold rewritten in RW; now apply orb_false_iff in RW).
    assert (FX : fix_last il c = mkCbv b (k_type b :: flags' :: rest) false false).
    { unfold fix_last, change_flags. fold flags'. replace (k_flags (c_blk c) <=? 127) with true by lia. change (last_flag <=? 127) with true. rewrite AE. cbn [length Nat.leb andb].
      rewrite N.mod_small by lia. rewrite CD, DL. reflexivity. }
    exists (mkCbv b (k_type b :: flags' :: rest) false false). split; [|split].
    + unfold sent_block. fold flags'. fold b. rewrite RW. cbn [c_dirty c_del c_blk k_content k_data k_len k_type k_flags c_actual]. repeat split. exists data. unfold b. cbn [refl_block k_data k_len k_type k_flags]. repeat split; try assumption.
      exists rest. auto.
    + intros _. rewrite CD, AE. reflexivity.
    + intros size w pre W L. rewrite FX. unfold render_one. cbn [c_dirty c_actual]. destruct (put_bytes_writes (k_type b :: flags' :: rest) size w pre W) as (w' & E & W'); [cbn [c_actual] in L; lia|].
      exists w'. rewrite E. auto.
Qed.
Lemma sent_wire il c c' : sendable c -> sent_block il c c' -> cbv_wire c' (c_actual c') /\ N.testbit (k_flags (c_blk c')) 3 = il /\ Forall is_byte (c_actual c').
Proof.
  intros SD (CD & CL & CC & data & KD & KL & H). unfold sendable in SD. set (flags' := last_bit il (k_flags (c_blk c))) in *. set (b := refl_block (c_blk c) flags') in *.
  assert (T3 : N.testbit flags' 3 = il) by (unfold flags', last_bit; destruct il; [apply N.setbit_eq|apply N.clearbit_eq]).
  destruct (rewritten c).
  - destruct SD as (OK & LD). destruct H as (BD & KT & KF & WB). assert (OKb : block_ok b) by (apply refl_ok; [apply last_bit_div|exact OK]).
    pose proof (written_wire_block _ _ _ _ (block_type_byte b OKb) (block_flags_64 b OKb) (LD data BD) WB) as WW. split; [|split].
    + exists data. rewrite KT, KF. repeat split; assumption.
    + rewrite KF. unfold block_flags. change (k_flags b) with flags'. destruct (k_content b); try exact T3; rewrite N.setbit_eqb; cbn; exact T3.
    + destruct WB as (f & l & -> & SF & SL). constructor; [now apply block_type_byte|]. pose proof (shortest_bytes _ _ SF). pose proof (shortest_bytes _ _ SL). pose proof (block_data_bytes b data OKb BD).
      repeat (apply Forall_app; split); assumption.
  - destruct SD as (data0 & KD0 & KL0 & WB & OB & BY). destruct H as (KD1 & KT & KF & rest & A1 & A2). rewrite KD0 in KD1. injection KD1 as ->.
    destruct (one_byte_form _ _ _ _ WB OB) as (rest' & AE & F128 & WB'). rewrite AE in A1. injection A1 as <-. 
    assert (F' : flags' < 128) by (pose proof (proj1 (div128_low (k_flags (c_blk c)) flags' (eq_sym (last_bit_div _ _))) ltac:(lia)); lia). split; [|split].
    + exists data. rewrite KT, KF, A2. repeat split; try assumption. now apply WB'.
    + rewrite KF. exact T3.
    + rewrite A2. rewrite AE in BY. apply Forall_cons_iff in BY. destruct BY as [B1 BY]. apply Forall_inv_tail in BY. constructor; [exact B1|]. constructor; [unfold is_byte; change (k_flags b) with flags'; lia|exact BY].
Qed.
Definition actuals (l : list cbv) : list N := concat (map c_actual l).
Lemma blocks_ok cs : Forall sendable cs -> Forall (fun c => c_del c = false) cs ->
  exists cs', sent_blocks cs cs' /\ (Forall (fun c => rewritten c = c_dirty c) cs -> blocks_size cs = Some (Some (N.of_nat (length (actuals cs'))))) /\
    forall size w pre, wok size w pre -> (length pre + length (actuals cs') + 9 <= size)%nat ->
      exists w', render_blocks cs w = Some (Some (cs', w')) /\ wok size w' (pre ++ actuals cs').
Proof.
  intros SD. induction SD as [|c cs S SD IH]; intros DL.
  - exists []. split; [constructor|]. split; [reflexivity|]. intros size w pre W _. exists w. cbn. rewrite app_nil_r. auto.
  - destruct (IH (Forall_inv_tail DL)) as (cs' & I1 & I2 & I3). destruct (round_ok (is_nil cs) c (Forall_inv DL) S) as (c' & R1 & R2 & R3). exists (c' :: cs'). split; [|split].
    + destruct cs as [|d cs]; [inversion I1; subst; now constructor|now constructor].
    + intros F. cbn [blocks_size]. rewrite (Forall_inv DL). specialize (R2 (Forall_inv F)). rewrite (I2 (Forall_inv_tail F)).
      unfold actuals. cbn [map concat]. rewrite app_length. pose proof (sent_wire _ _ _ S R1) as ((data & _ & _ & _ & _ & _ & WB) & _). pose proof (wire_block_length _ _ _ _ WB) as LB.
      destruct (c_dirty c).
      * rewrite R2. replace (N.of_nat (length (c_actual c')) <=? 2) with false by lia. cbn [bind2]. do 2 f_equal. unfold actuals. lia.
      * injection R2 as R2. cbn [bind2]. do 2 f_equal. unfold actuals. lia.
    + intros size w pre W L. unfold actuals in L. cbn [map concat] in L. rewrite app_length in L. fold (actuals cs') in L. rewrite render_step.
      destruct (R3 size w pre W) as (w1 & -> & W1); [lia|]. cbn [bind2]. destruct (I3 size w1 _ W1) as (w2 & -> & W2); [rewrite app_length; lia|]. cbn [bind2]. exists w2. split; [reflexivity|].
      unfold actuals. cbn [map concat]. rewrite app_assoc. exact W2.
Qed.
Lemma kept_del l : Forall (fun c => c_del c = false) (kept l).
Proof. apply Forall_forall. intros c H. apply filter_In in H. now destruct (c_del c). Qed.
Lemma sent_wires cs cs' : sent_blocks cs cs' -> Forall sendable cs -> cs <> [] -> wire_blocks cs' (actuals cs') /\ Forall is_byte (actuals cs').
Proof.
  induction 1 as [|c c' S|c c' d cs cs' S H IH]; intros SD NE; [congruence|..].
  - destruct (sent_wire _ _ _ (Forall_inv SD) S) as (A & B & C). unfold actuals. cbn [map concat]. rewrite app_nil_r. split; [now constructor|exact C].
  - destruct (sent_wire _ _ _ (Forall_inv SD) S) as (A & B & C). destruct (IH (Forall_inv_tail SD) ltac:(discriminate)) as (D & E). unfold actuals. cbn [map concat]. split; [now constructor|].
    apply Forall_app. auto.
Qed.

(** ** Rendering views *)
Lemma shortest_all_same vs a : shortest_all vs a -> forall b, shortest_all vs b -> a = b.
Proof. induction 1 as [|v sd vs bs S H IH]; intros b B; inversion B as [|? sd' ? bs' S' H']; subst; [reflexivity|]. rewrite (shortest_same v sd sd' S S'), (IH _ H'). reflexivity. Qed.
Lemma shortest_all_bound vs bs : shortest_all vs bs -> Forall (fun v => v < W64) vs -> (length bs <= 10 * length vs)%nat.
Proof. induction 1 as [|v sd vs bs S H IH]; intros F; [cbn; lia|]. rewrite app_length. cbn [length]. pose proof (shortest_bound v sd (Forall_inv F) S). specialize (IH (Forall_inv_tail F)). lia. Qed.
(** The primary block as rendered. *)
Definition render_prim (v : view) (w : wr) : option (option (prim * list N * wr)) :=
  if v_pdirty v then try (p, w1) <- prim_write (v_prim v) w; Some (Some (p, firstn (snd w1 - snd w) (skipn (snd w) (fst w1)), w1))
  else do w1 <- put_bytes (v_pactual v) w; Some (Some (v_prim v, v_pactual v, w1)).
Definition prim_ready (v : view) : Prop := if v_pdirty v then prim_ok (v_prim v) else wire_primary (v_prim v) (v_pactual v).
Definition prim_need (v : view) : option (option N) := if v_pdirty v then prim_size (v_prim v) else Some (Some (N.of_nat (length (v_pactual v)))).
Lemma primary_ok v : prim_ready v ->
  (primary_fits v /\ exists p pa, (if v_pdirty v then same_primary (v_prim v) p /\ written_primary p pa else p = v_prim v /\ pa = v_pactual v) /\
     prim_need v = Some (Some (N.of_nat (length pa))) /\
     forall size w pre, wok size w pre -> (length pre + length pa + 9 <= size)%nat -> exists w', render_prim v w = Some (Some (p, pa, w')) /\ wok size w' (pre ++ pa)) \/
  (~ primary_fits v /\ v_pdirty v = true /\ prim_need v = Some None /\ forall size w pre, wok size w pre -> (length pre + 161 <= size)%nat -> render_prim v w = Some None).
Proof.
  unfold prim_ready, render_prim, prim_need, primary_fits. destruct (v_pdirty v); intros OK.
  - destruct (prim_write_ok (v_prim v) OK) as (f & sd & fr & H). cbv zeta in H. destruct H as (SF & SD & SR & SZ & WR). set (n := N.of_nat (length sd + length fr)) in *.
    set (bs := 6 :: f ++ n :: sd ++ fr) in *. set (p := with_len (v_prim v) n).
    destruct (N.ltb_spec 127 n) as [Z|Z].
    + right. split; [|split; [reflexivity|split; [exact SZ|]]].
      * intros H. destruct (H eq_refl) as (n' & bs' & f' & l' & sd' & fr' & _ & _ & EL & E & L & S1 & S2). cbn [p_flags p_len p_dest p_src p_report p_cust p_time p_seq p_life p_off p_total] in *.
        rewrite (shortest_all_same _ _ S1 _ SD) in E. rewrite (shortest_all_same _ _ S2 _ SR) in E. rewrite EL, E in L. unfold n in Z. lia.
      * intros size w pre W L. rewrite (WR size w pre W); [reflexivity|]. unfold bs. cbn [length]. rewrite app_length. cbn [length]. rewrite app_length.
        destruct OK as (OK & _). repeat (apply Forall_cons_iff in OK; destruct OK as [? OK]). assert (OF : p_flags (v_prim v) < W64) by assumption; pose proof (shortest_bound _ _ OF SF).
        assert (LS : (length sd <= 120)%nat) by (apply (shortest_all_bound _ _ SD); unfold prim_fields; cbn [app]; repeat constructor; try assumption; unfold W64; lia).
        assert (LR : (length fr <= 20)%nat) by (destruct (fragment_flag (p_flags (v_prim v))); [apply (shortest_all_bound _ _ SR); repeat constructor; assumption|inversion SR; cbn; lia]). lia.
    + left. assert (WP : written_primary p bs).
      { exists f, n, sd, fr. unfold p, with_len. cbn [p_flags p_len p_dest p_src p_report p_cust p_time p_seq p_life p_off p_total]. split; [reflexivity|]. split; [exact SF|]. split; [reflexivity|]. split; [reflexivity|]. split; [exact Z|]. split; [exact SD|exact SR]. }
      split; [intros _; exists n, bs; exact WP|]. exists p, bs. split; [split; [reflexivity|exact WP]|]. split; [exact SZ|].
      intros size w pre W L. destruct (WR size w pre W L) as (w' & -> & W'). cbn [bind2]. exists w'. split; [|exact W']. destruct (wok_slice _ _ _ _ _ W W') as [_ ->]. reflexivity.
  - left. split; [discriminate|]. exists (v_prim v), (v_pactual v). split; [auto|]. split; [reflexivity|]. intros size w pre W L. destruct (put_bytes_writes (v_pactual v) size w pre W) as (w' & -> & W'); [lia|]. eauto.
Qed.
Lemma blocks_size_kept l : blocks_size (kept l) = blocks_size l.
Proof.
  induction l as [|c l IH]; [reflexivity|]. unfold kept. cbn [filter blocks_size]. destruct (c_del c) eqn:D; cbn [negb].
  - fold (kept l). rewrite IH. cbn [bind2]. destruct (blocks_size l) as [[m|]|]; reflexivity.
  - fold (kept l). cbn [blocks_size]. rewrite D, IH. reflexivity.
Qed.
Lemma render_at_eq v w : render_at v w =
  try (p, pa, w1) <- render_prim v w; try (l, w2) <- render_blocks (kept (v_blocks v)) w1; Some (Some (mkView p pa false l (v_bytes v), w2)).
Proof. reflexivity. Qed.
Lemma view_size_eq v : view_size v = try p <- prim_need v; try n <- blocks_size (v_blocks v); Some (Some (p + n)).
Proof. reflexivity. Qed.
Lemma render_ok v : view_ok v -> primary_fits v ->
  exists v', sent v v' /\
    (Forall (fun c => rewritten c = c_dirty c) (kept (v_blocks v)) -> view_size v = Some (Some (N.of_nat (length (v_bytes v'))))) /\
    forall maxSize mem junk, (0 < maxSize)%nat -> (maxSize + 32 <= length mem)%nat -> (length (v_bytes v') + 9 <= length mem)%nat ->
      render v maxSize mem junk = Some (Some (if Nat.leb (length (v_bytes v')) (length mem - 32) then Rendered v'
                                              else RenderedMoved (firstn maxSize (v_bytes v') ++ firstn (length (v_bytes v') - maxSize) junk))).
Proof.
  intros (PR & SD) PF. destruct (primary_ok v PR) as [(_ & p & pa & HP & PN & PW)|(NF & _)]; [|contradiction].
  destruct (blocks_ok _ SD (kept_del _)) as (cs' & SB & BZ & BW). exists (mkView p pa false cs' (pa ++ actuals cs')). split; [|split].
  - unfold sent, sent_primary. cbn [v_pdirty v_prim v_pactual v_blocks v_bytes]. repeat split; assumption.
  - intros F. rewrite view_size_eq, PN, <- blocks_size_kept, (BZ F). cbn [bind2 v_bytes]. do 2 f_equal. rewrite app_length. lia.
  - intros maxSize mem junk M0 M1 L. cbn [v_bytes] in *. rewrite app_length in L. unfold render. replace (Nat.eqb maxSize 0) with false by (symmetry; apply Nat.eqb_neq; lia).
    replace (Nat.ltb (length mem) (maxSize + 32)) with false by (symmetry; apply Nat.ltb_ge; lia). cbn [orb]. rewrite render_at_eq.
    destruct (PW _ _ _ (wok_start mem)) as (w1 & -> & W1); [cbn [length]; lia|]. cbn [bind2]. destruct (BW _ _ _ W1) as (w2 & -> & W2); [cbn [app length]; lia|]. cbn [bind2]. cbn [app] in W2.
    cbn [v_prim v_pactual v_pdirty v_blocks]. destruct W2 as (A & B & C). rewrite <- B. destruct (Nat.leb_spec (snd w2) (length mem - 32)) as [Z|Z]; [now rewrite C|].
    do 4 f_equal. rewrite <- C. rewrite firstn_firstn. f_equal. lia.
Qed.
Lemma render_fails v : view_ok v -> ~ primary_fits v ->
  view_size v = Some None /\ forall maxSize mem junk, (0 < maxSize)%nat -> (maxSize + 32 <= length mem)%nat -> (161 <= length mem)%nat -> render v maxSize mem junk = Some None.
Proof.
  intros (PR & SD) NF. destruct (primary_ok v PR) as [(PF & _)|(_ & _ & PN & PW)]; [contradiction|]. split; [rewrite view_size_eq, PN; reflexivity|].
  intros maxSize mem junk M0 M1 L. unfold render. replace (Nat.eqb maxSize 0) with false by (symmetry; apply Nat.eqb_neq; lia).
  replace (Nat.ltb (length mem) (maxSize + 32)) with false by (symmetry; apply Nat.ltb_ge; lia). cbn [orb]. rewrite render_at_eq, (PW _ _ _ (wok_start mem)); [reflexivity|cbn [length]; lia].
Qed.
(** ** The rendered bundle *)
Lemma same_primary_ok p p' : same_primary p p' -> prim_ok p -> prim_ok p'.
Proof. intros -> (A & B). split; cbn; assumption. Qed.
Lemma sdnvs_bytes vs bs : sdnvs vs bs -> Forall is_byte bs.
Proof. induction 1 as [|v sd vs bs S H IH]; [constructor|]. apply Forall_app. split; [exact (sdnv_for_bytes _ _ S)|exact IH]. Qed.
Lemma wire_primary_bytes p bs : wire_primary p bs -> Forall is_byte bs.
Proof.
  intros (sd & fr & -> & S & F). constructor; [unfold is_byte; lia|]. apply Forall_app. split; [exact (sdnvs_bytes _ _ S)|]. destruct (fragment_flag (p_flags p)); [exact (sdnvs_bytes _ _ F)|destruct F as (-> & _); constructor].
Qed.
Lemma sent_wire_primary v v' : view_ok v -> sent v v' -> wire_primary (v_prim v') (v_pactual v').
Proof.
  intros (PR & _) (_ & SP & _). unfold sent_primary in SP. destruct (v_pdirty v); [|destruct SP as (-> & ->); exact PR]. destruct SP as (S & W). apply written_wire_primary; [|exact W]. now apply (same_primary_ok (v_prim v)).
Qed.
Lemma sent_wire_bundle v v' : view_ok v -> sent v v' -> kept (v_blocks v) <> [] -> wire_bundle v' (v_bytes v') /\ Forall is_byte (v_bytes v').
Proof.
  intros OK SE NE. pose proof (sent_wire_primary v v' OK SE) as WP. destruct OK as (PR & SD). destruct SE as (PD & SP & SB & VB). destruct (sent_wires _ _ SB SD NE) as (WB & BY). rewrite VB.
  split; [exists (v_pactual v'), (actuals (v_blocks v')); repeat split; assumption|]. apply Forall_app. split; [exact (wire_primary_bytes _ _ WP)|exact BY].
Qed.
Lemma sent_data last isAdmin cs cs' : sent_blocks cs cs' -> Forall sendable cs -> Forall (cbv_std last isAdmin) cs -> Forall (cbv_data last isAdmin) cs'.
Proof.
  assert (One : forall il c c', sent_block il c c' -> sendable c -> cbv_std last isAdmin c -> cbv_data last isAdmin c').
  { intros il c c' (CD & CL & CC & data & KD & KL & H) SD ST. unfold cbv_std in ST. unfold sendable in SD. destruct (rewritten c).
    - destruct SD as (OK & LD). destruct H as (BD & KT & KF & WB). exists data. split; [exact KD|]. rewrite KT, CC.
      refine (data_back last isAdmin (refl_block (c_blk c) (last_bit il (k_flags (c_blk c)))) data _ ST BD). apply refl_ok; [apply last_bit_div|exact OK].
    - destruct H as (KD1 & KT & KF & _). destruct ST as (d & E & F). rewrite KD1 in E. injection E as <-. exists data. split; [exact KD|]. rewrite KT, CC. exact F. }
  induction 1 as [|c c' S|c c' d cs cs' S H IH]; intros SD ST; constructor.
  - exact (One true c c' S (Forall_inv SD) (Forall_inv ST)).
  - constructor.
  - exact (One false c c' S (Forall_inv SD) (Forall_inv ST)).
  - apply IH; [exact (Forall_inv_tail SD)|exact (Forall_inv_tail ST)].
Qed.
Lemma sent_flags v v' : sent v v' -> p_flags (v_prim v') = p_flags (v_prim v).
Proof. intros (_ & SP & _). unfold sent_primary in SP. destruct (v_pdirty v); [destruct SP as (S & _); rewrite S; reflexivity|destruct SP as (-> & _); reflexivity]. Qed.
Lemma sent_load last v v' : view_ok v -> sent v v' -> kept (v_blocks v) <> [] -> Forall (cbv_std last (admin_flag (p_flags (v_prim v)))) (kept (v_blocks v)) ->
  load last false (v_bytes v') = Some (Some v').
Proof.
  intros OK SE NE ST. destruct (sent_wire_bundle v v' OK SE NE) as (WB & BY). apply load_exact; [exact BY|]. split; [exact WB|]. unfold bundle_data. rewrite (sent_flags _ _ SE).
  destruct OK as (_ & SD). destruct SE as (_ & _ & SB & _). exact (sent_data _ _ _ _ SB SD ST).
Qed.

(** ** Loaded views *)
Lemma wire_kept cs bs : wire_blocks cs bs -> kept cs = cs /\ cs <> [].
Proof.
  induction 1 as [c bs (data & _ & _ & _ & _ & DL & _) T|c bs cs bs' (data & _ & _ & _ & _ & DL & _) T H (IH & _)]; unfold kept; cbn [filter]; rewrite DL; cbn [negb]; split; try discriminate; [reflexivity|].
  fold (kept cs). now rewrite IH.
Qed.
Lemma wire_actuals cs bs : wire_blocks cs bs -> actuals cs = bs.
Proof.
  induction 1 as [c bs (data & _ & _ & A & _) T|c bs cs bs' (data & _ & _ & A & _) T H IH]; unfold actuals; cbn [map concat]; rewrite A; [apply app_nil_r|]. fold (actuals cs). now rewrite IH.
Qed.
Lemma last_bit_id flags il : N.testbit flags 3 = il -> last_bit il flags = flags.
Proof.
  intros T. apply N.bits_inj. intros j. unfold last_bit. destruct il; [rewrite N.setbit_eqb|rewrite N.clearbit_eqb]; destruct (N.eqb_spec 3 j) as [<-|NE]; cbn [orb andb negb]; rewrite ?T, ?andb_true_r; reflexivity.
Qed.
Lemma block_eta b : mkBlock (k_type b) (k_flags b) (k_len b) (k_data b) (k_content b) = b.
Proof. now destruct b. Qed.
Lemma sent_same il c c' bs : sent_block il c c' -> cbv_wire c bs -> one_byte_flags bs -> N.testbit (k_flags (c_blk c)) 3 = il -> c' = c.
Proof.
  intros (CD & CL & CC & data & KD & KL & H) (data0 & KD0 & KL0 & A & D0 & DL & WB) OB T. destruct (one_byte_form _ _ _ _ WB OB) as (rest & AE & F & _).
  assert (RW : rewritten c = false) by (unfold rewritten; rewrite D0; cbn [orb]; apply N.ltb_ge; lia). rewrite RW in H. rewrite (last_bit_id _ _ T) in H. cbn [refl_block k_type k_flags] in H.
  destruct H as (K1 & K2 & K3 & rest' & E1 & E2). rewrite <- E1 in E2. rewrite K1 in KD0. injection KD0 as ->.
  destruct c as [[t fl ln kd kc] ac di de], c' as [[t' fl' ln' kd' kc'] ac' di' de']. cbn in *. subst. reflexivity.
Qed.
Lemma wire_actual c bs : cbv_wire c bs -> c_actual c = bs.
Proof. intros (data & _ & _ & A & _). exact A. Qed.
Lemma sent_id cs bs : wire_blocks cs bs -> Forall (fun c => one_byte_flags (c_actual c)) cs -> forall cs', sent_blocks cs cs' -> cs' = cs.
Proof.
  induction 1 as [c bs CW T|c bs cs bs' CW T H IH]; intros OB cs' S.
  - inversion S as [|? c' S1|]; subst. f_equal. pose proof (Forall_inv OB) as O. cbn beta in O. rewrite (wire_actual _ _ CW) in O. exact (sent_same _ _ _ _ S1 CW O T).
  - inversion S as [| |? c' d cs0 cs1 S1 S2]; subst; [inversion H|]. pose proof (Forall_inv OB) as O. cbn beta in O. rewrite (wire_actual _ _ CW) in O. f_equal; [exact (sent_same _ _ _ _ S1 CW O T)|].
    exact (IH (Forall_inv_tail OB) _ S2).
Qed.
Lemma wire_sendable cs bs : wire_blocks cs bs -> Forall is_byte bs -> Forall (fun c => one_byte_flags (c_actual c)) cs -> Forall sendable cs.
Proof.
  assert (One : forall c b, cbv_wire c b -> Forall is_byte b -> one_byte_flags (c_actual c) -> sendable c).
  { intros c b (data & KD & KL & A & D0 & DL & WB) BY OB. rewrite <- A in *. destruct (one_byte_form _ _ _ _ WB OB) as (rest & AE & F & _). unfold sendable.
    assert (RW : rewritten c = false) by (unfold rewritten; rewrite D0; cbn [orb]; apply N.ltb_ge; lia). rewrite RW. exists data. repeat split; assumption. }
  induction 1 as [c bs CW T|c bs cs bs' CW T H IH]; intros BY OB.
  - constructor; [exact (One c bs CW BY (Forall_inv OB))|constructor].
  - apply Forall_app in BY. constructor; [exact (One c bs CW (proj1 BY) (Forall_inv OB))|exact (IH (proj2 BY) (Forall_inv_tail OB))].
Qed.
Lemma loaded_ok v bs : wire_bundle v bs -> Forall is_byte bs -> Forall (fun c => one_byte_flags (c_actual c)) (v_blocks v) -> view_ok v /\ primary_fits v /\ kept (v_blocks v) = v_blocks v /\ v_blocks v <> [].
Proof.
  intros (pb & cb & -> & WP & PA & PD & WB & VB) BY OB. apply Forall_app in BY. destruct (wire_kept _ _ WB) as (K & NE). repeat split; try assumption.
  - rewrite PD, PA. exact WP.
  - rewrite K. exact (wire_sendable _ _ WB (proj2 BY) OB).
  - intros E. congruence.
Qed.
Lemma loaded_sent v bs v' : wire_bundle v bs -> Forall (fun c => one_byte_flags (c_actual c)) (v_blocks v) -> sent v v' -> v' = v.
Proof.
  intros (pb & cb & EB & WP & PA & PD & WB & VB) OB (D' & SP & SB & VB'). destruct (wire_kept _ _ WB) as (K & NE). rewrite K in SB. apply (sent_id _ _ WB OB) in SB.
  unfold sent_primary in SP. rewrite PD in SP. destruct SP as (S1 & S2). rewrite SB in VB'. fold (actuals (v_blocks v)) in VB'. rewrite (wire_actuals _ _ WB), S2, PA, <- EB, <- VB in VB'.
  destruct v as [p pa pd l vb], v' as [p' pa' pd' l' vb']. cbn in *. subst. reflexivity.
Qed.
