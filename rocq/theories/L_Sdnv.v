(** Lemmas for C11, C12. *)
From Coq Require Import NArith ZArith List Bool Lia ZifyBool ZifyN.
From Verif Require Import Base M_SegmentAlloc M_Intrin M_Sdnv S_Sdnv L_Intrin.
Import ListNotations.
Open Scope N_scope.

Local Notation cont := (Forall (fun x => 128 <= x)).

Lemma firstn_snoc (p : list N) b r : firstn (S (length p)) (p ++ b :: r) = p ++ [b].
Proof. induction p as [|x p IH]; cbn; [reflexivity|]. cbn in IH. now rewrite IH. Qed.
(** * Values *)
Lemma value_acc l : forall a, fold_left (fun a b => a * 128 + b mod 128) l a = a * 128 ^ N.of_nat (length l) + sdnv_value l.
Proof.
  unfold sdnv_value. induction l as [|b r IH]; intros a; cbn [fold_left length].
  - change (128 ^ N.of_nat 0) with 1. lia.
  - rewrite IH, (IH (0 * 128 + b mod 128)), Nat2N.inj_succ, N.pow_succ_r'. lia.
Qed.
Lemma value_cons b l : sdnv_value (b :: l) = (b mod 128) * 128 ^ N.of_nat (length l) + sdnv_value l.
Proof. unfold sdnv_value at 1. cbn [fold_left]. rewrite value_acc. lia. Qed.
Lemma value_app a b : sdnv_value (a ++ b) = sdnv_value a * 128 ^ N.of_nat (length b) + sdnv_value b.
Proof. unfold sdnv_value at 1. rewrite fold_left_app. apply value_acc. Qed.
Lemma value_bound l : sdnv_value l < 128 ^ N.of_nat (length l).
Proof.
  induction l as [|b r IH]; [reflexivity|]. rewrite value_cons. cbn [length]. rewrite Nat2N.inj_succ, N.pow_succ_r'.
  pose proof (N.mod_lt b 128). nia.
Qed.

(** * The decoders in closed form *)
Definition closed (maxb : nat) (lim : N) (bs : list N) : N * N :=
  let k := lead bs in
  if Nat.ltb k (length bs)
  then if Nat.ltb (S k) maxb || (Nat.eqb (S k) maxb && (hd 0 bs <=? lim))
       then (sdnv_value (firstn (S k) bs), N.of_nat (S k)) else (0, 0)
  else if Nat.ltb (length bs) maxb then (1, 0) else (0, 0).

Lemma closed_spec maxb lim bs : (2 <= maxb)%nat -> 128 <= lim -> bytes bs ->
  decode_spec maxb (128 ^ N.of_nat (maxb - 1) * (lim - 127)) bs (closed maxb lim bs).
Proof.
  intros Hm Hl Hb. unfold closed. destruct (Nat.ltb_spec (lead bs) (length bs)) as [L|L].
  - destruct (lead_split bs L) as (p & b & r & E & Lp & Fp & Cb). rewrite <- Lp.
    assert (Bp : bytes p) by (rewrite E in Hb; apply Forall_app in Hb; tauto).
    assert (Ef : firstn (S (length p)) bs = p ++ [b]).
    { rewrite E. apply firstn_snoc. }
    assert (Es : is_sdnv (p ++ [b])).
    { exists p, b. split; [reflexivity|]. split; [|exact Cb].
      unfold bytes in Bp. rewrite Forall_forall in *. intros x Hx. split; [now apply Fp|]. now apply Bp. }
    assert (Lb : length (p ++ [b]) = S (length p)) by (rewrite app_length; simpl; lia).
    pose proof (value_bound (p ++ [b])) as VB. rewrite Lb in VB.
    assert (P0 : 128 ^ N.of_nat (maxb - 1) <> 0) by (apply N.pow_nonzero; lia).
    destruct (Nat.ltb_spec (S (length p)) maxb) as [Q|Q]; cbn [orb].
    + rewrite Ef, <- Lb. apply DecOk with r; [rewrite E, <- app_assoc; reflexivity|exact Es|lia|].
      assert (128 ^ N.of_nat (S (length p)) <= 128 ^ N.of_nat (maxb - 1)) by (apply N.pow_le_mono_r; lia). nia.
    + destruct (Nat.eqb_spec (S (length p)) maxb) as [M|M]; cbn [andb].
      * destruct p as [|f p']; [simpl in M; lia|]. rewrite E. cbn [hd app].
        pose proof (Forall_inv Fp) as Ff. pose proof (Forall_inv Bp) as Bf. simpl in Ff, Bf.
        change (f :: p' ++ b :: r) with ((f :: p') ++ b :: r). rewrite <- E.
        assert (V : sdnv_value ((f :: p') ++ [b]) = (f - 128) * 128 ^ N.of_nat (maxb - 1) + sdnv_value (p' ++ [b])).
        { cbn [app]. rewrite value_cons. f_equal. f_equal; [|f_equal; f_equal; rewrite app_length; simpl in *; lia].
          replace f with ((f - 128) + 1 * 128) at 1 by lia. rewrite N.mod_add by lia. apply N.mod_small. lia. }
        pose proof (value_bound (p' ++ [b])) as VB'. rewrite app_length in VB'. 
        replace (length p' + length [b])%nat with (maxb - 1)%nat in VB' by (simpl in *; lia).
        destruct (f <=? lim) eqn:Q1.
        -- rewrite Ef, <- Lb. apply DecOk with r; [rewrite E, <- app_assoc; reflexivity|exact Es|lia|].
           rewrite V. nia.
        -- apply DecTooBig with ((f :: p') ++ [b]) r; [rewrite E, <- app_assoc; reflexivity|exact Es|lia|].
           rewrite V. nia.
      * apply DecTooLong with (firstn maxb p) (skipn maxb p ++ b :: r).
        -- rewrite app_assoc, firstn_skipn. exact E.
        -- apply firstn_length_le. lia.
        -- rewrite <- (firstn_skipn maxb p) in Fp. apply Forall_app in Fp. tauto.
  - assert (EA : lead bs = length bs) by (pose proof (lead_le bs); lia). apply lead_all in EA.
    destruct (Nat.ltb_spec (length bs) maxb) as [Q|Q].
    + now apply DecTruncated.
    + apply DecTooLong with (firstn maxb bs) (skipn maxb bs).
      * now rewrite firstn_skipn.
      * now apply firstn_length_le.
      * rewrite <- (firstn_skipn maxb bs) in EA. apply Forall_app in EA. tauto.
Qed.

(** decode_spec is functional. *)
Lemma is_sdnv_lead p r : is_sdnv p -> lead (p ++ r) = pred (length p) /\ (0 < length p)%nat.
Proof.
  intros (i & l & -> & F & L). rewrite <- app_assoc, lead_app.
  - rewrite app_length. simpl. replace (l <? 128) with true by lia. lia.
  - eapply Forall_impl; [|exact F]. cbn. lia.
Qed.
Lemma decode_spec_fun maxb w bs r1 r2 : decode_spec maxb w bs r1 -> decode_spec maxb w bs r2 -> r1 = r2.
Proof.
  assert (K : forall p r p' r', p ++ r = p' ++ r' -> is_sdnv p -> is_sdnv p' -> p = p').
  { intros p r p' r' E S S'. destruct (is_sdnv_lead p r S). destruct (is_sdnv_lead p' r' S'). rewrite E in H.
    assert (L : length p = length p') by lia. apply (f_equal (firstn (length p))) in E.
    rewrite firstn_app, firstn_all, Nat.sub_diag, firstn_O, app_nil_r in E.
    rewrite L, firstn_app, firstn_all, Nat.sub_diag, firstn_O, app_nil_r in E. exact E. }
  assert (K2 : forall p r p' r', p ++ r = p' ++ r' -> is_sdnv p -> length p' = maxb -> cont p' -> (length p <= maxb)%nat -> False).
  { intros p r p' r' E S L C LE. destruct (is_sdnv_lead p r S). rewrite E, lead_app in H by exact C. lia. }
  assert (K3 : forall p r, is_sdnv p -> cont (p ++ r) -> False).
  { intros p r S C. destruct (is_sdnv_lead p r S). pose proof (lead_app (p ++ r) [] C) as E. rewrite app_nil_r in E.
    simpl in E. rewrite app_length in E. lia. }
  intros H1 H2. destruct H1 as [p r E S L V|p r E S L V|p r E L C|L C]; destruct H2 as [p' r' E' S' L' V'|p' r' E' S' L' V'|p' r' E' L' C'|L' C'];
    try reflexivity; try (rewrite E in E'; pose proof (K _ _ _ _ E' S S'); subst p'; reflexivity || lia).
  - exfalso. rewrite E in E'. eauto.
  - exfalso. rewrite E in C'. eauto.
  - exfalso. rewrite E in C'. eauto.
  - exfalso. rewrite E' in E. eauto.
  - exfalso. rewrite E, app_length in L'. lia.
  - exfalso. rewrite E' in C. eauto.
  - exfalso. rewrite E' in C. eauto.
  - exfalso. rewrite E', app_length in L. lia.
Qed.

Lemma loop_closed maxb lim w : (2 <= maxb)%nat -> 128 <= lim -> w = 128 ^ N.of_nat (maxb - 1) * (lim - 127) ->
  forall bs p, bytes (p ++ bs) -> cont p -> (length p <= maxb)%nat ->
  sdnv_decode_loop maxb w lim (Nat.min (maxb - length p) (length bs)) (S (length p)) (hd 0 (p ++ bs)) (sdnv_value p mod w) bs
  = closed maxb lim (p ++ bs).
Proof.
  intros Hm Hl Hw. induction bs as [|b r IH]; intros p Hb Cp Lp.
  - unfold closed. rewrite app_nil_r. cbn [length]. rewrite Nat.min_0_r. cbn [sdnv_decode_loop].
    pose proof (lead_app p [] Cp) as E. rewrite app_nil_r in E. simpl in E. rewrite E, Nat.add_0_r, Nat.ltb_irrefl.
    destruct (Nat.eqb_spec (S (length p)) (S maxb)); destruct (Nat.ltb_spec (length p) maxb); try lia; reflexivity.
  - destruct (Nat.eq_dec (length p) maxb) as [L|L].
    + rewrite L, Nat.sub_diag. cbn [Nat.min sdnv_decode_loop]. rewrite Nat.eqb_refl. unfold closed.
      rewrite (lead_app p (b :: r) Cp).
      destruct (Nat.ltb_spec (length p + lead (b :: r)) (length (p ++ b :: r))).
      * destruct (Nat.ltb_spec (S (length p + lead (b :: r))) maxb); [lia|].
        destruct (Nat.eqb_spec (S (length p + lead (b :: r))) maxb); [lia|]. reflexivity.
      * destruct (Nat.ltb_spec (length (p ++ b :: r)) maxb); [rewrite app_length in *; lia|]. reflexivity.
    + assert (Bb : b < 256) by (apply Forall_app in Hb; destruct Hb as [_ Hb]; exact (Forall_inv Hb)).
      replace (Nat.min (maxb - length p) (length (b :: r))) with (S (Nat.min (maxb - S (length p)) (length r))) by (simpl; lia).
      cbn [sdnv_decode_loop]. rewrite land128_byte by exact Bb. rewrite land127.
      assert (R : N.shiftl (sdnv_value p mod w) 7 mod w + b mod 128 = sdnv_value (p ++ [b]) mod w).
      { rewrite value_app. cbn [length]. change (128 ^ N.of_nat 1) with 128. rewrite value_cons. cbn [length].
        change (128 ^ N.of_nat 0) with 1. change (sdnv_value []) with 0. rewrite N.mul_1_r, N.add_0_r.
        rewrite shiftl_mul. change (2 ^ 7) with 128.
        assert (Hw' : exists w', w = w' * 128 /\ w' <> 0).
        { exists (128 ^ N.of_nat (maxb - 2) * (lim - 127)). split.
          - rewrite Hw. replace (maxb - 1)%nat with (S (maxb - 2)) by lia. rewrite Nat2N.inj_succ, N.pow_succ_r'. lia.
          - assert (128 ^ N.of_nat (maxb - 2) <> 0) by (apply N.pow_nonzero; lia). nia. }
        destruct Hw' as (w' & Ew & Nw).
        assert (Nw2 : w <> 0) by lia.
        rewrite N.mul_mod_idemp_l by exact Nw2. rewrite Ew. rewrite N.mul_mod_distr_r by lia.
        set (V := sdnv_value p). pose proof (N.mod_lt b 128 ltac:(lia)). set (d := b mod 128) in *.
        apply N.mod_unique with (V / w').
        - pose proof (N.mod_lt V w' Nw). nia.
        - pose proof (N.div_mod V w' Nw). nia. }
      rewrite R. destruct (b <? 128) eqn:B1.
      * unfold closed. assert (LD : lead (p ++ b :: r) = length p) by (rewrite lead_app by exact Cp; simpl; rewrite B1; lia).
        rewrite LD. destruct (Nat.ltb_spec (length p) (length (p ++ b :: r))) as [Q|Q]; [|rewrite app_length in Q; simpl in Q; lia].
        assert (Ef : firstn (S (length p)) (p ++ b :: r) = p ++ [b]).
        { apply firstn_snoc. }
        pose proof (closed_spec maxb lim (p ++ b :: r) Hm Hl Hb) as CS. unfold closed in CS. rewrite LD in CS.
        destruct (Nat.ltb_spec (length p) (length (p ++ b :: r))) as [_|Q2]; [|lia].
        rewrite Ef in CS |- *. rewrite <- Hw in CS.
        destruct (Nat.ltb_spec (S (length p)) maxb) as [A|A]; cbn [orb] in *.
        -- destruct (Nat.eqb_spec (S (length p)) maxb); [lia|]. cbn [andb]. f_equal. apply N.mod_small.
           pose proof (value_bound (p ++ [b])) as VB. rewrite app_length in VB. 
           assert (128 ^ N.of_nat (length p + length [b]) <= 128 ^ N.of_nat (maxb - 1)) by (apply N.pow_le_mono_r; simpl; lia).
           nia.
        -- destruct (Nat.eqb_spec (S (length p)) maxb) as [M|M]; [|lia]. cbn [andb] in *.
           destruct (hd 0 (p ++ b :: r) <=? lim) eqn:H1; destruct (lim <? hd 0 (p ++ b :: r)) eqn:H2; try lia; [|reflexivity].
           f_equal. apply N.mod_small. inversion CS; subst; try lia.
      * replace (S (S (length p))) with (S (length (p ++ [b]))) by (rewrite app_length; simpl; lia).
        replace (maxb - S (length p))%nat with (maxb - length (p ++ [b]))%nat by (rewrite app_length; simpl; lia).
        replace (p ++ b :: r) with ((p ++ [b]) ++ r) in * by now rewrite <- app_assoc.
        apply IH; [exact Hb| |rewrite app_length; simpl; lia].
        apply Forall_app. split; [exact Cp|]. constructor; [lia|constructor].
Qed.
Lemma classic64_closed bs : bytes bs -> sdnv_decode64_classic bs = closed 10 0x81 bs.
Proof.
  intros H. unfold sdnv_decode64_classic, sdnv_decode_classic.
  exact (loop_closed 10 0x81 W64 ltac:(lia) ltac:(lia) ltac:(reflexivity) bs [] H (Forall_nil _) ltac:(simpl; lia)).
Qed.
Lemma classic32_closed bs : bytes bs -> sdnv_decode32_classic bs = closed 5 0x8f bs.
Proof.
  intros H. unfold sdnv_decode32_classic, sdnv_decode_classic.
  exact (loop_closed 5 0x8f W32 ltac:(lia) ltac:(lia) ltac:(reflexivity) bs [] H (Forall_nil _) ltac:(simpl; lia)).
Qed.

(** * The vector decoders *)
Definition bmask (k : nat) : list N := repeat 127 k ++ repeat 0 (8 - k).
Lemma mask7_rev l : mask7 l -> mask7 (rev l).
Proof. apply Forall_rev. Qed.
Lemma pext64_be bs ms : bytes bs -> length bs = 8%nat -> mask7 ms -> length ms = 8%nat ->
  pext64 (bswap64 (le_val bs)) (le_val ms) = gather7 (rev bs) ms.
Proof.
  intros. rewrite bswap64_le by assumption. unfold pext64. replace 64%nat with (8 * length ms)%nat by lia.
  apply pext_gather; [assumption|now apply bytes_rev|now rewrite rev_length, H0, H2].
Qed.
Lemma bytes_firstn n bs : bytes bs -> bytes (firstn n bs).
Proof. intros H. rewrite <- (firstn_skipn n bs) in H. apply Forall_app in H. tauto. Qed.
Lemma bytes_skipn n bs : bytes bs -> bytes (skipn n bs).
Proof. intros H. rewrite <- (firstn_skipn n bs) in H. apply Forall_app in H. tauto. Qed.
Definition m1_bytes (k : nat) : list N := rev (bmask (Nat.min 8 (S k))).
Definition m2_bytes (k : nat) : list N := rev (bmask (S k - 8)).
Lemma tables k : (k <= 9)%nat ->
  tab masksPdepPext1 (N.of_nat k) = Some (le_val (m1_bytes k)) /\
  tab masksPdepPext2 (N.of_nat k) = Some (le_val (m2_bytes k)) /\
  tab decodedShifts (N.of_nat k) = Some (7 * N.of_nat (S k - 8)) /\
  mask7 (m1_bytes k) /\ mask7 (m2_bytes k) /\ length (m1_bytes k) = 8%nat /\ length (m2_bytes k) = 8%nat.
Proof.
  intros H. do 10 (destruct k as [|k]; [split; [vm_compute; reflexivity|split; [vm_compute; reflexivity|split; [vm_compute; reflexivity|
    split; [|split; [|split; reflexivity]]]]]; unfold mask7; apply Forall_forall; vm_compute; intuition (auto; congruence)|]). lia.
Qed.

Ltac atomize := repeat match goal with |- context [?b mod 128] => 
  let d := fresh "d" in let H := fresh "Hd" in pose proof (N.mod_lt b 128 ltac:(lia)) as H; set (d := b mod 128) in * ; clearbody d end.

Lemma vec_value enc k : bytes enc -> (16 <= length enc)%nat -> (k <= 9)%nat -> lead enc = k ->
  (k = 9%nat -> hd 0 enc <= 0x81) ->
  N.lor ((N.shiftl (pext64 (bswap64 (le_val (firstn 8 enc))) (le_val (m1_bytes k))) (7 * N.of_nat (S k - 8))) mod W64)
        (pext64 (bswap64 (le_val (firstn 8 (skipn 8 enc)))) (le_val (m2_bytes k)))
  = sdnv_value (firstn (S k) enc) /\
  pext64 (bswap64 (le_val (firstn 8 (skipn 8 enc)))) (le_val (m2_bytes k)) < 65536.
Proof.
  intros Hb HL Hk Hlead H9.
  destruct (tables k Hk) as (_ & _ & _ & M1 & M2 & L1 & L2).
  assert (B1 : bytes (firstn 8 enc)) by now apply bytes_firstn.
  assert (B2 : bytes (firstn 8 (skipn 8 enc))) by now apply bytes_firstn, bytes_skipn.
  assert (Bn : hd 0 enc < 256) by (destruct enc as [|x enc']; [simpl; lia|exact (Forall_inv Hb)]).
  do 16 (destruct enc as [|? enc]; [simpl in HL; lia|]).
  cbn [firstn skipn hd] in *.
  rewrite pext64_be; [|exact B1|reflexivity|exact M1|exact L1].
  rewrite pext64_be; [|exact B2|reflexivity|exact M2|exact L2].
  clear M1 M2 L1 L2 B1 B2 Hb HL. rewrite shiftl_mul.
  assert (F : k = 9%nat -> n mod 128 <= 1).
  { intros K9. specialize (H9 K9). cbn [hd] in H9. rewrite K9 in Hlead. cbn [lead] in Hlead. destruct (n <? 128) eqn:Q; [discriminate|].
    replace n with (n - 128 + 1 * 128) by lia. rewrite N.mod_add, N.mod_small by lia. lia. }
  clear Hlead H9.
  do 10 (destruct k as [|k]; [
    match goal with |- context [gather7 ?a (m1_bytes ?kk)] => let v := eval vm_compute in (m1_bytes kk) in change (m1_bytes kk) with v end;
    match goal with |- context [gather7 ?a (m2_bytes ?kk)] => let v := eval vm_compute in (m2_bytes kk) in change (m2_bytes kk) with v end;
    cbn [rev app gather7]; change (127 =? 127) with true; change (0 =? 127) with false; cbv iota;
    cbn [firstn Nat.sub]; unfold sdnv_value; cbn [fold_left];
    change (2 ^ (7 * N.of_nat 0)) with 1; change (2 ^ (7 * N.of_nat 1)) with (2 ^ 7); change (2 ^ (7 * N.of_nat 2)) with (2 ^ 14);
    try specialize (F eq_refl); clear Bn; atomize; (split; [|lia]);
    rewrite N.mod_small by (unfold W64; lia);
    [> first [rewrite lor_low by lia | rewrite N.lor_0_r]; lia] |]).
  lia.
Qed.

Lemma bswap_masks k : (k <= 9)%nat -> let index1 := N.of_nat (S k) * 8 in
  bswap64 (bzhi 0x7f7f7f7f7f7f7f7f index1) = le_val (m1_bytes k) /\
  bswap64 (bextr 0x7f7f (256 + 80 - index1) 16) = le_val (m2_bytes k) /\
  popcnt 64 (bswap64 (bextr 0x7f7f (256 + 80 - index1) 16)) = 7 * N.of_nat (S k - 8).
Proof. intros H. do 10 (destruct k as [|k]; [split; [vm_compute; reflexivity|split; vm_compute; reflexivity]|]). lia. Qed.

Lemma valid_check k b lim : (k <= 32)%nat -> b < 256 -> lim < 256 -> forall m, (m <= 32)%nat ->
  ((N.lor (N.shiftl (N.of_nat k) 8) b) mod 65536 <=? N.of_nat m * 256 + lim) =
  (Nat.ltb (S k) (S m) || (Nat.eqb (S k) (S m) && (b <=? lim))).
Proof.
  intros Hk Hb Hl m Hm. rewrite shiftl_mul, lor_low by exact Hb. change (2 ^ 8) with 256.
  rewrite N.mod_small by lia. destruct (Nat.ltb_spec (S k) (S m)); destruct (Nat.eqb_spec (S k) (S m)); cbn [orb andb]; lia.
Qed.
Lemma valid_true k m b lim : Nat.ltb k m || (Nat.eqb k m && (b <=? lim)) = true -> (k <= m)%nat /\ (k = m -> b <= lim).
Proof. destruct (Nat.ltb_spec k m); destruct (Nat.eqb_spec k m); cbn [orb andb]; intros; split; intros; lia. Qed.
Lemma lead_firstn n bs : (n <= length bs)%nat -> lead (firstn n bs) = Nat.min n (lead bs).
Proof.
  revert bs. induction n as [|n IH]; intros bs H; [reflexivity|]. destruct bs as [|b r]; [simpl in H; lia|].
  cbn [firstn lead length] in *. destruct (b <? 128); [reflexivity|]. rewrite IH by lia. lia.
Qed.
Lemma hd_byte bs : bytes bs -> hd 0 bs < 256.
Proof. destruct bs as [|x r]; intros H; [simpl; lia|exact (Forall_inv H)]. Qed.

Lemma fast64_closed bs : bytes bs -> (16 <= length bs)%nat -> sdnv_decode64_fast bs = Some (closed 10 0x81 bs).
Proof.
  intros Hb HL. unfold sdnv_decode64_fast, read_n. replace (Nat.leb 16 (length bs)) with true by (symmetry; apply Nat.leb_le; exact HL).
  set (enc := firstn 16 bs). assert (Be : bytes enc) by now apply bytes_firstn.
  assert (Le : length enc = 16%nat) by (apply firstn_length_le; exact HL).
  pose proof (lead_firstn 16 bs HL) as LD. fold enc in LD.
  rewrite lsb_of_not_lead; [|exact Be|lia|lia].
  set (k := lead enc) in *.
  assert (Hh : hd 0 enc = hd 0 bs) by (destruct bs; [simpl in HL; lia|reflexivity]).
  cbv zeta. change 0x0981 with (N.of_nat 9 * 256 + 0x81).
  rewrite valid_check; [|lia|now apply hd_byte|lia|lia].
  rewrite (N.mod_small (N.of_nat k + 1)) by lia. rewrite (shiftl_mul _ 3). change (2 ^ 3) with 8.
  replace (N.of_nat k + 1) with (N.of_nat (S k)) by lia. rewrite (N.mod_small (N.of_nat (S k) * 8)) by lia.
  destruct (Nat.ltb (S k) 10 || (Nat.eqb (S k) 10 && (hd 0 enc <=? 0x81))) eqn:V.
  - assert (K : (k <= 9)%nat).
    { apply valid_true in V. lia. }
    assert (KE : lead bs = k) by lia.
    destruct (bswap_masks k K) as (E1 & E2 & E3). cbv zeta in E1, E2, E3. rewrite E3, E1, E2.
    destruct (vec_value enc k Be ltac:(lia) K eq_refl) as (VV & VB).
    { intros E. apply valid_true in V. lia. }
    replace (firstn 8 (skipn 8 enc)) with (skipn 8 enc) in VV, VB by (symmetry; apply firstn_all2; rewrite skipn_length; lia).
    rewrite (N.mod_small (pext64 _ _) 65536) by exact VB. rewrite VV. f_equal. unfold closed. rewrite KE.
    destruct (Nat.ltb_spec k (length bs)); [|lia]. rewrite <- Hh, V. f_equal.
    f_equal. unfold enc. rewrite firstn_firstn. f_equal. lia.
  - f_equal. unfold closed. 
    destruct (Nat.ltb_spec (lead bs) (length bs)).
    + destruct (Nat.eq_dec k (lead bs)) as [E|E].
      * rewrite <- E, <- Hh, V. reflexivity.
      * assert (16 <= lead bs)%nat by lia. destruct (Nat.ltb_spec (S (lead bs)) 10); [lia|].
        destruct (Nat.eqb_spec (S (lead bs)) 10); [lia|reflexivity].
    + destruct (Nat.ltb_spec (length bs) 10); [lia|reflexivity].
Qed.

Lemma fast32_value enc k : bytes enc -> length enc = 8%nat -> (k <= 4)%nat -> lead enc = k ->
  (k = 4%nat -> hd 0 enc <= 0x8f) ->
  pext64 (bswap64 (le_val enc)) (le_val (m1_bytes k)) mod W32 = sdnv_value (firstn (S k) enc).
Proof.
  intros Hb HL Hk Hlead H9.
  destruct (tables k ltac:(lia)) as (_ & _ & _ & M1 & _ & L1 & _).
  rewrite pext64_be; [|exact Hb|exact HL|exact M1|exact L1]. clear M1 L1.
  pose proof (hd_byte enc Hb) as Bn. clear Hb.
  do 8 (destruct enc as [|? enc]; [simpl in HL; lia|]). destruct enc; [|simpl in HL; lia]. cbn [hd] in *.
  assert (F : k = 4%nat -> n mod 128 <= 15).
  { intros K9. specialize (H9 K9). rewrite K9 in Hlead. cbn [lead] in Hlead. destruct (n <? 128) eqn:Q; [discriminate|].
    replace n with (n - 128 + 1 * 128) by lia. rewrite N.mod_add, N.mod_small by lia. lia. }
  clear Hlead H9 HL Bn.
  do 5 (destruct k as [|k]; [
    match goal with |- context [gather7 ?a (m1_bytes ?kk)] => let v := eval vm_compute in (m1_bytes kk) in change (m1_bytes kk) with v end;
    cbn [rev app gather7]; change (127 =? 127) with true; change (0 =? 127) with false; cbv iota;
    cbn [firstn]; unfold sdnv_value; cbn [fold_left];
    try specialize (F eq_refl); atomize; rewrite N.mod_small by (unfold W32; lia); lia|]).
  lia.
Qed.
Lemma fast32_closed bs : bytes bs -> (8 <= length bs)%nat -> sdnv_decode32_fast bs = Some (closed 5 0x8f bs).
Proof.
  intros Hb HL. unfold sdnv_decode32_fast, read_n. replace (Nat.leb 8 (length bs)) with true by (symmetry; apply Nat.leb_le; exact HL).
  set (enc := firstn 8 bs). assert (Be : bytes enc) by now apply bytes_firstn.
  assert (Le : length enc = 8%nat) by (apply firstn_length_le; exact HL).
  pose proof (lead_firstn 8 bs HL) as LD. fold enc in LD.
  rewrite lsb_of_not_lead; [|exact Be|lia|lia].
  set (k := lead enc) in *.
  assert (Hh : hd 0 enc = hd 0 bs) by (destruct bs; [simpl in HL; lia|reflexivity]).
  cbv zeta. change 0x048f with (N.of_nat 4 * 256 + 0x8f).
  rewrite valid_check; [|lia|now apply hd_byte|lia|lia].
  rewrite (N.mod_small (N.of_nat k + 1)) by lia. rewrite (shiftl_mul _ 3). change (2 ^ 3) with 8.
  replace (N.of_nat k + 1) with (N.of_nat (S k)) by lia. rewrite (N.mod_small (N.of_nat (S k) * 8)) by lia.
  destruct (Nat.ltb (S k) 5 || (Nat.eqb (S k) 5 && (hd 0 enc <=? 0x8f))) eqn:V.
  - assert (K : (k <= 4)%nat).
    { apply valid_true in V. lia. }
    assert (KE : lead bs = k) by lia.
    destruct (bswap_masks k ltac:(lia)) as (E1 & _ & _). cbv zeta in E1. rewrite E1.
    rewrite (fast32_value enc k Be Le K eq_refl).
    2:{ intros E. apply valid_true in V. lia. }
    f_equal. unfold closed. rewrite KE.
    destruct (Nat.ltb_spec k (length bs)); [|lia]. rewrite <- Hh, V. f_equal.
    f_equal. unfold enc. rewrite firstn_firstn. f_equal. lia.
  - f_equal. unfold closed. 
    destruct (Nat.ltb_spec (lead bs) (length bs)).
    + destruct (Nat.eq_dec k (lead bs)) as [E|E].
      * rewrite <- E, <- Hh, V. reflexivity.
      * assert (8 <= lead bs)%nat by lia. destruct (Nat.ltb_spec (S (lead bs)) 5); [lia|].
        destruct (Nat.eqb_spec (S (lead bs)) 5); [lia|reflexivity].
    + destruct (Nat.ltb_spec (length bs) 5); [lia|reflexivity].
Qed.
Lemma decode64_closed bs : bytes bs -> sdnv_decode64 bs = Some (closed 10 0x81 bs).
Proof.
  intros H. unfold sdnv_decode64. destruct (Nat.leb_spec 16 (length bs)); [now apply fast64_closed|].
  now rewrite classic64_closed.
Qed.
Lemma decode32_closed bs : bytes bs -> sdnv_decode32 bs = Some (closed 5 0x8f bs).
Proof.
  intros H. unfold sdnv_decode32. destruct (Nat.leb_spec 8 (length bs)); [now apply fast32_closed|].
  now rewrite classic32_closed.
Qed.

(** * Arrays *)
Fixpoint arr (n : nat) (bs : list N) : option (list N * N) :=
  match n with
  | O => Some ([], 0)
  | S n' => let (v, s) := closed 10 0x81 bs in
            if s =? 0 then (if v =? 0 then None else Some ([], 0))
            else match arr n' (skipn (N.to_nat s) bs) with
                 | None => None
                 | Some (vs, t) => Some (v :: vs, s + t)
                 end
  end.
Definition embed (acc : list N) (taken : N) (r : option (list N * N)) : sdnv_arr :=
  match r with None => ArrError | Some (vs, t) => ArrOk (rev acc ++ vs) (taken + t) end.
Definition prepend (vals : list N) (t : N) (r : option (list N * N)) : option (list N * N) :=
  match r with None => None | Some (vs, u) => Some (vals ++ vs, t + u) end.
Local Arguments closed : simpl never.

Lemma embed_step acc taken v s r : embed (v :: acc) (taken + s) r =
  embed acc taken (match r with None => None | Some (vs, t) => Some (v :: vs, s + t) end).
Proof.
  destruct r as [[vs t]|]; [|reflexivity]. unfold embed. cbn [rev]. rewrite <- app_assoc. cbn [app]. f_equal. lia.
Qed.
Lemma array_classic_loop_arr n : forall bs acc taken, bytes bs ->
  sdnv_array_classic_loop n bs acc taken = Some (embed acc taken (arr n bs)).
Proof.
  induction n as [|n IH]; intros bs acc taken H; cbn [sdnv_array_classic_loop arr].
  - unfold embed. now rewrite app_nil_r, N.add_0_r.
  - rewrite decode64_closed by exact H. destruct (closed 10 129 bs) as [v s].
    destruct (s =? 0); [destruct (v =? 0); unfold embed; [reflexivity|now rewrite app_nil_r, N.add_0_r]|].
    rewrite IH by now apply bytes_skipn. now rewrite embed_step.
Qed.
Lemma array_tail_arr n : forall bs acc taken, bytes bs ->
  sdnv_array_tail_loop n bs acc taken = embed acc taken (arr n bs).
Proof.
  induction n as [|n IH]; intros bs acc taken H; cbn [sdnv_array_tail_loop arr].
  - unfold embed. now rewrite app_nil_r, N.add_0_r.
  - rewrite classic64_closed by exact H. destruct (closed 10 129 bs) as [v s].
    destruct (s =? 0); [destruct (v =? 0); unfold embed; [reflexivity|now rewrite app_nil_r, N.add_0_r]|].
    rewrite IH by now apply bytes_skipn. now rewrite embed_step.
Qed.

Lemma shift_wide win size : length win = 32%nat -> (size <= 16)%nat ->
  alignr256 (permute_03 win) win size = skipn size win ++ repeat 0 size.
Proof.
  intros L H. do 32 (destruct win as [|? win]; [discriminate|]). destruct win; [|discriminate].
  do 17 (destruct size as [|size]; [reflexivity|]). lia.
Qed.
Lemma shift_narrow win size : length win = 16%nat -> (size <= 16)%nat ->
  shuffle_epi8 win (shuffle_row size) = skipn size win ++ repeat 0 size.
Proof.
  intros L H. do 16 (destruct win as [|? win]; [discriminate|]). destruct win; [|discriminate].
  do 17 (destruct size as [|size]; [reflexivity|]). lia.
Qed.
Lemma lead_zeros a m : lead (a ++ repeat 0 m) = lead a.
Proof. induction a as [|b a IH]; simpl; [destruct m; reflexivity|]. now rewrite IH. Qed.
Lemma bytes_zeros m : bytes (repeat 0 m).
Proof. induction m; simpl; constructor; [lia|assumption]. Qed.
Lemma le_val_mod bs : bytes bs -> le_val bs mod 256 = hd 0 bs.
Proof.
  destruct bs as [|b r]; intros H; [reflexivity|]. cbn [le_val hd]. pose proof (Forall_inv H) as Hb. simpl in Hb.
  replace (b + 256 * le_val r) with (b + le_val r * 256) by lia. rewrite N.mod_add by lia. now apply N.mod_small.
Qed.

Lemma skipn_add (A : Type) (l : list A) : forall a b, skipn a (skipn b l) = skipn (a + b) l.
Proof.
  induction l as [|x l IH]; intros a b; [now rewrite !skipn_nil|].
  destruct b; [now rewrite Nat.add_0_r, skipn_O|]. replace (a + S b)%nat with (S (a + b)) by lia. cbn [skipn]. apply IH.
Qed.
Definition vwidth (wide : bool) : nat := if wide then 32%nat else 16%nat.

Lemma closed_sdnv bs v s : bytes bs -> closed 10 129 bs = (v, s) -> s <> 0 ->
  exists p r, bs = p ++ r /\ is_sdnv p /\ (length p <= 10)%nat /\ sdnv_value p < W64 /\ v = sdnv_value p /\ s = N.of_nat (length p).
Proof.
  intros Hb E Hs. pose proof (closed_spec 10 129 bs ltac:(lia) ltac:(lia) Hb) as CS. change (128 ^ N.of_nat (10 - 1) * (129 - 127)) with W64 in CS.
  rewrite E in CS. inversion CS as [p r E1 S1 L1 V1 EV|p r E1 S1 L1 V1 EV|p r E1 L1 V1 EV|L1 V1 EV]; subst; try (now contradiction Hs).
  exists p, r. repeat split; assumption.
Qed.
Lemma away_next n p r : bytes (p ++ r) -> is_sdnv p -> (length p <= 10)%nat -> sdnv_value p < W64 -> (runs_away (S n) (p ++ r) <-> runs_away n r).
Proof.
  intros Hb Hp L V. split; [|intros H; now constructor]. intros H. inversion H as [n' q rest L1 F1 E1 E2|n' q rest S1 L1 V1 H1 E1 E2]; subst.
  - exfalso. destruct (is_sdnv_lead p r Hp) as (K & _). rewrite <- E2 in K.
    assert (LQ : (length q <= lead (q ++ rest))%nat).
    { rewrite lead_app by exact F1. lia. }
    lia.
  - destruct (is_sdnv_lead p r Hp) as (K & P0). destruct (is_sdnv_lead q rest S1) as (K2 & P1). rewrite E2 in K2.
    assert (EL : length q = length p) by lia.
    assert (G : forall a b : list N, skipn (length a) (a ++ b) = b) by (intros a b; rewrite skipn_app, skipn_all, Nat.sub_diag; reflexivity).
    rewrite <- (G p r), <- E2, <- EL, G. exact H1.
Qed.
Lemma away_lead n bs : bytes bs -> runs_away n bs -> (32 <= lead bs)%nat \/ exists v s, closed 10 129 bs = (v, s) /\ s <> 0.
Proof.
  intros Hb H. destruct H as [n q rest L1 F1|n q rest S1 L1 V1 H1].
  - left. rewrite lead_app by exact F1. lia.
  - right. exists (sdnv_value q), (N.of_nat (length q)). split; [|destruct S1 as (i & l & -> & _); rewrite app_length; cbn; lia].
    apply (decode_spec_fun 10 W64 (q ++ rest)).
    + replace W64 with (128 ^ N.of_nat (10 - 1) * (0x81 - 127)) by reflexivity. apply closed_spec; [lia|lia|exact Hb].
    + eapply DecOk; [reflexivity|exact S1|exact L1|exact V1].
Qed.
Lemma lead_away n bs : (32 <= lead bs)%nat -> runs_away (S n) bs.
Proof.
  intros Q. rewrite <- (firstn_skipn 32 bs). pose proof (lead_le bs) as LL. assert (FL : length (firstn 32 bs) = 32%nat) by (apply firstn_length_le; lia).
  constructor; [exact FL|]. apply lead_all. rewrite FL, lead_firstn by lia. lia.
Qed.

Definition multi_ok (wide : bool) (n : nat) (bs : list N) (rem : nat) (acc vals : list N) (total : N) : Prop :=
  (vals = [] /\ total = 0 /\ arr n bs = None /\ ~ runs_away n bs) \/
  exists new used, vals = rev acc ++ new /\ (used <= rem)%nat /\ total = N.of_nat (vwidth wide - rem + used) /\
     (length new <= n)%nat /\
     arr n bs = prepend new (N.of_nat used) (arr (n - length new) (skipn used bs)) /\
     (new = [] -> used = 0%nat /\ (n = 0%nat \/ rem = 0%nat \/ (rem <= lead bs)%nat)) /\
     (new <> [] -> (0 < used)%nat) /\ (runs_away n bs <-> runs_away (n - length new) (skipn used bs)).
Lemma multi_ok_stop wide n bs rem acc : (rem <= vwidth wide)%nat -> (n = 0 \/ rem = 0 \/ (rem <= lead bs))%nat ->
  multi_ok wide n bs rem acc (rev acc) ((if wide then 32 else 16) - N.of_nat rem).
Proof.
  intros Hr HS. right. exists [], 0%nat.
  split; [now rewrite app_nil_r|]. split; [lia|]. split; [unfold vwidth in *; destruct wide; lia|].
  split; [simpl; lia|]. split.
  - cbn [length skipn]. rewrite Nat.sub_0_r. unfold prepend. destruct (arr n bs) as [[? ?]|]; reflexivity.
  - split; [auto|]. split; [congruence|]. cbn [length skipn]. now rewrite Nat.sub_0_r.
Qed.
Lemma multi_loop_arr wide n : forall bs rem acc, bytes bs -> (rem <= vwidth wide)%nat -> (rem <= length bs)%nat ->
  (lead (firstn rem bs) < 32)%nat ->
  exists vals total, sdnv_multi_loop wide n (firstn rem bs ++ repeat 0 (vwidth wide - rem)) (N.of_nat rem) acc = Some (vals, total) /\
    multi_ok wide n bs rem acc vals total.
Proof.
  induction n as [|n IH]; intros bs rem acc Hb Hr Hl H32.
  - cbn [sdnv_multi_loop]. eexists _, _. split; [reflexivity|]. apply multi_ok_stop; auto.
  - cbn [sdnv_multi_loop].
    destruct (N.of_nat rem =? 0) eqn:R0.
    { eexists _, _. split; [reflexivity|]. apply multi_ok_stop; [assumption|]. right. left. lia. }
    set (win := firstn rem bs ++ repeat 0 (vwidth wide - rem)).
    assert (Bw : bytes win) by (apply Forall_app; split; [now apply bytes_firstn|apply bytes_zeros]).
    assert (Lw : length win = vwidth wide) by (unfold win; rewrite app_length, firstn_length_le, repeat_length by lia; lia).
    assert (W32 : (length win <= 32)%nat) by (rewrite Lw; unfold vwidth; destruct wide; lia).
    assert (W16 : (16 <= length win)%nat) by (rewrite Lw; unfold vwidth; destruct wide; lia).
    assert (LD : lead win = Nat.min rem (lead bs)) by (unfold win; rewrite lead_zeros; now apply lead_firstn).
    rewrite lead_firstn in H32 by exact Hl.
    rewrite lsb_of_not_lead; [|exact Bw|exact W32|lia].
    destruct (N.of_nat rem <? N.of_nat (lead win) + 1) eqn:R1.
    { eexists _, _. split; [reflexivity|]. apply multi_ok_stop; [assumption|]. lia. }
    assert (K : lead win = lead bs) by lia. rewrite K in *. set (k := lead bs) in *.
    assert (Hh : hd 0 win = hd 0 bs) by (unfold win; destruct rem; [lia|]; destruct bs; [simpl in Hl; lia|reflexivity]).
    assert (B8 : bytes (firstn 8 win)) by now apply bytes_firstn.
    rewrite le_val_mod by exact B8.
    replace (hd 0 (firstn 8 win)) with (hd 0 bs) by (rewrite <- Hh; destruct win; reflexivity).
    change 0x0981 with (N.of_nat 9 * 256 + 0x81).
    rewrite valid_check; [|lia|now apply hd_byte|lia|lia].
    assert (CL : closed 10 129 bs = if Nat.ltb (S k) 10 || (Nat.eqb (S k) 10 && (hd 0 bs <=? 129))
                then (sdnv_value (firstn (S k) bs), N.of_nat (S k)) else (0, 0)).
    { unfold closed. fold k. destruct (Nat.ltb_spec k (length bs)); [reflexivity|lia]. }
    destruct (Nat.ltb (S k) 10 || (Nat.eqb (S k) 10 && (hd 0 bs <=? 129))) eqn:V.
    2:{ exists [], 0. split; [reflexivity|]. left. split; [reflexivity|]. split; [reflexivity|]. split.
        - cbn [arr]. rewrite CL. reflexivity.
        - intros Q. destruct (away_lead _ _ Hb Q) as [Q1|(v & s & Q1 & Q2)]; [unfold vwidth in *; destruct wide; lia|]. rewrite CL in Q1. injection Q1 as <- <-. now apply Q2. }
    apply valid_true in V. destruct V as [V1 V2].
    destruct (tables k ltac:(lia)) as (T1 & T2 & T3 & _). rewrite T1, T3, T2.
    destruct (vec_value win k Bw W16 ltac:(lia) K) as (VV & _).
    { intros E. rewrite Hh. apply V2. lia. }
    rewrite VV.
    assert (FV : firstn (S k) win = firstn (S k) bs).
    { unfold win. rewrite firstn_app, firstn_firstn. rewrite firstn_length_le by exact Hl.
      replace (S k - rem)%nat with 0%nat by lia. rewrite firstn_O, app_nil_r. f_equal. lia. }
    rewrite FV. replace (N.to_nat (N.of_nat k + 1)) with (S k) by lia.
    assert (SW : (if wide then alignr256 (permute_03 win) win (S k) else shuffle_epi8 win (shuffle_row (S k)))
                 = firstn (rem - S k) (skipn (S k) bs) ++ repeat 0 (vwidth wide - (rem - S k))).
    { transitivity (skipn (S k) win ++ repeat 0 (S k)).
      - unfold vwidth in Lw. destruct wide; [apply shift_wide|apply shift_narrow]; try exact Lw; lia.
      - unfold win. rewrite skipn_app, firstn_length_le by exact Hl. replace (S k - rem)%nat with 0%nat by lia.
        rewrite skipn_O. rewrite skipn_firstn_comm, <- app_assoc. f_equal. rewrite <- repeat_app. f_equal.
        unfold vwidth in *. destruct wide; lia. }
    rewrite SW. replace (N.of_nat rem - (N.of_nat k + 1)) with (N.of_nat (rem - S k)) by lia.
    destruct (IH (skipn (S k) bs) (rem - S k)%nat (sdnv_value (firstn (S k) bs) :: acc)) as (vals & total & E & OK).
    { now apply bytes_skipn. } { lia. } { rewrite skipn_length. lia. }
    { pose proof (lead_le (firstn (rem - S k) (skipn (S k) bs))). rewrite firstn_length_le in H by (rewrite skipn_length; lia).
      unfold vwidth in *. destruct wide; lia. }
    assert (AW : runs_away (S n) bs <-> runs_away n (skipn (S k) bs)).
    { destruct (closed_sdnv bs _ _ Hb CL ltac:(lia)) as (p & r & -> & P1 & P2 & P3 & _ & P4). apply Nat2N.inj in P4. rewrite P4.
      rewrite skipn_app, skipn_all, Nat.sub_diag. cbn [skipn app]. now apply away_next. }
    exists vals, total. split; [exact E|].
    destruct OK as [(-> & -> & A & NA)|(new & used & -> & U & -> & LN & A & _ & _ & NA)].
    + left. split; [reflexivity|]. split; [reflexivity|]. split; [|now rewrite AW]. cbn [arr]. rewrite CL.
      replace (N.of_nat (S k) =? 0) with false by lia. rewrite Nat2N.id, A. reflexivity.
    + right. exists (sdnv_value (firstn (S k) bs) :: new), (S k + used)%nat.
      split; [cbn [rev]; now rewrite <- app_assoc|]. split; [lia|]. split; [f_equal; unfold vwidth in *; destruct wide; lia|].
      split; [simpl; lia|]. split; [|split; [discriminate|split; [lia|]]].
      2:{ rewrite AW, NA. cbn [length Nat.sub]. now rewrite skipn_add, (Nat.add_comm used). }
      cbn [arr length Nat.sub]. rewrite CL. replace (N.of_nat (S k) =? 0) with false by lia. rewrite Nat2N.id, A.
      rewrite Nat.add_comm, <- skipn_add.
      unfold prepend. destruct (arr (n - length new) (skipn used (skipn (S k) bs))) as [[vs t]|]; [|reflexivity].
      cbn [app]. do 2 f_equal. lia.
Qed.

Lemma prepend_embed acc taken new used r : embed acc taken (prepend new used r) = embed (rev new ++ acc) (taken + used) r.
Proof.
  destruct r as [[vs t]|]; [|reflexivity]. unfold embed, prepend. rewrite rev_app_distr, rev_involutive, <- app_assoc.
  f_equal. lia.
Qed.
Lemma vec_arr wide k n0 : (forall n bs acc taken, (n <= n0)%nat -> bytes bs -> ~ runs_away n bs -> (length bs < vwidth wide)%nat \/ n = 0%nat ->
      k n bs acc taken = Some (embed acc taken (arr n bs))) ->
  forall fuel n bs acc taken, (n < fuel)%nat -> (n <= n0)%nat -> bytes bs -> ~ runs_away n bs ->
  sdnv_array_vec wide fuel n bs acc taken k = Some (embed acc taken (arr n bs)).
Proof.
  intros Hk. induction fuel as [|fuel IH]; intros n bs acc taken Hf Hn Hb HR; [lia|].
  cbn [sdnv_array_vec]. fold (vwidth wide).
  destruct (Nat.leb_spec (vwidth wide) (length bs)) as [L|L].
  2:{ cbn [andb]. apply Hk; auto. }
  destruct (Nat.eqb_spec n 0) as [->|N0]; cbn [andb negb]; [apply Hk; auto; lia|].
  unfold sdnv_multi, read_n. fold (vwidth wide). replace (Nat.leb (vwidth wide) (length bs)) with true by (symmetry; now apply Nat.leb_le).
  assert (H32 : (lead (firstn (vwidth wide) bs) < 32)%nat).
  { rewrite lead_firstn by exact L. destruct (Nat.lt_ge_cases (lead bs) 32) as [Q|Q]; [lia|].
    exfalso. apply HR. destruct n; [contradiction|]. now apply lead_away. }
  destruct (multi_loop_arr wide n bs (vwidth wide) [] Hb ltac:(lia) L H32) as (vals & total & E & OK).
  rewrite Nat.sub_diag in E. cbn [repeat] in E. rewrite app_nil_r in E.
  replace (if wide then 32 else 16) with (N.of_nat (vwidth wide)) by (unfold vwidth; destruct wide; reflexivity).
  rewrite E. destruct OK as [(-> & -> & A & _)|(new & used & -> & U & -> & LN & A & P1 & P2 & NA)].
  - cbn. now rewrite A.
  - rewrite Nat.sub_diag. cbn [Nat.add rev app].
    destruct (N.of_nat used =? 0) eqn:U0.
    + (* nothing decoded: the window holds no complete SDNV *)
      destruct new as [|v new]; [|exfalso; assert (0 < used)%nat by (apply P2; discriminate); lia].
      destruct (P1 eq_refl) as [_ [|[|Q]]]; [lia|unfold vwidth in *; destruct wide; lia|].
      assert (AN : arr n bs = None).
      { destruct n as [|n]; [lia|]. cbn [arr]. unfold closed.
        assert (16 <= lead bs)%nat by (unfold vwidth in *; destruct wide; lia).
        destruct (Nat.ltb_spec (lead bs) (length bs)).
        - destruct (Nat.ltb_spec (S (lead bs)) 10); [lia|]. destruct (Nat.eqb_spec (S (lead bs)) 10); [lia|]. reflexivity.
        - destruct (Nat.ltb_spec (length bs) 10); [unfold vwidth in *; destruct wide; lia|]. reflexivity. }
      now rewrite AN.
    + destruct new as [|v new]; [exfalso; destruct (P1 eq_refl); lia|].
      cbn [length Nat.eqb]. rewrite Nat2N.id. rewrite IH.
      * rewrite A. now rewrite prepend_embed.
      * simpl in *. lia.
      * lia.
      * now apply bytes_skipn.
      * now rewrite <- NA.
Qed.
Lemma array_fast_arr n bs : bytes bs -> ~ runs_away n bs -> sdnv_array_fast n bs = Some (embed [] 0 (arr n bs)).
Proof.
  intros Hb HR. unfold sdnv_array_fast. apply vec_arr with n; try assumption; try lia.
  intros n1 bs1 acc1 t1 Hn1 Hb1 HR1 _. apply vec_arr with n1; try assumption; try lia.
  intros n2 bs2 acc2 t2 _ Hb2 _ _. now rewrite array_tail_arr.
Qed.
Lemma movemask_full win : bytes win -> Forall (fun b => 128 <= b) win -> movemask win = 2 ^ N.of_nat (length win) - 1.
Proof.
  induction win as [|b win IH]; intros Hb F; [reflexivity|]. inversion Hb; inversion F; subst. cbn [movemask length]. rewrite IH by assumption.
  assert (b / 128 = 1) as -> by (symmetry; apply (N.div_unique b 128 1 (b - 128)); cbn beta in *; lia).
  rewrite Nat2N.inj_succ, N.pow_succ_r'. pose proof (N.pow_nonzero 2 (N.of_nat (length win)) ltac:(lia)). lia.
Qed.
Lemma away_length n bs : runs_away n bs -> (32 <= length bs)%nat.
Proof. induction 1; rewrite app_length; lia. Qed.
Lemma runs_away_dec n : forall bs, bytes bs -> runs_away n bs \/ ~ runs_away n bs.
Proof.
  induction n as [|n IH]; intros bs Hb; [right; intros H; inversion H|].
  destruct (Nat.lt_ge_cases (lead bs) 32) as [Q|Q]; [|left; now apply lead_away].
  destruct (closed 10 129 bs) as [v s] eqn:E. destruct (N.eq_dec s 0) as [->|Hs].
  - right. intros H. destruct (away_lead _ _ Hb H) as [K|(v2 & s2 & K & K2)]; [lia|]. rewrite E in K. injection K as <- <-. now apply K2.
  - destruct (closed_sdnv bs v s Hb E Hs) as (p & r & -> & P1 & P2 & P3 & _). rewrite away_next by assumption. apply IH. apply Forall_app in Hb. tauto.
Qed.
Lemma vec_away k : forall fuel n bs acc taken, (n < fuel)%nat -> bytes bs -> runs_away n bs -> sdnv_array_vec true fuel n bs acc taken k = None.
Proof.
  induction fuel as [|fuel IH]; intros n bs acc taken Hf Hb HR; [lia|].
  cbn [sdnv_array_vec]. pose proof (away_length _ _ HR) as L. destruct (Nat.leb_spec 32 (length bs)) as [_|]; [|lia].
  destruct n as [|n]; [inversion HR|]. cbn [andb negb Nat.eqb]. unfold sdnv_multi, read_n. replace (Nat.leb 32 (length bs)) with true by (symmetry; now apply Nat.leb_le).
  assert (FL : length (firstn 32 bs) = 32%nat) by (apply firstn_length_le; lia).
  destruct (Nat.lt_ge_cases (lead bs) 32) as [Q|Q].
  2:{ cbn [sdnv_multi_loop]. change (32 =? 0) with false. cbn iota.
      rewrite movemask_full; [rewrite FL; reflexivity|now apply bytes_firstn|apply lead_all; rewrite FL, lead_firstn by lia; lia]. }
  destruct (multi_loop_arr true (S n) bs 32 [] Hb (le_n 32) L) as (vals & total & E & OK); [rewrite lead_firstn by lia; lia|].
  cbn [vwidth Nat.sub repeat] in E. rewrite app_nil_r in E. change (N.of_nat 32) with 32 in E. rewrite E.
  destruct OK as [(_ & _ & _ & NA)|(new & used & -> & U & -> & LN & A & P1 & P2 & NA)]; [contradiction|].
  cbn [vwidth Nat.sub Nat.add rev app]. destruct new as [|v new]; [exfalso; destruct (P1 eq_refl) as (_ & [|[|]]); lia|].
  assert (0 < used)%nat by (apply P2; discriminate). destruct (N.eqb_spec (N.of_nat used) 0); [lia|]. cbn [length Nat.eqb]. rewrite Nat2N.id.
  apply IH; [cbn [length] in *; lia|now apply bytes_skipn|]. now apply NA.
Qed.
Lemma arr_spec n : forall bs, bytes bs -> array_spec n bs (arr n bs).
Proof.
  induction n as [|n IH]; intros bs Hb; cbn [arr]; [constructor|].
  pose proof (closed_spec 10 129 bs ltac:(lia) ltac:(lia) Hb) as CS. change (128 ^ N.of_nat (10 - 1) * (129 - 127)) with W64 in CS.
  destruct (closed 10 129 bs) as [v s]. inversion CS as [p r E S L V EV|p r E S L V EV|p r E L V EV|L V EV]; subst.
  - destruct (N.of_nat (length p) =? 0) eqn:Z; [destruct S as (i & l & -> & _); rewrite app_length in Z; simpl in Z; lia|].
    rewrite Nat2N.id. rewrite skipn_app, skipn_all, Nat.sub_diag. cbn [skipn app].
    pose proof (IH r) as IHr. assert (Br : bytes r) by (apply Forall_app in Hb; tauto). specialize (IHr Br).
    destruct (arr n r) as [[vs t]|]; constructor; assumption.
  - now constructor.
  - now constructor.
  - now constructor.
Qed.

(** * Encoding *)
Fixpoint enc_head (k : nat) (v : N) : list N :=
  match k with O => [] | S k' => (v / 128 ^ N.of_nat k) mod 128 + 128 :: enc_head k' v end.
Definition enc (n : nat) (v : N) : list N := enc_head (pred n) v ++ [v mod 128].
Lemma lor128 x : N.lor (x mod 128) 128 = x mod 128 + 128.
Proof.
  pose proof (N.mod_lt x 128 ltac:(lia)). rewrite N.lor_comm. change 128 with (1 * 2 ^ 7) at 1. rewrite lor_low; [|exact H].
  change (1 * 2 ^ 7) with 128. lia.
Qed.
Lemma branch_bytes_enc n v : sdnv_branch_bytes n v = enc n v.
Proof.
  unfold sdnv_branch_bytes, enc. rewrite land127. f_equal. induction (pred n) as [|k IH]; [reflexivity|].
  cbn [sdnv_head enc_head]. rewrite IH, land127, lor128, shiftr_div. do 4 f_equal.
  rewrite N.pow_mul_r. reflexivity.
Qed.
Lemma enc_length n v : (1 <= n)%nat -> length (enc n v) = n.
Proof.
  intros H. unfold enc. rewrite app_length. assert (E : length (enc_head (pred n) v) = pred n).
  { induction (pred n); simpl; congruence. } rewrite E. simpl. lia.
Qed.
Lemma enc_value k v : sdnv_value (enc_head k v ++ [v mod 128]) = v mod 128 ^ N.of_nat (S k).
Proof.
  induction k as [|k IH].
  - cbn [enc_head app]. rewrite value_cons. cbn [length]. change (128 ^ N.of_nat 0) with 1.
    change (128 ^ N.of_nat 1) with 128. change (sdnv_value []) with 0. rewrite N.mod_mod by lia. lia.
  - cbn [enc_head app]. rewrite value_cons, IH. rewrite app_length.
    assert (E : length (enc_head k v) = k) by (clear; induction k; simpl; congruence). rewrite E. cbn [length].
    replace (k + 1)%nat with (S k) by lia.
    replace (128 ^ N.of_nat (S (S k))) with (128 ^ N.of_nat (S k) * 128) by (rewrite (Nat2N.inj_succ (S k)), N.pow_succ_r'; lia).
    assert (P : 128 ^ N.of_nat (S k) <> 0) by (apply N.pow_nonzero; lia).
    rewrite (N.mod_mul_r v (128 ^ N.of_nat (S k)) 128) by (exact P || lia).
    set (d := (v / 128 ^ N.of_nat (S k)) mod 128). assert (d < 128) by (apply N.mod_lt; lia).
    replace ((d + 128) mod 128) with d.
    2:{ replace (d + 128) with (d + 1 * 128) by lia. rewrite N.mod_add by lia. now rewrite N.mod_small. }
    lia.
Qed.
Lemma enc_head_range k v : Forall (fun b => 128 <= b < 256) (enc_head k v).
Proof.
  induction k; cbn [enc_head]; constructor; [|assumption].
  pose proof (N.mod_lt (v / 128 ^ N.of_nat (S k)) 128 ltac:(lia)) as H. set (d := _ mod 128) in *. clearbody d. lia.
Qed.
Lemma enc_is_sdnv n v : is_sdnv (enc n v).
Proof.
  exists (enc_head (pred n) v), (v mod 128). split; [reflexivity|]. split; [apply enc_head_range|]. apply N.mod_lt. lia.
Qed.
Lemma is_sdnv_bytes p : is_sdnv p -> bytes p.
Proof.
  intros (i & l & -> & F & L). apply Forall_app. split.
  - eapply Forall_impl; [|exact F]. cbn. lia.
  - constructor; [lia|constructor].
Qed.
Lemma enc_bytes n v : bytes (enc n v).
Proof. apply is_sdnv_bytes, enc_is_sdnv. Qed.
Lemma enc_shortest n v : (1 <= n)%nat -> v < 128 ^ N.of_nat n -> (n = 1%nat \/ 128 ^ N.of_nat (n - 1) <= v) ->
  shortest_sdnv v (enc n v).
Proof.
  intros Hn Hv Hm. split; [apply enc_is_sdnv|]. split.
  - unfold enc. rewrite enc_value. replace (S (pred n)) with n by lia. now apply N.mod_small.
  - intros bs' S' V'. rewrite enc_length by exact Hn. destruct Hm as [->|Hm].
    + destruct (is_sdnv_lead bs' [] S'). lia.
    + destruct (Nat.le_gt_cases n (length bs')) as [L|L]; [exact L|]. exfalso.
      pose proof (value_bound bs') as VB. rewrite V' in VB.
      assert (128 ^ N.of_nat (length bs') <= 128 ^ N.of_nat (n - 1)) by (apply N.pow_le_mono_r; lia). lia.
Qed.
Lemma shortest_unique v a b : shortest_sdnv v a -> shortest_sdnv v b -> length a = length b.
Proof. intros (Sa & Va & Ma) (Sb & Vb & Mb). specialize (Ma b Sb Vb). specialize (Mb a Sa Va). lia. Qed.

(** The number of bytes: the branch taken by the classic routines is the one the bit scan selects. *)
Lemma branch64 v : v < W64 -> let n := sdnv_branch sdnv64_max 1 v in
  (1 <= n <= 10)%nat /\ v < 128 ^ N.of_nat n /\ (n = 1%nat \/ 128 ^ N.of_nat (n - 1) <= v).
Proof.
  intros Hv. cbv zeta. unfold sdnv64_max. cbn [map]. unfold sdnv_branch.
  repeat match goal with |- context [v <=? ?t] => destruct (v <=? t) eqn:? end;
  (split; [lia|]); (split; [|]);
  repeat match goal with |- context [128 ^ N.of_nat ?k] => let c := eval vm_compute in (128 ^ N.of_nat k) in change (128 ^ N.of_nat k) with c end;
  repeat match goal with H : context [2 ^ ?k] |- _ => let c := eval vm_compute in (2 ^ k) in change (2 ^ k) with c in H end;
  unfold W64 in *; lia.
Qed.
Lemma branch32 v : v < W32 -> sdnv_branch sdnv32_max 1 v = sdnv_branch sdnv64_max 1 v.
Proof.
  intros Hv. unfold sdnv64_max, sdnv32_max. cbn [map]. unfold sdnv_branch.
  repeat match goal with |- context [v <=? ?t] => destruct (v <=? t) eqn:? end; try reflexivity;
  repeat match goal with H : context [2 ^ ?k] |- _ => let c := eval vm_compute in (2 ^ k) in change (2 ^ k) with c in H end;
  unfold W32 in *; lia.
Qed.
Lemma scan_idx v n : (1 <= n <= 10)%nat -> v < 128 ^ N.of_nat n -> (n = 1%nat \/ 128 ^ N.of_nat (n - 1) <= v) ->
  exists msb, find_msb (N.lor v (N.b2n (v =? 0))) = Some msb /\ tab mask0x80Indices msb = Some (N.of_nat (n - 1)).
Proof.
  intros Hn Hv Hm.
  assert (E : exists msb, find_msb (N.lor v (N.b2n (v =? 0))) = Some msb /\ 7 * N.of_nat (n - 1) <= msb < 7 * N.of_nat n).
  { destruct (v =? 0) eqn:Z.
    - assert (v = 0) by lia. subst v. exists 0. split; [reflexivity|]. destruct Hm as [->|Hm]; [lia|].
      exfalso. assert (128 ^ N.of_nat (n - 1) <> 0) by (apply N.pow_nonzero; lia). lia.
    - cbn [N.b2n]. rewrite N.lor_0_r. exists (N.log2 v). split; [destruct v; [discriminate|reflexivity]|].
      assert (P : forall k, 128 ^ N.of_nat k = 2 ^ (7 * N.of_nat k)) by (intros; now rewrite N.pow_mul_r).
      split.
      + destruct Hm as [->|Hm]; [simpl; lia|]. apply N.log2_le_pow2; [lia|]. now rewrite <- P.
      + apply N.log2_lt_pow2; [lia|]. now rewrite <- P. }
  destruct E as (msb & E & R). exists msb. split; [exact E|].
  assert (Hmsb : msb < N.of_nat 70) by lia.
  assert (T : match tab mask0x80Indices msb with Some i => (i =? msb / 7) | None => false end = true).
  { exact (forall_below 70 (fun m => match tab mask0x80Indices m with Some i => (i =? m / 7) | None => false end) ltac:(vm_compute; reflexivity) msb Hmsb). }
  destruct (tab mask0x80Indices msb) as [i|]; [|discriminate]. f_equal.
  apply N.eqb_eq in T. rewrite T. symmetry. apply N.div_unique with (msb - 7 * N.of_nat (n - 1)); lia.
Qed.
Lemma num_bytes_branch v : v < W64 -> sdnv_num_bytes v = Some (N.of_nat (sdnv_branch sdnv64_max 1 v)).
Proof.
  intros H. destruct (branch64 v H) as (A & B & C). set (n := sdnv_branch sdnv64_max 1 v) in *.
  destruct (scan_idx v n A B C) as (msb & E1 & E2). unfold sdnv_num_bytes. rewrite E1, E2. f_equal. lia.
Qed.

Definition c1_bytes (k : nat) : list N := rev (repeat 128 (Nat.min 7 k) ++ repeat 0 (8 - Nat.min 7 k)).
Definition c2_bytes (k : nat) : list N := rev (repeat 128 (k - 7) ++ repeat 0 (8 - (k - 7))).
Lemma enc_tables k : (k <= 9)%nat ->
  tab masks0x80 (N.of_nat k) = Some (le_val (c1_bytes k)) /\ tab masks0x80_2 (N.of_nat k) = Some (le_val (c2_bytes k)) /\
  tab memoryOffsets (N.of_nat k) = Some (N.of_nat (k - 7)).
Proof. intros H. do 10 (destruct k as [|k]; [split; [vm_compute; reflexivity|split; vm_compute; reflexivity]|]). lia. Qed.
Lemma scatter_bytes ms : forall v, bytes (scatter7 v ms) /\ length (scatter7 v ms) = length ms.
Proof.
  induction ms as [|m ms IH]; intros v; cbn [scatter7]; [split; [constructor|reflexivity]|].
  destruct (m =? 127); cbn [length]; destruct (IH (v / 128)); destruct (IH v); (split; [constructor; auto|congruence]); [|lia].
  pose proof (N.mod_lt v 128). lia.
Qed.
Lemma store_scatter v ms cs : mask7 ms -> length ms = 8%nat -> bytes cs -> length cs = 8%nat ->
  le_bytes 8 (bswap64 (N.lor (pdep64 v (le_val ms)) (le_val cs))) = rev (lor_bytes (scatter7 v ms) cs).
Proof.
  intros M L C LC. unfold pdep64. replace 64%nat with (8 * length ms)%nat by lia. rewrite pdep_scatter by exact M.
  destruct (scatter_bytes ms v) as [SB SL].
  rewrite lor_le_val; [|exact SB|exact C|congruence].
  rewrite <- (rev_involutive (lor_bytes (scatter7 v ms) cs)) at 1. 
  assert (LL : length (lor_bytes (scatter7 v ms) cs) = 8%nat /\ bytes (lor_bytes (scatter7 v ms) cs)).
  { assert (SL2 : length (scatter7 v ms) = length cs) by congruence. rewrite <- LC. clear - SB C SL2.
    revert cs C SL2. induction (scatter7 v ms) as [|a l IH]; intros [|c cs] C E; try discriminate; [split; [reflexivity|constructor]|].
    injection E as E. destruct (IH (Forall_inv_tail SB) cs (Forall_inv_tail C) E) as [I1 I2]. cbn [lor_bytes length].
    split; [congruence|]. constructor; [|exact I2]. apply (lor_bound a c 8); [exact (Forall_inv SB)|exact (Forall_inv C)]. }
  destruct LL as [LL LB]. apply store_be; [now apply bytes_rev|now rewrite rev_length].
Qed.
Lemma c_bytes k : (k <= 9)%nat -> bytes (c1_bytes k) /\ length (c1_bytes k) = 8%nat /\ bytes (c2_bytes k) /\ length (c2_bytes k) = 8%nat.
Proof.
  intros H. do 10 (destruct k as [|k]; [repeat split; unfold bytes; apply Forall_forall; vm_compute; intuition (subst; reflexivity)|]). lia.
Qed.

Lemma enc_unfold n v : (1 <= n <= 10)%nat -> enc n v =
  skipn (10 - n) [v / 128 / 128 / 128 / 128 / 128 / 128 / 128 / 128 / 128 mod 128 + 128;
   v / 128 / 128 / 128 / 128 / 128 / 128 / 128 / 128 mod 128 + 128; v / 128 / 128 / 128 / 128 / 128 / 128 / 128 mod 128 + 128;
   v / 128 / 128 / 128 / 128 / 128 / 128 mod 128 + 128; v / 128 / 128 / 128 / 128 / 128 mod 128 + 128;
   v / 128 / 128 / 128 / 128 mod 128 + 128; v / 128 / 128 / 128 mod 128 + 128; v / 128 / 128 mod 128 + 128;
   v / 128 mod 128 + 128; v mod 128].
Proof.
  intros Hn. rewrite !N.div_div by discriminate.
  destruct n as [|n]; [lia|]. do 10 (destruct n as [|n]; [vm_compute; reflexivity|]). lia.
Qed.

Ltac concrete f := match goal with |- context [f ?kk] => let v := eval vm_compute in (f kk) in change (f kk) with v end.
Lemma store1 k v : (k <= 9)%nat -> le_bytes 8 (bswap64 (N.lor (pdep64 v (le_val (m1_bytes k))) (le_val (c1_bytes k)))) =
  skipn (k - 7) (enc (S k) v) ++ repeat 0 (7 - k).
Proof.
  intros Hk. destruct (tables k Hk) as (_ & _ & _ & M1 & _ & L1 & _). destruct (c_bytes k Hk) as (C1 & LC1 & _).
  rewrite store_scatter by assumption. clear - Hk. rewrite enc_unfold by lia.
  do 10 (destruct k as [|k]; [concrete m1_bytes; concrete c1_bytes; cbn [scatter7]; change (127 =? 127) with true; change (0 =? 127) with false;
    cbv iota; cbn [lor_bytes rev app Nat.sub skipn repeat]; rewrite ?N.lor_0_r, ?lor128; reflexivity|]). lia.
Qed.
Lemma store2 k v : (k <= 9)%nat -> le_bytes 8 (bswap64 (N.lor (pdep64 (N.shiftr v 56) (le_val (m2_bytes k))) (le_val (c2_bytes k)))) =
  firstn (k - 7) (enc (S k) v) ++ repeat 0 (8 - (k - 7)).
Proof.
  intros Hk. destruct (tables k Hk) as (_ & _ & _ & _ & M1 & _ & L1). destruct (c_bytes k Hk) as (_ & _ & C1 & LC1).
  rewrite store_scatter by assumption. clear - Hk. rewrite enc_unfold by lia.
  rewrite shiftr_div. replace (2 ^ 56) with (128 * 128 * 128 * 128 * 128 * 128 * 128 * 128) by reflexivity.
  rewrite <- !N.div_div by discriminate.
  do 10 (destruct k as [|k]; [concrete m2_bytes; concrete c2_bytes; cbn [scatter7]; change (127 =? 127) with true; change (0 =? 127) with false;
    cbv iota; cbn [lor_bytes rev app Nat.sub skipn firstn repeat]; rewrite ?N.lor_0_r, ?lor128; reflexivity|]). lia.
Qed.
Ltac explode LE := lazymatch type of LE with
  | length ?e = O => destruct e; [|discriminate LE]
  | length ?e = S _ => destruct e; [discriminate LE|]; injection LE as LE; explode LE
  end.
Lemma encode64_fast_ok v buf : v < W64 -> (10 <= length buf)%nat -> let n := sdnv_branch sdnv64_max 1 v in
  exists junk, sdnv_encode64_fast v buf = Some (N.of_nat n, enc n v ++ junk ++ skipn 10 buf) /\ (n + length junk = 10)%nat.
Proof.
  intros Hv HL. cbv zeta. destruct (branch64 v Hv) as (A & B & C). set (n := sdnv_branch sdnv64_max 1 v) in *. clearbody n.
  destruct (scan_idx v n A B C) as (msb & E1 & E2). unfold sdnv_encode64_fast. rewrite E1, E2.
  set (k := (n - 1)%nat) in *. assert (Hk : (k <= 9)%nat) by lia. replace n with (S k) by lia. clearbody k. clear A B C E1 E2 n.
  destruct (tables k Hk) as (T1 & T2 & _). destruct (enc_tables k Hk) as (T3 & T4 & T5).
  rewrite T1, T3, T2, T4. cbv zeta. rewrite store1, store2 by exact Hk. rewrite T5. rewrite Nat2N.id.
  pose proof (enc_length (S k) v ltac:(lia)) as LE.
  replace (N.of_nat k + 1) with (N.of_nat (S k)) by lia.
  do 10 (destruct buf as [|? buf]; [simpl in HL; lia|]). cbn [skipn].
  set (e := enc (S k) v) in *. clearbody e. clear T1 T2 T3 T4 T5 HL.
  do 10 (destruct k as [|k]; [
    explode LE;
    unfold write_at; cbn;
    match goal with |- exists _, Some (N.of_nat ?m, ?r) = _ /\ _ => exists (skipn m (firstn 10 r)) end; (split; [reflexivity|reflexivity]) |]). lia.
Qed.

Lemma encode32_fast_ok v buf : v < W32 -> (8 <= length buf)%nat -> let n := sdnv_branch sdnv32_max 1 v in
  exists junk, sdnv_encode32_fast v buf = Some (N.of_nat n, enc n v ++ junk ++ skipn 8 buf) /\ (n + length junk = 8)%nat /\ (n <= 5)%nat.
Proof.
  intros Hv HL. cbv zeta. rewrite branch32 by exact Hv. destruct (branch64 v ltac:(unfold W32, W64 in *; lia)) as (A & B & C).
  set (n := sdnv_branch sdnv64_max 1 v) in *. clearbody n.
  assert (N5 : (n <= 5)%nat).
  { destruct C as [C|C]; [lia|]. destruct (Nat.le_gt_cases n 5) as [Q|Q]; [exact Q|]. exfalso.
    assert (128 ^ N.of_nat 5 <= 128 ^ N.of_nat (n - 1)) by (apply N.pow_le_mono_r; lia).
    change (128 ^ N.of_nat 5) with 34359738368 in *. unfold W32 in *. lia. }
  destruct (scan_idx v n A B C) as (msb & E1 & E2). unfold sdnv_encode32_fast. rewrite E1, E2.
  set (k := (n - 1)%nat) in *. assert (Hk : (k <= 9)%nat) by lia. assert (Hk4 : (k <= 4)%nat) by lia. replace n with (S k) by lia.
  clearbody k. clear A B C E1 E2 N5 n.
  destruct (tables k Hk) as (T1 & _). destruct (enc_tables k Hk) as (T3 & _).
  rewrite T1, T3. cbv zeta. rewrite store1 by exact Hk.
  pose proof (enc_length (S k) v ltac:(lia)) as LE.
  replace (N.of_nat k + 1) with (N.of_nat (S k)) by lia.
  do 8 (destruct buf as [|? buf]; [simpl in HL; lia|]). cbn [skipn].
  set (e := enc (S k) v) in *. clearbody e. clear T1 T3 HL.
  do 5 (destruct k as [|k]; [
    explode LE; unfold write_at; cbn;
    match goal with |- exists _, Some (N.of_nat ?m, ?r) = _ /\ _ => exists (skipn m (firstn 8 r)) end; (split; [reflexivity|split; [reflexivity|lia]]) |]). lia.
Qed.
Lemma encode_classic_ok ths v buf : let n := sdnv_branch ths 1 v in (1 <= n)%nat ->
  sdnv_encode_classic ths v buf = if Nat.ltb (length buf) n then Some (0, buf) else Some (N.of_nat n, enc n v ++ skipn n buf).
Proof.
  cbv zeta. intros H. unfold sdnv_encode_classic. set (n := sdnv_branch ths 1 v) in *.
  destruct (Nat.ltb_spec (length buf) n) as [L|L]; [reflexivity|].
  rewrite branch_bytes_enc. unfold write_at. rewrite Nat.add_0_l, enc_length by exact H.
  destruct (Nat.leb_spec n (length buf)); [|lia]. reflexivity.
Qed.
