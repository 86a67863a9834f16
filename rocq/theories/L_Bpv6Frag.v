(** Lemmas for C32. *)
From Coq Require Import NArith ZArith List Bool Lia ZifyBool ZifyN Permutation.
From Verif Require Import Base M_FragmentSet S_FragmentSet L_FragmentSet M_Bpv6Frag S_Bpv6Frag.
Import ListNotations.
Open Scope N_scope.

Lemma nth_write (o : nat) (d buf : list N) i : (o + length d <= length buf)%nat ->
  nth i (firstn o buf ++ d ++ skipn (o + length d) buf) 0 =
  if (Nat.leb o i && Nat.ltb i (o + length d))%bool then nth (i - o) d 0 else nth i buf 0.
Proof.
  intros H. assert (Lf : length (firstn o buf) = o) by (rewrite firstn_length; lia).
  destruct (Nat.leb_spec o i) as [A|A]; cbn [andb].
  - rewrite app_nth2 by lia. rewrite Lf. destruct (Nat.ltb_spec i (o + length d)) as [B|B].
    + rewrite app_nth1 by lia. reflexivity.
    + rewrite app_nth2 by lia. rewrite <- (firstn_skipn (o + length d) buf) at 2.
      rewrite app_nth2 by (rewrite firstn_length; lia). rewrite firstn_length. f_equal. lia.
  - rewrite app_nth1 by lia. rewrite <- (firstn_skipn o buf) at 2. rewrite app_nth1 by lia. reflexivity.
Qed.
Lemma nth_piece l a n i : i < n -> a + n <= N.of_nat (length l) -> nth (N.to_nat i) (piece l a n) 0 = nth (N.to_nat (a + i)) l 0.
Proof.
  intros H1 H2. unfold piece. rewrite <- (firstn_skipn (N.to_nat a) l) at 2. rewrite app_nth2 by (rewrite firstn_length; lia).
  rewrite firstn_length. replace (N.to_nat (a + i) - Nat.min (N.to_nat a) (length l))%nat with (N.to_nat i) by lia.
  rewrite <- (firstn_skipn (N.to_nat n) (skipn (N.to_nat a) l)) at 2. rewrite app_nth1 by (rewrite firstn_length, skipn_length; lia). reflexivity.
Qed.
Lemma piece_length l a n : a + n <= N.of_nat (length l) -> length (piece l a n) = N.to_nat n.
Proof. intros H. unfold piece. rewrite firstn_length, skipn_length. lia. Qed.

Lemma payload_is_fun b d d' : payload_is b d -> payload_is b d' -> d = d'.
Proof. intros (p & E & <-) (p' & E' & <-). congruence. Qed.

Lemma len_pos (d : list N) : d <> [] -> (0 < length d)%nat.
Proof. destruct d; [congruence|cbn; lia]. Qed.

(** * Reassembling *)
Lemma loop_ok last adu : N.of_nat (length adu) < W64 -> forall fs, Forall (fragment_of adu) fs -> forall set buf,
  canonical set -> length buf = length adu ->
  (forall i, covers set i -> i < N.of_nat (length adu) /\ nth (N.to_nat i) buf 0 = nth (N.to_nat i) adu 0) ->
  exists set' buf', assemble_loop last (N.of_nat (length adu)) fs set buf = Some (Some (set', buf')) /\ canonical set' /\
    length buf' = length adu /\ (forall i, covers set' i <-> covers set i \/ exists f, In f fs /\ has_byte f i) /\
    (forall i, covers set' i -> i < N.of_nat (length adu) /\ nth (N.to_nat i) buf' 0 = nth (N.to_nat i) adu 0).
Proof.
  intros HW. induction fs as [|f r IH]; intros HF set buf Hc HL HI.
  - exists set, buf. split; [reflexivity|]. repeat (split; [assumption|]). split; [|exact HI]. intros i. split; [tauto|]. intros [H|(f & [] & _)]; exact H.
  - pose proof (Forall_inv HF) as (d & (pl & EP & ED) & Hd & Ho & Hp & Ht). pose proof (Forall_inv_tail HF) as HF'.
    cbn [assemble_loop]. rewrite EP, ED. set (o := pr_off (bv_primary f)) in *. apply len_pos in Hd.
    assert (A : add64 o (N.of_nat (length d)) = o + N.of_nat (length d)) by (apply add64_small; lia). rewrite A, sub64_small by lia.
    destruct (N.ltb_spec (N.of_nat (length adu)) (o + N.of_nat (length d))); [lia|].
    assert (E : copy_to o d buf = Some (firstn (N.to_nat o) buf ++ d ++ skipn (N.to_nat o + length d) buf)).
    { unfold copy_to. destruct (N.leb_spec (o + N.of_nat (length d)) (N.of_nat (length buf))); [reflexivity|lia]. }
    rewrite E. destruct (insert_spec last set (o, o + N.of_nat (length d) - 1) Hc) as (C1 & C2 & _). { split; cbn [fst snd]; lia. }
    destruct (IH HF' (fst (insert_fragment last set (o, o + N.of_nat (length d) - 1)))
                 (firstn (N.to_nat o) buf ++ d ++ skipn (N.to_nat o + length d) buf) C1) as (set' & buf' & R1 & R2 & R3 & R4 & R5).
    { rewrite !app_length, firstn_length, skipn_length. lia. }
    { intros i Ci. apply C2 in Ci. rewrite nth_write by lia.
      destruct (Nat.leb_spec (N.to_nat o) (N.to_nat i)) as [B1|B1]; cbn [andb];
        [destruct (Nat.ltb_spec (N.to_nat i) (N.to_nat o + length d)) as [B2|B2]|].
      - split; [lia|]. rewrite Hp. replace (N.to_nat i - N.to_nat o)%nat with (N.to_nat (i - o)) by lia. rewrite nth_piece by lia. f_equal. lia.
      - destruct Ci as [Ci|[Q1 Q2]]; [now apply HI|cbn [fst snd] in *; lia].
      - destruct Ci as [Ci|[Q1 Q2]]; [now apply HI|cbn [fst snd] in *; lia]. }
    exists set', buf'. split; [exact R1|]. split; [exact R2|]. split; [exact R3|]. split; [|exact R5].
    intros i. rewrite R4, C2. split.
    + intros [[Q|[Q1 Q2]]|(g & G1 & G2)]; [now left| |right; exists g; split; [now right|exact G2]].
      right. exists f. split; [now left|]. exists d. split; [now exists pl|]. cbn [fst snd] in *. fold o. lia.
    + intros [Q|(g & [<-|G1] & G2)]; [tauto| |right; now exists g].
      destruct G2 as (d' & P' & Q'). rewrite <- (payload_is_fun f d d') in Q' by (try exact P'; now exists pl). fold o in Q'.
      left. right. split; cbn [fst snd]; lia.
Qed.

Lemma whole_set (L : N) (s : fset) : 0 < L -> L < W64 -> canonical s -> (forall i, covers s i <-> i < L) -> s = [(0, L - 1)].
Proof.
  intros HL HW Hc Hv. apply canonical_unique; [exact Hc| |].
  - apply canonical_cons. split; [split; cbn [fst snd]; lia|]. split; [constructor|apply canonical_nil].
  - intros i. rewrite Hv. split.
    + intros H. exists (0, L - 1). split; [now left|]. split; cbn [fst snd]; lia.
    + intros (f & [<-|[]] & H1 & H2). cbn [fst snd] in *. lia.
Qed.
Lemma eq_by_nth (a b : list N) : length a = length b -> (forall i, i < N.of_nat (length b) -> nth (N.to_nat i) a 0 = nth (N.to_nat i) b 0) -> a = b.
Proof.
  intros HL H. apply (nth_ext a b 0 0 HL). intros n Hn. specialize (H (N.of_nat n)). rewrite Nat2N.id in H. apply H. lia.
Qed.

Lemma assemble_payload_ok last adu fs : N.of_nat (length adu) < W64 -> Forall (fragment_of adu) fs -> fs <> [] -> complete adu fs ->
  assemble_payload last fs = Some (Some adu).
Proof.
  intros HW HF Hne HC. destruct fs as [|f r]; [congruence|]. unfold assemble_payload.
  pose proof (Forall_inv HF) as (d & Pd & Hd & Ho & Hp & Ht). apply len_pos in Hd. rewrite Ht.
  destruct (loop_ok last adu HW (f :: r) HF [] (repeat 0 (N.to_nat (N.of_nat (length adu)))) canonical_nil) as (set' & buf' & R1 & R2 & R3 & R4 & R5).
  { rewrite repeat_length. lia. }
  { intros i (g & [] & _). }
  rewrite R1.
  assert (CV : forall i, covers set' i <-> i < N.of_nat (length adu)).
  { intros i. split; [intros C; now apply R5|]. intros Hi. apply R4. right. now apply HC. }
  rewrite (whole_set (N.of_nat (length adu)) set') by (try assumption; lia). cbn [length Nat.eqb negb orb existsb].
  assert (Q : frag_equiv (0, N.of_nat (length adu)) (0, N.of_nat (length adu) - 1) = true).
  { unfold frag_equiv, frag_lt. cbn [fst snd]. repeat match goal with |- context[?a <? 0] => destruct (N.ltb_spec a 0); [lia|] end. reflexivity. }
  rewrite Q. cbn [orb negb]. do 2 f_equal. apply eq_by_nth; [exact R3|]. intros i Hi. apply R5. now apply CV.
Qed.

Lemma min_offset_spec l : forall m, In (min_offset m l) (m :: l) /\ forall g, In g (m :: l) -> pr_off (bv_primary (min_offset m l)) <= pr_off (bv_primary g).
Proof.
  induction l as [|f r IH]; intros m; cbn [min_offset].
  - split; [now left|]. intros g [<-|[]]. lia.
  - destruct (N.ltb_spec (pr_off (bv_primary f)) (pr_off (bv_primary m))) as [L|L].
    + destruct (IH f) as [A B]. split; [now right|]. intros g [<-|[<-|G]]; [specialize (B f (or_introl eq_refl)); lia|apply B; now left|apply B; now right].
    + destruct (IH m) as [A B]. split; [destruct A as [A|A]; [now left|right; now right]|].
      intros g [<-|[<-|G]]; [apply B; now left|specialize (B m (or_introl eq_refl)); lia|apply B; now right].
Qed.
Lemma max_offset_spec l : forall m, In (max_offset m l) (m :: l) /\ forall g, In g (m :: l) -> pr_off (bv_primary g) <= pr_off (bv_primary (max_offset m l)).
Proof.
  induction l as [|f r IH]; intros m; cbn [max_offset].
  - split; [now left|]. intros g [<-|[]]. lia.
  - destruct (N.ltb_spec (pr_off (bv_primary f)) (pr_off (bv_primary m))) as [L|L].
    + destruct (IH m) as [A B]. split; [destruct A as [A|A]; [now left|right; now right]|].
      intros g [<-|[<-|G]]; [apply B; now left|specialize (B m (or_introl eq_refl)); lia|apply B; now right].
    + destruct (IH f) as [A B]. split; [now right|]. intros g [<-|[<-|G]]; [specialize (B f (or_introl eq_refl)); lia|apply B; now left|apply B; now right].
Qed.

Lemma pair_eqb_eq a b : pair_eqb a b = true <-> a = b.
Proof. destruct a, b. unfold pair_eqb. cbn [fst snd]. rewrite andb_true_iff, !N.eqb_eq. split; [intros [-> ->]; reflexivity|intros [= -> ->]; tauto]. Qed.
Lemma bid_eqb_eq a b : bid_eqb a b = true <-> a = b.
Proof. destruct a as [a1 a2], b as [b1 b2]. unfold bid_eqb. cbn [fst snd]. rewrite andb_true_iff, !pair_eqb_eq. split; [intros [-> ->]; reflexivity|intros [= -> ->]; tauto]. Qed.
Lemma bid_eqb_refl a : bid_eqb a a = true.
Proof. now apply bid_eqb_eq. Qed.

Lemma validate_ok fs : fs <> [] -> same_bundle fs -> validate fs = true.
Proof.
  intros Hne HS. destruct fs as [|f r]; [congruence|]. unfold validate. apply forallb_forall. intros g Hg.
  destruct (HS g f Hg (or_introl eq_refl)) as [E F]. unfold bundle_id in E. injection E as E1 E2.
  rewrite E1, E2, (proj2 (pair_eqb_eq _ _) eq_refl), (proj2 (pair_eqb_eq _ _) eq_refl). cbn [andb]. exact F.
Qed.

Lemma filter_none bs : filter is_payload bs = [] -> Forall (fun b => is_payload b = false) bs.
Proof.
  induction bs as [|b r IH]; intros H; [constructor|]. cbn [filter] in H. destruct (is_payload b) eqn:E; [discriminate|]. constructor; auto.
Qed.
Lemma none_filter bs : Forall (fun b => is_payload b = false) bs -> filter is_payload bs = [].
Proof. induction 1 as [|b r H _ IH]; [reflexivity|]. cbn [filter]. now rewrite H. Qed.
Lemma payload_split bs pl : filter is_payload bs = [pl] -> exists pre post, bs = pre ++ pl :: post /\
  Forall (fun b => is_payload b = false) pre /\ Forall (fun b => is_payload b = false) post /\ is_payload pl = true.
Proof.
  induction bs as [|b r IH]; intros H; [discriminate|]. cbn [filter] in H. destruct (is_payload b) eqn:E.
  - injection H as -> H. exists [], r. split; [reflexivity|]. split; [constructor|]. split; [now apply filter_none|exact E].
  - destruct (IH H) as (pre & post & -> & A & B & C). exists (b :: pre), post. split; [reflexivity|]. split; [now constructor|]. tauto.
Qed.
Lemma before_split adu pre pl post : Forall (fun b => is_payload b = false) pre -> is_payload pl = true ->
  blocks_before adu (pre ++ pl :: post) = pre ++ [mkBlock (bk_type pl) (bk_flags pl) adu].
Proof. induction 1 as [|b r H _ IH]; intros P; cbn [app blocks_before]; [now rewrite P|]. rewrite H. now rewrite IH. Qed.
Lemma after_split pre pl post : Forall (fun b => is_payload b = false) pre -> is_payload pl = true -> blocks_after (pre ++ pl :: post) = post.
Proof. induction 1 as [|b r H _ IH]; intros P; cbn [app blocks_after]; [now rewrite P|]. rewrite H. now apply IH. Qed.

Lemma assemble_ok last adu fs : N.of_nat (length adu) < W64 -> Forall (fragment_of adu) fs -> fs <> [] -> complete adu fs -> same_bundle fs ->
  exists f0 l0, In f0 fs /\ In l0 fs /\ (forall g, In g fs -> pr_off (bv_primary f0) <= pr_off (bv_primary g) <= pr_off (bv_primary l0)) /\
    assemble last fs = Some (Some (mkBundle (copy_primary_nofragment (bv_primary f0)) (blocks_before adu (bv_blocks f0) ++ blocks_after (bv_blocks l0)))).
Proof.
  intros HW HF Hne HC HS. unfold assemble. rewrite (validate_ok fs Hne HS). cbn [negb]. rewrite (assemble_payload_ok last adu fs HW HF Hne HC).
  destruct fs as [|f r]; [congruence|]. destruct (min_offset_spec r f) as [A1 A2]. destruct (max_offset_spec r f) as [B1 B2].
  exists (min_offset f r), (max_offset f r). split; [exact A1|]. split; [exact B1|]. split; [|reflexivity]. intros g Hg. split; [now apply A2|now apply B2].
Qed.
Lemma assembled_payload adu f0 l0 p d d' : payload_is f0 d -> payload_is l0 d' ->
  payload_is (mkBundle p (blocks_before adu (bv_blocks f0) ++ blocks_after (bv_blocks l0))) adu.
Proof.
  intros (p0 & E0 & _) (p1 & E1 & _). unfold payload_blocks in *.
  destruct (payload_split _ _ E0) as (pre & post & EB & A & B & C). destruct (payload_split _ _ E1) as (pre' & post' & EB' & A' & B' & C').
  rewrite EB, EB', before_split, after_split by assumption. unfold payload_is, payload_blocks. cbn [bv_blocks].
  rewrite !filter_app, (none_filter pre), (none_filter post') by assumption. cbn [filter]. unfold is_payload at 1. cbn [bk_type].
  unfold is_payload in C. rewrite C. eexists. split; [reflexivity|reflexivity].
Qed.

(** * Fragmenting *)
Definition cut (pl : block) (s n : N) : block := mkBlock (bk_type pl) (bk_flags pl) (piece (bk_data pl) s n).

Lemma blocks_post isF isL s e post : Forall (fun b => is_payload b = false) post ->
  fragment_blocks isF isL s e false post = Some (if isL then post else filter must_replicate post).
Proof.
  induction 1 as [|b r H _ IH]; cbn [fragment_blocks]; [destruct isL; reflexivity|]. rewrite H, IH. cbn [negb]. rewrite andb_false_r, orb_false_r, andb_true_r.
  cbn [filter]. destruct (must_replicate b), isL; reflexivity.
Qed.
Lemma blocks_split isF isL s e pre pl post : Forall (fun b => is_payload b = false) pre -> Forall (fun b => is_payload b = false) post ->
  is_payload pl = true -> s <= e -> e <= N.of_nat (length (bk_data pl)) ->
  fragment_blocks isF isL s e true (pre ++ pl :: post) =
  Some ((if isF then pre else filter must_replicate pre) ++ cut pl s (e - s) :: (if isL then post else filter must_replicate post)).
Proof.
  intros Hpre Hpost Hpl H1 H2. induction Hpre as [|b r H _ IH]; cbn [app fragment_blocks].
  - rewrite Hpl. unfold payload_slice. destruct (N.leb_spec s e); [|lia]. destruct (N.leb_spec e (N.of_nat (length (bk_data pl)))); [|lia]. cbn [andb].
    rewrite blocks_post by assumption. destruct isF; reflexivity.
  - rewrite H, IH. cbn [negb]. rewrite andb_false_r, orb_false_r, andb_true_r. cbn [filter]. destruct (must_replicate b), isF; reflexivity.
Qed.

(** Number of pieces. *)
Lemma num_spec L sz : 0 < sz -> sz < L -> L < 2 ^ 63 -> let n := calc_num_fragments L sz in
  2 <= n /\ (n - 1) * sz < L /\ L <= n * sz /\ n <= L.
Proof.
  intros H1 H2 H3 n. unfold n, calc_num_fragments. change (2 ^ 63) with 9223372036854775808 in H3.
  rewrite sub64_small by (unfold W64; lia). rewrite add64_small by (unfold W64; lia).
  pose proof (N.div_mod (L + (sz - 1)) sz ltac:(lia)) as D. pose proof (N.mod_lt (L + (sz - 1)) sz ltac:(lia)) as M.
  set (q := (L + (sz - 1)) / sz) in *. set (m := (L + (sz - 1)) mod sz) in *. clearbody q m. clear n.
  assert (2 <= q) by nia. repeat split; try nia.
Qed.

Lemma map_opt_some (A B : Type) (f : A -> option B) (g : A -> B) l : (forall x, In x l -> f x = Some (g x)) -> map_opt f l = Some (map g l).
Proof.
  induction l as [|x r IH]; intros H; cbn [map_opt map]; [reflexivity|]. rewrite (H x (or_introl eq_refl)), IH; [reflexivity|]. intros y Hy. apply H. now right.
Qed.

(** The i-th fragment. *)
Definition ith (orig : bundle) (pre : list block) (pl : block) (post : list block) (base total sz n : N) (i : nat) : bundle :=
  let L := N.of_nat (length (bk_data pl)) in
  mkBundle (copy_primary_fragment (bv_primary orig) (base + N.of_nat i * sz) total)
    ((if Nat.eqb i 0 then pre else filter must_replicate pre) ++ cut pl (N.of_nat i * sz) (N.min sz (L - N.of_nat i * sz)) ::
     (if Nat.eqb (S i) (N.to_nat n) then post else filter must_replicate post)).

Definition base_of (orig : bundle) : N := if is_fragment (bv_primary orig) then pr_off (bv_primary orig) else 0.
Definition total_of (orig : bundle) (L : N) : N := if is_fragment (bv_primary orig) then pr_total (bv_primary orig) else L.

Lemma fragment_ok orig sz pre pl post : bv_blocks orig = pre ++ pl :: post -> Forall (fun b => is_payload b = false) pre ->
  Forall (fun b => is_payload b = false) post -> is_payload pl = true -> no_fragment (bv_primary orig) = false ->
  let L := N.of_nat (length (bk_data pl)) in 0 < sz -> sz < L -> L < 2 ^ 63 -> base_of orig + L <= W64 ->
  let n := calc_num_fragments L sz in
  fragment orig sz = Some (Some (map (ith orig pre pl post (base_of orig) (total_of orig L) sz n) (seq 0 (N.to_nat n)))).
Proof.
  intros HB Hpre Hpost Hpl Hnf L H1 H2 H3 H4 n. unfold fragment. destruct (N.eqb_spec sz 0); [lia|]. rewrite Hnf.
  assert (EP : payload_blocks orig = [pl]).
  { unfold payload_blocks. rewrite HB, filter_app. cbn [filter]. rewrite Hpl, !none_filter by assumption. reflexivity. }
  rewrite EP. fold L. destruct (N.leb_spec L sz); [lia|]. fold (base_of orig). fold (total_of orig L). fold n.
  destruct (num_spec L sz H1 H2 H3) as (N1 & N2 & N3 & N4). fold n in N1, N2, N3, N4. change (2 ^ 63) with 9223372036854775808 in H3.
  erewrite map_opt_some; [reflexivity|]. intros i Hi. apply in_seq in Hi. cbv beta. unfold fragment_one.
  assert (Hs : N.of_nat i * sz < L) by nia.
  assert (Hs2 : N.of_nat i * sz + sz < W64) by (unfold W64; lia).
  assert (S1 : mul64 (N.of_nat i) sz = N.of_nat i * sz) by (unfold mul64; apply N.mod_small; lia). rewrite S1.
  rewrite (add64_small (N.of_nat i * sz) sz Hs2). rewrite HB, blocks_split by (try assumption; unfold L in *; lia).
  rewrite add64_small by lia. unfold ith. fold L. rewrite sub64_small by (unfold W64 in *; lia).
  replace (N.min (N.of_nat i * sz + sz) L - N.of_nat i * sz) with (N.min sz (L - N.of_nat i * sz)) by lia.
  replace (N.of_nat i =? 0) with (Nat.eqb i 0) by (destruct (Nat.eqb_spec i 0), (N.eqb_spec (N.of_nat i) 0); try lia; reflexivity).
  replace (N.of_nat i =? n - 1) with (Nat.eqb (S i) (N.to_nat n)) by (destruct (Nat.eqb_spec (S i) (N.to_nat n)), (N.eqb_spec (N.of_nat i) (n - 1)); try lia; reflexivity).
  reflexivity.
Qed.

Lemma filter_repl_none bs : Forall (fun b => is_payload b = false) bs -> Forall (fun b => is_payload b = false) (filter must_replicate bs).
Proof. intros H. apply Forall_forall. intros x Hx. apply filter_In in Hx. rewrite Forall_forall in H. apply H. tauto. Qed.
Lemma ith_payload orig pre pl post base total sz n i : Forall (fun b => is_payload b = false) pre ->
  Forall (fun b => is_payload b = false) post -> is_payload pl = true ->
  payload_blocks (ith orig pre pl post base total sz n i) = [cut pl (N.of_nat i * sz) (N.min sz (N.of_nat (length (bk_data pl)) - N.of_nat i * sz))].
Proof.
  intros Hpre Hpost Hpl. unfold payload_blocks, ith. cbn [bv_blocks]. rewrite filter_app. cbn [filter].
  assert (C : is_payload (cut pl (N.of_nat i * sz) (N.min sz (N.of_nat (length (bk_data pl)) - N.of_nat i * sz))) = true) by exact Hpl.
  rewrite C. rewrite !none_filter; [reflexivity| |]; match goal with |- Forall _ (if ?b then _ else _) => destruct b end; auto using filter_repl_none.
Qed.

Lemma skipn_twice (A : Type) (l : list A) : forall a b, skipn a (skipn b l) = skipn (a + b) l.
Proof.
  induction l as [|x l IH]; intros a b; [now rewrite !skipn_nil|]. destruct b; [now rewrite Nat.add_0_r|].
  rewrite Nat.add_succ_r. cbn [skipn]. apply IH.
Qed.
Lemma firstn_plus (A : Type) (l : list A) : forall a b, firstn (a + b) l = firstn a l ++ firstn b (skipn a l).
Proof.
  induction l as [|x l IH]; intros a b; [now rewrite skipn_nil, !firstn_nil|]. destruct a; [reflexivity|]. cbn [Nat.add firstn skipn app]. now rewrite IH.
Qed.
Lemma piece_app l a n m : piece l a n ++ piece l (a + n) m = piece l a (n + m).
Proof.
  unfold piece. replace (N.to_nat (a + n)) with (N.to_nat n + N.to_nat a)%nat by lia. rewrite <- (skipn_twice N l (N.to_nat n) (N.to_nat a)).
  replace (N.to_nat (n + m)) with (N.to_nat n + N.to_nat m)%nat by lia. symmetry. apply firstn_plus.
Qed.
Lemma piece_all l : piece l 0 (N.of_nat (length l)) = l.
Proof. unfold piece. cbn [N.to_nat skipn]. rewrite Nat2N.id. apply firstn_all. Qed.
Lemma piece_piece l a n b m : b + m <= n -> piece (piece l a n) b m = piece l (a + b) m.
Proof.
  intros H. unfold piece. replace (N.to_nat (a + b)) with (N.to_nat b + N.to_nat a)%nat by lia. rewrite <- (skipn_twice N l (N.to_nat b) (N.to_nat a)).
  set (k := skipn (N.to_nat a) l). rewrite skipn_firstn_comm, firstn_firstn. f_equal. lia.
Qed.

(** Concatenating the first k pieces. *)
Lemma concat_pieces l sz : forall k, (N.of_nat k - 1) * sz < N.of_nat (length l) \/ (k <= 1)%nat ->
  concat (map (fun i => piece l (N.of_nat i * sz) (N.min sz (N.of_nat (length l) - N.of_nat i * sz))) (seq 0 k)) =
  piece l 0 (N.min (N.of_nat k * sz) (N.of_nat (length l))).
Proof.
  induction k as [|k IH]; intros H; [replace (N.min (N.of_nat 0 * sz) (N.of_nat (length l))) with 0 by lia; reflexivity|]. rewrite seq_S, map_app, concat_app. cbn [map concat Nat.add]. rewrite app_nil_r.
  rewrite IH by (destruct k as [|[|k]]; [right; lia|right; lia|left; nia]).
  assert (K : N.min (N.of_nat k * sz) (N.of_nat (length l)) = N.of_nat k * sz).
  { destruct H as [H|H]; [nia|]. assert (k = 0%nat) by lia. subst. lia. }
  rewrite K. replace (N.of_nat k * sz) with (0 + N.of_nat k * sz) at 2 by lia. rewrite piece_app. f_equal. nia.
Qed.

(** * The manager *)
Lemma get_erase_same m k : fmgr_get (fmgr_erase m k) k = ([], []).
Proof.
  induction m as [|[k' v] r IH]; [reflexivity|]. unfold fmgr_erase. cbn [filter fst]. destruct (bid_eqb k k') eqn:E; cbn [negb]; [exact IH|].
  cbn [fmgr_get]. rewrite E. exact IH.
Qed.
Lemma get_erase_other m k k' : k <> k' -> fmgr_get (fmgr_erase m k) k' = fmgr_get m k'.
Proof.
  intros H. induction m as [|[q v] r IH]; [reflexivity|]. unfold fmgr_erase. cbn [filter fst fmgr_get]. destruct (bid_eqb k q) eqn:E; cbn [negb].
  - apply bid_eqb_eq in E. subst q. destruct (bid_eqb k' k) eqn:E2; [apply bid_eqb_eq in E2; congruence|exact IH].
  - cbn [fmgr_get]. destruct (bid_eqb k' q); [reflexivity|exact IH].
Qed.
Lemma get_put_same m k v : fmgr_get (fmgr_put m k v) k = v.
Proof. unfold fmgr_put. cbn [fmgr_get]. now rewrite bid_eqb_refl. Qed.
Lemma get_put_other m k k' v : k <> k' -> fmgr_get (fmgr_put m k v) k' = fmgr_get m k'.
Proof.
  intros H. unfold fmgr_put. cbn [fmgr_get]. destruct (bid_eqb k' k) eqn:E; [apply bid_eqb_eq in E; congruence|]. now apply get_erase_other.
Qed.

(** The manager holds exactly the pending fragments of every id, and a normal-form set of the bytes they carry. *)
Definition holds (m : fmgr) (h : list (bundle * bool)) : Prop :=
  forall k, fst (fmgr_get m k) = pending k h /\ canonical (snd (fmgr_get m k)) /\
    (forall i, covers (snd (fmgr_get m k)) i <-> exists f, In f (pending k h) /\ has_byte f i).
Definition good (adu : bid -> list N) (f : bundle) : Prop :=
  fragment_of (adu (bundle_id f)) f /\ is_fragment (bv_primary f) = true.

Lemma pending_in k h f : In f (pending k h) -> bundle_id f = k /\ In f (map fst h).
Proof.
  induction h as [|[g b] r IH]; cbn [pending map fst]; [intros []|]. destruct b, (bid_eqb k (bundle_id g)) eqn:E.
  - intros [].
  - intros H. apply IH in H. split; [tauto|now right].
  - intros H. apply in_app_or in H. destruct H as [H|[<-|[]]]; [apply IH in H; split; [tauto|now right]|].
    apply bid_eqb_eq in E. split; [congruence|now left].
  - intros H. apply IH in H. split; [tauto|now right].
Qed.

Lemma fmgr_step last adu m h f : (forall k, N.of_nat (length (adu k)) < W64) -> holds m h -> Forall (good adu) (map fst h) -> good adu f ->
  let k := bundle_id f in
  exists m' out, fmgr_add last m f = Some (m', true, out) /\
    holds m' ((f, match out with Some _ => true | None => false end) :: h) /\
    (out <> None <-> complete (adu k) (pending k h ++ [f])) /\
    (forall b, out = Some b -> payload_is b (adu k)) /\
    (forall b, out = Some b -> exists f0 l0, In f0 (pending k h ++ [f]) /\ In l0 (pending k h ++ [f]) /\
       (forall g, In g (pending k h ++ [f]) -> pr_off (bv_primary f0) <= pr_off (bv_primary g) <= pr_off (bv_primary l0)) /\
       b = mkBundle (copy_primary_nofragment (bv_primary f0)) (blocks_before (adu k) (bv_blocks f0) ++ blocks_after (bv_blocks l0))).
Proof.
  intros HW HH HG [Hf Hfl] k. destruct (HH k) as (P1 & P2 & P3). pose proof Hf as (d & (pl & EP & ED) & Hd & Ho & Hp & Ht).
  apply len_pos in Hd. fold k in Ho, Hp, Ht. specialize (HW k).
  unfold fmgr_add. rewrite Hfl. cbn [negb]. fold k. rewrite EP, ED. set (o := pr_off (bv_primary f)) in *.
  rewrite (add64_small o) by lia. rewrite (sub64_small (o + _)) by lia. rewrite Ht, (sub64_small (N.of_nat (length (adu k)))) by lia.
  destruct (insert_spec last (snd (fmgr_get m k)) (o, o + N.of_nat (length d) - 1) P2) as (C1 & C2 & _). { split; cbn [fst snd]; lia. }
  set (set' := fst (insert_fragment last (snd (fmgr_get m k)) (o, o + N.of_nat (length d) - 1))) in *.
  assert (CV : forall i, covers set' i <-> exists g, In g (pending k h ++ [f]) /\ has_byte g i).
  { intros i. rewrite C2, P3. split.
    - intros [(g & G1 & G2)|[Q1 Q2]]; [exists g; split; [apply in_or_app; now left|exact G2]|].
      exists f. split; [apply in_or_app; right; now left|]. exists d. split; [now exists pl|]. fold o. cbn [fst snd] in *. lia.
    - intros (g & G1 & G2). apply in_app_or in G1. destruct G1 as [G1|[<-|[]]]; [left; now exists g|].
      right. destruct G2 as (d' & P' & Q'). rewrite <- (payload_is_fun f d d') in Q' by (try exact P'; now exists pl). fold o in Q'. split; cbn [fst snd]; lia. }
  assert (CC : contains_entirely last set' (0, N.of_nat (length (adu k)) - 1) = true <-> complete (adu k) (pending k h ++ [f])).
  { rewrite contains_entirely_spec by (try exact C1; split; cbn [fst snd]; lia). unfold complete. split.
    - intros H i Hi. apply CV. apply H. split; cbn [fst snd]; lia.
    - intros H i [Q1 Q2]. cbn [fst snd] in *. apply CV. apply H. lia. }
  rewrite P1.
  assert (OTHER : forall b k', k <> k' -> pending k' ((f, b) :: h) = pending k' h).
  { intros b k' Hk. cbn [pending]. fold k. destruct (bid_eqb k' k) eqn:E; [apply bid_eqb_eq in E; congruence|]. now destruct b. }
  assert (DEC : forall k', k = k' \/ k <> k'). { intros k'. destruct (bid_eqb k k') eqn:E; [left; now apply bid_eqb_eq|right; intros ->; rewrite bid_eqb_refl in E; discriminate]. }
  destruct (contains_entirely last set' (0, N.of_nat (length (adu k)) - 1)) eqn:EC; cbn [negb].
  - assert (COM : complete (adu k) (pending k h ++ [f])) by now apply CC.
    assert (ALL : Forall (fragment_of (adu k)) (pending k h ++ [f])).
    { apply Forall_forall. intros g Hg. apply in_app_or in Hg. destruct Hg as [Hg|[<-|[]]]; [|exact Hf].
      apply pending_in in Hg. destruct Hg as [E Hg]. rewrite Forall_forall in HG. rewrite <- E. apply HG. exact Hg. }
    assert (FR : forall g, In g (pending k h ++ [f]) -> bundle_id g = k /\ is_fragment (bv_primary g) = true).
    { intros g Hg. apply in_app_or in Hg. destruct Hg as [Hg|[<-|[]]]; [|now split].
      apply pending_in in Hg. destruct Hg as [E Hg]. split; [exact E|]. rewrite Forall_forall in HG. apply HG. exact Hg. }
    destruct (assemble_ok last (adu k) (pending k h ++ [f]) HW ALL) as (f0 & l0 & I1 & I2 & I3 & EA).
    { destruct (pending k h); discriminate. } { exact COM. }
    { intros g g' Hg Hg'. destruct (FR g Hg) as [-> Fg]. destruct (FR g' Hg') as [-> _]. split; [reflexivity|exact Fg]. }
    rewrite EA. eexists _, _. split; [reflexivity|]. split; [|split; [|split]].
    + intros k'. destruct (DEC k') as [<-|Hk].
      * rewrite get_erase_same. cbn [fst snd pending]. fold k. rewrite bid_eqb_refl. split; [reflexivity|]. split; [apply canonical_nil|].
        intros i. split; [intros (g & [] & _)|intros (g & [] & _)].
      * rewrite get_erase_other, OTHER by assumption. apply HH.
    + split; [intros _; exact COM|discriminate].
    + intros b [= <-]. rewrite Forall_forall in ALL. destruct (ALL f0 I1) as (d0 & D0 & _). destruct (ALL l0 I2) as (d1 & D1 & _). now apply (assembled_payload (adu k) f0 l0 _ d0 d1).
    + intros b [= <-]. exists f0, l0. split; [exact I1|]. split; [exact I2|]. split; [exact I3|reflexivity].
  - eexists _, None. split; [reflexivity|]. split; [|split; [|split; discriminate]].
    + intros k'. destruct (DEC k') as [<-|Hk].
      * rewrite get_put_same. cbn [fst snd pending]. fold k. rewrite bid_eqb_refl. split; [reflexivity|]. split; [exact C1|exact CV].
      * rewrite get_put_other, OTHER by assumption. apply HH.
    + split; [congruence|]. intros H. apply CC in H. discriminate.
Qed.
Lemma history_holds last adu m h : (forall k, N.of_nat (length (adu k)) < W64) -> history last m h -> Forall (good adu) (map fst h) -> holds m h.
Proof.
  intros HW. induction 1 as [|m h f m' ret out HH IH E]; intros HG.
  - intros k. split; [reflexivity|]. split; [apply canonical_nil|]. intros i. split; [intros (g & [] & _)|intros (g & [] & _)].
  - cbn [map fst] in HG. pose proof (Forall_inv HG) as Gf. pose proof (Forall_inv_tail HG) as Gr.
    destruct (fmgr_step last adu m h f HW (IH Gr) Gr Gf) as (m'' & out' & E' & HH' & _). rewrite E in E'. injection E' as -> _ ->. exact HH'.
Qed.
