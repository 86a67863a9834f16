(** Lemmas for C18. *)
From Coq Require Import NArith ZArith List Bool Lia ZifyBool ZifyN Permutation.
From Verif Require Import Base M_FragmentSet S_FragmentSet L_FragmentSet M_CustodyId S_CustodyId.
Import ListNotations.
Open Scope N_scope.

Definition BLOCKS : N := 72057594037927936. (* 2^56 *)
Lemma shr8 i : N.shiftr i 8 = i / 256.
Proof. rewrite N.shiftr_div_pow2. reflexivity. Qed.
Lemma base_small m : m < BLOCKS -> block_base m = m * 256.
Proof. intros. unfold block_base. rewrite N.shiftl_mul_pow2. change (2 ^ 8) with 256. apply N.mod_small. unfold BLOCKS, W64 in *. lia. Qed.
Lemma in_block m i : m < BLOCKS -> in_frag (block_base m, add64 (block_base m) 255) i <-> i / 256 = m.
Proof. intros H. rewrite base_small, add64_small by (rewrite ?base_small by lia; unfold BLOCKS, W64 in *; lia). unfold in_frag. simpl. lia. Qed.

Definition block_empty (ids : fset) (m : N) : Prop := forall i, i / 256 = m -> ~ covers ids i.
Lemma dnc_block ids m : canonical ids -> m < BLOCKS ->
  does_not_contain ids (block_base m, add64 (block_base m) 255) = true <-> block_empty ids m.
Proof.
  intros C H. rewrite does_not_contain_spec; [|assumption|].
  - unfold block_empty. split; intros A i Hi; apply A; now apply in_block.
  - simpl. rewrite base_small, add64_small by (rewrite ?base_small by lia; unfold BLOCKS, W64 in *; lia). lia.
Qed.
Lemma block_empty_dec ids m : canonical ids -> m < BLOCKS -> block_empty ids m \/ ~ block_empty ids m.
Proof. intros C H. pose proof (dnc_block ids m C H). destruct (does_not_contain _ _); [left|right]; intuition congruence. Qed.

Lemma free_mult_spec last ids mults m : canonical ids -> canonical mults -> m < BLOCKS ->
  canonical (fst (free_mult last ids mults m)) /\
  (forall x, covers (fst (free_mult last ids mults m)) x <-> covers mults x /\ ~ (x = m /\ block_empty ids m)) /\
  (snd (free_mult last ids mults m) = 0 \/ snd (free_mult last ids mults m) = 1) /\
  (snd (free_mult last ids mults m) = 1 <-> covers mults m /\ block_empty ids m).
Proof.
  intros C1 C2 H. unfold free_mult. pose proof (dnc_block ids m C1 H) as D.
  assert (valid (m, m)) as V by (unfold valid, BLOCKS, W64 in *; simpl; lia).
  pose proof (contains_entirely_spec last mults (m, m) C2 V) as CE.
  assert ((forall i, in_frag (m, m) i -> covers mults i) <-> covers mults m) as CM.
  { split; [intros A; apply A; unfold in_frag; simpl; lia|]. intros A i [I1 I2]. simpl in *. replace i with m by lia. exact A. }
  destruct (does_not_contain _ _).
  - destruct (contains_entirely last mults (m, m)); simpl.
    + destruct (remove_single_spec mults m C2) as (R1 & R2 & _); [unfold BLOCKS, W64 in *; lia|].
      split; [exact R1|]. split; [|split; [auto|tauto]]. intros x. rewrite R2. tauto.
    + split; [exact C2|]. split; [|split; [auto|]]. 
      * intros x. split; [|tauto]. intros A. split; [exact A|]. intros [-> _]. assert (false = true) by tauto. discriminate.
      * split; [discriminate|]. intros [A _]. assert (false = true) by tauto. discriminate.
  - simpl. assert (~ block_empty ids m) by (rewrite <- D; discriminate). split; [exact C2|]. split; [intros; tauto|]. split; [auto|]. split; [discriminate|tauto].
Qed.
Lemma free_mults_spec last ids : canonical ids -> forall cnt mults m, canonical mults -> m + N.of_nat cnt <= BLOCKS ->
  canonical (fst (free_mults last ids mults m cnt)) /\
  (forall x, covers (fst (free_mults last ids mults m cnt)) x <-> covers mults x /\ ~ (m <= x < m + N.of_nat cnt /\ block_empty ids x)).
Proof.
  intros C1. induction cnt as [|c IH]; intros mults m C2 H.
  - simpl. split; [exact C2|]. intros x. split; [|tauto]. intros A. split; [exact A|]. intros [? _]. lia.
  - cbn [free_mults]. destruct (free_mult_spec last ids mults m C1 C2) as (A1 & A2 & _); [lia|].
    destruct (free_mult last ids mults m) as [mults1 n1]. simpl fst in *.
    destruct (IH mults1 (m + 1) A1) as (B1 & B2); [lia|].
    destruct (free_mults last ids mults1 (m + 1) c) as [mults2 n2]. simpl fst in *. split; [exact B1|].
    intros x. rewrite B2, A2. destruct (N.eq_dec x m) as [->|].
    + split; [intros [[A B] _]|intros [A B]]; repeat split; auto; intros [X Y]; [apply B; auto|apply B; split; [lia|tauto]|lia].
    + split; [intros [[A B] C]|intros [A B]]; repeat split; auto; intros [X Y]; [apply C; split; [lia|exact Y]|congruence|apply B; split; [lia|exact Y]].
Qed.

(** The invariant on the used sets, the list of cursors (next id of each source, base of the reserved block) and the
    ids in use. *)
Definition pend (cs : list N) (i : N) : Prop := exists n, In n cs /\ n <= i /\ i / 256 = n / 256.
Record J (ids mults : fset) (cs : list N) (used : idset) (B : N) : Prop := {
  jc1 : canonical ids; jc2 : canonical mults;
  jm : forall m, covers mults m <-> exists i, i / 256 = m /\ covers ids i;
  ji : forall i, covers ids i <-> used i \/ pend cs i;
  jd : forall i, used i -> ~ pend cs i;
  jb : forall m, covers mults m -> m < B;
  jn : NoDup (map (fun n => n / 256) cs) }.

Lemma covers_small s i : canonical s -> covers s i -> i + 1 < W64.
Proof. intros C (f & F & I). apply (canonical_In s f C) in F. unfold valid, in_frag in *. lia. Qed.
Lemma pend_self cs n : In n cs -> pend cs n.
Proof. intros. exists n. repeat split; auto; lia. Qed.
Lemma pend_perm cs cs' i : Permutation cs cs' -> pend cs i -> pend cs' i.
Proof. intros P (n & A & B). exists n. split; [|exact B]. now apply (Permutation_in _ P). Qed.
Lemma J_perm ids mults cs cs' used B : Permutation cs cs' -> J ids mults cs used B -> J ids mults cs' used B.
Proof.
  intros P []. constructor; auto.
  - intros i. rewrite ji0. split; (intros [?|Q]; [now left|right]); [eapply pend_perm; eauto|eapply pend_perm; [symmetry; eauto|exact Q]].
  - intros i U Q. apply (jd0 i U). eapply pend_perm; [symmetry; eauto|exact Q].
  - eapply Permutation_NoDup; [|exact jn0]. now apply Permutation_map.
Qed.

Lemma J_issue ids mults n cs used B : J ids mults (n :: cs) used B ->
  ~ used n /\ n + 1 < W64 /\
  J ids mults (if N.land (n + 1) 255 =? 0 then cs else (n + 1) :: cs) (fun i => i = n \/ used i) B.
Proof.
  intros []. assert (pend (n :: cs) n) as P by (apply pend_self; now left).
  assert (n + 1 < W64) as Hn by (apply (covers_small ids n jc3); apply ji0; now right).
  split; [intros U; exact (jd0 n U P)|]. split; [exact Hn|].
  change 255 with (N.ones 8). rewrite N.land_ones. change (2 ^ 8) with 256.
  simpl in jn0. apply NoDup_cons_iff in jn0. destruct jn0 as [N1 N2].
  assert (forall i, pend cs i -> i / 256 <> n / 256) as D.
  { intros i (m & A & _ & E) Q. apply N1. apply in_map_iff. exists m. split; [lia|exact A]. }
  assert (forall i, pend (n :: cs) i <-> (n <= i /\ i / 256 = n / 256) \/ pend cs i) as PC.
  { intros i. unfold pend. split.
    - intros (m & [->|A] & Q); [now left|right; eauto].
    - intros [Q|(m & A & Q)]; [exists n|exists m]; simpl; tauto. }
  destruct (N.eqb_spec ((n + 1) mod 256) 0) as [E|E].
  - constructor; auto.
    + intros i. rewrite ji0, PC. split; [intros [?|[[? ?]|?]]; auto; left; left; lia|]. intros [[->|?]|?]; auto. right. left. split; [lia|reflexivity].
    + intros i [->|U] Q; [exact (D n Q eq_refl)|]. apply (jd0 i U). apply PC. now right.
  - constructor; auto.
    + intros i. rewrite ji0, PC. unfold pend at 2. split.
      * intros [U|[[A B']|(m & A & Q)]]; auto.
        -- destruct (N.eq_dec i n); [left; now left|]. right. exists (n + 1). split; [now left|]. lia.
        -- right. exists m. split; [now right|exact Q].
      * intros [[->|U]|(m & [<-|A] & Q)]; auto.
        -- right. left. lia.
        -- right. left. lia.
        -- right. right. exists m. tauto.
    + intros i [->|U] (m & [<-|A] & Q).
      * lia.
      * apply (D n); [exists m; tauto|reflexivity].
      * apply (jd0 i U). apply PC. left. lia.
      * apply (jd0 i U). apply PC. right. exists m. tauto.
    + simpl. constructor; [|exact N2]. replace ((n + 1) / 256) with (n / 256) by lia. exact N1.
Qed.

Lemma lowest_free mults B : canonical mults -> (forall m, covers mults m -> m < B) -> B < BLOCKS ->
  let m := match mults with [] => 0 | f :: _ => if negb (fst f =? 0) then 0 else add64 (snd f) 1 end in
  ~ covers mults m /\ m <= B /\ forall x, x < m -> covers mults x.
Proof.
  intros C Hb HB. destruct mults as [|[b e] r]; simpl.
  - split; [rewrite covers_nil; tauto|]. split; [lia|]. intros; lia.
  - pose proof C as C'. apply canonical_cons in C'. destruct C' as ([V1 V2] & G & C'). simpl in V1, V2.
    destruct (N.eqb_spec b 0) as [->|]; simpl.
    + assert (e < B) by (apply Hb; exists (0, e); split; [now left|unfold in_frag; simpl; lia]).
      rewrite add64_small by (unfold BLOCKS, W64 in *; lia). split; [|split; [lia|]].
      * rewrite covers_cons. intros [[? I2]|(f & F & I)]; [simpl in *; lia|]. rewrite Forall_forall in G. apply G in F. unfold gap_before, in_frag in *. simpl in *. lia.
      * intros x X. exists (0, e). split; [now left|]. unfold in_frag. simpl. lia.
    + split; [|split; [lia|intros; lia]]. rewrite covers_cons. intros [[I1 ?]|(f & F & I)]; [simpl in *; lia|].
      rewrite Forall_forall in G. apply G in F. unfold gap_before, in_frag in *. simpl in *. lia.
Qed.

(** The state as a whole: the reserved block (when there is one) and the sources' cursors. *)
Definition cursors (st : cia) : list N := (if ca_next st =? U64MAX then [] else [ca_next st]) ++ map snd (ca_cur st).
Definition K (st : cia) (used : idset) (B : N) : Prop :=
  J (ca_ids st) (ca_mults st) (cursors st) used B /\ (ca_next st = U64MAX \/ ca_next st mod 256 = 0).

Lemma J_reserve last next cur ids mults used B :
  J ids mults (map snd cur) used B -> B + 1 < BLOCKS ->
  let st := cia_reserve last (mkCia next cur ids mults) in
  K st used (B + 1) /\ ca_next st <> U64MAX /\ ca_cur st = cur.
Proof.
  intros [] HB. unfold cia_reserve. cbn [ca_mults ca_ids ca_cur].
  destruct (lowest_free mults B jc4 jb0) as (F & L & _); [lia|].
  set (m := match mults with [] => 0 | f :: _ => _ end) in *.
  assert (m < BLOCKS) as Hm by lia.
  assert (valid (block_base m, add64 (block_base m) 255)) as V.
  { unfold valid. simpl. rewrite base_small, add64_small by (rewrite ?base_small by lia; unfold BLOCKS, W64 in *; lia). unfold BLOCKS, W64 in *; lia. }
  assert (valid (m, m)) as V2 by (unfold valid; simpl; unfold BLOCKS, W64 in *; lia).
  destruct (insert_spec last ids _ jc3 V) as (I1 & I2 & _). destruct (insert_spec last mults _ jc4 V2) as (M1 & M2 & _).
  assert (forall i, i / 256 = m -> ~ covers ids i) as E.
  { intros i Q C. apply F. apply jm0. now exists i. }
  cbn [ca_next]. assert (block_base m <> U64MAX) as NM by (rewrite base_small by lia; unfold U64MAX; lia).
  assert (block_base m / 256 = m) as BD by (rewrite base_small by lia; lia).
  assert (block_base m mod 256 = 0) as BM by (rewrite base_small by lia; lia).
  split; [|split; [exact NM|reflexivity]]. split; [|now right]. unfold cursors. cbn [ca_next ca_cur ca_ids ca_mults].
  replace (block_base m =? U64MAX) with false by lia. simpl app.
  assert (forall i, pend (block_base m :: map snd cur) i <-> i / 256 = m \/ pend (map snd cur) i) as PC.
  { intros i. unfold pend. split.
    - intros (x & [<-|A] & Q); [left; lia|right; exists x; tauto].
    - intros [Q|(x & A & Q)]; [exists (block_base m); split; [now left|split; [lia|lia]]|exists x; simpl; tauto]. }
  constructor; auto.
  - intros x. rewrite M2, jm0. unfold in_frag. simpl. split.
    + intros [(i & A & C)|[A1 A2]]; [exists i; split; [exact A|]; apply I2; now left|].
      exists (block_base m). split; [lia|]. apply I2. right. apply in_block; lia.
    + intros (i & A & C). apply I2 in C. destruct C as [C|C]; [left; now exists i|]. apply in_block in C; [|lia]. right. lia.
  - intros i. rewrite I2, in_block, ji0, PC by lia. tauto.
  - intros i U Q. apply PC in Q. destruct Q as [Q|Q]; [|exact (jd0 i U Q)]. apply (E i Q). apply ji0. now left.
  - intros x X. apply M2 in X. destruct X as [X|X]; [apply jb0 in X; lia|]. unfold in_frag in X. simpl in X. lia.
  - simpl. constructor; [|exact jn0]. rewrite BD. intros Q. apply in_map_iff in Q. destruct Q as (x & Q & X).
    apply (E x Q). apply ji0. right. now apply pend_self.
Qed.

Lemma cur_none l k v : cur_find l k = None -> Permutation (map snd (cur_set l k v)) (v :: map snd l).
Proof.
  induction l as [|[k' v'] l IH]; simpl; intros E; [reflexivity|]. destruct (eid_eqb k' k); [discriminate|].
  simpl. rewrite (IH E). apply perm_swap.
Qed.
Lemma cur_some l k n : cur_find l k = Some n -> exists rest, Permutation (map snd l) (n :: rest) /\ forall v, Permutation (map snd (cur_set l k v)) (v :: rest).
Proof.
  induction l as [|[k' v'] l IH]; simpl; intros E; [discriminate|]. destruct (eid_eqb k' k).
  - injection E as ->. exists (map snd l). split; [reflexivity|]. reflexivity.
  - destruct (IH E) as (rest & A & B). exists (v' :: rest). simpl. split; [rewrite A; apply perm_swap|]. intros v. rewrite B. apply perm_swap.
Qed.

Lemma J_mono ids mults cs used B B' : B <= B' -> J ids mults cs used B -> J ids mults cs used B'.
Proof. intros L []. constructor; auto. intros m H. apply jb0 in H. lia. Qed.
Lemma K_mono st used B B' : B <= B' -> K st used B -> K st used B'.
Proof. intros L [A C]. split; [eapply J_mono; eauto|exact C]. Qed.

Lemma K_get_reserved last st used B src : K st used B -> B + 1 < BLOCKS -> ca_next st <> U64MAX ->
  let '(st', id) := match cur_find (ca_cur st) src with
    | None => (cia_reserve last (with_cur st (cur_set (ca_cur st) src (add64 (ca_next st) 1))), ca_next st)
    | Some n => if N.land (add64 n 1) 255 =? 0 then (cia_reserve last (with_cur st (cur_set (ca_cur st) src (ca_next st))), n)
                else (with_cur st (cur_set (ca_cur st) src (add64 n 1)), n) end in
  ~ used id /\ K st' (fun i => i = id \/ used i) (B + 1) /\ ca_next st' <> U64MAX.
Proof.
  intros [HJ HN] HB NM. destruct HN as [|HN]; [congruence|]. unfold cursors in HJ. replace (ca_next st =? U64MAX) with false in HJ by lia. simpl app in HJ.
  destruct (cur_find (ca_cur st) src) as [n|] eqn:CF.
  - destruct (cur_some _ _ _ CF) as (rest & P1 & P2).
    assert (J (ca_ids st) (ca_mults st) (n :: ca_next st :: rest) used B) as HJ'.
    { eapply J_perm; [|exact HJ]. rewrite P1. apply perm_swap. }
    apply J_issue in HJ'. destruct HJ' as (U & W & HJ'). rewrite add64_small by lia.
    destruct (N.eqb_spec (N.land (n + 1) 255) 0).
    + pose proof (J_reserve last (ca_next st) (cur_set (ca_cur st) src (ca_next st)) (ca_ids st) (ca_mults st) (fun i => i = n \/ used i) B) as R.
      destruct R as (R1 & R2 & _); [eapply J_perm; [symmetry; apply P2|exact HJ']|lia|]. split; [exact U|]. split; [exact R1|exact R2].
    + split; [exact U|]. split; [|exact NM]. eapply K_mono; [apply N.le_add_r|]. split; [|now right].
      unfold cursors, with_cur. cbn [ca_next ca_cur ca_ids ca_mults]. replace (ca_next st =? U64MAX) with false by lia. simpl app.
      eapply J_perm; [|exact HJ']. rewrite (P2 (n + 1)). apply perm_swap.
  - apply J_issue in HJ. destruct HJ as (U & W & HJ). rewrite add64_small by lia.
    assert (N.land (ca_next st + 1) 255 =? 0 = false) as L.
    { change 255 with (N.ones 8). rewrite N.land_ones. change (2 ^ 8) with 256. lia. }
    rewrite L in HJ.
    pose proof (J_reserve last (ca_next st) (cur_set (ca_cur st) src (ca_next st + 1)) (ca_ids st) (ca_mults st) (fun i => i = ca_next st \/ used i) B) as R.
    destruct R as (R1 & R2 & _); [eapply J_perm; [symmetry; apply cur_none; exact CF|exact HJ]|lia|]. split; [exact U|]. split; [exact R1|exact R2].
Qed.

Lemma K_get last st used B src : K st used B -> B + 2 < BLOCKS ->
  let '(st', id) := cia_get last st src in ~ used id /\ K st' (fun i => i = id \/ used i) (B + 2).
Proof.
  intros HK HB. unfold cia_get. destruct (N.eqb_spec (ca_next st) U64MAX) as [E|E].
  - destruct HK as [HJ _]. unfold cursors in HJ. rewrite E in HJ. change (U64MAX =? U64MAX) with true in HJ. simpl app in HJ.
    destruct st as [nx cur ids mults]. cbn [ca_next ca_cur ca_ids ca_mults] in *.
    destruct (J_reserve last nx cur ids mults used B HJ) as (R1 & R2 & R3); [lia|].
    pose proof (K_get_reserved last _ used (B + 1) src R1 ltac:(lia) R2) as G.
    destruct (match cur_find _ src with None => _ | Some _ => _ end) as [st' id]. destruct G as (G1 & G2 & _).
    split; [exact G1|]. eapply K_mono; [|exact G2]. lia.
  - pose proof (K_get_reserved last st used B src HK ltac:(lia) E) as G.
    destruct (match cur_find _ src with None => _ | Some _ => _ end) as [st' id]. destruct G as (G1 & G2 & _).
    split; [exact G1|]. eapply K_mono; [|exact G2]. lia.
Qed.

(** Freeing ids in use. *)
Lemma J_free ids mults cs used B ids' mults' b e : J ids mults cs used B -> (forall i, b <= i <= e -> used i) -> b <= e ->
  canonical ids' -> (forall i, covers ids' i <-> covers ids i /\ ~ (b <= i <= e)) ->
  canonical mults' -> (forall m, covers mults' m <-> covers mults m /\ ~ (b / 256 <= m <= e / 256 /\ block_empty ids' m)) -> B <= BLOCKS ->
  J ids' mults' cs (fun j => used j /\ ~ (b <= j <= e)) B.
Proof.
  intros [] U L C1 I C2 M HB. constructor; auto.
  - intros m. rewrite M. split.
    + intros [Cm NE]. assert (m < BLOCKS) as Hm by (apply jb0 in Cm; lia). apply jm0 in Cm. destruct Cm as (i & Q & Ci).
      destruct (N.le_gt_cases (b / 256) m) as [L1|L1]; [destruct (N.le_gt_cases m (e / 256)) as [L2|L2]|].
      * destruct (does_not_contain ids' (block_base m, add64 (block_base m) 255)) eqn:D.
        -- apply dnc_block in D; [tauto|auto|auto].
        -- destruct (find (frag_equiv_abut (block_base m, add64 (block_base m) 255)) ids') as [f|] eqn:FF.
           2: { unfold does_not_contain in D. rewrite FF in D. discriminate. }
           apply find_some in FF. destruct FF as [FI FE]. apply equiv_abut_spec in FE. cbn [fst snd] in FE.
           pose proof (canonical_In _ _ C1 FI) as [V1 V2].
           exists (N.max (block_base m) (fst f)). rewrite base_small, add64_small in * by (rewrite ?base_small by lia; unfold BLOCKS, W64 in *; lia).
           split; [lia|]. exists f. split; [exact FI|]. unfold in_frag. lia.
      * exists i. split; [exact Q|]. apply I. split; [exact Ci|]. intros A. assert (i / 256 <= e / 256) by (apply N.div_le_mono; lia). lia.
      * exists i. split; [exact Q|]. apply I. split; [exact Ci|]. intros A. assert (b / 256 <= i / 256) by (apply N.div_le_mono; lia). lia.
    + intros (i & Q & Ci). split; [apply jm0; exists i; split; [exact Q|]; now apply I|]. intros [_ BE]. exact (BE i Q Ci).
  - intros i. rewrite I, ji0. split; [|intros [[Ui NR]|P]].
    + intros [[Ui|P] NR]; [left; tauto|now right].
    + tauto.
    + split; [now right|]. intros A. exact (jd0 i (U i A) P).
  - intros i [Ui _]. auto.
  - intros m Cm. apply M in Cm. now apply jb0.
Qed.

Lemma K_free last st used B i : K st used B -> B <= BLOCKS -> used i -> K (fst (cia_free last st i)) (fun j => used j /\ j <> i) B.
Proof.
  intros [HJ HN] HB U. unfold cia_free. rewrite shr8.
  assert (covers (ca_ids st) i) as Ci by (apply (ji _ _ _ _ _ HJ); now left).
  assert (i + 1 < W64) as Wi by (apply (covers_small (ca_ids st)); [apply HJ|exact Ci]).
  destruct (remove_single_spec (ca_ids st) i (jc1 _ _ _ _ _ HJ) Wi) as (R1 & R2 & _).
  assert (i / 256 < BLOCKS) as Hm by (assert (covers (ca_mults st) (i / 256)) as Cm by (apply (jm _ _ _ _ _ HJ); eauto); apply (jb _ _ _ _ _ HJ) in Cm; lia).
  destruct (free_mult_spec last (fst (remove_fragment (ca_ids st) (i, i))) (ca_mults st) (i / 256) R1 (jc2 _ _ _ _ _ HJ) Hm) as (F1 & F2 & _).
  destruct (free_mult last _ _ _) as [mults' n]. simpl fst in *. split; [|exact HN].
  assert (J (fst (remove_fragment (ca_ids st) (i, i))) mults' (cursors st) (fun j => used j /\ ~ (i <= j <= i)) B) as JJ.
  { eapply (J_free (ca_ids st) (ca_mults st)); eauto; try lia.
    - intros j Hj. replace j with i by lia. exact U.
    - intros j. rewrite R2. split; intros [A B0]; split; auto; lia.
    - intros m. rewrite F2. split; intros [A B0]; split; auto; intros [X Y]; apply B0; assert (m = i / 256) as -> by lia; (split; [lia|exact Y]). }
  destruct JJ. constructor; auto.
  - intros j. cbn [ca_ids] in *. rewrite ji0. split; (intros [[A B0]|P]; [left; split; [exact A|lia]|right; exact P]).
  - intros j [A B0]. apply jd0. split; [exact A|lia].
Qed.

Lemma K_free_range last st used B b e : K st used B -> B <= BLOCKS -> b <= e -> (forall i, b <= i <= e -> used i) ->
  K (fst (cia_free_range last st b e)) (fun j => used j /\ ~ (b <= j <= e)) B.
Proof.
  intros [HJ HN] HB L U. unfold cia_free_range. rewrite !shr8.
  assert (forall i, b <= i <= e -> covers (ca_ids st) i) as Ci by (intros; apply (ji _ _ _ _ _ HJ); left; auto).
  assert (e + 1 < W64) as We by (apply (covers_small (ca_ids st)); [apply HJ|apply Ci; lia]).
  assert (valid (b, e)) as V by (unfold valid; simpl; lia).
  assert (~ abuts_left (ca_ids st) (b, e)) as NA.
  { intros (f & F & Q). simpl in Q. destruct (Ci b ltac:(lia)) as (g & G & Ig). 
    pose proof (canonical_In _ _ (jc1 _ _ _ _ _ HJ) F). pose proof (canonical_In _ _ (jc1 _ _ _ _ _ HJ) G).
    destruct (canonical_apart (ca_ids st) f g (jc1 _ _ _ _ _ HJ) F G) as [->|[X|X]]; unfold gap_before, in_frag, valid in *; lia. }
  destruct (remove_spec (ca_ids st) (b, e) (jc1 _ _ _ _ _ HJ) V NA) as (R1 & R2 & _).
  assert (b / 256 <= e / 256) as Lm by (apply N.div_le_mono; lia).
  assert (e / 256 < BLOCKS) as Hm.
  { assert (covers (ca_mults st) (e / 256)) as Cm. { apply (jm _ _ _ _ _ HJ). exists e. split; [reflexivity|apply Ci; lia]. } apply (jb _ _ _ _ _ HJ) in Cm; lia. }
  destruct (free_mults_spec last (fst (remove_fragment (ca_ids st) (b, e))) R1 (N.to_nat (e / 256 + 1 - b / 256)) (ca_mults st) (b / 256) (jc2 _ _ _ _ _ HJ)) as (F1 & F2); [lia|].
  destruct (free_mults last _ _ _ _) as [mults' n]. simpl fst in *. split; [|exact HN].
  eapply (J_free (ca_ids st) (ca_mults st)); eauto.
  intros m. rewrite F2. split; intros [A B0]; split; auto; intros [X Y]; apply B0; split; auto; lia.
Qed.

Lemma K_fresh last : forall ops st used B, K st used B -> B + 2 * N.of_nat (length ops) < BLOCKS -> issues_fresh last st used ops.
Proof.
  induction ops as [|[src|i|b e] ops IH]; intros st used B HK HB; cbn [issues_fresh]; [exact I| | |]; cbn [length] in HB.
  - pose proof (K_get last st used B src HK ltac:(lia)) as G. destruct (cia_get last st src) as [st' id]. destruct G as (G1 & G2).
    split; [exact G1|]. eapply IH; [exact G2|lia].
  - intros U. eapply IH; [apply (K_free last st used B i HK); [lia|exact U]|lia].
  - intros L U. eapply IH; [apply (K_free_range last st used B b e HK); [lia|exact L|exact U]|lia].
Qed.

Lemma restore_J last : forall rs st (used : idset), 
  (canonical (ca_ids st) /\ canonical (ca_mults st) /\ (forall m, covers (ca_mults st) m <-> exists i, i / 256 = m /\ covers (ca_ids st) i) /\
   (forall i, covers (ca_ids st) i <-> used i) /\ (forall i, used i -> i < 2 ^ 63) /\ ca_next st = U64MAX /\ ca_cur st = []) ->
  Forall (fun r => fst r <= snd r /\ snd r < 2 ^ 63) rs ->
  K (fold_left (fun st r => cia_init_range last st (fst r) (snd r)) rs st) (fun i => used i \/ restored rs i) (2 ^ 55).
Proof.
  induction rs as [|[b e] rs IH]; intros st used (C1 & C2 & M & U & B & N1 & N2) F; cbn [fold_left].
  - assert (forall i, (used i \/ restored [] i) <-> used i) as R by (intros i; unfold restored; split; [intros [A|(r & [] & _)]; auto|auto]).
    split; [|now left]. unfold cursors. rewrite N1, N2. change (U64MAX =? U64MAX) with true. simpl app.
    assert (forall i, ~ pend [] i) as P by (intros i (n & [] & _)).
    constructor; auto.
    + intros i. rewrite U, R. specialize (P i). tauto.
    + intros m Hm. apply M in Hm. destruct Hm as (i & <- & Ci). apply U, B in Ci.
      apply N.div_lt_upper_bound; [discriminate|exact Ci].
    + constructor.
  - inversion F as [|? ? [L1 L2] F']; subst. cbn [fst snd] in *.
    assert (b / 256 <= e / 256) as Ld by (apply N.div_le_mono; lia).
    assert (2 ^ 63 = 9223372036854775808) as P63 by reflexivity.
    assert (valid (b, e)) as V1 by (unfold valid, W64; simpl; lia).
    assert (valid (b / 256, e / 256)) as V2 by (unfold valid, W64; simpl; lia).
    destruct (insert_spec last (ca_ids st) (b, e) C1 V1) as (I1 & I2 & _).
    destruct (insert_spec last (ca_mults st) (b / 256, e / 256) C2 V2) as (J1 & J2 & _).
    specialize (IH (cia_init_range last st b e) (fun i => used i \/ b <= i <= e)).
    assert (forall B, (K (fold_left (fun st r => cia_init_range last st (fst r) (snd r)) rs (cia_init_range last st b e)) (fun i => (used i \/ b <= i <= e) \/ restored rs i) B) ->
      K (fold_left (fun st r => cia_init_range last st (fst r) (snd r)) rs (cia_init_range last st b e)) (fun i => used i \/ restored ((b, e) :: rs) i) B) as EQ.
    { intros B0 [[] HN]. assert (forall i, (used i \/ restored ((b, e) :: rs) i) <-> ((used i \/ b <= i <= e) \/ restored rs i)) as Q.
      { intros i. unfold restored. split.
        - intros [A|(r & [<-|A] & I)]; [auto|auto|right; eauto].
        - intros [[A|A]|(r & A & I)]; [auto|right; exists (b, e); split; [now left|exact A]|right; exists r; split; [now right|exact I]]. }
      split; [|exact HN]. constructor; auto; intros i; [rewrite Q; apply ji0|]. intros A. apply jd0. now apply Q. }
    apply EQ. apply IH; [|exact F'].
    unfold cia_init_range. cbn [ca_ids ca_mults ca_next ca_cur]. rewrite !shr8. split; [exact I1|]. split; [exact J1|]. split; [|split; [|split; [|auto]]].
    + intros m. rewrite J2, M. unfold in_frag. cbn [fst snd]. split.
      * intros [(i & A & Ci)|[A1 A2]]; [exists i; split; [exact A|]; apply I2; now left|].
        exists (N.max b (m * 256)). split; [lia|]. apply I2. right. unfold in_frag. simpl. lia.
      * intros (i & <- & Ci). apply I2 in Ci. destruct Ci as [Ci|[X1 X2]]; [left; eauto|]. cbn [fst snd] in *. right.
        split; apply N.div_le_mono; lia.
    + intros i. rewrite I2, U. unfold in_frag. simpl. tauto.
    + intros i [A|A]; [auto|lia].
Qed.
