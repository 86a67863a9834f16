(** Lemmas about the restart. *)
From Coq Require Import NArith ZArith List Bool Lia ZifyBool ZifyN Sorted Permutation.
From Verif Require Import Base M_SegmentAlloc S_SegmentAlloc L_SegmentAlloc M_Storage S_Storage L_Storage M_Restore S_Restore.
Import ListNotations.
Open Scope N_scope.

(** ** The allocator *)
Lemma refines_perm st max A B : refines st max A -> Permutation A B -> refines st max B.
Proof.
  intros [R1 R2 R3 R4 R5 R6] P. constructor; auto.
  - eapply Permutation_NoDup; eauto.
  - intros id H. apply R4. eapply Permutation_in; [apply Permutation_sym|]; eauto.
  - intros id H. rewrite R5 by exact H. split; intros Hn Hi; apply Hn.
    + eapply Permutation_in; [apply Permutation_sym; exact P|exact Hi].
    + eapply Permutation_in; [exact P|exact Hi].
  - rewrite R6. f_equal. now apply Permutation_length.
Qed.

Lemma nodup_l {T} (a b : list T) : NoDup (a ++ b) -> NoDup a.
Proof.
  induction a as [|x a IH]; cbn [app]; intros H; [constructor|]. inversion H; subst. constructor; [|now apply IH].
  intros Hx. apply H2. apply in_or_app. now left.
Qed.
Lemma nodup_disj {T} (a b : list T) x : NoDup (a ++ b) -> In x a -> In x b -> False.
Proof.
  induction a as [|y a IH]; cbn [app]; intros H H1 H2; [destruct H1|]. inversion H; subst. destruct H1 as [->|H1]; [|now apply IH].
  apply H4. apply in_or_app. now right.
Qed.

Lemma sorted_snoc {T} (R : T -> T -> Prop) l x : StronglySorted R l -> (forall y, In y l -> R y x) -> StronglySorted R (l ++ [x]).
Proof.
  induction l as [|y l IH]; intros H1 H2; cbn [app]; [repeat constructor|]. inversion H1; subst. constructor.
  - apply IH; auto. intros z Hz. apply H2. now right.
  - apply Forall_app. split; [assumption|]. constructor; [apply H2; now left|constructor].
Qed.

(** ** Walking one chain *)
Fixpoint link (c : scfg) (im : image) (cu : N) (ids : list N) : Prop :=
  match ids with
  | [] => True
  | id :: r => (exists s, read_block c im id = Some s /\ h_custody (sg_hdr s) = cu /\ h_next (sg_hdr s) = nth 0 r (seg_last c)) /\ link c im cu r
  end.
Lemma link_nth c im cu ids : link c im cu ids <-> forall i id, nth_error ids i = Some id ->
  exists s, read_block c im id = Some s /\ h_custody (sg_hdr s) = cu /\ h_next (sg_hdr s) = nth (S i) ids (seg_last c).
Proof.
  induction ids as [|x r IH]; cbn [link].
  - split; [intros _ [|i] id; discriminate|trivial].
  - split.
    + intros (H1 & H2) [|i] id Hi.
      * injection Hi as <-. destruct H1 as (s & S1 & S2 & S3). exists s. split; [exact S1|]. split; [exact S2|]. rewrite S3. reflexivity.
      * apply IH with (i := i) in Hi; [|exact H2]. exact Hi.
    + intros H. split.
      * destruct (H 0%nat x eq_refl) as (s & S1 & S2 & S3). exists s. auto.
      * apply IH. intros i id Hi. exact (H (S i) id Hi).
Qed.

Lemma walk_ok c im cu max : max <= MAXSEGMENTS -> W32 <= sc_idw c -> forall ids id m acc A,
  refines m max A -> NoDup (id :: ids) -> (forall x, In x (id :: ids) -> is_free max A x) -> link c im cu (id :: ids) ->
  exists m', walk c im cu (length (id :: ids)) id m acc = WDone m' (acc ++ id :: ids) /\ refines m' max (rev (id :: ids) ++ A).
Proof.
  intros Hm Hw. induction ids as [|id2 ids IH]; intros id m acc A R Nd Fr Lk.
  - cbn [length walk link] in *. destruct Lk as ((s & S1 & S2 & S3) & _). rewrite S1, S2, N.eqb_refl. cbn [negb].
    destruct (is_segment_free_refines m max A id R) as (b & -> & Hb). replace b with true by (symmetry; apply Hb; apply Fr; now left).
    destruct (alloc_refines m max A id R) as (m1 & r & -> & Hr & R1). replace r with true in * by (symmetry; apply Hr; apply Fr; now left).
    cbn [nth] in S3. rewrite S3, N.eqb_refl. exists m1. split; [reflexivity|exact R1].
  - inversion Nd as [|a b Hni Nd2]; subst. pose proof Lk as Lk0. cbn [link] in Lk. destruct Lk as ((s & S1 & S2 & S3) & Lk).
    change (length (id :: id2 :: ids)) with (S (length (id2 :: ids))). cbn [walk]. rewrite S1, S2, N.eqb_refl. cbn [negb].
    destruct (is_segment_free_refines m max A id R) as (b & -> & Hb). replace b with true by (symmetry; apply Hb; apply Fr; now left).
    destruct (alloc_refines m max A id R) as (m1 & r & -> & Hr & R1). replace r with true in * by (symmetry; apply Hr; apply Fr; now left).
    cbn [length]. cbn [nth] in S3. rewrite S3. replace (id2 =? seg_last c) with false.
    2:{ symmetry. apply N.eqb_neq. destruct (Fr id2) as (F1 & _); [right; now left|]. unfold seg_last, MAXSEGMENTS, W32 in *. lia. }
    destruct (IH id2 m1 (acc ++ [id]) (id :: A) R1 Nd2) as (m' & E & R').
    + intros x Hx. destruct (Fr x) as (F1 & F2); [now right|]. split; [exact F1|]. intros [->|]; auto.
    + exact Lk.
    + exists m'. cbn [length] in E. split; [rewrite E; now rewrite <- app_assoc|]. cbn [rev] in *. rewrite <- !app_assoc in *. exact R'.
Qed.

Lemma walk_inv c im cu max : forall n id m acc A, refines m max A ->
  match walk c im cu n id m acc with
  | WUndef => False
  | WFail m' => True
  | WDone m' ch => exists ids, ch = acc ++ id :: ids /\ length (id :: ids) = n /\ NoDup (id :: ids) /\
      (forall x, In x (id :: ids) -> is_free max A x) /\ link c im cu (id :: ids) /\ refines m' max (rev (id :: ids) ++ A)
  end.
Proof.
  induction n as [|n IH]; intros id m acc A R; cbn [walk].
  - destruct (read_block c im id); [|exact I]. now destruct (negb _).
  - destruct (read_block c im id) as [s|] eqn:S1; [|exact I]. destruct (N.eqb_spec (h_custody (sg_hdr s)) cu) as [S2|]; [|exact I]. cbn [negb].
    destruct (is_segment_free_refines m max A id R) as (b & -> & Hb). destruct b; [|exact I].
    destruct (alloc_refines m max A id R) as (m1 & r & -> & Hr & R1).
    assert (Fid : is_free max A id) by now apply Hb. replace r with true in * by (symmetry; now apply Hr).
    destruct n as [|n'].
    + destruct (N.eqb_spec (h_next (sg_hdr s)) (seg_last c)) as [S3|]; [|exact I].
      exists []. split; [reflexivity|]. split; [reflexivity|]. split; [constructor; [intros []|constructor]|].
      split; [intros x [<-|[]]; exact Fid|]. split; [|exact R1]. cbn [link nth]. split; [|exact I]. exists s. auto.
    + destruct (N.eqb_spec (h_next (sg_hdr s)) (seg_last c)) as [|S3]; [exact I|].
      specialize (IH (h_next (sg_hdr s)) m1 (acc ++ [id]) (id :: A) R1).
      destruct (walk c im cu (S n') (h_next (sg_hdr s)) m1 (acc ++ [id])) as [|m'|m' ch]; [exact IH|exact I|].
      destruct IH as (ids & I1 & I2 & I3 & I4 & I5 & I6). exists (h_next (sg_hdr s) :: ids).
      split; [rewrite I1, <- app_assoc; reflexivity|]. split; [cbn [length] in *; lia|]. split.
      { constructor; [|exact I3]. intros Hx. apply I4 in Hx. destruct Hx as (_ & Hx). apply Hx. now left. }
      split.
      { intros x [<-|Hx]; [exact Fid|]. apply I4 in Hx. destruct Hx as (X1 & X2). split; [exact X1|]. intros Hx. apply X2. now right. }
      split; [|cbn [rev] in *; rewrite <- !app_assoc in *; exact I6].
      cbn [link]. split; [|exact I5]. exists s. cbn [nth]. auto.
Qed.

(** ** Lists of bundles *)
Lemma chains_app l1 l2 : chains (l1 ++ l2) = chains l1 ++ chains l2.
Proof. unfold chains. now rewrite map_app, concat_app. Qed.
Lemma chains_one f : chains [f] = e_chain (fd_entry f).
Proof. unfold chains. cbn [map concat]. apply app_nil_r. Qed.
Lemma In_chains l x : In x (chains l) <-> exists f, In f l /\ In x (e_chain (fd_entry f)).
Proof.
  unfold chains. rewrite in_concat. split.
  - intros (ch & H1 & H2). apply in_map_iff in H1. destruct H1 as (f & <- & Hf). eauto.
  - intros (f & H1 & H2). exists (e_chain (fd_entry f)). split; [|exact H2]. apply in_map_iff. eauto.
Qed.
Lemma head_cons c parse im f : bundle_on c parse im f -> exists ids, e_chain (fd_entry f) = head f :: ids.
Proof. intros (H & _). unfold head. destruct (e_chain (fd_entry f)) as [|x r]; [congruence|]. exists r. reflexivity. Qed.
Lemma head_in c parse im f : bundle_on c parse im f -> In (head f) (e_chain (fd_entry f)).
Proof. intros H. destruct (head_cons _ _ _ _ H) as (ids & ->). now left. Qed.
Lemma bundle_link c parse im f : bundle_on c parse im f -> link c im (fd_custody f) (e_chain (fd_entry f)).
Proof.
  intros (_ & _ & _ & _ & H). apply link_nth. intros i id Hi. destruct (H i id Hi) as (s & H1 & H2 & _ & H3). eauto.
Qed.
Lemma bundle_head c parse im f : bundle_on c parse im f -> exists s, read_block c im (head f) = Some s /\
  h_custody (sg_hdr s) = fd_custody f /\ h_size (sg_hdr s) = e_size (fd_entry f) /\ e_size (fd_entry f) <> U64MAX /\
  h_psize (sg_hdr s) = e_psize (fd_entry f) /\ parse (sg_data s) = Some (fd_uuid f).
Proof.
  intros H. destruct (head_cons _ _ _ _ H) as (ids & E). destruct H as (_ & _ & _ & Hmax & H).
  destruct (H 0%nat (head f)) as (s & H1 & H2 & H3 & _); [rewrite E; reflexivity|]. destruct (H3 eq_refl) as (H4 & H5 & H6).
  exists s. auto 10.
Qed.
Lemma sum_app l1 l2 : sum (l1 ++ l2) = sum l1 + sum l2.
Proof. unfold sum. induction l1 as [|x r IH]; cbn [app fold_right]; lia. Qed.

Definition counts (r : rstate) : Prop :=
  r_bundles r = len (r_found r) mod W64 /\ r_bytes r = sum (map (fun f => e_size (fd_entry f)) (r_found r)) mod W64 /\
  r_segments r = len (chains (r_found r)) mod W64.
Lemma add64_mod a b : add64 (a mod W64) b = (a + b) mod W64.
Proof. unfold add64. now rewrite N.add_mod_idemp_l by discriminate. Qed.
Lemma counts_add r f m per : 0 < per -> counts r -> len (e_chain (fd_entry f)) = segs_needed per (e_size (fd_entry f)) ->
  counts (mkR m (r_found r ++ [f]) (add64 (r_bundles r) 1) (add64 (r_bytes r) (e_size (fd_entry f)))
              (add64 (r_segments r) (total_segments per (e_size (fd_entry f))))).
Proof.
  intros Hp (C1 & C2 & C3) Hl. unfold counts. cbn [r_bundles r_bytes r_segments r_found]. rewrite C1, C2, C3, !add64_mod.
  rewrite map_app, sum_app, chains_app, chains_one, segs_total, <- Hl by exact Hp. unfold len. rewrite !app_length. cbn [length map sum fold_right].
  split; [f_equal; lia|]. split; [f_equal; lia|f_equal; lia].
Qed.

(** ** An image that holds bundles is restored *)
Lemma restore_holds c max parse im L last : cfg_ok c max -> holds c max parse im L last -> forall n k l rest r,
  N.to_nat (last - k) = n -> k <= last -> L = l ++ rest -> (forall f, In f l -> head f < k) -> (forall f, In f rest -> k <= head f) ->
  r_found r = l -> refines (r_mm r) max (chains l) -> counts r ->
  exists r', (forall fuel, (n < fuel)%nat -> restore_loop c parse im fuel k r = RDone r') /\
    r_found r' = L /\ refines (r_mm r') max (chains L) /\ counts r'.
Proof.
  intros (Hd & Hp & Hw & Hm) [O1 O2 O3 O4 O5 (O6 & O7 & O8) O9]. induction n as [|n IH]; intros k l rest r Hn Hk EL Hl Hr Ef R C.
  - assert (k = last) by lia. subst k.
    assert (rest = []).
    { destruct rest as [|f rest]; [reflexivity|]. exfalso. assert (H1 : last <= head f) by (apply Hr; now left).
      assert (H2 : head f < last) by (apply O5; subst L; apply in_or_app; right; now left). lia. }
    subst rest. rewrite app_nil_r in EL. subst l. exists r. split; [|auto].
    intros [|fuel] Hf; [lia|]. cbn [restore_loop].
    destruct (is_segment_free_refines _ _ _ last R) as (b & -> & Hb). replace b with true by (symmetry; apply Hb; split; assumption).
    now rewrite O8.
  - assert (Hlt : k < last) by lia.
    assert (Hnext : (k + 1) mod sc_idw c = k + 1) by (apply N.mod_small; unfold MAXSEGMENTS, W32 in *; lia).
    destruct (is_segment_free_refines _ _ _ k R) as (b & Eb & Hb). destruct b.
    + assert (Fk : is_free max (chains l) k) by now apply Hb. destruct Fk as (Fk1 & Fk2).
      destruct (O9 k Hlt) as [(f & F1 & F2 & F3)|(s & S1 & S2)].
      { exfalso. apply Fk2. apply In_chains. exists f. split; [|exact F3]. rewrite EL in F1. apply in_app_or in F1. destruct F1 as [F1|F1]; [exact F1|].
        apply Hr in F1. lia. }
      destruct (N.eqb_spec (h_size (sg_hdr s)) U64MAX) as [Emax|Emax].
      * destruct (IH (k + 1) l rest r) as (r' & H1 & H2); try assumption; try lia.
        { intros f Hf. apply Hl in Hf. lia. }
        { intros f Hf. pose proof (Hr f Hf) as H1. destruct (N.eq_dec (head f) k) as [E|]; [|lia]. exfalso.
          assert (Bf : bundle_on c parse im f) by (rewrite Forall_forall in O1; apply O1; rewrite EL; apply in_or_app; now right).
          destruct (bundle_head _ _ _ _ Bf) as (s' & B1 & _ & B2 & B3 & _). rewrite E in B1. congruence. }
        exists r'. split; [|exact H2]. intros [|fuel] Hf; [lia|]. cbn [restore_loop]. rewrite Eb, S1, Emax, N.eqb_refl, Hnext. apply H1. lia.
      * destruct S2 as [|(f & F1 & F2)]; [contradiction|].
        assert (Hfr : In f rest).
        { rewrite EL in F1. apply in_app_or in F1. destruct F1 as [F1|F1]; [|exact F1]. apply Hl in F1. lia. }
        destruct rest as [|g rest]; [destruct Hfr|].
        assert (g = f).
        { destruct Hfr as [|Hfr]; [assumption|]. exfalso. rewrite EL in O4. assert (Hg : k <= head g) by (apply Hr; now left).
          clear - O4 Hfr Hg F2. induction l as [|x l IHl]; cbn [app] in O4.
          - inversion O4 as [|a b S F]; subst. rewrite Forall_forall in F. apply F in Hfr. lia.
          - inversion O4; subst. now apply IHl. }
        subst g. rewrite Forall_forall in O1. assert (Bf : bundle_on c parse im f) by now apply O1.
        destruct (bundle_head _ _ _ _ Bf) as (s' & B1 & B2 & B3 & B4 & B5 & B6). rewrite F2, S1 in B1. injection B1 as <-.
        destruct (head_cons _ _ _ _ Bf) as (ids & Ech). pose proof Bf as (_ & Nd & Elen & _ & _).
        pose proof (bundle_link _ _ _ _ Bf) as Lk. rewrite Ech in Nd, Lk, Elen. rewrite F2 in *.
        pose proof O3 as O3'. rewrite EL, chains_app in O3'. change (f :: rest) with ([f] ++ rest) in O3'.
        rewrite chains_app, chains_one, Ech, app_assoc in O3'. apply nodup_l in O3'.
        destruct (walk_ok c im (fd_custody f) max Hm Hw ids k (r_mm r) [] (chains l) R Nd) as (m' & W1 & W2).
        { intros x Hx. split.
          - apply O2. apply In_chains. exists f. split; [exact F1|]. rewrite Ech. exact Hx.
          - intros Hx2. exact (nodup_disj _ _ x O3' Hx2 Hx). }
        { exact Lk. }
        pose (r1 := mkR m' (r_found r ++ [f]) (add64 (r_bundles r) 1) (add64 (r_bytes r) (e_size (fd_entry f)))
                       (add64 (r_segments r) (total_segments (sc_per c) (e_size (fd_entry f))))).
        destruct (IH (k + 1) (l ++ [f]) rest r1) as (r' & H1 & H2); try lia.
        { rewrite <- app_assoc. exact EL. }
        { intros g Hg. apply in_app_or in Hg. destruct Hg as [Hg|[<-|[]]]; [apply Hl in Hg; lia|lia]. }
        { intros g Hg. rewrite EL in O4. clear - O4 Hg F2. induction l as [|x l IHl]; cbn [app] in O4.
          - inversion O4 as [|a b S F]; subst. rewrite Forall_forall in F. apply F in Hg. lia.
          - inversion O4; subst. now apply IHl. }
        { unfold r1. cbn [r_found]. now rewrite Ef. }
        { unfold r1. cbn [r_mm]. eapply refines_perm; [exact W2|]. rewrite chains_app, chains_one, Ech.
          rewrite <- Permutation_rev. apply Permutation_app_comm. }
        { unfold r1. apply counts_add; try assumption. rewrite Ech. exact Elen. }
        exists r'. split; [|exact H2]. intros [|fuel] Hf; [lia|]. cbn [restore_loop]. rewrite Eb, S1.
        replace (h_size (sg_hdr s) =? U64MAX) with false by (symmetry; now apply N.eqb_neq). rewrite B6, B2, B3.
        replace (N.to_nat (total_segments (sc_per c) (e_size (fd_entry f)))) with (length (k :: ids)).
        2:{ rewrite segs_total by exact Hp. rewrite <- Elen. unfold len. lia. }
        rewrite W1, Hnext. cbn [app].
        replace (mkFound (fd_custody f) (fd_uuid f) (mkEntry (e_size (fd_entry f)) (h_psize (sg_hdr s)) (k :: ids))) with f.
        2:{ rewrite B5, <- Ech. destruct f as [a b [x y z]]. reflexivity. }
        apply H1. lia.
    + destruct (IH (k + 1) l rest r) as (r' & H1 & H2); try assumption; try lia.
      { intros f Hf. apply Hl in Hf. lia. }
      { intros f Hf. pose proof (Hr f Hf) as H1. destruct (N.eq_dec (head f) k) as [E|]; [|lia]. exfalso.
        assert (Hin : In k (chains l)).
        { destruct (in_dec N.eq_dec k (chains l)) as [|Hni]; [assumption|]. exfalso. assert (false = true); [|discriminate]. apply Hb. split; [lia|exact Hni]. }
        assert (Bf : bundle_on c parse im f) by (rewrite Forall_forall in O1; apply O1; rewrite EL; apply in_or_app; now right).
        assert (Hin2 : In k (chains rest)) by (apply In_chains; exists f; split; [exact Hf|]; rewrite <- E; eapply head_in; eauto).
        rewrite EL, chains_app in O3. exact (nodup_disj _ _ k O3 Hin Hin2). }
      exists r'. split; [|exact H2]. intros [|fuel] Hf; [lia|]. cbn [restore_loop]. rewrite Eb, Hnext. apply H1. lia.
Qed.

(** ** Whatever is restored was on the image *)
Definition present_or_used (c : scfg) (im : image) (max : N) (A : list N) (k : N) : Prop :=
  forall id, id < k -> In id A \/ read_block c im id <> None.
Lemma never_done c parse im max : max <= MAXSEGMENTS -> forall fuel k r A, refines (r_mm r) max A -> present_or_used c im max A max ->
  forall r', restore_loop c parse im fuel k r <> RDone r'.
Proof.
  intros Hm. induction fuel as [|fuel IH]; intros k r A R P r'; cbn [restore_loop]; [discriminate|].
  destruct (is_segment_free_refines _ _ _ k R) as (b & -> & Hb). destruct b; [|eapply IH; eauto].
  assert (Fk : is_free max A k) by now apply Hb.
  destruct (read_block c im k) as [s|] eqn:S1.
  2:{ exfalso. destruct Fk as (F1 & F2). destruct (P k F1); contradiction. }
  destruct (h_size (sg_hdr s) =? U64MAX); [eapply IH; eauto|]. destruct (parse (sg_data s)); [|discriminate].
  pose proof (walk_inv c im (h_custody (sg_hdr s)) max (N.to_nat (total_segments (sc_per c) (h_size (sg_hdr s)))) k (r_mm r) [] A R) as W.
  destruct (walk c im (h_custody (sg_hdr s)) _ k (r_mm r) []) as [|m|m ch]; try discriminate.
  destruct W as (ids & _ & _ & _ & _ & _ & R'). eapply IH; [cbn [r_mm]; exact R'|].
  intros id Hid. destruct (P id Hid) as [H|H]; [left; apply in_or_app; now right|now right].
Qed.

Lemma restore_sound c max parse im : cfg_ok c max -> forall fuel k r r', k <= max ->
  Forall (bundle_on c parse im) (r_found r) -> StronglySorted (fun f g => head f < head g) (r_found r) ->
  (forall f, In f (r_found r) -> head f < k) -> refines (r_mm r) max (chains (r_found r)) -> counts r ->
  (forall id, id < k ->
    (exists f, In f (r_found r) /\ head f < id /\ In id (e_chain (fd_entry f))) \/
    (exists s, read_block c im id = Some s /\ (h_size (sg_hdr s) = U64MAX \/ exists f, In f (r_found r) /\ head f = id))) ->
  restore_loop c parse im fuel k r = RDone r' ->
  exists last, holds c max parse im (r_found r') last /\ refines (r_mm r') max (chains (r_found r')) /\ counts r'.
Proof.
  intros (Hd & Hp & Hw & Hm). induction fuel as [|fuel IH]; intros k r r' Hk O1 O2 O3 R C O4 E; cbn [restore_loop] in E; [discriminate|].
  destruct (N.eq_dec k max) as [->|Hne].
  { exfalso. refine (never_done c parse im max Hm (S fuel) max r (chains (r_found r)) R _ r' E).
    intros id Hid. destruct (O4 id Hid) as [(f & F1 & _ & F2)|(s & S1 & _)]; [left; apply In_chains; eauto|right; congruence]. }
  assert (Hnext : (k + 1) mod sc_idw c = k + 1) by (apply N.mod_small; unfold MAXSEGMENTS, W32 in *; lia). rewrite Hnext in E.
  destruct (is_segment_free_refines _ _ _ k R) as (b & Eb & Hb). rewrite Eb in E. destruct b.
  - assert (Fk : is_free max (chains (r_found r)) k) by now apply Hb. destruct Fk as (Fk1 & Fk2).
    destruct (read_block c im k) as [s|] eqn:S1.
    2:{ injection E as <-. exists k. split; [|auto]. constructor; auto.
        - intros id. apply (ref_lt _ _ _ R).
        - apply (ref_nodup _ _ _ R). }
    destruct (N.eqb_spec (h_size (sg_hdr s)) U64MAX) as [Emax|Emax].
    + eapply IH; [| | | | | | |exact E]; auto; try lia.
      * intros f Hf. apply O3 in Hf. lia.
      * intros id Hid. destruct (N.eq_dec id k) as [->|]; [|apply O4; lia]. right. exists s. auto.
    + destruct (parse (sg_data s)) as [u|] eqn:Ep; [|discriminate].
      pose proof (walk_inv c im (h_custody (sg_hdr s)) max (N.to_nat (total_segments (sc_per c) (h_size (sg_hdr s)))) k (r_mm r) [] _ R) as W.
      destruct (walk c im (h_custody (sg_hdr s)) _ k (r_mm r) []) as [|m|m ch]; try discriminate.
      destruct W as (ids & W1 & W2 & W3 & W4 & W5 & W6). cbn [app] in W1. subst ch.
      set (f := mkFound (h_custody (sg_hdr s)) u (mkEntry (h_size (sg_hdr s)) (h_psize (sg_hdr s)) (k :: ids))) in *.
      assert (Hhead : head f = k) by reflexivity.
      assert (Elen : len (e_chain (fd_entry f)) = segs_needed (sc_per c) (e_size (fd_entry f))).
      { cbn [f fd_entry e_chain e_size]. rewrite <- segs_total by exact Hp. unfold len. rewrite W2. apply N2Nat.id. }
      assert (Bf : bundle_on c parse im f).
      { unfold bundle_on. cbv zeta. split; [discriminate|]. split; [exact W3|]. split; [exact Elen|]. split; [exact Emax|].
        intros i id Hi. pose proof W5 as W5'. rewrite link_nth in W5'. destruct (W5' i id Hi) as (s' & L1 & L2 & L3). exists s'.
        split; [exact L1|]. split; [exact L2|]. split; [|exact L3]. intros ->. cbn [f fd_entry e_chain nth_error] in Hi. injection Hi as <-.
        rewrite S1 in L1. injection L1 as <-. cbn [f fd_entry e_size e_psize fd_uuid]. auto. }
      eapply IH; [| | | | | | |exact E]; cbn [r_found r_mm].
      * lia.
      * apply Forall_app. split; [exact O1|]. constructor; [exact Bf|constructor].
      * apply sorted_snoc; [exact O2|]. intros g Hg. rewrite Hhead. now apply O3.
      * intros g Hg. apply in_app_or in Hg. destruct Hg as [Hg|[<-|[]]]; [apply O3 in Hg; lia|rewrite Hhead; lia].
      * eapply refines_perm; [exact W6|]. rewrite chains_app, chains_one. rewrite <- Permutation_rev. apply Permutation_app_comm.
      * apply (counts_add r f m (sc_per c) Hp C Elen).
      * intros id Hid. destruct (N.eq_dec id k) as [->|].
        -- right. exists s. split; [exact S1|]. right. exists f. split; [apply in_or_app; right; now left|exact Hhead].
        -- destruct (O4 id ltac:(lia)) as [(g & G1 & G2)|(s' & G1 & G2)].
           ++ left. exists g. split; [apply in_or_app; now left|exact G2].
           ++ right. exists s'. split; [exact G1|]. destruct G2 as [|(g & G2 & G3)]; [now left|]. right. exists g. split; [apply in_or_app; now left|exact G3].
  - eapply IH; [| | | | | | |exact E]; auto; try lia.
    + intros f Hf. apply O3 in Hf. lia.
    + intros id Hid. destruct (N.eq_dec id k) as [->|]; [|apply O4; lia]. left.
      assert (Hin : In k (chains (r_found r))).
      { destruct (in_dec N.eq_dec k (chains (r_found r))) as [|Hni]; [assumption|]. exfalso. assert (false = true); [|discriminate]. apply Hb. split; [lia|exact Hni]. }
      apply In_chains in Hin. destruct Hin as (f & F1 & F2). exists f. split; [exact F1|]. split; [now apply O3|exact F2].
Qed.
