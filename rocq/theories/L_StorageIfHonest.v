(** C52: every step is defined and keeps the disk in order, when the others keep to their part. *)
From Coq Require Import PeanoNat NArith List Bool Lia Permutation ZifyBool ZifyN.
From Verif Require Import Base M_CustodyId M_StorageIf S_StorageIf L_StorageIf L_StorageIfInv L_StorageIfSend L_StorageIfAll L_StorageIfDisk.
Import ListNotations.
Open Scope N_scope.

Definition ids_ok (s : state) : Prop := forall i, In i (g_ids s) -> In i (open_ids s) -> In i (d_used (g_disk s)).
Definition reads_ok (s : state) : Prop := Forall (fun b => b = true) (g_reads s).
Record safe (s : state) : Prop := mkSafe { sf_keys : keys s; sf_ok : store_ok (open_ids s) (g_disk s) }.
Record inv (s : state) : Prop := mkInv { iv_safe : safe s; iv_ids : ids_ok s; iv_reads : reads_ok s }.
Lemma above_lt l x : In x l -> x < above l.
Proof. induction l as [|y l IH]; [intros []|]. cbn [above fold_right]. fold (above l). intros [<-|I]; [lia|]. apply IH in I. lia. Qed.
Lemma above_out l : ~ In (above l) l. Proof. intros I. apply above_lt in I. lia. Qed.
Lemma alloc_inv s i s1 : inv s -> alloc s = (i, s1) -> inv s1 /\ ~ In i (d_used (g_disk s)) /\ ~ In i (open_ids s) /\ In i (d_used (g_disk s1)) /\ incl (d_used (g_disk s)) (d_used (g_disk s1)) /\
  d_ent (g_disk s1) = d_ent (g_disk s) /\ d_wait (g_disk s1) = d_wait (g_disk s).
Proof.
  intros [[K OK] II RR]. unfold alloc. set (ab := above (d_used (g_disk s) ++ open_ids s)).
  destruct (match g_ids s with [] => (ab, []) | i0 :: r => if mem i0 (d_used (g_disk s)) && negb (d_broken (g_disk s)) then (ab, r) else (i0, r) end) as [i1 r] eqn:E. intros [= -> <-].
  assert (AB : ~ In ab (d_used (g_disk s)) /\ ~ In ab (open_ids s)) by (split; intros X; apply (above_out (d_used (g_disk s) ++ open_ids s)), in_or_app; auto).
  assert (X : (~ In i (d_used (g_disk s)) /\ ~ In i (open_ids s)) /\ incl r (g_ids s)).
  { unfold ids_ok in II. destruct (g_ids s) as [|i0 r0]; [injection E as <- <-; split; [exact AB|intros x []]|]. rewrite (so_broken _ _ OK) in E. cbn [negb] in E. rewrite andb_true_r in E.
    destruct (mem i0 (d_used (g_disk s))) eqn:M; injection E as <- <-; (split; [|intros x X; right; exact X]); [exact AB|]. apply mem_out in M. split; [exact M|]. intros Y. apply M, II; [left; reflexivity|exact Y]. }
  destruct X as ((X1 & X2) & X3). rewrite (drop_absent i) by exact X1.
  assert (S : incl (d_used (g_disk s)) (i :: d_used (g_disk s))) by (intros x Y; right; exact Y). split; [|split; [exact X1|split; [exact X2|split; [left; reflexivity|split; [exact S|split; reflexivity]]]]].
  constructor; [constructor; [exact K|]| |exact RR].
  - proj. exact (ok_used _ _ _ S OK).
  - intros x A B. proj. cbn [d_used]. right. apply II; [apply X3; exact A|exact B].
Qed.
Lemma bit_inv s b s' : inv s -> bit s = (b, s') -> inv s' /\ g_disk s' = g_disk s.
Proof.
  intros [[K OK] II RR] B. destruct (bit_frame _ _ _ B) as (l & ->). split; [|reflexivity]. constructor; [constructor; assumption|exact II|exact RR].
Qed.
(** Writing. *)
Record wrote (s s' : state) : Prop := mkWrote { wr_od : only_disk s s'; wr_inv : inv s'; wr_used : incl (d_used (g_disk s)) (d_used (g_disk s')); wr_ent : incl (d_ent (g_disk s)) (d_ent (g_disk s'));
  wr_wait : incl (d_wait (g_disk s)) (d_wait (g_disk s')) }.
Lemma wrote_refl s : inv s -> wrote s s. Proof. intros I. constructor; [apply od_refl|exact I| | |]; intros x; auto. Qed.
Lemma wrote_trans a b c : wrote a b -> wrote b c -> wrote a c.
Proof. intros [A1 A2 A3 A4 A5] [B1 B2 B3 B4 B5]. constructor; [eapply od_trans; eassumption|exact B2| | |]; eapply incl_tran; eassumption. Qed.
Lemma write_one_inv b s : inv s -> exists s' ok, write_one b s = Some (s', ok) /\ wrote s s' /\ ~ In (fst (alloc s)) (d_used (g_disk s)) /\ (ok = true -> In (fst (alloc s), b) (d_wait (g_disk s'))).
Proof.
  intros I. assert (OD := write_one_od b s). unfold write_one in *. destruct (alloc s) as [i s1] eqn:A. destruct (alloc_inv s i s1 I A) as (I1 & N1 & N2 & IU & SU & E1 & E2). destruct (bit s1) as [ok s2] eqn:B.
  destruct (bit_inv s1 ok s2 I1 B) as (I2 & D2). cbn [fst]. destruct ok; cbn [negb].
  - rewrite D2 in *. assert (NE : ~ In i (map fst (d_ent (g_disk s1)))) by (rewrite E1; intros X; apply N1, (so_used _ _ (sf_ok _ (iv_safe _ I))), X).
    rewrite (proj2 (find_b_none _ _) NE) in *. eexists. exists true. split; [reflexivity|]. pose proof (OD _ _ eq_refl) as O. split; [|split; [exact N1|intros _; proj; cbn [d_wait]; apply in_or_app; right; left; reflexivity]].
    constructor; [exact O| |proj; cbn [d_used]; exact SU|proj; cbn [d_ent]; rewrite E1; intros x X; right; exact X|proj; cbn [d_wait]; rewrite E2; intros x X; apply in_or_app; left; exact X].
    destruct I2 as [[K2 OK2] II2 R2]. constructor; [constructor; [exact K2|]|intros x X Y; proj; cbn [d_used]; rewrite <- D2; exact (II2 x X Y)|exact R2].
    proj. change (open_ids (with_disk s2 ?d)) with (open_ids s2). rewrite <- D2. apply ok_put; [rewrite D2; exact NE|rewrite D2; exact IU| |exact OK2].
    assert (O2 : open_ids s2 = open_ids s) by (rewrite (da_open _ _ (od_da _ _ (bit_od _ _ _ B))), (da_open _ _ (od_da _ _ (alloc_od _ _ _ A))); reflexivity). rewrite O2. exact N2.
  - exists s2, false. split; [reflexivity|]. split; [|split; [exact N1|discriminate]]. constructor; [exact (OD _ _ eq_refl)|exact I2|rewrite D2; exact SU|rewrite D2, E1; apply incl_refl|rewrite D2, E2; apply incl_refl].
Qed.
Lemma write_parts_inv l : forall go s, inv s -> exists s', write_parts go l s = Some s' /\ wrote s s'.
Proof.
  induction l as [|b l IH]; intros go s I; cbn [write_parts]; [exists s; split; [reflexivity|apply wrote_refl; exact I]|]. destruct go.
  - destruct (write_one_inv b s I) as (s1 & ok & -> & W & _). destruct (IH ok s1 (wr_inv _ _ W)) as (s2 & E & W2). exists s2. split; [exact E|eapply wrote_trans; eassumption].
  - destruct (alloc s) as [i s1] eqn:A. cbn [snd]. destruct (alloc_inv s i s1 I A) as (I1 & _ & _ & _ & SU & E1 & E2). destruct (IH false s1 I1) as (s2 & E & W2). exists s2. split; [exact E|].
    eapply wrote_trans; [|exact W2]. constructor; [eapply alloc_od; exact A|exact I1|exact SU|rewrite E1; apply incl_refl|rewrite E2; apply incl_refl].
Qed.
Lemma write_custody_inv m l : forall s, inv s -> exists s' ids, write_custody m l s = Some (s', ids) /\ wrote s s' /\ NoDup ids /\ incl ids (map fst (d_wait (g_disk s'))) /\ forall i, In i ids -> ~ In i (d_used (g_disk s)).
Proof.
  induction l as [|b l IH]; intros s I; cbn [write_custody]; [exists s, []; split; [reflexivity|]; split; [apply wrote_refl; exact I|]; split; [constructor|]; split; [intros x []|intros i []]|].
  destruct (write_one_inv (masked m b) s I) as (s1 & ok & -> & W & NU & OK). destruct ok.
  - destruct (IH s1 (wr_inv _ _ W)) as (s2 & ids & -> & W2 & ND & IW & NI). exists s2, (fst (alloc s) :: ids). split; [reflexivity|]. split; [eapply wrote_trans; eassumption|].
    pose proof (OK eq_refl) as IN. assert (U1 : In (fst (alloc s)) (d_used (g_disk s1))).
    { apply (so_used _ _ (sf_ok _ (iv_safe _ (wr_inv _ _ W)))). apply in_fst. exists (masked m b). apply (so_ws _ _ (sf_ok _ (iv_safe _ (wr_inv _ _ W)))). exact IN. }
    split; [constructor; [intros X; exact (NI _ X U1)|exact ND]|]. split.
    + intros x [<-|X]; [apply in_fst; exists (masked m b); apply (wr_wait _ _ W2); exact IN|exact (IW x X)].
    + intros i [<-|X]; [exact NU|]. intros Y. exact (NI i X (wr_used _ _ W i Y)).
  - exists s1, []. split; [reflexivity|]. split; [exact W|]. split; [constructor|]. split; [intros x []|intros i []].
Qed.
Lemma remove_all_ok O ids : forall d, store_ok O d -> NoDup ids -> incl ids (map fst (d_wait d)) -> store_ok O (remove_all ids d).
Proof.
  induction ids as [|i ids IH]; intros d OK ND IW; cbn [remove_all]; [exact OK|]. inversion ND as [|? ? N1 N2]; subst. assert (WI : In i (map fst (d_wait d))) by (apply IW; left; reflexivity).
  assert (UI : In i (d_used d)) by (apply (so_used _ _ OK), (ok_wait_ent _ _ _ OK), WI). apply IH; [|exact N2|].
  - apply (ok_gone O d _ i); try reflexivity; cbn [remove_any free d_time d_start d_broken d_used].
    + symmetry. apply erase_absent. exact (so_wt _ _ OK i WI).
    + symmetry. apply drop_absent. intros X. apply (ok_start_open _ _ _ OK) in X. exact (so_wo _ _ OK i WI X).
    + rewrite (so_broken _ _ OK), (proj2 (mem_in _ _) UI). reflexivity.
    + intros x X Y. apply in_drop. auto.
    + exact OK.
  - intros x X. cbn [remove_any free d_wait]. apply in_erase_fst. split; [apply IW; right; exact X|intros ->; contradiction].
Qed.
Lemma with_disk_safe s d : keys s -> store_ok (open_ids s) d -> safe (with_disk s d).
Proof. intros K O. constructor; assumption. Qed.
(** Signals. *)
Lemma fold_signalled_ok O l : forall d, store_ok O d -> store_ok O (fold_left (fun d cid => signalled cid d) l d) /\ d_used (fold_left (fun d cid => signalled cid d) l d) = d_used d.
Proof.
  induction l as [|c l IH]; intros d OK; cbn [fold_left]; [auto|]. destruct (IH (signalled c d)) as (A & B).
  - apply (ok_signalled O d d c OK); try reflexivity; [auto|apply (so_broken _ _ OK)].
  - split; [exact A|]. rewrite B. unfold signalled. destruct (mem c (d_start d)); reflexivity.
Qed.
Lemma fold_signalled_ent l : forall d x, In x (map fst (d_ent (fold_left (fun d cid => signalled cid d) l d))) <-> In x (map fst (d_ent d)) /\ ~ In x l.
Proof.
  induction l as [|c l IH]; intros d x; cbn [fold_left]; [cbn [In]; tauto|]. rewrite IH. assert (E : d_ent (signalled c d) = erase_b c (d_ent d)) by (unfold signalled; destruct (mem c (d_start d)); reflexivity).
  rewrite E. unfold erase_b. rewrite in_erase_fst. cbn [In]. intuition congruence.
Qed.
Lemma range_count r u : fst r <= snd r -> (forall i, fst r <= i <= snd r -> In i u) -> N.of_nat (length (nodup N.eq_dec (filter (in_range r) u))) = snd r + 1 - fst r.
Proof.
  intros LE H. set (l := map (fun i => fst r + N.of_nat i) (seq 0 (N.to_nat (snd r + 1 - fst r)))).
  assert (P : Permutation (nodup N.eq_dec (filter (in_range r) u)) l).
  { apply NoDup_Permutation; [apply NoDup_nodup| |].
    - unfold l. apply FinFun.Injective_map_NoDup; [intros a b E; lia|apply seq_NoDup].
    - intros x. rewrite nodup_In, filter_In. unfold in_range, l. rewrite in_map_iff. split.
      + intros (_ & X). exists (N.to_nat (x - fst r)). split; [lia|]. apply in_seq. lia.
      + intros (n & <- & X). apply in_seq in X. assert (Y : fst r <= fst r + N.of_nat n <= snd r) by lia. split; [apply H; exact Y|lia]. }
  rewrite (Permutation_length P). unfold l. rewrite map_length, seq_length. lia.
Qed.
Lemma free_range_used r d x : In x (d_used (free_range r d)) <-> In x (d_used d) /\ ~ (fst r <= x <= snd r).
Proof. cbn [free_range d_used]. rewrite filter_In. unfold in_range. split; intros (A & B); (split; [exact A|]); lia. Qed.
(** Bundles in the range go first in this account; the order does not matter for what is left. *)
Lemma acs_one_ok O r d : store_ok O d -> fst r <= snd r -> (forall i, fst r <= i <= snd r -> In i (d_used d)) ->
  store_ok O (fold_left (fun d cid => signalled cid d) (filter (in_range r) (map fst (d_ent d))) (free_range r d)).
Proof.
  intros OK LE H. set (l := filter (in_range r) (map fst (d_ent d))). destruct (fold_signalled_ok O l d OK) as (A & B).
  pose proof (fold_signalled_ent l d) as EN. set (d1 := fold_left _ l d) in *.
  assert (Z : forall l0 d0 d2, d_ent d0 = d_ent d2 -> d_wait d0 = d_wait d2 -> d_time d0 = d_time d2 -> d_start d0 = d_start d2 ->
    let a := fold_left (fun d cid => signalled cid d) l0 d0 in let b := fold_left (fun d cid => signalled cid d) l0 d2 in
    d_ent a = d_ent b /\ d_wait a = d_wait b /\ d_time a = d_time b /\ d_start a = d_start b /\ d_used a = d_used d0 /\ d_broken a = d_broken d0).
  { clear. induction l0 as [|c l0 IH]; intros d0 d2 E1 E2 E3 E4; cbn [fold_left]; [cbn; auto 10|].
    assert (S : d_ent (signalled c d0) = d_ent (signalled c d2) /\ d_wait (signalled c d0) = d_wait (signalled c d2) /\ d_time (signalled c d0) = d_time (signalled c d2) /\ d_start (signalled c d0) = d_start (signalled c d2) /\
      d_used (signalled c d0) = d_used d0 /\ d_broken (signalled c d0) = d_broken d0).
    { unfold signalled. rewrite E4. destruct (mem c (d_start d2)); cbn [remove_any no_start cancel d_ent d_wait d_time d_start d_used d_broken]; rewrite ?E1, ?E2, ?E3, ?E4; auto 10. }
    destruct S as (S1 & S2 & S3 & S4 & S5 & S6). specialize (IH (signalled c d0) (signalled c d2) S1 S2 S3 S4). cbn zeta in *. rewrite S5, S6 in IH. exact IH. }
  destruct (Z l (free_range r d) d eq_refl eq_refl eq_refl eq_refl) as (Z1 & Z2 & Z3 & Z4 & Z5 & Z6). fold d1 in Z1, Z2, Z3, Z4. set (d2 := fold_left _ l (free_range r d)) in *.
  assert (BR : d_broken d2 = false) by (rewrite Z6; cbn [free_range d_broken]; rewrite (so_broken _ _ OK), (range_count r (d_used d) LE H), N.eqb_refl; reflexivity).
  destruct A as [A1 A2 A3 A4 A5 A6 A7 A8 A9 A10 A11 A12 A13]. constructor; rewrite ?Z1, ?Z2, ?Z3, ?Z4, ?Z5; try assumption.
  intros x X. apply free_range_used. split; [rewrite <- B; apply A6; exact X|]. intros Y. apply EN in X as (X & N). apply N. unfold l. apply filter_In. split; [exact X|]. unfold in_range. lia.
Qed.
Lemma acs_inv O l : forall d, store_ok O d -> NoDup l -> (forall r, In r l -> fst r <= snd r < U64MAX /\ forall i, fst r <= i <= snd r -> In i (d_used d)) ->
  (forall r q i, In r l -> In q l -> fst r <= i <= snd r -> fst q <= i <= snd q -> r = q) -> exists d', acs l d = Some d' /\ store_ok O d'.
Proof.
  induction l as [|r l IH]; intros d OK ND H DJ; cbn [acs]; [eauto|]. inversion ND as [|? ? N1 N2]; subst. destruct (H r (or_introl eq_refl)) as ((LE & LT) & IU).
  destruct (N.eqb_spec (snd r) U64MAX) as [E|_]; [lia|]. apply IH; [apply acs_one_ok; assumption|exact N2| |].
  - intros q Q. destruct (H q (or_intror Q)) as (X & Y). split; [exact X|]. intros i Z. assert (U : d_used (fold_left (fun d cid => signalled cid d) (filter (in_range r) (map fst (d_ent d))) (free_range r d)) = d_used (free_range r d)).
    { generalize (filter (in_range r) (map fst (d_ent d))) (free_range r d). clear. induction l as [|c l IH]; intros d; cbn [fold_left]; [reflexivity|]. rewrite IH. unfold signalled. destruct (mem c (d_start d)); reflexivity. }
    rewrite U. apply free_range_used. split; [exact (Y i Z)|]. intros W. apply N1. replace r with q; [exact Q|]. apply (DJ q r i); [right; exact Q|left; reflexivity|exact Z|exact W].
  - intros a b i A B. apply DJ; right; assumption.
Qed.
Lemma od_safe s s' : only_disk s s' -> keys s -> store_ok (open_ids s) (g_disk s') -> safe s'.
Proof. intros O K H. constructor; [rewrite (da_keys _ _ (od_da _ _ O)); exact K|rewrite (da_open _ _ (od_da _ _ O)); exact H]. Qed.
Lemma write_plain b s : inv s -> exists s', write b Whole false None s = Some s' /\ wrote s s'.
Proof.
  intros I. unfold write. destruct (b_bad b); cbn [negb]; [exists s; split; [reflexivity|apply wrote_refl; exact I]|]. destruct (write_one_inv (masked None b) s I) as (s1 & ok & -> & W & _). eauto.
Qed.
Lemma write_safe b c sp m s : inv s -> (sp = true -> b_bad b = false -> honest_signal s c) -> exists s', write b c sp m s = Some s' /\ safe s'.
Proof.
  intros I H. pose proof I as [[K OK] II RR]. unfold write. destruct (b_bad b); [exists s; split; [reflexivity|constructor; assumption]|].
  assert (WH : exists s', match write_one (masked m b) s with None => None | Some (s1, _) => Some s1 end = Some s' /\ safe s') by (destruct (write_one_inv (masked m b) s I) as (s1 & ok & -> & W & _); exists s1; split; [reflexivity|apply (iv_safe _ (wr_inv _ _ W))]).
  destruct sp; cbn [negb]; [|exact WH]. specialize (H eq_refl eq_refl). destruct c as [|l|l g|l|[cid|]|]; cbn [honest_signal] in H.
  - exact WH.
  - destruct (write_parts_inv l true s I) as (s1 & -> & W). exists s1. split; [reflexivity|apply (iv_safe _ (wr_inv _ _ W))].
  - destruct (bit s) as [rd s0] eqn:B0. destruct (bit_inv s rd s0 I B0) as (I0 & _). destruct (write_custody_inv m (if rd then l else []) s0 I0) as (s1 & ids & -> & W & ND & IW & _).
    destruct (bit s1) as [mk s2] eqn:B2. destruct (bit_inv s1 mk s2 (wr_inv _ _ W) B2) as (I2 & D2). destruct mk; [|exists s2; split; [reflexivity|apply I2]].
    destruct g as [g|]; [|exists s2; split; [reflexivity|apply I2]]. destruct (write_one_inv g s2 I2) as (s3 & ok & -> & W3 & _). destruct ok; [exists s3; split; [reflexivity|apply (iv_safe _ (wr_inv _ _ W3))]|].
    eexists. split; [reflexivity|]. destruct (wr_inv _ _ W3) as [[K3 OK3] _ _]. apply with_disk_safe; [exact K3|]. apply remove_all_ok; [exact OK3|exact ND|]. intros x X. apply IW in X. rewrite <- D2 in X.
    apply in_fst in X as (y & X). apply in_fst. exists y. apply (wr_wait _ _ W3). exact X.
  - destruct H as (H1 & H2 & H3). destruct (acs_inv (open_ids s) l (g_disk s) OK H1 H2 H3) as (d' & -> & OK'). eexists. split; [reflexivity|]. apply with_disk_safe; assumption.
  - eexists. split; [reflexivity|]. apply with_disk_safe; [exact K|]. destruct (find_b cid (d_ent (g_disk s))) as [b0|] eqn:F.
    + apply (ok_signalled (open_ids s) (g_disk s)); try reflexivity; [exact OK| |].
      * intros x X N. cbn [free d_used]. apply in_drop. auto.
      * cbn [free d_broken]. rewrite (so_broken _ _ OK), (proj2 (mem_in _ _) H). reflexivity.
    + apply find_b_none in F. destruct OK as [A1 A2 A3 A4 A5 A6 A7 A8 A9 A10 A11 A12 A13]. constructor; cbn [free d_ent d_wait d_used d_time d_start d_broken]; try assumption.
      * intros x X. apply in_drop. split; [apply A6; exact X|intros ->; contradiction].
      * rewrite A13, (proj2 (mem_in _ _) H). reflexivity.
  - exists s. split; [reflexivity|constructor; assumption].
  - exists s. split; [reflexivity|constructor; assumption].
Qed.

(** ** Links *)
Lemma open_put s r k k' : keys s -> get_link s r = Some k -> exists p q, open_ids s = p ++ map fst (k_open k) ++ q /\ open_ids (put_link s r k') = p ++ map fst (k_open k') ++ q.
Proof.
  intros K G. destruct (put_split s r k K G) as (p & q & E & F). rewrite !open_links, E, F, !flat_map_app. cbn [flat_map snd]. eauto.
Qed.
Lemma open_put_same s r k k' : keys s -> get_link s r = Some k -> k_open k' = k_open k -> open_ids (put_link s r k') = open_ids s.
Proof. intros K G E. destruct (open_put s r k k' K G) as (p & q & -> & ->). rewrite E. reflexivity. Qed.
Lemma put_inv s r k k' : get_link s r = Some k -> k_open k' = k_open k -> inv s -> inv (put_link s r k').
Proof.
  intros G E [[K OK] II RR]. destruct (put_fields s r k') as (_ & _ & _ & _ & Q5 & _ & _ & _ & _ & Q10 & _ & Q12). pose proof (open_put_same s r k k' K G E) as O.
  constructor; [constructor; [apply put_keys; exact K|rewrite O, Q5; exact OK]| |unfold reads_ok; rewrite Q12; exact RR]. unfold ids_ok. rewrite Q10, O, Q5. exact II.
Qed.
Lemma put_safe s r k k' : get_link s r = Some k -> k_open k' = k_open k -> safe s -> safe (put_link s r k').
Proof.
  intros G E [K OK]. destruct (put_fields s r k') as (_ & _ & _ & _ & Q5 & _). constructor; [apply put_keys; exact K|rewrite (open_put_same s r k k' K G E), Q5; exact OK].
Qed.
Lemma ack_inv m s : inv s -> inv (ack_ingress m s).
Proof.
  intros I. unfold ack_ingress. destruct (bit s) as [ok s1] eqn:B. destruct (bit_inv s ok s1 I B) as ([[K OK] II RR] & _). destruct ok; (constructor; [constructor; assumption|exact II|exact RR]).
Qed.
Lemma ack_safe m s : safe s -> safe (ack_ingress m s).
Proof. intros [K OK]. unfold ack_ingress. destruct (bit s) as [ok s1] eqn:B. destruct (bit_frame _ _ _ B) as (l & ->). destruct ok; (constructor; assumption). Qed.
Lemma dump_inv idx q : forall s, inv s -> exists s', dump idx q s = Some s' /\ inv s'.
Proof.
  induction q as [|x q IH]; intros s I; cbn [dump]; [eauto|]. destruct (write_plain (q_b x) s I) as (s1 & -> & W). apply IH. apply ack_inv. exact (wr_inv _ _ W).
Qed.
Lemma link_down_inv r s k : inv s -> get_link s r = Some k -> exists s', link_down r s = Some s' /\ inv s'.
Proof.
  intros I G. unfold link_down. rewrite G. destruct (k_up k); [|eauto]. destruct (dump_inv (ref_idx r) (k_queue k) (put_link s r (set_queue [] (set_up false k)))) as (s1 & -> & I1); [eapply put_inv; [exact G|reflexivity|exact I]|].
  exists (repopulate s1). split; [reflexivity|]. destruct I1 as [[K OK] II RR]. constructor; [constructor; assumption|exact II|exact RR].
Qed.
Lemma ack_cut_safe x b r s k : inv s -> get_link s r = Some k -> exists s', ack_cut x b r s = Some s' /\ safe s'.
Proof.
  intros I G. unfold ack_cut. rewrite G. destruct (find_id (x_cid x) (k_acks k)) as [z|]; [|exists s; split; [reflexivity|apply I]].
  assert (X : exists s1, (if is_error (x_err x) then match write b Whole false None s with None => None | Some s1 => if is_down (x_err x) then link_down r s1 else Some s1 end else Some s) = Some s1 /\ inv s1 /\ exists k1, get_link s1 r = Some k1).
  { destruct (is_error (x_err x)); [|exists s; eauto]. destruct (write_plain b s I) as (s0 & -> & W). pose proof (wr_inv _ _ W) as I0. assert (G0 : get_link s0 r = Some k) by (rewrite (da_get _ _ r (od_da _ _ (wr_od _ _ W))); exact G).
    destruct (is_down (x_err x)); [|eauto]. destruct (link_down_inv r s0 k I0 G0) as (s1 & E & I1). exists s1. split; [exact E|]. split; [exact I1|]. destruct (link_down_get r s0 s1 k (sf_keys _ (iv_safe _ I0)) E G0) as (k1 & G1 & _). eauto. }
  destruct X as (s1 & -> & I1 & k1 & G1). set (m := mkA _ _ _). rewrite (da_get _ _ r (ack_ingress_da m s1)), G1. eexists. split; [reflexivity|].
  eapply put_safe; [rewrite (da_get _ _ r (ack_ingress_da m s1)); exact G1|reflexivity|apply (ack_inv m s1 I1)].
Qed.
Lemma close_put s r k c z : keys s -> get_link s r = Some k -> NoDup (map fst (k_open k)) -> find_id c (k_open k) = Some z -> forall k', k_open k' = erase_id c (k_open k) ->
  Permutation (open_ids s) (c :: open_ids (put_link s r k')).
Proof.
  intros K G N F k' E. destruct (open_put s r k k' K G) as (p & q & -> & ->). destruct (erase_split c z (k_open k) N F) as (a & b & E1 & E2). rewrite E, E2, E1, !map_app. cbn [map fst]. rewrite !app_assoc, <- app_assoc. cbn [app].
  symmetry. rewrite <- !app_assoc. rewrite !app_assoc. rewrite <- (app_assoc (p ++ map fst a)). apply Permutation_middle.
Qed.
Lemma open_in s r k c : get_link s r = Some k -> In c (map fst (k_open k)) -> In c (open_ids s).
Proof. intros G I. eapply open_at. exists k. split; [apply get_in; exact G|exact I]. Qed.
(** The disk after an answer for [c], before the link forgets it. *)
Definition closing (O : list N) (c : N) (d : store) : Prop := forall O', Permutation O (c :: O') -> store_ok O' (no_start c d).
Lemma closing_error O d c : store_ok O d -> In c O -> exists d', give_back c d = Some d' /\ has_timer c (d_time d') = false /\ closing O c (cancel c d').
Proof.
  intros OK IO. assert (NW : ~ In c (map fst (d_wait d))) by (intros X; exact (so_wo _ _ OK c X IO)). assert (NT : ~ In c (map fst (d_time d))) by (intros X; exact (so_to _ _ OK c X IO)).
  assert (HT : has_timer c (d_time d) = false) by (destruct (has_timer c (d_time d)) eqn:E; [apply has_timer_in in E; contradiction|reflexivity]).
  unfold give_back. rewrite (proj2 (find_b_none c (d_wait d)) NW). destruct (find_b c (d_ent d)) as [b|] eqn:F.
  - apply find_b_in in F. eexists. split; [reflexivity|]. split; [exact HT|]. intros O' P. unfold cancel, no_start. cbn [d_ent d_wait d_used d_time d_start d_broken]. unfold erase_t. rewrite (erase_absent c (d_time d) NT).
    apply (ok_close O O' d c ((c, b) :: d_wait d) (d_time d)); try assumption.
    + cbn [map fst]. constructor; [exact NW|apply (so_wait _ _ OK)].
    + apply (so_time _ _ OK).
    + intros x [<-|X]; [exact F|apply (so_ws _ _ OK); exact X].
    + intros x. cbn [map fst In]. assert (CE : In c (map fst (d_ent d))) by (apply in_fst; eauto). split; [intros [<-|X]; auto|intros [X|(-> & _)]; auto].
    + intros x. split; [auto|intros [X|(_ & X)]; [exact X|contradiction]].
    + intros e X. exfalso. apply NT, in_fst. eauto.
    + auto.
  - apply find_b_none in F. exists d. split; [reflexivity|]. split; [exact HT|]. intros O' P. unfold cancel, no_start. cbn [d_ent d_wait d_used d_time d_start d_broken]. unfold erase_t. rewrite (erase_absent c (d_time d) NT).
    apply (ok_close O O' d c (d_wait d) (d_time d)); try assumption; try apply OK.
    + intros x. split; [auto|intros [X|(_ & X & _)]; [exact X|contradiction]].
    + intros x. split; [auto|intros [X|(_ & X)]; [exact X|contradiction]].
    + auto.
Qed.
Lemma closing_none O d c : store_ok O d -> In c O -> ~ In c (map fst (d_ent d)) -> closing O c d.
Proof.
  intros OK IO NE O' P. assert (NT : ~ In c (map fst (d_time d))) by (intros X; exact (so_to _ _ OK c X IO)). unfold no_start. apply (ok_close O O' d c (d_wait d) (d_time d)); try assumption; try apply OK.
  - intros x. split; [auto|intros [X|(_ & X & _)]; [exact X|contradiction]].
  - intros x. split; [auto|intros [X|(_ & X)]; [exact X|contradiction]].
  - auto.
Qed.
Lemma closing_delete O d c b : store_ok O d -> In c O -> In (c, b) (d_ent d) -> b_cust b = false -> exists d', remove_read c (free c d) = Some d' /\ closing O c d'.
Proof.
  intros OK IO E B. assert (NW : ~ In c (map fst (d_wait d))) by (intros X; exact (so_wo _ _ OK c X IO)). assert (NT : ~ In c (map fst (d_time d))) by (intros X; exact (so_to _ _ OK c X IO)).
  assert (CE : In c (map fst (d_ent d))) by (apply in_fst; eauto).
  unfold remove_read. cbn [free d_ent d_wait d_used d_time d_start d_broken]. rewrite (proj2 (find_b_none c (d_wait d)) NW), (find_b_is c (d_ent d) b (so_ent _ _ OK) E). eexists. split; [reflexivity|].
  apply closing_none; [|exact IO|cbn [d_ent]; intros X; apply in_erase_fst in X as (_ & X); congruence].
  apply (ok_gone O d _ c); try reflexivity; cbn [d_ent d_wait d_used d_time d_start d_broken].
  - symmetry. apply erase_absent. exact NW.
  - symmetry. apply erase_absent. exact NT.
  - symmetry. apply drop_absent. intros X. apply (so_start _ _ OK) in X as (_ & b0 & X & Y). rewrite (nodup_fst _ _ _ _ (so_ent _ _ OK) E X) in B. congruence.
  - rewrite (so_broken _ _ OK), (proj2 (mem_in c (d_used d))); [reflexivity|]. apply (so_used _ _ OK). exact CE.
  - intros x X Y. apply in_drop. auto.
  - exact OK.
Qed.
Lemma closing_custody O d c b : store_ok O d -> In c O -> In (c, b) (d_ent d) -> closing O c (mkStore (d_ent d) (d_wait d) (d_used d) (d_time d ++ [(c, b_dest b)]) (d_start d) (d_broken d)).
Proof.
  intros OK IO E O' P. assert (NT : ~ In c (map fst (d_time d))) by (intros X; exact (so_to _ _ OK c X IO)). unfold no_start. cbn [d_ent d_wait d_used d_time d_start d_broken].
  assert (CT : In c (map fst (d_time d ++ [(c, b_dest b)]))) by (rewrite map_app; apply in_or_app; right; left; reflexivity).
  apply (ok_close O O' d c (d_wait d) (d_time d ++ [(c, b_dest b)])); try assumption; try apply OK.
  - rewrite map_app. cbn [map fst]. apply nodup_snoc; [apply OK|exact NT].
  - intros x. split; [auto|intros [X|(_ & _ & X)]; [exact X|contradiction]].
  - intros x. rewrite map_app, in_app_iff. cbn [map fst In]. rewrite map_app in CT. cbn [map fst] in CT. split; [intros [X|[<-|[]]]; auto|intros [X|(-> & _)]; auto].
  - intros e X. apply in_app_or in X as [X|[X|[]]]; [exfalso; apply NT, in_fst; eauto|]. injection X as <-. eauto.
  - intros x e N X. apply in_app_or in X as [X|[X|[]]]; [exact X|congruence].
Qed.
Lemma ack_read_safe x r s k : inv s -> all_links fine s -> get_link s r = Some k -> In (x_cid x) (map fst (k_open k)) -> (forall b, stored s (x_cid x) b -> x_delete x = negb (b_cust b)) -> (x_delete x = true -> exists b, stored s (x_cid x) b) ->
  exists s', ack_read x r s = Some s' /\ safe s'.
Proof.
  intros I FN G IO HS HD. unfold ack_read. rewrite G. destruct (in_find_id _ _ IO) as (z & F). rewrite F. set (c := x_cid x) in *.
  assert (OI : In c (open_ids s)) by (eapply open_in; eassumption).
  assert (X : exists s1 k1, (if is_error (x_err x) then
                      match (if is_down (x_err x) then link_down r s else Some s) with
                      | None => None
                      | Some s1 => match give_back c (g_disk s1) with
                                   | None => None
                                   | Some d => if has_timer c (d_time d) && negb (existsb (fun e => (fst e =? c) && eid_eqb (snd e) (x_dest x)) (d_time d))
                                               then None else Some (with_disk s1 (cancel c d))
                                   end
                      end
                    else if x_delete x then match remove_read c (free c (g_disk s)) with None => None | Some d => Some (with_disk s d) end
                    else Some (match mem c (d_start (g_disk s)), find_b c (d_ent (g_disk s)) with
                            | true, Some b => if has_timer c (d_time (g_disk s)) then s
                              else with_disk s (mkStore (d_ent (g_disk s)) (d_wait (g_disk s)) (d_used (g_disk s)) (d_time (g_disk s) ++ [(c, b_dest b)]) (d_start (g_disk s)) (d_broken (g_disk s)))
                            | _, _ => s end)) = Some s1 /\ keys s1 /\ get_link s1 r = Some k1 /\ k_open k1 = k_open k /\ closing (open_ids s1) c (g_disk s1)).
  { pose proof I as [[K OK] II RR]. destruct (is_error (x_err x)).
    - assert (Y : exists s0 k0, (if is_down (x_err x) then link_down r s else Some s) = Some s0 /\ inv s0 /\ get_link s0 r = Some k0 /\ k_open k0 = k_open k).
      { destruct (is_down (x_err x)); [|exists s, k; auto]. destruct (link_down_inv r s k I G) as (s0 & E & I0). destruct (link_down_get r s s0 k K E G) as (k0 & G0 & E0 & _). exists s0, k0. auto. }
      destruct Y as (s0 & k0 & -> & [[K0 OK0] _ _] & G0 & E0). assert (O0 : In c (open_ids s0)) by (eapply open_in; [exact G0|rewrite E0; exact IO]).
      destruct (closing_error _ _ c OK0 O0) as (d' & -> & -> & CL). cbn [andb]. exists (with_disk s0 (cancel c d')), k0. split; [reflexivity|]. split; [exact K0|]. split; [exact G0|]. split; [exact E0|]. exact CL.
    - destruct (x_delete x) eqn:DL.
      + destruct (HD eq_refl) as (b & ST). pose proof (HS b ST) as CU. destruct (closing_delete _ _ c b OK OI ST) as (d' & -> & CL); [destruct (b_cust b); [discriminate|reflexivity]|].
        exists (with_disk s d'), k. repeat (split; [reflexivity || assumption|]). exact CL.
      + destruct (find_b c (d_ent (g_disk s))) as [b|] eqn:FB.
        * apply find_b_in in FB. pose proof (HS b FB) as CU. assert (BC : b_cust b = true) by (destruct (b_cust b); [reflexivity|discriminate]).
          assert (ST : In c (d_start (g_disk s))) by (apply (so_start _ _ OK); split; [exact OI|exists b; auto]). rewrite (proj2 (mem_in _ _) ST).
          assert (HT : has_timer c (d_time (g_disk s)) = false) by (destruct (has_timer c (d_time (g_disk s))) eqn:E; [apply has_timer_in in E; exfalso; exact (so_to _ _ OK c E OI)|reflexivity]). rewrite HT.
          eexists. exists k. repeat (split; [reflexivity || assumption|]). apply closing_custody; assumption.
        * apply find_b_none in FB. exists s, k. split; [destruct (mem c (d_start (g_disk s))); reflexivity|]. repeat (split; [reflexivity || assumption|]). apply closing_none; assumption. }
  destruct X as (s1 & k1 & E1 & K1 & G1 & E2 & CL). cbv zeta. rewrite E1, G1. eexists. split; [reflexivity|]. set (k2 := set_pipe _ _ _ k1).
  destruct (put_fields s1 r k2) as (_ & _ & _ & _ & Q5 & _). constructor; [unfold keys; proj; apply put_keys; exact K1|]. proj. rewrite Q5. change (open_ids (with_disk ?s ?d)) with (open_ids s). apply CL.
  apply (close_put s1 r k1 c z K1 G1); [|rewrite E2; exact F|reflexivity]. rewrite E2. unfold all_links in FN. rewrite Forall_forall in FN. destruct (FN _ (get_in _ _ _ G)) as ((_ & N & _) & _). exact N.
Qed.

(** ** Housekeeping *)
Lemma signals_inv l : forall s, inv s -> exists s', on_signals l s = Some s' /\ inv s'.
Proof.
  induction l as [|b l IH]; intros s I; [exists s; auto|]. destruct (write_one_inv b s I) as (s1 & ok & E & W & _). destruct (IH s1 (wr_inv _ _ W)) as (s2 & E2 & I2). exists s2. split; [|exact I2].
  unfold on_signals in *. rewrite E. exact E2.
Qed.
Lemma timer_safe c s : safe s -> exists s', on_timer c s = Some s' /\ safe s'.
Proof.
  intros [K OK]. unfold on_timer. destruct (has_timer c (d_time (g_disk s))) eqn:H; [|exists s; split; [reflexivity|constructor; assumption]]. apply has_timer_in in H.
  pose proof (ok_time_ent _ _ _ OK H) as CE. apply in_fst in CE as (b & CE). unfold give_back. cbn [cancel d_ent d_wait d_used d_time d_start d_broken]. rewrite (find_b_is _ _ _ (so_ent _ _ OK) CE).
  assert (NW : ~ In c (map fst (d_wait (g_disk s)))) by (intros X; exact (so_wt _ _ OK c X H)). rewrite (proj2 (find_b_none _ _) NW). eexists. split; [reflexivity|]. apply with_disk_safe; [exact K|]. apply ok_timer; assumption.
Qed.
Lemma expired_safe c p s : inv s -> exists s', on_expired c p s = Some s' /\ safe s'.
Proof.
  intros I. pose proof I as [[K OK] II RR]. unfold on_expired. destruct (find_b c (d_wait (g_disk s))) as [b|] eqn:F; [|exists s; split; [reflexivity|apply I]]. apply find_b_in in F.
  assert (CW : In c (map fst (d_wait (g_disk s)))) by (apply in_fst; eauto).
  assert (SD : with_disk s (no_start c (cancel c (g_disk s))) = s).
  { assert (X : no_start c (cancel c (g_disk s)) = g_disk s); [|rewrite X; destruct s; reflexivity]. unfold no_start, cancel. cbn [d_ent d_wait d_used d_time d_start d_broken]. unfold erase_t.
    rewrite erase_absent by exact (so_wt _ _ OK c CW). rewrite drop_absent; [destruct (g_disk s); reflexivity|]. intros X. apply (ok_start_open _ _ _ OK) in X. exact (so_wo _ _ OK c CW X). }
  cbv zeta. rewrite SD.
  assert (X : exists s1, (if b_cust b then match p with None => Some s | Some p0 => match write_one p0 s with None => None | Some (s2, _) => Some s2 end end else Some s) = Some s1 /\ wrote s s1).
  { destruct (b_cust b); [|exists s; split; [reflexivity|apply wrote_refl; exact I]]. destruct p as [p|]; [|exists s; split; [reflexivity|apply wrote_refl; exact I]]. destruct (write_one_inv p s I) as (s1 & ok & -> & W & _). eauto. }
  destruct X as (s1 & -> & W). eexists. split; [reflexivity|]. destruct (wr_inv _ _ W) as [[K1 OK1] _ _]. apply with_disk_safe; [exact K1|]. apply (wr_wait _ _ W) in F. change (remove_any c (free c (g_disk s1))) with (remove_all [c] (g_disk s1)).
  apply remove_all_ok; [exact OK1|repeat constructor; auto|]. intros x [<-|[]]. apply in_fst. eauto.
Qed.

(** ** Sending *)
Lemma send_stored_inv cfg r k room s : inv s -> get_link s r = Some k -> inv (send_stored cfg r k room s).
Proof.
  intros I G. pose proof I as [[K OK] II RR]. unfold send_stored. destruct (pop cfg (k_dests k) (g_disk s)) as [[[c b] rest]|] eqn:P; [|exact I]. destruct (pop_split _ _ _ _ _ _ P) as (p & q & E & ->).
  assert (PM : Permutation (d_wait (g_disk s)) ((c, b) :: p ++ q)) by (rewrite E; symmetry; apply Permutation_middle).
  assert (BK : forall s', g_vec s' = g_vec s -> g_opp s' = g_opp s -> g_ids s' = g_ids s -> reads_ok s' -> g_disk s' = with_wait (g_disk s) ((c, b) :: p ++ q) -> inv s').
  { intros s' A1 A2 A3 A4 A5. assert (O : open_ids s' = open_ids s) by (unfold open_ids; rewrite A1, A2; reflexivity). constructor; [constructor; [unfold keys; rewrite A2; exact K|]| |exact A4].
    - rewrite O, A5. apply (ok_perm (open_ids s) (open_ids s) (g_disk s)); try reflexivity; [exact PM|exact OK].
    - unfold ids_ok. rewrite A3, O, A5. exact II. }
  destruct (room <? b_size b); [apply BK; try reflexivity; exact RR|]. destruct (read_bit _) as [rd s1] eqn:R. destruct (read_frame _ _ _ R) as (l1 & -> & RT). destruct (RT RR) as (-> & RL). cbn [negb].
  destruct (bit _) as [st s2] eqn:B. destruct (bit_frame _ _ _ B) as (l2 & ->). destruct st; cbn [negb]; [|apply BK; try reflexivity; exact RL].
  assert (CW : In c (map fst (d_wait (g_disk s)))) by (rewrite E, map_app; apply in_or_app; right; left; reflexivity).
  assert (NO : find_id c (k_open k) = None).
  { destruct (find_id c (k_open k)) as [z|] eqn:F; [|reflexivity]. exfalso. apply find_id_in in F. apply (so_wo _ _ OK c CW). eapply open_in; [exact G|]. apply in_fst. eauto. }
  rewrite NO. set (k' := set_pipe _ _ _ k). set (s4 := if b_cust b then _ else _).
  assert (E4 : g_vec s4 = g_vec s /\ g_opp s4 = g_opp s /\ g_ids s4 = g_ids s /\ reads_ok s4 /\ g_disk s4 = mkStore (d_ent (g_disk s)) (p ++ q) (d_used (g_disk s)) (d_time (g_disk s)) (if b_cust b then c :: drop c (d_start (g_disk s)) else d_start (g_disk s)) (d_broken (g_disk s))).
  { unfold s4. destruct (b_cust b); repeat (split; [reflexivity|]); (split; [exact RL|reflexivity]). }
  destruct E4 as (V4 & O4 & I4 & R4 & D4). destruct (put_fields s4 r k') as (_ & _ & _ & _ & Q5 & _ & _ & _ & _ & Q10 & _ & Q12).
  assert (G4 : get_link s4 r = Some k) by (unfold get_link in *; rewrite V4, O4; exact G). assert (K4 : keys s4) by (unfold keys; rewrite O4; exact K).
  assert (OO : open_ids s4 = open_ids s) by (unfold open_ids; rewrite V4, O4; reflexivity).
  assert (PO : Permutation (c :: open_ids s) (open_ids (put_link s4 r k'))).
  { destruct (open_put s4 r k k' K4 G4) as (a & z & A1 & A2). rewrite <- OO, A1, A2. cbn [k' k_open set_pipe]. rewrite map_app. cbn [map fst]. rewrite <- !app_assoc. cbn [app]. rewrite !app_assoc. apply Permutation_middle. }
  constructor; [constructor| |].
  - unfold keys. proj. apply put_keys. exact K4.
  - change (store_ok (open_ids (put_link s4 r k')) (g_disk (put_link s4 r k'))). rewrite Q5, D4. eapply ok_perm; [exact PO| | | | | | |apply (ok_send (open_ids s) (g_disk s) c b (p ++ q)); [exact PM|reflexivity|exact OK]]; reflexivity.
  - intros i A C. change (In i (g_ids (put_link s4 r k'))) in A. change (In i (open_ids (put_link s4 r k'))) in C. change (In i (d_used (g_disk (put_link s4 r k')))). rewrite Q10, I4 in A. rewrite Q5, D4. cbn [d_used].
    apply (Permutation_in _ (Permutation_sym PO)) in C as [<-|C]; [|exact (II i A C)]. apply (so_used _ _ OK), (ok_wait_ent _ _ _ OK), CW.
  - unfold reads_ok. proj. rewrite Q12. exact R4.
Qed.
Lemma send_cut_inv r k x rest s : inv s -> get_link s r = Some k -> inv (send_cut r k x rest s).
Proof.
  intros I G. unfold send_cut. destruct (bit s) as [st s1] eqn:B. destruct (bit_inv s st s1 I B) as (I1 & _). assert (G1 : get_link s1 r = Some k) by (rewrite (da_get _ _ r (od_da _ _ (bit_od _ _ _ B))); exact G).
  assert (OUT : forall s e i l, inv s -> inv (with_out s e i l)) by (intros s0 e i l [[A1 A2] A3 A4]; constructor; [constructor; assumption|exact A3|exact A4]).
  destruct st; cbn [negb].
  - destruct (find_id (q_id x) (k_acks k)).
    + apply OUT. eapply put_inv; [exact G1|reflexivity|]. apply OUT. exact I1.
    + assert (X : inv (put_link (emit (mkE (q_b x) true (q_id x) (k_idx k) (k_hop k) (q_dest x) false) s1) r (set_pipe (k_open k) (k_acks k ++ [(q_id x, b_size (q_b x))]) (add64 (k_bytes k) (b_size (q_b x))) (set_queue rest k)))) by (eapply put_inv; [exact G1|reflexivity|apply OUT; exact I1]).
      destruct X as [[A1 A2] A3 A4]. constructor; [constructor; assumption|exact A3|exact A4].
  - apply OUT. eapply put_inv; [exact G1|reflexivity|exact I1].
Qed.
Lemma flip_inv r s : inv s -> inv (flip r s).
Proof. intros I. unfold flip. destruct (get_link s r) as [k|] eqn:G; [|exact I]. eapply put_inv; [exact G|reflexivity|exact I]. Qed.
Lemma default_inv cfg r k room s : inv s -> get_link s r = Some k -> inv (default_send cfg r k room s).
Proof.
  intros I G. unfold default_send. apply flip_inv. destruct (k_queue k) as [|x rest]; [apply send_stored_inv; assumption|]. destruct (_ && _); [apply send_cut_inv|apply send_stored_inv]; assumption.
Qed.
Lemma peek_inv cfg ds s w s' : inv s -> peek cfg ds s = (w, s') -> inv s' /\ disk_acks s s'.
Proof.
  intros I P. pose proof (peek_grows _ _ _ _ _ P) as (O & D & W & PM). split; [|apply od_da; exact O]. pose proof I as [[K OK] II RR]. unfold peek in P. destruct (pop cfg ds (g_disk s)) as [[x rest]|]; injection P as <- <-; [|exact I].
  constructor; [constructor; [exact K|]|exact II|exact RR]. proj. apply (ok_perm (open_ids s) (open_ids s) (g_disk s)); try reflexivity; [symmetry; exact PM|exact OK].
Qed.
Lemma stored_get cfg r k room s : keys s -> get_link s r = Some k -> exists k', get_link (send_stored cfg r k room s) r = Some k'.
Proof.
  intros K G. destruct (stored_moves cfg r k room s K G) as (k' & ms & _ & _ & A & B & _). exists k'. unfold get_link. rewrite A, B. apply (get_put s r k k' K G).
Qed.
Lemma priority_inv cfg r k room s : inv s -> get_link s r = Some k -> exists s', priority_send cfg r k room s = Some s' /\ inv s'.
Proof.
  intros I G. unfold priority_send. destruct (k_queue k) as [|x rest]; [eexists; split; [reflexivity|apply send_stored_inv; assumption]|].
  destruct (peek cfg (k_dests k) s) as [[[c b]|] s1] eqn:P; destruct (peek_inv _ _ _ _ _ I P) as (I1 & O1); assert (G1 : get_link s1 r = Some k) by (rewrite (da_get _ _ r O1); exact G).
  - cbv zeta. set (same := match queue_prio x with Some p => p =? b_prio b | None => false end). set (higher := match queue_prio x with Some p => b_prio b <? p | None => false end).
    set (k1 := if same && (b_size (q_b x) <=? room) then set_try (negb (k_try k)) k else k).
    assert (I2 : inv (put_link s1 r k1)) by (eapply put_inv; [exact G1| |exact I1]; unfold k1; destruct (same && _); reflexivity).
    assert (G2 : get_link (put_link s1 r k1) r = Some k1) by (apply (get_put s1 r k k1); [apply I1|exact G1]). set (s2 := put_link s1 r k1) in *.
    destruct (if same then _ else higher).
    + eexists. split; [reflexivity|]. destruct (b_size (q_b x) <=? room); [apply send_cut_inv; assumption|exact I2].
    + pose proof (send_stored_inv cfg r k1 room s2 I2 G2) as I3. destruct (stored_get cfg r k1 room s2 (sf_keys _ (iv_safe _ I2)) G2) as (k3 & G3). set (s3 := send_stored cfg r k1 room s2) in *.
      destruct (write_plain (q_b x) s3 I3) as (s4 & -> & W4). pose proof (ack_inv (mkA (q_id x) (ref_idx r) false) s4 (wr_inv _ _ W4)) as I5. set (s5 := ack_ingress _ s4) in *.
      assert (G5 : get_link s5 r = Some k3) by (unfold s5; rewrite (da_get _ _ r (ack_ingress_da _ s4)), (da_get _ _ r (od_da _ _ (wr_od _ _ W4))); exact G3). rewrite G5. eexists. split; [reflexivity|].
      eapply put_inv; [exact G5|reflexivity|exact I5].
  - eexists. split; [reflexivity|]. destruct (b_size (q_b x) <=? room); [apply send_cut_inv; assumption|exact I1].
Qed.
Lemma poll_inv s n : inv s -> inv (with_poll s n). Proof. intros [[A B] C D]. constructor; [constructor; assumption|exact C|exact D]. Qed.
Lemma serve_inv cfg n s : inv s -> g_ptrs s = up_refs (links s) -> (n < length (g_ptrs s))%nat -> exists s', serve cfg n s = Some s' /\ inv s'.
Proof.
  intros I P L. pose proof (sf_keys _ (iv_safe _ I)) as K. unfold serve. destruct (nth_error (g_ptrs s) n) as [r|] eqn:NE; [|apply nth_error_None in NE; lia].
  assert (X : exists k, get_link s r = Some k /\ k_up k = true).
  { apply nth_error_In in NE. rewrite P in NE. unfold up_refs in NE. apply in_map_iff in NE as ([r0 k0] & E & J). apply filter_In in J as (J & U). cbn [fst snd] in *. subst r0. exists k0. split; [apply in_get; assumption|exact U]. }
  destruct X as (k & G & U). rewrite G. change (N.of_nat (length (k_open k) + length (k_acks k))) with (count k). cbv zeta. set (room := sub64 _ _).
  assert (Y : exists s1 k1, (if count k <? k_max k then (if c_priority cfg then priority_send cfg r k room s else Some (default_send cfg r k room s)) else Some s) = Some s1 /\ inv s1 /\ get_link s1 r = Some k1).
  { destruct (N.ltb_spec (count k) (k_max k)) as [C|C]; [|exists s, k; auto]. destruct (c_priority cfg).
    - destruct (priority_inv cfg r k room s I G) as (s1 & E & I1). destruct (priority_visit cfg r k s s1 K G U C E) as (k1 & ms & V). exists s1, k1. split; [exact E|]. split; [exact I1|]. eapply visit_get; eassumption.
    - destruct (default_visit cfg r k s K G U C) as (k1 & ms & V). eexists. exists k1. split; [reflexivity|]. split; [apply default_inv; assumption|]. eapply visit_get; eassumption. }
  destruct Y as (s1 & k1 & -> & I1 & G1). destruct (_ || _); [eauto|]. rewrite G1. destruct (peek cfg (k_dests k1) s1) as [w s2] eqn:PK. destruct (peek_inv _ _ _ _ _ I1 PK) as (I2 & _).
  eexists. split; [reflexivity|]. destruct w; [apply poll_inv|]; exact I2.
Qed.
Lemma loop_inv cfg c : forall s, inv s -> g_ptrs s = up_refs (links s) -> (c <= length (g_ptrs s))%nat -> exists s', send_loop cfg c s = Some s' /\ inv s'.
Proof.
  induction c as [|c IH]; intros s I P L; cbn [send_loop]; [eauto|]. set (n := next_rr s). assert (LN : (n < length (g_ptrs s))%nat) by (apply next_lt; lia).
  assert (IR : inv (with_rr s n)) by (destruct I as [[A B] C D]; constructor; [constructor; assumption|exact C|exact D]).
  destruct (serve_inv cfg n (with_rr s n) IR P LN) as (s1 & E & I1). rewrite E. destruct (serve_rr cfg n (with_rr s n) s1 (sf_keys _ (iv_safe _ IR)) P E) as (_ & R2 & _ & P1).
  destruct (g_poll s1 =? 0); [eauto|]. apply IH; [exact I1|exact P1|rewrite R2; proj; lia].
Qed.
Lemma send_inv cfg s : inv s -> g_ptrs s = up_refs (links s) -> exists s', do_send cfg s = Some s' /\ inv s'.
Proof. intros I P. unfold do_send. apply loop_inv; [apply poll_inv; exact I|exact P|apply le_n]. Qed.

(** ** Links come and go *)
Lemma open_set v i k k' : nth_error v i = Some k -> k_open k' = k_open k -> open_of (set_nth i k' v) = open_of v.
Proof. intros E A. destruct (set_nth_split i v k E) as (p & q & EQ & L & F). rewrite F, EQ. unfold open_of. rewrite !flat_map_app. cbn [flat_map]. rewrite A. reflexivity. Qed.
Lemma telem_open l : forall n v v', telem n l v = Some v' -> open_of v' = open_of v.
Proof.
  induction l as [|o l IH]; intros n v v'; cbn [telem]; [intros [= <-]; reflexivity|]. destruct (if t_idx o <? N.of_nat (length v) then _ else None) as [k|] eqn:E; [|discriminate].
  destruct (t_idx o <? N.of_nat (length v)); [|discriminate]. intros H. apply IH in H. rewrite H. eapply open_set; [exact E|reflexivity].
Qed.
Lemma telem_some l : forall n v, Forall (fun o => t_idx o < N.of_nat (length v)) l -> exists v', telem n l v = Some v'.
Proof.
  induction l as [|o l IH]; intros n v F; cbn [telem]; [eauto|]. inversion F as [|? ? F1 F2]; subst. rewrite (proj2 (N.ltb_lt _ _) F1). destruct (nth_error v (N.to_nat (t_idx o))) as [k|] eqn:E; [|apply nth_error_None in E; lia].
  apply IH. rewrite set_nth_length. exact F2.
Qed.
Lemma pending_open p : forall v, open_of (apply_pending p v) = open_of v.
Proof.
  induction p as [|[i up] p IH]; intros v; cbn [apply_pending]; [reflexivity|]. rewrite IH. destruct (if i <? N.of_nat (length v) then _ else None) as [k|] eqn:E; [|reflexivity].
  destruct (i <? N.of_nat (length v)); [|discriminate]. eapply open_set; [exact E|reflexivity].
Qed.
Lemma same_open_safe s s' : open_ids s' = open_ids s -> g_disk s' = g_disk s -> keys s' -> safe s -> safe s'.
Proof. intros A B K [_ O]. constructor; [exact K|rewrite A, B; exact O]. Qed.
Lemma handle_safe cfg e s : books s -> all_links fine s -> inv s -> honest_event s e -> exists s', handle cfg e s = Some s' /\ safe s'.
Proof.
  intros B F I H. pose proof (iv_safe _ I) as SF. pose proof (bk_keys _ B) as K. destruct e; cbn [handle honest_event] in *.
  - unfold on_telemetry. set (v := match g_vec s with [] => _ | v => v end). destruct (Nat.eqb_spec (length v) (length l)) as [LE|LE]; cbn [negb]; [|exists s; auto].
    destruct (telem_some l 0 v) as (v1 & E); [rewrite LE; apply Forall_forall; exact H|]. rewrite E. eexists. split; [reflexivity|].
    apply (same_open_safe s); [|reflexivity|exact K|exact SF]. unfold open_ids, repopulate. proj. rewrite pending_open, (telem_open _ _ _ _ E). f_equal. unfold v. destruct (g_vec s); [|reflexivity]. clear. unfold open_of. induction (length l); [reflexivity|]. cbn [repeat flat_map]. exact IHn.
  - destruct H as (IN & (r & k & NL & IL & IO) & HA). unfold on_ack. rewrite IN. cbn [negb]. pose proof (in_get s r k K IL) as G.
    assert (AL : ack_link x s = Some (Some r)).
    { unfold ack_link. destruct r as [i|n]; cbn [names_link] in NL; destruct NL as (N1 & N2).
      - destruct (N.eqb_spec (x_idx x) U64MAX) as [E|_]; [contradiction|]. unfold vec_ref. assert (L : (i < length (g_vec s))%nat) by (apply nth_error_Some; cbn [get_link] in G; rewrite G; discriminate).
        destruct (N.ltb_spec (x_idx x) (N.of_nat (length (g_vec s)))) as [_|X]; [|lia]. rewrite N1, Nat2N.id. reflexivity.
      - rewrite N1. cbn [N.eqb]. rewrite N.eqb_refl, N2. cbn [get_link] in G. rewrite G. reflexivity. }
    rewrite AL. destruct (x_cut x); [eapply ack_cut_safe; eassumption|]. destruct (HA eq_refl) as (HB & HC). eapply ack_read_safe; try eassumption; [apply IO; reflexivity|]. intros b0 ST. apply (HB b0 ST).
  - unfold on_failed. destruct (write_plain b s I) as (s1 & -> & W). assert (IN : g_init s1 = g_init s) by apply (od_init _ _ (wr_od _ _ W)). rewrite IN. destruct (g_init s) eqn:GI; [|exists s1; split; [reflexivity|apply (wr_inv _ _ W)]].
    unfold vec_ref. rewrite (od_vec _ _ (wr_od _ _ W)). pose proof (H eq_refl) as LT. rewrite (proj2 (N.ltb_lt _ _) LT). destruct (nth_error (g_vec s) (N.to_nat i)) as [k|] eqn:E; [|apply nth_error_None in E; lia].
    destruct (link_down_inv (RVec (N.to_nat i)) s1 k (wr_inv _ _ W)) as (s2 & E2 & I2); [cbn [get_link]; rewrite (od_vec _ _ (wr_od _ _ W)); exact E|]. exists s2. split; [exact E2|apply I2].
  - eexists. split; [reflexivity|]. pose proof (handle_books cfg (AddLink n) s _ B eq_refl) as B2. unfold add_opp in *. destruct (opp_find n (g_opp s)); [exact SF|]. apply (same_open_safe s); [|reflexivity|apply B2|exact SF].
    unfold open_ids, repopulate. proj. f_equal. destruct (opp_insert_split n (opp_link cfg n) (g_opp s)) as (p & q & -> & ->). unfold open_of. rewrite !map_app, !flat_map_app. reflexivity.
  - eexists. split; [reflexivity|]. pose proof (handle_books cfg (RemoveLink n) s _ B eq_refl) as B2. unfold remove_opp in *. destruct (opp_find n (g_opp s)); [|exact SF]. apply (same_open_safe s); [|reflexivity|apply B2|exact SF].
    unfold open_ids, repopulate, opp_erase. proj. f_equal. assert (Z : forall k, In (n, k) (g_opp s) -> k_open k = []) by (intros k X; apply H; unfold links; apply in_or_app; right; apply in_map_iff; exists (n, k); auto).
    clear -Z. induction (g_opp s) as [|[a k] l0 IH]; [reflexivity|]. cbn [filter fst]. destruct (N.eqb_spec a n) as [->|N]; cbn [negb map open_of flat_map snd]; fold (open_of (map snd l0)).
    + rewrite (Z k) by (left; reflexivity). cbn [map app]. apply IH. intros k0 X. apply Z. right. exact X.
    + f_equal. apply IH. intros k0 X. apply Z. right. exact X.
  - unfold on_store. destruct (if s_dont m then _ else None) as [[r k]|] eqn:E.
    + eexists. split; [reflexivity|]. destruct (s_dont m); [|discriminate]. destruct (vec_ref s (s_idx m)) as [r0|] eqn:V; [|discriminate]. destruct (get_link s r0) as [k0|] eqn:G; [|discriminate].
      destruct (k_up k0) eqn:U; [|discriminate]. injection E as -> ->. eapply put_safe; [exact G|reflexivity|exact SF].
    + destruct (write_safe b c (s_special m) (Some (s_dest m)) s I H) as (s1 & -> & S1). eexists. split; [reflexivity|]. apply ack_safe. exact S1.
  - unfold on_up. destruct (g_init s) eqn:GI; [|eexists; split; [reflexivity|]; destruct SF; constructor; assumption]. destruct (vec_ref s i) as [r|] eqn:V; [|eauto]. destruct (vec_ref_get _ _ _ V) as (_ & k & G). rewrite G.
    eexists. split; [reflexivity|]. destruct (k_up k); [exact SF|]. pose proof (put_safe s r k (set_up true k) G eq_refl SF) as [S1 S2]. constructor; assumption.
  - unfold on_down. destruct (g_init s) eqn:GI; [|eexists; split; [reflexivity|]; destruct SF; constructor; assumption]. destruct (vec_ref s i) as [r|] eqn:V; [|eauto]. destruct (vec_ref_get _ _ _ V) as (_ & k & G).
    destruct (link_down_inv r s k I G) as (s1 & E & I1). exists s1. split; [exact E|apply I1].
  - destruct (signals_inv l s I) as (s1 & E & I1). exists s1. split; [exact E|apply I1].
  - apply timer_safe. exact SF.
  - apply expired_safe. exact I.
  - destruct (send_inv cfg s I (bk_ptrs _ B)) as (s1 & E & I1). exists s1. split; [exact E|apply I1].
Qed.
Lemma step_safe cfg x s : books s -> all_links fine s -> safe s -> honest s x -> exists s', step cfg x s = Some s' /\ safe s'.
Proof.
  intros [B1 B2 B3] F [K OK] (H1 & H2 & H3). unfold step. apply handle_safe; [constructor; assumption|exact F| |exact H1]. constructor; [constructor; assumption| |exact H2]. intros i A C. exfalso. exact (H3 i A C).
Qed.
Lemma start_safe : safe start.
Proof. constructor; [constructor|]. constructor; cbn; try constructor; try (intros ? []); try (intros ? ? []); try tauto. Qed.
Lemma honest_runs cfg tr s : honest_run cfg tr s -> runs cfg tr start s.
Proof.
  intros H. induction H as [|tr s x s' H IH HX ST]; [constructor|]. clear -IH ST. revert IH. generalize start. induction tr as [|y tr IH2]; intros a R; inversion R; subst; cbn [app].
  - econstructor; [exact ST|constructor].
  - econstructor; [eassumption|]. apply IH2. assumption.
Qed.
Lemma honest_safe cfg tr s : honest_run cfg tr s -> books s /\ all_links fine s /\ safe s.
Proof.
  intros H. induction H as [|tr s x s' H (B & F & S) HX ST]; [split; [apply start_books|split; [constructor|apply start_safe]]|]. split; [eapply step_books; eassumption|]. split; [eapply step_fine; eassumption|].
  destruct (step_safe cfg x s B F S HX) as (s1 & E & S1). congruence.
Qed.
Lemma safe_place s cid b : safe s -> stored s cid b -> in_one_place s cid.
Proof.
  intros [K OK] ST. assert (CE : In cid (map fst (d_ent (g_disk s)))) by (apply in_fst; exists b; exact ST). unfold in_one_place, waiting, timed.
  assert (NO : ~ In cid (open_ids s) -> forall r, ~ at_egress s r cid) by (intros N r A; apply N; eapply open_at; exact A).
  destruct (so_cover _ _ OK cid CE) as [W|[O|T]].
  - left. split; [exact W|]. split; [apply NO; exact (so_wo _ _ OK cid W)|exact (so_wt _ _ OK cid W)].
  - right. left. split; [intros X; exact (so_wo _ _ OK cid X O)|]. split; [|intros X; exact (so_to _ _ OK cid X O)]. destruct (at_open s cid O) as (r & k & A & C). exists r. split; [exists k; auto|].
    intros r' (k' & A' & C'). pose proof (so_open _ _ OK) as ND. rewrite open_links in ND. clear -ND A C A' C' K. revert ND A A'. generalize (links_refs s K). induction (links s) as [|[r0 k0] l IH]; intros NR ND A A'; [contradiction|].
    cbn [flat_map snd] in ND. cbn [map fst] in NR. inversion NR as [|? ? NR1 NR2]; subst. assert (SEP : forall r1 k1, In (r1, k1) l -> In cid (map fst (k_open k1)) -> ~ In cid (map fst (k_open k0))).
    { intros r1 k1 X Y Z. assert (W : In cid (flat_map (fun x : ref * link => map fst (k_open (snd x))) l)) by (apply in_flat_map; exists (r1, k1); auto).
      apply in_split in Z as (p & q & E). rewrite E, <- app_assoc in ND. cbn [app] in ND. apply NoDup_remove_2 in ND. apply ND. rewrite !in_app_iff. auto. }
    destruct A as [A|A], A' as [A'|A'].
    + congruence.
    + injection A as -> ->. exfalso. exact (SEP _ _ A' C' C).
    + injection A' as -> ->. exfalso. exact (SEP _ _ A C C').
    + apply IH; try assumption. clear -ND. induction (map fst (k_open k0)) as [|y a IHa]; [exact ND|]. inversion ND; subst. auto.
  - right. right. split; [intros X; exact (so_wt _ _ OK cid X T)|]. split; [apply NO; exact (so_to _ _ OK cid T)|exact T].
Qed.
