(** Lemmas for C37-C39: the readers of the BPv6 codecs accept exactly the wire format. *)
From Coq Require Import NArith ZArith List Bool Lia ZifyBool ZifyN.
From Verif Require Import Base M_FragmentSet M_Sdnv M_Acs M_Uri M_Bpv6Block M_BundleV6 S_Acs S_Sdnv S_Uri S_Bpv6 L_Sdnv P_Sdnv L_SdnvRead L_Acs P_Acs P_Uri.
Import ListNotations.
Open Scope N_scope.

(** [f] reads off the front of the bytes exactly the texts of form [F]. *)
Definition reads {A : Type} (f : list N -> option (option (A * list N))) (F : A -> list N -> Prop) : Prop :=
  (forall x p rest, F x p -> Forall is_byte (p ++ rest) -> f (p ++ rest) = Some (Some (x, rest))) /\
  (forall bs, Forall is_byte bs -> exists r, f bs = Some r /\ forall x rest, r = Some (x, rest) -> exists p, bs = p ++ rest /\ F x p).
Lemma reads_iff {A : Type} (f : list N -> option (option (A * list N))) (F G : A -> list N -> Prop) :
  (forall x p, F x p <-> G x p) -> reads f F -> reads f G.
Proof.
  intros E (C & S). split.
  - intros x p rest H B. apply C; [now apply E|exact B].
  - intros bs B. destruct (S bs B) as (r & E1 & K). exists r. split; [exact E1|]. intros x rest R. destruct (K x rest R) as (p & -> & H).
    exists p. split; [reflexivity|now apply E].
Qed.
Lemma reads_bind {A B : Type} f (F : A -> list N -> Prop) g (G : A -> B -> list N -> Prop) :
  reads f F -> (forall x, reads (g x) (G x)) ->
  reads (fun bs => bind2 (f bs) (fun '(x, r) => g x r)) (fun y p => exists x p1 p2, p = p1 ++ p2 /\ F x p1 /\ G x y p2).
Proof.
  intros (C1 & S1) H. split.
  - intros y p rest (x & p1 & p2 & -> & H1 & H2) Hb. rewrite <- app_assoc in *. rewrite (C1 x p1 (p2 ++ rest) H1 Hb). cbn [bind2].
    apply (proj1 (H x)); [exact H2|]. now apply Forall_app in Hb.
  - intros bs Hb. destruct (S1 bs Hb) as (r & -> & K). destruct r as [[x r]|]; cbn [bind2].
    + destruct (K x r eq_refl) as (p1 & -> & H1). apply Forall_app in Hb. destruct Hb as [_ Hb].
      destruct (proj2 (H x) r Hb) as (q & -> & K2). exists q. split; [reflexivity|]. intros y rest E.
      destruct (K2 y rest E) as (p2 & -> & H2). exists (p1 ++ p2). split; [now rewrite app_assoc|]. eauto 8.
    + exists None. split; [reflexivity|]. discriminate.
Qed.
Lemma reads_ret {A : Type} (h : A) : reads (fun bs => Some (Some (h, bs))) (fun y p => p = [] /\ y = h).
Proof.
  split.
  - intros x p rest (-> & ->) _. reflexivity.
  - intros bs _. eexists. split; [reflexivity|]. intros x rest E. injection E as -> ->. exists []. auto.
Qed.
(** A reader followed by the test that everything is consumed. *)
Lemma reads_all {A : Type} f (F : A -> list N -> Prop) x bs : reads f F -> Forall is_byte bs -> (f bs = Some (Some (x, [])) <-> F x bs).
Proof.
  intros (C & S) Hb. split.
  - intros E. destruct (S bs Hb) as (r & E1 & K). rewrite E in E1. injection E1 as <-. destruct (K x [] eq_refl) as (p & -> & H). now rewrite app_nil_r.
  - intros H. rewrite <- (app_nil_r bs) in Hb |- *. now apply C.
Qed.
Lemma reads_total {A : Type} f (F : A -> list N -> Prop) bs : reads f F -> Forall is_byte bs -> exists r, f bs = Some r.
Proof. intros (_ & S) Hb. destruct (S bs Hb) as (r & E & _). eauto. Qed.

Lemma rd64_reads : reads rd64 sdnv_for.
Proof.
  split.
  - intros v p rest H Hb. unfold rd64. apply Forall_app in Hb. destruct Hb as [_ Hb]. rewrite (decode_sdnv_for v p rest H Hb). cbn [fst snd].
    pose proof (sdnv_for_nonempty v p H) as NE. destruct (N.eqb_spec (N.of_nat (length p)) 0) as [Z|_]; [destruct p; [congruence|discriminate]|].
    rewrite Nat2N.id, skipn_len_app. reflexivity.
  - intros bs Hb. unfold rd64. destruct (C11_decode64_meets_specification bs Hb) as ([v k] & E & D & _). rewrite E. cbn [fst snd].
    destruct (N.eqb_spec k 0) as [Z|Z]; (eexists; split; [reflexivity|]); [discriminate|].
    intros x rest R. injection R as <- <-. destruct (decode_inv bs v k Hb E Z) as (p & r & -> & (A & B & C) & -> & ->).
    exists p. rewrite Nat2N.id, skipn_len_app. split; [reflexivity|]. repeat split; auto.
Qed.
Lemma rd32_reads : reads rd32 sdnv32_for.
Proof.
  split.
  - intros v p rest (S1 & S2 & S3 & S4) Hb. unfold rd32. destruct (C11_decode32_meets_specification _ Hb) as (r & E & _ & F).
    rewrite E, <- (F (sdnv_value p, N.of_nat (length p))) by (eapply DecOk; [reflexivity|exact S1|exact S2|lia]). cbn [fst snd].
    destruct (N.eqb_spec (N.of_nat (length p)) 0) as [Z|_]; [destruct S1 as (i & l & -> & _); rewrite app_length in Z; cbn [length] in Z; lia|].
    rewrite Nat2N.id, skipn_len_app, S3. reflexivity.
  - intros bs Hb. unfold rd32. destruct (C11_decode32_meets_specification bs Hb) as ([v k] & E & D & _). rewrite E. cbn [fst snd].
    destruct (N.eqb_spec k 0) as [Z|Z]; (eexists; split; [reflexivity|]); [discriminate|].
    intros x rest R. injection R as <- <-. remember (v, k) as q eqn:Q. destruct D as [p r -> S1 S2 S3| | |]; injection Q as <- <-; try congruence.
    exists p. rewrite Nat2N.id, skipn_len_app. split; [reflexivity|]. repeat split; auto.
Qed.
Lemma rd_time_reads : reads rd_time time_form.
Proof.
  refine (reads_iff _ _ _ _ (reads_bind _ _ _ _ rd64_reads (fun s => reads_bind _ _ _ _ rd32_reads (fun ns => reads_ret (s, ns))))).
  intros [s ns] p. unfold time_form. cbn [fst snd]. split.
  - intros (x & p1 & p2 & -> & H1 & y & p3 & p4 & -> & H2 & -> & E). injection E as -> ->. exists p1, p3. rewrite app_nil_r. auto.
  - intros (a & b & -> & H1 & H2). exists s, a, b. split; [reflexivity|]. split; [exact H1|]. exists ns, b, []. rewrite app_nil_r. auto.
Qed.
Lemma sdnvs_two a b p : sdnvs [a; b] p <-> exists p1 p2, p = p1 ++ p2 /\ sdnv_for a p1 /\ sdnv_for b p2.
Proof.
  split.
  - intros H. inversion H as [|? s1 ? b1 H1 H2]; subst. inversion H2 as [|? s2 ? b2 H3 H4]; subst. inversion H4; subst. rewrite app_nil_r. eauto.
  - intros (p1 & p2 & -> & H1 & H2). apply SdCons; [exact H1|]. rewrite <- (app_nil_r p2). apply SdCons; [exact H2|apply SdNil].
Qed.
Lemma rd_stamp_reads : reads rd_stamp (fun t => sdnvs [fst t; snd t]).
Proof.
  refine (reads_iff _ _ _ _ (reads_bind _ _ _ _ rd64_reads (fun s => reads_bind _ _ _ _ rd64_reads (fun q => reads_ret (s, q))))).
  intros [s q] p. cbn [fst snd]. rewrite sdnvs_two. split.
  - intros (x & p1 & p2 & -> & H1 & y & p3 & p4 & -> & H2 & -> & E). injection E as -> ->. exists p1, p3. rewrite app_nil_r. auto.
  - intros (a & b & -> & H1 & H2). exists s, a, b. split; [reflexivity|]. split; [exact H1|]. exists q, b, []. rewrite app_nil_r. auto.
Qed.
Lemma rd_frag_reads isfrag : reads (rd_frag isfrag) (fun t => frag_form isfrag (fst t) (snd t)).
Proof.
  destruct isfrag; [exact rd_stamp_reads|]. refine (reads_iff _ _ _ _ (reads_ret (0, 0))). intros [a b] p. unfold frag_form. cbn [fst snd]. split.
  - intros (-> & E). injection E as -> ->. auto.
  - intros (-> & -> & ->). auto.
Qed.
Lemma bit_test flags i : negb (N.land (2 ^ i) flags =? 0) = N.testbit flags i.
Proof.
  destruct (N.testbit flags i) eqn:T.
  - destruct (N.eqb_spec (N.land (2 ^ i) flags) 0) as [Z|]; [|reflexivity]. exfalso.
    assert (Q : N.testbit (N.land (2 ^ i) flags) i = false) by (rewrite Z; apply N.bits_0).
    rewrite N.land_spec, N.pow2_bits_true, T in Q. discriminate.
  - replace (N.land (2 ^ i) flags) with 0; [reflexivity|]. symmetry. apply N.bits_inj. intros j. rewrite N.land_spec, N.pow2_bits_eqb, N.bits_0.
    destruct (N.eqb_spec i j) as [<-|]; [now rewrite T|reflexivity].
Qed.
Definition time_if (flags i : N) (t : N * N) (bs : list N) : Prop := if N.testbit flags i then time_form t bs else bs = [] /\ t = (0, 0).
Lemma rd_time_if_reads flags i : reads (rd_time_if flags i) (time_if flags i).
Proof.
  unfold rd_time_if, time_if. rewrite bit_test. destruct (N.testbit flags i); [exact rd_time_reads|].
  refine (reads_iff _ _ _ _ (reads_ret (0, 0))). intros x p. tauto.
Qed.
Lemma rd_eid_reads : reads rd_eid eid_form.
Proof.
  split.
  - intros e p rest (ln & -> & L & H1 & H2) Hb. unfold rd_eid. rewrite <- app_assoc in *. rewrite (proj1 rd32_reads _ _ _ L Hb). cbn [bind2].
    replace ((65535 <? N.of_nat (length e)) || (N.of_nat (length e) <? 5)) with false by lia.
    replace (N.of_nat (length (e ++ rest)) <? N.of_nat (length e)) with false by (rewrite app_length; lia).
    rewrite Nat2N.id, firstn_len_app, skipn_len_app. reflexivity.
  - intros bs Hb. unfold rd_eid. destruct (proj2 rd32_reads bs Hb) as (r & -> & K). destruct r as [[len r]|]; cbn [bind2]; [|eexists; split; [reflexivity|discriminate]].
    destruct (K len r eq_refl) as (ln & -> & L). destruct ((65535 <? len) || (len <? 5)) eqn:T; [eexists; split; [reflexivity|discriminate]|].
    destruct (N.ltb_spec (N.of_nat (length r)) len) as [Z|Z]; (eexists; split; [reflexivity|]); [discriminate|].
    intros x rest E. injection E as <- <-. exists (ln ++ firstn (N.to_nat len) r). rewrite <- app_assoc, firstn_skipn. split; [reflexivity|].
    assert (LE : length (firstn (N.to_nat len) r) = N.to_nat len) by (rewrite firstn_length; lia).
    exists ln. rewrite LE, N2Nat.id. split; [reflexivity|]. split; [exact L|]. lia.
Qed.
Lemma times_five flags i t0 t1 t2 t3 t4 bs : times_form flags i [t0; t1; t2; t3; t4] bs <->
  exists b0 b1 b2 b3 b4, bs = b0 ++ b1 ++ b2 ++ b3 ++ b4 /\ time_if flags i t0 b0 /\ time_if flags (i + 1) t1 b1 /\ time_if flags (i + 1 + 1) t2 b2 /\
    time_if flags (i + 1 + 1 + 1) t3 b3 /\ time_if flags (i + 1 + 1 + 1 + 1) t4 b4.
Proof.
  assert (Step : forall j t ts p, times_form flags j (t :: ts) p <-> exists a b, p = a ++ b /\ time_if flags j t a /\ times_form flags (j + 1) ts b).
  { intros j t ts p. unfold time_if. split.
    - intros H. inversion H as [|? ? ? a b T H1 H2|? ? b T H1]; subst; rewrite T.
      + exists a, b. auto.
      + exists [], p. auto.
    - intros (a & b & -> & H1 & H2). destruct (N.testbit flags j) eqn:T; [now constructor|]. destruct H1 as (-> & ->). now constructor. }
  assert (Nil : forall j p, times_form flags j [] p <-> p = []) by (intros j p; split; [intros H; now inversion H|intros ->; constructor]).
  split.
  - intros H. apply Step in H. destruct H as (b0 & r0 & -> & H0 & H). apply Step in H. destruct H as (b1 & r1 & -> & H1 & H).
    apply Step in H. destruct H as (b2 & r2 & -> & H2 & H). apply Step in H. destruct H as (b3 & r3 & -> & H3 & H).
    apply Step in H. destruct H as (b4 & r4 & -> & H4 & H). apply Nil in H. subst r4. exists b0, b1, b2, b3, b4. rewrite app_nil_r. auto 8.
  - intros (b0 & b1 & b2 & b3 & b4 & -> & H0 & H1 & H2 & H3 & H4). apply Step. exists b0. eexists. split; [reflexivity|]. split; [exact H0|].
    apply Step. exists b1. eexists. split; [reflexivity|]. split; [exact H1|]. apply Step. exists b2. eexists. split; [reflexivity|]. split; [exact H2|].
    apply Step. exists b3. eexists. split; [reflexivity|]. split; [exact H3|]. apply Step. exists b4, []. rewrite app_nil_r. split; [reflexivity|]. split; [exact H4|]. now apply Nil.
Qed.
Lemma status_reads isfrag : reads (status_read isfrag) (status_form isfrag).
Proof.
  assert (R : forall flags reason, reads (fun r =>
    try (fr, r1) <- rd_frag isfrag r;
    try (t0, r2) <- rd_time_if flags 0 r1;
    try (t1, r3) <- rd_time_if flags 1 r2;
    try (t2, r4) <- rd_time_if flags 2 r3;
    try (t3, r5) <- rd_time_if flags 3 r4;
    try (t4, r6) <- rd_time_if flags 4 r5;
    try (st, r7) <- rd_stamp r6;
    try (eid, r8) <- rd_eid r7;
    Some (Some (mkStatus flags reason isfrag (fst fr) (snd fr) [t0; t1; t2; t3; t4] st eid, r8)))
    (fun s p => sr_flags s = flags /\ sr_reason s = reason /\ status_form isfrag s (flags :: reason :: p))).
  { intros flags reason.
    refine (reads_iff _ _ _ _ (reads_bind _ _ _ _ (rd_frag_reads isfrag) (fun fr => reads_bind _ _ _ _ (rd_time_if_reads flags 0) (fun t0 =>
      reads_bind _ _ _ _ (rd_time_if_reads flags 1) (fun t1 => reads_bind _ _ _ _ (rd_time_if_reads flags 2) (fun t2 =>
      reads_bind _ _ _ _ (rd_time_if_reads flags 3) (fun t3 => reads_bind _ _ _ _ (rd_time_if_reads flags 4) (fun t4 =>
      reads_bind _ _ _ _ rd_stamp_reads (fun st => reads_bind _ _ _ _ rd_eid_reads (fun eid =>
      reads_ret (mkStatus flags reason isfrag (fst fr) (snd fr) [t0; t1; t2; t3; t4] st eid))))))))))).
    intros s p. split.
    - intros (fr & pf & q0 & -> & HF & t0 & p0 & q1 & -> & H0 & t1 & p1 & q2 & -> & H1 & t2 & p2 & q3 & -> & H2 & t3 & p3 & q4 & -> & H3 &
        t4 & p4 & q5 & -> & H4 & st & ps & q6 & -> & HS & eid & pe & q7 & -> & HE & -> & ->).
      split; [reflexivity|]. split; [reflexivity|]. exists pf, (p0 ++ p1 ++ p2 ++ p3 ++ p4), ps, pe.
      cbn [sr_flags sr_reason sr_isfrag sr_off sr_flen sr_times sr_stamp sr_eid]. split; [f_equal; f_equal; rewrite <- !app_assoc; now rewrite app_nil_r|].
      split; [reflexivity|]. split; [exact HF|]. split; [reflexivity|]. split; [|split; assumption]. apply times_five. exists p0, p1, p2, p3, p4. split; [reflexivity|]. auto.
    - intros (<- & <- & fr & ts & st & e & E & HI & HF & HL & HT & HS & HE). destruct s as [flags reason isf off flen times stamp eid].
      cbn [sr_flags sr_reason sr_isfrag sr_off sr_flen sr_times sr_stamp sr_eid] in *. injection E as ->. subst isf.
      do 5 (destruct times as [|? times]; [discriminate|]). destruct times; [|discriminate]. apply times_five in HT.
      destruct HT as (b0 & b1 & b2 & b3 & b4 & -> & H0 & H1 & H2 & H3 & H4). exists (off, flen), fr. eexists. split; [reflexivity|]. split; [exact HF|]. rewrite <- !app_assoc.
      repeat (eexists; eexists; eexists; split; [reflexivity|]; split; [eassumption|]). exists eid, e, []. split; [now rewrite app_nil_r|]. auto. }
  split.
  - intros s p rest H Hb. pose proof H as H'. destruct H' as (fr & ts & st & e & -> & _). cbn [app status_read].
    exact (proj1 (R (sr_flags s) (sr_reason s)) s _ rest (conj eq_refl (conj eq_refl H)) (Forall_inv_tail (Forall_inv_tail Hb))).
  - intros bs Hb. destruct bs as [|flags [|reason r]]; [eexists; split; [reflexivity|discriminate]..|].
    destruct (proj2 (R flags reason) r (Forall_inv_tail (Forall_inv_tail Hb))) as (q & E & K). exists q. split; [exact E|].
    intros s rest Q. destruct (K s rest Q) as (p & -> & _ & _ & H). exists (flags :: reason :: p). auto.
Qed.
Lemma signal_reads isfrag : reads (signal_read isfrag) (signal_form isfrag).
Proof.
  assert (R : forall status, reads (fun r =>
    try (fr, r1) <- rd_frag isfrag r;
    try (t, r2) <- rd_time r1;
    try (st, r3) <- rd_stamp r2;
    try (eid, r4) <- rd_eid r3;
    Some (Some (mkSignal status isfrag (fst fr) (snd fr) t st eid, r4)))
    (fun s p => cs_status s = status /\ signal_form isfrag s (status :: p))).
  { intros status.
    refine (reads_iff _ _ _ _ (reads_bind _ _ _ _ (rd_frag_reads isfrag) (fun fr => reads_bind _ _ _ _ rd_time_reads (fun t =>
      reads_bind _ _ _ _ rd_stamp_reads (fun st => reads_bind _ _ _ _ rd_eid_reads (fun eid =>
      reads_ret (mkSignal status isfrag (fst fr) (snd fr) t st eid))))))).
    intros s p. split.
    - intros (fr & pf & q0 & -> & HF & t & p0 & q1 & -> & H0 & st & ps & q6 & -> & HS & eid & pe & q7 & -> & HE & -> & ->).
      split; [reflexivity|]. exists pf, p0, ps, pe. cbn [cs_status cs_isfrag cs_off cs_flen cs_time cs_stamp cs_eid]. rewrite app_nil_r. auto 8.
    - intros (<- & fr & ts & st & e & E & HI & HF & HT & HS & HE). destruct s as [status isf off flen time stamp eid].
      cbn [cs_status cs_isfrag cs_off cs_flen cs_time cs_stamp cs_eid] in *. injection E as ->. subst isf.
      exists (off, flen), fr. eexists. split; [reflexivity|]. split; [exact HF|].
      repeat (eexists; eexists; eexists; split; [reflexivity|]; split; [eassumption|]). exists eid, e, []. split; [now rewrite app_nil_r|]. auto. }
  split.
  - intros s p rest H Hb. pose proof H as H'. destruct H' as (fr & ts & st & e & -> & _). cbn [app signal_read].
    exact (proj1 (R (cs_status s)) s _ rest (conj eq_refl H) (Forall_inv_tail Hb)).
  - intros bs Hb. destruct bs as [|status r]; [eexists; split; [reflexivity|discriminate]|].
    destruct (proj2 (R status) r (Forall_inv_tail Hb)) as (q & E & K). exists q. split; [exact E|].
    intros s rest Q. destruct (K s rest Q) as (p & -> & _ & H). exists (status :: p). auto.
Qed.

(** ** Metadata *)
Lemma number_text_nz v s : number_text v s -> Forall (fun c => c <> 0) s.
Proof.
  assert (K : forall v s, numeral v s -> Forall (fun c => c <> 0) s).
  { intros v' s' (_ & D & _). eapply Forall_impl; [|exact D]. unfold digit. intros; lia. }
  intros [v' s' H _|v' s' H _|v' w' s' H _ _ _]; [now apply (K v')|constructor; [lia|now apply (K v')]..].
Qed.
Lemma parse_one bs n node svc : parse_uri_cstring false bs = Some (n, (node, Svc svc)) <->
  exists a b rest, bs = (ipn_colon ++ a ++ [46] ++ b ++ [0]) ++ rest /\ number_text node a /\ number_text svc b /\
    n = N.of_nat (length (ipn_colon ++ a ++ [46] ++ b ++ [0])).
Proof.
  destruct (C36_parse_is_exact false bs) as [_ H]. rewrite H. clear H. split.
  - intros (s & rest & -> & NZ & -> & E). destruct (C36_parse_is_exact false s) as [H _]. apply H in E. destruct E as (ssp & -> & E).
    apply C36_parse_ssp_is_exact in E. destruct E as (a & b & -> & Ha & Hb). exists a, b, rest. rewrite <- !app_assoc. split; [reflexivity|].
    split; [exact Ha|]. split; [exact Hb|]. rewrite !app_length. cbn [length]. lia.
  - intros (a & b & rest & -> & Ha & Hb & ->). exists (ipn_colon ++ a ++ [46] ++ b), rest. rewrite <- !app_assoc. split; [reflexivity|].
    split; [repeat (apply Forall_app; split); [unfold ipn_colon; repeat constructor; discriminate|now apply (number_text_nz node)|repeat constructor; discriminate|now apply (number_text_nz svc)]|].
    split; [rewrite !app_length; cbn [length]; lia|]. apply (proj1 (C36_parse_is_exact false _)). exists (a ++ [46] ++ b). split; [reflexivity|].
    apply C36_parse_ssp_is_exact. exists a, b. auto.
Qed.
Lemma uri_texts_ne l ts : uri_texts l ts -> ts <> [].
Proof. intros [node svc a b _ _|node svc a b l' ts' _ _ _]; discriminate. Qed.
Lemma uris_read_complete l ts : uri_texts l ts -> forall fuel, (length ts < fuel)%nat -> uris_read fuel ts = Some (Some l).
Proof.
  induction 1 as [node svc a b Ha Hb|node svc a b l ts Ha Hb H IH]; intros fuel L; (destruct fuel as [|fuel]; [lia|]); cbn [uris_read].
  - rewrite (proj2 (parse_one _ _ node svc)) by (exists a, b, []; rewrite app_nil_r; eauto). rewrite Nat2N.id, skipn_all. reflexivity.
  - rewrite (proj2 (parse_one _ _ node svc)) by (exists a, b, ts; eauto). rewrite Nat2N.id, skipn_len_app.
    rewrite app_length in L. cbn [ipn_colon app length] in L. pose proof (uri_texts_ne l ts H) as NE. destruct ts as [|c ts]; [congruence|].
    rewrite IH by lia. reflexivity.
Qed.
Lemma uris_read_sound : forall fuel bs, (length bs < fuel)%nat -> exists r, uris_read fuel bs = Some r /\ forall l, r = Some l -> uri_texts l bs.
Proof.
  induction fuel as [|fuel IH]; intros bs L; [lia|]. cbn [uris_read].
  destruct (parse_uri_cstring false bs) as [[n [node [svc|]]]|] eqn:E; [|eexists; split; [reflexivity|discriminate]..].
  apply parse_one in E. destruct E as (a & b & rest & -> & Ha & Hb & ->). rewrite Nat2N.id, skipn_len_app. destruct rest as [|c rest].
  - eexists. split; [reflexivity|]. intros l Q. injection Q as <-. rewrite app_nil_r. now constructor.
  - destruct (IH (c :: rest)) as (r & -> & K). { rewrite app_length in L. cbn [ipn_colon app length] in *. lia. }
    destruct r as [l|]; (eexists; split; [reflexivity|]); intros l' Q; [|discriminate]. injection Q as <-. constructor; auto.
Qed.
Lemma meta_read_exact data : Forall is_byte data ->
  (exists r, meta_read data = Some r) /\ forall code c, meta_read data = Some (Some (code, c)) <->
    exists sd r, data = sd ++ r /\ sdnv_for code sd /\
      if code =? 1 then exists l, c = Some (MUris l) /\ uri_texts l r else c = Some (MGeneric r).
Proof.
  intros Hb. unfold meta_read. split.
  - destruct (reads_total _ _ data rd64_reads Hb) as (r & ->). destruct r as [[code r]|]; cbn [bind2]; [|eauto].
    destruct (code =? 1); [|eauto]. destruct (uris_read_sound (S (length r)) r) as (q & -> & _); [lia|]. destruct q; cbn [bind2]; eauto.
  - intros code c. split.
    + intros E. destruct (proj2 rd64_reads data Hb) as (r & E1 & K). rewrite E1 in E. destruct r as [[code' r]|]; [|discriminate]. cbn [bind2] in E.
      destruct (K code' r eq_refl) as (sd & -> & SD). destruct (code' =? 1) eqn:T.
      * destruct (uris_read_sound (S (length r)) r) as (q & E2 & K2); [lia|]. rewrite E2 in E. destruct q as [l|]; [|discriminate]. cbn [bind2] in E.
        injection E as <- <-. exists sd, r. rewrite T. eauto 8.
      * injection E as <- <-. exists sd, r. rewrite T. auto.
    + intros (sd & r & -> & SD & H). rewrite (proj1 rd64_reads _ _ _ SD Hb). cbn [bind2]. destruct (code =? 1).
      * destruct H as (l & -> & H). rewrite (uris_read_complete l r H) by lia. reflexivity.
      * now subst c.
Qed.

(** ** Administrative records *)
Lemma low_bit h : negb (N.land h 1 =? 0) = N.testbit h 0.
Proof. rewrite N.land_comm. exact (bit_test h 0). Qed.
Lemma admin_read_exact last data : Forall is_byte data ->
  (exists r, admin_read last data = Some r) /\ forall code isfrag c, admin_read last data = Some (Some (code, isfrag, c)) <->
    data_form last true 1 data (Admin code isfrag c).
Proof.
  intros Hb. split.
  - destruct data as [|h r]; [eexists; reflexivity|]. apply Forall_inv_tail in Hb. cbn [admin_read]. cbn zeta.
    destruct (N.shiftr h 4 =? 1). { destruct (reads_total _ _ r (status_reads (negb (N.land h 1 =? 0))) Hb) as (q & ->). destruct q as [[s [|? ?]]|]; cbn [bind2]; eauto. }
    destruct (N.shiftr h 4 =? 2). { destruct (reads_total _ _ r (signal_reads (negb (N.land h 1 =? 0))) Hb) as (q & ->). destruct q as [[s [|? ?]]|]; cbn [bind2]; eauto. }
    destruct (N.shiftr h 4 =? 4); [|eauto]. unfold acs_deserialize. destruct r as [|st r]; [cbn; eauto|]. apply Forall_inv_tail in Hb.
    destruct (C29_decode_consumes_all_or_fails last r Hb) as (q & -> & _). destruct q as [[f n]|]; cbn [bind2 fst snd]; [|eauto]. destruct (_ =? _); eauto.
  - intros code isfrag c. split.
    + intros E. destruct data as [|h r]; [discriminate|]. apply Forall_inv_tail in Hb. cbn [admin_read] in E. cbn zeta in E. rewrite low_bit in E.
      rewrite N.shiftr_div_pow2 in E. change (2 ^ 4) with 16 in E.
      destruct (N.eqb_spec (h / 16) 1) as [C|_].
      { destruct (status_read (N.testbit h 0) r) as [[[s [|? ?]]|]|] eqn:R; try discriminate. cbn [bind2] in E. injection E as <- <- <-. rewrite C.
        apply DfStatus; [reflexivity|exact C|]. now apply (reads_all _ _ s r (status_reads (N.testbit h 0)) Hb). }
      destruct (N.eqb_spec (h / 16) 2) as [C|_].
      { destruct (signal_read (N.testbit h 0) r) as [[[s [|? ?]]|]|] eqn:R; try discriminate. cbn [bind2] in E. injection E as <- <- <-. rewrite C.
        apply DfSignal; [reflexivity|exact C|]. now apply (reads_all _ _ s r (signal_reads (N.testbit h 0)) Hb). }
      destruct (N.eqb_spec (h / 16) 4) as [C|_]; [|discriminate]. destruct r as [|st r]; [discriminate|]. apply Forall_inv_tail in Hb. cbn [acs_deserialize] in E.
      destruct (C29_decode_consumes_all_or_fails last r Hb) as (q & R & K). rewrite R in E. destruct q as [[f n]|]; [|discriminate]. cbn [bind2 fst snd] in E.
      destruct K as (-> & fs & F). replace (1 + N.of_nat (length r) =? N.of_nat (length (st :: r))) with true in E by (cbn [length]; lia).
      injection E as <- <- <-. rewrite C. eapply DfAggregate; eauto.
    + intros H. remember 1 as one eqn:O. remember (Admin code isfrag c) as k eqn:K. destruct H; try discriminate.
      * injection K as <- <- <-. cbn [admin_read]. rewrite low_bit, N.shiftr_div_pow2. change (2 ^ 4) with 16. rewrite H0. change (1 =? 1) with true. cbv match.
        rewrite (proj2 (reads_all _ _ s bs (status_reads (N.testbit h 0)) (Forall_inv_tail Hb))) by assumption. reflexivity.
      * injection K as <- <- <-. cbn [admin_read]. rewrite low_bit, N.shiftr_div_pow2. change (2 ^ 4) with 16. rewrite H0. change (2 =? 1) with false. change (2 =? 2) with true. cbv match.
        rewrite (proj2 (reads_all _ _ s bs (signal_reads (N.testbit h 0)) (Forall_inv_tail Hb))) by assumption. reflexivity.
      * injection K as <- <- <-. cbn [admin_read]. rewrite low_bit, N.shiftr_div_pow2. change (2 ^ 4) with 16. rewrite H0. change (4 =? 1) with false. change (4 =? 2) with false.
        change (4 =? 4) with true. cbv match. cbn [acs_deserialize]. rewrite H2. cbn [bind2 fst snd].
        replace (1 + N.of_nat (length bs) =? N.of_nat (length (st :: bs))) with true by (cbn [length]; lia). reflexivity.
Qed.

(** ** Block-type-specific data *)
Lemma content_read_total last isAdmin type data : Forall is_byte data -> exists r, content_read last isAdmin type data = Some r.
Proof.
  intros Hb. unfold content_read. cbn zeta. destruct (isAdmin && (type =? 1)).
  { destruct (proj1 (admin_read_exact last data Hb)) as (r & ->). destruct r as [[[? ?] ?]|]; cbn [bind2]; eauto. }
  destruct (type =? 5). { destruct (_ || _); [eauto|]. destruct (Nat.ltb _ _); [eauto|]. destruct (parse_ssp _ _) as [[? [?|]]|]; eauto. }
  destruct (type =? 8). { destruct (proj1 (meta_read_exact data Hb)) as (r & ->). destruct r as [[? ?]|]; cbn [bind2]; eauto. }
  destruct (type =? 10). { destruct (reads_total _ _ data rd64_reads Hb) as (r & ->). destruct r as [[? ?]|]; cbn [bind2]; [|eauto]. destruct (Nat.ltb _ _); eauto. }
  destruct (type =? 20); [|eauto]. destruct (reads_total _ _ data rd64_reads Hb) as (r & ->). destruct r as [[? [|? ?]]|]; cbn [bind2]; eauto.
Qed.
Lemma prev_hop_split (data : list N) : (7 <= length data)%nat -> nth 0 data 0 = 105 -> nth 1 data 0 = 112 -> nth 2 data 0 = 110 -> nth 3 data 0 = 0 ->
  nth (length data - 1) data 0 = 0 -> data = [105; 112; 110; 0] ++ firstn (length data - 5) (skipn 4 data) ++ [0].
Proof.
  intros L A B C D E. do 4 (destruct data as [|? data]; [cbn in L; lia|]). cbn [nth length skipn app] in *. subst. do 4 f_equal.
  replace (S (S (S (S (length data)))) - 5)%nat with (length data - 1)%nat by lia.
  replace (S (S (S (S (length data)))) - 1)%nat with (S (S (S (S (length data - 1)))))%nat in E by lia. cbn [nth] in E.
  destruct (exists_last (l := data)) as (i & x & ->); [destruct data; [cbn in L; lia|discriminate]|].
  rewrite app_length in *. cbn [length] in *. replace (length i + 1 - 1)%nat with (length i) in * by lia. rewrite app_nth2, Nat.sub_diag in E by lia. cbn in E. subst x.
  rewrite firstn_len_app. reflexivity.
Qed.
Lemma content_read_exact last isAdmin type data c : Forall is_byte data ->
  (content_read last isAdmin type data = Some (Some c) <-> data_form last isAdmin type data c).
Proof.
  intros Hb. split.
  - unfold content_read. cbn zeta. destruct (isAdmin && (type =? 1)) eqn:TA.
    { apply andb_prop in TA. destruct TA as [-> T]. apply N.eqb_eq in T. subst type. intros E.
      destruct (admin_read last data) as [[[[code isf] k]|]|] eqn:R; try discriminate. cbn [bind2] in E. injection E as <-. now apply (admin_read_exact last data Hb). }
    destruct (N.eqb_spec type 5) as [->|N5].
    { intros E. destruct (_ || _) eqn:T in E; [discriminate|]. destruct (Nat.ltb_spec 45 (length data)) as [Z|Z]; [discriminate|].
      repeat (apply orb_false_elim in T; destruct T as [T ?]).
      assert (S := prev_hop_split data ltac:(lia) ltac:(lia) ltac:(lia) ltac:(lia) ltac:(lia) ltac:(lia)).
      destruct (parse_ssp false _) as [[node [svc|]]|] eqn:P in E; try discriminate. injection E as <-. apply C36_parse_ssp_is_exact in P.
      destruct P as (a & b & EQ & Ha & Hn). rewrite EQ in S. rewrite S. rewrite <- !app_assoc. apply DfPrevHop; [exact Ha|exact Hn|].
      apply (f_equal (@length N)) in S. rewrite !app_length in S. cbn [length] in S. lia. }
    destruct (N.eqb_spec type 8) as [->|N8].
    { intros E. destruct (meta_read data) as [[[code m]|]|] eqn:R; try discriminate. cbn [bind2] in E. injection E as <-.
      apply (proj2 (meta_read_exact data Hb)) in R. destruct R as (sd & r & -> & S & H). destruct (N.eqb_spec code 1) as [->|NC].
      - destruct H as (l & -> & U). now apply DfUris.
      - subst m. now apply DfMeta. }
    destruct (N.eqb_spec type 10) as [->|N10].
    { intros E. destruct (proj2 rd64_reads data Hb) as (r & R & K). rewrite R in E. destruct r as [[id r]|]; [|discriminate]. cbn [bind2] in E.
      destruct (Nat.ltb_spec 45 (length r)); [discriminate|]. injection E as <-. destruct (K id r eq_refl) as (sd & -> & S). now apply DfCteb. }
    destruct (N.eqb_spec type 20) as [->|N20].
    { intros E. destruct (proj2 rd64_reads data Hb) as (r & R & K). rewrite R in E. destruct r as [[v [|? ?]]|]; try discriminate. cbn [bind2] in E. injection E as <-.
      destruct (K v [] eq_refl) as (sd & -> & S). rewrite app_nil_r. now apply DfAge. }
    intros E. injection E as <-. apply DfPlain.
    + cbn [In]. lia.
    + intros -> ->. discriminate.
  - intros H. pose proof H as H0. destruct H.
    + unfold content_read. cbn zeta. cbn [In] in H. destruct (N.eqb_spec t 5); [lia|]. destruct (N.eqb_spec t 8); [lia|]. destruct (N.eqb_spec t 10); [lia|]. destruct (N.eqb_spec t 20); [lia|].
      destruct isAdmin; [|reflexivity]. destruct (N.eqb_spec t 1); [lia|reflexivity].
    + unfold content_read. change (10 =? 1) with false. rewrite andb_false_r. change (10 =? 5) with false. change (10 =? 8) with false. change (10 =? 10) with true. cbv zeta match.
      rewrite (proj1 rd64_reads _ _ _ H Hb). cbn [bind2]. destruct (Nat.ltb_spec 45 (length eid)); [lia|reflexivity].
    + unfold content_read. change (5 =? 1) with false. rewrite andb_false_r. change (5 =? 5) with true. cbv zeta match.
      set (data := [105; 112; 110; 0] ++ a ++ [46] ++ b ++ [0]) in *. set (m := a ++ [46] ++ b).
      assert (ED : data = [105; 112; 110; 0] ++ m ++ [0]) by (unfold data, m; now rewrite <- !app_assoc).
      assert (LM : length m = (length a + 1 + length b)%nat) by (unfold m; rewrite !app_length; cbn [length]; lia).
      assert (LD : length data = (5 + length m)%nat) by (rewrite ED, !app_length; cbn [length]; lia).
      assert (La : (1 <= length a)%nat) by (destruct H as [v s (NE & _)|v s (NE & _)|v w s (NE & _)]; cbn [length]; try lia; destruct s; [congruence|cbn; lia]).
      assert (Lb : (1 <= length b)%nat) by (destruct H1 as [v s (NE & _)|v s (NE & _)|v w s (NE & _)]; cbn [length]; try lia; destruct s; [congruence|cbn; lia]).
      assert (NL : nth (length data - 1) data 0 = 0). { rewrite LD, ED. replace (5 + length m - 1)%nat with (4 + length m)%nat by lia. cbn [app nth Nat.add]. rewrite app_nth2, Nat.sub_diag by lia. reflexivity. }
      rewrite NL. replace (Nat.ltb (length data) 7) with false by (symmetry; apply Nat.ltb_ge; lia). replace (Nat.ltb 45 (length data)) with false by (symmetry; apply Nat.ltb_ge; lia).
      replace (firstn (length data - 5) (skipn 4 data)) with m.
      2:{ rewrite LD, ED. replace (5 + length m - 5)%nat with (length m) by lia. cbn [app skipn]. now rewrite firstn_len_app. }
      rewrite (proj2 (C36_parse_ssp_is_exact false m node (Svc svc))) by (exists a, b; auto). rewrite ED. reflexivity.
    + unfold content_read. change (20 =? 1) with false. rewrite andb_false_r. change (20 =? 5) with false. change (20 =? 8) with false. change (20 =? 10) with false. change (20 =? 20) with true. cbv zeta match.
      rewrite (proj2 (reads_all _ _ v sd rd64_reads Hb)) by assumption. reflexivity.
    + unfold content_read. change (8 =? 1) with false. rewrite andb_false_r. change (8 =? 5) with false. change (8 =? 8) with true. cbv zeta match.
      rewrite (proj2 (proj2 (meta_read_exact _ Hb) 1 (Some (MUris l)))) by (exists sd, ts; change (1 =? 1) with true; eauto). reflexivity.
    + unfold content_read. change (8 =? 1) with false. rewrite andb_false_r. change (8 =? 5) with false. change (8 =? 8) with true. cbv zeta match.
      rewrite (proj2 (proj2 (meta_read_exact _ Hb) code (Some (MGeneric d)))); [reflexivity|]. exists sd, d. destruct (N.eqb_spec code 1); [congruence|auto].
    + subst isAdmin. unfold content_read. change (true && (1 =? 1)) with true. cbv match. rewrite (proj2 (proj2 (admin_read_exact last _ Hb) _ _ _) H0). reflexivity.
    + subst isAdmin. unfold content_read. change (true && (1 =? 1)) with true. cbv match. rewrite (proj2 (proj2 (admin_read_exact last _ Hb) _ _ _) H0). reflexivity.
    + subst isAdmin. unfold content_read. change (true && (1 =? 1)) with true. cbv match. rewrite (proj2 (proj2 (admin_read_exact last _ Hb) _ _ _) H0). reflexivity.
Qed.
