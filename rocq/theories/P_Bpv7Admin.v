(** C47: BPv7 administrative records: status reports and bundle-in-bundle encapsulation. *)
From Coq Require Import NArith ZArith List Bool Lia ZifyBool ZifyN.
From Verif Require Import Base M_SegmentAlloc M_Intrin M_Sdnv M_Cbor M_Bpv6Block M_Bpv7Crc M_Bpv7Block M_Bpv7Admin S_Sdnv S_Cbor S_Bpv7Crc S_Bpv7 S_Bpv7Admin.
From Verif Require Import L_Intrin L_Cbor P_Cbor L_Bpv7Crc P_Bpv7Crc L_Bpv6Read L_Bpv6Write L_Bpv7Read L_Bpv7Write L_Bpv7Canon P_Bpv7Canon L_Bpv7Admin.
Import ListNotations.
Open Scope N_scope.

(** Reading all of the data with a reader, and a reader followed by the break of an outer array. *)
Lemma all_reads {A : Type} f (F : A -> list N -> Prop) d : reads f F -> Forall is_byte d -> exists r, all7 (f d) = Some r /\ forall x, r = Some x <-> F x d.
Proof.
  intros (R1 & R2) Hd. destruct (R2 d Hd) as (x & E & K). unfold all7. rewrite E.
  assert (C : forall y, F y d -> x = Some (y, [])). { intros y FY. pose proof (R1 y d [] FY) as Q. rewrite app_nil_r in Q. rewrite (Q Hd) in E. congruence. }
  destruct x as [[a rest]|]; cbn [bind2].
  - destruct rest as [|b rest].
    + exists (Some a). split; [reflexivity|]. destruct (K a [] eq_refl) as (p & EP & FP). rewrite app_nil_r in EP. subst p. intros y. split; [congruence|]. intros FY. apply C in FY. congruence.
    + exists None. split; [reflexivity|]. intros y. split; [discriminate|]. intros FY. apply C in FY. discriminate.
  - exists None. split; [reflexivity|]. intros y. split; [discriminate|]. intros FY. apply C in FY. discriminate.
Qed.
Lemma closed_reads {A : Type} f (F : A -> list N -> Prop) c : reads f F ->
  reads (fun bs => bind2 (f bs) (fun '(b, r2) => bind2 (rd_break_if c r2) (fun '(_, r3) => Some (Some (b, r3))))) (fun y p => exists q, p = q ++ (if c then [255] else []) /\ F y q).
Proof.
  intros R. refine (reads_iff _ _ _ _ (reads_bind _ _ _ _ R (fun x => reads_bind _ _ _ _ (break_reads c) (fun _ => reads_ret x)))).
  intros y p. split.
  - intros (x & p1 & p2 & -> & FX & (u & q1 & q2 & -> & -> & -> & ->)). rewrite app_nil_r. eauto.
  - intros (q & -> & FQ). exists y, q, (if c then [255] else []). split; [reflexivity|]. split; [exact FQ|]. exists tt, (if c then [255] else []), []. rewrite app_nil_r. auto.
Qed.
Lemma pair_split h r b : pair_array b (h :: r) <-> (h = 130 \/ h = 159) /\ r = b ++ (if h =? 159 then [255] else []).
Proof.
  unfold pair_array. split.
  - intros [E|E]; injection E as -> ->; [change (130 =? 159) with false; rewrite app_nil_r|change (159 =? 159) with true]; auto.
  - intros ([-> | ->] & ->); [change (130 =? 159) with false; rewrite app_nil_r|change (159 =? 159) with true]; auto.
Qed.

(** C47: the administrative record parser accepts exactly the records of the forms of admin_form, all of the data, and
    delivers their content; it never reads outside the data. *)
Theorem C47_parse_is_exact : forall old d, Forall is_octet d ->
  exists r, admin7_parse old d = Some r /\ forall a, r = Some a <-> admin_form old a d.
Proof.
  intros old d Hd. destruct d as [|h r].
  { exists None. split; [reflexivity|]. intros a. split; [discriminate|]. destruct a as [b|e|t]; [intros (t & c & _ & _ & [E|E]); discriminate E|intros (t & c & _ & _ & [E|E]); discriminate E|intros (h & u & c & E & _); discriminate E]. }
  unfold admin7_parse. destruct (negb (h =? 130) && negb (h =? 159)) eqn:EH.
  { exists None. split; [reflexivity|]. intros a. split; [discriminate|]. destruct a as [b|e|t]; [intros (t & c & _ & _ & P); apply pair_split in P; lia|intros (t & c & _ & _ & P); apply pair_split in P; lia|intros (h' & u & c & E & H & _); injection E as -> ->; lia]. }
  assert (HH : h = 130 \/ h = 159) by lia. clear EH. pose proof (Forall_inv_tail Hd) as Hr. destruct rd_uint_reads as (R1 & R2). destruct (R2 r Hr) as (x & E & K). rewrite E.
  assert (D : forall v u c, r = u ++ c -> cbor_uint v u -> x = Some (v, c)). { intros v u c -> U. rewrite (R1 v u c U Hr) in E. congruence. }
  assert (FORM : forall a, admin_form old a (h :: r) -> exists u c, x = Some (admin7_type a, c) /\ r = u ++ c /\ cbor_uint (admin7_type a) u /\
    match a with AdmReport b => exists q, c = q ++ (if h =? 159 then [255] else []) /\ report_form old b q
    | AdmBibe e => exists q, c = q ++ (if h =? 159 then [255] else []) /\ bibe_form e q | AdmOther t => t <> 1 /\ t <> 3 end).
  { intros [b|e|t].
    - intros (t & c & U & RF & P). apply pair_split in P. destruct P as (_ & EP). rewrite <- app_assoc in EP. do 2 eexists. split; [exact (D _ _ _ EP U)|]. split; [exact EP|]. split; [exact U|]. eauto.
    - intros (t & c & U & RF & P). apply pair_split in P. destruct P as (_ & EP). rewrite <- app_assoc in EP. do 2 eexists. split; [exact (D _ _ _ EP U)|]. split; [exact EP|]. split; [exact U|]. eauto.
    - intros (h' & u & c & EP & _ & U & N1 & N3). injection EP as -> EP. do 2 eexists. split; [exact (D _ _ _ EP U)|]. split; [exact EP|]. split; [exact U|]. auto. }
  destruct x as [[type r1]|]; cbn [bind2].
  2:{ exists None. split; [reflexivity|]. intros a. split; [discriminate|]. intros F. destruct (FORM a F) as (u & c & Q & _). discriminate Q. }
  destruct (K type r1 eq_refl) as (p & -> & U). assert (H1 : Forall is_byte r1) by (apply Forall_app in Hr; apply Hr).
  destruct (N.eqb_spec type 1) as [->|N1].
  { destruct (all_reads _ _ r1 (closed_reads _ _ (h =? 159) (report_reads old)) H1) as (rr & -> & KR). destruct rr as [b|]; cbn [bind2]; (eexists; split; [reflexivity|]); intros a; split.
    - intros Q. injection Q as <-. destruct (proj1 (KR b) eq_refl) as (q & -> & RF). exists p, q. split; [exact U|]. split; [exact RF|]. apply pair_split. rewrite <- app_assoc. auto.
    - intros F. destruct (FORM a F) as (u & c & Q & _ & _ & M). injection Q as QT <-. destruct a as [b'|e|t]; cbn [admin7_type] in QT; [|discriminate QT|destruct M; congruence]. apply KR in M. congruence.
    - discriminate.
    - intros F. destruct (FORM a F) as (u & c & Q & _ & _ & M). injection Q as QT <-. destruct a as [b'|e|t]; cbn [admin7_type] in QT; [|discriminate QT|destruct M; congruence]. apply KR in M. discriminate M. }
  destruct (N.eqb_spec type 3) as [->|N3].
  { destruct (all_reads _ _ r1 (closed_reads _ _ (h =? 159) bibe_reads) H1) as (rr & -> & KR). destruct rr as [b|]; cbn [bind2]; (eexists; split; [reflexivity|]); intros a; split.
    - intros Q. injection Q as <-. destruct (proj1 (KR b) eq_refl) as (q & -> & RF). exists p, q. split; [exact U|]. split; [exact RF|]. apply pair_split. rewrite <- app_assoc. auto.
    - intros F. destruct (FORM a F) as (u & c & Q & _ & _ & M). injection Q as QT <-. destruct a as [b'|e|t]; cbn [admin7_type] in QT; [discriminate QT| |destruct M; congruence]. apply KR in M. congruence.
    - discriminate.
    - intros F. destruct (FORM a F) as (u & c & Q & _ & _ & M). injection Q as QT <-. destruct a as [b'|e|t]; cbn [admin7_type] in QT; [discriminate QT| |destruct M; congruence]. apply KR in M. discriminate M. }
  exists (Some (AdmOther type)). split; [reflexivity|]. intros a. split.
  - intros Q. injection Q as <-. exists h, p, r1. auto.
  - intros F. destruct (FORM a F) as (u & c & Q & _ & _ & M). injection Q as QT <-. destruct a as [b'|e|t]; cbn [admin7_type] in QT; congruence.
Qed.
Print Assumptions C47_parse_is_exact.
Definition c47_old := mkBsr7 ((false, 0), (false, 0), (false, 0), (false, 0)) 0 (0, 0) (0, 0) 0 0 false false.
Definition c47_report := mkBsr7 ((true, 900), (false, 0), (true, 1000), (false, 0)) 3 (5, 1) (77, 2) 100 50 true true.
Definition c47_bytes : list N := [130; 1; 134; 132; 130; 245; 25; 3; 132; 129; 244; 130; 245; 25; 3; 232; 129; 244; 3; 130; 2; 130; 5; 1; 130; 24; 77; 2; 24; 100; 24; 50].
Example C47_parse_is_exact_ex : admin7_parse c47_old c47_bytes = Some (Some (AdmReport c47_report)) /\
  admin7_parse c47_old (c47_bytes ++ [0]) = Some None /\ admin7_parse c47_old (removelast c47_bytes) = Some None /\
  admin7_parse c47_old [130; 3; 131; 7; 24; 90; 67; 159; 1; 255] = Some (Some (AdmBibe (mkBibe7 7 90 [159; 1; 255]))).
Proof. repeat split; vm_compute; reflexivity. Qed.

(** C47: a record is written as a canonical block whose data is the record with definite lengths and shortest integers;
    the announced sizes are exact and the CRC is that of the finished block. *)
Theorem C47_write_is_exact : forall j hw a c mem pos, j < 256 -> admin_ok a -> canon7_ok c -> c_crctype c <= 2 ->
  exists d body crc crcs, let out := mkCanon7 (c_type c) (c_num c) (c_flags c) (N.of_nat (length d)) (Some d) crcs (c_crctype c) in
    admin_written a d /\ canon7_written out d body /\ crc_closing True (c_crctype c) crcs body crc /\
    admin7_size (scan_any j) a = Some (N.of_nat (length d)) /\ canon7_size (scan_any j) out (N.of_nat (length d)) = Some (N.of_nat (length (body ++ crc))) /\
    ((pos + length (body ++ crc) + 8 <= length mem)%nat -> exists mem',
       admin7_serialize (scan_any j) hw a c (mem, pos) = Some (Some (out, (mem', (pos + length (body ++ crc))%nat))) /\ written_at mem pos (body ++ crc) mem').
Proof.
  intros j hw a c mem pos J OA OK CT.
  destruct (ext_write_ok j hw (c_type c) (admin7_size (scan_any j) a) (fill_with (admin7_data (scan_any j) a)) (cadmin a) c mem pos J (proj1 OK) OK CT (cadmin_len a OA)
    (cadmin_octets a OA) (admin_size_ok j a J OA) (fun old L => admin_fill j a old J OA L)) as (body & crc & crcs & W & C & SZ & K).
  exists (cadmin a), body, crc, crcs. cbv zeta. split; [now apply cadmin_written|]. split; [exact W|]. split; [exact C|]. split; [now apply admin_size_ok|]. split; [exact SZ|exact K].
Qed.
Print Assumptions C47_write_is_exact.
Example C47_write_is_exact_ex : exists rest, admin7_serialize (scan_any 4) None (AdmReport c47_report) (mkCanon7 1 1 0 0 None (0, 0) 0) (repeat 0 60, 1%nat) =
    Some (Some (mkCanon7 1 1 0 32 (Some c47_bytes) (0, 0) 0, ([0; 133; 1; 1; 0; 0; 88; 32] ++ c47_bytes ++ rest, 40%nat))).
Proof. eexists. vm_compute. reflexivity. Qed.

Lemma be_value_snoc l x : be_value (l ++ [x]) = be_value l * 256 + x.
Proof. unfold be_value. now rewrite fold_left_app. Qed.
Lemma be_value_inj a : forall b, length a = length b -> Forall is_octet a -> Forall is_octet b -> be_value a = be_value b -> a = b.
Proof.
  induction a as [|x a IH] using rev_ind; intros b L HA HB E.
  - destruct b; [reflexivity|discriminate L].
  - destruct b as [|y b _] using rev_ind; [rewrite app_length in L; cbn in L; lia|]. rewrite !app_length in L. cbn [length] in L. rewrite !be_value_snoc in E.
    apply Forall_app in HA, HB. destruct HA as (HA & HX), HB as (HB & HY). apply Forall_inv in HX, HY. unfold is_octet in HX, HY.
    assert (x = y) by lia. subst y. f_equal. apply IH; try assumption; lia.
Qed.
Lemma shortest_unique v b b' : shortest_cbor v b -> shortest_cbor v b' -> b = b'.
Proof.
  intros H H'. assert (L : length b = length b') by (rewrite (shortest_cenc _ _ H), (shortest_cenc _ _ H'); reflexivity). destruct H as (H & _), H' as (H' & _).
  inversion H as [v0 V E1 E2|j bs J LB OB E1 E2]; subst; inversion H' as [v1 V' E1' E2'|j' bs' J' LB' OB' E1' E2']; subst; cbn [length] in L.
  - reflexivity.
  - exfalso. pose proof (Nat.pow_nonzero 2 j'). lia.
  - exfalso. pose proof (Nat.pow_nonzero 2 j). lia.
  - assert (j = j'). { destruct j as [|[|[|[|]]]]; destruct j' as [|[|[|[|]]]]; cbn in *; lia. } subst j'. f_equal. apply be_value_inj; congruence.
Qed.
(** C47: the data of a record is determined by the record. *)
Lemma written_unique a d d' : admin_ok a -> admin_written a d -> admin_written a d' -> d = d'.
Proof.
  assert (S : forall v b b', shortest_cbor v b -> shortest_cbor v b' -> b = b') by (exact shortest_unique).
  assert (S2 : forall t b b', shortest_two t b -> shortest_two t b' -> b = b').
  { intros t b b' (q & (ps & -> & F2) & ->) (q' & (ps' & -> & F2') & ->). inversion F2 as [|? p1 ? ? X1 F3]; subst. inversion F3 as [|? p2 ? ? X2 F4]; subst. inversion F4; subst.
    inversion F2' as [|? p1' ? ? X1' F3']; subst. inversion F3' as [|? p2' ? ? X2' F4']; subst. inversion F4'; subst. now rewrite (S _ _ _ X1 X1'), (S _ _ _ X2 X2'). }
  assert (SB : forall x b b', shortest_bytes x b -> shortest_bytes x b' -> b = b').
  { intros x b b' (y & r & -> & H) (y' & r' & -> & H'). pose proof (S _ _ _ H H') as Q. injection Q as -> ->. reflexivity. }
  assert (SI : forall t i b b', item_written t i b -> item_written t i b' -> b = b').
  { unfold item_written. intros t i b b'. destruct (fst i); [destruct t|]; [|congruence..]. intros (u & H & ->) (u' & H' & ->). now rewrite (S _ _ _ H H'). }
  assert (SE : forall e b b', eid7_written e b -> eid7_written e b' -> b = b').
  { unfold eid7_written. intros e b b'. destruct (fst e =? 0); [congruence|]. intros (u & H & ->) (u' & H' & ->). now rewrite (S2 _ _ _ H H'). }
  intros _. destruct a as [b|e|t]; cbn [admin_written].
  - intros (c & R & ->) (c' & R' & ->). do 2 f_equal. unfold report_written in R, R'. destruct (b_info b) as [[[i1 i2] i3] i4].
    destruct R as (p1 & p2 & p3 & p4 & rs & src & st & fr & -> & H1 & H2 & H3 & H4 & H5 & H6 & H7 & H8). destruct R' as (q1 & q2 & q3 & q4 & rs' & src' & st' & fr' & -> & G1 & G2 & G3 & G4 & G5 & G6 & G7 & G8).
    rewrite (SI _ _ _ _ H1 G1), (SI _ _ _ _ H2 G2), (SI _ _ _ _ H3 G3), (SI _ _ _ _ H4 G4), (S _ _ _ H5 G5), (SE _ _ _ H6 G6), (S2 _ _ _ H7 G7). do 8 f_equal.
    destruct (b_isfrag b); [|congruence]. pose proof (S2 (b_off b, b_flen b) (130 :: fr) (130 :: fr')) as Q. assert (130 :: fr = 130 :: fr') as E by (apply Q; [exists fr; auto|exists fr'; auto]). now injection E.
  - intros (c & (i & t & ds & -> & H1 & H2 & H3) & ->) (c' & (i' & t' & ds' & -> & G1 & G2 & G3) & ->). now rewrite (S _ _ _ H1 G1), (S _ _ _ H2 G2), (SB _ _ _ H3 G3).
  - intros (u & H & ->) (u' & H' & ->). now rewrite (S _ _ _ H H').
Qed.
(** C47: a record that was written is read back: as the same canonical block, and its data as the same content, where times
    and fragment fields that are not sent are those of the reader's object. Reports have an asserted item. *)
Theorem C47_records_round_trip : forall j hw hw' skip old a c mem pos, j < 256 -> admin_ok a -> canon7_ok c -> c_crctype c <= 2 ->
  (forall b, a = AdmReport b -> asserted b = true) -> (forall t, a = AdmOther t -> t <> 1 /\ t <> 3) ->
  exists n, admin7_size (scan_any j) a = Some n /\ ((pos + N.to_nat n + 60 <= length mem)%nat ->
    exists out mem' e, admin7_serialize (scan_any j) hw a c (mem, pos) = Some (Some (out, (mem', e))) /\
    (let bs := firstn (e - pos) (skipn pos mem') in canon7_read skip hw' bs = Some (bs, Some (out, length bs))) /\
    exists d, c_data out = Some d /\ admin7_parse old d = Some (Some (admin_meant old a))).
Proof.
  intros j hw hw' skip old a c mem pos J OA OK CT AS NT. destruct (C47_write_is_exact j hw a c mem pos J OA OK CT) as (d & body & crc & crcs & WX & WC & C & SX & SZ & K).
  exists (N.of_nat (length d)). split; [exact SX|]. rewrite Nat2N.id. intros LM.
  set (out := mkCanon7 (c_type c) (c_num c) (c_flags c) (N.of_nat (length d)) (Some d) crcs (c_crctype c)) in *.
  assert (ED : d = cadmin a) by (apply (written_unique a); [exact OA|exact WX|now apply cadmin_written]).
  assert (Hd : Forall is_octet d) by (rewrite ED; now apply cadmin_octets). assert (LD : N.of_nat (length d) < 2 ^ 64) by (rewrite ED; now apply cadmin_len).
  assert (LEN : (length (body ++ crc) <= length d + 52)%nat).
  { destruct WC as (t & n & fl & ds & -> & X1 & X2 & X3 & (y & r & -> & X4)). apply shortest_cenc in X1, X2, X3, X4. cbn [length] in X4. rewrite !app_length. cbn [length].
    pose proof (csize_pos (c_type out)). pose proof (csize_pos (c_num out)). pose proof (csize_pos (c_flags out)). pose proof (csize_pos (N.of_nat (length d))).
    pose proof (closing_len _ _ _ _ _ C) as LC. assert (length (zero_field (c_crctype c)) <= 5)%nat by (unfold zero_field; destruct (c_crctype c =? 0); [cbn; lia|]; destruct (c_crctype c =? 1); cbn; lia). lia. }
  destruct (K ltac:(lia)) as (mem' & E & (junk & EM & LM')). exists out, mem', (pos + length (body ++ crc))%nat. split; [exact E|]. split.
  - cbv zeta. replace (pos + length (body ++ crc) - pos)%nat with (length (body ++ crc)) by lia.
    assert (EB : firstn (length (body ++ crc)) (skipn pos mem') = body ++ crc). { rewrite EM. rewrite skipn_exact by (rewrite firstn_length; lia). apply firstn_pref. }
    rewrite EB. pose proof (C46_written_blocks_read_back skip hw' out d body crc crcs [] OK LD Hd (Forall_nil _) WC C) as R. cbv zeta in R. rewrite app_nil_r in R. exact R.
  - exists d. split; [reflexivity|]. destruct (C47_parse_is_exact old d Hd) as (r & -> & KP). f_equal. apply KP. rewrite ED. now apply cadmin_form.
Qed.
Print Assumptions C47_records_round_trip.
Example C47_records_round_trip_ex : admin_ok (AdmReport c47_report) /\ asserted c47_report = true /\ admin_meant c47_old (AdmReport c47_report) = AdmReport c47_report /\
  admin_ok (AdmBibe (mkBibe7 7 90 [159; 1; 255])) /\ canon7_ok (mkCanon7 1 1 0 0 None (0, 0) 2).
Proof.
  repeat split; try reflexivity; try (vm_compute; reflexivity). cbn. repeat constructor; unfold is_octet; lia.
Qed.

(** C47: reports that compare equal agree in everything but the times of their status items (and fragment fields that do
    not count), and conversely. *)
Theorem C47_equal_reports_agree : forall a b, report_equal a b = true <->
  (b_reason a, b_source a, b_stamp a, b_isfrag a, b_timed a) = (b_reason b, b_source b, b_stamp b, b_isfrag b, b_timed b) /\
  (b_isfrag a = true -> (b_off a, b_flen a) = (b_off b, b_flen b)) /\
  (let flags r := match b_info r with (i1, i2, i3, i4) => (fst i1, fst i2, fst i3, fst i4) end in flags a = flags b).
Proof.
  intros a b. unfold report_equal. cbv zeta. destruct (b_info a) as [[[a1 a2] a3] a4]. destruct (b_info b) as [[[b1 b2] b3] b4]. destruct (b_source a), (b_source b), (b_stamp a), (b_stamp b). cbn [fst snd].
  rewrite !andb_true_iff, orb_true_iff, andb_true_iff, !N.eqb_eq, !Bool.eqb_true_iff, negb_true_iff. split.
  - intros H. decompose [and] H. clear H. split; [congruence|]. split; [|congruence]. intros F. match goal with H : _ \/ _ |- _ => destruct H as [H|[]] end; congruence.
  - intros (E & F & G). injection E as -> -> -> -> -> EF ET. injection G as -> -> -> ->. rewrite EF in *. repeat split; auto. destruct (b_isfrag b); [right|auto]. specialize (F eq_refl). injection F as -> ->. auto.
Qed.
Print Assumptions C47_equal_reports_agree.
Example C47_equal_reports_agree_ex : report_equal c47_report c47_report = true /\
  report_equal c47_report (mkBsr7 ((true, 900), (false, 0), (true, 1000), (false, 0)) 3 (5, 1) (77, 2) 101 50 true true) = false.
Proof. split; reflexivity. Qed.

(** C47 refuted: status reports differing only in a reported time compare equal although the time flag is set. *)
Theorem C47_times_compared_refuted : exists a b, b_timed a = true /\ b_info a <> b_info b /\ report_equal a b = true /\
  exists d e, admin_written (AdmReport a) d /\ admin_written (AdmReport b) e /\ d <> e.
Proof.
  pose (b := mkBsr7 ((true, 901), (false, 0), (true, 1000), (false, 0)) 3 (5, 1) (77, 2) 100 50 true true).
  assert (OA : admin_ok (AdmReport c47_report)) by (repeat split; vm_compute; reflexivity). assert (OB : admin_ok (AdmReport b)) by (repeat split; vm_compute; reflexivity).
  exists c47_report, b. split; [reflexivity|]. split; [discriminate|]. split; [reflexivity|]. exists (cadmin (AdmReport c47_report)), (cadmin (AdmReport b)).
  split; [exact (cadmin_written _ OA)|]. split; [exact (cadmin_written _ OB)|]. vm_compute. discriminate.
Qed.
Print Assumptions C47_times_compared_refuted.

(** C47 refuted: not every report that can be written can be read: one without an asserted item is refused. *)
Theorem C47_reports_round_trip_refuted : exists b d, admin_ok (AdmReport b) /\ admin_written (AdmReport b) d /\ forall old, admin7_parse old d = Some None.
Proof.
  exists c47_old. assert (OA : admin_ok (AdmReport c47_old)) by (repeat split; vm_compute; reflexivity).
  exists (cadmin (AdmReport c47_old)). split; [exact OA|]. split; [exact (cadmin_written _ OA)|]. intros [[[[o1 o2] o3] o4] ? ? ? ? ? ? ?]. vm_compute. reflexivity.
Qed.
Print Assumptions C47_reports_round_trip_refuted.

(** C47 refuted: an indefinite-length array of status items is accepted without its break code and refused with it. *)
Theorem C47_indefinite_status_array_refuted : exists pre post, (forall old, exists b, admin7_parse old (pre ++ post) = Some (Some (AdmReport b))) /\
  (forall old, admin7_parse old (pre ++ [255] ++ post) = Some None) /\ nth 3 pre 0 = 159.
Proof.
  exists [130; 1; 132; 159; 129; 245; 129; 244; 129; 244; 129; 244], [3; 130; 2; 130; 5; 1; 130; 24; 77; 2].
  split; [|split; [|reflexivity]]; intros [[[[o1 o2] o3] o4] ? ? ? ? ? ? ?]; [eexists|]; vm_compute; reflexivity.
Qed.
Print Assumptions C47_indefinite_status_array_refuted.

(** C47 refuted: malformed CBOR is accepted: a two element status item with one element, and a record of a type the code
    does not know with any bytes (or none) for its content. *)
Theorem C47_wellformed_only_refuted :
  (exists b, admin7_parse c47_old [130; 1; 132; 132; 129; 245; 130; 244; 129; 244; 129; 244; 3; 130; 2; 130; 5; 1; 130; 24; 77; 2] = Some (Some (AdmReport b))) /\
  (forall old junk, Forall is_octet junk -> admin7_parse old ([130; 4] ++ junk) = Some (Some (AdmOther 4))).
Proof.
  split; [eexists; vm_compute; reflexivity|]. intros old junk Hj. destruct (C47_parse_is_exact old ([130; 4] ++ junk)) as (r & -> & K).
  { apply Forall_app. split; [repeat constructor; unfold is_octet; lia|exact Hj]. }
  f_equal. apply K. exists 130, [4], junk. split; [reflexivity|]. split; [auto|]. split; [now constructor|]. split; discriminate.
Qed.
Print Assumptions C47_wellformed_only_refuted.

(** C47 refuted: the BIBE bundle may not carry the CBOR tag 24 of encoded data items; only its first byte is skipped. *)
Theorem C47_encoded_tag_refuted : exists e d, bibe_form e ([131; 7; 24; 90] ++ d) /\
  (forall old, admin7_parse old ([130; 3; 131; 7; 24; 90] ++ [216; 24] ++ d) = Some None) /\
  (forall old, admin7_parse old ([130; 3; 131; 7; 24; 90] ++ [216] ++ d) = Some (Some (AdmBibe e))).
Proof.
  exists (mkBibe7 7 90 [159; 1; 255]), [67; 159; 1; 255]. split; [|split; intros old; vm_compute; reflexivity].
  exists 131, [7], [24; 90], [], [67; 159; 1; 255], []. cbn [e_id e_time e_bundle]. split; [reflexivity|]. split; [now constructor|].
  split; [change [24; 90] with (cenc 90); now apply cenc_uint|]. split; [auto|]. split; [|auto]. exists 3, []. split; [reflexivity|now constructor].
Qed.
Print Assumptions C47_encoded_tag_refuted.
