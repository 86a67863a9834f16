(** C46: BPv7 canonical blocks and extension blocks on the wire. *)
From Coq Require Import NArith ZArith List Bool Lia ZifyBool ZifyN.
From Verif Require Import Base M_SegmentAlloc M_Intrin M_Sdnv M_Cbor M_Bpv6Block M_Bpv7Crc M_Bpv7Block S_Sdnv S_Cbor S_Bpv7Crc S_Bpv7 L_Intrin L_Cbor P_Cbor L_Bpv7Crc P_Bpv7Crc L_Bpv6Read L_Bpv6Write L_Bpv7Read L_Bpv7Write L_Bpv7Canon.
Import ListNotations.
Open Scope N_scope.

(** C46: DeserializeBpv7 accepts exactly the canonical blocks (as stated in canon7_form), delivers their fields, data and
    length, leaves the buffer as it was and never leaves it; the checksum is verified unless that is switched off. *)
Theorem C46_parse_is_exact : forall skip hw bs, Forall is_octet bs ->
  exists r, canon7_read skip hw bs = Some (bs, r) /\
    forall c n, r = Some (c, n) <-> exists b rest, bs = b ++ rest /\ n = length b /\ canon7_form (skip = false) c b.
Proof.
  intros skip hw bs Hb. destruct (read_crc canon7_fields canon7_head skip hw c_crctype cwith_crc bs canon7_fields_reads Hb) as (r & E & K).
  exists r. split; [exact E|]. intros c n. rewrite K. clear E K. split.
  - intros (q & body & crc & rest & cc & -> & -> & (t & m & fl & tg & d & -> & T1 & T2 & T3 & T4 & (tag & ds & -> & TG & BS) & T5 & T6 & _) & C & ->).
    eexists _, rest. split; [apply app_assoc|]. split; [symmetry; apply app_length|].
    exists t, m, fl, tag, d, ds, crc. eexists. cbn [cwith_crc c_type c_num c_flags c_len c_data c_crc c_crctype].
    split; [reflexivity|]. split; [reflexivity|]. repeat (split; [assumption|]). exact C.
  - intros (b & rest & -> & -> & (t & m & fl & tag & d & ds & crc & body & -> & -> & T1 & T2 & T3 & T4 & TG & BS & T5 & T6 & C)).
    exists (cwith_crc c (0, 0)). eexists _, crc, rest, (c_crc c). split; [rewrite <- app_assoc; reflexivity|]. split; [apply app_length|].
    cbn [cwith_crc c_type c_num c_flags c_len c_data c_crc c_crctype]. split.
    + exists t, m, fl, (tag ++ ds), d. cbn [c_type c_num c_flags c_len c_data c_crc c_crctype]. split; [reflexivity|]. repeat (split; [assumption|]).
      split; [exists tag, ds; auto|auto].
    + split; [exact C|]. destruct c; reflexivity.
Qed.
Print Assumptions C46_parse_is_exact.
Example C46_parse_is_exact_ex : canon7_read false None [133; 7; 2; 0; 0; 66; 24; 99; 5] = Some ([133; 7; 2; 0; 0; 66; 24; 99; 5], Some (mkCanon7 7 2 0 2 (Some [24; 99]) (0, 0) 0, 8%nat)) /\
  canon7_read false None [133; 7; 2; 0; 0; 66; 24] = Some ([133; 7; 2; 0; 0; 66; 24], None) /\
  canon7_read true None [134; 7; 2; 0; 1; 65; 24; 66; 0; 1] = Some ([134; 7; 2; 0; 1; 65; 24; 66; 0; 1], Some (mkCanon7 7 2 0 1 (Some [24]) (0, 1) 1, 10%nat)) /\
  canon7_read false None [134; 7; 2; 0; 1; 65; 24; 66; 0; 1] = Some ([134; 7; 2; 0; 1; 65; 24; 66; 0; 1], None).
Proof. repeat split; vm_compute; reflexivity. Qed.

(** C46: SerializeBpv7 of a block with its data writes it in shortest form with its CRC and points at the data inside. *)
Theorem C46_write_is_exact : forall j hw c d mem pos, j < 256 -> canon7_ok c -> c_crctype c <= 2 ->
  c_data c = Some d -> c_len c = N.of_nat (length d) -> c_len c < 2 ^ 64 -> Forall is_octet d ->
  exists body crc crcs, canon7_written c d body /\ crc_closing True (c_crctype c) crcs body crc /\
    canon7_size (scan_any j) c (c_len c) = Some (N.of_nat (length (body ++ crc))) /\
    ((pos + length (body ++ crc) + 8 <= length mem)%nat -> exists mem' dp,
       canon7_write (scan_any j) hw c (mem, pos) = Some (Some (cwith_crc c crcs, dp, (mem', (pos + length (body ++ crc))%nat))) /\
       written_at mem pos (body ++ crc) mem' /\ firstn (length d) (skipn dp mem') = d).
Proof.
  intros j hw c d mem pos J OK CT ED EL LL Hd. set (body := (chead7 c ++ chdr (c_len c)) ++ d).
  assert (Hb : Forall is_byte body) by (apply Forall_app; split; [now apply chead7_octets|exact Hd]).
  destruct (closing_exists (c_crctype c) body CT Hb) as (crcs & crc & C). exists body, crc, crcs. split; [now apply canon_body_written|]. split; [exact C|].
  pose proof (closing_len _ _ _ _ _ C) as LC. assert (LB : length body = (length (chead7 c ++ chdr (c_len c)) + length d)%nat) by apply app_length. split.
  - rewrite EL in *. apply (canon7_size_ok j c d body crc crcs J OK CT LL); [|exact C]. unfold body. rewrite <- EL in *. now apply canon_body_written.
  - intros L. rewrite app_length, LB in L. assert (W : wok (length mem) (mem, pos) (firstn pos mem)) by (unfold wok; cbn [fst snd]; rewrite firstn_length; repeat split; lia).
    destruct (canon7_write_ok j hw c (length mem) (mem, pos) (firstn pos mem) J OK CT LL) as (w1 & d' & f & cc & E & W1 & LD & LF & C2).
    + intros x Ex. rewrite ED in Ex. injection Ex as <-. auto.
    + exact W.
    + rewrite firstn_length. lia.
    + rewrite ED in C2. destruct C2 as (-> & C2). fold body in C2, W1. destruct (closing_det _ _ _ _ _ _ Hb C C2) as (<- & <-).
      destruct (wok_split _ _ _ W1) as (rest & F1 & F2 & F3). destruct w1 as [m1 p1]. cbn [fst snd] in *. exists m1, (length (firstn pos mem ++ chead7 c ++ chdr (c_len c))). split; [|split].
      * rewrite E. f_equal. f_equal. f_equal; [f_equal; unfold cwith_crc, cwith_data; cbn [c_type c_num c_flags c_len c_data c_crc c_crctype]; now rewrite ED|]. f_equal. rewrite F2, !app_length, firstn_length. lia.
      * exists rest. rewrite F1, <- app_assoc. split; [reflexivity|]. rewrite !app_length, firstn_length in *. lia.
      * rewrite F1. unfold body. replace ((firstn pos mem ++ ((chead7 c ++ chdr (c_len c)) ++ d) ++ crc) ++ rest) with ((firstn pos mem ++ chead7 c ++ chdr (c_len c)) ++ d ++ crc ++ rest) by (now rewrite <- !app_assoc).
        rewrite skipn_pref. apply firstn_pref.
Qed.
Print Assumptions C46_write_is_exact.
Example C46_write_is_exact_ex : exists c1 c2 c, canon7_write (scan_any 4) None (mkCanon7 7 2 1 2 (Some [24; 99]) (0, 0) 1) (repeat 0 22, 1%nat) =
    Some (Some (mkCanon7 7 2 1 2 (Some [24; 99]) (0, c) 1, 7%nat, ([0; 134; 7; 2; 1; 1; 66; 24; 99; 66; c1; c2] ++ [0; 0; 2; 0; 0; 0; 0; 0; 0; 0], 12%nat))).
Proof. eexists _, _, _. vm_compute. reflexivity. Qed.

(** A written block has the form that is read. *)
Lemma written_form c d body crc crcs : canon7_ok c -> N.of_nat (length d) < 2 ^ 64 -> canon7_written c d body -> crc_closing True (c_crctype c) crcs body crc ->
  canon7_form True (mkCanon7 (c_type c) (c_num c) (c_flags c) (N.of_nat (length d)) (Some d) crcs (c_crctype c)) (body ++ crc).
Proof.
  intros (H1 & H2 & H3 & H4) LD (t & n & fl & ds & -> & W1 & W2 & W3 & (b & r & -> & W4)) C.
  exists t, n, fl, [], d, ((64 + b :: r) ++ d), crc. eexists. cbn [c_type c_num c_flags c_len c_data c_crc c_crctype].
  split; [reflexivity|]. split; [reflexivity|]. split; [apply W1|]. split.
  { rewrite (shortest_cenc _ _ W1), csize_val. destruct (N.ltb_spec (c_type c) 24); [lia|]. destruct (N.ltb_spec (c_type c) 256); lia. }
  split; [apply W2|]. split; [apply W3|]. split; [now left|]. split; [exists b, r; split; [reflexivity|apply W4]|]. auto.
Qed.
Lemma written_octets c d body : canon7_ok c -> Forall is_octet d -> canon7_written c d body -> Forall is_octet body.
Proof.
  intros (H1 & H2 & H3 & H4) Hd (t & n & fl & ds & -> & W1 & W2 & W3 & (b & r & -> & W4)).
  assert (UO : forall v b, cbor_uint v b -> Forall is_octet b) by (intros v b0 H; apply (uint_bound _ _ H)).
  repeat (apply Forall_app; split); try exact Hd; try (eapply UO; apply W1); try (eapply UO; apply W2); try (eapply UO; apply W3).
  - constructor; [unfold is_octet; destruct (no_crc _); lia|constructor].
  - constructor; [exact H4|constructor].
  - destruct (uint_head _ _ (proj1 W4)) as (b' & r' & E & L). injection E as <- <-. pose proof (UO _ _ (proj1 W4)) as O. constructor; [unfold is_octet; lia|exact (Forall_inv_tail O)].
Qed.
Lemma form_verified (P Q : Prop) c b : (Q -> P) -> canon7_form P c b -> canon7_form Q c b.
Proof.
  intros I (t & n & fl & tag & d & ds & crc & body & H). exists t, n, fl, tag, d, ds, crc, body. repeat (split; [apply H|]).
  assert (C : crc_closing P (c_crctype c) (c_crc c) body crc) by apply H. inversion C; subst; constructor; auto.
Qed.
(** C46: what is written is read back. *)
Theorem C46_written_blocks_read_back : forall skip hw c d body crc crcs rest, canon7_ok c -> N.of_nat (length d) < 2 ^ 64 -> Forall is_octet d -> Forall is_octet rest ->
  canon7_written c d body -> crc_closing True (c_crctype c) crcs body crc ->
  let bs := (body ++ crc) ++ rest in
  canon7_read skip hw bs = Some (bs, Some (mkCanon7 (c_type c) (c_num c) (c_flags c) (N.of_nat (length d)) (Some d) crcs (c_crctype c), length (body ++ crc))).
Proof.
  intros skip hw c d body crc crcs rest OK LD Hd Hr WR C bs.
  assert (Hb : Forall is_octet bs).
  { apply Forall_app. split; [|exact Hr]. apply Forall_app. split; [exact (written_octets _ _ _ OK Hd WR)|exact (closing_octets _ _ _ _ _ C)]. }
  destruct (C46_parse_is_exact skip hw bs Hb) as (r & -> & K). do 2 f_equal. apply K. exists (body ++ crc), rest. split; [reflexivity|]. split; [reflexivity|].
  apply (form_verified True); [auto|]. now apply written_form.
Qed.
Print Assumptions C46_written_blocks_read_back.
Example C46_written_blocks_read_back_ex : canon7_written (mkCanon7 7 2 1 2 (Some [24; 99]) (0, 0) 0) [24; 99] [133; 7; 2; 1; 0; 66; 24; 99] /\
  crc_closing True 0 (0, 0) [133; 7; 2; 1; 0; 66; 24; 99] [].
Proof.
  split; [|constructor]. exists [7], [2], [1], [66; 24; 99]. cbn. split; [reflexivity|].
  assert (S : forall v, v < 24 -> shortest_cbor v [v]) by (intros v L; split; [now constructor|intros b H; apply uint_bound in H; cbn; lia]).
  repeat (split; [now apply S|]). exists 2, []. split; [reflexivity|now apply S].
Qed.

(** C46: the extension block readers accept exactly the data of their type, all of it. *)
Theorem C46_extension_parse_is_exact : forall type d, Forall is_octet d ->
  exists r, ext7_parse type d = Some r /\ forall x, r = Some x <-> type = ext7_code x /\ ext7_form x d.
Proof.
  intros type d Hd.
  assert (A : forall (A : Type) (f : list N -> option (option (A * list N))) F, reads f F -> exists r, all7 (f d) = Some r /\ forall x, r = Some x <-> F x d).
  { intros A f F (R1 & R2). destruct (R2 d Hd) as (x & E & K). unfold all7. rewrite E. destruct x as [[a rest]|]; cbn [bind2].
    - destruct (K a rest eq_refl) as (p & EP & FP). destruct rest as [|b rest].
      + exists (Some a). split; [reflexivity|]. rewrite app_nil_r in EP. intros x. split; [intros Q; injection Q as <-; now rewrite EP|].
        intros FX. pose proof (R1 x d [] FX) as Q. rewrite app_nil_r in Q. rewrite (Q Hd) in E. congruence.
      + exists None. split; [reflexivity|]. intros x. split; [discriminate|]. intros FX. pose proof (R1 x d [] FX) as Q. rewrite app_nil_r in Q. rewrite (Q Hd) in E. congruence.
    - exists None. split; [reflexivity|]. intros x. split; [discriminate|]. intros FX. pose proof (R1 x d [] FX) as Q. rewrite app_nil_r in Q. rewrite (Q Hd) in E. congruence. }
  unfold ext7_parse. destruct (N.eqb_spec type 6) as [->|N6].
  { destruct (A _ _ _ eid7_reads) as (r & -> & K). destruct r as [e|]; (eexists; split; [reflexivity|]); intros x; (split; [|intros (E & F); destruct x as [e'|v|l c|v]; cbn in E; try discriminate]).
    - intros Q. injection Q as <-. split; [reflexivity|]. now apply K.
    - f_equal. f_equal. cbn in F. apply K in F. congruence.
    - discriminate.
    - cbn in F. apply K in F. discriminate. }
  destruct (N.eqb_spec type 7) as [->|N7].
  { destruct (A _ _ _ rd_uint_reads) as (r & -> & K). destruct r as [e|]; (eexists; split; [reflexivity|]); intros x; (split; [|intros (E & F); destruct x as [e'|v|l c|v]; cbn in E; try discriminate]).
    - intros Q. injection Q as <-. split; [reflexivity|]. now apply K.
    - f_equal. f_equal. cbn in F. apply K in F. congruence.
    - discriminate.
    - cbn in F. apply K in F. discriminate. }
  destruct (N.eqb_spec type 10) as [->|N10].
  { destruct (A _ _ _ rd_two_reads) as (r & -> & K). destruct r as [[l0 c0]|]; (eexists; split; [reflexivity|]); intros x; (split; [|intros (E & F); destruct x as [e'|v|l c|v]; cbn in E; try discriminate]).
    - intros Q. injection Q as <-. split; [reflexivity|]. now apply K.
    - cbn in F. apply K in F. injection F as -> ->. reflexivity.
    - discriminate.
    - cbn in F. apply K in F. discriminate. }
  destruct (N.eqb_spec type 13) as [->|N13].
  { destruct (A _ _ _ rd_uint_reads) as (r & -> & K). destruct r as [e|]; (eexists; split; [reflexivity|]); intros x; (split; [|intros (E & F); destruct x as [e'|v|l c|v]; cbn in E; try discriminate]).
    - intros Q. injection Q as <-. split; [reflexivity|]. now apply K.
    - f_equal. f_equal. cbn in F. apply K in F. congruence.
    - discriminate.
    - cbn in F. apply K in F. discriminate. }
  eexists. split; [reflexivity|]. intros x. split; [discriminate|]. intros (E & _). destruct x; cbn in E; congruence.
Qed.
Print Assumptions C46_extension_parse_is_exact.
Example C46_extension_parse_is_exact_ex : ext7_parse 10 [130; 24; 30; 5] = Some (Some (HopCount 30 5)) /\ ext7_parse 10 [130; 24; 30; 5; 0] = Some None /\
  ext7_parse 6 [130; 2; 130; 4; 1] = Some (Some (PrevNode (4, 1))) /\ ext7_parse 7 [25; 1; 0] = Some (Some (BundleAge 256)) /\ ext7_parse 13 [2] = Some (Some (Priority 2)).
Proof. repeat split; vm_compute; reflexivity. Qed.

(** C46: extension blocks are written with their type code, their data in shortest form and the CRC of the finished block. *)
Theorem C46_extension_write_is_exact : forall j hw x c mem pos, j < 256 -> ext7_ok x -> canon7_ok c -> c_crctype c <= 2 ->
  exists d body crc crcs, let out := mkCanon7 (ext7_code x) (c_num c) (c_flags c) (N.of_nat (length d)) (Some d) crcs (c_crctype c) in
    ext7_written x d /\ canon7_written out d body /\ crc_closing True (c_crctype c) crcs body crc /\
    ext7_size (scan_any j) x = Some (N.of_nat (length d)) /\ canon7_size (scan_any j) out (N.of_nat (length d)) = Some (N.of_nat (length (body ++ crc))) /\
    ((pos + length (body ++ crc) + 8 <= length mem)%nat -> exists mem',
       ext7_serialize (scan_any j) hw x c (mem, pos) = Some (Some (out, (mem', (pos + length (body ++ crc))%nat))) /\ written_at mem pos (body ++ crc) mem').
Proof.
  intros j hw x c mem pos J OX OK CT. pose proof (cext_len x) as LX.
  destruct (ext_write_ok j hw (ext7_code x) (ext7_size (scan_any j) x) (fill_with (ext7_data (scan_any j) x)) (cext x) c mem pos J ltac:(destruct x; reflexivity) OK CT ltac:(unfold W64; lia)
    (cext_octets x OX) (cext_size j x J OX) (fun old L => fill_ok j x old J OX L)) as (body & crc & crcs & W & C & SZ & K).
  exists (cext x), body, crc, crcs. cbv zeta. split; [now apply cext_written|]. split; [exact W|]. split; [exact C|]. split; [now apply cext_size|]. split; [exact SZ|].
  intros L. destruct (K L) as (mem' & E & WA). exists mem'. split; [|exact WA]. unfold ext7_serialize. replace (ext7_type x) with (ext7_code x) by (destruct x; reflexivity). exact E.
Qed.
Print Assumptions C46_extension_write_is_exact.
Example C46_extension_write_is_exact_ex : exists c1 c2 c, ext7_serialize (scan_any 4) None (HopCount 30 5) (mkCanon7 0 2 1 0 None (0, 0) 1) (repeat 0 22, 1%nat) =
    Some (Some (mkCanon7 10 2 1 4 (Some [130; 24; 30; 5]) (0, c) 1, ([0; 134; 10; 2; 1; 1; 68; 130; 24; 30; 5; 66; c1; c2] ++ [4; 0; 0; 0; 0; 0; 0; 0], 14%nat))).
Proof. eexists _, _, _. vm_compute. reflexivity. Qed.

(** C46: an extension block that was written is read as the same block with the same content (services of node 0 become dtn:none). *)
Theorem C46_extensions_round_trip : forall j hw hw' skip x c mem pos, j < 256 -> ext7_ok x -> canon7_ok c -> c_crctype c <= 2 ->
  (pos + 80 <= length mem)%nat -> exists out mem' e, ext7_serialize (scan_any j) hw x c (mem, pos) = Some (Some (out, (mem', e))) /\
    (let bs := firstn (e - pos) (skipn pos mem') in canon7_read skip hw' bs = Some (bs, Some (out, length bs))) /\
    exists d, c_data out = Some d /\ ext7_parse (c_type out) d = Some (Some (ext7_meant x)).
Proof.
  intros j hw hw' skip x c mem pos J OX OK CT LM. destruct (C46_extension_write_is_exact j hw x c mem pos J OX OK CT) as (d & body & crc & crcs & WX & WC & C & SX & SZ & K).
  set (out := mkCanon7 (ext7_code x) (c_num c) (c_flags c) (N.of_nat (length d)) (Some d) crcs (c_crctype c)) in *.
  assert (LD : (length d <= 21)%nat). { rewrite (cext_size j x J OX) in SX. pose proof (cext_len x). injection SX as SX. lia. }
  assert (OKO : canon7_ok out). { destruct OK as (H1 & H2 & H3 & H4). unfold canon7_ok, out. cbn. split; [destruct x; reflexivity|auto]. }
  assert (LEN : (length (body ++ crc) <= 72)%nat).
  { destruct WC as (t & n & fl & ds & -> & X1 & X2 & X3 & (y & r & -> & X4)). apply shortest_cenc in X1, X2, X3, X4. cbn [length] in X4. rewrite !app_length. cbn [length].
    pose proof (csize_pos (c_type out)). pose proof (csize_pos (c_num out)). pose proof (csize_pos (c_flags out)). pose proof (csize_pos (N.of_nat (length d))).
    pose proof (closing_len _ _ _ _ _ C) as LC. assert (length (zero_field (c_crctype c)) <= 5)%nat by (unfold zero_field; destruct (c_crctype c =? 0); [cbn; lia|]; destruct (c_crctype c =? 1); cbn; lia). lia. }
  destruct (K ltac:(lia)) as (mem' & E & (junk & EM & LM')). exists out, mem', (pos + length (body ++ crc))%nat. split; [exact E|].
  assert (Hd : Forall is_octet d).
  { assert (FM : forall y, ext7_written y d -> ext7_ok y -> Forall is_octet d).
    { assert (UO : forall v b, cbor_uint v b -> Forall is_octet b) by (intros v b0 H; apply (uint_bound _ _ H)).
      assert (TO : forall t b, shortest_two t b -> Forall is_octet b).
      { intros t b (q & (ps & -> & F2) & ->). inversion F2 as [|? p1 ? ? X1 F3]; subst. inversion F3 as [|? p2 ? ? X2 F4]; subst. inversion F4; subst. cbn [concat]. rewrite app_nil_r.
        constructor; [unfold is_octet; lia|]. apply Forall_app. split; [eapply UO; apply X1|eapply UO; apply X2]. }
      intros [e|v|l h|v] WY _; cbn in WY; [|eapply UO; apply WY|eapply TO; exact WY|eapply UO; apply WY].
      unfold eid7_written in WY. destruct (fst e =? 0); [subst; repeat constructor|]. destruct WY as (t & WT & ->). do 2 (constructor; [unfold is_octet; lia|]). exact (TO _ _ WT). }
    exact (FM x WX OX). }
  split.
  - cbv zeta. replace (pos + length (body ++ crc) - pos)%nat with (length (body ++ crc)) by lia.
    assert (EB : firstn (length (body ++ crc)) (skipn pos mem') = body ++ crc). { rewrite EM. rewrite skipn_exact by (rewrite firstn_length; lia). apply firstn_pref. }
    rewrite EB. pose proof (C46_written_blocks_read_back skip hw' out d body crc crcs [] OKO ltac:(lia) Hd (Forall_nil _) WC C) as R. cbv zeta in R. rewrite app_nil_r in R. exact R.
  - exists d. split; [reflexivity|]. destruct (C46_extension_parse_is_exact (c_type out) d Hd) as (r & -> & KP). f_equal. apply KP. cbn [c_type out].
    split; [destruct x; reflexivity|].
    assert (TF : forall t b, shortest_two t b -> two_form t b).
    { intros t b (q & (ps & -> & F2) & ->). inversion F2 as [|? p1 ? ? X1 F3]; subst. inversion F3 as [|? p2 ? ? X2 F4]; subst. inversion F4; subst.
      exists (concat [p1; p2]). split; [|left; reflexivity]. apply items_two. exists p1, p2. cbn [concat]. rewrite app_nil_r. split; [reflexivity|]. split; [apply X1|apply X2]. }
    destruct x as [e|v|l h|v]; cbn in WX |- *; [|apply WX|now apply TF|apply WX].
    unfold eid7_written in WX. unfold eid_meant. destruct (fst e =? 0).
    + subst d. exists [1; 0]. split; [left; reflexivity|]. left. auto.
    + destruct WX as (t & WT & ->). exists (2 :: t). split; [left; reflexivity|]. right. exists t. split; [reflexivity|now apply TF].
Qed.
Print Assumptions C46_extensions_round_trip.
Example C46_extensions_round_trip_ex : exists out mem', ext7_serialize (scan_any 0) None (PrevNode (2 ^ 64 - 1, 2 ^ 64 - 1)) (mkCanon7 0 300 1 0 None (0, 0) 2) (repeat 0 80, 0%nat) = Some (Some (out, (mem', 34%nat))) /\
  canon7_read false (Some 1) (firstn 34 mem') = Some (firstn 34 mem', Some (out, 34%nat)).
Proof. eexists _, _. split; [vm_compute; reflexivity|]. vm_compute. reflexivity. Qed.

(** C46: updating a hop count in place succeeds exactly when the new data has the old length; it then is the new data, and
    the 19-byte temporary is always large enough. *)
Theorem C46_hop_count_in_place : forall j junk limit count d, j < 256 -> small64 (limit, count) -> length junk = 19%nat ->
  exists r, hop_reserialize (scan_any j) junk limit count d = Some r /\
    (forall d', r = Some d' <-> shortest_two (limit, count) d' /\ length d' = length d /\ d' = 130 :: cenc limit ++ cenc count) /\
    (forall n, ext7_size (scan_any j) (HopCount limit count) = Some n -> (r <> None <-> n = N.of_nat (length d))).
Proof.
  intros j junk limit count d J (A & B) LJ. cbn [fst snd] in A, B. unfold hop_reserialize.
  destruct junk as [|z r]; [discriminate|]. injection LJ as LJ. pose proof (csize_pos limit). pose proof (csize_pos count).
  unfold cbor_two_serialize. destruct (enc_then_ok 8 (cbor_encode_fast9 (scan_any j)) limit r (fun r1 => cbor_encode_fast9 (scan_any j) count r1) (good_fast9 j J) A ltac:(lia)) as (rest & LR & ->).
  destruct (encode_fast9_ok j count rest B J ltac:(lia)) as (jk & -> & LJK). cbn [option_map fst snd].
  assert (SZ : ext7_size (scan_any j) (HopCount limit count) = Some (N.of_nat (length (ctwo (limit, count))))) by exact (ctwo_size j J (limit, count) (conj A B)).
  assert (LT : length (ctwo (limit, count)) = (1 + csize limit + csize count)%nat) by (unfold ctwo; cbn [length fst snd]; rewrite app_length; reflexivity).
  destruct (N.eqb_spec (N.of_nat (length d)) (1 + (N.of_nat (csize limit) + N.of_nat (csize count)))) as [E|E].
  - eexists. split; [reflexivity|]. assert (EF : firstn (length d) (130 :: cenc limit ++ cenc count ++ jk ++ skipn 9 rest) = ctwo (limit, count)).
    { replace (130 :: cenc limit ++ cenc count ++ jk ++ skipn 9 rest) with (ctwo (limit, count) ++ jk ++ skipn 9 rest) by (unfold ctwo; cbn [app fst snd]; now rewrite <- app_assoc). apply firstn_exact. lia. }
    rewrite EF. split.
    + intros d'. split; [intros Q; injection Q as <-; split; [apply ctwo_shortest; now split|split; [lia|reflexivity]]|]. intros (_ & _ & ->). reflexivity.
    + intros n Q. rewrite SZ in Q. assert (Q2 : n = N.of_nat (length (ctwo (limit, count)))) by congruence. split; [intros _; lia|discriminate].
  - eexists. split; [reflexivity|]. split.
    + intros d'. split; [discriminate|]. intros (_ & L & ->). change (130 :: cenc limit ++ cenc count) with (ctwo (limit, count)) in L. lia.
    + intros n Q. rewrite SZ in Q. assert (Q2 : n = N.of_nat (length (ctwo (limit, count)))) by congruence. split; [congruence|]. lia.
Qed.
Print Assumptions C46_hop_count_in_place.
Example C46_hop_count_in_place_ex : hop_reserialize (scan_any 0) (repeat 0 19) 30 6 [130; 24; 30; 5] = Some (Some [130; 24; 30; 6]) /\
  hop_reserialize (scan_any 0) (repeat 0 19) 30 24 [130; 24; 30; 23] = Some None.
Proof. split; vm_compute; reflexivity. Qed.

(** C46: after the data of a block in memory changed, RecomputeCrcAfterDataModification makes its CRC right again and
    touches nothing else. *)
Theorem C46_recomputed_crc_is_right : forall hw ct old pre body field rest, Forall is_octet body -> ct <= 2 ->
  length field = length (zero_field ct) ->
  exists crcs field', recompute_crc hw ct (length pre) (length (pre ++ body ++ field)) old (pre ++ body ++ field ++ rest) = Some (if ct =? 0 then old else crcs, pre ++ body ++ field' ++ rest) /\
    crc_closing True ct crcs body field'.
Proof.
  intros hw ct old pre body field rest Hb CT LF. destruct (closing_exists ct body CT Hb) as (crcs & f & C). exists crcs, f. split; [|exact C].
  pose proof (closing_len _ _ _ _ _ C) as LC. destruct (N.eqb_spec ct 0) as [->|NZ].
  - inversion C; subst. destruct field; [reflexivity|discriminate].
  - apply recompute_ok; [exact CT|exact Hb|exact C|congruence| |exact NZ]. rewrite !app_length. lia.
Qed.
Print Assumptions C46_recomputed_crc_is_right.
Example C46_recomputed_crc_is_right_ex : exists c c1 c2,
  recompute_crc None 1 1 13 (0, 9) [5; 134; 10; 2; 1; 1; 67; 130; 5; 6; 66; 7; 7; 8] = Some ((0, c), [5; 134; 10; 2; 1; 1; 67; 130; 5; 6; 66; c1; c2; 8]).
Proof. eexists _, _, _. vm_compute. reflexivity. Qed.

(** C46: the authenticated part is the type, number and flags in shortest form; 27 bytes of memory always suffice. *)
Theorem C46_aad_part_is_exact : forall j c mem pos, j < 256 -> canon7_ok c -> (pos + 27 <= length mem)%nat ->
  exists b mem', shortest_items [c_type c; c_num c; c_flags c] b /\ canon7_aad_size (scan_any j) c = Some (N.of_nat (length b)) /\
    canon7_aad (scan_any j) c (mem, pos) = Some (mem', (pos + length b)%nat) /\ written_at mem pos b mem'.
Proof.
  intros j c mem pos J (H1 & H2 & H3 & H4) L. assert (H1' : c_type c < W64) by (unfold W64; lia).
  exists (cenc (c_type c) ++ cenc (c_num c) ++ cenc (c_flags c)).
  assert (W : wok (length mem) (mem, pos) (firstn pos mem)) by (unfold wok; cbn [fst snd]; rewrite firstn_length; repeat split; lia).
  pose proof (csize_pos (c_type c)) as L1. pose proof (csize_pos (c_num c)) as L2. pose proof (csize_pos (c_flags c)) as L3. unfold csize in L1, L2, L3.
  unfold canon7_aad. destruct (put9_writes j J _ H1' (length mem) (mem, pos) _ W) as (w1 & -> & W1); [rewrite firstn_length; lia|].
  destruct (put9_writes j J _ H2 (length mem) w1 _ W1) as (w2 & -> & W2); [rewrite app_length, firstn_length; lia|].
  destruct w2 as [m2 p2]. destruct (wok_split _ _ _ W2) as (rest & F1 & F2 & F3). cbn [fst snd] in F1, F2. rewrite !app_length, firstn_length in F2, F3.
  unfold put9, put. cbn [fst snd]. rewrite F1, F2.
  replace (Nat.min pos (length mem) + length (cenc (c_type c)) + length (cenc (c_num c)))%nat with (length ((firstn pos mem ++ cenc (c_type c)) ++ cenc (c_num c))) by (rewrite !app_length, firstn_length; lia).
  rewrite skipn_pref, firstn_pref.
  destruct (encode_fast9_ok j (c_flags c) rest H3 J ltac:(lia)) as (jk & -> & LJK). cbn [fst snd].
  eexists. split; [|split; [|split; [f_equal; f_equal; rewrite Nat2N.id, !app_length, firstn_length; unfold csize; lia|]]].
  - exists [cenc (c_type c); cenc (c_num c); cenc (c_flags c)]. cbn [concat]. rewrite app_nil_r. split; [reflexivity|]. repeat constructor; now apply cenc_shortest.
  - unfold canon7_aad_size. rewrite !num_bytes_ok by assumption. f_equal. rewrite !app_length. unfold csize. lia.
  - exists (jk ++ skipn 9 rest). split; [now rewrite <- !app_assoc|]. rewrite !app_length, firstn_length, skipn_length. unfold csize in *. lia.
Qed.
Print Assumptions C46_aad_part_is_exact.
Example C46_aad_part_is_exact_ex : exists mem', canon7_aad (scan_any 0) (mkCanon7 1 300 1 0 None (0, 0) 0) (repeat 7 27, 0%nat) = Some ([1; 25; 1; 44; 1] ++ mem', 5%nat).
Proof. eexists. vm_compute. reflexivity. Qed.

(** C46: damage confined to two (CRC-16) or four (CRC-32C) consecutive bytes before the CRC field, or to the CRC field
    itself, is never accepted as a block with the same kind of CRC. *)
Theorem C46_damage_is_rejected : forall hw b1 b2 c1 c2 n, Forall is_octet b1 -> Forall is_octet b2 ->
  canon7_read false hw b1 = Some (b1, Some (c1, n)) -> canon7_read false hw b2 = Some (b2, Some (c2, n)) ->
  c_crctype c1 = c_crctype c2 -> c_crctype c1 <> 0 ->
  let w := if c_crctype c1 =? 1 then 2%nat else 4%nat in
  let body b := firstn (n - (w + 1)) b in let crc b := skipn (n - (w + 1)) (firstn n b) in
  (crc b1 = crc b2 -> ~ differ_within w (body b1) (body b2)) /\ (body b1 = body b2 -> crc b1 = crc b2).
Proof.
  intros hw b1 b2 c1 c2 n H1 H2 R1 R2 CT NZ w body crc. unfold body, crc. clear body crc.
  destruct (C46_parse_is_exact false hw b1 H1) as (r1 & E1 & K1). rewrite R1 in E1. injection E1 as <-. destruct (proj1 (K1 c1 n) eq_refl) as (x1 & t1 & -> & N1 & F1).
  destruct (C46_parse_is_exact false hw b2 H2) as (r2 & E2 & K2). rewrite R2 in E2. injection E2 as <-. destruct (proj1 (K2 c2 n) eq_refl) as (x2 & t2 & -> & N2 & F2).
  apply (form_verified _ True) in F1; [|auto]. apply (form_verified _ True) in F2; [|auto].
  destruct F1 as (ty1 & nn1 & fl1 & tg1 & d1 & ds1 & f1 & body1 & B1 & -> & F1). destruct F2 as (ty2 & nn2 & fl2 & tg2 & d2 & ds2 & f2 & body2 & B2 & -> & F2).
  assert (C1 : crc_closing True (c_crctype c1) (c_crc c1) body1 f1) by apply F1. assert (C2 : crc_closing True (c_crctype c1) (c_crc c2) body2 f2) by (rewrite CT; apply F2). clear F1 F2 B1 B2 K1 K2 R1 R2.
  assert (Hb1 : Forall is_octet body1) by (apply Forall_app in H1; destruct H1 as (H1 & _); now apply Forall_app in H1).
  assert (Hb2 : Forall is_octet body2) by (apply Forall_app in H2; destruct H2 as (H2 & _); now apply Forall_app in H2).
  rewrite app_length in N1, N2. exact (closing_damage (c_crctype c1) (c_crc c1) (c_crc c2) body1 f1 t1 body2 f2 t2 n NZ Hb1 Hb2 C1 C2 N1 N2).
Qed.
Print Assumptions C46_damage_is_rejected.
Example C46_damage_is_rejected_ex : exists x y, let good := [134; 7; 2; 0; 1; 66; 24; 99; 66; x; y] in
  (exists c, canon7_read false None good = Some (good, Some (c, 11%nat))) /\ canon7_read false None [134; 7; 2; 0; 1; 66; 24; 98; 66; x; y] = Some ([134; 7; 2; 0; 1; 66; 24; 98; 66; x; y], None).
Proof.
  let c := eval vm_compute in (crc16_x25 [134; 7; 2; 0; 1; 66; 24; 99; 66; 0; 0]) in exists (c / 256), (c mod 256).
  cbv zeta. split; [eexists; vm_compute; reflexivity|vm_compute; reflexivity].
Qed.

(** ** What the code does not guarantee *)
(** C46: CBOR tag 24 takes the two bytes d8 18 (RFC 8949 section 3.4); the code takes a single d8 for it. So a tagged block is
    refused, and a byte string behind a lone d8, which is no CBOR, is accepted. *)
Theorem C46_tagged_data_is_accepted_refuted : exists bs untagged c n,
  canon7_read false None (firstn 5 bs ++ [0xd8; 0x18] ++ untagged) = Some (firstn 5 bs ++ [0xd8; 0x18] ++ untagged, None) /\
  canon7_read false None (firstn 5 bs ++ [0xd8] ++ untagged) = Some (firstn 5 bs ++ [0xd8] ++ untagged, Some (c, S n)) /\
  canon7_read false None (firstn 5 bs ++ untagged) = Some (firstn 5 bs ++ untagged, Some (c, n)).
Proof. exists [133; 7; 2; 0; 0], [66; 24; 99]. eexists _, _. split; [vm_compute; reflexivity|]. split; vm_compute; reflexivity. Qed.
Print Assumptions C46_tagged_data_is_accepted_refuted.
(** C46: for a CRC type the code does not know, writing fails although a size is announced. *)
Theorem C46_every_block_is_written_refuted : exists c n, canon7_ok c /\ canon7_size (scan_any 0) c (c_len c) = Some n /\ canon7_write (scan_any 0) None c (repeat 0 50, 0%nat) = Some None.
Proof. exists (mkCanon7 7 2 0 1 (Some [5]) (0, 0) 3), 7. unfold canon7_ok. cbn. repeat split; vm_compute; reflexivity. Qed.
Print Assumptions C46_every_block_is_written_refuted.
