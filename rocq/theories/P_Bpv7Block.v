(** C45: the BPv7 primary block, endpoint ids and creation timestamps on the wire. *)
From Coq Require Import NArith ZArith List Bool Lia ZifyBool ZifyN.
From Verif Require Import Base M_SegmentAlloc M_Intrin M_Sdnv M_Cbor M_Bpv6Block M_Bpv7Crc M_Bpv7Block S_Sdnv S_Cbor S_Bpv7Crc S_Bpv7 L_Intrin L_Cbor P_Cbor L_Bpv7Crc P_Bpv7Crc L_Bpv6Read L_Bpv6Write L_Bpv7Read L_Bpv7Write.
Import ListNotations.
Open Scope N_scope.

(** C45: the endpoint id reader accepts exactly the encodings of endpoint ids, wherever they end, and never leaves the buffer. *)
Theorem C45_endpoint_parse_is_exact : forall bs, Forall is_octet bs ->
  exists r, eid7_read bs = Some r /\ forall e rest, r = Some (e, rest) <-> exists b, bs = b ++ rest /\ eid7_form e b.
Proof.
  intros bs Hb. destruct (proj2 eid7_reads bs Hb) as (r & E & K). exists r. split; [exact E|]. intros e rest. split.
  - intros ->. destruct (K e rest eq_refl) as (b & -> & F). eauto.
  - intros (b & -> & F). rewrite (proj1 eid7_reads e b rest F Hb) in E. congruence.
Qed.
Print Assumptions C45_endpoint_parse_is_exact.
Example C45_endpoint_parse_is_exact_ex : eid7_read [130; 2; 130; 24; 100; 7; 99] = Some (Some ((100, 7), [99])) /\
  eid7_read [159; 2; 159; 24; 100; 7; 255; 255; 99] = Some (Some ((100, 7), [99])) /\ eid7_read [130; 1; 0] = Some (Some ((0, 0), [])) /\
  eid7_read [130; 1; 1] = Some None /\ eid7_read [130; 2; 131; 1; 2; 3] = Some None.
Proof. repeat split; vm_compute; reflexivity. Qed.

(** C45: both endpoint id writers produce the shortest form, of the size announced; the one given the buffer size stays
    inside every buffer. *)
Theorem C45_endpoint_write_is_exact : forall j e mem pos, j < 256 -> small64 e -> (pos <= length mem)%nat ->
  exists b, eid7_written e b /\ eid7_size (scan_any j) e = Some (N.of_nat (length b)) /\
    ((pos + length b + 8 <= length mem)%nat -> exists mem', eid7_put (scan_any j) e (mem, pos) = Some (mem', (pos + length b)%nat) /\ written_at mem pos b mem') /\
    ((pos + length b <= length mem)%nat -> exists mem', eid7_put_checked (scan_any j) e (mem, pos) = Some (mem', (pos + length b)%nat) /\ written_at mem pos b mem') /\
    exists mem' pos', eid7_put_checked (scan_any j) e (mem, pos) = Some (mem', pos') /\ length mem' = length mem /\ (pos' <= length mem)%nat.
Proof.
  intros j e mem pos J S LP. exists (ceid e). split; [now apply ceid_written|]. split; [now apply ceid_size|].
  assert (W : wok (length mem) (mem, pos) (firstn pos mem)) by (unfold wok; cbn [fst snd]; rewrite firstn_length; repeat split; lia).
  assert (G : forall f x, writes f (ceid e) x -> (pos + length (ceid e) + x <= length mem)%nat -> exists mem', f (mem, pos) = Some (mem', (pos + length (ceid e))%nat) /\ written_at mem pos (ceid e) mem').
  { intros f x Wf L. destruct (Wf (length mem) (mem, pos) _ W) as ([m' p'] & E & W'); [rewrite firstn_length; lia|].
    destruct (wok_split _ _ _ W') as (rest & E1 & E2 & E3). cbn [fst snd] in *. rewrite app_length, firstn_length in *. exists m'. split.
    - rewrite E. f_equal. f_equal. lia.
    - exists rest. rewrite E1, <- app_assoc. split; [reflexivity|]. rewrite !app_length, firstn_length. lia. }
  split; [intros L; exact (G _ 8%nat (eid7_writes j J e S) L)|]. split; [intros L; apply (G _ 0%nat (eid7_checked_writes j J e S)); lia|].
  unfold eid7_put_checked, room. cbn [fst snd]. destruct (Nat.ltb_spec (length mem - pos) 3) as [L|L]; [eauto|].
  destruct (put_bytes_writes [130] (length mem) (mem, pos) _ W) as (w1 & -> & W1); [rewrite firstn_length; cbn [length]; lia|].
  destruct (fst e =? 0).
  - destruct (put_bytes_writes [1; 0] (length mem) w1 _ W1) as (w2 & -> & W2); [rewrite app_length, firstn_length; cbn [length]; lia|].
    destruct w2 as [m2 p2]. exists m2, p2. split; [reflexivity|]. destruct W2 as (A & B & C). cbn [fst snd] in *. rewrite !app_length, firstn_length in B. cbn [length] in B. lia.
  - destruct (put_bytes_writes [2] (length mem) w1 _ W1) as (w2 & -> & W2); [rewrite app_length, firstn_length; cbn [length]; lia|].
    destruct (wok_split _ _ _ W2) as (rest & E1 & E2 & E3). unfold put. rewrite E2, E1, skipn_pref, firstn_pref.
    destruct (C35_two_serialize_memory_safe j (fst e) (snd e) rest J (proj1 S) (proj2 S)) as (n & out & -> & LO & LN). cbn [fst snd].
    eexists _, _. split; [reflexivity|]. rewrite app_length. lia.
Qed.
Print Assumptions C45_endpoint_write_is_exact.
Example C45_endpoint_write_is_exact_ex : eid7_put (scan_any 3) (100, 7) (repeat 9 15, 1%nat) = Some (9 :: [130; 2; 130; 24; 100; 7] ++ [0;0;0;0;0;0;0;7], 7%nat) /\
  eid7_put_checked (scan_any 3) (100, 7) (repeat 9 7, 1%nat) = Some (9 :: [130; 2; 130; 24; 100; 7], 7%nat) /\
  eid7_put_checked (scan_any 3) (100, 7) (repeat 9 3, 1%nat) = Some (repeat 9 3, 1%nat).
Proof. repeat split; vm_compute; reflexivity. Qed.

(** C45: DeserializeBpv7 accepts exactly the primary blocks of RFC 9171 (as stated in primary7_form), delivers their
    fields and length, leaves the buffer as it was and never leaves it. *)
Theorem C45_parse_is_exact : forall hw old bs, Forall is_octet bs ->
  exists r, prim7_read hw old bs = Some (bs, r) /\
    forall p n, r = Some (p, n) <-> exists b rest, bs = b ++ rest /\ n = length b /\ primary7_form (q_off old, q_total old) p b.
Proof.
  intros hw old bs Hb. destruct (read_crc (prim7_fields old) (prim7_head old) false hw q_crctype with_crc7 bs (prim7_fields_reads old) Hb) as (r & E & K).
  exists r. split; [exact E|]. intros p n. rewrite K. clear E K. split.
  - intros (q & body & crc & rest & cc & -> & -> & (fl & tl & -> & F & (d & s & r0 & t & l & fr & -> & T1 & T2 & T3 & T4 & T5 & T6 & _ & _ & _)) & C & ->).
    eexists _, rest. split; [apply app_assoc|]. split; [symmetry; apply app_length|].
    exists fl, d, s, r0, t, l, fr, crc. eexists. cbn [with_crc7 q_flags q_dest q_src q_report q_stamp q_life q_off q_total q_crc q_crctype] in *.
    split; [reflexivity|]. split; [reflexivity|]. repeat (split; [assumption|]). inversion C; subst; constructor; auto.
  - intros (b & rest & -> & -> & (fl & d & s & r0 & t & l & fr & crc & body & -> & -> & F & T1 & T2 & T3 & T4 & T5 & T6 & C)).
    exists (with_crc7 p (q_crc old)). eexists _, crc, rest, (q_crc p). split; [rewrite <- app_assoc; reflexivity|]. split; [apply app_length|].
    cbn [with_crc7 q_flags q_dest q_src q_report q_stamp q_life q_off q_total q_crc q_crctype] in *. split.
    + exists fl. eexists. cbn [q_flags q_crctype]. split; [reflexivity|]. split; [exact F|]. exists d, s, r0, t, l, fr. cbn [q_flags q_dest q_src q_report q_stamp q_life q_off q_total q_crc q_crctype]. auto 12.
    + split; [|destruct p; reflexivity]. inversion C; subst; constructor; auto.
Qed.
Print Assumptions C45_parse_is_exact.
Definition blank7 : prim7 := mkPrim7 0 (0, 0) (0, 0) (0, 0) (0, 0) 0 77 88 (0, 0) 0.
Definition sample7 : prim7 := mkPrim7 4 (2, 1) (1, 1) (0, 0) (700000000000, 5) 86400000 0 0 (0, 0) 1.
Definition sample7_bytes : list N :=
  [137; 7; 4; 1; 130; 2; 130; 2; 1; 130; 2; 130; 1; 1; 130; 1; 0; 130; 27; 0; 0; 0; 162; 251; 64; 88; 0; 5; 26; 5; 38; 92; 0].
Example C45_parse_is_exact_ex : exists c1 c2 c, prim7_read None blank7 (sample7_bytes ++ [66; c1; c2; 1; 2]) =
    Some (sample7_bytes ++ [66; c1; c2; 1; 2], Some (mkPrim7 4 (2, 1) (1, 1) (0, 0) (700000000000, 5) 86400000 77 88 (0, c) 1, 36%nat)) /\
  prim7_read None blank7 (sample7_bytes ++ [66; c1; (c2 + 1) mod 256; 1; 2]) = Some (sample7_bytes ++ [66; c1; (c2 + 1) mod 256; 1; 2], None).
Proof.
  let c := eval vm_compute in (crc16_x25 (sample7_bytes ++ [66; 0; 0])) in exists (c / 256), (c mod 256), c.
  split; vm_compute; reflexivity.
Qed.

(** C45: SerializeBpv7 writes the block in shortest form with its CRC, of exactly GetSerializationSize bytes, given eight
    spare bytes of memory. *)
Theorem C45_write_is_exact : forall j hw p mem pos, j < 256 -> prim7_ok p -> q_crctype p <= 2 ->
  exists body crc crcs, primary7_written p body /\ crc_closing True (q_crctype p) crcs body crc /\
    prim7_size (scan_any j) p = Some (N.of_nat (length (body ++ crc))) /\
    ((pos + length (body ++ crc) + 8 <= length mem)%nat -> exists mem',
       prim7_write (scan_any j) hw p (mem, pos) = Some (Some (with_crc7 p crcs, (mem', (pos + length (body ++ crc))%nat))) /\
       written_at mem pos (body ++ crc) mem').
Proof.
  intros j hw p mem pos J OK CT. pose proof (cprim_octets p OK) as Hb. destruct (closing_exists (q_crctype p) (cprim p) CT Hb) as (crcs & crc & C).
  exists (cprim p), crc, crcs. split; [now apply cprim_written|]. split; [exact C|]. split.
  - destruct OK as (H1 & H2 & H3 & H4 & H5 & H6 & H7 & H8 & H9). unfold prim7_size. rewrite !num_bytes_ok, !ceid_size, ctwo_size by assumption.
    rewrite isfrag_bit. assert (SZ : crc_size (q_crctype p) = Some (N.of_nat (length crc))).
    { rewrite (closing_len _ _ _ _ _ C). assert (q_crctype p = 0 \/ q_crctype p = 1 \/ q_crctype p = 2) as [-> | [-> | ->]] by lia; reflexivity. }
    rewrite SZ. f_equal. unfold cprim. rewrite !app_length. cbn [length]. unfold csize. destruct (is_fragment (q_flags p)); cbn [N.b2n length]; rewrite ?app_length; cbn [length]; lia.
  - intros L. assert (W : wok (length mem) (mem, pos) (firstn pos mem)) by (unfold wok; cbn [fst snd]; rewrite firstn_length; repeat split; lia).
    rewrite app_length in L. destruct (prim7_body_writes j J p OK (length mem) (mem, pos) _ W) as (w1 & E1 & W1); [rewrite firstn_length; lia|].
    unfold prim7_write. rewrite E1. cbn [fst snd]. pose proof (closing_len _ _ _ _ _ C) as LC.
    destruct (crc_put_ok hw (q_crctype p) true (firstn pos mem) (cprim p) (q_crc p) (length mem) w1 CT (fun _ => Hb) W1) as (cc & f & w2 & E2 & W2 & LF & C2); [rewrite app_length, firstn_length; lia|].
    replace (length (firstn pos mem)) with pos in E2 by (rewrite firstn_length; lia). rewrite E2. cbn [bind2]. destruct (closing_det _ _ _ _ _ _ Hb C C2) as (<- & <-).
    destruct (wok_split _ _ _ W2) as (rest & F1 & F2 & F3). destruct w2 as [m2 p2]. cbn [fst snd] in *. exists m2. rewrite !app_length, firstn_length in *. split.
    + f_equal. f_equal. f_equal. f_equal. lia.
    + exists rest. rewrite F1, <- app_assoc. split; [reflexivity|]. rewrite !app_length, firstn_length. lia.
Qed.
Print Assumptions C45_write_is_exact.
Example C45_write_is_exact_ex : exists c1 c2 c, prim7_write (scan_any 1) (Some 5) sample7 (repeat 0 50, 2%nat) =
    Some (Some (with_crc7 sample7 (0, c), ([0; 0] ++ sample7_bytes ++ [66; c1; c2] ++ repeat 0 12, 38%nat))) /\ prim7_size (scan_any 1) sample7 = Some 36.
Proof.
  let c := eval vm_compute in (crc16_x25 (sample7_bytes ++ [66; 0; 0])) in exists (c / 256), (c mod 256), c.
  split; vm_compute; reflexivity.
Qed.

(** C45: what is written is read back as meant: every member, with all services of node 0 read as dtn:none, the fragment
    fields of a non-fragment left as they were in the reading object, and the same CRC. *)
Theorem C45_written_blocks_read_back : forall j hw hw' p old mem pos q mem' e rest, j < 256 -> prim7_ok p -> q_crctype p <= 2 ->
  prim7_write (scan_any j) hw p (mem, pos) = Some (Some (q, (mem', e))) ->
  (forall n, prim7_size (scan_any j) p = Some n -> (pos + N.to_nat n + 8 <= length mem)%nat) -> Forall is_octet rest ->
  let bs := firstn (e - pos) (skipn pos mem') ++ rest in
  q = with_crc7 p (q_crc q) /\ prim7_read hw' old bs = Some (bs, Some (prim7_meant (q_off old, q_total old) p (q_crc q), (e - pos)%nat)).
Proof.
  intros j hw hw' p old mem pos q mem' e rest J OK CT WR SZ HR. destruct (C45_write_is_exact j hw p mem pos J OK CT) as (body & crc & crcs & PW & C & S & K).
  specialize (SZ _ S). rewrite Nat2N.id in SZ. destruct (K SZ) as (m & E & (junk & EM & LM)). rewrite WR in E. injection E as -> -> ->.
  replace (q_crc (with_crc7 p crcs)) with crcs by reflexivity. split; [reflexivity|]. cbv zeta.
  replace (pos + length (body ++ crc) - pos)%nat with (length (body ++ crc)) by lia.
  assert (EB : firstn (length (body ++ crc)) (skipn pos m) = body ++ crc).
  { rewrite EM. rewrite skipn_exact by (rewrite firstn_length; lia). apply firstn_pref. }
  rewrite EB. assert (F : primary7_form (q_off old, q_total old) (prim7_meant (q_off old, q_total old) p crcs) (body ++ crc) /\ Forall is_octet body).
  { destruct PW as (fl & d & s & r & t & l & fr & -> & W1 & W2 & W3 & W4 & W5 & W6 & W7). destruct OK as (H1 & H2 & H3 & H4 & H5 & H6 & H7 & H8 & H9).
    assert (EF : forall x y, small64 x -> eid7_written x y -> eid7_form (eid_meant x) y).
    { intros x y SX WX. unfold eid7_written, eid_meant in *. destruct (fst x =? 0).
      - subst y. exists [1; 0]. split; [left; reflexivity|]. left. auto.
      - destruct WX as (z & (w & (ps & -> & F2) & ->) & ->). exists (2 :: 130 :: concat ps). split; [left; reflexivity|]. right. exists (130 :: concat ps). split; [reflexivity|].
        exists (concat ps). split; [|left; reflexivity]. inversion F2 as [|? p1 ? ? X1 F3]; subst. inversion F3 as [|? p2 ? ? X2 F4]; subst. inversion F4; subst.
        apply items_two. exists p1, p2. cbn [concat]. rewrite app_nil_r. split; [reflexivity|]. split; [apply X1|apply X2]. }
    assert (IT : forall a b w, shortest_items [a; b] w -> cbor_items [a; b] w).
    { intros a b w (ps & -> & F2). inversion F2 as [|? p1 ? ? X1 F3]; subst. inversion F3 as [|? p2 ? ? X2 F4]; subst. inversion F4; subst.
      apply items_two. exists p1, p2. cbn [concat]. rewrite app_nil_r. split; [reflexivity|]. split; [apply X1|apply X2]. }
    split.
    - exists fl, d, s, r, t, l, fr, crc. eexists. cbn [prim7_meant q_flags q_dest q_src q_report q_stamp q_life q_off q_total q_crc q_crctype].
      split; [reflexivity|]. split; [reflexivity|]. split; [apply W1|]. split; [now apply EF|]. split; [now apply EF|]. split; [now apply EF|].
      split. { destruct W5 as (w & IW & ->). exists w. split; [now apply IT|left; reflexivity]. } split; [apply W6|]. split; [|exact C].
      destruct (is_fragment (q_flags p)); [now apply IT|]. auto.
    - assert (UO : forall v b, cbor_uint v b -> Forall is_octet b) by (intros v b H; apply (uint_bound _ _ H)).
      assert (IO : forall a b w, shortest_items [a; b] w -> Forall is_octet w).
      { intros a b w H. apply IT, items_two in H. destruct H as (p1 & p2 & -> & X1 & X2). apply Forall_app. split; eapply UO; eassumption. }
      assert (EO : forall x y, eid7_written x y -> Forall is_octet y).
      { intros x y WX. unfold eid7_written in WX. destruct (fst x =? 0); [subst; repeat constructor|]. destruct WX as (z & (w & IW & ->) & ->).
        do 3 (constructor; [unfold is_octet; lia|]). exact (IO _ _ _ IW). }
      repeat (apply Forall_app; split); try (now apply (EO _ _ W2)); try (now apply (EO _ _ W3)); try (now apply (EO _ _ W4)).
      + pose proof (array7_range (q_crctype p) (q_flags p)) as AR. unfold array7 in AR. repeat constructor; unfold is_octet; lia.
      + exact (UO _ _ (proj1 W1)).
      + repeat constructor. exact H9.
      + destruct W5 as (w & IW & ->). constructor; [unfold is_octet; lia|exact (IO _ _ _ IW)].
      + exact (UO _ _ (proj1 W6)).
      + destruct (is_fragment (q_flags p)); [exact (IO _ _ _ W7)|subst; constructor]. }
  destruct F as (F & OB). assert (Hb : Forall is_octet ((body ++ crc) ++ rest)).
  { apply Forall_app. split; [apply Forall_app; split; [exact OB|exact (closing_octets _ _ _ _ _ C)]|exact HR]. }
  destruct (C45_parse_is_exact hw' old _ Hb) as (r & -> & K2). do 2 f_equal. apply K2. eauto.
Qed.
Print Assumptions C45_written_blocks_read_back.
Example C45_written_blocks_read_back_ex : exists q mem', prim7_write (scan_any 1) None (mkPrim7 1 (2, 1) (1, 1) (0, 0) (7, 5) 300 1000 5000 (0, 0) 2) (repeat 0 60, 2%nat) = Some (Some (q, (mem', 36%nat))) /\
  prim7_read (Some 3) blank7 (firstn 34 (skipn 2 mem')) = Some (firstn 34 (skipn 2 mem'), Some (mkPrim7 1 (2, 1) (1, 1) (0, 0) (7, 5) 300 1000 5000 (q_crc q) 2, 34%nat)).
Proof.
  eexists _, _. split; [vm_compute; reflexivity|]. vm_compute. reflexivity.
Qed.

(** C45: damage confined to two (CRC-16) or four (CRC-32C) consecutive bytes before the CRC field, or to the CRC field
    itself, is never accepted as a block with the same kind of CRC. *)
Theorem C45_damage_is_rejected : forall hw old b1 b2 p1 p2 n, Forall is_octet b1 -> Forall is_octet b2 ->
  prim7_read hw old b1 = Some (b1, Some (p1, n)) -> prim7_read hw old b2 = Some (b2, Some (p2, n)) ->
  q_crctype p1 = q_crctype p2 -> q_crctype p1 <> 0 ->
  let w := if q_crctype p1 =? 1 then 2%nat else 4%nat in
  let body b := firstn (n - (w + 1)) b in let crc b := skipn (n - (w + 1)) (firstn n b) in
  (crc b1 = crc b2 -> ~ differ_within w (body b1) (body b2)) /\ (body b1 = body b2 -> crc b1 = crc b2).
Proof.
  intros hw old b1 b2 p1 p2 n H1 H2 R1 R2 CT NZ w body crc. unfold body, crc. clear body crc.
  destruct (C45_parse_is_exact hw old b1 H1) as (r1 & E1 & K1). rewrite R1 in E1. injection E1 as <-. destruct (proj1 (K1 p1 n) eq_refl) as (c1 & t1 & -> & N1 & F1).
  destruct (C45_parse_is_exact hw old b2 H2) as (r2 & E2 & K2). rewrite R2 in E2. injection E2 as <-. destruct (proj1 (K2 p2 n) eq_refl) as (c2 & t2 & -> & N2 & F2).
  destruct F1 as (fl1 & d1 & s1 & r1 & x1 & l1 & fr1 & f1 & body1 & B1 & -> & F1). destruct F2 as (fl2 & d2 & s2 & r2 & x2 & l2 & fr2 & f2 & body2 & B2 & -> & F2).
  assert (C1 : crc_closing True (q_crctype p1) (q_crc p1) body1 f1) by apply F1. assert (C2 : crc_closing True (q_crctype p1) (q_crc p2) body2 f2) by (rewrite CT; apply F2). clear F1 F2 B1 B2 K1 K2 R1 R2.
  assert (Hb1 : Forall is_octet body1) by (apply Forall_app in H1; destruct H1 as (H1 & _); now apply Forall_app in H1).
  assert (Hb2 : Forall is_octet body2) by (apply Forall_app in H2; destruct H2 as (H2 & _); now apply Forall_app in H2).
  rewrite app_length in N1, N2. exact (closing_damage (q_crctype p1) (q_crc p1) (q_crc p2) body1 f1 t1 body2 f2 t2 n NZ Hb1 Hb2 C1 C2 N1 N2).
Qed.
Print Assumptions C45_damage_is_rejected.
(** A damaged service number in the destination of the sample block. *)
Example C45_damage_is_rejected_ex : exists c1 c2, let good := sample7_bytes ++ [66; c1; c2] in let bad := firstn 8 good ++ [9] ++ skipn 9 good in
  (exists p, prim7_read None blank7 good = Some (good, Some (p, 36%nat))) /\ differ_within 2 (firstn 33 good) (firstn 33 bad) /\ prim7_read None blank7 bad = Some (bad, None).
Proof.
  let c := eval vm_compute in (crc16_x25 (sample7_bytes ++ [66; 0; 0])) in exists (c / 256), (c mod 256).
  cbv zeta. split; [eexists; vm_compute; reflexivity|]. split; [|vm_compute; reflexivity].
  exists (firstn 8 sample7_bytes), [1], [9], (skipn 9 sample7_bytes). repeat split; try (vm_compute; reflexivity); [cbn; lia|discriminate].
Qed.

(** C45: unless the sum exceeds 64 bits, expiration is creation time plus lifetime, rounded down in the seconds scale. *)
Theorem C45_expiration_is_creation_plus_lifetime : forall p, fst (q_stamp p) + q_life p < 2 ^ 64 ->
  prim7_expiration_ms p = fst (q_stamp p) + q_life p /\
  1000 * prim7_expiration_s p <= fst (q_stamp p) + q_life p < 1000 * prim7_expiration_s p + 1000.
Proof.
  intros p L. unfold prim7_expiration_ms, prim7_expiration_s. change W64 with (2 ^ 64). rewrite (N.mod_small _ _ L). split; [reflexivity|].
  pose proof (N.div_mod (fst (q_stamp p) + q_life p) 1000 ltac:(lia)). pose proof (N.mod_lt (fst (q_stamp p) + q_life p) 1000 ltac:(lia)). lia.
Qed.
Print Assumptions C45_expiration_is_creation_plus_lifetime.
Example C45_expiration_ex : prim7_expiration_ms sample7 = 700086400000 /\ prim7_expiration_s sample7 = 700086400.
Proof. split; vm_compute; reflexivity. Qed.

(** C45: together with the creation second, the sequence number of the seconds scale orders bundles exactly like
    (creation time in ms, sequence number), as long as sequence numbers stay below 2^50. *)
Theorem C45_seconds_scale_keeps_the_order : forall p q, snd (q_stamp p) < 2 ^ 50 -> snd (q_stamp q) < 2 ^ 50 ->
  fst (q_stamp p) / 1000 = fst (q_stamp q) / 1000 ->
  (prim7_seq_s p < prim7_seq_s q <->
     fst (q_stamp p) < fst (q_stamp q) \/ (fst (q_stamp p) = fst (q_stamp q) /\ snd (q_stamp p) < snd (q_stamp q))) /\
  (prim7_seq_s p = prim7_seq_s q <-> q_stamp p = q_stamp q).
Proof.
  intros p q A B S.
  assert (V : forall x, snd (q_stamp x) < 2 ^ 50 -> prim7_seq_s x = fst (q_stamp x) mod 1000 * 2 ^ 50 + snd (q_stamp x)).
  { intros x H. unfold prim7_seq_s. rewrite shiftl_mul. pose proof (N.mod_lt (fst (q_stamp x)) 1000 ltac:(lia)). rewrite N.mod_small.
    - now apply lor_low.
    - apply N.lt_trans with (1000 * 2 ^ 50); [apply N.mul_lt_mono_pos_r; [reflexivity|assumption]|reflexivity]. }
  rewrite (V p A), (V q B). pose proof (N.div_mod (fst (q_stamp p)) 1000 ltac:(lia)) as D1. pose proof (N.div_mod (fst (q_stamp q)) 1000 ltac:(lia)) as D2. rewrite S in D1.
  destruct (q_stamp p) as [a b], (q_stamp q) as [c d]. cbn [fst snd] in *. set (x := a mod 1000) in *. set (y := c mod 1000) in *. set (k := c / 1000) in *. clearbody x y k.
  change (2 ^ 50) with 1125899906842624 in *. split.
  - lia.
  - split; [|intros E; injection E as -> ->; lia]. intros E. assert (x = y /\ b = d) as (-> & ->) by lia. f_equal. lia.
Qed.
Print Assumptions C45_seconds_scale_keeps_the_order.
Example C45_seconds_scale_ex : let at_ ms seq := mkPrim7 0 (1, 1) (1, 1) (0, 0) (ms, seq) 9 0 0 (0, 0) 0 in
  prim7_seq_s (at_ 5001 7) = 2 ^ 50 + 7 /\ prim7_seq_s (at_ 5001 7) < prim7_seq_s (at_ 5002 3) /\ prim7_seq_ms (at_ 5001 7) = 7.
Proof. cbv zeta. repeat split; vm_compute; reflexivity. Qed.

(** ** What the code does not guarantee *)
(** C45: the services of node 0 are not kept: ipn:0.5 is written as dtn:none. *)
Theorem C45_endpoints_survive_refuted : exists e b, small64 e /\ eid7_put (scan_any 0) e (repeat 0 20, 0%nat) = Some (b ++ repeat 0 17, 3%nat) /\
  eid7_read b = Some (Some ((0, 0), [])) /\ e <> (0, 0).
Proof. exists (0, 5), [130; 1; 0]. repeat split; try (vm_compute; reflexivity). discriminate. Qed.
Print Assumptions C45_endpoints_survive_refuted.
(** C45: a reused object keeps the fragment offset and length of the fragment it held before. *)
Theorem C45_members_come_from_the_bytes_refuted : exists bs old old' p p' n, prim7_read None old bs = Some (bs, Some (p, n)) /\
  prim7_read None old' bs = Some (bs, Some (p', n)) /\ q_off p <> q_off p'.
Proof.
  exists (firstn 3 [136; 7; 4] ++ [0] ++ skipn 4 sample7_bytes), blank7, sample7. eexists _, _, _.
  split; [vm_compute; reflexivity|]. split; [vm_compute; reflexivity|discriminate].
Qed.
Print Assumptions C45_members_come_from_the_bytes_refuted.
(** C45: a huge lifetime ("never expires") wraps around: the bundle has already expired. *)
Theorem C45_expiration_is_after_creation_refuted : exists p, prim7_ok p /\ prim7_expiration_ms p < fst (q_stamp p) /\ 0 < q_life p.
Proof.
  exists (mkPrim7 0 (1, 1) (2, 2) (0, 0) (700000000000, 0) (2 ^ 64 - 1) 0 0 (0, 0) 0). split; [|split; vm_compute; reflexivity].
  unfold prim7_ok, small64. cbn. repeat split; vm_compute; reflexivity.
Qed.
Print Assumptions C45_expiration_is_after_creation_refuted.
(** C45: sequence numbers from 2^50 on collide in the seconds scale: two bundles of one second, one identity. *)
Theorem C45_seconds_scale_is_injective_refuted : exists p q, prim7_ok p /\ prim7_ok q /\ q_stamp p <> q_stamp q /\
  fst (q_stamp p) / 1000 = fst (q_stamp q) / 1000 /\ prim7_seq_s p = prim7_seq_s q.
Proof.
  exists (mkPrim7 0 (1, 1) (2, 2) (0, 0) (5001, 0) 9 0 0 (0, 0) 0), (mkPrim7 0 (1, 1) (2, 2) (0, 0) (5000, 2 ^ 50) 9 0 0 (0, 0) 0).
  unfold prim7_ok, small64. cbn. repeat split; try (vm_compute; reflexivity). discriminate.
Qed.
Print Assumptions C45_seconds_scale_is_injective_refuted.
(** C45: the constant largestSerializedPrimarySize (120) is less than the size of the largest block, which is 126. *)
Theorem C45_largest_size_is_enough_refuted : exists p n, prim7_ok p /\ q_crctype p <= 2 /\ prim7_size (scan_any 0) p = Some n /\ largestSerializedPrimarySize < n.
Proof.
  exists (let m := 2 ^ 64 - 1 in mkPrim7 m (m, m) (m, m) (m, m) (m, m) m m m (0, 0) 2), 126. cbv zeta.
  unfold prim7_ok, small64. cbn. repeat split; try (vm_compute; reflexivity). discriminate.
Qed.
Print Assumptions C45_largest_size_is_enough_refuted.
(** C45: for a CRC type the code does not know, writing fails although a size is announced. *)
Theorem C45_every_block_is_written_refuted : exists p n, prim7_ok p /\ prim7_size (scan_any 0) p = Some n /\ 0 < n /\ prim7_write (scan_any 0) None p (repeat 0 100, 0%nat) = Some None.
Proof.
  exists (mkPrim7 0 (1, 1) (2, 2) (0, 0) (5001, 0) 9 0 0 (0, 0) 3), 23. unfold prim7_ok, small64. cbn. repeat split; vm_compute; reflexivity.
Qed.
Print Assumptions C45_every_block_is_written_refuted.
