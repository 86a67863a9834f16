(** Lemmas for C45-C48: the readers of the BPv7 codecs accept exactly the byte forms of S_Bpv7. *)
From Coq Require Import NArith ZArith List Bool Lia ZifyBool ZifyN.
From Verif Require Import Base M_SegmentAlloc M_Intrin M_Sdnv M_Cbor M_Bpv6Block M_Bpv7Crc M_Bpv7Block S_Sdnv S_Cbor S_Bpv7Crc S_Bpv7 L_Intrin L_Cbor P_Cbor L_Bpv7Crc P_Bpv7Crc L_Bpv6Read.
Import ListNotations.
Open Scope N_scope.

Lemma skipn_pref {A : Type} (p r : list A) : skipn (length p) (p ++ r) = r.
Proof. now apply skipn_exact. Qed.
Lemma firstn_pref {A : Type} (p r : list A) : firstn (length p) (p ++ r) = p.
Proof. now apply firstn_exact. Qed.
Lemma octets_app a b : Forall is_byte (a ++ b) -> Forall is_byte a /\ Forall is_byte b.
Proof. apply Forall_app. Qed.

Lemma decode_uint v p rest : cbor_uint v p -> Forall is_byte rest -> cbor_decode (p ++ rest) = Some (v, N.of_nat (length p)).
Proof.
  intros H Hr. assert (Hb : Forall is_octet (p ++ rest)) by (apply Forall_app; split; [apply (uint_bound _ _ H)|exact Hr]).
  destruct (C13_decode_meets_specification _ Hb) as (r & -> & _ & F). f_equal. symmetry. apply F. now apply (CborOk _ v p rest).
Qed.
Lemma rd_uint_reads : reads rd_uint cbor_uint.
Proof.
  split.
  - intros v p rest H Hb. unfold rd_uint. rewrite (decode_uint v p rest H) by apply (octets_app _ _ Hb). cbn [fst snd].
    pose proof (uint_bound _ _ H) as (_ & _ & _ & L). destruct (N.eqb_spec (N.of_nat (length p)) 0); [lia|]. now rewrite Nat2N.id, skipn_pref.
  - intros bs Hb. unfold rd_uint. destruct (decode_cases bs Hb) as (v & k & -> & [(-> & _)|(p & rest & -> & H & -> & NZ & SK)]); cbn [fst snd].
    + exists None. split; [reflexivity|discriminate].
    + destruct (N.eqb_spec (N.of_nat (length p)) 0); [congruence|]. eexists. split; [reflexivity|]. intros x r E. injection E as <- <-.
      exists p. rewrite SK. auto.
Qed.
Lemma rd_two_reads : reads rd_two two_form.
Proof.
  split.
  - intros [a b] p rest (q & HI & HP) Hb. unfold rd_two. destruct (C35_two_deserialize_exact _ Hb) as (r & -> & K).
    assert (E : r = Some (a, b, N.of_nat (length p))). { apply K. exists p, q, rest. auto. }
    rewrite E, Nat2N.id, skipn_pref. reflexivity.
  - intros bs Hb. unfold rd_two. destruct (C35_two_deserialize_exact _ Hb) as (r & -> & K). destruct r as [[[a b] k]|].
    + eexists. split; [reflexivity|]. intros x rest E. injection E as <- <-. destruct (proj1 (K a b k) eq_refl) as (p & q & rest & -> & -> & HI & HP).
      exists p. rewrite Nat2N.id, skipn_pref. split; [reflexivity|]. exists q. auto.
    + exists None. split; [reflexivity|discriminate].
Qed.
Lemma two_form_len t p : two_form t p -> (3 <= length p)%nat.
Proof.
  intros (q & HI & HP). inversion HI as [|v vs p1 q1 H1 HI1]; subst. inversion HI1 as [|v2 vs2 p2 q2 H2 HI2]; subst.
  pose proof (uint_bound _ _ H1) as (_ & _ & _ & L1). pose proof (uint_bound _ _ H2) as (_ & _ & _ & L2).
  destruct HP as [-> | ->]; cbn [length]; rewrite ?app_length; lia.
Qed.
Lemma eid7_form_len e p : eid7_form e p -> (3 <= length p)%nat.
Proof.
  intros (b & HP & C). assert (2 <= length b)%nat by (destruct C as [(-> & _)|(t & -> & T)]; cbn [length]; [lia|apply two_form_len in T; lia]).
  destruct HP as [-> | ->]; cbn [length]; rewrite ?app_length; lia.
Qed.
(** The body of an endpoint id. *)
Definition eid7_inner (code s : N) (r : list N) : option (option ((N * N) * list N)) :=
  if code =? 1 then if s =? 0 then Some (Some ((0, 0), r)) else Some None
  else if code =? 2 then rd_two (s :: r) else Some None.
Definition eid7_body (e : N * N) (b : list N) : Prop := (b = [1; 0] /\ e = (0, 0)) \/ exists t, b = 2 :: t /\ two_form e t.
Lemma eid7_inner_ok e b rest : eid7_body e b -> Forall is_byte (b ++ rest) -> exists code s r, b ++ rest = code :: s :: r /\ eid7_inner code s r = Some (Some (e, rest)).
Proof.
  intros [(-> & ->)|(t & -> & T)] Hb.
  - exists 1, 0, rest. split; reflexivity.
  - pose proof (two_form_len _ _ T) as L. destruct t as [|s t]; [cbn [length] in L; lia|]. exists 2, s, (t ++ rest). split; [reflexivity|].
    unfold eid7_inner. cbn [N.eqb Pos.eqb]. apply (proj1 rd_two_reads e (s :: t) rest T). exact (Forall_inv_tail Hb).
Qed.
Lemma eid7_inner_inv code s r : Forall is_byte (code :: s :: r) -> exists x, eid7_inner code s r = Some x /\
  forall e rest, x = Some (e, rest) -> exists b, code :: s :: r = b ++ rest /\ eid7_body e b.
Proof.
  intros Hb. unfold eid7_inner. destruct (N.eqb_spec code 1) as [->|N1].
  - destruct (N.eqb_spec s 0) as [->|N2]; (eexists; split; [reflexivity|]); [|discriminate]. intros e rest E. injection E as <- <-. exists [1; 0]. split; [reflexivity|]. left. auto.
  - destruct (N.eqb_spec code 2) as [->|N2]; [|eexists; split; [reflexivity|discriminate]].
    destruct (proj2 rd_two_reads (s :: r) (Forall_inv_tail Hb)) as (x & -> & K). exists x. split; [reflexivity|]. intros e rest ->.
    destruct (K e rest eq_refl) as (t & E & T). exists (2 :: t). split; [cbn [app]; now rewrite <- E|]. right. eauto.
Qed.
Lemma eid7_reads : reads eid7_read eid7_form.
Proof.
  assert (U : forall h code s r, eid7_read (h :: code :: s :: r) = if negb (h =? 130) && negb (h =? 159) then Some None else
    bind2 (eid7_inner code s r) (fun '(e, r1) => if h =? 159 then match r1 with [] => Some None | b :: r2 => if b =? 255 then Some (Some (e, r2)) else Some None end else Some (Some (e, r1)))) by reflexivity.
  split.
  - intros e p rest (b & HP & B) Hb. change (eid7_body e b) in B. destruct HP as [-> | ->].
    + cbn [app] in *. destruct (eid7_inner_ok e b rest B (Forall_inv_tail Hb)) as (code & s & r & E & I). rewrite E, U, I. reflexivity.
    + cbn [app] in *. rewrite <- app_assoc in *. destruct (eid7_inner_ok e b ([255] ++ rest) B (Forall_inv_tail Hb)) as (code & s & r & E & I). rewrite E, U, I. reflexivity.
  - intros bs Hb. destruct bs as [|h [|code [|s r]]]; try (exists None; split; [reflexivity|discriminate]). rewrite U.
    destruct (negb (h =? 130) && negb (h =? 159)) eqn:EH; [exists None; split; [reflexivity|discriminate]|].
    destruct (eid7_inner_inv code s r (Forall_inv_tail Hb)) as (x & -> & K). destruct x as [[e r1]|]; cbn [bind2]; [|exists None; split; [reflexivity|discriminate]].
    destruct (K e r1 eq_refl) as (b & E & B). rewrite E. destruct (N.eqb_spec h 159) as [->|NH].
    + destruct r1 as [|y r2]; [exists None; split; [reflexivity|discriminate]|]. destruct (N.eqb_spec y 255) as [->|]; [|exists None; split; [reflexivity|discriminate]].
      eexists. split; [reflexivity|]. intros e' rest Q. injection Q as <- <-. exists (159 :: b ++ [255]). split; [cbn [app]; rewrite <- app_assoc; reflexivity|].
      exists b. split; [right; reflexivity|exact B].
    + assert (h = 130) as -> by lia. eexists. split; [reflexivity|]. intros e' rest Q. injection Q as <- <-. exists (130 :: b). split; [reflexivity|].
      exists b. split; [left; reflexivity|exact B].
Qed.

Lemma isfrag_bit flags : q_isfrag flags = is_fragment flags.
Proof. unfold q_isfrag, is_fragment. rewrite N.land_comm. exact (bit_test flags 0). Qed.
Lemma items_two a b p : cbor_items [a; b] p <-> exists p1 p2, p = p1 ++ p2 /\ cbor_uint a p1 /\ cbor_uint b p2.
Proof.
  split.
  - intros H. inversion H as [|? s1 ? b1 H1 H2]; subst. inversion H2 as [|? s2 ? b2 H3 H4]; subst. inversion H4; subst. rewrite app_nil_r. eauto.
  - intros (p1 & p2 & -> & H1 & H2). constructor; [exact H1|]. rewrite <- (app_nil_r p2). constructor; [exact H2|constructor].
Qed.
Lemma prim7_frag_reads flags old : reads (prim7_frag flags old)
  (fun t fr => if is_fragment flags then cbor_items [fst t; snd t] fr else fr = [] /\ t = old).
Proof.
  unfold prim7_frag. rewrite isfrag_bit. destruct (is_fragment flags); [|exact (reads_ret old)].
  refine (reads_iff _ _ _ _ (reads_bind _ _ _ _ rd_uint_reads (fun s => reads_bind _ _ _ _ rd_uint_reads (fun q => reads_ret (s, q))))).
  intros [s q] p. cbn [fst snd]. rewrite items_two. split.
  - intros (x & p1 & p2 & -> & H1 & y & p3 & p4 & -> & H2 & -> & E). injection E as -> ->. exists p1, p3. rewrite app_nil_r. auto.
  - intros (a & b & -> & H1 & H2). exists s, a, b. split; [reflexivity|]. split; [exact H1|]. exists q, b, []. rewrite app_nil_r. auto.
Qed.
(** The fields after the CRC type. *)
Definition prim7_tail (old : prim7) (flags ct : N) (p : prim7) (bs : list N) : Prop :=
  exists d s r t l fr, bs = d ++ s ++ r ++ t ++ l ++ fr /\ eid7_form (q_dest p) d /\ eid7_form (q_src p) s /\ eid7_form (q_report p) r /\
    two_form (q_stamp p) t /\ cbor_uint (q_life p) l /\
    (if is_fragment flags then cbor_items [q_off p; q_total p] fr else fr = [] /\ (q_off p, q_total p) = (q_off old, q_total old)) /\
    q_flags p = flags /\ q_crctype p = ct /\ q_crc p = q_crc old.
Lemma prim7_rest_reads old flags ct : reads (prim7_rest old flags ct) (prim7_tail old flags ct).
Proof.
  refine (reads_iff _ _ _ _ (reads_bind _ _ _ _ eid7_reads (fun d => reads_bind _ _ _ _ eid7_reads (fun s => reads_bind _ _ _ _ eid7_reads (fun r =>
    reads_bind _ _ _ _ rd_two_reads (fun t => reads_bind _ _ _ _ rd_uint_reads (fun l => reads_bind _ _ _ _ (prim7_frag_reads flags (q_off old, q_total old))
      (fun f => reads_ret (mkPrim7 flags d s r t l (fst f) (snd f) (q_crc old) ct))))))))).
  intros p bs. split.
  - intros (d & b1 & q1 & -> & H1 & s & b2 & q2 & -> & H2 & r & b3 & q3 & -> & H3 & t & b4 & q4 & -> & H4 & l & b5 & q5 & -> & H5 & f & b6 & q6 & -> & H6 & -> & ->).
    unfold prim7_tail. cbn [q_dest q_src q_report q_stamp q_life q_off q_total q_flags q_crctype q_crc].
    exists b1, b2, b3, b4, b5, b6. rewrite app_nil_r. destruct f as [o n]. cbn [fst snd] in *. auto 12.
  - intros (d & s & r & t & l & fr & -> & H1 & H2 & H3 & H4 & H5 & H6 & <- & <- & E).
    exists (q_dest p), d, (s ++ r ++ t ++ l ++ fr). split; [reflexivity|]. split; [exact H1|].
    exists (q_src p), s, (r ++ t ++ l ++ fr). split; [reflexivity|]. split; [exact H2|].
    exists (q_report p), r, (t ++ l ++ fr). split; [reflexivity|]. split; [exact H3|].
    exists (q_stamp p), t, (l ++ fr). split; [reflexivity|]. split; [exact H4|].
    exists (q_life p), l, fr. split; [reflexivity|]. split; [exact H5|].
    exists (q_off p, q_total p), fr, []. rewrite app_nil_r. split; [reflexivity|]. split; [exact H6|]. split; [reflexivity|].
    rewrite <- E. destruct p; reflexivity.
Qed.
Lemma prim7_tail_len old flags ct p bs : prim7_tail old flags ct p bs -> (13 <= length bs)%nat.
Proof.
  intros (d & s & r & t & l & fr & -> & H1 & H2 & H3 & H4 & H5 & _). apply eid7_form_len in H1, H2, H3. apply two_form_len in H4.
  pose proof (uint_bound _ _ H5) as (_ & _ & _ & L). rewrite !app_length. lia.
Qed.
Lemma decode9_uint v p rest : cbor_uint v p -> Forall is_byte rest -> (9 <= length (p ++ rest))%nat -> cbor_decode_fast9 (p ++ rest) = Some (v, N.of_nat (length p)).
Proof.
  intros H Hr L. pose proof (decode_uint v p rest H Hr) as E. unfold cbor_decode in E.
  destruct (Nat.leb_spec 9 (length (p ++ rest))); [exact E|lia].
Qed.
Definition array7 (ct flags : N) : N := 8 + (if no_crc ct then 0 else 1) + (if is_fragment flags then 2 else 0).
Lemma array_size_val flags ct : prim7_array_size flags ct = array7 ct flags.
Proof.
  unfold prim7_array_size, array7, no_crc. rewrite isfrag_bit. destruct (ct =? 0); destruct (is_fragment flags); reflexivity.
Qed.
Lemma array7_range ct flags : 8 <= array7 ct flags <= 11.
Proof. unfold array7. destruct (no_crc ct); destruct (is_fragment flags); lia. Qed.
Definition prim7_head (old : prim7) (p : prim7) (body : list N) : Prop :=
  exists fl tl, body = [128 + array7 (q_crctype p) (q_flags p); 7] ++ fl ++ [q_crctype p] ++ tl /\ cbor_uint (q_flags p) fl /\
    prim7_tail old (q_flags p) (q_crctype p) p tl.
Lemma head_test h : h < 256 -> (negb (N.shiftr h 5 =? 4) || (3 <? (N.land h 31 + W32 - 8) mod W32) = false <-> 136 <= h <= 139) /\ (136 <= h <= 139 -> N.land h 31 = h - 128).
Proof.
  intros H. pose proof (forall_below 256 (fun h => Bool.eqb (negb (N.shiftr h 5 =? 4) || (3 <? (N.land h 31 + W32 - 8) mod W32)) (negb ((136 <=? h) && (h <=? 139)))
     && (negb ((136 <=? h) && (h <=? 139)) || (N.land h 31 =? h - 128))) ltac:(vm_compute; reflexivity) h H) as Q. cbv beta in Q.
  rewrite andb_true_iff in Q. destruct Q as (Q1 & Q2). apply eqb_prop in Q1. rewrite Q1. split; lia.
Qed.
Lemma prim7_fields_reads old : reads (prim7_fields old) (prim7_head old).
Proof.
  split.
  - intros p body rest (fl & tl & -> & F & T) Hb. pose proof (prim7_tail_len _ _ _ _ _ T) as L. pose proof (uint_bound _ _ F) as (_ & _ & _ & LF).
    unfold prim7_fields. rewrite <- !app_assoc in *.
    match goal with |- (if Nat.ltb (length ?x) 17 then _ else _) = _ => assert (LL : (17 <= length x)%nat) by (rewrite !app_length; cbn [length]; lia) end.
    destruct (Nat.ltb_spec (length ([128 + array7 (q_crctype p) (q_flags p); 7] ++ fl ++ [q_crctype p] ++ tl ++ rest)) 17) as [X|_]; [lia|]. clear LL.
    cbn [app] in *. pose proof (Forall_inv Hb) as Hh. pose proof (array7_range (q_crctype p) (q_flags p)) as AR.
    destruct (head_test _ Hh) as (T1 & T2). rewrite (proj2 T1) by lia. rewrite T2 by lia. cbn [N.eqb Pos.eqb negb].
    pose proof (Forall_inv_tail (Forall_inv_tail Hb)) as Hb2. destruct (octets_app _ _ Hb2) as (_ & Hb3).
    rewrite (decode9_uint _ _ _ F Hb3) by (rewrite app_length; cbn [length]; rewrite app_length; lia).
    destruct (N.eqb_spec (N.of_nat (length fl)) 0); [lia|]. rewrite Nat2N.id, skipn_pref, array_size_val.
    replace (128 + array7 (q_crctype p) (q_flags p) - 128) with (array7 (q_crctype p) (q_flags p)) by lia. rewrite !N.eqb_refl. cbn [negb].
    apply (proj1 (prim7_rest_reads old (q_flags p) (q_crctype p))); [exact T|exact (Forall_inv_tail Hb3)].
  - intros bs Hb. unfold prim7_fields. destruct (Nat.ltb_spec (length bs) 17) as [L|L]; [exists None; split; [reflexivity|discriminate]|].
    destruct bs as [|h [|v r]]; try (cbn [length] in L; lia). destruct (head_test h (Forall_inv Hb)) as (T1 & T2). cbn zeta.
    destruct (negb (N.shiftr h 5 =? 4) || (3 <? (N.land h 31 + W32 - 8) mod W32)) eqn:EH; [exists None; split; [reflexivity|discriminate]|].
    pose proof (proj1 T1 eq_refl) as RH. rewrite (T2 RH). destruct (N.eqb_spec v 7) as [->|]; cbn [negb]; [|exists None; split; [reflexivity|discriminate]].
    pose proof (Forall_inv_tail (Forall_inv_tail Hb)) as Hr. cbn [length] in L.
    rewrite (decode_fast9_classic r Hr) by lia. destruct (decode_cases r Hr) as (flags & k & E & C). rewrite (decode_classic_eq r Hr) in E. injection E as ->.
    destruct C as [(-> & _)|(fl & r0 & -> & F & -> & NZ & SK)]; [exists None; split; [reflexivity|discriminate]|].
    destruct (N.eqb_spec (N.of_nat (length fl)) 0) as [|_]; [congruence|]. rewrite SK. pose proof (uint_bound _ _ F) as (_ & _ & _ & LF). rewrite app_length in L.
    destruct r0 as [|ct r1]; [cbn [length] in L; lia|]. rewrite array_size_val. destruct (N.eqb_spec (array7 ct flags) (h - 128)) as [EA|]; cbn [negb]; [|exists None; split; [reflexivity|discriminate]].
    destruct (octets_app _ _ Hr) as (_ & Hr2). destruct (proj2 (prim7_rest_reads old flags ct) r1 (Forall_inv_tail Hr2)) as (x & -> & K). exists x. split; [reflexivity|].
    intros p rest ->. destruct (K p rest eq_refl) as (tl & -> & T). exists (h :: 7 :: fl ++ ct :: tl). split; [cbn [app]; rewrite <- app_assoc; reflexivity|].
    assert (q_flags p = flags /\ q_crctype p = ct) as (EF & EC) by (destruct T as (? & ? & ? & ? & ? & ? & T); split; apply T).
    exists fl, tl. rewrite EF, EC, EA. replace (128 + (h - 128)) with h by lia. auto.
Qed.

(** ** The CRC *)
Lemma field_len n c f : crc_field n c f -> length f = S n.
Proof. intros (e & -> & L & _). cbn [length]. lia. Qed.
Lemma field_small n c f : crc_field n c f -> c < 2 ^ N.of_nat (8 * n).
Proof. intros (e & -> & <- & B & <-). now apply be_value_small. Qed.
Lemma field_unique n c f f' : crc_field n c f -> crc_field n c f' -> f = f'.
Proof.
  intros (e & -> & L & B & V) (e' & -> & L' & B' & V'). f_equal. rewrite be_value_val, be_val_rev in V, V'.
  rewrite <- (rev_involutive e), <- (rev_involutive e'). f_equal.
  rewrite <- (le_bytes_val (rev e)) by now apply bytes_rev. rewrite <- (le_bytes_val (rev e')) by now apply bytes_rev.
  rewrite !rev_length. congruence.
Qed.
Lemma put16_mid c body f post : crc_field 2 c f -> forall old, length old = 3%nat -> put_crc16 (length body) c (body ++ old ++ post) = Some (body ++ f ++ post).
Proof.
  intros F old L. pose proof (field_small _ _ _ F) as S. change (2 ^ N.of_nat (8 * 2)) with 65536 in S.
  rewrite (field_unique _ _ _ _ F (field16 c S)). now apply write_mid.
Qed.
Lemma put32_mid c body f post : crc_field 4 c f -> forall old, length old = 5%nat -> put_crc32 (length body) c (body ++ old ++ post) = Some (body ++ f ++ post).
Proof.
  intros F old L. pose proof (field_small _ _ _ F) as S. change (2 ^ N.of_nat (8 * 4)) with W32 in S.
  rewrite (field_unique _ _ _ _ F (field32 c S)). now apply write_mid.
Qed.
Lemma field_zero16 : crc_field 2 0 [66; 0; 0]. Proof. exact (field16 0 eq_refl). Qed.
Lemma field_zero32 : crc_field 4 0 [68; 0; 0; 0; 0]. Proof. exact (field32 0 eq_refl). Qed.
Lemma firstn_mid (a b c : list N) n : n = (length a + length b)%nat -> firstn n (a ++ b ++ c) = a ++ b.
Proof. intros ->. rewrite app_assoc, <- app_length. apply firstn_pref. Qed.
Lemma crc32c_software_eq hw data : Forall is_byte data -> crc32c hw data = crc32c_software data.
Proof. destruct hw; [now apply hardware_software|reflexivity]. Qed.
Lemma crc16_eq data c : crc16_x25 data = c <-> checksum 16 X25_POLY data c.
Proof. destruct (C44_crc16_is_the_standard_checksum data) as (A & B). split; [intros <-; exact A|intros H; symmetry; now apply B]. Qed.
Lemma crc32c_eq hw data c : Forall is_byte data -> crc32c hw data = c <-> checksum 32 CASTAGNOLI_POLY data c.
Proof.
  intros Hd. rewrite (crc32c_software_eq hw data Hd). destruct (C44_crc32c_is_the_standard_checksum data Hd) as (A & B & _).
  split; [intros <-; exact A|intros H; symmetry; now apply B].
Qed.
Lemma crc_check_ok skip hw ct body rest : Forall is_byte (body ++ rest) ->
  exists r, crc_check skip hw ct (length body) (body ++ rest) = Some (body ++ rest, r) /\ forall cc n, r = Some (cc, n) <-> exists f rest', rest = f ++ rest' /\ n = (length body + length f)%nat /\ crc_closing (skip = false) ct cc body f.
Proof.
  intros Hb. destruct (octets_app _ _ Hb) as (Hbody & Hrest). unfold crc_check. rewrite app_length, skipn_pref.
  replace (length body + length rest - length body)%nat with (length rest) by lia.
  destruct (N.eqb_spec ct 0) as [->|N0].
  { eexists. split; [reflexivity|]. intros cc n. split.
    - intros E. injection E as <- <-. exists [], rest. cbn [length]. split; [reflexivity|]. split; [lia|constructor].
    - intros (f & rest' & _ & -> & C). inversion C; subst. cbn [length]. now rewrite Nat.add_0_r. }
  destruct (N.eqb_spec ct 1) as [->|N1].
  { assert (NO : (forall c f r, rest = f ++ r -> crc_field 2 c f -> False) -> forall cc n, @None (N * N * nat) = Some (cc, n) <->
       exists f rest', rest = f ++ rest' /\ n = (length body + length f)%nat /\ crc_closing (skip = false) 1 cc body f).
    { intros K cc n. split; [discriminate|]. intros (f & r & E & _ & C). inversion C; subst. exfalso. eapply K; eauto. }
    destruct (Nat.ltb_spec (length rest) 3) as [L|L].
    { eexists. split; [reflexivity|]. apply NO. intros c f r -> F. apply field_len in F. rewrite app_length in L. lia. }
    destruct (C44_only_fields_are_read rest Hrest) as (G & _ & GN & _). specialize (GN L). destruct (get_crc16 rest) as [[c|]|] eqn:EG; [| |congruence].
    2: { eexists. split; [reflexivity|]. apply NO. intros c f r E F. pose proof (proj2 (G c) (ex_intro _ f (ex_intro _ r (conj E F)))). congruence. }
    destruct (proj1 (G c) eq_refl) as (f & post & -> & F). pose proof (field_len _ _ _ F) as LF.
    assert (YES : forall (b : bool), (b = true <-> (skip = false -> checksum 16 X25_POLY (body ++ [66; 0; 0]) c)) ->
       forall cc n, (if b then Some (0, c, (length body + 3)%nat) else None) = Some (cc, n) <->
       exists f0 rest', f ++ post = f0 ++ rest' /\ n = (length body + length f0)%nat /\ crc_closing (skip = false) 1 cc body f0).
    { intros b B cc n. split.
      - destruct b; [|discriminate]. intros E. injection E as <- <-. exists f, post. rewrite LF. split; [reflexivity|]. split; [reflexivity|]. constructor; [exact F|now apply B].
      - intros (f0 & r & E & -> & C). inversion C as [|c0 ? ? F0 K|]; subst.
        pose proof (proj2 (G c0) (ex_intro _ f0 (ex_intro _ r (conj E F0)))) as E2. assert (c = c0) as <- by congruence. apply field_len in F0. rewrite F0.
        rewrite (proj2 B K). reflexivity. }
    destruct skip.
    - eexists. split; [reflexivity|]. apply (YES true). split; [discriminate|reflexivity].
    - rewrite (put16_mid 0 body [66; 0; 0] post field_zero16 f LF). cbn [option_map].
      rewrite (put16_mid c body f post F [66; 0; 0] eq_refl). eexists. split; [reflexivity|].
      rewrite firstn_mid by reflexivity. apply YES. rewrite N.eqb_eq, crc16_eq. split; auto. }
  destruct (N.eqb_spec ct 2) as [->|N2].
  { assert (NO : (forall c f r, rest = f ++ r -> crc_field 4 c f -> False) -> forall cc n, @None (N * N * nat) = Some (cc, n) <->
       exists f rest', rest = f ++ rest' /\ n = (length body + length f)%nat /\ crc_closing (skip = false) 2 cc body f).
    { intros K cc n. split; [discriminate|]. intros (f & r & E & _ & C). inversion C; subst. exfalso. eapply K; eauto. }
    destruct (Nat.ltb_spec (length rest) 5) as [L|L].
    { eexists. split; [reflexivity|]. apply NO. intros c f r -> F. apply field_len in F. rewrite app_length in L. lia. }
    destruct (C44_only_fields_are_read rest Hrest) as (_ & G & _ & GN). specialize (GN L). destruct (get_crc32 rest) as [[c|]|] eqn:EG; [| |congruence].
    2: { eexists. split; [reflexivity|]. apply NO. intros c f r E F. pose proof (proj2 (G c) (ex_intro _ f (ex_intro _ r (conj E F)))). congruence. }
    destruct (proj1 (G c) eq_refl) as (f & post & -> & F). pose proof (field_len _ _ _ F) as LF.
    assert (YES : forall (b : bool), (b = true <-> (skip = false -> checksum 32 CASTAGNOLI_POLY (body ++ [68; 0; 0; 0; 0]) c)) ->
       forall cc n, (if b then Some (c, 0, (length body + 5)%nat) else None) = Some (cc, n) <->
       exists f0 rest', f ++ post = f0 ++ rest' /\ n = (length body + length f0)%nat /\ crc_closing (skip = false) 2 cc body f0).
    { intros b B cc n. split.
      - destruct b; [|discriminate]. intros E. injection E as <- <-. exists f, post. rewrite LF. split; [reflexivity|]. split; [reflexivity|]. constructor; [exact F|now apply B].
      - intros (f0 & r & E & -> & C). inversion C as [| |c0 ? ? F0 K]; subst.
        pose proof (proj2 (G c0) (ex_intro _ f0 (ex_intro _ r (conj E F0)))) as E2. assert (c = c0) as <- by congruence. apply field_len in F0. rewrite F0.
        rewrite (proj2 B K). reflexivity. }
    destruct skip.
    - eexists. split; [reflexivity|]. apply (YES true). split; [discriminate|reflexivity].
    - rewrite (put32_mid 0 body [68; 0; 0; 0; 0] post field_zero32 f LF).
      rewrite (put32_mid c body f post F [68; 0; 0; 0; 0] eq_refl). eexists. split; [reflexivity|].
      rewrite firstn_mid by reflexivity. apply YES. rewrite N.eqb_eq, crc32c_eq; [split; auto|]. apply Forall_app. split; [exact Hbody|repeat constructor]. }
  eexists. split; [reflexivity|]. intros cc n. split; [discriminate|]. intros (f & r & _ & _ & C). inversion C; congruence.
Qed.
(** A deterministic reader: two readings of one input agree. *)
Lemma reads_det {A : Type} (f : list N -> option (option (A * list N))) F x y p q r s : reads f F -> F x p -> F y q -> Forall is_byte (p ++ r) -> p ++ r = q ++ s -> x = y /\ p = q /\ r = s.
Proof.
  intros (R1 & _) H1 H2 Hb E. pose proof (R1 x p r H1 Hb) as E1. rewrite E in Hb, E1. pose proof (R1 y q s H2 Hb) as E2. rewrite E1 in E2. injection E2 as -> ->.
  apply app_inv_tail in E. auto.
Qed.
(** A reader of the part before the CRC together with the CRC check. *)
Lemma read_crc {A : Type} (f : list N -> option (option (A * list N))) F skip hw (ct : A -> N) (set : A -> N * N -> A) bs : reads f F -> Forall is_byte bs ->
  exists r, (do x <- f bs; match x with None => Some (bs, None) | Some (p, rest) =>
      do y <- crc_check skip hw (ct p) (length bs - length rest) bs; Some (fst y, option_map (fun z : N * N * nat => (set p (fst z), snd z)) (snd y)) end) = Some (bs, r) /\
    forall p' n, r = Some (p', n) <-> exists p body crc rest cc, bs = body ++ crc ++ rest /\ n = (length body + length crc)%nat /\ F p body /\
       crc_closing (skip = false) (ct p) cc body crc /\ p' = set p cc.
Proof.
  intros R Hb. destruct (proj2 R bs Hb) as (x & E & K). rewrite E. destruct x as [[p rest]|].
  - destruct (K p rest eq_refl) as (body & -> & FB). rewrite app_length. replace (length body + length rest - length rest)%nat with (length body) by lia.
    destruct (crc_check_ok skip hw (ct p) body rest Hb) as (r & -> & C). eexists. split; [reflexivity|]. intros p' n. cbn [fst snd]. split.
    + destruct r as [[cc m]|]; [|discriminate]. intros Q. injection Q as <- <-. destruct (proj1 (C cc m) eq_refl) as (g & r' & -> & -> & CC).
      exists p, body, g, r', cc. auto.
    + intros (p0 & body0 & crc & rest0 & cc & EB & -> & FB0 & CC & ->). destruct (reads_det f F _ _ _ _ _ _ R FB FB0 Hb EB) as (<- & <- & ->).
      rewrite (proj2 (C cc (length body + length crc)%nat)); [reflexivity|]. eauto.
  - eexists. split; [reflexivity|]. intros p' n. split; [discriminate|]. intros (p & body & crc & rest & cc & -> & _ & FB & _). rewrite (proj1 R p body _ FB Hb) in E. discriminate.
Qed.
