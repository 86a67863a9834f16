(** Lemmas for C45-C48: the writers of the BPv7 codecs. *)
From Coq Require Import NArith ZArith List Bool Lia ZifyBool ZifyN.
From Verif Require Import Base M_SegmentAlloc M_Intrin M_Sdnv M_Cbor M_Bpv6Block M_Bpv7Crc M_Bpv7Block S_Sdnv S_Cbor S_Bpv7Crc S_Bpv7 L_Intrin L_Cbor P_Cbor L_Bpv7Crc P_Bpv7Crc L_Bpv6Read L_Bpv6Write L_Bpv7Read.
Import ListNotations.
Open Scope N_scope.

Section Writers.
Variable j : N.
Hypothesis J : j < 256.
Local Notation scan := (scan_any j).
Lemma put9_writes v : v < W64 -> writes (put9 scan v) (cenc v) 8.
Proof. intros V. apply put_writes. intros b L. destruct (good_fast9 j J v b V L) as (jk & E & LJ). eauto. Qed.
Lemma put_encode_writes v : v < W64 -> writes (put (cbor_encode scan v)) (cenc v) 0.
Proof. intros V. apply put_writes. intros b L. unfold csize in *. destruct (good_checked j J v b V) as (jk & E & LJ); [unfold csize; lia|]. eauto. Qed.
(** Two integers in an array. *)
Definition ctwo (t : N * N) : list N := 130 :: cenc (fst t) ++ cenc (snd t).
Lemma two_shortest a b q : a < W64 -> b < W64 -> shortest_items [a; b] q -> length q = (csize a + csize b)%nat.
Proof.
  intros A B (ps & -> & F). inversion F as [|? p1 ? ? H1 F1]; subst. inversion F1 as [|? p2 ? ? H2 F2]; subst. inversion F2; subst.
  cbn [concat]. rewrite !app_length. cbn [length]. rewrite (shortest_cenc _ _ H1), (shortest_cenc _ _ H2). lia.
Qed.
Lemma ctwo_shortest t : small64 t -> shortest_two t (ctwo t).
Proof.
  intros (A & B). exists (cenc (fst t) ++ cenc (snd t)). split; [|reflexivity]. exists [cenc (fst t); cenc (snd t)]. cbn [concat]. rewrite app_nil_r.
  split; [reflexivity|]. repeat constructor; apply cenc_shortest; assumption.
Qed.
Lemma two_buf (enc : N -> list N -> option (N * list N)) slack a b buf : good_enc slack enc -> a < W64 -> b < W64 -> (csize a + csize b + slack <= length buf)%nat ->
  exists junk, enc_then enc a buf (fun r => enc b r) = Some (N.of_nat (csize a + csize b), (cenc a ++ cenc b) ++ junk) /\ (csize a + csize b + length junk = length buf)%nat.
Proof.
  intros G A B L. pose proof (csize_pos a). pose proof (csize_pos b). destruct (enc_then_ok slack enc a buf (fun r => enc b r) G A ltac:(lia)) as (rest & LR & ->).
  destruct (G b rest B ltac:(lia)) as (junk & -> & LJ). exists junk. rewrite app_length in LJ. fold (csize b) in LJ. split; [|lia].
  rewrite <- app_assoc. f_equal. f_equal. lia.
Qed.
Lemma two_writes t : small64 t -> writes (put (cbor_two_serialize scan (fst t) (snd t))) (ctwo t) 8.
Proof.
  intros (A & B). apply put_writes. intros b L. unfold ctwo in *. cbn [length] in *. rewrite app_length in L. fold (csize (fst t)) (csize (snd t)) in L.
  destruct b as [|x r]; [cbn [length] in L; lia|]. cbn [length] in L. unfold cbor_two_serialize.
  destruct (two_buf (cbor_encode_fast9 scan) 8 (fst t) (snd t) r (good_fast9 j J) A B ltac:(lia)) as (junk & E & LJ). rewrite E. cbn [fst snd].
  exists junk. split; [|cbn [app length]; rewrite !app_length; unfold csize in *; lia].
  cbn [option_map fst snd]. f_equal. f_equal. rewrite app_length. unfold csize. lia.
Qed.
Lemma two_checked_writes t : small64 t -> writes (put (cbor_two_serialize_checked scan (fst t) (snd t))) (ctwo t) 0.
Proof.
  intros (A & B). apply put_writes. intros b L. unfold ctwo in *. cbn [length] in *. rewrite app_length in L. fold (csize (fst t)) (csize (snd t)) in L.
  destruct b as [|x r]; [cbn [length] in L; lia|]. cbn [length] in L. unfold cbor_two_serialize_checked.
  destruct (two_buf (cbor_encode scan) 0 (fst t) (snd t) r (good_checked j J) A B ltac:(lia)) as (junk & E & LJ). rewrite E. cbn [fst snd].
  exists junk. split; [|cbn [app length]; rewrite !app_length; unfold csize in *; lia].
  cbn [option_map fst snd]. f_equal. f_equal. rewrite app_length. unfold csize. lia.
Qed.
Lemma ctwo_size t : small64 t -> cbor_two_size scan (fst t) (snd t) = Some (N.of_nat (length (ctwo t))).
Proof.
  intros (A & B). unfold cbor_two_size. rewrite !num_bytes_ok by assumption. f_equal. unfold ctwo. cbn [length]. rewrite app_length. unfold csize. lia.
Qed.
(** Endpoint ids. *)
Definition ceid (e : N * N) : list N := if fst e =? 0 then [130; 1; 0] else 130 :: 2 :: ctwo e.
Lemma ceid_written e : small64 e -> eid7_written e (ceid e).
Proof. intros S. unfold eid7_written, ceid. destruct (fst e =? 0); [reflexivity|]. exists (ctwo e). split; [now apply ctwo_shortest|reflexivity]. Qed.
Lemma eid7_writes e : small64 e -> writes (eid7_put scan e) (ceid e) 8.
Proof.
  intros S. unfold eid7_put, ceid. destruct (fst e =? 0).
  - apply (writes_more _ _ 0 8); [|lia]. exact (writes_seq _ [130] _ [1; 0] _ (put_bytes_writes [130]) (put_bytes_writes [1; 0])).
  - refine (writes_seq _ [130] _ (2 :: ctwo e) _ (writes_more _ _ 0 8 (put_bytes_writes [130]) ltac:(lia)) _).
    exact (writes_seq _ [2] _ (ctwo e) _ (writes_more _ _ 0 8 (put_bytes_writes [2]) ltac:(lia)) (two_writes e S)).
Qed.
Lemma ceid_len e : (3 <= length (ceid e))%nat.
Proof. unfold ceid. destruct (fst e =? 0); cbn [length ctwo]; [lia|]. rewrite app_length. pose proof (csize_pos (fst e)). unfold csize in *. lia. Qed.
Lemma eid7_checked_writes e : small64 e -> writes (eid7_put_checked scan e) (ceid e) 0.
Proof.
  intros S. assert (K : writes (fun w => do w1 <- put_bytes [130] w; if fst e =? 0 then put_bytes [1; 0] w1 else do w2 <- put_bytes [2] w1; put (cbor_two_serialize_checked scan (fst e) (snd e)) w2) (ceid e) 0).
  { unfold ceid. destruct (fst e =? 0).
    - exact (writes_seq _ [130] _ [1; 0] _ (put_bytes_writes [130]) (put_bytes_writes [1; 0])).
    - refine (writes_seq _ [130] _ (2 :: ctwo e) _ (put_bytes_writes [130]) _).
      exact (writes_seq _ [2] _ (ctwo e) _ (put_bytes_writes [2]) (two_checked_writes e S)). }
  intros size w pre W L. pose proof (ceid_len e) as LE. unfold eid7_put_checked. rewrite (wok_room _ _ _ W).
  destruct (Nat.ltb_spec (size - length pre) 3); [lia|]. exact (K size w pre W L).
Qed.
Lemma ceid_size e : small64 e -> eid7_size scan e = Some (N.of_nat (length (ceid e))).
Proof.
  intros S. unfold eid7_size, ceid. destruct (fst e =? 0); [reflexivity|]. rewrite (ctwo_size e S). f_equal. cbn [length]. lia.
Qed.
(** The primary block. *)
Definition cprim (p : prim7) : list N :=
  [128 + array7 (q_crctype p) (q_flags p)] ++ [7] ++ cenc (q_flags p) ++ [q_crctype p] ++ ceid (q_dest p) ++ ceid (q_src p) ++ ceid (q_report p) ++
  ctwo (q_stamp p) ++ cenc (q_life p) ++ (if is_fragment (q_flags p) then cenc (q_off p) ++ cenc (q_total p) else []).
Lemma cprim_written p : prim7_ok p -> primary7_written p (cprim p).
Proof.
  intros (H1 & H2 & H3 & H4 & H5 & H6 & H7 & H8 & H9). exists (cenc (q_flags p)), (ceid (q_dest p)), (ceid (q_src p)), (ceid (q_report p)), (ctwo (q_stamp p)), (cenc (q_life p)),
    (if is_fragment (q_flags p) then cenc (q_off p) ++ cenc (q_total p) else []).
  split; [reflexivity|]. split; [now apply cenc_shortest|]. split; [now apply ceid_written|]. split; [now apply ceid_written|]. split; [now apply ceid_written|].
  split; [now apply ctwo_shortest|]. split; [now apply cenc_shortest|]. destruct (is_fragment (q_flags p)); [|reflexivity].
  exists [cenc (q_off p); cenc (q_total p)]. cbn [concat]. rewrite app_nil_r. split; [reflexivity|]. repeat constructor; apply cenc_shortest; assumption.
Qed.
Lemma lor_head p : N.lor 128 (prim7_array_size (q_flags p) (q_crctype p)) = 128 + array7 (q_crctype p) (q_flags p).
Proof. rewrite array_size_val, N.lor_comm. pose proof (array7_range (q_crctype p) (q_flags p)). apply lor128_small. lia. Qed.
Lemma prim7_body_writes p : prim7_ok p -> writes (prim7_body scan p) (cprim p) 8.
Proof.
  intros (H1 & H2 & H3 & H4 & H5 & H6 & H7 & H8 & H9). unfold prim7_body, cprim. rewrite lor_head, isfrag_bit.
  assert (B : forall d, writes (put_bytes d) d 8) by (intros d; apply (writes_more _ _ 0 8); [apply put_bytes_writes|lia]).
  refine (writes_seq _ _ _ _ 8 (B [_]) _). refine (writes_seq _ _ _ _ 8 (B [_]) _). refine (writes_seq _ _ _ _ 8 (put9_writes _ H1) _).
  refine (writes_seq _ _ _ _ 8 (B [_]) _). refine (writes_seq _ _ _ _ 8 (eid7_writes _ H2) _). refine (writes_seq _ _ _ _ 8 (eid7_writes _ H3) _).
  refine (writes_seq _ _ _ _ 8 (eid7_writes _ H4) _). refine (writes_seq _ _ _ _ 8 (two_writes _ H5) _). refine (writes_seq _ _ _ _ 8 (put9_writes _ H6) _).
  destruct (is_fragment (q_flags p)); [|apply writes_nil]. exact (writes_seq _ _ _ _ 8 (put9_writes _ H7) (put9_writes _ H8)).
Qed.
End Writers.

(** The CRC. *)
Lemma wok_split size w pre : wok size w pre -> exists rest, fst w = pre ++ rest /\ snd w = length pre /\ (length pre + length rest = size)%nat.
Proof.
  intros (L & P & F). exists (skipn (snd w) (fst w)). split; [rewrite <- F at 1; now rewrite firstn_skipn|]. split; [exact P|].
  assert (LF : length (firstn (snd w) (fst w)) = length pre) by now rewrite F. rewrite firstn_length in LF. rewrite skipn_length. lia.
Qed.
Lemma wok_of size pre rest : (length pre + length rest = size)%nat -> wok size (pre ++ rest, length pre) pre.
Proof. intros L. unfold wok. cbn [fst snd]. rewrite app_length, firstn_pref. auto. Qed.
Definition zero_field (ct : N) : list N := if ct =? 0 then [] else if ct =? 1 then [66; 0; 0] else [68; 0; 0; 0; 0].
Lemma closing_len v ct cc body f : crc_closing v ct cc body f -> length f = length (zero_field ct).
Proof. intros C. inversion C; subst; [reflexivity|..]; match goal with H : crc_field _ _ _ |- _ => rewrite (field_len _ _ _ H) end; reflexivity. Qed.
Lemma closing_octets v ct cc body f : crc_closing v ct cc body f -> Forall is_byte f.
Proof.
  intros C. inversion C as [|c ? ? (e & -> & L & O & _)|c ? ? (e & -> & L & O & _)]; subst; [constructor|..]; (constructor; [unfold is_byte; cbn; lia|exact O]).
Qed.
Lemma closing_exists ct body : ct <= 2 -> Forall is_byte body -> exists cc f, crc_closing True ct cc body f.
Proof.
  intros C Hb. assert (ct = 0 \/ ct = 1 \/ ct = 2) as [-> | [-> | ->]] by lia.
  - exists (0, 0), []. constructor.
  - destruct (C44_crc16_is_the_standard_checksum (body ++ [66; 0; 0])) as (K & _). eexists _, _. constructor; [apply field16; exact (proj1 K)|auto].
  - assert (Hb2 : Forall is_octet (body ++ [68; 0; 0; 0; 0])) by (apply Forall_app; split; [exact Hb|repeat constructor]).
    destruct (C44_crc32c_is_the_standard_checksum _ Hb2) as (K & _). eexists _, _. constructor; [apply field32; exact (proj1 K)|auto].
Qed.
Lemma closing_det ct cc body f cc' f' : Forall is_byte body -> crc_closing True ct cc body f -> crc_closing True ct cc' body f' -> cc = cc' /\ f = f'.
Proof.
  intros Hb C1 C2. inversion C1 as [|c ? ? F1 K1|c ? ? F1 K1]; subst; inversion C2 as [|c' ? ? F2 K2|c' ? ? F2 K2]; subst; [auto|..].
  - specialize (K1 I). specialize (K2 I). apply crc16_eq in K1, K2. assert (c = c') as <- by congruence. split; [reflexivity|exact (field_unique _ _ _ _ F1 F2)].
  - specialize (K1 I). specialize (K2 I). assert (Hb2 : Forall is_byte (body ++ [68; 0; 0; 0; 0])) by (apply Forall_app; split; [exact Hb|repeat constructor]).
    apply (crc32c_eq None _ _ Hb2) in K1, K2. assert (c = c') as <- by congruence. split; [reflexivity|exact (field_unique _ _ _ _ F1 F2)].
Qed.
Lemma block_mid (pre body f rest : list N) n : n = (length body + length f)%nat -> firstn n (skipn (length pre) (pre ++ body ++ f ++ rest)) = body ++ f.
Proof. intros ->. rewrite skipn_pref. now apply firstn_mid. Qed.
Lemma block_mid2 (pre body f rest : list N) n : n = (length body + length f)%nat -> firstn n (skipn (length pre) ((pre ++ body) ++ f ++ rest)) = body ++ f.
Proof. intros E. rewrite <- app_assoc. now apply block_mid. Qed.
Lemma recompute_ok hw ct cc f pre body old rest e oldc : ct <= 2 -> Forall is_byte body -> crc_closing True ct cc body f -> length old = length f -> e = (length pre + length body + length f)%nat -> ct <> 0 ->
  recompute_crc hw ct (length pre) e oldc (pre ++ body ++ old ++ rest) = Some (cc, pre ++ body ++ f ++ rest).
Proof.
  intros L Hb C LO E NZ. unfold recompute_crc. inversion C as [|c ? ? F K|c ? ? F K]; subst; [congruence|..]; specialize (K I); pose proof (field_len _ _ _ F) as LF; rewrite LF in *; change (2 =? 1) with false; rewrite N.eqb_refl; cbv iota.
  - replace (length pre + length body + 3 - 3)%nat with (length (pre ++ body)) by (rewrite app_length; lia). rewrite (app_assoc pre).
    rewrite (put16_mid 0 (pre ++ body) [66; 0; 0] rest field_zero16 old LO). rewrite <- (app_assoc pre). rewrite block_mid by (cbn [length]; lia). rewrite (proj2 (crc16_eq _ _) K), (app_assoc pre).
    rewrite (put16_mid c (pre ++ body) f rest F [66; 0; 0] eq_refl). now rewrite <- app_assoc.
  - replace (length pre + length body + 5 - 5)%nat with (length (pre ++ body)) by (rewrite app_length; lia). rewrite (app_assoc pre).
    rewrite (put32_mid 0 (pre ++ body) [68; 0; 0; 0; 0] rest field_zero32 old LO). rewrite <- (app_assoc pre). rewrite block_mid by (cbn [length]; lia).
    assert (Hb2 : Forall is_byte (body ++ [68; 0; 0; 0; 0])) by (apply Forall_app; split; [exact Hb|repeat constructor]).
    rewrite (proj2 (crc32c_eq hw _ c Hb2) K), (app_assoc pre).
    rewrite (put32_mid c (pre ++ body) f rest F [68; 0; 0; 0; 0] eq_refl). now rewrite <- app_assoc.
Qed.
Lemma crc_put_ok hw ct compute pre body oldc size w : ct <= 2 -> (compute = true -> Forall is_byte body) -> wok size w (pre ++ body) -> (length (pre ++ body) + length (zero_field ct) <= size)%nat ->
  exists cc f w', crc_put hw ct compute (length pre) oldc w = Some (Some (cc, w')) /\ wok size w' (pre ++ body ++ f) /\ length f = length (zero_field ct) /\
    (if compute then crc_closing True ct cc body f else f = zero_field ct /\ cc = if ct =? 0 then (0, 0) else oldc).
Proof.
  intros L Hb W S. destruct (wok_split _ _ _ W) as (rest & E & P & LR). unfold crc_put. rewrite E, P. unfold zero_field in *.
  destruct (N.eqb_spec ct 0) as [->|N0]. { exists (0, 0), [], w. rewrite app_nil_r. split; [reflexivity|]. split; [exact W|]. split; [reflexivity|]. destruct compute; [constructor|auto]. }
  destruct (N.eqb_spec ct 1) as [->|N1].
  - cbn [length] in S. destruct rest as [|x [|y [|z rest]]]; cbn [length] in LR; try lia. change (x :: y :: z :: rest) with ([x; y; z] ++ rest).
    rewrite (put16_mid 0 (pre ++ body) [66; 0; 0] rest field_zero16 [x; y; z] eq_refl). destruct compute.
    + specialize (Hb eq_refl). destruct (closing_exists 1 body L Hb) as (cc & f & C). inversion C as [|c ? ? F K|]; subst. specialize (K I). rewrite block_mid2 by (cbn [length]; rewrite app_length; lia). rewrite (proj2 (crc16_eq _ _) K).
      rewrite (put16_mid c (pre ++ body) f rest F [66; 0; 0] eq_refl). exists (0, c), f, ((pre ++ body) ++ f ++ rest, (length (pre ++ body) + 3)%nat). pose proof (field_len _ _ _ F) as LF.
      split; [reflexivity|]. split; [|auto]. rewrite (app_assoc (pre ++ body)). rewrite (app_assoc pre). replace (length (pre ++ body) + 3)%nat with (length ((pre ++ body) ++ f)) by (rewrite app_length; lia).
      apply wok_of. rewrite !app_length in *. lia.
    + exists oldc, [66; 0; 0], ((pre ++ body) ++ [66; 0; 0] ++ rest, (length (pre ++ body) + 3)%nat). split; [reflexivity|]. split; [|auto].
      rewrite (app_assoc (pre ++ body)). rewrite (app_assoc pre). replace (length (pre ++ body) + 3)%nat with (length ((pre ++ body) ++ [66; 0; 0])) by (rewrite (app_length _ [66; 0; 0]); reflexivity).
      apply wok_of. rewrite !app_length in *. cbn [length]. lia.
  - assert (ct = 2) as -> by lia. change (2 =? 1) with false. change (2 =? 2) with true. cbv iota.
    cbn [length] in S. destruct rest as [|x [|y [|z [|u [|v rest]]]]]; cbn [length] in LR; try lia. change (x :: y :: z :: u :: v :: rest) with ([x; y; z; u; v] ++ rest).
    rewrite (put32_mid 0 (pre ++ body) [68; 0; 0; 0; 0] rest field_zero32 [x; y; z; u; v] eq_refl). destruct compute.
    + specialize (Hb eq_refl). destruct (closing_exists 2 body L Hb) as (cc & f & C). inversion C as [| |c ? ? F K]; subst. specialize (K I). rewrite block_mid2 by (cbn [length]; rewrite app_length; lia).
      assert (Hb2 : Forall is_byte (body ++ [68; 0; 0; 0; 0])) by (apply Forall_app; split; [exact Hb|repeat constructor]). rewrite (proj2 (crc32c_eq hw _ c Hb2) K).
      rewrite (put32_mid c (pre ++ body) f rest F [68; 0; 0; 0; 0] eq_refl). exists (c, 0), f, ((pre ++ body) ++ f ++ rest, (length (pre ++ body) + 5)%nat). pose proof (field_len _ _ _ F) as LF.
      split; [reflexivity|]. split; [|auto]. rewrite (app_assoc (pre ++ body)). rewrite (app_assoc pre). replace (length (pre ++ body) + 5)%nat with (length ((pre ++ body) ++ f)) by (rewrite app_length; lia).
      apply wok_of. rewrite !app_length in *. lia.
    + exists oldc, [68; 0; 0; 0; 0], ((pre ++ body) ++ [68; 0; 0; 0; 0] ++ rest, (length (pre ++ body) + 5)%nat). split; [reflexivity|]. split; [|auto].
      rewrite (app_assoc (pre ++ body)). rewrite (app_assoc pre). replace (length (pre ++ body) + 5)%nat with (length ((pre ++ body) ++ [68; 0; 0; 0; 0])) by (rewrite (app_length _ [68; 0; 0; 0; 0]); reflexivity).
      apply wok_of. rewrite !app_length in *. cbn [length]. lia.
Qed.

(** Damage within the reach of the CRC. *)
Lemma closing_damage ct cc1 cc2 body1 f1 t1 body2 f2 t2 n : ct <> 0 -> Forall is_octet body1 -> Forall is_octet body2 ->
  crc_closing True ct cc1 body1 f1 -> crc_closing True ct cc2 body2 f2 -> n = (length body1 + length f1)%nat -> n = (length body2 + length f2)%nat ->
  let w := if ct =? 1 then 2%nat else 4%nat in
  (skipn (n - (w + 1)) (firstn n ((body1 ++ f1) ++ t1)) = skipn (n - (w + 1)) (firstn n ((body2 ++ f2) ++ t2)) ->
     ~ differ_within w (firstn (n - (w + 1)) ((body1 ++ f1) ++ t1)) (firstn (n - (w + 1)) ((body2 ++ f2) ++ t2))) /\
  (firstn (n - (w + 1)) ((body1 ++ f1) ++ t1) = firstn (n - (w + 1)) ((body2 ++ f2) ++ t2) ->
     skipn (n - (w + 1)) (firstn n ((body1 ++ f1) ++ t1)) = skipn (n - (w + 1)) (firstn n ((body2 ++ f2) ++ t2))).
Proof.
  intros NZ Hb1 Hb2 C1 C2 N1 N2 w.
  assert (LF : length f1 = (w + 1)%nat /\ length f2 = (w + 1)%nat).
  { rewrite (closing_len _ _ _ _ _ C1), (closing_len _ _ _ _ _ C2). unfold zero_field, w. destruct (N.eqb_spec (ct) 0); [congruence|]. destruct (ct =? 1); auto. }
  destruct LF as (LF1 & LF2).
  assert (X1 : firstn (n - (w + 1)) ((body1 ++ f1) ++ t1) = body1) by (rewrite <- app_assoc; apply firstn_exact; lia).
  assert (X2 : firstn (n - (w + 1)) ((body2 ++ f2) ++ t2) = body2) by (rewrite <- app_assoc; apply firstn_exact; lia).
  assert (Y1 : skipn (n - (w + 1)) (firstn n ((body1 ++ f1) ++ t1)) = f1) by (rewrite firstn_exact by (rewrite app_length; lia); apply skipn_exact; lia).
  assert (Y2 : skipn (n - (w + 1)) (firstn n ((body2 ++ f2) ++ t2)) = f2) by (rewrite firstn_exact by (rewrite app_length; lia); apply skipn_exact; lia).
  rewrite X1, X2, Y1, Y2.
  split; [|intros EB; rewrite <- EB in C2; apply (closing_det _ _ _ _ _ _ Hb1 C1 C2)]. intros EF D. rewrite <- EF in *.
  assert (DD : forall z, differ_within w (body1 ++ z) (body2 ++ z)).
  { intros z. destruct D as (pre & m1 & m2 & post & -> & -> & L1 & L2 & NE). exists pre, m1, m2, (post ++ z). rewrite <- !app_assoc. auto 6. }
  subst w.
  inversion C1 as [|v ? ? F1 S1|v ? ? F1 S1]; subst; [congruence|..].
  - change (1 =? 1) with true in *. cbv iota in *. inversion C2 as [|v2 ? ? F2 S2|]; subst.
    assert (v = v2) as <- by (destruct F1 as (e1 & Q1 & _ & _ & <-); destruct F2 as (e2 & Q2 & _ & _ & <-); congruence).
    specialize (S1 I). specialize (S2 I). apply crc16_eq in S1, S2.
    refine (proj1 (C44_bursts_are_detected _ _ _ _) (DD [66; 0; 0]) _); [apply Forall_app; split; [assumption|repeat constructor]..|congruence].
  - change (2 =? 1) with false in *. cbv iota in *. inversion C2 as [| |v2 ? ? F2 S2]; subst.
    assert (v = v2) as <- by (destruct F1 as (e1 & Q1 & _ & _ & <-); destruct F2 as (e2 & Q2 & _ & _ & <-); congruence).
    specialize (S1 I). specialize (S2 I).
    assert (O1 : Forall is_octet (body1 ++ [68; 0; 0; 0; 0])) by (apply Forall_app; split; [assumption|repeat constructor]).
    assert (O2 : Forall is_octet (body2 ++ [68; 0; 0; 0; 0])) by (apply Forall_app; split; [assumption|repeat constructor]).
    apply (crc32c_eq None _ _ O1) in S1. apply (crc32c_eq None _ _ O2) in S2. cbn [crc32c] in S1, S2.
    refine (proj2 (C44_bursts_are_detected _ _ O1 O2) (DD [68; 0; 0; 0; 0]) _). congruence.
Qed.

(** Octets of what is written. *)
Lemma cenc_octets v : v < W64 -> Forall is_byte (cenc v).
Proof. intros V. apply (uint_bound _ _ (cenc_uint v V)). Qed.
Lemma ctwo_octets t : small64 t -> Forall is_byte (ctwo t).
Proof. intros (A & B). constructor; [unfold is_byte; lia|]. apply Forall_app. split; now apply cenc_octets. Qed.
Lemma ceid_octets e : small64 e -> Forall is_byte (ceid e).
Proof. intros S. unfold ceid. destruct (fst e =? 0); [repeat constructor|]. do 2 (constructor; [unfold is_byte; lia|]). now apply ctwo_octets. Qed.
Lemma cprim_octets p : prim7_ok p -> Forall is_byte (cprim p).
Proof.
  intros (H1 & H2 & H3 & H4 & H5 & H6 & H7 & H8 & H9). pose proof (array7_range (q_crctype p) (q_flags p)). unfold cprim.
  repeat (apply Forall_app; split); try (now apply ceid_octets); try (now apply cenc_octets); try (now apply ctwo_octets).
  - constructor; [unfold is_byte; lia|constructor].
  - repeat constructor.
  - constructor; [exact H9|constructor].
  - destruct (is_fragment (q_flags p)); [apply Forall_app; split; now apply cenc_octets|constructor].
Qed.
(** What is written is read. *)
Lemma ctwo_form t : small64 t -> two_form t (ctwo t).
Proof. intros (A & B). exists (cenc (fst t) ++ cenc (snd t)). split; [apply items_two; eexists _, _; split; [reflexivity|]; split; now apply cenc_uint|left; reflexivity]. Qed.
Lemma ceid_form e : small64 e -> eid7_form (eid_meant e) (ceid e).
Proof.
  intros S. unfold ceid, eid_meant. destruct (fst e =? 0).
  - exists [1; 0]. split; [left; reflexivity|]. left. auto.
  - exists (2 :: ctwo e). split; [left; reflexivity|]. right. exists (ctwo e). split; [reflexivity|now apply ctwo_form].
Qed.
