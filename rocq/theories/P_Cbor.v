(** Properties C13 (CBOR unsigned integers) and C35 (CBOR arrays of them). Vocabulary: S_Cbor.v.
    [scan_any j] = the bit scan of zero yields an arbitrary byte j (see M_Cbor.v); all theorems hold for every j. *)
From Coq Require Import NArith ZArith List Bool Lia ZifyBool ZifyN.
From Verif Require Import Base M_SegmentAlloc M_Intrin M_Sdnv M_Cbor S_Cbor L_Intrin L_Cbor.
Import ListNotations.
Open Scope N_scope.

(** C13: CborEncodeU64 into any buffer: 0 and the buffer untouched if the shortest form does not fit, otherwise the
    shortest form at the front and its length; bytes beyond the ninth are never changed and with fewer than nine bytes
    of buffer none beyond the encoding is. *)
Theorem C13_encode_writes_shortest_form : forall j v buf, j < 256 -> v < W64 ->
  exists e, shortest_cbor v e /\ (length e <= 9)%nat /\
    if Nat.ltb (length buf) (length e) then cbor_encode (scan_any j) v buf = Some (0, buf)
    else exists junk, cbor_encode (scan_any j) v buf = Some (N.of_nat (length e), e ++ junk) /\
      length (e ++ junk) = length buf /\ skipn 9 (e ++ junk) = skipn 9 buf /\
      ((length buf < 9)%nat -> junk = skipn (length e) buf).
Proof.
  intros j v buf Hj Hv. exists (cenc v). split; [now apply cenc_shortest|]. pose proof (csize_pos v). unfold csize in *. split; [lia|].
  apply (encode_ok j v buf Hv Hj).
Qed.
Print Assumptions C13_encode_writes_shortest_form.
Example C13_encode_writes_shortest_form_ex :
  cbor_encode (scan_any 77) 0 (repeat 7 10) = Some (1, [0;0;0;0;0;0;0;0;0;7]) /\
  cbor_encode (scan_any 77) 65536 (repeat 7 10) = Some (5, [26;0;1;0;0;0;0;0;0;7]) /\
  cbor_encode (scan_any 77) 300 [7;7;7;7] = Some (3, [25;1;44;7]) /\ cbor_encode (scan_any 77) 300 [7;7] = Some (0, [7;7]).
Proof. repeat split; vm_compute; reflexivity. Qed.

(** C13: CborDecodeU64 on any byte string yields the item at its front or fails with size 0 and value 0; no byte
    outside the string is read. *)
Theorem C13_decode_meets_specification : forall bs, Forall is_octet bs ->
  exists r, cbor_decode bs = Some r /\ cbor_decode_spec bs r /\ forall r', cbor_decode_spec bs r' -> r' = r.
Proof.
  intros bs Hb. exists (cbor_decode_classic bs). split; [now apply decode_classic_eq|].
  pose proof (decode_classic_spec bs Hb) as S. split; [exact S|]. intros r' S'. now apply (decode_spec_det bs).
Qed.
Print Assumptions C13_decode_meets_specification.
Example C13_decode_meets_specification_ex :
  cbor_decode [25;1;44;9] = Some (300, 3) /\ cbor_decode [25;1] = Some (0, 0) /\ cbor_decode [28;1;1;1;1;1;1;1;1;1] = Some (0, 0) /\
  cbor_decode [26;0;1;0;0;9;9;9;9;9] = Some (65536, 5) /\ cbor_decode [] = Some (0, 0).
Proof. repeat split; vm_compute; reflexivity. Qed.

Theorem C13_decode_consumes_within_bounds : forall bs v k, Forall is_octet bs -> cbor_decode bs = Some (v, k) ->
  k <= N.of_nat (length bs) /\ k <= 9 /\ v < W64 /\ (k = 0 -> v = 0).
Proof.
  intros bs v k Hb E. destruct (C13_decode_meets_specification bs Hb) as (r & E' & S & _). rewrite E in E'. injection E' as <-.
  remember (v, k) as r. destruct S as [v' p rest Ep H|F]; injection Heqr as <- <-.
  - pose proof (uint_bound _ _ H) as (A & _ & _ & B). subst bs. rewrite app_length. repeat split; try lia; try assumption.
  - unfold W64. repeat split; lia.
Qed.
Print Assumptions C13_decode_consumes_within_bounds.
Example C13_decode_consumes_within_bounds_ex : cbor_decode (27 :: repeat 255 8) = Some (18446744073709551615, 9).
Proof. vm_compute. reflexivity. Qed.

(** C13: round trip with arbitrary bytes after the encoding. *)
Theorem C13_roundtrip : forall j v buf n out rest, j < 256 -> v < W64 -> Forall is_octet rest -> 0 < n ->
  cbor_encode (scan_any j) v buf = Some (n, out) -> cbor_decode (firstn (N.to_nat n) out ++ rest) = Some (v, n).
Proof.
  intros j v buf n out rest Hj Hv Hr Hn E. destruct (C13_encode_writes_shortest_form j v buf Hj Hv) as (e & S & L & B).
  destruct (Nat.ltb (length buf) (length e)).
  - rewrite E in B. injection B as -> ->. lia.
  - destruct B as (junk & E' & _). rewrite E in E'. injection E' as -> ->. rewrite Nat2N.id, firstn_exact by reflexivity.
    destruct S as (S & _). pose proof (uint_bound _ _ S) as (_ & Be & _).
    destruct (C13_decode_meets_specification (e ++ rest)) as (r & E' & _ & F); [apply Forall_app; split; assumption|].
    rewrite E'. f_equal. symmetry. apply F. now apply (CborOk _ v e rest).
Qed.
Print Assumptions C13_roundtrip.
Example C13_roundtrip_ex : cbor_encode (scan_any 3) 4294967296 (repeat 0 9) = Some (9, [27;0;0;0;1;0;0;0;0]) /\
  cbor_decode (firstn 9 [27;0;0;0;1;0;0;0;0] ++ [1;2;3]) = Some (4294967296, 9).
Proof. split; vm_compute; reflexivity. Qed.

(** C13: the size functions return the length of the shortest form. *)
Theorem C13_num_bytes_is_shortest_length : forall j v e, j < 256 -> v < W64 -> shortest_cbor v e ->
  cbor_num_bytes (scan_any j) v = Some (N.of_nat (length e)) /\ cbor_size_classic v = N.of_nat (length e).
Proof. intros j v e Hj Hv S. rewrite num_bytes_ok, size_classic, (shortest_cenc v e S) by assumption. auto. Qed.
Print Assumptions C13_num_bytes_is_shortest_length.
Example C13_num_bytes_is_shortest_length_ex : map (cbor_num_bytes (scan_any 200)) [0; 23; 24; 255; 256; 65535; 65536; 4294967295; 4294967296] =
  map Some [1; 1; 2; 2; 3; 3; 5; 5; 9].
Proof. vm_compute. reflexivity. Qed.

(** C13: fast and classic agree: same size, same encoding, same decode results. *)
Theorem C13_encode_fast_equals_classic : forall j v buf, j < 256 -> v < W64 ->
  exists n f c, cbor_encode_fast (scan_any j) v buf = Some (n, f) /\ cbor_encode_classic v buf = Some (n, c) /\
    firstn (N.to_nat n) f = firstn (N.to_nat n) c /\ skipn 9 f = skipn 9 c /\ length f = length c /\
    ((9 <= length buf)%nat -> cbor_encode_fast9 (scan_any j) v buf = Some (n, f) /\ cbor_encode_classic9 v buf = Some (n, c)).
Proof.
  intros j v buf Hj Hv. rewrite encode_classic_eq by exact Hv. pose proof (csize_pos v) as P.
  destruct (Nat.le_gt_cases 9 (length buf)) as [L|L].
  - rewrite encode_fast_big by assumption. destruct (encode_fast9_ok j v buf Hv Hj L) as (junk & E & J).
    destruct (Nat.ltb_spec (length buf) (csize v)); [lia|].
    eexists _, _, _. split; [exact E|]. split; [reflexivity|]. rewrite Nat2N.id. rewrite !firstn_exact by reflexivity.
    split; [reflexivity|]. assert (LL : length (cenc v ++ junk) = 9%nat) by (rewrite app_length; exact J). split; [|split; [|intros _; split; [exact E|]]].
    + rewrite app_assoc, skipn_exact by exact LL. rewrite (skipn_app 9 (cenc v)), (skipn_all2 (cenc v)) by (fold (csize v); lia). fold (csize v). cbn [app].
      rewrite skipn_add'. f_equal. lia.
    + rewrite !app_length, !skipn_length. fold (csize v). lia.
    + unfold cbor_encode_classic9. rewrite size_classic, branch_bytes_cenc by exact Hv. unfold write_at. fold (csize v). cbn [Nat.add firstn app].
      destruct (Nat.leb_spec (csize v) (length buf)); [reflexivity|lia].
  - rewrite encode_fast_small by assumption. destruct (Nat.ltb (length buf) (csize v)); eexists _, _, _; repeat split; lia.
Qed.
Print Assumptions C13_encode_fast_equals_classic.
Example C13_encode_fast_equals_classic_ex :
  cbor_encode_fast (scan_any 1) 70000 (repeat 3 10) = Some (5, [26;0;1;17;112;0;0;0;0;3]) /\
  cbor_encode_classic 70000 (repeat 3 10) = Some (5, [26;0;1;17;112;3;3;3;3;3]).
Proof. split; vm_compute; reflexivity. Qed.

Theorem C13_decode_fast_equals_classic : forall bs, Forall is_octet bs ->
  cbor_decode_fast bs = cbor_decode_classic bs /\
  ((9 <= length bs)%nat -> cbor_decode_fast9 bs = Some (cbor_decode_classic bs) /\ cbor_decode_classic9 bs = Some (cbor_decode_classic bs)).
Proof.
  intros bs Hb. split; [now apply decode_fast_classic|]. intros L. split; [now apply decode_fast9_classic|now apply decode_classic9_eq].
Qed.
Print Assumptions C13_decode_fast_equals_classic.
Example C13_decode_fast_equals_classic_ex : cbor_decode_fast9 [25;1;2;3;4;5;6;7;8] = Some (258, 3) /\
  cbor_decode_classic [25;1;2;3;4;5;6;7;8] = (258, 3).
Proof. split; vm_compute; reflexivity. Qed.

(** C13, strict reading: with the bit scan of zero undefined, encoding any other value is unaffected ... *)
Theorem C13_strict_scan_nonzero : forall v buf, 0 < v ->
  cbor_encode find_msb v buf = cbor_encode (scan_any 0) v buf /\ cbor_num_bytes find_msb v = cbor_num_bytes (scan_any 0) v.
Proof.
  intros v buf Hv. assert (E : cbor_msb find_msb v = cbor_msb (scan_any 0) v) by (unfold cbor_msb; now rewrite (scan_strict v 0) by lia).
  unfold cbor_encode, cbor_encode_fast9, cbor_encode_fast, cbor_num_bytes. now rewrite E.
Qed.
Print Assumptions C13_strict_scan_nonzero.
Example C13_strict_scan_nonzero_ex : cbor_encode find_msb 1 [0;0] = Some (1, [1;0]).
Proof. vm_compute. reflexivity. Qed.
(** ... but encoding the value 0 evaluates the scan of zero. *)
Theorem C13_strict_scan_of_zero_refuted : exists v buf, v < W64 /\ (9 <= length buf)%nat /\
  cbor_encode find_msb v buf = None /\ cbor_num_bytes find_msb v = None.
Proof. exists 0, (repeat 0 9). split; [vm_compute; reflexivity|]. split; [cbn; lia|]. split; vm_compute; reflexivity. Qed.
Print Assumptions C13_strict_scan_of_zero_refuted.

(** * C35 *)

(** C35: deserialising an array succeeds exactly when the string starts with a definite-length array of at most
    maxElements unsigned integers or an indefinite-length one of exactly maxElements; it returns the elements and the
    length of the array. Never reads outside the string. *)
Definition accepted (maxElements : N) (es : list N) (k : N) (bs : list N) : Prop :=
  exists p rest, bs = p ++ rest /\ k = N.of_nat (length p) /\
    ((exists h q, p = h ++ q /\ cbor_array_header (N.of_nat (length es)) h /\ cbor_items es q /\ N.of_nat (length es) <= maxElements) \/
     (exists q, p = 159 :: q ++ [255] /\ cbor_items es q /\ N.of_nat (length es) = maxElements)).
Theorem C35_array_deserialize_exact : forall maxElements bs, Forall is_octet bs ->
  exists r, cbor_array_deserialize maxElements bs = Some r /\ forall es k, r = Some (es, k) <-> accepted maxElements es k bs.
Proof.
  intros mx bs Hb. destruct bs as [|h r]; cbn [cbor_array_deserialize].
  { exists None. split; [reflexivity|]. intros es k. split; [discriminate|]. intros (p & rest & E & _ & [(hd & q & -> & (b & r & -> & _) & _)|(q & -> & _)]); discriminate. }
  pose proof (Forall_inv Hb) as Hh. simpl in Hh. pose proof (Forall_inv_tail Hb) as Hr.
  destruct (N.eqb_spec h 0x9f) as [->|N9].
  - destruct (elems_spec (N.to_nat mx) r Hr) as (d & -> & S).
    assert (NoDef : forall (es : list N) hd q rest, 159 :: r = (hd ++ q) ++ rest -> cbor_array_header (N.of_nat (length es)) hd -> False).
    { intros es hd q rest E (b & r' & -> & H). cbn [app] in E. injection E as E _.
      inversion H; lia. }
    destruct d as [((es, t), rest)|].
    + destruct S as (q & E & HI & L & Et). destruct rest as [|b rest]; [|destruct (N.eqb_spec b 255) as [->|Nb]].
      * exists None. split; [reflexivity|]. intros es' k. split; [discriminate|].
        intros (p & rest & E' & _ & [(hd & q' & -> & H & _)|(q' & -> & HI' & L')]); [destruct (NoDef _ _ _ _ E' H)|].
        cbn [app] in E'. injection E' as E'. rewrite E, app_nil_r in E'. rewrite <- (app_nil_r q), <- !app_assoc in E'.
        destruct (items_det _ _ _ HI _ _ _ HI' ltac:(lia) E') as (_ & _ & Q). discriminate.
      * eexists. split; [reflexivity|]. intros es' k. split.
        { intros Q. injection Q as <- <-. exists (159 :: q ++ [255]), rest. split; [cbn [app]; rewrite <- app_assoc; cbn [app]; now rewrite E|].
          split; [cbn [length]; rewrite app_length; cbn [length]; lia|]. right. exists q. repeat split; [exact HI|lia]. }
        { intros (p & rest' & E' & Ek & [(hd & q' & -> & H & _)|(q' & -> & HI' & L')]); [destruct (NoDef _ _ _ _ E' H)|].
          cbn [app] in E'. injection E' as E'. rewrite E, <- app_assoc in E'.
          destruct (items_det _ _ _ HI _ _ _ HI' ltac:(lia) E') as (-> & -> & _). f_equal. f_equal.
          rewrite Ek. cbn [length]. rewrite app_length. cbn [length]. lia. }
      * exists None. split; [reflexivity|]. intros es' k. split; [discriminate|].
        intros (p & rest' & E' & _ & [(hd & q' & -> & H & _)|(q' & -> & HI' & L')]); [destruct (NoDef _ _ _ _ E' H)|].
        cbn [app] in E'. injection E' as E'. rewrite E, <- app_assoc in E'.
        destruct (items_det _ _ _ HI _ _ _ HI' ltac:(lia) E') as (_ & _ & Q). cbn [app] in Q. congruence.
    + exists None. split; [reflexivity|]. intros es' k. split; [discriminate|].
      intros (p & rest' & E' & _ & [(hd & q' & -> & H & _)|(q' & -> & HI' & L')]); [destruct (NoDef _ _ _ _ E' H)|].
      cbn [app] in E'. injection E' as E'. rewrite <- app_assoc in E'. destruct (S es' q' _ ltac:(lia) HI' E').
  - assert (NoInd : forall q rest, h :: r = (159 :: q) ++ rest -> False) by (intros q rest E; injection E as E _; congruence).
    destruct (header_byte h Hh) as (Q1 & Q2). rewrite Q1.
    destruct ((128 <=? h) && (h <? 160)) eqn:EH; cbn [negb].
    2:{ exists None. split; [reflexivity|]. intros es k. split; [discriminate|].
        intros (p & rest' & E' & _ & [(hd & q' & -> & (b & r' & -> & H) & _)|(q' & -> & _)]); [|destruct (NoInd _ _ E')].
        cbn [app] in E'. injection E' as E' _. inversion H; lia. }
    rewrite Q2 by lia. set (b := h - 128).
    assert (Bb : Forall is_octet (b :: r)) by (constructor; [unfold is_octet; lia|exact Hr]).
    destruct (decode_cases (b :: r) Bb) as (num & k & -> & [(-> & F)|(p & rest & E & H & Ek & Nz & Sk)]).
    { change (0 =? 0) with true. exists None. split; [reflexivity|]. intros es k. split; [discriminate|].
      intros (p & rest' & E' & _ & [(hd & q' & -> & (b' & r' & -> & H) & _)|(q' & -> & _)]); [|destruct (NoInd _ _ E')].
      cbn [app] in E'. injection E' as Eh Er. apply (F _ _ (q' ++ rest')) in H; [destruct H|]. cbn [app]. f_equal; [lia|]. rewrite Er, <- app_assoc. reflexivity. }
    destruct (N.eqb_spec k 0) as [|_]; [congruence|].
    assert (HP : exists r', p = b :: r' /\ r = r' ++ rest).
    { destruct p as [|b' r']; [apply uint_bound in H; cbn [length] in H; lia|]. cbn [app] in E. injection E as <- E. eauto. }
    destruct HP as (r' & -> & Er). assert (SK : skipn (N.to_nat k) (h :: r) = rest).
    { rewrite Ek, Nat2N.id, Er. cbn [length skipn]. apply skipn_exact. reflexivity. }
    rewrite SK. assert (Hrest : bytes rest) by (rewrite <- SK; now apply bytes_skipn').
    (* any accepted reading has this header *)
    assert (U : forall (es : list N) q rest', h :: r = (q) ++ rest' -> forall hd q', q = hd ++ q' -> cbor_array_header (N.of_nat (length es)) hd ->
       N.of_nat (length es) = num /\ hd = h :: r' /\ rest = q' ++ rest').
    { intros es q rest' E' hd q' -> (b' & r2 & -> & H'). cbn [app] in E'. injection E' as Eh Er2. assert (b' = b) by lia. subst b'.
      rewrite Er, <- app_assoc in Er2. assert (EE : (b :: r') ++ rest = (b :: r2) ++ q' ++ rest') by (cbn [app]; now f_equal).
      destruct (uint_det _ _ _ _ _ _ H H' EE) as (<- & Hp & <-). injection Hp as <-. repeat split. f_equal. lia. }
    destruct (N.ltb_spec mx num) as [Lm|Lm].
    { exists None. split; [reflexivity|]. intros es k'. split; [discriminate|].
      intros (p & rest' & E' & _ & [(hd & q' & Ep & HH & _ & Lx)|(q' & -> & _)]); [|destruct (NoInd _ _ E')].
      destruct (U es _ _ E' _ _ Ep HH) as (<- & _). lia. }
    destruct (elems_spec (N.to_nat num) rest Hrest) as (d & -> & S). destruct d as [((es, t), rest2)|].
    + destruct S as (q & Eq & HI & L & Et). eexists. split; [reflexivity|]. intros es' k'. split.
      * intros Q. injection Q as <- <-. exists (h :: r' ++ q), rest2. split; [cbn [app]; rewrite Er, Eq, app_assoc; reflexivity|].
        split; [cbn [length] in *; rewrite app_length; lia|]. left. exists (h :: r'), q. split; [reflexivity|].
        replace (N.of_nat (length es)) with num by lia. split; [|split; [exact HI|lia]]. exists b, r'. split; [f_equal; lia|exact H].
      * intros (p & rest' & E' & Ek' & [(hd & q' & Ep & HH & HI' & Lx)|(q' & -> & _)]); [|destruct (NoInd _ _ E')].
        destruct (U es' _ _ E' _ _ Ep HH) as (En & -> & E2). rewrite Eq in E2.
        destruct (items_det _ _ _ HI _ _ _ HI' ltac:(lia) E2) as (-> & -> & _). f_equal. f_equal. rewrite Ek', Ep, app_length. cbn [length] in *. lia.
    + exists None. split; [reflexivity|]. intros es k'. split; [discriminate|].
      intros (p & rest' & E' & _ & [(hd & q' & Ep & HH & HI' & Lx)|(q' & -> & _)]); [|destruct (NoInd _ _ E')].
      destruct (U es _ _ E' _ _ Ep HH) as (En & -> & E2). destruct (S es q' rest' ltac:(lia) HI' E2).
Qed.
Print Assumptions C35_array_deserialize_exact.
Example C35_array_deserialize_exact_ex :
  cbor_array_deserialize 5 [131; 1; 24;200; 2; 77] = Some (Some ([1;200;2], 5)) /\ cbor_array_deserialize 2 [131; 1; 24;200; 2; 77] = Some None /\
  cbor_array_deserialize 2 [159; 1; 2; 255] = Some (Some ([1;2], 4)) /\ cbor_array_deserialize 3 [131; 1; 24] = Some None.
Proof. repeat split; vm_compute; reflexivity. Qed.

(** C35 is false if "array of at most maxElements" should include indefinite-length ones. *)
Theorem C35_short_indefinite_array_rejected_refuted : exists maxElements es bs, Forall is_octet bs /\ cbor_array es bs /\
  N.of_nat (length es) <= maxElements /\ cbor_array_deserialize maxElements bs = Some None.
Proof.
  exists 2, [1], [159; 1; 255]. split; [repeat constructor; unfold is_octet; lia|]. split; [|split; [cbn; lia|vm_compute; reflexivity]].
  right. exists [1]. split; [reflexivity|]. apply (ItemsCons 1 [] [1] []); [constructor; lia|constructor].
Qed.
Print Assumptions C35_short_indefinite_array_rejected_refuted.

(** C35: serialising into a buffer that is large enough (with 8 spare bytes for the unchecked variant) writes a
    shortest-form header and shortest-form elements, and the returned size is the one the size function predicts. *)
Theorem C35_array_serialize_exact : forall j es buf, j < 256 -> Forall (fun e => e < W64) es -> N.of_nat (length es) < W64 ->
  exists b r q, shortest_cbor (N.of_nat (length es)) (b :: r) /\ shortest_items es q /\
    cbor_array_size (scan_any j) es = Some (N.of_nat (length (b :: r ++ q))) /\
    ((length (b :: r ++ q) <= length buf)%nat -> exists junk,
       cbor_array_serialize (cbor_encode (scan_any j)) es buf = Some (N.of_nat (length (b :: r ++ q)), (128 + b :: r ++ q) ++ junk) /\
       length ((128 + b :: r ++ q) ++ junk) = length buf) /\
    ((length (b :: r ++ q) + 8 <= length buf)%nat -> exists junk,
       cbor_array_serialize (cbor_encode_fast9 (scan_any j)) es buf = Some (N.of_nat (length (b :: r ++ q)), (128 + b :: r ++ q) ++ junk) /\
       length ((128 + b :: r ++ q) ++ junk) = length buf).
Proof.
  intros j es buf Hj He Hn. destruct (cenc_head _ Hn) as (b & r & E & Hb). exists b, r, (concat (map cenc es)).
  pose proof (cenc_shortest _ Hn) as S. rewrite E in S. split; [exact S|]. destruct (items_cenc es He) as (HI & LI).
  split. { exists (map cenc es). split; [reflexivity|]. clear - He. induction es; constructor; [apply cenc_shortest; exact (Forall_inv He)|apply IHes; exact (Forall_inv_tail He)]. }
  assert (LL : length (b :: r ++ concat (map cenc es)) = (csize (N.of_nat (length es)) + csizes es)%nat).
  { cbn [length]. rewrite app_length, LI. unfold csize. rewrite E. cbn [length]. lia. }
  assert (HC : forall junk, chead (N.of_nat (length es)) ++ concat (map cenc es) ++ junk = (128 + b :: r ++ concat (map cenc es)) ++ junk).
  { intros junk. unfold chead. rewrite E. cbn [app]. now rewrite app_assoc. }
  split; [|split].
  - unfold cbor_array_size. rewrite num_bytes_ok, sum_sizes_ok by assumption. rewrite LL. f_equal. lia.
  - intros L. rewrite LL in *. destruct (array_serialize_ok 0 _ es (good_checked j Hj) He Hn buf ltac:(lia)) as (junk & E' & J). exists junk.
    rewrite E', HC. split; [reflexivity|]. rewrite app_length. cbn [length] in *. lia.
  - intros L. rewrite LL in *. destruct (array_serialize_ok 8 _ es (good_fast9 j Hj) He Hn buf ltac:(lia)) as (junk & E' & J). exists junk.
    rewrite E', HC. split; [reflexivity|]. rewrite app_length. cbn [length] in *. lia.
Qed.
Print Assumptions C35_array_serialize_exact.
Example C35_array_serialize_exact_ex :
  cbor_array_serialize (cbor_encode (scan_any 1)) [1;200;0] (repeat 7 6) = Some (5, [131;1;24;200;0;7]) /\
  cbor_array_size (scan_any 1) [1;200;0] = Some 5.
Proof. split; vm_compute; reflexivity. Qed.

(** C35: what was serialised deserialises to the same elements and size, whatever follows. *)
Theorem C35_array_roundtrip : forall j es buf mx n out rest, j < 256 -> Forall (fun e => e < W64) es -> N.of_nat (length es) < W64 ->
  N.of_nat (length es) <= mx -> Forall is_octet rest ->
  cbor_array_size (scan_any j) es = Some n -> n <= N.of_nat (length buf) ->
  cbor_array_serialize (cbor_encode (scan_any j)) es buf = Some (n, out) ->
  cbor_array_deserialize mx (firstn (N.to_nat n) out ++ rest) = Some (Some (es, n)).
Proof.
  intros j es buf mx n out rest Hj He Hn Hm Hrest Es Hl E.
  destruct (C35_array_serialize_exact j es buf Hj He Hn) as (b & r & q & S1 & S2 & Es' & C & _).
  assert (n = N.of_nat (length (b :: r ++ q))) by congruence. subst n. clear Es Es'.
  destruct (C ltac:(lia)) as (junk & E' & _). assert (out = (128 + b :: r ++ q) ++ junk) by congruence. subst out.
  rewrite Nat2N.id, firstn_exact by (cbn [length]; reflexivity).
  assert (IT : cbor_items es q /\ bytes q).
  { destruct S2 as (ps & -> & F2). clear - F2. induction F2 as [|v p vs ps S F IH]; cbn [concat]; [split; constructor|].
    destruct IH as (A & B). destruct S as (S & _). split; [now constructor|]. apply Forall_app. split; [apply (uint_bound _ _ S)|exact B]. }
  destruct IT as (IT & Bq). destruct S1 as (S1 & _). pose proof (uint_bound _ _ S1) as (_ & Bh & _).
  assert (B128 : b < 128). { inversion S1; lia. }
  assert (Bt : Forall is_octet ((128 + b :: r ++ q) ++ rest)).
  { cbn [app]. constructor; [unfold is_octet; lia|]. apply Forall_app. split; [|exact Hrest]. apply Forall_app. split; [exact (Forall_inv_tail Bh)|exact Bq]. }
  destruct (C35_array_deserialize_exact mx _ Bt) as (res & -> & X). f_equal. apply X.
  exists (128 + b :: r ++ q), rest. split; [reflexivity|]. split; [reflexivity|]. left. exists (128 + b :: r), q.
  split; [reflexivity|]. split; [exists b, r; auto|]. split; assumption.
Qed.
Print Assumptions C35_array_roundtrip.
Example C35_array_roundtrip_ex : exists out, cbor_array_serialize (cbor_encode (scan_any 1)) [1;200;0] (repeat 7 6) = Some (5, out) /\
  cbor_array_deserialize 10 (firstn 5 out ++ [9;9]) = Some (Some ([1;200;0], 5)).
Proof. exists [131;1;24;200;0;7]. split; vm_compute; reflexivity. Qed.

(** C35: the checked serialiser never writes outside a non-empty buffer, even one that is too small ... *)
Theorem C35_array_serialize_memory_safe : forall j es buf, j < 256 -> Forall (fun e => e < W64) es -> N.of_nat (length es) < W64 -> buf <> [] ->
  exists n out, cbor_array_serialize (cbor_encode (scan_any j)) es buf = Some (n, out) /\ length out = length buf /\ n <= N.of_nat (length buf).
Proof.
  intros j es buf Hj He Hn Hb. unfold cbor_array_serialize. destruct (encode_total j (N.of_nat (length es)) buf Hn Hj) as (n & out & -> & L & Hnn).
  destruct out as [|b r]; [destruct buf; [congruence|discriminate]|]. cbn [or_header].
  destruct (elems_total j es He Hj (skipn (N.to_nat n) (N.lor b 128 :: r))) as (m & out2 & -> & L2 & Hm).
  eexists _, _. split; [reflexivity|]. rewrite app_length, firstn_length. rewrite skipn_length in *. cbn [length] in *. lia.
Qed.
Print Assumptions C35_array_serialize_memory_safe.
Example C35_array_serialize_memory_safe_ex : cbor_array_serialize (cbor_encode (scan_any 1)) [300;5] [7;7] = Some (2, [130;5]).
Proof. vm_compute. reflexivity. Qed.
(** ... but with an empty buffer it modifies the byte after it. *)
Theorem C35_array_serialize_empty_buffer_refuted : exists es, Forall (fun e => e < W64) es /\
  cbor_array_serialize (cbor_encode (scan_any 0)) es [] = None.
Proof. exists [1]. split; [repeat constructor; unfold W64; lia|vm_compute; reflexivity]. Qed.
Print Assumptions C35_array_serialize_empty_buffer_refuted.

(** C35: the two-element variants. *)
Definition accepted_two (e1 e2 k : N) (bs : list N) : Prop :=
  exists p q rest, bs = p ++ rest /\ k = N.of_nat (length p) /\ cbor_items [e1; e2] q /\ (p = 130 :: q \/ p = 159 :: q ++ [255]).
Theorem C35_two_deserialize_exact : forall bs, Forall is_octet bs ->
  exists r, cbor_two_deserialize bs = Some r /\ forall e1 e2 k, r = Some (e1, e2, k) <-> accepted_two e1 e2 k bs.
Proof.
  intros bs Hb. destruct bs as [|h r]; cbn [cbor_two_deserialize].
  { exists None. split; [reflexivity|]. intros e1 e2 k. split; [discriminate|]. intros (p & q & rest & E & _ & _ & [-> | ->]); discriminate. }
  pose proof (Forall_inv_tail Hb) as Hr.
  destruct (negb (h =? 130) && negb (h =? 159)) eqn:EH.
  { exists None. split; [reflexivity|]. intros e1 e2 k. split; [discriminate|]. intros (p & q & rest & E & _ & _ & [-> | ->]);
    cbn [app] in E; injection E as E _; subst h; discriminate. }
  assert (INV : forall e1 e2 k, accepted_two e1 e2 k (h :: r) -> exists p1 p2 rest, r = p1 ++ p2 ++ rest /\ cbor_uint e1 p1 /\ cbor_uint e2 p2 /\
     ((h = 130 /\ k = N.of_nat (S (length p1 + length p2))) \/ (h = 159 /\ k = N.of_nat (2 + length p1 + length p2) /\ exists rest', rest = 255 :: rest'))).
  { intros e1 e2 k (p & q & rest & E & Ek & HI & [-> | ->]); inversion HI as [|v vs p1 q1 H1 HI1]; subst;
    inversion HI1 as [|v2 vs2 p2 q2 H2 HI2]; subst; inversion HI2; subst; rewrite ?app_nil_r in *; cbn [app] in E; injection E as Eh Er.
    - exists p1, p2, rest. rewrite app_assoc. split; [exact Er|]. split; [exact H1|]. split; [exact H2|]. left. split; [exact Eh|]. cbn [length]. rewrite app_length. lia.
    - exists p1, p2, (255 :: rest). split; [rewrite Er, <- !app_assoc; reflexivity|]. split; [exact H1|]. split; [exact H2|]. right.
      split; [exact Eh|]. split; [cbn [length]; rewrite !app_length; cbn [length]; lia|eauto]. }
  destruct (decode_cases r Hr) as (e1 & n1 & -> & [(-> & F)|(p1 & r1 & E1 & H1 & En1 & Nz1 & Sk1)]).
  { change (0 =? 0) with true. exists None. split; [reflexivity|]. intros a b k. split; [discriminate|]. intros A.
    destruct (INV _ _ _ A) as (p1 & p2 & rest & E & U1 & _). destruct (F _ _ _ E U1). }
  destruct (N.eqb_spec n1 0) as [|_]; [congruence|]. rewrite Sk1.
  assert (Hr1 : bytes r1) by (rewrite <- Sk1; now apply bytes_skipn').
  destruct (decode_cases r1 Hr1) as (e2 & n2 & -> & [(-> & F)|(p2 & r2 & E2 & H2 & En2 & Nz2 & Sk2)]).
  { change (0 =? 0) with true. exists None. split; [reflexivity|]. intros a b k. split; [discriminate|]. intros A.
    destruct (INV _ _ _ A) as (p1' & p2 & rest & E & U1 & U2 & _). rewrite E1 in E. destruct (uint_det _ _ _ _ _ _ H1 U1 E) as (_ & _ & E').
    destruct (F _ _ _ E' U2). }
  destruct (N.eqb_spec n2 0) as [|_]; [congruence|]. rewrite Sk2.
  assert (DET : forall a b k, accepted_two a b k (h :: r) -> a = e1 /\ b = e2 /\
     ((h = 130 /\ k = N.of_nat (S (length p1 + length p2))) \/ (h = 159 /\ k = N.of_nat (2 + length p1 + length p2) /\ exists rest', r2 = 255 :: rest'))).
  { intros a b k A. destruct (INV _ _ _ A) as (p1' & p2' & rest & E & U1 & U2 & C). rewrite E1 in E.
    destruct (uint_det _ _ _ _ _ _ H1 U1 E) as (-> & -> & E'). rewrite E2 in E'. destruct (uint_det _ _ _ _ _ _ H2 U2 E') as (-> & -> & ->). auto. }
  pose proof (uint_bound _ _ H1) as (_ & _ & _ & L1). pose proof (uint_bound _ _ H2) as (_ & _ & _ & L2).
  assert (IT : cbor_items [e1; e2] (p1 ++ p2)).
  { constructor; [exact H1|]. rewrite <- (app_nil_r p2). constructor; [exact H2|constructor]. }
  destruct (N.eqb_spec h 159) as [->|Nh].
  - destruct r2 as [|b rest]; [|destruct (N.eqb_spec b 255) as [->|Nb]].
    + exists None. split; [reflexivity|]. intros a b k. split; [discriminate|]. intros A. destruct (DET _ _ _ A) as (_ & _ & [(Q & _)|(_ & _ & rest' & Q)]); discriminate.
    + eexists. split; [reflexivity|]. intros a b k. split.
      * intros Q. injection Q as <- <- <-. exists (159 :: (p1 ++ p2) ++ [255]), (p1 ++ p2), rest. split; [cbn [app]; rewrite E1, E2, <- !app_assoc; reflexivity|].
        split; [cbn [length]; rewrite !app_length; cbn [length]; rewrite N.mod_small; lia|]. split; [exact IT|]. now right.
      * intros A. destruct (DET _ _ _ A) as (-> & -> & [(Q & _)|(_ & -> & _)]); [discriminate|]. f_equal. f_equal. rewrite N.mod_small; lia.
    + exists None. split; [reflexivity|]. intros a b' k. split; [discriminate|]. intros A. destruct (DET _ _ _ A) as (_ & _ & [(Q & _)|(_ & _ & rest' & Q)]); [discriminate|congruence].
  - assert (h = 130) by (destruct (N.eqb_spec h 130); [assumption|]; destruct (N.eqb_spec h 159); [congruence|]; discriminate). subst h.
    eexists. split; [reflexivity|]. intros a b k. split.
    + intros Q. injection Q as <- <- <-. exists (130 :: p1 ++ p2), (p1 ++ p2), r2. split; [cbn [app]; rewrite E1, E2, <- !app_assoc; reflexivity|].
      split; [cbn [length]; rewrite !app_length; rewrite N.mod_small; lia|]. split; [exact IT|]. now left.
    + intros A. destruct (DET _ _ _ A) as (-> & -> & [(_ & ->)|(Q & _)]); [|discriminate]. f_equal. f_equal. rewrite N.mod_small; lia.
Qed.
Print Assumptions C35_two_deserialize_exact.
Example C35_two_deserialize_exact_ex : cbor_two_deserialize [130; 24; 99; 5; 1] = Some (Some (99, 5, 4)) /\
  cbor_two_deserialize [159; 24; 99; 5; 255] = Some (Some (99, 5, 5)) /\ cbor_two_deserialize [159; 24; 99; 5] = Some None.
Proof. repeat split; vm_compute; reflexivity. Qed.

Theorem C35_two_serialize_exact : forall j e1 e2 buf, j < 256 -> e1 < W64 -> e2 < W64 ->
  exists q, shortest_items [e1; e2] q /\ cbor_two_size (scan_any j) e1 e2 = Some (N.of_nat (length (130 :: q))) /\
    ((S (length q) <= length buf)%nat -> exists junk,
       cbor_two_serialize_checked (scan_any j) e1 e2 buf = Some (N.of_nat (length (130 :: q)), (130 :: q) ++ junk) /\ length ((130 :: q) ++ junk) = length buf) /\
    ((S (length q) + 8 <= length buf)%nat -> exists junk,
       cbor_two_serialize (scan_any j) e1 e2 buf = Some (N.of_nat (length (130 :: q)), (130 :: q) ++ junk) /\ length ((130 :: q) ++ junk) = length buf).
Proof.
  intros j e1 e2 buf Hj H1 H2. exists (cenc e1 ++ cenc e2). split.
  { exists [cenc e1; cenc e2]. split; [cbn [concat]; now rewrite app_nil_r|]. repeat constructor; now apply cenc_shortest. }
  pose proof (csize_pos e1). pose proof (csize_pos e2).
  assert (L : length (130 :: cenc e1 ++ cenc e2) = (1 + csize e1 + csize e2)%nat) by (cbn [length]; rewrite app_length; unfold csize; lia).
  change (S (length (cenc e1 ++ cenc e2))) with (length (130 :: cenc e1 ++ cenc e2)). rewrite L. split; [unfold cbor_two_size; rewrite !num_bytes_ok by assumption; f_equal; lia|].
  assert (G : forall slack enc, good_enc slack enc -> forall rest, (csize e1 + csize e2 + slack <= length rest)%nat -> exists junk,
     enc_then enc e1 rest (fun rest1 => enc e2 rest1) = Some (N.of_nat (csize e1 + csize e2), (cenc e1 ++ cenc e2) ++ junk) /\ (csize e1 + csize e2 + length junk = length rest)%nat).
  { intros slack enc G rest Lr. destruct (enc_then_ok slack enc e1 rest (fun rest1 => enc e2 rest1) G H1 ltac:(lia)) as (rest1 & L1 & ->).
    destruct (G e2 rest1 H2 ltac:(lia)) as (junk & -> & L2). exists junk. rewrite <- app_assoc. split; [f_equal; f_equal; lia|].
    rewrite app_length in L2. unfold csize in *. lia. }
  split; intros Lb; (destruct buf as [|b rest]; [cbn [length] in Lb; lia|]); cbn [length] in Lb; cbn [cbor_two_serialize_checked cbor_two_serialize].
  - destruct (G 0%nat _ (good_checked j Hj) rest ltac:(lia)) as (junk & -> & J). exists junk. cbn [option_map fst snd]. split; [f_equal; f_equal; lia|].
    rewrite app_length, L. cbn [length]. lia.
  - destruct (G 8%nat _ (good_fast9 j Hj) rest ltac:(lia)) as (junk & -> & J). exists junk. cbn [option_map fst snd]. split; [f_equal; f_equal; lia|].
    rewrite app_length, L. cbn [length]. lia.
Qed.
Print Assumptions C35_two_serialize_exact.
Example C35_two_serialize_exact_ex : cbor_two_serialize_checked (scan_any 9) 99 0 (repeat 7 5) = Some (4, [130;24;99;0;7]) /\
  cbor_two_serialize (scan_any 9) 99 0 (repeat 7 12) = Some (4, [130;24;99;0;0;0;0;0;0;0;0;0]).
Proof. split; vm_compute; reflexivity. Qed.
(** The checked variant stays inside every buffer, including the empty one. *)
Theorem C35_two_serialize_memory_safe : forall j e1 e2 buf, j < 256 -> e1 < W64 -> e2 < W64 ->
  exists n out, cbor_two_serialize_checked (scan_any j) e1 e2 buf = Some (n, out) /\ length out = length buf /\ n <= N.of_nat (length buf).
Proof.
  intros j e1 e2 buf Hj H1 H2. destruct buf as [|b rest]; cbn [cbor_two_serialize_checked]; [exists 0, []; repeat split; lia|].
  unfold enc_then. destruct (encode_total j e1 rest H1 Hj) as (n & out & -> & L & Hn).
  destruct (encode_total j e2 (skipn (N.to_nat n) out) H2 Hj) as (m & out2 & -> & L2 & Hm). rewrite skipn_length in *.
  eexists _, _. split; [reflexivity|]. cbn [fst snd length]. rewrite app_length, firstn_length. lia.
Qed.
Print Assumptions C35_two_serialize_memory_safe.
Example C35_two_serialize_memory_safe_ex : cbor_two_serialize_checked (scan_any 9) 99 0 [7;7] = Some (2, [130;0]).
Proof. vm_compute. reflexivity. Qed.
