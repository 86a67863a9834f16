(** Properties C11, C12: the SDNV codec. Vocabulary: S_Sdnv.v. *)
From Coq Require Import NArith ZArith List Bool Lia ZifyBool ZifyN.
From Verif Require Import Base M_SegmentAlloc M_Intrin M_Sdnv S_Sdnv L_Intrin L_Sdnv.
Import ListNotations.
Open Scope N_scope.

(** C11: SdnvEncodeU64 into any buffer: 0 and the buffer untouched if the shortest SDNV does not fit, otherwise the
    shortest SDNV at the front and its length; bytes beyond the tenth are never changed (the fast path may overwrite
    up to ten), and with a buffer of fewer than ten bytes none beyond the SDNV is. *)
Theorem C11_encode64_writes_shortest_sdnv : forall v buf, v < W64 ->
  exists e, shortest_sdnv v e /\ (length e <= 10)%nat /\
    if Nat.ltb (length buf) (length e) then sdnv_encode64 v buf = Some (0, buf)
    else exists junk, sdnv_encode64 v buf = Some (N.of_nat (length e), e ++ junk) /\
      length (e ++ junk) = length buf /\ skipn 10 (e ++ junk) = skipn 10 buf /\
      ((length buf < 10)%nat -> junk = skipn (length e) buf).
Proof.
  intros v buf Hv. destruct (branch64 v Hv) as (A & B & C). set (n := sdnv_branch sdnv64_max 1 v) in *.
  exists (enc n v). rewrite enc_length by lia. split; [now apply enc_shortest|]. split; [lia|].
  unfold sdnv_encode64. destruct (Nat.leb_spec 10 (length buf)) as [L|L].
  - destruct (encode64_fast_ok v buf Hv L) as (junk & E & J). fold n in E, J.
    destruct (Nat.ltb_spec (length buf) n); [lia|]. exists (junk ++ skipn 10 buf). split; [exact E|].
    assert (LL : length (enc n v ++ junk) = 10%nat) by (rewrite app_length, enc_length; lia).
    rewrite app_assoc. split; [rewrite app_length, LL, skipn_length; lia|]. split; [|lia].
    rewrite skipn_app, LL, Nat.sub_diag, skipn_all2 by lia. reflexivity.
  - change (sdnv_encode64_classic v buf) with (sdnv_encode_classic sdnv64_max v buf).
    rewrite encode_classic_ok by (fold n; lia). fold n.
    destruct (Nat.ltb_spec (length buf) n); [reflexivity|]. exists (skipn n buf). split; [reflexivity|].
    assert (LL : length (enc n v ++ skipn n buf) = length buf) by (rewrite app_length, enc_length, skipn_length; lia).
    split; [exact LL|]. split; [|reflexivity]. rewrite !skipn_all2 by lia. reflexivity.
Qed.
Print Assumptions C11_encode64_writes_shortest_sdnv.
Example C11_encode64_writes_shortest_sdnv_ex :
  sdnv_encode64 18446744073709551615 (repeat 7 12) = Some (10, [129;255;255;255;255;255;255;255;255;127;7;7]) /\
  sdnv_encode64 300 [7;7;7] = Some (2, [130;44;7]) /\ sdnv_encode64 300 [7] = Some (0, [7]).
Proof. split; [|split]; vm_compute; reflexivity. Qed.

(** C11: the same for SdnvEncodeU32; the fast path may overwrite eight bytes. *)
Theorem C11_encode32_writes_shortest_sdnv : forall v buf, v < W32 ->
  exists e, shortest_sdnv v e /\ (length e <= 5)%nat /\
    if Nat.ltb (length buf) (length e) then sdnv_encode32 v buf = Some (0, buf)
    else exists junk, sdnv_encode32 v buf = Some (N.of_nat (length e), e ++ junk) /\
      length (e ++ junk) = length buf /\ skipn 8 (e ++ junk) = skipn 8 buf /\
      ((length buf < 8)%nat -> junk = skipn (length e) buf).
Proof.
  intros v buf Hv. destruct (branch64 v ltac:(unfold W32, W64 in *; lia)) as (A & B & C). rewrite <- branch32 in A, B, C by exact Hv.
  set (n := sdnv_branch sdnv32_max 1 v) in *.
  destruct (encode32_fast_ok v (repeat 0 8) Hv ltac:(rewrite repeat_length; lia)) as (_ & _ & _ & N5). fold n in N5.
  exists (enc n v). rewrite enc_length by lia. split; [now apply enc_shortest|]. split; [lia|].
  unfold sdnv_encode32. destruct (Nat.leb_spec 8 (length buf)) as [L|L].
  - destruct (encode32_fast_ok v buf Hv L) as (junk & E & J & _). fold n in E, J.
    destruct (Nat.ltb_spec (length buf) n); [lia|]. exists (junk ++ skipn 8 buf). split; [exact E|].
    assert (LL : length (enc n v ++ junk) = 8%nat) by (rewrite app_length, enc_length; lia).
    rewrite app_assoc. split; [rewrite app_length, LL, skipn_length; lia|]. split; [|lia].
    rewrite skipn_app, LL, Nat.sub_diag, skipn_all2 by lia. reflexivity.
  - change (sdnv_encode32_classic v buf) with (sdnv_encode_classic sdnv32_max v buf).
    rewrite encode_classic_ok by (fold n; lia). fold n.
    destruct (Nat.ltb_spec (length buf) n); [reflexivity|]. exists (skipn n buf). split; [reflexivity|].
    assert (LL : length (enc n v ++ skipn n buf) = length buf) by (rewrite app_length, enc_length, skipn_length; lia).
    split; [exact LL|]. split; [|reflexivity]. rewrite !skipn_all2 by lia. reflexivity.
Qed.
Print Assumptions C11_encode32_writes_shortest_sdnv.
Example C11_encode32_writes_shortest_sdnv_ex :
  sdnv_encode32 4294967295 (repeat 7 9) = Some (5, [143;255;255;255;127;0;0;0;7]) /\
  sdnv_encode32 128 [7;7;7] = Some (2, [129;0;7]) /\ sdnv_encode32 128 [7] = Some (0, [7]).
Proof. split; [|split]; vm_compute; reflexivity. Qed.

(** C11: SdnvDecodeU64 on any byte string does what the specification says, without undefined behaviour; the
    specification determines the result. *)
Theorem C11_decode64_meets_specification : forall bs, Forall is_byte bs ->
  exists r, sdnv_decode64 bs = Some r /\ decode_spec 10 W64 bs r /\ forall r', decode_spec 10 W64 bs r' -> r' = r.
Proof.
  intros bs Hb. exists (closed 10 0x81 bs). split; [now apply decode64_closed|].
  assert (S : decode_spec 10 W64 bs (closed 10 0x81 bs)).
  { replace W64 with (128 ^ N.of_nat (10 - 1) * (0x81 - 127)) by reflexivity. apply closed_spec; [lia|lia|exact Hb]. }
  split; [exact S|]. intros r' S'. now apply (decode_spec_fun 10 W64 bs).
Qed.
Print Assumptions C11_decode64_meets_specification.
Example C11_decode64_meets_specification_ex :
  sdnv_decode64 [130;44;7] = Some (300, 2) /\ sdnv_decode64 [130;172] = Some (1, 0) /\
  sdnv_decode64 (130 :: repeat 128 8 ++ [0]) = Some (0, 0) /\
  sdnv_decode64 (129 :: repeat 255 8 ++ 127 :: repeat 9 20) = Some (18446744073709551615, 10).
Proof. repeat split; vm_compute; reflexivity. Qed.

Theorem C11_decode32_meets_specification : forall bs, Forall is_byte bs ->
  exists r, sdnv_decode32 bs = Some r /\ decode_spec 5 W32 bs r /\ forall r', decode_spec 5 W32 bs r' -> r' = r.
Proof.
  intros bs Hb. exists (closed 5 0x8f bs). split; [now apply decode32_closed|].
  assert (S : decode_spec 5 W32 bs (closed 5 0x8f bs)).
  { replace W32 with (128 ^ N.of_nat (5 - 1) * (0x8f - 127)) by reflexivity. apply closed_spec; [lia|lia|exact Hb]. }
  split; [exact S|]. intros r' S'. now apply (decode_spec_fun 5 W32 bs).
Qed.
Print Assumptions C11_decode32_meets_specification.
Example C11_decode32_meets_specification_ex :
  sdnv_decode32 [130;44;7] = Some (300, 2) /\ sdnv_decode32 [143;255;255;255;127;1;2;3;4] = Some (4294967295, 5) /\
  sdnv_decode32 [144;128;128;128;0;1;2;3;4] = Some (0, 0).
Proof. repeat split; vm_compute; reflexivity. Qed.

(** C11: decoding consumes no more than the buffer and no more than ten bytes. *)
Theorem C11_decode64_consumes_within_bounds : forall bs v k, Forall is_byte bs -> sdnv_decode64 bs = Some (v, k) ->
  k <= N.of_nat (length bs) /\ k <= 10 /\ v < W64 /\ (k = 0 -> v = 0 \/ v = 1).
Proof.
  intros bs v k Hb E. destruct (C11_decode64_meets_specification bs Hb) as (r & E' & S & _). rewrite E in E'. injection E' as <-.
  remember (v, k) as r. destruct S; injection Heqr as <- <-; subst; rewrite ?app_length; unfold W64 in *; repeat split; try lia.
  destruct H0 as (i & l & -> & _). rewrite app_length. simpl. lia.
Qed.
Print Assumptions C11_decode64_consumes_within_bounds.
Example C11_decode64_consumes_within_bounds_ex : sdnv_decode64 [255;255;1;9] = Some (2097025, 3).
Proof. vm_compute. reflexivity. Qed.

Lemma decode_of_shortest v e rest maxb w r : shortest_sdnv v e -> (length e <= maxb)%nat -> v < w ->
  (forall r', decode_spec maxb w (e ++ rest) r' -> r' = r) -> r = (v, N.of_nat (length e)).
Proof.
  intros (S1 & S2 & _) HL Hv HF. symmetry. apply HF. rewrite <- S2. eapply DecOk; [reflexivity|exact S1|exact HL|]. lia.
Qed.

(** C11: what SdnvEncodeU64 wrote, followed by anything, decodes to the value and the same length. *)
Theorem C11_roundtrip64 : forall v buf n out rest, v < W64 -> Forall is_byte rest -> 0 < n ->
  sdnv_encode64 v buf = Some (n, out) -> sdnv_decode64 (firstn (N.to_nat n) out ++ rest) = Some (v, n).
Proof.
  intros v buf n out rest Hv Hr Hn E. destruct (C11_encode64_writes_shortest_sdnv v buf Hv) as (e & S & L & B).
  destruct (Nat.ltb (length buf) (length e)).
  - rewrite E in B. injection B as -> ->. lia.
  - destruct B as (junk & E' & _). rewrite E in E'. injection E' as -> ->. rewrite Nat2N.id.
    rewrite firstn_app, firstn_all, Nat.sub_diag. cbn [firstn]. rewrite app_nil_r.
    assert (Hb : Forall is_byte (e ++ rest)).
    { apply Forall_app. split; [|exact Hr]. apply is_sdnv_bytes. apply S. }
    destruct (C11_decode64_meets_specification (e ++ rest) Hb) as (r & E' & _ & F). rewrite E'. f_equal.
    now apply (decode_of_shortest v e rest 10 W64).
Qed.
Print Assumptions C11_roundtrip64.
Example C11_roundtrip64_ex : exists out, sdnv_encode64 9223372036854775808 (repeat 0 10) = Some (10, out) /\
  sdnv_decode64 (firstn 10 out ++ [255;255;255]) = Some (9223372036854775808, 10).
Proof. exists (129 :: repeat 128 8 ++ [0]). split; vm_compute; reflexivity. Qed.

Theorem C11_roundtrip32 : forall v buf n out rest, v < W32 -> Forall is_byte rest -> 0 < n ->
  sdnv_encode32 v buf = Some (n, out) -> sdnv_decode32 (firstn (N.to_nat n) out ++ rest) = Some (v, n).
Proof.
  intros v buf n out rest Hv Hr Hn E. destruct (C11_encode32_writes_shortest_sdnv v buf Hv) as (e & S & L & B).
  destruct (Nat.ltb (length buf) (length e)).
  - rewrite E in B. injection B as -> ->. lia.
  - destruct B as (junk & E' & _). rewrite E in E'. injection E' as -> ->. rewrite Nat2N.id.
    rewrite firstn_app, firstn_all, Nat.sub_diag. cbn [firstn]. rewrite app_nil_r.
    assert (Hb : Forall is_byte (e ++ rest)).
    { apply Forall_app. split; [|exact Hr]. apply is_sdnv_bytes. apply S. }
    destruct (C11_decode32_meets_specification (e ++ rest) Hb) as (r & E' & _ & F). rewrite E'. f_equal.
    now apply (decode_of_shortest v e rest 5 W32).
Qed.
Print Assumptions C11_roundtrip32.
Example C11_roundtrip32_ex : exists out, sdnv_encode32 2147483648 (repeat 0 6) = Some (5, out) /\
  sdnv_decode32 (firstn 5 out ++ [255;255;255]) = Some (2147483648, 5).
Proof. exists [136;128;128;128;0;0]. split; vm_compute; reflexivity. Qed.

(** C11: SdnvGetNumBytesRequiredToEncode is the length of the shortest SDNV. *)
Theorem C11_num_bytes_is_shortest_length : forall v e, v < W64 -> shortest_sdnv v e -> sdnv_num_bytes v = Some (N.of_nat (length e)).
Proof.
  intros v e Hv S. rewrite num_bytes_branch by exact Hv. destruct (branch64 v Hv) as (A & B & C).
  rewrite (shortest_unique v e (enc (sdnv_branch sdnv64_max 1 v) v) S) by (apply enc_shortest; try assumption; lia).
  rewrite enc_length by lia. reflexivity.
Qed.
Print Assumptions C11_num_bytes_is_shortest_length.
Example C11_num_bytes_is_shortest_length_ex :
  map sdnv_num_bytes [0; 127; 128; 16383; 16384; 18446744073709551615] = map Some [1; 1; 2; 2; 3; 10].
Proof. vm_compute. reflexivity. Qed.

(** C12: the fast decoders return exactly what the classic ones do, on every input long enough for the fast path. *)
Theorem C12_decode64_fast_equals_classic : forall bs, Forall is_byte bs -> (16 <= length bs)%nat ->
  sdnv_decode64_fast bs = Some (sdnv_decode64_classic bs).
Proof. intros bs Hb HL. rewrite fast64_closed, classic64_closed by assumption. reflexivity. Qed.
Print Assumptions C12_decode64_fast_equals_classic.
Example C12_decode64_fast_equals_classic_ex : map sdnv_decode64_fast
  [repeat 200 16; repeat 200 9 ++ repeat 1 7; 129 :: repeat 200 8 ++ repeat 1 7; repeat 200 3 ++ repeat 5 13] =
  [Some (0,0); Some (0,0); Some (14452370356961420289,10); Some (152183813,4)].
Proof. vm_compute. reflexivity. Qed.

Theorem C12_decode32_fast_equals_classic : forall bs, Forall is_byte bs -> (8 <= length bs)%nat ->
  sdnv_decode32_fast bs = Some (sdnv_decode32_classic bs).
Proof. intros bs Hb HL. rewrite fast32_closed, classic32_closed by assumption. reflexivity. Qed.
Print Assumptions C12_decode32_fast_equals_classic.
Example C12_decode32_fast_equals_classic_ex : map sdnv_decode32_fast
  [repeat 200 8; 144 :: repeat 200 3 ++ repeat 1 4; 130 :: repeat 200 3 ++ repeat 1 4; [129;1;2;3;4;5;6;7]] =
  [Some (0,0); Some (0,0); Some (689054721,5); Some (129,2)].
Proof. vm_compute. reflexivity. Qed.

(** C12: the fast encoders return the same size as the classic ones and write the same encoding. *)
Theorem C12_encode64_fast_equals_classic : forall v buf, v < W64 -> (10 <= length buf)%nat ->
  exists n f c, sdnv_encode64_fast v buf = Some (n, f) /\ sdnv_encode64_classic v buf = Some (n, c) /\
    firstn (N.to_nat n) f = firstn (N.to_nat n) c /\ 0 < n <= 10 /\ skipn 10 f = skipn 10 c /\ length f = length c.
Proof.
  intros v buf Hv HL. destruct (branch64 v Hv) as (A & _). destruct (encode64_fast_ok v buf Hv HL) as (junk & E & J).
  set (n := sdnv_branch sdnv64_max 1 v) in *.
  assert (LL : length (enc n v ++ junk) = 10%nat) by (rewrite app_length, enc_length; lia).
  exists (N.of_nat n), (enc n v ++ junk ++ skipn 10 buf), (enc n v ++ skipn n buf). split; [exact E|].
  split; [|split; [|split; [lia|split]]].
  - change (sdnv_encode64_classic v buf) with (sdnv_encode_classic sdnv64_max v buf). rewrite encode_classic_ok by (fold n; lia). fold n.
    destruct (Nat.ltb_spec (length buf) n); [lia|reflexivity].
  - rewrite Nat2N.id, !firstn_app, !enc_length, Nat.sub_diag by lia. reflexivity.
  - rewrite app_assoc, skipn_app, LL, Nat.sub_diag, skipn_all2 by lia.
    rewrite (skipn_app 10 (enc n v)), (skipn_all2 (enc n v)), enc_length by (rewrite ?enc_length; lia).
    cbn [app]. rewrite !skipn_add. replace (10 - n + n)%nat with 10%nat by lia. reflexivity.
  - rewrite !app_length, enc_length, !skipn_length by lia. lia.
Qed.
Print Assumptions C12_encode64_fast_equals_classic.
Example C12_encode64_fast_equals_classic_ex :
  sdnv_encode64_fast 72057594037927936 (repeat 3 11) = Some (9, [129;128;128;128;128;128;128;128;0;3;3]) /\
  sdnv_encode64_classic 72057594037927936 (repeat 3 11) = Some (9, [129;128;128;128;128;128;128;128;0;3;3]).
Proof. split; vm_compute; reflexivity. Qed.

Theorem C12_encode32_fast_equals_classic : forall v buf, v < W32 -> (8 <= length buf)%nat ->
  exists n f c, sdnv_encode32_fast v buf = Some (n, f) /\ sdnv_encode32_classic v buf = Some (n, c) /\
    firstn (N.to_nat n) f = firstn (N.to_nat n) c /\ 0 < n <= 5 /\ skipn 8 f = skipn 8 c /\ length f = length c.
Proof.
  intros v buf Hv HL. destruct (branch64 v ltac:(unfold W32, W64 in *; lia)) as (A & _). rewrite <- branch32 in A by exact Hv.
  destruct (encode32_fast_ok v buf Hv HL) as (junk & E & J & N5).
  set (n := sdnv_branch sdnv32_max 1 v) in *.
  assert (LL : length (enc n v ++ junk) = 8%nat) by (rewrite app_length, enc_length; lia).
  exists (N.of_nat n), (enc n v ++ junk ++ skipn 8 buf), (enc n v ++ skipn n buf). split; [exact E|].
  split; [|split; [|split; [lia|split]]].
  - change (sdnv_encode32_classic v buf) with (sdnv_encode_classic sdnv32_max v buf). rewrite encode_classic_ok by (fold n; lia). fold n.
    destruct (Nat.ltb_spec (length buf) n); [lia|reflexivity].
  - rewrite Nat2N.id, !firstn_app, !enc_length, Nat.sub_diag by lia. reflexivity.
  - rewrite app_assoc, skipn_app, LL, Nat.sub_diag, skipn_all2 by lia.
    rewrite (skipn_app 8 (enc n v)), (skipn_all2 (enc n v)), enc_length by (rewrite ?enc_length; lia).
    cbn [app]. rewrite !skipn_add. replace (8 - n + n)%nat with 8%nat by lia. reflexivity.
  - rewrite !app_length, enc_length, !skipn_length by lia. lia.
Qed.
Print Assumptions C12_encode32_fast_equals_classic.
Example C12_encode32_fast_equals_classic_ex :
  sdnv_encode32_fast 70000 (repeat 3 9) = Some (3, [132;162;112;0;0;0;0;0;3]) /\
  sdnv_encode32_classic 70000 (repeat 3 9) = Some (3, [132;162;112;3;3;3;3;3;3]).
Proof. split; vm_compute; reflexivity. Qed.

(** C12: the unchecked classic encoders (buffers of fixed size) do the same as the checked ones whenever the SDNV fits. *)
Theorem C12_encode_nocheck_equals_classic : forall v buf n out, 0 < n ->
  (sdnv_encode64_classic v buf = Some (n, out) -> sdnv_encode_classic_nocheck sdnv64_max v buf = Some (n, out)) /\
  (sdnv_encode32_classic v buf = Some (n, out) -> sdnv_encode_classic_nocheck sdnv32_max v buf = Some (n, out)).
Proof.
  intros v buf n out Hn. unfold sdnv_encode64_classic, sdnv_encode32_classic, sdnv_encode_classic, sdnv_encode_classic_nocheck.
  split; match goal with |- context [if ?b then _ else _] => destruct b end; intros E; try exact E; injection E as <- <-; lia.
Qed.
Print Assumptions C12_encode_nocheck_equals_classic.
Example C12_encode_nocheck_equals_classic_ex : sdnv_encode64_classic 16384 (repeat 3 10) = Some (3, [129;128;0;3;3;3;3;3;3;3]) /\
  sdnv_encode32_classic 16384 (repeat 3 5) = Some (3, [129;128;0;3;3]).
Proof. split; vm_compute; reflexivity. Qed.

(** C12: the classic array decoder yields, for every count and every byte string, exactly what decoding SDNVs one
    after the other yields. *)
Definition as_arr (r : option (list N * N)) : sdnv_arr := match r with None => ArrError | Some (vs, t) => ArrOk vs t end.
Lemma as_arr_embed r : as_arr r = embed [] 0 r.
Proof. destruct r as [(vs, t)|]; reflexivity. Qed.
Theorem C12_array_classic_meets_specification : forall n bs, Forall is_byte bs ->
  exists r, sdnv_array_classic n bs = Some (as_arr r) /\ array_spec n bs r.
Proof.
  intros n bs Hb. exists (arr n bs). split; [|now apply arr_spec].
  rewrite as_arr_embed. unfold sdnv_array_classic. now apply array_classic_loop_arr.
Qed.
Print Assumptions C12_array_classic_meets_specification.
Example C12_array_classic_meets_specification_ex : sdnv_array_classic 3 [5;129;1;255] = Some (ArrOk [5;129] 3).
Proof. vm_compute. reflexivity. Qed.

(** C12: so does the vectorised one, as long as it does not come to an SDNV whose first 32 bytes all have the top bit set. *)
Theorem C12_array_fast_meets_specification : forall n bs, Forall is_byte bs -> ~ runs_away n bs ->
  exists r, sdnv_array_fast n bs = Some (as_arr r) /\ array_spec n bs r.
Proof.
  intros n bs Hb Hr. exists (arr n bs). split; [|now apply arr_spec].
  rewrite as_arr_embed. now apply array_fast_arr.
Qed.
Print Assumptions C12_array_fast_meets_specification.
Example C12_array_fast_meets_specification_ex :
  let bs := repeat 1 30 ++ repeat 129 9 ++ [1] ++ repeat 2 40 ++ [255] in
  sdnv_array_fast 80 bs = Some (ArrOk (repeat 1 30 ++ [9295997013522923649] ++ repeat 2 40) 80).
Proof. vm_compute. reflexivity. Qed.

Theorem C12_array_fast_equals_classic : forall n bs, Forall is_byte bs -> ~ runs_away n bs ->
  sdnv_array_fast n bs = sdnv_array_classic n bs.
Proof.
  intros n bs Hb Hr. rewrite array_fast_arr by assumption. unfold sdnv_array_classic.
  now rewrite array_classic_loop_arr.
Qed.
Print Assumptions C12_array_fast_equals_classic.
Example C12_array_fast_equals_classic_ex : ~ runs_away 5 (repeat 128 31 ++ [0]) /\ ~ runs_away 1 (7 :: repeat 255 40) /\
  sdnv_array_fast 5 (repeat 128 31 ++ [0]) = Some ArrError /\ sdnv_array_classic 5 (repeat 128 31 ++ [0]) = Some ArrError /\
  sdnv_array_fast 1 (7 :: repeat 255 40) = Some (ArrOk [7] 1).
Proof.
  assert (B : Forall is_byte (repeat 128 31 ++ [0]) /\ Forall is_byte (7 :: repeat 255 40)) by (split; cbn [repeat app]; repeat constructor).
  split; [|split; [|split; [|split]; vm_compute; reflexivity]].
  - intros H. destruct (away_lead _ _ (proj1 B) H) as [K|(v & s & K & K2)]; vm_compute in K; [lia|]. injection K as <- <-. now apply K2.
  - intros H. change (7 :: repeat 255 40) with ([7] ++ repeat 255 40) in H. apply away_next in H; [inversion H|exact (proj2 B)|exists [], 7; repeat constructor|cbn; lia|reflexivity].
Qed.

(** C12: that is exactly when it is undefined (a bit scan of zero); the classic one reports an error there. *)
Theorem C12_array_fast_undefined_iff : forall n bs, Forall is_byte bs -> (sdnv_array_fast n bs = None <-> runs_away n bs).
Proof.
  intros n bs Hb. split.
  - intros E. destruct (runs_away_dec n bs Hb) as [H|H]; [exact H|]. rewrite array_fast_arr in E by assumption. discriminate.
  - intros H. unfold sdnv_array_fast. apply vec_away; [lia|exact Hb|exact H].
Qed.
Print Assumptions C12_array_fast_undefined_iff.
Example C12_array_fast_undefined_iff_ex : runs_away 2 (7 :: repeat 255 40) /\ sdnv_array_fast 2 (7 :: repeat 255 40) = None.
Proof.
  split; [|vm_compute; reflexivity]. change (7 :: repeat 255 40) with ([7] ++ repeat 255 40). apply RunLater; [exists [], 7; repeat constructor|cbn; lia|reflexivity|].
  change (repeat 255 40) with (repeat 255 32 ++ repeat 255 8). apply RunHere; [reflexivity|]. cbn [repeat]. repeat constructor; discriminate.
Qed.

(** C12 is false without that hypothesis: on 32 bytes with the top bit set the fast array decoder evaluates a bit scan
    of zero (undefined), while the classic one reports an error. *)
Theorem C12_array_fast_total_refuted : exists n bs, Forall is_byte bs /\
  sdnv_array_classic n bs = Some ArrError /\ sdnv_array_fast n bs = None.
Proof.
  exists 1%nat, (repeat 128 32). split; [|split; vm_compute; reflexivity].
  apply Forall_forall. intros x Hx. apply repeat_spec in Hx. subst. unfold is_byte. lia.
Qed.
Print Assumptions C12_array_fast_total_refuted.
