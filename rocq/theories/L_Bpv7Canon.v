(** Lemmas for C46: canonical and extension blocks. *)
From Coq Require Import NArith ZArith List Bool Lia ZifyBool ZifyN.
From Verif Require Import Base M_SegmentAlloc M_Intrin M_Sdnv M_Cbor M_Bpv6Block M_Bpv7Crc M_Bpv7Block S_Sdnv S_Cbor S_Bpv7Crc S_Bpv7 L_Intrin L_Cbor P_Cbor L_Bpv7Crc P_Bpv7Crc L_Bpv6Read L_Bpv6Write L_Bpv7Read L_Bpv7Write.
Import ListNotations.
Open Scope N_scope.

(** ** Reading *)
Lemma uint_head v p : cbor_uint v p -> exists b r, p = b :: r /\ b < 28.
Proof. intros H. inversion H as [x L|k bs L LB O]; subst; [exists v, []; split; [reflexivity|lia]|]. eexists _, _. split; [reflexivity|]. lia. Qed.
Lemma str_byte b : b < 256 -> (N.shiftr b 5 =? 2) = (64 <=? b) && (b <? 96) /\ (64 <= b < 96 -> N.land b 31 = b - 64).
Proof.
  intros H. pose proof (forall_below 256 (fun h => Bool.eqb (N.shiftr h 5 =? 2) ((64 <=? h) && (h <? 96)) && (negb ((64 <=? h) && (h <? 96)) || (N.land h 31 =? h - 64)))
    ltac:(vm_compute; reflexivity) b H) as Q. cbv beta in Q. rewrite andb_true_iff in Q. destruct Q as (Q1 & Q2).
  split; [now apply eqb_prop|]. lia.
Qed.
(** The data with its optional tag. *)
Definition tagged (d bs : list N) : Prop := exists tag ds, bs = tag ++ ds /\ (tag = [] \/ tag = [216]) /\ byte_string d ds.
Definition data_inner (b : N) (r1 : list N) : option (option (list N * list N)) :=
  if negb (N.shiftr b 5 =? 2) then Some None else
  try (len, r2) <- rd_uint (N.land b 0x1f :: r1);
  if N.of_nat (length r2) <? len then Some None else Some (Some (firstn (N.to_nat len) r2, skipn (N.to_nat len) r2)).
Lemma data_inner_ok d ds rest : byte_string d ds -> Forall is_byte (ds ++ rest) -> exists b r1, ds ++ rest = b :: r1 /\ b <> 216 /\ data_inner b r1 = Some (Some (d, rest)).
Proof.
  intros (b & r & -> & U) Hb. destruct (uint_head _ _ U) as (b' & r' & E & LB). injection E as <- <-.
  exists (64 + b), (r ++ d ++ rest). split; [cbn [app]; now rewrite <- app_assoc|]. split; [lia|]. unfold data_inner.
  destruct (str_byte (64 + b) ltac:(lia)) as (S1 & S2). rewrite S1. replace ((64 <=? 64 + b) && (64 + b <? 96)) with true by lia. cbn [negb]. rewrite S2 by lia.
  replace (64 + b - 64) with b by lia. change (b :: r ++ d ++ rest) with ((b :: r) ++ d ++ rest). rewrite (proj1 rd_uint_reads _ _ _ U).
  - cbn [bind2]. rewrite app_length. destruct (N.ltb_spec (N.of_nat (length d + length rest)) (N.of_nat (length d))); [lia|]. now rewrite Nat2N.id, firstn_pref, skipn_pref.
  - cbn [app] in *. constructor; [unfold is_byte; lia|]. rewrite <- app_assoc in Hb. exact (Forall_inv_tail Hb).
Qed.
Lemma data_inner_inv b r1 : Forall is_byte (b :: r1) -> exists x, data_inner b r1 = Some x /\ forall d rest, x = Some (d, rest) -> exists ds, b :: r1 = ds ++ rest /\ byte_string d ds.
Proof.
  intros Hb. unfold data_inner. destruct (str_byte b (Forall_inv Hb)) as (S1 & S2). rewrite S1. destruct ((64 <=? b) && (b <? 96)) eqn:R; cbn [negb]; [|exists None; split; [reflexivity|discriminate]].
  rewrite S2 by lia. destruct (proj2 rd_uint_reads (b - 64 :: r1)) as (x & -> & K). { constructor; [unfold is_byte; lia|exact (Forall_inv_tail Hb)]. }
  destruct x as [[len r2]|]; cbn [bind2]; [|exists None; split; [reflexivity|discriminate]]. destruct (N.ltb_spec (N.of_nat (length r2)) len) as [L|L]; [exists None; split; [reflexivity|discriminate]|].
  eexists. split; [reflexivity|]. intros d rest E. injection E as <- <-. destruct (K _ _ eq_refl) as (p & E & U). destruct (uint_head _ _ U) as (b' & r & -> & LB).
  injection E as E1 E2. exists ((64 + b' :: r) ++ firstn (N.to_nat len) r2). split.
  - cbn [app]. rewrite <- app_assoc, firstn_skipn, <- E2. f_equal. lia.
  - exists b', r. split; [reflexivity|]. rewrite firstn_length. replace (N.of_nat (Nat.min (N.to_nat len) (length r2))) with len by lia. exact U.
Qed.
Lemma byte_string_len d ds : byte_string d ds -> (1 <= length ds)%nat.
Proof. intros (b & r & -> & _). cbn [app length]. lia. Qed.
(** The reader of the data needs one byte to look at. *)
Lemma canon7_data_ok d bs rest : tagged d bs -> Forall is_byte (bs ++ rest) -> canon7_data (bs ++ rest) = Some (Some (d, rest)).
Proof.
  intros (tag & ds & -> & T & B) Hb. destruct T as [-> | ->].
  - cbn [app] in *. destruct (data_inner_ok d ds rest B Hb) as (b & r1 & E & NB & I). rewrite E. unfold canon7_data. destruct (N.eqb_spec b 216); [congruence|]. exact I.
  - cbn [app] in *. destruct (data_inner_ok d ds rest B (Forall_inv_tail Hb)) as (b & r1 & E & NB & I). rewrite E. unfold canon7_data. rewrite N.eqb_refl. exact I.
Qed.
Lemma canon7_data_inv bs : bs <> [] -> Forall is_byte bs -> exists x, canon7_data bs = Some x /\ forall d rest, x = Some (d, rest) -> exists p, bs = p ++ rest /\ tagged d p.
Proof.
  intros NE Hb. destruct bs as [|t r0]; [congruence|]. unfold canon7_data. destruct (N.eqb_spec t 216) as [->|NT].
  - destruct r0 as [|b r1]; [exists None; split; [reflexivity|discriminate]|]. destruct (data_inner_inv b r1 (Forall_inv_tail Hb)) as (x & E & K). exists x. split; [exact E|].
    intros d rest ->. destruct (K _ _ eq_refl) as (ds & E2 & B). exists (216 :: ds). split; [cbn [app]; now rewrite E2|]. exists [216], ds. auto.
  - destruct (data_inner_inv t r0 Hb) as (x & E & K). exists x. split; [exact E|]. intros d rest ->. destruct (K _ _ eq_refl) as (ds & E2 & B). exists ds. split; [exact E2|]. exists [], ds. auto.
Qed.
Definition arr6 (ct : N) : N := 5 + (if no_crc ct then 0 else 1).
Lemma arr6_val ct : 5 + N.b2n (negb (ct =? 0)) = arr6 ct.
Proof. unfold arr6, no_crc. destruct (ct =? 0); reflexivity. Qed.
Lemma head6_test h : h < 256 -> (negb (N.shiftr h 5 =? 4) || (1 <? (N.land h 31 + W32 - 5) mod W32) = false <-> 133 <= h <= 134) /\ (133 <= h <= 134 -> N.land h 31 = h - 128).
Proof.
  intros H. pose proof (forall_below 256 (fun h => Bool.eqb (negb (N.shiftr h 5 =? 4) || (1 <? (N.land h 31 + W32 - 5) mod W32)) (negb ((133 <=? h) && (h <=? 134)))
     && (negb ((133 <=? h) && (h <=? 134)) || (N.land h 31 =? h - 128))) ltac:(vm_compute; reflexivity) h H) as Q. cbv beta in Q.
  rewrite andb_true_iff in Q. destruct Q as (Q1 & Q2). apply eqb_prop in Q1. rewrite Q1. split; lia.
Qed.
Definition canon7_head (c : canon7) (body : list N) : Prop :=
  exists t n fl tg d, body = [128 + arr6 (c_crctype c)] ++ t ++ n ++ fl ++ [c_crctype c] ++ tg /\
    cbor_uint (c_type c) t /\ (length t <= 2)%nat /\ cbor_uint (c_num c) n /\ cbor_uint (c_flags c) fl /\ tagged d tg /\
    c_data c = Some d /\ c_len c = N.of_nat (length d) /\ c_crc c = (0, 0).
Lemma tagged_len d p : tagged d p -> (1 <= length p)%nat.
Proof. intros (tag & ds & -> & _ & B). apply byte_string_len in B. rewrite app_length. lia. Qed.
Lemma canon7_fields_reads : reads canon7_fields canon7_head.
Proof.
  split.
  - intros c body rest (t & n & fl & tg & d & -> & T & LT & NN & FL & TG & D1 & D2 & D3) Hb. pose proof (tagged_len _ _ TG) as LG.
    pose proof (uint_bound _ _ T) as (_ & _ & _ & L1). pose proof (uint_bound _ _ NN) as (_ & _ & _ & L2). pose proof (uint_bound _ _ FL) as (_ & _ & _ & L3).
    rewrite <- !app_assoc in *. unfold canon7_fields.
    destruct (Nat.ltb_spec (length ([128 + arr6 (c_crctype c)] ++ t ++ n ++ fl ++ [c_crctype c] ++ tg ++ rest)) 6) as [X|_]; [rewrite !app_length in X; cbn [length] in X; lia|].
    cbn [app] in *. destruct (head6_test _ (Forall_inv Hb)) as (T1 & T2). assert (AR : 5 <= arr6 (c_crctype c) <= 6) by (unfold arr6; destruct (no_crc _); lia).
    cbv zeta. rewrite (proj2 T1) by lia. rewrite T2 by lia. pose proof (Forall_inv_tail Hb) as H1. destruct (octets_app _ _ H1) as (_ & H2). destruct (octets_app _ _ H2) as (_ & H3). destruct (octets_app _ _ H3) as (_ & H4).
    rewrite (decode_uint _ _ _ T H2). destruct (N.eqb_spec (N.of_nat (length t)) 0); [lia|]. destruct (N.ltb_spec 2 (N.of_nat (length t))); [lia|]. cbn [orb].
    rewrite Nat2N.id, skipn_pref. rewrite (proj1 rd_uint_reads _ _ _ NN H2). cbn [bind2]. rewrite (proj1 rd_uint_reads _ _ _ FL H3). cbn [bind2].
    destruct (Nat.ltb_spec (length (c_crctype c :: tg ++ rest)) 2) as [X|_]; [cbn [length] in X; rewrite app_length in X; lia|].
    rewrite arr6_val. replace (128 + arr6 (c_crctype c) - 128) with (arr6 (c_crctype c)) by lia. rewrite N.eqb_refl. cbn [negb].
    rewrite (canon7_data_ok d tg rest TG (Forall_inv_tail H4)). cbn [bind2]. do 3 f_equal. rewrite <- D1, <- D2, <- D3. now destruct c.
  - intros bs Hb. unfold canon7_fields. destruct (Nat.ltb_spec (length bs) 6) as [L|L]; [exists None; split; [reflexivity|discriminate]|].
    destruct bs as [|h r]; [cbn [length] in L; lia|]. destruct (head6_test h (Forall_inv Hb)) as (T1 & T2). cbv zeta.
    destruct (negb (N.shiftr h 5 =? 4) || (1 <? (N.land h 31 + W32 - 5) mod W32)) eqn:EH; [exists None; split; [reflexivity|discriminate]|].
    pose proof (proj1 T1 eq_refl) as RH. rewrite (T2 RH). pose proof (Forall_inv_tail Hb) as Hr.
    destruct (decode_cases r Hr) as (ty & k & -> & [(-> & _)|(t & r0 & -> & T & -> & NZ & SK)]); [exists None; split; [reflexivity|discriminate]|].
    destruct (N.eqb_spec (N.of_nat (length t)) 0) as [|_]; [congruence|]. destruct (N.ltb_spec 2 (N.of_nat (length t))) as [LT|LT]; [exists None; split; [reflexivity|discriminate]|]. cbn [orb].
    rewrite SK. destruct (octets_app _ _ Hr) as (_ & H0). destruct (proj2 rd_uint_reads r0 H0) as (x1 & -> & K1). destruct x1 as [[num r2]|]; cbn [bind2]; [|exists None; split; [reflexivity|discriminate]].
    destruct (K1 _ _ eq_refl) as (n & -> & NN). destruct (octets_app _ _ H0) as (_ & H2). destruct (proj2 rd_uint_reads r2 H2) as (x2 & -> & K2). destruct x2 as [[flags r3]|]; cbn [bind2]; [|exists None; split; [reflexivity|discriminate]].
    destruct (K2 _ _ eq_refl) as (fl & -> & FL). destruct (octets_app _ _ H2) as (_ & H3). destruct (Nat.ltb_spec (length r3) 2) as [L3|L3]; [exists None; split; [reflexivity|discriminate]|].
    destruct r3 as [|ct r4]; [cbn [length] in L3; lia|]. cbn [length] in L3. rewrite arr6_val. destruct (N.eqb_spec (arr6 ct) (h - 128)) as [EA|]; cbn [negb]; [|exists None; split; [reflexivity|discriminate]].
    destruct (canon7_data_inv r4 ltac:(intros ->; cbn [length] in L3; lia) (Forall_inv_tail H3)) as (x & -> & K). destruct x as [[d r5]|]; cbn [bind2]; [|exists None; split; [reflexivity|discriminate]].
    destruct (K _ _ eq_refl) as (tg & -> & TG). eexists. split; [reflexivity|]. intros c rest E. injection E as <- <-.
    exists ([h] ++ t ++ n ++ fl ++ [ct] ++ tg). split; [rewrite <- !app_assoc; reflexivity|]. exists t, n, fl, tg, d. cbn [c_type c_num c_flags c_len c_data c_crc c_crctype].
    rewrite EA. replace (128 + (h - 128)) with h by lia. repeat (split; [first [reflexivity|assumption|lia]|]). reflexivity.
Qed.

(** ** Writing *)
Definition chdr (n : N) : list N := match cenc n with b :: r => 64 + b :: r | [] => [] end.
Lemma chdr_cenc n : n < W64 -> exists b r, cenc n = b :: r /\ chdr n = 64 + b :: r /\ b < 28.
Proof. intros H. destruct (uint_head _ _ (cenc_uint n H)) as (b & r & E & L). exists b, r. unfold chdr. rewrite E. auto. Qed.
Lemma lor64_small b : b < 28 -> N.lor b 64 = 64 + b.
Proof. intros H. pose proof (forall_below 28 (fun b => N.lor b 64 =? 64 + b) ltac:(vm_compute; reflexivity) b H) as Q. cbv beta in Q. lia. Qed.
Lemma or_at_ok size w pre b r : wok size w (pre ++ b :: r) -> b < 28 -> exists w', or_at (length pre) 64 w = Some w' /\ wok size w' (pre ++ 64 + b :: r).
Proof.
  intros W L. destruct (wok_split _ _ _ W) as (rest & E & P & LR). rewrite <- app_assoc in E. cbn [app] in E. unfold or_at. rewrite E.
  rewrite nth_error_app2 by lia. rewrite Nat.sub_diag. cbn [nth_error]. unfold poke. rewrite E, app_length in *. cbn [length] in *.
  destruct (Nat.ltb_spec (length pre) (length pre + S (length (r ++ rest)))); [|lia]. rewrite lor64_small by exact L. eexists. split; [reflexivity|].
  rewrite firstn_pref. replace (skipn (S (length pre)) (pre ++ b :: r ++ rest)) with (r ++ rest).
  - unfold wok. cbn [fst snd]. rewrite P. split; [rewrite !app_length in *; cbn [length] in *; rewrite ?app_length in *; lia|]. split; [rewrite !app_length; reflexivity|].
    replace (pre ++ 64 + b :: r ++ rest) with ((pre ++ 64 + b :: r) ++ rest) by now rewrite <- app_assoc.
    apply firstn_exact. rewrite app_length. reflexivity.
  - replace (S (length pre)) with (length (pre ++ [b])) by (rewrite app_length; cbn [length]; lia). replace (pre ++ b :: r ++ rest) with ((pre ++ [b]) ++ r ++ rest) by now rewrite <- app_assoc. now rewrite skipn_pref.
Qed.
Definition chead7 (c : canon7) : list N := [128 + arr6 (c_crctype c)] ++ cenc (c_type c) ++ cenc (c_num c) ++ cenc (c_flags c) ++ [c_crctype c].
Lemma lor_arr6 ct : N.lor 128 (5 + N.b2n (negb (ct =? 0))) = 128 + arr6 ct.
Proof. rewrite arr6_val, N.lor_comm. apply lor128_small. unfold arr6. destruct (no_crc ct); lia. Qed.
Lemma canon7_body_ok j c size w pre : j < 256 -> canon7_ok c -> c_len c < W64 -> (forall d, c_data c = Some d -> N.of_nat (length d) = c_len c) -> wok size w pre ->
  (length pre + length (chead7 c ++ chdr (c_len c)) + N.to_nat (c_len c) + 8 <= size)%nat ->
  exists w1 d, canon7_body (scan_any j) c w = Some (length (pre ++ chead7 c ++ chdr (c_len c)), w1) /\ wok size w1 (pre ++ (chead7 c ++ chdr (c_len c)) ++ d) /\
    N.of_nat (length d) = c_len c /\ (forall x, c_data c = Some x -> d = x).
Proof.
  intros J (H1 & H2 & H3 & H4) HL HD W S. assert (H1' : c_type c < W64) by (unfold W64; lia). unfold canon7_body. rewrite lor_arr6.
  assert (B : forall d, writes (put_bytes d) d 8) by (intros d; apply (writes_more _ _ 0 8); [apply put_bytes_writes|lia]).
  assert (SEQ : writes (fun w => do w1 <- put_bytes [128 + arr6 (c_crctype c)] w; do w2 <- put9 (scan_any j) (c_type c) w1; do w3 <- put9 (scan_any j) (c_num c) w2; do w4 <- put9 (scan_any j) (c_flags c) w3; put_bytes [c_crctype c] w4) (chead7 c) 8).
  { refine (writes_seq _ _ _ _ 8 (B [_]) _). refine (writes_seq _ _ _ _ 8 (put9_writes j J _ H1') _). refine (writes_seq _ _ _ _ 8 (put9_writes j J _ H2) _).
    exact (writes_seq _ _ _ _ 8 (put9_writes j J _ H3) (B [_])). }
  rewrite app_length in S. destruct (SEQ size w pre W) as (w5 & E5 & W5); [lia|]. revert E5. cbv beta.
  destruct (put_bytes [128 + arr6 (c_crctype c)] w) as [w1|]; [|discriminate]. destruct (put9 (scan_any j) (c_type c) w1) as [w2|]; [|discriminate].
  destruct (put9 (scan_any j) (c_num c) w2) as [w3|]; [|discriminate]. destruct (put9 (scan_any j) (c_flags c) w3) as [w4|]; [|discriminate]. intros ->.
  destruct (chdr_cenc (c_len c) HL) as (b & r & EC & EH & LB). assert (LC : length (cenc (c_len c)) = length (chdr (c_len c))) by (rewrite EC, EH; reflexivity).
  destruct (put9_writes j J (c_len c) HL size w5 _ W5) as (w6 & -> & W6); [rewrite app_length; lia|]. rewrite EC in W6.
  assert (P5 : snd w5 = length (pre ++ chead7 c)) by apply W5. rewrite P5.
  destruct (or_at_ok size w6 (pre ++ chead7 c) b r W6 LB) as (w7 & -> & W7). rewrite <- EH in W7.
  assert (P7 : snd w7 = length (pre ++ chead7 c ++ chdr (c_len c))) by (rewrite app_assoc; apply W7). rewrite P7.
  destruct (c_data c) as [x|].
  - specialize (HD x eq_refl). destruct (put_bytes_writes x size w7 _ W7) as (w8 & -> & W8); [rewrite !app_length; lia|]. exists w8, x. split; [reflexivity|]. split.
    + rewrite <- !app_assoc in *. exact W8.
    + split; [exact HD|]. intros y E. now injection E.
  - destruct (wok_split _ _ _ W7) as (rest & E & P & LR). unfold skip_bytes. rewrite (wok_room _ _ _ W7). rewrite !app_length in LR.
    destruct (Nat.leb_spec (N.to_nat (c_len c)) (size - length ((pre ++ chead7 c) ++ chdr (c_len c)))) as [_|X]; [|rewrite !app_length in X; lia].
    exists (fst w7, (snd w7 + N.to_nat (c_len c))%nat), (firstn (N.to_nat (c_len c)) rest). split; [reflexivity|]. split.
    + assert (EQ : fst w7 = (pre ++ (chead7 c ++ chdr (c_len c)) ++ firstn (N.to_nat (c_len c)) rest) ++ skipn (N.to_nat (c_len c)) rest) by (rewrite E, <- !app_assoc; now rewrite (firstn_skipn (N.to_nat (c_len c)) rest)).
      assert (PQ : (snd w7 + N.to_nat (c_len c))%nat = length (pre ++ (chead7 c ++ chdr (c_len c)) ++ firstn (N.to_nat (c_len c)) rest)) by (rewrite P7, !app_length, firstn_length; lia).
      rewrite EQ, PQ. apply wok_of. rewrite !app_length, firstn_length, skipn_length. lia.
    + split; [rewrite firstn_length; lia|discriminate].
Qed.
Lemma chdr_shortest d ds : N.of_nat (length d) < W64 -> ds = chdr (N.of_nat (length d)) ++ d -> shortest_bytes d ds.
Proof. intros L ->. destruct (chdr_cenc _ L) as (b & r & EC & -> & _). exists b, r. split; [reflexivity|]. rewrite <- EC. now apply cenc_shortest. Qed.
Lemma canon_body_written c d : canon7_ok c -> c_len c = N.of_nat (length d) -> c_len c < W64 -> canon7_written c d ((chead7 c ++ chdr (c_len c)) ++ d).
Proof.
  intros (H1 & H2 & H3 & H4) E L. exists (cenc (c_type c)), (cenc (c_num c)), (cenc (c_flags c)), (chdr (c_len c) ++ d). split; [unfold chead7; now rewrite <- !app_assoc|].
  split; [apply cenc_shortest; unfold W64; lia|]. split; [now apply cenc_shortest|]. split; [now apply cenc_shortest|]. rewrite E in *. now apply chdr_shortest.
Qed.
Lemma chead7_octets c : canon7_ok c -> c_len c < W64 -> Forall is_byte (chead7 c ++ chdr (c_len c)).
Proof.
  intros (H1 & H2 & H3 & H4) L. assert (H1' : c_type c < W64) by (unfold W64; lia). unfold chead7. repeat (apply Forall_app; split); try (now apply cenc_octets).
  - constructor; [unfold is_byte, arr6; destruct (no_crc _); lia|constructor].
  - constructor; [exact H4|constructor].
  - destruct (chdr_cenc _ L) as (b & r & EC & -> & LB). pose proof (cenc_octets _ L) as O. rewrite EC in O. constructor; [unfold is_byte; lia|exact (Forall_inv_tail O)].
Qed.
(** The whole block, data given or left out. *)
Lemma canon7_write_ok j hw c size w pre : j < 256 -> canon7_ok c -> c_crctype c <= 2 -> c_len c < W64 ->
  (forall d, c_data c = Some d -> N.of_nat (length d) = c_len c /\ Forall is_byte d) -> wok size w pre ->
  (length pre + length (chead7 c ++ chdr (c_len c)) + N.to_nat (c_len c) + length (zero_field (c_crctype c)) + 8 <= size)%nat ->
  exists w1 d f cc, let body := (chead7 c ++ chdr (c_len c)) ++ d in
    canon7_write (scan_any j) hw c w = Some (Some (cwith_crc (cwith_data c (Some d)) cc, length (pre ++ chead7 c ++ chdr (c_len c)), w1)) /\ wok size w1 (pre ++ body ++ f) /\
    N.of_nat (length d) = c_len c /\ length f = length (zero_field (c_crctype c)) /\
    match c_data c with Some x => d = x /\ crc_closing True (c_crctype c) cc body f | None => f = zero_field (c_crctype c) /\ cc = if c_crctype c =? 0 then (0, 0) else c_crc c end.
Proof.
  intros J OK CT HL HD W S. destruct (canon7_body_ok j c size w pre J OK HL (fun d E => proj1 (HD d E)) W ltac:(lia)) as (w1 & d & E1 & W1 & LD & ED).
  unfold canon7_write. rewrite E1. set (compute := match c_data c with Some _ => true | None => false end).
  assert (P0 : snd w = length pre) by apply W. rewrite P0.
  destruct (crc_put_ok hw (c_crctype c) compute pre ((chead7 c ++ chdr (c_len c)) ++ d) (c_crc c) size w1 CT) as (cc & f & w2 & E2 & W2 & LF & C).
  - unfold compute. destruct (c_data c) as [x|]; [|discriminate]. intros _. apply Forall_app. split; [now apply chead7_octets|]. rewrite (ED x eq_refl). now apply HD.
  - exact W1.
  - rewrite app_length. rewrite (app_length (chead7 c ++ _)). lia.
  - rewrite E2. cbn [bind2]. exists w2, d, f, cc. cbv zeta. split.
    + do 5 f_equal. destruct (wok_split _ _ _ W2) as (rest & F1 & F2 & F3). rewrite F1.
      replace ((pre ++ ((chead7 c ++ chdr (c_len c)) ++ d) ++ f) ++ rest) with ((pre ++ chead7 c ++ chdr (c_len c)) ++ d ++ f ++ rest) by (now rewrite <- !app_assoc).
      rewrite skipn_pref. replace (N.to_nat (c_len c)) with (length d) by lia. now rewrite firstn_pref.
    + split; [exact W2|]. split; [exact LD|]. split; [exact LF|]. unfold compute in C. destruct (c_data c) as [x|]; [split; [now apply ED|exact C]|exact C].
Qed.
(** The data of extension blocks. *)
Definition cext (x : ext7) : list N := match x with PrevNode e => ceid e | BundleAge v | Priority v => cenc v | HopCount l c => ctwo (l, c) end.
Lemma cext_written x : ext7_ok x -> ext7_written x (cext x).
Proof. destruct x; cbn; intros H; [now apply ceid_written|now apply cenc_shortest|now apply ctwo_shortest|now apply cenc_shortest]. Qed.
Lemma cext_writes j x : j < 256 -> ext7_ok x -> writes (ext7_data (scan_any j) x) (cext x) 0.
Proof.
  intros J. destruct x; cbn; intros H; [now apply eid7_checked_writes|now apply put_encode_writes|exact (two_checked_writes j J _ H)|now apply put_encode_writes].
Qed.
Lemma cext_size j x : j < 256 -> ext7_ok x -> ext7_size (scan_any j) x = Some (N.of_nat (length (cext x))).
Proof. intros J. destruct x; cbn; intros H; [now apply ceid_size|now apply num_bytes_ok|exact (ctwo_size j J _ H)|now apply num_bytes_ok]. Qed.
Lemma cext_octets x : ext7_ok x -> Forall is_byte (cext x).
Proof. destruct x; cbn; intros H; [now apply ceid_octets|now apply cenc_octets|now apply ctwo_octets|now apply cenc_octets]. Qed.
Lemma cext_len x : (length (cext x) <= 21)%nat.
Proof.
  destruct x as [e|v|l c|v]; cbn [cext]; [unfold ceid, ctwo; destruct (fst e =? 0)|..|]; unfold ctwo; cbn [length fst snd]; rewrite ?app_length;
    repeat match goal with |- context [length (cenc ?v)] => let H := fresh in pose proof (csize_pos v) as H; unfold csize in H; generalize dependent (length (cenc v)); intros end; lia.
Qed.
Lemma cext_form x : ext7_ok x -> ext7_form (ext7_meant x) (cext x).
Proof. destruct x; cbn; intros H; [now apply ceid_form|now apply cenc_uint|now apply ctwo_form|now apply cenc_uint]. Qed.
Lemma write_in_ok dp n f m pre old post new : m = pre ++ old ++ post -> dp = length pre -> n = length old -> f old = Some new -> write_in dp n f m = Some (pre ++ new ++ post).
Proof.
  intros -> -> -> F. unfold write_in. rewrite skipn_pref, firstn_pref, F, firstn_pref. do 3 f_equal. rewrite app_assoc, <- app_length. apply skipn_pref.
Qed.
Lemma fill_ok j x old : j < 256 -> ext7_ok x -> length old = length (cext x) -> fill_with (ext7_data (scan_any j) x) old = Some (cext x).
Proof.
  intros J OK L. unfold fill_with. destruct (cext_writes j x J OK (length old) (old, 0%nat) []) as (w & -> & W).
  - unfold wok. auto.
  - cbn [length]. lia.
  - destruct (wok_split _ _ _ W) as (rest & E & P & LR). cbn [app] in *. destruct rest; [|cbn [length] in LR; lia]. now rewrite E, app_nil_r.
Qed.
Lemma canon7_size_ok j c d body crc crcs : j < 256 -> canon7_ok c -> c_crctype c <= 2 -> N.of_nat (length d) < W64 -> canon7_written c d body -> crc_closing True (c_crctype c) crcs body crc ->
  canon7_size (scan_any j) c (N.of_nat (length d)) = Some (N.of_nat (length (body ++ crc))).
Proof.
  intros J (H1 & H2 & H3 & H4) CT LL W C. pose proof (closing_len _ _ _ _ _ C) as LC. unfold canon7_size. rewrite !num_bytes_ok by (assumption || (unfold W64; lia)).
  assert (SZ : crc_size (c_crctype c) = Some (N.of_nat (length crc))).
  { rewrite LC. assert (c_crctype c = 0 \/ c_crctype c = 1 \/ c_crctype c = 2) as [-> | [-> | ->]] by lia; reflexivity. }
  rewrite SZ. f_equal. destruct W as (t & n & fl & ds & -> & X1 & X2 & X3 & (y & r & -> & X4)). apply shortest_cenc in X1, X2, X3, X4.
  cbn [length] in X4. rewrite !app_length. cbn [length]. lia.
Qed.
(** The common scheme of the classes: the block around data [d] that [fill] writes into memory of its size. *)
Lemma ext_write_ok j hw type size fill d c mem pos : j < 256 -> type < 256 -> canon7_ok c -> c_crctype c <= 2 -> N.of_nat (length d) < W64 -> Forall is_byte d ->
  size = Some (N.of_nat (length d)) -> (forall old, length old = length d -> fill old = Some d) ->
  exists body crc crcs, let out := mkCanon7 type (c_num c) (c_flags c) (N.of_nat (length d)) (Some d) crcs (c_crctype c) in
    canon7_written out d body /\ crc_closing True (c_crctype c) crcs body crc /\
    canon7_size (scan_any j) out (N.of_nat (length d)) = Some (N.of_nat (length (body ++ crc))) /\
    ((pos + length (body ++ crc) + 8 <= length mem)%nat -> exists mem',
       ext7_write (scan_any j) hw type size fill c (mem, pos) = Some (Some (out, (mem', (pos + length (body ++ crc))%nat))) /\ written_at mem pos (body ++ crc) mem').
Proof.
  intros J HT OK CT LD64 Hd -> HF.
  set (c1 := mkCanon7 (type) (c_num c) (c_flags c) (N.of_nat (length d)) None (c_crc c) (c_crctype c)).
  assert (OK1 : canon7_ok c1). { destruct OK as (H1 & H2 & H3 & H4). unfold canon7_ok, c1. cbn. split; [exact HT|auto]. }
  assert (L1 : c_len c1 < W64) by exact LD64.
  set (hd := chead7 c1 ++ chdr (c_len c1)). set (body := hd ++ d).
  assert (Hb : Forall is_byte body) by (apply Forall_app; split; [now apply chead7_octets|exact Hd]).
  destruct (closing_exists (c_crctype c) body CT Hb) as (crcs & crc & C). exists body, crc, crcs. cbv zeta. pose proof (closing_len _ _ _ _ _ C) as LC.
  set (out := mkCanon7 (type) (c_num c) (c_flags c) (N.of_nat (length d)) (Some d) crcs (c_crctype c)).
  assert (EO : out = mkCanon7 (c_type c1) (c_num c1) (c_flags c1) (c_len c1) (Some d) crcs (c_crctype c1)) by reflexivity.
  assert (OKO : canon7_ok out) by (rewrite EO; exact OK1). assert (EH : chead7 out ++ chdr (c_len out) = hd) by (rewrite EO; reflexivity).
  assert (WO : canon7_written out d body). { unfold body. rewrite <- EH. apply canon_body_written; [exact OKO|reflexivity|exact L1]. }
  split; [exact WO|]. split; [exact C|]. split. { exact (canon7_size_ok j out d body crc crcs J OKO CT LD64 WO C). }
  intros L. assert (LB : length body = (length hd + length d)%nat) by apply app_length. rewrite app_length, LB in L.
  assert (W : wok (length mem) (mem, pos) (firstn pos mem)) by (unfold wok; cbn [fst snd]; rewrite firstn_length; repeat split; lia).
  unfold ext7_write. fold c1.
  destruct (canon7_write_ok j hw c1 (length mem) (mem, pos) (firstn pos mem) J OK1 CT L1) as (w1 & d0 & f & cc & E & W1 & LD & LF & C2); [discriminate|exact W|fold hd; cbn [c_len c_crctype c1]; rewrite Nat2N.id, firstn_length; lia|].
  rewrite E. cbn [bind2]. fold hd in W1, E |- *. cbn [c_data c_crctype c_crc c_len c1] in C2, LF, LD. destruct C2 as (-> & ->).
  destruct (wok_split _ _ _ W1) as (rest & F1 & F2 & F3).
  assert (LD0 : length d0 = length d) by lia.
  assert (EM : write_in (length (firstn pos mem ++ hd)) (N.to_nat (N.of_nat (length d))) fill (fst w1) = Some ((firstn pos mem ++ hd) ++ d ++ zero_field (c_crctype c) ++ rest)).
  { apply (write_in_ok _ _ _ _ (firstn pos mem ++ hd) d0); [rewrite F1; now rewrite <- !app_assoc|reflexivity|lia|]. now apply HF. }
  rewrite EM. cbn [fst snd].
  assert (PL : length (firstn pos mem) = pos) by (rewrite firstn_length; lia).
  assert (RC : recompute_crc hw (c_crctype c) pos (snd w1) (c_crc (cwith_crc (cwith_data c1 (Some d0)) (if c_crctype c =? 0 then (0, 0) else c_crc c))) ((firstn pos mem ++ hd) ++ d ++ zero_field (c_crctype c) ++ rest)
     = Some (crcs, firstn pos mem ++ body ++ crc ++ rest)).
  { replace ((firstn pos mem ++ hd) ++ d ++ zero_field (c_crctype c) ++ rest) with (firstn pos mem ++ body ++ zero_field (c_crctype c) ++ rest) by (unfold body; now rewrite <- !app_assoc).
    destruct (N.eqb_spec (c_crctype c) 0) as [Z|NZ].
    - rewrite Z in *. inversion C; subst. reflexivity.
    - rewrite <- PL at 1. apply recompute_ok; [exact CT|exact Hb|exact C|lia| |exact NZ]. rewrite F2, !app_length. lia. }
  rewrite RC. eexists. split.
  - f_equal. f_equal. f_equal.
    + unfold out. unfold cwith_crc, cwith_data, c1. cbn [c_type c_num c_flags c_len c_data c_crc c_crctype]. f_equal.
      replace (firstn pos mem ++ body ++ crc ++ rest) with ((firstn pos mem ++ hd) ++ d ++ crc ++ rest) by (unfold body; now rewrite <- !app_assoc).
        rewrite skipn_pref, Nat2N.id. now rewrite firstn_pref.
    + rewrite F2, !app_length. f_equal. lia.
  - exists rest. split; [now rewrite <- !app_assoc|]. rewrite !app_length in *. lia.
Qed.
