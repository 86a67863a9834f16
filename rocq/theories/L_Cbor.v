(** Lemmas for C13, C35. *)
From Coq Require Import NArith ZArith List Bool Lia ZifyBool ZifyN.
From Verif Require Import Base M_SegmentAlloc M_Intrin M_Sdnv M_Cbor S_Cbor L_Intrin.
Import ListNotations.
Open Scope N_scope.

Lemma be_value_val bs : be_value bs = be_val bs.
Proof. reflexivity. Qed.
Lemma bswapn_load bs n : bytes bs -> length bs = n -> bswapn n (le_val bs) = be_val bs.
Proof. intros H L. unfold bswapn. rewrite <- L, le_bytes_val by exact H. reflexivity. Qed.
Lemma bswapn_store n x : le_bytes n (bswapn n x) = rev (le_bytes n x).
Proof.
  unfold bswapn. rewrite be_val_rev. pose proof (le_bytes_val (rev (le_bytes n x))) as E.
  rewrite rev_length, le_bytes_length in E. apply E. apply bytes_rev, le_bytes_bytes.
Qed.
Lemma be_val_store n x : x < 256 ^ N.of_nat n -> be_val (rev (le_bytes n x)) = x.
Proof. intros H. rewrite be_val_rev, rev_involutive. now apply le_val_bytes. Qed.
Lemma be_val_bound bs : bytes bs -> be_val bs < 256 ^ N.of_nat (length bs).
Proof. intros H. rewrite be_val_rev, <- rev_length. apply le_val_bound. now apply bytes_rev. Qed.
Lemma le_bytes_app a : forall b x, le_bytes (a + b) x = le_bytes a x ++ le_bytes b (x / 256 ^ N.of_nat a).
Proof.
  induction a as [|a IH]; intros b x.
  - cbn. change (256 ^ 0) with 1. now rewrite N.div_1_r.
  - cbn [Nat.add le_bytes app]. f_equal. rewrite IH. f_equal. f_equal.
    replace (N.of_nat (S a)) with (N.succ (N.of_nat a)) by lia. rewrite N.pow_succ_r'.
    rewrite N.div_div; [reflexivity|discriminate|]. apply N.pow_nonzero. discriminate.
Qed.
Lemma le_bytes_mod n : forall x, le_bytes n (x mod 256 ^ N.of_nat n) = le_bytes n x.
Proof.
  induction n as [|n IH]; intros x; [reflexivity|]. cbn [le_bytes].
  replace (N.of_nat (S n)) with (N.succ (N.of_nat n)) by lia. rewrite N.pow_succ_r'.
  assert (P : 256 ^ N.of_nat n <> 0) by (apply N.pow_nonzero; discriminate).
  rewrite N.mod_mul_r by (try discriminate; exact P). f_equal.
  - rewrite (N.mul_comm 256), N.mod_add by discriminate. apply N.mod_mod. discriminate.
  - rewrite (N.mul_comm 256), N.div_add by discriminate. rewrite N.div_small by (apply N.mod_lt; discriminate).
    rewrite N.add_0_l. apply IH.
Qed.
Lemma le_bytes_zero a : forall x, le_bytes a (x * 256 ^ N.of_nat a) = repeat 0 a.
Proof.
  intros x. rewrite <- le_bytes_mod, N.mod_mul by (apply N.pow_nonzero; discriminate).
  induction a as [|a IH]; [reflexivity|]. cbn [le_bytes repeat]. change (0 mod 256) with 0. change (0 / 256) with 0. now rewrite IH.
Qed.
Lemma le_bytes_shift a b x : le_bytes (a + b) (x * 256 ^ N.of_nat a) = repeat 0 a ++ le_bytes b x.
Proof. rewrite le_bytes_app, le_bytes_zero, N.div_mul by (apply N.pow_nonzero; discriminate). reflexivity. Qed.

(** * The encoding *)
Definition cenc (v : N) : list N :=
  if v <? 24 then [v] else if v <? 256 then [24; v] else if v <? 65536 then 25 :: rev (le_bytes 2 v)
  else if v <? W32 then 26 :: rev (le_bytes 4 v) else 27 :: rev (le_bytes 8 v).
Definition csize (v : N) : nat := length (cenc v).
Lemma csize_val v : csize v = if v <? 24 then 1%nat else if v <? 256 then 2%nat else if v <? 65536 then 3%nat else if v <? W32 then 5%nat else 9%nat.
Proof. unfold csize, cenc. repeat destruct (_ <? _); cbn [length]; rewrite ?rev_length, ?le_bytes_length; reflexivity. Qed.
Lemma size_classic v : cbor_size_classic v = N.of_nat (csize v).
Proof.
  rewrite csize_val. unfold cbor_size_classic. unfold W32.
  repeat match goal with |- context [if ?b then _ else _] => destruct b eqn:? end; try reflexivity; lia.
Qed.
Lemma branch_bytes_cenc v : v < W64 -> cbor_branch_bytes v = cenc v.
Proof.
  intros Hv. unfold cbor_branch_bytes, cenc. unfold W32, W64 in *.
  repeat match goal with |- context [if ?b then _ else _] => destruct b eqn:? end; try lia; rewrite ?bswapn_store;
  try (rewrite N.mod_small by lia; reflexivity). reflexivity.
Qed.
Lemma cenc_uint v : v < W64 -> cbor_uint v (cenc v).
Proof.
  intros Hv. unfold cenc. unfold W32, W64 in *.
  destruct (N.ltb_spec v 24); [now constructor|].
  assert (G : forall j bs, (j < 4)%nat -> length bs = (2 ^ j)%nat -> bytes bs -> be_val bs = v -> cbor_uint v (24 + N.of_nat j :: bs)).
  { intros j bs A B C <-. now apply CborFollows. }
  destruct (N.ltb_spec v 256).
  - apply (G 0%nat [v]); [lia|reflexivity|repeat constructor; unfold is_octet; lia|]. unfold be_val. cbn [fold_left]. lia.
  - destruct (N.ltb_spec v 65536); [|destruct (N.ltb_spec v 4294967296)].
    + apply (G 1%nat (rev (le_bytes 2 v))); [lia|reflexivity|apply bytes_rev, le_bytes_bytes|]. apply be_val_store. change (256 ^ N.of_nat 2) with 65536. lia.
    + apply (G 2%nat (rev (le_bytes 4 v))); [lia|reflexivity|apply bytes_rev, le_bytes_bytes|]. apply be_val_store. change (256 ^ N.of_nat 4) with 4294967296. lia.
    + apply (G 3%nat (rev (le_bytes 8 v))); [lia|reflexivity|apply bytes_rev, le_bytes_bytes|]. apply be_val_store. change (256 ^ N.of_nat 8) with 18446744073709551616. lia.
Qed.
Lemma uint_bound v p : cbor_uint v p -> v < W64 /\ bytes p /\ (csize v <= length p)%nat /\ (0 < length p <= 9)%nat.
Proof.
  intros H. rewrite csize_val. unfold W32, W64. destruct H as [v H|j bs Hj HL HB].
  - split; [lia|]. split; [repeat constructor; unfold is_octet; lia|]. cbn [length]. destruct (N.ltb_spec v 24); lia.
  - pose proof (be_val_bound bs HB) as B. rewrite be_value_val in *. set (v := be_val bs) in *. cbn [length].
    split; [|split; [constructor; [lia|exact HB]|split]].
    + destruct j as [|[|[|[|]]]]; try lia; rewrite HL in B; cbn in B;
      match type of B with _ < ?x => let y := eval vm_compute in x in change x with y in B end; lia.
    + rewrite HL in *. destruct j as [|[|[|[|]]]]; try lia; cbn in B |- *;
      match type of B with _ < ?x => let y := eval vm_compute in x in change x with y in B end;
      repeat match goal with |- context [if ?b then _ else _] => destruct b eqn:? end; lia.
    + rewrite HL. destruct j as [|[|[|[|]]]]; try lia; cbn; lia.
Qed.
Lemma cenc_shortest v : v < W64 -> shortest_cbor v (cenc v).
Proof.
  intros Hv. split; [now apply cenc_uint|]. intros bs' H. apply uint_bound in H. fold (csize v). apply H.
Qed.
Lemma shortest_cenc v p : shortest_cbor v p -> length p = csize v.
Proof.
  intros (H & M). pose proof (uint_bound v p H) as (B & _ & C & _). pose proof (M _ (cenc_uint v B)). fold (csize v) in *. lia.
Qed.
(** [cbor_uint] items are prefix free and determine the value. *)
Lemma uint_det v p r v' p' r' : cbor_uint v p -> cbor_uint v' p' -> p ++ r = p' ++ r' -> v = v' /\ p = p' /\ r = r'.
Proof.
  intros H H' E. destruct H as [v H|j bs Hj HL HB]; destruct H' as [v' H'|j' bs' Hj' HL' HB']; cbn [app] in E.
  - injection E as -> ->. auto.
  - injection E as -> E. lia.
  - injection E as <- E. lia.
  - injection E as Ej E. assert (j = j') by lia. subst j'.
    assert (bs = bs' /\ r = r') as (-> & ->).
    { assert (L : length bs = length bs') by lia. clear - E L. revert bs' L E.
      induction bs as [|x bs IH]; intros [|y bs'] L E; try discriminate; [auto|]. injection L as L. cbn [app] in E. injection E as -> E.
      destruct (IH _ L E) as (-> & ->). auto. }
    auto.
Qed.
Lemma decode_spec_det bs r r' : cbor_decode_spec bs r -> cbor_decode_spec bs r' -> r = r'.
Proof.
  intros H H'. destruct H as [v p rest E H|N]; destruct H' as [v' p' rest' E' H'|N'].
  - rewrite E in E'. destruct (uint_det _ _ _ _ _ _ H H' E') as (-> & -> & _). reflexivity.
  - destruct (N' _ _ _ E H).
  - destruct (N _ _ _ E' H').
  - reflexivity.
Qed.

(** * Encoders *)
Lemma msb_scan j v : v < W64 -> j < 256 -> exists i, cbor_msb (scan_any j) v = Some i /\ i < 64 /\
  tab msbToRequiredEncodingSize i = Some (N.of_nat (csize v)).
Proof.
  intros Hv Hj. unfold cbor_msb. rewrite csize_val. destruct (N.leb_spec 24 v) as [L|L].
  - destruct v as [|p]; [lia|]. cbn [scan_any]. set (v := N.pos p) in *.
    assert (B : N.log2 v < 64) by (apply N.log2_lt_pow2; [lia|exact Hv]).
    exists (N.log2 v). rewrite N.mod_small by lia. split; [f_equal; cbn [N.b2n]; lia|]. split; [exact B|].
    destruct (N.ltb_spec v 24); [lia|].
    assert (T : forall i, i < 64 -> tab msbToRequiredEncodingSize i = Some (if i <? 4 then 1 else if i <? 8 then 2 else if i <? 16 then 3 else if i <? 32 then 5 else 9)).
    { intros i Hi. pose proof (forall_below 64 (fun i => match tab msbToRequiredEncodingSize i with Some s => s =? (if i <? 4 then 1 else if i <? 8 then 2 else if i <? 16 then 3 else if i <? 32 then 5 else 9) | None => false end) ltac:(vm_compute; reflexivity) i Hi) as Q.
      cbv beta in Q. destruct (tab msbToRequiredEncodingSize i); [|discriminate]. apply N.eqb_eq in Q. now rewrite Q. }
    rewrite T by exact B. f_equal.
    assert (LT : forall k, (N.log2 v <? k) = (v <? 2 ^ k)).
    { intros k. apply eq_true_iff_eq. rewrite !N.ltb_lt. symmetry. apply N.log2_lt_pow2. lia. }
    rewrite !LT. unfold W32. change (2 ^ 4) with 16. change (2 ^ 8) with 256. change (2 ^ 16) with 65536. change (2 ^ 32) with 4294967296.
    destruct (N.ltb_spec v 16); [lia|]. repeat match goal with |- context [if ?b then _ else _] => destruct b eqn:? end; reflexivity.
  - assert (E : exists m, scan_any j v = Some m) by (destruct v; eexists; reflexivity). destruct E as (m & ->).
    exists 0. cbn [N.b2n]. rewrite N.mul_0_l. split; [reflexivity|]. split; [lia|].
    destruct (N.ltb_spec v 24); [|lia]. reflexivity.
Qed.
Lemma scan_strict v j : v <> 0 -> find_msb v = scan_any j v.
Proof. destruct v; [congruence|reflexivity]. Qed.
Lemma size_type v : exists sz, N.of_nat (csize v) = sz /\
  tab encodingSizeToType sz = Some (if v <? 24 then 0 else if v <? 256 then 24 else if v <? 65536 then 25 else if v <? W32 then 26 else 27) /\
  tab encodingSizeToShifts sz = Some (if v <? 24 then 0 else if v <? 256 then 56 else if v <? 65536 then 48 else if v <? W32 then 32 else 0).
Proof.
  eexists. split; [reflexivity|]. rewrite csize_val.
  repeat match goal with |- context [if ?b then _ else _] => destruct b end; split; reflexivity.
Qed.
Lemma tab2 i : i < 64 -> forall s, tab msbToRequiredEncodingSize i = Some s -> exists e t h, tab msbToSizeTypeShifts i = Some e /\
  e mod 256 = s /\ tab encodingSizeToType s = Some t /\ tab encodingSizeToShifts s = Some h /\ (N.shiftr e 8) mod 256 = t /\ (N.shiftr e 16) mod 256 = h.
Proof.
  intros Hi s Hs.
  pose proof (forall_below 64 (fun i => match tab msbToRequiredEncodingSize i, tab msbToSizeTypeShifts i with
    | Some s, Some e => match tab encodingSizeToType s, tab encodingSizeToShifts s with
       | Some t, Some h => (e mod 256 =? s) && ((N.shiftr e 8) mod 256 =? t) && ((N.shiftr e 16) mod 256 =? h) | _, _ => false end
    | _, _ => false end) ltac:(vm_compute; reflexivity) i Hi) as Q. cbv beta in Q. rewrite Hs in Q.
  destruct (tab msbToSizeTypeShifts i) as [e|]; [|discriminate].
  destruct (tab encodingSizeToType s) as [t|] eqn:Et; [|discriminate]. destruct (tab encodingSizeToShifts s) as [h|] eqn:Eh; [|discriminate].
  exists e, t, h. rewrite !andb_true_iff, !N.eqb_eq in Q. intuition.
Qed.
(** What the two stores of the 9-byte path leave behind. *)
Lemma store9 v buf : v < W64 -> (9 <= length buf)%nat ->
  let type := if v <? 24 then 0 else if v <? 256 then 24 else if v <? 65536 then 25 else if v <? W32 then 26 else 27 in
  let shift := if v <? 24 then 0 else if v <? 256 then 56 else if v <? 65536 then 48 else if v <? W32 then 32 else 0 in
  let firstByte := N.lor type (N.b2n (N.of_nat (csize v) =? 1) * (v mod 256)) in
  exists junk, (do buf1 <- write_at 0 (le_bytes 4 firstByte) buf; write_at 1 (le_bytes 8 (bswapn 8 ((N.shiftl v shift) mod W64))) buf1)
    = Some (cenc v ++ junk ++ skipn 9 buf) /\ (csize v + length junk = 9)%nat.
Proof.
  intros Hv HL. cbv zeta. rewrite bswapn_store. rewrite csize_val.
  change W64 with (256 ^ N.of_nat 8). rewrite le_bytes_mod, shiftl_mul.
  do 9 (destruct buf as [|? buf]; [cbn [length] in HL; lia|]). clear HL. cbn [skipn].
  assert (F : forall b, b < 256 -> le_bytes 4 b = [b; 0; 0; 0]).
  { intros b Hb. cbn [le_bytes]. rewrite (N.div_small b 256) by exact Hb. rewrite (N.mod_small b 256) by exact Hb. reflexivity. }
  assert (S0 : forall b e, length e = 8%nat -> b < 256 -> (do buf1 <- write_at 0 (le_bytes 4 b) (n :: n0 :: n1 :: n2 :: n3 :: n4 :: n5 :: n6 :: n7 :: buf); write_at 1 e buf1) = Some (b :: e ++ buf)).
  { intros b e Le Hb. rewrite F by exact Hb. do 8 (destruct e as [|? e]; [discriminate|]). destruct e; [|discriminate]. reflexivity. }
  unfold cenc.
  destruct (N.ltb_spec v 24) as [L1|L1]; [|destruct (N.ltb_spec v 256) as [L2|L2]; [|destruct (N.ltb_spec v 65536) as [L3|L3]; [|destruct (N.ltb_spec v W32) as [L4|L4]]]].
  - change (N.of_nat 1 =? 1) with true. cbn [N.b2n]. rewrite N.lor_0_l, N.mul_1_l, (N.mod_small v) by lia.
    rewrite S0 by (rewrite ?rev_length, ?le_bytes_length; try reflexivity; lia).
    eexists. split; [reflexivity|]. rewrite rev_length, le_bytes_length. reflexivity.
  - change (N.of_nat 2 =? 1) with false. cbn [N.b2n]. rewrite N.mul_0_l, N.lor_0_r.
    rewrite S0 by (rewrite ?rev_length, ?le_bytes_length; try reflexivity; lia).
    change 8%nat with (7 + 1)%nat. change (2 ^ 56) with (256 ^ N.of_nat 7). rewrite le_bytes_shift, rev_app_distr.
    exists (repeat 0 7). split; [|reflexivity]. f_equal. cbn [le_bytes rev app repeat]. rewrite (N.mod_small v) by lia. reflexivity.
  - change (N.of_nat 3 =? 1) with false. cbn [N.b2n]. rewrite N.mul_0_l, N.lor_0_r.
    rewrite S0 by (rewrite ?rev_length, ?le_bytes_length; try reflexivity; lia).
    change 8%nat with (6 + 2)%nat. change (2 ^ 48) with (256 ^ N.of_nat 6). rewrite le_bytes_shift, rev_app_distr.
    exists (repeat 0 6). split; [|reflexivity]. f_equal.
  - change (N.of_nat 5 =? 1) with false. cbn [N.b2n]. rewrite N.mul_0_l, N.lor_0_r.
    rewrite S0 by (rewrite ?rev_length, ?le_bytes_length; try reflexivity; lia).
    change 8%nat with (4 + 4)%nat. change (2 ^ 32) with (256 ^ N.of_nat 4). rewrite le_bytes_shift, rev_app_distr.
    exists (repeat 0 4). split; [|reflexivity]. f_equal.
  - change (N.of_nat 9 =? 1) with false. cbn [N.b2n]. rewrite N.mul_0_l, N.lor_0_r.
    rewrite S0 by (rewrite ?rev_length, ?le_bytes_length; try reflexivity; lia).
    change (2 ^ 0) with 1. rewrite N.mul_1_r. exists []. split; reflexivity.
Qed.
Lemma do_bind3 (A B C : Type) (o : option A) (f : A -> option B) (g : B -> option C) r :
  match o with Some x => f x | None => None end = Some r ->
  match o with Some x => match f x with Some y => g y | None => None end | None => None end = g r.
Proof. destruct o; [|discriminate]. intros ->. reflexivity. Qed.
Lemma encode_fast9_ok j v buf : v < W64 -> j < 256 -> (9 <= length buf)%nat ->
  exists junk, cbor_encode_fast9 (scan_any j) v buf = Some (N.of_nat (csize v), cenc v ++ junk ++ skipn 9 buf) /\ (csize v + length junk = 9)%nat.
Proof.
  intros Hv Hj HL. unfold cbor_encode_fast9. destruct (msb_scan j v Hv Hj) as (i & -> & Hi & T).
  destruct (tab2 i Hi _ T) as (e & t & h & -> & -> & T1 & T2 & -> & ->).
  destruct (size_type v) as (sz & <- & T1' & T2'). rewrite T1 in T1'. rewrite T2 in T2'. injection T1' as ->. injection T2' as ->.
  destruct (store9 v buf Hv HL) as (junk & E & J). exists junk. split; [|exact J]. cbv zeta in E |- *.
  now rewrite (do_bind3 _ _ _ _ _ (fun b => Some (N.of_nat (csize v), b)) _ E).
Qed.
Lemma encode_fast_small j v buf : v < W64 -> j < 256 -> (length buf < 9)%nat ->
  cbor_encode_fast (scan_any j) v buf = if Nat.ltb (length buf) (csize v) then Some (0, buf)
    else Some (N.of_nat (csize v), cenc v ++ skipn (csize v) buf).
Proof.
  intros Hv Hj HL. unfold cbor_encode_fast. destruct (msb_scan j v Hv Hj) as (i & -> & Hi & ->).
  destruct (size_type v) as (sz & <- & -> & _). destruct (Nat.leb_spec 9 (length buf)); [lia|].
  destruct (Nat.ltb_spec (length buf) (csize v)) as [L|L].
  - destruct (N.ltb_spec (N.of_nat (length buf)) (N.of_nat (csize v))); [reflexivity|lia].
  - destruct (N.ltb_spec (N.of_nat (length buf)) (N.of_nat (csize v))); [lia|].
    rewrite csize_val in *. unfold cenc.
    destruct (N.ltb_spec v 24) as [L1|L1]; [|destruct (N.ltb_spec v 256) as [L2|L2]; [|destruct (N.ltb_spec v 65536) as [L3|L3]; [|destruct (N.ltb_spec v W32) as [L4|L4]]]].
    + destruct buf as [|b0 buf]; [cbn [length] in L; lia|]. cbn. rewrite N.mod_small by lia. reflexivity.
    + do 2 (destruct buf as [|? buf]; [cbn [length] in L; lia|]). cbn. rewrite N.mod_small by lia. reflexivity.
    + do 3 (destruct buf as [|? buf]; [cbn [length] in L; lia|]). cbn. rewrite shiftr_div. reflexivity.
    + do 5 (destruct buf as [|? buf]; [cbn [length] in L; lia|]). change (N.of_nat 5 =? 1) with false. change (N.of_nat 5 =? 2) with false.
      change (N.of_nat 5 =? 3) with false. change (N.of_nat 5 =? 5) with true. rewrite bswapn_store, N.mod_small by exact L4. cbn. reflexivity.
    + lia.
Qed.
Lemma encode_fast_big j v buf : v < W64 -> j < 256 -> (9 <= length buf)%nat -> cbor_encode_fast (scan_any j) v buf = cbor_encode_fast9 (scan_any j) v buf.
Proof.
  intros Hv Hj HL. unfold cbor_encode_fast, cbor_encode_fast9. destruct (msb_scan j v Hv Hj) as (i & -> & Hi & T). rewrite T.
  destruct (tab2 i Hi _ T) as (e & t & h & -> & -> & -> & -> & -> & ->). destruct (Nat.leb_spec 9 (length buf)); [reflexivity|lia].
Qed.
Lemma csize_pos v : (1 <= csize v <= 9)%nat.
Proof. rewrite csize_val. repeat destruct (_ <? _); lia. Qed.
(** The dispatching encoder, in the form the property theorems use. *)
Lemma encode_ok j v buf : v < W64 -> j < 256 ->
  if Nat.ltb (length buf) (csize v) then cbor_encode (scan_any j) v buf = Some (0, buf)
  else exists junk, cbor_encode (scan_any j) v buf = Some (N.of_nat (csize v), cenc v ++ junk) /\
     length (cenc v ++ junk) = length buf /\ skipn 9 (cenc v ++ junk) = skipn 9 buf /\ ((length buf < 9)%nat -> junk = skipn (csize v) buf).
Proof.
  intros Hv Hj. pose proof (csize_pos v) as P. unfold cbor_encode. destruct (Nat.leb_spec 9 (length buf)) as [L|L].
  - destruct (Nat.ltb_spec (length buf) (csize v)); [lia|].
    destruct (encode_fast9_ok j v buf Hv Hj L) as (junk & E & J). exists (junk ++ skipn 9 buf). split; [exact E|].
    assert (LL : length (cenc v ++ junk) = 9%nat) by (rewrite app_length; exact J).
    rewrite app_assoc. split; [rewrite app_length, LL, skipn_length; lia|]. split; [|lia].
    rewrite skipn_app, LL, Nat.sub_diag, skipn_all2 by lia. reflexivity.
  - rewrite encode_fast_small by assumption. destruct (Nat.ltb_spec (length buf) (csize v)); [reflexivity|].
    exists (skipn (csize v) buf). split; [reflexivity|].
    assert (LL : length (cenc v ++ skipn (csize v) buf) = length buf) by (rewrite app_length, skipn_length; fold (csize v); lia).
    split; [exact LL|]. split; [|reflexivity]. rewrite !skipn_all2 by lia. reflexivity.
Qed.
Lemma encode_classic_eq v buf : v < W64 -> cbor_encode_classic v buf = if Nat.ltb (length buf) (csize v) then Some (0, buf)
    else Some (N.of_nat (csize v), cenc v ++ skipn (csize v) buf).
Proof.
  intros Hv. unfold cbor_encode_classic. rewrite size_classic, branch_bytes_cenc by exact Hv.
  destruct (Nat.ltb_spec (length buf) (csize v)); destruct (N.ltb_spec (N.of_nat (length buf)) (N.of_nat (csize v))); try lia; [reflexivity|].
  unfold write_at. fold (csize v). cbn [Nat.add firstn app]. destruct (Nat.leb_spec (csize v) (length buf)); [reflexivity|lia].
Qed.

(** * Decoders *)
Lemma decode_classic_spec bs : bytes bs -> cbor_decode_spec bs (cbor_decode_classic bs).
Proof.
  intros Hb. destruct bs as [|t r]; cbn [cbor_decode_classic].
  { apply CborFail. intros v p rest E H. apply uint_bound in H. destruct p; [cbn [length] in H; lia|discriminate]. }
  pose proof (Forall_inv Hb) as Ht. pose proof (Forall_inv_tail Hb) as Hr. simpl in Ht.
  destruct (N.ltb_spec t 24) as [L|L].
  { apply (CborOk _ t [t] r); [reflexivity|now constructor]. }
  assert (G : forall j, t = 24 + N.of_nat j -> (j < 4)%nat -> (2 ^ j <= length r)%nat ->
     cbor_decode_spec (t :: r) (be_val (firstn (2 ^ j) r), N.of_nat (S (2 ^ j)))).
  { intros j E Hj HL. assert (LF : length (firstn (2 ^ j) r) = (2 ^ j)%nat) by (rewrite firstn_length; lia).
    replace (N.of_nat (S (2 ^ j))) with (N.of_nat (length (t :: firstn (2 ^ j) r))) by (cbn [length]; rewrite LF; reflexivity).
    eapply CborOk with (rest := skipn (2 ^ j) r); [cbn [app]; now rewrite firstn_skipn|]. rewrite E.
    apply CborFollows; [exact Hj|exact LF|]. apply Forall_forall. intros x Hx.
    apply (proj1 (Forall_forall _ _) Hr). rewrite <- (firstn_skipn (2 ^ j) r). apply in_or_app. now left. }
  assert (F : forall j, t = 24 + N.of_nat j -> (length r < 2 ^ j)%nat -> cbor_decode_spec (t :: r) (0, 0)).
  { intros j E HL. apply CborFail. intros v p rest E' H. destruct H as [v H|j' bs Hj HL' _]; cbn [app] in E'; injection E' as ? ?; [lia|].
    assert (j' = j) by lia. subst. rewrite app_length in HL. lia. }
  assert (LB : forall n, bytes (firstn n r)).
  { intros n. apply Forall_forall. intros x Hx. apply (proj1 (Forall_forall _ _) Hr). rewrite <- (firstn_skipn n r). apply in_or_app. now left. }
  cbn [length].
  destruct (N.eqb_spec t 24) as [->|N1].
  { destruct (Nat.leb_spec 2 (S (length r))) as [Q|Q]; [|apply (F 0%nat); [reflexivity|cbn; lia]].
    specialize (G 0%nat eq_refl ltac:(lia) ltac:(cbn; lia)). destruct r as [|x r]; [cbn [length] in Q; lia|]. exact G. }
  destruct (N.eqb_spec t 25) as [->|N2].
  { destruct (Nat.leb_spec 3 (S (length r))) as [Q|Q]; [|apply (F 1%nat); [reflexivity|cbn; lia]].
    rewrite bswapn_load by (try apply LB; rewrite firstn_length; lia). apply (G 1%nat eq_refl); cbn; lia. }
  destruct (N.eqb_spec t 26) as [->|N3].
  { destruct (Nat.leb_spec 5 (S (length r))) as [Q|Q]; [|apply (F 2%nat); [reflexivity|cbn; lia]].
    rewrite bswapn_load by (try apply LB; rewrite firstn_length; lia). apply (G 2%nat eq_refl); cbn; lia. }
  destruct (N.eqb_spec t 27) as [->|N4].
  { destruct (Nat.leb_spec 9 (S (length r))) as [Q|Q]; [|apply (F 3%nat); [reflexivity|cbn; lia]].
    rewrite bswapn_load by (try apply LB; rewrite firstn_length; lia). apply (G 3%nat eq_refl); cbn; lia. }
  apply CborFail. intros v p rest E' H. destruct H as [v H|j' bs Hj HL' _]; cbn [app] in E'; injection E' as ? ?; lia.
Qed.
Lemma decode_fast_classic bs : bytes bs -> cbor_decode_fast bs = cbor_decode_classic bs.
Proof.
  intros Hb. destruct bs as [|t r]; [reflexivity|]. cbn [cbor_decode_fast cbor_decode_classic].
  destruct (t <? 24); [reflexivity|]. destruct (t =? 24); [reflexivity|]. destruct (t =? 25); [|reflexivity].
  destruct (Nat.leb_spec 3 (length (t :: r))) as [L|L]; [|reflexivity]. f_equal.
  pose proof (Forall_inv_tail Hb) as Hr. destruct r as [|a [|b r]]; cbn [length] in L; try lia.
  pose proof (Forall_inv Hr) as Ha. pose proof (Forall_inv (Forall_inv_tail Hr)) as Hb'. simpl in Ha, Hb'.
  cbn [firstn nth]. rewrite bswapn_load by (try reflexivity; repeat constructor; assumption).
  rewrite shiftl_mul, lor_low by exact Hb'. unfold be_val. cbn [fold_left]. change (2 ^ 8) with 256. lia.
Qed.
Lemma be_firstn_shift bs k : bytes bs -> (k <= length bs)%nat ->
  be_val bs / 256 ^ N.of_nat (length bs - k) = be_val (firstn k bs).
Proof.
  intros Hb Hk. rewrite <- (firstn_skipn k bs) at 1. rewrite be_val_app, skipn_length.
  assert (P : 256 ^ N.of_nat (length bs - k) <> 0) by (apply N.pow_nonzero; discriminate).
  rewrite N.div_add_l by exact P. rewrite N.div_small; [lia|]. rewrite <- (skipn_length k bs). apply be_val_bound.
  apply Forall_forall. intros x Hx. apply (proj1 (Forall_forall _ _) Hb). rewrite <- (firstn_skipn k bs). apply in_or_app. now right.
Qed.
Lemma bytes_firstn' n bs : bytes bs -> bytes (firstn n bs).
Proof. intros H. apply Forall_forall. intros x Hx. apply (proj1 (Forall_forall _ _) H). rewrite <- (firstn_skipn n bs). apply in_or_app. now left. Qed.
Lemma decode_fast9_classic bs : bytes bs -> (9 <= length bs)%nat -> cbor_decode_fast9 bs = Some (cbor_decode_classic bs).
Proof.
  intros Hb HL. destruct bs as [|t r]; [cbn [length] in HL; lia|]. cbn [cbor_decode_fast9 cbor_decode_classic length] in *.
  pose proof (Forall_inv Hb) as Ht. pose proof (Forall_inv_tail Hb) as Hr. simpl in Ht.
  assert (RD : forall l, (8 <= length l)%nat -> read_n 8 l = Some (firstn 8 l)).
  { intros l H. unfold read_n. destruct (Nat.leb_spec 8 (length l)); [reflexivity|lia]. }
  assert (SH : forall l k, bytes l -> (8 <= length l)%nat -> (k <= 8)%nat -> N.shiftr (bswapn 8 (le_val (firstn 8 l))) (N.of_nat (8 * (8 - k))) = be_val (firstn k l)).
  { intros l k Bl Ll Hk. assert (L8 : length (firstn 8 l) = 8%nat) by (rewrite firstn_length; lia).
    rewrite bswapn_load by (try exact L8; now apply bytes_firstn'). rewrite shiftr_div.
    replace (2 ^ N.of_nat (8 * (8 - k))) with (256 ^ N.of_nat (8 - k)).
    2:{ replace (N.of_nat (8 * (8 - k))) with (8 * N.of_nat (8 - k)) by lia. rewrite N.pow_mul_r. reflexivity. }
    pose proof (be_firstn_shift (firstn 8 l) k (bytes_firstn' 8 l Bl) ltac:(lia)) as Q. rewrite L8 in Q. rewrite Q. f_equal. rewrite firstn_firstn. f_equal. lia. }
  destruct (N.ltb_spec 27 t) as [L|L].
  { destruct (N.ltb_spec t 24); [lia|]. repeat (match goal with |- context [t =? ?c] => destruct (N.eqb_spec t c); [lia|] end). reflexivity. }
  destruct (N.ltb_spec t 24) as [L1|L1].
  { assert (T : tab NUM_BYTES t = Some 1 /\ tab RIGHT_SHIFTS t = Some 56).
    { pose proof (forall_below 24 (fun t => match tab NUM_BYTES t, tab RIGHT_SHIFTS t with Some a, Some b => (a =? 1) && (b =? 56) | _, _ => false end) ltac:(vm_compute; reflexivity) t L1) as Q.
      cbv beta in Q. destruct (tab NUM_BYTES t), (tab RIGHT_SHIFTS t); try discriminate. rewrite andb_true_iff, !N.eqb_eq in Q. destruct Q as (-> & ->). auto. }
    destruct T as (-> & ->). destruct (N.leb_spec 24 t); [lia|]. rewrite RD by (cbn [length]; lia).
    change 56 with (N.of_nat (8 * (8 - 1))). rewrite SH by (cbn [length]; try exact Hb; lia). cbn [firstn be_val fold_left].
    unfold be_val. cbn [fold_left]. do 2 f_equal. }
  assert (Q : forall k j n, t = 24 + N.of_nat j -> k = (2 ^ j)%nat -> (j < 4)%nat -> n = N.of_nat (S k) ->
     tab NUM_BYTES t = Some n -> tab RIGHT_SHIFTS t = Some (N.of_nat (8 * (8 - k))) ->
     (do n <- tab NUM_BYTES t; do enc <- read_n 8 (if 24 <=? t then r else t :: r); do s <- tab RIGHT_SHIFTS t; Some (N.shiftr (bswapn 8 (le_val enc)) s, n))
     = Some (be_val (firstn k r), n)).
  { intros k j n Et Ek Hj En -> ->. destruct (N.leb_spec 24 t); [|lia]. rewrite RD by lia. rewrite SH; [reflexivity|exact Hr|lia|].
    subst k. destruct j as [|[|[|[|]]]]; cbn; lia. }
  assert (LF : forall k, (k <= 8)%nat -> bswapn k (le_val (firstn k r)) = be_val (firstn k r)).
  { intros k Hk. apply bswapn_load; [now apply bytes_firstn'|]. rewrite firstn_length. lia. }
  destruct (N.eqb_spec t 24) as [->|N1].
  { rewrite (Q 1%nat 0%nat 2) by (reflexivity || lia). destruct (Nat.leb_spec 2 (S (length r))); [|lia].
    destruct r as [|x r]; [cbn [length] in *; lia|]. reflexivity. }
  destruct (N.eqb_spec t 25) as [->|N2].
  { rewrite (Q 2%nat 1%nat 3) by (reflexivity || lia). destruct (Nat.leb_spec 3 (S (length r))); [|lia]. now rewrite LF by lia. }
  destruct (N.eqb_spec t 26) as [->|N3].
  { rewrite (Q 4%nat 2%nat 5) by (reflexivity || lia). destruct (Nat.leb_spec 5 (S (length r))); [|lia]. now rewrite LF by lia. }
  destruct (N.eqb_spec t 27) as [->|N4]; [|lia].
  rewrite (Q 8%nat 3%nat 9) by (reflexivity || lia). destruct (Nat.leb_spec 9 (S (length r))); [|lia]. now rewrite LF by lia.
Qed.
Lemma decode_classic_eq bs : bytes bs -> cbor_decode bs = Some (cbor_decode_classic bs).
Proof.
  intros Hb. unfold cbor_decode. destruct (Nat.leb_spec 9 (length bs)); [now apply decode_fast9_classic|]. now rewrite decode_fast_classic.
Qed.
Lemma decode_classic9_eq bs : (9 <= length bs)%nat -> cbor_decode_classic9 bs = Some (cbor_decode_classic bs).
Proof.
  intros HL. destruct bs as [|t r]; [cbn [length] in HL; lia|]. cbn [cbor_decode_classic9 cbor_decode_classic length] in *. unfold read_n.
  repeat match goal with |- context [Nat.leb ?a ?b] => destruct (Nat.leb_spec a b); [|lia] end.
  repeat match goal with |- context [if ?b then _ else _] => destruct b; try reflexivity end.
  destruct r; [cbn [length] in HL; lia|reflexivity].
Qed.

(** * Arrays *)
Lemma bytes_skipn' n bs : bytes bs -> bytes (skipn n bs).
Proof. intros H. apply Forall_forall. intros x Hx. apply (proj1 (Forall_forall _ _) H). rewrite <- (firstn_skipn n bs). apply in_or_app. now right. Qed.
Lemma decode_cases bs : bytes bs -> exists v k, cbor_decode bs = Some (v, k) /\
  ((k = 0 /\ forall v p rest, bs = p ++ rest -> ~ cbor_uint v p) \/
   (exists p rest, bs = p ++ rest /\ cbor_uint v p /\ k = N.of_nat (length p) /\ k <> 0 /\ skipn (N.to_nat k) bs = rest)).
Proof.
  intros Hb. rewrite decode_classic_eq by exact Hb. pose proof (decode_classic_spec bs Hb) as S.
  destruct (cbor_decode_classic bs) as (v, k). exists v, k. split; [reflexivity|]. remember (v, k) as r.
  destruct S as [v' p rest E H|F]; injection Heqr as <- <-; [right|left; auto].
  exists p, rest. pose proof (uint_bound _ _ H) as (_ & _ & _ & L). repeat split; try assumption; [lia|].
  rewrite Nat2N.id, E, skipn_app, skipn_all, Nat.sub_diag. reflexivity.
Qed.
Lemma items_det vs q r : cbor_items vs q -> forall vs' q' r', cbor_items vs' q' -> length vs = length vs' -> q ++ r = q' ++ r' -> vs = vs' /\ q = q' /\ r = r'.
Proof.
  induction 1 as [|v vs p q H HI IH]; intros vs' q' r' H' L E.
  - destruct H'; [|discriminate]. auto.
  - destruct H' as [|v' vs' p' q' H0 HI']; [discriminate|]. injection L as L. rewrite <- !app_assoc in E.
    destruct (uint_det _ _ _ _ _ _ H H0 E) as (-> & -> & E'). destruct (IH _ _ _ HI' L E') as (-> & -> & ->). auto.
Qed.
Lemma elems_spec n : forall bs, bytes bs -> exists r, cbor_elems_deserialize n bs = Some r /\
  match r with
  | Some (es, t, rest) => exists q, bs = q ++ rest /\ cbor_items es q /\ length es = n /\ t = N.of_nat (length q)
  | None => forall es q rest, length es = n -> cbor_items es q -> bs <> q ++ rest
  end.
Proof.
  induction n as [|n IH]; intros bs Hb; cbn [cbor_elems_deserialize].
  { eexists. split; [reflexivity|]. exists []. repeat split. constructor. }
  destruct (decode_cases bs Hb) as (v & k & -> & [(-> & F)|(p & rest & E & H & Ek & Nz & Sk)]).
  { change (0 =? 0) with true. exists None. split; [reflexivity|]. intros es q rest L HI E.
    destruct HI as [|v' vs p q H HI]; [discriminate|]. rewrite <- app_assoc in E. exact (F _ _ _ E H). }
  destruct (N.eqb_spec k 0); [congruence|]. rewrite Sk.
  assert (Hr : bytes rest) by (rewrite <- Sk; now apply bytes_skipn').
  destruct (IH rest Hr) as (r & -> & S). destruct r as [((es, t), rest')|].
  - exists (Some (v :: es, k + t, rest')). split; [reflexivity|]. destruct S as (q & E' & HI & L & Et).
    exists (p ++ q). rewrite <- app_assoc, <- E'. split; [exact E|]. split; [now constructor|]. split; [cbn; lia|]. rewrite app_length. lia.
  - exists None. split; [reflexivity|]. intros es q rest' L HI E'. destruct HI as [|v' vs p' q H' HI]; [discriminate|].
    injection L as L. rewrite E, <- app_assoc in E'. destruct (uint_det _ _ _ _ _ _ H H' E') as (_ & _ & E2). exact (S _ _ _ L HI E2).
Qed.
(** Header byte arithmetic. *)
Lemma header_byte h : h < 256 -> (N.shiftr h 5 =? 4) = (128 <=? h) && (h <? 160) /\ (128 <= h < 160 -> N.land h 31 = h - 128).
Proof.
  intros H.
  pose proof (forall_below 256 (fun h => Bool.eqb (N.shiftr h 5 =? 4) ((128 <=? h) && (h <? 160)) && (negb ((128 <=? h) && (h <? 160)) || (N.land h 31 =? h - 128)))
    ltac:(vm_compute; reflexivity) h H) as Q. cbv beta in Q. rewrite andb_true_iff in Q. destruct Q as (Q1 & Q2).
  split; [now apply eqb_prop|]. intros R. destruct (N.leb_spec 128 h); [|lia]. destruct (N.ltb_spec h 160); [|lia]. cbn in Q2. lia.
Qed.
Lemma lor128_small b : b < 128 -> N.lor b 128 = 128 + b.
Proof.
  intros H. pose proof (forall_below 128 (fun b => N.lor b 128 =? 128 + b) ltac:(vm_compute; reflexivity) b H) as Q. cbv beta in Q. lia.
Qed.
(** Encoders that write the shortest form given [slack] spare bytes. *)
Definition good_enc (slack : nat) (enc : N -> list N -> option (N * list N)) : Prop :=
  forall v buf, v < W64 -> (csize v + slack <= length buf)%nat ->
    exists junk, enc v buf = Some (N.of_nat (csize v), cenc v ++ junk) /\ length (cenc v ++ junk) = length buf.
Lemma good_checked j : j < 256 -> good_enc 0 (cbor_encode (scan_any j)).
Proof.
  intros Hj v buf Hv HL. pose proof (encode_ok j v buf Hv Hj) as E. destruct (Nat.ltb_spec (length buf) (csize v)); [lia|].
  destruct E as (junk & E & L & _). eauto.
Qed.
Lemma good_fast9 j : j < 256 -> good_enc 8 (cbor_encode_fast9 (scan_any j)).
Proof.
  intros Hj v buf Hv HL. pose proof (csize_pos v). destruct (encode_fast9_ok j v buf Hv Hj ltac:(lia)) as (junk & E & J).
  exists (junk ++ skipn 9 buf). split; [exact E|]. rewrite app_assoc, app_length, (app_length (cenc v)), skipn_length. unfold csize in *. lia.
Qed.
Definition csizes (es : list N) : nat := list_sum (map csize es).
Lemma skipn_exact (A : Type) (a b : list A) n : length a = n -> skipn n (a ++ b) = b.
Proof. intros <-. rewrite skipn_app, skipn_all, Nat.sub_diag. reflexivity. Qed.
Lemma firstn_exact (A : Type) (a b : list A) n : length a = n -> firstn n (a ++ b) = a.
Proof. intros <-. rewrite firstn_app, firstn_all, Nat.sub_diag. cbn. apply app_nil_r. Qed.
Lemma skipn_add' (A : Type) (l : list A) : forall a b, skipn a (skipn b l) = skipn (a + b) l.
Proof.
  induction l as [|x l IH]; intros a b; [now rewrite !skipn_nil|]. destruct b; [now rewrite Nat.add_0_r|].
  rewrite Nat.add_succ_r. cbn [skipn]. apply IH.
Qed.
Lemma enc_then_ok slack enc v buf k : good_enc slack enc -> v < W64 -> (csize v + slack <= length buf)%nat ->
  exists rest, length rest = (length buf - csize v)%nat /\
    enc_then enc v buf k = match k rest with Some (m, rest2) => Some (N.of_nat (csize v) + m, cenc v ++ rest2) | None => None end.
Proof.
  intros G Hv HL. destruct (G v buf Hv HL) as (junk & E & L). exists junk. rewrite app_length in L. fold (csize v) in L. split; [lia|].
  unfold enc_then. rewrite E, Nat2N.id. rewrite skipn_exact, firstn_exact by reflexivity. reflexivity.
Qed.
Lemma elems_serialize_ok slack enc es : good_enc slack enc -> Forall (fun e => e < W64) es -> forall buf, (csizes es + slack <= length buf)%nat ->
  exists junk, cbor_elems_serialize enc es buf = Some (N.of_nat (csizes es), concat (map cenc es) ++ junk) /\ (csizes es + length junk = length buf)%nat.
Proof.
  intros G. induction es as [|e es IH]; intros He buf HL; cbn [cbor_elems_serialize].
  - exists buf. split; reflexivity.
  - cbn [csizes map list_sum fold_right] in HL. fold (list_sum (map csize es)) in HL. fold (csizes es) in HL.
    destruct (enc_then_ok slack enc e buf (cbor_elems_serialize enc es) G (Forall_inv He) ltac:(lia)) as (rest & L & ->).
    destruct (IH (Forall_inv_tail He) rest ltac:(lia)) as (junk & -> & J). exists junk.
    change (csizes (e :: es)) with (csize e + csizes es)%nat. split; [|lia].
    f_equal. f_equal; [lia|]. cbn [map concat]. now rewrite app_assoc.
Qed.
Lemma cenc_head n : n < W64 -> exists b r, cenc n = b :: r /\ b < 128.
Proof.
  intros Hn. unfold cenc. repeat match goal with |- context [?a <? ?b] => destruct (N.ltb_spec a b) end; eexists; eexists; (split; [reflexivity|]); lia.
Qed.
Definition chead (n : N) : list N := match cenc n with b :: r => 128 + b :: r | [] => [] end.
Lemma chead_header n : n < W64 -> cbor_array_header n (chead n) /\ length (chead n) = csize n.
Proof.
  intros Hn. destruct (cenc_head n Hn) as (b & r & E & Hb). unfold chead. rewrite E. split; [|unfold csize; now rewrite E].
  exists b, r. split; [reflexivity|]. rewrite <- E. now apply cenc_uint.
Qed.
Lemma array_serialize_ok slack enc es : good_enc slack enc -> Forall (fun e => e < W64) es -> N.of_nat (length es) < W64 ->
  forall buf, (csize (N.of_nat (length es)) + csizes es + slack <= length buf)%nat ->
  exists junk, cbor_array_serialize enc es buf = Some (N.of_nat (csize (N.of_nat (length es)) + csizes es), chead (N.of_nat (length es)) ++ concat (map cenc es) ++ junk) /\
    (csize (N.of_nat (length es)) + csizes es + length junk = length buf)%nat.
Proof.
  intros G He Hn buf HL. set (n := N.of_nat (length es)) in *. unfold cbor_array_serialize. fold n.
  destruct (G n buf Hn ltac:(lia)) as (junk0 & -> & L0). rewrite app_length in L0. fold (csize n) in L0.
  destruct (cenc_head n Hn) as (b & r & E & Hb). destruct (chead_header n Hn) as (_ & LH).
  rewrite E. cbn [app or_header]. rewrite lor128_small by exact Hb. rewrite Nat2N.id.
  change (128 + b :: r ++ junk0) with ((128 + b :: r) ++ junk0).
  replace (128 + b :: r) with (chead n) by (unfold chead; now rewrite E).
  rewrite skipn_exact, firstn_exact by exact LH.
  destruct (elems_serialize_ok slack enc es G He junk0 ltac:(lia)) as (junk & -> & J). exists junk. split; [f_equal; f_equal; lia|lia].
Qed.
Lemma items_cenc es : Forall (fun e => e < W64) es -> cbor_items es (concat (map cenc es)) /\ length (concat (map cenc es)) = csizes es.
Proof.
  induction es as [|e es IH]; intros He; cbn [map concat].
  - split; [constructor|reflexivity].
  - destruct (IH (Forall_inv_tail He)) as (A & B). split; [constructor; [apply cenc_uint; exact (Forall_inv He)|exact A]|].
    rewrite app_length, B. reflexivity.
Qed.
Lemma num_bytes_ok j v : v < W64 -> j < 256 -> cbor_num_bytes (scan_any j) v = Some (N.of_nat (csize v)).
Proof. intros Hv Hj. unfold cbor_num_bytes. destruct (msb_scan j v Hv Hj) as (i & -> & _ & ->). reflexivity. Qed.
Lemma sum_sizes_ok j es : Forall (fun e => e < W64) es -> j < 256 -> cbor_sum_sizes (scan_any j) es = Some (N.of_nat (csizes es)).
Proof.
  intros He Hj. induction es as [|e es IH]; [reflexivity|]. cbn [cbor_sum_sizes].
  rewrite num_bytes_ok by (try exact Hj; exact (Forall_inv He)). rewrite IH by exact (Forall_inv_tail He). 
  change (csizes (e :: es)) with (csize e + csizes es)%nat. f_equal. lia.
Qed.
Lemma encode_total j v buf : v < W64 -> j < 256 -> exists n out, cbor_encode (scan_any j) v buf = Some (n, out) /\ length out = length buf /\ n <= N.of_nat (length buf).
Proof.
  intros Hv Hj. pose proof (encode_ok j v buf Hv Hj) as E. destruct (Nat.ltb_spec (length buf) (csize v)).
  - eexists _, _. split; [exact E|]. split; [reflexivity|lia].
  - destruct E as (junk & E & L & _). eexists _, _. split; [exact E|]. split; [exact L|lia].
Qed.
Lemma elems_total j es : Forall (fun e => e < W64) es -> j < 256 -> forall buf, exists n out, cbor_elems_serialize (cbor_encode (scan_any j)) es buf = Some (n, out) /\ length out = length buf /\ n <= N.of_nat (length buf).
Proof.
  intros He Hj. induction es as [|e es IH]; intros buf; cbn [cbor_elems_serialize].
  - eexists _, _. split; [reflexivity|]. split; [reflexivity|lia].
  - unfold enc_then. destruct (encode_total j e buf (Forall_inv He) Hj) as (n & out & -> & L & Hn).
    destruct (IH (Forall_inv_tail He) (skipn (N.to_nat n) out)) as (m & out2 & -> & L2 & Hm). rewrite skipn_length in *.
    eexists _, _. split; [reflexivity|]. rewrite app_length, firstn_length. lia.
Qed.
