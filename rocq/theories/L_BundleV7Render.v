(** Lemmas for C49: rendering. *)
From Coq Require Import NArith ZArith List Bool Lia ZifyBool ZifyN.
From Verif Require Import Base M_SegmentAlloc M_Intrin M_Sdnv M_Cbor M_Bpv6Block M_Bpv7Crc M_Bpv7Block M_Bpv7Admin M_Bpv7Sec M_BundleV7.
From Verif Require Import S_Sdnv S_Cbor S_Bpv7Crc S_Bpv7 S_Bpv7Admin S_Bpv7Sec S_BundleV7.
From Verif Require Import L_Intrin L_Cbor P_Cbor L_Bpv7Crc P_Bpv7Crc L_Bpv6Read L_Bpv6Write L_Bpv7Read L_Bpv7Write L_Bpv7Canon P_Bpv7Block P_Bpv7Canon L_Bpv7Admin P_Bpv7Admin L_Bpv7Sec P_Bpv7Sec L_BundleV7.
Import ListNotations.
Open Scope N_scope.

(** ** What is written is determined *)
Lemma items_unique vs b b' : shortest_items vs b -> shortest_items vs b' -> b = b'.
Proof.
  intros (ps & -> & F) (ps' & -> & F'). f_equal. revert ps' F'. induction F as [|x p xs ps X H IH]; intros ps' H'; inversion H'; subst; [reflexivity|]. f_equal; [eapply shortest_unique; eauto|auto].
Qed.
Lemma two_unique t b b' : shortest_two t b -> shortest_two t b' -> b = b'.
Proof. intros (q & H & ->) (q' & H' & ->). now rewrite (items_unique _ _ _ H H'). Qed.
Lemma eid_unique e b b' : eid7_written e b -> eid7_written e b' -> b = b'.
Proof. unfold eid7_written. destruct (fst e =? 0); [congruence|]. intros (u & H & ->) (u' & H' & ->). now rewrite (two_unique _ _ _ H H'). Qed.
Lemma bytes_unique d b b' : shortest_bytes d b -> shortest_bytes d b' -> b = b'.
Proof. intros (y & r & -> & H) (y' & r' & -> & H'). pose proof (shortest_unique _ _ _ H H') as Q. injection Q as -> ->. reflexivity. Qed.
Lemma canon_unique c d b b' : canon7_written c d b -> canon7_written c d b' -> b = b'.
Proof.
  intros (t & n & fl & ds & -> & H1 & H2 & H3 & H4) (t' & n' & fl' & ds' & -> & H1' & H2' & H3' & H4').
  now rewrite (shortest_unique _ _ _ H1 H1'), (shortest_unique _ _ _ H2 H2'), (shortest_unique _ _ _ H3 H3'), (bytes_unique _ _ _ H4 H4').
Qed.
Lemma prim_unique p b b' : primary7_written p b -> primary7_written p b' -> b = b'.
Proof.
  intros (fl & d & s & r & t & l & fr & -> & H1 & H2 & H3 & H4 & H5 & H6 & H7) (fl' & d' & s' & r' & t' & l' & fr' & -> & H1' & H2' & H3' & H4' & H5' & H6' & H7').
  rewrite (shortest_unique _ _ _ H1 H1'), (eid_unique _ _ _ H2 H2'), (eid_unique _ _ _ H3 H3'), (eid_unique _ _ _ H4 H4'), (two_unique _ _ _ H5 H5'), (shortest_unique _ _ _ H6 H6').
  assert (fr = fr') as ->; [|reflexivity]. destruct (is_fragment _); [exact (items_unique _ _ _ H7 H7')|congruence].
Qed.
Lemma content_unique b d d' : content_ok (k_c b) (if k_enc b then CPlain else k_x b) -> content_written b d -> content_written b d' -> d = d'.
Proof.
  unfold content_written. destruct (if k_enc b then CPlain else k_x b) as [|x|s|a]; cbn [content_ok]; intros OK; [congruence| | |].
  - destruct x; cbn [ext7_written]; [apply eid_unique|apply shortest_unique|apply two_unique|apply shortest_unique].
  - apply C48_written_data_is_unique.
  - now apply written_unique.
Qed.

(** ** One block *)
Lemma wok_of_at mem pos bs mem' pre : wok (length mem) (mem, pos) pre -> written_at mem pos bs mem' -> wok (length mem) (mem', (pos + length bs)%nat) (pre ++ bs).
Proof.
  intros (_ & P & F) (junk & -> & L). cbn [fst snd] in *. unfold wok. cbn [fst snd]. rewrite F in *. split; [exact L|]. split; [rewrite app_length; lia|]. rewrite P, app_assoc, <- app_length. apply firstn_pref.
Qed.
Lemma wok_between size w pre w' bs : wok size w pre -> wok size w' (pre ++ bs) -> (snd w' - snd w)%nat = length bs /\ between w w' = bs.
Proof.
  intros (_ & P & _) W'. destruct (wok_split _ _ _ W') as (rest & E & P' & _). rewrite app_length in P'. assert (L : (snd w' - snd w)%nat = length bs) by lia. split; [exact L|].
  unfold between. rewrite L, E, P, <- app_assoc, skipn_pref. apply firstn_pref.
Qed.
Definition sent_header (b : cbv7) (d : list N) (crcs : N * N) : canon7 :=
  mkCanon7 (c_type (k_c b)) (c_num (k_c b)) (c_flags (k_c b)) (N.of_nat (length d)) (Some d) crcs (c_crctype (k_c b)).
Lemma canon_min c d body : canon7_written c d body -> (6 <= length body)%nat.
Proof.
  intros (t & n & fl & ds & -> & (H1 & _) & (H2 & _) & (H3 & _) & (y & r & -> & _)). assert (P : forall v b, cbor_uint v b -> (1 <= length b)%nat) by (intros v b U; inversion U; cbn [length]; lia).
  apply P in H1, H2, H3. rewrite !app_length. cbn [length]. lia.
Qed.
Section Render.
Variables (j : N) (hw : option N).
Hypothesis J : j < 256.
Notation scan := (scan_any j).

Lemma block_ok b : k_dirty b = true -> sendable7 b -> exists d body crc crcs,
  content_written b d /\ canon7_written (k_c b) d body /\ crc_closing True (c_crctype (k_c b)) crcs body crc /\ N.of_nat (length d) < 2 ^ 64 /\ Forall is_octet d /\
  block7_size scan b = Some (N.of_nat (length (body ++ crc))) /\ (6 <= length (body ++ crc))%nat /\
  forall size w pre, wok size w pre -> (length pre + length (body ++ crc) + 8 <= size)%nat ->
    exists w', block7_write scan hw b w = Some (Some (sent_header b d crcs, w')) /\ wok size w' (pre ++ body ++ crc).
Proof.
  intros D SE. unfold sendable7 in SE. rewrite D in SE. destruct SE as (OK & CT & CO & LV).
  assert (G : forall mem pos, exists d body crc crcs, content_written b d /\ canon7_written (k_c b) d body /\ crc_closing True (c_crctype (k_c b)) crcs body crc /\
     N.of_nat (length d) < 2 ^ 64 /\ Forall is_octet d /\ block7_size scan b = Some (N.of_nat (length (body ++ crc))) /\
     ((pos + length (body ++ crc) + 8 <= length mem)%nat -> exists mem', block7_write scan hw b (mem, pos) = Some (Some (sent_header b d crcs, (mem', (pos + length (body ++ crc))%nat))) /\ written_at mem pos (body ++ crc) mem')).
  { intros mem pos. unfold content_written, block7_size, block7_write. destruct (if k_enc b then CPlain else k_x b) as [|x|s|a]; cbn [content_ok] in CO.
    - destruct CO as (d & CD & CL & LL & Hd). destruct (C46_write_is_exact j hw (k_c b) d mem pos J OK CT CD CL LL Hd) as (body & crc & crcs & W & C & SZ & K).
      exists d, body, crc, crcs. rewrite CL in LL. do 5 (split; [assumption|]). split; [exact SZ|]. intros L. destruct (K L) as (mem' & dp & E & WA & _). exists mem'. split; [|exact WA].
      rewrite (LV eq_refl), E. cbn [bind2 fst]. do 3 f_equal. unfold sent_header, cwith_crc. now rewrite CD, CL.
    - destruct CO as (OX & CX). destruct (C46_extension_write_is_exact j hw x (k_c b) mem pos J OX OK CT) as (d & body & crc & crcs & WX & W & C & SX & SZ & K). cbv zeta in *.
      assert (d = cext x) as E by (eapply (content_unique (mkCbv7 (k_c b) (CExt x) [] true true false false)); [split; assumption|exact WX|now apply cext_written]).
      pose proof (cext_len x) as LX. pose proof (cext_octets x OX) as O. rewrite <- E in LX, O. assert (W' : canon7_written (k_c b) d body) by (unfold canon7_written in *; cbn [c_type c_num c_flags c_crctype] in W; rewrite CX; exact W).
      unfold sent_header. rewrite CX. exists d, body, crc, crcs. do 3 (split; [assumption|]). split; [lia|]. split; [assumption|]. rewrite SX. split; [|exact K].
      rewrite <- SZ. unfold canon7_size. cbn. now rewrite CX.
    - destruct (C48_write_is_exact j hw s (k_c b) mem pos J CO OK CT) as (d & body & crc & crcs & WX & W & C & SX & SZ & K). cbv zeta in *.
      assert (d = csec s) as E by (eapply C48_written_data_is_unique; [exact WX|now apply csec_written, small_sec_ok]).
      pose proof (csec_len s CO) as LX. pose proof (csec_octets s CO) as O. rewrite <- E in LX, O. exists d, body, crc, crcs. split; [assumption|]. split; [exact W|]. split; [assumption|]. split; [unfold sec_ok in CO; lia|]. split; [assumption|]. rewrite SX. split; [exact SZ|exact K].
    - destruct (C47_write_is_exact j hw a (k_c b) mem pos J CO OK CT) as (d & body & crc & crcs & WX & W & C & SX & SZ & K). cbv zeta in *.
      assert (d = cadmin a) as E by (eapply written_unique; [exact CO|exact WX|now apply cadmin_written]).
      pose proof (cadmin_len a CO) as LX. pose proof (cadmin_octets a CO) as O. rewrite <- E in LX, O. exists d, body, crc, crcs. split; [assumption|]. split; [exact W|]. do 3 (split; [assumption|]). rewrite SX. split; [exact SZ|exact K]. }
  destruct (G [] O) as (d & body & crc & crcs & H1 & H2 & H3 & H4 & H5 & H6 & _). exists d, body, crc, crcs. do 6 (split; [assumption|]). split; [rewrite app_length; pose proof (canon_min _ _ _ H2); lia|].
  intros size [mem pos] pre W L. destruct (G mem pos) as (d' & body' & crc' & crcs' & G1 & G2 & G3 & G4 & G5 & G6 & K). pose proof (content_unique b d d' CO H1 G1) as <-. pose proof (canon_unique _ _ _ _ H2 G2) as <-.
  destruct (closing_det _ _ _ _ _ _ (written_octets _ _ _ OK H5 H2) H3 G3) as (<- & <-). assert (size = length mem /\ pos = length pre) as (-> & ->) by (destruct W as (W1 & W2 & _); cbn in *; auto).
  destruct (K L) as (mem' & E & WA). eexists. split; [exact E|]. now apply wok_of_at.
Qed.
Lemma prim_ok p : prim7_ok p -> q_crctype p <= 2 -> exists body crc crcs, primary7_written p body /\ crc_closing True (q_crctype p) crcs body crc /\ Forall is_octet body /\
  prim7_size scan p = Some (N.of_nat (length (body ++ crc))) /\ (1 <= length body)%nat /\
  forall size w pre, wok size w pre -> (length pre + length (body ++ crc) + 8 <= size)%nat -> exists w', prim7_write scan hw p w = Some (Some (with_crc7 p crcs, w')) /\ wok size w' (pre ++ body ++ crc).
Proof.
  intros OK CT. destruct (C45_write_is_exact j hw p [] O J OK CT) as (body & crc & crcs & H1 & H2 & H3 & _). exists body, crc, crcs. assert (HO : Forall is_octet body).
  { rewrite (prim_unique p body (cprim p) H1 (cprim_written p OK)). now apply cprim_octets. }
  do 4 (split; [assumption|]). split; [destruct H1 as (? & ? & ? & ? & ? & ? & ? & -> & _); cbn [length app]; lia|].
  intros size [mem pos] pre W L. destruct (C45_write_is_exact j hw p mem pos J OK CT) as (body' & crc' & crcs' & G1 & G2 & _ & K). pose proof (prim_unique _ _ _ H1 G1) as <-.
  destruct (closing_det _ _ _ _ _ _ HO H2 G2) as (<- & <-). assert (size = length mem /\ pos = length pre) as (-> & ->) by (destruct W as (W1 & W2 & _); cbn in *; auto).
  destruct (K L) as (mem' & E & WA). eexists. split; [exact E|]. now apply wok_of_at.
Qed.

(** ** All blocks *)
Definition set_live (alive : bool) (b : cbv7) : cbv7 := mkCbv7 (k_c b) (k_x b) (k_actual b) alive (k_dirty b) (k_del b) (k_enc b).
Definition actuals7 (l : list cbv7) : list N := concat (map k_actual l).
(** A block that is not the last. *)
Lemma round7 b : k_del b = false -> sendable7 b -> exists b', sent_block7 b b' /\ k_dirty b' = false /\ k_live b' = true /\ k_del b' = false /\
  (forall r, blocks_size7 scan (b :: r) = if (match r with [] => true | _ => false end) && negb (c_type (k_c b) =? 1) then Some None else try m <- blocks_size7 scan r; Some (Some (N.of_nat (length (k_actual b')) + m))) /\
  forall alive term r size w pre, wok size w pre -> (length pre + length (k_actual b') + 8 <= size)%nat ->
    (r = [] -> c_type (k_c b) = 1 /\ c_num (k_c b) = 1 /\ term = false) ->
    exists w', render_blocks7 scan hw alive term (b :: r) w = (do y <- render_blocks7 scan hw alive term r w'; Some (set_live alive b' :: fst y, snd y)) /\ wok size w' (pre ++ k_actual b').
Proof.
  intros ND SE. destruct (k_dirty b) eqn:D.
  - destruct (block_ok b D SE) as (d & body & crc & crcs & H1 & H2 & H3 & H4 & H5 & H6 & H7 & K).
    exists (mkCbv7 (sent_header b d crcs) (k_x b) (body ++ crc) true false (k_del b) (k_enc b)). split; [|split; [|split; [|split; [|split]]]]; try reflexivity.
    + unfold sent_block7. rewrite D. exists d, body, crc, crcs. auto.
    + exact ND.
    + intros r. cbn [blocks_size7 k_actual]. rewrite ND, D, H6. destruct ((match r with [] => true | _ => false end) && negb (c_type (k_c b) =? 1)); [reflexivity|].
      replace (N.of_nat (length (body ++ crc)) <? N.of_nat smallestSerializedCanonicalSize) with false by (symmetry; apply N.ltb_ge; unfold smallestSerializedCanonicalSize; lia). reflexivity.
    + cbn [k_actual]. intros alive term r size w pre W L LAST. destruct (K size w pre W L) as (w' & E & W'). exists w'. split; [|exact W']. cbn [render_blocks7].
      assert (E1 : (match r with [] => true | _ => false end) && negb ((c_type (k_c b) =? 1) && (c_num (k_c b) =? 1)) = false).
      { destruct r; [|reflexivity]. destruct (LAST eq_refl) as (-> & -> & _). reflexivity. }
      assert (E2 : (match r with [] => true | _ => false end) && term = false). { destruct r; [|reflexivity]. destruct (LAST eq_refl) as (_ & _ & ->). reflexivity. }
      rewrite E1, E2, D, E. destruct (wok_between _ _ _ _ _ W W') as (LB & BT). rewrite LB, BT.
      replace (Nat.ltb (length (body ++ crc)) smallestSerializedCanonicalSize) with false by (symmetry; apply Nat.ltb_ge; unfold smallestSerializedCanonicalSize; lia). reflexivity.
  - unfold sendable7 in SE. rewrite D in SE. exists b. unfold sent_block7. rewrite D. split; [reflexivity|]. split; [reflexivity|]. split; [exact SE|]. split; [exact ND|]. split.
    + intros r. cbn [blocks_size7]. rewrite ND, D. destruct ((match r with [] => true | _ => false end) && negb (c_type (k_c b) =? 1)); reflexivity.
    + intros alive term r size w pre W L LAST. destruct (put_bytes_writes (k_actual b) size w pre W) as (w' & E & W'); [lia|]. exists w'. split; [|exact W']. cbn [render_blocks7].
      assert (E1 : (match r with [] => true | _ => false end) && negb ((c_type (k_c b) =? 1) && (c_num (k_c b) =? 1)) = false).
      { destruct r; [|reflexivity]. destruct (LAST eq_refl) as (-> & -> & _). reflexivity. }
      assert (E2 : (match r with [] => true | _ => false end) && term = false). { destruct r; [|reflexivity]. destruct (LAST eq_refl) as (_ & _ & ->). reflexivity. }
      rewrite E1, E2, D, SE, E. unfold set_live. now rewrite D.
Qed.
Lemma front7 : forall front, Forall (fun b => k_del b = false) front -> Forall sendable7 front -> exists front', Forall2 sent_block7 front front' /\
  Forall (fun b => k_dirty b = false /\ k_live b = true /\ k_del b = false) front' /\
  (forall pl r, blocks_size7 scan (front ++ pl :: r) = try m <- blocks_size7 scan (pl :: r); Some (Some (N.of_nat (length (actuals7 front')) + m))) /\
  forall alive term pl r size w pre, wok size w pre -> (length pre + length (actuals7 front') + 8 <= size)%nat ->
    exists w', render_blocks7 scan hw alive term (front ++ pl :: r) w = (do y <- render_blocks7 scan hw alive term (pl :: r) w'; Some (map (set_live alive) front' ++ fst y, snd y)) /\ wok size w' (pre ++ actuals7 front').
Proof.
  induction front as [|b front IH]; intros ND SE.
  - exists []. split; [constructor|]. split; [constructor|]. split.
    + intros pl r. cbn [app actuals7 map concat length]. destruct (blocks_size7 scan (pl :: r)) as [[m|]|]; reflexivity.
    + intros alive term pl r size w pre W L. exists w. cbn [app actuals7 map concat]. rewrite app_nil_r. split; [|exact W]. destruct (render_blocks7 scan hw alive term (pl :: r) w) as [(y1, y2)|]; reflexivity.
  - inversion ND as [|? ? N1 N2]; subst. inversion SE as [|? ? S1 S2]; subst. destruct (IH N2 S2) as (front' & F2 & FC & SZ & K). destruct (round7 b N1 S1) as (b' & SB & Q1 & Q2 & Q3 & SB2 & KB).
    exists (b' :: front'). split; [constructor; auto|]. split; [constructor; auto|]. split.
    + intros pl r. cbn [app]. rewrite SB2. destruct (front ++ pl :: r) eqn:E; [destruct front; discriminate|]. rewrite <- E, SZ. cbn [andb]. unfold actuals7. cbn [map concat]. fold (actuals7 front').
      destruct (blocks_size7 scan (pl :: r)) as [[m|]|]; cbn [bind2]; [|reflexivity|reflexivity]. do 2 f_equal. rewrite app_length. lia.
    + intros alive term pl r size w pre W L. unfold actuals7 in L. cbn [map concat] in L. fold (actuals7 front') in L. rewrite app_length in L.
      destruct (KB alive term (front ++ pl :: r) size w pre W ltac:(lia)) as (w1 & E1 & W1); [destruct front; discriminate|]. destruct (K alive term pl r size w1 _ W1) as (w2 & E2 & W2); [rewrite app_length; lia|].
      exists w2. cbn [app]. rewrite E1, E2. unfold actuals7. cbn [map concat]. fold (actuals7 front'). rewrite app_assoc. split; [|exact W2].
      destruct (render_blocks7 scan hw alive term (pl :: r) w2) as [(y1, y2)|]; reflexivity.
Qed.
Lemma set_live_id l : Forall (fun b => k_dirty b = false /\ k_live b = true /\ k_del b = false) l -> map (set_live true) l = l.
Proof. induction 1 as [|b l (D & L & _) _ IH]; [reflexivity|]. cbn [map]. rewrite IH. f_equal. destruct b; cbn in *. unfold set_live. cbn. now rewrite L. Qed.
Lemma actuals_live alive l : actuals7 (map (set_live alive) l) = actuals7 l.
Proof. unfold actuals7. rewrite map_map. reflexivity. Qed.
Lemma actuals_app a b : actuals7 (a ++ b) = actuals7 a ++ actuals7 b.
Proof. unfold actuals7. now rewrite map_app, concat_app. Qed.
(** The loop over the blocks: complete, up to the last block, refused. *)
Lemma blocks_ok7 front pl : Forall (fun b => k_del b = false) (front ++ [pl]) -> Forall sendable7 (front ++ [pl]) -> block_type pl = 1 -> block_num pl = 1 -> exists front' pl', Forall2 sent_block7 (front ++ [pl]) (front' ++ [pl']) /\
  Forall (fun b => k_dirty b = false /\ k_live b = true /\ k_del b = false) (front' ++ [pl']) /\ blocks_size7 scan (front ++ [pl]) = Some (Some (N.of_nat (length (actuals7 (front' ++ [pl']))))) /\
  (forall alive size w pre, wok size w pre -> (length pre + length (actuals7 (front' ++ [pl'])) + 8 <= size)%nat ->
    exists w', render_blocks7 scan hw alive false (front ++ [pl]) w = Some (map (set_live alive) (front' ++ [pl']), Some (w', false)) /\ wok size w' (pre ++ actuals7 (front' ++ [pl']))) /\
  forall alive size w pre, wok size w pre -> (length pre + length (actuals7 front') + 8 <= size)%nat ->
    exists w', render_blocks7 scan hw alive true (front ++ [pl]) w = Some (map (set_live alive) front' ++ [pl], if k_dirty pl then None else Some (w', true)) /\ wok size w' (pre ++ actuals7 front').
Proof.
  intros ND SE T N1. apply Forall_app in ND, SE. destruct ND as (ND & NP), SE as (SE & SP). apply Forall_inv in NP, SP. unfold block_type in T. unfold block_num in N1.
  destruct (front7 front ND SE) as (front' & F2 & FC & SZ & K). destruct (round7 pl NP SP) as (pl' & SB & Q1 & Q2 & Q3 & SB2 & KB).
  assert (A1 : actuals7 [pl'] = k_actual pl') by (unfold actuals7; cbn [map concat]; apply app_nil_r).
  exists front', pl'. split; [apply Forall2_app; auto|]. split; [apply Forall_app; auto|]. split; [|split].
  - rewrite SZ, SB2, T, N.eqb_refl. cbn [negb andb blocks_size7 bind2]. do 2 f_equal. rewrite actuals_app, app_length, A1. lia.
  - intros alive size w pre W L. rewrite actuals_app, app_length, A1 in L. destruct (K alive false pl [] size w pre W ltac:(lia)) as (w1 & E1 & W1).
    destruct (KB alive false [] size w1 _ W1) as (w2 & E2 & W2); [rewrite app_length; lia|auto|]. exists w2. rewrite E1, E2, actuals_app, A1, app_assoc, map_app. split; [reflexivity|exact W2].
  - intros alive size w pre W L. destruct (K alive true pl [] size w pre W L) as (w1 & E1 & W1). exists w1. rewrite E1. split; [|exact W1]. cbn [render_blocks7 andb]. rewrite T, N1, N.eqb_refl. cbn [negb andb]. destruct (k_dirty pl); reflexivity.
Qed.
Lemma blocks_refused l : Forall (fun b => k_del b = false) l -> Forall sendable7 l -> l <> [] -> ~ ends_in_payload l -> exists need, forall alive term size w pre, wok size w pre -> (length pre + need + 8 <= size)%nat ->
  exists l', render_blocks7 scan hw alive term l w = Some (l', None).
Proof.
  intros ND SE NE NP. destruct (exists_last NE) as (front & pl & ->). apply Forall_app in ND, SE. destruct ND as (ND & _), SE as (SE & _). destruct (front7 front ND SE) as (front' & F2 & FC & SZ & K).
  exists (length (actuals7 front')). intros alive term size w pre W L. destruct (K alive term pl [] size w pre W L) as (w1 & E1 & W1). rewrite E1. cbn [render_blocks7 andb].
  destruct (negb ((c_type (k_c pl) =? 1) && (c_num (k_c pl) =? 1))) eqn:E; [eauto|]. exfalso. apply NP. exists front, pl. unfold block_type, block_num. split; [reflexivity|]. apply negb_false_iff, andb_true_iff in E. now rewrite !N.eqb_eq in E.
Qed.

(** ** The whole bundle *)
Definition front_bytes (pa : list N) (l : list cbv7) : list N := [159] ++ pa ++ actuals7 l.
Definition all_bytes (pa : list N) (l : list cbv7) : list N := [159] ++ pa ++ actuals7 l ++ [255].
Lemma kept_del7 l : Forall (fun b => k_del b = false) (kept7 l).
Proof. apply Forall_forall. intros b H. apply filter_In in H. destruct H as (_ & H). now destruct (k_del b). Qed.
Lemma sizes_kept l : (l = [] \/ exists front pl, l = front ++ [pl] /\ block_type pl = 1) -> (kept7 l = [] \/ exists front pl, kept7 l = front ++ [pl] /\ block_type pl = 1) -> blocks_size7 scan l = blocks_size7 scan (kept7 l).
Proof.
  induction l as [|b l IH]; intros H K; [reflexivity|]. destruct H as [H|(front & pl & E & T)]; [discriminate|].
  assert (L : match l with [] => true | _ => false end && negb (c_type (k_c b) =? 1) = false). { destruct l; [|reflexivity]. destruct front as [|? [|]]; cbn in E; [injection E as ->|discriminate|discriminate]. unfold block_type in T. rewrite T. reflexivity. }
  assert (HL : l = [] \/ exists front pl, l = front ++ [pl] /\ block_type pl = 1). { destruct front as [|f front]; cbn in E; [left; now injection E|right; injection E as _ ->; eauto]. }
  cbn [blocks_size7]. rewrite L. cbn [kept7 filter] in *. fold (kept7 l) in *. destruct (k_del b) eqn:D; cbn [negb] in *.
  - rewrite <- (IH HL K). cbn [bind2]. destruct (blocks_size7 scan l) as [[m|]|]; reflexivity.
  - assert (KL : kept7 l = [] \/ exists front pl, kept7 l = front ++ [pl] /\ block_type pl = 1).
    { destruct K as [K|(f2 & p2 & E2 & T2)]; [discriminate|]. destruct f2 as [|f f2]; cbn in E2; [left; now injection E2|right; injection E2 as _ ->; eauto]. }
    rewrite (IH HL KL). cbn [blocks_size7]. assert (L2 : match kept7 l with [] => true | _ => false end && negb (c_type (k_c b) =? 1) = false).
    { destruct (kept7 l); [|reflexivity]. destruct K as [K|(f2 & p2 & E2 & T2)]; [discriminate|]. destruct f2 as [|? [|]]; cbn in E2; [injection E2 as ->|discriminate|discriminate]. unfold block_type in T2. rewrite T2. reflexivity. }
    rewrite L2, D. reflexivity.
Qed.
Lemma frees_bit : forall l m k, N.testbit (free_all l m) k = true <-> N.testbit m k = true \/ (k < 64 /\ In k (map block_num l)).
Proof.
  unfold free_all. induction l as [|b l IH]; intros m k; cbn [fold_left map In]; [tauto|]. rewrite IH, free_bit, orb_true_iff, andb_true_iff, N.eqb_eq, N.leb_le. unfold block_num at 2. split.
  - intros [[H|(-> & H)]|(H & I)]; [auto|right; split; [lia|now left]|auto].
  - intros [H|(H & [E|I])]; [auto| |auto]. left. right. split; [exact E|lia].
Qed.
Definition view_of (alive : bool) (p : prim7) (pa : list N) (l : list cbv7) (v : bview7) : bview7 :=
  mkBview7 p pa alive false l (free_all (filter k_del (w_blocks v)) (w_mask v)) (w_enc v) (w_bytes v).
Lemma primary_ok7 v : view7_ok v -> exists p pa, (forall v', w_prim v' = p -> w_pactual v' = pa -> sent_primary7 v v') /\ q_isfrag (q_flags p) = false /\
  (try n <- (if w_pdirty v then do n <- prim7_size scan (w_prim v); (if n =? 0 then Some None else Some (Some n)) else Some (Some (N.of_nat (length (w_pactual v))))); Some (Some n)) = Some (Some (N.of_nat (length pa))) /\
  forall size w pre, wok size w pre -> (length pre + length pa + 8 <= size)%nat ->
    exists w', (if w_pdirty v then do y <- prim7_write scan hw (w_prim v) w; Some (option_map (fun z : prim7 * wr => (fst z, between w (snd z), snd z)) y)
       else if w_plive v then do w1 <- put_bytes (w_pactual v) w; Some (Some (w_prim v, w_pactual v, w1)) else None) = Some (Some (p, pa, w')) /\ wok size w' (pre ++ pa).
Proof.
  intros (P & NF & _). unfold sent_primary7. destruct (w_pdirty v).
  - destruct P as (OK & CT). destruct (prim_ok (w_prim v) OK CT) as (body & crc & crcs & H1 & H2 & H3 & H4 & H5 & K). exists (with_crc7 (w_prim v) crcs), (body ++ crc). split; [|split; [|split]].
    + intros v' E1 E2. exists body, crc, crcs. auto.
    + rewrite isfrag_bit. exact NF.
    + rewrite H4. replace (N.of_nat (length (body ++ crc)) =? 0) with false by (symmetry; apply N.eqb_neq; rewrite app_length; lia). reflexivity.
    + intros size w pre W L. destruct (K size w pre W L) as (w' & E & W'). exists w'. rewrite E. cbn [option_map fst snd]. destruct (wok_between _ _ _ _ _ W W') as (_ & ->). auto.
  - exists (w_prim v), (w_pactual v). split; [auto|]. split; [rewrite isfrag_bit; exact NF|]. split; [reflexivity|]. intros size w pre W L. rewrite P. destruct (put_bytes_writes (w_pactual v) size w pre W) as (w' & E & W'); [lia|]. exists w'. rewrite E. auto.
Qed.
Lemma render_at_ok v front pl : view7_ok v -> kept7 (w_blocks v) = front ++ [pl] -> block_type pl = 1 -> block_num pl = 1 ->
  exists p pa front' pl', let l' := front' ++ [pl'] in
  (forall alive v', w_prim v' = p -> w_pactual v' = pa -> w_blocks v' = l' -> w_plive v' = true -> w_pdirty v' = false -> w_enc v' = w_enc v -> w_mask v' = w_mask (view_of alive p pa l' v) ->
     w_bytes v' = all_bytes pa l' -> sent7 v v') /\
  Forall2 sent_block7 (front ++ [pl]) l' /\ Forall (fun b => k_dirty b = false /\ k_live b = true /\ k_del b = false) l' /\
  ((exists f q, w_blocks v = f ++ [q] /\ block_type q = 1) -> view7_size scan v = Some (Some (N.of_nat (length (all_bytes pa l'))))) /\
  (forall alive size w pre, wok size w pre -> (length pre + length (all_bytes pa l') + 8 <= size)%nat ->
    exists w', render_at7 scan hw alive false v w = Some (view_of alive p pa (map (set_live alive) l') v, Some w') /\ wok size w' (pre ++ all_bytes pa l')) /\
  forall alive size w pre, wok size w pre -> (length pre + length (front_bytes pa front') + 8 <= size)%nat ->
    exists w', render_at7 scan hw alive true v w = Some (view_of alive p pa (map (set_live alive) front' ++ [pl]) v, if k_dirty pl then None else Some w') /\ wok size w' (pre ++ front_bytes pa front').
Proof.
  intros OK EK T N1. destruct (primary_ok7 v OK) as (p & pa & SP & NF & PS & PW). pose proof (kept_del7 (w_blocks v)) as KD. destruct OK as (_ & _ & SE). rewrite EK in KD, SE.
  destruct (blocks_ok7 front pl KD SE T N1) as (front' & pl' & F2 & FC & BS & R1 & R2). exists p, pa, front', pl'. cbv zeta. set (l' := front' ++ [pl']) in *. split; [|split; [exact F2|split; [exact FC|split; [|split]]]].
  - intros alive v' E1 E2 E3 E4 E5 E6 E7 E8. unfold sent7. split; [now apply SP|]. rewrite EK, E3. split; [exact F2|]. split; [exact E4|]. split; [exact E5|]. split; [exact E6|]. split; [|rewrite E2; exact E8].
    unfold mask_sent. intros n. rewrite E7. cbn [view_of w_mask]. apply frees_bit.
  - intros H. unfold view7_size. destruct (if w_pdirty v then _ else _) as [[n|]|]; cbn [bind2] in PS |- *; [|discriminate PS|discriminate PS]. injection PS as ->.
    rewrite sizes_kept; [|right; exact H|right; exists front, pl; auto]. rewrite EK, BS. cbn [bind2]. do 2 f_equal. unfold all_bytes. rewrite !app_length. cbn [length]. lia.
  - intros alive size w pre W L. unfold render_at7, all_bytes, front_bytes in *. destruct (put_bytes_writes [159] size w pre W) as (w0 & -> & W0); [rewrite !app_length in L; cbn [length] in *; lia|].
    destruct (PW size w0 _ W0) as (w1 & -> & W1); [rewrite !app_length in *; cbn [length] in *; lia|]. rewrite NF. fold (kept7 (w_blocks v)). rewrite EK.
    destruct (R1 alive size w1 _ W1) as (w2 & -> & W2); [rewrite !app_length in *; cbn [length] in *; lia|]. cbn [fst snd].
    destruct (put_bytes_writes [255] size w2 _ W2) as (w3 & -> & W3); [rewrite !app_length in *; cbn [length] in *; lia|]. exists w3. split; [reflexivity|]. rewrite <- !app_assoc in W3. exact W3.
  - intros alive size w pre W L. unfold render_at7, all_bytes, front_bytes in *. destruct (put_bytes_writes [159] size w pre W) as (w0 & -> & W0); [rewrite !app_length in L; cbn [length] in *; lia|].
    destruct (PW size w0 _ W0) as (w1 & -> & W1); [rewrite !app_length in *; cbn [length] in *; lia|]. rewrite NF. fold (kept7 (w_blocks v)). rewrite EK.
    destruct (R2 alive size w1 _ W1) as (w2 & -> & W2); [rewrite !app_length in *; cbn [length] in *; lia|]. cbn [fst snd]. exists w2. rewrite <- !app_assoc in W2. split; [|exact W2].
    destruct (k_dirty pl); reflexivity.
Qed.
End Render.
