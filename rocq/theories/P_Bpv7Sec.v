(** C48: BPSec security blocks. *)
From Coq Require Import NArith ZArith List Bool Lia ZifyBool ZifyN.
From Verif Require Import Base M_SegmentAlloc M_Intrin M_Sdnv M_Cbor M_Bpv6Block M_Bpv7Crc M_Bpv7Block M_Bpv7Sec S_Sdnv S_Cbor S_Bpv7Crc S_Bpv7 S_Bpv7Sec.
From Verif Require Import L_Intrin L_Cbor P_Cbor L_Bpv7Crc P_Bpv7Crc L_Bpv6Read L_Bpv6Write L_Bpv7Read L_Bpv7Write L_Bpv7Canon P_Bpv7Canon P_Bpv7Admin L_Bpv7Sec.
Import ListNotations.
Open Scope N_scope.

(** C48: with at least 23 bytes of memory behind the data, the parser delivers the block exactly when the data, all of it,
    is a security block of the form of sec_form with that content. *)
Theorem C48_parse_accepts_exactly : forall old s d beyond, Forall is_octet (d ++ beyond) -> (23 <= length beyond)%nat -> N.of_nat (length (d ++ beyond)) < 2 ^ 64 ->
  sec7_parse old (d ++ beyond) (N.of_nat (length d)) = Some (Some s) <-> sec_form old s d.
Proof.
  intros old s d beyond Hb L23 LW. change (2 ^ 64) with W64 in LW. split.
  - intros E. destruct (sec7_parse_inv old s _ _ Hb LW E) as (d' & b' & E1 & E2 & F). assert (LL : length d' = length d) by lia.
    assert (d' = d) as ->; [|exact F]. rewrite <- (firstn_exact _ d beyond (length d) eq_refl), E1, <- LL. symmetry. apply firstn_pref.
  - intros F. apply sec7_parse_ok; auto. rewrite app_length in LW. lia.
Qed.
Print Assumptions C48_parse_accepts_exactly.
Definition c48_block : sec7 := mkSec7 [1; 2] 1 1 (5, 7) [(1, VUint 6); (2, VBytes [170; 187]); (3, VUint 300)] [(1, VBytes [1; 2; 3]); (1, VBytes [])].
Definition c48_data : list N := [130; 1; 2; 1; 1; 130; 2; 130; 5; 7; 131; 130; 1; 6; 130; 2; 66; 170; 187; 130; 3; 25; 1; 44; 130; 129; 130; 1; 67; 1; 2; 3; 129; 130; 1; 64].
Example C48_parse_accepts_exactly_ex : sec7_parse [] (c48_data ++ repeat 0 23) 36 = Some (Some c48_block) /\
  sec7_parse [] ([130; 1; 2; 1; 1; 159; 2; 130; 5; 7; 255; 129; 159; 1; 24; 6; 255; 128] ++ repeat 0 23) 18 = Some (Some (mkSec7 [1; 2] 1 1 (5, 7) [(1, VUint 6)] [])) /\
  sec7_parse [] (c48_data ++ repeat 0 23) 35 = Some None.
Proof. vm_compute. auto. Qed.

(** C48: whatever the sizes, a block is delivered only if the data is one: the reading past the data is noticed in the end. *)
Theorem C48_accepted_is_wellformed : forall old s mem dlen, Forall is_octet mem -> N.of_nat (length mem) < 2 ^ 64 -> sec7_parse old mem dlen = Some (Some s) ->
  exists d beyond, mem = d ++ beyond /\ dlen = N.of_nat (length d) /\ sec_form old s d.
Proof. intros old s mem dlen Hb LW E. exact (sec7_parse_inv old s mem dlen Hb LW E). Qed.
Print Assumptions C48_accepted_is_wellformed.
Example C48_accepted_is_wellformed_ex : sec7_parse [(9, VUint 1)] ([129; 1; 2; 0; 130; 1; 0; 128] ++ [77; 1; 2; 3]) 8 = Some (Some (mkSec7 [1] 2 0 (0, 0) [(9, VUint 1)] [])).
Proof. vm_compute. reflexivity. Qed.

(** C48: a form determines the block: two readings of the same data agree. *)
Theorem C48_reading_is_unambiguous : forall old s s' d, Forall is_octet d -> N.of_nat (length d) + 23 < 2 ^ 64 -> sec_form old s d -> sec_form old s' d -> s = s'.
Proof.
  intros old s s' d Hd L F F'. assert (Hb : Forall is_byte (d ++ repeat 0 23)) by (apply Forall_app; split; [exact Hd|cbn; repeat constructor]).
  assert (LW : N.of_nat (length d) < W64) by (change W64 with (2 ^ 64); lia).
  pose proof (sec7_parse_ok old s d (repeat 0 23) F Hb ltac:(cbn; lia) LW) as E. rewrite (sec7_parse_ok old s' d (repeat 0 23) F' Hb ltac:(cbn; lia) LW) in E. congruence.
Qed.
Print Assumptions C48_reading_is_unambiguous.
Example C48_reading_is_unambiguous_ex : sec_form [] c48_block c48_data.
Proof. apply (C48_parse_accepts_exactly [] c48_block c48_data (repeat 0 23)); [repeat constructor; unfold is_octet; lia|cbn; lia|vm_compute; reflexivity|vm_compute; reflexivity]. Qed.

(** C48: a security block is written as the canonical block around its data in shortest CBOR, and the sizes announced are
    those of the data and of the block. *)
Theorem C48_write_is_exact : forall j hw s c mem pos, j < 256 -> sec_ok s -> canon7_ok c -> c_crctype c <= 2 ->
  exists d body crc crcs, let out := mkCanon7 (c_type c) (c_num c) (c_flags c) (N.of_nat (length d)) (Some d) crcs (c_crctype c) in
    sec_written s d /\ canon7_written out d body /\ crc_closing True (c_crctype c) crcs body crc /\
    sec7_size (scan_any j) s = Some (N.of_nat (length d)) /\ canon7_size (scan_any j) out (N.of_nat (length d)) = Some (N.of_nat (length (body ++ crc))) /\
    ((pos + length (body ++ crc) + 8 <= length mem)%nat -> exists mem',
       sec7_serialize (scan_any j) hw s c (mem, pos) = Some (Some (out, (mem', (pos + length (body ++ crc))%nat))) /\ written_at mem pos (body ++ crc) mem').
Proof.
  intros j hw s c mem pos J OX OK CT. pose proof (small_sec_ok s OX) as SM. pose proof (csec_len s OX) as LX. assert (LB : N.of_nat (sec_bytes s) < W64) by apply OX.
  destruct (ext_write_ok j hw (c_type c) (sec7_size (scan_any j) s) (fill_with (sec7_data (scan_any j) s)) (csec s) c mem pos J (proj1 OK) OK CT ltac:(lia)
    (csec_octets s OX) (sec_size_ok j s J SM) (fun old L => sec_fill j s old J SM L)) as (body & crc & crcs & W & C & SZ & K).
  exists (csec s), body, crc, crcs. cbv zeta. split; [now apply csec_written|]. split; [exact W|]. split; [exact C|]. split; [now apply sec_size_ok|]. split; [exact SZ|exact K].
Qed.
Print Assumptions C48_write_is_exact.
Example C48_write_is_exact_ex : sec_ok c48_block /\ sec7_size (scan_any 3) c48_block = Some 36 /\
  exists mem', sec7_serialize (scan_any 3) None c48_block (mkCanon7 11 3 0 0 None (0, 0) 0) (repeat 0 60, 2%nat) =
    Some (Some (mkCanon7 11 3 0 36 (Some c48_data) (0, 0) 0, (mem', 45%nat))) /\ firstn 45 mem' = [0; 0; 133; 11; 3; 0; 0; 88; 36] ++ c48_data.
Proof.
  split; [|split; [vm_compute; reflexivity|eexists; split; vm_compute; reflexivity]].
  split; [repeat constructor|]. split; [reflexivity|]. split; [reflexivity|]. split; [split; reflexivity|]. split; [|split; [|vm_compute; reflexivity]]; repeat constructor; unfold is_octet; cbn; lia.
Qed.

(** C48: the data written is determined by the members. *)
Theorem C48_written_data_is_unique : forall s d d', sec_written s d -> sec_written s d' -> d = d'.
Proof.
  assert (S : forall v b b', shortest_cbor v b -> shortest_cbor v b' -> b = b') by (exact shortest_unique).
  assert (SH : forall n b b', shortest_header n b -> shortest_header n b' -> b = b').
  { intros n b b' (y & r & -> & H) (y' & r' & -> & H'). pose proof (S _ _ _ H H') as Q. injection Q as -> ->. reflexivity. }
  assert (SF : forall (A : Type) (F : A -> list N -> Prop), (forall x b b', F x b -> F x b' -> b = b') -> forall xs ps ps', Forall2 F xs ps -> Forall2 F xs ps' -> ps = ps').
  { intros A F U xs ps ps' H. revert ps'. induction H as [|x p xs ps X H IH]; intros ps' H'; inversion H'; subst; [reflexivity|]. f_equal; eauto. }
  assert (SI : forall vs b b', shortest_items vs b -> shortest_items vs b' -> b = b').
  { intros vs b b' (ps & -> & F) (ps' & -> & F'). f_equal. exact (SF _ _ S _ _ _ F F'). }
  assert (SP : forall isparam p b b', pair_written isparam p b -> pair_written isparam p b' -> b = b').
  { intros ip p b b' (i & y & H1 & H2 & ->) (i' & y' & H1' & H2' & ->). rewrite (S _ _ _ H1 H1'). do 3 f_equal. destruct (snd p) as [v|d]; cbn [value_written] in *; [exact (S _ _ _ H2 H2')|].
    destruct H2 as (x & r & -> & H2), H2' as (x' & r' & -> & H2'). pose proof (S _ _ _ H2 H2') as Q. injection Q as -> ->. reflexivity. }
  assert (SPS : forall isparam ps b b', pairs_written isparam ps b -> pairs_written isparam ps b' -> b = b').
  { intros ip ps b b' (h & qs & -> & H1 & H2) (h' & qs' & -> & H1' & H2'). rewrite (SH _ _ _ H1 H1'). do 2 f_equal. exact (SF _ _ (SP ip) _ _ _ H2 H2'). }
  intros s d d' (h & t & c & f & e & ps & rs & -> & H1 & H2 & H3 & H4 & H5 & H6 & H7) (h' & t' & c' & f' & e' & ps' & rs' & -> & H1' & H2' & H3' & H4' & H5' & H6' & H7').
  rewrite (SH _ _ _ H1 H1'), (SI _ _ _ H2 H2'), (S _ _ _ H3 H3'), (S _ _ _ H4 H4'), (SPS _ _ _ _ H7 H7').
  assert (e = e') as ->. { unfold eid7_written in *. destruct (fst (s_source s) =? 0); [congruence|]. destruct H5 as (q & (u & U & ->) & ->), H5' as (q' & (u' & U' & ->) & ->). now rewrite (SI _ _ _ U U'). }
  assert (ps = ps') as ->; [|reflexivity]. destruct (has_params (s_flags s)); [exact (SPS _ _ _ _ H6 H6')|congruence].
Qed.
Print Assumptions C48_written_data_is_unique.
Example C48_written_data_is_unique_ex : sec_written c48_block c48_data.
Proof. change c48_data with (csec c48_block). apply csec_written, small_sec_ok, C48_write_is_exact_ex. Qed.

(** C48: a security block that was written is read back: as the same canonical block, and its data as the same members,
    where parameters that are not sent are those of the reader's object. Its ids are known and its arrays are not too long. *)
Theorem C48_blocks_round_trip : forall j hw hw' skip old s c mem pos, j < 256 -> sec_ok s -> canon7_ok c -> c_crctype c <= 2 -> sec_readable s ->
  exists n, sec7_size (scan_any j) s = Some n /\ ((pos + N.to_nat n + 60 <= length mem)%nat ->
    exists out mem' e, sec7_serialize (scan_any j) hw s c (mem, pos) = Some (Some (out, (mem', e))) /\
    (let bs := firstn (e - pos) (skipn pos mem') in canon7_read skip hw' bs = Some (bs, Some (out, length bs))) /\
    exists d, c_data out = Some d /\ c_len out = N.of_nat (length d) /\
      forall beyond, Forall is_octet beyond -> (23 <= length beyond)%nat -> sec7_parse old (d ++ beyond) (c_len out) = Some (Some (sec_meant old s))).
Proof.
  intros j hw hw' skip old s c mem pos J OA OK CT RD. destruct (C48_write_is_exact j hw s c mem pos J OA OK CT) as (d & body & crc & crcs & WX & WC & C & SX & SZ & K).
  exists (N.of_nat (length d)). split; [exact SX|]. rewrite Nat2N.id. intros LM.
  set (out := mkCanon7 (c_type c) (c_num c) (c_flags c) (N.of_nat (length d)) (Some d) crcs (c_crctype c)) in *.
  assert (ED : d = csec s) by (apply (C48_written_data_is_unique s); [exact WX|now apply csec_written, small_sec_ok]).
  assert (Hd : Forall is_octet d) by (rewrite ED; now apply csec_octets).
  assert (LD : N.of_nat (length d) < 2 ^ 64). { rewrite ED. pose proof (csec_len s OA). assert (LB : N.of_nat (sec_bytes s) < 2 ^ 64) by apply OA. lia. }
  assert (LEN : (length (body ++ crc) <= length d + 52)%nat).
  { destruct WC as (t & n & fl & ds & -> & X1 & X2 & X3 & (y & r & -> & X4)). apply shortest_cenc in X1, X2, X3, X4. cbn [length] in X4. rewrite !app_length. cbn [length].
    pose proof (csize_pos (c_type out)). pose proof (csize_pos (c_num out)). pose proof (csize_pos (c_flags out)). pose proof (csize_pos (N.of_nat (length d))).
    pose proof (closing_len _ _ _ _ _ C) as LC. assert (length (zero_field (c_crctype c)) <= 5)%nat by (unfold zero_field; destruct (c_crctype c =? 0); [cbn; lia|]; destruct (c_crctype c =? 1); cbn; lia). lia. }
  destruct (K ltac:(lia)) as (mem' & E & (junk & EM & LM')). exists out, mem', (pos + length (body ++ crc))%nat. split; [exact E|]. split.
  - cbv zeta. replace (pos + length (body ++ crc) - pos)%nat with (length (body ++ crc)) by lia.
    assert (EB : firstn (length (body ++ crc)) (skipn pos mem') = body ++ crc). { rewrite EM. rewrite skipn_exact by (rewrite firstn_length; lia). apply firstn_pref. }
    rewrite EB. pose proof (C46_written_blocks_read_back skip hw' out d body crc crcs [] OK LD Hd (Forall_nil _) WC C) as R. cbv zeta in R. rewrite app_nil_r in R. exact R.
  - exists d. split; [reflexivity|]. split; [reflexivity|]. intros beyond Hb L23. apply sec7_parse_ok; [now apply sec_written_form|apply Forall_app; auto|exact L23|exact LD].
Qed.
Print Assumptions C48_blocks_round_trip.
Example C48_blocks_round_trip_ex : sec_readable c48_block /\ sec_meant [] c48_block = c48_block /\ canon7_ok (mkCanon7 11 3 0 0 None (0, 0) 2).
Proof.
  assert (L : forall v, low_is v v) by (intros v; exists 0; lia).
  assert (KP : forall c i y, param_kind c i y -> known true c (i, y)) by (intros c i y H; exists c, i; auto). assert (KR : forall c i y, result_kind c i y -> known false c (i, y)) by (intros c i y H; exists c, i; auto).
  split; [|split; [reflexivity|repeat split; reflexivity]]. split; [cbn; lia|]. split; [reflexivity|]. split; [intros _; split; [|cbn; lia]|split; [|cbn; lia]]; cbn [c48_block s_params s_results s_ctx].
  - constructor; [apply KP; constructor|]. constructor; [apply KP; constructor|]. constructor; [apply KP; constructor|]. constructor.
  - constructor; [apply KR; constructor|]. constructor; [apply KR; constructor|]. constructor.
Qed.

(** C48: setting a parameter. It fails, changing nothing, exactly when the parameter is there with the other kind of value;
    otherwise it has the value from then on and every other parameter is as before. *)
Theorem C48_parameters_are_set : forall id v d ps,
  (let (ps', ok) := set_uint id v ps in
   (ok = false <-> exists d', get_bytes id ps = Some d') /\ (ok = false -> ps' = ps) /\ (ok = true -> get_uint id ps' = Some v /\ get_bytes id ps' = None) /\
   (forall i, i <> id -> get_uint i ps' = get_uint i ps /\ get_bytes i ps' = get_bytes i ps)) /\
  (let (ps', ok) := set_bytes id d ps in
   (ok = false <-> exists v', get_uint id ps = Some v') /\ (ok = false -> ps' = ps) /\ (ok = true -> get_bytes id ps' = Some d /\ get_uint id ps' = None) /\
   (forall i, i <> id -> get_uint i ps' = get_uint i ps /\ get_bytes i ps' = get_bytes i ps)).
Proof.
  intros id v d ps. split; (induction ps as [|(i & y) ps IH]; cbn [set_uint set_bytes get_uint get_bytes]).
  - rewrite N.eqb_refl. split; [split; [discriminate|intros (x & Q); discriminate Q]|]. split; [discriminate|]. split; [auto|]. intros i N. apply not_eq_sym, N.eqb_neq in N. now rewrite N.
  - destruct (N.eqb_spec i id) as [->|NI].
    + destruct y as [u|b]; cbn [get_uint get_bytes]; rewrite N.eqb_refl.
      * split; [split; [discriminate|intros (x & Q); discriminate Q]|]. split; [discriminate|]. split; [auto|]. intros i N. apply not_eq_sym, N.eqb_neq in N. now rewrite N.
      * split; [split; [eauto|auto]|]. split; [auto|]. split; [discriminate|auto].
    + destruct (set_uint id v ps) as (ps' & ok). destruct IH as (H1 & H2 & H3 & H4). cbn [get_uint get_bytes]. apply N.eqb_neq in NI. rewrite NI.
      split; [exact H1|]. split; [intros Q; now rewrite H2|]. split; [exact H3|]. intros k NK. destruct (i =? k); [auto|now apply H4].
  - rewrite N.eqb_refl. split; [split; [discriminate|intros (x & Q); discriminate Q]|]. split; [discriminate|]. split; [auto|]. intros i N. apply not_eq_sym, N.eqb_neq in N. now rewrite N.
  - destruct (N.eqb_spec i id) as [->|NI].
    + destruct y as [u|b]; cbn [get_uint get_bytes]; rewrite N.eqb_refl.
      * split; [split; [eauto|auto]|]. split; [auto|]. split; [discriminate|auto].
      * split; [split; [discriminate|intros (x & Q); discriminate Q]|]. split; [discriminate|]. split; [auto|]. intros i N. apply not_eq_sym, N.eqb_neq in N. now rewrite N.
    + destruct (set_bytes id d ps) as (ps' & ok). destruct IH as (H1 & H2 & H3 & H4). cbn [get_uint get_bytes]. apply N.eqb_neq in NI. rewrite NI.
      split; [exact H1|]. split; [intros Q; now rewrite H2|]. split; [exact H3|]. intros k NK. destruct (i =? k); [auto|now apply H4].
Qed.
Print Assumptions C48_parameters_are_set.
Example C48_parameters_are_set_ex : set_uint 3 9 (s_params c48_block) = ([(1, VUint 6); (2, VBytes [170; 187]); (3, VUint 9)], true) /\
  set_uint 2 9 (s_params c48_block) = (s_params c48_block, false) /\ set_bytes 4 [8] [(1, VUint 6)] = ([(1, VUint 6); (4, VBytes [8])], true).
Proof. auto. Qed.

(** C48: the scope is 7 unless a parameter gives another; the results of an id are those appended with it, in order. *)
Theorem C48_scope_and_results : forall id v ps rs d k,
  ((forall u, get_uint id ps <> Some u) -> scope_of id ps = 7) /\ (snd (set_uint id v ps) = true -> scope_of id (fst (set_uint id v ps)) = v) /\
  all_results id [] = [] /\ all_results id ((k, VUint v) :: rs) = all_results id rs /\ all_results id ((k, VBytes d) :: rs) = (if k =? id then [d] else []) ++ all_results id rs /\
  all_results id (add_result k d rs) = all_results id rs ++ (if k =? id then [d] else []).
Proof.
  intros id v ps rs d k. pose proof (proj1 (C48_parameters_are_set id v [] ps)) as P. split; [|split; [|split; [reflexivity|split; [|split; [reflexivity|]]]]].
  - intros H. unfold scope_of. destruct (get_uint id ps) as [u|]; [destruct (H u eq_refl)|reflexivity].
  - destruct (set_uint id v ps) as (ps' & ok). cbn [fst snd]. intros ->. destruct P as (_ & _ & P & _). unfold scope_of. now rewrite (proj1 (P eq_refl)).
  - unfold all_results. cbn [flat_map fst snd]. now destruct (k =? id).
  - unfold all_results, add_result. rewrite flat_map_app. cbn [flat_map fst snd]. destruct (k =? id); reflexivity.
Qed.
Print Assumptions C48_scope_and_results.
Example C48_scope_and_results_ex : scope_of 3 (s_params c48_block) = 300 /\ scope_of 4 (s_params c48_block) = 7 /\ scope_of 2 (s_params c48_block) = 7 /\
  all_results 1 (s_results c48_block) = [[1; 2; 3]; []] /\ all_results 2 (s_results c48_block) = [].
Proof. repeat split. Qed.

(** C48: blocks compare equal exactly when they have the same members, parameters counting only if the flags announce them. *)
Theorem C48_equal_blocks_agree : forall a b, sec7_equal a b = true <->
  (s_targets a, s_ctx a, s_flags a, s_source a, s_results a) = (s_targets b, s_ctx b, s_flags b, s_source b, s_results b) /\
  (has_params (s_flags a) = true -> s_params a = s_params b).
Proof.
  assert (OE : forall x y, octets_equal x y = true <-> x = y).
  { induction x as [|a x IH]; destruct y as [|b y]; cbn [octets_equal]; try (split; congruence). rewrite andb_true_iff, N.eqb_eq, IH. split; [intros (-> & ->); reflexivity|intros E; injection E as -> ->; auto]. }
  assert (VE : forall x y, value_equal x y = true <-> x = y).
  { intros [u|d] [v|e]; cbn [value_equal]; try (split; congruence); [rewrite N.eqb_eq|rewrite OE]; split; congruence. }
  assert (PE : forall x y, pairs_equal x y = true <-> x = y).
  { induction x as [|(i & a) x IH]; destruct y as [|(k & b) y]; cbn [pairs_equal]; try (split; congruence). rewrite !andb_true_iff, N.eqb_eq, VE, IH. split; [intros ((-> & ->) & ->); reflexivity|intros E; injection E as -> -> ->; auto]. }
  intros a b. unfold sec7_equal. rewrite !andb_true_iff, !orb_true_iff, !N.eqb_eq, !OE, !PE, negb_true_iff. fold (has_params (s_flags a)). destruct (s_source a) as (n1 & v1), (s_source b) as (n2 & v2). cbn [fst snd]. split.
  - intros H. decompose [and] H. clear H. split; [congruence|]. intros F. match goal with H : _ \/ _ |- _ => destruct H as [H|H] end; congruence.
  - intros (E & F). injection E as E1 E2 E3 E4 E5 E6. repeat split; auto. destruct (has_params (s_flags a)); auto.
Qed.
Print Assumptions C48_equal_blocks_agree.
Example C48_equal_blocks_agree_ex : sec7_equal c48_block c48_block = true /\ sec7_equal c48_block (mkSec7 [1; 2] 1 1 (5, 7) [(1, VUint 6); (2, VUint 170); (3, VUint 300)] (s_results c48_block)) = false /\
  sec7_equal (mkSec7 [1] 1 0 (5, 7) [] []) (mkSec7 [1] 1 0 (5, 7) [(3, VUint 9)] []) = true.
Proof. vm_compute. auto. Qed.

(** C48 refuted: the parser stays within the buffer. In this buffer of 45 bytes a security block without CRC, whose data
    ends in the node number of the source, is followed by a payload block. Both blocks are well-formed canonical blocks. The
    source is read on into the payload block, the rest of the buffer size wraps around, and the length of a result in the
    payload makes the parser copy 4 GiB from behind the buffer, whatever the 32 bytes of padding are. *)
Definition c48_attack : list N := [133; 11; 2; 0; 0; 80; 137; 1; 2; 3; 4; 5; 6; 7; 8; 9; 1; 0; 130; 2; 130; 27] ++ [133; 1; 1; 0; 0; 80; 0; 0; 0; 129; 129; 130; 1; 91; 0; 0; 0; 1; 0; 0; 0; 0] ++ [255].
Theorem C48_stays_in_buffer_refuted : exists d out payload, canon7_read false None c48_attack = Some (c48_attack, Some (out, 22%nat)) /\
  c_type out = 11 /\ c_data out = Some d /\ c_len out = N.of_nat (length d) /\ canon7_read false None (skipn 22 c48_attack) = Some (skipn 22 c48_attack, Some (payload, 22%nat)) /\ c_type payload = 1 /\
  skipn 44 c48_attack = [255] /\ firstn 16 (skipn 6 c48_attack) = d /\ forall padding, length padding = 32%nat -> sec7_parse [] (skipn 6 c48_attack ++ padding) (c_len out) = None.
Proof.
  do 3 eexists. split; [vm_compute; reflexivity|]. split; [reflexivity|]. split; [reflexivity|]. split; [reflexivity|]. split; [vm_compute; reflexivity|]. split; [reflexivity|]. split; [reflexivity|]. split; [reflexivity|].
  intros p L. do 32 (destruct p as [|? p]; [discriminate L|]). destruct p; [|discriminate L]. vm_compute. reflexivity.
Qed.
Print Assumptions C48_stays_in_buffer_refuted.

(** C48 refuted: every security block in CBOR is accepted: an indefinite-length array of targets or of results is not,
    unless it has exactly 1000 elements. *)
Theorem C48_indefinite_arrays_refuted : exists t rest, cbor_array [1; 2] t /\ (forall old, sec7_parse old ((t ++ rest) ++ repeat 0 23) 12 = Some None) /\
  (forall old, sec7_parse old (([130; 1; 2] ++ rest) ++ repeat 0 23) 11 = Some (Some (mkSec7 [1; 2] 1 0 (5, 7) old []))).
Proof.
  exists [159; 1; 2; 255], [1; 0; 130; 2; 130; 5; 7; 128]. split; [|split; intros old; vm_compute; reflexivity].
  right. exists [1; 2]. split; [reflexivity|]. change [1; 2] with ([1] ++ [2] ++ []) at 2. repeat constructor.
Qed.
Print Assumptions C48_indefinite_arrays_refuted.

(** C48 refuted: only the ids of the security contexts are accepted: of context, parameter and result ids the low 32 bits count. *)
Theorem C48_ids_are_distinct_refuted : exists d s, sec7_parse [] (d ++ repeat 0 23) (N.of_nat (length d)) = Some (Some s) /\ s_ctx s = 2 ^ 32 + 1 /\
  s_params s = [(2 ^ 32 + 3, VUint 5)] /\ scope_of 3 (s_params s) = 7.
Proof.
  exists ([129; 1] ++ [27; 0; 0; 0; 1; 0; 0; 0; 1] ++ [1] ++ [130; 2; 130; 5; 7] ++ [129; 130; 27; 0; 0; 0; 1; 0; 0; 0; 3; 5] ++ [128]). eexists. split; [vm_compute; reflexivity|]. auto.
Qed.
Print Assumptions C48_ids_are_distinct_refuted.

(** C48 refuted: reserved flags are ignored (RFC 9172): the bits 1 to 4 are, a higher one makes the parser refuse the block. *)
Theorem C48_reserved_flags_refuted : exists pre post,
  (forall old, sec7_parse old ((pre ++ [24; 32] ++ post) ++ repeat 0 23) 12 = Some None) /\
  (forall old, sec7_parse old ((pre ++ [24; 30] ++ post) ++ repeat 0 23) 12 = Some (Some (mkSec7 [1; 2] 1 30 (5, 7) old []))).
Proof. exists [130; 1; 2; 1], [130; 2; 130; 5; 7; 128]. split; intros old; vm_compute; reflexivity. Qed.
Print Assumptions C48_reserved_flags_refuted.
