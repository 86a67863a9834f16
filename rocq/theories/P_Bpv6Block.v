(** C37: the BPv6 primary block codec; C38: the BPv6 canonical, extension and administrative record block codecs. *)
From Coq Require Import NArith ZArith List Bool Lia ZifyBool ZifyN.
From Verif Require Import Base M_FragmentSet M_Sdnv M_Acs M_Uri M_Bpv6Block M_BundleV6 S_FragmentSet S_Acs S_Sdnv S_Uri S_Bpv6 S_BundleV6 L_Sdnv P_Sdnv L_SdnvRead L_Acs
  L_Uri L_Bpv6Read L_Bpv6Load L_Bpv6Write L_Bpv6Trip L_BundleV6.
Import ListNotations.
Open Scope N_scope.

(** * C37 *)
(** Parsing succeeds exactly on byte strings that start with a primary block of the wire format, and then returns its
    fields and consumes exactly it. *)
Theorem C37_parse_is_exact : forall bs p rest, Forall is_byte bs ->
  (prim_read bs = Some (Some (p, rest)) <-> exists pb, bs = pb ++ rest /\ wire_primary p pb).
Proof.
  intros bs p rest Hb. split.
  - intros E. destruct (prim_sound bs Hb) as [(E' & _)|[E'|(p' & pb & rest' & EB & W & E')]]; rewrite E in E'; try discriminate. injection E' as <- <-. eauto.
  - intros (pb & -> & W). now apply prim_complete.
Qed.
Print Assumptions C37_parse_is_exact.
Example C37_parse_is_exact_ex : prim_read ([6; 129; 1; 18; 1; 2; 3; 4; 5; 6; 7; 8; 9; 10; 11; 0; 130; 1; 42] ++ [99]) =
  Some (Some (mkPrim 129 18 (1, 2) (3, 4) (5, 6) (7, 8) 9 10 11 257 42, [99])) /\
  prim_read [6; 0; 18; 1; 2; 3; 4; 5; 6; 7; 8; 9; 10; 11; 1] = Some None /\ prim_read [6; 0; 18; 1; 2] = Some None.
Proof. repeat split; vm_compute; reflexivity. Qed.

(** It is undefined exactly if 32 bytes in a row with the top bit set are reached where a number is expected (C12). *)
Theorem C37_parse_undefined_iff : forall bs, Forall is_byte bs -> (prim_read bs = None <-> primary_runs_away bs).
Proof.
  intros bs Hb. split; [|now apply prim_away]. intros E. destruct (prim_sound bs Hb) as [(_ & A)|[E'|(p' & pb & rest' & EB & W & E')]]; [exact A|rewrite E in E'; discriminate..].
Qed.
Print Assumptions C37_parse_undefined_iff.
Example C37_parse_undefined_iff_ex : prim_read (6 :: 0 :: 10 :: repeat 200 32) = None /\ prim_read (6 :: 0 :: 10 :: repeat 200 31) = Some None.
Proof. split; vm_compute; reflexivity. Qed.

(** Serializing: if the block's length fits the one-byte length field, exactly the announced number of bytes is written
    behind what was there before, they are the wire format with the length filled in, and no byte outside the given
    memory is touched if nine more bytes of it exist; otherwise both the size query and the serializer report failure. *)
Theorem C37_write_is_exact_and_bounded : forall p, prim_ok p ->
  (exists n bs, let p' := with_len p n in written_primary p' bs /\ wire_primary p' bs /\ prim_size p = Some (Some (N.of_nat (length bs))) /\
     forall pre mem, (length bs + 9 <= length mem)%nat ->
       exists mem', prim_write p (pre ++ mem, length pre) = Some (Some (p', (pre ++ bs ++ mem', length (pre ++ bs)))) /\ length (bs ++ mem') = length mem) \/
  ((forall n bs, ~ written_primary (with_len p n) bs) /\ prim_size p = Some None /\
     forall pre mem, (161 <= length mem)%nat -> prim_write p (pre ++ mem, length pre) = Some None).
Proof.
  intros p OK. assert (W0 : forall pre mem : list N, wok (length (pre ++ mem)) (pre ++ mem, length pre) pre) by (intros; split; [reflexivity|split; [reflexivity|apply firstn_len_app]]).
  destruct (primary_ok (mkView p [] true [] []) OK) as [(_ & p' & pa & (SP & WP) & PN & PW)|(NF & _ & PN & PW)]; unfold prim_need, render_prim in *; cbn [v_pdirty v_prim] in *.
  - left. exists (p_len p'), pa. cbv zeta. assert (EP : with_len p (p_len p') = p') by (unfold same_primary in SP; symmetry; exact SP). rewrite EP. split; [exact WP|].
    split; [apply written_wire_primary; [now apply (same_primary_ok p)|exact WP]|]. split; [exact PN|]. intros pre mem L.
    destruct (PW _ _ _ (W0 pre mem)) as (w' & E & W'); [rewrite app_length; lia|]. destruct (prim_write p (pre ++ mem, length pre)) as [[[q w1]|]|]; try discriminate. cbn [bind2] in E.
    injection E as -> _ ->. destruct w' as [m pos]. destruct W' as (A & B & C). cbn [fst snd] in *. exists (skipn pos m). assert (EM : m = pre ++ pa ++ skipn pos m) by (rewrite app_assoc, <- C; symmetry; apply firstn_skipn). rewrite <- EM, <- B. split; [reflexivity|].
    apply (f_equal (@length N)) in EM. rewrite A, !app_length in EM. rewrite app_length. lia.
  - right. split; [|split; [exact PN|]].
    + intros n bs W. apply NF. intros _. exists n, bs. exact W.
    + intros pre mem L. pose proof (PW _ _ _ (W0 pre mem)) as Q. rewrite app_length in Q. specialize (Q ltac:(lia)). destruct (prim_write p (pre ++ mem, length pre)) as [[[q w1]|]|]; try discriminate. reflexivity.
Qed.
Print Assumptions C37_write_is_exact_and_bounded.
Example C37_write_is_exact_and_bounded_ex :
  let p := mkPrim 129 0 (1, 2) (3, 4) (5, 6) (7, 8) 9 10 11 257 42 in
  prim_size p = Some (Some 19) /\
  prim_write p (77 :: repeat 0 28, 1%nat) =
    Some (Some (with_len p 15, (77 :: [6; 129; 1; 15; 1; 2; 3; 4; 5; 6; 7; 8; 9; 10; 11; 0; 130; 1; 42] ++ repeat 0 9, 20%nat))).
Proof. split; vm_compute; reflexivity. Qed.

(** Round trip. *)
Theorem C37_roundtrip : forall p pre mem p' mem' pos rest, prim_ok p -> (161 <= length mem)%nat -> Forall is_byte rest ->
  prim_write p (pre ++ mem, length pre) = Some (Some (p', (mem', pos))) ->
  p' = with_len p (p_len p') /\ prim_size p = Some (Some (N.of_nat (pos - length pre))) /\
  prim_read (skipn (length pre) (firstn pos mem') ++ rest) = Some (Some (p', rest)).
Proof.
  intros p pre mem p' mem' pos rest OK L Hr E. destruct (C37_write_is_exact_and_bounded p OK) as [(n & bs & WP & WW & SZ & H)|(_ & _ & H)]; [|rewrite (H pre mem L) in E; discriminate].
  cbv zeta in *. assert (LB : (length bs + 9 <= length mem)%nat).
  { destruct WP as (f & l & sd & fr & -> & SF & -> & PL & L127 & S1 & S2). destruct OK as (OK & _). assert (OF : p_flags p < W64) by exact (Forall_inv OK). pose proof (shortest_bound _ _ OF SF). cbn [with_len p_len] in *.
    cbn [length]. rewrite app_length. cbn [length]. rewrite app_length. lia. }
  destruct (H pre mem LB) as (m & E' & _). rewrite E in E'. injection E' as -> -> ->. split; [reflexivity|]. rewrite app_length. split; [rewrite SZ; do 3 f_equal; lia|].
  rewrite app_assoc, <- app_length, firstn_len_app, skipn_len_app. apply prim_complete; [exact WW|]. apply Forall_app. split; [exact (wire_primary_bytes _ _ WW)|exact Hr].
Qed.
Print Assumptions C37_roundtrip.
Example C37_roundtrip_ex : let p := mkPrim 144 0 (1, 2) (3, 4) (0, 0) (W64 - 1, 8) 700000000 0 86400 0 0 in
  prim_ok p /\ exists m, prim_write p (repeat 0 161, O) = Some (Some (with_len p 27, (m, 31%nat))) /\
  prim_read (firstn 31 m ++ [1; 2]) = Some (Some (with_len p 27, [1; 2])).
Proof. split; [split; [repeat (apply Forall_cons; [vm_compute; reflexivity|]); apply Forall_nil|auto]|eexists; split; [vm_compute; reflexivity|vm_compute; reflexivity]]. Qed.

(** Not every primary block can be serialized: the length field is one byte, so a block of more than 127 bytes, as 64-bit
    endpoint numbers and times make it, is refused. *)
Theorem C37_every_primary_block_can_be_written_refuted :
  exists p, prim_ok p /\ prim_size p = Some None /\ prim_write p (repeat 0 200, O) = Some None.
Proof.
  exists (mkPrim 1 0 (W64 - 1, W64 - 1) (W64 - 1, W64 - 1) (W64 - 1, W64 - 1) (W64 - 1, W64 - 1) (W64 - 1) (W64 - 1) (W64 - 1) (W64 - 1) (W64 - 1)).
  split; [split; [repeat (apply Forall_cons; [vm_compute; reflexivity|]); apply Forall_nil|discriminate]|split; vm_compute; reflexivity].
Qed.
Print Assumptions C37_every_primary_block_can_be_written_refuted.
(** The block length of a received primary block is not compared with the length of the block. *)
Theorem C37_parsed_length_is_right_refuted :
  exists p f l sd rest, prim_read (6 :: f ++ l ++ sd ++ rest) = Some (Some (p, rest)) /\ sdnv_for (p_flags p) f /\ sdnv_for (p_len p) l /\ p_len p <> N.of_nat (length sd).
Proof.
  exists (mkPrim 0 100 (1, 2) (3, 4) (5, 6) (7, 8) 9 10 11 0 0), [0], [100], [1; 2; 3; 4; 5; 6; 7; 8; 9; 10; 11; 0], []. split; [vm_compute; reflexivity|].
  split; [apply one_byte_sdnv; reflexivity|]. split; [apply one_byte_sdnv; reflexivity|]. vm_compute. discriminate.
Qed.
Print Assumptions C37_parsed_length_is_right_refuted.

(** * C38 *)
(** Parsing a block header: never undefined, succeeds exactly on byte strings that start with a block of the wire format,
    and then returns its parts. *)
Theorem C38_header_is_exact : forall bs type flags data rest, Forall is_byte bs ->
  header_read bs <> None /\
  (header_read bs = Some (Some ((type, flags, data), rest)) <-> exists bb, bs = bb ++ rest /\ wire_block type flags data bb).
Proof.
  intros bs type flags data rest Hb. split; [destruct (proj2 header_reads bs Hb) as (r & -> & _); discriminate|].
  split.
  - intros E. destruct (proj2 header_reads bs Hb) as (r & E' & K). rewrite E in E'. injection E' as <-. exact (K _ _ eq_refl).
  - intros (bb & -> & W). exact (proj1 header_reads (type, flags, data) bb rest W Hb).
Qed.
Print Assumptions C38_header_is_exact.
Example C38_header_is_exact_ex : header_read [7; 128; 9; 3; 4; 5; 6; 7] = Some (Some ((7, 9, [4; 5; 6]), [7])) /\ header_read [7; 9; 3; 4; 5] = Some None /\
  header_read ([1; 0] ++ repeat 255 9 ++ [127; 1]) = Some None.
Proof. repeat split; vm_compute; reflexivity. Qed.

(** Parsing the data of a block: never undefined, succeeds exactly on the wire format of the block's type, and then
    returns what it says. *)
Theorem C38_data_is_exact : forall last isAdmin type data c, Forall is_byte data ->
  content_read last isAdmin type data <> None /\
  (content_read last isAdmin type data = Some (Some c) <-> data_form last isAdmin type data c).
Proof.
  intros last isAdmin type data c Hb. split; [|now apply content_read_exact]. destruct (content_read_total last isAdmin type data Hb) as (r & ->). discriminate.
Qed.
Print Assumptions C38_data_is_exact.
Example C38_data_is_exact_ex :
  content_read false true 1 ([17; 130; 4; 5; 100] ++ [10] ++ [20; 30] ++ [5; 105; 112; 110; 58; 49]) = Some None /\
  content_read false true 1 ([17; 130; 4; 5; 100; 10; 7; 20; 30] ++ [5; 105; 112; 110; 58; 49]) =
    Some (Some (Admin 1 true (Some (AStatus (mkStatus 130 4 true 5 100 [(0, 0); (10, 7); (0, 0); (0, 0); (0, 0)] (20, 30) [105; 112; 110; 58; 49]))))) /\
  content_read false true 1 [64; 128; 5; 1; 2; 2] = Some (Some (Admin 4 false (Some (AAggregate 128 [(5, 5); (7, 8)])))) /\
  content_read false false 5 ([105; 112; 110; 0] ++ [49; 46; 50; 0]) = Some (Some (PrevHop 1 2)) /\
  content_read false false 8 ([1] ++ [105; 112; 110; 58; 49; 46; 50; 0] ++ [105; 112; 110; 58; 51; 46; 52; 0]) = Some (Some (Meta 1 (Some (MUris [(1, 2); (3, 4)])))) /\
  content_read false false 10 [129; 0; 105; 112; 110] = Some (Some (Cteb 128 [105; 112; 110])) /\ content_read false false 20 [5; 6] = Some None.
Proof. repeat split; vm_compute; reflexivity. Qed.

(** Serializing a block: exactly the announced number of bytes is written behind what was there before; they are the wire
    format with the type and flags the block's class insists on, the right length and the wire format of the members. *)
Theorem C38_write_is_exact_and_bounded : forall b data, block_ok b -> block_data b data -> N.of_nat (length data) < W64 ->
  exists bs, written_block (block_type b) (block_flags b) data bs /\ wire_block (block_type b) (block_flags b) data bs /\ Forall is_byte bs /\
    block_size b = Some (N.of_nat (length bs)) /\
    forall pre mem, (length bs + 9 <= length mem)%nat ->
      exists mem', block_write b (pre ++ mem, length pre) =
        Some (Some (mkBlock (block_type b) (block_flags b) (N.of_nat (length data)) (Some data) (k_content b), (pre ++ bs ++ mem', length (pre ++ bs)))) /\
        length (bs ++ mem') = length mem.
Proof.
  intros b data OK BD LD. destruct (block_write_ok b data OK BD LD) as (bs & WB & SZ & H). exists bs. split; [exact WB|].
  split; [exact (written_wire_block _ _ _ _ (block_type_byte b OK) (block_flags_64 b OK) LD WB)|]. split.
  { destruct WB as (f & l & -> & SF & SL). constructor; [now apply block_type_byte|]. pose proof (shortest_bytes _ _ SF). pose proof (shortest_bytes _ _ SL). pose proof (block_data_bytes b data OK BD).
    repeat (apply Forall_app; split); assumption. }
  split; [exact SZ|]. intros pre mem L.
  assert (W0 : wok (length (pre ++ mem)) (pre ++ mem, length pre) pre) by (split; [reflexivity|split; [reflexivity|apply firstn_len_app]]).
  destruct (H _ _ _ W0) as (w' & -> & W'); [rewrite app_length; lia|]. destruct w' as [m pos]. destruct W' as (A & B & C). cbn [fst snd] in *.
  exists (skipn pos m). assert (EM : m = pre ++ bs ++ skipn pos m) by (rewrite app_assoc, <- C; symmetry; apply firstn_skipn). rewrite <- EM, <- B. split; [reflexivity|].
  apply (f_equal (@length N)) in EM. rewrite A, !app_length in EM. rewrite app_length. lia.
Qed.
Print Assumptions C38_write_is_exact_and_bounded.
Example C38_write_is_exact_and_bounded_ex :
  let b := mkBlock 10 1 0 None (Cteb 300 [105; 112; 110; 58; 49; 46; 48]) in
  block_size b = Some 12 /\
  block_write b (77 :: repeat 0 21, 1%nat) =
    Some (Some (mkBlock 10 1 9 (Some [130; 44; 105; 112; 110; 58; 49; 46; 48]) (k_content b), (77 :: [10; 1; 9; 130; 44; 105; 112; 110; 58; 49; 46; 48] ++ repeat 0 9, 13%nat))).
Proof. split; vm_compute; reflexivity. Qed.

(** Round trip: the bytes written parse back to the type, flags, data and members of the block. *)
Theorem C38_roundtrip : forall last isAdmin b pre mem b' mem' pos rest,
  block_ok b -> content_std isAdmin (k_type b) (k_content b) -> Forall is_byte rest ->
  (forall data, block_data b data -> N.of_nat (length data) < W64) ->
  (exists n, block_size b = Some n /\ (N.to_nat n + 9 <= length mem)%nat) ->
  block_write b (pre ++ mem, length pre) = Some (Some (b', (mem', pos))) ->
  k_type b' = block_type b /\ k_flags b' = block_flags b /\ k_content b' = k_content b /\
  exists data, k_data b' = Some data /\ block_data b data /\
    header_read (skipn (length pre) (firstn pos mem') ++ rest) = Some (Some ((block_type b, block_flags b, data), rest)) /\
    content_read last isAdmin (block_type b) data = Some (Some (k_content b)).
Proof.
  intros last isAdmin b pre mem b' mem' pos rest OK ST Hr LD (n & SZ & LN) E. destruct (block_data_exists b OK) as (data & BD).
  destruct (C38_write_is_exact_and_bounded b data OK BD (LD data BD)) as (bs & WB & WW & BY & SZ' & H). rewrite SZ in SZ'. injection SZ' as ->. rewrite Nat2N.id in LN.
  destruct (H pre mem LN) as (m & E' & _). rewrite E in E'. injection E' as -> -> ->. cbn [k_type k_flags k_content k_data]. split; [reflexivity|]. split; [reflexivity|]. split; [reflexivity|].
  exists data. split; [reflexivity|]. split; [exact BD|]. rewrite app_assoc, firstn_len_app, skipn_len_app. split.
  - apply (proj2 (C38_header_is_exact (bs ++ rest) (block_type b) (block_flags b) data rest ltac:(apply Forall_app; split; assumption))). eauto.
  - apply (proj2 (C38_data_is_exact last isAdmin (block_type b) data (k_content b) (block_data_bytes b data OK BD))). now apply data_back.
Qed.
Print Assumptions C38_roundtrip.
Example C38_roundtrip_ex :
  let s := mkSignal 128 true 7 900 (3, 500000000) (700, 1) [105; 112; 110; 58; 49; 46; 48] in
  let b := mkBlock 1 8 0 None (Admin 2 true (Some (ASignal s))) in
  block_ok b /\ content_std true 1 (k_content b) /\
  exists b' m, block_write b (repeat 0 64, O) = Some (Some (b', (m, 25%nat))) /\ k_content b' = k_content b /\
    header_read (firstn 25 m ++ [5]) = Some (Some ((1, 8, firstn 22 (skipn 3 m)), [5])) /\
    content_read false true 1 (firstn 22 (skipn 3 m)) = Some (Some (k_content b)).
Proof.
  split; [repeat split; try (vm_compute; reflexivity); [repeat constructor|intros; discriminate]|]. split; [repeat split; cbn; try discriminate; lia|].
  eexists _, _. split; [vm_compute; reflexivity|]. split; [reflexivity|]. split; vm_compute; reflexivity.
Qed.

(** Not everything the serializers write is accepted: a previous hop block with two 20-digit numbers is refused (46 bytes
    of data, the parser allows 45). *)
Theorem C38_previous_hop_roundtrips_refuted :
  exists node svc m data, let b := mkBlock 5 0 0 None (PrevHop node svc) in
    block_ok b /\ block_write b (repeat 0 64, O) = Some (Some (mkBlock 5 16 46 (Some data) (PrevHop node svc), (m, 49%nat))) /\
    header_read (firstn 49 m) = Some (Some ((5, 16, data), [])) /\ content_read false false 5 data = Some None.
Proof.
  exists (W64 - 1), (W64 - 1). eexists _, _. cbv zeta. split; [unfold block_ok; cbn [k_type k_flags k_len k_content content_ok]; split; [vm_compute; reflexivity|]; split; [vm_compute; reflexivity|]; split; [vm_compute; reflexivity|]; split; [split; vm_compute; reflexivity|discriminate]|].
  split; [vm_compute; reflexivity|]. split; vm_compute; reflexivity.
Qed.
Print Assumptions C38_previous_hop_roundtrips_refuted.
(** A metadata block with an empty list of URIs is written but refused. *)
Theorem C38_empty_uri_list_roundtrips_refuted :
  exists m data, let b := mkBlock 8 0 0 None (Meta 1 (Some (MUris []))) in
    block_ok b /\ block_write b (repeat 0 64, O) = Some (Some (mkBlock 8 0 1 (Some data) (k_content b), (m, 4%nat))) /\
    header_read (firstn 4 m) = Some (Some ((8, 0, data), [])) /\ content_read false false 8 data = Some None.
Proof.
  eexists _, _. cbv zeta. split; [unfold block_ok; cbn [k_type k_flags k_len k_content content_ok]; split; [vm_compute; reflexivity|]; split; [vm_compute; reflexivity|]; split; [vm_compute; reflexivity|]; split; [split; [vm_compute; reflexivity|constructor]|discriminate]|].
  split; [vm_compute; reflexivity|]. split; vm_compute; reflexivity.
Qed.
Print Assumptions C38_empty_uri_list_roundtrips_refuted.
(** Blocks with endpoint references (RFC 5050 4.5.2: flag bit 6, then a count and that many pairs of numbers before the
    length) are misread: the count is taken for the length of the data. *)
Theorem C38_endpoint_references_are_read_refuted :
  exists type flags refs data bs rest, N.testbit flags 6 = true /\
    bs = [type; flags; N.of_nat (length refs)] ++ concat (map (fun r => [fst r; snd r]) refs) ++ [N.of_nat (length data)] ++ data /\
    Forall (fun r => fst r < 128 /\ snd r < 128) refs /\ (length data < 128)%nat /\
    header_read bs = Some (Some ((type, flags, [3; 4]), rest)) /\ data = [9; 9; 9] /\ rest <> [].
Proof.
  exists 7, 64, [(3, 4); (5, 6)], [9; 9; 9]. eexists _, _. split; [reflexivity|]. split; [reflexivity|]. split; [repeat constructor|]. split; [cbn; lia|].
  split; [vm_compute; reflexivity|]. split; [reflexivity|discriminate].
Qed.
Print Assumptions C38_endpoint_references_are_read_refuted.
