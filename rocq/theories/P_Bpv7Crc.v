(** C44: the checksums of BPv7 blocks are the standard ones, on every code path, and detect bursts. *)
From Coq Require Import NArith Arith List Bool Lia.
From Verif Require Import Base M_SegmentAlloc M_Intrin M_Sdnv M_Bpv7Crc S_Cbor S_Bpv7Crc L_Bpv7Crc.
Import ListNotations.
Open Scope N_scope.

(** C44: Crc16_X25_Unaligned is the CRC-16/X-25 checksum of its input, which is unique. *)
Theorem C44_crc16_is_the_standard_checksum : forall data,
  checksum 16 X25_POLY data (crc16_x25 data) /\ forall c, checksum 16 X25_POLY data c -> c = crc16_x25 data.
Proof.
  intros data. assert (checksum 16 X25_POLY data (crc16_x25 data)) as C.
  { change (crc16_x25 data) with (crc_optimal CRC16_POLY_REFLECTED (ones (N.of_nat 16)) (ones (N.of_nat 16)) data).
    change X25_POLY with (2 ^ N.of_nat 16 + x25_low).
    apply crc_optimal_checksum; [lia | exact x25_lt | exact x25_rev]. }
  split; [exact C|]. intros c H. change X25_POLY with (2 ^ N.of_nat 16 + x25_low) in *.
  exact (checksum_unique 16 x25_low ltac:(lia) x25_lt data _ _ H C).
Qed.
Print Assumptions C44_crc16_is_the_standard_checksum.
(** The catalogue's check value: "123456789". *)
Example C44_crc16_ex : crc16_x25 [49;50;51;52;53;54;55;56;57] = 0x906E /\ crc16_x25 [] = 0 /\
  checksum 16 X25_POLY [49;50;51;52;53;54;55;56;57] 0x906E.
Proof.
  split; [vm_compute; reflexivity|]. split; [vm_compute; reflexivity|].
  apply (C44_crc16_is_the_standard_checksum [49;50;51;52;53;54;55;56;57]).
Qed.

(** C44: Crc32C_Unaligned is the CRC-32C (Castagnoli) checksum of its input, with the software and with the hardware
    routine, wherever the data lies in memory. *)
Theorem C44_crc32c_is_the_standard_checksum : forall data, Forall is_octet data ->
  checksum 32 CASTAGNOLI_POLY data (crc32c_software data) /\
  (forall c, checksum 32 CASTAGNOLI_POLY data c -> c = crc32c_software data) /\
  (forall addr, crc32c_hardware addr data = crc32c_software data).
Proof.
  intros data Hd. assert (checksum 32 CASTAGNOLI_POLY data (crc32c_software data)) as C.
  { change (crc32c_software data) with (crc_optimal CRC32C_POLY_REFLECTED (ones (N.of_nat 32)) (ones (N.of_nat 32)) data).
    change CASTAGNOLI_POLY with (2 ^ N.of_nat 32 + castagnoli_low).
    apply crc_optimal_checksum; [lia | exact castagnoli_lt | exact castagnoli_rev]. }
  split; [exact C|]. split.
  - intros c H. change CASTAGNOLI_POLY with (2 ^ N.of_nat 32 + castagnoli_low) in *.
    exact (checksum_unique 32 castagnoli_low ltac:(lia) castagnoli_lt data _ _ H C).
  - intros addr. now apply hardware_software.
Qed.
Print Assumptions C44_crc32c_is_the_standard_checksum.
Example C44_crc32c_ex : let d := [49;50;51;52;53;54;55;56;57] in
  crc32c_software d = 0xE3069283 /\ crc32c_hardware 0 d = 0xE3069283 /\ crc32c_hardware 5 (d ++ d) = crc32c_software (d ++ d).
Proof. repeat split; vm_compute; reflexivity. Qed.

(** C44: two inputs that differ, but only within two (CRC-16) or four (CRC-32C) consecutive bytes, never have the same
    checksum. *)
Theorem C44_bursts_are_detected : forall d1 d2, Forall is_octet d1 -> Forall is_octet d2 ->
  (differ_within 2 d1 d2 -> crc16_x25 d1 <> crc16_x25 d2) /\
  (differ_within 4 d1 d2 -> crc32c_software d1 <> crc32c_software d2).
Proof.
  intros d1 d2 H1 H2. split; intros D.
  - apply (crc_optimal_burst 16 x25_low CRC16_POLY_REFLECTED d1 d2 ltac:(lia) x25_lt x25_rev eq_refl H1 H2 2%nat); [lia | exact D].
  - apply (crc_optimal_burst 32 castagnoli_low CRC32C_POLY_REFLECTED d1 d2 ltac:(lia) castagnoli_lt castagnoli_rev eq_refl H1 H2 4%nat); [lia | exact D].
Qed.
Print Assumptions C44_bursts_are_detected.
Example C44_bursts_ex : differ_within 2 [1;2;3;4;5] [1;7;9;4;5] /\ crc16_x25 [1;2;3;4;5] <> crc16_x25 [1;7;9;4;5].
Proof. split; [exists [1], [2;3], [7;9], [4;5]; repeat split; cbn; try lia; discriminate | vm_compute; discriminate]. Qed.

(** C44: three different bytes can cancel out: the bound of two is tight for CRC-16. *)
Theorem C44_longer_bursts_are_detected_refuted : exists d1 d2, Forall is_octet d1 /\ Forall is_octet d2 /\
  differ_within 3 d1 d2 /\ crc16_x25 d1 = crc16_x25 d2.
Proof.
  exists [0;0;0], [0x11;0x08;0x01]. split; [repeat constructor|]. split; [repeat constructor|].
  split; [exists [], [0;0;0], [0x11;0x08;0x01], []; repeat split; cbn; try lia; discriminate | vm_compute; reflexivity].
Qed.
Print Assumptions C44_longer_bursts_are_detected_refuted.

(** C44: the CRC field is written as a CBOR byte string of the checksum in network byte order, in place, and reading it
    back yields the checksum; anything that does not start like such a string is refused. *)
Theorem C44_the_field_round_trips : forall c pre old post,
  (c < 65536 -> length old = 3%nat -> exists f, put_crc16 (length pre) c (pre ++ old ++ post) = Some (pre ++ f ++ post) /\
     crc_field 2 c f /\ get_crc16 (f ++ post) = Some (Some c)) /\
  (c < W32 -> length old = 5%nat -> exists f, put_crc32 (length pre) c (pre ++ old ++ post) = Some (pre ++ f ++ post) /\
     crc_field 4 c f /\ get_crc32 (f ++ post) = Some (Some c)).
Proof.
  intros c pre old post. split; intros Hc Hl.
  - eexists. split; [|split; [exact (field16 c Hc)|]].
    + unfold put_crc16. apply write_mid. exact Hl.
    + apply get16_field; [now apply field16 | exact Hc].
  - eexists. split; [|split; [exact (field32 c Hc)|]].
    + unfold put_crc32. apply write_mid. exact Hl.
    + apply get32_field; [now apply field32 | exact Hc].
Qed.
Print Assumptions C44_the_field_round_trips.
Example C44_the_field_round_trips_ex :
  put_crc16 1 0xABCD [1;0;0;0;2] = Some [1;0x42;0xAB;0xCD;2] /\ get_crc16 [0x42;0xAB;0xCD;2] = Some (Some 0xABCD) /\
  put_crc32 1 0x89ABCDEF [1;0;0;0;0;0;2] = Some [1;0x44;0x89;0xAB;0xCD;0xEF;2] /\ get_crc32 [0x44;0x89;0xAB;0xCD;0xEF;2] = Some (Some 0x89ABCDEF).
Proof. repeat split; vm_compute; reflexivity. Qed.

(** C44: the readers accept exactly CRC fields, and read no byte beyond them. *)
Theorem C44_only_fields_are_read : forall bs, Forall is_octet bs ->
  (forall c, get_crc16 bs = Some (Some c) <-> exists f rest, bs = f ++ rest /\ crc_field 2 c f) /\
  (forall c, get_crc32 bs = Some (Some c) <-> exists f rest, bs = f ++ rest /\ crc_field 4 c f) /\
  ((3 <= length bs)%nat -> get_crc16 bs <> None) /\ ((5 <= length bs)%nat -> get_crc32 bs <> None).
Proof.
  intros bs Hb. split; [|split; [|split]].
  - intros c. split.
    + intros E. now apply get16_inv.
    + intros (f & rest & E & F). subst bs. apply get16_field; [assumption|]. destruct F as (e & _ & Hl & Ho & V).
      pose proof (be_value_small e Ho) as S. rewrite Hl, V in S. exact S.
  - intros c. split.
    + intros E. now apply get32_inv.
    + intros (f & rest & E & F). subst bs. apply get32_field; [assumption|]. destruct F as (e & _ & Hl & Ho & V).
      pose proof (be_value_small e Ho) as S. rewrite Hl, V in S. exact S.
  - destruct bs as [|h r]; cbn [length]; intros Hl; [lia|]. cbn [get_crc16]. destruct (negb (h =? 0x42)); [discriminate|].
    unfold read_n. destruct (Nat.leb_spec 2 (length r)); [discriminate | lia].
  - destruct bs as [|h r]; cbn [length]; intros Hl; [lia|]. cbn [get_crc32]. destruct (negb (h =? 0x44)); [discriminate|].
    unfold read_n. destruct (Nat.leb_spec 4 (length r)); [discriminate | lia].
Qed.
Print Assumptions C44_only_fields_are_read.
Example C44_only_fields_are_read_ex : get_crc16 [0x43;1;2] = Some None /\ get_crc16 [0x42;1;2] = Some (Some 258) /\ get_crc32 [0x44;0;0;1;2] = Some (Some 258).
Proof. repeat split; vm_compute; reflexivity. Qed.
