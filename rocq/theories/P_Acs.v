(** C29: aggregate custody signals carry exactly the acknowledged custody ids. *)
From Coq Require Import NArith ZArith List Bool Lia ZifyBool ZifyN.
From Verif Require Import Base M_FragmentSet S_FragmentSet L_FragmentSet L_Intrin M_Sdnv S_Sdnv M_Acs S_Acs L_Acs.
Import ListNotations.
Open Scope N_scope.

(** The fills built by any sequence of added ids and runs, serialised into a buffer of at least the announced size:
    exactly the announced number of bytes is written, they are the shortest encoding, and the byte after the record
    onwards may only be disturbed inside the buffer. *)
Theorem C29_serialize_writes_announced_size : forall last status ks buf, Forall valid ks ->
  let fills := insert_all last [] ks in
  exists n enc, acs_size fills = Some n /\ n = N.of_nat (length enc) + 1 /\ acs_encoding 0 fills enc /\
    (n <= N.of_nat (length buf) ->
      exists junk, acs_serialize status fills buf = Some (n, status :: enc ++ junk) /\ length (status :: enc ++ junk) = length buf).
Proof.
  intros last status ks buf Hk fills. destruct (insert_all_spec last ks [] canonical_nil Hk) as [Hc _]. fold fills in Hc.
  destruct (serialize_ok fills 0 Hc) as (enc & E & Sz & B). { destruct fills; cbn; [exact I|lia]. }
  exists (1 + N.of_nat (length enc)), enc. unfold acs_size. rewrite Sz. split; [reflexivity|]. split; [lia|]. split; [exact E|].
  intros HL. destruct buf as [|b0 buf]; [cbn in HL; lia|]. cbn [length] in HL. destruct (B buf ltac:(lia)) as (junk & Es & L).
  exists junk. unfold acs_serialize. rewrite Es. cbn [fst snd]. split; [reflexivity|]. cbn [length]. now rewrite L.
Qed.
Print Assumptions C29_serialize_writes_announced_size.
Example C29_serialize_writes_announced_size_ex :
  let fills := insert_all false [] [(7,7);(8,8);(300,300);(5,5);(1000,1500)] in
  fills = [(5,5);(7,8);(300,300);(1000,1500)] /\ acs_size fills = Some 12 /\
  acs_serialize 128 fills (repeat 0 14) = Some (12, [128; 5;1; 2;2; 130;36;1; 133;60;131;117; 0;0]).
Proof. repeat split; vm_compute; reflexivity. Qed.

(** Serialising and decoding: decoding the bytes written gives the same status byte and the same fills, which cover
    exactly the ids added, and takes exactly the bytes written. *)
Theorem C29_roundtrip : forall last last' status ks buf n out, Forall valid ks -> ks <> [] ->
  let fills := insert_all last [] ks in
  acs_size fills = Some n -> n <= N.of_nat (length buf) -> acs_serialize status fills buf = Some (n, out) ->
  acs_deserialize last' (firstn (N.to_nat n) out) = Some (Some (status, fills, n)) /\
  forall i, covers fills i <-> added ks i.
Proof.
  intros last last' status ks buf n out Hk Hne fills Hs Hn He. destruct (insert_all_spec last ks [] canonical_nil Hk) as [Hc Hcov]. fold fills in Hc, Hcov.
  assert (COV : forall i, covers fills i <-> added ks i).
  { intros i. rewrite Hcov. unfold added. split; [intros [C|C]; [destruct C as (f & [] & _)|exact C]|tauto]. }
  split; [|exact COV].
  destruct (C29_serialize_writes_announced_size last status ks buf Hk) as (n' & enc & Sz & Ln & E & B). fold fills in Sz, E, B.
  rewrite Hs in Sz. injection Sz as <-. destruct (B Hn) as (junk & Es & _). rewrite He in Es. injection Es as ->.
  replace (N.to_nat n) with (S (length enc)) by lia. cbn [firstn]. rewrite firstn_len_app. unfold acs_deserialize.
  assert (NE : fills <> []).
  { intros Z. destruct ks as [|k ks']; [congruence|]. pose proof (Forall_inv Hk) as (V1 & _).
    assert (C : covers fills (fst k)) by (apply COV; exists k; split; [now left|split; lia]). rewrite Z in C. destruct C as (f & [] & _). }
  assert (F0 : follows 0 fills) by (destruct fills; cbn; [exact I|lia]).
  destruct (encoding_fields 0 fills enc E Hc F0 NE) as (fl & F1 & F2 & F3).
  unfold acs_deserialize_fills. rewrite (loop_complete last' enc fl F1) by (try lia; eapply encoding_bytes; exact E).
  rewrite wrapped_in_range, F3 by exact F2. cbn [fst snd].
  assert (I : insert_all last' [] fills = fills).
  { destruct (insert_all_spec last' fills [] canonical_nil (proj1 Hc)) as [Hc' Hv']. apply canonical_unique; [exact Hc'|exact Hc|].
    intros i. rewrite Hv'. split; [intros [C|C]; [destruct C as (f & [] & _)|exact C]|intros C; right; exact C]. }
  rewrite I. do 4 f_equal. lia.
Qed.
Print Assumptions C29_roundtrip.
Example C29_roundtrip_ex : acs_deserialize true [128; 5;1; 2;2; 130;36;1; 133;60;131;117] =
  Some (Some (128, [(5,5);(7,8);(300,300);(1000,1500)], 12)).
Proof. vm_compute. reflexivity. Qed.

(** Decoding any byte string: it terminates without undefined behaviour, and it succeeds exactly when the bytes are one
    or more pairs of 64-bit SDNVs with nothing left over; then the whole buffer was consumed. *)
Theorem C29_decode_consumes_all_or_fails : forall last bs, Forall is_byte bs ->
  exists r, acs_deserialize_fills last bs = Some r /\
    match r with
    | Some (_, n) => n = N.of_nat (length bs) /\ exists fs, acs_fields bs fs
    | None => forall fs, ~ acs_fields bs fs
    end.
Proof.
  intros last bs Hb. destruct (loop_sound last (S (length bs)) bs [] 0 0 Hb ltac:(lia)) as (r & E & Hr).
  exists r. split; [exact E|]. destruct r as [[s n]|].
  - destruct Hr as (fs & F); [discriminate|]. rewrite (loop_complete last bs fs F) in E by (try assumption; lia). injection E as <- <-.
    split; [lia|]. now exists fs.
  - intros fs F. rewrite (loop_complete last bs fs F) in E by (try assumption; lia). discriminate.
Qed.
Print Assumptions C29_decode_consumes_all_or_fails.
Example C29_decode_consumes_all_or_fails_ex :
  acs_deserialize_fills false [5;1;2] = Some None /\ acs_deserialize_fills false [5;1;2;130] = Some None /\
  acs_deserialize_fills false [5;1;2;2] = Some (Some ([(5,5);(7,8)], 4)) /\ acs_deserialize_fills false [] = Some None.
Proof. repeat split; vm_compute; reflexivity. Qed.

(** When the lengths are positive and no id reaches 2^64-1, the decoded fills cover exactly the ids the pairs denote, in
    normal form, whether or not the encoder sent them merged. *)
Theorem C29_decode_covers_denoted_ids : forall last bs fs s n, Forall is_byte bs -> acs_fields bs fs -> acs_in_range 0 fs ->
  acs_deserialize_fills last bs = Some (Some (s, n)) ->
  canonical s /\ forall i, covers s i <-> added (acs_ranges 0 fs) i.
Proof.
  intros last bs fs s n Hb F R E. unfold acs_deserialize_fills in E. rewrite (loop_complete last bs fs F) in E by (try assumption; lia).
  injection E as <- _. rewrite wrapped_in_range by exact R.
  destruct (insert_all_spec last (acs_ranges 0 fs) [] canonical_nil (ranges_valid fs 0 R)) as [A B]. split; [exact A|].
  intros i. rewrite B. unfold added. split; [intros [(f & [] & _)|C]; exact C|tauto].
Qed.
Print Assumptions C29_decode_covers_denoted_ids.
Example C29_decode_covers_denoted_ids_ex :
  acs_fields [5;1;1;3] [(5,1);(1,3)] /\ acs_in_range 0 [(5,1);(1,3)] /\ acs_ranges 0 [(5,1);(1,3)] = [(5,5);(6,8)] /\
  acs_deserialize_fills false [5;1;1;3] = Some (Some ([(5,8)], 4)).
Proof.
  assert (D : forall x, x < 128 -> sdnv64 [x] /\ sdnv_value [x] = x).
  { intros x Hx. assert (V : sdnv_value [x] = x) by (unfold sdnv_value; cbn; apply N.mod_small; exact Hx). split; [|exact V]. split; [|split].
    - exists [], x. repeat split; [constructor|exact Hx].
    - cbn. lia.
    - rewrite V. unfold W64. lia. }
  split; [|split; [|split]].
  - change [5;1;1;3] with ([5] ++ [1] ++ ([1] ++ [3])).
    apply (FieldsMore [5] [1] ([1] ++ [3]) [(1,3)]); [apply D; lia|apply D; lia|].
    apply (FieldsLast [1] [3]); apply D; lia.
  - cbn. repeat split; vm_compute; congruence.
  - reflexivity.
  - vm_compute. reflexivity.
Qed.

(** The status byte gives back the success flag and the reason code. *)
Theorem C29_status_roundtrip : forall succeeded reason, reason < 128 ->
  acs_succeeded (acs_status succeeded reason) = succeeded /\ acs_reason (acs_status succeeded reason) = reason.
Proof.
  intros succeeded reason H. destruct succeeded; revert reason H; 
    refine (fun r Hr => _); assert (Q := forall_below 128 (fun r => Bool.eqb (acs_succeeded (acs_status true r)) true && (acs_reason (acs_status true r) =? r) &&
      Bool.eqb (acs_succeeded (acs_status false r)) false && (acs_reason (acs_status false r) =? r)) ltac:(vm_compute; reflexivity) r Hr);
    apply andb_prop in Q; destruct Q as [Q1 Q2]; apply andb_prop in Q1; destruct Q1 as [Q1 Q3]; apply andb_prop in Q1; destruct Q1 as [Q1 Q4];
    apply eqb_prop in Q1, Q3; apply N.eqb_eq in Q2, Q4; split; assumption.
Qed.
Print Assumptions C29_status_roundtrip.
Example C29_status_roundtrip_ex : acs_status true 3 = 131 /\ acs_status false 4 = 4.
Proof. split; vm_compute; reflexivity. Qed.

(** Adding ids reports how many fills are needed. *)
Theorem C29_add_returns_number_of_fills : forall last ks k, Forall valid ks -> valid k ->
  let fills := insert_all last [] ks in let r := acs_add_range last fills (fst k) (snd k) in
  snd r = N.of_nat (length (fst r)) /\ canonical (fst r) /\ (forall i, covers (fst r) i <-> added (ks ++ [k]) i) /\
  acs_add last fills (fst k) = acs_add_range last fills (fst k) (fst k).
Proof.
  intros last ks k Hk Hv fills r. destruct (insert_all_spec last ks [] canonical_nil Hk) as [Hc Hcov]. fold fills in Hc, Hcov.
  assert (E : fst r = fst (insert_fragment last fills k)) by (destruct k; reflexivity).
  destruct (insert_spec last fills k Hc Hv) as (A & B & _). split; [reflexivity|]. rewrite E. split; [exact A|]. split; [|reflexivity].
  intros i. rewrite B, Hcov. unfold added. split.
  - intros [[(f & [] & _)|(k' & K1 & K2)]|K]; [exists k'|exists k]; split; try assumption; apply in_or_app; [now left|right; now left].
  - intros (k' & K1 & K2). apply in_app_or in K1. destruct K1 as [K1|[<-|[]]]; [left; right; now exists k'|now right].
Qed.
Print Assumptions C29_add_returns_number_of_fills.
Example C29_add_returns_number_of_fills_ex : acs_add false [(5,5);(7,8)] 6 = ([(5,8)], 1) /\ acs_add false [(5,5);(7,8)] 10 = ([(5,5);(7,8);(10,10)], 3).
Proof. split; vm_compute; reflexivity. Qed.

(** "Every signal that decodes denotes a set of ids" is false: a fill of length 0, or one that runs past 2^64-1, is
    accepted and leaves a range whose end is below its beginning. *)
Theorem C29_malformed_fill_rejected_refuted : exists bs1 bs2 s1 s2, Forall is_byte bs1 /\ Forall is_byte bs2 /\
  acs_deserialize_fills false bs1 = Some (Some (s1, N.of_nat (length bs1))) /\ ~ canonical s1 /\ acs_fields bs1 [(5, 0)] /\
  acs_deserialize_fills false bs2 = Some (Some (s2, N.of_nat (length bs2))) /\ ~ canonical s2 /\ acs_fields bs2 [(5, U64MAX)].
Proof.
  exists [5;0], [5;129;255;255;255;255;255;255;255;255;127], [(5,4)], [(5,3)].
  assert (B : forall l, forallb (fun b => b <? 256) l = true -> Forall is_byte l).
  { intros l H. apply Forall_forall. intros x Hx. rewrite forallb_forall in H. apply N.ltb_lt. now apply H. }
  assert (NC : forall a b, b < a -> ~ canonical [(a, b)]).
  { intros a b H [V _]. pose proof (Forall_inv V) as (V1 & _). cbn in V1. lia. }
  assert (D : sdnv64 [5]). { split; [exists [], 5; repeat split; constructor|]. split; [cbn; lia|reflexivity]. }
  split; [apply B; reflexivity|]. split; [apply B; reflexivity|]. split; [vm_compute; reflexivity|]. split; [apply NC; lia|].
  split; [|split; [vm_compute; reflexivity|split; [apply NC; lia|]]].
  - apply (FieldsLast [5] [0]); [exact D|]. split; [exists [], 0; repeat split; constructor|]. split; [cbn; lia|reflexivity].
  - apply (FieldsLast [5] [129;255;255;255;255;255;255;255;255;127]); [exact D|]. split; [|split; [cbn; lia|reflexivity]].
    exists [129;255;255;255;255;255;255;255;255], 127. split; [reflexivity|]. split; [|lia]. repeat constructor; cbn; try lia; discriminate.
Qed.
Print Assumptions C29_malformed_fill_rejected_refuted.

(** "A buffer that is too small is reported or at worst truncates the list" is false: a field that does not fit is left
    out and the following ones are still written, so the bytes returned acknowledge ids never added. *)
Theorem C29_short_buffer_safe_refuted : exists ks buf n out s m i, Forall valid ks /\
  acs_serialize_fills (insert_all false [] ks) 0 buf = Some (n, out) /\ n = N.of_nat (length buf) /\
  acs_deserialize_fills false (firstn (N.to_nat n) out) = Some (Some (s, m)) /\ covers s i /\ ~ added ks i.
Proof.
  exists [(5,5);(20000,20000);(20002,20002)], [0;0;0;0], 4, [5;1;1;2], [(5,7)], 4, 6.
  split. { repeat constructor; cbn; lia. }
  split; [vm_compute; reflexivity|]. split; [reflexivity|]. split; [vm_compute; reflexivity|].
  split. { exists (5,7). split; [now left|]. split; cbn; lia. }
  intros (k & [<-|[<-|[<-|[]]]] & H1 & H2); cbn in H1, H2; lia.
Qed.
Print Assumptions C29_short_buffer_safe_refuted.
