(** Vocabulary for C50: what a node does with a bundle it receives. Of the model only the record types are used. *)
From Coq Require Import NArith List Bool.
From Verif Require Import Base M_Bpv6Block M_BundleV6 M_Bpv7Block M_Bpv7Admin M_Bpv7Sec M_BundleV7 M_Ingress.
From Verif Require Import S_Sdnv S_Bpv6 S_BundleV6 S_Cbor S_Bpv7Crc S_Bpv7 S_Bpv7Admin S_Bpv7Sec S_BundleV7.
Import ListNotations.
Open Scope N_scope.

Definition node_ok (nd : node) : Prop := Forall (fun n => n < 2 ^ 64) [n_id nd; n_custody nd; n_echo nd; n_router nd].
Definition is_dest (e f : N * N) : bool := (fst e =? fst f) && (snd e =? snd f).
(** The endpoints of the node's services; answers to pings come to service 1. *)
Definition ping_eid (nd : node) : N * N := (n_id nd, 1).
Definition custody_eid (nd : node) : N * N := (n_id nd, n_custody nd).
Definition echo_eid (nd : node) : N * N := (n_id nd, n_echo nd).
Definition router_eid (nd : node) : N * N := (n_id nd, n_router nd).

(** ** BPv7 *)
Definition of_type (t : N) (l : list cbv7) : list cbv7 := filter (fun b => block_type b =? t) l.
(** Hop limit and hop count the code goes by: those of the block or, if it is encrypted, [stale], found in memory. *)
Definition hop_pair (stale : N * N) (b : cbv7) : N * N :=
  if k_enc b then stale else match k_x b with CExt (HopCount l c) => (l, c) | _ => (0, 0) end.
(** One more hop is within the limit and within 255, or the 64-bit count overflows. *)
Definition hop_allowed (p : N * N) : Prop := (snd p < fst p /\ snd p < 255) \/ snd p = 2 ^ 64 - 1.
Definition next_count (c : N) : N := if c =? 2 ^ 64 - 1 then 0 else c + 1.
Definition may_pass (stale : N * N) (l : list cbv7) : Prop :=
  (length (of_type 6 l) <= 1)%nat /\ (length (of_type 10 l) <= 1)%nat /\ forall b, In b l -> block_type b = 10 -> hop_allowed (hop_pair stale b).
(** The block c written with the data d and a right checksum. *)
Definition block_bytes (c : canon7) (d bytes : list N) : Prop :=
  exists body crc crcs, canon7_written c d body /\ crc_closing True (c_crctype c) crcs body crc /\ bytes = body ++ crc.
(** What becomes of a block on its way through: previous node and hop count are brought up to date (if they are encrypted only the
    framing is written anew), everything else stays byte for byte. *)
Definition passed_block (id : N) (b : cbv7) (bytes : list N) : Prop :=
  if (block_type b =? 6) || (block_type b =? 10) then
    exists d, block_bytes (k_c b) d bytes /\
      if k_enc b then c_data (k_c b) = Some d
      else match k_x b with
           | CExt (HopCount l c) => ext7_written (HopCount l (next_count c)) d
           | _ => ext7_written (PrevNode (id, 0)) d
           end
  else bytes = k_actual b.
(** The number a new block gets: the least from 2 on that is not used or, if all up to 63 are, one more than the largest. *)
Definition new_number (used : list N) (n : N) : Prop :=
  (2 <= n < 64 /\ ~ In n used /\ forall k, 2 <= k < n -> In k used) \/
  ((forall k, 2 <= k < 64 -> In k used) /\ exists m, In m used /\ (forall k, In k used -> k <= m) /\ n = next_count m).
(** The new previous node block of a bundle that has none: flags 16, CRC-32C. *)
Definition new_previous (id : N) (l : list cbv7) (bytes : list N) : Prop :=
  if existsb (fun b => block_type b =? 6) l then bytes = []
  else exists n d, new_number (map block_num l) n /\ ext7_written (PrevNode (id, 0)) d /\ block_bytes (mkCanon7 6 n 16 0 None (0, 0) 2) d bytes.
(** The primary block of an echoed bundle: back to the source, from the echo service. *)
Definition echoed7 (nd : node) (p : prim7) : prim7 :=
  mkPrim7 (q_flags p) (q_src p) (echo_eid nd) (q_report p) (q_stamp p) (q_life p) (q_off p) (q_total p) (q_crc p) (q_crctype p).
Definition primary_bytes (p : prim7) (bytes : list N) : Prop :=
  exists body crc crcs, primary7_written p body /\ crc_closing True (q_crctype p) crcs body crc /\ bytes = body ++ crc.
(** The bundle [out] that leaves the node when v came in. *)
Definition forwarded7 (nd : node) (v : bview7) (out : list N) : Prop :=
  exists primary new blocks, out = [159] ++ primary ++ new ++ concat blocks ++ [255] /\
    (if is_dest (q_dest (w_prim v)) (echo_eid nd) then primary_bytes (echoed7 nd (w_prim v)) primary else primary = w_pactual v) /\
    new_previous (n_id nd) (w_blocks v) new /\ Forall2 (passed_block (n_id nd)) (w_blocks v) blocks.
(** What is done with the bytes bs of a BPv7 bundle received from outside. *)
Inductive handled7 (old : nat -> leftovers) (stale : N * N) (nd : node) (bs : list N) : handled -> Prop :=
| H7Malformed : (forall v, ~ bundle7_form True old v bs) -> handled7 old stale nd bs Refused
| H7Ping v : bundle7_form True old v bs -> q_dest (w_prim v) = ping_eid nd -> handled7 old stale nd bs Consumed
| H7Admin v : bundle7_form True old v bs -> q_dest (w_prim v) <> ping_eid nd ->
    is_admin (q_flags (w_prim v)) = true -> q_dest (w_prim v) = custody_eid nd ->
    handled7 old stale nd bs (Out (mkOut bs (custody_eid nd) false true (is_dest (custody_eid nd) (router_eid nd)) false))
| H7Drop v : bundle7_form True old v bs -> q_dest (w_prim v) <> ping_eid nd ->
    ~ (is_admin (q_flags (w_prim v)) = true /\ q_dest (w_prim v) = custody_eid nd) -> ~ may_pass stale (w_blocks v) ->
    handled7 old stale nd bs Refused
| H7Forward v out : bundle7_form True old v bs -> q_dest (w_prim v) <> ping_eid nd ->
    ~ (is_admin (q_flags (w_prim v)) = true /\ q_dest (w_prim v) = custody_eid nd) -> may_pass stale (w_blocks v) -> forwarded7 nd v out ->
    handled7 old stale nd bs (Out (mkOut out (if is_dest (q_dest (w_prim v)) (echo_eid nd) then q_src (w_prim v) else q_dest (w_prim v))
      false false (is_dest (q_dest (w_prim v)) (router_eid nd)) false)).
Definition has_previous (l : list cbv7) : Prop := exists b, In b l /\ block_type b = 6.
(** The new block, if there is one, does not get a number that a confidentiality block names as that of an encrypted block. *)
Definition number_clear (v : bview7) : Prop := has_previous (w_blocks v) \/ forall n, new_number (map block_num (w_blocks v)) n -> ~ In n (w_enc v).
(** The block b of the bundle that came in, as the next node sees it: b2. *)
Definition arrived (old : leftovers) (id : N) (b b2 : cbv7) : Prop :=
  block_type b2 = block_type b /\ block_num b2 = block_num b /\ c_flags (k_c b2) = c_flags (k_c b) /\ c_crctype (k_c b2) = c_crctype (k_c b) /\
  k_enc b2 = k_enc b /\
  (if (block_type b =? 6) || (block_type b =? 10)
   then if k_enc b then c_data (k_c b2) = c_data (k_c b) /\ k_x b2 = CPlain
        else match k_x b with
             | CExt (HopCount l c) => k_x b2 = CExt (HopCount l (next_count c))
             | _ => k_x b2 = CExt (PrevNode (eid_meant (id, 0)))
             end
   else k_c b2 = k_c b /\ k_actual b2 = k_actual b /\ k_x b2 = if k_enc b then CPlain else content_seen old (k_x b)).
Fixpoint all_arrived (old : nat -> leftovers) (id : N) (i : nat) (l l2 : list cbv7) : Prop :=
  match l, l2 with
  | [], [] => True
  | b :: r, b2 :: r2 => arrived (old i) id b b2 /\ all_arrived old id (S i) r r2
  | _, _ => False
  end.

(** ** BPv6 *)
Definition admin6 (flags : N) : bool := N.testbit flags 4 && N.testbit flags 1.
Definition custody6 (flags : N) : bool := N.testbit flags 4 && N.testbit flags 3.
(** The length of the payload, if there is one payload block. *)
Definition payload_length (l : list cbv) (n : N) : Prop :=
  (exists l1 c l2, l = l1 ++ c :: l2 /\ k_type (c_blk c) = 1 /\ k_len (c_blk c) = n /\ Forall (fun d => k_type (c_blk d) <> 1) (l1 ++ l2)) \/
  (n = 0 /\ ~ exists l1 c l2, l = l1 ++ c :: l2 /\ k_type (c_blk c) = 1 /\ Forall (fun d => k_type (c_blk d) <> 1) (l1 ++ l2)).
(** A bundle that is cut up in storage. *)
Definition cut6 (nd : node) (v : M_BundleV6.view) (b : bool) : Prop :=
  exists n, payload_length (v_blocks v) n /\ (b = true <-> n_fragment nd <> 0 /\ N.testbit (p_flags (v_prim v)) 2 = false /\ n_fragment nd < n).
(** The primary block of an echoed bundle; n = the new length of the block. *)
Definition echoed6 (nd : node) (p : prim) (n : N) : prim :=
  mkPrim (p_flags p) n (p_src p) (echo_eid nd) (p_report p) (p_cust p) (p_time p) (p_seq p) (p_life p) (p_off p) (p_total p).
Inductive handled6 (last : bool) (nd : node) (bs : list N) : handled -> Prop :=
| H6Malformed : (forall v, ~ (wire_bundle v bs /\ bundle_data last v)) -> handled6 last nd bs Refused
| H6Ping v : wire_bundle v bs -> bundle_data last v -> p_dest (v_prim v) = ping_eid nd -> p_dest (v_prim v) <> echo_eid nd ->
    handled6 last nd bs Consumed
| H6Forward v cut : wire_bundle v bs -> bundle_data last v -> let p := v_prim v in
    p_dest p <> ping_eid nd -> p_dest p <> echo_eid nd -> cut6 nd v cut ->
    handled6 last nd bs (Out (mkOut bs (p_dest p) (custody6 (p_flags p)) (admin6 (p_flags p) && is_dest (p_dest p) (custody_eid nd))
      (is_dest (p_dest p) (router_eid nd)) cut))
| H6Echo v n primary cut : wire_bundle v bs -> bundle_data last v -> let p := v_prim v in
    p_dest p = echo_eid nd -> written_primary (echoed6 nd p n) primary -> cut6 nd v cut ->
    handled6 last nd bs (Out (mkOut (primary ++ concat (map c_actual (v_blocks v))) (p_src p) (custody6 (p_flags p))
      (admin6 (p_flags p) && is_dest (p_dest p) (custody_eid nd)) (is_dest (p_dest p) (router_eid nd)) cut))
| H6TooLong v : wire_bundle v bs -> bundle_data last v -> p_dest (v_prim v) = echo_eid nd ->
    (forall n primary, ~ written_primary (echoed6 nd (v_prim v) n) primary) -> handled6 last nd bs Refused.
