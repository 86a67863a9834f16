(** Vocabulary for C49 (RFC 9171 section 4.1): BPv7 bundles and what rendering a view has to produce. Of the model only the
    record types are used. *)
From Coq Require Import NArith List Bool.
From Verif Require Import Base M_Bpv7Block M_Bpv7Admin M_Bpv7Sec M_BundleV7 S_Cbor S_Bpv7Crc S_Bpv7 S_Bpv7Admin S_Bpv7Sec.
Import ListNotations.
Open Scope N_scope.

(** Types of blocks whose data the code understands. *)
Definition known_type (t : N) : Prop := t = 6 \/ t = 7 \/ t = 10 \/ t = 11 \/ t = 12 \/ t = 13.
Definition is_admin (flags : N) : bool := N.testbit flags 1.
(** The data d of a block of type t says x; [old] as in S_Bpv7Sec and S_Bpv7Admin. *)
Definition content_form (old : leftovers) (admin : bool) (t : N) (x : content7) (d : list N) : Prop :=
  match x with
  | CPlain => ~ known_type t /\ ~ (admin = true /\ t = 1)
  | CExt e => t = ext7_code e /\ ext7_form e d
  | CSec s => (t = 11 \/ t = 12) /\ sec_form (fst old) s d
  | CAdmin a => admin = true /\ t = 1 /\ admin_form (snd old) a d
  end.
Definition block_num (b : cbv7) : N := c_num (k_c b).
Definition block_type (b : cbv7) : N := c_type (k_c b).
(** The block numbers named as targets of a block confidentiality block (type 12). *)
Definition targets_of (b : cbv7) : list N := if block_type b =? 12 then match k_x b with CSec s => s_targets s | _ => [] end else [].
Definition encrypted_numbers (l : list cbv7) : list N := flat_map targets_of l.
(** A block just loaded; keys = the numbers of the encrypted blocks. What is encrypted is not looked into. *)
Definition block_form (verified : Prop) (old : leftovers) (admin : bool) (keys : list N) (b : cbv7) : Prop :=
  canon7_form verified (k_c b) (k_actual b) /\ k_live b = true /\ k_dirty b = false /\ k_del b = false /\
  (k_enc b = true <-> block_type b <> 12 /\ In (block_num b) keys) /\
  if k_enc b then k_x b = CPlain else exists d, c_data (k_c b) = Some d /\ content_form old admin (block_type b) (k_x b) d.
Fixpoint blocks_form (verified : Prop) (old : nat -> leftovers) (admin : bool) (keys : list N) (i : nat) (l : list cbv7) : Prop :=
  match l with [] => True | b :: r => block_form verified (old i) admin keys b /\ blocks_form verified old admin keys (S i) r end.
(** One payload block (type 1), which is the last and has the number 1. *)
Definition payload_last (l : list cbv7) : Prop :=
  exists front pl, l = front ++ [pl] /\ block_type pl = 1 /\ block_num pl = 1 /\ Forall (fun b => block_type b <> 1) front.
(** The numbers marked free: those from 2 to 63 no block has. *)
Definition mask_form (l : list cbv7) (m : N) : Prop :=
  forall n, N.testbit m n = true <-> 2 <= n < 64 /\ ~ In n (map block_num l).
(** The bundle bs and the view it gives. *)
Definition bundle7_form (verified : Prop) (old : nat -> leftovers) (v : bview7) (bs : list N) : Prop :=
  bs = [159] ++ w_pactual v ++ concat (map k_actual (w_blocks v)) ++ [255] /\ w_bytes v = bs /\
  primary7_form (0, 0) (w_prim v) (w_pactual v) /\ is_fragment (q_flags (w_prim v)) = false /\ w_plive v = true /\ w_pdirty v = false /\
  payload_last (w_blocks v) /\ w_enc v = encrypted_numbers (w_blocks v) /\ NoDup (w_enc v) /\
  blocks_form verified old (is_admin (q_flags (w_prim v))) (w_enc v) 0 (w_blocks v) /\ mask_form (w_blocks v) (w_mask v).

(** The data a changed block is sent with. *)
Definition content_written (b : cbv7) (d : list N) : Prop :=
  match (if k_enc b then CPlain else k_x b) with
  | CPlain => c_data (k_c b) = Some d
  | CExt x => ext7_written x d
  | CSec s => sec_written s d
  | CAdmin a => admin_written a d
  end.
Definition content_ok (c : canon7) (x : content7) : Prop :=
  match x with
  | CPlain => exists d, c_data c = Some d /\ c_len c = N.of_nat (length d) /\ c_len c < 2 ^ 64 /\ Forall is_octet d
  | CExt x => ext7_ok x /\ c_type c = ext7_code x
  | CSec s => sec_ok s
  | CAdmin a => admin_ok a
  end.
(** A block that can be sent. *)
Definition sendable7 (b : cbv7) : Prop :=
  if k_dirty b
  then canon7_ok (k_c b) /\ c_crctype (k_c b) <= 2 /\ content_ok (k_c b) (if k_enc b then CPlain else k_x b) /\
       ((if k_enc b then CPlain else k_x b) = CPlain -> k_live b = true)
  else k_live b = true.
Definition kept7 (l : list cbv7) : list cbv7 := filter (fun b => negb (k_del b)) l.
Definition view7_ok (v : bview7) : Prop :=
  (if w_pdirty v then prim7_ok (w_prim v) /\ q_crctype (w_prim v) <= 2 else w_plive v = true) /\
  is_fragment (q_flags (w_prim v)) = false /\ Forall sendable7 (kept7 (w_blocks v)).
(** What becomes of a block: unchanged ones stay byte for byte, the others are written anew with a right checksum. *)
Definition sent_block7 (b b' : cbv7) : Prop :=
  if k_dirty b then
    exists d body crc crcs, content_written b d /\ canon7_written (k_c b) d body /\ crc_closing True (c_crctype (k_c b)) crcs body crc /\
      b' = mkCbv7 (mkCanon7 (c_type (k_c b)) (c_num (k_c b)) (c_flags (k_c b)) (N.of_nat (length d)) (Some d) crcs (c_crctype (k_c b)))
                  (k_x b) (body ++ crc) true false (k_del b) (k_enc b)
  else b' = b.
Definition sent_primary7 (v v' : bview7) : Prop :=
  if w_pdirty v then exists body crc crcs, primary7_written (w_prim v) body /\ crc_closing True (q_crctype (w_prim v)) crcs body crc /\
    w_pactual v' = body ++ crc /\ w_prim v' = with_crc7 (w_prim v) crcs
  else w_pactual v' = w_pactual v /\ w_prim v' = w_prim v.
(** The numbers given back: those of the blocks marked for deletion. *)
Definition mask_sent (v v' : bview7) : Prop :=
  forall n, N.testbit (w_mask v') n = true <-> N.testbit (w_mask v) n = true \/ (n < 64 /\ In n (map block_num (filter k_del (w_blocks v)))).
Definition sent7 (v v' : bview7) : Prop :=
  sent_primary7 v v' /\ Forall2 sent_block7 (kept7 (w_blocks v)) (w_blocks v') /\ w_plive v' = true /\ w_pdirty v' = false /\
  w_enc v' = w_enc v /\ mask_sent v v' /\
  w_bytes v' = [159] ++ w_pactual v' ++ concat (map k_actual (w_blocks v')) ++ [255].
(** The last block is a payload block with the number 1. *)
Definition ends_in_payload (l : list cbv7) : Prop := exists front pl, l = front ++ [pl] /\ block_type pl = 1 /\ block_num pl = 1.

(** What a block's members mean to the receiver: endpoint ids of node 0 are dtn:none; members not sent are the receiver's. *)
Definition content_seen (old : leftovers) (x : content7) : content7 :=
  match x with
  | CSec s => CSec (mkSec7 (s_targets s) (s_ctx s) (s_flags s) (s_source s) (if has_params (s_flags s) then s_params s else fst old) (s_results s))
  | CAdmin (AdmReport b) =>
    match b_info (snd old), b_info b with (o1, o2, o3, o4), (i1, i2, i3, i4) =>
    let m := item_meant (b_timed b) in
    CAdmin (AdmReport (mkBsr7 (m (snd o1) i1, m (snd o2) i2, m (snd o3) i3, m (snd o4) i4) (b_reason b) (b_source b) (b_stamp b)
      (if b_isfrag b then b_off b else b_off (snd old)) (if b_isfrag b then b_flen b else b_flen (snd old)) (b_isfrag b) (b_timed b))) end
  | _ => x
  end.
Definition content_sent (x : content7) : content7 :=
  match x with
  | CPlain => CPlain
  | CExt e => CExt (ext7_meant e)
  | CSec s => CSec (mkSec7 (s_targets s) (s_ctx s) (s_flags s) (eid_meant (s_source s)) (s_params s) (s_results s))
  | CAdmin (AdmReport b) => CAdmin (AdmReport (mkBsr7 (b_info b) (b_reason b) (eid_meant (b_source b)) (b_stamp b) (b_off b) (b_flen b) (b_isfrag b) (b_timed b)))
  | CAdmin a => CAdmin a
  end.
(** Contents whose written form a receiver takes for a block of type t. *)
Definition content_readable (admin : bool) (t : N) (x : content7) : Prop :=
  match x with
  | CPlain => ~ known_type t /\ ~ (admin = true /\ t = 1)
  | CExt e => t = ext7_code e
  | CSec s => (t = 11 \/ t = 12) /\ sec_readable s
  | CAdmin a => admin = true /\ t = 1 /\ (forall b, a = AdmReport b -> asserted b = true) /\ (forall y, a = AdmOther y -> y <> 1 /\ y <> 3)
  end.
(** A block whose bytes a receiver takes; keys = the numbers of the encrypted blocks. *)
Definition readable7 (admin : bool) (keys : list N) (b : cbv7) : Prop :=
  (k_enc b = true <-> block_type b <> 12 /\ In (block_num b) keys) /\
  if k_dirty b then k_enc b = false -> content_readable admin (block_type b) (k_x b)
  else canon7_form True (k_c b) (k_actual b) /\ Forall is_octet (k_actual b) /\
       if k_enc b then k_x b = CPlain else exists old d, c_data (k_c b) = Some d /\ content_form old admin (block_type b) (k_x b) d.
Definition view7_readable (v : bview7) : Prop :=
  let l := kept7 (w_blocks v) in
  payload_last l /\ NoDup (encrypted_numbers l) /\ Forall (readable7 (is_admin (q_flags (w_prim v))) (encrypted_numbers l)) l /\
  (w_pdirty v = false -> primary7_form (0, 0) (w_prim v) (w_pactual v) /\ Forall is_octet (w_pactual v)).
(** The block b, sent as b', at the receiver. *)
Definition block_seen (old : leftovers) (b b' : cbv7) : cbv7 :=
  mkCbv7 (k_c b') (if k_enc b then CPlain else content_seen old (if k_dirty b then content_sent (k_x b) else k_x b)) (k_actual b') true false false (k_enc b).
Fixpoint blocks_seen (old : nat -> leftovers) (i : nat) (l l' : list cbv7) : list cbv7 :=
  match l, l' with b :: r, b' :: r' => block_seen (old i) b b' :: blocks_seen old (S i) r r' | _, _ => [] end.
Definition primary_seen (v v' : bview7) : prim7 := if w_pdirty v then prim7_meant (0, 0) (w_prim v) (q_crc (w_prim v')) else w_prim v.
