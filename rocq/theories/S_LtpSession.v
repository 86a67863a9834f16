(** Specification vocabulary for LTP sessions. *)
From Coq Require Import NArith List Bool.
From Verif Require Import Base M_FragmentSet M_LtpFragmentSet S_FragmentSet S_LtpFragmentSet M_LtpReceiver M_LtpSender.
Import ListNotations.
Open Scope N_scope.

(** n bytes of l from position off on. *)
Definition slice (l : list N) (off n : N) : list N := firstn (N.to_nat n) (skipn (N.to_nat off) l).
Definition size_of (l : list N) : N := N.of_nat (length l).

Definition is_red (sg : dseg) : Prop := sg_flags sg <= 3.
(** RFC 5326 section 3.1 segment types: 2 and 3 end the red part, 3 and 7 end the block, 1 2 3 are checkpoints. *)
Definition ends_red_part (sg : dseg) : Prop := sg_flags sg = 2 \/ sg_flags sg = 3.
Definition ends_block (sg : dseg) : Prop := sg_flags sg = 3 \/ sg_flags sg = 7.
Definition is_checkpoint (sg : dseg) : Prop := sg_flags sg = 1 \/ sg_flags sg = 2 \/ sg_flags sg = 3.

(** sg is a correctly marked, non-empty data segment of the block whose first L bytes are the red part. *)
Definition segment_of (block : list N) (L : N) (sg : dseg) : Prop :=
  1 <= sg_len sg /\ sg_off sg + sg_len sg <= size_of block /\ sg_data sg = slice block (sg_off sg) (sg_len sg) /\
  (is_red sg /\ sg_off sg + sg_len sg <= L /\
     (ends_red_part sg <-> sg_off sg + sg_len sg = L) /\
     (ends_block sg <-> sg_off sg + sg_len sg = size_of block) /\
     (is_checkpoint sg <-> exists p, sg_ckpt sg = Some p)
   \/ (sg_flags sg = 4 \/ sg_flags sg = 7) /\ L <= sg_off sg /\
      (ends_block sg <-> sg_off sg + sg_len sg = size_of block)).

(** A checkpoint serial number names one range of bytes. *)
Definition csns_consistent (segs : list dseg) : Prop :=
  forall a b csn r r', In a segs -> In b segs -> is_red a -> is_red b ->
    sg_ckpt a = Some (csn, r) -> sg_ckpt b = Some (csn, r') -> sg_off a = sg_off b /\ sg_len a = sg_len b.

(** Some red segment among segs carries byte i. *)
Definition red_received (segs : list dseg) (i : N) : Prop :=
  exists sg, In sg segs /\ is_red sg /\ sg_off sg <= i /\ i < sg_off sg + sg_len sg.

(** The data segments delivered to a receiver by a list of events. *)
Definition segments_in (es : list rev_) : list dseg :=
  flat_map (fun e => match e with RvData sg => [sg] | _ => [] end) es.

(** A report a correct receiver may send: well formed, inside the red part, not claimless. *)
Definition report_within (L : N) (r : report) : Prop :=
  well_formed false r /\ rs_upper r <= L /\ rs_claims r <> [].

(** What the client should be told about green segments: offset, bytes, end-of-block mark, in arrival order. *)
Definition green_notices (segs : list dseg) : list (N * list N * bool) :=
  flat_map (fun sg => if 4 <=? sg_flags sg then [(sg_off sg, sg_data sg, sg_flags sg =? 7)] else []) segs.

(** The segments cover [from, upto) consecutively: each begins where the previous one ended. *)
Fixpoint tiles (from : N) (segs : list dseg) (upto : N) : Prop :=
  match segs with
  | [] => from = upto
  | sg :: r => sg_off sg = from /\ tiles (from + sg_len sg) r upto
  end.
(** The data segments a sender put out, and those of them that came from the first pass. *)
Definition data_out (out : list (sev * packet)) : list dseg :=
  flat_map (fun p => match snd p with PData sg => [sg] | PAck _ => [] end) out.
Definition first_pass (out : list (sev * packet)) : list dseg :=
  flat_map (fun p => match p with (SvFirst, PData sg) => [sg] | _ => [] end) out.
(** How often the engine asked for first pass data. *)
Definition first_asks (es : list sev) : list sev := filter (fun e => match e with SvFirst => true | _ => false end) es.
(** Checkpoint serial numbers, in order. *)
Definition serials (segs : list dseg) : list N := flat_map (fun sg => match sg_ckpt sg with Some (csn, _) => [csn] | None => [] end) segs.
