(** Vocabulary for C39: what rendering a bundle view has to produce. Of the model only the record types are used. *)
From Coq Require Import NArith List Bool.
From Verif Require Import Base S_Sdnv M_Bpv6Block M_BundleV6 S_Bpv6.
Import ListNotations.
Open Scope N_scope.

(** Block [bs] whose flags take one byte. *)
Definition one_byte_flags (bs : list N) : Prop := exists type f rest, bs = type :: f :: rest /\ f < 128.
(** The last-block flag (bit 3) as it has to be. *)
Definition last_bit (isLast : bool) (flags : N) : N := if isLast then N.setbit flags 3 else N.clearbit flags 3.
Definition refl_block (b : block) (flags : N) : block := mkBlock (k_type b) flags (k_len b) (k_data b) (k_content b).

(** Blocks the application changed or added, and blocks with flags above 127, are serialized anew. *)
Definition rewritten (c : cbv) : bool := c_dirty c || (127 <? k_flags (c_blk c)).
(** A block that can be sent: its members can be serialized, or it stands for bytes that can be sent as they are. *)
Definition sendable (c : cbv) : Prop :=
  if rewritten c
  then block_ok (c_blk c) /\ forall data, block_data (c_blk c) data -> N.of_nat (length data) < W64
  else exists data, k_data (c_blk c) = Some data /\ k_len (c_blk c) = N.of_nat (length data) /\
       wire_block (k_type (c_blk c)) (k_flags (c_blk c)) data (c_actual c) /\ one_byte_flags (c_actual c) /\ Forall is_byte (c_actual c).
(** The blocks that are not marked for deletion. *)
Definition kept (l : list cbv) : list cbv := filter (fun c => negb (c_del c)) l.
(** A view that can be sent. *)
Definition view_ok (v : view) : Prop :=
  (if v_pdirty v then prim_ok (v_prim v) else wire_primary (v_prim v) (v_pactual v)) /\ Forall sendable (kept (v_blocks v)).

(** What becomes of a block: only the last-block flag, the type and flags its class insists on, and the data follow. *)
Definition sent_block (isLast : bool) (c c' : cbv) : Prop :=
  let b := refl_block (c_blk c) (last_bit isLast (k_flags (c_blk c))) in
  c_dirty c' = false /\ c_del c' = false /\ k_content (c_blk c') = k_content (c_blk c) /\
  exists data, k_data (c_blk c') = Some data /\ k_len (c_blk c') = N.of_nat (length data) /\
    if rewritten c
    then block_data b data /\ k_type (c_blk c') = block_type b /\ k_flags (c_blk c') = block_flags b /\
         written_block (block_type b) (block_flags b) data (c_actual c')
    else k_data (c_blk c) = Some data /\ k_type (c_blk c') = k_type b /\ k_flags (c_blk c') = k_flags b /\
         exists rest, c_actual c = k_type b :: k_flags (c_blk c) :: rest /\ c_actual c' = k_type b :: k_flags b :: rest.
Inductive sent_blocks : list cbv -> list cbv -> Prop :=
| SbNil : sent_blocks [] []
| SbLast c c' : sent_block true c c' -> sent_blocks [c] [c']
| SbMore c c' d cs cs' : sent_block false c c' -> sent_blocks (d :: cs) cs' -> sent_blocks (c :: d :: cs) (c' :: cs').
(** The primary block keeps all its members except perhaps the length of the block. *)
Definition same_primary (p p' : prim) : Prop :=
  p' = mkPrim (p_flags p) (p_len p') (p_dest p) (p_src p) (p_report p) (p_cust p) (p_time p) (p_seq p) (p_life p) (p_off p) (p_total p).
Definition sent_primary (v v' : view) : Prop :=
  if v_pdirty v then same_primary (v_prim v) (v_prim v') /\ written_primary (v_prim v') (v_pactual v')
  else v_prim v' = v_prim v /\ v_pactual v' = v_pactual v.
Definition sent (v v' : view) : Prop :=
  v_pdirty v' = false /\ sent_primary v v' /\ sent_blocks (kept (v_blocks v)) (v_blocks v') /\
  v_bytes v' = v_pactual v' ++ concat (map c_actual (v_blocks v')).

(** The primary block's length fits its one-byte field. *)
Definition primary_fits (v : view) : Prop := v_pdirty v = true -> exists n bs, written_primary (mkPrim (p_flags (v_prim v)) n (p_dest (v_prim v)) (p_src (v_prim v))
  (p_report (v_prim v)) (p_cust (v_prim v)) (p_time (v_prim v)) (p_seq (v_prim v)) (p_life (v_prim v)) (p_off (v_prim v)) (p_total (v_prim v))) bs.
(** Blocks whose members survive a round trip in this bundle. *)
Definition cbv_std (last isAdmin : bool) (c : cbv) : Prop :=
  if rewritten c then content_std isAdmin (k_type (c_blk c)) (k_content (c_blk c)) else cbv_data last isAdmin c.
