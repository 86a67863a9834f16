(** Vocabulary for C56 (RFC 5050 5.10, 6.1 and 6.3, CCSDS 734.2-B-1 annex D): what a bundle says about its custody, what has to be signalled to
    whom, and what signals and reports have to say. Of the model only the record types, the state and the steps are used. *)
From Coq Require Import NArith List Bool.
From Verif Require Import Base M_FragmentSet S_FragmentSet M_Bpv6Block M_BundleV6 S_Uri S_Bpv6 M_Custody.
Import ListNotations.
Open Scope N_scope.

(** ** A bundle's custody *)
Definition type_of (c : cbv) : N := k_type (c_blk c).
(** Exactly one block has type [t]. *)
Definition only_block (t : N) (c : cbv) (v : view) : Prop :=
  exists l r, v_blocks v = l ++ c :: r /\ type_of c = t /\ Forall (fun x => type_of x <> t) (l ++ r).
Definition without (t : N) (v : view) : Prop := Forall (fun x => type_of x <> t) (v_blocks v).
(** The custody transfer enhancement block (type 10), if there is one, gives a custody id and names an endpoint. *)
Inductive enhanced (v : view) : option (N * eid) -> Prop :=
| enh_none : without 10 v -> enhanced v None
| enh_some c id node svc a b : only_block 10 c v -> k_content (c_blk c) = Cteb id (ipn_colon ++ a ++ [46] ++ b) -> number_text node a -> number_text svc b ->
    enhanced v (Some (id, (node, svc))).
(** What there is to know about a bundle: its primary block, the size of its payload, and for an [aware] node the id under which its custodian
    knows it, if the enhancement block names the custodian of the primary block. *)
Definition knows (aware : bool) (v : view) (i : info) : Prop :=
  i_prim i = v_prim v /\ (exists c, only_block 1 c v /\ i_size i = k_len (c_blk c)) /\
  if aware then exists o, enhanced v o /\
    match o with
    | Some (id, e) => (e = p_cust (v_prim v) -> i_valid i = true /\ i_id i = id) /\ (e <> p_cust (v_prim v) -> i_valid i = false)
    | None => i_valid i = false
    end
  else i_valid i = false.

(** ** What the next node gets *)
(** A block but for its last-block flag. *)
Definition essence (c : cbv) : N * N * option (list N) * content := (k_type (c_blk c), N.clearbit (k_flags (c_blk c)) 3, k_data (c_blk c), k_content (c_blk c)).
(** The blocks other than enhancement blocks. *)
Definition others (v : view) : list (N * N * option (list N) * content) := map essence (filter (fun c => negb (type_of c =? 10)) (v_blocks v)).
(** The same primary block but for the custodian and the length of the block. *)
Definition but_custodian (p p' : prim) : Prop :=
  p' = mkPrim (p_flags p) (p_len p') (p_dest p) (p_src p) (p_report p) (p_cust p') (p_time p) (p_seq p) (p_life p) (p_off p) (p_total p).

(** Rendering [v1] into any buffer with room for it gives [v'], and that is what the next node loads. *)
Definition deliverable (last : bool) (v1 v' : view) : Prop := load last false (v_bytes v') = Some (Some v') /\
  forall maxSize mem junk, (0 < maxSize)%nat -> (maxSize + 32 <= length mem)%nat -> (length (v_bytes v') + 32 <= length mem)%nat -> render v1 maxSize mem junk = Some (Some (Rendered v')).

(** ** Signals *)
(** RFC 5050 6.3: what custody signals say, by the index storage and the sinks use; 0 is success. *)
Definition reason_codes : list N := [0; 3; 4; 5; 6; 7; 8].
Definition says (k : nat) (status : N) : Prop := N.testbit status 7 = Nat.eqb k 0 /\ nth_error reason_codes k = Some (status mod 128).
(** A record bundle made by [me] for [dest] at [now] with the priority (bits 7 and 8) [flags] has: not to be fragmented, for one node. *)
Definition record_for (me dest : eid) (flags now : N) (v : view) (code : N) (isfrag : bool) (a : admin_content) : Prop :=
  let p := v_prim v in
  p_dest p = dest /\ p_src p = me /\ p_time p = now /\ p_life p = 1000 /\ p_report p = (0, 0) /\ p_cust p = (0, 0) /\
  (forall j, N.testbit (p_flags p) j = (j =? 1) || (j =? 2) || (j =? 4) || ((j =? 7) || (j =? 8)) && N.testbit flags j) /\
  exists c, v_blocks v = [c] /\ type_of c = 1 /\ k_content (c_blk c) = Admin code isfrag (Some a).
(** The bundle with primary block [p] and payload size [size] is meant by these fields of a record. *)
Definition about (p : prim) (size : N) (isfrag : bool) (off len : N) (stamp : N * N) (source : list N) : Prop :=
  isfrag = fragment_flag (p_flags p) /\ (if isfrag then off = p_off p /\ len = size else off = 0 /\ len = 0) /\
  stamp = (p_time p, p_seq p) /\ ipn_text (fst (p_src p)) (snd (p_src p)) source.
(** What was rendered is what whoever loads it gets. *)
Definition arrives_as (last : bool) (r : rendered) (v : view) : Prop := r = Rendered v /\ load last false (v_bytes v) = Some (Some v).
(** The 64-bit clock, the 32-bit nanoseconds, and [n] bytes of memory with the padding (PaddedVectorUint8.h). *)
Definition env_ok (n : nat) (e : env) : Prop := e_now e < W64 /\ fst (e_time e) < W64 /\ snd (e_time e) < W32 /\ (n + 32 <= length (e_mem e))%nat.
Definition cfg_ok (cfg : ccfg) : Prop := fst (f_me cfg) < W64 /\ snd (f_me cfg) < W64.

(** ** Histories *)
Inductive cop := Decide (i : info) (accept : bool) (reason : nat) (e : env) | Flush (E : nat -> env).
(** The members hold 64-bit numbers, a failure has one of the seven reasons, and ids stay below the largest number. *)
Definition cop_ok (o : cop) : Prop :=
  match o with
  | Decide i accept reason e => prim_ok (i_prim i) /\ i_size i < W64 /\ (accept = false -> (reason < 7)%nat) /\ (i_valid i = true -> i_id i < U64MAX) /\ env_ok 278 e
  | Flush E => forall n, env_ok 2175 (E n)
  end.
Definition do_op (cfg : ccfg) (last : bool) (o : cop) (s : cstate) : option (option (list rendered * cstate)) :=
  match o with
  | Decide i accept reason e =>
    match generate cfg last i accept reason e s with
    | None => None | Some None => Some None
    | Some (Some (r, s1)) => Some (Some (match r with Some r => [r] | None => [] end, s1))
    end
  | Flush E => flush cfg E s
  end.
(** From the start; everything succeeded. *)
Inductive crun (cfg : ccfg) (last : bool) : list cop -> cstate -> Prop :=
| run_start : crun cfg last [] cinit
| run_next l s o out s1 : crun cfg last l s -> cop_ok o -> do_op cfg last o s = Some (Some (out, s1)) -> crun cfg last (l ++ [o]) s1.
(** The ids decided on since the last flush that are to be signalled to custodian [e] with the [k]-th status. *)
Definition due (cfg : ccfg) (l : list cop) (e : eid) (k : nat) : list N :=
  fold_left (fun ids o =>
    match o with
    | Flush _ => []
    | Decide i accept reason _ =>
      if f_aware cfg && i_valid i && ((fst (p_cust (i_prim i)) =? fst e) && (snd (p_cust (i_prim i)) =? snd e)) && Nat.eqb (if accept then 0%nat else reason) k
      then i_id i :: ids else ids
    end) l [].
