(** Model of common/bpcodec/src/codec/CustodyTransferManager.cpp (Ctm below), the custody transfer of BPv6 bundles with custody transfer
    enhancement blocks (CTEB) and aggregate custody signals (ACS), on top of the bundle views of M_BundleV6.
    The clock, the memory behind new buffers and what it contains are parameters. None is undefined behaviour, an inner None a returned
    false. Not modelled: the copyAcsOnly variant and GetAcsConstRef (used by tests only), what is left of the objects after a false. *)
From Coq Require Import NArith List Bool.
From Verif Require Import Base M_FragmentSet M_Sdnv M_Acs M_Uri M_Bpv6Block M_BundleV6.
Import ListNotations.
Open Scope N_scope.

Definition eid : Type := N * N.
Definition eid_eqb (a b : eid) : bool := (fst a =? fst b) && (snd a =? snd b).
(** Cbhe.cpp:49-54. *)
Definition eid_ltb (a b : eid) : bool := if fst a =? fst b then snd a <? snd b else fst a <? fst b.

(** CustodyTransferManager.h:77-79: m_isAcsAware and my custodian endpoint. *)
Record ccfg := mkCfg { f_aware : bool; f_me : eid }.
(** CustodyTransferManager.h:81-84: the fills of the seven pending signals of each custodian (their status bytes never change: Ctm:171-186,
    Bpv6AdministrativeRecords.cpp:751-753, 780-783), m_lastCreation, m_sequence, m_largestNumberOfFills. *)
Record cstate := mkC { u_map : list (eid * list fset); u_last : N; u_seq : N; u_fills : N }.
(** Ctm:188-198. *)
Definition cinit : cstate := mkC [] 0 0 0.
(** CustodyTransferManager.h:51-56. *)
Record info := mkInfo { i_prim : prim; i_valid : bool; i_id : N; i_size : N }.

(** ** The bundle *)
(** BPV6_BLOCK_TYPE_CODE::CUSTODY_TRANSFER_ENHANCEMENT. *)
Definition cteb_type : N := 10.
Definition is_cteb (c : cbv) : bool := k_type (c_blk c) =? cteb_type.
(** Ctm:229-256, 267-298: no CTEB; the CTEB's custody id and whether it names the custodian of the primary block; None = returned false. *)
Definition cteb (v : view) : option (option (N * bool)) :=
  match filter is_cteb (v_blocks v) with
  | [] => Some None
  | [c] => match k_content (c_blk c) with
           | Cteb id text => match parse_uri_string false text with
                             | Some (node, Svc svc) => Some (Some (id, eid_eqb (p_cust (v_prim v)) (node, svc)))
                             | _ => None
                             end
           | _ => None
           end
  | _ => None
  end.
(** Ctm:219-259 GetCustodyInfo. Without a valid CTEB the id is not set, and not looked at. *)
Definition get_info (cfg : ccfg) (v : view) : option info :=
  match payload_size v with
  | None => None
  | Some n =>
    if f_aware cfg then
      match cteb v with
      | None => None
      | Some (Some (id, true)) => Some (mkInfo (v_prim v) true id n)
      | Some _ => Some (mkInfo (v_prim v) false 0 n)
      end
    else Some (mkInfo (v_prim v) false 0 n)
  end.
Definition with_cust (p : prim) (e : eid) : prim :=
  mkPrim (p_flags p) (p_len p) (p_dest p) (p_src p) (p_report p) e (p_time p) (p_seq p) (p_life p) (p_off p) (p_total p).
(** Ctm:311-317: the CTEB found is used again. *)
Definition reuse (id : N) (text : list N) (c : cbv) : cbv :=
  mkCbv (mkBlock (k_type (c_blk c)) (k_flags (c_blk c)) (k_len (c_blk c)) (k_data (c_blk c)) (Cteb id text)) (c_actual c) true false.
(** Ctm:318-329: a new one. *)
Definition new_cteb (id : N) (text : list N) : block := mkBlock cteb_type 0 0 None (Cteb id text).
Definition on_cteb (f : cbv -> cbv) (v : view) : view := with_blocks v (map (fun c => if is_cteb c then f c else c) (v_blocks v)).
(** Ctm:261-340 UpdateBundleCustodyFields. *)
Definition update (cfg : ccfg) (accept : bool) (id : N) (v : view) : option view :=
  let mine := modify_primary (with_cust (v_prim v) (f_me cfg)) in
  let text := uri_string (fst (f_me cfg)) (snd (f_me cfg)) in
  if f_aware cfg then
    match cteb v with
    | None => None
    | Some None => Some (if accept then append_block (new_cteb id text) (mine v) else v)
    | Some (Some (_, valid)) =>
      Some (if accept then on_cteb (reuse id text) (mine v) else if valid then v else on_cteb mark_deleted v)
    end
  else Some (if accept then mine v else v).

(** ** Signals *)
(** Ctm:21-38, 171-186: status and reason by index; an index of 7 or more is outside the arrays. *)
Definition reasons : list N := [0; 3; 4; 5; 6; 7; 8].
Definition status_of (k : nat) : option N := match nth_error reasons k with Some r => Some (acs_status (Nat.eqb k 0) r) | None => None end.
(** Ctm:40-46 SetCreationAndSequence; m_lastCreation is not assigned anywhere. *)
Definition stamp (now : N) (s : cstate) : N * cstate :=
  let q := if now =? u_last s then u_seq s else 0 in
  (q, mkC (u_map s) (u_last s) (add64 q 1) (u_fills s)).
(** Ctm:49-59, 127-136, 473-489: the primary block of a record for [dest]. *)
Definition record_prim (cfg : ccfg) (flags : N) (dest : eid) (now q : N) : prim :=
  mkPrim (N.lor (N.land flags 384) 22) 0 dest (f_me cfg) (0, 0) (0, 0) now q 1000 0 0.
Definition record_view (p : prim) (code : N) (isfrag : bool) (a : admin_content) : view :=
  mkView p [] true [fresh (mkBlock 1 0 0 None (Admin code isfrag (Some a)))] [].
(** Ctm:61-90, the custody signal of RFC 5050 about the bundle with primary block [p]. *)
Definition signal_about (p : prim) (size status : N) (time : N * N) : custody_signal :=
  let f := p_isfrag (p_flags p) in
  mkSignal status f (if f then p_off p else 0) (if f then size else 0) time (p_time p, p_seq p) (uri_string (fst (p_src p)) (snd (p_src p))).
Definition signal_view (cfg : ccfg) (p : prim) (size status : N) (now : N) (time : N * N) (q : N) : view :=
  record_view (record_prim cfg (p_flags p) (p_cust p) now q) 2 (p_isfrag (p_flags p)) (ASignal (signal_about p size status time)).
(** bpv6.h:42, 508-517; Ctm:91, 155. *)
Definition signal_room : nat := 175 + 103.
Definition acs_room : nat := 175 + 2000.
(** The clock, the memory of the buffer and what other new memory contains, when a record is rendered. *)
Record env := mkEnv { e_now : N; e_time : N * N; e_mem : list N; e_junk : list N }.
(** Ctm:48-96 GenerateCustodySignalBundle. *)
Definition signal_bundle (cfg : ccfg) (p : prim) (size : N) (k : nat) (e : env) (s : cstate) : option (option (rendered * cstate)) :=
  match status_of k with
  | None => None
  | Some status =>
    let (q, s1) := stamp (e_now e) s in
    try r <- render (signal_view cfg p size status (e_now e) (e_time e) q) signal_room (e_mem e) (e_junk e);
    Some (Some (r, s1))
  end.

(** ** Aggregate signals *)
Fixpoint map_find (e : eid) (m : list (eid * list fset)) : option (list fset) :=
  match m with [] => None | (x, a) :: r => if eid_eqb e x then Some a else map_find e r end.
(** std::map::operator[]: a new entry has seven empty signals. *)
Fixpoint map_change (e : eid) (f : list fset -> list fset) (m : list (eid * list fset)) : list (eid * list fset) :=
  match m with
  | [] => [(e, f (repeat [] 7))]
  | (x, a) :: r => if eid_eqb e x then (x, f a) :: r else if eid_ltb e x then (e, f (repeat [] 7)) :: m else (x, a) :: map_change e f r
  end.
Fixpoint set_at {A} (k : nat) (x : A) (l : list A) : list A := match l, k with [], _ => [] | _ :: r, O => x :: r | y :: r, S k => y :: set_at k x r end.
Definition fills_of (e : eid) (k : nat) (s : cstate) : fset := match map_find e (u_map s) with Some a => nth k a [] | None => [] end.
(** Ctm:374-375, 406-407. [last] is the lookup variant of the fragment set (see M_FragmentSet). *)
Definition aggregate (last : bool) (e : eid) (k : nat) (id : N) (s : cstate) : cstate :=
  let (fills, n) := acs_add last (fills_of e k s) id in
  mkC (map_change e (set_at k fills) (u_map s)) (u_last s) (u_seq s) (N.max n (u_fills s)).
(** Ctm:342-449 GenerateCustodySignal; no bundle unless one is rendered. *)
Definition generate (cfg : ccfg) (last : bool) (i : info) (accept : bool) (reason : nat) (e : env) (s : cstate) : option (option (option rendered * cstate)) :=
  let k := if accept then O else reason in
  if f_aware cfg && i_valid i then
    if Nat.ltb k 7 then Some (Some (None, aggregate last (p_cust (i_prim i)) k (i_id i) s)) else None
  else try (r, s1) <- signal_bundle cfg (i_prim i) (i_size i) k e s; Some (Some (Some r, s1)).
(** Ctm:122-159 GenerateAcsBundle. *)
Definition acs_view (cfg : ccfg) (dest : eid) (status : N) (fills : fset) (now q : N) : view :=
  record_view (record_prim cfg 0 dest now q) 4 false (AAggregate status fills).
Definition acs_bundle (cfg : ccfg) (dest : eid) (k : nat) (fills : fset) (e : env) (s : cstate) : option (option (rendered * cstate)) :=
  match status_of k with
  | None => None
  | Some status =>
    let (q, s1) := stamp (e_now e) s in
    try r <- render (acs_view cfg dest status fills (e_now e) q) acs_room (e_mem e) (e_junk e);
    Some (Some (r, s1))
  end.
(** Ctm:103-115: the signals of one custodian from index [k] on; [n] counts the bundles, of which [E n] is the environment. The signals
    sent are emptied. *)
Fixpoint flush_one (cfg : ccfg) (E : nat -> env) (dest : eid) (k : nat) (a : list fset) (n : nat) (s : cstate)
    : option (option (list fset * list rendered * nat * cstate)) :=
  match a with
  | [] => Some (Some ([], [], n, s))
  | [] :: r => try (b, l, n1, s1) <- flush_one cfg E dest (S k) r n s; Some (Some ([] :: b, l, n1, s1))
  | fills :: r =>
    try (x, s1) <- acs_bundle cfg dest k fills (E n) s;
    try (b, l, n1, s2) <- flush_one cfg E dest (S k) r (S n) s1; Some (Some ([] :: b, x :: l, n1, s2))
  end.
Fixpoint flush_map (cfg : ccfg) (E : nat -> env) (m : list (eid * list fset)) (n : nat) (s : cstate)
    : option (option (list (eid * list fset) * list rendered * cstate)) :=
  match m with
  | [] => Some (Some ([], [], s))
  | (dest, a) :: r =>
    try (b, l, n1, s1) <- flush_one cfg E dest 0 a n s;
    try (m', l', s2) <- flush_map cfg E r n1 s1; Some (Some ((dest, b) :: m', l ++ l', s2))
  end.
(** Ctm:97-118 GenerateAllAcsBundlesAndClear. *)
Definition flush (cfg : ccfg) (E : nat -> env) (s : cstate) : option (option (list rendered * cstate)) :=
  try (m, l, s1) <- flush_map cfg E (u_map s) 0 s; Some (Some (l, mkC m (u_last s1) (u_seq s1) 0)).

(** ** Deletion reports *)
(** Ctm:455-523 GenerateBundleDeletionStatusReport; bpv6.h:443-460 and Ctm:520 for the room. *)
Definition report_about (p : prim) (size : N) (time : N * N) : status_report :=
  let f := p_isfrag (p_flags p) in
  mkStatus 16 1 f (if f then p_off p else 0) (if f then size else 0) [(0, 0); (0, 0); (0, 0); (0, 0); time] (p_time p, p_seq p)
    (uri_string (fst (p_src p)) (snd (p_src p))).
Definition report_view (cfg : ccfg) (p : prim) (size now : N) (time : N * N) (q : N) : view :=
  record_view (record_prim cfg (p_flags p) (p_report p) now q) 1 (p_isfrag (p_flags p)) (AStatus (report_about p size time)).
Definition report_room : nat := 175 + 164 + 100.
Definition report (cfg : ccfg) (p : prim) (size : N) (e : env) (s : cstate) : option (option (rendered * cstate)) :=
  let (q, s1) := stamp (e_now e) s in
  try r <- render (report_view cfg p size (e_now e) (e_time e) q) report_room (e_mem e) (e_junk e);
  Some (Some (r, s1)).
