(** Model of module/storage/src/CatalogEntry.cpp and BundleStorageCatalog.cpp. *)
From Coq Require Import NArith List Bool.
From Verif Require Import Base M_CustodyId M_HashMap M_Flq.
Import ListNotations.
Open Scope N_scope.

(** std::map<K,V> with K's operator<: its elements in key order. find; operator[] followed by assignment; erase. *)
Definition smap (K V : Type) := list (K * V).
Definition smap_find {K V} (ltb : K -> K -> bool) (l : smap K V) (k : K) : option V := bucket_find ltb l k.
Definition smap_put {K V} (ltb : K -> K -> bool) (l : smap K V) (k : K) (v : V) : smap K V :=
  match bucket_insert ltb l k v with Some l' => l' | None => bucket_write ltb l k v end.
Definition smap_erase {K V} (ltb : K -> K -> bool) (l : smap K V) (k : K) : smap K V :=
  match bucket_take ltb l k with Some (_, l') => l' | None => l end.

(** What the catalog reads from a PrimaryBlock: final destination, GetPriority (Bpv6: flags >> 7 & 3; Bpv7: 2),
    GetExpirationSeconds, GetSequenceForSecondsScale, HasCustodyFlagSet, HasFragmentationFlagSet, and the uuid fields
    creation, sequence, source, fragment offset. *)
Record prim := mkPrim { p_dest : eid; p_prio : N; p_exp : N; p_sseq : N; p_cust : bool; p_frag : bool;
                        p_sec : N; p_seq : N; p_src : eid; p_off : N }.
(** Bpv6CbhePrimaryBlock.cpp:306-321, Bpv7CbhePrimaryBlock.cpp:503-518 GetCbheBundleUuid(No)FragmentFromPrimary. *)
Definition prim_uuid (p : prim) (payload : N) : uuid := mkUuid (p_sec p) (p_seq p) (p_src p) (p_off p) payload.
Definition prim_uuidnf (p : prim) : uuidnf := mkUuidnf (p_sec p) (p_seq p) (p_src p).

(** ptrUuidKeyInMap points at a key inside one of the two uuid tables; the model keeps the key itself. *)
Inductive ukey := KFrag (u : uuid) | KNoFrag (u : uuidnf).
(** CatalogEntry.h:22-29 catalog_entry_t. *)
Record centry := mkCe { ce_bundle : N; ce_payload : N; ce_segs : list N; ce_dest : eid; ce_enc : N; ce_seq : N; ce_ptr : option ukey }.
(** CatalogEntry.cpp:18-23 default constructor. *)
Definition ce_default : centry := mkCe 0 0 [] (0, 0) 0 0 None.
(** CatalogEntry.cpp:84-98: GetPriorityIndex, GetAbsExpiration, HasCustodyAndFragmentation, HasCustodyAndNonFragmentation. *)
Definition ce_prio (e : centry) : N := N.land (ce_enc e) 3.
Definition ce_exp (e : centry) : N := N.shiftr (ce_enc e) 4.
Definition ce_custfrag (e : centry) : bool := negb (N.land (ce_enc e) 4 =? 0).
Definition ce_custnofrag (e : centry) : bool := negb (N.land (ce_enc e) 8 =? 0).
(** CatalogEntry.cpp:99-121 Init; [mask] is *bundleEidMaskPtr if not NULL; [segs] the chain filled in by the caller. *)
Definition ce_init (p : prim) (bundle payload : N) (segs : list N) (mask : option eid) : centry :=
  let enc0 := N.lor (p_prio p) (N.shiftl (p_exp p) 4 mod W64) in
  let enc := if p_cust p then (if p_frag p then N.lor enc0 4 else N.lor enc0 8) else enc0 in
  mkCe bundle payload segs (match mask with None => p_dest p | Some d => d end) enc (p_sseq p) None.
Definition ce_set_ptr (e : centry) (k : ukey) : centry :=
  mkCe (ce_bundle e) (ce_payload e) (ce_segs e) (ce_dest e) (ce_enc e) (ce_seq e) (Some k).

(** BundleStorageCatalog.h:40-43: per destination an array of three maps from expiration to queue. *)
Definition expmap := smap N (flq N).
Definition destmap := smap eid (list expmap).
(** priorities_to_expirations_array_t: std::array of NUMBER_OF_PRIORITIES = 3 maps. *)
Definition prio_new : list expmap := [[]; []; []].
(** BundleStorageCatalog.h:93-105, the members. *)
Record catalog := mkCat { ct_dest : destmap; ct_frag : hmap uuid N; ct_nofrag : hmap uuidnf N; ct_entry : hmap N centry;
                          ct_num : N; ct_bytes : N; ct_wops : N; ct_wbytes : N; ct_eops : N; ct_ebytes : N }.
Definition cat_new : catalog := mkCat [] hm_empty hm_empty hm_empty 0 0 0 0 0 0.
Definition with_dest (c : catalog) (d : destmap) : catalog :=
  mkCat d (ct_frag c) (ct_nofrag c) (ct_entry c) (ct_num c) (ct_bytes c) (ct_wops c) (ct_wbytes c) (ct_eops c) (ct_ebytes c).
Definition with_frag (c : catalog) (h : hmap uuid N) : catalog :=
  mkCat (ct_dest c) h (ct_nofrag c) (ct_entry c) (ct_num c) (ct_bytes c) (ct_wops c) (ct_wbytes c) (ct_eops c) (ct_ebytes c).
Definition with_nofrag (c : catalog) (h : hmap uuidnf N) : catalog :=
  mkCat (ct_dest c) (ct_frag c) h (ct_entry c) (ct_num c) (ct_bytes c) (ct_wops c) (ct_wbytes c) (ct_eops c) (ct_ebytes c).
(** The hash functions in use (HashMap16BitFixedSize.cpp has two builds for the uuid types). *)
Record hashes := mkHashes { h_frag : uuid -> N; h_nofrag : uuidnf -> N }.
Definition entry_find (c : catalog) (cid : N) : option centry := hm_find N.ltb hash_u64 (ct_entry c) cid.

(** The address of a new node: one that is free in this queue (C30: any such choice gives the same contents). *)
Definition free_addr (q : flq N) : N := fold_right (fun n m => N.max (fst n + 1) m) 1 (q_fl q).
Inductive order := Fifo | Filo | BySeq.

(** BundleStorageCatalog.cpp:55-72, the loop: position of itPrev after before_begin, or None = return false (entry not
    found, or equal sequence). *)
Fixpoint seq_position (c : catalog) (l : list N) (seq : N) : option nat :=
  match l with
  | [] => Some O
  | cid :: r =>
    match entry_find c cid with
    | None => None
    | Some e => if seq <? ce_seq e then Some O
                else if ce_seq e <? seq then match seq_position c r seq with Some k => Some (S k) | None => None end
                else None
    end
  end.
(** BundleStorageCatalog.cpp:32-77 Insert_OrderBySequence; outer None = undefined behaviour. *)
Definition insert_by_sequence (c : catalog) (q : flq N) (cid seq : N) : option (flq N * bool) :=
  if flq_is_empty q then Some (flq_push_front q (free_addr q) cid, true)
  else match flq_back q with
       | None => None
       | Some lastcid =>
         match entry_find c lastcid with
         | None => Some (q, false)
         | Some le =>
           if ce_seq le <? seq then match flq_push_back q (free_addr q) cid with Some q' => Some (q', true) | None => None end
           else match seq_position c (flq_contents q) seq with
                | None => Some (q, false)
                | Some k => match flq_emplace_at q k (free_addr q) cid with Some q' => Some (q', true) | None => None end
                end
         end
       end.
(** BundleStorageCatalog.cpp:79-86 Insert_OrderByFifo, Insert_OrderByFilo and the dispatch of 129-142. *)
Definition queue_insert (c : catalog) (q : flq N) (cid seq : N) (o : order) : option (flq N * bool) :=
  match o with
  | BySeq => insert_by_sequence c q cid seq
  | Fifo => match flq_push_back q (free_addr q) cid with Some q' => Some (q', true) | None => None end
  | Filo => Some (flq_push_front q (free_addr q) cid, true)
  end.

(** std::array operator[] out of range is undefined: None. *)
Fixpoint set_nth {A} (l : list A) (n : nat) (x : A) : list A :=
  match l, n with
  | [], _ => []
  | _ :: r, O => x :: r
  | y :: r, S n' => y :: set_nth r n' x
  end.
(** BundleStorageCatalog.cpp:125-143 AddEntryToAwaitingSend. *)
Definition add_awaiting (c : catalog) (e : centry) (cid : N) (o : order) : option (catalog * bool) :=
  let arr := match smap_find eid_ltb (ct_dest c) (ce_dest e) with Some a => a | None => prio_new end in
  match nth_error arr (N.to_nat (ce_prio e)) with
  | None => None
  | Some em =>
    let q := match smap_find N.ltb em (ce_exp e) with Some q => q | None => flq_empty end in
    match queue_insert c q cid (ce_seq e) o with
    | None => None
    | Some (q', b) =>
      let em' := smap_put N.ltb em (ce_exp e) q' in
      Some (with_dest c (smap_put eid_ltb (ct_dest c) (ce_dest e) (set_nth arr (N.to_nat (ce_prio e)) em')), b)
    end
  end.

(** BundleStorageCatalog.cpp:91-124 CatalogIncomingBundleForStore. *)
Definition catalog_incoming (hf : hashes) (c : catalog) (e : centry) (p : prim) (cid : N) (o : order) : option (catalog * bool) :=
  let keyed :=
    if p_cust p then
      if p_frag p then
        let u := prim_uuid p (ce_payload e) in
        let '(h, ok) := hm_insert uuid_ltb (h_frag hf) (ct_frag c) u cid in
        if ok then Some (with_frag c h, ce_set_ptr e (KFrag u)) else None
      else
        let u := prim_uuidnf p in
        let '(h, ok) := hm_insert uuidnf_ltb (h_nofrag hf) (ct_nofrag c) u cid in
        if ok then Some (with_nofrag c h, ce_set_ptr e (KNoFrag u)) else None
    else Some (c, e) in
  match keyed with
  | None => Some (c, false)
  | Some (c1, e1) =>
    match add_awaiting c1 e1 cid o with
    | None => None
    | Some (c2, false) => Some (c2, false)
    | Some (c2, true) =>
      let '(h, ok) := hm_insert N.ltb hash_u64 (ct_entry c2) cid e1 in
      if ok then
        Some (mkCat (ct_dest c2) (ct_frag c2) (ct_nofrag c2) h (add64 (ct_num c2) 1) (add64 (ct_bytes c2) (ce_bundle e1))
                    (add64 (ct_wops c2) 1) (add64 (ct_wbytes c2) (ce_bundle e1)) (ct_eops c2) (ct_ebytes c2), true)
      else Some (c2, false)
    end
  end.
(** Line 144-147 ReturnEntryToAwaitingSend. *)
Definition return_awaiting (c : catalog) (e : centry) (cid : N) : option (catalog * bool) := add_awaiting c e cid Filo.

(** BundleStorageCatalog.cpp:148-165 RemoveEntryFromAwaitingSend. *)
Definition remove_awaiting (c : catalog) (e : centry) (cid : N) : option (catalog * bool) :=
  match smap_find eid_ltb (ct_dest c) (ce_dest e) with
  | None => Some (c, false)
  | Some arr =>
    match nth_error arr (N.to_nat (ce_prio e)) with
    | None => None
    | Some em =>
      match smap_find N.ltb em (ce_exp e) with
      | None => Some (c, false)
      | Some q =>
        let '(q', removed) := flq_remove N.eqb q cid in
        let em' := if flq_is_empty q' then smap_erase N.ltb em (ce_exp e) else smap_put N.ltb em (ce_exp e) q' in
        Some (with_dest c (smap_put eid_ltb (ct_dest c) (ce_dest e) (set_nth arr (N.to_nat (ce_prio e)) em')), removed)
      end
    end
  end.

(** The destinations a pop looks at, as keys of m_destEidToPrioritiesMap.
    Lines 167-179: listed endpoint ids that are present. *)
Definition resolve_eids (c : catalog) (l : list eid) : list eid :=
  filter (fun d => match smap_find eid_ltb (ct_dest c) d with Some _ => true | None => false end) l.
(** Lines 188-196 = 208-217: from lower_bound((node, 0)) while the node number is the same. *)
Fixpoint skip_lower {V} (l : smap eid V) (k : eid) : smap eid V :=
  match l with [] => [] | (k', v) :: r => if eid_ltb k' k then skip_lower r k else l end.
Fixpoint take_node {V} (l : smap eid V) (node : N) : list eid :=
  match l with [] => [] | (k, _) :: r => if fst k =? node then k :: take_node r node else [] end.
Definition resolve_node (c : catalog) (node : N) : list eid := take_node (skip_lower (ct_dest c) (node, 0)) node.
(** Lines 182-199. *)
Definition resolve_nodes (c : catalog) (l : list N) : list eid := flat_map (resolve_node c) l.
(** Lines 202-228: pairs of endpoint id and "any service". *)
Definition resolve_pairs (c : catalog) (l : list (eid * bool)) : list eid :=
  flat_map (fun p : eid * bool => if snd p then resolve_node c (fst (fst p)) else resolve_eids c [fst p]) l.

(** BundleStorageCatalog.cpp:235-253, the loop over destinations at priority [i]: lowestExpiration and the choice. Undefined
    (None) cannot be represented here: [i] is 2, 1 or 0 and arrays have three elements (absent = empty map). *)
Definition first_exp (c : catalog) (d : eid) (i : nat) : option N :=
  match smap_find eid_ltb (ct_dest c) d with
  | None => None
  | Some arr => match nth_error arr i with Some ((x, _) :: _) => Some x | _ => None end
  end.
Fixpoint scan_dests (c : catalog) (i : nat) (ds : list eid) (lowest : N) (best : option (eid * N)) : option (eid * N) :=
  match ds with
  | [] => best
  | d :: r =>
    match first_exp c d i with
    | Some x => if x <? lowest then scan_dests c i r x (Some (d, x)) else scan_dests c i r lowest best
    | None => scan_dests c i r lowest best
    end
  end.
(** Lines 254-260: front, pop, erase the queue if empty. Outer None = undefined. *)
Definition pop_at (c : catalog) (i : nat) (d : eid) (x : N) : option (catalog * N) :=
  match smap_find eid_ltb (ct_dest c) d with
  | None => None
  | Some arr =>
    match nth_error arr i with
    | None => None
    | Some em =>
      match smap_find N.ltb em x with
      | None => None
      | Some q =>
        match flq_front q, flq_pop q with
        | Some cid, Some q' =>
          let em' := if flq_is_empty q' then smap_erase N.ltb em x else smap_put N.ltb em x q' in
          Some (with_dest c (smap_put eid_ltb (ct_dest c) d (set_nth arr i em')), cid)
        | _, _ => None
        end
      end
    end
  end.
(** Lines 229-266, the loop over priorities 2, 1, 0. The result: the custody id written to the out parameter and the
    entry pointer (None = NULL); [Some (c, None)] when nothing was popped. *)
Fixpoint pop_prios (c : catalog) (ds : list eid) (is : list nat) : option (catalog * option (N * option centry)) :=
  match is with
  | [] => Some (c, None)
  | i :: r =>
    match scan_dests c i ds U64MAX None with
    | Some (d, x) => match pop_at c i d x with
                     | Some (c', cid) => Some (c', Some (cid, entry_find c' cid))
                     | None => None
                     end
    | None => pop_prios c ds r
    end
  end.
Definition pop_resolved (c : catalog) (ds : list eid) := pop_prios c ds [2%nat; 1%nat; 0%nat].
Definition pop_by_eids (c : catalog) (l : list eid) := pop_resolved c (resolve_eids c l).
Definition pop_by_nodes (c : catalog) (l : list N) := pop_resolved c (resolve_nodes c l).
Definition pop_by_pairs (c : catalog) (l : list (eid * bool)) := pop_resolved c (resolve_pairs c l).

(** BundleStorageCatalog.cpp:293-318: dereferencing the uuid pointer and removing that key. A key no longer in the table
    is a dangling pointer: None. Result: the table, error flag and number of removals. *)
Definition drop_frag (hf : hashes) (c : catalog) (e : centry) (cid : N) : option (catalog * bool * N) :=
  if ce_custfrag e then
    match ce_ptr e with
    | Some (KFrag u) =>
      match hm_take uuid_ltb (h_frag hf) (ct_frag c) u with
      | (h, Some x) => Some (with_frag c h, negb (x =? cid), 1)
      | (_, None) => None
      end
    | Some (KNoFrag _) => None
    | None => Some (c, true, 0)
    end
  else Some (c, false, 0).
Definition drop_nofrag (hf : hashes) (c : catalog) (e : centry) (cid : N) : option (catalog * bool * N) :=
  if ce_custnofrag e then
    match ce_ptr e with
    | Some (KNoFrag u) =>
      match hm_take uuidnf_ltb (h_nofrag hf) (ct_nofrag c) u with
      | (h, Some x) => Some (with_nofrag c h, negb (x =? cid), 1)
      | (_, None) => None
      end
    | Some (KFrag _) => None
    | None => Some (c, true, 0)
    end
  else Some (c, false, 0).
(** BundleStorageCatalog.cpp:271-321 Remove(custodyId, alsoNeedsRemovedFromAwaitingSend): (success, number of removals). *)
Definition cat_remove (hf : hashes) (c : catalog) (cid : N) (also : bool) : option (catalog * (bool * N)) :=
  let '(h, found) := hm_take N.ltb hash_u64 (ct_entry c) cid in
  let c1 := match found with
            | Some e => mkCat (ct_dest c) (ct_frag c) (ct_nofrag c) h (sub64 (ct_num c) 1) (sub64 (ct_bytes c) (ce_bundle e))
                              (ct_wops c) (ct_wbytes c) (add64 (ct_eops c) 1) (add64 (ct_ebytes c) (ce_bundle e))
            | None => c
            end in
  let e := match found with Some e => e | None => ce_default end in
  let err0 := match found with Some _ => false | None => true end in
  let n0 := match found with Some _ => 1 | None => 0 end in
  match (if negb err0 && also then
           match remove_awaiting c1 e cid with
           | Some (c2, true) => Some (c2, err0, n0 + 1)
           | Some (c2, false) => Some (c2, true, n0)
           | None => None
           end
         else Some (c1, err0, n0)) with
  | None => None
  | Some (c2, err2, n2) =>
    match drop_frag hf c2 e cid with
    | None => None
    | Some (c3, err3, n3) =>
      match drop_nofrag hf c3 e cid with
      | None => None
      | Some (c4, err4, n4) => Some (c4, (negb (err2 || err3 || err4), n2 + n3 + n4))
      end
    end
  end.
(** Lines 322-330: GetEntryFromCustodyId is [entry_find]; GetCustodyIdFromUuid for the two uuid types. *)
Definition cid_of_uuid (hf : hashes) (c : catalog) (k : ukey) : option N :=
  match k with
  | KFrag u => hm_find uuid_ltb (h_frag hf) (ct_frag c) u
  | KNoFrag u => hm_find uuidnf_ltb (h_nofrag hf) (ct_nofrag c) u
  end.

(** BundleStorageCatalog.cpp:332-359 GetExpiredBundleIds. [expired_in]: one expiration map up to the break; the early
    return at maxNumberToFind keeps the first elements. *)
Fixpoint expired_in (em : expmap) (expiry : N) : list N :=
  match em with
  | [] => []
  | (x, q) :: r => if x <=? expiry then flq_contents q ++ expired_in r expiry else []
  end.
Definition expired_at (c : catalog) (i : nat) (expiry : N) : list N :=
  flat_map (fun p : eid * list expmap => match nth_error (snd p) i with Some em => expired_in em expiry | None => [] end) (ct_dest c).
Definition get_expired (c : catalog) (expiry maxn : N) : list N :=
  let all := expired_at c 0 expiry ++ expired_at c 1 expiry ++ expired_at c 2 expiry in
  if maxn =? 0 then all else firstn (N.to_nat maxn) all.

(** BundleStorageManagerBase.cpp:297-302 ReturnCustodyIdToAwaitingSend (and 293-295 ReturnTop, whose entry pointer came
    from a pop). *)
Definition return_cid (c : catalog) (cid : N) : option (catalog * bool) :=
  match entry_find c cid with Some e => return_awaiting c e cid | None => Some (c, false) end.
(** BundleStorageManagerBase.cpp:425-441 RemoveBundleFromDisk and 442-489 RemoveReadBundleFromDisk: their effect on the
    catalog (disk and allocator effects are modelled elsewhere). *)
Definition remove_read (hf : hashes) (c : catalog) (cid : N) : option (catalog * bool) :=
  match entry_find c cid with
  | None => Some (c, false)
  | Some _ => match cat_remove hf c cid false with Some (c', (b, _)) => Some (c', b) | None => None end
  end.
Definition remove_any (hf : hashes) (c : catalog) (cid : N) : option (catalog * bool) :=
  match entry_find c cid with
  | None => Some (c, false)
  | Some e => match remove_awaiting c e cid with
              | Some (c1, _) => match cat_remove hf c1 cid false with Some (c', (b, _)) => Some (c', b) | None => None end
              | None => None
              end
  end.
