(** Model of module/storage/src/ZmqStorageInterface.cpp (Zsi below): the event loop between ingress, egress, the router and the disk.
    One thread; each event of ThreadFunc (Zsi:1251-1710) is one step, DoSendBundles (Zsi:1724-1771) is another. Finer than the code,
    where a round handles at most one event per socket and then sends. The catalog, the custody ids and the custody timers are the lists
    of C16/C17, C18 and C19; which waiting bundle is released is a parameter. Not modelled: the bytes of bundles (a bundle is a number with
    what the code reads of it), the disk (C20; a write succeeds or fails), the generation of custody signals and status reports (what they
    contain is the environment's choice), Init, Stop, the sockets (a send succeeds or fails as a whole), the telemetry counters and
    requests, wrong-sized messages, the depleted storage report, restored bundles (the disk starts empty). PopTop tells
    a bundle of size 0 from none by its size; sizes are not 0. *)
From Coq Require Import NArith List Bool.
From Verif Require Import Base M_CustodyId.
Import ListNotations.
Open Scope N_scope.

(** ** Bundles *)
(** Its contents, size, destination, custody and priority flags, expiration; [b_bad]: LoadBundle fails or the version is unknown. *)
Record bundle := mkB { b_tag : N; b_size : N; b_dest : eid; b_cust : bool; b_prio : N; b_exp : N; b_bad : bool }.
(** bundleEidMaskPtr (CatalogEntry.cpp:99-121, see M_Catalog.ce_init). *)
Definition masked (mask : option eid) (b : bundle) : bundle :=
  match mask with None => b | Some d => mkB (b_tag b) (b_size b) d (b_cust b) (b_prio b) (b_exp b) (b_bad b) end.
(** What Write finds when it loads a whole BPv6 bundle (Zsi:771-821): nothing special; too large, with its fragments (Zsi:800-817); custody
    requested, with what is to be stored (the bundle or its fragments) and the custody signal that goes to disk if signals are not aggregated
    (Zsi:632-735); an administrative record for this node (Zsi:475-611): an aggregate signal with its ranges of ids, a custody signal with
    the id its uuid leads to, or one that is of no use. *)
Inductive content := Whole | Parts (l : list bundle) | Custody (l : list bundle) (signal : option bundle) | Acs (l : list (N * N))
  | Signal (cid : option N) | Useless.

(** ** Links *)
(** Zsi:55-64 CutThroughQueueData: bundleToEgress, finalDestEid, ingressUniqueId; the ack carries the same id. *)
Record queued := mkQ { q_b : bundle; q_dest : eid; q_id : N }.
(** Zsi:76-103 OutductInfo_t: halfOfMaxBundlesInPipeline..., halfOfMaxBundleSizeBytesInPipeline..., outductIndex, nextHopNodeId, linkIsUp,
    stateTryCutThrough, eidVec, mapOpenCustodyIdToBundleSizeBytes, mapIngressUniqueIdToIngressAckData (id to size),
    cutThroughQueue, bytesInPipeline. *)
Record link := mkLink { k_max : N; k_maxb : N; k_idx : N; k_hop : N; k_up : bool; k_try : bool; k_dests : list (eid * bool);
  k_open : list (N * N); k_acks : list (N * N); k_queue : list queued; k_bytes : N }.
Definition new_link : link := mkLink 0 0 0 0 false false [] [] [] [] 0.
Definition set_up (up : bool) (k : link) : link :=
  mkLink (k_max k) (k_maxb k) (k_idx k) (k_hop k) up (k_try k) (k_dests k) (k_open k) (k_acks k) (k_queue k) (k_bytes k).
Definition set_try (try : bool) (k : link) : link :=
  mkLink (k_max k) (k_maxb k) (k_idx k) (k_hop k) (k_up k) try (k_dests k) (k_open k) (k_acks k) (k_queue k) (k_bytes k).
Definition set_queue (q : list queued) (k : link) : link :=
  mkLink (k_max k) (k_maxb k) (k_idx k) (k_hop k) (k_up k) (k_try k) (k_dests k) (k_open k) (k_acks k) q (k_bytes k).
Definition set_pipe (o a : list (N * N)) (bytes : N) (k : link) : link :=
  mkLink (k_max k) (k_maxb k) (k_idx k) (k_hop k) (k_up k) (k_try k) (k_dests k) o a (k_queue k) bytes.
(** unordered_map: find, erase; emplace is used only where the key is absent. *)
Definition find_id (id : N) (m : list (N * N)) : option N :=
  match find (fun e => fst e =? id) m with Some e => Some (snd e) | None => None end.
Definition erase_id (id : N) (m : list (N * N)) : list (N * N) := filter (fun e => negb (fst e =? id)) m.
(** A raw pointer to an OutductInfo_t: element of m_vectorOutductInfo or of m_mapOpportunisticNextHopNodeIdToOutductInfo. *)
Inductive ref := RVec (i : nat) | ROpp (node : N).

(** ** The disk *)
(** Stored bundles by custody id, those waiting to be sent (first to be sent first within a class, C16), custody ids in use, running
    custody timers (id, destination), m_custodyIdsWaitingTimerStart, and, not program state: an id not in use was freed, so that C18 no
    longer says that ids are not issued twice. *)
Record store := mkStore { d_ent : list (N * bundle); d_wait : list (N * bundle); d_used : list N; d_time : list (N * eid);
  d_start : list N; d_broken : bool }.
Definition mem (x : N) (l : list N) : bool := existsb (N.eqb x) l.
Definition drop (x : N) (l : list N) : list N := filter (fun y => negb (y =? x)) l.
Definition find_b (cid : N) (l : list (N * bundle)) : option bundle :=
  match find (fun e => fst e =? cid) l with Some e => Some (snd e) | None => None end.
Definition erase_b (cid : N) (l : list (N * bundle)) : list (N * bundle) := filter (fun e => negb (fst e =? cid)) l.
Definition has_timer (cid : N) (l : list (N * eid)) : bool := existsb (fun e => fst e =? cid) l.
Definition erase_t (cid : N) (l : list (N * eid)) : list (N * eid) := filter (fun e => negb (fst e =? cid)) l.

(** ** Messages *)
(** hdtn::ToEgressHdr with its bundle. *)
Record emsg := mkE { e_b : bundle; e_cut : bool; e_cid : N; e_idx : N; e_hop : N; e_dest : eid; e_custody : bool }.
(** hdtn::StorageAckHdr: ingressUniqueId, outductIndex, error. *)
Record amsg := mkA { a_id : N; a_idx : N; a_err : bool }.
(** hdtn::ToStorageHdr. *)
Record smsg := mkS { s_id : N; s_idx : N; s_dont : bool; s_special : bool; s_dest : eid }.
Inductive eerror := NoError | LinkDown | NoOutduct.
(** hdtn::EgressAckHdr, HDTN_MSGTYPE_EGRESS_ACK_TO_STORAGE. *)
Record eack := mkEA { x_cut : bool; x_cid : N; x_idx : N; x_hop : N; x_dest : eid; x_delete : bool; x_err : eerror }.
(** OutductCapabilityTelemetry_t. *)
Record outduct := mkOutduct { t_idx : N; t_max : N; t_maxb : N; t_hop : N; t_eids : list eid; t_nodes : list N }.

(** ** The state *)
(** m_vectorOutductInfo, m_mapOpportunisticNextHopNodeIdToOutductInfo (in key order), m_vectorUpLinksOutductInfoPtrs,
    m_lastIndexToUpLinkVectorOutductInfoRoundRobin, egressFullyInitialized, mapOuductArrayIndexToPendingLinkChangeEvent, the disk,
    timeoutPoll; everything sent to egress and ingress. Not program state: [g_lost] acks that never reach ingress; [g_ids], [g_bits], [g_reads]
    what the environment decides in the current step: ids to issue, whether a write or send succeeds, whether a read succeeds (true when
    there are no more). *)
Record state := mkState { g_vec : list link; g_opp : list (N * link); g_ptrs : list ref; g_rr : nat; g_init : bool; g_pend : list (N * bool);
  g_disk : store; g_poll : N; g_egress : list emsg; g_ingress : list amsg; g_lost : list amsg; g_ids : list N; g_bits : list bool;
  g_reads : list bool }.
Definition start : state := mkState [] [] [] 0 false [] (mkStore [] [] [] [] [] false) 250 [] [] [] [] [] [].
(** m_enforceBundlePriority, m_maxBundleSizeBytes; PopEntryFromAwaitingSend: the position of the bundle to release, if any. *)
Record config := mkConfig { c_priority : bool; c_max : N; c_pick : list (eid * bool) -> list (N * bundle) -> option nat }.

Definition with_links (s : state) (v : list link) (o : list (N * link)) : state :=
  mkState v o (g_ptrs s) (g_rr s) (g_init s) (g_pend s) (g_disk s) (g_poll s) (g_egress s) (g_ingress s) (g_lost s) (g_ids s) (g_bits s) (g_reads s).
Definition with_ptrs (s : state) (p : list ref) : state :=
  mkState (g_vec s) (g_opp s) p (g_rr s) (g_init s) (g_pend s) (g_disk s) (g_poll s) (g_egress s) (g_ingress s) (g_lost s) (g_ids s) (g_bits s) (g_reads s).
Definition with_rr (s : state) (n : nat) : state :=
  mkState (g_vec s) (g_opp s) (g_ptrs s) n (g_init s) (g_pend s) (g_disk s) (g_poll s) (g_egress s) (g_ingress s) (g_lost s) (g_ids s) (g_bits s) (g_reads s).
Definition with_init (s : state) (i : bool) (p : list (N * bool)) : state :=
  mkState (g_vec s) (g_opp s) (g_ptrs s) (g_rr s) i p (g_disk s) (g_poll s) (g_egress s) (g_ingress s) (g_lost s) (g_ids s) (g_bits s) (g_reads s).
Definition with_disk (s : state) (d : store) : state :=
  mkState (g_vec s) (g_opp s) (g_ptrs s) (g_rr s) (g_init s) (g_pend s) d (g_poll s) (g_egress s) (g_ingress s) (g_lost s) (g_ids s) (g_bits s) (g_reads s).
Definition with_poll (s : state) (n : N) : state :=
  mkState (g_vec s) (g_opp s) (g_ptrs s) (g_rr s) (g_init s) (g_pend s) (g_disk s) n (g_egress s) (g_ingress s) (g_lost s) (g_ids s) (g_bits s) (g_reads s).
Definition with_out (s : state) (e : list emsg) (i l : list amsg) : state :=
  mkState (g_vec s) (g_opp s) (g_ptrs s) (g_rr s) (g_init s) (g_pend s) (g_disk s) (g_poll s) e i l (g_ids s) (g_bits s) (g_reads s).
Definition with_oracle (s : state) (i : list N) (b r : list bool) : state :=
  mkState (g_vec s) (g_opp s) (g_ptrs s) (g_rr s) (g_init s) (g_pend s) (g_disk s) (g_poll s) (g_egress s) (g_ingress s) (g_lost s) i b r.
Fixpoint set_nth {A} (n : nat) (x : A) (l : list A) : list A :=
  match l, n with [], _ => [] | _ :: r, O => x :: r | y :: r, S n => y :: set_nth n x r end.
(** std::map in key order: find, assignment to an element, try_emplace, erase. *)
Definition opp_find (n : N) (l : list (N * link)) : option link :=
  match find (fun e => fst e =? n) l with Some e => Some (snd e) | None => None end.
Definition opp_put (n : N) (k : link) (l : list (N * link)) : list (N * link) := map (fun e => if fst e =? n then (n, k) else e) l.
Fixpoint opp_insert (n : N) (k : link) (l : list (N * link)) : list (N * link) :=
  match l with [] => [(n, k)] | e :: r => if n <? fst e then (n, k) :: l else e :: opp_insert n k r end.
Definition opp_erase (n : N) (l : list (N * link)) : list (N * link) := filter (fun e => negb (fst e =? n)) l.
(** Following a pointer; None = it dangles. *)
Definition get_link (s : state) (r : ref) : option link :=
  match r with RVec i => nth_error (g_vec s) i | ROpp n => opp_find n (g_opp s) end.
Definition put_link (s : state) (r : ref) (k : link) : state :=
  match r with RVec i => with_links s (set_nth i k (g_vec s)) (g_opp s) | ROpp n => with_links s (g_vec s) (opp_put n k (g_opp s)) end.
(** outductIndex in an ack to ingress: the position of the link, where the bundle was queued (Zsi:1594-1602). *)
Definition ref_idx (r : ref) : N := match r with RVec i => N.of_nat i | ROpp _ => U64MAX end.
(** m_vectorOutductInfo[i]; None = out of bounds. *)
Definition vec_ref (s : state) (i : N) : option ref := if i <? N.of_nat (length (g_vec s)) then Some (RVec (N.to_nat i)) else None.

(** ** What the environment decides *)
Definition bit (s : state) : bool * state :=
  match g_bits s with [] => (true, s) | b :: r => (b, with_oracle s (g_ids s) r (g_reads s)) end.
Definition read_bit (s : state) : bool * state :=
  match g_reads s with [] => (true, s) | b :: r => (b, with_oracle s (g_ids s) (g_bits s) r) end.
(** GetNextCustodyIdForNextHopCtebToSend (C18): an id not in use, as long as only ids in use are freed; the one the environment asks for
    if possible. *)
Definition open_of (l : list link) : list N := flat_map (fun k => map fst (k_open k)) l.
Definition open_ids (s : state) : list N := open_of (g_vec s) ++ open_of (map snd (g_opp s)).
Definition above (l : list N) : N := fold_right (fun x m => N.max (x + 1) m) 0 l.
Definition alloc (s : state) : N * state :=
  let d := g_disk s in
  let '(id, r) := match g_ids s with
                  | [] => (above (d_used d ++ open_ids s), [])
                  | i :: r => if mem i (d_used d) && negb (d_broken d) then (above (d_used d ++ open_ids s), r) else (i, r)
                  end in
  (id, with_oracle (with_disk s (mkStore (d_ent d) (d_wait d) (id :: drop id (d_used d)) (d_time d) (d_start d) (d_broken d))) r (g_bits s) (g_reads s)).

(** ** Writing *)
(** Zsi:844-888 WriteBundle (and Zsi:425-449) with the id from [alloc]; the flag tells whether it was written. A custody id that is on disk
    already is outside the contract of the catalog (C17): None. *)
Definition write_one (b : bundle) (s : state) : option (state * bool) :=
  let (id, s1) := alloc s in
  let (ok, s2) := bit s1 in
  let d := g_disk s2 in
  if negb ok then Some (s2, false)
  else match find_b id (d_ent d) with
       | Some _ => None
       | None => Some (with_disk s2 (mkStore ((id, b) :: d_ent d) (d_wait d ++ [(id, b)]) (d_used d) (d_time d) (d_start d) (d_broken d)), true)
       end.
(** Zsi:809-816: after a failure ids are still issued and nothing is written (ret && ...). *)
Fixpoint write_parts (go : bool) (l : list bundle) (s : state) : option state :=
  match l with
  | [] => Some s
  | b :: r => if go then match write_one b s with None => None | Some (s1, ok) => write_parts ok r s1 end
              else write_parts false r (snd (alloc s))
  end.
(** Zsi:673-706: up to the first failure; the ids written. *)
Fixpoint write_custody (mask : option eid) (l : list bundle) (s : state) : option (state * list N) :=
  match l with
  | [] => Some (s, [])
  | b :: r =>
    let id := fst (alloc s) in
    match write_one (masked mask b) s with
    | None => None
    | Some (s1, false) => Some (s1, [])
    | Some (s1, true) => match write_custody mask r s1 with None => None | Some (s2, ids) => Some (s2, id :: ids) end
    end
  end.
(** FreeCustodyId. *)
Definition free (cid : N) (d : store) : store :=
  mkStore (d_ent d) (d_wait d) (drop cid (d_used d)) (d_time d) (d_start d) (d_broken d || negb (mem cid (d_used d))).
(** FreeCustodyIdRange. *)
Definition in_range (r : N * N) (x : N) : bool := (fst r <=? x) && (x <=? snd r).
Definition free_range (r : N * N) (d : store) : store :=
  mkStore (d_ent d) (d_wait d) (filter (fun x => negb (in_range r x)) (d_used d)) (d_time d) (d_start d)
    (d_broken d || negb (N.of_nat (length (nodup N.eq_dec (filter (in_range r) (d_used d)))) =? snd r + 1 - fst r)).
(** RemoveBundleFromDisk (BundleStorageManagerBase.cpp:425-441). *)
Definition remove_any (cid : N) (d : store) : store :=
  mkStore (erase_b cid (d_ent d)) (erase_b cid (d_wait d)) (d_used d) (d_time d) (d_start d) (d_broken d).
(** CancelCustodyTransferTimer with the destination of the bundle. *)
Definition cancel (cid : N) (d : store) : store :=
  mkStore (d_ent d) (d_wait d) (d_used d) (erase_t cid (d_time d)) (d_start d) (d_broken d).
Definition no_start (cid : N) (d : store) : store :=
  mkStore (d_ent d) (d_wait d) (d_used d) (d_time d) (drop cid (d_start d)) (d_broken d).
(** Zsi:523-533, 592-602: a custody signal names a stored bundle. *)
Definition signalled (cid : N) (d : store) : store :=
  remove_any cid (if mem cid (d_start d) then no_start cid d else cancel cid d).
(** Zsi:514-536. The loop over the ids of a range does something for stored ones only; it does not end if the range ends at UINT64_MAX. *)
Fixpoint acs (l : list (N * N)) (d : store) : option store :=
  match l with
  | [] => Some d
  | r :: t => if snd r =? U64MAX then None
              else acs t (fold_left (fun d cid => signalled cid d) (filter (in_range r) (map fst (d_ent d))) (free_range r d))
  end.
Fixpoint remove_all (ids : list N) (d : store) : store := match ids with [] => d | i :: r => remove_all r (remove_any i (free i d)) end.
(** Zsi:746-842 Write, whose result no caller looks at. [special]: not isCertainThatThisBundleHasNoCustodyOrIsNotAdminRecord. *)
Definition write (b : bundle) (c : content) (special : bool) (mask : option eid) (s : state) : option state :=
  let whole := match write_one (masked mask b) s with None => None | Some (s1, _) => Some s1 end in
  if b_bad b then Some s
  else if negb special then whole
  else match c with
       | Whole => whole
       | Parts l => write_parts true l s
       | Custody l signal =>
         let (readable, s0) := bit s in                             (* GetCustodyInfo, Fragment *)
         match write_custody mask (if readable then l else []) s0 with
         | None => None
         | Some (s1, ids) =>
           let (made, s2) := bit s1 in                              (* GenerateCustodySignal *)
           match made, signal with
           | true, Some g => match write_one g s2 with
                             | None => None
                             | Some (s3, true) => Some s3
                             | Some (s3, false) => Some (with_disk s3 (remove_all ids (g_disk s3)))
                             end
           | _, _ => Some s2
           end
         end
       | Acs l => match acs l (g_disk s) with None => None | Some d => Some (with_disk s d) end
       | Signal (Some cid) => Some (with_disk s (match find_b cid (d_ent (g_disk s)) with
                                                 | None => free cid (g_disk s)
                                                 | Some _ => signalled cid (free cid (g_disk s)) end))
       | Signal None | Useless => Some s
       end.

(** ** Acks to ingress, links up and down *)
Definition ack_ingress (m : amsg) (s : state) : state :=
  let (ok, s1) := bit s in
  if ok then with_out s1 (g_egress s1) (g_ingress s1 ++ [m]) (g_lost s1) else with_out s1 (g_egress s1) (g_ingress s1) (g_lost s1 ++ [m]).
(** Zsi:998-1014 RepopulateUpLinksVec. *)
Fixpoint up_vec (n : nat) (l : list link) : list ref :=
  match l with [] => [] | k :: r => if k_up k then RVec n :: up_vec (S n) r else up_vec (S n) r end.
Definition up_opp (l : list (N * link)) : list ref := flat_map (fun e => if k_up (snd e) then [ROpp (fst e)] else []) l.
Definition repopulate (s : state) : state := with_ptrs s (up_vec 0 (g_vec s) ++ up_opp (g_opp s)).
(** Zsi:1032-1042: the queue goes to disk. *)
Fixpoint dump (idx : N) (q : list queued) (s : state) : option state :=
  match q with
  | [] => Some s
  | x :: r => match write (q_b x) Whole false None s with
              | None => None
              | Some s1 => dump idx r (ack_ingress (mkA (q_id x) idx true) s1)
              end
  end.
(** Zsi:1026-1047 SetLinkDown. *)
Definition link_down (r : ref) (s : state) : option state :=
  match get_link s r with
  | None => None
  | Some k =>
    if k_up k then
      match dump (ref_idx r) (k_queue k) (put_link s r (set_queue [] (set_up false k))) with None => None | Some s1 => Some (repopulate s1) end
    else Some s
  end.

(** ** Messages from egress *)
(** Zsi:1272-1290. *)
Definition ack_link (x : eack) (s : state) : option (option ref) :=
  if x_idx x =? U64MAX then Some (match opp_find (x_hop x) (g_opp s) with Some _ => Some (ROpp (x_hop x)) | None => None end)
  else match vec_ref s (x_idx x) with None => None | Some r => Some (Some r) end.
Definition is_down (e : eerror) : bool := match e with LinkDown => true | _ => false end.
Definition is_error (e : eerror) : bool := match e with NoError => false | _ => true end.
(** ReturnCustodyIdToAwaitingSend. Giving back a bundle that waits is outside the contract of the catalog (C17): None. *)
Definition give_back (cid : N) (d : store) : option store :=
  match find_b cid (d_ent d) with
  | None => Some d
  | Some b => match find_b cid (d_wait d) with
              | Some _ => None
              | None => Some (mkStore (d_ent d) ((cid, b) :: d_wait d) (d_used d) (d_time d) (d_start d) (d_broken d))
              end
  end.
(** RemoveReadBundleFromDisk; removing one that waits: None, as above. *)
Definition remove_read (cid : N) (d : store) : option store :=
  match find_b cid (d_ent d), find_b cid (d_wait d) with
  | None, _ => Some d
  | Some _, Some _ => None
  | Some _, None => Some (mkStore (erase_b cid (d_ent d)) (d_wait d) (d_used d) (d_time d) (d_start d) (d_broken d))
  end.
(** Zsi:1293-1337, the answer for a cut-through bundle; [b] is the bundle that comes back with an error. *)
Definition ack_cut (x : eack) (b : bundle) (r : ref) (s : state) : option state :=
  match get_link s r with
  | None => None
  | Some k =>
    match find_id (x_cid x) (k_acks k) with
    | None => Some s
    | Some size =>
      match (if is_error (x_err x) then
               match write b Whole false None s with
               | None => None
               | Some s1 => if is_down (x_err x) then link_down r s1 else Some s1
               end
             else Some s) with
      | None => None
      | Some s1 =>
        let s2 := ack_ingress (mkA (x_cid x) (ref_idx r) (is_error (x_err x))) s1 in
        match get_link s2 r with
        | None => None
        | Some k2 => Some (put_link s2 r (set_pipe (k_open k2) (erase_id (x_cid x) (k_acks k2)) (sub64 (k_bytes k2) size) k2))
        end
      end
    end
  end.
(** Zsi:1338-1408, the answer for a bundle read from disk. The timer of Zsi:1365 is cancelled with the destination in the ack. *)
Definition ack_read (x : eack) (r : ref) (s : state) : option state :=
  match get_link s r with
  | None => None
  | Some k =>
    match (match find_id (x_cid x) (k_open k) with
           | None => Some s
           | Some size =>
             match (if is_error (x_err x) then
                      match (if is_down (x_err x) then link_down r s else Some s) with
                      | None => None
                      | Some s1 => match give_back (x_cid x) (g_disk s1) with
                                   | None => None
                                   | Some d => if has_timer (x_cid x) (d_time d) && negb (existsb (fun e => (fst e =? x_cid x) && eid_eqb (snd e) (x_dest x)) (d_time d))
                                               then None else Some (with_disk s1 (cancel (x_cid x) d))
                                   end
                      end
                    else if x_delete x then
                      match remove_read (x_cid x) (free (x_cid x) (g_disk s)) with None => None | Some d => Some (with_disk s d) end
                    else
                      let d := g_disk s in
                      Some (match mem (x_cid x) (d_start d), find_b (x_cid x) (d_ent d) with
                            | true, Some b =>
                              if has_timer (x_cid x) (d_time d) then s
                              else with_disk s (mkStore (d_ent d) (d_wait d) (d_used d) (d_time d ++ [(x_cid x, b_dest b)]) (d_start d) (d_broken d))
                            | _, _ => s
                            end)) with
             | None => None
             | Some s1 =>
               match get_link s1 r with
               | None => None
               | Some k1 => Some (put_link s1 r (set_pipe (erase_id (x_cid x) (k_open k1)) (k_acks k1) (sub64 (k_bytes k1) size) k1))
               end
             end
           end) with
    | None => None
    | Some s1 => Some (with_disk s1 (no_start (x_cid x) (g_disk s1)))
    end
  end.
(** Zsi:1270-1414. *)
Definition on_ack (x : eack) (b : bundle) (s : state) : option state :=
  if negb (g_init s) then Some s
  else match ack_link x s with
       | None => None
       | Some None => Some s
       | Some (Some r) => if x_cut x then ack_cut x b r s else ack_read x r s
       end.
(** Zsi:1415-1440 HDTN_MSGTYPE_EGRESS_FAILED_BUNDLE_TO_STORAGE: a bundle ingress sent to egress. *)
Definition on_failed (i : N) (b : bundle) (s : state) : option state :=
  match write b Whole false None s with
  | None => None
  | Some s1 => if g_init s1 then match vec_ref s1 i with None => None | Some r => link_down r s1 end else Some s1
  end.
(** Zsi:1469-1492: one element of the telemetry; [n] counts from 0. *)
Definition dests_of (o : outduct) : list (eid * bool) := map (fun e => (e, false)) (t_eids o) ++ map (fun n => ((n, 0), true)) (t_nodes o).
Fixpoint telem (n : N) (l : list outduct) (v : list link) : option (list link) :=
  match l with
  | [] => Some v
  | o :: r =>
    match (if t_idx o <? N.of_nat (length v) then nth_error v (N.to_nat (t_idx o)) else None) with
    | None => None
    | Some k =>
      telem (n + 1) r (set_nth (N.to_nat (t_idx o))
        (mkLink (N.shiftr (t_max o) 1) (N.shiftr (t_maxb o) 1) n (t_hop o) (k_up k) (k_try k) (dests_of o) (k_open k) (k_acks k) (k_queue k)
                (k_bytes k)) v)
    end
  end.
(** Zsi:1495-1512. *)
Fixpoint apply_pending (p : list (N * bool)) (v : list link) : list link :=
  match p with
  | [] => v
  | (i, up) :: r => apply_pending r (match (if i <? N.of_nat (length v) then nth_error v (N.to_nat i) else None) with
                                     | None => v | Some k => set_nth (N.to_nat i) (set_up up k) v end)
  end.
(** Zsi:1441-1523 HDTN_MSGTYPE_ALL_OUTDUCT_CAPABILITIES_TELEMETRY. *)
Definition on_telemetry (l : list outduct) (s : state) : option state :=
  let v := match g_vec s with [] => repeat new_link (length l) | v => v end in
  if negb (Nat.eqb (length v) (length l)) then Some s
  else match telem 0 l v with
       | None => None
       | Some v1 => Some (with_init (repopulate (with_links s (apply_pending (g_pend s) v1) (g_opp s))) true [])
       end.

(** ** Messages from ingress *)
(** Zsi:1537-1564; 5 bundles (Zsi:1556). *)
Definition opp_link (cfg : config) (n : N) : link := mkLink 5 (5 * c_max cfg mod W64) U64MAX n true false [((n, 0), true)] [] [] [] 0.
Definition add_opp (cfg : config) (n : N) (s : state) : state :=
  match opp_find n (g_opp s) with
  | Some _ => s
  | None => repopulate (with_links s (g_vec s) (opp_insert n (opp_link cfg n) (g_opp s)))
  end.
(** Zsi:1565-1574. *)
Definition remove_opp (n : N) (s : state) : state :=
  match opp_find n (g_opp s) with Some _ => repopulate (with_links s (g_vec s) (opp_erase n (g_opp s))) | None => s end.
(** Zsi:1575-1618 HDTN_MSGTYPE_STORE. *)
Definition on_store (m : smsg) (b : bundle) (c : content) (s : state) : option state :=
  match (if s_dont m then match vec_ref s (s_idx m) with None => None | Some r => match get_link s r with Some k => if k_up k then Some (r, k) else None | None => None end end
         else None) with
  | Some (r, k) => Some (put_link s r (set_queue (k_queue k ++ [mkQ b (s_dest m) (s_id m)]) k))
  | None => match write b c (s_special m) (Some (s_dest m)) s with
            | None => None
            | Some s1 => Some (ack_ingress (mkA (s_id m) (s_idx m) false) s1)
            end
  end.

(** ** Messages from the router *)
Fixpoint pend_put (i : N) (up : bool) (l : list (N * bool)) : list (N * bool) :=
  match l with [] => [(i, up)] | e :: r => if i =? fst e then (i, up) :: r else if i <? fst e then (i, up) :: l else e :: pend_put i up r end.
(** Zsi:1633-1653 HDTN_MSGTYPE_ILINKUP. *)
Definition on_up (i : N) (s : state) : option state :=
  if g_init s then
    match vec_ref s i with
    | None => Some s
    | Some r => match get_link s r with
                | None => None
                | Some k => Some (if k_up k then s else repopulate (put_link s r (set_up true k)))
                end
    end
  else Some (with_init s (g_init s) (pend_put i true (g_pend s))).
(** Zsi:1654-1669 HDTN_MSGTYPE_ILINKDOWN; "= true" as in Zsi:1665. *)
Definition on_down (i : N) (s : state) : option state :=
  if g_init s then match vec_ref s i with None => Some s | Some r => link_down r s end
  else Some (with_init s (g_init s) (pend_put i true (g_pend s))).

(** ** Housekeeping *)
(** Zsi:1680-1689: custody signals that are due are written to disk (WriteAcsBundle Zsi:421-452). *)
Definition on_signals (l : list bundle) (s : state) : option state :=
  (fix go l s := match l with [] => Some s | b :: r => match write_one b s with None => None | Some (s1, _) => go r s1 end end) l s.
(** Zsi:1692-1699: a running timer expires. *)
Definition on_timer (cid : N) (s : state) : option state :=
  if has_timer cid (d_time (g_disk s)) then
    match give_back cid (cancel cid (g_disk s)) with None => None | Some d => Some (with_disk s d) end
  else Some s.
(** Zsi:1124-1148 DeleteBundleById of a waiting bundle (Zsi:1174-1181, GetExpiredBundleIds: C16); [report] the status report if one is
    written (Zsi:1064-1118). *)
Definition on_expired (cid : N) (report : option bundle) (s : state) : option state :=
  match find_b cid (d_wait (g_disk s)) with
  | None => Some s
  | Some b =>
    match (if b_cust b then
             let s1 := with_disk s (no_start cid (cancel cid (g_disk s))) in
             match report with None => Some s1 | Some p => match write_one p s1 with None => None | Some (s2, _) => Some s2 end end
           else Some s) with
    | None => None
    | Some s1 => Some (with_disk s1 (remove_any cid (free cid (g_disk s1))))
    end
  end.

(** ** Sending *)
(** PopTop: the bundle released, and the rest. *)
Definition pop (cfg : config) (dests : list (eid * bool)) (d : store) : option ((N * bundle) * list (N * bundle)) :=
  match c_pick cfg dests (d_wait d) with
  | None => None
  | Some n => match nth_error (d_wait d) n with None => None | Some w => Some (w, firstn n (d_wait d) ++ skipn (S n) (d_wait d)) end
  end.
Definition with_wait (d : store) (w : list (N * bundle)) : store := mkStore (d_ent d) w (d_used d) (d_time d) (d_start d) (d_broken d).
(** Zsi:890-907 PeekOne: what would be released; it is put back in front. *)
Definition peek (cfg : config) (dests : list (eid * bool)) (s : state) : option (N * bundle) * state :=
  match pop cfg dests (g_disk s) with
  | None => (None, s)
  | Some (w, rest) => (Some w, with_disk s (with_wait (g_disk s) (w :: rest)))
  end.
Definition emit (m : emsg) (s : state) : state := with_out s (g_egress s ++ [m]) (g_ingress s) (g_lost s).
(** Zsi:922-978 ReleaseOne_NoBlock and Zsi:1873-1892 SendFromStorage. *)
Definition send_stored (cfg : config) (r : ref) (k : link) (room : N) (s : state) : state :=
  match pop cfg (k_dests k) (g_disk s) with
  | None => s
  | Some ((cid, b), rest) =>
    let back s := with_disk s (with_wait (g_disk s) ((cid, b) :: rest)) in
    if room <? b_size b then back s
    else
      let (read, s1) := read_bit (with_disk s (with_wait (g_disk s) rest)) in
      if negb read then s1
      else
        let (sent, s2) := bit s1 in
        if negb sent then back s2
        else
          let s3 := emit (mkE b false cid (k_idx k) (k_hop k) (b_dest b) (b_cust b)) s2 in
          match find_id cid (k_open k) with
          | Some _ => s3
          | None =>
            let d := g_disk s3 in
            let s4 := if b_cust b then with_disk s3 (mkStore (d_ent d) (d_wait d) (d_used d) (d_time d) (cid :: drop cid (d_start d)) (d_broken d)) else s3 in
            with_poll (put_link s4 r (set_pipe (k_open k ++ [(cid, b_size b)]) (k_acks k) (add64 (k_bytes k) (b_size b)) k)) 0
          end
  end.
(** Zsi:1894-1934 SendFromCutThroughQueue. A failed send or a second entry for the same id drops the ack. *)
Definition send_cut (r : ref) (k : link) (x : queued) (rest : list queued) (s : state) : state :=
  let (sent, s1) := bit s in
  let gone s := with_out s (g_egress s) (g_ingress s) (g_lost s ++ [mkA (q_id x) (ref_idx r) false]) in
  if negb sent then gone (put_link s1 r (set_queue rest k))
  else
    let s2 := emit (mkE (q_b x) true (q_id x) (k_idx k) (k_hop k) (q_dest x) false) s1 in
    match find_id (q_id x) (k_acks k) with
    | Some _ => gone (put_link s2 r (set_queue rest k))
    | None => with_poll (put_link s2 r (set_pipe (k_open k) (k_acks k ++ [(q_id x, b_size (q_b x))]) (add64 (k_bytes k) (b_size (q_b x))) (set_queue rest k))) 0
    end.
(** The link as it is now with the other state. *)
Definition flip (r : ref) (s : state) : state :=
  match get_link s r with Some k => put_link s r (set_try (negb (k_try k)) k) | None => s end.
(** Zsi:1860-1871 DefaultSend. *)
Definition default_send (cfg : config) (r : ref) (k : link) (room : N) (s : state) : state :=
  flip r (match k_queue k with
          | x :: rest => if k_try k && (b_size (q_b x) <=? room) then send_cut r k x rest s else send_stored cfg r k room s
          | [] => send_stored cfg r k room s
          end).
(** Zsi:1837-1858 GetQueueBundlePriority: None = -1. *)
Definition queue_prio (x : queued) : option N := if b_bad (q_b x) then None else Some (b_prio (q_b x)).
(** Zsi:1774-1835 PrioritySend. *)
Definition priority_send (cfg : config) (r : ref) (k : link) (room : N) (s : state) : option state :=
  match k_queue k with
  | [] => Some (send_stored cfg r k room s)
  | x :: rest =>
    let small := b_size (q_b x) <=? room in
    match peek cfg (k_dests k) s with
    | (None, s1) => Some (if small then send_cut r k x rest s1 else s1)
    | (Some (_, b), s1) =>
      let same := match queue_prio x with Some p => p =? b_prio b | None => false end in
      let higher := match queue_prio x with Some p => b_prio b <? p | None => false end in
      let from_queue := if same then small && k_try k else higher in
      let k1 := if same && small then set_try (negb (k_try k)) k else k in
      let s2 := put_link s1 r k1 in
      if from_queue then Some (if small then send_cut r k1 x rest s2 else s2)
      else
        let s3 := send_stored cfg r k1 room s2 in
        match write (q_b x) Whole false None s3 with
        | None => None
        | Some s4 =>
          let s5 := ack_ingress (mkA (q_id x) (ref_idx r) false) s4 in
          match get_link s5 r with None => None | Some k5 => Some (put_link s5 r (set_queue rest k5)) end
        end
    end
  end.
(** Zsi:1744-1769, the body of the loop for the link at position [n] of the vector. *)
Definition serve (cfg : config) (n : nat) (s : state) : option state :=
  match nth_error (g_ptrs s) n with
  | None => None
  | Some r =>
    match get_link s r with
    | None => None
    | Some k =>
      let room := sub64 (k_maxb k) (k_bytes k) in
      match (if N.of_nat (length (k_open k) + length (k_acks k)) <? k_max k
             then (if c_priority cfg then priority_send cfg r k room s else Some (default_send cfg r k room s))
             else Some s) with
      | None => None
      | Some s1 =>
        if (g_poll s1 =? 0) || (g_poll s1 =? 1) then Some s1
        else match get_link s1 r with
             | None => None
             | Some k1 => Some (match peek cfg (k_dests k1) s1 with (Some _, s2) => with_poll s2 1 | (None, s2) => s2 end)
             end
      end
    end
  end.
(** Zsi:1739-1743, 1757-1758. *)
Definition next_rr (s : state) : nat := if Nat.leb (length (g_ptrs s)) (S (g_rr s)) then 0%nat else S (g_rr s).
Fixpoint send_loop (cfg : config) (count : nat) (s : state) : option state :=
  match count with
  | O => Some s
  | S c => let n := next_rr s in
           match serve cfg n (with_rr s n) with
           | None => None
           | Some s1 => if g_poll s1 =? 0 then Some s1 else send_loop cfg c s1
           end
  end.
(** Zsi:1724-1771 DoSendBundles. *)
Definition do_send (cfg : config) (s : state) : option state := send_loop cfg (length (g_ptrs s)) (with_poll s 250).

(** ** Everything *)
Inductive event := Telemetry (l : list outduct) | EgressAck (x : eack) (b : bundle) | Failed (i : N) (b : bundle) | AddLink (n : N)
  | RemoveLink (n : N) | Store (m : smsg) (b : bundle) (c : content) | LinkUp (i : N) | LinkIsDown (i : N) | Signals (l : list bundle)
  | Timer (cid : N) | Expired (cid : N) (report : option bundle) | Send.
(** None = undefined behaviour, a dead loop, or outside the contract of the catalog or the timers. *)
Definition handle (cfg : config) (e : event) (s : state) : option state :=
  match e with
  | Telemetry l => on_telemetry l s
  | EgressAck x b => on_ack x b s
  | Failed i b => on_failed i b s
  | AddLink n => Some (add_opp cfg n s)
  | RemoveLink n => Some (remove_opp n s)
  | Store m b c => on_store m b c s
  | LinkUp i => on_up i s
  | LinkIsDown i => on_down i s
  | Signals l => on_signals l s
  | Timer cid => on_timer cid s
  | Expired cid p => on_expired cid p s
  | Send => do_send cfg s
  end.
(** An event with what the environment decides while it is handled. *)
Record label := mkL { l_event : event; l_ids : list N; l_bits : list bool; l_reads : list bool }.
Definition step (cfg : config) (x : label) (s : state) : option state := handle cfg (l_event x) (with_oracle s (l_ids x) (l_bits x) (l_reads x)).
Inductive runs (cfg : config) : list label -> state -> state -> Prop :=
| runs_nil s : runs cfg [] s s
| runs_cons x l s s1 s2 : step cfg x s = Some s1 -> runs cfg l s1 s2 -> runs cfg (x :: l) s s2.
Fixpoint exec (cfg : config) (l : list label) (s : state) : option state :=
  match l with [] => Some s | x :: r => match step cfg x s with Some s1 => exec cfg r s1 | None => None end end.
