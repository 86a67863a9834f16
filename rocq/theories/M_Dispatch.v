(** Model of what ingress does with a processed bundle: the second half of Ingress::Impl::ProcessPaddedData
    (module/ingress/src/receive.cpp:1342-1363, 1430-1626), Rx below, the pipelines it reserves room in (struct BundlePipelineAckingSet,
    Rx:100-135, 221-318) and the thread that frees it (ReadZmqAcksThreadFunc Rx:640-860, RouterEventHandler Rx:1051-1103), as threads
    whose steps interleave. Each step takes one lock or does one send. Not modelled: the polling and decoding of the messages that
    arrive, stopping, bundle masking, the m_events counters, failure to load the inducts (Rx:730-740), the queues of the opportunistic
    links (Induct.cpp:85-126; forwarding on one either takes the bundle or leaves it untouched), the race on the iterator of
    Rx:1436-1448, bad_alloc, a message whose first part is sent and whose second part fails (a send fails as a whole). *)
From Coq Require Import NArith List Bool.
From Verif Require Import Base M_Ingress.
Import ListNotations.
Open Scope N_scope.

(** ** BundlePipelineAckingSet *)
(** Rx:122-134: m_mapEgressBundleUniqueIdToBundleSizeBytes, m_mapStorageBundle..., m_egressBytesInPipeline, m_storageBytesInPipeline,
    m_maxBundlesInPipeline, m_maxBundleSizeBytesInPipeline, m_nextHopNodeId, m_linkIsUp. The hash maps are lists in order of insertion. *)
Record aset := mkAset { a_eg : list (N * N); a_st : list (N * N); a_egb : N; a_stb : N; a_max : N; a_maxb : N; a_hop : N; a_up : bool }.
Definition find_id (id : N) (m : list (N * N)) : option N :=
  match find (fun e => fst e =? id) m with Some e => Some (snd e) | None => None end.
Definition erase_id (id : N) (m : list (N * N)) : list (N * N) := filter (fun e => negb (fst e =? id)) m.
(** unordered_map::emplace: nothing happens if the key is there. *)
Definition emplace (id size : N) (m : list (N * N)) : list (N * N) := match find_id id m with Some _ => m | None => m ++ [(id, size)] end.
(** Rx:228-242. *)
Definition update (n b hop : N) (up : bool) (a : aset) : aset := mkAset (a_eg a) (a_st a) (a_egb a) (a_stb a) n b hop up.
(** Rx:221-227. *)
Definition new_set (n b hop : N) (up : bool) : aset := update n b hop up (mkAset [] [] 0 0 0 0 0 false).
Definition set_up (up : bool) (a : aset) : aset := update (a_max a) (a_maxb a) (a_hop a) up a.
(** Rx:244-259 CompareAndPop_ThreadSafe. *)
Definition pop (id : N) (egress : bool) (a : aset) : aset * bool :=
  match find_id id (if egress then a_eg a else a_st a) with
  | None => (a, false)
  | Some size =>
    (if egress then mkAset (erase_id id (a_eg a)) (a_st a) (sub64 (a_egb a) size) (a_stb a) (a_max a) (a_maxb a) (a_hop a) (a_up a)
     else mkAset (a_eg a) (erase_id id (a_st a)) (a_egb a) (sub64 (a_stb a) size) (a_max a) (a_maxb a) (a_hop a) (a_up a), true)
  end.
(** Rx:269-270. Read before the mutex is taken; Update runs only while no thread is in the functions below (Rx:669, 1496). *)
Definition half (n : N) : N := N.shiftr n 1.
(** Rx:276-281 without the timed_wait: how long to wait is the environment's choice. *)
Definition must_wait (checkEgress checkStorage : bool) (size : N) (a : aset) : bool :=
  let full m b check := (half (a_max a) * N.b2n check <=? N.of_nat (length m)) || (half (a_maxb a) * N.b2n check <? add64 b size) in
  full (a_eg a) (a_egb a) checkEgress && full (a_st a) (a_stb a) checkStorage.
Inductive reserved := ForEgress | ForStorage | NoRoom.
(** Rx:286-306, after the wait. *)
Definition reserve (checkEgress checkStorage : bool) (id size : N) (a : aset) : aset * reserved :=
  let room m b := (N.of_nat (length m) <? half (a_max a)) && (add64 b size <=? half (a_maxb a)) in
  if checkEgress && room (a_eg a) (a_egb a) then
    (mkAset (emplace id size (a_eg a)) (a_st a) (add64 (a_egb a) size) (a_stb a) (a_max a) (a_maxb a) (a_hop a) (a_up a), ForEgress)
  else if checkStorage && room (a_st a) (a_stb a) then
    (mkAset (a_eg a) (emplace id size (a_st a)) (a_egb a) (add64 (a_stb a) size) (a_max a) (a_maxb a) (a_hop a) (a_up a), ForStorage)
  else (a, NoRoom).

(** ** The bundle and the thread that has it *)
(** zmqMessageToSendUniquePtr->size() (= bundleCurrentSize), finalDestEid, requestsCustody, isAdminRecordForHdtnStorage, needsFragmenting,
    isBundleForHdtnRouter, !needsProcessing, !isSafeToYieldThisThread (called by the thread that reads the acks, Rx:1094-1096). *)
Record bundle := mkBundle { b_size : N; b_dest : N * N; b_custody : bool; b_admin : bool; b_frag : bool; b_router : bool;
                            b_stored : bool; b_acks : bool }.
(** What M_Ingress.process leaves. *)
Definition bundle_of (stored acks : bool) (o : outgoing) : bundle :=
  mkBundle (N.of_nat (length (o_bytes o))) (o_dest o) (o_custody o) (o_admin o) (o_frag o) (o_router o) stored acks.
(** How it ends: sent to egress for the router, or not (Rx:1342-1363); on an opportunistic link (Rx:1448); to egress (Rx:1551-1553); to
    storage, for outduct [i] without being stored, or to be stored (Rx:1610-1613); "this bundle will be lost" (Rx:1602, 1606, 1620);
    "dropping bundle because AOCT not processed" (Rx:1487). *)
Inductive fate := ToRouter | RouterFailed | OnLink | ToEgress (i : N) | ToStorage (i : N) (dontStore : bool) | NoStorage | StorageFailed | Dropped.
(** Where the thread is: at Rx:1342; before Rx:1468; before Rx:1483 with its unique id; in WaitForPipelineAvailabilityAndReserve of
    outduct [i] (Rx:1519); before the sends of Rx:1544; in WaitForStoragePipelineAvailabilityAndReserve (Rx:1581); before the sends of
    Rx:1603; returned. *)
Inductive pc := PStart | PId | PLook (id : N) | PCut (id i : N) | PEgress (id i : N) | PStore (id : N)
  | PToStorage (id i : N) (dontStore : bool) | PDone (f : fate).
(** Holds the shared lock of Rx:1496 (released at Rx:1623). *)
Definition holds (p : pc) : bool := match p with PCut _ _ | PEgress _ _ | PStore _ | PToStorage _ _ _ => true | _ => false end.
Definition done (p : pc) : bool := match p with PDone _ => true | _ => false end.

(** ** Messages *)
(** hdtn::ToEgressHdr with a bundle: HDTN_MSGTYPE_BUNDLES_TO_ROUTER or HDTN_MSGTYPE_EGRESS, custodyId, outductIndex, nextHopNodeId,
    finalDestEid, hasCustody. [e_tag] = the number of the thread whose bundle follows. *)
Record emsg := mkE { e_tag : nat; e_router : bool; e_id : N; e_idx : N; e_hop : N; e_dest : N * N; e_custody : bool }.
(** hdtn::ToStorageHdr: ingressUniqueId, outductIndex, dontStoreBundle, isCustodyOrAdminRecord, finalDestEid. *)
Record smsg := mkS { s_tag : nat; s_id : N; s_idx : N; s_dont : bool; s_special : bool; s_dest : N * N }.
(** Not program state: a message sent and not yet acknowledged: id, outduct index, size of the bundle. *)
Record pending := mkPend { p_id : N; p_idx : N; p_size : N }.
(** OutductCapabilityTelemetry_t: outductArrayIndex, maxBundlesInPipeline, maxBundleSizeBytesInPipeline, nextHopNodeId,
    finalDestinationEidList, finalDestinationNodeIdList. *)
Record outduct := mkOutduct { t_idx : N; t_max : N; t_maxb : N; t_hop : N; t_eids : list (N * N); t_nodes : list N }.

(** ** The state *)
(** m_vectorBundlePipelineAckingSet, m_singleStorageBundlePipelineAckingSet, m_mapFinalDestEidToOutductArrayIndex,
    m_mapFinalDestNodeIdToOutductArrayIndex (latest assignment first), the keys of m_availableDestOpportunisticNodeIdToTcpclInductMap,
    egressFullyInitialized, m_nextBundleUniqueIdAtomic before it wraps around, the threads so far, what was sent to egress, to storage and
    on opportunistic links, the unacknowledged part of it, m_bundleCountEgress, m_bundleByteCountEgress, m_bundleCountStorage,
    m_bundleByteCountStorage. *)
Record state := mkState { g_sets : list aset; g_single : aset; g_eids : list ((N * N) * N); g_nodes : list (N * N); g_links : list N;
  g_init : bool; g_next : N; g_threads : list (bundle * pc); g_egress : list emsg; g_storage : list smsg; g_onlink : list nat;
  g_epend : list pending; g_spend : list pending; g_ecount : N; g_ebytes : N; g_scount : N; g_sbytes : N }.
(** Rx:321-330. *)
Definition start : state := mkState [] (new_set 10 10 U64MAX false) [] [] [] false 0 [] [] [] [] [] [] 0 0 0 0.
(** m_enforceBundlePriority, m_maxBundleSizeBytes. *)
Record config := mkConfig { c_priority : bool; c_max : N }.

Fixpoint set_nth {A} (n : nat) (x : A) (l : list A) : list A :=
  match l, n with [], _ => [] | _ :: r, O => x :: r | y :: r, S n => y :: set_nth n x r end.
(** *(m_vectorBundlePipelineAckingSet[i]); None = out of bounds. *)
Definition vec_at (s : state) (i : N) : option aset :=
  if i <? N.of_nat (length (g_sets s)) then nth_error (g_sets s) (N.to_nat i) else None.
(** Rx:1587-1588, 835-836. *)
Definition set_at (s : state) (i : N) : option aset := if i =? U64MAX then Some (g_single s) else vec_at s i.
Definition with_sets (s : state) (l : list aset) (one : aset) : state :=
  mkState l one (g_eids s) (g_nodes s) (g_links s) (g_init s) (g_next s) (g_threads s) (g_egress s) (g_storage s) (g_onlink s)
    (g_epend s) (g_spend s) (g_ecount s) (g_ebytes s) (g_scount s) (g_sbytes s).
Definition put_at (s : state) (i : N) (a : aset) : state :=
  if i =? U64MAX then with_sets s (g_sets s) a else with_sets s (set_nth (N.to_nat i) a (g_sets s)) (g_single s).
Definition with_threads (s : state) (next : N) (l : list (bundle * pc)) : state :=
  mkState (g_sets s) (g_single s) (g_eids s) (g_nodes s) (g_links s) (g_init s) next l (g_egress s) (g_storage s) (g_onlink s)
    (g_epend s) (g_spend s) (g_ecount s) (g_ebytes s) (g_scount s) (g_sbytes s).
Definition goto (s : state) (t : nat) (b : bundle) (p : pc) : state := with_threads s (g_next s) (set_nth t (b, p) (g_threads s)).
(** Rx:1351-1358, 1544-1564: both parts were sent. *)
Definition send_egress (s : state) (m : emsg) (pend : list pending) (size : N) : state :=
  mkState (g_sets s) (g_single s) (g_eids s) (g_nodes s) (g_links s) (g_init s) (g_next s) (g_threads s) (g_egress s ++ [m]) (g_storage s)
    (g_onlink s) (g_epend s ++ pend) (g_spend s) (add64 (g_ecount s) 1) (add64 (g_ebytes s) size) (g_scount s) (g_sbytes s).
(** Rx:1603-1618. *)
Definition send_storage (s : state) (m : smsg) (size : N) : state :=
  mkState (g_sets s) (g_single s) (g_eids s) (g_nodes s) (g_links s) (g_init s) (g_next s) (g_threads s) (g_egress s) (g_storage s ++ [m])
    (g_onlink s) (g_epend s) (g_spend s ++ [mkPend (s_id m) (s_idx m) size]) (g_ecount s) (g_ebytes s) (add64 (g_scount s) 1)
    (add64 (g_sbytes s) size).
Definition send_link (s : state) (t : nat) : state :=
  mkState (g_sets s) (g_single s) (g_eids s) (g_nodes s) (g_links s) (g_init s) (g_next s) (g_threads s) (g_egress s) (g_storage s)
    (g_onlink s ++ [t]) (g_epend s) (g_spend s) (g_ecount s) (g_ebytes s) (g_scount s) (g_sbytes s).
Definition with_pending (s : state) (ep sp : list pending) : state :=
  mkState (g_sets s) (g_single s) (g_eids s) (g_nodes s) (g_links s) (g_init s) (g_next s) (g_threads s) (g_egress s) (g_storage s)
    (g_onlink s) ep sp (g_ecount s) (g_ebytes s) (g_scount s) (g_sbytes s).
Definition with_links (s : state) (l : list N) : state :=
  mkState (g_sets s) (g_single s) (g_eids s) (g_nodes s) l (g_init s) (g_next s) (g_threads s) (g_egress s) (g_storage s)
    (g_onlink s) (g_epend s) (g_spend s) (g_ecount s) (g_ebytes s) (g_scount s) (g_sbytes s).

(** ** The steps of a thread *)
(** Rx:1443-1446. *)
Definition try_link (cfg : config) (links : list N) (b : bundle) : bool :=
  existsb (N.eqb (fst (b_dest b))) links && (b_stored b || negb (b_custody b || b_admin b || b_frag b)) && negb (c_priority cfg).
(** Rx:1497-1506; U64MAX if there is no route. *)
Definition route (s : state) (dest : N * N) : N :=
  match find (fun e => eid_eqb (fst e) dest) (g_eids s) with
  | Some e => snd e
  | None => match find (fun e => fst e =? fst dest) (g_nodes s) with Some e => snd e | None => U64MAX end
  end.
(** Rx:1512-1513. *)
Definition cut_through (b : bundle) (a : aset) : bool := a_up a && negb (b_custody b) && negb (b_admin b) && negb (b_frag b).
(** Not possible now; undefined behaviour; the next state. *)
Inductive outcome := Off | Bad | On (s : state).
(** [ok] is what the environment makes of it: a send or forward succeeds; no telemetry waits to be processed (within 4 s); a wait ends
    because there is room, not by timeout. *)
Definition thread_step (cfg : config) (t : nat) (ok : bool) (s : state) : outcome :=
  match nth_error (g_threads s) t with
  | None => Off
  | Some (b, p) =>
    match p with
    | PStart =>
      if b_router b then
        On (if ok then goto (send_egress s (mkE t true 0 0 0 (0, 0) false) [] (b_size b)) t b (PDone ToRouter)
            else goto s t b (PDone RouterFailed))
      else if try_link cfg (g_links s) b && ok then On (goto (send_link s t) t b (PDone OnLink))
      else On (goto s t b PId)
    | PId => On (with_threads s (g_next s + 1) (set_nth t (b, PLook (g_next s mod W64)) (g_threads s)))
    | PLook id =>
      if negb ok && negb (b_acks b) then On (goto s t b (PDone Dropped))
      else let i := route s (b_dest b) in
           if i =? U64MAX then On (goto s t b (PStore id))
           else match vec_at s i with
                | None => Bad
                | Some a => On (goto s t b (if cut_through b a then PCut id i else PStore id))
                end
    | PCut id i =>
      match vec_at s i with
      | None => Bad
      | Some a =>
        let check := negb (c_priority cfg) in
        if ok && must_wait check true (b_size b) a then Off else
        let (a', r) := reserve check true id (b_size b) a in
        On (goto (put_at s i a') t b (match r with ForEgress => PEgress id i | ForStorage => PToStorage id i true | NoRoom => PStore id end))
      end
    | PEgress id i =>
      match vec_at s i with
      | None => Bad
      | Some a =>
        if ok then On (goto (send_egress s (mkE t false id i (a_hop a) (b_dest b) (b_custody b)) [mkPend id i (b_size b)] (b_size b))
                            t b (PDone (ToEgress i)))
        else On (goto (put_at s i (fst (pop id true a))) t b (PStore id))
      end
    | PStore id =>
      if ok && must_wait false true (b_size b) (g_single s) then Off else
      let (a', r) := reserve false true id (b_size b) (g_single s) in
      On (goto (put_at s U64MAX a') t b (match r with ForStorage => PToStorage id U64MAX false | _ => PDone NoStorage end))
    | PToStorage id i dont =>
      match set_at s i with
      | None => Bad
      | Some a =>
        if ok then On (goto (send_storage s (mkS t id i dont (b_custody b || b_admin b || b_frag b) (b_dest b)) (b_size b))
                            t b (PDone (ToStorage i dont)))
        else On (goto (put_at s i (fst (pop id false a))) t b (PDone StorageFailed))
      end
    | PDone _ => Off
    end
  end.

(** ** The thread that reads the acks *)
(** It is in ProcessPaddedData with a bundle from the router (Rx:1084-1098). *)
Definition acks_busy (s : state) : bool := existsb (fun x => b_acks (fst x) && negb (done (snd x))) (g_threads s).
Definition forget (id i : N) (l : list pending) : list pending := filter (fun p => negb ((p_id p =? id) && (p_idx p =? i))) l.
(** Rx:775-793. The index is used as it comes. *)
Definition ack_egress (id i : N) (down : bool) (s : state) : outcome :=
  match vec_at s i with
  | None => Bad
  | Some a =>
    let a1 := if down then set_up false a else a in
    On (with_pending (put_at s i (fst (pop id true a1))) (forget id i (g_epend s)) (g_spend s))
  end.
(** Rx:834-854. *)
Definition ack_storage (id i : N) (error : bool) (s : state) : outcome :=
  match set_at s i with
  | None => Bad
  | Some a =>
    let a1 := if error && negb (i =? U64MAX) then set_up false a else a in
    On (with_pending (put_at s i (fst (pop id false a1))) (g_epend s) (forget id i (g_spend s)))
  end.
(** Rx:1061-1083. *)
Definition link_event (i : N) (up : bool) (s : state) : outcome :=
  match vec_at s i with None => On s | Some a => On (put_at s i (set_up up a)) end.
(** Rx:692-719 the loop over the telemetry: sets, maps, expectedIndex; false = foundError. *)
Fixpoint telem_loop (initial : bool) (expected : N) (l : list outduct) (sets : list aset) (eids : list ((N * N) * N)) (nodes : list (N * N))
  : list aset * list ((N * N) * N) * list (N * N) * bool :=
  match l with
  | [] => (sets, eids, nodes, true)
  | o :: r =>
    if negb (t_idx o =? expected) then (sets, eids, nodes, false) else
    let sets' := if initial then sets ++ [new_set (t_max o) (t_maxb o) (t_hop o) false]
                 else match nth_error sets (N.to_nat expected) with
                      | None => sets
                      | Some a => set_nth (N.to_nat expected) (update (t_max o) (t_maxb o) (t_hop o) (a_up a) a) sets
                      end in
    telem_loop initial (expected + 1) r sets' (rev (map (fun e => (e, t_idx o)) (t_eids o)) ++ eids)
      (rev (map (fun n => (n, t_idx o)) (t_nodes o)) ++ nodes)
  end.
(** Rx:668-752, 813-820: an empty list is refused; so is one of another length. Rx:722-723 STORAGE_MAX_BUNDLES_IN_PIPELINE * 2 (Rx:63). *)
Definition telemetry (cfg : config) (l : list outduct) (s : state) : state :=
  let initial := match g_sets s with [] => true | _ => false end in
  if match l with [] => true | _ => false end || negb initial && negb (Nat.eqb (length (g_sets s)) (length l)) then s else
  let '(sets, eids, nodes, fine) := telem_loop initial 0 l (g_sets s) [] [] in
  let first := fine && negb (g_init s) in
  let one := if first then update 10 (c_max cfg * 2 mod W64) U64MAX false (g_single s) else g_single s in
  mkState sets one eids nodes (g_links s) (g_init s || first) (g_next s) (g_threads s) (g_egress s) (g_storage s) (g_onlink s)
    (g_epend s) (g_spend s) (g_ecount s) (g_ebytes s) (g_scount s) (g_sbytes s).

(** ** Everything *)
(** A bundle is handed to the function; a thread takes a step; an ack from egress (custodyId, outductIndex, error == LINK_DOWN) or from
    storage (ingressUniqueId, outductIndex, error); link events and telemetry; an opportunistic link comes or goes (Rx:1671-1711). *)
Inductive label := LBundle (b : bundle) | LThread (t : nat) (ok : bool) | LAckEgress (id i : N) (down : bool)
  | LAckStorage (id i : N) (error : bool) | LLink (i : N) (up : bool) | LTelemetry (l : list outduct) | LOpportunistic (node : N) (up : bool).
Definition step (cfg : config) (x : label) (s : state) : outcome :=
  match x with
  | LBundle b => if b_acks b && acks_busy s then Off else On (with_threads s (g_next s) (g_threads s ++ [(b, PStart)]))
  | LThread t ok => thread_step cfg t ok s
  | LAckEgress id i down => if acks_busy s then Off else ack_egress id i down s
  | LAckStorage id i error => if acks_busy s then Off else ack_storage id i error s
  | LLink i up => if acks_busy s then Off else link_event i up s
  | LTelemetry l => if acks_busy s || existsb (fun x => holds (snd x)) (g_threads s) then Off else On (telemetry cfg l s)
  | LOpportunistic n up => On (with_links s (if up then n :: g_links s else filter (fun m => negb (m =? n)) (g_links s)))
  end.
(** A run from one state to another. *)
Inductive runs (cfg : config) : list label -> state -> state -> Prop :=
| runs_nil s : runs cfg [] s s
| runs_cons x l s s1 s2 : step cfg x s = On s1 -> runs cfg l s1 s2 -> runs cfg (x :: l) s s2.
(** The same as a function. *)
Fixpoint exec (cfg : config) (l : list label) (s : state) : option state :=
  match l with [] => Some s | x :: r => match step cfg x s with On s1 => exec cfg r s1 | _ => None end end.
