(** Model of module/egress/src/EgressAsync.cpp (Ea below), the module between ingress, storage, the router and the outducts, and of the part of
    common/outduct_manager/src/OutductManager.cpp (Om) it uses. One step is one message read by ReadZmqThreadFunc or one call of a callback by
    an outduct's thread; the callback for link status alone is also modelled access by access. A send of one or two parts succeeds or fails as a
    whole; the loops that repeat a send until it succeeds (Ea:491-500, 655-658, 728-765) succeed; the inproc socket of Ea:938 always has room.
    What an outduct does with a bundle is the environment's choice. Messages are those of M_StorageIf. Not modelled: Init of sockets, Stop,
    wrong-sized and unknown messages, telemetry requests other than SetMaxSendRate, counters, LTP pings, JSON, the outducts' Init. *)
From Coq Require Import NArith List Bool.
From Verif Require Import Base M_CustodyId.
From Verif Require Import M_StorageIf(bundle, mkB, b_tag, b_size, emsg, mkE, e_b, e_cut, e_cid, e_idx, e_hop, e_dest, e_custody,
  eerror, NoError, LinkDown, NoOutduct, eack, mkEA, x_cut, x_cid, x_idx, x_hop, x_dest, x_delete, x_err, mkOutduct, t_idx, t_max, t_maxb, t_hop, t_eids, t_nodes, mem, set_nth).
Import ListNotations.
Open Scope N_scope.

(** ** Messages *)
(** Which module a bundle came from and its answer goes to: base.type HDTN_MSGTYPE_EGRESS_ACK_TO_INGRESS or _TO_STORAGE. *)
Inductive source := Ingress | Storage.
(** The user data a bundle travels with: an EgressAckHdr. *)
Definition user : Type := source * eack.
(** OutductCapabilityTelemetry_t. *)
Notation cap := M_StorageIf.outduct.
(** HDTN_MSGTYPE_EGRESS_ACK_TO_STORAGE, with the bundle if it has to go back; HDTN_MSGTYPE_EGRESS_FAILED_BUNDLE_TO_STORAGE with outductIndex;
    telemetry. *)
Inductive to_storage := SAck (a : eack) (b : option bundle) | SFailed (i : N) (b : bundle) | STelem (l : list cap).
Inductive to_ingress := IAck (a : eack) | ITelem (l : list cap).
(** LinkStatusHdr: link status (up, outduct), telemetry, a bundle for the router. *)
Inductive to_router := RLink (up : bool) (i : N) | RTelem (l : list cap) | RBundle (b : bundle).

(** ** State *)
(** Outduct.h:81-89 and the configuration: nextHopNodeId, GetOutductMaxNumberOfBundlesInPipeline, GetOutductMaxSumOfBundleBytesInPipeline,
    m_linkIsUpPerTimeSchedule, m_linkIsUpPhysically (None: !m_physicalLinkStatusIsKnown), the rate last set. *)
Record outduct := mkO { o_hop : N; o_max : N; o_maxb : N; o_sched : bool; o_phys : option bool; o_rate : option N }.
(** m_outductsVec, m_finalDestNodeIdToOutductMap (in key order), availableDestOpportunisticNodeIdsSet, the inproc socket for link status; what
    was sent to storage, to ingress, the bundles to ingress (with "needs processing"), to the router. Not program state: answers that could
    not be sent; bundles egress let go of because storage has them on disk; bundles that are gone; calls of Forward (outduct, bundle). *)
Record state := mkS { g_out : list outduct; g_route : list (N * N); g_opp : list N; g_pair : list (bool * N);
  g_storage : list to_storage; g_ingress : list to_ingress; g_bundles : list (bool * bundle); g_router : list to_router;
  g_lost : list user; g_kept : list bundle; g_gone : list bundle; g_asked : list (N * bundle) }.
Definition with_out (o : list outduct) (p : list (bool * N)) (s : state) : state :=
  mkS o (g_route s) (g_opp s) p (g_storage s) (g_ingress s) (g_bundles s) (g_router s) (g_lost s) (g_kept s) (g_gone s) (g_asked s).
Definition with_route (r : list (N * N)) (s : state) : state :=
  mkS (g_out s) r (g_opp s) (g_pair s) (g_storage s) (g_ingress s) (g_bundles s) (g_router s) (g_lost s) (g_kept s) (g_gone s) (g_asked s).
Definition with_opp (l : list N) (s : state) : state :=
  mkS (g_out s) (g_route s) l (g_pair s) (g_storage s) (g_ingress s) (g_bundles s) (g_router s) (g_lost s) (g_kept s) (g_gone s) (g_asked s).
Definition send_storage (m : to_storage) (s : state) : state :=
  mkS (g_out s) (g_route s) (g_opp s) (g_pair s) (g_storage s ++ [m]) (g_ingress s) (g_bundles s) (g_router s) (g_lost s) (g_kept s) (g_gone s) (g_asked s).
Definition send_ingress (m : to_ingress) (s : state) : state :=
  mkS (g_out s) (g_route s) (g_opp s) (g_pair s) (g_storage s) (g_ingress s ++ [m]) (g_bundles s) (g_router s) (g_lost s) (g_kept s) (g_gone s) (g_asked s).
Definition send_bundle (p : bool) (b : bundle) (s : state) : state :=
  mkS (g_out s) (g_route s) (g_opp s) (g_pair s) (g_storage s) (g_ingress s) (g_bundles s ++ [(p, b)]) (g_router s) (g_lost s) (g_kept s) (g_gone s) (g_asked s).
Definition send_router (m : to_router) (s : state) : state :=
  mkS (g_out s) (g_route s) (g_opp s) (g_pair s) (g_storage s) (g_ingress s) (g_bundles s) (g_router s ++ [m]) (g_lost s) (g_kept s) (g_gone s) (g_asked s).
Definition lose (u : user) (s : state) : state :=
  mkS (g_out s) (g_route s) (g_opp s) (g_pair s) (g_storage s) (g_ingress s) (g_bundles s) (g_router s) (g_lost s ++ [u]) (g_kept s) (g_gone s) (g_asked s).
(** [kept]: storage has the bundle. *)
Definition let_go (kept : bool) (b : bundle) (s : state) : state :=
  mkS (g_out s) (g_route s) (g_opp s) (g_pair s) (g_storage s) (g_ingress s) (g_bundles s) (g_router s) (g_lost s)
      (if kept then g_kept s ++ [b] else g_kept s) (if kept then g_gone s else g_gone s ++ [b]) (g_asked s).
Definition ask (i : N) (b : bundle) (s : state) : state :=
  mkS (g_out s) (g_route s) (g_opp s) (g_pair s) (g_storage s) (g_ingress s) (g_bundles s) (g_router s) (g_lost s) (g_kept s) (g_gone s)
      (g_asked s ++ [(i, b)]).

(** ** Outducts and routes *)
(** Om:299-308 GetOutductByOutductUuid. *)
Definition out_at (i : N) (l : list outduct) : option outduct := if i <? N.of_nat (length l) then nth_error l (N.to_nat i) else None.
(** std::map: find, erase, assignment. *)
Fixpoint find_route (d : N) (l : list (N * N)) : option N :=
  match l with [] => None | (k, i) :: r => if k =? d then Some i else find_route d r end.
Definition erase_route (d : N) (l : list (N * N)) : list (N * N) := filter (fun e => negb (fst e =? d)) l.
Fixpoint set_route (d i : N) (l : list (N * N)) : list (N * N) :=
  match l with
  | [] => [(d, i)]
  | (k, j) :: r => if d <? k then (d, i) :: l else if k =? d then (d, i) :: r else (k, j) :: set_route d i r
  end.
(** m_nextHopNodeIdToOutductMap.find. *)
Fixpoint find_hop (hop n : N) (l : list outduct) : option N :=
  match l with [] => None | o :: r => if o_hop o =? hop then Some n else find_hop hop (n + 1) r end.
(** Om:232-253 Reroute_ThreadSafe; HDTN_NOROUTE is UINT64_MAX. None = returns false. *)
Definition reroute (d hop : N) (s : state) : option state :=
  if hop =? U64MAX then Some (with_route (erase_route d (g_route s)) s)
  else match find_hop hop 0 (g_out s) with
       | None => None
       | Some i => Some (with_route (set_route d i (g_route s)) s)
       end.
(** Om:255-278 GetAllOutductCapabilitiesTelemetry_ThreadSafe; finalDestinationEidList stays empty. *)
Fixpoint caps (n : N) (route : list (N * N)) (l : list outduct) : list cap :=
  match l with
  | [] => []
  | o :: r => mkOutduct n (o_max o) (o_maxb o) (o_hop o) [] (map fst (filter (fun e => snd e =? n) route)) :: caps (n + 1) route r
  end.
(** Ea:684-773 ResendOutductCapabilities. *)
Definition resend (s : state) : state :=
  let l := caps 0 (g_route s) (g_out s) in send_router (RTelem l) (send_ingress (ITelem l) (send_storage (STelem l) s)).
(** Ea:361-387 RouterEventHandler() for a RouteUpdateHdr. *)
Definition on_route (d hop : N) (s : state) : state := match reroute d hop s with None => s | Some s1 => resend s1 end.
(** Ea:917-943 OnOutductLinkStatusChangedCallback. *)
Definition link_changed (down : bool) (i : N) (s : state) : state :=
  match out_at i (g_out s) with
  | None => s
  | Some o =>
    let up := negb down in
    let inform := match o_phys o with None => true | Some p => negb (Bool.eqb p up) end in
    with_out (set_nth (N.to_nat i) (mkO (o_hop o) (o_max o) (o_maxb o) (o_sched o) (Some up) (o_rate o)) (g_out s))
             (if inform then g_pair s ++ [(up, i)] else g_pair s) s
  end.

(** ** Bundles *)
(** Ea:522-531, 559-569, 587-597. *)
Definition answer (m : emsg) : eack := mkEA (e_cut m) (e_cid m) (e_idx m) (e_hop m) (e_dest m) (negb (e_custody m)) NoError.
Definition set_err (e : eerror) (a : eack) : eack := mkEA (x_cut a) (x_cid a) (x_idx a) (x_hop a) (x_dest a) (x_delete a) e.
(** Ea:809-880 OnFailedBundleZmqSendCallback; [i] None: NO_OUTDUCT; [u] None: empty user data, written through all the same (Ea:826). The header
    of Ea:846-848 is zero but for its type. [ok1], [ok2]: whether the sends succeed. *)
Definition on_failed (i : option N) (b : bundle) (u : option user) (told ok1 ok2 : bool) (s : state) : option state :=
  let s1 := match i with Some i => link_changed true i s | None => s end in
  if told then Some (let_go false b s1)
  else match u with
       | None => None
       | Some (src, a) =>
         let a1 := set_err (match i with Some _ => LinkDown | None => NoOutduct end) a in
         match src with
         | Ingress =>
           let s2 := if ok1 then send_ingress (IAck a1) s1 else lose (Ingress, a1) s1 in
           Some (if ok2 then send_storage (SFailed 0 b) s2 else let_go false b s2)
         | Storage =>
           let back := x_cut a in
           Some (if ok1 then send_storage (SAck a1 (if back then Some b else None)) (if back then s1 else let_go true b s1)
                 else lose (Storage, a1) (let_go (negb back) b s1))
         end
       end.
(** Ea:881-914 OnSuccessfulBundleSendCallback. *)
Definition on_success (i : N) (u : option user) (ok : bool) (s : state) : state :=
  match u with
  | None => s
  | Some (src, a) =>
    let s1 := link_changed false i s in
    if ok then match src with Storage => send_storage (SAck a None) s1 | Ingress => send_ingress (IAck a) s1 end else lose (src, a) s1
  end.
(** What an outduct's Forward does: takes the bundle (and the user data) or leaves it, with the user data intact or not. *)
Inductive forwarded := Took | Left (intact : bool).
(** Ea:504-600: a message HDTN_MSGTYPE_EGRESS. Left with size 0 a bundle is taken for moved (Ea:571). *)
Definition on_bundle (src : source) (m : emsg) (f : forwarded) (ok1 ok2 : bool) (s : state) : option state :=
  let b := e_b m in
  let a := answer m in
  if match src with Storage => mem (fst (e_dest m)) (g_opp s) || (e_idx m =? U64MAX) | Ingress => false end then
    Some (if ok1 then let s1 := send_storage (SAck a None) s in if ok2 then send_bundle false b s1 else let_go false b s1
          else lose (Storage, a) (let_go (negb (e_cut m)) b s))
  else match find_route (fst (e_dest m)) (g_route s) with
       | Some i =>
         let s1 := ask i b s in
         match f with
         | Took => Some s1
         | Left intact => if b_size b =? 0 then Some s1 else on_failed (Some i) b (if intact then Some (src, a) else None) false ok1 ok2 s1
         end
       | None => on_failed None b (Some (src, a)) false ok1 ok2 s
       end.

(** ** Starting *)
(** outduct_element_config_t: convergenceLayer, nextHopNodeId, the pipeline's limits. *)
Inductive layer := Tcpcl3 | Tcpcl4 | Stcp | Udp | Slip | Encap | LtpUdp | LtpIpc | LtpEncap | Unknown.
Record ocfg := mkCfg { f_layer : layer; f_hop : N; f_max : N; f_maxb : N }.
Definition connects (l : layer) : bool := match l with Tcpcl3 | Tcpcl4 | Stcp => true | _ => false end.
(** Om:44-167 LoadOutductsFromConfig; [max]: m_maxBundleSizeBytes. None = returns false. *)
Fixpoint load (max : N) (l : list ocfg) (s : state) : option state :=
  match l with
  | [] => Some s
  | c :: r =>
    if f_maxb c <? (max * 2) mod W64 then None
    else if match f_layer c with Unknown => true | _ => false end then None
    else match find_hop (f_hop c) 0 (g_out s) with
         | Some _ => None
         | None => let s1 := with_out (g_out s ++ [mkO (f_hop c) (f_max c) (f_maxb c) false None None]) (g_pair s) s in
                   load max r (if connects (f_layer c) then link_changed true (N.of_nat (length (g_out s))) s1 else s1)
         end
  end.
Definition nothing : state := mkS [] [] [] [] [] [] [] [] [] [] [] [].
(** Ea:143-345 Init, 437. *)
Definition init (max : N) (l : list ocfg) : option state := match load max l nothing with Some s => Some (resend s) | None => None end.

(** ** Events *)
(** Messages: a bundle (Ea:504-600), opportunistic links (Ea:471-480), a bundle for the router (Ea:481-502), a route (Ea:604-607), link status
    from the inproc socket (Ea:648-659), the schedule (Ea:661-675, 946-978), a rate (Ea:629-632, 980-988). Callbacks: sent (which bundle is not
    known to the program), failed, link status, a bundle received by an outduct (Ea:782-807). *)
Inductive event := Bundle (src : source) (m : emsg) (f : forwarded) (ok1 ok2 : bool) | AddLink (n : N) | RemoveLink (n : N) | ForRouter (b : bundle)
  | Route (d hop : N) | Relay | Release (up : bool) (i rate : N) | Rate (i rate : N)
  | Success (i : N) (b : bundle) (u : option user) (ok : bool) | Failed (i : N) (b : bundle) (u : option user) (told ok1 ok2 : bool)
  | Changed (down : bool) (i : N) | Received (b : bundle) (ok : bool).
Definition set_sched (up : bool) (i : N) (rate : option N) (s : state) : state :=
  match out_at i (g_out s) with
  | None => s
  | Some o => with_out (set_nth (N.to_nat i) (mkO (o_hop o) (o_max o) (o_maxb o) up (o_phys o) (match rate with None => o_rate o | r => r end)) (g_out s))
                       (g_pair s) s
  end.
Definition step (e : event) (s : state) : option state :=
  match e with
  | Bundle src m f ok1 ok2 => on_bundle src m f ok1 ok2 s
  | AddLink n => Some (with_opp (if mem n (g_opp s) then g_opp s else n :: g_opp s) s)
  | RemoveLink n => Some (with_opp (filter (fun x => negb (x =? n)) (g_opp s)) s)
  | ForRouter b => Some (send_router (RBundle b) s)
  | Route d hop => Some (on_route d hop s)
  | Relay => Some (match g_pair s with [] => s | (up, i) :: r => send_router (RLink up i) (with_out (g_out s) r s) end)
  | Release up i rate => Some (set_sched up i (if up then Some rate else None) s)
  | Rate i rate => Some (match out_at i (g_out s) with None => s | Some o => set_sched (o_sched o) i (Some rate) s end)
  | Success i _ u ok => Some (on_success i u ok s)
  | Failed i b u told ok1 ok2 => on_failed (Some i) b u told ok1 ok2 s
  | Changed down i => Some (link_changed down i s)
  | Received b ok => Some (if ok then send_bundle true b s else let_go false b s)
  end.
Inductive runs : list event -> state -> state -> Prop :=
| runs_nil s : runs [] s s
| runs_cons e l s s1 s2 : step e s = Some s1 -> runs l s1 s2 -> runs (e :: l) s s2.

(** ** The callback for link status, access by access *)
(** Ea:925-929, 929-930 (no lock), 938-942: read the members, write them, send. [c_phys]: o_phys of one outduct; [c_sent]: what went to the
    inproc socket about it. *)
Inductive cpc := CRead (up : bool) | CWrite (up inform : bool) | CSend (up inform : bool) | CDone.
Record race := mkR { c_phys : option bool; c_sent : list bool; c_threads : list cpc }.
Definition race_step (n : nat) (r : race) : option race :=
  match nth_error (c_threads r) n with
  | None | Some CDone => None
  | Some (CRead up) => Some (mkR (c_phys r) (c_sent r)
      (set_nth n (CWrite up (match c_phys r with None => true | Some p => negb (Bool.eqb p up) end)) (c_threads r)))
  | Some (CWrite up inform) => Some (mkR (Some up) (c_sent r) (set_nth n (CSend up inform) (c_threads r)))
  | Some (CSend up inform) => Some (mkR (c_phys r) (if inform then c_sent r ++ [up] else c_sent r) (set_nth n CDone (c_threads r)))
  end.
Fixpoint race_run (l : list nat) (r : race) : option race :=
  match l with [] => Some r | n :: t => match race_step n r with Some r' => race_run t r' | None => None end end.
