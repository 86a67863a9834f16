(** Model of the router, module/router/src/router.cpp (Router below): link states, contact schedule, routes and the messages
    it sends. Every handler runs to completion on its own: the telemetry thread, which calls rerouting functions directly
    (Router:1002-1026), is taken to be serialised with the io thread. Sending never fails. A time is a number of microseconds
    since the Unix epoch. The numbers of a contact plan are not negative. An unordered container is iterated in an order given by a parameter. Not modelled: JSON syntax,
    bundles to and from the router, start-up and shut-down, logging. *)
From Coq Require Import NArith ZArith List Bool.
From Verif Require Import Base M_Cgr.
Import ListNotations.
Open Scope N_scope.

(** Router:141-192 OutductInfo_t; the key of the map is the outductIndex. *)
Record outduct := mkOut { o_hop : N; o_time : bool; o_phys : bool; o_stor : bool; o_dests : list N }.
(** Router:176-178 IsUp. *)
Definition is_up (o : outduct) : bool := o_time o && o_phys o && o_stor o.
(** Router:150-165 updateLinkStateTimeBased, updateLinkStatePhysical, updateLinkStateStorage. *)
Definition set_time (b : bool) (o : outduct) : outduct := mkOut (o_hop o) b (o_phys o) (o_stor o) (o_dests o).
Definition set_phys (b : bool) (o : outduct) : outduct := mkOut (o_hop o) (o_time o) b (o_stor o) (o_dests o).
Definition set_stor (b : bool) (o : outduct) : outduct := mkOut (o_hop o) (o_time o) (o_phys o) b (o_dests o).
Definition set_dests (l : list N) (o : outduct) : outduct := mkOut (o_hop o) (o_time o) (o_phys o) (o_stor o) l.
Definition changed (o o' : outduct) : bool := negb (Bool.eqb (is_up o) (is_up o')).

(** The contacts of the JSON contact plan. *)
Record row := mkRow { w_contact : N; w_source : N; w_dest : N; w_start : N; w_end : N; w_rate : N; w_owlt : N }.
(** ptree::get<int>(..., 0): a number that is no int gives the default. *)
Definition as_int (n : N) : N := if N.ltb n 2147483648 then n else 0.
(** Router:126-138 contactPlan_t, an event of the schedule. *)
Record event := mkEvent { e_contact : N; e_source : N; e_dest : N; e_start : N; e_rate : N; e_out : N; e_up : bool }.
(** Router:321-335: neither comes before the other. *)
Definition same_event (a b : event) : bool :=
  N.eqb (e_contact a) (e_contact b) && N.eqb (e_source a) (e_source b) && N.eqb (e_dest a) (e_dest b)
  && Bool.eqb (e_up a) (e_up b) && N.eqb (e_start a) (e_start b).

(** Messages: to all (Router:579-599, 630-650), to the egress (Router:609-624, 1468-1489). *)
Inductive msg :=
| LinkUp (i : N) | LinkDown (i : N)
| Rate (i : N) (bps : N) (up : bool)
| RouteTo (dest : N) (hop : N).

(** An outstanding wait on a deadline_timer: until a time, or its handler is queued, with or without error. *)
Inductive wait := Until (t : N) | Expired | Aborted.
(** deadline_timer::cancel, also by expires_at. *)
Definition abort (w : wait) : wait := match w with Until _ => Aborted | x => x end.
Definition arm (ws : list wait) (t : N) : list wait := map abort ws ++ [Until t].

(** Keys of the two bimaps: Router:253 ptime_index_pair_t. *)
Definition key : Set := (N * N)%type.
Definition key_lt (a b : key) : bool := if N.eqb (fst a) (fst b) then N.ltb (snd a) (snd b) else N.ltb (fst a) (fst b).
Definition key_eq (a b : key) : bool := N.eqb (fst a) (fst b) && N.eqb (snd a) (snd b).
(** Insertion into the left map, in order of the keys. *)
Fixpoint put {A} (k : key) (x : A) (l : list (key * A)) : list (key * A) :=
  match l with
  | [] => [(k, x)]
  | (k', y) :: r => if key_lt k k' then (k, x) :: l else (k', y) :: put k x r
  end.
(** Router:1380-1383, 1390-1393, 807-810: the first free key for a time; [fuel] bounds the search. *)
Fixpoint free_key {A} (l : list (key * A)) (t : N) (fuel : nat) (i : N) : key :=
  match fuel with
  | O => (t, i)
  | S f => if existsb (fun e => key_eq (fst e) (t, i)) l then free_key l t f (i + 1) else (t, i)
  end.

(** The members. [t_sent] has the last message first. *)
Record rt := mkRt {
  t_outs : list (N * outduct); t_hops : list (N * N);
  t_routes : list (N * N); t_plan : list contact; t_latest : N;
  t_sched : list (key * event); t_cwait : list wait; t_crun : bool; t_epoch : N; t_sub : N;
  t_stor : list (key * N); t_swait : list wait; t_srun : bool;
  t_now : N; t_sent : list msg }.
Definition with_outs s x := mkRt x (t_hops s) (t_routes s) (t_plan s) (t_latest s) (t_sched s) (t_cwait s) (t_crun s) (t_epoch s) (t_sub s) (t_stor s) (t_swait s) (t_srun s) (t_now s) (t_sent s).
Definition with_routes s x := mkRt (t_outs s) (t_hops s) x (t_plan s) (t_latest s) (t_sched s) (t_cwait s) (t_crun s) (t_epoch s) (t_sub s) (t_stor s) (t_swait s) (t_srun s) (t_now s) (t_sent s).
Definition with_plan s x := mkRt (t_outs s) (t_hops s) (t_routes s) x (t_latest s) (t_sched s) (t_cwait s) (t_crun s) (t_epoch s) (t_sub s) (t_stor s) (t_swait s) (t_srun s) (t_now s) (t_sent s).
Definition with_latest s x := mkRt (t_outs s) (t_hops s) (t_routes s) (t_plan s) x (t_sched s) (t_cwait s) (t_crun s) (t_epoch s) (t_sub s) (t_stor s) (t_swait s) (t_srun s) (t_now s) (t_sent s).
Definition with_sched s x := mkRt (t_outs s) (t_hops s) (t_routes s) (t_plan s) (t_latest s) x (t_cwait s) (t_crun s) (t_epoch s) (t_sub s) (t_stor s) (t_swait s) (t_srun s) (t_now s) (t_sent s).
Definition with_ctimer s w r := mkRt (t_outs s) (t_hops s) (t_routes s) (t_plan s) (t_latest s) (t_sched s) w r (t_epoch s) (t_sub s) (t_stor s) (t_swait s) (t_srun s) (t_now s) (t_sent s).
Definition with_epoch s e b := mkRt (t_outs s) (t_hops s) (t_routes s) (t_plan s) (t_latest s) (t_sched s) (t_cwait s) (t_crun s) e b (t_stor s) (t_swait s) (t_srun s) (t_now s) (t_sent s).
Definition with_stor s x := mkRt (t_outs s) (t_hops s) (t_routes s) (t_plan s) (t_latest s) (t_sched s) (t_cwait s) (t_crun s) (t_epoch s) (t_sub s) x (t_swait s) (t_srun s) (t_now s) (t_sent s).
Definition with_stimer s w r := mkRt (t_outs s) (t_hops s) (t_routes s) (t_plan s) (t_latest s) (t_sched s) (t_cwait s) (t_crun s) (t_epoch s) (t_sub s) (t_stor s) w r (t_now s) (t_sent s).
Definition with_now s x := mkRt (t_outs s) (t_hops s) (t_routes s) (t_plan s) (t_latest s) (t_sched s) (t_cwait s) (t_crun s) (t_epoch s) (t_sub s) (t_stor s) (t_swait s) (t_srun s) x (t_sent s).
Definition send m s := mkRt (t_outs s) (t_hops s) (t_routes s) (t_plan s) (t_latest s) (t_sched s) (t_cwait s) (t_crun s) (t_epoch s) (t_sub s) (t_stor s) (t_swait s) (t_srun s) (t_now s) (m :: t_sent s).

(** Lookup and assignment in a map. *)
Fixpoint get {A} (l : list (N * A)) (k : N) : option A :=
  match l with [] => None | (k', x) :: r => if N.eqb k k' then Some x else get r k end.
Fixpoint set {A} (l : list (N * A)) (k : N) (x : A) : list (N * A) :=
  match l with [] => [(k, x)] | (k', y) :: r => if N.eqb k k' then (k, x) :: r else (k', y) :: set r k x end.
(** The order in which an unordered container with the elements [l] is iterated, chosen by [ord]. *)
Definition mem (x : N) (l : list N) : bool := existsb (N.eqb x) l.
Definition arrange (ord l : list N) : list N := filter (fun x => mem x l) (nodup N.eq_dec ord) ++ filter (fun x => negb (mem x ord)) l.

Section Router.
Variable me : N.            (* m_hdtnConfig.m_myNodeId *)
Variable unix : bool.       (* m_usingUnixTimestamp *)
Variable mgr : bool.        (* m_usingMGR *)
Variable order : N -> list N. (* the order of the hash maps of the multigraph *)
Variable hold : N.          (* m_hdtnConfig.m_neighborDepletedStorageDelaySeconds, not 0 *)

(** Router:1403-1420 PopulateMapsFromAllOutductCapabilitiesTelemetry: for each outduct its array index, next hop and
    assumedInitiallyDown; emplace does not replace. std::map is ordered by the index. *)
Fixpoint insert_out (i : N) (o : outduct) (l : list (N * outduct)) : list (N * outduct) :=
  match l with
  | [] => [(i, o)]
  | (j, p) :: r => if N.eqb i j then l else if N.ltb i j then (i, o) :: l else (j, p) :: insert_out i o r
  end.
Fixpoint populate (telem : list (N * N * bool)) (s : rt) : rt :=
  match telem with
  | [] => s
  | (i, h, down) :: r =>
    populate r (mkRt (insert_out i (mkOut h false (negb down) true []) (t_outs s)) (set (t_hops s) h i) (t_routes s) (t_plan s) (t_latest s) (t_sched s)
      (t_cwait s) (t_crun s) (t_epoch s) (t_sub s) (t_stor s) (t_swait s) (t_srun s) (t_now s) (t_sent s))
  end.
(** Router:338-352 with the first telemetry received at time [now]. *)
Definition start (now : N) (telem : list (N * N * bool)) : rt :=
  populate telem (mkRt [] [] [] [] 0 [] [] false 0 0 [] [] false now []).

(** Router:1542-1554: whether the contact's next hop has an outduct and it is not up. An index in the one map is in the other too. *)
Definition hop_down (s : rt) (h : N) : bool :=
  match get (t_hops s) h with
  | None => false
  | Some i => match get (t_outs s) i with None => true | Some o => negb (is_up o) end
  end.
(** Router:1675-1706 ComputeOptimalRoute. *)
Definition best_hop (s : rt) (dest : N) : option N :=
  compute_route mgr order me (t_latest s) dest (hop_down s) (t_plan s).
(** Router:1572-1597 UpdateRouteState. *)
Definition update_route (old new dest : N) (s : rt) : rt :=
  let s1 := with_routes s (set (t_routes s) dest new) in
  let s2 := if N.eqb old no_route then s1 else
    match get (t_hops s1) old with
    | None => s1
    | Some i => match get (t_outs s1) i with None => s1 | Some o => with_outs s1 (set (t_outs s1) i (set_dests (filter (fun d => negb (N.eqb d dest)) (o_dests o)) o)) end
    end in
  if N.eqb new no_route then s2 else
    match get (t_hops s2) new with
    | None => s2
    | Some i => match get (t_outs s2) i with None => s2 | Some o => with_outs s2 (set (t_outs s2) i (set_dests (if mem dest (o_dests o) then o_dests o else dest :: o_dests o) o)) end
    end.
(** Router:1610-1625, 1649-1664: a new next hop for [dest], which had [old]. *)
Definition reroute (old dest : N) (s : rt) : option rt :=
  match best_hop s dest with
  | None => None
  | Some new => if N.eqb new old then Some s else Some (send (RouteTo dest new) (update_route old new dest s))
  end.
(** Router:1605-1627 ComputeAllRoutes. *)
Fixpoint reroute_all (l : list N) (s : rt) : option rt :=
  match l with
  | [] => Some s
  | d :: r =>
    match get (t_routes s) d with
    | None => None
    | Some old => match reroute old d s with None => None | Some s' => reroute_all r s' end
    end
  end.
(** Router:1636-1666 ComputeOptimalRoutesForOutductIndex, the loop. *)
Fixpoint reroute_out (old : N) (l : list N) (s : rt) : option rt :=
  match l with
  | [] => Some s
  | d :: r => match reroute old d s with None => None | Some s' => reroute_out old r s' end
  end.
(** Router:1494, 1503: the current router time. *)
Definition refresh_time (s : rt) : rt := with_latest s (sub64 (t_now s / 1000000) (t_sub s)).
(** Router:1493-1500 RerouteOnLinkDown; the outduct info is initialised. *)
Definition on_link_down (i : N) (ord : list N) (s : rt) : option rt :=
  let s := refresh_time s in
  match get (t_outs s) i with
  | None => Some s
  | Some o => reroute_out (o_hop o) (arrange ord (o_dests o)) s
  end.
(** Router:1502-1509 RerouteOnLinkUp. *)
Definition on_link_up (ord : list N) (s : rt) : option rt :=
  let s := refresh_time s in reroute_all (arrange ord (map fst (t_routes s))) s.

(** The part common to Router:774-782, 843-856, 1007-1011, 1019-1023, 1346-1362, 1446-1460: a link state is updated and, if the
    link goes up or down with it, everyone is told and routes are recomputed. [pre] is what is sent before. *)
Definition update_link (i : N) (f : outduct -> outduct) (up : bool) (pre : list msg) (ord : list N) (s : rt) : option rt :=
  match get (t_outs s) i with
  | None => None
  | Some o =>
    let s1 := fold_left (fun s m => send m s) pre (with_outs s (set (t_outs s) i (f o))) in
    if changed o (f o) then if up then on_link_up ord (send (LinkUp i) s1) else on_link_down i ord (send (LinkDown i) s1) else Some s1
  end.

(** Router:1431-1461 HandlePhysicalLinkStatusChange. *)
Definition physical (i : N) (up : bool) (ord : list N) (s : rt) : option rt :=
  match get (t_outs s) i with None => Some s | Some _ => update_link i (set_phys up) up [] ord s end.
(** Router:1002-1026 the commands SetLinkDown and SetLinkUp. *)
Definition api (i : N) (up : bool) (ord : list N) (s : rt) : option rt :=
  match get (t_outs s) i with None => Some s | Some _ => update_link i (set_time up) up [] ord s end.

(** Router:1378-1400 AddContact_NotThreadSafe; a bimap refuses an event that is already in it. *)
Definition add_event (t : N) (e : event) (s : rt) : option rt :=
  let k := free_key (t_sched s) t (S (length (t_sched s))) 0 in
  if existsb (fun x => same_event (snd x) e) (t_sched s) then None else Some (with_sched s (put k e (t_sched s))).
Definition add_contact (w : row) (i : N) (s : rt) : rt :=
  let ev up := mkEvent (as_int (w_contact w)) (as_int (w_source w)) (as_int (w_dest w)) (as_int (w_start w)) (w_rate w) i up in
  match add_event (t_epoch s + as_int (w_start w) * 1000000) (ev true) s with
  | None => s
  | Some s1 => match add_event (t_epoch s + as_int (w_end w) * 1000000) (ev false) s1 with None => s1 | Some s2 => s2 end
  end.
(** Router:1255-1289: one contact of the new plan. *)
Definition add_row (s : rt) (w : row) : rt :=
  if N.eqb (as_int (w_dest w)) me then s else
  let s1 := with_routes s (set (t_routes s) (as_int (w_dest w)) no_route) in
  if negb (N.eqb (as_int (w_source w)) me) then s1 else
  match get (t_hops s1) (as_int (w_dest w)) with None => s1 | Some i => add_contact w i s1 end.
(** Router:1186-1208 FilterContactsPropertyTree and libcgr.cpp:328-353 cp_load. *)
Definition routing_row (s : rt) (w : row) : bool :=
  negb (N.eqb (as_int (w_source w)) me) || match get (t_hops s) (as_int (w_dest w)) with None => false | Some _ => true end.
Definition load_row (w : row) : contact :=
  mkContact (w_source w) (w_dest w) (Z.of_N (w_start w)) (Z.of_N (w_end w)) (if N.eqb (w_rate w) 0 then 1000000000 else w_rate w) (Z.of_N (w_owlt w)) (w_contact w).
(** Router:1314-1327 TryRestartContactPlanTimer. *)
Definition restart_contact_timer (s : rt) : rt :=
  if t_crun s then s else
  match t_sched s with [] => s | ((t, _), _) :: _ => with_ctimer s (arm (t_cwait s) t) true end.
(** Router:1217-1226: the links that are up by the old plan go down, and no outduct has final destinations. *)
Definition drop_link (i : N) (o : outduct) (s : rt) : rt :=
  let o' := set_time false o in
  let s1 := with_outs s (set (t_outs s) i (set_dests [] o')) in
  if changed o o' then send (LinkDown i) s1 else s1.
Definition drop_links (s : rt) : rt := fold_left (fun s x => drop_link (fst x) (snd x) s) (t_outs s) s.
(** Router:1211-1310 ProcessContacts; [ord] and [ord'] are the orders of m_routes before and after. *)
Definition load_plan (rows : list row) (ord ord' : list N) (s : rt) : rt :=
  let s := drop_links (with_ctimer s (map abort (t_cwait s)) (t_crun s)) in
  let s := fold_left (fun s d => match get (t_routes s) d with Some h => if N.eqb h no_route then s else send (RouteTo d no_route) s | None => s end)
             (arrange ord (map fst (t_routes s))) s in
  let s := with_sched (with_routes s []) [] in
  let s := if unix then with_epoch s 0 0 else with_epoch s (t_now s) (t_now s / 1000000) in
  let s := fold_left add_row rows s in
  let s := with_plan s (map load_row (filter (routing_row s) rows)) in
  let s := fold_left (fun s d => send (RouteTo d no_route) s) (arrange ord' (map fst (t_routes s))) s in
  restart_contact_timer (with_ctimer s (t_cwait s) false).

(** Router:1329-1375 OnContactPlan_TimerExpired. *)
Definition contact_timer (aborted : bool) (ord : list N) (s : rt) : option rt :=
  let s := with_ctimer s (t_cwait s) false in
  if aborted then Some s else
  match t_sched s with
  | [] => Some s
  | (_, e) :: r =>
    let finish s := restart_contact_timer (with_sched s r) in
    match get (t_outs s) (e_out e) with
    | None => Some (finish s)
    | Some _ => match update_link (e_out e) (set_time (e_up e)) (e_up e) [Rate (e_out e) (e_rate e) (e_up e)] ord s with None => None | Some s' => Some (finish s') end
    end
  end.

(** Router:789-802 TryRestartStorageTimer. *)
Definition restart_storage_timer (s : rt) : rt :=
  if t_srun s then s else
  match t_stor s with [] => s | ((t, _), _) :: _ => with_stimer s (arm (t_swait s) t) true end.
(** Router:804-828 AddStorageExpirationTime: one entry per outduct. *)
Definition add_expiry (i t : N) (s : rt) : rt :=
  let k := free_key (t_stor s) t (S (length (t_stor s))) 0 in
  with_stor s (put k i (filter (fun x => negb (N.eqb (snd x) i)) (t_stor s))).
(** Router:830-857 HandleNodeWithDepletedStorage: the new state is set and the timer restarted before anyone is told. *)
Definition depleted (node : N) (ord : list N) (s : rt) : option rt :=
  match get (t_hops s) node with
  | None => Some s
  | Some i => update_link i (set_stor false) false [] ord (restart_storage_timer (add_expiry i (t_now s + hold * 1000000) s))
  end.
(** Router:750-787 OnStorageFull_TimerExpired. *)
Definition storage_timer (aborted : bool) (ord : list N) (s : rt) : option rt :=
  let s := with_stimer s (t_swait s) false in
  if aborted then Some s else
  match t_stor s with
  | [] => Some s
  | ((t, _), i) :: r =>
    let s := if N.ltb (t_now s) t then restart_storage_timer s else s in
    match update_link i (set_stor true) true [] ord s with
    | None => None
    | Some s' => Some (restart_storage_timer (with_stor s' r))
    end
  end.

(** What can happen: messages and commands, time passing, a wait expiring, a queued handler being run. *)
Inductive input :=
| IPhysical (i : N) (up : bool) (ord : list N)
| IApi (i : N) (up : bool) (ord : list N)
| IPlan (rows : list row) (ord ord' : list N)
| IDepleted (node : N) (ord : list N)
| ITime (dt : N)
| IExpireC (n : nat) | IExpireS (n : nat)
| IRunC (n : nat) (ord : list N) | IRunS (n : nat) (ord : list N).
Fixpoint remove_at {A} (n : nat) (l : list A) : list A :=
  match l, n with [], _ => [] | _ :: r, O => r | x :: r, S k => x :: remove_at k r end.
Definition expire (now : N) (n : nat) (ws : list wait) : list wait :=
  match nth_error ws n with
  | Some (Until t) => if N.leb t now then firstn n ws ++ Expired :: skipn (S n) ws else ws
  | _ => ws
  end.
Definition step (s : rt) (i : input) : option rt :=
  match i with
  | IPhysical i up ord => physical i up ord s
  | IApi i up ord => api i up ord s
  | IPlan rows ord ord' => Some (load_plan rows ord ord' s)
  | IDepleted node ord => depleted node ord s
  | ITime dt => Some (with_now s (t_now s + dt))
  | IExpireC n => Some (with_ctimer s (expire (t_now s) n (t_cwait s)) (t_crun s))
  | IExpireS n => Some (with_stimer s (expire (t_now s) n (t_swait s)) (t_srun s))
  | IRunC n ord =>
    match nth_error (t_cwait s) n with
    | Some Expired => contact_timer false ord (with_ctimer s (remove_at n (t_cwait s)) (t_crun s))
    | Some Aborted => contact_timer true ord (with_ctimer s (remove_at n (t_cwait s)) (t_crun s))
    | _ => Some s
    end
  | IRunS n ord =>
    match nth_error (t_swait s) n with
    | Some Expired => storage_timer false ord (with_stimer s (remove_at n (t_swait s)) (t_srun s))
    | Some Aborted => storage_timer true ord (with_stimer s (remove_at n (t_swait s)) (t_srun s))
    | _ => Some s
    end
  end.
Fixpoint run (s : rt) (l : list input) : option rt :=
  match l with [] => Some s | i :: r => match step s i with None => None | Some s' => run s' r end end.
End Router.
