(** Model of the contact graph routing library, common/cgr/src/libcgr.cpp (Cpp below) and common/cgr/include/libcgr.h, and of
    the router's use of it, module/router/src/router.cpp (Router below).
    time_t is signed 64-bit, modelled by Z; a result outside its range is undefined, hence None, as are a failed assertion, a
    null pointer followed and a vector read out of range. Contacts are as cp_load makes them: confidence is 1, nothing is
    suppressed, all three entries of mav are the volume. Not modelled: reading the plan from JSON, printing, and the field
    confidence of a route. *)
From Coq Require Import NArith ZArith List Bool.
From Verif Require Import Base.
Import ListNotations.
Open Scope Z_scope.

(** libcgr.h:16 MAX_TIME_T, and the smallest time_t. *)
Definition max_time : Z := 9223372036854775807.
Definition min_time : Z := -9223372036854775808.
Definition in_time (z : Z) : bool := (min_time <=? z) && (z <=? max_time).
(** Signed addition and subtraction of time_t. *)
Definition tadd (a b : Z) : option Z := if in_time (a + b) then Some (a + b) else None.
Definition tsub (a b : Z) : option Z := if in_time (a - b) then Some (a - b) else None.
(** Conversion to uint64_t. *)
Definition to_u64 (z : Z) : N := Z.to_N (z mod 18446744073709551616).

(** libcgr.h:23-30 the fixed parameters of a Contact. *)
Record contact := mkContact { k_frm : N; k_to : N; k_start : Z; k_end : Z; k_rate : N; k_owlt : Z; k_id : N }.
(** Cpp:23-32 operator==. *)
Definition contact_eq (a b : contact) : bool :=
  (N.eqb (k_frm a) (k_frm b) && N.eqb (k_to a) (k_to b) && (k_start a =? k_start b) && (k_end a =? k_end b)
   && N.eqb (k_rate a) (k_rate b) && (k_owlt a =? k_owlt b))%bool.
(** Cpp:42 volume = rate * (end - start). *)
Definition volume (c : contact) : N := ((k_rate c * to_u64 (k_end c - k_start c)) mod W64)%N.

(** Route, libcgr.h:53-76. Neither search gives a route a parent, so get_hops (Cpp:196-205) is the member hops. *)
Record route := mkRoute {
  r_hops : list contact; r_visited : list N;
  r_to : N; r_next : N; r_from_time : Z; r_to_time : Z; r_bdt : Z; r_volume : N }.

(** Cpp:143-150: to_time and best_delivery_time over all hops. *)
Fixpoint metrics_times (l : list contact) (tmax bdt : Z) : option (Z * Z) :=
  match l with
  | [] => Some (tmax, bdt)
  | c :: r =>
    match tadd bdt (k_owlt c), tadd (k_start c) (k_owlt c) with
    | Some a, Some b => metrics_times r (Z.min tmax (k_end c)) (Z.max a b)
    | _, _ => None
    end
  end.
(** Cpp:169 std::find: the hops from the first one equal to [c] on. *)
Fixpoint from_equal (c : contact) (l : list contact) : list contact :=
  match l with [] => [] | x :: r => if contact_eq x c then l else from_equal c r end.
(** Cpp:153-183: the loop computing the volume; [prev] is prev_last_byte_arr_time. *)
Fixpoint metrics_volume (all l : list contact) (first : contact) (prev : Z) (vol : N) : option N :=
  match l with
  | [] => Some vol
  | c :: r =>
    let tx := if contact_eq c first then k_start c else Z.max (k_start c) prev in
    match tadd tx (k_owlt c) with
    | None => None
    | Some arr =>
      let stop := fold_left (fun m s => if k_end s <? m then k_end s else m) (from_equal c all) max_time in
      match tsub (Z.min (k_end c) stop) tx with
      | None => None
      | Some dur =>
        let evl := N.min ((to_u64 dur * k_rate c) mod W64) (volume c) in
        metrics_volume all r first arr (if N.ltb evl vol then evl else vol)
      end
    end
  end.
(** Cpp:137-184 refresh_metrics, for the hops [l] and the visited nodes [vis]. *)
Definition refresh (l : list contact) (vis : list N) : option route :=
  match l with
  | [] => None
  | first :: _ =>
    match metrics_times l max_time 0, metrics_volume l l first 0 U64MAX with
    | Some (tmax, bdt), Some v => Some (mkRoute l vis (k_to (last l first)) (k_to first) (k_start first) tmax bdt v)
    | _, _ => None
    end
  end.
(** Cpp:186-194 eligible. *)
Definition eligible (hops : list contact) (vis : list N) (c : contact) : option bool :=
  match rev hops with
  | [] => Some true
  | x :: _ =>
    if existsb (N.eqb (k_to c)) vis then Some false else
    match tadd (k_start x) (k_owlt x) with None => None | Some t => Some (t <? k_end c) end
  end.
(** Cpp:128-135 append. *)
Definition append (hops : list contact) (vis : list N) (c : contact) : option route :=
  match eligible hops vis c with
  | Some true => refresh (hops ++ [c]) (k_to c :: k_frm c :: vis)
  | _ => None
  end.
(** Cpp:82-107 and the loops at 482-487 and 758-763: a route made of one contact and then of the others in turn. *)
Fixpoint append_all (l : list contact) (r : route) : option route :=
  match l with
  | [] => Some r
  | c :: q => match append (r_hops r) (r_visited r) c with None => None | Some r' => append_all q r' end
  end.
Definition make_route (l : list contact) : option route :=
  match l with
  | [] => None
  | c :: q => match append [] [] c with None => None | Some r => append_all q r end
  end.

(** * dijkstra, Cpp:367-491 *)
(** A Contact*: the root contact or a contact of the plan, by its position. *)
Inductive ptr := Root | At (i : nat).
(** libcgr.h:33-37: the working area of a contact of the plan. *)
Record work := mkWork { w_arr : Z; w_vis : bool; w_pred : option ptr; w_nodes : list N }.
(** Cpp:16-21 clear_dijkstra_working_area. *)
Definition work0 : work := mkWork max_time false None [].
(** The working areas, earliest_fin_arr_t and final_contact. *)
Record dst := mkDst { d_work : nat -> work; d_best : Z; d_final : option nat }.
Definition set_work (w : nat -> work) (i : nat) (x : work) : nat -> work := fun j => if Nat.eqb j i then x else w j.

Section Dijkstra.
Variable plan : list contact.
Variable root : contact.
Variable arr0 : Z. (* root_contact->arrival_time *)
Variable dest : N.

Definition deref (p : ptr) : option contact := match p with Root => Some root | At i => nth_error plan i end.
(** Cpp:396-398: the root contact's visited_nodes; its predecessor is NULL. *)
Definition area (s : dst) (p : ptr) : work :=
  match p with Root => mkWork arr0 false None [k_to root] | At i => d_work s i end.

(** Cpp:402-444: one neighbour of the current contact. *)
Definition relax (p : ptr) (cur : contact) (s : dst) (i : nat) : option dst :=
  match nth_error plan i with
  | None => None
  | Some c =>
    let cw := area s p in
    let w := d_work s i in
    if w_vis w then Some s else
    if existsb (N.eqb (k_to c)) (w_nodes cw) then Some s else
    if k_end c <=? w_arr cw then Some s else
    if N.eqb (volume c) 0 then Some s else
    if N.eqb (k_frm cur) (k_to c) && N.eqb (k_to cur) (k_frm c) then Some s else
    match (if k_start c <? w_arr cw then tadd (w_arr cw) (k_owlt c) else tadd (k_start c) (k_owlt c)) with
    | None => None
    | Some a =>
      if a <=? w_arr w then
        let s1 := mkDst (set_work (d_work s) i (mkWork a (w_vis w) (Some p) (w_nodes cw ++ [k_to c]))) (d_best s) (d_final s) in
        if N.eqb (k_to c) dest && (a <? d_best s) then Some (mkDst (d_work s1) a (Some i)) else Some s1
      else Some s
    end
  end.
Fixpoint relax_all (p : ptr) (cur : contact) (s : dst) (l : list nat) : option dst :=
  match l with
  | [] => Some s
  | i :: r => match relax p cur s i with None => None | Some s' => relax_all p cur s' r end
  end.
(** Cpp:378-387: the positions of the contacts from node [n], in the order of the plan. *)
Definition neighbours (n : N) : list nat :=
  filter (fun i => match nth_error plan i with Some c => N.eqb (k_frm c) n | None => false end) (seq 0 (length plan)).
(** Cpp:446: the current contact becomes visited. *)
Definition visit (s : dst) (p : ptr) : dst :=
  match p with
  | Root => s
  | At i => let w := d_work s i in mkDst (set_work (d_work s) i (mkWork (w_arr w) true (w_pred w) (w_nodes w))) (d_best s) (d_final s)
  end.
(** Cpp:449-466: the next contact, with earliest_arr_t. *)
Definition next_contact (s : dst) : option (Z * nat) :=
  fold_left (fun acc i =>
    let w := d_work s i in
    if w_vis w then acc else
    if d_best s <? w_arr w then acc else
    if w_arr w <? match acc with Some (e, _) => e | None => max_time end then Some (w_arr w, i) else acc)
    (seq 0 (length plan)) None.
(** Cpp:400-473: the search; every round visits another contact, [fuel] bounds the rounds. *)
Fixpoint search (fuel : nat) (p : ptr) (s : dst) : option dst :=
  match fuel with
  | O => None
  | S f =>
    match deref p with
    | None => None
    | Some cur =>
      match relax_all p cur s (neighbours (k_to cur)) with
      | None => None
      | Some s1 =>
        let s2 := visit s1 p in
        match next_contact s2 with
        | None => Some s2
        | Some (_, i) => search f (At i) s2
        end
      end
    end
  end.
(** Cpp:477-480: the hops from the final contact back to the root contact, the latter found by value. *)
Fixpoint back (fuel : nat) (s : dst) (p : ptr) (hops : list contact) : option (list contact) :=
  match fuel with
  | O => None
  | S f =>
    match deref p with
    | None => None
    | Some c =>
      if contact_eq c root then Some hops else
      match w_pred (area s p) with None => None | Some q => back f s q (c :: hops) end
    end
  end.
(** Cpp:367-491 dijkstra; the inner None is the route that is not valid (Cpp:123-126). *)
Definition dijkstra : option (option route) :=
  match search (S (length plan)) Root (mkDst (fun _ => work0) max_time None) with
  | None => None
  | Some s =>
    match d_final s with
    | None => Some None
    | Some i =>
      match back (S (S (length plan))) s (At i) [] with
      | None => None
      | Some l => match make_route l with None => None | Some r => Some (Some r) end
      end
    end
  end.
End Dijkstra.

(** * cmr_dijkstra, Cpp:598-766 *)
(** Cpp:559-576: the loop of contact_search_index over the end times, [fuel] bounding its rounds. *)
Fixpoint bsearch (ends : list Z) (t : Z) (fuel : nat) (left right : nat) : option nat :=
  if Nat.ltb (left + 1) right then
    match fuel with
    | O => None
    | S f =>
      let mid := Nat.div2 (left + right) in
      match nth_error ends mid with
      | None => None
      | Some e => if t <? e then bsearch ends t f left mid else bsearch ends t f mid right
      end
    end
  else Some right.
Definition search_index (ends : list Z) (t : Z) : option nat :=
  match ends with
  | [] => None
  | e :: _ => if t <? e then Some 0%nat else bsearch ends t (length ends) 0 (length ends - 1)
  end.

Section Multigraph.
Variable plan : list contact.

Definition ends_of (l : list nat) : list Z := map (fun i => match nth_error plan i with Some c => k_end c | None => 0 end) l.
(** Cpp:271-287: contact [i] is put among those between the same two nodes. *)
Definition adj_insert (i : nat) (c : contact) (adj : list nat) : option (list nat) :=
  match rev adj with
  | [] => Some [i]
  | j :: _ =>
    match nth_error plan j with
    | None => None
    | Some d =>
      if k_start d <? k_start c then Some (adj ++ [i]) else
      match search_index (ends_of adj) (k_start c) with
      | None => None
      | Some x => Some (firstn x adj ++ i :: skipn x adj)
      end
    end
  end.
(** Cpp:262-289: the adjacencies after the contacts [l], the first of which has position [i]. *)
Fixpoint adj_build (l : list contact) (i : nat) (adj : N -> N -> list nat) : option (N -> N -> list nat) :=
  match l with
  | [] => Some adj
  | c :: r =>
    match adj_insert i c (adj (k_frm c) (k_to c)) with
    | None => None
    | Some x => adj_build r (S i) (fun v u => if N.eqb v (k_frm c) && N.eqb u (k_to c) then x else adj v u)
    end
  end.
(** Cpp:262-295: the keys of m_nodeMap. *)
Definition nodes (dest : N) : list N := nodup N.eq_dec (map k_frm plan ++ [dest]).

(** Cpp:578-595 contact_search_predecessor. *)
Definition search_predecessor (l : list nat) (t : Z) : option nat :=
  match search_index (ends_of l) t with None => None | Some x => nth_error l x end.

(** m_arrivalTime, m_visited (the visited nodes, the last visited one first), m_predecessorNodeId (None is the initial UINT64_MAX) and the
    entries of PQ. The member vertex_arrival_time is copied into an entry and not used otherwise. *)
Record cst := mkCst { c_arr : N -> Z; c_vis : list N; c_pred : N -> option nat; c_pq : list (Z * N) }.
Definition upd {A} (f : N -> A) (k : N) (x : A) : N -> A := fun j => if N.eqb j k then x else f j.

(** libcgr.h:125-136 CompareArrivals: whether [a] comes out before [b]. *)
Definition before (a b : Z * N) : bool := if fst a =? fst b then N.ltb (snd a) (snd b) else fst a <? fst b.
(** PQ.top() and PQ.pop(): the entry that no other comes out before, and the rest. *)
Fixpoint pq_pop (l : list (Z * N)) : option ((Z * N) * list (Z * N)) :=
  match l with
  | [] => None
  | x :: r =>
    match pq_pop r with
    | None => Some (x, [])
    | Some (y, q) => if before y x then Some (y, x :: q) else Some (x, r)
    end
  end.

(** What one neighbour does: undefined, give up without a route, or go on. *)
Inductive outcome {A} := Undef | NoRoute | Go (a : A).
Arguments outcome : clear implicits.
(** Cpp:625-692: one neighbour [u] of node [v]. *)
Definition cmr_relax (adj : N -> N -> list nat) (ns : list N) (v : N) (s : cst) (u : N) : outcome cst :=
  if negb (existsb (N.eqb u) ns) then NoRoute else
  if existsb (N.eqb u) (c_vis s) then Go s else
  let l := adj v u in
  match rev l with
  | [] => Go s
  | j :: _ =>
    match nth_error plan j, search_index (ends_of l) (c_arr s v) with
    | Some lastc, Some x =>
      let a := c_arr s v in
      if (k_end lastc <? a) && negb (a =? max_time) then Go s else
      match nth_error l x with
      | None => Undef
      | Some i =>
        match nth_error plan i with
        | None => Undef
        | Some b =>
          match tsub max_time (k_owlt b) with
          | None => Undef
          | Some lim =>
            let m := Z.max (k_start b) a in
            let best := if m <=? lim then m + k_owlt b else m in
            if best <? c_arr s u then
              match search_predecessor l a with
              | None => Undef
              | Some p => Go (mkCst (upd (c_arr s) u best) (c_vis s) (upd (c_pred s) u (Some p)) ((best, u) :: c_pq s))
              end
            else Go s
          end
        end
      end
    | _, _ => Undef
    end
  end.
Fixpoint cmr_relax_all adj ns v (s : cst) (l : list N) : outcome cst :=
  match l with
  | [] => Go s
  | u :: r => match cmr_relax adj ns v s u with Go s' => cmr_relax_all adj ns v s' r | o => o end
  end.
(** Cpp:623-712: from node [v] on; [order v] is the order in which the hash map of [v] gives its neighbours. *)
Fixpoint cmr_search adj ns (order : N -> list N) (dest : N) (fuel : nat) (v : N) (s : cst) : outcome cst :=
  match fuel with
  | O => Undef
  | S f =>
    match cmr_relax_all adj ns v s (order v) with
    | Go s1 =>
      match pq_pop (c_pq s1) with
      | None => NoRoute
      | Some ((_, u), q) =>
        let s2 := mkCst (c_arr s1) (if existsb (N.eqb v) (c_vis s1) then c_vis s1 else v :: c_vis s1) (c_pred s1) q in
        if N.eqb u dest then Go s2 else cmr_search adj ns order dest f u s2
      end
    | o => o
    end
  end.
(** Cpp:724-750: the hops from the destination back. *)
Fixpoint cmr_back (ns : list N) (src : N) (s : cst) (fuel : nat) (n : N) (hops : list contact) : option (list contact) :=
  match fuel with
  | O => None
  | S f =>
    if negb (existsb (N.eqb n) ns) then Some hops else
    match c_pred s n with
    | None => Some hops
    | Some i =>
      match nth_error plan i with
      | None => Some hops
      | Some c =>
        if N.eqb (k_frm c) (k_to c) then Some hops else
        if N.eqb (k_frm c) src then Some (c :: hops) else
        cmr_back ns src s f (k_frm c) (c :: hops)
      end
    end
  end.
(** Cpp:598-766 cmr_dijkstra. Cpp:603 makes a default CmrMapData, with nothing initialised, if the source is not in the map. *)
Definition cmr_dijkstra (order : N -> list N) (root : contact) (dest : N) : option (option route) :=
  match adj_build plan 0 (fun _ _ => []) with
  | None => None
  | Some adj =>
    let ns := nodes dest in
    if negb (existsb (N.eqb (k_frm root)) ns) then None else
    let s0 := mkCst (upd (fun _ => max_time) (k_frm root) (k_start root)) [] (fun _ => None) (map (fun n => (max_time, n)) ns) in
    match pq_pop (c_pq s0) with
    | None => Some None
    | Some ((_, v), q) =>
      match cmr_search adj ns order dest (S (length ns + length plan)) v (mkCst (c_arr s0) [] (c_pred s0) q) with
      | Undef => None
      | NoRoute => Some None
      | Go s =>
        match cmr_back ns (k_frm root) s (S (length ns)) dest [] with
        | None => None
        | Some [] => Some None
        | Some l => match make_route l with None => None | Some r => Some (Some r) end
        end
      end
    end
  end.
End Multigraph.

(** * The router *)
(** Router:1523-1561 FilterContactPlan: [down n] is whether some outduct has next hop [n] and is not up, [now] is m_latestTime. *)
Definition filter_plan (src : N) (now : N) (down : N -> bool) (plan : list contact) : list contact :=
  filter (fun c =>
    negb (N.leb (to_u64 (k_start c)) now && N.leb now (to_u64 (k_end c)) && N.eqb (k_frm c) src && down (k_to c))) plan.
(** Router:1686-1688: the root contact. *)
Definition root_contact (src : N) : contact := mkContact src src 0 max_time 100 0 U64MAX.
(** common/include/message.hpp:79 HDTN_NOROUTE. *)
Definition no_route : N := U64MAX.
(** Router:1675-1706 ComputeOptimalRoute; [mgr] is m_usingMGR. Assigning a uint64_t to a time_t reduces it modulo 2^64. *)
Definition to_time (n : N) : Z := if N.ltb n 9223372036854775808 then Z.of_N n else Z.of_N n - 18446744073709551616.
Definition compute_route (mgr : bool) (order : N -> list N) (src now dest : N) (down : N -> bool) (plan : list contact) : option N :=
  let p := filter_plan src now down plan in
  match (if mgr then cmr_dijkstra p order (root_contact src) dest else dijkstra p (root_contact src) (to_time now) dest) with
  | None => None
  | Some None => Some no_route
  | Some (Some r) => Some (r_next r)
  end.
