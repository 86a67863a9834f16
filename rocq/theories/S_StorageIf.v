(** Vocabulary of C52: the links of the storage interface, what they hold, where a stored bundle is, and what the storage interface expects of
    egress, of the nodes that send custody signals and of the custody ids. *)
From Coq Require Import NArith List Bool.
From Verif Require Import Base M_CustodyId M_StorageIf.
Import ListNotations.
Open Scope N_scope.

(** ** Links *)
Fixpoint numbered (n : nat) (l : list link) : list (ref * link) := match l with [] => [] | k :: r => (RVec n, k) :: numbered (S n) r end.
(** The outducts in their order, then the opportunistic links. *)
Definition links (s : state) : list (ref * link) := numbered 0 (g_vec s) ++ map (fun e => (ROpp (fst e), snd e)) (g_opp s).
Definition total (l : list (N * N)) : N := fold_right (fun e t => snd e + t) 0 l.
Definition held (k : link) : N := total (k_open k) + total (k_acks k).
Definition count (k : link) : N := N.of_nat (length (k_open k) + length (k_acks k)).
Definition opportunistic (r : ref) : bool := match r with RVec _ => false | ROpp _ => true end.
(** The byte counter tells what is in the pipeline, up to 2^64; a bundle is there once; only a link that is up has a queue; an opportunistic
    link has no cut-through bundles. *)
Definition sound_link (r : ref) (k : link) : Prop :=
  k_bytes k = held k mod W64 /\ NoDup (map fst (k_open k)) /\ NoDup (map fst (k_acks k)) /\ (k_up k = false -> k_queue k = []) /\
  (opportunistic r = true -> k_queue k = [] /\ k_acks k = []).
Definition up_refs (l : list (ref * link)) : list ref := map fst (filter (fun x => k_up (snd x)) l).

(** ** Acks *)
(** Bundles received for storage: the id and the outduct an ack for each has to name. *)
Definition received (l : list label) : list (N * N) :=
  flat_map (fun x => match l_event x with Store m _ _ => [(s_id m, s_idx m)] | _ => [] end) l.
Definition ack_of (m : amsg) : N * N := (a_id m, a_idx m).
(** Acks that a link has still to give: for its queue and for what egress has. *)
Definition owed_by (r : ref) (k : link) : list (N * N) := map (fun q => (q_id q, ref_idx r)) (k_queue k) ++ map (fun e => (fst e, ref_idx r)) (k_acks k).
Definition owed (s : state) : list (N * N) := flat_map (fun x => owed_by (fst x) (snd x)) (links s).

(** ** Where a stored bundle is *)
Definition stored (s : state) (cid : N) (b : bundle) : Prop := In (cid, b) (d_ent (g_disk s)).
Definition waiting (s : state) (cid : N) : Prop := In cid (map fst (d_wait (g_disk s))).
Definition at_egress (s : state) (r : ref) (cid : N) : Prop := exists k, In (r, k) (links s) /\ In cid (map fst (k_open k)).
Definition timed (s : state) (cid : N) : Prop := In cid (map fst (d_time (g_disk s))).
(** In exactly one of three places: in line for sending, with egress for exactly one link, or sent and under a custody timer. *)
Definition in_one_place (s : state) (cid : N) : Prop :=
  (waiting s cid /\ (forall r, ~ at_egress s r cid) /\ ~ timed s cid) \/
  (~ waiting s cid /\ (exists r, at_egress s r cid /\ forall r', at_egress s r' cid -> r' = r) /\ ~ timed s cid) \/
  (~ waiting s cid /\ (forall r, ~ at_egress s r cid) /\ timed s cid).

(** ** Who may end a stored bundle *)
(** Which link an answer of egress is about. *)
Definition names_link (x : eack) (r : ref) : Prop :=
  match r with RVec i => x_idx x = N.of_nat i /\ x_idx x <> U64MAX | ROpp n => x_idx x = U64MAX /\ x_hop x = n end.
Definition signals (c : content) (cid : N) : Prop :=
  match c with Acs l => exists r, In r l /\ fst r <= cid <= snd r | Signal c => c = Some cid | _ => False end.
(** Egress confirms that this bundle, which it got for this link, was sent and needs no custody; a custody signal names it; it expired. *)
Definition ends (s : state) (e : event) (cid : N) : Prop :=
  match e with
  | EgressAck x _ => x_cut x = false /\ x_err x = NoError /\ x_delete x = true /\ x_cid x = cid /\ exists r, names_link x r /\ at_egress s r cid
  | Store m b c => s_special m = true /\ b_bad b = false /\ signals c cid
  | Expired c _ => c = cid /\ waiting s cid
  | _ => False
  end.

(** ** What is expected of the others *)
(** Egress answers after its telemetry, for links there are and for bundles it was given; it tells the destination it was told, and asks for
    the deletion of bundles without custody and of no others. *)
Definition honest_answer (s : state) (x : eack) : Prop :=
  g_init s = true /\ (exists r k, names_link x r /\ In (r, k) (links s) /\ (x_cut x = false -> In (x_cid x) (map fst (k_open k)))) /\
  (x_cut x = false -> (forall b, stored s (x_cid x) b -> x_dest x = b_dest b /\ x_delete x = negb (b_cust b)) /\
                      (x_delete x = true -> exists b, stored s (x_cid x) b)).
(** Custody signals name ids in use. *)
Definition honest_signal (s : state) (c : content) : Prop :=
  match c with
  | Acs l => NoDup l /\ (forall r, In r l -> fst r <= snd r < U64MAX /\ forall i, fst r <= i <= snd r -> In i (d_used (g_disk s))) /\
             (forall r q i, In r l -> In q l -> fst r <= i <= snd r -> fst q <= i <= snd q -> r = q)
  | Signal (Some cid) => In cid (d_used (g_disk s))
  | _ => True
  end.
Definition honest_event (s : state) (e : event) : Prop :=
  match e with
  | Telemetry l => forall o, In o l -> t_idx o < N.of_nat (length l)
  | EgressAck x _ => honest_answer s x
  | Failed i _ => g_init s = true -> i < N.of_nat (length (g_vec s))
  | RemoveLink n => forall k, In (ROpp n, k) (links s) -> k_open k = []
  | Store m b c => s_special m = true -> b_bad b = false -> honest_signal s c
  | _ => True
  end.
(** ... and no read from disk fails, and no id is issued that egress still has for a bundle that is gone. *)
Definition honest (s : state) (x : label) : Prop :=
  honest_event s (l_event x) /\ Forall (fun b => b = true) (l_reads x) /\ forall i, In i (l_ids x) -> ~ In i (open_ids s).
Inductive honest_run (cfg : config) : list label -> state -> Prop :=
| honest_start : honest_run cfg [] start
| honest_next tr s x s' : honest_run cfg tr s -> honest s x -> step cfg x s = Some s' -> honest_run cfg (tr ++ [x]) s'.

(** ** The order of sending *)
(** What the catalog does (C16, C17): nothing is released only if nothing waits for the destinations; otherwise a bundle of the highest
    priority that waits for them, and of those one that expires first. *)
Definition matches (dests : list (eid * bool)) (b : bundle) : Prop := In (b_dest b, false) dests \/ exists n, In ((fst (b_dest b), n), true) dests.
Definition picks (cfg : config) : Prop := forall dests w,
  match c_pick cfg dests w with
  | None => forall e, In e w -> ~ matches dests (snd e)
  | Some n => exists e, nth_error w n = Some e /\ matches dests (snd e) /\
      forall e', In e' w -> matches dests (snd e') -> b_prio (snd e') <= b_prio (snd e) /\ (b_prio (snd e') = b_prio (snd e) -> b_exp (snd e) <= b_exp (snd e'))
  end.
(** The links at the positions [l] of the up links are served one after the other. *)
Inductive visits (cfg : config) : list nat -> state -> state -> Prop :=
| visits_nil s : visits cfg [] s s
| visits_cons n l s s1 s2 : serve cfg n (with_rr s n) = Some s1 -> visits cfg l s1 s2 -> visits cfg (n :: l) s s2.
(** The links that are up stay the same. *)
Inductive steady (cfg : config) (p : list ref) : list label -> state -> state -> Prop :=
| steady_nil s : g_ptrs s = p -> steady cfg p [] s s
| steady_cons x l s s1 s2 : g_ptrs s = p -> step cfg x s = Some s1 -> steady cfg p l s1 s2 -> steady cfg p (x :: l) s s2.
Definition is_send (x : label) : bool := match l_event x with Send => true | _ => false end.
(** A message for egress takes the front of the link's queue or a stored bundle, fits the link's limits and names the link. *)
Definition sent_for (s s' : state) (m : emsg) : Prop := exists r k, In (r, k) (links s) /\ k_up k = true /\ e_idx m = k_idx k /\ e_hop m = k_hop k /\
  count k < k_max k /\ b_size (e_b m) <= sub64 (k_maxb k) (k_bytes k) /\
  if e_cut m then e_custody m = false /\ exists rest, k_queue k = mkQ (e_b m) (e_dest m) (e_cid m) :: rest
  else e_custody m = b_cust (e_b m) /\ e_dest m = b_dest (e_b m) /\ stored s' (e_cid m) (e_b m).
