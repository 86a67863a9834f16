(** Vocabulary of C55: what the environment of storage and egress together is expected to do, and what is on its way between them. *)
From Coq Require Import NArith List Bool.
From Verif Require Import Base M_CustodyId M_StorageIf S_StorageIf.
From Verif Require M_Egress S_Egress.
From Verif Require Import M_StoreEgress.
Import ListNotations.
Open Scope N_scope.

(** ** The environment *)
(** Custody signals are about bundles with custody. *)
Definition custody_only (s : state) (c : content) : Prop := forall cid b, signals c cid -> stored s cid b -> b_cust b = true.
(** What else can happen to storage: everything but messages of egress. A link of ingress goes away only when egress has no bundles for it. *)
Definition outside_event (s : state) (e : event) : Prop :=
  match e with
  | Telemetry _ | EgressAck _ _ | Failed _ _ => False
  | RemoveLink n => forall k, In (ROpp n, k) (links s) -> k_open k = []
  | Store m b c => s_special m = true -> b_bad b = false -> honest_signal s c /\ custody_only s c
  | _ => True
  end.
(** Reads from disk succeed and no id is issued that egress still has. *)
Definition sound_disk (s : state) (ids : list N) (reads : list bool) : Prop := Forall (fun b => b = true) reads /\ forall i, In i ids -> ~ In i (open_ids s).
Definition outside (s : state) (x : label) : Prop := outside_event s (l_event x) /\ sound_disk s (l_ids x) (l_reads x).
Definition from_storage (e : M_Egress.event) : Prop := match e with M_Egress.Bundle M_Egress.Storage _ _ _ _ => True | _ => False end.
(** What a step adds to what happened to storage ([ts]) and to egress ([te]). *)
Definition at_storage (w : world) (v : wevent) : list label :=
  match v with
  | AtStorage x => [x]
  | ToStorage ids bits reads => match nth_error (M_Egress.g_storage (w_e w)) (w_up w) with Some m => [mkL (arrival m) ids bits reads] | None => [] end
  | _ => []
  end.
Definition at_egress_side (w : world) (v : wevent) : list M_Egress.event :=
  match v with
  | AtEgress e => [e]
  | ToEgress f ok1 ok2 => match nth_error (g_egress (w_s w)) (w_down w) with Some m => [M_Egress.Bundle M_Egress.Storage m f ok1 ok2] | None => [] end
  | _ => []
  end.
(** The environment may do [v]: storage's disk and the rest of the world are as above, outducts are fair (S_Egress: they report bundles they have,
    once, with the data that came with them). [h], [d] as in S_Egress: what outducts hold and what they reported as sent. *)
Definition allowed (oc : list M_Egress.ocfg) (te : list M_Egress.event) (w : world) (v : wevent)
  (h : list S_Egress.held) (d : list bundle) (h' : list S_Egress.held) (d' : list bundle) : Prop :=
  match v with
  | AtStorage x => outside (w_s w) x /\ h' = h /\ d' = d
  | ToStorage ids _ reads => sound_disk (w_s w) ids reads /\ w_up w <> length (M_Egress.g_storage (w_e w)) /\ h' = h /\ d' = d
  | AtEgress e => ~ from_storage e /\ S_Egress.fair oc te e h d h' d'
  | ToEgress f ok1 ok2 => exists m, nth_error (g_egress (w_s w)) (w_down w) = Some m /\ S_Egress.fair oc te (M_Egress.Bundle M_Egress.Storage m f ok1 ok2) h d h' d'
  end.
(** Runs of the two, with what happened to each. There is at least one outduct (and there are fewer than 2^64 - 1). *)
Inductive wrun (cfg : config) (max : N) (oc : list M_Egress.ocfg) : list label -> list M_Egress.event -> world -> list S_Egress.held -> list bundle -> Prop :=
| wrun_start w : oc <> [] -> N.of_nat (length oc) < U64MAX -> wstart max oc = Some w -> wrun cfg max oc [] [] w [] []
| wrun_next ts te w h d v w' h' d' : wrun cfg max oc ts te w h d -> allowed oc te w v h d h' d' -> wstep cfg v w = Some w' ->
    wrun cfg max oc (ts ++ at_storage w v) (te ++ at_egress_side w v) w' h' d'.

(** ** On the way *)
(** Custody ids of stored bundles: in messages of storage, with outducts, in answers. *)
Definition ids_of (l : list emsg) : list N := flat_map (fun m => if e_cut m then [] else [e_cid m]) l.
Definition ids_for (l : list M_Egress.user) : list N :=
  flat_map (fun u => match u with (M_Egress.Storage, a) => if x_cut a then [] else [x_cid a] | _ => [] end) l.
Definition ids_back (l : list M_Egress.to_storage) : list N :=
  flat_map (fun m => match m with M_Egress.SAck a _ => if x_cut a then [] else [x_cid a] | _ => [] end) l.
(** Bundles egress has yet to read, that outducts have not reported yet, whose answers storage has yet to read; answers egress could not send. *)
Definition unread_bundles (w : world) : list emsg := skipn (w_down w) (g_egress (w_s w)).
Definition unread_answers (w : world) : list M_Egress.to_storage := skipn (w_up w) (M_Egress.g_storage (w_e w)).
Definition in_transit (w : world) (h : list S_Egress.held) : list N :=
  ids_of (unread_bundles w) ++ ids_for (S_Egress.claims h) ++ ids_back (unread_answers w).
(** The answer [a] says that the bundle was sent: an outduct reported it, or egress passed it on to ingress. *)
Definition confirmed (oc : list M_Egress.ocfg) (te : list M_Egress.event) (a : eack) : Prop :=
  exists m, (M_Egress.Storage, a) = S_Egress.owed M_Egress.Storage m /\ S_Egress.justified oc te M_Egress.Storage m NoError.
