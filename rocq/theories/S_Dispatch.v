(** Vocabulary for the properties of dispatching (C51). *)
From Coq Require Import NArith List Bool.
From Verif Require Import Base M_Dispatch.
Import ListNotations.
Open Scope N_scope.

Definition total (m : list (N * N)) : N := fold_right (fun e n => snd e + n) 0 m.
Definition total_pending (l : list pending) : N := fold_right (fun p n => p_size p + n) 0 l.
(** Values that fit their types, lists that fit in memory. *)
Definition bundle_fits (b : bundle) : Prop := b_size b < 2 ^ 63.
Definition outduct_fits (o : outduct) : Prop := t_max o < W64 /\ t_maxb o < W64.
Definition label_fits (x : label) : Prop :=
  match x with
  | LBundle b => bundle_fits b
  | LTelemetry l => Forall outduct_fits l /\ N.of_nat (length l) < 2 ^ 63
  | _ => True
  end.
(** Egress and storage acknowledge only what they were sent, and once. *)
Definition honest (x : label) (s : state) : Prop :=
  match x with
  | LAckEgress id i _ => exists n, In (mkPend id i n) (g_epend s)
  | LAckStorage id i _ => exists n, In (mkPend id i n) (g_spend s)
  | _ => True
  end.
Inductive honest_runs (cfg : config) : list label -> state -> state -> Prop :=
| honest_nil s : honest_runs cfg [] s s
| honest_cons x l s s1 s2 : honest x s -> step cfg x s = On s1 -> honest_runs cfg l s1 s2 -> honest_runs cfg (x :: l) s s2.
(** Every telemetry gives outduct [i] the same limits. *)
Definition same_limits (lim : N -> N * N) (x : label) : Prop :=
  match x with LTelemetry l => Forall (fun o => (t_max o, t_maxb o) = lim (t_idx o)) l | _ => True end.

(** What threads hold a reservation for in pipeline [i], and what was sent through it and not acknowledged. *)
Definition held_egress (i : N) (x : bundle * pc) : list (N * N) :=
  match snd x with PEgress id j => if j =? i then [(id, b_size (fst x))] else [] | _ => [] end.
Definition held_storage (i : N) (x : bundle * pc) : list (N * N) :=
  match snd x with PToStorage id j _ => if j =? i then [(id, b_size (fst x))] else [] | _ => [] end.
Definition sent_through (i : N) (l : list pending) : list (N * N) :=
  map (fun p => (p_id p, p_size p)) (filter (fun p => p_idx p =? i) l).

(** Only plain bundles may bypass the storage module's books. *)
Definition plain (b : bundle) : Prop := b_custody b = false /\ b_admin b = false /\ b_frag b = false.
Definition copies {A} (tag : A -> nat) (t : nat) (l : list A) : nat := length (filter (fun m => Nat.eqb (tag m) t) l).
(** A state the node can be in: any mixture of bundles, acknowledgements, link events and telemetry, as long as the 64 bit unique id has
    not wrapped around. [fair_state]: in addition acknowledgements are honest. *)
Definition reachable (cfg : config) (s : state) : Prop := exists tr, runs cfg tr start s /\ Forall label_fits tr /\ g_next s <= W64.
Definition fair_state (cfg : config) (s : state) : Prop := exists tr, honest_runs cfg tr start s /\ Forall label_fits tr /\ g_next s <= W64.
Definition all_done (s : state) : Prop := forall t b p, nth_error (g_threads s) t = Some (b, p) -> done p = true.
Definition sum_maxb (l : list aset) : N := fold_right (fun a n => a_maxb a + n) 0 l.
(** Telemetry with one outduct per index, in order. *)
Definition in_order (l : list outduct) : Prop := map t_idx l = map N.of_nat (seq 0 (length l)).
Definition lost (f : fate) : Prop := f = RouterFailed \/ f = NoStorage \/ f = StorageFailed \/ f = Dropped.
Definition has_egress_room (n : N) (a : aset) : Prop := N.of_nat (length (a_eg a)) < a_max a / 2 /\ a_egb a + n <= a_maxb a / 2.
Definition has_storage_room (n : N) (a : aset) : Prop := N.of_nat (length (a_st a)) < a_max a / 2 /\ a_stb a + n <= a_maxb a / 2.
(** Size of the bundle of thread [t]. *)
Definition size_of (l : list (bundle * pc)) (t : nat) : N := match nth_error l t with Some (b, _) => b_size b | None => 0 end.
Definition sum (l : list N) : N := fold_right N.add 0 l.
