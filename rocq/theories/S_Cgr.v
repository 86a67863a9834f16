(** What routes are: sequences of contacts data can travel over. Nothing here mentions the searches. *)
From Coq Require Import NArith ZArith List.
From Verif Require Import Base M_Cgr.
Import ListNotations.
Open Scope Z_scope.

(** The largest time_t value, in the specification's own words. *)
Definition tmax : Z := 2 ^ 63 - 1.
(** A contact plan with times, delays and rates that fit their types and never add up to more than the largest time. *)
Definition contact_ok (c : contact) : Prop :=
  0 <= k_start c <= k_end c /\ 0 <= k_owlt c /\ k_end c + k_owlt c <= tmax /\ (k_rate c < 2 ^ 64)%N.
Definition plan_ok (plan : list contact) : Prop := Forall contact_ok plan.
(** The number of bits a contact can carry, as the code counts them: modulo 2^64. *)
Definition carries (c : contact) : Prop := (Z.of_N (k_rate c) * (k_end c - k_start c)) mod 2 ^ 64 <> 0.

(** Data at node [s] at time [t0] can be at node [x] at time [t], over the contacts [l] in turn: it leaves over a contact
    before that ends, as soon as it is there and the contact has begun, and arrives one light time later. [use c t] says
    that a contact can be used by data that is there at time [t]. *)
Inductive journey (use : contact -> Z -> Prop) (plan : list contact) (s : N) (t0 : Z) : N -> Z -> list contact -> Prop :=
| J_start : journey use plan s t0 s t0 []
| J_hop x t l c : journey use plan s t0 x t l -> In c plan -> k_frm c = x -> use c t ->
    journey use plan s t0 (k_to c) (Z.max (k_start c) t + k_owlt c) (l ++ [c]).
(** The contact has not ended and can carry something. *)
Definition open (c : contact) (t : Z) : Prop := t < k_end c /\ carries c.
(** The contact has not ended. *)
Definition unended (c : contact) (t : Z) : Prop := t < k_end c.
(** The contact has not ended or ends at this very moment. *)
Definition unended_or_ending (c : contact) (t : Z) : Prop := t <= k_end c.

(** The nodes a sequence of contacts comes to. *)
Definition stops (l : list contact) : list N := map k_to l.

(** The time of arrival over the contacts [l] for data that is at the first of them at time [t]. *)
Fixpoint arrival (t : Z) (l : list contact) : Z :=
  match l with [] => t | c :: r => arrival (Z.max (k_start c) t + k_owlt c) r end.

(** Whether [c] is the only contact, among those between its two nodes, that is under way at any of its times; these
    have the same delay, and none is empty. *)
Definition no_overlap (plan : list contact) : Prop :=
  forall i j a b, nth_error plan i = Some a -> nth_error plan j = Some b -> i <> j ->
    k_frm a = k_frm b -> k_to a = k_to b -> k_end a <= k_start b \/ k_end b <= k_start a.
Definition same_delays (plan : list contact) : Prop :=
  forall a b, In a plan -> In b plan -> k_frm a = k_frm b -> k_to a = k_to b -> k_owlt a = k_owlt b.

(** How many bits fit through each contact of [l] for data that is at the first of them at time [t]: it can be sent until
    this contact or a later one ends. *)
Fixpoint room (t : Z) (l : list contact) : list Z :=
  match l with
  | [] => []
  | c :: r => (fold_right Z.min (k_end c) (map k_end r) - Z.max (k_start c) t) * Z.of_N (k_rate c)
              :: room (Z.max (k_start c) t + k_owlt c) r
  end.
(** The contact's bits are few enough to be counted. *)
Definition countable (c : contact) : Prop := Z.of_N (k_rate c) * (k_end c - k_start c) < 2 ^ 64.
