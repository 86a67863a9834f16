(** The contact plans and nodes on which the multigraph search can be relied on. *)
From Coq Require Import NArith ZArith List.
From Verif Require Import Base M_Cgr S_Cgr.
Import ListNotations.
Open Scope Z_scope.

(** No contact is empty, and data sent over one arrives before the largest time. *)
Definition proper (plan : list contact) : Prop := Forall (fun c => k_start c < k_end c /\ k_end c + k_owlt c < tmax) plan.
(** Whatever can be reached is the destination or can be left again. *)
Definition no_dead_end (plan : list contact) (dest : N) : Prop :=
  forall c, In c plan -> k_to c = dest \/ exists d, In d plan /\ k_frm d = k_to c.
(** The source has a contact, and a smaller number than the other nodes. *)
Definition lowest (plan : list contact) (src dest : N) : Prop :=
  (exists c, In c plan /\ k_frm c = src) /\ (src < dest)%N /\ forall c, In c plan -> (src <= k_frm c)%N.
(** No data that started at [src] at time [t0] is anywhere at the very moment a contact there ends. *)
Definition never_just_in_time (plan : list contact) (src : N) (t0 : Z) : Prop :=
  forall n t l c, journey unended plan src t0 n t l -> In c plan -> k_frm c = n -> t <> k_end c.
(** An order of the neighbours of each node. *)
Definition neighbour_order (plan : list contact) (order : N -> list N) : Prop :=
  forall v, NoDup (order v) /\ forall u, In u (order v) <-> exists c, In c plan /\ k_frm c = v /\ k_to c = u.
