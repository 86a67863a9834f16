(** Vocabulary of C65: executions of the UDP source. *)
From Coq Require Import PeanoNat NArith List Bool.
From Verif Require Import Base M_UdpSource.
Import ListNotations.
Open Scope nat_scope.

(** [s] is reached from the start by [es]; [cap] places in the ring; [rate]: whether there is a rate limit. *)
Inductive reached (cap : nat) (rate : bool) : list event -> src -> Prop :=
| at_start : reached cap rate [] start
| at_step : forall es s e s1, reached cap rate es s -> step cap rate s e = Some s1 -> reached cap rate (es ++ [e]) s1.
(** All bundles are given to Forward in the same way. *)
Definition one_kind (es : list event) : Prop := exists b, forall m, In (Forward m) es -> m_zmq m = b.
(** The network interface took all datagrams. *)
Definition no_error (es : list event) : Prop := ~ In (Done false) es.
(** Nothing can happen any more unless Forward is called. *)
Definition quiet (s : src) : Prop := r_posted s = [] /\ r_fly s = [] /\ r_timer s = false.
(** The bundles of one kind. *)
Definition of_kind (b : bool) (l : list msg) : list msg := filter (fun m => Bool.eqb (m_zmq m) b) l.
(** The first list is the second one without some of its elements. *)
Inductive some_of : list msg -> list msg -> Prop :=
| some_nil : some_of [] []
| some_take : forall m a b, some_of a b -> some_of (m :: a) (m :: b)
| some_drop : forall m a b, some_of a b -> some_of a (m :: b).
