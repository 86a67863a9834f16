(** Vocabulary for C63. *)
From Coq Require Import PeanoNat NArith List Bool.
From Verif Require Import Base M_UdpSink.
Import ListNotations.
Open Scope nat_scope.

(** The datagrams that came in an execution. *)
Definition received (es : list event) : list (list N) := flat_map (fun e => match e with Receive d => [d] | _ => [] end) es.
(** Some of the datagrams, in their order. *)
Inductive some_of : list (list N) -> list (list N) -> Prop :=
| some_nil : some_of [] []
| some_keep : forall d a b, some_of a b -> some_of (d :: a) (d :: b)
| some_drop : forall d a b, some_of a b -> some_of a (d :: b).
(** What is there to give to the callback and was not given yet. *)
Definition waiting (s : sink) : nat := length (u_q s) - match u_pc s with Called _ => 1 | _ => 0 end + match u_phase s with Got _ => 1 | _ => 0 end.
Definition quiet (max : nat) (s : sink) : Prop := forall e s1, step max s e = Some s1 -> e = Spurious \/ exists d, e = Receive d.
Definition internal (e : event) : Prop := e <> Spurious /\ forall d, e <> Receive d.
Definition reached (n max : nat) (es : list event) (s : sink) : Prop := run max (start n max) es = Some s.
