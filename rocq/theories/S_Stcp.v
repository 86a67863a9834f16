(** Vocabulary for C62. *)
From Coq Require Import PeanoNat NArith List Bool.
From Verif Require Import Base M_Stcp.
Import ListNotations.
Open Scope N_scope.

(** The bytes that arrived in an execution. *)
Definition arrived (es : list event) : list N := flat_map (fun e => match e with Arrive b => [b] | _ => [] end) es.
Definition bytes (l : list N) : Prop := Forall (fun b => b < 256) l.
(** Four bytes that are n, most significant first. *)
Definition size_field (n : N) (l : list N) : Prop := exists a b c d, l = [a; b; c; d] /\ bytes l /\ n = 16777216 * a + 65536 * b + 256 * c + d.
(** Data units on the wire, with the contents that they carry; None is a keep-alive. *)
Inductive wire (max : N) : list (option (list N)) -> list N -> Prop :=
| wire_nil : wire max [] []
| wire_keepalive : forall h cs s, size_field 0 h -> wire max cs s -> wire max (None :: cs) (h ++ s)
| wire_bundle : forall h b cs s, size_field (N.of_nat (length b)) h -> b <> [] -> N.of_nat (length b) <= max -> wire max cs s -> wire max (Some b :: cs) (h ++ b ++ s).
Definition bundles (cs : list (option (list N))) : list (list N) := flat_map (fun c => match c with Some b => [b] | None => [] end) cs.
(** No further data unit starts these bytes: the next is not complete, or too large. *)
Definition no_more (max : N) (rest : list N) : Prop :=
  (length rest < 4)%nat \/ exists n h r, size_field n h /\ rest = h ++ r /\ (max < n \/ 0 < n <= max /\ N.of_nat (length r) < n).
(** Nothing happens any more unless something arrives. *)
Definition quiet (cap : nat) (max : N) (s : sink) : Prop := forall e s1, step cap max s e = Some s1 -> e = Spurious \/ exists b, e = Arrive b.
Definition internal (e : event) : Prop := e <> Spurious /\ forall b, e <> Arrive b.
Definition reached (cap : nat) (max : N) (es : list event) (s : sink) : Prop := run cap max (start cap) es = Some s.
