(** What it means for the initialization vectors to be unique, in terms of what happens in a process. *)
From Coq Require Import NArith List Bool.
From Verif Require Import Base M_Iv.
Import ListNotations.
Open Scope N_scope.

(** The number that bytes stand for, least significant first. *)
Fixpoint of_le (bs : list N) : N := match bs with [] => 0 | b :: r => b + 256 * of_le r end.

(** The time parts handed out, in order; the vectors handed out, in order; all calls of the cipher, in order. *)
Definition created (evs : list event) : list N := flat_map (fun e => match e with Created t => [t] | _ => [] end) evs.
Definition vectors (evs : list event) : list (list N) := flat_map (fun e => match e with Encrypted _ iv _ => [iv] | _ => [] end) evs.
Definition cipher_calls (evs : list event) : list (list N * list N * N) := flat_map (fun e => match e with Encrypted _ _ cs => cs | _ => [] end) evs.

(** How many vectors of this length were handed out to context number i. *)
Definition is_use (n i : nat) (e : event) : bool := match e with Encrypted j iv _ => Nat.eqb i j && Nat.eqb (length iv) n | _ => false end.
Definition uses (n i : nat) (evs : list event) : N := N.of_nat (length (filter (is_use n i) evs)).

(** The k-th vector (from 0) of its length of a context with time part t: eight bytes of time and the rest a counter. *)
Definition is_nth_vector (t k : N) (iv : list N) : Prop :=
  let m := 2 ^ (8 * N.of_nat (length iv - 8)) in
  Forall (fun b => b < 256) iv /\ of_le (firstn 8 iv) = (t + k / m) mod 2 ^ 64 /\ of_le (skipn 8 iv) = k mod m.

(** Clock readings are 64-bit numbers. *)
Definition op_ok (o : op) : Prop := match o with Ask rs => Forall (fun t => t < 2 ^ 64) rs | Secure _ _ _ _ => True end.

(** No context is the security source of too many bundles: the limits of InitializationVectors.h:57-59. *)
Definition within_limits (evs : list event) : Prop :=
  (forall i, uses 12 i evs <= 100000 * 2 ^ 32) /\ (forall i, uses 16 i evs <= 100000 * 2 ^ 64) /\ (forall t, In t (created evs) -> t + 100000 <= 2 ^ 64).

(** Each number is at least d more than all those before it. *)
Definition apart (d : N) (l : list N) : Prop := forall i j a b, (i < j)%nat -> nth_error l i = Some a -> nth_error l j = Some b -> a + d <= b.
