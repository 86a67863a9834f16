(** Vocabulary of C25, C26. *)
From Coq Require Import NArith List.
From Verif Require Import M_LtpIds.
Import ListNotations.
Open Scope N_scope.

(** [acc]: the numbers accepted so far, latest first. Each AddSession call is defined, refuses exactly when the number is among the
    [n] latest accepted ones, and afterwards ContainsSession says yes exactly for the [n] latest. *)
Fixpoint remembers (n : nat) (p : preventer) (acc : list N) (calls : list N) : Prop :=
  match calls with
  | [] => True
  | x :: rest => exists p' ok acc', pv_add p x = Some (p', ok) /\ (ok = false <-> In x (firstn n acc)) /\
      acc' = (if ok then x :: acc else acc) /\ (forall y, pv_contains p' y = true <-> In y (firstn n acc')) /\ remembers n p' acc' rest
  end.
