(** Specification vocabulary for C14: what an execution of the ring shows, as functions of its events. *)
From Coq Require Import NArith List Bool.
From Verif Require Import M_Spsc.
Import ListNotations.
Open Scope N_scope.

(** The values the producer wrote, and the values the consumer read, in order. *)
Fixpoint written (es : list event) : list N :=
  match es with [] => [] | EvWrote _ v :: r => v :: written r | _ :: r => written r end.
Fixpoint got (es : list event) : list N :=
  match es with [] => [] | EvRead _ v :: r => v :: got r | _ :: r => got r end.
(** How many commits each side made. *)
Fixpoint commitsW (es : list event) : nat :=
  match es with [] => O | EvCommitW :: r => S (commitsW r) | _ :: r => commitsW r end.
Fixpoint commitsR (es : list event) : nat :=
  match es with [] => O | EvCommitR :: r => S (commitsR r) | _ :: r => commitsR r end.
(** The values whose write has been committed. *)
Definition committed (es : list event) : list N := firstn (commitsW es) (written es).
(** Slot of the j-th item. *)
Definition slot_of (size : N) (j : nat) : N := N.of_nat j mod size.
