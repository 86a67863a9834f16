(** What the router's timers are for: links are up during their contacts, and after a report of full storage a link is down for
    the time configured. *)
From Coq Require Import NArith List Bool.
From Verif Require Import Base M_Router S_Router.
Import ListNotations.
Open Scope N_scope.

(** A contact of plan [rows], loaded at time [t0], from [me] to [h] is under way at time [now]. *)
Definition in_contact (me : N) (unix : bool) (rows : list row) (t0 : N) (h now : N) : Prop :=
  exists w, In w rows /\ w_source w = me /\ w_dest w = h /\
    (if unix then 0 else t0) + w_start w * 1000000 <= now < (if unix then 0 else t0) + w_end w * 1000000.
(** The plan in force and the time it was loaded. *)
Fixpoint in_force (now : N) (p : list row * N) (l : list input) : list row * N :=
  match l with
  | [] => p
  | ITime dt :: r => in_force (now + dt) p r
  | IPlan rows _ _ :: r => in_force now (rows, now) r
  | _ :: r => in_force now p r
  end.
(** Contacts of the node take time, and no two with the same neighbour are under way together; if one ends when the other
    begins, it comes first in the plan. *)
Definition apart (me : N) (rows : list row) : Prop :=
  (forall w, In w rows -> w_source w = me -> w_start w < w_end w) /\
  (forall i j a b, nth_error rows i = Some a -> nth_error rows j = Some b -> (i < j)%nat -> w_source a = me -> w_source b = me -> w_dest a = w_dest b ->
     w_end a <= w_start b \/ w_end b < w_start a).
(** The same, whatever the order in the plan. *)
Definition apart_unordered (me : N) (rows : list row) : Prop :=
  (forall w, In w rows -> w_source w = me -> w_start w < w_end w) /\
  (forall i j a b, nth_error rows i = Some a -> nth_error rows j = Some b -> i <> j -> w_source a = me -> w_source b = me -> w_dest a = w_dest b ->
     w_end a <= w_start b \/ w_end b <= w_start a).
(** Nothing that is due remains to be done by the contact timer, by the storage timer. *)
Definition nothing_due (now : N) (ws : list wait) : Prop := forall w, In w ws -> w = Aborted \/ exists t, w = Until t /\ now < t.
Definition settled (s : rt) : Prop := nothing_due (t_now s) (t_cwait s).
Definition stor_settled (s : rt) : Prop := nothing_due (t_now s) (t_swait s).
(** No command interferes; plans are good, and [race] says whether one may come while the timer's handler is queued. *)
Section Orderly.
Variable race : bool. Variable good : list row -> Prop. Variable next : rt -> input -> option rt.
Fixpoint orderly (s : rt) (l : list input) : Prop :=
  match l with
  | [] => True
  | i :: r =>
    match i with
    | IApi _ _ _ => False
    | IPlan rows _ _ => Forall row_ok rows /\ good rows /\ (race = true \/ ~ In Expired (t_cwait s))
    | _ => True
    end /\ match next s i with Some s' => orderly s' r | None => True end
  end.
(** No report comes from a neighbour that is already known to be full. *)
Fixpoint single_reports (s : rt) (l : list input) : Prop :=
  match l with
  | [] => True
  | i :: r =>
    match i with IDepleted node _ => forall j o, get (t_outs s) j = Some o -> o_hop o = node -> o_stor o = true | _ => True end
    /\ match next s i with Some s' => single_reports s' r | None => True end
  end.
End Orderly.
(** The time of the last report from a neighbour. *)
Fixpoint last_report (now : N) (h : N) (p : option N) (l : list input) : option N :=
  match l with
  | [] => p
  | ITime dt :: r => last_report (now + dt) h p r
  | IDepleted node _ :: r => last_report now h (if N.eqb node h then Some now else p) r
  | _ :: r => last_report now h p r
  end.
(** The physical state last reported for a link. *)
Fixpoint last_physical (i : N) (p : bool) (l : list input) : bool :=
  match l with
  | [] => p
  | IPhysical j up _ :: r => last_physical i (if N.eqb i j then up else p) r
  | _ :: r => last_physical i p r
  end.
(** The neighbour reported full storage less than [hold] seconds ago. *)
Definition recently_full (hold now h start : N) (l : list input) : Prop := exists r, last_report start h None l = Some r /\ now < r + hold * 1000000.
