(** Specification vocabulary for C19: the running timers in start order. *)
From Coq Require Import NArith List Bool.
From Verif Require Import Base M_CustodyId M_CustTimers.
Import ListNotations.
Open Scope N_scope.

Record running := mkRun { r_cid : N; r_dest : eid; r_exp : N }.
Inductive top :=
| Start (d : eid) (cid now : N)
| Cancel (d : eid) (cid : N)
| CancelElsewhere (d : eid) (cid : N)
| Poll (ds : list eid) (now : N)
| PollAny (now : N)
| CountAll
| CountDest (d : eid).
Definition cids (l : list running) : list N := map r_cid l.
Definition drop_cid (cid : N) (l : list running) : list running := filter (fun r => negb (r_cid r =? cid)) l.
Definition for_dest (d : eid) (l : list running) : list running := filter (fun r => eid_eqb (r_dest r) d) l.

(** Each call shows what the list of running timers says. [last] is the clock at the latest start; the caller lets the
    clock not go back between starts and cancels a timer with the destination it was started with (or
    one that has no timers at all). *)
Fixpoint timer_history (timeout last : N) (t : ctimers) (s : list running) (ops : list top) : Prop :=
  match ops with
  | [] => True
  | Start d cid now :: r =>
    last <= now ->
    let ok := snd (tm_start t d cid now) in
    (ok = true <-> ~ In cid (cids s)) /\
    timer_history timeout now (fst (tm_start t d cid now)) (if ok then s ++ [mkRun cid d (now + timeout)] else s) r
  | Cancel d cid :: r =>
    (forall x, In x s -> r_cid x = cid -> r_dest x = d) ->
    exists t' ok, tm_cancel t d cid = Some (t', ok) /\ (ok = true <-> In cid (cids s)) /\ timer_history timeout last t' (drop_cid cid s) r
  | CancelElsewhere d cid :: r => (* a destination without timers *)
    (forall x, In x s -> r_dest x <> d) -> tm_cancel t d cid = Some (t, false) /\ timer_history timeout last t s r
  | Poll ds now :: r =>
    exists t' res, tm_poll t ds now = Some (t', res) /\
    match res with
    | None => (forall x, In x s -> In (r_dest x) ds -> now < r_exp x) /\ timer_history timeout last t' s r
    | Some (cid, ok) => ok = true /\ exists pre x post, s = pre ++ x :: post /\ r_cid x = cid /\ In (r_dest x) ds /\ r_exp x <= now /\
        (forall y, In y pre -> r_dest y <> r_dest x) /\ (forall y, In y (pre ++ post) -> In (r_dest y) ds -> r_exp x <= r_exp y) /\
        timer_history timeout last t' (pre ++ post) r
    end
  | PollAny now :: r =>
    exists t' res, tm_poll_any t now = Some (t', res) /\
    match res with
    | None => (forall x, In x s -> now < r_exp x) /\ timer_history timeout last t' s r
    | Some (cid, ok) => ok = true /\ exists pre x post, s = pre ++ x :: post /\ r_cid x = cid /\ r_exp x <= now /\
        (forall y, In y pre -> r_dest y <> r_dest x) /\ timer_history timeout last t' (pre ++ post) r
    end
  | CountAll :: r => tm_count t = N.of_nat (length s) /\ timer_history timeout last t s r
  | CountDest d :: r => tm_count_dest t d = N.of_nat (length (for_dest d s)) /\ timer_history timeout last t s r
  end.
