(** Vocabulary of C27. *)
From Coq Require Import NArith ZArith List Bool.
From Verif Require Import M_LtpTimers.
Import ListNotations.
Open Scope N_scope.

(** What happens, in any order: StartTimer, DeleteTimer, AdjustRunningTimers, the clock moving (either way), the reactor completing a
    wait, the io thread running a queued handler, a callback returning. *)
Inductive tevent := VStart (a id : N) (dur : Z) (data : N) | VDelete (id : N) | VAdjust (diff : Z) | VClock (t : Z) | VWake (i : nat) | VRun (i : nat) | VReturn.
(** A timer as a user sees it: identifier, due time, the earliest due time it ever had, data. *)
Record live := mkLive { lv_id : N; lv_due : Z; lv_low : Z; lv_data : N }.
Definition shift (d : Z) (v : live) : live := mkLive (lv_id v) (lv_due v + d)%Z (Z.min (lv_low v) (lv_due v + d)%Z) (lv_data v).
(** One round of the io thread at a clock value. *)
Definition pump (clock : Z) (t : tmgr) : option (tmgr * option (N * N)) := tm_run (tm_wake t clock 0) 0.
(** Rounds until a callback is invoked. *)
Fixpoint pumps (n : nat) (clock : Z) (t : tmgr) : option (tmgr * option (N * N)) :=
  match n with O => Some (t, None) | S k => match pump clock t with Some (t', None) => pumps k clock t' | other => other end end.
Definition fires_soon (clock : Z) (t : tmgr) (v : live) : Prop :=
  (exists t', pump clock t = Some (t', Some (lv_id v, lv_data v))) \/
  (exists t1 t2, pump clock t = Some (t1, None) /\ pump clock t1 = Some (t2, Some (lv_id v, lv_data v))).
(** Destroying the manager frees the flag cell exactly once and leaves no handler that would touch it. *)
Definition clean_end (t : tmgr) : Prop :=
  let t' := tm_destroy t in
  (tm_cell t' = CellFreed /\ tm_waits t' = []) \/
  (tm_cell t' = CellTrue /\ exists w, tm_waits t' = [w] /\ aw_stat w <> Pending /\
    exists t'', tm_run t' 0 = Some (t'', None) /\ tm_cell t'' = CellFreed /\ tm_waits t'' = []).
(** What holds between events. [vs]: the started, not fired and not deleted timers in start order; [busy]: a callback is running;
    [ordered]: so far no timer was started with a due time before that of an earlier start. *)
Definition between (t : tmgr) (vs : list live) (busy : bool) (clock : Z) (ordered : bool) : Prop :=
  (tm_empty t = true <-> vs = []) /\
  (busy = false -> clean_end t /\ (vs <> [] -> exists w, tm_waits t = [w])) /\
  (busy = false -> ordered = true -> match vs with [] => True | v :: _ => (lv_due v <= clock)%Z -> fires_soon clock t v end).
(** [high]: the highest clock value so far; [last]: due time of the latest start, moved along by adjustments. *)
Fixpoint timers_follow (t : tmgr) (vs : list live) (busy : bool) (clock high : Z) (last : Z) (ordered : bool) (evs : list tevent) : Prop :=
  between t vs busy clock ordered /\
  match evs with
  | [] => True
  | VStart a id dur data :: rest =>
    id <> 0 -> ~ In a (map tn_addr (tm_list t)) ->
    exists t' ok, tm_start t a id clock dur data = (t', ok) /\ (ok = true <-> ~ In id (map lv_id vs)) /\
      if ok then timers_follow t' (vs ++ [mkLive id (clock + dur) (clock + dur) data]) busy clock high (clock + dur) (ordered && (last <=? clock + dur)%Z) rest
      else timers_follow t' vs busy clock high last ordered rest
  | VDelete id :: rest =>
    exists t' r, tm_delete t id = Some (t', r) /\
      match r with
      | None => ~ In id (map lv_id vs) /\ timers_follow t' vs busy clock high last ordered rest
      | Some d => exists v1 v v2, vs = v1 ++ v :: v2 /\ lv_id v = id /\ lv_data v = d /\ timers_follow t' (v1 ++ v2) busy clock high last ordered rest
      end
  | VAdjust d :: rest => timers_follow (tm_adjust t d) (map (shift d) vs) busy clock high (last + d) ordered rest
  | VClock c :: rest => timers_follow t vs busy c (Z.max high c) last ordered rest
  | VWake i :: rest => timers_follow (tm_wake t clock i) vs busy clock high last ordered rest
  | VRun i :: rest =>
    busy = false ->
    exists t' o, tm_run t i = Some (t', o) /\
      match o with
      | None => timers_follow t' vs false clock high last ordered rest
      | Some (id, d) => exists v vs', vs = v :: vs' /\ lv_id v = id /\ lv_data v = d /\ (lv_low v <= high)%Z /\ timers_follow t' vs' true clock high last ordered rest
      end
  | VReturn :: rest => busy = true -> timers_follow (tm_next t) vs false clock high last ordered rest
  end.
