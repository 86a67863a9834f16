(** Model of common/ltp/src/LtpTimerManager.cpp (with LtpTimerManager.h:196-215) together with the boost::asio::deadline_timer it drives.
    Identifiers are natural numbers; for the session_id_t instantiation the pair (0,0), which Ltp.cpp:57-59 makes equal to the literal 0, is
    identifier 0. Times and durations are integers (microseconds); not-a-date values and overflow are not modelled. A timer's
    class pointer, callback and user data are one opaque [data]. *)
From Coq Require Import NArith ZArith List Bool.
From Verif Require Import Base.
Import ListNotations.
Open Scope N_scope.

(** LtpTimerManager.h:158-179, timer_data_t, with the address of its list node. *)
Record tnode := mkTn { tn_addr : N; tn_id : N; tn_due : Z; tn_data : N }.
(** One outstanding async_wait of the deadline_timer. Pending: in the timer queue. Aborted: cancelled, its handler is queued with
    operation_aborted. Done: expired, its handler is queued with success (cancel no longer affects it). *)
Inductive wstat := Pending | Aborted | Done.
Record await := mkAwait { aw_deadline : Z; aw_stat : wstat }.
(** The heap cell behind m_timerIsDeletedPtr: false, true, or freed. *)
Inductive cell := CellFalse | CellTrue | CellFreed.
(** LtpTimerManager.h:196-215 members. tm_map is the unordered_map from identifier to list iterator (node address). *)
Record tmgr := mkTm { tm_list : list tnode; tm_map : list (N * N); tm_active : N; tm_on : bool; tm_waits : list await; tm_cell : cell }.
Definition tm_new : tmgr := mkTm [] [] 0 false [] CellFalse.

(** deadline_timer::cancel: every pending wait is aborted. *)
Definition abort_wait (w : await) : await := match aw_stat w with Pending => mkAwait (aw_deadline w) Aborted | _ => w end.
(** deadline_timer::expires_at (which cancels pending waits) followed by async_wait. *)
Definition arm (ws : list await) (deadline : Z) : list await := map abort_wait ws ++ [mkAwait deadline Pending].
(** Cpp:54-61 Reset. *)
Definition tm_reset (t : tmgr) : tmgr := mkTm [] [] 0 false (map abort_wait (tm_waits t)) (tm_cell t).
Definition map_find (m : list (N * N)) (id : N) : option N := match find (fun e => fst e =? id) m with Some e => Some (snd e) | None => None end.
Definition map_erase (m : list (N * N)) (id : N) : list (N * N) := filter (fun e => negb (fst e =? id)) m.
(** Cpp:64-82 StartTimer at clock [now] with m_transmissionToAckReceivedTimeRef = [dur]; [a] is the address of the new list node. *)
Definition tm_start (t : tmgr) (a id : N) (now dur : Z) (data : N) : tmgr * bool :=
  let expiry := (now + dur)%Z in
  match map_find (tm_map t) id with
  | Some _ => (t, false)
  | None =>
    let l := tm_list t ++ [mkTn a id expiry data] in
    let m := tm_map t ++ [(id, a)] in
    if tm_on t then (mkTm l m (tm_active t) true (tm_waits t) (tm_cell t), true)
    else (mkTm l m id true (arm (tm_waits t) expiry) (tm_cell t), true)
  end.
(** Cpp:102-124 DeleteTimer; outer None: dereference of an iterator that is not in the list. *)
Definition tm_delete (t : tmgr) (id : N) : option (tmgr * option N) :=
  match map_find (tm_map t) id with
  | None => Some (t, None)
  | Some a =>
    match find (fun n => tn_addr n =? a) (tm_list t) with
    | None => None
    | Some n =>
      let l := filter (fun k => negb (tn_addr k =? a)) (tm_list t) in
      let act := if tm_on t && (tm_active t =? id) then 0 else tm_active t in
      Some (mkTm l (map_erase (tm_map t) id) act (tm_on t) (tm_waits t) (tm_cell t), Some (tn_data n))
    end
  end.
(** Cpp:151-164, the end of OnTimerExpired. *)
Definition tm_next (t : tmgr) : tmgr :=
  match tm_list t with
  | n :: _ => mkTm (tm_list t) (tm_map t) (tn_id n) true (arm (tm_waits t) (tn_due n)) (tm_cell t)
  | [] => mkTm [] (tm_map t) (tm_active t) false (tm_waits t) (tm_cell t)
  end.
Fixpoint remove_nth {A} (i : nat) (l : list A) : list A :=
  match l, i with [], _ => [] | _ :: r, O => r | x :: r, S k => x :: remove_nth k r end.
(** Cpp:126-148: the io thread takes the [i]-th outstanding wait, whose handler is queued, and runs OnTimerExpired up to and including the
    callback invocation. Some (t, None): the whole handler ran, no callback. Some (t, Some (id, data)): the callback is now
    running; [tm_next] follows when it returns. None: undefined (freed flag, or callback pointer never assigned). *)
Definition tm_run (t : tmgr) (i : nat) : option (tmgr * option (N * N)) :=
  match nth_error (tm_waits t) i with
  | None => Some (t, None)
  | Some w =>
    match aw_stat w with
    | Pending => Some (t, None)
    | s =>
      let t := mkTm (tm_list t) (tm_map t) (tm_active t) (tm_on t) (remove_nth i (tm_waits t)) (tm_cell t) in
      match tm_cell t with
      | CellFreed => None
      | CellTrue => Some (mkTm (tm_list t) (tm_map t) (tm_active t) (tm_on t) (tm_waits t) CellFreed, None)
      | CellFalse =>
        match s with
        | Done =>
          let id := tm_active t in
          if id =? 0 then Some (tm_next t, None)
          else match tm_delete (mkTm (tm_list t) (tm_map t) 0 (tm_on t) (tm_waits t) (tm_cell t)) id with
               | Some (t', Some d) => Some (t', Some (id, d))
               | _ => None
               end
        | _ => Some (tm_next t, None)
        end
      end
    end
  end.
(** The reactor completes the [i]-th wait if the clock has reached its deadline. *)
Definition tm_wake (t : tmgr) (clock : Z) (i : nat) : tmgr :=
  let upd w := match aw_stat w with Pending => if (aw_deadline w <=? clock)%Z then mkAwait (aw_deadline w) Done else w | _ => w end in
  let fix go (l : list await) (i : nat) := match l, i with [], _ => [] | w :: r, O => upd w :: r | w :: r, S k => w :: go r k end in
  mkTm (tm_list t) (tm_map t) (tm_active t) (tm_on t) (go (tm_waits t) i) (tm_cell t).
(** Cpp:166-174 AdjustRunningTimers. *)
Definition tm_adjust (t : tmgr) (diff : Z) : tmgr :=
  if tm_on t then mkTm (map (fun n => mkTn (tn_addr n) (tn_id n) (tn_due n + diff)%Z (tn_data n)) (tm_list t)) (tm_map t) (tm_active t) true (map abort_wait (tm_waits t)) (tm_cell t)
  else t.
(** Cpp:176-179 Empty. *)
Definition tm_empty (t : tmgr) : bool := match tm_list t with [] => true | _ => false end.
(** Cpp:41-51 destructor. What is left: the flag cell and the queued handlers. *)
Definition tm_destroy (t : tmgr) : tmgr :=
  tm_reset (mkTm (tm_list t) (tm_map t) (tm_active t) (tm_on t) (tm_waits t) (if tm_on t then CellTrue else CellFreed)).
