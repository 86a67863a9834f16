(** Specification of the storage manager: which bytes each custody id stands for, in terms of the calls made. *)
From Coq Require Import NArith List Bool.
From Verif Require Import Base M_SegmentAlloc M_Storage.
Import ListNotations.
Open Scope N_scope.

Definition len {A} (l : list A) : N := N.of_nat (length l).
(** Number of segments a bundle of [size] bytes occupies, and the [i]-th piece of [per] bytes. *)
Definition segs_needed (per size : N) : N := (size + per - 1) / per.
Definition piece (per : N) (data : list N) (i : N) : list N :=
  firstn (N.to_nat per) (skipn (N.to_nat (i * per)) data).

(** A bundle being written: announced size, its custody id once known, the bytes pushed so far. *)
Record wspec := mkWp { wp_size : N; wp_custody : option N; wp_data : list N }.
(** A read session: nothing outstanding; open on a stored bundle at piece [pos] ([started]: TopSegment was called);
    its bundle was removed in the middle of reading. *)
Inductive rspec := RIdle | ROpen (custody : N) (data : list N) (pos : N) (started : bool) | RDead.
Record spec := mkSp { sp_used : N; sp_live : list (N * list N); sp_w : N -> option wspec; sp_r : N -> rspec }.
Definition spec_init : spec := mkSp 0 [] (fun _ => None) (fun _ => RIdle).

Fixpoint sp_find (c : N) (l : list (N * list N)) : option (list N) :=
  match l with [] => None | (k, d) :: r => if k =? c then Some d else sp_find c r end.
Definition sp_remove (c : N) (l : list (N * list N)) : list (N * list N) := filter (fun x => negb (fst x =? c)) l.

Definition finished (per : N) (data : list N) (pos : N) (started : bool) : Prop :=
  started = false \/ pos = segs_needed per (len data).
Definition finishedb (per : N) (data : list N) (pos : N) (started : bool) : bool :=
  negb started || (pos =? segs_needed per (len data)).

(** Correct use. A bundle is pushed in pieces of [per] bytes (the last one shorter) under one custody id that is not
    in use; a read session is pointed at another bundle only when it is unused or has read its bundle to the end;
    pieces are read only from a bundle that is still stored, and not past its end. *)
Definition legal (per : N) (sp : spec) (e : ev) : Prop :=
  match e with
  | EvPush w size psize => size < U64MAX
  | EvPushSeg w custody buf stale accepted =>
    match sp_w sp w with
    | None => True
    | Some wp => (forall c, wp_custody wp = Some c -> c = custody) /\ sp_find custody (sp_live sp) = None /\
                 len buf = N.min per (wp_size wp - len (wp_data wp))
    end
  | EvOpen r custody =>
    match sp_r sp r with
    | RIdle => True
    | ROpen _ data pos started => finished per data pos started
    | RDead => False
    end
  | EvFetch r | EvTake r =>
    match sp_r sp r with ROpen _ data pos _ => pos < segs_needed per (len data) | _ => False end
  | EvRemove _ _ | EvDisk _ => True
  end.

(** The prescribed result of a call. *)
Definition out_ok (per max : N) (sp : spec) (e : ev) (o : out) : Prop :=
  match e with
  | EvPush w size psize =>
    o = ORet (if sp_used sp + segs_needed per size <=? max then segs_needed per size else 0)
  | EvPushSeg w custody buf stale accepted => o = ORet (match sp_w sp w with Some _ => 1 | None => 0 end)
  | EvOpen r custody => o = ORet (match sp_find custody (sp_live sp) with Some data => len data | None => 0 end)
  | EvTake r => match sp_r sp r with ROpen _ data pos _ => o = OBytes (piece per data pos) | _ => True end
  | EvRemove custody _ => o = ORet (match sp_find custody (sp_live sp) with Some _ => 1 | None => 0 end)
  | EvFetch _ | EvDisk _ => o = ONone
  end.

(** What the calls mean. *)
Definition spec_next (per max : N) (sp : spec) (e : ev) : spec :=
  match e with
  | EvPush w size psize =>
    let n := segs_needed per size in
    if (sp_used sp + n <=? max) && negb (n =? 0)
    then mkSp (sp_used sp + n) (sp_live sp) (upd (sp_w sp) w (Some (mkWp size None []))) (sp_r sp)
    else mkSp (sp_used sp) (sp_live sp) (upd (sp_w sp) w None) (sp_r sp)
  | EvPushSeg w custody buf stale accepted =>
    match sp_w sp w with
    | None => sp
    | Some wp =>
      let data := wp_data wp ++ buf in
      if len data =? wp_size wp
      then mkSp (sp_used sp) (if accepted then (custody, data) :: sp_live sp else sp_live sp) (upd (sp_w sp) w None) (sp_r sp)
      else mkSp (sp_used sp) (sp_live sp) (upd (sp_w sp) w (Some (mkWp (wp_size wp) (Some custody) data))) (sp_r sp)
    end
  | EvOpen r custody =>
    match sp_find custody (sp_live sp) with
    | None => sp
    | Some data => mkSp (sp_used sp) (sp_live sp) (sp_w sp) (upd (sp_r sp) r (ROpen custody data 0 false))
    end
  | EvFetch r =>
    match sp_r sp r with
    | ROpen c data pos _ => mkSp (sp_used sp) (sp_live sp) (sp_w sp) (upd (sp_r sp) r (ROpen c data pos true))
    | _ => sp
    end
  | EvTake r =>
    match sp_r sp r with
    | ROpen c data pos s => mkSp (sp_used sp) (sp_live sp) (sp_w sp) (upd (sp_r sp) r (ROpen c data (pos + 1) s))
    | _ => sp
    end
  | EvRemove custody _ =>
    match sp_find custody (sp_live sp) with
    | None => sp
    | Some data =>
      mkSp (sp_used sp - segs_needed per (len data)) (sp_remove custody (sp_live sp)) (sp_w sp)
           (fun r => match sp_r sp r with
                     | ROpen c d pos s => if c =? custody then (if finishedb per d pos s then RIdle else RDead)
                                          else ROpen c d pos s
                     | x => x
                     end)
    end
  | EvDisk _ => sp
  end.

(** The states (with their specification) that legal histories lead to: any interleaving of calls and disk threads. *)
Inductive reach (c : scfg) (max : N) : spec -> storage -> Prop :=
| reach_init junk : reach c max spec_init (st_init max junk)
| reach_step sp st e st' o : reach c max sp st -> legal (sc_per c) sp e -> step c st e = Done st' o ->
    reach c max (spec_next (sc_per c) max sp e) st'.

Definition cfg_ok (c : scfg) (max : N) : Prop :=
  0 < sc_disks c /\ 0 < sc_per c /\ W32 <= sc_idw c /\ max <= MAXSEGMENTS.

(** Running a list of events (None: one of them is blocked or undefined). *)
Fixpoint run (c : scfg) (st : storage) (es : list ev) : option (storage * list out) :=
  match es with
  | [] => Some (st, [])
  | e :: r => match step c st e with
              | Done st1 o => match run c st1 r with Some (st2, os) => Some (st2, o :: os) | None => None end
              | _ => None
              end
  end.
Fixpoint legal_run (per max : N) (sp : spec) (es : list ev) : Prop :=
  match es with [] => True | e :: r => legal per sp e /\ legal_run per max (spec_next per max sp e) r end.
Definition spec_run (per max : N) (sp : spec) (es : list ev) : spec := fold_left (spec_next per max) es sp.

(** The events of PushAllSegments of [data] through session [w], and those of ReadAllSegments of [n] segments when the
    disk threads have nothing else to do ([d i]: the disk that segment [i] is on). *)
Definition ev_push_all (per w custody : N) (stale : list N) (data : list N) : list ev :=
  map (fun i => EvPushSeg w custody (push_all_buf per data (segs_needed per (len data)) (N.of_nat i)) stale true)
      (seq 0 (N.to_nat (segs_needed per (len data)))).
