(** Model of module/storage/src/CustodyTimers.cpp. *)
From Coq Require Import NArith List Bool.
From Verif Require Import Base M_CustodyId M_HashMap M_Catalog.
Import ListNotations.
Open Scope N_scope.

(** CustodyTimers.h:45-52. A std::list is the list of its nodes, each with its address; an iterator is an address.
    Points in time and durations are numbers of microseconds (special values only as written in the code). *)
Definition tnode := (N * (N * N))%type.   (* address, (custody id, expiry) *)
Record ctimers := mkCt { tm_lists : smap eid (list tnode); tm_its : smap N N; tm_timeout : N }.
(** Cpp:20 constructor. *)
Definition tm_new (timeout : N) : ctimers := mkCt [] [] timeout.
Definition tm_with (t : ctimers) l i : ctimers := mkCt l i (tm_timeout t).

(** An address no node of any list has. *)
Definition tm_fresh (t : ctimers) : N :=
  fold_right (fun (p : eid * list tnode) m => fold_right (fun (n : tnode) m' => N.max (fst n + 1) m') m (snd p)) 1 (tm_lists t).

(** Cpp:77-91 StartCustodyTransferTimer; [now] is what the clock returns. *)
Definition tm_start (t : ctimers) (d : eid) (cid now : N) : ctimers * bool :=
  match smap_find N.ltb (tm_its t) cid with
  | Some _ => (t, false)
  | None =>
    let l := match smap_find eid_ltb (tm_lists t) d with Some l => l | None => [] end in
    let a := tm_fresh t in
    (tm_with t (smap_put eid_ltb (tm_lists t) d (l ++ [(a, (cid, now + tm_timeout t))])) (smap_put N.ltb (tm_its t) cid a), true)
  end.

(** std::list::erase(iterator): undefined (None) if the iterator is not into this list. *)
Fixpoint list_erase (l : list tnode) (a : N) : option (list tnode) :=
  match l with
  | [] => None
  | n :: r => if fst n =? a then Some r else match list_erase r a with Some r' => Some (n :: r') | None => None end
  end.
(** Storing back a list or, if empty, erasing its map element. *)
Definition put_list (m : smap eid (list tnode)) (d : eid) (l : list tnode) : smap eid (list tnode) :=
  match l with [] => smap_erase eid_ltb m d | _ => smap_put eid_ltb m d l end.
(** Cpp:92-108 CancelCustodyTransferTimer. *)
Definition tm_cancel (t : ctimers) (d : eid) (cid : N) : option (ctimers * bool) :=
  match smap_find N.ltb (tm_its t) cid with
  | None => Some (t, false)
  | Some a =>
    match smap_find eid_ltb (tm_lists t) d with
    | None => Some (t, false)
    | Some l => match list_erase l a with
                | None => None
                | Some l' => Some (tm_with t (put_list (tm_lists t) d l') (smap_erase N.ltb (tm_its t) cid), true)
                end
    end
  end.

(** Cpp:29-43: the loop over the available destinations; [best] is lowestExpiry (None = pos_infin) with its iterator. *)
Fixpoint lowest (t : ctimers) (ds : list eid) (best : option (N * eid)) : option (N * eid) :=
  match ds with
  | [] => best
  | d :: r =>
    match smap_find eid_ltb (tm_lists t) d with
    | Some ((_, (_, x)) :: _) =>
      lowest t r (match best with None => Some (x, d) | Some (y, _) => if x <? y then Some (x, d) else best end)
    | _ => lowest t r best
    end
  end.
(** Cpp:45-53 = 64-70: take the front of the list of [d]. The result: the id written and the value returned. *)
Definition tm_pop (t : ctimers) (d : eid) : option (ctimers * (N * bool)) :=
  match smap_find eid_ltb (tm_lists t) d with
  | Some ((_, (cid, _)) :: r) =>
    Some (tm_with t (put_list (tm_lists t) d r) (smap_erase N.ltb (tm_its t) cid),
          (cid, match smap_find N.ltb (tm_its t) cid with Some _ => true | None => false end))
  | _ => None
  end.
(** Cpp:27-56 PollOneAndPopExpiredCustodyTimer; result None = false without touching the out parameter. *)
Definition tm_poll (t : ctimers) (ds : list eid) (now : N) : option (ctimers * option (N * bool)) :=
  match lowest t ds None with
  | Some (x, d) => if x <=? now then match tm_pop t d with Some (t', r) => Some (t', Some r) | None => None end else Some (t, None)
  | None => Some (t, None)
  end.
(** Cpp:58-75 PollOneAndPopAnyExpiredCustodyTimer: the map elements in order. *)
Fixpoint first_due (l : smap eid (list tnode)) (now : N) : option eid :=
  match l with
  | [] => None
  | (d, (_, (_, x)) :: _) :: r => if x <=? now then Some d else first_due r now
  | (d, []) :: r => first_due r now
  end.
Definition tm_poll_any (t : ctimers) (now : N) : option (ctimers * option (N * bool)) :=
  match first_due (tm_lists t) now with
  | Some d => match tm_pop t d with Some (t', r) => Some (t', Some r) | None => None end
  | None => Some (t, None)
  end.
(** Cpp:110-116 and 118-124 GetNumCustodyTransferTimers. *)
Definition tm_count (t : ctimers) : N := fold_right (fun (p : eid * list tnode) s => N.of_nat (length (snd p)) + s) 0 (tm_lists t).
Definition tm_count_dest (t : ctimers) (d : eid) : N :=
  match smap_find eid_ltb (tm_lists t) d with Some l => N.of_nat (length l) | None => 0 end.
