(** Model of common/util/src/CircularIndexBufferSingleProducerSingleConsumerConfigurable.cpp under the C++11
    release/acquire memory model, together with the external array of slots its users keep (header, lines 16-23).

    Memory model: for each atomic the modification order is kept as the list of all values stored. A load by the
    owning thread (memory_order_relaxed) returns the last one. A load by the other thread returns any entry at or after
    the position that thread last saw (coherence); as every store is a release and every such load an acquire, seeing
    position k makes everything the owner did before store k happen-before what follows. A slot access that is not
    ordered after the last conflicting access of the other thread is a data race. *)
From Coq Require Import NArith List Bool.
From Verif Require Import Base.
Import ListNotations.
Open Scope N_scope.

(** .h:35-37 CIRCULAR_INDEX_BUFFER_FULL, CIRCULAR_INDEX_BUFFER_EMPTY. *)
Definition CB_FULL : N := 4294967295.
Definition CB_EMPTY : N := 4294967295.

(** .cpp:37-40 = 51-54 = 67-70 = 89-92: add one, reset to 0 at the size (unsigned int arithmetic). *)
Definition cb_next (size i : N) : N :=
  let p := (i + 1) mod W32 in if size <=? p then 0 else p.
(** .cpp:48-61 GetIndexForWrite, given the two values loaded. *)
Definition cb_index_for_write (size e s : N) : N := if s =? cb_next size e then CB_FULL else e.
(** .cpp:74-83 GetIndexForRead. *)
Definition cb_index_for_read (e s : N) : N := if e =? s then CB_EMPTY else s.
(** .cpp:35-42 IsFull, 44-46 IsEmpty, 96-103 NumInBuffer. *)
Definition cb_is_full (size e s : N) : bool := s =? cb_next size e.
Definition cb_is_empty (e s : N) : bool := e =? s.
Definition cb_num (size e s : N) : N :=
  let e' := if e <? s then (e + size) mod W32 else e in (e' + W32 - s) mod W32.

(** Where each thread is in its get / access / commit cycle. *)
Inductive pcb := Idle | Got (i : N) | Done.

Record spsc := mkSpsc {
  sp_endH : list N;              (* modification order of m_cbEndIndex *)
  sp_startH : list N;            (* modification order of m_cbStartIndex *)
  sp_pview : nat;                (* position of m_cbStartIndex the producer has acquired *)
  sp_cview : nat;                (* position of m_cbEndIndex the consumer has acquired *)
  sp_ppc : pcb;
  sp_cpc : pcb;
  sp_slots : N -> option (N * nat); (* contents, and the m_cbEndIndex position whose store publishes the write *)
  sp_reads : N -> nat            (* the m_cbStartIndex position whose store publishes the last read of the slot; 0 = none *)
}.
(** .cpp:19-23 constructor (and Init, 29-32). *)
Definition sp_init : spsc := mkSpsc [0] [0] 0 0 Idle Idle (fun _ => None) (fun _ => O).

(** Atomic actions; [k] is the position of the other thread's index the load returns. *)
Inductive action := PGet (k : nat) | PWrite (v : N) | PCommit | CGet (k : nat) | CRead | CCommit.
(** What an action shows. *)
Inductive event := EvIndexW (i : N) | EvWrote (i v : N) | EvCommitW | EvIndexR (i : N) | EvRead (i v : N) | EvCommitR.
Inductive fault := Race | OutOfBounds | Garbage.
Inductive outcome := Next (st : spsc) (e : event) | Bad (f : fault).

Definition upd {A} (f : N -> A) (i : N) (a : A) : N -> A := fun x => if x =? i then a else f x.

(** One step; None = not an action the memory model or the documented protocol (write only to an index obtained, commit
    only after the access) allows here. *)
Definition sp_step (size : N) (st : spsc) (a : action) : option outcome :=
  match a with
  | PGet k =>                                                   (* .cpp:48-61 *)
    match sp_ppc st with
    | Done => None
    | _ =>
      if Nat.leb (sp_pview st) k && Nat.ltb k (length (sp_startH st)) then
        let i := cb_index_for_write size (last (sp_endH st) 0) (nth k (sp_startH st) 0) in
        Some (Next (mkSpsc (sp_endH st) (sp_startH st) k (sp_cview st) (if i =? CB_FULL then Idle else Got i) (sp_cpc st) (sp_slots st) (sp_reads st)) (EvIndexW i))
      else None
    end
  | PWrite v =>                                                 (* the user's write of the slot *)
    match sp_ppc st with
    | Got i =>
      if size <=? i then Some (Bad OutOfBounds)
      else if Nat.ltb (sp_pview st) (sp_reads st i) then Some (Bad Race)
      else Some (Next (mkSpsc (sp_endH st) (sp_startH st) (sp_pview st) (sp_cview st) Done (sp_cpc st)
             (upd (sp_slots st) i (Some (v, length (sp_endH st)))) (sp_reads st)) (EvWrote i v))
    | _ => None
    end
  | PCommit =>                                                  (* .cpp:63-72 *)
    match sp_ppc st with
    | Done => Some (Next (mkSpsc (sp_endH st ++ [cb_next size (last (sp_endH st) 0)]) (sp_startH st) (sp_pview st) (sp_cview st) Idle (sp_cpc st) (sp_slots st) (sp_reads st)) EvCommitW)
    | _ => None
    end
  | CGet k =>                                                   (* .cpp:74-83 *)
    match sp_cpc st with
    | Done => None
    | _ =>
      if Nat.leb (sp_cview st) k && Nat.ltb k (length (sp_endH st)) then
        let i := cb_index_for_read (nth k (sp_endH st) 0) (last (sp_startH st) 0) in
        Some (Next (mkSpsc (sp_endH st) (sp_startH st) (sp_pview st) k (sp_ppc st) (if i =? CB_EMPTY then Idle else Got i) (sp_slots st) (sp_reads st)) (EvIndexR i))
      else None
    end
  | CRead =>                                                    (* the user's read of the slot *)
    match sp_cpc st with
    | Got i =>
      if size <=? i then Some (Bad OutOfBounds)
      else match sp_slots st i with
        | None => Some (Bad Garbage)
        | Some (v, stamp) =>
          if Nat.ltb (sp_cview st) stamp then Some (Bad Race)
          else Some (Next (mkSpsc (sp_endH st) (sp_startH st) (sp_pview st) (sp_cview st) (sp_ppc st) Done (sp_slots st)
                 (upd (sp_reads st) i (length (sp_startH st)))) (EvRead i v))
        end
    | _ => None
    end
  | CCommit =>                                                  (* .cpp:85-94 *)
    match sp_cpc st with
    | Done => Some (Next (mkSpsc (sp_endH st) (sp_startH st ++ [cb_next size (last (sp_startH st) 0)]) (sp_pview st) (sp_cview st) (sp_ppc st) Idle (sp_slots st) (sp_reads st)) EvCommitR)
    | _ => None
    end
  end.

(** Executions: the final state or the fault, and the events; None = some action was not allowed. *)
Fixpoint sp_run (size : N) (st : spsc) (acts : list action) : option ((spsc + fault) * list event) :=
  match acts with
  | [] => Some (inl st, [])
  | a :: r =>
    match sp_step size st a with
    | None => None
    | Some (Next st' e) => option_map (fun p => (fst p, e :: snd p)) (sp_run size st' r)
    | Some (Bad f) => Some (inr f, [])
    end
  end.
