(** Specification of the segment allocator: the abstract state is the list of ids currently allocated. *)
From Coq Require Import NArith List Bool.
From Verif Require Import Base M_SegmentAlloc.
Import ListNotations.
Open Scope N_scope.

Inductive seg_op :=
| GetFirst                     (* GetAndSetFirstFreeSegmentId_NotThreadSafe *)
| Reserve (id : N)             (* AllocateSegmentId_NotThreadSafe *)
| Free (id : N)                (* FreeSegmentId_NotThreadSafe *)
| GetMany (n : nat)            (* AllocateSegments_ThreadSafe *)
| FreeMany (ids : list N).     (* FreeSegments_ThreadSafe *)
Inductive seg_out := OId (id : N) | OFull | OBool (b : bool) | OIds (ids : list N) | OFail.

Definition is_free (max : N) (A : list N) (id : N) : Prop := id < max /\ ~ In id A.
Definition lowest_free (max : N) (A : list N) (id : N) : Prop :=
  is_free max A id /\ forall j, is_free max A j -> id <= j.
Definition none_free (max : N) (A : list N) : Prop := forall j, ~ is_free max A j.

(** Taking n ids one after the other, each the lowest free one at that moment. *)
Inductive takes (max : N) : list N -> list N -> list N -> Prop :=
| takes_nil A : takes max A [] A
| takes_cons A id ids A' : lowest_free max A id -> takes max (id :: A) ids A' -> takes max A (id :: ids) A'.
(** Freeing ids one after the other: those allocated become free. *)
Fixpoint frees (A ids : list N) : list N * bool :=
  match ids with
  | [] => (A, true)
  | id :: r =>
    if existsb (N.eqb id) A then frees (remove N.eq_dec id A) r
    else (fst (frees A r), false)
  end.

Inductive spec_step (max : N) : list N -> seg_op -> seg_out -> list N -> Prop :=
| SGet A id : lowest_free max A id -> spec_step max A GetFirst (OId id) (id :: A)
| SGetFull A : none_free max A -> spec_step max A GetFirst OFull A
| SReserve A id : is_free max A id -> spec_step max A (Reserve id) (OBool true) (id :: A)
| SReserveNo A id : ~ is_free max A id -> spec_step max A (Reserve id) (OBool false) A
| SFree A id : In id A -> spec_step max A (Free id) (OBool true) (remove N.eq_dec id A)
| SFreeNo A id : ~ In id A -> spec_step max A (Free id) (OBool false) A
| SGetMany A n ids A' : length ids = n -> takes max A ids A' -> spec_step max A (GetMany n) (OIds ids) A'
| SGetManyNo A n : N.of_nat (length A) + N.of_nat n > max -> spec_step max A (GetMany n) OFail A
| SFreeMany A ids : spec_step max A (FreeMany ids) (OBool (snd (frees A ids))) (fst (frees A ids)).

(** Runs of the model and of the specification over a list of calls. *)
Definition step (idw : N) (st : mm) (o : seg_op) : option (mm * seg_out) :=
  match o with
  | GetFirst => match get_first_free idw st with
                | Some (s, Seg id) => Some (s, OId id) | Some (s, Full) => Some (s, OFull) | None => None end
  | Reserve id => match alloc_segment st id with Some (s, b) => Some (s, OBool b) | None => None end
  | Free id => match free_segment st id with Some (s, b) => Some (s, OBool b) | None => None end
  | GetMany n => match alloc_segments idw st n with
                 | Some (s, Some ids) => Some (s, OIds ids) | Some (s, None) => Some (s, OFail) | None => None end
  | FreeMany ids => match free_list st ids with Some (s, b) => Some (s, OBool b) | None => None end
  end.
Fixpoint seg_run (idw : N) (st : mm) (os : list seg_op) : option (mm * list seg_out) :=
  match os with
  | [] => Some (st, [])
  | o :: r => match step idw st o with
              | None => None
              | Some (s, out) => match seg_run idw s r with None => None | Some (s', outs) => Some (s', out :: outs) end
              end
  end.
Inductive spec_run (max : N) : list N -> list seg_op -> list seg_out -> list N -> Prop :=
| spec_nil A : spec_run max A [] [] A
| spec_cons A o out A1 os outs A2 : spec_step max A o out A1 -> spec_run max A1 os outs A2 ->
    spec_run max A (o :: os) (out :: outs) A2.

(** What a caller can see of a state agrees with the set A of allocated ids. *)
Definition observes (st : mm) (max : N) (A : list N) : Prop :=
  mm_max st = max /\ NoDup A /\ (forall id, In id A -> id < max) /\
  mm_count st = N.of_nat (length A) /\
  (forall id, is_segment_free st id = Some true <-> is_free max A id) /\
  (forall id, is_segment_free st id = Some false <-> ~ is_free max A id).
