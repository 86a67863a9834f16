(** Specification vocabulary for C18: which custody ids are in use, as seen by the callers. *)
From Coq Require Import NArith List Bool.
From Verif Require Import Base M_FragmentSet S_FragmentSet M_CustodyId.
Import ListNotations.
Open Scope N_scope.

(** Calls after start-up. *)
Inductive cop := Issue (src : eid) | Free1 (i : N) | FreeRange (b e : N).
(** A set of ids. *)
Definition idset := N -> Prop.

(** A history in which every freed id is in use at that moment (in [used]): no id is issued that is in use. *)
Fixpoint issues_fresh (last : bool) (st : cia) (used : idset) (ops : list cop) : Prop :=
  match ops with
  | [] => True
  | Issue src :: r =>
    let '(st', id) := cia_get last st src in
    ~ used id /\ issues_fresh last st' (fun i => i = id \/ used i) r
  | Free1 i :: r => used i -> issues_fresh last (fst (cia_free last st i)) (fun j => used j /\ j <> i) r
  | FreeRange b e :: r => b <= e -> (forall i, b <= i <= e -> used i) ->
    issues_fresh last (fst (cia_free_range last st b e)) (fun j => used j /\ ~ (b <= j <= e)) r
  end.

(** Start-up: registering the ranges of ids found on disk (a single id is a range of one). *)
Definition restore_ids (last : bool) (rs : list frag) : cia :=
  fold_left (fun st r => cia_init_range last st (fst r) (snd r)) rs cia_new.
Definition restored (rs : list frag) : idset := fun i => exists r, In r rs /\ fst r <= i <= snd r.
(** Ids issued by two calls for the same source with other calls in between. *)
Fixpoint cia_run (last : bool) (st : cia) (ops : list cop) : cia :=
  match ops with
  | [] => st
  | Issue src :: r => cia_run last (fst (cia_get last st src)) r
  | Free1 i :: r => cia_run last (fst (cia_free last st i)) r
  | FreeRange b e :: r => cia_run last (fst (cia_free_range last st b e)) r
  end.

(** What a history shows: each call with its return value. *)
Fixpoint cia_trace (last : bool) (st : cia) (ops : list cop) : list (cop * N) :=
  match ops with
  | [] => []
  | o :: r =>
    let '(st', n) := match o with
      | Issue src => cia_get last st src
      | Free1 i => cia_free last st i
      | FreeRange b e => cia_free_range last st b e end in
    (o, n) :: cia_trace last st' r
  end.
Definition ids_between (b e : N) : list N := map (fun k => b + N.of_nat k) (seq 0 (N.to_nat (e + 1 - b))).
(** Every freed id had been issued at some time before (perhaps freed since). *)
Fixpoint frees_only_issued (evs : list (cop * N)) (ever : list N) : bool :=
  match evs with
  | [] => true
  | (Issue _, id) :: r => frees_only_issued r (id :: ever)
  | (Free1 i, _) :: r => existsb (N.eqb i) ever && frees_only_issued r ever
  | (FreeRange b e, _) :: r => forallb (fun i => existsb (N.eqb i) ever) (ids_between b e) && frees_only_issued r ever
  end.
(** Some id is issued while it is in use. *)
Fixpoint issues_used (evs : list (cop * N)) (used : list N) : bool :=
  match evs with
  | [] => false
  | (Issue _, id) :: r => existsb (N.eqb id) used || issues_used r (id :: used)
  | (Free1 i, _) :: r => issues_used r (filter (fun j => negb (j =? i)) used)
  | (FreeRange b e, _) :: r => issues_used r (filter (fun j => negb ((b <=? j) && (j <=? e))) used)
  end.

(** The ids in use after a history, starting from [used]; None if it frees ids not in use (as a relation). *)
Inductive legal (last : bool) : cia -> idset -> list cop -> cia -> idset -> Prop :=
| legal_nil st used : legal last st used [] st used
| legal_issue st used src ops st' used' :
    legal last (fst (cia_get last st src)) (fun i => i = snd (cia_get last st src) \/ used i) ops st' used' ->
    legal last st used (Issue src :: ops) st' used'
| legal_free st (used : idset) i ops st' used' : used i ->
    legal last (fst (cia_free last st i)) (fun j => used j /\ j <> i) ops st' used' ->
    legal last st used (Free1 i :: ops) st' used'
| legal_free_range st (used : idset) b e ops st' used' : b <= e -> (forall i, b <= i <= e -> used i) ->
    legal last (fst (cia_free_range last st b e)) (fun j => used j /\ ~ (b <= j <= e)) ops st' used' ->
    legal last st used (FreeRange b e :: ops) st' used'.
(** Ids set aside but not issued yet: the rest of the 256-block of a source's next id, and the whole reserved block. *)
Definition set_aside (st : cia) (i : N) : Prop :=
  (exists src n, In (src, n) (ca_cur st) /\ n <= i /\ i / 256 = n / 256) \/
  (ca_next st <> U64MAX /\ ca_next st <= i /\ i / 256 = ca_next st / 256).
