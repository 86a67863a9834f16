(** Model of common/util/src/FragmentSet.cpp and common/util/include/FragmentSet.h. *)
From Coq Require Import NArith List Bool.
From Verif Require Import Base.
Import ListNotations.
Open Scope N_scope.

(** FragmentSet.h:45-49 data_fragment_t {beginIndex, endIndex}: inclusive range of uint64_t. *)
Definition frag := (N * N)%type.

(** data_fragment_set_t is std::set<data_fragment_t>: the list of its elements in iteration order. *)
Definition fset := list frag.

(** FragmentSet.cpp:42-44 operator<: (endIndex+1) < o.beginIndex, the +1 in uint64_t arithmetic. *)
Definition frag_lt (a b : frag) : bool := (add64 (snd a) 1 <? fst b).

(** std::set key equivalence under operator< (FragmentSet.cpp:45-48 SimulateSetKeyFind). *)
Definition frag_equiv (a b : frag) : bool := negb (frag_lt a b) && negb (frag_lt b a).

(** FragmentSet.cpp:36-38 operator==. *)
Definition frag_eqb (a b : frag) : bool := (fst a =? fst b) && (snd a =? snd b).

(** FragmentSet.cpp:73-75 operator< of data_fragment_no_overlap_allow_abut_t. *)
Definition frag_lt_abut (a b : frag) : bool := (snd a <? fst b).
Definition frag_equiv_abut (a b : frag) : bool := negb (frag_lt_abut a b) && negb (frag_lt_abut b a).

(** FragmentSet.cpp:49-67 GetOverlap: Some overlap iff it returns true. *)
Definition get_overlap (k1 k2 : frag) : option frag :=
  if (fst k2 <=? snd k1) && (fst k1 <=? snd k2)
  then Some (N.max (fst k1) (fst k2), N.min (snd k1) (snd k2)) else None.

(** std::set::find under operator<. When several elements are equivalent to the key the standard does not say
    which one is found; [last] chooses the first or the last one, and every theorem holds for both. *)
Definition set_find (last : bool) (s : fset) (key : frag) : option frag :=
  find (frag_equiv key) (if last then rev s else s).

(** std::set insertion position: before the first element that is not less than the key. *)
Fixpoint ins_sorted (key : frag) (s : fset) : fset :=
  match s with
  | [] => [key]
  | e :: r => if frag_lt e key then e :: ins_sorted key r else key :: s
  end.

(** std::set::erase(iterator): removes that element. *)
Definition set_erase (e : frag) (s : fset) : fset := filter (fun x => negb (frag_eqb x e)) s.

(** FragmentSet.cpp:90-108 InsertFragment: the while(true) loop; each round either returns or erases one
    element, [fuel] counts rounds and None means it ran out (shown impossible). Result: (set, return value). *)
Fixpoint insert_loop (last : bool) (fuel : nat) (s : fset) (key : frag) (modified : bool) : option (fset * bool) :=
  match fuel with
  | O => None
  | S fuel' =>
    match set_find last s key with
    | None => Some (ins_sorted key s, true)                      (* line 93-96: inserted *)
    | Some e =>
      if (fst e <=? fst key) && (snd key <=? snd e)               (* line 100 *)
      then Some (s, modified)
      else insert_loop last fuel' (set_erase e s)                 (* lines 103-106 *)
             (N.min (fst key) (fst e), N.max (snd key) (snd e)) true
    end
  end.
Definition insert_fragment_full (last : bool) (s : fset) (key : frag) : option (fset * bool) :=
  insert_loop last (S (length s)) s key false.

(** InsertFragment as a total function (the None case never happens; see L_FragmentSet.insert_total). *)
Definition insert_fragment (last : bool) (s : fset) (key : frag) : fset * bool :=
  match insert_fragment_full last s key with Some r => r | None => (s, false) end.

(** FragmentSet.cpp:110-118 ContainsFragmentEntirely. *)
Definition contains_entirely (last : bool) (s : fset) (key : frag) : bool :=
  match set_find last s key with
  | None => false
  | Some e => (fst e <=? fst key) && (snd key <=? snd e)
  end.

(** FragmentSet.cpp:122-125 DoesNotContainFragmentEntirely: find with the abut-allowing comparator fails. *)
Definition does_not_contain (s : fset) (key : frag) : bool :=
  match find (frag_equiv_abut key) s with None => true | Some _ => false end.

(** FragmentSet.cpp:150-158 FragmentSetsHaveOverlap. *)
Definition sets_have_overlap (s1 s2 : fset) : bool :=
  existsb (fun e => negb (does_not_contain s2 e)) s1.

(** std::set::lower_bound(key) under operator<: split into the elements before it and from it on. *)
Fixpoint lower_bound (key : frag) (s : fset) : fset * fset :=
  match s with
  | [] => ([], [])
  | e :: r => if frag_lt e key then let '(a, b) := lower_bound key r in (e :: a, b) else ([], s)
  end.

(** FragmentSet.cpp:168-235 the loop of RemoveFragment over the elements from lower_bound(key).
    Returns the replacement for those elements and the modified flag.
    Simplification: the replacement keys are put back in place of the erased element; in the C++ they are
    re-inserted with a position hint, which by the set order is the same place. *)
Fixpoint remove_loop (key : frag) (s : fset) (modified : bool) : fset * bool :=
  let '(db, de) := key in
  match s with
  | [] => ([], modified)
  | (b, e) :: r =>
    if (e <? db) then (s, modified)                                                   (* 171-173 stop *)
    else if (de <? b) then let '(r', m) := remove_loop key r modified in ((b, e) :: r', m)  (* 174-177 *)
    else if (db <=? b) && (e <=? de) then remove_loop key r true                       (* 178-183 erase *)
    else if (b <? db) && (de <? e) then                                                (* 184-201 split *)
      let '(r', m) := remove_loop key r true in ((b, db - 1) :: (de + 1, e) :: r', m)
    else if (db <=? b) && (b <=? de) then                                              (* 202-216 trim left *)
      let '(r', m) := remove_loop key r true in ((de + 1, e) :: r', m)
    else if (db <=? e) && (e <=? de) then                                              (* 217-231 trim right *)
      let '(r', m) := remove_loop key r true in ((b, db - 1) :: r', m)
    else let '(r', m) := remove_loop key r modified in ((b, e) :: r', m)               (* 232-234 *)
  end.

(** FragmentSet.cpp:161-237 RemoveFragment. *)
Definition remove_fragment (s : fset) (key : frag) : fset * bool :=
  if snd key <? fst key then (s, false)
  else let '(a, b) := lower_bound key s in
       let '(b', m) := remove_loop key b false in (a ++ b', m).

(** FragmentSet.cpp:246-252 GetBoundsMinusFragments. *)
Definition bounds_minus (last : bool) (bounds : frag) (s : fset) : fset :=
  fold_left (fun acc e => fst (remove_fragment acc e)) s (fst (insert_fragment last [] bounds)).
