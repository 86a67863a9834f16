(** Specification vocabulary for fragment sets: what a set of ranges means as a set of indices. *)
From Coq Require Import NArith List Sorted.
From Verif Require Import Base M_FragmentSet.
Import ListNotations.
Open Scope N_scope.

(** Index i lies in the inclusive range f. *)
Definition in_frag (f : frag) (i : N) : Prop := fst f <= i /\ i <= snd f.
(** Index i is covered by the set. *)
Definition covers (s : fset) (i : N) : Prop := exists f, In f s /\ in_frag f i.
(** A range that C++ can represent without end+1 wrapping. *)
Definition valid (f : frag) : Prop := fst f <= snd f /\ snd f + 1 < W64.
(** a ends at least two below the beginning of b: neither overlapping nor adjacent. *)
Definition gap_before (a b : frag) : Prop := snd a + 1 < fst b.
Definition canonical (s : fset) : Prop := Forall valid s /\ StronglySorted gap_before s.
(** A stored fragment ending exactly one below the key. *)
Definition abuts_left (s : fset) (key : frag) : Prop := exists e, In e s /\ snd e + 1 = fst key.

(** Histories. The functions called are those of the model. *)
(** All insertions of ks in order (calls of InsertFragment, FragmentSet.cpp:90-108). *)
Definition insert_all (last : bool) (s : fset) (ks : list frag) : fset :=
  fold_left (fun s k => fst (insert_fragment last s k)) ks s.

(** A history of insertions and removals (FragmentSet.cpp:90-108 and 161-237). *)
Inductive op := Insert (k : frag) | Remove (k : frag).
Definition op_valid (o : op) : Prop :=
  match o with Insert k => valid k | Remove k => snd k + 1 < W64 end.
Definition run (last : bool) (s : fset) (ops : list op) : fset :=
  fold_left (fun s o => match o with
                        | Insert k => fst (insert_fragment last s k)
                        | Remove k => fst (remove_fragment s k) end) ops s.
