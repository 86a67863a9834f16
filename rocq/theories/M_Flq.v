(** Model of common/util/include/ForwardListQueue.h: a std::forward_list plus an iterator to its last node. *)
From Coq Require Import NArith List Bool.
From Verif Require Import Base.
Import ListNotations.
Open Scope N_scope.

(** A std::forward_list is the list of its nodes, each with the address it was allocated at. An iterator is singular
    (default-constructed), before_begin, or the address of a node; using an iterator to a node not in the list is
    undefined behaviour, [None] in what follows. The address of a new node is an argument of each insertion. *)
Inductive flit := Singular | BeforeBegin | Node (a : N).
Definition fnodes (A : Type) := list (N * A).
(** ForwardListQueue.h:34-35 m_fl, m_flLastIt. *)
Record flq (A : Type) := mkFlq { q_fl : fnodes A; q_last : flit }.
Arguments mkFlq {A}. Arguments q_fl {A}. Arguments q_last {A}.

(** std::forward_list::emplace_after / insert_after. *)
Fixpoint insert_after_node {A} (l : fnodes A) (x : N) (n : N * A) : option (fnodes A) :=
  match l with
  | [] => None
  | (a, v) :: r => if a =? x then Some ((a, v) :: n :: r)
                   else match insert_after_node r x n with Some r' => Some ((a, v) :: r') | None => None end
  end.
Definition insert_after {A} (l : fnodes A) (it : flit) (n : N * A) : option (fnodes A) :=
  match it with Singular => None | BeforeBegin => Some (n :: l) | Node x => insert_after_node l x n end.
(** Dereferencing an iterator. *)
Definition deref {A} (l : fnodes A) (it : flit) : option A :=
  match it with
  | Node x => match find (fun p => fst p =? x) l with Some p => Some (snd p) | None => None end
  | _ => None
  end.
(** Iterator equality. *)
Definition flit_eqb (i j : flit) : bool :=
  match i, j with Node x, Node y => x =? y | BeforeBegin, BeforeBegin => true | _, _ => false end.

(** Line 38: default constructor. *)
Definition flq_empty {A} : flq A := mkFlq [] Singular.
(** Lines 39-46: initializer-list constructor; the loop moves m_flLastIt from before_begin, one node per element. *)
Definition flq_init {A} (l : fnodes A) : flq A :=
  match l with
  | [] => mkFlq l Singular
  | _ => mkFlq l (fold_left (fun _ n => Node (fst n)) l BeforeBegin)
  end.
(** Lines 48-59 emplace_back, 61-70 and 72-81 push_back (copy, move). *)
Definition flq_push_back {A} (q : flq A) (a : N) (v : A) : option (flq A) :=
  match q_fl q with
  | [] => Some (mkFlq [(a, v)] (Node a))
  | _ => match insert_after (q_fl q) (q_last q) (a, v) with Some l => Some (mkFlq l (Node a)) | None => None end
  end.
(** Lines 83-90 emplace_front, 92-98 and 100-106 push_front. *)
Definition flq_push_front {A} (q : flq A) (a : N) (v : A) : flq A :=
  mkFlq ((a, v) :: q_fl q) (match q_fl q with [] => Node a | _ => q_last q end).
(** Lines 113-122, the loop of remove_by_key with itPrev = [prev]: the remaining nodes and the new m_flLastIt. *)
Fixpoint remove_loop {A} (eqb : A -> A -> bool) (prev : flit) (l : fnodes A) (last : flit) (k : A) : option (fnodes A * flit) :=
  match l with
  | [] => None
  | (a, v) :: r =>
    if eqb k v then Some (r, if flit_eqb (Node a) last then prev else last)
    else match remove_loop eqb (Node a) r last k with Some (r', last') => Some ((a, v) :: r', last') | None => None end
  end.
(** Lines 108-126 remove_by_key. *)
Definition flq_remove {A} (eqb : A -> A -> bool) (q : flq A) (k : A) : flq A * bool :=
  match remove_loop eqb BeforeBegin (q_fl q) (q_last q) k with
  | Some (l, last) => (mkFlq l last, true)
  | None => (q, false)
  end.
(** Lines 128-134 front, 136-142 back, 144-146 pop, 148-150 clear, 152-154 empty. front and pop_front on an empty list
    are undefined. *)
Definition flq_front {A} (q : flq A) : option A := match q_fl q with [] => None | n :: _ => Some (snd n) end.
Definition flq_back {A} (q : flq A) : option A := deref (q_fl q) (q_last q).
Definition flq_pop {A} (q : flq A) : option (flq A) := match q_fl q with [] => None | _ :: r => Some (mkFlq r (q_last q)) end.
Definition flq_clear {A} (q : flq A) : flq A := mkFlq [] (q_last q).
Definition flq_is_empty {A} (q : flq A) : bool := match q_fl q with [] => true | _ => false end.
(** Lines 193-195 get_underlying_container().emplace_after(it, v) for the iterator [k] steps after before_begin: the new
    node becomes element k. The last iterator is left alone. *)
Definition flq_emplace_at {A} (q : flq A) (k : nat) (a : N) (v : A) : option (flq A) :=
  if Nat.leb k (length (q_fl q)) then Some (mkFlq (firstn k (q_fl q) ++ (a, v) :: skipn k (q_fl q)) (q_last q)) else None.
(** Lines 168-190: iteration. *)
Definition flq_contents {A} (q : flq A) : list A := map snd (q_fl q).
