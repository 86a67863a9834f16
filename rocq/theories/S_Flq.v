(** Specification vocabulary for C30: the queue operations on plain lists. *)
From Coq Require Import NArith List Bool.
From Verif Require Import Base M_Flq.
Import ListNotations.
Open Scope N_scope.

(** The calls; insertions carry the address the allocator returns for the new node. [InsertAt k]: emplace_after through
    the underlying container so that the new element becomes number k. *)
Inductive qop (A : Type) := PushBack (a : N) (v : A) | PushFront (a : N) (v : A) | Pop | RemoveKey (k : A) | Front | Back | ClearAll | IsEmpty | InsertAt (k : nat) (a : N) (v : A).
Arguments PushBack {A}. Arguments PushFront {A}. Arguments Pop {A}. Arguments RemoveKey {A}. Arguments Front {A}. Arguments Back {A}.
Arguments ClearAll {A}. Arguments IsEmpty {A}. Arguments InsertAt {A}.
Inductive qres (A : Type) := QUnit | QVal (v : A) | QBool (b : bool).
Arguments QUnit {A}. Arguments QVal {A}. Arguments QBool {A}.

(** One call on the model; None = undefined behaviour. *)
Definition flq_step {A} (eqb : A -> A -> bool) (q : flq A) (o : qop A) : option (flq A * qres A) :=
  match o with
  | PushBack a v => match flq_push_back q a v with Some q' => Some (q', QUnit) | None => None end
  | PushFront a v => Some (flq_push_front q a v, QUnit)
  | Pop => match flq_pop q with Some q' => Some (q', QUnit) | None => None end
  | RemoveKey k => let '(q', b) := flq_remove eqb q k in Some (q', QBool b)
  | Front => match flq_front q with Some v => Some (q, QVal v) | None => None end
  | Back => match flq_back q with Some v => Some (q, QVal v) | None => None end
  | ClearAll => Some (flq_clear q, QUnit)
  | IsEmpty => Some (q, QBool (flq_is_empty q))
  | InsertAt k a v => match flq_emplace_at q k a v with Some q' => Some (q', QUnit) | None => None end
  end.
(** The same call on a list; None = the caller broke the contract (element of an empty queue; insertion through the
    underlying container that is not in front of an existing element). *)
Fixpoint remove_first {A} (eqb : A -> A -> bool) (l : list A) (k : A) : option (list A) :=
  match l with
  | [] => None
  | x :: r => if eqb k x then Some r else match remove_first eqb r k with Some r' => Some (x :: r') | None => None end
  end.
Definition list_step {A} (eqb : A -> A -> bool) (l : list A) (o : qop A) : option (list A * qres A) :=
  match o with
  | PushBack _ v => Some (l ++ [v], QUnit)
  | PushFront _ v => Some (v :: l, QUnit)
  | Pop => match l with [] => None | _ :: r => Some (r, QUnit) end
  | RemoveKey k => match remove_first eqb l k with Some l' => Some (l', QBool true) | None => Some (l, QBool false) end
  | Front => match l with [] => None | x :: _ => Some (l, QVal x) end
  | Back => match rev l with [] => None | x :: _ => Some (l, QVal x) end
  | ClearAll => Some ([], QUnit)
  | IsEmpty => Some (l, QBool (match l with [] => true | _ => false end))
  | InsertAt k _ v => if Nat.ltb k (length l) then Some (firstn k l ++ v :: skipn k l, QUnit) else None
  end.
Fixpoint flq_run {A} (eqb : A -> A -> bool) (q : flq A) (ops : list (qop A)) : option (flq A * list (qres A)) :=
  match ops with
  | [] => Some (q, [])
  | o :: r => match flq_step eqb q o with
              | None => None
              | Some (q1, x) => match flq_run eqb q1 r with None => None | Some (q2, xs) => Some (q2, x :: xs) end
              end
  end.
Fixpoint list_run {A} (eqb : A -> A -> bool) (l : list A) (ops : list (qop A)) : option (list A * list (qres A)) :=
  match ops with
  | [] => Some (l, [])
  | o :: r => match list_step eqb l o with
              | None => None
              | Some (l1, x) => match list_run eqb l1 r with None => None | Some (l2, xs) => Some (l2, x :: xs) end
              end
  end.
(** The allocator never returns the address of a live node (it may reuse addresses of freed ones). *)
Definition new_address {A} (o : qop A) : option N :=
  match o with PushBack a _ | PushFront a _ | InsertAt _ a _ => Some a | _ => None end.
Fixpoint allocator_ok {A} (eqb : A -> A -> bool) (q : flq A) (ops : list (qop A)) : Prop :=
  match ops with
  | [] => True
  | o :: r => (forall a, new_address o = Some a -> ~ In a (map fst (q_fl q))) /\
              match flq_step eqb q o with Some (q', _) => allocator_ok eqb q' r | None => True end
  end.
