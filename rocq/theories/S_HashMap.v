(** Specification vocabulary for C15: a finite map is a function from keys to optional values. *)
From Coq Require Import NArith List Bool.
From Verif Require Import Base M_CustodyId M_HashMap.
Import ListNotations.
Open Scope N_scope.

(** The calls. [Put]: Insert. [Take]: GetValueAndRemove. [Get]: GetValuePtr and reading through it. [Write]: GetValuePtr
    and, if not NULL, assignment through it. *)
Inductive hop (K V : Type) := Put (k : K) (v : V) | Take (k : K) | Get (k : K) | Write (k : K) (v : V) | Clear.
Arguments Put {K V}. Arguments Take {K V}. Arguments Get {K V}. Arguments Write {K V}. Arguments Clear {K V}.
(** What a call shows: Insert whether it inserted, the others the value or nothing. *)
Inductive hres (V : Type) := RFlag (b : bool) | RVal (v : option V) | RNone.
Arguments RFlag {V}. Arguments RVal {V}. Arguments RNone {V}.

(** One call on the model. *)
Definition hm_step {K V} (ltb : K -> K -> bool) (hash : K -> N) (m : hmap K V) (o : hop K V) : hmap K V * hres V :=
  match o with
  | Put k v => let '(m', b) := hm_insert ltb hash m k v in (m', RFlag b)
  | Take k => let '(m', v) := hm_take ltb hash m k in (m', RVal v)
  | Get k => (m, RVal (hm_find ltb hash m k))
  | Write k v => (hm_write ltb hash m k v, RVal (hm_find ltb hash m k))
  | Clear => (hm_clear m, RNone)
  end.
Fixpoint hm_run {K V} (ltb : K -> K -> bool) (hash : K -> N) (m : hmap K V) (ops : list (hop K V)) : hmap K V * list (hres V) :=
  match ops with
  | [] => (m, [])
  | o :: r => let '(m1, x) := hm_step ltb hash m o in let '(m2, xs) := hm_run ltb hash m1 r in (m2, x :: xs)
  end.

(** The same calls on a mathematical map with decidable equality [eqk]. *)
Definition fmap_step {K V} (eqk : forall a b : K, {a = b} + {a <> b}) (f : K -> option V) (o : hop K V) : (K -> option V) * hres V :=
  let upd k x := fun k' => if eqk k' k then x else f k' in
  match o with
  | Put k v => match f k with Some _ => (f, RFlag false) | None => (upd k (Some v), RFlag true) end
  | Take k => (upd k None, RVal (f k))
  | Get k => (f, RVal (f k))
  | Write k v => (match f k with Some _ => upd k (Some v) | None => f end, RVal (f k))
  | Clear => (fun _ => None, RNone)
  end.
Fixpoint fmap_run {K V} (eqk : forall a b : K, {a = b} + {a <> b}) (f : K -> option V) (ops : list (hop K V)) : (K -> option V) * list (hres V) :=
  match ops with
  | [] => (f, [])
  | o :: r => let '(f1, x) := fmap_step eqk f o in let '(f2, xs) := fmap_run eqk f1 r in (f2, x :: xs)
  end.

(** A strict total order given as a boolean function. *)
Definition strict_total {K} (ltb : K -> K -> bool) : Prop :=
  (forall a, ltb a a = false) /\ (forall a b c, ltb a b = true -> ltb b c = true -> ltb a c = true) /\
  (forall a b, ltb a b = false -> ltb b a = false -> a = b).

(** The pairs with key [k] that are physically in the table. *)
Definition copies {K V} (eqk : forall a b : K, {a = b} + {a <> b}) (m : hmap K V) (h : N) (k : K) : nat :=
  length (filter (fun p => if eqk (fst p) k then true else false) (m h)).
