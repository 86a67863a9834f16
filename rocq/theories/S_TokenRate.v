(** Specification vocabulary for C31. *)
From Coq Require Import ZArith List Bool.
From Verif Require Import M_TokenRate.
Import ListNotations.
Open Scope Z_scope.

Inductive rop := Wait (d : Z) | Take (n : Z).
(** A history: the final state and the answer of each Take in order. *)
Fixpoint rl_run (st : rl) (ops : list rop) : option (rl * list bool) :=
  match ops with
  | [] => Some (st, [])
  | Wait d :: r => match rl_add st d with None => None | Some st' => rl_run st' r end
  | Take n :: r =>
    match rl_take st n with
    | None => None
    | Some (st', b) => match rl_run st' r with None => None | Some (st'', bs) => Some (st'', b :: bs) end
    end
  end.
(** Time passed; tokens granted. *)
Fixpoint elapsed (ops : list rop) : Z := match ops with [] => 0 | Wait d :: r => d + elapsed r | Take _ :: r => elapsed r end.
Fixpoint granted (ops : list rop) (bs : list bool) : Z :=
  match ops, bs with
  | Wait _ :: r, _ => granted r bs
  | Take n :: r, b :: bs' => (if b then n else 0) + granted r bs'
  | _, _ => 0
  end.
(** Reasonable sizes: no time goes backwards, no request is so large that the 64-bit product overflows. *)
Definition op_ok (itv : Z) (o : rop) : Prop := match o with Wait d => 0 <= d | Take n => 0 <= n /\ n * itv < I64 end.
