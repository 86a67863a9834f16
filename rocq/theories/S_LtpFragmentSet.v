(** Specification vocabulary for LTP report segments. *)
From Coq Require Import NArith List Sorted.
From Verif Require Import Base M_FragmentSet S_FragmentSet M_LtpFragmentSet.
Import ListNotations.
Open Scope N_scope.

(** Block byte i is inside the scope [lower, upper) of the report. *)
Definition in_scope (r : report) (i : N) : Prop := rs_lower r <= i /\ i < rs_upper r.
(** The claim (offset, length) of a report with this lower bound says byte i was received. *)
Definition claim_covers (lower : N) (c : claim) (i : N) : Prop :=
  lower + fst c <= i /\ i < lower + fst c + snd c.
(** The report says byte i was received. *)
Definition claimed (r : report) (i : N) : Prop := exists c, In c (rs_claims r) /\ claim_covers (rs_lower r) c i.

(** RFC 5326 constraints on a report: non-empty scope, claims non-empty, inside the scope, in increasing order
    and disjoint; [strict] additionally demands a gap between consecutive claims. *)
Definition claim_order (strict : bool) (a b : claim) : Prop :=
  if strict then fst a + snd a < fst b else fst a + snd a <= fst b.
Definition well_formed (strict : bool) (r : report) : Prop :=
  rs_lower r < rs_upper r /\ rs_upper r < W64 /\
  Forall (fun c => 1 <= snd c /\ rs_lower r + fst c + snd c <= rs_upper r) (rs_claims r) /\
  StronglySorted (claim_order strict) (rs_claims r).

(** Claims as absolute ranges (first byte, length). *)
Definition absolute (r : report) : list claim := map (fun c => (rs_lower r + fst c, snd c)) (rs_claims r).

(** Consecutive scopes: the first starts at lo, each next starts where the previous ended, the last ends at hi. *)
Fixpoint scopes_chain (lo hi : N) (rss : list report) : Prop :=
  match rss with
  | [] => lo = hi
  | r :: rest => rs_lower r = lo /\ lo < rs_upper r /\ scopes_chain (rs_upper r) hi rest
  end.

(** Requested bounds: UINT64_MAX stands for "first received byte" / "one past the last received byte". *)
Definition effective_lower (s : fset) (lower0 : N) : N :=
  if lower0 =? U64MAX then match s with [] => 0 | e :: _ => fst e end else lower0.
Definition effective_upper (s : fset) (upper0 : N) : N :=
  if upper0 =? U64MAX then snd (last s (0, 0)) + 1 else upper0.

(** One report of a split: non-empty scope, between 1 and m claims, each non-empty and in its own scope, in order. *)
Definition rs_ok (m : N) (r : report) : Prop :=
  rs_lower r < rs_upper r /\ rs_claims r <> [] /\ N.of_nat (length (rs_claims r)) <= m /\
  Forall (fun c => 1 <= snd c /\ rs_lower r + fst c + snd c <= rs_upper r) (rs_claims r) /\
  StronglySorted (claim_order false) (rs_claims r).

(** Byte i is in one of the lists of ranges to resend. *)
Definition result_covers (res : list (N * fset)) (i : N) : Prop := exists p, In p res /\ covers (snd p) i.
