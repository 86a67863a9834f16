(** Shared vocabulary: machine word sizes and small list helpers. *)
From Coq Require Import NArith ZArith List Lia Bool.
Import ListNotations.
Open Scope N_scope.

(** 2^64, 2^32: the moduli of C++ uint64_t / uint32_t arithmetic. *)
Definition W64 : N := 18446744073709551616.
Definition W32 : N := 4294967296.
Definition U64MAX : N := 18446744073709551615.

Lemma W64_pow : W64 = 2 ^ 64. Proof. reflexivity. Qed.
Lemma W32_pow : W32 = 2 ^ 32. Proof. reflexivity. Qed.

(** uint64_t addition and subtraction (modular). *)
Definition add64 (a b : N) : N := (a + b) mod W64.
Definition sub64 (a b : N) : N := (a + (W64 - b)) mod W64.

Lemma add64_small a b : a + b < W64 -> add64 a b = a + b.
Proof. intros. unfold add64. now apply N.mod_small. Qed.
Lemma sub64_small a b : b <= a -> a < W64 -> sub64 a b = a - b.
Proof.
  intros. unfold sub64. replace (a + (W64 - b)) with ((a - b) + 1 * W64) by lia.
  rewrite N.mod_add by (unfold W64; lia). apply N.mod_small. lia.
Qed.

Lemma filter_length_le {A} (f : A -> bool) l : (length (filter f l) <= length l)%nat.
Proof. induction l as [|x l IH]; simpl; [lia|]. destruct (f x); simpl; lia. Qed.

Global Arguments N.add : simpl never.
Global Arguments N.sub : simpl never.
Global Arguments N.mul : simpl never.
Global Arguments N.div : simpl never.
Global Arguments N.modulo : simpl never.
Global Arguments N.pow : simpl never.
Global Arguments N.shiftl : simpl never.
Global Arguments N.shiftr : simpl never.
Global Arguments N.land : simpl never.
Global Arguments N.lor : simpl never.
Global Arguments N.eqb : simpl never.
Global Arguments N.ltb : simpl never.
Global Arguments N.leb : simpl never.
Global Arguments N.max : simpl never.
Global Arguments N.min : simpl never.
Global Arguments N.of_nat : simpl never.
Global Arguments N.to_nat : simpl never.
Global Arguments N.testbit : simpl never.
Global Arguments N.ldiff : simpl never.
Global Arguments N.compare : simpl never.
