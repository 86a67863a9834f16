(** Vocabulary for endpoint-id texts, independent of the model: decimal numerals. Texts are lists of character codes. *)
From Coq Require Import NArith List.
From Verif Require Import Base.
Import ListNotations.
Open Scope N_scope.

(** A digit character. *)
Definition digit (c : N) : Prop := 48 <= c <= 57.
(** The number a string of digits denotes. *)
Definition numeral_value (s : list N) : N := fold_left (fun acc c => 10 * acc + (c - 48)) s 0.
(** [s] is a numeral for [v]: one or more digits (leading zeros allowed). *)
Definition numeral (v : N) (s : list N) : Prop := s <> [] /\ Forall digit s /\ numeral_value s = v.
(** [s] is the usual decimal notation of [v]: no superfluous leading zero. *)
Definition decimal (v : N) (s : list N) : Prop := numeral v s /\ (length s = 1%nat \/ hd 0 s <> 48).

(** "ipn:" *)
Definition ipn_colon : list N := [105; 112; 110; 58].
(** [s] is the canonical text "ipn:<node>.<service>". *)
Definition ipn_text (node service : N) (s : list N) : Prop :=
  exists a b, decimal node a /\ decimal service b /\ s = ipn_colon ++ a ++ [46] ++ b.

(** The number texts the parser takes: a numeral of a 64-bit number, perhaps signed ('+' = 43, '-' = 45). *)
Inductive number_text : N -> list N -> Prop :=
| nt_plain v s : numeral v s -> v < W64 -> number_text v s
| nt_plus v s : numeral v s -> v < W64 -> number_text v (43 :: s)
| nt_minus v w s : numeral v s -> v < W64 -> w < W64 -> (w + v) mod W64 = 0 -> number_text w (45 :: s).
