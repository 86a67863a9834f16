(** Specification vocabulary for C29, independent of the model (CCSDS 734.2-B-1 aggregate custody signal). *)
From Coq Require Import NArith List Bool.
From Verif Require Import Base M_FragmentSet S_FragmentSet S_Sdnv.
Import ListNotations.
Open Scope N_scope.

(** One SDNV of at most ten bytes with a 64-bit value. *)
Definition sdnv64 (p : list N) : Prop := is_sdnv p /\ (length p <= 10)%nat /\ sdnv_value p < W64.

(** The bytes are one or more pairs (difference, length) of SDNVs and nothing else. *)
Inductive acs_fields : list N -> list (N * N) -> Prop :=
| FieldsLast p q : sdnv64 p -> sdnv64 q -> acs_fields (p ++ q) [(sdnv_value p, sdnv_value q)]
| FieldsMore p q rest fs : sdnv64 p -> sdnv64 q -> acs_fields rest fs ->
    acs_fields (p ++ q ++ rest) ((sdnv_value p, sdnv_value q) :: fs).

(** The ranges the pairs denote in unbounded arithmetic: each left edge is the previous right edge plus the difference. *)
Fixpoint acs_ranges (prev : N) (fs : list (N * N)) : list frag :=
  match fs with
  | [] => []
  | (d, n) :: r => (prev + d, prev + d + n - 1) :: acs_ranges (prev + d + n - 1) r
  end.
(** No length is zero and no id reaches 2^64-1. *)
Fixpoint acs_in_range (prev : N) (fs : list (N * N)) : Prop :=
  match fs with
  | [] => True
  | (d, n) :: r => 1 <= n /\ prev + d + n < W64 /\ acs_in_range (prev + d + n - 1) r
  end.

(** The shortest encoding of a list of ranges. *)
Inductive acs_encoding : N -> list frag -> list N -> Prop :=
| EncNil prev : acs_encoding prev [] []
| EncCons prev b e r p q rest : shortest_sdnv (b - prev) p -> shortest_sdnv (e + 1 - b) q -> acs_encoding e r rest ->
    acs_encoding prev ((b, e) :: r) (p ++ q ++ rest).

(** Something was added: single custody ids or contiguous runs, all below 2^64-1. *)
Definition added (ks : list frag) (i : N) : Prop := exists k, In k ks /\ in_frag k i.
