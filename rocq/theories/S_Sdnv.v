(** Specification vocabulary for C11, C12 (RFC 6256), independent of the model. *)
From Coq Require Import NArith List Bool.
From Verif Require Import Base.
Import ListNotations.
Open Scope N_scope.

Definition is_byte (b : N) : Prop := b < 256.
(** RFC 6256: zero or more bytes with the top bit set, then one with the top bit clear. *)
Definition is_sdnv (bs : list N) : Prop :=
  exists init last, bs = init ++ [last] /\ Forall (fun b => 128 <= b < 256) init /\ last < 128.
(** The number the low seven bits of the bytes spell, most significant first. *)
Definition sdnv_value (bs : list N) : N := fold_left (fun a b => a * 128 + b mod 128) bs 0.
(** [bs] is the shortest SDNV for v. *)
Definition shortest_sdnv (v : N) (bs : list N) : Prop :=
  is_sdnv bs /\ sdnv_value bs = v /\ forall bs', is_sdnv bs' -> sdnv_value bs' = v -> (length bs <= length bs')%nat.

(** What decoding one SDNV of at most [maxb] bytes and value below [w] from the front of [bs] must yield. *)
Inductive decode_spec (maxb : nat) (w : N) (bs : list N) : N * N -> Prop :=
| DecOk p rest : bs = p ++ rest -> is_sdnv p -> (length p <= maxb)%nat -> sdnv_value p < w ->
    decode_spec maxb w bs (sdnv_value p, N.of_nat (length p))
| DecTooBig p rest : bs = p ++ rest -> is_sdnv p -> (length p <= maxb)%nat -> w <= sdnv_value p ->
    decode_spec maxb w bs (0, 0)
| DecTooLong p rest : bs = p ++ rest -> length p = maxb -> Forall (fun b => 128 <= b) p ->
    decode_spec maxb w bs (0, 0)
| DecTruncated : (length bs < maxb)%nat -> Forall (fun b => 128 <= b) bs ->
    decode_spec maxb w bs (1, 0).

(** What decoding up to n SDNVs one after the other must yield: None = some SDNV reached is invalid; otherwise the
    values and the number of bytes they took. Decoding stops early at a truncated one. *)
Inductive array_spec : nat -> list N -> option (list N * N) -> Prop :=
| ArrDone bs : array_spec 0 bs (Some ([], 0))
| ArrBad n bs : decode_spec 10 W64 bs (0, 0) -> array_spec (S n) bs None
| ArrStop n bs : decode_spec 10 W64 bs (1, 0) -> array_spec (S n) bs (Some ([], 0))
| ArrNextBad n p rest : decode_spec 10 W64 (p ++ rest) (sdnv_value p, N.of_nat (length p)) -> is_sdnv p ->
    array_spec n rest None -> array_spec (S n) (p ++ rest) None
| ArrNext n p rest vs t : decode_spec 10 W64 (p ++ rest) (sdnv_value p, N.of_nat (length p)) -> is_sdnv p ->
    array_spec n rest (Some (vs, t)) ->
    array_spec (S n) (p ++ rest) (Some (sdnv_value p :: vs, N.of_nat (length p) + t)).

(** Decoding up to n SDNVs one after the other comes to a place where the next 32 bytes all have the top bit set. *)
Inductive runs_away : nat -> list N -> Prop :=
| RunHere n p rest : length p = 32%nat -> Forall (fun b => 128 <= b) p -> runs_away (S n) (p ++ rest)
| RunLater n p rest : is_sdnv p -> (length p <= 10)%nat -> sdnv_value p < W64 -> runs_away n rest -> runs_away (S n) (p ++ rest).

(** Some SDNV of at most ten bytes (not necessarily the shortest) for a 64-bit number. *)
Definition sdnv_for (v : N) (bs : list N) : Prop := is_sdnv bs /\ (length bs <= 10)%nat /\ sdnv_value bs = v /\ v < W64.
(** SDNVs one after the other, in any encoding of at most ten bytes. *)
Inductive sdnvs : list N -> list N -> Prop :=
| SdNil : sdnvs [] []
| SdCons v sd vs bs : sdnv_for v sd -> sdnvs vs bs -> sdnvs (v :: vs) (sd ++ bs).
(** The storage behind the bytes collected of an SDNV holds bytes. *)
Definition junk_ok (junk : list N -> list N) : Prop := forall v, Forall is_byte (junk v).
