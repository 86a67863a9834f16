(** Specification vocabulary for C13, C35 (RFC 8949 section 3), independent of the model. *)
From Coq Require Import NArith Arith List Bool.
From Verif Require Import Base.
Import ListNotations.
Open Scope N_scope.

Definition is_octet (b : N) : Prop := b < 256.
(** Big-endian value. *)
Definition be_value (bs : list N) : N := fold_left (fun a b => a * 256 + b) bs 0.
(** [cbor_uint v bs]: bs is a major-type-0 data item for v: the value itself below 24, or additional information
    24 + j followed by 2^j bytes. *)
Inductive cbor_uint : N -> list N -> Prop :=
| CborImmediate v : v < 24 -> cbor_uint v [v]
| CborFollows j bs : (j < 4)%nat -> length bs = (2 ^ j)%nat -> Forall is_octet bs ->
    cbor_uint (be_value bs) (24 + N.of_nat j :: bs).
Definition shortest_cbor (v : N) (bs : list N) : Prop :=
  cbor_uint v bs /\ forall bs', cbor_uint v bs' -> (length bs <= length bs')%nat.
(** Decoding from the front of bs: the value and length of the item there, or failure (0, 0). *)
Inductive cbor_decode_spec (bs : list N) : N * N -> Prop :=
| CborOk v p rest : bs = p ++ rest -> cbor_uint v p -> cbor_decode_spec bs (v, N.of_nat (length p))
| CborFail : (forall v p rest, bs = p ++ rest -> ~ cbor_uint v p) -> cbor_decode_spec bs (0, 0).
(** Consecutive items. *)
Inductive cbor_items : list N -> list N -> Prop :=
| ItemsNil : cbor_items [] []
| ItemsCons v vs p q : cbor_uint v p -> cbor_items vs q -> cbor_items (v :: vs) (p ++ q).
(** A definite-length array header: an unsigned item with major type 4. *)
Definition cbor_array_header (n : N) (h : list N) : Prop :=
  exists b r, h = 128 + b :: r /\ cbor_uint n (b :: r).
(** An array of unsigned integers, definite or indefinite. *)
Definition cbor_array (vs : list N) (bs : list N) : Prop :=
  (exists h q, bs = h ++ q /\ cbor_array_header (N.of_nat (length vs)) h /\ cbor_items vs q) \/
  (exists q, bs = 159 :: q ++ [255] /\ cbor_items vs q).
Definition shortest_items (vs bs : list N) : Prop :=
  exists ps, bs = concat ps /\ Forall2 shortest_cbor vs ps.
