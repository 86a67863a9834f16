(** Specification vocabulary for C44 (RFC 9171 section 4.2.1-4.2.2, CRC-16/X-25 and CRC-32C), independent of the model.
    A polynomial over the two-element field is a number: bit i is the coefficient of x^i. *)
From Coq Require Import NArith List Bool.
From Verif Require Import Base S_Cbor.
Import ListNotations.
Open Scope N_scope.

(** Sum is [N.lxor]; the product. *)
Fixpoint ppmul (a : positive) (b : N) : N :=
  match a with
  | xH => b
  | xO a' => 2 * ppmul a' b
  | xI a' => N.lxor b (2 * ppmul a' b)
  end.
Definition pmul (a b : N) : N := match a with 0 => 0 | Npos p => ppmul p b end.
(** r is the remainder of a divided by a polynomial P of degree w. *)
Definition remainder (w P a r : N) : Prop := r < 2 ^ w /\ exists q, a = N.lxor (pmul q P) r.
(** The bits of a message, each byte least significant bit first, read as a polynomial: first bit = highest power. *)
Definition message_bits (data : list N) : list bool := flat_map (fun b => map (fun i => N.testbit b (N.of_nat i)) (seq 0 8)) data.
Definition bits_poly (bits : list bool) : N := fold_left (fun a (b : bool) => 2 * a + (if b then 1 else 0)) bits 0.
(** The w bits of c in reverse order. *)
Definition reversed (w : nat) (c : N) : N := bits_poly (map (fun i => N.testbit c (N.of_nat i)) (seq 0 w)).
Definition ones (w : N) : N := 2 ^ w - 1.
(** c is the checksum of data: the message times x^w, with its first w bits inverted, leaves the remainder whose
    inverse, in reverse bit order, is c. *)
Definition checksum (w : nat) (P : N) (data : list N) (c : N) : Prop :=
  c < 2 ^ N.of_nat w /\
  remainder (N.of_nat w) P
    (N.lxor (bits_poly (message_bits data) * 2 ^ N.of_nat w) (ones (N.of_nat w) * 2 ^ N.of_nat (length (message_bits data))))
    (reversed w (N.lxor c (ones (N.of_nat w)))).
(** x^16 + x^12 + x^5 + 1 and the Castagnoli polynomial. *)
Definition X25_POLY : N := 2 ^ 16 + 2 ^ 12 + 2 ^ 5 + 1.
Definition CASTAGNOLI_POLY : N := 2 ^ 32 + 0x1EDC6F41.

(** Two messages of the same length that differ, but only within n consecutive bytes. *)
Definition differ_within (n : nat) (d1 d2 : list N) : Prop :=
  exists pre m1 m2 post, d1 = pre ++ m1 ++ post /\ d2 = pre ++ m2 ++ post /\
    length m1 = length m2 /\ (length m1 <= n)%nat /\ m1 <> m2.

(** The CRC field (RFC 9171 section 4.2.2): a CBOR byte string of n bytes, in network order. *)
Definition crc_field (n : nat) (c : N) (bs : list N) : Prop :=
  exists e, bs = 64 + N.of_nat n :: e /\ length e = n /\ Forall is_octet e /\ be_value e = c.
