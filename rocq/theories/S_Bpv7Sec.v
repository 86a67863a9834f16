(** Specification vocabulary for C48 (RFC 9172 section 3.6, RFC 9173): the byte forms of abstract security blocks,
    independent of the routines of the model. *)
From Coq Require Import NArith List Bool.
From Verif Require Import Base M_Bpv7Block M_Bpv7Sec S_Cbor S_Bpv7Crc S_Bpv7.
Import ListNotations.
Open Scope N_scope.

(** The values the security contexts 1 (BIB-HMAC-SHA2) and 2 (BCB-AES-GCM) define for their parameters and results; the
    code looks at the low 32 bits of the numbers. *)
Inductive low_is (v n : N) : Prop := LowIs k : v = n + 2 ^ 32 * k -> low_is v n.
Inductive param_kind : N -> N -> secval -> Prop :=
| BibVariant v : param_kind 1 1 (VUint v)
| BibKey d : param_kind 1 2 (VBytes d)
| BibScope v : param_kind 1 3 (VUint v)
| BcbIv d : param_kind 2 1 (VBytes d)
| BcbVariant v : param_kind 2 2 (VUint v)
| BcbKey d : param_kind 2 3 (VBytes d)
| BcbScope v : param_kind 2 4 (VUint v).
Inductive result_kind : N -> N -> secval -> Prop :=
| BibHmac d : result_kind 1 1 (VBytes d)
| BcbTag d : result_kind 2 1 (VBytes d).
Definition known (isparam : bool) (ctx : N) (p : N * secval) : Prop :=
  exists c i, low_is ctx c /\ low_is (fst p) i /\ if isparam then param_kind c i (snd p) else result_kind c i (snd p).
Definition value_form (y : secval) (bs : list N) : Prop := match y with VUint v => cbor_uint v bs | VBytes d => byte_string d bs end.
(** An id with its value: an array of two, results in a further array of one. *)
Definition sec_pair (isparam : bool) (ctx : N) (p : N * secval) (bs : list N) : Prop :=
  exists i y q, cbor_uint (fst p) i /\ value_form (snd p) y /\ known isparam ctx p /\ pair_array (i ++ y) q /\
    bs = (if isparam then [] else [129]) ++ q.
(** An array of ids with values: at most 1000, of indefinite length only exactly 1000. *)
Definition sec_pairs (isparam : bool) (ctx : N) (ps : list (N * secval)) (bs : list N) : Prop :=
  exists h qs brk, bs = h ++ concat qs ++ brk /\ Forall2 (sec_pair isparam ctx) ps qs /\
    ((cbor_array_header (N.of_nat (length ps)) h /\ N.of_nat (length ps) <= 1000 /\ brk = []) \/ (h = [159] /\ length ps = 1000%nat /\ brk = [255])).
(** An array of block numbers, with the same limits. *)
Definition target_form (ts : list N) (bs : list N) : Prop :=
  (exists h q, bs = h ++ q /\ cbor_array_header (N.of_nat (length ts)) h /\ cbor_items ts q /\ N.of_nat (length ts) <= 1000) \/
  (exists q, bs = 159 :: q ++ [255] /\ cbor_items ts q /\ N.of_nat (length ts) = 1000).
Definition has_params (flags : N) : bool := N.testbit flags 0.
(** The data of a security block; [old] = the parameters found in the object when the bytes carry none. *)
Definition sec_form (old : list (N * secval)) (s : sec7) (d : list N) : Prop :=
  exists t c f src ps rs, d = t ++ c ++ f ++ src ++ ps ++ rs /\ target_form (s_targets s) t /\ cbor_uint (s_ctx s) c /\
    cbor_uint (s_flags s) f /\ s_flags s < 32 /\ eid7_form (s_source s) src /\
    (if has_params (s_flags s) then sec_pairs true (s_ctx s) (s_params s) ps else ps = [] /\ s_params s = old) /\
    sec_pairs false (s_ctx s) (s_results s) rs.

(** What the code writes. *)
Definition value_written (y : secval) (bs : list N) : Prop := match y with VUint v => shortest_cbor v bs | VBytes d => shortest_bytes d bs end.
Definition pair_written (isparam : bool) (p : N * secval) (bs : list N) : Prop :=
  exists i y, shortest_cbor (fst p) i /\ value_written (snd p) y /\ bs = (if isparam then [] else [129]) ++ [130] ++ i ++ y.
Definition shortest_header (n : N) (h : list N) : Prop := exists b r, h = 128 + b :: r /\ shortest_cbor n (b :: r).
Definition pairs_written (isparam : bool) (ps : list (N * secval)) (bs : list N) : Prop :=
  exists h qs, bs = h ++ concat qs /\ shortest_header (N.of_nat (length ps)) h /\ Forall2 (pair_written isparam) ps qs.
Definition sec_written (s : sec7) (d : list N) : Prop :=
  exists h t c f src ps rs, d = h ++ t ++ c ++ f ++ src ++ ps ++ rs /\ shortest_header (N.of_nat (length (s_targets s))) h /\ shortest_items (s_targets s) t /\
    shortest_cbor (s_ctx s) c /\ shortest_cbor (s_flags s) f /\ eid7_written (s_source s) src /\
    (if has_params (s_flags s) then pairs_written true (s_params s) ps else ps = []) /\ pairs_written false (s_results s) rs.
(** Members that fit their C++ types; vectors that fit in memory. *)
Definition value_ok (y : secval) : Prop := match y with VUint v => v < 2 ^ 64 | VBytes d => Forall is_octet d end.
Definition pair_ok (p : N * secval) : Prop := fst p < 2 ^ 64 /\ value_ok (snd p).
Definition pair_bytes (p : N * secval) : nat := 64 + match snd p with VUint _ => 0 | VBytes d => length d end.
Definition sec_bytes (s : sec7) : nat :=
  80 + 9 * length (s_targets s) + list_sum (map pair_bytes (s_params s)) + list_sum (map pair_bytes (s_results s)).
Definition sec_ok (s : sec7) : Prop :=
  Forall (fun t => t < 2 ^ 64) (s_targets s) /\ s_ctx s < 2 ^ 64 /\ s_flags s < 256 /\ small64 (s_source s) /\
  Forall pair_ok (s_params s) /\ Forall pair_ok (s_results s) /\ N.of_nat (sec_bytes s) < 2 ^ 64.
(** Blocks whose written form the reader takes: known ids, no reserved flags, at most 1000 entries. *)
Definition sec_readable (s : sec7) : Prop :=
  N.of_nat (length (s_targets s)) <= 1000 /\ s_flags s < 32 /\
  (has_params (s_flags s) = true -> Forall (known true (s_ctx s)) (s_params s) /\ N.of_nat (length (s_params s)) <= 1000) /\
  Forall (known false (s_ctx s)) (s_results s) /\ N.of_nat (length (s_results s)) <= 1000.
Definition sec_meant (old : list (N * secval)) (s : sec7) : sec7 :=
  mkSec7 (s_targets s) (s_ctx s) (s_flags s) (eid_meant (s_source s)) (if has_params (s_flags s) then s_params s else old) (s_results s).
