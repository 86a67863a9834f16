(** Model of common/bpcodec/src/codec/CustodyIdAllocator.cpp. *)
From Coq Require Import NArith List Bool.
From Verif Require Import Base M_FragmentSet.
Import ListNotations.
Open Scope N_scope.

(** cbhe_eid_t: node and service number. *)
Definition eid := (N * N)%type.
Definition eid_eqb (a b : eid) : bool := (fst a =? fst b) && (snd a =? snd b).

(** CustodyIdAllocator.h:51-54, the four members; the std::map is an association list. *)
Record cia := mkCia { ca_next : N; ca_cur : list (eid * N); ca_ids : fset; ca_mults : fset }.
(** CustodyIdAllocator.cpp:20 constructor. *)
Definition cia_new : cia := mkCia U64MAX [] [] [].

(** CustodyIdAllocator.cpp:23-27 InitializeAddUsedCustodyId (the range version with both ends equal) and 28-33
    InitializeAddUsedCustodyIdRange. *)
Definition cia_init_range (last : bool) (st : cia) (b e : N) : cia :=
  mkCia (ca_next st) (ca_cur st) (fst (insert_fragment last (ca_ids st) (b, e)))
        (fst (insert_fragment last (ca_mults st) (N.shiftr b 8, N.shiftr e 8))).
Definition cia_init_one (last : bool) (st : cia) (i : N) : cia := cia_init_range last st i i.

(** uint64_t multiplier << 8 (lines 38, 57, 87). *)
Definition block_base (m : N) : N := N.shiftl m 8 mod W64.

(** CustodyIdAllocator.cpp:39-47 = 58-66: release the multiplier if none of its 256 ids is used. *)
Definition free_mult (last : bool) (ids mults : fset) (m : N) : fset * N :=
  if does_not_contain ids (block_base m, add64 (block_base m) 255) then
    if contains_entirely last mults (m, m) then (fst (remove_fragment mults (m, m)), 1) else (mults, 0)
  else (mults, 0).
(** CustodyIdAllocator.cpp:35-49 FreeCustodyId. *)
Definition cia_free (last : bool) (st : cia) (i : N) : cia * N :=
  let ids := fst (remove_fragment (ca_ids st) (i, i)) in
  let '(mults, n) := free_mult last ids (ca_mults st) (N.shiftr i 8) in
  (mkCia (ca_next st) (ca_cur st) ids mults, n).
(** CustodyIdAllocator.cpp:56-67: the loop over [cnt] multipliers from m. *)
Fixpoint free_mults (last : bool) (ids mults : fset) (m : N) (cnt : nat) : fset * N :=
  match cnt with
  | O => (mults, 0)
  | S c =>
    let '(mults1, n1) := free_mult last ids mults m in
    let '(mults2, n2) := free_mults last ids mults1 (m + 1) c in
    (mults2, n1 + n2)
  end.
(** CustodyIdAllocator.cpp:51-70 FreeCustodyIdRange. *)
Definition cia_free_range (last : bool) (st : cia) (b e : N) : cia * N :=
  let ids := fst (remove_fragment (ca_ids st) (b, e)) in
  let mb := N.shiftr b 8 in
  let '(mults, n) := free_mults last ids (ca_mults st) mb (N.to_nat (N.shiftr e 8 + 1 - mb)) in
  (mkCia (ca_next st) (ca_cur st) ids mults, n).

(** CustodyIdAllocator.cpp:74-91 ReserveNextCustodyIdBlock. *)
Definition cia_reserve (last : bool) (st : cia) : cia :=
  let m := match ca_mults st with [] => 0 | f :: _ => if negb (fst f =? 0) then 0 else add64 (snd f) 1 end in
  let base := block_base m in
  mkCia base (ca_cur st) (fst (insert_fragment last (ca_ids st) (base, add64 base 255)))
        (fst (insert_fragment last (ca_mults st) (m, m))).

(** std::map find / assignment. *)
Fixpoint cur_find (l : list (eid * N)) (k : eid) : option N :=
  match l with [] => None | (k', v) :: r => if eid_eqb k' k then Some v else cur_find r k end.
Fixpoint cur_set (l : list (eid * N)) (k : eid) (v : N) : list (eid * N) :=
  match l with [] => [(k, v)] | (k', v') :: r => if eid_eqb k' k then (k, v) :: r else (k', v') :: cur_set r k v end.
Definition with_cur (st : cia) (c : list (eid * N)) : cia := mkCia (ca_next st) c (ca_ids st) (ca_mults st).

(** CustodyIdAllocator.cpp:99-120 GetNextCustodyIdForNextHopCtebToSend. *)
Definition cia_get (last : bool) (st : cia) (src : eid) : cia * N :=
  let st1 := if ca_next st =? U64MAX then cia_reserve last st else st in      (* 100-102 *)
  match cur_find (ca_cur st1) src with
  | None =>                                                                   (* 105-109 *)
    let st2 := with_cur st1 (cur_set (ca_cur st1) src (add64 (ca_next st1) 1)) in
    (cia_reserve last st2, ca_next st1)
  | Some n =>                                                                 (* 110-119 *)
    let n' := add64 n 1 in
    if N.land n' 255 =? 0 then
      let st2 := with_cur st1 (cur_set (ca_cur st1) src (ca_next st1)) in
      (cia_reserve last st2, n)
    else (with_cur st1 (cur_set (ca_cur st1) src n'), n)
  end.
