(** Model of module/storage/src/HashMap16BitFixedSize.cpp (buckets of sorted singly linked lists) and of the key orders
    it is used with (common/bpcodec/src/codec/Cbhe.cpp). *)
From Coq Require Import NArith List Bool.
From Verif Require Import Base M_CustodyId.
Import ListNotations.
Open Scope N_scope.

(** HashMap16BitFixedSize.h:31-33: std::array of 65536 std::forward_list of pairs, indexed by a uint16_t. Memory
    allocation always succeeds in the model; copying and moving a value are the same. *)
Definition hmap (K V : Type) := N -> list (K * V).
(** Cpp:27-29 constructor. *)
Definition hm_empty {K V} : hmap K V := fun _ => [].
(** Writing one bucket of the array. *)
Definition hm_set {K V} (m : hmap K V) (h : N) (b : list (K * V)) : hmap K V := fun i => if i =? h then b else m i.

(** Cpp:106-120, the loop of Insert: (itPrev, it) walk the bucket; [None] = the key is present (line 117, returns
    NULL). An empty bucket (lines 101-104) gives the same one-element list. *)
Fixpoint bucket_insert {K V} (ltb : K -> K -> bool) (b : list (K * V)) (k : K) (v : V) : option (list (K * V)) :=
  match b with
  | [] => Some [(k, v)]
  | (k', v') :: r =>
    if ltb k k' then Some ((k, v) :: b)
    else if ltb k' k then match bucket_insert ltb r k v with Some r' => Some ((k', v') :: r') | None => None end
    else None
  end.
(** Cpp:79-123 Insert with the key's own hash. The result says whether a pointer (true) or NULL is returned. *)
Definition hm_insert {K V} (ltb : K -> K -> bool) (hash : K -> N) (m : hmap K V) (k : K) (v : V) : hmap K V * bool :=
  match bucket_insert ltb (m (hash k)) k v with Some b => (hm_set m (hash k) b, true) | None => (m, false) end.

(** Cpp:140-153, the loop of GetValueAndRemove: the value moved out and the bucket after erase_after(itPrev). *)
Fixpoint bucket_take {K V} (ltb : K -> K -> bool) (b : list (K * V)) (k : K) : option (V * list (K * V)) :=
  match b with
  | [] => None
  | (k', v') :: r =>
    if ltb k k' then None
    else if ltb k' k then match bucket_take ltb r k with Some (v, r') => Some (v, (k', v') :: r') | None => None end
    else Some (v', r)
  end.
(** Cpp:125-158 GetValueAndRemove. *)
Definition hm_take {K V} (ltb : K -> K -> bool) (hash : K -> N) (m : hmap K V) (k : K) : hmap K V * option V :=
  match bucket_take ltb (m (hash k)) k with Some (v, b) => (hm_set m (hash k) b, Some v) | None => (m, None) end.

(** Cpp:175-187, the loop of GetValuePtr. *)
Fixpoint bucket_find {K V} (ltb : K -> K -> bool) (b : list (K * V)) (k : K) : option V :=
  match b with
  | [] => None
  | (k', v') :: r => if ltb k k' then None else if ltb k' k then bucket_find ltb r k else Some v'
  end.
(** Cpp:160-191 GetValuePtr (None = NULL). *)
Definition hm_find {K V} (ltb : K -> K -> bool) (hash : K -> N) (m : hmap K V) (k : K) : option V :=
  bucket_find ltb (m (hash k)) k.
(** Assignment through the pointer GetValuePtr returned (same walk). *)
Fixpoint bucket_write {K V} (ltb : K -> K -> bool) (b : list (K * V)) (k : K) (v : V) : list (K * V) :=
  match b with
  | [] => []
  | (k', v') :: r => if ltb k k' then b else if ltb k' k then (k', v') :: bucket_write ltb r k v else (k', v) :: r
  end.
Definition hm_write {K V} (ltb : K -> K -> bool) (hash : K -> N) (m : hmap K V) (k : K) (v : V) : hmap K V :=
  hm_set m (hash k) (bucket_write ltb (m (hash k)) k v).
(** Cpp:193-198 Clear: the 65536 buckets. *)
Definition hm_clear {K V} (m : hmap K V) : hmap K V := fun i => if i <? 65536 then [] else m i.
(** Cpp:200-207 BucketToVector, 209-217 GetBucketSize. *)
Definition hm_bucket {K V} (m : hmap K V) (h : N) : list (K * V) := m h.
Definition hm_bucket_size {K V} (m : hmap K V) (h : N) : N := N.of_nat (length (m h)).

(** Cbhe.cpp:49-54 cbhe_eid_t::operator<. *)
Definition eid_ltb (a b : eid) : bool := if fst a =? fst b then snd a <? snd b else fst a <? fst b.
(** bpv6.h / Cbhe.cpp: cbhe_bundle_uuid_t (creationSeconds, sequence, srcEid, fragmentOffset, dataLength) and
    cbhe_bundle_uuid_nofragment_t. *)
Record uuid := mkUuid { u_sec : N; u_seq : N; u_src : eid; u_off : N; u_len : N }.
Record uuidnf := mkUuidnf { n_sec : N; n_seq : N; n_src : eid }.
(** Cbhe.cpp:317-331 cbhe_bundle_uuid_t::operator<. *)
Definition uuid_ltb (a b : uuid) : bool :=
  if u_sec a =? u_sec b then
    if u_seq a =? u_seq b then
      if eid_eqb (u_src a) (u_src b) then
        if u_off a =? u_off b then u_len a <? u_len b else u_off a <? u_off b
      else eid_ltb (u_src a) (u_src b)
    else u_seq a <? u_seq b
  else u_sec a <? u_sec b.
(** Cbhe.cpp:378-386 cbhe_bundle_uuid_nofragment_t::operator<. *)
Definition uuidnf_ltb (a b : uuidnf) : bool :=
  if n_sec a =? n_sec b then
    if n_seq a =? n_seq b then eid_ltb (n_src a) (n_src b) else n_seq a <? n_seq b
  else n_sec a <? n_sec b.

(** Cpp:48-50 = 65-67: fold 64 bits to 32 and 32 to 16 (the build without USE_CRC32C_FAST). *)
Definition fold16 (x : N) : N :=
  let x32 := N.lxor (N.shiftr x 32 mod W32) (x mod W32) in
  N.lxor (N.shiftr x32 16 mod 65536) (x32 mod 65536).
(** Cpp:35-52, 55-69 GetHash of the two uuid types, 72-74 of a uint64_t. With USE_CRC32C_FAST the first two are another
    function into uint16_t; the theorems hold for every such function. *)
Definition hash_uuid (u : uuid) : N :=
  fold16 (N.lxor (N.lxor (N.lxor (N.lxor (N.lxor (u_sec u) (u_seq u)) (fst (u_src u))) (snd (u_src u))) (u_off u)) (u_len u)).
Definition hash_uuidnf (u : uuidnf) : N :=
  fold16 (N.lxor (N.lxor (N.lxor (n_sec u) (n_seq u)) (fst (n_src u))) (snd (n_src u))).
Definition hash_u64 (k : N) : N := k mod 65536.
