(** Property C15: the storage hash map. Vocabulary: S_HashMap.v. *)
From Coq Require Import NArith ZArith List Bool Lia.
From Verif Require Import Base M_CustodyId M_HashMap S_HashMap L_HashMap.
Import ListNotations.
Open Scope N_scope.

(** C15: for every strict total order on keys, every 16-bit hash function and every history, each call shows what the
    same call on a mathematical map shows, and every key resolves to the same value afterwards. *)
Theorem C15_behaves_as_a_finite_map : forall (K V : Type) (ltb : K -> K -> bool) (eqk : forall a b : K, {a = b} + {a <> b}) (hash : K -> N),
  strict_total ltb -> (forall k, hash k < 65536) -> forall ops : list (hop K V),
  snd (hm_run ltb hash hm_empty ops) = snd (fmap_run eqk (fun _ => None) ops) /\
  forall k, hm_find ltb hash (fst (hm_run ltb hash hm_empty ops)) k = fst (fmap_run eqk (fun _ => None) ops) k.
Proof.
  intros K V ltb eqk hash ST H ops.
  destruct (hm_run_spec ltb ST eqk hash H ops hm_empty (fun _ => None) (hm_ok_empty ltb) (fun _ => eq_refl)) as (A & B & C). auto.
Qed.
Print Assumptions C15_behaves_as_a_finite_map.
(** All keys in one bucket. *)
Example C15_behaves_as_a_finite_map_ex : strict_total N.ltb /\
  snd (hm_run N.ltb hash_u64 hm_empty [Put 7 1; Put 65543 2; Put 131079 3; Put 65543 9; Get 65543; Take 7; Get 7; Write 131079 8; Get 131079; Put 7 4; Take 7; Clear; Get 65543])
  = [RFlag true; RFlag true; RFlag true; RFlag false; RVal (Some 2); RVal (Some 1); RVal None; RVal (Some 3); RVal (Some 8); RFlag true; RVal (Some 4); RNone; RVal None].
Proof. split; [exact N_strict|]. vm_compute. reflexivity. Qed.

(** C15: the three instantiations used by the catalog meet the conditions: the comparison operators are strict total
    orders and the hashes fit in 16 bits. *)
Theorem C15_key_types_are_totally_ordered :
  strict_total uuid_ltb /\ strict_total uuidnf_ltb /\ strict_total N.ltb /\
  (forall u, hash_uuid u < 65536) /\ (forall u, hash_uuidnf u < 65536) /\ (forall k, hash_u64 k < 65536).
Proof.
  exact (conj uuid_strict (conj uuidnf_strict (conj N_strict (conj hash_uuid_lt (conj hash_uuidnf_lt hash_u64_lt))))).
Qed.
Print Assumptions C15_key_types_are_totally_ordered.
Example C15_key_types_are_totally_ordered_ex :
  uuid_ltb (mkUuid 5 1 (2, 9) 0 100) (mkUuid 5 1 (3, 1) 0 50) = true /\ hash_uuid (mkUuid 5 1 (2, 9) 65536 100) = 106.
Proof. split; vm_compute; reflexivity. Qed.

(** C15: a key is physically stored at most once, and only in its own bucket. *)
Theorem C15_no_key_stored_twice : forall (K V : Type) (ltb : K -> K -> bool) (eqk : forall a b : K, {a = b} + {a <> b}) (hash : K -> N),
  strict_total ltb -> (forall k, hash k < 65536) -> forall (ops : list (hop K V)) h k,
  (copies eqk (fst (hm_run ltb hash hm_empty ops)) h k <= 1)%nat /\
  (copies eqk (fst (hm_run ltb hash hm_empty ops)) h k <> 0%nat -> h = hash k).
Proof.
  intros K V ltb eqk hash ST H ops h k.
  destruct (hm_run_spec ltb ST eqk hash H ops hm_empty (fun _ => None) (hm_ok_empty ltb) (fun _ => eq_refl)) as (A & _ & _).
  split; [exact (sorted_copies ltb ST eqk hash H _ k (A h))|]. unfold copies. intros C.
  assert (hm_placed hash (fst (hm_run ltb hash hm_empty ops))) as P by (apply hm_run_placed; intros i p []).
  destruct (filter _ _) as [|p r] eqn:F; [contradiction|].
  assert (In p (p :: r)) as I by now left. rewrite <- F in I. apply filter_In in I. destruct I as [I Q].
  destruct (eqk (fst p) k) as [E|]; [|discriminate]. rewrite <- E. symmetry. now apply P.
Qed.
Print Assumptions C15_no_key_stored_twice.
Example C15_no_key_stored_twice_ex :
  copies N.eq_dec (fst (hm_run N.ltb hash_u64 hm_empty [Put 7 1; Put 65543 2; Put 7 3])) 7 7 = 1%nat /\
  copies N.eq_dec (fst (hm_run N.ltb hash_u64 hm_empty [Put 7 1; Put 65543 2; Put 7 3])) 8 7 = 0%nat.
Proof. split; vm_compute; reflexivity. Qed.
