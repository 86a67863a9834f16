(** Property C30: ForwardListQueue. Vocabulary: S_Flq.v. *)
From Coq Require Import NArith ZArith List Bool Lia.
From Verif Require Import Base M_Flq S_Flq L_Flq.
Import ListNotations.
Open Scope N_scope.

(** C30: for every initial contents, every history within the contract and every allocator, no call is undefined, each
    call shows what the same call on a list shows, and iterating gives that list. *)
Theorem C30_queue_is_a_list : forall (A : Type) (eqb : A -> A -> bool) (init : list (N * A)) (ops : list (qop A)) l xs,
  NoDup (map fst init) -> allocator_ok eqb (flq_init init) ops -> list_run eqb (map snd init) ops = Some (l, xs) ->
  exists q, flq_run eqb (flq_init init) ops = Some (q, xs) /\ flq_contents q = l.
Proof.
  intros A eqb init ops l xs D F R. destruct (flq_init_ok init D) as [K C]. pose proof (flq_run_sim eqb ops _ K F) as S.
  rewrite C, R in S. destruct S as (q & E & _ & Q). eauto.
Qed.
Print Assumptions C30_queue_is_a_list.
(** Addresses are reused here. *)
Definition C30_ops : list (qop N) :=
  [Back; PushBack 3 30; Pop; RemoveKey 30; Back; PushBack 1 40; PushFront 3 5; InsertAt 1 9 6; RemoveKey 99; RemoveKey 40; Back; PushBack 1 50; Back; Pop; Pop; Pop; Pop; IsEmpty; PushFront 1 7; Back; RemoveKey 7; PushBack 1 8; Front; ClearAll; PushBack 1 2; Back].
Example C30_queue_is_a_list_ex :
  NoDup (map fst [(1, 10); (2, 20)]) /\ allocator_ok N.eqb (flq_init [(1, 10); (2, 20)]) C30_ops /\
  list_run N.eqb [10; 20] C30_ops = Some ([2], [QVal 20; QUnit; QUnit; QBool true; QVal 20; QUnit; QUnit; QUnit; QBool false; QBool true; QVal 20; QUnit; QVal 50; QUnit; QUnit; QUnit; QUnit; QBool true; QUnit; QVal 7; QBool true; QUnit; QVal 8; QUnit; QUnit; QVal 2]).
Proof.
  split; [|split; [|vm_compute; reflexivity]].
  - repeat constructor; simpl; intuition discriminate.
  - vm_compute. intuition (try discriminate); match goal with H : Some _ = Some _ |- _ => injection H as <-; intuition discriminate end.
Qed.

(** C30, what the contract on insertion through the underlying container is for: after inserting behind the last element
    push_back no longer appends. *)
Theorem C30_insert_behind_last_breaks_push_back_refuted : exists (ops : list (qop N)) q xs,
  allocator_ok N.eqb flq_empty ops /\ flq_run N.eqb flq_empty ops = Some (q, xs) /\
  ops = [PushBack 1 10; InsertAt 1 2 20; PushBack 3 30] /\ flq_contents q = [10; 30; 20].
Proof.
  eexists _, _, _. split; [|split; [|split; [reflexivity|]]]; [|vm_compute; reflexivity|reflexivity].
  vm_compute. intuition (try discriminate); match goal with H : Some _ = Some _ |- _ => injection H as <-; intuition discriminate end.
Qed.
Print Assumptions C30_insert_behind_last_breaks_push_back_refuted.
