(** C16, C17: the bundle storage catalog. *)
From Coq Require Import NArith List Bool Permutation Lia.
From Verif Require Import Base M_CustodyId M_HashMap M_Flq S_Flq L_Flq M_Catalog S_Catalog L_Catalog.
Import ListNotations.
Open Scope N_scope.

(** C16. From an empty catalog, every call of every history shows what the two lists of [spec] say: in particular a pop
    returns a waiting bundle for a selected destination, of highest priority, then earliest expiration, and of its
    destination, priority and expiration the one first in line; it returns nothing only if none waits for them. Expiry
    queries list the waiting bundles due, each once; lookups and counters are exact. *)
Theorem C16_catalog_follows_the_lists hf ops : history (fun _ _ => True) hf cat_new s_new ops.
Proof. apply history_inv; [exact (fun _ _ _ => I)|apply inv_new]. Qed.
Print Assumptions C16_catalog_follows_the_lists.

(** C17. In every state of every such history: a bundle is queued once if it is waiting and not at all otherwise, what
    waits is catalogued, and an id that is not (any more) stored resolves to nothing, and no uuid resolves to it. *)
Theorem C17_queued_once_gone_after_removal hf ops : history (tidy hf) hf cat_new s_new ops.
Proof.
  apply history_inv; [|apply inv_new]. intros c s V. split; [|split].
  - intros cid. exact (queued_times_spec hf c s cid V).
  - intros cid I. assert (In cid (ids (s_stored s))) as J.
    { apply in_map_iff in I. destruct I as (w & <- & I). apply in_map. exact (i_sub _ _ _ V _ I). }
    split; [exact J|]. rewrite (v_entry _ _ _ (i_S _ _ _ V)). destruct (lookup (s_stored s) cid) eqn:L; [discriminate|].
    apply lookup_none in L. contradiction.
  - intros cid I. split.
    + rewrite (v_entry _ _ _ (i_S _ _ _ V)). apply lookup_none in I. now rewrite I.
    + intros k E. apply (v_key _ _ _ (i_S _ _ _ V)) in E. destruct E as (b & J & _). apply I. change cid with (fst (cid, b)). now apply in_map.
Qed.
Print Assumptions C17_queued_once_gone_after_removal.

(** Examples: bundles for node 5, services 1 and 2, and node 6. *)
Definition hf0 : hashes := mkHashes hash_uuid hash_uuidnf.
Definition bundle (d : eid) (prio exp seq : N) (cust : bool) : item :=
  mkItem (mkPrim d prio exp seq cust false 700 seq (9, 9) 0) 100 60 [3; 4] None.
Definition store_all (l : list (N * item)) : option catalog :=
  fold_left (fun oc p => match oc with
                         | None => None
                         | Some c => match catalog_incoming hf0 c (ce_init (it_prim (snd p)) (it_size (snd p)) (it_payload (snd p)) (it_segs (snd p)) (it_mask (snd p)))
                                             (it_prim (snd p)) (fst p) Fifo with Some (c', true) => Some c' | _ => None end
                         end) l (Some cat_new).
Fixpoint pops (c : catalog) (q : sel) (n : nat) : list (option N) :=
  match n with
  | O => []
  | S k => match pop_sel c q with
           | Some (c', Some (cid, Some _)) => Some cid :: pops c' q k
           | Some (c', Some (cid, None)) => None :: pops c' q k
           | _ => []
           end
  end.
Definition five : list (N * item) :=
  [(11, bundle (5, 1) 0 10 1 true); (12, bundle (5, 2) 2 90 2 true); (13, bundle (5, 1) 2 80 3 false);
   (14, bundle (6, 1) 2 10 4 true); (15, bundle (5, 1) 2 80 5 true)].
Example C16_ex : (forall p, In p five -> it_prio (snd p) < 3 /\ it_exp (snd p) < 2 ^ 60 /\ it_size (snd p) < W64) /\
  match store_all five with
  | Some c => pops c (ByNode [5]) 5 = [Some 13; Some 15; Some 12; Some 11] /\ pops c (ByEid [(5, 1); (6, 1)]) 5 = [Some 14; Some 13; Some 15; Some 11] /\
              pops c (ByPair [((5, 2), false); ((6, 0), true)]) 5 = [Some 14; Some 12] /\ get_expired c 80 0 = [11; 13; 15; 14] /\ get_expired c 80 2 = [11; 13]
  | None => False
  end.
Proof. split; [|vm_compute; repeat split]. intros p [<-|[<-|[<-|[<-|[<-|[]]]]]]; vm_compute; repeat split. Qed.
(** Popping 13 and giving it back puts it in front of 15 again; removing 15 makes its uuid available. *)
Example C17_ex :
  match store_all five with
  | None => False
  | Some c =>
    match pop_sel c (ByNode [5]) with
    | Some (c1, Some (13, _)) =>
      queued_times c1 13 = 0%nat /\ queued_times c1 15 = 1%nat /\
      match return_cid c1 13, remove_any hf0 c1 15 with
      | Some (c2, true), Some (c3, true) =>
        queued_times c2 13 = 1%nat /\ pops c2 (ByNode [5]) 2 = [Some 13; Some 15] /\
        cid_of_uuid hf0 c2 (KNoFrag (mkUuidnf 700 5 (9, 9))) = Some 15 /\ cid_of_uuid hf0 c3 (KNoFrag (mkUuidnf 700 5 (9, 9))) = None /\
        queued_times c3 15 = 0%nat /\ entry_find c3 15 = None
      | _, _ => False
      end
    | _ => False
    end
  end.
Proof. vm_compute. repeat split. Qed.

(** C16, order by sequence: starting from an empty queue, bundles inserted in any order stand in strictly ascending
    sequence order; exactly the accepted ones are there; every sequence number offered is represented. *)
Theorem C16_sequence_order c l : (forall cid, In cid l -> entry_find c cid <> None) ->
  exists q fl, seq_run c flq_empty l = Some (q, fl) /\ length fl = length l /\
    ascending (map (fun y => match entry_find c y with Some e => ce_seq e | None => 0 end) (flq_contents q)) /\
    Permutation (flq_contents q) (accepted l fl) /\
    forall y e, In y l -> entry_find c y = Some e -> exists z ez, In z (flq_contents q) /\ entry_find c z = Some ez /\ ce_seq ez = ce_seq e.
Proof.
  intros E. destruct (seq_run_spec c l flq_empty []) as (q & fl & R & L & A & P & C & _).
  - apply flq_empty_ok.
  - intros y [].
  - exact I.
  - constructor.
  - exact E.
  - exists q, fl. split; [exact R|]. split; [exact L|]. split; [exact A|]. split; [exact P|]. intros y e I F. destruct (C y I) as (z & J & S).
    assert (In z l) as IL.
    { apply (Permutation_in _ P) in J. clear - J. cbn [app] in J. revert fl J. induction l as [|a r IH]; intros [|b fl] J; try destruct J.
      cbn [accepted] in J. destruct b; [destruct J as [<-|J]; [now left|]|]; right; eauto. }
    pose proof (E z IL) as EZ. unfold seq_of in S. rewrite F in S. destruct (entry_find c z) as [ez|] eqn:FZ; [|congruence]. exists z, ez. tauto.
Qed.
Example C16_sequence_ex :
  match store_all five with
  | None => False
  | Some c => match seq_run c flq_empty [13; 15; 11; 14; 12; 11] with
              | Some (q, fl) => flq_contents q = [11; 12; 13; 14; 15] /\ fl = [true; true; true; true; true; false]
              | None => False
              end
  end.
Proof. vm_compute. repeat split. Qed.
Print Assumptions C16_sequence_order.

(** The hypotheses of the history are needed. *)
(** Priority 3: representable in a version 6 primary block (Bpv6CbhePrimaryBlock.cpp GetPriority is two bits of the
    processing flags), refused by nothing in the source, and indexes the three-element array out of bounds. *)
Theorem C16_priority_three_indexes_out_of_bounds_refuted :
  exists b, it_prio b = 3 /\ it_exp b < 2 ^ 60 /\
    catalog_incoming hf0 cat_new (ce_init (it_prim b) (it_size b) (it_payload b) (it_segs b) (it_mask b)) (it_prim b) 7 Fifo = None.
Proof. exists (bundle (5, 1) 3 10 1 false). vm_compute. repeat split. Qed.
Print Assumptions C16_priority_three_indexes_out_of_bounds_refuted.
(** An expiration of 2^60 seconds or more loses its upper bits: the bundle that expires later is sent first, and is
    listed as expired at once. *)
Theorem C16_late_expiration_goes_first_refuted :
  exists a b c, it_prio a = it_prio b /\ it_dest a = it_dest b /\ it_exp a < it_exp b /\ it_exp b < W64 /\
    store_all [(1, a); (2, b)] = Some c /\ pops c (ByEid [it_dest a]) 2 = [Some 2; Some 1] /\ get_expired c 0 0 = [2].
Proof.
  exists (bundle (5, 1) 1 10 1 false), (bundle (5, 1) 1 (2 ^ 60) 2 false).
  destruct (store_all [(1, bundle (5, 1) 1 10 1 false); (2, bundle (5, 1) 1 (2 ^ 60) 2 false)]) as [c|] eqn:E; [|vm_compute in E; discriminate].
  exists c. split; [reflexivity|]. split; [reflexivity|]. split; [reflexivity|]. split; [reflexivity|]. split; [reflexivity|].
  injection E as <-. vm_compute. split; reflexivity.
Qed.
Print Assumptions C16_late_expiration_goes_first_refuted.
(** Ordering by sequence refuses a bundle of another source that has the same sequence number, and the refused bundle's
    uuid stays behind: it resolves to an id that has no entry. *)
Theorem C17_refused_bundle_leaves_its_uuid_refuted :
  exists a b c c', it_key a <> it_key b /\ store_all [(1, a)] = Some c /\
    catalog_incoming hf0 c (ce_init (it_prim b) (it_size b) (it_payload b) (it_segs b) (it_mask b)) (it_prim b) 2 BySeq = Some (c', false) /\
    entry_find c' 2 = None /\ exists k, it_key b = Some k /\ cid_of_uuid hf0 c k = None /\ cid_of_uuid hf0 c' k = Some 2.
Proof.
  set (b := mkItem (mkPrim (5, 1) 1 10 1 true false 700 1 (8, 8) 0) 100 60 [3; 4] None).
  exists (bundle (5, 1) 1 10 1 true), b.
  destruct (store_all [(1, bundle (5, 1) 1 10 1 true)]) as [c|] eqn:E; [|vm_compute in E; discriminate].
  destruct (catalog_incoming hf0 c (ce_init (it_prim b) (it_size b) (it_payload b) (it_segs b) (it_mask b)) (it_prim b) 2 BySeq) as [[c' ok]|] eqn:F;
    [|injection E as <-; vm_compute in F; discriminate].
  exists c, c'. split; [discriminate|]. split; [reflexivity|]. injection E as <-. injection F as <- <-. split; [reflexivity|]. split; [reflexivity|].
  exists (KNoFrag (mkUuidnf 700 1 (8, 8))). split; [reflexivity|]. split; reflexivity.
Qed.
Print Assumptions C17_refused_bundle_leaves_its_uuid_refuted.
(** Removing as sent a bundle that is still waiting leaves its id queued: the next pop returns a null entry although
    another bundle waits. *)
Theorem C17_removed_while_waiting_stays_queued_refuted :
  exists a b c c', store_all [(1, a); (2, b)] = Some c /\ remove_read hf0 c 1 = Some (c', true) /\ entry_find c' 1 = None /\
    queued_times c' 1 = 1%nat /\ pops c' (ByEid [it_dest b]) 2 = [None; Some 2].
Proof.
  exists (bundle (5, 1) 1 10 1 true), (bundle (5, 1) 1 10 2 true).
  destruct (store_all [(1, bundle (5, 1) 1 10 1 true); (2, bundle (5, 1) 1 10 2 true)]) as [c|] eqn:E; [|vm_compute in E; discriminate].
  destruct (remove_read hf0 c 1) as [[c' ok]|] eqn:F; [|injection E as <-; vm_compute in F; discriminate].
  exists c, c'. split; [reflexivity|]. injection E as <-. injection F as <- <-. split; [reflexivity|]. split; [reflexivity|]. split; reflexivity.
Qed.
Print Assumptions C17_removed_while_waiting_stays_queued_refuted.
