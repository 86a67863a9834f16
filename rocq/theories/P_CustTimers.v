(** C19: custody transfer timers. *)
From Coq Require Import NArith List Bool.
From Verif Require Import Base M_CustodyId M_CustTimers S_CustTimers L_CustTimers.
Import ListNotations.
Open Scope N_scope.

(** C19. In every history of starts, cancellations, polls and counts, with any timeout: a start is refused exactly for an
    id whose timer is running; a poll returns a running timer that is due, of its destination the one started first, and
    with a destination list one of earliest deadline; it is then not running any more; a poll returns nothing only if none
    is due; a cancelled timer is not running; the counts are exact. *)
Theorem C19_timers_follow_the_list timeout start ops : timer_history timeout start (tm_new timeout) [] ops.
Proof. exact (timer_history_inv timeout ops start (tm_new timeout) [] (tinv_new timeout start)). Qed.
Print Assumptions C19_timers_follow_the_list.

Example C19_ex :
  let t1 := fst (tm_start (tm_new 10) (5, 1) 100 3) in
  let t2 := fst (tm_start t1 (4, 1) 101 4) in
  let t3 := fst (tm_start t2 (5, 1) 102 4) in
  snd (tm_start t3 (9, 9) 101 5) = false /\ tm_count t3 = 3 /\ tm_count_dest t3 (5, 1) = 2 /\
  match tm_cancel t3 (4, 1) 101 with
  | Some (t4, true) =>
    option_map snd (tm_poll_any t4 12) = Some None /\
    match tm_poll t4 [(4, 1); (5, 1)] 14 with
    | Some (t5, Some (100, true)) => option_map snd (tm_poll_any t5 14) = Some (Some (102, true)) /\ option_map snd (tm_poll t5 [(4, 1)] 14) = Some None
    | _ => False
    end
  | _ => False
  end.
Proof. vm_compute. repeat split. Qed.

(** Start order holds per destination only: with timers due for two destinations the later one may be returned first. *)
Theorem C19_start_order_across_destinations_refuted :
  exists timeout d1 d2 c1 c2 now1 now2 now3 t', now1 < now2 /\ now2 <= now3 /\
    let t := fst (tm_start (fst (tm_start (tm_new timeout) d1 c1 now1)) d2 c2 now2) in
    now1 + timeout <= now3 /\ tm_poll_any t now3 = Some (t', Some (c2, true)).
Proof. exists 10, (5, 1), (4, 1), 100, 101, 3, 4, 20. eexists. vm_compute. repeat split; discriminate. Qed.
Print Assumptions C19_start_order_across_destinations_refuted.
(** The clock is the wall clock. If it is set back between two starts, a due timer hides behind one that is not. *)
Theorem C19_clock_set_back_hides_due_timer_refuted :
  exists timeout d now1 now2 now3 t', now2 < now1 /\
    let t := fst (tm_start (fst (tm_start (tm_new timeout) d 100 now1)) d 101 now2) in
    now2 + timeout <= now3 /\ tm_poll_any t now3 = Some (t', None).
Proof. exists 10, (5, 1), 50, 3, 20. eexists. vm_compute. repeat split; discriminate. Qed.
Print Assumptions C19_clock_set_back_hides_due_timer_refuted.
(** Cancelling with a destination that has timers but not this one hands the iterator to the wrong list. *)
Theorem C19_cancel_with_other_destination_undefined_refuted :
  exists timeout d1 d2 now, d1 <> d2 /\
    let t := fst (tm_start (fst (tm_start (tm_new timeout) d1 100 now)) d2 101 now) in tm_cancel t d2 100 = None.
Proof. exists 10, (5, 1), (4, 1), 3. split; [discriminate|]. vm_compute. reflexivity. Qed.
Print Assumptions C19_cancel_with_other_destination_undefined_refuted.
