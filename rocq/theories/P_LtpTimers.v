(** C27: LTP timers. *)
From Coq Require Import NArith ZArith List Bool Lia.
From Verif Require Import Base M_LtpTimers S_LtpTimers L_LtpTimers.
Import ListNotations.
Open Scope N_scope.

(** C27: for every sequence of starts (identifier not 0), deletions, adjustments, clock movements, reactor completions, handler runs and
    callback returns: a start is refused iff the identifier is live; a deletion returns the timer's own data and takes it out; each
    handler run is defined and calls back nobody or the oldest live timer, with its own data, not before its earliest due time,
    and takes it out; while timers are live exactly one wait is outstanding; while start order agrees with due order, a timer at
    the head whose due time has come fires within two rounds of the io thread; and the manager can be destroyed at any moment
    outside a callback without leaking or double-freeing its flag. *)
Theorem C27_timers_follow_the_list c evs : timers_follow tm_new [] false c c c true evs.
Proof. apply follow_inv, tinv_new. Qed.
Print Assumptions C27_timers_follow_the_list.
(** Non-vacuity: timers 7, 8, 9 start; 8 is deleted; 7's callback starts 8 again; then 9 and 8 fire. *)
Definition play (c : Z) (s : option (tmgr * list (N * N))) (e : tevent) : option (tmgr * list (N * N)) :=
  match s with
  | None => None
  | Some (t, out) =>
    match e with
    | VStart a id dur d => Some (fst (tm_start t a id c dur d), out)
    | VDelete id => match tm_delete t id with Some (t', _) => Some (t', out) | None => None end
    | VAdjust d => Some (tm_adjust t d, out)
    | VClock _ => Some (t, out)
    | VWake i => Some (tm_wake t 1000 i, out)
    | VRun i => match tm_run t i with Some (t', Some f) => Some (t', out ++ [f]) | Some (t', None) => Some (t', out) | None => None end
    | VReturn => Some (tm_next t, out)
    end
  end.
Example ex_timers : match fold_left (play 0) [VStart 1 7 10 70; VStart 2 8 10 80; VStart 3 9 10 90; VStart 4 7 10 71; VDelete 8; VWake 0; VRun 0; VStart 2 8 10 81; VReturn;
    VWake 0; VRun 0; VReturn; VWake 0; VRun 0; VReturn] (Some (tm_new, [])) with Some (t, out) => out = [(7, 70); (9, 90); (8, 81)] /\ tm_empty t = true /\ tm_waits t = [] | None => False end.
Proof. vm_compute. auto. Qed.

(** A timer with identifier 0 is accepted, never fires and keeps every later timer from firing, however often the io thread runs. *)
Theorem C27_identifier_zero_blocks_everything_refuted : exists t,
  tm_start (fst (tm_start tm_new 1 0 0 10 100)) 2 5 0 10 101 = (t, true) /\ forall clock, (10 <= clock)%Z -> forall n, exists t', pumps n clock t = Some (t', None).
Proof.
  eexists. split; [vm_compute; reflexivity|]. intros clock H n. eexists. induction n as [|n IH]; [reflexivity|]. cbn [pumps].
  replace (pump clock _) with (Some (fst (tm_start (fst (tm_start tm_new 1 0 0 10 100)) 2 5 0 10 101), @None (N * N))); [exact IH|].
  unfold pump, tm_run, tm_wake. cbn [tm_waits nth_error aw_stat aw_deadline]. replace (10 <=? clock)%Z with true by (symmetry; apply Z.leb_le; lia). reflexivity.
Qed.
Print Assumptions C27_identifier_zero_blocks_everything_refuted.
(** Reset leaves the cancelled handler queued. If a timer is started before that handler has run, two waits are outstanding from then
    on; both can complete for the first timer, and the second completion fires the second timer long before it is due. *)
Theorem C27_restart_after_reset_fires_early_refuted : exists t t' t'',
  t = tm_reset (fst (tm_start tm_new 1 7 0 10 70)) /\
  t' = fst (tm_start (fst (tm_start t 2 8 0 10 80)) 3 9 0 1000 90) /\
  (exists a b c d, tm_run t' 0 = Some (a, None) /\ tm_wake a 20 1 = b /\ tm_run b 0 = Some (c, None) /\ c = d /\
     exists e f, tm_run (tm_wake d 20 1) 0 = Some (e, Some (8, 80)) /\ tm_next e = f /\ tm_run f 0 = Some (t'', Some (9, 90))).
Proof. eexists _, _, _. split; [reflexivity|]. split; [reflexivity|]. eexists _, _, _, _. repeat (split; [vm_compute; reflexivity|]). eexists _, _. repeat (split; [vm_compute; reflexivity|]). vm_compute. reflexivity. Qed.
Print Assumptions C27_restart_after_reset_fires_early_refuted.
(** Destroying the manager after Reset, before the cancelled handler has run, frees the flag that handler reads. *)
Theorem C27_destroy_after_reset_use_after_free_refuted : exists t, tm_reset (fst (tm_start tm_new 1 7 0 10 70)) = t /\ tm_run (tm_destroy t) 0 = None.
Proof. eexists. split; vm_compute; reflexivity. Qed.
Print Assumptions C27_destroy_after_reset_use_after_free_refuted.
(** Moving the timers later does not hold back an expiry whose handler is already queued. *)
Theorem C27_adjusted_later_still_fires_refuted : exists t, tm_adjust (tm_wake (fst (tm_start tm_new 1 7 0 10 70)) 10 0) 1000 = t /\
  map tn_due (tm_list t) = [1010%Z] /\ exists t', tm_run t 0 = Some (t', Some (7, 70)).
Proof. eexists. split; [vm_compute; reflexivity|]. split; [vm_compute; reflexivity|]. eexists. vm_compute. reflexivity. Qed.
Print Assumptions C27_adjusted_later_still_fires_refuted.
