(** Model of common/ltp/src/LtpSessionSender.cpp: one sending session, block held in memory. *)
From Coq Require Import NArith List Bool.
From Verif Require Import Base M_FragmentSet M_LtpFragmentSet M_LtpReceiver.
Import ListNotations.
Open Scope N_scope.

(** LtpSessionSender.h:50-69 resend_fragment_t. *)
Record rfrag := mkRfrag { rf_off : N; rf_len : N; rf_csn : N; rf_rsn : N; rf_flags : N; rf_retry : N }.

(** LtpSessionSenderCommonData (LtpSessionSender.h:106-165): m_mtuClientServiceData, m_checkpointEveryNthDataPacket,
    m_maxRetriesPerSerialNumber, whether the delayed-send timer is enabled; [sc_last] as in M_FragmentSet. *)
Record sconf := mkSconf { sc_mtu : N; sc_nth : N; sc_retries : N; sc_defer : bool; sc_last : bool }.

(** Notifications to the engine (m_notifyEngineThatThisSenderNeedsDeletedCallbackRef). *)
Inductive snote := Completed | FailedRetry.

(** LtpSessionSender.h members. tx_block is the client service data (memory mode); tx_timers are the running checkpoint
    timers with their user data. tx_initial counts the initial transmission completed callbacks, tx_notes records the
    deletion notifications. *)
Record tx := mkTx {
  tx_block : list N; tx_red : N;             (* m_dataToSendSharedPtr, M_LENGTH_OF_RED_PART *)
  tx_idx : N;                                (* m_dataIndexFirstPass *)
  tx_csn : N;                                (* m_nextCheckpointSerialNumber *)
  tx_cnt : N;                                (* m_checkpointEveryNthDataPacketCounter *)
  tx_acked : fset;                           (* m_dataFragmentsAckedByReceiver *)
  tx_rsns : list N;                          (* m_reportSegmentSerialNumbersReceivedSet *)
  tx_ras : list N;                           (* m_nonDataToSendFlistQueue: report acknowledgements *)
  tx_resend : list rfrag;                    (* m_resendFragmentsFlistQueue *)
  tx_timers : list rfrag;                    (* m_checkpointSerialNumberActiveTimersList *)
  tx_pending : list (frag * N);              (* m_mapRsBoundsToRsnPendingGeneration *)
  tx_largest : N;                            (* m_largestEndIndexPendingGeneration *)
  tx_allred : bool;                          (* m_allRedDataReceivedByRemote *)
  tx_noted : bool;                           (* m_didNotifyForDeletion *)
  tx_initial : N;
  tx_notes : list snote }.

(** LtpSessionSender.cpp:63-96 constructor. *)
Definition tx_init (c : sconf) (csn0 : N) (block : list N) (red : N) : tx :=
  mkTx block red 0 csn0 (sc_nth c) [] [] [] [] [] [] 0 false false 0 [].

(** m_dataToSendSharedPtr->size(). *)
Definition tx_size (st : tx) : N := N.of_nat (length (tx_block st)).

(** Field updates. *)
Definition tup_queues (st : tx) ras resend timers :=
  mkTx (tx_block st) (tx_red st) (tx_idx st) (tx_csn st) (tx_cnt st) (tx_acked st) (tx_rsns st) ras resend timers
    (tx_pending st) (tx_largest st) (tx_allred st) (tx_noted st) (tx_initial st) (tx_notes st).
Definition tup_pass (st : tx) idx csn cnt timers :=
  mkTx (tx_block st) (tx_red st) idx csn cnt (tx_acked st) (tx_rsns st) (tx_ras st) (tx_resend st) timers
    (tx_pending st) (tx_largest st) (tx_allred st) (tx_noted st) (tx_initial st) (tx_notes st).
Definition tup_initial (st : tx) :=
  mkTx (tx_block st) (tx_red st) (tx_idx st) (tx_csn st) (tx_cnt st) (tx_acked st) (tx_rsns st) (tx_ras st)
    (tx_resend st) (tx_timers st) (tx_pending st) (tx_largest st) (tx_allred st) (tx_noted st) (tx_initial st + 1)
    (tx_notes st).
Definition tup_acks (st : tx) acked rsns allred :=
  mkTx (tx_block st) (tx_red st) (tx_idx st) (tx_csn st) (tx_cnt st) acked rsns (tx_ras st) (tx_resend st)
    (tx_timers st) (tx_pending st) (tx_largest st) allred (tx_noted st) (tx_initial st) (tx_notes st).
Definition tup_pending (st : tx) pending largest :=
  mkTx (tx_block st) (tx_red st) (tx_idx st) (tx_csn st) (tx_cnt st) (tx_acked st) (tx_rsns st) (tx_ras st)
    (tx_resend st) (tx_timers st) pending largest (tx_allred st) (tx_noted st) (tx_initial st) (tx_notes st).
Definition tup_resend (st : tx) csn resend :=
  mkTx (tx_block st) (tx_red st) (tx_idx st) csn (tx_cnt st) (tx_acked st) (tx_rsns st) (tx_ras st) resend
    (tx_timers st) (tx_pending st) (tx_largest st) (tx_allred st) (tx_noted st) (tx_initial st) (tx_notes st).

(** if (!m_didNotifyForDeletion) { m_didNotifyForDeletion = true; notify(..) }. *)
Definition tx_notify (n : snote) (st : tx) : tx :=
  if tx_noted st then st
  else mkTx (tx_block st) (tx_red st) (tx_idx st) (tx_csn st) (tx_cnt st) (tx_acked st) (tx_rsns st) (tx_ras st)
    (tx_resend st) (tx_timers st) (tx_pending st) (tx_largest st) (tx_allred st) true (tx_initial st)
    (tx_notes st ++ [n]).

(** LtpTimerManager::StartTimer for a checkpoint: refused when a timer with the same serial number runs. *)
Definition start_timer (f : rfrag) (timers : list rfrag) : list rfrag :=
  if existsb (fun t => rf_csn t =? rf_csn f) timers then timers else f :: timers.

(** Packets leaving the sender. *)
Inductive packet := PData (sg : dseg) | PAck (rsn : N).

(** Bytes [off, off+len) of the block: boost::asio::buffer(data() + off, len); None: reads outside the block. *)
Definition block_bytes (st : tx) (off len : N) : option (list N) :=
  if off + len <=? tx_size st then Some (firstn (N.to_nat len) (skipn (N.to_nat off) (tx_block st))) else None.

(** LtpSessionSender.cpp:559-566 and 474-477: the acked set is one fragment starting at 0 and reaching the end of the
    red part. *)
Definition acked_all_red (st : tx) : bool :=
  match tx_acked st with
  | [(b, e)] => (b =? 0) && (sub64 (tx_red st) 1 <=? e)
  | _ => false
  end.

(** LtpSessionSender.cpp:456-483 what happens when the first pass reaches the end of the block. *)
Definition first_pass_end (st : tx) : tx :=
  if tx_idx st =? tx_size st then
    let st := tup_initial st in
    if tx_red st =? 0 then tx_notify Completed st
    else if acked_all_red st then tx_notify Completed st else st
  else st.

(** LtpSessionSender.cpp:330-486 NextFirstPassDataToSend. Outer None: reads outside the block. *)
Definition tx_first (c : sconf) (st : tx) : option (tx * option packet) :=
  if tx_idx st <? tx_size st then
    if tx_idx st <? tx_red st then
      let bytes := N.min (sub64 (tx_red st) (tx_idx st)) (sc_mtu c) in
      let eorp := add64 bytes (tx_idx st) =? tx_red st in
      let cnt1 := if sc_nth c =? 0 then tx_cnt st else sub64 (tx_cnt st) 1 in
      let periodic := negb (sc_nth c =? 0) && (cnt1 =? 0) in
      let cnt2 := if periodic then sc_nth c else cnt1 in
      let ckpt := periodic || eorp in
      let flags := if negb ckpt then 0 else if negb eorp then 1
                   else if tx_red st =? tx_size st then 3 else 2 in
      match block_bytes st (tx_idx st) bytes with
      | None => None
      | Some d =>
        let sg := mkSeg flags (tx_idx st) d (if ckpt then Some (tx_csn st, 0) else None) in
        let timers := if ckpt then start_timer (mkRfrag (tx_idx st) bytes (tx_csn st) 0 flags 1) (tx_timers st)
                      else tx_timers st in
        Some (first_pass_end (tup_pass st (add64 (tx_idx st) bytes)
                (if ckpt then add64 (tx_csn st) 1 else tx_csn st) cnt2 timers), Some (PData sg))
      end
    else
      let bytes := N.min (sub64 (tx_size st) (tx_idx st)) (sc_mtu c) in
      let eob := add64 bytes (tx_idx st) =? tx_size st in
      match block_bytes st (tx_idx st) bytes with
      | None => None
      | Some d =>
        Some (first_pass_end (tup_pass st (add64 (tx_idx st) bytes) (tx_csn st) (tx_cnt st) (tx_timers st)),
              Some (PData (mkSeg (if eob then 7 else 4) (tx_idx st) d None)))
      end
  else Some (st, None).

(** LtpSessionSender.cpp:233-328: the while loop over m_resendFragmentsFlistQueue. *)
Definition tx_resend_next (st : tx) : option (tx * option packet) :=
  if tx_allred st then Some (tup_queues st (tx_ras st) [] (tx_timers st), None)       (* 234-237: all popped *)
  else match tx_resend st with
       | [] => Some (st, None)
       | f :: q =>
         let ckpt := negb (rf_flags f =? 0) in
         match block_bytes st (rf_off f) (rf_len f) with
         | None => None
         | Some d =>
           Some (tup_queues st (tx_ras st) q (if ckpt then start_timer f (tx_timers st) else tx_timers st),
                 Some (PData (mkSeg (rf_flags f) (rf_off f) d (if ckpt then Some (rf_csn f, rf_rsn f) else None))))
         end
       end.

(** LtpSessionSender.cpp:217-328 NextTimeCriticalDataToSend. *)
Definition tx_critical (st : tx) : option (tx * option packet) :=
  match tx_ras st with
  | r :: q => Some (tup_queues st q (tx_resend st) (tx_timers st), Some (PAck r))
  | [] => tx_resend_next st
  end.

(** LtpSessionSender.cpp:680-706 the inner for loop of ResendDataFromReport over one range; [fuel] counts rounds
    (None: does not terminate). *)
Fixpoint resend_range (fuel : nat) (c : sconf) (rsn e : N) (lastfrag : bool) (idx : N) (st : tx) : option tx :=
  if idx <=? e then
    match fuel with
    | O => None
    | S fuel' =>
      let bytes := N.min (add64 (sub64 e idx) 1) (sc_mtu c) in
      let lastpkt := lastfrag && (add64 idx bytes =? add64 e 1) in
      let eorp := add64 bytes idx =? tx_red st in
      let flags := if negb lastpkt then 0 else if negb eorp then 1
                   else if tx_red st =? tx_size st then 3 else 2 in
      let csn := if lastpkt then tx_csn st else 0 in
      resend_range fuel' c rsn e lastfrag (add64 idx bytes)
        (tup_resend st (if lastpkt then add64 (tx_csn st) 1 else tx_csn st)
           (tx_resend st ++ [mkRfrag idx bytes csn rsn flags 1]))
    end
  else Some st.

(** LtpSessionSender.cpp:677-709 ResendDataFromReport. *)
Fixpoint resend_report (c : sconf) (rsn : N) (fs : fset) (st : tx) : option tx :=
  match fs with
  | [] => Some st
  | (b, e) :: r =>
    match resend_range (S (N.to_nat (e - b))) c rsn e (match r with [] => true | _ => false end) b st with
    | None => None
    | Some st' => resend_report c rsn r st'
    end
  end.
Fixpoint resend_reports (c : sconf) (l : list (N * fset)) (st : tx) : option tx :=
  match l with
  | [] => Some st
  | (rsn, fs) :: r => match resend_report c rsn fs st with None => None | Some st' => resend_reports c r st' end
  end.

(** ds_pending_map_t (FragmentSet.h:124-136,155-157): std::map keyed by (begin, end) lexicographically; emplace keeps
    an existing entry. *)
Definition lex_lt (a b : frag) : bool := if fst a =? fst b then snd a <? snd b else fst a <? fst b.
Fixpoint ds_emplace (k : frag) (v : N) (m : list (frag * N)) : list (frag * N) :=
  match m with
  | [] => [(k, v)]
  | x :: r => if lex_lt (fst x) k then x :: ds_emplace k v r
              else if lex_lt k (fst x) then (k, v) :: m else m
  end.

(** LtpSessionSender.cpp:589-669 reacting to a report that acknowledged something new. *)
Definition tx_resend_for (c : sconf) (r : rpkt) (st : tx) : option tx :=
  let bounds := (rs_lower (rp_rep r), sub64 (rs_upper (rp_rep r)) 1) in
  let need := bounds_minus (sc_last c) bounds (tx_acked st) in
  if negb (sc_defer c) then resend_report c (rp_rsn r) need st
  else match tx_pending st with
       | [] => match need with
               | [] => Some st
               | _ => Some (tup_pending st [(bounds, rp_rsn r)] (snd bounds))
               end
       | _ :: _ =>
         let largest := N.max (tx_largest st) (snd bounds) in
         let pending := ds_emplace bounds (rp_rsn r) (tx_pending st) in
         let lo := match pending with [] => 0 | x :: _ => fst (fst x) end in
         if contains_entirely (sc_last c) (tx_acked st) (lo, largest)
         then Some (tup_pending st [] largest)
         else Some (tup_pending st pending largest)
       end.

(** LtpSessionSender.cpp:489-675 ReportSegmentReceivedCallback. *)
Definition tx_report (c : sconf) (r : rpkt) (st : tx) : option tx :=
  let st := tup_queues st (tx_ras st ++ [rp_rsn r]) (tx_resend st) (tx_timers st) in
  if existsb (N.eqb (rp_rsn r)) (tx_rsns st) then Some st
  else
    let timers := if rp_csn r =? 0 then tx_timers st
                  else filter (fun t => negb (rf_csn t =? rp_csn r)) (tx_timers st) in
    let st := tup_queues st (tx_ras st) (tx_resend st) timers in
    let '(acked, new) := add_report (sc_last c) (tx_acked st) (rp_rep r) in
    let st := tup_acks st acked (rp_rsn r :: tx_rsns st) (tx_allred st) in
    if negb new then Some st
    else
      let st := tup_acks st acked (tx_rsns st) (tx_allred st || acked_all_red st) in
      let st := if (tx_idx st =? tx_size st) && tx_allred st then tx_notify Completed st else st in
      tx_resend_for c r st.

(** LtpSessionSender.cpp:130-193 LtpCheckpointTimerExpiredCallback for the running timer of checkpoint csn. *)
Definition tx_ck_timer (c : sconf) (csn : N) (st : tx) : tx :=
  match find (fun t => rf_csn t =? csn) (tx_timers st) with
  | None => st
  | Some f =>
    let st := tup_queues st (tx_ras st) (tx_resend st) (filter (fun t => negb (rf_csn t =? csn)) (tx_timers st)) in
    if rf_retry f <=? sc_retries c then
      if (rf_flags f =? 1) &&
         contains_entirely (sc_last c) (tx_acked st) (rf_off f, sub64 (add64 (rf_off f) (rf_len f)) 1)
      then st
      else tup_queues st (tx_ras st)
             (tx_resend st ++ [mkRfrag (rf_off f) (rf_len f) (rf_csn f) (rf_rsn f) (rf_flags f) (rf_retry f + 1)])
             (tx_timers st)
    else tx_notify FailedRetry st
  end.

(** LtpSessionSender.cpp:195-215 LtpDelaySendDataSegmentsTimerExpiredCallback. The timer runs exactly while
    tx_pending is not empty. *)
Definition tx_delay_timer (c : sconf) (st : tx) : option tx :=
  match resend_reports c (reduce_reports (sc_last c) (tx_pending st) (tx_acked st)) st with
  | None => None
  | Some st' => Some (tup_pending st' [] (tx_largest st'))
  end.

(** What the engine can do to a sending session. *)
Inductive sev := SvFirst | SvCritical | SvReport (r : rpkt) | SvCkTimer (csn : N) | SvDelayTimer.
Definition tx_step (c : sconf) (e : sev) (st : tx) : option (tx * option packet) :=
  match e with
  | SvFirst => tx_first c st
  | SvCritical => tx_critical st
  | SvReport r => match tx_report c r st with Some st' => Some (st', None) | None => None end
  | SvCkTimer csn => Some (tx_ck_timer c csn st, None)
  | SvDelayTimer => match tx_delay_timer c st with Some st' => Some (st', None) | None => None end
  end.

(** A run: the outcome of each event, in order. *)
Fixpoint tx_run (c : sconf) (es : list sev) (st : tx) : option (tx * list (sev * packet)) :=
  match es with
  | [] => Some (st, [])
  | e :: r =>
    match tx_step c e st with
    | None => None
    | Some (st', o) =>
      match tx_run c r st' with
      | None => None
      | Some (st'', out) => Some (st'', match o with Some p => (e, p) :: out | None => out end)
      end
    end
  end.
