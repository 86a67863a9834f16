(** Model of common/ltp/src/LtpSessionReceiver.cpp: one receiving session, red data held in memory. *)
From Coq Require Import NArith List Bool.
From Verif Require Import Base M_FragmentSet M_LtpFragmentSet.
Import ListNotations.
Open Scope N_scope.

(** A data segment as handed to LtpSessionReceiver::DataSegmentReceivedCallback (LtpSessionReceiver.cpp:364-366):
    segment type flags 0..7, Ltp.h data_segment_metadata_t offset / checkpoint and report serial numbers (present
    or NULL together here), client service data. The length field is the length of the data (Ltp.cpp delivers a
    segment only when exactly that many bytes were read). *)
Record dseg := mkSeg { sg_flags : N; sg_off : N; sg_data : list N; sg_ckpt : option (N * N) }.
Definition sg_len (s : dseg) : N := N.of_nat (length (sg_data s)).

(** A report segment as sent: Ltp.h report_segment_t (report serial number, checkpoint serial number, rest). *)
Record rpkt := mkRpkt { rp_rsn : N; rp_csn : N; rp_rep : report }.

(** Why the session asked the engine for its deletion
    (m_notifyEngineThatThisReceiverNeedsDeletedCallbackRef arguments wasCancelled, reasonCode). *)
Inductive note := Closed | CancelMiscolored | CancelSystem | CancelRetry.

(** LtpSessionReceiverCommonData fields read by the session (LtpSessionReceiver.h:170-260): m_maxRedRxBytes,
    m_maxReceptionClaims, m_maxRetriesPerSerialNumber, and whether the deferral timer duration is not_a_date_time.
    [rc_last], [rc_pad] are the unspecified choices: std::set::find among equivalents, bytes added by resize. *)
Record rconf := mkRconf { rc_maxred : N; rc_maxclaims : N; rc_retries : N; rc_defer : bool; rc_last : bool; rc_pad : N }.

(** LtpSessionReceiver.h members. Iterators into m_mapAllReportSegmentsSent are represented by their key (the report
    serial number). rx_timers is m_reportSerialNumberActiveTimersList together with the user data (retry count) of
    each timer. Entries of rx_pending each own one running deferral timer. rx_delivered, rx_green, rx_notes record
    the callbacks made, oldest first. Simplification: timestamps and statistics counters are left out, and
    the disk-backed mode (m_memoryInFilesPtrRef) is not modelled. *)
Record rx := mkRx {
  rx_next : N;                              (* m_nextReportSegmentReportSerialNumber *)
  rx_len : N;                               (* m_lengthOfRedPart *)
  rx_lowgreen : N;                          (* m_lowestGreenOffsetReceived *)
  rx_cur : N;                               (* m_currentRedLength *)
  rx_did : bool;                            (* m_didRedPartReceptionCallback *)
  rx_noted : bool;                          (* m_didNotifyForDeletion *)
  rx_eob : bool;                            (* m_receivedEobFromGreenOrRed *)
  rx_eobred : bool;                         (* m_receivedEobFromRed *)
  rx_set : fset;                            (* m_receivedDataFragmentsSet *)
  rx_data : list N;                         (* m_dataReceivedRed *)
  rx_csns : list N;                         (* m_checkpointSerialNumbersReceivedSet *)
  rx_sent : list rpkt;                      (* m_mapAllReportSegmentsSent *)
  rx_lastprim : option N;                   (* m_itLastPrimaryReportSegmentSent, None = end() *)
  rx_queue : list (N * N);                  (* m_reportsToSendFlistQueue (report, retryCount) *)
  rx_timers : list (N * N);                 (* m_reportSerialNumberActiveTimersList *)
  rx_pending : list (frag * (N * bool));    (* m_mapReportSegmentsPendingGeneration *)
  rx_delivered : list (list N * N * bool);
  rx_green : list (N * list N * bool);
  rx_notes : list note }.

(** LtpSessionReceiver.cpp:79-124 constructor (with RecycledData ClearAll). *)
Definition rx_init (rsn0 : N) : rx :=
  mkRx rsn0 U64MAX U64MAX 0 false false false false [] [] [] [] None [] [] [] [] [] [].

(** Field updates. *)
Definition up_marks (st : rx) eob eobred len low cur :=
  mkRx (rx_next st) len low cur (rx_did st) (rx_noted st) eob eobred (rx_set st) (rx_data st) (rx_csns st) (rx_sent st)
    (rx_lastprim st) (rx_queue st) (rx_timers st) (rx_pending st) (rx_delivered st) (rx_green st) (rx_notes st).
Definition up_data (st : rx) s d :=
  mkRx (rx_next st) (rx_len st) (rx_lowgreen st) (rx_cur st) (rx_did st) (rx_noted st) (rx_eob st) (rx_eobred st) s d
    (rx_csns st) (rx_sent st) (rx_lastprim st) (rx_queue st) (rx_timers st) (rx_pending st) (rx_delivered st)
    (rx_green st) (rx_notes st).
Definition up_csns (st : rx) cs :=
  mkRx (rx_next st) (rx_len st) (rx_lowgreen st) (rx_cur st) (rx_did st) (rx_noted st) (rx_eob st) (rx_eobred st)
    (rx_set st) (rx_data st) cs (rx_sent st) (rx_lastprim st) (rx_queue st) (rx_timers st) (rx_pending st)
    (rx_delivered st) (rx_green st) (rx_notes st).
Definition up_reports (st : rx) next sent lastprim queue :=
  mkRx next (rx_len st) (rx_lowgreen st) (rx_cur st) (rx_did st) (rx_noted st) (rx_eob st) (rx_eobred st)
    (rx_set st) (rx_data st) (rx_csns st) sent lastprim queue (rx_timers st) (rx_pending st)
    (rx_delivered st) (rx_green st) (rx_notes st).
Definition up_queue (st : rx) queue timers :=
  mkRx (rx_next st) (rx_len st) (rx_lowgreen st) (rx_cur st) (rx_did st) (rx_noted st) (rx_eob st) (rx_eobred st)
    (rx_set st) (rx_data st) (rx_csns st) (rx_sent st) (rx_lastprim st) queue timers (rx_pending st)
    (rx_delivered st) (rx_green st) (rx_notes st).
Definition up_pending (st : rx) p :=
  mkRx (rx_next st) (rx_len st) (rx_lowgreen st) (rx_cur st) (rx_did st) (rx_noted st) (rx_eob st) (rx_eobred st)
    (rx_set st) (rx_data st) (rx_csns st) (rx_sent st) (rx_lastprim st) (rx_queue st) (rx_timers st) p
    (rx_delivered st) (rx_green st) (rx_notes st).
Definition up_deliver (st : rx) :=
  mkRx (rx_next st) (rx_len st) (rx_lowgreen st) (rx_cur st) true (rx_noted st) (rx_eob st) (rx_eobred st)
    (rx_set st) (rx_data st) (rx_csns st) (rx_sent st) (rx_lastprim st) (rx_queue st) (rx_timers st) (rx_pending st)
    (rx_delivered st ++ [(rx_data st, rx_len st, rx_eobred st)]) (rx_green st) (rx_notes st).
Definition up_green (st : rx) g :=
  mkRx (rx_next st) (rx_len st) (rx_lowgreen st) (rx_cur st) (rx_did st) (rx_noted st) (rx_eob st) (rx_eobred st)
    (rx_set st) (rx_data st) (rx_csns st) (rx_sent st) (rx_lastprim st) (rx_queue st) (rx_timers st) (rx_pending st)
    (rx_delivered st) (rx_green st ++ [g]) (rx_notes st).

(** The repeated pattern if (!m_didNotifyForDeletion) { m_didNotifyForDeletion = true; notify(..); },
    e.g. LtpSessionReceiver.cpp:405-408. *)
Definition notify (n : note) (st : rx) :=
  if rx_noted st then st
  else mkRx (rx_next st) (rx_len st) (rx_lowgreen st) (rx_cur st) (rx_did st) true (rx_eob st) (rx_eobred st)
    (rx_set st) (rx_data st) (rx_csns st) (rx_sent st) (rx_lastprim st) (rx_queue st) (rx_timers st) (rx_pending st)
    (rx_delivered st) (rx_green st) (rx_notes st ++ [n]).

(** m_mapAllReportSegmentsSent.find(rsn). *)
Definition find_sent (st : rx) (rsn : N) : option rpkt := find (fun p => rp_rsn p =? rsn) (rx_sent st).

(** LtpSessionReceiver.cpp:790-823 the loop of HandleGenerateAndSendReportSegment over the produced reports:
    number each one, store it (emplace keeps an existing entry), remember it as last primary, queue it. *)
Fixpoint issue (csn : N) (secondary : bool) (rs : list report) (st : rx) : rx :=
  match rs with
  | [] => st
  | r :: rest =>
    let rsn := rx_next st in
    let sent := match find_sent st rsn with Some _ => rx_sent st | None => rx_sent st ++ [mkRpkt rsn csn r] end in
    issue csn secondary rest
      (up_reports st (add64 rsn 1) sent (if secondary then rx_lastprim st else Some rsn) (rx_queue st ++ [(rsn, 1)]))
  end.

(** LtpSessionReceiver.cpp:757-824 HandleGenerateAndSendReportSegment. None: PopulateReportSegment or
    SplitReportSegment failed and stale contents of the recycled vectors would be used. *)
Definition handle_report (c : rconf) (csn lower upper : N) (secondary : bool) (st : rx) : option rx :=
  match populate (rx_set st) lower upper with
  | None => None
  | Some r =>
    if rc_maxclaims c <? N.of_nat (length (rs_claims r))
    then match split_report r (rc_maxclaims c) with
         | SplitOk rss => Some (issue csn secondary rss st)
         | _ => None
         end
    else Some (issue csn secondary [r] st)
  end.

(** std::vector::resize (growing) and memcpy into the vector; None: the copy leaves the buffer. *)
Definition resize_to (pad : N) (n : N) (l : list N) : list N :=
  firstn (N.to_nat n) l ++ repeat pad (N.to_nat n - length l).
Definition write_at (l : list N) (off : N) (d : list N) : option (list N) :=
  if off + N.of_nat (length d) <=? N.of_nat (length l)
  then Some (firstn (N.to_nat off) l ++ d ++ skipn (N.to_nat off + length d) l)
  else None.

(** rs_pending_map_t (LtpSessionReceiver.h:133-135), keyed by data_fragment_no_overlap_allow_abut_t: find, emplace,
    erase. *)
Definition pend_find (k : frag) (m : list (frag * (N * bool))) := find (fun e => frag_equiv_abut k (fst e)) m.
Fixpoint pend_ins (e : frag * (N * bool)) (m : list (frag * (N * bool))) :=
  match m with
  | [] => [e]
  | x :: r => if frag_lt_abut (fst x) (fst e) then x :: pend_ins e r else e :: m
  end.
Definition pend_erase (k : frag) (m : list (frag * (N * bool))) := filter (fun e => negb (frag_eqb (fst e) k)) m.

(** LtpSessionReceiver.cpp:468-506 the part run when new data filled a gap: if the pending report whose range
    contains the segment's first byte is now complete, issue it. Second component:
    rsWasJustNowSentWithFullRedBounds. *)
Definition fill_gaps (c : rconf) (off : N) (st : rx) : option (rx * bool) :=
  match pend_find (off, off) (rx_pending st) with
  | None => Some (st, false)
  | Some (k, (csn, sec)) =>
    if contains_entirely (rc_last c) (rx_set st) k then
      match handle_report c csn (fst k) (add64 (snd k) 1) sec st with
      | None => None
      | Some st' => Some (up_pending st' (pend_erase k (rx_pending st')),
                          (fst k =? 0) && (add64 (snd k) 1 =? rx_len st'))
      end
    else Some (st, false)
  end.

(** LtpSessionReceiver.cpp:534-583 the lower bound of the report answering a checkpoint. *)
Definition report_lower (st : rx) (rsn : N) : N :=
  if negb (rsn =? 0) then
    match find_sent st rsn with Some p => rs_lower (rp_rep p) | None => 0 end
  else
    let base := match rx_lastprim st with
                | None => 0
                | Some r => match find_sent st r with Some p => rs_upper (rp_rep p) | None => 0 end
                end in
    match find (fun e => negb (snd (snd e))) (rev (rx_pending st)) with
    | None => base
    | Some e => let u := add64 (snd (fst e)) 1 in if base <? u then u else base
    end.

(** LtpSessionReceiver.cpp:534-656 answering a checkpoint whose serial number is new. *)
Definition answer_checkpoint (c : rconf) (csn rsn upper : N) (st : rx) : option rx :=
  let lower := report_lower st rsn in
  if upper <=? lower then Some st
  else if negb (rc_defer c) || contains_entirely (rc_last c) (rx_set st) (lower, sub64 upper 1)
  then handle_report c csn lower upper (negb (rsn =? 0)) st
  else match pend_find (lower, sub64 upper 1) (rx_pending st) with
       | Some _ => Some st                                   (* emplace failed: only logged *)
       | None => Some (up_pending st (pend_ins ((lower, sub64 upper 1), (csn, negb (rsn =? 0))) (rx_pending st)))
       end.

(** LtpSessionReceiver.cpp:657-696 delivery of the red part once complete. *)
Definition try_deliver (c : rconf) (isckpt justsent : bool) (st : rx) : option rx :=
  match rx_set st with
  | [(b, e)] =>
    if negb (rx_did st) && negb (rx_len st =? U64MAX) && (b =? 0) && (e =? sub64 (rx_len st) 1) then
      match (if isckpt || justsent then Some st else handle_report c 0 0 (rx_len st) false st) with
      | None => None
      | Some st' => Some (up_deliver st')
      end
    else Some st
  | _ => Some st
  end.

(** LtpSessionReceiver.cpp:509-696 from the end of the storing part to the end of the red branch. *)
Definition red_tail (c : rconf) (sg : dseg) (opl : N) (justsent : bool) (st : rx) : option rx :=
  let isckpt := negb (sg_flags sg =? 0) in
  let st := if N.testbit (sg_flags sg) 1
            then up_marks st (rx_eob st) (rx_eobred st) opl (rx_lowgreen st) (rx_cur st) else st in
  if isckpt then
    match sg_ckpt sg with
    | None => Some st                                                                  (* 517-520 *)
    | Some (csn, rsn) =>
      if existsb (N.eqb csn) (rx_csns st) then Some st                                  (* 524-526 *)
      else match answer_checkpoint c csn rsn opl (up_csns st (csn :: rx_csns st)) with
           | None => None
           | Some st' => try_deliver c isckpt justsent st'
           end
    end
  else try_deliver c isckpt justsent st.

(** LtpSessionReceiver.cpp:384-507 red data segment up to and including storing the data. *)
Definition rx_red (c : rconf) (sg : dseg) (opl : N) (st : rx) : option rx :=
  let needed := rx_cur st <? opl in
  let st := if needed then up_marks st (rx_eob st) (rx_eobred st) (rx_len st) (rx_lowgreen st) opl else st in
  if rx_lowgreen st <? rx_cur st then Some (notify CancelMiscolored st)
  else if rx_did st then Some st
  else if rc_maxred c <? rx_cur st then Some (notify CancelSystem st)
  else
    let '(set', new) := insert_fragment (rc_last c) (rx_set st) (sg_off sg, sub64 opl 1) in
    if new then
      let buf := if needed then resize_to (rc_pad c) (rx_cur st) (rx_data st) else rx_data st in
      match write_at buf (sg_off sg) (sg_data sg) with
      | None => None
      | Some d =>
        let st := up_data st set' d in
        match (if needed then Some (st, false) else fill_gaps c (sg_off sg) st) with
        | None => None
        | Some (st', js) => red_tail c sg opl js st'
        end
      end
    else red_tail c sg opl false (up_data st set' (rx_data st)).

(** LtpSessionReceiver.cpp:697-753 green data segment. *)
Definition rx_green_seg (c : rconf) (sg : dseg) (iseob : bool) (st : rx) : rx :=
  let st := up_marks st (rx_eob st) (rx_eobred st) (rx_len st) (N.min (sg_off sg) (rx_lowgreen st)) (rx_cur st) in
  if rx_lowgreen st <? rx_cur st then notify CancelMiscolored st
  else
    let st := up_green st (sg_off sg, sg_data sg, iseob) in
    if iseob then
      if ((rx_len st =? U64MAX) && match rx_set st with [] => true | _ => false end) || rx_did st
      then notify Closed st else st
    else st.

(** LtpSessionReceiver.cpp:364-755 DataSegmentReceivedCallback (memory mode). None: undefined behaviour or stale
    data as explained above. *)
Definition rx_segment (c : rconf) (sg : dseg) (st : rx) : option rx :=
  let opl := add64 (sg_off sg) (sg_len sg) in
  let isred := sg_flags sg <=? 3 in
  let iseob := N.testbit (sg_flags sg) 0 && N.testbit (sg_flags sg) 1 in
  let st := if iseob then up_marks st true isred (rx_len st) (rx_lowgreen st) (rx_cur st) else st in
  if isred then rx_red c sg opl st else Some (rx_green_seg c sg iseob st).

(** LtpSessionReceiver.cpp:312-361 ReportAcknowledgementSegmentReceivedCallback. *)
Definition rx_ack (rsn : N) (st : rx) : rx :=
  let st := up_queue st (rx_queue st) (filter (fun t => negb (fst t =? rsn)) (rx_timers st)) in
  match rx_queue st, rx_timers st with
  | [], [] => if rx_eob st && rx_did st then notify Closed st else st
  | _, _ => st
  end.

(** LtpSessionReceiver.cpp:260-309 NextDataToSend: the report to transmit, if any. *)
Definition rx_send (st : rx) : rx * option rpkt :=
  match rx_queue st with
  | [] => (st, None)
  | (rsn, retry) :: q =>
    let timers := if existsb (fun t => fst t =? rsn) (rx_timers st) then rx_timers st
                  else (rsn, retry) :: rx_timers st in
    (up_queue st q timers, find_sent st rsn)
  end.

(** LtpSessionReceiver.cpp:203-258 LtpReportSegmentTimerExpiredCallback for the running timer of report rsn. *)
Definition rx_report_timer (c : rconf) (rsn : N) (st : rx) : rx :=
  match find (fun t => fst t =? rsn) (rx_timers st) with
  | None => st                                                        (* no such timer is running *)
  | Some (_, retry) =>
    let st := up_queue st (rx_queue st) (filter (fun t => negb (fst t =? rsn)) (rx_timers st)) in
    if retry <=? rc_retries c then up_queue st (rx_queue st ++ [(rsn, retry + 1)]) (rx_timers st)
    else notify CancelRetry st
  end.

(** LtpSessionReceiver.cpp:182-201 LtpDelaySendReportSegmentTimerExpiredCallback for the pending report of
    checkpoint csn. *)
Definition rx_delay_timer (c : rconf) (csn : N) (st : rx) : option rx :=
  match find (fun e => fst (snd e) =? csn) (rx_pending st) with
  | None => Some st
  | Some (k, (cs, sec)) =>
    match handle_report c cs (fst k) (add64 (snd k) 1) sec st with
    | None => None
    | Some st' => Some (up_pending st' (pend_erase k (rx_pending st')))
    end
  end.

(** What the engine can do to a receiving session. *)
Inductive rev_ := RvData (sg : dseg) | RvAck (rsn : N) | RvSend | RvReportTimer (rsn : N) | RvDelayTimer (csn : N).
Definition rx_step (c : rconf) (e : rev_) (st : rx) : option (rx * option rpkt) :=
  match e with
  | RvData sg => match rx_segment c sg st with Some st' => Some (st', None) | None => None end
  | RvAck rsn => Some (rx_ack rsn st, None)
  | RvSend => Some (rx_send st)
  | RvReportTimer rsn => Some (rx_report_timer c rsn st, None)
  | RvDelayTimer csn => match rx_delay_timer c csn st with Some st' => Some (st', None) | None => None end
  end.
Fixpoint rx_run (c : rconf) (es : list rev_) (st : rx) : option (rx * list rpkt) :=
  match es with
  | [] => Some (st, [])
  | e :: r =>
    match rx_step c e st with
    | None => None
    | Some (st', o) =>
      match rx_run c r st' with
      | None => None
      | Some (st'', out) => Some (st'', match o with Some p => p :: out | None => out end)
      end
    end
  end.
