(** A sending session and a receiving session joined by an unreliable network. *)
From Coq Require Import NArith List Bool.
From Verif Require Import Base M_FragmentSet M_LtpFragmentSet M_LtpReceiver M_LtpSender.
Import ListNotations.
Open Scope N_scope.

(** The engine hands received segments to the session they belong to (LtpEngine.cpp:1329-1351
    ReportAcknowledgementSegmentReceivedCallback, 1353-1380 ReportSegmentReceivedCallback, 1382-1470
    DataSegmentReceivedCallback). y_fwd and y_rev hold everything either side ever transmitted: the network may deliver
    any of it, any number of times, at any later moment, or never. y_got lists the data segments that reached the
    receiver. Simplification: sessions are not deleted or re-created (a notification to the engine is only recorded),
    and cancel segments are left out. *)
Record sys := mkSys { y_s : tx; y_r : rx; y_fwd : list packet; y_rev : list rpkt; y_got : list dseg }.

(** LtpSessionSender.cpp:63-96, LtpSessionReceiver.cpp:79-124. *)
Definition sys_init (sc : sconf) (csn0 rsn0 : N) (block : list N) (red : N) : sys :=
  mkSys (tx_init sc csn0 block red) (rx_init rsn0) [] [] [].

(** What can happen next: the sender transmits (first pass or time critical queue) or one of its timers expires; a data
    segment or report acknowledgement arrives; a report arrives; the receiver transmits or one of its timers expires. *)
Inductive act := AFirst | ACritical | ACkTimer (csn : N) | ASendDelay
  | AArrive (p : packet) | AReport (r : rpkt) | AEmit | AReportTimer (rsn : N) | ARecvDelay (csn : N).

(** The network delivers only what was sent. *)
Definition possible (y : sys) (a : act) : Prop :=
  match a with AArrive p => In p (y_fwd y) | AReport r => In r (y_rev y) | _ => True end.

(** The sender's side of a step (tx_step) and the receiver's (rx_step), with outputs put on the network. *)
Definition on_sender (sc : sconf) (e : sev) (y : sys) : option sys :=
  match tx_step sc e (y_s y) with
  | None => None
  | Some (s, o) => Some (mkSys s (y_r y) (match o with Some p => y_fwd y ++ [p] | None => y_fwd y end) (y_rev y) (y_got y))
  end.
Definition on_receiver (rc : rconf) (e : rev_) (got : list dseg) (y : sys) : option sys :=
  match rx_step rc e (y_r y) with
  | None => None
  | Some (r, o) => Some (mkSys (y_s y) r (y_fwd y) (match o with Some p => y_rev y ++ [p] | None => y_rev y end) (y_got y ++ got))
  end.
Definition sys_step (sc : sconf) (rc : rconf) (a : act) (y : sys) : option sys :=
  match a with
  | AFirst => on_sender sc SvFirst y
  | ACritical => on_sender sc SvCritical y
  | ACkTimer csn => on_sender sc (SvCkTimer csn) y
  | ASendDelay => on_sender sc SvDelayTimer y
  | AReport r => on_sender sc (SvReport r) y
  | AArrive (PData sg) => on_receiver rc (RvData sg) [sg] y
  | AArrive (PAck rsn) => on_receiver rc (RvAck rsn) [] y
  | AEmit => on_receiver rc RvSend [] y
  | AReportTimer rsn => on_receiver rc (RvReportTimer rsn) [] y
  | ARecvDelay csn => on_receiver rc (RvDelayTimer csn) [] y
  end.

(** An execution of n steps. *)
Inductive exec (sc : sconf) (rc : rconf) : sys -> N -> sys -> Prop :=
| exec_nil : forall y, exec sc rc y 0 y
| exec_step : forall y n y1 a y2, exec sc rc y n y1 -> possible y1 a -> sys_step sc rc a y1 = Some y2 -> exec sc rc y (n + 1) y2.
