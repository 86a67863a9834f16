(** Model of what the TCP based outducts report about the bundles they are given: common/util/src/TcpAsyncSender.cpp (Tas), the sending side
    of common/tcpcl/src/TcpclV3BidirectionalLink.cpp (V3) and TcpclV4BidirectionalLink.cpp (V4) and of common/stcp/src/StcpBundleSource.cpp
    (Stcp). Two threads: the one that calls Forward and the io_service thread that writes, receives acknowledgments and reconnects; every
    event is one step and steps interleave freely. The circular index buffer between the threads is a bounded list (C14). Forward puts its
    entry into the buffer and posts its elements in one step. Not modelled: the bytes of messages (C34), the negotiation, timers, TLS
    (TcpAsyncSenderSsl repeats TcpAsyncSender), the receiving side, the vector overloads of Forward, telemetry counters. The user data a
    bundle travels with is a number; None is an empty vector. A connection is replaced only after the io_service thread has run what was
    posted and the aborted write has emptied the queue (reconnecting takes seconds, posted functions run at once); elsewhere the event [Up]
    does nothing. *)
From Coq Require Import NArith List Bool.
From Verif Require Import Base.
Import ListNotations.
Open Scope N_scope.

Definition W32 : N := 4294967296.
(** ** TcpAsyncSender *)
(** A bundle: which one, size. *)
Record bundle := mkBundle { b_tag : N; b_size : N }.
(** A data segment: bundle, start and end flag, transfer id (V4), bytes, bytes of the bundle up to its end. *)
Record seg := mkSeg { w_tag : N; w_start : bool; w_end : bool; w_id : N; w_len : N; w_total : N }.
(** TcpAsyncSender.h:49-64 TcpAsyncSenderElement: m_constBufferVec as a data segment (None: length, keepalive, acknowledgment, shutdown), the
    bundle it owns (m_underlyingDataZmqBundle), m_userData. *)
Record elem := mkElem { l_seg : option seg; l_bundle : option bundle; l_user : option N }.
(** The callbacks OnSuccessfulBundleSendCallback and OnFailedBundleZmqSendCallback. *)
Inductive report := Sent (u : option N) | Failed (b : bundle) (u : option N).
(** Functions posted to the io_service, m_queueTcpAsyncSenderElements (the front is being written), m_sendErrorOccurred; not program state:
    the data segments written on this connection. *)
Record sender := mkSender { t_posted : list elem; t_queue : list elem; t_err : bool; t_wire : list seg }.
Definition new_sender : sender := mkSender [] [] false [].
(** Tas:109-116 DoFailedBundleCallback. *)
Definition failed (e : elem) : list report := match l_bundle e with Some b => [Failed b (l_user e)] | None => [] end.
(** Tas:69-71 AsyncSend_ThreadSafe. *)
Definition post (l : list elem) (t : sender) : sender := mkSender (t_posted t ++ l) (t_queue t) (t_err t) (t_wire t).
(** Tas:51-67 AsyncSend_NotThreadSafe, run by the io_service thread. *)
Definition run_posted (t : sender) : sender * list report :=
  match t_posted t with
  | [] => (t, [])
  | e :: r => if t_err t then (mkSender r (t_queue t) true (t_wire t), failed e) else (mkSender r (t_queue t ++ [e]) false (t_wire t), [])
  end.
(** Tas:74-97 HandleTcpSend, no error: the front has been written. *)
Definition wrote (t : sender) : sender * option elem :=
  match t_queue t with
  | [] => (t, None)
  | e :: r => (mkSender (t_posted t) r (t_err t) (t_wire t ++ match l_seg e with Some g => [g] | None => [] end), Some e)
  end.
(** Tas:74-88 HandleTcpSend, error. *)
Definition write_failed (t : sender) : sender * list report :=
  match t_queue t with
  | [] => (t, [])
  | q => (mkSender (t_posted t) [] true (t_wire t), flat_map failed q)
  end.
(** No write is pending and nothing is posted. *)
Definition quiet (t : sender) : bool := match t_posted t, t_queue t with [], [] => true | _, _ => false end.

(** ** Segments *)
(** V3:506-540, V4:718-774: the loop that cuts a bundle; every turn takes min(size - at, mx) bytes. *)
Fixpoint cut (fuel : nat) (tag id mx size at_ : N) : list seg :=
  match fuel with
  | O => []
  | S n => let len := N.min (size - at_) mx in
           let fin := at_ + len =? size in
           mkSeg tag (at_ =? 0) fin id len (at_ + len) :: (if fin then [] else cut n tag id mx size (at_ + len))
  end.
(** V3:500, V4:713: doFragment. *)
Definition fragments (mx size : N) : bool := negb (mx =? 0) && (mx <? size).
Definition segments (b : bundle) (id mx : N) : list seg :=
  if fragments mx (b_size b) then cut (N.to_nat (b_size b / mx + 1)) (b_tag b) id mx (b_size b) 0
  else [mkSeg (b_tag b) true true id (b_size b) (b_size b)].
(** V3:511-533, 572-586, V4:723-755, 800-812: the element of the last segment owns the bundle; m_userData is not set. *)
Definition elements (b : bundle) (l : list seg) : list elem := map (fun g => mkElem (Some g) (if w_end g then Some b else None) None) l.

(** ** TCPCL version 3 *)
(** m_base_bytesToAckCbVec, m_base_fragmentBytesToAckCbVec, m_base_fragmentVectorIndexCbVec, m_base_userDataCbVec at one index. *)
Record entry := mkEntry { n_size : N; n_frags : list N; n_idx : nat; n_user : N }.
(** The buffer, m_base_readyToForward, the sender, reports made. Not program state: bundles accepted, acknowledgments received on this
    connection. *)
Record st3 := mk3 { v_ring : list entry; v_ready : bool; v_snd : sender; v_out : list report; v_acc : list (bundle * N); v_acks : list N }.
(** M_BASE_UNACKED_BUNDLE_CB_SIZE (V3:68; a buffer of n holds n - 1, C14), M_BASE_MAX_FRAGMENT_SIZE, REQUEST_SENDING_OF_LENGTH_MESSAGES. *)
Record cfg3 := mkCfg3 { c_unacked : N; c_frag : N; c_length : bool }.
Definition start3 : st3 := mk3 [] false new_sender [] [] [].
(** V3:450-590 BaseClass_Forward. Refused, it hands the bundle back and leaves the user data alone. *)
Definition forward3 (c : cfg3) (b : bundle) (u : N) (s : st3) : st3 :=
  if negb (v_ready s) then s
  else if c_unacked c + 4 <=? N.of_nat (length (v_ring s)) then s
  else let l := segments b 0 (c_frag c) in
       let e := mkEntry (b_size b) (if fragments (c_frag c) (b_size b) then map w_total l else []) 0 u in
       mk3 (v_ring s ++ [e]) true (post ((if c_length c then [mkElem None None None] else []) ++ elements b l) (v_snd s)) (v_out s)
           (v_acc s ++ [(b, u)]) (v_acks s).
(** V3:222-266 BaseClass_AckCallback; None = index out of bounds. *)
Definition ack3 (n : N) (s : st3) : option st3 :=
  match v_ring s with
  | [] => Some (mk3 [] (v_ready s) (v_snd s) (v_out s) (v_acc s) (v_acks s ++ [n]))
  | e :: r =>
    match (match n_frags e with
           | [] => Some e
           | f => match nth_error f (n_idx e) with
                  | None => None
                  | Some _ => Some (mkEntry (n_size e) (if Nat.eqb (S (n_idx e)) (length f) then [] else f) (S (n_idx e)) (n_user e))
                  end
           end) with
    | None => None
    | Some e' =>
      let done := match n_frags e' with [] => n_size e' =? n | _ => false end in
      Some (mk3 (if done then r else e' :: r) (v_ready s) (v_snd s) (v_out s ++ if done then [Sent (Some (n_user e'))] else [])
                (v_acc s) (v_acks s ++ [n]))
    end
  end.
Definition with_snd3 (t : sender) (l : list report) (s : st3) : st3 := mk3 (v_ring s) (v_ready s) t (v_out s ++ l) (v_acc s) (v_acks s).
(** What can happen: Forward, a message without a bundle is posted, the io_service thread runs the next posted function, a write ends, an
    acknowledgment arrives, the link goes down (V3:353-358), a new connection is ready (TcpclBundleSource.cpp:246-260, 129-160, V3:689; the
    buffer is not touched). *)
Inductive ev3 := Forward3 (b : bundle) (u : N) | Other3 | Run3 | Wrote3 | WriteFailed3 | Ack3 (n : N) | Down3 | Up3.
Definition step3 (c : cfg3) (e : ev3) (s : st3) : option st3 :=
  match e with
  | Forward3 b u => Some (forward3 c b u s)
  | Other3 => Some (with_snd3 (post [mkElem None None None] (v_snd s)) [] s)
  | Run3 => let (t, l) := run_posted (v_snd s) in Some (with_snd3 t l s)
  | Wrote3 => Some (with_snd3 (fst (wrote (v_snd s))) [] s)
  | WriteFailed3 => let (t, l) := write_failed (v_snd s) in Some (with_snd3 t l s)
  | Ack3 n => ack3 n s
  | Down3 => Some (mk3 (v_ring s) false (v_snd s) (v_out s) (v_acc s) (v_acks s))
  | Up3 => if quiet (v_snd s) && negb (v_ready s) then Some (mk3 (v_ring s) true new_sender (v_out s) (v_acc s) []) else Some s
  end.
Fixpoint run3 (c : cfg3) (l : list ev3) (s : st3) : option st3 :=
  match l with [] => Some s | e :: r => match step3 c e s with Some s' => run3 c r s' | None => None end end.

(** ** TCPCL version 4 *)
(** TcpclV4::tcpclv4_ack_t. *)
Record ack := mkAck { k_start : bool; k_end : bool; k_id : N; k_total : N }.
Definition ack_eqb (a b : ack) : bool :=
  Bool.eqb (k_start a) (k_start b) && Bool.eqb (k_end a) (k_end b) && (k_id a =? k_id b) && (k_total a =? k_total b).
Definition ack_of (g : seg) : ack := mkAck (w_start g) (w_end g) (w_id g) (w_total g).
(** m_base_segmentsToAckCbVec with m_base_userDataCbVec; what the buffer holds at most, m_base_remoteMaxRxSegmentSizeBytes,
    m_base_myNextTransferId, m_base_readyToForward, the sender, reports made. Not program state: bundles accepted with their transfer ids,
    bundles that Forward took and dropped, acknowledgments received on this connection. *)
Record st4 := mk4 { x_ring : list (ack * option N); x_cap : N; x_mru : N; x_next : N; x_ready : bool; x_snd : sender; x_out : list report;
  x_acc : list (bundle * N * N); x_lost : list bundle; x_acks : list ack }.
Definition start4 : st4 := mk4 [] 0 0 0 false new_sender [] [] [] [].
(** V4:760-769, 795-817: entries for the segments one after the other; the flag tells whether all found room, the list which are left. *)
Fixpoint push4 (cap : N) (u : N) (l : list seg) (ring : list (ack * option N)) : list (ack * option N) * list seg :=
  match l with
  | [] => (ring, [])
  | g :: r => if cap <=? N.of_nat (length ring) then (ring, l)
              else push4 cap u r (ring ++ [(ack_of g, if w_end g then Some u else None)])
  end.
(** V4:639-831 BaseClass_Forward. Out of room in the middle of a bundle, it returns false with entries left in the buffer and nothing posted;
    if the last segment found no room its element (never freed) has taken the bundle, and the caller takes it for sent. *)
Definition forward4 (b : bundle) (u : N) (s : st4) : st4 :=
  if negb (x_ready s) then s
  else let l := segments b (x_next s) (x_mru s) in
       let '(ring, rest) := push4 (x_cap s) u l (x_ring s) in
       let next := add64 (x_next s) 1 in
       match rest with
       | [] => mk4 ring (x_cap s) (x_mru s) next true (post (elements b l) (x_snd s)) (x_out s) (x_acc s ++ [(b, u, x_next s)]) (x_lost s) (x_acks s)
       | g :: _ => mk4 ring (x_cap s) (x_mru s) next true (x_snd s) (x_out s) (x_acc s)
                       (x_lost s ++ if fragments (x_mru s) (b_size b) && w_end g then [b] else []) (x_acks s)
       end.
(** V4:316-346 BaseClass_AckCallback. *)
Definition ack4 (a : ack) (s : st4) : st4 :=
  match x_ring s with
  | [] => mk4 [] (x_cap s) (x_mru s) (x_next s) (x_ready s) (x_snd s) (x_out s) (x_acc s) (x_lost s) (x_acks s ++ [a])
  | (k, u) :: r =>
    if ack_eqb k a then mk4 r (x_cap s) (x_mru s) (x_next s) (x_ready s) (x_snd s) (x_out s ++ if k_end a then [Sent u] else [])
                            (x_acc s) (x_lost s) (x_acks s ++ [a])
    else mk4 (x_ring s) (x_cap s) (x_mru s) (x_next s) (x_ready s) (x_snd s) (x_out s) (x_acc s) (x_lost s) (x_acks s ++ [a])
  end.
Definition with_snd4 (t : sender) (l : list report) (s : st4) : st4 :=
  mk4 (x_ring s) (x_cap s) (x_mru s) (x_next s) (x_ready s) t (x_out s ++ l) (x_acc s) (x_lost s) (x_acks s).
(** V4:1001-1016: the number of elements of the buffer, m_base_ackCbSize, from the segment and transfer limits of the peer. *)
Definition segment_limit (smru tmru : N) : N := if tmru <? smru then tmru else smru.
Definition buffer_size (unacked smru tmru : N) : N := ((tmru / segment_limit smru tmru + 1) mod W64 * unacked mod W64 + 10) mod W64.
(** V4:1001-1019, 1085 BaseClass_SessionInitCallback on a new connection; a new buffer, whose index type has 32 bits. A segment limit of 0
    ends the callback early. None = division by zero. *)
Definition up4 (unacked smru tmru : N) (s : st4) : option st4 :=
  if negb (quiet (x_snd s)) || x_ready s || (smru =? 0) then Some s
  else if segment_limit smru tmru =? 0 then None
  else Some (mk4 [] (buffer_size unacked smru tmru mod W32 - 1) (segment_limit smru tmru) (x_next s) true new_sender (x_out s) (x_acc s)
                 (x_lost s) []).
Inductive ev4 := Forward4 (b : bundle) (u : N) | Other4 | Run4 | Wrote4 | WriteFailed4 | Ack4 (a : ack) | Down4 | Up4 (smru tmru : N).
(** [unacked]: M_BASE_MY_MAX_TX_UNACKED_BUNDLES. *)
Definition step4 (unacked : N) (e : ev4) (s : st4) : option st4 :=
  match e with
  | Forward4 b u => Some (forward4 b u s)
  | Other4 => Some (with_snd4 (post [mkElem None None None] (x_snd s)) [] s)
  | Run4 => let (t, l) := run_posted (x_snd s) in Some (with_snd4 t l s)
  | Wrote4 => Some (with_snd4 (fst (wrote (x_snd s))) [] s)
  | WriteFailed4 => let (t, l) := write_failed (x_snd s) in Some (with_snd4 t l s)
  | Ack4 a => Some (ack4 a s)
  | Down4 => Some (mk4 (x_ring s) (x_cap s) (x_mru s) (x_next s) false (x_snd s) (x_out s) (x_acc s) (x_lost s) (x_acks s))
  | Up4 smru tmru => up4 unacked smru tmru s
  end.
Fixpoint run4 (unacked : N) (l : list ev4) (s : st4) : option st4 :=
  match l with [] => Some s | e :: r => match step4 unacked e s with Some s' => run4 unacked r s' | None => None end end.

(** ** STCP *)
(** m_bytesToAckByTcpSendCallbackCbVec, m_readyToForward, m_tcpAsyncSenderPtr (None = null), reports made; not program state: bundles
    accepted. *)
Record sts := mkS { y_ring : list N; y_ready : bool; y_snd : option sender; y_out : list report; y_acc : list (bundle * N) }.
Definition starts : sts := mkS [] false None [] [].
(** Stcp:166-205 Forward; [cap]: what the buffer holds (MAX_UNACKED - 1). None = null pointer. *)
Definition forwards (cap : N) (b : bundle) (u : N) (s : sts) : option sts :=
  if negb (y_ready s) then Some s
  else if cap <=? N.of_nat (length (y_ring s)) then Some s
  else match y_snd s with
       | None => None
       | Some t =>
         Some (mkS (y_ring s ++ [(b_size b + 4) mod W32]) true
                   (Some (post [mkElem (Some (mkSeg (b_tag b) true true 0 (b_size b) (b_size b))) (Some b) (Some u)] t)) (y_out s)
                   (y_acc s ++ [(b, u)]))
       end.
(** Stcp:359-386 HandleTcpSend (no error) and 388-398 HandleTcpSendKeepAlive: a data unit has 4 bytes more than its bundle. *)
Definition wrotes (t : sender) (s : sts) : sts :=
  let (t', e) := wrote t in
  match e with
  | Some (mkElem (Some g) _ u) =>
    match y_ring s with
    | n :: r => if n =? w_len g + 4 then mkS r (y_ready s) (Some t') (y_out s ++ [Sent u]) (y_acc s)
                else mkS (y_ring s) (y_ready s) (Some t') (y_out s) (y_acc s)
    | [] => mkS [] (y_ready s) (Some t') (y_out s) (y_acc s)
    end
  | _ => mkS (y_ring s) (y_ready s) (Some t') (y_out s) (y_acc s)
  end.
(** Stcp:305-338 OnConnect in two parts: m_readyToForward is set ([Ready]), then the sender is created ([Up]); Stcp:488-504: the old one has
    been destroyed by then. *)
Inductive evs := ForwardS (b : bundle) (u : N) | KeepAliveS | RunS | WroteS | WriteFailedS | DownS | ReadyS | UpS.
Definition steps (cap : N) (e : evs) (s : sts) : option sts :=
  match e with
  | ForwardS b u => forwards cap b u s
  | KeepAliveS => Some (mkS (y_ring s) (y_ready s) (option_map (post [mkElem None None None]) (y_snd s)) (y_out s) (y_acc s))
  | RunS => match y_snd s with
            | Some t => let (t', l) := run_posted t in Some (mkS (y_ring s) (y_ready s) (Some t') (y_out s ++ l) (y_acc s))
            | None => Some s
            end
  | WroteS => match y_snd s with Some t => Some (wrotes t s) | None => Some s end
  | WriteFailedS => match y_snd s with
                    | Some t => let (t', l) := write_failed t in Some (mkS (y_ring s) (y_ready s) (Some t') (y_out s ++ l) (y_acc s))
                    | None => Some s
                    end
  | DownS => Some (mkS (y_ring s) false (y_snd s) (y_out s) (y_acc s))
  | ReadyS => match y_snd s with
              | Some t => if quiet t && negb (y_ready s) then Some (mkS (y_ring s) true None (y_out s) (y_acc s)) else Some s
              | None => Some (mkS (y_ring s) true None (y_out s) (y_acc s))
              end
  | UpS => match y_snd s with None => Some (mkS (y_ring s) (y_ready s) (Some new_sender) (y_out s) (y_acc s)) | Some _ => Some s end
  end.
Fixpoint runs_ (cap : N) (l : list evs) (s : sts) : option sts :=
  match l with [] => Some s | e :: r => match steps cap e s with Some s' => runs_ cap r s' | None => None end end.
