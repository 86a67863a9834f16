(** Model of the STCP sink (common/stcp/src/StcpBundleSink.cpp): the io_service thread reads bundles from TCP into a circular buffer, and another thread takes them from there. All interleavings. *)
From Coq Require Import NArith List Bool.
From Verif Require Import Base M_Encap.
Import ListNotations.
Open Scope N_scope.

(** StcpBundleSource.cpp:153-161, GenerateDataUnitHeaderOnly, as called by Forward (193-200, 233-240), and 140-151, GenerateDataUnit: 4 bytes of size (static_cast to uint32_t), most significant first, and the contents; a keep-alive has no contents (None). *)
Definition data_unit (c : option (list N)) : list N := match c with None => be 4 0 | Some b => be 4 (N.of_nat (length b)) ++ b end.

(** The reading of the io_service thread: none is active; active for a size; for so many bytes; stopped by a size that is too large (157: m_stateTcpReadActive stays true and the socket is shut down);
    or, within HandleTcpReceiveBundleData, before 184 or before 188. *)
Inductive phase := Inactive | Size | Data (n : N) | Stopped | Committed | Notified.
(** Where the reader thread is in PopCbThreadFunc (207-230): at 211; at 212, having seen whether the buffer was empty; at 215; waiting at 221 (true: notified); at 226; at 228. *)
Inductive pc := Top | Posting (empty : bool) | Locking | Waiting (notified : bool) | Ready | Taken.
(** k_in: bytes that have arrived and are not read; k_q: the bundles in the circular buffer (C14 is about it), at most [cap], which is one less than its configured size; k_posts: calls of TryStartTcpReceive
    that were posted and have not been executed; k_out: what the callback was given. *)
Record sink := mkSink { k_in : list N; k_phase : phase; k_q : list (list N); k_posts : nat; k_pc : pc; k_out : list (list N) }.
(** 25-60, with TryStartTcpReceive of 59. *)
Definition start (cap : nat) : sink := mkSink [] (if Nat.ltb 0 cap then Size else Inactive) [] 0 Top [].

(** Arrive: TCP delivers a byte. OnSize, OnData: the two completion handlers, when all bytes asked for have arrived; Notify and Restart are the rest of the second. Try: a posted TryStartTcpReceive. Reader: the next statement of the reader thread. Spurious: a
    wakeup without notification. Errors and the end of the connection, and deletion of the sink, are not modelled. *)
Inductive event := Arrive (b : N) | OnSize | OnData | Notify | Restart | Try | Reader | Spurious.
(** 112-134, TryStartTcpReceive, as far as it matters. *)
Definition try_start (cap : nat) (p : phase) (q : list (list N)) : phase := match p with Inactive => if Nat.ltb (length q) cap then Size else Inactive | x => x end.
Definition step (cap : nat) (max : N) (s : sink) (e : event) : option sink :=
  match e with
  | Arrive b => Some (mkSink (k_in s ++ [b]) (k_phase s) (k_q s) (k_posts s) (k_pc s) (k_out s))
  | OnSize => (* 137-176 *)
    match k_phase s, k_in s with
    | Size, a :: b :: c :: d :: r =>
      let n := un_be [a; b; c; d] in
      Some (mkSink r (if n =? 0 then Size else if max <? n then Stopped else Data n) (k_q s) (k_posts s) (k_pc s) (k_out s))
    | _, _ => None
    end
  | OnData => (* 178-183: CommitWrite, under the mutex *)
    match k_phase s with
    | Data n =>
      if n <=? N.of_nat (length (k_in s)) then
        Some (mkSink (skipn (N.to_nat n) (k_in s)) Committed (k_q s ++ [firstn (N.to_nat n) (k_in s)]) (k_posts s) (k_pc s) (k_out s))
      else None
    | _ => None
    end
  | Notify => (* 184 *)
    match k_phase s with
    | Committed => Some (mkSink (k_in s) Notified (k_q s) (k_posts s) (match k_pc s with Waiting _ => Waiting true | p => p end) (k_out s))
    | _ => None
    end
  | Restart => (* 188-189 *)
    match k_phase s with
    | Notified => Some (mkSink (k_in s) (try_start cap Inactive (k_q s)) (k_q s) (k_posts s) (k_pc s) (k_out s))
    | _ => None
    end
  | Try => (* 102-109; not while HandleTcpReceiveBundleData runs, in the same thread *)
    match k_phase s, k_posts s with Committed, _ | Notified, _ | _, O => None | _, S n => Some (mkSink (k_in s) (try_start cap (k_phase s) (k_q s)) (k_q s) n (k_pc s) (k_out s)) end
  | Reader =>
    let goto p := mkSink (k_in s) (k_phase s) (k_q s) (k_posts s) p (k_out s) in
    let empty := match k_q s with [] => true | _ => false end in
    match k_pc s with
    | Top => Some (goto (Posting empty))
    | Posting e => Some (mkSink (k_in s) (k_phase s) (k_q s) (S (k_posts s)) (if e then Locking else Ready) (k_out s))
    | Locking => Some (goto (if empty then Waiting false else Ready))
    | Waiting true => Some (goto Top)
    | Waiting false => None
    | Ready => match k_q s with b :: _ => Some (mkSink (k_in s) (k_phase s) (k_q s) (k_posts s) Taken (k_out s ++ [b])) | [] => None end
    | Taken => match k_q s with _ :: r => Some (mkSink (k_in s) (k_phase s) r (k_posts s) Top (k_out s)) | [] => None end
    end
  | Spurious => match k_pc s with Waiting false => Some (mkSink (k_in s) (k_phase s) (k_q s) (k_posts s) Top (k_out s)) | _ => None end
  end.
(** Executions: a list of events, each of which was possible. *)
Fixpoint run (cap : nat) (max : N) (s : sink) (es : list event) : option sink :=
  match es with [] => Some s | e :: r => match step cap max s e with Some s1 => run cap max s1 r | None => None end end.
