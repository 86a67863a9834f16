(** Model of the UDP sink (common/udp/src/UdpBundleSink.cpp): the io_service thread receives datagrams and swaps the vectors that hold them into a circular buffer, and another thread takes them from there. All interleavings. *)
From Coq Require Import PeanoNat NArith List Bool.
From Verif Require Import Base.
Import ListNotations.
Open Scope nat_scope.

(** resize of a vector of bytes (added bytes are taken to be 0; they are never given to anyone). *)
Definition resize (n : nat) (v : list N) : list N := firstn n v ++ repeat 0%N (n - length v).
(** async_receive_from (120-127): as much of the datagram as the buffer has room for, at its start; the rest is discarded, and no error is given (recvmsg on POSIX). The bytes, and their number. *)
Definition receive (rx d : list N) : list N * nat := (firstn (length rx) d ++ skipn (length d) rx, Nat.min (length d) (length rx)).

(** The io_service thread: waiting for a datagram; having one of so many bytes and a free place, before 152; having committed, before 158. *)
Inductive phase := Idle | Got (k : nat) | Committed.
(** The reader thread (171-200): at 175; at 178; waiting at 184 (true: notified); at 189; after 194. *)
Inductive pc := Top | Locking | Waiting (notified : bool) | Ready | Called (lv : list N).
(** u_rx: m_udpReceiveBuffer. u_q and u_free: the vectors of the circular buffer from m_cbStartIndex on, first those with a datagram, with the number of bytes, then the free ones (C14 is about the indices).
    u_over: m_countCircularBufferOverruns. u_out: what the callback was given. *)
Record sink := mkSink { u_rx : list N; u_phase : phase; u_q : list (list N * nat); u_free : list (list N); u_over : nat; u_pc : pc; u_out : list (list N) }.
(** 25-60: [n] vectors, all of the maximum size. *)
Definition start (n max : nat) : sink := mkSink (repeat 0%N max) Idle [] (repeat (repeat 0%N max) n) 0 Top [].

(** Receive: a datagram comes (it is not modelled that the operating system may lose some). Commit and Notify: the rest of HandleUdpReceive. Reader: the next statement of the reader thread;
    [lv] is what the callback leaves in the vector, which may be anything. Spurious: a wakeup without notification. Errors, shutting down and the endpoints are not modelled. *)
Inductive event := Receive (d : list N) | Commit | Notify | Reader (lv : list N) | Spurious.
Definition step (max : nat) (s : sink) (e : event) : option sink :=
  match e with
  | Receive d => (* 129-139 *)
    match u_phase s with
    | Idle =>
      let (rx, k) := receive (u_rx s) d in
      if Nat.leb (length (u_free s)) 1 then Some (mkSink rx Idle (u_q s) (u_free s) (S (u_over s)) (u_pc s) (u_out s))
      else Some (mkSink rx (Got k) (u_q s) (u_free s) (u_over s) (u_pc s) (u_out s))
    | _ => None
    end
  | Commit => (* 152-157 *)
    match u_phase s, u_free s with
    | Got k, v :: r => Some (mkSink v Committed (u_q s ++ [(u_rx s, k)]) r (u_over s) (u_pc s) (u_out s))
    | _, _ => None
    end
  | Notify => (* 158-160 *)
    match u_phase s with
    | Committed => Some (mkSink (u_rx s) Idle (u_q s) (u_free s) (u_over s) (match u_pc s with Waiting _ => Waiting true | p => p end) (u_out s))
    | _ => None
    end
  | Reader lv =>
    let goto p := mkSink (u_rx s) (u_phase s) (u_q s) (u_free s) (u_over s) p (u_out s) in
    match u_pc s with
    | Top => Some (goto (match u_q s with [] => Locking | _ => Ready end))
    | Locking => Some (goto (match u_q s with [] => Waiting false | _ => Ready end))
    | Waiting true => Some (goto Top)
    | Waiting false => None
    | Ready => (* 189-194 *)
      match u_q s with (v, k) :: _ => Some (mkSink (u_rx s) (u_phase s) (u_q s) (u_free s) (u_over s) (Called lv) (u_out s ++ [resize k v])) | [] => None end
    | Called l => (* 197-199 *)
      match u_q s with _ :: r => Some (mkSink (u_rx s) (u_phase s) r (u_free s ++ [resize max l]) (u_over s) Top (u_out s)) | [] => None end
    end
  | Spurious => match u_pc s with Waiting false => Some (mkSink (u_rx s) (u_phase s) (u_q s) (u_free s) (u_over s) Top (u_out s)) | _ => None end
  end.
Fixpoint run (max : nat) (s : sink) (es : list event) : option sink :=
  match es with [] => Some s | e :: r => match step max s e with Some s1 => run max s1 r | None => None end end.
