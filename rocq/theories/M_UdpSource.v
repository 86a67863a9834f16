(** Model of the UDP source (common/udp/src/UdpBundleSource.cpp): Forward on the caller's thread, the posted handlers, the rate limited queues, the token timer and the completions of the sends on the io_service thread. All interleavings. *)
From Coq Require Import PeanoNat NArith List Bool.
From Verif Require Import Base.
Import ListNotations.
Open Scope nat_scope.

(** A bundle given to Forward: in a zmq message (166-190) or in a vector (139-164, 192-195); its size; the user data given with it. The bytes are not used by the code. *)
Record msg := mkMsg { m_zmq : bool; m_size : N; m_user : N }.
(** What is posted to the io_service: HandlePostForUdpSend{Vec,Zmq}Message (161, 188), DoHandleSocketShutdown (351). *)
Inductive item := Send (m : msg) | Close.
(** m_readyToForward, set in OnResolve (241-247), cleared in DoHandleSocketShutdown (356-373), which closes the socket. No code opens it again. *)
Inductive life := Unresolved | Open | Closed.
(** r_ring: the entries of m_bytesToAckBySentCallbackCbVec and m_userDataCbVec from the read to the write index (C14 is about the indices). r_vec, r_zmq: the two queues. r_fly: sends started and not completed.
    r_timer: m_tokenRefreshTimerIsRunning. r_acc: those for which Forward returned true. r_wire: those sent without an error. r_out: the user data given to m_onSuccessfulBundleSendCallback. *)
Record src := mkSrc { r_life : life; r_ring : list (N * N); r_posted : list item; r_vec : list msg; r_zmq : list msg; r_fly : list msg; r_timer : bool;
  r_acc : list msg; r_wire : list msg; r_out : list N }.
(** 30-44. *)
Definition start : src := mkSrc Unresolved [] [] [] [] [] false [] [] [].

(** OnResolve (233-255), without errors; Connect is called once. *)
Definition resolved (s : src) : option src :=
  match r_life s with
  | Unresolved => Some (mkSrc Open (r_ring s) (r_posted s) (r_vec s) (r_zmq s) (r_fly s) (r_timer s) (r_acc s) (r_wire s) (r_out s))
  | _ => None
  end.
(** Forward (139-164, 166-190), as one step: the entry is in the ring before the handler is posted, and the handler is what uses it. [cap]: the size of the ring, maxUnacked + 10 (37-39), of which one place stays free. *)
Definition forward (cap : nat) (m : msg) (s : src) : src :=
  match r_life s with
  | Open => if cap <=? length (r_ring s) + 1 then s else
      mkSrc Open (r_ring s ++ [(m_size m, m_user m)]) (r_posted s ++ [Send m]) (r_vec s) (r_zmq s) (r_fly s) (r_timer s) (r_acc s ++ [m]) (r_wire s) (r_out s)
  | _ => s
  end.
(** 260-268, 281-289: the front of the queue is sent if there is no rate limit or if there are tokens. Those sent, and those left. *)
Definition try_front (rate tok : bool) (q : list msg) : list msg * list msg :=
  match q with [] => ([], []) | m :: r => if negb rate || tok then ([m], r) else ([], q) end.
(** The next posted handler: 257-276, 278-297, 354-374. [tok]: what TakeTokens says (C31 is about that). *)
Definition handle (rate tok : bool) (s : src) : option src :=
  match r_posted s with
  | [] => None
  | Close :: p => Some (mkSrc Closed (r_ring s) p (r_vec s) (r_zmq s) (r_fly s) (r_timer s) (r_acc s) (r_wire s) (r_out s))
  | Send m :: p => Some (
      if m_zmq m then let (a, q) := try_front rate tok (r_zmq s ++ [m]) in mkSrc (r_life s) (r_ring s) p (r_vec s) q (r_fly s ++ a) true (r_acc s) (r_wire s) (r_out s)
      else let (a, q) := try_front rate tok (r_vec s ++ [m]) in mkSrc (r_life s) (r_ring s) p q (r_zmq s) (r_fly s ++ a) true (r_acc s) (r_wire s) (r_out s))
  end.
(** OnTokenRefresh_TimerExpired (405-453), not cancelled: the vector queue is emptied, then the zmq queue, as long as there are tokens, here for [k] sends. [full]: HasFullBucketOfTokens (449). *)
Definition timer (rate : bool) (k : nat) (full : bool) (s : src) : option src :=
  if r_timer s then
    let n := if rate then k else length (r_vec s) + length (r_zmq s) in
    let v := skipn n (r_vec s) in let z := skipn (n - length (r_vec s)) (r_zmq s) in
    Some (mkSrc (r_life s) (r_ring s) (r_posted s) v z (r_fly s ++ firstn n (r_vec s) ++ firstn (n - length (r_vec s)) (r_zmq s))
      (negb (length v + length z =? 0) || negb full) (r_acc s) (r_wire s) (r_out s))
  else None.
(** The oldest send completes (300-320), with or without an error; with an error if the socket was closed. A datagram is sent as a whole. ProcessPacketSent (322-347): the oldest entry of the ring is compared by its number of bytes only. *)
Definition done (ok : bool) (s : src) : option src :=
  match r_fly s with
  | [] => None
  | m :: f =>
      let bad w := mkSrc (r_life s) (r_ring s) (r_posted s ++ [Close]) (r_vec s) (r_zmq s) f (r_timer s) (r_acc s) w (r_out s) in
      if ok && match r_life s with Open => true | _ => false end then
        match r_ring s with
        | (n, u) :: r => if (n =? m_size m)%N then Some (mkSrc (r_life s) r (r_posted s) (r_vec s) (r_zmq s) f (r_timer s) (r_acc s) (r_wire s ++ [m]) (r_out s ++ [u]))
                         else Some (bad (r_wire s ++ [m]))
        | [] => Some (bad (r_wire s ++ [m]))
        end
      else Some (bad (r_wire s))
  end.

Inductive event := Resolved | Forward (m : msg) | Handle (tok : bool) | Timer (k : nat) (full : bool) | Done (ok : bool).
Definition step (cap : nat) (rate : bool) (s : src) (e : event) : option src :=
  match e with
  | Resolved => resolved s
  | Forward m => Some (forward cap m s)
  | Handle t => handle rate t s
  | Timer k f => timer rate k f s
  | Done ok => done ok s
  end.
