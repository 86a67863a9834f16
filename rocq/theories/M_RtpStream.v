(** Model of streaming RTP packets in bundles: BpSendStream.cpp and BpReceiveStream.cpp (common/bpcodec/apps), and DtnRtp::PacketHandler (common/streaming/src/DtnRtp.cpp). *)
From Coq Require Import PeanoNat NArith List Bool.
From Verif Require Import Base.
Import ListNotations.
Open Scope N_scope.

(** A size_t as memcpy writes and reads it: 8 bytes, least significant first (a little-endian machine of 64 bits). *)
Fixpoint le (k : nat) (n : N) : list N := match k with O => [] | S k => n mod 256 :: le k (n / 256) end.
Fixpoint un_le (l : list N) : N := match l with [] => 0 | b :: r => b + 256 * un_le r end.

(** DtnRtp.cpp:131-172, PacketHandler, whether the packet is used. RTP_VERSION_TWO_FLAG (DtnRtpFrame.h:55) is 3 << 15, and the flags are the first two bytes after htons. *)
Definition accepted (p : list N) : bool :=
  match p with b0 :: b1 :: _ => negb (N.of_nat (length p) <? 12) && negb (N.land (N.shiftl 3 15) (b0 * 256 + b1) =? 0) | _ => false end.

(** BpSendStream: t_current is None as long as there is no m_ssrc, later m_currentFrame; t_queue and t_bytes: m_outgoingRtpPacketQueue and m_rtpBytesInQueue; t_out: the bundles given to m_outgoingCircularBundleQueue (205).
    The two circular buffers (which lose their oldest elements when full) and the threads around them are not modelled. *)
Record sender := mkSender { t_current : option (list N); t_queue : list (list N); t_bytes : N; t_out : list (list N) }.
Definition sender0 : sender := mkSender None [] 0 [].
(** 182-208, PushBundle: a vector of m_rtpBytesInQueue bytes, into which all packets are copied; None: beyond its end. *)
Definition push_bundle (s : sender) : option sender :=
  let c := concat (t_queue s) in
  if N.of_nat (length c) <=? t_bytes s then Some (mkSender (t_current s) [] 0 (t_out s ++ [c ++ repeat 0 (N.to_nat (t_bytes s) - length c)])) else None.
(** 162-180, PushFrame, of the frame f. *)
Definition push_frame (per : N) (s : sender) (f : list N) : option sender :=
  let s1 := mkSender (t_current s) (t_queue s ++ [le 8 (N.of_nat (length f)) ++ f]) (t_bytes s + (N.of_nat (length f) + 8)) (t_out s) in
  if N.of_nat (length (t_queue s1)) =? per then push_bundle s1 else Some s1.
(** 123-159, for one packet. *)
Definition send_packet (per : N) (s : sender) (p : list N) : option sender :=
  if accepted p then
    match t_current s with
    | None => Some (mkSender (Some p) (t_queue s) (t_bytes s) (t_out s))
    | Some f => match push_frame per s f with Some s1 => Some (mkSender (Some p) (t_queue s1) (t_bytes s1) (t_out s1)) | None => None end
    end
  else Some s.
Fixpoint send (per : N) (s : sender) (ps : list (list N)) : option sender :=
  match ps with [] => Some s | p :: r => match send_packet per s p with Some s1 => send per s1 r | None => None end end.

(** BpReceiveStream.cpp:102-131: the packets of a bundle. Beyond: bytes after the end of the vector are read. *)
Inductive result := Done (ps : list (list N)) | Beyond | Fuel.
Fixpoint split (fuel : nat) (l : list N) : result :=
  match fuel with
  | O => Fuel
  | S fuel =>
    match l with
    | a :: b :: c :: d :: e :: f :: g :: h :: r =>
      let n := un_le [a; b; c; d; e; f; g; h] in
      if n <=? N.of_nat (length r) then
        let p := firstn (N.to_nat n) r in
        match skipn (N.to_nat n) r with [] => Done [p] | r2 => match split fuel r2 with Done ps => Done (p :: ps) | x => x end end
      else Beyond
    | _ => Beyond
    end
  end.
Definition receive (l : list N) : result := split (S (length l)) l.
