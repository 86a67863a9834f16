(** Model of CCSDS encapsulation packets on a local stream (common/util/include/CcsdsEncap.h, CcsdsEncapEncode.h, CcsdsEncapDecode.h, EncapAsyncDuplexLocalStream.h). *)
From Coq Require Import NArith List Bool.
From Verif Require Import Base.
Import ListNotations.
Open Scope N_scope.

(** CcsdsEncap.h:36-40. *)
Definition IDLE : N := 224.
Definition LTP : N := 228.
Definition BP : N := 240.

(** boost::endian::native_to_big and memcpy of k bytes (values above 256^k are truncated, as by static_cast), and back. *)
Fixpoint be (k : nat) (n : N) : list N := match k with O => [] | S k => be k (n / 256) ++ [n mod 256] end.
Definition un_be (l : list N) : N := fold_left (fun a b => a * 256 + b) l 0.

(** CcsdsEncapEncode.h:35-91, GetCcsdsEncapHeader: the bytes written; None: false is returned. encappedPayloadSize is a uint32_t, and the sum at 70 is one (it cannot overflow after 40). *)
Definition get_header (ty n : N) : option (list N) :=
  if 4294967295 - 8 <? n then None
  else if n =? 0 then (if ty =? IDLE then Some [N.lor ty 0] else None)
  else if ty =? IDLE then None
  else if n <=? 253 then Some (N.lor ty 1 :: be 1 (n + 2))
  else if n <=? 65531 then Some (N.lor ty 2 :: 0 :: be 2 (n + 4))
  else Some (N.lor ty 3 :: 0 :: 0 :: 0 :: be 4 (n + 8)).

(** CcsdsEncapDecode.h:35-44, DecodeCcsdsEncapHeaderSizeFromFirstByte. *)
Definition header_size (ty b : N) : N :=
  if b =? IDLE then 1
  else let lol := N.land b 3 in
       if (b =? N.lor ty lol) && negb (lol =? 0) then N.shiftl 1 lol else 0.
(** 58-103, DecodeCcsdsEncapPayloadSizeFromSecondToRemainingBytes on the bytes after the first: user defined field and size; None: false, or (never, as it turns out) a read after the end of [bs].
    The subtractions wrap around in uint32_t. *)
Definition payload_size (h : N) (bs : list N) : option (N * N) :=
  if h =? 1 then Some (0, 0)
  else if h =? 2 then match bs with [l] => Some (0, (l + W32 - 2) mod W32) | _ => None end
  else match bs with
  | u :: r =>
    if negb (N.land u 15 =? 0) then None
    else if h =? 8 then match r with [x; y; a; b; c; d] => if (x =? 0) && (y =? 0) then Some (N.shiftr u 4, (un_be [a; b; c; d] + W32 - 8) mod W32) else None | _ => None end
    else if h =? 4 then match r with [a; b] => Some (N.shiftr u 4, (un_be [a; b] + W32 - 4) mod W32) | _ => None end
    else None
  | [] => None
  end.

(** EncapAsyncDuplexLocalStream, reading. async_read reads exactly as many bytes as asked for, however they arrive, so bytes are taken one by one. [First]: waiting for the first byte of a header;
    [Header]: for the rest of it, with the bytes so far; [Body]: for the payload (header size, payload size, header, payload so far); [Stuck]: no read is outstanding although m_readStarted is true. *)
Inductive rd := First | Header (h : N) (acc : list N) | Body (h size : N) (hdr acc : list N) | Stuck.
(** What the callback gets (493-494): the vector, the payload size and the header size. *)
Record packet := mkPacket { p_data : list N; p_size : N; p_header : N }.
(** 491-494; all users call StartReadFirstEncapHeaderByte_NotThreadSafe at the end of the callback, except EncapRepeater which may do it later. [keep] is M_RX_CALLBACK_DONT_DISCARD_ENCAP_HEADER. *)
Definition deliver (keep : bool) (h size : N) (hdr body : list N) : rd * list packet := (First, [mkPacket (if keep then hdr ++ body else body) size h]).
(** 396-430, HandleFirstEncapByteReadCompleted; 382-391: StartReadFirstEncapHeaderByte_NotThreadSafe does nothing if m_readStarted is true, as it is at 420.
    432-470, HandleRemainingEncapHeaderReadCompleted; reading 0 bytes completes at once. 472-496, HandleEncapPayloadReadCompleted. Errors of the stream are outside of the model. *)
Definition step (keep : bool) (ty : N) (s : rd) (b : N) : rd * list packet :=
  match s with
  | First => let h := header_size ty b in if h =? 0 then (Stuck, []) else if h =? 1 then (Stuck, []) else (Header h [b], [])
  | Header h acc =>
    let acc' := acc ++ [b] in
    if N.of_nat (length acc') <? h then (Header h acc', [])
    else match payload_size h (tl acc') with
    | None => (Stuck, [])
    | Some (_, size) => if size =? 0 then deliver keep h size acc' [] else (Body h size acc' [], [])
    end
  | Body h size hdr acc =>
    let acc' := acc ++ [b] in
    if N.of_nat (length acc') <? size then (Body h size hdr acc', []) else deliver keep h size hdr acc'
  | Stuck => (Stuck, [])
  end.
Fixpoint feed (keep : bool) (ty : N) (s : rd) (bs : list N) : rd * list packet :=
  match bs with
  | [] => (s, [])
  | b :: r => let (s1, p1) := step keep ty s b in let (s2, p2) := feed keep ty s1 r in (s2, p1 ++ p2)
  end.
(** Where the next byte is written: the index in m_receivedFullEncapPacket_swappable, and the size of that vector (384: 8; 458-459: the sum is a uint32_t). None: no read is outstanding. *)
Definition target (keep : bool) (s : rd) : option (N * N) :=
  match s with
  | First => Some (0, 8)
  | Header h acc => Some (N.of_nat (length acc), 8)
  | Body h size hdr acc => let e := if keep then h else 0 in Some (e + N.of_nat (length acc), (size + e) mod W32)
  | Stuck => None
  end.
