(** Model of common/tcpcl/src/Tcpcl.cpp: TCPCL version 3 receive state machine and message generators. All callbacks are assumed set and not
    to touch the Tcpcl object. *)
From Coq Require Import NArith List Bool.
From Verif Require Import Base M_SegmentAlloc M_Intrin M_Sdnv M_Stream.
Import ListNotations.
Open Scope N_scope.

(** Tcpcl.h:36-66 states. *)
Inductive tmain := RdContact | RdType | RdData | RdAck | RdLength | RdReason | RdDelay.
Inductive tcontact := Sync1 | Sync2 | Sync3 | Sync4 | RdVersion | RdFlags | RdKeep1 | RdKeep2 | RdEidLen | RdEid.
Inductive tdata := RdSdnv | RdContents.
(** Callback invocations. *)
Inductive tcb :=
| CbContact (flags keep : N) (eid : list N)
| CbData (data : list N) (isStart isEnd : bool)
| CbAck (n : N)
| CbRefuse (code : N)
| CbLength (n : N)
| CbKeep
| CbShutdown (hasReason : bool) (reason : N) (hasDelay : bool) (delay : N).
(** Tcpcl.h:152-191 members the receiver reads back. *)
Record tcpcl := mkTc { t_main : tmain; t_ch : tcontact; t_ds : tdata; t_sdnv : list N; t_flags : N; t_keep : N; t_eidlen : N; t_eid : list N;
  t_start : bool; t_end : bool; t_len : N; t_data : list N; t_hasreason : bool; t_hasdelay : bool; t_reason : N }.
(** Cpp:25-27, 59-67: a fresh object; members without initialiser hold anything, here taken from [junkstate]. *)
Definition tc_new (junkstate : tcpcl) : tcpcl :=
  mkTc RdContact Sync1 (t_ds junkstate) [] (t_flags junkstate) 0 0 [] (t_start junkstate) (t_end junkstate) (t_len junkstate) (t_data junkstate)
       (t_hasreason junkstate) (t_hasdelay junkstate) (t_reason junkstate).

(** Result of appending a byte to m_sdnvTempVec (Cpp:144-165 and the four copies of that text). *)
Inductive sdnv_rd := SdMore (vec : list N) | SdFail (vec : list N) | SdOk (vec : list N) (v : N).
(** [junk vec] is what lies in the vector's storage behind its elements (capacity at least 32 from InitRx). None = undefined. *)
Definition rd_sdnv (junk : list N -> list N) (vec : list N) (b : N) : option sdnv_rd :=
  let vec := vec ++ [b] in
  if Nat.ltb 10 (length vec) then Some (SdFail vec)
  else if N.land b 0x80 =? 0 then
    match sdnv_decode64 (vec ++ junk vec) with
    | None => None
    | Some (v, size) => if size =? 0 then Some (SdFail vec) else if negb (size =? N.of_nat (length vec)) then Some (SdFail vec) else Some (SdOk vec v)
    end
  else Some (SdMore vec).

(** Setters. *)
Definition set_ch (c : tcpcl) (h : tcontact) : tcpcl := mkTc (t_main c) h (t_ds c) (t_sdnv c) (t_flags c) (t_keep c) (t_eidlen c) (t_eid c) (t_start c) (t_end c) (t_len c) (t_data c) (t_hasreason c) (t_hasdelay c) (t_reason c).
Definition set_main (c : tcpcl) (m : tmain) : tcpcl := mkTc m (t_ch c) (t_ds c) (t_sdnv c) (t_flags c) (t_keep c) (t_eidlen c) (t_eid c) (t_start c) (t_end c) (t_len c) (t_data c) (t_hasreason c) (t_hasdelay c) (t_reason c).
Definition set_sdnv (c : tcpcl) (v : list N) : tcpcl := mkTc (t_main c) (t_ch c) (t_ds c) v (t_flags c) (t_keep c) (t_eidlen c) (t_eid c) (t_start c) (t_end c) (t_len c) (t_data c) (t_hasreason c) (t_hasdelay c) (t_reason c).
Definition set_keep (c : tcpcl) (k : N) : tcpcl := mkTc (t_main c) (t_ch c) (t_ds c) (t_sdnv c) (t_flags c) k (t_eidlen c) (t_eid c) (t_start c) (t_end c) (t_len c) (t_data c) (t_hasreason c) (t_hasdelay c) (t_reason c).
Definition set_flags (c : tcpcl) (f : N) : tcpcl := mkTc (t_main c) (t_ch c) (t_ds c) (t_sdnv c) f (t_keep c) (t_eidlen c) (t_eid c) (t_start c) (t_end c) (t_len c) (t_data c) (t_hasreason c) (t_hasdelay c) (t_reason c).
Definition set_eid (c : tcpcl) (n : N) (e : list N) : tcpcl := mkTc (t_main c) (t_ch c) (t_ds c) (t_sdnv c) (t_flags c) (t_keep c) n e (t_start c) (t_end c) (t_len c) (t_data c) (t_hasreason c) (t_hasdelay c) (t_reason c).
Definition set_seg (c : tcpcl) (d : tdata) (n : N) (x : list N) : tcpcl := mkTc (t_main c) (t_ch c) d (t_sdnv c) (t_flags c) (t_keep c) (t_eidlen c) (t_eid c) (t_start c) (t_end c) n x (t_hasreason c) (t_hasdelay c) (t_reason c).
Definition set_se (c : tcpcl) (s e : bool) : tcpcl := mkTc (t_main c) (t_ch c) (t_ds c) (t_sdnv c) (t_flags c) (t_keep c) (t_eidlen c) (t_eid c) s e (t_len c) (t_data c) (t_hasreason c) (t_hasdelay c) (t_reason c).
Definition set_shut (c : tcpcl) (r d : bool) (code : N) : tcpcl := mkTc (t_main c) (t_ch c) (t_ds c) (t_sdnv c) (t_flags c) (t_keep c) (t_eidlen c) (t_eid c) (t_start c) (t_end c) (t_len c) (t_data c) r d code.
(** "m_contactHeaderRxState = READ_SYNC_1; m_mainRxState = READ_CONTACT_HEADER". *)
Definition to_contact (c : tcpcl) : tcpcl := set_main (set_ch c Sync1) RdContact.

(** Cpp:78-177, READ_CONTACT_HEADER. [alloc_ok n]: reserve(n) succeeds (otherwise it throws: None). *)
Definition contact_step (junk : list N -> list N) (alloc_ok : N -> bool) (c : tcpcl) (b : N) : option (tcpcl * list tcb * nat) :=
  let back := if b =? 0x64 then Sync2 else Sync1 in
  match t_ch c with
  | Sync1 => Some (if b =? 0x64 then set_ch c Sync2 else c, [], O)
  | Sync2 => Some (if b =? 0x74 then set_ch c Sync3 else if negb (b =? 0x64) then set_ch c Sync1 else c, [], O)
  | Sync3 => Some (set_ch c (if b =? 0x6e then Sync4 else back), [], O)
  | Sync4 => Some (set_ch c (if b =? 0x21 then RdVersion else back), [], O)
  | RdVersion => Some (set_ch c (if b =? 3 then RdFlags else back), [], O)
  | RdFlags => Some (set_ch (set_flags c b) RdKeep1, [], O)
  | RdKeep1 => Some (set_ch (set_keep c (N.shiftl b 8 mod 65536)) RdKeep2, [], O)
  | RdKeep2 => Some (set_ch (set_eid (set_sdnv (set_keep c (N.lor (t_keep c) b)) []) 0 (t_eid c)) RdEidLen, [], O)
  | RdEidLen =>
    match rd_sdnv junk (t_sdnv c) b with
    | None => None
    | Some (SdMore v) => Some (set_sdnv c v, [], O)
    | Some (SdFail v) => Some (set_ch (set_sdnv c v) Sync1, [], O)
    | Some (SdOk v n) => if alloc_ok n then Some (set_ch (set_eid (set_sdnv c v) n []) RdEid, [], O) else None
    end
  | RdEid =>
    let e := t_eid c ++ [b] in
    if N.of_nat (length e) =? t_eidlen c
    then let c := set_main (set_ch (set_eid c (t_eidlen c) e) Sync1) RdType in Some (c, [CbContact (t_flags c) (t_keep c) e], O)
    else Some (set_eid c (t_eidlen c) e, [], O)
  end.
(** Cpp:178-254, READ_MESSAGE_TYPE_BYTE; SHUTDOWN_REASON_CODES::UNASSIGNED is 3. *)
Definition type_step (alloc_ok : N -> bool) (c : tcpcl) (b : N) (rest : list N) : option (tcpcl * list tcb * nat) :=
  let ty := N.land (N.shiftr b 4) 15 in
  let fl := N.land b 15 in
  let f1 := negb (N.land fl 2 =? 0) in
  let f0 := negb (N.land fl 1 =? 0) in
  if ty =? 1 then
    let c := set_main (set_seg (set_sdnv (set_se c f1 f0) []) (t_ds c) 0 (t_data c)) RdData in
    if Nat.leb 16 (length rest) then
      match sdnv_decode64 rest with
      | None => None
      | Some (v, size) =>
        if size =? 0 then Some (to_contact (set_seg c (t_ds c) v (t_data c)), [], O)
        else if alloc_ok v then Some (set_seg c RdContents v [], [], N.to_nat size) else None
      end
    else Some (set_seg c RdSdnv 0 (t_data c), [], O)
  else if ty =? 2 then Some (set_main (set_sdnv c []) RdAck, [], O)
  else if ty =? 3 then Some (c, [CbRefuse fl], O)
  else if ty =? 6 then Some (set_main (set_sdnv c []) RdLength, [], O)
  else if ty =? 4 then Some (c, [CbKeep], O)
  else if ty =? 5 then
    let c := set_sdnv (set_shut c f1 f0 (t_reason c)) [] in
    if f1 then Some (set_main c RdReason, [], O)
    else if f0 then Some (set_main c RdDelay, [], O)
    else Some (to_contact c, [CbShutdown f1 3 f0 0], O)
  else Some (c, [], O).
(** Cpp:255-307, READ_DATA_SEGMENT; [maxrx] is M_MAX_RX_BUNDLE_SIZE_BYTES. *)
Definition data_step (junk : list N -> list N) (alloc_ok : N -> bool) (maxrx : N) (c : tcpcl) (b : N) (rest : list N) : option (tcpcl * list tcb * nat) :=
  match t_ds c with
  | RdSdnv =>
    match rd_sdnv junk (t_sdnv c) b with
    | None => None
    | Some (SdMore v) => Some (set_sdnv c v, [], O)
    | Some (SdFail v) => Some (to_contact (set_sdnv c v), [], O)
    | Some (SdOk v n) =>
      let c := set_seg (set_sdnv c v) (t_ds c) n (t_data c) in
      if maxrx <? n then Some (to_contact c, [], O)
      else if alloc_ok n then Some (set_seg c RdContents n [], [], O) else None
    end
  | RdContents =>
    let d := t_data c ++ [b] in
    if N.of_nat (length d) =? t_len c then Some (set_main (set_seg c (t_ds c) (t_len c) d) RdType, [CbData d (t_start c) (t_end c)], O)
    else
      let remaining := sub64 (t_len c) (N.of_nat (length d)) in
      let k := Nat.min (length rest) (N.to_nat (N.min (N.of_nat (length rest)) (remaining - 1))) in
      Some (set_seg c (t_ds c) (t_len c) (d ++ firstn k rest), [], k)
  end.
(** Cpp:308-416, the states that read one SDNV or the reason code. *)
Definition sdnv_step (junk : list N -> list N) (c : tcpcl) (b : N) (done : N -> tcpcl -> tcpcl * list tcb) : option (tcpcl * list tcb * nat) :=
  match rd_sdnv junk (t_sdnv c) b with
  | None => None
  | Some (SdMore v) => Some (set_sdnv c v, [], O)
  | Some (SdFail v) => Some (to_contact (set_sdnv c v), [], O)
  | Some (SdOk v n) => let '(c', o) := done n (set_sdnv c v) in Some (c', o, O)
  end.
(** Cpp:73-418, one iteration of HandleReceivedChars. *)
Definition tc_step (junk : list N -> list N) (alloc_ok : N -> bool) (maxrx : N) (c : tcpcl) (b : N) (rest : list N) : option (tcpcl * list tcb * nat) :=
  match t_main c with
  | RdContact => contact_step junk alloc_ok c b
  | RdType => type_step alloc_ok c b rest
  | RdData => data_step junk alloc_ok maxrx c b rest
  | RdAck => sdnv_step junk c b (fun n c => (set_main c RdType, [CbAck n]))
  | RdLength => sdnv_step junk c b (fun n c => (set_main c RdType, [CbLength n]))
  | RdReason =>
    let c := set_shut c (t_hasreason c) (t_hasdelay c) b in
    if t_hasdelay c then Some (set_main c RdDelay, [], O) else Some (to_contact c, [CbShutdown (t_hasreason c) b (t_hasdelay c) 0], O)
  | RdDelay => sdnv_step junk c b (fun n c => (to_contact c, [CbShutdown (t_hasreason c) (t_reason c) (t_hasdelay c) n]))
  end.

(** * Generators. The buffers are enlarged by the 10 bytes the encoder may write and cut afterwards, so each message is the bytes below. *)
(** SdnvEncodeU64BufSize10 (Sdnv.cpp:65-73, the fast encoder) into 10 bytes, cut to the returned size. *)
Definition sdnv10 (v : N) : option (list N) := match sdnv_encode64_fast v (repeat 0 10) with Some (n, buf) => Some (firstn (N.to_nat n) buf) | None => None end.
(** Cpp:420-434 GenerateContactHeader. *)
Definition gen_contact (flags keep : N) (eid : list N) : option (list N) :=
  match sdnv10 (N.of_nat (length eid)) with
  | Some s => Some ([0x64; 0x74; 0x6e; 0x21; 3; flags; N.shiftr keep 8; N.land keep 255] ++ s ++ eid)
  | None => None
  end.
(** Cpp:436-449 GenerateDataSegment. *)
Definition gen_data (isStart isEnd : bool) (data : list N) : option (list N) :=
  match sdnv10 (N.of_nat (length data)) with
  | Some s => Some (N.lor (N.lor (N.shiftl 1 4) (if isStart then 2 else 0)) (if isEnd then 1 else 0) :: s ++ data)
  | None => None
  end.
(** Cpp:451-463 GenerateDataSegmentHeaderOnly. *)
Definition gen_data_header (isStart isEnd : bool) (size : N) : option (list N) :=
  match sdnv10 size with
  | Some s => Some (N.lor (N.lor (N.shiftl 1 4) (if isStart then 2 else 0)) (if isEnd then 1 else 0) :: s)
  | None => None
  end.
(** Cpp:465-471, 473-478, 480-486, 488-491. *)
Definition gen_ack (n : N) : option (list N) := match sdnv10 n with Some s => Some (N.shiftl 2 4 :: s) | None => None end.
Definition gen_refuse (code : N) : list N := [N.lor (N.shiftl 3 4) code].
Definition gen_length (n : N) : option (list N) := match sdnv10 n with Some s => Some (N.shiftl 6 4 :: s) | None => None end.
Definition gen_keep : list N := [N.shiftl 4 4].
(** Cpp:493-522 GenerateShutdownMessage. *)
Definition gen_shutdown (hasReason : bool) (reason : N) (hasDelay : bool) (delay : N) : option (list N) :=
  let h := N.lor (N.lor (N.shiftl 5 4) (if hasReason then 2 else 0)) (if hasDelay then 1 else 0) in
  match (if hasDelay then sdnv10 delay else Some []) with
  | Some s => Some (h :: (if hasReason then [reason] else []) ++ s)
  | None => None
  end.
