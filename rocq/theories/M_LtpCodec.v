(** Model of common/ltp/src/Ltp.cpp: the LTP segment receive state machine and the segment generators. The callbacks are assumed set and
    not to touch the object (vectors they may move from are cleared before their next use); operationIsOngoing and the error messages are not
    modelled; the non-batch versions (#else branches) are not compiled and not modelled. *)
From Coq Require Import NArith List Bool.
From Verif Require Import Base M_SegmentAlloc M_Intrin M_Sdnv.
Import ListNotations.
Open Scope N_scope.

(** * Receiving *)

(** Ltp.h:39-90: main state together with the sub-state that matters in it (every other sub-state is assigned before it is read again).
    The enumerators are numbered as in the header because the code computes them from counts. *)
Inductive lst :=
| SHead (k : N)     (* READ_HEADER; 0 control, 1 engine id, 2 session number, 3 extension counts, 4 tag, 5 length, 6 value *)
| SData (k : N)     (* READ_DATA_SEGMENT_CONTENT; 0 client service, 1 offset, 2 length, 3 checkpoint, 4 report, 5 data *)
| SReport (k : N)   (* READ_REPORT_SEGMENT_CONTENT; 0 report, 1 checkpoint, 2 upper, 3 lower, 4 count, 5 claim offset, 6 claim length *)
| SRack             (* READ_REPORT_ACKNOWLEDGEMENT_SEGMENT_CONTENT *)
| SCancel           (* READ_CANCEL_SEGMENT_CONTENT_BYTE *)
| STrail (k : N).   (* READ_TRAILER; 0 tag, 1 length, 2 value *)
(** ltp_extension_t: tag and value. *)
Definition ext : Type := N * list N.
(** Members set by the header and trailer: m_segmentTypeFlags, m_sessionId, m_num{Header,Trailer}ExtensionTlvs, m_{header,trailer}Extensions,
    m_current{Header,Trailer}ExtensionLength. *)
Record lhdr := mkLh { h_flags : N; h_eng : N; h_num : N; h_nh : N; h_nt : N; h_hx : list ext; h_tx : list ext; h_hlen : N; h_tlen : N }.
(** m_dataSegmentMetadata; [d_ptrs]: the two serial number pointers point to the tmp members (otherwise NULL). *)
Record lmeta := mkLm { d_csid : N; d_off : N; d_len : N; d_cp : N; d_rp : N; d_ptrs : bool }.
(** m_reportSegment. *)
Record lrep := mkLr { r_rsn : N; r_cp : N; r_ub : N; r_lb : N; r_cnt : N; r_claims : list (N * N) }.
(** m_dataSegment_clientServiceRawDataWrapper.data: NULL, the start of m_dataSegment_clientServiceData, or a place in the packet given to
    HandleReceivedChars, with the bytes found there. *)
Inductive lraw := RawNone | RawOwn | RawPkt (bytes : list N).
Record ltp := mkLtp { l_st : lst; l_sdnv : list N; l_h : lhdr; l_m : lmeta; l_data : list N; l_raw : lraw; l_r : lrep; l_rack : N; l_reason : N }.

(** Callback invocations; LcEngine is the optional sessionOriginatorEngineIdDecodedCallback. *)
Inductive lcb :=
| LcEngine (eng : N)
| LcData (flags eng num : N) (data : list N) (csid off len : N) (serials : option (N * N)) (hx tx : list ext)
| LcReport (eng num rsn cp ub lb : N) (claims : list (N * N)) (hx tx : list ext)
| LcRack (eng num rsn : N) (hx tx : list ext)
| LcCancel (eng num reason : N) (fromSender : bool) (hx tx : list ext)
| LcCack (eng num : N) (toSender : bool) (hx tx : list ext).

(** Setters. *)
Definition set_st (s : ltp) (x : lst) : ltp := mkLtp x (l_sdnv s) (l_h s) (l_m s) (l_data s) (l_raw s) (l_r s) (l_rack s) (l_reason s).
Definition set_sd (s : ltp) (v : list N) : ltp := mkLtp (l_st s) v (l_h s) (l_m s) (l_data s) (l_raw s) (l_r s) (l_rack s) (l_reason s).
Definition set_h (s : ltp) (h : lhdr) : ltp := mkLtp (l_st s) (l_sdnv s) h (l_m s) (l_data s) (l_raw s) (l_r s) (l_rack s) (l_reason s).
Definition set_m (s : ltp) (m : lmeta) : ltp := mkLtp (l_st s) (l_sdnv s) (l_h s) m (l_data s) (l_raw s) (l_r s) (l_rack s) (l_reason s).
Definition set_data (s : ltp) (d : list N) : ltp := mkLtp (l_st s) (l_sdnv s) (l_h s) (l_m s) d (l_raw s) (l_r s) (l_rack s) (l_reason s).
Definition set_raw (s : ltp) (r : lraw) : ltp := mkLtp (l_st s) (l_sdnv s) (l_h s) (l_m s) (l_data s) r (l_r s) (l_rack s) (l_reason s).
Definition set_r (s : ltp) (r : lrep) : ltp := mkLtp (l_st s) (l_sdnv s) (l_h s) (l_m s) (l_data s) (l_raw s) r (l_rack s) (l_reason s).
Definition set_rack (s : ltp) (n : N) : ltp := mkLtp (l_st s) (l_sdnv s) (l_h s) (l_m s) (l_data s) (l_raw s) (l_r s) n (l_reason s).
Definition set_reason (s : ltp) (n : N) : ltp := mkLtp (l_st s) (l_sdnv s) (l_h s) (l_m s) (l_data s) (l_raw s) (l_r s) (l_rack s) n.
Definition seth_sess (h : lhdr) (eng num : N) : lhdr := mkLh (h_flags h) eng num (h_nh h) (h_nt h) (h_hx h) (h_tx h) (h_hlen h) (h_tlen h).
Definition seth_hx (h : lhdr) (x : list ext) : lhdr := mkLh (h_flags h) (h_eng h) (h_num h) (h_nh h) (h_nt h) x (h_tx h) (h_hlen h) (h_tlen h).
Definition seth_tx (h : lhdr) (x : list ext) : lhdr := mkLh (h_flags h) (h_eng h) (h_num h) (h_nh h) (h_nt h) (h_hx h) x (h_hlen h) (h_tlen h).
Definition seth_hlen (h : lhdr) (n : N) : lhdr := mkLh (h_flags h) (h_eng h) (h_num h) (h_nh h) (h_nt h) (h_hx h) (h_tx h) n (h_tlen h).
Definition seth_tlen (h : lhdr) (n : N) : lhdr := mkLh (h_flags h) (h_eng h) (h_num h) (h_nh h) (h_nt h) (h_hx h) (h_tx h) (h_hlen h) n.
(** back(): push a byte to the value of the last extension; None = the vector is empty. *)
Fixpoint push_last (x : list ext) (b : N) : option (list ext) :=
  match x with [] => None | [(t, v)] => Some [(t, v ++ [b])] | e :: r => option_map (cons e) (push_last r b) end.
Definition last_len (x : list ext) : N := N.of_nat (length (snd (last x (0, [])))).
(** receptionClaims.back().length = n. *)
Fixpoint set_last_len (x : list (N * N)) (n : N) : option (list (N * N)) :=
  match x with [] => None | [(o, _)] => Some [(o, n)] | e :: r => option_map (cons e) (set_last_len r n) end.

(** Cpp:359-368 InitRx and 374-377 SetBeginningState, as far as the next segment can tell. *)
Definition init_rx (s : ltp) : ltp := set_sd (set_st s (SHead 0)) [].
Definition beginning (s : ltp) : ltp := set_st s (SHead 0).
(** Cpp:370-372 IsAtBeginningState. *)
Definition at_beginning (s : ltp) : bool := match l_st s with SHead 0 => true | _ => false end.

(** The five callback texts. *)
Definition raw_bytes (s : ltp) : list N := match l_raw s with RawNone => [] | RawOwn => l_data s | RawPkt d => d end.
Definition cb_data (s : ltp) : lcb :=
  let h := l_h s in let m := l_m s in
  LcData (h_flags h) (h_eng h) (h_num h) (raw_bytes s) (d_csid m) (d_off m) (d_len m) (if d_ptrs m then Some (d_cp m, d_rp m) else None) (h_hx h) (h_tx h).
Definition cb_report (s : ltp) : lcb :=
  let h := l_h s in let r := l_r s in LcReport (h_eng h) (h_num h) (r_rsn r) (r_cp r) (r_ub r) (r_lb r) (r_claims r) (h_hx h) (h_tx h).
Definition cb_rack (s : ltp) : lcb := let h := l_h s in LcRack (h_eng h) (h_num h) (l_rack s) (h_hx h) (h_tx h).
Definition cb_cancel (s : ltp) : lcb := let h := l_h s in LcCancel (h_eng h) (h_num h) (l_reason s) (h_flags h =? 12) (h_hx h) (h_tx h).
Definition cb_cack (s : ltp) : lcb := let h := l_h s in LcCack (h_eng h) (h_num h) (h_flags h =? 13) (h_hx h) (h_tx h).

(** One turn of the loop: go on having taken [k] further bytes of the chunk, return false, or an exception / undefined behaviour. *)
Inductive lres := LCont (s : ltp) (o : list lcb) (k : nat) | LStop (s : ltp) (o : list lcb) | LUndef.

(** The text "push_back; size > SdnvMaximumEncodedSize; msbit 0; SdnvDecodeU64(data, capacity); sdnvSize != size", first at Cpp:461-472;
    [junk vec] is what lies in the vector's storage behind its elements (capacity at least 32, Cpp:366). *)
Inductive lsd := LMore | LBad | LVal (v : N) | LNone.
Definition rd (junk : list N -> list N) (vec : list N) (b : N) : lsd :=
  let vec := vec ++ [b] in
  if Nat.ltb 10 (length vec) then LBad
  else if N.land b 0x80 =? 0 then
    match sdnv_decode64 (vec ++ junk vec) with
    | None => LNone
    | Some (v, size) => if negb (size =? N.of_nat (length vec)) then LBad else LVal v
    end
  else LMore.
(** A state reading an SDNV field: [k v] is what happens when it is complete (m_sdnvTempVec holds it). *)
Definition sdnv_field (junk : list N -> list N) (s : ltp) (b : N) (k : ltp -> N -> lres) : lres :=
  let s' := set_sd s (l_sdnv s ++ [b]) in
  match rd junk (l_sdnv s) b with
  | LNone => LUndef
  | LMore => LCont s' [] 0
  | LBad => LStop s' []
  | LVal v => k s' v
  end.

(** "if (m_numTrailerExtensionTlvs) {trailer} else {callback; SetBeginningState();}". *)
Definition body_done (s : ltp) (cb : ltp -> lcb) (k : nat) : lres :=
  if negb (h_nt (l_h s) =? 0) then LCont (set_st s (STrail 0)) [] k else LCont (beginning s) [cb s] k.

(** Cpp:1097-1147 TryShortcutReadDataSegmentSdnvs; [alloc_ok n]: a vector can hold n bytes. Values stored before an error are not modelled. *)
Definition is_cp (flags : N) : bool := (1 <=? flags) && (flags <=? 3).
Definition meta_of (m : lmeta) (vals : list N) : lmeta :=
  mkLm (nth 0 vals (d_csid m)) (nth 1 vals (d_off m)) (nth 2 vals (d_len m)) (nth 3 vals (d_cp m)) (nth 4 vals (d_rp m)) (d_ptrs m).
Definition set_ptrs (m : lmeta) (p : bool) : lmeta := mkLm (d_csid m) (d_off m) (d_len m) (d_cp m) (d_rp m) p.
Definition shortcut_data (alloc_ok : N -> bool) (s : ltp) (rest : list N) : lres :=
  let iscp := is_cp (h_flags (l_h s)) in
  match sdnv_array_fast (if iscp then 5 else 3) rest with
  | None => LUndef
  | Some ArrError => LStop s []
  | Some (ArrOk vals taken) =>
    let n := N.of_nat (length vals) in
    if n =? 0 then LCont s [] 0
    else
      let s1 := set_st (set_m s (meta_of (l_m s) vals)) (SData n) in
      if 3 <=? n then
        if d_len (l_m s1) =? 0 then LStop s1 []
        else if negb (alloc_ok (d_len (l_m s1))) then LUndef
        else LCont (set_st (set_m (set_data s1 []) (set_ptrs (l_m s1) iscp)) (if iscp then SData n else SData 5)) [] (N.to_nat taken)
      else LCont s1 [] (N.to_nat taken)
  end.

(** Cpp:1262-1333 TryShortcutReadReportSegmentSdnvs. numReceptionClaimSdnvsToDecode is an unsigned int. *)
Definition rep_of (r : lrep) (vals : list N) : lrep :=
  mkLr (nth 0 vals (r_rsn r)) (nth 1 vals (r_cp r)) (nth 2 vals (r_ub r)) (nth 3 vals (r_lb r)) (nth 4 vals (r_cnt r)) (r_claims r).
Definition set_claims (r : lrep) (c : list (N * N)) : lrep := mkLr (r_rsn r) (r_cp r) (r_ub r) (r_lb r) (r_cnt r) c.
(** The array of claims after its first words were overwritten with [vals] and it was cut to those touched; new claims are 0, 0. *)
Fixpoint pair_up (vals : list N) : list (N * N) :=
  match vals with [] => [] | [o] => [(o, 0)] | o :: l :: r => (o, l) :: pair_up r end.
Definition shortcut_report (alloc_ok : N -> bool) (s : ltp) (rest : list N) : lres :=
  match sdnv_array_fast 5 rest with
  | None => LUndef
  | Some ArrError => LStop s []
  | Some (ArrOk vals taken) =>
    let n := N.of_nat (length vals) in
    if n =? 0 then LCont s [] 0
    else
      let s1 := set_st (set_r s (rep_of (l_r s) vals)) (SReport n) in
      if n <? 5 then LCont s1 [] (N.to_nat taken)
      else
        let cnt := r_cnt (l_r s1) in
        if cnt =? 0 then LStop s1 []
        else if negb (alloc_ok (16 * cnt)) then LUndef
        else
          let want := ((2 * cnt) mod W64) mod W32 in
          match sdnv_array_fast (N.to_nat want) (skipn (N.to_nat taken) rest) with
          | None => LUndef
          | Some ArrError => LStop s1 []
          | Some (ArrOk cv ctaken) =>
            let got := N.of_nat (length cv) in
            let s2 := set_st (set_r s1 (set_claims (l_r s1) (pair_up cv))) (SReport (5 + N.land got 1)) in
            if existsb (fun c => snd c =? 0) (firstn (Nat.div2 (length cv)) (pair_up cv)) then LStop s2 []
            else if want =? got then body_done s2 cb_report (N.to_nat (taken + ctaken))
            else LCont s2 [] (N.to_nat (taken + ctaken))
          end
  end.

(** Cpp:1005-1043 NextStateAfterHeaderExtensions. *)
Definition next_after_header (alloc_ok : N -> bool) (s : ltp) (rest : list N) : lres :=
  let f := h_flags (l_h s) in
  if N.land f 0xd =? 0xd then body_done s cb_cack 0
  else if (f =? 5) || (f =? 6) || (f =? 10) || (f =? 11) then LStop s []
  else if f <=? 7 then shortcut_data alloc_ok (set_st (set_sd s []) (SData 0)) rest
  else if f =? 8 then shortcut_report alloc_ok (set_st (set_sd s []) (SReport 0)) rest
  else if f =? 9 then LCont (set_st (set_sd s []) SRack) [] 0
  else LCont (set_st s SCancel) [] 0.

(** Cpp:391-579 READ_HEADER. *)
Definition head_step (junk : list N -> list N) (alloc_ok : N -> bool) (s : ltp) (k b : N) (rest : list N) : lres :=
  let h := l_h s in
  if k =? 0 then
    if negb (N.shiftr b 4 =? 0) then LStop s []
    else
      match sdnv_array_fast 2 rest with
      | None => LUndef
      | Some ArrError => LStop s []
      | Some (ArrOk vals taken) =>
        let h1 := mkLh (N.land b 0x0f) (nth 0 vals (h_eng h)) (nth 1 vals (h_num h)) (h_nh h) (h_nt h) (h_hx h) (h_tx h) (h_hlen h) (h_tlen h) in
        LCont (set_st (set_sd (set_h s h1) []) (SHead (1 + N.of_nat (length vals)))) (match vals with [] => [] | e :: _ => [LcEngine e] end) (N.to_nat taken)
      end
  else if k =? 1 then
    sdnv_field junk s b (fun s v => LCont (set_st (set_sd (set_h s (seth_sess (l_h s) v (h_num (l_h s)))) []) (SHead 2)) [LcEngine v] 0)
  else if k =? 2 then
    sdnv_field junk s b (fun s v => LCont (set_st (set_h s (seth_sess (l_h s) (h_eng (l_h s)) v)) (SHead 3)) [] 0)
  else if k =? 3 then
    let nh := N.shiftr b 4 in
    let s1 := set_h s (mkLh (h_flags h) (h_eng h) (h_num h) nh (N.land b 0x0f) [] [] (h_hlen h) (h_tlen h)) in
    if negb (nh =? 0) then LCont (set_st s1 (SHead 4)) [] 0 else next_after_header alloc_ok s1 rest
  else if k =? 4 then
    LCont (set_st (set_sd (set_h s (seth_hx h (h_hx h ++ [(b, [])]))) []) (SHead 5)) [] 0
  else if k =? 5 then
    sdnv_field junk s b (fun s v =>
      let h := l_h s in
      let s1 := set_h s (seth_hlen h v) in
      if v =? 0 then (if N.of_nat (length (h_hx h)) =? h_nh h then next_after_header alloc_ok s1 rest else LCont (set_st s1 (SHead 4)) [] 0)
      else if negb (alloc_ok v) then LUndef else LCont (set_st s1 (SHead 6)) [] 0)
  else if k =? 6 then
    match push_last (h_hx h) b with
    | None => LUndef
    | Some x =>
      let s1 := set_h s (seth_hx h x) in
      if last_len x =? h_hlen h then (if N.of_nat (length x) =? h_nh h then next_after_header alloc_ok s1 rest else LCont (set_st s1 (SHead 4)) [] 0)
      else LCont s1 [] 0
    end
  else LCont s [] 0.

(** Cpp:580-744 READ_DATA_SEGMENT_CONTENT. *)
Definition data_step (junk : list N -> list N) (alloc_ok : N -> bool) (s : ltp) (k b : N) (rest : list N) : lres :=
  if k =? 0 then
    sdnv_field junk s b (fun s v => let m := l_m s in LCont (set_st (set_sd (set_m s (mkLm v (d_off m) (d_len m) (d_cp m) (d_rp m) (d_ptrs m))) []) (SData 1)) [] 0)
  else if k =? 1 then
    sdnv_field junk s b (fun s v => let m := l_m s in LCont (set_st (set_sd (set_m s (mkLm (d_csid m) v (d_len m) (d_cp m) (d_rp m) (d_ptrs m))) []) (SData 2)) [] 0)
  else if k =? 2 then
    sdnv_field junk s b (fun s v =>
      let m := l_m s in
      let s1 := set_m s (mkLm (d_csid m) (d_off m) v (d_cp m) (d_rp m) (d_ptrs m)) in
      if v =? 0 then LStop s1 []
      else if is_cp (h_flags (l_h s)) then LCont (set_st (set_m (set_sd s1 []) (set_ptrs (l_m s1) true)) (SData 3)) [] 0
      else if negb (alloc_ok v) then LUndef
      else LCont (set_st (set_m (set_data s1 []) (set_ptrs (l_m s1) false)) (SData 5)) [] 0)
  else if k =? 3 then
    sdnv_field junk s b (fun s v => let m := l_m s in LCont (set_st (set_sd (set_m s (mkLm (d_csid m) (d_off m) (d_len m) v (d_rp m) (d_ptrs m))) []) (SData 4)) [] 0)
  else if k =? 4 then
    sdnv_field junk s b (fun s v =>
      let m := l_m s in
      let s1 := set_m s (mkLm (d_csid m) (d_off m) (d_len m) (d_cp m) v (d_ptrs m)) in
      if negb (alloc_ok (d_len m)) then LUndef else LCont (set_st (set_data s1 []) (SData 5)) [] 0)
  else if k =? 5 then
    let len := d_len (l_m s) in
    if (match l_data s with [] => true | _ => false end) && (len <=? N.of_nat (length rest) + 1) then
      let more := N.to_nat (len - 1) in
      body_done (set_raw s (RawPkt (b :: firstn more rest))) cb_data more
    else
      let d := l_data s ++ [b] in
      if N.of_nat (length d) =? len then body_done (set_raw (set_data s d) RawOwn) cb_data 0
      else
        let k := N.to_nat (N.min (N.of_nat (length rest)) (len - N.of_nat (length d) - 1)) in
        LCont (set_data s (d ++ firstn k rest)) [] k
  else LCont s [] 0.

(** Cpp:745-906 READ_REPORT_SEGMENT_CONTENT. *)
Definition report_step (junk : list N -> list N) (alloc_ok : N -> bool) (s : ltp) (k b : N) : lres :=
  if k =? 0 then
    sdnv_field junk s b (fun s v => let r := l_r s in LCont (set_st (set_sd (set_r s (mkLr v (r_cp r) (r_ub r) (r_lb r) (r_cnt r) (r_claims r))) []) (SReport 1)) [] 0)
  else if k =? 1 then
    sdnv_field junk s b (fun s v => let r := l_r s in LCont (set_st (set_sd (set_r s (mkLr (r_rsn r) v (r_ub r) (r_lb r) (r_cnt r) (r_claims r))) []) (SReport 2)) [] 0)
  else if k =? 2 then
    sdnv_field junk s b (fun s v => let r := l_r s in LCont (set_st (set_sd (set_r s (mkLr (r_rsn r) (r_cp r) v (r_lb r) (r_cnt r) (r_claims r))) []) (SReport 3)) [] 0)
  else if k =? 3 then
    sdnv_field junk s b (fun s v => let r := l_r s in LCont (set_st (set_sd (set_r s (mkLr (r_rsn r) (r_cp r) (r_ub r) v (r_cnt r) (r_claims r))) []) (SReport 4)) [] 0)
  else if k =? 4 then
    sdnv_field junk s b (fun s v =>
      let r := l_r s in
      let s1 := set_r s (mkLr (r_rsn r) (r_cp r) (r_ub r) (r_lb r) v (r_claims r)) in
      if v =? 0 then LStop s1 []
      else if negb (alloc_ok (16 * v)) then LUndef
      else LCont (set_st (set_r (set_sd s1 []) (set_claims (l_r s1) [])) (SReport 5)) [] 0)
  else if k =? 5 then
    sdnv_field junk s b (fun s v => LCont (set_st (set_sd (set_r s (set_claims (l_r s) (r_claims (l_r s) ++ [(v, 0)]))) []) (SReport 6)) [] 0)
  else if k =? 6 then
    sdnv_field junk s b (fun s v =>
      if v =? 0 then LStop s []
      else
        match set_last_len (r_claims (l_r s)) v with
        | None => LUndef
        | Some c =>
          let s1 := set_sd (set_r s (set_claims (l_r s) c)) [] in
          if N.of_nat (length c) <? r_cnt (l_r s1) then LCont (set_st s1 (SReport 5)) [] 0 else body_done s1 cb_report 0
        end)
  else LCont s [] 0.

(** Cpp:1045-1088 NextStateAfterTrailerExtensions. *)
Definition next_after_trailer (s : ltp) : lres :=
  let f := h_flags (l_h s) in
  if N.land f 0xd =? 0xd then LCont (beginning s) [cb_cack s] 0
  else if (f =? 5) || (f =? 6) || (f =? 10) || (f =? 11) then LStop s []
  else if f <=? 7 then LCont (beginning s) [cb_data s] 0
  else if f =? 8 then LCont (beginning s) [cb_report s] 0
  else if f =? 9 then LCont (beginning s) [cb_rack s] 0
  else LCont (beginning s) [cb_cancel s] 0.

(** Cpp:948-1000 READ_TRAILER. *)
Definition trailer_step (junk : list N -> list N) (alloc_ok : N -> bool) (s : ltp) (k b : N) : lres :=
  let h := l_h s in
  if k =? 0 then LCont (set_st (set_sd (set_h s (seth_tx h (h_tx h ++ [(b, [])]))) []) (STrail 1)) [] 0
  else if k =? 1 then
    sdnv_field junk s b (fun s v =>
      let h := l_h s in
      let s1 := set_h s (seth_tlen h v) in
      if v =? 0 then (if N.of_nat (length (h_tx h)) =? h_nt h then next_after_trailer s1 else LCont (set_st s1 (STrail 0)) [] 0)
      else if negb (alloc_ok v) then LUndef else LCont (set_st s1 (STrail 2)) [] 0)
  else if k =? 2 then
    match push_last (h_tx h) b with
    | None => LUndef
    | Some x =>
      let s1 := set_h s (seth_tx h x) in
      if last_len x =? h_tlen h then (if N.of_nat (length x) =? h_nt h then next_after_trailer s1 else LCont (set_st s1 (STrail 0)) [] 0)
      else LCont s1 [] 0
    end
  else LCont s [] 0.

(** Cpp:387-1001, one turn of the loop; 907-947 for the two one-field contents. *)
Definition lstep (junk : list N -> list N) (alloc_ok : N -> bool) (s : ltp) (b : N) (rest : list N) : lres :=
  match l_st s with
  | SHead k => head_step junk alloc_ok s k b rest
  | SData k => data_step junk alloc_ok s k b rest
  | SReport k => report_step junk alloc_ok s k b
  | SRack => sdnv_field junk s b (fun s v => body_done (set_rack s v) cb_rack 0)
  | SCancel => body_done (set_reason s b) cb_cancel 0
  | STrail k => trailer_step junk alloc_ok s k b
  end.

(** Cpp:385-1003 HandleReceivedChars on one chunk: returned true / returned false / undefined. The fuel is the chunk length. *)
Inductive lfeed := FOk (s : ltp) (o : list lcb) | FFail (s : ltp) (o : list lcb) | FUndef.
Fixpoint feed_loop (junk : list N -> list N) (alloc_ok : N -> bool) (fuel : nat) (s : ltp) (bytes : list N) : lfeed :=
  match bytes with
  | [] => FOk s []
  | b :: r =>
    match fuel with
    | O => FUndef
    | S f =>
      match lstep junk alloc_ok s b r with
      | LUndef => FUndef
      | LStop s' o => FFail s' o
      | LCont s' o k =>
        match feed_loop junk alloc_ok f s' (skipn k r) with
        | FOk s2 o2 => FOk s2 (o ++ o2)
        | FFail s2 o2 => FFail s2 (o ++ o2)
        | FUndef => FUndef
        end
      end
    end
  end.
(** One call per chunk, until one returns false. A pointer into the packet of an earlier call finds what that memory holds by then:
    [reuse d] where [d] was received. *)
Definition age (reuse : list N -> list N) (s : ltp) : ltp := match l_raw s with RawPkt d => set_raw s (RawPkt (reuse d)) | _ => s end.
Fixpoint calls (junk : list N -> list N) (alloc_ok : N -> bool) (reuse : list N -> list N) (s : ltp) (chunks : list (list N)) : lfeed :=
  match chunks with
  | [] => FOk s []
  | c :: r =>
    match feed_loop junk alloc_ok (length c) (age reuse s) c with
    | FOk s1 o1 => match calls junk alloc_ok reuse s1 r with FOk s2 o2 => FOk s2 (o1 ++ o2) | FFail s2 o2 => FFail s2 (o1 ++ o2) | FUndef => FUndef end
    | x => x
    end
  end.

(** Cpp:1650-1693 GetMessageDirectionFromSegmentFlags (the branchless version), flags below 16: valid, sender to receiver. *)
Definition bits (l : list N) : N := fold_right (fun f a => N.lor (N.shiftl 1 f) a) 0 l.
Definition direction (flags : N) : bool * bool :=
  let to_rx := bits [0; 1; 2; 3; 4; 7; 9; 12; 15] in
  let mask := (N.shiftl 1 flags) mod 65536 in
  (negb (N.land mask (N.lor to_rx (bits [8; 13; 14])) =? 0), negb (N.land mask to_rx =? 0)).

(** * Generating. The vector is enlarged to an upper bound, written through a moving pointer, and cut to where the pointer ends. *)

(** Writing at the pointer; None = outside the vector. *)
Definition wr : Type := list N * nat.
Definition wr_bytes (w : wr) (d : list N) : option wr := option_map (fun buf => (buf, (snd w + length d)%nat)) (write_at (snd w) d (fst w)).
(** encodedPtr += SdnvEncodeU64BufSize10(encodedPtr, v) (Sdnv.cpp:90-96): writes 10 bytes, advances by the size. *)
Definition wr_sdnv (w : wr) (v : N) : option wr :=
  match sdnv_encode64_fast v (skipn (snd w) (fst w)) with
  | Some (n, out) => Some (firstn (snd w) (fst w) ++ out, (snd w + N.to_nat n)%nat)
  | None => None
  end.
Fixpoint wr_sdnvs (w : wr) (vs : list N) : option wr :=
  match vs with [] => Some w | v :: r => match wr_sdnv w v with Some w' => wr_sdnvs w' r | None => None end end.
(** Cpp:235-246 ltp_extension_t::Serialize and 271-277 ltp_extensions_t::Serialize. *)
Definition wr_ext (w : wr) (e : ext) : option wr :=
  match wr_bytes w [fst e] with
  | Some w1 => match wr_sdnv w1 (N.of_nat (length (snd e))) with Some w2 => wr_bytes w2 (snd e) | None => None end
  | None => None
  end.
Fixpoint wr_exts (w : wr) (x : list ext) : option wr :=
  match x with [] => Some w | e :: r => match wr_ext w e with Some w' => wr_exts w' r | None => None end end.
(** Cpp:278-284 GetMaximumDataRequiredForSerialization. *)
Definition max_exts (x : list ext) : nat := fold_left (fun a e => a + length (snd e))%nat x (length x * 11)%nat.
(** The common text of the five generators: Cpp:1496-1519, 1521-1552, 1554-1584, 1586-1616, 1618-1647. [room]: bytes reserved for the contents,
    [vs]: its SDNVs, [tail]: its plain bytes; numbers of extensions are cast to uint8_t, the count byte is a uint8_t. [stale] is the old
    content of the vector. A NULL extension list and an empty one give the same bytes. *)
Definition gen (flags eng num : N) (hx : list ext) (room : nat) (vs tail : list N) (ntrailer : N) (tx : list ext) (stale : list N) : option (list N) :=
  let size := (1 + 1 + 2 * 10 + room + max_exts hx + max_exts tx)%nat in
  let buf := firstn size (stale ++ repeat 0 size) in
  let count := (N.lor (N.shiftl (N.of_nat (length hx) mod 256) 4) ntrailer) mod 256 in
  match wr_bytes (buf, 0%nat) [flags] with
  | None => None
  | Some w1 =>
  match wr_sdnvs w1 [eng; num] with
  | None => None
  | Some w2 =>
  match wr_bytes w2 [count] with
  | None => None
  | Some w3 =>
  match wr_exts w3 hx with
  | None => None
  | Some w4 =>
  match wr_sdnvs w4 vs with
  | None => None
  | Some w5 =>
  match wr_bytes w5 tail with
  | None => None
  | Some w6 =>
  match wr_exts w6 tx with
  | None => None
  | Some (b, p) => Some (firstn p b)
  end end end end end end end.
(** Cpp:1496-1519 with 314-334; the caller appends the data and the trailer extensions, [ntrailer] is their number. *)
Definition gen_data_header (flags eng num csid off len : N) (serials : option (N * N)) (hx : list ext) (ntrailer : N) (stale : list N) : option (list N) :=
  let vs := [csid; off; len] ++ match serials with Some (c, r) => [c; r] | None => [] end in
  gen flags eng num hx (match serials with Some _ => 50 | None => 30 end)%nat vs [] ntrailer [] stale.
(** Cpp:1521-1552 with 186-201 and 124-129. *)
Definition gen_report (eng num rsn cp ub lb : N) (claims : list (N * N)) (hx tx : list ext) (stale : list N) : option (list N) :=
  gen 8 eng num hx (5 * 10 + length claims * 20)%nat ([rsn; cp; ub; lb; N.of_nat (length claims)] ++ flat_map (fun c => [fst c; snd c]) claims) []
      (N.of_nat (length tx) mod 256) tx stale.
(** Cpp:1554-1584. *)
Definition gen_rack (eng num rsn : N) (hx tx : list ext) (stale : list N) : option (list N) := gen 9 eng num hx 10 [rsn] [] (N.of_nat (length tx) mod 256) tx stale.
(** Cpp:1586-1616. *)
Definition gen_cancel (eng num reason : N) (fromSender : bool) (hx tx : list ext) (stale : list N) : option (list N) :=
  gen (if fromSender then 12 else 14) eng num hx 1 [] [reason mod 256] (N.of_nat (length tx) mod 256) tx stale.
(** Cpp:1618-1647. *)
Definition gen_cack (eng num : N) (toSender : bool) (hx tx : list ext) (stale : list N) : option (list N) :=
  gen (if toSender then 13 else 15) eng num hx 0 [] [] (N.of_nat (length tx) mod 256) tx stale.
