(** Model of Ingress::Impl::ProcessPaddedData up to the message to be sent (module/ingress/src/receive.cpp:1105-1339, 1440-1442),
    Rx below, on top of M_BundleV6 and M_BundleV7. Not modelled: bundle masking (MASKING_ENABLED); BPSec (Rx:1226-1243, 1307-1311): the
    model is the program built with ENABLE_BPSEC=OFF, or with it on for a bundle to which no policy applies and which either has no
    security block or is not addressed to this node, for which those lines change nothing (BpSecPolicyManager.cpp:570-619,
    685-732, 964-979); the text ProcessReceivedPingPayload logs. *)
From Coq Require Import NArith List Bool.
From Verif Require Import Base M_SegmentAlloc M_Intrin M_Sdnv M_Cbor M_Bpv6Block M_Bpv7Crc M_Bpv7Block M_Bpv7Admin M_Bpv7Sec M_BundleV6 M_BundleV7.
Import ListNotations.
Open Scope N_scope.

(** Rx:443-451 with Rx:64 and the members of HdtnConfig used: m_myNodeId, m_myCustodialServiceId, m_myBpEchoServiceId,
    m_myRouterServiceId, m_maxBundleSizeBytes, m_fragmentBundlesLargerThanBytes. *)
Record node := mkNode { n_id : N; n_custody : N; n_echo : N; n_router : N; n_max : N; n_fragment : N }.
Definition eid_eqb (a b : N * N) : bool := (fst a =? fst b) && (snd a =? snd b).
(** (flags & required) == required. *)
Definition has_all (flags required : N) : bool := N.land flags required =? required.
(** What the first half of the function leaves for the second: the bytes of *zmqMessageToSendUniquePtr, finalDestEid,
    requestsCustody, isAdminRecordForHdtnStorage, isBundleForHdtnRouter, needsFragmenting (Rx:1440-1442). *)
Record outgoing := mkOut { o_bytes : list N; o_dest : N * N; o_custody : bool; o_admin : bool; o_router : bool; o_frag : bool }.
(** return false; return true without a message (ping responses); on to the second half. *)
Inductive handled := Refused | Consumed | Out (o : outgoing).

(** ** BPv6 *)
Definition redirect6 (p : prim) (dest src : N * N) : prim :=
  mkPrim (p_flags p) (p_len p) dest src (p_report p) (p_cust p) (p_time p) (p_seq p) (p_life p) (p_off p) (p_total p).
(** Rx:1129-1192. [last] as in M_BundleV6; [mem], [junk] as in M_BundleV6.render (the capacity of the view's back buffer). bpv6.h:65-69. *)
Definition process6 (nd : node) (needsProcessing last : bool) (mem junk bs : list N) : option handled :=
  do x <- load last false bs;
  match x with
  | None => Some Refused
  | Some v =>
    let p := v_prim v in
    let dest := p_dest p in
    let payload := match payload_size v with Some n => n | None => 0 end in
    let frag nofrag := negb (n_fragment nd =? 0) && negb nofrag && (n_fragment nd <? payload) in
    if negb needsProcessing then Some (Out (mkOut bs dest false false false (frag true))) else
    let custody := has_all (p_flags p) (16 + 8) in
    let admin := has_all (p_flags p) (16 + 2) && eid_eqb dest (n_id nd, n_custody nd) in
    let router := eid_eqb dest (n_id nd, n_router nd) in
    let fr := frag (negb (N.land (p_flags p) 4 =? 0)) in
    if has_all (p_flags p) 0 && eid_eqb dest (n_id nd, n_echo nd) then
      do r <- render (modify_primary (redirect6 p (p_src p) (n_id nd, n_echo nd)) v) (length bs + 500) mem junk;
      match r with
      | None => Some Refused
      | Some (Rendered v') => Some (Out (mkOut (v_bytes v') (p_src p) custody admin router fr))
      | Some (RenderedMoved bytes) => Some (Out (mkOut bytes (p_src p) custody admin router fr))
      end
    else if eid_eqb dest (n_id nd, 1) then Some Consumed
    else Some (Out (mkOut bs dest custody admin router fr))
  end.

(** ** BPv7 *)
Definition redirect7 (p : prim7) (dest src : N * N) : prim7 :=
  mkPrim7 (q_flags p) dest src (q_report p) (q_stamp p) (q_life p) (q_off p) (q_total p) (q_crc p) (q_crctype p).
Definition update_type7 (t : N) (f : cbv7 -> cbv7) (v : bview7) : bview7 :=
  with_blocks7 v (map (fun b => if c_type (k_c b) =? t then f b else b) (w_blocks v)) (w_mask v).
(** Rx:1244-1277 the previous node block. The class of a block's object follows from its type code (M_BundleV7.content7_parse), so the
    dynamic_cast of an encrypted block works and what is assigned to its members is not sent. None = return false. bpv7.h:41, 65. *)
Definition previous_node7 (nd : node) (v : bview7) : option bview7 :=
  match by_type7 6 v with
  | [] => Some (prepend7 (mkCanon7 6 (next_free7 v) 0x10 0 None (0, 0) 2) (CExt (PrevNode (n_id nd, 0))) v)
  | [b] =>
    if k_enc b then Some (update_type7 6 touch7 v)
    else match k_x b with
         | CExt (PrevNode _) => Some (update_type7 6 (fun b => modify7 (k_c b) (CExt (PrevNode (n_id nd, 0))) b) v)
         | _ => None
         end
  | _ => None
  end.
(** Rx:1279-1306 the hop count block. [stale] = hop limit and count found in the object of an encrypted block: neither the constructor
    (Bpv7ExtensionBlocks.cpp:181-183) nor Load has set them. None = return false. *)
Definition hop_count7 (stale : N * N) (v : bview7) : option bview7 :=
  match by_type7 10 v with
  | [] => Some v
  | [b] =>
    let step limit count f :=
      let n := (count + 1) mod W64 in
      if (limit <? n) || (255 <? n) then None else Some (update_type7 10 (f n) v) in
    if k_enc b then step (fst stale) (snd stale) (fun _ => touch7)
    else match k_x b with
         | CExt (HopCount limit count) => step limit count (fun n b => modify7 (k_c b) (CExt (HopCount limit n)) b)
         | _ => None
         end
  | _ => None
  end.
(** Rx:1193-1335. [pad] = the memory before the bundle, [beyond] = behind it; 256 = PADDING_ELEMENTS_BEFORE
    (PaddedVectorUint8.h:32). *)
Definition process7 (scan : N -> option N) (hw : option N) (old : nat -> leftovers) (stale : N * N) (nd : node) (needsProcessing : bool)
  (pad beyond bs : list N) : option handled :=
  do x <- load7 (negb needsProcessing) hw old beyond false bs;
  match x with
  | None => Some Refused
  | Some v =>
    let p := w_prim v in
    let dest := q_dest p in
    if negb needsProcessing then Some (Out (mkOut (w_bytes v) dest false false false false)) else
    if eid_eqb dest (n_id nd, 1) then Some Consumed else
    let admin := has_all (q_flags p) 2 && eid_eqb dest (n_id nd, n_custody nd) in
    let router := eid_eqb dest (n_id nd, n_router nd) in
    let echo := has_all (q_flags p) 0 && eid_eqb dest (n_id nd, n_echo nd) in
    if admin then Some (Out (mkOut (w_bytes v) dest false true router false)) else
    match previous_node7 nd v with
    | None => Some Refused
    | Some v1 =>
      match hop_count7 stale v1 with
      | None => Some Refused
      | Some v2 =>
        let v3 := if echo then modify_primary7 (redirect7 p (q_src p) (n_id nd, n_echo nd)) v2 else v2 in
        do r <- render_in_place7 scan hw v3 256 pad;
        let '(v', _, ok) := r in
        if ok then Some (Out (mkOut (w_bytes v') (if echo then q_src p else dest) false false router false)) else Some Refused
      end
    end
  end.

(** Rx:1105-1129, 1193, 1336-1339: the size limit and the version, told by the first byte of memory. *)
Definition process (scan : N -> option N) (hw : option N) (old : nat -> leftovers) (stale : N * N) (last : bool) (nd : node)
  (needsProcessing : bool) (pad mem junk beyond bs : list N) : option handled :=
  if n_max nd <? N.of_nat (length bs) then Some Refused else
  match bs ++ beyond with
  | [] => None
  | h :: _ =>
    if h =? 6 then process6 nd needsProcessing last mem junk bs
    else if h =? 0x9f then process7 scan hw old stale nd needsProcessing pad beyond bs
    else Some Refused
  end.
