(** Specification vocabulary for C28 (RFC 5326 segment formats), independent of the parser and the generators; of the model only the
    callback type is used. *)
From Coq Require Import NArith List Bool.
From Verif Require Import Base S_Sdnv M_LtpCodec.
Import ListNotations.
Open Scope N_scope.

(** What a peer means to say. [Data]'s serial numbers: checkpoint and report, in checkpoints only. *)
Inductive content :=
| Data (flags csid off : N) (serials : option (N * N)) (data : list N)
| Report (rsn cp ub lb : N) (claims : list (N * N))
| ReportAck (rsn : N)
| Cancel (fromSender : bool) (reason : N)
| CancelAck (toSender : bool).
Record segment := mkSeg { g_eng : N; g_num : N; g_hx : list (N * list N); g_content : content; g_tx : list (N * list N) }.

(** RFC 5326 3.1.4: tag, length, value. *)
Inductive wire_exts : list (N * list N) -> list N -> Prop :=
| WxNil : wire_exts [] []
| WxCons t v sd xs bs : is_byte t -> Forall is_byte v -> sdnv_for (N.of_nat (length v)) sd -> wire_exts xs bs -> wire_exts ((t, v) :: xs) (t :: sd ++ v ++ bs).
(** RFC 5326 3.1.1 table: the segment type flags. *)
Definition type_flags (c : content) : N :=
  match c with
  | Data f _ _ _ _ => f | Report _ _ _ _ _ => 8 | ReportAck _ => 9
  | Cancel s _ => if s then 12 else 14 | CancelAck s => if s then 13 else 15
  end.
(** RFC 5326 3.2: the segment content. *)
Inductive wire_content : content -> list N -> Prop :=
| WData f csid off data sd : In f [0; 4; 7] -> Forall is_byte data -> sdnvs [csid; off; N.of_nat (length data)] sd -> wire_content (Data f csid off None data) (sd ++ data)
| WCheckpoint f csid off c r data sd : In f [1; 2; 3] -> Forall is_byte data -> sdnvs [csid; off; N.of_nat (length data); c; r] sd ->
    wire_content (Data f csid off (Some (c, r)) data) (sd ++ data)
| WReport rsn cp ub lb claims sd : sdnvs ([rsn; cp; ub; lb; N.of_nat (length claims)] ++ flat_map (fun c => [fst c; snd c]) claims) sd -> wire_content (Report rsn cp ub lb claims) sd
| WReportAck rsn sd : sdnvs [rsn] sd -> wire_content (ReportAck rsn) sd
| WCancel s reason : is_byte reason -> wire_content (Cancel s reason) [reason]
| WCancelAck s : wire_content (CancelAck s) [].
(** RFC 5326 3.1: version 0 and type, session id, extension counts, header extensions, content, trailer extensions. *)
Inductive wire : segment -> list N -> Prop :=
| Wire g sid hb cb tb : (length (g_hx g) <= 15)%nat -> (length (g_tx g) <= 15)%nat -> sdnvs [g_eng g; g_num g] sid ->
    wire_exts (g_hx g) hb -> wire_content (g_content g) cb -> wire_exts (g_tx g) tb ->
    wire g (type_flags (g_content g) :: sid ++ (16 * N.of_nat (length (g_hx g)) + N.of_nat (length (g_tx g))) :: hb ++ cb ++ tb).
Inductive stream : list segment -> list N -> Prop :=
| StNil : stream [] []
| StCons g b gs bs : wire g b -> stream gs bs -> stream (g :: gs) (b ++ bs).

(** The parser's demands beyond the format: no empty data segment, at least one claim, no empty claim (RFC 5326 3.2.2 demands the last two),
    memory available for every length announced. *)
Definition acceptable (alloc_ok : N -> bool) (g : segment) : Prop :=
  Forall (fun e => snd e = [] \/ alloc_ok (N.of_nat (length (snd e))) = true) (g_hx g ++ g_tx g) /\
  match g_content g with
  | Data _ _ _ _ d => d <> [] /\ alloc_ok (N.of_nat (length d)) = true
  | Report _ _ _ _ claims => claims <> [] /\ Forall (fun c => snd c <> 0) claims /\ alloc_ok (16 * N.of_nat (length claims)) = true
  | _ => True
  end.
(** The callback that reports a segment with all its fields. *)
Definition report_of (g : segment) : lcb :=
  match g_content g with
  | Data f csid off ser d => LcData f (g_eng g) (g_num g) d csid off (N.of_nat (length d)) ser (g_hx g) (g_tx g)
  | Report rsn cp ub lb claims => LcReport (g_eng g) (g_num g) rsn cp ub lb claims (g_hx g) (g_tx g)
  | ReportAck rsn => LcRack (g_eng g) (g_num g) rsn (g_hx g) (g_tx g)
  | Cancel s reason => LcCancel (g_eng g) (g_num g) reason s (g_hx g) (g_tx g)
  | CancelAck s => LcCack (g_eng g) (g_num g) s (g_hx g) (g_tx g)
  end.
(** Each segment causes the announcement of its engine id, then its report. *)
Definition callbacks (gs : list segment) : list lcb := flat_map (fun g => [LcEngine (g_eng g); report_of g]) gs.
(** The callbacks that report segments. *)
Definition is_segment (c : lcb) : bool := match c with LcEngine _ => false | _ => true end.
Definition segments (o : list lcb) : list lcb := filter is_segment o.
(** 32 consecutive bytes with the top bit set. *)
Definition has_run32 (bs : list N) : Prop := exists a p c, bs = a ++ p ++ c /\ length p = 32%nat /\ Forall (fun b => 128 <= b) p.
(** The value of some SDNV in the bytes; one that is or would be too big to allocate as a length or as a number of 16-byte claims. *)
Definition announced (bs : list N) (v : N) : Prop := exists a sd c, bs = a ++ sd ++ c /\ sdnv_for v sd.
Definition refused (alloc_ok : N -> bool) (bs : list N) : Prop := exists v, announced bs v /\ (alloc_ok v = false \/ alloc_ok (16 * v) = false).
(** Who sends it: the sender of the block? *)
Definition by_sender (c : content) : bool :=
  match c with Data _ _ _ _ _ => true | Report _ _ _ _ _ => false | ReportAck _ => true | Cancel fromSender _ => fromSender | CancelAck toSender => negb toSender end.
(** What a caller of the generators can pass: 64-bit numbers, bytes, at most 15 extensions on either side, serial numbers exactly in checkpoints. *)
Definition ext_ok (e : N * list N) : Prop := is_byte (fst e) /\ Forall is_byte (snd e) /\ N.of_nat (length (snd e)) < W64.
Definition sane (g : segment) : Prop :=
  g_eng g < W64 /\ g_num g < W64 /\ Forall ext_ok (g_hx g) /\ Forall ext_ok (g_tx g) /\ (length (g_hx g) <= 15)%nat /\ (length (g_tx g) <= 15)%nat /\
  match g_content g with
  | Data f csid off ser d => csid < W64 /\ off < W64 /\ N.of_nat (length d) < W64 /\ Forall is_byte d /\
      match ser with None => In f [0; 4; 7] | Some (c, r) => In f [1; 2; 3] /\ c < W64 /\ r < W64 end
  | Report rsn cp ub lb claims => rsn < W64 /\ cp < W64 /\ ub < W64 /\ lb < W64 /\ N.of_nat (length claims) < W64 /\ Forall (fun c => fst c < W64 /\ snd c < W64) claims
  | ReportAck rsn => rsn < W64
  | Cancel _ reason => is_byte reason
  | CancelAck _ => True
  end.
