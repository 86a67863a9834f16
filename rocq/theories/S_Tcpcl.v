(** Specification vocabulary for C34 (RFC 7242 message formats), independent of the parser; of the model only the callback type is used. *)
From Coq Require Import NArith List Bool.
From Verif Require Import Base S_Sdnv M_Tcpcl.
Import ListNotations.
Open Scope N_scope.

(** What a peer means to say. *)
Inductive tmsg :=
| Contact (flags keep : N) (eid : list N)
| DataSegment (isStart isEnd : bool) (data : list N)
| Ack (n : N)
| Refuse (code : N)
| BundleLength (n : N)
| KeepAlive
| Shutdown (reason : option N) (delay : option N).
Definition bit (b : bool) : N := if b then 1 else 0.
Definition is_some {A} (o : option A) : bool := match o with Some _ => true | None => false end.
(** RFC 7242 sections 4.1, 5.2-5.6, 6.1: the bytes of a message. *)
Inductive wire : tmsg -> list N -> Prop :=
| WContact flags keep eid sd : is_byte flags -> keep < 65536 -> Forall is_byte eid -> sdnv_for (N.of_nat (length eid)) sd ->
    wire (Contact flags keep eid) ([0x64; 0x74; 0x6e; 0x21; 3; flags; keep / 256; keep mod 256] ++ sd ++ eid)
| WData s e data sd : Forall is_byte data -> sdnv_for (N.of_nat (length data)) sd -> wire (DataSegment s e data) ((16 + 2 * bit s + bit e) :: sd ++ data)
| WAck n sd : sdnv_for n sd -> wire (Ack n) (32 :: sd)
| WRefuse code : code < 16 -> wire (Refuse code) [48 + code]
| WLength n sd : sdnv_for n sd -> wire (BundleLength n) (96 :: sd)
| WKeep : wire KeepAlive [64]
| WShutdown reason delay rb db : match reason with Some r => is_byte r /\ rb = [r] | None => rb = [] end ->
    match delay with Some d => sdnv_for d db | None => db = [] end ->
    wire (Shutdown reason delay) ((80 + 2 * bit (is_some reason) + bit (is_some delay)) :: rb ++ db).
(** A connection: a contact header, then messages; after a shutdown message only a new contact header may follow.
    The boolean tells whether the contact header has been seen. *)
Inductive stream : bool -> list tmsg -> list N -> Prop :=
| StEnd c : stream c [] []
| StContact f k e b ms bs : wire (Contact f k e) b -> stream true ms bs -> stream false (Contact f k e :: ms) (b ++ bs)
| StMessage m b ms bs : wire m b -> match m with Contact _ _ _ => False | Shutdown _ _ => False | _ => True end -> stream true ms bs -> stream true (m :: ms) (b ++ bs)
| StShutdown r d b ms bs : wire (Shutdown r d) b -> stream false ms bs -> stream true (Shutdown r d :: ms) (b ++ bs).
(** [later] is exactly what is missing of the messages [ms] in a stream, the first of which may have begun. *)
Definition missing (ms : list tmsg) (later : list N) : Prop :=
  (ms = [] /\ later = []) \/
  (exists m rest p q c bs, ms = m :: rest /\ wire m (p ++ q) /\ q <> [] /\ stream c rest bs /\ later = q ++ bs).
(** The parser's demands beyond the format: no empty EID or data segment, data within the limit, memory available. *)
Definition acceptable (alloc_ok : N -> bool) (maxrx : N) (m : tmsg) : Prop :=
  match m with
  | Contact _ _ eid => eid <> [] /\ alloc_ok (N.of_nat (length eid)) = true
  | DataSegment _ _ d => d <> [] /\ N.of_nat (length d) <= maxrx /\ alloc_ok (N.of_nat (length d)) = true
  | _ => True
  end.
(** A callback reports a message: all fields; where a shutdown lacks a reason the reason reported is 3 if it also lacks a delay, and anything
    otherwise; a missing delay is reported as 0. *)
Definition reports (o : tcb) (m : tmsg) : Prop :=
  match m with
  | Contact f k e => o = CbContact f k e
  | DataSegment s e d => o = CbData d s e
  | Ack n => o = CbAck n
  | Refuse c => o = CbRefuse c
  | BundleLength n => o = CbLength n
  | KeepAlive => o = CbKeep
  | Shutdown r d => exists code, o = CbShutdown (is_some r) code (is_some d) (match d with Some x => x | None => 0 end) /\
      match r, d with Some x, _ => code = x | None, None => code = 3 | None, Some _ => True end
  end.

