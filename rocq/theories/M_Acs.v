(** Model of the aggregate custody signal in common/bpcodec/src/codec/Bpv6AdministrativeRecords.cpp:755-915. *)
From Coq Require Import NArith List Bool.
From Verif Require Import Base M_FragmentSet M_Sdnv.
Import ListNotations.
Open Scope N_scope.

(** Bpv6AdministrativeRecords.cpp:838-840 SetCustodyTransferStatusAndReason: the status byte. The reason code is an
    enum class over uint8_t. *)
Definition acs_status (succeeded : bool) (reason : N) : N := N.lor reason (N.shiftl (N.b2n succeeded) 7) mod 256.
(** Bpv6AdministrativeRecords.cpp:841-843 DidCustodyTransferSucceed. *)
Definition acs_succeeded (status : N) : bool := negb (N.land status 0x80 =? 0).
(** Bpv6AdministrativeRecords.cpp:844-846 GetReasonCode. *)
Definition acs_reason (status : N) : N := N.land status 0x7f.

(** Bpv6AdministrativeRecords.cpp:848-851 AddCustodyIdToFill: (new fills, returned count). *)
Definition acs_add (last : bool) (fills : fset) (id : N) : fset * N :=
  let s := fst (insert_fragment last fills (id, id)) in (s, N.of_nat (length s)).
(** Bpv6AdministrativeRecords.cpp:853-856 AddContiguousCustodyIdsToFill. *)
Definition acs_add_range (last : bool) (fills : fset) (first lst : N) : fset * N :=
  let s := fst (insert_fragment last fills (first, lst)) in (s, N.of_nat (length s)).

(** Bpv6AdministrativeRecords.cpp:857-873 SerializeFills. [buf] is what is left of the buffer (its length is
    bufferSize). A field that does not fit is skipped because SdnvEncodeU64 then returns 0 (lines 862-868 do not
    test it). Result: (returned length, buffer afterwards); None = undefined behaviour. *)
Fixpoint acs_serialize_fills (fills : fset) (prev : N) (buf : list N) : option (N * list N) :=
  match fills with
  | [] => Some (0, buf)
  | (b, e) :: r =>
    do x1 <- sdnv_encode64 (sub64 b prev) buf;
    let n1 := N.to_nat (fst x1) in
    do x2 <- sdnv_encode64 (sub64 (add64 e 1) b) (skipn n1 (snd x1));
    let n2 := N.to_nat (fst x2) in
    do x3 <- acs_serialize_fills r e (skipn n2 (snd x2));
    Some (fst x1 + fst x2 + fst x3, firstn n1 (snd x1) ++ firstn n2 (snd x2) ++ snd x3)
  end.

(** Bpv6AdministrativeRecords.cpp:874-883 GetFillSerializedSize. *)
Fixpoint acs_fill_size (fills : fset) (prev : N) : option N :=
  match fills with
  | [] => Some 0
  | (b, e) :: r =>
    do a <- sdnv_num_bytes (sub64 b prev);
    do c <- sdnv_num_bytes (sub64 (add64 e 1) b);
    do d <- acs_fill_size r e;
    Some (a + c + d)
  end.

(** Bpv6AdministrativeRecords.cpp:884-915 DeserializeFills. Each round reads two SDNVs of at least one byte each;
    [fuel] counts rounds and outer None means undefined behaviour or out of fuel. Inner None = returned false.
    Otherwise (fills, numBytesTakenToDecode). bufferSizeSigned is the length of what is left, never negative because
    a decoded SDNV never exceeds the bytes given (the decoder is called with exactly that many). *)
Fixpoint acs_deserialize_loop (last : bool) (fuel : nat) (bs : list N) (fills : fset) (prev taken : N)
    : option (option (fset * N)) :=
  match fuel with
  | O => None
  | S fuel' =>
    do x1 <- sdnv_decode64 bs;
    if snd x1 =? 0 then Some None else
    let bs1 := skipn (N.to_nat (snd x1)) bs in
    match bs1 with
    | [] => Some None
    | _ :: _ =>
      let leftEdge := add64 (fst x1) prev in
      do x2 <- sdnv_decode64 bs1;
      if snd x2 =? 0 then Some None else
      let rightEdge := sub64 (add64 leftEdge (fst x2)) 1 in
      let fills' := fst (acs_add_range last fills leftEdge rightEdge) in
      let taken' := taken + snd x1 + snd x2 in
      match skipn (N.to_nat (snd x2)) bs1 with
      | [] => Some (Some (fills', taken'))
      | bs2 => acs_deserialize_loop last fuel' bs2 fills' rightEdge taken'
      end
    end
  end.
Definition acs_deserialize_fills (last : bool) (bs : list N) : option (option (fset * N)) :=
  acs_deserialize_loop last (S (length bs)) bs [] 0 0.

(** Bpv6AdministrativeRecords.cpp:785-815 SerializeBpv6. *)
Definition acs_serialize (status : N) (fills : fset) (buf : list N) : option (N * list N) :=
  match buf with
  | [] => Some (0, [])
  | _ :: rest => do x <- acs_serialize_fills fills 0 rest; Some (1 + fst x, status :: snd x)
  end.
(** Bpv6AdministrativeRecords.cpp:816-818 GetSerializationSize. *)
Definition acs_size (fills : fset) : option N := do x <- acs_fill_size fills 0; Some (1 + x).
(** Bpv6AdministrativeRecords.cpp:820-836 DeserializeBpv6: (status byte, fills, bytes taken). *)
Definition acs_deserialize (last : bool) (bs : list N) : option (option (N * fset * N)) :=
  match bs with
  | [] => Some None
  | st :: rest =>
    do x <- acs_deserialize_fills last rest;
    match x with None => Some None | Some p => Some (Some (st, fst p, 1 + snd p)) end
  end.
