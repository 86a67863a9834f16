(** Model of common/bpcodec/src/codec/Bpv6Fragment.cpp and Bpv6FragmentManager.cpp. *)
From Coq Require Import NArith List Bool.
From Verif Require Import Base M_FragmentSet M_Sdnv.
Import ListNotations.
Open Scope N_scope.

(** bpv6.h Bpv6CanonicalBlock: type code, processing flags, block-type-specific data. Parsing and rendering of blocks is
    not modelled; AppendBlock (Bpv6Fragment.cpp:98-125) re-parses the original bytes and is taken to copy the block. *)
Record block := mkBlock { bk_type : N; bk_flags : N; bk_data : list N }.
(** bpv6.h Bpv6CbhePrimaryBlock: flags, source eid, creation timestamp, fragment offset, total ADU length; the other
    fields are carried along unread as [pr_other]. *)
Record primary := mkPrimary { pr_flags : N; pr_src : N * N; pr_ts : N * N; pr_off : N; pr_total : N; pr_other : list N }.
(** BundleViewV6: primary block and the canonical blocks in order. *)
Record bundle := mkBundle { bv_primary : primary; bv_blocks : list block }.

(** bpv6.h: BPV6_BUNDLEFLAG::ISFRAGMENT, NOFRAGMENT, BPV6_BLOCKFLAG::MUST_BE_REPLICATED_IN_EVERY_FRAGMENT are bits 0, 2
    and 0; BPV6_BLOCK_TYPE_CODE::PAYLOAD is 1. *)
Definition is_fragment (p : primary) : bool := N.testbit (pr_flags p) 0.
Definition no_fragment (p : primary) : bool := N.testbit (pr_flags p) 2.
Definition must_replicate (b : block) : bool := N.testbit (bk_flags b) 0.
Definition is_payload (b : block) : bool := bk_type b =? 1.

(** BundleViewV6.cpp:243-250 GetCanonicalBlocksByType(PAYLOAD). *)
Definition payload_blocks (b : bundle) : list block := filter is_payload (bv_blocks b).

(** Bpv6Fragment.cpp:29-40 CopyPrimaryFragment. *)
Definition copy_primary_fragment (p : primary) (off total : N) : primary :=
  mkPrimary (N.setbit (pr_flags p) 0) (pr_src p) (pr_ts p) off total (pr_other p).
(** Bpv6Fragment.cpp:44-55 CopyPrimaryNoFragment. *)
Definition copy_primary_nofragment (p : primary) : primary :=
  mkPrimary (N.clearbit (pr_flags p) 0) (pr_src p) (pr_ts p) 0 0 (pr_other p).

(** Bpv6Fragment.cpp:61-76 AppendFragmentPayloadBlock: bytes [s, e) of the original payload; None = the range is not
    inside it (the later rendering would read out of bounds). *)
Definition payload_slice (b : block) (s e : N) : option block :=
  if (s <=? e) && (e <=? N.of_nat (length (bk_data b)))
  then Some (mkBlock (bk_type b) (bk_flags b) (firstn (N.to_nat (e - s)) (skipn (N.to_nat s) (bk_data b)))) else None.

(** uint64_t multiplication. *)
Definition mul64 (a b : N) : N := (a * b) mod W64.

(** Bpv6Fragment.cpp:133-135 CalcNumFragments. *)
Definition calc_num_fragments (payloadSize fragmentSize : N) : N :=
  add64 payloadSize (sub64 fragmentSize 1) / fragmentSize.

(** Bpv6Fragment.cpp:186-205: the canonical blocks of one fragment. *)
Fixpoint fragment_blocks (isFirst isLast : bool) (s e : N) (before : bool) (bs : list block) : option (list block) :=
  match bs with
  | [] => Some []
  | b :: r =>
    if is_payload b then
      do pl <- payload_slice b s e;
      do r' <- fragment_blocks isFirst isLast s e false r; Some (pl :: r')
    else
      do r' <- fragment_blocks isFirst isLast s e before r;
      if must_replicate b || (isFirst && before) || (isLast && negb before) then Some (b :: r') else Some r'
  end.

(** Bpv6Fragment.cpp:167-209: the i-th round of the loop. *)
Definition fragment_one (orig : bundle) (base total payloadSize sz num i : N) : option bundle :=
  let s := mul64 i sz in
  let e := N.min (add64 s sz) payloadSize in
  do bs <- fragment_blocks (i =? 0) (i =? sub64 num 1) s e true (bv_blocks orig);
  Some (mkBundle (copy_primary_fragment (bv_primary orig) (add64 base s) total) bs).

Fixpoint map_opt {A B : Type} (f : A -> option B) (l : list A) : option (list B) :=
  match l with
  | [] => Some []
  | x :: r => do y <- f x; do r' <- map_opt f r; Some (y :: r')
  end.

(** Bpv6Fragment.cpp:137-212 Fragment: outer None = undefined behaviour, inner None = returned false. Render (line 208,
    result ignored) is not modelled. *)
Definition fragment (orig : bundle) (sz : N) : option (option (list bundle)) :=
  if sz =? 0 then Some None else
  if no_fragment (bv_primary orig) then Some None else
  match payload_blocks orig with
  | [pl] =>
    let payloadSize := N.of_nat (length (bk_data pl)) in
    if payloadSize <=? sz then Some None else
    let base := if is_fragment (bv_primary orig) then pr_off (bv_primary orig) else 0 in
    let total := if is_fragment (bv_primary orig) then pr_total (bv_primary orig) else payloadSize in
    let num := calc_num_fragments payloadSize sz in
    do fs <- map_opt (fun i => fragment_one orig base total payloadSize sz num (N.of_nat i)) (seq 0 (N.to_nat num));
    Some (Some fs)
  | _ => Some None
  end.

(** memcpy(adu.data() + o, p, s) (Bpv6Fragment.cpp:252); None = not inside the vector. *)
Definition copy_to (o : N) (d adu : list N) : option (list N) :=
  if o + N.of_nat (length d) <=? N.of_nat (length adu)
  then Some (firstn (N.to_nat o) adu ++ d ++ skipn (N.to_nat o + length d) adu) else None.

(** Bpv6Fragment.cpp:226-253: the loop of AssemblePayload. Result: outer None = memcpy outside the vector; inner None =
    returned false. *)
Fixpoint assemble_loop (last : bool) (size : N) (frags : list bundle) (set : fset) (adu : list N)
    : option (option (fset * list N)) :=
  match frags with
  | [] => Some (Some (set, adu))
  | f :: r =>
    match payload_blocks f with
    | [pl] =>
      let o := pr_off (bv_primary f) in
      let s := N.of_nat (length (bk_data pl)) in
      let set' := fst (insert_fragment last set (o, sub64 (add64 o s) 1)) in
      if size <? add64 o s then Some None else
      do adu' <- copy_to o (bk_data pl) adu;
      assemble_loop last size r set' adu'
    | _ => Some None
    end
  end.
(** Bpv6Fragment.cpp:215-262 AssemblePayload. The vector starts zero-filled (std::vector::resize; allocation failure is
    not modelled). count() of a std::set is 1 iff some element is equivalent to the key under operator<. *)
Definition assemble_payload (last : bool) (frags : list bundle) : option (option (list N)) :=
  match frags with
  | [] => Some None
  | f :: _ =>
    let size := pr_total (bv_primary f) in
    do r <- assemble_loop last size frags [] (repeat 0 (N.to_nat size));
    match r with
    | None => Some None
    | Some (set, adu) =>
      if negb (Nat.eqb (length set) 1) || negb (existsb (frag_equiv (0, size)) set) then Some None else Some (Some adu)
    end
  end.

(** Bpv6Fragment.cpp:265-279 GetEndFragments: std::minmax_element gives the first smallest and the last largest. *)
Fixpoint min_offset (m : bundle) (l : list bundle) : bundle :=
  match l with [] => m | f :: r => min_offset (if pr_off (bv_primary f) <? pr_off (bv_primary m) then f else m) r end.
Fixpoint max_offset (m : bundle) (l : list bundle) : bundle :=
  match l with [] => m | f :: r => max_offset (if pr_off (bv_primary f) <? pr_off (bv_primary m) then m else f) r end.

Definition pair_eqb (a b : N * N) : bool := (fst a =? fst b) && (snd a =? snd b).
(** Bpv6Fragment.cpp:282-308 Validate. *)
Definition validate (frags : list bundle) : bool :=
  match frags with
  | [] => false
  | f :: _ => forallb (fun g => pair_eqb (pr_src (bv_primary g)) (pr_src (bv_primary f)) &&
                                pair_eqb (pr_ts (bv_primary g)) (pr_ts (bv_primary f)) && is_fragment (bv_primary g)) frags
  end.

(** Bpv6Fragment.cpp:332-345: blocks of the first fragment up to its payload block, then the whole payload (none if it
    has no payload block). *)
Fixpoint blocks_before (adu : list N) (bs : list block) : list block :=
  match bs with
  | [] => []
  | b :: r => if is_payload b then [mkBlock (bk_type b) (bk_flags b) adu] else b :: blocks_before adu r
  end.
(** Bpv6Fragment.cpp:348-359: blocks of the last fragment after its (first) payload block. *)
Fixpoint blocks_after (bs : list block) : list block :=
  match bs with [] => [] | b :: r => if is_payload b then r else blocks_after r end.

(** Bpv6Fragment.cpp:310-362 Assemble. *)
Definition assemble (last : bool) (frags : list bundle) : option (option bundle) :=
  if negb (validate frags) then Some None else
  match frags with
  | [] => Some None
  | f :: r =>
    do x <- assemble_payload last frags;
    match x with
    | None => Some None
    | Some adu =>
      let fst_ := min_offset f r in
      let lst := max_offset f r in
      Some (Some (mkBundle (copy_primary_nofragment (bv_primary fst_))
                           (blocks_before adu (bv_blocks fst_) ++ blocks_after (bv_blocks lst))))
    end
  end.

(** Bpv6FragmentManager.h: m_idToFrags, keyed by (source eid, creation timestamp); operator< (Bpv6FragmentManager.cpp:
    96-104) is the lexicographic order, so two ids are the same key iff all components are equal. *)
Definition bid := ((N * N) * (N * N))%type.
Definition bid_eqb (a b : bid) : bool := pair_eqb (fst a) (fst b) && pair_eqb (snd a) (snd b).
Definition fmgr := list (bid * (list bundle * fset)).
Definition bundle_id (b : bundle) : bid := (pr_src (bv_primary b), pr_ts (bv_primary b)).
Fixpoint fmgr_get (m : fmgr) (k : bid) : list bundle * fset :=
  match m with [] => ([], []) | (k', v) :: r => if bid_eqb k k' then v else fmgr_get r k end.
Definition fmgr_erase (m : fmgr) (k : bid) : fmgr := filter (fun e => negb (bid_eqb k (fst e))) m.
Definition fmgr_put (m : fmgr) (k : bid) (v : list bundle * fset) : fmgr := (k, v) :: fmgr_erase m k.

(** Bpv6FragmentManager.cpp:40-89 AddFragmentAndGetComplete applied to an already parsed bundle: (manager, return value,
    assembled bundle if isComplete); None = undefined behaviour. *)
Definition fmgr_add (last : bool) (m : fmgr) (b : bundle) : option (fmgr * bool * option bundle) :=
  if negb (is_fragment (bv_primary b)) then Some (m, false, None) else
  let k := bundle_id b in
  let info := fmgr_get m k in
  match payload_blocks b with
  | [pl] =>
    let o := pr_off (bv_primary b) in
    let rng := (o, sub64 (add64 o (N.of_nat (length (bk_data pl)))) 1) in
    let full := (0, sub64 (pr_total (bv_primary b)) 1) in
    let set := fst (insert_fragment last (snd info) rng) in
    let bundles := fst info ++ [b] in
    if negb (contains_entirely last set full) then Some (fmgr_put m k (bundles, set), true, None)
    else
      do x <- assemble last bundles;
      match x with
      | None => Some (fmgr_erase m k, false, None)
      | Some a => Some (fmgr_erase m k, true, Some a)
      end
  | _ => Some (fmgr_put m k info, false, None)
  end.
