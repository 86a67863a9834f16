(** Model of common/ltp/src/LtpFragmentSet.cpp. *)
From Coq Require Import NArith List Bool.
From Verif Require Import Base M_FragmentSet.
Import ListNotations.
Open Scope N_scope.

(** Ltp.h reception_claim_t {offset, length}; report_segment_t: serial numbers omitted here (they are not read
    or written by LtpFragmentSet.cpp). *)
Definition claim := (N * N)%type.
Record report := mkReport { rs_lower : N; rs_upper : N; rs_claims : list claim }.

(** LtpFragmentSet.cpp:51-77 the claim loop of PopulateReportSegment, with its break and its uint64_t
    subtractions. *)
Fixpoint claim_loop (lower upper : N) (s : fset) : list claim :=
  match s with
  | [] => []
  | (b, e) :: r =>
    let bi := N.max b lower in
    if upper <=? bi then []                                            (* 55-57 break *)
    else
      let offset := sub64 bi lower in
      let len1 := sub64 (add64 e 1) bi in                              (* 61 *)
      let len2 := N.min len1 (sub64 upper lower) in                    (* 64 *)
      let len3 := N.min len2 (sub64 upper bi) in                       (* 72 *)
      if len3 =? 0 then claim_loop lower upper r                       (* 74 *)
      else (offset, len3) :: claim_loop lower upper r
  end.

(** LtpFragmentSet.cpp:19-79 PopulateReportSegment; None = returns false. UINT64_MAX requests auto-detection. *)
Definition populate (s : fset) (lower0 upper0 : N) : option report :=
  match s with
  | [] => None
  | first :: _ =>
    let auto := lower0 =? U64MAX in
    let lower := if auto then fst first else lower0 in
    let start := if auto then s else snd (lower_bound (lower0, lower0) s) in
    let upper := if upper0 =? U64MAX then add64 (snd (last s first)) 1 else upper0 in
    if upper <=? lower then None
    else Some (mkReport lower upper (claim_loop lower upper start))
  end.

(** LtpFragmentSet.cpp:111-115 the inner for loop of SplitReportSegment: takes claims while i < m.
    Returns the claims of this report, the next lower bound, the remaining claims. *)
Fixpoint split_take (m i delta orig nl : N) (cs : list claim) : list claim * N * list claim :=
  match cs with
  | [] => ([], nl, [])
  | (off, len) :: r =>
    if i <? m then
      let '(t, nl', rest) := split_take m (i + 1) delta orig (add64 (add64 orig off) len) r in
      ((sub64 off delta, len) :: t, nl', rest)
    else ([], nl, cs)
  end.

(** LtpFragmentSet.cpp:105-116 the outer while loop; [fuel] counts its rounds (None: did not terminate). *)
Fixpoint split_loop (fuel : nat) (m orig nl : N) (cs : list claim) : option (list report) :=
  match cs with
  | [] => Some []
  | _ :: _ =>
    match fuel with
    | O => None
    | S f =>
      let '(t, nl', rest) := split_take m 0 (sub64 nl orig) orig nl cs in
      match split_loop f m orig nl' rest with
      | Some rss => Some (mkReport nl nl' t :: rss)
      | None => None
      end
    end
  end.

(** LtpFragmentSet.cpp:117 reportSegmentsVec.back().upperBound = original upper bound. *)
Fixpoint set_last_upper (u : N) (rss : list report) : list report :=
  match rss with
  | [] => []
  | [r] => [mkReport (rs_lower r) u (rs_claims r)]
  | r :: rs => r :: set_last_upper u rs
  end.

Inductive split_result := SplitFalse | SplitUB | SplitLoop | SplitOk (rss : list report).

(** LtpFragmentSet.cpp:81-119 SplitReportSegment. With no claims, back() on an empty vector is undefined. *)
Definition split_report (r : report) (m : N) : split_result :=
  if m =? 0 then SplitFalse
  else match split_loop (length (rs_claims r)) m (rs_lower r) (rs_lower r) (rs_claims r) with
       | None => SplitLoop
       | Some [] => SplitUB
       | Some rss => SplitOk (set_last_upper (rs_upper r) rss)
       end.

(** LtpFragmentSet.cpp:121-129 AddReportSegmentToFragmentSet: (set, return value). *)
Definition add_report (lst : bool) (fs : fset) (r : report) : fset * bool :=
  fold_left (fun acc c =>
      let begin := add64 (rs_lower r) (fst c) in
      let '(fs', m) := insert_fragment lst (fst acc) (begin, sub64 (add64 begin (snd c)) 1) in
      (fs', snd acc || m)) (rs_claims r) (fs, false).

(** LtpFragmentSet.cpp:144-152 the gaps between consecutive claims. *)
Fixpoint gap_loop (lst : bool) (lower : N) (prev : claim) (cs : list claim) (acc : fset * bool) : claim * (fset * bool) :=
  match cs with
  | [] => (prev, acc)
  | c :: r =>
    let begin := add64 (add64 lower (fst prev)) (snd prev) in
    let endi := sub64 (add64 lower (fst c)) 1 in
    let '(fs', m) := insert_fragment lst (fst acc) (begin, endi) in
    gap_loop lst lower c r (fs', snd acc || m)
  end.

(** LtpFragmentSet.cpp:131-158 AddReportSegmentToFragmentSetNeedingResent. *)
Definition add_report_needing_resent (lst : bool) (fs : fset) (r : report) : fset * bool :=
  match rs_claims r with
  | [] => (fs, false)
  | c0 :: cs =>
    let lower := rs_lower r in
    let acc0 := if 0 <? fst c0 then insert_fragment lst fs (lower, sub64 (add64 lower (fst c0)) 1) else (fs, false) in
    let '(lastc, acc1) := gap_loop lst lower c0 cs acc0 in
    let begin := add64 (add64 lower (fst lastc)) (snd lastc) in
    if begin <? rs_upper r
    then let '(fs', m) := insert_fragment lst (fst acc1) (begin, sub64 (rs_upper r) 1) in (fs', snd acc1 || m)
    else acc1
  end.

(** LtpFragmentSet.cpp:160-178 ReduceReportSegments. The map rsBoundsToRsnMap (keyed by inclusive bounds, ordered
    by (begin, end)) is the list of its entries in iteration order. *)
Fixpoint reduce_loop (lst : bool) (pending : list (frag * N)) (sent : fset) : list (N * fset) :=
  match pending with
  | [] => []
  | (bounds, rsn) :: r =>
    let bm := bounds_minus lst bounds sent in
    let sent' := fst (insert_fragment lst sent bounds) in
    match bm with
    | [] => reduce_loop lst r sent'
    | _ :: _ => (rsn, bm) :: reduce_loop lst r sent'
    end
  end.
Definition reduce_reports (lst : bool) (pending : list (frag * N)) (acked : fset) : list (N * fset) :=
  reduce_loop lst pending acked.
