(** Specification vocabulary for C32: what a fragment of an application data unit is (RFC 5050 section 5.8). *)
From Coq Require Import NArith List Bool Permutation.
From Verif Require Import Base M_Bpv6Frag.
Import ListNotations.
Open Scope N_scope.

(** The bytes [from, from+n) of l. *)
Definition piece (l : list N) (from n : N) : list N := firstn (N.to_nat n) (skipn (N.to_nat from) l).

(** The bundle has exactly one payload block, and this is its data. *)
Definition payload_is (b : bundle) (d : list N) : Prop := exists pl, payload_blocks b = [pl] /\ bk_data pl = d.

(** f is a fragment, of at least one byte, of the application data unit adu. *)
Definition fragment_of (adu : list N) (f : bundle) : Prop :=
  exists d, payload_is f d /\ d <> [] /\ pr_off (bv_primary f) + N.of_nat (length d) <= N.of_nat (length adu) /\
    d = piece adu (pr_off (bv_primary f)) (N.of_nat (length d)) /\ pr_total (bv_primary f) = N.of_nat (length adu).
(** Byte i of the application data unit is in one of the fragments. *)
Definition has_byte (f : bundle) (i : N) : Prop :=
  exists d, payload_is f d /\ pr_off (bv_primary f) <= i < pr_off (bv_primary f) + N.of_nat (length d).
Definition complete (adu : list N) (fs : list bundle) : Prop :=
  forall i, i < N.of_nat (length adu) -> exists f, In f fs /\ has_byte f i.
(** They all belong to the same bundle and are marked as fragments. *)
Definition same_bundle (fs : list bundle) : Prop :=
  forall f g, In f fs -> In g fs -> bundle_id f = bundle_id g /\ N.testbit (pr_flags (bv_primary f)) 0 = true.

(** Fields of the primary block that fragmentation never changes. *)
Definition same_other_fields (p q : primary) : Prop :=
  pr_src p = pr_src q /\ pr_ts p = pr_ts q /\ pr_other p = pr_other q /\
  forall i, 0 < i -> N.testbit (pr_flags p) i = N.testbit (pr_flags q) i.

(** What the manager should hold for a bundle id after a history of arrivals: the fragments of that id since the last
    completion (most recent last). [done] tells which arrivals completed. *)
Fixpoint pending (k : bid) (hist : list (bundle * bool)) : list bundle :=
  match hist with
  | [] => []
  | (f, true) :: r => if bid_eqb k (bundle_id f) then [] else pending k r
  | (f, false) :: r => if bid_eqb k (bundle_id f) then pending k r ++ [f] else pending k r
  end.

(** Histories of the fragment manager, newest arrival first, with whether it completed a bundle. *)
Inductive history (last : bool) : fmgr -> list (bundle * bool) -> Prop :=
| HistNil : history last [] []
| HistStep m h f m' ret out : history last m h -> fmgr_add last m f = Some (m', ret, out) ->
    history last m' ((f, match out with Some _ => true | None => false end) :: h).
