(** What is to happen to the security blocks of a received bundle, independently of how it is done. *)
From Coq Require Import PeanoNat NArith List Bool.
From Verif Require Import Base M_Uri M_Policy M_PolicyRx.
Import ListNotations.
Open Scope N_scope.

(** The first block with a number. *)
Definition is_block (bs : list block) (n : N) (i : nat) (b : block) : Prop :=
  nth_error bs i = Some b /\ k_number b = n /\ forall j c, (j < i)%nat -> nth_error bs j = Some c -> k_number c <> n.
Definition no_block (bs : list block) (n : N) : Prop := forall b, In b bs -> k_number b <> n.
(** A block of this type may be a target; types above 63 always may. *)
Definition expected_type (ts : list N) (t : N) : Prop := t <= 63 -> In t ts.

(** The error, if any, for target number t with index j of a BCB. *)
Definition bcb_error (bs : list block) (ts : list N) (verify : bool) (o : nat -> opened) (j : nat) (t : N) (r : option code) : Prop :=
  (no_block bs t /\ r = Some Corrupted) \/
  (exists i b, is_block bs t i b /\
    ((~ expected_type ts (k_type b) /\ r = Some Misconfigured) \/
     (expected_type ts (k_type b) /\ r = match o j with Failed => Some Corrupted | Unreadable _ => if verify then None else Some Corrupted | Readable _ => None end))).
(** The same for a BIB; 0 is the primary block. *)
Definition bib_error (bs : list block) (ts : list N) (o : nat -> bool) (j : nat) (t : N) (r : option code) : Prop :=
  (t = 0 /\ ~ In 0 ts /\ r = Some Misconfigured) \/
  (t = 0 /\ In 0 ts /\ r = (if o j then None else Some Corrupted)) \/
  (t <> 0 /\ no_block bs t /\ r = Some Corrupted) \/
  (t <> 0 /\ exists i b, is_block bs t i b /\
    (((k_encrypted b = true \/ ~ expected_type ts (k_type b)) /\ r = Some Misconfigured) \/
     (k_encrypted b = false /\ expected_type ts (k_type b) /\ r = if o j then None else Some Corrupted))).
(** The errors are those of the targets, the last target first. *)
Definition errors_of (P : nat -> N -> option code -> Prop) (ts : list N) (es : list err) : Prop :=
  exists rs, length rs = length ts /\ (forall j t r, nth_error ts j = Some t -> nth_error rs j = Some r -> P j t r) /\
    es = rev (flat_map (fun jr : nat * option code => match snd jr with Some c => [(Some (fst jr), c)] | None => [] end) (combine (seq 0 (length rs)) rs)).
(** Every type that the policy names is the type of a target (for a BIB, 0 is the primary block). *)
Definition target_type (integrity : bool) (bs : list block) (n t : N) : Prop :=
  ((integrity = false \/ n <> 0) /\ exists i b, is_block bs n i b /\ k_type b = t) \/ (integrity = true /\ n = 0 /\ t = 0).
Definition all_types (integrity : bool) (bs : list block) (targets ts : list N) : Prop := forall t, In t ts -> exists n, In n targets /\ target_type integrity bs n t.

(** What a policy demands after an error: None: the bundle is dropped; otherwise whether the operation is removed and whether the target
    block is. [payload]: the error is about the payload or all targets. *)
Definition reaction (acceptor integrity payload : bool) (ev : option N) : option (bool * bool) :=
  match ev with
  | None => None
  | Some mask =>
    if acceptor && negb integrity && payload then None
    else if N.testbit mask 3 then None
    else if N.testbit mask 1 && payload then None
    else Some (acceptor || N.testbit mask 0, acceptor && negb integrity || N.testbit mask 1)
  end.
Definition about_payload (ts : list N) (e : err) : bool :=
  match fst e with None => true | Some j => match nth_error ts j with Some t => (t =? 1) || (t =? U64MAX) | None => false end end.
(** The event of an error. *)
Definition demanded (l : lut) (acceptor : bool) (c : code) : option N :=
  if acceptor then match c with Corrupted => e_corrupted_acceptor l | Misconfigured => e_misconfigured_acceptor l end
  else match c with Corrupted => e_corrupted_verifier l | Misconfigured => e_misconfigured_verifier l end.
Definition react (l : lut) (acceptor integrity : bool) (ts : list N) (e : err) : option (bool * bool) :=
  reaction acceptor integrity (about_payload ts e) (demanded l acceptor (snd e)).

(** The list without the elements at some indices. *)
Fixpoint without {A} (rm : nat -> bool) (j : nat) (l : list A) : list A :=
  match l with [] => [] | x :: r => if rm j then without rm (S j) r else x :: without rm (S j) r end.
(** Errors as they are reported: one for all targets, or for different targets, the last first. *)
Definition reported (n : nat) (es : list err) : Prop :=
  (exists c, es = [(None, c)]) \/
  (forall e, In e es -> exists j, fst e = Some j /\ (j < n)%nat) /\
  (forall i k a b, (i < k)%nat -> nth_error es i = Some (Some a, b) -> forall c d, nth_error es k = Some (Some c, d) -> (c < a)%nat).
(** The operations and target blocks that are removed because of errors. *)
Definition op_removed (l : lut) (acceptor integrity : bool) (ts : list N) (es : list err) (j : nat) : bool :=
  existsb (fun e => match fst e, react l acceptor integrity ts e with Some k, Some (true, _) => (k =? j)%nat | _, _ => false end) es.
Definition target_removed (l : lut) (acceptor integrity : bool) (ts : list N) (es : list err) (n : N) : Prop :=
  exists j c x, In (Some j, c) es /\ nth_error ts j = Some n /\ react l acceptor integrity ts (Some j, c) = Some (x, true).
Definition all_removed (l : lut) (acceptor integrity : bool) (ts : list N) (es : list err) : Prop :=
  exists c x, In (None, c) es /\ react l acceptor integrity ts (None, c) = Some (true, x).

(** What is reported about a security block: P is about the targets (bcb_error or bib_error), ts the types that the policy names. *)
Definition well_formed (a : asb) : Prop := tags a = length (a_targets a) /\ a_targets a <> [].
Definition reports (integrity : bool) (P : nat -> N -> option code -> Prop) (ts : list N) (pre : option code) (a : asb) (bs : list block) (es : list err) : Prop :=
  match pre with
  | Some c => es = [(None, c)]
  | None => (~ well_formed a /\ es = [(None, Corrupted)]) \/
      (well_formed a /\ exists es', errors_of P (a_targets a) es' /\
         ((es' <> [] /\ es = es') \/ (es' = [] /\ all_types integrity bs (a_targets a) ts /\ es = []) \/ (es' = [] /\ ~ all_types integrity bs (a_targets a) ts /\ es = [(None, Misconfigured)])))
  end.

(** The block c at position i is decrypted by one of these targets, whose first has index j. *)
Definition opens (ts : list N) (o : nat -> opened) (verify : bool) (j : nat) (targets : list N) (bs : list block) (i : nat) (c : block) : Prop :=
  verify = false /\ exists k t, nth_error targets k = Some t /\ is_block bs t i c /\ expected_type ts (k_type c) /\ o (j + k)%nat <> Failed.

(** These errors make the bundle be dropped. An operation cannot be removed from a block with too many or too few results. *)
Definition dropped_by l acc int (a : asb) (es : list err) : Prop :=
  (exists e, In e es /\ react l acc int (a_targets a) e = None) \/
  (length (a_targets a) <> length (a_results a) /\ exists j c x, In (Some j, c) es /\ react l acc int (a_targets a) (Some j, c) = Some (true, x)).
(** What the bundle is like after the errors of the security block at pos, which said a, if it is not dropped. *)
Definition after l acc int pos (a : asb) es bs bs' : Prop :=
  length bs' = length bs /\
  forall i c, nth_error bs i = Some c -> exists c', nth_error bs' i = Some c' /\ k_type c' = k_type c /\ k_number c' = k_number c /\ k_encrypted c' = k_encrypted c /\
    (i <> pos -> k_asb c' = k_asb c) /\
    (i = pos -> k_asb c' = mkAsb (a_source a) (without (op_removed l acc int (a_targets a) es) 0 (a_targets a)) (without (op_removed l acc int (a_targets a) es) 0 (a_results a))) /\
    (k_deleted c' = true <-> k_deleted c = true \/ (exists n, target_removed l acc int (a_targets a) es n /\ is_block bs n i c) \/
       (i = pos /\ (all_removed l acc int (a_targets a) es \/ (a_targets a <> [] /\ without (op_removed l acc int (a_targets a) es) 0 (a_targets a) = [])))).

(** What a policy says about a service, and what a node has to do with a security block. *)
Definition service (integrity : bool) (p : policy) : option settings := if integrity then p_int p else p_conf p.
Inductive duty := Nothing | Missing | Check (acceptor : bool) (st : settings).
Definition has_duty (g : config) (final : bool) (ss src dst : N * N) (integrity : bool) (d : duty) : Prop :=
  match d with
  | Missing => find_policy (g_filters g) ss src dst Acceptor = None /\ final = true
  | Check true st => exists p, find_policy (g_filters g) ss src dst Acceptor = Some p /\ service integrity p = Some st
  | Check false st => find_policy (g_filters g) ss src dst Acceptor = None /\ final = false /\
      exists p, find_policy (g_filters g) ss src dst Verifier = Some p /\ service integrity p = Some st
  | Nothing => (exists p, find_policy (g_filters g) ss src dst Acceptor = Some p /\ service integrity p = None) \/
      (find_policy (g_filters g) ss src dst Acceptor = None /\ final = false /\
       (find_policy (g_filters g) ss src dst Verifier = None \/ exists p, find_policy (g_filters g) ss src dst Verifier = Some p /\ service integrity p = None))
  end.
(** The block types that a policy names as targets are all right. *)
Definition types_ok (integrity : bool) (st : settings) : Prop := forall t, In t (s_targets st) -> t <= 63 /\ (integrity = false -> t <> 12).
(** All policies are all right. *)
Definition sane (g : config) : Prop := forall ss bs bd ro p i st, find_policy (g_filters g) ss bs bd ro = Some p -> service i p = Some st -> types_ok i st.
(** What decrypting the targets of a BCB does to the blocks. *)
Definition decrypted (ts : list N) (o : nat -> opened) (verify : bool) (targets : list N) (bs bs' : list block) : Prop :=
  length bs' = length bs /\
  forall i c, nth_error bs i = Some c -> exists c', nth_error bs' i = Some c' /\ k_type c' = k_type c /\ k_number c' = k_number c /\ k_deleted c' = k_deleted c /\
    (k_encrypted c' = true <-> k_encrypted c = true /\ ~ opens ts o verify 0 targets bs i c) /\
    (~ opens ts o verify 0 targets bs i c -> k_asb c' = k_asb c) /\
    (forall k t a, verify = false -> nth_error targets k = Some t -> is_block bs t i c -> expected_type ts (k_type c) -> (o k = Readable a \/ o k = Unreadable a) ->
       (forall k', (k < k')%nat -> nth_error targets k' <> Some t) -> k_asb c' = a).
