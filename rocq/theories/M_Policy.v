(** Model of the security policies of BPSec: how they are loaded and looked up (common/bpsec/src/BpSecPolicyManager.cpp:48-243, 981-1221,
    common/bpsec/include/BpSecPolicyManager.h:38-105). *)
From Coq Require Import NArith List Bool.
From Verif Require Import Base M_Uri.
Import ListNotations.
Open Scope N_scope.

(** BpSecPolicyManager.h:38-43. *)
Inductive role := Source | Verifier | Acceptor.
Definition role_eqb (a b : role) : bool := match a, b with Source, Source | Verifier, Verifier | Acceptor, Acceptor => true | _, _ => false end.

(** What a policy says about one service (BpSecPolicyManager.h:55-72): the block types that are its targets (a FragmentSet of single
    numbers, here the numbers), and a number that stands for everything else that is copied from the rule (variant, scope, CRC, keys, failure
    events). *)
Record settings := mkSet { s_targets : list N; s_other : N }.
(** BpSecPolicy: m_doIntegrity with the integrity variables, m_doConfidentiality with the confidentiality variables, and the two fields that
    ValidateAndFinalize sets. *)
Record policy := mkPol { p_int : option settings; p_conf : option settings; p_bcb_payload : bool; p_bib_encrypted : bool }.
(** BpSecPolicyManager.cpp:25-47. *)
Definition new_policy : policy := mkPol None None false false.

(** BpSecPolicyManager.h:76-84: a filter: the maps by endpoint and by node and the pointer for any endpoint. The members of the third
    filter's children (m_policiesByRoleArray) are a type of their own here; the maps are lists of pairs without order. *)
Record level (X : Type) := Lv { l_eid : list ((N * N) * X); l_node : list (N * X); l_any : option X }.
Arguments Lv {X}. Arguments l_eid {X}. Arguments l_node {X}. Arguments l_any {X}.
Record leaf := Leaf { lf_source : option policy; lf_verifier : option policy; lf_acceptor : option policy }.
Definition filters : Type := level (level (level leaf)).
Definition no_level {X} : level X := Lv [] [] None.
Definition no_leaf : leaf := Leaf None None None.
Definition slot (r : role) (l : leaf) : option policy := match r with Source => lf_source l | Verifier => lf_verifier l | Acceptor => lf_acceptor l end.
Definition set_slot (r : role) (p : policy) (l : leaf) : leaf :=
  match r with Source => Leaf (Some p) (lf_verifier l) (lf_acceptor l) | Verifier => Leaf (lf_source l) (Some p) (lf_acceptor l) | Acceptor => Leaf (lf_source l) (lf_verifier l) (Some p) end.

(** std::map find and insertion. *)
Definition eid_eqb (a b : N * N) : bool := (fst a =? fst b) && (snd a =? snd b).
Fixpoint find_key {K X} (eqb : K -> K -> bool) (k : K) (m : list (K * X)) : option X :=
  match m with [] => None | (a, x) :: r => if eqb k a then Some x else find_key eqb k r end.
Fixpoint set_key {K X} (eqb : K -> K -> bool) (k : K) (x : X) (m : list (K * X)) : list (K * X) :=
  match m with [] => [(k, x)] | (a, y) :: r => if eqb k a then (a, x) :: r else (a, y) :: set_key eqb k x r end.

(** BpSecPolicyManager.cpp:99-124, what the text of a rule stands for: "ipn:*.*" is any endpoint, otherwise the text is parsed (C36). *)
Inductive pattern := PAny | PNode (n : N) | PEid (e : N * N).
Fixpoint text_eqb (a b : list N) : bool := match a, b with [], [] => true | x :: a, y :: b => (x =? y) && text_eqb a b | _, _ => false end.
Definition any_text : list N := [105; 112; 110; 58; 42; 46; 42].
Definition parse_pattern (uri : list N) : option pattern :=
  if text_eqb uri any_text then Some PAny
  else match parse_uri_string true uri with Some (n, AnySvc) => Some (PNode n) | Some (n, Svc s) => Some (PEid (n, s)) | None => None end.

(** BpSecPolicyManager.cpp:99-124, Internal_AddPolicyFilterToThisFilter: the child for a pattern, made if it is not there. *)
Definition child {X} (none : X) (p : pattern) (l : level X) : X :=
  match p with
  | PAny => match l_any l with Some x => x | None => none end
  | PNode n => match find_key N.eqb n (l_node l) with Some x => x | None => none end
  | PEid e => match find_key eid_eqb e (l_eid l) with Some x => x | None => none end
  end.
Definition set_child {X} (p : pattern) (x : X) (l : level X) : level X :=
  match p with
  | PAny => Lv (l_eid l) (l_node l) (Some x)
  | PNode n => Lv (l_eid l) (set_key N.eqb n x (l_node l)) (l_any l)
  | PEid e => Lv (set_key eid_eqb e x (l_eid l)) (l_node l) (l_any l)
  end.

(** A rule of the configuration (common/config/include/BpSecConfig.h:167, policy_rules_t). r_valid: the names of role and service, the parameters
    and the keys are all right (BpSecPolicyManager.cpp:985-1012, 1023-1135, 1143-1162). *)
Record rule := mkRule { r_valid : bool; r_role : role; r_conf : bool; r_security_source : list N; r_sources : list (list N); r_dests : list (list N); r_settings : settings }.

(** BpSecPolicyManager.cpp:48-85, ValidateAndFinalize: the two fields it sets, or None if it says the policy is wrong. *)
Definition has (t : N) (l : list N) : bool := existsb (N.eqb t) l.
Definition validate (do_int do_conf : bool) (int_targets conf_targets : list N) : option (bool * bool) :=
  let payload := do_conf && has 1 conf_targets in
  if do_int && do_conf then
    let must := existsb (fun t => has t conf_targets) int_targets in
    if must && negb (has 11 conf_targets) then None else Some (payload, must)
  else Some (payload, false).

(** BpSecPolicyManager.cpp:1015-1022 and 1137-1142: the policy that is validated is the local policyToCopy, of which only the settings of the rule
    are filled in; its m_doIntegrity and m_doConfidentiality are those of its constructor. Only security sources are validated; other rules
    leave the constructor's false in the two fields. *)
Definition validate_rule (r : rule) : option (bool * bool) :=
  match r_role r with
  | Source => validate false false (if r_conf r then [] else s_targets (r_settings r)) (if r_conf r then s_targets (r_settings r) else [])
  | _ => Some (false, false)
  end.

(** 1180-1216: the rule's settings are copied into a policy, unless it already has some for the service; the two fields are overwritten. *)
Definition into_policy (r : rule) (flags : bool * bool) (p : policy) : option policy :=
  if r_conf r then match p_conf p with Some _ => None | None => Some (mkPol (p_int p) (Some (r_settings r)) (fst flags) (snd flags)) end
  else match p_int p with Some _ => None | None => Some (mkPol (Some (r_settings r)) (p_conf p) (fst flags) (snd flags)) end.

(** 125-154 CreateOrGetNewPolicy with 1170-1216: one bundle source and one destination of a rule. None: loading fails; what has been
    loaded until then is not modelled. *)
Definition add_one (r : rule) (flags : bool * bool) (f : filters) (sd : list N * list N) : option filters :=
  match parse_pattern (r_security_source r), parse_pattern (fst sd), parse_pattern (snd sd) with
  | Some p1, Some p2, Some p3 =>
    let f1 := child no_level p1 f in let f2 := child no_level p2 f1 in let lf := child no_leaf p3 f2 in
    match into_policy r flags (match slot (r_role r) lf with Some p => p | None => new_policy end) with
    | Some p => Some (set_child p1 (set_child p2 (set_child p3 (set_slot (r_role r) p lf) f2) f1) f)
    | None => None
    end
  | _, _, _ => None
  end.
Fixpoint add_all (r : rule) (flags : bool * bool) (f : filters) (sds : list (list N * list N)) : option filters :=
  match sds with [] => Some f | sd :: rest => match add_one r flags f sd with Some f1 => add_all r flags f1 rest | None => None end end.
(** 981-1221, LoadFromConfig into a new manager: for every rule, for every bundle source, for every destination (both std::set, so without
    repetitions; the order is arbitrary here). *)
Fixpoint load_rules (f : filters) (rules : list rule) : option filters :=
  match rules with
  | [] => Some f
  | r :: rest =>
    if r_valid r then
      match validate_rule r with
      | Some flags => match add_all r flags f (list_prod (r_sources r) (r_dests r)) with Some f1 => load_rules f1 rest | None => None end
      | None => None
      end
    else None
  end.
Definition load (rules : list rule) : option filters := load_rules no_level rules.

(** 179-195, Internal_GetPolicyFilterFromThisFilter. *)
Definition next {X} (e : N * N) (l : level X) : option X :=
  match find_key eid_eqb e (l_eid l) with
  | Some x => Some x
  | None => match find_key N.eqb (fst e) (l_node l) with Some x => Some x | None => l_any l end
  end.
(** 196-216, FindPolicy. The role is one of the three. *)
Definition find_policy (f : filters) (ss bs bd : N * N) (r : role) : option policy :=
  match next ss f with
  | None => None
  | Some f1 => match next bs f1 with
    | None => None
    | Some f2 => match next bd f2 with None => None | Some lf => slot r lf end
    end
  end.

(** 87-93 and 218-243, PolicySearchCache and FindPolicyWithCacheSupport. The role of an unused cache is RESERVED_MAX_ROLE_TYPES: None. *)
Record cache := mkCache { c_ss : N * N; c_bs : N * N; c_bd : N * N; c_role : option role; c_hit : bool; c_found : option policy }.
Definition new_cache : cache := mkCache (0, 0) (0, 0) (0, 0) None false None.
Definition find_cached (f : filters) (ss bs bd : N * N) (r : role) (c : cache) : option policy * cache :=
  if match c_role c with Some q => role_eqb r q | None => false end && eid_eqb ss (c_ss c) && eid_eqb bs (c_bs c) && eid_eqb bd (c_bd c) then
    match c_found c with
    | Some p => (Some p, mkCache (c_ss c) (c_bs c) (c_bd c) (c_role c) true (c_found c))
    | None => (None, mkCache (c_ss c) (c_bs c) (c_bd c) (c_role c) false (c_found c))
    end
  else let p := find_policy f ss bs bd r in (p, mkCache ss bs bd (Some r) false p).
Fixpoint lookups (f : filters) (c : cache) (qs : list ((N * N) * (N * N) * (N * N) * role)) : list (option policy * bool) :=
  match qs with
  | [] => []
  | (ss, bs, bd, r) :: rest => let (p, c1) := find_cached f ss bs bd r c in (p, c_hit c1) :: lookups f c1 rest
  end.
