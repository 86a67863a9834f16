(** What the policy rules of a configuration say, independently of how they are stored. *)
From Coq Require Import NArith List Bool.
From Verif Require Import Base M_Uri S_Uri M_Policy.
Import ListNotations.
Open Scope N_scope.

(** The endpoint texts of a rule: ipn:*.*, ipn:<number>.*, ipn:<number>.<number>. *)
Definition denotes (uri : list N) (p : pattern) : Prop :=
  match p with
  | PAny => uri = [105; 112; 110; 58; 42; 46; 42]
  | PNode n => exists a, number_text n a /\ uri = ipn_colon ++ a ++ [46; 42]
  | PEid (n, s) => exists a b, number_text n a /\ number_text s b /\ uri = ipn_colon ++ a ++ [46] ++ b
  end.
Definition covers (p : pattern) (e : N * N) : Prop := match p with PAny => True | PNode n => n = fst e | PEid x => x = e end.
Definition rank (p : pattern) : nat := match p with PAny => 0 | PNode _ => 1 | PEid _ => 2 end.

(** The rules say that bundles with these patterns are subject to this service in this role, with these settings. *)
Definition says (rules : list rule) (p1 p2 p3 : pattern) (ro : role) (conf : bool) (st : settings) : Prop :=
  exists r src dst, In r rules /\ In src (r_sources r) /\ In dst (r_dests r) /\
    denotes (r_security_source r) p1 /\ denotes src p2 /\ denotes dst p3 /\ r_role r = ro /\ r_conf r = conf /\ r_settings r = st.
Definition mentions (rules : list rule) (p1 p2 p3 : pattern) : Prop := exists ro conf st, says rules p1 p2 p3 ro conf st.

(** The most specific pattern, of those with property P, that an endpoint fits. *)
Definition best (P : pattern -> Prop) (e : N * N) (p : pattern) : Prop := P p /\ covers p e /\ forall q, P q -> covers q e -> (rank q <= rank p)%nat.
(** Field after field: security source, bundle source, destination, whatever the role. *)
Definition chosen (rules : list rule) (ss bs bd : N * N) (p1 p2 p3 : pattern) : Prop :=
  best (fun p => exists q r, mentions rules p q r) ss p1 /\ best (fun p => exists r, mentions rules p1 p r) bs p2 /\ best (mentions rules p1 p2) bd p3.

(** One source and one destination of a rule, in the order of the configuration. *)
Definition singles (rules : list rule) : list (rule * (list N * list N)) := flat_map (fun r => map (pair r) (list_prod (r_sources r) (r_dests r))) rules.
(** Two of them conflict if they are about the same bundles, role and service. *)
Definition conflict (x y : rule * (list N * list N)) : Prop :=
  r_role (fst x) = r_role (fst y) /\ r_conf (fst x) = r_conf (fst y) /\
  (exists p, denotes (r_security_source (fst x)) p /\ denotes (r_security_source (fst y)) p) /\
  (exists p, denotes (fst (snd x)) p /\ denotes (fst (snd y)) p) /\ (exists p, denotes (snd (snd x)) p /\ denotes (snd (snd y)) p).
Definition readable (x : rule * (list N * list N)) : Prop :=
  (exists p, denotes (r_security_source (fst x)) p) /\ (exists p, denotes (fst (snd x)) p) /\ (exists p, denotes (snd (snd x)) p).

(** What ValidateAndFinalize is there to ensure for the policies of a security source (BpSecPolicyManager.cpp:66-82, after RFC 9172, 3.9):
    integrity blocks that share a target with a confidentiality block are encrypted too. *)
Definition bib_is_encrypted (p : policy) : Prop :=
  match p_int p, p_conf p with Some i, Some c => (exists t, In t (s_targets i) /\ In t (s_targets c)) -> In 11 (s_targets c) | _, _ => True end.
