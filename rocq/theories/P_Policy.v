(** C58: the security policies of BPSec, how they are loaded and found. *)
From Coq Require Import PeanoNat NArith List Bool Lia.
From Verif Require Import Base M_Uri S_Uri L_Uri P_Uri M_Policy S_Policy L_Policy.
Import ListNotations.
Open Scope N_scope.

Lemma load_state rules f : load rules = Some f -> exists is, Forall2 reads (singles rules) is /\ holds is f /\ fresh [] is.
Proof. intros L. apply load_seq in L. destruct L as (_ & L). destruct (add_seq_ok (singles rules) [] no_level holds_nil) as (A & _). exact (A f L). Qed.

(** A configuration is loaded exactly if its rules are valid, all endpoint texts can be read and no two entries are about the same bundles,
    role and service. *)
Theorem C58_loading_is_exact : forall rules, (exists f, load rules = Some f) <->
  Forall (fun r => r_valid r = true) rules /\ Forall readable (singles rules) /\ (forall a x b y c, singles rules = a ++ x :: b ++ y :: c -> ~ conflict x y).
Proof.
  intros rules. unfold load. destruct (add_seq_ok (singles rules) [] no_level holds_nil) as (A & B). split.
  - intros (f & L). apply load_seq in L. destruct L as (V & L). destruct (A f L) as (is & F2 & _ & FR). split; [exact V|].
    split; [|exact (proj2 (proj1 (fresh_conflict is [] (singles rules) [] (Forall2_nil _) F2) FR))].
    apply Forall_forall. intros x X. destruct (Forall2_in_l _ _ _ _ F2 X) as (i & _ & (A1 & A2 & A3 & _)). split; [exists (i1 i); exact A1|]. split; [exists (i2 i); exact A2|exists (i3 i); exact A3].
  - intros (V & RD & NC). destruct (add_seq no_level (singles rules)) as [f|] eqn:E; [exists f; apply load_seq; auto|]. exfalso. apply (B eq_refl).
    assert (exists is, Forall2 reads (singles rules) is) as (is & F2).
    { clear - RD. induction RD as [|x xs ((p1 & P1) & (p2 & P2) & (p3 & P3)) _ (is & IH)]; [exists []; constructor|].
      exists (mkI p1 p2 p3 (r_role (fst x)) (r_conf (fst x)) (r_settings (fst x)) :: is). constructor; [unfold reads; cbn; auto 7|exact IH]. }
    exists is. split; [exact F2|]. apply (proj2 (fresh_conflict is [] (singles rules) [] (Forall2_nil _) F2)). split; [intros x y []|exact NC].
Qed.
Print Assumptions C58_loading_is_exact.
(** "ipn:1.1" and so on. *)
Definition u11 : list N := uri_string 1 1.
Definition u1x : list N := uri_any_service 1.
Definition u55 : list N := uri_string 5 5.
Definition uany : list N := any_text.
(** Encrypt what node 1 sends to ipn:5.5, sign what ipn:1.1 sends there; accept what comes from anywhere. *)
Definition ex_rules : list rule :=
  [mkRule true Source true uany [u1x] [u55] (mkSet [1] 100); mkRule true Source false uany [u11] [u55; u11] (mkSet [0; 1] 200);
   mkRule true Acceptor false uany [uany] [uany] (mkSet [1] 300)].
Definition ex_filters : filters := match load ex_rules with Some f => f | None => no_level end.
Lemma ex_loaded : load ex_rules = Some ex_filters. Proof. vm_compute. reflexivity. Qed.
Example C58_loading_is_exact_ex : (exists f, load ex_rules = Some f) /\ length (singles ex_rules) = 4%nat /\
  load (ex_rules ++ [mkRule true Source true uany [u55; u1x] [u55] (mkSet [1] 400)]) = None /\
  load [mkRule true Source true uany [[105; 112; 110; 58; 48; 49; 46; 49]; u11] [u55] (mkSet [1] 400)] = None.
Proof. split; [exists ex_filters; exact ex_loaded|]. repeat split; vm_compute; reflexivity. Qed.

Lemma says_in rules is p1 p2 p3 ro c st : Forall2 reads (singles rules) is -> (says rules p1 p2 p3 ro c st <-> In (mkI p1 p2 p3 ro c st) is).
Proof.
  intros F2. split.
  - intros (r & src & dst & R & S & D & A1 & A2 & A3 & A4 & A5 & A6).
    assert (X : In (r, (src, dst)) (singles rules)) by (apply in_flat_map; exists r; split; auto; apply in_map; apply in_prod; auto).
    destruct (Forall2_in_l _ _ _ _ F2 X) as (i & I & RI). rewrite (reads_one (r, (src, dst)) (mkI p1 p2 p3 ro c st) i); auto. unfold reads; cbn; auto 7.
  - intros I. destruct (Forall2_in_r _ _ _ _ F2 I) as ((r & src & dst) & X & (A1 & A2 & A3 & A4 & A5 & A6)). apply in_flat_map in X. destruct X as (r2 & R & X). apply in_map_iff in X. destruct X as (sd & E & X). injection E as -> ->.
    apply in_prod_iff in X. cbn in *. exists r, src, dst. tauto.
Qed.
Lemma mentions_in rules is p1 p2 p3 : Forall2 reads (singles rules) is -> (mentions rules p1 p2 p3 <-> exists i, In i is /\ i1 i = p1 /\ i2 i = p2 /\ i3 i = p3).
Proof.
  intros F2. split.
  - intros (ro & c & st & S). apply (says_in _ _ _ _ _ _ _ _ F2) in S. eexists. split; [exact S|cbn; auto].
  - intros ([a b c d e st] & I & A & B & C). cbn in *. subst. exists d, e, st. apply (says_in _ _ _ _ _ _ _ _ F2). exact I.
Qed.

(** The policy that is found is the one of the chosen patterns: it has exactly the settings that the rules with these patterns have for the role.
    No policy is found exactly if there is no choice, or no rule with the chosen patterns is for the role. *)
Theorem C58_lookup_is_exact : forall rules f ss bs bd ro, load rules = Some f ->
  match find_policy f ss bs bd ro with
  | Some p => exists p1 p2 p3, chosen rules ss bs bd p1 p2 p3 /\ (exists c st, says rules p1 p2 p3 ro c st) /\
      (forall st, p_int p = Some st <-> says rules p1 p2 p3 ro false st) /\ (forall st, p_conf p = Some st <-> says rules p1 p2 p3 ro true st)
  | None => forall p1 p2 p3 c st, chosen rules ss bs bd p1 p2 p3 -> ~ says rules p1 p2 p3 ro c st
  end.
Proof.
  intros rules f ss bs bd ro L. destruct (load_state _ _ L) as (is & F2 & (H1 & H2 & H3 & H4 & H5) & _).
  assert (M1 : forall p, get p f <> None <-> exists q r, mentions rules p q r).
  { intros p. rewrite H1. split.
    - intros (i & I & E). exists (i2 i), (i3 i). apply (mentions_in _ _ _ _ _ F2). eauto.
    - intros (q & r & M). apply (mentions_in _ _ _ _ _ F2) in M. destruct M as (i & I & E & _). eauto. }
  assert (M2 : forall p1 p, path f p1 p <> None <-> exists r, mentions rules p1 p r).
  { intros p1 p. rewrite H2. split.
    - intros (i & I & E & E2). exists (i3 i). apply (mentions_in _ _ _ _ _ F2). eauto.
    - intros (r & M). apply (mentions_in _ _ _ _ _ F2) in M. destruct M as (i & I & E & E2 & _). eauto. }
  assert (M3 : forall p1 p2 p, path3 f p1 p2 p <> None <-> mentions rules p1 p2 p).
  { intros p1 p2 p. rewrite H3. symmetry. apply mentions_in. exact F2. }
  unfold find_policy. destruct (next ss f) as [f1|] eqn:N1.
  2: { intros p1 p2 p3 c st (((q & r & M) & C & _) & _) _. pose proof (next_none _ _ N1 p1 C) as Z. apply (proj2 (M1 p1)); eauto. }
  destruct (next_some _ _ _ N1) as (p1 & G1 & B1). assert (B1' : best (fun p => exists q r, mentions rules p q r) ss p1) by (eapply best_ext; [|exact B1]; exact M1).
  assert (PA : forall q, get q f1 = path f p1 q) by (intros q; unfold path; rewrite G1; reflexivity).
  destruct (next bs f1) as [f2|] eqn:N2.
  2: { intros q1 q2 q3 c st (C1 & ((r & M) & C & _) & _) _. rewrite (best_one _ _ _ _ C1 B1') in *. pose proof (next_none _ _ N2 q2 C) as Z. rewrite PA in Z. apply (proj2 (M2 p1 q2)); eauto. }
  destruct (next_some _ _ _ N2) as (p2 & G2 & B2). assert (B2' : best (fun p => exists r, mentions rules p1 p r) bs p2) by (eapply best_ext; [|exact B2]; intros q; cbv beta; rewrite PA; apply M2).
  assert (PB : forall q, get q f2 = path3 f p1 p2 q) by (intros q; unfold path3; rewrite <- PA, G2; reflexivity).
  destruct (next bd f2) as [lf|] eqn:N3.
  2: { intros q1 q2 q3 c st (C1 & C2 & (M & C & _)) _. rewrite (best_one _ _ _ _ C1 B1') in *. rewrite (best_one _ _ _ _ C2 B2') in *. pose proof (next_none _ _ N3 q3 C) as Z. rewrite PB in Z. apply (proj2 (M3 p1 p2 q3)); auto. }
  destruct (next_some _ _ _ N3) as (p3 & G3 & B3). assert (B3' : best (mentions rules p1 p2) bd p3) by (eapply best_ext; [|exact B3]; intros q; cbv beta; rewrite PB; apply M3).
  assert (PC : slot ro lf = pol f p1 p2 p3 ro) by (unfold pol; rewrite <- PB, G3; reflexivity). rewrite PC. destruct (pol f p1 p2 p3 ro) as [p|] eqn:PO.
  - exists p1, p2, p3. split; [split; auto|]. destruct (H5 _ _ _ _ _ PO) as (A & B & _). split; [|split].
    + destruct (proj1 (H4 p1 p2 p3 ro)) as ([a b c d e st] & I & E1 & E2 & E3 & E4); [congruence|]. cbn in *. subst. exists e, st. apply (says_in _ _ _ _ _ _ _ _ F2). exact I.
    + intros st. rewrite A. symmetry. apply says_in. exact F2.
    + intros st. rewrite B. symmetry. apply says_in. exact F2.
  - intros q1 q2 q3 c st (C1 & C2 & C3) S. rewrite (best_one _ _ _ _ C1 B1') in *. rewrite (best_one _ _ _ _ C2 B2') in *. rewrite (best_one _ _ _ _ C3 B3') in *.
    apply (says_in _ _ _ _ _ _ _ _ F2) in S. apply (proj2 (H4 p1 p2 p3 ro)); [eexists; split; [exact S|cbn; auto]|exact PO].
Qed.
Print Assumptions C58_lookup_is_exact.
Example C58_lookup_is_exact_ex : load ex_rules = Some ex_filters /\
  option_map p_conf (find_policy ex_filters (9, 9) (1, 7) (5, 5) Source) = Some (Some (mkSet [1] 100)) /\
  option_map p_conf (find_policy ex_filters (9, 9) (1, 1) (5, 5) Source) = Some None /\ option_map p_int (find_policy ex_filters (9, 9) (1, 1) (5, 5) Source) = Some (Some (mkSet [0; 1] 200)) /\
  find_policy ex_filters (9, 9) (2, 2) (5, 5) Source = None /\ option_map p_int (find_policy ex_filters (9, 9) (2, 2) (5, 5) Acceptor) = Some (Some (mkSet [1] 300)).
Proof. split; [exact ex_loaded|]. repeat split; vm_compute; reflexivity. Qed.

(** So what is done to a bundle is what rules say that it fits, and a rule for exactly its endpoints is always followed. *)
Theorem C58_found_policy_applies : forall rules f ss bs bd ro p, load rules = Some f -> find_policy f ss bs bd ro = Some p ->
  exists p1 p2 p3, covers p1 ss /\ covers p2 bs /\ covers p3 bd /\
    (forall st, p_int p = Some st -> says rules p1 p2 p3 ro false st) /\ (forall st, p_conf p = Some st -> says rules p1 p2 p3 ro true st) /\ (p_int p <> None \/ p_conf p <> None).
Proof.
  intros rules f ss bs bd ro p L E. pose proof (C58_lookup_is_exact rules f ss bs bd ro L) as Q. rewrite E in Q. destruct Q as (p1 & p2 & p3 & ((_ & C1 & _) & (_ & C2 & _) & (_ & C3 & _)) & (c & st & S) & A & B).
  exists p1, p2, p3. repeat (split; [assumption|]). split; [intros; apply A; auto|]. split; [intros; apply B; auto|]. destruct c; [right; apply B in S|left; apply A in S]; congruence.
Qed.
Print Assumptions C58_found_policy_applies.
Example C58_found_policy_applies_ex : load ex_rules = Some ex_filters /\ find_policy ex_filters (9, 9) (1, 7) (5, 5) Source <> None.
Proof. split; [exact ex_loaded|]. vm_compute. discriminate. Qed.
Theorem C58_exact_rule_is_followed : forall rules f ss bs bd ro c st, load rules = Some f -> says rules (PEid ss) (PEid bs) (PEid bd) ro c st ->
  exists p, find_policy f ss bs bd ro = Some p /\ (if c then p_conf p else p_int p) = Some st.
Proof.
  intros rules f ss bs bd ro c st L S. assert (CH : chosen rules ss bs bd (PEid ss) (PEid bs) (PEid bd)).
  { assert (M : mentions rules (PEid ss) (PEid bs) (PEid bd)) by (exists ro, c, st; exact S).
    split; [|split]; (split; [eauto|split; [reflexivity|intros q _ _; destruct q; cbn; lia]]). }
  pose proof (C58_lookup_is_exact rules f ss bs bd ro L) as Q. destruct (find_policy f ss bs bd ro) as [p|]; [|destruct (Q _ _ _ _ _ CH S)].
  destruct Q as (p1 & p2 & p3 & (C1 & C2 & C3) & _ & A & B). destruct CH as (D1 & D2 & D3). rewrite (best_one _ _ _ _ C1 D1) in *. rewrite (best_one _ _ _ _ C2 D2) in *. rewrite (best_one _ _ _ _ C3 D3) in *.
  exists p. split; [reflexivity|]. destruct c; [apply B|apply A]; exact S.
Qed.
Print Assumptions C58_exact_rule_is_followed.
Definition ex_exact : list rule := [mkRule true Source true u55 [u11] [u55] (mkSet [1] 7)].
Example C58_exact_rule_is_followed_ex : (exists f, load ex_exact = Some f) /\ says ex_exact (PEid (5, 5)) (PEid (1, 1)) (PEid (5, 5)) Source true (mkSet [1] 7).
Proof.
  split; [eexists; vm_compute; reflexivity|]. exists (mkRule true Source true u55 [u11] [u55] (mkSet [1] 7)), u11, u55. do 3 (split; [cbn; auto|]); cbn [fst snd r_security_source r_role r_conf r_settings].
  split; [apply parse_denotes; vm_compute; reflexivity|]. split; [apply parse_denotes; vm_compute; reflexivity|]. split; [apply parse_denotes; vm_compute; reflexivity|]. auto.
Qed.

(** Looking up with a cache gives what looking up without one gives; a hit is a repetition of the last lookup, if that found something. *)
Theorem C58_cache_is_transparent : forall f qs,
  map fst (lookups f new_cache qs) = map (fun q => match q with (ss, bs, bd, r) => find_policy f ss bs bd r end) qs /\
  forall n, nth_error (map snd (lookups f new_cache qs)) n = Some true <->
    exists m q p, n = S m /\ nth_error qs m = Some q /\ nth_error qs n = Some q /\ nth_error (map fst (lookups f new_cache qs)) m = Some (Some p).
Proof.
  intros f.
  assert (G : forall qs c, (forall r, c_role c = Some r -> c_found c = find_policy f (c_ss c) (c_bs c) (c_bd c) r) ->
    map fst (lookups f c qs) = map (fun q => match q with (ss, bs, bd, r) => find_policy f ss bs bd r end) qs /\
    (forall n, nth_error (map snd (lookups f c qs)) n = Some true <->
      exists q p, nth_error qs n = Some q /\ match n with
        | O => exists r, c_role c = Some r /\ q = (c_ss c, c_bs c, c_bd c, r) /\ c_found c = Some p
        | S m => nth_error qs m = Some q /\ nth_error (map fst (lookups f c qs)) m = Some (Some p) end)).
  { induction qs as [|(((ss, bs), bd), r) qs IH]; intros c OK; cbn [lookups map].
    - split; [reflexivity|]. intros [|n]; cbn; split; try discriminate; intros (q & p & E & _); discriminate.
    - unfold find_cached.
      destruct (match c_role c with Some q => role_eqb r q | None => false end && eid_eqb ss (c_ss c) && eid_eqb bs (c_bs c) && eid_eqb bd (c_bd c)) eqn:HIT.
      + apply andb_prop in HIT. destruct HIT as (HIT & E3). apply andb_prop in HIT. destruct HIT as (HIT & E2). apply andb_prop in HIT. destruct HIT as (HIT & E1). apply eid_eqb_eq in E1, E2, E3.
        destruct (c_role c) as [q|] eqn:CR; [|discriminate]. apply role_eqb_eq in HIT. subst q ss bs bd. specialize (OK r eq_refl).
        assert (GEN : forall h, let c1 := mkCache (c_ss c) (c_bs c) (c_bd c) (Some r) h (c_found c) in
          map fst (lookups f c1 qs) = map (fun q => match q with (ss, bs, bd, r) => find_policy f ss bs bd r end) qs /\
          forall n, nth_error (map snd (lookups f c1 qs)) n = Some true <->
            exists q p, nth_error qs n = Some q /\ nth_error ((c_ss c, c_bs c, c_bd c, r) :: qs) n = Some q /\ nth_error (c_found c :: map fst (lookups f c1 qs)) n = Some (Some p)).
        { intros h c1. destruct (IH c1) as (I1 & I2); [unfold c1; cbn; intros r2 E; injection E as <-; exact OK|]. split; [exact I1|]. intros n. rewrite I2. destruct n as [|m]; cbn.
          - split.
            + intros (q & p & Q1 & r2 & R1 & R2 & R3). injection R1 as <-. exists q, p. rewrite R3. split; [exact Q1|]. split; [congruence|reflexivity].
            + intros (q & p & Q1 & Q2 & Q3). injection Q2 as <-. injection Q3 as Q3. exists (c_ss c, c_bs c, c_bd c, r), p. split; [exact Q1|]. exists r. auto.
          - split; intros (q & p & Q1 & Q2 & Q3); exists q, p; auto. }
        destruct (c_found c) as [pf|] eqn:CF; cbn [map fst snd c_hit].
        * destruct (GEN true) as (I1 & I2). rewrite <- OK, I1. split; [reflexivity|]. intros [|n].
          -- cbn. split; [intros _; exists (c_ss c, c_bs c, c_bd c, r), pf; split; [reflexivity|]; exists r; auto|auto].
          -- cbn [nth_error]. rewrite I2. split; intros (q & p & Q1 & Q2 & Q3); exists q, p; (split; [exact Q1|]); (split; [exact Q2|]); rewrite I1 in *; exact Q3.
        * destruct (GEN false) as (I1 & I2). rewrite <- OK, I1. split; [reflexivity|]. intros [|n].
          -- cbn. split; [discriminate|]. intros (q & p & _ & r2 & _ & _ & Q). discriminate.
          -- cbn [nth_error]. rewrite I2. split; intros (q & p & Q1 & Q2 & Q3); exists q, p; (split; [exact Q1|]); (split; [exact Q2|]); rewrite I1 in *; exact Q3.
      + cbn [map fst snd c_hit]. set (c1 := mkCache ss bs bd (Some r) false (find_policy f ss bs bd r)). destruct (IH c1) as (I1 & I2); [unfold c1; cbn; intros r2 E; injection E as <-; reflexivity|].
        rewrite I1. split; [reflexivity|]. intros [|n]; cbn [nth_error].
        * split; [discriminate|]. intros (q & p & E & r2 & R1 & R2 & R3). injection E as <-. injection R2 as -> -> -> ->. rewrite R1 in HIT.
          rewrite (proj2 (role_eqb_eq r2 r2) eq_refl), !(proj2 (eid_eqb_eq _ _) eq_refl) in HIT. discriminate.
        * rewrite I2. destruct n as [|m]; cbn [nth_error].
          -- split.
             ++ intros (q & p & Q1 & r2 & R1 & R2 & R3). unfold c1 in *. cbn in *. injection R1 as <-. exists q, p. rewrite R3. split; [exact Q1|]. split; [congruence|reflexivity].
             ++ intros (q & p & Q1 & Q2 & Q3). injection Q2 as <-. injection Q3 as Q3. exists (ss, bs, bd, r), p. split; [exact Q1|]. exists r. unfold c1. cbn. auto.
          -- rewrite I1. split; intros (q & p & Q1 & Q2 & Q3); exists q, p; auto. }
  intros qs. destruct (G qs new_cache) as (A & B); [cbn; discriminate|]. split; [exact A|]. intros n. rewrite B. destruct n as [|m].
  - split; [intros (q & p & _ & r & E & _); discriminate|intros (m & q & p & E & _); discriminate].
  - split; [intros (q & p & Q1 & Q2 & Q3); exists m, q, p; auto|]. intros (m2 & q & p & E & Q1 & Q2 & Q3). injection E as <-. exists q, p. auto.
Qed.
Print Assumptions C58_cache_is_transparent.
Example C58_cache_is_transparent_ex : map snd (lookups ex_filters new_cache
  [((9, 9), (1, 7), (5, 5), Source); ((9, 9), (1, 7), (5, 5), Source); ((9, 9), (1, 7), (5, 5), Acceptor); ((9, 9), (1, 7), (5, 5), Acceptor); ((9, 9), (2, 2), (5, 5), Source); ((9, 9), (2, 2), (5, 5), Source)]) =
  [false; true; false; false; false; false].
Proof. vm_compute. reflexivity. Qed.

(** It is not so that a bundle is protected whenever a rule says so: a rule that is more specific about one field hides the rules that are less
    specific about it, even if it is not for this bundle, *)
Theorem C58_matching_rule_is_followed_refuted : exists rules f ss bs bd p1 p2 p3 st, load rules = Some f /\ says rules p1 p2 p3 Source true st /\ covers p1 ss /\ covers p2 bs /\ covers p3 bd /\
  (forall r, In r rules -> r_role r = Source /\ r_conf r = true) /\ find_policy f ss bs bd Source = None.
Proof.
  exists [mkRule true Source true uany [uany] [uany] (mkSet [1] 1); mkRule true Source true uany [u11] [u55] (mkSet [1] 2)]. eexists. exists (9, 9), (1, 1), (6, 6), PAny, PAny, PAny, (mkSet [1] 1).
  split; [vm_compute; reflexivity|]. split; [|split; [exact I|split; [exact I|split; [exact I|split]]]].
  - eexists _, uany, uany. split; [left; reflexivity|]. cbn. repeat split; auto.
  - intros r [<-|[<-|[]]]; auto.
  - vm_compute. reflexivity.
Qed.
Print Assumptions C58_matching_rule_is_followed_refuted.
(** or for this role: adding a rule for verifiers can take the protection by a security source away. *)
Theorem C58_roles_are_independent_refuted : exists rules r f g ss bs bd, r_role r = Verifier /\ load rules = Some f /\ load (rules ++ [r]) = Some g /\
  find_policy f ss bs bd Source <> None /\ find_policy g ss bs bd Source = None.
Proof.
  exists [mkRule true Source true uany [uany] [uany] (mkSet [1] 1)], (mkRule true Verifier false uany [u11] [uany] (mkSet [1] 2)). do 2 eexists. exists (9, 9), (1, 1), (6, 6).
  split; [reflexivity|]. split; [vm_compute; reflexivity|]. split; [vm_compute; reflexivity|]. split; [vm_compute; discriminate|vm_compute; reflexivity].
Qed.
Print Assumptions C58_roles_are_independent_refuted.

(** The check that integrity blocks are encrypted when they share a target is right, *)
Theorem C58_validation_is_right : forall p, match p_int p, p_conf p with
  | Some i, Some c => (validate true true (s_targets i) (s_targets c) <> None <-> bib_is_encrypted p)
  | _, _ => True end.
Proof.
  intros [[i|] [c|] b1 b2]; cbn; auto. unfold validate, bib_is_encrypted. cbn [p_int p_conf andb].
  assert (HS : forall t l, has t l = true <-> In t l).
  { intros t l. unfold has. rewrite existsb_exists. split; [intros (x & X & E); apply N.eqb_eq in E; subst; auto|intros I; exists t; split; [auto|apply N.eqb_refl]]. }
  destruct (existsb (fun t => has t (s_targets c)) (s_targets i)) eqn:E.
  - apply existsb_exists in E. destruct E as (t & T & E). apply HS in E. destruct (has 11 (s_targets c)) eqn:D; cbn.
    + split; [intros _ _; apply HS; exact D|discriminate].
    + split; [congruence|]. intros Q. assert (In 11 (s_targets c)) by (apply Q; eauto). apply HS in H. congruence.
  - cbn. split; [|discriminate]. intros _ (t & T1 & T2). assert (X : existsb (fun t => has t (s_targets c)) (s_targets i) = true) by (apply existsb_exists; exists t; split; [auto|apply HS; auto]). congruence.
Qed.
Print Assumptions C58_validation_is_right.
Example C58_validation_is_right_ex : validate true true [1] [1] = None /\ validate true true [1] [1; 11] = Some (true, true).
Proof. split; vm_compute; reflexivity. Qed.
(** but it is never made on what was loaded: a configuration that violates it is loaded, *)
Theorem C58_loaded_policies_are_validated_refuted : exists rules f ss bs bd p, load rules = Some f /\ find_policy f ss bs bd Source = Some p /\ ~ bib_is_encrypted p.
Proof.
  exists [mkRule true Source true uany [uany] [uany] (mkSet [1] 1); mkRule true Source false uany [uany] [uany] (mkSet [1] 2)]. eexists. exists (1, 1), (1, 1), (1, 1). eexists.
  split; [vm_compute; reflexivity|]. split; [vm_compute; reflexivity|]. cbn. intros Q. destruct Q as [Q|[]]; [exists 1; cbn; auto|discriminate].
Qed.
Print Assumptions C58_loaded_policies_are_validated_refuted.
(** and the fields that it sets are false in all policies, whatever they say. *)
Theorem C58_validated_fields_are_never_set : forall rules f ss bs bd ro p, load rules = Some f -> find_policy f ss bs bd ro = Some p -> p_bcb_payload p = false /\ p_bib_encrypted p = false.
Proof.
  intros rules f ss bs bd ro p L E. destruct (load_state _ _ L) as (is & _ & (_ & _ & _ & _ & H5) & _). unfold find_policy in E.
  destruct (next ss f) as [f1|] eqn:N1; [|discriminate]. destruct (next bs f1) as [f2|] eqn:N2; [|discriminate]. destruct (next bd f2) as [lf|] eqn:N3; [|discriminate].
  destruct (next_some _ _ _ N1) as (p1 & G1 & _). destruct (next_some _ _ _ N2) as (p2 & G2 & _). destruct (next_some _ _ _ N3) as (p3 & G3 & _).
  apply (H5 p1 p2 p3 ro p). unfold pol, path3, path. rewrite G1, G2, G3. exact E.
Qed.
Print Assumptions C58_validated_fields_are_never_set.
Example C58_validated_fields_are_never_set_ex : load ex_rules = Some ex_filters /\ option_map p_bcb_payload (find_policy ex_filters (9, 9) (1, 7) (5, 5) Source) = Some false /\
  option_map (fun p => match p_conf p with Some s => s_targets s | None => [] end) (find_policy ex_filters (9, 9) (1, 7) (5, 5) Source) = Some [1].
Proof. split; [exact ex_loaded|]. split; vm_compute; reflexivity. Qed.
