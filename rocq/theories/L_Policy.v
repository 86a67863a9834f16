(** Lemmas about the security policies. *)
From Coq Require Import PeanoNat NArith List Bool Lia.
From Verif Require Import Base M_Uri S_Uri L_Uri P_Uri M_Policy S_Policy.
Import ListNotations.
Open Scope N_scope.

Lemma eid_eqb_eq a b : eid_eqb a b = true <-> a = b.
Proof. destruct a, b. unfold eid_eqb. cbn. rewrite andb_true_iff, !N.eqb_eq. split; [intros (-> & ->); auto|intros E; injection E; auto]. Qed.
Lemma role_eqb_eq a b : role_eqb a b = true <-> a = b.
Proof. destruct a, b; cbn; split; congruence. Qed.
Lemma text_eqb_eq a : forall b, text_eqb a b = true <-> a = b.
Proof. induction a as [|x a IH]; intros [|y b]; cbn; split; try congruence. - rewrite andb_true_iff, N.eqb_eq, IH. intros (-> & ->). auto. - intros E. injection E as -> ->. rewrite N.eqb_refl. cbn. now apply IH. Qed.

Lemma star_not_number n : ~ number_text n [42].
Proof.
  intros H. inversion H as [v s (NE & D & _) _|v s (NE & D & _) _|v w s (NE & D & _) _ _ _]; subst.
  inversion D as [|? ? Q _]; subst. unfold digit in Q. lia.
Qed.
Lemma numbers_unique n : forall m a, number_text n a -> number_text m a -> n = m.
Proof.
  intros m a A B.
  assert (P1 : parse_ssp true (a ++ [46] ++ [42]) = Some (n, AnySvc)) by (apply C36_parse_ssp_is_exact; exists a, [42]; auto).
  assert (P2 : parse_ssp true (a ++ [46] ++ [42]) = Some (m, AnySvc)) by (apply C36_parse_ssp_is_exact; exists a, [42]; auto).
  rewrite P1 in P2. injection P2. auto.
Qed.

(** Parsing a pattern is exact. *)
Lemma parse_denotes uri p : parse_pattern uri = Some p <-> denotes uri p.
Proof.
  unfold parse_pattern. destruct (text_eqb uri any_text) eqn:T.
  - apply text_eqb_eq in T. subst uri. split.
    + intros E. injection E as <-. reflexivity.
    + destruct p as [|n|(n, s)]; cbn; [auto| |].
      * intros (a & A & E). exfalso. unfold ipn_colon, any_text in E. cbn in E. injection E as E.
        destruct a as [|x a]; [destruct (number_text_chars n [] A); congruence|]. cbn in E. injection E as <- E. destruct a as [|y a]; [|destruct a as [|z a]; [|destruct a; discriminate]; injection E as E; discriminate].
        exact (star_not_number _ A).
      * intros (a & b & A & B & E). exfalso. unfold ipn_colon, any_text in E. cbn in E. injection E as E.
        destruct a as [|x a]; [destruct (number_text_chars n [] A); congruence|]. cbn in E. injection E as <- E. destruct a as [|y a]; [exact (star_not_number _ A)|].
        cbn in E. injection E as <- E. destruct a as [|z a]; cbn in E; [injection E as E; discriminate|]. injection E as <- E. destruct a; discriminate.
  - assert (NT : uri <> any_text) by (intros ->; rewrite (proj2 (text_eqb_eq any_text any_text) eq_refl) in T; discriminate).
    destruct (parse_uri_string true uri) as [(n, sv)|] eqn:P.
    + apply (proj1 (proj1 (C36_parse_is_exact true uri) _)) in P. destruct P as (ssp & -> & P). apply C36_parse_ssp_is_exact in P. destruct P as (a & b & -> & A & B).
      assert (G : forall q, denotes (ipn_colon ++ a ++ [46] ++ b) q -> match sv with Svc s => PEid (n, s) | AnySvc => PNode n end = q).
      { intros q D. destruct q as [|m|(m, t)]; cbn [denotes] in D; [contradiction| |].
        - destruct D as (a2 & A2 & E). apply app_inv_head in E. assert (Q : parse_ssp true (a ++ [46] ++ b) = Some (m, AnySvc)) by (rewrite E; change [46; 42] with ([46] ++ [42]); apply C36_parse_ssp_is_exact; exists a2, [42]; auto).
          assert (Q2 : parse_ssp true (a ++ [46] ++ b) = Some (n, sv)) by (apply C36_parse_ssp_is_exact; exists a, b; auto). rewrite Q in Q2. injection Q2 as -> <-. reflexivity.
        - destruct D as (a2 & b2 & A2 & B2 & E). apply app_inv_head in E. assert (Q : parse_ssp true (a ++ [46] ++ b) = Some (m, Svc t)) by (rewrite E; apply C36_parse_ssp_is_exact; exists a2, b2; auto).
          assert (Q2 : parse_ssp true (a ++ [46] ++ b) = Some (n, sv)) by (apply C36_parse_ssp_is_exact; exists a, b; auto). rewrite Q in Q2. injection Q2 as -> <-. reflexivity. }
      destruct sv as [s|].
      * split; [|intros D; rewrite (G _ D); auto]. intros E. injection E as <-. exists a, b. auto.
      * split; [|intros D; rewrite (G _ D); auto]. intros E. injection E as <-. destruct B as (_ & ->). exists a. auto.
    + split; [discriminate|]. intros D. exfalso. destruct p as [|m|(m, t)]; cbn [denotes] in D; [contradiction| |].
      * destruct D as (a & A & ->). assert (Q : parse_uri_string true (ipn_colon ++ a ++ [46; 42]) = Some (m, AnySvc)); [|congruence].
        apply (proj2 (proj1 (C36_parse_is_exact true _) _)). eexists; split; [reflexivity|]. change [46; 42] with ([46] ++ [42]). apply C36_parse_ssp_is_exact. exists a, [42]; auto.
      * destruct D as (a & b & A & B & ->). assert (Q : parse_uri_string true (ipn_colon ++ a ++ [46] ++ b) = Some (m, Svc t)); [|congruence].
        apply (proj2 (proj1 (C36_parse_is_exact true _) _)). eexists; split; [reflexivity|]. apply C36_parse_ssp_is_exact. exists a, b; auto.
Qed.
Lemma denotes_one uri p q : denotes uri p -> denotes uri q -> p = q.
Proof. intros A B. apply parse_denotes in A, B. congruence. Qed.

(** Maps. *)
Lemma find_set {K X} (eqb : K -> K -> bool) (EQ : forall a b, eqb a b = true <-> a = b) k x (m : list (K * X)) j :
  find_key eqb j (set_key eqb k x m) = if eqb j k then Some x else find_key eqb j m.
Proof.
  induction m as [|(a, y) m IH]; cbn; [reflexivity|]. destruct (eqb k a) eqn:E; cbn.
  - apply EQ in E. subst a. destruct (eqb j k) eqn:F; reflexivity.
  - destruct (eqb j a) eqn:F; [|exact IH]. apply EQ in F. subst a. destruct (eqb j k) eqn:G; [|reflexivity]. apply EQ in G. subst j. rewrite (proj2 (EQ k k) eq_refl) in E. discriminate.
Qed.
Definition get {X} (p : pattern) (l : level X) : option X :=
  match p with PAny => l_any l | PNode n => find_key N.eqb n (l_node l) | PEid e => find_key eid_eqb e (l_eid l) end.
Definition pat_eqb (p q : pattern) : bool := match p, q with PAny, PAny => true | PNode a, PNode b => a =? b | PEid a, PEid b => eid_eqb a b | _, _ => false end.
Lemma pat_eqb_eq p q : pat_eqb p q = true <-> p = q.
Proof. destruct p, q; cbn; try (split; congruence). - rewrite N.eqb_eq. split; congruence. - rewrite eid_eqb_eq. split; congruence. Qed.
Lemma pat_eqb_refl p : pat_eqb p p = true. Proof. now apply pat_eqb_eq. Qed.
Lemma get_set {X} p (x : X) l q : get q (set_child p x l) = if pat_eqb q p then Some x else get q l.
Proof. destruct p, q; cbn; auto. - apply (find_set _ N.eqb_eq). - apply (find_set _ eid_eqb_eq). Qed.
Lemma child_get {X} (none : X) p l : child none p l = match get p l with Some x => x | None => none end.
Proof. destruct p; reflexivity. Qed.
Lemma get_none {X} p : get p (@no_level X) = None. Proof. destruct p; reflexivity. Qed.
Lemma slot_set r p l q : slot q (set_slot r p l) = if role_eqb q r then Some p else slot q l.
Proof. destruct r, q; reflexivity. Qed.

(** The next filter is that of the most specific pattern. *)
Lemma next_some {X} e (l : level X) x : next e l = Some x -> exists p, get p l = Some x /\ best (fun q => get q l <> None) e p.
Proof.
  unfold next. destruct (find_key eid_eqb e (l_eid l)) as [y|] eqn:A.
  - intros E. injection E as <-. exists (PEid e). split; [exact A|]. split; [cbn; congruence|]. split; [reflexivity|]. intros [| |] _ _; cbn; lia.
  - destruct (find_key N.eqb (fst e) (l_node l)) as [y|] eqn:B.
    + intros E. injection E as <-. exists (PNode (fst e)). split; [exact B|]. split; [cbn; congruence|]. split; [reflexivity|]. intros [|n|y0] Q C; cbn in *; try lia. subst. congruence.
    + intros E. exists PAny. split; [exact E|]. split; [cbn; congruence|]. split; [exact I|]. intros [|n|y0] Q C; cbn in *; try lia; subst; congruence.
Qed.
Lemma next_none {X} e (l : level X) : next e l = None -> forall p, covers p e -> get p l = None.
Proof.
  unfold next. destruct (find_key eid_eqb e (l_eid l)) eqn:A; [discriminate|]. destruct (find_key N.eqb (fst e) (l_node l)) eqn:B; [discriminate|].
  intros E [|n|y0] C; cbn in *; subst; auto.
Qed.
Lemma best_one P e p q : best P e p -> best P e q -> p = q.
Proof.
  intros (A1 & A2 & A3) (B1 & B2 & B3). pose proof (A3 q B1 B2) as U. pose proof (B3 p A1 A2) as V. destruct p, q; cbn in *; try lia; auto; subst; auto.
Qed.
Lemma best_ext P Q e p : (forall x, P x <-> Q x) -> best P e p -> best Q e p.
Proof. intros E (A1 & A2 & A3). split; [now apply E|]. split; auto. intros q H. apply A3. now apply E. Qed.

(** What has been loaded, as a list of parsed instances. *)
Record inst := mkI { i1 : pattern; i2 : pattern; i3 : pattern; irole : role; iconf : bool; iset : settings }.
Definition path (f : filters) p1 p2 : option (level leaf) := match get p1 f with Some f1 => get p2 f1 | None => None end.
Definition path3 (f : filters) p1 p2 p3 : option leaf := match path f p1 p2 with Some f2 => get p3 f2 | None => None end.
Definition pol (f : filters) p1 p2 p3 r : option policy := match path3 f p1 p2 p3 with Some lf => slot r lf | None => None end.
Definition holds (l : list inst) (f : filters) : Prop :=
  (forall p1, get p1 f <> None <-> exists i, In i l /\ i1 i = p1) /\
  (forall p1 p2, path f p1 p2 <> None <-> exists i, In i l /\ i1 i = p1 /\ i2 i = p2) /\
  (forall p1 p2 p3, path3 f p1 p2 p3 <> None <-> exists i, In i l /\ i1 i = p1 /\ i2 i = p2 /\ i3 i = p3) /\
  (forall p1 p2 p3 r, pol f p1 p2 p3 r <> None <-> exists i, In i l /\ i1 i = p1 /\ i2 i = p2 /\ i3 i = p3 /\ irole i = r) /\
  (forall p1 p2 p3 r p, pol f p1 p2 p3 r = Some p ->
     (forall st, p_int p = Some st <-> In (mkI p1 p2 p3 r false st) l) /\ (forall st, p_conf p = Some st <-> In (mkI p1 p2 p3 r true st) l) /\
     p_bcb_payload p = false /\ p_bib_encrypted p = false).
Lemma holds_nil : holds [] no_level.
Proof.
  assert (G : forall p, get p (@no_level (level (level leaf))) = None) by apply @get_none.
  unfold holds, pol, path3, path. repeat split; intros; try rewrite G in *; try congruence; try (destruct H as (i & [] & _)).
Qed.

Definition inst_of (r : rule) (sd : list N * list N) (p1 p2 p3 : pattern) : inst := mkI p1 p2 p3 (r_role r) (r_conf r) (r_settings r).
Definition same (a b : inst) : Prop := i1 a = i1 b /\ i2 a = i2 b /\ i3 a = i3 b /\ irole a = irole b /\ iconf a = iconf b.

Section One.
  Variables (l : list inst) (f : filters) (r : rule) (p1 p2 p3 : pattern).
  Hypothesis H : holds l f.
  Let x := mkI p1 p2 p3 (r_role r) (r_conf r) (r_settings r).
  Let f1 := child no_level p1 f. Let f2 := child no_level p2 f1. Let lf := child no_leaf p3 f2.
  Lemma f2_path q : get q f2 = path3 f p1 p2 q.
  Proof. unfold f2, f1, path3, path. rewrite !child_get. destruct (get p1 f) as [g|]; [destruct (get p2 g); auto; now rewrite get_none|]. now rewrite !get_none. Qed.
  Lemma f1_path q : get q f1 = path f p1 q.
  Proof. unfold f1, path. rewrite !child_get. destruct (get p1 f) as [g|]; auto. now rewrite get_none. Qed.
  Lemma lf_slot q : slot q lf = pol f p1 p2 p3 q.
  Proof. unfold lf, pol. rewrite child_get, f2_path. destruct (path3 f p1 p2 p3); auto. destruct q; reflexivity. Qed.
  Let old := match slot (r_role r) lf with Some p => p | None => new_policy end.
  Lemma old_says : (forall st, p_int old = Some st <-> In (mkI p1 p2 p3 (r_role r) false st) l) /\ (forall st, p_conf old = Some st <-> In (mkI p1 p2 p3 (r_role r) true st) l) /\
    p_bcb_payload old = false /\ p_bib_encrypted old = false.
  Proof.
    destruct H as (_ & _ & _ & H4 & H5). unfold old. rewrite lf_slot. destruct (pol f p1 p2 p3 (r_role r)) as [p|] eqn:E; [exact (H5 _ _ _ _ _ E)|].
    assert (NO : forall c st, ~ In (mkI p1 p2 p3 (r_role r) c st) l).
    { intros c st IN. apply (proj2 (H4 p1 p2 p3 (r_role r))); [eexists; split; [exact IN|cbn; auto]|exact E]. }
    cbn. repeat split; try discriminate; intros Q; destruct (NO _ _ Q).
  Qed.
  Lemma into_none : into_policy r (false, false) old = None <-> exists y, In y l /\ same y x.
  Proof.
    destruct old_says as (A & B & _). unfold into_policy, same, x. cbn. destruct (r_conf r) eqn:C.
    - destruct (p_conf old) as [st|] eqn:E; split; try discriminate; intros Q.
      + eexists. split; [apply B; reflexivity|cbn; auto].
      + reflexivity.
      + destruct Q as ([a b c d e st] & IN & Q). cbn in Q. destruct Q as (-> & -> & -> & -> & ->). apply B in IN. discriminate.
    - destruct (p_int old) as [st|] eqn:E; split; try discriminate; intros Q.
      + eexists. split; [apply A; reflexivity|cbn; auto].
      + reflexivity.
      + destruct Q as ([a b c d e st] & IN & Q). cbn in Q. destruct Q as (-> & -> & -> & -> & ->). apply A in IN. discriminate.
  Qed.
  Variable p : policy.
  Hypothesis IP : into_policy r (false, false) old = Some p.
  Let g := set_child p1 (set_child p2 (set_child p3 (set_slot (r_role r) p lf) f2) f1) f.
  Lemma g1 q1 : get q1 g <> None <-> (q1 = p1 \/ get q1 f <> None).
  Proof. unfold g. rewrite get_set. destruct (pat_eqb q1 p1) eqn:E; [apply pat_eqb_eq in E; split; [auto|congruence]|]. split; [auto|]. intros [->|Q]; [rewrite pat_eqb_refl in E; discriminate|auto]. Qed.
  Lemma g_path q1 q2 : path g q1 q2 = if pat_eqb q1 p1 && pat_eqb q2 p2 then Some (set_child p3 (set_slot (r_role r) p lf) f2) else path f q1 q2.
  Proof.
    unfold path at 1. unfold g. rewrite get_set. destruct (pat_eqb q1 p1) eqn:E; [|reflexivity]. apply pat_eqb_eq in E. subst q1. rewrite get_set. cbn. destruct (pat_eqb q2 p2); [reflexivity|]. apply f1_path.
  Qed.
  Lemma g_path3 q1 q2 q3 : path3 g q1 q2 q3 = if pat_eqb q1 p1 && pat_eqb q2 p2 && pat_eqb q3 p3 then Some (set_slot (r_role r) p lf) else path3 f q1 q2 q3.
  Proof.
    unfold path3 at 1. rewrite g_path. destruct (pat_eqb q1 p1 && pat_eqb q2 p2) eqn:E; [|reflexivity]. apply andb_prop in E. destruct E as (E1 & E2). apply pat_eqb_eq in E1, E2. subst q1 q2. rewrite get_set. cbn. destruct (pat_eqb q3 p3); [reflexivity|]. apply f2_path.
  Qed.
  Lemma g_pol q1 q2 q3 q : pol g q1 q2 q3 q = if pat_eqb q1 p1 && pat_eqb q2 p2 && pat_eqb q3 p3 && role_eqb q (r_role r) then Some p else pol f q1 q2 q3 q.
  Proof.
    unfold pol at 1. rewrite g_path3. destruct (pat_eqb q1 p1 && pat_eqb q2 p2 && pat_eqb q3 p3) eqn:E; [|reflexivity]. apply andb_prop in E. destruct E as (E & E3). apply andb_prop in E. destruct E as (E1 & E2). apply pat_eqb_eq in E1, E2, E3. subst q1 q2 q3.
    rewrite slot_set. cbn. destruct (role_eqb q (r_role r)); [reflexivity|]. apply lf_slot.
  Qed.
  Lemma one_holds : holds (l ++ [x]) g.
  Proof.
    destruct H as (H1 & H2 & H3 & H4 & H5).
    assert (IN : forall P : inst -> Prop, (exists i, In i (l ++ [x]) /\ P i) <-> (P x \/ exists i, In i l /\ P i)).
    { intros P. split.
      - intros (i & I & Q). apply in_app_or in I. destruct I as [I|[<-|[]]]; eauto.
      - intros [Q|(i & I & Q)]; [exists x|exists i]; split; auto; apply in_or_app; cbn; auto. }
    split; [|split; [|split; [|split]]].
    - intros q1. rewrite g1, IN, H1. cbn. split; intros [Q|Q]; auto.
    - intros q1 q2. rewrite g_path, IN, <- H2. cbn. destruct (pat_eqb q1 p1) eqn:E1; [destruct (pat_eqb q2 p2) eqn:E2|]; cbn.
      + apply pat_eqb_eq in E1, E2. split; [intros _; left; auto|congruence].
      + split; [auto|]. intros [(_ & Q)|Q]; [|auto]. subst. rewrite pat_eqb_refl in E2. discriminate.
      + split; [auto|]. intros [(Q & _)|Q]; [|auto]. subst. rewrite pat_eqb_refl in E1. discriminate.
    - intros q1 q2 q3. rewrite g_path3, IN, <- H3. cbn. destruct (pat_eqb q1 p1 && pat_eqb q2 p2 && pat_eqb q3 p3) eqn:E.
      + apply andb_prop in E. destruct E as (E & E3). apply andb_prop in E. destruct E as (E1 & E2). apply pat_eqb_eq in E1, E2, E3. split; [intros _; left; auto|congruence].
      + split; [auto|]. intros [(Q1 & Q2 & Q3)|Q]; [|auto]. subst. rewrite !pat_eqb_refl in E. discriminate.
    - intros q1 q2 q3 q. rewrite g_pol, IN, <- H4. cbn. destruct (pat_eqb q1 p1 && pat_eqb q2 p2 && pat_eqb q3 p3 && role_eqb q (r_role r)) eqn:E.
      + apply andb_prop in E. destruct E as (E & E4). apply andb_prop in E. destruct E as (E & E3). apply andb_prop in E. destruct E as (E1 & E2). apply pat_eqb_eq in E1, E2, E3. apply role_eqb_eq in E4. split; [intros _; left; auto|congruence].
      + split; [auto|]. intros [(Q1 & Q2 & Q3 & Q4)|Q]; [|auto]. subst. rewrite !pat_eqb_refl, (proj2 (role_eqb_eq _ _) eq_refl) in E. discriminate.
    - intros q1 q2 q3 q po. rewrite g_pol. destruct (pat_eqb q1 p1 && pat_eqb q2 p2 && pat_eqb q3 p3 && role_eqb q (r_role r)) eqn:E.
      + apply andb_prop in E. destruct E as (E & E4). apply andb_prop in E. destruct E as (E & E3). apply andb_prop in E. destruct E as (E1 & E2). apply pat_eqb_eq in E1, E2, E3. apply role_eqb_eq in E4. subst q1 q2 q3 q.
        intros Q. injection Q as <-. destruct old_says as (A & B & _). unfold into_policy in IP. subst x. clear g IN. destruct (r_conf r) eqn:C.
        * destruct (p_conf old) as [st0|] eqn:PC; [discriminate|]. injection IP as <-. cbn. split; [|split; [|auto]].
          -- intros st. rewrite A, in_app_iff. cbn. split; [auto|]. intros [Q|[Q|[]]]; [auto|discriminate].
          -- intros st. rewrite in_app_iff. cbn. split; [intros Q; injection Q as ->; auto|]. intros [Q|[Q|[]]]; [apply B in Q; discriminate|injection Q as ->; auto].
        * destruct (p_int old) as [st0|] eqn:PC; [discriminate|]. injection IP as <-. cbn. split; [|split; [|auto]].
          -- intros st. rewrite in_app_iff. cbn. split; [intros Q; injection Q as ->; auto|]. intros [Q|[Q|[]]]; [apply A in Q; discriminate|injection Q as ->; auto].
          -- intros st. rewrite B, in_app_iff. cbn. split; [auto|]. intros [Q|[Q|[]]]; [auto|discriminate].
      + intros Q. destruct (H5 _ _ _ _ _ Q) as (A & B & C). split; [|split; [|exact C]].
        * intros st. rewrite A, in_app_iff. cbn. split; [auto|]. intros [Z|[Z|[]]]; [auto|]. unfold x in Z. injection Z as <- <- <- <- _ _. rewrite !pat_eqb_refl, (proj2 (role_eqb_eq _ _) eq_refl) in E. discriminate.
        * intros st. rewrite B, in_app_iff. cbn. split; [auto|]. intros [Z|[Z|[]]]; [auto|]. unfold x in Z. injection Z as <- <- <- <- _ _. rewrite !pat_eqb_refl, (proj2 (role_eqb_eq _ _) eq_refl) in E. discriminate.
  Qed.
End One.

(** Loading a sequence of single rules. *)
Definition reads (x : rule * (list N * list N)) (i : inst) : Prop :=
  denotes (r_security_source (fst x)) (i1 i) /\ denotes (fst (snd x)) (i2 i) /\ denotes (snd (snd x)) (i3 i) /\
  r_role (fst x) = irole i /\ r_conf (fst x) = iconf i /\ r_settings (fst x) = iset i.
Lemma reads_one x i j : reads x i -> reads x j -> i = j.
Proof.
  intros (A1 & A2 & A3 & A4 & A5 & A6) (B1 & B2 & B3 & B4 & B5 & B6). destruct i, j; cbn in *. f_equal; try congruence; eapply denotes_one; eauto.
Qed.
Lemma validate_false r : validate_rule r = Some (false, false).
Proof. unfold validate_rule. destruct (r_role r); reflexivity. Qed.
Lemma add_one_ok l f r sd : holds l f ->
  match add_one r (false, false) f sd with
  | Some g => exists i, reads (r, sd) i /\ holds (l ++ [i]) g /\ forall y, In y l -> ~ same y i
  | None => ~ readable (r, sd) \/ exists i y, reads (r, sd) i /\ In y l /\ same y i
  end.
Proof.
  intros H. unfold add_one.
  destruct (parse_pattern (r_security_source r)) as [p1|] eqn:P1; [|left; intros ((q & Q) & _); cbn in Q; apply parse_denotes in Q; congruence].
  destruct (parse_pattern (fst sd)) as [p2|] eqn:P2; [|left; intros (_ & (q & Q) & _); cbn in Q; apply parse_denotes in Q; congruence].
  destruct (parse_pattern (snd sd)) as [p3|] eqn:P3; [|left; intros (_ & _ & (q & Q)); cbn in Q; apply parse_denotes in Q; congruence].
  assert (RD : reads (r, sd) (mkI p1 p2 p3 (r_role r) (r_conf r) (r_settings r))) by (unfold reads; cbn; rewrite <- !parse_denotes; auto 7).
  pose proof (into_none l f r p1 p2 p3 H) as N. cbv zeta in N. cbv zeta. destruct (into_policy _ _ _) as [p|] eqn:IP.
  - eexists. split; [exact RD|]. split; [exact (one_holds l f r p1 p2 p3 H p IP)|]. intros y Y S. assert (Q : Some p = None) by (apply N; eauto). discriminate.
  - right. destruct (proj1 N eq_refl) as (y & Y & S). eauto.
Qed.
Fixpoint add_seq (f : filters) (xs : list (rule * (list N * list N))) : option filters :=
  match xs with [] => Some f | x :: r => match add_one (fst x) (false, false) f (snd x) with Some g => add_seq g r | None => None end end.
Lemma add_seq_app xs : forall f ys, add_seq f (xs ++ ys) = match add_seq f xs with Some g => add_seq g ys | None => None end.
Proof. induction xs as [|x xs IH]; intros; cbn; [reflexivity|]. destruct (add_one _ _ _ _); auto. Qed.
Lemma add_all_seq r sds : forall f, add_all r (false, false) f sds = add_seq f (map (pair r) sds).
Proof. induction sds as [|s sds IH]; intros; cbn; [reflexivity|]. destruct (add_one _ _ _ _); auto. Qed.
Lemma load_seq rules : forall f g, load_rules f rules = Some g <-> Forall (fun r => r_valid r = true) rules /\ add_seq f (singles rules) = Some g.
Proof.
  induction rules as [|r rules IH]; intros f g; cbn [load_rules].
  - cbn. split; [auto|intros (_ & E); auto].
  - change (singles (r :: rules)) with (map (pair r) (list_prod (r_sources r) (r_dests r)) ++ singles rules). rewrite add_seq_app, validate_false, add_all_seq. destruct (r_valid r) eqn:V.
    + destruct (add_seq f (map _ _)) as [f1|].
      * rewrite IH. split; intros (A & B); split; auto. inversion A; auto.
      * split; [discriminate|intros (_ & E); discriminate].
    + split; [discriminate|]. intros (A & _). inversion A; congruence.
Qed.
Fixpoint fresh (l is : list inst) : Prop := match is with [] => True | i :: r => (forall y, In y l -> ~ same y i) /\ fresh (l ++ [i]) r end.
Lemma add_seq_ok xs : forall l f, holds l f ->
  (forall g, add_seq f xs = Some g -> exists is, Forall2 reads xs is /\ holds (l ++ is) g /\ fresh l is) /\
  (add_seq f xs = None -> ~ exists is, Forall2 reads xs is /\ fresh l is).
Proof.
  induction xs as [|x xs IH]; intros l f H; cbn [add_seq].
  - split; [|discriminate]. intros g E. injection E as <-. exists []. rewrite app_nil_r. cbn. auto.
  - destruct x as (r, sd). cbn [fst snd]. pose proof (add_one_ok l f r sd H) as O. destruct (add_one _ _ _ _) as [f1|].
    + destruct O as (i & RD & H1 & FR). destruct (IH _ _ H1) as (A & B). split.
      * intros g E. destruct (A g E) as (is & F2 & HG & FS). exists (i :: is). rewrite <- app_assoc in HG. split; [constructor; auto|]. split; [exact HG|]. cbn. auto.
      * intros E (is & F2 & FS). inversion F2 as [|? j ? js RJ F3]; subst. rewrite (reads_one _ _ _ RJ RD) in *. apply (B E). exists js. split; auto. exact (proj2 FS).
    + split; [discriminate|]. intros _ (is & F2 & FS). inversion F2 as [|? j ? js RJ F3]; subst. destruct O as [NR|(i & y & RI & Y & S)].
      * apply NR. destruct RJ as (A1 & A2 & A3 & _). split; [exists (i1 j); exact A1|]. split; [exists (i2 j); exact A2|exists (i3 j); exact A3].
      * rewrite (reads_one _ _ _ RJ RI) in *. exact (proj1 FS y Y S).
Qed.
Lemma Forall2_in_l {A B} (R : A -> B -> Prop) l m a : Forall2 R l m -> In a l -> exists b, In b m /\ R a b.
Proof. intros F. induction F as [|x y l m H F IH]; intros []; [subst; exists y; cbn; auto|]. destruct (IH H0) as (b & I & Q). exists b; cbn; auto. Qed.
Lemma Forall2_in_r {A B} (R : A -> B -> Prop) l m b : Forall2 R l m -> In b m -> exists a, In a l /\ R a b.
Proof. intros F. induction F as [|x y l m H F IH]; intros []; [subst; exists x; cbn; auto|]. destruct (IH H0) as (a & I & Q). exists a; cbn; auto. Qed.
Lemma conflict_same x y i j : reads x i -> reads y j -> (conflict x y <-> same i j).
Proof.
  intros (A1 & A2 & A3 & A4 & A5 & A6) (B1 & B2 & B3 & B4 & B5 & B6). unfold conflict, same. split.
  - intros (R & C & (p & P1 & P2) & (q & Q1 & Q2) & (s & S1 & S2)). repeat split; try congruence.
    + rewrite (denotes_one _ _ _ A1 P1). eapply denotes_one; eauto.
    + rewrite (denotes_one _ _ _ A2 Q1). eapply denotes_one; eauto.
    + rewrite (denotes_one _ _ _ A3 S1). eapply denotes_one; eauto.
  - intros (E1 & E2 & E3 & E4 & E5). split; [congruence|]. split; [congruence|]. split; [exists (i1 i); split; congruence|]. split; [exists (i2 i); split; congruence|exists (i3 i); split; congruence].
Qed.
Lemma fresh_conflict is : forall l xs ls, Forall2 reads ls l -> Forall2 reads xs is ->
  (fresh l is <-> (forall x y, In x ls -> In y xs -> ~ conflict x y) /\ (forall a x b y c, xs = a ++ x :: b ++ y :: c -> ~ conflict x y)).
Proof.
  induction is as [|i is IH]; intros l xs ls FL FX; inversion FX as [|x ? xs1 ? RX FX1]; subst; cbn [fresh].
  - split; [|auto]. intros _. split; [intros x y _ []|]. intros [|? ?] x b y c E; discriminate.
  - assert (FL2 : Forall2 reads (ls ++ [x]) (l ++ [i])) by (apply Forall2_app; auto). rewrite (IH _ _ _ FL2 FX1). split.
    + intros (A & B & C). split.
      * intros u v U [<-|V]; [|apply B; auto; apply in_or_app; auto]. destruct (Forall2_in_l _ _ _ _ FL U) as (w & W & RW). rewrite (conflict_same _ _ _ _ RW RX). exact (A w W).
      * intros [|a0 a] u b v c E; cbn in E; injection E as -> E; [|exact (C a u b v c E)]. apply B; [apply in_or_app; right; left; auto|]. rewrite E. apply in_or_app; right; left; auto.
    + intros (A & B). split; [|split].
      * intros w W S. destruct (Forall2_in_r _ _ _ _ FL W) as (u & U & RU). apply (A u x U (or_introl eq_refl)). rewrite (conflict_same _ _ _ _ RU RX). exact S.
      * intros u v U V. apply in_app_or in U. destruct U as [U|[<-|[]]]; [apply A; cbn; auto|]. destruct (in_split _ _ V) as (b & c & E). apply (B [] x b v c). rewrite E. reflexivity.
      * intros a u b v c E. apply (B (x :: a) u b v c). rewrite E. reflexivity.
Qed.
