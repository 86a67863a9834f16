(** C59: received security blocks. *)
From Coq Require Import PeanoNat NArith List Bool Lia ZifyBool ZifyN.
From Verif Require Import Base M_Uri M_Policy M_PolicyRx S_PolicyRx L_PolicyRx L2_PolicyRx.
Import ListNotations.
Open Scope N_scope.

(** Policies for examples: any endpoint, or one for security source (9, 9) and one for the others. *)
Definition leaf_of (l : leaf) : level (level leaf) := Lv [] [] (Some (Lv [] [] (Some l))).
Definition for_all (l : leaf) : filters := Lv [] [] (Some (leaf_of l)).
Definition two (a b : leaf) : filters := Lv [((9, 9), leaf_of a)] [] (Some (leaf_of b)).
Definition quiet_events : lut := mkLut (Some 0) (Some 0) (Some 0) (Some 0).
Definition no_asb : asb := mkAsb (0, 0) [] [].
Definition payload (enc : bool) : block := mkBlk 1 1 no_asb false enc.
Definition acceptor_both : policy := mkPol (Some (mkSet [1] 0)) (Some (mkSet [1; 7] 0)) false false.
Definition all_good : oracle := mkOr (fun _ => None) (fun _ _ => Readable no_asb) (fun _ => None) (fun _ _ => true).

(** Errors of a security block: the bundle is dropped exactly when the policy demands it, and otherwise exactly the demanded operations and target blocks are removed; the
    targets are always accessed within bounds. *)
Theorem C59_failure_actions_are_exact : forall l acceptor integrity pos es bs b, nth_error bs pos = Some b -> reported (length (a_targets (k_asb b))) es ->
  (fail_all l acceptor integrity pos es bs = Drop <-> dropped_by l acceptor integrity (k_asb b) es) /\
  fail_all l acceptor integrity pos es bs <> Ub /\
  forall bs', fail_all l acceptor integrity pos es bs = Keep bs' -> after l acceptor integrity pos (k_asb b) es bs bs'.
Proof. intros l acceptor integrity pos es bs b H R. exact (outcome_reported l acceptor integrity pos bs b (k_asb b) es H eq_refl R). Qed.
(** Two of three targets of an integrity block are wrong at a verifier that removes operations and target blocks. *)
Definition ex_bib : block := mkBlk 11 5 (mkAsb (9, 9) [2; 1; 3] [true; true; true]) false false.
Definition ex_blocks : list block := [ex_bib; mkBlk 7 2 no_asb false false; mkBlk 10 3 no_asb false false; payload false].
Example C59_failure_actions_example :
  reported 3 [(Some 2%nat, Corrupted); (Some 0%nat, Misconfigured)] /\
  fail_all (mkLut None None (Some 3) (Some 1)) false true 0 [(Some 2%nat, Corrupted); (Some 0%nat, Misconfigured)] ex_blocks =
    Keep [mkBlk 11 5 (mkAsb (9, 9) [1] [true]) false false; mkBlk 7 2 no_asb false false; mkBlk 10 3 no_asb true false; payload false] /\
  fail_all (mkLut None None (Some 3) (Some 8)) false true 0 [(Some 2%nat, Corrupted); (Some 0%nat, Misconfigured)] ex_blocks = Drop /\
  fail_all quiet_events true false 0 [(Some 1%nat, Corrupted)] ex_blocks = Drop.
Proof. split; [apply decr_reported; cbn; lia|]. repeat split. Qed.
Print Assumptions C59_failure_actions_are_exact.

(** One confidentiality block, in whatever bundle. *)
Theorem C59_confidentiality_step_is_exact : forall g o final src dst pos bs b d, nth_error bs pos = Some b -> k_type b = 12 ->
  has_duty g final (a_source (k_asb b)) src dst false d ->
  match d with
  | Nothing => do_bcb g o final src dst pos bs = Keep bs
  | Missing =>
    (do_bcb g o final src dst pos bs = Drop <-> In 1 (a_targets (k_asb b)) \/ N.testbit (g_missing g) 3 = true) /\ do_bcb g o final src dst pos bs <> Ub /\
    forall bs', do_bcb g o final src dst pos bs = Keep bs' -> length bs' = length bs /\ forall i c, nth_error bs i = Some c -> exists c', nth_error bs' i = Some c' /\
      k_type c' = k_type c /\ k_number c' = k_number c /\ k_asb c' = k_asb c /\ k_encrypted c' = k_encrypted c /\
      (k_deleted c' = true <-> k_deleted c = true \/ (N.testbit (g_missing g) 1 = true /\ exists t, In t (a_targets (k_asb b)) /\ is_block bs t i c))
  | Check acceptor st => types_ok false st -> exists bs1 es,
    reports false (bcb_error bs (s_targets st) (negb acceptor) (o_open o pos)) (s_targets st) (o_bcb o pos) (k_asb b) bs es /\
    ((o_bcb o pos <> None \/ ~ well_formed (k_asb b)) -> bs1 = bs) /\
    (o_bcb o pos = None -> well_formed (k_asb b) -> decrypted (s_targets st) (o_open o pos) (negb acceptor) (a_targets (k_asb b)) bs bs1) /\
    (es = [] -> do_bcb g o final src dst pos bs = Keep (upd pos (if acceptor then delete else undelete) bs1)) /\
    (es <> [] -> (do_bcb g o final src dst pos bs = Drop <-> dropped_by (g_events g (s_other st)) acceptor false (k_asb b) es) /\ do_bcb g o final src dst pos bs <> Ub /\
      forall bs', do_bcb g o final src dst pos bs = Keep bs' -> after (g_events g (s_other st)) acceptor false pos (k_asb b) es bs1 bs')
  end.
Proof.
  intros g o final src dst pos bs b d H T D. assert (E := do_step_duty false g o final src dst pos bs b d H D). cbn [do_step] in E. destruct d as [| |acc st].
  - exact E.
  - assert (P : targets_payload (k_asb b) = true <-> In 1 (a_targets (k_asb b))).
    { unfold targets_payload. rewrite existsb_exists. split; [intros [x [X1 X2]]; replace 1 with x by lia; exact X1|intro X; exists 1; split; [exact X|reflexivity]]. }
    rewrite E. unfold fail_missing. cbn [negb andb]. rewrite <- P. destruct (targets_payload (k_asb b)); [split; [tauto|split; discriminate]|].
    destruct (N.testbit (g_missing g) 3); [split; [tauto|split; discriminate]|]. destruct (N.testbit (g_missing g) 1).
    + split; [split; [discriminate|intros [|]; discriminate]|]. split; [discriminate|]. intros bs' [= <-]. unfold remove_targets. replace (U64MAX =? U64MAX) with true by reflexivity.
      split; [apply missing_ids|]. intros i c Hc. destruct (missing_marks (a_targets (k_asb b)) bs i c Hc) as [c' [A [[B1 B2] [B [C Q]]]]]. exists c'. do 5 (split; [auto|]). rewrite Q. tauto.
    + split; [split; [discriminate|intros [|]; discriminate]|]. split; [discriminate|]. intros bs' [= <-]. split; [reflexivity|]. intros i c Hc. exists c. do 5 (split; [auto|]).
      split; [auto|]. intros [|[X _]]; [auto|discriminate].
  - intro K. rewrite (proj2 (types_ok_dec false st) K) in E. cbn [run_step] in E.
    destruct (run_bcb_spec g o acc src dst pos b bs st H T K) as [bs1 [es [_ [R [N [O X]]]]]]. exists bs1, es. split; [exact R|]. split; [exact N|]. split; [exact O|]. rewrite E.
    destruct es as [|e es]; [split; [intros _; exact X|contradiction]|]. split; [discriminate|]. intros _. destruct X as [-> X]. exact X.
Qed.
Definition ex_cfg (p : policy) : config := mkCfg (for_all (Leaf None None (Some p))) (fun _ => quiet_events) 0.
Definition ex_bcb (ts : list N) : block := mkBlk 12 4 (mkAsb (9, 9) ts (map (fun _ => true) ts)) false false.
Example C59_confidentiality_step_example :
  has_duty (ex_cfg acceptor_both) true (9, 9) (1, 1) (2, 1) false (Check true (mkSet [1; 7] 0)) /\ types_ok false (mkSet [1; 7] 0) /\
  do_bcb (ex_cfg acceptor_both) all_good true (1, 1) (2, 1) 0 [ex_bcb [1; 2]; mkBlk 7 2 no_asb false true; payload true] =
    Keep [delete (ex_bcb [1; 2]); mkBlk 7 2 no_asb false false; payload false].
Proof. split; [exists acceptor_both; split; reflexivity|]. split; [intros t [<-|[<-|[]]]; lia|reflexivity]. Qed.
Print Assumptions C59_confidentiality_step_is_exact.

(** One integrity block, in whatever bundle. *)
Theorem C59_integrity_step_is_exact : forall g o final src dst pos bs b d, nth_error bs pos = Some b ->
  has_duty g final (a_source (k_asb b)) src dst true d ->
  match d with
  | Nothing => do_bib g o final src dst pos bs = Keep bs
  | Missing =>
    (do_bib g o final src dst pos bs = Drop <-> N.testbit (g_missing g) 3 = true \/ (N.testbit (g_missing g) 1 = true /\ In 1 (a_targets (k_asb b)))) /\ do_bib g o final src dst pos bs <> Ub /\
    forall bs', do_bib g o final src dst pos bs = Keep bs' -> length bs' = length bs /\ forall i c, nth_error bs i = Some c -> exists c', nth_error bs' i = Some c' /\
      k_type c' = k_type c /\ k_number c' = k_number c /\ k_asb c' = k_asb c /\ k_encrypted c' = k_encrypted c /\
      (k_deleted c' = true <-> k_deleted c = true \/ (N.testbit (g_missing g) 1 = true /\ exists t, In t (a_targets (k_asb b)) /\ is_block bs t i c))
  | Check acceptor st => types_ok true st -> exists es,
    reports true (bib_error bs (s_targets st) (o_hmac o pos)) (s_targets st) (if k_encrypted b then Some Misconfigured else o_bib o pos) (k_asb b) bs es /\
    (es = [] -> do_bib g o final src dst pos bs = Keep (upd pos (if acceptor then delete else undelete) bs)) /\
    (es <> [] -> (do_bib g o final src dst pos bs = Drop <-> dropped_by (g_events g (s_other st)) acceptor true (k_asb b) es) /\ do_bib g o final src dst pos bs <> Ub /\
      forall bs', do_bib g o final src dst pos bs = Keep bs' -> after (g_events g (s_other st)) acceptor true pos (k_asb b) es bs bs')
  end.
Proof.
  intros g o final src dst pos bs b d H D. assert (E := do_step_duty true g o final src dst pos bs b d H D). cbn [do_step] in E. destruct d as [| |acc st].
  - exact E.
  - assert (P : targets_payload (k_asb b) = true <-> In 1 (a_targets (k_asb b))).
    { unfold targets_payload. rewrite existsb_exists. split; [intros [x [X1 X2]]; replace 1 with x by lia; exact X1|intro X; exists 1; split; [exact X|reflexivity]]. }
    rewrite E. unfold fail_missing. cbn [negb andb]. rewrite <- P.
    destruct (N.testbit (g_missing g) 3); [split; [tauto|split; discriminate]|]. destruct (N.testbit (g_missing g) 1).
    + destruct (targets_payload (k_asb b)); [split; [tauto|split; discriminate]|].
      split; [split; [discriminate|intros [|[_ X]]; discriminate]|]. split; [discriminate|]. intros bs' [= <-]. unfold remove_targets. replace (U64MAX =? U64MAX) with true by reflexivity.
      split; [apply missing_ids|]. intros i c Hc. destruct (missing_marks (a_targets (k_asb b)) bs i c Hc) as [c' [A [[B1 B2] [B [C Q]]]]]. exists c'. do 5 (split; [auto|]). rewrite Q. tauto.
    + split; [split; [discriminate|intros [|[X _]]; discriminate]|]. split; [discriminate|]. intros bs' [= <-]. split; [reflexivity|]. intros i c Hc. exists c. do 5 (split; [auto|]).
      split; [auto|]. intros [|[X _]]; [auto|discriminate].
  - intro K. rewrite (proj2 (types_ok_dec true st) K) in E. cbn [run_step] in E.
    destruct (run_bib_spec g o acc src dst pos b bs st H K) as [es [R X]]. exists es. split; [exact R|]. rewrite E.
    destruct es as [|e es]; [split; [intros _; exact X|contradiction]|]. split; [discriminate|]. intros _. destruct X as [-> X]. exact X.
Qed.
Example C59_integrity_step_example :
  has_duty (ex_cfg acceptor_both) false (9, 9) (1, 1) (2, 1) true (Check true (mkSet [1] 0)) /\ types_ok true (mkSet [1] 0) /\
  do_bib (ex_cfg acceptor_both) all_good false (1, 1) (2, 1) 0 [mkBlk 11 4 (mkAsb (9, 9) [1] [true]) false false; payload false] =
    Keep [mkBlk 11 4 (mkAsb (9, 9) [1] [true]) true false; payload false].
Proof. split; [exists acceptor_both; split; reflexivity|]. split; [intros t [<-|[]]; split; [lia|discriminate]|reflexivity]. Qed.
Print Assumptions C59_integrity_step_is_exact.

Lemma process_steps : forall g o me src dst bs, process g o me src dst bs =
  match each (do_step false g o (fst dst =? me) src dst) (of_type (ty false) 0 bs) bs with Keep bs1 => each (do_step true g o (fst dst =? me) src dst) (of_type (ty true) 0 bs1) bs1 | x => x end.
Proof. reflexivity. Qed.
(** No access out of bounds, and what can never change: number, order, types and numbers of the blocks; nothing becomes encrypted. *)
Theorem C59_process_is_safe : forall g o me src dst bs, sane g ->
  process g o me src dst bs <> Ub /\
  forall bs', process g o me src dst bs = Keep bs' -> length bs' = length bs /\ forall i c, nth_error bs i = Some c -> exists c', nth_error bs' i = Some c' /\
    k_type c' = k_type c /\ k_number c' = k_number c /\ (k_encrypted c' = true -> k_encrypted c = true).
Proof.
  intros g o me src dst bs S. rewrite process_steps. destruct (each_ok false g o (fst dst =? me) src dst S _ bs (of_type_valid false bs)) as [U K].
  destruct (each (do_step false g o (fst dst =? me) src dst) (of_type (ty false) 0 bs) bs) as [bs1| |]; [|split; discriminate|contradiction].
  destruct (each_ok true g o (fst dst =? me) src dst S _ bs1 (of_type_valid true bs1)) as [U1 K1]. split; [exact U1|]. intros bs' E. specialize (K1 bs' E). specialize (K bs1 eq_refl).
  destruct (soft_trans _ _ _ K K1) as [I H]. split; [apply I|]. intros i c Hc. destruct (H i c Hc) as [c' [A B]]. destruct (proj2 I i c Hc) as [x [X1 [X2 X3]]]. exists c'. assert (x = c') by congruence. subst x. auto.
Qed.
Example C59_process_is_safe_example : sane (ex_cfg acceptor_both) /\
  process (ex_cfg acceptor_both) all_good 2 (1, 1) (2, 1) [ex_bcb [1; 2]; mkBlk 11 6 (mkAsb (9, 9) [1] [true]) false false; mkBlk 7 2 no_asb false true; payload true] =
    Keep [delete (ex_bcb [1; 2]); mkBlk 11 6 (mkAsb (9, 9) [1] [true]) true false; mkBlk 7 2 no_asb false false; payload false].
Proof.
  split; [|reflexivity]. intros ss bs bd ro p i st H. destruct ro; cbn in H; try discriminate. injection H as <-. destruct i; cbn; intros [= <-] t.
  - intros [<-|[]]. split; [cbn; lia|discriminate].
  - intros [<-|[<-|[]]]; split; cbn; lia.
Qed.
Print Assumptions C59_process_is_safe.

(** If the bundle is not dropped, a payload that an acceptor is to decrypt has been decrypted, and a payload that is encrypted is not at its destination without an acceptor policy. *)
Theorem C59_payload_is_decrypted : forall g o me src dst bs bs' pos b, sane g -> process g o me src dst bs = Keep bs' ->
  nth_error bs pos = Some b -> k_type b = 12 -> In 1 (a_targets (k_asb b)) ->
  (forall p st, find_policy (g_filters g) (a_source (k_asb b)) src dst Acceptor = Some p -> p_conf p = Some st ->
     o_bcb o pos = None /\ (forall j, nth_error (a_targets (k_asb b)) j = Some 1 -> exists a, o_open o pos j = Readable a) /\
     exists i c c', is_block bs 1 i c /\ expected_type (s_targets st) (k_type c) /\ nth_error bs' i = Some c' /\ k_encrypted c' = false) /\
  (find_policy (g_filters g) (a_source (k_asb b)) src dst Acceptor = None -> fst dst <> me).
Proof.
  intros g o me src dst bs bs' pos b S E H T I. rewrite process_steps in E.
  destruct (each (do_step false g o (fst dst =? me) src dst) (of_type (ty false) 0 bs) bs) as [bs1| |] eqn:E1; [|discriminate|discriminate].
  destruct (each_ok true g o (fst dst =? me) src dst S _ bs1 (of_type_valid true bs1)) as [_ K1]. specialize (K1 bs' E).
  destruct (each_split false g o (fst dst =? me) src dst S _ bs bs1 pos (of_type_valid false bs) (of_type_nodup _ _ _) (of_type_in false bs pos b H T) E1) as [bsA [bsB [A1 [A2 A3]]]].
  destruct (proj2 A1 pos b H) as [bA [HA [_ [_ QA]]]]. specialize (QA eq_refl (or_intror T)).
  assert (TA : k_type bA = 12) by (destruct (proj2 (proj1 A1) pos b H) as [x [X1 [X2 _]]]; congruence).
  split.
  - intros p st F P. assert (D : has_duty g (fst dst =? me) (a_source (k_asb bA)) src dst false (Check true st)) by (exists p; rewrite QA; split; [exact F|exact P]).
    assert (OK : types_ok false st) by (exact (S _ _ _ _ p false st F P)).
    assert (X := C59_confidentiality_step_is_exact g o (fst dst =? me) src dst pos bsA bA _ HA TA D OK). cbn [do_step] in A2. rewrite A2 in X. rewrite QA in X. cbn [negb] in X.
    destruct X as [bs2 [es [R [X1 [X2 [X3 X4]]]]]].
    assert (ND : forall e, In e es -> about_payload (a_targets (k_asb b)) e = true -> False).
    { intros e He Pe. destruct es as [|e0 es0]; [destruct He|]. destruct (X4 ltac:(discriminate)) as [[_ Y] _]. assert (Q : Keep bsB = Drop); [|discriminate]. apply Y. left. exists e. split; [exact He|].
      unfold react, reaction. rewrite Pe. destruct (demanded _ _ _); reflexivity. }
    unfold reports in R. destruct (o_bcb o pos) as [c|] eqn:C.
    { exfalso. subst es. exact (ND (None, c) (or_introl eq_refl) eq_refl). }
    destruct R as [[_ ->]|[W [es' [ER R]]]]; [exfalso; exact (ND _ (or_introl eq_refl) eq_refl)|]. split; [reflexivity|].
    assert (ES : es = es') by (destruct R as [[_ R]|[[R1 [_ R]]|[_ [_ R]]]]; [exact R|congruence|exfalso; subst es; exact (ND _ (or_introl eq_refl) eq_refl)]). subst es'.
    destruct ER as [rs [L1 [L2 L3]]]. fold (errs 0 rs) in L3.
    assert (G : forall j, nth_error (a_targets (k_asb b)) j = Some 1 -> exists i c, is_block bsA 1 i c /\ expected_type (s_targets st) (k_type c) /\ exists a, o_open o pos j = Readable a).
    { intros j J. destruct (nth_error rs j) as [r|] eqn:Q; [|apply nth_error_None in Q; assert (j < length (a_targets (k_asb b)))%nat by (apply nth_error_Some; congruence); lia].
      assert (Z := L2 j 1 r J Q). destruct r as [c|].
      - exfalso. apply (ND (Some j, c)); [rewrite L3; apply errs_in; exists j; auto|]. unfold about_payload. cbn [fst]. rewrite J. reflexivity.
      - destruct Z as [[_ Z]|[i [c [Z1 [[_ Z2]|[Z2 Z3]]]]]]; [discriminate|discriminate|]. exists i, c. split; [exact Z1|]. split; [exact Z2|]. destruct (o_open o pos j) as [|a|a]; try discriminate. exists a. reflexivity. }
    split; [intros j J; destruct (G j J) as [i [c [_ [_ Z]]]]; exact Z|].
    destruct (In_nth_error _ _ I) as [j J]. destruct (G j J) as [i [c [Z1 [Z2 [a Z3]]]]].
    destruct (ids_back _ _ _ _ (proj1 A1) (proj1 Z1)) as [c0 [Y1 [Y2 Y3]]].
    destruct (X2 eq_refl W) as [_ DC]. destruct (DC i c (proj1 Z1)) as [c2 [V1 [_ [_ [_ [V2 _]]]]]].
    assert (V3 : k_encrypted c2 = false).
    { apply not_true_is_false. intro V. apply V2 in V. apply (proj2 V). split; [reflexivity|]. exists j, 1. split; [exact J|]. split; [exact Z1|]. split; [exact Z2|]. cbn. rewrite Z3. discriminate. }
    assert (HB : exists c3, nth_error bsB i = Some c3 /\ k_encrypted c3 = false).
    { destruct es as [|e es].
      - specialize (X3 eq_refl). injection X3 as ->. rewrite upd_nth, V1. destruct (pos =? i)%nat; cbn [option_map]; eexists; (split; [reflexivity|exact V3]).
      - destruct (X4 ltac:(discriminate)) as [_ [_ AF]]. destruct (proj2 (AF bsB eq_refl) i c2 V1) as [c3 [U1 [_ [_ [U2 _]]]]]. exists c3. split; [exact U1|congruence]. }
    destruct HB as [c3 [U1 U2]]. destruct (proj2 (soft_trans _ _ _ (calm_soft _ _ _ _ A3) K1) i c3 U1) as [c4 [U3 U4]].
    exists i, c0, c4. split; [apply (is_block_ids _ _ _ _ _ _ (proj1 A1) Y1 (proj1 Z1)); exact Z1|]. split; [rewrite <- Y2; exact Z2|]. split; [exact U3|]. destruct (k_encrypted c4); [rewrite U4 in U2 by reflexivity; discriminate|reflexivity].
  - intros F M. assert (D : has_duty g (fst dst =? me) (a_source (k_asb bA)) src dst false Missing) by (split; [rewrite QA; exact F|apply N.eqb_eq; exact M]).
    assert (X := C59_confidentiality_step_is_exact g o (fst dst =? me) src dst pos bsA bA _ HA TA D). cbn [do_step] in A2. rewrite A2 in X. destruct X as [[_ X] _]. rewrite QA in X. specialize (X (or_introl I)). discriminate.
Qed.
Example C59_payload_is_decrypted_example :
  process (ex_cfg acceptor_both) all_good 2 (1, 1) (2, 1) [ex_bcb [1; 2]; mkBlk 7 2 no_asb false true; payload true] = Keep [delete (ex_bcb [1; 2]); mkBlk 7 2 no_asb false false; payload false] /\
  process (ex_cfg acceptor_both) (mkOr (fun _ => None) (fun _ _ => Failed) (fun _ => None) (fun _ _ => true)) 2 (1, 1) (2, 1) [ex_bcb [1; 2]; mkBlk 7 2 no_asb false true; payload true] = Drop /\
  process (mkCfg (for_all no_leaf) (fun _ => quiet_events) 0) all_good 2 (1, 1) (2, 1) [ex_bcb [1; 2]; mkBlk 7 2 no_asb false true; payload true] = Drop.
Proof. repeat split. Qed.
Print Assumptions C59_payload_is_decrypted.

(** A payload that was changed is dropped, if the policy gives no actions for corrupted targets or one of "remove target block" and "fail forwarding". *)
Theorem C59_corrupted_payload_is_dropped : forall g o me src dst bs pos b acceptor st j i c, sane g -> (forall x, In x bs -> k_type x <> 12) ->
  nth_error bs pos = Some b -> k_type b = 11 -> k_encrypted b = false -> has_duty g (fst dst =? me) (a_source (k_asb b)) src dst true (Check acceptor st) ->
  o_bib o pos = None -> well_formed (k_asb b) -> nth_error (a_targets (k_asb b)) j = Some 1 -> is_block bs 1 i c -> k_encrypted c = false -> expected_type (s_targets st) (k_type c) ->
  o_hmac o pos j = false ->
  (demanded (g_events g (s_other st)) acceptor Corrupted = None \/
   exists mask, demanded (g_events g (s_other st)) acceptor Corrupted = Some mask /\ (N.testbit mask 1 = true \/ N.testbit mask 3 = true)) ->
  process g o me src dst bs = Drop.
Proof.
  intros g o me src dst bs pos b acc st j i c S NB H T EN D OB W J B EC X HM EV. destruct (process g o me src dst bs) as [bs'| |] eqn:E; [|reflexivity|]; exfalso.
  2:{ exact (proj1 (C59_process_is_safe g o me src dst bs S) E). }
  rewrite process_steps in E.
  replace (of_type (ty false) 0 bs) with (@nil nat) in E.
  2:{ destruct (of_type (ty false) 0 bs) as [|p ps] eqn:Q; [reflexivity|]. exfalso. destruct (of_type_valid false bs p) as [x [X1 X2]]; [rewrite Q; left; reflexivity|]. apply (NB x); [eapply nth_error_In; exact X1|exact X2]. }
  cbn [each] in E.
  destruct (each_split true g o (fst dst =? me) src dst S _ bs bs' pos (of_type_valid true bs) (of_type_nodup _ _ _) (of_type_in true bs pos b H T) E) as [bsA [bsB [A1 [A2 A3]]]].
  destruct (proj2 A1 pos b H) as [bA [HA [_ [EA QA]]]]. specialize (QA eq_refl (or_introl eq_refl)). specialize (EA eq_refl).
  assert (OK : types_ok true st).
  { destruct acc; cbn [has_duty] in D; [destruct D as [p [D1 D2]]|destruct D as [_ [_ [p [D1 D2]]]]]; exact (S _ _ _ _ p true st D1 D2). }
  assert (X0 := C59_integrity_step_is_exact g o (fst dst =? me) src dst pos bsA bA (Check acc st) HA ltac:(rewrite QA; exact D) OK). cbn [do_step] in A2. rewrite A2, QA, EA, EN, OB in X0.
  destruct X0 as [es [R [_ X4]]].
  destruct (proj2 A1 i c (proj1 B)) as [cA [CA [_ [C1 _]]]]. specialize (C1 eq_refl). destruct (proj2 (proj1 A1) i c (proj1 B)) as [x [Y1 [Y2 Y3]]]. assert (x = cA) by congruence. subst x.
  assert (BA : is_block bsA 1 i cA) by (apply (is_block_ids _ _ _ _ _ _ (proj1 A1) (proj1 B) CA); exact B).
  destruct R as [[N _]|[_ [es' [[rs [L1 [L2 L3]]] R]]]]; [exact (N W)|]. fold (errs 0 rs) in L3.
  assert (IN : In (Some j, Corrupted) es').
  { destruct (nth_error rs j) as [r|] eqn:Q; [|apply nth_error_None in Q; assert (j < length (a_targets (k_asb b)))%nat by (apply nth_error_Some; congruence); lia].
    assert (Z := L2 j 1 r J Q). assert (r = Some Corrupted).
    { destruct Z as [[Z _]|[[Z _]|[[_ [Z _]]|[_ [k [y [Z1 Z]]]]]]]; [discriminate|discriminate|exfalso; apply (Z cA); [eapply nth_error_In; exact CA|apply BA]|].
      assert (k = i). { destruct (Nat.lt_trichotomy k i) as [Lt|[Eq|Lt]]; [exfalso; eapply (proj2 (proj2 BA)); [exact Lt|apply Z1|apply Z1]|exact Eq|exfalso; eapply (proj2 (proj2 Z1)); [exact Lt|apply BA|apply BA]]. }
      subst k. assert (y = cA) by (destruct Z1; congruence). subst y. destruct Z as [[[Z|Z] _]|[_ [_ Z]]]; [congruence|exfalso; apply Z; rewrite Y2; exact X|rewrite HM in Z; exact Z]. }
    subst r. rewrite L3. apply errs_in. exists j. auto. }
  assert (HE : es = es') by (destruct R as [[_ R]|[[R _]|[R _]]]; [exact R|rewrite R in IN; destruct IN|rewrite R in IN; destruct IN]). rewrite <- HE in IN. clear L3.
  assert (NE : es <> []) by (intro Q; rewrite Q in IN; destruct IN). destruct (X4 NE) as [[_ Y] _]. assert (Q : Keep bsB = Drop); [|discriminate]. apply Y. left. exists (Some j, Corrupted). split; [exact IN|].
  unfold react, reaction, about_payload. cbn [fst snd]. rewrite J. cbn [N.eqb Pos.eqb orb]. rewrite andb_true_r. destruct EV as [->|[mask [-> [M|M]]]]; [reflexivity| |]; rewrite M; cbn [andb]; destruct (acc && negb true); try reflexivity; destruct (N.testbit mask 3); reflexivity.
Qed.
Example C59_corrupted_payload_example :
  process (mkCfg (for_all (Leaf None (Some acceptor_both) None)) (fun _ => mkLut None None (Some 2) (Some 0)) 0) (mkOr (fun _ => None) (fun _ _ => Failed) (fun _ => None) (fun _ j => negb (j =? 0)%nat)) 3 (1, 1) (2, 1)
    [mkBlk 11 4 (mkAsb (9, 9) [1] [true]) false false; payload false] = Drop /\
  process (mkCfg (for_all (Leaf None (Some acceptor_both) None)) (fun _ => mkLut None None (Some 2) (Some 0)) 0) all_good 3 (1, 1) (2, 1)
    [mkBlk 11 4 (mkAsb (9, 9) [1] [true]) false false; payload false] = Keep [mkBlk 11 4 (mkAsb (9, 9) [1] [true]) false false; payload false].
Proof. split; reflexivity. Qed.
Print Assumptions C59_corrupted_payload_is_dropped.

(** A node with no duties about the security blocks of a bundle leaves it alone. *)
Theorem C59_bystanders_change_nothing : forall g o me src dst bs,
  (forall b, In b bs -> k_type b = 11 -> has_duty g (fst dst =? me) (a_source (k_asb b)) src dst true Nothing) ->
  (forall b, In b bs -> k_type b = 12 -> has_duty g (fst dst =? me) (a_source (k_asb b)) src dst false Nothing) ->
  process g o me src dst bs = Keep bs.
Proof.
  intros g o me src dst bs H1 H2. rewrite process_steps.
  assert (G : forall int ps, (forall b, In b bs -> k_type b = ty int -> has_duty g (fst dst =? me) (a_source (k_asb b)) src dst int Nothing) -> valid int bs ps -> each (do_step int g o (fst dst =? me) src dst) ps bs = Keep bs).
  { intros int ps Hd. induction ps as [|p ps IH]; intro V; cbn [each]; [reflexivity|]. destruct (V p (or_introl eq_refl)) as [b [B1 B2]].
    rewrite (do_step_duty int g o (fst dst =? me) src dst p bs b Nothing B1); [apply IH; intros q Q; apply V; right; exact Q|]. apply Hd; [eapply nth_error_In; exact B1|exact B2]. }
  rewrite (G false); [|exact H2|apply of_type_valid]. apply G; [exact H1|apply of_type_valid].
Qed.
Example C59_bystanders_example :
  process (mkCfg (for_all no_leaf) (fun _ => quiet_events) 15) all_good 3 (1, 1) (2, 1) [ex_bcb [1; 2]; ex_bib; mkBlk 7 2 no_asb false true; payload true] =
    Keep [ex_bcb [1; 2]; ex_bib; mkBlk 7 2 no_asb false true; payload true].
Proof. reflexivity. Qed.
Print Assumptions C59_bystanders_change_nothing.

Lemma sane_all : forall l e m, (forall ro p i st, slot ro l = Some p -> service i p = Some st -> types_ok i st) -> sane (mkCfg (for_all l) e m).
Proof. intros l e m H ss bs bd ro p i st F. apply (H ro). destruct ro; exact F. Qed.
Lemma both_ok : forall i st, service i acceptor_both = Some st -> types_ok i st.
Proof. intros [|]; cbn; intros st [= <-] t; [intros [<-|[]]|intros [<-|[<-|[]]]]; split; cbn; try lia; discriminate. Qed.

(** False: if an acceptor policy that applies whatever the security source demands integrity and confidentiality of the payload, a bundle without security blocks is dropped. Someone who
    strips the security blocks of a bundle before changing it is not noticed: only blocks that are there are looked at. *)
Theorem C59_stripped_bundles_are_dropped_refuted : exists g o me src dst bs p,
  sane g /\ (forall ss, find_policy (g_filters g) ss src dst Acceptor = Some p) /\ p_int p = Some (mkSet [1] 0) /\ p_conf p = Some (mkSet [1; 7] 0) /\ fst dst = me /\
  (exists b, is_block bs 1 0 b /\ k_type b = 1) /\ process g o me src dst bs = Keep bs.
Proof.
  exists (ex_cfg acceptor_both), (mkOr (fun _ => Some Corrupted) (fun _ _ => Failed) (fun _ => Some Corrupted) (fun _ _ => false)), 2, (1, 1), (2, 1), [payload false], acceptor_both.
  split; [apply sane_all; intros [| |] p i st; cbn; try discriminate; intros [= <-]; apply both_ok|].
  do 4 (split; [reflexivity|]). split; [|reflexivity]. exists (payload false). split; [|reflexivity]. split; [reflexivity|]. split; [reflexivity|]. intros j c L. lia.
Qed.
Print Assumptions C59_stripped_bundles_are_dropped_refuted.

(** False: a payload that is still encrypted does not get to its destination. It does if there is an acceptor policy for the security source that says nothing about confidentiality. *)
Theorem C59_encrypted_payload_is_not_delivered_refuted : exists g o me src dst bs b c,
  sane g /\ fst dst = me /\ In b bs /\ k_type b = 12 /\ k_deleted b = false /\ In 1 (a_targets (k_asb b)) /\ In c bs /\ k_number c = 1 /\ k_encrypted c = true /\
  process g o me src dst bs = Keep bs.
Proof.
  exists (ex_cfg (mkPol (Some (mkSet [1] 0)) None false false)), all_good, 2, (1, 1), (2, 1), [ex_bcb [1]; payload true], (ex_bcb [1]), (payload true).
  split; [apply sane_all; intros [| |] p i st; cbn; try discriminate; intros [= <-]; destruct i; cbn; try discriminate; intros [= <-] t [<-|[]]; split; [cbn; lia|discriminate]|].
  split; [reflexivity|]. split; [left; reflexivity|]. do 2 (split; [reflexivity|]). split; [left; reflexivity|]. split; [right; left; reflexivity|]. repeat split.
Qed.
Print Assumptions C59_encrypted_payload_is_not_delivered_refuted.

(** False: after processing, a block that is not encrypted any more is not the target of a confidentiality block that is kept. It is if decrypting another target fails: that
    operation is removed and its target discarded, but the operations that succeeded stay in the block, so that the next node tries to decrypt plaintext. *)
Theorem C59_decrypted_blocks_are_not_targets_refuted : exists g o me src dst bs bs' b c,
  sane g /\ process g o me src dst bs = Keep bs' /\ In b bs' /\ k_type b = 12 /\ k_deleted b = false /\ In 1 (a_targets (k_asb b)) /\
  In (payload true) bs /\ In c bs' /\ k_number c = 1 /\ k_encrypted c = false.
Proof.
  exists (ex_cfg acceptor_both), (mkOr (fun _ => None) (fun _ j => if (j =? 0)%nat then Readable no_asb else Failed) (fun _ => None) (fun _ _ => true)), 3, (1, 1), (2, 1),
    [ex_bcb [1; 2]; mkBlk 7 2 no_asb false true; payload true].
  eexists. exists (ex_bcb [1]), (payload false).
  split; [apply sane_all; intros [| |] p i st; cbn; try discriminate; intros [= <-]; apply both_ok|].
  split; [vm_compute; reflexivity|]. split; [left; reflexivity|]. do 2 (split; [reflexivity|]). split; [left; reflexivity|]. split; [right; right; left; reflexivity|]. split; [right; right; left; reflexivity|]. split; reflexivity.
Qed.
Print Assumptions C59_decrypted_blocks_are_not_targets_refuted.

(** False (RFC 9172, 5.1.1, cited at BpSecPolicyManager.cpp:411-413): when a target is discarded because it cannot be decrypted, so is every integrity operation on it. *)
Theorem C59_operations_of_discarded_blocks_are_removed_refuted : exists g o me src dst bs bs' b c,
  sane g /\ process g o me src dst bs = Keep bs' /\ In b bs' /\ k_type b = 11 /\ k_deleted b = false /\ In 2 (a_targets (k_asb b)) /\
  In (mkBlk 7 2 no_asb false true) bs /\ In c bs' /\ k_number c = 2 /\ k_deleted c = true.
Proof.
  exists (ex_cfg (mkPol None (Some (mkSet [1; 7] 0)) false false)), (mkOr (fun _ => None) (fun _ j => Failed) (fun _ => None) (fun _ _ => true)), 3, (1, 1), (2, 1),
    [ex_bcb [2]; mkBlk 11 5 (mkAsb (9, 9) [2] [true]) false false; mkBlk 7 2 no_asb false true; payload false].
  eexists. exists (mkBlk 11 5 (mkAsb (9, 9) [2] [true]) false false), (mkBlk 7 2 no_asb true true).
  split; [apply sane_all; intros [| |] p i st; cbn; try discriminate; intros [= <-]; destruct i; cbn; try discriminate; intros [= <-] t [<-|[<-|[]]]; split; cbn; lia|].
  split; [vm_compute; reflexivity|]. split; [right; left; reflexivity|]. do 2 (split; [reflexivity|]). split; [left; reflexivity|]. split; [right; right; left; reflexivity|]. split; [right; right; left; reflexivity|]. split; reflexivity.
Qed.
Print Assumptions C59_operations_of_discarded_blocks_are_removed_refuted.

(** False: a block that was marked for deletion because the policy says so stays marked. An integrity block that is the target of another one and is itself right is un-marked. *)
Theorem C59_marked_blocks_stay_marked_refuted : exists g o me src dst bs bs1 bs',
  sane g /\ do_bib g o false src dst 0 bs = Keep bs1 /\ fst dst <> me /\ (exists b, nth_error bs1 1 = Some b /\ k_deleted b = true) /\
  process g o me src dst bs = Keep bs' /\ (exists b, nth_error bs' 1 = Some b /\ k_deleted b = false).
Proof.
  exists (mkCfg (two (Leaf None (Some (mkPol (Some (mkSet [11] 0)) None false false)) None) (Leaf None (Some acceptor_both) None)) (fun _ => mkLut None None (Some 2) (Some 2)) 0),
    (mkOr (fun _ => None) (fun _ _ => Failed) (fun _ => None) (fun p _ => negb (p =? 0)%nat)), 3, (1, 1), (2, 1),
    [mkBlk 11 4 (mkAsb (9, 9) [5] [true]) false false; mkBlk 11 5 (mkAsb (8, 8) [1] [true]) false false; payload false].
  eexists. eexists.
  split.
  { intros ss bs bd ro p i st H. assert (p = mkPol (Some (mkSet [11] 0)) None false false \/ p = acceptor_both) as [-> | ->].
    { unfold find_policy, two, next in H. cbn [g_filters l_eid l_node l_any find_key fst snd] in H. match type of H with context [eid_eqb ?a ?b] => destruct (eid_eqb a b) end; destruct ro; cbn in H; try discriminate; injection H as <-; auto. }
    - destruct i; cbn; try discriminate. intros [= <-] t [<-|[]]. split; [cbn; lia|discriminate].
    - apply both_ok. }
  split; [vm_compute; reflexivity|]. split; [cbn; lia|]. split; [eexists; split; reflexivity|]. split; [vm_compute; reflexivity|]. eexists; split; reflexivity.
Qed.
Print Assumptions C59_marked_blocks_stay_marked_refuted.
