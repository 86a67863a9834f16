(** Lemmas about the processing of received security blocks: integrity, and whole bundles. *)
From Coq Require Import PeanoNat NArith List Bool Lia ZifyBool ZifyN.
From Verif Require Import Base M_Uri M_Policy M_PolicyRx S_PolicyRx L_PolicyRx.
Import ListNotations.
Open Scope N_scope.

Definition has_type bs targets t : Prop := exists n, In n targets /\ target_type true bs n t.
Lemma check_targets_spec : forall ts o bs targets j es got, exists rs got',
  check_targets (types_mask ts) o targets j bs es got = (errs j rs ++ es, got') /\ length rs = length targets /\
  (forall k t r, nth_error targets k = Some t -> nth_error rs k = Some r -> bib_error bs ts o (j + k) t r) /\
  (forall x, N.testbit got' x = true -> N.testbit got x = true \/ (x <= 63 /\ In x ts /\ has_type bs targets x)) /\
  (forall x, N.testbit got x = true -> N.testbit got' x = true) /\
  ((forall r, In r rs -> r = None) -> forall x, x <= 63 -> has_type bs targets x -> N.testbit got' x = true).
Proof.
  intros ts o bs. induction targets as [|t r IH]; intros j es got.
  { exists [], got. cbn [check_targets]. split; [reflexivity|]. split; [reflexivity|]. split; [intros [|k] t r; discriminate|].
    split; [auto|]. split; [auto|]. intros _ x _ [n [[] _]]. }
  assert (STEP : forall res got1,
     bib_error bs ts o j t res ->
     check_targets (types_mask ts) o (t :: r) j bs es got = check_targets (types_mask ts) o r (S j) bs (match res with Some c => [(Some j, c)] | None => [] end ++ es) got1 ->
     (forall x, N.testbit got1 x = true -> N.testbit got x = true \/ (x <= 63 /\ In x ts /\ has_type bs [t] x)) ->
     (forall x, N.testbit got x = true -> N.testbit got1 x = true) ->
     (res = None -> forall x, x <= 63 -> has_type bs [t] x -> N.testbit got1 x = true) ->
     exists rs got', check_targets (types_mask ts) o (t :: r) j bs es got = (errs j rs ++ es, got') /\ length rs = length (t :: r) /\
      (forall k t0 r0, nth_error (t :: r) k = Some t0 -> nth_error rs k = Some r0 -> bib_error bs ts o (j + k) t0 r0) /\
      (forall x, N.testbit got' x = true -> N.testbit got x = true \/ (x <= 63 /\ In x ts /\ has_type bs (t :: r) x)) /\
      (forall x, N.testbit got x = true -> N.testbit got' x = true) /\
      ((forall r, In r rs -> r = None) -> forall x, x <= 63 -> has_type bs (t :: r) x -> N.testbit got' x = true)).
  { intros res got1 E0 E1 G1 G2 G3. destruct (IH (S j) (match res with Some c => [(Some j, c)] | None => [] end ++ es) got1) as [rs [got' [A1 [A2 [A3 [A5 [A6 A7]]]]]]].
    exists (res :: rs), got'. rewrite E1, A1, errs_cons, <- app_assoc. split; [reflexivity|]. split; [cbn; lia|]. split.
    { intros [|k] t0 r0 K1 K2; cbn [nth_error] in K1, K2.
      - injection K1 as <-. injection K2 as <-. rewrite Nat.add_0_r. exact E0.
      - replace (j + S k)%nat with (S j + k)%nat by lia. apply A3; assumption. }
    assert (TC : forall x, has_type bs (t :: r) x <-> has_type bs [t] x \/ has_type bs r x).
    { intro x. unfold has_type. split.
      - intros [n [[<-|N] B]]; [left|right]; [exists t; split; [left; reflexivity|exact B]|exists n; auto].
      - intros [[n [[<-|[]] B]]|[n [N B]]]; [exists t|exists n]; (split; [cbn; auto|exact B]). }
    split.
    { intros x X. rewrite TC. destruct (A5 x X) as [Y|Y]; [destruct (G1 x Y) as [Z|Z]; [auto|right; tauto]|right; tauto]. }
    split; [auto|]. intros AN x X Y. apply TC in Y. destruct Y as [Y|Y].
    - apply A6, G3; auto. apply AN. left. reflexivity.
    - apply A7; auto. intros; apply AN; right; auto. }
  destruct (t =? 0) eqn:Z.
  { apply N.eqb_eq in Z. subst t. destruct (N.testbit (types_mask ts) 0) eqn:B0.
    - assert (I0 : In 0 ts) by (apply types_mask_spec; exact B0).
      apply (STEP (if o j then None else Some Corrupted) (N.lor got 1)).
      + right. left. auto.
      + cbn [check_targets]. rewrite N.eqb_refl, B0. destruct (o j); reflexivity.
      + intros x. change 1 with (N.shiftl 1 0). rewrite bit_or. intros [Y | -> ]; [auto|]. right. split; [lia|]. split; [exact I0|]. exists 0. split; [left; reflexivity|]. right. auto.
      + intros x Y. change 1 with (N.shiftl 1 0). rewrite bit_or. auto.
      + intros _ x L [n [[<-|[]] [[[W|W] _]|[_ [_ W]]]]]; [discriminate|contradiction (W eq_refl)|]. subst x. change 1 with (N.shiftl 1 0). rewrite bit_or. auto.
    - assert (I0 : ~ In 0 ts) by (rewrite <- types_mask_spec, B0; discriminate).
      apply (STEP (Some Misconfigured) got); auto.
      + left. auto.
      + cbn [check_targets]. rewrite N.eqb_refl, B0. reflexivity.
      + discriminate. }
  assert (Z' := Z). apply N.eqb_neq in Z'.
  destruct (find_number t bs) as [i|] eqn:F.
  2:{ apply (STEP (Some Corrupted) got); auto.
    - right. right. left. split; [exact Z'|]. split; [apply find_number_none; exact F|reflexivity].
    - cbn [check_targets]. rewrite Z, F. reflexivity.
    - discriminate. }
  destruct (find_number_some _ _ _ F) as [b B]. assert (Nb := proj1 B).
  destruct (k_encrypted b) eqn:E.
  { apply (STEP (Some Misconfigured) got); auto.
    - right. right. right. split; [exact Z'|]. exists i, b. split; [exact B|]. left. auto.
    - cbn [check_targets]. rewrite Z, F, Nb, E. reflexivity.
    - discriminate. }
  destruct ((k_type b <=? 63) && negb (N.testbit (types_mask ts) (k_type b))) eqn:X.
  { assert (X' := X). apply expected_dec in X'. apply (STEP (Some Misconfigured) got); auto.
    - right. right. right. split; [exact Z'|]. exists i, b. split; [exact B|]. left. auto.
    - cbn [check_targets]. rewrite Z, F, Nb, E, X. reflexivity.
    - discriminate. }
  assert (X' := X). apply expected_dec' in X'.
  apply (STEP (if o j then None else Some Corrupted) (if k_type b <=? 63 then N.lor got (N.shiftl 1 (k_type b)) else got)).
  - right. right. right. split; [exact Z'|]. exists i, b. split; [exact B|]. right. auto.
  - cbn [check_targets]. rewrite Z, F, Nb, E, X. destruct (o j); reflexivity.
  - intros x. destruct (k_type b <=? 63) eqn:Q; [|auto]. rewrite bit_or. apply N.leb_le in Q. intros [Y | -> ]; [auto|]. right. split; [exact Q|]. split; [apply X'; exact Q|].
    exists t. split; [left; reflexivity|]. left. split; [right; exact Z'|]. exists i, b. auto.
  - intros x. destruct (k_type b <=? 63); [|auto]. rewrite bit_or. auto.
  - intros _ x L [n [[<-|[]] [[_ [k [c [C1 C2]]]]|[_ [W _]]]]]; [|contradiction]. destruct (is_block_fun _ _ _ _ _ _ B C1) as [_ <-]. subst x.
    replace (k_type b <=? 63) with true by (symmetry; apply N.leb_le; exact L). rewrite bit_or. auto.
Qed.

Lemma mask_eq : forall ts got, (forall t, In t ts -> t <= 63) -> (forall x, N.testbit got x = true -> x <= 63 /\ In x ts) ->
  ((got =? types_mask ts) = true <-> forall t, In t ts -> N.testbit got t = true).
Proof.
  intros ts got L H. rewrite N.eqb_eq. split.
  - intros -> t I. apply types_mask_spec. exact I.
  - intro A. apply N.bits_inj. intro x. destruct (N.testbit (types_mask ts) x) eqn:E.
    + apply A, types_mask_spec, E.
    + destruct (N.testbit got x) eqn:G; [|reflexivity]. destruct (H x G) as [_ I]. apply types_mask_spec in I. congruence.
Qed.

Lemma well_formed_dec : forall a, ((tags a =? length (a_targets a))%nat = true /\ a_targets a <> []) <-> well_formed a.
Proof. intro a. unfold well_formed. rewrite Nat.eqb_eq. tauto. Qed.

Lemma decr_reported : forall l n, decr n l -> reported n l.
Proof.
  intros l n RD. right. split.
  - intros [o1 c1] He. destruct (decr_in _ _ _ _ RD He) as [k [-> Hk]]. exists k. auto.
  - revert n RD. induction l as [|[[j|] c] r IH]; intros n D i k x y H1 H2 z w H3; [destruct i; discriminate| |destruct D].
    destruct D as [D1 D2]. destruct i; cbn [nth_error] in H2.
    + injection H2 as <- <-. destruct k; [lia|]. cbn [nth_error] in H3. apply nth_error_In in H3. destruct (decr_in _ _ _ _ D2 H3) as [q [[= <-] Q]]. exact Q.
    + destruct k; [lia|]. cbn [nth_error] in H3. exact (IH j D2 i k x y ltac:(lia) H2 z w H3).
Qed.
Lemma try_decrypt_spec : forall ts pre o verify pos a bs, (forall t, In t ts -> t <= 63) ->
  exists bs1 es, try_decrypt (types_mask ts) pre o verify pos a bs = ((match es with [] => upd pos (if verify then undelete else delete) bs1 | _ => bs1 end), es) /\
    reports false (bcb_error bs ts verify o) ts pre a bs es /\
    ((pre <> None \/ ~ well_formed a) -> bs1 = bs) /\ (pre = None -> well_formed a -> opened_by ts o verify 0 (a_targets a) bs bs1) /\
    reported (length (a_targets a)) es.
Proof.
  intros ts pre o verify pos a bs L. unfold try_decrypt, reports. destruct pre as [c|].
  { exists bs, [(None, c)]. split; [reflexivity|]. split; [reflexivity|]. split; [auto|]. split; [discriminate|]. left. exists c. reflexivity. }
  destruct (tags a =? length (a_targets a))%nat eqn:T; cbn [negb].
  2:{ assert (~ well_formed a) by (rewrite <- well_formed_dec, T; intros []; discriminate).
      exists bs, [(None, Corrupted)]. split; [reflexivity|]. split; [auto|]. split; [auto|]. split; [contradiction|]. left. exists Corrupted. reflexivity. }
  destruct (a_targets a) as [|t0 tr] eqn:A.
  { assert (~ well_formed a) by (intros [_ W]; contradiction).
    exists bs, [(None, Corrupted)]. split; [reflexivity|]. split; [auto|]. split; [auto|]. split; [contradiction|]. left. exists Corrupted. reflexivity. }
  assert (W : well_formed a) by (split; [apply Nat.eqb_eq; rewrite A; exact T|rewrite A; discriminate]).
  rewrite <- A. rewrite <- A in T. clear t0 tr A.
  destruct (open_targets_spec ts o verify (a_targets a) 0 bs [] 0) as [rs [bs1 [got [E [E1 [E2 [E3 [E4 [_ E6]]]]]]]]]. rewrite app_nil_r in E. rewrite E.
  assert (ER : errors_of (bcb_error bs ts verify o) (a_targets a) (errs 0 rs)).
  { exists rs. split; [exact E1|]. split; [exact E2|reflexivity]. }
  assert (RD : decr (length (a_targets a)) (errs 0 rs)).
  { rewrite <- (app_nil_r (errs 0 rs)). apply (errs_decr rs 0 (length (a_targets a))) with (m := 0%nat); [lia|lia|exact I|lia]. }
  destruct (errs 0 rs) as [|e es] eqn:X.
  - assert (G : (got =? types_mask ts) = true <-> all_types false bs (a_targets a) ts).
    { rewrite mask_eq; [|exact L|intros x Q; destruct (E4 x Q) as [Y|[Y1 [Y2 _]]]; [rewrite N.bits_0 in Y; discriminate|auto]].
      unfold all_types, target_type. split.
      - intros H t It. destruct (E4 t (H t It)) as [Y|[_ [_ [n [i [b [Y1 [Y2 Y3]]]]]]]]; [rewrite N.bits_0 in Y; discriminate|]. exists n. split; [exact Y1|]. left. split; [auto|]. exists i, b. auto.
      - intros H t It. apply E6; [apply (errs_nil rs 0); exact X|auto|]. destruct (H t It) as [n [Y1 [[_ [i [b [Y2 Y3]]]]|[Y _]]]]; [exists n, i, b; auto|discriminate]. }
    destruct (got =? types_mask ts) eqn:Q.
    + exists bs1, []. split; [destruct verify; reflexivity|]. split; [right; split; [exact W|]; exists []; split; [exact ER|]; right; left; split; [reflexivity|]; split; [apply G; reflexivity|reflexivity]|].
      split; [intros [H|H]; [congruence|contradiction]|]. split; [auto|]. right. split; [intros e []|]. intros i k x y _ H; destruct i; discriminate.
    + exists bs1, [(None, Misconfigured)]. split; [reflexivity|]. split.
      { right. split; [exact W|]. exists []. split; [exact ER|]. right. right. split; [reflexivity|]. split; [intro H; apply G in H; discriminate|reflexivity]. }
      split; [intros [H|H]; [congruence|contradiction]|]. split; [auto|]. left. exists Misconfigured. reflexivity.
  - exists bs1, (e :: es). split; [reflexivity|]. split; [right; split; [exact W|]; exists (e :: es); split; [exact ER|]; left; split; [discriminate|reflexivity]|].
    split; [intros [H|H]; [congruence|contradiction]|]. split; [auto|]. apply decr_reported. exact RD.
Qed.
Lemma try_verify_spec : forall ts pre o accept pos enc a bs, (forall t, In t ts -> t <= 63) ->
  exists es, try_verify (types_mask ts) pre o accept pos enc a bs = ((match es with [] => upd pos (if accept then delete else undelete) bs | _ => bs end), es) /\
    reports true (bib_error bs ts o) ts (if enc then Some Misconfigured else pre) a bs es /\ reported (length (a_targets a)) es.
Proof.
  intros ts pre o accept pos enc a bs L. unfold try_verify, reports. destruct enc.
  { exists [(None, Misconfigured)]. split; [reflexivity|]. split; [reflexivity|]. left. exists Misconfigured. reflexivity. }
  destruct pre as [c|].
  { exists [(None, c)]. split; [reflexivity|]. split; [reflexivity|]. left. exists c. reflexivity. }
  destruct (tags a =? length (a_targets a))%nat eqn:T; cbn [negb].
  2:{ assert (~ well_formed a) by (rewrite <- well_formed_dec, T; intros []; discriminate).
      exists [(None, Corrupted)]. split; [reflexivity|]. split; [auto|]. left. exists Corrupted. reflexivity. }
  destruct (a_targets a) as [|t0 tr] eqn:A.
  { assert (~ well_formed a) by (intros [_ W]; contradiction).
    exists [(None, Corrupted)]. split; [reflexivity|]. split; [auto|]. left. exists Corrupted. reflexivity. }
  assert (W : well_formed a) by (split; [apply Nat.eqb_eq; rewrite A; exact T|rewrite A; discriminate]).
  rewrite <- A. rewrite <- A in T. clear t0 tr A.
  destruct (check_targets_spec ts o bs (a_targets a) 0 [] 0) as [rs [got [E [E1 [E2 [E4 [_ E6]]]]]]]. rewrite app_nil_r in E. rewrite E.
  assert (ER : errors_of (bib_error bs ts o) (a_targets a) (errs 0 rs)).
  { exists rs. split; [exact E1|]. split; [exact E2|reflexivity]. }
  assert (RD : decr (length (a_targets a)) (errs 0 rs)).
  { rewrite <- (app_nil_r (errs 0 rs)). apply (errs_decr rs 0 (length (a_targets a))) with (m := 0%nat); [lia|lia|exact I|lia]. }
  apply decr_reported in RD.
  destruct (errs 0 rs) as [|e es] eqn:X.
  - assert (G : (got =? types_mask ts) = true <-> all_types true bs (a_targets a) ts).
    { rewrite mask_eq; [|exact L|intros x Q; destruct (E4 x Q) as [Y|[Y1 [Y2 _]]]; [rewrite N.bits_0 in Y; discriminate|auto]].
      unfold all_types. split.
      - intros H t It. destruct (E4 t (H t It)) as [Y|[_ [_ Y]]]; [rewrite N.bits_0 in Y; discriminate|exact Y].
      - intros H t It. apply E6; [apply (errs_nil rs 0); exact X|auto|]. exact (H t It). }
    destruct (got =? types_mask ts) eqn:Q.
    + exists []. split; [destruct accept; reflexivity|]. split; [right; split; [exact W|]; exists []; split; [exact ER|]; right; left; split; [reflexivity|]; split; [apply G; reflexivity|reflexivity]|exact RD].
    + exists [(None, Misconfigured)]. split; [reflexivity|]. split; [|left; exists Misconfigured; reflexivity].
      right. split; [exact W|]. exists []. split; [exact ER|]. right. right. split; [reflexivity|]. split; [intro H; apply G in H; discriminate|reflexivity].
  - exists (e :: es). split; [reflexivity|]. split; [|exact RD]. right; split; [exact W|]; exists (e :: es); split; [exact ER|]; left; split; [discriminate|reflexivity].
Qed.

(** One security block. *)
Lemma types_ok_dec : forall i st, targets_ok i (s_targets st) = true <-> types_ok i st.
Proof.
  intros i st. unfold targets_ok, types_ok. rewrite forallb_forall. split.
  - intros H t It. specialize (H t It). apply andb_true_iff in H. destruct H as [A B]. split; [lia|]. intros ->. cbn [orb] in B. lia.
  - intros H t It. destruct (H t It) as [A B]. apply andb_true_iff. split; [lia|]. destruct i; [reflexivity|]. cbn [orb]. specialize (B eq_refl). lia.
Qed.
Definition run_bcb g o acceptor (src dst : N * N) pos (b : block) bs (st : settings) : res :=
  match try_decrypt (types_mask (s_targets st)) (o_bcb o pos) (o_open o pos) (negb acceptor) pos (k_asb b) bs with (bs1, es) => fail_all (g_events g (s_other st)) acceptor false pos es bs1 end.
Definition run_bib g o acceptor (src dst : N * N) pos (b : block) bs (st : settings) : res :=
  match try_verify (types_mask (s_targets st)) (o_bib o pos) (o_hmac o pos) acceptor pos (k_encrypted b) (k_asb b) bs with (bs1, es) => fail_all (g_events g (s_other st)) acceptor true pos es bs1 end.
Definition run_step (integrity : bool) g o acceptor (src dst : N * N) pos b bs st : res :=
  if integrity then run_bib g o acceptor src dst pos b bs st else run_bcb g o acceptor src dst pos b bs st.
Definition do_step (integrity : bool) := if integrity then do_bib else do_bcb.
Lemma do_step_duty : forall integrity g o final src dst pos bs b d, nth_error bs pos = Some b -> has_duty g final (a_source (k_asb b)) src dst integrity d ->
  do_step integrity g o final src dst pos bs = match d with
    | Nothing => Keep bs | Missing => fail_missing (g_missing g) (k_asb b) integrity bs
    | Check acc st => if targets_ok integrity (s_targets st) then run_step integrity g o acc src dst pos b bs st else Ub end.
Proof.
  intros integrity g o final src dst pos bs b d H D. destruct integrity; unfold do_step, do_bib, do_bcb, run_step, run_bib, run_bcb; rewrite H; cbv zeta;
  destruct d as [| |[] st]; cbn [has_duty service] in D.
  - destruct D as [[p [E1 E2]]|[E1 [-> [E2|[p [E2 E3]]]]]].
    + rewrite E1, E2. reflexivity.
    + rewrite E1, E2. reflexivity.
    + rewrite E1, E2, E3. reflexivity.
  - destruct D as [E ->]. rewrite E. reflexivity.
  - destruct D as [p [E1 E2]]. rewrite E1, E2. reflexivity.
  - destruct D as [E1 [-> [p [E2 E3]]]]. rewrite E1, E2, E3. reflexivity.
  - destruct D as [[p [E1 E2]]|[E1 [-> [E2|[p [E2 E3]]]]]].
    + rewrite E1, E2. reflexivity.
    + rewrite E1, E2. reflexivity.
    + rewrite E1, E2, E3. reflexivity.
  - destruct D as [E ->]. rewrite E. reflexivity.
  - destruct D as [p [E1 E2]]. rewrite E1, E2. reflexivity.
  - destruct D as [E1 [-> [p [E2 E3]]]]. rewrite E1, E2, E3. reflexivity.
Qed.
Lemma duty_total : forall g final ss src dst integrity, exists d, has_duty g final ss src dst integrity d.
Proof.
  intros g final ss src dst integrity. destruct (find_policy (g_filters g) ss src dst Acceptor) as [p|] eqn:A.
  - destruct (service integrity p) as [st|] eqn:S; [exists (Check true st); exists p; auto|exists Nothing; left; exists p; auto].
  - destruct final; [exists Missing; split; auto|]. destruct (find_policy (g_filters g) ss src dst Verifier) as [p|] eqn:V.
    + destruct (service integrity p) as [st|] eqn:S; [exists (Check false st); cbn; split; [auto|split; [auto|exists p; auto]]|exists Nothing; right; split; [auto|split; [auto|right; exists p; auto]]].
    + exists Nothing. right. split; [auto|split; auto].
Qed.

Lemma missing_marks : forall ts bs i c, nth_error bs i = Some c -> exists c', nth_error (fold_left (fun bs t => mark t bs) ts bs) i = Some c' /\ same_id c c' /\ k_asb c' = k_asb c /\ k_encrypted c' = k_encrypted c /\
  (k_deleted c' = true <-> k_deleted c = true \/ exists t, In t ts /\ is_block bs t i c).
Proof.
  induction ts as [|t r IH]; intros bs i c H; cbn [fold_left].
  - exists c. split; [exact H|]. split; [split; reflexivity|]. do 2 (split; [reflexivity|]). split; [auto|]. intros [|[t [[] _]]]; auto.
  - destruct (mark_nth t bs i c H) as [c1 [A1 [[A2 A2'] [A3 [A4 A5]]]]]. destruct (IH _ _ _ A1) as [c2 [B1 [[B2 B2'] [B3 [B4 B5]]]]]. exists c2. split; [exact B1|]. split; [split; congruence|]. split; [congruence|]. split; [congruence|].
    rewrite B5, A5. split.
    + intros [[D|D]|[u [U1 U2]]]; [auto|right; exists t; cbn; auto|right; exists u; split; [right; exact U1|]]. apply (is_block_ids _ _ _ _ _ _ (mark_ids t bs) H A1). exact U2.
    + intros [D|[u [[<-|U1] U2]]]; [auto|auto|right; exists u; split; [exact U1|]]. apply (is_block_ids _ _ _ _ _ _ (mark_ids t bs) H A1). exact U2.
Qed.
Lemma missing_ids : forall ts bs, ids bs (fold_left (fun bs t => mark t bs) ts bs).
Proof. induction ts as [|t r IH]; intro bs; cbn [fold_left]; [apply ids_refl|]. eapply ids_trans; [apply mark_ids|apply IH]. Qed.

(** What a step can change. *)
Definition quiet (integrity : bool) (pos : nat) (bs bs' : list block) : Prop :=
  ids bs bs' /\ forall i c, nth_error bs i = Some c -> exists c', nth_error bs' i = Some c' /\
    (k_encrypted c' = true -> k_encrypted c = true) /\ (integrity = true -> k_encrypted c' = k_encrypted c) /\
    (i <> pos -> integrity = true \/ k_type c = 12 -> k_asb c' = k_asb c).
Lemma quiet_refl : forall i p bs, quiet i p bs bs.
Proof. intros. split; [apply ids_refl|]. intros k c H. exists c. auto. Qed.
Lemma after_ids : forall l acc int pos a es bs bs', after l acc int pos a es bs bs' -> ids bs bs'.
Proof. intros l acc int pos a es bs bs' [L H]. split; [exact L|]. intros i c Hc. destruct (H i c Hc) as [c' [A [B [C _]]]]. exists c'. split; [exact A|]. split; auto. Qed.
Lemma after_quiet : forall l acc int pos a es bs bs' integrity, after l acc int pos a es bs bs' -> quiet integrity pos bs bs'.
Proof.
  intros l acc int pos a es bs bs' integrity H. split; [eapply after_ids; exact H|]. intros i c Hc. destruct (proj2 H i c Hc) as [c' [A [B [C [D [E _]]]]]]. exists c'. split; [exact A|]. split; [congruence|]. auto.
Qed.
Lemma quiet_trans : forall i p a b c, quiet i p a b -> quiet i p b c -> quiet i p a c.
Proof.
  intros i p a b c [A1 A2] [B1 B2]. split; [eapply ids_trans; eassumption|]. intros k x Hx. destruct (A2 k x Hx) as [y [Y1 [Y2 [Y3 Y4]]]]. destruct (B2 k y Y1) as [z [Z1 [Z2 [Z3 Z4]]]].
  exists z. split; [exact Z1|]. split; [auto|]. split; [intro E; rewrite Z3, Y3; auto|]. intros N [I|T]; [rewrite Z4, Y4; auto|].
  rewrite Z4; [apply Y4; auto|exact N|]. right. destruct (proj2 A1 k x Hx) as [w [W1 [W2 _]]]. congruence.
Qed.
Lemma outcome_reported : forall l acc int pos bs b a es, nth_error bs pos = Some b -> k_asb b = a -> reported (length (a_targets a)) es -> outcome l acc int pos a es bs.
Proof.
  intros l acc int pos bs b a es H <- R. destruct (reported_decr _ _ R) as [[c ->]|D]; [apply outcome_none; exact H|]. eapply outcome_decr; [exact H|apply Nat.le_refl|exact D].
Qed.
Lemma upd_same : forall pos f bs b, (forall x, same_id x (f x) /\ k_asb (f x) = k_asb x /\ k_encrypted (f x) = k_encrypted x) -> nth_error bs pos = Some b ->
  exists b', nth_error (upd pos f bs) pos = Some b' /\ k_asb b' = k_asb b.
Proof. intros pos f bs b H E. rewrite upd_nth, Nat.eqb_refl, E. cbn [option_map]. eexists. split; [reflexivity|]. apply H. Qed.
Lemma flag_same : forall v : bool, forall x, same_id x ((if v then undelete else delete) x) /\ k_asb ((if v then undelete else delete) x) = k_asb x /\ k_encrypted ((if v then undelete else delete) x) = k_encrypted x.
Proof. intros [] x; repeat split. Qed.
Lemma upd_quiet : forall integrity pos f bs, (forall x, same_id x (f x) /\ k_asb (f x) = k_asb x /\ k_encrypted (f x) = k_encrypted x) -> quiet integrity pos bs (upd pos f bs).
Proof.
  intros integrity pos f bs H. split; [apply ids_upd; intro; apply H|]. intros i c Hc. rewrite upd_nth, Hc. destruct (pos =? i)%nat; cbn [option_map]; eexists; (split; [reflexivity|]).
  - destruct (H c) as [_ [A B]]. split; [congruence|]. split; auto.
  - auto.
Qed.
Lemma opened_12 : forall ts o verify j targets bs bs' st, s_targets st = ts -> types_ok false st -> opened_by ts o verify j targets bs bs' ->
  forall i c, nth_error bs i = Some c -> k_type c = 12 -> exists c', nth_error bs' i = Some c' /\ k_asb c' = k_asb c /\ k_encrypted c' = k_encrypted c.
Proof.
  intros ts o verify j targets bs bs' st <- T [I H] i c Hc E. destruct (H i c Hc) as [c' [A [_ [B C]]]]. exists c'. split; [exact A|].
  assert (N : ~ opens (s_targets st) o verify j targets bs i c).
  { intros [_ [k [t [_ [_ [X _]]]]]]. rewrite E in X. destruct (T 12 (X ltac:(lia))) as [_ W]. exact (W eq_refl eq_refl). }
  split; [auto|]. destruct (k_encrypted c') eqn:Q, (k_encrypted c) eqn:R; try reflexivity.
  - destruct (proj1 B eq_refl); discriminate.
  - assert (false = true) by (apply B; auto). discriminate.
Qed.
Lemma opened_quiet : forall o verify j targets bs bs' st pos, types_ok false st -> opened_by (s_targets st) o verify j targets bs bs' -> quiet false pos bs bs'.
Proof.
  intros o verify j targets bs bs' st pos T H. split; [apply H|]. intros i c Hc. destruct (proj2 H i c Hc) as [c' [A [_ [B C]]]]. exists c'. split; [exact A|]. split; [intro E; apply B; exact E|]. split; [discriminate|].
  intros _ [|E]; [discriminate|]. destruct (opened_12 _ _ _ _ _ _ _ st eq_refl T H i c Hc E) as [x [X1 [X2 _]]]. congruence.
Qed.

Lemma open_targets_app : forall ex o v p q j bs es got, open_targets ex o v (p ++ q) j bs es got =
  (let '(bs1, es1, got1) := open_targets ex o v p j bs es got in open_targets ex o v q (j + length p) bs1 es1 got1).
Proof.
  intros ex o v. induction p as [|t p IH]; intros q j bs es got.
  - cbn [app open_targets length]. rewrite Nat.add_0_r. reflexivity.
  - assert (L : (j + length (t :: p) = S j + length p)%nat) by (cbn [length]; lia). rewrite L. cbn [app open_targets].
    destruct (find_number t bs) as [i|] eqn:F; [|apply IH].
    destruct (find_number_some _ _ _ F) as [b [B _]]. rewrite B. destruct ((k_type b <=? 63) && negb (N.testbit ex (k_type b))); [apply IH|].
    destruct (o j); [apply IH| |]; destruct v; apply IH.
Qed.
Lemma open_targets_content : forall ts o targets bs bs' es got k t a i c, open_targets (types_mask ts) o false targets 0 bs [] 0 = (bs', es, got) ->
  nth_error targets k = Some t -> is_block bs t i c -> expected_type ts (k_type c) -> (o k = Readable a \/ o k = Unreadable a) ->
  (forall k', (k < k')%nat -> nth_error targets k' <> Some t) -> exists c', nth_error bs' i = Some c' /\ k_asb c' = a.
Proof.
  intros ts o targets bs bs' es got k t a i c E K B X O N.
  destruct (nth_error_split _ _ K) as [p [q [-> Lp]]]. rewrite open_targets_app in E.
  destruct (open_targets_spec ts o false p 0 bs [] 0) as [rs [bs1 [got1 [E1 [_ [_ [[I1 _] _]]]]]]]. rewrite E1 in E.
  assert (NQ : ~ In t q).
  { intro H. destruct (In_nth_error _ _ H) as [m M]. apply (N (length p + S m)%nat); [lia|]. rewrite nth_error_app2 by lia. replace (length p + S m - length p)%nat with (S m) by lia. exact M. }
  destruct (proj2 I1 i c (proj1 B)) as [c1 [C1 [C2 C3]]]. assert (B1 : is_block bs1 t i c1) by (apply (is_block_ids _ _ _ _ _ _ I1 (proj1 B) C1); exact B).
  cbn [open_targets] in E. rewrite (find_number_is _ _ _ _ B1), C1 in E.
  assert (X1 : ((k_type c1 <=? 63) && negb (N.testbit (types_mask ts) (k_type c1))) = false) by (apply expected_dec'; rewrite C2; exact X). rewrite X1 in E.
  replace (0 + length p)%nat with k in E by lia.
  assert (exists es2 got2, open_targets (types_mask ts) o false q (S k) (upd i (set_plain a) bs1) es2 got2 = (bs', es, got)) as [es2 [got2 E2]].
  { destruct O as [O|O]; rewrite O in E; eexists; eexists; exact E. }
  destruct (open_targets_spec ts o false q (S k) (upd i (set_plain a) bs1) es2 got2) as [rs2 [bs2 [g2 [F1 [_ [_ [[_ F2] _]]]]]]]. rewrite F1 in E2. injection E2 as -> _ _.
  assert (Hn : nth_error (upd i (set_plain a) bs1) i = Some (set_plain a c1)) by (rewrite upd_nth, Nat.eqb_refl, C1; reflexivity).
  destruct (F2 i _ Hn) as [c' [D1 [_ [_ D3]]]]. exists c'. split; [exact D1|]. rewrite D3; [reflexivity|].
  intros [_ [m [u [M1 [[_ [M2 _]] _]]]]]. cbn [set_plain k_number] in M2. apply NQ. replace t with u by (destruct B1 as [_ [W _]]; congruence). eapply nth_error_In. exact M1.
Qed.
Lemma try_decrypt_decrypted : forall ts o verify pos a bs bs' es, (forall t, In t ts -> t <= 63) -> well_formed a ->
  try_decrypt (types_mask ts) None o verify pos a bs = (bs', es) -> forall bs1, bs' = (match es with [] => upd pos (if verify then undelete else delete) bs1 | _ => bs1 end) ->
  opened_by ts o verify 0 (a_targets a) bs bs1 ->
  forall i c, nth_error bs i = Some c -> forall k t d, verify = false -> nth_error (a_targets a) k = Some t -> is_block bs t i c -> expected_type ts (k_type c) -> (o k = Readable d \/ o k = Unreadable d) ->
       (forall k', (k < k')%nat -> nth_error (a_targets a) k' <> Some t) -> exists c', nth_error bs' i = Some c' /\ k_asb c' = d.
Proof.
  intros ts o verify pos a bs bs' es L W E bs1 _ _ i c Hc k t d -> K B X O N. unfold try_decrypt in E. destruct W as [W1 W2].
  replace (tags a =? length (a_targets a))%nat with true in E by (symmetry; apply Nat.eqb_eq; exact W1). cbn [negb] in E.
  destruct (a_targets a) as [|t0 tr] eqn:A; [contradiction|]. rewrite <- A in *. clear t0 tr A W2.
  destruct (open_targets (types_mask ts) o false (a_targets a) 0 bs [] 0) as [[bs2 es2] got2] eqn:F.
  destruct (open_targets_content ts o (a_targets a) bs bs2 es2 got2 k t d i c F K B X O N) as [c' [C1 C2]].
  destruct es2 as [|e es2].
  - destruct (got2 =? types_mask ts); injection E as <- <-; [|exists c'; auto].
    rewrite upd_nth, C1. destruct (pos =? i)%nat; cbn [option_map]; eexists; (split; [reflexivity|]); exact C2.
  - injection E as <- <-. exists c'. auto.
Qed.
Lemma opened_decrypted : forall ts o verify pos a bs bs1 es, (forall t, In t ts -> t <= 63) -> well_formed a ->
  try_decrypt (types_mask ts) None o verify pos a bs = ((match es with [] => upd pos (if verify then undelete else delete) bs1 | _ => bs1 end), es) ->
  opened_by ts o verify 0 (a_targets a) bs bs1 -> decrypted ts o verify (a_targets a) bs bs1.
Proof.
  intros ts o verify pos a bs bs1 es L W E O. split; [apply O|]. intros i c Hc. destruct O as [I O]. destruct (O i c Hc) as [c' [C1 [C2 [C3 C4]]]]. exists c'. split; [exact C1|].
  destruct (proj2 I i c Hc) as [x [X1 [X2 X3]]]. assert (x = c') by congruence. subst x. split; [exact X2|]. split; [exact X3|]. split; [exact C2|]. split; [exact C3|]. split; [exact C4|].
  intros k t d V K B X Q N. destruct (try_decrypt_decrypted ts o verify pos a bs _ es L W E bs1 eq_refl (conj I O) i c Hc k t d V K B X Q N) as [y [Y1 Y2]].
  destruct es; [|congruence]. rewrite upd_nth, C1 in Y1. destruct (pos =? i)%nat; cbn [option_map] in Y1; [|congruence]. injection Y1 as <-. destruct verify; exact Y2.
Qed.

Lemma run_bcb_spec : forall g o acc src dst pos b bs st, nth_error bs pos = Some b -> k_type b = 12 -> types_ok false st ->
  exists bs1 es, quiet false pos bs bs1 /\ reports false (bcb_error bs (s_targets st) (negb acc) (o_open o pos)) (s_targets st) (o_bcb o pos) (k_asb b) bs es /\
    ((o_bcb o pos <> None \/ ~ well_formed (k_asb b)) -> bs1 = bs) /\ (o_bcb o pos = None -> well_formed (k_asb b) -> decrypted (s_targets st) (o_open o pos) (negb acc) (a_targets (k_asb b)) bs bs1) /\
    match es with
    | [] => run_bcb g o acc src dst pos b bs st = Keep (upd pos (if acc then delete else undelete) bs1)
    | _ => run_bcb g o acc src dst pos b bs st = fail_all (g_events g (s_other st)) acc false pos es bs1 /\ outcome (g_events g (s_other st)) acc false pos (k_asb b) es bs1
    end.
Proof.
  intros g o acc src dst pos b bs st H T K. unfold run_bcb.
  destruct (try_decrypt_spec (s_targets st) (o_bcb o pos) (o_open o pos) (negb acc) pos (k_asb b) bs) as [bs1 [es [E [R [N [O P]]]]]]; [intros t It; apply (K t It)|].
  rewrite E. exists bs1, es.
  assert (Q : quiet false pos bs bs1).
  { destruct (o_bcb o pos) eqn:C; [rewrite N by (left; discriminate); apply quiet_refl|]. assert (D : well_formed (k_asb b) \/ ~ well_formed (k_asb b)).
    { destruct (Nat.eq_dec (tags (k_asb b)) (length (a_targets (k_asb b)))) as [X|X]; [|right; intros []; contradiction]. destruct (a_targets (k_asb b)) eqn:Y; [right; intros [_ W]; congruence|left; split; [rewrite Y; exact X|congruence]]. }
    destruct D as [D|D]; [eapply opened_quiet; [exact K|apply O; auto]|rewrite N by auto; apply quiet_refl]. }
  split; [exact Q|]. split; [exact R|]. split; [exact N|].
  split; [intros Z1 Z2; rewrite Z1 in E; eapply opened_decrypted; [intros t It; apply (K t It)|exact Z2|exact E|apply O; auto]|].
  destruct es as [|e es]; [cbn [fail_all]; destruct acc; reflexivity|]. split; [reflexivity|].
  destruct (proj2 Q pos b H) as [b1 [B1 _]].
  assert (A : k_asb b1 = k_asb b).
  { destruct (o_bcb o pos) eqn:C; [rewrite N in B1 by (left; discriminate); congruence|]. assert (D : well_formed (k_asb b) \/ ~ well_formed (k_asb b)).
    { destruct (Nat.eq_dec (tags (k_asb b)) (length (a_targets (k_asb b)))) as [X|X]; [|right; intros []; contradiction]. destruct (a_targets (k_asb b)) eqn:Y; [right; intros [_ W]; congruence|left; split; [rewrite Y; exact X|congruence]]. }
    destruct D as [D|D]; [|rewrite N in B1 by auto; congruence]. destruct (opened_12 _ _ _ _ _ _ _ st eq_refl K (O eq_refl D) pos b H T) as [x [X1 [X2 _]]]. congruence. }
  eapply outcome_reported; [exact B1|exact A|exact P].
Qed.
Lemma run_bib_spec : forall g o acc src dst pos b bs st, nth_error bs pos = Some b -> types_ok true st ->
  exists es, reports true (bib_error bs (s_targets st) (o_hmac o pos)) (s_targets st) (if k_encrypted b then Some Misconfigured else o_bib o pos) (k_asb b) bs es /\
    match es with
    | [] => run_bib g o acc src dst pos b bs st = Keep (upd pos (if acc then delete else undelete) bs)
    | _ => run_bib g o acc src dst pos b bs st = fail_all (g_events g (s_other st)) acc true pos es bs /\ outcome (g_events g (s_other st)) acc true pos (k_asb b) es bs
    end.
Proof.
  intros g o acc src dst pos b bs st H K. unfold run_bib.
  destruct (try_verify_spec (s_targets st) (o_bib o pos) (o_hmac o pos) acc pos (k_encrypted b) (k_asb b) bs) as [es [E [R P]]]; [intros t It; apply (K t It)|].
  rewrite E. exists es. split; [exact R|]. destruct es as [|e es]; [reflexivity|]. split; [reflexivity|]. eapply outcome_reported; [exact H|reflexivity|exact P].
Qed.

(** Whole bundles. *)
Lemma missing_quiet : forall mask a int bs bs' integrity pos, fail_missing mask a int bs = Keep bs' -> quiet integrity pos bs bs'.
Proof.
  intros mask a int bs bs' integrity pos. unfold fail_missing. destruct (negb int && targets_payload a); [discriminate|]. destruct (N.testbit mask 3); [discriminate|].
  destruct (N.testbit mask 1).
  - destruct (targets_payload a); [discriminate|]. intros [= <-]. unfold remove_targets. replace (U64MAX =? U64MAX) with true by reflexivity.
    split; [apply missing_ids|]. intros i c Hc. destruct (missing_marks (a_targets a) bs i c Hc) as [c' [A [_ [B [C _]]]]]. exists c'. split; [exact A|]. split; [congruence|]. auto.
  - intros [= <-]. apply quiet_refl.
Qed.
Definition ty (integrity : bool) : N := if integrity then 11 else 12.
Lemma step_ok : forall integrity g o final src dst pos bs b, sane g -> nth_error bs pos = Some b -> k_type b = ty integrity ->
  do_step integrity g o final src dst pos bs <> Ub /\ forall bs', do_step integrity g o final src dst pos bs = Keep bs' -> quiet integrity pos bs bs'.
Proof.
  intros integrity g o final src dst pos bs b S H T. destruct (duty_total g final (a_source (k_asb b)) src dst integrity) as [d D].
  rewrite (do_step_duty _ _ o _ _ _ _ _ _ _ H D). destruct d as [| |acc st].
  - split; [discriminate|]. intros bs' [= <-]. apply quiet_refl.
  - split; [|intro; apply missing_quiet]. unfold fail_missing. destruct (negb integrity && targets_payload (k_asb b)), (N.testbit (g_missing g) 3), (N.testbit (g_missing g) 1), (targets_payload (k_asb b)); discriminate.
  - assert (K : types_ok integrity st).
    { destruct acc; cbn [has_duty] in D; [destruct D as [p [E1 E2]]|destruct D as [_ [_ [p [E1 E2]]]]]; exact (S _ _ _ _ _ _ _ E1 E2). }
    rewrite (proj2 (types_ok_dec integrity st) K). destruct integrity; cbn [run_step ty] in *.
    + destruct (run_bib_spec g o acc src dst pos b bs st H K) as [es [_ R]]. destruct es as [|e es].
      * rewrite R. split; [discriminate|]. intros bs' [= <-]. apply upd_quiet. destruct acc; [apply (flag_same false)|apply (flag_same true)].
      * destruct R as [-> [_ [U A]]]. split; [exact U|]. intros bs' E. eapply after_quiet. apply A. exact E.
    + destruct (run_bcb_spec g o acc src dst pos b bs st H T K) as [bs1 [es [Q [_ [_ [_ R]]]]]]. destruct es as [|e es].
      * rewrite R. split; [discriminate|]. intros bs' [= <-]. eapply quiet_trans; [exact Q|]. apply upd_quiet. destruct acc; [apply (flag_same false)|apply (flag_same true)].
      * destruct R as [-> [_ [U A]]]. split; [exact U|]. intros bs' E. eapply quiet_trans; [exact Q|]. eapply after_quiet. apply A. exact E.
Qed.
Lemma of_type_spec : forall t bs j p, In p (of_type t j bs) <-> exists k b, p = (j + k)%nat /\ nth_error bs k = Some b /\ k_type b = t.
Proof.
  induction bs as [|b r IH]; intros j p; cbn [of_type].
  - split; [intros []|]. intros [[|k] [b [_ [H _]]]]; discriminate.
  - assert (X : In p (of_type t (S j) r) <-> exists k c, p = (j + S k)%nat /\ nth_error r k = Some c /\ k_type c = t).
    { rewrite IH. split; intros [k [c [A B]]]; exists k, c; (split; [lia|exact B]). }
    destruct (k_type b =? t) eqn:E; cbn [In]; rewrite X; split.
    + intros [<-|[k [c [A [B C]]]]]; [exists 0%nat, b; split; [lia|]; split; [reflexivity|lia]|exists (S k), c; auto].
    + intros [[|k] [c [A [B C]]]]; [left; lia|right; exists k, c; auto].
    + intros [k [c [A [B C]]]]. exists (S k), c. auto.
    + intros [[|k] [c [A [B C]]]]; [cbn in B; injection B as <-; lia|exists k, c; auto].
Qed.
Lemma of_type_nodup : forall t bs j, NoDup (of_type t j bs).
Proof.
  induction bs as [|b r IH]; intro j; cbn [of_type]; [constructor|]. destruct (k_type b =? t); [constructor; [|apply IH]|apply IH].
  intro H. apply of_type_spec in H. destruct H as [k [c [A _]]]. lia.
Qed.
(** What steps for other blocks can change. *)
Definition calm (integrity : bool) (pos : nat) (bs bs' : list block) : Prop :=
  ids bs bs' /\ forall i c, nth_error bs i = Some c -> exists c', nth_error bs' i = Some c' /\
    (k_encrypted c' = true -> k_encrypted c = true) /\ (integrity = true -> k_encrypted c' = k_encrypted c) /\
    (i = pos -> integrity = true \/ k_type c = 12 -> k_asb c' = k_asb c).
Lemma calm_refl : forall i p bs, calm i p bs bs.
Proof. intros. split; [apply ids_refl|]. intros k c H. exists c. auto. Qed.
Lemma quiet_calm : forall i p q bs bs', q <> p -> quiet i q bs bs' -> calm i p bs bs'.
Proof. intros i p q bs bs' N [A B]. split; [exact A|]. intros k c Hc. destruct (B k c Hc) as [c' [C1 [C2 [C3 C4]]]]. exists c'. do 3 (split; [auto|]). intros ->. apply C4. auto. Qed.
Lemma calm_trans : forall i p a b c, calm i p a b -> calm i p b c -> calm i p a c.
Proof.
  intros i p a b c [A1 A2] [B1 B2]. split; [eapply ids_trans; eassumption|]. intros k x Hx. destruct (A2 k x Hx) as [y [Y1 [Y2 [Y3 Y4]]]]. destruct (B2 k y Y1) as [z [Z1 [Z2 [Z3 Z4]]]].
  exists z. split; [exact Z1|]. split; [auto|]. split; [intro E; rewrite Z3, Y3; auto|]. intros N [I|T]; [rewrite Z4, Y4; auto|].
  rewrite Z4; [apply Y4; auto|exact N|]. right. destruct (proj2 A1 k x Hx) as [w [W1 [W2 _]]]. congruence.
Qed.
Definition soft (bs bs' : list block) : Prop := ids bs bs' /\ forall i c, nth_error bs i = Some c -> exists c', nth_error bs' i = Some c' /\ (k_encrypted c' = true -> k_encrypted c = true).
Lemma soft_refl : forall bs, soft bs bs.
Proof. intro. split; [apply ids_refl|]. intros i c H. exists c. auto. Qed.
Lemma soft_trans : forall a b c, soft a b -> soft b c -> soft a c.
Proof.
  intros a b c [A1 A2] [B1 B2]. split; [eapply ids_trans; eassumption|]. intros k x Hx. destruct (A2 k x Hx) as [y [Y1 Y2]]. destruct (B2 k y Y1) as [z [Z1 Z2]]. exists z. auto.
Qed.
Lemma quiet_soft : forall i p bs bs', quiet i p bs bs' -> soft bs bs'.
Proof. intros i p bs bs' [A B]. split; [exact A|]. intros k c H. destruct (B k c H) as [c' [C1 [C2 _]]]. exists c'. auto. Qed.
Lemma calm_soft : forall i p bs bs', calm i p bs bs' -> soft bs bs'.
Proof. intros i p bs bs' [A B]. split; [exact A|]. intros k c H. destruct (B k c H) as [c' [C1 [C2 _]]]. exists c'. auto. Qed.

Definition valid integrity (bs : list block) (ps : list nat) : Prop := forall p, In p ps -> exists b, nth_error bs p = Some b /\ k_type b = ty integrity.
Lemma valid_ids : forall integrity bs cs ps, ids bs cs -> valid integrity bs ps -> valid integrity cs ps.
Proof. intros integrity bs cs ps I V p Hp. destruct (V p Hp) as [b [B1 B2]]. destruct (proj2 I p b B1) as [c [C1 [C2 _]]]. exists c. split; [exact C1|congruence]. Qed.
Lemma each_ok : forall integrity g o final src dst, sane g -> forall ps bs, valid integrity bs ps ->
  each (do_step integrity g o final src dst) ps bs <> Ub /\ forall bs', each (do_step integrity g o final src dst) ps bs = Keep bs' -> soft bs bs'.
Proof.
  intros integrity g o final src dst S. induction ps as [|p r IH]; intros bs V; cbn [each].
  - split; [discriminate|]. intros bs' [= <-]. apply soft_refl.
  - destruct (V p (or_introl eq_refl)) as [b [B1 B2]]. destruct (step_ok integrity g o final src dst p bs b S B1 B2) as [U K].
    destruct (do_step integrity g o final src dst p bs) as [bs1| |] eqn:E; [|split; discriminate|contradiction].
    specialize (K bs1 eq_refl). assert (V1 : valid integrity bs1 r) by (apply (valid_ids _ bs); [apply K|intros q Hq; apply V; right; exact Hq]).
    destruct (IH bs1 V1) as [U1 K1]. split; [exact U1|]. intros bs' E'. eapply soft_trans; [eapply quiet_soft; exact K|apply K1; exact E'].
Qed.
Lemma each_split : forall integrity g o final src dst, sane g -> forall ps bs bs' pos, valid integrity bs ps -> NoDup ps -> In pos ps ->
  each (do_step integrity g o final src dst) ps bs = Keep bs' -> exists bsA bsB, calm integrity pos bs bsA /\ do_step integrity g o final src dst pos bsA = Keep bsB /\ calm integrity pos bsB bs'.
Proof.
  intros integrity g o final src dst S.
  assert (REST : forall ps bs bs' pos, valid integrity bs ps -> ~ In pos ps -> each (do_step integrity g o final src dst) ps bs = Keep bs' -> calm integrity pos bs bs').
  { induction ps as [|p r IH]; intros bs bs' pos V N; cbn [each]; [intros [= <-]; apply calm_refl|].
    destruct (V p (or_introl eq_refl)) as [b [B1 B2]]. destruct (step_ok integrity g o final src dst p bs b S B1 B2) as [U K].
    destruct (do_step integrity g o final src dst p bs) as [bs1| |] eqn:E; [|discriminate|discriminate]. specialize (K bs1 eq_refl). intro E'.
    eapply calm_trans; [eapply quiet_calm; [|exact K]; intros ->; apply N; left; reflexivity|]. apply (IH bs1); [|intro; apply N; right; auto|exact E'].
    apply (valid_ids _ bs); [apply K|intros q Hq; apply V; right; exact Hq]. }
  induction ps as [|p r IH]; intros bs bs' pos V N I; [destruct I|]. cbn [each].
  destruct (V p (or_introl eq_refl)) as [b [B1 B2]]. destruct (step_ok integrity g o final src dst p bs b S B1 B2) as [U K].
  destruct (do_step integrity g o final src dst p bs) as [bs1| |] eqn:E; [|discriminate|discriminate]. specialize (K bs1 eq_refl). intro E'.
  assert (V1 : valid integrity bs1 r) by (apply (valid_ids _ bs); [apply K|intros q Hq; apply V; right; exact Hq]).
  inversion N as [|x y N1 N2]; subst. destruct I as [<-|I].
  - exists bs, bs1. split; [apply calm_refl|]. split; [exact E|]. apply (REST r); auto.
  - destruct (IH bs1 bs' pos V1 N2 I E') as [bsA [bsB [A1 [A2 A3]]]]. exists bsA, bsB. split; [|auto].
    eapply calm_trans; [eapply quiet_calm; [|exact K]; intros ->; contradiction|exact A1].
Qed.
Lemma of_type_valid : forall integrity bs, valid integrity bs (of_type (ty integrity) 0 bs).
Proof. intros integrity bs p H. apply of_type_spec in H. destruct H as [k [b [A [B C]]]]. exists b. replace p with k by lia. auto. Qed.
Lemma of_type_in : forall integrity bs pos b, nth_error bs pos = Some b -> k_type b = ty integrity -> In pos (of_type (ty integrity) 0 bs).
Proof. intros. apply of_type_spec. exists pos, b. auto. Qed.
Lemma errs_in : forall rs k j c, In (Some j, c) (errs k rs) <-> exists i, j = (k + i)%nat /\ nth_error rs i = Some (Some c).
Proof.
  induction rs as [|r rs IH]; intros k j c.
  - split; [intros []|]. intros [[|i] [_ H]]; discriminate.
  - rewrite errs_cons, in_app_iff, IH. split.
    + intros [[i [A B]]|H]; [exists (S i); split; [lia|exact B]|]. destruct r as [d|]; [|destruct H]. destruct H as [[= <- <-]|[]]. exists 0%nat. split; [lia|reflexivity].
    + intros [[|i] [A B]]; [right; cbn in B; injection B as ->; left; f_equal; f_equal; lia|left; exists i; split; [lia|exact B]].
Qed.
