(** Lemmas for C62. *)
From Coq Require Import PeanoNat Compare_dec NArith List Bool Lia ZifyBool ZifyN ZifyNat.
From Verif Require Import Base M_Encap M_Stcp S_Stcp.
Import ListNotations.
Open Scope N_scope.

Lemma un_be_4 : forall a b c d, un_be [a; b; c; d] = 16777216 * a + 65536 * b + 256 * c + d.
Proof. intros. unfold un_be. cbn [fold_left]. lia. Qed.
Lemma field_inj : forall n m a b, size_field n a -> size_field m b -> a = b -> n = m.
Proof. intros n m a b [x1 [x2 [x3 [x4 [E1 [_ V1]]]]]] [y1 [y2 [y3 [y4 [E2 [_ V2]]]]]] E. rewrite E1, E2 in E. injection E as -> -> -> ->. lia. Qed.
Lemma field_length : forall n h, size_field n h -> length h = 4%nat.
Proof. intros n h [a [b [c [d [-> _]]]]]. reflexivity. Qed.
Lemma app_eq : forall (a b c d : list N), length a = length c -> a ++ b = c ++ d -> a = c /\ b = d.
Proof. induction a as [|x a IH]; intros b [|y c] d L E; try discriminate; [split; auto|]. injection L as L. injection E as -> E. destruct (IH _ _ _ L E) as [-> ->]. auto. Qed.

Lemma wire_app : forall max cs s, wire max cs s -> forall ds t, wire max ds t -> wire max (cs ++ ds) (s ++ t).
Proof.
  induction 1 as [|h cs s F W IH|h b cs s F NE LE W IH]; intros ds t D; cbn [app]; [exact D| |]; rewrite <- ?app_assoc; constructor; auto.
Qed.
Lemma bundles_app : forall a b, bundles (a ++ b) = bundles a ++ bundles b.
Proof. intros. apply flat_map_app. Qed.
Lemma wire_no_more : forall max cs s t rest, wire max cs s -> no_more max rest -> s ++ t = rest -> cs = [].
Proof.
  intros max cs s t rest W M E. subst rest. destruct W as [|h cs s F W|h b cs s F NE LE W]; [reflexivity| |]; exfalso; assert (L := field_length _ _ F); rewrite <- app_assoc in M.
  - destruct M as [M|[n [h2 [r [F2 [E M]]]]]]; [rewrite !app_length in M; lia|]. apply app_eq in E; [|rewrite L; symmetry; exact (field_length _ _ F2)]. destruct E as [E _]. assert (X := field_inj _ _ _ _ F F2 E). lia.
  - destruct M as [M|[n [h2 [r [F2 [E M]]]]]]; [rewrite !app_length in M; lia|]. apply app_eq in E; [|rewrite L; symmetry; exact (field_length _ _ F2)]. destruct E as [E E2]. assert (X := field_inj _ _ _ _ F F2 E). subst n r. rewrite !app_length in M. lia.
Qed.
(** What arrived is data units in one way. *)
Lemma wire_unique : forall max cs s, wire max cs s -> forall ds t r1 r2, wire max ds t -> no_more max r1 -> no_more max r2 -> s ++ r1 = t ++ r2 -> cs = ds.
Proof.
  induction 1 as [|h cs s F W IH|h b cs s F NE LE W IH]; intros ds t r1 r2 D M1 M2 E.
  - symmetry. apply (wire_no_more max ds t r2 r1 D M1). symmetry. exact E.
  - inversion D as [|h2 ds2 t2 F2 W2|h2 b2 ds2 t2 F2 NE2 LE2 W2]; subst.
    + exfalso. cbn [app] in E. assert (X : None :: cs = []); [|discriminate]. apply (wire_no_more max (None :: cs) (h ++ s) r1 r2); [constructor; auto|exact M2|exact E].
    + rewrite <- !app_assoc in E. apply app_eq in E; [|rewrite (field_length _ _ F), (field_length _ _ F2); reflexivity]. f_equal. apply (IH _ _ _ _ W2 M1 M2 (proj2 E)).
    + exfalso. rewrite <- !app_assoc in E. apply app_eq in E; [|rewrite (field_length _ _ F), (field_length _ _ F2); reflexivity]. assert (X := field_inj _ _ _ _ F F2 (proj1 E)). destruct b2; [contradiction|]. cbn [length] in X. lia.
  - inversion D as [|h2 ds2 t2 F2 W2|h2 b2 ds2 t2 F2 NE2 LE2 W2]; subst.
    + exfalso. cbn [app] in E. assert (X : Some b :: cs = []); [|discriminate]. apply (wire_no_more max (Some b :: cs) (h ++ b ++ s) r1 r2); [constructor; auto|exact M2|exact E].
    + exfalso. rewrite <- !app_assoc in E. apply app_eq in E; [|rewrite (field_length _ _ F), (field_length _ _ F2); reflexivity]. assert (X := field_inj _ _ _ _ F F2 (proj1 E)). destruct b; [contradiction|]. cbn [length] in X. lia.
    + rewrite <- !app_assoc in E. apply app_eq in E; [|rewrite (field_length _ _ F), (field_length _ _ F2); reflexivity]. destruct E as [E1 E2]. assert (X := field_inj _ _ _ _ F F2 E1). apply app_eq in E2; [|lia]. destruct E2 as [-> E2]. f_equal. apply (IH _ _ _ _ W2 M1 M2 E2).
Qed.

(** The invariant. *)
Definition pending (max : N) (p : phase) (l : list N) : Prop :=
  match p with Data n => size_field n l /\ 0 < n <= max | Stopped => exists n, size_field n l /\ max < n | _ => l = [] end.
Definition room (cap : nat) (p : phase) (q : list (list N)) : Prop :=
  match p with Size | Data _ | Stopped => (length q < cap)%nat | Committed | Notified | Inactive => (length q <= cap)%nat end.
Definition inv (cap : nat) (max : N) (a : list N) (s : sink) : Prop :=
  (exists cs w l, wire max cs w /\ pending max (k_phase s) l /\ a = w ++ l ++ k_in s /\ bundles cs = k_out s ++ (match k_pc s with Taken => tl (k_q s) | _ => k_q s end)) /\
  room cap (k_phase s) (k_q s) /\
  (k_pc s = Ready \/ k_pc s = Taken \/ k_pc s = Posting false -> k_q s <> []) /\
  (k_pc s = Taken -> exists o b r, k_out s = o ++ [b] /\ k_q s = b :: r) /\
  (k_pc s = Waiting false -> k_q s <> [] -> k_phase s = Committed) /\
  (k_phase s = Inactive -> (length (k_q s) < cap)%nat -> (0 < k_posts s)%nat \/ k_pc s = Top \/ exists e, k_pc s = Posting e).
Lemma inv_start : forall cap max, inv cap max [] (start cap).
Proof.
  intros cap max. unfold inv, start. cbn [k_in k_phase k_q k_posts k_pc k_out]. split; [|repeat split]; try discriminate.
  - exists [], [], []. repeat split; [constructor|]. destruct (Nat.ltb 0 cap); reflexivity.
  - destruct (Nat.ltb_spec 0 cap); cbn [room length]; lia.
  - intros [H|[H|H]]; discriminate.
  - auto.
Qed.
Lemma take_split : forall (l : list N) n, n <= N.of_nat (length l) -> exists b r, l = b ++ r /\ N.of_nat (length b) = n /\ firstn (N.to_nat n) l = b /\ skipn (N.to_nat n) l = r.
Proof. intros l n H. exists (firstn (N.to_nat n) l), (skipn (N.to_nat n) l). rewrite firstn_skipn, firstn_length. repeat split. lia. Qed.
Lemma last_app : forall (q : list (list N)) b, q ++ [b] <> [].
Proof. intros q b H. destruct q; discriminate. Qed.
Lemma inv_step : forall cap max a s e s1, bytes (k_in s) -> inv cap max a s -> step cap max s e = Some s1 -> inv cap max (a ++ arrived [e]) s1.
Proof.
  intros cap max a [i p q n c o] e s1 B [[cs [w [l [W [P [A O]]]]]] [R [I1 [I4 [I2 I3]]]]] H. cbn [k_in k_phase k_q k_posts k_pc k_out] in *. unfold inv. destruct e as [x| | | | | | |]; cbn [step k_in k_phase k_q k_posts k_pc k_out] in H; unfold arrived; cbn [flat_map app]; rewrite ?app_nil_r.
  - injection H as <-. cbn [k_in k_phase k_q k_posts k_pc k_out]. split; [|auto]. exists cs, w, l. rewrite A, <- !app_assoc. auto.
  - destruct p; try discriminate. destruct i as [|x1 [|x2 [|x3 [|x4 r]]]]; try discriminate. cbv zeta in H. injection H as <-. cbn [k_in k_phase k_q k_posts k_pc k_out]. cbn [pending] in P. subst l. cbn [app] in A.
    assert (F : size_field (un_be [x1; x2; x3; x4]) [x1; x2; x3; x4]).
    { exists x1, x2, x3, x4. split; [reflexivity|]. split; [|apply un_be_4]. unfold bytes in *. rewrite Forall_forall in *. intros y Y. apply B. cbn [In] in *. tauto. }
    revert F. generalize (un_be [x1; x2; x3; x4]) as m. intros m F. split; [|split].
    + destruct (N.eqb_spec m 0) as [Z|NZ]; [|destruct (N.ltb_spec max m) as [GT|LE]].
      * exists (cs ++ [None]), (w ++ [x1; x2; x3; x4]), []. cbn [pending]. repeat split; [|rewrite A, <- app_assoc; reflexivity|rewrite bundles_app, app_nil_r; exact O]. apply (wire_app _ _ _ W). rewrite <- (app_nil_r [x1; x2; x3; x4]). constructor; [rewrite <- Z; exact F|constructor].
      * exists cs, w, [x1; x2; x3; x4]. cbn [pending]. repeat split; auto. exists m. auto.
      * exists cs, w, [x1; x2; x3; x4]. cbn [pending]. repeat split; auto. lia.
    + destruct (m =? 0); [|destruct (max <? m)]; exact R.
    + split; [exact I1|]. split; [exact I4|]. split; [intros E NE; specialize (I2 E NE); discriminate|]. destruct (m =? 0); [|destruct (max <? m)]; discriminate.
  - destruct p as [| |m| | |]; try discriminate. destruct (N.leb_spec m (N.of_nat (length i))) as [LE|]; [|discriminate]. injection H as <-. cbn [k_in k_phase k_q k_posts k_pc k_out]. cbn [pending] in P. destruct P as [F [M1 M2]]. destruct (take_split i m LE) as [b [r [Ei [Lb [-> ->]]]]]. subst i.
    split; [|split; [cbn [room] in *; rewrite app_length; cbn [length]; lia|]].
    + exists (cs ++ [Some b]), (w ++ l ++ b), []. cbn [pending]. repeat split.
      * apply (wire_app _ _ _ W). replace (l ++ b) with (l ++ b ++ []) by (rewrite app_nil_r; reflexivity). constructor; [rewrite Lb; exact F|intro E; subst b; cbn in Lb; lia|lia|constructor].
      * rewrite A, <- !app_assoc. reflexivity.
      * rewrite bundles_app, O. cbn [bundles flat_map app]. destruct c; rewrite <- ?app_assoc; try reflexivity. destruct (I4 eq_refl) as [o1 [b1 [r1 [_ E]]]]. rewrite E. reflexivity.
    + split; [intros _; apply last_app|]. split; [|split; [reflexivity|discriminate]]. intro E. destruct (I4 E) as [o1 [b1 [r1 [E1 E2]]]]. exists o1, b1, (r1 ++ [b]). split; [exact E1|rewrite E2; reflexivity].
  - destruct p; try discriminate. injection H as <-. cbn [k_in k_phase k_q k_posts k_pc k_out room pending] in *. split; [exists cs, w, l; repeat split; auto; destruct c; exact O|]. split; [exact R|]. split; [intro E; apply I1; destruct c; auto; destruct E as [E|[E|E]]; discriminate|].
    split; [intro E; apply I4; destruct c; auto; discriminate|]. split; [intro E; destruct c; discriminate|discriminate].
  - destruct p; try discriminate. injection H as <-. cbn [k_in k_phase k_q k_posts k_pc k_out room pending try_start] in *. subst l. split; [exists cs, w, []; repeat split; auto; destruct (Nat.ltb (length q) cap); reflexivity|].
    split; [destruct (Nat.ltb_spec (length q) cap); cbn [room]; lia|]. split; [exact I1|]. split; [exact I4|]. split; [intros E NE; specialize (I2 E NE); discriminate|]. destruct (Nat.ltb_spec (length q) cap); [discriminate|lia].
  - destruct n as [|n]; [destruct p; discriminate|]. assert (H1 : s1 = mkSink i (try_start cap p q) q n c o /\ p <> Committed) by (destruct p; try discriminate; injection H as <-; split; auto; discriminate). clear H. destruct H1 as [-> NC]. cbn [k_in k_phase k_q k_posts k_pc k_out].
    split; [exists cs, w, l; repeat split; auto; destruct p; cbn [try_start]; auto; destruct (Nat.ltb (length q) cap); exact P|]. split; [destruct p; cbn [try_start]; auto; destruct (Nat.ltb_spec (length q) cap); cbn [room] in *; lia|].
    split; [exact I1|]. split; [exact I4|]. split; [intros E NE; specialize (I2 E NE); contradiction|]. destruct p; cbn [try_start]; try discriminate. destruct (Nat.ltb_spec (length q) cap); [discriminate|lia].
  - destruct c as [|e| |t| |].
    + injection H as <-. cbn [k_in k_phase k_q k_posts k_pc k_out]. split; [exists cs, w, l; auto|]. split; [exact R|]. split; [intros [E|[E|E]]; try discriminate; destruct q; discriminate|]. split; [discriminate|]. split; [discriminate|]. intros. right. right. eexists. reflexivity.
    + injection H as <-. cbn [k_in k_phase k_q k_posts k_pc k_out]. split; [exists cs, w, l; repeat split; auto; destruct e; exact O|]. split; [exact R|]. split; [intros E; apply I1; destruct e; auto; destruct E as [E|[E|E]]; discriminate|]. split; [destruct e; discriminate|]. split; [destruct e; discriminate|]. intros. left. lia.
    + injection H as <-. cbn [k_in k_phase k_q k_posts k_pc k_out]. split; [exists cs, w, l; repeat split; auto; destruct q; exact O|]. split; [exact R|]. split; [intros E; destruct q; [destruct E as [E|[E|E]]|]; discriminate|]. split; [destruct q; discriminate|]. split; [destruct q; [contradiction|discriminate]|].
      intros E L. left. destruct (I3 E L) as [X|[X|[e X]]]; try discriminate. exact X.
    + destruct t; [|discriminate]. injection H as <-. cbn [k_in k_phase k_q k_posts k_pc k_out]. split; [exists cs, w, l; auto|]. split; [exact R|]. split; [intros [E|[E|E]]; discriminate|]. split; [discriminate|]. split; [discriminate|]. auto.
    + destruct q as [|b r]; [discriminate|]. injection H as <-. cbn [k_in k_phase k_q k_posts k_pc k_out tl]. split; [exists cs, w, l; repeat split; auto; rewrite O, <- app_assoc; reflexivity|]. split; [exact R|]. split; [discriminate|]. split; [intros _; exists o, b, r; auto|]. split; [discriminate|].
      intros E L. left. destruct (I3 E L) as [X|[X|[e X]]]; try discriminate. exact X.
    + destruct q as [|b r]; [discriminate|]. injection H as <-. cbn [k_in k_phase k_q k_posts k_pc k_out tl] in *. split; [exists cs, w, l; auto|]. split; [destruct p; cbn [room length] in *; lia|]. split; [intros [E|[E|E]]; discriminate|]. split; [discriminate|]. split; [discriminate|]. auto.
  - destruct c as [| | |t| |]; try discriminate. destruct t; [discriminate|]. injection H as <-. cbn [k_in k_phase k_q k_posts k_pc k_out]. split; [exists cs, w, l; auto|]. split; [exact R|]. split; [intros [E|[E|E]]; discriminate|]. split; [discriminate|]. split; [discriminate|]. auto.
Qed.
Lemma in_suffix : forall cap max a s, inv cap max a s -> bytes a -> bytes (k_in s).
Proof. intros cap max a s [[cs [w [l [_ [_ [-> _]]]]]] _] B. apply Forall_app in B. destruct B as [_ B]. apply Forall_app in B. tauto. Qed.
Lemma inv_run : forall cap max es a s s1, bytes (a ++ arrived es) -> inv cap max a s -> run cap max s es = Some s1 -> inv cap max (a ++ arrived es) s1.
Proof.
  induction es as [|e es IH]; intros a s s1 B I H; cbn [run] in H; [injection H as <-; unfold arrived; cbn [flat_map]; rewrite app_nil_r; exact I|].
  change (e :: es) with ([e] ++ es) in *. unfold arrived in *. rewrite flat_map_app, app_assoc in *. destruct (step cap max s e) as [s2|] eqn:E; [|discriminate]. apply (IH _ s2); auto. apply (inv_step _ _ _ s); auto. apply (in_suffix cap max a); auto. apply Forall_app in B. destruct B as [B _]. apply Forall_app in B. tauto.
Qed.
Lemma inv_reached : forall cap max es s, bytes (arrived es) -> reached cap max es s -> inv cap max (arrived es) s.
Proof. intros cap max es s B H. apply (inv_run cap max es [] (start cap)); auto. apply inv_start. Qed.

(** A state in which nothing happens. *)
Lemma quiet_state : forall cap max a s, (1 <= cap)%nat -> inv cap max a s -> quiet cap max s -> bytes (k_in s) ->
  k_q s = [] /\ k_pc s <> Taken /\ exists cs w r, wire max cs w /\ a = w ++ r /\ no_more max r /\ bundles cs = k_out s.
Proof.
  intros cap max a [i p q n c o] C [[cs [w [l [W [P [A O]]]]]] [R [I1 [I4 [I2 I3]]]]] Q B. cbn [k_in k_phase k_q k_posts k_pc k_out] in *.
  assert (NO : forall e, internal e -> step cap max (mkSink i p q n c o) e = None).
  { intros e [X Y]. destruct (step cap max (mkSink i p q n c o) e) as [s1|] eqn:E; [|reflexivity]. destruct (Q _ _ E) as [Z|[b Z]]; [contradiction|exfalso; apply (Y b Z)]. }
  assert (int : forall e, match e with Arrive _ | Spurious => False | _ => True end -> internal e) by (intros e X; split; [intro; subst; exact X|intros b Y; subst; exact X]).
  assert (N1 := NO Reader (int Reader I)). assert (N2 := NO OnSize (int OnSize I)). assert (N3 := NO OnData (int OnData I)). assert (N4 := NO Notify (int Notify I)). assert (N5 := NO Restart (int Restart I)). assert (N6 := NO Try (int Try I)). clear NO Q int.
  cbn [step k_in k_phase k_q k_posts k_pc k_out] in *. cbv zeta in *.
  assert (EC : c = Waiting false).
  { destruct c as [|e| |t| |]; try discriminate; [destruct t; [discriminate|reflexivity]| |]; destruct q; try discriminate; exfalso; apply I1; auto. }
  subst c. assert (EQ : q = []).
  { destruct q as [|b q]; [reflexivity|]. assert (X := I2 eq_refl ltac:(discriminate)). subst p. discriminate. }
  subst q. cbn [length] in *. split; [reflexivity|]. split; [discriminate|]. rewrite app_nil_r in O. exists cs, w, (l ++ i). repeat split; auto.
  destruct p as [| |m| | |]; try discriminate; cbn [pending] in P.
  - exfalso. destruct (I3 eq_refl ltac:(lia)) as [X|[X|[e X]]]; try discriminate. destruct n; [lia|discriminate].
  - subst l. left. destruct i as [|x1 [|x2 [|x3 [|x4 r]]]]; cbn [app length]; try lia. discriminate.
  - destruct P as [F M]. right. exists m, l, i. repeat split; auto. right. split; [exact M|]. destruct (N.leb_spec m (N.of_nat (length i))); [discriminate|lia].
  - destruct P as [m [F M]]. right. exists m, l, i. repeat split; auto.
Qed.

(** Termination. *)
Definition weight (s : sink) : nat :=
  40 * length (k_in s) + 20 * length (k_q s) + k_posts s + match k_phase s with Committed => 10 | Notified => 1 | _ => 0 end +
  match k_pc s with Top => 6 | Posting _ => 5 | Locking => 3 | Waiting t => if t then 7 else 0 | Ready => 2 | Taken => 1 end.
Lemma weight_step : forall cap max a s e s1, inv cap max a s -> internal e -> step cap max s e = Some s1 -> (weight s1 < weight s)%nat.
Proof.
  intros cap max a [i p q n c o] e s1 [[cs [w [l [_ [P _]]]]] _] [NS NA] H. cbn [k_in k_phase k_q k_posts k_pc k_out] in *. destruct e as [x| | | | | | |]; cbn [step k_in k_phase k_q k_posts k_pc k_out] in H; [exfalso; apply (NA x); reflexivity| | | | | | |contradiction].
  - destruct p; try discriminate. destruct i as [|x1 [|x2 [|x3 [|x4 r]]]]; try discriminate. cbv zeta in H. injection H as <-. unfold weight. cbn [k_in k_phase k_q k_posts k_pc k_out length]. destruct (un_be [x1; x2; x3; x4] =? 0); [|destruct (max <? un_be [x1; x2; x3; x4])]; lia.
  - destruct p as [| |m| | |]; try discriminate. destruct (N.leb_spec m (N.of_nat (length i))) as [LE|]; [|discriminate]. injection H as <-. unfold weight. cbn [k_in k_phase k_q k_posts k_pc k_out]. cbn [pending] in P. rewrite app_length, skipn_length. cbn [length]. lia.
  - destruct p; try discriminate. injection H as <-. unfold weight. cbn [k_in k_phase k_q k_posts k_pc k_out]. destruct c as [| | |[]| |]; lia.
  - destruct p; try discriminate. injection H as <-. unfold weight. cbn [k_in k_phase k_q k_posts k_pc k_out try_start]. destruct (Nat.ltb (length q) cap); lia.
  - destruct n as [|n]; [destruct p; discriminate|]. destruct p; try discriminate; injection H as <-; unfold weight; cbn [k_in k_phase k_q k_posts k_pc k_out try_start]; try destruct (Nat.ltb (length q) cap); lia.
  - destruct c as [|e| |t| |].
    + injection H as <-. unfold weight. cbn [k_in k_phase k_q k_posts k_pc k_out]. lia.
    + injection H as <-. unfold weight. cbn [k_in k_phase k_q k_posts k_pc k_out]. destruct e; lia.
    + injection H as <-. unfold weight. cbn [k_in k_phase k_q k_posts k_pc k_out]. destruct q; lia.
    + destruct t; [|discriminate]. injection H as <-. unfold weight. cbn [k_in k_phase k_q k_posts k_pc k_out]. lia.
    + destruct q as [|b r]; [discriminate|]. injection H as <-. unfold weight. cbn [k_in k_phase k_q k_posts k_pc k_out length]. lia.
    + destruct q as [|b r]; [discriminate|]. injection H as <-. unfold weight. cbn [k_in k_phase k_q k_posts k_pc k_out length]. lia.
Qed.
Lemma weight_run : forall cap max es a s s1, bytes (k_in s) -> inv cap max a s -> Forall internal es -> run cap max s es = Some s1 -> (length es + weight s1 <= weight s)%nat.
Proof.
  induction es as [|e es IH]; intros a s s1 B I F H; cbn [run length] in *; [injection H as <-; lia|]. inversion F as [|? ? F1 F2]; subst. destruct (step cap max s e) as [s2|] eqn:E; [|discriminate].
  assert (I2 := inv_step _ _ _ _ _ _ B I E). assert (D := weight_step _ _ _ _ _ _ I F1 E). assert (AE : arrived [e] = []) by (destruct e; try reflexivity; exfalso; apply (proj2 F1 b); reflexivity). rewrite AE, app_nil_r in I2.
  assert (B2 : bytes (k_in s2)).
  { destruct s as [i p q n c o]. cbn [k_in] in B. destruct e as [x| | | | | | |]; cbn [step k_in k_phase k_q k_posts k_pc k_out] in E; try (exfalso; apply (proj2 F1 x); reflexivity).
    - destruct p; try discriminate. destruct i as [|x1 [|x2 [|x3 [|x4 r]]]]; try discriminate. injection E as <-. cbn [k_in]. do 4 (inversion B as [|? ? _ B1]; clear B; rename B1 into B; subst). exact B.
    - destruct p as [| |m| | |]; try discriminate. destruct (m <=? N.of_nat (length i)); [|discriminate]. injection E as <-. cbn [k_in]. rewrite <- (firstn_skipn (N.to_nat m) i) in B. apply Forall_app in B. tauto.
    - destruct p; try discriminate; injection E as <-; exact B.
    - destruct p; try discriminate; injection E as <-; exact B.
    - destruct n; destruct p; try discriminate; injection E as <-; exact B.
    - destruct c as [|z| |t| |]; try (destruct t); try (destruct q); try discriminate; injection E as <-; exact B.
    - destruct c as [|z| |t| |]; try (destruct t); try discriminate; injection E as <-; exact B. }
  specialize (IH a s2 s1 B2 I2 F2 H). lia.
Qed.
