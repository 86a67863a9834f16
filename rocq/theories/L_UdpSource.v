(** Lemmas for C65: invariants of the UDP source. *)
From Coq Require Import PeanoNat NArith List Bool Lia Permutation.
From Verif Require Import Base M_UdpSource S_UdpSource.
Import ListNotations.
Open Scope nat_scope.

Fixpoint sends (l : list item) : list msg := match l with [] => [] | Send m :: r => m :: sends r | Close :: r => sends r end.
Lemma sends_app : forall a b, sends (a ++ b) = sends a ++ sends b.
Proof. induction a as [|[m|] a IH]; intro b; cbn; [reflexivity|rewrite IH; reflexivity|apply IH]. Qed.
Lemma try_front_app : forall rate tok q, fst (try_front rate tok q) ++ snd (try_front rate tok q) = q.
Proof. intros rate tok [|m q]; [reflexivity|]. cbn. destruct (negb rate || tok); reflexivity. Qed.

Ltac fields := cbn [r_life r_ring r_posted r_vec r_zmq r_fly r_timer r_acc r_wire r_out] in *.

(** In all executions. *)
Definition inv (cap : nat) (s : src) : Prop :=
  r_out s ++ map snd (r_ring s) = map m_user (r_acc s) /\ length (r_ring s) <= cap - 1 /\ length (r_out s) <= length (r_wire s) /\
  (r_timer s = false -> r_vec s = [] /\ r_zmq s = []) /\
  exists lost, Permutation (r_wire s ++ r_fly s ++ r_vec s ++ r_zmq s ++ sends (r_posted s) ++ lost) (r_acc s).

Lemma perm_move : forall (w f v z p l : list msg) m, Permutation (w ++ (m :: f) ++ v ++ z ++ p ++ l) (w ++ f ++ v ++ z ++ p ++ m :: l).
Proof. intros. apply Permutation_app_head. cbn [app]. replace (f ++ v ++ z ++ p ++ m :: l) with ((f ++ v ++ z ++ p) ++ m :: l) by (rewrite <- !app_assoc; reflexivity). replace (m :: f ++ v ++ z ++ p ++ l) with (m :: (f ++ v ++ z ++ p) ++ l) by (rewrite <- !app_assoc; reflexivity). apply Permutation_middle. Qed.

Lemma inv_step : forall cap rate s e s1, inv cap s -> step cap rate s e = Some s1 -> inv cap s1.
Proof.
  intros cap rate s e s1 [I1 [I2 [I3 [I4 [lost I5]]]]] E. destruct s as [li ring po vec zmq fly ti acc wire out]. fields. unfold inv.
  destruct e as [|m|tok|k full|ok]; cbn [step] in E.
  - unfold resolved in E. fields. destruct li; try discriminate. injection E as <-. fields. repeat split; try assumption; try (apply I4; assumption). exists lost; exact I5.
  - injection E as <-. unfold forward. fields. destruct li; fields; try (repeat split; try assumption; try (apply I4; assumption); exists lost; exact I5).
    destruct (Nat.leb_spec cap (length ring + 1)); fields.
    + repeat split; try assumption; try (apply I4; assumption). exists lost; exact I5.
    + split; [rewrite !map_app, app_assoc, I1; reflexivity|]. split; [rewrite app_length; cbn; lia|]. split; [exact I3|]. split; [exact I4|]. exists lost. rewrite sends_app. cbn [sends].
      eapply Permutation_trans; [|apply Permutation_app_tail; exact I5]. rewrite <- !app_assoc. do 5 apply Permutation_app_head. apply Permutation_app_comm.
  - unfold handle in E. fields. destruct po as [|[m|] po]; [discriminate| |].
    + injection E as <-. destruct (m_zmq m).
      * assert (T := try_front_app rate tok (zmq ++ [m])). destruct (try_front rate tok (zmq ++ [m])) as [a q]. cbn [fst snd] in T. fields. split; [exact I1|]. split; [exact I2|]. split; [exact I3|]. split; [discriminate|]. exists lost.
        eapply Permutation_trans; [|exact I5]. apply Permutation_app_head. rewrite <- app_assoc. apply Permutation_app_head. cbn [sends].
        eapply Permutation_trans; [apply Permutation_app_swap_app|]. apply Permutation_app_head. rewrite (app_assoc a q), T, <- app_assoc. reflexivity.
      * assert (T := try_front_app rate tok (vec ++ [m])). destruct (try_front rate tok (vec ++ [m])) as [a q]. cbn [fst snd] in T. fields. split; [exact I1|]. split; [exact I2|]. split; [exact I3|]. split; [discriminate|]. exists lost.
        eapply Permutation_trans; [|exact I5]. apply Permutation_app_head. rewrite <- app_assoc. apply Permutation_app_head. cbn [sends].
        rewrite (app_assoc a q), T, <- app_assoc. apply Permutation_app_head. cbn [app]. apply (Permutation_middle zmq).
    + injection E as <-. fields. repeat split; try assumption; try (apply I4; assumption). exists lost; exact I5.
  - unfold timer in E. fields. destruct ti; [|discriminate]. cbv zeta in E. set (n := if rate then k else length vec + length zmq) in E. injection E as <-. fields. split; [exact I1|]. split; [exact I2|]. split; [exact I3|]. split.
    + intro H. apply orb_false_iff in H. destruct H as [H _]. apply negb_false_iff, Nat.eqb_eq in H. split; apply length_zero_iff_nil; lia.
    + exists lost. eapply Permutation_trans; [|exact I5]. apply Permutation_app_head. rewrite <- !app_assoc. apply Permutation_app_head.
      set (d := n - length vec). replace (vec ++ zmq ++ sends po ++ lost) with (firstn n vec ++ skipn n vec ++ firstn d zmq ++ skipn d zmq ++ sends po ++ lost).
      * apply Permutation_app_head. apply Permutation_app_swap_app.
      * rewrite (app_assoc (firstn n vec)), firstn_skipn, (app_assoc (firstn d zmq)), firstn_skipn. reflexivity.
  - unfold done in E. fields. destruct fly as [|m fly]; [discriminate|]. destruct (ok && _).
    + destruct ring as [|[n u] r].
      * injection E as <-. fields. split; [exact I1|]. split; [exact I2|]. split; [rewrite app_length; lia|]. split; [exact I4|]. exists lost. rewrite sends_app. cbn [sends]. rewrite app_nil_r, <- app_assoc. exact I5.
      * destruct (N.eqb n (m_size m)); injection E as <-; fields.
        -- split; [rewrite <- I1, <- app_assoc; reflexivity|]. split; [cbn in I2; lia|]. split; [rewrite !app_length; cbn; lia|]. split; [exact I4|]. exists lost. rewrite <- app_assoc. exact I5.
        -- split; [exact I1|]. split; [exact I2|]. split; [rewrite app_length; lia|]. split; [exact I4|]. exists lost. rewrite sends_app. cbn [sends]. rewrite app_nil_r, <- app_assoc. exact I5.
    + injection E as <-. fields. split; [exact I1|]. split; [exact I2|]. split; [exact I3|]. split; [exact I4|]. exists (m :: lost). rewrite sends_app. cbn [sends]. rewrite app_nil_r.
      eapply Permutation_trans; [|exact I5]. apply Permutation_sym, perm_move.
Qed.
Lemma inv_reached : forall cap rate es s, reached cap rate es s -> inv cap s.
Proof.
  intros cap rate es s H. induction H as [|es s e s1 H IH E]; [|exact (inv_step _ _ _ _ _ IH E)].
  unfold inv, start. fields. repeat split; try (cbn; lia). exists []. constructor.
Qed.

(** Without errors, and without a rate limit or with one kind of bundles. *)
Definition pending (s : src) : list msg := r_fly s ++ r_vec s ++ r_zmq s ++ sends (r_posted s).
Definition inv1 (rate b : bool) (s : src) : Prop :=
  r_wire s ++ pending s = r_acc s /\ r_ring s = map (fun m => (m_size m, m_user m)) (pending s) /\ r_out s = map m_user (r_wire s) /\ ~ In Close (r_posted s) /\ r_life s <> Closed /\ (r_life s = Unresolved -> pending s = []) /\
  (rate = false -> r_vec s = [] /\ r_zmq s = []) /\ (rate = true -> (if b then r_vec s = [] else r_zmq s = []) /\ forall m, In (Send m) (r_posted s) -> m_zmq m = b).

Lemma inv1_step : forall cap rate b s e s1, inv1 rate b s -> step cap rate s e = Some s1 -> e <> Done false -> (rate = true -> forall m, e = Forward m -> m_zmq m = b) -> inv1 rate b s1.
Proof.
  intros cap rate b s e s1 [I1 [I2 [I3 [I4 [I5 [IU [I6 I7]]]]]]] E N K. destruct s as [li ring po vec zmq fly ti acc wire out]. unfold inv1, pending in *. fields.
  destruct e as [|m|tok|k full|ok]; cbn [step] in E.
  - unfold resolved in E. fields. destruct li; try discriminate. injection E as <-. fields. repeat (split; [first [assumption|discriminate]|]). assumption.
  - injection E as <-. unfold forward. fields. destruct li; fields; try (repeat (split; [first [assumption|discriminate]|]); assumption).
    destruct (Nat.leb_spec cap (length ring + 1)); fields; [repeat (split; [first [assumption|discriminate]|]); assumption|].
    rewrite sends_app. cbn [sends]. split; [rewrite <- I1, <- !app_assoc; reflexivity|]. split; [rewrite I2, !map_app, <- !app_assoc; reflexivity|]. split; [exact I3|]. split; [intro X; apply in_app_or in X; destruct X as [X|[X|[]]]; [exact (I4 X)|discriminate]|]. split; [discriminate|]. split; [discriminate|]. split; [exact I6|].
    intro R. destruct (I7 R) as [J1 J2]. split; [exact J1|]. intros m0 X. apply in_app_or in X. destruct X as [X|[X|[]]]; [exact (J2 _ X)|]. injection X as <-. apply (K R). reflexivity.
  - unfold handle in E. fields. destruct po as [|[m|] po]; [discriminate| |destruct I4; left; reflexivity]. injection E as <-. cbn [sends] in *.
    assert (Q : forall (vec1 zmq1 a : list msg), (a ++ vec1 ++ zmq1 = vec ++ zmq ++ [m]) -> (rate = false -> vec1 = [] /\ zmq1 = []) -> (rate = true -> if b then vec1 = [] else zmq1 = []) ->
      inv1 rate b (mkSrc li ring po vec1 zmq1 (fly ++ a) true acc wire out)).
    { intros vec1 zmq1 a X Y Z. unfold inv1, pending. fields.
      assert (W : (fly ++ a) ++ vec1 ++ zmq1 ++ sends po = fly ++ vec ++ zmq ++ m :: sends po). { rewrite <- app_assoc. f_equal. change (m :: sends po) with ([m] ++ sends po). rewrite (app_assoc vec1), (app_assoc a), X, <- !app_assoc. reflexivity. }
      rewrite W. split; [exact I1|]. split; [exact I2|]. split; [exact I3|]. split; [intro V; apply I4; right; exact V|]. split; [exact I5|]. split; [exact IU|]. split; [exact Y|]. intro R. split; [exact (Z R)|]. intros m0 V. apply (I7 R). right. exact V. }
    destruct rate.
    + destruct (I7 eq_refl) as [J1 J2]. rewrite (J2 m (or_introl eq_refl)). destruct b.
      * subst vec. assert (T := try_front_app true tok (zmq ++ [m])). destruct (try_front true tok (zmq ++ [m])) as [a q]. apply Q; [exact T|discriminate|reflexivity].
      * subst zmq. assert (T := try_front_app true tok (vec ++ [m])). destruct (try_front true tok (vec ++ [m])) as [a q]. apply Q; [rewrite app_nil_r; exact T|discriminate|reflexivity].
    + destruct (I6 eq_refl) as [-> ->]. cbn. destruct (m_zmq m); apply Q; solve [reflexivity|split; reflexivity|discriminate].
  - unfold timer in E. fields. destruct ti; [|discriminate]. cbv zeta in E. set (n := if rate then k else length vec + length zmq) in E. injection E as <-. fields. set (d := n - length vec).
    assert (W : (fly ++ firstn n vec ++ firstn d zmq) ++ skipn n vec ++ skipn d zmq ++ sends po = fly ++ vec ++ zmq ++ sends po).
    { rewrite <- !app_assoc. f_equal. unfold d. destruct rate.
      - destruct (I7 eq_refl) as [J1 _]. destruct b; subst; cbn [length].
        + rewrite firstn_nil, skipn_nil, Nat.sub_0_r. cbn [app]. rewrite app_assoc, firstn_skipn. reflexivity.
        + rewrite firstn_nil, skipn_nil. cbn [app]. rewrite app_assoc, firstn_skipn. reflexivity.
      - destruct (I6 eq_refl) as [-> ->]. rewrite !firstn_nil, !skipn_nil. reflexivity. }
    rewrite W. split; [exact I1|]. split; [exact I2|]. split; [exact I3|]. split; [exact I4|]. split; [exact I5|]. split; [exact IU|]. split.
    + intro R. destruct (I6 R) as [-> ->]. rewrite !skipn_nil. split; reflexivity.
    + intro R. destruct (I7 R) as [J1 J2]. split; [|exact J2]. destruct b; rewrite J1, skipn_nil; reflexivity.
  - unfold done in E. fields. destruct fly as [|m fly]; [discriminate|]. destruct ok; [|destruct N; reflexivity]. destruct li; [discriminate (IU eq_refl)| |destruct I5; reflexivity].
    cbn [andb] in E. rewrite I2 in E. cbn [app map] in E. rewrite N.eqb_refl in E. injection E as <-. fields.
    split; [rewrite <- app_assoc; exact I1|]. split; [reflexivity|]. split; [rewrite map_app, I3; reflexivity|]. split; [exact I4|]. split; [discriminate|]. split; [discriminate|]. split; assumption.
Qed.
Lemma inv1_reached : forall cap rate es s b, reached cap rate es s -> no_error es -> (rate = true -> forall m, In (Forward m) es -> m_zmq m = b) -> inv1 rate b s.
Proof.
  intros cap rate es s b H. induction H as [|es s e s1 H IH E]; intros N K.
  - unfold inv1, pending, start. fields. cbn. repeat split; try discriminate; try tauto. destruct b; reflexivity.
  - apply (inv1_step cap rate b s e s1).
    + apply IH; [intro X; apply N, in_or_app; left; exact X|]. intros R m X. apply (K R), in_or_app. left. exact X.
    + exact E.
    + intros ->. apply N, in_or_app. right. left. reflexivity.
    + intros R m ->. apply (K R), in_or_app. right. left. reflexivity.
Qed.

(** Executions as computations, for examples. *)
Fixpoint run (cap : nat) (rate : bool) (s : src) (es : list event) : option src := match es with [] => Some s | e :: r => match step cap rate s e with Some s1 => run cap rate s1 r | None => None end end.
Lemma run_reached : forall cap rate es s, run cap rate start es = Some s -> reached cap rate es s.
Proof.
  intros cap rate es. assert (G : forall es1 s1 s, reached cap rate es1 s1 -> run cap rate s1 es = Some s -> reached cap rate (es1 ++ es) s).
  { induction es as [|e es IH]; intros es1 s1 s H E; cbn in E; [injection E as <-; rewrite app_nil_r; exact H|]. destruct (step cap rate s1 e) as [s2|] eqn:S; [|discriminate]. change (e :: es) with ([e] ++ es). rewrite app_assoc. apply (IH _ s2); [|exact E]. econstructor; eassumption. }
  intros s E. exact (G [] start s (at_start _ _) E).
Qed.

(** The order of the bundles of one kind. *)
Lemma some_snoc : forall a b m, some_of a b -> some_of (a ++ [m]) (b ++ [m]).
Proof. intros a b m H. induction H; cbn; repeat constructor; assumption. Qed.
Lemma some_less : forall w m f b, some_of (w ++ m :: f) b -> some_of (w ++ f) b.
Proof.
  intros w m f b H. remember (w ++ m :: f) as x eqn:E. revert w E. induction H as [|m0 a b H IH|m0 a b H IH]; intros w E.
  - destruct w; discriminate.
  - destruct w as [|x w]; cbn in E; injection E as -> ->; cbn; constructor; [exact H|]. apply IH. reflexivity.
  - constructor. apply IH. exact E.
Qed.
Lemma some_head : forall a r b, some_of (a ++ r) b -> some_of a b.
Proof. intros a r. revert a. induction r as [|m r IH]; intros a b H; [rewrite app_nil_r in H; exact H|]. apply IH. exact (some_less _ _ _ _ H). Qed.
Lemma kind_app : forall b x y, of_kind b (x ++ y) = of_kind b x ++ of_kind b y.
Proof. intros b x y. apply filter_app. Qed.
Definition all_of (b : bool) (l : list msg) : Prop := forall m, In m l -> m_zmq m = b.
Lemma kind_all : forall b l, all_of b l -> of_kind b l = l /\ of_kind (negb b) l = [].
Proof.
  intros b l. induction l as [|m l IH]; intro H; [split; reflexivity|]. destruct IH as [I1 I2]; [intros x X; apply H; right; exact X|]. cbn. rewrite (H m (or_introl eq_refl)). fold (of_kind b l) (of_kind (negb b) l). rewrite I1, I2. destruct b; split; reflexivity.
Qed.
Definition waits (b : bool) (s : src) : list msg := of_kind b (r_fly s) ++ of_kind b (r_vec s) ++ of_kind b (r_zmq s) ++ of_kind b (sends (r_posted s)).
Definition inv2 (b : bool) (s : src) : Prop := some_of (of_kind b (r_wire s) ++ waits b s) (of_kind b (r_acc s)) /\ all_of false (r_vec s) /\ all_of true (r_zmq s).
Lemma all_part : forall b n l, all_of b l -> all_of b (firstn n l) /\ all_of b (skipn n l).
Proof. intros b n l H. split; intros m X; apply H; rewrite <- (firstn_skipn n l); apply in_or_app; [left|right]; exact X. Qed.
Lemma inv2_step : forall cap rate b s e s1, inv2 b s -> step cap rate s e = Some s1 -> inv2 b s1.
Proof.
  intros cap rate b s e s1 [I1 [I2 I3]] E. destruct s as [li ring po vec zmq fly ti acc wire out]. unfold inv2, waits in *. fields.
  destruct e as [|m|tok|k full|ok]; cbn [step] in E.
  - unfold resolved in E. fields. destruct li; try discriminate. injection E as <-. fields. split; [exact I1|split; assumption].
  - injection E as <-. unfold forward. fields. destruct li; fields; try (split; [exact I1|split; assumption]). destruct (cap <=? length ring + 1); fields; [split; [exact I1|split; assumption]|]. split; [|split; assumption].
    rewrite sends_app, !kind_app. cbn [sends]. replace (of_kind b [m]) with (if Bool.eqb (m_zmq m) b then [m] else []) by reflexivity. destruct (Bool.eqb (m_zmq m) b); [|rewrite !app_nil_r; exact I1]. rewrite !app_assoc. apply some_snoc. rewrite <- !app_assoc. exact I1.
  - unfold handle in E. fields. destruct po as [|[m|] po]; [discriminate| |injection E as <-; fields; split; [exact I1|split; assumption]]. injection E as <-. cbn [sends] in I1.
    change (m :: sends po) with ([m] ++ sends po) in I1. rewrite kind_app in I1. destruct (m_zmq m) eqn:Z.
    + assert (T := try_front_app rate tok (zmq ++ [m])). destruct (try_front rate tok (zmq ++ [m])) as [a q]. cbn [fst snd] in T. fields.
      assert (A : all_of true (a ++ q)). { rewrite T. intros x X. apply in_app_or in X. destruct X as [X|[<-|[]]]; [exact (I3 x X)|exact Z]. }
      split; [|split; [exact I2|intros x X; apply A, in_or_app; right; exact X]]. rewrite kind_app, <- !app_assoc. assert (K := f_equal (of_kind b) T). rewrite !kind_app in K.
      destruct (kind_all _ _ I2) as [V1 V2]. destruct (kind_all true _ A) as [A1 A2]. destruct b.
      * cbn [negb] in V2. rewrite V2 in *. cbn [app] in *. rewrite (app_assoc (of_kind true a)), K, <- app_assoc. exact I1.
      * cbn [negb] in A2. rewrite kind_app in A2. rewrite A2 in K. apply app_eq_nil in A2. destruct A2 as [-> ->]. symmetry in K. apply app_eq_nil in K. destruct K as [K1 K2]. rewrite K1, K2 in I1. exact I1.
    + assert (T := try_front_app rate tok (vec ++ [m])). destruct (try_front rate tok (vec ++ [m])) as [a q]. cbn [fst snd] in T. fields.
      assert (A : all_of false (a ++ q)). { rewrite T. intros x X. apply in_app_or in X. destruct X as [X|[<-|[]]]; [exact (I2 x X)|exact Z]. }
      split; [|split; [intros x X; apply A, in_or_app; right; exact X|exact I3]]. rewrite kind_app, <- !app_assoc. assert (K := f_equal (of_kind b) T). rewrite !kind_app in K.
      destruct (kind_all _ _ I3) as [V1 V2]. destruct (kind_all false _ A) as [A1 A2]. destruct b.
      * cbn [negb] in A2. rewrite kind_app in A2. rewrite A2 in K. apply app_eq_nil in A2. destruct A2 as [-> ->]. symmetry in K. apply app_eq_nil in K. destruct K as [K1 K2]. rewrite K1, K2 in I1. exact I1.
      * cbn [negb] in V2. rewrite V2 in *. cbn [app] in *. rewrite (app_assoc (of_kind false a)), K, <- app_assoc. exact I1.
  - unfold timer in E. fields. destruct ti; [|discriminate]. cbv zeta in E. set (n := if rate then k else length vec + length zmq) in E. injection E as <-. fields. set (d := n - length vec).
    destruct (all_part false n vec I2) as [P1 P2]. destruct (all_part true d zmq I3) as [P3 P4]. split; [|split; assumption].
    assert (Kv : of_kind b (firstn n vec) ++ of_kind b (skipn n vec) = of_kind b vec) by (rewrite <- kind_app, firstn_skipn; reflexivity).
    assert (Kz : of_kind b (firstn d zmq) ++ of_kind b (skipn d zmq) = of_kind b zmq) by (rewrite <- kind_app, firstn_skipn; reflexivity).
    rewrite !kind_app, <- !app_assoc. rewrite <- Kv, <- Kz, <- !app_assoc in I1. destruct b.
    + assert (X1 := proj2 (kind_all _ _ P1)). assert (X2 := proj2 (kind_all _ _ P2)). cbn [negb] in X1, X2. rewrite X1, X2 in *. exact I1.
    + assert (X1 := proj2 (kind_all _ _ P3)). assert (X2 := proj2 (kind_all _ _ P4)). cbn [negb] in X1, X2. rewrite X1, X2 in *. exact I1.
  - unfold done in E. fields. destruct fly as [|m fly]; [discriminate|]. change (m :: fly) with ([m] ++ fly) in I1. rewrite kind_app in I1.
    assert (G : some_of (of_kind b (wire ++ [m]) ++ of_kind b fly ++ of_kind b vec ++ of_kind b zmq ++ of_kind b (sends po)) (of_kind b acc)) by (rewrite kind_app, <- app_assoc; rewrite <- app_assoc in I1; exact I1).
    assert (D : sends (po ++ [Close]) = sends po) by (rewrite sends_app; cbn; apply app_nil_r).
    destruct (ok && _).
    + destruct ring as [|[n u] r]; [|destruct (N.eqb n (m_size m))]; injection E as <-; fields; rewrite ?D; (split; [exact G|split; assumption]).
    + injection E as <-. fields. rewrite D. split; [|split; assumption]. rewrite <- app_assoc in I1. replace (of_kind b [m]) with (if Bool.eqb (m_zmq m) b then [m] else []) in I1 by reflexivity. destruct (Bool.eqb (m_zmq m) b); [|exact I1]. exact (some_less _ _ _ _ I1).
Qed.
Lemma inv2_reached : forall cap rate b es s, reached cap rate es s -> inv2 b s.
Proof. intros cap rate b es s H. induction H as [|es s e s1 H IH E]; [|exact (inv2_step _ _ _ _ _ _ IH E)]. unfold inv2, waits, start. fields. cbn. split; [constructor|]. split; intros m []. Qed.
