(** C52: what is on disk and where it is, when the others keep to their part. *)
From Coq Require Import PeanoNat NArith List Bool Lia Permutation ZifyBool ZifyN.
From Verif Require Import Base M_CustodyId M_StorageIf S_StorageIf L_StorageIf L_StorageIfInv L_StorageIfSend L_StorageIfAll.
Import ListNotations.
Open Scope N_scope.

(** ** Lists *)
Lemma mem_in x l : mem x l = true <-> In x l.
Proof. unfold mem. rewrite existsb_exists. split; [intros (y & I & E); apply N.eqb_eq in E; subst; exact I|intros I; exists x; split; [exact I|apply N.eqb_refl]]. Qed.
Lemma mem_out x l : mem x l = false <-> ~ In x l.
Proof. rewrite <- mem_in. destruct (mem x l); intuition congruence. Qed.
Lemma in_drop x y l : In x (drop y l) <-> In x l /\ x <> y.
Proof. unfold drop. rewrite filter_In. destruct (N.eqb_spec x y); cbn [negb]; intuition congruence. Qed.
Lemma drop_absent x l : ~ In x l -> drop x l = l.
Proof. induction l as [|y l IH]; intros H; [reflexivity|]. cbn [drop filter]. destruct (N.eqb_spec y x) as [->|N]; [exfalso; apply H; left; reflexivity|]. cbn [negb]. f_equal. apply IH. intros I. apply H. right. exact I. Qed.
Lemma find_b_in c l b : find_b c l = Some b -> In (c, b) l.
Proof. unfold find_b. destruct (find _ l) as [[a x]|] eqn:F; [|discriminate]. intros [= <-]. apply find_some in F as (F & E). cbn [fst] in E. apply N.eqb_eq in E. subst. exact F. Qed.
Lemma find_b_none c l : find_b c l = None <-> ~ In c (map fst l).
Proof.
  unfold find_b. destruct (find _ l) as [[a x]|] eqn:F; split; try discriminate; try reflexivity.
  - intros H. exfalso. apply H. apply find_some in F as (F & E). cbn [fst] in E. apply N.eqb_eq in E. subst. apply in_map_iff. exists (c, x). auto.
  - intros _ I. apply in_map_iff in I as (y & E & I). pose proof (find_none _ _ F _ I) as X. cbn beta in X. rewrite E, N.eqb_refl in X. discriminate.
Qed.
Lemma nodup_fst {A B} (l : list (A * B)) a x y : NoDup (map fst l) -> In (a, x) l -> In (a, y) l -> x = y.
Proof.
  induction l as [|[p q] l IH]; intros N; cbn [In]; [tauto|]. cbn [map fst] in N. inversion N as [|? ? N1 N2]; subst. intros [E|I] [E1|I1]; [congruence| | |exact (IH N2 I I1)].
  - exfalso. injection E as -> ->. apply N1. apply in_map_iff. exists (a, y). auto.
  - exfalso. injection E1 as -> ->. apply N1. apply in_map_iff. exists (a, x). auto.
Qed.
Lemma find_b_is c l b : NoDup (map fst l) -> In (c, b) l -> find_b c l = Some b.
Proof. intros N I. destruct (find_b c l) as [b'|] eqn:F; [f_equal; eapply nodup_fst; [exact N|apply find_b_in; exact F|exact I]|]. apply find_b_none in F. exfalso. apply F. apply in_map_iff. exists (c, b). auto. Qed.
Lemma in_fst {A B} (a : A) (l : list (A * B)) : In a (map fst l) <-> exists b, In (a, b) l.
Proof. rewrite in_map_iff. split; [intros ([x y] & <- & I); eauto|intros (b & I); exists (a, b); auto]. Qed.
Lemma in_erase {B} c x (b : B) l : In (x, b) (filter (fun e => negb (fst e =? c)) l) <-> In (x, b) l /\ x <> c.
Proof. rewrite filter_In. cbn [fst]. destruct (N.eqb_spec x c); cbn [negb]; intuition congruence. Qed.
Lemma in_erase_fst {B} c x (l : list (N * B)) : In x (map fst (filter (fun e => negb (fst e =? c)) l)) <-> In x (map fst l) /\ x <> c.
Proof. rewrite !in_fst. split; [intros (b & I); apply in_erase in I as (I & N); eauto|intros ((b & I) & N); exists b; apply in_erase; auto]. Qed.
Lemma has_timer_in c l : has_timer c l = true <-> In c (map fst l).
Proof. unfold has_timer. rewrite existsb_exists, in_map_iff. split; intros (y & A & B); exists y; [apply N.eqb_eq in B|]; auto. split; [exact B|apply N.eqb_eq; exact A]. Qed.

(** ** A disk in order; [O] the ids egress has *)
Record store_ok (O : list N) (d : store) : Prop := mkOk {
  so_ent : NoDup (map fst (d_ent d)); so_wait : NoDup (map fst (d_wait d)); so_time : NoDup (map fst (d_time d)); so_open : NoDup O;
  so_ws : incl (d_wait d) (d_ent d); so_used : incl (map fst (d_ent d)) (d_used d);
  so_td : forall c e, In (c, e) (d_time d) -> exists b, In (c, b) (d_ent d) /\ e = b_dest b;
  so_wo : forall c, In c (map fst (d_wait d)) -> ~ In c O; so_wt : forall c, In c (map fst (d_wait d)) -> ~ In c (map fst (d_time d));
  so_to : forall c, In c (map fst (d_time d)) -> ~ In c O;
  so_cover : forall c, In c (map fst (d_ent d)) -> In c (map fst (d_wait d)) \/ In c O \/ In c (map fst (d_time d));
  so_start : forall c, In c (d_start d) <-> In c O /\ exists b, In (c, b) (d_ent d) /\ b_cust b = true;
  so_broken : d_broken d = false }.
Lemma ok_time_ent O d c : store_ok O d -> In c (map fst (d_time d)) -> In c (map fst (d_ent d)).
Proof. intros K I. apply in_fst in I as (e & I). destruct (so_td _ _ K _ _ I) as (b & J & _). apply in_fst. eauto. Qed.
Lemma ok_wait_ent O d c : store_ok O d -> In c (map fst (d_wait d)) -> In c (map fst (d_ent d)).
Proof. intros K I. apply in_fst in I as (e & I). apply (so_ws _ _ K) in I. apply in_fst. eauto. Qed.
Lemma ok_start_open O d c : store_ok O d -> In c (d_start d) -> In c O. Proof. intros K I. apply (so_start _ _ K) in I. tauto. Qed.
Lemma ok_perm O O' d d' : Permutation O O' -> Permutation (d_wait d) (d_wait d') -> d_ent d' = d_ent d -> d_used d' = d_used d -> d_time d' = d_time d -> d_start d' = d_start d -> d_broken d' = d_broken d -> store_ok O d -> store_ok O' d'.
Proof.
  intros P W E1 E2 E3 E4 E5 [A B C D E F G H I J K L M]. pose proof (Permutation_map fst W) as W1.
  assert (PO : forall c, In c O <-> In c O') by (intros c; split; apply Permutation_in; [|symmetry]; exact P).
  assert (PW : forall c, In c (map fst (d_wait d)) <-> In c (map fst (d_wait d'))) by (intros c; split; apply Permutation_in; [|symmetry]; exact W1).
  constructor; rewrite ?E1, ?E2, ?E3, ?E4, ?E5; try assumption.
  - eapply Permutation_NoDup; eassumption.
  - eapply Permutation_NoDup; eassumption.
  - intros x X. apply E. eapply Permutation_in; [symmetry; exact W|exact X].
  - intros c X Y. apply PW in X. apply PO in Y. exact (H c X Y).
  - intros c X. apply PW in X. exact (I c X).
  - intros c X Y. apply PO in Y. exact (J c X Y).
  - intros c X. apply K in X. rewrite <- PW, <- PO. exact X.
  - intros c. rewrite L, PO. reflexivity.
Qed.
(** Another id in use. *)
Lemma ok_used O d u : incl (d_used d) u -> store_ok O d -> store_ok O (mkStore (d_ent d) (d_wait d) u (d_time d) (d_start d) (d_broken d)).
Proof. intros X [A B C D E F G H I J K L M]. constructor; cbn [d_ent d_wait d_used d_time d_start d_broken]; try assumption. intros x Y. apply X, F, Y. Qed.
(** A bundle is written. *)
Lemma ok_put O d c b : ~ In c (map fst (d_ent d)) -> In c (d_used d) -> ~ In c O -> store_ok O d ->
  store_ok O (mkStore ((c, b) :: d_ent d) (d_wait d ++ [(c, b)]) (d_used d) (d_time d) (d_start d) (d_broken d)).
Proof.
  intros NE IU NO K0. pose proof (ok_time_ent O d c K0) as TE. pose proof (ok_wait_ent O d c K0) as WE. destruct K0 as [A B C D E F G H I J K L M].
  constructor; cbn [d_ent d_wait d_used d_time d_start d_broken]; try assumption.
  - cbn [map fst]. constructor; assumption.
  - rewrite map_app. cbn [map fst]. apply nodup_snoc; [exact B|tauto].
  - intros x X. apply in_app_or in X as [X|[X|[]]]; [right; apply E; exact X|left; exact X].
  - intros x [X|X]; [cbn [fst] in X; subst; exact IU|exact (F x X)].
  - intros x e X. destruct (G x e X) as (b0 & Y & Z). exists b0. split; [right; exact Y|exact Z].
  - intros x X. rewrite map_app in X. apply in_app_or in X as [X|[X|[]]]; [exact (H x X)|]. cbn [fst] in X. subst. exact NO.
  - intros x X. rewrite map_app in X. apply in_app_or in X as [X|[X|[]]]; [exact (I x X)|]. cbn [fst] in X. subst. tauto.
  - intros x [X|X]; rewrite map_app, in_app_iff; cbn [map fst In] in *; [tauto|]. destruct (K x X) as [Y|Y]; tauto.
  - intros x. rewrite L. split; intros (X & b0 & Y & Z); (split; [exact X|]); exists b0; (split; [|exact Z]).
    + right. exact Y.
    + destruct Y as [Y|Y]; [injection Y as -> ->; contradiction|exact Y].
Qed.
(** A bundle is gone. *)
Lemma ok_gone O d d' c : d_ent d' = erase_b c (d_ent d) -> d_wait d' = erase_b c (d_wait d) -> d_time d' = erase_t c (d_time d) -> d_start d' = drop c (d_start d) -> d_broken d' = false ->
  (forall x, In x (d_used d) -> x <> c -> In x (d_used d')) -> store_ok O d -> store_ok O d'.
Proof.
  intros E1 E2 E3 E4 E5 U [A B C D E F G H I J K L M]. unfold erase_b, erase_t in *. constructor; rewrite ?E1, ?E2, ?E3, ?E4; try assumption; try (apply filter_nodup_fst; assumption).
  - intros [x b] X. apply in_erase in X as (X & Y). apply in_erase. split; [apply E; exact X|exact Y].
  - intros x X. apply in_erase_fst in X as (X & Y). apply U; [apply F; exact X|exact Y].
  - intros x e X. apply in_erase in X as (X & Y). destruct (G x e X) as (b & Z & W). exists b. split; [apply in_erase; auto|exact W].
  - intros x X. apply in_erase_fst in X as (X & _). exact (H x X).
  - intros x X Y. apply in_erase_fst in X as (X & _). apply in_erase_fst in Y as (Y & _). exact (I x X Y).
  - intros x X. apply in_erase_fst in X as (X & _). exact (J x X).
  - intros x X. apply in_erase_fst in X as (X & Y). rewrite !in_erase_fst. specialize (K x X). tauto.
  - intros x. rewrite in_drop, L. split.
    + intros ((X & b & Y & Z) & N). split; [exact X|]. exists b. split; [apply in_erase; auto|exact Z].
    + intros (X & b & Y & Z). apply in_erase in Y as (Y & N). split; [|exact N]. split; [exact X|]. eauto.
Qed.
Lemma erase_absent {B} c (l : list (N * B)) : ~ In c (map fst l) -> filter (fun e => negb (fst e =? c)) l = l. Proof. apply filter_fst_absent. Qed.
Lemma ok_signalled O d d0 c : store_ok O d -> (forall x, In x (d_used d) -> x <> c -> In x (d_used d0)) -> d_ent d0 = d_ent d -> d_wait d0 = d_wait d -> d_time d0 = d_time d -> d_start d0 = d_start d -> d_broken d0 = false ->
  store_ok O (signalled c d0).
Proof.
  intros K U E1 E2 E3 E4 E5. unfold signalled. rewrite E4. destruct (mem c (d_start d)) eqn:MM; apply (ok_gone O d _ c); try assumption; cbn [remove_any no_start cancel d_ent d_wait d_time d_start d_broken d_used]; rewrite ?E1, ?E2, ?E3, ?E4; try reflexivity; try assumption.
  - symmetry. apply erase_absent. apply mem_in in MM. apply (ok_start_open _ _ _ K) in MM. intros X. exact (so_to _ _ K _ X MM).
  - symmetry. apply drop_absent. apply mem_out. exact MM.
Qed.
(** A bundle goes to egress. *)
Lemma ok_send O d c b w st : Permutation (d_wait d) ((c, b) :: w) -> st = (if b_cust b then c :: drop c (d_start d) else d_start d) -> store_ok O d -> store_ok (c :: O) (mkStore (d_ent d) w (d_used d) (d_time d) st (d_broken d)).
Proof.
  intros P -> K0. pose proof (Permutation_map fst P) as P1. cbn [map fst] in P1. pose proof (ok_start_open O d c K0) as SO. destruct K0 as [A B C D E F G H I J K L M].
  assert (B1 : NoDup (c :: map fst w)) by (eapply Permutation_NoDup; eassumption). inversion B1 as [|? ? B2 B3]; subst.
  assert (CW : In c (map fst (d_wait d))) by (eapply Permutation_in; [symmetry; exact P1|left; reflexivity]).
  assert (WW : forall x, In x (map fst w) -> In x (map fst (d_wait d)) /\ x <> c) by (intros x X; split; [eapply Permutation_in; [symmetry; exact P1|right; exact X]|intros ->; contradiction]).
  assert (CE : In (c, b) (d_ent d)) by (apply E; eapply Permutation_in; [symmetry; exact P|left; reflexivity]).
  constructor; cbn [d_ent d_wait d_used d_time d_start d_broken]; try assumption.
  - constructor; [exact (H c CW)|exact D].
  - intros x X. apply E. eapply Permutation_in; [symmetry; exact P|right; exact X].
  - intros x X [Y|Y]; [apply WW in X as (_ & X); congruence|]. exact (H x (proj1 (WW x X)) Y).
  - intros x X. exact (I x (proj1 (WW x X))).
  - intros x X [Y|Y]; [subst; exact (I _ CW X)|exact (J x X Y)].
  - intros x X. destruct (K x X) as [Y|[Y|Y]]; [|right; left; right; exact Y|right; right; exact Y]. apply (Permutation_in _ P1) in Y as [Y|Y]; [right; left; left; exact Y|left; exact Y].
  - intros x. assert (X0 : In x (if b_cust b then c :: drop c (d_start d) else d_start d) <-> (x = c /\ b_cust b = true) \/ In x (d_start d)).
    { destruct (b_cust b); cbn [In]; rewrite ?in_drop; [destruct (N.eq_dec x c) as [->|N]; intuition congruence|intuition congruence]. }
    rewrite X0, L. cbn [In]. split.
    + intros [(-> & X)|(X & Y)]; [split; [auto|eauto]|tauto].
    + intros ([<-|X] & b0 & Y & Z); [left; split; [reflexivity|]; rewrite (nodup_fst _ _ _ _ A CE Y); exact Z|right; split; [exact X|eauto]].
Qed.
(** Egress no longer has it. *)
Lemma ok_close O O' d c w t : Permutation O (c :: O') -> store_ok O d -> NoDup (map fst w) -> NoDup (map fst t) -> incl w (d_ent d) ->
  (forall x, In x (map fst w) <-> In x (map fst (d_wait d)) \/ (x = c /\ In c (map fst (d_ent d)) /\ ~ In c (map fst t))) ->
  (forall x, In x (map fst t) <-> In x (map fst (d_time d)) \/ (x = c /\ In c (map fst t))) -> (forall e, In (c, e) t -> exists b, In (c, b) (d_ent d) /\ e = b_dest b) -> (forall x e, x <> c -> In (x, e) t -> In (x, e) (d_time d)) ->
  store_ok O' (mkStore (d_ent d) w (d_used d) t (drop c (d_start d)) (d_broken d)).
Proof.
  intros P K0 NW NT WE WI TI TC TO. pose proof (ok_time_ent O d c K0) as TE. destruct K0 as [A B C D E F G H I J K L M].
  assert (D1 : NoDup (c :: O')) by (eapply Permutation_NoDup; eassumption). inversion D1 as [|? ? D2 D3]; subst.
  assert (CO : In c O) by (eapply Permutation_in; [symmetry; exact P|left; reflexivity]).
  assert (OO : forall x, In x O' <-> In x O /\ x <> c).
  { intros x. split; [intros X; split; [eapply Permutation_in; [symmetry; exact P|right; exact X]|intros ->; contradiction]|]. intros (X & N). apply (Permutation_in _ P) in X as [X|X]; [congruence|exact X]. }
  constructor; cbn [d_ent d_wait d_used d_time d_start d_broken]; try assumption.
  - intros x e X. destruct (N.eq_dec x c) as [->|N]; [exact (TC e X)|]. exact (G x e (TO x e N X)).
  - intros x X Y. apply OO in Y as (Y & N). apply WI in X as [X|(X & _)]; [exact (H x X Y)|congruence].
  - intros x X Y. apply WI in X as [X|(-> & X & Z)]; [|contradiction]. apply TI in Y as [Y|(-> & Y)]; [exact (I x X Y)|exact (H c X CO)].
  - intros x X Y. apply OO in Y as (Y & N). apply TI in X as [X|(X & _)]; [exact (J x X Y)|congruence].
  - intros x X. rewrite WI, OO. destruct (N.eq_dec x c) as [->|N].
    + destruct (in_dec N.eq_dec c (map fst t)) as [Y|Y]; [auto|]. left. right. auto.
    + destruct (K x X) as [Y|[Y|Y]]; [auto|auto|]. right. right. apply TI. auto.
  - intros x. rewrite in_drop, L, OO. tauto.
Qed.
(** A timer runs out. *)
Lemma ok_timer O d c b : store_ok O d -> In (c, b) (d_ent d) -> In c (map fst (d_time d)) -> store_ok O (mkStore (d_ent d) ((c, b) :: d_wait d) (d_used d) (erase_t c (d_time d)) (d_start d) (d_broken d)).
Proof.
  intros [A B C D E F G H I J K L M] X Y. unfold erase_t. constructor; cbn [d_ent d_wait d_used d_time d_start d_broken]; try assumption.
  - cbn [map fst]. constructor; [intros Z; exact (I c Z Y)|exact B].
  - apply filter_nodup_fst. exact C.
  - intros x [Z|Z]; [subst; exact X|exact (E x Z)].
  - intros x e Z. apply in_erase in Z as (Z & _). exact (G x e Z).
  - intros x [Z|Z]; [cbn [fst] in Z; subst; exact (J _ Y)|exact (H x Z)].
  - intros x [Z|Z] W; apply in_erase_fst in W as (W & N); [cbn [fst] in Z; congruence|exact (I x Z W)].
  - intros x Z. apply in_erase_fst in Z as (Z & _). exact (J x Z).
  - intros x Z. cbn [map fst In]. rewrite in_erase_fst. specialize (K x Z). destruct (N.eq_dec x c); [auto|]. tauto.
Qed.
