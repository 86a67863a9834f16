(** C55: lemmas about storage and egress together. *)
From Coq Require Import PeanoNat NArith List Bool Lia Permutation ZifyBool ZifyN.
From Verif Require Import Base M_CustodyId M_StorageIf S_StorageIf L_StorageIf L_StorageIfInv L_StorageIfSend L_StorageIfAll L_StorageIfDisk L_StorageIfHonest L_StorageIfKept L_PairStorage.
From Verif Require M_Egress S_Egress L_Egress P_Egress.
From Verif Require Import M_StoreEgress S_StoreEgress.
Import ListNotations.
Open Scope N_scope.

(** ** Answers *)
Definition own (m : emsg) : eack := mkEA (e_cut m) (e_cid m) (e_idx m) (e_hop m) (e_dest m) (negb (e_custody m)) NoError.
Definition calm (a : eack) : eack := mkEA (x_cut a) (x_cid a) (x_idx a) (x_hop a) (x_dest a) (x_delete a) NoError.
Definition back (l : list M_Egress.to_storage) : list eack := flat_map (fun m => match m with M_Egress.SAck a _ => [calm a] | _ => [] end) l.
Definition mine (l : list M_Egress.user) : list eack := flat_map (fun u => match u with (M_Egress.Storage, a) => [a] | _ => [] end) l.
Definition cids (l : list eack) : list N := flat_map (fun a => if x_cut a then [] else [x_cid a]) l.
Lemma eack_dec (a b : eack) : {a = b} + {a <> b}.
Proof. decide equality; try apply Bool.bool_dec; try apply N.eq_dec; decide equality; apply N.eq_dec. Qed.
Lemma perm_map_flat {A B} (f : A -> list B) l l' : Permutation l l' -> Permutation (flat_map f l) (flat_map f l').
Proof. intros P. induction P; cbn [flat_map]; [constructor|apply Permutation_app_head; assumption| |etransitivity; eassumption]. rewrite !app_assoc. apply Permutation_app_tail, Permutation_app_comm. Qed.
Lemma mine_app a b : mine (a ++ b) = mine a ++ mine b. Proof. apply flat_map_app. Qed.
Lemma back_app a b : back (a ++ b) = back a ++ back b. Proof. apply flat_map_app. Qed.
Lemma mine_answers s : mine (map S_Egress.plain (S_Egress.answers s)) = back (M_Egress.g_storage s).
Proof.
  unfold S_Egress.answers. rewrite map_app, mine_app. match goal with |- _ ++ ?x = _ => assert (E : x = []) end.
  { induction (M_Egress.g_ingress s) as [|[a|l] l0 IH]; [reflexivity|exact IH|exact IH]. }
  rewrite E, app_nil_r. induction (M_Egress.g_storage s) as [|[a b|i b|l] l0 IH]; [reflexivity|exact (f_equal (cons (calm a)) IH)|exact IH|exact IH].
Qed.
(** The books of egress, for storage. *)
Lemma egress_ledger max oc te t h d : S_Egress.fair_run max oc te t h d ->
  Permutation (mine (S_Egress.debts te)) (back (M_Egress.g_storage t) ++ mine (map S_Egress.plain (M_Egress.g_lost t)) ++ mine (S_Egress.claims h)).
Proof.
  intros R. pose proof (P_Egress.C54_every_answer_is_accounted_for _ _ _ _ _ _ R) as L. apply (perm_map_flat (fun u => match u with (M_Egress.Storage, a) => [a] | _ => [] end)) in L.
  fold (mine (S_Egress.debts te)) in L. rewrite L. match goal with |- Permutation (flat_map ?f ?l) _ => change (flat_map f l) with (mine l) end. rewrite mine_app, map_app, mine_app, mine_answers, <- app_assoc. reflexivity.
Qed.
(** What egress sends to storage stays sent; the first of it is telemetry; failed bundles name outduct 0. *)
Definition zeroed (m : M_Egress.to_storage) : Prop := match m with M_Egress.SFailed i _ => i = 0 | _ => True end.
Lemma storage_grows e t t' : M_Egress.step e t = Some t' -> exists l, M_Egress.g_storage t' = M_Egress.g_storage t ++ l /\ Forall zeroed l.
Proof.
  assert (LC : forall dn i x, M_Egress.g_storage (M_Egress.link_changed dn i x) = M_Egress.g_storage x) by (intros; unfold M_Egress.link_changed; destruct (M_Egress.out_at _ _); reflexivity).
  assert (NIL : forall (x : list M_Egress.to_storage), exists l, x = x ++ l /\ Forall zeroed l) by (intros x; exists []; rewrite app_nil_r; split; [reflexivity|constructor]).
  assert (ONE : forall (x : list M_Egress.to_storage) m, zeroed m -> exists l, x ++ [m] = x ++ l /\ Forall zeroed l) by (intros x m Z; exists [m]; split; [reflexivity|repeat constructor; exact Z]).
  assert (OF : forall i b u told ok1 ok2 x x', M_Egress.on_failed i b u told ok1 ok2 x = Some x' -> exists l, M_Egress.g_storage x' = M_Egress.g_storage x ++ l /\ Forall zeroed l).
  { intros i b u told ok1 ok2 x x'. unfold M_Egress.on_failed. set (x1 := match i with Some i => _ | None => x end). assert (E : M_Egress.g_storage x1 = M_Egress.g_storage x) by (unfold x1; destruct i; [apply LC|reflexivity]). cbv zeta.
    destruct told; [intros [= <-]; cbn; rewrite E; apply NIL|]. destruct u as [[src a]|]; [|discriminate]. rewrite <- E.
    destruct src; [destruct ok1, ok2|destruct ok1, (x_cut a)]; intros [= <-]; cbn; try apply NIL; apply ONE; reflexivity || exact I. }
  destruct e; cbn [M_Egress.step]; try (intros [= <-]; cbn; apply NIL).
  - unfold M_Egress.on_bundle. cbv zeta. destruct (match src with M_Egress.Ingress => false | M_Egress.Storage => _ end).
    + intros [= <-]. destruct ok1; [destruct ok2|]; cbn; try apply NIL; apply ONE; exact I.
    + destruct (M_Egress.find_route _ _) as [i|]; [|apply OF]. destruct f; [intros [= <-]; apply NIL|]. destruct (_ =? 0); [intros [= <-]; apply NIL|]. intros H. apply OF in H. exact H.
  - unfold M_Egress.on_route. destruct (M_Egress.reroute d hop t) as [t1|] eqn:R; [|intros [= <-]; apply NIL]. assert (E : M_Egress.g_storage t1 = M_Egress.g_storage t).
    { unfold M_Egress.reroute in R. destruct (_ =? _); [injection R as <-; reflexivity|]. destruct (M_Egress.find_hop _ _ _); [injection R as <-; reflexivity|discriminate]. }
    intros [= <-]. unfold M_Egress.resend. cbn. rewrite E. apply ONE. exact I.
  - intros [= <-]. destruct (M_Egress.g_pair t) as [|[up i] r]; cbn; apply NIL.
  - intros [= <-]. unfold M_Egress.set_sched. destruct (M_Egress.out_at _ _); apply NIL.
  - intros [= <-]. destruct (M_Egress.out_at _ _); [|apply NIL]. unfold M_Egress.set_sched. destruct (M_Egress.out_at _ _); apply NIL.
  - intros [= <-]. unfold M_Egress.on_success. destruct u as [[src a]|]; [|apply NIL]. cbv zeta. destruct ok; [destruct src|]; cbn; rewrite LC; try apply NIL; apply ONE; exact I.
  - apply OF.
  - intros [= <-]. rewrite LC. apply NIL.
  - intros [= <-]. destruct ok; apply NIL.
Qed.
Lemma all_zeroed max oc te t h d : S_Egress.fair_run max oc te t h d -> Forall zeroed (M_Egress.g_storage t).
Proof.
  intros R. induction R as [t I|tr t h d e t' h' d' R IH F ST]; [apply L_Egress.init_shape in I; subst t; cbn; repeat constructor|]. destruct (storage_grows _ _ _ ST) as (l1 & E & Z). rewrite E. apply Forall_app. auto.
Qed.
Lemma first_is_telemetry max oc te t h d : S_Egress.fair_run max oc te t h d -> exists l r, M_Egress.g_storage t = M_Egress.STelem l :: r.
Proof.
  intros R. induction R as [t I|tr t h d e t' h' d' R (l & r & IH) F ST]; [apply L_Egress.init_shape in I; subst t; cbn; eauto|]. destruct (storage_grows _ _ _ ST) as (l1 & E & _). rewrite E, IH. cbn [app]. eauto.
Qed.
Lemma telem_in l t : In (M_Egress.STelem l) (M_Egress.g_storage t) -> In l (S_Egress.telem_storage t).
Proof. intros I. unfold S_Egress.telem_storage. apply in_flat_map. exists (M_Egress.STelem l). split; [exact I|left; reflexivity]. Qed.
Lemma telemetry_in_order max oc te t h d l : S_Egress.fair_run max oc te t h d -> In (M_Egress.STelem l) (M_Egress.g_storage t) -> in_order 0 l /\ length l = length oc.
Proof.
  intros R I. destruct (P_Egress.C54_telemetry_follows_the_routes max oc te t (L_Egress.fair_reach _ _ _ _ _ _ R)) as (_ & _ & _ & D). destruct (D l (telem_in _ _ I)) as (tr1 & tr2 & _ & D1 & D2). split.
  - intros i o H. destruct (D2 i o H) as (E & _). exact E.
  - apply (f_equal (@length _)) in D1. rewrite !map_length in D1. exact D1.
Qed.

(** ** What storage can be told *)
Definition answerable (s : state) (a : eack) : Prop :=
  if x_cut a then exists i k, names_link a (RVec i) /\ get_link s (RVec i) = Some k
  else (exists r k, names_link a r /\ get_link s r = Some k /\ In (x_cid a) (map fst (k_open k))) /\
       (forall b, stored s (x_cid a) b -> x_dest a = b_dest b /\ x_delete a = negb (b_cust b)) /\ (x_delete a = true -> exists b, stored s (x_cid a) b).
Definition keeps (s s' : state) : Prop := forall c b, In c (open_ids s) -> stored s c b -> b_cust b = false -> stored s' c b.
Lemma answerable_open s a : answerable s a -> x_cut a = false -> In (x_cid a) (open_ids s).
Proof. unfold answerable. intros H E. rewrite E in H. destruct H as ((r & k & _ & G & I) & _). eapply open_in; eassumption. Qed.
Lemma stored_back s s' a : fresh s s' -> In (x_cid a) (open_ids s) -> (forall b, stored s (x_cid a) b -> x_dest a = b_dest b /\ x_delete a = negb (b_cust b)) ->
  forall b, stored s' (x_cid a) b -> x_dest a = b_dest b /\ x_delete a = negb (b_cust b).
Proof. intros F O H b ST. destruct (F _ _ ST) as [X|X]; [exact (H b X)|contradiction]. Qed.
Lemma answerable_mild s s' a : mild s s' -> keeps s s' -> answerable s a -> answerable s' a.
Proof.
  intros M KP H. pose proof (answerable_open s a H) as O. unfold answerable in *. destruct (x_cut a).
  - destruct H as (i & k & N & G). destruct (ml_vec _ _ M i k G) as (k' & G'). eauto.
  - specialize (O eq_refl). destruct H as ((r & k & N & G & I) & H1 & H2). split.
    + destruct (ml_keep _ _ M r k G) as (k' & G' & E); [intros E; rewrite E in I; destruct I|]. exists r, k'. rewrite E. auto.
    + split; [exact (stored_back s s' a (ml_fresh _ _ M) O H1)|]. intros D. destruct (H2 D) as (b & ST). exists b. apply KP; [exact O|exact ST|]. destruct (H1 b ST) as (_ & E). rewrite D in E. destruct (b_cust b); [discriminate|reflexivity].
Qed.
Lemma answerable_sends ms s s' a : sends ms s s' -> answerable s a -> answerable s' a.
Proof.
  intros S H. pose proof (answerable_open s a H) as O. unfold answerable in *. destruct (x_cut a).
  - destruct H as (i & k & N & G). destruct (sd_keep _ _ _ S _ k G) as (k' & G' & _). eauto.
  - specialize (O eq_refl). destruct H as ((r & k & N & G & I) & H1 & H2). split.
    + destruct (sd_keep _ _ _ S r k G) as (k' & G' & E). exists r, k'. split; [exact N|]. split; [exact G'|]. apply in_map_iff in I as (y & Y1 & Y2). apply in_map_iff. exists y. auto.
    + split; [exact (stored_back s s' a (sd_fresh _ _ _ S) O H1)|]. intros D. destruct (H2 D) as (b & ST). exists b. apply (sd_grows _ _ _ S). exact ST.
Qed.
Lemma in_erase c x l : x <> c -> In x (map fst l) -> In x (map fst (erase_id c l)).
Proof. intros N I. apply in_map_iff in I as (y & <- & I). apply in_map. unfold erase_id. apply filter_In. split; [exact I|]. apply negb_true_iff, N.eqb_neq. exact N. Qed.
Lemma answerable_closes c r s s' a : closes c r s s' -> (forall x b, x <> c -> stored s x b -> stored s' x b) -> (x_cut a = false -> x_cid a <> c) -> answerable s a -> answerable s' a.
Proof.
  intros [C1 C2 (kc & kc' & GC & GC' & EC & _) C4 C5 C6 C7] KP NC H. pose proof (answerable_open s a H) as O. unfold answerable in *. destruct (x_cut a).
  - destruct H as (i & k & N & G). destruct (ref_dec (RVec i) r) as [EQ|NR]; [subst r; eauto|]. pose proof (C2 _ NR) as E. rewrite G in E. destruct (get_link s' (RVec i)) as [k'|] eqn:G'; [eauto|discriminate].
  - specialize (O eq_refl). specialize (NC eq_refl). destruct H as ((r0 & k & N & G & I) & H1 & H2). split.
    + destruct (ref_dec r0 r) as [->|NR].
      * exists r, kc'. split; [exact N|]. split; [exact GC'|]. rewrite EC. apply in_erase; [exact NC|]. assert (k = kc) by congruence. subst k. exact I.
      * pose proof (C2 _ NR) as E. rewrite G in E. destruct (get_link s' r0) as [k'|] eqn:G'; [|discriminate]. injection E as E _ _ _. exists r0, k'. rewrite E. auto.
    + split; [exact (stored_back s s' a C5 O H1)|]. intros D. destruct (H2 D) as (b & ST). exists b. apply KP; assumption.
Qed.
Lemma sent_answerable s m : named s -> N.of_nat (length (g_vec s)) < U64MAX -> NoDup (map fst (d_ent (g_disk s))) -> sent s m -> answerable s (own m).
Proof.
  intros NM L ND. unfold sent, answerable. cbn [own x_cut x_cid x_dest x_delete]. assert (LV : forall i k, get_link s (RVec i) = Some k -> N.of_nat i < U64MAX) by (intros i k G; cbn [get_link] in G; assert (i < length (g_vec s))%nat by (apply nth_error_Some; congruence); lia).
  destruct (e_cut m).
  - intros (i & k & G & E). exists i, k. split; [|exact G]. cbn [names_link own x_idx]. pose proof (NM _ _ G) as X. cbn in X. pose proof (LV _ _ G). split; [congruence|lia].
  - intros (r & k & G & E1 & E2 & I & ST & E3 & E4). split; [|split].
    + exists r, k. split; [|auto]. pose proof (NM _ _ G) as X. destruct r as [i|n]; cbn [names_link own x_idx x_hop].
      * pose proof (LV _ _ G). split; [congruence|lia].
      * destruct X as (X1 & X2). split; congruence.
    + intros b ST'. assert (b = e_b m) by (eapply nodup_fst; eassumption). subst b. rewrite E3, E4. auto.
    + intros _. eauto.
Qed.

(** ** The invariant *)
Definition last_telemetry (l : list M_Egress.to_storage) : option (list outduct) :=
  fold_left (fun r m => match m with M_Egress.STelem t => Some t | _ => r end) l None.
Record paired (oc : list M_Egress.ocfg) (s : state) (up : list M_Egress.to_storage) : Prop := mkPaired {
  pr_owed : exists P, Permutation (map own (g_egress s)) (P ++ back up) /\ Permutation (open_ids s) (cids P) /\ Forall (answerable s) P;
  pr_named : named s;
  pr_telem : (up = [] /\ g_vec s = []) \/ (g_init s = true /\ length (g_vec s) = length oc /\ exists l, last_telemetry up = Some l /\ knows l s) }.
Lemma paired_len oc s up : N.of_nat (length oc) < U64MAX -> paired oc s up -> N.of_nat (length (g_vec s)) < U64MAX.
Proof. intros L [_ _ [(_ & E)|(_ & E & _)]]; rewrite E; [cbn; unfold U64MAX; lia|exact L]. Qed.
Lemma last_snoc l m : last_telemetry (l ++ [m]) = match m with M_Egress.STelem t => Some t | _ => last_telemetry l end.
Proof. unfold last_telemetry. rewrite fold_left_app. reflexivity. Qed.
(** A step of storage that sends and closes nothing. *)
Lemma paired_mild oc s s' up : paired oc s up -> mild s s' -> keeps s s' -> named s' -> (forall l, knows l s -> knows l s') -> length (g_vec s') = length (g_vec s) -> g_init s' = g_init s -> paired oc s' up.
Proof.
  intros [(P & A & B & C) N T] M K N' KN LV GI. constructor; [|exact N'|].
  - exists P. rewrite (ml_egress _ _ M), (ml_open _ _ M). split; [exact A|]. split; [exact B|]. eapply Forall_impl; [|exact C]. intros a. apply answerable_mild; assumption.
  - destruct T as [(T1 & T2)|(T1 & T2 & l & T3 & T4)]; [left; split; [exact T1|]; rewrite T2 in LV; destruct (g_vec s'); [reflexivity|discriminate]|]. right. split; [congruence|]. split; [congruence|]. exists l. auto.
Qed.
Lemma paired_quiet oc s s' up : paired oc s up -> quiet s s' -> keeps s s' -> paired oc s' up.
Proof.
  intros H Q K. eapply paired_mild; [exact H|apply quiet_mild; exact Q|exact K|eapply named_label; [apply quiet_label; exact Q|apply H]| |apply Q|apply Q].
  intros l. apply knows_label; [apply Q|apply quiet_label; exact Q].
Qed.
Lemma paired_sends oc s s' up ms : N.of_nat (length oc) < U64MAX -> paired oc s up -> NoDup (map fst (d_ent (g_disk s'))) -> sends ms s s' -> paired oc s' up.
Proof.
  intros LO H ND S. pose proof (paired_len _ _ _ LO H) as LV. destruct H as [(P & A & B & C) N T]. assert (N' : named s') by (eapply named_label; [apply S|exact N]). constructor; [|exact N'|].
  - exists (P ++ map own ms). rewrite (sd_egress _ _ _ S), map_app. split; [|split].
    + rewrite A, <- !app_assoc. apply Permutation_app_head, Permutation_app_comm.
    + rewrite (sd_open _ _ _ S), B. unfold cids. rewrite flat_map_app. apply Permutation_app_head. clear. induction ms as [|m ms IH]; [reflexivity|]. cbn [map flat_map]. unfold opened at 1. cbn [own x_cut x_cid]. destruct (e_cut m); [exact IH|constructor; exact IH].
    + apply Forall_app. split; [eapply Forall_impl; [|exact C]; intros a; eapply answerable_sends; exact S|]. apply Forall_map. eapply Forall_impl; [|apply S]. intros m. apply sent_answerable; [exact N'|rewrite (sd_len _ _ _ S); exact LV|exact ND].
  - pose proof (sd_len _ _ _ S) as L. destruct T as [(T1 & T2)|(T1 & T2 & l & T3 & T4)]; [left; split; [exact T1|]; rewrite T2 in L; destruct (g_vec s'); [reflexivity|discriminate]|].
    right. split; [rewrite (sd_init _ _ _ S); exact T1|]. split; [congruence|]. exists l. split; [exact T3|]. eapply knows_label; [exact L|apply S|exact T4].
Qed.
(** A delivered answer was to be answered. *)
Lemma paired_ack oc s s' up a ob r : up <> [] -> paired oc s up -> NoDup (open_ids s) -> (exists P, Permutation (map own (g_egress s)) (calm a :: P ++ back up)) -> x_cut a = false -> closes (x_cid a) r s s' ->
  (forall x b, x <> x_cid a -> stored s x b -> stored s' x b) -> paired oc s' (up ++ [M_Egress.SAck a ob]).
Proof.
  intros UP [(P & A & B & C) N T] ND (P1 & E) XC CL KP.
  assert (IP : Permutation P (calm a :: P1)). { apply (Permutation_app_inv_r (back up)). rewrite <- A, E. reflexivity. }
  assert (CP : Permutation (open_ids s) (x_cid a :: cids P1)). { rewrite B. unfold cids. rewrite (perm_map_flat _ _ _ IP). cbn [flat_map]. cbn [calm x_cut x_cid]. rewrite XC. reflexivity. }
  assert (NI : ~ In (x_cid a) (cids P1)) by (rewrite CP in ND; inversion ND; assumption). constructor.
  - exists P1. rewrite (cl_egress _ _ _ _ CL), back_app. split; [rewrite E; cbn [back flat_map app]; rewrite Permutation_middle; apply Permutation_app_head; apply Permutation_cons_append|].
    split; [apply (Permutation_cons_inv (a := x_cid a)); rewrite <- CP; symmetry; apply CL|]. rewrite IP in C. inversion C as [|? ? _ C1]; subst. rewrite Forall_forall in C1 |- *. intros y Y. eapply answerable_closes; [exact CL|exact KP| |exact (C1 y Y)].
    intros XY EQ. apply NI. unfold cids. apply in_flat_map. exists y. split; [exact Y|]. rewrite XY. left. exact EQ.
  - eapply named_label; [apply (closes_label _ _ _ _ CL)|exact N].
  - pose proof (cl_len _ _ _ _ CL) as L. destruct T as [(-> & T2)|(T1 & T2 & l & T3 & T4)].
    + elim UP. reflexivity.
    + right. split; [rewrite (cl_init _ _ _ _ CL); exact T1|]. split; [congruence|]. exists l. split; [rewrite last_snoc; exact T3|]. eapply knows_label; [exact L|apply (closes_label _ _ _ _ CL)|exact T4].
Qed.

(** ** Steps of storage *)
Definition oracled (s : state) (x : label) : state := with_oracle s (l_ids x) (l_bits x) (l_reads x).
Lemma quiet_oracled s x : quiet s (oracled s x). Proof. apply quiet_same; try reflexivity. apply fresh_same; reflexivity. Qed.
Lemma paired_oracled oc s x up : paired oc s up -> paired oc (oracled s x) up.
Proof. intros H. eapply paired_quiet; [exact H|apply quiet_oracled|]. intros c b _ ST _. exact ST. Qed.
Lemma outside_honest s x : outside s x -> honest s x.
Proof. intros (E & R & I). split; [|auto]. destruct (l_event x); cbn [outside_event honest_event] in *; try contradiction; auto. intros A B. apply (E A B). Qed.
Lemma outside_inv s x : books s -> safe s -> sound_disk s (l_ids x) (l_reads x) -> inv (oracled s x).
Proof. intros [B1 B2 B3] [K OK] (H2 & H3). constructor; [constructor; assumption| |exact H2]. intros i A C. exfalso. exact (H3 i A C). Qed.
Lemma outside_keeps cfg s x s' : books s -> safe s -> outside s x -> step cfg x s = Some s' -> keeps (oracled s x) s'.
Proof.
  intros B S (O & _) ST c b IO SB CB. change (In c (open_ids s)) in IO. change (stored s c b) in SB. destruct (ls_ent _ _ _ (step_loses cfg x s s' B ST) c b SB) as [X|X]; [exact X|]. exfalso.
  destruct (l_event x) eqn:EV; cbn [ends outside_event] in *; try contradiction.
  - destruct X as (X1 & X2 & X3). destruct (O X1 X2) as (_ & CO). rewrite (CO c b X3 SB) in CB. discriminate.
  - destruct X as (-> & W). exact (so_wo _ _ (sf_ok _ S) c W IO).
Qed.
Lemma calm_fine s : all_links fine s -> calm_opp s.
Proof. intros F n k G. unfold all_links in F. rewrite Forall_forall in F. destruct (F _ (get_in _ _ _ G)) as ((_ & _ & _ & _ & X) & _). destruct (X eq_refl) as (E & _). exact E. Qed.
Lemma outside_paired cfg oc s s' up x : N.of_nat (length oc) < U64MAX -> books s -> all_links fine s -> safe s -> outside s x -> paired oc s up -> step cfg x s = Some s' -> paired oc s' up.
Proof.
  intros LO B F S O H ST. pose proof (outside_keeps cfg s x s' B S O ST) as KP. pose proof (outside_inv s x B S (proj2 O)) as I. apply (paired_oracled oc s x up) in H. pose proof (sf_keys _ S) as KY.
  assert (SF : safe s') by (destruct (step_safe cfg x s B F S (outside_honest s x O)) as (s1 & E & S1); congruence). destruct O as (O & _). unfold step in ST. fold (oracled s x) in ST. set (s0 := oracled s x) in *.
  destruct (l_event x); cbn [outside_event handle] in O, ST; try contradiction.
  - injection ST as <-. destruct (add_mild cfg n s0 (pr_named _ _ _ H)) as (M & N & K & V & G). eapply paired_mild; try eassumption. rewrite V. reflexivity.
  - injection ST as <-. destruct (remove_mild n s0 KY O (pr_named _ _ _ H)) as (M & N & K & V & G). eapply paired_mild; try eassumption. rewrite V. reflexivity.
  - eapply paired_quiet; [exact H|eapply store_quiet; eassumption|exact KP].
  - eapply paired_quiet; [exact H|eapply up_quiet; eassumption|exact KP].
  - eapply paired_quiet; [exact H|eapply down_quiet; eassumption|exact KP].
  - eapply paired_quiet; [exact H|eapply signals_quiet; eassumption|exact KP].
  - eapply paired_quiet; [exact H|eapply timer_quiet; eassumption|exact KP].
  - eapply paired_quiet; [exact H|eapply expired_quiet; eassumption|exact KP].
  - destruct (do_send_sends cfg s0 s' I) as (ms & SD); [exact (calm_fine s F)|apply (bk_ptrs _ B)|exact ST|]. eapply paired_sends; [exact LO|exact H|apply (so_ent _ _ (sf_ok _ SF))|exact SD].
Qed.
Lemma paired_quiet_up oc s s' up m : match m with M_Egress.SAck a _ => x_cut a = true /\ exists P, Permutation (map own (g_egress s)) (calm a :: P ++ back up) | M_Egress.SFailed _ _ => True | M_Egress.STelem _ => False end ->
  up <> [] -> paired oc s up -> quiet s s' -> keeps s s' -> paired oc s' (up ++ [m]).
Proof.
  intros HM UP H Q K. apply (paired_quiet oc s s' up H Q) in K. destruct K as [(P & A & B & C) N T]. constructor; [|exact N|].
  - rewrite back_app. destruct m as [a ob|i b|l]; [|exists P; cbn [back flat_map]; rewrite app_nil_r; auto|contradiction]. destruct HM as (XC & P1 & E). rewrite <- (qt_egress _ _ Q) in E.
    assert (IP : Permutation P (calm a :: P1)). { apply (Permutation_app_inv_r (back up)). rewrite <- A, E. reflexivity. }
    exists P1. split; [rewrite E; cbn [back flat_map app]; rewrite Permutation_middle; apply Permutation_app_head; apply Permutation_cons_append|]. rewrite IP in C. inversion C as [|? ? _ C1]; subst. split; [|exact C1].
    rewrite B. unfold cids. rewrite (perm_map_flat _ _ _ IP). cbn [flat_map calm x_cut]. rewrite XC. reflexivity.
  - destruct T as [(T1 & _)|(T1 & T2 & l & T3 & T4)]; [contradiction|]. right. split; [exact T1|]. split; [exact T2|]. exists l. split; [|exact T4]. rewrite last_snoc. destruct m; [exact T3|exact T3|contradiction].
Qed.
(** What egress sends is as storage expects. *)
Lemma arrival_honest oc s up m ids bits reads : oc <> [] -> sound_disk s ids reads -> keys s -> paired oc s up -> (up = [] -> exists l, m = M_Egress.STelem l) ->
  match m with M_Egress.SAck a _ => exists P, Permutation (map own (g_egress s)) (calm a :: P ++ back up) | M_Egress.SFailed i _ => i = 0 | M_Egress.STelem l => in_order 0 l end ->
  honest s (mkL (arrival m) ids bits reads).
Proof.
  intros OC (D1 & D2) KY H UP HM. split; [|auto]. cbn [l_event]. destruct H as [(P & A & B & C) N T]. destruct m as [a ob|i b|l]; cbn [arrival honest_event].
  - destruct T as [(T1 & _)|(T1 & T2 & _)]; [destruct (UP T1) as (l & X); discriminate|]. split; [exact T1|]. destruct HM as (P1 & E).
    assert (IP : Permutation P (calm a :: P1)). { apply (Permutation_app_inv_r (back up)). rewrite <- A, E. reflexivity. }
    rewrite IP in C. inversion C as [|? ? C0 _]; subst. unfold answerable in C0. cbn [calm x_cut x_cid x_dest x_delete] in C0. destruct (x_cut a) eqn:XC.
    + destruct C0 as (j & k & NL & G). split; [exists (RVec j), k; split; [exact NL|]; split; [apply get_in; exact G|discriminate]|discriminate].
    + destruct C0 as ((r & k & NL & G & IO) & C1 & C2). split; [|auto]. exists r, k. split; [destruct r; exact NL|]. split; [apply get_in; exact G|auto].
  - intros GI. subst i. destruct T as [(T1 & _)|(T1 & T2 & _)]; [destruct (UP T1) as (l & X); discriminate|]. rewrite T2. destruct oc; [contradiction|cbn [length]; lia].
  - intros o I. apply In_nth_error in I as (i & E). rewrite (HM i o E). assert (i < length l)%nat by (apply nth_error_Some; congruence). cbn [Nat.add]. lia.
Qed.
Lemma arrival_paired cfg oc s s' up m ids bits reads : oc <> [] -> sound_disk s ids reads -> books s -> all_links fine s -> safe s -> paired oc s up -> (up = [] -> exists l, m = M_Egress.STelem l) ->
  match m with M_Egress.SAck a _ => exists P, Permutation (map own (g_egress s)) (calm a :: P ++ back up) | M_Egress.SFailed i _ => i = 0 | M_Egress.STelem l => in_order 0 l /\ length l = length oc end ->
  step cfg (mkL (arrival m) ids bits reads) s = Some s' -> paired oc s' (up ++ [m]) /\ g_egress s' = g_egress s.
Proof.
  intros OC SD B F S H UP HM ST. pose proof (sf_keys _ S) as KY.
  assert (HO : honest s (mkL (arrival m) ids bits reads)) by (eapply arrival_honest; try eassumption; destruct m; [exact HM|exact HM|apply HM]).
  pose proof (step_loses cfg _ s s' B ST) as LS. pose proof (outside_inv s (mkL (arrival m) ids bits reads) B S SD) as I. unfold step in ST. fold (oracled s (mkL (arrival m) ids bits reads)) in ST.
  apply (paired_oracled oc s (mkL (arrival m) ids bits reads) up) in H. set (s0 := oracled s (mkL (arrival m) ids bits reads)) in *. cbn [l_event] in ST, LS. destruct m as [a ob|i b|l]; cbn [arrival handle] in ST, LS.
  - assert (UN : up <> []) by (intros E; destruct (UP E) as (l & X); discriminate). destruct HO as ((GI & (r & k & NL & IL & IO) & HA) & _). cbn [l_event arrival] in *. unfold on_ack in ST. change (g_init s0) with (g_init s) in ST. rewrite GI in ST. cbn [negb] in ST.
    pose proof (in_get s r k KY IL) as G. assert (G0 : get_link s0 r = Some k) by exact G.
    assert (AL : ack_link a s0 = Some (Some r)).
    { unfold ack_link. destruct r as [j|n]; cbn [names_link] in NL; destruct NL as (N1 & N2).
      - destruct (N.eqb_spec (x_idx a) U64MAX) as [E|_]; [contradiction|]. unfold vec_ref. assert (L : (j < length (g_vec s0))%nat) by (apply nth_error_Some; cbn [get_link] in G0; rewrite G0; discriminate).
        destruct (N.ltb_spec (x_idx a) (N.of_nat (length (g_vec s0)))) as [_|X]; [|lia]. rewrite N1, Nat2N.id. reflexivity.
      - rewrite N1. cbn [N.eqb]. rewrite N.eqb_refl, N2. cbn [get_link] in G0. rewrite G0. reflexivity. }
    rewrite AL in ST. destruct (x_cut a) eqn:XC.
    + split; [|apply (qt_egress _ _ (ack_cut_quiet _ _ _ _ _ I ST))]. apply (paired_quiet_up oc s0 s' up (M_Egress.SAck a ob)); [split; [exact XC|exact HM]|exact UN|exact H|eapply ack_cut_quiet; eassumption|]. intros c b _ SB _. destruct (ls_ent _ _ _ LS c b SB) as [X|X]; [exact X|]. cbn [ends] in X. destruct X as (X & _). congruence.
    + pose proof (ack_read_closes a r s0 s' k I F G0 (IO eq_refl) ST) as CL. split; [|apply CL]. eapply (paired_ack oc s0 s' up a ob r); [exact UN|exact H|apply (so_open _ _ (sf_ok _ S))|exact HM|exact XC|exact CL|].
      intros x b NX SB. destruct (ls_ent _ _ _ LS x b SB) as [X|X]; [exact X|]. cbn [ends] in X. destruct X as (_ & _ & _ & X & _). congruence.
  - assert (UN : up <> []) by (intros E; destruct (UP E) as (l & X); discriminate). split; [|apply (qt_egress _ _ (failed_quiet _ _ _ _ I ST))]. eapply paired_quiet_up; [exact Logic.I|exact UN|exact H|eapply failed_quiet; eassumption|].
    intros c x _ SB _. destruct (ls_ent _ _ _ LS c x SB) as [X|X]; [exact X|contradiction].
  - destruct HM as (HM & HL). destruct (telemetry_mild l s0 s' HM) as (M & N & K & GI); [|apply H|exact ST|].
    + destruct (pr_telem _ _ _ H) as [(_ & X)|(_ & X & _)]; [left; exact X|right; rewrite HL; exact X].
    + split; [|apply (ml_egress _ _ M)]. destruct H as [(P & A & B1 & C) _ T]. constructor; [|exact N|].
      * exists P. rewrite (ml_egress _ _ M), (ml_open _ _ M), back_app. cbn [back flat_map]. rewrite app_nil_r. split; [exact A|]. split; [exact B1|]. eapply Forall_impl; [|exact C]. intros a. apply answerable_mild; [exact M|].
        intros c x _ SB _. destruct (ls_ent _ _ _ LS c x SB) as [X|X]; [exact X|contradiction].
      * right. split; [exact GI|]. split; [rewrite (proj1 K); exact HL|]. exists l. split; [rewrite last_snoc; reflexivity|exact K].
Qed.

(** ** What storage sends stays sent *)
Lemma outside_grows cfg s s' x : books s -> all_links fine s -> safe s -> named s -> outside s x -> step cfg x s = Some s' -> exists ms, g_egress s' = g_egress s ++ ms.
Proof.
  intros B F S NM O ST. pose proof (outside_inv s x B S (proj2 O)) as I. pose proof (sf_keys _ S) as KY. destruct O as (O & _). unfold step in ST. fold (oracled s x) in ST. change (g_egress s) with (g_egress (oracled s x)).
  assert (N0 : named (oracled s x)) by exact NM. set (s0 := oracled s x) in *. assert (NIL : g_egress s' = g_egress s0 -> exists ms, g_egress s' = g_egress s0 ++ ms) by (intros ->; exists []; rewrite app_nil_r; reflexivity).
  destruct (l_event x); cbn [outside_event handle] in O, ST; try contradiction.
  - apply NIL. injection ST as <-. apply (ml_egress _ _ (proj1 (add_mild cfg n s0 N0))).
  - apply NIL. injection ST as <-. apply (ml_egress _ _ (proj1 (remove_mild n s0 KY O N0))).
  - apply NIL, (qt_egress _ _ (store_quiet _ _ _ _ _ I ST)).
  - apply NIL, (qt_egress _ _ (up_quiet _ _ _ I ST)).
  - apply NIL, (qt_egress _ _ (down_quiet _ _ _ I ST)).
  - apply NIL, (qt_egress _ _ (signals_quiet _ _ _ I ST)).
  - apply NIL, (qt_egress _ _ (timer_quiet _ _ _ ST)).
  - apply NIL, (qt_egress _ _ (expired_quiet _ _ _ _ I ST)).
  - destruct (do_send_sends cfg s0 s' I) as (ms & SD); [exact (calm_fine s F)|apply (bk_ptrs _ B)|exact ST|]. exists ms. apply SD.
Qed.
(** ** Both together *)
Record winv (cfg : config) (max : N) (oc : list M_Egress.ocfg) (ts : list label) (te : list M_Egress.event) (w : world) (h : list S_Egress.held) (d : list bundle) : Prop := mkWinv {
  wv_s : honest_run cfg ts (w_s w); wv_e : S_Egress.fair_run max oc te (w_e w) h d;
  wv_debts : mine (S_Egress.debts te) = map own (firstn (w_down w) (g_egress (w_s w))); wv_down : (w_down w <= length (g_egress (w_s w)))%nat;
  wv_up : (w_up w <= length (M_Egress.g_storage (w_e w)))%nat; wv_pair : paired oc (w_s w) (firstn (w_up w) (M_Egress.g_storage (w_e w))) }.
Lemma firstn_grows {A} n (l r : list A) : (n <= length l)%nat -> firstn n (l ++ r) = firstn n l.
Proof. intros L. rewrite firstn_app. replace (n - length l)%nat with 0%nat by lia. cbn [firstn]. apply app_nil_r. Qed.
Lemma firstn_next {A} n (l : list A) x : nth_error l n = Some x -> firstn (S n) l = firstn n l ++ [x] /\ (S n <= length l)%nat.
Proof.
  intros H. split; [|apply nth_error_Some; congruence]. revert n H. induction l as [|y l IH]; intros [|n] H; try discriminate; cbn [nth_error] in H; [injection H as ->; reflexivity|]. cbn [firstn app]. f_equal. exact (IH n H).
Qed.
Lemma wrun_config cfg max oc ts te w h d : wrun cfg max oc ts te w h d -> oc <> [] /\ N.of_nat (length oc) < U64MAX.
Proof. intros R. induction R; auto. Qed.
Lemma mine_debts_snoc te e : mine (S_Egress.debts (te ++ [e])) = mine (S_Egress.debts te) ++ match e with M_Egress.Bundle M_Egress.Storage m _ _ _ => [own m] | _ => [] end.
Proof. rewrite L_Egress.debts_snoc, mine_app. f_equal. destruct e as [[|] m f ok1 ok2|n|n|b|dd hop| |up i r|i r|i b u ok|i b u told ok1 ok2|dn i|b ok]; reflexivity. Qed.
(** The next message of egress, if it is an answer, is owed. *)
Lemma next_owed cfg max oc ts te w h d a ob : winv cfg max oc ts te w h d -> nth_error (M_Egress.g_storage (w_e w)) (w_up w) = Some (M_Egress.SAck a ob) ->
  exists P, Permutation (map own (g_egress (w_s w))) (calm a :: P ++ back (firstn (w_up w) (M_Egress.g_storage (w_e w)))).
Proof.
  intros [A B C D E F] H. pose proof (egress_ledger _ _ _ _ _ _ B) as L. rewrite C in L. set (g := M_Egress.g_storage (w_e w)) in *.
  assert (G : back g = back (firstn (w_up w) g) ++ calm a :: back (skipn (S (w_up w)) g)).
  { rewrite <- (firstn_skipn (S (w_up w)) g) at 1. destruct (firstn_next _ _ _ H) as (-> & _). rewrite !back_app, <- app_assoc. reflexivity. }
  rewrite G in L. set (u := back (firstn (w_up w) g)) in *. set (r := back (skipn (S (w_up w)) g)) in *. set (lo := mine (map _ _)) in L. set (cl := mine (S_Egress.claims h)) in L.
  exists (r ++ lo ++ cl ++ map own (skipn (w_down w) (g_egress (w_s w)))). rewrite <- (firstn_skipn (w_down w) (g_egress (w_s w))) at 1. rewrite map_app, L.
  rewrite <- !app_assoc. cbn [app]. rewrite <- Permutation_middle. constructor. rewrite (Permutation_app_comm u). rewrite <- !app_assoc. reflexivity.
Qed.
Lemma wrun_winv cfg max oc ts te w h d : wrun cfg max oc ts te w h d -> winv cfg max oc ts te w h d.
Proof.
  intros R. induction R as [w OC LO W|ts te w h d v w' h' d' R IH AL ST].
  - unfold wstart in W. destruct (M_Egress.init max oc) as [t|] eqn:I; [|discriminate]. injection W as <-. constructor; cbn [w_s w_e w_down w_up].
    + constructor.
    + constructor. exact I.
    + reflexivity.
    + lia.
    + lia.
    + constructor; [exists []; cbn; repeat split; constructor|intros [i|n] k G; [destruct i; discriminate|discriminate]|left; split; reflexivity].
  - destruct (wrun_config _ _ _ _ _ _ _ _ R) as (OC & LO). pose proof IH as [A B C D E F]. destruct (honest_safe _ _ _ A) as (BK & FN & SF). destruct v as [x|e|f ok1 ok2|ids bits reads]; cbn [wstep allowed at_storage at_egress_side] in *.
    + destruct (step cfg x (w_s w)) as [s'|] eqn:S1; [|discriminate]. injection ST as <-. destruct AL as (O & -> & ->). rewrite app_nil_r. destruct (outside_grows cfg _ s' x BK FN SF (pr_named _ _ _ F) O S1) as (ms & G). constructor; cbn [w_s w_e w_down w_up]; try assumption.
      * econstructor; [exact A|apply outside_honest; exact O|exact S1].
      * rewrite G, firstn_grows by exact D. exact C.
      * rewrite G, app_length. lia.
      * eapply outside_paired; eassumption.
    + destruct (M_Egress.step e (w_e w)) as [t|] eqn:S1; [|discriminate]. injection ST as <-. destruct AL as (NF & FR). rewrite app_nil_r. destruct (storage_grows _ _ _ S1) as (l & G & _). constructor; cbn [w_s w_e w_down w_up]; try assumption.
      * econstructor; eassumption.
      * rewrite mine_debts_snoc, C. destruct e as [[|] m f ok1 ok2| | | | | | | | | | |]; rewrite ?app_nil_r; try reflexivity. elim NF. exact I.
      * rewrite G, app_length. lia.
      * rewrite G, firstn_grows by exact E. exact F.
    + destruct AL as (m & NE & FR). rewrite NE in *. destruct (M_Egress.step _ (w_e w)) as [t|] eqn:S1; [|discriminate]. injection ST as <-. rewrite app_nil_r. destruct (storage_grows _ _ _ S1) as (l & G & _). destruct (firstn_next _ _ _ NE) as (F1 & F2).
      constructor; cbn [w_s w_e w_down w_up]; try assumption.
      * econstructor; eassumption.
      * rewrite mine_debts_snoc, C, F1, map_app. reflexivity.
      * rewrite G, app_length. lia.
      * rewrite G, firstn_grows by exact E. exact F.
    + destruct AL as (SD & _ & -> & ->). destruct (nth_error (M_Egress.g_storage (w_e w)) (w_up w)) as [m|] eqn:NE; [|discriminate]. destruct (step cfg _ (w_s w)) as [s'|] eqn:S1; [|discriminate]. injection ST as <-. rewrite app_nil_r. destruct (firstn_next _ _ _ NE) as (F1 & F2).
      assert (UP : firstn (w_up w) (M_Egress.g_storage (w_e w)) = [] -> exists l, m = M_Egress.STelem l).
      { intros X. destruct (first_is_telemetry _ _ _ _ _ _ B) as (l & r & Z). rewrite Z in X, NE. destruct (w_up w); [|discriminate]. injection NE as <-. eauto. }
      assert (HM : match m with M_Egress.SAck a _ => exists P, Permutation (map own (g_egress (w_s w))) (calm a :: P ++ back (firstn (w_up w) (M_Egress.g_storage (w_e w)))) | M_Egress.SFailed i _ => i = 0 | M_Egress.STelem l => in_order 0 l /\ length l = length oc end).
      { destruct m as [a ob|i b|l]; [eapply next_owed; eassumption| |eapply telemetry_in_order; [exact B|eapply nth_error_In; exact NE]]. pose proof (all_zeroed _ _ _ _ _ _ B) as Z. rewrite Forall_forall in Z. exact (Z _ (nth_error_In _ _ NE)). }
      destruct (arrival_paired cfg oc (w_s w) s' _ m ids bits reads OC SD BK FN SF F UP HM S1) as (P1 & G). constructor; cbn [w_s w_e w_down w_up]; try assumption.
      * econstructor; [exact A| |exact S1]. eapply arrival_honest; [exact OC|exact SD|apply SF|exact F|exact UP|destruct m; [exact HM|exact HM|apply HM]].
      * rewrite G. exact C.
      * rewrite G. exact D.
      * rewrite F1. exact P1.
Qed.
