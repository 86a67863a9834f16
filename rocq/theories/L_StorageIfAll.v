(** C52: invariants that need nothing of the environment. *)
From Coq Require Import PeanoNat NArith List Bool Lia Permutation ZifyBool ZifyN.
From Verif Require Import Base M_CustodyId M_StorageIf S_StorageIf L_StorageIf L_StorageIfInv L_StorageIfSend.
Import ListNotations.
Open Scope N_scope.

(** ** Telemetry *)
Lemma evolve_nth T v i k k' : nth_error v i = Some k -> moves T (RVec i) k k' -> evolve T (numbered 0 v) (numbered 0 (set_nth i k' v)).
Proof.
  intros E M. destruct (set_nth_split i v k E) as (p & q & EQ & L & F). rewrite F, EQ, !numbered_app. cbn [numbered]. rewrite L. apply evolve_mid. exact M.
Qed.
Lemma telem_evolve T l : forall n v v', Forall T l -> telem n l v = Some v' -> evolve T (numbered 0 v) (numbered 0 v') /\ length v' = length v.
Proof.
  induction l as [|o l IH]; intros n v v' F; cbn [telem].
  - intros [= <-]. split; [apply evolve_refl|reflexivity].
  - destruct (if t_idx o <? N.of_nat (length v) then _ else None) as [k|] eqn:E; [|discriminate]. destruct (t_idx o <? N.of_nat (length v)); [|discriminate]. intros H. inversion F as [|? ? F1 F2]; subst.
    apply IH in H as (H & H1); [|exact F2]. rewrite set_nth_length in H1. split; [|exact H1]. eapply evolve_trans; [|exact H]. eapply evolve_nth; [exact E|]. apply moves_one, m_telem; [exact F1|reflexivity].
Qed.
Lemma pending_evolve T p : forall v, Forall (fun e => snd e = true) p -> evolve T (numbered 0 v) (numbered 0 (apply_pending p v)).
Proof.
  induction p as [|[i up] p IH]; intros v F; cbn [apply_pending]; [apply evolve_refl|]. inversion F as [|? ? F1 F2]; subst. cbn [snd] in F1. subst up.
  eapply evolve_trans; [|apply IH; exact F2]. destruct (if i <? N.of_nat (length v) then _ else None) as [k|] eqn:E; [|apply evolve_refl]. destruct (i <? N.of_nat (length v)); [|discriminate].
  eapply evolve_nth; [exact E|]. apply moves_one, m_up. reflexivity.
Qed.
Lemma pend_put_true i l : Forall (fun e => snd e = true) l -> Forall (fun e : N * bool => snd e = true) (pend_put i true l).
Proof. intros F. induction F as [|e l E F IH]; cbn [pend_put]; [repeat constructor|]. destruct (i =? fst e); [constructor; [reflexivity|exact F]|]. destruct (i <? fst e); repeat (constructor; auto). Qed.
Lemma opp_insert_split n k l : exists p q, l = p ++ q /\ opp_insert n k l = p ++ (n, k) :: q.
Proof.
  induction l as [|e l (p & q & E & F)]; [exists [], []; auto|]. cbn [opp_insert]. destruct (n <? fst e); [exists [], (e :: l); auto|]. exists (e :: p), q. rewrite E at 1. rewrite F. auto.
Qed.

(** ** Something true of every link *)
Definition pend_true (s : state) : Prop := Forall (fun e => snd e = true) (g_pend s).
Definition all_links (Q : ref -> link -> Prop) (s : state) : Prop := Forall (fun x => Q (fst x) (snd x)) (links s).
Definition tells (T : outduct -> Prop) (e : event) : Prop := match e with Telemetry l => Forall T l | _ => True end.
Record books (s : state) : Prop := mkBooks { bk_keys : keys s; bk_ptrs : g_ptrs s = up_refs (links s); bk_pend : pend_true s }.
Lemma ptrs_put s r k k' : keys s -> get_link s r = Some k -> k_up k' = k_up k -> g_ptrs s = up_refs (links s) -> up_refs (links (put_link s r k')) = g_ptrs s.
Proof.
  intros K G U P. destruct (put_split s r k K G) as (p & q & E & F). rewrite P, E, F, !up_refs_app. f_equal. unfold up_refs. cbn [filter snd]. rewrite U. destruct (k_up k); reflexivity.
Qed.
Lemma books_da s s' : disk_acks s s' -> books s -> books s'.
Proof. intros O [A B C]. constructor; [rewrite (da_keys _ _ O); exact A|rewrite (da_links _ _ O), (da_ptrs _ _ O); exact B|unfold pend_true; rewrite (da_pend _ _ O); exact C]. Qed.
Lemma books_put s r k k' : get_link s r = Some k -> k_up k' = k_up k -> books s -> books (put_link s r k').
Proof.
  intros G U [A B C]. destruct (put_fields s r k') as (Q1 & Q2 & Q3 & Q4 & _). constructor; [apply put_keys; exact A|rewrite Q1; symmetry; eapply ptrs_put; eassumption|unfold pend_true; rewrite Q4; exact C].
Qed.
Lemma books_repop s : keys s -> pend_true s -> books (repopulate s).
Proof. intros A C. constructor; [exact A|rewrite repopulate_ptrs; reflexivity|exact C]. Qed.
Lemma link_down_books r s s' : link_down r s = Some s' -> books s -> books s'.
Proof.
  unfold link_down. destruct (get_link s r) as [k|] eqn:G; [|discriminate]. destruct (k_up k) eqn:U; [|intros [= <-]; auto].
  destruct (dump _ _ _) as [s1|] eqn:D; [|discriminate]. intros [= <-] [A B C]. pose proof (dump_da _ _ _ _ D) as O. destruct (put_fields s r (set_queue [] (set_up false k))) as (_ & _ & _ & Q4 & _).
  apply books_repop; [rewrite (da_keys _ _ O); apply put_keys; exact A|unfold pend_true; rewrite (da_pend _ _ O), Q4; exact C].
Qed.
Lemma ack_cut_books x b r s s' : ack_cut x b r s = Some s' -> books s -> books s'.
Proof.
  unfold ack_cut. destruct (get_link s r) as [k|] eqn:G; [|discriminate]. destruct (find_id (x_cid x) (k_acks k)) as [z|] eqn:F; [|intros [= <-]; auto].
  destruct (if is_error (x_err x) then _ else _) as [s1|] eqn:E; [|discriminate]. intros H B.
  assert (B1 : books s1).
  { destruct (is_error (x_err x)); [|injection E as <-; exact B]. destruct (write b Whole false None s) as [s0|] eqn:W; [|discriminate]. pose proof (books_da _ _ (od_da _ _ (write_od _ _ _ _ _ _ W)) B) as B0.
    destruct (is_down (x_err x)); [eapply link_down_books; eassumption|injection E as <-; exact B0]. }
  pose proof (books_da _ _ (ack_ingress_da (mkA (x_cid x) (ref_idx r) (is_error (x_err x))) s1) B1) as B2. destruct (get_link (ack_ingress _ s1) r) as [k2|] eqn:G2; [|discriminate]. injection H as <-.
  eapply books_put; [exact G2|reflexivity|exact B2].
Qed.
Lemma ack_read_books x r s s' : ack_read x r s = Some s' -> books s -> books s'.
Proof.
  unfold ack_read. destruct (get_link s r) as [k|] eqn:G; [|discriminate].
  match goal with |- match ?e with None => None | Some s1 => _ end = _ -> _ => destruct e as [s2|] eqn:E0; [|discriminate] end. intros [= <-] B.
  apply (books_da s2); [apply od_da, od_disk|].
  destruct (find_id (x_cid x) (k_open k)) as [z|] eqn:F; [|injection E0 as <-; exact B].
  match type of E0 with match ?e with None => None | Some s1 => _ end = _ => destruct e as [s1|] eqn:E1; [|discriminate] end.
  assert (B1 : books s1).
  { destruct (is_error (x_err x)).
    - destruct (if is_down (x_err x) then link_down r s else Some s) as [s0|] eqn:D; [|discriminate].
      assert (Y : books s0) by (destruct (is_down (x_err x)); [eapply link_down_books; eassumption|injection D as <-; exact B]).
      destruct (give_back (x_cid x) (g_disk s0)) as [d|]; [|discriminate]. destruct (_ && _); [discriminate|]. injection E1 as <-. apply (books_da s0); [apply od_da, od_disk|exact Y].
    - destruct (x_delete x); [destruct (remove_read _ _); [|discriminate]|]; injection E1 as <-.
      + apply (books_da s); [apply od_da, od_disk|exact B].
      + destruct (mem _ _); [|exact B]. destruct (find_b _ _) as [b|]; [|exact B]. destruct (has_timer _ _); [exact B|]. apply (books_da s); [apply od_da, od_disk|exact B]. }
  destruct (get_link s1 r) as [k1|] eqn:G1; [|discriminate]. injection E0 as <-. eapply books_put; [exact G1|reflexivity|exact B1].
Qed.
Lemma opp_insert_keys n k l : opp_find n l = None -> mkeys l -> mkeys (opp_insert n k l).
Proof.
  unfold mkeys. intros H N. destruct (opp_insert_split n k l) as (p & q & -> & ->). rewrite map_app in *. cbn [map fst]. apply (Permutation_NoDup (Permutation_middle _ _ _)). constructor; [|exact N].
  rewrite <- map_app. intros I. apply in_map_iff in I as ([a b] & E & I). cbn [fst] in E. subst a. unfold opp_find in H. destruct (find _ _) eqn:FD; [discriminate|].
  pose proof (find_none _ _ FD _ I) as X. cbn [fst] in X. rewrite N.eqb_refl in X. discriminate.
Qed.
Lemma filter_nodup_fst {A B} (f : A * B -> bool) l : NoDup (map fst l) -> NoDup (map fst (filter f l)).
Proof.
  induction l as [|x l IH]; intros N; [constructor|]. cbn [map filter] in *. inversion N as [|? ? N1 N2]; subst. destruct (f x); [|exact (IH N2)]. cbn [map]. constructor; [|exact (IH N2)].
  intros H. apply N1. apply in_map_iff in H as (y & E & H). apply filter_In in H as (H & _). rewrite <- E. apply in_map. exact H.
Qed.
Lemma handle_books cfg e s s' : books s -> handle cfg e s = Some s' -> books s'.
Proof.
  intros B. destruct e; cbn [handle].
  - unfold on_telemetry. set (v := match g_vec s with [] => _ | v => v end). destruct (negb _); [intros [= <-]; exact B|]. destruct (telem 0 l v) as [v1|]; [|discriminate]. intros [= <-].
    destruct B as [A _ C]. constructor; [exact A|proj; rewrite repopulate_ptrs; reflexivity|constructor].
  - unfold on_ack. destruct (g_init s); cbn [negb]; [|intros [= <-]; exact B]. destruct (ack_link x s) as [[r|]|]; [| |discriminate]; [|intros [= <-]; exact B].
    destruct (x_cut x); intros H; [eapply ack_cut_books|eapply ack_read_books]; eassumption.
  - unfold on_failed. destruct (write b Whole false None s) as [s1|] eqn:W; [|discriminate]. pose proof (books_da _ _ (od_da _ _ (write_od _ _ _ _ _ _ W)) B) as B1.
    destruct (g_init s1); [|intros [= <-]; exact B1]. destruct (vec_ref s1 i) as [r|]; [|discriminate]. intros H. eapply link_down_books; eassumption.
  - intros [= <-]. unfold add_opp. destruct (opp_find n (g_opp s)) eqn:F; [exact B|]. destruct B as [A _ C]. apply books_repop; [|exact C]. unfold keys. proj. apply opp_insert_keys; assumption.
  - intros [= <-]. unfold remove_opp. destruct (opp_find n (g_opp s)) eqn:F; [|exact B]. destruct B as [A _ C]. apply books_repop; [|exact C]. unfold keys, opp_erase. proj. apply filter_nodup_fst. exact A.
  - unfold on_store. destruct (if s_dont m then _ else None) as [[r k]|] eqn:E.
    + intros [= <-]. destruct (s_dont m); [|discriminate]. destruct (vec_ref s (s_idx m)) as [r0|] eqn:V; [|discriminate]. destruct (get_link s r0) as [k0|] eqn:G; [|discriminate].
      destruct (k_up k0) eqn:U; [|discriminate]. injection E as -> ->. eapply books_put; [exact G|reflexivity|exact B].
    + destruct (write b c (s_special m) (Some (s_dest m)) s) as [s1|] eqn:W; [|discriminate]. intros [= <-]. eapply books_da; [apply ack_ingress_da|]. exact (books_da _ _ (od_da _ _ (write_od _ _ _ _ _ _ W)) B).
  - unfold on_up. destruct (g_init s) eqn:I.
    + destruct (vec_ref s i) as [r|] eqn:V; [|intros [= <-]; exact B]. destruct (get_link s r) as [k|] eqn:G; [|discriminate]. intros [= <-]. destruct (k_up k); [exact B|]. destruct B as [A _ C].
      destruct (put_fields s r (set_up true k)) as (_ & _ & _ & Q4 & _). apply books_repop; [apply put_keys; exact A|unfold pend_true; rewrite Q4; exact C].
    + intros [= <-]. destruct B as [A P C]. constructor; [exact A|exact P|]. apply pend_put_true. exact C.
  - unfold on_down. destruct (g_init s) eqn:I.
    + destruct (vec_ref s i) as [r|] eqn:V; [|intros [= <-]; exact B]. intros H. eapply link_down_books; eassumption.
    + intros [= <-]. destruct B as [A P C]. constructor; [exact A|exact P|]. apply pend_put_true. exact C.
  - intros H. eapply books_da; [apply od_da; eapply signals_od; exact H|exact B].
  - intros H. eapply books_da; [apply od_da; eapply timer_od; exact H|exact B].
  - intros H. eapply books_da; [apply od_da; eapply expired_od; exact H|exact B].
  - intros H. destruct B as [A P C]. destruct (send_sweep cfg s s' A P H) as (l & _ & [S1 S2 S3 S4 S5 S6 S7 S8 S9 S10] & _). constructor; [exact S1|exact S2|unfold pend_true; rewrite S8; exact C].
Qed.
Lemma handle_links cfg T (Q : ref -> link -> Prop) e s s' : (forall r k k', Q r k -> move T r k k' -> Q r k') -> (forall i, Q (RVec i) new_link) -> (forall n, Q (ROpp n) (opp_link cfg n)) ->
  books s -> tells T e -> handle cfg e s = Some s' -> all_links Q s -> all_links Q s'.
Proof.
  intros MV NW OP B TL H F. unfold all_links in *.
  assert (GR : grows T s s' -> Forall (fun x => Q (fst x) (snd x)) (links s')) by (intros [_ E]; eapply evolve_forall; [exact MV|apply E, (bk_keys _ B)|exact F]).
  destruct e; cbn [handle tells] in *.
  - unfold on_telemetry in H. set (v := match g_vec s with [] => _ | v => v end) in *. destruct (negb _); [injection H as <-; exact F|]. destruct (telem 0 l v) as [v1|] eqn:E; [|discriminate]. injection H as <-.
    destruct (telem_evolve T l 0 v v1 TL E) as (E1 & _). pose proof (pending_evolve T (g_pend s) v1 (bk_pend _ B)) as E2. unfold links. proj. unfold repopulate. proj. unfold links in F. apply Forall_app in F as (F1 & F2). apply Forall_app. split; [|exact F2].
    eapply evolve_forall; [exact MV|eapply evolve_trans; [exact E1|exact E2]|]. unfold v. destruct (g_vec s); [|exact F1]. clear -NW. generalize 0%nat. induction (length l) as [|m IH]; intros n; constructor; [apply NW|apply IH].
  - apply GR, (on_ack_grows T x b s s'); [apply (bk_keys _ B)|exact H].
  - apply GR. eapply on_failed_grows. exact H.
  - injection H as <-. unfold add_opp. destruct (opp_find n (g_opp s)); [exact F|]. unfold repopulate, links. proj. destruct (opp_insert_split n (opp_link cfg n) (g_opp s)) as (p & q & E & ->). unfold links in F. rewrite E in F.
    apply Forall_app in F as (F1 & F2). apply Forall_app. split; [exact F1|]. rewrite map_app in *. apply Forall_app in F2 as (F2 & F3). apply Forall_app. split; [exact F2|]. constructor; [apply OP|exact F3].
  - injection H as <-. unfold remove_opp. destruct (opp_find n (g_opp s)); [|exact F]. unfold repopulate, links, opp_erase. proj. unfold links in F. apply Forall_app in F as (F1 & F2). apply Forall_app. split; [exact F1|].
    apply Forall_forall. intros x I. rewrite Forall_forall in F2. apply F2. apply in_map_iff in I as (y & E & I). apply filter_In in I as (I & _). apply in_map_iff. eauto.
  - apply GR. eapply on_store_grows. exact H.
  - apply GR. eapply on_up_grows. exact H.
  - apply GR. eapply on_down_grows. exact H.
  - apply GR, grows_da, od_da. eapply signals_od. exact H.
  - apply GR, grows_da, od_da. eapply timer_od. exact H.
  - apply GR, grows_da, od_da. eapply expired_od. exact H.
  - destruct B as [A P C]. destruct (send_sweep cfg s s' A P H) as (l & _ & [S1 S2 S3 S4 S5 S6 S7 S8 S9 S10] & _). eapply (evolve_forall none); [|exact S4|exact F]. intros r k k' X M. eapply MV; [exact X|]. apply (move_weaken none T); [intros o []|exact M].
Qed.
Lemma step_books cfg x s s' : books s -> step cfg x s = Some s' -> books s'.
Proof. intros [A B C] H. eapply handle_books; [|exact H]. constructor; assumption. Qed.
Lemma step_links cfg T (Q : ref -> link -> Prop) x s s' : (forall r k k', Q r k -> move T r k k' -> Q r k') -> (forall i, Q (RVec i) new_link) -> (forall n, Q (ROpp n) (opp_link cfg n)) ->
  books s -> tells T (l_event x) -> step cfg x s = Some s' -> all_links Q s -> all_links Q s'.
Proof. intros MV NW OP [A B C] TL H F. eapply (handle_links cfg T Q); try eassumption. constructor; assumption. Qed.
Lemma start_books : books start. Proof. repeat constructor. Qed.
Lemma runs_books cfg tr s s' : runs cfg tr s s' -> books s -> books s'.
Proof. intros R. induction R; [auto|]. intros B. apply IHR. eapply step_books; eassumption. Qed.
Lemma runs_links cfg T (Q : ref -> link -> Prop) tr s s' : (forall r k k', Q r k -> move T r k k' -> Q r k') -> (forall i, Q (RVec i) new_link) -> (forall n, Q (ROpp n) (opp_link cfg n)) ->
  runs cfg tr s s' -> Forall (fun x => tells T (l_event x)) tr -> books s -> all_links Q s -> all_links Q s'.
Proof.
  intros MV NW OP R. induction R as [|x l s s1 s2 ST R IH]; [auto|]. intros TL B F. inversion TL as [|? ? T1 T2]; subst. apply IH; [exact T2|eapply step_books; eassumption|].
  exact (step_links cfg T Q x s s1 MV NW OP B T1 ST F).
Qed.

(** ** Sound links *)
Lemma total_app a b : total (a ++ b) = total a + total b.
Proof. unfold total. induction a as [|x a IH]; cbn [app fold_right]; [reflexivity|]. rewrite IH. lia. Qed.
Lemma total_one c z : total [(c, z)] = z. Proof. unfold total. cbn [fold_right snd]. lia. Qed.
Lemma total_cons c z l : total ((c, z) :: l) = z + total l. Proof. reflexivity. Qed.
Lemma find_id_in c l z : find_id c l = Some z -> In (c, z) l.
Proof. unfold find_id. destruct (find _ l) as [[a b]|] eqn:F; [|discriminate]. intros [= <-]. apply find_some in F as (F & E). cbn [fst] in E. apply N.eqb_eq in E. subst. exact F. Qed.
Lemma find_id_none c l : find_id c l = None -> ~ In c (map fst l).
Proof.
  unfold find_id. destruct (find _ l) eqn:F; [discriminate|]. intros _ I. apply in_map_iff in I as (y & E & I). pose proof (find_none _ _ F _ I) as X. cbn beta in X. rewrite E, N.eqb_refl in X. discriminate.
Qed.
Lemma in_find_id c l : In c (map fst l) -> exists z, find_id c l = Some z.
Proof. intros I. destruct (find_id c l) as [z|] eqn:E; [eauto|]. now apply find_id_none in E. Qed.
Lemma filter_fst_absent {B} c (l : list (N * B)) : ~ In c (map fst l) -> filter (fun e => negb (fst e =? c)) l = l.
Proof.
  induction l as [|[a b] l IH]; intros H; [reflexivity|]. cbn [filter fst map] in *. destruct (N.eqb_spec a c) as [->|N]; [exfalso; apply H; left; reflexivity|]. cbn [negb]. f_equal. apply IH. intros I. apply H. right. exact I.
Qed.
Lemma erase_split c z l : NoDup (map fst l) -> find_id c l = Some z -> exists p q, l = p ++ (c, z) :: q /\ erase_id c l = p ++ q.
Proof.
  intros N F. apply find_id_in in F. apply in_split in F as (p & q & ->). exists p, q. split; [reflexivity|]. unfold erase_id. rewrite filter_app. cbn [filter fst]. rewrite N.eqb_refl. cbn [negb].
  rewrite map_app in N. cbn [map fst] in N. apply NoDup_remove_2 in N. rewrite !filter_fst_absent; [reflexivity| |]; intros I; apply N, in_or_app; auto.
Qed.
Lemma nodup_snoc {A} (a : A) l : NoDup l -> ~ In a l -> NoDup (l ++ [a]).
Proof. intros N I. apply (Permutation_NoDup (Permutation_cons_append l a)). constructor; assumption. Qed.
Lemma add64_mod a b : add64 (a mod W64) b = (a + b) mod W64.
Proof. unfold add64. apply N.add_mod_idemp_l. discriminate. Qed.
Lemma sub64_mod a z : z <= a -> z < W64 -> sub64 (a mod W64) z = (a - z) mod W64.
Proof.
  intros H H1. unfold sub64. rewrite N.add_mod_idemp_l by discriminate. replace (a + (W64 - z)) with (a - z + 1 * W64) by lia. apply N.mod_add. discriminate.
Qed.
Lemma sub64_lt a b : sub64 a b < W64. Proof. unfold sub64. apply N.mod_lt. discriminate. Qed.
Definition fits (l : list (N * N)) : Prop := Forall (fun e => snd e < W64) l.
Definition fine (r : ref) (k : link) : Prop := sound_link r k /\ fits (k_open k) /\ fits (k_acks k).
Lemma fits_snoc l c z : fits l -> z < W64 -> fits (l ++ [(c, z)]).
Proof. intros F H. apply Forall_app. split; [exact F|]. repeat constructor. exact H. Qed.
Lemma fits_in l c z : fits l -> find_id c l = Some z -> z < W64.
Proof. intros F H. apply find_id_in in H. unfold fits in F. rewrite Forall_forall in F. exact (F _ H). Qed.
Lemma fits_erase l c : fits l -> fits (erase_id c l).
Proof. intros F. apply Forall_forall. intros x I. apply filter_In in I as (I & _). unfold fits in F. rewrite Forall_forall in F. exact (F _ I). Qed.
Lemma fine_move T r k k' : fine r k -> move T r k k' -> fine r k'.
Proof.
  unfold fine, sound_link, held. intros ((A & B & C & D & E) & F & G) M.
  destruct M; cbn [k_bytes k_open k_acks k_up k_queue set_try set_up set_queue set_pipe]; try (split; [repeat (split; [assumption|]); assumption|split; assumption]).
  - split; [|split; assumption]. split; [exact A|]. split; [exact B|]. split; [exact C|]. split; [discriminate|]. intros X. rewrite X in H. discriminate.
  - split; [|split; assumption]. split; [exact A|]. split; [exact B|]. split; [exact C|]. split; [reflexivity|]. intros X. split; [reflexivity|apply (E X)].
  - split; [|split; assumption]. split; [exact A|]. split; [exact B|]. split; [exact C|]. split; [congruence|]. intros X. rewrite X in H. discriminate.
  - split; [|split; assumption]. split; [exact A|]. split; [exact B|]. split; [exact C|]. split; [intros X; rewrite (D X) in H; discriminate|]. intros X. destruct (E X) as (E1 & E2). rewrite E1 in H. discriminate.
  - split; [|split; [apply fits_snoc; [exact F|eapply N.le_lt_trans; [exact H1|apply sub64_lt]]|exact G]].
    split; [rewrite A, add64_mod, total_app, total_one; f_equal; lia|]. split; [rewrite map_app; apply nodup_snoc; [exact B|apply find_id_none; exact H2]|]. repeat (split; [assumption|]). exact E.
  - split; [|split; [exact F|apply fits_snoc; [exact G|eapply N.le_lt_trans; [exact H1|apply sub64_lt]]]].
    split; [rewrite A, add64_mod, total_app, total_one; f_equal; lia|]. split; [exact B|]. split; [rewrite map_app; apply nodup_snoc; [exact C|apply find_id_none; exact H2]|]. split; [congruence|].
    intros X. destruct (E X) as (E1 & E2). congruence.
  - destruct (erase_split c z (k_open k) B H) as (p & q & E1 & E2). split; [|split; [apply fits_erase; exact F|exact G]].
    split; [|split; [apply filter_nodup_fst; exact B|repeat (split; [assumption|]); exact E]].
    rewrite A, E2, E1, !total_app, !total_cons. rewrite sub64_mod; [f_equal; lia|lia|eapply fits_in; [exact F|exact H]].
  - destruct (erase_split c z (k_acks k) C H) as (p & q & E1 & E2). split; [|split; [exact F|apply fits_erase; exact G]]. split; [|split; [exact B|split; [apply filter_nodup_fst; exact C|split; [assumption|]]]].
    + rewrite A, E2, E1, !total_app, !total_cons. rewrite sub64_mod; [f_equal; lia|lia|eapply fits_in; [exact G|exact H]].
    + intros X. destruct (E X) as (X1 & X2). rewrite X2. split; [exact X1|reflexivity].
Qed.
Lemma fine_new i : fine (RVec i) new_link.
Proof. split; [|split; constructor]. unfold sound_link. cbn. repeat (split; [reflexivity || constructor|]). discriminate. Qed.
Lemma fine_opp cfg n : fine (ROpp n) (opp_link cfg n).
Proof. split; [|split; constructor]. unfold sound_link. cbn. repeat (split; [reflexivity || constructor|]). auto. Qed.
Lemma tells_all e : tells (fun _ => True) e.
Proof. destruct e; cbn [tells]; auto. apply Forall_forall. auto. Qed.
Lemma step_fine cfg x s s' : books s -> step cfg x s = Some s' -> all_links fine s -> all_links fine s'.
Proof. intros B H F. eapply (step_links cfg (fun _ => True) fine); try eassumption; [apply fine_move|apply fine_new|apply fine_opp|apply tells_all]. Qed.

(** ** Limits *)
Definition within (lim : N -> N * N) (r : ref) (k : link) : Prop := fine r k /\ k_maxb k < W64 /\ count k <= k_max k /\ held k <= k_maxb k /\
  match r with RVec i => (k_max k, k_maxb k) = (N.shiftr (fst (lim (N.of_nat i))) 1, N.shiftr (snd (lim (N.of_nat i))) 1) \/ k_max k = 0 | ROpp _ => True end.
Definition given (lim : N -> N * N) (o : outduct) : Prop := (t_max o, t_maxb o) = lim (t_idx o) /\ t_maxb o < W64.
Lemma half_le a : N.shiftr a 1 <= a.
Proof. rewrite N.shiftr_div_pow2. change (2 ^ 1) with 2. pose proof (N.div_le_upper_bound a 2 a). lia. Qed.
Lemma within_move lim r k k' : within lim r k -> move (given lim) r k k' -> within lim r k'.
Proof.
  intros (A & B & C & D & E) M. pose proof (fine_move _ _ _ _ A M) as A'. split; [exact A'|]. destruct A as ((A1 & A2 & A3 & A4 & A5) & _).
  assert (HB : k_bytes k = held k) by (rewrite A1; apply N.mod_small; lia).
  unfold count, held in *. destruct M; cbn [k_max k_maxb k_bytes k_open k_acks k_up k_queue set_try set_up set_queue set_pipe]; try (repeat (split; [assumption|]); assumption).
  - rewrite HB, sub64_small in H1 by lia. split; [exact B|]. split; [unfold count in *; rewrite app_length; cbn [length]; lia|]. split; [rewrite total_app, total_one; lia|]. exact E.
  - rewrite HB, sub64_small in H1 by lia. split; [exact B|]. split; [unfold count in *; rewrite app_length; cbn [length]; lia|]. split; [rewrite total_app, total_one; lia|]. exact E.
  - destruct (erase_split c z (k_open k) A2 H) as (p & q & E1 & E2). rewrite E2. rewrite E1 in C, D. split; [exact B|]. rewrite !total_app, !app_length in *. rewrite total_cons in D. cbn [length] in *. split; [lia|]. split; [lia|]. exact E.
  - destruct (erase_split c z (k_acks k) A3 H) as (p & q & E1 & E2). rewrite E2. rewrite E1 in C, D. split; [exact B|]. rewrite !total_app, !app_length in *. rewrite total_cons in D. cbn [length] in *. split; [lia|]. split; [lia|]. exact E.
  - destruct H as (H & H1). subst r. rewrite N2Nat.id in *. rewrite <- H in E. cbn [fst snd] in E. rewrite <- H. cbn [fst snd]. split; [pose proof (half_le (t_maxb o)); lia|].
    destruct E as [E|E].
    + injection E as E1 E2. rewrite <- E1, <- E2. repeat (split; [assumption|]). auto.
    + rewrite E in C. destruct (k_open k); [|cbn [length] in C; lia]. destruct (k_acks k); [|cbn [length] in C; lia]. cbn. split; [apply N.le_0_l|]. split; [apply N.le_0_l|]. auto.
Qed.
Lemma within_new lim i : within lim (RVec i) new_link.
Proof. split; [apply fine_new|]. cbn. repeat (split; [reflexivity || lia|]). auto. Qed.
Lemma within_opp lim cfg n : within lim (ROpp n) (opp_link cfg n).
Proof. split; [apply fine_opp|]. split; [apply N.mod_lt; discriminate|]. split; [apply N.leb_le; reflexivity|]. split; [apply N.le_0_l|exact I]. Qed.

(** ** Acks *)
Definition balance (s : state) : list (N * N) := acked s ++ owed s.
Lemma balance_od s s' : only_disk s s' -> balance s' = balance s.
Proof. intros O. unfold balance, owed, acked. rewrite (da_links _ _ (od_da _ _ O)), (od_ingress _ _ O), (od_lost _ _ O). reflexivity. Qed.
Lemma balance_ack m s : Permutation (balance (ack_ingress m s)) (ack_of m :: balance s).
Proof. unfold balance, owed. rewrite (da_links _ _ (ack_ingress_da m s)). destruct (acked_more m s) as (P & _). rewrite P. reflexivity. Qed.
Lemma balance_same s s' : links s' = links s -> g_ingress s' = g_ingress s -> g_lost s' = g_lost s -> balance s' = balance s.
Proof. intros L A B. unfold balance, owed, acked. rewrite L, A, B. reflexivity. Qed.
Lemma balance_put s r k k' a b : keys s -> get_link s r = Some k -> Permutation (a ++ owed_by r k') (b ++ owed_by r k) -> Permutation (a ++ balance (put_link s r k')) (b ++ balance s).
Proof.
  intros K G P. unfold balance, acked. destruct (put_fields s r k') as (_ & _ & _ & _ & _ & _ & _ & Q8 & Q9 & _). rewrite Q8, Q9. fold (acked s).
  rewrite (Permutation_app_comm (acked s) (owed (put_link s r k'))), (Permutation_app_comm (acked s) (owed s)), !app_assoc. apply Permutation_app_tail.
  eapply owed_put; [exact K|exact G|reflexivity|exact P].
Qed.
Lemma dump_balance idx q : forall s s', dump idx q s = Some s' -> Permutation (balance s') (map (fun x => (q_id x, idx)) q ++ balance s).
Proof.
  induction q as [|x q IH]; intros s s'; cbn [dump map app]; [intros [= <-]; reflexivity|]. destruct (write (q_b x) Whole false None s) as [s1|] eqn:W; [|discriminate]. intros H. apply IH in H. rewrite H.
  rewrite balance_ack, (balance_od _ _ (write_od _ _ _ _ _ _ W)). unfold ack_of. cbn [a_id a_idx]. symmetry. apply Permutation_middle.
Qed.
Lemma link_down_balance r s s' : keys s -> link_down r s = Some s' -> Permutation (balance s') (balance s).
Proof.
  intros K. unfold link_down. destruct (get_link s r) as [k|] eqn:G; [|discriminate]. destruct (k_up k) eqn:U; [|intros [= <-]; reflexivity].
  destruct (dump _ _ _) as [s1|] eqn:D; [|discriminate]. intros [= <-]. change (balance (repopulate s1)) with (balance s1). rewrite (dump_balance _ _ _ _ D).
  rewrite <- (app_nil_l (balance s)). eapply balance_put; [exact K|exact G|]. reflexivity.
Qed.
Lemma ack_cut_balance x b r s s' : keys s -> all_links fine s -> ack_cut x b r s = Some s' -> Permutation (balance s') (balance s).
Proof.
  intros K F. unfold ack_cut. destruct (get_link s r) as [k|] eqn:G; [|discriminate]. destruct (find_id (x_cid x) (k_acks k)) as [z|] eqn:FI; [|intros [= <-]; reflexivity].
  destruct (if is_error (x_err x) then _ else _) as [s1|] eqn:E; [|discriminate].
  assert (X : keys s1 /\ Permutation (balance s1) (balance s) /\ exists k1, get_link s1 r = Some k1 /\ k_acks k1 = k_acks k).
  { destruct (is_error (x_err x)); [|injection E as <-; split; [exact K|split; [reflexivity|eauto]]]. destruct (write b Whole false None s) as [s0|] eqn:W; [|discriminate].
    pose proof (write_od _ _ _ _ _ _ W) as O0. pose proof (od_da _ _ O0) as O. assert (G0 : get_link s0 r = Some k) by (rewrite (da_get _ _ r O); exact G).
    assert (K0 : keys s0) by (rewrite (da_keys _ _ O); exact K).
    destruct (is_down (x_err x)); [|injection E as <-; split; [exact K0|split; [rewrite (balance_od _ _ O0); reflexivity|eauto]]]. split; [|split].
    - apply (gr_keys (fun _ => True) s0 s1); [eapply link_down_grows; exact E|exact K0].
    - rewrite (link_down_balance r s0 s1 K0 E), (balance_od _ _ O0). reflexivity.
    - destruct (link_down_get r s0 s1 k K0 E G0) as (k1 & A & _ & B & _). eauto. }
  destruct X as (K1 & B1 & k1 & G1 & F1). set (m := mkA (x_cid x) (ref_idx r) (is_error (x_err x))). pose proof (ack_ingress_da m s1) as O2. rewrite (da_get _ _ r O2), G1. intros [= <-].
  assert (NK : NoDup (map fst (k_acks k))). { unfold all_links in F. rewrite Forall_forall in F. destruct (F _ (get_in _ _ _ G)) as ((_ & _ & N & _) & _). exact N. }
  destruct (erase_split _ _ _ NK FI) as (p & q & E1 & E2). rewrite <- B1. apply (Permutation_app_inv_l [ack_of m]). cbn [app]. rewrite <- (balance_ack m s1). change (ack_of m :: ?l) with ([ack_of m] ++ l).
  rewrite <- (app_nil_l (balance (ack_ingress m s1))). eapply balance_put; [rewrite (da_keys _ _ O2); exact K1|rewrite (da_get _ _ r O2); exact G1|].
  unfold owed_by. cbn [k_queue k_acks set_pipe app]. rewrite F1, E2, E1, !map_app. cbn [map fst]. unfold m, ack_of. cbn [a_id a_idx]. rewrite !app_assoc. apply Permutation_middle.
Qed.
Lemma ack_read_balance x r s s' : keys s -> ack_read x r s = Some s' -> Permutation (balance s') (balance s).
Proof.
  intros K. unfold ack_read. destruct (get_link s r) as [k|] eqn:G; [|discriminate].
  match goal with |- match ?e with None => None | Some s1 => _ end = _ -> _ => destruct e as [s2|] eqn:E0; [|discriminate] end. intros [= <-].
  rewrite (balance_od s2) by apply od_disk.
  destruct (find_id (x_cid x) (k_open k)) as [z|] eqn:F; [|injection E0 as <-; reflexivity].
  match type of E0 with match ?e with None => None | Some s1 => _ end = _ => destruct e as [s1|] eqn:E1; [|discriminate] end.
  assert (X : Permutation (balance s1) (balance s) /\ keys s1).
  { destruct (is_error (x_err x)).
    - destruct (if is_down (x_err x) then link_down r s else Some s) as [s0|] eqn:D; [|discriminate].
      assert (Y : Permutation (balance s0) (balance s) /\ keys s0).
      { destruct (is_down (x_err x)); [|injection D as <-; split; [reflexivity|exact K]]. split; [eapply link_down_balance; eassumption|]. apply (gr_keys (fun _ => True) s s0); [eapply link_down_grows; exact D|exact K]. }
      destruct (give_back (x_cid x) (g_disk s0)) as [d|]; [|discriminate]. destruct (_ && _); [discriminate|]. injection E1 as <-. exact Y.
    - destruct (x_delete x); [destruct (remove_read _ _); [|discriminate]|]; injection E1 as <-; [split; [reflexivity|exact K]|].
      destruct (mem _ _); [|split; [reflexivity|exact K]]. destruct (find_b _ _) as [b|]; [|split; [reflexivity|exact K]]. destruct (has_timer _ _); (split; [reflexivity|exact K]). }
  destruct X as (X & K1). destruct (get_link s1 r) as [k1|] eqn:G1; [|discriminate]. injection E0 as <-. rewrite <- X. rewrite <- (app_nil_l (balance s1)), <- (app_nil_l (balance (put_link _ _ _))).
  eapply balance_put; [exact K1|exact G1|]. reflexivity.
Qed.
Lemma evolve_owed l l' : Forall2 (fun x y : ref * link => fst x = fst y /\ owed_by (fst x) (snd x) = owed_by (fst y) (snd y)) l l' -> flat_map (fun x => owed_by (fst x) (snd x)) l' = flat_map (fun x => owed_by (fst x) (snd x)) l.
Proof. intros H. induction H as [|x y l l' (_ & E) H IH]; [reflexivity|]. cbn [flat_map]. rewrite E, IH. reflexivity. Qed.
Lemma owed_set v i k k' n : nth_error v i = Some k -> k_queue k' = k_queue k -> k_acks k' = k_acks k ->
  flat_map (fun x => owed_by (fst x) (snd x)) (numbered n (set_nth i k' v)) = flat_map (fun x => owed_by (fst x) (snd x)) (numbered n v).
Proof.
  intros E A B. destruct (set_nth_split i v k E) as (p & q & EQ & L & F). rewrite F, EQ, !numbered_app, !flat_map_app. f_equal. cbn [numbered flat_map fst snd]. f_equal. unfold owed_by. rewrite A, B. reflexivity.
Qed.
Lemma telem_owed l : forall n v v', telem n l v = Some v' -> flat_map (fun x => owed_by (fst x) (snd x)) (numbered 0 v') = flat_map (fun x => owed_by (fst x) (snd x)) (numbered 0 v).
Proof.
  induction l as [|o l IH]; intros n v v'; cbn [telem]; [intros [= <-]; reflexivity|]. destruct (if t_idx o <? N.of_nat (length v) then _ else None) as [k|] eqn:E; [|discriminate].
  destruct (t_idx o <? N.of_nat (length v)); [|discriminate]. intros H. apply IH in H. rewrite H. eapply owed_set; [exact E|reflexivity|reflexivity].
Qed.
Lemma pending_owed p : forall v, flat_map (fun x => owed_by (fst x) (snd x)) (numbered 0 (apply_pending p v)) = flat_map (fun x => owed_by (fst x) (snd x)) (numbered 0 v).
Proof.
  induction p as [|[i up] p IH]; intros v; cbn [apply_pending]; [reflexivity|]. rewrite IH. destruct (if i <? N.of_nat (length v) then _ else None) as [k|] eqn:E; [|reflexivity].
  destruct (i <? N.of_nat (length v)); [|discriminate]. eapply owed_set; [exact E|reflexivity|reflexivity].
Qed.
Lemma owed_new n m : flat_map (fun x => owed_by (fst x) (snd x)) (numbered n (repeat new_link m)) = [].
Proof. revert n. induction m as [|m IH]; intros n; [reflexivity|]. cbn [repeat numbered flat_map fst snd]. rewrite IH. reflexivity. Qed.
Definition incoming (e : event) : list (N * N) := match e with Store m _ _ => [(s_id m, s_idx m)] | _ => [] end.
Lemma handle_balance cfg e s s' : books s -> all_links fine s -> handle cfg e s = Some s' -> Permutation (balance s') (balance s ++ incoming e).
Proof.
  intros B F H. pose proof (bk_keys _ B) as K. assert (OD : only_disk s s' -> incoming e = [] -> Permutation (balance s') (balance s ++ incoming e)) by (intros O ->; rewrite app_nil_r, (balance_od _ _ O); reflexivity).
  destruct e; cbn [handle incoming] in *; rewrite ?app_nil_r.
  - unfold on_telemetry in H. set (v := match g_vec s with [] => _ | v => v end) in *. destruct (negb _); [injection H as <-; reflexivity|]. destruct (telem 0 l v) as [v1|] eqn:E; [|discriminate]. injection H as <-.
    unfold balance, acked, owed, links, repopulate. proj. rewrite !flat_map_app, pending_owed, (telem_owed _ _ _ _ E). unfold v. destruct (g_vec s); [rewrite owed_new; reflexivity|reflexivity].
  - unfold on_ack in H. destruct (g_init s); cbn [negb] in H; [|injection H as <-; reflexivity]. destruct (ack_link x s) as [[r|]|]; [| |discriminate]; [|injection H as <-; reflexivity].
    destruct (x_cut x); [eapply ack_cut_balance|eapply ack_read_balance]; eassumption.
  - unfold on_failed in H. destruct (write b Whole false None s) as [s1|] eqn:W; [|discriminate]. pose proof (write_od _ _ _ _ _ _ W) as O. rewrite <- (balance_od _ _ O).
    destruct (g_init s1); [|injection H as <-; reflexivity]. destruct (vec_ref s1 i) as [r|]; [|discriminate]. apply (link_down_balance r); [rewrite (da_keys _ _ (od_da _ _ O)); exact K|exact H].
  - injection H as <-. unfold add_opp. destruct (opp_find n (g_opp s)); [reflexivity|]. unfold balance, acked, owed, links, repopulate. proj. destruct (opp_insert_split n (opp_link cfg n) (g_opp s)) as (p & q & E & ->). rewrite E.
    rewrite !map_app, !flat_map_app. reflexivity.
  - injection H as <-. unfold remove_opp. destruct (opp_find n (g_opp s)); [|reflexivity]. unfold balance, acked, owed, links, repopulate, opp_erase. proj. rewrite !flat_map_app. apply Permutation_app_head, Permutation_app_head.
    assert (Z : forall f, flat_map (fun x => owed_by (fst x) (snd x)) (map (fun e : N * link => (ROpp (fst e), snd e)) (filter f (g_opp s))) = []).
    { intros f. assert (A : forall x, In x (map (fun e : N * link => (ROpp (fst e), snd e)) (filter f (g_opp s))) -> owed_by (fst x) (snd x) = []).
      { intros x I. apply in_map_iff in I as ([a b] & <- & I). apply filter_In in I as (I & _). cbn [fst snd]. unfold all_links in F. rewrite Forall_forall in F.
        assert (I2 : In (ROpp a, b) (links s)) by (unfold links; apply in_or_app; right; apply in_map_iff; exists (a, b); auto). destruct (F _ I2) as ((_ & _ & _ & _ & X) & _).
        destruct (X eq_refl) as (X1 & X2). cbn [snd] in *. unfold owed_by. rewrite X1, X2. reflexivity. }
      revert A. generalize (map (fun e : N * link => (ROpp (fst e), snd e)) (filter f (g_opp s))) as l0. induction l0 as [|x l0 IH]; intros A; [reflexivity|]. cbn [flat_map]. rewrite (A x) by (left; reflexivity). apply IH. intros y I. apply A. right. exact I. }
    pose proof (Z (fun _ => true)) as Z1. replace (filter (fun _ => true) (g_opp s)) with (g_opp s) in Z1 by (clear; induction (g_opp s); cbn [filter]; congruence). rewrite Z, Z1. reflexivity.
  - unfold on_store in H. destruct (if s_dont m then _ else None) as [[r k]|] eqn:E.
    + injection H as <-. destruct (s_dont m); [|discriminate]. destruct (vec_ref s (s_idx m)) as [r0|] eqn:V; [|discriminate]. destruct (get_link s r0) as [k0|] eqn:G; [|discriminate].
      destruct (k_up k0) eqn:U; [|discriminate]. injection E as -> ->. destruct (vec_ref_get _ _ _ V) as (-> & _). rewrite (Permutation_app_comm (balance s)). rewrite <- (app_nil_l (balance (put_link _ _ _))).
      eapply balance_put; [exact K|exact G|]. unfold owed_by. cbn [k_queue k_acks set_queue app]. rewrite map_app. cbn [map q_id ref_idx]. rewrite N2Nat.id, <- app_assoc. cbn [app]. symmetry. apply Permutation_middle.
    + destruct (write b c (s_special m) (Some (s_dest m)) s) as [s1|] eqn:W; [|discriminate]. injection H as <-. rewrite balance_ack, (balance_od _ _ (write_od _ _ _ _ _ _ W)). apply Permutation_cons_append.
  - unfold on_up in H. destruct (g_init s) eqn:I; [|injection H as <-; reflexivity]. destruct (vec_ref s i) as [r|] eqn:V; [|injection H as <-; reflexivity]. destruct (get_link s r) as [k|] eqn:G; [|discriminate]. injection H as <-.
    destruct (k_up k); [reflexivity|]. change (balance (repopulate ?z)) with (balance z). rewrite <- (app_nil_l (balance s)), <- (app_nil_l (balance (put_link _ _ _))). eapply balance_put; [exact K|exact G|reflexivity].
  - unfold on_down in H. destruct (g_init s) eqn:I; [|injection H as <-; reflexivity]. destruct (vec_ref s i) as [r|] eqn:V; [|injection H as <-; reflexivity]. eapply link_down_balance; eassumption.
  - rewrite (balance_od _ _ (signals_od _ _ _ H)). reflexivity.
  - rewrite (balance_od _ _ (timer_od _ _ _ H)). reflexivity.
  - rewrite (balance_od _ _ (expired_od _ _ _ _ H)). reflexivity.
  - destruct B as [A P C]. destruct (send_sweep cfg s s' A P H) as (l & _ & [S1 S2 S3 S4 S5 S6 S7 S8 S9 S10] & _). exact S9.
Qed.
Lemma step_balance cfg x s s' : books s -> all_links fine s -> step cfg x s = Some s' -> Permutation (balance s') (balance s ++ incoming (l_event x)).
Proof. intros [A B C] F H. apply (handle_balance cfg (l_event x) (with_oracle s (l_ids x) (l_bits x) (l_reads x)) s'); [constructor; assumption|exact F|exact H]. Qed.
