(** C52: how links change, for every environment. *)
From Coq Require Import PeanoNat NArith List Bool Lia Permutation ZifyBool ZifyN.
From Verif Require Import Base M_CustodyId M_StorageIf S_StorageIf L_StorageIf.
Import ListNotations.
Open Scope N_scope.

(** ** Moves of one link *)
Inductive move (T : outduct -> Prop) (r : ref) : link -> link -> Prop :=
| m_try b k : move T r k (set_try b k)
| m_up k : opportunistic r = false -> move T r k (set_up true k)
| m_down k : move T r k (set_queue [] (set_up false k))
| m_push q k : opportunistic r = false -> k_up k = true -> move T r k (set_queue (k_queue k ++ [q]) k)
| m_pop q rest k : k_queue k = q :: rest -> move T r k (set_queue rest k)
| m_send c z k : k_up k = true -> count k < k_max k -> z <= sub64 (k_maxb k) (k_bytes k) -> find_id c (k_open k) = None ->
    move T r k (set_pipe (k_open k ++ [(c, z)]) (k_acks k) (add64 (k_bytes k) z) k)
| m_cut c z rest k : k_up k = true -> count k < k_max k -> z <= sub64 (k_maxb k) (k_bytes k) -> find_id c (k_acks k) = None -> k_queue k <> [] ->
    move T r k (set_pipe (k_open k) (k_acks k ++ [(c, z)]) (add64 (k_bytes k) z) (set_queue rest k))
| m_done c z k : find_id c (k_open k) = Some z -> move T r k (set_pipe (erase_id c (k_open k)) (k_acks k) (sub64 (k_bytes k) z) k)
| m_cut_done c z k : find_id c (k_acks k) = Some z -> move T r k (set_pipe (k_open k) (erase_id c (k_acks k)) (sub64 (k_bytes k) z) k)
| m_telem o n k : T o -> r = RVec (N.to_nat (t_idx o)) ->
    move T r k (mkLink (N.shiftr (t_max o) 1) (N.shiftr (t_maxb o) 1) n (t_hop o) (k_up k) (k_try k) (dests_of o) (k_open k) (k_acks k) (k_queue k) (k_bytes k)).
Inductive moves (T : outduct -> Prop) (r : ref) : link -> link -> Prop :=
| ms_nil k : moves T r k k
| ms_cons k k1 k2 : move T r k k1 -> moves T r k1 k2 -> moves T r k k2.
Lemma moves_one T r k k' : move T r k k' -> moves T r k k'.
Proof. intros H. econstructor; [exact H|constructor]. Qed.
Lemma moves_trans T r a b c : moves T r a b -> moves T r b c -> moves T r a c.
Proof. intros H. induction H; [auto|]. intros X. econstructor; [eassumption|auto]. Qed.
Lemma move_weaken (T T' : outduct -> Prop) r k k' : (forall o, T o -> T' o) -> move T r k k' -> move T' r k k'.
Proof. intros H M. destruct M; try (constructor; assumption); [eapply m_pop; eassumption|]. apply m_telem; auto. Qed.
Lemma moves_weaken (T T' : outduct -> Prop) r k k' : (forall o, T o -> T' o) -> moves T r k k' -> moves T' r k k'.
Proof. intros H M. induction M; [constructor|]. econstructor; [eapply move_weaken; eassumption|assumption]. Qed.

Definition evolve (T : outduct -> Prop) (a b : list (ref * link)) : Prop := Forall2 (fun x y => fst x = fst y /\ moves T (fst x) (snd x) (snd y)) a b.
Lemma evolve_refl T l : evolve T l l.
Proof. induction l as [|x l IH]; constructor; [split; [reflexivity|constructor]|exact IH]. Qed.
Lemma evolve_trans T a b c : evolve T a b -> evolve T b c -> evolve T a c.
Proof.
  intros H. revert c. induction H as [|x y a b (E & M) H IH]; intros c X; [exact X|]. inversion X as [|y' z b' c' (E1 & M1) X1]; subst. constructor; [|exact (IH _ X1)].
  split; [congruence|]. eapply moves_trans; [exact M|]. rewrite E. exact M1.
Qed.
Lemma evolve_weaken (T T' : outduct -> Prop) a b : (forall o, T o -> T' o) -> evolve T a b -> evolve T' a b.
Proof. intros H X. induction X as [|x y a b (E & M) X IH]; constructor; [|exact IH]. split; [exact E|exact (moves_weaken T T' _ _ _ H M)]. Qed.
Lemma evolve_mid T p q r k k' : moves T r k k' -> evolve T (p ++ (r, k) :: q) (p ++ (r, k') :: q).
Proof. intros M. apply Forall2_app; [apply evolve_refl|]. constructor; [split; [reflexivity|exact M]|apply evolve_refl]. Qed.
Lemma evolve_forall T (Q : ref -> link -> Prop) a b : (forall r k k', Q r k -> move T r k k' -> Q r k') -> evolve T a b -> Forall (fun x => Q (fst x) (snd x)) a -> Forall (fun x => Q (fst x) (snd x)) b.
Proof.
  intros C H. induction H as [|x y a b (E & M) H IH]; intros F; [constructor|]. inversion F as [|? ? F1 F2]; subst. constructor; [|exact (IH F2)]. rewrite <- E.
  clear -C M F1. induction M; [exact F1|]. apply IHM. eapply C; eassumption.
Qed.

(** From one state to another: references stay, links move. *)
Record grows (T : outduct -> Prop) (s s' : state) : Prop := { gr_keys : keys s -> keys s'; gr_links : keys s -> evolve T (links s) (links s') }.
Lemma grows_refl T s : grows T s s. Proof. constructor; [auto|intros _; apply evolve_refl]. Qed.
Lemma grows_trans T a b c : grows T a b -> grows T b c -> grows T a c.
Proof. intros [A1 A2] [B1 B2]. constructor; [auto|]. intros K. eapply evolve_trans; [apply A2; exact K|apply B2; auto]. Qed.
Lemma grows_da T s s' : disk_acks s s' -> grows T s s'.
Proof. intros H. constructor; [rewrite (da_keys _ _ H); auto|]. intros _. rewrite (da_links _ _ H). apply evolve_refl. Qed.
Lemma grows_put T s r k k' : get_link s r = Some k -> moves T r k k' -> grows T s (put_link s r k').
Proof.
  intros G M. constructor; [apply put_keys|]. intros K. destruct (put_split s r k K G) as (p & q & E & F). rewrite E, F. apply evolve_mid. exact M.
Qed.
(** Fields that links do not depend on. *)
Lemma grows_same T s s' : g_vec s' = g_vec s -> g_opp s' = g_opp s -> grows T s s'.
Proof. intros A B. constructor; [unfold keys; rewrite B; auto|]. intros _. unfold links. rewrite A, B. apply evolve_refl. Qed.
Lemma repopulate_grows T s : grows T s (repopulate s). Proof. apply grows_same; reflexivity. Qed.
Lemma da_repop s s' : disk_acks s s' -> g_vec (repopulate s') = g_vec s /\ g_opp (repopulate s') = g_opp s.
Proof. intros H. unfold repopulate. proj. split; [apply da_vec|apply da_opp]; exact H. Qed.

Lemma link_down_grows T r s s' : link_down r s = Some s' -> grows T s s'.
Proof.
  unfold link_down. destruct (get_link s r) as [k|] eqn:G; [|discriminate]. destruct (k_up k) eqn:U; [|intros [= <-]; apply grows_refl].
  destruct (dump _ _ _) as [s1|] eqn:D; [|discriminate]. intros [= <-]. eapply grows_trans; [eapply grows_put; [exact G|apply moves_one, m_down]|].
  eapply grows_trans; [apply grows_da; exact (dump_da _ _ _ _ D)|apply repopulate_grows].
Qed.
(** What is in a link that others do not touch. *)
Lemma link_down_get r s s' k : keys s -> link_down r s = Some s' -> get_link s r = Some k -> exists k', get_link s' r = Some k' /\ k_open k' = k_open k /\ k_acks k' = k_acks k /\ k_bytes k' = k_bytes k /\ k_idx k' = k_idx k.
Proof.
  intros K. unfold link_down. intros H G. rewrite G in H. destruct (k_up k); [|injection H as <-; exists k; auto].
  destruct (dump _ _ _) as [s1|] eqn:D; [|discriminate]. injection H as <-. pose proof (dump_da _ _ _ _ D) as A. exists (set_queue [] (set_up false k)).
  split; [|auto]. change (get_link s1 r = Some (set_queue [] (set_up false k))). rewrite (da_get _ _ r A). eapply get_put; eassumption.
Qed.

Lemma ack_cut_grows T x b r s s' : keys s -> ack_cut x b r s = Some s' -> grows T s s'.
Proof.
  intros K. unfold ack_cut. destruct (get_link s r) as [k|] eqn:G; [|discriminate]. destruct (find_id (x_cid x) (k_acks k)) as [z|] eqn:F; [|intros [= <-]; apply grows_refl].
  destruct (if is_error (x_err x) then _ else _) as [s1|] eqn:E; [|discriminate].
  assert (X : grows T s s1 /\ exists k1, get_link s1 r = Some k1 /\ k_acks k1 = k_acks k).
  { destruct (is_error (x_err x)); [|injection E as <-; split; [apply grows_refl|eauto]]. destruct (write b Whole false None s) as [s0|] eqn:W; [|discriminate].
    pose proof (od_da _ _ (write_od _ _ _ _ _ _ W)) as O. assert (G0 : get_link s0 r = Some k) by (rewrite (da_get _ _ r O); exact G).
    destruct (is_down (x_err x)); [|injection E as <-; split; [apply grows_da; exact O|eauto]]. split.
    - eapply grows_trans; [apply grows_da; exact O|eapply link_down_grows; exact E].
    - destruct (link_down_get r s0 s1 k) as (k1 & A & _ & B & _); [rewrite (da_keys _ _ O); exact K|exact E|exact G0|]. eauto. }
  destruct X as (X & k1 & G1 & F1). set (s2 := ack_ingress _ s1). pose proof (ack_ingress_da (mkA (x_cid x) (ref_idx r) (is_error (x_err x))) s1) as O2. fold s2 in O2.
  rewrite (da_get _ _ r O2), G1. intros [= <-]. eapply grows_trans; [exact X|]. eapply grows_trans; [apply grows_da; exact O2|].
  eapply grows_put; [rewrite (da_get _ _ r O2); exact G1|]. apply moves_one, m_cut_done. rewrite F1. exact F.
Qed.
Lemma ack_read_grows T x r s s' : keys s -> ack_read x r s = Some s' -> grows T s s'.
Proof.
  intros K. unfold ack_read. destruct (get_link s r) as [k|] eqn:G; [|discriminate].
  match goal with |- match ?e with None => None | Some s1 => _ end = _ -> _ => destruct e as [s2|] eqn:E0; [|discriminate] end. intros [= <-].
  apply (grows_trans T s s2); [|apply grows_same; reflexivity].
  destruct (find_id (x_cid x) (k_open k)) as [z|] eqn:F; [|injection E0 as <-; apply grows_refl].
  match type of E0 with match ?e with None => None | Some s1 => _ end = _ => destruct e as [s1|] eqn:E1; [|discriminate] end.
  assert (X : grows T s s1 /\ exists k1, get_link s1 r = Some k1 /\ k_open k1 = k_open k).
  { destruct (is_error (x_err x)).
    - destruct (if is_down (x_err x) then link_down r s else Some s) as [s0|] eqn:D; [|discriminate].
      assert (Y : grows T s s0 /\ exists k1, get_link s0 r = Some k1 /\ k_open k1 = k_open k).
      { destruct (is_down (x_err x)); [|injection D as <-; split; [apply grows_refl|eauto]]. split; [eapply link_down_grows; exact D|].
        destruct (link_down_get r s s0 k K D G) as (k1 & A & B & _). eauto. }
      destruct (give_back (x_cid x) (g_disk s0)) as [d|]; [|discriminate]. destruct (_ && _); [discriminate|]. injection E1 as <-. destruct Y as (Y1 & k1 & Y2 & Y3).
      split; [eapply grows_trans; [exact Y1|apply grows_same; reflexivity]|]. exists k1. split; [exact Y2|exact Y3].
    - destruct (x_delete x); [destruct (remove_read _ _); [|discriminate]|]; injection E1 as <-.
      + split; [apply grows_same; reflexivity|]. exists k. split; [exact G|reflexivity].
      + destruct (mem _ _); [|split; [apply grows_refl|eauto]]. destruct (find_b _ _) as [b|]; [|split; [apply grows_refl|eauto]]. destruct (has_timer _ _); [split; [apply grows_refl|eauto]|].
        split; [apply grows_same; reflexivity|]. exists k. split; [exact G|reflexivity]. }
  destruct X as (X & k1 & G1 & F1). rewrite G1 in E0. injection E0 as <-. eapply grows_trans; [exact X|]. eapply grows_put; [exact G1|]. apply moves_one, m_done. rewrite F1. exact F.
Qed.
Lemma on_ack_grows T x b s s' : keys s -> on_ack x b s = Some s' -> grows T s s'.
Proof.
  intros K. unfold on_ack. destruct (g_init s); cbn [negb]; [|intros [= <-]; apply grows_refl]. destruct (ack_link x s) as [[r|]|]; [| |discriminate].
  - destruct (x_cut x); [apply ack_cut_grows|apply ack_read_grows]; exact K.
  - intros [= <-]. apply grows_refl.
Qed.
Lemma on_failed_grows T i b s s' : on_failed i b s = Some s' -> grows T s s'.
Proof.
  unfold on_failed. destruct (write b Whole false None s) as [s1|] eqn:W; [|discriminate]. pose proof (grows_da T _ _ (od_da _ _ (write_od _ _ _ _ _ _ W))) as O.
  destruct (g_init s1); [|intros [= <-]; exact O]. destruct (vec_ref s1 i) as [r|]; [|discriminate]. intros H. eapply grows_trans; [exact O|eapply link_down_grows; exact H].
Qed.
Lemma on_store_grows T m b c s s' : on_store m b c s = Some s' -> grows T s s'.
Proof.
  unfold on_store. destruct (if s_dont m then _ else None) as [[r k]|] eqn:E.
  - intros [= <-]. destruct (s_dont m); [|discriminate]. destruct (vec_ref s (s_idx m)) as [r0|] eqn:V; [|discriminate]. destruct (get_link s r0) as [k0|] eqn:G; [|discriminate].
    destruct (k_up k0) eqn:U; [|discriminate]. injection E as -> ->. eapply grows_put; [exact G|]. apply moves_one, m_push; [|exact U]. destruct (vec_ref_get _ _ _ V) as (-> & _). reflexivity.
  - destruct (write b c (s_special m) (Some (s_dest m)) s) as [s1|] eqn:W; [|discriminate]. intros [= <-]. eapply grows_trans; [apply grows_da; exact (od_da _ _ (write_od _ _ _ _ _ _ W))|].
    apply grows_da, ack_ingress_da.
Qed.
Lemma on_up_grows T i s s' : on_up i s = Some s' -> grows T s s'.
Proof.
  unfold on_up. destruct (g_init s); [|intros [= <-]; apply grows_same; reflexivity]. destruct (vec_ref s i) as [r|] eqn:V; [|intros [= <-]; apply grows_refl].
  destruct (get_link s r) as [k|] eqn:G; [|discriminate]. intros [= <-]. destruct (k_up k); [apply grows_refl|]. eapply grows_trans; [|apply repopulate_grows].
  eapply grows_put; [exact G|]. apply moves_one, m_up. destruct (vec_ref_get _ _ _ V) as (-> & _). reflexivity.
Qed.
Lemma on_down_grows T i s s' : on_down i s = Some s' -> grows T s s'.
Proof.
  unfold on_down. destruct (g_init s); [|intros [= <-]; apply grows_same; reflexivity]. destruct (vec_ref s i) as [r|]; [|intros [= <-]; apply grows_refl]. apply link_down_grows.
Qed.

(** ** Sending *)
Lemma pop_split cfg ds d c b w : pop cfg ds d = Some ((c, b), w) -> exists p q, d_wait d = p ++ (c, b) :: q /\ w = p ++ q.
Proof.
  unfold pop. destruct (c_pick cfg ds (d_wait d)) as [n|]; [|discriminate]. destruct (nth_error (d_wait d) n) as [e|] eqn:E; [|discriminate].
  remember (firstn n (d_wait d) ++ skipn (S n) (d_wait d)) as w0 eqn:E0. intros [= -> <-].
  destruct (set_nth_split n _ _ E) as (p & q & EQ & L & _). exists p, q. split; [exact EQ|]. rewrite E0, EQ, <- L. rewrite firstn_app, Nat.sub_diag, firstn_all. cbn [firstn].
  rewrite app_nil_r. f_equal. rewrite skipn_app, skipn_all2 by lia. replace (S (length p) - length p)%nat with 1%nat by lia. reflexivity.
Qed.
Lemma peek_frame cfg ds s w s' : peek cfg ds s = (w, s') -> exists d, s' = with_disk s d.
Proof.
  unfold peek. destruct (pop cfg ds (g_disk s)) as [[x rest]|]; intros [= <- <-]; [eauto|]. exists (g_disk s). destruct s; reflexivity.
Qed.
(** The message a link sends, if any, and the link after. *)
Definition stored_move (cfg : config) (r : ref) (k : link) (room : N) (s s' : state) : Prop :=
  exists k' ms, g_egress s' = g_egress s ++ ms /\ links s' = links (put_link s r k') /\ g_vec s' = g_vec (put_link s r k') /\ g_opp s' = g_opp (put_link s r k') /\
    g_ptrs s' = g_ptrs s /\ g_rr s' = g_rr s /\ g_init s' = g_init s /\ g_pend s' = g_pend s /\ g_ingress s' = g_ingress s /\ g_lost s' = g_lost s /\
    ((ms = [] /\ k' = k /\ g_poll s' = g_poll s) \/
     exists c b, ms = [mkE b false c (k_idx k) (k_hop k) (b_dest b) (b_cust b)] /\ b_size b <= room /\ In (c, b) (d_wait (g_disk s)) /\
       ((k' = k /\ (exists z, find_id c (k_open k) = Some z) /\ g_poll s' = g_poll s) \/
        (find_id c (k_open k) = None /\ k' = set_pipe (k_open k ++ [(c, b_size b)]) (k_acks k) (add64 (k_bytes k) (b_size b)) k /\ g_poll s' = 0))).
Lemma put_same s r k : keys s -> get_link s r = Some k -> g_vec (put_link s r k) = g_vec s /\ g_opp (put_link s r k) = g_opp s.
Proof.
  intros K G. destruct r as [i|n]; cbn [put_link get_link] in *; proj; (split; [|reflexivity]) || split; try reflexivity.
  - destruct (set_nth_split i _ _ G) as (p & q & E & L & F). rewrite F, <- E. reflexivity.
  - destruct (opp_put_split n k _ K G) as (p & q & E & F). rewrite F, <- E. reflexivity.
Qed.
Lemma links_same s s' : g_vec s' = g_vec s -> g_opp s' = g_opp s -> links s' = links s.
Proof. intros A B. unfold links. now rewrite A, B. Qed.
Lemma put_vec_same s s' r k : g_vec s' = g_vec s -> g_opp s' = g_opp s -> g_vec (put_link s' r k) = g_vec (put_link s r k) /\ g_opp (put_link s' r k) = g_opp (put_link s r k).
Proof. intros A B. destruct r; cbn [put_link]; proj; rewrite ?A, ?B; auto. Qed.
Lemma put_fields s r k : g_ptrs (put_link s r k) = g_ptrs s /\ g_rr (put_link s r k) = g_rr s /\ g_init (put_link s r k) = g_init s /\ g_pend (put_link s r k) = g_pend s /\
  g_disk (put_link s r k) = g_disk s /\ g_poll (put_link s r k) = g_poll s /\ g_egress (put_link s r k) = g_egress s /\ g_ingress (put_link s r k) = g_ingress s /\
  g_lost (put_link s r k) = g_lost s /\ g_ids (put_link s r k) = g_ids s /\ g_bits (put_link s r k) = g_bits s /\ g_reads (put_link s r k) = g_reads s.
Proof. destruct r; cbn [put_link]; proj; repeat split. Qed.
Lemma bit_frame s b s' : bit s = (b, s') -> exists l, s' = with_oracle s (g_ids s) l (g_reads s).
Proof. unfold bit. destruct (g_bits s) eqn:E; intros [= <- <-]; [exists (g_bits s); destruct s; reflexivity|eauto]. Qed.
Lemma read_frame s b s' : read_bit s = (b, s') -> exists l, s' = with_oracle s (g_ids s) (g_bits s) l /\ (Forall (fun b => b = true) (g_reads s) -> b = true /\ Forall (fun b => b = true) l).
Proof.
  unfold read_bit. destruct (g_reads s) eqn:E; intros [= <- <-]; [exists (g_reads s); split; [destruct s; reflexivity|rewrite E; auto]|]. eexists. split; [reflexivity|]. intros H. inversion H; auto.
Qed.
Lemma stored_moves cfg r k room s : keys s -> get_link s r = Some k -> stored_move cfg r k room s (send_stored cfg r k room s).
Proof.
  intros K G. unfold send_stored. destruct (put_same s r k K G) as (P1 & P2).
  assert (ST : forall s', g_egress s' = g_egress s -> g_vec s' = g_vec s -> g_opp s' = g_opp s -> g_ptrs s' = g_ptrs s -> g_rr s' = g_rr s -> g_init s' = g_init s -> g_pend s' = g_pend s ->
    g_ingress s' = g_ingress s -> g_lost s' = g_lost s -> g_poll s' = g_poll s -> stored_move cfg r k room s s').
  { intros s' A1 A2 A3 A4 A5 A6 A7 A8 A9 A10. exists k, []. rewrite app_nil_r. split; [exact A1|]. split; [rewrite (links_same _ _ P1 P2); apply links_same; assumption|].
    repeat (split; [congruence|]). left. auto. }
  destruct (pop cfg (k_dests k) (g_disk s)) as [[[c b] rest]|] eqn:P; [|apply ST; reflexivity].
  destruct (pop_split _ _ _ _ _ _ P) as (p & q & EW & _). destruct (N.ltb_spec room (b_size b)) as [Z|Z]; [apply ST; reflexivity|].
  destruct (read_bit _) as [rd s1] eqn:R. destruct (read_frame _ _ _ R) as (l1 & -> & _). destruct rd; cbn [negb]; [|apply ST; reflexivity].
  destruct (bit _) as [st s2] eqn:B. destruct (bit_frame _ _ _ B) as (l2 & ->). destruct st; cbn [negb]; [|apply ST; reflexivity].
  destruct (find_id c (k_open k)) as [z|] eqn:F.
  - exists k, [mkE b false c (k_idx k) (k_hop k) (b_dest b) (b_cust b)]. proj. split; [reflexivity|]. split; [rewrite (links_same _ _ P1 P2); reflexivity|].
    repeat (split; [congruence|]). right. exists c, b. repeat (split; [reflexivity || assumption || (rewrite EW; apply in_elt)|]). left. split; [reflexivity|]. split; [eauto|reflexivity].
  - set (k' := set_pipe _ _ _ k). exists k', [mkE b false c (k_idx k) (k_hop k) (b_dest b) (b_cust b)].
    set (s4 := if b_cust b then _ else _). assert (E4 : exists d, s4 = with_disk (emit (mkE b false c (k_idx k) (k_hop k) (b_dest b) (b_cust b)) (with_oracle (with_oracle (with_disk s (with_wait (g_disk s) rest)) (g_ids s) (g_bits s) l1) (g_ids s) l2 l1)) d).
    { unfold s4. destruct (b_cust b); [eexists; reflexivity|]. exists (with_wait (g_disk s) rest). reflexivity. }
    destruct E4 as (d & E4). destruct (put_fields s4 r k') as (Q1 & Q2 & Q3 & Q4 & Q5 & Q6 & Q7 & Q8 & Q9 & _).
    destruct (put_vec_same s s4 r k') as (V1 & V2); [rewrite E4; reflexivity|rewrite E4; reflexivity|]. proj.
    split; [rewrite Q7, E4; reflexivity|]. split; [apply links_same; assumption|]. split; [exact V1|]. split; [exact V2|]. split; [rewrite Q1, E4; reflexivity|]. split; [rewrite Q2, E4; reflexivity|].
    split; [rewrite Q3, E4; reflexivity|]. split; [rewrite Q4, E4; reflexivity|]. split; [rewrite Q8, E4; reflexivity|]. split; [rewrite Q9, E4; reflexivity|].
    right. exists c, b. repeat (split; [reflexivity || assumption || (rewrite EW; apply in_elt)|]). right. split; [exact F|]. split; reflexivity.
Qed.
Definition cut_move (r : ref) (k : link) (x : queued) (rest : list queued) (s s' : state) : Prop :=
  exists k' ms lo, g_egress s' = g_egress s ++ ms /\ g_vec s' = g_vec (put_link s r k') /\ g_opp s' = g_opp (put_link s r k') /\ g_lost s' = g_lost s ++ lo /\
    g_ptrs s' = g_ptrs s /\ g_rr s' = g_rr s /\ g_init s' = g_init s /\ g_pend s' = g_pend s /\ g_ingress s' = g_ingress s /\ g_disk s' = g_disk s /\ g_ids s' = g_ids s /\ g_reads s' = g_reads s /\
    ((k' = set_queue rest k /\ lo = [mkA (q_id x) (ref_idx r) false] /\ (ms = [] \/ ms = [mkE (q_b x) true (q_id x) (k_idx k) (k_hop k) (q_dest x) false]) /\ g_poll s' = g_poll s) \/
     (find_id (q_id x) (k_acks k) = None /\ k' = set_pipe (k_open k) (k_acks k ++ [(q_id x, b_size (q_b x))]) (add64 (k_bytes k) (b_size (q_b x))) (set_queue rest k) /\
      lo = [] /\ ms = [mkE (q_b x) true (q_id x) (k_idx k) (k_hop k) (q_dest x) false] /\ g_poll s' = 0)).
Lemma cut_moves r k x rest s : cut_move r k x rest s (send_cut r k x rest s).
Proof.
  unfold send_cut. destruct (bit s) as [st s1] eqn:B. destruct (bit_frame _ _ _ B) as (l & ->). destruct st; cbn [negb].
  - destruct (find_id (q_id x) (k_acks k)) as [z|] eqn:F.
    + set (s2 := emit _ _). destruct (put_fields s2 r (set_queue rest k)) as (Q1 & Q2 & Q3 & Q4 & Q5 & Q6 & Q7 & Q8 & Q9 & Q10 & Q11 & Q12).
      destruct (put_vec_same s s2 r (set_queue rest k) eq_refl eq_refl) as (V1 & V2).
      exists (set_queue rest k), [mkE (q_b x) true (q_id x) (k_idx k) (k_hop k) (q_dest x) false], [mkA (q_id x) (ref_idx r) false]. proj.
      split; [rewrite Q7; reflexivity|]. split; [exact V1|]. split; [exact V2|]. split; [rewrite Q9; reflexivity|]. split; [rewrite Q1; reflexivity|]. split; [rewrite Q2; reflexivity|].
      split; [rewrite Q3; reflexivity|]. split; [rewrite Q4; reflexivity|]. split; [rewrite Q8; reflexivity|]. split; [rewrite Q5; reflexivity|]. split; [rewrite Q10; reflexivity|]. split; [rewrite Q12; reflexivity|].
      left. repeat (split; [reflexivity|]). split; [auto|]. rewrite Q6. reflexivity.
    + set (s2 := emit _ _). set (k' := set_pipe _ _ _ _). destruct (put_fields s2 r k') as (Q1 & Q2 & Q3 & Q4 & Q5 & Q6 & Q7 & Q8 & Q9 & Q10 & Q11 & Q12).
      destruct (put_vec_same s s2 r k' eq_refl eq_refl) as (V1 & V2).
      exists k', [mkE (q_b x) true (q_id x) (k_idx k) (k_hop k) (q_dest x) false], []. proj. rewrite app_nil_r.
      split; [rewrite Q7; reflexivity|]. split; [exact V1|]. split; [exact V2|]. split; [rewrite Q9; reflexivity|]. split; [rewrite Q1; reflexivity|]. split; [rewrite Q2; reflexivity|].
      split; [rewrite Q3; reflexivity|]. split; [rewrite Q4; reflexivity|]. split; [rewrite Q8; reflexivity|]. split; [rewrite Q5; reflexivity|]. split; [rewrite Q10; reflexivity|]. split; [rewrite Q12; reflexivity|].
      right. repeat (split; [reflexivity || assumption|]). reflexivity.
  - set (s2 := with_oracle s _ _ _). destruct (put_fields s2 r (set_queue rest k)) as (Q1 & Q2 & Q3 & Q4 & Q5 & Q6 & Q7 & Q8 & Q9 & Q10 & Q11 & Q12).
    destruct (put_vec_same s s2 r (set_queue rest k) eq_refl eq_refl) as (V1 & V2).
    exists (set_queue rest k), [], [mkA (q_id x) (ref_idx r) false]. proj. rewrite app_nil_r.
    split; [rewrite Q7; reflexivity|]. split; [exact V1|]. split; [exact V2|]. split; [rewrite Q9; reflexivity|]. split; [rewrite Q1; reflexivity|]. split; [rewrite Q2; reflexivity|].
    split; [rewrite Q3; reflexivity|]. split; [rewrite Q4; reflexivity|]. split; [rewrite Q8; reflexivity|]. split; [rewrite Q5; reflexivity|]. split; [rewrite Q10; reflexivity|]. split; [rewrite Q12; reflexivity|].
    left. repeat (split; [reflexivity|]). split; [auto|]. rewrite Q6. reflexivity.
Qed.
