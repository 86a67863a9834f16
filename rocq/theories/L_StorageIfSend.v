(** C52: what serving a link does. *)
From Coq Require Import PeanoNat NArith List Bool Lia Permutation ZifyBool ZifyN.
From Verif Require Import Base M_CustodyId M_StorageIf S_StorageIf L_StorageIf L_StorageIfInv.
Import ListNotations.
Open Scope N_scope.

(** No telemetry is involved. *)
Definition none (o : outduct) : Prop := False.
(** The disk only gains bundles; ids that wait, are stored and not new were so before. *)
Definition disk_grows (s s' : state) : Prop := incl (d_ent (g_disk s)) (d_ent (g_disk s')).
Definition wait_stored (s : state) : Prop := incl (d_wait (g_disk s)) (d_ent (g_disk s)).
Definition acked (s : state) : list (N * N) := map ack_of (g_ingress s ++ g_lost s).
Definition message (r : ref) (k : link) (room : N) (s' : state) (m : emsg) : Prop :=
  e_idx m = k_idx k /\ e_hop m = k_hop k /\ b_size (e_b m) <= room /\
  if e_cut m then e_custody m = false /\ exists rest, k_queue k = mkQ (e_b m) (e_dest m) (e_cid m) :: rest
  else e_custody m = b_cust (e_b m) /\ e_dest m = b_dest (e_b m) /\ stored s' (e_cid m) (e_b m).
(** Only the link [r], from [k] to [k'], the disk, acks and the messages [ms] for egress. *)
Record visit (r : ref) (k : link) (room : N) (s : state) (k' : link) (ms : list emsg) (s' : state) : Prop := mkVisit {
  vi_vec : g_vec s' = g_vec (put_link s r k'); vi_opp : g_opp s' = g_opp (put_link s r k'); vi_moves : moves none r k k'; vi_up : k_up k' = k_up k;
  vi_ptrs : g_ptrs s' = g_ptrs s; vi_rr : g_rr s' = g_rr s; vi_init : g_init s' = g_init s; vi_pend : g_pend s' = g_pend s;
  vi_egress : g_egress s' = g_egress s ++ ms; vi_msgs : wait_stored s -> Forall (message r k room s') ms;
  vi_disk : disk_grows s s'; vi_wait : wait_stored s -> wait_stored s';
  vi_acks : Permutation (acked s' ++ owed_by r k') (acked s ++ owed_by r k); vi_poll : g_poll s' = g_poll s \/ g_poll s' <= 1 }.
Lemma message_grows r k room s s' m : disk_grows s s' -> message r k room s m -> message r k room s' m.
Proof. intros D (A & B & C & E). split; [exact A|]. split; [exact B|]. split; [exact C|]. destruct (e_cut m); [exact E|]. destruct E as (E1 & E2 & E3). split; [exact E1|]. split; [exact E2|]. exact (D _ E3). Qed.
Definition same_front (k k1 : link) : Prop := k_idx k1 = k_idx k /\ k_hop k1 = k_hop k /\ k_queue k1 = k_queue k.
Lemma visit_trans r k room s k1 ms1 s1 k2 ms2 s2 : visit r k room s k1 ms1 s1 -> visit r k1 room s1 k2 ms2 s2 -> ms2 = [] \/ same_front k k1 ->
  visit r k room s k2 (ms1 ++ ms2) s2.
Proof.
  intros [A1 A2 A3 A4 A5 A6 A7 A8 A9 A10 A11 A12 A13 A14] [B1 B2 B3 B4 B5 B6 B7 B8 B9 B10 B11 B12 B13 B14] F. destruct (put_put s r k1 k2) as (P1 & P2).
  destruct (put_vec_same (put_link s r k1) s1 r k2) as (Q1 & Q2); [exact A1|exact A2|]. constructor; try congruence.
  - eapply moves_trans; eassumption.
  - rewrite B9, A9, app_assoc. reflexivity.
  - intros W. apply Forall_app. split.
    + eapply Forall_impl; [|exact (A10 W)]. intros m. apply message_grows. exact B11.
    + destruct F as [->|(F1 & F2 & F3)]; [constructor|]. eapply Forall_impl; [|exact (B10 (A12 W))]. intros m (X1 & X2 & X3 & X4). split; [congruence|]. split; [congruence|]. split; [exact X3|].
      rewrite <- F3. exact X4.
  - intros x H. apply B11, A11, H.
  - auto.
  - rewrite B13. exact A13.
  - destruct B14 as [B14|B14]; [rewrite B14; exact A14|auto].
Qed.
Lemma visit_idle r k room s s' : keys s -> get_link s r = Some k -> only_disk s s' -> disk_grows s s' -> (wait_stored s -> wait_stored s') -> visit r k room s k [] s'.
Proof.
  intros K G O D W. destruct (put_same s r k K G) as (P1 & P2). destruct O as [O1 O2 O3 O4 O5 O6 O7 O8 O9 O10 O11]. constructor; try assumption; try congruence.
  - constructor.
  - rewrite app_nil_r. exact O8.
  - constructor.
  - unfold acked. rewrite O10, O11. apply Permutation_refl.
  - auto.
Qed.
(** After a visit the link is the new one. *)
Lemma visit_keys r k room s k' ms s' : keys s -> visit r k room s k' ms s' -> keys s'.
Proof. intros K V. unfold keys. rewrite (vi_opp _ _ _ _ _ _ _ V). apply put_keys. exact K. Qed.
Lemma visit_links r k room s k' ms s' : visit r k room s k' ms s' -> links s' = links (put_link s r k').
Proof. intros V. apply links_same; [apply (vi_vec _ _ _ _ _ _ _ V)|apply (vi_opp _ _ _ _ _ _ _ V)]. Qed.
Lemma visit_get r k room s k' ms s' : keys s -> get_link s r = Some k -> visit r k room s k' ms s' -> get_link s' r = Some k'.
Proof.
  intros K G V. apply in_get; [eapply visit_keys; eassumption|]. rewrite (visit_links _ _ _ _ _ _ _ V). destruct (put_split s r k K G) as (p & q & _ & F). rewrite F. apply in_elt.
Qed.
(** Changing the link only. *)
Lemma visit_put r k room s k' : get_link s r = Some k -> moves none r k k' -> k_up k' = k_up k -> Permutation (owed_by r k') (owed_by r k) -> visit r k room s k' [] (put_link s r k').
Proof.
  intros G M U P. destruct (put_fields s r k') as (Q1 & Q2 & Q3 & Q4 & Q5 & Q6 & Q7 & Q8 & Q9 & _). constructor; try assumption; try reflexivity.
  - rewrite Q7, app_nil_r. reflexivity.
  - constructor.
  - unfold disk_grows. rewrite Q5. intros x. auto.
  - unfold wait_stored. rewrite Q5. auto.
  - unfold acked. rewrite Q8, Q9. apply Permutation_app_head. exact P.
  - auto.
Qed.
(** ** Writing *)
Lemma bit_disk s b s' : bit s = (b, s') -> g_disk s' = g_disk s.
Proof. unfold bit. destruct (g_bits s); intros [= <- <-]; reflexivity. Qed.
Lemma alloc_ent s i s' : alloc s = (i, s') -> d_ent (g_disk s') = d_ent (g_disk s) /\ d_wait (g_disk s') = d_wait (g_disk s).
Proof. unfold alloc. destruct (match g_ids s with [] => _ | _ => _ end) as [a r]. intros [= <- <-]. split; reflexivity. Qed.
Lemma write_one_grows b s s' ok : write_one b s = Some (s', ok) -> disk_grows s s' /\ (wait_stored s -> wait_stored s').
Proof.
  unfold write_one, disk_grows, wait_stored. destruct (alloc s) as [i s1] eqn:A. destruct (bit s1) as [w s2] eqn:B. destruct (alloc_ent _ _ _ A) as (E1 & E2). pose proof (bit_disk _ _ _ B) as E3.
  rewrite <- E1, <- E2, <- E3. destruct w; cbn [negb].
  - destruct (find_b i (d_ent (g_disk s2))); [discriminate|]. intros [= <- <-]. proj. cbn [d_ent d_wait]. split; [intros x H; now right|].
    intros H x X. apply in_app_or in X as [X|[X|[]]]; [right; apply H; exact X|left; exact X].
  - intros [= <- <-]. split; [intros x; auto|auto].
Qed.
Lemma write_whole_grows b s s' : write b Whole false None s = Some s' -> disk_grows s s' /\ (wait_stored s -> wait_stored s').
Proof.
  unfold write. destruct (b_bad b); cbn [negb]; [intros [= <-]; split; [intros x; auto|auto]|]. destruct (write_one (masked None b) s) as [[s1 ok]|] eqn:W; [|discriminate]. intros [= <-].
  exact (write_one_grows _ _ _ _ W).
Qed.
Lemma peek_grows cfg ds s w s' : peek cfg ds s = (w, s') -> only_disk s s' /\ disk_grows s s' /\ (wait_stored s -> wait_stored s') /\ Permutation (d_wait (g_disk s')) (d_wait (g_disk s)).
Proof.
  unfold peek, disk_grows, wait_stored. destruct (pop cfg ds (g_disk s)) as [[[c b] rest]|] eqn:P; intros [= <- <-].
  - destruct (pop_split _ _ _ _ _ _ P) as (p & q & E & ->). proj. cbn [with_wait d_ent d_wait]. rewrite E. split; [apply od_disk|]. split; [intros x; auto|].
    assert (PP : Permutation ((c, b) :: p ++ q) (p ++ (c, b) :: q)) by apply Permutation_middle. split; [|exact PP].
    intros H x X. apply H. eapply Permutation_in; [exact PP|exact X].
  - split; [apply od_refl|]. split; [intros x; auto|]. split; [auto|apply Permutation_refl].
Qed.
Lemma acked_more m s : Permutation (acked (ack_ingress m s)) (ack_of m :: acked s) /\ g_disk (ack_ingress m s) = g_disk s.
Proof.
  unfold ack_ingress. destruct (bit s) as [ok s1] eqn:B. pose proof (bit_od _ _ _ B) as O. pose proof (bit_disk _ _ _ B) as D. unfold acked. destruct ok; proj; (split; [|exact D]); rewrite (od_ingress _ _ O), (od_lost _ _ O).
  - rewrite <- app_assoc, map_app. cbn [app map]. rewrite map_app. symmetry. apply Permutation_middle.
  - rewrite app_assoc, map_app. cbn [map]. symmetry. apply Permutation_cons_append.
Qed.
(** ** Sending *)
Lemma stored_visit cfg r k s : keys s -> get_link s r = Some k -> k_up k = true -> count k < k_max k ->
  exists k' ms, visit r k (sub64 (k_maxb k) (k_bytes k)) s k' ms (send_stored cfg r k (sub64 (k_maxb k) (k_bytes k)) s) /\ k_queue k' = k_queue k.
Proof.
  intros K G U C. set (room := sub64 _ _). destruct (stored_moves cfg r k room s K G) as (k' & ms & A1 & _ & A2 & A3 & A4 & A5 & A6 & A7 & A8 & A9 & A10). exists k', ms.
  assert (D : disk_grows s (send_stored cfg r k room s) /\ (wait_stored s -> wait_stored (send_stored cfg r k room s))).
  { clear -K. unfold send_stored. destruct (pop cfg (k_dests k) (g_disk s)) as [[[c b] rest]|] eqn:P; [|split; [intros x; auto|auto]].
    destruct (pop_split _ _ _ _ _ _ P) as (p & q & E & ->).
    assert (BK : forall s', d_ent (g_disk s') = d_ent (g_disk s) -> d_wait (g_disk s') = (c, b) :: p ++ q -> disk_grows s s' /\ (wait_stored s -> wait_stored s')).
    { intros s' E1 E2. unfold disk_grows, wait_stored. rewrite E1, E2, E. split; [intros x; auto|]. intros H x X. apply H. eapply Permutation_in; [apply Permutation_middle|exact X]. }
    assert (FW : forall s', d_ent (g_disk s') = d_ent (g_disk s) -> d_wait (g_disk s') = p ++ q -> disk_grows s s' /\ (wait_stored s -> wait_stored s')).
    { intros s' E1 E2. unfold disk_grows, wait_stored. rewrite E1, E2, E. split; [intros x; auto|]. intros H x X. apply H. rewrite in_app_iff in *. cbn [In]. tauto. }
    destruct (room <? b_size b); [apply BK; reflexivity|]. destruct (read_bit _) as [rd s1] eqn:R. destruct (read_frame _ _ _ R) as (l1 & -> & _). destruct rd; cbn [negb]; [|apply FW; reflexivity].
    destruct (bit _) as [st s2] eqn:B. destruct (bit_frame _ _ _ B) as (l2 & ->). destruct st; cbn [negb]; [|apply BK; reflexivity].
    destruct (find_id c (k_open k)); [apply FW; reflexivity|]. destruct (b_cust b); apply FW; proj; destruct r; reflexivity. }
  destruct D as (D1 & D2).
  assert (X : moves none r k k' /\ k_up k' = k_up k /\ k_queue k' = k_queue k /\ k_acks k' = k_acks k /\ (g_poll (send_stored cfg r k room s) = g_poll s \/ g_poll (send_stored cfg r k room s) <= 1)).
  { destruct A10 as [(_ & -> & P)|(c & b & _ & Z & _ & [(-> & _ & P)|(F & -> & P)])].
    - rewrite P. repeat split; try constructor. reflexivity.
    - rewrite P. repeat split; try constructor. reflexivity.
    - rewrite P. split; [|repeat split; right; lia]. apply moves_one, m_send; assumption. }
  destruct X as (X1 & X2 & X3 & X4 & X5). split; [|exact X3]. constructor; try assumption.
  - intros W. destruct A10 as [(-> & _)|(c & b & -> & Z & I & _)]; [constructor|]. constructor; [|constructor]. split; [reflexivity|]. split; [reflexivity|]. split; [exact Z|]. cbn [e_cut e_custody e_b e_dest e_cid].
    split; [reflexivity|]. split; [reflexivity|]. apply D1, W, I.
  - unfold acked, owed_by. rewrite A8, A9, X3, X4. apply Permutation_refl.
Qed.
Lemma cut_visit r k x rest s : keys s -> get_link s r = Some k -> k_up k = true -> count k < k_max k -> k_queue k = x :: rest -> b_size (q_b x) <= sub64 (k_maxb k) (k_bytes k) ->
  exists k' ms, visit r k (sub64 (k_maxb k) (k_bytes k)) s k' ms (send_cut r k x rest s).
Proof.
  intros K G U C Q Z. destruct (cut_moves r k x rest s) as (k' & ms & lo & A1 & A2 & A3 & A4 & A5 & A6 & A7 & A8 & A9 & A10 & A11 & A12 & A13). exists k', ms.
  assert (M : message r k (sub64 (k_maxb k) (k_bytes k)) (send_cut r k x rest s) (mkE (q_b x) true (q_id x) (k_idx k) (k_hop k) (q_dest x) false)).
  { split; [reflexivity|]. split; [reflexivity|]. split; [exact Z|]. cbn. split; [reflexivity|]. exists rest. rewrite Q. destruct x; reflexivity. }
  constructor; try assumption.
  - destruct A13 as [(-> & _)|(F & -> & _)]; apply moves_one; [eapply m_pop; exact Q|]. apply m_cut; try assumption. rewrite Q. discriminate.
  - destruct A13 as [(-> & _)|(F & -> & _)]; reflexivity.
  - intros _. destruct A13 as [(_ & _ & [->| ->] & _)|(_ & _ & _ & -> & _)]; repeat constructor; apply M.
  - unfold disk_grows. rewrite A10. intros y. auto.
  - unfold wait_stored. rewrite A10. auto.
  - unfold acked, owed_by. rewrite A9, A4, Q. destruct A13 as [(-> & -> & _)|(_ & -> & -> & _)].
    + cbn [k_queue set_queue k_acks map]. rewrite !app_assoc, map_app. cbn [map]. unfold ack_of at 2. cbn [a_id a_idx]. rewrite <- !app_assoc. apply Permutation_app_head. reflexivity.
    + rewrite app_nil_r. cbn [k_queue set_queue k_acks set_pipe map]. apply Permutation_app_head. rewrite map_app. cbn [map fst app]. rewrite app_assoc. symmetry. apply Permutation_cons_append.
  - destruct A13 as [(_ & _ & _ & P)|(_ & _ & _ & _ & P)]; [auto|right; lia].
Qed.
Lemma default_visit cfg r k s : keys s -> get_link s r = Some k -> k_up k = true -> count k < k_max k ->
  exists k' ms, visit r k (sub64 (k_maxb k) (k_bytes k)) s k' ms (default_send cfg r k (sub64 (k_maxb k) (k_bytes k)) s).
Proof.
  intros K G U C. set (room := sub64 _ _). unfold default_send. match goal with |- context[flip r ?e] => set (s1 := e) end.
  assert (X : exists k1 ms, visit r k room s k1 ms s1).
  { unfold s1. destruct (k_queue k) as [|x rest] eqn:Q; [destruct (stored_visit cfg r k s K G U C) as (k1 & ms & V & _); eauto|].
    destruct (k_try k && (b_size (q_b x) <=? room)) eqn:E.
    - apply andb_true_iff in E as (_ & E). apply N.leb_le in E. apply cut_visit; assumption.
    - destruct (stored_visit cfg r k s K G U C) as (k1 & ms & V & _). eauto. }
  destruct X as (k1 & ms & V). unfold flip. pose proof (visit_get _ _ _ _ _ _ _ K G V) as G1. rewrite G1. exists (set_try (negb (k_try k1)) k1), ms. rewrite <- (app_nil_r ms).
  eapply visit_trans; [exact V| |auto]. apply visit_put; [exact G1|apply moves_one, m_try|reflexivity|apply Permutation_refl].
Qed.
Lemma priority_visit cfg r k s s' : keys s -> get_link s r = Some k -> k_up k = true -> count k < k_max k -> priority_send cfg r k (sub64 (k_maxb k) (k_bytes k)) s = Some s' ->
  exists k' ms, visit r k (sub64 (k_maxb k) (k_bytes k)) s k' ms s'.
Proof.
  intros K G U C. set (room := sub64 _ _). unfold priority_send. destruct (k_queue k) as [|x rest] eqn:Q.
  - intros [= <-]. destruct (stored_visit cfg r k s K G U C) as (k1 & ms & V & _). eauto.
  - destruct (peek cfg (k_dests k) s) as [[[c b]|] s1] eqn:P; destruct (peek_grows _ _ _ _ _ P) as (O & D & W & _).
    + set (same := match queue_prio x with Some p => p =? b_prio b | None => false end). set (higher := match queue_prio x with Some p => b_prio b <? p | None => false end).
      set (k1 := if same && (b_size (q_b x) <=? room) then set_try (negb (k_try k)) k else k).
      assert (KF : k_queue k1 = k_queue k /\ k_idx k1 = k_idx k /\ k_hop k1 = k_hop k /\ k_up k1 = k_up k /\ count k1 = count k /\ k_max k1 = k_max k /\ sub64 (k_maxb k1) (k_bytes k1) = room /\ owed_by r k1 = owed_by r k).
      { unfold k1. destruct (same && _); repeat split. }
      destruct KF as (F1 & F2 & F3 & F4 & F5 & F6 & F7 & F8).
      assert (G1 : get_link s1 r = Some k) by (rewrite (da_get _ _ r (od_da _ _ O)); exact G). assert (K1 : keys s1) by (rewrite (da_keys _ _ (od_da _ _ O)); exact K).
      assert (V2 : visit r k room s k1 [] (put_link s1 r k1)).
      { change (@nil emsg) with (@nil emsg ++ []). eapply visit_trans; [apply visit_idle; eassumption| |auto]. apply visit_put; [exact G1| |exact F4|rewrite F8; apply Permutation_refl].
        unfold k1. destruct (same && _); [apply moves_one, m_try|constructor]. }
      set (s2 := put_link s1 r k1) in *. pose proof (visit_get _ _ _ _ _ _ _ K G V2) as G2. pose proof (visit_keys _ _ _ _ _ _ _ K V2) as K2.
      assert (SF : same_front k k1) by (repeat split; assumption).
      destruct (if same then _ else higher).
      * destruct (N.leb_spec (b_size (q_b x)) room) as [Z|Z]; intros [= <-]; [|exists k1, []; exact V2].
        destruct (cut_visit r k1 x rest s2 K2 G2) as (k' & ms & V3); [congruence|congruence|congruence|rewrite F7; exact Z|]. rewrite F7 in V3. exists k', ms. change ms with ([] ++ ms). eapply visit_trans; eauto.
      * destruct (stored_visit cfg r k1 s2 K2 G2) as (k3 & ms & V3 & Q3); [congruence|congruence|]. rewrite F7 in V3. set (s3 := send_stored cfg r k1 room s2) in *.
        destruct (write (q_b x) Whole false None s3) as [s4|] eqn:WR; [|discriminate]. pose proof (write_od _ _ _ _ _ _ WR) as O4. destruct (write_whole_grows _ _ _ WR) as (D4 & W4).
        set (a := mkA (q_id x) (ref_idx r) false). set (s5 := ack_ingress a s4). pose proof (ack_ingress_da a s4) as O5. destruct (acked_more a s4) as (P5 & E5). fold s5 in O5, P5, E5.
        pose proof (visit_get _ _ _ _ _ _ _ K2 G2 V3) as G3. pose proof (visit_keys _ _ _ _ _ _ _ K2 V3) as K3.
        assert (O35 : disk_acks s3 s5) by (eapply da_trans; [apply od_da; exact O4|exact O5]).
        rewrite (da_get _ _ r O35), G3. intros [= <-]. exists (set_queue rest k3), ms. change ms with ([] ++ ms). eapply visit_trans; [exact V2| |right; exact SF].
        rewrite <- (app_nil_r ms). eapply visit_trans; [exact V3| |auto].
        destruct (put_vec_same s3 s5 r (set_queue rest k3)) as (Y1 & Y2); [apply da_vec; exact O35|apply da_opp; exact O35|].
        destruct (put_fields s5 r (set_queue rest k3)) as (X1 & X2 & X3 & X4 & X5 & X6 & X7 & X8 & X9 & _). destruct O35 as [Z1 Z2 Z3 Z4 Z5 Z6 Z7 Z8 Z9].
        constructor; try assumption; try congruence.
        -- apply moves_one. eapply m_pop. rewrite Q3, F1. exact Q.
        -- reflexivity.
        -- rewrite app_nil_r. congruence.
        -- constructor.
        -- unfold disk_grows. rewrite X5, E5. exact D4.
        -- unfold wait_stored. rewrite X5, E5. exact W4.
        -- unfold acked at 1. rewrite X8, X9. fold (acked s5). rewrite P5. unfold acked. rewrite (od_ingress _ _ O4), (od_lost _ _ O4). unfold owed_by. cbn [k_queue set_queue k_acks]. rewrite Q3, F1, Q. cbn [map]. unfold a, ack_of at 1. cbn [a_id a_idx app].
           apply Permutation_middle.
        -- left. congruence.
    + intros [= <-]. assert (G1 : get_link s1 r = Some k) by (rewrite (da_get _ _ r (od_da _ _ O)); exact G). assert (K1 : keys s1) by (rewrite (da_keys _ _ (od_da _ _ O)); exact K).
      pose proof (visit_idle r k room s s1 K G O D W) as V1. destruct (N.leb_spec (b_size (q_b x)) room) as [Z|Z]; [|exists k, []; exact V1].
      destruct (cut_visit r k x rest s1 K1 G1 U C Q Z) as (k' & ms & V3). exists k', ms. change ms with ([] ++ ms). eapply visit_trans; [exact V1|exact V3|]. right. repeat split.
Qed.

(** ** Serving the link at one position *)
Lemma serve_visit cfg n s s' : keys s -> g_ptrs s = up_refs (links s) -> serve cfg n s = Some s' ->
  exists r k k' ms, nth_error (g_ptrs s) n = Some r /\ get_link s r = Some k /\ k_up k = true /\ visit r k (sub64 (k_maxb k) (k_bytes k)) s k' ms s' /\ (ms = [] \/ count k < k_max k).
Proof.
  intros K P. unfold serve. destruct (nth_error (g_ptrs s) n) as [r|] eqn:NE; [|discriminate]. destruct (get_link s r) as [k|] eqn:G; [|discriminate].
  assert (U : k_up k = true).
  { apply nth_error_In in NE. rewrite P in NE. unfold up_refs in NE. apply in_map_iff in NE as ([r0 k0] & E & I). apply filter_In in I as (I & U). cbn [fst snd] in *. subst r0.
    apply (in_get s r k0 K) in I. congruence. }
  set (room := sub64 _ _). change (N.of_nat (length (k_open k) + length (k_acks k))) with (count k).
  destruct (if count k <? k_max k then _ else Some s) as [s1|] eqn:E; [|discriminate].
  assert (V : exists k' ms, visit r k room s k' ms s1 /\ (ms = [] \/ count k < k_max k)).
  { destruct (N.ltb_spec (count k) (k_max k)) as [C|C].
    - destruct (c_priority cfg).
      + destruct (priority_visit cfg r k s s1 K G U C E) as (k' & ms & V). exists k', ms. auto.
      + injection E as <-. destruct (default_visit cfg r k s K G U C) as (k' & ms & V). exists k', ms. auto.
    - injection E as <-. exists k, []. split; [|auto]. apply visit_idle; [assumption|assumption|apply od_refl|intros x; auto|auto]. }
  destruct V as (k' & ms & V & C). intros H. exists r, k, k', ms. repeat (split; [reflexivity || assumption|]). split; [|exact C].
  destruct ((g_poll s1 =? 0) || (g_poll s1 =? 1)); [injection H as <-; exact V|]. rewrite (visit_get _ _ _ _ _ _ _ K G V) in H. injection H as <-.
  destruct (peek cfg (k_dests k') s1) as [w s2] eqn:PK. destruct (peek_grows _ _ _ _ _ PK) as (O & D & W & _).
  assert (V2 : visit r k' room s1 k' [] s2) by (apply visit_idle; [eapply visit_keys; eassumption|eapply visit_get; eassumption|assumption|assumption|assumption]).
  pose proof (visit_trans _ _ _ _ _ _ _ _ _ _ V V2 (or_introl eq_refl)) as V3. rewrite app_nil_r in V3. destruct w; [|exact V3]. destruct V3. constructor; try assumption. proj. right. lia.
Qed.
Lemma get_put_other s r r' k : r' <> r -> get_link (put_link s r k) r' = get_link s r'.
Proof.
  intros N. destruct r as [i|a], r' as [j|b]; cbn [put_link get_link]; proj; try reflexivity.
  - assert (D : j <> i) by congruence. clear N. revert j D. generalize (g_vec s) as l. induction i as [|i IH]; intros [|y l] [|j] D; cbn [set_nth nth_error]; try reflexivity; [congruence|]. apply IH. congruence.
  - assert (D : b <> a) by congruence. unfold opp_find, opp_put. clear N. induction (g_opp s) as [|[x y] l IH]; [reflexivity|]. cbn [map find fst]. destruct (N.eqb_spec x a) as [->|X]; cbn [fst snd].
    + destruct (N.eqb_spec a b) as [X|X]; [congruence|]. exact IH.
    + destruct (x =? b); [reflexivity|exact IH].
Qed.
Lemma visit_other r k room s k' ms s' r' : visit r k room s k' ms s' -> r' <> r -> get_link s' r' = get_link s r'.
Proof. intros V N. rewrite <- (get_put_other s r r' k' N). unfold get_link. rewrite (vi_vec _ _ _ _ _ _ _ V), (vi_opp _ _ _ _ _ _ _ V). reflexivity. Qed.
Lemma visit_ptrs r k room s k' ms s' : keys s -> get_link s r = Some k -> visit r k room s k' ms s' -> g_ptrs s = up_refs (links s) -> g_ptrs s' = up_refs (links s').
Proof.
  intros K G V P. rewrite (vi_ptrs _ _ _ _ _ _ _ V), P, (visit_links _ _ _ _ _ _ _ V). destruct (put_split s r k K G) as (p & q & E & F). rewrite E, F, !up_refs_app. f_equal. unfold up_refs. cbn [filter snd].
  rewrite (vi_up _ _ _ _ _ _ _ V). destruct (k_up k); reflexivity.
Qed.
Lemma visit_evolve r k room s k' ms s' : keys s -> get_link s r = Some k -> visit r k room s k' ms s' -> evolve none (links s) (links s').
Proof. intros K G V. rewrite (visit_links _ _ _ _ _ _ _ V). destruct (put_split s r k K G) as (p & q & E & F). rewrite E, F. apply evolve_mid, (vi_moves _ _ _ _ _ _ _ V). Qed.
Lemma owed_put s r k k' : keys s -> get_link s r = Some k -> forall s', links s' = links (put_link s r k') -> forall a a', Permutation (a' ++ owed_by r k') (a ++ owed_by r k) -> Permutation (a' ++ owed s') (a ++ owed s).
Proof.
  intros K G s' L a a' P. unfold owed. rewrite L. destruct (put_split s r k K G) as (p & q & E & F). rewrite E, F, !flat_map_app. cbn [flat_map fst snd].
  set (A := flat_map _ p). set (B := flat_map _ q). rewrite !app_assoc. apply Permutation_app_tail. rewrite <- !app_assoc.
  rewrite (Permutation_app_comm A (owed_by r k')), (Permutation_app_comm A (owed_by r k)), !app_assoc. apply Permutation_app_tail. exact P.
Qed.
Lemma visit_owed r k room s k' ms s' : keys s -> get_link s r = Some k -> visit r k room s k' ms s' -> Permutation (acked s' ++ owed s') (acked s ++ owed s).
Proof. intros K G V. eapply owed_put; [exact K|exact G|apply (visit_links _ _ _ _ _ _ _ V)|apply (vi_acks _ _ _ _ _ _ _ V)]. Qed.

(** ** All links *)
Lemma ptrs_nodup s : keys s -> g_ptrs s = up_refs (links s) -> NoDup (g_ptrs s).
Proof.
  intros K ->. pose proof (links_refs s K) as N. unfold up_refs. induction (links s) as [|x l IH]; [constructor|]. cbn [map filter] in *. inversion N as [|? ? N1 N2]; subst.
  destruct (k_up (snd x)); [|exact (IH N2)]. cbn [map]. constructor; [|exact (IH N2)]. intros H. apply N1. apply in_map_iff in H as (y & E & H). apply filter_In in H as (H & _). rewrite <- E. apply in_map. exact H.
Qed.
Definition sent_at (s s' : state) (l : list nat) (m : emsg) : Prop := exists n r k, In n l /\ nth_error (g_ptrs s) n = Some r /\ get_link s r = Some k /\ k_up k = true /\ count k < k_max k /\
  message r k (sub64 (k_maxb k) (k_bytes k)) s' m.
Record sweep (s : state) (l : list nat) (s' : state) : Prop := mkSweep {
  sw_keys : keys s'; sw_ptrs : g_ptrs s' = up_refs (links s'); sw_same : g_ptrs s' = g_ptrs s; sw_links : evolve none (links s) (links s');
  sw_disk : disk_grows s s'; sw_wait : wait_stored s -> wait_stored s'; sw_init : g_init s' = g_init s; sw_pend : g_pend s' = g_pend s;
  sw_owed : Permutation (acked s' ++ owed s') (acked s ++ owed s);
  sw_sent : exists ms, g_egress s' = g_egress s ++ ms /\ (NoDup l -> wait_stored s -> Forall (sent_at s s' l) ms) }.
Lemma visits_sweep cfg l s s' : visits cfg l s s' -> keys s -> g_ptrs s = up_refs (links s) -> sweep s l s'.
Proof.
  intros V. induction V as [s|n l s s1 s2 SV V IH]; intros K P.
  - constructor; try assumption; try reflexivity; [apply evolve_refl|intros x; auto|auto|]. exists []. rewrite app_nil_r. split; [reflexivity|constructor].
  - destruct (serve_visit cfg n (with_rr s n) s1 K P SV) as (r & k & k' & ms & NE & G & U & VI & C).
    assert (K1 : keys s1) by (eapply visit_keys; [|exact VI]; exact K).
    assert (KR : keys (with_rr s n)) by exact K. assert (PR : g_ptrs (with_rr s n) = up_refs (links (with_rr s n))) by exact P.
    pose proof (visit_ptrs _ _ _ _ _ _ _ KR G VI PR) as P1. destruct (IH K1 P1) as [A1 A2 A3 A4 A5 A6 A7 A8 A9 (ms2 & A10 & A11)].
    pose proof (visit_evolve _ _ _ _ _ _ _ KR G VI) as B4. pose proof (visit_owed _ _ _ _ _ _ _ KR G VI) as B9.
    pose proof (vi_ptrs _ _ _ _ _ _ _ VI) as B3. proj. constructor; try assumption; try congruence.
    + eapply evolve_trans; [exact B4|exact A4].
    + intros x H. apply A5, (vi_disk _ _ _ _ _ _ _ VI), H.
    + intros W. apply A6, (vi_wait _ _ _ _ _ _ _ VI), W.
    + rewrite A7, (vi_init _ _ _ _ _ _ _ VI). reflexivity.
    + rewrite A8, (vi_pend _ _ _ _ _ _ _ VI). reflexivity.
    + rewrite A9, B9. reflexivity.
    + exists (ms ++ ms2). split; [rewrite A10, (vi_egress _ _ _ _ _ _ _ VI), app_assoc; reflexivity|]. intros N W. inversion N as [|? ? N1 N2]; subst. apply Forall_app. split.
      * destruct C as [->|C]; [constructor|]. eapply Forall_impl; [|exact (vi_msgs _ _ _ _ _ _ _ VI W)]. intros m M. exists n, r, k. split; [left; reflexivity|]. repeat (split; [assumption|]).
        eapply message_grows; [exact A5|exact M].
      * eapply Forall_impl; [|exact (A11 N2 (vi_wait _ _ _ _ _ _ _ VI W))]. intros m (n0 & r0 & k0 & I & X1 & X2 & X3 & X4 & X5). exists n0, r0, k0. split; [right; exact I|]. rewrite <- B3.
        split; [exact X1|]. split; [|auto]. change (get_link (with_rr s n) r0 = Some k0). rewrite <- (visit_other _ _ _ _ _ _ _ r0 VI); [exact X2|]. intros ->. apply N1. rewrite B3 in X1.
        pose proof (proj1 (NoDup_nth_error (g_ptrs s)) (ptrs_nodup s K P)) as INJ. replace n with n0; [exact I|]. symmetry. apply INJ; [apply nth_error_Some; congruence|congruence].
Qed.
Lemma next_lt s : (0 < length (g_ptrs s))%nat -> (next_rr s < length (g_ptrs s))%nat.
Proof. unfold next_rr. destruct (Nat.leb_spec (length (g_ptrs s)) (S (g_rr s))); lia. Qed.
Lemma mod_next n L : (0 < L)%nat -> (n < L)%nat -> (if Nat.leb L (S n) then 0 else S n)%nat = (S n mod L)%nat.
Proof. intros H H1. destruct (Nat.leb_spec L (S n)); [replace (S n) with L by lia; symmetry; apply Nat.mod_same; lia|symmetry; apply Nat.mod_small; lia]. Qed.
Lemma serve_rr cfg n s s' : keys s -> g_ptrs s = up_refs (links s) -> serve cfg n s = Some s' -> g_rr s' = g_rr s /\ g_ptrs s' = g_ptrs s /\ keys s' /\ g_ptrs s' = up_refs (links s').
Proof.
  intros K P H. destruct (serve_visit cfg n s s' K P H) as (r & k & k' & ms & NE & G & U & VI & _). split; [apply (vi_rr _ _ _ _ _ _ _ VI)|]. split; [apply (vi_ptrs _ _ _ _ _ _ _ VI)|].
  split; [eapply visit_keys; eassumption|eapply visit_ptrs; eassumption].
Qed.
Definition turn (s : state) (j : nat) : nat := ((next_rr s + j) mod length (g_ptrs s))%nat.
Lemma loop_visits cfg c : forall s s', keys s -> g_ptrs s = up_refs (links s) -> (c <= length (g_ptrs s))%nat -> send_loop cfg c s = Some s' ->
  exists m, (m <= c)%nat /\ visits cfg (map (turn s) (seq 0 m)) s s' /\ ((m < c)%nat -> g_poll s' = 0).
Proof.
  induction c as [|c IH]; intros s s' K P L; cbn [send_loop].
  - intros [= <-]. exists 0%nat. split; [lia|]. split; [constructor|lia].
  - set (n := next_rr s). destruct (serve cfg n (with_rr s n)) as [s1|] eqn:SV; [|discriminate]. assert (LN : (n < length (g_ptrs s))%nat) by (apply next_lt; lia).
    assert (T0 : turn s 0 = n) by (unfold turn; rewrite Nat.add_0_r; apply Nat.mod_small; exact LN).
    destruct (serve_rr cfg n (with_rr s n) s1 K P SV) as (R1 & R2 & K1 & P1). proj.
    destruct (N.eqb_spec (g_poll s1) 0) as [Z|Z].
    + intros [= <-]. exists 1%nat. split; [lia|]. split; [|intros _; exact Z]. cbn [seq map]. rewrite T0. econstructor; [exact SV|constructor].
    + intros H. destruct (IH s1 s' K1 P1) as (m & M1 & M2 & M3); [rewrite R2; lia|exact H|]. exists (S m). split; [lia|]. split; [|intros Q; apply M3; lia].
      cbn [seq map]. rewrite T0. econstructor; [exact SV|]. rewrite <- seq_shift, map_map.
      replace (map (fun x => turn s (S x)) (seq 0 m)) with (map (turn s1) (seq 0 m)); [exact M2|]. apply map_ext. intros j. unfold turn. fold n. rewrite R2.
      replace (next_rr s1) with (S n mod length (g_ptrs s))%nat; [rewrite Nat.add_mod_idemp_l by lia; f_equal; lia|]. unfold next_rr. rewrite R1, R2. symmetry. apply mod_next; lia.
Qed.
Lemma turns_nodup s m : (m <= length (g_ptrs s))%nat -> NoDup (map (turn s) (seq 0 m)).
Proof.
  intros L. apply NoDup_nth_error. intros i j Hi E. rewrite map_length, seq_length in Hi. assert (Hj : (j < m)%nat).
  { destruct (Nat.lt_ge_cases j m) as [H|H]; [exact H|]. exfalso. rewrite (proj2 (nth_error_None (map (turn s) (seq 0 m)) j)) in E by (rewrite map_length, seq_length; exact H).
    apply nth_error_None in E. rewrite map_length, seq_length in E. lia. }
  assert (NT : forall x, (x < m)%nat -> nth_error (map (turn s) (seq 0 m)) x = Some (turn s x)).
  { intros x H. apply map_nth_error. rewrite nth_error_nth' with (d := 0%nat) by (rewrite seq_length; exact H). rewrite seq_nth by exact H. reflexivity. }
  rewrite (NT i Hi), (NT j Hj) in E. injection E as E. unfold turn in E. set (M := length (g_ptrs s)) in *. assert (M0 : M <> 0%nat) by lia. set (n := next_rr s) in *.
  assert (W : forall a b, (a <= b)%nat -> (b < m)%nat -> ((n + a) mod M = (n + b) mod M)%nat -> a = b).
  { intros a b AB BM X. pose proof (Nat.div_mod (n + a) M M0) as D1. pose proof (Nat.div_mod (n + b) M M0) as D2. rewrite <- X in D2.
    set (qa := ((n + a) / M)%nat) in *. set (qb := ((n + b) / M)%nat) in *. assert ((qa = qb)%nat); [|subst; nia]. nia. }
  destruct (Nat.le_ge_cases i j) as [H|H]; [apply W; assumption|symmetry; apply W; auto].
Qed.
Lemma send_sweep cfg s s' : keys s -> g_ptrs s = up_refs (links s) -> do_send cfg s = Some s' ->
  exists l, NoDup l /\ sweep (with_poll s 250) l s' /\ exists m, l = map (turn s) (seq 0 m) /\ (m <= length (g_ptrs s))%nat /\ visits cfg l (with_poll s 250) s' /\ ((m < length (g_ptrs s))%nat -> g_poll s' = 0).
Proof.
  intros K P H. unfold do_send in H. destruct (loop_visits cfg _ (with_poll s 250) s' K P (le_n _) H) as (m & M1 & M2 & M3). exists (map (turn s) (seq 0 m)).
  split; [apply turns_nodup; exact M1|]. split; [eapply visits_sweep; eassumption|]. exists m. auto.
Qed.
