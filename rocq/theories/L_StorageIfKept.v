(** C52: what leaves the disk, for every environment; what Send finds. *)
From Coq Require Import PeanoNat NArith List Bool Lia Permutation ZifyBool ZifyN.
From Verif Require Import Base M_CustodyId M_StorageIf S_StorageIf L_StorageIf L_StorageIfInv L_StorageIfSend L_StorageIfAll L_StorageIfDisk.
Import ListNotations.
Open Scope N_scope.

Definition ws (d : store) : Prop := incl (d_wait d) (d_ent d).
(** Only the bundles in [X] leave. *)
Record loses (X : N -> Prop) (d d' : store) : Prop := mkLoses { ls_ent : forall c b, In (c, b) (d_ent d) -> In (c, b) (d_ent d') \/ X c; ls_ws : ws d -> ws d' }.
Lemma loses_refl X d : loses X d d. Proof. constructor; auto. Qed.
Lemma loses_trans X a b c : loses X a b -> loses X b c -> loses X a c.
Proof. intros [A1 A2] [B1 B2]. constructor; [|auto]. intros x y H. destruct (A1 x y H) as [H1|H1]; [auto|auto]. Qed.
Lemma loses_weaken (X Y : N -> Prop) a b : (forall c, X c -> Y c) -> loses X a b -> loses Y a b.
Proof. intros H [A1 A2]. constructor; [|exact A2]. intros x y I. destruct (A1 x y I); auto. Qed.
Definition nothing (c : N) : Prop := False.
Lemma nothing_any X a b : loses nothing a b -> loses X a b. Proof. apply loses_weaken. intros c []. Qed.
Lemma loses_same X d d' : d_ent d' = d_ent d -> d_wait d' = d_wait d -> loses X d d'.
Proof. intros A B. constructor; [rewrite A; auto|unfold ws; rewrite A, B; auto]. Qed.
Lemma loses_any_ack X m s : loses X (g_disk s) (g_disk (ack_ingress m s)).
Proof. destruct (acked_more m s) as (_ & E). rewrite E. apply loses_refl. Qed.
Lemma write_one_loses b s s' ok : write_one b s = Some (s', ok) -> loses nothing (g_disk s) (g_disk s').
Proof. intros H. destruct (write_one_grows _ _ _ _ H) as (A & B). constructor; [intros c x I; left; exact (A _ I)|exact B]. Qed.
Lemma write_one_id b s s' ok : write_one b s = Some (s', ok) -> ok = true -> ~ In (fst (alloc s)) (map fst (d_ent (g_disk s))).
Proof.
  unfold write_one. destruct (alloc s) as [i s1] eqn:A. destruct (bit s1) as [w s2] eqn:B. destruct (alloc_ent _ _ _ A) as (E1 & _). rewrite (bit_disk _ _ _ B). destruct w; cbn [negb]; [|intros [= <- <-]; discriminate].
  destruct (find_b i (d_ent (g_disk s1))) eqn:F; [discriminate|]. intros _ _. rewrite E1 in F. cbn [fst]. apply find_b_none. exact F.
Qed.
Lemma write_parts_loses l : forall go s s', write_parts go l s = Some s' -> loses nothing (g_disk s) (g_disk s').
Proof.
  induction l as [|b l IH]; intros go s s'; cbn [write_parts]; [intros [= <-]; apply loses_refl|]. destruct go.
  - destruct (write_one b s) as [[s1 ok]|] eqn:W; [|discriminate]. intros H. eapply loses_trans; [eapply write_one_loses; exact W|exact (IH _ _ _ H)].
  - intros H. destruct (alloc s) as [i s1] eqn:A. cbn [snd] in H. destruct (alloc_ent _ _ _ A) as (E1 & E2). eapply loses_trans; [apply loses_same; [exact E1|exact E2]|exact (IH _ _ _ H)].
Qed.
Lemma write_custody_loses m l : forall s s' ids, write_custody m l s = Some (s', ids) -> loses nothing (g_disk s) (g_disk s') /\ forall i, In i ids -> ~ In i (map fst (d_ent (g_disk s))).
Proof.
  induction l as [|b l IH]; intros s s' ids; cbn [write_custody]; [intros [= <- <-]; split; [apply loses_refl|intros i []]|].
  destruct (write_one (masked m b) s) as [[s1 ok]|] eqn:W; [|discriminate]. pose proof (write_one_loses _ _ _ _ W) as L. pose proof (write_one_id _ _ _ _ W) as N. destruct ok; [|intros [= <- <-]; split; [exact L|intros i []]].
  destruct (write_custody m l s1) as [[s2 ids2]|] eqn:C; [|discriminate]. intros [= <- <-]. destruct (IH _ _ _ C) as (L2 & N2). split; [eapply loses_trans; eassumption|]. intros i [<-|I]; [apply N; reflexivity|].
  intros X. apply (N2 i I). apply in_fst in X as (y & X). apply in_fst. exists y. destruct (ls_ent _ _ _ L _ _ X) as [Y|[]]. exact Y.
Qed.
Lemma remove_any_loses c d : loses (eq c) d (remove_any c d).
Proof.
  constructor; [intros x b I; destruct (N.eq_dec x c) as [->|N]; [auto|left; apply in_erase; auto]|]. unfold ws. cbn [remove_any d_ent d_wait]. intros H [x b] I. apply in_erase in I as (I & N). apply in_erase. split; [apply H; exact I|exact N].
Qed.
Lemma remove_all_loses ids : forall d, loses (fun c => In c ids) d (remove_all ids d).
Proof.
  induction ids as [|i ids IH]; intros d; cbn [remove_all]; [apply loses_refl|]. eapply loses_trans; [|eapply loses_weaken; [|apply IH]; intros c I; right; exact I].
  eapply loses_weaken; [|apply (loses_trans (eq i) d (free i d)); [apply loses_same; reflexivity|apply remove_any_loses]]. intros c <-. left. reflexivity.
Qed.
Lemma signalled_loses c d : loses (eq c) d (signalled c d).
Proof. unfold signalled. destruct (mem c (d_start d)); (eapply loses_trans; [|apply remove_any_loses]); apply loses_same; reflexivity. Qed.
Lemma acs_loses l : forall d d', acs l d = Some d' -> loses (fun c => exists r, In r l /\ fst r <= c <= snd r) d d'.
Proof.
  induction l as [|r l IH]; intros d d'; cbn [acs]; [intros [= <-]; apply loses_refl|]. destruct (snd r =? U64MAX); [discriminate|]. intros H. apply IH in H. eapply loses_trans; [|eapply loses_weaken; [|exact H]; intros c (q & I & X); exists q; split; [right; exact I|exact X]].
  apply (loses_trans _ d (free_range r d)); [apply loses_same; reflexivity|].
  assert (FL : forall k d0, (forall c, In c k -> fst r <= c <= snd r) -> loses (fun c => exists q, In q (r :: l) /\ fst q <= c <= snd q) d0 (fold_left (fun d cid => signalled cid d) k d0)).
  { induction k as [|c k IHk]; intros d0 X; cbn [fold_left]; [apply loses_refl|]. eapply loses_trans; [eapply loses_weaken; [|apply signalled_loses]|apply IHk; intros y Y; apply X; right; exact Y].
    intros y <-. exists r. split; [left; reflexivity|apply X; left; reflexivity]. }
  apply FL. intros c I. apply filter_In in I as (_ & I). unfold in_range in I. lia.
Qed.
Lemma write_loses b c sp m s s' : write b c sp m s = Some s' -> loses (fun x => sp = true /\ b_bad b = false /\ signals c x) (g_disk s) (g_disk s').
Proof.
  unfold write. destruct (b_bad b); [intros [= <-]; apply loses_refl|].
  assert (WH : match write_one (masked m b) s with None => None | Some (s1, _) => Some s1 end = Some s' -> loses (fun x => sp = true /\ false = false /\ signals c x) (g_disk s) (g_disk s')).
  { destruct (write_one (masked m b) s) as [[s1 ok]|] eqn:W; [|discriminate]. intros [= <-]. apply nothing_any. eapply write_one_loses. exact W. }
  destruct sp; cbn [negb]; [|exact WH]. destruct c as [|l|l g|l|[cid|]|]; cbn [signals].
  - exact WH.
  - intros H. apply nothing_any. eapply write_parts_loses. exact H.
  - destruct (bit s) as [rd s0] eqn:B0. pose proof (bit_disk _ _ _ B0) as D0. destruct (write_custody m (if rd then l else []) s0) as [[s1 ids]|] eqn:WC; [|discriminate]. destruct (write_custody_loses _ _ _ _ _ WC) as (L1 & N1). rewrite D0 in L1, N1.
    destruct (bit s1) as [mk s2] eqn:B2. pose proof (bit_disk _ _ _ B2) as D2.
    assert (R2 : loses (fun x => true = true /\ false = false /\ False) (g_disk s) (g_disk s2)) by (rewrite D2; apply nothing_any; exact L1).
    destruct mk; [|intros [= <-]; exact R2]. destruct g as [g|]; [|intros [= <-]; exact R2]. destruct (write_one g s2) as [[s3 ok]|] eqn:W3; [|discriminate]. pose proof (write_one_loses _ _ _ _ W3) as L3.
    assert (R3 : loses (fun x => true = true /\ false = false /\ False) (g_disk s) (g_disk s3)) by (eapply loses_trans; [exact R2|apply nothing_any; exact L3]).
    destruct ok; intros [= <-]; [exact R3|]. proj. destruct R3 as [RA RB]. destruct (remove_all_loses ids (g_disk s3)) as [RC RD]. constructor; [|auto]. intros x y I. destruct (RA x y I) as [J|J]; [|auto].
    destruct (RC x y J) as [Q|Q]; [auto|]. exfalso. apply (N1 x Q). apply in_fst. eauto.
  - destruct (acs l (g_disk s)) as [d|] eqn:A; [|discriminate]. intros [= <-]. proj. eapply loses_weaken; [|eapply acs_loses; exact A]. auto.
  - intros [= <-]. proj. destruct (find_b cid (d_ent (g_disk s))).
    + eapply loses_weaken; [|apply (loses_trans (eq cid) _ (free cid (g_disk s))); [apply loses_same; reflexivity|apply signalled_loses]]. intros x <-. auto.
    + apply loses_same; reflexivity.
  - intros [= <-]. apply loses_refl.
  - intros [= <-]. apply loses_refl.
Qed.
Lemma write_plain_loses b s s' : write b Whole false None s = Some s' -> loses nothing (g_disk s) (g_disk s').
Proof. intros H. eapply loses_weaken; [|eapply write_loses; exact H]. intros c (X & _). discriminate. Qed.
Lemma dump_loses idx q : forall s s', dump idx q s = Some s' -> loses nothing (g_disk s) (g_disk s').
Proof.
  induction q as [|x q IH]; intros s s'; cbn [dump]; [intros [= <-]; apply loses_refl|]. destruct (write (q_b x) Whole false None s) as [s1|] eqn:W; [|discriminate]. intros H.
  eapply loses_trans; [eapply write_plain_loses; exact W|]. eapply loses_trans; [apply loses_any_ack|exact (IH _ _ H)].
Qed.
Lemma put_disk s r k : g_disk (put_link s r k) = g_disk s. Proof. destruct r; reflexivity. Qed.
Lemma link_down_loses r s s' : link_down r s = Some s' -> loses nothing (g_disk s) (g_disk s').
Proof.
  unfold link_down. destruct (get_link s r) as [k|]; [|discriminate]. destruct (k_up k); [|intros [= <-]; apply loses_refl]. destruct (dump _ _ _) as [s1|] eqn:D; [|discriminate]. intros [= <-]. apply dump_loses in D. rewrite put_disk in D. exact D.
Qed.
Lemma ack_cut_loses x b r s s' : ack_cut x b r s = Some s' -> loses nothing (g_disk s) (g_disk s').
Proof.
  unfold ack_cut. destruct (get_link s r) as [k|]; [|discriminate]. destruct (find_id (x_cid x) (k_acks k)); [|intros [= <-]; apply loses_refl].
  destruct (if is_error (x_err x) then _ else _) as [s1|] eqn:E; [|discriminate]. set (m := mkA _ _ _). destruct (get_link (ack_ingress m s1) r); [|discriminate]. intros [= <-]. rewrite put_disk.
  eapply loses_trans; [|apply (loses_any_ack nothing m s1)]. destruct (is_error (x_err x)); [|injection E as <-; apply loses_refl]. destruct (write b Whole false None s) as [s0|] eqn:W; [|discriminate]. apply write_plain_loses in W.
  destruct (is_down (x_err x)); [eapply loses_trans; [exact W|eapply link_down_loses; exact E]|injection E as <-; exact W].
Qed.
Lemma ack_read_loses x r s s' : keys s -> ack_read x r s = Some s' -> loses (fun c => x_err x = NoError /\ x_delete x = true /\ x_cid x = c /\ at_egress s r c) (g_disk s) (g_disk s').
Proof.
  intros K. unfold ack_read. destruct (get_link s r) as [k|] eqn:G; [|discriminate].
  match goal with |- match ?e with None => None | Some s1 => _ end = _ -> _ => destruct e as [s2|] eqn:E0; [|discriminate] end. intros [= <-]. proj.
  apply (loses_trans _ _ (g_disk s2)); [|apply loses_same; reflexivity].
  destruct (find_id (x_cid x) (k_open k)) as [z|] eqn:F; [|injection E0 as <-; apply loses_refl].
  match type of E0 with match ?e with None => None | Some s1 => _ end = _ => destruct e as [s1|] eqn:E1; [|discriminate] end.
  destruct (get_link s1 r) as [k1|]; [|discriminate]. injection E0 as <-. rewrite put_disk.
  destruct (is_error (x_err x)) eqn:ER.
  - destruct (if is_down (x_err x) then link_down r s else Some s) as [s0|] eqn:D; [|discriminate]. destruct (give_back (x_cid x) (g_disk s0)) as [d|] eqn:GB; [|discriminate]. destruct (_ && _); [discriminate|]. injection E1 as <-. proj.
    apply nothing_any. apply (loses_trans nothing _ (g_disk s0)); [destruct (is_down (x_err x)); [eapply link_down_loses; exact D|injection D as <-; apply loses_refl]|].
    apply (loses_trans nothing _ d); [|apply loses_same; reflexivity]. unfold give_back in GB. destruct (find_b (x_cid x) (d_ent (g_disk s0))) as [b|] eqn:FB; [|injection GB as <-; apply loses_refl].
    destruct (find_b (x_cid x) (d_wait (g_disk s0))); [discriminate|]. injection GB as <-. constructor; [auto|]. unfold ws. cbn [d_wait d_ent]. intros H y [<-|Y]; [apply find_b_in; exact FB|exact (H y Y)].
  - destruct (x_delete x).
    + destruct (remove_read (x_cid x) (free (x_cid x) (g_disk s))) as [d|] eqn:RR; [|discriminate]. injection E1 as <-. proj. unfold remove_read in RR. cbn [free d_ent d_wait d_used d_time d_start d_broken] in RR.
      destruct (find_b (x_cid x) (d_ent (g_disk s))); [|injection RR as <-; apply loses_same; reflexivity]. destruct (find_b (x_cid x) (d_wait (g_disk s))) eqn:FW; [discriminate|]. injection RR as <-. apply find_b_none in FW. constructor.
      * intros c b0 I. cbn [d_ent]. destruct (N.eq_dec c (x_cid x)) as [->|N]; [right|left; apply in_erase; auto]. split; [destruct (x_err x); [reflexivity|discriminate|discriminate]|]. split; [reflexivity|]. split; [reflexivity|]. exists k. split; [apply get_in; exact G|]. apply find_id_in in F. apply in_fst. eauto.
      * unfold ws. cbn [d_wait d_ent]. intros H [c b0] I. apply in_erase. split; [apply H; exact I|]. intros ->. apply FW, in_fst. eauto.
    + injection E1 as <-. apply nothing_any. destruct (mem _ _); [|apply loses_refl]. destruct (find_b _ _); [|apply loses_refl]. destruct (has_timer _ _); [apply loses_refl|]. apply loses_same; reflexivity.
Qed.
Lemma ack_link_names x s r : ack_link x s = Some (Some r) -> names_link x r.
Proof.
  unfold ack_link. destruct (N.eqb_spec (x_idx x) U64MAX) as [E|E].
  - destruct (opp_find (x_hop x) (g_opp s)); [|discriminate]. intros [= <-]. split; [exact E|reflexivity].
  - destruct (vec_ref s (x_idx x)) as [r0|] eqn:V; [|discriminate]. intros [= <-]. destruct (vec_ref_get _ _ _ V) as (-> & _). split; [lia|exact E].
Qed.
Lemma handle_loses cfg e s s' : books s -> handle cfg e s = Some s' -> loses (ends s e) (g_disk s) (g_disk s').
Proof.
  intros B H. pose proof (bk_keys _ B) as K. destruct e; cbn [handle ends] in *.
  - unfold on_telemetry in H. destruct (negb _); [injection H as <-; apply loses_refl|]. destruct (telem _ _ _); [|discriminate]. injection H as <-. apply loses_same; reflexivity.
  - unfold on_ack in H. destruct (g_init s); cbn [negb] in H; [|injection H as <-; apply loses_refl]. destruct (ack_link x s) as [[r|]|] eqn:A; [| |discriminate]; [|injection H as <-; apply loses_refl].
    destruct (x_cut x) eqn:CT; [apply nothing_any; eapply ack_cut_loses; exact H|]. eapply loses_weaken; [|eapply ack_read_loses; [exact K|exact H]]. intros c (X1 & X2 & X3 & X4). split; [exact CT|]. split; [exact X1|]. split; [exact X2|]. split; [exact X3|]. exists r. split; [eapply ack_link_names; exact A|exact X4].
  - apply nothing_any. unfold on_failed in H. destruct (write b Whole false None s) as [s1|] eqn:W; [|discriminate]. apply write_plain_loses in W. destruct (g_init s1); [|injection H as <-; exact W]. destruct (vec_ref s1 i); [|discriminate].
    eapply loses_trans; [exact W|eapply link_down_loses; exact H].
  - injection H as <-. unfold add_opp. destruct (opp_find n (g_opp s)); [apply loses_refl|apply loses_same; reflexivity].
  - injection H as <-. unfold remove_opp. destruct (opp_find n (g_opp s)); [apply loses_same; reflexivity|apply loses_refl].
  - unfold on_store in H. destruct (if s_dont m then _ else None) as [[r k]|] eqn:E; [injection H as <-; rewrite put_disk; apply loses_refl|]. destruct (write b c (s_special m) (Some (s_dest m)) s) as [s1|] eqn:W; [|discriminate]. injection H as <-.
    eapply loses_trans; [eapply write_loses; exact W|apply loses_any_ack].
  - unfold on_up in H. destruct (g_init s); [|injection H as <-; apply loses_refl]. destruct (vec_ref s i) as [r|]; [|injection H as <-; apply loses_refl]. destruct (get_link s r) as [k|]; [|discriminate]. injection H as <-. destruct (k_up k); [apply loses_refl|].
    change (g_disk (repopulate ?z)) with (g_disk z). rewrite put_disk. apply loses_refl.
  - unfold on_down in H. destruct (g_init s); [|injection H as <-; apply loses_refl]. destruct (vec_ref s i) as [r|]; [|injection H as <-; apply loses_refl]. apply nothing_any. eapply link_down_loses. exact H.
  - apply nothing_any. clear -H. revert s s' H. induction l as [|b l IH]; intros s s' H; unfold on_signals in H; [injection H as <-; apply loses_refl|]. destruct (write_one b s) as [[s1 ok]|] eqn:W; [|discriminate].
    eapply loses_trans; [eapply write_one_loses; exact W|]. apply IH. exact H.
  - apply nothing_any. unfold on_timer in H. destruct (has_timer cid (d_time (g_disk s))); [|injection H as <-; apply loses_refl]. unfold give_back in H. cbn [cancel d_ent d_wait d_used d_time d_start d_broken] in H.
    destruct (find_b cid (d_ent (g_disk s))) as [b|] eqn:F; [|injection H as <-; apply loses_same; reflexivity]. destruct (find_b cid (d_wait (g_disk s))); [discriminate|]. injection H as <-. proj. constructor; [auto|]. unfold ws. cbn [d_wait d_ent].
    intros X y [<-|Y]; [apply find_b_in; exact F|exact (X y Y)].
  - unfold on_expired in H. destruct (find_b cid (d_wait (g_disk s))) as [b|] eqn:F; [|injection H as <-; apply loses_refl]. destruct (if b_cust b then _ else Some s) as [s1|] eqn:E; [|discriminate]. injection H as <-. proj.
    apply find_b_in in F. assert (WT : waiting s cid) by (unfold waiting; apply in_fst; eauto). apply (loses_weaken (eq cid)); [intros c <-; split; [reflexivity|exact WT]|].
    apply (loses_trans _ _ (g_disk s1)); [|apply (loses_trans _ _ (free cid (g_disk s1))); [apply loses_same; reflexivity|apply remove_any_loses]]. apply nothing_any. destruct (b_cust b); [|injection E as <-; apply loses_refl]. cbv zeta in E.
    set (s0 := with_disk s _) in E. assert (L0 : loses nothing (g_disk s) (g_disk s0)) by (apply loses_same; reflexivity). destruct report as [p|]; [|injection E as <-; exact L0]. destruct (write_one p s0) as [[s2 ok]|] eqn:W; [|discriminate]. injection E as <-.
    eapply loses_trans; [exact L0|eapply write_one_loses; exact W].
  - destruct B as [A P C]. destruct (send_sweep cfg s s' A P H) as (l & _ & [S1 S2 S3 S4 S5 S6 S7 S8 S9 S10] & _). constructor; [intros c b I; left; exact (S5 _ I)|exact S6].
Qed.
Lemma step_loses cfg x s s' : books s -> step cfg x s = Some s' -> loses (ends s (l_event x)) (g_disk s) (g_disk s').
Proof.
  intros [A B C] H. assert (BB : books (with_oracle s (l_ids x) (l_bits x) (l_reads x))) by (constructor; assumption). pose proof (handle_loses cfg _ _ _ BB H) as L. eapply loses_weaken; [|exact L].
  intros c. destruct (l_event x); cbn [ends]; auto.
Qed.
