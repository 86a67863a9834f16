(** C55: what a step of the storage interface does to what egress has. *)
From Coq Require Import PeanoNat NArith List Bool Lia Permutation ZifyBool ZifyN.
From Verif Require Import Base M_CustodyId M_StorageIf S_StorageIf L_StorageIf L_StorageIfInv L_StorageIfSend L_StorageIfAll L_StorageIfDisk L_StorageIfHonest L_StorageIfKept.
Import ListNotations.
Open Scope N_scope.

Lemma ref_dec (a b : ref) : {a = b} + {a <> b}.
Proof. decide equality; [apply Nat.eq_dec|apply N.eq_dec]. Qed.
(** ** Nothing new under an id that egress has *)
Definition fresh (s s' : state) : Prop := forall c b, In (c, b) (d_ent (g_disk s')) -> In (c, b) (d_ent (g_disk s)) \/ ~ In c (open_ids s).
Lemma fresh_refl s : fresh s s. Proof. intros c b. auto. Qed.
Lemma fresh_trans s s1 s2 : incl (open_ids s) (open_ids s1) -> fresh s s1 -> fresh s1 s2 -> fresh s s2.
Proof. intros O A B c b H. destruct (B c b H) as [X|X]; [exact (A c b X)|]. right. intros Y. apply X, O, Y. Qed.
Lemma fresh_less s s' : incl (d_ent (g_disk s')) (d_ent (g_disk s)) -> fresh s s'.
Proof. intros H c b X. left. apply H, X. Qed.
Lemma fresh_same s s' : d_ent (g_disk s') = d_ent (g_disk s) -> fresh s s'.
Proof. intros E. apply fresh_less. rewrite E. apply incl_refl. Qed.
Lemma od_open s s' : only_disk s s' -> open_ids s' = open_ids s. Proof. intros O. apply da_open, od_da, O. Qed.
Lemma fresh_od s s1 s2 : only_disk s s1 -> fresh s s1 -> fresh s1 s2 -> fresh s s2.
Proof. intros O. apply fresh_trans. rewrite (od_open _ _ O). apply incl_refl. Qed.
Lemma write_one_fresh b s s' ok : inv s -> write_one b s = Some (s', ok) -> fresh s s'.
Proof.
  intros I. unfold write_one. destruct (alloc s) as [i s1] eqn:A. destruct (alloc_inv s i s1 I A) as (I1 & N1 & N2 & _ & _ & E1 & _). destruct (bit s1) as [o s2] eqn:B. destruct (bit_inv s1 o s2 I1 B) as (_ & D2).
  destruct o; cbn [negb].
  - destruct (find_b i (d_ent (g_disk s2))); [discriminate|]. intros [= <- <-] c x. proj. cbn [d_ent]. rewrite D2, E1. intros [[= <- <-]|H]; auto.
  - intros [= <- <-]. apply fresh_same. rewrite D2, E1. reflexivity.
Qed.
Lemma write_one_next b s s' ok : inv s -> write_one b s = Some (s', ok) -> inv s' /\ only_disk s s' /\ fresh s s'.
Proof. intros I E. destruct (write_one_inv b s I) as (s1 & ok1 & E1 & W & _). rewrite E in E1. injection E1 as <- <-. split; [apply W|]. split; [apply W|eapply write_one_fresh; eassumption]. Qed.
Lemma write_parts_fresh l : forall go s s', inv s -> write_parts go l s = Some s' -> fresh s s'.
Proof.
  induction l as [|b l IH]; intros go s s' I; cbn [write_parts]; [intros [= <-]; apply fresh_refl|]. destruct go.
  - destruct (write_one b s) as [[s1 ok]|] eqn:W; [|discriminate]. destruct (write_one_next _ _ _ _ I W) as (I1 & O & F). intros H. eapply fresh_od; [exact O|exact F|]. eapply IH; eassumption.
  - destruct (alloc s) as [i s1] eqn:A. cbn [snd]. destruct (alloc_inv s i s1 I A) as (I1 & _ & _ & _ & _ & E1 & _). intros H. eapply fresh_od; [eapply alloc_od; exact A|apply fresh_same; exact E1|]. eapply IH; eassumption.
Qed.
Lemma write_custody_fresh m l : forall s s' ids, inv s -> write_custody m l s = Some (s', ids) -> fresh s s'.
Proof.
  induction l as [|b l IH]; intros s s' ids I; cbn [write_custody]; [intros [= <- _]; apply fresh_refl|]. destruct (write_one (masked m b) s) as [[s1 ok]|] eqn:W; [|discriminate].
  destruct (write_one_next _ _ _ _ I W) as (I1 & O & F). destruct ok; [|intros [= <- _]; exact F]. destruct (write_custody m l s1) as [[s2 r]|] eqn:C; [|discriminate]. intros [= <- _].
  eapply fresh_od; [exact O|exact F|]. eapply IH; eassumption.
Qed.
Lemma remove_any_less c d : incl (d_ent (remove_any c d)) (d_ent d).
Proof. cbn [remove_any d_ent]. unfold erase_b. intros x H. apply filter_In in H. apply H. Qed.
Lemma remove_all_less ids : forall d, incl (d_ent (remove_all ids d)) (d_ent d).
Proof. induction ids as [|i ids IH]; intros d; cbn [remove_all]; [apply incl_refl|]. eapply incl_tran; [apply IH|]. eapply incl_tran; [apply remove_any_less|]. apply incl_refl. Qed.
Lemma signalled_less c d : incl (d_ent (signalled c d)) (d_ent d).
Proof. unfold signalled. eapply incl_tran; [apply remove_any_less|]. destruct (mem c (d_start d)); apply incl_refl. Qed.
Lemma fold_less l : forall d, incl (d_ent (fold_left (fun d cid => signalled cid d) l d)) (d_ent d).
Proof. induction l as [|c l IH]; intros d; cbn [fold_left]; [apply incl_refl|]. eapply incl_tran; [apply IH|apply signalled_less]. Qed.
Lemma acs_less l : forall d d', acs l d = Some d' -> incl (d_ent d') (d_ent d).
Proof.
  induction l as [|r l IH]; intros d d'; cbn [acs]; [intros [= <-]; apply incl_refl|]. destruct (snd r =? U64MAX); [discriminate|]. intros H. eapply incl_tran; [exact (IH _ _ H)|]. apply (fold_less _ (free_range r d)).
Qed.
Lemma write_fresh b c sp m s s' : inv s -> write b c sp m s = Some s' -> fresh s s'.
Proof.
  intros I. unfold write. assert (WH : forall s', match write_one (masked m b) s with None => None | Some (s1, _) => Some s1 end = Some s' -> fresh s s').
  { intros s0. destruct (write_one (masked m b) s) as [[s1 ok]|] eqn:W; [|discriminate]. intros [= <-]. eapply write_one_fresh; eassumption. }
  destruct (b_bad b); [intros [= <-]; apply fresh_refl|]. destruct sp; cbn [negb]; [|apply WH]. destruct c as [|l|l g|l|[cid|]|].
  - apply WH.
  - apply write_parts_fresh. exact I.
  - destruct (bit s) as [rd s0] eqn:B0. destruct (bit_inv s rd s0 I B0) as (I0 & D0). destruct (write_custody m (if rd then l else []) s0) as [[s1 ids]|] eqn:C; [|discriminate].
    destruct (write_custody_inv m (if rd then l else []) s0 I0) as (s1' & ids' & C' & W & _). rewrite C in C'. injection C' as <- <-.
    assert (F1 : fresh s s1) by (eapply fresh_od; [eapply bit_od; exact B0|apply fresh_same; rewrite D0; reflexivity|eapply write_custody_fresh; eassumption]).
    destruct (bit s1) as [mk s2] eqn:B2. destruct (bit_inv s1 mk s2 (wr_inv _ _ W) B2) as (I2 & D2). assert (O2 : only_disk s s2) by (eapply od_trans; [eapply bit_od; exact B0|eapply od_trans; [apply W|eapply bit_od; exact B2]]).
    assert (F2 : fresh s s2) by (intros c x; rewrite D2; apply F1). destruct mk; [|intros [= <-]; exact F2]. destruct g as [g|]; [|intros [= <-]; exact F2].
    destruct (write_one g s2) as [[s3 ok]|] eqn:W3; [|discriminate]. destruct (write_one_next _ _ _ _ I2 W3) as (_ & O3 & F3). pose proof (fresh_od _ _ _ O2 F2 F3) as F. destruct ok; intros [= <-]; [exact F|].
    intros c x. proj. intros H. apply remove_all_less in H. exact (F c x H).
  - destruct (acs l (g_disk s)) as [d|] eqn:A; [|discriminate]. intros [= <-]. apply fresh_less. proj. eapply acs_less; exact A.
  - intros [= <-]. apply fresh_less. proj. destruct (find_b cid (d_ent (g_disk s))); [apply (signalled_less cid (free cid (g_disk s)))|apply incl_refl].
  - intros [= <-]. apply fresh_refl.
  - intros [= <-]. apply fresh_refl.
Qed.
Lemma ack_fresh m s : g_disk (ack_ingress m s) = g_disk s. Proof. apply acked_more. Qed.
Lemma write_plain_next b s s' : inv s -> write b Whole false None s = Some s' -> inv s' /\ only_disk s s' /\ fresh s s'.
Proof. intros I E. destruct (write_plain b s I) as (s1 & E1 & W). rewrite E in E1. injection E1 as <-. split; [apply W|]. split; [apply W|eapply write_fresh; eassumption]. Qed.
Lemma dump_fresh idx q : forall s s', inv s -> dump idx q s = Some s' -> fresh s s'.
Proof.
  induction q as [|x q IH]; intros s s' I; cbn [dump]; [intros [= <-]; apply fresh_refl|]. destruct (write (q_b x) Whole false None s) as [s1|] eqn:W; [|discriminate]. destruct (write_plain_next _ _ _ I W) as (I1 & O & F).
  intros H. apply (fresh_od s s1 s' O F). intros c b X. destruct (IH _ _ (ack_inv _ _ I1) H c b X) as [Y|Y]; [left; rewrite ack_fresh in Y; exact Y|right]. rewrite (da_open _ _ (ack_ingress_da _ s1)) in Y. exact Y.
Qed.

(** ** Steps that leave what egress has alone *)
Definition core (k : link) : list (N * N) * N * N * list (eid * bool) := (k_open k, k_idx k, k_hop k, k_dests k).
Record quiet (s s' : state) : Prop := mkQuiet { qt_egress : g_egress s' = g_egress s; qt_core : forall r, option_map core (get_link s' r) = option_map core (get_link s r);
  qt_open : open_ids s' = open_ids s; qt_fresh : fresh s s'; qt_init : g_init s' = g_init s; qt_len : length (g_vec s') = length (g_vec s) }.
Lemma quiet_refl s : quiet s s. Proof. constructor; try reflexivity. apply fresh_refl. Qed.
Lemma quiet_trans a b c : quiet a b -> quiet b c -> quiet a c.
Proof.
  intros [A1 A2 A3 A4 A5 A6] [B1 B2 B3 B4 B5 B6]. constructor; [congruence|intros r; rewrite B2; apply A2|congruence| |congruence|congruence]. eapply fresh_trans; [|exact A4|exact B4]. rewrite A3. apply incl_refl.
Qed.
Lemma quiet_da s s' : disk_acks s s' -> fresh s s' -> quiet s s'.
Proof. intros D F. constructor; [apply D|intros r; rewrite (da_get _ _ r D); reflexivity|apply da_open; exact D|exact F|apply D|rewrite (da_vec _ _ D); reflexivity]. Qed.
Lemma get_put_other s r r' k : r' <> r -> get_link (put_link s r k) r' = get_link s r'.
Proof. apply L_StorageIfSend.get_put_other. Qed.
Lemma put_len s r k : length (g_vec (put_link s r k)) = length (g_vec s).
Proof. destruct r; cbn [put_link]; proj; [apply set_nth_length|reflexivity]. Qed.
Lemma quiet_put s r k k' : keys s -> get_link s r = Some k -> core k' = core k -> quiet s (put_link s r k').
Proof.
  intros K G E. destruct (put_fields s r k') as (Q1 & Q2 & Q3 & Q4 & Q5 & Q6 & Q7 & _). constructor; [exact Q7| |apply (open_put_same s r k); [exact K|exact G|injection E; auto]|apply fresh_same; rewrite Q5; reflexivity|exact Q3|apply put_len].
  intros r'. destruct (ref_dec r' r) as [->|N]; [rewrite (get_put s r k k' K G), G; cbn [option_map]; rewrite E; reflexivity|rewrite get_put_other by exact N; reflexivity].
Qed.
Lemma quiet_repop s : quiet s (repopulate s). Proof. constructor; try reflexivity. apply fresh_same; reflexivity. Qed.
Lemma link_down_quiet r s s' : inv s -> link_down r s = Some s' -> quiet s s' /\ inv s'.
Proof.
  intros I H. assert (IN : inv s').
  { destruct (get_link s r) as [k|] eqn:G; [|unfold link_down in H; rewrite G in H; discriminate]. destruct (link_down_inv r s k I G) as (s1 & E & I1). congruence. }
  split; [|exact IN]. unfold link_down in H. destruct (get_link s r) as [k|] eqn:G; [|discriminate]. destruct (k_up k); [|injection H as <-; apply quiet_refl].
  destruct (dump _ _ _) as [s1|] eqn:D; [|discriminate]. injection H as <-. eapply quiet_trans; [apply (quiet_put s r k (set_queue [] (set_up false k))); [apply I|exact G|reflexivity]|].
  eapply quiet_trans; [|apply quiet_repop]. apply quiet_da; [eapply dump_da; exact D|]. eapply dump_fresh; [|exact D]. eapply put_inv; [exact G|reflexivity|exact I].
Qed.
Lemma quiet_ack m s : quiet s (ack_ingress m s).
Proof. apply quiet_da; [apply ack_ingress_da|apply fresh_same; rewrite ack_fresh; reflexivity]. Qed.
Lemma keys_quiet_put s r k k' s' : keys s -> get_link s r = Some k -> core k' = core k -> s' = put_link s r k' -> quiet s s'.
Proof. intros K G E ->. eapply quiet_put; eassumption. Qed.
Lemma ack_cut_quiet x b r s s' : inv s -> ack_cut x b r s = Some s' -> quiet s s'.
Proof.
  intros I. unfold ack_cut. destruct (get_link s r) as [k|] eqn:G; [|discriminate]. destruct (find_id (x_cid x) (k_acks k)) as [z|]; [|intros [= <-]; apply quiet_refl].
  destruct (if is_error (x_err x) then _ else _) as [s1|] eqn:E; [|discriminate].
  assert (Q : quiet s s1 /\ inv s1).
  { destruct (is_error (x_err x)); [|injection E as <-; split; [apply quiet_refl|exact I]]. destruct (write b Whole false None s) as [s0|] eqn:W; [|discriminate]. destruct (write_plain_next _ _ _ I W) as (I0 & O & F).
    pose proof (quiet_da _ _ (od_da _ _ O) F) as Q0. destruct (is_down (x_err x)); [|injection E as <-; auto]. destruct (link_down_quiet _ _ _ I0 E) as (Q1 & I1). split; [eapply quiet_trans; eassumption|exact I1]. }
  destruct Q as (Q & I1). cbv zeta. set (s2 := ack_ingress _ s1). destruct (get_link s2 r) as [k2|] eqn:G2; [|discriminate]. intros [= <-]. eapply quiet_trans; [exact Q|]. eapply quiet_trans; [apply quiet_ack|]. fold s2.
  eapply quiet_put; [|exact G2|reflexivity]. unfold s2. rewrite (da_keys _ _ (ack_ingress_da _ s1)). apply I1.
Qed.
(** An answer for a stored bundle takes its id from the link. *)
Record closes (c : N) (r : ref) (s s' : state) : Prop := mkCloses { cl_egress : g_egress s' = g_egress s; cl_other : forall r', r' <> r -> option_map core (get_link s' r') = option_map core (get_link s r');
  cl_link : exists k k', get_link s r = Some k /\ get_link s' r = Some k' /\ k_open k' = erase_id c (k_open k) /\ k_idx k' = k_idx k /\ k_hop k' = k_hop k /\ k_dests k' = k_dests k;
  cl_open : Permutation (open_ids s) (c :: open_ids s'); cl_fresh : fresh s s'; cl_init : g_init s' = g_init s; cl_len : length (g_vec s') = length (g_vec s) }.
Lemma give_back_ent c d d' : give_back c d = Some d' -> d_ent d' = d_ent d.
Proof. unfold give_back. destruct (find_b c (d_ent d)); [destruct (find_b c (d_wait d)); [discriminate|]|]; intros [= <-]; reflexivity. Qed.
Lemma remove_read_ent c d d' : remove_read c d = Some d' -> incl (d_ent d') (d_ent d).
Proof.
  unfold remove_read. destruct (find_b c (d_ent d)); [destruct (find_b c (d_wait d)); [discriminate|]|]; intros [= <-]; [|apply incl_refl]. cbn [d_ent]. unfold erase_b. intros x H. apply filter_In in H. apply H.
Qed.
Lemma ack_read_closes x r s s' k : inv s -> all_links fine s -> get_link s r = Some k -> In (x_cid x) (map fst (k_open k)) -> ack_read x r s = Some s' -> closes (x_cid x) r s s'.
Proof.
  intros I FN G IO. unfold ack_read. rewrite G. destruct (in_find_id _ _ IO) as (z & F). rewrite F. set (c := x_cid x) in *.
  match goal with |- match (match ?e with None => None | Some s1 => _ end) with _ => _ end = _ -> _ => destruct e as [s1|] eqn:E1; [|discriminate] end.
  assert (X : quiet s s1 /\ keys s1).
  { destruct (is_error (x_err x)).
    - destruct (if is_down (x_err x) then link_down r s else Some s) as [s0|] eqn:D; [|discriminate].
      assert (Y : quiet s s0 /\ keys s0) by (destruct (is_down (x_err x)); [destruct (link_down_quiet _ _ _ I D) as (A & B); split; [exact A|apply B]|injection D as <-; split; [apply quiet_refl|apply I]]).
      destruct Y as (Y & K0). destruct (give_back c (g_disk s0)) as [d|] eqn:GB; [|discriminate]. destruct (_ && _); [discriminate|]. injection E1 as <-. split; [|exact K0]. eapply quiet_trans; [exact Y|].
      apply quiet_da; [apply od_da, od_disk|]. apply fresh_same. proj. cbn [cancel d_ent]. eapply give_back_ent; exact GB.
    - destruct (x_delete x); [destruct (remove_read _ _) as [d|] eqn:RR; [|discriminate]|]; injection E1 as <-.
      + split; [|apply I]. apply quiet_da; [apply od_da, od_disk|]. apply fresh_less. proj. apply (remove_read_ent _ _ _ RR).
      + destruct (mem _ _); [|split; [apply quiet_refl|apply I]]. destruct (find_b _ _) as [b|]; [|split; [apply quiet_refl|apply I]]. destruct (has_timer _ _); [split; [apply quiet_refl|apply I]|].
        split; [|apply I]. apply quiet_da; [apply od_da, od_disk|]. apply fresh_same. reflexivity. }
  destruct X as (Q & K1). destruct (get_link s1 r) as [k1|] eqn:G1; [|discriminate]. intros [= <-]. set (k2 := set_pipe _ _ _ k1).
  pose proof (qt_core _ _ Q r) as C1. rewrite G, G1 in C1. injection C1 as CO CI CH CD. destruct (put_fields s1 r k2) as (Q1 & Q2 & Q3 & Q4 & Q5 & Q6 & Q7 & _). constructor.
  - proj. rewrite Q7. apply Q.
  - intros r' N. change (get_link (with_disk ?a ?d) r') with (get_link a r'). rewrite get_put_other by exact N. apply Q.
  - exists k, k2. split; [exact G|]. split; [change (get_link (put_link s1 r k2) r = Some k2); apply (get_put s1 r k1 k2 K1 G1)|]. cbn [k2 set_pipe k_open k_idx k_hop k_dests]. rewrite CO, CI, CH, CD. auto.
  - change (open_ids (with_disk ?a ?d)) with (open_ids a). rewrite <- (qt_open _ _ Q). apply (close_put s1 r k1 c z K1 G1); [|rewrite CO; exact F|reflexivity]. rewrite CO.
    unfold all_links in FN. rewrite Forall_forall in FN. destruct (FN _ (get_in _ _ _ G)) as ((_ & ND & _) & _). exact ND.
  - eapply fresh_trans; [rewrite (qt_open _ _ Q); apply incl_refl|apply Q|]. apply fresh_same. proj. cbn [no_start d_ent]. rewrite Q5. reflexivity.
  - proj. rewrite Q3. apply Q.
  - proj. rewrite put_len. apply Q.
Qed.

(** ** Sending *)
Definition opened (m : emsg) : list N := if e_cut m then [] else [e_cid m].
Definition sent (s : state) (m : emsg) : Prop :=
  if e_cut m then exists i k, get_link s (RVec i) = Some k /\ e_idx m = k_idx k
  else exists r k, get_link s r = Some k /\ e_idx m = k_idx k /\ e_hop m = k_hop k /\ In (e_cid m) (map fst (k_open k)) /\ stored s (e_cid m) (e_b m) /\
       e_custody m = b_cust (e_b m) /\ e_dest m = b_dest (e_b m).
Definition calm_opp (s : state) : Prop := forall n k, get_link s (ROpp n) = Some k -> k_queue k = [].
Definition label_of (k : link) : N * N * list (eid * bool) := (k_idx k, k_hop k, k_dests k).
Record sends (ms : list emsg) (s s' : state) : Prop := mkSends { sd_egress : g_egress s' = g_egress s ++ ms; sd_label : forall r, option_map label_of (get_link s' r) = option_map label_of (get_link s r);
  sd_keep : forall r k, get_link s r = Some k -> exists k', get_link s' r = Some k' /\ incl (k_open k) (k_open k');
  sd_open : Permutation (open_ids s') (open_ids s ++ flat_map opened ms); sd_fresh : fresh s s'; sd_grows : disk_grows s s'; sd_msgs : Forall (sent s') ms;
  sd_init : g_init s' = g_init s; sd_len : length (g_vec s') = length (g_vec s); sd_calm : calm_opp s -> calm_opp s' }.
Lemma label_get s s' r k : option_map label_of (get_link s' r) = option_map label_of (get_link s r) -> get_link s r = Some k -> exists k', get_link s' r = Some k' /\ k_idx k' = k_idx k /\ k_hop k' = k_hop k /\ k_dests k' = k_dests k.
Proof. intros E G. rewrite G in E. destruct (get_link s' r) as [k'|]; [|discriminate]. injection E as A B C. exists k'. auto. Qed.
Lemma sends_trans m1 m2 a b c : sends m1 a b -> sends m2 b c -> sends (m1 ++ m2) a c.
Proof.
  intros [A1 A2 A3 A4 A5 A6 A7 A8 A9 A10] [B1 B2 B3 B4 B5 B6 B7 B8 B9 B10]. constructor.
  - rewrite B1, A1, app_assoc. reflexivity.
  - intros r. rewrite B2. apply A2.
  - intros r k G. destruct (A3 r k G) as (k1 & G1 & I1). destruct (B3 r k1 G1) as (k2 & G2 & I2). exists k2. split; [exact G2|eapply incl_tran; eassumption].
  - rewrite B4, A4, flat_map_app, app_assoc. reflexivity.
  - eapply fresh_trans; [|exact A5|exact B5]. intros x X. eapply Permutation_in; [symmetry; exact A4|]. apply in_or_app. auto.
  - intros x X. apply B6, A6, X.
  - apply Forall_app. split; [|exact B7]. eapply Forall_impl; [|exact A7]. intros m. unfold sent. destruct (e_cut m).
    + intros (i & k & G & E). destruct (label_get _ _ _ _ (B2 _) G) as (k' & G' & E1 & _). exists i, k'. split; [exact G'|congruence].
    + intros (r & k & G & E1 & E2 & IN & ST & E3 & E4). destruct (label_get _ _ _ _ (B2 _) G) as (k' & G' & L1 & L2 & _). destruct (B3 _ _ G) as (k2 & G2 & I2). assert (k2 = k') by congruence. subst k2.
      exists r, k'. split; [exact G'|]. split; [congruence|]. split; [congruence|]. split; [|split; [apply B6; exact ST|auto]]. apply in_map_iff in IN as (y & Y1 & Y2). apply in_map_iff. exists y. auto.
  - congruence.
  - congruence.
  - auto.
Qed.
Lemma sends_nil s s' : g_egress s' = g_egress s -> (forall r, option_map label_of (get_link s' r) = option_map label_of (get_link s r)) ->
  (forall r k, get_link s r = Some k -> exists k', get_link s' r = Some k' /\ incl (k_open k) (k_open k')) -> open_ids s' = open_ids s -> fresh s s' -> disk_grows s s' -> g_init s' = g_init s -> length (g_vec s') = length (g_vec s) ->
  (calm_opp s -> calm_opp s') -> sends [] s s'.
Proof. intros. constructor; try assumption; [rewrite app_nil_r; assumption|cbn [flat_map]; rewrite app_nil_r, H2; reflexivity|constructor]. Qed.
Lemma sends_quiet s s' : quiet s s' -> disk_grows s s' -> (calm_opp s -> calm_opp s') -> sends [] s s'.
Proof.
  intros [A1 A2 A3 A4 A5 A6] D C. apply sends_nil; try assumption.
  - intros r. specialize (A2 r). destruct (get_link s' r), (get_link s r); cbn [option_map] in *; try discriminate; [injection A2 as _ E1 E2 E3; unfold label_of; congruence|reflexivity].
  - intros r k G. specialize (A2 r). rewrite G in A2. destruct (get_link s' r) as [k'|]; [|discriminate]. injection A2 as E _ _ _. exists k'. split; [reflexivity|]. rewrite E. apply incl_refl.
Qed.
Lemma calm_da s s' : disk_acks s s' -> calm_opp s -> calm_opp s'.
Proof. intros D C n k. rewrite (da_get _ _ _ D). apply C. Qed.
Lemma calm_put s r k k' : keys s -> get_link s r = Some k -> (k_queue k = [] -> k_queue k' = []) -> calm_opp s -> calm_opp (put_link s r k').
Proof.
  intros K G Q C n x H. destruct (ref_dec (ROpp n) r) as [E|N]; [|rewrite get_put_other in H by exact N; exact (C n x H)]. subst r. rewrite (get_put s _ k k' K G) in H. injection H as <-. apply Q. exact (C n k G).
Qed.
Lemma sends_put s r k k' : keys s -> get_link s r = Some k -> core k' = core k -> (k_queue k = [] -> k_queue k' = []) -> sends [] s (put_link s r k').
Proof.
  intros K G E Q. apply sends_quiet; [eapply quiet_put; eassumption| |eapply calm_put; eassumption]. destruct (put_fields s r k') as (_ & _ & _ & _ & Q5 & _). unfold disk_grows. rewrite Q5. apply incl_refl.
Qed.
Lemma sends_da s s' : disk_acks s s' -> fresh s s' -> disk_grows s s' -> sends [] s s'.
Proof. intros D F G. apply sends_quiet; [apply quiet_da; assumption|exact G|apply calm_da; exact D]. Qed.
Lemma get_same s s' : g_vec s' = g_vec s -> g_opp s' = g_opp s -> forall r, get_link s' r = get_link s r.
Proof. intros A B r. unfold get_link. rewrite A, B. reflexivity. Qed.
Lemma open_same s s' : g_vec s' = g_vec s -> g_opp s' = g_opp s -> open_ids s' = open_ids s.
Proof. intros A B. unfold open_ids. rewrite A, B. reflexivity. Qed.
Lemma send_stored_sends cfg r k room s : inv s -> get_link s r = Some k -> exists ms, sends ms s (send_stored cfg r k room s).
Proof.
  intros I G. pose proof I as [[K OK] _ _]. destruct (stored_moves cfg r k room s K G) as (k' & ms & A1 & _ & A2 & A3 & A4 & A5 & A6 & A7 & A8 & A9 & A10). exists ms. set (s' := send_stored cfg r k room s) in *.
  assert (D : d_ent (g_disk s') = d_ent (g_disk s)).
  { unfold s'. clear. unfold send_stored. destruct (pop cfg (k_dests k) (g_disk s)) as [[[c b] rest]|]; [|reflexivity]. destruct (room <? b_size b); [reflexivity|]. destruct (read_bit _) as [rd s1] eqn:R.
    destruct (read_frame _ _ _ R) as (l1 & -> & _). destruct rd; cbn [negb]; [|reflexivity]. destruct (bit _) as [st s2] eqn:B. destruct (bit_frame _ _ _ B) as (l2 & ->). destruct st; cbn [negb]; [|reflexivity].
    destruct (find_id c (k_open k)); [reflexivity|]. destruct (b_cust b); proj; destruct r; reflexivity. }
  assert (GR : disk_grows s s') by (unfold disk_grows; rewrite D; apply incl_refl).
  destruct A10 as [(-> & -> & _)|(c & b & -> & _ & IW & X)].
  - destruct (put_same s r k K G) as (P1 & P2). rewrite P1 in A2. rewrite P2 in A3. rewrite app_nil_r in A1. apply sends_nil; [exact A1|intros x; rewrite (get_same _ _ A2 A3); reflexivity| |apply open_same; assumption|apply fresh_same; exact D|exact GR|exact A6|rewrite A2; reflexivity|].
    + intros x y GY. exists y. rewrite (get_same _ _ A2 A3). split; [exact GY|apply incl_refl].
    + intros C n y. rewrite (get_same _ _ A2 A3). apply C.
  - assert (CW : In c (map fst (d_wait (g_disk s)))) by (apply in_fst; eauto).
    destruct X as [(_ & (z & F) & _)|(F & -> & _)]; [exfalso; apply find_id_in in F; apply (so_wo _ _ OK c CW); eapply open_in; [exact G|apply in_fst; eauto]|].
    set (k2 := set_pipe _ _ _ k) in *. assert (GG : forall x, get_link s' x = get_link (put_link s r k2) x) by (apply get_same; assumption). assert (GP : get_link s' r = Some k2) by (rewrite GG; apply (get_put s r k k2 K G)).
    assert (GO : forall x, x <> r -> get_link s' x = get_link s x) by (intros x N; rewrite GG; apply get_put_other; exact N). constructor.
    + exact A1.
    + intros x. destruct (ref_dec x r) as [->|N]; [rewrite GP, G; reflexivity|rewrite (GO x N); reflexivity].
    + intros x y GY. destruct (ref_dec x r) as [->|N]; [|rewrite (GO x N); exists y; split; [exact GY|apply incl_refl]]. exists k2. split; [exact GP|]. assert (y = k) by congruence. subst y. cbn [k2 set_pipe k_open]. apply incl_appl, incl_refl.
    + rewrite (open_same (put_link s r k2) s' A2 A3). destruct (open_put s r k k2 K G) as (p & q & -> & ->). cbn [k2 set_pipe k_open flat_map opened e_cut e_cid app]. rewrite map_app. cbn [map fst]. rewrite <- !app_assoc. apply Permutation_app_head, Permutation_app_head. apply Permutation_app_comm.
    + apply fresh_same. exact D.
    + exact GR.
    + constructor; [|constructor]. unfold sent. cbn [e_cut e_idx e_hop e_cid e_b e_custody e_dest]. exists r, k2. split; [exact GP|]. split; [reflexivity|]. split; [reflexivity|]. split; [cbn [k2 set_pipe k_open]; rewrite map_app; apply in_or_app; right; left; reflexivity|].
      split; [|auto]. unfold stored. rewrite D. apply (so_ws _ _ OK). exact IW.
    + exact A6.
    + rewrite A2. apply put_len.
    + intros C n y. destruct (ref_dec (ROpp n) r) as [E|N]; [|rewrite (GO _ N); apply C]. rewrite E, GP. intros [= <-]. cbn [k2 set_pipe k_queue]. apply (C n). rewrite E. exact G.
Qed.
Lemma send_cut_sends r k x rest s : inv s -> calm_opp s -> get_link s r = Some k -> k_queue k = x :: rest -> exists ms, sends ms s (send_cut r k x rest s).
Proof.
  intros I C G Q. pose proof I as [[K OK] _ _]. destruct (cut_moves r k x rest s) as (k' & ms & lo & A1 & A2 & A3 & A4 & A5 & A6 & A7 & A8 & A9 & A10 & A11 & A12 & A13). exists ms. set (s' := send_cut r k x rest s) in *.
  assert (R : exists i, r = RVec i) by (destruct r as [i|n]; [eauto|]; rewrite (C n k G) in Q; discriminate). destruct R as (i & ->).
  assert (CK : k_open k' = k_open k /\ k_idx k' = k_idx k /\ k_hop k' = k_hop k /\ k_dests k' = k_dests k) by (destruct A13 as [(-> & _)|(_ & -> & _)]; auto). destruct CK as (C1 & C2 & C3 & C4).
  assert (GG : forall y, get_link s' y = get_link (put_link s (RVec i) k') y) by (apply get_same; assumption). assert (GP : get_link s' (RVec i) = Some k') by (rewrite GG; apply (get_put s _ k k' K G)).
  assert (GO : forall y, y <> RVec i -> get_link s' y = get_link s y) by (intros y N; rewrite GG; apply get_put_other; exact N).
  assert (MS : Forall (fun m => e_cut m = true /\ e_idx m = k_idx k) ms) by (destruct A13 as [(_ & _ & [->| ->] & _)|(_ & _ & _ & -> & _)]; repeat constructor). constructor.
  - exact A1.
  - intros y. destruct (ref_dec y (RVec i)) as [->|N]; [rewrite GP, G; unfold label_of; cbn [option_map]; congruence|rewrite (GO y N); reflexivity].
  - intros y ky GY. destruct (ref_dec y (RVec i)) as [->|N]; [|rewrite (GO y N); exists ky; split; [exact GY|apply incl_refl]]. exists k'. split; [exact GP|]. assert (ky = k) by congruence. subst ky. rewrite C1. apply incl_refl.
  - rewrite (open_same (put_link s (RVec i) k') s' A2 A3), (open_put_same s (RVec i) k k' K G C1). replace (flat_map opened ms) with (@nil N); [rewrite app_nil_r; reflexivity|].
    clear -MS. induction MS as [|m ms (H & _) MS IH]; [reflexivity|]. cbn [flat_map]. unfold opened at 1. rewrite H. exact IH.
  - apply fresh_same. rewrite A10. reflexivity.
  - unfold disk_grows. rewrite A10. apply incl_refl.
  - eapply Forall_impl; [|exact MS]. intros m (M1 & M2). unfold sent. rewrite M1. exists i, k'. split; [exact GP|congruence].
  - exact A7.
  - rewrite A2. apply put_len.
  - intros _ n y. rewrite (GO (ROpp n)) by discriminate. apply C.
Qed.
Lemma flip_sends r s : inv s -> sends [] s (flip r s).
Proof. intros I. unfold flip. destruct (get_link s r) as [k|] eqn:G; [apply (sends_put s r k); [apply I|exact G|reflexivity|auto]|]. apply sends_da; [apply da_refl|apply fresh_refl|apply incl_refl]. Qed.
Lemma default_sends cfg r k room s : inv s -> calm_opp s -> get_link s r = Some k -> exists ms, sends ms s (default_send cfg r k room s).
Proof.
  intros I C G. unfold default_send. match goal with |- context[flip r ?e] => set (s1 := e) end.
  assert (X : inv s1 /\ exists ms, sends ms s s1).
  { unfold s1. destruct (k_queue k) as [|x rest] eqn:Q; [split; [apply send_stored_inv|apply send_stored_sends]; assumption|]. destruct (_ && _); split; [apply send_cut_inv|eapply send_cut_sends|apply send_stored_inv|apply send_stored_sends]; assumption. }
  destruct X as (I1 & ms & S). exists (ms ++ []). eapply sends_trans; [exact S|apply flip_sends; exact I1].
Qed.
Lemma peek_sends cfg ds s w s' : inv s -> peek cfg ds s = (w, s') -> inv s' /\ sends [] s s'.
Proof.
  intros I P. destruct (peek_inv _ _ _ _ _ I P) as (I1 & O). destruct (peek_grows _ _ _ _ _ P) as (_ & D & _). split; [exact I1|]. apply sends_da; [exact O| |exact D]. apply fresh_same. unfold peek in P.
  destruct (pop cfg ds (g_disk s)) as [[y rest]|]; injection P as <- <-; reflexivity.
Qed.
Lemma priority_sends cfg r k room s s' : inv s -> calm_opp s -> get_link s r = Some k -> priority_send cfg r k room s = Some s' -> exists ms, sends ms s s'.
Proof.
  intros I C G. unfold priority_send. destruct (k_queue k) as [|x rest] eqn:Q; [intros [= <-]; apply send_stored_sends; assumption|].
  destruct (peek cfg (k_dests k) s) as [w s1] eqn:P. destruct (peek_sends _ _ _ _ _ I P) as (I1 & S1). destruct (peek_inv _ _ _ _ _ I P) as (_ & O1).
  assert (G1 : get_link s1 r = Some k) by (rewrite (da_get _ _ r O1); exact G). pose proof (sd_calm _ _ _ S1 C) as C1. destruct w as [[c b]|].
  - cbv zeta. set (same := match queue_prio x with Some p => p =? b_prio b | None => false end). set (higher := match queue_prio x with Some p => b_prio b <? p | None => false end).
    set (k1 := if same && (b_size (q_b x) <=? room) then set_try (negb (k_try k)) k else k). assert (CK : core k1 = core k /\ k_queue k1 = k_queue k) by (unfold k1; destruct (_ && _); auto). destruct CK as (CK & CQ).
    assert (I2 : inv (put_link s1 r k1)) by (eapply put_inv; [exact G1|injection CK; auto|exact I1]).
    assert (S2 : sends [] s1 (put_link s1 r k1)) by (apply (sends_put s1 r k); [apply I1|exact G1|exact CK|rewrite CQ; auto]). pose proof (sd_calm _ _ _ S2 C1) as C2.
    assert (G2 : get_link (put_link s1 r k1) r = Some k1) by (apply (get_put s1 r k k1); [apply I1|exact G1]). set (s2 := put_link s1 r k1) in *. pose proof (sends_trans _ _ _ _ _ S1 S2) as S02. cbn [app] in S02.
    destruct (if same then _ else higher).
    + intros [= <-]. destruct (b_size (q_b x) <=? room); [|eauto]. destruct (send_cut_sends r k1 x rest s2 I2 C2 G2) as (ms & S3); [congruence|]. exists ([] ++ ms). eapply sends_trans; eassumption.
    + pose proof (send_stored_inv cfg r k1 room s2 I2 G2) as I3. destruct (send_stored_sends cfg r k1 room s2 I2 G2) as (ms & S3). destruct (stored_get cfg r k1 room s2 (sf_keys _ (iv_safe _ I2)) G2) as (k3 & G3). set (s3 := send_stored cfg r k1 room s2) in *.
      destruct (write (q_b x) Whole false None s3) as [s4|] eqn:W; [|discriminate]. destruct (write_plain_next _ _ _ I3 W) as (I4 & O4 & F4). destruct (write_whole_grows _ _ _ W) as (D4 & _).
      pose proof (ack_inv (mkA (q_id x) (ref_idx r) false) s4 I4) as I5. assert (S4 : sends [] s3 s4) by (apply sends_da; [apply od_da; exact O4|exact F4|exact D4]).
      assert (S5 : sends [] s4 (ack_ingress (mkA (q_id x) (ref_idx r) false) s4)).
      { apply sends_da; [apply ack_ingress_da|apply fresh_same; rewrite ack_fresh; reflexivity|]. unfold disk_grows. rewrite ack_fresh. apply incl_refl. }
      set (s5 := ack_ingress _ s4) in *. destruct (get_link s5 r) as [k5|] eqn:G5; [|discriminate]. intros [= <-].
      exists (([] ++ ms) ++ [] ++ [] ++ []). eapply sends_trans; [eapply sends_trans; [exact S02|exact S3]|]. eapply sends_trans; [exact S4|]. eapply sends_trans; [exact S5|]. eapply sends_put; [apply I5|exact G5|reflexivity|].
      intros E. cbn [set_queue k_queue]. assert (GK : k_queue k3 = x :: rest).
      { destruct (stored_moves cfg r k1 room s2 (sf_keys _ (iv_safe _ I2)) G2) as (k' & ms' & _ & _ & V & V' & _ & _ & _ & _ & _ & _ & X). assert (k3 = k').
        { fold s3 in V, V'. pose proof (get_same _ _ V V' r) as E3. rewrite G3, (get_put s2 r k1 k' (sf_keys _ (iv_safe _ I2)) G2) in E3. congruence. }
        subst k'. assert (k_queue k3 = k_queue k1) by (destruct X as [(_ & -> & _)|(c0 & b0 & _ & _ & _ & [(-> & _)|(_ & -> & _)])]; reflexivity). congruence. }
      assert (k5 = k3). { unfold s5 in G5. rewrite (da_get _ _ r (ack_ingress_da _ s4)), (da_get _ _ r (od_da _ _ O4)) in G5. congruence. } subst k5. congruence.
  - intros [= <-]. destruct (b_size (q_b x) <=? room); [|eauto]. destruct (send_cut_sends r k x rest s1 I1 C1 G1 Q) as (ms & S2). exists ([] ++ ms). eapply sends_trans; eassumption.
Qed.
Lemma sends_poll s n : sends [] s (with_poll s n).
Proof. apply sends_nil; try reflexivity; [|apply fresh_same; reflexivity|apply incl_refl|auto]. intros r k G. exists k. split; [exact G|apply incl_refl]. Qed.
Lemma sends_rr s n : sends [] s (with_rr s n).
Proof. apply sends_nil; try reflexivity; [|apply fresh_same; reflexivity|apply incl_refl|auto]. intros r k G. exists k. split; [exact G|apply incl_refl]. Qed.
Lemma serve_sends cfg n s s' : inv s -> calm_opp s -> serve cfg n s = Some s' -> exists ms, sends ms s s'.
Proof.
  intros I C. unfold serve. destruct (nth_error (g_ptrs s) n) as [r|]; [|discriminate]. destruct (get_link s r) as [k|] eqn:G; [|discriminate]. cbv zeta. set (room := sub64 _ _).
  destruct (if N.of_nat (length (k_open k) + length (k_acks k)) <? k_max k then _ else Some s) as [s1|] eqn:E; [|discriminate].
  assert (X : inv s1 /\ exists ms, sends ms s s1).
  { destruct (_ <? _); [|injection E as <-; split; [exact I|]; exists []; apply sends_da; [apply da_refl|apply fresh_refl|apply incl_refl]]. destruct (c_priority cfg).
    - destruct (priority_inv cfg r k room s I G) as (s2 & E2 & I2). assert (s2 = s1) by congruence. subst s2. split; [exact I2|]. eapply priority_sends; eassumption.
    - injection E as <-. split; [apply default_inv; assumption|]. eapply default_sends; eassumption. }
  destruct X as (I1 & ms & S1). destruct (_ || _); [intros [= <-]; eauto|]. destruct (get_link s1 r) as [k1|]; [|discriminate]. destruct (peek cfg (k_dests k1) s1) as [w s2] eqn:P. destruct (peek_sends _ _ _ _ _ I1 P) as (_ & S2).
  intros [= <-]. destruct w as [y|]; [|exists (ms ++ []); eapply sends_trans; eassumption]. exists (ms ++ [] ++ []). eapply sends_trans; [exact S1|]. eapply sends_trans; [exact S2|apply sends_poll].
Qed.
Lemma loop_sends cfg c : forall s s', inv s -> calm_opp s -> g_ptrs s = up_refs (links s) -> (c <= length (g_ptrs s))%nat -> send_loop cfg c s = Some s' -> exists ms, sends ms s s'.
Proof.
  induction c as [|c IH]; intros s s' I C P L; cbn [send_loop]; [intros [= <-]; exists []; apply sends_da; [apply da_refl|apply fresh_refl|apply incl_refl]|]. set (n := next_rr s). assert (LN : (n < length (g_ptrs s))%nat) by (apply next_lt; lia).
  assert (IR : inv (with_rr s n)) by (destruct I as [[A B] C' D]; constructor; [constructor; assumption|exact C'|exact D]). destruct (serve cfg n (with_rr s n)) as [s1|] eqn:E; [|discriminate].
  destruct (serve_inv cfg n (with_rr s n) IR P LN) as (s1' & E' & I1). assert (s1' = s1) by congruence. subst s1'. destruct (serve_sends cfg n _ _ IR (sd_calm _ _ _ (sends_rr s n) C) E) as (ms & S1).
  destruct (serve_rr cfg n (with_rr s n) s1 (sf_keys _ (iv_safe _ IR)) P E) as (_ & R2 & _ & P1). pose proof (sends_trans _ _ _ _ _ (sends_rr s n) S1) as S. cbn [app] in S.
  destruct (g_poll s1 =? 0); [intros [= <-]; eauto|]. intros H. destruct (IH s1 s' I1 (sd_calm _ _ _ S C) P1) as (ms2 & S2); [rewrite R2; proj; lia|exact H|]. exists (ms ++ ms2). eapply sends_trans; eassumption.
Qed.
Lemma do_send_sends cfg s s' : inv s -> calm_opp s -> g_ptrs s = up_refs (links s) -> do_send cfg s = Some s' -> exists ms, sends ms s s'.
Proof.
  intros I C P H. unfold do_send in H. destruct (loop_sends cfg _ (with_poll s 250) s' (poll_inv s 250 I) (sd_calm _ _ _ (sends_poll s 250) C) P (le_n _) H) as (ms & S). exists ([] ++ ms). eapply sends_trans; [apply sends_poll|exact S].
Qed.

(** ** Everything but sending and answers for stored bundles *)
Lemma quiet_same s s' : g_egress s' = g_egress s -> g_vec s' = g_vec s -> g_opp s' = g_opp s -> g_init s' = g_init s -> fresh s s' -> quiet s s'.
Proof. intros A B C D E. constructor; [exact A|intros r; rewrite (get_same _ _ B C); reflexivity|apply open_same; assumption|exact E|exact D|rewrite B; reflexivity]. Qed.
Lemma store_quiet m b c s s' : inv s -> on_store m b c s = Some s' -> quiet s s'.
Proof.
  intros I. unfold on_store. destruct (if s_dont m then _ else None) as [[r k]|] eqn:E.
  - intros [= <-]. destruct (s_dont m); [|discriminate]. destruct (vec_ref s (s_idx m)) as [r0|]; [|discriminate]. destruct (get_link s r0) as [k0|] eqn:G; [|discriminate]. destruct (k_up k0); [|discriminate]. injection E as -> ->.
    apply (quiet_put s r k); [apply I|exact G|reflexivity].
  - destruct (write b c (s_special m) (Some (s_dest m)) s) as [s1|] eqn:W; [|discriminate]. intros [= <-]. eapply quiet_trans; [|apply quiet_ack]. apply quiet_da; [apply od_da; eapply write_od; exact W|eapply write_fresh; eassumption].
Qed.
Lemma failed_quiet i b s s' : inv s -> on_failed i b s = Some s' -> quiet s s'.
Proof.
  intros I. unfold on_failed. destruct (write b Whole false None s) as [s1|] eqn:W; [|discriminate]. destruct (write_plain_next _ _ _ I W) as (I1 & O & F). pose proof (quiet_da _ _ (od_da _ _ O) F) as Q.
  destruct (g_init s1); [|intros [= <-]; exact Q]. destruct (vec_ref s1 i) as [r|]; [|discriminate]. intros D. eapply quiet_trans; [exact Q|]. apply (link_down_quiet r s1 s' I1 D).
Qed.
Lemma up_quiet i s s' : inv s -> on_up i s = Some s' -> quiet s s'.
Proof.
  intros I. unfold on_up. destruct (g_init s) eqn:GI.
  - destruct (vec_ref s i) as [r|]; [|intros [= <-]; apply quiet_refl]. destruct (get_link s r) as [k|] eqn:G; [|discriminate]. intros [= <-]. destruct (k_up k); [apply quiet_refl|]. eapply quiet_trans; [|apply quiet_repop].
    apply (quiet_put s r k); [apply I|exact G|reflexivity].
  - intros [= <-]. apply quiet_same; try reflexivity; [symmetry; exact GI|]. apply fresh_same; reflexivity.
Qed.
Lemma down_quiet i s s' : inv s -> on_down i s = Some s' -> quiet s s'.
Proof.
  intros I. unfold on_down. destruct (g_init s) eqn:GI.
  - destruct (vec_ref s i) as [r|]; [|intros [= <-]; apply quiet_refl]. intros D. apply (link_down_quiet r s s' I D).
  - intros [= <-]. apply quiet_same; try reflexivity; [symmetry; exact GI|]. apply fresh_same; reflexivity.
Qed.
Lemma signals_quiet l : forall s s', inv s -> on_signals l s = Some s' -> quiet s s'.
Proof.
  induction l as [|b l IH]; intros s s' I; unfold on_signals; [intros [= <-]; apply quiet_refl|]. destruct (write_one b s) as [[s1 ok]|] eqn:W; [|discriminate]. destruct (write_one_next _ _ _ _ I W) as (I1 & O & F).
  intros H. eapply quiet_trans; [apply quiet_da; [apply od_da; exact O|exact F]|]. exact (IH s1 s' I1 H).
Qed.
Lemma timer_quiet c s s' : on_timer c s = Some s' -> quiet s s'.
Proof.
  unfold on_timer. destruct (has_timer _ _); [|intros [= <-]; apply quiet_refl]. destruct (give_back _ _) as [d|] eqn:E; [|discriminate]. intros [= <-]. apply quiet_da; [apply od_da, od_disk|]. apply fresh_same. proj. rewrite (give_back_ent _ _ _ E). reflexivity.
Qed.
Lemma expired_quiet c p s s' : inv s -> on_expired c p s = Some s' -> quiet s s'.
Proof.
  intros I H. apply quiet_da; [apply od_da; eapply expired_od; exact H|]. pose proof I as [[K OK] II RR]. unfold on_expired in H. destruct (find_b c (d_wait (g_disk s))) as [b|] eqn:F; [|injection H as <-; apply fresh_refl]. apply find_b_in in F.
  assert (CW : In c (map fst (d_wait (g_disk s)))) by (apply in_fst; eauto).
  assert (SD : with_disk s (no_start c (cancel c (g_disk s))) = s).
  { assert (X : no_start c (cancel c (g_disk s)) = g_disk s); [|rewrite X; destruct s; reflexivity]. unfold no_start, cancel. cbn [d_ent d_wait d_used d_time d_start d_broken]. unfold erase_t.
    rewrite erase_absent by exact (so_wt _ _ OK c CW). rewrite drop_absent; [destruct (g_disk s); reflexivity|]. intros X. apply (ok_start_open _ _ _ OK) in X. exact (so_wo _ _ OK c CW X). }
  cbv zeta in H. rewrite SD in H. destruct (if b_cust b then _ else Some s) as [s1|] eqn:E; [|discriminate]. injection H as <-.
  assert (X : only_disk s s1 /\ fresh s s1).
  { destruct (b_cust b); [|injection E as <-; split; [apply od_refl|apply fresh_refl]]. destruct p as [p|]; [|injection E as <-; split; [apply od_refl|apply fresh_refl]]. destruct (write_one p s) as [[s2 ok]|] eqn:W; [|discriminate]. injection E as <-.
    destruct (write_one_next _ _ _ _ I W) as (_ & O & F2). auto. }
  destruct X as (O & FR). eapply fresh_od; [exact O|exact FR|]. apply fresh_less. proj. eapply incl_tran; [apply remove_any_less|apply incl_refl].
Qed.

(** ** Links come and go *)
Record mild (s s' : state) : Prop := mkMild { ml_egress : g_egress s' = g_egress s; ml_keep : forall r k, get_link s r = Some k -> k_open k <> [] -> exists k', get_link s' r = Some k' /\ k_open k' = k_open k;
  ml_open : open_ids s' = open_ids s; ml_fresh : fresh s s'; ml_vec : forall i k, get_link s (RVec i) = Some k -> exists k', get_link s' (RVec i) = Some k' }.
Definition named (s : state) : Prop := forall r k, get_link s r = Some k -> match r with RVec i => k_idx k = N.of_nat i | ROpp n => k_idx k = U64MAX /\ k_hop k = n end.
(** The outducts of storage are those of the telemetry [l]. *)
Definition knows (l : list outduct) (s : state) : Prop := length (g_vec s) = length l /\ forall i o, nth_error l i = Some o -> exists k, get_link s (RVec i) = Some k /\ k_hop k = t_hop o /\ k_dests k = dests_of o.
Lemma quiet_mild s s' : quiet s s' -> mild s s'.
Proof.
  intros [A1 A2 A3 A4 A5 A6]. constructor; try assumption; intros r k G.
  - intros _. pose proof (A2 r) as E. rewrite G in E. destruct (get_link s' r) as [k'|]; [|discriminate]. injection E as E _ _ _. eauto.
  - pose proof (A2 (RVec r)) as E. rewrite G in E. destruct (get_link s' (RVec r)) as [k'|]; [|discriminate]. eauto.
Qed.
Lemma named_label s s' : (forall r, option_map label_of (get_link s' r) = option_map label_of (get_link s r)) -> named s -> named s'.
Proof. intros A N r k G. pose proof (A r) as E. rewrite G in E. destruct (get_link s r) as [k0|] eqn:G0; [|discriminate]. injection E as E1 E2 E3. rewrite E1, E2. exact (N r k0 G0). Qed.
Lemma knows_label l s s' : length (g_vec s') = length (g_vec s) -> (forall r, option_map label_of (get_link s' r) = option_map label_of (get_link s r)) -> knows l s -> knows l s'.
Proof. intros L A (K1 & K2). split; [congruence|]. intros i o H. destruct (K2 i o H) as (k & G & E1 & E2). destruct (label_get _ _ _ _ (A (RVec i)) G) as (k' & G' & _ & F1 & F2). exists k'. rewrite F1, F2. auto. Qed.
Lemma core_label a b : core a = core b -> label_of a = label_of b.
Proof. intros [= _ A B C]. unfold label_of. congruence. Qed.
Lemma quiet_label s s' : quiet s s' -> forall r, option_map label_of (get_link s' r) = option_map label_of (get_link s r).
Proof. intros Q r. pose proof (qt_core _ _ Q r) as E. destruct (get_link s' r), (get_link s r); cbn [option_map] in *; try discriminate; [injection E as E; f_equal; apply core_label; unfold core; congruence|reflexivity]. Qed.
Lemma closes_label c r s s' : closes c r s s' -> forall x, option_map label_of (get_link s' x) = option_map label_of (get_link s x).
Proof.
  intros [A1 A2 (k & k' & G & G' & _ & E1 & E2 & E3) _ _ _ _] x. destruct (ref_dec x r) as [->|N]; [rewrite G, G'; unfold label_of; cbn [option_map]; congruence|]. pose proof (A2 x N) as E.
  destruct (get_link s' x), (get_link s x); cbn [option_map] in *; try discriminate; [injection E as E; f_equal; apply core_label; unfold core; congruence|reflexivity].
Qed.
Lemma opp_find_app n p q : opp_find n (p ++ q) = match opp_find n p with Some k => Some k | None => opp_find n q end.
Proof. unfold opp_find. induction p as [|[m x] p IH]; cbn [app find fst]; [reflexivity|]. destruct (m =? n); [reflexivity|exact IH]. Qed.
Lemma opp_find_insert n k m l : opp_find n l = None -> opp_find m (opp_insert n k l) = if m =? n then Some k else opp_find m l.
Proof.
  intros F. destruct (opp_insert_split n k l) as (p & q & -> & ->). rewrite opp_find_app in F |- *. destruct (opp_find n p) eqn:FP; [discriminate|]. rewrite (opp_find_app m p q). destruct (N.eqb_spec m n) as [->|N].
  - rewrite FP. unfold opp_find. cbn [find fst]. rewrite N.eqb_refl. reflexivity.
  - destruct (opp_find m p); [reflexivity|]. unfold opp_find. cbn [find fst]. replace (n =? m) with false by (symmetry; apply N.eqb_neq; congruence). reflexivity.
Qed.
Lemma opp_find_erase n m l : opp_find m (opp_erase n l) = if m =? n then None else opp_find m l.
Proof.
  unfold opp_find, opp_erase. induction l as [|[a x] l IH]; cbn [filter find fst]; [destruct (m =? n); reflexivity|]. destruct (N.eqb_spec a n) as [->|N]; cbn [negb find fst].
  - rewrite IH. rewrite (N.eqb_sym n m). destruct (m =? n); reflexivity.
  - destruct (N.eqb_spec a m) as [->|N2]; [|exact IH]. replace (m =? n) with false by (symmetry; apply N.eqb_neq; exact N). reflexivity.
Qed.
Lemma add_mild cfg n s : named s -> mild s (add_opp cfg n s) /\ named (add_opp cfg n s) /\ (forall l, knows l s -> knows l (add_opp cfg n s)) /\ g_vec (add_opp cfg n s) = g_vec s /\ g_init (add_opp cfg n s) = g_init s.
Proof.
  intros NM. unfold add_opp. destruct (opp_find n (g_opp s)) as [k0|] eqn:F; [split; [apply quiet_mild, quiet_refl|auto]|].
  assert (GV : forall i, get_link (repopulate (with_links s (g_vec s) (opp_insert n (opp_link cfg n) (g_opp s)))) (RVec i) = get_link s (RVec i)) by reflexivity.
  assert (GO : forall m, get_link (repopulate (with_links s (g_vec s) (opp_insert n (opp_link cfg n) (g_opp s)))) (ROpp m) = if m =? n then Some (opp_link cfg n) else get_link s (ROpp m)) by (intros m; apply opp_find_insert; exact F).
  split; [|split; [|split; [|split; reflexivity]]].
  - constructor; [reflexivity| | |apply fresh_same; reflexivity|intros i k; rewrite GV; eauto].
    + intros [i|m] k G _; [rewrite GV; eauto|]. rewrite GO. destruct (N.eqb_spec m n) as [->|N]; [cbn [get_link] in G; congruence|eauto].
    + unfold open_ids, repopulate. proj. f_equal. destruct (opp_insert_split n (opp_link cfg n) (g_opp s)) as (p & q & -> & ->). unfold open_of. rewrite !map_app, !flat_map_app. reflexivity.
  - intros [i|m] k; [rewrite GV; apply NM|]. rewrite GO. destruct (N.eqb_spec m n) as [->|N]; [intros [= <-]; split; reflexivity|apply NM].
  - intros l (K1 & K2). split; [exact K1|]. intros i o H. rewrite GV. apply K2. exact H.
Qed.
Lemma remove_mild n s : keys s -> (forall k, In (ROpp n, k) (links s) -> k_open k = []) -> named s ->
  mild s (remove_opp n s) /\ named (remove_opp n s) /\ (forall l, knows l s -> knows l (remove_opp n s)) /\ g_vec (remove_opp n s) = g_vec s /\ g_init (remove_opp n s) = g_init s.
Proof.
  intros KY H NM. unfold remove_opp. destruct (opp_find n (g_opp s)) as [k0|] eqn:F; [|split; [apply quiet_mild, quiet_refl|auto]].
  assert (GV : forall i, get_link (repopulate (with_links s (g_vec s) (opp_erase n (g_opp s)))) (RVec i) = get_link s (RVec i)) by reflexivity.
  assert (GO : forall m, get_link (repopulate (with_links s (g_vec s) (opp_erase n (g_opp s)))) (ROpp m) = if m =? n then None else get_link s (ROpp m)) by (intros m; apply opp_find_erase).
  split; [|split; [|split; [|split; reflexivity]]].
  - constructor; [reflexivity| | |apply fresh_same; reflexivity|intros i k; rewrite GV; eauto].
    + intros [i|m] k G O; [rewrite GV; eauto|]. rewrite GO. destruct (N.eqb_spec m n) as [->|N]; [elim O; apply H, get_in, G|eauto].
    + unfold open_ids, repopulate, opp_erase. proj. f_equal. assert (Z : forall k, In (n, k) (g_opp s) -> k_open k = []) by (intros k X; apply H; unfold links; apply in_or_app; right; apply in_map_iff; exists (n, k); auto).
      clear -Z. induction (g_opp s) as [|[a k] l0 IH]; [reflexivity|]. cbn [filter fst]. destruct (N.eqb_spec a n) as [->|N]; cbn [negb map open_of flat_map snd]; fold (open_of (map snd l0)).
      * rewrite (Z k) by (left; reflexivity). cbn [map app]. apply IH. intros k1 X. apply Z. right. exact X.
      * f_equal. apply IH. intros k1 X. apply Z. right. exact X.
  - intros [i|m] k; [rewrite GV; apply NM|]. rewrite GO. destruct (N.eqb_spec m n) as [->|N]; [discriminate|apply NM].
  - intros l (K1 & K2). split; [exact K1|]. intros i o E. rewrite GV. apply K2. exact E.
Qed.

(** ** Telemetry *)
Definition in_order (n : nat) (l : list outduct) : Prop := forall i o, nth_error l i = Some o -> t_idx o = N.of_nat (n + i).
Lemma nth_set {A} n (x : A) l i : nth_error (set_nth n x l) i = if Nat.eqb i n then (match nth_error l n with Some _ => Some x | None => None end) else nth_error l i.
Proof.
  revert n i. induction l as [|a l IH]; intros n i.
  - replace (set_nth n x []) with (@nil A) by (destruct n; reflexivity). destruct (Nat.eqb_spec i n) as [->|]; [destruct n; reflexivity|reflexivity].
  - destruct n as [|n], i as [|i]; cbn [set_nth nth_error Nat.eqb]; try reflexivity. apply IH.
Qed.
Lemma telem_shape l : forall n v v', in_order n l -> (n + length l <= length v)%nat -> telem (N.of_nat n) l v = Some v' ->
  length v' = length v /\ forall i, match nth_error v i with
    | None => nth_error v' i = None
    | Some k => exists k', nth_error v' i = Some k' /\ k_open k' = k_open k /\
        (if (i <? n)%nat then k' = k else match nth_error l (i - n) with Some o => k_idx k' = N.of_nat i /\ k_hop k' = t_hop o /\ k_dests k' = dests_of o | None => k' = k end)
    end.
Proof.
  induction l as [|o l IH]; intros n v v' O L; cbn [telem].
  - intros [= <-]. split; [reflexivity|]. intros i. destruct (nth_error v i) as [k|]; [|reflexivity]. exists k. split; [reflexivity|]. split; [reflexivity|]. destruct (i <? n)%nat; [reflexivity|]. destruct (i - n)%nat; reflexivity.
  - cbn [length] in L. pose proof (O 0%nat o eq_refl) as E. rewrite Nat.add_0_r in E. rewrite E, Nat2N.id. destruct (N.ltb_spec (N.of_nat n) (N.of_nat (length v))) as [_|X]; [|lia].
    destruct (nth_error v n) as [k|] eqn:V; [|discriminate]. set (k1 := mkLink _ _ _ _ _ _ _ _ _ _ _). replace (N.of_nat n + 1) with (N.of_nat (S n)) by lia. intros H.
    destruct (IH (S n) (set_nth n k1 v) v') as (A & B); [intros i o0 Hi; rewrite (O (S i) o0 Hi); f_equal; lia|rewrite set_nth_length; lia|exact H|]. split; [rewrite A; apply set_nth_length|]. intros i. specialize (B i). rewrite nth_set, V in B.
    destruct (Nat.eqb_spec i n) as [EQ|NE]; [subst i|].
    + rewrite V. destruct B as (k' & B1 & B2 & B3). exists k'. split; [exact B1|]. split; [exact B2|]. replace (n <? S n)%nat with true in B3 by (symmetry; apply Nat.ltb_lt; lia). subst k'. rewrite Nat.ltb_irrefl, Nat.sub_diag. cbn [nth_error]. auto.
    + destruct (nth_error v i) as [ki|] eqn:Vi; [|exact B]. destruct B as (k' & B1 & B2 & B3). exists k'. split; [exact B1|]. split; [exact B2|]. destruct (Nat.ltb_spec i n) as [LT|GE].
      * replace (i <? S n)%nat with true in B3 by (symmetry; apply Nat.ltb_lt; lia). exact B3.
      * replace (i <? S n)%nat with false in B3 by (symmetry; apply Nat.ltb_ge; lia). replace (i - n)%nat with (S (i - S n)) by lia. exact B3.
Qed.
Lemma pending_shape p : forall v, length (apply_pending p v) = length v /\ forall i, match nth_error v i with
    | None => nth_error (apply_pending p v) i = None
    | Some k => exists k', nth_error (apply_pending p v) i = Some k' /\ core k' = core k end.
Proof.
  induction p as [|[j up] p IH]; intros v; cbn [apply_pending]; [split; [reflexivity|]; intros i; destruct (nth_error v i) as [k|]; [exists k; auto|reflexivity]|].
  destruct (if j <? N.of_nat (length v) then _ else None) as [k|] eqn:E; [|apply IH]. destruct (j <? N.of_nat (length v)); [|discriminate].
  match goal with |- context[set_nth ?n ?x v] => destruct (IH (set_nth n x v)) as (A & B); set (kk := x) in *; set (nn := n) in * end. split; [rewrite A; apply set_nth_length|]. intros i. specialize (B i). rewrite nth_set in B. fold nn in E. rewrite E in B.
  destruct (Nat.eqb_spec i nn) as [EQ|NE]; [subst i|exact B]. rewrite E. destruct B as (k' & B1 & B2). exists k'. split; [exact B1|]. rewrite B2. reflexivity.
Qed.
Lemma telemetry_mild l s s' : in_order 0 l -> (g_vec s = [] \/ length (g_vec s) = length l) -> named s -> on_telemetry l s = Some s' -> mild s s' /\ named s' /\ knows l s' /\ g_init s' = true.
Proof.
  intros O L NM. unfold on_telemetry. set (v := match g_vec s with [] => _ | v => v end). assert (LV : length v = length l) by (unfold v; destruct L as [->|L]; [apply repeat_length|destruct (g_vec s); [apply repeat_length|exact L]]).
  rewrite LV, Nat.eqb_refl. cbn [negb]. destruct (telem 0 l v) as [v1|] eqn:T; [|discriminate]. intros [= <-]. destruct (telem_shape l 0 v v1 O) as (A & B); [cbn [Nat.add]; lia|exact T|]. destruct (pending_shape (g_pend s) v1) as (C & D).
  assert (SH : forall i k', nth_error (apply_pending (g_pend s) v1) i = Some k' -> exists k o, nth_error v i = Some k /\ nth_error l i = Some o /\ k_open k' = k_open k /\ k_idx k' = N.of_nat i /\ k_hop k' = t_hop o /\ k_dests k' = dests_of o).
  { intros i k' H. specialize (B i). specialize (D i). destruct (nth_error v1 i) as [k1|] eqn:V1; [|congruence]. destruct D as (k2 & D1 & D2). assert (k2 = k') by congruence. subst k2. injection D2 as D2 D3 D4 D5.
    destruct (nth_error v i) as [k|] eqn:V; [|congruence]. destruct B as (k0 & B1 & B2 & B3). assert (k0 = k1) by congruence. subst k0. cbn [Nat.ltb Nat.leb] in B3. rewrite Nat.sub_0_r in B3.
    destruct (nth_error l i) as [o|] eqn:LO; [|apply nth_error_None in LO; assert (i < length v)%nat by (apply nth_error_Some; congruence); lia]. destruct B3 as (B3 & B4 & B5). exists k, o. repeat split; congruence. }
  assert (EX : forall i, (i < length l)%nat -> exists k', nth_error (apply_pending (g_pend s) v1) i = Some k') by (intros i H; destruct (nth_error (apply_pending (g_pend s) v1) i) as [k'|] eqn:E; [eauto|apply nth_error_None in E; lia]).
  assert (OLD : forall i k, nth_error (g_vec s) i = Some k -> nth_error v i = Some k /\ (i < length l)%nat).
  { intros i k H. assert (v = g_vec s) by (unfold v; destruct (g_vec s); [destruct i; discriminate|reflexivity]). split; [congruence|]. rewrite <- LV, H0. apply nth_error_Some. congruence. }
  split; [|split; [|split; [|reflexivity]]].
  - constructor; [reflexivity| | |apply fresh_same; reflexivity|].
    + intros [i|n] k G _; [|exists k; auto]. destruct (OLD i k G) as (V & LI). destruct (EX i LI) as (k' & E). exists k'. split; [exact E|]. destruct (SH i k' E) as (k0 & o & S1 & _ & S2 & _). congruence.
    + unfold open_ids, repopulate. proj. rewrite pending_open, (telem_open _ _ _ _ T). f_equal. unfold v. destruct (g_vec s); [|reflexivity]. clear. unfold open_of. induction (length l) as [|n IH]; [reflexivity|]. cbn [repeat flat_map]. exact IH.
    + intros i k G. destruct (OLD i k G) as (_ & LI). exact (EX i LI).
  - intros [i|n] k G; [|exact (NM (ROpp n) k G)]. destruct (SH i k G) as (_ & _ & _ & _ & _ & E & _). exact E.
  - split; [transitivity (length (apply_pending (g_pend s) v1)); [reflexivity|]; rewrite C, A; exact LV|]. intros i o H. destruct (EX i) as (k' & E); [apply nth_error_Some; congruence|]. exists k'. split; [exact E|]. destruct (SH i k' E) as (k & o' & _ & S1 & _ & _ & S2 & S3). assert (o' = o) by congruence. subst o'. auto.
Qed.
