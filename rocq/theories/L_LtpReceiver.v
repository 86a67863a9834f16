(** Lemmas about the LTP receiving session. *)
From Coq Require Import NArith ZArith List Bool Lia ZifyBool ZifyN.
From Verif Require Import Base M_FragmentSet S_FragmentSet L_FragmentSet M_LtpFragmentSet S_LtpFragmentSet L_LtpFragmentSet
  L_Bpv6Frag M_LtpReceiver M_LtpSender S_LtpSession.
Import ListNotations.
Open Scope N_scope.

Lemma claimed_in_scope strict r i : well_formed strict r -> claimed r i -> in_scope r i.
Proof.
  intros (A & B & C & D) (c & Hc & H1 & H2). rewrite Forall_forall in C. specialize (C c Hc). unfold in_scope. lia.
Qed.
Lemma claims_nonempty r i : claimed r i -> rs_claims r <> [].
Proof. intros (c & Hc & _) E. rewrite E in Hc. destruct Hc. Qed.
Lemma chain_lower rss : forall lo hi, scopes_chain lo hi rss -> forall r, In r rss -> lo <= rs_lower r.
Proof.
  induction rss as [|x rss IH]; intros lo hi H r Hr; [destruct Hr|].
  destruct H as (A & B & C). destruct Hr as [<-|Hr]; [lia|]. specialize (IH _ _ C r Hr). lia.
Qed.

(** What a report handed out by the receiver guarantees, relative to the bytes held. *)
Definition rep_ok (L : N) (have : N -> Prop) (r : report) : Prop :=
  report_within L r /\ forall i, claimed r i -> have i.

Lemma sorted_weaken (l : list claim) : Sorted.StronglySorted (claim_order true) l -> Sorted.StronglySorted (claim_order false) l.
Proof.
  induction 1; constructor; auto. eapply Forall_impl; [|eassumption]. unfold claim_order. intros; lia.
Qed.

(** The reports that answer one request. *)
Definition made_reports (c : rconf) (s : fset) (lower upper : N) : option (list report) :=
  match populate s lower upper with
  | None => None
  | Some r => if rc_maxclaims c <? N.of_nat (length (rs_claims r))
              then match split_report r (rc_maxclaims c) with SplitOk rss => Some rss | _ => None end
              else Some [r]
  end.
Lemma handle_report_made c csn lower upper sec st :
  handle_report c csn lower upper sec st =
  match made_reports c (rx_set st) lower upper with None => None | Some rs => Some (issue csn sec rs st) end.
Proof.
  unfold handle_report, made_reports. destruct (populate _ _ _) as [r|]; [|reflexivity].
  destruct (rc_maxclaims c <? _); [destruct (split_report _ _)|]; reflexivity.
Qed.
Lemma made_reports_ok c s lower upper L (have : N -> Prop) : 1 <= rc_maxclaims c -> canonical s -> L < U64MAX ->
  (forall i, covers s i -> have i) -> lower < upper -> upper <= L -> covers s (upper - 1) ->
  exists rs, made_reports c s lower upper = Some rs /\ rs <> [] /\ Forall (rep_ok L have) rs /\
    scopes_chain lower upper rs /\ (forall r i, In r rs -> in_scope r i -> (claimed r i <-> covers s i)).
Proof.
  intros Hm Hc HL Hh Hlu Hu Hcov. unfold made_reports.
  pose proof (populate_spec s lower upper Hc) as P. unfold U64MAX, W64 in *. specialize (P ltac:(lia) ltac:(lia)).
  unfold effective_lower, effective_upper in P.
  replace (upper =? U64MAX) with false in P by (unfold U64MAX; lia). replace (lower =? U64MAX) with false in P by (unfold U64MAX; lia).
  destruct (populate s lower upper) as [r|].
  2:{ destruct P as [->|P]; [destruct Hcov as (f & [] & _)|lia]. }
  destruct P as (_ & P1 & P2 & P3 & P4).
  assert (Hne : claimed r (upper - 1)). { apply P4. split; auto. unfold in_scope. lia. }
  pose proof (claims_nonempty _ _ Hne) as Hne'.
  destruct (rc_maxclaims c <? _) eqn:Em.
  - destruct (split_report_spec true r (rc_maxclaims c) P3 Hne' Hm) as (rss & E & R1 & R2 & R3 & R4).
    rewrite E. exists rss. split; auto. split; auto.
    assert (Q : forall r' i, In r' rss -> in_scope r' i -> (claimed r' i <-> covers s i)).
    { intros r' i Hr Hi. rewrite (split_stands_alone true r (rc_maxclaims c) rss P3 Hne' Hm E r' i Hr Hi). rewrite P4.
      split; [tauto|]. intros; split; auto. pose proof (chain_upper_le _ _ _ R3) as (_ & F). rewrite Forall_forall in F.
      pose proof (chain_lower _ _ _ R3 r' Hr). specialize (F _ Hr). unfold in_scope in *. lia. }
    split; [|split; [rewrite P1, P2 in R3; exact R3|exact Q]].
    apply Forall_forall. intros r' Hr. rewrite Forall_forall in R2. pose proof (R2 _ Hr) as (S1 & S2 & S3 & S4 & S5).
    pose proof (chain_upper_le _ _ _ R3) as (_ & F). rewrite Forall_forall in F. specialize (F _ Hr).
    assert (WF : well_formed false r'). { destruct P3 as (W1 & W2 & _). unfold well_formed, W64 in *. repeat split; auto; lia. }
    split; [split; [exact WF|split; [lia|exact S2]]|]. intros i Hi. apply Hh.
    apply (Q r' i Hr); auto. eapply claimed_in_scope; eauto.
  - exists [r]. split; auto. split; [discriminate|].
    assert (WF : well_formed false r). { destruct P3 as (W1 & W2 & W3 & W4). repeat split; auto. now apply sorted_weaken. }
    split; [|split].
    + constructor; [|constructor]. split; [split; [exact WF|split; [lia|exact Hne']]|]. intros i Hi. apply Hh. now apply P4.
    + simpl. rewrite P1, P2. auto.
    + intros r' i [<-|[]] Hi. rewrite P4. tauto.
Qed.

(** issue touches only the report bookkeeping. *)
Definition same_core (a b : rx) : Prop :=
  rx_len a = rx_len b /\ rx_lowgreen a = rx_lowgreen b /\ rx_cur a = rx_cur b /\ rx_did a = rx_did b /\
  rx_noted a = rx_noted b /\ rx_eob a = rx_eob b /\ rx_eobred a = rx_eobred b /\ rx_set a = rx_set b /\
  rx_data a = rx_data b /\ rx_csns a = rx_csns b /\ rx_delivered a = rx_delivered b /\ rx_green a = rx_green b /\
  rx_notes a = rx_notes b.
Lemma same_core_refl a : same_core a a. Proof. repeat split. Qed.
Lemma same_core_trans a b c : same_core a b -> same_core b c -> same_core a c.
Proof. unfold same_core. intuition congruence. Qed.

Lemma issue_core csn sec : forall rs st, same_core (issue csn sec rs st) st /\ rx_pending (issue csn sec rs st) = rx_pending st /\
  rx_timers (issue csn sec rs st) = rx_timers st /\
  (forall p, In p (rx_sent (issue csn sec rs st)) -> In p (rx_sent st) \/ (In (rp_rep p) rs /\ rp_csn p = csn)).
Proof.
  induction rs as [|r rs IH]; intros st; simpl.
  - repeat split; auto.
  - destruct (IH (up_reports st (add64 (rx_next st) 1)
      match find_sent st (rx_next st) with Some _ => rx_sent st | None => rx_sent st ++ [mkRpkt (rx_next st) csn r] end
      (if sec then rx_lastprim st else Some (rx_next st)) (rx_queue st ++ [(rx_next st, 1)]))) as (A & B & T & C).
    split; [|split; [|split]].
    + eapply same_core_trans; [exact A|]. repeat split.
    + rewrite B. reflexivity.
    + rewrite T. reflexivity.
    + intros p Hp. destruct (C p Hp) as [H|(H1 & H2)]; [|auto]. cbn [rx_sent up_reports] in H.
      destruct (find_sent st (rx_next st)); [auto|]. apply in_app_iff in H. destruct H as [H|[<-|[]]]; [auto|]. right. cbn. auto.
Qed.

Definition eorp_in (hist : list dseg) : Prop := exists sg, In sg hist /\ is_red sg /\ ends_red_part sg.
Definition len_ok (L : N) (hist : list dseg) (st : rx) : Prop :=
  (rx_len st = L /\ eorp_in hist) \/ (rx_len st = U64MAX /\ ~ eorp_in hist).
Definition benign (n : note) : Prop := n = Closed \/ n = CancelRetry.

(** The part of the invariant that holds at every intermediate point of DataSegmentReceivedCallback. *)
Record rmid (block : list N) (L : N) (hist : list dseg) (st : rx) : Prop := {
  rm_can : canonical (rx_set st);
  rm_cov : forall i, covers (rx_set st) i <-> red_received hist i;
  rm_low : L <= rx_lowgreen st;
  rm_cur : rx_cur st <= L /\ N.of_nat (length (rx_data st)) = rx_cur st;
  rm_max : forall i, covers (rx_set st) i -> i < rx_cur st;
  rm_bytes : forall i, covers (rx_set st) i -> nth (N.to_nat i) (rx_data st) 0 = nth (N.to_nat i) block 0;
  rm_eob1 : L < size_of block -> rx_eobred st = false;
  rm_eob2 : L = size_of block -> eorp_in hist -> rx_eobred st = true;
  rm_sent : Forall (fun p => rep_ok L (red_received hist) (rp_rep p)) (rx_sent st);
  rm_pend : Forall (fun e => fst (fst e) <= snd (fst e) /\ snd (fst e) + 1 <= L /\ covers (rx_set st) (snd (fst e))) (rx_pending st);
  rm_notes : Forall benign (rx_notes st) }.

Record rinv (block : list N) (L : N) (hist : list dseg) (st : rx) : Prop := {
  ri_mid : rmid block L hist st;
  ri_len : len_ok L hist st;
  ri_did : rx_did st = true <-> 0 < L /\ forall i, i < L -> red_received hist i;
  ri_del : rx_delivered st = if rx_did st then [(slice block 0 L, L, L =? size_of block)] else [];
  ri_csns : forall csn, In csn (rx_csns st) -> exists sg r, In sg hist /\ is_red sg /\ sg_ckpt sg = Some (csn, r) }.

Lemma rmid_core block L hist a b : same_core a b -> rmid block L hist b ->
  Forall (fun p => rep_ok L (red_received hist) (rp_rep p)) (rx_sent a) ->
  Forall (fun e => fst (fst e) <= snd (fst e) /\ snd (fst e) + 1 <= L /\ covers (rx_set a) (snd (fst e))) (rx_pending a) ->
  rmid block L hist a.
Proof.
  intros (A1 & A2 & A3 & A4 & A5 & A6 & A7 & A8 & A9 & A10 & A11 & A12 & A13) [] HS HP.
  constructor; try rewrite A8; try rewrite A2; try rewrite A3; try rewrite A9; try rewrite A7; try rewrite A13; auto.
  rewrite A8 in HP. exact HP.
Qed.

Lemma handle_report_mid block L hist c csn lower upper sec st : 1 <= rc_maxclaims c -> L < U64MAX ->
  rmid block L hist st -> lower < upper -> upper <= L -> covers (rx_set st) (upper - 1) ->
  exists st', handle_report c csn lower upper sec st = Some st' /\ rmid block L hist st' /\ same_core st' st /\
    rx_pending st' = rx_pending st.
Proof.
  intros Hm HL M Hlu Hu Hcov. rewrite handle_report_made.
  destruct (made_reports_ok c (rx_set st) lower upper L (red_received hist) Hm (rm_can _ _ _ _ M) HL
    (fun i H => proj1 (rm_cov _ _ _ _ M i) H) Hlu Hu Hcov) as (rs & E & _ & F & _).
  rewrite E. destruct (issue_core csn sec rs st) as (C & P & _ & S).
  eexists. split; [reflexivity|]. split; [|auto]. apply (rmid_core _ _ _ _ st); auto.
  - apply Forall_forall. intros p Hp. destruct (S p Hp) as [H|(H & _)].
    + pose proof (rm_sent _ _ _ _ M) as Q. rewrite Forall_forall in Q. auto.
    + rewrite Forall_forall in F. auto.
  - rewrite P. destruct C as (_ & _ & _ & _ & _ & _ & _ & C8 & _). rewrite C8. apply (rm_pend _ _ _ _ M).
Qed.

Lemma pend_erase_In k m e : In e (pend_erase k m) -> In e m.
Proof. unfold pend_erase. rewrite filter_In. tauto. Qed.
Lemma pend_ins_In x m e : In e (pend_ins x m) <-> e = x \/ In e m.
Proof.
  induction m as [|y m IH]; simpl; [intuition|]. destruct (frag_lt_abut (fst y) (fst x)); simpl; [rewrite IH|]; intuition.
Qed.

Lemma up_pending_core st p : same_core (up_pending st p) st. Proof. repeat split. Qed.

Lemma fire_pending block L hist c st k csn sec : 1 <= rc_maxclaims c -> L < U64MAX -> rmid block L hist st ->
  In (k, (csn, sec)) (rx_pending st) ->
  exists st', handle_report c csn (fst k) (add64 (snd k) 1) sec st = Some st' /\
    rmid block L hist (up_pending st' (pend_erase k (rx_pending st'))) /\ same_core st' st.
Proof.
  intros Hm HL M Hin. pose proof (rm_pend _ _ _ _ M) as P. rewrite Forall_forall in P. destruct (P _ Hin) as (P1 & P2 & P3).
  cbn [fst snd] in *. rewrite add64_small by (unfold U64MAX, W64 in *; lia).
  destruct (handle_report_mid block L hist c csn (fst k) (snd k + 1) sec st Hm HL M ltac:(lia) P2) as (st' & E & M' & C & Q).
  { now rewrite N.add_sub. }
  exists st'. split; auto. split; auto. apply (rmid_core _ _ _ _ st'); auto using up_pending_core.
  - apply (rm_sent _ _ _ _ M').
  - apply Forall_forall. intros e He. cbn [rx_pending up_pending rx_set] in *. apply pend_erase_In in He.
    pose proof (rm_pend _ _ _ _ M') as P'. rewrite Forall_forall in P'. auto.
Qed.

Lemma fill_gaps_mid block L hist c off st : 1 <= rc_maxclaims c -> L < U64MAX -> rmid block L hist st ->
  exists st' b, fill_gaps c off st = Some (st', b) /\ rmid block L hist st' /\ same_core st' st.
Proof.
  intros Hm HL M. unfold fill_gaps. destruct (pend_find (off, off) (rx_pending st)) as [[k [csn sec]]|] eqn:E.
  - apply find_some in E. destruct E as (Hin & _). destruct (contains_entirely _ _ _).
    + destruct (fire_pending block L hist c st k csn sec Hm HL M Hin) as (st' & -> & M' & C).
      eexists _, _. split; [reflexivity|]. split; auto.
    + eexists _, _. split; [reflexivity|]. split; auto using same_core_refl.
  - eexists _, _. split; [reflexivity|]. split; auto using same_core_refl.
Qed.

Lemma answer_mid block L hist c csn rsn upper st : 1 <= rc_maxclaims c -> L < U64MAX -> rmid block L hist st ->
  0 < upper -> upper <= L -> covers (rx_set st) (upper - 1) ->
  exists st', answer_checkpoint c csn rsn upper st = Some st' /\ rmid block L hist st' /\ same_core st' st.
Proof.
  intros Hm HL M H0 Hu Hcov. unfold answer_checkpoint. set (lower := report_lower st rsn). clearbody lower.
  destruct (upper <=? lower) eqn:E; [eexists; split; [reflexivity|]; auto using same_core_refl|].
  destruct (negb (rc_defer c) || _).
  - destruct (handle_report_mid block L hist c csn lower upper (negb (rsn =? 0)) st Hm HL M ltac:(lia) Hu Hcov) as (st' & -> & M' & C & _).
    eauto.
  - destruct (pend_find _ _); [eexists; split; [reflexivity|]; auto using same_core_refl|].
    eexists. split; [reflexivity|]. split; [|apply up_pending_core].
    apply (rmid_core _ _ _ _ st); auto using up_pending_core; [apply (rm_sent _ _ _ _ M)|].
    apply Forall_forall. intros e He. cbn [rx_pending up_pending rx_set] in *. apply pend_ins_In in He.
    destruct He as [->|He].
    + cbn [fst snd]. rewrite sub64_small by (unfold U64MAX, W64 in *; lia). repeat split; auto; lia.
    + pose proof (rm_pend _ _ _ _ M) as P'. rewrite Forall_forall in P'. auto.
Qed.

Lemma slice_whole_eq block L d : L <= size_of block -> N.of_nat (length d) = L ->
  (forall i, i < L -> nth (N.to_nat i) d 0 = nth (N.to_nat i) block 0) -> d = slice block 0 L.
Proof.
  intros HL Hd H. unfold slice, size_of in *. change (N.to_nat 0) with 0%nat. rewrite skipn_O.
  apply eq_by_nth.
  - rewrite firstn_length. lia.
  - intros i Hi. rewrite firstn_length in Hi. rewrite H by lia.
    rewrite <- (firstn_skipn (N.to_nat L) block) at 1. rewrite app_nth1; [reflexivity|]. rewrite firstn_length. lia.
Qed.

(** A red segment covering the last red byte is marked as the end of the red part. *)
Lemma last_byte_eorp block L hist : Forall (segment_of block L) hist -> 0 < L -> red_received hist (L - 1) -> eorp_in hist.
Proof.
  intros F HL (sg & Hin & Hr & H1 & H2). rewrite Forall_forall in F. destruct (F sg Hin) as (_ & _ & _ & [(_ & A & B & _)|(A & _)]).
  - exists sg. split; auto. split; auto. apply B. lia.
  - unfold is_red in Hr. lia.
Qed.

Lemma set_singleton_all L (s : fset) : 0 < L -> L < W64 -> canonical s -> (forall i, covers s i -> i < L) ->
  (forall i, i < L -> covers s i) -> s = [(0, L - 1)].
Proof. intros H1 H2 H3 H4 H5. apply whole_set; auto. intros i. split; auto. Qed.

Lemma try_deliver_inv block L hist c isckpt js st : 1 <= rc_maxclaims c -> L < U64MAX -> L <= size_of block ->
  Forall (segment_of block L) hist ->
  rmid block L hist st -> len_ok L hist st -> rx_did st = false -> rx_delivered st = [] ->
  (forall csn, In csn (rx_csns st) -> exists sg r, In sg hist /\ is_red sg /\ sg_ckpt sg = Some (csn, r)) ->
  exists st', try_deliver c isckpt js st = Some st' /\ rinv block L hist st'.
Proof.
  intros Hm HL Hsz F M Hlen Hdid Hdel Hcsn.
  assert (Hnodel : ~ (0 < L /\ forall i, i < L -> red_received hist i) -> rinv block L hist st).
  { intros Hn. constructor; auto.
    - rewrite Hdid. split; [discriminate|]. intros H. destruct (Hn H).
    - rewrite Hdid. exact Hdel. }
  assert (Hall : 0 < L -> (forall i, i < L -> red_received hist i) -> rx_set st = [(0, L - 1)] /\ rx_len st = L).
  { intros H0 HA. split.
    - apply set_singleton_all; auto; [unfold U64MAX, W64 in *; lia|apply (rm_can _ _ _ _ M)| |].
      + intros i Hi. pose proof (rm_max _ _ _ _ M i Hi). pose proof (rm_cur _ _ _ _ M). lia.
      + intros i Hi. apply (rm_cov _ _ _ _ M). auto.
    - destruct Hlen as [(A & _)|(_ & B)]; auto. exfalso. apply B. eapply last_byte_eorp; eauto. apply HA. lia. }
  unfold try_deliver. destruct (rx_set st) as [|[b e] [|x r]] eqn:Es.
  - eexists. split; [reflexivity|]. apply Hnodel. intros (A & B). destruct (Hall A B) as (C & _). discriminate.
  - destruct (negb (rx_did st) && negb (rx_len st =? U64MAX) && (b =? 0) && (e =? sub64 (rx_len st) 1)) eqn:Ec.
    + assert (HlenL : rx_len st = L /\ eorp_in hist). { destruct Hlen as [?|(A & _)]; auto. exfalso. lia. }
      destruct HlenL as (HlenL & Heo).
      assert (HL0 : 0 < L).
      { destruct Heo as (sg & Hin & Hr & He). rewrite Forall_forall in F. destruct (F sg Hin) as (A & _ & _ & [(_ & B & _)|(B & _)]); [lia|]. unfold is_red in Hr. lia. }
      assert (Hbe : b = 0 /\ e = L - 1). { rewrite HlenL in Ec. rewrite sub64_small in Ec by (unfold U64MAX, W64 in *; lia). lia. }
      destruct Hbe as (-> & ->).
      assert (HA : forall i, i < L -> covers (rx_set st) i). { intros i Hi. rewrite Es. exists (0, L - 1). split; [now left|]. unfold in_frag. cbn. lia. }
      assert (Hcur : rx_cur st = L). { pose proof (rm_max _ _ _ _ M (L - 1) (HA (L - 1) ltac:(lia))). pose proof (rm_cur _ _ _ _ M). lia. }
      assert (Hfin : forall st', rmid block L hist st' -> same_core st' st -> rinv block L hist (up_deliver st')).
      { intros st' M' (C1 & C2 & C3 & C4 & C5 & C6 & C7 & C8 & C9 & C10 & C11 & C12 & C13).
        constructor.
        - destruct M'. constructor; cbn [rx_set rx_lowgreen rx_cur rx_data rx_eobred rx_sent rx_pending rx_notes up_deliver]; auto.
        - left. cbn [rx_len up_deliver]. rewrite C1. auto.
        - cbn [rx_did up_deliver]. split; [|auto]. intros _. split; auto. intros i Hi. apply (rm_cov _ _ _ _ M). auto.
        - cbn [rx_did rx_delivered up_deliver]. rewrite C11, Hdel, C9, C1, HlenL, C7. cbn [app].
          f_equal. f_equal; [f_equal|].
          + apply slice_whole_eq; auto; [pose proof (rm_cur _ _ _ _ M); lia|].
            intros i Hi. apply (rm_bytes _ _ _ _ M). auto.
          + destruct (L =? size_of block) eqn:Eq.
            * apply (rm_eob2 _ _ _ _ M); auto. lia.
            * apply (rm_eob1 _ _ _ _ M). lia.
        - cbn [rx_csns up_deliver]. rewrite C10. exact Hcsn. }
      destruct (isckpt || js).
      * eexists. split; [reflexivity|]. apply Hfin; auto using same_core_refl.
      * rewrite HlenL. destruct (handle_report_mid block L hist c 0 0 L false st Hm HL M HL0 ltac:(lia) (HA (L - 1) ltac:(lia))) as (st' & -> & M' & C & _).
        eexists. split; [reflexivity|]. apply Hfin; auto.
    + eexists. split; [reflexivity|]. apply Hnodel. intros (A & B). destruct (Hall A B) as (C & D).
      injection C as -> ->. rewrite Hdid, D in Ec. rewrite sub64_small in Ec by (unfold U64MAX, W64 in *; lia). unfold U64MAX in *. lia.
  - eexists. split; [reflexivity|]. apply Hnodel. intros (A & B). destruct (Hall A B) as (C & _). discriminate.
Qed.

Lemma covers_dec s i : covers s i \/ ~ covers s i.
Proof.
  unfold covers. induction s as [|f s IH]; [right; intros (f & [] & _)|].
  destruct IH as [(g & A & B)|IH]; [left; exists g; split; [now right|auto]|].
  assert (in_frag f i \/ ~ in_frag f i) as [Hf|Hf] by (unfold in_frag; lia).
  - left. exists f. split; [now left|auto].
  - right. intros (g & [<-|A] & B); [auto|]. apply IH. eauto.
Qed.
Lemma red_received_app hist sg i :
  red_received (hist ++ [sg]) i <-> red_received hist i \/ (is_red sg /\ sg_off sg <= i /\ i < sg_off sg + sg_len sg).
Proof.
  unfold red_received. split.
  - intros (x & Hx & H). apply in_app_iff in Hx. destruct Hx as [Hx|[<-|[]]]; [left; eauto|right; exact H].
  - intros [(x & Hx & H)|H]; [exists x|exists sg]; rewrite in_app_iff; split; auto. right. now left.
Qed.
Lemma eorp_app hist sg : eorp_in (hist ++ [sg]) <-> eorp_in hist \/ (is_red sg /\ ends_red_part sg).
Proof.
  unfold eorp_in. split.
  - intros (x & Hx & H). apply in_app_iff in Hx. destruct Hx as [Hx|[<-|[]]]; [left; eauto|right; exact H].
  - intros [(x & Hx & H)|H]; [exists x|exists sg]; rewrite in_app_iff; split; auto. right. now left.
Qed.
Lemma rep_ok_mono L (h h' : N -> Prop) r : (forall i, h i -> h' i) -> rep_ok L h r -> rep_ok L h' r.
Proof. intros H (A & B). split; auto. Qed.

Lemma red_flag_bits (f : N) : f <= 3 -> N.testbit f 1 = true <-> f = 2 \/ f = 3.
Proof. intros H. assert (f = 0 \/ f = 1 \/ f = 2 \/ f = 3) as [->|[->|[->| ->]]] by lia; cbv; intuition (try discriminate; auto). Qed.
Lemma eob_flag_bits (f : N) : f <= 3 \/ f = 4 \/ f = 7 -> N.testbit f 0 && N.testbit f 1 = true <-> f = 3 \/ f = 7.
Proof. intros H. assert (f = 0 \/ f = 1 \/ f = 2 \/ f = 3 \/ f = 4 \/ f = 7) as [->|[->|[->|[->|[->| ->]]]]] by lia; cbv; intuition (try discriminate; auto). Qed.

Lemma resize_to_spec pad n l : N.of_nat (length l) <= n -> resize_to pad n l = l ++ repeat pad (N.to_nat n - length l).
Proof. intros H. unfold resize_to. rewrite firstn_all2 by lia. reflexivity. Qed.

Lemma write_at_spec l off d : off + N.of_nat (length d) <= N.of_nat (length l) ->
  exists l', write_at l off d = Some l' /\ length l' = length l /\
    forall i, nth (N.to_nat i) l' 0 = if (off <=? i) && (i <? off + N.of_nat (length d)) then nth (N.to_nat (i - off)) d 0 else nth (N.to_nat i) l 0.
Proof.
  intros H. unfold write_at. replace (off + N.of_nat (length d) <=? N.of_nat (length l)) with true by lia.
  eexists. split; [reflexivity|]. split.
  - rewrite !app_length, firstn_length, skipn_length. lia.
  - intros i. rewrite nth_write by lia.
    replace (Nat.leb (N.to_nat off) (N.to_nat i) && Nat.ltb (N.to_nat i) (N.to_nat off + length d))%bool
      with ((off <=? i) && (i <? off + N.of_nat (length d))) by lia.
    destruct ((off <=? i) && (i <? off + N.of_nat (length d))); [|reflexivity]. f_equal. lia.
Qed.

Lemma nth_slice l a n i : i < n -> a + n <= size_of l -> nth (N.to_nat i) (slice l a n) 0 = nth (N.to_nat (a + i)) l 0.
Proof. intros. unfold slice, size_of in *. now apply (nth_piece l a n i). Qed.

Definition rconf_ok (c : rconf) (L : N) : Prop := 1 <= rc_maxclaims c /\ L <= rc_maxred c.

(** After the data has been stored, everything up to the end of the red branch. *)
Lemma red_tail_inv block L hist c sg js st : 1 <= rc_maxclaims c -> L < U64MAX -> L <= size_of block ->
  Forall (segment_of block L) (hist ++ [sg]) -> csns_consistent (hist ++ [sg]) -> is_red sg ->
  rmid block L (hist ++ [sg]) st -> len_ok L hist st -> rx_did st = false -> rx_delivered st = [] ->
  ~ (0 < L /\ forall i, i < L -> red_received hist i) ->
  (forall csn, In csn (rx_csns st) -> exists sg r, In sg hist /\ is_red sg /\ sg_ckpt sg = Some (csn, r)) ->
  exists st', red_tail c sg (sg_off sg + sg_len sg) js st = Some st' /\ rinv block L (hist ++ [sg]) st'.
Proof.
  intros Hm HL Hsz F HC Hr M Hlen Hdid Hdel Hnot Hcsn. unfold red_tail.
  assert (Hsg : segment_of block L sg). { rewrite Forall_forall in F. apply F. rewrite in_app_iff. right. now left. }
  destruct Hsg as (G1 & G2 & G3 & G4). destruct G4 as [(_ & G4 & G5 & G6 & G7)|(G4 & _)]; [|unfold is_red in Hr; lia].
  set (st1 := if N.testbit (sg_flags sg) 1 then up_marks st (rx_eob st) (rx_eobred st) (sg_off sg + sg_len sg) (rx_lowgreen st) (rx_cur st) else st).
  assert (Hlen1 : len_ok L (hist ++ [sg]) st1 /\ rmid block L (hist ++ [sg]) st1 /\ rx_did st1 = false /\ rx_delivered st1 = [] /\ rx_csns st1 = rx_csns st /\ rx_set st1 = rx_set st).
  { pose proof (red_flag_bits _ Hr) as B. subst st1. destruct (N.testbit (sg_flags sg) 1) eqn:Eb.
    - split; [|split; [|auto]].
      + left. cbn [rx_len up_marks]. assert (E : ends_red_part sg) by (unfold ends_red_part; tauto). split; [now apply G5|].
        apply eorp_app. right. auto.
      + destruct M. constructor; auto.
    - split; [|auto]. assert (E : ~ ends_red_part sg) by (unfold ends_red_part; intros E; apply B in E; congruence).
      unfold len_ok. rewrite eorp_app. destruct Hlen; [left|right]; tauto. }
  destruct Hlen1 as (Hlen1 & M1 & Hdid1 & Hdel1 & Hcsn1 & Hset1). clearbody st1.
  assert (Hcsn1' : forall csn, In csn (rx_csns st1) -> exists sg0 r, In sg0 (hist ++ [sg]) /\ is_red sg0 /\ sg_ckpt sg0 = Some (csn, r)).
  { rewrite Hcsn1. intros csn H. destruct (Hcsn csn H) as (x & r & A & B & C). exists x, r. rewrite in_app_iff. auto. }
  destruct (negb (sg_flags sg =? 0)) eqn:Eck.
  2:{ apply try_deliver_inv; auto. }
  assert (Hck : is_checkpoint sg) by (unfold is_checkpoint, is_red in *; lia).
  destruct (proj1 G7 Hck) as ([csn rsn] & Ep). rewrite Ep.
  destruct (existsb (N.eqb csn) (rx_csns st1)) eqn:Eex.
  - eexists. split; [reflexivity|]. constructor; auto.
    + rewrite Hdid1. split; [discriminate|]. intros (A & B). exfalso. apply Hnot. split; auto. intros i Hi.
      apply existsb_exists in Eex. destruct Eex as (x & Hx & Ex). assert (x = csn) by lia. subst x. rewrite Hcsn1 in Hx.
      destruct (Hcsn csn Hx) as (sg0 & r0 & I0 & R0 & K0).
      destruct (HC sg sg0 csn rsn r0) as (E1 & E2); auto; try (rewrite in_app_iff; auto). { right. now left. }
      specialize (B i Hi). apply red_received_app in B. destruct B as [B|(_ & B1 & B2)]; auto.
      exists sg0. rewrite <- E1, <- E2. auto.
    + rewrite Hdid1. exact Hdel1.
  - assert (M2 : rmid block L (hist ++ [sg]) (up_csns st1 (csn :: rx_csns st1))) by (destruct M1; constructor; auto).
    assert (Hcov : covers (rx_set (up_csns st1 (csn :: rx_csns st1))) (sg_off sg + sg_len sg - 1)).
    { apply (rm_cov _ _ _ _ M2). apply red_received_app. right. split; auto. lia. }
    destruct (answer_mid block L (hist ++ [sg]) c csn rsn (sg_off sg + sg_len sg) _ Hm HL M2 ltac:(lia) G4 Hcov) as (st2 & -> & M3 & C).
    destruct C as (C1 & C2 & C3 & C4 & C5 & C6 & C7 & C8 & C9 & C10 & C11 & C12 & C13).
    apply try_deliver_inv; auto.
    + unfold len_ok. rewrite C1. exact Hlen1.
    + rewrite C4. exact Hdid1.
    + rewrite C11. exact Hdel1.
    + rewrite C10. cbn [rx_csns up_csns]. intros x [<-|Hx]; [|auto]. exists sg, rsn. rewrite in_app_iff. split; [right; now left|auto].
Qed.

Lemma rx_segment_inv block L hist c sg st : rconf_ok c L -> L < U64MAX -> L <= size_of block -> size_of block < W64 ->
  Forall (segment_of block L) (hist ++ [sg]) -> csns_consistent (hist ++ [sg]) -> rinv block L hist st ->
  exists st', rx_segment c sg st = Some st' /\ rinv block L (hist ++ [sg]) st'.
Proof.
  intros (Hm & Hmax) HL Hsz HW F HC I. unfold rx_segment.
  assert (Hsg : segment_of block L sg). { rewrite Forall_forall in F. apply F. rewrite in_app_iff. right. now left. }
  destruct Hsg as (G1 & G2 & G3 & G4). rewrite add64_small by lia.
  assert (Hfl : sg_flags sg <= 3 \/ sg_flags sg = 4 \/ sg_flags sg = 7). { destruct G4 as [(A & _)|(A & _)]; unfold is_red in *; lia. }
  pose proof (eob_flag_bits _ Hfl) as Beob.
  set (iseob := N.testbit (sg_flags sg) 0 && N.testbit (sg_flags sg) 1) in *. clearbody iseob.
  destruct G4 as [(Hr & G4 & G5 & G6 & G7)|(Hg & G4 & G5)].
  - (* red *)
    replace (sg_flags sg <=? 3) with true by (unfold is_red in Hr; lia).
    (* the end-of-block marks *)
    set (st0 := if iseob then up_marks st true true (rx_len st) (rx_lowgreen st) (rx_cur st) else st).
    assert (I0 : rx_set st0 = rx_set st /\ rx_len st0 = rx_len st /\ rx_lowgreen st0 = rx_lowgreen st /\ rx_cur st0 = rx_cur st /\
      rx_did st0 = rx_did st /\ rx_data st0 = rx_data st /\ rx_sent st0 = rx_sent st /\ rx_pending st0 = rx_pending st /\
      rx_notes st0 = rx_notes st /\ rx_delivered st0 = rx_delivered st /\ rx_csns st0 = rx_csns st /\
      (L < size_of block -> rx_eobred st0 = false) /\
      (L = size_of block -> eorp_in (hist ++ [sg]) -> rx_eobred st0 = true)).
    { destruct I as [M ? ? ? ?]. subst st0. destruct iseob.
      - cbn. repeat split; auto. intros HlL. assert (ends_block sg) by (unfold ends_block; tauto). rewrite G6 in H. lia.
      - repeat split; auto; [apply (rm_eob1 _ _ _ _ M)|]. intros HlL He. apply eorp_app in He. destruct He as [He|(_ & He)]; [now apply (rm_eob2 _ _ _ _ M)|].
        apply G5 in He. assert (ends_block sg) by (apply G6; lia). unfold ends_block in H. assert (false = true) by tauto. discriminate. }
    clearbody st0. destruct I0 as (J1 & J2 & J3 & J4 & J5 & J6 & J7 & J8 & J9 & J10 & J11 & J12 & J13).
    unfold rx_red. set (needed := rx_cur st0 <? sg_off sg + sg_len sg).
    set (st1 := if needed then up_marks st0 (rx_eob st0) (rx_eobred st0) (rx_len st0) (rx_lowgreen st0) (sg_off sg + sg_len sg) else st0).
    assert (K : rx_set st1 = rx_set st /\ rx_len st1 = rx_len st /\ rx_lowgreen st1 = rx_lowgreen st /\
      rx_cur st1 = N.max (rx_cur st) (sg_off sg + sg_len sg) /\ rx_eobred st1 = rx_eobred st0 /\
      rx_did st1 = rx_did st /\ rx_data st1 = rx_data st /\ rx_sent st1 = rx_sent st /\ rx_pending st1 = rx_pending st /\
      rx_notes st1 = rx_notes st /\ rx_delivered st1 = rx_delivered st /\ rx_csns st1 = rx_csns st).
    { subst st1 needed. destruct (rx_cur st0 <? sg_off sg + sg_len sg) eqn:E; cbn; repeat split; auto; lia. }
    destruct K as (K1 & K2 & K3 & K4 & K5 & K6 & K7 & K8 & K9 & K10 & K11 & K12).
    clearbody st1. destruct I as [M Hlen Hdid Hdel Hcsn].
    pose proof (rm_low _ _ _ _ M) as Ml. pose proof (rm_cur _ _ _ _ M) as (Mc1 & Mc2).
    replace (rx_lowgreen st1 <? rx_cur st1) with false by lia.
    rewrite K6. destruct (rx_did st) eqn:Ed.
    + (* already delivered *)
      destruct (proj1 Hdid eq_refl) as (D0 & DA).
      assert (Hcur : rx_cur st = L).
      { assert (covers (rx_set st) (L - 1)) by (apply (rm_cov _ _ _ _ M); apply DA; lia). pose proof (rm_max _ _ _ _ M _ H). lia. }
      eexists. split; [reflexivity|].
      assert (Hsame : forall i, red_received (hist ++ [sg]) i <-> red_received hist i).
      { intros i. rewrite red_received_app. split; [|tauto]. intros [?|(_ & A & B)]; auto. apply DA. lia. }
      assert (He : eorp_in hist). { eapply last_byte_eorp; [|exact D0|apply DA; lia]. apply Forall_app in F. apply F. }
      constructor.
      * destruct M. constructor.
        -- rewrite K1. auto.
        -- rewrite K1. intros i. rewrite Hsame. auto.
        -- rewrite K3. auto.
        -- rewrite K4, K7, Hcur. lia.
        -- rewrite K1, K4. intros i Hi. specialize (rm_max0 i Hi). lia.
        -- rewrite K1, K7. auto.
        -- rewrite K5. auto.
        -- rewrite K5. auto.
        -- rewrite K8. eapply Forall_impl; [|exact rm_sent0]. intros p. apply rep_ok_mono. intros i. apply Hsame.
        -- rewrite K9, K1. auto.
        -- rewrite K10. auto.
      * unfold len_ok. rewrite K2. left. destruct Hlen as [(A & _)|(_ & A)]; [|tauto]. split; auto. apply eorp_app. auto.
      * rewrite K6. split; auto. intros _. split; auto. intros i Hi. apply Hsame. auto.
      * rewrite K11, K6. exact Hdel.
      * rewrite K12. intros csn Hx. destruct (Hcsn csn Hx) as (x & r & A & B & C). exists x, r. rewrite in_app_iff. auto.
    + replace (rc_maxred c <? rx_cur st1) with false by lia. rewrite K1.
      rewrite sub64_small by lia.
      assert (Hv : valid (sg_off sg, sg_off sg + sg_len sg - 1)) by (unfold valid; cbn [fst snd]; unfold U64MAX, W64 in *; lia).
      pose proof (insert_spec (rc_last c) (rx_set st) _ (rm_can _ _ _ _ M) Hv) as (N1 & N2 & N3).
      destruct (insert_fragment (rc_last c) (rx_set st) (sg_off sg, sg_off sg + sg_len sg - 1)) as [set' new]. cbn [fst snd] in *.
      assert (Hnot : ~ (0 < L /\ forall i, i < L -> red_received hist i)). { intros Q. apply Hdid in Q. discriminate. }
      assert (Hdel' : rx_delivered st = []). { exact Hdel. }
      assert (Hcov' : forall i, covers set' i <-> red_received (hist ++ [sg]) i).
      { intros i. rewrite N2, red_received_app, (rm_cov _ _ _ _ M). unfold in_frag. cbn [fst snd]. clear - Hr G1.
        split; [intros [?|?]; [left; assumption|right; split; [assumption|lia]]|intros [?|(_ & ?)]; [left; assumption|right; lia]]. }
      assert (Hmono : forall i, red_received hist i -> red_received (hist ++ [sg]) i) by (intros i Hi; apply red_received_app; auto).
      assert (HcurF : needed = (rx_cur st <? sg_off sg + sg_len sg)) by (subst needed; rewrite J4; reflexivity).
      assert (Hmid : forall d, N.of_nat (length d) = rx_cur st1 ->
        (forall i, covers set' i -> nth (N.to_nat i) d 0 = nth (N.to_nat i) block 0) -> rmid block L (hist ++ [sg]) (up_data st1 set' d)).
      { intros d Hd1 Hd2. constructor; cbn [rx_set rx_lowgreen rx_cur rx_data rx_eobred rx_sent rx_pending rx_notes up_data]; auto.
        - lia.
        - split; [lia|]. auto.
        - intros i Hi. apply N2 in Hi. destruct Hi as [Hi|Hi]; [pose proof (rm_max _ _ _ _ M i Hi); lia|]. unfold in_frag in Hi. cbn in Hi. lia.
        - rewrite K5. auto.
        - rewrite K5. auto.
        - rewrite K8. eapply Forall_impl; [|exact (rm_sent _ _ _ _ M)]. intros p. now apply rep_ok_mono.
        - rewrite K9. eapply Forall_impl; [|exact (rm_pend _ _ _ _ M)]. cbn beta. intros e (A & B & C). split; auto. split; auto. apply N2. auto.
        - rewrite K10. apply (rm_notes _ _ _ _ M). }
      destruct new.
      * set (buf := if needed then resize_to (rc_pad c) (rx_cur st1) (rx_data st1) else rx_data st1).
        assert (Hbuf : N.of_nat (length buf) = rx_cur st1 /\ forall i, i < rx_cur st -> nth (N.to_nat i) buf 0 = nth (N.to_nat i) (rx_data st) 0).
        { subst buf. rewrite HcurF, K7. destruct (rx_cur st <? sg_off sg + sg_len sg) eqn:E.
          - rewrite resize_to_spec by lia. split; [rewrite app_length, repeat_length; lia|]. intros i Hi. rewrite app_nth1 by lia. reflexivity.
          - split; [lia|auto]. }
        destruct Hbuf as (Hb1 & Hb2).
        destruct (write_at_spec buf (sg_off sg) (sg_data sg)) as (d & -> & Hd1 & Hd2). { change (N.of_nat (length (sg_data sg))) with (sg_len sg). lia. }
        change (N.of_nat (length (sg_data sg))) with (sg_len sg) in Hd2.
        assert (M1 : rmid block L (hist ++ [sg]) (up_data st1 set' d)).
        { apply Hmid; [lia|]. intros i Hi. rewrite Hd2. destruct ((sg_off sg <=? i) && (i <? sg_off sg + sg_len sg)) eqn:Er.
          - rewrite G3. rewrite nth_slice by lia. f_equal. lia.
          - apply N2 in Hi. destruct Hi as [Hi|Hi]; [|unfold in_frag in Hi; cbn in Hi; lia].
            pose proof (rm_max _ _ _ _ M i Hi). rewrite Hb2 by lia. apply (rm_bytes _ _ _ _ M i Hi). }
        destruct needed.
        -- apply red_tail_inv; auto; cbn [rx_did rx_delivered rx_csns up_data]; auto; try congruence.
           ++ unfold len_ok. cbn [rx_len up_data]. rewrite K2. exact Hlen.
           ++ rewrite K12. exact Hcsn.
        -- destruct (fill_gaps_mid block L (hist ++ [sg]) c (sg_off sg) _ Hm HL M1) as (st2 & js & -> & M2 & C).
           destruct C as (C1 & C2 & C3 & C4 & C5 & C6 & C7 & C8 & C9 & C10 & C11 & C12 & C13).
           apply red_tail_inv; auto.
           ++ unfold len_ok. rewrite C1. cbn [rx_len up_data]. rewrite K2. exact Hlen.
           ++ rewrite C4. exact K6.
           ++ rewrite C11. cbn [rx_delivered up_data]. congruence.
           ++ rewrite C10. cbn [rx_csns up_data]. rewrite K12. exact Hcsn.
      * assert (Hin : covers (rx_set st) (sg_off sg + sg_len sg - 1)).
        { destruct (covers_dec (rx_set st) (sg_off sg + sg_len sg - 1)) as [?|Hn]; auto. exfalso. assert (false = true); [|discriminate]. apply N3.
          exists (sg_off sg + sg_len sg - 1). split; auto. unfold in_frag. cbn [fst snd]. lia. }
        pose proof (rm_max _ _ _ _ M _ Hin).
        assert (M1 : rmid block L (hist ++ [sg]) (up_data st1 set' (rx_data st1))).
        { rewrite K7. apply Hmid; [lia|]. intros i Hi. apply (rm_bytes _ _ _ _ M). apply N2 in Hi. destruct Hi as [?|Hi]; auto.
          destruct (covers_dec (rx_set st) i) as [?|Hn]; auto. exfalso. assert (false = true); [|discriminate]. apply N3. eauto. }
        apply red_tail_inv; auto; cbn [rx_did rx_delivered rx_csns up_data]; auto; try congruence.
        -- unfold len_ok. cbn [rx_len up_data]. rewrite K2. exact Hlen.
        -- rewrite K12. exact Hcsn.
  - (* green *)
    replace (sg_flags sg <=? 3) with false by lia.
    eexists. split; [reflexivity|].
    assert (Hnr : ~ is_red sg) by (unfold is_red; lia).
    assert (Hsame : forall i, red_received (hist ++ [sg]) i <-> red_received hist i) by (intros i; rewrite red_received_app; tauto).
    assert (Hes : eorp_in (hist ++ [sg]) <-> eorp_in hist) by (rewrite eorp_app; tauto).
    assert (HlL : L < size_of block) by lia.
    destruct I as [M Hlen Hdid Hdel Hcsn].
    assert (Hbase : forall st', rx_set st' = rx_set st -> rx_len st' = rx_len st -> L <= rx_lowgreen st' -> rx_cur st' = rx_cur st ->
      rx_eobred st' = false -> rx_did st' = rx_did st -> rx_data st' = rx_data st -> rx_sent st' = rx_sent st -> rx_pending st' = rx_pending st ->
      Forall benign (rx_notes st') -> rx_delivered st' = rx_delivered st -> rx_csns st' = rx_csns st -> rinv block L (hist ++ [sg]) st').
    { intros st' K1 K2 K3 K4 K5 K6 K7 K8 K9 K10 K11 K12. constructor.
      - destruct M. constructor; auto.
        + rewrite K1. auto.
        + rewrite K1. intros i. rewrite Hsame. auto.
        + rewrite K4, K7. auto.
        + rewrite K1, K4. auto.
        + rewrite K1, K7. auto.
        + intros; lia.
        + rewrite K8. eapply Forall_impl; [|exact rm_sent0]. intros p. apply rep_ok_mono. intros i. apply Hsame.
        + rewrite K9, K1. auto.
      - unfold len_ok. rewrite Hes, K2. exact Hlen.
      - rewrite K6, Hdid. split; intros (A & B); split; auto; intros i Hi; apply Hsame; auto.
      - rewrite K11, K6. exact Hdel.
      - rewrite K12. intros csn Hx. destruct (Hcsn csn Hx) as (x & r & A & B & C). exists x, r. rewrite in_app_iff. auto. }
    pose proof (rm_low _ _ _ _ M). pose proof (rm_cur _ _ _ _ M) as (Mc1 & Mc2). pose proof (rm_notes _ _ _ _ M) as Mn.
    pose proof (rm_eob1 _ _ _ _ M HlL) as Me.
    assert (Hnotify : forall x, Forall benign (rx_notes x) -> Forall benign (rx_notes (notify Closed x))).
    { intros x Hx. unfold notify. destruct (rx_noted x); auto. cbn [rx_notes]. apply Forall_app. split; auto. constructor; auto. now left. }
    set (st0 := if iseob then up_marks st true false (rx_len st) (rx_lowgreen st) (rx_cur st) else st).
    assert (J : rx_set st0 = rx_set st /\ rx_len st0 = rx_len st /\ rx_lowgreen st0 = rx_lowgreen st /\ rx_cur st0 = rx_cur st /\
      rx_eobred st0 = false /\ rx_did st0 = rx_did st /\ rx_data st0 = rx_data st /\ rx_sent st0 = rx_sent st /\ rx_pending st0 = rx_pending st /\
      rx_notes st0 = rx_notes st /\ rx_delivered st0 = rx_delivered st /\ rx_csns st0 = rx_csns st).
    { subst st0. destruct iseob; cbn; repeat split; auto. }
    destruct J as (J1 & J2 & J3 & J4 & J5 & J6 & J7 & J8 & J9 & J10 & J11 & J12).
    clearbody st0. unfold rx_green_seg. cbn [rx_lowgreen rx_cur up_marks].
    replace (N.min (sg_off sg) (rx_lowgreen st0) <? rx_cur st0) with false by lia.
    set (g := (sg_off sg, sg_data sg, iseob)).
    set (st1 := up_green _ g).
    assert (B1 : rinv block L (hist ++ [sg]) st1).
    { apply Hbase; cbn; auto; [lia|]. rewrite J10. auto. }
    assert (B2 : rinv block L (hist ++ [sg]) (notify Closed st1)).
    { unfold notify. destruct (rx_noted st1); [exact B1|]. apply Hbase; cbn; auto; [lia|]. rewrite J10. apply Forall_app. split; auto. constructor; auto. now left. }
    destruct iseob; [|exact B1]. destruct ((rx_len st1 =? U64MAX) && _ || rx_did st1); auto.
Qed.

(** The other events. *)
Lemma rinv_queues block L hist st q t : rinv block L hist st -> rinv block L hist (up_queue st q t).
Proof. intros [[] ? ? ? ?]. constructor; auto. constructor; auto. Qed.
Lemma rinv_notify block L hist n st : benign n -> rinv block L hist st -> rinv block L hist (notify n st).
Proof.
  intros Hb I. unfold notify. destruct (rx_noted st); auto. destruct I as [[] ? ? ? ?]. constructor; auto.
  constructor; auto. cbn [rx_notes]. apply Forall_app. auto.
Qed.
Lemma rx_ack_inv block L hist rsn st : rinv block L hist st -> rinv block L hist (rx_ack rsn st).
Proof.
  intros I. unfold rx_ack. set (st1 := up_queue _ _ _). assert (I1 : rinv block L hist st1) by now apply rinv_queues.
  clearbody st1. destruct (rx_queue st1), (rx_timers st1); auto. destruct (rx_eob st1 && rx_did st1); auto.
  apply rinv_notify; auto. now left.
Qed.
Lemma rx_report_timer_inv block L hist c rsn st : rinv block L hist st -> rinv block L hist (rx_report_timer c rsn st).
Proof.
  intros I. unfold rx_report_timer. destruct (find _ _) as [[? retry]|]; auto.
  destruct (retry <=? rc_retries c).
  - now apply rinv_queues, rinv_queues.
  - apply rinv_notify; [now right|]. now apply rinv_queues.
Qed.
Lemma rx_send_inv block L hist st st' o : rinv block L hist st -> rx_send st = (st', o) ->
  rinv block L hist st' /\ forall p, o = Some p -> In p (rx_sent st).
Proof.
  intros I E. unfold rx_send in E. destruct (rx_queue st) as [|[rsn retry] q].
  - injection E as <- <-. split; auto. discriminate.
  - injection E as <- <-. split; [now apply rinv_queues|]. intros p Hp. apply find_some in Hp. tauto.
Qed.
Lemma rx_delay_timer_inv block L hist c csn st : 1 <= rc_maxclaims c -> L < U64MAX -> rinv block L hist st ->
  exists st', rx_delay_timer c csn st = Some st' /\ rinv block L hist st'.
Proof.
  intros Hm HL I. unfold rx_delay_timer. destruct (find _ (rx_pending st)) as [[k [cs sec]]|] eqn:E; [|eauto].
  apply find_some in E. destruct E as (Hin & _). destruct I as [M Hlen Hdid Hdel Hcsn].
  destruct (fire_pending block L hist c st k cs sec Hm HL M Hin) as (st' & -> & M' & C).
  destruct C as (C1 & C2 & C3 & C4 & C5 & C6 & C7 & C8 & C9 & C10 & C11 & C12 & C13).
  eexists. split; [reflexivity|]. constructor; auto.
  - unfold len_ok. cbn [rx_len up_pending]. rewrite C1. exact Hlen.
  - cbn [rx_did up_pending]. rewrite C4. exact Hdid.
  - cbn [rx_did rx_delivered up_pending]. rewrite C11, C4. exact Hdel.
  - cbn [rx_csns up_pending]. rewrite C10. exact Hcsn.
Qed.

Lemma rx_init_inv block L rsn0 : L <= size_of block -> L < U64MAX -> rinv block L [] (rx_init rsn0).
Proof.
  intros H1 H2. assert (Hn : forall i, ~ red_received [] i) by (intros i (sg & [] & _)).
  assert (He : ~ eorp_in []) by (intros (sg & [] & _)).
  constructor; [constructor|..]; cbn; auto; try tauto.
  - apply canonical_nil.
  - intros i. rewrite covers_nil. specialize (Hn i). tauto.
  - lia.
  - split; [lia|reflexivity].
  - intros i H. now apply covers_nil in H.
  - intros i H. now apply covers_nil in H.
  - right. auto.
  - split; [discriminate|]. intros (A & B). destruct (Hn _ (B 0 A)).
Qed.

(** One event. *)
Definition seg_of_event (e : rev_) : list dseg := match e with RvData sg => [sg] | _ => [] end.
Lemma rx_step_inv block L hist c e st : rconf_ok c L -> L < U64MAX -> L <= size_of block -> size_of block < W64 ->
  Forall (segment_of block L) (hist ++ seg_of_event e) -> csns_consistent (hist ++ seg_of_event e) -> rinv block L hist st ->
  exists st' o, rx_step c e st = Some (st', o) /\ rinv block L (hist ++ seg_of_event e) st' /\
    (forall p, o = Some p -> In p (rx_sent st)).
Proof.
  intros Hcf HL Hsz HW F HC I. destruct e as [sg|rsn| |rsn|csn]; cbn [seg_of_event rx_step] in *; try rewrite app_nil_r in *.
  - destruct (rx_segment_inv block L hist c sg st Hcf HL Hsz HW F HC I) as (st' & -> & I').
    eexists _, _. split; [reflexivity|]. split; auto. discriminate.
  - eexists _, _. split; [reflexivity|]. split; [now apply rx_ack_inv|]. discriminate.
  - destruct (rx_send st) as [st' o] eqn:E. destruct (rx_send_inv block L hist st st' o I E). eexists _, _. split; [reflexivity|]. auto.
  - eexists _, _. split; [reflexivity|]. split; [now apply rx_report_timer_inv|]. discriminate.
  - destruct Hcf as (Hm & _). destruct (rx_delay_timer_inv block L hist c csn st Hm HL I) as (st' & -> & I').
    eexists _, _. split; [reflexivity|]. split; auto. discriminate.
Qed.

Lemma segments_in_cons e es : segments_in (e :: es) = seg_of_event e ++ segments_in es.
Proof. destruct e; reflexivity. Qed.

Lemma csns_consistent_sub a b : (forall x, In x a -> In x b) -> csns_consistent b -> csns_consistent a.
Proof. intros H C x y csn r r' Hx Hy. apply C; auto. Qed.

Lemma rx_run_inv block L c : rconf_ok c L -> L < U64MAX -> L <= size_of block -> size_of block < W64 ->
  forall es hist st, Forall (segment_of block L) (hist ++ segments_in es) -> csns_consistent (hist ++ segments_in es) ->
  rinv block L hist st ->
  exists st' out, rx_run c es st = Some (st', out) /\ rinv block L (hist ++ segments_in es) st' /\
    Forall (fun p => rep_ok L (red_received (hist ++ segments_in es)) (rp_rep p)) out.
Proof.
  intros Hcf HL Hsz HW. induction es as [|e es IH]; intros hist st F HC I.
  - cbn. rewrite app_nil_r in *. eexists _, _. split; [reflexivity|]. auto.
  - rewrite segments_in_cons in *. rewrite app_assoc in F, HC |- *.
    assert (F' : Forall (segment_of block L) (hist ++ seg_of_event e)) by (apply Forall_app in F; tauto).
    assert (HC' : csns_consistent (hist ++ seg_of_event e)) by (eapply csns_consistent_sub; [|exact HC]; intros x Hx; apply in_app_iff; auto).
    destruct (rx_step_inv block L hist c e st Hcf HL Hsz HW F' HC' I) as (st1 & o & E & I1 & Ho).
    cbn [rx_run]. rewrite E. destruct (IH _ st1 F HC I1) as (st2 & out & -> & I2 & Fo).
    eexists _, _. split; [reflexivity|]. split; auto. destruct o as [p|]; auto. constructor; auto.
    pose proof (rm_sent _ _ _ _ (ri_mid _ _ _ _ I)) as S. rewrite Forall_forall in S. specialize (S p (Ho p eq_refl)).
    eapply rep_ok_mono; [|exact S]. intros i (sg & A & B). exists sg. rewrite !in_app_iff. auto.
Qed.

(** Green data is handed through. *)
Lemma handle_report_green c csn lo up sec st st' : handle_report c csn lo up sec st = Some st' -> rx_green st' = rx_green st.
Proof.
  rewrite handle_report_made. destruct (made_reports _ _ _ _) as [rs|]; [|discriminate]. intros E. injection E as <-.
  destruct (issue_core csn sec rs st) as ((_ & _ & _ & _ & _ & _ & _ & _ & _ & _ & _ & G & _) & _). exact G.
Qed.
Lemma notify_green n st : rx_green (notify n st) = rx_green st.
Proof. unfold notify. destruct (rx_noted st); reflexivity. Qed.
Lemma fill_gaps_green c off st st' b : fill_gaps c off st = Some (st', b) -> rx_green st' = rx_green st.
Proof.
  unfold fill_gaps. destruct (pend_find _ _) as [[k [csn sec]]|]; [|congruence]. destruct (contains_entirely _ _ _); [|congruence].
  destruct (handle_report _ _ _ _ _ _) as [x|] eqn:E; [|discriminate]. intros H. injection H as <- _. apply handle_report_green in E. exact E.
Qed.
Lemma answer_green c csn rsn up st st' : answer_checkpoint c csn rsn up st = Some st' -> rx_green st' = rx_green st.
Proof.
  unfold answer_checkpoint. destruct (up <=? _); [congruence|]. destruct (_ || _); [apply handle_report_green|].
  destruct (pend_find _ _); [congruence|]. intros H. injection H as <-. reflexivity.
Qed.
Lemma try_deliver_green c a b st st' : try_deliver c a b st = Some st' -> rx_green st' = rx_green st.
Proof.
  unfold try_deliver. destruct (rx_set st) as [|[x y] [|z w]]; try congruence. destruct (_ && _); [|congruence].
  destruct (a || b).
  - intros H. injection H as <-. reflexivity.
  - destruct (handle_report _ _ _ _ _ _) as [q|] eqn:E; [|discriminate]. intros H. injection H as <-. apply handle_report_green in E. exact E.
Qed.
Lemma red_tail_green c sg opl js st st' : red_tail c sg opl js st = Some st' -> rx_green st' = rx_green st.
Proof.
  unfold red_tail. set (s1 := if N.testbit _ _ then _ else _). assert (G : rx_green s1 = rx_green st) by (unfold s1; now destruct (N.testbit _ _)).
  clearbody s1. rewrite <- G. destruct (negb _).
  - destruct (sg_ckpt sg) as [[csn rsn]|]; [|congruence]. destruct (existsb _ _); [congruence|].
    destruct (answer_checkpoint _ _ _ _ _) as [q|] eqn:E; [|discriminate]. intros H. apply try_deliver_green in H. apply answer_green in E.
    rewrite H, E. reflexivity.
  - apply try_deliver_green.
Qed.
Lemma rx_red_green c sg opl st st' : rx_red c sg opl st = Some st' -> rx_green st' = rx_green st.
Proof.
  unfold rx_red. set (s1 := if rx_cur st <? opl then _ else _). assert (G : rx_green s1 = rx_green st) by (unfold s1; now destruct (_ <? _)).
  clearbody s1. rewrite <- G. destruct (rx_lowgreen s1 <? rx_cur s1).
  { intros H. injection H as <-. apply notify_green. }
  destruct (rx_did s1); [congruence|]. destruct (rc_maxred c <? rx_cur s1).
  { intros H. injection H as <-. apply notify_green. }
  destruct (insert_fragment _ _ _) as [set' new]. destruct new.
  - destruct (write_at _ _ _) as [d|]; [|discriminate]. destruct (rx_cur st <? opl).
    + intros H. apply red_tail_green in H. exact H.
    + destruct (fill_gaps _ _ _) as [[q b]|] eqn:E; [|discriminate]. intros H. apply red_tail_green in H. apply fill_gaps_green in E.
      rewrite H, E. reflexivity.
  - intros H. apply red_tail_green in H. exact H.
Qed.
Lemma rx_segment_green block L hist c sg st st' : segment_of block L sg -> rinv block L hist st -> rx_segment c sg st = Some st' ->
  rx_green st' = rx_green st ++ green_notices [sg].
Proof.
  intros (G1 & G2 & _ & [(Hr & _)|(Hf & Ho & _)]) I; unfold rx_segment, is_red in *; cbn [green_notices flat_map].
  - replace (4 <=? sg_flags sg) with false by lia. replace (sg_flags sg <=? 3) with true by lia.
    intros H. apply rx_red_green in H. rewrite H. rewrite app_nil_r. destruct (N.testbit _ 0 && _); reflexivity.
  - replace (4 <=? sg_flags sg) with true by lia. replace (sg_flags sg <=? 3) with false by lia.
    replace (N.testbit (sg_flags sg) 0 && N.testbit (sg_flags sg) 1) with (sg_flags sg =? 7) by (destruct Hf as [-> | ->]; reflexivity).
    intros H. injection H as <-. destruct I as [[_ _ M3 (M4 & _) _ _ _ _ _ _ _] _ _ _ _].
    unfold rx_green_seg. cbn [app]. destruct (sg_flags sg =? 7);
      cbn [rx_lowgreen rx_cur up_marks]; (replace (N.min (sg_off sg) (rx_lowgreen st) <? rx_cur st) with false by lia).
    + destruct (_ || _); [rewrite notify_green|]; reflexivity.
    + reflexivity.
Qed.
Lemma rx_step_green block L hist c e st st' o : Forall (segment_of block L) (hist ++ seg_of_event e) -> rinv block L hist st ->
  rx_step c e st = Some (st', o) -> rx_green st' = rx_green st ++ green_notices (seg_of_event e).
Proof.
  intros F I. destruct e as [sg|rsn| |rsn|csn]; cbn [seg_of_event rx_step green_notices flat_map]; try rewrite !app_nil_r.
  - destruct (rx_segment c sg st) as [q|] eqn:E; [|discriminate]. intros H. injection H as <- <-.
    apply Forall_app in F. destruct F as (_ & F). apply Forall_inv in F. cbn [app]. rewrite (rx_segment_green _ _ _ _ _ _ _ F I E).
    cbn [green_notices flat_map]. now rewrite app_nil_r.
  - intros H. injection H as <- <-. unfold rx_ack. destruct (rx_queue _), (rx_timers _); try reflexivity. destruct (_ && _); [rewrite notify_green|]; reflexivity.
  - unfold rx_send. destruct (rx_queue st) as [|[a b] q]; intros H; injection H as <- <-; reflexivity.
  - intros H. injection H as <- <-. unfold rx_report_timer. destruct (find _ _) as [[a b]|]; [|reflexivity]. destruct (_ <=? _); [|rewrite notify_green]; reflexivity.
  - unfold rx_delay_timer. destruct (find _ _) as [[k [cs sec]]|]; [|intros H; injection H as <- <-; reflexivity].
    destruct (handle_report _ _ _ _ _ _) as [q|] eqn:E; [|discriminate]. intros H. injection H as <- <-. apply handle_report_green in E. exact E.
Qed.
Lemma rx_run_green block L c : rconf_ok c L -> L < U64MAX -> L <= size_of block -> size_of block < W64 ->
  forall es hist st st' out, Forall (segment_of block L) (hist ++ segments_in es) -> csns_consistent (hist ++ segments_in es) ->
  rinv block L hist st -> rx_run c es st = Some (st', out) -> rx_green st' = rx_green st ++ green_notices (segments_in es).
Proof.
  intros Hcf HL Hsz HW. induction es as [|e es IH]; intros hist st st' out F HC I R.
  - cbn in R. injection R as <- <-. cbn. now rewrite app_nil_r.
  - rewrite segments_in_cons in *. rewrite app_assoc in F, HC.
    assert (F' : Forall (segment_of block L) (hist ++ seg_of_event e)) by (apply Forall_app in F; tauto).
    assert (HC' : csns_consistent (hist ++ seg_of_event e)) by (eapply csns_consistent_sub; [|exact HC]; intros x Hx; apply in_app_iff; auto).
    destruct (rx_step_inv block L hist c e st Hcf HL Hsz HW F' HC' I) as (st1 & o & E & I1 & Ho).
    cbn [rx_run] in R. rewrite E in R. destruct (rx_run c es st1) as [[st2 out2]|] eqn:E2; [|discriminate].
    injection R as <- <-. rewrite (IH _ _ _ _ F HC I1 E2), (rx_step_green _ _ _ _ _ _ _ _ F' I E).
    unfold green_notices. now rewrite flat_map_app, app_assoc.
Qed.
