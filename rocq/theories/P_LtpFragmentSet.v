(** Properties C05-C07: LTP report segments. Vocabulary: S_FragmentSet.v, S_LtpFragmentSet.v. *)
From Coq Require Import NArith List Bool Sorted Lia ZifyBool ZifyN.
From Verif Require Import Base M_FragmentSet S_FragmentSet L_FragmentSet M_LtpFragmentSet S_LtpFragmentSet L_LtpFragmentSet.
Import ListNotations.
Open Scope N_scope.

(** C05: a populated report has the requested scope, is well formed (claims non-empty, ordered with a gap in
    between, inside the scope) and claims exactly the received bytes of its scope; population is refused only
    when nothing was received or the scope is empty. *)
Theorem C05_report_claims_exactly_received : forall s lower upper,
  canonical s -> lower < W64 -> upper < W64 ->
  match populate s lower upper with
  | None => s = [] \/ effective_upper s upper <= effective_lower s lower
  | Some r => s <> [] /\ rs_lower r = effective_lower s lower /\ rs_upper r = effective_upper s upper /\
      well_formed true r /\ (forall i, claimed r i <-> covers s i /\ in_scope r i)
  end.
Proof. exact populate_spec. Qed.
Print Assumptions C05_report_claims_exactly_received.
Example C05_report_claims_exactly_received_ex :
  canonical [(0,9); (20,29); (40,49)] /\
  populate [(0,9); (20,29); (40,49)] 5 45 = Some (mkReport 5 45 [(0,5); (15,10); (35,5)]) /\
  populate [(0,9); (20,29); (40,49)] 10 20 = Some (mkReport 10 20 []) /\
  populate [(0,9); (20,29); (40,49)] U64MAX U64MAX = Some (mkReport 0 50 [(0,10); (20,10); (40,10)]) /\
  populate [(0,9)] 7 7 = None.
Proof. split; [|repeat split; reflexivity]. repeat constructor; unfold W64; simpl; lia. Qed.

(** C05: in particular this holds of the set built from any sequence of received ranges. *)
Theorem C05_report_of_any_reception_history : forall last ks lower upper,
  Forall valid ks -> lower < upper -> upper < U64MAX -> ks <> [] ->
  exists r, populate (insert_all last [] ks) lower upper = Some r /\ rs_lower r = lower /\ rs_upper r = upper /\
    well_formed true r /\
    (forall i, claimed r i <-> (exists k, In k ks /\ in_frag k i) /\ lower <= i /\ i < upper).
Proof.
  intros last ks lower upper Hv Hlu Hu Hne.
  destruct (insert_all_spec last ks [] canonical_nil Hv) as (A & B).
  assert (Hs : insert_all last [] ks <> []).
  { destruct ks as [|k ks]; [congruence|]. intros E. assert (Hc : covers (insert_all last [] (k :: ks)) (fst k)).
    { apply B. right. exists k. split; [now left|]. inversion Hv; subst. unfold in_frag, valid in *. lia. }
    rewrite E in Hc. now apply covers_nil in Hc. }
  pose proof (populate_spec (insert_all last [] ks) lower upper A) as P.
  unfold effective_lower, effective_upper in P.
  unfold U64MAX in *. assert (W : W64 = 18446744073709551616) by reflexivity.
  replace (lower =? 18446744073709551615) with false in P by lia.
  replace (upper =? 18446744073709551615) with false in P by lia.
  specialize (P ltac:(lia) ltac:(lia)).
  destruct (populate (insert_all last [] ks) lower upper) as [r|] eqn:E.
  - destruct P as (P1 & P2 & P3 & P4 & P5). exists r. repeat split; auto.
    + now apply P4.
    + now apply P4.
    + now apply P4.
    + now apply P4.
    + apply P5 in H. destruct H as (H & _). apply B in H. destruct H as [H|H]; [now apply covers_nil in H|exact H].
    + apply P5 in H. destruct H as (_ & H & _). lia.
    + apply P5 in H. destruct H as (_ & _ & H). lia.
    + intros (H & H2). apply P5. split; [apply B; auto|]. unfold in_scope. lia.
  - destruct P as [P|P]; [congruence|lia].
Qed.
Print Assumptions C05_report_of_any_reception_history.
Example C05_report_of_any_reception_history_ex : Forall valid [(20,29); (0,9); (5,12)] /\ 3 < 25 /\ 25 < U64MAX /\
  populate (insert_all true [] [(20,29); (0,9); (5,12)]) 3 25 = Some (mkReport 3 25 [(0,10); (17,5)]).
Proof. split; [|repeat split; reflexivity]. repeat constructor; unfold W64; simpl; lia. Qed.

(** C06: splitting a well formed report with at least one claim: every piece has 1..m claims lying in its own
    scope, the scopes are consecutive from the original lower to the original upper bound, and the claims as
    absolute ranges are the original claims in the original order. *)
Theorem C06_split_loses_and_invents_nothing : forall strict r m,
  well_formed strict r -> rs_claims r <> [] -> 1 <= m ->
  exists rss, split_report r m = SplitOk rss /\ rss <> [] /\
    Forall (rs_ok m) rss /\ scopes_chain (rs_lower r) (rs_upper r) rss /\
    concat (map absolute rss) = absolute r.
Proof. exact split_report_spec. Qed.
Print Assumptions C06_split_loses_and_invents_nothing.
Definition C06_rs := mkReport 100 200 [(0,10); (20,5); (40,10); (60,10); (80,10)].
Example C06_split_loses_and_invents_nothing_ex : well_formed true C06_rs /\ rs_claims C06_rs <> [] /\ 1 <= 2 /\
  split_report C06_rs 2 = SplitOk [mkReport 100 125 [(0,10); (20,5)]; mkReport 125 170 [(15,10); (35,10)]; mkReport 170 200 [(10,10)]].
Proof.
  split; [|split; [discriminate|split; [lia|reflexivity]]].
  unfold well_formed, C06_rs, claim_order, W64. simpl. split; [lia|split; [lia|split]]; repeat constructor; simpl; lia.
Qed.

(** C06: each piece read on its own says the same as the original about every byte of its scope. *)
Theorem C06_each_piece_agrees_with_original : forall strict r m rss,
  well_formed strict r -> rs_claims r <> [] -> 1 <= m -> split_report r m = SplitOk rss ->
  forall r' i, In r' rss -> in_scope r' i -> (claimed r' i <-> claimed r i).
Proof. exact split_stands_alone. Qed.
Print Assumptions C06_each_piece_agrees_with_original.
Example C06_each_piece_agrees_with_original_ex :
  exists rss r', split_report C06_rs 2 = SplitOk rss /\ In r' rss /\ in_scope r' 141 /\ claimed r' 141 /\ in_scope r' 151 /\ ~ claimed r' 151.
Proof.
  eexists. exists (mkReport 125 170 [(15,10); (35,10)]). split; [reflexivity|]. split; [right; left; reflexivity|].
  unfold in_scope, claimed, claim_covers. simpl. split; [lia|]. split; [exists (15,10); simpl; split; [auto|lia]|].
  split; [lia|]. intros (c & [<-|[<-|[]]] & H); simpl in H; lia.
Qed.

(** C06: every byte of the original scope lies in exactly one piece. *)
Theorem C06_pieces_partition_scope : forall strict r m rss,
  well_formed strict r -> rs_claims r <> [] -> 1 <= m -> split_report r m = SplitOk rss ->
  (forall i, in_scope r i <-> exists r', In r' rss /\ in_scope r' i) /\
  (forall r1 r2 i, In r1 rss -> In r2 rss -> in_scope r1 i -> in_scope r2 i -> r1 = r2).
Proof.
  intros strict r m rss Hwf Hne Hm E.
  destruct (split_report_spec strict r m Hwf Hne Hm) as (rss' & E' & _ & _ & R3 & _). rewrite E in E'. injection E' as <-.
  split; [intros i; apply chain_total; exact R3|]. eapply chain_disjoint; eauto.
Qed.
Print Assumptions C06_pieces_partition_scope.

(** C06 for a report with no claims is false: the routine then takes back() of an empty vector. *)
Theorem C06_split_of_claimless_report_refuted : exists r m,
  well_formed true r /\ 1 <= m /\ populate [(0,9); (20,29)] 10 20 = Some r /\ split_report r m = SplitUB.
Proof.
  exists (mkReport 10 20 []), 5. split; [|split; [lia|split; reflexivity]].
  unfold well_formed, W64. simpl. repeat split; try lia; constructor.
Qed.
Print Assumptions C06_split_of_claimless_report_refuted.

(** C07: accepting a report marks exactly the claimed bytes as acknowledged, keeps the set canonical, and
    reports true iff something new was acknowledged. *)
Theorem C07_accepting_report_acks_exactly_claimed : forall last r strict, well_formed strict r -> forall fs, canonical fs ->
  canonical (fst (add_report last fs r)) /\
  (forall i, covers (fst (add_report last fs r)) i <-> covers fs i \/ claimed r i) /\
  (snd (add_report last fs r) = true <-> exists i, claimed r i /\ ~ covers fs i).
Proof. exact add_report_spec. Qed.
Print Assumptions C07_accepting_report_acks_exactly_claimed.
Example C07_accepting_report_acks_exactly_claimed_ex : well_formed true C06_rs /\ canonical [(0,109)] /\
  add_report true [(0,109)] C06_rs = ([(0,109); (120,124); (140,149); (160,169); (180,189)], true).
Proof.
  split; [apply C06_split_loses_and_invents_nothing_ex|]. split; [|reflexivity].
  repeat constructor; unfold W64; simpl; lia.
Qed.

(** C07: the bytes needing retransmission added for a report whose claims have gaps in between are exactly the
    unclaimed bytes of its scope. *)
Theorem C07_needing_resent_exactly_unclaimed_partial : forall last r, well_formed true r -> rs_claims r <> [] ->
  forall fs, canonical fs ->
  canonical (fst (add_report_needing_resent last fs r)) /\
  (forall i, covers (fst (add_report_needing_resent last fs r)) i <-> covers fs i \/ (in_scope r i /\ ~ claimed r i)).
Proof. exact needing_resent_spec. Qed.
Print Assumptions C07_needing_resent_exactly_unclaimed_partial.
Example C07_needing_resent_exactly_unclaimed_ex : well_formed true C06_rs /\
  add_report_needing_resent true [] C06_rs = ([(110,119); (125,139); (150,159); (170,179); (190,199)], true).
Proof. split; [apply C06_split_loses_and_invents_nothing_ex|reflexivity]. Qed.

(** C07: without the gap condition the previous statement is false: for two claims that touch (allowed by RFC
    5326) the routine stores an inverted range (begin > end) that no retransmission loop expects. *)
Theorem C07_needing_resent_touching_claims_refuted : exists r,
  well_formed false r /\ rs_claims r <> [] /\
  ~ canonical (fst (add_report_needing_resent true [] r)).
Proof.
  exists (mkReport 0 20 [(0,10); (10,10)]). split; [|split; [discriminate|]].
  - unfold well_formed, claim_order, W64. simpl. split; [lia|split; [lia|split]]; repeat constructor; simpl; lia.
  - replace (fst (add_report_needing_resent true [] (mkReport 0 20 [(0,10); (10,10)]))) with [(10,9)] by reflexivity.
    intros H. pose proof (canonical_In _ (10,9) H (or_introl eq_refl)) as V. unfold valid in V. simpl in V. lia.
Qed.
Print Assumptions C07_needing_resent_touching_claims_refuted.

(** C07: reducing any collection of pending report scopes against the acknowledged bytes: together the ranges
    to resend are exactly the bytes in some pending scope and not acknowledged; each byte is in one report's
    list only; each list is non-empty, canonical and within a scope pending for that report serial number. *)
Theorem C07_reduce_resends_exactly_unacked : forall last pending acked,
  canonical acked -> Forall (fun p => valid (fst p)) pending ->
  (forall i, result_covers (reduce_reports last pending acked) i <->
             (exists p, In p pending /\ in_frag (fst p) i) /\ ~ covers acked i) /\
  StronglySorted (fun p q => forall i, ~ (covers (snd p) i /\ covers (snd q) i)) (reduce_reports last pending acked) /\
  Forall (fun p => canonical (snd p) /\ snd p <> [] /\
            exists bounds, In (bounds, fst p) pending /\ forall i, covers (snd p) i -> in_frag bounds i)
         (reduce_reports last pending acked).
Proof.
  intros last pending acked Hc Hf. destruct (reduce_spec last pending acked Hc Hf) as (A & B & C). auto.
Qed.
Print Assumptions C07_reduce_resends_exactly_unacked.
Example C07_reduce_resends_exactly_unacked_ex :
  canonical [(5,7); (15,16)] /\ Forall (fun p => valid (fst p)) [((0,9), 1); ((4,20), 2); ((6,8), 3)] /\
  reduce_reports true [((0,9), 1); ((4,20), 2); ((6,8), 3)] [(5,7); (15,16)] = [(1, [(0,4); (8,9)]); (2, [(10,14); (17,20)])].
Proof. split; [|split; [|reflexivity]]; repeat constructor; unfold W64; simpl; lia. Qed.
