(** C52: the storage interface over all sequences of messages, failures and timings; see S_StorageIf for the vocabulary. *)
From Coq Require Import PeanoNat NArith List Bool Lia Permutation ZifyBool ZifyN.
From Verif Require Import Base M_CustodyId M_StorageIf S_StorageIf L_StorageIf L_StorageIfInv L_StorageIfSend L_StorageIfAll L_StorageIfDisk L_StorageIfHonest L_StorageIfKept L_StorageIfIdle.
Import ListNotations.
Open Scope N_scope.

(** ** An example to talk about *)
Definition fits_dests (ds : list (eid * bool)) (b : bundle) : bool :=
  existsb (fun e => if snd e : bool then fst (fst e) =? fst (b_dest b) else eid_eqb (fst e) (b_dest b)) ds.
Definition before (x y : bundle) : bool := (b_prio y <? b_prio x) || ((b_prio x =? b_prio y) && (b_exp x <=? b_exp y)).
Fixpoint best (ds : list (eid * bool)) (w : list (N * bundle)) : option (nat * bundle) :=
  match w with
  | [] => None
  | e :: r => match best ds r with
              | None => if fits_dests ds (snd e) then Some (0%nat, snd e) else None
              | Some (n, b) => if fits_dests ds (snd e) && before (snd e) b then Some (0%nat, snd e) else Some (S n, b)
              end
  end.
Definition ex_cfg (priority : bool) : config := mkConfig priority 1000 (fun ds w => option_map fst (best ds w)).
Lemma fits_matches ds b : fits_dests ds b = true <-> matches ds b.
Proof.
  unfold fits_dests, matches. rewrite existsb_exists. split.
  - intros ([[a c] [|]] & I & E); cbn [fst snd] in E.
    + right. exists c. apply N.eqb_eq in E. rewrite <- E. exact I.
    + left. unfold eid_eqb in E. cbn [fst snd] in E. apply andb_prop in E as (E1 & E2). apply N.eqb_eq in E1, E2. destruct (b_dest b) as [x y]. cbn [fst snd] in *. subst. exact I.
  - intros [I|(n & I)]; eexists; (split; [exact I|]); cbn [fst snd]; [unfold eid_eqb; rewrite !N.eqb_refl; reflexivity|apply N.eqb_refl].
Qed.
Lemma best_picks p : picks (ex_cfg p).
Proof.
  intros ds w. cbn [ex_cfg c_pick].
  assert (H : match best ds w with
              | None => forall e, In e w -> ~ matches ds (snd e)
              | Some (n, b) => exists c, nth_error w n = Some (c, b) /\ matches ds b /\ forall e', In e' w -> matches ds (snd e') -> b_prio (snd e') <= b_prio b /\ (b_prio (snd e') = b_prio b -> b_exp b <= b_exp (snd e'))
              end).
  { induction w as [|[c x] w IH]; [intros e []|]. cbn [best snd]. pose proof (fits_matches ds x) as FM. destruct (best ds w) as [[n b]|].
    - destruct IH as (c0 & NE & MT & AL). destruct (fits_dests ds x) eqn:FX; cbn [andb].
      + unfold before. destruct (_ || _) eqn:BF.
        * exists c. split; [reflexivity|]. split; [apply FM; reflexivity|]. intros e' [<-|I] ME; [cbn [snd]; lia|]. specialize (AL e' I ME). lia.
        * exists c0. split; [exact NE|]. split; [exact MT|]. intros e' [<-|I] ME; [cbn [snd]; lia|]. exact (AL e' I ME).
      + exists c0. split; [exact NE|]. split; [exact MT|]. intros e' [<-|I] ME; [cbn [snd] in ME; apply FM in ME; discriminate|]. exact (AL e' I ME).
    - destruct (fits_dests ds x) eqn:FX.
      + exists c. split; [reflexivity|]. split; [apply FM; reflexivity|]. intros e' [<-|I] ME; [cbn [snd]; lia|]. elim (IH e' I ME).
      + intros e [<-|I] ME; [cbn [snd] in ME; apply FM in ME; discriminate|exact (IH e I ME)]. }
  destruct (best ds w) as [[n b]|]; cbn [option_map fst]; [|exact H]. destruct H as (c & NE & MT & AL). exists (c, b). auto.
Qed.
Definition lab (e : event) : label := mkL e [] [] [].
Definition ex_b (tag dest : N) (custody : bool) (prio : N) : bundle := mkB tag 100 (dest, 1) custody prio tag false.
Definition ex_telemetry : list outduct := [mkOutduct 0 20 2000 7 [(5, 1)] []; mkOutduct 1 4 600 8 [] [6]].
(** Two outducts; a bundle for cut-through on the first, two for disk: one without, one with custody, both for node 6. *)
Definition ex_run : list label :=
  map lab [Telemetry ex_telemetry; LinkUp 0; LinkUp 1; Store (mkS 100 0 true false (5, 1)) (ex_b 1 5 false 0) Whole; Store (mkS 101 1 false false (6, 1)) (ex_b 2 6 false 0) Whole;
    Store (mkS 102 1 false true (6, 1)) (ex_b 3 6 true 1) (Custody [ex_b 3 6 true 1] None)].
Definition ex_state (l : list label) : state := match exec (ex_cfg false) l start with Some s => s | None => start end.
Lemma exec_runs cfg l : forall s s', exec cfg l s = Some s' -> runs cfg l s s'.
Proof. induction l as [|x l IH]; intros s s'; cbn [exec]; [intros [= <-]; constructor|]. destruct (step cfg x s) as [s1|] eqn:E; [|discriminate]. intros H. econstructor; [exact E|apply IH; exact H]. Qed.
Lemma runs_exec cfg l s s' : runs cfg l s s' -> exec cfg l s = Some s'.
Proof. intros R. induction R as [|x l s s1 s2 E R IH]; [reflexivity|]. cbn [exec]. rewrite E. exact IH. Qed.
Lemma honest_more cfg l : forall a s s', honest_run cfg a s -> exec cfg l s = Some s' ->
  (fix ok l s := match l with [] => True | x :: r => honest s x /\ match step cfg x s with Some s1 => ok r s1 | None => False end end) l s -> honest_run cfg (a ++ l) s'.
Proof.
  induction l as [|x l IH]; intros a s s' H; cbn [exec]; [intros [= <-] _; rewrite app_nil_r; exact H|]. destruct (step cfg x s) as [s1|] eqn:E; [|discriminate]. intros EX (HX & OK).
  change (x :: l) with ([x] ++ l). rewrite app_assoc. apply (IH (a ++ [x]) s1 s'); [econstructor; eassumption|exact EX|exact OK].
Qed.

(** ** Counters and limits *)
(** Whatever the environment does: every link's counter tells what its pipeline holds, no bundle is in a pipeline twice, a link that is down
    has no queue, and the links served are the links that are up. *)
Theorem C52_books_balance : forall cfg tr s, runs cfg tr start s ->
  (forall r k, In (r, k) (links s) -> sound_link r k) /\ g_ptrs s = up_refs (links s).
Proof.
  intros cfg tr s R. split; [|exact (bk_ptrs _ (runs_books _ _ _ _ R start_books))]. intros r k I.
  assert (F : all_links fine s). { apply (runs_links cfg (fun _ => True) fine tr start s); [apply fine_move|apply fine_new|apply fine_opp|exact R| |apply start_books|constructor]. apply Forall_forall. intros x _. apply tells_all. }
  unfold all_links in F. rewrite Forall_forall in F. apply (F _ I).
Qed.
Print Assumptions C52_books_balance.
Example C52_books_balance_ex : exists s r k, runs (ex_cfg false) (ex_run ++ map lab [Send; Send; Send]) start s /\ In (r, k) (links s) /\ r = RVec 1 /\ k_bytes k = 200 /\ length (k_open k) = 2%nat /\
  g_ptrs s = [RVec 0; RVec 1].
Proof. eexists _, _, _. split; [apply exec_runs; vm_compute; reflexivity|]. split; [right; left; reflexivity|]. repeat split. Qed.

(** If egress always tells the same limits for a link, no link ever holds more than half of them: the pipeline has a limit of bundles and
    of bytes, and the byte counter is exact. *)
Theorem C52_limits_hold : forall cfg tr s lim, runs cfg tr start s ->
  Forall (fun x => match l_event x with Telemetry l => Forall (fun o => (t_max o, t_maxb o) = lim (t_idx o) /\ t_maxb o < W64) l | _ => True end) tr ->
  forall r k, In (r, k) (links s) -> count k <= k_max k /\ held k <= k_maxb k /\ k_bytes k = held k /\
    (forall i, r = RVec i -> (k_max k = fst (lim (N.of_nat i)) / 2 /\ k_maxb k = snd (lim (N.of_nat i)) / 2) \/ k_max k = 0).
Proof.
  intros cfg tr s lim R T r k I.
  assert (F : all_links (within lim) s).
  { apply (runs_links cfg (given lim) (within lim) tr start s); [apply within_move|apply within_new|apply within_opp|exact R| |apply start_books|constructor]. eapply Forall_impl; [|exact T]. intros x H. unfold tells. cbv beta in H. destruct (l_event x); exact H. }
  unfold all_links in F. rewrite Forall_forall in F. destruct (F _ I) as (((A1 & _) & _) & B & C & D & E). cbn [fst snd] in *. split; [exact C|]. split; [exact D|]. split; [rewrite A1; apply N.mod_small; lia|].
  intros i ->. destruct E as [E|E]; [left|right; exact E]. injection E as -> ->. rewrite !N.shiftr_div_pow2. auto.
Qed.
Print Assumptions C52_limits_hold.
Example C52_limits_hold_ex : exists s r k, runs (ex_cfg false) (ex_run ++ map lab [Store (mkS 103 1 false false (6, 1)) (ex_b 4 6 false 0) Whole; Send; Send; Send; Send; Send]) start s /\
  In (r, k) (links s) /\ r = RVec 1 /\ count k = 2 /\ k_max k = 2 /\ k_maxb k = 300 /\ length (d_wait (g_disk s)) = 1%nat.
Proof. eexists _, _, _. split; [apply exec_runs; vm_compute; reflexivity|]. split; [right; left; reflexivity|]. repeat split. Qed.

(** ** Sending *)
(** What a round of sending sends: for a link that is up, to its next hop, within the room it had; the front of its queue under the
    id ingress gave it, or a bundle that is on disk under its custody id. *)
Theorem C52_sends_are_exact : forall cfg tr s x s', runs cfg tr start s -> l_event x = Send -> step cfg x s = Some s' ->
  exists ms, g_egress s' = g_egress s ++ ms /\ Forall (sent_for s s') ms.
Proof.
  intros cfg tr s x s' R E H. pose proof (runs_books _ _ _ _ R start_books) as B.
  assert (W : wait_stored s).
  { clear x s' E H B. assert (G : forall l a b, runs cfg l a b -> books a -> wait_stored a -> wait_stored b).
    { clear. intros l a b R. induction R as [|x l s s1 s2 ST R IH]; [auto|]. intros B W. apply IH; [eapply step_books; eassumption|]. apply (ls_ws _ _ _ (step_loses _ _ _ _ B ST)). exact W. }
    apply (G _ _ _ R start_books). intros y []. }
  unfold step in H. rewrite E in H. cbn [handle] in H. set (s0 := with_oracle s (l_ids x) (l_bits x) (l_reads x)) in *. destruct B as [K P _].
  destruct (send_sweep cfg s0 s' K P H) as (l & ND & SW & _). destruct (sw_sent _ _ _ SW) as (ms & EM & F). exists ms. split; [exact EM|]. specialize (F ND W). eapply Forall_impl; [|exact F].
  intros m (n & r & k & _ & _ & G & M). unfold sent_for. exists r, k. split; [apply get_in; exact G|]. destruct M as (M1 & M2 & M3 & M4 & M5 & M6). repeat (split; [assumption|]). exact M6.
Qed.
Print Assumptions C52_sends_are_exact.
Example C52_sends_are_exact_ex : exists s s', runs (ex_cfg false) (ex_run ++ [lab Send; lab Send]) start s /\ step (ex_cfg false) (lab Send) s = Some s' /\
  g_egress s' = g_egress s ++ [mkE (ex_b 1 5 false 0) true 100 0 7 (5, 1) false].
Proof. eexists _, _. split; [apply exec_runs; vm_compute; reflexivity|]. split; [vm_compute; reflexivity|]. reflexivity. Qed.

(** Links take turns: a round starts after the link served last, goes round once at most, and ends early only when it sent something. *)
Theorem C52_round_robin : forall cfg tr s x s', runs cfg tr start s -> l_event x = Send -> step cfg x s = Some s' ->
  let n := length (g_ptrs s) in let first := if Nat.ltb (S (g_rr s)) n then S (g_rr s) else 0%nat in
  exists m, (m <= n)%nat /\ visits cfg (map (fun j => ((first + j) mod n)%nat) (seq 0 m)) (with_poll (with_oracle s (l_ids x) (l_bits x) (l_reads x)) 250) s' /\
    ((m < n)%nat -> g_poll s' = 0) /\ ((0 < n)%nat -> exists j, m = S j /\ g_rr s' = ((first + j) mod n)%nat) /\ g_ptrs s' = g_ptrs s.
Proof.
  intros cfg tr s x s' R E H n first. pose proof (runs_books _ _ _ _ R start_books) as [K P PD]. unfold step in H. rewrite E in H. cbn [handle] in H. set (s0 := with_oracle s (l_ids x) (l_bits x) (l_reads x)) in *.
  assert (B0 : books s0) by (constructor; assumption). destruct (send_turns cfg s0 s' B0 H) as (m & A1 & A2 & A3 & A4 & A5). exists m. split; [exact A1|].
  assert (T : forall j, turn s0 j = ((first + j) mod n)%nat). { intros j. unfold turn, first, next_rr, s0, n. cbn [g_ptrs g_rr with_oracle]. destruct (Nat.leb_spec (length (g_ptrs s)) (S (g_rr s))), (Nat.ltb_spec (S (g_rr s)) (length (g_ptrs s))); try lia; reflexivity. }
  split; [rewrite <- (map_ext _ _ T); exact A2|]. split; [exact A3|]. split; [|exact A5]. intros L. destruct (A4 L) as (j & B1 & B2). exists j. rewrite <- T. auto.
Qed.
Print Assumptions C52_round_robin.
Example C52_round_robin_ex : exists s s', runs (ex_cfg false) ex_run start s /\ step (ex_cfg false) (lab Send) s = Some s' /\ g_rr s' = 1%nat /\ length (g_ptrs s) = 2%nat /\
  map e_idx (g_egress s') = [1].
Proof. eexists _, _. split; [apply exec_runs; vm_compute; reflexivity|]. split; [vm_compute; reflexivity|]. repeat split. Qed.
(** No link is passed over: as long as the links that are up stay the same, every one of them is served within as many rounds of sending as
    there are links, whatever else happens in between. *)
Theorem C52_every_link_gets_its_turn : forall cfg tr s p tr2 s2, runs cfg tr start s -> steady cfg p tr2 s s2 -> (length p <= length (filter is_send tr2))%nat ->
  forall i, (i < length p)%nat -> exists a x b s1 s1' l, tr2 = a ++ x :: b /\ l_event x = Send /\ runs cfg a s s1 /\ step cfg x s1 = Some s1' /\
    visits cfg l (with_poll (with_oracle s1 (l_ids x) (l_bits x) (l_reads x)) 250) s1' /\ In i l.
Proof.
  intros cfg tr s p tr2 s2 R ST C i L. pose proof (runs_books _ _ _ _ R start_books) as B. assert (LP : (0 < length p)%nat) by lia.
  pose proof (steady_ptrs _ _ _ _ _ ST) as PT. assert (NL : (next_rr s < length p)%nat) by (rewrite <- PT; apply next_lt; rewrite PT; exact LP).
  apply (turn_comes cfg p i tr2 s s2 ((i + (length p - next_rr s)) mod length p)%nat ST B LP).
  - rewrite Nat.add_mod_idemp_r by lia. replace (next_rr s + (i + (length p - next_rr s)))%nat with (i + 1 * length p)%nat by lia. rewrite Nat.mod_add by lia. symmetry. apply Nat.mod_small. exact L.
  - assert ((i + (length p - next_rr s)) mod length p < length p)%nat by (apply Nat.mod_upper_bound; lia). lia.
Qed.
Print Assumptions C52_every_link_gets_its_turn.
Example C52_every_link_gets_its_turn_ex : exists s s2, runs (ex_cfg false) ex_run start s /\
  steady (ex_cfg false) [RVec 0; RVec 1] (map lab [Send; Store (mkS 103 1 false false (6, 1)) (ex_b 4 6 false 0) Whole; Send]) s s2 /\ map e_idx (g_egress s2) = [1; 1].
Proof. eexists _, _. split; [apply exec_runs; vm_compute; reflexivity|]. split; [|shelve]. repeat (eapply steady_cons; [vm_compute; reflexivity|vm_compute; reflexivity|]). constructor. vm_compute. reflexivity. Unshelve. vm_compute. reflexivity. Qed.
(** With enforced priorities, what a link gets to send is at least as urgent as everything that waits for it and as the front of its
    queue. *)
Theorem C52_priority_is_enforced : forall cfg tr s n s' m, picks cfg -> c_priority cfg = true -> runs cfg tr start s -> serve cfg n s = Some s' -> g_egress s' = g_egress s ++ [m] ->
  exists r k, nth_error (g_ptrs s) n = Some r /\ In (r, k) (links s) /\
    (forall e, In e (d_wait (g_disk s)) -> matches (k_dests k) (snd e) -> b_prio (snd e) <= b_prio (e_b m)) /\
    (forall x rest, k_queue k = x :: rest -> b_bad (q_b x) = false -> b_prio (q_b x) <= b_prio (e_b m)).
Proof.
  intros cfg tr s n s' m PK PR R SV EM. destruct (serve_order cfg n s s' m PK PR (bk_keys _ (runs_books _ _ _ _ R start_books)) SV EM) as (r & k & A & G & C). exists r, k. split; [exact A|]. split; [apply get_in; exact G|exact C].
Qed.
Print Assumptions C52_priority_is_enforced.
Example C52_priority_is_enforced_ex : exists s s', picks (ex_cfg true) /\ runs (ex_cfg true) (ex_run ++ map lab [Store (mkS 103 1 true false (6, 1)) (ex_b 4 6 false 0) Whole]) start s /\
  serve (ex_cfg true) 1 s = Some s' /\ g_egress s' = g_egress s ++ [mkE (ex_b 3 6 true 1) false 1 1 8 (6, 1) true] /\ length (d_wait (g_disk s)) = 2%nat.
Proof. eexists _, _. split; [apply best_picks|]. split; [apply exec_runs; vm_compute; reflexivity|]. split; [vm_compute; reflexivity|]. repeat split. Qed.

(** ** Acks *)
(** Every bundle received is answered once at most, under its own id and outduct: acks sent, acks that did not get through and acks that the
    links still owe are together the bundles received. *)
Theorem C52_acks_are_conserved : forall cfg tr s, runs cfg tr start s -> Permutation (map ack_of (g_ingress s ++ g_lost s) ++ owed s) (received tr).
Proof.
  intros cfg tr s R. change (Permutation (balance s) (received tr)).
  assert (G : forall l a b, runs cfg l a b -> books a -> all_links fine a -> Permutation (balance b) (balance a ++ received l)).
  { clear. intros l a b R. induction R as [|x l s s1 s2 ST R IH]; intros B F; [cbn [received flat_map]; rewrite app_nil_r; reflexivity|].
    rewrite (IH (step_books _ _ _ _ B ST) (step_fine _ _ _ _ B ST F)), (step_balance cfg x s s1 B F ST), <- app_assoc. apply Permutation_app_head. unfold received. cbn [flat_map]. apply Permutation_app_tail.
    unfold incoming. destruct (l_event x); reflexivity. }
  apply (G _ _ _ R start_books). constructor.
Qed.
Print Assumptions C52_acks_are_conserved.
Example C52_acks_are_conserved_ex : exists s, runs (ex_cfg false) (ex_run ++ map lab [Send; Send; Send; EgressAck (mkEA true 100 0 7 (5, 1) false NoError) (ex_b 1 5 false 0)]) start s /\
  map ack_of (g_ingress s) = [(101, 1); (102, 1); (100, 0)] /\ owed s = [] /\ received ex_run = [(100, 0); (101, 1); (102, 1)].
Proof. eexists. split; [apply exec_runs; vm_compute; reflexivity|]. repeat split. Qed.

(** ** Receiving *)
(** A bundle that may be cut through waits in the queue of its link if the link is up, and nothing else happens; otherwise an ordinary
    bundle goes to disk under an id that is not in use and with the destination ingress names, and ingress gets its ack. *)
Theorem C52_store_is_exact : forall cfg m b c s ids s', step cfg (mkL (Store m b c) ids [] []) s = Some s' ->
  (forall i k, s_dont m = true -> s_idx m = N.of_nat i -> nth_error (g_vec s) i = Some k -> k_up k = true ->
     s' = with_oracle (with_links s (set_nth i (set_queue (k_queue k ++ [mkQ b (s_dest m) (s_id m)]) k) (g_vec s)) (g_opp s)) ids [] []) /\
  ((s_dont m = false \/ forall k, nth_error (g_vec s) (N.to_nat (s_idx m)) = Some k -> k_up k = false) -> s_special m = false -> b_bad b = false ->
     exists cid, let b' := mkB (b_tag b) (b_size b) (s_dest m) (b_cust b) (b_prio b) (b_exp b) false in
       d_ent (g_disk s') = (cid, b') :: d_ent (g_disk s) /\ d_wait (g_disk s') = d_wait (g_disk s) ++ [(cid, b')] /\ In cid (d_used (g_disk s')) /\
       (d_broken (g_disk s) = false -> ~ In cid (d_used (g_disk s))) /\ g_ingress s' = g_ingress s ++ [mkA (s_id m) (s_idx m) false] /\ links s' = links s /\ g_egress s' = g_egress s).
Proof.
  intros cfg m b c s ids s'. unfold step. cbn [l_event l_ids l_bits l_reads handle]. unfold on_store. set (s0 := with_oracle s ids [] []). intros H. split.
  - intros i k D I NE U. assert (L : (i < length (g_vec s))%nat) by (apply nth_error_Some; congruence). rewrite D in H. unfold vec_ref in H. change (g_vec s0) with (g_vec s) in H. rewrite I in H. destruct (N.ltb_spec (N.of_nat i) (N.of_nat (length (g_vec s)))) as [X|X]; [|lia].
    rewrite Nat2N.id in H. unfold get_link in H. change (g_vec s0) with (g_vec s) in H. rewrite NE, U in H. injection H as <-. reflexivity.
  - intros D SP BD. assert (E : (if s_dont m then match vec_ref s0 (s_idx m) with None => None | Some r => match get_link s0 r with Some k => if k_up k then Some (r, k) else None | None => None end end else None) = None).
    { destruct D as [D|D]; [rewrite D; reflexivity|]. destruct (s_dont m); [|reflexivity]. unfold vec_ref. destruct (_ <? _); [|reflexivity]. cbn [get_link]. change (g_vec s0) with (g_vec s). destruct (nth_error (g_vec s) _) as [k|] eqn:NE; [|reflexivity]. rewrite (D k eq_refl). reflexivity. }
    rewrite E in H. clear E D. unfold write in H. rewrite BD, SP in H. cbn [negb] in H. unfold write_one in H. destruct (alloc s0) as [cid s1] eqn:A. assert (BT : bit s1 = (true, s1)). { unfold alloc in A. destruct (match g_ids s0 with [] => _ | _ => _ end) as [i r]. injection A as <- <-. reflexivity. }
    rewrite BT in H. cbn [negb] in H. destruct (find_b cid (d_ent (g_disk s1))) eqn:FB; [discriminate|]. injection H as <-. exists cid. cbv zeta.
    assert (SI : In cid (d_used (g_disk s1)) /\ (d_broken (g_disk s) = false -> ~ In cid (d_used (g_disk s))) /\ d_ent (g_disk s1) = d_ent (g_disk s) /\ d_wait (g_disk s1) = d_wait (g_disk s) /\ links s1 = links s /\ g_ingress s1 = g_ingress s /\ g_egress s1 = g_egress s /\ g_bits s1 = []).
    { unfold alloc in A. change (g_disk s0) with (g_disk s) in A. change (open_ids s0) with (open_ids s) in A. change (g_ids s0) with ids in A. destruct (match ids with [] => _ | _ => _ end) as [i r] eqn:ER. injection A as <- <-. proj. split; [left; reflexivity|]. split; [|repeat split].
      assert (AB : ~ In (above (d_used (g_disk s) ++ open_ids s)) (d_used (g_disk s))) by (intros X; apply (above_out (d_used (g_disk s) ++ open_ids s)), in_or_app; left; exact X).
      intros NB. destruct ids as [|j ids]; [injection ER as <- _; exact AB|]. rewrite NB, andb_true_r in ER. destruct (mem j (d_used (g_disk s))) eqn:MJ; injection ER as <- _; [exact AB|]. intros X. apply mem_in in X. congruence. }
    destruct SI as (S1 & S2 & S3 & S4 & S5 & S6 & S7 & S8). unfold ack_ingress, bit. cbn [with_disk g_bits]. rewrite S8. proj. cbn [d_ent d_wait d_used masked]. rewrite S3, S4, S6, S7, BD. repeat split; try assumption.
Qed.
Print Assumptions C52_store_is_exact.
Example C52_store_is_exact_ex : exists s s', step (ex_cfg false) (lab (Store (mkS 101 1 false false (6, 1)) (ex_b 2 6 false 0) Whole)) s = Some s' /\ d_ent (g_disk s') = [(0, ex_b 2 6 false 0)] /\
  g_ingress s' = [mkA 101 1 false].
Proof. exists (ex_state (firstn 4 ex_run)). eexists. split; [vm_compute; reflexivity|]. split; reflexivity. Qed.

(** ** Stored bundles *)
(** Whatever the environment does: a bundle leaves the disk only when egress confirms, for a link that has it, that it was sent without custody, when a
    custody signal names it, or when it expires while waiting. *)
Theorem C52_removed_only_when_done : forall cfg tr s, runs cfg tr start s ->
  (forall x s' cid b, step cfg x s = Some s' -> stored s cid b -> ~ stored s' cid b -> ends s (l_event x) cid) /\
  (forall tr2 s2 cid b, runs cfg tr2 s s2 -> stored s cid b -> ~ stored s2 cid b -> exists a x c s1, tr2 = a ++ x :: c /\ runs cfg a s s1 /\ stored s1 cid b /\ ends s1 (l_event x) cid).
Proof.
  intros cfg tr s R. pose proof (runs_books _ _ _ _ R start_books) as B. split.
  - intros x s' cid b ST A N. destruct (ls_ent _ _ _ (step_loses _ _ _ _ B ST) cid b A) as [X|X]; [elim (N X)|exact X].
  - clear tr R. intros tr2 s2 cid b R. induction R as [|x l s s1 s2 ST R IH]; [tauto|]. intros A N. destruct (ls_ent _ _ _ (step_loses _ _ _ _ B ST) cid b A) as [X|X].
    + destruct (IH (step_books _ _ _ _ B ST) X N) as (a & y & c & s3 & E1 & E2 & E3 & E4). exists (x :: a), y, c, s3. split; [cbn [app]; congruence|]. split; [econstructor; eassumption|auto].
    + exists [], x, l, s. split; [reflexivity|]. split; [constructor|auto].
Qed.
Print Assumptions C52_removed_only_when_done.
Definition ex_done : label := lab (EgressAck (mkEA false 0 1 8 (6, 1) true NoError) (ex_b 2 6 false 0)).
Definition ex_sent : label := lab (EgressAck (mkEA false 1 1 8 (6, 1) false NoError) (ex_b 3 6 true 1)).
Example C52_removed_only_when_done_ex : exists s s', runs (ex_cfg false) (ex_run ++ map lab [Send; Send; Send]) start s /\ step (ex_cfg false) ex_done s = Some s' /\ stored s 0 (ex_b 2 6 false 0) /\
  d_ent (g_disk s') = [(1, ex_b 3 6 true 1)].
Proof. eexists _, _. split; [apply exec_runs; vm_compute; reflexivity|]. split; [vm_compute; reflexivity|]. split; [right; left; reflexivity|reflexivity]. Qed.

(** As long as the others keep to the rules, every message is handled: no index is out of bounds, no pointer dangles, the catalog and the timers
    are used as they are meant to be. *)
Theorem C52_never_undefined : forall cfg tr s x, honest_run cfg tr s -> honest s x -> exists s', step cfg x s = Some s'.
Proof. intros cfg tr s x H HX. destruct (honest_safe _ _ _ H) as (B & F & S). destruct (step_safe cfg x s B F S HX) as (s' & E & _). eauto. Qed.
Print Assumptions C52_never_undefined.
Lemma ex_honest : honest_run (ex_cfg false) (ex_run ++ map lab [Send; Send; Send] ++ [ex_done; ex_sent]) (ex_state (ex_run ++ map lab [Send; Send; Send] ++ [ex_done; ex_sent])).
Proof.
  apply (honest_more (ex_cfg false) (ex_run ++ map lab [Send; Send; Send] ++ [ex_done; ex_sent]) [] start); [constructor|vm_compute; reflexivity|]. unfold ex_run, map, app.
  assert (Z : forall s e, honest_event s e -> honest s (lab e)) by (intros s e H; split; [exact H|split; [constructor|intros i []]]).
  split; [apply Z; intros o [<-|[<-|[]]]; reflexivity|]. match goal with |- match ?e with _ => _ end => let v := eval vm_compute in e in change e with v; cbv iota beta end.
  do 2 (split; [apply Z; exact I|]; match goal with |- match ?e with _ => _ end => let v := eval vm_compute in e in change e with v; cbv iota beta end).
  split; [apply Z; cbn; discriminate|]. match goal with |- match ?e with _ => _ end => let v := eval vm_compute in e in change e with v; cbv iota beta end.
  split; [apply Z; cbn; discriminate|]. match goal with |- match ?e with _ => _ end => let v := eval vm_compute in e in change e with v; cbv iota beta end.
  split; [apply Z; cbn; auto|]. match goal with |- match ?e with _ => _ end => let v := eval vm_compute in e in change e with v; cbv iota beta end.
  do 3 (split; [apply Z; exact I|]; match goal with |- match ?e with _ => _ end => let v := eval vm_compute in e in change e with v; cbv iota beta end).
  split.
  - apply Z. split; [reflexivity|]. split; [exists (RVec 1); eexists; split; [split; [reflexivity|discriminate]|]; split; [right; left; reflexivity|intros _; vm_compute; auto]|].
    intros _. split; [intros b [[= <-]|[[= <-]|[]]]; split; reflexivity|]. intros _. eexists. right. left. reflexivity.
  - match goal with |- match ?e with _ => _ end => let v := eval vm_compute in e in change e with v; cbv iota beta end. split.
    + apply Z. split; [reflexivity|]. split; [exists (RVec 1); eexists; split; [split; [reflexivity|discriminate]|]; split; [right; left; reflexivity|intros _; vm_compute; auto]|].
      intros _. split; [intros b [[= <-]|[]]; split; reflexivity|]. discriminate.
    + match goal with |- match ?e with _ => _ end => let v := eval vm_compute in e in change e with v; cbv iota beta end. exact I.
Qed.
Example C52_never_undefined_ex : exists s, honest_run (ex_cfg false) (ex_run ++ map lab [Send; Send; Send] ++ [ex_done; ex_sent]) s /\ honest s (lab (Timer 1)) /\ d_time (g_disk s) = [(1, (6, 1))].
Proof. eexists. split; [exact ex_honest|]. split; [|vm_compute; reflexivity]. split; [exact I|]. split; [constructor|intros i []]. Qed.

(** ... and no stored bundle is forgotten: it waits to be sent, or egress has it for exactly one link, or it was sent and its custody timer runs,
    and it is never in two of these places. *)
Theorem C52_nothing_stranded : forall cfg tr s cid b, honest_run cfg tr s -> stored s cid b -> in_one_place s cid.
Proof. intros cfg tr s cid b H ST. destruct (honest_safe _ _ _ H) as (_ & _ & S). exact (safe_place _ _ _ S ST). Qed.
Print Assumptions C52_nothing_stranded.
Example C52_nothing_stranded_ex : exists s, honest_run (ex_cfg false) (ex_run ++ map lab [Send; Send; Send] ++ [ex_done; ex_sent]) s /\ stored s 1 (ex_b 3 6 true 1) /\ timed s 1.
Proof. eexists. split; [exact ex_honest|]. split; vm_compute; left; reflexivity. Qed.

(** When a custody timer runs out, its bundle is in line again. *)
Theorem C52_timer_resends : forall cfg tr s cid b ids bits reads s', honest_run cfg tr s -> stored s cid b -> timed s cid -> step cfg (mkL (Timer cid) ids bits reads) s = Some s' ->
  stored s' cid b /\ ~ timed s' cid /\ d_wait (g_disk s') = (cid, b) :: d_wait (g_disk s) /\ links s' = links s.
Proof.
  intros cfg tr s cid b ids bits reads s' H ST T E. destruct (honest_safe _ _ _ H) as (_ & _ & [K OK]). unfold step in E. cbn [l_event handle l_ids l_bits l_reads] in E. unfold on_timer in E. proj.
  assert (HT : has_timer cid (d_time (g_disk s)) = true) by (apply has_timer_in; exact T). rewrite HT in E.
  assert (FB : find_b cid (d_ent (g_disk s)) = Some b). { destruct (find_b cid (d_ent (g_disk s))) as [b0|] eqn:F; [|elim (proj1 (find_b_none _ _) F); apply in_fst; exists b; exact ST]. apply find_b_in in F. f_equal. exact (nodup_fst _ _ _ _ (so_ent _ _ OK) F ST). }
  unfold give_back, cancel in E. cbn [d_ent d_wait] in E. rewrite FB in E. destruct (find_b cid (d_wait (g_disk s))) eqn:FW; [discriminate|]. injection E as <-. unfold stored, timed. proj. cbn [d_ent d_wait d_time]. split; [exact ST|]. split; [|split; reflexivity].
  intros X. apply in_fst in X as (e & X). apply filter_In in X as (_ & X). cbn [fst] in X. rewrite N.eqb_refl in X. discriminate.
Qed.
Print Assumptions C52_timer_resends.
Example C52_timer_resends_ex : exists s s', honest_run (ex_cfg false) (ex_run ++ map lab [Send; Send; Send] ++ [ex_done; ex_sent]) s /\ timed s 1 /\ step (ex_cfg false) (lab (Timer 1)) s = Some s' /\ waiting s' 1.
Proof. eexists _, _. split; [exact ex_honest|]. split; [vm_compute; left; reflexivity|]. split; [vm_compute; reflexivity|vm_compute; left; reflexivity]. Qed.

(** Storage goes to sleep only if nothing on disk waits for a link that is up. *)
Theorem C52_sleeps_only_when_done : forall cfg tr s x s', picks cfg -> honest_run cfg tr s -> honest s x -> l_event x = Send -> step cfg x s = Some s' -> g_poll s' = 250 ->
  forall r k cid b, In (r, k) (links s') -> k_up k = true -> In (cid, b) (d_wait (g_disk s')) -> ~ matches (k_dests k) b.
Proof.
  intros cfg tr s x s' PK H (_ & HR & HI) E ST PL r k cid b IL U IW. destruct (honest_safe _ _ _ H) as ([K P PD] & F & [K0 OK]). unfold step in ST. rewrite E in ST. cbn [handle] in ST. set (s0 := with_oracle s (l_ids x) (l_bits x) (l_reads x)) in *.
  assert (I0 : inv s0) by (constructor; [constructor; assumption|intros i A C; exfalso; exact (HI i A C)|exact HR]). assert (B0 : books s0) by (constructor; assumption).
  exact (send_idle cfg s0 s' PK I0 B0 ST ltac:(lia) r k IL U (cid, b) IW).
Qed.
Print Assumptions C52_sleeps_only_when_done.
Example C52_sleeps_only_when_done_ex : exists s s', picks (ex_cfg false) /\ honest_run (ex_cfg false) (ex_run ++ map lab [Send; Send; Send] ++ [ex_done; ex_sent]) s /\ step (ex_cfg false) (lab Send) s = Some s' /\
  g_poll s' = 250 /\ length (up_refs (links s')) = 2%nat.
Proof. eexists _, _. split; [apply best_picks|]. split; [exact ex_honest|]. split; [vm_compute; reflexivity|]. split; vm_compute; reflexivity. Qed.

(** ** What does not hold *)
(** The limits when egress lowers them: what is in the pipeline then exceeds the limit, the room left wraps around and the link takes more. *)
Definition ex_low : list label := ex_run ++ map lab [Store (mkS 103 1 false false (6, 1)) (ex_b 4 6 false 0) Whole; Send; Send; Telemetry [mkOutduct 0 20 2000 7 [(5, 1)] []; mkOutduct 1 8 300 8 [] [6]]; Send].
Theorem C52_limits_hold_always_refuted : exists tr s x s' k k', runs (ex_cfg false) tr start s /\ l_event x = Send /\ step (ex_cfg false) x s = Some s' /\ In (RVec 1, k) (links s) /\ In (RVec 1, k') (links s') /\
  k_maxb k < held k /\ k_maxb k' = k_maxb k /\ held k < held k'.
Proof.
  exists ex_low. eexists _, (lab Send), _, _, _. split; [apply exec_runs; vm_compute; reflexivity|]. split; [reflexivity|]. split; [vm_compute; reflexivity|]. split; [right; left; reflexivity|]. split; [right; left; reflexivity|].
  split; [reflexivity|]. split; reflexivity.
Qed.
Print Assumptions C52_limits_hold_always_refuted.
(** A link reported down before egress is known comes up when egress is known (Zsi:1665). *)
Theorem C52_early_link_down_is_kept_refuted : exists tr s k, tr = map lab [LinkIsDown 0; Telemetry ex_telemetry] /\ runs (ex_cfg false) tr start s /\ In (RVec 0, k) (links s) /\ k_up k = true.
Proof. eexists _, _, _. split; [reflexivity|]. split; [apply exec_runs; vm_compute; reflexivity|]. split; [left; reflexivity|reflexivity]. Qed.
Print Assumptions C52_early_link_down_is_kept_refuted.
(** An ack without error promises nothing: the write failed, the bundle is nowhere. *)
Theorem C52_ack_means_stored_refuted : exists x s' m, step (ex_cfg false) x start = Some s' /\ l_event x = Store m (ex_b 2 6 false 0) Whole /\ g_ingress s' = [mkA (s_id m) (s_idx m) false] /\
  d_ent (g_disk s') = [] /\ links s' = [].
Proof. exists (mkL (Store (mkS 101 1 false false (6, 1)) (ex_b 2 6 false 0) Whole) [] [false; true] []). eexists _, _. split; [vm_compute; reflexivity|]. repeat split. Qed.
Print Assumptions C52_ack_means_stored_refuted.
(** ... and the custody id issued for it is never freed: nothing names it. *)
Theorem C52_ids_in_use_are_of_bundles_refuted : exists x s' cid, step (ex_cfg false) x start = Some s' /\ In cid (d_used (g_disk s')) /\ (forall b, ~ stored s' cid b) /\ open_ids s' = [].
Proof.
  exists (mkL (Store (mkS 101 1 false false (6, 1)) (ex_b 2 6 false 0) Whole) [] [false; true] []). eexists _, _. split; [vm_compute; reflexivity|]. split; [left; reflexivity|]. split; [intros b []|reflexivity].
Qed.
Print Assumptions C52_ids_in_use_are_of_bundles_refuted.
(** Custody of a bundle in two fragments is refused because the second cannot be written; the first stays on disk and will be sent. *)
Theorem C52_refused_custody_leaves_nothing_refuted : exists x s' m cid, step (ex_cfg false) x start = Some s' /\ l_event x = Store m (ex_b 2 6 true 0) (Custody [ex_b 3 6 true 0; ex_b 4 6 true 0] None) /\
  d_ent (g_disk s') = [(cid, ex_b 3 6 true 0)] /\ waiting s' cid.
Proof.
  exists (mkL (Store (mkS 101 1 false true (6, 1)) (ex_b 2 6 true 0) (Custody [ex_b 3 6 true 0; ex_b 4 6 true 0] None)) [] [true; true; false; true; true] []). eexists _, _, _. split; [vm_compute; reflexivity|]. split; [reflexivity|].
  split; [reflexivity|left; reflexivity].
Qed.
Print Assumptions C52_refused_custody_leaves_nothing_refuted.
(** Bundles that are forgotten. A read from disk fails: the bundle is on disk, but will not be sent, no timer runs. *)
Definition forgotten (s : state) (cid : N) : Prop := (exists b, stored s cid b) /\ ~ waiting s cid /\ (forall r, ~ at_egress s r cid) /\ ~ timed s cid.
Theorem C52_failed_read_is_retried_refuted : exists tr s cid, runs (ex_cfg false) tr start s /\ forgotten s cid /\ Forall (fun x => match l_event x with EgressAck _ _ | RemoveLink _ => False | _ => True end) tr.
Proof.
  exists (ex_run ++ [mkL Send [] [] [false]]). eexists _, 1. split; [apply exec_runs; vm_compute; reflexivity|]. split; [|repeat constructor].
  split; [eexists; left; reflexivity|]. split; [intros [X|[]]; discriminate|]. split; [|intros []]. intros r (k & [E|[E|[]]] & X); injection E as _ <-; destruct X.
Qed.
Print Assumptions C52_failed_read_is_retried_refuted.
(** An opportunistic link is removed while egress has a bundle for it. *)
Theorem C52_removed_link_returns_its_bundles_refuted : exists tr s cid, runs (ex_cfg false) tr start s /\ forgotten s cid /\ Forall (fun x => l_ids x = [] /\ l_bits x = [] /\ l_reads x = []) tr.
Proof.
  exists (map lab [Telemetry ex_telemetry; AddLink 9; Store (mkS 101 U64MAX false false (9, 1)) (ex_b 2 9 false 0) Whole; Send; RemoveLink 9; EgressAck (mkEA false 0 U64MAX 9 (9, 1) false LinkDown) (ex_b 2 9 false 0)]).
  eexists _, 0. split; [apply exec_runs; vm_compute; reflexivity|]. split; [|repeat constructor].
  split; [eexists; left; reflexivity|]. split; [intros []|]. split; [|intros []]. intros r (k & [E|[E|[]]] & X); injection E as _ <-; destruct X.
Qed.
Print Assumptions C52_removed_link_returns_its_bundles_refuted.
(** A custody signal that comes before egress confirms frees an id that egress still has. If the id is issued again, the late answer hits
    another bundle, which was sent to nobody: it is put in line while it is in line, which the catalog is not made for. *)
Definition ex_early : list label := map lab [Telemetry ex_telemetry; LinkUp 1; Store (mkS 101 1 false true (6, 1)) (ex_b 2 6 true 0) (Custody [ex_b 2 6 true 0] None); Send;
  Store (mkS 103 0 false true (1, 0)) (ex_b 9 1 false 0) (Signal (Some 0))] ++ [mkL (Store (mkS 104 0 false false (5, 1)) (ex_b 4 5 false 0) Whole) [0] [] []].
Theorem C52_late_answer_is_harmless_refuted : exists tr s x, runs (ex_cfg false) tr start s /\ In (0, ex_b 4 5 false 0) (d_wait (g_disk s)) /\ (forall m, In m (g_egress s) -> e_b m = ex_b 2 6 true 0) /\
  l_event x = EgressAck (mkEA false 0 1 8 (6, 1) false LinkDown) (ex_b 2 6 true 0) /\ step (ex_cfg false) x s = None.
Proof.
  exists ex_early. eexists _, (lab _). split; [apply exec_runs; vm_compute; reflexivity|]. split; [left; reflexivity|]. split; [intros m [<-|[]]; reflexivity|]. split; [reflexivity|]. vm_compute. reflexivity.
Qed.
Print Assumptions C52_late_answer_is_harmless_refuted.
(** An aggregate custody signal with a range that ends at 2^64 - 1 is never finished. *)
Theorem C52_signals_are_harmless_refuted : exists tr s x, runs (ex_cfg false) tr start s /\ l_event x = Store (mkS 103 0 false true (1, 0)) (ex_b 9 1 false 0) (Acs [(0, U64MAX)]) /\ step (ex_cfg false) x s = None.
Proof. exists ex_run. eexists _, (lab _). split; [apply exec_runs; vm_compute; reflexivity|]. split; [reflexivity|]. vm_compute. reflexivity. Qed.
Print Assumptions C52_signals_are_harmless_refuted.
(** Egress names an outduct that does not exist: out of bounds. *)
Theorem C52_outduct_index_is_checked_refuted : exists tr s x, runs (ex_cfg false) tr start s /\ l_event x = EgressAck (mkEA true 100 9 7 (5, 1) false NoError) (ex_b 1 5 false 0) /\ step (ex_cfg false) x s = None.
Proof. exists ex_run. eexists _, (lab _). split; [apply exec_runs; vm_compute; reflexivity|]. split; [reflexivity|]. vm_compute. reflexivity. Qed.
Print Assumptions C52_outduct_index_is_checked_refuted.
(** Storage goes to sleep although the front of a queue could be sent: it was the turn of the disk, where there was nothing. *)
Theorem C52_sleeps_only_when_queues_are_empty_refuted : exists tr s k x rest, honest_run (ex_cfg false) tr s /\ g_poll s = 250 /\ In (RVec 0, k) (links s) /\ k_up k = true /\ k_queue k = x :: rest /\
  count k < k_max k /\ b_size (q_b x) <= sub64 (k_maxb k) (k_bytes k) /\ last tr (lab (LinkUp 0)) = lab Send.
Proof.
  exists (firstn 4 ex_run ++ [lab Send]). eexists _, _, _, _. split.
  - apply (honest_more (ex_cfg false) (firstn 4 ex_run ++ [lab Send]) [] start); [constructor|vm_compute; reflexivity|]. unfold ex_run, map, app, firstn.
    assert (Z : forall s e, honest_event s e -> honest s (lab e)) by (intros s e H; split; [exact H|split; [constructor|intros i []]]).
    split; [apply Z; intros o [<-|[<-|[]]]; reflexivity|]. match goal with |- match ?e with _ => _ end => let v := eval vm_compute in e in change e with v; cbv iota beta end.
    do 2 (split; [apply Z; exact I|]; match goal with |- match ?e with _ => _ end => let v := eval vm_compute in e in change e with v; cbv iota beta end).
    split; [apply Z; cbn; discriminate|]. match goal with |- match ?e with _ => _ end => let v := eval vm_compute in e in change e with v; cbv iota beta end.
    split; [apply Z; exact I|]. match goal with |- match ?e with _ => _ end => let v := eval vm_compute in e in change e with v; cbv iota beta end. exact I.
  - split; [reflexivity|]. split; [left; reflexivity|]. split; [reflexivity|]. split; [reflexivity|]. split; [reflexivity|]. split; [|reflexivity]. vm_compute. discriminate.
Qed.
Print Assumptions C52_sleeps_only_when_queues_are_empty_refuted.
(** The destination that ingress names is forgotten when a queue goes to disk: the bundle is stored for the destination in its header. *)
Theorem C52_destination_is_kept_refuted : exists tr s m, tr = map lab [Telemetry ex_telemetry; LinkUp 0; Store m (ex_b 1 4 false 0) Whole; LinkIsDown 0] /\ runs (ex_cfg false) tr start s /\ s_dest m = (5, 1) /\
  exists b, d_ent (g_disk s) = [(0, b)] /\ b_dest b = (4, 1).
Proof. eexists _, _, (mkS 100 0 true false (5, 1)). split; [reflexivity|]. split; [apply exec_runs; vm_compute; reflexivity|]. split; [reflexivity|]. eexists. split; reflexivity. Qed.
Print Assumptions C52_destination_is_kept_refuted.
(** A message to egress that cannot be sent: the cut-through bundle and its ack are gone. *)
Theorem C52_failed_send_is_retried_refuted : exists tr s, runs (ex_cfg true) tr start s /\ received tr = [(100, 0)] /\ g_egress s = [] /\ g_ingress s = [] /\ owed s = [] /\ d_ent (g_disk s) = [].
Proof. exists (firstn 4 ex_run ++ [mkL Send [] [false] []]). eexists. split; [apply exec_runs; vm_compute; reflexivity|]. repeat split. Qed.
Print Assumptions C52_failed_send_is_retried_refuted.
(** Before telemetry comes, opportunistic links are served and their answers ignored: the pipeline fills up for good. *)
Theorem C52_answers_are_heeded_refuted : exists tr s k, tr = map lab [AddLink 9; Store (mkS 101 U64MAX false false (9, 1)) (ex_b 2 9 false 0) Whole; Send; EgressAck (mkEA false 0 U64MAX 9 (9, 1) true NoError) (ex_b 2 9 false 0); Telemetry ex_telemetry] /\ runs (ex_cfg false) tr start s /\
  In (ROpp 9, k) (links s) /\ k_open k = [(0, 100)].
Proof. eexists _, _, _. split; [reflexivity|]. split; [apply exec_runs; vm_compute; reflexivity|]. split; [right; right; left; reflexivity|reflexivity]. Qed.
Print Assumptions C52_answers_are_heeded_refuted.
(** An opportunistic link that egress once found down stays down, also when ingress reports it again. *)
Theorem C52_opportunistic_link_comes_back_refuted : exists tr s k, tr = map lab [Telemetry ex_telemetry; AddLink 9; Store (mkS 101 U64MAX false false (9, 1)) (ex_b 2 9 false 0) Whole; Send; EgressAck (mkEA false 0 U64MAX 9 (9, 1) false LinkDown) (ex_b 2 9 false 0); AddLink 9] /\ runs (ex_cfg false) tr start s /\
  In (ROpp 9, k) (links s) /\ k_up k = false.
Proof. eexists _, _, _. split; [reflexivity|]. split; [apply exec_runs; vm_compute; reflexivity|]. split; [right; right; left; reflexivity|reflexivity]. Qed.
Print Assumptions C52_opportunistic_link_comes_back_refuted.
