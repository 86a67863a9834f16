(** C52, continued: what comes back to storage is written to disk, and so is what waits for a link that goes down. *)
From Coq Require Import PeanoNat NArith List Bool Lia Permutation ZifyBool ZifyN.
From Verif Require Import Base M_CustodyId M_StorageIf S_StorageIf L_StorageIf L_StorageIfInv L_StorageIfSend L_StorageIfAll L_StorageIfDisk L_StorageIfHonest L_StorageIfKept P_StorageIf.
Import ListNotations.
Open Scope N_scope.

(** ** What has to be written *)
Definition readable (b : bundle) : bool := negb (b_bad b).
(** The bundles for outduct [i] that are in memory only. *)
Definition in_memory (s : state) (i : nat) : list bundle := match nth_error (g_vec s) i with Some k => if k_up k then map q_b (k_queue k) else [] | None => [] end.
Definition is_cut (s : state) (i : nat) (c : N) : Prop := exists k, nth_error (g_vec s) i = Some k /\ In c (map fst (k_acks k)).
Definition is_read (s : state) (i : nat) (c : N) : Prop := exists k, nth_error (g_vec s) i = Some k /\ In c (map fst (k_open k)).
(** Event [e] for outduct [i] brings [l] to disk: a bundle egress could not send for ingress or for storage, and the queue of a link that goes
    down. *)
Inductive brings (s : state) (i : nat) : event -> list bundle -> Prop :=
| brings_failed b : brings s i (Failed (N.of_nat i) b) (b :: in_memory s i)
| brings_down : brings s i (LinkIsDown (N.of_nat i)) (in_memory s i)
| brings_cut x b : names_link x (RVec i) -> x_cut x = true -> is_cut s i (x_cid x) -> x_err x = LinkDown -> brings s i (EgressAck x b) (b :: in_memory s i)
| brings_lost x b : names_link x (RVec i) -> x_cut x = true -> is_cut s i (x_cid x) -> x_err x = NoOutduct -> brings s i (EgressAck x b) [b]
| brings_read x b : names_link x (RVec i) -> x_cut x = false -> is_read s i (x_cid x) -> x_err x = LinkDown -> brings s i (EgressAck x b) (in_memory s i).

(** ** Lemmas *)
Record brought (l : list bundle) (s s' : state) : Prop := mkBrought { br_bits : g_bits s' = []; br_wait : map snd (d_wait (g_disk s')) = map snd (d_wait (g_disk s)) ++ filter readable l;
  br_ent : map snd (d_ent (g_disk s')) = rev (filter readable l) ++ map snd (d_ent (g_disk s)) }.
Lemma brought_nil s s' : g_bits s' = [] -> g_disk s' = g_disk s -> brought [] s s'.
Proof. intros B D. constructor; [exact B| |]; rewrite D; cbn; rewrite ?app_nil_r; reflexivity. Qed.
Lemma brought_trans a b s s1 s2 : brought a s s1 -> brought b s1 s2 -> brought (a ++ b) s s2.
Proof. intros [A1 A2 A3] [B1 B2 B3]. constructor; [exact B1| |]; rewrite filter_app; [rewrite B2, A2, app_assoc; reflexivity|]. rewrite B3, A3, rev_app_distr, app_assoc. reflexivity. Qed.
Lemma write_brought b s s' : g_bits s = [] -> write b Whole false None s = Some s' -> brought [b] s s'.
Proof.
  intros BT. unfold write. cbn [negb]. destruct (b_bad b) eqn:BB.
  - intros [= <-]. constructor; [exact BT| |]; cbn [filter]; unfold readable; rewrite BB; cbn; rewrite ?app_nil_r; reflexivity.
  - unfold write_one, masked. destruct (alloc s) as [cid s1] eqn:A. assert (S1 : g_bits s1 = [] /\ d_ent (g_disk s1) = d_ent (g_disk s) /\ d_wait (g_disk s1) = d_wait (g_disk s)).
    { unfold alloc in A. destruct (match g_ids s with [] => _ | _ => _ end) as [i r]. injection A as <- <-. proj. auto. }
    destruct S1 as (S1 & S2 & S3). unfold bit. rewrite S1. cbn [negb]. destruct (find_b cid (d_ent (g_disk s1))); [discriminate|]. intros [= <-]. proj. constructor; proj; [exact S1| |]; cbn [d_wait d_ent map snd filter]; unfold readable; rewrite BB; cbn [negb rev app].
    + rewrite map_app, S3. reflexivity.
    + rewrite S2. reflexivity.
Qed.
Lemma ack_brought m s : g_bits s = [] -> brought [] s (ack_ingress m s).
Proof. intros B. unfold ack_ingress, bit. rewrite B. apply brought_nil; [exact B|reflexivity]. Qed.
Lemma dump_brought idx q : forall s s', g_bits s = [] -> dump idx q s = Some s' -> brought (map q_b q) s s'.
Proof.
  induction q as [|x q IH]; intros s s' B; cbn [dump map]; [intros [= <-]; apply brought_nil; auto|]. destruct (write (q_b x) Whole false None s) as [s1|] eqn:W; [|discriminate]. intros H. pose proof (write_brought _ _ _ B W) as B1.
  pose proof (ack_brought (mkA (q_id x) idx true) s1 (br_bits _ _ _ B1)) as B2. change (q_b x :: map q_b q) with ([q_b x] ++ ([] ++ map q_b q)). eapply brought_trans; [exact B1|]. eapply brought_trans; [exact B2|]. apply IH; [apply B2|exact H].
Qed.
Lemma down_brought i s s' : g_bits s = [] -> link_down (RVec i) s = Some s' -> brought (in_memory s i) s s'.
Proof.
  intros B. unfold link_down, in_memory. cbn [get_link]. destruct (nth_error (g_vec s) i) as [k|]; [|discriminate]. destruct (k_up k); [|intros [= <-]; apply brought_nil; auto].
  destruct (dump _ _ _) as [s1|] eqn:D; [|discriminate]. intros [= <-]. apply dump_brought in D; [|exact B]. destruct D as [D1 D2 D3]. constructor; assumption.
Qed.
Lemma named_ref x i s k : names_link x (RVec i) -> nth_error (g_vec s) i = Some k -> ack_link x s = Some (Some (RVec i)).
Proof.
  intros (N1 & N2) G. unfold ack_link. replace (x_idx x =? U64MAX) with false by lia. unfold vec_ref. rewrite N1. assert (i < length (g_vec s))%nat by (apply nth_error_Some; congruence).
  replace (N.of_nat i <? N.of_nat (length (g_vec s))) with true by lia. rewrite Nat2N.id. reflexivity.
Qed.

(** * What holds *)
(** If no write fails: a bundle that comes back, and every bundle that waits in memory for a link that goes down, is on disk and in line for
    sending afterwards - but for those that cannot be read - and nothing else is; after an answer with an error the bundle it is about is at the
    front of the line. *)
Theorem C52_returned_bundles_are_stored : forall cfg e ids s s' i l, brings s i e l -> g_init s = true -> (i < length (g_vec s))%nat -> step cfg (mkL e ids [] []) s = Some s' ->
  map snd (d_ent (g_disk s')) = rev (filter readable l) ++ map snd (d_ent (g_disk s)) /\
  exists front, map snd (d_wait (g_disk s')) = front ++ map snd (d_wait (g_disk s)) ++ filter readable l /\
    match e with
    | EgressAck x _ => if x_cut x then front = [] else forall b, stored s' (x_cid x) b -> exists b', front = [b'] /\ stored s' (x_cid x) b'
    | _ => front = []
    end.
Proof.
  intros cfg e ids s s' i l BR GI LI. unfold step. cbn [l_event l_ids l_bits l_reads]. set (s0 := with_oracle s ids [] []). assert (VR : forall t, g_vec t = g_vec s -> vec_ref t (N.of_nat i) = Some (RVec i)) by (intros t E; unfold vec_ref; rewrite E; replace (N.of_nat i <? N.of_nat (length (g_vec s))) with true by lia; rewrite Nat2N.id; reflexivity).
  assert (LD : forall t t', brought [] s t \/ t = s0 -> g_vec t = g_vec s -> link_down (RVec i) t = Some t' -> brought (in_memory s i) t t').
  { intros t t' T E H. assert (g_bits t = []) by (destruct T as [T|T]; [apply T|subst t; reflexivity]). apply down_brought in H; [|assumption]. unfold in_memory in *. rewrite E in H. exact H. }
  assert (FIN : brought l s0 s' -> map snd (d_ent (g_disk s')) = rev (filter readable l) ++ map snd (d_ent (g_disk s)) /\ exists front, map snd (d_wait (g_disk s')) = front ++ map snd (d_wait (g_disk s)) ++ filter readable l /\ front = []) by (intros [_ B2 B3]; split; [exact B3|]; exists []; auto).
  destruct BR as [b| |x b NM XC IC ER|x b NM XC IC ER|x b NM XC IR ER]; cbn [handle]; intros H.
  - apply FIN. unfold on_failed in H. destruct (write b Whole false None s0) as [s1|] eqn:W; [|discriminate]. pose proof (write_od _ _ _ _ _ _ W) as OD. pose proof (od_da _ _ OD) as DA. rewrite (da_init _ _ DA) in H. change (g_init s0) with (g_init s) in H. rewrite GI in H.
    assert (EV : g_vec s1 = g_vec s) by (rewrite (da_vec _ _ DA); reflexivity). rewrite (VR _ EV) in H. apply write_brought in W; [|reflexivity]. change (b :: in_memory s i) with ([b] ++ in_memory s i). eapply brought_trans; [exact W|]. apply down_brought in H; [|apply W]. unfold in_memory in *. rewrite EV in H. exact H.
  - apply FIN. unfold on_down in H. change (g_init s0) with (g_init s) in H. rewrite GI, (VR s0 eq_refl) in H. apply (down_brought i s0) in H; [exact H|reflexivity].
  - rewrite XC. apply FIN. clear FIN. destruct IC as (k & G & IC). unfold on_ack in H. change (g_init s0) with (g_init s) in H. rewrite GI, (named_ref x i s0 k NM G), XC in H. cbn [negb] in H. unfold ack_cut in H. cbn [get_link] in H. change (g_vec s0) with (g_vec s) in H. rewrite G in H.
    destruct (in_find_id _ _ IC) as (z & F). rewrite F, ER in H. cbn [is_error is_down] in H. destruct (write b Whole false None s0) as [s1|] eqn:W; [|discriminate]. pose proof (od_da _ _ (write_od _ _ _ _ _ _ W)) as DA. assert (EV : g_vec s1 = g_vec s) by (rewrite (da_vec _ _ DA); reflexivity).
    apply write_brought in W; [|reflexivity]. destruct (link_down (RVec i) s1) as [s2|] eqn:L; [|discriminate]. apply down_brought in L; [|apply W]. assert (E2 : in_memory s1 i = in_memory s i) by (unfold in_memory; rewrite EV; reflexivity). rewrite E2 in L.
    pose proof (ack_brought (mkA (x_cid x) (ref_idx (RVec i)) true) s2 (br_bits _ _ _ L)) as A. set (s3 := ack_ingress _ s2) in *. destruct (nth_error (g_vec s3) i) as [k2|]; [|discriminate]. injection H as <-.
    pose proof (brought_trans _ _ _ _ _ W (brought_trans _ _ _ _ _ L A)) as [B1 B2 B3]. rewrite app_nil_r in B2, B3. constructor; assumption.
  - rewrite XC. apply FIN. clear FIN. destruct IC as (k & G & IC). unfold on_ack in H. change (g_init s0) with (g_init s) in H. rewrite GI, (named_ref x i s0 k NM G), XC in H. cbn [negb] in H. unfold ack_cut in H. cbn [get_link] in H. change (g_vec s0) with (g_vec s) in H. rewrite G in H.
    destruct (in_find_id _ _ IC) as (z & F). rewrite F, ER in H. cbn [is_error is_down] in H. destruct (write b Whole false None s0) as [s1|] eqn:W; [|discriminate]. apply write_brought in W; [|reflexivity].
    pose proof (ack_brought (mkA (x_cid x) (ref_idx (RVec i)) true) s1 (br_bits _ _ _ W)) as A. set (s3 := ack_ingress _ s1) in *. destruct (nth_error (g_vec s3) i) as [k2|]; [|discriminate]. injection H as <-. pose proof (brought_trans _ _ _ _ _ W A) as [B1 B2 B3]. constructor; assumption.
  - rewrite XC. clear FIN. destruct IR as (k & G & IO). unfold on_ack in H. change (g_init s0) with (g_init s) in H. rewrite GI, (named_ref x i s0 k NM G), XC in H. cbn [negb] in H. unfold ack_read in H. cbn [get_link] in H. change (g_vec s0) with (g_vec s) in H. rewrite G in H.
    destruct (in_find_id _ _ IO) as (z & F). rewrite F, ER in H. cbn [is_error is_down] in H. destruct (link_down (RVec i) s0) as [s1|] eqn:L; [|discriminate]. apply (down_brought i s0) in L; [|reflexivity]. destruct (give_back (x_cid x) (g_disk s1)) as [d1|] eqn:GB; [|discriminate]. destruct (_ && _); [discriminate|].
    cbn beta iota in H. destruct (nth_error (g_vec (with_disk s1 _)) i) as [k1|]; [|discriminate]. cbn beta iota in H. injection H as <-. destruct L as [_ B2 B3]. change (in_memory s0 i) with (in_memory s i) in *. change (g_disk s0) with (g_disk s) in *. unfold stored. cbn [put_link with_disk with_links g_disk no_start cancel d_ent d_wait]. unfold give_back in GB.
    destruct (find_b (x_cid x) (d_ent (g_disk s1))) as [b1|] eqn:FB.
    + destruct (find_b (x_cid x) (d_wait (g_disk s1))); [discriminate|]. injection GB as <-. cbn [d_ent d_wait map snd]. split; [exact B3|]. exists [b1]. rewrite B2. split; [reflexivity|]. intros b0 _. exists b1. split; [reflexivity|]. apply find_b_in. exact FB.
    + injection GB as <-. split; [exact B3|]. exists []. split; [exact B2|]. intros b0 ST. apply find_b_none in FB. elim FB. apply in_fst. eauto.
Qed.
Print Assumptions C52_returned_bundles_are_stored.
(** The bundle for cut-through waits in memory when the first link goes down. *)
Example C52_returned_bundles_are_stored_ex : exists s', brings (ex_state ex_run) 0 (LinkIsDown 0) [ex_b 1 5 false 0] /\ step (ex_cfg false) (mkL (LinkIsDown 0) [] [] []) (ex_state ex_run) = Some s' /\
  map snd (d_wait (g_disk (ex_state ex_run))) = [ex_b 2 6 false 0; ex_b 3 6 true 1] /\ map snd (d_wait (g_disk s')) = [ex_b 2 6 false 0; ex_b 3 6 true 1; ex_b 1 5 false 0].
Proof. eexists. split; [exact (brings_down (ex_state ex_run) 0)|]. split; [vm_compute; reflexivity|]. split; vm_compute; reflexivity. Qed.

(** A link egress reports as down, in whatever way, is down afterwards, and nothing waits in memory for it. *)
Lemma dump_vec idx q : forall s s', dump idx q s = Some s' -> g_vec s' = g_vec s.
Proof.
  induction q as [|x q IH]; intros s s'; cbn [dump]; [intros [= <-]; reflexivity|]. destruct (write _ _ _ _ s) as [s1|] eqn:W; [|discriminate]. intros H. rewrite (IH _ _ H). pose proof (da_vec _ _ (od_da _ _ (write_od _ _ _ _ _ _ W))) as E. rewrite <- E.
  unfold ack_ingress. destruct (bit s1) as [ok t] eqn:B. assert (g_vec t = g_vec s1) by (unfold bit in B; destruct (g_bits s1); injection B as _ <-; reflexivity). destruct ok; assumption.
Qed.
Definition says_down (e : event) : Prop := match e with EgressAck x _ => x_err x = LinkDown | _ => True end.
Lemma nth_set {A} n (x y : A) l : nth_error l n = Some y -> nth_error (set_nth n x l) n = Some x.
Proof. intros H. destruct (set_nth_split n l y H) as (p & q & _ & <- & F). rewrite F, nth_error_app2, Nat.sub_diag by lia. reflexivity. Qed.
Lemma down_is_down i s s' : link_down (RVec i) s = Some s' -> exists k', nth_error (g_vec s') i = Some k' /\ k_up k' = false.
Proof.
  unfold link_down. cbn [get_link]. destruct (nth_error (g_vec s) i) as [k|] eqn:G; [|discriminate]. destruct (k_up k) eqn:U; [|intros [= <-]; eauto].
  destruct (dump _ _ _) as [s1|] eqn:D; [|discriminate]. intros [= <-]. apply dump_vec in D. exists (set_queue [] (set_up false k)). split; [|reflexivity]. cbn [repopulate with_ptrs g_vec]. rewrite D. cbn [put_link with_links g_vec]. eapply nth_set. exact G.
Qed.
Lemma ack_vec m s : g_vec (ack_ingress m s) = g_vec s.
Proof. unfold ack_ingress. destruct (bit s) as [ok t] eqn:B. assert (g_vec t = g_vec s) by (unfold bit in B; destruct (g_bits s); injection B as _ <-; reflexivity). destruct ok; assumption. Qed.
Theorem C52_reported_links_are_down : forall cfg e ids bits reads s s' i l, brings s i e l -> says_down e -> g_init s = true -> (i < length (g_vec s))%nat -> step cfg (mkL e ids bits reads) s = Some s' ->
  exists k', nth_error (g_vec s') i = Some k' /\ k_up k' = false.
Proof.
  intros cfg e ids bits reads s s' i l BR SD GI LI. unfold step. cbn [l_event l_ids l_bits l_reads]. set (s0 := with_oracle s ids bits reads). assert (VR : forall t, g_vec t = g_vec s -> vec_ref t (N.of_nat i) = Some (RVec i)) by (intros t E; unfold vec_ref; rewrite E; replace (N.of_nat i <? N.of_nat (length (g_vec s))) with true by lia; rewrite Nat2N.id; reflexivity).
  destruct BR as [b| |x b NM XC IC ER|x b NM XC IC ER|x b NM XC IR ER]; cbn [says_down] in SD; try congruence; cbn [handle]; intros H.
  - unfold on_failed in H. destruct (write b Whole false None s0) as [s1|] eqn:W; [|discriminate]. pose proof (od_da _ _ (write_od _ _ _ _ _ _ W)) as DA. rewrite (da_init _ _ DA) in H. change (g_init s0) with (g_init s) in H. rewrite GI in H.
    assert (EV : g_vec s1 = g_vec s) by (rewrite (da_vec _ _ DA); reflexivity). rewrite (VR _ EV) in H. eapply down_is_down. exact H.
  - unfold on_down in H. change (g_init s0) with (g_init s) in H. rewrite GI, (VR s0 eq_refl) in H. eapply down_is_down. exact H.
  - destruct IC as (k & G & IC). unfold on_ack in H. change (g_init s0) with (g_init s) in H. rewrite GI, (named_ref x i s0 k NM G), XC in H. cbn [negb] in H. unfold ack_cut in H. cbn [get_link] in H. change (g_vec s0) with (g_vec s) in H. rewrite G in H.
    destruct (in_find_id _ _ IC) as (z & F). rewrite F, ER in H. cbn [is_error is_down] in H. destruct (write b Whole false None s0) as [s1|] eqn:W; [|discriminate]. destruct (link_down (RVec i) s1) as [s2|] eqn:L; [|discriminate].
    apply down_is_down in L as (k1 & G1 & U1). rewrite ack_vec, G1 in H. injection H as <-. cbn [put_link with_links g_vec]. rewrite ack_vec. eexists. split; [eapply nth_set; exact G1|]. exact U1.
  - destruct IR as (k & G & IO). unfold on_ack in H. change (g_init s0) with (g_init s) in H. rewrite GI, (named_ref x i s0 k NM G), XC in H. cbn [negb] in H. unfold ack_read in H. cbn [get_link] in H. change (g_vec s0) with (g_vec s) in H. rewrite G in H.
    destruct (in_find_id _ _ IO) as (z & F). rewrite F, ER in H. cbn [is_error is_down] in H. destruct (link_down (RVec i) s0) as [s1|] eqn:L; [|discriminate]. destruct (give_back (x_cid x) (g_disk s1)) as [d1|] eqn:GB; [|discriminate]. destruct (_ && _); [discriminate|].
    apply down_is_down in L as (k1 & G1 & U1). cbn beta iota in H. change (g_vec (with_disk s1 (cancel (x_cid x) d1))) with (g_vec s1) in H. rewrite G1 in H. cbn beta iota in H. injection H as <-. cbn [with_disk put_link with_links g_vec]. eexists. split; [eapply nth_set; exact G1|]. exact U1.
Qed.
Print Assumptions C52_reported_links_are_down.
Example C52_reported_links_are_down_ex : exists s' k, brings (ex_state ex_run) 0 (Failed 0 (ex_b 9 5 false 0)) [ex_b 9 5 false 0; ex_b 1 5 false 0] /\ step (ex_cfg false) (mkL (Failed 0 (ex_b 9 5 false 0)) [] [] []) (ex_state ex_run) = Some s' /\
  option_map k_up (nth_error (g_vec (ex_state ex_run)) 0) = Some true /\ nth_error (g_vec s') 0 = Some k /\ k_up k = false /\ length (d_wait (g_disk s')) = 4%nat.
Proof. eexists. eexists. split; [exact (brings_failed (ex_state ex_run) 0 (ex_b 9 5 false 0))|]. split; [vm_compute; reflexivity|]. repeat split; vm_compute; reflexivity. Qed.
