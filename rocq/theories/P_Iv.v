(** C57: the initialization vectors of BPSec confidentiality. *)
From Coq Require Import PeanoNat NArith List Bool Lia ZifyBool ZifyN.
From Verif Require Import Base M_Iv S_Iv L_Iv.
Import ListNotations.
Open Scope N_scope.

Definition ex_key : list N := [1; 2; 3].
(** Two threads ask for vectors; the second has to wait for the clock. Both secure bundles, with both sizes. *)
Definition ex_ops : list op :=
  [Ask [5; 200000]; Secure 0 true ex_key [1]; Ask [200000; 250000; 300000]; Secure 1 true ex_key [1]; Secure 0 true ex_key [2; 1]; Secure 0 false ex_key [1]; Ask [300001]].
Definition ex_evs : list event := match run started ex_ops with Some e => e | None => [] end.
Lemma ex_run : run started ex_ops = Some ex_evs. Proof. vm_compute. reflexivity. Qed.
Lemma ex_ok : Forall op_ok ex_ops. Proof. repeat constructor; vm_compute; reflexivity. Qed.

(** The time parts that threads get are clock readings, each at least 100 ms after all the earlier ones, however often the clock is set back;
    and a thread waits only as long as the clock has not got there. *)
Theorem C57_time_parts_are_apart : forall ops evs, Forall op_ok ops -> run started ops = Some evs ->
  apart 100000 (created evs) /\
  forall b e a rs, evs = b ++ e :: a -> nth_error ops (length b) = Some (Ask rs) ->
    let enough t := forall u, In u (0 :: created b) -> u + 100000 <= t in
    match e with Created t => exists early late, rs = early ++ t :: late /\ enough t /\ Forall (fun r => ~ enough r) early
    | Waiting => Forall (fun r => ~ enough r) rs | Encrypted _ _ _ => False end.
Proof.
  intros ops evs F R. destruct (run_ok ops [] started evs inv_start F R) as ((s1 & I) & H). split; [exact (proj1 (proj2 (proj2 (proj2 (proj2 I)))))|].
  clear H I s1. revert evs F R.
  assert (G : forall ops h s evs, inv h s -> (last_time s = 0 \/ In (last_time s) (created h)) -> Forall op_ok ops -> run s ops = Some evs ->
    forall b e a rs, evs = b ++ e :: a -> nth_error ops (length b) = Some (Ask rs) ->
    let enough t := forall u, In u (0 :: created (h ++ b)) -> u + 100000 <= t in
    match e with Created t => exists early late, rs = early ++ t :: late /\ enough t /\ Forall (fun r => ~ enough r) early
    | Waiting => Forall (fun r => ~ enough r) rs | Encrypted _ _ _ => False end).
  2: { intros evs F R b e a rs E N. exact (G ops [] started evs inv_start (or_introl eq_refl) F R b e a rs E N). }
  clear ops. induction ops as [|o ops IH]; intros h s evs I LT F R b e a rs E N; cbn in R.
  { destruct b; discriminate. }
  pose proof (Forall_inv F) as F1. pose proof (Forall_inv_tail F) as F2. destruct (step s o) as [(s1, e0)|] eqn:S; [|discriminate]. destruct (run s1 ops) as [evs1|] eqn:R1; [|discriminate]. injection R as <-.
  destruct (step_ok _ _ _ _ _ I F1 S) as (I1 & _). destruct b as [|x b]; cbn in E, N; injection E as -> E.
  - injection N as ->. cbn [step op_ok] in *. change (2 ^ 64) with W64 in F1. rewrite app_nil_r. destruct I as (_ & IM & _ & IT & _).
    assert (EN : forall t, (forall u, In u (0 :: created h) -> u + 100000 <= t) <-> last_time s + 100000 <= t).
    { intros t. split; [intros Q; destruct LT as [->|L]; apply Q; cbn; auto|]. intros Q u [<-|U]; [lia|specialize (IM u U); lia]. }
    destruct (create_loop (last_time s) rs) as [t|] eqn:C; injection S as _ <-; cbn zeta.
    + clear - C EN IT F1. revert C F1. induction rs as [|r rs IH]; cbn; intros C F; [discriminate|]. inversion F as [|? ? F1 F2]; subst.
      destruct ((last_time s <? r) && (MIN_DIFF <=? sub64 r (last_time s))) eqn:D.
      * apply andb_prop in D. destruct D as (D1 & D2). rewrite D1, D2 in C. injection C as ->. rewrite sub64_small in D2 by lia. exists [], rs. split; [reflexivity|]. split; [apply EN; unfold MIN_DIFF in D2; lia|constructor].
      * assert (C2 : create_loop (last_time s) rs = Some t) by (destruct (last_time s <? r); cbn in D; [rewrite D in C|]; exact C). destruct (IH C2 F2) as (ea & la & -> & Q1 & Q2).
        exists (r :: ea), la. split; [reflexivity|]. split; [auto|]. constructor; [|auto]. rewrite EN. intros Q. rewrite sub64_small in D by lia. unfold MIN_DIFF in D. lia.
    + apply (create_none _ _ IT F1) in C. eapply Forall_impl; [|exact C]. cbn. intros r Q W. apply EN in W. unfold MIN_DIFF in Q. lia.
  - assert (LT1 : last_time s1 = 0 \/ In (last_time s1) (created (h ++ [x]))).
    { rewrite created_app. destruct o as [rs0|i use12 key tg]; cbn [step] in S.
      - destruct (create_loop (last_time s) rs0) as [t|]; injection S as <- <-; cbn; [right; apply in_or_app; right; left; reflexivity|]. rewrite app_nil_r. exact LT.
      - destruct (nth_error (contexts s) i) as [c|]; [|discriminate]. destruct (serialize_and_increment use12 c). injection S as <- <-. cbn. rewrite app_nil_r. exact LT. }
    pose proof (IH _ _ _ I1 LT1 F2 R1 b e a rs E N) as G. rewrite <- app_assoc in G. exact G.
Qed.
Print Assumptions C57_time_parts_are_apart.
Example C57_time_parts_are_apart_ex : Forall op_ok ex_ops /\ run started ex_ops = Some ex_evs /\ created ex_evs = [200000; 300000] /\ nth_error ex_evs 6 = Some Waiting.
Proof. split; [exact ex_ok|]. split; [exact ex_run|]. split; vm_compute; reflexivity. Qed.

(** Every bundle is secured with one vector, of the size its policy says: the next one of its thread, whatever the other threads do, and
    exactly the targets are encrypted, with the policy's key and this vector. *)
Theorem C57_vectors_are_exact : forall ops evs, Forall op_ok ops -> run started ops = Some evs ->
  length evs = length ops /\
  forall b e a i use12 key targets, evs = b ++ e :: a -> nth_error ops (length b) = Some (Secure i use12 key targets) ->
    exists iv t, e = Encrypted i iv (map (fun x => (key, iv, x)) targets) /\ length iv = (if use12 then 12 else 16)%nat /\
      nth_error (created b) i = Some t /\ is_nth_vector t (uses (length iv) i b) iv.
Proof.
  intros ops evs F R. split.
  { clear F. revert evs R. generalize started. induction ops as [|o ops IH]; intros s evs R; cbn in R; [injection R as <-; reflexivity|].
    destruct (step s o) as [(s1, e)|]; [|discriminate]. destruct (run s1 ops) eqn:Q; [|discriminate]. injection R as <-. cbn. f_equal. eapply IH; eauto. }
  intros b e a i use12 key targets E N. destruct (run_ok ops [] started evs inv_start F R) as (_ & H). destruct (H b e a E) as (o & O1 & O2). rewrite N in O1. injection O1 as <-.
  destruct e as [t| |j iv cs]; cbn in O2; try contradiction. destruct O2 as (-> & L & -> & t & T & V). exists iv, t. auto.
Qed.
Print Assumptions C57_vectors_are_exact.
Example C57_vectors_are_exact_ex : vectors ex_evs =
  [[64; 13; 3; 0; 0; 0; 0; 0] ++ [0; 0; 0; 0]; [224; 147; 4; 0; 0; 0; 0; 0] ++ [0; 0; 0; 0]; [64; 13; 3; 0; 0; 0; 0; 0] ++ [1; 0; 0; 0];
   [64; 13; 3; 0; 0; 0; 0; 0] ++ [0; 0; 0; 0; 0; 0; 0; 0]] /\ length (cipher_calls ex_evs) = 5%nat.
Proof. split; vm_compute; reflexivity. Qed.

(** Within the limits that the header file states, no two bundles of one process are secured with the same vector. *)
Theorem C57_vectors_are_unique : forall ops evs, Forall op_ok ops -> run started ops = Some evs -> within_limits evs -> NoDup (vectors evs).
Proof.
  intros ops evs F R (L12 & L16 & LC). destruct (run_ok ops [] started evs inv_start F R) as ((s1 & I) & H). pose proof (proj1 (proj2 (proj2 (proj2 (proj2 I))))) as AP. cbn [app] in AP, H.
  apply split_nodup. intros b i iv cs m j iv2 cs2 a E EQ. subst iv2.
  destruct (H b _ _ E) as (o1 & _ & O1). assert (E2 : evs = (b ++ Encrypted i iv cs :: m) ++ Encrypted j iv cs2 :: a) by (rewrite E, <- app_assoc; reflexivity).
  destruct (H _ _ _ E2) as (o2 & _ & O2). destruct o1 as [|i1 u1 k1 t1]; [destruct O1|]. destruct o2 as [|i2 u2 k2 t2]; [destruct O2|]. cbn in O1, O2.
  destruct O1 as (-> & LV & _ & ta & TA & VA). destruct O2 as (-> & _ & _ & tb & TB & VB).
  assert (LEN : (length iv = 12 \/ length iv = 16)%nat) by (destruct u1; auto).
  assert (NA : nth_error (created evs) i1 = Some ta) by (rewrite E, created_app, nth_error_app1; auto; apply nth_error_Some; congruence).
  assert (NB : nth_error (created evs) i2 = Some tb) by (rewrite E2, created_app, nth_error_app1; auto; apply nth_error_Some; congruence).
  set (n := length iv) in *. set (mm := 2 ^ (8 * N.of_nat (n - 8))) in *.
  assert (LIM : forall x, uses n x evs <= 100000 * mm) by (intros x; unfold mm; destruct LEN as [->| ->]; [exact (L12 x)|exact (L16 x)]).
  set (ka := uses n i1 b) in *. set (kb := uses n i2 (b ++ Encrypted i1 iv cs :: m)) in *.
  assert (KA : ka < uses n i1 evs) by (rewrite E; apply uses_lt; cbn; rewrite !Nat.eqb_refl; reflexivity).
  assert (KB : kb < uses n i2 evs) by (rewrite E2; apply uses_lt; cbn; rewrite !Nat.eqb_refl; reflexivity).
  pose proof (LIM i1) as LA. pose proof (LIM i2) as LB. pose proof (LC ta (nth_error_In _ _ NA)) as CA. pose proof (LC tb (nth_error_In _ _ NB)) as CB.
  assert (MP : 0 < mm) by (apply N.neq_0_lt_0, N.pow_nonzero; lia).
  assert (P : ta * mm + ka = tb * mm + kb).
  { apply (vector_pos ta ka iv LEN VA tb kb VB); fold n; fold mm.
    - apply N.lt_le_trans with ((ta + 100000) * mm); [lia|]. apply N.mul_le_mono_r. exact CA.
    - apply N.lt_le_trans with ((tb + 100000) * mm); [lia|]. apply N.mul_le_mono_r. exact CB. }
  destruct (Nat.lt_trichotomy i1 i2) as [C|[C|C]].
  - pose proof (AP _ _ _ _ C NA NB) as Q. unfold MIN_DIFF in Q. assert ((ta + 100000) * mm <= tb * mm) by (apply N.mul_le_mono_r; exact Q). lia.
  - subst i2. rewrite NA in NB. injection NB as <-. assert (ka < kb); [|lia]. unfold ka, kb. apply uses_lt. cbn. rewrite !Nat.eqb_refl. reflexivity.
  - pose proof (AP _ _ _ _ C NB NA) as Q. unfold MIN_DIFF in Q. assert ((tb + 100000) * mm <= ta * mm) by (apply N.mul_le_mono_r; exact Q). lia.
Qed.
Print Assumptions C57_vectors_are_unique.
Lemma uses_le n i evs : uses n i evs <= N.of_nat (length evs).
Proof. unfold uses. pose proof (filter_length_le (is_use n i) evs). lia. Qed.
Lemma small_limits evs : (N.of_nat (length evs) <=? 100000 * 2 ^ 32) && forallb (fun t => t + 100000 <=? 2 ^ 64) (created evs) = true -> within_limits evs.
Proof.
  intros H. apply andb_prop in H. destruct H as (A & B). apply N.leb_le in A. rewrite forallb_forall in B. split; [|split].
  - intros i. eapply N.le_trans; [apply uses_le|exact A].
  - intros i. eapply N.le_trans; [apply uses_le|]. eapply N.le_trans; [exact A|]. apply N.mul_le_mono_l. apply N.pow_le_mono_r; lia.
  - intros t T. apply N.leb_le. exact (B t T).
Qed.
Example C57_vectors_are_unique_ex : within_limits ex_evs /\ length (vectors ex_evs) = 4%nat.
Proof. split; [apply small_limits; vm_compute; reflexivity|vm_compute; reflexivity]. Qed.

(** So a key and a vector are used together for one encryption only, if every bundle has at most one target. *)
Theorem C57_no_reuse_with_single_targets : forall ops evs, Forall op_ok ops -> run started ops = Some evs -> within_limits evs ->
  (forall i u k targets, In (Secure i u k targets) ops -> (length targets <= 1)%nat) -> NoDup (map fst (cipher_calls evs)).
Proof.
  intros ops evs F R W ONE. pose proof (C57_vectors_are_unique _ _ F R W) as ND.
  assert (SH : Forall (fun e => match e with Encrypted _ iv cs => (length cs <= 1)%nat /\ Forall (fun c => snd (fst c) = iv) cs | _ => True end) evs).
  { apply Forall_forall. intros e IN. destruct e as [t| |i iv cs]; auto. destruct (in_split _ _ IN) as (b & a & E). destruct (run_ok ops [] started evs inv_start F R) as (_ & H).
    destruct (H _ _ _ E) as (o & O1 & O2). destruct o as [|i1 u k tg]; [destruct O2|]. cbn in O2. destruct O2 as (_ & _ & -> & _). apply nth_error_In in O1. rewrite map_length. split; [exact (ONE _ _ _ _ O1)|].
    apply Forall_forall. intros c C. apply in_map_iff in C. destruct C as (x & <- & _). reflexivity. }
  clear - ND SH. induction evs as [|e evs IH]; [constructor|]. inversion SH as [|? ? S1 S2]; subst. destruct e as [t| |i iv cs]; cbn in *; auto.
  inversion ND as [|? ? N1 N2]; subst. specialize (IH N2 S2). destruct S1 as (LE & SV). destruct cs as [|c [|c2 cs]]; cbn in *; auto; [|lia]. inversion SV; subst. constructor; auto.
  intros Q. apply N1. apply in_map_iff in Q. destruct Q as (c2 & E2 & Q). unfold cipher_calls in Q. apply in_flat_map in Q. destruct Q as (e & E1 & Q). destruct e as [t| |j iv2 cs2]; cbn in Q; try contradiction.
  rewrite Forall_forall in S2. pose proof (S2 _ E1) as (_ & S3). rewrite Forall_forall in S3. specialize (S3 _ Q). rewrite E2 in S3. unfold vectors. apply in_flat_map. exists (Encrypted j iv2 cs2). split; [exact E1|left; auto].
Qed.
Print Assumptions C57_no_reuse_with_single_targets.
Definition ex_single : list op := [Ask [200000]; Secure 0 true ex_key [1]; Secure 0 true ex_key [1]; Secure 0 true ex_key []].
Example C57_no_reuse_with_single_targets_ex : Forall op_ok ex_single /\ option_map (fun e => length (cipher_calls e)) (run started ex_single) = Some 2%nat /\
  (forall i u k targets, In (Secure i u k targets) ex_single -> (length targets <= 1)%nat).
Proof.
  split; [repeat constructor; vm_compute; reflexivity|]. split; [vm_compute; reflexivity|].
  intros i u k tg IN. cbn in IN. repeat (destruct IN as [E|IN]; [try discriminate E; injection E as <- <- <- <-; cbn; lia|]). destruct IN.
Qed.

(** It is not so in general (RFC 9173, 4.3.1: a vector "MUST NOT be reused for multiple encryptions using the same encryption key"): the
    targets of one bundle are all encrypted with the same key and the same vector. *)
Theorem C57_no_reuse_refuted : exists ops evs, Forall op_ok ops /\ run started ops = Some evs /\ within_limits evs /\
  exists key iv t1 t2, t1 <> t2 /\ cipher_calls evs = [(key, iv, t1); (key, iv, t2)].
Proof.
  exists [Ask [200000]; Secure 0 true ex_key [2; 1]]. eexists. split; [repeat constructor; vm_compute; reflexivity|]. split; [vm_compute; reflexivity|].
  split; [apply small_limits; vm_compute; reflexivity|]. eexists ex_key, _, 2, 1. split; [lia|]. vm_compute. reflexivity.
Qed.
Print Assumptions C57_no_reuse_refuted.

(** Nor are the vectors of two processes different, if the clock is set back between them. *)
Theorem C57_unique_across_restarts_refuted : exists ops1 ops2 evs1 evs2 iv, Forall op_ok ops1 /\ Forall op_ok ops2 /\ run started ops1 = Some evs1 /\ run started ops2 = Some evs2 /\
  within_limits evs1 /\ within_limits evs2 /\ In iv (vectors evs1) /\ In iv (vectors evs2).
Proof.
  exists [Ask [200000]; Secure 0 true ex_key [1]], [Ask [200000]; Secure 0 true ex_key [1]]. do 2 eexists. exists ([64; 13; 3; 0; 0; 0; 0; 0] ++ [0; 0; 0; 0]).
  split; [repeat constructor; vm_compute; reflexivity|]. split; [repeat constructor; vm_compute; reflexivity|]. split; [vm_compute; reflexivity|]. split; [vm_compute; reflexivity|].
  split; [apply small_limits; vm_compute; reflexivity|]. split; [apply small_limits; vm_compute; reflexivity|]. split; left; reflexivity.
Qed.
Print Assumptions C57_unique_across_restarts_refuted.

(** The limit on the number of bundles is exact: the vector after the last permitted one is the first of a thread that asked 100 ms later. *)
Theorem C57_limit_is_exact : forall n t iv iv2, (n = 12 \/ n = 16)%nat -> length iv = n -> length iv2 = n -> t + 100000 < 2 ^ 64 ->
  is_nth_vector t (100000 * 2 ^ (8 * N.of_nat (n - 8))) iv -> is_nth_vector (t + 100000) 0 iv2 -> iv = iv2.
Proof.
  intros n t iv iv2 N L1 L2 T (B1 & A1 & A2) (B2 & C1 & C2). rewrite L1 in A1, A2. rewrite L2 in C1, C2. set (m := 2 ^ (8 * N.of_nat (n - 8))) in *.
  assert (M : m <> 0) by (apply N.pow_nonzero; lia). rewrite N.div_mul, N.mod_small in A1 by auto. rewrite N.mod_mul in A2 by auto. rewrite N.div_0_l, N.add_0_r, N.mod_small in C1 by auto. rewrite N.mod_0_l in C2 by auto.
  rewrite <- (firstn_skipn 8 iv), <- (firstn_skipn 8 iv2). f_equal; apply of_le_inj; try congruence; rewrite ?firstn_length, ?skipn_length, ?L1, ?L2; auto;
    apply Forall_forall; intros x Q; [eapply (proj1 (Forall_forall _ _)) in B1|eapply (proj1 (Forall_forall _ _)) in B2|eapply (proj1 (Forall_forall _ _)) in B1|eapply (proj1 (Forall_forall _ _)) in B2]; eauto.
  - rewrite <- (firstn_skipn 8 iv). apply in_or_app; auto.
  - rewrite <- (firstn_skipn 8 iv2). apply in_or_app; auto.
  - rewrite <- (firstn_skipn 8 iv). apply in_or_app; auto.
  - rewrite <- (firstn_skipn 8 iv2). apply in_or_app; auto.
Qed.
Print Assumptions C57_limit_is_exact.
Example C57_limit_is_exact_ex : is_nth_vector 200000 (100000 * 2 ^ 32) ([224; 147; 4; 0; 0; 0; 0; 0] ++ [0; 0; 0; 0]) /\ is_nth_vector 300000 0 ([224; 147; 4; 0; 0; 0; 0; 0] ++ [0; 0; 0; 0]).
Proof. split; (split; [repeat constructor|split; vm_compute; reflexivity]). Qed.
