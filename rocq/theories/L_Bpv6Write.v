(** Lemmas for C37-C39: the writers of the BPv6 codecs. *)
From Coq Require Import NArith ZArith List Bool Lia ZifyBool ZifyN.
From Verif Require Import Base M_FragmentSet S_FragmentSet M_Sdnv M_Acs M_Uri M_Bpv6Block M_BundleV6 S_Acs S_Sdnv S_Uri S_Bpv6 L_Sdnv P_Sdnv L_SdnvRead L_Acs L_Uri P_Uri L_Bpv6Read L_Bpv6Load.
Import ListNotations.
Open Scope N_scope.

(** The writer has written [pre] at the start of a memory of [size] bytes. *)
Definition wok (size : nat) (w : wr) (pre : list N) : Prop := length (fst w) = size /\ snd w = length pre /\ firstn (snd w) (fst w) = pre.
(** [f] writes [d] and touches at most [x] bytes behind it. *)
Definition writes (f : wr -> option wr) (d : list N) (x : nat) : Prop :=
  forall size w pre, wok size w pre -> (length pre + length d + x <= size)%nat -> exists w', f w = Some w' /\ wok size w' (pre ++ d).
Lemma writes_more f d x y : writes f d x -> (x <= y)%nat -> writes f d y.
Proof. intros H L size w pre W Q. apply H; [exact W|lia]. Qed.
Lemma writes_seq f d g e x : writes f d x -> writes g e x -> writes (fun w => do w1 <- f w; g w1) (d ++ e) x.
Proof.
  intros H1 H2 size w pre W L. rewrite app_length in L. destruct (H1 size w pre W) as (w1 & -> & W1); [lia|].
  destruct (H2 size w1 (pre ++ d) W1) as (w2 & -> & W2); [rewrite app_length; lia|]. exists w2. rewrite app_assoc. auto.
Qed.
Lemma writes_nil x : writes (fun w => Some w) [] x.
Proof. intros size w pre W _. exists w. rewrite app_nil_r. auto. Qed.
Lemma wok_room size w pre : wok size w pre -> room w = (size - length pre)%nat.
Proof. intros (L & P & _). unfold room. lia. Qed.
Lemma put_writes f d x : (forall b, (length d + x <= length b)%nat -> exists junk, f b = Some (N.of_nat (length d), d ++ junk) /\ length (d ++ junk) = length b) ->
  writes (put f) d x.
Proof.
  intros H size [buf p] pre (L & P & F) Q. cbn [fst snd] in *. unfold put. cbn [fst snd]. destruct (H (skipn p buf)) as (junk & -> & LJ); [rewrite skipn_length; lia|].
  eexists. split; [reflexivity|]. cbn [fst snd]. rewrite F, Nat2N.id. rewrite skipn_length in LJ. unfold wok. cbn [fst snd]. rewrite !app_length in *. split; [lia|]. split; [lia|].
  rewrite P, app_assoc. replace (length pre + length d)%nat with (length (pre ++ d)) by now rewrite app_length. apply firstn_len_app.
Qed.
Lemma put_bytes_writes d : writes (put_bytes d) d 0.
Proof.
  apply put_writes. intros b L. replace (Nat.leb (length d) (length b)) with true by (symmetry; apply Nat.leb_le; lia).
  eexists. split; [reflexivity|]. rewrite app_length, skipn_length. lia.
Qed.
Lemma shortest_bound v e : v < W64 -> shortest_sdnv v e -> (1 <= length e <= 10)%nat.
Proof. intros V S. destruct (shortest_64 v e V S) as (A & B & _). split; [|exact B]. destruct A as (i & l & -> & _). rewrite app_length. cbn. lia. Qed.
Lemma put10_writes v e : v < W64 -> shortest_sdnv v e -> writes (put10 v) e 9.
Proof.
  intros V S. pose proof (shortest_bound v e V S) as LE. apply put_writes. intros b L. destruct (encode64_fast_ok v b V ltac:(lia)) as (jk & E & LJ).
  destruct (branch64 v V) as (A & B & C). set (n := sdnv_branch sdnv64_max 1 v) in *.
  assert (EE : enc n v = e) by (apply (shortest_same v); [apply enc_shortest; try assumption; lia|exact S]).
  assert (LN : length (enc n v) = n) by (apply enc_length; lia).
  rewrite EE in E, LN. rewrite E, LN. exists (jk ++ skipn 10 b). split; [reflexivity|]. rewrite !app_length, skipn_length. lia.
Qed.
Lemma put64_writes v e : v < W64 -> shortest_sdnv v e -> writes (put64 v) e 0.
Proof.
  intros V S. apply put_writes. intros b L. destruct (C11_encode64_writes_shortest_sdnv v b V) as (e' & S' & _ & H).
  rewrite (shortest_same v e' e S' S) in H. replace (Nat.ltb (length b) (length e)) with false in H by (symmetry; apply Nat.ltb_ge; lia).
  destruct H as (junk & E & LJ & _). eauto.
Qed.
Lemma put32_writes v e : v < W32 -> shortest_sdnv v e -> writes (put32 v) e 0.
Proof.
  intros V S. apply put_writes. intros b L. destruct (C11_encode32_writes_shortest_sdnv v b V) as (e' & S' & _ & H).
  rewrite (shortest_same v e' e S' S) in H. replace (Nat.ltb (length b) (length e)) with false in H by (symmetry; apply Nat.ltb_ge; lia).
  destruct H as (junk & E & LJ & _). eauto.
Qed.
Lemma shortest_exists v : v < W64 -> exists e, shortest_sdnv v e.
Proof. intros V. destruct (C11_encode64_writes_shortest_sdnv v [] V) as (e & S & _). eauto. Qed.
Lemma shortest_all_exists vs : Forall (fun v => v < W64) vs -> exists bs, shortest_all vs bs.
Proof.
  induction 1 as [|v vs V F (bs & IH)]; [exists []; constructor|]. destruct (shortest_exists v V) as (e & S). exists (e ++ bs). now constructor.
Qed.
Lemma put10s_writes vs bs : shortest_all vs bs -> Forall (fun v => v < W64) vs -> writes (put10s vs) bs 9.
Proof.
  induction 1 as [|v sd vs bs S H IH]; intros F; [apply writes_nil|]. exact (writes_seq _ _ _ _ _ (put10_writes v sd (Forall_inv F) S) (IH (Forall_inv_tail F))).
Qed.
Lemma shortest_one v e : shortest_sdnv v e -> shortest_all [v] e.
Proof. intros S. rewrite <- (app_nil_r e). constructor; [exact S|constructor]. Qed.
Lemma shortest_all_one v e : shortest_all [v] e -> shortest_sdnv v e.
Proof. intros H. inversion H as [|? sd ? b S H2]; subst. inversion H2; subst. now rewrite app_nil_r. Qed.
Lemma shortest_all_two a b p : shortest_all [a; b] p -> exists p1 p2, p = p1 ++ p2 /\ shortest_sdnv a p1 /\ shortest_sdnv b p2.
Proof. intros H. inversion H as [|? sd ? q S H2]; subst. apply shortest_all_one in H2. eauto. Qed.
Lemma shortest_all_app vs bs : shortest_all vs bs -> forall vs' bs', shortest_all vs' bs' -> shortest_all (vs ++ vs') (bs ++ bs').
Proof. induction 1 as [|v sd vs bs S H IH]; intros vs' bs' H'; [exact H'|]. cbn [app]. rewrite <- app_assoc. constructor; auto. Qed.
Lemma sum_sizes_ok vs bs : shortest_all vs bs -> Forall (fun v => v < W64) vs -> sum_sizes vs = Some (N.of_nat (length bs)).
Proof.
  induction 1 as [|v sd vs bs S H IH]; intros F; [reflexivity|]. cbn [sum_sizes]. rewrite (C11_num_bytes_is_shortest_length v sd (Forall_inv F) S), (IH (Forall_inv_tail F)).
  rewrite app_length. f_equal. lia.
Qed.
Lemma shortest_for v e : v < W64 -> shortest_sdnv v e -> sdnv_for v e.
Proof. intros V S. destruct (shortest_64 v e V S) as (A & B & C). destruct S as (_ & E & _). rewrite E in C. repeat split; assumption. Qed.
Lemma shortest_sdnvs vs bs : shortest_all vs bs -> Forall (fun v => v < W64) vs -> sdnvs vs bs.
Proof. induction 1 as [|v sd vs bs S H IH]; intros F; constructor; [apply shortest_for; [exact (Forall_inv F)|exact S]|exact (IH (Forall_inv_tail F))]. Qed.
Lemma shortest_32 v e : v < W32 -> shortest_sdnv v e -> sdnv32_for v e.
Proof.
  intros V S. destruct (C11_encode32_writes_shortest_sdnv v [] V) as (e' & S' & L & _). rewrite (shortest_same v e' e S' S) in L.
  destruct S as (A & B & _). repeat split; assumption.
Qed.
Lemma shortest_low v e : v < 128 -> shortest_sdnv v e -> e = [v].
Proof.
  intros V S. apply (shortest_same v); [exact S|]. destruct (one_byte_sdnv v V) as (A & _ & B & _). split; [exact A|]. split; [exact B|].
  intros bs' (i & l & -> & _) _. rewrite app_length. cbn. lia.
Qed.
Lemma put_time_writes t bs : shortest_all [fst t; snd t] bs -> fst t < W64 -> snd t < W32 -> writes (put_time t) bs 0.
Proof. intros H A B. apply shortest_all_two in H. destruct H as (p1 & p2 & -> & S1 & S2). exact (writes_seq _ _ _ _ _ (put64_writes _ _ A S1) (put32_writes _ _ B S2)). Qed.
Lemma put_stamp_writes t bs : shortest_all [fst t; snd t] bs -> fst t < W64 -> snd t < W64 -> writes (put_stamp t) bs 0.
Proof. intros H A B. apply shortest_all_two in H. destruct H as (p1 & p2 & -> & S1 & S2). exact (writes_seq _ _ _ _ _ (put64_writes _ _ A S1) (put64_writes _ _ B S2)). Qed.
Lemma put_frag_writes (f : bool) off len bs : shortest_all (if f then [off; len] else []) bs -> off < W64 -> len < W64 -> writes (put_frag f off len) bs 0.
Proof.
  intros H A B. destruct f; [|inversion H; apply writes_nil]. apply shortest_all_two in H. destruct H as (p1 & p2 & -> & S1 & S2).
  exact (writes_seq _ _ _ _ _ (put64_writes _ _ A S1) (put64_writes _ _ B S2)).
Qed.
Lemma put_times_writes flags i ts bs : times_written flags i ts bs -> Forall (fun t => fst t < W64 /\ snd t < W32) ts -> writes (put_times flags i ts) bs 0.
Proof.
  induction 1 as [i|i t ts a b T S H IH|i t ts b T H IH]; intros F; [apply writes_nil|..].
  - destruct (Forall_inv F) as [F1 F2]. intros size w pre W L. cbn [put_times]. rewrite bit_test, T.
    exact (writes_seq _ _ _ _ _ (put_time_writes t a S F1 F2) (IH (Forall_inv_tail F)) size w pre W L).
  - intros size w pre W L. cbn [put_times]. rewrite bit_test, T. exact (IH (Forall_inv_tail F) size w pre W L).
Qed.
Lemma put_eid_writes eid bs : eid_written eid bs -> N.of_nat (length eid) < W32 -> writes (put_eid eid) bs 0.
Proof.
  intros (ln & -> & S) V size w pre W L. unfold put_eid. cbv zeta. rewrite N.mod_small by exact V. rewrite app_length in L.
  assert (Copy : forall w1 pre1, wok size w1 pre1 -> (length pre1 + length eid <= size)%nat -> exists w', (if Nat.ltb (room w1) (N.to_nat (N.of_nat (length eid))) then Some w1
      else put_bytes (firstn (N.to_nat (N.of_nat (length eid))) eid) w1) = Some w' /\ wok size w' (pre1 ++ eid)).
  { intros w1 pre1 W1 L1. rewrite Nat2N.id, firstn_all, (wok_room _ _ _ W1). replace (Nat.ltb (size - length pre1) (length eid)) with false by (symmetry; apply Nat.ltb_ge; lia).
    apply (put_bytes_writes eid size w1 pre1 W1). lia. }
  rewrite (wok_room _ _ _ W). destruct (N.leb_spec (N.of_nat (length eid)) 127) as [Z|Z].
  - pose proof (shortest_low (N.of_nat (length eid)) ln ltac:(lia) S) as EL. subst ln. cbn [length] in L. replace (Nat.eqb (size - length pre) 0) with false by (symmetry; apply Nat.eqb_neq; lia).
    destruct (put_bytes_writes [N.of_nat (length eid)] size w pre W) as (w1 & -> & W1); [cbn [length]; lia|].
    destruct (Copy w1 _ W1) as (w2 & -> & W2); [rewrite app_length; cbn [length]; lia|]. exists w2. rewrite app_assoc. auto.
  - destruct (put32_writes _ _ V S size w pre W) as (w1 & -> & W1); [lia|]. destruct (Copy w1 _ W1) as (w2 & -> & W2); [rewrite app_length; lia|].
    exists w2. rewrite app_assoc. auto.
Qed.
Lemma writes_check f d x k : writes f d x -> (k <= length d)%nat -> writes (fun w => if Nat.ltb (room w) k then Some w else f w) d x.
Proof. intros H K size w pre W L. rewrite (wok_room _ _ _ W). replace (Nat.ltb (size - length pre) k) with false by (symmetry; apply Nat.ltb_ge; lia). now apply H. Qed.

(** ** Administrative records *)
Lemma admin_put_writes a bs : admin_written a bs -> admin_ok a ->
  writes (fun w1 => match a with AStatus s => status_write s w1 | ASignal s => signal_write s w1 | AAggregate st fills => put (acs_serialize st fills) w1 end) bs 0.
Proof.
  intros H OK. destruct H as [s fr ts st e H1 H2 H3 H4|s fr t st e H1 H2 H3 H4|st fills enc H].
  - destruct OK as (_ & _ & O1 & O2 & O3 & (O4 & O5) & _ & O6). unfold status_write. apply writes_check; [|cbn [length]; lia].
    exact (writes_seq _ [_; _] _ _ _ (put_bytes_writes _) (writes_seq _ _ _ _ _ (put_frag_writes _ _ _ _ H1 O1 O2) (writes_seq _ _ _ _ _ (put_times_writes _ _ _ _ H2 O3)
      (writes_seq _ _ _ _ _ (put_stamp_writes _ _ H3 O4 O5) (put_eid_writes _ _ H4 O6))))).
  - destruct OK as (_ & O1 & O2 & (O7 & O8) & (O4 & O5) & _ & O6). unfold signal_write. apply writes_check; [|cbn [length]; lia].
    exact (writes_seq _ [_] _ _ _ (put_bytes_writes _) (writes_seq _ _ _ _ _ (put_frag_writes _ _ _ _ H1 O1 O2) (writes_seq _ _ _ _ _ (put_time_writes _ _ H2 O7 O8)
      (writes_seq _ _ _ _ _ (put_stamp_writes _ _ H3 O4 O5) (put_eid_writes _ _ H4 O6))))).
  - destruct OK as (_ & C). apply put_writes. intros b L. cbn [length] in L. destruct b as [|b0 b]; [cbn in L; lia|]. cbn [length] in L. unfold acs_serialize.
    destruct (serialize_ok fills 0 C) as (enc' & E & _ & K); [destruct fills; cbn; lia|]. assert (EE : enc' = enc).
    { revert H E. clear. generalize 0 as prev. intros prev H. revert enc'. induction H as [prev|prev b e r p q rest S1 S2 H IH]; intros enc' E; inversion E; subst; [reflexivity|].
      f_equal; [now apply (shortest_same (b - prev))|]. f_equal; [now apply (shortest_same (e + 1 - b))|]. now apply IH. }
    subst enc'. destruct (K b) as (junk & -> & LJ); [lia|]. exists junk. cbn [fst snd length app]. split; [|cbn [length] in *; lia]. f_equal. f_equal; lia.
Qed.
Lemma times_size_ok flags i ts bs : times_written flags i ts bs -> Forall (fun t => fst t < W64 /\ snd t < W32) ts -> times_size flags i ts = Some (N.of_nat (length bs)).
Proof.
  induction 1 as [i|i t ts a b T S H IH|i t ts b T H IH]; intros F; [reflexivity|..]; cbn [times_size]; rewrite bit_test, T, (IH (Forall_inv_tail F)).
  - destruct (Forall_inv F) as [F1 F2]. rewrite (sum_sizes_ok _ _ S) by (repeat constructor; [exact F1|unfold W32, W64 in *; lia]). rewrite app_length. f_equal. lia.
  - f_equal; lia.
Qed.
Lemma sum_sizes_snoc a b n l1 l2 : shortest_all [a; b] l1 -> shortest_sdnv n l2 -> a < W64 -> b < W64 -> n < W64 ->
  sum_sizes [a; b; n] = Some (N.of_nat (length l1 + length l2)).
Proof.
  intros S1 S2 A B C. pose proof (sum_sizes_ok _ _ (shortest_all_app _ _ S1 _ _ (shortest_one _ _ S2)) ltac:(repeat constructor; assumption)) as Q. rewrite app_length in Q. exact Q.
Qed.
Lemma admin_size_ok a bs : admin_written a bs -> admin_ok a -> admin_size (Some a) = Some (1 + N.of_nat (length bs)).
Proof.
  assert (FR : forall (f : bool) off len fr, shortest_all (if f then [off; len] else []) fr -> off < W64 -> len < W64 -> (if f then sum_sizes [off; len] else Some 0) = Some (N.of_nat (length fr))).
  { intros f off len fr H A B. destruct f; [apply (sum_sizes_ok _ _ H); repeat constructor; assumption|inversion H; reflexivity]. }
  intros H OK. destruct H as [s fr ts st e H1 H2 H3 (ln & -> & S)|s fr t st e H1 H2 H3 (ln & -> & S)|st fills enc H]; cbn [admin_size].
  - destruct OK as (_ & _ & O1 & O2 & O3 & (O4 & O5) & _ & O6). rewrite (FR _ _ _ _ H1 O1 O2), (times_size_ok _ _ _ _ H2 O3).
    rewrite (sum_sizes_snoc _ _ _ _ _ H3 S O4 O5) by (unfold W32, W64 in *; lia). f_equal. cbn [length]. rewrite !app_length. lia.
  - destruct OK as (_ & O1 & O2 & (O7 & O8) & (O4 & O5) & _ & O6). rewrite (FR _ _ _ _ H1 O1 O2).
    rewrite (sum_sizes_ok _ _ H2) by (repeat constructor; [exact O7|unfold W32, W64 in *; lia]).
    rewrite (sum_sizes_snoc _ _ _ _ _ H3 S O4 O5) by (unfold W32, W64 in *; lia). f_equal. cbn [length]. rewrite !app_length. lia.
  - destruct OK as (_ & C). destruct (serialize_ok fills 0 C) as (enc' & E & SZ & _); [destruct fills; cbn; lia|]. unfold acs_size. rewrite SZ. assert (EE : enc' = enc).
    { revert H E. clear. generalize 0 as prev. intros prev H. revert enc'. induction H as [prev|prev b e r p q rest S1 S2 H IH]; intros enc' E; inversion E; subst; [reflexivity|].
      f_equal; [now apply (shortest_same (b - prev))|]. f_equal; [now apply (shortest_same (e + 1 - b))|]. now apply IH. }
    subst enc'. cbn [length]. f_equal. lia.
Qed.
Lemma admin_written_exists a : admin_ok a -> exists bs, admin_written a bs.
Proof.
  assert (FR : forall (f : bool) off len, off < W64 -> len < W64 -> exists fr, shortest_all (if f then [off; len] else []) fr).
  { intros f off len A B. destruct f; apply shortest_all_exists; repeat constructor; assumption. }
  assert (TS : forall flags ts, Forall (fun t => fst t < W64 /\ snd t < W32) ts -> forall i, exists bs, times_written flags i ts bs).
  { intros flags ts. induction 1 as [|t ts (T1 & T2) F IH]; intros i; [exists []; constructor|]. destruct (IH (i + 1)) as (b & Hb). destruct (N.testbit flags i) eqn:T; [|exists b; now constructor].
    destruct (shortest_all_exists [fst t; snd t]) as (a0 & Ha); [repeat constructor; [exact T1|unfold W32, W64 in *; lia]|]. exists (a0 ++ b). now constructor. }
  assert (EI : forall eid : list N, N.of_nat (length eid) < W32 -> exists bs, eid_written eid bs).
  { intros eid L. destruct (shortest_exists (N.of_nat (length eid))) as (ln & S); [unfold W32, W64 in *; lia|]. exists (ln ++ eid), ln. auto. }
  destruct a as [s|s|st fills]; intros OK.
  - destruct OK as (_ & _ & O1 & O2 & O3 & (O4 & O5) & _ & O6). destruct (FR (sr_isfrag s) _ _ O1 O2) as (fr & H1). destruct (TS (sr_flags s) _ O3 0) as (ts & H2).
    destruct (shortest_all_exists [fst (sr_stamp s); snd (sr_stamp s)]) as (st & H3); [repeat constructor; assumption|]. destruct (EI _ O6) as (e & H4). eexists. econstructor; eassumption.
  - destruct OK as (_ & O1 & O2 & (O7 & O8) & (O4 & O5) & _ & O6). destruct (FR (cs_isfrag s) _ _ O1 O2) as (fr & H1).
    destruct (shortest_all_exists [fst (cs_time s); snd (cs_time s)]) as (t & H2); [repeat constructor; [exact O7|unfold W32, W64 in *; lia]|].
    destruct (shortest_all_exists [fst (cs_stamp s); snd (cs_stamp s)]) as (st & H3); [repeat constructor; assumption|]. destruct (EI _ O6) as (e & H4). eexists. econstructor; eassumption.
  - destruct OK as (_ & C). destruct (serialize_ok fills 0 C) as (enc & E & _); [destruct fills; cbn; lia|]. eexists. constructor. exact E.
Qed.

(** ** Block data *)
Definition is_plain (c : content) : bool := match c with Plain => true | _ => false end.
Lemma wok_start (mem : list N) : wok (length mem) (mem, O) [].
Proof. repeat split. Qed.
Lemma wok_full (d : list N) w n : wok n w d -> n = length d -> fst w = d.
Proof. intros (L & P & F) E. rewrite <- F, P, firstn_all2 by lia. reflexivity. Qed.
Lemma writes_run f d x : writes f d x -> x = O -> forall mem, length mem = length d -> exists w', f (mem, O) = Some w' /\ fst w' = d.
Proof.
  intros H -> mem L. destruct (H _ _ _ (wok_start mem)) as (w' & E & W); [cbn [length]; lia|]. exists w'. split; [exact E|]. now apply (wok_full d w' (length mem)).
Qed.
Lemma digits_inj : forall a b, length a = length b -> Forall digit a -> Forall digit b -> numeral_value a = numeral_value b -> a = b.
Proof.
  induction a as [|x a IH]; intros [|y b] L Fa Fb V; try discriminate; [reflexivity|]. injection L as L. rewrite !num_cons, L in V.
  pose proof (num_lt a (Forall_inv_tail Fa)) as B1. pose proof (num_lt b (Forall_inv_tail Fb)) as B2. rewrite L in B1.
  pose proof (Forall_inv Fa) as X. pose proof (Forall_inv Fb) as Y. unfold digit in X, Y. assert (x - 48 = y - 48) by nia. assert (x = y) by lia. subst y. f_equal.
  apply IH; [exact L|exact (Forall_inv_tail Fa)|exact (Forall_inv_tail Fb)|]. lia.
Qed.
Lemma decimal_unique v a b : v < W64 -> decimal v a -> decimal v b -> a = b.
Proof.
  intros V A B. assert (L : length a = length b) by (pose proof (uint_len_ok v a V A) as Q; rewrite (uint_len_ok v b V B) in Q; injection Q; lia).
  destruct A as ((_ & A1 & A2) & _), B as ((_ & B1 & B2) & _). apply digits_inj; try assumption. now rewrite A2, B2.
Qed.
Lemma ipn_text_string node svc t : node < W64 -> svc < W64 -> ipn_text node svc t -> t = uri_string node svc.
Proof.
  intros A B (a & b & Ha & Hb & ->). unfold uri_string. assert (U : forall v s, v < W64 -> decimal v s -> s = dec v).
  { intros v s V D. apply (decimal_unique v); [exact V|exact D|now apply dec_ok]. }
  rewrite (U node a A Ha), (U svc b B Hb). reflexivity.
Qed.
Lemma uris_writes l ts : uris_written l ts -> Forall pair_ok l -> writes (uris_write l) ts 0.
Proof.
  induction 1 as [|node svc t l ts T H IH]; intros F; [apply writes_nil|]. destruct (Forall_inv F) as [A B]. cbn [fst snd] in A, B. rewrite app_assoc.
  refine (writes_seq (put (fun b => Some (uri_write node svc b))) _ _ _ _ (put_writes _ _ 0 _) (IH (Forall_inv_tail F))). intros b L. rewrite (ipn_text_string node svc t A B T) in *.
  pose proof (C36_write_is_exact_and_bounded node svc b) as W. destruct (uri_write node svc b) as [n out]. destruct W as (LO & W). rewrite app_length in L. cbn [length] in L.
  replace (length (uri_string node svc) <? length b)%nat with true in W by (symmetry; apply Nat.ltb_lt; lia). destruct W as (-> & ->).
  exists (skipn (S (length (uri_string node svc))) b). rewrite <- !app_assoc. split; [|exact LO]. f_equal. f_equal. rewrite app_length. cbn [length]. lia.
Qed.
Lemma uris_size_ok l ts : uris_written l ts -> Forall pair_ok l -> uris_size l = Some (N.of_nat (length ts)).
Proof.
  induction 1 as [|node svc t l ts T H IH]; intros F; [reflexivity|]. destruct (Forall_inv F) as [A B]. cbn [fst snd] in A, B. cbn [uris_size].
  rewrite (C36_announced_size_is_exact node svc t A B T), (IH (Forall_inv_tail F)). rewrite !app_length. cbn [length]. f_equal. lia.
Qed.
Lemma type_byte code isfrag : code < 16 -> N.lor (N.shiftl code 4 mod 256) (N.b2n isfrag) = 16 * code + N.b2n isfrag.
Proof.
  intros H. assert (G : forallb (fun c => (N.lor (N.shiftl c 4 mod 256) 0 =? 16 * c + 0) && (N.lor (N.shiftl c 4 mod 256) 1 =? 16 * c + 1)) (map N.of_nat (seq 0 16)) = true) by (vm_compute; reflexivity).
  rewrite forallb_forall in G. specialize (G code). assert (I : In code (map N.of_nat (seq 0 16))) by (apply in_map_iff; exists (N.to_nat code); split; [lia|apply in_seq; lia]).
  specialize (G I). apply andb_prop in G. destruct G as [G1 G2]. destruct isfrag; cbn [N.b2n]; lia.
Qed.
Lemma poke_list (a : list N) x b y : poke (length a) y (a ++ x :: b, length (a ++ x :: b)) = Some (a ++ y :: b, length (a ++ x :: b)).
Proof.
  unfold poke. cbn [fst snd]. replace (Nat.ltb (length a) (length (a ++ x :: b))) with true by (symmetry; apply Nat.ltb_lt; rewrite app_length; cbn; lia).
  rewrite firstn_len_app. replace (skipn (S (length a)) (a ++ x :: b)) with b; [reflexivity|]. change (x :: b) with ([x] ++ b). rewrite app_assoc.
  replace (S (length a)) with (length (a ++ [x])) by (rewrite app_length; cbn; lia). now rewrite skipn_len_app.
Qed.
Lemma data_write_ok c d : data_written c d -> content_ok c -> forall mem, length mem = length d ->
  exists w', data_write c (mem, O) = Some (Some w') /\ fst w' = d.
Proof.
  intros H OK mem L. destruct H as [id eid sd S|node svc a b Da Db|v sd S|code sd S|code sd l ts S U|code sd d S|code isfrag|code isfrag a bs A]; cbn [data_write content_ok] in *.
  - destruct OK as [V _]. destruct (put64_writes id sd V S _ _ _ (wok_start mem)) as (w1 & -> & W1); [rewrite app_length in L; cbn [length]; lia|]. cbn [app] in W1.
    rewrite app_length in L. rewrite (wok_room _ _ _ W1). replace (Nat.ltb (length mem - length sd) (length eid)) with false by (symmetry; apply Nat.ltb_ge; lia).
    destruct (put_bytes_writes eid _ _ _ W1) as (w2 & -> & W2); [lia|]. exists w2. split; [reflexivity|]. apply (wok_full _ _ _ W2). rewrite app_length. exact L.
  - destruct OK as [A B]. assert (EA : a = dec node) by (apply (decimal_unique node); [exact A|exact Da|now apply dec_ok]). assert (EB : b = dec svc) by (apply (decimal_unique svc); [exact B|exact Db|now apply dec_ok]).
    subst a b. set (s := uri_string node svc). assert (ES : s = [105; 112; 110] ++ 58 :: dec node ++ [46] ++ dec svc) by reflexivity.
    assert (LS : length mem = (length s + 1)%nat) by (rewrite L, ES, !app_length; cbn [length]; rewrite !app_length; cbn [length]; lia).
    unfold room. cbn [fst snd]. rewrite Nat.sub_0_r. replace (Nat.eqb (length mem) (length s + 1)) with true by (symmetry; apply Nat.eqb_eq; exact LS). cbn [negb].
    destruct (put_bytes_writes s _ _ _ (wok_start mem)) as ([buf p] & -> & (LB & P & F)); [cbn [length]; lia|]. cbn [app fst snd] in *. cbn [Nat.add]. subst p.
    destruct (exists_last (l := buf)) as (i & x & ->); [destruct buf; [cbn in LB; lia|discriminate]|].
    rewrite app_length in LB. cbn [length] in LB. assert (LI : length i = length s) by lia. rewrite firstn_app, LI, Nat.sub_diag in F. cbn [firstn] in F. rewrite app_nil_r, <- LI, firstn_all in F. subst i.
    assert (P1 : poke 3 0 (s ++ [x], length s) = Some ([105; 112; 110] ++ 0 :: dec node ++ [46] ++ dec svc ++ [x], length s)).
    { unfold poke. cbn [fst snd]. replace (Nat.ltb 3 (length (s ++ [x]))) with true by (symmetry; apply Nat.ltb_lt; rewrite ES; cbn [app length]; lia). rewrite ES. cbn [app firstn skipn]. rewrite <- app_assoc. reflexivity. }
    rewrite P1. cbn [Nat.add]. set (q := [105; 112; 110] ++ 0 :: dec node ++ [46] ++ dec svc).
    replace ([105; 112; 110] ++ 0 :: dec node ++ [46] ++ dec svc ++ [x]) with (q ++ [x]) by (unfold q; rewrite <- !app_assoc; cbn [app]; rewrite <- !app_assoc; reflexivity).
    assert (LQ : length s = length q) by (rewrite ES; unfold q; rewrite !app_length; reflexivity). rewrite LQ.
    assert (P2 : poke (length q) 0 (q ++ [x], length q) = Some (q ++ [0], length q)).
    { unfold poke. cbn [fst snd]. replace (Nat.ltb (length q) (length (q ++ [x]))) with true by (symmetry; apply Nat.ltb_lt; rewrite app_length; cbn; lia). rewrite firstn_len_app.
      rewrite skipn_all2 by (rewrite app_length; cbn; lia). reflexivity. }
    rewrite P2. eexists. split; [reflexivity|]. cbn [fst]. unfold q. cbn [app]. rewrite <- !app_assoc. reflexivity.
  - destruct (writes_run _ _ _ (put64_writes v sd OK S) eq_refl mem L) as (w' & -> & E). eauto.
  - unfold meta_write. destruct (writes_run _ _ _ (put64_writes code sd OK S) eq_refl mem L) as (w' & -> & E). eauto.
  - destruct OK as [V F]. unfold meta_write. destruct (writes_run _ _ _ (writes_seq _ _ _ _ _ (put64_writes code sd V S) (uris_writes l ts U F)) eq_refl mem L) as (w' & E & E2). rewrite E. eauto.
  - destruct OK as [V _]. unfold meta_write. destruct (put64_writes code sd V S _ _ _ (wok_start mem)) as (w1 & -> & W1); [rewrite app_length in L; cbn [length]; lia|]. cbn [app] in W1.
    rewrite app_length in L. rewrite (wok_room _ _ _ W1). replace (Nat.ltb (length mem - length sd) (length d)) with false by (symmetry; apply Nat.ltb_ge; lia).
    destruct (put_bytes_writes d _ _ _ W1) as (w2 & -> & W2); [lia|]. exists w2. split; [reflexivity|]. apply (wok_full _ _ _ W2). rewrite app_length. exact L.
  - unfold admin_write, room. cbn [fst snd]. cbn [length] in L. rewrite L. cbn [Nat.sub Nat.eqb]. rewrite type_byte by exact OK.
    destruct (writes_run _ _ _ (put_bytes_writes [16 * code + N.b2n isfrag]) eq_refl mem L) as (w' & -> & E). eauto.
  - destruct OK as [V OK]. unfold admin_write, room. cbn [fst snd]. cbn [length] in L. rewrite L. cbn [Nat.sub Nat.eqb]. rewrite type_byte by exact V.
    destruct (writes_run _ _ _ (writes_seq _ [_] _ _ _ (put_bytes_writes [16 * code + N.b2n isfrag]) (admin_put_writes a bs A OK)) eq_refl mem L) as (w' & E & E2).
    destruct (put_bytes [16 * code + N.b2n isfrag] (mem, O)) as [w1|]; [|discriminate]. exists w'. split; [|exact E2]. destruct a; cbn beta iota in E; rewrite E; reflexivity.
Qed.
Lemma data_size_ok b d : is_plain (k_content b) = false -> data_written (k_content b) d -> content_ok (k_content b) -> data_size b = Some (N.of_nat (length d)).
Proof.
  unfold data_size. intros _ H OK. destruct H as [id eid sd S|node svc a b' Da Db|v sd S|code sd S|code sd l ts S U|code sd d S|code isfrag|code isfrag a bs A]; cbn [content_ok] in OK.
  - rewrite (C11_num_bytes_is_shortest_length id sd (proj1 OK) S), app_length. f_equal. lia.
  - rewrite (C36_digit_count_is_exact node a (proj1 OK) Da), (C36_digit_count_is_exact svc b' (proj2 OK) Db), !app_length. cbn [length]. f_equal. lia.
  - exact (C11_num_bytes_is_shortest_length v sd OK S).
  - unfold meta_size. rewrite (C11_num_bytes_is_shortest_length code sd OK S). f_equal. lia.
  - unfold meta_size. rewrite (C11_num_bytes_is_shortest_length code sd (proj1 OK) S), (uris_size_ok l ts U (proj2 OK)), app_length. f_equal. lia.
  - unfold meta_size. rewrite (C11_num_bytes_is_shortest_length code sd (proj1 OK) S), app_length. f_equal. lia.
  - reflexivity.
  - rewrite (admin_size_ok a bs A (proj2 OK)). cbn [length]. f_equal. lia.
Qed.
Lemma data_written_exists c : content_ok c -> is_plain c = false -> exists d, data_written c d.
Proof.
  intros OK NP. destruct c as [|id eid|node svc|v|code [[l|d]|]|code isfrag [a|]]; try discriminate; cbn [content_ok] in OK.
  - destruct (shortest_exists id (proj1 OK)) as (sd & S). eexists. constructor. exact S.
  - eexists. apply DwPrevHop; apply dec_ok; apply OK.
  - destruct (shortest_exists v OK) as (sd & S). eexists. constructor. exact S.
  - destruct (shortest_exists code (proj1 OK)) as (sd & S). destruct OK as [_ F]. clear NP. assert (U : exists ts, uris_written l ts).
    { induction F as [|[n s] l (A & B) F (ts & IH)]; [exists []; exact UwNil|]. eexists. constructor; [apply C36_text_is_canonical; assumption|exact IH]. }
    destruct U as (ts & U). eexists. apply DwUris; eassumption.
  - destruct (shortest_exists code (proj1 OK)) as (sd & S). eexists. apply DwMeta. exact S.
  - destruct (shortest_exists code OK) as (sd & S). eexists. apply DwMetaNone. exact S.
  - destruct (admin_written_exists a (proj2 OK)) as (bs & A). eexists. apply DwAdmin. exact A.
  - eexists. apply DwAdminNone.
Qed.

(** ** Blocks *)
Lemma same_width a b ea eb : a < W64 -> b < W64 -> a / 128 = b / 128 -> shortest_sdnv a ea -> shortest_sdnv b eb -> length ea = length eb.
Proof.
  intros A B E Sa Sb. pose proof (C11_num_bytes_is_shortest_length a ea A Sa) as Qa. pose proof (C11_num_bytes_is_shortest_length b eb B Sb) as Qb.
  rewrite num_bytes_branch in Qa by exact A. rewrite num_bytes_branch in Qb by exact B.
  assert (G : forall ths, Forall (fun t => t mod 128 = 127) ths -> forall n, sdnv_branch ths n a = sdnv_branch ths n b).
  { induction 1 as [|t ths T F IH]; intros n; [reflexivity|]. cbn [sdnv_branch]. rewrite IH. replace (a <=? t) with (b <=? t); [reflexivity|].
    pose proof (N.div_mod a 128 ltac:(lia)) as Da. pose proof (N.div_mod b 128 ltac:(lia)) as Db. pose proof (N.div_mod t 128 ltac:(lia)) as Dt.
    pose proof (N.mod_lt a 128 ltac:(lia)). pose proof (N.mod_lt b 128 ltac:(lia)). rewrite T in Dt. rewrite <- E in Db. apply Bool.eq_iff_eq_true. rewrite !N.leb_le. generalize dependent (a / 128). generalize dependent (t / 128). intros q Dt k _ Da Db. lia. }
  assert (F : Forall (fun t => t mod 128 = 127) sdnv64_max) by (unfold sdnv64_max; cbn [map]; repeat constructor).
  specialize (G sdnv64_max F 1%nat). rewrite G in Qa. rewrite Qa in Qb. assert (N.of_nat (length ea) = N.of_nat (length eb)) by congruence. lia.
Qed.
Lemma setbit_low a i : i < 7 -> N.setbit a i / 128 = a / 128.
Proof.
  intros H. change 128 with (2 ^ 7). rewrite <- !N.shiftr_div_pow2. apply N.bits_inj. intros j. rewrite !N.shiftr_spec by lia. rewrite N.setbit_eqb. replace (i =? j + 7) with false by lia. reflexivity.
Qed.
Lemma clearbit_low a i : i < 7 -> N.clearbit a i / 128 = a / 128.
Proof.
  intros H. change 128 with (2 ^ 7). rewrite <- !N.shiftr_div_pow2. apply N.bits_inj. intros j. rewrite !N.shiftr_spec by lia. rewrite N.clearbit_eqb. replace (i =? j + 7) with false by lia. cbn. now rewrite andb_true_r.
Qed.
Lemma div128_lt a b : a / 128 = b / 128 -> a < W64 -> b < W64.
Proof.
  intros E H. pose proof (N.div_mod a 128 ltac:(lia)) as Da. pose proof (N.div_mod b 128 ltac:(lia)) as Db. pose proof (N.mod_lt b 128 ltac:(lia)). pose proof (N.mod_lt a 128 ltac:(lia)).
  rewrite E in Da. change W64 with (128 * 144115188075855872) in *. nia.
Qed.
Lemma div128_low a b : a / 128 = b / 128 -> (a <= 127 <-> b <= 127).
Proof.
  intros E. pose proof (N.div_mod a 128 ltac:(lia)) as Da. pose proof (N.div_mod b 128 ltac:(lia)) as Db. pose proof (N.mod_lt b 128 ltac:(lia)). pose proof (N.mod_lt a 128 ltac:(lia)). rewrite E in Da. nia.
Qed.
Lemma fixed_type_ok b : fixed_type b = block_type b.
Proof. reflexivity. Qed.
Lemma fixed_flags_ok b : fixed_flags b = block_flags b.
Proof. unfold fixed_flags, block_flags. destruct (k_content b); try reflexivity; rewrite N.setbit_spec'; reflexivity. Qed.
Lemma block_flags_div b : block_flags b / 128 = k_flags b / 128.
Proof. unfold block_flags. destruct (k_content b); try reflexivity; apply setbit_low; lia. Qed.
Lemma head_writes type flags len f l : flags < W64 -> len < W64 -> shortest_sdnv flags f -> shortest_sdnv len l -> writes (head_write type flags len) ([type] ++ f ++ l) 9.
Proof.
  intros F L SF SL. unfold head_write. refine (writes_seq _ _ _ _ _ (writes_more _ _ _ _ (put_bytes_writes [type]) ltac:(lia)) (writes_seq _ _ _ _ _ _ (put10_writes len l L SL))).
  destruct (N.leb_spec flags 127) as [Z|Z]; [|now apply put10_writes]. pose proof (shortest_low flags f ltac:(lia) SF) as ->. exact (writes_more _ _ _ _ (put_bytes_writes [flags]) ltac:(lia)).
Qed.
Lemma block_write_ok b data : block_ok b -> block_data b data -> N.of_nat (length data) < W64 ->
  exists bs, written_block (block_type b) (block_flags b) data bs /\ block_size b = Some (N.of_nat (length bs)) /\
    forall size w pre, wok size w pre -> (length pre + length bs + 9 <= size)%nat ->
      exists w', block_write b w = Some (Some (mkBlock (block_type b) (block_flags b) (N.of_nat (length data)) (Some data) (k_content b), w')) /\ wok size w' (pre ++ bs).
Proof.
  intros (BT & BF & BL & CO & BP) BD LD. assert (FF : block_flags b < W64) by (apply (div128_lt (k_flags b)); [symmetry; apply block_flags_div|exact BF]).
  destruct (shortest_exists (block_flags b) FF) as (f & SF). destruct (shortest_exists (k_flags b) BF) as (f0 & SF0). destruct (shortest_exists _ LD) as (l & SL).
  assert (LF : length f0 = length f) by (apply (same_width (k_flags b) (block_flags b)); try assumption; symmetry; apply block_flags_div).
  exists (block_type b :: f ++ l ++ data). split; [exists f, l; auto|].
  assert (HW : writes (head_write (block_type b) (block_flags b) (N.of_nat (length data))) ([block_type b] ++ f ++ l) 9) by now apply head_writes.
  destruct (is_plain (k_content b)) eqn:PL.
  - destruct b as [type flags len kd content]. cbn [k_type k_flags k_len k_data k_content] in *. destruct content; try discriminate. unfold block_data in BD. cbn [k_content k_data k_len] in BD.
    destruct BD as (d & -> & LL & ->). assert (LN : length (firstn (N.to_nat len) d) = N.to_nat len) by (rewrite firstn_length; lia).
    rewrite LN in *. rewrite N2Nat.id in *. unfold block_type, block_flags in *. cbn [k_type k_flags k_content] in *. split.
    + unfold block_size, data_size. cbn [k_flags k_content k_len]. rewrite (C11_num_bytes_is_shortest_length flags f BF SF), (C11_num_bytes_is_shortest_length len l BL SL).
      cbn [length]. rewrite !app_length, LN. f_equal. lia.
    + intros size w pre W L. cbn [length] in L. rewrite !app_length, LN in L. unfold block_write. cbn [k_type k_flags k_len k_data k_content].
      destruct (HW size w pre W) as (w1 & -> & W1); [rewrite !app_length; cbn [length]; lia|]. cbv zeta. replace (Nat.ltb (length d) (N.to_nat len)) with false by (symmetry; apply Nat.ltb_ge; lia).
      destruct (put_bytes_writes (firstn (N.to_nat len) d) size w1 _ W1) as (w2 & -> & W2); [rewrite !app_length, LN; cbn [length]; lia|]. exists w2. split; [reflexivity|].
      cbn [app] in W2. rewrite <- !app_assoc in W2. cbn [app] in W2. rewrite <- !app_assoc in W2. exact W2.
  - assert (DW : data_written (k_content b) data) by (unfold block_data in BD; destruct (k_content b); [discriminate|exact BD..]).
    pose proof (data_size_ok b data PL DW CO) as DS. split.
    + unfold block_size. rewrite DS, (C11_num_bytes_is_shortest_length (k_flags b) f0 BF SF0), (C11_num_bytes_is_shortest_length _ l LD SL). cbn [length]. rewrite !app_length. f_equal. lia.
    + intros size w pre W L. cbn [length] in L. rewrite !app_length in L.
      assert (EQ : block_write b w = (do len <- data_size b; do w1 <- head_write (block_type b) (block_flags b) len w;
        if Nat.ltb (room w1) (N.to_nat len) then None else
        try w2 <- data_write (k_content b) (firstn (N.to_nat len) (skipn (snd w1) (fst w1)), O);
        do w3 <- put_bytes (fst w2) w1; Some (Some (mkBlock (block_type b) (block_flags b) len (Some (fst w2)) (k_content b), w3)))).
      { unfold block_write. rewrite fixed_flags_ok. fold (block_type b). rewrite fixed_type_ok. destruct (k_content b); [discriminate|reflexivity..]. }
      rewrite EQ, DS. destruct (HW size w pre W) as (w1 & -> & W1); [rewrite !app_length; cbn [length]; lia|]. rewrite Nat2N.id, (wok_room _ _ _ W1), !app_length. cbn [length].
      match goal with |- context [Nat.ltb ?a ?b] => replace (Nat.ltb a b) with false by (symmetry; apply Nat.ltb_ge; lia) end.
      destruct (data_write_ok _ data DW CO (firstn (length data) (skipn (snd w1) (fst w1)))) as (w2 & -> & E2).
      { destruct W1 as (A1 & A2 & _). rewrite firstn_length, skipn_length, A1, A2, !app_length. cbn [length]. lia. }
      cbn [bind2]. rewrite E2. destruct (put_bytes_writes data size w1 _ W1) as (w3 & -> & W3); [rewrite !app_length; cbn [length]; lia|]. exists w3. split; [reflexivity|].
      cbn [app] in W3. rewrite <- !app_assoc in W3. cbn [app] in W3. rewrite <- !app_assoc in W3. exact W3.
Qed.

(** ** Primary block *)
Lemma prim_write_ok p : prim_ok p -> exists f sd fr, let bs len := 6 :: f ++ len :: sd ++ fr in let n := N.of_nat (length sd + length fr) in
  shortest_sdnv (p_flags p) f /\ shortest_all (prim_fields p ++ [0]) sd /\ shortest_all (if fragment_flag (p_flags p) then [p_off p; p_total p] else []) fr /\
  prim_size p = Some (if 127 <? n then None else Some (N.of_nat (length (bs n)))) /\
  forall size w pre, wok size w pre -> (length pre + length (bs n) + 9 <= size)%nat ->
    if 127 <? n then prim_write p w = Some None else exists w', prim_write p w = Some (Some (with_len p n, w')) /\ wok size w' (pre ++ bs n).
Proof.
  intros (OK & _). assert (OF : p_flags p < W64) by exact (Forall_inv OK). destruct (shortest_exists _ OF) as (f & SF).
  assert (O1 : Forall (fun v => v < W64) (prim_fields p)) by (unfold prim_fields; repeat (apply Forall_cons_iff in OK; destruct OK as [? OK]); repeat constructor; assumption).
  assert (O2 : Forall (fun v => v < W64) (if fragment_flag (p_flags p) then [p_off p; p_total p] else []))
    by (repeat (apply Forall_cons_iff in OK; destruct OK as [? OK]); destruct (fragment_flag (p_flags p)); repeat constructor; assumption).
  destruct (shortest_all_exists _ O1) as (sd & S1). destruct (shortest_all_exists _ O2) as (fr & S2).
  assert (Z0 : shortest_sdnv 0 [0]). { destruct (shortest_exists 0 ltac:(unfold W64; lia)) as (e & S). rewrite (shortest_low 0 e ltac:(lia) S) in S. exact S. }
  exists f, (sd ++ [0]), fr. cbv zeta. split; [exact SF|]. split; [exact (shortest_all_app _ _ S1 _ _ (shortest_one _ _ Z0))|]. split; [exact S2|]. set (n := N.of_nat (length (sd ++ [0]) + length fr)).
  assert (LN : n = N.of_nat (length sd + length fr) + 1) by (unfold n; rewrite app_length; cbn [length]; lia).
  pose proof (shortest_bound _ _ OF SF) as LF. split.
  - unfold prim_size. rewrite (C11_num_bytes_is_shortest_length _ _ OF SF), frag_bit.
    rewrite (sum_sizes_ok _ _ (shortest_all_app _ _ S1 _ _ S2)) by now apply Forall_app. cbv zeta. rewrite app_length.
    replace (3 + N.of_nat (length f) + N.of_nat (length sd + length fr) - (N.of_nat (length f) + 2)) with n by lia. destruct (127 <? n); [reflexivity|].
    f_equal. f_equal. cbn [length]. rewrite app_length. cbn [length]. rewrite !app_length. cbn [length]. lia.
  - intros size w pre W L. cbn [length] in L. rewrite app_length in L. cbn [length] in L. rewrite !app_length in L. cbn [length] in L. unfold prim_write.
    destruct (put_bytes_writes [6] size w pre W) as (w1 & -> & W1); [cbn [length]; lia|].
    destruct (put10_writes _ _ OF SF size w1 _ W1) as (w2 & -> & W2); [rewrite app_length; cbn [length]; lia|]. cbv zeta.
    set (pre2 := (pre ++ [6]) ++ f) in *. assert (LP2 : length pre2 = (length pre + 1 + length f)%nat) by (unfold pre2; rewrite !app_length; cbn [length]; lia).
    destruct W2 as (A2 & B2 & C2). assert (W3 : exists x, wok size (fst w2, S (snd w2)) (pre2 ++ [x])).
    { destruct (skipn (snd w2) (fst w2)) as [|x r] eqn:E; [apply (f_equal (@length N)) in E; rewrite skipn_length in E; cbn in E; lia|]. exists x.
      assert (EB : fst w2 = pre2 ++ x :: r) by (rewrite <- C2, <- E; symmetry; apply firstn_skipn).
      unfold wok. cbn [fst snd]. split; [exact A2|]. split; [rewrite app_length; cbn [length]; lia|]. rewrite B2, EB. apply firstn_snoc. }
    destruct W3 as (x & W3). destruct (put10s_writes _ _ S1 O1 size _ _ W3) as (w4 & E4 & W4); [rewrite app_length; cbn [length]; lia|]. rewrite E4.
    destruct (put_bytes_writes [0] size w4 _ W4) as (w5 & -> & W5); [rewrite !app_length; cbn [length]; lia|]. rewrite frag_bit.
    assert (W6 : exists w6, (if fragment_flag (p_flags p) then put10s [p_off p; p_total p] w5 else Some w5) = Some w6 /\ wok size w6 ((((pre2 ++ [x]) ++ sd) ++ [0]) ++ fr)).
    { destruct (fragment_flag (p_flags p)).
      - apply (put10s_writes _ _ S2 O2 size _ _ W5). rewrite !app_length. cbn [length]. lia.
      - inversion S2; subst. exists w5. rewrite app_nil_r. auto. }
    destruct W6 as (w6 & -> & W6). replace (N.of_nat (snd w6 - (snd w2 + 1))) with n by (destruct W6 as (_ & -> & _); rewrite !app_length; cbn [length]; lia).
    destruct (N.ltb_spec 127 n) as [Z|Z]; [reflexivity|]. rewrite N.mod_small by lia.
    destruct w6 as [m6 p6]. destruct W6 as (A6 & B6 & C6). cbn [fst snd] in *.
    assert (EM : m6 = pre2 ++ x :: (sd ++ [0] ++ fr ++ skipn p6 m6)).
    { rewrite <- (firstn_skipn p6 m6) at 1. rewrite C6. rewrite <- !app_assoc. reflexivity. }
    assert (PK : poke (snd w2) n (m6, p6) = Some (pre2 ++ n :: (sd ++ [0] ++ fr ++ skipn p6 m6), p6)).
    { unfold poke. cbn [fst snd]. replace (Nat.ltb (snd w2) (length m6)) with true by (symmetry; apply Nat.ltb_lt; lia). set (tl := sd ++ [0] ++ fr ++ skipn p6 m6) in *. rewrite B2, EM, firstn_len_app.
      f_equal. f_equal. f_equal. f_equal. change (x :: tl) with ([x] ++ tl). rewrite app_assoc. replace (S (length pre2)) with (length (pre2 ++ [x])) by (rewrite app_length; cbn; lia). now rewrite skipn_len_app. }
    rewrite PK. eexists. split; [reflexivity|]. unfold wok. cbn [fst snd].
    assert (LL : length (pre2 ++ n :: (sd ++ [0] ++ fr ++ skipn p6 m6)) = length m6) by (rewrite EM at 2; rewrite !app_length; reflexivity).
    split; [lia|]. split; [rewrite B6; unfold pre2; rewrite !app_length; cbn [length]; rewrite !app_length; cbn [length]; rewrite !app_length; cbn [length]; lia|].
    set (full := pre ++ 6 :: f ++ n :: (sd ++ [0]) ++ fr). replace (pre2 ++ n :: (sd ++ [0] ++ fr ++ skipn p6 m6)) with (full ++ skipn p6 m6).
    2:{ unfold full, pre2. repeat (rewrite <- !app_assoc || cbn [app]). reflexivity. }
    replace p6 with (length full); [apply firstn_len_app|]. rewrite B6. unfold full, pre2. rewrite !app_length. cbn [length]. rewrite !app_length. cbn [length]. rewrite !app_length. cbn [length]. lia.
Qed.
