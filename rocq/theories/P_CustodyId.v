(** Property C18: the custody id allocator. Vocabulary: S_CustodyId.v. *)
From Coq Require Import NArith ZArith List Bool Lia ZifyBool ZifyN Permutation.
From Verif Require Import Base M_FragmentSet S_FragmentSet L_FragmentSet M_CustodyId S_CustodyId L_CustodyId.
Import ListNotations.
Open Scope N_scope.

Lemma restored_K last rs : Forall (fun r => fst r <= snd r /\ snd r < 2 ^ 63) rs -> K (restore_ids last rs) (restored rs) (2 ^ 55).
Proof.
  intros F. assert (K (restore_ids last rs) (fun i => False \/ restored rs i) (2 ^ 55)) as R.
  { apply (restore_J last rs cia_new (fun _ => False)); [|exact F].
    simpl. split; [apply canonical_nil|]. split; [apply canonical_nil|]. split; [|split; [|split; [|auto]]].
    + intros m. rewrite covers_nil. split; [tauto|]. intros (i & _ & C). now apply covers_nil in C.
    + intros i. apply covers_nil.
    + tauto. }
  destruct R as [[c1 c2 m0 i0 d0 b0 n0] HN]. split; [|exact HN]. constructor; auto.
  intros i. rewrite i0. tauto.
Qed.

(** C18: whatever ids are registered at start-up (below 2^63) and whatever the sources do (fewer than 2^53 calls), as
    long as only ids in use are freed, no id in use is ever issued. *)
Theorem C18_id_in_use_never_issued : forall last rs ops,
  Forall (fun r => fst r <= snd r /\ snd r < 2 ^ 63) rs -> N.of_nat (length ops) < 2 ^ 53 ->
  issues_fresh last (restore_ids last rs) (restored rs) ops.
Proof.
  intros last rs ops F L. apply (K_fresh last ops _ _ (2 ^ 55)); [now apply restored_K|].
  change (2 ^ 55) with 36028797018963968. change (2 ^ 53) with 9007199254740992 in L. unfold BLOCKS. lia.
Qed.
Print Assumptions C18_id_in_use_never_issued.
Definition C18_ops : list cop := repeat (Issue (1, 1)) 257 ++ [Issue (2, 1); FreeRange 512 767; Issue (3, 7); Free1 1280; Issue (1, 1); Issue (4, 4); Issue (5, 4); Issue (6, 4)].
Example C18_id_in_use_never_issued_ex :
  Forall (fun r => fst r <= snd r /\ snd r < 2 ^ 63) [(3, 3); (256, 300)] /\ N.of_nat (length C18_ops) < 2 ^ 53 /\
  skipn 255 (map snd (cia_trace false (restore_ids false [(3, 3); (256, 300)]) C18_ops)) = [767; 768; 1024; 1; 1280; 0; 769; 512; 1536; 1792].
Proof. split; [repeat constructor; vm_compute; congruence|]. split; [vm_compute; reflexivity|]. vm_compute. reflexivity. Qed.

Lemma pend_set_aside st : forall i, pend (cursors st) i <-> set_aside st i.
Proof.
  intros i. unfold pend, set_aside, cursors. split.
  - intros (n & A & Q). apply in_app_or in A. destruct A as [A|A].
    + right. destruct (N.eqb_spec (ca_next st) U64MAX); [contradiction|]. destruct A as [<-|[]]. tauto.
    + left. apply in_map_iff in A. destruct A as ([src n'] & <- & A). exists src, n'. tauto.
  - intros [(src & n & A & Q)|(A & Q)].
    + exists n. split; [|exact Q]. apply in_or_app. right. apply in_map_iff. exists (src, n). auto.
    + exists (ca_next st). split; [|exact Q]. apply in_or_app. left. destruct (N.eqb_spec (ca_next st) U64MAX); [contradiction|now left].
Qed.
Lemma legal_K last st used : forall ops st0 used0 B, K st0 used0 B -> B + 2 * N.of_nat (length ops) < BLOCKS -> legal last st0 used0 ops st used ->
  exists B', B' < BLOCKS /\ K st used B'.
Proof.
  induction ops as [|o ops IH]; intros st0 used0 B HK HB H; inversion H; subst; cbn [length] in HB.
  - exists B. split; [lia|exact HK].
  - pose proof (K_get last st0 used0 B src HK ltac:(lia)) as G. destruct (cia_get last st0 src) as [st' id]. destruct G as (_ & G2).
    eapply IH; [exact G2|lia|eassumption].
  - eapply IH; [apply (K_free last st0 used0 B i HK); [lia|assumption]|lia|eassumption].
  - eapply IH; [apply (K_free_range last st0 used0 B b e HK); [lia|assumption|assumption]|lia|eassumption].
Qed.
Lemma legal_restored last rs ops st used : Forall (fun r => fst r <= snd r /\ snd r < 2 ^ 63) rs -> N.of_nat (length ops) < 2 ^ 53 ->
  legal last (restore_ids last rs) (restored rs) ops st used -> exists B, B < BLOCKS /\ K st used B.
Proof.
  intros F L H. apply (legal_K last st used ops _ _ (2 ^ 55) (restored_K last rs F)); [|exact H].
  change (2 ^ 55) with 36028797018963968. change (2 ^ 53) with 9007199254740992 in L. unfold BLOCKS. lia.
Qed.

(** C18: nothing leaks: after such a history the ids marked used are exactly those in use and those set aside for the
    next issues, and a block is marked used exactly when it contains one of them. *)
Theorem C18_used_sets_exact : forall last rs ops st used,
  Forall (fun r => fst r <= snd r /\ snd r < 2 ^ 63) rs -> N.of_nat (length ops) < 2 ^ 53 ->
  legal last (restore_ids last rs) (restored rs) ops st used ->
  (forall i, covers (ca_ids st) i <-> used i \/ set_aside st i) /\ (forall i, used i -> ~ set_aside st i) /\
  (forall m, covers (ca_mults st) m <-> exists i, i / 256 = m /\ (used i \/ set_aside st i)).
Proof.
  intros last rs ops st used F L H.
  destruct (legal_restored last rs ops st used F L H) as (B & _ & [[c1 c2 jm0 ji0 jd0 b0 n0] _]). pose proof (pend_set_aside st) as P.
  split; [intros i; rewrite <- P; apply ji0|]. split; [intros i U; rewrite <- P; now apply jd0|].
  intros m. rewrite jm0. split; intros (i & A & C); exists i; (split; [exact A|]).
  - rewrite <- P. now apply ji0.
  - apply ji0. now rewrite P.
Qed.
Print Assumptions C18_used_sets_exact.
Example C18_used_sets_exact_ex : exists st used, legal true (restore_ids true [(3, 3)]) (restored [(3, 3)]) [Issue (1, 1); Free1 3; Issue (2, 2); Free1 256] st used /\ used 512 /\
  ca_ids st = [(0, 255); (257, 767)].
Proof.
  do 2 eexists. split.
  - apply legal_issue. apply legal_free; [right; exists (3, 3); split; [now left|simpl; lia]|]. apply legal_issue. apply legal_free; [right; vm_compute; split; [now left|discriminate]|]. apply legal_nil.
  - split; [|vm_compute; reflexivity]. split; [left; vm_compute; reflexivity|lia].
Qed.

(** C18: ids stay small: the block reserved next is the lowest one with no id in use or set aside. *)
Theorem C18_lowest_block_reserved : forall last rs ops st used,
  Forall (fun r => fst r <= snd r /\ snd r < 2 ^ 63) rs -> N.of_nat (length ops) < 2 ^ 53 ->
  legal last (restore_ids last rs) (restored rs) ops st used ->
  let base := ca_next (cia_reserve last st) in
  base mod 256 = 0 /\ (forall i, i / 256 = base / 256 -> ~ used i /\ ~ set_aside st i) /\
  (forall m, m < base / 256 -> exists i, i / 256 = m /\ (used i \/ set_aside st i)).
Proof.
  intros last rs ops st used F L H. destruct (legal_restored last rs ops st used F L H) as (B & HB & [[c1 c2 jm0 ji0 jd0 b0 n0] _]).
  destruct (lowest_free (ca_mults st) B c2 b0 HB) as (L1 & L2 & L3). unfold cia_reserve. cbn [ca_next].
  set (m := match ca_mults st with [] => 0 | f :: _ => _ end) in *. cbv zeta. rewrite base_small by lia.
  split; [lia|]. replace (m * 256 / 256) with m by lia. split.
  - intros i Hi. rewrite <- pend_set_aside. split; intros A; apply L1, jm0; exists i; (split; [exact Hi|]); apply ji0; auto.
  - intros x X. apply L3, jm0 in X. destruct X as (i & Q & C). exists i. split; [exact Q|]. rewrite <- pend_set_aside. now apply ji0.
Qed.
Print Assumptions C18_lowest_block_reserved.
Example C18_lowest_block_reserved_ex : ca_next (cia_reserve true (cia_run true (restore_ids true [(3, 3); (600, 600)]) [Issue (1, 1); Free1 3])) = 0 /\
  ca_next (cia_reserve true (cia_run true (restore_ids true [(3, 3); (600, 600)]) [Issue (1, 1)])) = 1024.
Proof. split; vm_compute; reflexivity. Qed.

Lemma cur_find_set_same l k v : cur_find (cur_set l k v) k = Some v.
Proof. induction l as [|[k' v'] l IH]; simpl.
  - replace (eid_eqb k k) with true by (unfold eid_eqb; lia). reflexivity.
  - destruct (eid_eqb k' k) eqn:E; simpl; [replace (eid_eqb k k) with true by (unfold eid_eqb; lia); reflexivity|]. rewrite E. exact IH.
Qed.
Lemma eid_eqb_trans a b c : eid_eqb a b = true -> eid_eqb a c = eid_eqb b c.
Proof. unfold eid_eqb. intros. assert (fst a = fst b) as -> by lia. assert (snd a = snd b) as -> by lia. reflexivity. Qed.
Lemma cur_find_set_other l k v k2 : eid_eqb k k2 = false -> cur_find (cur_set l k v) k2 = cur_find l k2.
Proof.
  intros D. induction l as [|[k' v'] l IH]; simpl; [now rewrite D|]. destruct (eid_eqb k' k) eqn:E; simpl.
  - rewrite D. rewrite (eid_eqb_trans _ _ k2 E), D. reflexivity.
  - destruct (eid_eqb k' k2); [reflexivity|exact IH].
Qed.
Lemma get_cur_other last st src k2 : eid_eqb src k2 = false -> cur_find (ca_cur (fst (cia_get last st src))) k2 = cur_find (ca_cur st) k2.
Proof.
  intros D. unfold cia_get. set (st1 := if _ =? _ then _ else _). assert (ca_cur st1 = ca_cur st) as E by (subst st1; destruct (_ =? _); reflexivity).
  destruct (cur_find (ca_cur st1) src) as [n|]; [destruct (N.land (add64 n 1) 255 =? 0)|]; unfold cia_reserve, with_cur; cbn [fst ca_cur]; rewrite cur_find_set_other, E by exact D; reflexivity.
Qed.

(** C18: a source gets consecutive ids inside a 256-block, whatever other sources do and whatever is freed meanwhile. *)
Theorem C18_source_ids_consecutive : forall last st src ops,
  let id := snd (cia_get last st src) in
  id + 1 < W64 -> (id + 1) mod 256 <> 0 -> Forall (fun o => match o with Issue s => s <> src | _ => True end) ops ->
  snd (cia_get last (cia_run last (fst (cia_get last st src)) ops) src) = id + 1.
Proof.
  intros last st src ops id Hid Hmod F.
  assert (cur_find (ca_cur (fst (cia_get last st src))) src = Some (id + 1)) as C.
  { subst id. unfold cia_get in *. set (st1 := if _ =? _ then _ else _) in *. destruct (cur_find (ca_cur st1) src) as [n|].
    - destruct (N.eqb_spec (N.land (add64 n 1) 255) 0) as [E|E]; cbn [snd] in Hid, Hmod; rewrite add64_small in * by assumption.
      + change 255 with (N.ones 8) in E. rewrite N.land_ones in E. contradiction.
      + cbn [fst snd with_cur ca_cur]. apply cur_find_set_same.
    - unfold cia_reserve, with_cur in *. cbn [snd fst ca_cur] in *. rewrite add64_small by assumption. apply cur_find_set_same. }
  assert (forall ops st0, cur_find (ca_cur st0) src = Some (id + 1) -> Forall (fun o => match o with Issue s => s <> src | _ => True end) ops ->
    cur_find (ca_cur (cia_run last st0 ops)) src = Some (id + 1)) as G.
  { clear. induction ops as [|o ops IH]; intros st0 C F; [exact C|]. pose proof (Forall_inv F) as F1. apply Forall_inv_tail in F.
    destruct o as [s|i|b e]; cbn [cia_run]; apply IH; auto.
    - rewrite get_cur_other; [exact C|]. destruct (eid_eqb s src) eqn:E; [|reflexivity]. exfalso. apply F1. unfold eid_eqb in E. destruct s, src; simpl in *. f_equal; lia.
    - unfold cia_free. destruct (free_mult _ _ _ _). exact C.
    - unfold cia_free_range. destruct (free_mults _ _ _ _ _). exact C. }
  specialize (G ops _ C F). unfold cia_get at 1. set (st2 := cia_run _ _ _) in *.
  replace (ca_cur (if ca_next st2 =? U64MAX then cia_reserve last st2 else st2)) with (ca_cur st2) by (destruct (_ =? _); reflexivity).
  rewrite G. destruct (_ =? _); reflexivity.
Qed.
Print Assumptions C18_source_ids_consecutive.
Example C18_source_ids_consecutive_ex : map snd (cia_trace true cia_new [Issue (1,1); Issue (2,2); Free1 256; Issue (1,1)]) = [0; 256; 0; 1].
Proof. vm_compute. reflexivity. Qed.

(** C18 is false if ids are only known to have been issued at some time: freeing an id a second time after its block was
    reserved again takes an id not yet issued out of the used set, and it is then issued twice. (The ranges freed come
    from the next hop's custody signals.) *)
Definition C18_double_free : list cop :=
  repeat (Issue (1, 1)) 256 ++ [FreeRange 0 255; Issue (2, 1); Issue (3, 1); FreeRange 1 255; Free1 0; Issue (3, 1); Issue (4, 1); Issue (5, 1); Issue (5, 1)].
Theorem C18_freed_twice_refuted : exists ops, let evs := cia_trace false cia_new ops in
  frees_only_issued evs [] = true /\ issues_used evs [] = true.
Proof. exists C18_double_free. vm_compute. split; reflexivity. Qed.
Print Assumptions C18_freed_twice_refuted.
