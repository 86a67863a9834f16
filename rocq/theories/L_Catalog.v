(** Lemmas for C16, C17. *)
From Coq Require Import NArith ZArith List Bool Lia ZifyBool ZifyN Permutation.
From Verif Require Import Base M_CustodyId M_HashMap S_HashMap L_HashMap M_Flq S_Flq L_Flq M_Catalog S_Catalog.
Import ListNotations.
Open Scope N_scope.

(** * Sorted maps *)
Lemma above_in {K V} (ltb : K -> K -> bool) k (b : list (K * V)) k' v : above ltb k b -> In (k', v) b -> ltb k k' = true.
Proof. induction b as [|[k1 v1] r IH]; simpl; [tauto|]. intros [A B] [E|I]; [now injection E as <- <-|auto]. Qed.
Lemma find_in {K V} (ltb : K -> K -> bool) (b : list (K * V)) k v : bucket_find ltb b k = Some v -> strict_total ltb -> In (k, v) b.
Proof.
  intros F ST. induction b as [|[k1 v1] r IH]; cbn [bucket_find] in F; [discriminate|].
  destruct (ltb k k1) eqn:A; [discriminate|]. destruct (ltb k1 k) eqn:B; [right; auto|].
  left. injection F as <-. now rewrite (proj2 (proj2 ST) k k1 A B).
Qed.
Lemma in_find {K V} (ltb : K -> K -> bool) (b : list (K * V)) k v : strict_total ltb -> sorted ltb b -> In (k, v) b -> bucket_find ltb b k = Some v.
Proof.
  intros ST. induction b as [|[k1 v1] r IH]; simpl; [tauto|]. intros [A S] [E|I].
  - injection E as <- <-. now rewrite (ltb_irr ltb ST).
  - rewrite (ltb_asym ltb ST k1 k); [|exact (above_in _ _ _ _ _ A I)]. rewrite (above_in _ _ _ _ _ A I). auto.
Qed.
Lemma smap_put_spec {K V} (ltb : K -> K -> bool) (eqk : forall a b : K, {a = b} + {a <> b}) (l : smap K V) k v : strict_total ltb -> sorted ltb l ->
  sorted ltb (smap_put ltb l k v) /\ forall k', smap_find ltb (smap_put ltb l k v) k' = if eqk k' k then Some v else smap_find ltb l k'.
Proof.
  intros ST S. unfold smap_put, smap_find. pose proof (insert_find ltb ST eqk l k v S) as F.
  destruct (bucket_insert ltb l k v) as [l'|] eqn:E.
  - split; [exact (insert_sorted ltb ST _ _ _ _ S E)|]. apply F.
  - split; [now apply write_sorted|]. intros k'. rewrite (write_find ltb ST eqk) by exact S. destruct (bucket_find ltb l k); [reflexivity|congruence].
Qed.
Lemma smap_erase_spec {K V} (ltb : K -> K -> bool) (eqk : forall a b : K, {a = b} + {a <> b}) (l : smap K V) k : strict_total ltb -> sorted ltb l ->
  sorted ltb (smap_erase ltb l k) /\ forall k', smap_find ltb (smap_erase ltb l k) k' = if eqk k' k then None else smap_find ltb l k'.
Proof.
  intros ST S. unfold smap_erase, smap_find. pose proof (take_find ltb ST eqk l k S) as F.
  destruct (bucket_take ltb l k) as [[v l']|] eqn:E.
  - split; [exact (take_sorted ltb _ _ _ _ S E)|]. apply F.
  - split; [exact S|]. intros k'. destruct (eqk k' k) as [->|]; [exact F|reflexivity].
Qed.
Lemma smap_first {V} (l : smap N V) x v r y w : sorted N.ltb l -> l = (x, v) :: r -> smap_find N.ltb l y = Some w -> x <= y.
Proof.
  intros S -> F. apply (find_in _ _ _ _) in F; [|exact N_strict]. destruct F as [E|I]; [injection E; lia|].
  destruct S as [A _]. pose proof (above_in _ _ _ _ _ A I). lia.
Qed.
Definition eid_dec (a b : eid) : {a = b} + {a <> b}.
Proof. repeat decide equality. Defined.

(** * The awaiting-send structure *)
Definition em_good (em : expmap) : Prop :=
  sorted N.ltb em /\ forall x q, smap_find N.ltb em x = Some q -> flq_ok q /\ flq_contents q <> [] /\ x < 2 ^ 60.
Definition arr_good (arr : list expmap) : Prop := length arr = 3%nat /\ forall i em, nth_error arr i = Some em -> em_good em.
Definition D_good (D : destmap) : Prop := sorted eid_ltb D /\ forall d arr, smap_find eid_ltb D d = Some arr -> arr_good arr.
Definition qat (D : destmap) (d : eid) (i : nat) (x : N) : option (flq N) :=
  match smap_find eid_ltb D d with
  | None => None
  | Some arr => match nth_error arr i with None => None | Some em => smap_find N.ltb em x end
  end.
Definition qc (D : destmap) d i x : list N := match qat D d i x with Some q => flq_contents q | None => [] end.

Lemma prio_new_good : arr_good prio_new.
Proof.
  split; [reflexivity|]. intros i em E. assert (em = []) as ->.
  { destruct i as [|[|[|i]]]; simpl in E; try (now injection E as <-). destruct i; discriminate. }
  split; [exact I|]. intros x q F. discriminate.
Qed.
Lemma set_nth_length {A} (l : list A) n x : length (set_nth l n x) = length l.
Proof. revert n. induction l as [|y r IH]; intros [|n]; simpl; auto. Qed.
Lemma set_nth_get {A} (l : list A) n x m : (n < length l)%nat -> nth_error (set_nth l n x) m = if Nat.eqb m n then Some x else nth_error l m.
Proof.
  revert n m. induction l as [|y r IH]; intros n m L; simpl in L; [lia|]. destruct n as [|n], m as [|m]; simpl; try reflexivity.
  rewrite IH by lia. reflexivity.
Qed.
Definition arr_of (D : destmap) (d : eid) : list expmap := match smap_find eid_ltb D d with Some a => a | None => prio_new end.
Lemma arr_of_good D d : D_good D -> arr_good (arr_of D d).
Proof. intros [S G]. unfold arr_of. destruct (smap_find eid_ltb D d) eqn:E; [eauto|exact prio_new_good]. Qed.
Lemma qat_arr_of D d i x : qat D d i x = match nth_error (arr_of D d) i with None => None | Some em => smap_find N.ltb em x end.
Proof.
  unfold qat, arr_of. destruct (smap_find eid_ltb D d); [reflexivity|]. destruct i as [|[|[|i]]]; try reflexivity. simpl. now destruct i.
Qed.
(** Replacing one queue; an empty one disappears. *)
Definition em_upd (em : expmap) (x : N) (q : flq N) : expmap := if flq_is_empty q then smap_erase N.ltb em x else smap_put N.ltb em x q.
Definition D_upd (D : destmap) (d : eid) (i : nat) (em : expmap) : destmap := smap_put eid_ltb D d (set_nth (arr_of D d) i em).
Lemma em_upd_good em x q : em_good em -> flq_ok q -> x < 2 ^ 60 ->
  em_good (em_upd em x q) /\ forall y, match smap_find N.ltb (em_upd em x q) y with Some q' => flq_contents q' | None => [] end =
    if N.eq_dec y x then flq_contents q else match smap_find N.ltb em y with Some q' => flq_contents q' | None => [] end.
Proof.
  intros [S G] Q X. unfold em_upd. destruct (flq_is_empty q) eqn:E.
  - destruct (smap_erase_spec N.ltb N.eq_dec em x N_strict S) as [S' F]. split.
    + split; [exact S'|]. intros y q'. rewrite F. destruct (N.eq_dec y x); [discriminate|apply G].
    + intros y. rewrite F. destruct (N.eq_dec y x); [|reflexivity]. unfold flq_is_empty, flq_contents in *. now destruct (q_fl q).
  - destruct (smap_put_spec N.ltb N.eq_dec em x q N_strict S) as [S' F]. split.
    + split; [exact S'|]. intros y q'. rewrite F. destruct (N.eq_dec y x) as [->|]; [|apply G]. intros Y. injection Y as <-.
      split; [exact Q|]. split; [|exact X]. unfold flq_is_empty, flq_contents in *. now destruct (q_fl q).
    + intros y. rewrite F. now destruct (N.eq_dec y x).
Qed.
Lemma D_upd_good D d i em x q : D_good D -> nth_error (arr_of D d) i = Some em -> flq_ok q -> x < 2 ^ 60 ->
  D_good (D_upd D d i (em_upd em x q)) /\
  forall d' i' x', qc (D_upd D d i (em_upd em x q)) d' i' x' =
    if eid_dec d' d then (if Nat.eqb i' i then (if N.eq_dec x' x then flq_contents q else qc D d' i' x') else qc D d' i' x') else qc D d' i' x'.
Proof.
  intros DG N Q X. pose proof (arr_of_good D d DG) as [L AG]. destruct (em_upd_good em x q (AG _ _ N) Q X) as [EG EF].
  assert ((i < length (arr_of D d))%nat) as I by (apply nth_error_Some; congruence).
  destruct DG as [S G]. destruct (smap_put_spec eid_ltb eid_dec D d (set_nth (arr_of D d) i (em_upd em x q)) eid_strict S) as [S' F]. split.
  - split; [exact S'|]. intros d' arr. unfold D_upd. rewrite F. destruct (eid_dec d' d); [|apply G]. intros Y. injection Y as <-.
    split; [now rewrite set_nth_length|]. intros i' em'. rewrite set_nth_get by exact I. destruct (Nat.eqb i' i); [|apply AG].
    intros Y. now injection Y as <-.
  - intros d' i' x'. unfold qc at 1. unfold qat, D_upd. rewrite F. destruct (eid_dec d' d) as [->|]; [|reflexivity].
    rewrite set_nth_get by exact I. unfold qc. rewrite qat_arr_of. destruct (Nat.eqb_spec i' i) as [->|]; [|reflexivity].
    rewrite EF, N. reflexivity.
Qed.

Lemma free_addr_fresh q : ~ In (free_addr q) (map fst (q_fl q)).
Proof.
  unfold free_addr. intros I. apply in_map_iff in I. destruct I as (n & E & I).
  assert (forall l : list (N * N), In n l -> fst n < fold_right (fun n m => N.max (fst n + 1) m) 1 l) as H.
  { induction l as [|m r IH]; simpl; [tauto|]. intros [->|J]; [lia|]. specialize (IH J). lia. }
  specialize (H _ I). lia.
Qed.

(** * Entries *)
Lemma land_shift_low e m : m < 16 -> N.land (N.shiftl e 4) m = 0.
Proof.
  intros M. apply N.bits_inj_0. intros n. rewrite N.land_spec. destruct (N.lt_ge_cases n 4).
  - rewrite N.shiftl_spec_low by assumption. reflexivity.
  - rewrite andb_comm. replace (N.testbit m n) with false; [reflexivity|]. symmetry.
    destruct (N.eq_dec m 0) as [->|Z]; [apply N.bits_0|]. apply N.bits_above_log2.
    apply N.lt_le_trans with 4; [|assumption]. apply N.log2_lt_pow2; [lia|exact M].
Qed.
Lemma enc_fields p : p_prio p < 4 -> p_exp p < 2 ^ 60 -> forall t, t = 0 \/ t = 4 \/ t = 8 ->
  let enc := N.lor (N.lor (p_prio p) (N.shiftl (p_exp p) 4 mod W64)) t in
  N.land enc 3 = p_prio p /\ N.shiftr enc 4 = p_exp p /\ N.land enc 4 = N.land t 4 /\ N.land enc 8 = N.land t 8.
Proof.
  intros P X t T. cbv zeta. rewrite (N.mod_small (N.shiftl (p_exp p) 4)).
  2:{ rewrite N.shiftl_mul_pow2. change (2 ^ 4) with 16. change (2 ^ 60) with 1152921504606846976 in X. unfold W64. lia. }
  rewrite !N.land_lor_distr_l, !N.shiftr_lor, !land_shift_low by lia.
  rewrite N.shiftr_shiftl_l by lia. replace (4 - 4) with 0 by lia. rewrite N.shiftl_0_r.
  assert (p_prio p = 0 \/ p_prio p = 1 \/ p_prio p = 2 \/ p_prio p = 3) as C by lia.
  destruct C as [->|[->|[->| ->]]]; destruct T as [->|[->| ->]]; repeat split; try reflexivity; rewrite ?N.lor_0_l, ?N.lor_0_r; reflexivity.
Qed.
Definition entry_of (b : item) : centry :=
  let e := ce_init (it_prim b) (it_size b) (it_payload b) (it_segs b) (it_mask b) in
  match it_key b with Some k => ce_set_ptr e k | None => e end.
Definition item_ok (b : item) : Prop := it_prio b < 3 /\ it_exp b < 2 ^ 60 /\ it_size b < W64.
Lemma entry_of_fields b : item_ok b ->
  describes (entry_of b) b /\ ce_custfrag (entry_of b) = (p_cust (it_prim b) && p_frag (it_prim b)) /\
  ce_custnofrag (entry_of b) = (p_cust (it_prim b) && negb (p_frag (it_prim b))) /\ ce_ptr (entry_of b) = it_key b.
Proof.
  intros (P & X & _). unfold it_prio, it_exp in *. assert (p_prio (it_prim b) < 4) as P4 by lia.
  pose proof (enc_fields (it_prim b) P4 X) as F. unfold describes, ce_prio, ce_exp, ce_custfrag, ce_custnofrag, entry_of, it_key, ce_init, it_dest.
  pose proof (F 0 (or_introl eq_refl)) as F0. rewrite N.lor_0_r in F0.
  destruct (p_cust (it_prim b)); [destruct (p_frag (it_prim b))|]; cbn -[N.lor N.shiftl W64];
  [destruct (F 4) as (A & B & C & D); [auto|]|destruct (F 8) as (A & B & C & D); [auto|]|destruct F0 as (A & B & C & D)];
  rewrite ?A, ?B, ?C, ?D; repeat split; destruct (it_mask b); reflexivity.
Qed.

(** * Lists *)
Lemma remove_first_notin l k : ~ In k l -> remove_first N.eqb l k = None.
Proof.
  induction l as [|x r IH]; simpl; [auto|]. intros F. destruct (N.eqb_spec k x) as [->|]; [tauto|]. rewrite IH by tauto. reflexivity.
Qed.
Lemma remove_first_in l k : In k l -> exists l', remove_first N.eqb l k = Some l'.
Proof.
  induction l as [|x r IH]; simpl; [tauto|]. intros F. destruct (N.eqb_spec k x) as [->|]; [eauto|]. destruct F as [F|F]; [congruence|].
  destruct (IH F) as [l' ->]. eauto.
Qed.
Lemma ids_app a b : ids (a ++ b) = ids a ++ ids b. Proof. apply map_app. Qed.
Lemma without_notin cid l : ~ In cid (ids l) -> without cid l = l.
Proof.
  induction l as [|[x b] r IH]; simpl; [auto|]. intros F. destruct (N.eqb_spec x cid) as [->|]; [tauto|]. simpl. rewrite IH by tauto. reflexivity.
Qed.
Lemma filter_without f cid l : NoDup (ids l) ->
  ids (filter f (without cid l)) = match remove_first N.eqb (ids (filter f l)) cid with Some l' => l' | None => ids (filter f l) end.
Proof.
  induction l as [|[x b] r IH]; [reflexivity|]. cbn [ids map]. intros D. inversion D as [|? ? D1 D2]; subst. simpl in D1. cbn [without filter fst].
  destruct (N.eqb_spec x cid) as [->|]; cbn [negb].
  - fold (without cid r). rewrite without_notin by exact D1. destruct (f (cid, b)); cbn [ids map fst remove_first]; [now rewrite N.eqb_refl|].
    rewrite remove_first_notin; [reflexivity|]. intros I. apply D1. unfold ids in *. apply in_map_iff in I. destruct I as (w & <- & I).
    apply filter_In in I. apply in_map. tauto.
  - cbn [filter]. fold (without cid r). destruct (f (x, b)); cbn [ids map fst remove_first].
    + destruct (N.eqb_spec cid x); [congruence|]. fold (ids (filter f r)). fold (ids (filter f (without cid r))). rewrite IH by exact D2.
      destruct (remove_first N.eqb (ids (filter f r)) cid); reflexivity.
    + apply IH. exact D2.
Qed.
Lemma in_without w cid l : In w (without cid l) <-> In w l /\ fst w <> cid.
Proof. unfold without. rewrite filter_In. destruct (N.eqb_spec (fst w) cid); simpl; intuition congruence. Qed.
Lemma ids_without x cid l : In x (ids (without cid l)) <-> In x (ids l) /\ x <> cid.
Proof.
  unfold ids. rewrite !in_map_iff. split.
  - intros (w & <- & I). apply in_without in I. split; [exists w; tauto|tauto].
  - intros ((w & <- & I) & N). exists w. split; [reflexivity|]. apply in_without. tauto.
Qed.
Lemma nodup_filter {A} (f : A * item -> bool) (l : list (A * item)) : NoDup (map fst l) -> NoDup (map fst (filter f l)).
Proof.
  induction l as [|x r IH]; simpl; [auto|]. intros D. inversion D as [|? ? D1 D2]; subst. destruct (f x); simpl; [|auto]. constructor; [|auto].
  intros I. apply D1. apply in_map_iff in I. destruct I as (w & <- & I). apply filter_In in I. apply in_map. tauto.
Qed.
Lemma nodup_without cid l : NoDup (ids l) -> NoDup (ids (without cid l)).
Proof. apply nodup_filter. Qed.
Lemma lookup_in l cid b : lookup l cid = Some b -> In (cid, b) l.
Proof.
  unfold lookup. destruct (find _ l) as [[x y]|] eqn:F; [|discriminate]. intros E. injection E as <-. apply find_some in F.
  destruct F as [I E]. simpl in E. apply N.eqb_eq in E. now subst.
Qed.
Lemma in_lookup l cid b : NoDup (ids l) -> In (cid, b) l -> lookup l cid = Some b.
Proof.
  induction l as [|[x y] r IH]; [intros _ []|]. cbn [ids map fst]. intros D I. inversion D as [|? ? D1 D2]; subst. unfold lookup. cbn [find fst].
  destruct I as [E|I].
  - injection E as -> ->. now rewrite N.eqb_refl.
  - destruct (N.eqb_spec x cid) as [->|]; [|now apply IH]. destruct D1. change cid with (fst (cid, b)). now apply in_map.
Qed.
Lemma lookup_none l cid : lookup l cid = None <-> ~ In cid (ids l).
Proof.
  unfold lookup. split.
  - intros E I. apply in_map_iff in I. destruct I as (w & <- & I). destruct (find _ l) eqn:F; [discriminate|].
    pose proof (find_none _ _ F w I) as X. simpl in X. rewrite N.eqb_refl in X. discriminate.
  - intros N. destruct (find _ l) as [w|] eqn:F; [|reflexivity]. apply find_some in F. destruct F as [I E]. apply N.eqb_eq in E. subst. destruct N.
    now apply in_map.
Qed.
Lemma in_unique l cid b b' : NoDup (ids l) -> In (cid, b) l -> In (cid, b') l -> b = b'.
Proof. intros D A B. pose proof (in_lookup _ _ _ D A). pose proof (in_lookup _ _ _ D B). congruence. Qed.
Lemma lookup_cons cid b l x : lookup ((cid, b) :: l) x = if N.eq_dec x cid then Some b else lookup l x.
Proof. unfold lookup. cbn [find fst]. destruct (N.eqb_spec cid x), (N.eq_dec x cid); try congruence; reflexivity. Qed.
Lemma lookup_without cid l x : NoDup (ids l) -> lookup (without cid l) x = if N.eq_dec x cid then None else lookup l x.
Proof.
  intros D. destruct (N.eq_dec x cid) as [->|N].
  - apply lookup_none. rewrite ids_without. tauto.
  - destruct (lookup l x) as [b|] eqn:E.
    + apply in_lookup; [now apply nodup_without|]. apply in_without. split; [now apply lookup_in|exact N].
    + apply lookup_none. rewrite ids_without. apply lookup_none in E. tauto.
Qed.

(** * Queue operations *)
Definition in_class (d : eid) (i : nat) (x : N) (w : N * item) : bool :=
  eid_eqb (it_dest (snd w)) d && Nat.eqb (N.to_nat (it_prio (snd w))) i && (it_exp (snd w) =? x).
Lemma in_class_iff d i x w : in_class d i x w = true <-> it_dest (snd w) = d /\ N.to_nat (it_prio (snd w)) = i /\ it_exp (snd w) = x.
Proof.
  unfold in_class. rewrite !andb_true_iff, Nat.eqb_eq, N.eqb_eq. destruct (eid_eqb_spec (it_dest (snd w)) d); intuition congruence.
Qed.
Definition upd3 (f : eid -> nat -> N -> list N) (d : eid) (i : nat) (x : N) (l : list N) : eid -> nat -> N -> list N :=
  fun d' i' x' => if eid_dec d' d then (if Nat.eqb i' i then (if N.eq_dec x' x then l else f d' i' x') else f d' i' x') else f d' i' x'.
Lemma upd3_here f d i x l : upd3 f d i x l d i x = l.
Proof. unfold upd3. destruct (eid_dec d d); [|congruence]. rewrite Nat.eqb_refl. destruct (N.eq_dec x x); congruence. Qed.
Lemma upd3_other f d i x l d' i' x' : (d', i', x') <> (d, i, x) -> upd3 f d i x l d' i' x' = f d' i' x'.
Proof.
  intros N. unfold upd3. destruct (eid_dec d' d) as [->|]; [|reflexivity]. destruct (Nat.eqb_spec i' i) as [->|]; [|reflexivity].
  destruct (N.eq_dec x' x) as [->|]; [congruence|reflexivity].
Qed.
Lemma prio_slot D d p : D_good D -> p < 3 -> exists em, nth_error (arr_of D d) (N.to_nat p) = Some em /\ em_good em.
Proof.
  intros G P. destruct (arr_of_good D d G) as [L A]. destruct (nth_error (arr_of D d) (N.to_nat p)) as [em|] eqn:E; [eauto|].
  apply nth_error_None in E. rewrite L in E. lia.
Qed.
Lemma qc_em D d i x em : nth_error (arr_of D d) i = Some em -> qc D d i x = match smap_find N.ltb em x with Some q => flq_contents q | None => [] end.
Proof. intros E. unfold qc. rewrite qat_arr_of, E. reflexivity. Qed.
Lemma contents_nonempty (q : flq N) : flq_contents q <> [] -> flq_is_empty q = false.
Proof. unfold flq_contents, flq_is_empty. destruct (q_fl q); [simpl; congruence|reflexivity]. Qed.

Lemma add_awaiting_spec c e cid o : D_good (ct_dest c) -> ce_prio e < 3 -> ce_exp e < 2 ^ 60 -> o <> BySeq ->
  exists D', add_awaiting c e cid o = Some (with_dest c D', true) /\ D_good D' /\
    let old := qc (ct_dest c) (ce_dest e) (N.to_nat (ce_prio e)) (ce_exp e) in
    forall d i x, qc D' d i x = upd3 (qc (ct_dest c)) (ce_dest e) (N.to_nat (ce_prio e)) (ce_exp e)
                                 (match o with Filo => cid :: old | _ => old ++ [cid] end) d i x.
Proof.
  intros G P X O. unfold add_awaiting. fold (arr_of (ct_dest c) (ce_dest e)).
  destruct (prio_slot (ct_dest c) (ce_dest e) (ce_prio e) G P) as (em & E & EG). rewrite E.
  set (q := match smap_find N.ltb em (ce_exp e) with Some q => q | None => flq_empty end).
  assert (flq_ok q) as Q. { unfold q. destruct (smap_find N.ltb em (ce_exp e)) eqn:F; [apply (proj2 EG _ _ F)|apply flq_empty_ok]. }
  assert (flq_contents q = qc (ct_dest c) (ce_dest e) (N.to_nat (ce_prio e)) (ce_exp e)) as QC.
  { rewrite (qc_em _ _ _ _ _ E). unfold q. destruct (smap_find N.ltb em (ce_exp e)); reflexivity. }
  assert (exists q', queue_insert c q cid (ce_seq e) o = Some (q', true) /\ flq_ok q' /\
     flq_contents q' = match o with Filo => cid :: flq_contents q | _ => flq_contents q ++ [cid] end) as (q' & -> & Q' & C').
  { destruct o; cbn [queue_insert].
    - destruct (push_back_ok q (free_addr q) cid Q (free_addr_fresh q)) as (q' & -> & A & B). eauto.
    - destruct (push_front_ok q (free_addr q) cid Q (free_addr_fresh q)) as (A & B). eauto.
    - congruence. }
  assert (smap_put N.ltb em (ce_exp e) q' = em_upd em (ce_exp e) q') as ->.
  { unfold em_upd. rewrite contents_nonempty; [reflexivity|]. rewrite C'. destruct o; [|discriminate|]; now destruct (flq_contents q). }
  fold (D_upd (ct_dest c) (ce_dest e) (N.to_nat (ce_prio e)) (em_upd em (ce_exp e) q')).
  destruct (D_upd_good (ct_dest c) (ce_dest e) (N.to_nat (ce_prio e)) em (ce_exp e) q' G E Q' X) as [G' F].
  eexists. split; [reflexivity|]. split; [exact G'|]. cbv zeta. intros d i x. rewrite F, C', QC. reflexivity.
Qed.
Lemma with_dest_id c : with_dest c (ct_dest c) = c. Proof. destruct c; reflexivity. Qed.
Lemma upd3_same f d i x d' i' x' : upd3 f d i x (f d i x) d' i' x' = f d' i' x'.
Proof.
  unfold upd3. destruct (eid_dec d' d) as [->|]; [|reflexivity]. destruct (Nat.eqb_spec i' i) as [->|]; [|reflexivity].
  destruct (N.eq_dec x' x) as [->|]; reflexivity.
Qed.
Lemma find_arr_of D d arr : smap_find eid_ltb D d = Some arr -> arr_of D d = arr.
Proof. unfold arr_of. now intros ->. Qed.
Lemma remove_awaiting_spec c e cid : D_good (ct_dest c) -> ce_prio e < 3 ->
  exists D' b, remove_awaiting c e cid = Some (with_dest c D', b) /\ D_good D' /\
    let old := qc (ct_dest c) (ce_dest e) (N.to_nat (ce_prio e)) (ce_exp e) in
    (b = true <-> In cid old) /\
    forall d i x, qc D' d i x = upd3 (qc (ct_dest c)) (ce_dest e) (N.to_nat (ce_prio e)) (ce_exp e)
                                 (match remove_first N.eqb old cid with Some l => l | None => old end) d i x.
Proof.
  intros G P. unfold remove_awaiting. destruct (prio_slot (ct_dest c) (ce_dest e) (ce_prio e) G P) as (em & E & EG).
  assert (forall b, (b = true <-> In cid ([] : list N)) -> qc (ct_dest c) (ce_dest e) (N.to_nat (ce_prio e)) (ce_exp e) = [] -> 
    exists D' b', Some (c, b) = Some (with_dest c D', b') /\ D_good D' /\
    let old := qc (ct_dest c) (ce_dest e) (N.to_nat (ce_prio e)) (ce_exp e) in
    (b' = true <-> In cid old) /\
    forall d i x, qc D' d i x = upd3 (qc (ct_dest c)) (ce_dest e) (N.to_nat (ce_prio e)) (ce_exp e)
                                 (match remove_first N.eqb old cid with Some l => l | None => old end) d i x) as Same.
  { intros b B O. exists (ct_dest c), b. rewrite with_dest_id. split; [reflexivity|]. split; [exact G|]. cbv zeta. rewrite O.
    split; [exact B|]. intros d i x. cbn [remove_first]. rewrite <- O at 1. now rewrite upd3_same. }
  destruct (smap_find eid_ltb (ct_dest c) (ce_dest e)) as [arr|] eqn:FA.
  - rewrite (find_arr_of _ _ _ FA) in E. rewrite E. destruct (smap_find N.ltb em (ce_exp e)) as [q|] eqn:FQ.
    + destruct (proj2 EG _ _ FQ) as (Q & NE & X). destruct (flq_remove N.eqb q cid) as [q' b] eqn:R.
      pose proof (remove_ok N.eqb q cid Q) as (Q' & RS). rewrite R in *. cbn [fst snd] in *.
      fold (em_upd em (ce_exp e) q'). rewrite <- (find_arr_of _ _ _ FA) in E |- *.
      fold (D_upd (ct_dest c) (ce_dest e) (N.to_nat (ce_prio e)) (em_upd em (ce_exp e) q')).
      destruct (D_upd_good (ct_dest c) (ce_dest e) (N.to_nat (ce_prio e)) em (ce_exp e) q' G E Q' X) as [G' F].
      assert (qc (ct_dest c) (ce_dest e) (N.to_nat (ce_prio e)) (ce_exp e) = flq_contents q) as QC by (rewrite (qc_em _ _ _ _ _ E), FQ; reflexivity).
      eexists _, b. split; [reflexivity|]. split; [exact G'|]. cbv zeta. rewrite QC. destruct (remove_first N.eqb (flq_contents q) cid) as [l|] eqn:RF.
      * destruct RS as [-> C']. split.
        -- split; [|tauto]. intros _. destruct (in_dec N.eq_dec cid (flq_contents q)) as [I|I]; [exact I|]. now rewrite (remove_first_notin _ _ I) in RF.
        -- intros d i x. rewrite F, C'. reflexivity.
      * inversion RS; subst. split.
        -- split; [discriminate|]. intros I. destruct (remove_first_in _ _ I). congruence.
        -- intros d i x. rewrite F. reflexivity.
    + apply Same; [split; [discriminate|intros []]|]. rewrite <- (find_arr_of _ _ _ FA) in E. rewrite (qc_em _ _ _ _ _ E), FQ. reflexivity.
  - apply Same; [split; [discriminate|intros []]|]. unfold qc, qat. now rewrite FA.
Qed.

(** * The tables *)
Definition ukey_dec (a b : ukey) : {a = b} + {a <> b}.
Proof. decide equality; [apply uuid_eq_dec|apply uuidnf_eq_dec]. Defined.
Record invS (hf : hashes) (c : catalog) (st : list (N * item)) : Prop := {
  v_hf : hm_ok uuid_ltb (ct_frag c); v_hn : hm_ok uuidnf_ltb (ct_nofrag c); v_he : hm_ok N.ltb (ct_entry c);
  v_entry : forall cid, entry_find c cid = option_map entry_of (lookup st cid);
  v_key : forall k cid, cid_of_uuid hf c k = Some cid <-> exists b, In (cid, b) st /\ it_key b = Some k;
  v_nd : NoDup (ids st);
  v_ok : forall w, In w st -> item_ok (snd w);
  v_num : ct_num c = N.of_nat (length st) mod W64;
  v_bytes : ct_bytes c = fold_right N.add 0 (map (fun p => it_size (snd p)) st) mod W64 }.
Lemma invS_with_dest hf c st D : invS hf c st -> invS hf (with_dest c D) st.
Proof. intros [A B C E F G H I J]. constructor; try assumption. Qed.

Lemma without_length cid b st : NoDup (ids st) -> In (cid, b) st -> length st = S (length (without cid st)).
Proof.
  induction st as [|[x y] r IH]; [intros _ []|]. cbn [ids map fst]. intros D I. inversion D as [|? ? D1 D2]; subst. cbn [without filter fst length].
  destruct I as [E|I].
  - injection E as -> ->. rewrite N.eqb_refl. cbn [negb]. fold (without cid r). now rewrite without_notin by exact D1.
  - destruct (N.eqb_spec x cid) as [->|]; [destruct D1; change cid with (fst (cid, b)); now apply in_map|]. cbn [negb length]. fold (without cid r). now rewrite IH.
Qed.
Lemma without_sum cid b st : NoDup (ids st) -> In (cid, b) st ->
  fold_right N.add 0 (map (fun p => it_size (snd p)) st) = it_size b + fold_right N.add 0 (map (fun p => it_size (snd p)) (without cid st)).
Proof.
  induction st as [|[x y] r IH]; [intros _ []|]. cbn [ids map fst]. intros D I. inversion D as [|? ? D1 D2]; subst. cbn [without filter fst snd fold_right map].
  destruct I as [E|I].
  - injection E as -> ->. rewrite N.eqb_refl. cbn [negb]. fold (without cid r). now rewrite without_notin by exact D1.
  - destruct (N.eqb_spec x cid) as [->|]; [destruct D1; change cid with (fst (cid, b)); now apply in_map|]. cbn [negb map snd fold_right]. fold (without cid r).
    rewrite (IH D2 I). lia.
Qed.
Lemma sub64_mod a b : b <= a -> b < W64 -> sub64 (a mod W64) b = (a - b) mod W64.
Proof.
  intros L B. unfold sub64. rewrite N.add_mod_idemp_l by (unfold W64; lia).
  replace (a + (W64 - b)) with (a - b + 1 * W64) by lia. apply N.mod_add. unfold W64. lia.
Qed.
Lemma add64_mod a b : add64 (a mod W64) b = (a + b) mod W64.
Proof. unfold add64. apply N.add_mod_idemp_l. unfold W64. lia. Qed.

Lemma item_key_cases b : it_key b = if p_cust (it_prim b) then Some (if p_frag (it_prim b) then KFrag (prim_uuid (it_prim b) (it_payload b)) else KNoFrag (prim_uuidnf (it_prim b))) else None.
Proof. reflexivity. Qed.

Definition set_entries (c : catalog) h num bytes eops ebytes : catalog :=
  mkCat (ct_dest c) (ct_frag c) (ct_nofrag c) h num bytes (ct_wops c) (ct_wbytes c) eops ebytes.
(** Removing from the tables, whatever happens to the queues in between. *)
Lemma tables_remove hf c st cid b D : invS hf c st -> lookup st cid = Some b ->
  let h := fst (hm_take N.ltb hash_u64 (ct_entry c) cid) in
  let c1 := set_entries c h (sub64 (ct_num c) 1) (sub64 (ct_bytes c) (ce_bundle (entry_of b))) (add64 (ct_eops c) 1) (add64 (ct_ebytes c) (ce_bundle (entry_of b))) in
  snd (hm_take N.ltb hash_u64 (ct_entry c) cid) = Some (entry_of b) /\
  exists c3 c4 n3 n4, drop_frag hf (with_dest c1 D) (entry_of b) cid = Some (c3, false, n3) /\ drop_nofrag hf c3 (entry_of b) cid = Some (c4, false, n4) /\
    ct_dest c4 = D /\ n3 + n4 = (match it_key b with Some _ => 1 | None => 0 end) /\ invS hf c4 (without cid st).
Proof.
  intros V L h c1. destruct V as [Vf Vn Ve VE VK VN VO Vnum Vbytes].
  pose proof (hm_take_spec N.ltb N_strict N.eq_dec hash_u64 (ct_entry c) cid Ve) as (He & Hv & Hf).
  fold (entry_find c cid) in Hv. rewrite VE, L in Hv. split; [exact Hv|].
  pose proof (lookup_in _ _ _ L) as IN. pose proof (VO _ IN) as OK. cbn [snd] in OK. destruct (entry_of_fields b OK) as (DS & CF & CN & CP).
  assert (fold_right N.add 0 (map (fun p => it_size (snd p)) st) = it_size b + fold_right N.add 0 (map (fun p => it_size (snd p)) (without cid st))) as SUM by (now apply without_sum).
  pose proof (without_length cid b st VN IN) as LEN.
  assert (ce_bundle (entry_of b) = it_size b) as SZ by apply DS.
  assert (sub64 (ct_num c) 1 = N.of_nat (length (without cid st)) mod W64) as NUM.
  { rewrite Vnum, sub64_mod by (unfold W64; lia). f_equal. lia. }
  assert (sub64 (ct_bytes c) (ce_bundle (entry_of b)) = fold_right N.add 0 (map (fun p => it_size (snd p)) (without cid st)) mod W64) as BY.
  { rewrite Vbytes, SZ, SUM, sub64_mod; [f_equal; lia|lia|]. destruct OK as (_ & _ & O). exact O. }
  assert (forall x, hm_find N.ltb hash_u64 h x = option_map entry_of (lookup (without cid st) x)) as ENT.
  { intros x. unfold h. rewrite Hf, lookup_without by exact VN. destruct (N.eq_dec x cid); [reflexivity|]. exact (VE x). }
  assert (forall w, In w (without cid st) -> item_ok (snd w)) as OKs by (intros w I; apply in_without in I; now apply VO).
  assert (forall k x, (exists b', In (x, b') (without cid st) /\ it_key b' = Some k) <-> (it_key b <> Some k /\ cid_of_uuid hf c k = Some x)) as KEYS.
  { intros k x. split.
    - intros (b' & I & K). apply in_without in I. destruct I as [I N]. cbn [fst] in N. assert (cid_of_uuid hf c k = Some x) as E by (apply VK; eauto). split; [|exact E].
      intros Kb. assert (cid_of_uuid hf c k = Some cid) as E2 by (apply VK; eauto). congruence.
    - intros [N E]. apply VK in E. destruct E as (b' & I & K). exists b'. split; [|exact K]. apply in_without. split; [exact I|]. cbn [fst]. intros ->.
      apply N. rewrite (in_unique _ _ _ _ VN IN I). exact K. }
  pose proof (nodup_without cid st VN) as ND.
  unfold drop_frag, drop_nofrag. rewrite CF, CN, CP, item_key_cases. destruct (p_cust (it_prim b)) eqn:PC; [destruct (p_frag (it_prim b)) eqn:PF|]; cbn [andb negb].
  - pose proof (hm_take_spec uuid_ltb uuid_strict uuid_eq_dec (h_frag hf) (ct_frag c) (prim_uuid (it_prim b) (it_payload b)) Vf) as (Hf1 & Hv1 & Hf2).
    assert (cid_of_uuid hf c (KFrag (prim_uuid (it_prim b) (it_payload b))) = Some cid) as E by (apply VK; exists b; split; [exact IN|]; rewrite item_key_cases, PC, PF; reflexivity).
    cbn [cid_of_uuid] in E. rewrite E in Hv1. unfold c1, set_entries, with_dest. cbn [ct_frag]. destruct (hm_take uuid_ltb (h_frag hf) (ct_frag c) (prim_uuid (it_prim b) (it_payload b))) as [h1 r1]. cbn [fst snd] in *. subst r1.
    rewrite N.eqb_refl. cbn [negb]. do 4 eexists. split; [reflexivity|]. split; [reflexivity|]. split; [reflexivity|]. split; [reflexivity|].
    constructor; cbn [ct_frag ct_nofrag ct_entry ct_num ct_bytes with_frag]; auto. unfold cid_of_uuid. cbn [ct_frag ct_nofrag].
    intros k x. rewrite KEYS, item_key_cases, PC, PF. destruct k as [u|u]; cbn [cid_of_uuid].
    + rewrite Hf2. destruct (uuid_eq_dec u (prim_uuid (it_prim b) (it_payload b))) as [->|NE]; [intuition congruence|]. split; [intros Q; split; [congruence|exact Q]|tauto].
    + split; [intros Q; split; [congruence|exact Q]|tauto].
  - pose proof (hm_take_spec uuidnf_ltb uuidnf_strict uuidnf_eq_dec (h_nofrag hf) (ct_nofrag c) (prim_uuidnf (it_prim b)) Vn) as (Hf1 & Hv1 & Hf2).
    assert (cid_of_uuid hf c (KNoFrag (prim_uuidnf (it_prim b))) = Some cid) as E by (apply VK; exists b; split; [exact IN|]; rewrite item_key_cases, PC, PF; reflexivity).
    cbn [cid_of_uuid] in E. rewrite E in Hv1. exists (with_dest c1 D). unfold c1, set_entries, with_dest. cbn [ct_nofrag].
    destruct (hm_take uuidnf_ltb (h_nofrag hf) (ct_nofrag c) (prim_uuidnf (it_prim b))) as [h1 r1]. cbn [fst snd] in *. subst r1.
    rewrite N.eqb_refl. cbn [negb]. eexists _, 0, 1. split; [reflexivity|]. split; [reflexivity|]. split; [reflexivity|]. split; [reflexivity|].
    constructor; cbn [ct_frag ct_nofrag ct_entry ct_num ct_bytes with_nofrag]; auto. unfold cid_of_uuid. cbn [ct_frag ct_nofrag].
    intros k x. rewrite KEYS, item_key_cases, PC, PF. destruct k as [u|u]; cbn [cid_of_uuid].
    + split; [intros Q; split; [congruence|exact Q]|tauto].
    + rewrite Hf2. destruct (uuidnf_eq_dec u (prim_uuidnf (it_prim b))) as [->|NE]; [intuition congruence|]. split; [intros Q; split; [congruence|exact Q]|tauto].
  - do 4 eexists. split; [reflexivity|]. split; [reflexivity|]. split; [reflexivity|]. split; [reflexivity|].
    constructor; cbn [ct_frag ct_nofrag ct_entry ct_num ct_bytes]; auto.
    intros k x. rewrite KEYS, item_key_cases, PC. destruct k as [u|u]; cbn [cid_of_uuid]; (split; [intros Q; split; [congruence|exact Q]|tauto]).
Qed.

(** * The whole invariant *)
Record inv (hf : hashes) (c : catalog) (s : spec) : Prop := {
  i_S : invS hf c (s_stored s);
  i_D : D_good (ct_dest c);
  i_q : forall d i x, qc (ct_dest c) d i x = ids (filter (in_class d i x) (s_wait s));
  i_nd : NoDup (ids (s_wait s));
  i_sub : forall w, In w (s_wait s) -> In w (s_stored s) }.
Lemma inv_new hf : inv hf cat_new s_new.
Proof.
  constructor; simpl; [|split; [exact I|discriminate]|reflexivity|constructor|tauto].
  constructor; simpl; try exact (fun _ => I); try constructor; try reflexivity; try tauto.
  - destruct k; discriminate.
  - intros (b & [] & _).
Qed.
Lemma qc_item hf c s d i x y : inv hf c s -> In y (qc (ct_dest c) d i x) -> exists b, In (y, b) (s_wait s) /\ it_dest b = d /\ N.to_nat (it_prio b) = i /\ it_exp b = x.
Proof.
  intros V I. rewrite (i_q _ _ _ V) in I. apply in_map_iff in I. destruct I as ([y' b] & E & I). simpl in E. subst y'. apply filter_In in I. destruct I as [I C].
  apply in_class_iff in C. exists b. tauto.
Qed.
Lemma item_qc hf c s y b : inv hf c s -> In (y, b) (s_wait s) -> In y (qc (ct_dest c) (it_dest b) (N.to_nat (it_prio b)) (it_exp b)).
Proof.
  intros V I. rewrite (i_q _ _ _ V). apply in_map_iff. exists (y, b). split; [reflexivity|]. apply filter_In. split; [exact I|]. now apply in_class_iff.
Qed.
Lemma wait_unique hf c s y b b' : inv hf c s -> In (y, b) (s_wait s) -> In (y, b') (s_wait s) -> b = b'.
Proof. intros V. apply in_unique. apply (i_nd _ _ _ V). Qed.
Lemma qc_unique hf c s d i x d' i' x' y : inv hf c s -> In y (qc (ct_dest c) d i x) -> In y (qc (ct_dest c) d' i' x') -> d = d' /\ i = i' /\ x = x'.
Proof.
  intros V A B. destruct (qc_item _ _ _ _ _ _ _ V A) as (b & I & <- & <- & <-). destruct (qc_item _ _ _ _ _ _ _ V B) as (b' & I' & <- & <- & <-).
  now rewrite (wait_unique _ _ _ _ _ _ V I I').
Qed.

(** * Store *)
Lemma key_taken_iff hf c st k : invS hf c st -> (exists x, cid_of_uuid hf c k = Some x) <-> key_taken st k.
Proof.
  intros V. split.
  - intros (x & E). apply (v_key _ _ _ V) in E. destruct E as (b & I & K). now exists x, b.
  - intros (x & b & I & K). exists x. apply (v_key _ _ _ V). eauto.
Qed.
Lemma entry_of_init b : it_key b = None -> entry_of b = ce_init (it_prim b) (it_size b) (it_payload b) (it_segs b) (it_mask b).
Proof. unfold entry_of. now intros ->. Qed.
Lemma store_tables hf c st cid b c1 D : invS hf c st -> item_ok b -> ~ In cid (ids st) ->
  ct_entry c1 = ct_entry c -> ct_num c1 = ct_num c -> ct_bytes c1 = ct_bytes c -> hm_ok uuid_ltb (ct_frag c1) -> hm_ok uuidnf_ltb (ct_nofrag c1) ->
  (forall k x, cid_of_uuid hf c1 k = Some x <-> (it_key b = Some k /\ x = cid) \/ (it_key b <> Some k /\ cid_of_uuid hf c k = Some x)) ->
  (forall k, it_key b = Some k -> ~ key_taken st k) ->
  snd (hm_insert N.ltb hash_u64 (ct_entry c1) cid (entry_of b)) = true /\
  invS hf (mkCat D (ct_frag c1) (ct_nofrag c1) (fst (hm_insert N.ltb hash_u64 (ct_entry c1) cid (entry_of b))) (add64 (ct_num c1) 1) (add64 (ct_bytes c1) (ce_bundle (entry_of b)))
                 (add64 (ct_wops c1) 1) (add64 (ct_wbytes c1) (ce_bundle (entry_of b))) (ct_eops c1) (ct_ebytes c1)) ((cid, b) :: st).
Proof.
  intros V OK NI E1 E2 E3 F1 F2 K NT. destruct V as [Vf Vn Ve VE VK VN VO Vnum Vbytes].
  pose proof (hm_insert_spec N.ltb N_strict N.eq_dec hash_u64 (ct_entry c) cid (entry_of b) Ve) as (A & B).
  assert (hm_find N.ltb hash_u64 (ct_entry c) cid = None) as FN. { pose proof (VE cid) as Q. unfold entry_find in Q. rewrite Q. apply lookup_none in NI. now rewrite NI. }
  rewrite FN in B. destruct B as [B1 B2]. rewrite E1. split; [exact B1|].
  assert (ce_bundle (entry_of b) = it_size b) as SZ by apply (entry_of_fields b OK).
  constructor; cbn [ct_frag ct_nofrag ct_entry ct_num ct_bytes]; auto.
  - intros x. unfold entry_find. cbn [ct_entry]. rewrite B2, lookup_cons. destruct (N.eq_dec x cid); [reflexivity|apply VE].
  - intros k x. change (cid_of_uuid hf _ k) with (cid_of_uuid hf c1 k). rewrite K. split.
    + intros [[Q ->]|[Q E]]; [exists b; split; [now left|exact Q]|]. apply VK in E. destruct E as (b' & I & Q'). exists b'. split; [now right|exact Q'].
    + intros (b' & [E|I] & Q); [injection E as <- <-; now left|]. right. split; [intros Q'; apply (NT _ Q'); exists x, b'; split; [exact I|congruence]|]. apply VK. eauto.
  - cbn [ids map fst]. constructor; assumption.
  - intros w [<-|I]; [exact OK|now apply VO].
  - rewrite E2, Vnum, add64_mod. f_equal. cbn [length]. lia.
  - rewrite E3, Vbytes, SZ, add64_mod. f_equal. cbn [map fold_right snd]. lia.
Qed.
Lemma store_spec hf c s cid b o : inv hf c s -> item_ok b -> ~ In cid (ids (s_stored s)) -> o <> BySeq ->
  exists c' ok, catalog_incoming hf c (ce_init (it_prim b) (it_size b) (it_payload b) (it_segs b) (it_mask b)) (it_prim b) cid o = Some (c', ok) /\
      (ok = false <-> exists k, it_key b = Some k /\ key_taken (s_stored s) k) /\
      inv hf c' (if ok then mkSpec ((cid, b) :: s_stored s) (match o with Filo => (cid, b) :: s_wait s | _ => s_wait s ++ [(cid, b)] end) else s).
Proof.
  intros V OK NI O. pose proof V as [VS VD VQ VW VSub].
  destruct (entry_of_fields b OK) as ((_ & _ & _ & DD & DP & DX & _) & _ & _ & _).
  (* what happens once the tables are settled *)
  assert (forall c1, ct_dest c1 = ct_dest c -> ct_entry c1 = ct_entry c -> ct_num c1 = ct_num c -> ct_bytes c1 = ct_bytes c -> hm_ok uuid_ltb (ct_frag c1) -> hm_ok uuidnf_ltb (ct_nofrag c1) ->
    (forall k x, cid_of_uuid hf c1 k = Some x <-> (it_key b = Some k /\ x = cid) \/ (it_key b <> Some k /\ cid_of_uuid hf c k = Some x)) ->
    (forall k, it_key b = Some k -> ~ key_taken (s_stored s) k) ->
    exists c', match add_awaiting c1 (entry_of b) cid o with
      | None => None
      | Some (c2, false) => Some (c2, false)
      | Some (c2, true) =>
        let '(h, ok) := hm_insert N.ltb hash_u64 (ct_entry c2) cid (entry_of b) in
        if ok then Some (mkCat (ct_dest c2) (ct_frag c2) (ct_nofrag c2) h (add64 (ct_num c2) 1) (add64 (ct_bytes c2) (ce_bundle (entry_of b)))
                    (add64 (ct_wops c2) 1) (add64 (ct_wbytes c2) (ce_bundle (entry_of b))) (ct_eops c2) (ct_ebytes c2), true)
        else Some (c2, false)
      end = Some (c', true) /\ inv hf c' (mkSpec ((cid, b) :: s_stored s) (match o with Filo => (cid, b) :: s_wait s | _ => s_wait s ++ [(cid, b)] end))) as Rest.
  { intros c1 E0 E1 E2 E3 F1 F2 K NT. rewrite <- E0 in VD.
    destruct (add_awaiting_spec c1 (entry_of b) cid o VD) as (D' & -> & DG & DQ); [rewrite DP; apply OK|rewrite DX; apply OK|exact O|].
    destruct (store_tables hf c (s_stored s) cid b c1 D' VS OK NI E1 E2 E3 F1 F2 K NT) as [OKI VS'].
    cbn [ct_entry with_dest ct_dest ct_frag ct_nofrag ct_num ct_bytes ct_wops ct_wbytes ct_eops ct_ebytes].
    destruct (hm_insert N.ltb hash_u64 (ct_entry c1) cid (entry_of b)) as [h ok]. cbn [fst snd] in *. subst ok. eexists. split; [reflexivity|].
    constructor; cbn [s_stored s_wait ct_dest].
    - exact VS'.
    - exact DG.
    - cbv zeta in DQ. rewrite DD, DP, DX, E0 in DQ. intros d i x. rewrite DQ.
      assert (in_class d i x (cid, b) = true -> (d, i, x) = (it_dest b, N.to_nat (it_prio b), it_exp b)) as C1 by (intros C; apply in_class_iff in C; cbn [snd] in C; destruct C as (<- & <- & <-); reflexivity).
      assert (in_class d i x (cid, b) = false -> (d, i, x) <> (it_dest b, N.to_nat (it_prio b), it_exp b)) as C2.
      { intros C E. injection E as -> -> ->. assert (in_class (it_dest b) (N.to_nat (it_prio b)) (it_exp b) (cid, b) = true) by now apply in_class_iff. congruence. }
      destruct (in_class d i x (cid, b)) eqn:C.
      + specialize (C1 eq_refl). injection C1 as -> -> ->. rewrite upd3_here, VQ. destruct o; [|cbn [filter]; rewrite C; reflexivity|congruence].
        rewrite filter_app, ids_app. cbn [filter]. rewrite C. reflexivity.
      + rewrite upd3_other by (apply C2; reflexivity). rewrite VQ. destruct o; [|cbn [filter]; rewrite C; reflexivity|congruence].
        rewrite filter_app, ids_app. cbn [filter]. rewrite C. cbn. now rewrite app_nil_r.
    - assert (~ In cid (ids (s_wait s))) as NW. { intros I. apply NI. apply in_map_iff in I. destruct I as (w & <- & I). apply in_map. now apply VSub. }
      destruct o; [|cbn [ids map fst]; now constructor|congruence]. rewrite ids_app. cbn. apply nodup_insert; rewrite app_nil_r; assumption.
    - intros w. destruct o; [rewrite in_app_iff; simpl|simpl|congruence]; intuition. }
  assert (forall k, it_key b = Some k -> key_taken (s_stored s) k -> cid_of_uuid hf c k <> None) as Tk.
  { intros k K T. apply (key_taken_iff hf c _ k VS) in T. destruct T as [x ->]. discriminate. }
  unfold catalog_incoming. assert (it_payload b = ce_payload (ce_init (it_prim b) (it_size b) (it_payload b) (it_segs b) (it_mask b))) as PL by reflexivity. rewrite <- PL. clear PL.
  pose proof (item_key_cases b) as KC. destruct (p_cust (it_prim b)) eqn:PC; [destruct (p_frag (it_prim b)) eqn:PF|].
  - assert (entry_of b = ce_set_ptr (ce_init (it_prim b) (it_size b) (it_payload b) (it_segs b) (it_mask b)) (KFrag (prim_uuid (it_prim b) (it_payload b)))) as EO by (unfold entry_of; rewrite KC; reflexivity).
    rewrite <- EO.
    pose proof (hm_insert_spec uuid_ltb uuid_strict uuid_eq_dec (h_frag hf) (ct_frag c) (prim_uuid (it_prim b) (it_payload b)) cid (v_hf _ _ _ VS)) as (A & B).
    destruct (hm_find uuid_ltb (h_frag hf) (ct_frag c) (prim_uuid (it_prim b) (it_payload b))) as [x|] eqn:F.
    + rewrite B. exists c, false. split; [reflexivity|]. split; [|exact V]. split; [|reflexivity]. intros _. eexists. split; [exact KC|]. apply (key_taken_iff hf c _ _ VS). now exists x.
    + destruct (hm_insert uuid_ltb (h_frag hf) (ct_frag c) (prim_uuid (it_prim b) (it_payload b)) cid) as [h ok]. cbn [fst snd] in *. destruct B as [-> B].
      destruct (Rest (with_frag c h)) as (c' & E & V'); try reflexivity.
      * exact A.
      * exact (v_hn _ _ _ VS).
      * intros k x. rewrite KC. destruct k as [u|u]; cbn [cid_of_uuid with_frag ct_frag ct_nofrag].
        -- rewrite B. destruct (uuid_eq_dec u (prim_uuid (it_prim b) (it_payload b))) as [->|N]; [intuition congruence|]. split; [intros Q; right; split; [congruence|exact Q]|intros [[Q _]|[_ Q]]; [congruence|exact Q]].
        -- split; [intros Q; right; split; [congruence|exact Q]|intros [[Q _]|[_ Q]]; [congruence|exact Q]].
      * intros k K T. apply (Tk k K T). rewrite KC in K. injection K as <-. exact F.
      * exists c', true. split; [exact E|]. split; [|exact V']. split; [discriminate|]. intros (k & K & T). destruct (Tk k K T). rewrite KC in K. injection K as <-. exact F.
  - assert (entry_of b = ce_set_ptr (ce_init (it_prim b) (it_size b) (it_payload b) (it_segs b) (it_mask b)) (KNoFrag (prim_uuidnf (it_prim b)))) as EO by (unfold entry_of; rewrite KC; reflexivity).
    rewrite <- EO.
    pose proof (hm_insert_spec uuidnf_ltb uuidnf_strict uuidnf_eq_dec (h_nofrag hf) (ct_nofrag c) (prim_uuidnf (it_prim b)) cid (v_hn _ _ _ VS)) as (A & B).
    destruct (hm_find uuidnf_ltb (h_nofrag hf) (ct_nofrag c) (prim_uuidnf (it_prim b))) as [x|] eqn:F.
    + rewrite B. exists c, false. split; [reflexivity|]. split; [|exact V]. split; [|reflexivity]. intros _. eexists. split; [exact KC|]. apply (key_taken_iff hf c _ _ VS). now exists x.
    + destruct (hm_insert uuidnf_ltb (h_nofrag hf) (ct_nofrag c) (prim_uuidnf (it_prim b)) cid) as [h ok]. cbn [fst snd] in *. destruct B as [-> B].
      destruct (Rest (with_nofrag c h)) as (c' & E & V'); try reflexivity.
      * exact (v_hf _ _ _ VS).
      * exact A.
      * intros k x. rewrite KC. destruct k as [u|u]; cbn [cid_of_uuid with_nofrag ct_frag ct_nofrag].
        -- split; [intros Q; right; split; [congruence|exact Q]|intros [[Q _]|[_ Q]]; [congruence|exact Q]].
        -- rewrite B. destruct (uuidnf_eq_dec u (prim_uuidnf (it_prim b))) as [->|N]; [intuition congruence|]. split; [intros Q; right; split; [congruence|exact Q]|intros [[Q _]|[_ Q]]; [congruence|exact Q]].
      * intros k K T. apply (Tk k K T). rewrite KC in K. injection K as <-. exact F.
      * exists c', true. split; [exact E|]. split; [|exact V']. split; [discriminate|]. intros (k & K & T). destruct (Tk k K T). rewrite KC in K. injection K as <-. exact F.
  - rewrite <- (entry_of_init b KC). destruct (Rest c) as (c' & E & V'); try reflexivity.
    + exact (v_hf _ _ _ VS).
    + exact (v_hn _ _ _ VS).
    + intros k x. rewrite KC. split; [intros Q; right; split; [congruence|exact Q]|intros [[Q _]|[_ Q]]; [congruence|exact Q]].
    + intros k K. congruence.
    + exists c', true. split; [exact E|]. split; [|exact V']. split; [discriminate|]. intros (k & K & T). congruence.
Qed.

(** * Giving back and removing *)
Lemma stored_entry hf c s cid b : inv hf c s -> lookup (s_stored s) cid = Some b -> entry_find c cid = Some (entry_of b) /\ item_ok b.
Proof.
  intros V L. split; [rewrite (v_entry _ _ _ (i_S _ _ _ V)), L; reflexivity|]. apply lookup_in in L. exact (v_ok _ _ _ (i_S _ _ _ V) _ L).
Qed.
Lemma give_back_spec hf c s cid : inv hf c s -> ~ In cid (ids (s_wait s)) ->
  exists c' ok, return_cid c cid = Some (c', ok) /\
    match lookup (s_stored s) cid with
    | Some b => ok = true /\ inv hf c' (mkSpec (s_stored s) ((cid, b) :: s_wait s))
    | None => ok = false /\ inv hf c' s
    end.
Proof.
  intros V NW. unfold return_cid. destruct (lookup (s_stored s) cid) as [b|] eqn:L.
  - destruct (stored_entry _ _ _ _ _ V L) as [-> OK]. destruct (entry_of_fields b OK) as ((_ & _ & _ & DD & DP & DX & _) & _).
    destruct (add_awaiting_spec c (entry_of b) cid Filo (i_D _ _ _ V)) as (D' & E & DG & DQ); [rewrite DP; apply OK|rewrite DX; apply OK|discriminate|].
    unfold return_awaiting. rewrite E. eexists _, true. split; [reflexivity|]. split; [reflexivity|].
    cbv zeta in DQ. rewrite DD, DP, DX in DQ. constructor; cbn [s_stored s_wait ct_dest with_dest].
    + apply invS_with_dest. apply V.
    + exact DG.
    + intros d i x. rewrite DQ. cbn [filter]. destruct (in_class d i x (cid, b)) eqn:C.
      * apply in_class_iff in C. cbn [snd] in C. destruct C as (<- & <- & <-). rewrite upd3_here, (i_q _ _ _ V). reflexivity.
      * rewrite upd3_other; [apply V|]. intros Q. injection Q as -> -> ->. assert (in_class (it_dest b) (N.to_nat (it_prio b)) (it_exp b) (cid, b) = true) by now apply in_class_iff. congruence.
    + cbn [ids map fst]. constructor; [exact NW|apply V].
    + intros w [<-|I]; [now apply lookup_in|]. now apply (i_sub _ _ _ V).
  - rewrite (v_entry _ _ _ (i_S _ _ _ V)), L. exists c, false. auto.
Qed.
(** Queue part of removing a bundle that may be waiting. *)
Lemma remove_awaiting_wait hf c s cid b c1 : inv hf c s -> lookup (s_stored s) cid = Some b -> ct_dest c1 = ct_dest c ->
  exists D' f, remove_awaiting c1 (entry_of b) cid = Some (with_dest c1 D', f) /\ D_good D' /\ (f = true <-> In cid (ids (s_wait s))) /\
    forall d i x, qc D' d i x = ids (filter (in_class d i x) (without cid (s_wait s))).
Proof.
  intros V L E0. destruct (stored_entry _ _ _ _ _ V L) as [_ OK]. destruct (entry_of_fields b OK) as ((_ & _ & _ & DD & DP & DX & _) & _).
  pose proof (i_D _ _ _ V) as G. rewrite <- E0 in G.
  destruct (remove_awaiting_spec c1 (entry_of b) cid G) as (D' & f & -> & DG & DF & DQ); [rewrite DP; apply OK|].
  rewrite DD, DP, DX, E0 in DQ, DF. exists D', f. split; [reflexivity|]. split; [exact DG|].
  assert (forall b', In (cid, b') (s_wait s) -> b' = b) as U.
  { intros b' I. apply (i_sub _ _ _ V) in I. apply (in_lookup _ _ _ (v_nd _ _ _ (i_S _ _ _ V))) in I. congruence. }
  split.
  - rewrite DF. split.
    + intros I. destruct (qc_item _ _ _ _ _ _ _ V I) as (b' & I' & _). change cid with (fst (cid, b')). now apply in_map.
    + intros I. apply in_map_iff in I. destruct I as ([y b'] & Y & I). simpl in Y. subst y. rewrite (U _ I) in I. exact (item_qc _ _ _ _ _ V I).
  - intros d i x. rewrite DQ, filter_without by apply V.
    destruct (in_class d i x (cid, b)) eqn:C.
    + apply in_class_iff in C. cbn [snd] in C. destruct C as (<- & <- & <-). rewrite upd3_here, (i_q _ _ _ V). reflexivity.
    + rewrite upd3_other.
      * rewrite (i_q _ _ _ V), remove_first_notin; [reflexivity|]. intros I. apply in_map_iff in I. destruct I as ([y b'] & Y & I). simpl in Y. subst y.
        apply filter_In in I. destruct I as [I C']. rewrite (U _ I) in C'. congruence.
      * intros Q. injection Q as -> -> ->. assert (in_class (it_dest b) (N.to_nat (it_prio b)) (it_exp b) (cid, b) = true) by now apply in_class_iff. congruence.
Qed.
Lemma inv_removed hf c s cid c4 D' : inv hf c s -> invS hf c4 (without cid (s_stored s)) -> ct_dest c4 = D' -> D_good D' ->
  (forall d i x, qc D' d i x = ids (filter (in_class d i x) (without cid (s_wait s)))) ->
  inv hf c4 (mkSpec (without cid (s_stored s)) (without cid (s_wait s))).
Proof.
  intros V VS <- DG Q. constructor; cbn [s_stored s_wait]; auto.
  - apply nodup_without. apply V.
  - intros w I. apply in_without in I. apply in_without. split; [apply (i_sub _ _ _ V)|]; tauto.
Qed.
Lemma cat_remove_spec hf c s cid also : inv hf c s ->
  (also = true -> In cid (ids (s_stored s)) -> In cid (ids (s_wait s))) -> (also = false -> ~ In cid (ids (s_wait s))) ->
  exists c' ok n, cat_remove hf c cid also = Some (c', (ok, n)) /\ (ok = true <-> In cid (ids (s_stored s))) /\
      n = match lookup (s_stored s) cid with
          | None => 0
          | Some b => 1 + (if also then 1 else 0) + (match it_key b with Some _ => 1 | None => 0 end)
          end /\
      inv hf c' (mkSpec (without cid (s_stored s)) (without cid (s_wait s))).
Proof.
  intros V A1 A2. unfold cat_remove. destruct (lookup (s_stored s) cid) as [b|] eqn:L.
  - assert (In cid (ids (s_stored s))) as IS by (apply lookup_in in L; change cid with (fst (cid, b)); now apply in_map).
    assert (exists D' , D_good D' /\ (forall d i x, qc D' d i x = ids (filter (in_class d i x) (without cid (s_wait s)))) /\
      forall c1, ct_dest c1 = ct_dest c -> (if negb false && also then
           match remove_awaiting c1 (entry_of b) cid with
           | Some (c2, true) => Some (c2, false, 1 + 1)
           | Some (c2, false) => Some (c2, true, 1)
           | None => None
           end
         else Some (c1, false, 1)) = Some (with_dest c1 D', false, 1 + (if also then 1 else 0))) as (D' & DG & DQ & DR).
    { destruct also.
      - destruct (remove_awaiting_wait hf c s cid b c V L eq_refl) as (D' & f & E & DG & DF & DQ). exists D'. split; [exact DG|]. split; [exact DQ|].
        intros c1 E1. destruct (remove_awaiting_wait hf c s cid b c1 V L E1) as (D2 & f2 & E2 & _ & DF2 & _). cbn [negb andb]. rewrite E2.
        assert (f2 = true) as -> by (apply DF2; auto).
        assert (D2 = D') as ->; [|reflexivity]. clear - E E2 E1. unfold remove_awaiting in *. rewrite E1 in E2.
        assert (forall (x : catalog) d d', with_dest x d = with_dest x d' -> d = d') as Inj by (intros x d d' H; now injection H).
        destruct (smap_find eid_ltb (ct_dest c) (ce_dest (entry_of b))) as [arr|].
        + destruct (nth_error arr (N.to_nat (ce_prio (entry_of b)))) as [em|]; [|discriminate]. destruct (smap_find N.ltb em (ce_exp (entry_of b))) as [q|].
          * destruct (flq_remove N.eqb q cid) as [q' r]. injection E as E _. injection E2 as E2 _. now rewrite <- E, <- E2.
          * injection E as E _. injection E2 as E2 _. rewrite <- (with_dest_id c) in E at 1. rewrite <- (with_dest_id c1) in E2 at 1. apply Inj in E. apply Inj in E2. congruence.
        + injection E as E _. injection E2 as E2 _. rewrite <- (with_dest_id c) in E at 1. rewrite <- (with_dest_id c1) in E2 at 1. apply Inj in E. apply Inj in E2. congruence.
      - exists (ct_dest c). split; [apply V|]. split; [rewrite without_notin by auto; apply V|]. intros c1 E1. cbn [negb andb]. rewrite <- E1, with_dest_id. reflexivity. }
    destruct (tables_remove hf c (s_stored s) cid b D' (i_S _ _ _ V) L) as (T1 & c3 & c4 & n3 & n4 & T2 & T3 & T4 & T5 & T6).
    destruct (hm_take N.ltb hash_u64 (ct_entry c) cid) as [h r]. cbn [fst snd] in *. subst r.
    rewrite DR by reflexivity. unfold set_entries in T2. rewrite T2, T3. cbn [orb negb]. eexists c4, true, _. split; [reflexivity|].
    split; [tauto|]. split; [lia|]. now apply (inv_removed hf c s cid c4 D' V T6 T4).
  - pose proof (hm_take_spec N.ltb N_strict N.eq_dec hash_u64 (ct_entry c) cid (v_he _ _ _ (i_S _ _ _ V))) as (_ & Hv & _).
    fold (entry_find c cid) in Hv. rewrite (v_entry _ _ _ (i_S _ _ _ V)), L in Hv. cbn [option_map] in Hv.
    destruct (hm_take N.ltb hash_u64 (ct_entry c) cid) as [h r]. cbn [snd] in Hv. subst r. cbn [negb andb]. apply lookup_none in L.
    assert (~ In cid (ids (s_wait s))) as NW by (intros I; apply L; apply in_map_iff in I; destruct I as (w & <- & I); apply in_map; now apply (i_sub _ _ _ V)).
    cbn. exists c, false, 0. split; [reflexivity|]. split; [split; [discriminate|tauto]|]. split; [reflexivity|]. rewrite !without_notin by assumption. now destruct s.
Qed.
Lemma remove_read_spec hf c s cid : inv hf c s -> ~ In cid (ids (s_wait s)) ->
  exists c' ok, remove_read hf c cid = Some (c', ok) /\ (ok = true <-> In cid (ids (s_stored s))) /\ inv hf c' (mkSpec (without cid (s_stored s)) (s_wait s)).
Proof.
  intros V NW. unfold remove_read. rewrite (v_entry _ _ _ (i_S _ _ _ V)). destruct (lookup (s_stored s) cid) as [b|] eqn:L.
  - cbn [option_map]. destruct (cat_remove_spec hf c s cid false V) as (c' & ok & n & E & B & _ & V'); [discriminate|auto|]. rewrite E. exists c', ok.
    split; [reflexivity|]. split; [exact B|]. rewrite (without_notin cid (s_wait s)) in V' by exact NW. exact V'.
  - exists c, false. split; [reflexivity|]. apply lookup_none in L. split; [split; [discriminate|tauto]|]. rewrite without_notin by exact L. now destruct s.
Qed.
Lemma remove_any_spec hf c s cid : inv hf c s ->
  exists c' ok, remove_any hf c cid = Some (c', ok) /\ (ok = true <-> In cid (ids (s_stored s))) /\ inv hf c' (mkSpec (without cid (s_stored s)) (without cid (s_wait s))).
Proof.
  intros V. unfold remove_any. rewrite (v_entry _ _ _ (i_S _ _ _ V)). destruct (lookup (s_stored s) cid) as [b|] eqn:L.
  - cbn [option_map]. destruct (remove_awaiting_wait hf c s cid b c V L eq_refl) as (D' & f & E & DG & DF & DQ). rewrite E.
    assert (inv hf (with_dest c D') (mkSpec (s_stored s) (without cid (s_wait s)))) as V1.
    { constructor; cbn [s_stored s_wait ct_dest with_dest]; auto; [apply invS_with_dest; apply V|apply nodup_without; apply V|]. intros w I. apply in_without in I. now apply (i_sub _ _ _ V). }
    destruct (cat_remove_spec hf _ _ cid false V1) as (c' & ok & n & E' & B & _ & V'); cbn [s_stored s_wait] in *; [discriminate|intros _; rewrite ids_without; tauto|]. rewrite E'. exists c', ok.
    split; [reflexivity|]. split; [exact B|]. rewrite (without_notin cid (without cid (s_wait s))) in V' by (rewrite ids_without; tauto). exact V'.
  - exists c, false. split; [reflexivity|]. apply lookup_none in L. split; [split; [discriminate|tauto]|].
    assert (~ In cid (ids (s_wait s))) as NW by (intros I; apply L; apply in_map_iff in I; destruct I as (w & <- & I); apply in_map; now apply (i_sub _ _ _ V)).
    rewrite !without_notin by assumption. now destruct s.
Qed.

(** * Choosing what to send *)
Lemma first_exp_some D c d i x : ct_dest c = D -> D_good D -> first_exp c d i = Some x ->
  exists em q, smap_find eid_ltb D d = Some (arr_of D d) /\ nth_error (arr_of D d) i = Some em /\ smap_find N.ltb em x = Some q /\
    x < 2 ^ 60 /\ flq_ok q /\ flq_contents q <> [] /\ qc D d i x = flq_contents q /\ forall y, qc D d i y <> [] -> x <= y.
Proof.
  intros <- G F. unfold first_exp in F. destruct (smap_find eid_ltb (ct_dest c) d) as [arr|] eqn:FA; [|discriminate].
  pose proof (find_arr_of _ _ _ FA) as E. subst arr. destruct (nth_error (arr_of (ct_dest c) d) i) as [em|] eqn:N; [|discriminate].
  destruct em as [|[x0 q] r] eqn:EM; [discriminate|]. injection F as ->. pose proof (arr_of_good _ d G) as [_ AG].
  destruct (AG _ _ N) as [S GE]. assert (smap_find N.ltb ((x, q) :: r) x = Some q) as FX.
  { cbn [smap_find bucket_find]. unfold smap_find. cbn [bucket_find]. now rewrite N.ltb_irrefl. }
  exists ((x, q) :: r), q. destruct (GE _ _ FX) as (Q & NE & X). split; [reflexivity|]. split; [reflexivity|]. split; [exact FX|]. split; [exact X|]. split; [exact Q|].
  split; [exact NE|]. split.
  - rewrite (qc_em _ _ _ _ _ N), FX. reflexivity.
  - intros y Y. rewrite (qc_em _ _ _ _ _ N) in Y. destruct (smap_find N.ltb ((x, q) :: r) y) as [w|] eqn:FY; [|congruence].
    exact (smap_first _ x q r y w S eq_refl FY).
Qed.
Lemma first_exp_none c d i x : D_good (ct_dest c) -> first_exp c d i = None -> qc (ct_dest c) d i x = [].
Proof.
  intros G F. unfold first_exp in F. unfold qc, qat. destruct (smap_find eid_ltb (ct_dest c) d) as [arr|] eqn:FA; [|reflexivity].
  destruct (nth_error arr i) as [em|] eqn:N; [|reflexivity]. destruct em as [|[x0 q] r]; [reflexivity|discriminate].
Qed.
Lemma scan_spec c i ds : forall lowest best,
  match scan_dests c i ds lowest best with
  | None => best = None /\ forall d x, In d ds -> first_exp c d i = Some x -> lowest <= x
  | Some (d, x) => (best = Some (d, x) /\ (forall d' x', In d' ds -> first_exp c d' i = Some x' -> lowest <= x')) \/
                   (In d ds /\ first_exp c d i = Some x /\ x < lowest /\ forall d' x', In d' ds -> first_exp c d' i = Some x' -> x <= x')
  end.
Proof.
  induction ds as [|d0 r IH]; intros lowest best; cbn [scan_dests].
  - destruct best as [[d x]|]; [left|]; (split; [reflexivity|intros ? ? []]).
  - destruct (first_exp c d0 i) as [x0|] eqn:F.
    + destruct (N.ltb_spec x0 lowest) as [L|L].
      * specialize (IH x0 (Some (d0, x0))). destruct (scan_dests c i r x0 (Some (d0, x0))) as [[d x]|].
        -- right. destruct IH as [[E A]|(A & B & C & D)].
           ++ injection E as <- <-. split; [left; reflexivity|]. split; [exact F|]. split; [exact L|]. intros d' x' [<-|I] F'; [rewrite F in F'; injection F'; lia|eauto].
           ++ split; [right; exact A|]. split; [exact B|]. split; [lia|]. intros d' x' [<-|I] F'; [rewrite F in F'; injection F'; lia|eauto].
        -- destruct IH as [E _]. discriminate.
      * specialize (IH lowest best). destruct (scan_dests c i r lowest best) as [[d x]|].
        -- destruct IH as [[E A]|(A & B & C & D)].
           ++ left. split; [exact E|]. intros d' x' [<-|I] F'; [rewrite F in F'; injection F'; lia|eauto].
           ++ right. split; [right; exact A|]. split; [exact B|]. split; [lia|]. intros d' x' [<-|I] F'; [rewrite F in F'; injection F'; lia|eauto].
        -- destruct IH as [E A]. split; [exact E|]. intros d' x' [<-|I] F'; [rewrite F in F'; injection F'; lia|eauto].
    + specialize (IH lowest best). destruct (scan_dests c i r lowest best) as [[d x]|].
      * destruct IH as [[E A]|(A & B & C & D)].
        -- left. split; [exact E|]. intros d' x' [<-|I] F'; [congruence|eauto].
        -- right. split; [right; exact A|]. split; [exact B|]. split; [lia|]. intros d' x' [<-|I] F'; [congruence|eauto].
      * destruct IH as [E A]. split; [exact E|]. intros d' x' [<-|I] F'; [congruence|eauto].
Qed.
Lemma pop_at_spec c d i x : D_good (ct_dest c) -> first_exp c d i = Some x ->
  exists D' cid rest, pop_at c i d x = Some (with_dest c D', cid) /\ D_good D' /\ qc (ct_dest c) d i x = cid :: rest /\
    forall d' i' x', qc D' d' i' x' = upd3 (qc (ct_dest c)) d i x rest d' i' x'.
Proof.
  intros G F. destruct (first_exp_some (ct_dest c) c d i x eq_refl G F) as (em & q & FA & N & FX & X & Q & NE & QC & _).
  unfold pop_at. rewrite FA, N, FX. pose proof (pop_ok q Q) as PO. destruct (flq_contents q) as [|cid rest] eqn:CQ; [congruence|].
  destruct PO as (-> & q' & -> & Q' & C'). fold (em_upd em x q'). fold (D_upd (ct_dest c) d i (em_upd em x q')).
  destruct (D_upd_good (ct_dest c) d i em x q' G N Q' X) as [G' FF].
  exists (D_upd (ct_dest c) d i (em_upd em x q')), cid, rest. split; [reflexivity|]. split; [exact G'|]. split; [exact QC|].
  intros d' i' x'. rewrite FF, C'. reflexivity.
Qed.

Lemma skip_lower_in {V} (l : smap eid V) k0 : sorted eid_ltb l -> sorted eid_ltb (skip_lower l k0) /\
  forall k v, In (k, v) (skip_lower l k0) <-> In (k, v) l /\ eid_ltb k k0 = false.
Proof.
  induction l as [|[k1 v1] r IH]; intros S; cbn [skip_lower].
  - split; [exact I|]. intros k v. simpl. tauto.
  - destruct (eid_ltb k1 k0) eqn:E.
    + destruct (IH (proj2 S)) as [A B]. split; [exact A|]. intros k v. rewrite B. simpl. split; [tauto|]. intros [[Q|Q] F]; [|tauto].
      injection Q as -> ->. congruence.
    + split; [exact S|]. intros k v. split; [|tauto]. intros H. split; [exact H|]. destruct H as [Q|Q]; [injection Q as -> ->; exact E|].
      destruct S as [A _]. pose proof (above_in _ _ _ _ _ A Q) as L. destruct (eid_ltb k k0) eqn:F; [|reflexivity].
      rewrite (proj1 (proj2 eid_strict) _ _ _ L F) in E. discriminate.
Qed.
Lemma take_node_in {V} (l : smap eid V) node d : sorted eid_ltb l -> (forall k v, In (k, v) l -> node <= fst k) ->
  In d (take_node l node) <-> fst d = node /\ exists v, In (d, v) l.
Proof.
  induction l as [|[k1 v1] r IH]; intros S G; cbn [take_node].
  - split; [intros []|intros (_ & v & [])].
  - destruct (N.eqb_spec (fst k1) node) as [E|E].
    + simpl. rewrite IH; [|exact (proj2 S)|intros k v I; apply (G k v); now right]. split.
      * intros [<-|(A & v & B)]; [split; [exact E|exists v1; now left]|split; [exact A|exists v; now right]].
      * intros (A & v & [Q|B]); [injection Q as -> ->; now left|right; split; [exact A|now exists v]].
    + split; [intros []|]. intros (A & v & [Q|B]); [injection Q as -> ->; congruence|].
      pose proof (above_in _ _ _ _ _ (proj1 S) B) as L. pose proof (G k1 v1 (or_introl eq_refl)).
      unfold eid_ltb in L. destruct d as [d1 d2], k1 as [a b]. simpl in *. destruct (N.eqb_spec a d1); [lia|]. lia.
Qed.
Definition resolve (c : catalog) (s : sel) : list eid :=
  match s with ByEid l => resolve_eids c l | ByNode l => resolve_nodes c l | ByPair l => resolve_pairs c l end.
Lemma pop_sel_resolve c s : pop_sel c s = pop_resolved c (resolve c s). Proof. now destruct s. Qed.
Lemma resolve_eids_in c l d : In d (resolve_eids c l) <-> In d l /\ smap_find eid_ltb (ct_dest c) d <> None.
Proof. unfold resolve_eids. rewrite filter_In. destruct (smap_find eid_ltb (ct_dest c) d); split; intros [A B]; (split; [exact A|]); congruence. Qed.
Lemma resolve_node_in c n d : sorted eid_ltb (ct_dest c) -> In d (resolve_node c n) <-> fst d = n /\ smap_find eid_ltb (ct_dest c) d <> None.
Proof.
  intros S. unfold resolve_node. destruct (skip_lower_in (ct_dest c) (n, 0) S) as [A B].
  assert (forall k, eid_ltb k (n, 0) = false <-> n <= fst k) as L.
  { intros [k1 k2]. unfold eid_ltb. simpl. destruct (N.eqb_spec k1 n); lia. }
  rewrite take_node_in; [|exact A|intros k v I; apply B in I; apply L; tauto]. split.
  - intros (E & v & I). split; [exact E|]. apply B in I. unfold smap_find. now rewrite (in_find _ _ _ _ eid_strict S (proj1 I)).
  - intros (E & F). split; [exact E|]. destruct (smap_find eid_ltb (ct_dest c) d) as [v|] eqn:Q; [|congruence]. exists v. apply B.
    split; [exact (find_in _ _ _ _ Q eid_strict)|]. apply L. lia.
Qed.
Lemma resolve_in c s d : sorted eid_ltb (ct_dest c) -> In d (resolve c s) <-> selects s d /\ smap_find eid_ltb (ct_dest c) d <> None.
Proof.
  intros S. destruct s as [l|l|l]; cbn [resolve selects].
  - apply resolve_eids_in.
  - unfold resolve_nodes. rewrite in_flat_map. split.
    + intros (n & A & B). apply resolve_node_in in B; [|exact S]. destruct B as [<- B]. tauto.
    + intros [A B]. exists (fst d). split; [exact A|]. now apply resolve_node_in.
  - unfold resolve_pairs. rewrite in_flat_map. split.
    + intros ([[a b] [|]] & A & B); cbn [fst snd] in B.
      * apply resolve_node_in in B; [|exact S]. destruct B as [<- B]. split; [right; now exists b|exact B].
      * apply resolve_eids_in in B. destruct B as [[<-|[]] B]. tauto.
    + intros [[A|(n & A)] B].
      * exists (d, false). split; [exact A|]. apply resolve_eids_in. simpl. tauto.
      * exists ((fst d, n), true). split; [exact A|]. now apply resolve_node_in.
Qed.
Lemma filter_head {A} f (l : list A) y r : filter f l = y :: r ->
  exists pre post, l = pre ++ y :: post /\ (forall w, In w pre -> f w = false) /\ filter f post = r /\ f y = true.
Proof.
  induction l as [|z l IH]; cbn [filter]; [discriminate|]. destruct (f z) eqn:F.
  - intros E. injection E as <- <-. exists [], l. split; [reflexivity|]. split; [intros ? []|tauto].
  - intros E. destruct (IH E) as (pre & post & -> & P & R & Y). exists (z :: pre), post. split; [reflexivity|]. split; [|tauto].
    intros w [<-|I]; auto.
Qed.
Lemma filter_none {A} f (l : list A) : (forall w, In w l -> f w = false) -> filter f l = [].
Proof. induction l as [|a r IH]; cbn [filter]; [reflexivity|]. intros H. rewrite H by now left. apply IH. intros w I. apply H. now right. Qed.
Lemma wait_ok hf c s w : inv hf c s -> In w (s_wait s) -> item_ok (snd w).
Proof. intros V I. apply (v_ok _ _ _ (i_S _ _ _ V)). now apply (i_sub _ _ _ V). Qed.
Lemma wait_present hf c s w : inv hf c s -> In w (s_wait s) ->
  smap_find eid_ltb (ct_dest c) (it_dest (snd w)) <> None /\ exists x, first_exp c (it_dest (snd w)) (N.to_nat (it_prio (snd w))) = Some x /\ x <= it_exp (snd w).
Proof.
  intros V I. destruct w as [y b]. cbn [snd]. pose proof (item_qc _ _ _ _ _ V I) as Q. split.
  - intros F. unfold qc, qat in Q. now rewrite F in Q.
  - destruct (first_exp c (it_dest b) (N.to_nat (it_prio b))) as [x|] eqn:F.
    + exists x. split; [reflexivity|]. destruct (first_exp_some _ c _ _ _ eq_refl (i_D _ _ _ V) F) as (_ & _ & _ & _ & _ & _ & _ & _ & _ & M).
      apply M. intros E. now rewrite E in Q.
    + rewrite (first_exp_none _ _ _ _ (i_D _ _ _ V) F) in Q. destruct Q.
Qed.
Lemma pop_found hf c s q i d x : inv hf c s -> In d (resolve c q) -> first_exp c d i = Some x ->
  (forall d' x', In d' (resolve c q) -> first_exp c d' i = Some x' -> x <= x') ->
  (forall j d', (i < j < 3)%nat -> In d' (resolve c q) -> first_exp c d' j = None) ->
  exists c' cid b pre post, pop_at c i d x = Some (c', cid) /\ s_wait s = pre ++ (cid, b) :: post /\ to_send q pre post b /\
    entry_find c' cid = Some (entry_of b) /\ describes (entry_of b) b /\ inv hf c' (mkSpec (s_stored s) (pre ++ post)).
Proof.
  intros V R F M H. pose proof (i_D _ _ _ V) as G. destruct (pop_at_spec c d i x G F) as (D' & cid & rest & E & G' & Q & QU).
  rewrite (i_q _ _ _ V) in Q. destruct (filter (in_class d i x) (s_wait s)) as [|[cid0 b] fr] eqn:FC; [discriminate|].
  cbn [ids map fst] in Q. injection Q as -> <-. destruct (filter_head _ _ _ _ FC) as (pre & post & W & NP & FP & IC).
  apply in_class_iff in IC. cbn [snd] in IC. destruct IC as (ID & IP & IX).
  apply (resolve_in _ _ _ (proj1 G)) in R. destruct R as [SD _].
  assert (In (cid, b) (s_wait s)) as IW by (rewrite W; apply in_or_app; right; now left).
  pose proof (wait_ok _ _ _ _ V IW) as OK. cbn [snd] in OK.
  exists (with_dest c D'), cid, b, pre, post. split; [exact E|]. split; [exact W|]. split; [|split; [|split]].
  - split; [now rewrite ID|]. split.
    + intros w I S. assert (In w (s_wait s)) as I' by (rewrite W; apply in_or_app; apply in_app_or in I; simpl; tauto).
      destruct (wait_present _ _ _ _ V I') as (P & x' & F' & L). pose proof (wait_ok _ _ _ _ V I') as OK'.
      assert (In (it_dest (snd w)) (resolve c q)) as R' by (apply resolve_in; [apply G|tauto]).
      split.
      * destruct (N.le_gt_cases (it_prio (snd w)) (it_prio b)) as [|X]; [assumption|]. exfalso.
        rewrite (H (N.to_nat (it_prio (snd w))) _) in F'; [discriminate| |exact R']. destruct OK' as (O1 & _). lia.
      * intros PE. rewrite PE, IP in F'. specialize (M _ _ R' F'). lia.
    + intros w I (A & B & C). specialize (NP _ I). assert (in_class d i x w = true); [|congruence]. apply in_class_iff.
      rewrite A, B, C. tauto.
  - unfold entry_find, with_dest. cbn [ct_entry]. fold (entry_find c cid). rewrite (v_entry _ _ _ (i_S _ _ _ V)).
    rewrite (in_lookup _ _ b); [reflexivity|apply (v_nd _ _ _ (i_S _ _ _ V))|]. now apply (i_sub _ _ _ V).
  - now apply entry_of_fields.
  - constructor; cbn [s_stored s_wait ct_dest with_dest].
    + apply invS_with_dest. apply V.
    + exact G'.
    + intros d' i' x'. rewrite QU. rewrite filter_app. destruct (in_class d' i' x' (cid, b)) eqn:C.
      * apply in_class_iff in C. cbn [snd] in C. destruct C as (<- & <- & <-). rewrite ID, IP, IX, upd3_here.
        rewrite (filter_none _ pre NP), FP. reflexivity.
      * rewrite upd3_other.
        -- rewrite (i_q _ _ _ V), W, filter_app. cbn [filter]. now rewrite C.
        -- intros Y. injection Y as -> -> ->. assert (in_class d i x (cid, b) = true) by (apply in_class_iff; cbn [snd]; tauto). congruence.
    + pose proof (i_nd _ _ _ V) as ND. rewrite W, ids_app in ND. cbn [ids map fst] in ND. apply NoDup_remove_1 in ND. now rewrite ids_app.
    + intros w I. apply (i_sub _ _ _ V). rewrite W. apply in_or_app. apply in_app_or in I. simpl. tauto.
Qed.
Lemma scan_top c i ds : D_good (ct_dest c) ->
  match scan_dests c i ds U64MAX None with
  | None => forall d, In d ds -> first_exp c d i = None
  | Some (d, x) => In d ds /\ first_exp c d i = Some x /\ forall d' x', In d' ds -> first_exp c d' i = Some x' -> x <= x'
  end.
Proof.
  intros G. pose proof (scan_spec c i ds U64MAX None) as S. destruct (scan_dests c i ds U64MAX None) as [[d x]|].
  - destruct S as [[E _]|(A & B & _ & D)]; [discriminate|]. tauto.
  - destruct S as [_ A]. intros d I. destruct (first_exp c d i) as [x|] eqn:F; [|reflexivity].
    destruct (first_exp_some _ c d i x eq_refl G F) as (_ & _ & _ & _ & _ & X & _). specialize (A d x I F).
    exfalso. revert A X. unfold U64MAX. lia.
Qed.
Lemma pop_spec hf c s q : inv hf c s -> exists c' res, pop_sel c q = Some (c', res) /\
  match res with
  | None => (forall w, In w (s_wait s) -> ~ selects q (it_dest (snd w))) /\ inv hf c' s
  | Some (cid, e) => exists pre b post, s_wait s = pre ++ (cid, b) :: post /\ to_send q pre post b /\
      (exists ce, e = Some ce /\ describes ce b) /\ inv hf c' (mkSpec (s_stored s) (pre ++ post))
  end.
Proof.
  intros V. rewrite pop_sel_resolve. unfold pop_resolved. cbn [pop_prios]. pose proof (i_D _ _ _ V) as G.
  assert (forall i d x, In d (resolve c q) -> first_exp c d i = Some x ->
    (forall d' x', In d' (resolve c q) -> first_exp c d' i = Some x' -> x <= x') ->
    (forall j d', (i < j < 3)%nat -> In d' (resolve c q) -> first_exp c d' j = None) ->
    exists c' res, match pop_at c i d x with Some (c', cid) => Some (c', Some (cid, entry_find c' cid)) | None => None end = Some (c', res) /\
      match res with
      | None => (forall w, In w (s_wait s) -> ~ selects q (it_dest (snd w))) /\ inv hf c' s
      | Some (cid, e) => exists pre b post, s_wait s = pre ++ (cid, b) :: post /\ to_send q pre post b /\
          (exists ce, e = Some ce /\ describes ce b) /\ inv hf c' (mkSpec (s_stored s) (pre ++ post))
      end) as Found.
  { intros i d x A B C D. destruct (pop_found hf c s q i d x V A B C D) as (c' & cid & b & pre & post & -> & W & T & -> & De & V').
    exists c', (Some (cid, Some (entry_of b))). split; [reflexivity|]. exists pre, b, post. split; [exact W|]. split; [exact T|]. split; [|exact V'].
    now exists (entry_of b). }
  pose proof (scan_top c 2%nat (resolve c q) G) as S2. destruct (scan_dests c 2 (resolve c q) U64MAX None) as [[d x]|].
  { destruct S2 as (A & B & C). apply Found; auto. lia. }
  pose proof (scan_top c 1%nat (resolve c q) G) as S1. destruct (scan_dests c 1 (resolve c q) U64MAX None) as [[d x]|].
  { destruct S1 as (A & B & C). apply Found; auto. intros j d' J I. replace j with 2%nat by lia. auto. }
  pose proof (scan_top c 0%nat (resolve c q) G) as S0. destruct (scan_dests c 0 (resolve c q) U64MAX None) as [[d x]|].
  { destruct S0 as (A & B & C). apply Found; auto. intros j d' J I. assert (j = 2 \/ j = 1)%nat as [->| ->] by lia; auto. }
  exists c, None. split; [reflexivity|]. split; [|exact V]. intros w I S.
  destruct (wait_present _ _ _ _ V I) as (P & x & F & _). pose proof (wait_ok _ _ _ _ V I) as (O & _).
  assert (In (it_dest (snd w)) (resolve c q)) as R by (apply resolve_in; [apply G|tauto]).
  assert (N.to_nat (it_prio (snd w)) = 2 \/ N.to_nat (it_prio (snd w)) = 1 \/ N.to_nat (it_prio (snd w)) = 0)%nat as [Z|[Z|Z]] by lia; rewrite Z in F.
  - rewrite S2 in F by exact R. discriminate.
  - rewrite S1 in F by exact R. discriminate.
  - rewrite S0 in F by exact R. discriminate.
Qed.

(** * Listing *)
Lemma nodup_flat_map {A B} (f : A -> list B) l : (forall i a, nth_error l i = Some a -> NoDup (f a)) ->
  (forall i j a b y, nth_error l i = Some a -> nth_error l j = Some b -> In y (f a) -> In y (f b) -> i = j) -> NoDup (flat_map f l).
Proof.
  induction l as [|a r IH]; cbn [flat_map]; intros N D; [constructor|].
  assert (forall y, In y (f a) -> ~ In y (flat_map f r)) as X.
  { intros y I J. apply in_flat_map in J. destruct J as (b & J & K). apply In_nth_error in J. destruct J as [j J].
    specialize (D O (S j) a b y eq_refl J I K). discriminate. }
  assert (NoDup (flat_map f r)) as Y.
  { apply IH; [intros i b E; exact (N (S i) b E)|]. intros i j b b' y E E' I I'. specialize (D (S i) (S j) b b' y E E' I I'). congruence. }
  specialize (N O a eq_refl). clear - N X Y. induction (f a) as [|z l IH]; [exact Y|]. inversion N; subst. cbn [app]. constructor.
  - rewrite in_app_iff. intros [I|I]; [auto|]. exact (X z (or_introl eq_refl) I).
  - apply IH; [assumption|]. intros y I. apply X. now right.
Qed.
Lemma sorted_nodup {K V} (ltb : K -> K -> bool) (l : list (K * V)) : strict_total ltb -> sorted ltb l -> NoDup (map fst l).
Proof.
  intros ST. induction l as [|[k v] r IH]; cbn [map]; intros S; constructor.
  - intros I. apply in_map_iff in I. destruct I as ([k' v'] & E & I). simpl in E. subst k'. pose proof (above_in _ _ _ _ _ (proj1 S) I) as L.
    rewrite (ltb_irr ltb ST) in L. discriminate.
  - apply IH. apply S.
Qed.
Lemma nth_key {K V} (l : list (K * V)) i j a b : NoDup (map fst l) -> nth_error l i = Some a -> nth_error l j = Some b -> fst a = fst b -> i = j.
Proof.
  intros N A B E. apply (proj1 (NoDup_nth_error (map fst l)) N).
  - rewrite map_length. apply nth_error_Some. congruence.
  - rewrite (map_nth_error fst i l A), (map_nth_error fst j l B). congruence.
Qed.
Lemma em_in em x q : em_good em -> In (x, q) em -> smap_find N.ltb em x = Some q.
Proof. intros [S _] I. exact (in_find _ _ _ _ N_strict S I). Qed.
Lemma D_in D d arr : D_good D -> In (d, arr) D -> smap_find eid_ltb D d = Some arr /\ arr_of D d = arr /\ arr_good arr.
Proof. intros [S G] I. pose proof (in_find _ _ _ _ eid_strict S I) as F. split; [exact F|]. split; [exact (find_arr_of _ _ _ F)|exact (G _ _ F)]. Qed.
(** The queues of one expiration map as far as [keep] goes. *)
Definition em_list (keep : N -> bool) (em : expmap) : list N := flat_map (fun xq : N * flq N => if keep (fst xq) then flq_contents (snd xq) else []) em.
Lemma expired_in_list em t : sorted N.ltb em -> expired_in em t = em_list (fun x => x <=? t) em.
Proof.
  induction em as [|[x q] r IH]; intros S; [reflexivity|]. cbn [expired_in em_list flat_map fst snd]. destruct (N.leb_spec x t) as [L|L].
  - rewrite IH by apply S. reflexivity.
  - cbn [app]. symmetry. clear IH. destruct S as [A _]. induction r as [|[y p] r IH]; [reflexivity|]. cbn [flat_map fst snd].
    destruct A as [B A]. destruct (N.leb_spec y t); [lia|]. cbn [app]. auto.
Qed.
Lemma em_list_in keep D d i em y : D_good D -> nth_error (arr_of D d) i = Some em ->
  In y (em_list keep em) <-> exists x, keep x = true /\ In y (qc D d i x).
Proof.
  intros G E. pose proof (arr_of_good D d G) as [_ AG]. specialize (AG _ _ E). unfold em_list. rewrite in_flat_map. split.
  - intros ([x q] & I & J). cbn [fst snd] in J. exists x. destruct (keep x); [|destruct J]. split; [reflexivity|].
    rewrite (qc_em _ _ _ _ _ E), (em_in _ _ _ AG I). exact J.
  - intros (x & K & J). rewrite (qc_em _ _ _ _ _ E) in J. destruct (smap_find N.ltb em x) as [q|] eqn:F; [|destruct J].
    exists (x, q). split; [exact (find_in _ _ _ _ F N_strict)|]. cbn [fst snd]. now rewrite K.
Qed.
Lemma qc_nodup hf c s d i x : inv hf c s -> NoDup (qc (ct_dest c) d i x).
Proof. intros V. rewrite (i_q _ _ _ V). apply nodup_filter. apply V. Qed.
Lemma em_list_nodup hf c s keep d i em : inv hf c s -> nth_error (arr_of (ct_dest c) d) i = Some em -> NoDup (em_list keep em).
Proof.
  intros V E. pose proof (i_D _ _ _ V) as G. pose proof (arr_of_good _ d G) as [_ AG]. specialize (AG _ _ E).
  assert (forall k xq, nth_error em k = Some xq -> flq_contents (snd xq) = qc (ct_dest c) d i (fst xq)) as Q.
  { intros k [x q] N. apply nth_error_In in N. rewrite (qc_em _ _ _ _ _ E). cbn [fst snd]. now rewrite (em_in _ _ _ AG N). }
  apply nodup_flat_map.
  - intros k xq N. destruct (keep (fst xq)); [|constructor]. rewrite (Q _ _ N). exact (qc_nodup _ _ _ _ _ _ V).
  - intros k l a b y A B I J. destruct (keep (fst a)); [|destruct I]. destruct (keep (fst b)); [|destruct J].
    rewrite (Q _ _ A) in I. rewrite (Q _ _ B) in J. destruct (qc_unique _ _ _ _ _ _ _ _ _ _ V I J) as (_ & _ & X).
    exact (nth_key _ _ _ _ _ (sorted_nodup _ _ N_strict (proj1 AG)) A B X).
Qed.
Lemma expired_at_list c i t : D_good (ct_dest c) ->
  expired_at c i t = flat_map (fun p : eid * list expmap => match nth_error (snd p) i with Some em => em_list (fun x => x <=? t) em | None => [] end) (ct_dest c).
Proof.
  intros G. unfold expired_at.
  assert (forall D0, (forall d arr, In (d, arr) D0 -> In (d, arr) (ct_dest c)) ->
    flat_map (fun p : eid * list expmap => match nth_error (snd p) i with Some em => expired_in em t | None => [] end) D0 =
    flat_map (fun p : eid * list expmap => match nth_error (snd p) i with Some em => em_list (fun x => x <=? t) em | None => [] end) D0) as H; [|apply H; auto].
  induction D0 as [|[d arr] r IH]; intros S; [reflexivity|]. cbn [flat_map snd]. rewrite IH by (intros; apply S; now right). f_equal.
  destruct (nth_error arr i) as [em|] eqn:E; [|reflexivity]. apply expired_in_list.
  destruct (D_in _ _ _ G (S d arr (or_introl eq_refl))) as (_ & _ & _ & AG). apply (AG _ _ E).
Qed.
Lemma expired_at_in c i t y : D_good (ct_dest c) -> In y (expired_at c i t) <-> exists d x, x <= t /\ In y (qc (ct_dest c) d i x).
Proof.
  intros G. rewrite (expired_at_list _ _ _ G), in_flat_map. split.
  - intros ([d arr] & I & J). cbn [snd] in J. destruct (nth_error arr i) as [em|] eqn:E; [|destruct J].
    destruct (D_in _ _ _ G I) as (_ & A & _). rewrite <- A in E. apply (em_list_in _ _ _ _ _ _ G E) in J. destruct J as (x & K & J).
    exists d, x. split; [lia|exact J].
  - intros (d & x & L & J). pose proof J as J'. unfold qc, qat in J'. destruct (smap_find eid_ltb (ct_dest c) d) as [arr|] eqn:F; [|destruct J'].
    destruct (nth_error arr i) as [em|] eqn:E; [|destruct J']. exists (d, arr). split; [exact (find_in _ _ _ _ F eid_strict)|]. cbn [snd]. rewrite E.
    rewrite <- (find_arr_of _ _ _ F) in E. apply (em_list_in _ _ _ _ _ _ G E). exists x. split; [lia|exact J].
Qed.
Lemma expired_at_nodup hf c s i t : inv hf c s -> NoDup (expired_at c i t).
Proof.
  intros V. pose proof (i_D _ _ _ V) as G. rewrite (expired_at_list _ _ _ G). apply nodup_flat_map.
  - intros k [d arr] N. cbn [snd]. apply nth_error_In in N. destruct (D_in _ _ _ G N) as (_ & A & _).
    destruct (nth_error arr i) as [em|] eqn:E; [|constructor]. rewrite <- A in E. exact (em_list_nodup _ _ _ _ _ _ _ V E).
  - intros k l [d arr] [d' arr'] y A B I J. cbn [snd] in *. pose proof (nth_error_In _ _ A) as IA. pose proof (nth_error_In _ _ B) as IB.
    destruct (nth_error arr i) as [em|] eqn:E; [|destruct I]. destruct (nth_error arr' i) as [em'|] eqn:E'; [|destruct J].
    destruct (D_in _ _ _ G IA) as (_ & EA & _). destruct (D_in _ _ _ G IB) as (_ & EB & _). rewrite <- EA in E. rewrite <- EB in E'.
    apply (em_list_in _ _ _ _ _ _ G E) in I. apply (em_list_in _ _ _ _ _ _ G E') in J. destruct I as (x & _ & I), J as (x' & _ & J).
    destruct (qc_unique _ _ _ _ _ _ _ _ _ _ V I J) as (X & _).
    exact (nth_key _ _ _ _ _ (sorted_nodup _ _ eid_strict (proj1 G)) A B X).
Qed.
Definition expired_all (c : catalog) t := flat_map (fun i => expired_at c i t) [0%nat; 1%nat; 2%nat].
Lemma expired_all_in hf c s t y : inv hf c s -> In y (expired_all c t) <-> In y (ids (filter (fun w => it_exp (snd w) <=? t) (s_wait s))).
Proof.
  intros V. pose proof (i_D _ _ _ V) as G. unfold expired_all. rewrite in_flat_map. split.
  - intros (i & _ & I). apply (expired_at_in _ _ _ _ G) in I. destruct I as (d & x & L & I). destruct (qc_item _ _ _ _ _ _ _ V I) as (b & W & _ & _ & X).
    apply in_map_iff. exists (y, b). split; [reflexivity|]. apply filter_In. split; [exact W|]. cbn [snd]. lia.
  - intros I. apply in_map_iff in I. destruct I as ([y' b] & E & I). simpl in E. subst y'. apply filter_In in I. destruct I as [W L]. cbn [snd] in L.
    exists (N.to_nat (it_prio b)). pose proof (wait_ok _ _ _ _ V W) as (P & _). cbn [snd] in P. split; [simpl; lia|].
    apply (expired_at_in _ _ _ _ G). exists (it_dest b), (it_exp b). split; [lia|]. exact (item_qc _ _ _ _ _ V W).
Qed.
Lemma expired_all_nodup hf c s t : inv hf c s -> NoDup (expired_all c t).
Proof.
  intros V. pose proof (i_D _ _ _ V) as G. apply nodup_flat_map.
  - intros k i _. exact (expired_at_nodup _ _ _ _ _ V).
  - intros k l a b y A B I J. apply (expired_at_in _ _ _ _ G) in I. apply (expired_at_in _ _ _ _ G) in J. destruct I as (d & x & _ & I), J as (d' & x' & _ & J).
    destruct (qc_unique _ _ _ _ _ _ _ _ _ _ V I J) as (_ & <- & _).
    destruct k as [|[|[|[|k]]]], l as [|[|[|[|l]]]]; simpl in A, B; congruence.
Qed.
Lemma nodup_firstn {A} n (l : list A) : NoDup l -> NoDup (firstn n l).
Proof.
  revert n. induction l as [|a r IH]; intros [|n] N; cbn [firstn]; try constructor. 
  - inversion N; subst. intros I. apply H1. rewrite <- (firstn_skipn n r). apply in_or_app. now left.
  - apply IH. now inversion N.
Qed.
Lemma expired_spec hf c s t n : inv hf c s ->
  let l := get_expired c t n in
  let due := filter (fun w => it_exp (snd w) <=? t) (s_wait s) in
  NoDup l /\ (forall x, In x l -> In x (ids due)) /\
  N.of_nat (length l) = (if n =? 0 then N.of_nat (length due) else N.min n (N.of_nat (length due))).
Proof.
  intros V. cbv zeta. unfold get_expired.
  replace (expired_at c 0 t ++ expired_at c 1 t ++ expired_at c 2 t) with (expired_all c t) by (unfold expired_all; cbn [flat_map]; now rewrite app_nil_r).
  pose proof (expired_all_nodup _ _ _ t V) as ND. pose proof (expired_all_in hf c s t) as IN.
  assert (length (expired_all c t) = length (filter (fun w => it_exp (snd w) <=? t) (s_wait s))) as L.
  { rewrite <- (map_length fst). apply Permutation_length. apply NoDup_Permutation; [exact ND|apply nodup_filter; apply V|]. intros y. exact (IN y V). }
  destruct (N.eqb_spec n 0).
  - split; [exact ND|]. split; [intros x I; now apply (IN x V)|]. now rewrite L.
  - split; [now apply nodup_firstn|]. split.
    + intros x I. apply (IN x V). rewrite <- (firstn_skipn (N.to_nat n)). apply in_or_app. now left.
    + rewrite firstn_length, L. lia.
Qed.
(** * Everything queued *)
Lemma em_list_all em : em_list (fun _ => true) em = flat_map (fun xq : N * flq N => flq_contents (snd xq)) em.
Proof. reflexivity. Qed.
Lemma all_queued_nodup hf c s : inv hf c s -> NoDup (all_queued c) /\ forall y, In y (all_queued c) <-> In y (ids (s_wait s)).
Proof.
  intros V. pose proof (i_D _ _ _ V) as G. unfold all_queued.
  assert (forall d arr, In (d, arr) (ct_dest c) -> forall y, In y (flat_map (fun em => em_list (fun _ => true) em) arr) <-> exists i x, In y (qc (ct_dest c) d i x)) as IA.
  { intros d arr I y. destruct (D_in _ _ _ G I) as (F & A & _). rewrite in_flat_map. split.
    - intros (em & IE & J). apply In_nth_error in IE. destruct IE as [i E]. rewrite <- A in E. apply (em_list_in _ _ _ _ _ _ G E) in J. destruct J as (x & _ & J). eauto.
    - intros (i & x & J). pose proof J as J'. unfold qc, qat in J'. rewrite F in J'. destruct (nth_error arr i) as [em|] eqn:E; [|destruct J'].
      exists em. split; [exact (nth_error_In _ _ E)|]. rewrite <- A in E. apply (em_list_in _ _ _ _ _ _ G E). eauto. }
  split.
  - apply nodup_flat_map.
    + intros k [d arr] N. cbn [snd]. apply nth_error_In in N. destruct (D_in _ _ _ G N) as (F & A & _). apply nodup_flat_map.
      * intros i em E. rewrite <- A in E. exact (em_list_nodup _ _ _ (fun _ => true) _ _ _ V E).
      * intros i j a b y E E' I J. rewrite <- A in E, E'. fold (em_list (fun _ => true) a) in I. fold (em_list (fun _ => true) b) in J.
        apply (em_list_in _ _ _ _ _ _ G E) in I. apply (em_list_in _ _ _ _ _ _ G E') in J. destruct I as (x & _ & I), J as (x' & _ & J).
        now destruct (qc_unique _ _ _ _ _ _ _ _ _ _ V I J) as (_ & <- & _).
    + intros k l [d arr] [d' arr'] y A B I J. cbn [snd] in *. pose proof (nth_error_In _ _ A) as NA. pose proof (nth_error_In _ _ B) as NB.
      apply (IA _ _ NA) in I. apply (IA _ _ NB) in J. destruct I as (i & x & I), J as (i' & x' & J).
      destruct (qc_unique _ _ _ _ _ _ _ _ _ _ V I J) as (X & _).
      exact (nth_key _ _ _ _ _ (sorted_nodup _ _ eid_strict (proj1 G)) A B X).
  - intros y. rewrite in_flat_map. split.
    + intros ([d arr] & N & I). apply (IA _ _ N) in I. destruct I as (i & x & I). destruct (qc_item _ _ _ _ _ _ _ V I) as (b & W & _).
      change y with (fst (y, b)). now apply in_map.
    + intros I. apply in_map_iff in I. destruct I as ([y' b] & E & W). simpl in E. subst y'. pose proof (item_qc _ _ _ _ _ V W) as I.
      destruct (wait_present _ _ _ _ V W) as (F & _). cbn [snd] in F. destruct (smap_find eid_ltb (ct_dest c) (it_dest b)) as [arr|] eqn:FA; [|congruence].
      exists (it_dest b, arr). pose proof (find_in _ _ _ _ FA eid_strict) as N. split; [exact N|]. apply (IA _ _ N). eauto.
Qed.
Lemma queued_times_spec hf c s y : inv hf c s -> queued_times c y = if in_dec N.eq_dec y (ids (s_wait s)) then 1%nat else 0%nat.
Proof.
  intros V. destruct (all_queued_nodup _ _ _ V) as [N I]. unfold queued_times. destruct (in_dec N.eq_dec y (ids (s_wait s))) as [J|J].
  - apply (proj1 (NoDup_count_occ' N.eq_dec (all_queued c)) N). now apply I.
  - apply count_occ_not_In. now rewrite I.
Qed.

(** * Histories *)
Lemma history_inv (P : catalog -> spec -> Prop) hf ops : (forall c s, inv hf c s -> P c s) -> forall c s, inv hf c s -> history P hf c s ops.
Proof.
  intros HP. induction ops as [|o r IH]; intros c s V; cbn [history]; (split; [exact (HP _ _ V)|]); [exact I|]. destruct o as [cid b o|q|cid|cid|cid|cid also|cid|k|t n|].
  - intros H1 H2 H3 H4 H5. destruct (store_spec hf c s cid b o V) as (c' & ok & E & A & B); [split; [|split]; assumption|exact H4|exact H5|].
    exists c', ok. split; [exact E|]. split; [exact A|]. apply IH. exact B.
  - destruct (pop_spec hf c s q V) as (c' & res & E & A). exists c', res. split; [exact E|]. destruct res as [[cid e]|].
    + destruct A as (pre & b & post & W & T & D & V'). exists pre, b, post. split; [exact W|]. split; [exact T|]. split; [exact D|]. now apply IH.
    + split; [apply A|]. apply IH. apply A.
  - intros H. destruct (give_back_spec hf c s cid V H) as (c' & ok & E & A). exists c', ok. split; [exact E|]. destruct (lookup (s_stored s) cid); (split; [apply A|apply IH; apply A]).
  - intros H. destruct (remove_read_spec hf c s cid V H) as (c' & ok & E & A & B). exists c', ok. split; [exact E|]. split; [exact A|]. now apply IH.
  - destruct (remove_any_spec hf c s cid V) as (c' & ok & E & A & B). exists c', ok. split; [exact E|]. split; [exact A|]. now apply IH.
  - intros H1 H2. destruct (cat_remove_spec hf c s cid also V H1 H2) as (c' & ok & n & E & A & B & C). exists c', ok, n. split; [exact E|]. split; [exact A|]. split; [exact B|]. now apply IH.
  - split; [|now apply IH]. rewrite (v_entry _ _ _ (i_S _ _ _ V)). destruct (lookup (s_stored s) cid) as [b|] eqn:L; [|exact I]. cbn [option_map].
    destruct (stored_entry _ _ _ _ _ V L) as [_ OK]. now apply entry_of_fields.
  - split; [|now apply IH]. apply (v_key _ _ _ (i_S _ _ _ V)).
  - destruct (expired_spec hf c s t n V) as (A & B & C). split; [exact A|]. split; [exact B|]. split; [exact C|]. now apply IH.
  - split; [apply (v_num _ _ _ (i_S _ _ _ V))|]. split; [apply (v_bytes _ _ _ (i_S _ _ _ V))|]. now apply IH.
Qed.

(** * Insertion by sequence *)
Definition seq_of (c : catalog) (y : N) : N := match entry_find c y with Some e => ce_seq e | None => 0 end.
Lemma seq_position_spec c l seq : (forall y, In y l -> entry_find c y <> None) -> ascending (map (seq_of c) l) ->
  match seq_position c l seq with
  | None => In seq (map (seq_of c) l)
  | Some k => exists a b, l = a ++ b /\ length a = k /\ (forall y, In y a -> seq_of c y < seq) /\ forall y, In y b -> seq < seq_of c y
  end.
Proof.
  induction l as [|y r IH]; intros E A; cbn [seq_position].
  - exists [], []. repeat split; intros ? [].
  - pose proof (E y (or_introl eq_refl)) as EY. destruct (entry_find c y) as [e|] eqn:F; [|congruence].
    assert (seq_of c y = ce_seq e) as SY by (unfold seq_of; now rewrite F).
    assert (forall z, In z r -> seq_of c y < seq_of c z) as Up.
    { intros z I. cbn [map ascending] in A. apply (proj1 (Forall_forall _ _) (proj1 A)). now apply in_map. }
    destruct (N.ltb_spec seq (ce_seq e)) as [L|L].
    + exists [], (y :: r). split; [reflexivity|]. split; [reflexivity|]. split; [intros ? []|]. intros z [<-|I]; [lia|]. specialize (Up z I). lia.
    + destruct (N.ltb_spec (ce_seq e) seq) as [M|M].
      * specialize (IH (fun z I => E z (or_intror I)) (proj2 A)). destruct (seq_position c r seq) as [k|].
        -- destruct IH as (a & b & -> & <- & X & Y). exists (y :: a), b. split; [reflexivity|]. split; [reflexivity|]. split; [|exact Y].
           intros z [<-|I]; [lia|auto].
        -- cbn [map]. now right.
      * cbn [map]. left. lia.
Qed.
Lemma ascending_app_iff l1 l2 : ascending (l1 ++ l2) <-> ascending l1 /\ ascending l2 /\ forall x y, In x l1 -> In y l2 -> x < y.
Proof.
  induction l1 as [|z r IH]; cbn [app ascending].
  - split; [intros A; split; [exact I|]; split; [exact A|intros ? ? []]|tauto].
  - rewrite IH, !Forall_forall. split.
    + intros (A & B & C & D). split; [split; [intros w I; apply A; apply in_or_app; now left|exact B]|]. split; [exact C|].
      intros x y [<-|I] J; [apply A; apply in_or_app; now right|auto].
    + intros ((A & B) & C & D). split; [|split; [exact B|split; [exact C|intros x y I J; apply D; [now right|exact J]]]].
      intros w I. apply in_app_or in I. destruct I as [I|I]; [auto|]. apply D; [now left|exact I].
Qed.
Lemma hd_rev_last {A} (l : list A) : l <> [] -> exists r z, l = r ++ [z] /\ hd_error (rev l) = Some z.
Proof. intros N. destruct (exists_last N) as (r & z & ->). exists r, z. split; [reflexivity|]. now rewrite rev_app_distr. Qed.
Lemma insert_by_sequence_spec c q cid seq : flq_ok q -> (forall y, In y (flq_contents q) -> entry_find c y <> None) ->
  ascending (map (seq_of c) (flq_contents q)) ->
  exists q' ok, insert_by_sequence c q cid seq = Some (q', ok) /\ flq_ok q' /\
    if ok then exists a b, flq_contents q = a ++ b /\ flq_contents q' = a ++ cid :: b /\ (forall y, In y a -> seq_of c y < seq) /\ forall y, In y b -> seq < seq_of c y
    else q' = q /\ In seq (map (seq_of c) (flq_contents q)).
Proof.
  intros Q E A. unfold insert_by_sequence. pose proof (free_addr_fresh q) as FA. destruct (flq_is_empty q) eqn:EM.
  - destruct (push_front_ok q (free_addr q) cid Q FA) as [Q' C]. eexists _, true. split; [reflexivity|]. split; [exact Q'|].
    assert (flq_contents q = []) as Z by (unfold flq_is_empty, flq_contents in *; now destruct (q_fl q)). rewrite C, Z. exists [], []. repeat split; intros ? [].
  - assert (flq_contents q <> []) as NE by (unfold flq_is_empty, flq_contents in *; now destruct (q_fl q)).
    rewrite (back_ok q Q NE). destruct (hd_rev_last _ NE) as (r & z & CQ & ->). pose proof (E z) as EZ. rewrite CQ in EZ.
    destruct (entry_find c z) as [le|] eqn:F; [|destruct EZ; [apply in_or_app; right; now left|reflexivity]].
    assert (seq_of c z = ce_seq le) as SZ by (unfold seq_of; now rewrite F).
    destruct (N.ltb_spec (ce_seq le) seq) as [L|L].
    + destruct (push_back_ok q (free_addr q) cid Q FA) as (q' & -> & Q' & C). exists q', true. split; [reflexivity|]. split; [exact Q'|].
      exists (flq_contents q), []. split; [now rewrite app_nil_r|]. split; [exact C|]. split; [|intros ? []].
      intros y I. rewrite CQ in I, A. rewrite map_app in A. apply ascending_app_iff in A. apply in_app_or in I. destruct I as [I|[<-|[]]]; [|lia].
      destruct A as (_ & _ & A). specialize (A (seq_of c y) (seq_of c z) (in_map _ _ _ I) (or_introl eq_refl)). lia.
    + pose proof (seq_position_spec c _ seq E A) as SP. destruct (seq_position c (flq_contents q) seq) as [k|].
      * destruct SP as (a & b & CQ' & LA & X & Y).
        assert ((k < length (flq_contents q))%nat) as KL.
        { rewrite CQ', app_length. destruct b as [|y b]; [|cbn [length]; lia]. exfalso. rewrite app_nil_r in CQ'.
          assert (In z a) by (rewrite <- CQ', CQ; apply in_or_app; right; now left). specialize (X z H). lia. }
        destruct (emplace_at_ok q k (free_addr q) cid Q FA KL) as (q' & -> & Q' & C). exists q', true. split; [reflexivity|]. split; [exact Q'|].
        exists a, b. split; [exact CQ'|]. split; [|tauto]. rewrite C, CQ', <- LA, firstn_app, skipn_app, Nat.sub_diag, firstn_all, skipn_all. cbn [firstn skipn]. now rewrite app_nil_r.
      * exists q, false. split; [reflexivity|]. split; [exact Q|]. tauto.
Qed.
Lemma seq_run_spec c l : forall q acc, flq_ok q -> (forall y, In y (flq_contents q) -> entry_find c y <> None) -> ascending (map (seq_of c) (flq_contents q)) ->
  Permutation (flq_contents q) acc -> (forall y, In y l -> entry_find c y <> None) ->
  exists q' fl, seq_run c q l = Some (q', fl) /\ length fl = length l /\ ascending (map (seq_of c) (flq_contents q')) /\
    Permutation (flq_contents q') (acc ++ accepted l fl) /\ (forall y, In y l -> exists z, In z (flq_contents q') /\ seq_of c z = seq_of c y) /\
    forall y, In y (flq_contents q) -> In y (flq_contents q').
Proof.
  induction l as [|y r IH]; intros q acc Q E A P EL; cbn [seq_run].
  - exists q, []. split; [reflexivity|]. split; [reflexivity|]. split; [exact A|]. cbn [accepted]. rewrite app_nil_r. split; [exact P|]. split; [intros ? []|auto].
  - pose proof (EL y (or_introl eq_refl)) as EY. destruct (entry_find c y) as [e|] eqn:F; [|congruence].
    assert (seq_of c y = ce_seq e) as SY by (unfold seq_of; now rewrite F).
    destruct (insert_by_sequence_spec c q y (ce_seq e) Q E A) as (q1 & ok & -> & Q1 & S).
    assert (forall z, In z (flq_contents q1) -> entry_find c z <> None) as E1.
    { destruct ok; [|now destruct S as [-> _]]. destruct S as (a & b & C & C1 & _). intros z I. rewrite C1 in I.
      apply in_elt_inv in I. destruct I as [<-|I]; [congruence|]. apply E. now rewrite C. }
    assert (ascending (map (seq_of c) (flq_contents q1))) as A1.
    { destruct ok; [|now destruct S as [-> _]]. destruct S as (a & b & C & C1 & X & Y). rewrite C in A. rewrite C1, map_app in *.
      cbn [map]. apply ascending_app_iff in A. destruct A as (A1 & A2 & A3). apply ascending_app_iff. split; [exact A1|]. split.
      - cbn [ascending]. split; [|exact A2]. apply Forall_forall. intros w I. apply in_map_iff in I. destruct I as (u & <- & I). rewrite SY. auto.
      - intros u w I [<-|J]; [|auto]. apply in_map_iff in I. destruct I as (v & <- & I). rewrite SY. auto. }
    set (acc1 := if ok then acc ++ [y] else acc).
    assert (Permutation (flq_contents q1) acc1) as P1.
    { unfold acc1. destruct ok; [|now destruct S as [-> _]]. destruct S as (a & b & C & C1 & _). rewrite C1. rewrite C in P.
      rewrite <- Permutation_middle. rewrite P. apply Permutation_cons_append. }
    destruct (IH q1 acc1 Q1 E1 A1 P1 (fun z I => EL z (or_intror I))) as (q' & fl & -> & LF & A' & P' & Cov & Sub).
    exists q', (ok :: fl). split; [reflexivity|]. split; [cbn [length]; lia|]. split; [exact A'|]. split.
    { rewrite P'. unfold acc1. cbn [accepted]. destruct ok; [now rewrite <- app_assoc|reflexivity]. }
    split.
    + intros z [<-|I]; [|auto]. destruct ok.
      * destruct S as (a & b & _ & C1 & _). exists y. split; [|reflexivity]. apply Sub. rewrite C1. apply in_elt.
      * destruct S as [-> S]. apply in_map_iff in S. destruct S as (z & SZ & I). exists z. split; [auto|]. congruence.
    + intros z I. apply Sub. destruct ok; [|now destruct S as [-> _]]. destruct S as (a & b & C & C1 & _). rewrite C1. rewrite C in I.
      apply in_or_app. apply in_app_or in I. simpl. tauto.
Qed.
