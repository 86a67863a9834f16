(** Lemmas for C15. *)
From Coq Require Import NArith ZArith List Bool Lia ZifyBool ZifyN.
From Verif Require Import Base M_CustodyId M_HashMap S_HashMap.
Import ListNotations.
Open Scope N_scope.

(** Keys of a bucket strictly increase. *)
Fixpoint above {K V} (ltb : K -> K -> bool) (k : K) (b : list (K * V)) : Prop :=
  match b with [] => True | (k', _) :: r => ltb k k' = true /\ above ltb k r end.
Fixpoint sorted {K V} (ltb : K -> K -> bool) (b : list (K * V)) : Prop :=
  match b with [] => True | (k, _) :: r => above ltb k r /\ sorted ltb r end.

Lemma above_find {K V} (ltb : K -> K -> bool) : strict_total ltb -> forall (b : list (K * V)) k k', above ltb k b -> k' = k \/ ltb k' k = true -> bucket_find ltb b k' = None.
Proof.
  intros (I & T & E) b k k' A L. destruct b as [|[k1 v1] r]; [reflexivity|]. destruct A as [A _]. simpl.
  assert (ltb k' k1 = true) as ->; [|reflexivity]. destruct L as [->|L]; [exact A|]. exact (T _ _ _ L A).
Qed.
Lemma above_trans {K V} (ltb : K -> K -> bool) : strict_total ltb -> forall (b : list (K * V)) k k', above ltb k b -> ltb k' k = true -> above ltb k' b.
Proof.
  intros (I & T & E) b k k'. induction b as [|[k1 v1] r IH]; simpl; [auto|]. intros [A B] L. split; [exact (T _ _ _ L A)|auto].
Qed.

Section B.
Context {K V : Type} (ltb : K -> K -> bool) (ST : strict_total ltb) (eqk : forall a b : K, {a = b} + {a <> b}).

Lemma ltb_irr a : ltb a a = false. Proof. exact (proj1 ST a). Qed.
Lemma ltb_asym a b : ltb a b = true -> ltb b a = false.
Proof. intros A. destruct (ltb b a) eqn:B; [|reflexivity]. pose proof (proj1 (proj2 ST) _ _ _ A B) as C. now rewrite ltb_irr in C. Qed.

Lemma insert_above k0 b k v b' : bucket_insert ltb b k v = Some b' -> above ltb k0 b -> ltb k0 k = true -> above (V:=V) ltb k0 b'.
Proof.
  revert b'. induction b as [|[k1 v1] r IH]; intros b' I A L; cbn [bucket_insert] in I.
  - injection I as <-. now split.
  - destruct (ltb k k1) eqn:E1; [injection I as <-; now split|]. destruct (ltb k1 k) eqn:E2; [|discriminate].
    destruct (bucket_insert ltb r k v) as [r'|] eqn:E; [|discriminate]. injection I as <-. destruct A as [A1 A2]. split; auto.
Qed.
Lemma insert_sorted b k v b' : sorted ltb b -> bucket_insert ltb b k v = Some b' -> sorted (V:=V) ltb b'.
Proof.
  revert b'. induction b as [|[k1 v1] r IH]; intros b' S I; cbn [bucket_insert] in I.
  - injection I as <-. now split.
  - destruct S as [A S]. destruct (ltb k k1) eqn:E1.
    + injection I as <-. split; [|now split]. split; [exact E1|]. exact (above_trans ltb ST r k1 k A E1).
    + destruct (ltb k1 k) eqn:E2; [|discriminate]. destruct (bucket_insert ltb r k v) as [r'|] eqn:E; [|discriminate].
      injection I as <-. split; [exact (insert_above _ _ _ _ _ E A E2)|]. now apply IH.
Qed.
Lemma insert_find b k v : sorted ltb b ->
  match bucket_insert ltb b k v with
  | Some b' => bucket_find ltb b k = None /\ forall k', bucket_find (V:=V) ltb b' k' = if eqk k' k then Some v else bucket_find ltb b k'
  | None => bucket_find ltb b k <> None
  end.
Proof.
  induction b as [|[k1 v1] r IH]; intros S; cbn [bucket_insert].
  - split; [reflexivity|]. intros k'. simpl. destruct (eqk k' k) as [->|N]; [now rewrite ltb_irr|].
    destruct (ltb k' k) eqn:A; [reflexivity|]. destruct (ltb k k') eqn:B; [reflexivity|]. destruct N. now apply ST.
  - destruct S as [A S]. specialize (IH S). destruct (ltb k k1) eqn:E1.
    + split; [simpl; now rewrite E1|]. intros k'. cbn [bucket_find]. destruct (eqk k' k) as [->|N]; [now rewrite ltb_irr|].
      destruct (ltb k' k) eqn:L1.
      * assert (ltb k' k1 = true) as -> by exact (proj1 (proj2 ST) _ _ _ L1 E1). reflexivity.
      * destruct (ltb k k') eqn:L2; [reflexivity|]. destruct N. now apply ST.
    + destruct (ltb k1 k) eqn:E2.
      * destruct (bucket_insert ltb r k v) as [r'|] eqn:E.
        -- destruct IH as [IH1 IH2]. split; [simpl; now rewrite E1, E2|]. intros k'. cbn [bucket_find].
           destruct (ltb k' k1) eqn:L1.
           ++ destruct (eqk k' k) as [->|N]; [congruence|reflexivity].
           ++ destruct (ltb k1 k') eqn:L2; [apply IH2|]. destruct (eqk k' k) as [->|N]; [congruence|reflexivity].
        -- simpl. now rewrite E1, E2.
      * simpl. now rewrite E1, E2.
Qed.

Lemma take_above k0 b k v b' : bucket_take ltb b k = Some (v, b') -> above ltb k0 b -> above (V:=V) ltb k0 b'.
Proof.
  revert b'. induction b as [|[k1 v1] r IH]; intros b' I A; cbn [bucket_take] in I; [discriminate|].
  destruct (ltb k k1); [discriminate|]. destruct A as [A1 A2]. destruct (ltb k1 k).
  - destruct (bucket_take ltb r k) as [[v' r']|] eqn:E; [|discriminate]. injection I as <- <-. split; auto.
  - injection I as <- <-. exact A2.
Qed.
Lemma take_sorted b k v b' : sorted ltb b -> bucket_take ltb b k = Some (v, b') -> sorted (V:=V) ltb b'.
Proof.
  revert b'. induction b as [|[k1 v1] r IH]; intros b' S I; cbn [bucket_take] in I; [discriminate|].
  destruct (ltb k k1); [discriminate|]. destruct S as [A S]. destruct (ltb k1 k).
  - destruct (bucket_take ltb r k) as [[v' r']|] eqn:E; [|discriminate]. injection I as <- <-. split; [exact (take_above _ _ _ _ _ E A)|]. now apply IH.
  - injection I as <- <-. exact S.
Qed.
Lemma take_find b k : sorted ltb b ->
  match bucket_take ltb b k with
  | Some (v, b') => bucket_find ltb b k = Some v /\ forall k', bucket_find (V:=V) ltb b' k' = if eqk k' k then None else bucket_find ltb b k'
  | None => bucket_find ltb b k = None
  end.
Proof.
  induction b as [|[k1 v1] r IH]; intros S; cbn [bucket_take]; [reflexivity|].
  destruct S as [A S]. specialize (IH S). destruct (ltb k k1) eqn:E1; [simpl; now rewrite E1|].
  destruct (ltb k1 k) eqn:E2.
  - destruct (bucket_take ltb r k) as [[v r']|] eqn:E.
    + destruct IH as [IH1 IH2]. split; [simpl; now rewrite E1, E2|]. intros k'. cbn [bucket_find].
      destruct (ltb k' k1) eqn:L1.
      * now destruct (eqk k' k).
      * destruct (ltb k1 k') eqn:L2; [apply IH2|]. destruct (eqk k' k) as [->|N]; [congruence|reflexivity].
    + simpl. now rewrite E1, E2.
  - assert (k = k1) as <- by now apply ST. split; [simpl; now rewrite E1|]. intros k'. simpl.
    destruct (eqk k' k) as [->|N]; [exact (above_find ltb ST r k k A (or_introl eq_refl))|].
    destruct (ltb k' k) eqn:L1; [exact (above_find ltb ST r k k' A (or_intror L1))|].
    destruct (ltb k k') eqn:L2; [reflexivity|]. destruct N. now apply ST.
Qed.

Lemma write_above k0 b k v : above ltb k0 b -> above (V:=V) ltb k0 (bucket_write ltb b k v).
Proof.
  induction b as [|[k1 v1] r IH]; intros A; cbn [bucket_write]; [exact A|].
  destruct (ltb k k1); [exact A|]. destruct A as [A1 A2]. destruct (ltb k1 k); split; auto.
Qed.
Lemma write_sorted b k v : sorted ltb b -> sorted (V:=V) ltb (bucket_write ltb b k v).
Proof.
  induction b as [|[k1 v1] r IH]; intros A; cbn [bucket_write]; [exact A|].
  destruct (ltb k k1); [exact A|]. destruct A as [A1 A2]. destruct (ltb k1 k); split; auto using write_above.
Qed.
Lemma write_find b k v k' : sorted ltb b -> bucket_find (V:=V) ltb (bucket_write ltb b k v) k' =
  match bucket_find ltb b k with Some _ => if eqk k' k then Some v else bucket_find ltb b k' | None => bucket_find ltb b k' end.
Proof.
  induction b as [|[k1 v1] r IH]; intros S; cbn [bucket_write]; [reflexivity|].
  destruct S as [A S]. specialize (IH S). cbn [bucket_find]. destruct (ltb k k1) eqn:E1; [reflexivity|].
  destruct (ltb k1 k) eqn:E2.
  - cbn [bucket_find]. rewrite IH. destruct (bucket_find ltb r k); [|reflexivity].
    destruct (ltb k' k1) eqn:L1; [destruct (eqk k' k) as [->|]; [congruence|reflexivity]|].
    destruct (ltb k1 k') eqn:L2; [reflexivity|]. destruct (eqk k' k) as [->|]; [congruence|reflexivity].
  - assert (k = k1) as <- by now apply ST. cbn [bucket_find].
    destruct (eqk k' k) as [->|N]; [now rewrite ltb_irr|].
    destruct (ltb k' k) eqn:L1; [reflexivity|]. destruct (ltb k k') eqn:L2; [reflexivity|]. destruct N. now apply ST.
Qed.

(** The table invariant. *)
Definition hm_ok (m : hmap K V) : Prop := forall h, sorted ltb (m h).
Lemma hm_ok_empty : hm_ok hm_empty. Proof. intros h. exact I. Qed.
Lemma hm_ok_set m h b : hm_ok m -> sorted ltb b -> hm_ok (hm_set m h b).
Proof. intros M S i. unfold hm_set. destruct (i =? h); auto. Qed.

Context (hash : K -> N).
Lemma find_set m h b k : hm_find (V:=V) ltb hash (hm_set m h b) k = if hash k =? h then bucket_find ltb b k else hm_find ltb hash m k.
Proof. unfold hm_find, hm_set. now destruct (hash k =? h). Qed.

Lemma hm_insert_spec m k v : hm_ok m ->
  hm_ok (fst (hm_insert ltb hash m k v)) /\
  match hm_find ltb hash m k with
  | Some _ => hm_insert ltb hash m k v = (m, false)
  | None => snd (hm_insert ltb hash m k v) = true /\
            forall k', hm_find ltb hash (fst (hm_insert ltb hash m k v)) k' = if eqk k' k then Some v else hm_find ltb hash m k'
  end.
Proof.
  intros M. unfold hm_insert. pose proof (insert_find (m (hash k)) k v (M _)) as F.
  unfold hm_find at 1. destruct (bucket_insert ltb (m (hash k)) k v) as [b|] eqn:E.
  - destruct F as [F1 F2]. rewrite F1. simpl. split; [apply hm_ok_set; [exact M|]; exact (insert_sorted _ _ _ _ (M _) E)|].
    split; [reflexivity|]. intros k'. rewrite find_set. destruct (N.eqb_spec (hash k') (hash k)) as [H|H].
    + rewrite F2. unfold hm_find. now rewrite H.
    + destruct (eqk k' k) as [->|N]; [congruence|reflexivity].
  - destruct (bucket_find ltb (m (hash k)) k); [|congruence]. now split.
Qed.
Lemma hm_take_spec m k : hm_ok m ->
  hm_ok (fst (hm_take ltb hash m k)) /\ snd (hm_take ltb hash m k) = hm_find (V:=V) ltb hash m k /\
  forall k', hm_find ltb hash (fst (hm_take ltb hash m k)) k' = if eqk k' k then None else hm_find ltb hash m k'.
Proof.
  intros M. unfold hm_take. pose proof (take_find (m (hash k)) k (M _)) as F.
  unfold hm_find at 1. destruct (bucket_take ltb (m (hash k)) k) as [[v b]|] eqn:E.
  - destruct F as [F1 F2]. rewrite F1. simpl. split; [apply hm_ok_set; [exact M|]; exact (take_sorted _ _ _ _ (M _) E)|].
    split; [reflexivity|]. intros k'. rewrite find_set. destruct (N.eqb_spec (hash k') (hash k)) as [H|H].
    + rewrite F2. unfold hm_find. now rewrite H.
    + destruct (eqk k' k) as [->|N]; [congruence|reflexivity].
  - simpl. split; [exact M|]. split; [now rewrite F|]. intros k'. destruct (eqk k' k) as [->|N]; [exact F|reflexivity].
Qed.
Lemma hm_write_spec m k v : hm_ok m ->
  hm_ok (hm_write ltb hash m k v) /\
  forall k', hm_find ltb hash (hm_write ltb hash m k v) k' =
    match hm_find (V:=V) ltb hash m k with Some _ => if eqk k' k then Some v else hm_find ltb hash m k' | None => hm_find ltb hash m k' end.
Proof.
  intros M. unfold hm_write. split; [apply hm_ok_set; [exact M|]; now apply write_sorted|].
  intros k'. rewrite find_set. destruct (N.eqb_spec (hash k') (hash k)) as [H|H].
  - rewrite write_find by apply M. unfold hm_find. now rewrite H.
  - destruct (hm_find ltb hash m k); [|reflexivity]. destruct (eqk k' k) as [->|N]; [congruence|reflexivity].
Qed.

Hypothesis H16 : forall k, hash k < 65536.
Lemma hm_step_spec m f o : hm_ok m -> (forall k, hm_find ltb hash m k = f k) ->
  hm_ok (fst (hm_step ltb hash m o)) /\ snd (hm_step ltb hash m o) = snd (fmap_step eqk f o) /\
  forall k, hm_find (V:=V) ltb hash (fst (hm_step ltb hash m o)) k = fst (fmap_step eqk f o) k.
Proof.
  intros M F. destruct o as [k v|k|k|k v|]; cbn [hm_step fmap_step].
  - pose proof (hm_insert_spec m k v M) as (A & B). rewrite F in B. destruct (f k).
    + rewrite B in *. simpl. auto.
    + destruct B as [B1 B2]. destruct (hm_insert ltb hash m k v) as [m' b]. simpl in *. split; [exact A|]. split; [now rewrite B1|].
      intros k'. rewrite B2. now destruct (eqk k' k).
  - pose proof (hm_take_spec m k M) as (A & B & C). destruct (hm_take ltb hash m k) as [m' b]. simpl in *. split; [exact A|].
    split; [now rewrite B, F|]. intros k'. rewrite C. now destruct (eqk k' k).
  - simpl. split; [exact M|]. split; [now rewrite F|exact F].
  - simpl. pose proof (hm_write_spec m k v M) as (A & B). split; [exact A|]. split; [now rewrite F|].
    intros k'. rewrite B, F. destruct (f k); [|apply F]. now destruct (eqk k' k).
  - simpl. unfold hm_clear. split; [|split; [reflexivity|]].
    + intros h. destruct (h <? 65536); [exact I|apply M].
    + intros k. unfold hm_find. specialize (H16 k). destruct (N.ltb_spec (hash k) 65536); [reflexivity|lia].
Qed.
Lemma hm_run_spec ops : forall m f, hm_ok m -> (forall k, hm_find ltb hash m k = f k) ->
  hm_ok (fst (hm_run ltb hash m ops)) /\ snd (hm_run ltb hash m ops) = snd (fmap_run eqk f ops) /\
  forall k, hm_find (V:=V) ltb hash (fst (hm_run ltb hash m ops)) k = fst (fmap_run eqk f ops) k.
Proof.
  induction ops as [|o r IH]; intros m f M F; cbn [hm_run fmap_run]; [simpl; auto|].
  destruct (hm_step_spec m f o M F) as (A & B & C). destruct (hm_step ltb hash m o) as [m1 x]. destruct (fmap_step eqk f o) as [f1 y].
  simpl in *. destruct (IH m1 f1 A C) as (A' & B' & C'). destruct (hm_run ltb hash m1 r) as [m2 xs]. destruct (fmap_run eqk f1 r) as [f2 ys].
  simpl in *. split; [exact A'|]. split; [congruence|exact C'].
Qed.

Lemma above_not_in k (b : list (K * V)) : above ltb k b -> filter (fun p => if eqk (fst p) k then true else false) b = [].
Proof.
  induction b as [|[k1 v1] r IH]; [reflexivity|]. intros [A B]. simpl. destruct (eqk k1 k) as [->|]; [now rewrite ltb_irr in A|auto].
Qed.
Lemma sorted_copies (b : list (K * V)) k : sorted ltb b -> (length (filter (fun p => if eqk (fst p) k then true else false) b) <= 1)%nat.
Proof.
  induction b as [|[k1 v1] r IH]; simpl; [lia|]. intros [A S]. destruct (eqk k1 k) as [->|]; [|auto]. simpl.
  rewrite above_not_in by exact A. simpl. lia.
Qed.
(** Every pair in bucket [h] has hash [h]. *)
Definition hm_placed (m : hmap K V) : Prop := forall h p, In p (m h) -> hash (fst p) = h.
Lemma insert_in b k v b' p : bucket_insert ltb b k v = Some b' -> In p b' -> p = (k, v) \/ In (A:=K*V) p b.
Proof.
  revert b'. induction b as [|[k1 v1] r IH]; intros b' I P; cbn [bucket_insert] in I.
  - injection I as <-. destruct P as [P|[]]; auto.
  - destruct (ltb k k1); [injection I as <-; destruct P as [P|P]; auto|]. destruct (ltb k1 k); [|discriminate].
    destruct (bucket_insert ltb r k v) as [r'|]; [|discriminate]. injection I as <-. destruct P as [P|P]; [right; now left|].
    destruct (IH r' eq_refl P); [auto|right; now right].
Qed.
Lemma take_in b k v b' p : bucket_take ltb b k = Some (v, b') -> In p b' -> In (A:=K*V) p b.
Proof.
  revert b'. induction b as [|[k1 v1] r IH]; intros b' I P; cbn [bucket_take] in I; [discriminate|].
  destruct (ltb k k1); [discriminate|]. destruct (ltb k1 k).
  - destruct (bucket_take ltb r k) as [[v' r']|]; [|discriminate]. injection I as <- <-. destruct P as [P|P]; [now left|right; now apply (IH r')].
  - injection I as <- <-. now right.
Qed.
Lemma write_in b k v p : In p (bucket_write ltb b k v) -> exists q, In (A:=K*V) q b /\ fst q = fst p.
Proof.
  induction b as [|[k1 v1] r IH]; cbn [bucket_write]; intros P; [destruct P|].
  destruct (ltb k k1); [eauto|]. destruct (ltb k1 k).
  - destruct P as [<-|P]; [eexists; split; [now left|reflexivity]|]. destruct (IH P) as (q & A & B). exists q. split; [now right|exact B].
  - destruct P as [<-|P]; [eexists; split; [now left|reflexivity]|]. exists p. split; [now right|reflexivity].
Qed.
Lemma placed_set m h b : hm_placed m -> (forall p, In p b -> hash (fst p) = h) -> hm_placed (hm_set m h b).
Proof. intros M B i p. unfold hm_set. destruct (N.eqb_spec i h) as [->|]; [apply B|apply M]. Qed.
Lemma hm_step_placed m o : hm_placed m -> hm_placed (fst (hm_step ltb hash m o)).
Proof.
  intros M. destruct o as [k v|k|k|k v|]; cbn [hm_step].
  - unfold hm_insert. destruct (bucket_insert ltb (m (hash k)) k v) as [b|] eqn:E; [|exact M]. apply placed_set; [exact M|].
    intros p P. destruct (insert_in _ _ _ _ _ E P) as [->|P']; [reflexivity|now apply M].
  - unfold hm_take. destruct (bucket_take ltb (m (hash k)) k) as [[v b]|] eqn:E; [|exact M]. apply placed_set; [exact M|].
    intros p P. apply M. exact (take_in _ _ _ _ _ E P).
  - exact M.
  - apply placed_set; [exact M|]. intros p P. destruct (write_in _ _ _ _ P) as (q & A & B). rewrite <- B. now apply M.
  - intros h p. simpl. unfold hm_clear. destruct (h <? 65536); [intros []|apply M].
Qed.
Lemma hm_run_placed ops : forall m, hm_placed m -> hm_placed (fst (hm_run ltb hash m ops)).
Proof.
  induction ops as [|o r IH]; intros m M; cbn [hm_run]; [exact M|]. pose proof (hm_step_placed m o M) as M1.
  destruct (hm_step ltb hash m o) as [m1 x]. specialize (IH m1 M1). destruct (hm_run ltb hash m1 r). exact IH.
Qed.
End B.

Lemma N_strict : strict_total N.ltb.
Proof. repeat split; intros; lia. Qed.
Lemma eid_strict : strict_total eid_ltb.
Proof.
  repeat split; unfold eid_ltb; intros; repeat match goal with a : eid |- _ => destruct a end; simpl in *;
  repeat match goal with |- context [?x =? ?y] => destruct (N.eqb_spec x y) | H : context [?x =? ?y] |- _ => destruct (N.eqb_spec x y) end; try lia; f_equal; lia.
Qed.
Lemma eid_eqb_spec a b : reflect (a = b) (eid_eqb a b).
Proof.
  unfold eid_eqb. destruct a as [a1 a2], b as [b1 b2]. simpl. destruct (N.eqb_spec a1 b1), (N.eqb_spec a2 b2); constructor; congruence.
Qed.
Lemma uuidnf_strict : strict_total uuidnf_ltb.
Proof.
  destruct eid_strict as (I & T & E). split; [|split]; unfold uuidnf_ltb.
  - intros a. rewrite !N.eqb_refl. apply I.
  - intros [a1 a2 a3] [b1 b2 b3] [c1 c2 c3]. simpl.
    destruct (N.eqb_spec a1 b1), (N.eqb_spec b1 c1), (N.eqb_spec a1 c1); try lia;
    destruct (N.eqb_spec a2 b2), (N.eqb_spec b2 c2), (N.eqb_spec a2 c2); try lia; apply T.
  - intros [a1 a2 a3] [b1 b2 b3]. simpl. rewrite (N.eqb_sym b1), (N.eqb_sym b2).
    destruct (N.eqb_spec a1 b1) as [->|]; [|lia]. destruct (N.eqb_spec a2 b2) as [->|]; [|lia]. intros A B. now rewrite (E _ _ A B).
Qed.
Lemma uuid_strict : strict_total uuid_ltb.
Proof.
  destruct eid_strict as (I & T & E). split; [|split]; unfold uuid_ltb.
  - intros a. rewrite !N.eqb_refl. destruct (eid_eqb_spec (u_src a) (u_src a)); [lia|congruence].
  - intros [a1 a2 a3 a4 a5] [b1 b2 b3 b4 b5] [c1 c2 c3 c4 c5]. simpl.
    destruct (N.eqb_spec a1 b1), (N.eqb_spec b1 c1), (N.eqb_spec a1 c1); try lia;
    destruct (N.eqb_spec a2 b2), (N.eqb_spec b2 c2), (N.eqb_spec a2 c2); try lia.
    destruct (eid_eqb_spec a3 b3), (eid_eqb_spec b3 c3), (eid_eqb_spec a3 c3); subst; try congruence.
    + destruct (N.eqb_spec a4 b4), (N.eqb_spec b4 c4), (N.eqb_spec a4 c4); lia.
    + intros A B. pose proof (T _ _ _ A B) as C. now rewrite I in C.
    + apply T.
  - intros [a1 a2 a3 a4 a5] [b1 b2 b3 b4 b5]. simpl. rewrite (N.eqb_sym b1), (N.eqb_sym b2), (N.eqb_sym b4).
    destruct (N.eqb_spec a1 b1) as [->|]; [|lia]. destruct (N.eqb_spec a2 b2) as [->|]; [|lia].
    destruct (eid_eqb_spec a3 b3) as [->|D].
    + destruct (eid_eqb_spec b3 b3) as [_|D']; [|congruence]. destruct (N.eqb_spec a4 b4) as [->|]; [|lia]. intros A B. f_equal. lia.
    + destruct (eid_eqb_spec b3 a3) as [Q|_]; [congruence|]. intros A B. destruct D. now apply E.
Qed.

Lemma lxor_lt_pow2 a b n : a < 2 ^ n -> b < 2 ^ n -> N.lxor a b < 2 ^ n.
Proof.
  intros A B. destruct (N.eq_dec (N.lxor a b) 0) as [->|Z]; [lia|].
  apply N.log2_lt_pow2; [lia|]. pose proof (N.log2_lxor a b) as L.
  destruct (N.eq_dec a 0) as [->|Ha]; [rewrite N.lxor_0_l in *|destruct (N.eq_dec b 0) as [->|Hb]; [rewrite N.lxor_0_r in *|]].
  - now apply N.log2_lt_pow2; lia.
  - now apply N.log2_lt_pow2; lia.
  - apply N.log2_lt_pow2 in A; [|lia]. apply N.log2_lt_pow2 in B; [|lia]. lia.
Qed.
Lemma fold16_lt x : fold16 x < 65536.
Proof. unfold fold16. apply (lxor_lt_pow2 _ _ 16); apply N.mod_lt; discriminate. Qed.
Lemma hash_uuid_lt u : hash_uuid u < 65536. Proof. apply fold16_lt. Qed.
Lemma hash_uuidnf_lt u : hash_uuidnf u < 65536. Proof. apply fold16_lt. Qed.
Lemma hash_u64_lt k : hash_u64 k < 65536. Proof. apply N.mod_lt. discriminate. Qed.

Definition uuid_eq_dec (a b : uuid) : {a = b} + {a <> b}.
Proof. repeat decide equality. Defined.
Definition uuidnf_eq_dec (a b : uuidnf) : {a = b} + {a <> b}.
Proof. repeat decide equality. Defined.
