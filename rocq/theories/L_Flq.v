(** Lemmas for C30. *)
From Coq Require Import NArith ZArith List Bool Lia ZifyBool ZifyN.
From Verif Require Import Base M_Flq S_Flq.
Import ListNotations.
Open Scope N_scope.

(** The invariant: distinct addresses; if not empty, m_flLastIt is the last node. *)
Definition flq_ok {A} (q : flq A) : Prop :=
  NoDup (map fst (q_fl q)) /\ (q_fl q = [] \/ exists l a v, q_fl q = l ++ [(a, v)] /\ q_last q = Node a).

Lemma flq_empty_ok A : flq_ok (@flq_empty A).
Proof. split; [constructor|now left]. Qed.
Lemma nodup_app_last {A} (l : list (N * A)) a v : NoDup (map fst (l ++ [(a, v)])) -> NoDup (map fst l) /\ ~ In a (map fst l).
Proof.
  rewrite map_app. simpl. intros D. apply NoDup_remove in D. rewrite app_nil_r in D. exact D.
Qed.
Lemma insert_after_last {A} (l : fnodes A) a v n : ~ In a (map fst l) -> insert_after_node (l ++ [(a, v)]) a n = Some (l ++ [(a, v); n]).
Proof.
  induction l as [|[b w] r IH]; intros D; cbn [insert_after_node app].
  - now rewrite N.eqb_refl.
  - simpl in D. destruct (N.eqb_spec b a) as [->|]; [tauto|]. now rewrite IH by tauto.
Qed.
Lemma push_back_ok {A} (q : flq A) a v : flq_ok q -> ~ In a (map fst (q_fl q)) ->
  exists q', flq_push_back q a v = Some q' /\ flq_ok q' /\ flq_contents q' = flq_contents q ++ [v].
Proof.
  intros [D O] F. unfold flq_push_back. destruct O as [E|(l & b & w & E & L)].
  - rewrite E in *. eexists. split; [reflexivity|]. split; [|unfold flq_contents; now rewrite E].
    split; simpl; [repeat constructor; tauto|]. right. now exists [], a, v.
  - rewrite E, L in *. replace (match l ++ [(b, w)] with [] => Some (mkFlq [(a, v)] (Node a)) | _ :: _ =>
      match insert_after (l ++ [(b, w)]) (Node b) (a, v) with Some l0 => Some (mkFlq l0 (Node a)) | None => None end end)
      with (match insert_after (l ++ [(b, w)]) (Node b) (a, v) with Some l0 => Some (mkFlq l0 (Node a)) | None => None end) by (destruct l; reflexivity).
    cbn [insert_after]. destruct (nodup_app_last _ _ _ D) as [D1 D2]. rewrite insert_after_last by exact D2.
    eexists. split; [reflexivity|]. split; [|unfold flq_contents; cbn [q_fl]; rewrite ?E, !map_app; cbn [map snd]; rewrite <- ?app_assoc; reflexivity].
    split; simpl.
    + change [(b, w); (a, v)] with ([(b, w)] ++ [(a, v)]). rewrite app_assoc, map_app. simpl. rewrite <- (app_nil_r (map fst (l ++ [(b, w)]) ++ [a])), <- app_assoc.
      simpl. apply NoDup_Add with (a := a) (l := map fst (l ++ [(b, w)])); [|split; assumption].
      rewrite <- (app_nil_r (map fst (l ++ [(b, w)]))) at 1. apply Add_app.
    + right. exists (l ++ [(b, w)]), a, v. now rewrite <- app_assoc.
Qed.
Lemma push_front_ok {A} (q : flq A) a v : flq_ok q -> ~ In a (map fst (q_fl q)) ->
  flq_ok (flq_push_front q a v) /\ flq_contents (flq_push_front q a v) = v :: flq_contents q.
Proof.
  intros [D O] F. split; [|reflexivity]. split; [simpl; now constructor|]. right. unfold flq_push_front. simpl.
  destruct O as [E|(l & b & w & E & L)].
  - rewrite E. now exists [], a, v.
  - rewrite E. exists ((a, v) :: l), b, w. split; [reflexivity|]. now destruct l.
Qed.
Lemma pop_ok {A} (q : flq A) : flq_ok q ->
  match flq_contents q with
  | [] => flq_pop q = None /\ flq_front q = None
  | x :: r => flq_front q = Some x /\ exists q', flq_pop q = Some q' /\ flq_ok q' /\ flq_contents q' = r
  end.
Proof.
  intros [D O]. unfold flq_contents, flq_pop, flq_front. destruct (q_fl q) as [|n r] eqn:E; simpl; [auto|].
  split; [reflexivity|]. eexists. split; [reflexivity|]. split; [|reflexivity]. simpl in D. inversion D; subst. split; [assumption|]. simpl.
  destruct O as [O|(l & b & w & O & L)]; [discriminate|]. destruct l as [|m l]; simpl in O; injection O as -> ->; [now left|].
  right. now exists l, b, w.
Qed.
Lemma find_last {A} (l : fnodes A) a v : ~ In a (map fst l) -> find (fun p => fst p =? a) (l ++ [(a, v)]) = Some (a, v).
Proof.
  induction l as [|[b w] r IH]; intros D; simpl; [now rewrite N.eqb_refl|]. simpl in D.
  destruct (N.eqb_spec b a) as [->|]; [tauto|]. apply IH. tauto.
Qed.
Lemma back_ok {A} (q : flq A) : flq_ok q -> flq_contents q <> [] -> flq_back q = hd_error (rev (flq_contents q)).
Proof.
  intros [D O] Z. unfold flq_contents, flq_back in *. destruct O as [E|(l & b & w & E & L)]; [now rewrite E in Z|].
  rewrite E, L in *. destruct (nodup_app_last _ _ _ D) as [_ D2]. unfold deref. rewrite find_last by exact D2.
  rewrite map_app, rev_app_distr. reflexivity.
Qed.
Lemma remove_loop_list {A} (eqb : A -> A -> bool) k l : forall prev last,
  match remove_loop eqb prev l last k with
  | Some (l', _) => remove_first eqb (map snd l) k = Some (map snd l')
  | None => remove_first eqb (map snd l) k = None
  end.
Proof.
  induction l as [|[a v] r IH]; intros prev last; simpl; [reflexivity|]. destruct (eqb k v); [reflexivity|].
  specialize (IH (Node a) last). destruct (remove_loop eqb (Node a) r last k) as [[r' l']|]; simpl; now rewrite IH.
Qed.
Lemma remove_loop_sub {A} (eqb : A -> A -> bool) k (l : fnodes A) : forall prev last l' last',
  remove_loop eqb prev l last k = Some (l', last') -> forall n, In n l' -> In n l.
Proof.
  induction l as [|[a v] r IH]; intros prev last l' last' E n I; simpl in E; [discriminate|]. destruct (eqb k v).
  - injection E as <- <-. now right.
  - destruct (remove_loop eqb (Node a) r last k) as [[r' m]|] eqn:R; [|discriminate]. injection E as <- <-.
    destruct I as [<-|I]; [now left|]. right. exact (IH _ _ _ _ R n I).
Qed.
Lemma remove_loop_nodup {A} (eqb : A -> A -> bool) k (l : fnodes A) : forall prev last l' last',
  NoDup (map fst l) -> remove_loop eqb prev l last k = Some (l', last') -> NoDup (map fst l').
Proof.
  induction l as [|[a v] r IH]; intros prev last l' last' D E; simpl in E; [discriminate|]. simpl in D. inversion D as [|? ? D1 D2]; subst.
  destruct (eqb k v).
  - injection E as <- <-. exact D2.
  - destruct (remove_loop eqb (Node a) r last k) as [[r' m]|] eqn:R; [|discriminate]. injection E as <- <-. simpl. constructor.
    + intros I. apply D1. apply in_map_iff in I. destruct I as (n & <- & I). apply in_map. exact (remove_loop_sub _ _ _ _ _ _ _ R n I).
    + exact (IH _ _ _ _ D2 R).
Qed.
(** Removal in a list whose last node is [b]: either the result is empty, with the iterator at [prev], or its last node
    is what the iterator designates. *)
Lemma remove_loop_last {A} (eqb : A -> A -> bool) k b w (l : fnodes A) : forall prev l' last',
  ~ In b (map fst l) -> remove_loop eqb prev (l ++ [(b, w)]) (Node b) k = Some (l', last') ->
  (l' = [] /\ last' = prev) \/ exists l2 c u, l' = l2 ++ [(c, u)] /\ last' = Node c.
Proof.
  induction l as [|[a v] r IH]; intros prev l' last' D E; cbn [app remove_loop] in E.
  - destruct (eqb k w); [|discriminate]. injection E as <- <-. left. split; [reflexivity|]. cbn [flit_eqb]. now rewrite N.eqb_refl.
  - simpl in D. destruct (eqb k v).
    + injection E as <- <-. right. exists r, b, w. split; [reflexivity|]. cbn [flit_eqb]. destruct (N.eqb_spec a b); [tauto|reflexivity].
    + destruct (remove_loop eqb (Node a) (r ++ [(b, w)]) (Node b) k) as [[r' m]|] eqn:R; [|discriminate]. injection E as <- <-.
      right. destruct (IH (Node a) r' m (fun H => D (or_intror H)) R) as [[-> ->]|(l2 & c & u & -> & ->)].
      * now exists [], a, v.
      * now exists ((a, v) :: l2), c, u.
Qed.
Lemma remove_ok {A} (eqb : A -> A -> bool) (q : flq A) k : flq_ok q ->
  flq_ok (fst (flq_remove eqb q k)) /\
  match remove_first eqb (flq_contents q) k with
  | Some l => snd (flq_remove eqb q k) = true /\ flq_contents (fst (flq_remove eqb q k)) = l
  | None => flq_remove eqb q k = (q, false)
  end.
Proof.
  intros [D O]. unfold flq_remove, flq_contents. pose proof (remove_loop_list eqb k (q_fl q) BeforeBegin (q_last q)) as L.
  destruct (remove_loop eqb BeforeBegin (q_fl q) (q_last q) k) as [[l' m]|] eqn:R.
  - rewrite L. simpl. split; [|auto]. split; [exact (remove_loop_nodup _ _ _ _ _ _ _ D R)|]. simpl.
    destruct O as [E|(l & b & w & E & Q)]; [rewrite E in R; discriminate|]. rewrite E, Q in R. rewrite E in D.
    destruct (nodup_app_last _ _ _ D) as [_ D2]. destruct (remove_loop_last _ _ _ _ _ _ _ _ D2 R) as [[-> _]|H]; auto.
  - rewrite L. split; [split; assumption|reflexivity].
Qed.
Lemma nodup_insert {A} (l1 l2 : list A) a : NoDup (l1 ++ l2) -> ~ In a (l1 ++ l2) -> NoDup (l1 ++ a :: l2).
Proof. intros D F. apply NoDup_Add with (a := a) (l := l1 ++ l2); [apply Add_app|auto]. Qed.
Lemma emplace_at_ok {A} (q : flq A) k a v : flq_ok q -> ~ In a (map fst (q_fl q)) -> (k < length (flq_contents q))%nat ->
  exists q', flq_emplace_at q k a v = Some q' /\ flq_ok q' /\ flq_contents q' = firstn k (flq_contents q) ++ v :: skipn k (flq_contents q).
Proof.
  intros [D O] F. unfold flq_contents, flq_emplace_at. rewrite map_length. intros K.
  destruct (Nat.leb_spec k (length (q_fl q))); [|lia]. eexists. split; [reflexivity|]. simpl. split.
  - split; simpl.
    + rewrite map_app. simpl. rewrite <- (firstn_skipn k (q_fl q)), map_app in D, F. now apply nodup_insert.
    + right. destruct O as [E|(l & b & w & E & L)]; [rewrite E in K; simpl in K; lia|].
      rewrite E in *. rewrite app_length in K. simpl in K.
      exists (firstn k l ++ (a, v) :: skipn k l), b, w. split; [|exact L].
      rewrite firstn_app, skipn_app. replace (k - length l)%nat with 0%nat by lia. simpl. rewrite app_nil_r, <- app_assoc. reflexivity.
  - rewrite map_app. simpl. now rewrite firstn_map, skipn_map.
Qed.

Lemma flq_step_sim {A} (eqb : A -> A -> bool) (q : flq A) o : flq_ok q -> (forall a, new_address o = Some a -> ~ In a (map fst (q_fl q))) ->
  match list_step eqb (flq_contents q) o with
  | Some (l, x) => exists q', flq_step eqb q o = Some (q', x) /\ flq_ok q' /\ flq_contents q' = l
  | None => True
  end.
Proof.
  intros K F. destruct o as [a v|a v| |k| | | | |k a v]; cbn [list_step flq_step].
  - destruct (push_back_ok q a v K (F a eq_refl)) as (q' & -> & B & C). eauto.
  - destruct (push_front_ok q a v K (F a eq_refl)) as (B & C). eauto.
  - pose proof (pop_ok q K) as P. destruct (flq_contents q) as [|x r]; [exact I|]. destruct P as (_ & q' & -> & B & C). eauto.
  - pose proof (remove_ok eqb q k K) as (P & Q). destruct (remove_first eqb (flq_contents q) k) as [l|].
    + destruct (flq_remove eqb q k) as [q' b]. simpl in *. destruct Q as [-> <-]. eauto.
    + rewrite Q. eauto.
  - pose proof (pop_ok q K) as P. destruct (flq_contents q) as [|x r] eqn:E; [exact I|]. destruct P as (-> & _). eauto.
  - destruct (rev (flq_contents q)) as [|x r] eqn:E; [exact I|]. rewrite (back_ok q K), E; [simpl; eauto|]. intros Z. now rewrite Z in E.
  - eexists. split; [reflexivity|]. split; [split; [constructor|now left]|reflexivity].
  - eexists. split; [unfold flq_is_empty, flq_contents; destruct (q_fl q); reflexivity|auto].
  - destruct (Nat.ltb_spec k (length (flq_contents q))); [|exact I]. destruct (emplace_at_ok q k a v K (F a eq_refl)) as (q' & -> & B & C); [assumption|]. eauto.
Qed.
Lemma flq_run_sim {A} (eqb : A -> A -> bool) ops : forall (q : flq A), flq_ok q -> allocator_ok eqb q ops ->
  match list_run eqb (flq_contents q) ops with
  | Some (l, xs) => exists q', flq_run eqb q ops = Some (q', xs) /\ flq_ok q' /\ flq_contents q' = l
  | None => True
  end.
Proof.
  induction ops as [|o r IH]; intros q K F; cbn [list_run flq_run]; [eauto|]. destruct F as [F1 F2].
  pose proof (flq_step_sim eqb q o K F1) as S. destruct (list_step eqb (flq_contents q) o) as [[l1 x]|]; [|exact I].
  destruct S as (q1 & E & K1 & C1). rewrite E in *. specialize (IH q1 K1 F2). rewrite C1 in IH.
  destruct (list_run eqb l1 r) as [[l2 xs]|]; [|exact I]. destruct IH as (q2 & -> & K2 & C2). eauto.
Qed.
Lemma init_last {A} (l : fnodes A) a v it : fold_left (fun _ n => Node (fst n)) (l ++ [(a, v)]) it = Node a.
Proof. rewrite fold_left_app. reflexivity. Qed.
Lemma flq_init_ok {A} (l : fnodes A) : NoDup (map fst l) -> flq_ok (flq_init l) /\ flq_contents (flq_init l) = map snd l.
Proof.
  intros D. destruct l as [|n l] using rev_ind; [split; [apply flq_empty_ok|reflexivity]|]. clear IHl. destruct n as [a v].
  assert (flq_init (l ++ [(a, v)]) = mkFlq (l ++ [(a, v)]) (Node a)) as ->.
  { unfold flq_init. rewrite init_last. now destruct l. }
  split; [|reflexivity]. split; [exact D|]. right. now exists l, a, v.
Qed.
