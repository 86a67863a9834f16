(** Lemmas for C19. *)
From Coq Require Import NArith ZArith List Bool Lia ZifyBool ZifyN.
From Verif Require Import Base M_CustodyId M_HashMap S_HashMap L_HashMap M_Catalog L_Catalog M_CustTimers S_CustTimers.
Import ListNotations.
Open Scope N_scope.

(** Running timers with the addresses of their nodes. *)
Definition gtimer := (N * running)%type.
Definition node_of (g : gtimer) : tnode := (fst g, (r_cid (snd g), r_exp (snd g))).
Definition at_dest (d : eid) (g : gtimer) : bool := eid_eqb (r_dest (snd g)) d.
Definition lst (m : smap eid (list tnode)) (d : eid) : list tnode := match smap_find eid_ltb m d with Some l => l | None => [] end.
Fixpoint climbing (l : list N) : Prop := match l with [] => True | x :: r => Forall (N.le x) r /\ climbing r end.
Definition exps (G : list gtimer) : list N := map (fun g => r_exp (snd g)) G.
Record tinv (timeout last : N) (t : ctimers) (G : list gtimer) : Prop := {
  t_sl : sorted eid_ltb (tm_lists t); t_si : sorted N.ltb (tm_its t);
  t_ne : forall d, smap_find eid_ltb (tm_lists t) d <> Some [];
  t_l : forall d, lst (tm_lists t) d = map node_of (filter (at_dest d) G);
  t_i : forall cid a, smap_find N.ltb (tm_its t) cid = Some a <-> exists r, In (a, r) G /\ r_cid r = cid;
  t_na : NoDup (map fst G); t_nc : NoDup (cids (map snd G));
  t_up : climbing (exps G); t_last : forall g, In g G -> r_exp (snd g) <= last + timeout;
  t_to : tm_timeout t = timeout }.

Lemma tinv_new timeout last : tinv timeout last (tm_new timeout) [].
Proof.
  constructor; try exact I; try reflexivity; try constructor; simpl; try discriminate.
  - intros (r & [] & _).
  - intros g [].
Qed.
Lemma at_dest_iff d g : at_dest d g = true <-> r_dest (snd g) = d.
Proof. unfold at_dest. destruct (eid_eqb_spec (r_dest (snd g)) d); split; congruence. Qed.
Lemma climbing_app l1 l2 : climbing (l1 ++ l2) <-> climbing l1 /\ climbing l2 /\ forall x y, In x l1 -> In y l2 -> x <= y.
Proof.
  induction l1 as [|z r IH]; cbn [app climbing].
  - split; [intros A; split; [exact I|]; split; [exact A|intros ? ? []]|tauto].
  - rewrite IH, !Forall_forall. split.
    + intros (A & B & C & D). split; [split; [intros w I; apply A; apply in_or_app; now left|exact B]|]. split; [exact C|].
      intros x y [<-|I] J; [apply A; apply in_or_app; now right|auto].
    + intros ((A & B) & C & D). split; [|split; [exact B|split; [exact C|intros x y I J; apply D; [now right|exact J]]]].
      intros w I. apply in_app_or in I. destruct I as [I|I]; [auto|]. apply D; [now left|exact I].
Qed.
Lemma put_list_spec m d l : sorted eid_ltb m -> (forall d', smap_find eid_ltb m d' <> Some []) ->
  sorted eid_ltb (put_list m d l) /\ (forall d', smap_find eid_ltb (put_list m d l) d' <> Some []) /\
  forall d', lst (put_list m d l) d' = if eid_dec d' d then l else lst m d'.
Proof.
  intros S N. unfold lst, put_list. destruct l as [|n r].
  - destruct (smap_erase_spec eid_ltb eid_dec m d eid_strict S) as [S' F]. split; [exact S'|]. split.
    + intros d'. rewrite F. destruct (eid_dec d' d); [discriminate|apply N].
    + intros d'. rewrite F. now destruct (eid_dec d' d).
  - destruct (smap_put_spec eid_ltb eid_dec m d (n :: r) eid_strict S) as [S' F]. split; [exact S'|]. split.
    + intros d'. rewrite F. destruct (eid_dec d' d); [discriminate|apply N].
    + intros d'. rewrite F. now destruct (eid_dec d' d).
Qed.
Lemma in_lst timeout last t G a r : tinv timeout last t G -> In (a, r) G -> exists l, smap_find eid_ltb (tm_lists t) (r_dest r) = Some l /\ In (node_of (a, r)) l.
Proof.
  intros V I. assert (In (node_of (a, r)) (lst (tm_lists t) (r_dest r))) as J.
  { rewrite (t_l _ _ _ _ V). apply in_map. apply filter_In. split; [exact I|]. now apply at_dest_iff. }
  unfold lst in J. destruct (smap_find eid_ltb (tm_lists t) (r_dest r)) as [l|]; [|destruct J]. eauto.
Qed.
Lemma fresh_above t d l n : In (d, l) (tm_lists t) -> In n l -> fst n < tm_fresh t.
Proof.
  unfold tm_fresh. induction (tm_lists t) as [|[d' l'] r IH]; [intros []|]. cbn [fold_right snd].
  assert (forall (L : list tnode) m, m <= fold_right (fun (n : tnode) m' => N.max (fst n + 1) m') m L) as Mono.
  { intros L m. induction L as [|x L IHL]; cbn [fold_right]; lia. }
  assert (forall (L : list tnode) m, In n L -> fst n < fold_right (fun (n : tnode) m' => N.max (fst n + 1) m') m L) as Hit.
  { intros L m. induction L as [|x L IHL]; cbn [fold_right]; [intros []|]. intros [<-|J]; [lia|]. specialize (IHL J). lia. }
  intros [E|I] J.
  - injection E as -> ->. now apply Hit.
  - specialize (IH I J). eapply N.lt_le_trans; [exact IH|]. apply Mono.
Qed.
Lemma fresh_not_in timeout last t G : tinv timeout last t G -> ~ In (tm_fresh t) (map fst G).
Proof.
  intros V I. apply in_map_iff in I. destruct I as ([a r] & E & I). cbn [fst] in E. destruct (in_lst _ _ _ _ _ _ V I) as (l & F & J).
  pose proof (fresh_above t _ _ _ (find_in _ _ _ _ F eid_strict) J) as L. cbn [node_of fst] in L. lia.
Qed.
Lemma its_in timeout last t G cid : tinv timeout last t G -> smap_find N.ltb (tm_its t) cid <> None <-> In cid (cids (map snd G)).
Proof.
  intros V. split.
  - destruct (smap_find N.ltb (tm_its t) cid) as [a|] eqn:F; [|congruence]. intros _. apply (t_i _ _ _ _ V) in F. destruct F as (r & I & <-).
    unfold cids. rewrite map_map. apply in_map_iff. now exists (a, r).
  - intros I E. unfold cids in I. rewrite map_map in I. apply in_map_iff in I. destruct I as ([a r] & Q & I). cbn [snd] in Q.
    assert (smap_find N.ltb (tm_its t) cid = Some a) by (apply (t_i _ _ _ _ V); eauto). congruence.
Qed.
Lemma nodup_last {A} (l : list A) x : NoDup l -> ~ In x l -> NoDup (l ++ [x]).
Proof. intros N I. apply NoDup_rev in N. rewrite <- (rev_involutive (l ++ [x])). apply NoDup_rev. rewrite rev_app_distr. cbn [rev app]. constructor; [now rewrite <- in_rev|exact N]. Qed.
Lemma start_spec timeout last t G d cid now : tinv timeout last t G -> last <= now ->
  (snd (tm_start t d cid now) = true <-> ~ In cid (cids (map snd G))) /\
  exists G', map snd G' = (if snd (tm_start t d cid now) then map snd G ++ [mkRun cid d (now + timeout)] else map snd G) /\
    tinv timeout now (fst (tm_start t d cid now)) G'.
Proof.
  intros V L. unfold tm_start. pose proof (its_in _ _ _ _ cid V) as II. destruct (smap_find N.ltb (tm_its t) cid) as [a|] eqn:F; cbn [fst snd].
  - split; [split; [discriminate|]; intros X; exfalso; apply X; apply II; discriminate|]. exists G. split; [reflexivity|]. destruct V. constructor; auto.
    intros g I. specialize (t_last0 g I). lia.
  - assert (~ In cid (cids (map snd G))) as NI by (rewrite <- II; congruence).
    split; [tauto|]. exists (G ++ [(tm_fresh t, mkRun cid d (now + timeout))]). split; [now rewrite map_app|].
    pose proof (fresh_not_in _ _ _ _ V) as FR.
    fold (lst (tm_lists t) d).
    replace (smap_put eid_ltb (tm_lists t) d (lst (tm_lists t) d ++ [(tm_fresh t, (cid, now + tm_timeout t))]))
      with (put_list (tm_lists t) d (lst (tm_lists t) d ++ [(tm_fresh t, (cid, now + tm_timeout t))])) by (unfold put_list; now destruct (lst (tm_lists t) d)).
    destruct (put_list_spec (tm_lists t) d (lst (tm_lists t) d ++ [(tm_fresh t, (cid, now + tm_timeout t))]) (t_sl _ _ _ _ V) (t_ne _ _ _ _ V)) as (S & NE & LS).
    destruct (smap_put_spec N.ltb N.eq_dec (tm_its t) cid (tm_fresh t) N_strict (t_si _ _ _ _ V)) as [SI FI].
    rewrite (t_to _ _ _ _ V) in *. constructor; cbn [tm_with tm_lists tm_its tm_timeout].
    + exact S.
    + exact SI.
    + exact NE.
    + intros d'. rewrite LS, filter_app, map_app. cbn [filter]. destruct (eid_dec d' d) as [->|ND].
      * replace (at_dest d (tm_fresh t, mkRun cid d (now + timeout))) with true by (symmetry; now apply at_dest_iff). cbn [map]. now rewrite (t_l _ _ _ _ V).
      * destruct (at_dest d' (tm_fresh t, mkRun cid d (now + timeout))) eqn:E; [apply at_dest_iff in E; cbn in E; congruence|]. cbn [map]. rewrite app_nil_r. apply V.
    + intros c a. rewrite FI. destruct (N.eq_dec c cid) as [->|NC].
      * split.
        -- intros E. injection E as <-. exists (mkRun cid d (now + timeout)). split; [apply in_or_app; right; now left|reflexivity].
        -- intros (r & I & E). apply in_app_or in I. destruct I as [I|[I|[]]]; [|now injection I as <- <-]. exfalso. apply NI. unfold cids. rewrite map_map. apply in_map_iff. now exists (a, r).
      * rewrite (t_i _ _ _ _ V). split; intros (r & I & E); exists r; (split; [|exact E]).
        -- apply in_or_app. now left.
        -- apply in_app_or in I. destruct I as [I|[I|[]]]; [exact I|]. injection I as <- <-. cbn in E. congruence.
    + rewrite map_app. cbn [map fst]. apply nodup_last; [apply V|exact FR].
    + rewrite map_app. unfold cids. rewrite map_app. cbn [map snd r_cid]. apply nodup_last; [apply V|exact NI].
    + unfold exps. rewrite map_app. cbn [map snd r_exp]. apply climbing_app. split; [apply V|]. split; [split; [constructor|exact I]|].
      intros x y I [<-|[]]. apply in_map_iff in I. destruct I as (g & <- & I). pose proof (t_last _ _ _ _ V g I). lia.
    + intros g I. apply in_app_or in I. destruct I as [I|[<-|[]]]; [|cbn; lia]. pose proof (t_last _ _ _ _ V g I). lia.
    + apply V.
Qed.
(** Taking one timer out. *)
Lemma take_out timeout last t G pre a r post : tinv timeout last t G -> G = pre ++ (a, r) :: post ->
  tinv timeout last (tm_with t (put_list (tm_lists t) (r_dest r) (map node_of (filter (at_dest (r_dest r)) (pre ++ post)))) (smap_erase N.ltb (tm_its t) (r_cid r))) (pre ++ post).
Proof.
  intros V E. destruct (put_list_spec (tm_lists t) (r_dest r) (map node_of (filter (at_dest (r_dest r)) (pre ++ post))) (t_sl _ _ _ _ V) (t_ne _ _ _ _ V)) as (S & NE & LS).
  destruct (smap_erase_spec N.ltb N.eq_dec (tm_its t) (r_cid r) N_strict (t_si _ _ _ _ V)) as [SI FI].
  pose proof (t_na _ _ _ _ V) as NA. pose proof (t_nc _ _ _ _ V) as NC. rewrite E in NA, NC. unfold cids in NC. rewrite map_map in NC. rewrite map_app in NA, NC. cbn [map fst snd] in NA, NC.
  assert (forall g, In g (pre ++ post) -> In g G) as Sub by (intros g I; rewrite E; apply in_or_app; apply in_app_or in I; simpl; tauto).
  constructor; cbn [tm_with tm_lists tm_its tm_timeout].
  - exact S.
  - exact SI.
  - exact NE.
  - intros d. rewrite LS. destruct (eid_dec d (r_dest r)) as [->|ND]; [reflexivity|]. rewrite (t_l _ _ _ _ V), E, !filter_app. cbn [filter].
    destruct (at_dest d (a, r)) eqn:F; [apply at_dest_iff in F; cbn in F; congruence|reflexivity].
  - intros c b. rewrite FI. destruct (N.eq_dec c (r_cid r)) as [->|NQ].
    + split; [discriminate|]. intros (r' & I & Q). exfalso. apply NoDup_remove_2 in NC. apply NC. rewrite <- Q. rewrite <- map_app.
      change (r_cid r') with ((fun x : gtimer => r_cid (snd x)) (b, r')). now apply in_map.
    + rewrite (t_i _ _ _ _ V). split; intros (r' & I & Q); exists r'; (split; [|exact Q]); [|now apply Sub].
      rewrite E in I. apply in_elt_inv in I. destruct I as [I|I]; [injection I as -> ->; congruence|exact I].
  - rewrite map_app. now apply NoDup_remove_1 in NA.
  - unfold cids. rewrite map_map, map_app. now apply NoDup_remove_1 in NC.
  - pose proof (t_up _ _ _ _ V) as U. rewrite E in U. unfold exps in *. rewrite map_app in *. cbn [map] in U. apply climbing_app in U. destruct U as (A & B & C).
    apply climbing_app. split; [exact A|]. split; [apply B|]. intros x y I J. apply C; [exact I|now right].
  - intros g I. apply V. now apply Sub.
  - apply V.
Qed.
Lemma list_erase_spec a r pre post : ~ In a (map fst pre) -> list_erase (map node_of (pre ++ (a, r) :: post)) a = Some (map node_of (pre ++ post)).
Proof.
  induction pre as [|[b r'] q IH]; intros N; cbn [app map list_erase node_of fst snd].
  - now rewrite N.eqb_refl.
  - cbn [map fst] in N. destruct (N.eqb_spec b a) as [->|]; [destruct N; now left|]. rewrite IH; [reflexivity|]. intros I. apply N. now right.
Qed.
Lemma drop_cid_split s pre x post : NoDup (cids s) -> s = pre ++ x :: post -> drop_cid (r_cid x) s = pre ++ post.
Proof.
  intros N ->. unfold cids in N. rewrite map_app in N. cbn [map] in N. apply NoDup_remove_2 in N. unfold drop_cid. rewrite filter_app. cbn [filter]. rewrite N.eqb_refl. cbn [negb].
  assert (forall l, (forall y, In y l -> r_cid y <> r_cid x) -> filter (fun r => negb (r_cid r =? r_cid x)) l = l) as K.
  { induction l as [|y l IH]; intros H; [reflexivity|]. cbn [filter]. destruct (N.eqb_spec (r_cid y) (r_cid x)) as [E|E]; [destruct (H y (or_introl eq_refl) E)|].
    cbn [negb]. rewrite IH; [reflexivity|]. intros z I. apply H. now right. }
  rewrite !K; [reflexivity| |]; intros y I E; apply N; rewrite <- E; apply in_or_app; [right|left]; now apply in_map.
Qed.
Lemma cancel_spec timeout last t G d cid : tinv timeout last t G -> (forall x, In x (map snd G) -> r_cid x = cid -> r_dest x = d) ->
  exists t' ok, tm_cancel t d cid = Some (t', ok) /\ (ok = true <-> In cid (cids (map snd G))) /\
    exists G', map snd G' = drop_cid cid (map snd G) /\ tinv timeout last t' G'.
Proof.
  intros V HD. unfold tm_cancel. pose proof (its_in _ _ _ _ cid V) as II. destruct (smap_find N.ltb (tm_its t) cid) as [a|] eqn:F.
  - apply (t_i _ _ _ _ V) in F. destruct F as (r & I & EC). assert (r_dest r = d) as ED by (apply (HD r); [change r with (snd (a, r)); now apply in_map|exact EC]).
    destruct (in_split _ _ I) as (pre & post & E). destruct (in_lst _ _ _ _ _ _ V I) as (l & FL & _). rewrite ED in FL. rewrite FL.
    assert (l = map node_of (filter (at_dest d) G)) as -> by (rewrite <- (t_l _ _ _ _ V); unfold lst; now rewrite FL).
    pose proof (t_na _ _ _ _ V) as NA. rewrite E, map_app in NA. cbn [map fst] in NA. apply NoDup_remove_2 in NA.
    rewrite E, filter_app. cbn [filter]. replace (at_dest d (a, r)) with true by (symmetry; now apply at_dest_iff).
    rewrite list_erase_spec.
    + rewrite <- filter_app, <- ED, <- EC. eexists _, true. split; [reflexivity|]. split; [split; [|tauto]; intros _; rewrite <- E, EC; apply II; discriminate|].
      exists (pre ++ post). split.
      * rewrite (drop_cid_split _ (map snd pre) r (map snd post)); [now rewrite map_app|rewrite <- E; apply V|now rewrite map_app].
      * exact (take_out _ _ _ _ _ _ _ _ V E).
    + intros J. apply NA. apply in_or_app. left. apply in_map_iff in J. destruct J as (g & <- & J). apply filter_In in J. now apply in_map.
  - assert (~ In cid (cids (map snd G))) as NI by (rewrite <- II; congruence).
    exists t, false. split; [reflexivity|]. split; [split; [discriminate|tauto]|]. exists G. split; [|exact V].
    unfold drop_cid. symmetry. clear - NI. induction (map snd G) as [|x l IH]; [reflexivity|]. cbn [cids map] in NI. cbn [filter].
    destruct (N.eqb_spec (r_cid x) cid) as [E|E]; [destruct NI; now left|]. cbn [negb]. rewrite IH; [reflexivity|]. intros I. apply NI. now right.
Qed.
(** The front of one destination's list. *)
Definition head_exp (t : ctimers) (d : eid) : option N := match smap_find eid_ltb (tm_lists t) d with Some ((_, (_, x)) :: _) => Some x | _ => None end.
Lemma head_exp_some timeout last t G d x : tinv timeout last t G -> head_exp t d = Some x ->
  exists pre a r post, G = pre ++ (a, r) :: post /\ r_dest r = d /\ r_exp r = x /\ (forall g, In g pre -> r_dest (snd g) <> d) /\
    (forall g, In g (pre ++ post) -> r_dest (snd g) = d -> x <= r_exp (snd g)) /\
    exists t', tm_pop t d = Some (t', (r_cid r, true)) /\ tinv timeout last t' (pre ++ post).
Proof.
  intros V F. unfold head_exp in F. pose proof (t_l _ _ _ _ V d) as L. unfold lst in L. unfold tm_pop.
  destruct (smap_find eid_ltb (tm_lists t) d) as [[|[a0 [c0 x0]] l]|]; try discriminate. injection F as ->.
  destruct (filter (at_dest d) G) as [|[a r] fr] eqn:FG; [discriminate|]. cbn [map node_of fst snd] in L. injection L as -> -> -> L.
  destruct (filter_head _ _ _ _ FG) as (pre & post & E & NP & FP & AD). apply at_dest_iff in AD. cbn [snd] in AD.
  assert (forall g, In g pre -> r_dest (snd g) <> d) as NP' by (intros g I Q; apply at_dest_iff in Q; rewrite (NP _ I) in Q; discriminate).
  exists pre, a, r, post. split; [exact E|]. split; [exact AD|]. split; [reflexivity|]. split; [exact NP'|]. split.
  - intros g I Q. apply in_app_or in I. destruct I as [I|I]; [destruct (NP' _ I Q)|]. pose proof (t_up _ _ _ _ V) as U. rewrite E in U. unfold exps in U. rewrite map_app in U.
    apply climbing_app in U. destruct U as (_ & [U _] & _). rewrite Forall_forall in U. apply U. change (r_exp (snd g)) with ((fun g : gtimer => r_exp (snd g)) g). now apply in_map.
  - eexists. split.
    + assert (smap_find N.ltb (tm_its t) (r_cid r) = Some a) as -> by (apply (t_i _ _ _ _ V); exists r; split; [rewrite E; apply in_elt|reflexivity]). reflexivity.
    + rewrite L, <- FP. assert (filter (at_dest d) (pre ++ post) = filter (at_dest d) post) as <- by (rewrite filter_app, (filter_none _ pre NP); reflexivity).
      rewrite <- AD. exact (take_out _ _ _ _ _ _ _ _ V E).
Qed.
Lemma head_exp_below timeout last t G g : tinv timeout last t G -> In g G -> exists x, head_exp t (r_dest (snd g)) = Some x /\ x <= r_exp (snd g).
Proof.
  intros V I. destruct g as [a r]. cbn [snd]. destruct (in_lst _ _ _ _ _ _ V I) as (l & F & J). destruct (head_exp t (r_dest r)) as [x|] eqn:H.
  - exists x. split; [reflexivity|]. destruct (head_exp_some _ _ _ _ _ _ V H) as (pre & b & r' & post & E & _ & X & _ & M & _). rewrite E in I. apply in_elt_inv in I.
    destruct I as [Q|I]; [injection Q as -> ->; lia|]. exact (M _ I eq_refl).
  - unfold head_exp in H. rewrite F in H. destruct l as [|[b [c y]] l]; [destruct J|discriminate].
Qed.
Lemma lowest_spec t ds : forall best,
  match lowest t ds best with
  | None => best = None /\ forall d, In d ds -> head_exp t d = None
  | Some (x, d) => (best = Some (x, d) \/ In d ds /\ head_exp t d = Some x) /\ (forall y e, best = Some (y, e) -> x <= y) /\
                   forall d' x', In d' ds -> head_exp t d' = Some x' -> x <= x'
  end.
Proof.
  induction ds as [|d0 r IH]; intros best; cbn [lowest].
  - destruct best as [[x d]|]; [|split; [reflexivity|intros ? []]]. split; [now left|]. split; [|intros ? ? []]. intros y e E. injection E. lia.
  - assert (head_exp t d0 = match smap_find eid_ltb (tm_lists t) d0 with Some ((_, (_, x)) :: _) => Some x | _ => None end) as H by reflexivity.
    destruct (smap_find eid_ltb (tm_lists t) d0) as [[|[a [c x0]] l]|].
    + specialize (IH best). destruct (lowest t r best) as [[x d]|].
      * destruct IH as (A & B & C). split; [destruct A as [A|[A1 A2]]; [now left|right; split; [now right|exact A2]]|]. split; [exact B|]. intros d' x' [<-|I] E; [congruence|eauto].
      * destruct IH as [A B]. split; [exact A|]. intros d [<-|I]; [exact H|auto].
    + set (b' := match best with None => Some (x0, d0) | Some (y, _) => if x0 <? y then Some (x0, d0) else best end).
      assert (exists y e, b' = Some (y, e) /\ y <= x0 /\ (b' = best \/ (y, e) = (x0, d0)) /\ forall z f, best = Some (z, f) -> y <= z) as (y & e & EB & LX & OR & LB).
      { unfold b'. destruct best as [[z f]|].
        - destruct (N.ltb_spec x0 z).
          + exists x0, d0. split; [reflexivity|]. split; [lia|]. split; [now right|]. intros z' f' E. injection E. lia.
          + exists z, f. split; [reflexivity|]. split; [lia|]. split; [now left|]. intros z' f' E. injection E. lia.
        - exists x0, d0. split; [reflexivity|]. split; [lia|]. split; [now right|]. discriminate. }
      specialize (IH b'). destruct (lowest t r b') as [[x d]|].
      * destruct IH as (A & B & C). pose proof (B _ _ EB). split; [|split].
        -- destruct A as [A|[A1 A2]]; [|right; split; [now right|exact A2]]. destruct OR as [OR|OR]; [left; congruence|]. right.
           rewrite A in EB. injection EB as <- <-. injection OR as -> ->. split; [now left|exact H].
        -- intros z f E. specialize (LB _ _ E). lia.
        -- intros d' x' [<-|I] E; [rewrite H in E; injection E as <-; lia|eauto].
      * destruct IH as [A _]. congruence.
    + specialize (IH best). destruct (lowest t r best) as [[x d]|].
      * destruct IH as (A & B & C). split; [destruct A as [A|[A1 A2]]; [now left|right; split; [now right|exact A2]]|]. split; [exact B|]. intros d' x' [<-|I] E; [congruence|eauto].
      * destruct IH as [A B]. split; [exact A|]. intros d [<-|I]; [exact H|auto].
Qed.
Lemma first_due_spec t now : sorted eid_ltb (tm_lists t) ->
  match first_due (tm_lists t) now with
  | Some d => exists x, head_exp t d = Some x /\ x <= now
  | None => forall d x, head_exp t d = Some x -> now < x
  end.
Proof.
  intros S. assert (forall m, (forall p, In p m -> In p (tm_lists t)) ->
    match first_due m now with
    | Some d => exists x, head_exp t d = Some x /\ x <= now
    | None => forall d n l, In (d, n :: l) m -> now < snd (snd n)
    end) as H.
  { induction m as [|[d l] r IH]; intros Sub; cbn [first_due]; [intros ? ? ? []|]. specialize (IH (fun p I => Sub p (or_intror I))).
    destruct l as [|[a [c x]] l].
    - destruct (first_due r now); [exact IH|]. intros d' n l' [E|I]; [discriminate|eauto].
    - destruct (N.leb_spec x now).
      + exists x. split; [|assumption]. unfold head_exp, smap_find. now rewrite (in_find _ _ _ _ eid_strict S (Sub _ (or_introl eq_refl))).
      + destruct (first_due r now); [exact IH|]. intros d' n l' [E|I]; [injection E as <- <- <-; assumption|eauto]. }
  specialize (H (tm_lists t) (fun p I => I)). destruct (first_due (tm_lists t) now); [exact H|]. intros d x F. unfold head_exp in F.
  destruct (smap_find eid_ltb (tm_lists t) d) as [[|[a [c y]] l]|] eqn:Q; try discriminate. injection F as ->. exact (H _ _ _ (find_in _ _ _ _ Q eid_strict)).
Qed.
Lemma map_split {A B} (f : A -> B) pre a post : map f (pre ++ a :: post) = map f pre ++ f a :: map f post.
Proof. now rewrite map_app. Qed.
Lemma poll_spec timeout last t G ds now : tinv timeout last t G ->
  exists t' res, tm_poll t ds now = Some (t', res) /\
    match res with
    | None => (forall x, In x (map snd G) -> In (r_dest x) ds -> now < r_exp x) /\ tinv timeout last t' G
    | Some (cid, ok) => ok = true /\ exists pre a x post, G = pre ++ (a, x) :: post /\ r_cid x = cid /\ In (r_dest x) ds /\ r_exp x <= now /\
        (forall g, In g pre -> r_dest (snd g) <> r_dest x) /\ (forall g, In g (pre ++ post) -> In (r_dest (snd g)) ds -> r_exp x <= r_exp (snd g)) /\
        tinv timeout last t' (pre ++ post)
    end.
Proof.
  intros V. unfold tm_poll. pose proof (lowest_spec t ds None) as L. destruct (lowest t ds None) as [[x d]|].
  - destruct L as ([E|[ID H]] & _ & M); [discriminate|]. destruct (N.leb_spec x now) as [LE|LT].
    + destruct (head_exp_some _ _ _ _ _ _ V H) as (pre & a & r & post & E & ED & EX & NP & MM & t' & -> & V').
      exists t', (Some (r_cid r, true)). split; [reflexivity|]. split; [reflexivity|]. exists pre, a, r, post. split; [exact E|]. split; [reflexivity|].
      split; [congruence|]. split; [lia|]. split; [intros g I; rewrite ED; auto|]. split; [|exact V'].
      intros g I J. assert (In g G) as IG by (rewrite E; apply in_or_app; apply in_app_or in I; simpl; tauto).
      destruct (head_exp_below _ _ _ _ _ V IG) as (y & Hy & Ly). specialize (M _ _ J Hy). lia.
    + exists t, None. split; [reflexivity|]. split; [|exact V]. intros r I J. apply in_map_iff in I. destruct I as (g & <- & I).
      destruct (head_exp_below _ _ _ _ _ V I) as (y & Hy & Ly). specialize (M _ _ J Hy). lia.
  - destruct L as [_ N]. exists t, None. split; [reflexivity|]. split; [|exact V]. intros r I J. apply in_map_iff in I. destruct I as (g & <- & I).
    destruct (head_exp_below _ _ _ _ _ V I) as (y & Hy & _). rewrite (N _ J) in Hy. discriminate.
Qed.
Lemma poll_any_spec timeout last t G now : tinv timeout last t G ->
  exists t' res, tm_poll_any t now = Some (t', res) /\
    match res with
    | None => (forall x, In x (map snd G) -> now < r_exp x) /\ tinv timeout last t' G
    | Some (cid, ok) => ok = true /\ exists pre a x post, G = pre ++ (a, x) :: post /\ r_cid x = cid /\ r_exp x <= now /\
        (forall g, In g pre -> r_dest (snd g) <> r_dest x) /\ tinv timeout last t' (pre ++ post)
    end.
Proof.
  intros V. unfold tm_poll_any. pose proof (first_due_spec t now (t_sl _ _ _ _ V)) as L. destruct (first_due (tm_lists t) now) as [d|].
  - destruct L as (x & H & LE). destruct (head_exp_some _ _ _ _ _ _ V H) as (pre & a & r & post & E & ED & EX & NP & _ & t' & -> & V').
    exists t', (Some (r_cid r, true)). split; [reflexivity|]. split; [reflexivity|]. exists pre, a, r, post. split; [exact E|]. split; [reflexivity|]. split; [lia|].
    split; [intros g I; rewrite ED; auto|exact V'].
  - exists t, None. split; [reflexivity|]. split; [|exact V]. intros r I. apply in_map_iff in I. destruct I as (g & <- & I).
    destruct (head_exp_below _ _ _ _ _ V I) as (y & Hy & Ly). specialize (L _ _ Hy). lia.
Qed.
Lemma count_dest_spec timeout last t G d : tinv timeout last t G -> tm_count_dest t d = N.of_nat (length (for_dest d (map snd G))).
Proof.
  intros V. unfold tm_count_dest. pose proof (t_l _ _ _ _ V d) as L. unfold lst in L.
  assert (length (for_dest d (map snd G)) = length (filter (at_dest d) G)) as ->.
  { clear. unfold for_dest. induction G as [|g r IH]; [reflexivity|]. cbn [map filter]. unfold at_dest at 1. destruct (eid_eqb (r_dest (snd g)) d); cbn [length]; congruence. }
  rewrite <- (map_length node_of), <- L. destruct (smap_find eid_ltb (tm_lists t) d); reflexivity.
Qed.
Lemma split_count (G : list gtimer) (ds : list eid) : NoDup ds ->
  length (filter (fun g => if in_dec eid_dec (r_dest (snd g)) ds then true else false) G) = fold_right (fun d s => (length (filter (at_dest d) G) + s)%nat) O ds.
Proof.
  induction ds as [|d r IH]; intros N; cbn [fold_right].
  - rewrite filter_none; [reflexivity|]. intros w _. reflexivity.
  - inversion N as [|? ? N1 N2]; subst. rewrite <- (IH N2). clear IH. induction G as [|g G IH]; [reflexivity|]. cbn [filter].
    pose proof (at_dest_iff d g) as A. destruct (at_dest d g), (in_dec eid_dec (r_dest (snd g)) (d :: r)) as [I|I], (in_dec eid_dec (r_dest (snd g)) r) as [J|J];
      cbn [length]; try lia; exfalso.
    + apply N1. now rewrite <- (proj1 A eq_refl).
    + apply I. now right.
    + apply I. left. symmetry. now apply A.
    + destruct I as [E|I]; [|auto]. symmetry in E. apply A in E. discriminate.
    + apply I. now right.
Qed.
Lemma count_spec timeout last t G : tinv timeout last t G -> tm_count t = N.of_nat (length G).
Proof.
  intros V. pose proof (split_count G (map fst (tm_lists t)) (sorted_nodup _ _ eid_strict (t_sl _ _ _ _ V))) as C.
  assert (filter (fun g : gtimer => if in_dec eid_dec (r_dest (snd g)) (map fst (tm_lists t)) then true else false) G = G) as E.
  { assert (forall L, (forall g, In g L -> In g G) -> filter (fun g : gtimer => if in_dec eid_dec (r_dest (snd g)) (map fst (tm_lists t)) then true else false) L = L) as K; [|now apply K].
    induction L as [|g L IH]; intros S; [reflexivity|]. cbn [filter]. destruct (in_dec eid_dec (r_dest (snd g)) (map fst (tm_lists t))) as [I|I].
    - f_equal. apply IH. intros x J. apply S. now right.
    - exfalso. apply I. destruct g as [a r]. destruct (in_lst _ _ _ _ _ _ V (S (a, r) (or_introl eq_refl))) as (l & F & _).
      change (r_dest (snd (a, r))) with (fst (r_dest r, l)). apply in_map. exact (find_in _ _ _ _ F eid_strict). }
  rewrite <- (eq_trans (eq_sym C) (f_equal (@length _) E)). unfold tm_count.
  assert (forall m, (forall p, In p m -> In p (tm_lists t)) -> fold_right (fun (p : eid * list tnode) s => N.of_nat (length (snd p)) + s) 0 m =
    N.of_nat (fold_right (fun d s => (length (filter (at_dest d) G) + s)%nat) O (map fst m))) as K; [|now apply K].
  induction m as [|[d l] m IH]; intros S; [reflexivity|]. cbn [fold_right map fst snd]. rewrite IH by (intros p I; apply S; now right).
  pose proof (in_find _ _ _ _ eid_strict (t_sl _ _ _ _ V) (S _ (or_introl eq_refl))) as F. pose proof (t_l _ _ _ _ V d) as L. unfold lst, smap_find in L. rewrite F in L.
  rewrite L, map_length. lia.
Qed.
Lemma cancel_elsewhere timeout last t G d cid : tinv timeout last t G -> (forall x, In x (map snd G) -> r_dest x <> d) ->
  tm_cancel t d cid = Some (t, false).
Proof.
  intros V H. unfold tm_cancel. destruct (smap_find N.ltb (tm_its t) cid); [|reflexivity].
  pose proof (t_l _ _ _ _ V d) as L. pose proof (t_ne _ _ _ _ V d) as NE. unfold lst in L.
  assert (E : filter (at_dest d) G = []).
  { destruct (filter (at_dest d) G) as [|g r] eqn:F; [reflexivity|]. exfalso.
    assert (I : In g (filter (at_dest d) G)) by (rewrite F; now left). apply filter_In in I. destruct I as (I1 & I2).
    apply at_dest_iff in I2. apply (H (snd g)); [now apply in_map|exact I2]. }
  rewrite E in L. destruct (smap_find eid_ltb (tm_lists t) d) as [[|x l]|]; [now elim NE|discriminate|reflexivity].
Qed.
Lemma timer_history_inv timeout ops : forall last t G, tinv timeout last t G -> timer_history timeout last t (map snd G) ops.
Proof.
  induction ops as [|o r IH]; intros last t G V; cbn [timer_history]; [exact I|]. destruct o as [d cid now|d cid|d cid|ds now|now| |d].
  - intros L. destruct (start_spec _ _ _ _ d cid now V L) as (A & G' & E & V'). split; [exact A|]. rewrite <- E. now apply IH.
  - intros H. destruct (cancel_spec _ _ _ _ _ _ V H) as (t' & ok & E & A & G' & EG & V'). exists t', ok. split; [exact E|]. split; [exact A|]. rewrite <- EG. now apply IH.
  - intros H. split; [|now apply IH]. exact (cancel_elsewhere _ _ _ _ _ _ V H).
  - destruct (poll_spec _ _ _ _ ds now V) as (t' & res & E & A). exists t', res. split; [exact E|]. destruct res as [[cid ok]|].
    + destruct A as (O & pre & a & x & post & EG & C & D & X & NP & M & V'). split; [exact O|]. exists (map snd pre), x, (map snd post).
      split; [rewrite EG; apply map_split|]. split; [exact C|]. split; [exact D|]. split; [exact X|]. rewrite <- map_app. split; [|split; [|now apply IH]].
      * intros y I. apply in_map_iff in I. destruct I as (g & <- & I). auto.
      * intros y I. apply in_map_iff in I. destruct I as (g & <- & I). auto.
    + split; [apply A|]. apply IH. apply A.
  - destruct (poll_any_spec _ _ _ _ now V) as (t' & res & E & A). exists t', res. split; [exact E|]. destruct res as [[cid ok]|].
    + destruct A as (O & pre & a & x & post & EG & C & X & NP & V'). split; [exact O|]. exists (map snd pre), x, (map snd post).
      split; [rewrite EG; apply map_split|]. split; [exact C|]. split; [exact X|]. rewrite <- map_app. split; [|now apply IH].
      intros y I. apply in_map_iff in I. destruct I as (g & <- & I). auto.
    + split; [apply A|]. apply IH. apply A.
  - split; [rewrite map_length; exact (count_spec _ _ _ _ V)|now apply IH].
  - split; [exact (count_dest_spec _ _ _ _ _ V)|now apply IH].
Qed.
