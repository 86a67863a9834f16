(** Lemmas for C54. *)
From Coq Require Import PeanoNat NArith List Bool Lia Permutation ZifyBool ZifyN.
From Verif Require Import Base M_CustodyId.
From Verif Require Import M_StorageIf(bundle, b_tag, b_size, emsg, mkE, e_b, e_cut, e_cid, e_idx, e_hop, e_dest, e_custody,
  eerror, NoError, LinkDown, NoOutduct, eack, mkEA, x_cut, x_cid, x_idx, x_hop, x_dest, x_delete, x_err, mkOutduct, t_idx, t_max, t_maxb, t_hop, t_eids, t_nodes, mem, set_nth).
From Verif Require Import M_Egress S_Egress.
Import ListNotations.
Open Scope N_scope.

(** ** Runs *)
Lemma runs_snoc : forall l s s1 e s2, runs l s s1 -> step e s1 = Some s2 -> runs (l ++ [e]) s s2.
Proof. intros l s s1 e s2 R. induction R; intro St; cbn [app]; econstructor; eauto. constructor. Qed.
Lemma reach_start : forall max cfg s, init max cfg = Some s -> reach max cfg [] s.
Proof. intros. exists s. split; [assumption|constructor]. Qed.
Lemma reach_snoc : forall max cfg tr s e s', reach max cfg tr s -> step e s = Some s' -> reach max cfg (tr ++ [e]) s'.
Proof. intros max cfg tr s e s' (s0 & I & R) St. exists s0. split; [assumption|]. eapply runs_snoc; eauto. Qed.
Lemma runs_split : forall l1 l2 s s2, runs (l1 ++ l2) s s2 -> exists s1, runs l1 s s1 /\ runs l2 s1 s2.
Proof.
  induction l1 as [|e l1 IH]; intros l2 s s2 R.
  - exists s. split; [constructor|exact R].
  - cbn [app] in R. inversion R; subst. destruct (IH _ _ _ H4) as (s3 & A & B). exists s3. split; [econstructor; eauto|assumption].
Qed.
Lemma reach_unsnoc : forall max cfg tr e s', reach max cfg (tr ++ [e]) s' -> exists s, reach max cfg tr s /\ step e s = Some s'.
Proof.
  intros max cfg tr e s' (s0 & I & R). apply runs_split in R. destruct R as (s1 & A & B). exists s1. split; [exists s0; auto|].
  inversion B; subst. inversion H4; subst. assumption.
Qed.
Lemma reach_ind' : forall max cfg (P : list event -> state -> Prop),
  (forall s, init max cfg = Some s -> P [] s) ->
  (forall tr s e s', reach max cfg tr s -> P tr s -> step e s = Some s' -> P (tr ++ [e]) s') ->
  forall tr s, reach max cfg tr s -> P tr s.
Proof.
  intros max cfg P A B tr. induction tr as [|e tr IH] using rev_ind; intros s R.
  - destruct R as (s0 & I & R). inversion R; subst. auto.
  - apply reach_unsnoc in R. destruct R as (s1 & R & St). eauto.
Qed.
Lemma fair_reach : forall max cfg tr s h d, fair_run max cfg tr s h d -> reach max cfg tr s.
Proof. induction 1; [apply reach_start|eapply reach_snoc]; eauto. Qed.

(** ** What a step leaves alone *)
Lemma set_nth_length : forall A n (x : A) l, length (set_nth n x l) = length l.
Proof. intros A n x l. revert n. induction l as [|y l IH]; intros [|n]; cbn [set_nth length]; auto. Qed.
Lemma set_nth_same : forall A n (x : A) l, (n < length l)%nat -> nth_error (set_nth n x l) n = Some x.
Proof. intros A n x l. revert n. induction l as [|y l IH]; intros [|n] L; cbn [set_nth length nth_error] in *; try lia; auto. apply IH. lia. Qed.
Lemma set_nth_other : forall A n k (x : A) l, n <> k -> nth_error (set_nth n x l) k = nth_error l k.
Proof. intros A n k x l. revert n k. induction l as [|y l IH]; intros [|n] [|k] L; cbn [set_nth nth_error]; auto; try congruence. Qed.
Lemma out_at_nth : forall i l o, out_at i l = Some o <-> nth_error l (N.to_nat i) = Some o.
Proof.
  intros i l o. unfold out_at. destruct (i <? N.of_nat (length l)) eqn:E.
  - tauto.
  - split; [discriminate|]. intro H. assert (N.to_nat i < length l)%nat by (apply nth_error_Some; congruence). lia.
Qed.

Definition same_but_links (s s1 : state) : Prop :=
  g_route s1 = g_route s /\ g_opp s1 = g_opp s /\ g_storage s1 = g_storage s /\ g_ingress s1 = g_ingress s /\ g_bundles s1 = g_bundles s /\
  g_router s1 = g_router s /\ g_lost s1 = g_lost s /\ g_kept s1 = g_kept s /\ g_gone s1 = g_gone s /\ g_asked s1 = g_asked s.
Lemma link_changed_same : forall down i s, same_but_links s (link_changed down i s).
Proof. intros. unfold link_changed, same_but_links. destruct (out_at i (g_out s)); cbn; repeat split. Qed.
Lemma set_sched_same : forall up i r s, same_but_links s (set_sched up i r s) /\ g_pair (set_sched up i r s) = g_pair s.
Proof. intros. unfold set_sched, same_but_links. destruct (out_at i (g_out s)); cbn; repeat split. Qed.

(** Configuration: hops and limits never change. *)
Definition fixed (o : outduct) : N * N * N := (o_hop o, o_max o, o_maxb o).
Lemma map_set_nth_fixed : forall (f : outduct -> N * N * N) l n o x, nth_error l n = Some o -> f x = f o -> map f (set_nth n x l) = map f l.
Proof.
  intros f. induction l as [|y l IH]; intros [|n] o x E F; cbn [nth_error set_nth map] in *; try discriminate.
  - injection E as ->. congruence.
  - erewrite IH; eauto.
Qed.
Lemma link_changed_fixed : forall down i s, map fixed (g_out (link_changed down i s)) = map fixed (g_out s).
Proof.
  intros. unfold link_changed. destruct (out_at i (g_out s)) as [o|] eqn:E; [|reflexivity]. cbn [g_out with_out].
  apply out_at_nth in E. eapply map_set_nth_fixed; eauto.
Qed.
Lemma set_sched_fixed : forall up i r s, map fixed (g_out (set_sched up i r s)) = map fixed (g_out s).
Proof.
  intros. unfold set_sched. destruct (out_at i (g_out s)) as [o|] eqn:E; [|reflexivity]. cbn [g_out with_out].
  apply out_at_nth in E. eapply map_set_nth_fixed; eauto.
Qed.
Definition cfixed (c : ocfg) : N * N * N := (f_hop c, f_max c, f_maxb c).
Lemma find_hop_fixed : forall hop l n cfg, map fixed l = map cfixed cfg -> find_hop hop n l = position hop n cfg.
Proof.
  intros hop. induction l as [|o l IH]; intros n [|c cfg] E; cbn in *; try discriminate; auto.
  injection E as E1 E2 E3 E4. rewrite E1. destruct (f_hop c =? hop); auto.
Qed.

(** ** What each step does *)
(** on_failed as one of three outcomes. *)
Lemma on_failed_cases : forall i b u told ok1 ok2 s s', on_failed i b u told ok1 ok2 s = Some s' ->
  let s1 := match i with Some i => link_changed true i s | None => s end in
  let er := match i with Some _ => LinkDown | None => NoOutduct end in
  (told = true /\ s' = let_go false b s1) \/
  (told = false /\ exists src a, u = Some (src, a) /\ match src with
    | Ingress => let s2 := if ok1 then send_ingress (IAck (set_err er a)) s1 else lose (Ingress, set_err er a) s1 in
                 s' = if ok2 then send_storage (SFailed 0 b) s2 else let_go false b s2
    | Storage => s' = if ok1 then send_storage (SAck (set_err er a) (if x_cut a then Some b else None)) (if x_cut a then s1 else let_go true b s1)
                 else lose (Storage, set_err er a) (let_go (negb (x_cut a)) b s1)
    end).
Proof.
  intros i b u told ok1 ok2 s s' H. unfold on_failed in H. destruct told.
  - left. injection H as <-. auto.
  - right. split; [reflexivity|]. destruct u as [[src a]|]; [|discriminate]. exists src, a. split; [reflexivity|].
    destruct src; injection H as <-; reflexivity.
Qed.

Lemma on_route_cases : forall d hop s, on_route d hop s =
  if hop =? U64MAX then resend (with_route (erase_route d (g_route s)) s)
  else match find_hop hop 0 (g_out s) with Some i => resend (with_route (set_route d i (g_route s)) s) | None => s end.
Proof. intros. unfold on_route, reroute. destruct (hop =? U64MAX); [reflexivity|]. destruct (find_hop hop 0 (g_out s)); reflexivity. Qed.

Definition frame (s s1 : state) : Prop := g_route s1 = g_route s /\ g_opp s1 = g_opp s /\ map fixed (g_out s1) = map fixed (g_out s).
Lemma frame_link : forall down i s, frame s (link_changed down i s).
Proof. intros. destruct (link_changed_same down i s) as (A & B & _). unfold frame. rewrite A, B. auto using link_changed_fixed. Qed.
Lemma frame_sched : forall up i r s, frame s (set_sched up i r s).
Proof. intros. destruct (set_sched_same up i r s) as ((A & B & _) & _). unfold frame. rewrite A, B. auto using set_sched_fixed. Qed.
Lemma on_failed_frame : forall i b u told ok1 ok2 s s', on_failed i b u told ok1 ok2 s = Some s' -> frame s s'.
Proof.
  intros i b u told ok1 ok2 s s' H. apply on_failed_cases in H.
  assert (F : frame s (match i with Some i => link_changed true i s | None => s end)).
  { destruct i; [apply frame_link|]. repeat split. }
  cbv zeta in H. destruct H as [(_ & ->)|(_ & src & a & _ & H)]; [exact F|].
  destruct src; subst s'; destruct ok1, ok2, (x_cut a); exact F.
Qed.
Lemma on_bundle_frame : forall src m f ok1 ok2 s s', on_bundle src m f ok1 ok2 s = Some s' -> frame s s'.
Proof.
  intros src m f ok1 ok2 s s' H. unfold on_bundle in H. cbv zeta in H.
  match type of H with (if ?c then _ else _) = _ => destruct c end.
  - injection H as <-. destruct ok1, ok2, (e_cut m); repeat split.
  - destruct (find_route (fst (e_dest m)) (g_route s)) as [i|].
    + destruct f as [|intact].
      * injection H as <-. repeat split.
      * destruct (b_size (e_b m) =? 0); [injection H as <-; repeat split|].
        apply on_failed_frame in H. exact H.
    + apply on_failed_frame in H. exact H.
Qed.
Lemma on_success_frame : forall i u ok s, frame s (on_success i u ok s).
Proof.
  intros i u ok s. unfold on_success. destruct u as [[src a]|]; [|repeat split].
  pose proof (frame_link false i s) as F. destruct ok, src; exact F.
Qed.
Lemma step_frame : forall e s s', step e s = Some s' ->
  g_opp s' = match e with
             | AddLink n => if mem n (g_opp s) then g_opp s else n :: g_opp s
             | RemoveLink n => filter (fun x => negb (x =? n)) (g_opp s)
             | _ => g_opp s
             end /\
  g_route s' = match e with
               | Route d hop => if hop =? U64MAX then erase_route d (g_route s)
                                else match find_hop hop 0 (g_out s) with Some i => set_route d i (g_route s) | None => g_route s end
               | _ => g_route s
               end /\
  map fixed (g_out s') = map fixed (g_out s).
Proof.
  intros e s s' H. destruct e; cbn [step] in H.
  - apply on_bundle_frame in H. destruct H as (A & B & C). auto.
  - injection H as <-. auto.
  - injection H as <-. auto.
  - injection H as <-. auto.
  - injection H as <-. rewrite on_route_cases. destruct (hop =? U64MAX); [auto|]. destruct (find_hop hop 0 (g_out s)); auto.
  - injection H as <-. destruct (g_pair s) as [|[up i] r]; auto.
  - injection H as <-. destruct (frame_sched up i (if up then Some rate else None) s) as (A & B & C). auto.
  - injection H as <-. destruct (out_at i (g_out s)) as [o|]; [|auto]. destruct (frame_sched (o_sched o) i (Some rate) s) as (A & B & C). auto.
  - injection H as <-. destruct (on_success_frame i u ok s) as (A & B & C). auto.
  - apply on_failed_frame in H. destruct H as (A & B & C). auto.
  - injection H as <-. destruct (frame_link down i s) as (A & B & C). auto.
  - injection H as <-. destruct ok; auto.
Qed.

(** ** Starting *)
Lemma find_hop_none : forall hop l n, find_hop hop n l = None -> ~ In hop (map o_hop l).
Proof.
  intros hop. induction l as [|o l IH]; intros n H I; cbn in *; [tauto|]. destruct (o_hop o =? hop) eqn:E; [discriminate|].
  destruct I as [I|I]; [lia|]. exact (IH _ H I).
Qed.
Definition fresh (c : ocfg) : outduct := mkO (f_hop c) (f_max c) (f_maxb c) false (if connects (f_layer c) then Some false else None) None.
Lemma set_nth_end : forall A (l : list A) x y, set_nth (length l) y (l ++ [x]) = l ++ [y].
Proof. intros A l x y. induction l as [|z l IH]; cbn; [reflexivity|]. rewrite IH. reflexivity. Qed.
Lemma load_shape : forall max cfg s s', load max cfg s = Some s' ->
  g_out s' = g_out s ++ map fresh cfg /\
  g_pair s' = g_pair s ++ flat_map (fun p => if connects (f_layer (snd p)) then [(false, fst p)] else [])
                (combine (map N.of_nat (seq (length (g_out s)) (length cfg))) cfg) /\
  g_route s' = g_route s /\ g_opp s' = g_opp s /\ g_storage s' = g_storage s /\ g_ingress s' = g_ingress s /\ g_bundles s' = g_bundles s /\
  g_router s' = g_router s /\ g_lost s' = g_lost s /\ g_kept s' = g_kept s /\ g_gone s' = g_gone s /\ g_asked s' = g_asked s.
Proof.
  intros max cfg. induction cfg as [|c cfg IH]; intros s s' H.
  - injection H as <-. cbn. rewrite !app_nil_r. repeat split.
  - cbn [load] in H. destruct (f_maxb c <? (max * 2) mod W64); [discriminate|].
    destruct (match f_layer c with Unknown => true | _ => false end); [discriminate|].
    destruct (find_hop (f_hop c) 0 (g_out s)); [discriminate|]. cbv zeta in H. apply IH in H. clear IH.
    set (s1 := with_out (g_out s ++ [mkO (f_hop c) (f_max c) (f_maxb c) false None None]) (g_pair s) s) in H.
    assert (L : g_out (if connects (f_layer c) then link_changed true (N.of_nat (length (g_out s))) s1 else s1) = g_out s ++ [fresh c] /\
                g_pair (if connects (f_layer c) then link_changed true (N.of_nat (length (g_out s))) s1 else s1) =
                g_pair s ++ if connects (f_layer c) then [(false, N.of_nat (length (g_out s)))] else []).
    { unfold fresh. destruct (connects (f_layer c)).
      - unfold link_changed. assert (E : out_at (N.of_nat (length (g_out s))) (g_out s1) = Some (mkO (f_hop c) (f_max c) (f_maxb c) false None None)).
        { apply out_at_nth. rewrite Nnat.Nat2N.id. cbn [g_out s1 with_out]. rewrite nth_error_app2 by lia. rewrite Nat.sub_diag. reflexivity. }
        rewrite E. cbn [g_out g_pair with_out s1 o_phys o_hop o_max o_maxb o_sched o_rate negb]. rewrite Nnat.Nat2N.id, set_nth_end. auto.
      - cbn. rewrite app_nil_r. auto. }
    destruct L as (L1 & L2). rewrite L1, L2 in H. destruct H as (H1 & H2 & H3). split; [|split].
    + rewrite H1, <- app_assoc. reflexivity.
    + rewrite H2. rewrite app_length. cbn [length map seq combine flat_map fst snd]. rewrite <- app_assoc.
      replace (length (g_out s) + 1)%nat with (S (length (g_out s))) by lia. reflexivity.
    + destruct (connects (f_layer c)); [|exact H3].
      destruct (link_changed_same true (N.of_nat (length (g_out s))) s1) as (A1&A2&A3&A4&A5&A6&A7&A8&A9&A10).
      rewrite A1, A2, A3, A4, A5, A6, A7, A8, A9, A10 in H3. exact H3.
Qed.
Lemma init_shape : forall max cfg s, init max cfg = Some s ->
  let t := caps 0 [] (map fresh cfg) in
  s = mkS (map fresh cfg) [] []
        (flat_map (fun p => if connects (f_layer (snd p)) then [(false, fst p)] else []) (combine (map N.of_nat (seq 0 (length cfg))) cfg))
        [STelem t] [ITelem t] [] [RTelem t] [] [] [] [].
Proof.
  intros max cfg s H. unfold init in H. destruct (load max cfg nothing) as [s0|] eqn:E; [|discriminate]. injection H as <-.
  apply load_shape in E. cbn [nothing g_out g_pair g_route g_opp g_storage g_ingress g_bundles g_router g_lost g_kept g_gone g_asked app length] in E.
  destruct s0 as [o r op p st i b ro lo k go a]. cbn in E. destruct E as (->&->&->&->&->&->&->&->&->&->&->&->). reflexivity.
Qed.
Lemma fresh_fixed : forall cfg, map fixed (map fresh cfg) = map cfixed cfg.
Proof. intros. rewrite map_map. reflexivity. Qed.

(** ** Ways *)
Lemma mem_cons : forall n k l, mem n (k :: l) = ((n =? k) || mem n l)%bool.
Proof. reflexivity. Qed.
Lemma mem_filter : forall n k l, mem n (filter (fun x => negb (x =? k)) l) = (if k =? n then false else mem n l).
Proof.
  intros n k. induction l as [|x l IH]; cbn [filter].
  - destruct (k =? n); reflexivity.
  - destruct (x =? k) eqn:E; cbn [negb].
    + rewrite IH, mem_cons. destruct (k =? n) eqn:K; [reflexivity|]. replace (n =? x) with false by lia. reflexivity.
    + rewrite !mem_cons, IH. destruct (k =? n) eqn:K; [|reflexivity]. replace (n =? x) with false by lia. reflexivity.
Qed.
Fixpoint sorted (l : list (N * N)) : Prop := match l with [] => True | (k, _) :: r => Forall (fun e => k < fst e) r /\ sorted r end.
Lemma sorted_erase : forall d l, sorted l -> sorted (erase_route d l).
Proof.
  intros d. induction l as [|[k i] l IH]; intro S; [exact I|]. destruct S as (A & B). cbn [erase_route filter fst]. fold (erase_route d l).
  destruct (k =? d); cbn [negb]; [auto|]. split; [|auto].
  apply Forall_forall. intros x Hx. apply filter_In in Hx. rewrite Forall_forall in A. apply A. tauto.
Qed.
Lemma in_set_route : forall d i l x, In x (set_route d i l) -> x = (d, i) \/ In x l.
Proof.
  intros d i. induction l as [|[k j] l IH]; intros x H; cbn [set_route] in H.
  - destruct H as [H|[]]; auto.
  - destruct (d <? k); [destruct H; auto|]. destruct (k =? d); [destruct H; [auto|right; right; auto]|]. destruct H as [H|H]; [right; left; auto|].
    destruct (IH _ H); [auto|right; right; auto].
Qed.
Lemma sorted_set : forall d i l, sorted l -> sorted (set_route d i l).
Proof.
  intros d i. induction l as [|[k j] l IH]; intro S; cbn [set_route].
  - split; [constructor|exact I].
  - destruct S as (A & B). rewrite Forall_forall in A. destruct (d <? k) eqn:E.
    + split; [|split; [apply Forall_forall; exact A|exact B]]. constructor; [cbn; lia|]. apply Forall_forall. intros x Hx. apply A in Hx. lia.
    + destruct (k =? d) eqn:K.
      * split; [|exact B]. apply Forall_forall. intros x Hx. apply A in Hx. lia.
      * split; [|auto]. apply Forall_forall. intros x Hx. apply in_set_route in Hx. destruct Hx as [->|Hx]; [cbn; lia|auto].
Qed.
Lemma find_erase : forall d k l, find_route k (erase_route d l) = (if d =? k then None else find_route k l).
Proof.
  intros d k. induction l as [|[a i] l IH]; cbn [erase_route filter fst find_route].
  - destruct (d =? k); reflexivity.
  - fold (erase_route d l). destruct (a =? d) eqn:E; cbn [negb].
    + rewrite IH. destruct (d =? k) eqn:K; [reflexivity|]. replace (a =? k) with false by lia. reflexivity.
    + cbn [find_route]. rewrite IH. destruct (a =? k) eqn:AK; [|reflexivity]. replace (d =? k) with false by lia. reflexivity.
Qed.
Lemma find_set : forall d i k l, find_route k (set_route d i l) = (if d =? k then Some i else find_route k l).
Proof.
  intros d i k. induction l as [|[a j] l IH]; cbn [set_route find_route]; [reflexivity|].
  destruct (d <? a) eqn:E; [reflexivity|]. destruct (a =? d) eqn:K; cbn [find_route].
  - destruct (d =? k) eqn:DK; [reflexivity|]. replace (a =? k) with false by lia. reflexivity.
  - rewrite IH. destruct (a =? k) eqn:AK; [|reflexivity]. replace (d =? k) with false by lia. reflexivity.
Qed.
Lemma find_in : forall d i l, sorted l -> (In (d, i) l <-> find_route d l = Some i).
Proof.
  intros d i. induction l as [|[k j] l IH]; intro S; cbn [find_route In].
  - split; [tauto|discriminate].
  - destruct S as (A & B). rewrite Forall_forall in A. destruct (k =? d) eqn:E.
    + split.
      * intros [H|H]; [injection H as -> ->; reflexivity|]. apply A in H. cbn in H. lia.
      * intro H. injection H as ->. left. f_equal. lia.
    + rewrite <- IH by assumption. split; [|tauto]. intros [H|H]; [injection H as -> ->; lia|assumption].
Qed.
Lemma sorted_nodup : forall l, sorted l -> NoDup (map fst l).
Proof.
  induction l as [|[k j] l IH]; intro S; cbn [map fst]; constructor.
  - intro H. apply in_map_iff in H. destruct H as (x & E & Hx). destruct S as (A & _). rewrite Forall_forall in A. apply A in Hx. lia.
  - destruct S. auto.
Qed.
Lemma linked_snoc : forall n tr e, linked n (tr ++ [e]) =
  match e with AddLink k => if k =? n then true else linked n tr | RemoveLink k => if k =? n then false else linked n tr | _ => linked n tr end.
Proof. intros. unfold linked. rewrite fold_left_app. destruct e; reflexivity. Qed.
Lemma routed_snoc : forall cfg d tr e, routed cfg d (tr ++ [e]) =
  match e with
  | Route d' hop => if d' =? d then (if hop =? U64MAX then None else match position hop 0 cfg with Some i => Some i | None => routed cfg d tr end) else routed cfg d tr
  | _ => routed cfg d tr
  end.
Proof. intros. unfold routed. rewrite fold_left_app. destruct e; reflexivity. Qed.

Record tables (cfg : list ocfg) (tr : list event) (s : state) : Prop := {
  tb_fixed : map fixed (g_out s) = map cfixed cfg;
  tb_opp : forall n, mem n (g_opp s) = linked n tr;
  tb_sorted : sorted (g_route s);
  tb_route : forall d, find_route d (g_route s) = routed cfg d tr }.
Lemma tables_reach : forall max cfg tr s, reach max cfg tr s -> tables cfg tr s.
Proof.
  intros max cfg tr s R. induction R as [s I|tr s e s' R T St] using reach_ind'.
  - apply init_shape in I. subst s. split; cbn [g_out g_opp g_route].
    + apply fresh_fixed.
    + reflexivity.
    + exact Logic.I.
    + reflexivity.
  - destruct T as [T1 T2 T3 T4]. apply step_frame in St. destruct St as (A & B & C). split.
    + congruence.
    + intro n. rewrite A, linked_snoc. destruct e; try apply T2.
      * destruct (mem n0 (g_opp s)) eqn:M.
        -- destruct (n0 =? n) eqn:E; [|apply T2]. apply N.eqb_eq in E. subst n0. exact M.
        -- rewrite mem_cons, T2. destruct (n0 =? n) eqn:E.
           ++ replace (n =? n0) with true by lia. reflexivity.
           ++ replace (n =? n0) with false by lia. reflexivity.
      * rewrite mem_filter, T2. reflexivity.
    + rewrite B. destruct e; try exact T3. destruct (hop =? U64MAX); [apply sorted_erase, T3|].
      destruct (find_hop hop 0 (g_out s)); [apply sorted_set, T3|exact T3].
    + intro n. rewrite B, routed_snoc. destruct e; try apply T4. destruct (hop =? U64MAX).
      * rewrite find_erase, T4. reflexivity.
      * rewrite (find_hop_fixed hop _ 0 cfg T1). destruct (position hop 0 cfg) as [i|]; [|destruct (d =? n); apply T4].
        rewrite find_set, T4. reflexivity.
Qed.
Lemma on_bundle_way : forall max cfg tr s src m f ok1 ok2, reach max cfg tr s ->
  on_bundle src m f ok1 ok2 s =
  match way_of cfg tr src m with
  | ToIngress => Some (if ok1 then let s1 := send_storage (SAck (answer m) None) s in if ok2 then send_bundle false (e_b m) s1 else let_go false (e_b m) s1
                       else lose (Storage, answer m) (let_go (negb (e_cut m)) (e_b m) s))
  | ToOutduct i =>
    match f with
    | Took => Some (ask i (e_b m) s)
    | Left intact => if b_size (e_b m) =? 0 then Some (ask i (e_b m) s)
                     else on_failed (Some i) (e_b m) (if intact then Some (src, answer m) else None) false ok1 ok2 (ask i (e_b m) s)
    end
  | Nowhere => on_failed None (e_b m) (Some (src, answer m)) false ok1 ok2 s
  end.
Proof.
  intros max cfg tr s src m f ok1 ok2 R. apply tables_reach in R. destruct R as [_ T2 _ T4]. unfold on_bundle, way_of. cbv zeta.
  rewrite T2. rewrite T4. destruct src.
  - destruct (routed cfg (fst (e_dest m)) tr); reflexivity.
  - destruct (linked (fst (e_dest m)) tr || (e_idx m =? U64MAX)); [reflexivity|]. destruct (routed cfg (fst (e_dest m)) tr); reflexivity.
Qed.
Lemma way_storage : forall cfg tr src m, way_of cfg tr src m = ToIngress -> src = Storage.
Proof. intros cfg tr [|] m H; [|reflexivity]. unfold way_of in H. destruct (routed cfg (fst (e_dest m)) tr); discriminate. Qed.

(** ** Ledgers *)
Lemma bundle_dec : forall a b : bundle, {a = b} + {a <> b}.
Proof. repeat decide equality. Qed.
Lemma user_dec : forall a b : user, {a = b} + {a <> b}.
Proof. repeat decide equality. Qed.
Notation ub := (count_occ bundle_dec).
Notation uu := (count_occ user_dec).
Definition places (s : state) : list bundle := passed s ++ returned s ++ g_kept s ++ g_gone s.
Definition said (s : state) : list user := answers s ++ g_lost s.
Lemma count_one : forall A (dec : forall a b : A, {a = b} + {a <> b}) y x, count_occ dec [y] x = if dec y x then 1%nat else 0%nat.
Proof. reflexivity. Qed.
(** What moves: bundle [b] gets a place, user [u] is answered, or neither. *)
Definition places_plus (l : list bundle) (s s' : state) : Prop := forall x, ub (places s') x = (ub l x + ub (places s) x)%nat.
Definition said_plus (l : list user) (s s' : state) : Prop := forall x, uu (said s') x = (uu l x + uu (said s) x)%nat.
Ltac count := intro; unfold places, said, answers, passed, returned, send_storage, send_ingress, send_bundle, send_router, lose, let_go, ask, with_out, with_opp, with_route;
  cbn [negb g_out g_route g_opp g_pair g_storage g_ingress g_bundles g_router g_lost g_kept g_gone g_asked];
  repeat rewrite ?flat_map_app, ?map_app, ?count_occ_app; cbn [flat_map map app snd negb]; rewrite ?app_nil_r; repeat rewrite ?count_occ_app, ?count_one; cbn [count_occ]; repeat match goal with |- context [if ?c then _ else _] => destruct c end; lia.
Lemma places_same : forall s s1, same_but_links s s1 -> places s1 = places s.
Proof. intros s s1 (_&_&A&_&B&_&_&C&D&_). unfold places, passed, returned. rewrite A, B, C, D. reflexivity. Qed.
Lemma said_same : forall s s1, same_but_links s s1 -> said s1 = said s.
Proof. intros s s1 (_&_&A&B&_&_&C&_). unfold said, answers. rewrite A, B, C. reflexivity. Qed.
Definition down_if (i : option N) (s : state) : state := match i with Some i => link_changed true i s | None => s end.
Lemma down_if_same : forall i s, same_but_links s (down_if i s).
Proof. intros [i|] s; [apply link_changed_same|]. repeat split. Qed.
Lemma on_failed_ledger : forall i b src a ok1 ok2 s s', on_failed i b (Some (src, a)) false ok1 ok2 s = Some s' ->
  places_plus [b] s s' /\ said_plus [(src, set_err (match i with Some _ => LinkDown | None => NoOutduct end) a)] s s'.
Proof.
  intros i b src a ok1 ok2 s s' H. apply on_failed_cases in H. cbv zeta in H. fold (down_if i s) in H.
  pose proof (down_if_same i s) as SL. apply places_same in SL as E1. apply said_same in SL as E2. clear SL.
  unfold places_plus, said_plus. rewrite <- E1, <- E2. clear E1 E2. generalize dependent (down_if i s). intros s1 H.
  destruct H as [(X & _)|(_ & src' & a' & E & H)]; [discriminate|]. injection E as <- <-.
  set (er := match i with Some _ => LinkDown | None => NoOutduct end) in *.
  destruct src.
  - subst s'. destruct ok1, ok2; split; count.
  - subst s'. destruct ok1, (x_cut a); cbn [negb]; split; count.
Qed.
Lemma on_failed_late : forall i b u ok1 ok2 s s', on_failed (Some i) b u true ok1 ok2 s = Some s' -> places_plus [b] s s' /\ said_plus [] s s'.
Proof.
  intros i b u ok1 ok2 s s' H. unfold on_failed in H. injection H as <-.
  pose proof (link_changed_same true i s) as SL. apply places_same in SL as E1. apply said_same in SL as E2. clear SL.
  unfold places_plus, said_plus. rewrite <- E1, <- E2. split; count.
Qed.
Lemma on_success_ledger : forall i u ok s, places_plus [] s (on_success i (Some u) ok s) /\ said_plus [u] s (on_success i (Some u) ok s).
Proof.
  intros i [src a] ok s. unfold on_success.
  pose proof (link_changed_same false i s) as SL. apply places_same in SL as E1. apply said_same in SL as E2. clear SL.
  unfold places_plus, said_plus. rewrite <- E1, <- E2. destruct ok, src; split; count.
Qed.
Lemma plus_same : forall s s1, same_but_links s s1 -> places_plus [] s s1 /\ said_plus [] s s1.
Proof. intros s s1 H. unfold places_plus, said_plus. rewrite (places_same _ _ H), (said_same _ _ H). split; reflexivity. Qed.
Lemma step_other_ledger : forall e s s', match e with Bundle _ _ _ _ _ | Success _ _ _ _ | Failed _ _ _ _ _ _ => False | _ => True end -> step e s = Some s' ->
  places_plus (given [e]) s s' /\ said_plus [] s s'.
Proof.
  intros e s s' O H. destruct e; try contradiction; cbn [step] in H; injection H as <-; cbn [given flat_map app].
  - split; count.
  - split; count.
  - split; count.
  - rewrite on_route_cases. destruct (hop =? U64MAX); [|destruct (find_hop hop 0 (g_out s))]; unfold resend; split; count.
  - destruct (g_pair s) as [|[up i] r]; split; count.
  - apply plus_same, set_sched_same.
  - destruct (out_at i (g_out s)); [apply plus_same, set_sched_same|split; count].
  - apply plus_same, link_changed_same.
  - destruct ok; split; count.
Qed.
Lemma owed_answer : forall src m, owed src m = (src, answer m).
Proof. reflexivity. Qed.
Lemma set_err_with : forall er src a, (src, set_err er a) = with_error er (src, a).
Proof. reflexivity. Qed.
(** The user data in outducts are those of messages. *)
Definition is_owed (tr : list event) (u : user) (b : bundle) : Prop := exists src m f ok1 ok2, In (Bundle src m f ok1 ok2) tr /\ u = owed src m /\ b = e_b m.
Lemma is_owed_snoc : forall tr e u b, is_owed tr u b -> is_owed (tr ++ [e]) u b.
Proof. intros tr e u b (src & m & f & o1 & o2 & I & E). exists src, m, f, o1, o2. split; [apply in_or_app; auto|assumption]. Qed.
Lemma held_owed : forall max cfg tr s h d, fair_run max cfg tr s h d -> forall x u, In x h -> d_user x = Some u -> is_owed tr u (d_b x).
Proof.
  intros max cfg tr s h d R. induction R as [s I|tr s h d e s' h' d' R IH F St]; intros x u Hx E; [destruct Hx|].
  inversion F; subst.
  - apply in_app_or in Hx. destruct Hx as [Hx|[<-|[]]]; [apply is_owed_snoc; eauto|]. cbn [d_user d_b] in *. injection E as <-.
    exists src, m, Took, ok1, ok2. split; [apply in_or_app; right; left; reflexivity|auto].
  - apply is_owed_snoc; eauto.
  - apply is_owed_snoc. apply IH; auto. apply in_app_or in Hx. apply in_or_app. destruct Hx; [auto|right; right; auto].
  - apply is_owed_snoc. apply in_app_or in Hx. destruct Hx as [Hx|[<-|Hx]]; [|discriminate|]; (apply IH; [apply in_or_app; cbn; auto|auto]).
  - apply is_owed_snoc. apply IH; auto. apply in_app_or in Hx. apply in_or_app. destruct Hx; [auto|right; right; auto].
  - apply is_owed_snoc. apply IH; auto. apply in_app_or in Hx. apply in_or_app. destruct Hx; [auto|right; right; auto].
  - apply is_owed_snoc; eauto.
Qed.
Lemma plain_owed : forall er src m, plain (with_error er (owed src m)) = owed src m.
Proof. reflexivity. Qed.

Lemma plain_owed0 : forall src m, plain (owed src m) = owed src m.
Proof. reflexivity. Qed.
Ltac tally := intro; unfold claims; cbn [given debts flat_map app map]; rewrite ?map_app, ?flat_map_app; cbn [map flat_map d_b d_user app];
  rewrite ?app_nil_r, ?plain_owed, ?plain_owed0; repeat (progress (rewrite ?count_occ_app; cbn [count_occ]));
  repeat (match goal with |- context [if ?c then _ else _] => destruct c end; rewrite ?count_occ_app); lia.
(** The three kinds of steps of a fair run: what becomes of the bundle and who is answered. *)
Lemma fair_delta : forall max cfg tr s h d e s' h' d', fair_run max cfg tr s h d -> fair cfg tr e h d h' d' -> step e s = Some s' ->
  exists pl sa, places_plus pl s s' /\ said_plus sa s s' /\
    (forall x, ub (given [e] ++ d ++ map d_b h) x = ub (pl ++ d' ++ map d_b h') x) /\
    (forall x, uu (debts [e] ++ claims h) x = uu (map plain sa ++ claims h') x).
Proof.
  intros max cfg tr s h d e s' h' d' R F St. pose proof (fair_reach _ _ _ _ _ _ R) as Rc. inversion F; subst.
  - cbn [step] in St. rewrite (on_bundle_way _ _ _ _ _ _ _ _ _ Rc), H in St. injection St as <-. exists [], [].
    split; [count|]. split; [count|]. split; tally.
  - cbn [step] in St. rewrite (on_bundle_way _ _ _ _ _ _ _ _ _ Rc) in St. destruct (way_of cfg tr src m) as [|i|] eqn:W.
    + apply way_storage in W. subst src. injection St as <-. exists [e_b m], [owed Storage m].
      split; [|split; [|split; intro; reflexivity]].
      * destruct ok1, ok2, (e_cut m); count.
      * rewrite owed_answer. destruct ok1, ok2, (e_cut m); count.
    + destruct (H _ eq_refl) as (-> & Z). destruct (b_size (e_b m) =? 0) eqn:Z'; [lia|].
      apply on_failed_ledger in St. destruct St as (A & B). exists [e_b m], [with_error LinkDown (owed src m)].
      split; [exact A|]. split; [exact B|]. split; intro; reflexivity.
    + apply on_failed_ledger in St. destruct St as (A & B). exists [e_b m], [with_error NoOutduct (owed src m)].
      split; [exact A|]. split; [exact B|]. split; intro; reflexivity.
  - assert (O : is_owed tr u b) by (apply (held_owed _ _ _ _ _ _ R (mkHeld i b (Some u)) u); [apply in_elt|reflexivity]).
    destruct O as (src & m & f & o1 & o2 & _ & -> & ->).
    cbn [step] in St. injection St as <-. destruct (on_success_ledger i (owed src m) ok s) as (A & B). exists [], [owed src m].
    split; [exact A|]. split; [exact B|]. split; tally.
  - assert (O : is_owed tr u b) by (apply (held_owed _ _ _ _ _ _ R (mkHeld i b (Some u)) u); [apply in_elt|reflexivity]).
    destruct O as (src & m & f & o1 & o2 & _ & -> & ->).
    cbn [step] in St. injection St as <-. destruct (on_success_ledger i (owed src m) ok s) as (A & B). exists [], [owed src m].
    split; [exact A|]. split; [exact B|]. split; tally.
  - assert (O : is_owed tr u b) by (apply (held_owed _ _ _ _ _ _ R (mkHeld i b (Some u)) u); [apply in_elt|reflexivity]).
    destruct O as (src & m & f & o1 & o2 & _ & -> & ->).
    cbn [step] in St. rewrite owed_answer in St. apply on_failed_ledger in St. destruct St as (A & B). exists [e_b m], [with_error LinkDown (owed src m)].
    split; [exact A|]. split; [exact B|]. split; tally.
  - cbn [step] in St. apply on_failed_late in St. destruct St as (A & B). exists [b], [].
    split; [exact A|]. split; [exact B|]. split; tally.
  - destruct (step_other_ledger _ _ _ H St) as (A & B). exists (given [e]), []. split; [exact A|]. split; [exact B|].
    split; intro x; [reflexivity|]. destruct e; try contradiction; reflexivity.
Qed.
Lemma debts_snoc : forall tr e, debts (tr ++ [e]) = debts tr ++ debts [e].
Proof. intros. unfold debts. apply flat_map_app. Qed.
Lemma given_snoc : forall tr e, given (tr ++ [e]) = given tr ++ given [e].
Proof. intros. unfold given. apply flat_map_app. Qed.
Lemma uu_plain_plus : forall l s s', said_plus l s s' -> forall x, uu (map plain (said s')) x = (uu (map plain l) x + uu (map plain (said s)) x)%nat.
Proof.
  intros l s s' H x. assert (P : Permutation (said s') (l ++ said s)).
  { apply (Permutation_count_occ user_dec). intro y. rewrite H, count_occ_app. reflexivity. }
  apply (Permutation_map plain) in P. rewrite map_app in P. apply (Permutation_count_occ user_dec) with (x := x) in P. rewrite P, count_occ_app. reflexivity.
Qed.
Lemma ledgers : forall max cfg tr s h d, fair_run max cfg tr s h d ->
  (forall x, ub (given tr) x = ub (d ++ map d_b h ++ places s) x) /\
  (forall x, uu (debts tr) x = uu (map plain (said s) ++ claims h) x).
Proof.
  intros max cfg tr s h d R. induction R as [s I|tr s h d e s' h' d' R IH F St].
  - apply init_shape in I. subst s. split; intro; reflexivity.
  - destruct IH as (IH1 & IH2). destruct (fair_delta _ _ _ _ _ _ _ _ _ _ R F St) as (pl & sa & A & B & C & D). split; intro x.
    + specialize (A x). specialize (C x). specialize (IH1 x). rewrite given_snoc, ?count_occ_app in *. lia.
    + pose proof (uu_plain_plus _ _ _ B x) as B'. specialize (D x). specialize (IH2 x). rewrite debts_snoc, ?count_occ_app in *. lia.
Qed.

(** ** Nothing is lost *)
Definition clean (s : state) : Prop := g_lost s = [] /\ g_gone s = [].
Lemma clean_same : forall s s1, same_but_links s s1 -> clean s -> clean s1.
Proof. intros s s1 (_&_&_&_&_&_&A&_&B&_) (C & D). split; congruence. Qed.
Lemma clean_failed : forall i b u s s', clean s -> on_failed i b u false true true s = Some s' -> clean s'.
Proof.
  intros i b u s s' C H. apply on_failed_cases in H. cbv zeta in H. fold (down_if i s) in H.
  apply (clean_same _ _ (down_if_same i s)) in C. destruct H as [(X & _)|(_ & src & a & _ & H)]; [discriminate|].
  destruct src; subst s'; [exact C|]. destruct (x_cut a); exact C.
Qed.
Lemma clean_step : forall max cfg tr e s s', reach max cfg tr s -> lossless e -> clean s -> step e s = Some s' -> clean s'.
Proof.
  intros max cfg tr e s s' R L C H. destruct e; cbn [step lossless] in *.
  - rewrite (on_bundle_way _ _ _ _ _ _ _ _ _ R) in H. destruct L as (-> & ->). destruct (way_of cfg tr src m) as [|i|].
    + injection H as <-. exact C.
    + destruct f as [|intact]; [injection H as <-; exact C|]. destruct (b_size (e_b m) =? 0); [injection H as <-; exact C|].
      eapply clean_failed; [|exact H]. exact C.
    + eapply clean_failed; [|exact H]. exact C.
  - injection H as <-. exact C.
  - injection H as <-. exact C.
  - injection H as <-. exact C.
  - injection H as <-. rewrite on_route_cases. destruct (hop =? U64MAX); [|destruct (find_hop hop 0 (g_out s))]; exact C.
  - injection H as <-. destruct (g_pair s) as [|[up i] r]; exact C.
  - injection H as <-. eapply clean_same; [apply set_sched_same|exact C].
  - injection H as <-. destruct (out_at i (g_out s)); [|exact C]. eapply clean_same; [apply set_sched_same|exact C].
  - injection H as <-. subst ok. unfold on_success. destruct u as [[src a]|]; [|exact C].
    apply (clean_same _ _ (link_changed_same false i s)) in C. destruct src; exact C.
  - destruct L as (-> & -> & ->). eapply clean_failed; eauto.
  - injection H as <-. eapply clean_same; [apply link_changed_same|exact C].
  - injection H as <-. subst ok. exact C.
Qed.
Lemma clean_run : forall max cfg tr s, reach max cfg tr s -> Forall lossless tr -> clean s.
Proof.
  intros max cfg tr s R. induction R as [s I|tr s e s' R IH St] using reach_ind'; intro F.
  - apply init_shape in I. subst s. split; reflexivity.
  - apply Forall_app in F. destruct F as (F1 & F2). inversion F2; subst. eapply clean_step; eauto.
Qed.

(** ** What is sent is true *)
Definition outputs (PS : to_storage -> Prop) (PI : to_ingress -> Prop) (PB : bool * bundle -> Prop) (PU : user -> Prop) (s : state) : Prop :=
  Forall PS (g_storage s) /\ Forall PI (g_ingress s) /\ Forall PB (g_bundles s) /\ Forall PU (g_lost s).
Lemma outputs_same : forall PS PI PB PU s s1, same_but_links s s1 -> outputs PS PI PB PU s -> outputs PS PI PB PU s1.
Proof. intros PS PI PB PU s s1 (_&_&A&B&C&_&D&_) H. unfold outputs. rewrite A, B, C, D. exact H. Qed.
Lemma Forall_snoc : forall A (P : A -> Prop) l x, Forall P l -> P x -> Forall P (l ++ [x]).
Proof. intros. apply Forall_app. auto. Qed.
Lemma outputs_failed : forall PS PI PB PU i b src a ok1 ok2 s s', outputs PS PI PB PU s ->
  let a1 := set_err (match i with Some _ => LinkDown | None => NoOutduct end) a in
  (src = Ingress -> PI (IAck a1) /\ PU (Ingress, a1) /\ PS (SFailed 0 b)) ->
  (src = Storage -> PS (SAck a1 (if x_cut a then Some b else None)) /\ PU (Storage, a1)) ->
  on_failed i b (Some (src, a)) false ok1 ok2 s = Some s' -> outputs PS PI PB PU s'.
Proof.
  intros PS PI PB PU i b src a ok1 ok2 s s' O a1 HI HS H. apply on_failed_cases in H. cbv zeta in H. fold (down_if i s) in H.
  apply (outputs_same _ _ _ _ _ _ (down_if_same i s)) in O. destruct O as (O1 & O2 & O3 & O4).
  destruct H as [(X & _)|(_ & src' & a' & E & H)]; [discriminate|]. injection E as <- <-. fold a1 in H. destruct src; subst s'.
  - destruct (HI eq_refl) as (A & B & C). destruct ok1, ok2; cbn; unfold outputs; cbn; auto using Forall_snoc.
  - destruct (HS eq_refl) as (A & B). destruct ok1, (x_cut a); cbn; unfold outputs; cbn; auto using Forall_snoc.
Qed.
Definition honest_out (cfg : list ocfg) (tr : list event) (s : state) : Prop :=
  outputs (true_storage cfg tr) (true_ingress cfg tr) (true_bundle cfg tr) (true_lost cfg tr) s.
Lemma justified_snoc : forall cfg tr e src m er, justified cfg tr src m er -> justified cfg (tr ++ [e]) src m er.
Proof.
  intros cfg tr e src m er ((f & o1 & o2 & I) & tr1 & e1 & tr2 & -> & C). split.
  - exists f, o1, o2. apply in_or_app. auto.
  - exists tr1, e1, (tr2 ++ [e]). split; [rewrite <- app_assoc; reflexivity|assumption].
Qed.
Lemma honest_out_snoc : forall cfg tr e s, honest_out cfg tr s -> honest_out cfg (tr ++ [e]) s.
Proof.
  intros cfg tr e s (A & B & C & D). repeat split.
  - eapply Forall_impl; [|exact A]. intros [a ob|j b|l] H; cbn in *; [| |exact H].
    + destruct H as (m & er & J & E). exists m, er. split; [apply justified_snoc; exact J|exact E].
    + destruct H as (m & er & J & E). exists m, er. split; [apply justified_snoc; exact J|exact E].
  - eapply Forall_impl; [|exact B]. intros [a|l] H; cbn in *; [|exact H].
    destruct H as (m & er & J & E). exists m, er. split; [apply justified_snoc; exact J|exact E].
  - eapply Forall_impl; [|exact C]. intros [p b] H. unfold true_bundle in *. cbn [fst snd] in *. destruct p; [apply in_or_app; auto|].
    destruct H as (tr1 & m & f & o1 & o2 & tr2 & -> & H). exists tr1, m, f, o1, o2, (tr2 ++ [e]). split; [rewrite <- app_assoc; reflexivity|exact H].
  - eapply Forall_impl; [|exact D]. intros u (src & m & er & J & E). exists src, m, er. split; [apply justified_snoc; exact J|exact E].
Qed.
Lemma justified_now : forall cfg tr e src m er, (exists f o1 o2, In (Bundle src m f o1 o2) (tr ++ [e])) -> calls_for cfg tr e src m er -> justified cfg (tr ++ [e]) src m er.
Proof. intros cfg tr e src m er I C. split; [exact I|]. exists tr, e, []. auto. Qed.
Lemma honest_failed : forall cfg tr i src m ok1 ok2 s s', honest_out cfg tr s ->
  justified cfg tr src m (match i with Some _ => LinkDown | None => NoOutduct end) ->
  on_failed i (e_b m) (Some (src, answer m)) false ok1 ok2 s = Some s' -> honest_out cfg tr s'.
Proof.
  intros cfg tr i src m ok1 ok2 s s' O J H. set (er := match i with Some _ => LinkDown | None => NoOutduct end) in *.
  assert (NE : er <> NoError) by (unfold er; destruct i; discriminate).
  eapply outputs_failed; [exact O| | |exact H]; fold er; intros ->.
  - split; [|split].
    + exists m, er. split; [exact J|reflexivity].
    + exists Ingress, m, er. split; [exact J|reflexivity].
    + exists m, er. auto.
  - split.
    + exists m, er. split; [exact J|]. split; [reflexivity|]. cbn [answer x_cut]. destruct er; [congruence|reflexivity|reflexivity].
    + exists Storage, m, er. split; [exact J|reflexivity].
Qed.
Lemma in_last : forall A (l : list A) x, In x (l ++ [x]).
Proof. intros. apply in_or_app. right. left. reflexivity. Qed.
Lemma honest_success : forall cfg tr i src m ok s, honest_out cfg tr s -> justified cfg tr src m NoError ->
  honest_out cfg tr (on_success i (Some (owed src m)) ok s).
Proof.
  intros cfg tr i src m ok s O J. rewrite owed_answer. unfold on_success. apply (outputs_same _ _ _ _ _ _ (link_changed_same false i s)) in O.
  destruct O as (O1 & O2 & O3 & O4). destruct ok; [destruct src|]; unfold honest_out, outputs; cbn; repeat split; try assumption; apply Forall_snoc; try assumption.
  - exists m, NoError. split; [exact J|reflexivity].
  - exists m, NoError. split; [exact J|]. split; reflexivity.
  - exists src, m, NoError. split; [exact J|reflexivity].
Qed.
Lemma honest_run : forall max cfg tr s h d, fair_run max cfg tr s h d -> honest_out cfg tr s.
Proof.
  intros max cfg tr s h d R. induction R as [s I|tr s h d e s' h' d' R IH F St].
  - apply init_shape in I. subst s. unfold honest_out, outputs. cbn. repeat split; repeat constructor.
  - pose proof (fair_reach _ _ _ _ _ _ R) as Rc. apply (honest_out_snoc _ _ e) in IH. inversion F; subst.
    + cbn [step] in St. rewrite (on_bundle_way _ _ _ _ _ _ _ _ _ Rc), H in St. injection St as <-. exact IH.
    + cbn [step] in St. rewrite (on_bundle_way _ _ _ _ _ _ _ _ _ Rc) in St.
      assert (IN : exists f0 o1 o2, In (Bundle src m f0 o1 o2) (tr ++ [Bundle src m f ok1 ok2])) by (exists f, ok1, ok2; apply in_last).
      destruct (way_of cfg tr src m) as [|i|] eqn:W.
      * pose proof (way_storage _ _ _ _ W) as E. subst src. injection St as <-. destruct IH as (O1 & O2 & O3 & O4).
        assert (J : justified cfg (tr ++ [Bundle Storage m f ok1 ok2]) Storage m NoError) by (apply justified_now; [exact IN|constructor; exact W]).
        assert (PS : true_storage cfg (tr ++ [Bundle Storage m f ok1 ok2]) (SAck (answer m) None)).
        { exists m, NoError. split; [exact J|]. split; reflexivity. }
        destruct ok1; [destruct ok2|]; unfold honest_out, outputs; cbn; repeat split; auto using Forall_snoc.
        -- apply Forall_snoc; [assumption|]. exists tr, m, f, true, true, []. auto.
        -- apply Forall_snoc; [assumption|]. exists Storage, m, NoError. split; [exact J|reflexivity].
      * destruct (H _ eq_refl) as (-> & Z). destruct (b_size (e_b m) =? 0) eqn:Z'; [lia|].
        eapply honest_failed; [|apply justified_now; [exact IN|]|exact St]; [exact IH|]. cbv iota. econstructor. exact W.
      * eapply honest_failed; [|apply justified_now; [exact IN|]|exact St]; [exact IH|]. cbv iota. constructor. exact W.
    + assert (O : is_owed tr u b) by (apply (held_owed _ _ _ _ _ _ R (mkHeld i b (Some u)) u); [apply in_elt|reflexivity]).
      destruct O as (src & m & f & o1 & o2 & IN & -> & ->). cbn [step] in St. injection St as <-.
      apply honest_success; [exact IH|]. apply justified_now; [exists f, o1, o2; apply in_or_app; auto|constructor].
    + assert (O : is_owed tr u b) by (apply (held_owed _ _ _ _ _ _ R (mkHeld i b (Some u)) u); [apply in_elt|reflexivity]).
      destruct O as (src & m & f & o1 & o2 & IN & -> & ->). cbn [step] in St. injection St as <-.
      apply honest_success; [exact IH|]. apply justified_now; [exists f, o1, o2; apply in_or_app; auto|constructor].
    + assert (O : is_owed tr u b) by (apply (held_owed _ _ _ _ _ _ R (mkHeld i b (Some u)) u); [apply in_elt|reflexivity]).
      destruct O as (src & m & f & o1 & o2 & IN & -> & ->). cbn [step] in St. rewrite owed_answer in St.
      refine (honest_failed _ _ (Some i) src m ok1 ok2 s s' IH _ St). apply justified_now; [exists f, o1, o2; apply in_or_app; auto|constructor].
    + cbn [step] in St. unfold on_failed in St. injection St as <-. apply (outputs_same _ _ _ _ _ _ (link_changed_same true i s)). exact IH.
    + destruct e; try contradiction; cbn [step] in St; injection St as <-.
      * exact IH.
      * exact IH.
      * exact IH.
      * rewrite on_route_cases. assert (Z : forall r, honest_out cfg (tr ++ [Route d hop]) (resend (with_route r s))).
        { intro r. destruct IH as (O1 & O2 & O3 & O4). unfold honest_out, outputs. cbn. repeat split; try assumption; apply Forall_snoc; try assumption; exact I. }
        destruct (hop =? U64MAX); [apply Z|]. destruct (find_hop hop 0 (g_out s)); [apply Z|exact IH].
      * destruct (g_pair s) as [|[up i] r]; exact IH.
      * eapply outputs_same; [apply set_sched_same|exact IH].
      * destruct (out_at i (g_out s)); [|exact IH]. eapply outputs_same; [apply set_sched_same|exact IH].
      * eapply outputs_same; [apply link_changed_same|exact IH].
      * destruct ok; [|exact IH]. destruct IH as (O1 & O2 & O3 & O4). unfold honest_out, outputs. cbn. repeat split; try assumption. apply Forall_snoc; [assumption|].
        apply in_last.
Qed.

(** ** Links *)
Definition linkinv (f : N -> option bool) (s : state) : Prop := forall i,
  match nth_error (g_out s) (N.to_nat i) with
  | Some o => alternates (statuses i s) /\ last_is (o_phys o) (statuses i s) /\ o_phys o = f i
  | None => statuses i s = []
  end.
Definition same_links (s s1 : state) : Prop :=
  (forall i, option_map o_phys (nth_error (g_out s1) i) = option_map o_phys (nth_error (g_out s) i)) /\ forall i, statuses i s1 = statuses i s.
Lemma linkinv_same : forall f s s1, same_links s s1 -> linkinv f s -> linkinv f s1.
Proof.
  intros f s s1 (A & B) L i. specialize (L i). specialize (A (N.to_nat i)). rewrite B.
  destruct (nth_error (g_out s) (N.to_nat i)) as [o|], (nth_error (g_out s1) (N.to_nat i)) as [o1|]; cbn in A; try discriminate; [|exact L].
  injection A as ->. exact L.
Qed.
Lemma same_links_refl : forall s s1, g_out s1 = g_out s -> g_pair s1 = g_pair s -> g_router s1 = g_router s -> same_links s s1.
Proof. intros s s1 A B C. unfold same_links, statuses. rewrite A, B, C. split; reflexivity. Qed.
Lemma linkinv_ext : forall f g s, (forall i, f i = g i) -> linkinv f s -> linkinv g s.
Proof. intros f g s E L i. specialize (L i). destruct (nth_error (g_out s) (N.to_nat i)); [|exact L]. rewrite <- E. exact L. Qed.
Lemma alternates_snoc : forall l a b, alternates (l ++ [a]) -> a = negb b -> alternates ((l ++ [a]) ++ [b]).
Proof.
  induction l as [|x l IH]; intros a b A E; cbn [app alternates] in *; [auto|].
  destruct (l ++ [a]) as [|y r] eqn:Q; [destruct l; discriminate|]. destruct A as (A1 & A2). cbn [app].
  split; [exact A1|]. specialize (IH a b). rewrite Q in IH. apply IH; auto.
Qed.
Lemma linkinv_changed : forall f down j s, linkinv f s -> linkinv (fun i => if j =? i then Some (negb down) else f i) (link_changed down j s).
Proof.
  intros f down j s L. unfold link_changed. destruct (out_at j (g_out s)) as [o|] eqn:E.
  - apply out_at_nth in E. intro i. specialize (L i). cbn [g_out with_out]. destruct (j =? i) eqn:JI.
    + apply N.eqb_eq in JI. subst i. rewrite E in L. destruct L as (L1 & L2 & _).
      rewrite set_nth_same by (apply nth_error_Some; congruence).
      unfold statuses in *. cbn [g_router g_pair with_out o_phys].
      destruct (o_phys o) as [p|]; cbn [last_is] in L2.
      * destruct L2 as (l' & L2). destruct (Bool.eqb p (negb down)) eqn:PB; cbn [negb].
        -- apply Bool.eqb_prop in PB. subst p. split; [exact L1|]. split; [exists l'; exact L2|reflexivity].
        -- rewrite flat_map_app. cbn [flat_map snd fst app]. rewrite N.eqb_refl, app_nil_r, app_assoc, L2. split; [|split].
           ++ apply alternates_snoc; [rewrite <- L2; exact L1|]. destruct p, down; try reflexivity; discriminate.
           ++ exists (l' ++ [p]). reflexivity.
           ++ reflexivity.
      * rewrite flat_map_app. cbn [flat_map snd fst app]. rewrite N.eqb_refl, app_nil_r, app_assoc, L2. split; [exact Logic.I|]. split; [exists []; reflexivity|reflexivity].
    + rewrite set_nth_other by lia. unfold statuses in *. cbn [g_router g_pair with_out].
      match goal with |- context [if ?c then _ else _] => destruct c end; [|exact L].
      rewrite flat_map_app. cbn [flat_map snd fst app]. rewrite JI. cbn [app]. rewrite app_nil_r. exact L.
  - intro i. specialize (L i). destruct (nth_error (g_out s) (N.to_nat i)) as [o|] eqn:O; [|exact L].
    apply out_at_nth in O. destruct (j =? i) eqn:JI; [|exact L]. apply N.eqb_eq in JI. subst. congruence.
Qed.
Lemma linkinv_failed : forall f i b u told ok1 ok2 s s', linkinv f s -> on_failed i b u told ok1 ok2 s = Some s' ->
  linkinv (match i with Some j => fun i => if j =? i then Some false else f i | None => f end) s'.
Proof.
  intros f i b u told ok1 ok2 s s' L H. apply on_failed_cases in H. cbv zeta in H. fold (down_if i s) in H.
  assert (L1 : linkinv (match i with Some j => fun i => if j =? i then Some false else f i | None => f end) (down_if i s)).
  { destruct i as [i|]; [apply (linkinv_changed f true i s L)|exact L]. }
  eapply linkinv_same; [|exact L1]. destruct H as [(_ & ->)|(_ & src & a & _ & H)]; [apply same_links_refl; reflexivity|].
  destruct src; subst s'; destruct ok1, ok2, (x_cut a); apply same_links_refl; reflexivity.
Qed.
Lemma linkinv_success : forall f i u ok s, linkinv f s -> linkinv (fun k => if i =? k then Some true else f k) (on_success i (Some u) ok s).
Proof.
  intros f i [src a] ok s L. apply (linkinv_changed f false i s) in L. eapply linkinv_same; [|exact L].
  unfold on_success. destruct ok, src; apply same_links_refl; reflexivity.
Qed.
Definition obs1 (cfg : list ocfg) (i : N) (tr : list event) (r : option bool) (e : event) : option bool :=
  match e with
  | Success j _ (Some _) _ => if j =? i then Some true else r
  | Failed j _ _ _ _ _ => if j =? i then Some false else r
  | Changed down j => if j =? i then Some (negb down) else r
  | Bundle src m (Left _) _ _ =>
    match way_of cfg tr src m with ToOutduct j => if (j =? i) && negb (b_size (e_b m) =? 0) then Some false else r | _ => r end
  | _ => r
  end.
Lemma observed_snoc : forall cfg i tr e, observed cfg i (tr ++ [e]) = obs1 cfg i tr (observed cfg i tr) e.
Proof.
  intros cfg i tr e. unfold observed. rewrite fold_left_app. cbn [fold_left snd].
  match goal with |- context [fold_left ?g tr ?z] => set (F := fold_left g tr z); assert (E : fst F = tr) end.
  { clear e. subst F. induction tr as [|e tr IH] using rev_ind; [reflexivity|]. rewrite fold_left_app. cbn [fold_left fst]. rewrite IH. reflexivity. }
  rewrite E. unfold obs1. destruct e; try reflexivity; destruct u; reflexivity.
Qed.
Lemma statuses_fresh : forall k cfg i, flat_map (fun e : bool * N => if snd e =? i then [fst e] else [])
    (flat_map (fun p => if connects (f_layer (snd p)) then [(false, fst p)] else []) (combine (map N.of_nat (seq k (length cfg))) cfg)) =
  if i <? N.of_nat k then [] else match nth_error cfg (N.to_nat i - k) with Some c => if connects (f_layer c) then [false] else [] | None => [] end.
Proof.
  intros k cfg i. revert k. induction cfg as [|c cfg IH]; intro k; cbn [length seq map combine flat_map snd fst].
  - destruct (i <? N.of_nat k); [reflexivity|]. destruct (N.to_nat i - k)%nat; reflexivity.
  - rewrite flat_map_app, IH. destruct (connects (f_layer c)) eqn:C; cbn [flat_map snd fst app].
    + destruct (N.of_nat k =? i) eqn:E; cbn [app].
      * replace (i <? N.of_nat (S k)) with true by lia. replace (i <? N.of_nat k) with false by lia.
        replace (N.to_nat i - k)%nat with 0%nat by lia. cbn [nth_error]. rewrite C. reflexivity.
      * destruct (i <? N.of_nat k) eqn:E1; [replace (i <? N.of_nat (S k)) with true by lia; reflexivity|].
        replace (i <? N.of_nat (S k)) with false by lia. replace (N.to_nat i - k)%nat with (S (N.to_nat i - S k))%nat by lia. reflexivity.
    + destruct (i <? N.of_nat k) eqn:E1; [replace (i <? N.of_nat (S k)) with true by lia; reflexivity|].
      destruct (i <? N.of_nat (S k)) eqn:E2.
      * replace (N.to_nat i - k)%nat with 0%nat by lia. cbn [nth_error]. rewrite C. reflexivity.
      * replace (N.to_nat i - k)%nat with (S (N.to_nat i - S k))%nat by lia. reflexivity.
Qed.
Lemma linkinv_quiet : forall cfg tr e s s', linkinv (fun i => observed cfg i tr) s -> (forall i r, obs1 cfg i tr r e = r) -> same_links s s' ->
  linkinv (fun i => observed cfg i (tr ++ [e])) s'.
Proof.
  intros cfg tr e s s' L O SL. eapply linkinv_ext; [|eapply linkinv_same; [exact SL|exact L]]. intro i. cbv beta. rewrite observed_snoc. symmetry. apply O.
Qed.
Lemma links_reach : forall max cfg tr s, reach max cfg tr s -> linkinv (fun i => observed cfg i tr) s.
Proof.
  intros max cfg tr s R. induction R as [s I|tr s e s' R IH St] using reach_ind'.
  - apply init_shape in I. subst s. intro i. unfold statuses. cbn [g_out g_router g_pair flat_map app].
    rewrite (statuses_fresh 0 cfg i). replace (i <? N.of_nat 0) with false by lia. rewrite Nat.sub_0_r.
    rewrite nth_error_map. unfold observed. cbn [fold_left snd]. destruct (nth_error cfg (N.to_nat i)) as [c|]; cbn [option_map]; [|reflexivity].
    unfold fresh. cbn [o_phys]. unfold connects, starts_down. destruct (f_layer c); cbn; repeat split; exists []; reflexivity.
  - destruct e; cbn [step] in St.
    + rewrite (on_bundle_way _ _ _ _ _ _ _ _ _ R) in St. destruct (way_of cfg tr src m) as [|j|] eqn:W.
      * injection St as <-. eapply linkinv_quiet; [exact IH|intros ? ?; cbn [obs1]; rewrite W; destruct f; reflexivity|]. destruct ok1, ok2, (e_cut m); apply same_links_refl; reflexivity.
      * destruct f as [|intact].
        -- injection St as <-. eapply linkinv_quiet; [exact IH|intros ? ?; cbn [obs1]; reflexivity|]. apply same_links_refl; reflexivity.
        -- destruct (b_size (e_b m) =? 0) eqn:Z.
           ++ injection St as <-.
              eapply linkinv_quiet; [exact IH|intros ? ?; cbn [obs1]; rewrite W, Z, andb_false_r; reflexivity|]. apply same_links_refl; reflexivity.
           ++ eapply linkinv_failed in St; [|eapply linkinv_same; [|exact IH]; apply same_links_refl; reflexivity].
              eapply linkinv_ext; [|exact St]. intro i. rewrite observed_snoc. cbn [obs1]. rewrite W, Z, andb_true_r. reflexivity.
      * eapply linkinv_failed in St; [|exact IH]. eapply linkinv_ext; [|exact St]. intro i. rewrite observed_snoc. cbn [obs1]. rewrite W. destruct f; reflexivity.
    + injection St as <-. eapply linkinv_quiet; [exact IH|intros ? ?; cbn [obs1]; reflexivity|]. apply same_links_refl; reflexivity.
    + injection St as <-. eapply linkinv_quiet; [exact IH|intros ? ?; cbn [obs1]; reflexivity|]. apply same_links_refl; reflexivity.
    + injection St as <-. eapply linkinv_quiet; [exact IH|intros ? ?; cbn [obs1]; reflexivity|].
      split; [reflexivity|]. intro i. unfold statuses. cbn. rewrite flat_map_app. cbn. rewrite app_nil_r. reflexivity.
    + injection St as <-. eapply linkinv_quiet; [exact IH|intros ? ?; cbn [obs1]; reflexivity|].
      rewrite on_route_cases. assert (Z : forall r, same_links s (resend (with_route r s))).
      { intro r. split; [reflexivity|]. intro i. unfold statuses. cbn. rewrite flat_map_app. cbn. rewrite app_nil_r. reflexivity. }
      destruct (hop =? U64MAX); [apply Z|]. destruct (find_hop hop 0 (g_out s)); [apply Z|apply same_links_refl; reflexivity].
    + injection St as <-. eapply linkinv_quiet; [exact IH|intros ? ?; cbn [obs1]; reflexivity|].
      destruct (g_pair s) as [|[up j] r] eqn:P; [apply same_links_refl; auto|]. split; [reflexivity|]. intro i. unfold statuses. cbn. rewrite P, flat_map_app. cbn.
      rewrite app_nil_r, <- app_assoc. reflexivity.
    + injection St as <-. eapply linkinv_quiet; [exact IH|intros ? ?; cbn [obs1]; reflexivity|].
      unfold set_sched. destruct (out_at i (g_out s)) as [o|] eqn:E; [|apply same_links_refl; reflexivity]. apply out_at_nth in E.
      split; [|reflexivity]. intro n. cbn [g_out with_out]. destruct (Nat.eq_dec (N.to_nat i) n) as [<-|NE].
      * rewrite set_nth_same by (apply nth_error_Some; congruence). rewrite E. reflexivity.
      * rewrite set_nth_other by assumption. reflexivity.
    + injection St as <-. eapply linkinv_quiet; [exact IH|intros ? ?; cbn [obs1]; reflexivity|].
      destruct (out_at i (g_out s)) as [o|] eqn:E; [|apply same_links_refl; reflexivity].
      unfold set_sched. rewrite E. apply out_at_nth in E.
      split; [|reflexivity]. intro n. cbn [g_out with_out]. destruct (Nat.eq_dec (N.to_nat i) n) as [<-|NE].
      * rewrite set_nth_same by (apply nth_error_Some; congruence). rewrite E. reflexivity.
      * rewrite set_nth_other by assumption. reflexivity.
    + injection St as <-. destruct u as [u|].
      * eapply linkinv_ext; [|apply linkinv_success; exact IH]. intro k. rewrite observed_snoc. reflexivity.
      * eapply linkinv_quiet; [exact IH|reflexivity|apply same_links_refl; reflexivity].
    + eapply linkinv_failed in St; [|exact IH]. eapply linkinv_ext; [|exact St]. intro k. rewrite observed_snoc. reflexivity.
    + injection St as <-. eapply linkinv_ext; [|apply linkinv_changed; exact IH]. intro k. rewrite observed_snoc. reflexivity.
    + injection St as <-. eapply linkinv_quiet; [exact IH|intros ? ?; cbn [obs1]; reflexivity|].
      destruct ok; apply same_links_refl; reflexivity.
Qed.

(** ** Telemetry *)
Definition telems (s : state) := (telem_storage s, telem_ingress s, telem_router s).
Lemma telems_same : forall s s1, same_but_links s s1 -> telems s1 = telems s.
Proof. intros s s1 (_&_&A&B&_&C&_). unfold telems, telem_storage, telem_ingress, telem_router. rewrite A, B, C. reflexivity. Qed.
Ltac telem := unfold telems, telem_storage, telem_ingress, telem_router; cbn [g_storage g_ingress g_router send_storage send_ingress send_bundle send_router lose let_go ask with_out with_opp];
  rewrite ?flat_map_app; cbn [flat_map app]; rewrite ?app_nil_r; reflexivity.
Lemma telems_failed : forall i b u told ok1 ok2 s s', on_failed i b u told ok1 ok2 s = Some s' -> telems s' = telems s.
Proof.
  intros i b u told ok1 ok2 s s' H. apply on_failed_cases in H. cbv zeta in H. fold (down_if i s) in H.
  rewrite <- (telems_same _ _ (down_if_same i s)). destruct H as [(_ & ->)|(_ & src & a & _ & H)]; [telem|].
  destruct src; subst s'; destruct ok1, ok2, (x_cut a); telem.
Qed.
Lemma telems_step : forall e s s', step e s = Some s' ->
  (telems s' = telems s /\ g_route s' = g_route s) \/ (exists d hop r, e = Route d hop /\ s' = resend (with_route r s)).
Proof.
  intros e s s' H. pose proof (step_frame _ _ _ H) as (_ & FR & _). destruct e; cbn [step] in H.
  1: left; split; [|exact FR]; unfold on_bundle in H; cbv zeta in H; match type of H with (if ?c then _ else _) = _ => destruct c end;
     [injection H as <-; destruct ok1, ok2, (e_cut m); telem|]; destruct (find_route (fst (e_dest m)) (g_route s)) as [i|]; [|eapply telems_failed; exact H];
     destruct f as [|intact]; [injection H as <-; telem|]; destruct (b_size (e_b m) =? 0); [injection H as <-; telem|];
     apply telems_failed in H; rewrite H; telem.
  3: left; split; [injection H as <-; telem|exact FR].
  3: injection H as <-; rewrite on_route_cases in *; destruct (hop =? U64MAX); [right; eauto|]; destruct (find_hop hop 0 (g_out s)); [right; eauto|left; split; reflexivity].
  all: left; split; [|exact FR].
  - injection H as <-. telem.
  - injection H as <-. telem.
  - injection H as <-. destruct (g_pair s) as [|[up i] r]; telem.
  - injection H as <-. apply telems_same, set_sched_same.
  - injection H as <-. destruct (out_at i (g_out s)); [apply telems_same, set_sched_same|reflexivity].
  - injection H as <-. unfold on_success. destruct u as [[src a]|]; [|reflexivity]. rewrite <- (telems_same _ _ (link_changed_same false i s)).
    destruct ok, src; telem.
  - eapply telems_failed; exact H.
  - injection H as <-. apply telems_same, link_changed_same.
  - injection H as <-. destruct ok; telem.
Qed.
Lemma caps_fixed : forall l l' n route, map fixed l = map fixed l' -> caps n route l = caps n route l'.
Proof.
  induction l as [|o l IH]; intros [|o' l'] n route E; cbn in *; try discriminate; auto.
  injection E as E1 E2 E3 E4. rewrite E1, E2, E3. f_equal. apply IH. exact E4.
Qed.
Lemma caps_nth : forall l k route n c, nth_error (caps k route l) n = Some c -> exists o, nth_error l n = Some o /\
  c = mkOutduct (k + N.of_nat n) (o_max o) (o_maxb o) (o_hop o) [] (map fst (filter (fun e => snd e =? k + N.of_nat n) route)).
Proof.
  induction l as [|o l IH]; intros k route [|n] c H; cbn [caps nth_error] in H; try discriminate.
  - injection H as <-. exists o. split; [reflexivity|]. rewrite N.add_0_r. reflexivity.
  - apply IH in H. destruct H as (o' & A & B). exists o'. split; [exact A|]. replace (k + N.of_nat (S n)) with (k + 1 + N.of_nat n) by lia. exact B.
Qed.
Lemma caps_limits : forall l k route, map (fun c => (t_hop c, t_max c, t_maxb c)) (caps k route l) = map fixed l.
Proof. induction l as [|o l IH]; intros k route; cbn [caps map t_hop t_max t_maxb]; [reflexivity|]. rewrite IH. reflexivity. Qed.
Lemma filter_sorted : forall i l, sorted l -> sorted (filter (fun e => snd e =? i) l).
Proof.
  intros i. induction l as [|[k j] l IH]; intro S; [exact S|]. destruct S as (A & B). cbn [filter snd]. destruct (j =? i); [|auto]. split; [|auto].
  apply Forall_forall. intros x Hx. apply filter_In in Hx. rewrite Forall_forall in A. apply A. tauto.
Qed.
Lemma caps_describes : forall cfg tr s, tables cfg tr s -> describes cfg (fun d => routed cfg d tr) (caps 0 (g_route s) (g_out s)).
Proof.
  intros cfg tr s [T1 _ T3 T4]. split.
  - rewrite caps_limits. exact T1.
  - intros n c H. apply caps_nth in H. destruct H as (o & _ & ->). cbn [t_idx t_eids t_nodes]. rewrite N.add_0_l. repeat split.
    + apply sorted_nodup, filter_sorted, T3.
    + intro I. apply in_map_iff in I. destruct I as ([d' i] & E & I). apply filter_In in I. cbn [fst snd] in *. destruct I as (I & E2).
      apply N.eqb_eq in E2. subst. rewrite <- T4. apply find_in; assumption.
    + intro E. rewrite <- T4 in E. apply find_in in E; [|exact T3]. apply in_map_iff. exists (d, N.of_nat n). split; [reflexivity|].
      apply filter_In. split; [exact E|]. cbn [snd]. apply N.eqb_refl.
Qed.
Lemma telemetry_reach : forall max cfg tr s, reach max cfg tr s ->
  telem_ingress s = telem_storage s /\ telem_router s = telem_storage s /\
  (exists l, telem_storage s = l ++ [caps 0 (g_route s) (g_out s)]) /\
  (forall l, In l (telem_storage s) -> exists tr1 tr2, tr = tr1 ++ tr2 /\ describes cfg (fun d => routed cfg d tr1) l).
Proof.
  intros max cfg tr s R. induction R as [s I|tr s e s' R IH St] using reach_ind'.
  - pose proof (reach_start _ _ _ I) as R. apply tables_reach in R. apply init_shape in I.
    assert (E : telem_storage s = [caps 0 (g_route s) (g_out s)] /\ telem_ingress s = telem_storage s /\ telem_router s = telem_storage s).
    { subst s. cbn. auto. }
    destruct E as (E1 & E2 & E3). split; [exact E2|]. split; [exact E3|]. split; [exists []; exact E1|]. intros l H. rewrite E1 in H. destruct H as [<-|[]].
    exists [], []. split; [reflexivity|]. apply caps_describes. exact R.
  - destruct IH as (A & B & (l0 & C) & D).
    pose proof (tables_reach _ _ _ _ (reach_snoc _ _ _ _ _ _ R St)) as T. pose proof (tables_reach _ _ _ _ R) as T0.
    pose proof (step_frame _ _ _ St) as (_ & _ & FX).
    destruct (telems_step _ _ _ St) as [(E & ER)|(d & hop & r & -> & ->)].
    + unfold telems in E. injection E as E1 E2 E3. split; [congruence|]. split; [congruence|]. split.
      * exists l0. rewrite E1, C, ER, (caps_fixed _ _ 0 (g_route s) FX). reflexivity.
      * intros l H. rewrite E1 in H. destruct (D _ H) as (tr1 & tr2 & -> & Q). exists tr1, (tr2 ++ [e]). split; [rewrite <- app_assoc; reflexivity|exact Q].
    + assert (E : telems (resend (with_route r s)) = (telem_storage s ++ [caps 0 r (g_out s)], telem_ingress s ++ [caps 0 r (g_out s)], telem_router s ++ [caps 0 r (g_out s)])).
      { unfold telems, telem_storage, telem_ingress, telem_router, resend. cbn. rewrite !flat_map_app. reflexivity. }
      unfold telems in E. injection E as E1 E2 E3. split; [congruence|]. split; [congruence|]. split; [exists (telem_storage s); exact E1|].
      intros l H. rewrite E1 in H. apply in_app_or in H. destruct H as [H|[<-|[]]].
      * destruct (D _ H) as (tr1 & tr2 & -> & Q). exists tr1, (tr2 ++ [Route d hop]). split; [rewrite <- app_assoc; reflexivity|exact Q].
      * exists (tr ++ [Route d hop]), []. split; [rewrite app_nil_r; reflexivity|]. apply caps_describes in T. exact T.
Qed.

(** ** Schedule, rate, bundles offered *)
Lemma scheduled_snoc : forall i tr e, scheduled i (tr ++ [e]) = match e with Release up j _ => if j =? i then up else scheduled i tr | _ => scheduled i tr end.
Proof. intros. unfold scheduled. rewrite fold_left_app. destruct e; reflexivity. Qed.
Lemma rate_snoc : forall i tr e, rate_set i (tr ++ [e]) = match e with Release true j x | Rate j x => if j =? i then Some x else rate_set i tr | _ => rate_set i tr end.
Proof. intros. unfold rate_set. rewrite fold_left_app. destruct e; reflexivity. Qed.
Definition plan (o : outduct) : bool * option N := (o_sched o, o_rate o).
Lemma plan_link : forall down i s, map plan (g_out (link_changed down i s)) = map plan (g_out s).
Proof.
  intros. unfold link_changed. destruct (out_at i (g_out s)) as [o|] eqn:E; [|reflexivity]. cbn [g_out with_out]. apply out_at_nth in E.
  revert E. generalize (N.to_nat i). generalize (g_out s). induction l as [|y l IH]; intros [|n] E; cbn in *; try discriminate.
  - injection E as ->. reflexivity.
  - rewrite IH by assumption. reflexivity.
Qed.
Lemma plan_failed : forall i b u told ok1 ok2 s s', on_failed i b u told ok1 ok2 s = Some s' -> map plan (g_out s') = map plan (g_out s).
Proof.
  intros i b u told ok1 ok2 s s' H. apply on_failed_cases in H. cbv zeta in H. fold (down_if i s) in H.
  assert (E : map plan (g_out (down_if i s)) = map plan (g_out s)) by (destruct i; [apply plan_link|reflexivity]). rewrite <- E.
  destruct H as [(_ & ->)|(_ & src & a & _ & H)]; [reflexivity|]. destruct src; subst s'; destruct ok1, ok2, (x_cut a); reflexivity.
Qed.
Lemma nth_plan : forall s s' n, map plan (g_out s') = map plan (g_out s) -> option_map plan (nth_error (g_out s') n) = option_map plan (nth_error (g_out s) n).
Proof. intros s s' n E. rewrite <- !nth_error_map, E. reflexivity. Qed.
Lemma plan_reach : forall max cfg tr s, reach max cfg tr s -> forall i o, nth_error (g_out s) (N.to_nat i) = Some o -> o_sched o = scheduled i tr /\ o_rate o = rate_set i tr.
Proof.
  intros max cfg tr s R. induction R as [s I|tr s e s' R IH St] using reach_ind'; intros i o E.
  - apply init_shape in I. subst s. cbn [g_out] in E. rewrite nth_error_map in E. destruct (nth_error cfg (N.to_nat i)); [|discriminate]. injection E as <-. auto.
  - assert (Q : forall up j r, s' = set_sched up j r s -> exists o0, nth_error (g_out s) (N.to_nat i) = Some o0 /\
        if j =? i then o_sched o = up /\ o_rate o = (match r with None => o_rate o0 | x => x end) else o_sched o = o_sched o0 /\ o_rate o = o_rate o0).
    { intros up j r ->. unfold set_sched in E. destruct (out_at j (g_out s)) as [o1|] eqn:O.
      - apply out_at_nth in O. cbn [g_out with_out] in E. destruct (j =? i) eqn:JI.
        + apply N.eqb_eq in JI. subst j. rewrite set_nth_same in E by (apply nth_error_Some; congruence). injection E as <-. exists o1. auto.
        + rewrite set_nth_other in E by lia. exists o. auto.
      - exists o. split; [exact E|]. destruct (j =? i) eqn:JI; [|auto]. apply N.eqb_eq in JI. subst j. apply out_at_nth in E. congruence. }
    assert (P : map plan (g_out s') = map plan (g_out s) -> o_sched o = scheduled i tr /\ o_rate o = rate_set i tr).
    { intro M. apply (nth_plan _ _ (N.to_nat i)) in M. rewrite E in M. destruct (nth_error (g_out s) (N.to_nat i)) as [o0|] eqn:O; [|discriminate].
      injection M as M1 M2. rewrite M1, M2. apply IH. exact O. }
    rewrite scheduled_snoc, rate_snoc. destruct e; cbn [step] in St.
    + apply P. unfold on_bundle in St. cbv zeta in St. match type of St with (if ?c then _ else _) = _ => destruct c end.
      * injection St as <-. destruct ok1, ok2; reflexivity.
      * destruct (find_route (fst (e_dest m)) (g_route s)); [|eapply plan_failed; exact St]. destruct f; [injection St as <-; reflexivity|].
        destruct (b_size (e_b m) =? 0); [injection St as <-; reflexivity|]. apply plan_failed in St. exact St.
    + apply P. injection St as <-. reflexivity.
    + apply P. injection St as <-. reflexivity.
    + apply P. injection St as <-. reflexivity.
    + apply P. injection St as <-. rewrite on_route_cases. destruct (hop =? U64MAX); [|destruct (find_hop hop 0 (g_out s))]; reflexivity.
    + apply P. injection St as <-. destruct (g_pair s) as [|[up j] r]; reflexivity.
    + injection St as St. symmetry in St. destruct (Q _ _ _ St) as (o0 & O & M). destruct (IH _ _ O) as (IH1 & IH2).
      destruct (i0 =? i); [|destruct up; destruct M; split; congruence]. destruct up; destruct M; split; congruence.
    + injection St as St. symmetry in St. destruct (out_at i0 (g_out s)) as [o1|] eqn:O1.
      * destruct (Q _ _ _ St) as (o0 & O & M). destruct (IH _ _ O) as (IH1 & IH2). destruct (i0 =? i) eqn:JI; [|destruct M; split; congruence].
        apply N.eqb_eq in JI. subst i0. apply out_at_nth in O1. destruct M. split; [|assumption]. congruence.
      * subst s'. destruct (i0 =? i) eqn:JI; [|auto]. apply N.eqb_eq in JI. subst i0. apply out_at_nth in E. congruence.
    + apply P. injection St as <-. unfold on_success. destruct u as [[src a]|]; [|reflexivity]. rewrite <- (plan_link false i0 s). destruct ok, src; reflexivity.
    + apply P. eapply plan_failed; exact St.
    + apply P. injection St as <-. apply plan_link.
    + apply P. injection St as <-. destruct ok; reflexivity.
Qed.
Lemma asked_failed : forall i b u told ok1 ok2 s s', on_failed i b u told ok1 ok2 s = Some s' -> g_asked s' = g_asked s.
Proof.
  intros i b u told ok1 ok2 s s' H. apply on_failed_cases in H. cbv zeta in H. fold (down_if i s) in H.
  destruct (down_if_same i s) as (_&_&_&_&_&_&_&_&_&E). rewrite <- E.
  destruct H as [(_ & ->)|(_ & src & a & _ & H)]; [reflexivity|]. destruct src; subst s'; destruct ok1, ok2, (x_cut a); reflexivity.
Qed.
Lemma asked_step : forall max cfg tr s e s', reach max cfg tr s -> step e s = Some s' ->
  g_asked s' = g_asked s ++ match e with Bundle src m _ _ _ => match way_of cfg tr src m with ToOutduct i => [(i, e_b m)] | _ => [] end | _ => [] end.
Proof.
  intros max cfg tr s e s' R St. destruct e; cbn [step] in St; try rewrite app_nil_r.
  - rewrite (on_bundle_way _ _ _ _ _ _ _ _ _ R) in St. destruct (way_of cfg tr src m); rewrite ?app_nil_r.
    + injection St as <-. destruct ok1, ok2; reflexivity.
    + destruct f; [injection St as <-; reflexivity|]. destruct (b_size (e_b m) =? 0); [injection St as <-; reflexivity|]. apply asked_failed in St. exact St.
    + eapply asked_failed; exact St.
  - injection St as <-. reflexivity.
  - injection St as <-. reflexivity.
  - injection St as <-. reflexivity.
  - injection St as <-. rewrite on_route_cases. destruct (hop =? U64MAX); [|destruct (find_hop hop 0 (g_out s))]; reflexivity.
  - injection St as <-. destruct (g_pair s) as [|[up j] r]; reflexivity.
  - injection St as <-. destruct (set_sched_same up i (if up then Some rate else None) s) as ((_&_&_&_&_&_&_&_&_&E)&_). exact E.
  - injection St as <-. destruct (out_at i (g_out s)) as [o|]; [|reflexivity]. destruct (set_sched_same (o_sched o) i (Some rate) s) as ((_&_&_&_&_&_&_&_&_&E)&_). exact E.
  - injection St as <-. unfold on_success. destruct u as [[src a]|]; [|reflexivity]. destruct (link_changed_same false i s) as (_&_&_&_&_&_&_&_&_&E). rewrite <- E.
    destruct ok, src; reflexivity.
  - eapply asked_failed; exact St.
  - injection St as <-. destruct (link_changed_same down i s) as (_&_&_&_&_&_&_&_&_&E). exact E.
  - injection St as <-. destruct ok; reflexivity.
Qed.

(** ** Storage keeps what egress lets go *)
Lemma stored_snoc : forall tr e b, stored tr b -> stored (tr ++ [e]) b.
Proof. intros tr e b (m & f & o1 & o2 & I & Q). exists m, f, o1, o2. split; [apply in_or_app; auto|exact Q]. Qed.
Lemma kept_failed : forall P i b src a ok1 ok2 s s', Forall P (g_kept s) -> (src = Storage -> x_cut a = false -> P b) ->
  on_failed i b (Some (src, a)) false ok1 ok2 s = Some s' -> Forall P (g_kept s').
Proof.
  intros P i b src a ok1 ok2 s s' K HP H. apply on_failed_cases in H. cbv zeta in H. fold (down_if i s) in H.
  destruct (down_if_same i s) as (_&_&_&_&_&_&_&E&_). rewrite <- E in K.
  destruct H as [(X & _)|(_ & src' & a' & Q & H)]; [discriminate|]. injection Q as <- <-. destruct src; subst s'.
  - destruct ok1, ok2; exact K.
  - specialize (HP eq_refl). destruct ok1, (x_cut a); cbn; auto using Forall_snoc.
Qed.
Lemma kept_run : forall max cfg tr s h d, fair_run max cfg tr s h d -> Forall (stored tr) (g_kept s).
Proof.
  intros max cfg tr s h d R. induction R as [s I|tr s h d e s' h' d' R IH F St].
  - apply init_shape in I. subst s. constructor.
  - pose proof (fair_reach _ _ _ _ _ _ R) as Rc. assert (K : Forall (stored (tr ++ [e])) (g_kept s)) by (eapply Forall_impl; [|exact IH]; intros; apply stored_snoc; assumption).
    clear IH. inversion F; subst; cbn [step] in St.
    + rewrite (on_bundle_way _ _ _ _ _ _ _ _ _ Rc), H in St. injection St as <-. exact K.
    + assert (P : src = Storage -> e_cut m = false -> stored (tr ++ [Bundle src m f ok1 ok2]) (e_b m)).
      { intros -> C. exists m, f, ok1, ok2. split; [apply in_last|auto]. }
      rewrite (on_bundle_way _ _ _ _ _ _ _ _ _ Rc) in St. destruct (way_of cfg tr src m) as [|i|] eqn:W.
      * specialize (P (way_storage _ _ _ _ W)). injection St as <-. destruct ok1; [destruct ok2; exact K|].
        destruct (e_cut m); cbn; auto using Forall_snoc.
      * destruct (H _ eq_refl) as (-> & Z). destruct (b_size (e_b m) =? 0) eqn:Z'; [lia|]. eapply kept_failed; [| |exact St]; [exact K|exact P].
      * eapply kept_failed; [| |exact St]; [exact K|exact P].
    + injection St as <-. unfold on_success. destruct u as [src a]. destruct (link_changed_same false i s) as (_&_&_&_&_&_&_&E&_). rewrite <- E in K.
      destruct ok, src; exact K.
    + injection St as <-. unfold on_success. destruct u as [src a]. destruct (link_changed_same false i s) as (_&_&_&_&_&_&_&E&_). rewrite <- E in K.
      destruct ok, src; exact K.
    + assert (O : is_owed tr u b) by (apply (held_owed _ _ _ _ _ _ R (mkHeld i b (Some u)) u); [apply in_elt|reflexivity]).
      destruct O as (src & m & f & o1 & o2 & IN & -> & ->). rewrite owed_answer in St. eapply kept_failed; [| |exact St]; [exact K|].
      intros -> C. exists m, f, o1, o2. split; [apply in_or_app; auto|auto].
    + unfold on_failed in St. injection St as <-. destruct (link_changed_same true i s) as (_&_&_&_&_&_&_&E&_). cbn. rewrite E. exact K.
    + destruct e; try contradiction; injection St as <-; try exact K.
      * rewrite on_route_cases. destruct (hop =? U64MAX); [|destruct (find_hop hop 0 (g_out s))]; exact K.
      * destruct (g_pair s) as [|[up i] r]; exact K.
      * destruct (set_sched_same up i (if up then Some rate else None) s) as ((_&_&_&_&_&_&_&E&_)&_). rewrite E. exact K.
      * destruct (out_at i (g_out s)) as [o|]; [|exact K]. destruct (set_sched_same (o_sched o) i (Some rate) s) as ((_&_&_&_&_&_&_&E&_)&_). rewrite E. exact K.
      * destruct (link_changed_same down i s) as (_&_&_&_&_&_&_&E&_). rewrite E. exact K.
      * destruct ok; exact K.
Qed.

(** ** Which outduct an answer names *)
Lemma agreed_prefix : forall cfg tr e, agreed cfg (tr ++ [e]) -> agreed cfg tr.
Proof. intros cfg tr e A tr1 src m f ok1 ok2 tr2 i E. apply (A tr1 src m f ok1 ok2 (tr2 ++ [e]) i). rewrite E, <- app_assoc. reflexivity. Qed.
Lemma held_names : forall max cfg tr s h d, fair_run max cfg tr s h d -> agreed cfg tr -> forall x u, In x h -> d_user x = Some u -> x_idx (snd u) = d_out x.
Proof.
  intros max cfg tr s h d R. induction R as [s I|tr s h d e s' h' d' R IH F St]; intros A x u Hx E; [destruct Hx|].
  pose proof (IH (agreed_prefix _ _ _ A)) as IH'. clear IH. inversion F; subst.
  - apply in_app_or in Hx. destruct Hx as [Hx|[<-|[]]]; [eauto|]. cbn [d_user d_out] in *. injection E as <-. cbn [owed snd x_idx].
    eapply A; [reflexivity|eassumption].
  - eauto.
  - apply IH'; auto. apply in_app_or in Hx. apply in_or_app. destruct Hx; [auto|right; right; auto].
  - apply in_app_or in Hx. destruct Hx as [Hx|[<-|Hx]]; [|discriminate|]; (apply IH'; [apply in_or_app; cbn; auto|auto]).
  - apply IH'; auto. apply in_app_or in Hx. apply in_or_app. destruct Hx; [auto|right; right; auto].
  - apply IH'; auto. apply in_app_or in Hx. apply in_or_app. destruct Hx; [auto|right; right; auto].
  - eauto.
Qed.

(** ** When egress starts *)
Lemma find_hop_in : forall hop l n, find_hop hop n l = None <-> ~ In hop (map o_hop l).
Proof.
  intros hop. induction l as [|o l IH]; intro n; cbn [find_hop map In]; [tauto|]. destruct (o_hop o =? hop) eqn:E.
  - split; [discriminate|]. intro H. exfalso. apply H. left. lia.
  - rewrite IH. split; [|tauto]. intros H [X|X]; [lia|tauto].
Qed.
Lemma load_iff : forall max cfg s, load max cfg s <> None <->
  Forall (fun c => (max * 2) mod W64 <= f_maxb c /\ f_layer c <> Unknown) cfg /\ NoDup (map f_hop cfg) /\ (forall c, In c cfg -> ~ In (f_hop c) (map o_hop (g_out s))).
Proof.
  intros max cfg. induction cfg as [|c cfg IH]; intro s; cbn [load].
  - split; [intros _; repeat split; [constructor|constructor|intros ? []]|intros _; discriminate].
  - destruct (f_maxb c <? (max * 2) mod W64) eqn:E1.
    { split; [congruence|]. intros (F & _). inversion F; subst. lia. }
    destruct (f_layer c) eqn:E2;
      try (split; [congruence|]; intros (F & _); inversion F; subst; cbv beta in *; tauto).
    all: destruct (find_hop (f_hop c) 0 (g_out s)) eqn:E3;
      [split; [congruence|]; intros (_ & _ & Q); exfalso; assert (N : find_hop (f_hop c) 0 (g_out s) = None) by (apply find_hop_in, Q; left; reflexivity); congruence|].
    all: apply find_hop_in in E3; cbv zeta; cbn [connects]; rewrite IH.
    all: match goal with |- context [map o_hop (g_out ?t)] => assert (M : map o_hop (g_out t) = map o_hop (g_out s) ++ [f_hop c]) end.
    all: try (cbn [g_out with_out]; rewrite map_app; reflexivity).
    all: try (rewrite <- (map_map fixed (fun p => fst (fst p))), link_changed_fixed, map_map; cbn [g_out with_out]; rewrite map_app; reflexivity).
    all: rewrite M; split.
    all: try (intros (F & D & Q); repeat split; [constructor; [split; [lia|congruence]|exact F] |
      cbn [map]; constructor; [intro I; apply in_map_iff in I; destruct I as (c' & Ec & Ic); apply (Q _ Ic); rewrite Ec; apply in_last|exact D] |
      intros c' [<-|Ic]; [exact E3|]; intro I; apply (Q _ Ic); apply in_or_app; auto]).
    all: intros (F & D & Q); inversion F; inversion D; subst; repeat split; [assumption|assumption|].
    all: intros c' Ic I; apply in_app_or in I; destruct I as [I|[I|[]]]; [exact (Q _ (or_intror Ic) I)|].
    all: match goal with X : ~ In _ (map f_hop _) |- _ => apply X; rewrite I; apply in_map; exact Ic end.
Qed.
