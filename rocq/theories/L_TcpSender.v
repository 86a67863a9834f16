(** Lemmas for C53. *)
From Coq Require Import PeanoNat NArith List Bool Lia ZifyBool ZifyN.
From Verif Require Import Base M_TcpSender S_TcpSender.
Import ListNotations.
Open Scope N_scope.

(** ** Lists *)
Lemma sent_app : forall a b, sent_of (a ++ b) = sent_of a ++ sent_of b.
Proof. intros; apply flat_map_app. Qed.
Lemma fails_app : forall a b, fails_of (a ++ b) = fails_of a ++ fails_of b.
Proof. intros; apply flat_map_app. Qed.
Lemma held_app : forall a b, held (a ++ b) = held a ++ held b.
Proof. intros; apply flat_map_app. Qed.
Lemma ends_app : forall a b, ends (a ++ b) = (ends a + ends b)%nat.
Proof. intros; unfold ends; now rewrite filter_app, app_length. Qed.
Lemma sent_failed : forall e, sent_of (failed e) = [].
Proof. intros e; unfold failed; now destruct (l_bundle e). Qed.
Lemma fails_failed : forall e, fails_of (failed e) = failed e.
Proof. intros e; unfold failed; now destruct (l_bundle e). Qed.
Lemma sent_held : forall l, sent_of (held l) = [].
Proof. induction l as [|e l IH]; [reflexivity|]. cbn [held flat_map]. rewrite sent_app, sent_failed. exact IH. Qed.
Lemma fails_held : forall l, fails_of (held l) = held l.
Proof. induction l as [|e l IH]; [reflexivity|]. cbn [held flat_map]. rewrite fails_app, fails_failed. f_equal. exact IH. Qed.
Lemma firstn_app_len : forall {A} (a b : list A), firstn (length a) (a ++ b) = a.
Proof. intros. rewrite firstn_app, firstn_all, Nat.sub_diag. apply app_nil_r. Qed.
Lemma skipn_app_len : forall {A} (a b : list A), skipn (length a) (a ++ b) = b.
Proof. intros. rewrite skipn_app, skipn_all, Nat.sub_diag. reflexivity. Qed.
Lemma nth_app : forall {A} (a b : list A) n x, nth_error a n = Some x -> nth_error (a ++ b) n = Some x.
Proof. intros A a b n x H. rewrite nth_error_app1; [exact H|]. apply nth_error_Some. congruence. Qed.
Lemma sublist_nil : forall {A} (l : list A), Sublist [] l.
Proof. induction l; constructor; assumption. Qed.
Lemma sublist_refl : forall {A} (l : list A), Sublist l l.
Proof. induction l; constructor; assumption. Qed.
Lemma sublist_app : forall {A} (a b c d : list A), Sublist a b -> Sublist c d -> Sublist (a ++ c) (b ++ d).
Proof. intros A a b c d H I. induction H as [|x l m H IH|x l m H IH]; cbn; [exact I|apply sub_skip; exact IH|apply sub_keep; exact IH]. Qed.
Lemma sublist_drop : forall {A} (a b l : list A), Sublist (a ++ b) l -> Sublist a l.
Proof.
  intros A a b l H. remember (a ++ b) as m eqn:E. revert a E. induction H as [|x l m H IH|x l m H IH]; intros a E.
  - destruct a; [constructor|discriminate].
  - apply sub_skip. now apply IH.
  - destruct a as [|y a]; [apply sublist_nil|]. injection E as -> E. apply sub_keep. now apply IH.
Qed.

(** ** Cutting *)
Definition chain (id mx : N) (b : bundle) := carries (b_tag b) id mx (b_size b).
Lemma cut_carries : forall n b id mx at_, 0 < mx -> at_ < b_size b -> b_size b - at_ <= N.of_nat n * mx ->
  chain id mx b at_ (cut n (b_tag b) id mx (b_size b) at_).
Proof.
  induction n as [|n IH]; intros b id mx at_ M A F; [lia|]. cbn [cut].
  destruct (at_ + N.min (b_size b - at_) mx =? b_size b) eqn:E.
  - apply N.eqb_eq in E. unfold chain. apply carry_last; cbn; auto; lia.
  - apply N.eqb_neq in E. unfold chain. apply carry_more; cbn; auto; try lia.
    apply IH; lia.
Qed.
Lemma segments_carries : forall b id mx, chain id mx b 0 (segments b id mx).
Proof.
  intros b id mx. unfold segments, fragments. destruct (negb (mx =? 0) && (mx <? b_size b)) eqn:E.
  - apply andb_true_iff in E. destruct E as [E1 E2]. apply negb_true_iff, N.eqb_neq in E1. apply N.ltb_lt in E2.
    apply cut_carries; lia.
  - unfold chain. apply carry_last; cbn; auto. intros M. destruct (mx =? 0) eqn:E1; [apply N.eqb_eq in E1; lia|]. cbn in E. lia.
Qed.
Lemma carries_split : forall tag id mx size at_ l, carries tag id mx size at_ l ->
  exists body g, l = body ++ [g] /\ Forall (fun g => w_end g = false) body /\ w_end g = true /\ w_total g = size.
Proof.
  intros tag id mx size at_ l H. induction H as [at_ g T I S E W _ _|at_ g l T I S E W _ _ _ IH].
  - exists [], g. repeat split; auto.
  - destruct IH as (body & g' & -> & F & E' & W'). exists (g :: body), g'. repeat split; auto.
Qed.
Lemma segments_split : forall b id mx, exists body g,
  segments b id mx = body ++ [g] /\ Forall (fun g => w_end g = false) body /\ w_end g = true /\ w_total g = b_size b.
Proof. intros b id mx. exact (carries_split _ _ _ _ _ _ (segments_carries b id mx)). Qed.
Lemma carries_id : forall tag id mx size at_ l, carries tag id mx size at_ l -> Forall (fun g => w_id g = id) l.
Proof. intros tag id mx size at_ l H; induction H; constructor; auto. Qed.
Lemma ends_none : forall l, Forall (fun g => w_end g = false) l -> ends l = 0%nat.
Proof. intros l F; induction F as [|g l E F IH]; [reflexivity|]. unfold ends in *. cbn. now rewrite E. Qed.
Lemma ends_segments : forall b id mx, ends (segments b id mx) = 1%nat.
Proof.
  intros b id mx. destruct (segments_split b id mx) as (body & g & E & F & G & _). rewrite E, ends_app, (ends_none _ F).
  unfold ends; cbn. now rewrite G.
Qed.
Lemma ends_part : forall b id mx j, (j < length (segments b id mx))%nat -> ends (firstn j (segments b id mx)) = 0%nat.
Proof.
  intros b id mx j H. destruct (segments_split b id mx) as (body & g & E & F & _). rewrite E in *. rewrite app_length in H. cbn in H.
  rewrite firstn_app. replace (j - length body)%nat with 0%nat by lia. cbn. rewrite app_nil_r. apply ends_none.
  apply Forall_forall. intros x I. rewrite Forall_forall in F. apply F. apply firstn_In in I || idtac.
  revert I. clear. revert j. induction body as [|y body IH]; intros [|j] I; cbn in I; try contradiction. destruct I as [->|I]; [left; auto|right; eauto].
Qed.
Lemma segments_len : forall b id mx, (0 < length (segments b id mx))%nat.
Proof. intros b id mx. destruct (segments_split b id mx) as (body & g & E & _). rewrite E, app_length. cbn. lia. Qed.
Lemma cut_len : forall n tag id mx size at_, (length (cut n tag id mx size at_) <= n)%nat.
Proof. induction n as [|n IH]; intros; cbn; [lia|]. destruct (_ =? size); cbn; [lia|]. specialize (IH tag id mx size (at_ + N.min (size - at_) mx)). lia. Qed.
Lemma segments_many : forall b id mx, mx <> 0 -> N.of_nat (length (segments b id mx)) <= b_size b / mx + 1.
Proof.
  intros b id mx M. unfold segments. destruct (fragments mx (b_size b)).
  - pose proof (cut_len (N.to_nat (b_size b / mx + 1)) (b_tag b) id mx (b_size b) 0). lia.
  - cbn [length]. generalize (b_size b / mx). intros; lia.
Qed.

(** ** The sender *)
Definition is_data (e : elem) : bool := match l_seg e with Some _ => true | None => false end.
Definition segs_of (l : list elem) : list seg := flat_map (fun e => match l_seg e with Some g => [g] | None => [] end) l.
Definition clean (e : elem) : Prop := l_seg e = None -> l_bundle e = None.
(** Everything that was posted was written, failed with a report, or is still there, in order. *)
Definition tracks (all : list elem) (out : list report) (t : sender) : Prop :=
  exists W L, filter is_data (W ++ L ++ t_queue t ++ t_posted t) = all /\ t_wire t = segs_of W /\ fails_of out = held L /\
    Forall clean (W ++ L ++ t_queue t ++ t_posted t) /\ (t_err t = false -> L = []) /\ (t_err t = true -> t_queue t = []).
Lemma segs_app : forall a b, segs_of (a ++ b) = segs_of a ++ segs_of b.
Proof. intros; apply flat_map_app. Qed.
Lemma tracks_new : tracks [] [] new_sender.
Proof. exists [], []. repeat split; auto. cbn. constructor. Qed.
Lemma tracks_post : forall all out t l, Forall clean l -> tracks all out t -> tracks (all ++ filter is_data l) out (post l t).
Proof.
  intros all out t l C (W & L & A & B & D & E & F & G). exists W, L. cbn. repeat split; auto.
  - rewrite !app_assoc. rewrite filter_app. f_equal. rewrite <- !app_assoc. exact A.
  - rewrite !app_assoc. apply Forall_app. split; [rewrite <- !app_assoc; exact E|exact C].
Qed.
Lemma tracks_run : forall all out t, tracks all out t -> tracks all (out ++ snd (run_posted t)) (fst (run_posted t)).
Proof.
  intros all out [p q err w] (W & L & A & B & D & E & F & G). unfold run_posted. cbn in *.
  destruct p as [|e p]; cbn.
  - rewrite app_nil_r. exists W, L; cbn; repeat split; auto.
  - destruct err; cbn.
    + rewrite (G eq_refl) in *. cbn in *. exists W, (L ++ [e]). cbn. rewrite <- app_assoc. cbn. repeat split; auto; try discriminate.
      rewrite fails_app, held_app, D. cbn. now rewrite fails_failed, app_nil_r.
    + exists W, L. cbn. rewrite app_nil_r. rewrite <- (app_assoc q). repeat split; auto. discriminate.
Qed.
Lemma tracks_wrote : forall all out t, tracks all out t -> tracks all out (fst (wrote t)).
Proof.
  intros all out [p q err w] (W & L & A & B & D & E & F & G). unfold wrote. cbn in *.
  destruct q as [|e q]; cbn; [exists W, L; cbn; repeat split; auto|].
  destruct err; [exfalso; specialize (G eq_refl); discriminate G|]. rewrite (F eq_refl) in *. exists (W ++ [e]), []. cbn in *. rewrite <- app_assoc. cbn.
  repeat split; auto; [|discriminate]. rewrite segs_app, B. cbn. now rewrite app_nil_r.
Qed.
Lemma tracks_fail : forall all out t, tracks all out t -> tracks all (out ++ snd (write_failed t)) (fst (write_failed t)).
Proof.
  intros all out [p q err w] (W & L & A & B & D & E & F & G). unfold write_failed. cbn in *.
  destruct q as [|e q]; cbn; [rewrite app_nil_r; exists W, L; cbn; repeat split; auto|].
  destruct err; [exfalso; specialize (G eq_refl); discriminate G|]. rewrite (F eq_refl) in *. exists W, (e :: q). cbn. repeat split; auto.
  cbn in D. change (failed e ++ flat_map failed q) with (held (e :: q)). rewrite fails_app, D, fails_held. reflexivity.
Qed.
Lemma tracks_sent : forall all out t u, tracks all out t -> tracks all (out ++ [Sent u]) t.
Proof. intros all out t u (W & L & A & B & D & E). exists W, L. repeat split; try tauto. rewrite fails_app, D. cbn. apply app_nil_r. Qed.
Lemma tracks_same : forall all out t, tracks all out t -> tracks all (out ++ []) t.
Proof. intros. now rewrite app_nil_r. Qed.
Lemma held_data : forall l, Forall clean l -> held (filter is_data l) = held l.
Proof.
  intros l C. induction C as [|e l C F IH]; [reflexivity|]. cbn [filter]. unfold is_data at 1. unfold clean in C. destruct (l_seg e) eqn:E.
  - cbn [held flat_map]. f_equal. exact IH.
  - cbn [held flat_map]. unfold failed. rewrite (C eq_refl). exact IH.
Qed.
Lemma segs_data : forall l, segs_of (filter is_data l) = segs_of l.
Proof.
  induction l as [|e l IH]; [reflexivity|]. cbn [filter]. unfold is_data at 1. destruct (l_seg e) eqn:E; cbn [segs_of flat_map]; rewrite E; cbn; [f_equal|]; exact IH.
Qed.
(** A data element holds a bundle if and only if it is the last of its bundle. *)
Definition tidy (e : elem) : Prop := exists g, l_seg e = Some g /\ (w_end g = true <-> l_bundle e <> None).
Lemma held_len : forall l, Forall tidy l -> length (held l) = ends (segs_of l).
Proof.
  intros l T. induction T as [|e l (g & G & I) F IH]; [reflexivity|]. cbn [held flat_map segs_of]. rewrite app_length. fold (held l) (segs_of l).
  rewrite ends_app, IH. f_equal. rewrite G. unfold failed, ends. cbn. destruct (l_bundle e) eqn:E.
  - destruct (w_end g) eqn:W; [reflexivity|]. assert (false = true) by (apply I; discriminate). discriminate.
  - destruct (w_end g) eqn:W; [|reflexivity]. exfalso. apply I; auto.
Qed.
(** What a tracked sender has done and still holds. *)
Lemma tracks_facts : forall all out t, tracks all out t -> Forall tidy all ->
  (exists rest, segs_of all = t_wire t ++ rest) /\
  fails_of out ++ held (t_queue t) ++ held (t_posted t) = skipn (ends (t_wire t)) (held all).
Proof.
  intros all out t (W & L & A & B & D & E & _) T. subst all. split.
  - exists (segs_of (L ++ t_queue t ++ t_posted t)). rewrite segs_data, segs_app, B. reflexivity.
  - rewrite D, <- !held_app. rewrite (held_data _ E). rewrite (held_app W). rewrite filter_app in T. apply Forall_app in T. destruct T as [T _].
    apply Forall_app in E. destruct E as [E _].
    replace (ends (t_wire t)) with (length (held W)); [now rewrite skipn_app_len|].
    rewrite <- (held_data W E). rewrite (held_len _ T), segs_data, B. reflexivity.
Qed.
Lemma elements_clean : forall b l, Forall clean (elements b l).
Proof. intros b l. apply Forall_forall. intros e I. apply in_map_iff in I. destruct I as (g & <- & _). intros H; discriminate. Qed.
Lemma elements_tidy : forall b l, Forall tidy (elements b l).
Proof.
  intros b l. apply Forall_forall. intros e I. apply in_map_iff in I. destruct I as (g & <- & _). exists g. cbn. split; [reflexivity|].
  destruct (w_end g); split; intros; congruence.
Qed.
Lemma elements_data : forall b l, filter is_data (elements b l) = elements b l.
Proof. intros b l. induction l as [|g l IH]; [reflexivity|]. cbn. f_equal. exact IH. Qed.
Lemma elements_segs : forall b l, segs_of (elements b l) = l.
Proof. intros b l. induction l as [|g l IH]; [reflexivity|]. cbn. f_equal. exact IH. Qed.
Lemma elements_held : forall b id mx, held (elements b (segments b id mx)) = [Failed b None].
Proof.
  intros b id mx. destruct (segments_split b id mx) as (body & g & -> & F & G & _). unfold elements. rewrite map_app, held_app. cbn. rewrite G.
  cbn. replace (held (map _ body)) with (@nil report); [reflexivity|]. symmetry. induction F as [|x body X F IH]; [reflexivity|].
  cbn. rewrite X. cbn. exact IH.
Qed.

(** ** Where an acknowledgment falls *)
Lemma locate : forall {A} (f : A -> list seg) (acc : list A) k,
  (forall p, exists body g, f p = body ++ [g] /\ Forall (fun g => w_end g = false) body /\ w_end g = true) ->
  (k <= length (flat_map f acc))%nat ->
  exists A1 A2 j, acc = A1 ++ A2 /\ k = (length (flat_map f A1) + j)%nat /\ ends (firstn k (flat_map f acc)) = length A1 /\
    match A2 with [] => j = 0%nat | p :: _ => (j < length (f p))%nat end.
Proof.
  intros A f acc. induction acc as [|p acc IH]; intros k SP H.
  - exists [], [], 0%nat. cbn in *. assert (k = 0)%nat by lia. subst. repeat split; auto.
  - cbn [flat_map] in *. rewrite app_length in H. destruct (Nat.lt_ge_cases k (length (f p))) as [K|K].
    + exists [], (p :: acc), k. repeat split; auto. rewrite firstn_app. replace (k - length (f p))%nat with 0%nat by lia.
      cbn [firstn]. rewrite app_nil_r. destruct (SP p) as (body & g & E & F & _). rewrite E in *. rewrite app_length in K. cbn in K.
      rewrite firstn_app. replace (k - length body)%nat with 0%nat by lia. cbn [firstn]. rewrite app_nil_r. apply ends_none.
      apply Forall_forall. intros x X. rewrite Forall_forall in F. apply F. rewrite <- (firstn_skipn k body). apply in_or_app. now left.
    + destruct (IH (k - length (f p))%nat SP) as (A1 & A2 & j & -> & B & C & D); [lia|]. exists (p :: A1), A2, j. cbn [flat_map]. rewrite app_length.
      repeat split; auto; [lia|]. rewrite firstn_app, firstn_all2 by lia. rewrite ends_app, C. cbn [length]. change (S (length A1)) with (1 + length A1)%nat. f_equal.
      destruct (SP p) as (body & g & E & F & G). rewrite E, ends_app, (ends_none _ F). unfold ends. cbn. now rewrite G.
Qed.
Lemma firstn_prefix : forall {A} (w r : list A) k, (k <= length w)%nat -> firstn k w = firstn k (w ++ r).
Proof. intros A w r k H. rewrite firstn_app. replace (k - length w)%nat with 0%nat by lia. cbn. now rewrite app_nil_r. Qed.
Lemma nth_mid : forall {A} (a b c : list A) j, (j < length b)%nat -> nth_error (a ++ b ++ c) (length a + j) = nth_error b j.
Proof. intros A a b c j H. rewrite nth_error_app2 by lia. replace (length a + j - length a)%nat with j by lia. now rewrite nth_error_app1. Qed.
Lemma nth_last : forall {A} (a : list A) x j, (j < length (a ++ [x]))%nat ->
  (S j = length (a ++ [x]) /\ nth_error (a ++ [x]) j = Some x) \/ ((S j < length (a ++ [x]))%nat /\ exists y, In y a /\ nth_error (a ++ [x]) j = Some y).
Proof.
  intros A a x j H. rewrite app_length in *. cbn in *. destruct (Nat.eq_dec j (length a)) as [->|N].
  - left. split; [lia|]. rewrite nth_error_app2, Nat.sub_diag by lia. reflexivity.
  - right. split; [lia|]. rewrite nth_error_app1 by lia. destruct (nth_error a j) as [y|] eqn:E.
    + exists y. split; auto. eapply nth_error_In; eauto.
    + apply nth_error_None in E. lia.
Qed.

(** ** Version 3 *)
Definition all3 (c : cfg3) (l : list (bundle * N)) : list elem := flat_map (fun p => elements (fst p) (segments (fst p) 0 (c_frag c))) l.
Lemma all3_tidy : forall c l, Forall tidy (all3 c l).
Proof. intros c l. induction l as [|p l IH]; [constructor|]. cbn. apply Forall_app. split; [apply elements_tidy|exact IH]. Qed.
Lemma all3_segs : forall c l, segs_of (all3 c l) = data3 c l.
Proof. intros c l. induction l as [|p l IH]; [reflexivity|]. cbn. rewrite segs_app, elements_segs. f_equal. exact IH. Qed.
Lemma all3_held : forall c l, held (all3 c l) = map (fun p => Failed (fst p) None) l.
Proof. intros c l. induction l as [|p l IH]; [reflexivity|]. cbn. rewrite held_app, elements_held. cbn. f_equal. exact IH. Qed.
Lemma clean_other : clean (mkElem None None None).
Proof. intros _. reflexivity. Qed.

(** Any peer, any number of connections. *)
Definition inv3 (s : st3) : Prop :=
  Forall (fun e => n_frags e = [] \/ (n_idx e < length (n_frags e))%nat) (v_ring s) /\
  sent_of (v_out s) ++ map (fun e => Some (n_user e)) (v_ring s) = map (fun p => Some (snd p)) (v_acc s).
Lemma run_posted_sent : forall t, sent_of (snd (run_posted t)) = [].
Proof. intros [p q err w]. unfold run_posted. cbn. destruct p as [|e p]; [reflexivity|]. destruct err; cbn; [apply sent_failed|reflexivity]. Qed.
Lemma write_failed_sent : forall t, sent_of (snd (write_failed t)) = [].
Proof. intros [p q err w]. unfold write_failed. cbn. destruct q as [|e q]; [reflexivity|]. change (sent_of (held (e :: q)) = []). apply sent_held. Qed.
Lemma inv3_step : forall c e s, inv3 s -> exists s', step3 c e s = Some s' /\ inv3 s'.
Proof.
  intros c e [ring ready snd_ out acc acks] (R & U). cbn in R, U.
  assert (Q : forall t l, sent_of l = [] -> inv3 (with_snd3 t l (mk3 ring ready snd_ out acc acks))).
  { intros t l L. split; cbn; [exact R|]. rewrite sent_app, L, app_nil_r. exact U. }
  destruct e as [b u| | | | |n| |]; cbn [step3 v_snd].
  - eexists; split; [reflexivity|]. unfold forward3. cbn [v_ready v_ring]. destruct ready; cbn [negb]; [|split; assumption].
    destruct (c_unacked c + 4 <=? _); [split; assumption|]. split; cbn.
    + apply Forall_app. split; [exact R|]. constructor; [|constructor]. cbn. destruct (fragments (c_frag c) (b_size b)); [right|now left].
      rewrite map_length. apply segments_len.
    + rewrite !map_app, app_assoc, U. reflexivity.
  - eexists; split; [reflexivity|]. now apply Q.
  - pose proof (run_posted_sent snd_). destruct (run_posted snd_) as [t l]. eexists; split; [reflexivity|]. now apply Q.
  - eexists; split; [reflexivity|]. now apply Q.
  - pose proof (write_failed_sent snd_). destruct (write_failed snd_) as [t l]. eexists; split; [reflexivity|]. now apply Q.
  - unfold ack3. cbn [v_ring]. destruct ring as [|e r].
    + eexists; split; [reflexivity|]. split; cbn; [constructor|exact U].
    + inversion R as [|? ? E R']; subst. destruct e as [sz fr ix us]. cbn [n_frags n_idx n_size n_user] in *.
      assert (FIN : forall (d : bool) e', n_frags e' = [] \/ (n_idx e' < length (n_frags e'))%nat -> n_user e' = us ->
        inv3 (mk3 (if d then r else e' :: r) ready snd_ (out ++ if d then [Sent (Some (n_user e'))] else []) acc (acks ++ [n]))).
      { intros d e' O US. unfold inv3. cbn [v_ring v_out v_acc]. destruct d; (split; [try constructor; auto|]); rewrite sent_app, <- app_assoc.
        - rewrite US. exact U.
        - cbn [map]. rewrite US. exact U. }
      destruct fr as [|f fr].
      * eexists; split; [reflexivity|]. apply FIN; [now left|reflexivity].
      * destruct E as [E|E]; [discriminate|]. destruct (nth_error (f :: fr) ix) as [x|] eqn:X; [|apply nth_error_None in X; lia].
        eexists; split; [reflexivity|]. apply FIN; [|reflexivity]. cbn [n_frags n_idx].
        destruct (Nat.eqb (S ix) (length (f :: fr))) eqn:L; [now left|right]. apply Nat.eqb_neq in L. lia.
  - eexists; split; [reflexivity|]. split; assumption.
  - destruct (quiet snd_ && _); eexists; (split; [reflexivity|]); split; assumption.
Qed.
Lemma inv3_run : forall c l s, inv3 s -> exists s', run3 c l s = Some s' /\ inv3 s'.
Proof.
  intros c l. induction l as [|e l IH]; intros s I; [exists s; split; auto|]. cbn [run3].
  destruct (inv3_step c e s I) as (s' & -> & I'). apply IH. exact I'.
Qed.

(** One connection, a peer that acknowledges what it gets. *)
Definition ent3 (c : cfg3) (j : nat) (p : bundle * N) : entry :=
  mkEntry (b_size (fst p)) (if fragments (c_frag c) (b_size (fst p)) then map w_total (segments (fst p) 0 (c_frag c)) else []) j (snd p).
Definition hon3 (c : cfg3) (s : st3) : Prop :=
  tracks (all3 c (v_acc s)) (v_out s) (v_snd s) /\ (length (v_acks s) <= length (t_wire (v_snd s)))%nat /\
  exists A1 A2 j, v_acc s = A1 ++ A2 /\ v_ring s = match A2 with [] => [] | p :: r => ent3 c j p :: map (ent3 c 0) r end /\
    match A2 with [] => j = 0%nat | p :: _ => (j < length (segments (fst p) 0 (c_frag c)))%nat end /\
    length (v_acks s) = (length (data3 c A1) + j)%nat /\ sent_of (v_out s) = map (fun p => Some (snd p)) A1.
Lemma wire_run : forall t, t_wire (fst (run_posted t)) = t_wire t.
Proof. intros [p q err w]. unfold run_posted. cbn. destruct p; [reflexivity|]. now destruct err. Qed.
Lemma wire_fail : forall t, t_wire (fst (write_failed t)) = t_wire t.
Proof. intros [p q err w]. unfold write_failed. cbn. now destruct q. Qed.
Lemma wire_wrote : forall t, (length (t_wire t) <= length (t_wire (fst (wrote t))))%nat.
Proof. intros [p q err w]. unfold wrote. cbn. destruct q; cbn; [lia|]. rewrite app_length. lia. Qed.
Lemma unfragmented : forall b id mx, fragments mx (b_size b) = false -> segments b id mx = [mkSeg (b_tag b) true true id (b_size b) (b_size b)].
Proof. intros b id mx E. unfold segments. now rewrite E. Qed.
Lemma hon3_step : forall c e s s', hon3 c s -> step3 c e s = Some s' -> e <> Up3 ->
  match e with Ack3 n => exists g, nth_error (t_wire (v_snd s)) (length (v_acks s)) = Some g /\ n = w_total g | _ => True end -> hon3 c s'.
Proof.
  intros c e [ring ready snd_ out acc acks] s' (T & K & A1 & A2 & j & A & R & J & L & U) ST NU HA. cbn [v_acc v_out v_snd v_acks v_ring] in *.
  assert (Q : forall t l, sent_of l = [] -> tracks (all3 c acc) (out ++ l) t -> (length (t_wire snd_) <= length (t_wire t))%nat ->
    hon3 c (with_snd3 t l (mk3 ring ready snd_ out acc acks))).
  { intros t l E1 E2 E3. split; [exact E2|]. split; [cbn; lia|]. exists A1, A2, j. cbn. rewrite sent_app, E1, app_nil_r. auto 10. }
  destruct e as [b u| | | | |n| |]; cbn [step3 v_snd] in ST.
  - injection ST as <-. unfold forward3. cbn [v_ready v_ring]. destruct ready; cbn [negb].
    2: { split; [exact T|]. split; [exact K|]. exists A1, A2, j; auto. }
    destruct (c_unacked c + 4 <=? _). { split; [exact T|]. split; [exact K|]. exists A1, A2, j; auto. }
    split; cbn [v_acc v_out v_snd v_acks v_ring].
    + unfold all3. rewrite flat_map_app. cbn [flat_map fst]. rewrite app_nil_r. fold (all3 c acc).
      replace (elements b (segments b 0 (c_frag c))) with
        (filter is_data ((if c_length c then [mkElem None None None] else []) ++ elements b (segments b 0 (c_frag c)))) at 1.
      2: { rewrite filter_app, elements_data. destruct (c_length c); reflexivity. }
      apply tracks_post; [|exact T]. apply Forall_app. split; [destruct (c_length c); repeat constructor; apply clean_other|apply elements_clean].
    + split; [exact K|]. exists A1, (A2 ++ [(b, u)]), j. split; [rewrite A, app_assoc; reflexivity|]. split.
      * rewrite R. destruct A2 as [|p A2]; cbn; [now rewrite J|]. rewrite map_app. reflexivity.
      * split; [|split; [exact L|exact U]]. destruct A2 as [|p A2]; cbn; [rewrite J; apply segments_len|exact J].
  - injection ST as <-. apply Q; [reflexivity| |cbn; lia]. apply tracks_same.
    pose proof (tracks_post _ _ _ [mkElem None None None] ltac:(repeat constructor; apply clean_other) T) as P. cbn in P. rewrite app_nil_r in P. exact P.
  - pose proof (tracks_run _ _ _ T) as P. pose proof (run_posted_sent snd_). pose proof (wire_run snd_). destruct (run_posted snd_) as [t l]. cbn in *.
    injection ST as <-. apply Q; auto. now rewrite H0.
  - injection ST as <-. apply Q; [reflexivity|apply tracks_same, tracks_wrote, T|apply wire_wrote].
  - pose proof (tracks_fail _ _ _ T) as P. pose proof (write_failed_sent snd_). pose proof (wire_fail snd_). destruct (write_failed snd_) as [t l]. cbn in *.
    injection ST as <-. apply Q; auto. now rewrite H0.
  - destruct HA as (g & G & ->). destruct (tracks_facts _ _ _ T (all3_tidy c acc)) as ((rest & P) & _). rewrite all3_segs in P.
    assert (D : nth_error (data3 c acc) (length acks) = Some g) by (rewrite P; now apply nth_app).
    assert (KL : (S (length acks) <= length (t_wire snd_))%nat). { apply Nat.le_succ_l. apply nth_error_Some. congruence. }
    destruct A2 as [|p A2].
    { rewrite app_nil_r in A. subst acc j. assert (nth_error (data3 c A1) (length acks) = None) by (apply nth_error_None; lia). congruence. }
    subst acc. unfold data3 in D. rewrite flat_map_app in D. cbn [flat_map] in D. fold (data3 c A1) (data3 c A2) in D. rewrite L, nth_mid in D by exact J.
    destruct (segments_split (fst p) 0 (c_frag c)) as (body & h & E & F & HE & HT).
    assert (CL : ends [h] = 1%nat) by (unfold ends; cbn; now rewrite HE).
    unfold ack3 in ST. cbn [v_ring] in ST. rewrite R in ST.
    remember (map (ent3 c 0) A2) as tl eqn:TL. unfold ent3 in ST. subst tl. cbn [n_frags n_idx n_size n_user v_ready v_snd v_out v_acc v_acks] in ST.
    (* finished: the next entry *)
    assert (FIN : S j = length (segments (fst p) 0 (c_frag c)) -> forall x, out ++ [Sent (Some (snd p))] = x ->
      hon3 c (mk3 (map (ent3 c 0) A2) ready snd_ x (A1 ++ p :: A2) (acks ++ [w_total g]))).
    { intros SJ x <-. split; [apply tracks_sent, T|]. cbn. split; [rewrite app_length; cbn; lia|]. exists (A1 ++ [p]), A2, 0%nat.
      split; [now rewrite <- app_assoc|]. split; [now destruct A2|]. split; [destruct A2; [reflexivity|apply segments_len]|].
      split; [|rewrite sent_app, U, map_app; reflexivity].
      rewrite app_length. unfold data3. rewrite flat_map_app. cbn [flat_map]. rewrite app_nil_r, app_length. cbn [length]. fold (data3 c A1). lia. }
    destruct (fragments (c_frag c) (b_size (fst p))) eqn:FR.
    + destruct (map w_total (segments (fst p) 0 (c_frag c))) as [|f fr] eqn:M.
      { apply (f_equal (@length N)) in M. rewrite map_length in M. pose proof (segments_len (fst p) 0 (c_frag c)). cbn in M. lia. }
      rewrite <- M in ST. assert (NE : nth_error (map w_total (segments (fst p) 0 (c_frag c))) j = Some (w_total g)) by (apply map_nth_error; exact D).
      rewrite NE in ST. rewrite map_length in ST.
      rewrite E in J, D. destruct (nth_last body h j J) as [(SJ & X)|(SJ & y & Y & X)].
      * rewrite E in ST. rewrite SJ, Nat.eqb_refl in ST. cbn [n_frags n_size n_user] in ST.
        assert (g = h) by congruence. subst h. rewrite HT, N.eqb_refl in ST. injection ST as <-. rewrite <- HT. apply FIN; [rewrite E; exact SJ|reflexivity].
      * destruct (Nat.eqb (S j) (length (segments (fst p) 0 (c_frag c)))) eqn:Q1; [apply Nat.eqb_eq in Q1; rewrite E in Q1; lia|].
        cbn [n_frags n_size n_user] in ST. rewrite M in ST. injection ST as <-. split; [apply tracks_same, T|]. cbn. split; [rewrite app_length; cbn; lia|].
        exists A1, (p :: A2), (S j). split; [reflexivity|]. split; [unfold ent3 at 2; rewrite FR, M; reflexivity|]. split; [rewrite E; exact SJ|].
        split; [rewrite app_length; cbn; lia|rewrite app_nil_r; exact U].
    + assert (J0 : j = 0%nat) by (rewrite (unfragmented _ _ _ FR) in J; cbn in J; lia). subst j.
      rewrite (unfragmented _ _ _ FR) in D. cbn in D. injection D as <-. cbn [w_total n_frags n_size n_user] in ST. rewrite N.eqb_refl in ST.
      injection ST as <-. cbn [w_total] in FIN. apply FIN; [|reflexivity]. rewrite (unfragmented _ _ _ FR). reflexivity.
  - injection ST as <-. split; [exact T|]. split; [exact K|]. exists A1, A2, j; auto.
  - contradiction.
Qed.
Lemma hon3_run : forall c l s s', hon3 c s -> run3 c l s = Some s' -> ~ In Up3 l -> honest3 c l s -> hon3 c s'.
Proof.
  intros c l. induction l as [|e l IH]; intros s s' H R N O; cbn in R; [injection R as <-; exact H|].
  destruct (step3 c e s) as [s1|] eqn:E; [|discriminate]. destruct O as (O1 & O2). rewrite E in O2. apply (IH s1 s'); auto.
  - apply (hon3_step c e s s1); auto. intros ->. apply N. now left.
  - intros X. apply N. now right.
Qed.
Lemma hon3_facts : forall c s, hon3 c s ->
  (exists rest, data3 c (v_acc s) = t_wire (v_snd s) ++ rest) /\
  sent_of (v_out s) = map (fun p => Some (snd p)) (firstn (ends (firstn (length (v_acks s)) (t_wire (v_snd s)))) (v_acc s)) /\
  fails_of (v_out s) ++ held (t_queue (v_snd s)) ++ held (t_posted (v_snd s)) =
    map (fun p => Failed (fst p) None) (skipn (ends (t_wire (v_snd s))) (v_acc s)).
Proof.
  intros c s (T & K & A1 & A2 & j & A & R & J & L & U). destruct (tracks_facts _ _ _ T (all3_tidy c _)) as ((rest & P) & H). rewrite all3_segs in P.
  split; [eauto|]. split.
  - rewrite U. f_equal.
    rewrite (firstn_prefix _ rest _ K), <- P. 
    assert (DA : data3 c (A1 ++ A2) = data3 c A1 ++ data3 c A2) by apply flat_map_app.
    rewrite L, A, DA, (firstn_app _ (data3 c A1)), (firstn_all2 (data3 c A1)) by lia.
    replace (length (data3 c A1) + j - length (data3 c A1))%nat with j by lia. rewrite ends_app.
    assert (E0 : ends (firstn j (flat_map (fun p => segments (fst p) 0 (c_frag c)) A2)) = 0%nat).
    { destruct A2 as [|p A2]; [now rewrite firstn_nil|]. cbn [flat_map]. rewrite firstn_app. replace (j - length (segments (fst p) 0 (c_frag c)))%nat with 0%nat by lia. cbn [firstn]. rewrite app_nil_r. now apply ends_part. }
    fold (data3 c A2) in E0. rewrite E0, Nat.add_0_r. replace (ends (data3 c A1)) with (length A1); [symmetry; apply firstn_app_len|].
    clear. induction A1 as [|p A1 IH]; [reflexivity|]. unfold data3. cbn [flat_map]. rewrite ends_app, ends_segments. cbn [length]. unfold data3 in IH. rewrite <- IH. reflexivity.
  - rewrite H, all3_held, skipn_map. reflexivity.
Qed.
