(** Lemmas for C53: TCPCL version 4 and STCP. *)
From Coq Require Import PeanoNat NArith List Bool Lia ZifyBool ZifyN.
From Verif Require Import Base M_TcpSender S_TcpSender L_TcpSender.
Import ListNotations.
Open Scope N_scope.

(** ** Version 4 *)
Definition seg4 (mru : N) (p : bundle * N * N) : list seg := segments (fst (fst p)) (snd p) mru.
Definition ent4 (u : N) (g : seg) : ack * option N := (ack_of g, if w_end g then Some u else None).
Definition ents4 (mru : N) (p : bundle * N * N) : list (ack * option N) := map (ent4 (snd (fst p))) (seg4 mru p).
Definition all4 (mru : N) (l : list (bundle * N * N)) : list elem := flat_map (fun p => elements (fst (fst p)) (seg4 mru p)) l.
Lemma all4_tidy : forall m l, Forall tidy (all4 m l).
Proof. intros m l. induction l as [|p l IH]; [constructor|]. cbn. apply Forall_app. split; [apply elements_tidy|exact IH]. Qed.
Lemma all4_segs : forall m l, segs_of (all4 m l) = data4 m l.
Proof. intros m l. induction l as [|p l IH]; [reflexivity|]. cbn. rewrite segs_app, elements_segs. f_equal. exact IH. Qed.
Lemma all4_held : forall m l, held (all4 m l) = map (fun p => Failed (fst (fst p)) None) l.
Proof. intros m l. induction l as [|p l IH]; [reflexivity|]. cbn. unfold seg4 at 1. rewrite held_app, elements_held. cbn. f_equal. exact IH. Qed.
Lemma data4_app : forall m a b, data4 m (a ++ b) = data4 m a ++ data4 m b.
Proof. intros. apply flat_map_app. Qed.
Lemma ents4_len : forall m l, length (flat_map (ents4 m) l) = length (data4 m l).
Proof.
  intros m l. induction l as [|p l IH]; [reflexivity|]. unfold data4. cbn [flat_map]. rewrite !app_length. fold (data4 m l). rewrite IH. f_equal. apply map_length.
Qed.
Lemma seg4_split : forall m p, exists body g, seg4 m p = body ++ [g] /\ Forall (fun g => w_end g = false) body /\ w_end g = true.
Proof. intros m p. destruct (segments_split (fst (fst p)) (snd p) m) as (body & g & ? & ? & ? & ?). exists body, g. auto. Qed.
Lemma data4_ends : forall m l, ends (data4 m l) = length l.
Proof. intros m l. induction l as [|p l IH]; [reflexivity|]. unfold data4. cbn [flat_map]. rewrite ends_app, ends_segments. cbn. f_equal. exact IH. Qed.

(** Any peer, any number of connections. *)
Definition waiting (l : list (ack * option N)) : list (option N) := flat_map (fun e => match snd e with Some u => [Some u] | None => [] end) l.
Definition known (acc : list (bundle * N * N)) (e : ack * option N) : Prop :=
  match snd e with
  | Some u => k_end (fst e) = true /\ exists b, In (b, u, k_id (fst e)) acc /\ k_total (fst e) = b_size b
  | None => k_end (fst e) = false
  end.
Definition inv4 (s : st4) : Prop :=
  Forall (known (x_acc s)) (x_ring s) /\ Sublist (sent_of (x_out s) ++ waiting (x_ring s)) (map (fun p => Some (snd (fst p))) (x_acc s)).
Lemma waiting_app : forall a b, waiting (a ++ b) = waiting a ++ waiting b.
Proof. intros; apply flat_map_app. Qed.
Lemma waiting_body : forall u l, Forall (fun g => w_end g = false) l -> waiting (map (ent4 u) l) = [].
Proof. intros u l F; induction F as [|g l E F IH]; [reflexivity|]. cbn. rewrite E. exact IH. Qed.
Lemma known_more : forall a b e, known a e -> known (a ++ b) e.
Proof.
  intros a b [k [u|]]; unfold known; cbn; [|auto]. intros (E & x & I & T). split; [exact E|]. exists x. split; [apply in_or_app; now left|exact T].
Qed.
Lemma push4_full : forall cap u l ring ring' rest, push4 cap u l ring = (ring', rest) ->
  exists done, l = done ++ rest /\ ring' = ring ++ map (ent4 u) done.
Proof.
  intros cap u l. induction l as [|g l IH]; intros ring ring' rest H; cbn [push4] in H.
  - injection H as <- <-. exists []. cbn. now rewrite app_nil_r.
  - destruct (cap <=? _); [injection H as <- <-; exists []; cbn; now rewrite app_nil_r|].
    destruct (IH _ _ _ H) as (done & -> & ->). exists (g :: done). split; [reflexivity|]. cbn. now rewrite <- app_assoc.
Qed.
Lemma push4_room : forall cap u l ring, N.of_nat (length ring + length l) <= cap -> push4 cap u l ring = (ring ++ map (ent4 u) l, []).
Proof.
  intros cap u l. induction l as [|g l IH]; intros ring H; cbn [push4]; [cbn; now rewrite app_nil_r|]. cbn [length] in H.
  destruct (cap <=? N.of_nat (length ring)) eqn:E; [apply N.leb_le in E; lia|]. rewrite IH; [cbn; rewrite <- app_assoc; reflexivity|].
  rewrite app_length. cbn [length]. lia.
Qed.
Lemma inv4_snd : forall t l s, sent_of l = [] -> inv4 s -> inv4 (with_snd4 t l s).
Proof. intros t l s L (R & U). split; cbn [x_ring x_acc x_out with_snd4]; [exact R|]. rewrite sent_app, L, app_nil_r. exact U. Qed.
Lemma sublist_snoc : forall {A} (a b : list A) x, Sublist a b -> Sublist (a ++ [x]) (b ++ [x]).
Proof. intros. apply sublist_app; [assumption|apply sublist_refl]. Qed.
Lemma ack_eqb_eq : forall a b, ack_eqb a b = true -> a = b.
Proof.
  intros [a1 a2 a3 a4] [b1 b2 b3 b4]. unfold ack_eqb. cbn. rewrite !andb_true_iff, !N.eqb_eq, !eqb_true_iff. intros (((-> & ->) & ->) & ->). reflexivity.
Qed.
Lemma ack_eqb_refl : forall a, ack_eqb a a = true.
Proof. intros [a1 a2 a3 a4]. unfold ack_eqb. cbn. now rewrite !eqb_reflx, !N.eqb_refl. Qed.
Lemma inv4_forward : forall b u s, inv4 s -> inv4 (forward4 b u s).
Proof.
  intros b u s (R & U). unfold forward4. destruct (x_ready s); cbn [negb]; [|split; assumption].
  destruct (push4 (x_cap s) u (segments b (x_next s) (x_mru s)) (x_ring s)) as [ring rest] eqn:P. destruct (push4_full _ _ _ _ _ _ P) as (done & D & ->).
  destruct (segments_split b (x_next s) (x_mru s)) as (body & g & E & F & G & T).
  pose proof (carries_id _ _ _ _ _ _ (segments_carries b (x_next s) (x_mru s))) as ID.
  destruct rest as [|r rest].
  - rewrite app_nil_r in D. subst done. split; cbn [x_ring x_acc x_out].
    + apply Forall_app. split; [eapply Forall_impl; [|exact R]; intros; now apply known_more|]. rewrite E in *. rewrite map_app. apply Forall_app in ID. destruct ID as [_ ID].
      inversion ID as [|? ? ID1 _]; subst. apply Forall_app. split.
      * apply Forall_forall. intros e I. apply in_map_iff in I. destruct I as (x & <- & I). rewrite Forall_forall in F. unfold known, ent4. cbn. rewrite (F x I). reflexivity.
      * constructor; [|constructor]. unfold known, ent4. cbn. rewrite G. cbn. split; [reflexivity|]. exists b. split; [|exact T]. apply in_or_app. right. left. now rewrite ID1.
    + rewrite waiting_app, E, map_app, waiting_app, (waiting_body u body F). cbn. rewrite G. cbn. rewrite map_app, app_assoc. cbn. apply sublist_snoc. exact U.
  - assert (FD : Forall (fun g => w_end g = false) done).
    { rewrite E in D.
      assert (X : exists tl, body = done ++ tl). { clear -D. revert done D. induction body as [|y body IH]; intros done D.
        - destruct done as [|z done]; [exists []; reflexivity|]. cbn in D. injection D as -> D. destruct done; discriminate.
        - destruct done as [|z done]; [exists (y :: body); reflexivity|]. cbn in D. injection D as -> D. destruct (IH done D) as (tl & ->). exists tl. reflexivity. }
      destruct X as (tl & ->). apply Forall_app in F. tauto. }
    split; cbn [x_ring x_acc x_out].
    + apply Forall_app. split; [exact R|]. apply Forall_forall. intros e I. apply in_map_iff in I. destruct I as (x & <- & I). rewrite Forall_forall in FD. unfold known, ent4. cbn. rewrite (FD x I). reflexivity.
    + rewrite waiting_app, (waiting_body u done FD), app_nil_r. exact U.
Qed.
Lemma inv4_ack : forall a s, inv4 s -> inv4 (ack4 a s) /\
  (x_out (ack4 a s) = x_out s \/ exists b u, In (b, u, k_id a) (x_acc s) /\ k_end a = true /\ k_total a = b_size b /\ x_out (ack4 a s) = x_out s ++ [Sent (Some u)]).
Proof.
  intros a s (R & U). unfold ack4. destruct (x_ring s) as [|[k u] r] eqn:E; [split; [|now left]; split; cbn; assumption|].
  destruct (ack_eqb k a) eqn:K; [|split; [|now left]; split; cbn [x_ring x_acc x_out]; assumption]. apply ack_eqb_eq in K. subst k.
  inversion R as [|? ? KN R']; subst. unfold known in KN. cbn [fst snd] in KN. destruct u as [u|].
  - destruct KN as (KE & b & I & T). rewrite KE. split.
    + split; cbn [x_ring x_acc x_out]; [exact R'|]. rewrite sent_app, <- app_assoc. exact U.
    + right. exists b, u. auto.
  - rewrite KN, app_nil_r. split; [|left; reflexivity]. split; [exact R'|exact U].
Qed.
Lemma inv4_step : forall n e s s', inv4 s -> step4 n e s = Some s' -> inv4 s'.
Proof.
  intros n e s s' I H. destruct e as [b u| | | | |a| |sm tm]; cbn [step4] in H.
  - injection H as <-. now apply inv4_forward.
  - injection H as <-. now apply inv4_snd.
  - pose proof (run_posted_sent (x_snd s)). destruct (run_posted (x_snd s)) as [t l]. injection H as <-. now apply inv4_snd.
  - injection H as <-. now apply inv4_snd.
  - pose proof (write_failed_sent (x_snd s)). destruct (write_failed (x_snd s)) as [t l]. injection H as <-. now apply inv4_snd.
  - injection H as <-. now apply inv4_ack.
  - injection H as <-. exact I.
  - unfold up4 in H. destruct (negb _ || _ || _); [injection H as <-; exact I|]. destruct (_ =? 0); [discriminate|]. injection H as <-.
    destruct I as (_ & U). split; cbn; [constructor|]. rewrite app_nil_r. eapply sublist_drop. exact U.
Qed.
Lemma inv4_run : forall n l s s', inv4 s -> run4 n l s = Some s' -> inv4 s'.
Proof.
  intros n l. induction l as [|e l IH]; intros s s' I R; cbn in R; [injection R as <-; exact I|]. destruct (step4 n e s) as [x|] eqn:E; [|discriminate].
  eapply IH; [eapply inv4_step; eassumption|exact R].
Qed.

(** One connection, a peer that acknowledges what it gets, a caller that keeps within the limits. *)
Record hon4 (unacked m tmru : N) (s : st4) : Prop := {
  h_mru : x_mru s = m;
  h_cap : unacked * (tmru / m + 1) <= x_cap s;
  h_lost : x_lost s = [];
  h_size : Forall (fun p => b_size (fst (fst p)) <= tmru) (x_acc s);
  h_track : tracks (all4 m (x_acc s)) (x_out s) (x_snd s);
  h_acks : (length (x_acks s) <= length (t_wire (x_snd s)))%nat;
  h_ring : x_ring s = skipn (length (x_acks s)) (flat_map (ents4 m) (x_acc s));
  h_sent : sent_of (x_out s) = map (fun p => Some (snd (fst p))) (firstn (ends (firstn (length (x_acks s)) (data4 m (x_acc s)))) (x_acc s)) }.
Lemma hon4_wire : forall n m t s, hon4 n m t s -> exists rest, data4 m (x_acc s) = t_wire (x_snd s) ++ rest.
Proof. intros n m t s H. destruct (tracks_facts _ _ _ (h_track _ _ _ _ H) (all4_tidy m _)) as ((rest & P) & _). rewrite all4_segs in P. eauto. Qed.
Lemma ents4_many : forall m t l, m <> 0 -> Forall (fun p : bundle * N * N => b_size (fst (fst p)) <= t) l ->
  N.of_nat (length (flat_map (ents4 m) l)) <= N.of_nat (length l) * (t / m + 1).
Proof.
  intros m t l M F. induction F as [|p l S F IH]; [cbn; lia|]. cbn [flat_map length]. rewrite app_length. unfold ents4 at 1. rewrite map_length.
  pose proof (segments_many (fst (fst p)) (snd p) m M) as X. assert (Y : b_size (fst (fst p)) / m <= t / m) by (apply N.div_le_mono; assumption).
  fold (seg4 m p) in X. rewrite Nat2N.inj_add, Nat2N.inj_succ. nia.
Qed.
Lemma skipn_app_le : forall {A} (a b : list A) n, (n <= length a)%nat -> skipn n (a ++ b) = skipn n a ++ b.
Proof. intros A a b n H. rewrite skipn_app. replace (n - length a)%nat with 0%nat by lia. reflexivity. Qed.
Lemma hon4_snd : forall n m t s snd_ l, hon4 n m t s -> sent_of l = [] -> tracks (all4 m (x_acc s)) (x_out s ++ l) snd_ ->
  (length (t_wire (x_snd s)) <= length (t_wire snd_))%nat -> hon4 n m t (with_snd4 snd_ l s).
Proof.
  intros n m t s snd_ l [] L T W. constructor; cbn [with_snd4 x_mru x_cap x_lost x_acc x_out x_snd x_acks x_ring]; auto; [lia|].
  rewrite sent_app, L, app_nil_r. assumption.
Qed.
Lemma hon4_forward : forall n m t b u s, m <> 0 -> hon4 n m t s -> b_size b <= t -> N.of_nat (length (x_acc s)) < N.of_nat (length (sent_of (x_out s))) + n ->
  hon4 n m t (forward4 b u s).
Proof.
  intros n m t b u s M H SZ RM. pose proof (hon4_wire _ _ _ _ H) as (rest & W). destruct H as [MR CP LO SI TR AK RI SE].
  unfold forward4. destruct (x_ready s); cbn [negb]; [|constructor; assumption]. rewrite MR.
  set (acks := length (x_acks s)) in *. assert (AL : (acks <= length (data4 m (x_acc s)))%nat) by (rewrite W, app_length; lia).
  destruct (locate (seg4 m) (x_acc s) acks (seg4_split m) AL) as (A1 & A2 & j & A & K & EN & J). change (flat_map (seg4 m) (x_acc s)) with (data4 m (x_acc s)) in EN.
  assert (RL : N.of_nat (length (x_ring s)) <= N.of_nat (length A2) * (t / m + 1)).
  { rewrite RI, skipn_length, A, flat_map_app, app_length. fold (data4 m A1) in K. rewrite !ents4_len.
    rewrite A in SI. apply Forall_app in SI. destruct SI as [_ SI]. pose proof (ents4_many m t A2 M SI) as X. rewrite ents4_len in X. 
    change (data4 m A1) with (flat_map (seg4 m) A1) in *. lia. }
  rewrite SE, EN, map_length, A in RM. rewrite firstn_app_len in RM. rewrite app_length in RM.
  pose proof (segments_many b (x_next s) m M) as SM. assert (Y : b_size b / m <= t / m) by (apply N.div_le_mono; assumption).
  rewrite push4_room.
  2: { rewrite Nat2N.inj_add. assert (n * (t / m + 1) >= (N.of_nat (length A2) + 1) * (t / m + 1)) by nia. nia. }
  constructor; cbn [x_mru x_cap x_lost x_acc x_out x_snd x_acks x_ring]; auto.
  - apply Forall_app. split; [exact SI|]. constructor; [exact SZ|constructor].
  - unfold all4. rewrite flat_map_app. cbn [flat_map fst snd]. rewrite app_nil_r. fold (all4 m (x_acc s)). unfold seg4 at 1. cbn [fst snd].
    rewrite <- (elements_data b (segments b (x_next s) m)) at 1. apply tracks_post; [apply elements_clean|exact TR].
  - rewrite flat_map_app, skipn_app_le by (rewrite ents4_len; exact AL). rewrite RI. cbn [flat_map]. rewrite app_nil_r. reflexivity.
  - rewrite SE. f_equal. rewrite data4_app, <- (firstn_prefix (data4 m (x_acc s))) by exact AL. fold acks. rewrite EN, A, <- app_assoc, !firstn_app_len. reflexivity.
Qed.
Lemma hon4_ack : forall n m t s a g, hon4 n m t s -> nth_error (t_wire (x_snd s)) (length (x_acks s)) = Some g -> a = ack_of g -> hon4 n m t (ack4 a s).
Proof.
  intros n m t s a g H G ->. pose proof (hon4_wire _ _ _ _ H) as (rest & W). destruct H as [MR CP LO SI TR AK RI SE].
  set (acks := length (x_acks s)) in *. assert (KL : (acks < length (t_wire (x_snd s)))%nat) by (apply nth_error_Some; congruence).
  assert (DG : nth_error (data4 m (x_acc s)) acks = Some g) by (rewrite W; now apply nth_app).
  assert (AL : (acks <= length (data4 m (x_acc s)))%nat) by (rewrite W, app_length; lia).
  destruct (locate (seg4 m) (x_acc s) acks (seg4_split m) AL) as (A1 & A2 & j & A & K & EN & J). change (flat_map (seg4 m) (x_acc s)) with (data4 m (x_acc s)) in EN.
  change (flat_map (seg4 m) A1) with (data4 m A1) in K.
  destruct A2 as [|p A2]. { rewrite app_nil_r in A. subst j. rewrite <- A in K. assert (nth_error (data4 m (x_acc s)) acks = None) by (apply nth_error_None; lia). congruence. }
  assert (DG' : nth_error (seg4 m p) j = Some g).
  { rewrite A, data4_app in DG. unfold data4 at 2 in DG. cbn [flat_map] in DG. rewrite K in DG. fold (seg4 m p) in DG. rewrite nth_mid in DG by exact J. exact DG. }
  assert (EH : nth_error (flat_map (ents4 m) (x_acc s)) acks = Some (ent4 (snd (fst p)) g)).
  { rewrite A, flat_map_app. cbn [flat_map]. rewrite K, <- ents4_len. rewrite nth_mid by (unfold ents4; rewrite map_length; exact J). unfold ents4. now apply map_nth_error. }
  assert (RH : x_ring s = ent4 (snd (fst p)) g :: skipn (S acks) (flat_map (ents4 m) (x_acc s))).
  { rewrite RI. clear -EH. revert EH. generalize (flat_map (ents4 m) (x_acc s)) as l. generalize acks. clear. intros acks. induction acks as [|k IH]; intros [|x l] H; try discriminate; cbn in H.
    - injection H as ->. reflexivity.
    - cbn. apply IH. exact H. }
  unfold ack4. rewrite RH. unfold ent4. rewrite ack_eqb_refl. cbn [ack_of k_end].
  assert (EG : ends (firstn (S acks) (data4 m (x_acc s))) = (length A1 + if w_end g then 1 else 0)%nat).
  { rewrite <- EN. clear -DG. revert DG. generalize (data4 m (x_acc s)) as l. generalize acks. clear. intros acks l. revert acks. induction l as [|x l IH]; intros [|k] H; try discriminate; cbn in H.
    - injection H as ->. cbn [firstn]. unfold ends. cbn. destruct (w_end g); reflexivity.
    - specialize (IH k H). change (firstn (S (S k)) (x :: l)) with (x :: firstn (S k) l). change (firstn (S k) (x :: l)) with (x :: firstn k l).
      unfold ends in *. cbn [filter]. destruct (w_end x); cbn [length]; lia. }
  constructor; cbn [x_mru x_cap x_lost x_acc x_out x_snd x_acks x_ring]; auto.
  - destruct (w_end g); [apply tracks_sent|apply tracks_same]; exact TR.
  - rewrite app_length. cbn [length]. fold acks. lia.
  - rewrite app_length. cbn [length]. fold acks. f_equal. lia.
  - rewrite app_length. cbn [length]. fold acks. replace (acks + 1)%nat with (S acks) by lia. rewrite EG, sent_app, SE, EN, A.
    rewrite firstn_app_len. destruct (w_end g).
    + rewrite (firstn_app _ A1), firstn_all2 by lia. replace (length A1 + 1 - length A1)%nat with 1%nat by lia. cbn [firstn sent_of flat_map app]. rewrite map_app. reflexivity.
    + rewrite Nat.add_0_r, firstn_app_len. cbn. now rewrite app_nil_r.
Qed.
Lemma hon4_step : forall n m t e s s', m <> 0 -> hon4 n m t s -> step4 n e s = Some s' -> (forall a b, e <> Up4 a b) ->
  match e with
  | Ack4 a => exists g, nth_error (t_wire (x_snd s)) (length (x_acks s)) = Some g /\ a = ack_of g
  | Forward4 b _ => b_size b <= t /\ N.of_nat (length (x_acc s)) < N.of_nat (length (sent_of (x_out s))) + n
  | _ => True
  end -> hon4 n m t s'.
Proof.
  intros n m t e s s' M H ST NU HA. pose proof (h_track _ _ _ _ H) as T. destruct e as [b u| | | | |a| |sm tm]; cbn [step4] in ST.
  - injection ST as <-. now apply hon4_forward.
  - injection ST as <-. apply hon4_snd; [exact H|reflexivity| |cbn; lia]. apply tracks_same.
    pose proof (tracks_post _ _ _ [mkElem None None None] ltac:(repeat constructor; apply clean_other) T) as P. cbn in P. rewrite app_nil_r in P. exact P.
  - pose proof (tracks_run _ _ _ T) as P. pose proof (run_posted_sent (x_snd s)). pose proof (wire_run (x_snd s)) as WR. destruct (run_posted (x_snd s)) as [t' l]. cbn in *.
    injection ST as <-. apply hon4_snd; auto. now rewrite WR.
  - injection ST as <-. apply hon4_snd; [exact H|reflexivity|apply tracks_same, tracks_wrote, T|apply wire_wrote].
  - pose proof (tracks_fail _ _ _ T) as P. pose proof (write_failed_sent (x_snd s)). pose proof (wire_fail (x_snd s)) as WR. destruct (write_failed (x_snd s)) as [t' l]. cbn in *.
    injection ST as <-. apply hon4_snd; auto. now rewrite WR.
  - injection ST as <-. destruct HA as (g & G & A). eapply hon4_ack; eassumption.
  - injection ST as <-. destruct H. constructor; assumption.
  - now elim (NU sm tm).
Qed.
Lemma hon4_run : forall n m t l s s', m <> 0 -> hon4 n m t s -> run4 n l s = Some s' -> (forall a b, ~ In (Up4 a b) l) -> honest4 n t l s -> hon4 n m t s'.
Proof.
  intros n m t l. induction l as [|e l IH]; intros s s' M H R N O; cbn in R; [injection R as <-; exact H|].
  destruct (step4 n e s) as [s1|] eqn:E; [|discriminate]. destruct O as (O1 & O2). rewrite E in O2. apply (IH s1 s'); auto.
  - apply (hon4_step n m t e s s1); auto. intros a b ->. apply (N a b). now left.
  - intros a b X. apply (N a b). now right.
Qed.
Lemma hon4_facts : forall n m t s, hon4 n m t s ->
  (exists rest, data4 m (x_acc s) = t_wire (x_snd s) ++ rest) /\
  sent_of (x_out s) = map (fun p => Some (snd (fst p))) (firstn (ends (firstn (length (x_acks s)) (t_wire (x_snd s)))) (x_acc s)) /\
  fails_of (x_out s) ++ held (t_queue (x_snd s)) ++ held (t_posted (x_snd s)) =
    map (fun p => Failed (fst (fst p)) None) (skipn (ends (t_wire (x_snd s))) (x_acc s)).
Proof.
  intros n m t s H. pose proof (hon4_wire _ _ _ _ H) as (rest & P). split; [eauto|]. split.
  - rewrite (h_sent _ _ _ _ H), P, <- firstn_prefix by apply (h_acks _ _ _ _ H). reflexivity.
  - destruct (tracks_facts _ _ _ (h_track _ _ _ _ H) (all4_tidy m _)) as (_ & X). rewrite X, all4_held, skipn_map. reflexivity.
Qed.

(** ** STCP *)
Definition elemS (p : bundle * N) : elem := mkElem (Some (mkSeg (b_tag (fst p)) true true 0 (b_size (fst p)) (b_size (fst p)))) (Some (fst p)) (Some (snd p)).
Lemma allS_tidy : forall l, Forall tidy (map elemS l).
Proof. intros l. apply Forall_forall. intros e I. apply in_map_iff in I. destruct I as (p & <- & _). eexists. split; [reflexivity|]. cbn. split; congruence. Qed.
Lemma allS_held : forall l, held (map elemS l) = map (fun p => Failed (fst p) (Some (snd p))) l.
Proof. induction l as [|p l IH]; [reflexivity|]. cbn. f_equal. exact IH. Qed.
Lemma allS_ends : forall l, ends (segs_of (map elemS l)) = length l.
Proof. induction l as [|p l IH]; [reflexivity|]. cbn in *. unfold ends in *. cbn. f_equal. exact IH. Qed.
Definition honS (t : sender) (s : sts) : Prop :=
  y_snd s = Some t /\ tracks (map elemS (y_acc s)) (y_out s) t /\ Forall (fun p => b_size (fst p) + 4 < W32) (y_acc s) /\
  y_ring s = map (fun p => b_size (fst p) + 4) (skipn (ends (t_wire t)) (y_acc s)) /\
  sent_of (y_out s) = map (fun p => Some (snd p)) (firstn (ends (t_wire t)) (y_acc s)) /\ (ends (t_wire t) <= length (y_acc s))%nat.
Lemma honS_wrote : forall t s, honS t s -> exists t', honS t' (wrotes t s).
Proof.
  intros t s (Y & T & F & R & U & L). pose proof (tracks_wrote _ _ _ T) as T'. unfold wrotes. destruct T as (W & Lo & A & B & D & E & G & H).
  destruct t as [po q err w]. unfold wrote in *. cbn [t_queue t_posted t_err t_wire fst] in *. destruct q as [|e q].
  { exists (mkSender po [] err w). unfold honS. cbn. auto 10. }
  destruct err; [specialize (H eq_refl); discriminate|]. rewrite (G eq_refl) in *. cbn [app] in A.
  assert (FW : forall l r, filter is_data l ++ r = map elemS (y_acc s) -> exists a b, y_acc s = a ++ b /\ filter is_data l = map elemS a /\ r = map elemS b).
  { intros l r X. symmetry in X. apply map_eq_app in X. destruct X as (a & b & X1 & X2 & X3). exists a, b. auto. }
  rewrite filter_app in A. destruct (FW _ _ A) as (a & b & AB & WA & WB). 
  assert (EW : ends w = length a) by (rewrite B, <- segs_data, WA; apply allS_ends).
  cbn [filter] in WB. unfold is_data in WB at 1. destruct e as [[g|] bu us]; cbn [l_seg] in *.
  - destruct b as [|p b]; [discriminate|]. cbn in WB. injection WB as EG EB EU WB. subst g bu us.
    rewrite EW, AB, skipn_app_len in R. rewrite EW, AB, firstn_app_len in U. cbn [map] in R. rewrite R. cbn [w_len]. rewrite N.eqb_refl.
    eexists. unfold honS. cbn [y_snd y_acc y_out y_ring t_wire]. split; [reflexivity|]. split; [apply tracks_sent, T'|]. split; [exact F|].
    assert (EW' : ends (w ++ [mkSeg (b_tag (fst p)) true true 0 (b_size (fst p)) (b_size (fst p))]) = length (a ++ [p])).
    { rewrite ends_app, app_length, EW. reflexivity. }
    cbn [t_wire]. rewrite EW'. replace (y_acc s) with ((a ++ [p]) ++ b) by (rewrite AB, <- app_assoc; reflexivity). rewrite skipn_app_len, firstn_app_len. split; [reflexivity|].
    split; [rewrite sent_app, U, map_app; reflexivity|]. rewrite (app_length (a ++ [p])). lia.
  - eexists. unfold honS. cbn [y_snd y_acc y_out y_ring t_wire]. split; [reflexivity|]. split; [exact T'|]. split; [exact F|]. rewrite app_nil_r. auto.
Qed.
Lemma honS_step : forall c e t s s', honS t s -> steps c e s = Some s' -> e <> ReadyS ->
  match e with ForwardS b _ => b_size b + 4 < W32 | _ => True end -> exists t', honS t' s'.
Proof.
  intros c e t s s' H ST NR SZ. pose proof H as HH. destruct H as (Y & T & F & R & U & L). destruct e as [b u| | | | | | |]; cbn [steps] in ST; try rewrite Y in ST.
  - unfold forwards in ST. rewrite Y in ST. destruct (y_ready s); cbn [negb] in ST; [|injection ST as <-; eauto].
    destruct (c <=? _); [injection ST as <-; eauto|]. injection ST as <-. eexists. unfold honS. cbn [y_snd y_acc y_out y_ring]. split; [reflexivity|].
    cbn [post t_wire]. split.
    + rewrite map_app. change (map elemS [(b, u)]) with (filter is_data [elemS (b, u)]). apply tracks_post; [|exact T]. repeat constructor. intros X; discriminate.
    + split; [apply Forall_app; split; [exact F|repeat constructor; exact SZ]|]. rewrite skipn_app, firstn_app.
      replace (ends (t_wire t) - length (y_acc s))%nat with 0%nat by lia. cbn [skipn firstn]. rewrite app_nil_r, map_app, R. cbn [map fst].
      rewrite N.mod_small by exact SZ. split; [reflexivity|]. split; [exact U|]. rewrite app_length. lia.
  - injection ST as <-. cbn [option_map]. eexists. unfold honS. cbn [y_snd y_acc y_out y_ring]. split; [reflexivity|]. split; [|auto].
    pose proof (tracks_post _ _ _ [mkElem None None None] ltac:(repeat constructor; apply clean_other) T) as P. cbn in P. rewrite app_nil_r in P. exact P.
  - pose proof (tracks_run _ _ _ T) as P. pose proof (run_posted_sent t) as S0. pose proof (wire_run t) as WR. destruct (run_posted t) as [t' l]. cbn [fst snd] in P, S0, WR.
    injection ST as <-. exists t'. unfold honS. cbn [y_snd y_acc y_out y_ring]. rewrite sent_app, S0, app_nil_r, WR. auto 10.
  - injection ST as <-. now apply honS_wrote.
  - pose proof (tracks_fail _ _ _ T) as P. pose proof (write_failed_sent t) as S0. pose proof (wire_fail t) as WR. destruct (write_failed t) as [t' l]. cbn [fst snd] in P, S0, WR.
    injection ST as <-. exists t'. unfold honS. cbn [y_snd y_acc y_out y_ring]. rewrite sent_app, S0, app_nil_r, WR. auto 10.
  - injection ST as <-. exists t. unfold honS. cbn. auto 10.
  - contradiction.
  - injection ST as <-. eauto.
Qed.
Lemma honS_run : forall c l t s s', honS t s -> runs_ c l s = Some s' -> ~ In ReadyS l -> (forall b u, In (ForwardS b u) l -> b_size b + 4 < W32) -> exists t', honS t' s'.
Proof.
  intros c l. induction l as [|e l IH]; intros t s s' H R N Z; cbn in R; [injection R as <-; eauto|].
  destruct (steps c e s) as [s1|] eqn:E; [|discriminate]. destruct (honS_step c e t s s1 H E) as (t1 & H1).
  - intros ->. apply N. now left.
  - destruct e; auto. apply (Z b u). now left.
  - apply (IH t1 s1 s' H1 R); [intros X; apply N; now right|]. intros b u X. apply (Z b u). now right.
Qed.
Lemma honS_facts : forall t s, honS t s ->
  sent_of (y_out s) = map (fun p => Some (snd p)) (firstn (ends (t_wire t)) (y_acc s)) /\
  fails_of (y_out s) ++ held (t_queue t) ++ held (t_posted t) = map (fun p => Failed (fst p) (Some (snd p))) (skipn (ends (t_wire t)) (y_acc s)) /\
  (exists rest, map b_tag (map fst (y_acc s)) = map w_tag (t_wire t) ++ rest).
Proof.
  intros t s (Y & T & F & R & U & L). split; [exact U|]. destruct (tracks_facts _ _ _ T (allS_tidy _)) as ((rest & P) & X). split.
  - rewrite X, allS_held, skipn_map. reflexivity.
  - exists (map w_tag rest). rewrite <- map_app, <- P. clear. induction (y_acc s) as [|p l IH]; [reflexivity|]. cbn. f_equal. exact IH.
Qed.
(** The sender never becomes null again once it is there, so no call goes through a null pointer. *)
Lemma honS_safe : forall c l t s, honS t s -> ~ In ReadyS l -> (forall b u, In (ForwardS b u) l -> b_size b + 4 < W32) -> exists s', runs_ c l s = Some s'.
Proof.
  intros c l. induction l as [|e l IH]; intros t s H N Z; cbn; [eauto|].
  assert (X : exists s1, steps c e s = Some s1).
  { pose proof H as (Y & _). destruct e as [b u| | | | | | |]; cbn [steps]; try rewrite Y; try (eexists; reflexivity).
    - unfold forwards. rewrite Y. destruct (y_ready s); cbn [negb]; [|eauto]. destruct (c <=? _); eauto.
    - destruct (run_posted t); eauto.
    - destruct (write_failed t); eauto.
    - exfalso. apply N. now left. }
  destruct X as (s1 & E). rewrite E. destruct (honS_step c e t s s1 H E) as (t1 & H1).
  - intros ->. apply N. now left.
  - destruct e; auto. apply (Z b u). now left.
  - apply (IH t1 s1 H1); [intros X; apply N; now right|]. intros b u X. apply (Z b u). now right.
Qed.
