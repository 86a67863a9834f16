(** Lemmas for C63. *)
From Coq Require Import PeanoNat Wf_nat Compare_dec NArith List Bool Lia ZifyBool ZifyNat.
From Verif Require Import Base M_UdpSink S_UdpSink.
Import ListNotations.
Open Scope nat_scope.

Lemma resize_length : forall n v, length (resize n v) = n.
Proof. intros. unfold resize. rewrite app_length, firstn_length, repeat_length. lia. Qed.
Lemma receive_spec : forall max rx d v k, length rx = max -> receive rx d = (v, k) -> length v = max /\ resize k v = firstn max d.
Proof.
  intros max rx d v k L H. unfold receive in H. injection H as <- <-. rewrite L. split; [rewrite app_length, firstn_length, skipn_length; lia|].
  unfold resize. rewrite app_length, firstn_length, skipn_length. replace (Nat.min (length d) max - _) with 0 by lia. cbn [repeat]. rewrite app_nil_r, firstn_app, firstn_length. replace (Nat.min (length d) max - Nat.min max (length d)) with 0 by lia. cbn [firstn]. rewrite app_nil_r, firstn_firstn.
  destruct (le_lt_dec (length d) max); [rewrite !firstn_all2 by lia; reflexivity|]. f_equal. lia.
Qed.
Lemma some_app : forall a b, some_of a b -> forall c d, some_of c d -> some_of (a ++ c) (b ++ d).
Proof. induction 1; intros x y S; cbn [app]; [exact S| |]; constructor; auto. Qed.
Lemma some_one : forall d, some_of [d] [d] /\ some_of [] [d].
Proof. intro d. split; repeat constructor. Qed.

(** The invariant. *)
Definition content (p : list N * nat) : list N := resize (snd p) (fst p).
Definition inv (n max : nat) (ds : list (list N)) (s : sink) : Prop :=
  (exists kept, some_of kept ds /\ length ds = length kept + u_over s /\
    map (firstn max) kept = u_out s ++ map content (match u_pc s with Called _ => tl (u_q s) | _ => u_q s end) ++ match u_phase s with Got k => [content (u_rx s, k)] | _ => [] end) /\
  length (u_rx s) = max /\ Forall (fun v => length v = max) (u_free s) /\ length (u_q s) + length (u_free s) = n /\ (match u_phase s with Got _ => 2 <= length (u_free s) | _ => n <= 1 \/ 1 <= length (u_free s) end) /\
  (u_pc s = Ready \/ (exists l, u_pc s = Called l) -> u_q s <> []) /\ (u_pc s = Waiting false -> u_q s <> [] -> u_phase s = Committed).
Lemma inv_start : forall n max, inv n max [] (start n max).
Proof.
  intros n max. unfold inv, start. cbn [u_rx u_phase u_q u_free u_over u_pc u_out]. rewrite !repeat_length. split; [exists []; repeat split; constructor|]. split; [reflexivity|]. split; [apply Forall_forall; intros v V; apply repeat_spec in V; subst v; apply repeat_length|].
  split; [reflexivity|]. split; [lia|]. split; [intros [H|[l H]]; discriminate|discriminate].
Qed.
Lemma inv_step : forall n max ds s e s1, inv n max ds s -> step max s e = Some s1 -> inv n max (ds ++ received [e]) s1.
Proof.
  intros n max ds [rx p q f ov c o] e s1 [[kept [S [L M]]] [X [F [C [G [I1 I2]]]]]] H. cbn [u_rx u_phase u_q u_free u_over u_pc u_out] in *. unfold inv. destruct e as [d| | |lv|]; cbn [step u_rx u_phase u_q u_free u_over u_pc u_out] in H; unfold received; cbn [flat_map app]; rewrite ?app_nil_r.
  - destruct p; try discriminate. destruct (receive rx d) as [v k] eqn:R. destruct (receive_spec max rx d v k X R) as [V1 V2]. destruct (Nat.leb_spec (length f) 1) as [LE|GT]; injection H as <-; cbn [u_rx u_phase u_q u_free u_over u_pc u_out].
    + split; [exists kept; split; [rewrite <- (app_nil_r kept); apply some_app; [exact S|apply some_one]|split; [rewrite app_length; cbn [length]; lia|exact M]]|]. auto 7.
    + split; [exists (kept ++ [d]); split; [apply some_app; [exact S|apply some_one]|split; [rewrite !app_length; cbn [length]; lia|]]|].
      * rewrite map_app, M, app_nil_r, <- app_assoc. cbn [map]. replace (content (v, k)) with (firstn max d) by (symmetry; exact V2). reflexivity.
      * split; [exact V1|]. split; [exact F|]. split; [exact C|]. split; [lia|]. split; [exact I1|]. intros E NE. specialize (I2 E NE). discriminate.
  - destruct p as [|k|]; try discriminate. destruct f as [|v f]; [discriminate|]. injection H as <-. cbn [u_rx u_phase u_q u_free u_over u_pc u_out]. inversion F as [|? ? F1 F2]; subst. cbn [length] in *.
    split; [exists kept; split; [exact S|split; [exact L|]]|].
    + rewrite M, app_nil_r. f_equal. destruct c as [| |t| |l]; try (rewrite map_app; reflexivity). assert (NE : q <> []) by (apply I1; right; exists l; reflexivity). destruct q as [|x q]; [contradiction|]. cbn [tl app]. rewrite map_app. reflexivity.
    + split; [exact F1|]. split; [exact F2|]. rewrite app_length. cbn [length]. split; [lia|]. split; [lia|]. split; [intros _ E; destruct q; discriminate|reflexivity].
  - destruct p; try discriminate. injection H as <-. cbn [u_rx u_phase u_q u_free u_over u_pc u_out]. split; [exists kept; split; [exact S|split; [exact L|]]; rewrite M; destruct c; reflexivity|]. do 3 (split; [assumption|]). split; [exact G|]. split; [intro E; apply I1; destruct c; auto; destruct E as [E|[l E]]; try discriminate|destruct c; discriminate].
  - destruct c as [| |t| |l].
    + injection H as <-. cbn [u_rx u_phase u_q u_free u_over u_pc u_out]. split; [exists kept; split; [exact S|split; [exact L|]]; rewrite M; destruct q; reflexivity|]. do 4 (split; [assumption|]). split; [intros E; destruct q; [destruct E as [E|[l E]]|]; discriminate|destruct q; discriminate].
    + injection H as <-. cbn [u_rx u_phase u_q u_free u_over u_pc u_out]. split; [exists kept; split; [exact S|split; [exact L|]]; rewrite M; destruct q; reflexivity|]. do 4 (split; [assumption|]). split; [intros E; destruct q; [destruct E as [E|[l E]]|]; discriminate|destruct q; [contradiction|discriminate]].
    + destruct t; [|discriminate]. injection H as <-. cbn [u_rx u_phase u_q u_free u_over u_pc u_out]. split; [exists kept; auto|]. do 4 (split; [assumption|]). split; [intros [E|[l E]]; discriminate|discriminate].
    + destruct q as [|[v k] q]; [discriminate|]. injection H as <-. cbn [u_rx u_phase u_q u_free u_over u_pc u_out tl]. split; [exists kept; split; [exact S|split; [exact L|]]; rewrite M; cbn [map]; rewrite <- app_assoc; reflexivity|]. do 4 (split; [assumption|]). split; [discriminate|discriminate].
    + destruct q as [|x q]; [discriminate|]. injection H as <-. cbn [u_rx u_phase u_q u_free u_over u_pc u_out tl length] in *. split; [exists kept; auto|]. split; [exact X|]. split; [apply Forall_app; split; [exact F|repeat constructor; apply resize_length]|]. rewrite app_length. cbn [length]. split; [lia|]. split; [destruct p; lia|]. split; [intros [E|[z E]]; discriminate|discriminate].
  - destruct c as [| |t| |]; try discriminate. destruct t; [discriminate|]. injection H as <-. cbn [u_rx u_phase u_q u_free u_over u_pc u_out]. split; [exists kept; auto|]. do 4 (split; [assumption|]). split; [intros [E|[l E]]; discriminate|discriminate].
Qed.
Lemma inv_run : forall n max es ds s s1, inv n max ds s -> run max s es = Some s1 -> inv n max (ds ++ received es) s1.
Proof.
  induction es as [|e es IH]; intros ds s s1 I H; cbn [run] in H; [injection H as <-; unfold received; cbn [flat_map]; rewrite app_nil_r; exact I|].
  change (e :: es) with ([e] ++ es). unfold received. rewrite flat_map_app, app_assoc. destruct (step max s e) as [s2|] eqn:E; [|discriminate]. apply (IH _ s2); auto. apply (inv_step _ _ _ s); auto.
Qed.
Lemma inv_reached : forall n max es s, reached n max es s -> inv n max (received es) s.
Proof. intros n max es s H. apply (inv_run n max es [] (start n max)); auto. apply inv_start. Qed.
Lemma quiet_state : forall n max ds s, inv n max ds s -> quiet max s -> u_q s = [] /\ u_phase s = Idle /\ u_pc s = Waiting false.
Proof.
  intros n max ds [rx p q f ov c o] [_ [_ [_ [_ [G [I1 I2]]]]]] Q. cbn [u_rx u_phase u_q u_free u_over u_pc u_out] in *.
  assert (NO : forall e, internal e -> step max (mkSink rx p q f ov c o) e = None).
  { intros e [X Y]. destruct (step max (mkSink rx p q f ov c o) e) as [s1|] eqn:E; [|reflexivity]. destruct (Q _ _ E) as [Z|[b Z]]; [contradiction|exfalso; apply (Y b Z)]. }
  assert (int : forall e, match e with Receive _ | Spurious => False | _ => True end -> internal e) by (intros e X; split; [intro; subst; exact X|intros b Y; subst; exact X]).
  assert (N1 := NO (Reader []) (int (Reader []) I)). assert (N2 := NO Commit (int Commit I)). assert (N3 := NO Notify (int Notify I)). clear NO Q int. cbn [step u_rx u_phase u_q u_free u_over u_pc u_out] in *. cbv zeta in *.
  assert (EC : c = Waiting false).
  { destruct c as [| |t| |l]; try discriminate; [destruct t; [discriminate|reflexivity]| |]; destruct q as [|[v k] q]; try discriminate; exfalso; apply I1; eauto. }
  subst c. assert (EP : p = Idle) by (destruct p; try discriminate; [reflexivity|destruct f; [cbn [length] in G; lia|discriminate]]). subst p. split; [|auto]. destruct q as [|x q]; [reflexivity|]. specialize (I2 eq_refl ltac:(discriminate)). discriminate.
Qed.
Definition weight (s : sink) : nat :=
  20 * length (u_q s) + match u_phase s with Idle => 0 | Got _ => 30 | Committed => 9 end + match u_pc s with Top => 6 | Locking => 3 | Waiting t => if t then 7 else 0 | Ready => 2 | Called _ => 1 end.
Lemma weight_step : forall max s e s1, internal e -> step max s e = Some s1 -> weight s1 < weight s.
Proof.
  intros max [rx p q f ov c o] e s1 [NS NA] H. destruct e as [d| | |lv|]; cbn [step u_rx u_phase u_q u_free u_over u_pc u_out] in H; [exfalso; apply (NA d); reflexivity| | | |contradiction].
  - destruct p as [|k|]; try discriminate. destruct f as [|v f]; [discriminate|]. injection H as <-. unfold weight. cbn [u_rx u_phase u_q u_free u_over u_pc u_out]. rewrite app_length. cbn [length]. lia.
  - destruct p; try discriminate. injection H as <-. unfold weight. cbn [u_rx u_phase u_q u_free u_over u_pc u_out]. destruct c as [| |[]| |]; lia.
  - destruct c as [| |[]| |l]; try discriminate; try (destruct q as [|[v k] q]); try discriminate; injection H as <-; unfold weight; cbn [u_rx u_phase u_q u_free u_over u_pc u_out length]; lia.
Qed.
Lemma weight_run : forall max es s s1, Forall internal es -> run max s es = Some s1 -> length es + weight s1 <= weight s.
Proof.
  induction es as [|e es IH]; intros s s1 F H; cbn [run length] in *; [injection H as <-; lia|]. inversion F as [|? ? F1 F2]; subst. destruct (step max s e) as [s2|] eqn:E; [|discriminate]. specialize (IH s2 s1 F2 H). assert (D := weight_step _ _ _ _ F1 E). lia.
Qed.
