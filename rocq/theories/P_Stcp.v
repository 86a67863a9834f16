(** C62: bundles sent over STCP are delivered, in order, whole and once, whatever the interleaving of the threads of the sink. *)
From Coq Require Import PeanoNat Wf_nat Compare_dec NArith List Bool Lia ZifyBool ZifyN ZifyNat.
From Verif Require Import Base M_Encap M_Stcp S_Stcp L_Stcp.
Import ListNotations.
Open Scope N_scope.

(** What the source sends is the size in four bytes and the bundle. *)
Lemma be_field : forall n, n < 4294967296 -> size_field n (be 4 n).
Proof.
  intros n H. cbn [be app]. do 4 eexists. split; [reflexivity|]. assert (D1 := N.div_mod n 256 ltac:(discriminate)). assert (D2 := N.div_mod (n / 256) 256 ltac:(discriminate)). assert (D3 := N.div_mod (n / 256 / 256) 256 ltac:(discriminate)). assert (D4 := N.div_mod (n / 256 / 256 / 256) 256 ltac:(discriminate)).
  assert (M1 := N.mod_lt n 256 ltac:(discriminate)). assert (M2 := N.mod_lt (n / 256) 256 ltac:(discriminate)). assert (M3 := N.mod_lt (n / 256 / 256) 256 ltac:(discriminate)). assert (M4 := N.mod_lt (n / 256 / 256 / 256) 256 ltac:(discriminate)).
  split; [repeat (constructor; [assumption|]); constructor|]. assert (Z : n / 256 / 256 / 256 / 256 = 0) by (rewrite !N.div_div by discriminate; apply N.div_small; exact H). lia.
Qed.
Theorem C62_data_units_are_as_specified : forall max cs, (forall b, In (Some b) cs -> b <> [] /\ N.of_nat (length b) < 4294967296 /\ N.of_nat (length b) <= max) -> wire max cs (flat_map data_unit cs).
Proof.
  induction cs as [|c cs IH]; intro H; cbn [flat_map]; [constructor|]. assert (W := IH (fun b I => H b (or_intror I))). destruct c as [b|].
  - destruct (H b (or_introl eq_refl)) as [NE [L M]]. unfold data_unit. rewrite <- app_assoc. constructor; auto. apply be_field. exact L.
  - unfold data_unit. constructor; auto. apply be_field. reflexivity.
Qed.
Print Assumptions C62_data_units_are_as_specified.
Example C62_data_units_ex : flat_map data_unit [Some [7; 8]; None; Some (repeat 5 300)] = [0; 0; 0; 2; 7; 8; 0; 0; 0; 0; 0; 0; 1; 44] ++ repeat 5 300.
Proof. vm_compute. reflexivity. Qed.

(** The stream [wire] stands for one sequence of data units. *)
Theorem C62_streams_are_unambiguous : forall max cs ds s r1 r2 t, wire max cs s -> wire max ds t -> no_more max r1 -> no_more max r2 -> s ++ r1 = t ++ r2 -> cs = ds.
Proof. intros max cs ds s r1 r2 t W1 W2 M1 M2 E. exact (wire_unique max cs s W1 ds t r1 r2 W2 M1 M2 E). Qed.
Print Assumptions C62_streams_are_unambiguous.

(** Whatever arrives, and however the threads are interleaved: what the callback was given are the bundles of the first data units that arrived. *)
Lemma wire_prefix : forall max cs w, wire max cs w -> forall n, exists ds v r, wire max ds v /\ w = v ++ r /\ bundles ds = firstn n (bundles cs).
Proof.
  induction 1 as [|h cs s F W IH|h b cs s F NE LE W IH]; intro n.
  - exists [], [], []. repeat split; [constructor|]. cbn. rewrite firstn_nil. reflexivity.
  - destruct (IH n) as [ds [v [r [V [-> E]]]]]. exists (None :: ds), (h ++ v), r. repeat split; [constructor; auto|apply app_assoc|exact E].
  - destruct n as [|n]; [exists [], [], (h ++ b ++ s); repeat split; constructor|]. destruct (IH n) as [ds [v [r [V [-> E]]]]]. exists (Some b :: ds), (h ++ b ++ v), r. repeat split; [constructor; auto|rewrite <- !app_assoc; reflexivity|]. cbn [bundles flat_map app firstn]. f_equal. exact E.
Qed.
Theorem C62_only_what_arrived_is_delivered : forall cap max es s, bytes (arrived es) -> reached cap max es s ->
  exists cs w rest, wire max cs w /\ arrived es = w ++ rest /\ k_out s = bundles cs.
Proof.
  intros cap max es s B H. destruct (inv_reached cap max es s B H) as [[cs [w [l [W [_ [A O]]]]]] _].
  destruct (wire_prefix max cs w W (length (k_out s))) as [ds [v [r [V [E P]]]]]. exists ds, v, (r ++ l ++ k_in s). split; [exact V|]. split; [rewrite A, E, <- !app_assoc; reflexivity|]. rewrite P, O, firstn_app, firstn_all, Nat.sub_diag. cbn [firstn]. rewrite app_nil_r. reflexivity.
Qed.
Print Assumptions C62_only_what_arrived_is_delivered.
(** When nothing happens any more, all that arrived has been delivered: every notification arrives and the reading was always started again. *)
Theorem C62_everything_is_delivered : forall cap max es s cs w rest, (1 <= cap)%nat -> bytes (arrived es) -> reached cap max es s -> quiet cap max s ->
  arrived es = w ++ rest -> wire max cs w -> no_more max rest -> k_out s = bundles cs /\ k_q s = [].
Proof.
  intros cap max es s cs w rest C B H Q A W M. assert (I := inv_reached cap max es s B H). destruct (quiet_state cap max _ s C I Q (in_suffix _ _ _ _ I B)) as [E [_ [ds [v [r [V [A2 [M2 O]]]]]]]]. split; [|exact E]. rewrite <- O. f_equal.
  apply (wire_unique max ds v V cs w r rest W M2 M). rewrite <- A2, <- A. reflexivity.
Qed.
Print Assumptions C62_everything_is_delivered.
(** And that comes to be: no execution goes on for ever unless bytes arrive or the reader is woken without reason. *)
Theorem C62_the_sink_comes_to_rest : forall cap max es s, bytes (arrived es) -> reached cap max es s ->
  (forall fs s1, Forall internal fs -> run cap max s fs = Some s1 -> (length fs <= 40 * length (k_in s) + 20 * length (k_q s) + k_posts s + 17)%nat) /\
  (exists fs s1, Forall internal fs /\ run cap max s fs = Some s1 /\ quiet cap max s1).
Proof.
  intros cap max es s B H. assert (I := inv_reached cap max es s B H). split.
  - intros fs s1 F R. assert (X := weight_run cap max fs _ s s1 (in_suffix _ _ _ _ I B) I F R). assert (Y : (weight s <= 40 * length (k_in s) + 20 * length (k_q s) + k_posts s + 17)%nat) by (unfold weight; destruct (k_phase s), (k_pc s) as [| | |[]| |]; lia). lia.
  - clear H. revert I. remember (weight s) as n eqn:E. assert (L : (weight s <= n)%nat) by lia. clear E. revert s L. induction n as [n IH] using (well_founded_induction lt_wf). intros s L I.
    set (all := [OnSize; OnData; Notify; Restart; Try; Reader]). assert (AI : Forall internal all) by (repeat (constructor; [split; [discriminate|intro; discriminate]|]); constructor).
    destruct (find (fun e => match step cap max s e with Some _ => true | None => false end) all) as [e|] eqn:FE.
    + apply find_some in FE. destruct FE as [IE SE]. destruct (step cap max s e) as [s2|] eqn:E; [|discriminate]. rewrite Forall_forall in AI. specialize (AI e IE). assert (D := weight_step _ _ _ _ _ _ I AI E). assert (I2 := inv_step _ _ _ _ _ _ (in_suffix _ _ _ _ I B) I E).
      assert (AE : arrived [e] = []) by (destruct e; try reflexivity; exfalso; apply (proj2 AI b); reflexivity). rewrite AE, app_nil_r in I2.
      destruct (IH (weight s2) ltac:(lia) s2 (le_n _) I2) as [fs [s1 [F [R Q]]]]. exists (e :: fs), s1. split; [constructor; assumption|]. split; [cbn [run]; rewrite E; exact R|exact Q].
    + exists [], s. split; [constructor|]. split; [reflexivity|]. intros e s1 E. destruct e as [b| | | | | | |]; [right; exists b; reflexivity| | | | | | |left; reflexivity]; exfalso;
        match type of E with step _ _ _ ?e = _ => assert (X := find_none _ _ FE e ltac:(cbn; tauto)) end; cbv beta in X; rewrite E in X; discriminate.
Qed.
Print Assumptions C62_the_sink_comes_to_rest.
(** Buffers: never more bundles than the buffer has room for, a free one for the one that is being read, of no more bytes than the maximum, and the reader never takes from an empty buffer. *)
Theorem C62_buffers_are_within_bounds : forall cap max es s, bytes (arrived es) -> reached cap max es s ->
  (length (k_q s) <= cap)%nat /\ (forall n, k_phase s = Data n -> 0 < n <= max /\ (length (k_q s) < cap)%nat) /\ (k_pc s = Ready \/ k_pc s = Taken -> k_q s <> []).
Proof.
  intros cap max es s B H. destruct (inv_reached cap max es s B H) as [[cs [w [l [_ [P _]]]]] [R [I1 _]]]. split; [destruct (k_phase s); cbn [room] in R; lia|]. split.
  - intros n E. rewrite E in *. cbn [pending room] in *. split; [tauto|exact R].
  - intros [E|E]; apply I1; auto.
Qed.
Print Assumptions C62_buffers_are_within_bounds.

(** An execution with room for one bundle: two bundles with a keep-alive between them; the first fills the buffer, so that the reading stops until the reader has taken it. *)
Definition ex_es : list event :=
  [Reader; Reader; Reader] ++ map Arrive [0; 0; 0; 2; 7; 8; 0; 0; 0; 0; 0; 0; 0; 1; 9] ++ [Try; OnSize; OnData; Notify; Restart; Reader; Reader; Reader; Try; Reader; Reader; Reader; Reader; Try; OnSize; OnSize; OnData; Notify; Restart; Reader; Reader; Reader; Reader; Reader; Reader; Try].
Example C62_ex : arrived ex_es = flat_map data_unit [Some [7; 8]; None; Some [9]] /\
  (exists s, reached 1 100 ex_es s /\ quiet 1 100 s /\ k_out s = [[7; 8]; [9]]) /\
  (exists s, reached 1 100 (firstn 23 ex_es) s /\ k_phase s = Inactive /\ k_q s = [[7; 8]] /\ k_pc s = Waiting true) /\
  (exists s, reached 1 100 (map Arrive [0; 0; 0; 101; 5] ++ [OnSize]) s /\ k_phase s = Stopped).
Proof.
  split; [vm_compute; reflexivity|]. split; [|split].
  - exists (mkSink [] Size [] 0 (Waiting false) [[7; 8]; [9]]). split; [vm_compute; reflexivity|]. split; [|reflexivity]. intros e s1 H. destruct e as [b| | | | | | |]; try discriminate; [right; exists b; reflexivity|left; reflexivity].
  - exists (mkSink [0; 0; 0; 0; 0; 0; 0; 1; 9] Inactive [[7; 8]] 0 (Waiting true) []). split; [vm_compute; reflexivity|]. split; [reflexivity|]. split; reflexivity.
  - exists (mkSink [5] Stopped [] 0 Top []). split; [vm_compute; reflexivity|]. reflexivity.
Qed.

(** REFUTED: every size of the circular buffer that can be configured works (InductsConfig.cpp:383 accepts any). With 1, which leaves room for none, nothing is ever read. *)
Theorem C62_any_buffer_size_works_refuted : exists size, size = 1%nat /\ forall max es s, reached (size - 1) max es s -> k_out s = [] /\ k_in s = arrived es /\ k_phase s = Inactive.
Proof.
  exists 1%nat. split; [reflexivity|]. intros max es s H. assert (G : forall es s s1, k_out s = [] -> k_phase s = Inactive -> k_q s = [] -> run 0 max s es = Some s1 -> k_out s1 = [] /\ k_in s1 = k_in s ++ arrived es /\ k_phase s1 = Inactive).
  { clear. induction es as [|e es IH]; intros [i p q n c o] s1 O P Q H; cbn [k_in k_phase k_q k_posts k_pc k_out] in *; subst o p q; cbn [run] in H; [injection H as <-; unfold arrived; cbn [flat_map k_in]; rewrite app_nil_r; auto|].
    destruct (step 0 max (mkSink i Inactive [] n c []) e) as [s2|] eqn:E; [|discriminate].
    assert (X : k_out s2 = [] /\ k_phase s2 = Inactive /\ k_q s2 = [] /\ k_in s2 = i ++ arrived [e]).
    { unfold arrived. destruct e as [b| | | | | | |]; cbn [step k_in k_phase k_q k_posts k_pc k_out flat_map app] in *; rewrite ?app_nil_r; try discriminate.
      - injection E as <-. auto.
      - destruct n; [discriminate|]. injection E as <-. auto.
      - destruct c as [|z| |t| |]; try (destruct t); try discriminate; injection E as <-; auto.
      - destruct c as [|z| |t| |]; try (destruct t); try discriminate; injection E as <-; auto. }
    destruct X as [X1 [X2 [X3 X4]]]. destruct (IH s2 s1 X1 X2 X3 H) as [Y1 [Y2 Y3]]. rewrite X4 in Y2. change (e :: es) with ([e] ++ es). unfold arrived in *. rewrite flat_map_app, app_assoc. auto. }
  destruct (G es (start 0) s eq_refl eq_refl eq_refl H) as [Y1 [Y2 Y3]]. auto.
Qed.
Print Assumptions C62_any_buffer_size_works_refuted.
(** REFUTED: every bundle that is accepted by Forward is received as it was. One of 2^32 bytes is sent with the size 0 (static_cast, 196 and 236), and the sink reads its contents as data units of its own. *)
Lemma nat_of : forall n, exists k, N.of_nat k = n.
Proof. intro n. exists (N.to_nat n). apply N2Nat.id. Qed.
Lemma zeros : forall max k, wire max (repeat None k) (repeat 0 (4 * k)) /\ bundles (repeat None k) = [].
Proof.
  intros max k. split; [|induction k as [|k IH]; [reflexivity|exact IH]]. induction k as [|k IH]; [constructor|]. replace (4 * S k)%nat with (4 + 4 * k)%nat by lia. rewrite repeat_app. cbn [repeat] in *. apply (wire_keepalive max [0; 0; 0; 0]); [|exact IH]. exists 0, 0, 0, 0. repeat split. repeat constructor.
Qed.
Theorem C62_forwarded_bundles_are_received_as_they_were_refuted : exists b cs, bytes b /\ N.of_nat (length b) = 4294967296 /\ (forall max, 4 <= max -> wire max cs (data_unit (Some b))) /\ bundles cs = [[1; 2; 3; 4]].
Proof.
  destruct (nat_of 1073741822) as [k K].
  exists ([0; 0; 0; 4; 1; 2; 3; 4] ++ repeat 0 (4 * k)), (None :: Some [1; 2; 3; 4] :: repeat None k).
  assert (L : N.of_nat (length ([0; 0; 0; 4; 1; 2; 3; 4] ++ repeat 0 (4 * k))) = 4294967296) by (rewrite app_length, repeat_length; cbn [length]; lia).
  split; [|split; [exact L|split]].
  - apply Forall_app. split; [repeat constructor|]. apply Forall_forall. intros x X. apply repeat_spec in X. subst x. reflexivity.
  - intros max M. unfold data_unit. rewrite L. change (be 4 4294967296) with [0; 0; 0; 0]. constructor; [exists 0, 0, 0, 0; repeat split; repeat constructor|]. change ([0; 0; 0; 4; 1; 2; 3; 4] ++ repeat 0 (4 * k)) with ([0; 0; 0; 4] ++ [1; 2; 3; 4] ++ repeat 0 (4 * k)).
    constructor; [exists 0, 0, 0, 4; repeat split; repeat constructor|discriminate|exact M|apply zeros].
  - cbn [bundles flat_map app]. f_equal. apply (zeros 0 k).
Qed.
Print Assumptions C62_forwarded_bundles_are_received_as_they_were_refuted.
