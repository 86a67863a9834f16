(** Lemmas for C60. *)
From Coq Require Import PeanoNat NArith List Bool Lia ZifyBool ZifyN.
From Verif Require Import Base M_Uri M_Policy M_PolicyRx S_PolicyRx L_PolicyRx L2_PolicyRx M_PolicyTx S_PolicyTx.
Import ListNotations.
Open Scope N_scope.

Lemma mem_in : forall n l, existsb (N.eqb n) l = true <-> In n l.
Proof. intros. rewrite existsb_exists. split; [intros [x [X1 X2]]; replace n with x by lia; exact X1|intro X; exists n; split; [exact X|lia]]. Qed.
Lemma max_ge : forall l m, m <= fold_left N.max l m /\ forall n, In n l -> n <= fold_left N.max l m.
Proof.
  induction l as [|x l IH]; intro m; cbn [fold_left]; [split; [lia|intros n []]|]. destruct (IH (N.max m x)) as [A B]. split; [lia|]. intros n [<-|I]; [lia|auto].
Qed.
Lemma max_in : forall l m k, m < k -> (forall n, In n l -> n < k) -> fold_left N.max l m < k.
Proof. induction l as [|x l IH]; intros m k M H; cbn [fold_left]; [exact M|]. apply IH; [specialize (H x (or_introl eq_refl)); lia|intros; apply H; right; auto]. Qed.
Lemma next_fresh : forall used, (forall n, In n used -> n < U64MAX) -> 2 <= next_number used /\ ~ In (next_number used) used.
Proof.
  intros used H. unfold next_number. destruct (find _ candidates) as [n|] eqn:F.
  - apply find_some in F. destruct F as [F1 F2]. split.
    + unfold candidates in F1. apply in_map_iff in F1. destruct F1 as [k [<- K]]. apply in_seq in K. lia.
    + intro I. apply mem_in in I. rewrite I in F2. discriminate.
  - destruct (max_ge used 63) as [A B]. assert (L := max_in used 63 U64MAX eq_refl H).
    rewrite N.mod_small by (change W64 with (U64MAX + 1); lia). split; [lia|]. intro I. specialize (B _ I). lia.
Qed.
Lemma next_small : forall used, (forall n, In n used -> n < U64MAX - 1) -> next_number used < U64MAX.
Proof.
  intros used H. unfold next_number. destruct (find _ candidates) as [n|] eqn:F.
  - apply find_some in F. destruct F as [F1 _]. unfold candidates in F1. apply in_map_iff in F1. destruct F1 as [k [<- K]]. apply in_seq in K. unfold U64MAX, W64. lia.
  - assert (L := max_in used 63 (U64MAX - 1) eq_refl H). rewrite N.mod_small by (change W64 with (U64MAX + 1); lia). lia.
Qed.

Lemma numbers_of_in : forall t bs n, In n (numbers_of t bs) <-> exists b, In b bs /\ num b = n /\ typ b = t.
Proof.
  intros. unfold numbers_of. rewrite in_map_iff. split.
  - intros [b [<- I]]. apply filter_In in I. destruct I as [I E]. exists b. unfold num, typ. split; [auto|]. split; [reflexivity|lia].
  - intros [b [I [<- T]]]. exists b. split; [reflexivity|]. apply filter_In. split; [exact I|]. unfold typ in T. lia.
Qed.
Lemma bib_targets_in : forall ts bs n, In n (bib_targets ts bs) <-> exists b, In b bs /\ num b = n /\ In (typ b) ts.
Proof.
  intros. unfold bib_targets. rewrite in_flat_map. split.
  - intros [t [I J]]. apply numbers_of_in in J. destruct J as [b [A [B C]]]. exists b. subst t. auto.
  - intros [b [A [B C]]]. exists (typ b). split; [exact C|]. apply numbers_of_in. exists b. auto.
Qed.
Definition chosen (ts : list N) (bs : list out) (x : N) : list N := flat_map (fun t => if t =? 11 then [x] else numbers_of t bs) ts.
Lemma bcb_targets_no : forall ts bs acc ph, ~ In 11 ts -> bcb_targets ts bs acc ph = (acc ++ chosen ts bs 0, ph).
Proof.
  induction ts as [|t ts IH]; intros bs acc ph H; cbn [bcb_targets chosen flat_map]; [rewrite app_nil_r; reflexivity|].
  destruct (N.eqb_spec t 11) as [->|N]; [exfalso; apply H; left; reflexivity|]. rewrite IH; [rewrite <- app_assoc; reflexivity|intro; apply H; right; auto].
Qed.
Lemma chosen_same : forall ts bs x y, ~ In 11 ts -> chosen ts bs x = chosen ts bs y.
Proof. induction ts as [|t ts IH]; intros bs x y H; cbn [chosen flat_map]; [reflexivity|]. destruct (N.eqb_spec t 11) as [->|N]; [exfalso; apply H; left; reflexivity|]. f_equal. apply IH. intro. apply H. right. auto. Qed.
Lemma upd_app : forall A (f : A -> A) l x r, upd (length l) f (l ++ x :: r) = l ++ f x :: r.
Proof. induction l; intros; cbn; [reflexivity|]. f_equal. apply IHl. Qed.
Lemma bcb_targets_yes : forall ts bs acc ph x, NoDup ts -> In 11 ts -> exists i, bcb_targets ts bs acc ph = (acc ++ chosen ts bs 0, Some i) /\ upd i (fun _ => x) (acc ++ chosen ts bs 0) = acc ++ chosen ts bs x.
Proof.
  induction ts as [|t ts IH]; intros bs acc ph x D H; [destruct H|]. inversion D as [|? ? D1 D2]; subst. cbn [bcb_targets chosen flat_map]. destruct (N.eqb_spec t 11) as [->|N].
  - rewrite (bcb_targets_no ts bs _ _ D1). exists (length acc). split; [rewrite <- app_assoc; reflexivity|]. cbn [app]. rewrite upd_app. unfold chosen in *. f_equal. f_equal. apply (chosen_same ts bs 0 x D1).
  - destruct H as [H|H]; [congruence|]. destruct (IH bs (acc ++ numbers_of t bs) ph x D2 H) as [i [I1 I2]]. exists i. unfold chosen in *. rewrite <- !app_assoc in I2. rewrite I1, <- app_assoc. auto.
Qed.
Lemma chosen_in : forall ts bs x n, In n (chosen ts bs x) <-> (exists b, In b bs /\ num b = n /\ In (typ b) ts /\ typ b <> 11) \/ (n = x /\ In 11 ts).
Proof.
  intros. unfold chosen. rewrite in_flat_map. split.
  - intros [t [I J]]. destruct (N.eqb_spec t 11) as [->|N]; [destruct J as [<-|[]]; right; auto|]. apply numbers_of_in in J. destruct J as [b [A [B C]]]. left. exists b. subst t. auto.
  - intros [[b [A [B [C D]]]]|[-> I]].
    + exists (typ b). split; [exact C|]. destruct (N.eqb_spec (typ b) 11); [contradiction|]. apply numbers_of_in. exists b. auto.
    + exists 11. split; [exact I|]. left. reflexivity.
Qed.

Lemma clean_id : forall b, b_dirty b = false -> clean b = b.
Proof. intros [k d x v m] E. cbn in E. subst d. reflexivity. Qed.
Lemma clean_all : forall bs, (forall b, In b bs -> b_dirty b = false) -> map clean bs = bs.
Proof. induction bs as [|b r IH]; intro H; cbn; [reflexivity|]. rewrite clean_id by (apply H; left; reflexivity). f_equal. apply IH. intros; apply H; right; auto. Qed.
Lemma filter_all : forall A (f : A -> bool) l, (forall x, In x l -> f x = true) -> filter f l = l.
Proof. induction l as [|x l IH]; intro H; cbn; [reflexivity|]. rewrite (H x (or_introl eq_refl)). f_equal. apply IH. intros; apply H; right; auto. Qed.
Lemma render_new : forall room x bs bs', k_deleted (b_blk x) = false -> (forall b, In b bs -> k_deleted (b_blk b) = false /\ b_dirty b = false) -> render room (x :: bs) = Some bs' -> bs' = clean x :: bs.
Proof.
  intros room x bs bs' X H. unfold render. rewrite filter_all by (intros y [<-|I]; [rewrite X; reflexivity|destruct (H y I) as [-> _]; reflexivity]).
  destruct (last_block (x :: bs)); [|discriminate]. destruct (_ && _); [|discriminate]. intros [= <-]. cbn [map]. f_equal. apply clean_all. intros b I. apply H. exact I.
Qed.

Lemma in_number : forall bs b, NoDup (map num bs) -> In b bs -> exists i, nth_error bs i = Some b /\ is_block (blocks_of bs) (num b) i (b_blk b).
Proof.
  intros bs b D I. destruct (In_nth_error _ _ I) as [i E]. exists i. split; [exact E|]. split; [unfold blocks_of; rewrite nth_error_map, E; reflexivity|]. split; [reflexivity|].
  intros j c L Hc Q. unfold blocks_of in Hc. rewrite nth_error_map in Hc. destruct (nth_error bs j) as [y|] eqn:Y; [|discriminate]. cbn in Hc. injection Hc as <-.
  assert (j = i); [|lia]. apply (proj1 (NoDup_nth_error (map num bs)) D); [rewrite map_length; apply nth_error_Some; congruence|]. rewrite !nth_error_map, E, Y. cbn. unfold num in *. congruence.
Qed.
Lemma find_in : forall bs t i, find_number t (blocks_of bs) = Some i -> exists b, nth_error bs i = Some b /\ In b bs /\ num b = t.
Proof.
  intros bs t i F. apply find_number_some in F. destruct F as [k [K1 [K2 _]]]. unfold blocks_of in K1. rewrite nth_error_map in K1. destruct (nth_error bs i) as [b|] eqn:E; [|discriminate]. injection K1 as <-.
  exists b. split; [reflexivity|]. split; [eapply nth_error_In; exact E|exact K2].
Qed.

Lemma hash_spec : forall primary bs ts l, hash_targets primary bs ts = Hashed l -> (forall t, In t ts -> t <> 0) ->
  forall j n, nth_error ts j = Some n -> exists b d, In b bs /\ num b = n /\ k_encrypted (b_blk b) = false /\ b_data b = Some d /\ nth_error l j = Some d.
Proof.
  induction ts as [|t ts IH]; intros l H Z j n J; [destruct j; discriminate|]. cbn [hash_targets] in H. destruct (N.eqb_spec t 0) as [->|N0]; [exfalso; apply (Z 0); [left|]; reflexivity|].
  destruct (find_number t (blocks_of bs)) as [i|] eqn:F; [|discriminate]. destruct (find_in _ _ _ F) as [b [B1 [B2 B3]]]. rewrite B1 in H.
  destruct (k_encrypted (b_blk b)) eqn:E; [discriminate|]. destruct (b_data b) as [d|] eqn:Q; [|discriminate]. destruct (hash_targets primary bs ts) as [l1| |] eqn:R; try discriminate. injection H as <-.
  destruct j as [|j]; cbn [nth_error] in *; [injection J as <-; exists b, d; auto|]. apply (IH l1 eq_refl); [intros; apply Z; right; auto|exact J].
Qed.
Lemma hash_defined : forall primary bs ts, (forall b, In b bs -> b_data b <> None) -> hash_targets primary bs ts <> HUndef.
Proof.
  intros primary bs ts D. induction ts as [|t ts IH]; cbn [hash_targets]; [discriminate|]. destruct (t =? 0).
  - destruct (hash_targets primary bs ts); [discriminate|discriminate|contradiction].
  - destruct (find_number t (blocks_of bs)) as [i|] eqn:F; [|discriminate]. destruct (find_in _ _ _ F) as [b [B1 [B2 B3]]]. rewrite B1. destruct (k_encrypted (b_blk b)); [discriminate|].
    specialize (D b B2). destruct (b_data b); [|congruence]. destruct (hash_targets primary bs ts); [discriminate|discriminate|contradiction].
Qed.

Lemma upd_seal : forall bs t i, NoDup (map num bs) -> find_number t (blocks_of bs) = Some i -> upd i seal bs = map (sealed [t]) bs.
Proof.
  induction bs as [|b r IH]; intros t i D F; [discriminate|]. cbn [blocks_of map find_number] in F. inversion D as [|? ? D1 D2]; subst. cbn [map]. unfold sealed at 1. cbn [existsb]. rewrite orb_false_r. fold (num b) in F.
  destruct (num b =? t) eqn:E.
  - injection F as <-. cbn [upd]. f_equal. rewrite <- (map_id r) at 1. apply map_ext_in. intros c I. unfold sealed. cbn [existsb]. rewrite orb_false_r. destruct (N.eqb_spec (num c) t) as [Q|Q]; [|reflexivity].
    exfalso. apply D1. apply in_map_iff. exists c. split; [lia|exact I].
  - fold (blocks_of r) in F. destruct (find_number t (blocks_of r)) as [k|] eqn:G; [|discriminate]. injection F as <-. cbn [upd]. f_equal. apply IH; auto.
Qed.
Lemma sealed_num : forall ts b, num (sealed ts b) = num b.
Proof. intros. unfold sealed. destruct (existsb _ ts); reflexivity. Qed.
Lemma sealed_cons : forall t ts b, sealed ts (sealed [t] b) = sealed (t :: ts) b.
Proof.
  intros. unfold sealed at 1. rewrite sealed_num. unfold sealed. cbn [existsb]. rewrite orb_false_r. destruct (num b =? t); cbn [orb]; [|reflexivity]. destruct (existsb _ ts); reflexivity.
Qed.
Lemma seal_spec : forall ts bs bs', NoDup (map num bs) -> seal_targets ts bs = Some bs' -> bs' = map (sealed ts) bs /\ forall t, In t ts -> In t (map num bs).
Proof.
  induction ts as [|t ts IH]; intros bs bs' D H; cbn [seal_targets] in H.
  - injection H as <-. split; [|intros t []]. rewrite <- (map_id bs) at 1. apply map_ext. reflexivity.
  - destruct (find_number t (blocks_of bs)) as [i|] eqn:F; [|discriminate]. destruct (find_in _ _ _ F) as [b [B1 [B2 B3]]]. rewrite B1 in H. destruct (b_data b); [|discriminate]. destruct (b_dirty b); [discriminate|].
    rewrite (upd_seal _ _ _ D F) in H. assert (Q : map num (map (sealed [t]) bs) = map num bs) by (rewrite map_map; apply map_ext; intro; apply sealed_num).
    destruct (IH _ bs' ltac:(rewrite Q; exact D) H) as [-> X]. split; [rewrite map_map; apply map_ext; intro; apply sealed_cons|]. intros u [<-|I]; [apply in_map_iff; exists b; auto|]. rewrite Q in X. auto.
Qed.
