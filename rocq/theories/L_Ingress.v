(** Lemmas for C50: the edited view of a BPv7 bundle on its way through a node. *)
From Coq Require Import NArith ZArith List Bool Lia ZifyBool ZifyN.
From Verif Require Import Base M_SegmentAlloc M_Intrin M_Sdnv M_Cbor M_Bpv6Block M_Bpv7Crc M_Bpv7Block M_Bpv7Admin M_Bpv7Sec M_BundleV6 M_BundleV7 M_Ingress.
From Verif Require Import S_Sdnv S_Bpv6 S_BundleV6 S_Cbor S_Bpv7Crc S_Bpv7 S_Bpv7Admin S_Bpv7Sec S_BundleV7 S_Ingress.
From Verif Require Import L_Intrin L_Cbor P_Cbor L_Bpv7Crc P_Bpv7Crc L_Bpv6Read L_Bpv6Write L_Bpv7Read L_Bpv7Write L_Bpv7Canon P_Bpv7Block P_Bpv7Canon L_Bpv7Admin P_Bpv7Admin L_Bpv7Sec P_Bpv7Sec L_BundleV7 L_BundleV7Render L_BundleV7Seen L_BundleV7Place P_BundleV7.
Import ListNotations.
Open Scope N_scope.

Lemma is_dest_ok e f : is_dest e f = true <-> e = f.
Proof. unfold is_dest. rewrite andb_true_iff, !N.eqb_eq. destruct e, f; cbn. split; [intros (-> & ->); reflexivity|now intros [= -> ->]]. Qed.
Lemma has_none f : has_all f 0 = true. Proof. unfold has_all. now rewrite N.land_0_r. Qed.
Lemma has_admin7 f : has_all f 2 = is_admin f.
Proof.
  unfold has_all, is_admin. change 2 with (2 ^ 1) at 1 2. destruct (N.testbit f 1) eqn:E.
  - apply N.eqb_eq. apply N.bits_inj. intros k. rewrite N.land_spec, N.pow2_bits_eqb. destruct (N.eqb_spec 1 k) as [<-|]; [now rewrite E|apply andb_false_r].
  - apply N.eqb_neq. intros X. apply (f_equal (fun n => N.testbit n 1)) in X. rewrite N.land_spec, N.pow2_bits_eqb, E in X. discriminate.
Qed.
Lemma next_mod c : c < W64 -> (c + 1) mod W64 = next_count c.
Proof. intros H. unfold next_count. destruct (N.eqb_spec c (2 ^ 64 - 1)) as [->|]; [reflexivity|]. apply N.mod_small. unfold W64 in *. lia. Qed.
Lemma next_small c : c < 2 ^ 64 -> next_count c < 2 ^ 64.
Proof. intros H. unfold next_count. destruct (N.eqb_spec c (2 ^ 64 - 1)); lia. Qed.

(** The new number. *)
Lemma new_number_ok v n : mask_form (w_blocks v) (w_mask v) -> Forall (fun b => block_num b < 2 ^ 64) (w_blocks v) ->
  (new_number (map block_num (w_blocks v)) n <-> n = next_free7 v).
Proof.
  intros M B. set (used := map block_num (w_blocks v)). unfold mask_form in M. fold used in M. unfold next_free7.
  assert (DE : forall k, In k used \/ ~ In k used) by (intros k; destruct (in_dec N.eq_dec k used); auto). destruct (w_mask v) as [|p].
  - assert (AL : forall k, 2 <= k < 64 -> In k used) by (intros k K; destruct (DE k) as [I|I]; [exact I|]; assert (X : N.testbit 0 k = true) by (apply M; auto); rewrite N.bits_0 in X; discriminate).
    destruct (largest_ok (w_blocks v) 63) as (L1 & L2 & L3). set (g := largest7 (w_blocks v) 63) in *. fold used in L3.
    assert (LE : forall k, In k used -> k <= g). { intros k I. apply in_map_iff in I. destruct I as (b & <- & I). exact (proj1 (Forall_forall _ _) L2 b I). }
    assert (IG : In g used) by (destruct L3 as [E|I]; [rewrite E; apply AL; lia|exact I]).
    assert (GS : g < W64). { apply in_map_iff in IG. destruct IG as (b & E & I). rewrite <- E. exact (proj1 (Forall_forall _ _) B b I). }
    rewrite next_mod by exact GS. split.
    + intros [(K & NI & _)|(_ & m & I & LM & ->)]; [elim NI; apply AL; exact K|]. f_equal. apply N.le_antisymm; auto.
    + intros ->. right. split; [exact AL|]. exists g. auto.
  - destruct (ctz_bit p) as (C1 & C2). pose proof (proj1 (M _) C1) as (C3 & C4). assert (C5 : forall k, 2 <= k < ctz p -> In k used).
    { intros k K. destruct (DE k) as [I|I]; [exact I|]. exfalso. assert (X : N.testbit (Npos p) k = true) by (apply M; split; [lia|exact I]). rewrite C2 in X by lia. discriminate. }
    split.
    + intros [(K & NI & AL)|(AL & _)]; [|elim C4; now apply AL]. destruct (N.lt_trichotomy n (ctz p)) as [L|[E|L]]; [elim NI; apply C5; lia|exact E|elim C4; apply AL; lia].
    + intros ->. left. auto.
Qed.
Lemma next_free_bound v : mask_form (w_blocks v) (w_mask v) -> next_free7 v < 2 ^ 64.
Proof. intros M. unfold next_free7. destruct (w_mask v) as [|p]; [apply N.mod_lt; discriminate|]. destruct (ctz_bit p) as (C1 & _). apply M in C1. lia. Qed.

(** The view after the edits. *)
Definition pass7 (id : N) (b : cbv7) : cbv7 :=
  if block_type b =? 6 then if k_enc b then touch7 b else modify7 (k_c b) (CExt (PrevNode (id, 0))) b
  else if block_type b =? 10 then
    if k_enc b then touch7 b else match k_x b with CExt (HopCount l c) => modify7 (k_c b) (CExt (HopCount l (next_count c))) b | _ => b end
  else b.
Definition prev_canon (n : N) : canon7 := mkCanon7 6 n 16 0 None (0, 0) 2.
Definition new_blocks (id : N) (v : bview7) : list cbv7 :=
  if existsb (fun b => block_type b =? 6) (w_blocks v) then [] else [fresh7 (prev_canon (next_free7 v)) (CExt (PrevNode (id, 0)))].
Definition pass_mask (v : bview7) : N := if existsb (fun b => block_type b =? 6) (w_blocks v) then w_mask v else reserve7 (next_free7 v) (w_mask v).
Definition pass_view (nd : node) (v : bview7) : bview7 :=
  let v2 := with_blocks7 v (new_blocks (n_id nd) v ++ map (pass7 (n_id nd)) (w_blocks v)) (pass_mask v) in
  if is_dest (q_dest (w_prim v)) (echo_eid nd) then modify_primary7 (echoed7 nd (w_prim v)) v2 else v2.

Lemma pass_type id b : block_type (pass7 id b) = block_type b.
Proof. unfold pass7. destruct (block_type b =? 6), (block_type b =? 10), (k_enc b), (k_x b) as [|[]|s|a]; reflexivity. Qed.
Lemma pass_num id b : block_num (pass7 id b) = block_num b.
Proof. unfold pass7, block_num. destruct (block_type b =? 6), (block_type b =? 10), (k_enc b), (k_x b) as [|[]|s|a]; reflexivity. Qed.
Lemma pass_enc id b : k_enc (pass7 id b) = k_enc b.
Proof. unfold pass7. destruct (block_type b =? 6), (block_type b =? 10), (k_enc b) eqn:E, (k_x b) as [|[]|s|a]; cbn; assumption || reflexivity. Qed.
Lemma pass_del id b : k_del (pass7 id b) = k_del b.
Proof. unfold pass7. destruct (block_type b =? 6), (block_type b =? 10), (k_enc b) eqn:E, (k_x b) as [|[]|s|a]; reflexivity. Qed.

(** Contents of loaded blocks. *)
Lemma form_blocks P old admin keys : forall l i b, blocks_form P old admin keys i l -> In b l -> exists k, block_form P (old k) admin keys b.
Proof. induction l as [|a l IH]; intros i b F I; [contradiction|]. destruct F as (F1 & F2). destruct I as [->|I]; [eauto|]. exact (IH _ _ F2 I). Qed.
Lemma prev_content P old admin keys b : block_form P old admin keys b -> block_type b = 6 -> k_enc b = false -> exists e, k_x b = CExt (PrevNode e).
Proof.
  intros (_ & _ & _ & _ & _ & C) T E. rewrite E in C. destruct C as (d & _ & C). rewrite T in C. destruct (k_x b) as [|x|s|a]; cbn [content_form] in C.
  - exfalso. destruct C as (C & _). apply C. now left.
  - destruct C as (C & _). destruct x; try discriminate. eauto.
  - destruct C as ([C|C] & _); discriminate.
  - destruct C as (_ & C & _). discriminate.
Qed.
Lemma hop_content P old admin keys b : block_form P old admin keys b -> block_type b = 10 -> k_enc b = false -> exists l c, k_x b = CExt (HopCount l c) /\ l < 2 ^ 64 /\ c < 2 ^ 64.
Proof.
  intros (_ & _ & _ & _ & _ & C) T E. rewrite E in C. destruct C as (d & _ & C). rewrite T in C. destruct (k_x b) as [|x|s|a]; cbn [content_form] in C.
  - exfalso. destruct C as (C & _). apply C. do 2 right. now left.
  - destruct C as (C & F). destruct x as [e|v|l c|v]; try discriminate. exists l, c. split; [reflexivity|]. destruct F as (q & F & _). cbn [fst snd] in F. apply items_two in F. destruct F as (p1 & p2 & _ & U1 & U2).
    split; [apply (uint_bound _ _ U1)|apply (uint_bound _ _ U2)].
  - destruct C as ([C|C] & _); discriminate.
  - destruct C as (_ & C & _). discriminate.
Qed.
(** The two steps of the code make this view, or give up. *)
Definition pass6 (id : N) (b : cbv7) : cbv7 :=
  if block_type b =? 6 then if k_enc b then touch7 b else modify7 (k_c b) (CExt (PrevNode (id, 0))) b else b.
Definition pass10 (b : cbv7) : cbv7 :=
  if block_type b =? 10 then
    if k_enc b then touch7 b else match k_x b with CExt (HopCount l c) => modify7 (k_c b) (CExt (HopCount l (next_count c))) b | _ => b end
  else b.
Lemma pass_both id b : pass7 id b = pass10 (pass6 id b).
Proof.
  unfold pass7, pass10, pass6. destruct (N.eqb_spec (block_type b) 6) as [E|E]; [|reflexivity].
  assert (X : forall x, block_type x = block_type b -> (block_type x =? 10) = false) by (intros x ->; rewrite E; reflexivity). destruct (k_enc b); rewrite X; reflexivity.
Qed.
Lemma pass6_type id b : block_type (pass6 id b) = block_type b.
Proof. unfold pass6. destruct (block_type b =? 6), (k_enc b); reflexivity. Qed.
Lemma pass6_ten id l : of_type 10 (map (pass6 id) l) = of_type 10 l.
Proof.
  induction l as [|b l IH]; [reflexivity|]. unfold of_type in *. cbn [map filter]. rewrite pass6_type, IH. destruct (N.eqb_spec (block_type b) 10) as [E|]; [|reflexivity]. unfold pass6. rewrite E. reflexivity.
Qed.
Lemma single {A : Type} (f : A -> bool) l b : filter f l = [b] -> forall x, In x l -> f x = true -> x = b.
Proof. intros E x I F. assert (X : In x (filter f l)) by (apply filter_In; auto). rewrite E in X. destruct X as [->|[]]. reflexivity. Qed.
Lemma single_in {A : Type} (f : A -> bool) l b : filter f l = [b] -> In b l /\ f b = true.
Proof. intros E. apply filter_In. rewrite E. now left. Qed.
Lemma no_filter t l : of_type t l = [] -> existsb (fun b => block_type b =? t) l = false.
Proof. unfold of_type. induction l as [|b l IH]; [reflexivity|]. cbn [filter existsb]. destruct (block_type b =? t); [discriminate|exact IH]. Qed.
Lemma some_filter t l : of_type t l <> [] -> existsb (fun b => block_type b =? t) l = true.
Proof. unfold of_type. induction l as [|b l IH]; [intros H; now elim H|]. cbn [filter existsb]. destruct (block_type b =? t); [reflexivity|exact IH]. Qed.
Lemma no_type6 id l : of_type 6 l = [] -> map (pass6 id) l = l.
Proof. unfold of_type. induction l as [|b l IH]; [reflexivity|]. cbn [filter map]. unfold pass6 at 1. destruct (block_type b =? 6); [discriminate|]. intros H. f_equal. now apply IH. Qed.
Lemma no_type10 l : of_type 10 l = [] -> map pass10 l = l.
Proof. unfold of_type. induction l as [|b l IH]; [reflexivity|]. cbn [filter map]. unfold pass10 at 1. destruct (block_type b =? 10); [discriminate|]. intros H. f_equal. now apply IH. Qed.
Lemma prev_step P old v bs nd : bundle7_form P old v bs ->
  previous_node7 nd v = if Nat.leb (length (of_type 6 (w_blocks v))) 1
                        then Some (with_blocks7 v (new_blocks (n_id nd) v ++ map (pass6 (n_id nd)) (w_blocks v)) (pass_mask v)) else None.
Proof.
  intros BF. unfold previous_node7. change (by_type7 6 v) with (of_type 6 (w_blocks v)). destruct (of_type 6 (w_blocks v)) as [|b [|b2 l]] eqn:E; cbn [length Nat.leb].
  - unfold new_blocks, pass_mask. rewrite (no_filter _ _ E), (no_type6 _ _ E). reflexivity.
  - unfold new_blocks, pass_mask. rewrite some_filter by (rewrite E; discriminate). destruct (single_in _ _ _ E) as (I & T). apply N.eqb_eq in T. destruct BF as (_ & _ & _ & _ & _ & _ & _ & _ & _ & BF & _). destruct (form_blocks _ _ _ _ _ _ _ BF I) as (k & F).
    assert (U : forall f, (forall x, In x (w_blocks v) -> block_type x = 6 -> f x = pass6 (n_id nd) x) -> update_type7 6 f v = with_blocks7 v ([] ++ map (pass6 (n_id nd)) (w_blocks v)) (w_mask v)).
    { intros f H. unfold update_type7. f_equal. cbn [app]. apply map_ext_in. intros x IX. change (c_type (k_c x)) with (block_type x). destruct (N.eqb_spec (block_type x) 6) as [E6|E6]; [now apply H|]. unfold pass6. rewrite (proj2 (N.eqb_neq _ _) E6). reflexivity. }
    assert (S : forall x, In x (w_blocks v) -> block_type x = 6 -> x = b) by (intros x IX TX; apply (single _ _ _ E _ IX); now apply N.eqb_eq).
    destruct (k_enc b) eqn:EE.
    + f_equal. apply U. intros x IX TX. unfold pass6. rewrite TX. rewrite (S x IX TX), EE. reflexivity.
    + destruct (prev_content _ _ _ _ _ F T EE) as (e & ->). f_equal. apply U. intros x IX TX. unfold pass6. rewrite TX. rewrite (S x IX TX), EE. reflexivity.
  - reflexivity.
Qed.
Lemma allowed_step l c : c < W64 -> hop_allowed (l, c) <-> (l <? (c + 1) mod W64) || (255 <? (c + 1) mod W64) = false.
Proof. intros H. rewrite next_mod by exact H. unfold hop_allowed, next_count. cbn [fst snd]. destruct (N.eqb_spec c (2 ^ 64 - 1)) as [->|]; [split; [intros _; destruct l; reflexivity|auto]|]. unfold W64 in H. rewrite orb_false_iff, !N.ltb_ge. lia. Qed.
Lemma hop_step P old v bs nd stale m front : bundle7_form P old v bs -> snd stale < 2 ^ 64 -> of_type 10 front = [] ->
  let v1 := with_blocks7 v (front ++ map (pass6 (n_id nd)) (w_blocks v)) m in
  ((length (of_type 10 (w_blocks v)) <= 1)%nat /\ (forall b, In b (w_blocks v) -> block_type b = 10 -> hop_allowed (hop_pair stale b)) ->
   hop_count7 stale v1 = Some (with_blocks7 v (front ++ map (pass7 (n_id nd)) (w_blocks v)) m)) /\
  (~ ((length (of_type 10 (w_blocks v)) <= 1)%nat /\ (forall b, In b (w_blocks v) -> block_type b = 10 -> hop_allowed (hop_pair stale b))) -> hop_count7 stale v1 = None).
Proof.
  intros BF HS HF v1. assert (E0 : by_type7 10 v1 = of_type 10 (w_blocks v)). { change (by_type7 10 v1) with (of_type 10 (w_blocks v1)). unfold v1. cbn [with_blocks7 w_blocks]. unfold of_type in *. rewrite filter_app, HF. cbn [app]. apply (pass6_ten (n_id nd) (w_blocks v)). }
  unfold hop_count7. rewrite E0. assert (EM : forall l, map (pass7 (n_id nd)) l = map pass10 (map (pass6 (n_id nd)) l)) by (intros l; rewrite map_map; apply map_ext; intros; apply pass_both).
  destruct (of_type 10 (w_blocks v)) as [|b [|b2 l]] eqn:E; cbn [length].
  - split.
    + intros _. rewrite EM, no_type10 by (rewrite pass6_ten; exact E). reflexivity.
    + intros H. exfalso. apply H. split; [lia|]. intros b I T. assert (X : In b (of_type 10 (w_blocks v))) by (apply filter_In; split; [exact I|now apply N.eqb_eq]). rewrite E in X. contradiction.
  - destruct (single_in _ _ _ E) as (I & T). apply N.eqb_eq in T. destruct BF as (_ & _ & _ & _ & _ & _ & _ & _ & _ & BF & _). destruct (form_blocks _ _ _ _ _ _ _ BF I) as (k & F).
    assert (S : forall x, In x (w_blocks v) -> block_type x = 10 -> x = b) by (intros x IX TX; apply (single _ _ _ E _ IX); now apply N.eqb_eq).
    assert (U : forall f, (forall x, In x (w_blocks v) -> block_type x = 10 -> f x = pass10 x) -> update_type7 10 f v1 = with_blocks7 v (front ++ map (pass7 (n_id nd)) (w_blocks v)) m).
    { intros f H. unfold update_type7, v1. cbn [with_blocks7 w_blocks w_mask w_prim w_pactual w_plive w_pdirty w_enc w_bytes]. unfold with_blocks7. f_equal. rewrite map_app. f_equal.
      - rewrite <- (map_id front) at 2. apply map_ext_in. intros x IX. change (c_type (k_c x)) with (block_type x). destruct (N.eqb_spec (block_type x) 10) as [E6|E6]; [|reflexivity]. exfalso. assert (X : In x (of_type 10 front)) by (apply filter_In; split; [exact IX|now apply N.eqb_eq]). rewrite HF in X. contradiction.
      - rewrite EM, !map_map. apply map_ext_in. intros x IX. change (c_type (k_c (pass6 (n_id nd) x))) with (block_type (pass6 (n_id nd) x)). rewrite pass6_type. destruct (N.eqb_spec (block_type x) 10) as [E6|E6].
        + assert (X : pass6 (n_id nd) x = x) by (unfold pass6; rewrite E6; reflexivity). rewrite X. now apply H.
        + unfold pass10. rewrite pass6_type, (proj2 (N.eqb_neq _ _) E6). reflexivity. }
    assert (Q : hop_allowed (hop_pair stale b) <-> (1 <= 1)%nat /\ (forall b0, In b0 (w_blocks v) -> block_type b0 = 10 -> hop_allowed (hop_pair stale b0))).
    { split; [intros H; split; [lia|]; intros x IX TX; now rewrite (S x IX TX)|]. intros (_ & H). now apply H. }
    rewrite <- Q. clear Q. unfold hop_pair. destruct (k_enc b) eqn:EE.
    + destruct stale as (l, c). cbn [fst snd] in *. rewrite (allowed_step l c HS). destruct (_ || _); split; intros H; try discriminate; [reflexivity| |now elim H].
      f_equal. apply U. intros x IX TX. unfold pass10. rewrite TX. rewrite (S x IX TX), EE. reflexivity.
    + destruct (hop_content _ _ _ _ _ F T EE) as (l & c & EX & _ & HC). rewrite EX. rewrite (allowed_step l c HC). destruct (_ || _); split; intros H; try discriminate; [reflexivity| |now elim H].
      f_equal. apply U. intros x IX TX. unfold pass10. rewrite TX. rewrite (S x IX TX), EE, EX, next_mod by exact HC. reflexivity.
  - split; [intros (H & _); lia|reflexivity].
Qed.
(** Loaded blocks can be written again. *)
Lemma closing_type v ct cc body f : crc_closing v ct cc body f -> ct <= 2.
Proof. intros H. inversion H; lia. Qed.
Lemma canon_form_ok P c b : canon7_form P c b -> canon7_ok c /\ c_crctype c <= 2.
Proof.
  intros (t & n & fl & tag & d & ds & crc & body & _ & _ & T & LT & NU & FL & _ & _ & _ & _ & C). apply closing_type in C. split; [|exact C]. split; [|split; [apply (uint_bound _ _ NU)|split; [apply (uint_bound _ _ FL)|lia]]].
  inversion T as [v V E1 E2|j bs J L O E1 E2]; [lia|]. rewrite <- E2 in LT. cbn [length] in LT. assert (length bs = 1%nat) as L1 by (assert (1 <= 2 ^ j)%nat by (clear; induction j; cbn; lia); lia).
  destruct bs as [|x [|? ?]]; try discriminate. apply Forall_inv in O. unfold is_octet in O. change (be_value [x]) with x. exact O.
Qed.
Lemma two_form_small t p : two_form t p -> small64 t.
Proof. intros (q & I & _). apply items_two in I. destruct I as (p1 & p2 & _ & U1 & U2). split; [apply (uint_bound _ _ U1)|apply (uint_bound _ _ U2)]. Qed.
Lemma eid_form_small e p : eid7_form e p -> small64 e.
Proof. intros (b & _ & [(_ & ->)|(t & _ & T)]); [split; reflexivity|exact (two_form_small _ _ T)]. Qed.
Lemma prim_form_ok p b : primary7_form (0, 0) p b -> is_fragment (q_flags p) = false -> prim7_ok p /\ q_crctype p <= 2.
Proof.
  intros (fl & d & s & r & t & l & fr & crc & body & _ & _ & FL & D & S & R & T & L & F & C) NF. rewrite NF in F. destruct F as (_ & [= F1 F2]). apply closing_type in C. split; [|exact C].
  split; [apply (uint_bound _ _ FL)|]. split; [exact (eid_form_small _ _ D)|]. split; [exact (eid_form_small _ _ S)|]. split; [exact (eid_form_small _ _ R)|]. split; [exact (two_form_small _ _ T)|]. split; [apply (uint_bound _ _ L)|]. rewrite F1, F2. split; [reflexivity|]. split; [reflexivity|lia].
Qed.
Lemma form_data P c b : canon7_form P c b -> exists d, c_data c = Some d /\ c_len c = N.of_nat (length d) /\ (length d <= length b)%nat /\ (Forall is_octet b -> Forall is_octet d).
Proof. intros F. destruct (form_split _ _ _ F) as (h & d & crc & -> & CD & CL & _). exists d. rewrite !app_length. repeat split; [exact CD|exact CL|lia|]. intros H. apply Forall_app in H. destruct H as (_ & H). apply Forall_app in H. apply H. Qed.
(** Lengths. *)
Lemma shortest_len n p : shortest_cbor n p -> (length p <= 9)%nat.
Proof. intros (H & _). apply (uint_bound _ _ H). Qed.
Lemma two_len t p : shortest_two t p -> (length p <= 19)%nat.
Proof. intros (q & (ps & -> & F) & ->). inversion F as [|? p1 ? ? X1 F3]; subst. inversion F3 as [|? p2 ? ? X2 F4]; subst. inversion F4; subst. apply shortest_len in X1, X2. cbn [concat]. rewrite app_nil_r. cbn [length]. rewrite app_length. lia. Qed.
Lemma eid_len e p : eid7_written e p -> (length p <= 21)%nat.
Proof. unfold eid7_written. destruct (fst e =? 0); [intros ->; cbn; lia|]. intros (t & T & ->). apply two_len in T. cbn [length]. lia. Qed.
Lemma closing_small v ct cc body f : crc_closing v ct cc body f -> (length f <= 5)%nat.
Proof. intros H. rewrite (closing_len _ _ _ _ _ H). unfold zero_field. destruct (ct =? 0), (ct =? 1); cbn; lia. Qed.
Lemma canon_len c d body : canon7_written c d body -> (length body <= 38 + length d)%nat.
Proof.
  intros (t & n & fl & ds & -> & H1 & H2 & H3 & (b & r & -> & H4)). apply shortest_len in H1, H2, H3, H4. repeat (rewrite app_length || cbn [length app]). cbn [length] in H4. lia.
Qed.
Lemma block_bytes_len c d b : block_bytes c d b -> (length b <= 43 + length d)%nat.
Proof. intros (body & crc & crcs & H1 & H2 & ->). apply canon_len in H1. apply closing_small in H2. rewrite app_length. lia. Qed.
Lemma primary_len p b : is_fragment (q_flags p) = false -> primary_bytes p b -> (length b <= 108)%nat.
Proof.
  intros NF (body & crc & crcs & (fl & d & s & r & t & l & fr & -> & H1 & H2 & H3 & H4 & H5 & H6 & H7) & C & ->). rewrite NF in *. subst fr. apply shortest_len in H1, H6. apply eid_len in H2, H3, H4. apply two_len in H5. apply closing_small in C. rewrite !app_length. cbn [length app]. lia.
Qed.
Lemma block_bytes_det c d b b' : canon7_ok c -> Forall is_octet d -> block_bytes c d b -> block_bytes c d b' -> b = b'.
Proof.
  intros OK HD (body & crc & crcs & H1 & H2 & ->) (body' & crc' & crcs' & H1' & H2' & ->). pose proof (canon_unique _ _ _ _ H1 H1') as <-. destruct (closing_det _ _ _ _ _ _ (written_octets _ _ _ OK HD H1) H2 H2') as (_ & <-). reflexivity.
Qed.
Lemma primary_det p b b' : prim7_ok p -> primary_bytes p b -> primary_bytes p b' -> b = b'.
Proof.
  intros OK (body & crc & crcs & H1 & H2 & ->) (body' & crc' & crcs' & H1' & H2' & ->). pose proof (prim_unique _ _ _ H1 H1') as <-.
  assert (HB : Forall is_octet body) by (rewrite (prim_unique _ body (cprim p) H1 (cprim_written _ OK)); now apply cprim_octets). destruct (closing_det _ _ _ _ _ _ HB H2 H2') as (_ & <-). reflexivity.
Qed.
Lemma ext_octets x d : ext7_ok x -> ext7_written x d -> Forall is_octet d.
Proof.
  intros OK W. assert (E : d = cext x). { pose proof (cext_written x OK) as W2. destruct x; cbn [ext7_written] in *; [exact (eid_unique _ _ _ W W2)|exact (shortest_unique _ _ _ W W2)|exact (two_unique _ _ _ W W2)|exact (shortest_unique _ _ _ W W2)]. }
  rewrite E. now apply cext_octets.
Qed.
Lemma ext_unique x d d' : ext7_written x d -> ext7_written x d' -> d = d'.
Proof. destruct x; cbn [ext7_written]; [apply eid_unique|apply shortest_unique|apply two_unique|apply shortest_unique]. Qed.
Section Through.
Variables (P : Prop) (old : nat -> leftovers) (v : bview7) (bs : list N) (nd : node).
Hypotheses (BF : bundle7_form P old v bs) (HO : Forall is_octet bs) (NO : node_ok nd) (HL : N.of_nat (length bs) < 2 ^ 64).
Lemma id_small : n_id nd < 2 ^ 64. Proof. exact (Forall_inv NO). Qed.
Lemma block_of b : In b (w_blocks v) -> exists k, block_form P (old k) (is_admin (q_flags (w_prim v))) (w_enc v) b.
Proof. destruct BF as (_ & _ & _ & _ & _ & _ & _ & _ & _ & X & _). intros I. exact (form_blocks _ _ _ _ _ _ _ X I). Qed.
Lemma actual_in b : In b (w_blocks v) -> Forall is_octet (k_actual b) /\ (length (k_actual b) <= length bs)%nat.
Proof.
  intros I. destruct BF as (E & _). apply in_split in I. destruct I as (l1 & l2 & EB). rewrite EB, map_app, concat_app in E. cbn [map concat] in E. rewrite E. split.
  - apply Forall_forall. intros x X. apply (proj1 (Forall_forall _ _) HO). rewrite E, !in_app_iff. tauto.
  - rewrite !app_length. lia.
Qed.

(** The edited blocks. *)
Lemma pass_sendable b : In b (w_blocks v) -> sendable7 (pass7 (n_id nd) b) /\ k_del (pass7 (n_id nd) b) = false.
Proof.
  intros I. destruct (block_of b I) as (k & F). destruct (actual_in b I) as (OC & LB). pose proof F as (CF & LV & DI & DE & _). destruct (canon_form_ok _ _ _ CF) as (CO & CT). destruct (form_data _ _ _ CF) as (d & CD & CL & LD & OD). rewrite pass_del, DE. split; [|reflexivity].
  assert (PL : content_ok (k_c b) CPlain) by (exists d; split; [exact CD|]; split; [exact CL|]; split; [lia|auto]).
  unfold pass7. destruct (N.eqb_spec (block_type b) 6) as [T|T]; [|destruct (N.eqb_spec (block_type b) 10) as [T1|T1]; [|unfold sendable7; rewrite DI; exact LV]].
  - destruct (k_enc b) eqn:EE; unfold sendable7, touch7, modify7; cbn [k_dirty k_c k_enc k_x k_live]; rewrite EE; (split; [exact CO|]; split; [exact CT|]; split; [|intros; assumption || reflexivity]); [exact PL|].
    split; [|exact T]. split; [exact id_small|reflexivity].
  - destruct (k_enc b) eqn:EE.
    + unfold sendable7, touch7. cbn [k_dirty k_c k_enc k_x k_live]. rewrite EE. split; [exact CO|]. split; [exact CT|]. split; [exact PL|intros; assumption].
    + destruct (hop_content _ _ _ _ _ F T1 EE) as (l & c & -> & L1 & L2). unfold sendable7, modify7. cbn [k_dirty k_c k_enc k_x k_live]. rewrite EE. split; [exact CO|]. split; [exact CT|]. split; [|reflexivity]. split; [|exact T1]. split; [exact L1|]. cbn [snd]. now apply next_small.
Qed.
Lemma num_small : Forall (fun b => block_num b < 2 ^ 64) (w_blocks v).
Proof. apply Forall_forall. intros b I. destruct (block_of b I) as (k & (CF & _)). apply (canon_form_ok _ _ _ CF). Qed.
Lemma fresh_sendable n : n < 2 ^ 64 -> sendable7 (fresh7 (prev_canon n) (CExt (PrevNode (n_id nd, 0)))).
Proof. intros H. pose proof id_small. unfold sendable7, fresh7. cbn [k_dirty k_c k_enc k_x k_live]. repeat split; cbn; try assumption; try reflexivity; discriminate. Qed.
Lemma mask_of : mask_form (w_blocks v) (w_mask v). Proof. apply BF. Qed.
Lemma kept_pass : kept7 (w_blocks (pass_view nd v)) = new_blocks (n_id nd) v ++ map (pass7 (n_id nd)) (w_blocks v).
Proof.
  assert (E : w_blocks (pass_view nd v) = new_blocks (n_id nd) v ++ map (pass7 (n_id nd)) (w_blocks v)) by (unfold pass_view; destruct (is_dest _ _); reflexivity). rewrite E. unfold kept7. rewrite filter_app. f_equal.
  - unfold new_blocks. destruct (existsb _ _); reflexivity.
  - assert (X : forall l, (forall b, In b l -> k_del (pass7 (n_id nd) b) = false) -> filter (fun b => negb (k_del b)) (map (pass7 (n_id nd)) l) = map (pass7 (n_id nd)) l).
    { induction l as [|b l IH]; intros H; [reflexivity|]. cbn [map filter]. rewrite (H b) by now left. cbn [negb]. f_equal. apply IH. intros x I. apply H. now right. }
    apply X. intros b I. apply (pass_sendable b I).
Qed.
Lemma echoed_ok : prim7_ok (echoed7 nd (w_prim v)) /\ q_crctype (w_prim v) <= 2.
Proof.
  destruct BF as (_ & _ & PF & NF & _). destruct (prim_form_ok _ _ PF NF) as ((O1 & O2 & O3 & O4) & CT). split; [|exact CT]. split; [exact O1|]. split; [exact O3|]. split; [|exact O4]. split; [exact id_small|]. exact (Forall_inv (Forall_inv_tail (Forall_inv_tail NO))).
Qed.
Lemma pass_ok : view7_ok (pass_view nd v).
Proof.
  unfold view7_ok. rewrite kept_pass. pose proof BF as (_ & _ & _ & NF & PL & PD & _). split; [|split].
  - unfold pass_view. destruct (is_dest _ _); cbn [modify_primary7 with_blocks7 w_pdirty w_plive w_prim]; [exact echoed_ok|]. rewrite PD. exact PL.
  - unfold pass_view. destruct (is_dest _ _); exact NF.
  - apply Forall_app. split.
    + unfold new_blocks. destruct (existsb _ _); constructor; [|constructor]. apply fresh_sendable. apply next_free_bound. exact mask_of.
    + apply Forall_forall. intros x I. apply in_map_iff in I. destruct I as (b & <- & I). apply (pass_sendable b I).
Qed.
Lemma pass_payload : exists front pl, w_blocks v = front ++ [pl] /\ block_type pl = 1 /\ block_num pl = 1 /\ Forall (fun b => block_type b <> 1) front /\ k_dirty pl = false /\ k_del pl = false /\
  w_blocks (pass_view nd v) = (new_blocks (n_id nd) v ++ map (pass7 (n_id nd)) front) ++ [pl] /\ w_bytes (pass_view nd v) = bs /\ exists rest, bs = rest ++ k_actual pl ++ [255].
Proof.
  pose proof BF as (EB & WB & _ & _ & _ & _ & (front & pl & E & T & N1 & FR) & _). exists front, pl. destruct (block_of pl) as (k & (_ & _ & DI & DE & _)). { rewrite E. apply in_app_iff. right. now left. }
  do 6 (split; [assumption|]). split; [|split].
  - assert (X : w_blocks (pass_view nd v) = new_blocks (n_id nd) v ++ map (pass7 (n_id nd)) (w_blocks v)) by (unfold pass_view; destruct (is_dest _ _); reflexivity). rewrite X, E, map_app, app_assoc. cbn [map]. do 2 f_equal. unfold pass7. rewrite T. reflexivity.
  - unfold pass_view. destruct (is_dest _ _); exact WB.
  - exists ([159] ++ w_pactual v ++ concat (map k_actual front)). rewrite EB, E, map_app, concat_app. cbn [map concat]. now rewrite app_nil_r, <- !app_assoc.
Qed.

(** What is sent. *)
Definition grown (b : cbv7) : nat := if block_type b =? 6 then 64 else if block_type b =? 10 then 64 else 0.
Lemma sent_passed b b' : In b (w_blocks v) -> sent_block7 (pass7 (n_id nd) b) b' -> passed_block (n_id nd) b (k_actual b') /\ (length (k_actual b') <= length (k_actual b) + grown b)%nat.
Proof.
  intros I S. destruct (block_of b I) as (k & F). pose proof F as (CF & LV & DI & DE & _). destruct (form_data _ _ _ CF) as (d0 & CD & CL & LD & OD). unfold passed_block, grown. unfold pass7 in S.
  assert (G : forall c x, sent_block7 (modify7 c x b) b' -> k_enc b = false -> exists d, content_written (modify7 c x b) d /\ block_bytes c d (k_actual b')).
  { intros c x H _. unfold sent_block7 in H. cbn [modify7 k_dirty] in H. destruct H as (d & body & crc & crcs & H1 & H2 & H3 & ->). exists d. split; [exact H1|]. exists body, crc, crcs. auto. }
  assert (T : sent_block7 (touch7 b) b' -> k_enc b = true -> exists d, block_bytes (k_c b) d (k_actual b') /\ c_data (k_c b) = Some d).
  { intros H E. unfold sent_block7 in H. cbn [touch7 k_dirty] in H. destruct H as (d & body & crc & crcs & H1 & H2 & H3 & ->). unfold content_written in H1. cbn [touch7 k_enc k_x k_c] in *. rewrite E in H1. exists d. split; [exists body, crc, crcs; auto|exact H1]. }
  assert (T2 : sent_block7 (touch7 b) b' -> k_enc b = true -> (exists d, block_bytes (k_c b) d (k_actual b') /\ c_data (k_c b) = Some d) /\ (length (k_actual b') <= length (k_actual b) + 64)%nat).
  { intros H E. destruct (T H E) as (d & H1 & H2). split; [eauto|]. apply block_bytes_len in H1. assert (d = d0) as -> by congruence. lia. }
  destruct (N.eqb_spec (block_type b) 6) as [T6|T6]; [|destruct (N.eqb_spec (block_type b) 10) as [T10|T10]]; cbn [orb].
  - destruct (k_enc b) eqn:EE; [now apply T2|]. destruct (G _ _ S eq_refl) as (d & W & B). unfold content_written in W. cbn [modify7 k_enc k_x] in W. rewrite EE in W. destruct (prev_content _ _ _ _ _ F T6 EE) as (e & EX). rewrite EX. split; [exists d; auto|]. apply eid_len in W. apply block_bytes_len in B. lia.
  - destruct (k_enc b) eqn:EE; [now apply T2|]. destruct (hop_content _ _ _ _ _ F T10 EE) as (l & c & EX & _). rewrite EX in *. destruct (G _ _ S eq_refl) as (d & W & B). unfold content_written in W. cbn [modify7 k_enc k_x] in W. rewrite EE in W. split; [exists d; auto|]. apply two_len in W. apply block_bytes_len in B. lia.
  - unfold sent_block7 in S. rewrite DI in S. subst b'. split; [reflexivity|lia].
Qed.
Lemma passed_det b x y : In b (w_blocks v) -> passed_block (n_id nd) b x -> passed_block (n_id nd) b y -> x = y.
Proof.
  intros I. destruct (block_of b I) as (k & F). pose proof F as (CF & _). destruct (canon_form_ok _ _ _ CF) as (CO & _). destruct (actual_in b I) as (OC & _). destruct (form_data _ _ _ CF) as (d0 & CD & _ & _ & OD). unfold passed_block. destruct (_ || _) eqn:E; [|congruence]. intros (d & B & W) (d' & B' & W').
  assert (K : d = d' /\ Forall is_octet d).
  { destruct (k_enc b) eqn:EE; [split; [congruence|]; assert (d = d0) as -> by congruence; auto|]. apply orb_true_iff in E. destruct E as [E|E]; apply N.eqb_eq in E.
    - destruct (prev_content _ _ _ _ _ F E EE) as (e & EX). rewrite EX in *. split; [exact (ext_unique _ _ _ W W')|]. apply (ext_octets _ _ (conj id_small eq_refl : ext7_ok (PrevNode (n_id nd, 0))) W).
    - destruct (hop_content _ _ _ _ _ F E EE) as (l & c & EX & L1 & L2). rewrite EX in *. split; [exact (ext_unique _ _ _ W W')|]. assert (OK : ext7_ok (HopCount l (next_count c))) by (split; [exact L1|now apply next_small]). exact (ext_octets _ _ OK W). }
  destruct K as (<- & HD). exact (block_bytes_det _ _ _ _ CO HD B B').
Qed.
Lemma passed_all : forall l l', incl l (w_blocks v) -> Forall2 sent_block7 (map (pass7 (n_id nd)) l) l' ->
  Forall2 (passed_block (n_id nd)) l (map k_actual l') /\ (length (concat (map k_actual l')) <= length (concat (map k_actual l)) + list_sum (map grown l))%nat.
Proof.
  induction l as [|b l IH]; intros l' I F; inversion F as [|? b' ? r S F' E1 E2]; subst; [split; [constructor|cbn; lia]|]. destruct (IH r) as (I1 & I2); [intros x X; apply I; now right|exact F'|]. destruct (sent_passed b b') as (S1 & S2); [apply I; now left|exact S|].
  split; [constructor; assumption|]. cbn [map concat]. rewrite !app_length. unfold list_sum in *. cbn [fold_right]. lia.
Qed.
Lemma grown_sum l : list_sum (map grown l) = (64 * (length (of_type 6 l) + length (of_type 10 l)))%nat.
Proof.
  induction l as [|b l IH]; [reflexivity|]. unfold list_sum, of_type in *. cbn [map fold_right filter]. rewrite IH. unfold grown. destruct (N.eqb_spec (block_type b) 6) as [->|]; cbn [N.eqb length]; [change (6 =? 10) with false; cbn [length]; lia|].
  destruct (block_type b =? 10); cbn [length]; lia.
Qed.
Lemma new_sent l' : Forall2 sent_block7 (new_blocks (n_id nd) v) l' -> new_previous (n_id nd) (w_blocks v) (concat (map k_actual l')) /\ (length (concat (map k_actual l')) <= 64 * (1 - length (of_type 6 (w_blocks v))))%nat.
Proof.
  unfold new_blocks, new_previous. destruct (existsb (fun b => block_type b =? 6) (w_blocks v)) eqn:E; intros F; inversion F as [|? b' ? r S F']; subst; [split; [reflexivity|cbn; lia]|]. inversion F'; subst. cbn [map concat]. rewrite app_nil_r.
  unfold sent_block7 in S. cbn [fresh7 k_dirty] in S. destruct S as (d & body & crc & crcs & H1 & H2 & H3 & ->). cbn [k_actual fresh7 k_c] in *. unfold content_written in H1. cbn [fresh7 k_enc k_x ext7_written] in H1.
  assert (B : block_bytes (prev_canon (next_free7 v)) d (body ++ crc)) by (exists body, crc, crcs; auto). split; [exists (next_free7 v), d; split; [apply new_number_ok; [exact mask_of|exact num_small|reflexivity]|]; split; [exact H1|exact B]|].
  destruct (of_type 6 (w_blocks v)) eqn:E6; [|rewrite some_filter in E by (rewrite E6; discriminate); discriminate]. apply block_bytes_len in B. apply eid_len in H1. cbn [length]. lia.
Qed.
Lemma sent_forwarded v' : sent7 (pass_view nd v) v' -> forwarded7 nd v (w_bytes v') /\
  ((length (of_type 6 (w_blocks v)) <= 1)%nat -> (length (of_type 10 (w_blocks v)) <= 1)%nat -> (length (w_bytes v') <= length bs + 256)%nat).
Proof.
  intros (SP & F2 & _ & _ & _ & _ & EB). rewrite kept_pass in F2. apply Forall2_app_inv_l in F2. destruct F2 as (l1 & l2 & F1 & F2 & EL). destruct (new_sent l1 F1) as (N1 & N2). destruct (passed_all _ l2 (incl_refl _) F2) as (P1 & P2). rewrite grown_sum in P2.
  pose proof BF as (E0 & _ & _ & NF & _ & PD & _). rewrite EL, map_app, concat_app, <- app_assoc in EB.
  assert (PP : (if is_dest (q_dest (w_prim v)) (echo_eid nd) then primary_bytes (echoed7 nd (w_prim v)) (w_pactual v') else w_pactual v' = w_pactual v) /\ (length (w_pactual v') <= length (w_pactual v) + 108)%nat).
  { unfold sent_primary7, pass_view in SP. destruct (is_dest _ _); cbn [modify_primary7 with_blocks7 w_pdirty w_prim w_pactual] in SP.
    - destruct SP as (body & crc & crcs & H1 & H2 & -> & _). assert (B : primary_bytes (echoed7 nd (w_prim v)) (body ++ crc)) by (exists body, crc, crcs; auto). split; [exact B|]. assert (X : (length (body ++ crc) <= 108)%nat) by (apply (primary_len (echoed7 nd (w_prim v))); [exact NF|exact B]). lia.
    - rewrite PD in SP. destruct SP as (-> & _). split; [reflexivity|lia]. }
  destruct PP as (PP & PL). split.
  - exists (w_pactual v'), (concat (map k_actual l1)), (map k_actual l2). auto.
  - intros C6 C10. assert (LB : length bs = (2 + length (w_pactual v) + length (concat (map k_actual (w_blocks v))))%nat) by (rewrite E0 at 1; rewrite !app_length; cbn [length]; lia). rewrite EB, !app_length. cbn [length]. lia.
Qed.
Lemma forwarded_det x y : forwarded7 nd v x -> forwarded7 nd v y -> x = y.
Proof.
  intros (p & n & b & -> & HP & HN & HB) (p' & n' & b' & -> & HP' & HN' & HB').
  assert (p = p') as <-. { destruct (is_dest _ _); [|congruence]. exact (primary_det _ _ _ (proj1 echoed_ok) HP HP'). }
  assert (n = n') as <-. { unfold new_previous in *. destruct (existsb _ _); [congruence|]. destruct HN as (m & d & M & W & B), HN' as (m' & d' & M' & W' & B'). apply new_number_ok in M, M'; try exact mask_of; try exact num_small. subst m m'. pose proof (ext_unique _ _ _ W W') as <-.
    apply (block_bytes_det (prev_canon (next_free7 v)) d); [|apply (ext_octets _ _ (conj id_small eq_refl : ext7_ok (PrevNode (n_id nd, 0))) W)|exact B|exact B']. repeat split; try (cbn; lia). cbn. apply next_free_bound. exact mask_of. }
  assert (b = b') as <-; [|reflexivity].
  assert (X : forall l b b', incl l (w_blocks v) -> Forall2 (passed_block (n_id nd)) l b -> Forall2 (passed_block (n_id nd)) l b' -> b = b').
  { induction l as [|a l IH]; intros c c' I H H'; inversion H; inversion H'; subst; [reflexivity|]. f_equal; [eapply passed_det; try eassumption; apply I; now left|]. apply IH; try assumption. intros z Z. apply I. now right. }
  exact (X _ _ _ (incl_refl _) HB HB').
Qed.

(** What the next node sees. *)
Lemma has_previous_ok l : has_previous l <-> existsb (fun b => block_type b =? 6) l = true.
Proof. unfold has_previous. rewrite existsb_exists. split; intros (b & I & T); exists b; (split; [exact I|]); now apply N.eqb_eq. Qed.
Lemma targets_pass b : In b (w_blocks v) -> targets_of (pass7 (n_id nd) b) = targets_of b.
Proof.
  intros I. unfold targets_of. rewrite pass_type. destruct (N.eqb_spec (block_type b) 12) as [T|]; [|reflexivity]. unfold pass7. rewrite T. reflexivity.
Qed.
Lemma enc_pass : encrypted_numbers (new_blocks (n_id nd) v ++ map (pass7 (n_id nd)) (w_blocks v)) = w_enc v.
Proof.
  unfold encrypted_numbers. rewrite flat_map_app. replace (flat_map targets_of (new_blocks (n_id nd) v)) with (@nil N) by (unfold new_blocks; destruct (existsb _ _); reflexivity). cbn [app].
  destruct BF as (_ & _ & _ & _ & _ & _ & _ & E & _). rewrite E. unfold encrypted_numbers. clear E.
  assert (X : forall l, incl l (w_blocks v) -> flat_map targets_of (map (pass7 (n_id nd)) l) = flat_map targets_of l); [|apply X, incl_refl].
  induction l as [|b l IH]; intros I; [reflexivity|]. cbn [map flat_map]. rewrite targets_pass by (apply I; now left). f_equal. apply IH. intros x H. apply I. now right.
Qed.
Lemma pass_readable : P -> has_previous (w_blocks v) \/ ~ In (next_free7 v) (w_enc v) -> view7_readable (pass_view nd v).
Proof.
  intros HP FR. unfold view7_readable. rewrite kept_pass, enc_pass. pose proof BF as (E0 & _ & PF & NF & _ & PD & PL & EE & ND & _ & _). cbv zeta. split; [|split; [exact ND|split]].
  - destruct pass_payload as (front & pl & EB & T & N1 & FT & _ & _ & EP & _). assert (X : w_blocks (pass_view nd v) = new_blocks (n_id nd) v ++ map (pass7 (n_id nd)) (w_blocks v)) by (unfold pass_view; destruct (is_dest _ _); reflexivity). rewrite X in EP. rewrite EP.
    exists (new_blocks (n_id nd) v ++ map (pass7 (n_id nd)) front), pl. do 3 (split; [assumption || reflexivity|]). apply Forall_app. split; [unfold new_blocks; destruct (existsb _ _); repeat constructor; discriminate|]. apply Forall_forall. intros x I. apply in_map_iff in I. destruct I as (b & <- & I). rewrite pass_type. exact (proj1 (Forall_forall _ _) FT b I).
  - replace (is_admin (q_flags (w_prim (pass_view nd v)))) with (is_admin (q_flags (w_prim v))) by (unfold pass_view; destruct (is_dest _ _); reflexivity).
    apply Forall_app. split.
    + unfold new_blocks. destruct (existsb (fun b => block_type b =? 6) (w_blocks v)) eqn:E6; constructor; [|constructor]. destruct FR as [FR|FR]; [apply has_previous_ok in FR; congruence|]. unfold readable7. cbn [fresh7 k_enc k_dirty k_x]. split; [|intros _; reflexivity]. split; [discriminate|]. intros (_ & I). now elim FR.
    + apply Forall_forall. intros x I. apply in_map_iff in I. destruct I as (b & <- & I). destruct (block_of b I) as (k & F). pose proof F as (CF & LV & DI & DE & EN & CX). destruct (actual_in b I) as (OC & _). unfold readable7. rewrite pass_enc, pass_type, pass_num. split; [exact EN|].
      unfold pass7. destruct (N.eqb_spec (block_type b) 6) as [T6|T6]; [|destruct (N.eqb_spec (block_type b) 10) as [T10|T10]].
      * destruct (k_enc b) eqn:EB; cbn [touch7 modify7 k_dirty k_x]; [discriminate|]. intros _. exact T6.
      * destruct (k_enc b) eqn:EB; [cbn [touch7 k_dirty]; discriminate|]. destruct (hop_content _ _ _ _ _ F T10 EB) as (l & c & -> & _). cbn [modify7 k_dirty k_x]. intros _. exact T10.
      * rewrite DI. split; [apply (form_verified P); [now intros _|exact CF]|]. split; [exact OC|]. destruct (k_enc b); [exact CX|]. destruct CX as (d & C1 & C2). eauto.
  - unfold pass_view. destruct (is_dest _ _); cbn [modify_primary7 with_blocks7 w_pdirty w_prim w_pactual]; [discriminate|]. intros _. split; [exact PF|]. apply Forall_forall. intros x I. apply (proj1 (Forall_forall _ _) HO). rewrite E0, !in_app_iff. auto.
Qed.
Lemma seen_arrived (old2 : nat -> leftovers) (i : nat) b b' : In b (w_blocks v) -> sent_block7 (pass7 (n_id nd) b) b' -> arrived (old2 i) (n_id nd) b (block_seen (old2 i) (pass7 (n_id nd) b) b').
Proof.
  intros I S. destruct (block_of b I) as (k & F). pose proof F as (CF & LV & DI & DE & EN & CX). destruct (sent_numbers _ _ S) as (NU & TY). rewrite pass_num in NU. rewrite pass_type in TY. unfold arrived. change (block_type (block_seen (old2 i) (pass7 (n_id nd) b) b')) with (block_type b'). change (block_num (block_seen (old2 i) (pass7 (n_id nd) b) b')) with (block_num b').
  change (k_c (block_seen (old2 i) (pass7 (n_id nd) b) b')) with (k_c b'). change (k_enc (block_seen (old2 i) (pass7 (n_id nd) b) b')) with (k_enc (pass7 (n_id nd) b)). change (k_actual (block_seen (old2 i) (pass7 (n_id nd) b) b')) with (k_actual b').
  change (k_x (block_seen (old2 i) (pass7 (n_id nd) b) b')) with (if k_enc (pass7 (n_id nd) b) then CPlain else content_seen (old2 i) (if k_dirty (pass7 (n_id nd) b) then content_sent (k_x (pass7 (n_id nd) b)) else k_x (pass7 (n_id nd) b))).
  rewrite pass_enc. split; [exact TY|]. split; [exact NU|]. clear TY NU. unfold pass7 in *. destruct (N.eqb_spec (block_type b) 6) as [T6|T6]; [|destruct (N.eqb_spec (block_type b) 10) as [T10|T10]]; cbn [orb].
  - destruct (k_enc b) eqn:EB; unfold sent_block7, touch7, modify7 in S; cbn [k_dirty k_c k_x k_enc k_del] in S; destruct S as (d & body & crc & crcs & H1 & H2 & H3 & ->); cbn [k_c c_flags c_crctype c_data k_x k_dirty touch7 modify7]; do 3 (split; [reflexivity|]).
    + unfold content_written in H1. cbn [k_enc k_c k_x] in H1. rewrite EB in H1. auto.
    + destruct (prev_content _ _ _ _ _ F T6 EB) as (e & ->). reflexivity.
  - destruct (k_enc b) eqn:EB.
    + unfold sent_block7, touch7 in S; cbn [k_dirty k_c k_x k_enc k_del] in S; destruct S as (d & body & crc & crcs & H1 & H2 & H3 & ->); cbn [k_c c_flags c_crctype c_data k_x k_dirty touch7]; do 3 (split; [reflexivity|]). unfold content_written in H1. cbn [k_enc k_c k_x] in H1. rewrite EB in H1. auto.
    + destruct (hop_content _ _ _ _ _ F T10 EB) as (l & c & EX & _). rewrite EX in *. unfold sent_block7, modify7 in S; cbn [k_dirty k_c k_x k_enc k_del] in S; destruct S as (d & body & crc & crcs & H1 & H2 & H3 & ->); cbn [k_c c_flags c_crctype c_data k_x k_dirty modify7]; do 3 (split; [reflexivity|]). reflexivity.
  - unfold sent_block7 in S. rewrite DI in *. subst b'. auto 10.
Qed.
Lemma seen_all old2 : forall l l' i, incl l (w_blocks v) -> Forall2 sent_block7 (map (pass7 (n_id nd)) l) l' -> all_arrived old2 (n_id nd) i l (blocks_seen old2 i (map (pass7 (n_id nd)) l) l').
Proof.
  induction l as [|b l IH]; intros l' i I F; inversion F as [|? b' ? r S F' E1 E2]; subst; [exact Logic.I|]. cbn [map blocks_seen all_arrived]. split; [apply seen_arrived; [apply I; now left|exact S]|]. apply IH; [intros x X; apply I; now right|exact F'].
Qed.
End Through.
Lemma blocks_seen_app old2 : forall a a' b b' i, length a = length a' -> blocks_seen old2 i (a ++ b) (a' ++ b') = blocks_seen old2 i a a' ++ blocks_seen old2 (i + length a) b b'.
Proof.
  induction a as [|x a IH]; intros [|x' a'] b b' i L; try discriminate; cbn [app blocks_seen length]; [now rewrite Nat.add_0_r|]. f_equal. rewrite IH by (cbn in L; lia). do 2 f_equal. lia.
Qed.
