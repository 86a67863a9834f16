(** C40: the contact graph search. *)
From Coq Require Import NArith ZArith List Bool Lia ZifyBool ZifyN.
From Verif Require Import Base M_Cgr S_Cgr L_Cgr L_CgrRoute.
Import ListNotations.
Open Scope Z_scope.

Lemma open_lt c t : open c t -> t < k_end c. Proof. intros (H & _). exact H. Qed.
Lemma open_le c t : open c t -> t <= k_end c. Proof. intros (H & _). lia. Qed.

(** A plan with a fast route that is already closed, a direct contact that is late, a detour that is not, and a dead end. *)
Definition ex_plan : list contact :=
  [ mkContact 7 2 0 10 1000 1 0; mkContact 7 3 40 90 1000 2 1; mkContact 7 5 20 60 1000 1 2; mkContact 5 4 10 50 500 5 3;
    mkContact 4 3 5 45 2000 1 4; mkContact 2 3 0 100 1000 1 5; mkContact 4 9 5 45 2000 1 6; mkContact 5 7 10 70 1000 1 7 ].
Lemma ex_plan_ok : plan_ok ex_plan.
Proof. unfold plan_ok, contact_ok. repeat constructor; cbn; try lia; vm_compute; congruence. Qed.

(** The route returned is a way data at the source can really go, no other gets it to the destination earlier, it passes no
    node twice; and if none is returned there is no such way. *)
Theorem C40_dijkstra_is_earliest : forall plan root now dest,
  plan_ok plan -> k_frm root = k_to root -> 0 <= now <= tmax -> dest <> k_to root ->
  (exists r t, dijkstra plan root now dest = Some (Some r) /\ journey open plan (k_to root) now dest t (r_hops r) /\
     (forall t' l', journey open plan (k_to root) now dest t' l' -> t <= t') /\ NoDup (k_to root :: stops (r_hops r)))
  \/ (dijkstra plan root now dest = Some None /\ forall t l, ~ journey open plan (k_to root) now dest t l).
Proof.
  intros plan root now dest Hp Hr Hn Hd. unfold dijkstra. pose proof (search_result plan root now dest Hp Hr ltac:(lia)) as S.
  unfold dst0 in S. destruct (search plan root now dest (Datatypes.S (length plan)) Root _) as [s|]; [|tauto].
  destruct (d_final s) as [i|].
  - destruct S as (t & l & J & ND & Hl & Min & B & _). left. rewrite B. destruct l as [|c l]; [tauto|].
    destruct (make_route_ok c l (k_to root) now ltac:(lia)) as (r & E & H & _).
    + eapply journey_joins; [exact open_lt|exact J].
    + exact ND.
    + eapply journey_fits; [exact Hp|exact open_le|exact J].
    + exists r, t. rewrite E, H. repeat split; try assumption. intros t' l' J'. now apply (Min t' l').
  - right. split; [reflexivity|]. apply S. congruence.
Qed.
Print Assumptions C40_dijkstra_is_earliest.
Example C40_dijkstra_is_earliest_ex :
  plan_ok ex_plan /\
  option_map (option_map (fun r => (map k_id (r_hops r), r_next r))) (dijkstra ex_plan (root_contact 7) 12 3) = Some (Some ([2; 3; 4]%N, 5%N)) /\
  dijkstra ex_plan (root_contact 7) 60 2 = Some None.
Proof. split; [exact ex_plan_ok|]. split; vm_compute; reflexivity. Qed.

(** The fields of the route: the next node is the first stop, the last stop is the destination, the times are those of the
    contacts, the volume is the least there is room for. *)
Theorem C40_route_metrics_are_exact : forall plan root now dest r,
  plan_ok plan -> k_frm root = k_to root -> 0 <= now <= tmax ->
  dijkstra plan root now dest = Some (Some r) ->
  exists c l, r_hops r = c :: l /\ r_next r = k_to c /\ r_to r = dest /\ r_from_time r = k_start c /\
    (Forall (fun d => r_to_time r <= k_end d) (c :: l) /\ Exists (fun d => r_to_time r = k_end d) (c :: l)) /\
    r_bdt r = arrival 0 (c :: l) /\ r_bdt r <= arrival now (c :: l) /\ (now <= k_start c -> r_bdt r = arrival now (c :: l)) /\
    (Forall countable (c :: l) -> In (Z.of_N (r_volume r)) (room 0 (c :: l)) /\ Forall (fun x => Z.of_N (r_volume r) <= x) (room 0 (c :: l))).
Proof.
  intros plan root now dest r Hp Hr Hn. unfold dijkstra. pose proof (search_result plan root now dest Hp Hr ltac:(lia)) as S.
  unfold dst0 in S. destruct (search plan root now dest (Datatypes.S (length plan)) Root _) as [s|]; [|tauto].
  destruct (d_final s) as [i|]; [|discriminate].
  destruct S as (t & l & J & ND & Hl & Min & B & Hd). rewrite B. destruct l as [|c l]; [tauto|].
  assert (F : fits now (c :: l)) by (eapply journey_fits; [exact Hp|exact open_le|exact J]).
  destruct (make_route_ok c l (k_to root) now ltac:(lia)) as (r' & E & H1 & H2 & H3 & H4 & H5 & H6 & H7).
  - eapply journey_joins; [exact open_lt|exact J].
  - exact ND.
  - exact F.
  - rewrite E. intros X. injection X as <-. exists c, l. split; [exact H1|]. split; [exact H3|]. split.
    { rewrite H2, (journey_last _ _ _ _ _ _ _ J). destruct (exists_last (l := c :: l) ltac:(discriminate)) as (l0 & z & ->).
      unfold stops. rewrite map_app. cbn [map]. now rewrite !last_last. }
    split; [exact H4|]. split.
    { rewrite H5. assert (A : forall m, m <> [] -> Forall (fun x => x <= max_time) m -> Forall (fun d => fold_right Z.min max_time m <= d) m /\
        Exists (fun d => fold_right Z.min max_time m = d) m).
      { clear. induction m as [|x m IH]; [tauto|]. intros _ Hm. inversion Hm as [|? ? Hx Hm']; subst. cbn [fold_right]. destruct m as [|y m].
        - cbn [fold_right]. split; [constructor; [lia|constructor]|left; lia].
        - destruct (IH ltac:(discriminate) Hm') as (I1 & I2). split.
          + constructor; [lia|]. eapply Forall_impl; [|exact I1]. intros z Hz. cbn beta in *. lia.
          + destruct (Z.min_spec x (fold_right Z.min max_time (y :: m))) as [(_ & ->)|(_ & ->)]; [left; reflexivity|right; exact I2]. }
      destruct (A (map k_end (c :: l))) as (A1 & A2).
      - discriminate.
      - apply Forall_map. apply Forall_forall. intros d Hd'. pose proof (journey_in _ _ _ _ _ _ _ J d Hd') as Hin.
        unfold plan_ok in Hp. rewrite Forall_forall in Hp. destruct (Hp d Hin) as (P1 & P2 & P3 & _). rewrite tmax_max in P3. lia.
      - split; [rewrite Forall_map in A1; exact A1|]. apply Exists_exists in A2. destruct A2 as (x & Hx & Ex). apply in_map_iff in Hx.
        destruct Hx as (d & <- & Hd'). apply Exists_exists. exists d. split; assumption. }
    split; [exact H6|]. split; [rewrite H6; apply arrival_le; lia|]. split.
    { intros Hs. rewrite H6. cbn [arrival]. f_equal. destruct F as ((P1 & _) & _). lia. }
    intros Hc. rewrite H7. apply volume_is_room; [|exact Hc]. eapply fits_le; [|exact F]. lia.
Qed.
Print Assumptions C40_route_metrics_are_exact.
Example C40_route_metrics_are_exact_ex :
  option_map (option_map (fun r => (r_to r, r_next r, r_from_time r, r_to_time r, r_bdt r, r_volume r))) (dijkstra ex_plan (root_contact 7) 12 3)
  = Some (Some (3%N, 5%N, 20, 45, 27, 12000%N)) /\
  Forall countable ex_plan /\ room 0 [nth 2 ex_plan (root_contact 0); nth 3 ex_plan (root_contact 0); nth 4 ex_plan (root_contact 0)] = [25000; 12000; 38000].
Proof. split; [vm_compute; reflexivity|]. split; [|vm_compute; reflexivity]. unfold countable. repeat constructor; vm_compute; reflexivity. Qed.

(** There is no route from a node to itself. *)
Theorem C40_no_route_to_oneself : forall plan root now,
  plan_ok plan -> k_frm root = k_to root -> 0 <= now <= tmax -> dijkstra plan root now (k_to root) = Some None.
Proof.
  intros plan root now Hp Hr Hn. unfold dijkstra. pose proof (search_result plan root now (k_to root) Hp Hr ltac:(lia)) as S.
  unfold dst0 in S. destruct (search plan root now (k_to root) (Datatypes.S (length plan)) Root _) as [s|]; [|tauto].
  destruct (d_final s) as [i|]; [|reflexivity]. destruct S as (t & l & _ & _ & _ & _ & _ & X). congruence.
Qed.
Print Assumptions C40_no_route_to_oneself.
Example C40_no_route_to_oneself_ex : exists t l, l <> [] /\ journey open ex_plan 7 12 7 t l.
Proof.
  eexists; exists ([] ++ [nth 2 ex_plan (root_contact 0)] ++ [nth 7 ex_plan (root_contact 0)]). split; [discriminate|]. rewrite app_assoc.
  change 7%N with (k_to (nth 7 ex_plan (root_contact 0))) at 2. eapply J_hop; [eapply J_hop; [apply J_start|..]|..]; try reflexivity.
  - right. right. now left.
  - split; [reflexivity|]. unfold carries. vm_compute. congruence.
  - do 7 right. now left.
  - split; [reflexivity|]. unfold carries. vm_compute. congruence.
Qed.

(** best_delivery_time is the time of arrival for data there from time 0 on, not for data there now. *)
Theorem C40_best_delivery_time_is_the_arrival_refuted : exists plan root now dest r t,
  plan_ok plan /\ k_frm root = k_to root /\ 0 <= now <= tmax /\ dijkstra plan root now dest = Some (Some r) /\
  journey open plan (k_to root) now dest t (r_hops r) /\ r_bdt r < t.
Proof.
  exists [mkContact 1 2 0 100 1000 1 0], (root_contact 1), 50, 2%N. eexists. exists 51.
  split; [repeat constructor; cbn; try lia; vm_compute; congruence|]. split; [reflexivity|]. split; [vm_compute; split; congruence|].
  split; [vm_compute; reflexivity|]. split; [|vm_compute; reflexivity]. cbn [r_hops].
  change 51 with (Z.max (k_start (mkContact 1 2 0 100 1000 1 0)) 50 + k_owlt (mkContact 1 2 0 100 1000 1 0)).
  apply (J_hop open _ (k_to (root_contact 1)) 50 1%N 50 [] (mkContact 1 2 0 100 1000 1 0)); [constructor|now left|reflexivity|].
  split; [reflexivity|]. unfold carries. vm_compute. congruence.
Qed.
Print Assumptions C40_best_delivery_time_is_the_arrival_refuted.

(** A contact that could carry a multiple of 2^64 bits is taken to carry none: the only route there is, is not found. *)
Theorem C40_every_unended_contact_is_used_refuted : exists plan root now dest t l,
  plan_ok plan /\ k_frm root = k_to root /\ 0 <= now <= tmax /\ journey unended plan (k_to root) now dest t l /\
  Forall (fun c => 0 < Z.of_N (k_rate c) * (k_end c - k_start c)) plan /\ dijkstra plan root now dest = Some None.
Proof.
  set (c := mkContact 1 2 0 4294967296 4294967296 1 0).
  exists [c], (root_contact 1), 0, 2%N, 1, [c].
  split; [repeat constructor; cbn; try lia; vm_compute; congruence|]. split; [reflexivity|]. split; [vm_compute; split; congruence|].
  split; [apply (J_hop unended [c] 1%N 0 1%N 0 [] c); [constructor|now left|reflexivity|reflexivity]|].
  split; [constructor; [reflexivity|constructor]|vm_compute; reflexivity].
Qed.
Print Assumptions C40_every_unended_contact_is_used_refuted.
