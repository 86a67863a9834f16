(** C55, continued: what egress could not send comes to be stored. *)
From Coq Require Import PeanoNat NArith List Bool Lia Permutation ZifyBool ZifyN.
From Verif Require Import Base M_CustodyId M_StorageIf S_StorageIf L_StorageIf L_StorageIfInv L_StorageIfAll L_StorageIfHonest P_StorageIf P_StorageIfBack.
From Verif Require M_Egress S_Egress L_Egress.
From Verif Require Import M_StoreEgress S_StoreEgress L_StoreEgress P_StoreEgress.
Import ListNotations.
Open Scope N_scope.

(** Message [m] of egress gives bundle [b] back: one that ingress sent past storage, or one that storage passed on from memory, still has down
    as passed on, and is told could not be sent. *)
Inductive gives_back (s : state) (b : bundle) : M_Egress.to_storage -> Prop :=
| back_direct i : gives_back s b (M_Egress.SFailed i b)
| back_passed a i : x_cut a = true -> x_err a <> NoError -> names_link a (RVec i) -> is_cut s i (x_cid a) -> gives_back s b (M_Egress.SAck a (Some b)).

(** If no write fails: once storage has read such a message, the bundle is on disk, under an id of its own, and waits to be sent. *)
Theorem C55_returned_bundles_are_stored : forall cfg max oc ts te w h d ids w' m b, wrun cfg max oc ts te w h d -> (forall i, In i ids -> ~ In i (open_ids (w_s w))) ->
  nth_error (M_Egress.g_storage (w_e w)) (w_up w) = Some m -> gives_back (w_s w) b m -> b_bad b = false -> wstep cfg (ToStorage ids [] []) w = Some w' ->
  exists cid, stored (w_s w') cid b /\ In b (map snd (d_wait (g_disk (w_s w')))).
Proof.
  intros cfg max oc ts te w h d ids w' m b R FR NE GB BB ST. assert (SD : sound_disk (w_s w) ids []) by (split; [constructor|exact FR]). destruct (wrun_config _ _ _ _ _ _ _ _ R) as (OC & _).
  pose proof (wrun_winv _ _ _ _ _ _ _ _ R) as [A B C D E [_ _ F]]. pose proof (arrives _ _ _ _ _ _ _ _ _ ids [] [] R NE SD) as (HO & _). cbn [l_event] in HO.
  cbn [wstep] in ST. rewrite NE in ST. destruct (step cfg _ (w_s w)) as [s1|] eqn:S1; [|discriminate]. injection ST as <-. cbn [w_s].
  assert (GI : g_init (w_s w) = true /\ length (g_vec (w_s w)) = length oc).
  { destruct F as [(F & _)|(F1 & F2 & _)]; [|auto]. exfalso. destruct (first_is_telemetry _ _ _ _ _ _ B) as (l & r & Z). rewrite Z in F, NE. destruct (w_up w); [|discriminate]. injection NE as <-. inversion GB. }
  assert (K : forall i l, brings (w_s w) i (arrival m) l -> (i < length (g_vec (w_s w)))%nat -> In b l -> exists cid, stored s1 cid b /\ In b (map snd (d_wait (g_disk s1)))).
  { intros i l BR LI IN. destruct (C52_returned_bundles_are_stored cfg _ _ _ _ _ _ BR (proj1 GI) LI S1) as (D1 & front & D2 & _). assert (IB : In b (filter readable l)) by (apply filter_In; unfold readable; rewrite BB; auto).
    assert (IE : In b (map snd (d_ent (g_disk s1)))) by (rewrite D1; apply in_or_app; left; now apply -> in_rev). apply in_map_iff in IE. destruct IE as ([cid b'] & EQ & IE). cbn [snd] in EQ. subst b'.
    exists cid. split; [exact IE|]. rewrite D2. apply in_or_app. right. apply in_or_app. auto. }
  inversion GB as [i EM|a i XC XE NM CU EM]; subst m; cbn [arrival] in *.
  - pose proof (all_zeroed _ _ _ _ _ _ B) as Z. rewrite Forall_forall in Z. specialize (Z _ (nth_error_In _ _ NE)). cbn in Z. subst i.
    apply (K 0%nat (b :: in_memory (w_s w) 0)); [exact (brings_failed (w_s w) 0 b)|destruct oc; [congruence|rewrite (proj2 GI); cbn; lia]|now left].
  - pose proof CU as (k & G & _). assert (LI : (i < length (g_vec (w_s w)))%nat) by (apply nth_error_Some; congruence).
    destruct (x_err a) eqn:XA; [congruence| |].
    + apply (K i (b :: in_memory (w_s w) i)); [apply brings_cut; assumption|exact LI|now left].
    + apply (K i [b]); [apply brings_lost; assumption|exact LI|now left].
Qed.
Print Assumptions C55_returned_bundles_are_stored.
(** The bundle ingress sent past storage that the outduct left. *)
Example C55_returned_bundles_are_stored_ex : exists ts te w w', wrun pcfg 100 two ts te w [] [] /\ nth_error (M_Egress.g_storage (w_e w)) (w_up w) = Some (M_Egress.SFailed 0 (ex_b 7 5 false 0)) /\
  wstep pcfg hear w = Some w' /\ d_ent (g_disk (w_s w)) = [] /\ d_ent (g_disk (w_s w')) = [(0, ex_b 7 5 false 0)].
Proof.
  pose proof first_run as R. let w := eval vm_compute in first_world in change (wrun pcfg 100 two [] [] w [] []) in R.
  go R (AtEgress (M_Egress.Route 5 20)) (@nil S_Egress.held) (@nil bundle); [other|]. go R hear (@nil S_Egress.held) (@nil bundle); [heard|]. go R hear (@nil S_Egress.held) (@nil bundle); [heard|].
  go R (meet (LinkUp 0)) (@nil S_Egress.held) (@nil bundle); [quietly|]. go R (meet (LinkUp 1)) (@nil S_Egress.held) (@nil bundle); [quietly|].
  go R (AtEgress (M_Egress.Bundle M_Egress.Ingress direct (M_Egress.Left true) true true)) (@nil S_Egress.held) (@nil bundle); [split; [intros []|]; apply S_Egress.fair_left; intros i _; split; [reflexivity|discriminate]|].
  eexists _, _, _, _. split; [exact R|]. split; [vm_compute; reflexivity|]. split; [vm_compute; reflexivity|]. split; vm_compute; reflexivity.
Qed.
