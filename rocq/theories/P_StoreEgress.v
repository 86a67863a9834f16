(** C55: storage and egress together, over all interleavings; see S_StoreEgress for the vocabulary. *)
From Coq Require Import PeanoNat NArith List Bool Lia Permutation ZifyBool ZifyN.
From Verif Require Import Base M_CustodyId M_StorageIf S_StorageIf L_StorageIf L_StorageIfInv L_StorageIfSend L_StorageIfAll L_StorageIfDisk L_StorageIfHonest L_StorageIfKept P_StorageIf L_PairStorage.
From Verif Require M_Egress S_Egress L_Egress P_Egress.
From Verif Require Import M_StoreEgress S_StoreEgress L_StoreEgress.
Import ListNotations.
Open Scope N_scope.

(** ** An example: two outducts, to nodes 10 and 20, and node 5 routed through the first; three bundles for it, sent to egress one after the other. *)
Definition two : list M_Egress.ocfg := [M_Egress.mkCfg M_Egress.Udp 10 20 2000; M_Egress.mkCfg M_Egress.Udp 20 20 2000].
Definition pcfg : config := ex_cfg false.
Definition first_world : world := match wstart 100 two with Some w => w | None => mkW start M_Egress.nothing 0 0 end.
Definition keep (n : N) (custody : bool) : event := Store (mkS (100 + n) 0 false false (5, 1)) (ex_b n 5 custody 0) Whole.
Definition hear : wevent := ToStorage [] [] [].
Definition meet (e : event) : wevent := AtStorage (lab e).
(** Takes one step of a run. *)
Ltac go R v h1 d1 :=
  match type of R with wrun ?cfg ?max ?oc ?ts ?te ?w ?h ?d =>
    let r := eval vm_compute in (wstep cfg v w) in
    match r with Some ?w1 =>
      let ts1 := eval vm_compute in (ts ++ at_storage w v) in
      let te1 := eval vm_compute in (te ++ at_egress_side w v) in
      let H := fresh "H" in let R1 := fresh "R" in
      assert (H : allowed oc te w v h d h1 d1);
      [|assert (R1 : wrun cfg max oc ts1 te1 w1 h1 d1) by (exact (wrun_next cfg max oc ts te w h d v w1 h1 d1 R H ltac:(vm_compute; reflexivity)));
        clear R H; rename R1 into R]
    end
  end.
Ltac quietly := solve [split; [split; [first [exact I|discriminate]|split; [constructor|intros ? []]]|split; reflexivity]].
Ltac heard := solve [split; [split; [constructor|intros ? []]|split; [vm_compute; discriminate|split; reflexivity]]].
Ltac other := solve [split; [intros []|apply S_Egress.fair_other; exact I]].
Lemma first_run : wrun pcfg 100 two [] [] first_world [] [].
Proof. apply wrun_start; [discriminate|vm_compute; reflexivity|vm_compute; reflexivity]. Qed.
Definition msg (n : N) (c : N) (custody : bool) : emsg := mkE (ex_b n 5 custody 0) false c 0 10 (5, 1) custody.
Definition with_outduct (n c : N) (custody : bool) : S_Egress.held := S_Egress.mkHeld 0 (ex_b n 5 custody 0) (Some (S_Egress.owed M_Egress.Storage (msg n c custody))).
(** The route is known, the first link is up, the bundles are stored and sent; egress has the first two, an outduct has reported the first. *)
Definition ex_events : list wevent :=
  [AtEgress (M_Egress.Route 5 10); hear; hear; meet (LinkUp 0); meet (keep 1 false); meet (keep 2 true); meet (keep 3 false); meet Send; meet Send; meet Send;
   ToEgress M_Egress.Took true true; ToEgress M_Egress.Took true true; AtEgress (M_Egress.Success 0 (ex_b 1 5 false 0) (Some (S_Egress.owed M_Egress.Storage (msg 1 0 false))) true)].
Definition ex_world : world := match wexec pcfg ex_events first_world with Some w => w | None => first_world end.
Definition ex_te : list M_Egress.event :=
  [M_Egress.Route 5 10; M_Egress.Bundle M_Egress.Storage (msg 1 0 false) M_Egress.Took true true; M_Egress.Bundle M_Egress.Storage (msg 2 1 true) M_Egress.Took true true;
   M_Egress.Success 0 (ex_b 1 5 false 0) (Some (S_Egress.owed M_Egress.Storage (msg 1 0 false))) true].
Lemma ex_wrun : exists ts, wrun pcfg 100 two ts ex_te ex_world [with_outduct 2 1 true] [ex_b 1 5 false 0].
Proof.
  pose proof first_run as R. unfold first_world in R. let w := eval vm_compute in first_world in change (wrun pcfg 100 two [] [] w [] []) in R.
  go R (AtEgress (M_Egress.Route 5 10)) (@nil S_Egress.held) (@nil bundle); [other|].
  go R hear (@nil S_Egress.held) (@nil bundle); [heard|]. go R hear (@nil S_Egress.held) (@nil bundle); [heard|].
  go R (meet (LinkUp 0)) (@nil S_Egress.held) (@nil bundle); [quietly|].
  go R (meet (keep 1 false)) (@nil S_Egress.held) (@nil bundle); [quietly|].
  go R (meet (keep 2 true)) (@nil S_Egress.held) (@nil bundle); [quietly|].
  go R (meet (keep 3 false)) (@nil S_Egress.held) (@nil bundle); [quietly|].
  go R (meet Send) (@nil S_Egress.held) (@nil bundle); [quietly|]. go R (meet Send) (@nil S_Egress.held) (@nil bundle); [quietly|]. go R (meet Send) (@nil S_Egress.held) (@nil bundle); [quietly|].
  go R (ToEgress M_Egress.Took true true) [with_outduct 1 0 false] (@nil bundle); [eexists; split; [vm_compute; reflexivity|]; apply (S_Egress.fair_took _ _ M_Egress.Storage (msg 1 0 false) true true 0 [] []); vm_compute; reflexivity|].
  go R (ToEgress M_Egress.Took true true) [with_outduct 1 0 false; with_outduct 2 1 true] (@nil bundle);
    [eexists; split; [vm_compute; reflexivity|]; apply (S_Egress.fair_took _ _ M_Egress.Storage (msg 2 1 true) true true 0 [with_outduct 1 0 false] []); vm_compute; reflexivity|].
  go R (AtEgress (M_Egress.Success 0 (ex_b 1 5 false 0) (Some (S_Egress.owed M_Egress.Storage (msg 1 0 false))) true)) [with_outduct 2 1 true] [ex_b 1 5 false 0];
    [split; [intros []|]; apply (S_Egress.fair_sent _ _ 0 (ex_b 1 5 false 0) (S_Egress.owed M_Egress.Storage (msg 1 0 false)) true [] [with_outduct 2 1 true] [])|].
  eexists. exact R.
Qed.

(** * What holds *)
(** Each module keeps the other's expectations: egress answers as storage expects of it (S_StorageIf.honest) and gets from storage what it can
    handle; what was assumed of storage alone (C52) and of egress alone (C54) holds. *)
Theorem C55_contracts_are_kept : forall cfg max oc ts te w h d, wrun cfg max oc ts te w h d -> honest_run cfg ts (w_s w) /\ S_Egress.fair_run max oc te (w_e w) h d.
Proof. intros cfg max oc ts te w h d R. apply wrun_winv in R. split; apply R. Qed.
Print Assumptions C55_contracts_are_kept.
Example C55_contracts_are_kept_ex : exists ts, wrun pcfg 100 two ts ex_te ex_world [with_outduct 2 1 true] [ex_b 1 5 false 0].
Proof. exact ex_wrun. Qed.

(** Whatever the environment does that it may do, neither module runs into undefined behaviour. *)
Lemma arrives cfg max oc ts te w h d m ids bits reads : wrun cfg max oc ts te w h d -> nth_error (M_Egress.g_storage (w_e w)) (w_up w) = Some m -> sound_disk (w_s w) ids reads ->
  honest (w_s w) (mkL (arrival m) ids bits reads).
Proof.
  intros R NE SD. destruct (wrun_config _ _ _ _ _ _ _ _ R) as (OC & LO). pose proof (wrun_winv _ _ _ _ _ _ _ _ R) as IH. pose proof IH as [A B C D E F]. destruct (honest_safe _ _ _ A) as (BK & FN & SF).
  eapply arrival_honest; [exact OC|exact SD|apply SF|exact F| |].
  - intros X. destruct (first_is_telemetry _ _ _ _ _ _ B) as (l & r & Z). rewrite Z in X, NE. destruct (w_up w); [|discriminate]. injection NE as <-. eauto.
  - destruct m as [a ob|i b|l]; [eapply next_owed; eassumption| |].
    + pose proof (all_zeroed _ _ _ _ _ _ B) as Z. rewrite Forall_forall in Z. exact (Z _ (nth_error_In _ _ NE)).
    + apply (telemetry_in_order _ _ _ _ _ _ l B (nth_error_In _ _ NE)).
Qed.
Theorem C55_never_undefined : forall cfg max oc ts te w h d v h' d', wrun cfg max oc ts te w h d -> allowed oc te w v h d h' d' -> exists w', wstep cfg v w = Some w'.
Proof.
  intros cfg max oc ts te w h d v h' d' R AL. destruct (C55_contracts_are_kept _ _ _ _ _ _ _ _ R) as (HS & HE). destruct v as [x|e|f ok1 ok2|ids bits reads]; cbn [wstep allowed] in *.
  - destruct AL as (O & _). destruct (C52_never_undefined cfg ts _ x HS (outside_honest _ _ O)) as (s' & ->). eauto.
  - destruct AL as (_ & FR). destruct (P_Egress.C54_never_undefined _ _ _ _ _ _ _ _ _ HE FR) as (t & -> & _). eauto.
  - destruct AL as (m & NE & FR). rewrite NE. destruct (P_Egress.C54_never_undefined _ _ _ _ _ _ _ _ _ HE FR) as (t & -> & _). eauto.
  - destruct AL as (SD & NL & _). pose proof (wv_up _ _ _ _ _ _ _ _ (wrun_winv _ _ _ _ _ _ _ _ R)) as UP. destruct (nth_error (M_Egress.g_storage (w_e w)) (w_up w)) as [m|] eqn:NE; [|apply nth_error_None in NE; lia].
    destruct (C52_never_undefined cfg ts _ _ HS (arrives _ _ _ _ _ _ _ _ _ ids bits reads R NE SD)) as (s' & ->). eauto.
Qed.
Print Assumptions C55_never_undefined.
Example C55_never_undefined_ex : exists ts, wrun pcfg 100 two ts ex_te ex_world [with_outduct 2 1 true] [ex_b 1 5 false 0] /\ allowed two ex_te ex_world hear [with_outduct 2 1 true] [ex_b 1 5 false 0] [with_outduct 2 1 true] [ex_b 1 5 false 0].
Proof. destruct ex_wrun as (ts & R). exists ts. split; [exact R|]. split; [split; [constructor|intros ? []]|]. split; [vm_compute; discriminate|auto]. Qed.

(** The stored bundles storage believes to be with egress are on their way to egress, in an outduct that has not reported, or answered and the
    answer is on its way back - each of them once - or their answer could not be sent. *)
Lemma mine_ids l : cids (mine l) = ids_for l.
Proof. induction l as [|[[|] a] l IH]; [reflexivity|exact IH|]. cbn [mine flat_map app ids_for]. unfold cids. cbn [flat_map]. f_equal. exact IH. Qed.
Lemma plain_ids l : cids (mine (map S_Egress.plain l)) = ids_for l.
Proof. rewrite mine_ids. induction l as [|[[|] a] l IH]; [reflexivity|exact IH|]. cbn [map]. unfold ids_for in *. cbn [flat_map]. rewrite IH. reflexivity. Qed.
Lemma back_ids l : cids (back l) = ids_back l.
Proof. induction l as [|[a b|i b|t] l IH]; [reflexivity| |exact IH|exact IH]. unfold ids_back, back, cids in *. cbn [flat_map app]. rewrite IH. reflexivity. Qed.
Lemma own_ids l : cids (map own l) = ids_of l.
Proof. induction l as [|m l IH]; [reflexivity|]. unfold ids_of, cids in *. cbn [map flat_map]. rewrite IH. reflexivity. Qed.
Theorem C55_egress_has_what_storage_gave : forall cfg max oc ts te w h d, wrun cfg max oc ts te w h d ->
  Permutation (open_ids (w_s w)) (in_transit w h ++ ids_for (M_Egress.g_lost (w_e w))) /\ NoDup (in_transit w h ++ ids_for (M_Egress.g_lost (w_e w))).
Proof.
  intros cfg max oc ts te w h d R. pose proof (wrun_winv _ _ _ _ _ _ _ _ R) as [A B C D E F]. assert (P1 : Permutation (open_ids (w_s w)) (in_transit w h ++ ids_for (M_Egress.g_lost (w_e w)))).
  { destruct F as [(P & F1 & F2 & _) _ _]. pose proof (egress_ledger _ _ _ _ _ _ B) as L. rewrite C in L. rewrite F2. set (g := M_Egress.g_storage (w_e w)) in *.
    assert (PP : Permutation P (map own (unread_bundles w) ++ mine (S_Egress.claims h) ++ back (unread_answers w) ++ mine (map S_Egress.plain (M_Egress.g_lost (w_e w))))).
    { apply (Permutation_app_inv_r (back (firstn (w_up w) g))). rewrite <- F1. rewrite <- (firstn_skipn (w_down w) (g_egress (w_s w))) at 1. rewrite map_app. fold (unread_bundles w). rewrite L, <- (firstn_skipn (w_up w) g) at 1. rewrite back_app. fold (unread_answers w) g.
      change (skipn (w_up w) g) with (unread_answers w). set (p := back (firstn _ _)). set (q := back (unread_answers w)). set (lo := mine (map _ _)). set (cl := mine _). set (un := map own _). clear.
      apply (Permutation_count_occ eack_dec). intros x. rewrite !count_occ_app. lia. }
    unfold cids at 1. rewrite (perm_map_flat _ _ _ PP). rewrite !flat_map_app. fold (cids (map own (unread_bundles w))). fold (cids (mine (S_Egress.claims h))). fold (cids (back (unread_answers w))).
    fold (cids (mine (map S_Egress.plain (M_Egress.g_lost (w_e w))))). rewrite own_ids, mine_ids, back_ids, plain_ids. unfold in_transit. rewrite <- !app_assoc. reflexivity. }
  split; [exact P1|]. destruct (honest_safe _ _ _ A) as (_ & _ & SF). rewrite <- P1. apply (so_open _ _ (sf_ok _ SF)).
Qed.
Print Assumptions C55_egress_has_what_storage_gave.
(** The third bundle is on its way to egress, the second in an outduct, the answer to the first on its way back. *)
Example C55_egress_has_what_storage_gave_ex : exists ts, wrun pcfg 100 two ts ex_te ex_world [with_outduct 2 1 true] [ex_b 1 5 false 0] /\
  ids_of (unread_bundles ex_world) = [2] /\ ids_for (S_Egress.claims [with_outduct 2 1 true]) = [1] /\ ids_back (unread_answers ex_world) = [0] /\ open_ids (w_s ex_world) = [0; 1; 2].
Proof. destruct ex_wrun as (ts & R). exists ts. split; [exact R|]. vm_compute. repeat split. Qed.

(** If no send of egress fails, then once nothing is on its way every stored bundle waits to be sent or for its custody timer. *)
Lemma place cfg max oc ts te w h d cid b : wrun cfg max oc ts te w h d -> stored (w_s w) cid b -> ~ In cid (open_ids (w_s w)) -> waiting (w_s w) cid \/ timed (w_s w) cid.
Proof.
  intros R ST N. destruct (C55_contracts_are_kept _ _ _ _ _ _ _ _ R) as (HS & _). destruct (honest_safe _ _ _ HS) as (_ & _ & SF). destruct (C52_nothing_stranded _ _ _ _ _ HS ST) as [(W & _)|[(_ & (r & (k & IN & IC) & _) & _)|(_ & _ & T)]]; auto.
  elim N. eapply open_in; [apply in_get; [apply SF|exact IN]|exact IC].
Qed.
Theorem C55_settled : forall cfg max oc ts te w h d, wrun cfg max oc ts te w h d -> Forall S_Egress.lossless te -> in_transit w h = [] ->
  open_ids (w_s w) = [] /\ forall cid b, stored (w_s w) cid b -> waiting (w_s w) cid \/ timed (w_s w) cid.
Proof.
  intros cfg max oc ts te w h d R LL IT. destruct (C55_contracts_are_kept _ _ _ _ _ _ _ _ R) as (_ & HE). destruct (P_Egress.C54_nothing_is_lost _ _ _ _ (L_Egress.fair_reach _ _ _ _ _ _ HE) LL) as (GL & _).
  destruct (C55_egress_has_what_storage_gave _ _ _ _ _ _ _ _ R) as (P & _). rewrite IT, GL in P. cbn in P. apply Permutation_sym, Permutation_nil in P. split; [exact P|]. intros cid b ST. eapply place; [exact R|exact ST|]. rewrite P. intros [].
Qed.
Print Assumptions C55_settled.
(** Everything is answered: the second bundle failed, the first and the third were sent. *)
Definition ex_late : list wevent :=
  [ToEgress M_Egress.Took true true; AtEgress (M_Egress.Failed 0 (ex_b 2 5 true 0) (Some (S_Egress.owed M_Egress.Storage (msg 2 1 true))) false true true);
   AtEgress (M_Egress.Success 0 (ex_b 3 5 false 0) (Some (S_Egress.owed M_Egress.Storage (msg 3 2 false))) true); hear; hear; hear].
Definition ex_end : world := match wexec pcfg ex_late ex_world with Some w => w | None => ex_world end.
Lemma ex_settled : exists ts te, wrun pcfg 100 two ts te ex_end [] [ex_b 1 5 false 0; ex_b 3 5 false 0] /\ Forall S_Egress.lossless te.
Proof.
  destruct ex_wrun as (ts & R). let w := eval vm_compute in ex_world in change (wrun pcfg 100 two ts ex_te w [with_outduct 2 1 true] [ex_b 1 5 false 0]) in R.
  go R (ToEgress M_Egress.Took true true) [with_outduct 2 1 true; with_outduct 3 2 false] [ex_b 1 5 false 0];
    [eexists; split; [vm_compute; reflexivity|]; apply (S_Egress.fair_took _ _ M_Egress.Storage (msg 3 2 false) true true 0 [with_outduct 2 1 true] [ex_b 1 5 false 0]); vm_compute; reflexivity|].
  go R (AtEgress (M_Egress.Failed 0 (ex_b 2 5 true 0) (Some (S_Egress.owed M_Egress.Storage (msg 2 1 true))) false true true)) [with_outduct 3 2 false] [ex_b 1 5 false 0];
    [split; [intros []|]; apply (S_Egress.fair_failed _ _ 0 (ex_b 2 5 true 0) (S_Egress.owed M_Egress.Storage (msg 2 1 true)) true true [] [with_outduct 3 2 false])|].
  go R (AtEgress (M_Egress.Success 0 (ex_b 3 5 false 0) (Some (S_Egress.owed M_Egress.Storage (msg 3 2 false))) true)) (@nil S_Egress.held) [ex_b 1 5 false 0; ex_b 3 5 false 0];
    [split; [intros []|]; apply (S_Egress.fair_sent _ _ 0 (ex_b 3 5 false 0) (S_Egress.owed M_Egress.Storage (msg 3 2 false)) true [] [] [ex_b 1 5 false 0])|].
  go R hear (@nil S_Egress.held) [ex_b 1 5 false 0; ex_b 3 5 false 0]; [heard|]. go R hear (@nil S_Egress.held) [ex_b 1 5 false 0; ex_b 3 5 false 0]; [heard|]. go R hear (@nil S_Egress.held) [ex_b 1 5 false 0; ex_b 3 5 false 0]; [heard|].
  eexists _, _. split; [exact R|]. repeat (constructor; [cbn; auto|]). constructor.
Qed.
Example C55_settled_ex : exists ts te, wrun pcfg 100 two ts te ex_end [] [ex_b 1 5 false 0; ex_b 3 5 false 0] /\ Forall S_Egress.lossless te /\ in_transit ex_end [] = [] /\
  d_ent (g_disk (w_s ex_end)) = [(1, ex_b 2 5 true 0)] /\ waiting (w_s ex_end) 1.
Proof. destruct ex_settled as (ts & te & R & LL). exists ts, te. split; [exact R|]. split; [exact LL|]. split; [vm_compute; reflexivity|]. split; [vm_compute; reflexivity|vm_compute; left; reflexivity]. Qed.

(** A stored bundle goes away only if it expired while it waited, if a custody signal named it, or if it needed no custody and it was really sent:
    an outduct reported it or egress passed it to ingress. *)
Theorem C55_removed_only_when_done : forall cfg max oc ts te w h d v h' d' w' cid b, wrun cfg max oc ts te w h d -> allowed oc te w v h d h' d' -> wstep cfg v w = Some w' ->
  stored (w_s w) cid b -> ~ stored (w_s w') cid b ->
  match v with
  | AtStorage x => match l_event x with
                   | Expired c _ => c = cid /\ waiting (w_s w) cid
                   | Store m _ c => s_special m = true /\ signals c cid /\ b_cust b = true
                   | _ => False
                   end
  | ToStorage _ _ _ => exists a ob, nth_error (M_Egress.g_storage (w_e w)) (w_up w) = Some (M_Egress.SAck a ob) /\ x_cid a = cid /\ x_cut a = false /\ b_cust b = false /\ confirmed oc te a
  | _ => False
  end.
Proof.
  intros cfg max oc ts te w h d v h' d' w' cid b R AL ST A N. destruct (C55_contracts_are_kept _ _ _ _ _ _ _ _ R) as (HS & HE). destruct (honest_safe _ _ _ HS) as (BK & FN & SF).
  destruct v as [x|e|f ok1 ok2|ids bits reads]; cbn [wstep allowed] in *.
  - destruct (step cfg x (w_s w)) as [s1|] eqn:S1; [|discriminate]. injection ST as <-. cbn [w_s] in N. destruct (ls_ent _ _ _ (step_loses _ _ _ _ BK S1) cid b A) as [X|X]; [elim (N X)|]. destruct AL as ((O & _) & _).
    destruct (l_event x); cbn [ends outside_event] in *; try contradiction; [|exact X]. destruct X as (X1 & X2 & X3). split; [exact X1|]. split; [exact X3|]. destruct (O X1 X2) as (_ & CO). exact (CO cid b X3 A).
  - destruct (M_Egress.step e (w_e w)); [|discriminate]. injection ST as <-. elim (N A).
  - destruct (nth_error (g_egress (w_s w)) (w_down w)) as [m|]; [|discriminate]. destruct (M_Egress.step _ (w_e w)); [|discriminate]. injection ST as <-. elim (N A).
  - destruct AL as (SD & _). destruct (nth_error (M_Egress.g_storage (w_e w)) (w_up w)) as [m|] eqn:NE; [|discriminate]. pose proof (arrives _ _ _ _ _ _ _ _ _ ids bits reads R NE SD) as (HO & _). cbn [l_event] in HO.
    destruct (step cfg _ (w_s w)) as [s1|] eqn:S1; [|discriminate]. injection ST as <-. cbn [w_s] in N. destruct (ls_ent _ _ _ (step_loses _ _ _ _ BK S1) cid b A) as [X|X]; [elim (N X)|]. cbn [l_event] in X. destruct m as [a ob|i b0|l]; cbn [arrival ends honest_event] in *; try contradiction.
    destruct X as (X1 & X2 & X3 & X4 & _). exists a, ob. split; [reflexivity|]. split; [exact X4|]. split; [exact X1|]. destruct HO as (_ & _ & HB). destruct (HB X1) as (HB1 & _). rewrite X4 in HB1. destruct (HB1 b A) as (_ & E). rewrite X3 in E. split; [destruct (b_cust b); [discriminate|reflexivity]|].
    destruct (P_Egress.C54_what_is_sent_is_true _ _ _ _ _ _ HE) as (TR & _). rewrite Forall_forall in TR. destruct (TR _ (nth_error_In _ _ NE)) as (m & er & J & OW & _).
    assert (er = NoError) by (unfold S_Egress.with_error in OW; cbn in OW; injection OW as E1; subst a; exact X2). subst er. exists m. split; [|exact J]. rewrite OW. unfold S_Egress.with_error, S_Egress.owed. reflexivity.
Qed.
Print Assumptions C55_removed_only_when_done.
Example C55_removed_only_when_done_ex : exists ts w', wrun pcfg 100 two ts ex_te ex_world [with_outduct 2 1 true] [ex_b 1 5 false 0] /\
  allowed two ex_te ex_world hear [with_outduct 2 1 true] [ex_b 1 5 false 0] [with_outduct 2 1 true] [ex_b 1 5 false 0] /\ wstep pcfg hear ex_world = Some w' /\
  stored (w_s ex_world) 0 (ex_b 1 5 false 0) /\ map fst (d_ent (g_disk (w_s w'))) = [2; 1].
Proof. destruct ex_wrun as (ts & R). exists ts. eexists. split; [exact R|]. split; [heard|]. split; [vm_compute; reflexivity|]. split; [vm_compute; auto|reflexivity]. Qed.

(** An answer takes the bundle out of egress's hands: if it is still stored, it waits to be sent again or for its custody timer; it waits to be
    sent again if egress reports an error. *)
Lemma error_waits a r s s' b : ack_read a r s = Some s' -> is_error (x_err a) = true -> (exists k, get_link s r = Some k /\ In (x_cid a) (map fst (k_open k))) -> stored s' (x_cid a) b -> waiting s' (x_cid a).
Proof.
  unfold ack_read. intros H ER (k & G & IO) SB. rewrite G, ER in H. destruct (in_find_id _ _ IO) as (z & F). rewrite F in H. set (c := x_cid a) in *.
  destruct (if is_down (x_err a) then link_down r s else Some s) as [s1|]; [|discriminate]. destruct (give_back c (g_disk s1)) as [d1|] eqn:GB; [|discriminate]. destruct (_ && _); [discriminate|]. destruct (get_link _ r) as [k1|]; [|discriminate].
  injection H as <-. unfold stored in SB. unfold waiting. assert (GD : forall x k0, g_disk (put_link x r k0) = g_disk x) by (intros; destruct r; reflexivity). cbn [with_disk g_disk] in *. rewrite GD in SB |- *. cbn [with_disk g_disk] in *.
  change (In (c, b) (d_ent d1)) in SB. change (In c (map fst (d_wait d1))). unfold give_back in GB. destruct (find_b c (d_ent (g_disk s1))) as [b1|] eqn:FB.
  - destruct (find_b c (d_wait (g_disk s1))); [discriminate|]. injection GB as <-. left. reflexivity.
  - injection GB as <-. apply find_b_none in FB. elim FB. apply in_fst. eauto.
Qed.
Theorem C55_answered_bundles_wait : forall cfg max oc ts te w h d ids bits reads w' a ob b, wrun cfg max oc ts te w h d -> sound_disk (w_s w) ids reads ->
  nth_error (M_Egress.g_storage (w_e w)) (w_up w) = Some (M_Egress.SAck a ob) -> x_cut a = false -> wstep cfg (ToStorage ids bits reads) w = Some w' -> stored (w_s w') (x_cid a) b ->
  (waiting (w_s w') (x_cid a) \/ timed (w_s w') (x_cid a)) /\ (x_err a <> NoError -> waiting (w_s w') (x_cid a)).
Proof.
  intros cfg max oc ts te w h d ids bits reads w' a ob b R SD NE XC ST SB. assert (AL : allowed oc te w (ToStorage ids bits reads) h d h d) by (split; [exact SD|]; split; [intros E; rewrite E, (proj2 (nth_error_None _ _)) in NE by lia; discriminate|auto]).
  pose proof (wrun_next _ _ _ _ _ _ _ _ _ _ _ _ R AL ST) as R'. split.
  - eapply place; [exact R'|exact SB|]. destruct (C55_egress_has_what_storage_gave _ _ _ _ _ _ _ _ R) as (_ & ND). destruct (C55_egress_has_what_storage_gave _ _ _ _ _ _ _ _ R') as (P & _). intros IN. rewrite P in IN. cbn [wstep] in ST. rewrite NE in ST. destruct (step cfg _ (w_s w)) as [s1|] eqn:S1; [|discriminate].
    injection ST as <-. unfold in_transit, unread_bundles, unread_answers in *. cbn [w_s w_e w_down w_up] in *.
    assert (GE : g_egress s1 = g_egress (w_s w)).
    { destruct (wrun_config _ _ _ _ _ _ _ _ R) as (OC & LO). pose proof (wrun_winv _ _ _ _ _ _ _ _ R) as IH. pose proof IH as [A B C D E F]. destruct (honest_safe _ _ _ A) as (BK & FN & SF). refine (proj2 (arrival_paired cfg oc (w_s w) s1 _ (M_Egress.SAck a ob) ids bits reads OC SD BK FN SF F _ _ S1)).
      - intros X. destruct (first_is_telemetry _ _ _ _ _ _ B) as (l & r & Z). rewrite Z in X, NE. destruct (w_up w); [|discriminate]. discriminate NE.
      - eapply next_owed; eassumption. }
    rewrite GE in IN.
    assert (SK : ids_back (skipn (w_up w) (M_Egress.g_storage (w_e w))) = x_cid a :: ids_back (skipn (S (w_up w)) (M_Egress.g_storage (w_e w)))).
    { clear - NE XC. revert NE. generalize (M_Egress.g_storage (w_e w)) as l. induction (w_up w) as [|n IHn]; intros [|y l] E; try discriminate; cbn [nth_error skipn] in *; [injection E as ->; unfold ids_back; cbn [flat_map]; rewrite XC; reflexivity|exact (IHn l E)]. }
    rewrite SK in ND. set (c := x_cid a) in *. set (p := ids_of _) in *. set (q := ids_for (S_Egress.claims h)) in *. set (t := ids_back (skipn (S _) _)) in *. set (lo := ids_for (M_Egress.g_lost _)) in *.
    assert (PM : Permutation ((p ++ q ++ c :: t) ++ lo) (c :: (p ++ q ++ t) ++ lo)) by (apply (Permutation_count_occ N.eq_dec); intros y; cbn [count_occ]; rewrite !count_occ_app; cbn [count_occ]; destruct (N.eq_dec c y); rewrite ?count_occ_app; lia).
    rewrite PM in ND. inversion ND; contradiction.
  - intros ER. pose proof (arrives _ _ _ _ _ _ _ _ _ ids bits reads R NE SD) as (HO & _). cbn [l_event arrival honest_event] in HO. destruct HO as (GI & (r & k & NM & IL & IO) & _). destruct (C55_contracts_are_kept _ _ _ _ _ _ _ _ R) as (HS & _). destruct (honest_safe _ _ _ HS) as (_ & _ & SF).
    cbn [wstep] in ST. rewrite NE in ST. destruct (step cfg _ (w_s w)) as [s1|] eqn:S1; [|discriminate]. injection ST as <-. cbn [w_s] in *. unfold step in S1. cbn [l_event arrival handle] in S1. unfold on_ack in S1. set (s0 := with_oracle _ _ _ _) in S1.
    change (g_init s0) with (g_init (w_s w)) in S1. rewrite GI in S1. cbn [negb] in S1.
    assert (AK : ack_link a s0 = Some (Some r)).
    { unfold ack_link. pose proof (in_get _ _ _ (sf_keys _ SF) IL) as G. destruct r as [i|n]; cbn [names_link] in NM; destruct NM as (N1 & N2).
      - replace (x_idx a =? U64MAX) with false by lia. unfold vec_ref. rewrite N1. cbn [get_link] in G. change (g_vec s0) with (g_vec (w_s w)). assert (i < length (g_vec (w_s w)))%nat by (apply nth_error_Some; congruence). replace (N.of_nat i <? N.of_nat (length (g_vec (w_s w)))) with true by lia. rewrite Nat2N.id. reflexivity.
      - rewrite N1, N.eqb_refl. change (g_opp s0) with (g_opp (w_s w)). cbn [get_link] in G. rewrite N2, G. reflexivity. }
    rewrite AK, XC in S1. eapply error_waits; [exact S1|destruct (x_err a); [elim (ER eq_refl)|reflexivity|reflexivity]| |exact SB]. exists k. split; [exact (in_get _ _ _ (sf_keys _ SF) IL)|exact (IO XC)].
Qed.
Print Assumptions C55_answered_bundles_wait.
(** The second bundle failed; its answer is the next that storage reads. *)
Definition ex_failing : world := match wexec pcfg [AtEgress (M_Egress.Failed 0 (ex_b 2 5 true 0) (Some (S_Egress.owed M_Egress.Storage (msg 2 1 true))) false true true); hear] ex_world with Some w => w | None => ex_world end.
Example C55_answered_bundles_wait_ex : exists ts te w' a, wrun pcfg 100 two ts te ex_failing [] [ex_b 1 5 false 0] /\ sound_disk (w_s ex_failing) [] [] /\
  nth_error (M_Egress.g_storage (w_e ex_failing)) (w_up ex_failing) = Some (M_Egress.SAck a None) /\ x_cut a = false /\ wstep pcfg (ToStorage [] [] []) ex_failing = Some w' /\ stored (w_s w') (x_cid a) (ex_b 2 5 true 0) /\ x_err a = LinkDown.
Proof.
  destruct ex_wrun as (ts & R). let w := eval vm_compute in ex_world in change (wrun pcfg 100 two ts ex_te w [with_outduct 2 1 true] [ex_b 1 5 false 0]) in R.
  go R (AtEgress (M_Egress.Failed 0 (ex_b 2 5 true 0) (Some (S_Egress.owed M_Egress.Storage (msg 2 1 true))) false true true)) (@nil S_Egress.held) [ex_b 1 5 false 0];
    [split; [intros []|]; apply (S_Egress.fair_failed _ _ 0 (ex_b 2 5 true 0) (S_Egress.owed M_Egress.Storage (msg 2 1 true)) true true [] [])|].
  go R hear (@nil S_Egress.held) [ex_b 1 5 false 0]; [heard|]. eexists _, _, _, _. split; [exact R|]. split; [split; [constructor|intros ? []]|]. split; [vm_compute; reflexivity|]. split; [reflexivity|]. split; [vm_compute; reflexivity|].
  split; [vm_compute; auto|reflexivity].
Qed.

(** When storage has read everything egress sent, its links are those of egress's outducts: a stored bundle fits a link exactly if egress routes
    its destination through that outduct. *)
Lemma last_of l : forall l0 t, flat_map (fun m => match m with M_Egress.STelem l => [l] | _ => [] end) l = l0 ++ [t] -> last_telemetry l = Some t.
Proof.
  induction l as [|m l IH] using rev_ind; intros l0 t E; [destruct l0; discriminate|]. rewrite flat_map_app in E. cbn [flat_map] in E. rewrite app_nil_r in E. rewrite last_snoc. destruct m as [a b|i b|x]; [rewrite app_nil_r in E; eapply IH; exact E|rewrite app_nil_r in E; eapply IH; exact E|].
  apply app_inj_tail in E as (_ & ->). reflexivity.
Qed.
Theorem C55_storage_knows_the_routes : forall cfg max oc ts te w h d i c, wrun cfg max oc ts te w h d -> unread_answers w = [] -> nth_error oc i = Some c ->
  exists k, In (RVec i, k) (links (w_s w)) /\ k_idx k = N.of_nat i /\ k_hop k = M_Egress.f_hop c /\
    forall b, matches (k_dests k) b <-> S_Egress.routed oc (fst (b_dest b)) te = Some (N.of_nat i).
Proof.
  intros cfg max oc ts te w h d i c R UN OC. pose proof (wrun_winv _ _ _ _ _ _ _ _ R) as [A B C D E F]. destruct (P_Egress.C54_telemetry_follows_the_routes _ _ _ _ (L_Egress.fair_reach _ _ _ _ _ _ B)) as (_ & _ & (l0 & t & TS & D1 & D2) & _).
  assert (UP : firstn (w_up w) (M_Egress.g_storage (w_e w)) = M_Egress.g_storage (w_e w)). { rewrite <- (firstn_skipn (w_up w) (M_Egress.g_storage (w_e w))) at 2. fold (unread_answers w). rewrite UN, app_nil_r. reflexivity. }
  rewrite UP in F. destruct F as [_ NM T]. destruct T as [(T1 & _)|(_ & _ & l & T3 & T4 & T5)]; [destruct (first_is_telemetry _ _ _ _ _ _ B) as (x & r & Z); congruence|].
  rewrite (last_of _ _ _ TS) in T3. injection T3 as <-. assert (NT : exists o, nth_error t i = Some o /\ t_hop o = M_Egress.f_hop c).
  { apply (f_equal (fun l => nth_error l i)) in D1. rewrite !nth_error_map, OC in D1. destruct (nth_error t i) as [o|]; [|discriminate]. cbn in D1. injection D1 as D1 _ _. eauto. }
  destruct NT as (o & NT & HO). destruct (T5 i o NT) as (k & G & K1 & K2). destruct (D2 i o NT) as (_ & TE & _ & RT). exists k. split; [apply get_in; exact G|]. split; [exact (NM _ _ G)|]. split; [congruence|]. intros b. rewrite <- RT, K2. unfold matches, dests_of. rewrite TE. cbn [map app]. split.
  - intros [I|(n & I)]; apply in_map_iff in I as (x & X & I); [discriminate|]. injection X as -> _. exact I.
  - intros I. right. exists 0. apply in_map_iff. eauto.
Qed.
Print Assumptions C55_storage_knows_the_routes.
Example C55_storage_knows_the_routes_ex : exists ts te k, wrun pcfg 100 two ts te ex_end [] [ex_b 1 5 false 0; ex_b 3 5 false 0] /\ unread_answers ex_end = [] /\ In (RVec 0, k) (links (w_s ex_end)) /\ k_hop k = 10 /\ matches (k_dests k) (ex_b 2 5 true 0).
Proof. destruct ex_settled as (ts & te & R & _). eexists ts, te, _. split; [exact R|]. split; [vm_compute; reflexivity|]. split; [vm_compute; left; reflexivity|]. split; [reflexivity|]. right. exists 0. left. reflexivity. Qed.

(** * What does not hold *)
(** Sent is sent: egress answers for a bundle it passes to ingress before it passes it; the pass fails, storage deletes the bundle, and it is
    nowhere. *)
Definition nine : emsg := mkE (ex_b 2 9 false 0) false 0 U64MAX 9 (9, 1) false.
Theorem C55_deleted_bundles_were_sent_refuted : exists ts te w w' b, wrun pcfg 100 two ts te w [] [] /\ wstep pcfg hear w = Some w' /\ wrun pcfg 100 two (ts ++ at_storage w hear) te w' [] [] /\
  d_ent (g_disk (w_s w)) = [(0, b)] /\ b_cust b = false /\ d_ent (g_disk (w_s w')) = [] /\ in_transit w' [] = [] /\ M_Egress.g_asked (w_e w') = [] /\ M_Egress.g_bundles (w_e w') = [] /\ M_Egress.g_gone (w_e w') = [b].
Proof.
  pose proof first_run as R. let w := eval vm_compute in first_world in change (wrun pcfg 100 two [] [] w [] []) in R.
  go R hear (@nil S_Egress.held) (@nil bundle); [heard|]. go R (meet (AddLink 9)) (@nil S_Egress.held) (@nil bundle); [quietly|].
  go R (meet (Store (mkS 101 U64MAX false false (9, 1)) (ex_b 2 9 false 0) Whole)) (@nil S_Egress.held) (@nil bundle); [quietly|].
  go R (meet Send) (@nil S_Egress.held) (@nil bundle); [quietly|].
  go R (ToEgress M_Egress.Took true false) (@nil S_Egress.held) (@nil bundle); [exists nine; split; [vm_compute; reflexivity|]; apply S_Egress.fair_left; vm_compute; discriminate|].
  pose proof R as R0. go R hear (@nil S_Egress.held) (@nil bundle); [heard|]. eexists _, _, _, _, (ex_b 2 9 false 0). split; [exact R0|]. split; [vm_compute; reflexivity|]. split; [exact R|]. vm_compute. repeat split.
Qed.
Print Assumptions C55_deleted_bundles_were_sent_refuted.

(** An answer that cannot be sent is not repeated: the bundle failed, storage has it on disk and takes it to be with egress, for ever; it is not
    sent again, whatever happens. *)
Lemma lost_grows e t t' u : M_Egress.step e t = Some t' -> In u (M_Egress.g_lost t) -> In u (M_Egress.g_lost t').
Proof.
  assert (LC : forall dn i x, M_Egress.g_lost (M_Egress.link_changed dn i x) = M_Egress.g_lost x) by (intros; unfold M_Egress.link_changed; destruct (M_Egress.out_at _ _); reflexivity).
  assert (OF : forall i b v told ok1 ok2 x x', M_Egress.on_failed i b v told ok1 ok2 x = Some x' -> In u (M_Egress.g_lost x) -> In u (M_Egress.g_lost x')).
  { intros i b v told ok1 ok2 x x'. unfold M_Egress.on_failed. set (x1 := match i with Some i => _ | None => x end). assert (E : M_Egress.g_lost x1 = M_Egress.g_lost x) by (unfold x1; destruct i; [apply LC|reflexivity]). cbv zeta. rewrite <- E. clearbody x1.
    destruct told; [intros [= <-]; auto|]. destruct v as [[src a]|]; [|discriminate]. destruct src; intros [= <-] I; destruct ok1, ok2; try destruct (x_cut a); cbn; rewrite ?in_app_iff; auto. }
  intros H I. destruct e; cbn [M_Egress.step] in H; try (injection H as <-; exact I).
  - unfold M_Egress.on_bundle in H. destruct (match src with M_Egress.Storage => _ | M_Egress.Ingress => false end).
    + injection H as <-. destruct ok1, ok2; cbn; rewrite ?in_app_iff; auto.
    + destruct (M_Egress.find_route _ _) as [i|]; [|exact (OF _ _ _ _ _ _ _ _ H I)]. destruct f; [injection H as <-; exact I|]. destruct (b_size (e_b m) =? 0); [injection H as <-; exact I|]. exact (OF _ _ _ _ _ _ _ _ H I).
  - injection H as <-. unfold M_Egress.on_route. destruct (M_Egress.reroute d hop t) as [t1|] eqn:E; [|exact I]. unfold M_Egress.reroute in E. destruct (hop =? U64MAX); [injection E as <-; exact I|]. destruct (M_Egress.find_hop _ _ _); [injection E as <-; exact I|discriminate].
  - injection H as <-. destruct (M_Egress.g_pair t) as [|[up i] r]; exact I.
  - injection H as <-. destruct (L_Egress.set_sched_same up i (if up then Some rate else None) t) as ((_&_&_&_&_&_&E&_) & _). rewrite E. exact I.
  - injection H as <-. destruct (M_Egress.out_at _ _) as [o|]; [|exact I]. destruct (L_Egress.set_sched_same (M_Egress.o_sched o) i (Some rate) t) as ((_&_&_&_&_&_&E&_) & _). rewrite E. exact I.
  - injection H as <-. unfold M_Egress.on_success. destruct u0 as [[src a]|]; [|exact I]. destruct ok; [destruct src|]; cbn; rewrite LC, ?in_app_iff; auto.
  - exact (OF _ _ _ _ _ _ _ _ H I).
  - injection H as <-. rewrite LC. exact I.
  - injection H as <-. destruct ok; exact I.
Qed.
Lemma lost_stays max oc te te' t t' u : S_Egress.reach max oc te t -> S_Egress.reach max oc (te ++ te') t' -> In u (M_Egress.g_lost t) -> In u (M_Egress.g_lost t').
Proof.
  intros (s0 & I0 & R0) (s1 & I1 & R1) I. assert (s1 = s0) by congruence. subst s1. apply L_Egress.runs_split in R1 as (x & R1 & R2).
  assert (DET : forall l a b c, M_Egress.runs l a b -> M_Egress.runs l a c -> b = c) by (induction l as [|e l IH]; intros a b c X Y; inversion X; inversion Y; subst; [reflexivity|eapply IH; [eassumption|congruence]]).
  rewrite <- (DET _ _ _ _ R0 R1) in R2. clear - R2 I. induction R2; [exact I|]. apply IHR2. eapply lost_grows; eassumption.
Qed.
Theorem C55_lost_answers_are_repaired_refuted : exists ts te w b, wrun pcfg 100 two ts te w [] [] /\ stored (w_s w) 0 b /\ in_transit w [] = [] /\
  forall ts' te' w' h' d', wrun pcfg 100 two ts' (te ++ te') w' h' d' -> (exists r, at_egress (w_s w') r 0) /\ ~ In 0 (in_transit w' h') /\ (forall b', stored (w_s w') 0 b' -> ~ waiting (w_s w') 0 /\ ~ timed (w_s w') 0).
Proof.
  pose proof first_run as R. let w := eval vm_compute in first_world in change (wrun pcfg 100 two [] [] w [] []) in R.
  go R (AtEgress (M_Egress.Route 5 10)) (@nil S_Egress.held) (@nil bundle); [other|]. go R hear (@nil S_Egress.held) (@nil bundle); [heard|]. go R hear (@nil S_Egress.held) (@nil bundle); [heard|].
  go R (meet (LinkUp 0)) (@nil S_Egress.held) (@nil bundle); [quietly|]. go R (meet (keep 1 false)) (@nil S_Egress.held) (@nil bundle); [quietly|]. go R (meet Send) (@nil S_Egress.held) (@nil bundle); [quietly|].
  go R (ToEgress M_Egress.Took true true) [with_outduct 1 0 false] (@nil bundle); [eexists; split; [vm_compute; reflexivity|]; apply (S_Egress.fair_took _ _ M_Egress.Storage (msg 1 0 false) true true 0 [] []); vm_compute; reflexivity|].
  go R (AtEgress (M_Egress.Failed 0 (ex_b 1 5 false 0) (Some (S_Egress.owed M_Egress.Storage (msg 1 0 false))) false false true)) (@nil S_Egress.held) (@nil bundle);
    [split; [intros []|]; apply (S_Egress.fair_failed _ _ 0 (ex_b 1 5 false 0) (S_Egress.owed M_Egress.Storage (msg 1 0 false)) false true [] [])|].
  eexists _, _, _, (ex_b 1 5 false 0). split; [exact R|]. split; [vm_compute; left; reflexivity|]. split; [vm_compute; reflexivity|]. intros ts' te' w' h' d' R'. set (u := (M_Egress.Storage, mkEA false 0 0 10 (5, 1) true LinkDown)).
  assert (IL : In u (M_Egress.g_lost (w_e w'))).
  { eapply lost_stays; [exact (L_Egress.fair_reach _ _ _ _ _ _ (proj2 (C55_contracts_are_kept _ _ _ _ _ _ _ _ R)))|exact (L_Egress.fair_reach _ _ _ _ _ _ (proj2 (C55_contracts_are_kept _ _ _ _ _ _ _ _ R')))|]. left. reflexivity. }
  destruct (C55_egress_has_what_storage_gave _ _ _ _ _ _ _ _ R') as (P & ND). assert (I0 : In 0 (ids_for (M_Egress.g_lost (w_e w')))) by (apply in_flat_map; exists u; split; [exact IL|left; reflexivity]).
  assert (IO : In 0 (open_ids (w_s w'))) by (rewrite P; apply in_or_app; right; exact I0). destruct (C55_contracts_are_kept _ _ _ _ _ _ _ _ R') as (HS & _). destruct (honest_safe _ _ _ HS) as (_ & _ & SF).
  assert (AE : exists r, at_egress (w_s w') r 0).
  { destruct (at_open _ _ IO) as (r & k & A & C). exists r, k. auto. }
  split; [exact AE|]. split; [|intros b' _; split; intros X; [exact (so_wo _ _ (sf_ok _ SF) 0 X IO)|exact (so_to _ _ (sf_ok _ SF) 0 X IO)]].
  intros IT. apply in_split in IT as (p & q & E). rewrite E, <- app_assoc in ND. cbn [app] in ND. apply NoDup_remove_2 in ND. apply ND. rewrite !in_app_iff. auto.
Qed.
Print Assumptions C55_lost_answers_are_repaired_refuted.

(** A route changes while a bundle is on its way: egress offers it to the second outduct, which leaves it; storage takes the first link down,
    which egress never had anything to say about, and leaves the second up. *)
Theorem C55_the_link_that_failed_goes_down_refuted : exists ts te w k0 k1, wrun pcfg 100 two ts te w [] [] /\ unread_answers w = [] /\ M_Egress.g_asked (w_e w) = [(1, ex_b 1 5 true 0)] /\
  S_Egress.observed two 0 te = None /\ S_Egress.observed two 1 te = Some false /\ links (w_s w) = [(RVec 0, k0); (RVec 1, k1)] /\ k_up k0 = false /\ k_up k1 = true.
Proof.
  pose proof first_run as R. let w := eval vm_compute in first_world in change (wrun pcfg 100 two [] [] w [] []) in R.
  go R (AtEgress (M_Egress.Route 5 10)) (@nil S_Egress.held) (@nil bundle); [other|]. go R hear (@nil S_Egress.held) (@nil bundle); [heard|]. go R hear (@nil S_Egress.held) (@nil bundle); [heard|].
  go R (meet (LinkUp 0)) (@nil S_Egress.held) (@nil bundle); [quietly|]. go R (meet (LinkUp 1)) (@nil S_Egress.held) (@nil bundle); [quietly|].
  go R (meet (keep 1 true)) (@nil S_Egress.held) (@nil bundle); [quietly|]. go R (meet Send) (@nil S_Egress.held) (@nil bundle); [quietly|].
  go R (AtEgress (M_Egress.Route 5 20)) (@nil S_Egress.held) (@nil bundle); [other|].
  go R (ToEgress (M_Egress.Left true) true true) (@nil S_Egress.held) (@nil bundle); [exists (msg 1 0 true); split; [vm_compute; reflexivity|]; apply S_Egress.fair_left; intros i _; split; [reflexivity|discriminate]|].
  go R hear (@nil S_Egress.held) (@nil bundle); [heard|]. go R hear (@nil S_Egress.held) (@nil bundle); [heard|].
  eexists _, _, _, _, _. split; [exact R|]. split; [vm_compute; reflexivity|]. split; [vm_compute; reflexivity|]. split; [vm_compute; reflexivity|]. split; [vm_compute; reflexivity|]. split; [vm_compute; reflexivity|]. split; reflexivity.
Qed.
Print Assumptions C55_the_link_that_failed_goes_down_refuted.

(** The second outduct leaves a bundle that came from ingress; storage gets it back and takes the first link down, which the message names. *)
Definition direct : emsg := mkE (ex_b 7 5 false 0) true 300 1 20 (5, 1) false.
Theorem C55_failed_cut_through_takes_its_link_down_refuted : exists ts te w k0 k1, wrun pcfg 100 two ts te w [] [] /\ unread_answers w = [] /\ S_Egress.agreed two te /\ M_Egress.g_asked (w_e w) = [(1, ex_b 7 5 false 0)] /\
  S_Egress.observed two 0 te = None /\ links (w_s w) = [(RVec 0, k0); (RVec 1, k1)] /\ k_up k0 = false /\ k_up k1 = true /\ waiting (w_s w) 0.
Proof.
  pose proof first_run as R. let w := eval vm_compute in first_world in change (wrun pcfg 100 two [] [] w [] []) in R.
  go R (AtEgress (M_Egress.Route 5 20)) (@nil S_Egress.held) (@nil bundle); [other|]. go R hear (@nil S_Egress.held) (@nil bundle); [heard|]. go R hear (@nil S_Egress.held) (@nil bundle); [heard|].
  go R (meet (LinkUp 0)) (@nil S_Egress.held) (@nil bundle); [quietly|]. go R (meet (LinkUp 1)) (@nil S_Egress.held) (@nil bundle); [quietly|].
  go R (AtEgress (M_Egress.Bundle M_Egress.Ingress direct (M_Egress.Left true) true true)) (@nil S_Egress.held) (@nil bundle); [split; [intros []|]; apply S_Egress.fair_left; intros i _; split; [reflexivity|discriminate]|].
  go R hear (@nil S_Egress.held) (@nil bundle); [heard|].
  eexists _, _, _, _, _. split; [exact R|]. split; [vm_compute; reflexivity|]. split.
  - intros tr1 src m f ok1 ok2 tr2 i E W. do 2 (destruct tr1 as [|? tr1]; [first [discriminate E|injection E; intros; subst; vm_compute in W; injection W as <-; reflexivity]|]; cbn [app] in E; injection E as <- E). destruct tr1; discriminate E.
  - split; [vm_compute; reflexivity|]. split; [vm_compute; reflexivity|]. split; [vm_compute; reflexivity|]. split; [reflexivity|]. split; [reflexivity|]. vm_compute. left. reflexivity.
Qed.
Print Assumptions C55_failed_cut_through_takes_its_link_down_refuted.
