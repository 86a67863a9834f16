(** C56: custody of BPv6 bundles. The custody information of a bundle is read exactly, a bundle whose custody is accepted names the new
    custodian and the new id and is otherwise unchanged, every decision is signalled to the bundle's previous custodian, aggregated or on its
    own, exactly once and with the right status, and deletions are reported. *)
From Coq Require Import PeanoNat NArith List Bool Lia ZifyBool ZifyN.
From Verif Require Import Base M_FragmentSet M_Sdnv M_Acs M_Uri M_Bpv6Block M_BundleV6 S_FragmentSet L_FragmentSet S_Acs S_Sdnv S_Uri S_Bpv6 S_BundleV6
  P_Uri L_BundleV6 P_BundleV6 M_Custody S_Custody L_Custody L_CustodyRun L_CustodyView.
Import ListNotations.
Open Scope N_scope.

(** The information gathered about a bundle is right, and it is only not gathered when there is no such information: there is not exactly
    one payload block, or (for a node aware of the enhancement block) several enhancement blocks or one that names no endpoint. *)
Theorem C56_info_is_exact : forall cfg v, match get_info cfg v with Some i => knows (f_aware cfg) v i | None => forall i, ~ knows (f_aware cfg) v i end.
Proof. intros cfg v. destruct (get_info cfg v) as [i|] eqn:G; [exact (info_knows _ _ _ G)|intros i; exact (no_info _ _ _ G)]. Qed.
Print Assumptions C56_info_is_exact.
Definition ex_c_prim : list N := [6; 144; 24; 13; 1; 2; 3; 4; 0; 0; 7; 1; 129; 0; 1; 60; 0].
(** A bundle from ipn:3.4 in the custody of ipn:7.1, which knows it as number 9, and one with an enhancement block of ipn:8.1. *)
Definition ex_c_bundle (n : N) : list N := ex_c_prim ++ [10; 1; 8; 9; 105; 112; 110; 58; n; 46; 49] ++ [1; 8; 3; 104; 101; 121].
Definition ex_cfg : ccfg := mkCfg true (20, 0).
Definition loaded (bs : list N) : view := match load false false bs with Some (Some v) => v | _ => ex_view end.
Example C56_info_is_exact_ex :
  load false false (ex_c_bundle 55) = Some (Some (loaded (ex_c_bundle 55))) /\
  option_map (fun i => (i_valid i, i_id i, i_size i)) (get_info ex_cfg (loaded (ex_c_bundle 55))) = Some (true, 9, 3) /\
  option_map i_valid (get_info ex_cfg (loaded (ex_c_bundle 56))) = Some false /\ option_map i_valid (get_info (mkCfg false (20, 0)) (loaded (ex_c_bundle 55))) = Some false /\
  get_info ex_cfg ex_view = None.
Proof. repeat split; vm_compute; reflexivity. Qed.

(** Accepting custody of a bundle that was received: what is sent on names this node as custodian and, if it is aware of them, has one
    enhancement block, with this node's endpoint and the new id; nothing else is different. *)
Theorem C56_acceptance_is_exact : forall last bs v cfg id v1, Forall is_byte bs -> load last false bs = Some (Some v) -> Forall (fun c => one_byte_flags (c_actual c)) (v_blocks v) ->
  cfg_ok cfg -> id < W64 -> update cfg true id v = Some v1 -> primary_fits v1 ->
  exists v', deliverable last v1 v' /\ but_custodian (v_prim v) (v_prim v') /\ p_cust (v_prim v') = f_me cfg /\ others v' = others v /\
    if f_aware cfg then enhanced v' (Some (id, f_me cfg)) else map essence (v_blocks v') = map essence (v_blocks v).
Proof. intros last bs v cfg id v1 A B C D E F G. exact (accepted last bs v cfg id v1 A B C D E F G). Qed.
Print Assumptions C56_acceptance_is_exact.
Example C56_acceptance_is_exact_ex : exists v1 v', update ex_cfg true 300 (loaded (ex_c_bundle 55)) = Some v1 /\ render v1 100 (repeat 0 132) [] = Some (Some (Rendered v')) /\
  v_bytes v' = [6; 144; 24; 13; 1; 2; 3; 4; 0; 0; 20; 0; 129; 0; 1; 60; 0] ++ [10; 1; 10; 130; 44; 105; 112; 110; 58; 50; 48; 46; 48] ++ [1; 8; 3; 104; 101; 121] /\
  option_map (fun i => (i_valid i, i_id i)) (get_info ex_cfg v') = Some (true, 300).
Proof. eexists _, _. split; [vm_compute; reflexivity|]. split; [vm_compute; reflexivity|]. split; vm_compute; reflexivity. Qed.
(** Not accepting it changes at most one thing: an enhancement block that names somebody else than the custodian is removed. *)
Theorem C56_refusal_is_exact : forall last bs v cfg id i, Forall is_byte bs -> load last false bs = Some (Some v) -> Forall (fun c => one_byte_flags (c_actual c)) (v_blocks v) ->
  get_info cfg v = Some i ->
  exists v1 v', update cfg false id v = Some v1 /\ deliverable last v1 v' /\ v_prim v' = v_prim v /\ others v' = others v /\
    ((forall x e, f_aware cfg = true -> enhanced v (Some (x, e)) -> e = p_cust (v_prim v)) -> v_bytes v' = bs) /\
    (f_aware cfg = true -> enhanced v' (if i_valid i then Some (i_id i, p_cust (v_prim v)) else None)).
Proof. exact refused. Qed.
Print Assumptions C56_refusal_is_exact.
Example C56_refusal_is_exact_ex : exists v1 v', update ex_cfg false 300 (loaded (ex_c_bundle 56)) = Some v1 /\ render v1 100 (repeat 0 132) [] = Some (Some (Rendered v')) /\
  v_bytes v' = ex_c_prim ++ [1; 8; 3; 104; 101; 121] /\ update ex_cfg false 300 (loaded (ex_c_bundle 55)) = Some (loaded (ex_c_bundle 55)).
Proof. eexists _, _. split; [vm_compute; reflexivity|]. split; [vm_compute; reflexivity|]. split; vm_compute; reflexivity. Qed.

(** Every decision succeeds. The decision about a bundle that its custodian knows by an id is kept for an aggregate signal; about any other
    bundle, a custody signal of its own for the custodian is there at once: it says what was decided, when, and about which bundle. *)
Theorem C56_decision_is_signalled : forall cfg last l s i accept reason e, cfg_ok cfg -> crun cfg last l s -> cop_ok (Decide i accept reason e) ->
  exists r s1, generate cfg last i accept reason e s = Some (Some (r, s1)) /\ u_fills s <= u_fills s1 <= u_fills s + 1 /\
    if f_aware cfg && i_valid i then r = None
    else exists v g, r = Some (Rendered v) /\ (forall la, arrives_as la (Rendered v) v) /\
      record_for (f_me cfg) (p_cust (i_prim i)) (p_flags (i_prim i)) (e_now e) v 2 (cs_isfrag g) (ASignal g) /\ says (if accept then 0%nat else reason) (cs_status g) /\
      cs_time g = e_time e /\ about (i_prim i) (i_size i) (cs_isfrag g) (cs_off g) (cs_flen g) (cs_stamp g) (cs_eid g).
Proof.
  intros cfg last l s i accept reason e CF R (PO & SZ & RE & ID & E1 & T1 & T2 & MEM). destruct (run_state _ _ _ _ R) as (K & _). unfold generate. set (k := if accept then 0%nat else reason) in *. assert (LK : (k < 7)%nat) by (unfold k; destruct accept; [lia|auto]).
  destruct (f_aware cfg && i_valid i) eqn:AV.
  - replace (Nat.ltb k 7) with true by (symmetry; now apply Nat.ltb_lt). assert (VA : i_valid i = true) by (now apply andb_prop in AV). destruct (aggregate_ok last (p_cust (i_prim i)) k (i_id i) s K (proj1 (cust_ok _ PO)) LK (ID VA)) as (_ & _ & F). eauto.
  - destruct (status_some k LK) as (st & ST). destruct (status_ok _ _ ST) as (BS & SA & _). unfold signal_bundle. rewrite ST. pose proof (stamp_ok (e_now e) s E1 (ks_seq _ K)) as SO. destruct (stamp (e_now e) s) as [q s1]. destruct SO as (Q & _ & _ & S3 & _).
    destruct (signal_content (i_prim i) (i_size i) st (e_time e) PO SZ BS T1 T2) as (AO & AS & AL & AB & AST & ATM). set (g := signal_about (i_prim i) (i_size i) st (e_time e)) in *.
    destruct (record_renders cfg (p_flags (i_prim i)) (p_cust (i_prim i)) (e_now e) q 2 (p_isfrag (p_flags (i_prim i))) (ASignal g) 107 278 (e_mem e) (e_junk e) CF (proj1 (cust_ok _ PO)) E1 Q ltac:(lia) AO AS AL ltac:(lia) ltac:(lia) MEM) as (v & RD & LO & RF & _).
    unfold signal_view, signal_room. change (175 + 103)%nat with 278%nat. fold g. rewrite RD. cbn [bind2]. exists (Some (Rendered v)), s1. split; [reflexivity|]. split; [lia|]. exists v, g. split; [reflexivity|]. split; [intros la; split; [reflexivity|apply LO]|]. split; [exact RF|]. split; [now rewrite AST|]. split; [exact ATM|exact AB].
Qed.
Print Assumptions C56_decision_is_signalled.
Definition ex_env : env := mkEnv 1000 (1000, 5) (repeat 0 2500) [].
Definition ex_info (n : N) : info := match get_info ex_cfg (loaded (ex_c_bundle n)) with Some i => i | None => mkInfo (v_prim ex_view) false 0 0 end.
Example C56_decision_is_signalled_ex :
  generate ex_cfg false (ex_info 55) true 0 ex_env cinit = Some (Some (None, mkC [((7, 1), [[(9, 9)]; []; []; []; []; []; []])] 0 0 1)) /\
  exists v, generate ex_cfg false (ex_info 56) false 2 ex_env cinit = Some (Some (Some (Rendered v), mkC [] 0 1 0)) /\
    v_bytes v = [6; 22; 14; 7; 1; 20; 0; 0; 0; 0; 0; 135; 104; 0; 135; 104; 0] ++ [1; 8; 16] ++ [32; 4; 135; 104; 5; 129; 0; 1; 7; 105; 112; 110; 58; 51; 46; 52].
Proof. split; [vm_compute; reflexivity|]. eexists. split; vm_compute; reflexivity. Qed.

Lemma forall2_in {A B C} (P : A -> B -> Prop) (Q : C -> B -> Prop) (g : A -> C) l r : Forall2 P l r -> (forall x y, In x l -> P x y -> Q (g x) y) -> Forall2 Q (map g l) r.
Proof. induction 1 as [|x y l r H F IH]; intros I; cbn [map]; constructor; [apply I; [now left|exact H]|]. apply IH. intros a b IN. apply I. now right. Qed.
(** Flushing signals everything that is due, to whom it is due, each status once, and nothing else; and nothing is pending then. It succeeds
    when no signal has more than 104 fills, as the clock and the new memory may be. *)
Theorem C56_flush_is_exact : forall cfg last l s E, cfg_ok cfg -> crun cfg last l s -> (forall n, env_ok 2175 (E n)) -> u_fills s <= 104 ->
  exists out s1 J, flush cfg E s = Some (Some (out, s1)) /\ NoDup J /\ (forall e k, In (e, k) J <-> due cfg l e k <> []) /\
    Forall2 (fun j r => exists n v st fills, (forall la, arrives_as la r v) /\ record_for (f_me cfg) (fst j) 0 (e_now (E n)) v 4 false (AAggregate st fills) /\
      says (snd j) st /\ canonical fills /\ forall i, covers fills i <-> In i (due cfg l (fst j) (snd j))) J out /\
    (forall e k, fills_of e k s1 = []) /\ u_fills s1 = 0.
Proof.
  intros cfg last l s E CF R EN LE. destruct (run_state _ _ _ _ R) as (K & CO). pose proof K as [K1 K2 K3 K4].
  destruct (flush_map_ok cfg E CF EN (u_map s) 0 s K2) as (out & s1 & FM & A & B & C & D).
  { intros e a IN. destruct (K4 _ _ IN) as (O & L & F). split; [exact O|]. split; [exact L|]. eapply Forall_impl; [|exact F]. cbn. intros f (G1 & G2). split; [exact G1|lia]. }
  assert (FL : flush cfg E s = Some (Some (out, mkC (map (fun x => (fst x, repeat [] 7)) (u_map s)) (u_last s1) (u_seq s1) 0))) by (unfold flush; rewrite FM; reflexivity).
  destruct (flush_state _ _ _ _ _ K ltac:(intros n; apply (EN n)) FL) as (_ & EM & Z). eexists out, _, (map fst (jobs (u_map s))). split; [exact FL|]. split; [now apply jobs_nodup|].
  assert (FO : forall e k f, In (e, k, f) (jobs (u_map s)) <-> f <> [] /\ fills_of e k s = f).
  { intros e k f. rewrite (jobs_in _ _ _ _ K3). unfold fills_of. split.
    - intros (NE & a & F & N). rewrite F. split; [exact NE|]. now apply nth_error_nth.
    - intros (NE & F). split; [exact NE|]. destruct (map_find e (u_map s)) as [a|]; [|congruence]. exists a. split; [reflexivity|]. destruct (nth_error a k) as [g|] eqn:N; [f_equal; rewrite <- F; symmetry; now apply nth_error_nth|]. apply nth_error_None in N. rewrite nth_overflow in F by exact N. congruence. }
  split; [|split; [|split; [exact EM|exact Z]]].
  - intros e k. rewrite in_map_iff. split.
    + intros (((e' & k') & f) & [= -> ->] & IN). apply FO in IN. destruct IN as (NE & F). destruct (fills_ok s e k K) as (CA & _). rewrite F in CA. destruct (covers_some f CA NE) as (i & CI). rewrite <- F in CI. apply CO in CI. intros X. now rewrite X in CI.
    + intros NE. exists (e, k, fills_of e k s). split; [reflexivity|]. apply FO. split; [|reflexivity]. intros X. destruct (due cfg l e k) as [|i d] eqn:DU; [congruence|]. apply (covers_nil i). rewrite <- X. apply CO. rewrite DU. now left.
  - eapply forall2_in; [exact D|]. cbv beta. intros ((e & k) & f) r IN (n & v & st & -> & LO & RF & SA). cbn [fst snd] in *. apply FO in IN. destruct IN as (NE & F). exists n, v, st, f. split; [intros la; split; [reflexivity|apply LO]|]. split; [exact RF|]. split; [exact SA|]. subst f. split; [apply (fills_ok s e k K)|apply CO].
Qed.
Print Assumptions C56_flush_is_exact.
Definition ex_info_id (n : N) (e : eid) : info := mkInfo (with_cust (i_prim (ex_info 55)) e) true n 3.
Definition ex_ops : list cop := [Decide (ex_info_id 9 (7, 1)) true 0 ex_env; Decide (ex_info_id 5 (8, 1)) true 0 ex_env; Decide (ex_info_id 10 (7, 1)) true 0 ex_env; Decide (ex_info_id 12 (7, 1)) false 3 ex_env].
Fixpoint do_all (cfg : ccfg) (last : bool) (l : list cop) (s : cstate) : option cstate :=
  match l with [] => Some s | o :: r => match do_op cfg last o s with Some (Some (_, s1)) => do_all cfg last r s1 | _ => None end end.
Lemma do_all_run cfg last l : forall l0 s s1, crun cfg last l0 s -> Forall cop_ok l -> do_all cfg last l s = Some s1 -> crun cfg last (l0 ++ l) s1.
Proof.
  induction l as [|o l IH]; intros l0 s s1 R F; cbn [do_all]; [intros [= <-]; now rewrite app_nil_r|]. destruct (do_op cfg last o s) as [[(out & s2)|]|] eqn:D; try discriminate. intros H. change (l0 ++ o :: l) with (l0 ++ [o] ++ l). rewrite app_assoc. eapply IH; [|exact (Forall_inv_tail F)|exact H]. eapply run_next; [exact R|exact (Forall_inv F)|exact D].
Qed.
Lemma ex_id_ok n e acc reason m : n < U64MAX -> fst e < W64 -> snd e < W64 -> (reason < 7)%nat -> (310 <= length m)%nat -> cop_ok (Decide (ex_info_id n e) acc reason (mkEnv 1000 (1000, 5) m [])).
Proof.
  intros A B C D L. split; [|split; [cbn; unfold W64; lia|split; [auto|split; [auto|]]]].
  - unfold ex_info_id. cbn [i_prim]. replace (i_prim (ex_info 55)) with (mkPrim 2072 13 (1, 2) (3, 4) (0, 0) (7, 1) 128 1 60 0 0) by (vm_compute; reflexivity). split; [|auto]. repeat constructor; cbn [with_cust p_flags p_dest p_src p_report p_cust p_time p_seq p_life p_off p_total fst snd]; first [assumption|unfold W64; lia].
  - unfold env_ok. cbn [e_now e_time e_mem fst snd]. unfold W64, W32. lia.
Qed.
Lemma ex_ops_ok : Forall cop_ok ex_ops.
Proof.
  unfold ex_ops, ex_env. assert (L : (310 <= length (repeat 0%N 2500))%nat) by (rewrite repeat_length; lia). revert L. generalize (repeat 0 2500). intros m L.
  do 4 (apply Forall_cons; [apply ex_id_ok; cbn [fst snd]; first [exact L|lia|unfold W64; lia|unfold U64MAX, W64; lia|vm_compute; reflexivity]|]). constructor.
Qed.
Example C56_flush_is_exact_ex : exists s v1 v2 v3, crun ex_cfg false ex_ops s /\ due ex_cfg ex_ops (7, 1) 0 = [10; 9] /\ due ex_cfg ex_ops (7, 1) 3 = [12] /\ due ex_cfg ex_ops (8, 1) 0 = [5] /\
  flush ex_cfg (fun _ => ex_env) s = Some (Some ([Rendered v1; Rendered v2; Rendered v3], mkC [((7, 1), repeat [] 7); ((8, 1), repeat [] 7)] 0 1 0)) /\
  v_bytes v1 = [6; 22; 14; 7; 1; 20; 0; 0; 0; 0; 0; 135; 104; 0; 135; 104; 0] ++ [1; 8; 4; 64; 128; 9; 2].
Proof.
  eexists _, _, _, _. split.
  - apply (do_all_run ex_cfg false ex_ops [] cinit); [constructor|exact ex_ops_ok|vm_compute; reflexivity].
  - split; [vm_compute; reflexivity|]. split; [vm_compute; reflexivity|]. split; [vm_compute; reflexivity|]. split; vm_compute; reflexivity.
Qed.

(** What is pending is what was decided since the last flush. *)
Theorem C56_pending_is_exact : forall cfg last l s, crun cfg last l s -> forall e k,
  canonical (fills_of e k s) /\ N.of_nat (length (fills_of e k s)) <= u_fills s /\ forall i, covers (fills_of e k s) i <-> In i (due cfg l e k).
Proof. intros cfg last l s R e k. destruct (run_state _ _ _ _ R) as (K & C). destruct (fills_ok s e k K). auto. Qed.
Print Assumptions C56_pending_is_exact.

Example C56_pending_is_exact_ex : exists s, crun ex_cfg false ex_ops s /\ fills_of (7, 1) 0 s = [(9, 10)] /\ fills_of (7, 1) 3 s = [(12, 12)] /\ fills_of (8, 1) 0 s = [(5, 5)] /\ u_fills s = 1.
Proof.
  eexists. split; [apply (do_all_run ex_cfg false ex_ops [] cinit); [constructor|exact ex_ops_ok|vm_compute; reflexivity]|]. repeat split; vm_compute; reflexivity.
Qed.

(** A deletion is reported to the bundle's report-to endpoint: bundle deleted (bit 4), lifetime expired (1), when, and which bundle. *)
Theorem C56_deletion_report_is_exact : forall cfg last l s p size e, cfg_ok cfg -> crun cfg last l s -> prim_ok p -> size < W64 -> env_ok 439 e ->
  exists v g s1, report cfg p size e s = Some (Some (Rendered v, s1)) /\ (forall la, arrives_as la (Rendered v) v) /\
    record_for (f_me cfg) (p_report p) (p_flags p) (e_now e) v 1 (sr_isfrag g) (AStatus g) /\ sr_flags g = 16 /\ sr_reason g = 1 /\
    sr_times g = repeat (0, 0) 4 ++ [e_time e] /\ about p size (sr_isfrag g) (sr_off g) (sr_flen g) (sr_stamp g) (sr_eid g) /\ u_map s1 = u_map s /\ u_fills s1 = u_fills s.
Proof.
  intros cfg last l s p size e CF R PO SZ (E1 & T1 & T2 & MEM). destruct (run_state _ _ _ _ R) as (K & _). unfold report. pose proof (stamp_ok (e_now e) s E1 (ks_seq _ K)) as SO. destruct (stamp (e_now e) s) as [q s1]. destruct SO as (Q & S1 & _ & S3 & _).
  destruct (report_content p size (e_time e) PO SZ T1 T2) as (AO & AS & AL & AB). set (g := report_about p size (e_time e)) in *.
  destruct (record_renders cfg (p_flags p) (p_report p) (e_now e) q 1 (p_isfrag (p_flags p)) (AStatus g) 108 439 (e_mem e) (e_junk e) CF (proj1 (proj2 (cust_ok _ PO))) E1 Q ltac:(lia) AO AS AL ltac:(lia) ltac:(lia) MEM) as (v & RD & LO & RF & _).
  unfold report_view, report_room. change (175 + 164 + 100)%nat with 439%nat. fold g. rewrite RD. cbn [bind2]. exists v, g, s1. split; [reflexivity|]. split; [intros la; split; [reflexivity|apply LO]|]. split; [exact RF|]. split; [reflexivity|]. split; [reflexivity|]. split; [reflexivity|]. split; [exact AB|auto].
Qed.
Print Assumptions C56_deletion_report_is_exact.
Example C56_deletion_report_is_exact_ex : exists v s1, report ex_cfg (mkPrim 3089 13 (1, 2) (3, 4) (9, 9) (7, 1) 128 1 60 40 90) 3 ex_env cinit = Some (Some (Rendered v, s1)) /\
  v_bytes v = [6; 22; 14; 9; 9; 20; 0; 0; 0; 0; 0; 135; 104; 0; 135; 104; 0] ++ [1; 8; 19] ++ [17; 16; 1; 40; 3; 135; 104; 5; 129; 0; 1; 7; 105; 112; 110; 58; 51; 46; 52].
Proof. eexists _, _. split; vm_compute; reflexivity. Qed.

Lemma due_grows cfg l1 l2 e k i : Forall (fun o => match o with Flush _ => False | _ => True end) l2 -> In i (due cfg l1 e k) -> In i (due cfg (l1 ++ l2) e k).
Proof.
  intros F. revert l1. induction F as [|o l2 X F IH]; intros l1 IN; [now rewrite app_nil_r|]. change (l1 ++ o :: l2) with (l1 ++ [o] ++ l2). rewrite app_assoc. apply IH. rewrite due_next. destruct o as [j a r en|]; [|contradiction]. destruct (_ && _); [now right|exact IN].
Qed.
Lemma others_payload v v' n : others v' = others v -> payload_size v = Some n -> exists m, payload_size v' = Some m.
Proof.
  unfold others, payload_size. intros E P.
  assert (G : forall w, map (fun c => type_of c) (filter (fun c => k_type (c_blk c) =? 1) (v_blocks w)) = filter (fun t => t =? 1) (map (fun x => fst (fst (fst x))) (map essence (filter (fun c => negb (type_of c =? 10)) (v_blocks w))))).
  { intros w. induction (v_blocks w) as [|c q IH]; [reflexivity|]. cbn [filter]. change (k_type (c_blk c)) with (type_of c). destruct (N.eqb_spec (type_of c) 1) as [T1|T1]; cbn [map].
    - rewrite T1. change (1 =? 10) with false. cbn [negb map filter]. unfold essence at 1. cbn [fst]. change (k_type (c_blk c)) with (type_of c). rewrite T1. change (1 =? 1) with true. cbv iota. f_equal; [symmetry; exact T1|exact IH].
    - destruct (type_of c =? 10); cbn [negb map filter]; [exact IH|]. unfold essence at 1. cbn [fst]. change (k_type (c_blk c)) with (type_of c). apply N.eqb_neq in T1. rewrite T1. exact IH. }
  pose proof (G v) as GV. rewrite <- E, <- G in GV. apply (f_equal (@length N)) in GV. rewrite !map_length in GV. clear E G. destruct (filter _ (v_blocks v)) as [|c [|d q]]; try discriminate. cbn [length] in GV. destruct (filter _ (v_blocks v')) as [|c' [|d' q']]; try discriminate. eauto.
Qed.
(** From one node to the next and back: when node A accepts custody of a bundle under an id and sends it on, the next node B (both aware of
    enhancement blocks) finds the id, and once it has decided, its next flush has a signal for A with this decision and this id. *)
Theorem C56_custody_is_confirmed : forall last bs v A id i0 v1, Forall is_byte bs -> load last false bs = Some (Some v) -> Forall (fun c => one_byte_flags (c_actual c)) (v_blocks v) ->
  cfg_ok A -> f_aware A = true -> get_info A v = Some i0 -> id < U64MAX -> update A true id v = Some v1 -> primary_fits v1 ->
  exists v', deliverable last v1 v' /\ forall B, cfg_ok B -> f_aware B = true -> exists i, get_info B v' = Some i /\
    forall l1 accept reason e l2 s E, crun B last (l1 ++ Decide i accept reason e :: l2) s -> Forall (fun o => match o with Flush _ => False | _ => True end) l2 ->
      (forall n, env_ok 2175 (E n)) -> u_fills s <= 104 ->
      exists out s1 r v2 n st fills, flush B E s = Some (Some (out, s1)) /\ In r out /\ (forall la, arrives_as la r v2) /\
        record_for (f_me B) (f_me A) 0 (e_now (E n)) v2 4 false (AAggregate st fills) /\ says (if accept then 0%nat else reason) st /\ covers fills id.
Proof.
  intros last bs v A id i0 v1 Hb LO OB CA AW GI LI UP PF. destruct (accepted last bs v A id v1 Hb LO OB CA ltac:(unfold U64MAX, W64 in *; lia) UP PF) as (v' & DE & _ & CU & OT & EN). rewrite AW in EN. exists v'. split; [exact DE|]. intros B CB BW.
  assert (PS : exists n, payload_size v = Some n) by (unfold get_info in GI; destruct (payload_size v); [eauto|discriminate]). destruct PS as (n0 & PS). destruct (others_payload v v' n0 OT PS) as (m & PM).
  pose proof (enhanced_cteb _ _ EN) as CT. cbn beta iota in CT. rewrite CU in CT. rewrite (proj2 (eid_eqb_eq _ _) eq_refl) in CT. exists (mkInfo (v_prim v') true id m). split; [unfold get_info; now rewrite PM, BW, CT|].
  intros l1 accept reason e l2 s E R NF EV LF. set (k := if accept then 0%nat else reason). destruct (C56_flush_is_exact B last _ s E CB R EV LF) as (out & s1 & J & FL & _ & JD & F2 & _).
  assert (DU : In id (due B (l1 ++ Decide (mkInfo (v_prim v') true id m) accept reason e :: l2) (f_me A) k)).
  { change (l1 ++ Decide (mkInfo (v_prim v') true id m) accept reason e :: l2) with (l1 ++ [Decide (mkInfo (v_prim v') true id m) accept reason e] ++ l2). rewrite app_assoc. apply due_grows; [exact NF|]. rewrite due_next. cbn [i_valid i_prim i_id]. rewrite BW, CU, !N.eqb_refl. cbn [andb]. fold k. rewrite Nat.eqb_refl. now left. }
  assert (IJ : In (f_me A, k) J) by (apply JD; intros X; rewrite X in DU; destruct DU).
  assert (G : forall (P : eid * nat -> rendered -> Prop) a b x, Forall2 P a b -> In x a -> exists y, In y b /\ P x y).
  { intros P a b x H. induction H as [|x0 y0 a b P0 H IH]; [intros []|]. intros [<-|IN]; [exists y0; split; [now left|exact P0]|]. destruct (IH IN) as (y & Y1 & Y2). exists y. split; [now right|exact Y2]. }
  destruct (G _ _ _ _ F2 IJ) as (r & IR & n & v2 & st & fills & AR & RF & SA & _ & CO). cbn [fst snd] in *. exists out, s1, r, v2, n, st, fills. split; [exact FL|]. split; [exact IR|]. split; [exact AR|]. split; [exact RF|]. split; [exact SA|]. now apply CO.
Qed.
Print Assumptions C56_custody_is_confirmed.
(** ipn:20.0 accepts the bundle of ipn:7.1 as number 300; ipn:30.0 accepts it too and signals 300 to ipn:20.0. *)
Example C56_custody_is_confirmed_ex : exists v1 v' i s v2, update ex_cfg true 300 (loaded (ex_c_bundle 55)) = Some v1 /\ render v1 100 (repeat 0 132) [] = Some (Some (Rendered v')) /\
  get_info (mkCfg true (30, 0)) v' = Some i /\ generate (mkCfg true (30, 0)) false i true 0 ex_env cinit = Some (Some (None, s)) /\
  flush (mkCfg true (30, 0)) (fun _ => ex_env) s = Some (Some ([Rendered v2], mkC [((20, 0), repeat [] 7)] 0 1 0)) /\
  v_bytes v2 = [6; 22; 14; 20; 0; 30; 0; 0; 0; 0; 0; 135; 104; 0; 135; 104; 0] ++ [1; 8; 5; 64; 128; 130; 44; 1].
Proof. eexists _, _, _, _, _. split; [vm_compute; reflexivity|]. split; [vm_compute; reflexivity|]. split; [vm_compute; reflexivity|]. split; [vm_compute; reflexivity|]. split; vm_compute; reflexivity. Qed.

(** ** What does not hold *)
(** Different records of one node do not have different names (source, creation time and sequence number), which RFC 5050 4.5.1 demands: the
    last creation time is never stored, so the sequence number starts at 0 each time. *)
Theorem C56_records_have_different_names_refuted :
  exists cfg s E v1 v2 s1, cfg_ok cfg /\ (forall n, env_ok 2175 (E n)) /\ crun cfg false ex_ops s /\ (exists v3, flush cfg E s = Some (Some ([Rendered v1; Rendered v2; v3], s1))) /\
    p_src (v_prim v1) = p_src (v_prim v2) /\ p_time (v_prim v1) = p_time (v_prim v2) /\ p_seq (v_prim v1) = p_seq (v_prim v2) /\ v_blocks v1 <> v_blocks v2.
Proof.
  exists ex_cfg. eexists _, (fun _ => ex_env), _, _, _. split; [split; cbn; unfold W64; lia|]. split; [intros _; unfold env_ok, ex_env; cbn [e_now e_time e_mem fst snd]; rewrite repeat_length; unfold W64, W32; lia|]. split.
  - apply (do_all_run ex_cfg false ex_ops [] cinit); [constructor|exact ex_ops_ok|vm_compute; reflexivity].
  - split; [eexists; vm_compute; reflexivity|]. split; [vm_compute; reflexivity|]. split; [vm_compute; reflexivity|]. split; [vm_compute; reflexivity|]. vm_compute. discriminate.
Qed.
Print Assumptions C56_records_have_different_names_refuted.
(** With more fills, as a configuration with a larger acsMaxFillsPerAcsPacket allows, flushing can write past the end of the buffer: here 230
    ids far apart, and a vector that is as large as asked for. *)
Definition far_ops : list cop := map (fun k => Decide (ex_info_id (N.of_nat k * 2 ^ 56) (7, 1)) true 0 (mkEnv 1000 (1000, 5) (repeat 0 310) [])) (seq 1 230).
Theorem C56_flush_stays_in_its_buffer_refuted :
  exists cfg s E, cfg_ok cfg /\ crun cfg false far_ops s /\ u_fills s = 230 /\ (forall n, env_ok 2175 (E n)) /\ flush cfg E s = None.
Proof.
  exists ex_cfg. eexists _, (fun _ => mkEnv 1000 (1000, 5) (repeat 0 2207) []). split; [split; cbn; unfold W64; lia|]. split.
  - apply (do_all_run ex_cfg false far_ops [] cinit); [constructor| |vm_compute; reflexivity]. unfold far_ops. apply Forall_map, Forall_forall. intros k IN. apply in_seq in IN. apply ex_id_ok; cbn [fst snd]; try (unfold W64; lia); [unfold U64MAX, W64; change (2 ^ 56) with 72057594037927936; lia|rewrite repeat_length; lia].
  - split; [vm_compute; reflexivity|]. split; [intros _; unfold env_ok; cbn [e_now e_time e_mem fst snd]; rewrite repeat_length; unfold W64, W32; lia|]. vm_compute. reflexivity.
Qed.
Print Assumptions C56_flush_stays_in_its_buffer_refuted.
