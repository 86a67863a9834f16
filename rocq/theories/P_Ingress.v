(** C50: what a node does with a bundle it receives (Ingress::Impl::ProcessPaddedData). *)
From Coq Require Import NArith ZArith List Bool Lia ZifyBool ZifyN.
From Verif Require Import Base M_SegmentAlloc M_Intrin M_Sdnv M_Cbor M_Bpv6Block M_Bpv7Crc M_Bpv7Block M_Bpv7Admin M_Bpv7Sec M_BundleV6 M_BundleV7 M_Ingress.
From Verif Require Import S_Sdnv S_Bpv6 S_BundleV6 S_Cbor S_Bpv7Crc S_Bpv7 S_Bpv7Admin S_Bpv7Sec S_BundleV7 S_Ingress.
From Verif Require Import L_Intrin L_Cbor P_Cbor L_Bpv7Crc P_Bpv7Crc L_Bpv6Read L_Bpv6Write L_BundleV6 P_BundleV6 L_Bpv7Read L_Bpv7Write L_Bpv7Canon P_Bpv7Block P_Bpv7Canon L_Bpv7Admin P_Bpv7Admin L_Bpv7Sec P_Bpv7Sec L_BundleV7 L_BundleV7Render L_BundleV7Seen L_BundleV7Place P_BundleV7 L_Ingress.
Import ListNotations.
Open Scope N_scope.

Lemma bundle_verified (P Q : Prop) old v bs : (Q -> P) -> bundle7_form P old v bs -> bundle7_form Q old v bs.
Proof.
  intros H (A1 & A2 & A3 & A4 & A5 & A6 & A7 & A8 & A9 & B & M). repeat (split; [assumption|]). split; [|exact M]. clear - H B. revert B. generalize 0%nat. induction (w_blocks v) as [|b l IH]; intros i; [auto|]. intros (F & B). split; [|now apply IH].
  destruct F as (F & X). split; [|exact X]. now apply (form_verified P).
Qed.
Lemma allowed_dec p : hop_allowed p \/ ~ hop_allowed p. Proof. unfold hop_allowed. lia. Qed.
Lemma may_pass_dec stale l : may_pass stale l \/ ~ may_pass stale l.
Proof.
  assert (D : (forall b, In b l -> block_type b = 10 -> hop_allowed (hop_pair stale b)) \/ ~ (forall b, In b l -> block_type b = 10 -> hop_allowed (hop_pair stale b))).
  { induction l as [|b l IH]; [left; intros b []|]. destruct (N.eq_dec (block_type b) 10) as [T|T].
    - destruct (allowed_dec (hop_pair stale b)) as [A|A]; [|right; intros H; apply A, H; [now left|exact T]]. destruct IH as [IH|IH]; [left; intros x [<-|I]; [auto|now apply IH]|right; intros H; apply IH; intros x I; apply H; now right].
    - destruct IH as [IH|IH]; [left; intros x [<-|I]; [now intros|now apply IH]|right; intros H; apply IH; intros x I; apply H; now right]. }
  unfold may_pass. destruct D as [D|D]; [|right; tauto]. destruct (le_dec (length (of_type 6 l)) 1), (le_dec (length (of_type 10 l)) 1); tauto.
Qed.
(** A bundle from outside, once loaded. *)
Lemma handled7_of old stale nd bs v : bundle7_form True old v bs -> (forall w, bundle7_form True old w bs -> w = v) -> forall r, handled7 old stale nd bs r <->
  if is_dest (q_dest (w_prim v)) (ping_eid nd) then r = Consumed
  else if is_admin (q_flags (w_prim v)) && is_dest (q_dest (w_prim v)) (custody_eid nd)
  then r = Out (mkOut bs (custody_eid nd) false true (is_dest (custody_eid nd) (router_eid nd)) false)
  else (~ may_pass stale (w_blocks v) /\ r = Refused) \/
       (may_pass stale (w_blocks v) /\ exists out, forwarded7 nd v out /\ r = Out (mkOut out (if is_dest (q_dest (w_prim v)) (echo_eid nd) then q_src (w_prim v) else q_dest (w_prim v))
      false false (is_dest (q_dest (w_prim v)) (router_eid nd)) false)).
Proof.
  intros BF U r. split.
  - intros H. inversion H as [N|w F D|w F D A1 A2|w F D A M|w out F D A M FW]; subst.
    + now elim (N v).
    + pose proof (U _ F) as ->. replace (is_dest _ _) with true by (symmetry; now apply is_dest_ok). reflexivity.
    + pose proof (U _ F) as ->. destruct (is_dest (q_dest (w_prim v)) (ping_eid nd)) eqn:E; [now apply is_dest_ok in E|]. rewrite A1. replace (is_dest (q_dest (w_prim v)) (custody_eid nd)) with true by (symmetry; now apply is_dest_ok). reflexivity.
    + pose proof (U _ F) as ->. destruct (is_dest (q_dest (w_prim v)) (ping_eid nd)) eqn:E; [now apply is_dest_ok in E|]. destruct (is_admin _) eqn:EA, (is_dest _ (custody_eid nd)) eqn:EC; cbn [andb]; auto. elim A. split; [reflexivity|now apply is_dest_ok].
    + pose proof (U _ F) as ->. destruct (is_dest (q_dest (w_prim v)) (ping_eid nd)) eqn:E; [now apply is_dest_ok in E|]. destruct (is_admin _) eqn:EA, (is_dest _ (custody_eid nd)) eqn:EC; cbn [andb]; eauto. elim A. split; [reflexivity|now apply is_dest_ok].
  - destruct (is_dest (q_dest (w_prim v)) (ping_eid nd)) eqn:E. { intros ->. apply (H7Ping _ _ _ _ v BF). now apply is_dest_ok. }
    assert (NP : q_dest (w_prim v) <> ping_eid nd) by (intros X; apply is_dest_ok in X; congruence).
    destruct (is_admin (q_flags (w_prim v)) && is_dest (q_dest (w_prim v)) (custody_eid nd)) eqn:EA.
    + intros ->. apply andb_prop in EA. destruct EA as (A1 & A2). apply is_dest_ok in A2. now apply (H7Admin _ _ _ _ v).
    + assert (NA : ~ (is_admin (q_flags (w_prim v)) = true /\ q_dest (w_prim v) = custody_eid nd)). { intros (A1 & A2). apply is_dest_ok in A2. rewrite A1, A2 in EA. discriminate. }
      intros [(M & ->)|(M & out & F & ->)]; [now apply (H7Drop _ _ _ _ v)|now apply (H7Forward _ _ _ _ v)].
Qed.

Definition ex50_node : node := mkNode 10 0 2047 100 1000 2.
Definition ex50_pad : list N := repeat 0 256.
Definition ex50_run (nd : node) (bs : list N) : option handled := process7 (scan_any 0) None ex7_old (0, 0) nd true ex50_pad ex7_beyond bs.
Definition ex50_echo_primary : list N := [136; 7; 4; 0; 130; 2; 130; 10; 25; 7; 255; 130; 2; 130; 1; 1; 130; 1; 0; 130; 25; 3; 232; 5; 26; 5; 38; 92; 0].
Definition ex50_echoed_primary : list N := [136; 7; 4; 0; 130; 2; 130; 1; 1; 130; 2; 130; 10; 25; 7; 255; 130; 1; 0; 130; 25; 3; 232; 5; 26; 5; 38; 92; 0].
Definition ex50_new : list N := [134; 6; 3; 16; 2; 69; 130; 2; 130; 10; 0; 68; 68; 206; 70; 145].
Definition ex50_hop (n : N) : list N := [133; 10; 2; 0; 0; 68; 130; 24; 30; n].
Definition ex50_rest : list N := ex7_bcb_block ++ ex7_secret ++ ex7_payload ++ [255].
Definition ex50_sent : list N := [159] ++ ex7_primary ++ ex50_new ++ ex50_hop 6 ++ ex50_rest.
Ltac octets := repeat (apply Forall_cons; [reflexivity|]); apply Forall_nil.
Lemma ex50_octets : Forall is_octet ex7_bundle /\ Forall is_octet ex7_beyond /\ (23 <= length ex7_beyond)%nat /\ N.of_nat (length (ex7_bundle ++ ex7_beyond)) < 2 ^ 64.
Proof. split; [vm_compute; octets|]. split; [vm_compute; octets|]. split; [vm_compute; lia|vm_compute; reflexivity]. Qed.

(** What is done with a BPv7 bundle from outside, in full: malformed bundles, and those with several previous node or hop count
    blocks or whose hop limit is reached, are refused; pings for the node end there; administrative records for the node's custody
    service go to storage as they are; everything else is forwarded with previous node and hop count brought up to date and all
    else byte for byte, the 256 bytes of padding always being enough. *)
Theorem C50_bpv7_processing_is_exact : forall j hw old stale nd pad beyond bs, j < 256 -> Forall is_octet bs -> Forall is_octet beyond -> (23 <= length beyond)%nat ->
  N.of_nat (length (bs ++ beyond)) < 2 ^ 64 -> (256 <= length pad)%nat -> N.of_nat (length (pad ++ bs)) + 10 < 2 ^ 64 -> node_ok nd -> snd stale < 2 ^ 64 ->
  let run := process7 (scan_any j) hw old stale nd true pad beyond bs in
  (run = None <-> load7 false hw old beyond false bs = None) /\ (forall r, run = Some r -> forall r', handled7 old stale nd bs r' <-> r' = r).
Proof.
  intros j hw old stale nd pad beyond bs J HO BO B23 HL PA PL NO ST. cbv zeta. unfold process7. cbn [negb]. destruct (load7 false hw old beyond false bs) as [[v|]|] eqn:E.
  - cbn iota beta. pose proof E as BF. apply load_ok in BF; try assumption. assert (U : forall w, bundle7_form True old w bs -> w = v). { intros w F. apply (bundle_verified True (false = false)) in F; [|auto]. apply (load_ok false hw old beyond) in F; try assumption. congruence. }
    apply (bundle_verified _ True) in BF; [|auto]. pose proof (handled7_of _ stale nd _ _ BF U) as HH. change eid_eqb with is_dest. rewrite !has_admin7, has_none. cbn [andb].
    change (n_id nd, 1) with (ping_eid nd). change (n_id nd, n_custody nd) with (custody_eid nd). change (n_id nd, n_router nd) with (router_eid nd). change (n_id nd, n_echo nd) with (echo_eid nd).
    assert (L64 : N.of_nat (length bs) < 2 ^ 64) by (rewrite app_length in HL; lia). assert (WB : w_bytes v = bs) by (apply BF).
    destruct (is_dest (q_dest (w_prim v)) (ping_eid nd)) eqn:EP. { split; [split; discriminate|]. intros r [= <-]. exact HH. }
    destruct (is_admin (q_flags (w_prim v)) && is_dest (q_dest (w_prim v)) (custody_eid nd)) eqn:EA.
    { split; [split; discriminate|]. intros r [= <-]. apply andb_prop in EA. destruct EA as (_ & A2). apply is_dest_ok in A2. rewrite WB, A2. exact HH. }
    rewrite (prev_step _ _ _ _ nd BF). destruct (Nat.leb_spec (length (of_type 6 (w_blocks v))) 1) as [L6|L6].
    2: { split; [split; discriminate|]. intros r [= <-] r'. rewrite HH. split; [intros [(_ & ->)|((M & _) & _)]; [reflexivity|lia]|]. intros ->. left. split; [|reflexivity]. intros (M & _). lia. }
    assert (N10 : of_type 10 (new_blocks (n_id nd) v) = []) by (unfold new_blocks; destruct (existsb _ _); reflexivity).
    destruct (hop_step _ _ _ _ nd stale (pass_mask v) (new_blocks (n_id nd) v) BF ST N10) as (H1 & H2).
    destruct (may_pass_dec stale (w_blocks v)) as [M|M].
    2: { rewrite H2 by (intros (M1 & M2); apply M; split; [lia|split; assumption]). split; [split; discriminate|]. intros r [= <-] r'. rewrite HH. split; [intros [(_ & ->)|(X & _)]; [reflexivity|tauto]|]. intros ->. auto. }
    rewrite H1 by (apply M). cbn iota beta. destruct (pass_payload True old v bs nd BF) as (front & pl & EB & T & N1 & FT & DI & DE & EP2 & WB2 & rest & ER).
    change (if is_dest (q_dest (w_prim v)) (echo_eid nd) then modify_primary7 (redirect7 (w_prim v) (q_src (w_prim v)) (echo_eid nd)) (with_blocks7 v (new_blocks (n_id nd) v ++ map (pass7 (n_id nd)) (w_blocks v)) (pass_mask v))
      else with_blocks7 v (new_blocks (n_id nd) v ++ map (pass7 (n_id nd)) (w_blocks v)) (pass_mask v)) with (pass_view nd v).
    destruct (in_place_ok j hw (pass_view nd v) _ pl rest pad 256 J (pass_ok True old v bs nd BF HO NO L64) EP2 T N1 DE) as (v' & SE & _ & _ & RI); [now rewrite WB2|lia|rewrite WB2; exact PL|].
    destruct (sent_forwarded True old v bs nd BF HO NO L64 v' SE) as (FW & LN). assert (LN' : (length (w_bytes v') <= length bs + 256)%nat) by (apply LN; apply M). destruct (RI ltac:(rewrite WB2; lia) DI) as (_ & RE). rewrite RE.
    split; [split; discriminate|]. intros r [= <-] r'. rewrite HH. split.
    + intros [(X & _)|(_ & out & F & ->)]; [tauto|]. rewrite (forwarded_det True old v bs nd BF HO NO L64 _ _ F FW). reflexivity.
    + intros ->. right. split; [exact M|]. eauto.
  - split; [split; discriminate|]. intros r [= <-] r'. assert (N : forall v, ~ bundle7_form True old v bs). { intros v F. apply (bundle_verified True (false = false)) in F; [|auto]. apply (load_ok false hw old beyond) in F; try assumption. congruence. }
    split; [|intros ->; now apply H7Malformed]. intros H. inversion H as [|w F|w F|w F|w out F]; subst; [reflexivity|..]; now elim (N w).
  - split; [now split|]. discriminate.
Qed.
Print Assumptions C50_bpv7_processing_is_exact.
Example C50_bpv7_processing_is_exact_ex : node_ok ex50_node /\
  ex50_run ex50_node ex7_bundle = Some (Out (mkOut ex50_sent (2, 1) false false false false)) /\
  ex50_run ex50_node ([159] ++ ex50_echo_primary ++ ex50_hop 5 ++ ex50_rest) = Some (Out (mkOut ([159] ++ ex50_echoed_primary ++ ex50_new ++ ex50_hop 6 ++ ex50_rest) (1, 1) false false false false)) /\
  ex50_run ex50_node ([159] ++ ex7_primary ++ [133; 10; 2; 0; 0; 67; 130; 5; 5] ++ ex50_rest) = Some Refused /\
  ex50_run (mkNode 2 0 2047 100 1000 0) ex7_bundle = Some Consumed.
Proof. split; [repeat constructor|]. repeat split; vm_compute; reflexivity. Qed.

(** It comes to undefined behaviour only with a security block in the bundle (C48 says when). *)
Theorem C50_bpv7_processing_is_defined : forall j hw old stale nd pad beyond bs, j < 256 -> Forall is_octet bs -> Forall is_octet beyond -> (23 <= length beyond)%nat ->
  N.of_nat (length (bs ++ beyond)) < 2 ^ 64 -> (256 <= length pad)%nat -> N.of_nat (length (pad ++ bs)) + 10 < 2 ^ 64 -> node_ok nd -> snd stale < 2 ^ 64 ->
  (forall pre b post c, bs = pre ++ b ++ post -> canon7_form False c b -> c_type c <> 11 /\ c_type c <> 12) ->
  exists r, process7 (scan_any j) hw old stale nd true pad beyond bs = Some r /\ forall r', handled7 old stale nd bs r' <-> r' = r.
Proof.
  intros j hw old stale nd pad beyond bs J HO BO B23 HL PA PL NO ST NS. destruct (C50_bpv7_processing_is_exact j hw old stale nd pad beyond bs J HO BO B23 HL PA PL NO ST) as (U & X). cbv zeta in U, X. destruct (process7 _ _ _ _ _ _ _ _ _) as [r|].
  - exists r. split; [reflexivity|]. exact (X r eq_refl).
  - destruct (C49_load_is_defined false hw old beyond false bs HO BO B23 HL (proj1 U eq_refl)) as (pre & b & post & c & E & F & T). destruct (NS pre b post c E F). lia.
Qed.
Print Assumptions C50_bpv7_processing_is_defined.
Example C50_bpv7_processing_is_defined_ex : exists c, canon7_form False c ex7_payload /\ c_type c <> 11 /\ c_type c <> 12 /\
  ex50_run ex50_node ([159] ++ ex7_primary ++ ex7_payload ++ [255]) = Some (Out (mkOut ([159] ++ ex7_primary ++ [134; 6; 2; 16; 2; 69; 130; 2; 130; 10; 0; 68; 16; 201; 19; 215] ++ ex7_payload ++ [255]) (2, 1) false false false false)).
Proof.
  assert (BF : bundle7_form True ex7_old ex7_view ex7_bundle). { apply (bundle_verified (false = false)); [auto|]. apply (load_ok false None ex7_old ex7_beyond); [apply ex50_octets..|vm_compute; reflexivity]. }
  exists (k_c ex7_b1). split; [|split; [discriminate|split; [discriminate|vm_compute; reflexivity]]]. apply (form_verified True); [contradiction|]. destruct (block_of _ _ _ _ BF ex7_b1) as (k & (F & _)); [cbn; auto|exact F].
Qed.

(** A forwarded bundle at the next node. *)
Lemma forwarded_seen j hw old stale nd pad beyond bs o v : j < 256 -> Forall is_octet bs -> Forall is_octet beyond -> (23 <= length beyond)%nat ->
  N.of_nat (length (bs ++ beyond)) < 2 ^ 64 -> (256 <= length pad)%nat -> N.of_nat (length (pad ++ bs)) + 10 < 2 ^ 64 -> node_ok nd -> snd stale < 2 ^ 64 ->
  process7 (scan_any j) hw old stale nd true pad beyond bs = Some (Out o) -> o_admin o = false -> load7 false hw old beyond false bs = Some (Some v) ->
  may_pass stale (w_blocks v) /\ (length (o_bytes o) <= length bs + 256)%nat /\ (exists rest, o_bytes o = 159 :: rest) /\ exists v', sent7 (pass_view nd v) v' /\ w_bytes v' = o_bytes o.
Proof.
  intros J HO BO B23 HL PA PL NO ST E AD EL. destruct (C50_bpv7_processing_is_exact j hw old stale nd pad beyond bs J HO BO B23 HL PA PL NO ST) as (_ & X). pose proof (proj2 (X _ E _) eq_refl) as H. clear X.
  assert (BF : bundle7_form True old v bs) by (apply (bundle_verified (false = false)); [auto|]; apply load_ok in EL; assumption).
  assert (L64 : N.of_nat (length bs) < 2 ^ 64) by (rewrite app_length in HL; lia).
  inversion H as [|w F D|w F D A1 A2|w F D A M|w out F D A M FW]; subst; cbn in AD; try discriminate.
  assert (w = v) as ->. { apply (bundle_verified True (false = false)) in F; [|auto]. apply (load_ok false hw old beyond) in F; try assumption. congruence. }
  split; [exact M|]. destruct (pass_payload True old v bs nd BF) as (front & pl & EB & T & N1 & FT & DI & DE & EP2 & WB2 & rest & ER).
  destruct (in_place_ok j hw (pass_view nd v) _ pl rest pad 256 J (pass_ok True old v bs nd BF HO NO L64) EP2 T N1 DE) as (v' & SE & _); [now rewrite WB2|lia|rewrite WB2; exact PL|].
  destruct (sent_forwarded True old v bs nd BF HO NO L64 v' SE) as (FW' & LN). pose proof (forwarded_det True old v bs nd BF HO NO L64 _ _ FW FW') as ->. cbn [o_bytes]. split; [apply LN; apply M|]. split; [|eauto].
  destruct SE as (_ & _ & _ & _ & _ & _ & ->). eexists. reflexivity.
Qed.
Theorem C50_forwarded_bundle_at_next_node : forall j hw old stale nd pad beyond bs o v, j < 256 -> Forall is_octet bs -> Forall is_octet beyond -> (23 <= length beyond)%nat ->
  N.of_nat (length (bs ++ beyond)) < 2 ^ 64 -> (256 <= length pad)%nat -> N.of_nat (length (pad ++ bs)) + 10 < 2 ^ 64 -> node_ok nd -> snd stale < 2 ^ 64 ->
  process7 (scan_any j) hw old stale nd true pad beyond bs = Some (Out o) -> o_admin o = false -> load7 false hw old beyond false bs = Some (Some v) -> number_clear v ->
  forall skip hw2 old2 beyond2, Forall is_octet beyond2 -> (23 <= length beyond2)%nat -> N.of_nat (length (o_bytes o ++ beyond2)) < 2 ^ 64 ->
  exists v2 new l, load7 skip hw2 old2 beyond2 false (o_bytes o) = Some (Some v2) /\ w_blocks v2 = new ++ l /\ all_arrived old2 (n_id nd) (length new) (w_blocks v) l /\
    (has_previous (w_blocks v) -> new = []) /\
    (~ has_previous (w_blocks v) -> exists b, new = [b] /\ block_type b = 6 /\ new_number (map block_num (w_blocks v)) (block_num b) /\ c_flags (k_c b) = 16 /\ c_crctype (k_c b) = 2 /\
       k_enc b = false /\ k_x b = CExt (PrevNode (eid_meant (n_id nd, 0)))) /\
    w_enc v2 = w_enc v /\
    (q_dest (w_prim v) <> echo_eid nd -> w_prim v2 = w_prim v) /\
    (q_dest (w_prim v) = echo_eid nd -> exists crcs, w_prim v2 = prim7_meant (0, 0) (echoed7 nd (w_prim v)) crcs).
Proof.
  intros j hw old stale nd pad beyond bs o v J HO BO B23 HL PA PL NO ST E AD EL NC skip hw2 old2 beyond2 BO2 B232 HL2.
  destruct (forwarded_seen j hw old stale nd pad beyond bs o v J HO BO B23 HL PA PL NO ST E AD EL) as (M & _ & _ & v' & SE & EQ). rewrite <- EQ in *.
  assert (BF : bundle7_form True old v bs) by (apply (bundle_verified (false = false)); [auto|]; apply load_ok in EL; assumption).
  assert (L64 : N.of_nat (length bs) < 2 ^ 64) by (rewrite app_length in HL; lia).
  pose proof (mask_of True old v bs BF) as MO. pose proof (num_small True old v bs BF) as NS.
  assert (RD : view7_readable (pass_view nd v)). { apply (pass_readable True old v bs nd BF HO NO L64); [exact I|]. destruct NC as [NC|NC]; [now left|]. right. apply NC. now apply new_number_ok. }
  destruct (C49_render_then_load skip hw2 old2 beyond2 _ v' (pass_ok True old v bs nd BF HO NO L64) RD SE BO2 B232 HL2) as (m & LO & MF). pose proof SE as (SP & F2 & _). rewrite (kept_pass True old v bs nd BF HO NO L64) in F2, LO. rewrite (enc_pass True old v bs nd BF) in LO. rewrite LO. apply Forall2_app_inv_l in F2. destruct F2 as (l1 & l2 & F1 & F2 & EW). rewrite EW in *.
  assert (LL : length (new_blocks (n_id nd) v) = length l1) by (clear - F1; induction F1; cbn [length]; congruence). rewrite (blocks_seen_app old2 _ _ _ _ 0 LL). cbn [Nat.add]. eexists _, (blocks_seen old2 0 (new_blocks (n_id nd) v) l1), _. split; [reflexivity|]. cbn [w_blocks w_enc w_prim]. split; [reflexivity|].
  assert (LS : length (blocks_seen old2 0 (new_blocks (n_id nd) v) l1) = length (new_blocks (n_id nd) v)). { clear - LL. revert l1 LL. generalize 0%nat. induction (new_blocks (n_id nd) v) as [|b l IH]; intros i [|b' l1] L; try discriminate; [reflexivity|]. cbn. f_equal. apply IH. now injection L. }
  rewrite LS. split; [apply (seen_all True old v bs nd BF); [apply incl_refl|exact F2]|].
  split; [|split; [|split; [reflexivity|split]]].
  - intros HP. apply has_previous_ok in HP. unfold new_blocks in *. rewrite HP in *. destruct l1; [reflexivity|discriminate].
  - intros HP. assert (E6 : existsb (fun b => block_type b =? 6) (w_blocks v) = false). { destruct (existsb _ _) eqn:X; [|reflexivity]. now apply has_previous_ok in X. }
    unfold new_blocks in *. rewrite E6 in *. inversion F1 as [|? b' ? ? S1 S2 X1 X2]; subst. inversion S2; subst. eexists. split; [reflexivity|].
    unfold sent_block7, fresh7 in S1. cbn [k_dirty k_c k_x k_del k_enc] in S1. destruct S1 as (d & body & crc & crcs & H1 & H2 & H3 & ->). unfold block_seen, fresh7, block_type, block_num. cbn [k_c k_x k_enc k_dirty c_type c_num c_flags c_crctype prev_canon content_sent content_seen ext7_meant]. repeat split; try reflexivity. now apply new_number_ok.
  - intros ND. unfold primary_seen, pass_view. destruct (is_dest _ _) eqn:ED; [now apply is_dest_ok in ED|]. cbn [with_blocks7 w_pdirty w_prim]. replace (w_pdirty v) with false by (symmetry; apply BF). reflexivity.
  - intros ND. unfold primary_seen, pass_view. apply is_dest_ok in ND. rewrite ND. cbn [modify_primary7 w_pdirty w_prim]. eauto.
Qed.
Print Assumptions C50_forwarded_bundle_at_next_node.
Example C50_forwarded_bundle_at_next_node_ex : number_clear ex7_view /\ ~ has_previous (w_blocks ex7_view) /\ exists v2, load7 false None ex7_old ex7_beyond false ex50_sent = Some (Some v2) /\
  map block_type (w_blocks v2) = [6; 10; 12; 7; 1] /\ map block_num (w_blocks v2) = [3; 2; 4; 5; 1] /\ map k_enc (w_blocks v2) = [false; false; false; true; false] /\
  map k_x (firstn 2 (w_blocks v2)) = [CExt (PrevNode (10, 0)); CExt (HopCount 30 6)].
Proof.
  split; [|split].
  - right. intros n [(H1 & H2 & H3)|(H & _)]; [|specialize (H 3); cbn in H; lia]. cbn in *. intros [<-|[]]. lia.
  - intros (b & I & T). cbn in I. repeat (destruct I as [<-|I]; [discriminate|]). destruct I.
  - eexists. split; [vm_compute; reflexivity|]. repeat split; reflexivity.
Qed.

(** What comes back from storage or from the router is not touched: BPv7. Block checksums are not looked at. *)
Theorem C50_bpv7_from_storage_is_unchanged : forall scan hw old stale nd pad beyond bs, Forall is_octet bs -> Forall is_octet beyond -> (23 <= length beyond)%nat ->
  N.of_nat (length (bs ++ beyond)) < 2 ^ 64 ->
  let run := process7 scan hw old stale nd false pad beyond bs in
  (run = None <-> load7 true hw old beyond false bs = None) /\
  (forall r, run = Some r -> (forall v, bundle7_form False old v bs -> r = Out (mkOut bs (q_dest (w_prim v)) false false false false)) /\
     ((forall v, ~ bundle7_form False old v bs) -> r = Refused)).
Proof.
  intros scan hw old stale nd pad beyond bs HO BO B23 HL. cbv zeta. unfold process7. cbn [negb].
  assert (U : forall w, bundle7_form False old w bs <-> load7 true hw old beyond false bs = Some (Some w)).
  { intros w. rewrite (load_ok true hw old beyond bs w HO BO B23 HL). split; apply bundle_verified; [discriminate|contradiction]. }
  destruct (load7 true hw old beyond false bs) as [[v|]|] eqn:E.
  - split; [split; discriminate|]. intros r [= <-]. assert (BF : bundle7_form False old v bs) by now apply U. split; [|intros N; now elim (N v)].
    intros w F. apply U in F. injection F as <-. replace (w_bytes v) with bs by (symmetry; apply BF). reflexivity.
  - split; [split; discriminate|]. intros r [= <-]. split; [|reflexivity]. intros v F. apply U in F. discriminate.
  - split; [now split|discriminate].
Qed.
Print Assumptions C50_bpv7_from_storage_is_unchanged.
Example C50_bpv7_from_storage_is_unchanged_ex :
  process7 (scan_any 0) None ex7_old (0, 0) ex50_node false [] ex7_beyond ex7_bundle = Some (Out (mkOut ex7_bundle (2, 1) false false false false)) /\
  process7 (scan_any 0) None ex7_old (0, 0) ex50_node false [] ex7_beyond (ex7_bundle ++ [0]) = Some Refused.
Proof. split; vm_compute; reflexivity. Qed.

(** The way of a bundle through any number of nodes, which may store it and take it back. *)
Inductive journey : nat -> list N -> list N -> Prop :=
| JEnd bs : journey 0 bs bs
| JHop j hw old stale last nd pad mem junk beyond bs o k bs' : j < 256 -> Forall is_octet beyond -> (23 <= length beyond)%nat -> N.of_nat (length (bs ++ beyond)) < 2 ^ 64 ->
    (256 <= length pad)%nat -> N.of_nat (length (pad ++ bs)) + 32 < 2 ^ 64 -> node_ok nd -> snd stale < 2 ^ 64 ->
    process (scan_any j) hw old stale last nd true pad mem junk beyond bs = Some (Out o) -> o_admin o = false -> journey k (o_bytes o) bs' -> journey (S k) bs bs'
| JStored scan hw old stale last nd pad mem junk beyond bs o k bs' : Forall is_octet beyond -> (23 <= length beyond)%nat -> N.of_nat (length (bs ++ beyond)) < 2 ^ 64 ->
    process scan hw old stale last nd false pad mem junk beyond bs = Some (Out o) -> journey k (o_bytes o) bs' -> journey k bs bs'.
(** The BPv7 bundle bs, if it is well-formed, has a readable hop count block with this limit and count. *)
Definition carries (limit count : N) (bs : list N) : Prop :=
  exists rest, bs = 159 :: rest /\ forall old v, bundle7_form True old v bs ->
    exists b, In b (w_blocks v) /\ block_type b = 10 /\ k_enc b = false /\ k_x b = CExt (HopCount limit count).
Lemma arrived_in old id : forall l l2 i, all_arrived old id i l l2 -> forall b, In b l -> exists k b2, In b2 l2 /\ arrived (old k) id b b2.
Proof.
  induction l as [|x l IH]; intros [|y l2] i A b I; cbn in A; try contradiction. destruct A as (A1 & A2). destruct I as [<-|I]; [exists i, y; cbn; auto|]. destruct (IH _ _ A2 b I) as (k & b2 & I2 & X). exists k, b2. split; [now right|exact X].
Qed.
(** Every hop counts: after k nodes the count has grown by k, and the bundle has gone no further than its limit and 255 allow. *)
Theorem C50_hop_counts_add_up : forall k bs bs', journey k bs bs' -> forall limit count, Forall is_octet bs -> carries limit count bs ->
  (forall old v, bundle7_form True old v bs -> number_clear v) -> count < 2 ^ 64 - 1 ->
  carries limit (count + N.of_nat k) bs' /\ (forall old v, bundle7_form True old v bs' -> number_clear v) /\
  (k <> 0%nat -> count + N.of_nat k <= limit /\ count + N.of_nat k <= 255).
Proof.
  induction 1 as [bs|j hw old stale last nd pad mem junk beyond bs o k bs' J BO B23 HL PA PL NO ST E AD JR IH|scan hw old stale last nd pad mem junk beyond bs o k bs' BO B23 HL E JR IH]; intros limit count HO CA NC CS.
  - rewrite N.add_0_r. split; [exact CA|]. split; [exact NC|]. intros X. now elim X.
  - destruct CA as (rest & EB & CA). unfold process in E. destruct (N.ltb _ _); [discriminate|]. rewrite EB in E. cbn [app] in E. change (159 =? 6) with false in E. change (159 =? 159) with true in E. cbn iota in E. rewrite <- EB in E.
    destruct (C50_bpv7_processing_is_exact j hw old stale nd pad beyond bs J HO BO B23 HL PA ltac:(lia) NO ST) as (_ & X). pose proof (proj2 (X _ E _) eq_refl) as H. clear X.
    inversion H as [|w F D|w F D A1 A2|w F D A M|v out F D A M FW EO]; subst o; cbn in AD; try discriminate.
    assert (EL : load7 false hw old beyond false bs = Some (Some v)) by (apply load_ok; try assumption; apply (bundle_verified True); auto).
    destruct (forwarded_seen j hw old stale nd pad beyond bs _ v J HO BO B23 HL PA ltac:(lia) NO ST E AD EL) as (_ & LN & (rest' & ER) & _). cbn [o_bytes] in *.
    destruct (CA old v F) as (b & I1 & T & EN & CX). assert (HA : hop_allowed (limit, count)). { destruct M as (_ & _ & M). specialize (M b I1 T). unfold hop_pair in M. now rewrite EN, CX in M. }
    assert (CB : count < limit /\ count < 255) by (destruct HA as [HA|HA]; cbn [fst snd] in HA; lia).
    assert (HO2 : Forall is_octet out). { destruct (forwarded_seen j hw old stale nd pad beyond bs _ v J HO BO B23 HL PA ltac:(lia) NO ST E AD EL) as (_ & _ & _ & v' & SE & EQ). cbn [o_bytes] in EQ. rewrite <- EQ.
        assert (L64 : N.of_nat (length bs) < 2 ^ 64) by (rewrite app_length in HL; lia).
        assert (RD : view7_readable (pass_view nd v)). { apply (pass_readable True old v bs nd F HO NO L64); [exact I|]. destruct (NC old v F) as [N|N]; [now left|]. right. apply N. apply new_number_ok; [exact (mask_of True old v bs F)|exact (num_small True old v bs F)|reflexivity]. }
        destruct (seen_form false old _ v' (pass_ok True old v bs nd F HO NO L64) RD SE) as (m & _ & HOV & _). exact HOV. }
    assert (SEEN : forall old2 v2, bundle7_form True old2 v2 out -> has_previous (w_blocks v2) /\ exists b2, In b2 (w_blocks v2) /\ block_type b2 = 10 /\ k_enc b2 = false /\ k_x b2 = CExt (HopCount limit (count + 1))).
    { intros old2 v2 F2. 
      assert (L2 : N.of_nat (length (out ++ repeat 0 23)) < 2 ^ 64) by (rewrite !app_length, repeat_length in *; lia).
      assert (R23 : Forall is_octet (repeat 0 23)) by (repeat constructor).
      destruct (C50_forwarded_bundle_at_next_node j hw old stale nd pad beyond bs _ v J HO BO B23 HL PA ltac:(lia) NO ST E AD EL (NC old v F) false None old2 (repeat 0 23) R23 ltac:(rewrite repeat_length; lia) L2) as (v3 & new & l & LO & EW & AA & N1 & N2 & _).
      cbn [o_bytes] in LO. apply (bundle_verified True (false = false)) in F2; [|auto]. apply (load_ok false None old2 (repeat 0 23)) in F2; try assumption; [|rewrite repeat_length; lia]. assert (v3 = v2) as -> by congruence. rewrite EW.
      split.
      - assert (DP : has_previous (w_blocks v) \/ ~ has_previous (w_blocks v)) by (rewrite has_previous_ok; destruct (existsb _ _); auto). destruct DP as [DP|DP].
        + destruct DP as (c & IC & TC). destruct (arrived_in _ _ _ _ _ AA c IC) as (m & c2 & IC2 & (TY & _)). exists c2. split; [apply in_app_iff; now right|congruence].
        + destruct (N2 DP) as (c & -> & TC & _). exists c. split; [now left|exact TC].
      - destruct (arrived_in _ _ _ _ _ AA b I1) as (m & b2 & IB2 & (TY & NU & FL & CT & EN2 & X)). rewrite T in X. cbn [N.eqb orb Pos.eqb] in X. rewrite EN, CX in X. exists b2. split; [apply in_app_iff; now right|]. split; [congruence|]. split; [congruence|]. rewrite X. unfold next_count. destruct (N.eqb_spec count (2 ^ 64 - 1)); [lia|reflexivity]. }
    destruct (IH limit (count + 1) HO2) as (R1 & R2 & R3).
    + exists rest'. split; [exact ER|]. intros old2 v2 F2. apply (SEEN old2 v2 F2).
    + intros old2 v2 F2. left. apply (SEEN old2 v2 F2).
    + lia.
    + replace (count + N.of_nat (S k)) with (count + 1 + N.of_nat k) by lia. split; [exact R1|]. split; [exact R2|]. intros _. destruct k; [lia|]. apply R3. discriminate.
  - destruct CA as (rest & EB & CA). unfold process in E. destruct (N.ltb _ _); [discriminate|]. rewrite EB in E. cbn [app] in E. change (159 =? 6) with false in E. change (159 =? 159) with true in E. cbn iota in E. rewrite <- EB in E.
    assert (o_bytes o = bs) as EO. { unfold process7 in E. cbn [negb] in E. destruct (load7 true hw old beyond false bs) as [[v|]|] eqn:EL; try discriminate. injection E as <-. cbn [o_bytes]. apply load_ok in EL; try assumption. apply EL. }
    rewrite EO in *. apply (IH limit count HO); [|exact NC|exact CS]. exists rest. auto.
Qed.
Print Assumptions C50_hop_counts_add_up.
Example C50_hop_counts_add_up_ex : exists bs', journey 2 ex7_bundle bs' /\ carries 30 7 bs' /\ carries 30 5 ex7_bundle.
Proof.
  set (nd2 := mkNode 11 0 2047 100 1000 2).
  assert (J : forall k bs o bs' nd, node_ok nd -> Forall is_octet bs -> (length bs < 1000)%nat -> process (scan_any 0) None ex7_old (0, 0) false nd true ex50_pad [] [] ex7_beyond bs = Some (Out o) -> o_admin o = false -> journey k (o_bytes o) bs' -> journey (S k) bs bs').
  { intros k bs o bs' nd NO HO L E A R. eapply (JHop 0 None ex7_old (0, 0) false nd ex50_pad [] [] ex7_beyond); try eassumption; try reflexivity; try apply ex50_octets; rewrite ?app_length; change (length ex7_beyond) with 32%nat; change (length ex50_pad) with 256%nat; try lia. }
  assert (CA : carries 30 5 ex7_bundle).
  { eexists. split; [reflexivity|]. intros old v F. exists ex7_b2. enough (E : nth 0 (w_blocks v) ex7_b1 = ex7_b2 /\ (1 <= length (w_blocks v))%nat). { destruct E as (E & L). split; [|repeat split]. rewrite <- E. now apply nth_In. }
    apply (bundle_verified True (false = false)) in F; [|auto]. apply (load_ok false None old ex7_beyond) in F; [|apply ex50_octets..]. vm_compute in F. injection F as <-. split; [reflexivity|cbn; lia]. }
  assert (JJ : exists bs', journey 2 ex7_bundle bs').
  { eexists. eapply (J 1%nat _ _ _ ex50_node); [octets|vm_compute; octets|apply Nat.ltb_lt; reflexivity|vm_compute; reflexivity|reflexivity|]. eapply (J 0%nat _ _ _ nd2); [octets|vm_compute; octets|apply Nat.ltb_lt; reflexivity|vm_compute; reflexivity|reflexivity|]. constructor. }
  destruct JJ as (bs' & JJ). exists bs'. split; [exact JJ|]. split; [|exact CA].
  apply (C50_hop_counts_add_up 2 _ _ JJ 30 5); [apply ex50_octets|exact CA| |reflexivity].
  intros old v F. right. apply (bundle_verified True (false = false)) in F; [|auto]. apply (load_ok false None old ex7_beyond) in F; [|apply ex50_octets..]. vm_compute in F. injection F as <-.
  intros n [(H1 & H2 & H3)|(H & _)]; [|specialize (H 3); cbn in H; lia]. cbn in *. intros [<-|[]]. lia.
Qed.

(** BPv6. *)
Lemma has_bits f a b : a <> b -> has_all f (N.setbit (N.setbit 0 a) b) = N.testbit f a && N.testbit f b.
Proof.
  intros AB. unfold has_all. apply eq_iff_eq_true. rewrite N.eqb_eq, andb_true_iff. split.
  - intros E. split; [apply (f_equal (fun n => N.testbit n a)) in E|apply (f_equal (fun n => N.testbit n b)) in E]; cbn beta in E; rewrite N.land_spec, !N.setbit_eqb, N.bits_0, ?N.eqb_refl, ?orb_true_r in E; cbn [orb] in E; now rewrite ?andb_true_r in E.
  - intros (A & B). apply N.bits_inj. intros k. rewrite N.land_spec, !N.setbit_eqb, N.bits_0. destruct (N.eqb_spec b k) as [<-|]; [now rewrite B|]. destruct (N.eqb_spec a k) as [<-|]; [now rewrite A|]. apply andb_false_r.
Qed.
Lemma custody_bits f : has_all f (16 + 8) = custody6 f.
Proof. unfold custody6. change (16 + 8) with (N.setbit (N.setbit 0 4) 3). now apply has_bits. Qed.
Lemma admin_bits f : has_all f (16 + 2) = admin6 f.
Proof. unfold admin6. change (16 + 2) with (N.setbit (N.setbit 0 4) 1). now apply has_bits. Qed.
Lemma nofrag_bit f : (N.land f 4 =? 0) = negb (N.testbit f 2).
Proof.
  apply eq_iff_eq_true. rewrite N.eqb_eq, negb_true_iff. change 4 with (2 ^ 2). split.
  - intros E. apply (f_equal (fun n => N.testbit n 2)) in E. cbn beta in E. now rewrite N.land_spec, N.pow2_bits_true, N.bits_0, andb_true_r in E.
  - intros E. apply N.bits_inj. intros k. rewrite N.land_spec, N.pow2_bits_eqb, N.bits_0. destruct (N.eqb_spec 2 k) as [<-|]; [now rewrite E|apply andb_false_r].
Qed.
Lemma payload_length_ok v n : payload_length (v_blocks v) n <-> match payload_size v with Some m => m | None => 0 end = n.
Proof.
  destruct (C39_payload_size_is_exact v) as (_ & K & _). unfold payload_length. destruct (payload_size v) as [m|] eqn:E.
  - pose proof (proj1 (K m) eq_refl) as X. split; [|intros <-; left; exact X]. intros [X2|(_ & X2)].
    + apply K in X2. congruence.
    + elim X2. destruct X as (l1 & c & l2 & A & B & C & D). eauto 10.
  - assert (N0 : ~ exists l1 c l2, v_blocks v = l1 ++ c :: l2 /\ k_type (c_blk c) = 1 /\ Forall (fun d => k_type (c_blk d) <> 1) (l1 ++ l2)). { intros (l1 & c & l2 & A & B & D). enough (X : None = Some (k_len (c_blk c))) by discriminate. apply K. exists l1, c, l2. auto. }
    split; [|intros <-; right; auto]. intros [X|(-> & _)]; [|reflexivity]. apply K in X. discriminate.
Qed.
Definition cut_flag (nd : node) (v : M_BundleV6.view) : bool :=
  negb (n_fragment nd =? 0) && negb (negb (N.land (p_flags (v_prim v)) 4 =? 0)) && (n_fragment nd <? match payload_size v with Some n => n | None => 0 end).
Lemma cut_flag_ok nd v b : cut6 nd v b <-> cut_flag nd v = b.
Proof.
  assert (X : cut_flag nd v = true <-> n_fragment nd <> 0 /\ N.testbit (p_flags (v_prim v)) 2 = false /\ n_fragment nd < match payload_size v with Some n => n | None => 0 end).
  { unfold cut_flag. rewrite nofrag_bit, negb_involutive, !andb_true_iff, !negb_true_iff, N.eqb_neq, N.ltb_lt. tauto. }
  unfold cut6. split.
  - intros (n & P & E). apply payload_length_ok in P. subst n. apply eq_iff_eq_true. now rewrite X, E.
  - intros <-. eexists. split; [now apply payload_length_ok|exact X].
Qed.
Lemma sdnvs_small vs bs : sdnvs vs bs -> Forall (fun v => v < W64) vs.
Proof. induction 1 as [|v sd vs bs (_ & _ & _ & S) H IH]; constructor; assumption. Qed.
Lemma wire_prim_ok p bs : wire_primary p bs -> S_Bpv6.prim_ok p.
Proof.
  intros (sd & fr & _ & S & F). apply sdnvs_small in S. repeat match goal with H : Forall _ (_ :: _) |- _ => inversion H; clear H; subst end. unfold S_Bpv6.prim_ok. destruct (fragment_flag (p_flags p)).
  - apply sdnvs_small in F. repeat match goal with H : Forall _ (_ :: _) |- _ => inversion H; clear H; subst end. split; [repeat constructor; assumption|discriminate].
  - destruct F as (_ & -> & ->). split; [repeat constructor; assumption|auto].
Qed.
Lemma echoed_prim_ok nd p n : node_ok nd -> S_Bpv6.prim_ok p -> S_Bpv6.prim_ok (echoed6 nd p n).
Proof.
  intros NO (A & B). repeat match goal with H : Forall _ (_ :: _) |- _ => inversion H; clear H; subst end. unfold node_ok in NO. repeat match goal with H : Forall _ (_ :: _) |- _ => inversion H; clear H; subst end.
  split; [|exact B]. cbn. repeat constructor; assumption.
Qed.
Lemma shortest_all_same vs : forall a b, shortest_all vs a -> shortest_all vs b -> a = b.
Proof.
  induction vs as [|v vs IH]; intros a b A B; inversion A; inversion B; subst; [reflexivity|]. f_equal; [eapply L_Acs.shortest_same; eassumption|now apply IH].
Qed.
Lemma written_same nd p n m a b : written_primary (echoed6 nd p n) a -> written_primary (echoed6 nd p m) b -> a = b /\ n = m.
Proof.
  intros (f & l & sd & fr & -> & F & -> & L & _ & S & R) (f' & l' & sd' & fr' & -> & F' & -> & L' & _ & S' & R'). cbn [echoed6 p_flags p_len p_dest p_src p_report p_cust p_time p_seq p_life p_off p_total] in *.
  pose proof (L_Acs.shortest_same _ _ _ F F') as ->. pose proof (shortest_all_same _ _ _ S S') as ->. pose proof (shortest_all_same _ _ _ R R') as ->. assert (n = m) as -> by congruence. auto.
Qed.
(** What is done with a BPv6 bundle from outside, in full. A bundle for the echo service goes back to its source with the
    source field set to the echo service, all blocks as they came; the condition is that their flags take one byte. *)
Theorem C50_bpv6_processing_is_exact : forall last nd mem junk bs, Forall is_byte bs -> node_ok nd -> (length bs + 532 <= length mem)%nat ->
  (forall v, wire_bundle v bs -> p_dest (v_prim v) = echo_eid nd -> Forall (fun c => one_byte_flags (c_actual c)) (v_blocks v)) ->
  let run := process6 nd true last mem junk bs in
  (run = None <-> primary_runs_away bs) /\ (forall r, run = Some r -> forall r', handled6 last nd bs r' <-> r' = r).
Proof.
  intros last nd mem junk bs HB NO LM OB. cbv zeta. unfold process6. pose proof (C39_load_undefined_iff last bs HB) as UD. destruct (load last false bs) as [[v|]|] eqn:E.
  - assert (NU : ~ primary_runs_away bs) by (intros X; apply UD in X; discriminate). pose proof E as WB. apply C39_load_is_exact in WB; [|exact HB]. destruct WB as (WB & BD). cbn [negb].
    assert (U : forall w, wire_bundle w bs -> bundle_data last w -> w = v). { intros w A B. assert (X : load last false bs = Some (Some w)) by (apply C39_load_is_exact; auto). congruence. }
    rewrite custody_bits, admin_bits, has_none. cbn [andb]. fold (cut_flag nd v). change eid_eqb with is_dest. change (n_id nd, 1) with (ping_eid nd). change (n_id nd, n_custody nd) with (custody_eid nd). change (n_id nd, n_router nd) with (router_eid nd). change (n_id nd, n_echo nd) with (echo_eid nd).
    destruct (is_dest (p_dest (v_prim v)) (echo_eid nd)) eqn:EE.
    + apply is_dest_ok in EE. specialize (OB v WB EE). destruct (loaded_ok v bs WB HB OB) as ((VP & VS) & _ & KE & NE). pose proof WB as (pb & cb & EB & WP & PA & PD & WBB & VB).
      set (p1 := redirect6 (v_prim v) (p_src (v_prim v)) (echo_eid nd)). assert (P1 : p1 = echoed6 nd (v_prim v) (p_len (v_prim v))) by reflexivity.
      assert (OK : view_ok (modify_primary p1 v)) by (split; [exact (echoed_prim_ok nd _ _ NO (wire_prim_ok _ _ WP))|exact VS]).
      assert (DF : primary_fits (modify_primary p1 v) \/ ~ primary_fits (modify_primary p1 v)). { destruct OK as (PR & SD). destruct (primary_ok (modify_primary p1 v) PR) as [(PF & _)|(PF & _)]; auto. }
      destruct DF as [PF|PF].
      * destruct (C39_render_is_exact _ OK PF) as (v' & (D' & SP & SB & VB') & _ & _ & RE). unfold sent_primary in SP. cbn [modify_primary v_pdirty v_prim] in SP. destruct SP as (SP & WR). cbn [modify_primary v_blocks] in SB. rewrite KE in SB. apply (sent_id _ _ WBB OB) in SB.
        assert (EP : v_prim v' = echoed6 nd (v_prim v) (p_len (v_prim v'))) by exact SP. rewrite EP in WR. rewrite SB in VB'. fold (actuals (v_blocks v)) in VB'. rewrite (wire_actuals _ _ WBB) in VB'.
        assert (LP : (length (v_pactual v') <= 139)%nat). { destruct WR as (f & l & sd & fr & -> & F & -> & L & L1 & _ & _). cbn [length]. rewrite app_length. cbn [length]. rewrite app_length. rewrite L in L1. assert (FS : (length f <= 10)%nat). { apply (shortest_bound (p_flags (echoed6 nd (v_prim v) (p_len (v_prim v'))))); [|exact F]. destruct (wire_prim_ok _ _ WP) as (A & _). now inversion A. } lia. }
        rewrite RE. 2: lia. 2: lia. 2: { rewrite VB', app_length. rewrite EB, app_length in LM. lia. }
        cbn iota beta. split; [split; [discriminate|contradiction]|]. intros r [= <-] r'. split.
        -- intros H. inversion H as [N|w W D X1 X2|w cut W D p X1 X2 X3|w n pr cut W D p X1 X2 X3|w W D X1 X2]; subst.
           ++ now elim (N v).
           ++ pose proof (U w W D) as ->. contradiction.
           ++ subst p. pose proof (U w W D) as ->. contradiction.
           ++ subst p. pose proof (U w W D) as ->. apply cut_flag_ok in X3. rewrite X3. destruct (written_same _ _ _ _ _ _ X2 WR) as (-> & _). rewrite VB'. fold (actuals (v_blocks v)). now rewrite (wire_actuals _ _ WBB).
           ++ pose proof (U w W D) as ->. now elim (X2 _ _ WR).
        -- intros ->. rewrite VB', <- (wire_actuals _ _ WBB). apply (H6Echo last nd _ v (p_len (v_prim v'))); auto. now apply cut_flag_ok.
      * destruct (C39_render_refuses_long_primary _ OK PF) as (_ & RE). rewrite RE by lia. cbn iota. assert (NW : forall n pr, ~ written_primary (echoed6 nd (v_prim v) n) pr). { intros n pr W. apply PF. intros _. exists n, pr. exact W. }
        split; [split; [discriminate|contradiction]|]. intros r [= <-] r'. split.
        -- intros H. inversion H as [N|w W D X1 X2|w cut W D p X1 X2 X3|w n pr cut W D p X1 X2 X3|w W D X1 X2]; subst; try reflexivity.
           ++ pose proof (U w W D) as ->. contradiction.
           ++ subst p. pose proof (U w W D) as ->. contradiction.
           ++ subst p. pose proof (U w W D) as ->. now elim (NW n pr).
        -- intros ->. now apply (H6TooLong last nd _ v).
    + assert (NEC : p_dest (v_prim v) <> echo_eid nd) by (intros X; apply is_dest_ok in X; congruence). destruct (is_dest (p_dest (v_prim v)) (ping_eid nd)) eqn:EP.
      * apply is_dest_ok in EP. split; [split; [discriminate|contradiction]|]. intros r [= <-] r'. split.
        -- intros H. inversion H as [N|w W D X1 X2|w cut W D p X1 X2 X3|w n pr cut W D p X1 X2 X3|w W D X1 X2]; subst; try reflexivity.
           ++ now elim (N v).
           ++ subst p. pose proof (U w W D) as ->. contradiction.
           ++ subst p. pose proof (U w W D) as ->. contradiction.
           ++ pose proof (U w W D) as ->. contradiction.
        -- intros ->. now apply (H6Ping last nd _ v).
      * assert (NPI : p_dest (v_prim v) <> ping_eid nd) by (intros X; apply is_dest_ok in X; congruence). split; [split; [discriminate|contradiction]|]. intros r [= <-] r'. split.
        -- intros H. inversion H as [N|w W D X1 X2|w cut W D p X1 X2 X3|w n pr cut W D p X1 X2 X3|w W D X1 X2]; subst; try reflexivity.
           ++ now elim (N v).
           ++ pose proof (U w W D) as ->. contradiction.
           ++ subst p. pose proof (U w W D) as ->. apply cut_flag_ok in X3. now rewrite X3.
           ++ subst p. pose proof (U w W D) as ->. contradiction.
           ++ pose proof (U w W D) as ->. contradiction.
        -- intros ->. apply (H6Forward last nd bs v); auto. now apply cut_flag_ok.
  - assert (NU : ~ primary_runs_away bs) by (intros X; apply UD in X; discriminate). split; [split; [discriminate|contradiction]|]. intros r [= <-] r'.
    assert (N : forall v, ~ (wire_bundle v bs /\ bundle_data last v)) by (intros v X; apply C39_load_is_exact in X; [congruence|exact HB]).
    split; [|intros ->; now apply H6Malformed]. intros H. inversion H; subst; try reflexivity; match goal with W : wire_bundle ?v bs, D : bundle_data last ?v |- _ => elim (N v); auto end.
  - split; [split; [intros _; now apply UD|reflexivity]|discriminate].
Qed.
Print Assumptions C50_bpv6_processing_is_exact.
Example C50_bpv6_processing_is_exact_ex :
  process6 ex50_node true false (repeat 0 1000) [] ex_bundle = Some (Out (mkOut ex_bundle (1, 2) false false false true)) /\
  process6 (mkNode 1 0 2 100 1000 0) true false (repeat 0 1000) [] ex_bundle =
    Some (Out (mkOut ([6; 144; 16; 13; 3; 4; 1; 2; 0; 0; 0; 0; 129; 0; 1; 60; 0] ++ skipn 17 ex_bundle) (3, 4) false false false false)) /\
  (exists v, wire_bundle v ex_bundle /\ Forall (fun c => one_byte_flags (c_actual c)) (v_blocks v)) /\
  process6 ex50_node true false (repeat 0 1000) [] ex_primary = Some Refused.
Proof.
  split; [vm_compute; reflexivity|]. split; [vm_compute; reflexivity|]. split; [|vm_compute; reflexivity]. exists ex_view. split.
  - apply (C39_load_is_exact false); [octets|vm_compute; reflexivity].
  - repeat constructor; unfold one_byte_flags; cbn; eexists _, _, _; (split; [reflexivity|lia]).
Qed.
(** What comes back from storage or from the router is not touched: BPv6. *)
Theorem C50_bpv6_from_storage_is_unchanged : forall last nd mem junk bs, Forall is_byte bs ->
  let run := process6 nd false last mem junk bs in
  (run = None <-> primary_runs_away bs) /\
  (forall r, run = Some r -> (forall v, wire_bundle v bs -> bundle_data last v -> r = Out (mkOut bs (p_dest (v_prim v)) false false false false)) /\
     ((forall v, ~ (wire_bundle v bs /\ bundle_data last v)) -> r = Refused)).
Proof.
  intros last nd mem junk bs HB. cbv zeta. unfold process6. pose proof (C39_load_undefined_iff last bs HB) as UD. pose proof (fun v => C39_load_is_exact last bs v HB) as U. destruct (load last false bs) as [[v|]|] eqn:E.
  - cbn [negb]. assert (NU : ~ primary_runs_away bs) by (intros X; apply UD in X; discriminate). split; [split; [discriminate|contradiction]|]. rewrite andb_false_r. cbn [andb]. intros r [= <-]. split; [|intros N; elim (N v); now apply U].
    intros w W D. assert (X : Some (Some v) = Some (Some w)) by (apply U; auto). now injection X as <-.
  - assert (NU : ~ primary_runs_away bs) by (intros X; apply UD in X; discriminate). split; [split; [discriminate|contradiction]|]. intros r [= <-]. split; [|reflexivity]. intros w W D. assert (X : Some None = Some (Some w)) by (apply U; auto). discriminate.
  - split; [split; [intros _; now apply UD|reflexivity]|discriminate].
Qed.
Print Assumptions C50_bpv6_from_storage_is_unchanged.
Example C50_bpv6_from_storage_is_unchanged_ex :
  process6 (mkNode 1 0 2 100 1000 0) false false [] [] ex_bundle = Some (Out (mkOut ex_bundle (1, 2) false false false false)) /\
  process6 ex50_node false false [] [] (6 :: repeat 255 32) = None.
Proof. split; vm_compute; reflexivity. Qed.

(** The size limit comes first; then the first byte tells the version; nothing else is accepted. *)
Theorem C50_version_and_size_are_checked : forall scan hw old stale last nd np pad mem junk beyond bs,
  let run := process scan hw old stale last nd np pad mem junk beyond bs in
  (n_max nd < N.of_nat (length bs) -> run = Some Refused) /\
  (N.of_nat (length bs) <= n_max nd ->
     (forall t, bs = 6 :: t -> run = process6 nd np last mem junk bs) /\ (forall t, bs = 159 :: t -> run = process7 scan hw old stale nd np pad beyond bs) /\
     (forall h t, bs = h :: t -> h <> 6 -> h <> 159 -> run = Some Refused) /\ (bs = [] -> beyond <> [] -> run = Some Refused)).
Proof.
  intros scan hw old stale last nd np pad mem junk beyond bs. cbv zeta. unfold process. destruct (N.ltb_spec (n_max nd) (N.of_nat (length bs))) as [L|L]; (split; [intros X; try reflexivity; lia|intros X]); [lia|].
  split; [intros t ->; reflexivity|]. split; [intros t ->; reflexivity|]. split; [intros h t -> A B; cbn [app]; apply N.eqb_neq in A, B; now rewrite A, B|].
  intros -> NB. destruct beyond as [|h t]; [now elim NB|]. cbn [app]. destruct (h =? 6); [reflexivity|]. destruct (h =? 159); reflexivity.
Qed.
Print Assumptions C50_version_and_size_are_checked.
Example C50_version_and_size_are_checked_ex :
  process (scan_any 0) None ex7_old (0, 0) false (mkNode 10 0 2047 100 20 0) true (repeat 0 256) (repeat 0 900) [] ex7_beyond ex7_bundle = Some Refused /\
  process (scan_any 0) None ex7_old (0, 0) false (mkNode 10 0 2047 100 900 0) true (repeat 0 256) (repeat 0 900) [] ex7_beyond [7; 1] = Some Refused.
Proof. split; vm_compute; reflexivity. Qed.

(** ** What does not hold *)
(** The hop limit: a count of 2^64 - 1 is above every limit, but adding one makes it 0, which passes. *)
Definition ex50_wrap : list N := [133; 10; 2; 0; 0; 76; 130; 24; 30; 27; 255; 255; 255; 255; 255; 255; 255; 255].
Theorem C50_hop_limit_is_always_enforced_refuted : exists bs o v b b2 v2,
  load7 false None ex7_old ex7_beyond false bs = Some (Some v) /\ In b (w_blocks v) /\ k_x b = CExt (HopCount 30 (2 ^ 64 - 1)) /\ k_enc b = false /\
  ex50_run ex50_node bs = Some (Out o) /\ load7 false None ex7_old ex7_beyond false (o_bytes o) = Some (Some v2) /\ In b2 (w_blocks v2) /\ k_x b2 = CExt (HopCount 30 0).
Proof.
  exists ([159] ++ ex7_primary ++ ex50_wrap ++ ex50_rest). eexists _, _, _, _, _. split; [vm_compute; reflexivity|]. split; [left; reflexivity|]. split; [reflexivity|]. split; [reflexivity|].
  split; [vm_compute; reflexivity|]. split; [vm_compute; reflexivity|]. split; [right; left; reflexivity|reflexivity].
Qed.
Print Assumptions C50_hop_limit_is_always_enforced_refuted.
(** A hop count block that a confidentiality block says is encrypted: whether the bundle passes depends on what was in memory. *)
Definition ex50_hidden : list N := [159] ++ ex7_primary ++ [133; 12; 4; 0; 0; 79; 129; 2; 2; 0; 130; 2; 130; 5; 7; 129; 129; 130; 1; 65; 170] ++ [133; 10; 2; 0; 0; 67; 1; 2; 3] ++ ex7_payload ++ [255].
Theorem C50_outcome_is_determined_refuted : exists bs stale stale' o,
  process7 (scan_any 0) None ex7_old stale ex50_node true ex50_pad ex7_beyond bs = Some (Out o) /\
  process7 (scan_any 0) None ex7_old stale' ex50_node true ex50_pad ex7_beyond bs = Some Refused.
Proof. exists ex50_hidden, (30, 5), (0, 0). eexists. split; vm_compute; reflexivity. Qed.
Print Assumptions C50_outcome_is_determined_refuted.
(** A confidentiality block may name a block that does not exist. The new previous node block can get that number: the next node
    takes it for encrypted. *)
Definition ex50_dangling : list N := [159] ++ ex7_primary ++ [133; 12; 2; 0; 0; 79; 129; 3; 2; 0; 130; 2; 130; 5; 7; 129; 129; 130; 1; 65; 170] ++ ex7_payload ++ [255].
Theorem C50_previous_node_is_always_readable_refuted : exists bs o v2 b,
  ex50_run ex50_node bs = Some (Out o) /\ load7 false None ex7_old ex7_beyond false (o_bytes o) = Some (Some v2) /\ In b (w_blocks v2) /\ block_type b = 6 /\ k_enc b = true.
Proof. exists ex50_dangling. eexists _, _, _. split; [vm_compute; reflexivity|]. split; [vm_compute; reflexivity|]. split; [left; reflexivity|]. split; reflexivity. Qed.
Print Assumptions C50_previous_node_is_always_readable_refuted.
(** A bundle whose source and destination both are the echo service comes out as it went in, addressed to the echo service. *)
Theorem C50_echo_ends_refuted : exists bs,
  process6 (mkNode 3 0 4 100 1000 0) true false (repeat 0 1000) [] bs = Some (Out (mkOut bs (3, 4) false false false false)) /\ bs <> [] /\
  exists bs7, ex50_run ex50_node bs7 = Some (Out (mkOut bs7 (echo_eid ex50_node) false false false false)).
Proof.
  exists ([6; 144; 16; 13; 3; 4; 3; 4; 0; 0; 0; 0; 129; 0; 1; 60; 0] ++ skipn 17 ex_bundle). split; [vm_compute; reflexivity|]. split; [discriminate|].
  exists ([159] ++ [136; 7; 4; 0; 130; 2; 130; 10; 25; 7; 255; 130; 2; 130; 10; 25; 7; 255; 130; 1; 0; 130; 25; 3; 232; 5; 26; 5; 38; 92; 0] ++ ex50_new ++ ex7_payload ++ [255]). vm_compute. reflexivity.
Qed.
Print Assumptions C50_echo_ends_refuted.
(** A BPv6 bundle for the echo service with block flags in two bytes is sent back as something no receiver takes. *)
Theorem C50_bpv6_echo_is_always_sound_refuted : exists bs o v, load false false bs = Some (Some v) /\
  process6 (mkNode 1 0 2 100 1000 0) true false (repeat 0 1000) [] bs = Some (Out o) /\ load false false (o_bytes o) = Some None.
Proof. exists (ex_primary ++ [1; 128; 8; 3; 104; 101; 121]). eexists _, _. split; [vm_compute; reflexivity|]. split; [vm_compute; reflexivity|vm_compute; reflexivity]. Qed.
Print Assumptions C50_bpv6_echo_is_always_sound_refuted.
(** Processing makes BPv7 bundles longer: a bundle within the size limit can leave the node beyond it, for the next to refuse. *)
Theorem C50_forwarded_bundle_is_within_limit_refuted : exists nd bs o, 
  process (scan_any 0) None ex7_old (0, 0) false nd true ex50_pad (repeat 0 1000) [] ex7_beyond bs = Some (Out o) /\ o_admin o = false /\
  process (scan_any 0) None ex7_old (0, 0) false nd true ex50_pad (repeat 0 1000) [] ex7_beyond (o_bytes o) = Some Refused.
Proof. exists (mkNode 10 0 2047 100 80 0), ex7_bundle. eexists. split; [vm_compute; reflexivity|]. split; vm_compute; reflexivity. Qed.
Print Assumptions C50_forwarded_bundle_is_within_limit_refuted.

