(** Lemmas for C56. *)
From Coq Require Import PeanoNat NArith List Bool Lia ZifyBool ZifyN.
From Verif Require Import Base M_FragmentSet M_Sdnv M_Acs M_Uri M_Bpv6Block M_BundleV6 S_FragmentSet L_FragmentSet S_Acs S_Sdnv S_Uri S_Bpv6 S_BundleV6 L_Sdnv L_Acs L_Uri
  P_Uri L_Bpv6Write L_Bpv6Trip L_BundleV6 P_BundleV6 M_Custody S_Custody.
Import ListNotations.
Open Scope N_scope.

(** ** Texts *)
Lemma dec_loop_length f : forall v, (length (dec_loop f v) <= f)%nat.
Proof. induction f as [|f IH]; intros v; cbn [dec_loop]; [cbn; lia|]. destruct (v <? 10); [cbn; lia|]. rewrite app_length. cbn [length]. specialize (IH (v / 10)). lia. Qed.
Lemma text_ok (e : eid) : fst e < W64 -> snd e < W64 -> ipn_text (fst e) (snd e) (uri_string (fst e) (snd e)) /\ (5 <= length (uri_string (fst e) (snd e)) <= 45)%nat /\
  Forall is_byte (uri_string (fst e) (snd e)).
Proof.
  intros A B. split; [now apply C36_text_is_canonical|]. pose proof (dec_ok _ A) as ((NA & DA & _) & _). pose proof (dec_ok _ B) as ((NB & DB & _) & _). unfold uri_string. split.
  - rewrite !app_length. cbn [length]. pose proof (dec_loop_length 20 (fst e)). pose proof (dec_loop_length 20 (snd e)). unfold dec in *. destruct (dec_loop 20 (fst e)); [congruence|]. cbn [length] in *. lia.
  - assert (DG : forall l, Forall digit l -> Forall is_byte l) by (intros l; apply Forall_impl; intros x; unfold digit, is_byte; lia).
    repeat (apply Forall_app; split); auto; repeat constructor; unfold is_byte; lia.
Qed.

(** ** Numbers *)
Lemma shortest_inv v vs bs : shortest_all (v :: vs) bs -> exists a b, bs = a ++ b /\ shortest_sdnv v a /\ shortest_all vs b.
Proof. intros H. inversion H; subst. eauto. Qed.
Lemma shortest_1000 e : shortest_sdnv 1000 e -> length e = 2%nat.
Proof.
  intros S. destruct (shortest_exists 1000 ltac:(unfold W64; lia)) as (e' & S'). rewrite (shortest_same _ _ _ S S').
  pose proof (P_Sdnv.C11_num_bytes_is_shortest_length 1000 e' ltac:(unfold W64; lia) S') as H. replace (sdnv_num_bytes 1000) with (Some 2) in H by (vm_compute; reflexivity). injection H as H. lia.
Qed.
Lemma low_bits x : (forall j, 9 <= j -> N.testbit x j = false) -> x < 512.
Proof.
  intros H. assert (E : x mod 2 ^ 9 = x). { apply N.bits_inj. intros j. destruct (N.ltb_spec j 9); [now rewrite N.mod_pow2_bits_low|]. rewrite N.mod_pow2_bits_high by assumption. symmetry. now apply H. }
  rewrite <- E. apply N.mod_lt. discriminate.
Qed.
Lemma record_flags flags j : N.testbit (N.lor (N.land flags 384) 22) j = (j =? 1) || (j =? 2) || (j =? 4) || ((j =? 7) || (j =? 8)) && N.testbit flags j.
Proof.
  change 384 with (N.lor (2 ^ 7) (2 ^ 8)). change 22 with (N.lor (2 ^ 1) (N.lor (2 ^ 2) (2 ^ 4))). rewrite !N.lor_spec, N.land_spec, !N.lor_spec, !N.pow2_bits_eqb.
  rewrite !(N.eqb_sym j). destruct (1 =? j), (2 =? j), (4 =? j), (7 =? j), (8 =? j), (N.testbit flags j); reflexivity.
Qed.

(** ** Records *)
Definition ok2 (e : eid) : Prop := fst e < W64 /\ snd e < W64.
Lemma record_prim_ok cfg flags dest now q : cfg_ok cfg -> ok2 dest -> now < W64 -> q < W64 -> prim_ok (record_prim cfg flags dest now q).
Proof.
  intros (A & B) (C & D) E F. assert (L : N.lor (N.land flags 384) 22 < 512) by (apply low_bits; intros j J; rewrite record_flags; lia).
  split; [|split; reflexivity]. unfold record_prim. cbn [p_flags p_dest p_src p_report p_cust p_time p_seq p_life p_off p_total fst snd]. repeat constructor; try assumption; unfold W64 in *; lia.
Qed.
Definition record_len (p : prim) (n : N) : prim := mkPrim (p_flags p) n (p_dest p) (p_src p) (p_report p) (p_cust p) (p_time p) (p_seq p) (p_life p) (p_off p) (p_total p).
Lemma record_prim_length cfg flags dest now q n bs : cfg_ok cfg -> ok2 dest -> now < W64 -> q < W64 -> written_primary (record_len (record_prim cfg flags dest now q) n) bs -> (length bs <= 79)%nat.
Proof.
  intros (A & B) (C & D) E F (f & l & sd & fr & -> & SF & _ & _ & _ & SD & SR). unfold record_len, record_prim in *. cbn [p_flags p_dest p_src p_report p_cust p_time p_seq p_life p_off p_total fst snd] in *.
  assert (L : N.lor (N.land flags 384) 22 < W64) by (assert (N.lor (N.land flags 384) 22 < 512) by (apply low_bits; intros j J; rewrite record_flags; lia); unfold W64; lia).
  assert (FF : fragment_flag (N.lor (N.land flags 384) 22) = false) by (unfold fragment_flag; rewrite record_flags; reflexivity). rewrite FF in SR. inversion SR; subst fr.
  repeat (apply shortest_inv in SD; destruct SD as (? & ? & -> & ? & SD)). inversion SD; subst.
  repeat match goal with S : shortest_sdnv 0 ?x |- _ => apply shortest_low in S; [subst x|lia] end.
  repeat match goal with S : shortest_sdnv 1000 ?x |- _ => apply shortest_1000 in S end.
  repeat match goal with S : shortest_sdnv _ ?x |- _ => apply shortest_bound in S; [|assumption] end.
  cbn [length]. rewrite ?app_length. cbn [length]. rewrite ?app_length. cbn [length]. lia.
Qed.
Lemma record_fits cfg flags dest now q : cfg_ok cfg -> ok2 dest -> now < W64 -> q < W64 -> exists n bs, written_primary (record_len (record_prim cfg flags dest now q) n) bs.
Proof.
  intros A B C D. pose proof (record_prim_ok cfg flags dest now q A B C D) as OK. destruct A as (A1 & A2), B as (B1 & B2).
  assert (L : N.lor (N.land flags 384) 22 < W64) by (destruct OK as (OK & _); exact (Forall_inv OK)). destruct (shortest_exists _ L) as (f & SF).
  assert (FF : fragment_flag (N.lor (N.land flags 384) 22) = false) by (unfold fragment_flag; rewrite record_flags; reflexivity).
  destruct (shortest_exists _ B1) as (d1 & D1). destruct (shortest_exists _ B2) as (d2 & D2). destruct (shortest_exists _ A1) as (s1 & S1). destruct (shortest_exists _ A2) as (s2 & S2).
  destruct (shortest_exists _ C) as (t1 & T1). destruct (shortest_exists _ D) as (t2 & T2). destruct (shortest_exists 1000 ltac:(unfold W64; lia)) as (l1 & L1).
  destruct (shortest_exists 0 ltac:(unfold W64; lia)) as (z & Z). pose proof (shortest_low 0 z ltac:(lia) Z) as ->.
  set (sd := d1 ++ d2 ++ s1 ++ s2 ++ [0] ++ [0] ++ [0] ++ [0] ++ t1 ++ t2 ++ l1 ++ [0] ++ []).
  exists (N.of_nat (length sd + 0)), (6 :: f ++ N.of_nat (length sd + 0) :: sd ++ []). exists f, (N.of_nat (length sd + 0)), sd, []. unfold record_len, record_prim. cbn [p_flags p_len p_dest p_src p_report p_cust p_time p_seq p_life p_off p_total fst snd length].
  split; [reflexivity|]. split; [exact SF|]. split; [reflexivity|]. split; [reflexivity|]. split; [|split].
  - unfold sd. pose proof (shortest_bound _ _ B1 D1). pose proof (shortest_bound _ _ B2 D2). pose proof (shortest_bound _ _ A1 S1). pose proof (shortest_bound _ _ A2 S2). pose proof (shortest_bound _ _ C T1). pose proof (shortest_bound _ _ D T2).
    pose proof (shortest_1000 _ L1). rewrite ?app_length. cbn [length]. lia.
  - unfold sd. repeat (constructor; [assumption|]). constructor.
  - rewrite FF. constructor.
Qed.
(** A record that is not too large for its buffer: it is rendered, and whoever loads it finds the same record. *)
Lemma record_renders cfg flags dest now q code isfrag a D room mem junk :
  cfg_ok cfg -> ok2 dest -> now < W64 -> q < W64 -> code < 16 -> admin_ok a -> admin_std code isfrag a -> (forall data, admin_written a data -> (length data <= D)%nat) -> N.of_nat D < 65536 ->
  (92 + D <= room)%nat -> (room + 32 <= length mem)%nat ->
  exists v, render (record_view (record_prim cfg flags dest now q) code isfrag a) room mem junk = Some (Some (Rendered v)) /\ (forall last, load last false (v_bytes v) = Some (Some v)) /\
    record_for (f_me cfg) dest flags now v code isfrag a /\ p_seq (v_prim v) = q.
Proof.
  intros A B C E CO AO AS LD D16 R1 R2. set (p := record_prim cfg flags dest now q). set (v0 := record_view p code isfrag a). pose proof (record_prim_ok cfg flags dest now q A B C E) as PO. fold p in PO.
  assert (BO : block_ok (mkBlock 1 0 0 None (Admin code isfrag (Some a)))) by (split; [unfold is_byte; cbn; lia|]; split; [unfold W64; cbn; lia|]; split; [unfold W64; cbn; lia|]; split; [split; assumption|discriminate]).
  assert (DL : forall data, block_data (mkBlock 1 0 0 None (Admin code isfrag (Some a))) data -> (length data <= S D)%nat).
  { intros data BD. unfold block_data in BD. cbn [k_content] in BD. inversion BD; subst. cbn [length]. match goal with W : admin_written a ?x |- _ => specialize (LD x W) end. lia. }
  assert (VO : view_ok v0). { split; [exact PO|]. constructor; [|constructor]. unfold sendable, fresh, rewritten. cbn [c_dirty orb c_blk]. split; [exact BO|]. intros data BD. specialize (DL data BD). unfold W64. lia. }
  assert (PF : primary_fits v0) by (intros _; exact (record_fits cfg flags dest now q A B C E)).
  destruct (render_ok v0 VO PF) as (v & SE & _ & RE). assert (LO : forall last, load last false (v_bytes v) = Some (Some v)).
  { intros last. apply (sent_load last v0 v VO SE); [discriminate|]. constructor; [|constructor]. unfold cbv_std, fresh, rewritten. cbn [c_dirty orb c_blk k_type k_content content_std]. split; [|split; [reflexivity|exact AS]].
    unfold v0, record_view. cbn [v_prim]. unfold p, record_prim. cbn [p_flags]. unfold admin_flag. rewrite record_flags. reflexivity. }
  destruct SE as (PD & SP & SB & VB). unfold sent_primary, v0, record_view in SP. cbn [v_pdirty v_prim] in SP. destruct SP as (SP & WP).
  unfold v0, record_view in SB. cbn [v_blocks kept filter fresh c_del negb] in SB. inversion SB as [|? c' SB1 EQ1 EQ2|]. symmetry in EQ2. destruct SB1 as (_ & _ & CC & data & KD & KL & SB1). cbn [rewritten fresh c_dirty orb c_blk] in SB1, CC.
  destruct SB1 as (BD & KT & KF & f & l & AC & SF & SL). cbn [refl_block k_type k_flags block_type block_flags k_content] in *.
  assert (LP : (length (v_pactual v) <= 79)%nat). { unfold same_primary in SP. rewrite SP in WP. exact (record_prim_length _ _ _ _ _ _ _ A B C E WP). }
  assert (LC : (length (c_actual c') <= 12 + S D)%nat).
  { specialize (DL data BD). rewrite AC. cbn [length]. rewrite !app_length. apply shortest_low in SF; [|vm_compute; reflexivity]. subst f. cbn [length]. pose proof (shortest_bound (N.of_nat (length data)) l ltac:(unfold W64; lia) SL). lia. }
  assert (LV : (length (v_bytes v) <= 92 + D)%nat). { rewrite VB, EQ2. cbn [map concat]. rewrite app_nil_r, app_length. lia. }
  exists v. split; [|split; [exact LO|]].
  - rewrite RE by lia. replace (Nat.leb (length (v_bytes v)) (length mem - 32)) with true by (symmetry; apply Nat.leb_le; lia). reflexivity.
  - unfold same_primary in SP. rewrite SP. unfold record_for, p, record_prim. rewrite SP. cbn [p_flags p_dest p_src p_report p_cust p_time p_seq p_life]. split; [|reflexivity]. repeat (split; [reflexivity|]). split; [intros j; apply record_flags|].
    exists c'. split; [exact EQ2|]. split; [exact KT|exact CC].
Qed.
