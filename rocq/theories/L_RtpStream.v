(** Lemmas for C64. *)
From Coq Require Import PeanoNat Compare_dec NArith List Bool Lia ZifyBool ZifyN ZifyNat.
From Verif Require Import Base M_RtpStream S_RtpStream.
Import ListNotations.
Open Scope N_scope.

Lemma le_spec : forall k n, n < 256 ^ N.of_nat k -> bytes (le k n) /\ length (le k n) = k /\ un_le (le k n) = n.
Proof.
  induction k as [|k IH]; intros n H; [cbn in *; repeat split; [constructor|lia]|]. rewrite Nat2N.inj_succ, N.pow_succ_r' in H. cbn [le]. destruct (IH (n / 256)) as [A [B C]]; [apply N.div_lt_upper_bound; [discriminate|exact H]|].
  split; [constructor; [apply N.mod_lt; discriminate|exact A]|]. split; [cbn [length]; rewrite B; reflexivity|]. cbn [un_le]. rewrite C. assert (D := N.div_mod n 256 ltac:(discriminate)). lia.
Qed.
Lemma un_le_fold : forall l, un_le l = fold_right (fun b v => b + 256 * v) 0 l.
Proof. induction l as [|b l IH]; [reflexivity|]. cbn [un_le fold_right]. rewrite IH. reflexivity. Qed.
Lemma framed_le : forall p, N.of_nat (length p) < 18446744073709551616 -> framed p (le 8 (N.of_nat (length p)) ++ p).
Proof. intros p L. destruct (le_spec 8 _ L) as [A [B C]]. exists (le 8 (N.of_nat (length p))). split; [reflexivity|]. split; [exact A|]. split; [exact B|]. rewrite <- un_le_fold. exact C. Qed.
Lemma accepted_usable : forall p, bytes p -> accepted p = usable p.
Proof.
  intros p B. unfold accepted, usable. destruct p as [|b0 [|b1 r]]; try reflexivity. inversion B as [|? ? B0 B2]; subst. inversion B2 as [|? ? B1 _]; subst. cbv beta in *. f_equal; [cbn [length]; lia|].
  cbn [hd]. change (N.shiftl 3 15) with 98304. destruct (N.leb_spec 128 b0) as [G|L].
  - replace (N.land 98304 (b0 * 256 + b1)) with 32768; [reflexivity|]. replace (b0 * 256 + b1) with (N.lor 32768 ((b0 - 128) * 256 + b1)).
    + apply N.bits_inj. intro i. rewrite N.land_spec, N.lor_spec. destruct (N.eq_dec i 15) as [->|N15]; [reflexivity|]. replace (N.testbit 32768 i) with false; [|change 32768 with (2 ^ 15); rewrite N.pow2_bits_eqb; symmetry; apply N.eqb_neq; lia].
      cbn [orb]. destruct (N.eq_dec i 16) as [->|N16]; [|change 98304 with (2 ^ 15 + 2 ^ 16)].
      * symmetry. replace (N.testbit ((b0 - 128) * 256 + b1) 16) with false; [reflexivity|]. symmetry. rewrite N.testbit_eqb. rewrite N.div_small; [reflexivity|]. change (2 ^ 16) with 65536. lia.
      * replace (N.testbit (2 ^ 15 + 2 ^ 16) i) with false; [reflexivity|]. symmetry. change (2 ^ 15 + 2 ^ 16) with (N.lor (2 ^ 15) (2 ^ 16)). rewrite N.lor_spec, !N.pow2_bits_eqb. destruct (N.eqb_spec 15 i); [lia|]. destruct (N.eqb_spec 16 i); [lia|reflexivity].
    + assert (X : N.land 32768 ((b0 - 128) * 256 + b1) = 0).
      { apply N.bits_inj. intro i. rewrite N.land_spec, N.bits_0. change 32768 with (2 ^ 15). rewrite N.pow2_bits_eqb. destruct (N.eqb_spec 15 i) as [<-|]; [|reflexivity]. cbn [andb]. rewrite N.testbit_eqb, N.div_small; [reflexivity|]. change (2 ^ 15) with 32768. lia. }
      assert (Y := N.add_nocarry_lxor _ _ X). rewrite <- N.lxor_lor by exact X. lia.
  - replace (N.land 98304 (b0 * 256 + b1)) with 0; [reflexivity|]. symmetry. apply N.bits_inj. intro i. rewrite N.land_spec, N.bits_0. destruct (N.ltb_spec i 15).
    + replace (N.testbit 98304 i) with false; [reflexivity|]. symmetry. change 98304 with (3 * 2 ^ 15). apply N.mul_pow2_bits_low. exact H.
    + replace (N.testbit (b0 * 256 + b1) i) with false; [apply andb_false_r|]. symmetry. rewrite N.testbit_eqb, N.div_small; [reflexivity|]. apply N.lt_le_trans with (2 ^ 15); [change (2 ^ 15) with 32768; lia|apply N.pow_le_mono_r; [discriminate|exact H]].
Qed.
Lemma split_framed : forall fuel h p r, bytes h -> length h = 8%nat -> un_le h = N.of_nat (length p) ->
  split (S fuel) (h ++ p ++ r) = match r with [] => Done [p] | _ => match split fuel r with Done ps => Done (p :: ps) | x => x end end.
Proof.
  intros fuel h p r B L V. do 8 (destruct h as [|? h]; [discriminate|]). destruct h; [|discriminate]. cbn [app split]. rewrite V. destruct (N.leb_spec (N.of_nat (length p)) (N.of_nat (length (p ++ r)))) as [_|X]; [|rewrite app_length in X; lia].
  rewrite Nat2N.id, firstn_app, firstn_all, Nat.sub_diag, skipn_app, skipn_all, Nat.sub_diag. cbn [firstn skipn app]. rewrite app_nil_r. destruct r; reflexivity.
Qed.
Lemma split_bundle : forall ps l, bundle_of ps l -> ps <> [] -> forall fuel, (length l < fuel)%nat -> split fuel l = Done ps.
Proof.
  intros ps l [ls [F ->]] NE. induction F as [|p l ps ls P F IH]; [contradiction|]. intros fuel LF. destruct P as [h [-> [B [L V]]]]. cbn [concat] in *. rewrite <- app_assoc in *. destruct fuel as [|fuel]; [lia|]. rewrite split_framed; [|exact B|exact L|rewrite un_le_fold; exact V].
  destruct F as [|p2 l2 ps2 ls2 P2 F2]; [reflexivity|]. rewrite (IH ltac:(discriminate) fuel); [|rewrite !app_length in LF; lia]. destruct (concat (l2 :: ls2)) as [|x y] eqn:E; [|reflexivity]. exfalso. destruct P2 as [h2 [-> [_ [L2 _]]]]. destruct h2; discriminate.
Qed.
Lemma split_only : forall fuel l ps, bytes l -> split fuel l = Done ps -> bundle_of ps l /\ ps <> [].
Proof.
  induction fuel as [|fuel IH]; intros l ps B H; [discriminate|]. cbn [split] in H. do 8 (destruct l as [|? l]; [discriminate|]). cbv zeta in H. destruct (N.leb_spec (un_le [n; n0; n1; n2; n3; n4; n5; n6]) (N.of_nat (length l))) as [LE|]; [|discriminate].
  set (h := [n; n0; n1; n2; n3; n4; n5; n6]) in *. change (n :: n0 :: n1 :: n2 :: n3 :: n4 :: n5 :: n6 :: l) with (h ++ l) in *. apply Forall_app in B. destruct B as [Bh Bl]. assert (Lh : length h = 8%nat) by reflexivity. clearbody h.
  set (m := N.to_nat (un_le h)) in *. assert (Lp : length (firstn m l) = m) by (rewrite firstn_length; lia). assert (E := firstn_skipn m l). assert (FR : framed (firstn m l) (h ++ firstn m l)).
  { exists h. split; [reflexivity|]. split; [exact Bh|]. split; [exact Lh|]. rewrite <- un_le_fold, Lp. lia. }
  destruct (skipn m l) as [|x r] eqn:Es.
  - injection H as <-. split; [|discriminate]. exists [h ++ firstn m l]. split; [constructor; [exact FR|constructor]|]. cbn [concat]. rewrite app_nil_r in *. f_equal. symmetry. exact E.
  - destruct (split fuel (x :: r)) as [qs| |] eqn:S; try discriminate. injection H as <-. destruct (IH (x :: r) qs) as [[ls [F C]] _]; [rewrite <- E in Bl; apply Forall_app in Bl; tauto|exact S|]. split; [|discriminate]. exists ((h ++ firstn m l) :: ls). split; [constructor; assumption|]. cbn [concat]. rewrite <- C, <- app_assoc. f_equal. symmetry. exact E.
Qed.
Lemma split_fuel : forall fuel l, (length l < fuel)%nat -> split fuel l <> Fuel.
Proof.
  induction fuel as [|fuel IH]; intros l L; [lia|]. cbn [split]. do 8 (destruct l as [|? l]; [discriminate|]). cbv zeta. destruct (un_le _ <=? N.of_nat (length l)); [|discriminate]. destruct (skipn _ l) as [|x r] eqn:E; [discriminate|].
  assert (LS := f_equal (@length _) E). rewrite skipn_length in LS. assert (X := IH (x :: r) ltac:(cbn [length] in *; lia)). destruct (split fuel (x :: r)); [discriminate|discriminate|contradiction].
Qed.

(** The sender. *)
Definition fr (p : list N) : list N := le 8 (N.of_nat (length p)) ++ p.
Definition sinv (per : nat) (us : list (list N)) (s : sender) : Prop :=
  exists groups part, Forall (fun g => length g = per) groups /\ t_out s = map (fun g => concat (map fr g)) groups /\ t_queue s = map fr part /\ t_bytes s = N.of_nat (length (concat (map fr part))) /\ (length part < per)%nat /\
  match t_current s with None => us = [] /\ part = [] /\ groups = [] | Some f => us = concat groups ++ part ++ [f] end.
Lemma fr_length : forall f, N.of_nat (length (fr f)) = N.of_nat (length f) + 8.
Proof. intro f. unfold fr. cbn [le app length]. lia. Qed.
Lemma sinv_step : forall per us s p, (1 <= per)%nat -> sinv per us s -> exists s1, send_packet (N.of_nat per) s p = Some s1 /\ sinv per (us ++ (if accepted p then [p] else [])) s1.
Proof.
  intros per us [c q n o] p P [gs [pt [G [O [Q [N [L C]]]]]]]. cbn [t_current t_queue t_bytes t_out] in *. unfold send_packet. destruct (accepted p); [|eexists; split; [reflexivity|]; rewrite app_nil_r; exists gs, pt; cbn [t_current t_queue t_bytes t_out]; auto 8].
  cbn [t_current t_queue t_bytes t_out]. destruct c as [f|].
  - unfold push_frame. cbv zeta. cbn [t_current t_queue t_bytes t_out]. fold (fr f). assert (E : q ++ [fr f] = map fr (pt ++ [f])) by (rewrite Q, map_app; reflexivity).
    assert (B : n + (N.of_nat (length f) + 8) = N.of_nat (length (concat (map fr (pt ++ [f]))))) by (rewrite map_app, concat_app, app_length; cbn [map concat]; rewrite app_nil_r, N, <- fr_length; lia).
    rewrite E, B, map_length, app_length. cbn [length]. destruct (N.eqb_spec (N.of_nat (length pt + 1)) (N.of_nat per)) as [EQ|NE].
    + unfold push_bundle. cbv zeta. cbn [t_current t_queue t_bytes t_out]. rewrite N.leb_refl, Nat2N.id, Nat.sub_diag. cbn [repeat]. rewrite app_nil_r. eexists. split; [reflexivity|]. exists (gs ++ [pt ++ [f]]), []. cbn [t_current t_queue t_bytes t_out].
      split; [apply Forall_app; split; [exact G|constructor; [rewrite app_length; cbn [length]; lia|constructor]]|]. split; [rewrite O, (map_app _ gs); reflexivity|]. split; [reflexivity|]. split; [reflexivity|]. split; [cbn [length]; lia|]. rewrite C, concat_app. cbn [concat]. rewrite app_nil_r, <- !app_assoc. reflexivity.
    + eexists. split; [reflexivity|]. exists gs, (pt ++ [f]). cbn [t_current t_queue t_bytes t_out]. rewrite app_length. cbn [length]. split; [exact G|]. split; [exact O|]. split; [reflexivity|]. split; [reflexivity|]. split; [lia|]. rewrite C, <- !app_assoc. reflexivity.
  - destruct C as [-> [-> ->]]. eexists. split; [reflexivity|]. exists [], []. cbn [t_current t_queue t_bytes t_out]. auto 8.
Qed.
Lemma sinv_run : forall per ps us s, (1 <= per)%nat -> sinv per us s -> exists s1, send (N.of_nat per) s ps = Some s1 /\ sinv per (us ++ filter accepted ps) s1.
Proof.
  induction ps as [|p ps IH]; intros us s P I; cbn [send filter]; [exists s; rewrite app_nil_r; auto|]. destruct (sinv_step per us s p P I) as [s2 [-> I2]]. destruct (IH _ s2 P I2) as [s1 [R I1]]. exists s1. split; [exact R|]. destruct (accepted p); [|rewrite app_nil_r in I1; exact I1]. rewrite <- app_assoc in I1. exact I1.
Qed.
