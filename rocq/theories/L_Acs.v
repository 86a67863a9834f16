(** Lemmas for C29. *)
From Coq Require Import NArith ZArith List Bool Lia ZifyBool ZifyN.
From Verif Require Import Base M_FragmentSet S_FragmentSet L_FragmentSet M_Sdnv S_Sdnv L_Sdnv P_Sdnv M_Acs S_Acs.
Import ListNotations.
Open Scope N_scope.

Lemma skipn_len_app (A : Type) (a b : list A) : skipn (length a) (a ++ b) = b.
Proof. rewrite skipn_app, Nat.sub_diag, skipn_all2 by lia. reflexivity. Qed.
Lemma firstn_len_app (A : Type) (a b : list A) : firstn (length a) (a ++ b) = a.
Proof. rewrite firstn_app, Nat.sub_diag, firstn_all. cbn [firstn]. apply app_nil_r. Qed.

(** Fills that are canonical and lie wholly above [prev] (or start anywhere, for the first). *)
Definition follows (prev : N) (fs : fset) : Prop := match fs with [] => True | f :: _ => prev <= fst f end.
Lemma follows_tail f r : canonical (f :: r) -> follows (snd f) r.
Proof.
  intros H. apply canonical_cons in H. destruct H as (_ & G & _). destruct r as [|g r]; [exact I|].
  pose proof (Forall_inv G) as G1. unfold gap_before in G1. cbn. lia.
Qed.


Lemma value_inj : forall a b, length a = length b -> sdnv_value a = sdnv_value b -> map (fun x => x mod 128) a = map (fun x => x mod 128) b.
Proof.
  induction a as [|x a IH]; intros [|y b] HL HV; try discriminate; [reflexivity|]. injection HL as HL.
  rewrite !value_cons, HL in HV. pose proof (value_bound a) as B1. pose proof (value_bound b) as B2. rewrite HL in B1.
  assert (Hq : x mod 128 = y mod 128) by nia. cbn [map]. rewrite Hq. f_equal. apply IH; [exact HL|]. rewrite Hq in HV. lia.
Qed.
Lemma sdnv_inj a b : is_sdnv a -> is_sdnv b -> length a = length b -> sdnv_value a = sdnv_value b -> a = b.
Proof.
  intros (i & x & -> & Hi & Hx) (j & y & -> & Hj & Hy) HL HV. pose proof (value_inj _ _ HL HV) as M. rewrite !map_app in M. cbn [map] in M.
  apply app_inj_tail in M. destruct M as [M1 M2]. rewrite !N.mod_small in M2 by assumption. subst y. f_equal.
  clear HL HV. revert j M1 Hj. induction Hi as [|u i Hu Hi IH]; intros [|w j] M Hj; try discriminate; [reflexivity|].
  cbn [map] in M. injection M as M1 M2. pose proof (Forall_inv Hj) as Hw. cbn in Hw, Hu. rewrite (IH j M2 (Forall_inv_tail Hj)). f_equal.
  pose proof (N.div_mod u 128). pose proof (N.div_mod w 128). assert (u / 128 = 1) by (symmetry; apply (N.div_unique u 128 1 (u - 128)); lia).
  assert (w / 128 = 1) by (symmetry; apply (N.div_unique w 128 1 (w - 128)); lia). lia.
Qed.
Lemma shortest_same v a b : shortest_sdnv v a -> shortest_sdnv v b -> a = b.
Proof.
  intros Sa Sb. apply sdnv_inj; [apply Sa|apply Sb|now apply (shortest_unique v)|]. destruct Sa as (_ & -> & _), Sb as (_ & -> & _). reflexivity.
Qed.

Lemma encode_ok v : v < W64 -> exists e, shortest_sdnv v e /\ sdnv_num_bytes v = Some (N.of_nat (length e)) /\ (length e <= 10)%nat /\
  forall buf, (length e <= length buf)%nat -> exists junk, sdnv_encode64 v buf = Some (N.of_nat (length e), e ++ junk) /\ length (e ++ junk) = length buf.
Proof.
  intros Hv. destruct (C11_encode64_writes_shortest_sdnv v [] Hv) as (e & S & L & _). exists e.
  split; [exact S|]. split; [now apply C11_num_bytes_is_shortest_length|]. split; [exact L|]. intros buf HL.
  destruct (C11_encode64_writes_shortest_sdnv v buf Hv) as (e' & S' & _ & B). assert (e' = e) by now apply (shortest_same v). subst e'.
  destruct (Nat.ltb_spec (length buf) (length e)); [lia|]. destruct B as (junk & E & LL & _). now exists junk.
Qed.

Lemma serialize_ok fs : forall prev, canonical fs -> follows prev fs ->
  exists enc, acs_encoding prev fs enc /\ acs_fill_size fs prev = Some (N.of_nat (length enc)) /\
    forall buf, (length enc <= length buf)%nat ->
      exists junk, acs_serialize_fills fs prev buf = Some (N.of_nat (length enc), enc ++ junk) /\ length (enc ++ junk) = length buf.
Proof.
  induction fs as [|[b e] r IH]; intros prev Hc Hf.
  - exists []. split; [constructor|]. split; [reflexivity|]. intros buf _. exists buf. split; reflexivity.
  - pose proof (follows_tail _ _ Hc) as Ft. apply canonical_cons in Hc. destruct Hc as ((V1 & V2) & _ & Hc).
    cbn [fst snd] in V1, V2, Ft. cbn in Hf.
    assert (S1 : sub64 b prev = b - prev) by (apply sub64_small; lia).
    assert (S2 : sub64 (add64 e 1) b = e + 1 - b).
    { unfold add64. rewrite (N.mod_small (e + 1)) by lia. apply sub64_small; lia. }
    cbn [acs_fill_size acs_serialize_fills]. rewrite S1, S2.
    destruct (encode_ok (b - prev) ltac:(lia)) as (p & Sp & Np & Lp & Ep).
    destruct (encode_ok (e + 1 - b) ltac:(lia)) as (q & Sq & Nq & Lq & Eq).
    destruct (IH e Hc Ft) as (rest & Er & Nr & Sr).
    exists (p ++ q ++ rest). split; [now constructor|]. rewrite Np, Nq, Nr. split; [f_equal; rewrite !app_length; lia|].
    rewrite !app_length. intros buf HL. destruct (Ep buf) as (j1 & E1 & L1); [lia|]. rewrite E1. cbn [fst snd].
    rewrite Nat2N.id, skipn_len_app, firstn_len_app. rewrite app_length in L1.
    destruct (Eq j1) as (j2 & E2 & L2); [lia|]. rewrite E2. cbn [fst snd]. rewrite Nat2N.id, skipn_len_app, firstn_len_app.
    rewrite app_length in L2. destruct (Sr j2) as (j3 & E3 & L3); [lia|]. rewrite E3. cbn [fst snd]. exists j3. split.
    + f_equal. f_equal; [lia|]. now rewrite !app_assoc.
    + rewrite !app_length in *. lia.
Qed.

(** * Decoding *)
Lemma sdnv64_nonempty p : sdnv64 p -> (0 < length p)%nat.
Proof. intros ((i & l & -> & _) & _). rewrite app_length. cbn. lia. Qed.
Lemma decode_sdnv64 p rest : sdnv64 p -> Forall is_byte rest -> sdnv_decode64 (p ++ rest) = Some (sdnv_value p, N.of_nat (length p)).
Proof.
  intros (S & L & V) Hr. assert (Hb : Forall is_byte (p ++ rest)) by (apply Forall_app; split; [now apply is_sdnv_bytes|exact Hr]).
  destruct (C11_decode64_meets_specification _ Hb) as (r & E & _ & F). rewrite E. f_equal. symmetry. apply F. now apply DecOk with rest.
Qed.
Lemma decode_inv bs v k : Forall is_byte bs -> sdnv_decode64 bs = Some (v, k) -> k <> 0 ->
  exists p rest, bs = p ++ rest /\ sdnv64 p /\ v = sdnv_value p /\ k = N.of_nat (length p).
Proof.
  intros Hb E Hk. destruct (C11_decode64_meets_specification _ Hb) as (r & E' & S & _). rewrite E in E'. injection E' as <-.
  remember (v, k) as x. destruct S; injection Heqx as <- <-; try lia. exists p, rest. repeat split; auto.
Qed.

(** The set the loop builds, with the C++ wrap-around. *)
Fixpoint wrapped (prev : N) (fs : list (N * N)) : list frag :=
  match fs with
  | [] => []
  | (d, n) :: r => (add64 d prev, sub64 (add64 (add64 d prev) n) 1) :: wrapped (sub64 (add64 (add64 d prev) n) 1) r
  end.

Lemma loop_complete last bs fs : acs_fields bs fs -> forall fuel s prev taken, Forall is_byte bs -> (length bs < fuel)%nat ->
  acs_deserialize_loop last fuel bs s prev taken = Some (Some (insert_all last s (wrapped prev fs), taken + N.of_nat (length bs))).
Proof.
  induction 1 as [p q Sp Sq|p q rest fs Sp Sq HF IH]; intros fuel s prev taken Hb HL; (destruct fuel as [|fuel]; [lia|]);
    cbn [acs_deserialize_loop]; apply Forall_app in Hb; destruct Hb as [Hb1 Hb2]; rewrite (decode_sdnv64 p) by assumption;
    cbn [fst snd]; pose proof (sdnv64_nonempty p Sp) as Lp; pose proof (sdnv64_nonempty q Sq) as Lq;
    (destruct (N.eqb_spec (N.of_nat (length p)) 0); [lia|]); rewrite Nat2N.id, skipn_len_app.
  - destruct q as [|q0 q'] eqn:Q; [cbn in Lq; lia|]. rewrite <- Q in *. rewrite <- (app_nil_r q) at 1. rewrite (decode_sdnv64 q []) by (try assumption; constructor).
    cbn [fst snd]. destruct (N.eqb_spec (N.of_nat (length q)) 0); [lia|]. rewrite Nat2N.id. rewrite skipn_all2 by lia.
    cbn [wrapped insert_all fold_left acs_add_range fst]. do 3 f_equal. rewrite app_length. lia.
  - destruct (q ++ rest) as [|q0 q'] eqn:Q; [destruct q; [cbn in Lq; lia|discriminate]|]. rewrite <- Q in *.
    apply Forall_app in Hb2. destruct Hb2 as [Hb2 Hb3]. rewrite (decode_sdnv64 q) by assumption. cbn [fst snd].
    destruct (N.eqb_spec (N.of_nat (length q)) 0); [lia|]. rewrite Nat2N.id, skipn_len_app.
    destruct rest as [|r0 r'] eqn:R.
    { inversion HF; subst; [pose proof (sdnv64_nonempty p0)|pose proof (sdnv64_nonempty p0)];
        match goal with H : _ ++ _ = [] |- _ => apply app_eq_nil in H; destruct H as [-> _] end; cbn in *; intuition lia. }
    rewrite <- R in *. rewrite IH by (try assumption; rewrite !app_length in HL; lia).
    cbn [wrapped]. unfold insert_all. cbn [fold_left acs_add_range fst]. do 3 f_equal. rewrite !app_length. lia.
Qed.

Lemma loop_sound last : forall fuel bs s prev taken, Forall is_byte bs -> (length bs < fuel)%nat ->
  exists r, acs_deserialize_loop last fuel bs s prev taken = Some r /\ (r <> None -> exists fs, acs_fields bs fs).
Proof.
  induction fuel as [|fuel IH]; intros bs s prev taken Hb HL; [lia|]. cbn [acs_deserialize_loop].
  destruct (C11_decode64_meets_specification bs Hb) as ([v1 k1] & E1 & _). rewrite E1. cbn [fst snd].
  destruct (N.eqb_spec k1 0) as [Z1|Z1]; [exists None; split; [reflexivity|congruence]|].
  destruct (decode_inv bs v1 k1 Hb E1 Z1) as (p & bs1 & -> & Sp & -> & ->). rewrite Nat2N.id, skipn_len_app.
  apply Forall_app in Hb. destruct Hb as [_ Hb1].
  destruct bs1 as [|c0 c'] eqn:C; [exists None; split; [reflexivity|congruence]|]. rewrite <- C in *.
  destruct (C11_decode64_meets_specification bs1 Hb1) as ([v2 k2] & E2 & _). rewrite E2. cbn [fst snd].
  destruct (N.eqb_spec k2 0) as [Z2|Z2]; [exists None; split; [reflexivity|congruence]|].
  destruct (decode_inv bs1 v2 k2 Hb1 E2 Z2) as (q & bs2 & EQ & Sq & -> & ->). rewrite Nat2N.id. clear C c0 c'. subst bs1. rewrite skipn_len_app.
  apply Forall_app in Hb1. destruct Hb1 as [_ Hb2].
  pose proof (sdnv64_nonempty p Sp) as Lp. pose proof (sdnv64_nonempty q Sq) as Lq. rewrite !app_length in HL.
  destruct bs2 as [|d0 d'] eqn:D.
  - eexists. split; [reflexivity|]. intros _. rewrite app_nil_r. eexists. now constructor.
  - rewrite <- D in *. match goal with |- context[acs_deserialize_loop last fuel bs2 ?a ?b ?c] =>
      destruct (IH bs2 a b c Hb2 ltac:(lia)) as (r & Er & Hr) end.
    exists r. split; [exact Er|]. intros N0. destruct (Hr N0) as (fs & F). eexists. apply FieldsMore; [exact Sp|exact Sq|exact F].
Qed.

Lemma wrapped_in_range fs : forall prev, acs_in_range prev fs -> wrapped prev fs = acs_ranges prev fs.
Proof.
  induction fs as [|[d n] r IH]; intros prev H; [reflexivity|]. cbn in H. destruct H as (H1 & H2 & H3). cbn [wrapped acs_ranges].
  assert (A : add64 d prev = prev + d) by (unfold add64; rewrite N.mod_small; lia). rewrite A.
  assert (B : add64 (prev + d) n = prev + d + n) by (unfold add64; rewrite N.mod_small; lia). rewrite B.
  rewrite sub64_small by lia. now rewrite IH.
Qed.
Lemma ranges_valid fs : forall prev, acs_in_range prev fs -> Forall valid (acs_ranges prev fs).
Proof.
  induction fs as [|[d n] r IH]; intros prev H; [constructor|]. cbn in H. destruct H as (H1 & H2 & H3). cbn [acs_ranges].
  constructor; [|now apply IH]. split; cbn [fst snd]; lia.
Qed.

Lemma shortest_64 v p : v < W64 -> shortest_sdnv v p -> sdnv64 p.
Proof.
  intros Hv S. destruct (C11_encode64_writes_shortest_sdnv v [] Hv) as (e & S' & L & _). rewrite (shortest_same v p e S S').
  destruct S' as (A & B & _). split; [exact A|]. split; [exact L|]. lia.
Qed.

(** The encoding of a canonical set parses as fields whose ranges are that set. *)
Lemma encoding_fields prev fs enc : acs_encoding prev fs enc -> canonical fs -> follows prev fs -> fs <> [] ->
  exists fl, acs_fields enc fl /\ acs_in_range prev fl /\ acs_ranges prev fl = fs.
Proof.
  induction 1 as [prev|prev b e r p q rest Sp Sq HE IH]; intros Hc Hf Hne; [congruence|].
  pose proof (follows_tail _ _ Hc) as Ft. apply canonical_cons in Hc. destruct Hc as ((V1 & V2) & _ & Hc). cbn [fst snd] in *. cbn in Hf.
  assert (P64 : sdnv64 p) by (apply (shortest_64 (b - prev)); [lia|assumption]).
  assert (Q64 : sdnv64 q) by (apply (shortest_64 (e + 1 - b)); [lia|assumption]).
  assert (VP : sdnv_value p = b - prev) by apply Sp. assert (VQ : sdnv_value q = e + 1 - b) by apply Sq.
  destruct r as [|f r].
  - inversion HE; subst. rewrite app_nil_r. eexists. split; [now constructor|]. rewrite VP, VQ. cbn. split; [split; [lia|split; [lia|exact I]]|].
    do 2 f_equal; lia.
  - destruct (IH Hc Ft ltac:(discriminate)) as (fl & F1 & F2 & F3). eexists. split; [apply FieldsMore; [exact P64|exact Q64|exact F1]|]. rewrite VP, VQ.
    cbn [acs_in_range acs_ranges]. replace (prev + (b - prev) + (e + 1 - b) - 1) with e by lia. rewrite F3.
    split; [split; [lia|split; [lia|exact F2]]|]. do 2 f_equal. lia.
Qed.
Lemma encoding_bytes prev fs enc : acs_encoding prev fs enc -> Forall is_byte enc.
Proof.
  induction 1; [constructor|]. repeat (apply Forall_app; split); try assumption; apply is_sdnv_bytes; [apply H|apply H0].
Qed.
