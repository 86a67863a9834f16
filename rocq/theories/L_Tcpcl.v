(** Lemmas for C34. *)
From Coq Require Import NArith ZArith List Bool Lia ZifyBool ZifyN.
From Verif Require Import Base M_SegmentAlloc M_Intrin M_Sdnv S_Sdnv L_Intrin L_Sdnv P_Sdnv L_SdnvRead M_Stream L_Stream M_Tcpcl S_Tcpcl.
Import ListNotations.
Open Scope N_scope.

Lemma rd_sdnv_ok junk p b q v : junk_ok junk -> sdnv_for v (p ++ b :: q) ->
  rd_sdnv junk p b = Some (match q with [] => SdOk (p ++ [b]) v | _ => SdMore (p ++ [b]) end).
Proof.
  intros J H. unfold rd_sdnv. assert (L := proj1 (proj2 H)). rewrite app_length in L. cbn [length] in L.
  rewrite app_length. cbn [length]. destruct (Nat.ltb_spec 10 (length p + 1)); [lia|].
  destruct H as ((i & l & E & F & Hl) & H). destruct q as [|c q].
  - assert (HH : p = i /\ b = l) by (apply app_inj_tail in E; exact E). destruct HH as [-> ->].
    assert (M : N.land l 0x80 = 0).
    { change 0x80 with (2 ^ 7). assert (K : forall n, n < 128 -> N.land n (2 ^ 7) = 0).
      { intros n Hn. apply N.bits_inj. intros j. rewrite N.land_spec, N.pow2_bits_eqb, N.bits_0. destruct (N.eqb_spec 7 j) as [<-|]; [|apply andb_false_r].
        rewrite andb_true_r. destruct n as [|p]; [apply N.bits_0|]. apply N.bits_above_log2. apply N.log2_lt_pow2; [reflexivity|exact Hn]. }
      apply K. exact Hl. }
    rewrite M. change (0 =? 0) with true. cbn iota.
    rewrite (decode_sdnv_for v (i ++ [l]) (junk (i ++ [l]))); [|split; [exists i, l; auto|exact H]|apply J].
    rewrite app_length. cbn [length]. replace (N.of_nat (length i + 1) =? 0) with false by lia. rewrite N.eqb_refl. reflexivity.
  - assert (HB : 128 <= b < 256).
    { assert (HI : In b i).
      { assert (E2 : p ++ b :: c :: q = (p ++ b :: removelast (c :: q)) ++ [last (c :: q) 0]) by (rewrite <- app_assoc; cbn [app]; now rewrite <- app_removelast_last).
        rewrite E in E2. apply app_inj_tail in E2. destruct E2 as [-> _]. apply in_elt. }
      rewrite Forall_forall in F. exact (F b HI). }
    assert (M : N.land b 0x80 <> 0).
    { change 0x80 with (2 ^ 7). intros HZ. assert (T : N.testbit (N.land b (2 ^ 7)) 7 = false) by (rewrite HZ; apply N.bits_0).
      rewrite N.land_spec, N.pow2_bits_true, andb_true_r in T.
      assert (U : N.testbit b 7 = true). { apply N.testbit_true. change (2 ^ 7) with 128. assert (D : b / 128 = 1) by (symmetry; apply (N.div_unique b 128 1 (b - 128)); lia). rewrite D. reflexivity. }
      congruence. }
    destruct (N.eqb_spec (N.land b 0x80) 0); [contradiction|reflexivity].
Qed.

Lemma stream_bytes c ms b : stream c ms b -> Forall is_byte b.
Proof.
  assert (W : forall m x, wire m x -> Forall is_byte x).
  { intros m x H. destruct H as [f k e sd H1 H2 H3 H4|s e d sd H1 H2|n sd H1|c0 H1|n sd H1| |r d rb db H1 H2].
    - apply Forall_app. split; [|apply Forall_app; split; [exact (sdnv_for_bytes _ _ H4)|exact H3]].
      assert (k / 256 < 256) by (apply N.div_lt_upper_bound; lia). assert (k mod 256 < 256) by (apply N.mod_lt; lia). unfold is_byte in *. repeat constructor; lia.
    - constructor; [unfold is_byte, bit; destruct s, e; lia|]. apply Forall_app. split; [exact (sdnv_for_bytes _ _ H2)|exact H1].
    - constructor; [unfold is_byte; lia|exact (sdnv_for_bytes _ _ H1)].
    - constructor; [unfold is_byte; lia|constructor].
    - constructor; [unfold is_byte; lia|exact (sdnv_for_bytes _ _ H1)].
    - constructor; [unfold is_byte; lia|constructor].
    - constructor; [unfold is_byte, bit; destruct (is_some r), (is_some d); lia|]. apply Forall_app. split.
      + destruct r; [destruct H1 as [H1 ->]; now constructor|rewrite H1; constructor].
      + destruct d; [exact (sdnv_for_bytes _ _ H2)|rewrite H2; constructor]. }
  induction 1; [constructor| | |]; apply Forall_app; split; try assumption; eapply W; eassumption.
Qed.
Section Good.
Variables (junk : list N -> list N) (alloc_ok : N -> bool) (maxrx : N).
Hypothesis J : junk_ok junk.
Notation acc := (Forall (acceptable alloc_ok maxrx)).
Definition hdr8 (f k : N) : list N := [0x64; 0x74; 0x6e; 0x21; 3; f; k / 256; k mod 256].
Definition contact_at (i : nat) (s : tcpcl) (R : list N) (es : list tmsg) : Prop :=
  exists f k eid sd ms b, es = Contact f k eid :: ms /\ is_byte f /\ k < 65536 /\ Forall is_byte eid /\ sdnv_for (N.of_nat (length eid)) sd /\ stream true ms b /\
    R = skipn i (hdr8 f k) ++ sd ++ eid ++ b /\ ((i <= 5)%nat \/ t_flags s = f) /\ ((i <= 6)%nat \/ t_keep s = k / 256 * 256).
Definition good (s : tcpcl) (R : list N) (es : list tmsg) : Prop :=
  Forall is_byte R /\ acc es /\
  match t_main s with
  | RdContact =>
    match t_ch s with
    | Sync1 => stream false es R
    | Sync2 => contact_at 1 s R es
    | Sync3 => contact_at 2 s R es
    | Sync4 => contact_at 3 s R es
    | RdVersion => contact_at 4 s R es
    | RdFlags => contact_at 5 s R es
    | RdKeep1 => contact_at 6 s R es
    | RdKeep2 => contact_at 7 s R es
    | RdEidLen => exists f k eid q ms b, es = Contact f k eid :: ms /\ is_byte f /\ k < 65536 /\ Forall is_byte eid /\ stream true ms b /\
        sdnv_for (N.of_nat (length eid)) (t_sdnv s ++ q) /\ q <> [] /\ R = q ++ eid ++ b /\ t_flags s = f /\ t_keep s = k
    | RdEid => exists f k eid e2 sd ms b, es = Contact f k eid :: ms /\ is_byte f /\ k < 65536 /\ Forall is_byte eid /\ stream true ms b /\ sdnv_for (N.of_nat (length eid)) sd /\
        eid = t_eid s ++ e2 /\ e2 <> [] /\ t_eidlen s = N.of_nat (length eid) /\ R = e2 ++ b /\ t_flags s = f /\ t_keep s = k
    end
  | RdType => stream true es R
  | RdData =>
    match t_ds s with
    | RdSdnv => exists d q ms b, es = DataSegment (t_start s) (t_end s) d :: ms /\ Forall is_byte d /\ stream true ms b /\
        sdnv_for (N.of_nat (length d)) (t_sdnv s ++ q) /\ q <> [] /\ R = q ++ d ++ b
    | RdContents => exists d d2 sd ms b, es = DataSegment (t_start s) (t_end s) d :: ms /\ Forall is_byte d /\ stream true ms b /\ sdnv_for (N.of_nat (length d)) sd /\
        d = t_data s ++ d2 /\ d2 <> [] /\ t_len s = N.of_nat (length d) /\ R = d2 ++ b
    end
  | RdAck => exists n q ms b, es = Ack n :: ms /\ stream true ms b /\ sdnv_for n (t_sdnv s ++ q) /\ q <> [] /\ R = q ++ b
  | RdLength => exists n q ms b, es = BundleLength n :: ms /\ stream true ms b /\ sdnv_for n (t_sdnv s ++ q) /\ q <> [] /\ R = q ++ b
  | RdReason => exists r dl db ms b, es = Shutdown (Some r) dl :: ms /\ stream false ms b /\ is_byte r /\ t_hasreason s = true /\ t_hasdelay s = is_some dl /\ t_sdnv s = [] /\
      match dl with Some d => sdnv_for d db | None => db = [] end /\ R = r :: db ++ b
  | RdDelay => exists r d q ms b, es = Shutdown r (Some d) :: ms /\ stream false ms b /\ t_hasreason s = is_some r /\ t_hasdelay s = true /\
      match r with Some x => is_byte x /\ t_reason s = x | None => True end /\ sdnv_for d (t_sdnv s ++ q) /\ q <> [] /\ R = q ++ b
  end.

Lemma pk0 (r : option (tcpcl * list tcb * nat)) s' R es k : r = Some (s', [], k) -> good s' R es ->
  exists s' o k' e es', r = Some (s', o, k') /\ (k' = k) /\ es = e ++ es' /\ Forall2 reports o e /\ good s' R es'.
Proof. intros H G. exists s', [], k, [], es. auto. Qed.
Lemma pk1 (r : option (tcpcl * list tcb * nat)) s' R o m es k : r = Some (s', [o], k) -> reports o m -> good s' R es ->
  exists s' o k' e es', r = Some (s', o, k') /\ (k' = k) /\ m :: es = e ++ es' /\ Forall2 reports o e /\ good s' R es'.
Proof. intros H P G. exists s', [o], k, [m], es. split; [exact H|]. auto 6. Qed.
Lemma acc_tail m ms : acc (m :: ms) -> acc ms.
Proof. intros H. now inversion H. Qed.
Lemma snoc_cons (p : list N) b q : p ++ b :: q = (p ++ [b]) ++ q.
Proof. now rewrite <- app_assoc. Qed.
Lemma contact_good s b R es : t_main s = RdContact -> good s (b :: R) es ->
  exists s' o k e es', contact_step junk alloc_ok s b = Some (s', o, k) /\ k = O /\ es = e ++ es' /\ Forall2 reports o e /\ good s' R es'.
Proof.
  intros EM (FB & FA & G). rewrite EM in G. inversion FB as [|x y B0 FR]; subst x y. unfold contact_step.
  assert (ADV : forall i h, contact_at i s (b :: R) es -> (i < 5)%nat -> exists f k, b = nth i (hdr8 f k) 0 /\ contact_at (S i) (set_ch s h) R es).
  { intros i h (f & k & eid & sd & ms & bb & E & H1 & H2 & H3 & H4 & H5 & HR & H6 & H7) Hi. exists f, k.
    assert (b = nth i (hdr8 f k) 0 /\ R = skipn (S i) (hdr8 f k) ++ sd ++ eid ++ bb).
    { destruct i as [|[|[|[|[|i]]]]]; cbn [hdr8 skipn app nth] in *; try (injection HR as E1 E2; split; [exact E1|exact E2]); lia. }
    split; [tauto|]. exists f, k, eid, sd, ms, bb. do 7 (split; [tauto|]). split; [left; lia|left; lia]. }
  destruct (t_ch s) eqn:EC.
  - inversion G as [|f k e bb ms bs W ST E1 E2 E3| |]; subst es. all: try subst. inversion W as [f' k' e' sd H1 H2 H3 H4| | | | | |]; subst. cbn [app] in E3. injection E3 as <- <-.
    eapply pk0; [reflexivity|]. change (0x64 =? 0x64) with true. cbn iota.
    unfold good. cbn [t_main t_ch set_ch]. rewrite EM. split; [exact FR|]. split; [exact FA|].
    exists f, k, e, sd, ms, bs. do 6 (split; [assumption || reflexivity|]). split; [cbn [skipn hdr8 app]; now rewrite <- app_assoc|]. split; left; lia.
  - destruct (ADV 1%nat Sync3 G ltac:(lia)) as (f & k & EB & G'). cbn in EB. subst b.
    eapply pk0 with (s' := set_ch s Sync3); [reflexivity|]. unfold good. cbn [t_main t_ch set_ch]. rewrite EM. auto.
  - destruct (ADV 2%nat Sync4 G ltac:(lia)) as (f & k & EB & G'). cbn in EB. subst b.
    eapply pk0 with (s' := set_ch s Sync4); [reflexivity|]. unfold good. cbn [t_main t_ch set_ch]. rewrite EM. auto.
  - destruct (ADV 3%nat RdVersion G ltac:(lia)) as (f & k & EB & G'). cbn in EB. subst b.
    eapply pk0 with (s' := set_ch s RdVersion); [reflexivity|]. unfold good. cbn [t_main t_ch set_ch]. rewrite EM. auto.
  - destruct (ADV 4%nat RdFlags G ltac:(lia)) as (f & k & EB & G'). cbn in EB. subst b.
    eapply pk0 with (s' := set_ch s RdFlags); [reflexivity|]. unfold good. cbn [t_main t_ch set_ch]. rewrite EM. auto.
  - destruct G as (f & k & eid & sd & ms & bb & E & H1 & H2 & H3 & H4 & H5 & HR & H6 & H7). cbn [hdr8 skipn app] in HR. injection HR as -> ->.
    eapply pk0; [reflexivity|]. unfold good. cbn [t_main t_ch set_ch set_flags]. rewrite EM. split; [exact FR|]. split; [exact FA|].
    exists f, k, eid, sd, ms, bb. do 6 (split; [assumption|]). split; [reflexivity|]. split; [right; reflexivity|left; lia].
  - destruct G as (f & k & eid & sd & ms & bb & E & H1 & H2 & H3 & H4 & H5 & HR & H6 & H7). cbn [hdr8 skipn app] in HR. injection HR as -> ->.
    eapply pk0; [reflexivity|]. unfold good. cbn [t_main t_ch set_ch set_keep]. rewrite EM. split; [exact FR|]. split; [exact FA|].
    exists f, k, eid, sd, ms, bb. do 6 (split; [assumption|]). split; [reflexivity|]. cbn [t_flags t_keep]. split; [right; destruct H6; [lia|assumption]|right].
    cbn [set_keep set_ch t_keep]. rewrite N.shiftl_mul_pow2. change (2 ^ 8) with 256. apply N.mod_small. unfold is_byte in B0. lia.
  - destruct G as (f & k & eid & sd & ms & bb & E & H1 & H2 & H3 & H4 & H5 & HR & H6 & H7). cbn [hdr8 skipn app] in HR. injection HR as -> ->.
    eapply pk0; [reflexivity|]. unfold good. cbn [t_main t_ch set_ch set_keep set_eid set_sdnv t_sdnv t_flags t_keep]. rewrite EM. split; [exact FR|]. split; [exact FA|].
    exists f, k, eid, sd, ms, bb. do 5 (split; [assumption|]). split; [assumption|]. split; [exact (sdnv_for_nonempty _ _ H4)|]. split; [reflexivity|].
    split; [destruct H6; [lia|assumption]|]. destruct H7 as [H7|H7]; [lia|]. rewrite H7.
    assert (D := N.div_mod k 256 ltac:(lia)). assert (M := N.mod_lt k 256 ltac:(lia)). change 256 with (2 ^ 8). rewrite lor_low by exact M. change (2 ^ 8) with 256. lia.
  - destruct G as (f & k & eid & q & ms & bb & E & H1 & H2 & H3 & H5 & H4 & Q & HR & H6 & H7). destruct q as [|q0 q]; [contradiction|]. cbn [app] in HR. injection HR as -> ->.
    rewrite (rd_sdnv_ok junk _ _ _ _ J H4). subst es. destruct q as [|q1 q].
    + assert (A := Forall_inv FA). destruct A as [A1 A2]. rewrite A2. eapply pk0; [reflexivity|]. unfold good. cbn [t_main t_ch set_ch set_eid set_sdnv]. rewrite EM. split; [exact FR|]. split; [exact FA|].
      exists f, k, eid, eid, (t_sdnv s ++ [q0]), ms, bb. cbn [t_eid t_eidlen t_flags t_keep app]. repeat (split; [assumption || reflexivity|]). assumption.
    + eapply pk0; [reflexivity|]. unfold good. cbn [t_main t_ch set_ch set_sdnv t_sdnv t_flags t_keep]. rewrite EM, EC. split; [exact FR|]. split; [exact FA|].
      exists f, k, eid, (q1 :: q), ms, bb. rewrite snoc_cons in H4. repeat (split; [assumption || reflexivity || discriminate|]). assumption.
  - destruct G as (f & k & eid & e2 & sd & ms & bb & E & H1 & H2 & H3 & H5 & H4 & EE & Q & EL & HR & H6 & H7). destruct e2 as [|q0 q]; [contradiction|]. cbn [app] in HR. injection HR as -> ->. cbv zeta.
    subst es. assert (LE : length eid = (length (t_eid s ++ [q0]) + length q)%nat) by (rewrite EE, snoc_cons, (app_length (t_eid s ++ [q0])); lia).
    destruct q as [|q1 q].
    + cbn [length] in LE. replace (N.of_nat (length (t_eid s ++ [q0])) =? t_eidlen s) with true by lia. eapply pk1; [reflexivity| |].
      * cbn [reports set_main set_ch set_eid t_flags t_keep]. now rewrite H6, H7, EE.
      * unfold good. cbn [t_main set_main]. split; [exact FR|]. split; [exact (acc_tail _ _ FA)|exact H5].
    + cbn [length] in LE. replace (N.of_nat (length (t_eid s ++ [q0])) =? t_eidlen s) with false by lia. eapply pk0; [reflexivity|].
      unfold good. cbn [t_main t_ch set_eid]. rewrite EM, EC. split; [exact FR|]. split; [exact FA|].
      exists f, k, eid, (q1 :: q), sd, ms, bb. rewrite snoc_cons in EE. cbn [t_eid t_eidlen t_flags t_keep]. repeat (split; [assumption || reflexivity || discriminate|]). assumption.
Qed.

Lemma type_data a e : N.land (N.shiftr (16 + 2 * bit a + bit e) 4) 15 = 1 /\ negb (N.land (N.land (16 + 2 * bit a + bit e) 15) 2 =? 0) = a /\ negb (N.land (N.land (16 + 2 * bit a + bit e) 15) 1 =? 0) = e.
Proof. destruct a, e; repeat split. Qed.
Lemma type_shut a e : N.land (N.shiftr (80 + 2 * bit a + bit e) 4) 15 = 5 /\ negb (N.land (N.land (80 + 2 * bit a + bit e) 15) 2 =? 0) = a /\ negb (N.land (N.land (80 + 2 * bit a + bit e) 15) 1 =? 0) = e.
Proof. destruct a, e; repeat split. Qed.
Lemma type_refuse c : c < 16 -> N.land (N.shiftr (48 + c) 4) 15 = 3 /\ N.land (48 + c) 15 = c.
Proof.
  intros H. assert (K : exists n, c = N.of_nat n /\ (n < 16)%nat) by (exists (N.to_nat c); lia). destruct K as (n & -> & K).
  do 16 (destruct n as [|n]; [split; reflexivity|]). lia.
Qed.
Lemma type_good s b rest later es : t_main s = RdType -> good s (b :: rest ++ later) es ->
  exists s' o k e es', type_step alloc_ok s b rest = Some (s', o, k) /\ (k <= length rest)%nat /\ es = e ++ es' /\ Forall2 reports o e /\ good s' (skipn k rest ++ later) es'.
Proof.
  intros EM (FB & FA & G). rewrite EM in G. inversion FB as [|x y B0 FR]; subst x y. unfold type_step.
  assert (P : forall r k R0, (k <= length rest)%nat -> (exists s' o k' e es', r = Some (s', o, k') /\ k' = k /\ es = e ++ es' /\ Forall2 reports o e /\ good s' R0 es') -> R0 = skipn k rest ++ later ->
     exists s' o k e es', r = Some (s', o, k) /\ (k <= length rest)%nat /\ es = e ++ es' /\ Forall2 reports o e /\ good s' (skipn k rest ++ later) es').
  { intros r k R0 K (s' & o & k' & e & es' & E1 & -> & E2 & E3 & E4) ->. exists s', o, k, e, es'. auto. }
  remember (b :: rest ++ later) as R eqn:ER. remember true as c eqn:EC. destruct G as [c|f k e0 bb ms bs W ST|m bb ms bs W NC ST|r d bb ms bs W ST]; try discriminate.
  - destruct W as [f k e0 sd H1 H2 H3 H4|a e d sd H1 H2|n sd H1|c0 H1|n sd H1| |]; try contradiction; cbn [app] in ER; injection ER as EB ER; subst b.
    + destruct (type_data a e) as (T1 & T2 & T3). rewrite T1, T2, T3. change (1 =? 1) with true. cbn iota.
      assert (A := Forall_inv FA). destruct A as (A1 & A2 & A3). rewrite <- app_assoc in ER. destruct (Nat.leb_spec 16 (length rest)) as [L|L].
      * assert (LS := proj1 (proj2 H2)). assert (ES : rest = sd ++ skipn (length sd) rest).
        { assert (F := f_equal (firstn (length sd)) ER). rewrite !firstn_app, Nat.sub_diag, firstn_O, app_nil_r, firstn_all in F.
          replace (length sd - length rest)%nat with 0%nat in F by lia. rewrite firstn_O, app_nil_r in F. rewrite F at 1. symmetry. apply firstn_skipn. }
        assert (FRR : Forall is_byte (skipn (length sd) rest)). { rewrite ES in FR. apply Forall_app in FR. destruct FR as [FR _]. apply Forall_app in FR. tauto. }
        replace (sdnv_decode64 rest) with (sdnv_decode64 (sd ++ skipn (length sd) rest)) by now rewrite <- ES. rewrite (decode_sdnv_for _ _ _ H2 FRR). assert (length sd <> 0)%nat by (assert (X := sdnv_for_nonempty _ _ H2); destruct sd; [contradiction|discriminate]).
        replace (N.of_nat (length sd) =? 0) with false by lia. rewrite A3, Nat2N.id. eapply P; [|eapply pk0; [reflexivity|]|reflexivity]; [lia|].
        unfold good. cbn [t_main t_ds set_seg set_main set_sdnv set_se t_start t_end t_data t_len].
        assert (ED : skipn (length sd) rest ++ later = d ++ bs). { rewrite ES in ER at 1. rewrite <- app_assoc in ER. now apply app_inv_head in ER. }
        rewrite ED. split; [rewrite <- ER in FR; apply Forall_app in FR; tauto|]. split; [exact FA|]. exists d, d, sd, ms, bs. repeat (split; [assumption || reflexivity|]). reflexivity.
      * eapply (P _ O); [|eapply pk0; [reflexivity|]|reflexivity]; [lia|]. unfold good. cbn [t_main t_ds set_seg set_main set_sdnv set_se t_start t_end t_data t_len t_sdnv].
        split; [exact FR|]. split; [exact FA|]. exists d, sd, ms, bs. repeat (split; [assumption || reflexivity|]). split; [exact (sdnv_for_nonempty _ _ H2)|]. now symmetry.
    + change (N.land (N.shiftr 32 4) 15) with 2. change (2 =? 1) with false. change (2 =? 2) with true. cbn iota. eapply (P _ O); [|eapply pk0; [reflexivity|]|reflexivity]; [lia|].
      unfold good. cbn [t_main set_main set_sdnv t_sdnv]. split; [exact FR|]. split; [exact FA|]. exists n, sd, ms, bs. repeat (split; [assumption || reflexivity|]). split; [exact (sdnv_for_nonempty _ _ H1)|]. now symmetry.
    + destruct (type_refuse c0 H1) as [T1 T2]. rewrite T1, T2. change (3 =? 1) with false. change (3 =? 2) with false. change (3 =? 3) with true. cbn iota.
      eapply (P _ O); [|eapply pk1; [reflexivity|reflexivity|]|reflexivity]; [lia|]. unfold good. rewrite EM. split; [exact FR|]. split; [exact (acc_tail _ _ FA)|]. cbn [skipn app] in ER |- *. rewrite <- ER. exact ST.
    + change (N.land (N.shiftr 96 4) 15) with 6. change (6 =? 1) with false. change (6 =? 2) with false. change (6 =? 3) with false. change (6 =? 6) with true. cbn iota. eapply (P _ O); [|eapply pk0; [reflexivity|]|reflexivity]; [lia|].
      unfold good. cbn [t_main set_main set_sdnv t_sdnv]. split; [exact FR|]. split; [exact FA|]. exists n, sd, ms, bs. repeat (split; [assumption || reflexivity|]). split; [exact (sdnv_for_nonempty _ _ H1)|]. now symmetry.
    + change (N.land (N.shiftr 64 4) 15) with 4. change (4 =? 1) with false. change (4 =? 2) with false. change (4 =? 3) with false. change (4 =? 6) with false. change (4 =? 4) with true. cbn iota.
      eapply (P _ O); [|eapply pk1; [reflexivity|reflexivity|]|reflexivity]; [lia|]. unfold good. rewrite EM. split; [exact FR|]. split; [exact (acc_tail _ _ FA)|]. cbn [skipn app] in ER |- *. rewrite <- ER. exact ST.
  - inversion W as [| | | | | |r' d' rb db H1 H2]; subst r' d' bb. cbn [app] in ER. injection ER as EB ER. subst b.
    destruct (type_shut (is_some r) (is_some d)) as (T1 & T2 & T3). rewrite T1, T2, T3.
    change (5 =? 1) with false. change (5 =? 2) with false. change (5 =? 3) with false. change (5 =? 6) with false. change (5 =? 4) with false. change (5 =? 5) with true. cbn iota. cbv zeta.
    rewrite <- app_assoc in ER. destruct r as [r|]; cbn [is_some].
    + destruct H1 as [H1 ->]. eapply (P _ O); [|eapply pk0; [reflexivity|]|reflexivity]; [lia|]. unfold good. cbn [t_main set_main set_sdnv set_shut t_sdnv t_hasreason t_hasdelay].
      split; [exact FR|]. split; [exact FA|]. exists r, d, db, ms, bs. repeat (split; [assumption || reflexivity|]). now symmetry.
    + rewrite H1 in ER. cbn [app] in ER. destruct d as [d|]; cbn [is_some].
      * eapply (P _ O); [|eapply pk0; [reflexivity|]|reflexivity]; [lia|]. unfold good. cbn [t_main set_main set_sdnv set_shut t_sdnv t_hasreason t_hasdelay].
        split; [exact FR|]. split; [exact FA|]. exists None, d, db, ms, bs. repeat (split; [assumption || reflexivity || exact I|]). split; [exact (sdnv_for_nonempty _ _ H2)|]. now symmetry.
      * rewrite H2 in ER. cbn [app] in ER. eapply (P _ O); [|eapply pk1; [reflexivity| |]|reflexivity]; [lia| |].
        -- exists 3. split; reflexivity.
        -- unfold good. cbn [t_main t_ch to_contact set_main set_ch]. split; [exact FR|]. split; [exact (acc_tail _ _ FA)|]. cbn [skipn app] in ER |- *. rewrite <- ER. exact ST.
Qed.
Lemma data_good s b rest later es : t_main s = RdData -> good s (b :: rest ++ later) es ->
  exists s' o k e es', data_step junk alloc_ok maxrx s b rest = Some (s', o, k) /\ (k <= length rest)%nat /\ es = e ++ es' /\ Forall2 reports o e /\ good s' (skipn k rest ++ later) es'.
Proof.
  intros EM (FB & FA & G). rewrite EM in G. inversion FB as [|x y B0 FR]; subst x y. unfold data_step.
  assert (P : forall r k, (k <= length rest)%nat -> (exists s' o k' e es', r = Some (s', o, k') /\ k' = k /\ es = e ++ es' /\ Forall2 reports o e /\ good s' (skipn k rest ++ later) es') ->
     exists s' o k e es', r = Some (s', o, k) /\ (k <= length rest)%nat /\ es = e ++ es' /\ Forall2 reports o e /\ good s' (skipn k rest ++ later) es').
  { intros r k K (s' & o & k' & e & es' & E1 & -> & E2 & E3 & E4). exists s', o, k, e, es'. auto. }
  destruct (t_ds s) eqn:ED.
  - destruct G as (d & q & ms & bb & E & H1 & H2 & H3 & Q & HR). destruct q as [|q0 q]; [contradiction|]. cbn [app] in HR. injection HR as -> HR.
    rewrite (rd_sdnv_ok junk _ _ _ _ J H3). subst es. assert (A := Forall_inv FA). destruct A as (A1 & A2 & A3). destruct q as [|q1 q].
    + cbv zeta. replace (maxrx <? N.of_nat (length d)) with false by lia. rewrite A3. apply (P _ O); [lia|]. eapply pk0; [reflexivity|].
      unfold good. cbn [t_main t_ds set_seg set_sdnv t_data t_start t_end t_len skipn]. rewrite EM. split; [exact FR|]. split; [exact FA|].
      exists d, d, (t_sdnv s ++ [q0]), ms, bb. repeat (split; [assumption || reflexivity|]). exact HR.
    + apply (P _ O); [lia|]. eapply pk0; [reflexivity|]. unfold good. cbn [t_main t_ds set_sdnv t_sdnv t_start t_end skipn]. rewrite EM, ED. split; [exact FR|]. split; [exact FA|].
      exists d, (q1 :: q), ms, bb. rewrite snoc_cons in H3. repeat (split; [assumption || reflexivity || discriminate|]). exact HR.
  - destruct G as (d & d2 & sd & ms & bb & E & H1 & H2 & H3 & EE & Q & EL & HR). destruct d2 as [|q0 q]; [contradiction|]. cbn [app] in HR. injection HR as -> HR. cbv zeta.
    subst es. assert (LE : length d = (length (t_data s ++ [q0]) + length q)%nat) by (rewrite EE, snoc_cons, (app_length (t_data s ++ [q0])); lia).
    destruct q as [|q1 q].
    + cbn [length] in LE. replace (N.of_nat (length (t_data s ++ [q0])) =? t_len s) with true by lia. apply (P _ O); [lia|]. eapply pk1; [reflexivity| |].
      * cbn [reports]. now rewrite EE.
      * unfold good. cbn [t_main set_main skipn]. split; [exact FR|]. split; [exact (acc_tail _ _ FA)|]. cbn [app] in HR. rewrite HR. exact H2.
    + replace (N.of_nat (length (t_data s ++ [q0])) =? t_len s) with false by (cbn [length] in LE; lia).
      set (k := Nat.min (length rest) _). assert (HW := proj2 (proj2 (proj2 H3))). unfold W64 in HW.
      assert (HK : k = Nat.min (length rest) (length q)).
      { unfold k. rewrite sub64_small by (unfold W64; lia). cbn [length] in LE. lia. }
      clearbody k. apply (P _ k); [lia|]. eapply pk0; [reflexivity|].
      unfold good. cbn [t_main t_ds set_seg t_data t_start t_end t_len]. rewrite EM.
      assert (SK : rest ++ later = firstn k rest ++ (skipn k rest ++ later)) by (rewrite app_assoc, firstn_skipn; reflexivity).
      assert (F1 : firstn k rest = firstn k (q1 :: q)).
      { assert (X := f_equal (firstn k) HR). rewrite !firstn_app in X. replace (k - length rest)%nat with 0%nat in X by lia. replace (k - length (q1 :: q))%nat with 0%nat in X by (cbn [length]; lia).
        rewrite !firstn_O, !app_nil_r in X. exact X. }
      split; [rewrite SK in FR; apply Forall_app in FR; tauto|]. split; [exact FA|].
      exists d, (skipn k (q1 :: q)), sd, ms, bb. split; [reflexivity|]. split; [assumption|]. split; [assumption|]. split; [assumption|].
      split; [rewrite F1, <- !app_assoc, firstn_skipn; exact EE|].
      split; [intros HN; apply (f_equal (@length N)) in HN; rewrite skipn_length in HN; cbn [length] in HN; lia|]. split; [assumption|].
      rewrite SK, F1 in HR. rewrite <- (firstn_skipn k (q1 :: q)) in HR at 2. rewrite <- app_assoc in HR. now apply app_inv_head in HR.
Qed.
Lemma good_step s b rest later es : good s (b :: rest ++ later) es ->
  exists s' o k e es', tc_step junk alloc_ok maxrx s b rest = Some (s', o, k) /\ (k <= length rest)%nat /\ es = e ++ es' /\ Forall2 reports o e /\ good s' (skipn k rest ++ later) es'.
Proof.
  intros GG. unfold tc_step. destruct (t_main s) eqn:EM.
  - destruct (contact_good s b (rest ++ later) es EM GG) as (s' & o & k & e & es' & E & -> & H). exists s', o, O, e, es'. split; [exact E|]. split; [lia|exact H].
  - now apply type_good.
  - now apply data_good.
  - destruct GG as (FB & FA & G). rewrite EM in G. inversion FB as [|x y B0 FR]; subst x y. destruct G as (n & q & ms & bb & E & H2 & H3 & Q & HR). destruct q as [|q0 q]; [contradiction|]. cbn [app] in HR. injection HR as -> HR.
    unfold sdnv_step. rewrite (rd_sdnv_ok junk _ _ _ _ J H3). subst es. destruct q as [|q1 q].
    + eexists _, [CbAck n], O, [Ack n], ms. split; [reflexivity|]. split; [lia|]. split; [reflexivity|]. split; [now constructor|].
      unfold good. cbn [t_main set_main skipn]. split; [exact FR|]. split; [exact (acc_tail _ _ FA)|]. cbn [app] in HR. rewrite HR. exact H2.
    + eexists _, [], O, [], _. split; [reflexivity|]. split; [lia|]. split; [reflexivity|]. split; [now constructor|].
      unfold good. cbn [t_main set_sdnv skipn t_sdnv]. rewrite EM. split; [exact FR|]. split; [exact FA|]. rewrite snoc_cons in H3. exists n, (q1 :: q), ms, bb. repeat (split; [assumption || reflexivity || discriminate|]). exact HR.
  - destruct GG as (FB & FA & G). rewrite EM in G. inversion FB as [|x y B0 FR]; subst x y. destruct G as (n & q & ms & bb & E & H2 & H3 & Q & HR). destruct q as [|q0 q]; [contradiction|]. cbn [app] in HR. injection HR as -> HR.
    unfold sdnv_step. rewrite (rd_sdnv_ok junk _ _ _ _ J H3). subst es. destruct q as [|q1 q].
    + eexists _, [CbLength n], O, [BundleLength n], ms. split; [reflexivity|]. split; [lia|]. split; [reflexivity|]. split; [now constructor|].
      unfold good. cbn [t_main set_main skipn]. split; [exact FR|]. split; [exact (acc_tail _ _ FA)|]. cbn [app] in HR. rewrite HR. exact H2.
    + eexists _, [], O, [], _. split; [reflexivity|]. split; [lia|]. split; [reflexivity|]. split; [now constructor|].
      unfold good. cbn [t_main set_sdnv skipn t_sdnv]. rewrite EM. split; [exact FR|]. split; [exact FA|]. rewrite snoc_cons in H3. exists n, (q1 :: q), ms, bb. repeat (split; [assumption || reflexivity || discriminate|]). exact HR.
  - destruct GG as (FB & FA & G). rewrite EM in G. inversion FB as [|x y B0 FR]; subst x y. destruct G as (r & dl & db & ms & bb & E & H1 & H2 & H3 & H4 & H5 & H6 & HR). injection HR as -> HR. subst es. cbv zeta. cbn [t_hasdelay set_shut t_hasreason].
    rewrite H3, H4. destruct dl as [d|]; cbn [is_some].
    + eexists _, [], O, [], _. split; [reflexivity|]. split; [lia|]. split; [reflexivity|]. split; [now constructor|].
      unfold good. cbn [t_main set_main set_shut skipn t_sdnv t_hasreason t_hasdelay t_reason]. split; [exact FR|]. split; [exact FA|]. exists (Some r), d, db, ms, bb. rewrite H5. cbn [app is_some].
      repeat (split; [assumption || reflexivity|]). split; [split; [assumption|reflexivity]|]. split; [assumption|]. split; [exact (sdnv_for_nonempty _ _ H6)|exact HR].
    + eexists _, [_], O, [Shutdown (Some r) None], ms. split; [reflexivity|]. split; [lia|]. split; [reflexivity|]. split; [constructor; [|constructor]; exists r; split; reflexivity|].
      unfold good. cbn [t_main t_ch to_contact set_main set_ch skipn]. split; [exact FR|]. split; [exact (acc_tail _ _ FA)|]. rewrite HR, H6. exact H1.
  - destruct GG as (FB & FA & G). rewrite EM in G. inversion FB as [|x y B0 FR]; subst x y. destruct G as (r & d & q & ms & bb & E & H2 & HR1 & HR2 & HR3 & H3 & Q & HR). destruct q as [|q0 q]; [contradiction|]. cbn [app] in HR. injection HR as -> HR.
    unfold sdnv_step. rewrite (rd_sdnv_ok junk _ _ _ _ J H3). subst es. destruct q as [|q1 q].
    + eexists _, [_], O, [Shutdown r (Some d)], ms. split; [reflexivity|]. split; [lia|]. split; [reflexivity|]. split.
      { constructor; [|constructor]. exists (t_reason s). cbn [set_sdnv t_hasreason t_hasdelay t_reason]. rewrite HR1, HR2. split; [reflexivity|]. destruct r; tauto. }
      unfold good. cbn [t_main t_ch to_contact set_main set_ch skipn]. split; [exact FR|]. split; [exact (acc_tail _ _ FA)|]. cbn [app] in HR. rewrite HR. exact H2.
    + eexists _, [], O, [], _. split; [reflexivity|]. split; [lia|]. split; [reflexivity|]. split; [now constructor|].
      unfold good. cbn [t_main set_sdnv skipn t_sdnv t_hasreason t_hasdelay t_reason]. rewrite EM. split; [exact FR|]. split; [exact FA|]. rewrite snoc_cons in H3. exists r, d, (q1 :: q), ms, bb. repeat (split; [assumption || reflexivity || discriminate|]). exact HR.
Qed.
(** What [good] says about the rest of the stream. *)
Lemma stream_missing c ms b : stream c ms b -> missing ms b.
Proof.
  assert (W : forall m x, wire m x -> x <> []) by (intros m x H; destruct H; discriminate).
  intros H. destruct H as [c|f k e bb ms bs H ST|m bb ms bs H NC ST|r d bb ms bs H ST]; [left; auto| | |]; right.
  - exists (Contact f k e), ms, [], bb, true, bs. repeat (split; [reflexivity || assumption|]). split; [eapply W; eassumption|auto].
  - exists m, ms, [], bb, true, bs. repeat (split; [reflexivity || assumption|]). split; [eapply W; eassumption|auto].
  - exists (Shutdown r d), ms, [], bb, false, bs. repeat (split; [reflexivity || assumption|]). split; [eapply W; eassumption|auto].
Qed.
Lemma good_missing s R es : good s R es -> missing es R.
Proof.
  intros (FB & FA & G).
  assert (CA : forall i, (i < 8)%nat -> contact_at i s R es -> missing es R).
  { intros i Hi (f & k & eid & sd & ms & bb & E & H1 & H2 & H3 & H4 & H5 & HR & _). right. exists (Contact f k eid), ms, (firstn i (hdr8 f k)), (skipn i (hdr8 f k) ++ sd ++ eid), true, bb.
    split; [exact E|]. split; [rewrite app_assoc, firstn_skipn; now constructor|]. split; [do 8 (destruct i as [|i]; [discriminate|]); lia|]. split; [assumption|]. now rewrite <- !app_assoc. }
  destruct (t_main s); [destruct (t_ch s)| |destruct (t_ds s)| | | |].
  - eapply stream_missing; eassumption.
  - apply (CA 1%nat ltac:(lia) G).
  - apply (CA 2%nat ltac:(lia) G).
  - apply (CA 3%nat ltac:(lia) G).
  - apply (CA 4%nat ltac:(lia) G).
  - apply (CA 5%nat ltac:(lia) G).
  - apply (CA 6%nat ltac:(lia) G).
  - apply (CA 7%nat ltac:(lia) G).
  - destruct G as (f & k & eid & q & ms & bb & E & H1 & H2 & H3 & H5 & H4 & Q & HR & H6 & H7). right.
    exists (Contact f k eid), ms, (hdr8 f k ++ t_sdnv s), (q ++ eid), true, bb. split; [exact E|]. split; [rewrite <- app_assoc, (app_assoc (t_sdnv s)); now constructor|].
    split; [destruct q; [contradiction|discriminate]|]. split; [assumption|]. now rewrite <- app_assoc.
  - destruct G as (f & k & eid & e2 & sd & ms & bb & E & H1 & H2 & H3 & H5 & H4 & EE & Q & EL & HR & H6 & H7). right.
    exists (Contact f k eid), ms, (hdr8 f k ++ sd ++ t_eid s), e2, true, bb. split; [exact E|]. split; [rewrite <- !app_assoc, <- EE; now constructor|]. auto.
  - eapply stream_missing; eassumption.
  - destruct G as (d & q & ms & bb & E & H1 & H2 & H3 & Q & HR). right. exists (DataSegment (t_start s) (t_end s) d), ms, ((16 + 2 * bit (t_start s) + bit (t_end s)) :: t_sdnv s), (q ++ d), true, bb.
    split; [exact E|]. split; [cbn [app]; rewrite app_assoc; now constructor|]. split; [destruct q; [contradiction|discriminate]|]. split; [assumption|]. now rewrite <- app_assoc.
  - destruct G as (d & d2 & sd & ms & bb & E & H1 & H2 & H3 & EE & Q & EL & HR). right. exists (DataSegment (t_start s) (t_end s) d), ms, ((16 + 2 * bit (t_start s) + bit (t_end s)) :: sd ++ t_data s), d2, true, bb.
    split; [exact E|]. split; [cbn [app]; rewrite <- app_assoc, <- EE; now constructor|]. auto.
  - destruct G as (n & q & ms & bb & E & H2 & H3 & Q & HR). right. exists (Ack n), ms, (32 :: t_sdnv s), q, true, bb. split; [exact E|]. split; [cbn [app]; now constructor|]. auto.
  - destruct G as (n & q & ms & bb & E & H2 & H3 & Q & HR). right. exists (BundleLength n), ms, (96 :: t_sdnv s), q, true, bb. split; [exact E|]. split; [cbn [app]; now constructor|]. auto.
  - destruct G as (r & dl & db & ms & bb & E & H1 & H2 & H3 & H4 & H5 & H6 & HR). right. exists (Shutdown (Some r) dl), ms, [80 + 2 * 1 + bit (is_some dl)], (r :: db), false, bb.
    split; [exact E|]. split; [cbn [app]; change (r :: db) with ([r] ++ db); apply (WShutdown (Some r) dl [r] db); [split; [assumption|reflexivity]|exact H6]|]. split; [discriminate|]. auto.
  - destruct G as (r & d & q & ms & bb & E & H2 & HR1 & HR2 & HR3 & H3 & Q & HR). right. set (rb := match r with Some x => [x] | None => [] end).
    exists (Shutdown r (Some d)), ms, ((80 + 2 * bit (is_some r) + bit (is_some (Some d))) :: rb ++ t_sdnv s), q, false, bb.
    split; [exact E|]. split; [cbn [app]; rewrite <- app_assoc; apply (WShutdown r (Some d) rb (t_sdnv s ++ q)); [destruct r; [split; [tauto|reflexivity]|reflexivity]|exact H3]|]. auto.
Qed.
End Good.
(** * The generators *)
Lemma sdnv10_ok v : v < W64 -> exists sd, sdnv10 v = Some sd /\ sdnv_for v sd.
Proof.
  intros Hv. unfold sdnv10. destruct (branch64 v Hv) as (A & B & C). destruct (encode64_fast_ok v (repeat 0 10) Hv ltac:(rewrite repeat_length; lia)) as (junk & E & L).
  set (n := sdnv_branch sdnv64_max 1 v) in *. rewrite E, Nat2N.id. assert (EL := enc_length n v ltac:(lia)). rewrite firstn_app, EL, Nat.sub_diag, firstn_O, app_nil_r. rewrite (firstn_all2 (enc n v)) by lia.
  exists (enc n v). split; [reflexivity|]. destruct (enc_shortest n v ltac:(lia)) as (S1 & S2 & S3); [tauto|tauto|]. repeat split; [exact S1|lia|exact S2|exact Hv].
Qed.
Lemma hdr_data s e : N.lor (N.lor (N.shiftl 1 4) (if s : bool then 2 else 0)) (if e : bool then 1 else 0) = 16 + 2 * bit s + bit e.
Proof. destruct s, e; reflexivity. Qed.
Lemma hdr_shut s e : N.lor (N.lor (N.shiftl 5 4) (if s : bool then 2 else 0)) (if e : bool then 1 else 0) = 80 + 2 * bit s + bit e.
Proof. destruct s, e; reflexivity. Qed.
Lemma hdr_refuse c : c < 16 -> N.lor (N.shiftl 3 4) c = 48 + c.
Proof. intros H. change (N.shiftl 3 4) with (3 * 2 ^ 4). rewrite lor_low by exact H. reflexivity. Qed.

(** * Arbitrary input *)
Lemma decode_total bs : Forall is_byte bs -> exists v k, sdnv_decode64 bs = Some (v, k) /\ (N.to_nat k <= length bs)%nat.
Proof.
  intros H. destruct (C11_decode64_meets_specification _ H) as ([v k] & E & D & _). exists v, k. split; [exact E|]. 
  inversion D as [p rest E1 E2 E3 E4|p rest E1 E2 E3 E4|p rest E1 E2 E3|E1 E2]; try (cbn; lia). rewrite E1, app_length, Nat2N.id. lia.
Qed.
Lemma rd_sdnv_total junk p b : junk_ok junk -> Forall is_byte p -> is_byte b -> exists r, rd_sdnv junk p b = Some r /\ Forall is_byte (match r with SdMore v => v | SdFail v => v | SdOk v _ => v end).
Proof.
  intros J P B. unfold rd_sdnv. assert (F : Forall is_byte (p ++ [b])) by (apply Forall_app; auto). destruct (Nat.ltb 10 _); [eauto|]. destruct (_ =? 0); [|eauto].
  destruct (decode_total ((p ++ [b]) ++ junk (p ++ [b]))) as (v & k & E & _); [apply Forall_app; auto|]. rewrite E. destruct (k =? 0); [eauto|]. destruct (negb _); eauto.
Qed.
Lemma step_total junk alloc_ok maxrx s b rest : junk_ok junk -> (forall n, alloc_ok n = true) -> Forall is_byte (t_sdnv s) -> Forall is_byte (b :: rest) ->
  exists s' o k, tc_step junk alloc_ok maxrx s b rest = Some (s', o, k) /\ (k <= length rest)%nat /\ Forall is_byte (t_sdnv s').
Proof.
  intros J A F FB. inversion FB as [|x y B0 FR]; subst x y. unfold tc_step.
  destruct (rd_sdnv_total junk (t_sdnv s) b J F B0) as (r & E & FV).
  assert (SD : forall d, (forall n c, Forall is_byte (t_sdnv c) -> Forall is_byte (t_sdnv (fst (d n c)))) -> exists s' o k, sdnv_step junk s b d = Some (s', o, k) /\ (k <= length rest)%nat /\ Forall is_byte (t_sdnv s')).
  { intros d D. unfold sdnv_step. rewrite E. destruct r as [v|v|v n]; try (eexists _, _, _; split; [reflexivity|]; split; [lia|exact FV]).
    specialize (D n (set_sdnv s v) FV). destruct (d n (set_sdnv s v)) as [c o]. eexists _, _, _. split; [reflexivity|]. split; [lia|exact D]. }
  destruct (t_main s) eqn:EM.
  - unfold contact_step. rewrite E. destruct (t_ch s); try (eexists _, _, _; split; [reflexivity|]; split; [lia|]; cbn [set_ch set_flags set_keep set_sdnv set_eid t_sdnv]; try assumption).
    + destruct (b =? 0x64); exact F.
    + destruct (b =? 0x74); [exact F|]. destruct (negb _); exact F.
    + constructor.
    + destruct r as [v|v|v n]; try (eexists _, _, _; split; [reflexivity|]; split; [lia|exact FV]). rewrite A. eexists _, _, _; split; [reflexivity|]; split; [lia|exact FV].
    + cbv zeta. destruct (_ =? _); (eexists _, _, _; split; [reflexivity|]; split; [lia|exact F]).
  - unfold type_step. cbv zeta. destruct (_ =? 1).
    + destruct (Nat.leb_spec 16 (length rest)).
      * destruct (decode_total rest FR) as (v & k & E2 & L). rewrite E2. destruct (k =? 0); [eexists _, _, _; split; [reflexivity|]; split; [lia|constructor]|]. rewrite A.
        eexists _, _, _; split; [reflexivity|]; split; [exact L|constructor].
      * eexists _, _, _; split; [reflexivity|]; split; [lia|constructor].
    + destruct (_ =? 2); [eexists _, _, _; split; [reflexivity|]; split; [lia|constructor]|]. destruct (_ =? 3); [eexists _, _, _; split; [reflexivity|]; split; [lia|exact F]|].
      destruct (_ =? 6); [eexists _, _, _; split; [reflexivity|]; split; [lia|constructor]|]. destruct (_ =? 4); [eexists _, _, _; split; [reflexivity|]; split; [lia|exact F]|].
      destruct (_ =? 5); [|eexists _, _, _; split; [reflexivity|]; split; [lia|exact F]]. destruct (negb _); [eexists _, _, _; split; [reflexivity|]; split; [lia|constructor]|].
      destruct (negb _); (eexists _, _, _; split; [reflexivity|]; split; [lia|constructor]).
  - unfold data_step. rewrite E. destruct (t_ds s).
    + destruct r as [v|v|v n]; try (eexists _, _, _; split; [reflexivity|]; split; [lia|exact FV]). cbv zeta. destruct (_ <? _); [|rewrite A]; (eexists _, _, _; split; [reflexivity|]; split; [lia|exact FV]).
    + cbv zeta. destruct (_ =? _); (eexists _, _, _; split; [reflexivity|]; split; [lia|exact F]).
  - apply SD. intros n c H. exact H.
  - apply SD. intros n c H. exact H.
  - cbv zeta. cbn [set_shut t_hasdelay]. destruct (t_hasdelay s); (eexists _, _, _; split; [reflexivity|]; split; [lia|exact F]).
  - apply SD. intros n c H. exact H.
Qed.
