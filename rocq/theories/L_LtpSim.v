(** Lemmas for C28: the receiver follows the reference automaton. *)
From Coq Require Import NArith ZArith List Bool Lia ZifyBool ZifyN.
From Verif Require Import Base M_SegmentAlloc M_Intrin M_Sdnv S_Sdnv L_Intrin L_Sdnv P_Sdnv L_SdnvRead M_LtpCodec S_LtpCodec L_LtpCodec.
Import ListNotations.
Open Scope N_scope.

(** Segment kinds: 0 cancel acknowledgement, 1 undefined, 2 data, 3 report, 4 report acknowledgement, 5 cancel. *)
Definition kind (f : N) : N :=
  if N.land f 0xd =? 0xd then 0 else if (f =? 5) || (f =? 6) || (f =? 10) || (f =? 11) then 1 else if f <=? 7 then 2 else if f =? 8 then 3 else if f =? 9 then 4 else 5.
Definition cxof (h : lhdr) : cx := mkCx (h_flags h) (h_eng h) (h_num h) (h_nh h) (h_nt h) (h_hx h).
Definition ser_of (m : lmeta) : option (N * N) := if d_ptrs m then Some (d_cp m, d_rp m) else None.
Definition rfields (r : lrep) : list N := [r_rsn r; r_cp r; r_ub r; r_lb r; r_cnt r].
Definition mfields (m : lmeta) : list N := [d_csid m; d_off m; d_len m; d_cp m; d_rp m].
Definition body_of (s : ltp) : body :=
  match kind (h_flags (l_h s)) with
  | 0 => BCack
  | 2 => BData (d_csid (l_m s)) (d_off (l_m s)) (d_len (l_m s)) (ser_of (l_m s)) (raw_bytes s)
  | 3 => BRep (rfields (l_r s)) (r_claims (l_r s))
  | 4 => BAck (l_rack s)
  | _ => BCan (l_reason s)
  end.
Definition abs (s : ltp) : rst :=
  let h := l_h s in let c := cxof h in let p := l_sdnv s in
  match l_st s with
  | SHead 0 => RCtl
  | SHead 1 => REng (h_flags h) p
  | SHead 2 => RNum (h_flags h) (h_eng h) p
  | SHead 3 => RCnt (h_flags h) (h_eng h) (h_num h)
  | SHead 4 => RHTag c
  | SHead 5 => RHLen c p
  | SHead _ => RHVal c (h_hlen h)
  | SData 5 => RByt c (d_csid (l_m s)) (d_off (l_m s)) (d_len (l_m s)) (ser_of (l_m s)) (l_data s)
  | SData k => RDat c (firstn (N.to_nat k) (mfields (l_m s))) p
  | SReport 5 => RClm c (rfields (l_r s)) (r_claims (l_r s)) p
  | SReport 6 => RClmL c (rfields (l_r s)) (r_claims (l_r s)) p
  | SReport k => RRep c (firstn (N.to_nat k) (rfields (l_r s))) p
  | SRack => RAck c p
  | SCancel => RCan c
  | STrail 0 => RTTag c (body_of s) (h_tx h)
  | STrail 1 => RTLen c (body_of s) (h_tx h) p
  | STrail _ => RTVal c (body_of s) (h_tx h) (h_tlen h)
  end.
Definition pend (p : list N) : Prop := Forall (fun b => 128 <= b < 256) p /\ (length p <= 10)%nat.
Definition inv (s : ltp) : Prop :=
  let h := l_h s in let m := l_m s in let f := h_flags h in let p := l_sdnv s in
  match l_st s with
  | SHead k => k = 0 \/ k = 1 /\ pend p \/ k = 2 /\ pend p \/ k = 3 \/ (k = 4 \/ k = 5 /\ pend p /\ h_hx h <> [] \/ k = 6 /\ h_hx h <> []) /\ h_tx h = []
  | SData k => kind f = 2 /\ h_tx h = [] /\
      ((k = 0 \/ k = 1 \/ k = 2 \/ (k = 3 \/ k = 4) /\ is_cp f = true /\ d_ptrs m = true /\ d_len m <> 0) /\ pend p \/
       k = 5 /\ d_ptrs m = is_cp f /\ N.of_nat (length (l_data s)) < d_len m)
  | SReport k => kind f = 3 /\ h_tx h = [] /\ pend p /\ (k = 0 \/ k = 1 \/ k = 2 \/ k = 3 \/ k = 4 \/ k = 5 \/ k = 6 /\ r_claims (l_r s) <> [])
  | SRack => kind f = 4 /\ h_tx h = [] /\ pend p
  | SCancel => kind f = 5 /\ h_tx h = []
  | STrail k => kind f <> 1 /\ (k = 0 \/ (k = 1 /\ pend p \/ k = 2) /\ h_tx h <> [])
  end.
Lemma pend_nil : pend [].
Proof. split; [constructor|cbn; lia]. Qed.
Lemma pend_snoc p b : pend p -> is_byte b -> rsd p b = Rm -> pend (p ++ [b]).
Proof.
  intros [F L] B E. unfold rsd in E. destruct (Nat.ltb_spec 9 (length p)); [discriminate|]. destruct (N.leb_spec 128 b); [|destruct (_ <? W64); discriminate].
  unfold is_byte in B. split; [apply Forall_app; split; [exact F|now repeat constructor]|rewrite app_length; cbn; lia].
Qed.
Lemma away_run32 n bs : runs_away n bs -> has_run32 bs.
Proof.
  induction 1 as [n p rest L F|n p rest S1 S2 S3 R (a & q & c & -> & L & F)]; [exists [], p, rest; auto|].
  exists (p ++ a), q, c. now rewrite <- app_assoc.
Qed.
Lemma has_run32_pre a b : has_run32 b -> has_run32 (a ++ b).
Proof. intros (x & p & c & -> & H). exists (a ++ x), p, c. now rewrite <- app_assoc. Qed.
Lemma has_run32_post a b : has_run32 a -> has_run32 (a ++ b).
Proof. intros (x & p & c & -> & H). exists x, p, (c ++ b). now rewrite <- !app_assoc. Qed.

Section Sim.
Variables (junk : list N -> list N) (alloc al : N -> bool).
Hypothesis J : junk_ok junk.
Hypothesis BOUND : forall n, alloc n = true -> n < 2 ^ 35.
Hypothesis HAL : forall n, alloc n = true -> al n = true.
Definition xrun (x : option (rst * list lcb)) (bs : list N) : list lcb * option rst :=
  match x with None => ([], None) | Some (r, o) => let (o2, y) := rrun al r bs in (o ++ o2, y) end.
Lemma xrun_step r b t : rrun al r (b :: t) = xrun (rstep al r b) t.
Proof. cbn [rrun]. unfold xrun. destruct (rstep al r b) as [[r' o]|]; reflexivity. Qed.
Definition simN (x : option (rst * list lcb)) (rest : list N) (res : lres) : Prop :=
  match res with
  | LCont s' o k => (k <= length rest)%nat /\ inv s' /\
      (xrun x (firstn k rest) = (o, Some (abs s')) \/ snd (xrun x (firstn k rest)) = None /\ exists n, al n = false)
  | LStop _ o => o = [] /\ dead al (xrun x rest)
  | LUndef => (exists n, alloc n = false /\ al n = true) \/ snd (xrun x rest) = None /\ (has_run32 rest \/ exists n, alloc n = false)
  end.
Lemma rd_rsd p b : pend p -> is_byte b -> rd junk p b = match rsd p b with Rm => LMore | Rb => LBad | Rv v => LVal v end.
Proof.
  intros [F L] B. unfold rd, rsd. rewrite app_length. cbn [length]. unfold is_byte in B.
  destruct (Nat.ltb_spec 10 (length p + 1)), (Nat.ltb_spec 9 (length p)); try lia; [reflexivity|].
  destruct (N.leb_spec 128 b).
  - destruct (N.eqb_spec (N.land b 0x80) 0); [exfalso; now apply (land128_high b)|reflexivity].
  - rewrite land128_low by assumption. change (0 =? 0) with true. cbn iota.
    assert (S1 : is_sdnv (p ++ [b])) by (exists p, b; auto).
    assert (BS : Forall is_byte ((p ++ [b]) ++ junk (p ++ [b]))) by (apply Forall_app; split; [now apply is_sdnv_bytes|apply J]).
    destruct (C11_decode64_meets_specification _ BS) as (r & -> & _ & U).
    assert (LL : (length (p ++ [b]) <= 10)%nat) by (rewrite app_length; cbn; lia).
    destruct (N.ltb_spec (sdnv_value (p ++ [b])) W64) as [V|V].
    + rewrite <- (U (sdnv_value (p ++ [b]), N.of_nat (length (p ++ [b])))) by (eapply DecOk; eauto).
      rewrite app_length. cbn [length]. rewrite N.eqb_refl. reflexivity.
    + rewrite <- (U (0, 0)) by (eapply DecTooBig; eauto). replace (0 =? N.of_nat (length p + 1)) with false by lia. reflexivity.
Qed.
Lemma cont0 x rest s' o : inv s' -> x = Some (abs s', o) -> simN x rest (LCont s' o 0).
Proof. intros I ->. cbn [simN firstn xrun rrun]. split; [lia|]. split; [exact I|]. left. now rewrite app_nil_r. Qed.
Lemma stop0 x rest s' : x = None -> simN x rest (LStop s' []).
Proof. intros ->. split; [reflexivity|]. split; [reflexivity|exact I]. Qed.
Lemma undef0 x rest n : alloc n = false -> (al n = false -> x = None) -> simN x rest LUndef.
Proof. intros E H. cbn [simN]. destruct (al n) eqn:EA; [left; eauto|]. right. rewrite H by reflexivity. split; [reflexivity|]. right. eauto. Qed.
(** A state collecting an SDNV. *)
Lemma field_sim s b rest k X next : pend (l_sdnv s) -> is_byte b -> rstep al (abs s) b = sd X next (l_sdnv s) b ->
  (pend (l_sdnv s ++ [b]) -> inv (set_sd s (l_sdnv s ++ [b]))) -> abs (set_sd s (l_sdnv s ++ [b])) = X (l_sdnv s ++ [b]) ->
  (forall v, simN (next v) rest (k (set_sd s (l_sdnv s ++ [b])) v)) -> simN (rstep al (abs s) b) rest (sdnv_field junk s b k).
Proof.
  intros P B E HI HA HK. rewrite E. unfold sdnv_field. rewrite (rd_rsd _ _ P B). unfold sd. destruct (rsd (l_sdnv s) b) as [| |v] eqn:ER.
  - apply cont0; [apply HI, pend_snoc; assumption|]. now rewrite HA.
  - now apply stop0.
  - apply HK.
Qed.
(** The segment body is complete. *)
Lemma done_sim x rest s cb k : kind (h_flags (l_h s)) <> 1 -> h_tx (l_h s) = [] -> (k <= length rest)%nat -> cb s = out (cxof (l_h s)) (body_of s) [] ->
  xrun x (firstn k rest) = (let (r, o) := fin (cxof (l_h s)) (body_of s) in (o, Some r)) -> simN x rest (body_done s cb k).
Proof.
  intros K T L C E. unfold body_done. unfold fin in E. change (c_nt (cxof (l_h s))) with (h_nt (l_h s)) in E. destruct (h_nt (l_h s) =? 0); cbn [negb simN].
  - split; [exact L|]. split; [left; reflexivity|]. left. rewrite E, C. reflexivity.
  - split; [exact L|]. split; [split; [exact K|left; reflexivity]|]. left. rewrite E. unfold abs. cbn [set_st l_st l_h]. rewrite T. reflexivity.
Qed.

Lemma xrun_nil r bs : xrun (Some (r, [])) bs = rrun al r bs.
Proof. cbn [xrun]. now destruct (rrun al r bs). Qed.
(** Decoding an array where a chain of fields starts: the three outcomes. *)
Lemma array_cases Y next n m rest (HY : forall vals p b, (length vals < n)%nat -> rstep al (Y vals p) b = sd (Y vals) (fun v => next (vals ++ [v])) p b)
  (HN : forall vals, (0 < length vals < n)%nat -> next vals = None \/ exists o, next vals = Some (Y vals [], o))
  (HO : forall vals r o, (0 < length vals < n)%nat -> next vals = Some (r, o) -> segments o = []) vals :
  Forall is_byte rest -> (length vals + m <= n)%nat ->
  (sdnv_array_fast m rest = None /\ snd (rrun al (Y vals []) rest) = None /\ has_run32 rest) \/
  (sdnv_array_fast m rest = Some ArrError /\ dead al (rrun al (Y vals []) rest)) \/
  (exists vs t, sdnv_array_fast m rest = Some (ArrOk vs t) /\ (N.to_nat t <= length rest)%nat /\ (length vs <= m)%nat /\
     rrun al (Y vals []) (firstn (N.to_nat t) rest) = nexts Y next vals vs).
Proof.
  intros B L. destruct (runs_away_dec m rest B) as [A|A].
  - left. split; [now apply C12_array_fast_undefined_iff|]. split; [exact (chain_away al Y next n HY HN HO m rest A vals L B)|exact (away_run32 m rest A)].
  - right. rewrite (array_fast_arr m rest B A). destruct (arr m rest) as [[vs t]|] eqn:E.
    + right. exists vs, t. destruct (chain_arr m rest vs t B E) as (L1 & L2 & SV). split; [reflexivity|]. split; [exact L1|]. split; [exact L2|].
      apply (chain_sdnvs al Y next n HY HN HO); [lia|exact SV].
    + left. split; [reflexivity|]. exact (chain_bad al Y next n HY HN HO m vals rest L B E).
Qed.
Lemma data_short s rest : kind (h_flags (l_h s)) = 2 -> h_tx (l_h s) = [] -> l_st s = SData 0 -> l_sdnv s = [] -> Forall is_byte rest ->
  simN (Some (RDat (cxof (l_h s)) [] [], [])) rest (shortcut_data alloc s rest).
Proof.
  intros K T S0 P B. unfold shortcut_data. set (c := cxof (l_h s)). change (h_flags (l_h s)) with (c_f c) in *. set (n := if is_cp (c_f c) then 5%nat else 3%nat).
  assert (HN : forall vals, (0 < length vals < n)%nat -> dnext al c vals = None \/ exists o, dnext al c vals = Some (RDat c vals [], o)).
  { intros vals L. unfold dnext. destruct vals as [|v0 [|v1 [|v2 [|v3 [|v4 [|v5 vs]]]]]]; try (right; eexists; reflexivity).
    - destruct (v2 =? 0); [now left|]. destruct (al v2); cbn [negb]; [|now left]. subst n. destruct (is_cp (c_f c)); [right; eexists; reflexivity|cbn in L; lia].
    - subst n. cbn [length] in L. destruct (is_cp (c_f c)); lia. }
  assert (HO : forall vals r o, (0 < length vals < n)%nat -> dnext al c vals = Some (r, o) -> segments o = []).
  { intros vals r o L E. destruct (HN vals L) as [E2|(o2 & E2)]; [congruence|]. unfold dnext in E. destruct vals as [|v0 [|v1 [|v2 [|v3 [|v4 [|v5 vs]]]]]];
      repeat match type of E with context [if ?x then _ else _] => destruct x end; congruence || (injection E as <- <-; reflexivity). }
  destruct (array_cases (RDat c) (dnext al c) n n rest (fun _ _ _ _ => eq_refl) HN HO [] B (le_n _)) as [(E & D & R)|[(E & D)|(vs & t & E & L1 & L2 & RR)]]; rewrite E; clear E.
  - right. rewrite xrun_nil. auto.
  - split; [reflexivity|]. rewrite xrun_nil. exact D.
  - assert (GO : forall s' k, inv s' -> nexts (RDat c) (dnext al c) [] vs = ([], Some (abs s')) -> k = N.to_nat t ->
      simN (Some (RDat c [] [], [])) rest (LCont s' [] k)).
    { intros s' k I E ->. split; [exact L1|]. split; [exact I|]. left. rewrite xrun_nil, RR. exact E. }
    assert (DD : snd (nexts (RDat c) (dnext al c) [] vs) = None -> segments (fst (nexts (RDat c) (dnext al c) [] vs)) = [] -> dead al (rrun al (RDat c [] []) rest) /\ snd (rrun al (RDat c [] []) rest) = None).
    { intros E1 E2. rewrite <- (firstn_skipn (N.to_nat t) rest), rrun_app, RR. destruct (nexts (RDat c) (dnext al c) [] vs) as [o x]. cbn [fst snd] in *. subst x. split; [split; [exact E2|exact I]|reflexivity]. }
    assert (CP : forall x, is_cp (c_f c) = x -> n = if x then 5%nat else 3%nat) by (intros x <-; reflexivity).
    destruct vs as [|v0 [|v1 [|v2 vs]]]; cbn [length]; change (N.of_nat 0 =? 0) with true; change (N.of_nat 1 =? 0) with false; change (N.of_nat 2 =? 0) with false; cbn iota.
    + apply cont0; [|unfold abs; rewrite S0, P; reflexivity]. unfold inv. rewrite S0, P. split; [exact K|]. split; [exact T|]. left. split; [auto|apply pend_nil].
    + change (3 <=? N.of_nat 1) with false. cbn iota. apply GO; [|unfold abs; cbn [set_st set_m l_st l_h l_m l_sdnv N.of_nat Pos.of_succ_nat]; rewrite P; reflexivity|reflexivity].
      unfold inv. cbn [set_st set_m l_st l_h l_m l_sdnv N.of_nat Pos.of_succ_nat]. rewrite P. split; [exact K|]. split; [exact T|]. left. split; [auto|apply pend_nil].
    + change (3 <=? N.of_nat 2) with false. cbn iota. apply GO; [|unfold abs; cbn [set_st set_m l_st l_h l_m l_sdnv N.of_nat Pos.of_succ_nat Pos.succ]; rewrite P; reflexivity|reflexivity].
      unfold inv. cbn [set_st set_m l_st l_h l_m l_sdnv N.of_nat Pos.of_succ_nat Pos.succ]. rewrite P. split; [exact K|]. split; [exact T|]. left. split; [auto|apply pend_nil].
    + replace (N.of_nat (S (S (S (length vs)))) =? 0) with false by lia. replace (3 <=? N.of_nat (S (S (S (length vs))))) with true by lia. cbn iota.
      change (d_len (l_m (set_st (set_m s (meta_of (l_m s) (v0 :: v1 :: v2 :: vs))) (SData (N.of_nat (S (S (S (length vs))))))))) with v2.
      assert (N1 : v2 = 0 \/ al v2 = false -> nexts (RDat c) (dnext al c) [] (v0 :: v1 :: v2 :: vs) = ([], None)).
      { intros H. cbn [nexts app dnext]. destruct (N.eqb_spec v2 0); [reflexivity|]. destruct H as [|H]; [contradiction|]. rewrite H. reflexivity. }
      destruct (N.eqb_spec v2 0) as [Z|NZ].
      { split; [reflexivity|]. rewrite xrun_nil. rewrite (N1 (or_introl Z)) in DD. now apply DD. }
      destruct (alloc v2) eqn:EA; cbn [negb].
      2:{ cbn [simN]. rewrite xrun_nil. destruct (al v2) eqn:EL; [left; eauto|]. right. rewrite (N1 (or_intror eq_refl)) in DD. split; [now apply DD|eauto]. }
      apply HAL in EA. apply N.eqb_neq in NZ.
      destruct (is_cp (c_f c)) eqn:EC; specialize (CP _ eq_refl); rewrite CP in L2; cbn [length] in L2.
      * assert (IV : forall k, (k = 3 \/ k = 4) -> inv (set_st (set_m (set_data (set_st (set_m s (meta_of (l_m s) (v0 :: v1 :: v2 :: vs))) (SData k)) []) (set_ptrs (meta_of (l_m s) (v0 :: v1 :: v2 :: vs)) true)) (SData k))).
        { intros k Hk. unfold inv. cbn [set_st set_m set_data l_st l_h l_m l_sdnv]. rewrite P. split; [exact K|]. split; [exact T|]. left. split; [|apply pend_nil].
          right. right. right. split; [exact Hk|]. split; [exact EC|]. split; [reflexivity|]. apply N.eqb_neq. exact NZ. }
        destruct vs as [|v3 [|v4 [|? ?]]]; [| | |cbn in L2; lia].
        -- apply GO; [apply IV; now left| |reflexivity]. cbn [nexts app dnext]. rewrite NZ, EA, EC. cbn [negb].
           unfold abs; cbn [set_st set_m set_data l_st l_h l_m l_sdnv N.of_nat Pos.of_succ_nat Pos.succ length]. rewrite P. reflexivity.
        -- apply GO; [apply IV; now right| |reflexivity]. cbn [nexts app dnext]. rewrite NZ, EA, EC. cbn [negb].
           unfold abs; cbn [set_st set_m set_data l_st l_h l_m l_sdnv N.of_nat Pos.of_succ_nat Pos.succ length]. rewrite P. reflexivity.
        -- apply GO; [| |reflexivity].
           ++ unfold inv. cbn [set_st set_m set_data l_st l_h l_m l_sdnv l_data N.of_nat Pos.of_succ_nat Pos.succ length]. split; [exact K|]. split; [exact T|]. right.
              split; [reflexivity|]. split; [symmetry; exact EC|]. cbn. lia.
           ++ cbn [nexts app dnext]. rewrite NZ, EA, EC. cbn [negb]. unfold abs; cbn [set_st set_m set_data l_st l_h l_m l_sdnv N.of_nat Pos.of_succ_nat Pos.succ length]. reflexivity.
      * destruct vs as [|? ?]; [|cbn in L2; lia]. apply GO; [| |reflexivity].
        -- unfold inv. cbn [set_st set_m set_data l_st l_h l_m l_sdnv l_data length]. split; [exact K|]. split; [exact T|]. right.
           split; [reflexivity|]. split; [symmetry; exact EC|]. cbn. lia.
        -- cbn [nexts app dnext]. rewrite NZ, EA, EC. cbn [negb]. unfold abs; cbn [set_st set_m set_data l_st l_h l_m l_sdnv length]. reflexivity.
Qed.

(** * Reception claims *)
Lemma pair_ind (P : list N -> Prop) : P [] -> (forall a, P [a]) -> (forall a b l, P l -> P (a :: b :: l)) -> forall l, P l.
Proof.
  intros H0 H1 H2. assert (G : forall l, P l /\ forall a, P (a :: l)) by (induction l as [|b l [A B]]; [auto|]; split; [apply B|intros a; apply H2, A]). intros l. apply G.
Qed.
Definition zeros (vals : list N) : bool := existsb (fun c => snd c =? 0) (firstn (Nat.div2 (length vals)) (pair_up vals)).
Lemma pair_even vals v : Nat.even (length vals) = true -> pair_up (vals ++ [v]) = pair_up vals ++ [(v, 0)].
Proof. induction vals as [|a|a b l IH] using pair_ind; intros H; cbn in *; [reflexivity|discriminate|]. now rewrite IH. Qed.
Lemma pair_odd vals v : Nat.even (length vals) = false -> set_last_len (pair_up vals) v = Some (pair_up (vals ++ [v])) /\ pair_up vals <> [].
Proof.
  induction vals as [|a|a b l IH] using pair_ind; intros H; cbn in *; [discriminate|split; [reflexivity|discriminate]|].
  destruct (IH H) as (E & NE). split; [|discriminate]. rewrite E. destruct (pair_up l) eqn:EP; [contradiction|reflexivity].
Qed.
Lemma pair_len vals : (2 * length (pair_up vals) = length vals + (if Nat.even (length vals) then 0 else 1))%nat.
Proof. induction vals as [|a|a b l IH] using pair_ind; [reflexivity|reflexivity|]. cbn [pair_up length]. cbn [Nat.even]. destruct (Nat.even (length l)); lia. Qed.
Lemma zeros_snoc vals v : zeros (vals ++ [v]) = zeros vals || (negb (Nat.even (length vals)) && (v =? 0)).
Proof.
  induction vals as [|a|a b l IH] using pair_ind; [reflexivity|cbn; now rewrite orb_false_r|]. unfold zeros in *. cbn [app length pair_up Nat.div2 firstn existsb snd]. cbn [Nat.even].
  rewrite IH. now rewrite orb_assoc.
Qed.
Lemma zeros_app vals vs : zeros vals = true -> zeros (vals ++ vs) = true.
Proof.
  intros H. induction vs as [|v vs IH] using rev_ind; [now rewrite app_nil_r|]. rewrite app_assoc, zeros_snoc, IH. reflexivity.
Qed.
Lemma sd_ext X f g p b : (forall v, f v = g v) -> sd X f p b = sd X g p b.
Proof. intros H. unfold sd. destruct (rsd p b); [reflexivity|reflexivity|apply H]. Qed.
Section Claims.
Variables (c : cx) (f : list N) (cnt : N).
Hypothesis CNT : nth 4 f 0 = cnt.
Definition ycl (vals p : list N) : rst := if Nat.even (length vals) then RClm c f (pair_up vals) p else RClmL c f (pair_up vals) p.
Definition ncl (vals : list N) : option (rst * list lcb) :=
  if Nat.even (length vals)
  then (if last vals 1 =? 0 then None else Some (if N.of_nat (length (pair_up vals)) <? cnt then (RClm c f (pair_up vals) [], []) else fin c (BRep f (pair_up vals))))
  else Some (RClmL c f (pair_up vals) [], []).
Lemma even_snoc (vals : list N) v : Nat.even (length (vals ++ [v])) = negb (Nat.even (length vals)).
Proof. rewrite app_length. cbn [length]. rewrite Nat.add_1_r, Nat.even_succ. apply eq_sym, Nat.negb_even. Qed.
Lemma ycl_step vals p b : rstep al (ycl vals p) b = sd (ycl vals) (fun v => ncl (vals ++ [v])) p b.
Proof.
  unfold ycl, ncl. destruct (Nat.even (length vals)) eqn:E; cbn [rstep].
  - apply sd_ext. intros v. rewrite even_snoc, E. cbn [negb]. now rewrite pair_even.
  - apply sd_ext. intros v. rewrite even_snoc, E. cbn [negb]. rewrite last_last. unfold lnext. destruct (v =? 0); [reflexivity|].
    rewrite (proj1 (pair_odd vals v E)), CNT. reflexivity.
Qed.
Lemma ncl_next vals : (0 < length vals < N.to_nat (2 * cnt))%nat -> ncl vals = None \/ ncl vals = Some (ycl vals [], []).
Proof.
  intros L. unfold ncl, ycl. pose proof (pair_len vals) as PL. destruct (Nat.even (length vals)); [|now right]. destruct (last vals 1 =? 0); [now left|]. right.
  replace (N.of_nat (length (pair_up vals)) <? cnt) with true by lia. reflexivity.
Qed.
Lemma ncl_nexts vs : forall vals, (length vals + length vs <= N.to_nat (2 * cnt))%nat -> zeros vals = false ->
  nexts ycl ncl vals vs = if zeros (vals ++ vs) then ([], None)
    else match vs with [] => ([], Some (ycl vals []))
         | _ => if (length (vals ++ vs) =? N.to_nat (2 * cnt))%nat then (let (r, o) := fin c (BRep f (pair_up (vals ++ vs))) in (o, Some r)) else ([], Some (ycl (vals ++ vs) [])) end.
Proof.
  induction vs as [|v vs IH]; intros vals L Z; cbn [nexts]; [rewrite app_nil_r, Z; reflexivity|]. cbn [length] in L.
  assert (EA : vals ++ v :: vs = (vals ++ [v]) ++ vs) by now rewrite <- app_assoc.
  assert (ZS := zeros_snoc vals v). rewrite Z in ZS. cbn [orb] in ZS.
  assert (NV : ncl (vals ++ [v]) = None -> zeros (vals ++ [v]) = true).
  { unfold ncl. rewrite even_snoc, last_last. intros E. rewrite ZS. destruct (Nat.even (length vals)); cbn [negb andb] in *; [discriminate|]. destruct (v =? 0); [reflexivity|discriminate]. }
  assert (NV2 : ncl (vals ++ [v]) <> None -> zeros (vals ++ [v]) = false).
  { unfold ncl. rewrite even_snoc, last_last. intros E. rewrite ZS. destruct (Nat.even (length vals)); cbn [negb andb] in *; [reflexivity|]. destruct (v =? 0); [now contradiction E|reflexivity]. }
  destruct (ncl (vals ++ [v])) as [[r o]|] eqn:EN.
  2:{ rewrite EA, zeros_app by now apply NV. reflexivity. }
  assert (ZV := NV2 ltac:(discriminate)). destruct vs as [|w vs].
  - rewrite ZV. destruct (Nat.eqb_spec (length (vals ++ [v])) (N.to_nat (2 * cnt))) as [E|E].
    + unfold ncl in EN. pose proof (pair_len (vals ++ [v])) as PL. rewrite E in *. assert (EV : Nat.even (N.to_nat (2 * cnt)) = true) by (rewrite N2Nat.inj_mul; change (N.to_nat 2) with 2%nat; apply Nat.even_mul).
      rewrite EV in *. destruct (last (vals ++ [v]) 1 =? 0); [discriminate|]. replace (N.of_nat (length (pair_up (vals ++ [v]))) <? cnt) with false in EN by lia.
      injection EN as EN. rewrite EN. reflexivity.
    + destruct (ncl_next (vals ++ [v])) as [H|H]; [rewrite app_length in *; cbn [length] in *; lia|congruence|]. rewrite EN in H. injection H as -> ->. reflexivity.
  - destruct (ncl_next (vals ++ [v])) as [H|H]; [rewrite app_length; cbn [length] in *; lia|congruence|]. rewrite EN in H. injection H as -> ->.
    rewrite EA, (IH (vals ++ [v])); [|rewrite app_length; cbn [length] in *; lia|exact ZV].
    destruct (zeros ((vals ++ [v]) ++ w :: vs)); [reflexivity|]. destruct (length ((vals ++ [v]) ++ w :: vs) =? N.to_nat (2 * cnt))%nat; [|reflexivity].
    destruct (fin c (BRep f (pair_up ((vals ++ [v]) ++ w :: vs)))); reflexivity.
Qed.
End Claims.

Lemma land1_parity (l : list N) : N.land (N.of_nat (length l)) 1 = if Nat.even (length l) then 0 else 1.
Proof.
  change 1 with (N.ones 1) at 1. rewrite N.land_ones. change (2 ^ 1) with 2. pose proof (Nat.div2_odd (length l)) as D. rewrite <- Nat.negb_even in D.
  destruct (Nat.even (length l)); cbn [negb Nat.b2n] in D; symmetry; [apply (N.mod_unique _ 2 (N.of_nat (Nat.div2 (length l))))|apply (N.mod_unique _ 2 (N.of_nat (Nat.div2 (length l))))]; lia.
Qed.
Lemma report_short s rest : kind (h_flags (l_h s)) = 3 -> h_tx (l_h s) = [] -> l_st s = SReport 0 -> l_sdnv s = [] -> Forall is_byte rest ->
  simN (Some (RRep (cxof (l_h s)) [] [], [])) rest (shortcut_report alloc s rest).
Proof.
  intros K T S0 P B. unfold shortcut_report. set (c := cxof (l_h s)).
  assert (HN : forall vals, (0 < length vals < 5)%nat -> pnext al c vals = Some (RRep c vals [], [])).
  { intros vals L. unfold pnext. destruct vals as [|v0 [|v1 [|v2 [|v3 [|v4 [|v5 vs]]]]]]; try reflexivity. cbn in L. lia. }
  destruct (array_cases (RRep c) (pnext al c) 5 5 rest (fun _ _ _ _ => eq_refl)) with (vals := @nil N) as [(E & D & R)|[(E & D)|(vs & t & E & L1 & L2 & RR)]];
    [intros vals L; right; eexists; now apply HN|intros vals r o L E; rewrite (HN vals L) in E; now injection E as <- <-|exact B|cbn; lia| | |]; rewrite E; clear E.
  - right. rewrite xrun_nil. auto.
  - split; [reflexivity|]. rewrite xrun_nil. exact D.
  - assert (GO : forall s' k, inv s' -> nexts (RRep c) (pnext al c) [] vs = ([], Some (abs s')) -> k = N.to_nat t ->
      simN (Some (RRep c [] [], [])) rest (LCont s' [] k)).
    { intros s' k I E ->. split; [exact L1|]. split; [exact I|]. left. rewrite xrun_nil, RR. exact E. }
    assert (SHORT : forall k, (k = 1 \/ k = 2 \/ k = 3 \/ k = 4) -> inv (set_st (set_r s (rep_of (l_r s) vs)) (SReport k))).
    { intros k Hk. unfold inv. cbn [set_st set_r l_st l_h l_r l_sdnv]. rewrite P. split; [exact K|]. split; [exact T|]. split; [apply pend_nil|]. tauto. }
    destruct vs as [|v0 [|v1 [|v2 [|v3 [|v4 [|? ?]]]]]]; [| | | | | |cbn in L2; lia]; cbn [length N.of_nat Pos.of_succ_nat Pos.succ];
      repeat match goal with |- context [?a =? 0] => let v := eval compute in (a =? 0) in match v with true => change (a =? 0) with true | false => change (a =? 0) with false end end;
      repeat match goal with |- context [?a <? 5] => let v := eval compute in (a <? 5) in match v with true => change (a <? 5) with true | false => change (a <? 5) with false end end; cbn iota.
    + apply cont0; [|unfold abs; rewrite S0, P; reflexivity]. unfold inv. rewrite S0, P. split; [exact K|]. split; [exact T|]. split; [apply pend_nil|auto].
    + apply GO; [apply SHORT; auto|unfold abs; cbn [set_st set_r l_st l_h l_r l_sdnv]; rewrite P; reflexivity|reflexivity].
    + apply GO; [apply SHORT; auto|unfold abs; cbn [set_st set_r l_st l_h l_r l_sdnv]; rewrite P; reflexivity|reflexivity].
    + apply GO; [apply SHORT; auto|unfold abs; cbn [set_st set_r l_st l_h l_r l_sdnv]; rewrite P; reflexivity|reflexivity].
    + apply GO; [apply SHORT; auto|unfold abs; cbn [set_st set_r l_st l_h l_r l_sdnv]; rewrite P; reflexivity|reflexivity].
    + clear GO SHORT. set (f := [v0; v1; v2; v3; v4]) in *. change (N.of_nat 5) with 5. set (s1 := set_st (set_r s (rep_of (l_r s) f)) (SReport 5)). change (r_cnt (l_r s1)) with v4.
      assert (RT : rrun al (RRep c [] []) (firstn (N.to_nat t) rest) = if v4 =? 0 then ([], None) else if negb (al (16 * v4)) then ([], None) else ([], Some (RClm c f [] []))).
      { rewrite RR. subst f. cbn [nexts app pnext]. destruct (v4 =? 0); [reflexivity|]. destruct (al (16 * v4)); reflexivity. }
      assert (ALL : rrun al (RRep c [] []) rest = let (o, x) := rrun al (RRep c [] []) (firstn (N.to_nat t) rest) in
        match x with None => (o, None) | Some r' => let (o2, y) := rrun al r' (skipn (N.to_nat t) rest) in (o ++ o2, y) end).
      { rewrite <- (firstn_skipn (N.to_nat t) rest) at 1. apply rrun_app. }
      destruct (N.eqb_spec v4 0) as [Z|NZ]; [split; [reflexivity|]; rewrite xrun_nil, ALL, RT; split; [reflexivity|exact I]|].
      destruct (alloc (16 * v4)) eqn:EA; cbn [negb].
      2:{ destruct (al (16 * v4)) eqn:EL; [left; eauto|]. right. rewrite xrun_nil, ALL, RT. split; [reflexivity|right; eauto]. }
      assert (BD := BOUND _ EA). rewrite (HAL _ EA) in RT. cbn [negb] in RT. rewrite RT in ALL.
      assert (EW : ((2 * v4) mod W64) mod W32 = 2 * v4). { change (2 ^ 35) with 34359738368 in BD. rewrite (N.mod_small (2 * v4) W64), N.mod_small; unfold W32, W64; lia. }
      rewrite EW. set (rest2 := skipn (N.to_nat t) rest) in *.
      assert (B2 : Forall is_byte rest2) by (subst rest2; rewrite <- (firstn_skipn (N.to_nat t) rest) in B; now apply Forall_app in B).
      assert (CN : nth 4 f 0 = v4) by reflexivity.
      change (RClm c f [] []) with (ycl c f [] []) in *.
      destruct (array_cases (ycl c f) (ncl c f v4) (N.to_nat (2 * v4)) (N.to_nat (2 * v4)) rest2 (fun vals p b _ => ycl_step c f v4 CN vals p b)) with (vals := @nil N)
        as [(E & D & R)|[(E & D)|(cv & ct & E & M1 & M2 & RC)]];
        [intros vals L; destruct (ncl_next c f v4 CN vals L) as [H|H]; [now left|right; eexists; exact H]
        |intros vals r o L E; destruct (ncl_next c f v4 CN vals L) as [H|H]; rewrite E in H; [discriminate|now injection H as -> ->]|exact B2|cbn; lia| | |]; rewrite E; clear E.
      * right. rewrite xrun_nil, ALL. split; [destruct (rrun al (ycl c f [] []) rest2); exact D|]. left. rewrite <- (firstn_skipn (N.to_nat t) rest). apply has_run32_pre. exact R.
      * split; [reflexivity|]. rewrite xrun_nil, ALL. destruct (rrun al (ycl c f [] []) rest2). exact D.
      * rewrite (ncl_nexts c f v4 CN cv []) in RC; [|cbn; lia|reflexivity]. cbn [app] in RC.
        assert (LEN : (N.to_nat (t + ct) <= length rest)%nat). { subst rest2. rewrite skipn_length in M1. lia. }
        assert (RUN : rrun al (RRep c [] []) (firstn (N.to_nat (t + ct)) rest) = rrun al (ycl c f [] []) (firstn (N.to_nat ct) rest2)).
        { assert (SPL : firstn (N.to_nat (t + ct)) rest = firstn (N.to_nat t) rest ++ firstn (N.to_nat ct) rest2).
          { subst rest2. rewrite <- (firstn_skipn (N.to_nat t) rest) at 1. rewrite N2Nat.inj_add. rewrite <- (firstn_length_le rest L1) at 1. now rewrite firstn_app_2. }
          rewrite SPL, rrun_app, RT. now destruct (rrun al (ycl c f [] []) (firstn (N.to_nat ct) rest2)). }
        change (existsb (fun x => snd x =? 0) (firstn (Nat.div2 (length cv)) (pair_up cv))) with (zeros cv).
        destruct (zeros cv) eqn:EZ.
        -- split; [reflexivity|]. rewrite xrun_nil, ALL, <- (firstn_skipn (N.to_nat ct) rest2), rrun_app, RC. split; [reflexivity|exact I].
        -- set (s2 := set_st (set_r s1 (set_claims (l_r s1) (pair_up cv))) (SReport (5 + N.land (N.of_nat (length cv)) 1))).
           destruct (N.eqb_spec (2 * v4) (N.of_nat (length cv))) as [EL|NL].
           ++ apply done_sim; [subst s2 s1; cbn [set_st set_r l_h]; rewrite K; discriminate|exact T|exact LEN| |].
              ** unfold body_of, cb_report. subst s2 s1. cbn [set_st set_r l_h]. rewrite K, T. reflexivity.
              ** rewrite xrun_nil, RUN, RC. destruct cv as [|x cv]; [cbn in EL; lia|]. replace (length (x :: cv) =? N.to_nat (2 * v4))%nat with true by (symmetry; apply Nat.eqb_eq; lia).
                 unfold body_of. subst s2 s1. cbn [set_st set_r l_h l_r]. rewrite K. reflexivity.
           ++ split; [exact LEN|]. pose proof (pair_odd cv 0) as PO. rewrite xrun_nil, RUN, RC. subst s2. rewrite land1_parity. split.
              ** unfold inv. destruct (Nat.even (length cv)) eqn:EV; subst s1; cbn [set_st set_r l_st l_h l_r l_sdnv N.add Pos.add Pos.succ]; rewrite P; (split; [exact K|]); (split; [exact T|]); (split; [apply pend_nil|]).
                 --- tauto.
                 --- cbn [set_claims r_claims]. destruct (PO eq_refl) as [_ PO2]. tauto.
              ** left. replace (match cv with [] => ([], Some (ycl c f [] [])) | _ :: _ => _ end) with (@nil lcb, Some (ycl c f cv [])).
                 2:{ destruct cv as [|x cv]; [reflexivity|]. replace (length (x :: cv) =? N.to_nat (2 * v4))%nat with false by (symmetry; apply Nat.eqb_neq; lia). reflexivity. }
                 f_equal. f_equal. unfold ycl, abs. destruct (Nat.even (length cv)) eqn:EV; subst s1; cbn [set_st set_r l_st l_h l_r l_sdnv N.add Pos.add Pos.succ]; rewrite P; reflexivity.
Qed.

Lemma nah_sim s rest : h_tx (l_h s) = [] -> Forall is_byte rest -> simN (ent (cxof (l_h s))) rest (next_after_header alloc s rest).
Proof.
  intros T B. unfold next_after_header, ent. change (c_f (cxof (l_h s))) with (h_flags (l_h s)).
  assert (K : kind (h_flags (l_h s)) = kind (h_flags (l_h s))) by reflexivity. unfold kind at 2 in K.
  destruct (N.land (h_flags (l_h s)) 13 =? 13).
  - apply done_sim; [rewrite K; discriminate|exact T|lia| |].
    + unfold body_of, cb_cack. rewrite K, T. reflexivity.
    + unfold body_of. rewrite K. cbn [firstn]. unfold xrun. destruct (fin (cxof (l_h s)) BCack). cbn [rrun]. now rewrite app_nil_r.
  - destruct ((h_flags (l_h s) =? 5) || (h_flags (l_h s) =? 6) || (h_flags (l_h s) =? 10) || (h_flags (l_h s) =? 11)); [now apply stop0|].
    destruct (h_flags (l_h s) <=? 7).
    { exact (data_short (set_st (set_sd s []) (SData 0)) rest K T eq_refl eq_refl B). }
    destruct (h_flags (l_h s) =? 8).
    { exact (report_short (set_st (set_sd s []) (SReport 0)) rest K T eq_refl eq_refl B). }
    destruct (h_flags (l_h s) =? 9).
    + apply cont0; [|reflexivity]. split; [exact K|]. split; [exact T|apply pend_nil].
    + apply cont0; [|reflexivity]. split; [exact K|exact T].
Qed.
Ltac ceq := repeat match goal with |- context [?a =? ?b] => let v := eval compute in (a =? b) in match v with true => change (a =? b) with true | false => change (a =? b) with false end end; cbn iota.
Lemma hnext_sim s rest x : h_tx (l_h s) = [] -> Forall is_byte rest -> x = h_hx (l_h s) ->
  simN (hnext (cxof (l_h s))) rest (if N.of_nat (length x) =? h_nh (l_h s) then next_after_header alloc s rest else LCont (set_st s (SHead 4)) [] 0).
Proof.
  intros T B ->. unfold hnext. change (c_hx (cxof (l_h s))) with (h_hx (l_h s)). change (c_nh (cxof (l_h s))) with (h_nh (l_h s)).
  destruct (N.of_nat (length (h_hx (l_h s))) =? h_nh (l_h s)); [now apply nah_sim|]. apply cont0; [|reflexivity]. do 4 right. split; [now left|exact T].
Qed.
Lemma push_some x b : x <> [] -> exists y, push_last x b = Some y /\ y <> [].
Proof.
  induction x as [|[t v] x IH]; intros NE; [contradiction|]. destruct x as [|e x]; [eexists; split; [reflexivity|discriminate]|].
  destruct (IH ltac:(discriminate)) as (y & E & _). exists ((t, v) :: y). split; [|discriminate].
  change (push_last ((t, v) :: e :: x) b) with (option_map (cons (t, v)) (push_last (e :: x) b)). now rewrite E.
Qed.
Lemma shiftr4 b : is_byte b -> (N.shiftr b 4 =? 0) = (b <? 16) /\ (b < 16 -> N.land b 15 = b).
Proof.
  intros H. rewrite N.shiftr_div_pow2. change (2 ^ 4) with 16. split.
  - destruct (N.ltb_spec b 16) as [L|L]; [rewrite N.div_small by exact L; reflexivity|]. apply N.eqb_neq. assert (D := N.div_str_pos b 16 ltac:(lia)). lia.
  - intros L. change 15 with (N.ones 4). rewrite N.land_ones. now apply N.mod_small.
Qed.
Lemma head_sim s k b rest : l_st s = SHead k -> inv s -> is_byte b -> Forall is_byte rest -> simN (rstep al (abs s) b) rest (head_step junk alloc s k b rest).
Proof.
  intros ES I B BR. unfold inv in I. rewrite ES in I. unfold head_step.
  destruct I as [->|[(-> & P)|[(-> & P)|[->|([->|[(-> & P & X)|(-> & X)]] & T)]]]]; ceq.
  - unfold abs. rewrite ES. cbn [rstep]. destruct (shiftr4 b B) as [E1 E2]. rewrite E1. destruct (N.ltb_spec b 16) as [L|L]; cbn [negb]; [|now apply stop0]. rewrite E2 by exact L.
    set (Y := fun vals p => match vals with [] => REng b p | e :: _ => RNum b e p end).
    set (nx := fun vals => match vals with [e] => Some (RNum b e [], [LcEngine e]) | [e; n] => Some (RCnt b e n, @nil lcb) | _ => Some (RCtl, []) end).
    destruct (array_cases Y nx 2 2 rest) with (vals := @nil N) as [(E & D & R)|[(E & D)|(vs & t & E & L1 & L2 & RR)]].
    + intros [|v0 [|v1 vs]] p c HL; [reflexivity|reflexivity|cbn in HL; lia].
    + intros [|v0 [|v1 vs]] HL; try (cbn in HL; lia). right. eexists. reflexivity.
    + intros [|v0 [|v1 vs]] r o HL HE; try (cbn in HL; lia). injection HE as <- <-. reflexivity.
    + exact BR.
    + cbn; lia.
    + rewrite E. right. rewrite xrun_nil. auto.
    + rewrite E. split; [reflexivity|]. rewrite xrun_nil. exact D.
    + rewrite E. split; [exact L1|]. rewrite xrun_nil. change (REng b []) with (Y [] []). rewrite RR.
      destruct vs as [|v0 [|v1 [|v2 vs]]]; [| | |cbn in L2; lia]; (split; [unfold inv; cbn; pose proof pend_nil; tauto|left; reflexivity]).
  - eapply field_sim; [exact P|exact B|unfold abs; rewrite ES; reflexivity|intros PP; unfold inv; cbn [set_sd l_st l_h l_sdnv]; rewrite ES; tauto|unfold abs; cbn [set_sd l_st l_h l_sdnv]; rewrite ES; reflexivity|].
    intros v. apply cont0; [|reflexivity]. right. right. left. split; [reflexivity|apply pend_nil].
  - eapply field_sim; [exact P|exact B|unfold abs; rewrite ES; reflexivity|intros PP; unfold inv; cbn [set_sd l_st l_h l_sdnv]; rewrite ES; tauto|unfold abs; cbn [set_sd l_st l_h l_sdnv]; rewrite ES; reflexivity|].
    intros v. apply cont0; [|reflexivity]. unfold inv; cbn; tauto.
  - unfold abs. rewrite ES. cbn [rstep]. destruct (N.shiftr b 4 =? 0) eqn:E0; cbn [negb].
    + match goal with |- simN (ent ?c) _ (next_after_header _ ?s1 _) => change c with (cxof (l_h s1)) end. now apply nah_sim.
    + apply cont0; [|reflexivity]. unfold inv; cbn; tauto.
  - unfold abs. rewrite ES. cbn [rstep]. apply cont0; [|reflexivity]. unfold inv; cbn [set_st set_sd set_h seth_hx l_st l_h l_sdnv h_hx h_tx]. do 4 right. split; [|exact T]. right. left.
    split; [reflexivity|]. split; [apply pend_nil|]. destruct (h_hx (l_h s)); discriminate.
  - eapply field_sim; [exact P|exact B|unfold abs; rewrite ES; reflexivity|intros PP; unfold inv; cbn [set_sd l_st l_h l_sdnv]; rewrite ES; tauto|unfold abs; cbn [set_sd l_st l_h l_sdnv]; rewrite ES; reflexivity|].
    intros v. cbn beta. destruct (N.eqb_spec v 0).
    + match goal with |- simN (hnext ?c) _ (if _ then next_after_header _ ?s1 _ else _) => change c with (cxof (l_h s1)); apply (hnext_sim s1); [exact T|exact BR|reflexivity] end.
    + destruct (alloc v) eqn:EA; cbn [negb].
      * rewrite (HAL _ EA). cbn [negb]. apply cont0; [|reflexivity]. unfold inv; cbn; tauto.
      * apply (undef0 _ _ v EA). intros ->. reflexivity.
  - unfold abs. rewrite ES. cbn [rstep]. change (c_hx (cxof (l_h s))) with (h_hx (l_h s)). destruct (push_some _ b X) as (y & EY & NY). rewrite EY. destruct (last_len y =? h_hlen (l_h s)).
    + match goal with |- simN _ _ (if _ then next_after_header _ ?s1 _ else _) => change (cset (cxof (l_h s)) y) with (cxof (l_h s1)); apply (hnext_sim s1); [exact T|exact BR|reflexivity] end.
    + apply cont0; [unfold inv; cbn [set_h seth_hx l_st l_h h_tx h_hx]; rewrite ES; tauto|]. unfold abs; cbn [set_h seth_hx l_st l_h h_tx h_hx]. rewrite ES. reflexivity.
Qed.

Ltac fld ES P B := eapply field_sim; [exact P|exact B|unfold abs; rewrite ES; reflexivity|intros PP; unfold inv; cbn [set_sd l_st l_h l_m l_r l_sdnv]; rewrite ES; tauto|unfold abs; cbn [set_sd l_st l_h l_m l_r l_sdnv]; rewrite ES; reflexivity|].
Lemma rrun_bytes c csid off len ser bs : forall d, N.of_nat (length d) + N.of_nat (length bs) < len -> rrun al (RByt c csid off len ser d) bs = ([], Some (RByt c csid off len ser (d ++ bs))).
Proof.
  induction bs as [|b bs IH]; intros d L; cbn [rrun length] in *; [now rewrite app_nil_r|]. cbn [rstep]. replace (N.of_nat (length d) + 1 =? len) with false by lia.
  rewrite IH by (rewrite app_length; cbn [length]; lia). now rewrite <- app_assoc.
Qed.
Lemma rrun_bytes_all c csid off len ser d bs : bs <> [] -> N.of_nat (length d) + N.of_nat (length bs) = len ->
  rrun al (RByt c csid off len ser d) bs = let (r, o) := fin c (BData csid off len ser (d ++ bs)) in (o, Some r).
Proof.
  intros NB L. rewrite (app_removelast_last 0 NB) in *. rewrite app_length in L. cbn [length] in L.
  rewrite rrun_app, rrun_bytes by lia. cbn [rrun rstep app]. replace (N.of_nat (length (d ++ removelast bs)) + 1 =? len) with true by (rewrite app_length; lia).
  rewrite <- app_assoc. destruct (fin _ _). now rewrite app_nil_r.
Qed.
Lemma data_sim s k b rest : l_st s = SData k -> inv s -> is_byte b -> Forall is_byte rest -> simN (rstep al (abs s) b) rest (data_step junk alloc s k b rest).
Proof.
  intros ES I B BR. unfold inv in I. rewrite ES in I. unfold data_step. pose proof pend_nil as PN.
  destruct I as (K & T & [([->|[->|[->|([->| ->] & ICP & PT & NZ)]]] & P)|(-> & PT & L)]); ceq.
  - fld ES P B. intros v. apply cont0; [unfold inv; cbn; tauto|reflexivity].
  - fld ES P B. intros v. apply cont0; [unfold inv; cbn; tauto|reflexivity].
  - fld ES P B. intros v. cbn beta. change (N.to_nat 2) with 2%nat. cbn [firstn mfields app dnext l_m set_sd]. cbn zeta. destruct (N.eqb_spec v 0); [now apply stop0|].
    change (l_h (set_sd s (l_sdnv s ++ [b]))) with (l_h s). change (c_f (cxof (l_h s))) with (h_flags (l_h s)). destruct (is_cp (h_flags (l_h s))) eqn:EC.
    + destruct (al v) eqn:EA; cbn [negb].
      * apply cont0; [|reflexivity]. unfold inv; cbn. tauto.
      * split; [lia|]. split; [unfold inv; cbn; tauto|]. right. split; [reflexivity|eauto].
    + destruct (alloc v) eqn:EA; cbn [negb].
      * rewrite (HAL _ EA). cbn [negb]. apply cont0; [|reflexivity]. unfold inv; cbn. rewrite EC. split; [exact K|]. split; [exact T|]. right. repeat split; lia.
      * apply (undef0 _ _ v EA). intros ->. reflexivity.
  - fld ES P B. intros v. apply cont0; [unfold inv; cbn; tauto|reflexivity].
  - fld ES P B. intros v. cbn beta. change (N.to_nat 4) with 4%nat. cbn [firstn mfields app dnext l_m set_sd]. cbn zeta. destruct (alloc (d_len (l_m s))) eqn:EA; cbn [negb].
    + rewrite (HAL _ EA). cbn [negb]. apply cont0.
      * unfold inv; cbn. rewrite ICP. split; [exact K|]. split; [exact T|]. right. repeat split; [exact PT|lia].
      * unfold abs, ser_of; cbn. rewrite PT. reflexivity.
    + apply (undef0 _ _ _ EA). intros ->. reflexivity.
  - cbn zeta. set (c := cxof (l_h s)). set (m := l_m s) in *.
    assert (EA : abs s = RByt c (d_csid m) (d_off m) (d_len m) (ser_of m) (l_data s)) by (unfold abs; now rewrite ES). rewrite EA.
    destruct (match l_data s with [] => true | _ => false end && (d_len m <=? N.of_nat (length rest) + 1)) eqn:E1.
    + apply andb_true_iff in E1. destruct E1 as [E1 E2]. assert (ED : l_data s = []) by (destruct (l_data s); [reflexivity|discriminate]). rewrite ED in *. cbn [length] in L.
      apply done_sim; cbn [set_raw l_h]; [rewrite K; discriminate|exact T|lia| |].
      * unfold cb_data, body_of. cbn [set_raw l_h l_m]. rewrite K, T. reflexivity.
      * rewrite <- xrun_step, rrun_bytes_all; [|discriminate|cbn [length]; rewrite firstn_length; lia]. unfold body_of. cbn [set_raw l_h l_m]. rewrite K. reflexivity.
    + destruct (N.eqb_spec (N.of_nat (length (l_data s ++ [b]))) (d_len m)) as [EL|NL].
      * apply done_sim; cbn [set_raw set_data l_h]; [rewrite K; discriminate|exact T|lia| |].
        -- unfold cb_data, body_of. cbn [set_raw set_data l_h l_m]. rewrite K, T. reflexivity.
        -- cbn [firstn]. rewrite <- xrun_step, rrun_bytes_all; [|discriminate|rewrite app_length in EL; cbn [length] in *; lia]. unfold body_of. cbn [set_raw set_data l_h l_m]. rewrite K. reflexivity.
      * rewrite app_length in *. cbn [length] in *. set (kk := N.to_nat (N.min (N.of_nat (length rest)) (d_len m - N.of_nat (length (l_data s) + 1) - 1))).
        assert (LK : length (firstn kk rest) = kk) by (apply firstn_length_le; lia).
        split; [lia|]. split; [|left].
        -- unfold inv. cbn [set_data l_st l_h l_m l_data]. rewrite ES. split; [exact K|]. split; [exact T|]. right. repeat split; [exact PT|].
           rewrite !app_length, LK. cbn [length]. fold m. lia.
        -- rewrite <- xrun_step, rrun_bytes by (cbn [length]; rewrite LK; lia). unfold abs. cbn [set_data l_st l_h l_m l_data]. rewrite ES, <- app_assoc. reflexivity.
Qed.
Lemma report_sim s k b rest : l_st s = SReport k -> inv s -> is_byte b -> Forall is_byte rest -> simN (rstep al (abs s) b) rest (report_step junk alloc s k b).
Proof.
  intros ES I B BR. unfold inv in I. rewrite ES in I. unfold report_step. pose proof pend_nil as PN.
  destruct I as (K & T & P & [->|[->|[->|[->|[->|[->|(-> & NC)]]]]]]); ceq.
  - fld ES P B. intros v. apply cont0; [unfold inv; cbn; tauto|reflexivity].
  - fld ES P B. intros v. apply cont0; [unfold inv; cbn; tauto|reflexivity].
  - fld ES P B. intros v. apply cont0; [unfold inv; cbn; tauto|reflexivity].
  - fld ES P B. intros v. apply cont0; [unfold inv; cbn; tauto|reflexivity].
  - fld ES P B. intros v. cbn beta. change (N.to_nat 4) with 4%nat. cbn [firstn rfields app pnext l_r set_sd]. cbn zeta. destruct (N.eqb_spec v 0); [now apply stop0|].
    destruct (alloc (16 * v)) eqn:EA; cbn [negb].
    + rewrite (HAL _ EA). cbn [negb]. apply cont0; [unfold inv; cbn; tauto|reflexivity].
    + apply (undef0 _ _ _ EA). intros ->. reflexivity.
  - fld ES P B. intros v. apply cont0; [|reflexivity]. unfold inv; cbn [set_st set_sd set_r set_claims l_st l_h l_sdnv l_r r_claims]. repeat (split; [assumption|]). do 6 right. split; [reflexivity|]. destruct (r_claims (l_r s)); discriminate.
  - fld ES P B. intros v. cbn beta. unfold lnext. cbn [set_sd l_r]. destruct (N.eqb_spec v 0); [now apply stop0|].
    assert (SL : exists x, set_last_len (r_claims (l_r s)) v = Some x).
    { revert NC. generalize (r_claims (l_r s)). clear. induction l as [|[o n] l IH]; intros NC; [contradiction|]. destruct l as [|e l]; [eexists; reflexivity|].
      destruct (IH ltac:(discriminate)) as (x & E). exists ((o, n) :: x). change (set_last_len ((o, n) :: e :: l) v) with (option_map (cons (o, n)) (set_last_len (e :: l) v)). now rewrite E. }
    destruct SL as (x & ->). cbn zeta. cbn [set_sd set_r set_claims l_r r_cnt rfields nth]. destruct (N.of_nat (length x) <? r_cnt (l_r s)).
    + apply cont0; [unfold inv; cbn; tauto|reflexivity].
    + apply done_sim; [cbn; rewrite K; discriminate|exact T|lia| |].
      * unfold cb_report, body_of. cbn [set_sd set_r set_claims l_h l_r r_claims r_rsn r_cp r_ub r_lb]. rewrite K, T. reflexivity.
      * cbn [firstn]. unfold body_of. cbn [set_sd set_r set_claims l_h l_r r_claims]. rewrite K. cbn [xrun]. 
        match goal with |- (let (_, _) := ?a in _) = (let (_, _) := ?c in _) => change c with a; destruct a end. cbn [rrun]. now rewrite app_nil_r.
Qed.
Lemma natr_sim s rest x : kind (h_flags (l_h s)) <> 1 -> h_tx (l_h s) <> [] \/ True -> x = h_tx (l_h s) ->
  simN (Some (tnext (cxof (l_h s)) (body_of s) (h_tx (l_h s)))) rest (if N.of_nat (length x) =? h_nt (l_h s) then next_after_trailer s else LCont (set_st s (STrail 0)) [] 0).
Proof.
  intros K _ ->. unfold tnext. change (c_nt (cxof (l_h s))) with (h_nt (l_h s)). destruct (N.of_nat (length (h_tx (l_h s))) =? h_nt (l_h s)).
  - unfold next_after_trailer, body_of. unfold kind in K |- *.
    destruct (N.land (h_flags (l_h s)) 13 =? 13); [apply cont0; [now left|reflexivity]|].
    destruct ((h_flags (l_h s) =? 5) || (h_flags (l_h s) =? 6) || (h_flags (l_h s) =? 10) || (h_flags (l_h s) =? 11)); [contradiction|].
    destruct (h_flags (l_h s) <=? 7); [apply cont0; [now left|reflexivity]|].
    destruct (h_flags (l_h s) =? 8); [apply cont0; [now left|reflexivity]|].
    destruct (h_flags (l_h s) =? 9); apply cont0; try (now left); reflexivity.
  - apply cont0; [split; [exact K|now left]|]. reflexivity.
Qed.
Lemma trail_sim s k b rest : l_st s = STrail k -> inv s -> is_byte b -> Forall is_byte rest -> simN (rstep al (abs s) b) rest (trailer_step junk alloc s k b).
Proof.
  intros ES I B BR. unfold inv in I. rewrite ES in I. unfold trailer_step. pose proof pend_nil as PN.
  destruct I as (K & [->|([(-> & P)| ->] & NT)]); ceq.
  - unfold abs. rewrite ES. cbn [rstep]. apply cont0; [|reflexivity]. unfold inv; cbn [set_st set_sd set_h seth_tx l_st l_h l_sdnv h_tx h_flags]. split; [exact K|]. right.
    split; [now left|]. destruct (h_tx (l_h s)); discriminate.
  - fld ES P B. intros v. cbn beta zeta. cbn [set_sd l_h]. destruct (N.eqb_spec v 0).
    + match goal with |- simN _ _ (if _ then next_after_trailer ?s1 else _) => apply (natr_sim s1); [exact K|now right|reflexivity] end.
    + destruct (alloc v) eqn:EA; cbn [negb].
      * rewrite (HAL _ EA). cbn [negb]. apply cont0; [|reflexivity]. unfold inv; cbn; tauto.
      * apply (undef0 _ _ v EA). intros ->. reflexivity.
  - unfold abs. rewrite ES. cbn [rstep]. destruct (push_some _ b NT) as (y & EY & NY). rewrite EY. cbn zeta. destruct (last_len y =? h_tlen (l_h s)).
    + match goal with |- simN _ _ (if _ then next_after_trailer ?s1 else _) => apply (natr_sim s1); [exact K|now right|reflexivity] end.
    + apply cont0; [unfold inv; cbn [set_h seth_tx l_st l_h h_tx h_flags]; rewrite ES; tauto|]. unfold abs; cbn [set_h seth_tx l_st l_h h_tx h_hx h_tlen]. rewrite ES. reflexivity.
Qed.
Lemma step_sim s b rest : inv s -> is_byte b -> Forall is_byte rest -> simN (rstep al (abs s) b) rest (lstep junk alloc s b rest).
Proof.
  intros I B BR. unfold lstep. destruct (l_st s) eqn:ES; [now apply head_sim|now apply data_sim|now apply report_sim| | |now apply trail_sim]; unfold inv in I; rewrite ES in I.
  - destruct I as (K & T & P). fld ES P B. intros v. apply done_sim; [cbn; rewrite K; discriminate|exact T|lia| |].
    + unfold cb_rack, body_of. cbn [set_sd set_rack l_h l_rack]. rewrite K, T. reflexivity.
    + unfold body_of. cbn [set_sd set_rack l_h l_rack firstn xrun]. rewrite K. destruct (fin _ _). cbn [rrun]. now rewrite app_nil_r.
  - destruct I as (K & T). unfold abs. rewrite ES. cbn [rstep]. apply done_sim; [cbn; rewrite K; discriminate|exact T|lia| |].
    + unfold cb_cancel, body_of. cbn [set_reason l_h l_reason]. rewrite K, T. reflexivity.
    + unfold body_of. cbn [set_reason l_h l_reason firstn xrun]. rewrite K. destruct (fin _ _). cbn [rrun]. now rewrite app_nil_r.
Qed.
End Sim.
