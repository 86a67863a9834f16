(** Lemmas for C28: whole chunks and sequences of calls; what a well-formed stream does. *)
From Coq Require Import NArith ZArith List Bool Lia ZifyBool ZifyN.
From Verif Require Import Base M_SegmentAlloc M_Intrin M_Sdnv S_Sdnv L_Intrin L_Sdnv P_Sdnv L_SdnvRead M_LtpCodec S_LtpCodec L_LtpCodec L_LtpSim.
Import ListNotations.
Open Scope N_scope.

Section Feed.
Variables (junk : list N -> list N) (alloc al : N -> bool).
Hypothesis J : junk_ok junk.
Hypothesis BOUND : forall n, alloc n = true -> n < 2 ^ 35.
Hypothesis HAL : forall n, alloc n = true -> al n = true.
(** The relation between a run of the receiver and the run of the automaton on the same bytes. *)
Definition simF (r : rst) (bs : list N) (res : lfeed) : Prop :=
  match res with
  | FOk s' o => inv s' /\ (rrun al r bs = (o, Some (abs s')) \/ snd (rrun al r bs) = None /\ exists n, al n = false)
  | FFail _ o => segments o = segments (fst (rrun al r bs)) /\ match snd (rrun al r bs) with None => True | Some r' => doomed al r' end \/
                 snd (rrun al r bs) = None /\ exists n, al n = false
  | FUndef => (exists n, alloc n = false /\ al n = true) \/ snd (rrun al r bs) = None
  end.
Lemma simF_seq r a b o r1 res : rrun al r a = (o, Some r1) -> simF r1 b res ->
  simF r (a ++ b) (match res with FOk s2 o2 => FOk s2 (o ++ o2) | FFail s2 o2 => FFail s2 (o ++ o2) | FUndef => FUndef end).
Proof.
  intros E H. assert (R : rrun al r (a ++ b) = let (o2, y) := rrun al r1 b in (o ++ o2, y)) by now rewrite rrun_app, E.
  unfold simF in *. destruct (rrun al r1 b) as [o2 y]. rewrite R. cbn [fst snd] in *. destruct res as [s2 o3|s2 o3|]; [| |exact H].
  - destruct H as [I [H|H]]; (split; [exact I|]); [left; congruence|now right].
  - destruct H as [[H1 H2]|H]; [left|now right]. rewrite !segments_app, H1. auto.
Qed.
Lemma simF_none r a b res : snd (rrun al r a) = None -> (exists n, al n = false) -> (forall s o, res = FOk s o -> inv s) -> simF r (a ++ b) res.
Proof.
  intros E A HI. assert (R : snd (rrun al r (a ++ b)) = None) by (rewrite rrun_app; destruct (rrun al r a) as [o x]; cbn [snd] in E; now subst x).
  destruct res as [s o|s o|]; cbn [simF]; rewrite R; auto. split; [eapply HI; reflexivity|now right].
Qed.
Lemma feed_inv fuel : forall s bs s' o, inv s -> Forall is_byte bs -> feed_loop junk alloc fuel s bs = FOk s' o -> inv s'.
Proof.
  induction fuel as [|fuel IH]; intros s bs s' o I B E; destruct bs as [|b bs]; cbn [feed_loop] in E; try discriminate; try (injection E as <- <-; exact I).
  inversion B as [|? ? B1 B2]; subst. pose proof (step_sim junk alloc al J BOUND HAL s b bs I B1 B2) as S.
  destruct (lstep junk alloc s b bs) as [s1 o1 k|s1 o1|]; try discriminate. destruct S as (L & I1 & _).
  destruct (feed_loop junk alloc fuel s1 (skipn k bs)) as [s2 o2|s2 o2|] eqn:EF; try discriminate. injection E as <- <-. eapply IH; [exact I1| |exact EF].
  rewrite <- (firstn_skipn k bs) in B2. now apply Forall_app in B2.
Qed.
Lemma feed_sim fuel : forall s bs, (length bs <= fuel)%nat -> inv s -> Forall is_byte bs -> simF (abs s) bs (feed_loop junk alloc fuel s bs).
Proof.
  induction fuel as [|fuel IH]; intros s bs L I B; destruct bs as [|b bs]; cbn [feed_loop]; try (split; [exact I|now left]); [cbn in L; lia|].
  inversion B as [|? ? B1 B2]; subst. pose proof (step_sim junk alloc al J BOUND HAL s b bs I B1 B2) as S. cbn [length] in L.
  destruct (lstep junk alloc s b bs) as [s1 o1 k|s1 o1|]; cbn [simN] in S.
  - destruct S as (LK & I1 & S). assert (B3 : Forall is_byte (skipn k bs)) by (rewrite <- (firstn_skipn k bs) in B2; now apply Forall_app in B2).
    rewrite <- xrun_step in S. replace (b :: bs) with ((b :: firstn k bs) ++ skipn k bs) by (cbn [app]; now rewrite firstn_skipn).
    destruct S as [S|[S A]].
    + apply simF_seq with (1 := S). apply IH; [rewrite skipn_length; lia|exact I1|exact B3].
    + apply simF_none; [exact S|exact A|]. intros s2 o2 E. destruct (feed_loop junk alloc fuel s1 (skipn k bs)) as [s3 o3|s3 o3|] eqn:EF; try discriminate.
      injection E as <- <-. exact (feed_inv fuel _ _ _ _ I1 B3 EF).
  - destruct S as (-> & S). rewrite <- xrun_step in S. left. destruct S as [S1 S2]. now rewrite S1.
  - rewrite <- xrun_step in S. destruct S as [S|[S _]]; [now left|now right].
Qed.
Lemma age_id reuse s : (forall d, reuse d = d) -> age reuse s = s.
Proof. intros H. unfold age. destruct s as [? ? ? ? ? [| |d] ? ? ?]; cbn; try reflexivity. now rewrite H. Qed.
Lemma calls_inv reuse : (forall d, reuse d = d) -> forall chunks s s' o, inv s -> Forall is_byte (concat chunks) -> calls junk alloc reuse s chunks = FOk s' o -> inv s'.
Proof.
  intros R. induction chunks as [|c chunks IH]; intros s s' o I B E; cbn [calls concat] in *; [now injection E as <- <-|].
  rewrite age_id in E by exact R. apply Forall_app in B. destruct B as [B1 B2].
  destruct (feed_loop junk alloc (length c) s c) as [s1 o1|s1 o1|] eqn:EF; try discriminate.
  destruct (calls junk alloc reuse s1 chunks) as [s2 o2|s2 o2|] eqn:EC; try discriminate. injection E as <- <-. exact (IH _ _ _ (feed_inv _ _ _ _ _ I B1 EF) B2 EC).
Qed.
Lemma calls_sim reuse : (forall d, reuse d = d) -> forall chunks s, inv s -> Forall is_byte (concat chunks) -> simF (abs s) (concat chunks) (calls junk alloc reuse s chunks).
Proof.
  intros R. induction chunks as [|c chunks IH]; intros s I B; cbn [calls concat] in *; [split; [exact I|now left]|].
  rewrite age_id by exact R. apply Forall_app in B. destruct B as [B1 B2]. pose proof (feed_sim (length c) s c (le_n _) I B1) as S.
  destruct (feed_loop junk alloc (length c) s c) as [s1 o1|s1 o1|] eqn:EF; cbn [simF] in S.
  - destruct S as [I1 [S|[S A]]]; [apply simF_seq with (1 := S); now apply IH|]. apply simF_none; [exact S|exact A|].
    intros s2 o2 E. destruct (calls junk alloc reuse s1 chunks) as [s3 o3|s3 o3|] eqn:EC; try discriminate. injection E as <- <-.
    exact (calls_inv reuse R _ _ _ _ I1 B2 EC).
  - destruct S as [[S1 S2]|[S A]]; [|apply simF_none; [exact S|exact A|discriminate]].
    destruct (rrun al (abs s) c) as [oc x] eqn:EC. cbn [fst snd] in *. unfold simF. rewrite rrun_app, EC. destruct x as [r|]; [|left; auto].
    left. destruct (concat chunks) as [|b bs]; cbn [rrun]; [cbn [fst snd]; now rewrite app_nil_r|]. rewrite (S2 b). cbn [fst snd]. now rewrite app_nil_r.
  - destruct S as [S|S]; [now left|right]. rewrite rrun_app. destruct (rrun al (abs s) c) as [oc x]. cbn [snd] in S. subst x. reflexivity.
Qed.
End Feed.

(** * Why a run is undefined *)
Definition hist (h : list N) (s : ltp) : Prop :=
  (exists a, h = a ++ l_sdnv s) \/
  match l_st s with SHead k => k = 0 \/ k = 3 \/ k = 4 \/ k = 6 | SData k => k = 5 | SCancel => True | STrail k => k = 0 \/ k = 2 | _ => False end.
Definition hist2 (h : list N) (s : ltp) : Prop := match l_st s with SData 3 | SData 4 => announced h (d_len (l_m s)) | _ => True end.
Lemma announced_post a b v : announced a v -> announced (a ++ b) v.
Proof. intros (x & sd & c & -> & H). exists x, sd, (c ++ b). split; [now rewrite <- !app_assoc|exact H]. Qed.
Lemma announced_pre a b v : announced b v -> announced (a ++ b) v.
Proof. intros (x & sd & c & -> & H). exists (a ++ x), sd, c. split; [now rewrite <- !app_assoc|exact H]. Qed.
Lemma announced_sdnvs vs bs i : sdnvs vs bs -> (i < length vs)%nat -> announced bs (nth i vs 0).
Proof.
  intros H. revert i. induction H as [|v sd vs bs S1 S2 IH]; intros i L; [cbn in L; lia|]. destruct i as [|i]; cbn [nth].
  - exists [], sd, bs. auto.
  - apply announced_pre, IH. cbn in L. lia.
Qed.
Lemma rd_val junk p b v : junk_ok junk -> pend p -> is_byte b -> rd junk p b = LVal v -> sdnv_for v (p ++ [b]).
Proof.
  intros J P B E. rewrite (rd_rsd junk (fun _ => false) (fun _ => true)) in E; try assumption; try discriminate; try reflexivity. unfold rsd in E. destruct (Nat.ltb_spec 9 (length p)); [discriminate|].
  destruct (N.leb_spec 128 b); [discriminate|]. destruct (N.ltb_spec (sdnv_value (p ++ [b])) W64); [|discriminate]. injection E as <-.
  split; [exists p, b; repeat split; [apply P|assumption]|]. split; [rewrite app_length; cbn; lia|]. now split.
Qed.
Lemma rd_none junk p b : junk_ok junk -> pend p -> is_byte b -> rd junk p b <> LNone.
Proof.
  intros J P B E. rewrite (rd_rsd junk (fun _ => false) (fun _ => true)) in E; try assumption; try discriminate; try reflexivity. destruct (rsd p b); discriminate.
Qed.
Ltac ceq := repeat match goal with |- context [?a =? ?b] => let v := eval compute in (a =? b) in match v with true => change (a =? b) with true | false => change (a =? b) with false end end; cbn iota.
Section Cause.
Variables (junk : list N -> list N) (alloc : N -> bool).
Hypothesis J : junk_ok junk.
Definition causeU (bs : list N) (r : lres) : Prop := r = LUndef -> has_run32 bs \/ refused alloc bs.
Definition causeH (h rest : list N) (r : lres) : Prop := forall s o k, r = LCont s o k -> hist (h ++ firstn k rest) s /\ hist2 (h ++ firstn k rest) s.
Definition both (h rest : list N) (r : lres) : Prop := causeU (h ++ rest) r /\ causeH h rest r.
Lemma both_stop h rest s o : both h rest (LStop s o).
Proof. split; [discriminate|intros ? ? ? E; discriminate]. Qed.
Lemma both_cont h rest s o k : l_sdnv s = [] -> hist2 (h ++ firstn k rest) s -> both h rest (LCont s o k).
Proof.
  intros P H. split; [discriminate|]. intros ? ? ? E. injection E as <- <- <-. split; [|exact H]. left. rewrite P. exists (h ++ firstn k rest). now rewrite app_nil_r.
Qed.
Lemma both_free h rest s o k : (match l_st s with SHead k => k = 0 \/ k = 3 \/ k = 4 \/ k = 6 | SData k => k = 5 | SCancel => True | STrail k => k = 0 \/ k = 2 | _ => False end) -> both h rest (LCont s o k).
Proof.
  intros H. split; [discriminate|]. intros ? ? ? E. injection E as <- <- <-. split; [now right|]. unfold hist2. destruct (l_st s); try exact I. subst. exact I.
Qed.
Lemma both_undef h rest v : announced h v -> alloc v = false \/ alloc (16 * v) = false -> both h rest LUndef.
Proof. intros A E. split; [|intros ? ? ? X; discriminate]. intros _. right. exists v. split; [now apply announced_post|exact E]. Qed.
Lemma both_done h rest s cb k : both h rest (body_done s cb k).
Proof. unfold body_done. destruct (negb _); apply both_free; cbn; auto. Qed.
Lemma arr_cases m rest : Forall is_byte rest -> sdnv_array_fast m rest = None /\ has_run32 rest \/ sdnv_array_fast m rest = Some ArrError \/
  exists vs t, sdnv_array_fast m rest = Some (ArrOk vs t) /\ sdnvs vs (firstn (N.to_nat t) rest).
Proof.
  intros B. destruct (runs_away_dec m rest B) as [A|A]; [left; split; [now apply C12_array_fast_undefined_iff|now apply (away_run32 m)]|right].
  rewrite (array_fast_arr m rest B A). destruct (arr m rest) as [[vs t]|] eqn:E; [right; exists vs, t; split; [reflexivity|]; now apply (chain_arr m rest)|now left].
Qed.
Lemma both_run h rest : has_run32 rest -> both h rest LUndef.
Proof. intros R. split; [|intros ? ? ? X; discriminate]. intros _. left. now apply has_run32_pre. Qed.
Lemma nth_dflt (i : nat) (l : list N) d1 d2 : (i < length l)%nat -> nth i l d1 = nth i l d2.
Proof. apply nth_indep. Qed.
Lemma both_data h rest s : Forall is_byte rest -> l_sdnv s = [] -> l_st s = SData 0 -> both h rest (shortcut_data alloc s rest).
Proof.
  intros B P S0. unfold shortcut_data. set (m := if is_cp _ then 5%nat else 3%nat).
  destruct (arr_cases m rest B) as [(E & R)|[E|(vs & t & E & SV)]]; rewrite E; [now apply both_run|apply both_stop|]. cbn zeta.
  destruct (N.eqb_spec (N.of_nat (length vs)) 0); [apply both_cont; [exact P|unfold hist2; now rewrite S0]|].
  destruct (N.leb_spec 3 (N.of_nat (length vs))) as [L|L].
  - change (d_len (l_m (set_st (set_m s (meta_of (l_m s) vs)) (SData (N.of_nat (length vs)))))) with (nth 2 vs (d_len (l_m s))).
    rewrite (nth_indep vs _ 0) by lia. destruct (nth 2 vs 0 =? 0); [apply both_stop|]. destruct (alloc (nth 2 vs 0)) eqn:EA; cbn [negb].
    + destruct (is_cp _).
      * apply both_cont; [exact P|]. unfold hist2. cbn [set_st set_m set_data l_st l_m d_len set_ptrs meta_of]. rewrite (nth_indep vs _ 0) by lia.
        assert (AN : announced (h ++ firstn (N.to_nat t) rest) (nth 2 vs 0)) by (apply announced_pre, announced_sdnvs; [exact SV|lia]).
        destruct (N.of_nat (length vs)) as [|[[p|p|]|[p|[p|p|]|]|]]; exact I || exact AN.
      * apply both_free. reflexivity.
    + split; [|intros ? ? ? X; discriminate]. intros _. right. exists (nth 2 vs 0). split; [|now left]. apply announced_pre. rewrite <- (firstn_skipn (N.to_nat t) rest).
      apply announced_post, announced_sdnvs; [exact SV|lia].
  - apply both_cont; [exact P|]. unfold hist2. cbn [set_st l_st]. destruct (N.of_nat (length vs)) as [|[[p|p|]|[p|[p|p|]|]|]] eqn:EL; try exact I; lia.
Qed.
Lemma both_report h rest s : Forall is_byte rest -> l_sdnv s = [] -> l_st s = SReport 0 -> both h rest (shortcut_report alloc s rest).
Proof.
  intros B P S0. unfold shortcut_report.
  destruct (arr_cases 5 rest B) as [(E & R)|[E|(vs & t & E & SV)]]; rewrite E; [now apply both_run|apply both_stop|]. cbn zeta.
  destruct (N.eqb_spec (N.of_nat (length vs)) 0); [apply both_cont; [exact P|unfold hist2; now rewrite S0]|].
  destruct (N.ltb_spec (N.of_nat (length vs)) 5) as [L|L]; [apply both_cont; [exact P|exact I]|].
  change (r_cnt (l_r (set_st (set_r s (rep_of (l_r s) vs)) (SReport (N.of_nat (length vs)))))) with (nth 4 vs (r_cnt (l_r s))). rewrite (nth_indep vs _ 0) by lia.
  destruct (nth 4 vs 0 =? 0); [apply both_stop|]. destruct (alloc (16 * nth 4 vs 0)) eqn:EA; cbn [negb].
  - set (B2 := skipn (N.to_nat t) rest). assert (BB : Forall is_byte B2) by (rewrite <- (firstn_skipn (N.to_nat t) rest) in B; now apply Forall_app in B).
    match goal with |- context [sdnv_array_fast ?m B2] => destruct (arr_cases m B2 BB) as [(E2 & R)|[E2|(cv & ct & E2 & SV2)]]; rewrite E2 end; [|apply both_stop|].
    + apply both_run. rewrite <- (firstn_skipn (N.to_nat t) rest). now apply has_run32_pre.
    + destruct (existsb _ _); [apply both_stop|]. destruct (_ =? _); [apply both_done|]. apply both_cont; [exact P|exact I].
  - split; [|intros ? ? ? X; discriminate]. intros _. right. exists (nth 4 vs 0). split; [|now right]. apply announced_pre. rewrite <- (firstn_skipn (N.to_nat t) rest).
    apply announced_post, announced_sdnvs; [exact SV|lia].
Qed.
Lemma both_nah h rest s : Forall is_byte rest -> both h rest (next_after_header alloc s rest).
Proof.
  intros B. unfold next_after_header. destruct (_ =? 13); [apply both_done|]. destruct (_ || _); [apply both_stop|].
  destruct (_ <=? 7); [now apply both_data|]. destruct (_ =? 8); [now apply both_report|]. destruct (_ =? 9); [apply both_cont; [reflexivity|exact I]|apply both_free; exact I].
Qed.
Lemma both_nat h rest s : both h rest (next_after_trailer s).
Proof.
  unfold next_after_trailer. destruct (_ =? 13); [apply both_free; now left|]. destruct (_ || _); [apply both_stop|].
  destruct (_ <=? 7); [apply both_free; now left|]. destruct (_ =? 8); [apply both_free; now left|]. destruct (_ =? 9); apply both_free; now left.
Qed.
Lemma both_field h s b rest k : is_byte b -> pend (l_sdnv s) -> (exists a, h = a ++ l_sdnv s) -> hist2 h s ->
  (forall v, sdnv_for v (l_sdnv s ++ [b]) -> both (h ++ [b]) rest (k (set_sd s (l_sdnv s ++ [b])) v)) -> both (h ++ [b]) rest (sdnv_field junk s b k).
Proof.
  intros B P (a & EH) H2 HK. unfold sdnv_field. destruct (rd junk (l_sdnv s) b) as [| |v|] eqn:E.
  - split; [discriminate|]. intros ? ? ? X. injection X as <- <- <-. cbn [firstn]. rewrite app_nil_r. split.
    + left. exists a. cbn [set_sd l_sdnv]. rewrite EH. now rewrite <- app_assoc.
    + unfold hist2 in *. cbn [set_sd l_st l_m]. destruct (l_st s) as [|kk| | | |]; try exact I. destruct kk as [|[[p|p|]|[p|[p|p|]|]|]]; try exact I; now apply announced_post.
  - apply both_stop.
  - apply HK. now apply (rd_val junk).
  - exfalso. now apply (rd_none junk (l_sdnv s) b J P B).
Qed.
Ltac fl := apply both_field; [assumption|assumption|assumption|assumption|intros v V; cbn beta zeta].
Lemma suffix_announced h s b v : (exists a, h = a ++ l_sdnv s) -> sdnv_for v (l_sdnv s ++ [b]) -> announced (h ++ [b]) v.
Proof. intros (a & ->) V. exists a, (l_sdnv s ++ [b]), []. rewrite app_nil_r, <- app_assoc. auto. Qed.
Lemma both_step h s b rest : inv s -> hist h s -> hist2 h s -> is_byte b -> Forall is_byte rest -> both (h ++ [b]) rest (lstep junk alloc s b rest).
Proof.
  intros IV H H2 B BR. unfold inv in IV. unfold hist in H. unfold lstep. pose proof (suffix_announced h s b) as AN. destruct (l_st s) as [k|k|k| | |k] eqn:ES.
  - unfold head_step. destruct IV as [->|[(-> & P)|[(-> & P)|[->|([->|[(-> & P & X)|(-> & X)]] & T)]]]]; ceq.
    + destruct (negb _); [apply both_stop|]. destruct (arr_cases 2 rest BR) as [(E & R)|[E|(vs & t & E & SV)]]; rewrite E; [now apply both_run|apply both_stop|].
      apply both_cont; [reflexivity|exact I].
    + destruct H as [H|H]; [|lia]. fl. apply both_cont; [reflexivity|exact I].
    + destruct H as [H|H]; [|lia]. fl. apply both_free. cbn. auto.
    + cbn zeta. destruct (negb _); [apply both_free; cbn; auto|now apply both_nah].
    + apply both_cont; [reflexivity|exact I].
    + destruct H as [H|H]; [|lia]. fl. destruct (v =? 0); [destruct (_ =? _); [now apply both_nah|apply both_free; cbn; auto]|].
      destruct (alloc v) eqn:EA; cbn [negb]; [apply both_free; cbn; auto|apply (both_undef _ _ v); auto].
    + destruct (push_some _ b X) as (y & -> & _). cbn zeta. destruct (_ =? _); [destruct (_ =? _); [now apply both_nah|apply both_free; cbn; auto]|].
      apply both_free. cbn [set_h l_st]. rewrite ES. auto.
  - unfold data_step. unfold hist2 in H2. rewrite ES in H2. assert (H3 : hist2 h s) by (unfold hist2; rewrite ES; exact H2).
    destruct IV as (K & T & [([->|[->|[->|([->| ->] & ICP & PT & NZ)]]] & P)|(-> & PT & L)]); ceq.
    + destruct H as [H|H]; [|lia]. fl. apply both_cont; [reflexivity|exact I].
    + destruct H as [H|H]; [|lia]. fl. apply both_cont; [reflexivity|exact I].
    + destruct H as [H|H]; [|lia]. fl. destruct (v =? 0); [apply both_stop|]. destruct (is_cp _).
      * apply both_cont; [reflexivity|]. unfold hist2. cbn. apply announced_post. auto.
      * destruct (alloc v) eqn:EA; cbn [negb]; [apply both_free; reflexivity|apply (both_undef _ _ v); auto].
    + destruct H as [H|H]; [|lia]. fl. apply both_cont; [reflexivity|]. unfold hist2. cbn. rewrite app_nil_r. now apply announced_post.
    + destruct H as [H|H]; [|lia]. fl. destruct (alloc (d_len _)) eqn:EA; cbn [negb]; [apply both_free; reflexivity|apply (both_undef _ _ (d_len (l_m s))); [now apply announced_post|now left]].
    + cbn zeta. destruct (_ && _); [apply both_done|]. destruct (_ =? _); [apply both_done|]. apply both_free. cbn [set_data l_st]. now rewrite ES.
  - unfold report_step. assert (H3 : hist2 h s) by (unfold hist2; now rewrite ES). destruct H as [H|H]; [|contradiction].
    destruct IV as (K & T & P & [->|[->|[->|[->|[->|[->|(-> & NC)]]]]]]); ceq; fl; try (apply both_cont; [reflexivity|exact I]).
    + destruct (v =? 0); [apply both_stop|]. destruct (alloc (16 * v)) eqn:EA; cbn [negb]; [apply both_cont; [reflexivity|exact I]|apply (both_undef _ _ v); auto].
    + destruct (v =? 0); [apply both_stop|]. cbn [set_sd l_r].
      assert (SL : exists x, set_last_len (r_claims (l_r s)) v = Some x).
      { revert NC. generalize (r_claims (l_r s)). clear. induction l as [|[o n] l IH]; intros NC; [contradiction|]. destruct l as [|e l]; [eexists; reflexivity|].
        destruct (IH ltac:(discriminate)) as (x & E). exists ((o, n) :: x). change (set_last_len ((o, n) :: e :: l) v) with (option_map (cons (o, n)) (set_last_len (e :: l) v)). now rewrite E. }
      destruct SL as (x & ->). destruct (_ <? _); [apply both_cont; [reflexivity|exact I]|apply both_done].
  - assert (H3 : hist2 h s) by (unfold hist2; now rewrite ES). destruct H as [H|H]; [|contradiction]. destruct IV as (K & T & P). fl. apply both_done.
  - apply both_done.
  - unfold trailer_step. assert (H3 : hist2 h s) by (unfold hist2; now rewrite ES). destruct IV as (K & [->|([(-> & P)| ->] & NT)]); ceq.
    + apply both_cont; [reflexivity|exact I].
    + destruct H as [H|H]; [|lia]. fl. destruct (v =? 0); [destruct (_ =? _); [apply both_nat|apply both_free; cbn; auto]|].
      destruct (alloc v) eqn:EA; cbn [negb]; [apply both_free; cbn; auto|apply (both_undef _ _ v); auto].
    + destruct (push_some _ b NT) as (y & -> & _). cbn zeta. destruct (_ =? _); [destruct (_ =? _); [apply both_nat|apply both_free; cbn; auto]|].
      apply both_free. cbn [set_h l_st]. rewrite ES. auto.
Qed.
Hypothesis BOUND : forall n, alloc n = true -> n < 2 ^ 35.
Definition why (h bs : list N) (r : lfeed) : Prop :=
  match r with FOk s _ => inv s /\ hist (h ++ bs) s /\ hist2 (h ++ bs) s | FFail _ _ => True | FUndef => has_run32 (h ++ bs) \/ refused alloc (h ++ bs) end.
Lemma feed_why fuel : forall h s bs, (length bs <= fuel)%nat -> inv s -> hist h s -> hist2 h s -> Forall is_byte bs -> why h bs (feed_loop junk alloc fuel s bs).
Proof.
  induction fuel as [|fuel IH]; intros h s bs L I H H2 B; destruct bs as [|b bs]; cbn [feed_loop]; try (cbn [why]; rewrite app_nil_r; auto); [cbn in L; lia|].
  inversion B as [|? ? B1 B2]; subst. cbn [length] in L. pose proof (both_step h s b bs I H H2 B1 B2) as [U C].
  pose proof (step_sim junk alloc (fun _ => true) J BOUND (fun _ _ => eq_refl) s b bs I B1 B2) as S.
  destruct (lstep junk alloc s b bs) as [s1 o1 k|s1 o1|]; [|exact Logic.I|].
  - destruct S as (_ & I1 & _). destruct (C _ _ _ eq_refl) as [G1 G2]. assert (B3 : Forall is_byte (skipn k bs)) by (rewrite <- (firstn_skipn k bs) in B2; now apply Forall_app in B2).
    specialize (IH ((h ++ [b]) ++ firstn k bs) s1 (skipn k bs) ltac:(rewrite skipn_length; lia) I1 G1 G2 B3).
    assert (E : ((h ++ [b]) ++ firstn k bs) ++ skipn k bs = h ++ b :: bs) by (rewrite <- !app_assoc; cbn [app]; now rewrite firstn_skipn).
    destruct (feed_loop junk alloc fuel s1 (skipn k bs)); cbn [why] in *; rewrite ?E in IH; auto.
  - cbn [why]. specialize (U eq_refl). now rewrite <- app_assoc in U.
Qed.
Lemma calls_why reuse chunks : forall h s, inv s -> hist h s -> hist2 h s -> Forall is_byte (concat chunks) -> why h (concat chunks) (calls junk alloc reuse s chunks).
Proof.
  induction chunks as [|c chunks IH]; intros h s I H H2 B; cbn [calls concat] in *; [cbn [why]; rewrite app_nil_r; auto|]. apply Forall_app in B. destruct B as [B1 B2].
  assert (AG : inv (age reuse s) /\ hist h (age reuse s) /\ hist2 h (age reuse s)) by (unfold age; destruct (l_raw s); auto). destruct AG as (I' & H' & H2').
  pose proof (feed_why (length c) h (age reuse s) c (le_n _) I' H' H2' B1) as W. destruct (feed_loop junk alloc (length c) (age reuse s) c) as [s1 o1|s1 o1|]; cbn [why] in W; [|exact Logic.I|].
  - destruct W as (W1 & W2 & W3). specialize (IH (h ++ c) s1 W1 W2 W3 B2). destruct (calls junk alloc reuse s1 chunks); cbn [why] in *; rewrite <- ?app_assoc in IH; auto.
  - cbn [why]. rewrite app_assoc. destruct W as [W|(v & W & R)]; [left; now apply has_run32_post|right; exists v; split; [now apply announced_post|exact R]].
Qed.
End Cause.
