(** Lemmas for C14: the invariant of the single-producer single-consumer ring. *)
From Coq Require Import NArith ZArith List Bool Lia ZifyBool ZifyN.
From Verif Require Import Base M_Spsc S_Spsc.
Import ListNotations.
Open Scope N_scope.

Lemma written_app a b : written (a ++ b) = written a ++ written b.
Proof. induction a as [|[] a IH]; simpl; try rewrite IH; reflexivity. Qed.
Lemma got_app a b : got (a ++ b) = got a ++ got b.
Proof. induction a as [|[] a IH]; simpl; try rewrite IH; reflexivity. Qed.
Lemma commitsW_app a b : commitsW (a ++ b) = (commitsW a + commitsW b)%nat.
Proof. induction a as [|[] a IH]; simpl; try rewrite IH; reflexivity. Qed.
Lemma commitsR_app a b : commitsR (a ++ b) = (commitsR a + commitsR b)%nat.
Proof. induction a as [|[] a IH]; simpl; try rewrite IH; reflexivity. Qed.

Section ring.
Context (size : N) (Hs : 1 <= size) (Hw : size < W32).

Lemma slot_lt j : slot_of size j < size.
Proof. apply N.mod_lt. lia. Qed.
Lemma slot_next j : cb_next size (slot_of size j) = slot_of size (S j).
Proof.
  unfold cb_next. pose proof (slot_lt j) as L. rewrite (N.mod_small (_ + 1)) by lia.
  unfold slot_of in *. replace (N.of_nat (S j)) with (N.of_nat j + 1) by lia.
  pose proof (N.div_mod (N.of_nat j) size ltac:(lia)) as D.
  destruct (N.leb_spec size (N.of_nat j mod size + 1)).
  - apply (N.mod_unique _ _ (N.of_nat j / size + 1)); nia.
  - apply (N.mod_unique _ _ (N.of_nat j / size)); nia.
Qed.
Lemma slot_inj j k : slot_of size j = slot_of size k -> (j <= k)%nat -> N.of_nat k < N.of_nat j + size -> j = k.
Proof.
  unfold slot_of. intros E L B.
  pose proof (N.div_mod (N.of_nat j) size ltac:(lia)). pose proof (N.div_mod (N.of_nat k) size ltac:(lia)).
  assert (N.of_nat j / size <= N.of_nat k / size) by (apply N.div_le_mono; lia).
  assert (N.of_nat k / size < N.of_nat j / size + 1) by nia.
  assert (N.of_nat k / size = N.of_nat j / size) as Q by lia. rewrite Q, <- E in *. lia.
Qed.
Lemma slot_not_sentinel j : slot_of size j =? CB_FULL = false.
Proof. pose proof (slot_lt j). unfold CB_FULL, W32 in *. lia. Qed.

Definition hist (n : nat) : list N := map (slot_of size) (seq 0 (S n)).
Lemma hist_len n : length (hist n) = S n.
Proof. unfold hist. now rewrite map_length, seq_length. Qed.
Lemma hist_nth n k : (k <= n)%nat -> nth k (hist n) 0 = slot_of size k.
Proof.
  intros. unfold hist. rewrite (nth_indep _ 0 (slot_of size 0)) by (rewrite map_length, seq_length; lia).
  rewrite map_nth, seq_nth by lia. reflexivity.
Qed.
Lemma hist_S n : hist (S n) = hist n ++ [slot_of size (S n)].
Proof. unfold hist. rewrite (seq_S (S n)), map_app. reflexivity. Qed.
Lemma hist_last n : last (hist n) 0 = slot_of size n.
Proof. destruct n; [reflexivity|]. rewrite hist_S. apply last_last. Qed.

Definition b2 (p : pcb) : nat := match p with Done => 1%nat | _ => 0%nat end.

Record inv (es : list event) (st : spsc) : Prop := {
  i_end : sp_endH st = hist (commitsW es);
  i_start : sp_startH st = hist (commitsR es);
  i_nw : length (written es) = (commitsW es + b2 (sp_ppc st))%nat;
  i_nr : length (got es) = (commitsR es + b2 (sp_cpc st))%nat;
  i_pv : (sp_pview st <= commitsR es)%nat;
  i_room : N.of_nat (commitsW es) < N.of_nat (sp_pview st) + size;
  i_cv1 : (commitsR es <= sp_cview st)%nat;
  i_cv2 : (sp_cview st <= commitsW es)%nat;
  i_ppc : match sp_ppc st with Idle => True
          | Got i => i = slot_of size (commitsW es) /\ N.of_nat (commitsW es) + 1 < N.of_nat (sp_pview st) + size
          | Done => N.of_nat (commitsW es) + 1 < N.of_nat (sp_pview st) + size end;
  i_cpc : match sp_cpc st with Idle => True
          | Got i => i = slot_of size (commitsR es) /\ (commitsR es < sp_cview st)%nat
          | Done => (commitsR es < sp_cview st)%nat end;
  i_vals : firstn (length (got es)) (written es) = got es;
  i_slots : forall j, (commitsR es <= j < length (written es))%nat ->
              sp_slots st (slot_of size j) = Some (nth j (written es) 0, S j);
  i_reads : forall i, sp_reads st i = O \/ exists j, slot_of size j = i /\ sp_reads st i = S j /\ (j < length (got es))%nat }.

Lemma inv_init : inv [] sp_init.
Proof.
  assert (slot_of size 0 = 0) as Z by (unfold slot_of; apply N.mod_small; lia).
  constructor; simpl; try lia; auto; unfold hist; simpl; rewrite ?Z; auto.
Qed.

Lemma write_index es st k : inv es st -> (sp_pview st <= k <= commitsR es)%nat ->
  cb_index_for_write size (last (sp_endH st) 0) (nth k (sp_startH st) 0) =
  if N.of_nat (commitsW es) + 1 =? N.of_nat k + size then CB_FULL else slot_of size (commitsW es).
Proof.
  intros I K. rewrite (i_end _ _ I), (i_start _ _ I), hist_last, hist_nth by lia.
  unfold cb_index_for_write. rewrite slot_next. pose proof (i_room _ _ I). pose proof (i_cv1 _ _ I). pose proof (i_cv2 _ _ I).
  destruct (N.eqb_spec (N.of_nat (commitsW es) + 1) (N.of_nat k + size)) as [E|E].
  - replace (slot_of size k) with (slot_of size (S (commitsW es))); [now rewrite N.eqb_refl|].
    unfold slot_of. replace (N.of_nat (S (commitsW es))) with (N.of_nat k + 1 * size) by lia. apply N.mod_add. lia.
  - destruct (N.eqb_spec (slot_of size k) (slot_of size (S (commitsW es)))) as [E'|]; [|reflexivity].
    apply slot_inj in E'; lia.
Qed.
Lemma read_index es st k : inv es st -> (sp_cview st <= k <= commitsW es)%nat ->
  cb_index_for_read (nth k (sp_endH st) 0) (last (sp_startH st) 0) =
  if Nat.eqb k (commitsR es) then CB_EMPTY else slot_of size (commitsR es).
Proof.
  intros I K. rewrite (i_end _ _ I), (i_start _ _ I), hist_last, hist_nth by lia.
  unfold cb_index_for_read. pose proof (i_room _ _ I). pose proof (i_cv1 _ _ I). pose proof (i_pv _ _ I).
  destruct (Nat.eqb_spec k (commitsR es)) as [->|E]; [now rewrite N.eqb_refl|].
  destruct (N.eqb_spec (slot_of size k) (slot_of size (commitsR es))) as [E'|]; [|reflexivity].
  symmetry in E'. apply slot_inj in E'; lia.
Qed.

Ltac evs := rewrite ?written_app, ?got_app, ?commitsW_app, ?commitsR_app, ?app_length; simpl; rewrite ?app_nil_r, ?Nat.add_0_r.

Lemma inv_step es st a o : inv es st -> sp_step size st a = Some o -> exists st' e, o = Next st' e /\ inv (es ++ [e]) st'.
Proof.
  intros I E. destruct a; simpl in E.
  - (* PGet *)
    assert (sp_ppc st <> Done) as ND by (intros Q; rewrite Q in E; discriminate).
    assert ((sp_pview st <= k <= commitsR es)%nat /\
      o = Next (mkSpsc (sp_endH st) (sp_startH st) k (sp_cview st)
        (if (cb_index_for_write size (last (sp_endH st) 0) (nth k (sp_startH st) 0)) =? CB_FULL then Idle else Got (cb_index_for_write size (last (sp_endH st) 0) (nth k (sp_startH st) 0)))
        (sp_cpc st) (sp_slots st) (sp_reads st)) (EvIndexW (cb_index_for_write size (last (sp_endH st) 0) (nth k (sp_startH st) 0)))) as [K ->].
    { assert (length (sp_startH st) = S (commitsR es)) as HL by (rewrite (i_start _ _ I); apply hist_len). rewrite HL in E.
      destruct (Nat.leb_spec (sp_pview st) k), (Nat.ltb_spec k (S (commitsR es)));
        destruct (sp_ppc st); try congruence; simpl in E; try discriminate; injection E as <-; (split; [lia|reflexivity]). }
    clear E. do 2 eexists. split; [reflexivity|]. rewrite (write_index es st k I K).
    assert (b2 (sp_ppc st) = 0%nat) as B by (destruct (sp_ppc st); congruence || reflexivity).
    destruct I. constructor; evs; auto; try lia.
    + rewrite i_nw0, B. destruct (N.of_nat (commitsW es) + 1 =? N.of_nat k + size); [reflexivity|]. rewrite slot_not_sentinel. reflexivity.
    + destruct (N.eqb_spec (N.of_nat (commitsW es) + 1) (N.of_nat k + size)); [exact Logic.I|]. rewrite slot_not_sentinel. split; [reflexivity|lia].
  - (* PWrite *)
    destruct (sp_ppc st) eqn:P; try discriminate. pose proof (i_ppc _ _ I) as PP. rewrite P in PP. destruct PP as [-> R].
    pose proof (slot_lt (commitsW es)) as L. replace (size <=? slot_of size (commitsW es)) with false in E by lia.
    assert (Nat.ltb (sp_pview st) (sp_reads st (slot_of size (commitsW es))) = false) as NR.
    { apply Nat.ltb_ge. destruct (i_reads _ _ I (slot_of size (commitsW es))) as [->|(j & S1 & -> & J)]; [lia|].
      pose proof (i_nr _ _ I) as NR. pose proof (i_cpc _ _ I) as C. pose proof (i_cv1 _ _ I). pose proof (i_cv2 _ _ I).
      assert (j < commitsW es)%nat as JW by (rewrite NR in J; destruct (sp_cpc st); simpl in J; lia).
      destruct (N.ltb_spec (N.of_nat (commitsW es)) (N.of_nat j + size)); [|lia].
      apply slot_inj in S1; lia. }
    rewrite NR in E. injection E as <-. do 2 eexists. split; [reflexivity|].
    pose proof (i_pv _ _ I) as PV. pose proof (i_nw _ _ I) as NW. rewrite P in NW. simpl in NW. rewrite Nat.add_0_r in NW.
    pose proof (i_cv1 _ _ I). pose proof (i_cv2 _ _ I). pose proof (i_nr _ _ I) as NRD. pose proof (i_cpc _ _ I) as CP.
    assert (length (got es) <= length (written es))%nat as GL by (rewrite NRD, NW; destruct (sp_cpc st); simpl; lia).
    destruct I. constructor; evs; auto; try lia.
    + rewrite firstn_app. replace (length (got es) - length (written es))%nat with 0%nat by lia. simpl. rewrite app_nil_r. assumption.
    + intros j J. unfold upd. destruct (N.eqb_spec (slot_of size j) (slot_of size (commitsW es))) as [Q|Q].
      * apply slot_inj in Q; [|lia|lia]. subst j. rewrite i_end0, hist_len, app_nth2 by lia. rewrite NW, Nat.sub_diag. reflexivity.
      * assert (j < length (written es))%nat by (destruct (Nat.eq_dec j (commitsW es)); [subst; congruence|lia]).
        rewrite app_nth1 by lia. apply i_slots0. lia.
  - (* PCommit *)
    destruct (sp_ppc st) eqn:P; try discriminate. injection E as <-. do 2 eexists. split; [reflexivity|].
    pose proof (i_nw _ _ I) as NW. rewrite P in NW. simpl in NW. pose proof (i_ppc _ _ I) as PP. rewrite P in PP.
    destruct I. constructor; evs; auto; try lia.
    + rewrite i_end0, hist_last, slot_next, Nat.add_1_r. symmetry. apply hist_S.
  - (* CGet *)
    assert (sp_cpc st <> Done) as ND by (intros Q; rewrite Q in E; discriminate).
    assert ((sp_cview st <= k <= commitsW es)%nat /\
      o = Next (mkSpsc (sp_endH st) (sp_startH st) (sp_pview st) k (sp_ppc st)
        (if (cb_index_for_read (nth k (sp_endH st) 0) (last (sp_startH st) 0)) =? CB_EMPTY then Idle else Got (cb_index_for_read (nth k (sp_endH st) 0) (last (sp_startH st) 0)))
        (sp_slots st) (sp_reads st)) (EvIndexR (cb_index_for_read (nth k (sp_endH st) 0) (last (sp_startH st) 0)))) as [K ->].
    { assert (length (sp_endH st) = S (commitsW es)) as HL by (rewrite (i_end _ _ I); apply hist_len). rewrite HL in E.
      destruct (Nat.leb_spec (sp_cview st) k), (Nat.ltb_spec k (S (commitsW es)));
        destruct (sp_cpc st); try congruence; simpl in E; try discriminate; injection E as <-; (split; [lia|reflexivity]). }
    clear E. do 2 eexists. split; [reflexivity|]. rewrite (read_index es st k I K).
    assert (b2 (sp_cpc st) = 0%nat) as B by (destruct (sp_cpc st); congruence || reflexivity).
    destruct I. constructor; evs; auto; try lia.
    + rewrite i_nr0, B. destruct (Nat.eqb _ _); [reflexivity|]. rewrite slot_not_sentinel. reflexivity.
    + destruct (Nat.eqb_spec k (commitsR es)); [exact Logic.I|]. rewrite slot_not_sentinel. split; [reflexivity|lia].
  - (* CRead *)
    destruct (sp_cpc st) eqn:P; try discriminate. pose proof (i_cpc _ _ I) as PP. rewrite P in PP. destruct PP as [-> R].
    pose proof (slot_lt (commitsR es)) as L. replace (size <=? slot_of size (commitsR es)) with false in E by lia.
    pose proof (i_nw _ _ I) as NW. pose proof (i_cv2 _ _ I).
    assert (commitsR es < length (written es))%nat as RW by lia.
    rewrite (i_slots _ _ I) in E by lia. replace (Nat.ltb (sp_cview st) (S (commitsR es))) with false in E by lia.
    injection E as <-. do 2 eexists. split; [reflexivity|].
    pose proof (i_nr _ _ I) as NR. rewrite P in NR. simpl in NR. rewrite Nat.add_0_r in NR.
    destruct I. constructor; evs; auto; try lia.
    + rewrite NR. rewrite NR in i_vals0. rewrite <- i_vals0. rewrite Nat.add_1_r. clear - RW.
      revert RW. generalize (commitsR es) as r, (written es) as w. intros r w. revert r.
      induction w as [|x w IH]; intros r RW; [simpl in RW; lia|]. destruct r; [reflexivity|].
      change (firstn (S (S r)) (x :: w)) with (x :: firstn (S r) w). rewrite IH by (simpl in RW; lia). reflexivity.
    + intros i. unfold upd. destruct (N.eqb_spec i (slot_of size (commitsR es))) as [->|Q].
      * right. exists (commitsR es). rewrite i_start0, hist_len. repeat split; lia.
      * destruct (i_reads0 i) as [|(j & A & B & C)]; [now left|]. right. exists j. repeat split; auto. lia.
  - (* CCommit *)
    destruct (sp_cpc st) eqn:P; try discriminate. injection E as <-. do 2 eexists. split; [reflexivity|].
    pose proof (i_nr _ _ I) as NR. rewrite P in NR. simpl in NR. pose proof (i_cpc _ _ I) as PP. rewrite P in PP.
    destruct I. constructor; evs; auto; try lia.
    + rewrite i_start0, hist_last, slot_next, Nat.add_1_r. symmetry. apply hist_S.
    + intros j J. apply i_slots0. lia.
Qed.

Lemma inv_run acts : forall es st r es', inv es st -> sp_run size st acts = Some (r, es') -> exists st', r = inl st' /\ inv (es ++ es') st'.
Proof.
  induction acts as [|a acts IH]; intros es st r es' I E; simpl in E.
  - injection E as <- <-. exists st. now rewrite app_nil_r.
  - destruct (sp_step size st a) as [o|] eqn:S; [|discriminate].
    destruct (inv_step es st a o I S) as (st1 & e & -> & I1).
    destruct (sp_run size st1 acts) as [[r1 es1]|] eqn:E1; [|discriminate]. simpl in E. injection E as <- <-.
    destruct (IH _ _ _ _ I1 E1) as (st' & -> & I'). exists st'. rewrite <- app_assoc in I'. split; [reflexivity|exact I'].
Qed.
End ring.

Section counts.
Context (size : N) (Hs : 1 <= size) (Hw : size < W32).
Lemma num_core a b m ra rb : b = m + rb -> a = m + ra \/ a = m + size + ra -> b <= a -> a - b < size -> ra < size -> rb < size ->
  cb_num size ra rb = a - b.
Proof.
  intros Eb Ea L B La Lb. unfold cb_num. unfold W32 in *. destruct (N.ltb_spec ra rb); destruct Ea as [Ea|Ea]; try lia.
Qed.
Lemma num_between a b : (b <= a)%nat -> N.of_nat (a - b) < size -> cb_num size (slot_of size a) (slot_of size b) = N.of_nat (a - b).
Proof.
  intros L B. pose proof (slot_lt size Hs Hw a) as La. pose proof (slot_lt size Hs Hw b) as Lb. unfold slot_of in *.
  rewrite (num_core (N.of_nat a) (N.of_nat b) (size * (N.of_nat b / size))); [clear - L; lia| | |clear - L; lia|clear - L B; lia|exact La|exact Lb].
  - apply N.div_mod. clear - Hs. lia.
  - assert (N.of_nat b / size <= N.of_nat a / size) by (apply N.div_le_mono; clear - Hs L; lia).
    assert (N.of_nat a / size <= N.of_nat b / size + 1) by (rewrite <- (N.div_add _ 1) by (clear - Hs; lia); apply N.div_le_mono; clear - Hs L B; lia).
    pose proof (N.div_mod (N.of_nat a) size ltac:(clear - Hs; lia)) as Da. rewrite Da at 1 3.
    revert H H0. generalize (N.of_nat a / size) as qa, (N.of_nat b / size) as qb. clear. intros qa qb A C.
    assert (qa = qb \/ qa = qb + 1) as [->| ->] by lia; [left|right]; lia.
Qed.
Lemma empty_between a b : (b <= a)%nat -> N.of_nat (a - b) < size -> cb_is_empty (slot_of size a) (slot_of size b) = (N.of_nat (a - b) =? 0).
Proof.
  intros L B. unfold cb_is_empty. destruct (N.eqb_spec (slot_of size a) (slot_of size b)) as [E|E].
  - symmetry in E. apply (slot_inj size Hs Hw) in E; lia.
  - destruct (N.eqb_spec (N.of_nat (a - b)) 0); [|reflexivity]. replace a with b in E by lia. congruence.
Qed.
Lemma full_between a b : (b <= a)%nat -> N.of_nat (a - b) < size -> cb_is_full size (slot_of size a) (slot_of size b) = (N.of_nat (a - b) =? size - 1).
Proof.
  intros L B. unfold cb_is_full. rewrite (slot_next size Hs Hw). destruct (N.eqb_spec (slot_of size b) (slot_of size (S a))) as [E|E].
  - destruct (N.eqb_spec (N.of_nat (a - b)) (size - 1)); [reflexivity|]. apply (slot_inj size Hs Hw) in E; lia.
  - destruct (N.eqb_spec (N.of_nat (a - b)) (size - 1)); [|reflexivity]. exfalso. apply E. unfold slot_of.
    replace (N.of_nat (S a)) with (N.of_nat b + 1 * size) by lia. symmetry. apply N.mod_add. lia.
Qed.
End counts.

(** Every event comes from one action, so executions can be cut anywhere. *)
Lemma run_split size : forall es1 acts st r es2, sp_run size st acts = Some (r, es1 ++ es2) ->
  exists acts1 acts2 st1, acts = acts1 ++ acts2 /\ sp_run size st acts1 = Some (inl st1, es1) /\ sp_run size st1 acts2 = Some (r, es2).
Proof.
  induction es1 as [|e es1 IH]; intros acts st r es2 E.
  - exists [], acts, st. auto.
  - destruct acts as [|a acts]; [discriminate|]. simpl in E. destruct (sp_step size st a) as [[st' e'|f]|] eqn:S; try discriminate.
    destruct (sp_run size st' acts) as [[r1 es']|] eqn:R; [|discriminate]. simpl in E. injection E as -> -> ->.
    destruct (IH _ _ _ _ R) as (a1 & a2 & st1 & -> & R1 & R2). exists (a :: a1), a2, st1. split; [reflexivity|]. split; [|exact R2].
    simpl. rewrite S, R1. reflexivity.
Qed.
Lemma run_app size : forall acts1 acts2 st st1 r es1 es2,
  sp_run size st acts1 = Some (inl st1, es1) -> sp_run size st1 acts2 = Some (r, es2) -> sp_run size st (acts1 ++ acts2) = Some (r, es1 ++ es2).
Proof.
  induction acts1 as [|a acts1 IH]; intros acts2 st st1 r es1 es2 E1 E2; simpl in E1 |- *.
  - injection E1 as <- <-. exact E2.
  - destruct (sp_step size st a) as [[st' e'|f]|] eqn:S; try discriminate.
    destruct (sp_run size st' acts1) as [[r1 es']|] eqn:R; [|discriminate]. simpl in E1. injection E1 as -> <-.
    rewrite (IH _ _ _ _ _ _ R E2). reflexivity.
Qed.
