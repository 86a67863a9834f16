From Coq Require Import NArith List Bool Lia Sorted ZifyBool ZifyN.
From Verif Require Import Base M_FragmentSet S_FragmentSet L_FragmentSet M_LtpFragmentSet S_LtpFragmentSet.
Import ListNotations.
Open Scope N_scope.

Lemma canonical_head_lt e s f : canonical (e :: s) -> In f s -> snd e + 1 < fst f.
Proof. intros H Hin. apply canonical_cons in H. destruct H as (_ & H & _). rewrite Forall_forall in H. now apply H. Qed.

Lemma claim_loop_spec lower upper : lower < upper -> upper < W64 -> forall s, canonical s ->
  (forall e, In e s -> lower <= snd e + 1) ->
  Forall (fun c => 1 <= snd c /\ lower + fst c + snd c <= upper) (claim_loop lower upper s) /\
  StronglySorted (claim_order true) (claim_loop lower upper s) /\
  (forall i, (exists c, In c (claim_loop lower upper s) /\ claim_covers lower c i) <-> covers s i /\ lower <= i /\ i < upper) /\
  (forall c, In c (claim_loop lower upper s) -> exists e, In e s /\ fst e <= lower + fst c).
Proof.
  intros Hlu Hu. induction s as [|[b e] s IH]; intros Hc Hlo.
  - simpl. repeat split; try constructor.
    + destruct H as (c & [] & _).
    + destruct H as (c & [] & _).
    + destruct H as (c & [] & _).
    + intros (H & _). now apply covers_nil in H.
    + intros c [].
  - pose proof Hc as Hc0. apply canonical_cons in Hc. destruct Hc as (Hv & Hg & Hc).
    assert (Hlo' : forall x, In x s -> lower <= snd x + 1) by (intros; apply Hlo; now right).
    specialize (IH Hc Hlo'). destruct IH as (I1 & I2 & I3 & I4).
    pose proof (Hlo (b, e) (or_introl eq_refl)) as Hle. simpl in Hle.
    unfold valid in Hv. simpl in Hv.
    assert (Htail : forall f, In f s -> e + 1 < fst f) by (intros f Hf; apply (canonical_head_lt (b, e) s f Hc0 Hf)).
    simpl claim_loop.
    destruct (upper <=? N.max b lower) eqn:E1.
    + repeat split; try constructor.
      * destruct H as (c & [] & _).
      * destruct H as (c & [] & _).
      * destruct H as (c & [] & _).
      * intros (Hcov & H1 & H2). apply covers_cons in Hcov. destruct Hcov as [H|(f & Hf & Hfi)].
        -- unfold in_frag in H. simpl in H. lia.
        -- specialize (Htail f Hf). unfold in_frag in Hfi. lia.
      * intros c [].
    + rewrite add64_small by lia.
      rewrite (sub64_small (N.max b lower)) by lia.
      rewrite (sub64_small (e + 1)) by lia.
      rewrite (sub64_small upper lower) by lia.
      rewrite (sub64_small upper) by lia.
      destruct (N.min (N.min (e + 1 - N.max b lower) (upper - lower)) (upper - N.max b lower) =? 0) eqn:E2.
      * split; [exact I1|]. split; [exact I2|]. split.
        -- intros i. rewrite I3, covers_cons. split; [tauto|]. intros ([H|H] & Hi); [|tauto].
           unfold in_frag in H. simpl in H. lia.
        -- intros c Hin. destruct (I4 c Hin) as (f & Hf & Hle2). exists f. split; [now right|auto].
      * set (len := N.min (N.min (e + 1 - N.max b lower) (upper - lower)) (upper - N.max b lower)) in *.
        split; [|split; [|split]].
        -- constructor; auto. simpl. lia.
        -- constructor; auto. rewrite Forall_forall. intros c Hin. destruct (I4 c Hin) as (f & Hf & Hle2).
           specialize (Htail f Hf). unfold claim_order. simpl. lia.
        -- intros i. rewrite covers_cons. split.
           ++ intros (c & [<-|Hin] & Hci).
              ** unfold claim_covers in Hci. simpl in Hci. split; [left; unfold in_frag; simpl; lia|lia].
              ** assert (Hx : exists c, In c (claim_loop lower upper s) /\ claim_covers lower c i) by eauto.
                 apply I3 in Hx. tauto.
           ++ intros ([H|H] & H1 & H2).
              ** exists (N.max b lower - lower, len). split; [now left|]. unfold claim_covers, in_frag in *. simpl in *. lia.
              ** assert (Hx : covers s i /\ lower <= i /\ i < upper) by tauto. apply I3 in Hx.
                 destruct Hx as (c & Hin & Hci). exists c. split; [now right|auto].
        -- intros c [<-|Hin].
           ++ exists (b, e). split; [now left|]. simpl. lia.
           ++ destruct (I4 c Hin) as (f & Hf & Hle2). exists f. split; [now right|auto].
Qed.

Lemma canonical_last_max : forall s d, canonical s -> forall f, In f s -> snd f <= snd (last s d).
Proof.
  induction s as [|e s IH]; intros d Hc f Hf; [destruct Hf|].
  pose proof Hc as Hc0. apply canonical_cons in Hc. destruct Hc as (Hv & Hg & Hc).
  destruct s as [|e2 s].
  - destruct Hf as [<-|[]]. simpl. lia.
  - change (last (e :: e2 :: s) d) with (last (e2 :: s) d). destruct Hf as [<-|Hf]; [|now apply IH].
    specialize (IH d Hc e2 (or_introl eq_refl)).
    pose proof (canonical_head_lt e (e2 :: s) e2 Hc0 (or_introl eq_refl)).
    pose proof (canonical_In (e2 :: s) e2 Hc (or_introl eq_refl)). unfold valid in *. lia.
Qed.
Lemma canonical_first_min : forall e s, canonical (e :: s) -> forall i, covers (e :: s) i -> fst e <= i.
Proof.
  intros e s Hc i Hi. pose proof Hc as Hc0. apply canonical_cons in Hc. destruct Hc as (Hv & Hg & _).
  apply covers_cons in Hi. destruct Hi as [Hi|(f & Hin & Hi)]; [apply Hi|].
  pose proof (canonical_head_lt e s f Hc0 Hin). unfold valid, in_frag in *. lia.
Qed.

Lemma last_nonempty {A} (s : list A) a d d' : last (a :: s) d = last (a :: s) d'.
Proof.
  revert a. induction s as [|b s IH]; intros a; [reflexivity|].
  change (last (b :: s) d = last (b :: s) d'). apply IH.
Qed.

Lemma populate_spec s lower0 upper0 : canonical s -> lower0 < W64 -> upper0 < W64 ->
  match populate s lower0 upper0 with
  | None => s = [] \/ effective_upper s upper0 <= effective_lower s lower0
  | Some r => s <> [] /\ rs_lower r = effective_lower s lower0 /\ rs_upper r = effective_upper s upper0 /\
      well_formed true r /\ (forall i, claimed r i <-> covers s i /\ in_scope r i)
  end.
Proof.
  intros Hc Hl Hu. unfold populate. destruct s as [|first s]; [auto|].
  assert (Hup : (if upper0 =? U64MAX then add64 (snd (last (first :: s) first)) 1 else upper0) = effective_upper (first :: s) upper0).
  { unfold effective_upper. destruct (upper0 =? U64MAX); auto.
    rewrite (last_nonempty s first first (0,0)). apply add64_small.
    assert (Hin : In (last (first :: s) (0,0)) (first :: s)).
    { clear. revert first. induction s as [|b s IH]; intros a; [now left|]. right. apply IH. }
    pose proof (canonical_In _ _ Hc Hin). unfold valid in *. lia. }
  assert (Hlow : (if lower0 =? U64MAX then fst first else lower0) = effective_lower (first :: s) lower0) by reflexivity.
  rewrite Hup, Hlow.
  set (L := effective_lower (first :: s) lower0). set (U := effective_upper (first :: s) upper0).
  destruct (U <=? L) eqn:E; [right; lia|].
  split; [discriminate|]. split; [reflexivity|]. split; [reflexivity|].
  assert (HU : U < W64).
  { subst U. unfold effective_upper. destruct (upper0 =? U64MAX); auto.
    assert (Hin : In (last (first :: s) (0,0)) (first :: s)).
    { clear. revert first. induction s as [|b s IH]; intros a; [now left|]. right. apply IH. }
    pose proof (canonical_In _ _ Hc Hin). unfold valid in *. lia. }
  set (start := if lower0 =? U64MAX then first :: s else snd (lower_bound (lower0, lower0) (first :: s))).
  assert (Hstart : canonical start /\ (forall e, In e start -> L <= snd e + 1) /\ (forall i, L <= i -> (covers start i <-> covers (first :: s) i))).
  { subst start L. unfold effective_lower. destruct (lower0 =? U64MAX) eqn:Ea.
    - split; auto. split; [|tauto]. intros e He.
      pose proof (canonical_In _ _ Hc He). 
      assert (fst first <= fst e). { apply (canonical_first_min first s Hc). exists e. split; auto. unfold in_frag, valid in *. lia. }
      unfold valid in *. lia.
    - destruct (lower_bound (lower0, lower0) (first :: s)) as [a b] eqn:Elb.
      pose proof (lower_bound_app _ _ _ _ Elb) as Happ. pose proof (lower_bound_before _ _ _ _ Hc Elb) as [Hba Hbb].
      simpl snd. rewrite Happ in Hc |- *. apply canonical_app in Hc. destruct Hc as (Hca & Hcb & Hcab).
      split; auto. split.
      + intros e He. destruct b as [|e0 b]; [destruct He|].
        destruct He as [<-|He]; [unfold gap_before in Hbb; simpl in Hbb; lia|].
        pose proof (canonical_head_lt e0 b e Hcb He). 
        assert (valid e) by (eapply canonical_In; [exact Hcb|now right]).
        unfold gap_before, valid in *. simpl in Hbb. lia.
      + intros i Hi. rewrite covers_app. split; [tauto|]. intros [(f & Hf & Hfi)|H]; auto.
        rewrite Forall_forall in Hba. specialize (Hba f Hf). unfold gap_before, in_frag in *. simpl in *. lia. }
  destruct Hstart as (Hcs & Hlo & Hcov).
  destruct (claim_loop_spec L U ltac:(lia) HU start Hcs Hlo) as (C1 & C2 & C3 & C4).
  split.
  - unfold well_formed. simpl. split; [lia|]. auto.
  - intros i. unfold claimed, in_scope. simpl rs_lower. simpl rs_upper. simpl rs_claims. etransitivity; [apply C3|]. split.
    + intros (H1 & H2 & H3). rewrite <- Hcov by auto. auto.
    + intros (H1 & H2 & H3). rewrite Hcov by auto. auto.
Qed.

(** ** Splitting *)
Definition wf_claims (lo hi : N) (cs : list claim) : Prop :=
  Forall (fun c => 1 <= snd c /\ lo <= fst c /\ fst c + snd c <= hi) cs /\ StronglySorted (claim_order false) cs.

Lemma wf_claims_cons lo hi c cs : wf_claims lo hi (c :: cs) <->
  1 <= snd c /\ lo <= fst c /\ fst c + snd c <= hi /\ wf_claims (fst c + snd c) hi cs.
Proof.
  unfold wf_claims. split.
  - intros (H1 & H2). inversion H1; subst. inversion H2; subst. repeat split; try tauto.
    rewrite Forall_forall in *. intros x Hx. specialize (H4 x Hx). specialize (H6 x Hx). unfold claim_order in H6. lia.
  - intros (A & B & C & D & E). split; constructor; auto.
    + rewrite Forall_forall in *. intros x Hx. specialize (D x Hx). lia.
    + rewrite Forall_forall in *. intros x Hx. specialize (D x Hx). unfold claim_order. lia.
Qed.

(** cur: offset (from orig) at which the current report's scope starts. *)
Lemma split_take_spec m orig hi : orig + hi < W64 -> forall cs i delta nl0,
  wf_claims delta hi cs -> wf_claims (nl0 - orig) hi cs -> orig <= nl0 ->
  exists t nl' rest, split_take m i delta orig nl0 cs = (t, nl', rest) /\
    (exists used, cs = used ++ rest /\ t = map (fun c => (fst c - delta, snd c)) used /\
       N.of_nat (length used) = N.min (m - i) (N.of_nat (length cs)) /\
       nl' = match used with [] => nl0 | _ => orig + fst (last used (0,0)) + snd (last used (0,0)) end) /\
    wf_claims (nl' - orig) hi rest /\ nl0 <= nl'.
Proof.
  intros Hno. induction cs as [|[off len] cs IH]; intros i delta nl0 Hd Hwf Hnl.
  - exists [], nl0, []. simpl. split; auto. split; [|split; [exact Hwf|lia]].
    exists []. repeat split. simpl. lia.
  - simpl. destruct (i <? m) eqn:E.
    + apply wf_claims_cons in Hwf. destruct Hwf as (W1 & W2 & W3 & W4). simpl in *.
      assert (Hd0 := Hd). apply wf_claims_cons in Hd0. destruct Hd0 as (D1 & D2 & D3 & D4). simpl in *.
      rewrite (add64_small orig off) by lia. rewrite (add64_small (orig + off) len) by lia.
      destruct (IH (i + 1) delta (orig + off + len)) as (t & nl' & rest & -> & (used & U1 & U2 & U3 & U4) & H2 & H3).
      * destruct D4 as (D4 & D5). split; auto. rewrite Forall_forall in *. intros x Hx. specialize (D4 x Hx). lia.
      * replace (orig + off + len - orig) with (off + len) by lia. exact W4.
      * lia.
      * exists ((sub64 off delta, len) :: t), nl', rest. split; auto. split; [|split; [exact H2|lia]].
        exists ((off, len) :: used). repeat split.
        -- now rewrite U1.
        -- simpl. rewrite sub64_small by lia. now rewrite U2.
        -- simpl length. lia.
        -- rewrite U4. destruct used; reflexivity.
    + exists [], nl0, ((off, len) :: cs). split; auto. split; [|split; [exact Hwf|lia]].
      exists []. repeat split. simpl. lia.
Qed.

Lemma absolute_shift orig nl (used : list claim) : Forall (fun c => nl - orig <= fst c) used -> orig <= nl ->
  map (fun c => (nl + fst c, snd c)) (map (fun c => (fst c - (nl - orig), snd c)) used) = map (fun c => (orig + fst c, snd c)) used.
Proof.
  intros H Ho. rewrite map_map. apply map_ext_in. intros c Hin. rewrite Forall_forall in H. specialize (H c Hin). simpl.
  f_equal. lia.
Qed.

Lemma StronglySorted_app {A} (R : A -> A -> Prop) l1 l2 : StronglySorted R (l1 ++ l2) -> StronglySorted R l1 /\ StronglySorted R l2.
Proof.
  induction l1 as [|a l1 IH]; simpl; intros H; [split; [constructor|auto]|].
  inversion H; subst. destruct (IH H2). split; auto. constructor; auto. rewrite Forall_app in H3. tauto.
Qed.

Lemma last_in {A} (l : list A) d : l <> [] -> In (last l d) l.
Proof.
  induction l as [|a l IH]; [congruence|]. intros _. destruct l as [|b l]; [now left|]. right. apply IH. discriminate.
Qed.

Lemma sorted_last_max strict : forall l d c, StronglySorted (claim_order strict) l -> In c l ->
  fst c + snd c <= fst (last l d) + snd (last l d).
Proof.
  induction l as [|a l IH]; intros d c Hs Hin; [destruct Hin|]. inversion Hs; subst.
  destruct l as [|b l]; [destruct Hin as [<-|[]]; simpl; lia|].
  change (last (a :: b :: l) d) with (last (b :: l) d).
  destruct Hin as [<-|Hin]; [|now apply IH].
  specialize (IH d b H1 (or_introl eq_refl)). inversion H2; subst. unfold claim_order in H3.
  destruct strict; cbv iota in *; lia.
Qed.

Lemma map_shift_sorted d (used : list claim) : Forall (fun c => d <= fst c) used ->
  StronglySorted (claim_order false) used -> StronglySorted (claim_order false) (map (fun c => (fst c - d, snd c)) used).
Proof.
  induction used as [|c used IH]; intros Hf Hs; simpl; [constructor|].
  inversion Hf; inversion Hs; subst. constructor; auto. rewrite Forall_forall in *. intros x Hx.
  apply in_map_iff in Hx. destruct Hx as (y & <- & Hy). specialize (H2 y Hy). specialize (H6 y Hy).
  unfold claim_order in *. simpl. lia.
Qed.

Lemma split_loop_S f m orig nl cs t nl' rest : cs <> [] ->
  split_take m 0 (sub64 nl orig) orig nl cs = (t, nl', rest) ->
  split_loop (S f) m orig nl cs = match split_loop f m orig nl' rest with Some rss => Some (mkReport nl nl' t :: rss) | None => None end.
Proof. intros H E. destruct cs; [congruence|]. unfold split_loop; fold split_loop. rewrite E. reflexivity. Qed.

Lemma split_loop_spec m orig hi : 1 <= m -> orig + hi < W64 -> forall fuel cs nl,
  (length cs <= fuel)%nat -> orig <= nl -> wf_claims (nl - orig) hi cs ->
  exists rss, split_loop fuel m orig nl cs = Some rss /\
    (cs <> [] -> rss <> []) /\
    Forall (rs_ok m) rss /\
    scopes_chain nl (match cs with [] => nl | _ => orig + fst (last cs (0,0)) + snd (last cs (0,0)) end) rss /\
    concat (map absolute rss) = map (fun c => (orig + fst c, snd c)) cs.
Proof.
  intros Hm Hno. induction fuel as [|fuel IH]; intros cs nl Hlen Ho Hwf.
  - destruct cs; simpl in Hlen; [|lia]. exists []. simpl. repeat split; auto; try constructor; congruence.
  - destruct cs as [|c cs0]. { exists []. simpl. repeat split; auto; try constructor; congruence. }
    remember (c :: cs0) as cs eqn:Ecs.
    assert (Hd : sub64 nl orig = nl - orig).
    { apply sub64_small; auto. subst cs. apply wf_claims_cons in Hwf. lia. }
    destruct (split_take_spec m orig hi Hno cs 0 (nl - orig) nl Hwf Hwf Ho) as (t & nl' & rest & E & (used & U1 & U2 & U3 & U4) & H2 & H3).
    assert (Hcsne : cs <> []) by (rewrite Ecs; discriminate).
    rewrite <- Hd in E. rewrite (split_loop_S fuel _ _ _ _ _ _ _ Hcsne E).
    assert (Hused : used <> []).
    { intros ->. simpl in U3. subst cs. simpl in U3. lia. }
    assert (Hlen' : (length rest <= fuel)%nat).
    { rewrite U1, app_length in Hlen. destruct used; [congruence|]. simpl in Hlen. lia. }
    destruct (IH rest nl' Hlen' ltac:(lia) H2) as (rss & E2 & R1 & R2 & R3 & R4).
    rewrite E2. exists (mkReport nl nl' t :: rss). split; auto.
    destruct Hwf as (Wf & Ws). rewrite U1 in Wf, Ws. rewrite Forall_app in Wf. destruct Wf as (Wf1 & Wf2).
    apply StronglySorted_app in Ws. destruct Ws as (Ws1 & Ws2).
    assert (Hnl' : nl' = orig + fst (last used (0,0)) + snd (last used (0,0))) by (destruct used; [congruence|exact U4]).
    assert (Hge : Forall (fun c => nl - orig <= fst c) used) by (eapply Forall_impl; [|exact Wf1]; simpl; lia).
    assert (Hin := last_in used (0,0) Hused).
    assert (Hlt : nl < nl'). { rewrite Forall_forall in Wf1. specialize (Wf1 _ Hin). lia. }
    split; [discriminate|]. split; [|split].
    + constructor; auto. unfold rs_ok. simpl. split; auto. split.
      { rewrite U2. destruct used; [congruence|discriminate]. }
      split. { rewrite U2, map_length. change (N.of_nat (length used) <= m). rewrite U3. lia. }
      split.
      * rewrite U2. rewrite Forall_forall. intros x Hx. apply in_map_iff in Hx. destruct Hx as (y & <- & Hy).
        rewrite Forall_forall in Wf1. specialize (Wf1 y Hy). simpl.
        pose proof (sorted_last_max false used (0,0) y Ws1 Hy). lia.
      * rewrite U2. now apply map_shift_sorted.
    + simpl. split; auto. split; auto.
      assert (Hl : match cs with [] => nl | _ => orig + fst (last cs (0,0)) + snd (last cs (0,0)) end =
                   match rest with [] => nl' | _ => orig + fst (last rest (0,0)) + snd (last rest (0,0)) end).
      { clear Ecs. destruct rest as [|r0 rest].
        - rewrite Hnl'. rewrite U1, app_nil_r in *. destruct used; [congruence|reflexivity].
        - destruct cs as [|c1 cs1]; [congruence|]. rewrite U1. replace (last (used ++ r0 :: rest) (0,0)) with (last (r0 :: rest) (0,0)); auto.
          clear. induction used as [|u used IHu]; auto. simpl app. rewrite IHu. destruct used; reflexivity. }
      destruct cs as [|c1 cs1]; [congruence|]. rewrite <- Hl in R3. exact R3.
    + simpl. rewrite R4. unfold absolute at 1. simpl. rewrite U2, absolute_shift by auto.
      rewrite U1, map_app. reflexivity.
Qed.

Lemma set_last_upper_absolute u rss : concat (map absolute (set_last_upper u rss)) = concat (map absolute rss).
Proof.
  induction rss as [|r rss IH]; auto. destruct rss as [|r2 rss]; [reflexivity|].
  change (set_last_upper u (r :: r2 :: rss)) with (r :: set_last_upper u (r2 :: rss)). cbn [map concat] in IH |- *. rewrite IH. reflexivity.
Qed.
Lemma set_last_upper_chain u rss : forall lo hi, rss <> [] -> scopes_chain lo hi rss -> hi <= u ->
  scopes_chain lo u (set_last_upper u rss).
Proof.
  induction rss as [|r rss IH]; intros lo hi Hne Hc Hu; [congruence|].
  destruct rss as [|r2 rss].
  - simpl in *. destruct Hc as (A & B & C). repeat split; auto. lia.
  - change (set_last_upper u (r :: r2 :: rss)) with (r :: set_last_upper u (r2 :: rss)).
    destruct Hc as (A & B & C). split; auto. split; auto. apply (IH _ hi); auto. discriminate.
Qed.
Lemma chain_upper_le rss : forall lo hi, scopes_chain lo hi rss -> lo <= hi /\ Forall (fun r => rs_upper r <= hi) rss.
Proof.
  induction rss as [|r rss IH]; intros lo hi H; simpl in H.
  - subst. split; [lia|constructor].
  - destruct H as (A & B & C). destruct (IH _ _ C) as (D & E). split; [lia|]. constructor; auto.
Qed.
Lemma set_last_upper_ok m u rss : Forall (rs_ok m) rss -> Forall (fun r => rs_upper r <= u) rss ->
  Forall (rs_ok m) (set_last_upper u rss).
Proof.
  induction rss as [|r rss IH]; intros H Hu; [constructor|]. inversion H; inversion Hu; subst.
  destruct rss as [|r2 rss].
  - simpl. constructor; [|constructor]. unfold rs_ok in *. simpl. destruct H2 as (A & B & C & D & E).
    split; [lia|]. repeat split; auto. eapply Forall_impl; [|exact D]. simpl. lia.
  - change (set_last_upper u (r :: r2 :: rss)) with (r :: set_last_upper u (r2 :: rss)). constructor; auto.
Qed.

Lemma wf_report_claims r strict : well_formed strict r -> wf_claims 0 (rs_upper r - rs_lower r) (rs_claims r).
Proof.
  intros (A & B & C & D). split.
  - eapply Forall_impl; [|exact C]. simpl. lia.
  - clear C. induction D as [|c cs Hs IH Hf]; constructor; auto.
    eapply Forall_impl; [|exact Hf]. intros x. unfold claim_order. destruct strict; lia.
Qed.

Lemma split_report_spec strict r m : well_formed strict r -> rs_claims r <> [] -> 1 <= m ->
  exists rss, split_report r m = SplitOk rss /\ rss <> [] /\
    Forall (rs_ok m) rss /\ scopes_chain (rs_lower r) (rs_upper r) rss /\
    concat (map absolute rss) = absolute r.
Proof.
  intros Hwf Hne Hm. pose proof (wf_report_claims r strict Hwf) as Hc.
  destruct Hwf as (A & B & C & D). unfold split_report. replace (m =? 0) with false by lia.
  destruct (split_loop_spec m (rs_lower r) (rs_upper r - rs_lower r) Hm ltac:(lia) (length (rs_claims r)) (rs_claims r) (rs_lower r)) as (rss & E & R1 & R2 & R3 & R4); auto; try lia.
  { now rewrite N.sub_diag. }
  rewrite E. specialize (R1 Hne). destruct rss as [|r0 rss0]; [congruence|]. remember (r0 :: rss0) as rss.
  assert (Hhi : match rs_claims r with [] => rs_lower r | _ => rs_lower r + fst (last (rs_claims r) (0,0)) + snd (last (rs_claims r) (0,0)) end <= rs_upper r).
  { pose proof (last_in (rs_claims r) (0,0) Hne) as Hin. rewrite Forall_forall in C. specialize (C _ Hin).
    destruct (rs_claims r); lia. }
  exists (set_last_upper (rs_upper r) rss). split; auto. split.
  { subst rss. destruct rss0; discriminate. }
  split; [|split].
  - apply set_last_upper_ok; auto. apply chain_upper_le in R3. destruct R3 as (_ & R3).
    eapply Forall_impl; [|exact R3]. simpl. lia.
  - eapply set_last_upper_chain; eauto.
  - rewrite set_last_upper_absolute, R4. reflexivity.
Qed.

(** In each split report, a byte of its scope is claimed iff it is claimed by the original. *)
Definition abs_cov (l : list claim) (i : N) : Prop := exists c, In c l /\ fst c <= i /\ i < fst c + snd c.
Lemma claimed_absolute r i : claimed r i <-> abs_cov (absolute r) i.
Proof.
  unfold claimed, abs_cov, absolute, claim_covers. split.
  - intros (c & Hin & H). exists (rs_lower r + fst c, snd c). split; [|auto]. apply in_map_iff. eauto.
  - intros (c & Hin & H). apply in_map_iff in Hin. destruct Hin as (d & <- & Hd). simpl in H. eauto.
Qed.

Lemma chain_disjoint rss : forall lo hi, scopes_chain lo hi rss -> forall r r' i, In r rss -> In r' rss -> in_scope r i -> in_scope r' i -> r = r'.
Proof.
  assert (Hlo : forall rss lo hi, scopes_chain lo hi rss -> forall r, In r rss -> lo <= rs_lower r).
  { clear. induction rss as [|r rss IH]; intros lo hi H r' Hin; [destruct Hin|]. destruct H as (A & B & C).
    destruct Hin as [<-|Hin]; [lia|]. specialize (IH _ _ C r' Hin). lia. }
  induction rss as [|a rss IH]; intros lo hi H r r' i Hr Hr' Hi Hi'; [destruct Hr|].
  destruct H as (A & B & C). destruct Hr as [<-|Hr], Hr' as [<-|Hr']; auto.
  - specialize (Hlo _ _ _ C r' Hr'). unfold in_scope in *. lia.
  - specialize (Hlo _ _ _ C r Hr). unfold in_scope in *. lia.
  - eapply IH; eauto.
Qed.
Lemma chain_total rss : forall lo hi i, scopes_chain lo hi rss -> (lo <= i /\ i < hi <-> exists r, In r rss /\ in_scope r i).
Proof.
  induction rss as [|a rss IH]; intros lo hi i H; simpl in H.
  - subst. split; [lia|]. intros (r & [] & _).
  - destruct H as (A & B & C). pose proof (chain_upper_le _ _ _ C) as (Hle & _). split.
    + intros Hi. destruct (N.lt_ge_cases i (rs_upper a)).
      * exists a. split; [now left|]. unfold in_scope. lia.
      * assert (Hx : rs_upper a <= i /\ i < hi) by lia. apply (IH _ _ i C) in Hx. destruct Hx as (r & Hr & Hi2). exists r. split; [now right|auto].
    + intros (r & [<-|Hr] & Hi).
      * unfold in_scope in Hi. lia.
      * assert (Hx : exists r, In r rss /\ in_scope r i) by eauto. apply (IH _ _ i C) in Hx. lia.
Qed.

Lemma split_stands_alone strict r m rss : well_formed strict r -> rs_claims r <> [] -> 1 <= m ->
  split_report r m = SplitOk rss -> forall r' i, In r' rss -> in_scope r' i -> (claimed r' i <-> claimed r i).
Proof.
  intros Hwf Hne Hm E r' i Hin Hi.
  destruct (split_report_spec strict r m Hwf Hne Hm) as (rss' & E' & _ & R2 & R3 & R4). rewrite E in E'. injection E' as <-.
  rewrite !claimed_absolute, <- R4. split.
  - intros (c & Hc & Hci). exists c. split; auto. apply in_concat. exists (absolute r'). split; auto. now apply in_map.
  - intros (c & Hc & Hci). apply in_concat in Hc. destruct Hc as (l & Hl & Hcl). apply in_map_iff in Hl.
    destruct Hl as (r2 & <- & Hr2). assert (Hs : in_scope r2 i).
    { unfold absolute in Hcl. apply in_map_iff in Hcl. destruct Hcl as (d & <- & Hd). simpl in Hci.
      rewrite Forall_forall in R2. destruct (R2 r2 Hr2) as (_ & _ & _ & F & _). rewrite Forall_forall in F. specialize (F d Hd).
      unfold in_scope. lia. }
    assert (r' = r2) by (eapply chain_disjoint; eauto). subst. exists c. auto.
Qed.

(** ** Adding reports *)
Lemma add_report_spec lst r strict : well_formed strict r -> forall fs, canonical fs ->
  canonical (fst (add_report lst fs r)) /\
  (forall i, covers (fst (add_report lst fs r)) i <-> covers fs i \/ claimed r i) /\
  (snd (add_report lst fs r) = true <-> exists i, claimed r i /\ ~ covers fs i).
Proof.
  intros (A & B & C & D) fs Hc. unfold add_report, claimed.
  set (f := fun acc c => _).
  assert (Hgen : forall cs acc, Forall (fun c => 1 <= snd c /\ rs_lower r + fst c + snd c <= rs_upper r) cs -> canonical (fst acc) ->
    canonical (fst (fold_left f cs acc)) /\
    (forall i, covers (fst (fold_left f cs acc)) i <-> covers (fst acc) i \/ exists c, In c cs /\ claim_covers (rs_lower r) c i) /\
    (snd (fold_left f cs acc) = true <-> snd acc = true \/ exists i, (exists c, In c cs /\ claim_covers (rs_lower r) c i) /\ ~ covers (fst acc) i)).
  { induction cs as [|c cs IH]; intros acc Hf Hca; simpl.
    - split; auto. split.
      + intros i. split; [tauto|]. intros [?|(c & [] & _)]; auto.
      + split; [tauto|]. intros [?|(i & (c & [] & _) & _)]; auto.
    - inversion Hf; subst. 
      assert (Hk : valid (add64 (rs_lower r) (fst c), sub64 (add64 (add64 (rs_lower r) (fst c)) (snd c)) 1) /\
                   (forall i, in_frag (add64 (rs_lower r) (fst c), sub64 (add64 (add64 (rs_lower r) (fst c)) (snd c)) 1) i <-> claim_covers (rs_lower r) c i)).
      { rewrite (add64_small (rs_lower r)) by lia. rewrite add64_small by lia. rewrite sub64_small by lia.
        unfold valid, in_frag, claim_covers. simpl. split; [lia|]. intros i. lia. }
      destruct Hk as (Hk1 & Hk2).
      pose proof (insert_spec lst (fst acc) _ Hca Hk1) as (I1 & I2 & I3).
      assert (Hfc : f acc c = (fst (insert_fragment lst (fst acc) (add64 (rs_lower r) (fst c), sub64 (add64 (add64 (rs_lower r) (fst c)) (snd c)) 1)),
                     snd acc || snd (insert_fragment lst (fst acc) (add64 (rs_lower r) (fst c), sub64 (add64 (add64 (rs_lower r) (fst c)) (snd c)) 1)))).
      { unfold f. destruct (insert_fragment lst (fst acc) _). reflexivity. }
      rewrite Hfc. set (fs' := insert_fragment lst (fst acc) _) in *.
      destruct (IH (fst fs', snd acc || snd fs') H2 I1) as (J1 & J2 & J3). simpl in J2, J3. split; auto. split.
      + intros i. rewrite J2, I2, Hk2. split.
        * intros [[?|?]|(d & Hd & Hdi)]; auto; right; [exists c|exists d]; auto.
        * intros [?|(d & [<-|Hd] & Hdi)]; auto. right. eauto.
      + rewrite J3, orb_true_iff, I3. split.
        * intros [[?|(i & Hi & Hn)]|(i & (d & Hd & Hdi) & Hn)]; auto; right.
          -- exists i. rewrite Hk2 in Hi. split; auto. exists c. auto.
          -- exists i. split; [exists d; auto|]. intros Hc'. apply Hn. apply I2. auto.
        * intros [?|(i & (d & [<-|Hd] & Hdi) & Hn)]; auto.
          -- left. right. exists i. rewrite Hk2. auto.
          -- assert (Hdec : in_frag (add64 (rs_lower r) (fst c), sub64 (add64 (add64 (rs_lower r) (fst c)) (snd c)) 1) i \/ ~ in_frag (add64 (rs_lower r) (fst c), sub64 (add64 (add64 (rs_lower r) (fst c)) (snd c)) 1) i) by (unfold in_frag; lia).
             destruct Hdec as [Hy|Hy].
             ++ left. right. exists i. auto.
             ++ right. exists i. split; [eauto|]. rewrite I2. tauto. }
  destruct (Hgen (rs_claims r) (fs, false) C Hc) as (G1 & G2 & G3). simpl in *. split; auto. split; auto.
  rewrite G3. intuition congruence.
Qed.

(** Gaps between claims. *)
Lemma gap_loop_spec lst lower upper : upper < W64 -> forall cs prev acc,
  canonical (fst acc) -> 
  1 <= snd prev -> lower + fst prev + snd prev <= upper ->
  Forall (fun c => 1 <= snd c /\ lower + fst c + snd c <= upper) cs ->
  StronglySorted (claim_order true) (prev :: cs) ->
  exists lastc acc', gap_loop lst lower prev cs acc = (lastc, acc') /\ lastc = last (prev :: cs) (0,0) /\
    canonical (fst acc') /\
    (forall i, covers (fst acc') i <-> covers (fst acc) i \/
       (lower + fst prev + snd prev <= i /\ i < lower + fst lastc /\ ~ exists c, In c cs /\ claim_covers lower c i)).
Proof.
  intros Hu. induction cs as [|c cs IH]; intros prev acc Hc Hp1 Hp2 Hf Hs; simpl.
  - exists prev, acc. split; auto. split; auto. split; auto. intros i. split; [tauto|]. intros [?|?]; auto. lia.
  - inversion Hf; subst. inversion Hs; subst. assert (H6 := Forall_inv H4). unfold claim_order in H6.
    rewrite (add64_small lower (fst prev)) by lia. rewrite (add64_small _ (snd prev)) by lia.
    rewrite (add64_small lower (fst c)) by lia. rewrite sub64_small by lia.
    set (k := (lower + fst prev + snd prev, lower + fst c - 1)).
    assert (Hk : valid k) by (unfold valid, k; simpl; lia).
    pose proof (insert_spec lst (fst acc) k Hc Hk) as (I1 & I2 & I3).
    destruct (insert_fragment lst (fst acc) k) as [fs' m] eqn:E. simpl in *.
    destruct (IH c (fs', snd acc || m)) as (lastc & acc' & E2 & L & C' & Cov); auto; try tauto.
    exists lastc, acc'. split; auto. split; auto. split; auto.
    assert (Hcl : forall d, In d cs -> fst c + snd c < fst d).
    { apply StronglySorted_inv in H3. destruct H3 as (_ & H9). rewrite Forall_forall in H9. intros d Hd. specialize (H9 d Hd). unfold claim_order in H9. exact H9. }
    assert (Hlast : fst c + snd c <= fst lastc + snd lastc).
    { rewrite L. change (match cs with [] => c | _ :: _ => last cs (0, 0) end) with (last (c :: cs) (0,0)). apply (sorted_last_max true); auto. now left. }
    assert (Hlast1 : fst c <= fst lastc).
    { rewrite L. destruct cs as [|d cs]; [simpl; lia|]. change (last (c :: d :: cs) (0,0)) with (last (d :: cs) (0,0)).
      assert (Hin := last_in (d :: cs) (0,0) ltac:(discriminate)). specialize (Hcl _ Hin). lia. }
    intros i. rewrite Cov. simpl. rewrite I2. unfold k, in_frag. simpl.
    split.
    + intros [[?|Hi]|(Hi1 & Hi2 & Hn)]; auto; right.
      * split; [lia|]. split; [lia|]. intros (d & [<-|Hd] & Hdi); unfold claim_covers in Hdi; [lia|].
        specialize (Hcl d Hd). lia.
      * split; [lia|]. split; [lia|]. intros (d & [<-|Hd] & Hdi); [unfold claim_covers in Hdi; lia|]. apply Hn. eauto.
    + intros [?|(Hi1 & Hi2 & Hn)]; auto.
      destruct (N.lt_ge_cases i (lower + fst c)).
      * left. right. lia.
      * right. split.
        -- destruct (N.lt_ge_cases i (lower + fst c + snd c)); auto. exfalso. apply Hn. exists c. split; auto. unfold claim_covers. lia.
        -- split; auto. intros (d & Hd & Hdi). apply Hn. eauto.
Qed.

Lemma needing_resent_spec lst r : well_formed true r -> rs_claims r <> [] -> forall fs, canonical fs ->
  canonical (fst (add_report_needing_resent lst fs r)) /\
  (forall i, covers (fst (add_report_needing_resent lst fs r)) i <-> covers fs i \/ (in_scope r i /\ ~ claimed r i)).
Proof.
  intros (A & B & C & D) Hne fs Hc. unfold add_report_needing_resent, claimed, in_scope.
  destruct (rs_claims r) as [|c0 cs] eqn:Ecs; [congruence|].
  inversion C; subst. set (lower := rs_lower r) in *.
  assert (Hacc0 : exists fs0 m0, (if 0 <? fst c0 then insert_fragment lst fs (lower, sub64 (add64 lower (fst c0)) 1) else (fs, false)) = (fs0, m0) /\
     canonical fs0 /\ forall i, covers fs0 i <-> covers fs i \/ (lower <= i /\ i < lower + fst c0)).
  { destruct (0 <? fst c0) eqn:E0.
    - rewrite add64_small by lia. rewrite sub64_small by lia.
      assert (Hk : valid (lower, lower + fst c0 - 1)) by (unfold valid; simpl; lia).
      pose proof (insert_spec lst fs _ Hc Hk) as (I1 & I2 & I3). destruct (insert_fragment lst fs _) as [fs0 m0].
      exists fs0, m0. split; auto. split; auto. intros i. simpl in I2. rewrite I2. unfold in_frag. simpl. intuition lia.
    - exists fs, false. split; auto. split; auto. intros i. intuition lia. }
  destruct Hacc0 as (fs0 & m0 & -> & Hc0 & Hcov0).
  destruct (gap_loop_spec lst lower (rs_upper r) B cs c0 (fs0, m0)) as (lastc & acc' & E2 & L & C' & Cov); auto; try tauto.
  rewrite E2. simpl in Cov.
  assert (Hlin : In lastc (c0 :: cs)). { rewrite L. apply last_in. discriminate. }
  assert (Hlv : 1 <= snd lastc /\ lower + fst lastc + snd lastc <= rs_upper r). { rewrite Forall_forall in C. apply C; auto. }
  assert (Hmax : forall c, In c (c0 :: cs) -> fst c + snd c <= fst lastc + snd lastc).
  { intros c Hin. rewrite L. apply (sorted_last_max true); auto. }
  assert (Hc0s : forall d, In d cs -> fst c0 + snd c0 < fst d).
  { apply StronglySorted_inv in D. destruct D as (_ & H5). rewrite Forall_forall in H5. intros d Hd. specialize (H5 d Hd). exact H5. }
  assert (Hfirst : forall d, In d (c0 :: cs) -> fst c0 <= fst d).
  { intros d [<-|Hd]; [lia|]. specialize (Hc0s d Hd). lia. }
  rewrite (add64_small lower) by lia. rewrite add64_small by lia.
  (* uncovered part of the prefix up to the last claim *)
  assert (Hcov1 : forall i, covers (fst acc') i <-> covers fs i \/ (lower <= i /\ i < lower + fst lastc + snd lastc /\ ~ exists c, In c (c0 :: cs) /\ claim_covers lower c i)).
  { intros i. rewrite Cov, Hcov0. split.
    - intros [[?|Hi]|(Hi1 & Hi2 & Hn)]; auto; right.
      + specialize (Hfirst lastc Hlin). split; [lia|]. split; [lia|]. intros (d & Hd & Hdi). specialize (Hmax d Hd).
        unfold claim_covers in Hdi. destruct Hd as [<-|Hd]; [lia|]. specialize (Hc0s d Hd). lia.
      + split; [lia|]. split; [lia|]. intros (d & [<-|Hd] & Hdi); [unfold claim_covers in Hdi; lia|]. apply Hn; eauto.
    - intros [?|(Hi1 & Hi2 & Hn)]; auto.
      destruct (N.lt_ge_cases i (lower + fst c0)); [left; right; lia|]. right. split.
      + destruct (N.lt_ge_cases i (lower + fst c0 + snd c0)); auto. exfalso. apply Hn. exists c0. split; [now left|]. unfold claim_covers. lia.
      + split.
        * destruct (N.lt_ge_cases i (lower + fst lastc)); auto. exfalso. apply Hn. exists lastc. split; auto. unfold claim_covers. lia.
        * intros (d & Hd & Hdi). apply Hn. exists d. split; [now right|auto]. }
  destruct (lower + fst lastc + snd lastc <? rs_upper r) eqn:E3.
  - rewrite sub64_small by lia.
    assert (Hk : valid (lower + fst lastc + snd lastc, rs_upper r - 1)) by (unfold valid; simpl; lia).
    pose proof (insert_spec lst (fst acc') _ C' Hk) as (I1 & I2 & I3).
    destruct (insert_fragment lst (fst acc') _) as [fs1 m1]. simpl in *. split; auto.
    intros i. rewrite I2, Hcov1. unfold in_frag. simpl. split.
    + intros [[?|(H4 & H5 & H6)]|Hi]; auto; right.
      * split; [lia|auto].
      * split; [lia|]. intros (d & Hd & Hdi). specialize (Hmax d Hd). unfold claim_covers in Hdi. lia.
    + intros [?|((H4 & H5) & H6)]; auto. destruct (N.lt_ge_cases i (lower + fst lastc + snd lastc)).
      * left. right. auto.
      * right. lia.
  - split; auto. intros i. rewrite Hcov1. split.
    + intros [?|(H4 & H5 & H6)]; auto. right. split; [lia|auto].
    + intros [?|((H4 & H5) & H6)]; auto. right. split; [lia|]. split; [lia|auto].
Qed.

(** ** Reduction of pending reports *)
Lemma reduce_spec lst : forall pending sent, canonical sent -> Forall (fun p => valid (fst p)) pending ->
  Forall (fun p => canonical (snd p) /\ snd p <> [] /\ exists bounds, In (bounds, fst p) pending /\ forall i, covers (snd p) i -> in_frag bounds i) (reduce_loop lst pending sent) /\
  (forall i, result_covers (reduce_loop lst pending sent) i <-> (exists p, In p pending /\ in_frag (fst p) i) /\ ~ covers sent i) /\
  StronglySorted (fun p q => forall i, ~ (covers (snd p) i /\ covers (snd q) i)) (reduce_loop lst pending sent).
Proof.
  induction pending as [|[bounds rsn] pending IH]; intros sent Hc Hf; simpl.
  - split; [constructor|]. split; [|constructor]. intros i. unfold result_covers. split.
    + intros (p & [] & _).
    + intros ((p & [] & _) & _).
  - inversion Hf; subst. simpl in H1.
    pose proof (bounds_minus_spec lst bounds sent H1 Hc) as (B1 & B2).
    pose proof (insert_spec lst sent bounds Hc H1) as (I1 & I2 & I3).
    destruct (IH _ I1 H2) as (J1 & J2 & J3).
    assert (J1' : Forall (fun p => canonical (snd p) /\ snd p <> [] /\ exists b, In (b, fst p) ((bounds, rsn) :: pending) /\ forall i, covers (snd p) i -> in_frag b i) (reduce_loop lst pending (fst (insert_fragment lst sent bounds)))).
    { eapply Forall_impl; [|exact J1]. simpl. intros p (X & Y & b & Z & W). split; auto. split; auto. exists b. auto. }
    assert (Hmain : forall i, (covers (bounds_minus lst bounds sent) i \/ result_covers (reduce_loop lst pending (fst (insert_fragment lst sent bounds))) i) <->
       (exists p, In p ((bounds, rsn) :: pending) /\ in_frag (fst p) i) /\ ~ covers sent i).
    { intros i. rewrite J2, B2, I2. split.
      - intros [(X & Y)|((p & X & Y) & Z)].
        + split; auto. exists (bounds, rsn). split; [now left|auto].
        + split; [exists p; split; [now right|auto]|tauto].
      - intros ((p & [<-|X] & Y) & Z); [left; auto|].
        assert (Hd : in_frag bounds i \/ ~ in_frag bounds i) by (unfold in_frag; lia).
        destruct Hd; [left; auto|right]. split; [eauto|tauto]. }
    destruct (bounds_minus lst bounds sent) as [|b0 bm] eqn:Eb.
    + split; auto. split; auto. intros i. rewrite <- Hmain. rewrite covers_nil. tauto.
    + split; [|split].
      * constructor; auto. simpl. split; auto. split; [discriminate|]. exists bounds. split; [now left|].
        intros i Hi. apply B2 in Hi. tauto.
      * intros i. rewrite <- Hmain. unfold result_covers. split.
        -- intros (p & [<-|X] & Y); [left; auto|right; eauto].
        -- intros [X|(p & X & Y)]; [exists (rsn, b0 :: bm)|exists p]; simpl; auto.
      * constructor; auto. rewrite Forall_forall. intros p Hp i (X & Y). simpl in X.
        assert (Hr : result_covers (reduce_loop lst pending (fst (insert_fragment lst sent bounds))) i) by (exists p; auto).
        apply J2 in Hr. rewrite I2 in Hr. apply B2 in X. tauto.
Qed.
