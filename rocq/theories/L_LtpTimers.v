(** Lemmas for C27. *)
From Coq Require Import NArith ZArith List Bool Lia ZifyBool ZifyN.
From Verif Require Import Base M_LtpTimers S_LtpTimers.
Import ListNotations.
Open Scope N_scope.

Definition same (n : tnode) (v : live) : Prop := tn_id n = lv_id v /\ tn_due n = lv_due v /\ tn_data n = lv_data v.
Fixpoint rising (lo : list Z) : Prop := match lo with [] => True | x :: r => (forall y, In y r -> (x <= y)%Z) /\ rising r end.
Record tinv (t : tmgr) (vs : list live) (busy : bool) (clock high last : Z) (ordered : bool) : Prop := {
  i_same : Forall2 same (tm_list t) vs;
  i_low : forall v, In v vs -> (lv_low v <= lv_due v)%Z;
  i_map : tm_map t = map (fun n => (tn_id n, tn_addr n)) (tm_list t);
  i_addr : NoDup (map tn_addr (tm_list t));
  i_ids : NoDup (map lv_id vs);
  i_nz : forall v, In v vs -> lv_id v <> 0;
  i_clock : (clock <= high)%Z;
  i_cell : tm_cell t = CellFalse;
  i_ord : ordered = true -> rising (map lv_due vs) /\ forall v, In v vs -> (lv_due v <= last)%Z;
  i_run : if busy then tm_on t = true /\ tm_active t = 0 /\ tm_waits t = []
          else if tm_on t then exists w, tm_waits t = [w] /\
                 (tm_active t = 0 \/ exists v r, vs = v :: r /\ tm_active t = lv_id v /\
                    match aw_stat w with Done => (lv_low v <= high)%Z | Pending => (lv_low v <= aw_deadline w)%Z | Aborted => True end) /\
                 (aw_stat w = Pending -> ordered = true -> (aw_deadline w <= last)%Z /\ forall v, In v vs -> (aw_deadline w <= lv_due v)%Z)
          else vs = [] /\ tm_waits t = [] }.
Lemma same_ids l vs : Forall2 same l vs -> map tn_id l = map lv_id vs.
Proof. induction 1 as [|n v l vs (A & _) _ IH]; [reflexivity|]. cbn [map]. congruence. Qed.
Lemma tinv_new c : tinv tm_new [] false c c c true.
Proof. constructor; cbn; try (now intros ? []); try constructor; auto; try lia. Qed.
Lemma map_find_none l id : map_find (map (fun n => (tn_id n, tn_addr n)) l) id = None <-> ~ In id (map tn_id l).
Proof.
  unfold map_find. induction l as [|n l IH]; cbn [map find]; [tauto|]. cbn [fst]. destruct (N.eqb_spec (tn_id n) id) as [->|NE].
  - split; [discriminate|]. intros H. destruct H. now left.
  - rewrite IH. cbn [In]. tauto.
Qed.
Lemma map_find_split l id a : map_find (map (fun n => (tn_id n, tn_addr n)) l) id = Some a ->
  exists l1 n l2, l = l1 ++ n :: l2 /\ tn_id n = id /\ tn_addr n = a /\ ~ In id (map tn_id l1).
Proof.
  unfold map_find. induction l as [|n l IH]; cbn [map find]; [discriminate|]. cbn [fst]. destruct (N.eqb_spec (tn_id n) id) as [E|NE].
  - cbn [snd]. intros [= <-]. exists [], n, l. repeat split; auto.
  - intros H. destruct (IH H) as (l1 & m & l2 & -> & A & B & C). exists (n :: l1), m, l2. repeat split; auto. cbn [map In]. intros [D|D]; auto.
Qed.
Lemma nodup_mid {A B} (f : A -> B) l1 x l2 : NoDup (map f (l1 ++ x :: l2)) -> ~ In (f x) (map f l1) /\ ~ In (f x) (map f l2) /\ NoDup (map f (l1 ++ l2)).
Proof. rewrite !map_app. cbn [map]. intros H. pose proof (NoDup_remove_1 _ _ _ H). pose proof (NoDup_remove_2 _ _ _ H) as N. rewrite in_app_iff in N. tauto. Qed.
Lemma filter_drop {A} (f : A -> N) l1 x l2 : ~ In (f x) (map f l1) -> ~ In (f x) (map f l2) -> filter (fun k => negb (f k =? f x)) (l1 ++ x :: l2) = l1 ++ l2.
Proof.
  intros A1 A2. assert (forall l, ~ In (f x) (map f l) -> filter (fun k => negb (f k =? f x)) l = l) as G.
  { induction l as [|y l IH]; [reflexivity|]. cbn [map In filter]. intros H. destruct (N.eqb_spec (f y) (f x)); [tauto|]. cbn [negb]. rewrite IH by tauto. reflexivity. }
  rewrite filter_app, (G l1 A1). cbn [filter]. rewrite N.eqb_refl. cbn [negb]. now rewrite (G l2 A2).
Qed.
Lemma find_mid l1 n l2 : ~ In (tn_addr n) (map tn_addr l1) -> find (fun k => tn_addr k =? tn_addr n) (l1 ++ n :: l2) = Some n.
Proof.
  induction l1 as [|m l1 IH]; cbn [app find map In]; intros H; [now rewrite N.eqb_refl|].
  destruct (N.eqb_spec (tn_addr m) (tn_addr n)); [tauto|]. apply IH. tauto.
Qed.
(** DeleteTimer, whatever else is going on. *)
Lemma delete_spec l m act on ws c vs id : Forall2 same l vs -> m = map (fun n => (tn_id n, tn_addr n)) l -> NoDup (map tn_addr l) -> NoDup (map lv_id vs) ->
  (~ In id (map lv_id vs) /\ tm_delete (mkTm l m act on ws c) id = Some (mkTm l m act on ws c, None)) \/
  exists l1 n l2 v1 v v2, l = l1 ++ n :: l2 /\ vs = v1 ++ v :: v2 /\ lv_id v = id /\ Forall2 same l1 v1 /\ Forall2 same l2 v2 /\ same n v /\
    tm_delete (mkTm l m act on ws c) id =
      Some (mkTm (l1 ++ l2) (map (fun n => (tn_id n, tn_addr n)) (l1 ++ l2)) (if on && (act =? id) then 0 else act) on ws c, Some (lv_data v)).
Proof.
  intros SA -> ND NI. unfold tm_delete. cbn [tm_map tm_list tm_on tm_active tm_waits tm_cell].
  destruct (map_find (map (fun n => (tn_id n, tn_addr n)) l) id) as [a|] eqn:F.
  - right. destruct (map_find_split _ _ _ F) as (l1 & n & l2 & -> & EI & EA & NI1).
    apply Forall2_app_inv_l in SA as (v1 & vr & S1 & S2 & ->). inversion S2 as [|? v ? v2 SN S3]; subst.
    destruct (nodup_mid tn_addr l1 n l2 ND) as (A1 & A2 & A3). rewrite (find_mid l1 n l2 A1). rewrite (filter_drop tn_addr l1 n l2 A1 A2).
    assert (map_erase (map (fun n => (tn_id n, tn_addr n)) (l1 ++ n :: l2)) (tn_id n) = map (fun n => (tn_id n, tn_addr n)) (l1 ++ l2)) as ->.
    { unfold map_erase. rewrite !map_app. cbn [map]. destruct (nodup_mid lv_id v1 v v2 NI) as (B1 & B2 & _). destruct SN as (E & _). rewrite E.
      change (lv_id v) with (fst (lv_id v, tn_addr n)). apply (filter_drop (@fst N N)); intros HH; rewrite map_map in HH; [apply B1; rewrite <- (same_ids _ _ S1)|apply B2; rewrite <- (same_ids _ _ S3)]; exact HH. }
    exists l1, n, l2, v1, v, v2. pose proof SN as (E1 & _ & E3). rewrite E3. repeat (split; [auto; fail|]). reflexivity.
  - left. apply map_find_none in F. rewrite (same_ids _ _ SA) in F. now split.
Qed.
Lemma rising_app_inv l1 x l2 : rising (l1 ++ x :: l2) -> rising (l1 ++ l2).
Proof.
  induction l1 as [|y l1 IH]; cbn [app rising]; [tauto|]. intros (A & B). split; [|now apply IH].
  intros z I. apply A. apply in_app_iff in I. apply in_app_iff. cbn. tauto.
Qed.
Lemma rising_snoc l x : rising l -> (forall y, In y l -> (y <= x)%Z) -> rising (l ++ [x]).
Proof.
  induction l as [|y l IH]; cbn [app rising]; [intros _ _; split; [now intros ? []|exact I]|]. intros (A & B) H. split.
  - intros z J. apply in_app_iff in J as [J|[<-|[]]]; [now apply A|]. apply H. now left.
  - apply IH; [exact B|]. intros z J. apply H. now right.
Qed.
Lemma rising_shift l d : rising l -> rising (map (fun x => (x + d)%Z) l).
Proof. induction l as [|y l IH]; cbn [map rising]; [auto|]. intros (A & B). split; [|auto]. intros z J. apply in_map_iff in J as (x & <- & J). specialize (A x J). lia. Qed.

Lemma start_inv t vs busy clock high last ordered a id dur data : tinv t vs busy clock high last ordered -> id <> 0 -> ~ In a (map tn_addr (tm_list t)) ->
  exists t' ok, tm_start t a id clock dur data = (t', ok) /\ (ok = true <-> ~ In id (map lv_id vs)) /\
    if ok then tinv t' (vs ++ [mkLive id (clock + dur) (clock + dur) data]) busy clock high (clock + dur) (ordered && (last <=? clock + dur)%Z)
    else tinv t' vs busy clock high last ordered.
Proof.
  intros [SA LO MP AD ID NZ CK CE OR RU] HI HA. unfold tm_start. rewrite MP. destruct (map_find (map (fun n => (tn_id n, tn_addr n)) (tm_list t)) id) as [b|] eqn:F.
  - exists t, false. split; [reflexivity|]. split; [|constructor; auto]. split; [discriminate|]. intros H. rewrite <- (same_ids _ _ SA) in H. apply map_find_none in H. congruence.
  - apply map_find_none in F. rewrite (same_ids _ _ SA) in F.
    assert (forall act on ws, on = true -> (if busy then on = true /\ act = 0 /\ ws = [] else exists w, ws = [w] /\
        (act = 0 \/ exists v r, vs ++ [mkLive id (clock + dur) (clock + dur) data] = v :: r /\ act = lv_id v /\
                    match aw_stat w with Done => (lv_low v <= high)%Z | Pending => (lv_low v <= aw_deadline w)%Z | Aborted => True end) /\
        (aw_stat w = Pending -> ordered && (last <=? clock + dur)%Z = true -> (aw_deadline w <= clock + dur)%Z /\
           forall v, In v (vs ++ [mkLive id (clock + dur) (clock + dur) data]) -> (aw_deadline w <= lv_due v)%Z)) ->
      tinv (mkTm (tm_list t ++ [mkTn a id (clock + dur) data]) (map (fun n => (tn_id n, tn_addr n)) (tm_list t) ++ [(id, a)]) act on ws (tm_cell t))
        (vs ++ [mkLive id (clock + dur) (clock + dur) data]) busy clock high (clock + dur) (ordered && (last <=? clock + dur)%Z)) as Go.
    { intros act on ws -> RW. constructor; cbn [tm_list tm_map tm_active tm_on tm_waits tm_cell].
      - apply Forall2_app; [exact SA|]. constructor; [|constructor]. repeat split.
      - intros v J. apply in_app_iff in J as [J|[<-|[]]]; [now apply LO|]. cbn. lia.
      - now rewrite map_app.
      - rewrite map_app. cbn [map]. rewrite <- (rev_involutive (_ ++ _)). apply NoDup_rev. rewrite rev_app_distr. cbn [rev app]. constructor; [now rewrite <- in_rev|now apply NoDup_rev].
      - rewrite map_app. cbn [map]. rewrite <- (rev_involutive (_ ++ _)). apply NoDup_rev. rewrite rev_app_distr. cbn [rev app]. constructor; [now rewrite <- in_rev|now apply NoDup_rev].
      - intros v J. apply in_app_iff in J as [J|[<-|[]]]; [now apply NZ|exact HI].
      - exact CK.
      - exact CE.
      - intros O. apply andb_prop in O as (O & L). apply Z.leb_le in L. destruct (OR O) as (R & B). split.
        + rewrite map_app. cbn [map]. apply rising_snoc; [exact R|]. intros y J. apply in_map_iff in J as (v & <- & J). cbn [lv_due]. specialize (B v J). lia.
        + intros v J. apply in_app_iff in J as [J|[<-|[]]]; [specialize (B v J); lia|cbn; lia].
      - exact RW. }
    destruct busy.
    + destruct RU as (ON & AC & WS). rewrite ON. eexists _, true. split; [reflexivity|]. split; [split; [auto|reflexivity]|]. apply Go; auto.
    + destruct (tm_on t).
      * destruct RU as (w & WS & AC & PO). eexists _, true. split; [reflexivity|]. split; [split; [auto|reflexivity]|]. apply Go; [reflexivity|].
        exists w. split; [exact WS|]. split.
        -- destruct AC as [AC|(v & r & EV & EA & ST)]; [now left|]. right. exists v, (r ++ [mkLive id (clock + dur) (clock + dur) data]). rewrite EV. auto.
        -- intros P O. apply andb_prop in O as (O & L). apply Z.leb_le in L. destruct (PO P O) as (A & B). split; [lia|]. intros v J. apply in_app_iff in J as [J|[<-|[]]]; [now apply B|cbn; lia].
      * destruct RU as (EV & WS). subst vs. eexists _, true. split; [reflexivity|]. split; [split; [auto|reflexivity]|]. apply Go; [reflexivity|].
        rewrite WS. unfold arm. cbn [map app]. eexists. split; [reflexivity|]. cbn [aw_stat aw_deadline]. split.
        -- right. eexists _, _. split; [reflexivity|]. cbn [lv_id lv_low]. split; [reflexivity|lia].
        -- intros _ _. split; [lia|]. intros v [<-|[]]. cbn. lia.
Qed.
Lemma delete_inv t vs busy clock high last ordered id : tinv t vs busy clock high last ordered ->
  exists t' r, tm_delete t id = Some (t', r) /\
    match r with
    | None => ~ In id (map lv_id vs) /\ tinv t' vs busy clock high last ordered
    | Some d => exists v1 v v2, vs = v1 ++ v :: v2 /\ lv_id v = id /\ lv_data v = d /\ tinv t' (v1 ++ v2) busy clock high last ordered
    end.
Proof.
  intros I. pose proof I as [SA LO MP AD ID NZ CK CE OR RU]. destruct t as [l m act on ws c]. cbn [tm_list tm_map tm_active tm_on tm_waits tm_cell] in *.
  destruct (delete_spec l m act on ws c vs id SA MP AD ID) as [(NI & E)|(l1 & n & l2 & v1 & v & v2 & -> & -> & EI & S1 & S2 & SN & E)].
  - rewrite E. eexists _, None. split; [reflexivity|]. auto.
  - rewrite E. eexists _, (Some (lv_data v)). split; [reflexivity|]. exists v1, v, v2. split; [reflexivity|]. split; [exact EI|]. split; [reflexivity|].
    assert (forall k, In k (v1 ++ v2) -> In k (v1 ++ v :: v2)) as SUB by (intros k J; apply in_app_iff in J; apply in_app_iff; cbn; tauto).
    constructor; cbn [tm_list tm_map tm_active tm_on tm_waits tm_cell].
    + now apply Forall2_app.
    + intros k J. now apply LO, SUB.
    + reflexivity.
    + apply (nodup_mid tn_addr _ _ _ AD).
    + apply (nodup_mid lv_id _ _ _ ID).
    + intros k J. now apply NZ, SUB.
    + exact CK.
    + exact CE.
    + intros O. destruct (OR O) as (R & B). split; [|intros k J; now apply B, SUB]. rewrite map_app in *. cbn [map] in R. now apply rising_app_inv in R.
    + destruct busy.
      * destruct RU as (-> & -> & ->). cbn [andb]. split; [reflexivity|]. split; [now destruct (0 =? id)|reflexivity].
      * destruct on.
        -- destruct RU as (w & WS & AC & PO). exists w. split; [exact WS|]. split.
           ++ cbn [andb]. destruct (N.eqb_spec act id) as [EA|NA]; [now left|]. destruct AC as [AC|(v0 & r & EV & EA & ST)]; [now left|]. right.
              destruct v1 as [|u v1]; cbn [app] in EV; injection EV as <- <-; [congruence|]. exists u, (v1 ++ v2). auto.
           ++ intros P O. destruct (PO P O) as (A & B). split; [exact A|]. intros k J. now apply B, SUB.
        -- destruct RU as (RU & _). destruct v1; discriminate.
Qed.
Lemma abort_not_pending w : aw_stat (abort_wait w) <> Pending.
Proof. unfold abort_wait. destruct w as [d []]; cbn; discriminate. Qed.
Lemma adjust_inv t vs busy clock high last ordered d : tinv t vs busy clock high last ordered -> tinv (tm_adjust t d) (map (shift d) vs) busy clock high (last + d) ordered.
Proof.
  intros [SA LO MP AD ID NZ CK CE OR RU]. unfold tm_adjust. destruct (tm_on t) eqn:ON.
  - constructor; cbn [tm_list tm_map tm_active tm_on tm_waits tm_cell].
    + clear - SA. induction SA as [|n v l vs (A & B & C) _ IH]; cbn [map]; constructor; [|exact IH]. unfold same. cbn. rewrite A, B, C. auto.
    + intros v J. apply in_map_iff in J as (u & <- & J). cbn. lia.
    + rewrite MP, map_map. reflexivity.
    + rewrite map_map. cbn [tn_addr]. exact AD.
    + rewrite map_map. cbn [lv_id shift]. exact ID.
    + intros v J. apply in_map_iff in J as (u & <- & J). cbn. now apply NZ.
    + exact CK.
    + exact CE.
    + intros O. destruct (OR O) as (R & B). split.
      * rewrite map_map. cbn [lv_due shift]. rewrite <- (map_map lv_due (fun x => (x + d)%Z)). now apply rising_shift.
      * intros v J. apply in_map_iff in J as (u & <- & J). cbn. specialize (B u J). lia.
    + destruct busy.
      * destruct RU as (_ & A & ->). auto.
      * destruct RU as (w & WS & AC & PO). rewrite WS. cbn [map]. exists (abort_wait w). split; [reflexivity|]. split.
        -- destruct AC as [AC|(v & r & EV & EA & ST)]; [now left|]. right. exists (shift d v), (map (shift d) r). rewrite EV. split; [reflexivity|]. split; [exact EA|].
           destruct w as [dl []]; cbn in *; [exact Logic.I|exact Logic.I|lia].
        -- intros P. now apply abort_not_pending in P.
  - destruct busy; [destruct RU; congruence|]. destruct RU as (-> & WS). constructor; auto; try (rewrite ON; auto).
    + cbn [map]. intros O. destruct (OR O) as (R & _). split; [exact R|now intros ? []].
Qed.
Lemma next_inv t vs clock high last ordered ws : tinv t vs true clock high last ordered -> ws = [] ->
  forall act on, tinv (tm_next (mkTm (tm_list t) (tm_map t) act on ws (tm_cell t))) vs false clock high last ordered.
Proof.
  intros [SA LO MP AD ID NZ CK CE OR RU] -> act on. unfold tm_next. cbn [tm_list tm_map tm_active tm_on tm_waits tm_cell].
  destruct (tm_list t) as [|n l] eqn:EL; inversion SA as [|? v ? r SN S2]; subst.
  - constructor; cbn [tm_list tm_map tm_active tm_on tm_waits tm_cell]; auto.
  - constructor; cbn [tm_list tm_map tm_active tm_on tm_waits tm_cell]; auto.
    unfold arm. cbn [map app]. eexists. split; [reflexivity|]. cbn [aw_stat aw_deadline]. destruct SN as (E1 & E2 & _). split.
    + right. exists v, r. split; [reflexivity|]. split; [exact E1|]. rewrite E2. apply LO. now left.
    + intros _ O. destruct (OR O) as (R & B). rewrite E2. split; [apply B; now left|]. intros u [<-|J]; [lia|]. cbn [map rising] in R. apply R. now apply in_map.
Qed.
(** Any state as a busy one, to reuse the lemma above. *)
Lemma tinv_busy t vs clock high last ordered : tinv t vs false clock high last ordered -> tinv (mkTm (tm_list t) (tm_map t) 0 true [] (tm_cell t)) vs true clock high last ordered.
Proof. intros [SA LO MP AD ID NZ CK CE OR RU]. constructor; cbn [tm_list tm_map tm_active tm_on tm_waits tm_cell]; auto. Qed.
Lemma run_inv t vs clock high last ordered i : tinv t vs false clock high last ordered ->
  exists t' o, tm_run t i = Some (t', o) /\
    match o with
    | None => tinv t' vs false clock high last ordered
    | Some (id, d) => exists v vs', vs = v :: vs' /\ lv_id v = id /\ lv_data v = d /\ (lv_low v <= high)%Z /\ tinv t' vs' true clock high last ordered
    end.
Proof.
  intros I. pose proof I as [SA LO MP AD ID NZ CK CE OR RU]. unfold tm_run. destruct (nth_error (tm_waits t) i) as [w|] eqn:EW; [|exists t, None; auto].
  destruct (tm_on t) eqn:ON; [|destruct RU as (_ & WS); rewrite WS in EW; destruct i; discriminate].
  destruct RU as (w0 & WS & AC & PO). rewrite WS in EW. destruct i as [|i]; [|destruct i; discriminate]. injection EW as ->. rewrite WS. cbn [remove_nth].
  cbn [tm_list tm_map tm_active tm_on tm_waits tm_cell]. rewrite CE. apply tinv_busy in I as IB.
  destruct (aw_stat w) eqn:ST; [exists t, None; auto| |].
  - eexists _, None. split; [reflexivity|]. rewrite <- CE. apply (next_inv _ _ _ _ _ _ [] IB eq_refl).
  - destruct (N.eqb_spec (tm_active t) 0) as [Z|NZA].
    + eexists _, None. split; [reflexivity|]. rewrite <- CE. apply (next_inv _ _ _ _ _ _ [] IB eq_refl).
    + destruct AC as [AC|(v & r & -> & EA & LW)]; [congruence|].
      destruct (delete_spec (tm_list t) (tm_map t) 0 true [] CellFalse (v :: r) (tm_active t) SA MP AD ID) as [(NI & _)|(l1 & n & l2 & v1 & u & v2 & EL & EV & EI & S1 & S2 & SN & E)].
      * destruct NI. rewrite EA. now left.
      * rewrite E. destruct v1 as [|x v1].
        -- cbn [app] in EV. injection EV as <- <-. inversion S1; subst. eexists _, (Some (_, _)). split; [reflexivity|]. exists v, r.
           split; [reflexivity|]. split; [exact EI|]. split; [reflexivity|]. split; [exact LW|].
           cbn [app andb] in *. rewrite EL in *. constructor; cbn [tm_list tm_map tm_active tm_on tm_waits tm_cell]; auto.
           ++ intros k J. apply LO. now right.
           ++ now inversion AD.
           ++ now inversion ID.
           ++ intros k J. apply NZ. now right.
           ++ intros O. destruct (OR O) as (R & B). split; [apply R|intros k J; apply B; now right].
           ++ split; [reflexivity|]. split; [now destruct (0 =? tm_active t)|reflexivity].
        -- cbn [app] in EV. injection EV as <- EV. exfalso. inversion ID as [|? ? N1 _]. apply N1. rewrite EV, map_app, in_app_iff. right. left. congruence.
Qed.
Lemma wake_inv t vs busy clock high last ordered i : tinv t vs busy clock high last ordered -> tinv (tm_wake t clock i) vs busy clock high last ordered.
Proof.
  intros [SA LO MP AD ID NZ CK CE OR RU]. unfold tm_wake. constructor; cbn [tm_list tm_map tm_active tm_on tm_waits tm_cell]; auto.
  destruct busy.
  - destruct RU as (A & B & ->). now destruct i.
  - destruct (tm_on t).
    + destruct RU as (w & -> & AC & PO). destruct i as [|i].
      * destruct (aw_stat w) eqn:ST.
        -- destruct (Z.leb_spec (aw_deadline w) clock).
           ++ eexists. split; [reflexivity|]. cbn [aw_stat aw_deadline]. split; [|discriminate]. destruct AC as [AC|(v & r & EV & EA & LW)]; [now left|]. right. exists v, r. split; [exact EV|]. split; [exact EA|]. lia.
           ++ exists w. rewrite ST. auto.
        -- exists w. rewrite ST. auto.
        -- exists w. rewrite ST. auto.
      * exists w. destruct i; auto.
    + destruct RU as (A & ->). now destruct i.
Qed.
Lemma clock_inv t vs busy clock high last ordered c : tinv t vs busy clock high last ordered -> tinv t vs busy c (Z.max high c) last ordered.
Proof.
  intros [SA LO MP AD ID NZ CK CE OR RU]. constructor; auto; [lia|]. destruct busy; [exact RU|]. destruct (tm_on t); [|exact RU].
  destruct RU as (w & WS & AC & PO). exists w. split; [exact WS|]. split; [|exact PO]. destruct AC as [AC|(v & r & EV & EA & LW)]; [now left|]. right. exists v, r.
  split; [exact EV|]. split; [exact EA|]. destruct (aw_stat w); auto. lia.
Qed.
Lemma clean_inv t vs clock high last ordered : tinv t vs false clock high last ordered -> clean_end t.
Proof.
  intros [SA LO MP AD ID NZ CK CE OR RU]. unfold clean_end, tm_destroy. destruct (tm_on t) eqn:ON.
  - right. split; [reflexivity|]. destruct RU as (w & -> & _). unfold tm_reset. cbn [tm_waits map tm_cell]. exists (abort_wait w). split; [reflexivity|]. split; [apply abort_not_pending|].
    unfold tm_run. cbn [tm_waits nth_error tm_cell tm_list tm_map tm_active tm_on remove_nth]. destruct (aw_stat (abort_wait w)) eqn:ST; [now apply abort_not_pending in ST| |]; (eexists; split; [reflexivity|]; auto).
  - left. destruct RU as (_ & ->). auto.
Qed.
(** The round in which a due timer at the head of the list fires. *)
Lemma fire_round t v r clock high last ordered w : tinv t (v :: r) false clock high last ordered -> tm_waits t = [w] -> tm_active t = lv_id v ->
  aw_stat w = Done \/ (aw_stat w = Pending /\ (aw_deadline w <= clock)%Z) -> exists t', pump clock t = Some (t', Some (lv_id v, lv_data v)).
Proof.
  intros I WS EA H. unfold pump. destruct (run_inv _ _ _ _ _ _ 0 (wake_inv _ _ _ _ _ _ _ 0 I)) as (t' & o & E & S). rewrite E. exists t'.
  destruct o as [[id d]|].
  - destruct S as (u & vs' & EV & <- & <- & _). injection EV as <- _. reflexivity.
  - exfalso. clear S. pose proof (i_nz _ _ _ _ _ _ _ I v (or_introl eq_refl)) as NZ. revert E. unfold tm_run, tm_wake. cbn [tm_waits nth_error].
    rewrite WS. cbn [nth_error tm_list tm_map tm_active tm_on tm_waits tm_cell remove_nth].
    assert (aw_stat (match aw_stat w with Pending => if (aw_deadline w <=? clock)%Z then mkAwait (aw_deadline w) Done else w | _ => w end) = Done) as ->.
    { destruct H as [H|(H & L)]; rewrite H; [exact H|]. apply Z.leb_le in L. rewrite L. reflexivity. }
    rewrite (i_cell _ _ _ _ _ _ _ I), EA. destruct (N.eqb_spec (lv_id v) 0); [contradiction|]. destruct (tm_delete _ _) as [[? [?|]]|]; discriminate.
Qed.
Lemma soon_inv t v r clock high last ordered : tinv t (v :: r) false clock high last ordered -> ordered = true -> (lv_due v <= clock)%Z -> fires_soon clock t v.
Proof.
  intros I O D. pose proof I as [SA LO MP AD ID NZ CK CE OR RU]. destruct (tm_on t) eqn:ON; [|destruct RU; discriminate].
  destruct RU as (w & WS & AC & PO).
  assert (aw_stat w = Pending -> (aw_deadline w <= clock)%Z) as DL.
  { intros P. destruct (PO P O) as (_ & B). specialize (B v (or_introl eq_refl)). lia. }
  assert (tm_active t = 0 \/ aw_stat w = Aborted -> fires_soon clock t v) as Two.
  { intros H. right. assert (exists t1, pump clock t = Some (t1, None) /\ tinv t1 (v :: r) false clock high last ordered /\ tm_active t1 = lv_id v /\ tm_waits t1 = [mkAwait (lv_due v) Pending]) as (t1 & E1 & I1 & A1 & W1).
    { destruct (tm_list t) as [|n l] eqn:EL; inversion SA as [|? ? ? ? SN S2]; subst. destruct SN as (N1 & N2 & _).
      exists (tm_next (mkTm (tm_list t) (tm_map t) (tm_active t) (tm_on t) [] (tm_cell t))). split; [|split; [|split]].
      - unfold pump, tm_run, tm_wake. cbn [tm_waits]. rewrite WS. cbn [nth_error tm_list tm_map tm_active tm_on tm_waits tm_cell remove_nth].
        assert (aw_stat (match aw_stat w with Pending => if (aw_deadline w <=? clock)%Z then mkAwait (aw_deadline w) Done else w | _ => w end) <> Pending) as NP.
        { destruct (aw_stat w) eqn:ST; [|congruence|congruence]. specialize (DL eq_refl). apply Z.leb_le in DL. rewrite DL. discriminate. }
        rewrite CE. destruct H as [H|H].
        + rewrite H. cbn [N.eqb]. set (w' := match aw_stat w with Pending => if (aw_deadline w <=? clock)%Z then mkAwait (aw_deadline w) Done else w | _ => w end) in *.
          clearbody w'. destruct (aw_stat w'); [congruence| |]; reflexivity.
        + rewrite H in *. rewrite H. reflexivity.
      - apply tinv_busy in I. exact (next_inv _ _ _ _ _ _ [] I eq_refl _ _).
      - unfold tm_next. cbn [tm_list]. rewrite EL. exact N1.
      - unfold tm_next. cbn [tm_list]. rewrite EL. cbn [tm_waits]. unfold arm. cbn [map app]. now rewrite N2. }
    destruct (fire_round t1 v r clock high last ordered _ I1 W1 A1) as (t2 & E2); [right; split; [reflexivity|exact D]|]. now exists t1, t2. }
  destruct AC as [AC|(u & r' & EV & EA & _)]; [apply Two; now left|]. injection EV as <- <-.
  destruct (aw_stat w) eqn:ST; [|apply Two; now right|].
  - left. apply (fire_round t v r clock high last ordered w I WS EA). auto.
  - left. apply (fire_round t v r clock high last ordered w I WS EA). auto.
Qed.
Lemma between_inv t vs busy clock high last ordered : tinv t vs busy clock high last ordered -> between t vs busy clock ordered.
Proof.
  intros I. split; [|split].
  - unfold tm_empty. destruct (i_same _ _ _ _ _ _ _ I); split; auto; discriminate.
  - intros ->. split; [now apply clean_inv in I|]. intros NE. pose proof (i_run _ _ _ _ _ _ _ I) as RU. cbn in RU. destruct (tm_on t); [|now destruct RU]. destruct RU as (w & WS & _). now exists w.
  - intros -> O. destruct vs as [|v r]; [exact Logic.I|]. intros D. now apply (soon_inv t v r clock high last ordered).
Qed.
Lemma follow_inv evs : forall t vs busy clock high last ordered, tinv t vs busy clock high last ordered -> timers_follow t vs busy clock high last ordered evs.
Proof.
  induction evs as [|e evs IH]; intros t vs busy clock high last ordered I; cbn [timers_follow]; (split; [now apply between_inv in I|]); [exact Logic.I|].
  destruct e as [a id dur data|id|d|c|i|i|].
  - intros NZ FR. destruct (start_inv _ _ _ _ _ _ _ a id dur data I NZ FR) as (t' & ok & E & OK & I'). exists t', ok. split; [exact E|]. split; [exact OK|]. destruct ok; now apply IH.
  - destruct (delete_inv _ _ _ _ _ _ _ id I) as (t' & r & E & S). exists t', r. split; [exact E|]. destruct r as [d|].
    + destruct S as (v1 & v & v2 & E1 & E2 & E3 & S). exists v1, v, v2. repeat (split; [assumption|]). now apply IH.
    + destruct S as (NI & S). split; [exact NI|]. now apply IH.
  - now apply IH, adjust_inv.
  - now apply IH, clock_inv with (clock := clock).
  - now apply IH, wake_inv.
  - intros ->. destruct (run_inv _ _ _ _ _ _ i I) as (t' & o & E & S). exists t', o. split; [exact E|]. destruct o as [[id d]|]; [|now apply IH].
    destruct S as (v & vs' & E1 & E2 & E3 & E4 & S). exists v, vs'. repeat (split; [assumption|]). now apply IH.
  - intros ->. apply IH. pose proof (i_run _ _ _ _ _ _ _ I) as (_ & _ & WS). pose proof (next_inv _ _ _ _ _ _ [] I eq_refl (tm_active t) (tm_on t)) as J. rewrite <- WS in J. destruct t. exact J.
Qed.
