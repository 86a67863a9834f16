(** What becomes of each bundle, for C51. *)
From Coq Require Import NArith List Bool Lia ZifyBool ZifyN Permutation PeanoNat.
From Verif Require Import Base M_Ingress M_Dispatch S_Dispatch L_Dispatch L_DispatchInv L_DispatchFair.
Import ListNotations.
Open Scope N_scope.

Definition pc_fate (cfg : config) (b : bundle) (p : pc) : Prop :=
  match p with
  | PStart => True
  | PId | PLook _ | PStore _ => b_router b = false
  | PCut _ _ => b_router b = false /\ plain b
  | PEgress _ _ => b_router b = false /\ plain b /\ c_priority cfg = false
  | PToStorage _ i d => b_router b = false /\ (d = true -> plain b) /\ (d = true <-> i <> U64MAX)
  | PDone f =>
    match f with
    | ToRouter | RouterFailed => b_router b = true
    | OnLink => b_router b = false /\ (b_stored b = true \/ plain b) /\ c_priority cfg = false
    | ToEgress _ => b_router b = false /\ plain b /\ c_priority cfg = false
    | ToStorage i d => b_router b = false /\ (d = true -> plain b) /\ (d = true <-> i <> U64MAX)
    | Dropped => b_router b = false /\ b_acks b = false
    | NoStorage | StorageFailed => b_router b = false
    end
  end.
Definition ecopies (p : pc) : nat := match p with PDone ToRouter | PDone (ToEgress _) => 1 | _ => 0 end.
Definition scopies (p : pc) : nat := match p with PDone (ToStorage _ _) => 1 | _ => 0 end.
Definition lcopies (p : pc) : nat := match p with PDone OnLink => 1 | _ => 0 end.
Definition counts (s : state) : list N := [g_ecount s; g_ebytes s; g_scount s; g_sbytes s].

(** What a step of a thread does, seen from outside. *)
Definition shape (s s' : state) (t : nat) (b : bundle) (p p' : pc) : Prop :=
  (ecopies p' = 0%nat /\ scopies p' = 0%nat /\ lcopies p' = 0%nat /\ g_egress s' = g_egress s /\ g_storage s' = g_storage s /\ g_onlink s' = g_onlink s /\ counts s' = counts s) \/
  (exists m, p' = PDone (if e_router m then ToRouter else ToEgress (e_idx m)) /\ e_tag m = t /\ g_egress s' = g_egress s ++ [m] /\ g_storage s' = g_storage s /\ g_onlink s' = g_onlink s /\
     (e_router m = false -> pc_id p = Some (e_id m) /\ e_dest m = b_dest b /\ e_custody m = b_custody b) /\
     counts s' = [add64 (g_ecount s) 1; add64 (g_ebytes s) (b_size b); g_scount s; g_sbytes s]) \/
  (exists m, p' = PDone (ToStorage (s_idx m) (s_dont m)) /\ s_tag m = t /\ g_egress s' = g_egress s /\ g_storage s' = g_storage s ++ [m] /\ g_onlink s' = g_onlink s /\
     pc_id p = Some (s_id m) /\ s_dest m = b_dest b /\ s_special m = b_custody b || b_admin b || b_frag b /\
     counts s' = [g_ecount s; g_ebytes s; add64 (g_scount s) 1; add64 (g_sbytes s) (b_size b)]) \/
  (p' = PDone OnLink /\ g_egress s' = g_egress s /\ g_storage s' = g_storage s /\ g_onlink s' = g_onlink s ++ [t] /\ counts s' = counts s).

Lemma plain_spec b : negb (b_custody b || b_admin b || b_frag b) = true -> plain b.
Proof. unfold plain. destruct (b_custody b), (b_admin b), (b_frag b); simpl; intros H; try discriminate; auto. Qed.

Lemma put_counts' s i a : counts (put_at s i a) = counts s.
Proof. unfold counts. destruct (put_counts s i a) as (-> & -> & -> & ->). reflexivity. Qed.

Lemma thread_shape cfg t ok s s' : Inv None s -> (forall b p, nth_error (g_threads s) t = Some (b, p) -> pc_fate cfg b p) -> thread_step cfg t ok s = On s' ->
  exists b p p', nth_error (g_threads s) t = Some (b, p) /\ done p = false /\ g_threads s' = set_nth t (b, p') (g_threads s) /\ shape s s' t b p p' /\
    pc_fate cfg b p' /\ (forall id, pc_id p' = Some id -> pc_id p = Some id \/ id = g_next s mod W64 /\ g_next s' = g_next s + 1).
Proof.
  intros I HF E. unfold thread_step in E. destruct (nth_error (g_threads s) t) as [[b p]|] eqn:HT; [|discriminate].
  assert (OK : pc_ok s p) by (eapply (iv_pc _ _ I); [discriminate|eassumption]). specialize (HF b p eq_refl). exists b, p.
  destruct p; simpl in HF.
  - destruct (b_router b) eqn:ER.
    + destruct ok; injection E as <-; [exists (PDone ToRouter)|exists (PDone RouterFailed)]; simpl; repeat split; auto; try discriminate.
      * right. left. eexists. simpl. repeat split; try reflexivity; discriminate.
      * left. repeat split.
    + destruct (try_link cfg (g_links s) b && ok) eqn:ET; injection E as <-; [exists (PDone OnLink)|exists PId]; simpl; repeat split; auto; try discriminate.
      * right. right. right. repeat split.
      * unfold try_link in ET. destruct (b_stored b); [now left|]. right. apply plain_spec. destruct (negb (b_custody b || b_admin b || b_frag b)); [reflexivity|]. simpl in ET. rewrite andb_false_r in ET. discriminate.
      * unfold try_link in ET. destruct (c_priority cfg); [|reflexivity]. simpl in ET. rewrite andb_false_r in ET. discriminate.
      * left. repeat split.
  - injection E as <-. exists (PLook (g_next s mod W64)). simpl. repeat split; auto; [left; repeat split|]. intros id X. injection X as <-. right. split; reflexivity.
  - destruct (negb ok && negb (b_acks b)) eqn:EO.
    + injection E as <-. exists (PDone Dropped). simpl. repeat split; auto; try discriminate; [left; repeat split|]. destruct (b_acks b); [destruct ok; discriminate|reflexivity].
    + destruct (route s (b_dest b) =? U64MAX).
      * injection E as <-. exists (PStore id). simpl. repeat split; auto. left. repeat split.
      * destruct (vec_at s (route s (b_dest b))) as [a|]; [|discriminate]. injection E as <-. exists (if cut_through b a then PCut id (route s (b_dest b)) else PStore id). repeat split; auto.
        -- left. destruct (cut_through b a); repeat split.
        -- unfold cut_through. destruct (a_up a), (b_custody b) eqn:E1, (b_admin b) eqn:E2, (b_frag b) eqn:E3; simpl; auto. repeat split; auto.
        -- destruct (cut_through b a); simpl; auto.
  - destruct OK as (O1 & O2 & V). destruct (vec_at s i) as [a|] eqn:EV; [|discriminate]. destruct (ok && _); [discriminate|].
    destruct (reserve _ true id (b_size b) a) as [a' r] eqn:ER. injection E as <-. simpl.
    exists (match r with ForEgress => PEgress id i | ForStorage => PToStorage id i true | NoRoom => PStore id end). rewrite put_threads. repeat split; auto.
    + left. unfold counts. destruct (put_counts s i a') as (X1 & X2 & X3 & X4). simpl. rewrite put_egress, put_storage, put_onlink, X1, X2, X3, X4. destruct r; repeat split.
    + destruct HF as (F1 & F2). destruct r; simpl; auto.
      * repeat split; auto; try apply F2. unfold reserve in ER. destruct (c_priority cfg); [|reflexivity]. simpl in ER. destruct (_ && _) in ER; discriminate.
      * split; [assumption|]. split; [auto|]. split; [intros _; apply V|auto].
    + destruct r; simpl; auto.
  - destruct OK as (O1 & O2 & V). destruct (vec_at s i) as [a|] eqn:EV; [|discriminate]. destruct ok; injection E as <-.
    + exists (PDone (ToEgress i)). simpl. repeat split; auto; try apply HF; try discriminate. right. left. eexists. simpl. repeat split; reflexivity.
    + exists (PStore id). simpl. rewrite put_threads. repeat split; auto; try apply HF. left. unfold counts. destruct (put_counts s i (fst (pop id true a))) as (X1 & X2 & X3 & X4). simpl.
      rewrite put_egress, put_storage, put_onlink, X1, X2, X3, X4. repeat split.
  - destruct (ok && _); [discriminate|]. destruct (reserve false true id (b_size b) (g_single s)) as [a' r] eqn:ER. injection E as <-.
    exists (match r with ForStorage => PToStorage id U64MAX false | _ => PDone NoStorage end). unfold put_at. rewrite N.eqb_refl. simpl. repeat split; auto.
    + left. destruct r; repeat split.
    + destruct r; simpl; auto. repeat split; auto; try discriminate.
    + destruct r; simpl; auto; discriminate.
  - destruct (set_at s i) as [a|] eqn:EV; [|discriminate]. destruct ok; injection E as <-.
    + exists (PDone (ToStorage i dontStore)). split; [reflexivity|]. split; [reflexivity|]. split; [reflexivity|]. split; [|split; [exact HF|discriminate]]. right. right. left. eexists. simpl. repeat split; reflexivity.
    + exists (PDone StorageFailed). simpl. rewrite put_threads. repeat split; auto; try apply HF; try discriminate. left. unfold counts. destruct (put_counts s i (fst (pop id false a))) as (X1 & X2 & X3 & X4). simpl.
      rewrite put_egress, put_storage, put_onlink, X1, X2, X3, X4. repeat split.
  - discriminate.
Qed.

Definition ids_sent (s : state) : list N := map e_id (filter (fun m => negb (e_router m)) (g_egress s)) ++ map s_id (g_storage s).
Definition num {A} (l : list A) : N := N.of_nat (length l).

Record FInv (cfg : config) (s : state) : Prop := mkFInv {
  fi_pc : forall t b p, nth_error (g_threads s) t = Some (b, p) -> pc_fate cfg b p;
  fi_count : forall t b p, nth_error (g_threads s) t = Some (b, p) ->
    copies e_tag t (g_egress s) = ecopies p /\ copies s_tag t (g_storage s) = scopies p /\ copies (fun x => x) t (g_onlink s) = lcopies p;
  fi_e : forall m, In m (g_egress s) -> exists b, nth_error (g_threads s) (e_tag m) = Some (b, PDone (if e_router m then ToRouter else ToEgress (e_idx m))) /\
    (e_router m = false -> e_dest m = b_dest b /\ e_custody m = b_custody b);
  fi_s : forall m, In m (g_storage s) -> exists b, nth_error (g_threads s) (s_tag m) = Some (b, PDone (ToStorage (s_idx m) (s_dont m))) /\
    s_dest m = b_dest b /\ s_special m = b_custody b || b_admin b || b_frag b;
  fi_l : forall t, In t (g_onlink s) -> exists b, nth_error (g_threads s) t = Some (b, PDone OnLink);
  fi_ids : NoDup (ids_sent s) /\ (forall id, In id (ids_sent s) -> id < g_next s) /\
    (forall t b p id, nth_error (g_threads s) t = Some (b, p) -> pc_id p = Some id -> ~ In id (ids_sent s));
  fi_counts : counts s = [num (g_egress s) mod W64; sum (map (fun m => size_of (g_threads s) (e_tag m)) (g_egress s)) mod W64;
    num (g_storage s) mod W64; sum (map (fun m => size_of (g_threads s) (s_tag m)) (g_storage s)) mod W64] }.

Lemma finv_start cfg : FInv cfg start.
Proof.
  split; simpl; try contradiction.
  - intros [|t] b p H; discriminate.
  - intros [|t] b p H; discriminate.
  - split; [constructor|]. split; [contradiction|]. intros [|t] b p id H; discriminate.
  - reflexivity.
Qed.

Lemma copies_app {A} (tag : A -> nat) t l x : copies tag t (l ++ [x]) = (copies tag t l + (if Nat.eqb (tag x) t then 1 else 0))%nat.
Proof. unfold copies. rewrite filter_app, app_length. cbn [filter]. destruct (Nat.eqb (tag x) t); reflexivity. Qed.
Lemma copies_none {A} (tag : A -> nat) t l : (forall x, In x l -> tag x <> t) -> copies tag t l = 0%nat.
Proof.
  unfold copies. induction l as [|x l IH]; intros H; [reflexivity|]. cbn [filter]. destruct (Nat.eqb_spec (tag x) t) as [E|E]; [destruct (H x (or_introl eq_refl) E)|].
  apply IH. intros y Hy. apply H. now right.
Qed.
Lemma sum_app a b : sum (a ++ b) = sum a + sum b.
Proof. unfold sum. induction a as [|x a IH]; [reflexivity|]. cbn [app fold_right]. rewrite IH. lia. Qed.
Lemma sum_ext {A} (f g : A -> N) l : (forall x, In x l -> f x = g x) -> sum (map f l) = sum (map g l).
Proof. intros H. f_equal. apply map_ext_in. exact H. Qed.
Lemma size_of_set t b p p' l u : nth_error l t = Some (b, p) -> size_of (set_nth t (b, p') l) u = size_of l u.
Proof.
  intros H. unfold size_of. destruct (Nat.eq_dec t u) as [<-|NE].
  - rewrite (set_nth_same _ _ _ _ H), H. reflexivity.
  - rewrite set_nth_other by assumption. reflexivity.
Qed.
Lemma add_mod x n : add64 (x mod W64) n = (x + n) mod W64.
Proof. unfold add64. unfold W64. rewrite N.add_mod_idemp_l by lia. reflexivity. Qed.
Lemma thread_set t b p' u (bu : bundle) (pu : pc) l : nth_error (set_nth t (b, p') l) u = Some (bu, pu) -> (t < length l)%nat -> (u = t /\ bu = b /\ pu = p') \/ (u <> t /\ nth_error l u = Some (bu, pu)).
Proof.
  intros H L. destruct (Nat.eq_dec t u) as [<-|NE].
  - apply nth_error_Some in L. destruct (nth_error l t) as [y|] eqn:E; [|congruence]. rewrite (set_nth_same _ _ _ _ E) in H. injection H as <- <-. auto.
  - rewrite set_nth_other in H by assumption. right. auto.
Qed.

Lemma finv_shape cfg s s' t b p p' : Inv None s -> FInv cfg s -> g_next s <= g_next s' -> g_next s' <= W64 ->
  nth_error (g_threads s) t = Some (b, p) -> done p = false -> g_threads s' = set_nth t (b, p') (g_threads s) ->
  shape s s' t b p p' -> pc_fate cfg b p' -> (forall id, pc_id p' = Some id -> pc_id p = Some id \/ id = g_next s mod W64 /\ g_next s' = g_next s + 1) -> FInv cfg s'.
Proof.
  intros I [F1 F2 F3 F4 F5 (F6 & F7 & F8) F9] NM NL HT HD ET SH PF PI.
  assert (LT : (t < length (g_threads s))%nat) by (apply nth_error_Some; congruence).
  assert (KEEP : forall u q, nth_error (g_threads s) u = Some q -> done (snd q) = true -> nth_error (g_threads s') u = Some q).
  { intros u q Hu Dq. assert (NE : t <> u) by (intros <-; rewrite HT in Hu; injection Hu as <-; simpl in Dq; congruence). rewrite ET, set_nth_other by assumption. exact Hu. }
  destruct (F2 t b p HT) as (C1 & C2 & C3). assert (Z : ecopies p = 0%nat /\ scopies p = 0%nat /\ lcopies p = 0%nat) by (destruct p; try discriminate; auto). destruct Z as (Z1 & Z2 & Z3). rewrite Z1 in C1. rewrite Z2 in C2. rewrite Z3 in C3.
  assert (SZ : forall u, size_of (g_threads s') u = size_of (g_threads s) u) by (intros u; rewrite ET; apply (size_of_set t b p p'); assumption).
  assert (ST : size_of (g_threads s) t = b_size b) by (unfold size_of; rewrite HT; reflexivity).
  assert (OTHER : forall u bu pu, u <> t -> nth_error (g_threads s) u = Some (bu, pu) -> forall x, pc_id pu = Some x -> pc_id p <> Some x).
  { intros u bu pu NE Hu x E1 E2. apply NE. exact (iv_distinct _ _ I u t _ _ _ _ x Hu HT E1 E2). }
  assert (NEW : ecopies p' = copies e_tag t (g_egress s') /\ scopies p' = copies s_tag t (g_storage s') /\ lcopies p' = copies (fun x => x) t (g_onlink s') /\
     (forall u, u <> t -> copies e_tag u (g_egress s') = copies e_tag u (g_egress s) /\ copies s_tag u (g_storage s') = copies s_tag u (g_storage s) /\ copies (fun x => x) u (g_onlink s') = copies (fun x => x) u (g_onlink s))).
  { destruct SH as [(S1 & S2 & S3 & -> & -> & -> & _)|[(m & -> & TG & -> & -> & -> & _)|[(m & -> & TG & -> & -> & -> & _)|(-> & -> & -> & -> & _)]]].
    - repeat split; congruence.
    - rewrite copies_app, TG, Nat.eqb_refl, C1, C2, C3. repeat split; try (destruct (e_router m); reflexivity). rewrite copies_app, TG. destruct (Nat.eqb_spec t u); [congruence|]. lia.
    - rewrite copies_app, TG, Nat.eqb_refl, C1, C2, C3. repeat split. rewrite copies_app, TG. destruct (Nat.eqb_spec t u); [congruence|]. lia.
    - rewrite copies_app, Nat.eqb_refl, C1, C2, C3. repeat split. rewrite copies_app. destruct (Nat.eqb_spec t u); [congruence|]. lia. }
  assert (TH : nth_error (g_threads s') t = Some (b, p')) by (rewrite ET; eapply set_nth_same; eassumption).
  split.
  - intros u bu pu Hu. rewrite ET in Hu. apply thread_set in Hu; [|assumption]. destruct Hu as [(-> & -> & ->)|(_ & Hu)]; [exact PF|exact (F1 _ _ _ Hu)].
  - intros u bu pu Hu. rewrite ET in Hu. apply thread_set in Hu; [|assumption]. destruct NEW as (N1 & N2 & N3 & N4). destruct Hu as [(-> & -> & ->)|(NE & Hu)]; [auto|].
    destruct (N4 u NE) as (-> & -> & ->). exact (F2 _ _ _ Hu).
  - assert (OLD : forall m, In m (g_egress s) -> exists b0, nth_error (g_threads s') (e_tag m) = Some (b0, PDone (if e_router m then ToRouter else ToEgress (e_idx m))) /\
      (e_router m = false -> e_dest m = b_dest b0 /\ e_custody m = b_custody b0)). { intros m Hm. destruct (F3 m Hm) as (b0 & X & Y). exists b0. split; [apply KEEP; [exact X|reflexivity]|exact Y]. }
    destruct SH as [(_ & _ & _ & -> & _)|[(m & EP & TG & -> & _ & _ & EM & _)|[(m & _ & _ & -> & _)|(_ & -> & _)]]]; try exact OLD.
    intros m0 Hm. apply in_app_iff in Hm. destruct Hm as [Hm|[<-|[]]]; [exact (OLD _ Hm)|]. exists b. rewrite TG, TH, EP. split; [reflexivity|]. intros ER. destruct (EM ER) as (_ & X). exact X.
  - assert (OLD : forall m, In m (g_storage s) -> exists b0, nth_error (g_threads s') (s_tag m) = Some (b0, PDone (ToStorage (s_idx m) (s_dont m))) /\
      s_dest m = b_dest b0 /\ s_special m = b_custody b0 || b_admin b0 || b_frag b0). { intros m Hm. destruct (F4 m Hm) as (b0 & X & Y). exists b0. split; [apply KEEP; [exact X|reflexivity]|exact Y]. }
    destruct SH as [(_ & _ & _ & _ & -> & _)|[(m & _ & _ & _ & -> & _)|[(m & EP & TG & _ & -> & _ & _ & E1 & E2 & _)|(_ & _ & -> & _)]]]; try exact OLD.
    intros m0 Hm. apply in_app_iff in Hm. destruct Hm as [Hm|[<-|[]]]; [exact (OLD _ Hm)|]. exists b. rewrite TG, TH, EP. auto.
  - assert (OLD : forall u, In u (g_onlink s) -> exists b0, nth_error (g_threads s') u = Some (b0, PDone OnLink)). { intros u Hu. destruct (F5 u Hu) as (b0 & X). exists b0. apply KEEP; [exact X|reflexivity]. }
    destruct SH as [(_ & _ & _ & _ & _ & -> & _)|[(m & _ & _ & _ & _ & -> & _)|[(m & _ & _ & _ & _ & -> & _)|(EP & _ & _ & -> & _)]]]; try exact OLD.
    intros u Hu. apply in_app_iff in Hu. destruct Hu as [Hu|[<-|[]]]; [exact (OLD _ Hu)|]. exists b. rewrite TH, EP. reflexivity.
  - assert (IDS : ids_sent s' = ids_sent s \/ exists id, pc_id p = Some id /\ pc_id p' = None /\ Permutation (ids_sent s') (id :: ids_sent s)).
    { unfold ids_sent. destruct SH as [(_ & _ & _ & -> & -> & _)|[(m & -> & TG & -> & -> & _ & EM & _)|[(m & -> & TG & -> & -> & _ & EM & _)|(_ & -> & -> & _)]]]; auto.
      - rewrite filter_app. cbn [filter]. destruct (e_router m) eqn:ER; cbn [negb]; [left; rewrite app_nil_r; reflexivity|]. right. destruct (EM eq_refl) as (EI & _). exists (e_id m). split; [exact EI|]. split; [reflexivity|].
        rewrite map_app. cbn [map]. rewrite <- Permutation_cons_append. reflexivity.
      - right. exists (s_id m). split; [exact EM|]. split; [reflexivity|]. rewrite map_app. cbn [map]. rewrite app_assoc. rewrite <- Permutation_cons_append. reflexivity. }
    assert (LTN : forall id, pc_id p = Some id -> id < g_next s) by (intros id E; eapply (iv_idlt _ _ I); eassumption).
    assert (MEM : forall id, In id (ids_sent s') -> In id (ids_sent s) \/ (pc_id p = Some id /\ pc_id p' = None)).
    { intros id H. destruct IDS as [IDS|(i0 & P1 & P2 & P3)]; [rewrite IDS in H; auto|]. apply (Permutation_in _ P3) in H. destruct H as [<-|H]; auto. }
    split.
    + destruct IDS as [-> |(i0 & P1 & P2 & P3)]; [exact F6|]. apply (Permutation_NoDup (Permutation_sym P3)). constructor; [|exact F6]. exact (F8 _ _ _ _ HT P1).
    + split.
      * intros id H. destruct (MEM id H) as [X|(X & _)]; [apply F7 in X|apply LTN in X]; lia.
      * intros u bu pu id Hu EI H. rewrite ET in Hu. apply thread_set in Hu; [|assumption]. destruct (MEM id H) as [X|(X1 & X2)].
        -- destruct Hu as [(-> & -> & ->)|(NE & Hu)]; [|exact (F8 _ _ _ _ Hu EI X)]. destruct (PI _ EI) as [Y|(Y1 & Y2)]; [exact (F8 _ _ _ _ HT Y X)|].
           apply F7 in X. rewrite N.mod_small in Y1 by lia. lia.
        -- destruct Hu as [(-> & -> & ->)|(NE & Hu)]; [congruence|]. exact (OTHER _ _ _ NE Hu id EI X1).
  - rewrite (sum_ext _ (fun m => size_of (g_threads s) (e_tag m)) (g_egress s')) by (intros; apply SZ). rewrite (sum_ext _ (fun m => size_of (g_threads s) (s_tag m)) (g_storage s')) by (intros; apply SZ).
    unfold counts in F9. injection F9 as G1 G2 G3 G4.
    destruct SH as [(_ & _ & _ & -> & -> & _ & ->)|[(m & EP & TG & -> & -> & _ & EM & ->)|[(m & EP & TG & -> & -> & _ & _ & _ & _ & ->)|(_ & -> & -> & _ & ->)]]];
      unfold counts; rewrite G1, G2, G3, G4; try reflexivity; rewrite !add_mod, map_app, sum_app; cbn [map]; rewrite TG, ST; unfold num; rewrite app_length; cbn [length sum fold_right]; rewrite N.add_0_r; repeat f_equal; lia.
Qed.

Lemma finv_same cfg s s' l : FInv cfg s -> g_next s' = g_next s -> g_threads s' = g_threads s ++ l -> Forall (fun x => snd x = PStart) l ->
  g_egress s' = g_egress s -> g_storage s' = g_storage s -> g_onlink s' = g_onlink s -> counts s' = counts s -> FInv cfg s'.
Proof.
  intros [F1 F2 F3 F4 F5 (F6 & F7 & F8) F9] EN ET FS E1 E2 E3 E4.
  assert (TH : forall u bu pu, nth_error (g_threads s') u = Some (bu, pu) -> nth_error (g_threads s) u = Some (bu, pu) \/ (pu = PStart /\ (length (g_threads s) <= u)%nat)).
  { intros u bu pu H. rewrite ET in H. destruct (Nat.lt_ge_cases u (length (g_threads s))) as [L|L].
    - rewrite nth_error_app1 in H by assumption. now left.
    - rewrite nth_error_app2 in H by assumption. right. split; [|exact L]. apply nth_error_In in H. rewrite Forall_forall in FS. exact (FS _ H). }
  assert (KEEP : forall u q, nth_error (g_threads s) u = Some q -> nth_error (g_threads s') u = Some q).
  { intros u q H. rewrite ET, nth_error_app1; [exact H|]. apply nth_error_Some. congruence. }
  split.
  - intros u bu pu H. apply TH in H. destruct H as [H|(-> & _)]; [exact (F1 _ _ _ H)|exact Logic.I].
  - intros u bu pu H. rewrite E1, E2, E3. apply TH in H. destruct H as [H|(-> & L)]; [exact (F2 _ _ _ H)|]. simpl.
    assert (NO : forall v q, nth_error (g_threads s) v = Some q -> v <> u) by (intros v q Hv <-; assert (v < length (g_threads s))%nat by (apply nth_error_Some; congruence); lia).
    repeat split; apply copies_none; intros x Hx; [destruct (F3 x Hx) as (? & X & _)|destruct (F4 x Hx) as (? & X & _)|destruct (F5 x Hx) as (? & X)]; exact (NO _ _ X).
  - rewrite E1. intros m Hm. destruct (F3 m Hm) as (b0 & X & Y). exists b0. auto.
  - rewrite E2. intros m Hm. destruct (F4 m Hm) as (b0 & X & Y). exists b0. auto.
  - rewrite E3. intros m Hm. destruct (F5 m Hm) as (b0 & X). exists b0. auto.
  - unfold ids_sent in *. rewrite E1, E2, EN. split; [exact F6|]. split; [exact F7|]. intros u bu pu id H EI. apply TH in H. destruct H as [H|(-> & _)]; [exact (F8 _ _ _ _ H EI)|discriminate].
  - rewrite E4, F9, E1, E2.
    assert (SZ : forall u, (exists q, nth_error (g_threads s) u = Some q) -> size_of (g_threads s) u = size_of (g_threads s') u) by (intros u (q & Hq); unfold size_of; rewrite (KEEP _ _ Hq), Hq; reflexivity).
    f_equal. f_equal; [f_equal; apply sum_ext; intros m Hm; apply SZ; destruct (F3 m Hm) as (b0 & X & _); eauto|]. f_equal. f_equal. f_equal. apply sum_ext. intros m Hm. apply SZ. destruct (F4 m Hm) as (b0 & X & _). eauto.
Qed.

Lemma telemetry_counts cfg l s : counts (telemetry cfg l s) = counts s.
Proof.
  unfold telemetry. destruct (_ || _); [reflexivity|]. destruct (telem_loop _ _ _ _ _ _) as [[[sets eids] nodes] fine]. reflexivity.
Qed.

Lemma finv_step cfg x s s' : Inv None s -> FInv cfg s -> g_next s' <= W64 -> step cfg x s = On s' -> FInv cfg s'.
Proof.
  intros I F L E. pose proof (next_mono _ _ _ _ E) as NM. destruct x; simpl in E.
  - destruct (b_acks b && acks_busy s); [discriminate|]. injection E as <-. apply (finv_same cfg s _ [(b, PStart)]); auto.
  - destruct (thread_shape cfg t ok s s' I (fun b p => fi_pc _ _ F t b p) E) as (b & p & p' & H1 & H2 & H3 & H4 & H5 & H6). eapply finv_shape; eauto.
  - destruct (acks_busy s); [discriminate|]. unfold ack_egress in E. destruct (vec_at s i) as [a|]; [|discriminate]. injection E as <-.
    set (a' := fst _). apply (finv_same cfg s _ []); simpl; rewrite ?app_nil_r, ?put_threads, ?put_next, ?put_egress, ?put_storage, ?put_onlink; auto. exact (put_counts' s i a').
  - destruct (acks_busy s); [discriminate|]. unfold ack_storage in E. destruct (set_at s i) as [a|]; [|discriminate]. injection E as <-.
    set (a' := fst _). apply (finv_same cfg s _ []); simpl; rewrite ?app_nil_r, ?put_threads, ?put_next, ?put_egress, ?put_storage, ?put_onlink; auto. exact (put_counts' s i a').
  - destruct (acks_busy s); [discriminate|]. unfold link_event in E. destruct (vec_at s i) as [a|]; injection E as <-; [|exact F].
    apply (finv_same cfg s _ []); simpl; rewrite ?app_nil_r, ?put_threads, ?put_next, ?put_egress, ?put_storage, ?put_onlink; auto. exact (put_counts' s i (set_up up a)).
  - destruct (acks_busy s || _); [discriminate|]. injection E as <-.
    destruct (telemetry_sets cfg l s (iv_eids _ _ I) (iv_nodes _ _ I)) as (_ & _ & _ & _ & _ & _ & T1 & T2 & _ & _ & T5 & T6 & T7).
    apply (finv_same cfg s _ []); rewrite ?app_nil_r; auto. apply telemetry_counts.
  - injection E as <-. apply (finv_same cfg s _ []); simpl; rewrite ?app_nil_r; auto.
Qed.
Lemma finv_runs cfg tr s s' : runs cfg tr s s' -> Inv None s -> FInv cfg s -> Forall label_fits tr -> g_next s' <= W64 -> FInv cfg s'.
Proof.
  induction 1 as [s|x l s s1 s2 E R IH]; intros I F FT N; [exact F|]. inversion FT; subst. pose proof (runs_next _ _ _ _ R). apply IH; auto.
  - eapply inv_step; eauto. lia.
  - eapply finv_step; eauto. lia.
Qed.

(** Threads keep their bundle, and what is done stays done. *)
Lemma thread_kept cfg tr s s' : runs cfg tr s s' -> forall t b p, nth_error (g_threads s) t = Some (b, p) ->
  exists p', nth_error (g_threads s') t = Some (b, p') /\ (done p = true -> p' = p).
Proof.
  assert (ONE : forall x s s', step cfg x s = On s' -> forall t b p, nth_error (g_threads s) t = Some (b, p) -> exists p', nth_error (g_threads s') t = Some (b, p') /\ (done p = true -> p' = p)).
  { clear. intros x s s' E t b p HT. destruct x; simpl in E.
    - destruct (_ && _); [discriminate|]. injection E as <-. exists p. simpl. rewrite nth_error_app1; [auto|]. apply nth_error_Some. congruence.
    - assert (G : exists b0 p0 p', nth_error (g_threads s) t0 = Some (b0, p0) /\ done p0 = false /\ g_threads s' = set_nth t0 (b0, p') (g_threads s)).
      { unfold thread_step in E. destruct (nth_error (g_threads s) t0) as [[b0 p0]|]; [|discriminate]. exists b0, p0. destruct p0.
        - destruct (b_router b0); [destruct ok|destruct (_ && _)]; injection E as <-; eexists; repeat split.
        - injection E as <-. eexists; repeat split.
        - destruct (_ && _); [injection E as <-; eexists; repeat split|]. destruct (_ =? _); [injection E as <-; eexists; repeat split|]. destruct (vec_at _ _); [|discriminate]. injection E as <-. eexists; repeat split.
        - destruct (vec_at _ _); [|discriminate]. destruct (_ && _); [discriminate|]. destruct (reserve _ _ _ _ _). injection E as <-. simpl. rewrite put_threads. eexists; repeat split.
        - destruct (vec_at _ _); [|discriminate]. destruct ok; injection E as <-; simpl; rewrite ?put_threads; eexists; repeat split.
        - destruct (_ && _); [discriminate|]. destruct (reserve _ _ _ _ _). injection E as <-. unfold put_at. rewrite N.eqb_refl. eexists; repeat split.
        - destruct (set_at _ _); [|discriminate]. destruct ok; injection E as <-; simpl; rewrite ?put_threads; eexists; repeat split.
        - discriminate. }
      destruct G as (b0 & p0 & p' & G1 & G2 & G3). rewrite G3. destruct (Nat.eq_dec t0 t) as [->|NE].
      + rewrite G1 in HT. injection HT as <- <-. exists p'. split; [eapply set_nth_same; eauto|congruence].
      + rewrite set_nth_other by assumption. exists p. auto.
    - destruct (acks_busy s); [discriminate|]. unfold ack_egress in E. destruct (vec_at s i); [|discriminate]. injection E as <-. simpl. rewrite put_threads. exists p. auto.
    - destruct (acks_busy s); [discriminate|]. unfold ack_storage in E. destruct (set_at s i); [|discriminate]. injection E as <-. simpl. rewrite put_threads. exists p. auto.
    - destruct (acks_busy s); [discriminate|]. unfold link_event in E. destruct (vec_at s i); injection E as <-; rewrite ?put_threads; exists p; auto.
    - destruct (_ || _); [discriminate|]. injection E as <-. unfold telemetry. destruct (_ || _); [exists p; auto|]. destruct (telem_loop _ _ _ _ _ _) as [[[sets eids] nodes] fine]. exists p. auto.
    - injection E as <-. exists p. auto. }
  induction 1 as [s|x l s s1 s2 E R IH]; intros t b p HT; [exists p; auto|]. destruct (ONE _ _ _ E _ _ _ HT) as (p1 & H1 & D1). destruct (IH _ _ _ H1) as (p2 & H2 & D2).
  exists p2. split; [exact H2|]. intros D. pose proof (D1 D) as X. subst p1. auto.
Qed.
