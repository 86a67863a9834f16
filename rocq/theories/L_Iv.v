(** Lemmas about the initialization vectors. *)
From Coq Require Import PeanoNat NArith List Bool Lia ZifyBool ZifyN.
From Verif Require Import Base M_Iv S_Iv.
Import ListNotations.
Open Scope N_scope.

Lemma to_le_len n : forall v, length (to_le n v) = n.
Proof. induction n; intros; cbn; auto. Qed.
Lemma to_le_bytes n : forall v, Forall (fun b => b < 256) (to_le n v).
Proof. induction n; intros; cbn; constructor; auto. apply N.mod_lt; lia. Qed.
Lemma of_to_le n : forall v, of_le (to_le n v) = v mod 2 ^ (8 * N.of_nat n).
Proof.
  induction n as [|n IH]; intros v; cbn [to_le of_le].
  - change (2 ^ (8 * N.of_nat 0)) with 1. now rewrite N.mod_1_r.
  - rewrite IH. replace (8 * N.of_nat (S n)) with (8 + 8 * N.of_nat n) by lia. rewrite N.pow_add_r. change (2 ^ 8) with 256.
    rewrite N.mod_mul_r by (try apply N.pow_nonzero; lia). lia.
Qed.
Lemma of_le_inj a : forall b, Forall (fun x => x < 256) a -> Forall (fun x => x < 256) b -> length a = length b -> of_le a = of_le b -> a = b.
Proof.
  induction a as [|x a IH]; intros [|y b] A B L E; try discriminate; auto. inversion A; inversion B; subst. cbn [of_le] in E. cbn in L.
  assert (x = y /\ of_le a = of_le b) as (-> & E2) by lia. f_equal. apply IH; auto.
Qed.

Lemma nth_upd_same {A} l : forall n (x y : A), nth_error l n = Some y -> nth_error (upd n x l) n = Some x.
Proof. induction l as [|z l IH]; intros [|n] x y E; cbn in *; try discriminate; auto. eapply IH; eauto. Qed.
Lemma nth_upd_other {A} l : forall n m (x : A), n <> m -> nth_error (upd n x l) m = nth_error l m.
Proof. induction l as [|z l IH]; intros [|n] [|m] x E; cbn in *; auto; try congruence. Qed.
Lemma upd_len {A} l : forall n (x : A), length (upd n x l) = length l.
Proof. induction l as [|z l IH]; intros [|n] x; cbn; auto. Qed.

(** The state of a vector after k uses. *)
Definition vec (m t k : N) : vector := mkV ((t + k / m) mod W64) (k mod m).
Lemma vec_next m t k : 1 < m -> increment m (vec m t k) = vec m t (k + 1).
Proof.
  intros M. unfold increment, vec. cbn [time_part counter_part]. unfold add64.
  assert (DM : k = m * (k / m) + k mod m) by (apply N.div_mod; lia). assert (LT : k mod m < m) by (apply N.mod_lt; lia).
  destruct (N.eq_dec (k mod m + 1) m) as [E|E].
  - assert ((k + 1) / m = k / m + 1) as Q by (symmetry; apply N.div_unique with 0; lia). assert ((k + 1) mod m = 0) as Q2 by (symmetry; apply N.mod_unique with (k / m + 1); lia).
    assert ((k mod m + 1) mod m = 0) as Q3 by (rewrite E; apply N.mod_same; lia).
    rewrite Q, Q2, Q3. rewrite N.eqb_refl. f_equal. rewrite N.add_mod_idemp_l by (unfold W64; lia). f_equal. lia.
  - assert ((k + 1) / m = k / m) as Q by (symmetry; apply N.div_unique with (k mod m + 1); lia). assert ((k + 1) mod m = k mod m + 1) as Q2 by (symmetry; apply N.mod_unique with (k / m); lia).
    rewrite Q, Q2. rewrite (N.mod_small (k mod m + 1)) by lia. replace (k mod m + 1 =? 0) with false by lia. f_equal. rewrite N.add_0_r. apply N.mod_mod. unfold W64; lia.
Qed.

Lemma created_app a b : created (a ++ b) = created a ++ created b.
Proof. apply flat_map_app. Qed.
Lemma uses_app n i a b : uses n i (a ++ b) = uses n i a + uses n i b.
Proof. unfold uses. rewrite filter_app, app_length. lia. Qed.
Lemma uses_one n i j iv cs : uses n i [Encrypted j iv cs] = if Nat.eqb i j && Nat.eqb (length iv) n then 1 else 0.
Proof. unfold uses. cbn. destruct (_ && _); reflexivity. Qed.

Definition inv (h : list event) (s : process) : Prop :=
  length (contexts s) = length (created h) /\
  (forall t, In t (created h) -> t <= last_time s) /\
  Forall (fun t => t < W64) (created h) /\ last_time s < W64 /\
  apart MIN_DIFF (created h) /\
  (forall i c, nth_error (contexts s) i = Some c -> exists t, nth_error (created h) i = Some t /\
     v12 c = vec W32 t (uses 12 i h) /\ v16 c = vec W64 t (uses 16 i h)) /\
  (forall i, (length (contexts s) <= i)%nat -> uses 12 i h = 0 /\ uses 16 i h = 0).
Lemma inv_start : inv [] started.
Proof.
  repeat split; cbn; auto; try lia; try (intros [|i] ? E; discriminate).
Qed.

Lemma create_some last rs t : last < W64 -> Forall (fun t => t < W64) rs -> create_loop last rs = Some t -> In t rs /\ last + MIN_DIFF <= t /\ t < W64.
Proof.
  intros L. induction rs as [|r rs IH]; cbn; intros F E; [discriminate|]. inversion F as [|? ? F1 F2]; subst.
  destruct (last <? r) eqn:C; [|destruct (IH F2 E); auto].
  destruct (MIN_DIFF <=? sub64 r last) eqn:D; [|destruct (IH F2 E); auto]. injection E as ->. rewrite sub64_small in D by lia. lia.
Qed.
Lemma create_none last rs : last < W64 -> Forall (fun t => t < W64) rs -> create_loop last rs = None -> Forall (fun t => t < last + MIN_DIFF) rs.
Proof.
  intros L. induction rs as [|r rs IH]; cbn; intros F E; [constructor|]. inversion F as [|? ? F1 F2]; subst.
  destruct (last <? r) eqn:C.
  - destruct (MIN_DIFF <=? sub64 r last) eqn:D; [discriminate|]. rewrite sub64_small in D by lia. constructor; [lia|auto].
  - constructor; [unfold MIN_DIFF; lia|auto].
Qed.

Lemma nth_app_one {A} (l : list A) x i y : nth_error (l ++ [x]) i = Some y -> (i < length l /\ nth_error l i = Some y)%nat \/ (i = length l /\ y = x).
Proof.
  intros E. destruct (Nat.lt_ge_cases i (length l)) as [C|C]; [left; rewrite nth_error_app1 in E by lia; auto|right].
  rewrite nth_error_app2 in E by lia. destruct (i - length l)%nat as [|k] eqn:D; cbn in E; [injection E as ->; split; [lia|auto]|destruct k; discriminate].
Qed.

Definition result_ok (h : list event) (o : op) (e : event) : Prop :=
  match o, e with
  | Ask rs, Created t => In t rs /\ (forall u, In u (created h) -> u + MIN_DIFF <= t)
  | Ask rs, Waiting => True
  | Secure i use12 key targets, Encrypted j iv calls => j = i /\ length iv = (if use12 then 12 else 16)%nat /\ calls = map (fun x => (key, iv, x)) targets /\
      exists t, nth_error (created h) i = Some t /\ is_nth_vector t (uses (length iv) i h) iv
  | _, _ => False
  end.

Lemma serial_nth m w t k : (m = 2 ^ (8 * N.of_nat w)) -> w <> O -> is_nth_vector t k (serialize w (vec m t k)).
Proof.
  intros M W. unfold is_nth_vector, serialize, vec. cbn [time_part counter_part].
  assert (L : length (to_le 8 ((t + k / m) mod W64) ++ to_le w (k mod m)) = (8 + w)%nat) by (rewrite app_length, !to_le_len; lia).
  rewrite L. replace (8 + w - 8)%nat with w by lia. rewrite <- M. assert (M0 : m <> 0) by (rewrite M; apply N.pow_nonzero; lia). repeat split.
  - apply Forall_app; split; apply to_le_bytes.
  - rewrite firstn_app, to_le_len. replace (8 - 8)%nat with O by lia. rewrite firstn_O, app_nil_r, firstn_all2 by (rewrite to_le_len; lia).
    rewrite of_to_le. change (2 ^ (8 * N.of_nat 8)) with W64. change (2 ^ 64) with W64. apply N.mod_mod. unfold W64; lia.
  - rewrite skipn_app, to_le_len. replace (8 - 8)%nat with O by lia. rewrite skipn_all2 by (rewrite to_le_len; lia). rewrite skipn_O. cbn [app].
    rewrite of_to_le, <- M. apply N.mod_mod. exact M0.
Qed.

Lemma step_ok h s o s1 e : inv h s -> op_ok o -> step s o = Some (s1, e) -> inv (h ++ [e]) s1 /\ result_ok h o e.
Proof.
  intros (IL & IM & IB & IT & IA & IC & IU) OK E. destruct o as [rs|i use12 key targets]; cbn [step op_ok] in *.
  - change (2 ^ 64) with W64 in OK. destruct (create_loop (last_time s) rs) as [t|] eqn:C.
    + injection E as <- <-. destruct (create_some _ _ _ IT OK C) as (A1 & A2 & A3).
      assert (UN : forall n i, uses n i (h ++ [Created t]) = uses n i h) by (intros; rewrite uses_app; change (uses n i [Created t]) with 0; lia).
      split; [|cbn; split; auto; intros u U; specialize (IM u U); lia].
      unfold inv. cbn [contexts last_time]. rewrite created_app. change (created [Created t]) with [t]. split; [rewrite !app_length, IL; auto|].
      split; [intros u U; apply in_app_or in U; destruct U as [U|[U|[]]]; [specialize (IM u U); lia|lia]|].
      split; [apply Forall_app; split; auto|]. split; [auto|]. split; [|split].
      * intros i j a b LT EA EB. destruct (nth_app_one _ _ _ _ EB) as [(B1 & B2)|(B1 & ->)].
        -- rewrite nth_error_app1 in EA by lia. exact (IA i j a b LT EA B2).
        -- rewrite nth_error_app1 in EA by lia. apply nth_error_In in EA. specialize (IM a EA). lia.
      * intros i c EC. rewrite !UN. destruct (nth_app_one _ _ _ _ EC) as [(B1 & B2)|(B1 & ->)].
        -- destruct (IC i c B2) as (u & U1 & U2). exists u. split; [rewrite nth_error_app1 by lia; auto|auto].
        -- exists t. subst i. split; [rewrite nth_error_app2, IL, Nat.sub_diag by lia; reflexivity|]. destruct (IU (length (contexts s)) (le_n _)) as (Z1 & Z2). rewrite Z1, Z2.
           unfold vec. rewrite !N.div_0_l, !N.mod_0_l, !N.add_0_r, (N.mod_small t) by (unfold W64, W32 in *; lia). split; reflexivity.
      * intros i. rewrite app_length. cbn [length]. rewrite !UN. intros. apply IU. lia.
    + injection E as <- <-. assert (UN : forall n i, uses n i (h ++ [Waiting]) = uses n i h) by (intros; rewrite uses_app; change (uses n i [Waiting]) with 0; lia).
      split; [|exact I]. unfold inv. rewrite created_app. change (created [Waiting]) with (@nil N). rewrite app_nil_r. do 5 (split; [auto|]). split; [|intros; rewrite !UN; auto].
      intros i c EC. rewrite !UN. auto.
  - destruct (nth_error (contexts s) i) as [c|] eqn:N; [|discriminate]. destruct (IC i c N) as (t & T & V1 & V2).
    destruct (serialize_and_increment use12 c) as (iv, c1) eqn:S. injection E as <- <-.
    assert (LIV : length iv = (if use12 then 12 else 16)%nat) by (unfold serialize_and_increment in S; destruct use12; injection S as <- _; unfold serialize; rewrite app_length, !to_le_len; reflexivity).
    assert (NV : is_nth_vector t (uses (length iv) i h) iv).
    { rewrite LIV. unfold serialize_and_increment in S. destruct use12; injection S as <- _; [rewrite V1|rewrite V2]; apply serial_nth; auto; reflexivity. }
    assert (CC : v12 c1 = (if use12 then vec W32 t (uses 12 i h + 1) else v12 c) /\ v16 c1 = (if use12 then v16 c else vec W64 t (uses 16 i h + 1))).
    { unfold serialize_and_increment in S. destruct use12; injection S as _ <-; cbn; rewrite ?V1, ?V2; split; auto; apply vec_next; reflexivity. }
    split; [|cbn; split; [auto|]; split; [auto|]; split; [reflexivity|]; exists t; auto].
    unfold inv. cbn [contexts last_time]. rewrite created_app, app_nil_r, upd_len. split; [auto|]. split; [auto|]. split; [auto|]. split; [auto|]. split; [auto|]. split.
    + intros j d ED. rewrite !uses_app, !uses_one, LIV. destruct (Nat.eq_dec i j) as [<-|NE].
      * rewrite (nth_upd_same _ _ _ _ N) in ED. injection ED as <-. exists t. split; [auto|]. rewrite Nat.eqb_refl. destruct CC as (-> & ->). rewrite V1, V2. destruct use12; cbn; rewrite ?N.add_0_r; auto.
      * rewrite nth_upd_other in ED by auto. destruct (IC j d ED) as (u & U). exists u. replace (Nat.eqb j i) with false by (symmetry; apply Nat.eqb_neq; auto). cbn. rewrite !N.add_0_r. exact U.
    + intros j LJ. rewrite !uses_app, !uses_one. assert ((i < length (contexts s))%nat) by (apply nth_error_Some; congruence).
      replace (Nat.eqb j i) with false by (symmetry; apply Nat.eqb_neq; lia). cbn. rewrite !N.add_0_r. auto.
Qed.

Lemma run_ok ops : forall h s evs, inv h s -> Forall op_ok ops -> run s ops = Some evs ->
  (exists s1, inv (h ++ evs) s1) /\
  forall b e a, evs = b ++ e :: a -> exists o, nth_error ops (length b) = Some o /\ result_ok (h ++ b) o e.
Proof.
  induction ops as [|o ops IH]; intros h s evs I F R; cbn in R.
  - injection R as <-. split; [exists s; now rewrite app_nil_r|]. intros [|? ?] e1 a1 E; discriminate.
  - inversion F as [|? ? F1 F2]; subst. destruct (step s o) as [(s1, e0)|] eqn:S; [|discriminate]. destruct (run s1 ops) as [evs1|] eqn:R1; [|discriminate]. injection R as <-.
    destruct (step_ok _ _ _ _ _ I F1 S) as (I1 & RO). destruct (IH _ _ _ I1 F2 R1) as (A & B). rewrite <- app_assoc in A. split; [exact A|].
    intros [|x b] e1 a1 E; cbn in E; injection E as <- E.
    + exists o. rewrite app_nil_r. cbn. auto.
    + destruct (B b e1 a1 E) as (o2 & O1 & O2). exists o2. rewrite <- app_assoc in O2. auto.
Qed.

(** Distinctness. *)
Lemma vector_pos t k iv : (length iv = 12 \/ length iv = 16)%nat -> is_nth_vector t k iv -> forall t2 k2, is_nth_vector t2 k2 iv ->
  let m := 2 ^ (8 * N.of_nat (length iv - 8)) in t * m + k < 2 ^ 64 * m -> t2 * m + k2 < 2 ^ 64 * m -> t * m + k = t2 * m + k2.
Proof.
  intros L (_ & A1 & A2) t2 k2 (_ & B1 & B2) m. subst m. set (m := 2 ^ (8 * N.of_nat (length iv - 8))) in *. assert (M : m <> 0) by (apply N.pow_nonzero; lia). clearbody m. intros C1 C2.
  assert (D1 : k = m * (k / m) + k mod m) by (apply N.div_mod; auto). assert (D2 : k2 = m * (k2 / m) + k2 mod m) by (apply N.div_mod; auto).
  rewrite A2 in B2. rewrite A1 in B1. assert (Q1 : t + k / m < 2 ^ 64) by (apply N.mul_lt_mono_pos_r with m; [lia|]; nia). assert (Q2 : t2 + k2 / m < 2 ^ 64) by (apply N.mul_lt_mono_pos_r with m; [lia|]; nia).
  rewrite (N.mod_small (t + k / m)), (N.mod_small (t2 + k2 / m)) in B1 by assumption. rewrite D1, D2, B2. clear - B1. nia.
Qed.
Lemma uses_lt n i h e a : is_use n i e = true -> uses n i h < uses n i (h ++ e :: a).
Proof. intros U. rewrite uses_app. unfold uses at 3. cbn. rewrite U. cbn [length]. lia. Qed.
Lemma vectors_app a b : vectors (a ++ b) = vectors a ++ vectors b.
Proof. apply flat_map_app. Qed.
Lemma in_vectors iv evs : In iv (vectors evs) -> exists b i cs a, evs = b ++ Encrypted i iv cs :: a.
Proof.
  intros H. apply in_flat_map in H. destruct H as (e & E1 & E2). destruct e; try destruct E2. subst. destruct (in_split _ _ E1) as (b & a & ->). eauto 6. destruct H.
Qed.

Lemma split_nodup evs : (forall b i iv cs m j iv2 cs2 a, evs = b ++ Encrypted i iv cs :: m ++ Encrypted j iv2 cs2 :: a -> iv <> iv2) -> NoDup (vectors evs).
Proof.
  induction evs as [|e evs IH]; intros H; [constructor|]. assert (NoDup (vectors evs)) by (apply IH; intros b i iv cs m j iv2 cs2 a ->; apply (H (e :: b) i iv cs m j iv2 cs2 a); reflexivity).
  destruct e as [t| |i iv cs]; auto. change (vectors (Encrypted i iv cs :: evs)) with (iv :: vectors evs). constructor; auto. intros Q. destruct (in_vectors _ _ Q) as (b & j & cs2 & a & ->).
  exact (H [] i iv cs b j iv cs2 a eq_refl eq_refl).
Qed.
