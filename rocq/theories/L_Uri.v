(** Lemmas about decimal numerals and M_Uri. *)
From Coq Require Import NArith ZArith List Bool Lia ZifyBool ZifyN.
From Verif Require Import Base M_Uri S_Uri.
Import ListNotations.
Open Scope N_scope.

Lemma fold_num s : forall acc, fold_left (fun acc c => 10 * acc + (c - 48)) s acc
  = acc * 10 ^ N.of_nat (length s) + numeral_value s.
Proof.
  unfold numeral_value. induction s as [|c s IH]; intros acc; cbn [fold_left length].
  - change (N.of_nat 0) with 0. rewrite N.pow_0_r. lia.
  - rewrite IH. rewrite (IH (10 * 0 + (c - 48))). rewrite Nat2N.inj_succ, N.pow_succ_r'. lia.
Qed.
Lemma num_app a b : numeral_value (a ++ b) = numeral_value a * 10 ^ N.of_nat (length b) + numeral_value b.
Proof. unfold numeral_value at 1. rewrite fold_left_app, fold_num. reflexivity. Qed.
Lemma num_cons c s : numeral_value (c :: s) = (c - 48) * 10 ^ N.of_nat (length s) + numeral_value s.
Proof. change (c :: s) with ([c] ++ s). rewrite num_app. reflexivity. Qed.
Lemma num_lt s : Forall digit s -> numeral_value s < 10 ^ N.of_nat (length s).
Proof.
  induction 1 as [|c s D _ IH]; [reflexivity|]. rewrite num_cons. cbn [length].
  rewrite Nat2N.inj_succ, N.pow_succ_r'. unfold digit in D. nia.
Qed.

Lemma dec_loop_ok fuel : forall v, v < 10 ^ N.of_nat fuel -> (0 < fuel)%nat -> decimal v (dec_loop fuel v).
Proof.
  induction fuel as [|f IH]; intros v V F; [lia|]. cbn [dec_loop].
  destruct (v <? 10) eqn:E.
  - repeat split; [discriminate| | |now left]. { constructor; [unfold digit; lia|constructor]. }
    unfold numeral_value. cbn [fold_left]. lia.
  - destruct f as [|f]. { change (N.of_nat 1) with 1 in V. rewrite N.pow_1_r in V. lia. }
    assert (Q : v / 10 < 10 ^ N.of_nat (S f)).
    { apply N.div_lt_upper_bound; [lia|]. rewrite <- N.pow_succ_r'. now rewrite <- Nat2N.inj_succ. }
    destruct (IH _ Q ltac:(lia)) as [(NE & D & NV) H].
    set (d := dec_loop (S f) (v / 10)) in *.
    pose proof (N.mod_lt v 10 ltac:(lia)) as M. pose proof (N.div_mod v 10 ltac:(lia)) as DM.
    assert (Q1 : 1 <= v / 10) by (apply N.div_le_lower_bound; lia).
    repeat split.
    + intros X. apply app_eq_nil in X. destruct X; discriminate.
    + apply Forall_app. split; [exact D|]. constructor; [unfold digit; lia|constructor].
    + rewrite num_app, NV. change (N.of_nat (length [48 + v mod 10])) with 1. rewrite N.pow_1_r.
      unfold numeral_value. cbn [fold_left]. lia.
    + right. destruct d as [|c d]; [now elim NE|]. cbn [app hd]. destruct H as [L|H]; [|exact H].
      destruct d; [|discriminate]. unfold numeral_value in NV. cbn [fold_left] in NV. cbn [hd]. lia.
Qed.
Lemma W64_lt_ten20 : W64 < 10 ^ 20. Proof. reflexivity. Qed.
Lemma dec_ok v : v < W64 -> decimal v (dec v).
Proof.
  intros V. apply dec_loop_ok; [|lia]. change (N.of_nat 20) with 20. pose proof W64_lt_ten20. lia.
Qed.

(** The length of the decimal notation is fixed by the powers of ten around the value. *)
Lemma decimal_len v s k : decimal v s -> v < 10 ^ k -> (k = 1 \/ 10 ^ (k - 1) <= v) -> 1 <= k ->
  N.of_nat (length s) = k.
Proof.
  intros ((NE & D & NV) & H) U L K. pose proof (num_lt s D) as B.
  destruct s as [|c s]; [now elim NE|]. set (n := N.of_nat (length (c :: s))) in *.
  assert (n1 : 1 <= n) by (unfold n; cbn [length]; lia).
  assert (LB : n = 1 \/ 10 ^ (n - 1) <= v).
  { destruct H as [H|H]; [left; unfold n; rewrite H; reflexivity|].
    right. cbn [hd] in H. rewrite <- NV, num_cons. unfold n. cbn [length].
    replace (N.of_nat (S (length s)) - 1) with (N.of_nat (length s)) by lia.
    inversion D as [|? ? Dc _]; subst. unfold digit in Dc. nia. }
  rewrite NV in B.
  destruct (N.lt_trichotomy n k) as [X|[X|X]]; [|exact X|]; exfalso.
  - destruct L as [L|L]; [lia|]. assert (10 ^ n <= 10 ^ (k - 1)) by (apply N.pow_le_mono_r; lia). lia.
  - destruct LB as [LB|LB]; [lia|]. assert (10 ^ k <= 10 ^ (n - 1)) by (apply N.pow_le_mono_r; lia). lia.
Qed.

Lemma ten_tab k t : nth_error ten_to_the k = Some t -> t = 10 ^ N.of_nat k.
Proof. intros H. do 20 (destruct k as [|k]; [injection H as <-; reflexivity|]). destruct k; discriminate. Qed.

(** What is needed of each row of the table: for every bit index the guess [low] is within the power table, at most
    the length of the smallest number with that bit and the largest has at most one digit more. *)
Lemma tab_ok : forallb (fun i : nat =>
  match nth_error min_len_of_msb i with
  | Some low => (1 <=? low) && (low <=? 19) && ((low =? 1) || (10 ^ (low - 1) <=? 2 ^ N.of_nat i)) && (2 ^ N.of_nat (S i) <=? 10 ^ (low + 1))
  | None => false
  end) (seq 0 64) = true.
Proof. vm_compute. reflexivity. Qed.

Lemma uint_len_ok v s : v < W64 -> decimal v s -> uint_len v = Some (N.of_nat (length s)).
Proof.
  intros V D. unfold uint_len. set (w := v + N.b2n (v =? 0)).
  assert (W : 0 < w /\ w < W64 /\ (v = 0 /\ w = 1 \/ w = v)).
  { unfold w. destruct (v =? 0) eqn:E; cbn [N.b2n]; unfold W64 in *; lia. }
  destruct W as (W0 & W1 & W2). pose proof (N.log2_spec w W0) as [L1 L2].
  assert (L3 : N.log2 w < 64). { apply N.log2_lt_pow2; [lia|]. rewrite <- W64_pow. exact W1. }
  pose proof (proj1 (forallb_forall _ _) tab_ok (N.to_nat (N.log2 w))) as T. cbv beta in T.
  specialize (T ltac:(apply in_seq; lia)).
  destruct (nth_error min_len_of_msb (N.to_nat (N.log2 w))) as [low|]; [|discriminate].
  apply andb_prop in T. destruct T as [T T4]. apply andb_prop in T. destruct T as [T T3].
  apply andb_prop in T. destruct T as [T1 T2].
  apply N.leb_le in T1, T2, T4. apply orb_prop in T3. rewrite N.eqb_eq, N.leb_le in T3.
  rewrite Nat2N.inj_succ, N2Nat.id in T4. rewrite N2Nat.id in T3.
  destruct (nth_error ten_to_the (N.to_nat low)) as [t|] eqn:ET.
  2: { apply nth_error_None in ET. cbn [length ten_to_the] in ET. lia. }
  apply ten_tab in ET. rewrite N2Nat.id in ET. subst t. f_equal.
  assert (V2 : v < 10 ^ (low + 1)). { destruct W2 as [[-> _]|E]; [apply N.neq_0_lt_0, N.pow_nonzero; lia|lia]. }
  destruct (10 ^ low <=? v) eqn:E; cbn [N.b2n]; symmetry.
  - apply (decimal_len v); try assumption; [|lia]. right. replace (low + 1 - 1) with low by lia. lia.
  - replace (low + 0) with low by lia. apply (decimal_len v); try assumption; [lia|].
    destruct T3 as [T3|T3]; [now left|]. destruct W2 as [[-> W2]|W2]; [|right; lia].
    left. rewrite W2 in *. change (N.log2 1) with 0 in *. rewrite N.pow_0_r in T3.
    destruct (N.eq_dec low 1) as [X|X]; [exact X|]. exfalso.
    assert (10 ^ 1 <= 10 ^ (low - 1)) by (apply N.pow_le_mono_r; lia). rewrite N.pow_1_r in *. lia.
Qed.

(** * Parsing numbers *)
Lemma lex_digits_iff s : forall acc v, acc < W64 ->
  (lex_digits acc s = Some v <->
   Forall digit s /\ v = acc * 10 ^ N.of_nat (length s) + numeral_value s /\ v < W64).
Proof.
  induction s as [|c s IH]; intros acc v A; cbn [lex_digits].
  - change (N.of_nat (length (@nil N))) with 0. rewrite N.pow_0_r. unfold numeral_value. cbn [fold_left].
    split; [intros [= <-]; repeat split; [constructor|lia|lia]|intros (_ & -> & _); f_equal; lia].
  - rewrite num_cons. cbn [length]. rewrite Nat2N.inj_succ, N.pow_succ_r'.
    destruct ((48 <=? c) && (c <=? 57)) eqn:D.
    + assert (Dc : digit c) by (unfold digit; lia).
      destruct (10 * acc + (c - 48) <? W64) eqn:O.
      * rewrite IH by lia. split.
        -- intros (F & -> & Q). repeat split; [constructor; assumption|lia|exact Q].
        -- intros (F & -> & Q). inversion F; subst. repeat split; [assumption|lia|exact Q].
      * split; [discriminate|]. intros (_ & -> & Q). exfalso.
        assert (1 <= 10 ^ N.of_nat (length s)).
        { apply N.lt_pred_le. change (N.pred 1) with 0. apply N.neq_0_lt_0, N.pow_nonzero. lia. }
        nia.
    + split; [discriminate|]. intros (F & _). inversion F; subst. unfold digit in *. lia.
Qed.
Lemma lex_unsigned_iff s v : lex_unsigned s = Some v <-> numeral v s /\ v < W64.
Proof.
  unfold lex_unsigned, numeral. destruct s as [|c s].
  - split; [discriminate|]. intros ((H & _) & _). now elim H.
  - rewrite lex_digits_iff by reflexivity. rewrite N.mul_0_l, N.add_0_l. split.
    + intros (F & -> & Q). repeat split; auto. discriminate.
    + intros ((_ & F & E) & Q). auto.
Qed.
Lemma neg64 v w : v < W64 -> w < W64 -> (w = sub64 0 v <-> (w + v) mod W64 = 0).
Proof.
  intros V Wl. unfold sub64. rewrite N.add_0_l. split.
  - intros ->. rewrite N.add_mod_idemp_l by (unfold W64; lia). replace (W64 - v + v) with W64 by lia.
    apply N.mod_same. unfold W64; lia.
  - intros H. apply N.mod_divide in H; [|unfold W64; lia]. destruct H as [k H].
    assert (k = 0 \/ k = 1) as [-> | ->] by nia.
    + assert (w = 0 /\ v = 0) as [-> ->] by lia. rewrite N.sub_0_r, N.mod_same; [reflexivity|unfold W64; lia].
    + assert (0 < v) by (unfold W64 in *; lia). rewrite N.mod_small; lia.
Qed.
Lemma digit_not_sign v s : numeral v s -> hd 0 s <> 45 /\ hd 0 s <> 43.
Proof. intros (NE & D & _). destruct D; [now elim NE|]. unfold digit in *. cbn [hd]. lia. Qed.
Lemma lex_u64_other s : hd 0 s <> 45 -> hd 0 s <> 43 -> lex_u64 s = lex_unsigned s.
Proof.
  destruct s as [|c s]; [reflexivity|]. cbn [hd]. intros H1 H2. unfold lex_u64.
  destruct c as [|p]; [reflexivity|].
  do 6 (destruct p as [p|p|]; try reflexivity); exfalso; lia.
Qed.
Lemma lex_u64_iff s v : lex_u64 s = Some v <-> number_text v s.
Proof.
  split.
  - intros H. destruct s as [|c s]; [discriminate|].
    destruct (N.eq_dec c 45) as [->|N1]; [|destruct (N.eq_dec c 43) as [->|N2]].
    + cbn [lex_u64] in H. destruct (lex_unsigned s) as [u|] eqn:E; [|discriminate].
      apply lex_unsigned_iff in E. destruct E as [E Q]. injection H as <-.
      assert (sub64 0 u < W64) by (unfold sub64; apply N.mod_lt; unfold W64; lia).
      apply (nt_minus u); auto. apply neg64; auto.
    + cbn [lex_u64] in H. apply lex_unsigned_iff in H. destruct H. now apply nt_plus.
    + rewrite lex_u64_other in H by assumption. apply lex_unsigned_iff in H. destruct H. now apply nt_plain.
  - intros H. destruct H as [v s A B|v s A B|v w s A B C D].
    + destruct (digit_not_sign v s A) as [Q1 Q2]. rewrite lex_u64_other by assumption. apply lex_unsigned_iff. auto.
    + cbn [lex_u64]. apply lex_unsigned_iff. auto.
    + cbn [lex_u64]. rewrite (proj2 (lex_unsigned_iff s v) (conj A B)). f_equal. symmetry. now apply neg64.
Qed.
Lemma number_text_chars v s : number_text v s -> s <> [] /\ Forall (fun c => c <> 46 /\ c <> 0 /\ c <> 42) s.
Proof.
  assert (N : forall u t, numeral u t -> t <> [] /\ Forall (fun c => c <> 46 /\ c <> 0 /\ c <> 42) t).
  { intros u t (NE & D & _). split; [exact NE|]. eapply Forall_impl; [|exact D]. unfold digit. intros; lia. }
  intros H. destruct H as [v s A B|v s A B|v w s A B C D].
  1: now apply (N v).
  all: split; [discriminate|]; constructor; [lia|]; now apply (N v).
Qed.
Lemma number_text_fun s v w : number_text v s -> number_text w s -> v = w.
Proof. rewrite <- !lex_u64_iff. congruence. Qed.
Lemma decimal_number v s : v < W64 -> decimal v s -> number_text v s.
Proof. intros V (H & _). now apply nt_plain. Qed.

(** * The dot *)
Lemma find_dot_none s : forall i seen, Forall (fun c => c <> 46) s -> find_dot i seen s = Some seen.
Proof.
  induction s as [|c s IH]; intros i seen F; [reflexivity|]. inversion F; subst. cbn [find_dot].
  destruct (N.eqb_spec c 46); [contradiction|]. now apply IH.
Qed.
Lemma find_dot_app a b : forall i, Forall (fun c => c <> 46) a -> Forall (fun c => c <> 46) b ->
  find_dot i None (a ++ 46 :: b) = Some (Some (i + length a)%nat).
Proof.
  induction a as [|c a IH]; intros i A B.
  - cbn [app find_dot length]. rewrite N.eqb_refl, find_dot_none by assumption. now rewrite Nat.add_0_r.
  - inversion A; subst. cbn [app find_dot length]. destruct (N.eqb_spec c 46); [contradiction|].
    rewrite IH by assumption. do 2 f_equal. lia.
Qed.
Lemma find_dot_inv s : forall i k, find_dot i None s = Some (Some k) ->
  exists a b, s = a ++ 46 :: b /\ k = (i + length a)%nat /\ Forall (fun c => c <> 46) a /\ Forall (fun c => c <> 46) b.
Proof.
  induction s as [|c s IH]; intros i k H; [discriminate|]. cbn [find_dot] in H. destruct (N.eqb_spec c 46) as [->|Nc].
  - exists [], s. cbn [app length]. assert (F : Forall (fun c => c <> 46) s /\ k = i).
    { clear IH. revert H. generalize (S i) as j. induction s as [|d s IH]; intros j H; cbn [find_dot] in H.
      - injection H as <-. auto.
      - destruct (N.eqb_spec d 46); [discriminate|]. destruct (IH _ H). split; [constructor; auto|auto]. }
    destruct F as [F ->]. repeat split; auto; lia.
  - apply IH in H. destruct H as (a & b & -> & -> & A & B). exists (c :: a), b. cbn [app length].
    repeat split; auto; lia.
Qed.

Lemma firstn_app_len {A} (a b : list A) : firstn (length a) (a ++ b) = a.
Proof. rewrite firstn_app, Nat.sub_diag, firstn_O, app_nil_r, firstn_all. reflexivity. Qed.
Lemma skipn_app_len {A} (a b : list A) : skipn (length a) (a ++ b) = b.
Proof. rewrite skipn_app, Nat.sub_diag, skipn_all. reflexivity. Qed.
Lemma skipn_S_app_len {A} (a b : list A) x : skipn (S (length a)) (a ++ x :: b) = b.
Proof. induction a as [|y a IH]; [reflexivity|]. exact IH. Qed.

(** The service texts: a number, or "*" when the caller asks for wildcards. *)
Lemma parse_ssp_app wild a b : Forall (fun c => c <> 46) a -> Forall (fun c => c <> 46) b ->
  parse_ssp wild (a ++ 46 :: b) =
  if negb (Nat.eqb (length a) 0) && negb (Nat.eqb (length b) 0) then
    match lex_u64 a with
    | None => None
    | Some node =>
      if wild && Nat.eqb (length b) 1 && (hd 0 b =? 42) then Some (node, AnySvc)
      else match lex_u64 b with None => None | Some sv => Some (node, Svc sv) end
    end
  else None.
Proof.
  intros A B. unfold parse_ssp. rewrite find_dot_app by assumption. cbv zeta.
  change (0 + length a)%nat with (length a). now rewrite firstn_app_len, skipn_S_app_len.
Qed.

Lemma cstring_app s r : Forall (fun c => c <> 0) s -> cstring (s ++ 0 :: r) = Some s.
Proof.
  induction 1 as [|c s H _ IH]; [reflexivity|]. cbn [app cstring]. destruct (N.eqb_spec c 0); [contradiction|].
  now rewrite IH.
Qed.
Lemma cstring_inv d : forall s, cstring d = Some s -> Forall (fun c => c <> 0) s /\ exists r, d = s ++ 0 :: r.
Proof.
  induction d as [|c d IH]; intros s H; [discriminate|]. cbn [cstring] in H. destruct (N.eqb_spec c 0) as [->|Nc].
  - injection H as <-. split; [constructor|]. now exists d.
  - destruct (cstring d) as [t|]; [|discriminate]. injection H as <-. destruct (IH t eq_refl) as (F & r & ->).
    split; [now constructor|]. now exists r.
Qed.
Lemma ipn_prefix_iff s : ipn_prefix s = true <-> exists t, s = ipn_colon ++ t /\ (3 <= length t)%nat.
Proof.
  unfold ipn_prefix, ipn_colon. split.
  - intros H. repeat (apply andb_prop in H; destruct H as [H ?]).
    destruct s as [|c0 [|c1 [|c2 [|c3 t]]]]; cbn [length] in H; try lia. exists t. cbn [nth] in *. cbn [app].
    split; [repeat f_equal; lia|lia].
  - intros (t & -> & L). cbn [app length nth]. rewrite !N.eqb_refl, !andb_true_r. lia.
Qed.
