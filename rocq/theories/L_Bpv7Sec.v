(** Lemmas for C48: security blocks. *)
From Coq Require Import NArith ZArith List Bool Lia ZifyBool ZifyN.
From Verif Require Import Base M_SegmentAlloc M_Intrin M_Sdnv M_Cbor M_Bpv6Block M_Bpv7Crc M_Bpv7Block M_Bpv7Sec S_Sdnv S_Cbor S_Bpv7Crc S_Bpv7 S_Bpv7Sec.
From Verif Require Import L_Intrin L_Cbor P_Cbor L_Bpv7Crc P_Bpv7Crc L_Bpv6Read L_Bpv6Write L_Bpv7Read L_Bpv7Write L_Bpv7Canon.
Import ListNotations.
Open Scope N_scope.

(** ** Buffer sizes *)
Lemma less_val n k : n < W64 -> k < W64 -> less n k = if k <=? n then n - k else n + W64 - k.
Proof.
  intros H1 H2. unfold less. rewrite (N.mod_small k) by exact H2. destruct (N.leb_spec k n) as [L|L].
  - symmetry. apply (N.mod_unique _ _ 1); lia.
  - apply N.mod_small. lia.
Qed.
Lemma less_lt n k : less n k < W64.
Proof. apply N.mod_lt. discriminate. Qed.
Lemma less_small n k : k <= n -> n < W64 -> less n k = n - k.
Proof. intros H1 H2. rewrite less_val by lia. replace (k <=? n) with true by lia. reflexivity. Qed.
Lemma less_less n a b : n < W64 -> a + b < W64 -> less (less n a) b = less n (a + b).
Proof.
  intros H1 H2. pose proof (less_lt n a). rewrite (less_val _ b), !less_val by lia. destruct (N.leb_spec a n), (N.leb_spec (a + b) n); destruct (N.leb_spec b (n - a)); destruct (N.leb_spec b (n + W64 - a)); lia.
Qed.
Lemma less_back n k : n < W64 -> k < W64 -> less n (less n k) = k.
Proof. intros H1 H2. pose proof (less_lt n k). rewrite (less_val _ (less n k)), less_val by assumption. destruct (N.leb_spec k n); [destruct (N.leb_spec (n - k) n); lia|destruct (N.leb_spec (n + W64 - k) n); lia]. Qed.
Lemma less_zero n k : n < W64 -> k < W64 -> less n k = 0 -> n = k.
Proof. intros H1 H2. rewrite less_val by assumption. destruct (N.leb_spec k n); lia. Qed.

(** ** Readers of views *)
Definition vreads {A : Type} (f : view -> option (option (A * view))) (F : A -> list N -> Prop) : Prop :=
  (forall x p rest n, F x p -> Forall is_byte (p ++ rest) -> N.of_nat (length p) <= n -> n <= N.of_nat (length (p ++ rest)) -> n < W64 ->
     f (p ++ rest, n) = Some (Some (x, (rest, n - N.of_nat (length p))))) /\
  (forall mem n x mem' n', Forall is_byte mem -> N.of_nat (length mem) < W64 -> n < W64 -> f (mem, n) = Some (Some (x, (mem', n'))) ->
     exists p, mem = p ++ mem' /\ F x p /\ n' = less n (N.of_nat (length p))).
Lemma vreads_iff {A : Type} f (F G : A -> list N -> Prop) : (forall x p, F x p <-> G x p) -> vreads f F -> vreads f G.
Proof.
  intros E (C & S). split.
  - intros x p rest n H. apply C. now apply E.
  - intros mem n x mem' n' H1 H2 H3 H4. destruct (S _ _ _ _ _ H1 H2 H3 H4) as (p & E1 & E2 & E3). exists p. split; [exact E1|]. split; [now apply E|exact E3].
Qed.
Lemma vreads_same {A : Type} f g (F : A -> list N -> Prop) : (forall v, g v = f v) -> vreads f F -> vreads g F.
Proof.
  intros E (C & S). split.
  - intros x p rest n H. rewrite E. now apply C.
  - intros mem n x mem' n' H1 H2 H3. rewrite E. now apply S.
Qed.
Lemma vread_run {A : Type} most f (F : A -> list N -> Prop) x p rest n : reads f F -> F x p -> Forall is_byte (p ++ rest) -> N.of_nat (length p) <= n -> n < W64 ->
  n <= N.of_nat (length (p ++ rest)) \/ (most <= length (p ++ rest))%nat ->
  vread most f (p ++ rest, n) = Some (Some (x, (rest, n - N.of_nat (length p)))).
Proof.
  intros (C & _) FX Hb L1 L2 O. unfold vread. destruct (N.leb_spec n (N.of_nat (length (p ++ rest)))) as [W|W]; cbn [orb].
  - assert (E : firstn (N.to_nat n) (p ++ rest) = p ++ firstn (N.to_nat n - length p) rest) by (rewrite firstn_app, firstn_all2 by lia; reflexivity).
    rewrite E, (C x p _ FX) by (rewrite <- E; apply Forall_forall; intros y Y; apply (proj1 (Forall_forall _ _) Hb); rewrite <- (firstn_skipn (N.to_nat n)); apply in_or_app; now left).
    cbn [bind2]. rewrite app_length. replace (length p + length (firstn (N.to_nat n - length p) rest) - length (firstn (N.to_nat n - length p) rest))%nat with (length p) by lia.
    rewrite skipn_pref, less_small by lia. reflexivity.
  - destruct O as [O|O]; [lia|]. apply Nat.leb_le in O. rewrite O, (C x p _ FX Hb). cbn [bind2]. rewrite app_length. replace (length p + length rest - length rest)%nat with (length p) by lia.
    rewrite skipn_pref, less_small by lia. reflexivity.
Qed.
Lemma vread_vreads {A : Type} most f (F : A -> list N -> Prop) : reads f F -> vreads (vread most f) F.
Proof.
  intros R. split.
  - intros x p rest n FX Hb L1 L2 L3. apply (vread_run most f F); auto.
  - destruct R as (C & S). intros mem n x mem' n' Hb L1 L2. unfold vread. destruct (_ || _); [|discriminate]. set (bs := if n <=? _ then _ else _).
    assert (EB : exists tail, mem = bs ++ tail). { unfold bs. destruct (n <=? _); [exists (skipn (N.to_nat n) mem); symmetry; apply firstn_skipn|exists []; now rewrite app_nil_r]. }
    destruct EB as (tail & EB). assert (Hs : Forall is_byte bs) by (rewrite EB in Hb; apply Forall_app in Hb; apply Hb). destruct (S bs Hs) as (r & -> & K).
    destruct r as [[y rest]|]; cbn [bind2]; [|discriminate]. intros Q. injection Q as -> <- <-. destruct (K x rest eq_refl) as (p & EP & FP).
    exists p. replace (length bs - length rest)%nat with (length p) by (rewrite EP, app_length; lia). split; [|split; [exact FP|reflexivity]]. rewrite EB, EP, <- app_assoc. rewrite skipn_pref. reflexivity.
Qed.
Lemma vreads_bind {A B : Type} f (F : A -> list N -> Prop) (g : A -> view -> option (option (B * view))) (G : A -> B -> list N -> Prop) : vreads f F -> (forall x, vreads (g x) (G x)) ->
  vreads (fun v => bind2 (f v) (fun '(x, r) => g x r)) (fun y p => exists x p1 p2, p = p1 ++ p2 /\ F x p1 /\ G x y p2).
Proof.
  intros (C & S) H. split.
  - intros y p rest n (x & p1 & p2 & -> & F1 & G1) Hb L1 L2 L3. rewrite <- app_assoc in *. rewrite app_length in L1.
    rewrite (C x p1 (p2 ++ rest) n F1) by (auto; lia). cbn [bind2]. assert (Hb2 : Forall is_byte (p2 ++ rest)) by (apply Forall_app in Hb; apply Hb).
    rewrite app_length in L2. rewrite (proj1 (H x) y p2 rest _ G1 Hb2) by lia. rewrite app_length. do 4 f_equal. lia.
  - intros mem n y mem' n' Hb L1 L2. destruct (f (mem, n)) as [[[x [m1 n1]]|]|] eqn:E; cbn [bind2]; [|discriminate|discriminate]. intros E2.
    destruct (S _ _ _ _ _ Hb L1 L2 E) as (p1 & -> & F1 & ->). rewrite app_length in L1. destruct (proj2 (H x) _ _ _ _ _ (proj2 (proj1 (Forall_app _ _ _) Hb)) ltac:(lia) (less_lt _ _) E2) as (p2 & -> & G1 & ->).
    exists (p1 ++ p2). split; [apply app_assoc|]. split; [eauto 7|]. rewrite !app_length in *. rewrite less_less by lia. f_equal. lia.
Qed.
Lemma vreads_ret {A : Type} (h : A) : vreads (fun v => Some (Some (h, v))) (fun y p => p = [] /\ y = h).
Proof.
  split.
  - intros x p rest n (-> & ->) _ _ _ _. cbn [app length]. now rewrite N.sub_0_r.
  - intros mem n x mem' n' _ _ L2 Q. injection Q as -> -> ->. exists []. split; [reflexivity|]. split; [auto|]. cbn [length]. rewrite less_small by lia. lia.
Qed.
Lemma vreads_fail {A : Type} : vreads (fun _ => Some None) (fun (_ : A) _ => False).
Proof. split; [intros x p rest n []|]. intros mem n x mem' n' _ _ _ Q. discriminate Q. Qed.
Lemma vreads_guard {A : Type} f (F : A -> list N -> Prop) : (forall x p, F x p -> p <> []) -> vreads f F -> vreads (fun v => if snd v =? 0 then Some None else f v) F.
Proof.
  intros NE (C & S). split.
  - intros x p rest n FX Hb L1 L2 L3. cbn [snd]. destruct (N.eqb_spec n 0) as [->|]; [|now apply C]. exfalso. apply (NE x p FX). destruct p; [reflexivity|cbn [length] in L1; lia].
  - intros mem n x mem' n' Hb L1 L2. cbn [snd]. destruct (n =? 0); [discriminate|]. now apply S.
Qed.
Lemma vreads_byte {A : Type} (good : N -> bool) (g : N -> view -> option (option (A * view))) (G : N -> A -> list N -> Prop) : (forall h, vreads (g h) (G h)) ->
  vreads (fun v => do x <- vbyte v; let (h, v1) := (x : N * view) in if negb (good h) then Some None else g h v1) (fun y p => exists h q, p = h :: q /\ good h = true /\ G h y q).
Proof.
  intros H. split.
  - intros y p rest n (h & q & -> & GH & GY) Hb L1 L2 L3. cbn [app vbyte length] in *. rewrite GH. cbn [negb]. rewrite less_small by lia.
    rewrite (proj1 (H h) y q rest _ GY (Forall_inv_tail Hb)) by lia. do 4 f_equal. lia.
  - intros mem n y mem' n' Hb L1 L2. destruct mem as [|h r]; cbn [vbyte]; [discriminate|]. destruct (good h) eqn:GH; cbn [negb]; [|discriminate]. cbn [length] in L1. intros E.
    destruct (proj2 (H h) _ _ _ _ _ (Forall_inv_tail Hb) ltac:(lia) (less_lt _ _) E) as (q & -> & GY & ->). exists (h :: q). split; [reflexivity|]. split; [eauto|].
    cbn [length]. rewrite app_length in L1. rewrite less_less by lia. f_equal. lia.
Qed.

(** ** Values and pairs *)
Lemma bytes_reads : vreads rd_bytes byte_string.
Proof.
  unfold rd_bytes. apply (vreads_guard (fun v => match fst v with [] => None | b :: r => _ end)). { intros x p (b & r & -> & _). discriminate. }
  split.
  - intros d p rest n (b & r & -> & U) Hb L1 L2 L3. destruct (uint_head _ _ U) as (b' & r' & E & LB). injection E as <- <-. cbn [fst snd app]. rewrite <- app_assoc.
    destruct (str_byte (64 + b) ltac:(lia)) as (S1 & S2). rewrite S1. replace ((64 <=? 64 + b) && (64 + b <? 96)) with true by lia. cbn [negb]. rewrite S2 by lia. replace (64 + b - 64) with b by lia.
    cbn [app length] in L1, L2. rewrite ?app_length in L1. rewrite ?app_length in L2. cbn [app] in Hb. rewrite <- app_assoc in Hb.
    change (b :: r ++ d ++ rest) with ((b :: r) ++ d ++ rest). rewrite (proj1 (vread_vreads 9 _ _ rd_uint_reads) _ _ (d ++ rest) n U).
    + cbn [bind2]. destruct (N.ltb_spec (n - N.of_nat (length (b :: r))) (N.of_nat (length d))) as [X|_]; [cbn [length] in X; lia|].
      destruct (N.ltb_spec (N.of_nat (length (d ++ rest))) (N.of_nat (length d))) as [X|_]; [rewrite app_length in X; lia|].
      rewrite Nat2N.id, firstn_pref, skipn_pref, less_small by (cbn [length]; lia). do 4 f_equal. cbn [length]. rewrite app_length. lia.
    + cbn [app]. constructor; [unfold is_byte; lia|exact (Forall_inv_tail Hb)].
    + cbn [length]. lia.
    + rewrite !app_length. cbn [length]. lia.
    + exact L3.
  - intros mem n d mem' n' Hb L1 L2. cbn [fst snd]. destruct mem as [|b r]; [discriminate|]. destruct (str_byte b (Forall_inv Hb)) as (S1 & S2). rewrite S1. destruct ((64 <=? b) && (b <? 96)) eqn:R; cbn [negb]; [|discriminate].
    rewrite S2 by lia. assert (HB : Forall is_byte (b - 64 :: r)) by (constructor; [unfold is_byte; lia|exact (Forall_inv_tail Hb)]).
    destruct (vread 9 rd_uint (b - 64 :: r, n)) as [[[len [m1 n1]]|]|] eqn:E; cbn [bind2]; [|discriminate|discriminate].
    destruct (proj2 (vread_vreads 9 _ _ rd_uint_reads) _ _ _ _ _ HB L1 L2 E) as (p & EP & U & ->). destruct (uint_head _ _ U) as (b' & r' & -> & LB). cbn [app] in EP. injection EP as EB ->.
    destruct (N.ltb_spec (less n (N.of_nat (length (b' :: r')))) len) as [_|X1]; [discriminate|]. destruct (N.ltb_spec (N.of_nat (length m1)) len) as [_|X2]; [discriminate|].
    intros Q. injection Q as <- <- <-. exists ((64 + b' :: r') ++ firstn (N.to_nat len) m1). split; [|split].
    + cbn [app]. rewrite <- app_assoc, firstn_skipn. f_equal. lia.
    + exists b', r'. split; [reflexivity|]. rewrite firstn_length. replace (N.of_nat (Nat.min (N.to_nat len) (length m1))) with len by lia. exact U.
    + cbn [length app] in *. rewrite !app_length in *. rewrite firstn_length. rewrite less_less by lia. f_equal. lia.
Qed.
Lemma value_reads isuint : vreads (rd_value isuint) (fun y p => value_form y p /\ (isuint = true <-> exists v, y = VUint v)).
Proof.
  unfold rd_value. destruct isuint.
  - refine (vreads_iff _ _ _ _ (vreads_bind _ _ _ _ (vread_vreads 9 _ _ rd_uint_reads) (fun x => vreads_ret (VUint x)))). intros y p. split.
    + intros (x & p1 & p2 & -> & U & -> & ->). rewrite app_nil_r. split; [exact U|]. split; eauto.
    + intros (V & (I & _)). destruct (I eq_refl) as (v & ->). exists v, p, []. rewrite app_nil_r. auto.
  - refine (vreads_iff _ _ _ _ (vreads_bind _ _ _ _ bytes_reads (fun x => vreads_ret (VBytes x)))). intros y p. split.
    + intros (x & p1 & p2 & -> & U & -> & ->). rewrite app_nil_r. split; [exact U|]. split; [discriminate|]. intros (v & Q). discriminate Q.
    + intros (V & (_ & I)). destruct y as [v|d]; [discriminate I; eauto|]. exists d, p, []. rewrite app_nil_r. auto.
Qed.
Lemma byte_reads k : vreads (fun v => do x <- vbyte v; if fst x =? k then Some (Some (tt, snd x)) else Some None) (fun _ p => p = [k]).
Proof.
  refine (vreads_same _ _ _ _ (vreads_iff _ _ _ _ (vreads_byte (fun h => h =? k) (fun _ v => Some (Some (tt, v))) _ (fun _ => vreads_ret tt)))).
  - intros ([|h r] & n); cbn [vbyte fst snd]; [reflexivity|]. destruct (h =? k); reflexivity.
  - intros [] p. split; [intros (h & q & -> & E & -> & _); f_equal; lia|intros ->; exists k, []; rewrite N.eqb_refl; auto].
Qed.
Lemma end_reads c : vreads (rd_end c) (fun _ p => p = if c then [255] else []).
Proof.
  destruct c; unfold rd_end.
  - apply vreads_guard. { intros x p ->. discriminate. }
    apply byte_reads.
  - refine (vreads_iff _ _ _ _ (vreads_ret tt)). intros [] p. intuition.
Qed.

(** ** Classes of values *)
Lemma low_mod v n : n < W32 -> (v mod W32 =? n) = true <-> low_is v n.
Proof.
  intros L. split.
  - intros E. apply N.eqb_eq in E. exists (v / W32). change (2 ^ 32) with W32. pose proof (N.div_mod' v W32). lia.
  - intros (k & ->). apply N.eqb_eq. change (2 ^ 32) with W32. rewrite (N.mul_comm W32), N.mod_add by discriminate. now apply N.mod_small.
Qed.
Lemma class_known ctx isparam id y : known isparam ctx (id, y) <-> exists u, value_class ctx isparam id = Some u /\ (u = true <-> exists v, y = VUint v).
Proof.
  unfold value_class, known. cbn [fst snd]. split.
  - intros (c & i & L1 & L2 & K).
    assert (E : forall v n m, low_is v n -> n < W32 -> m < W32 -> (v mod W32 =? m) = (n =? m)).
    { intros v n m L X1 X2. apply (low_mod v n X1) in L. apply N.eqb_eq in L. now rewrite L. }
    destruct isparam; inversion K; subst c i y; rewrite !(E _ _ _ L1) by reflexivity; rewrite !(E _ _ _ L2) by reflexivity; cbn; eexists; (split; [reflexivity|]);
      (split; [discriminate || eauto|]); intros (v' & Q); discriminate Q || reflexivity.
  - intros (u & E & U).
    assert (K : forall c i, (ctx mod W32 =? c) = true -> (id mod W32 =? i) = true -> c < W32 -> i < W32 -> low_is ctx c /\ low_is id i) by (intros c i E1 E2 X1 X2; split; now apply low_mod).
    destruct y as [v|d].
    + assert (u = true) as -> by (apply U; eauto). destruct isparam.
      * destruct (ctx mod W32 =? 1) eqn:C1; [|destruct (ctx mod W32 =? 2) eqn:C2; [|discriminate E]].
        -- destruct (id mod W32 =? 1) eqn:I1; [|destruct (id mod W32 =? 3) eqn:I3; [|destruct (id mod W32 =? 2); discriminate E]].
           ++ destruct (K 1 1 C1 I1 eq_refl eq_refl). exists 1, 1. repeat split; auto; constructor.
           ++ destruct (K 1 3 C1 I3 eq_refl eq_refl). exists 1, 3. repeat split; auto; constructor.
        -- destruct (id mod W32 =? 2) eqn:I1; [|destruct (id mod W32 =? 4) eqn:I3; [|destruct (id mod W32 =? 1), (id mod W32 =? 3); discriminate E]].
           ++ destruct (K 2 2 C2 I1 eq_refl eq_refl). exists 2, 2. repeat split; auto; constructor.
           ++ destruct (K 2 4 C2 I3 eq_refl eq_refl). exists 2, 4. repeat split; auto; constructor.
      * destruct ((ctx mod W32 =? 1) || (ctx mod W32 =? 2)); [destruct (id mod W32 =? 1)|]; discriminate E.
    + assert (u = false) as ->. { destruct u; [|reflexivity]. destruct (proj1 U eq_refl) as (v & Q). discriminate Q. } destruct isparam.
      * destruct (ctx mod W32 =? 1) eqn:C1; [|destruct (ctx mod W32 =? 2) eqn:C2; [|discriminate E]].
        -- destruct ((id mod W32 =? 1) || (id mod W32 =? 3)); [discriminate E|]. destruct (id mod W32 =? 2) eqn:I2; [|discriminate E].
           destruct (K 1 2 C1 I2 eq_refl eq_refl). exists 1, 2. repeat split; auto; constructor.
        -- destruct ((id mod W32 =? 2) || (id mod W32 =? 4)); [discriminate E|]. destruct (id mod W32 =? 1) eqn:I1; [|destruct (id mod W32 =? 3) eqn:I3; [|discriminate E]].
           ++ destruct (K 2 1 C2 I1 eq_refl eq_refl). exists 2, 1. repeat split; auto; constructor.
           ++ destruct (K 2 3 C2 I3 eq_refl eq_refl). exists 2, 3. repeat split; auto; constructor.
      * destruct (ctx mod W32 =? 1) eqn:C1; [|destruct (ctx mod W32 =? 2) eqn:C2; [|discriminate E]]; cbn [orb] in E; (destruct (id mod W32 =? 1) eqn:I1; [|discriminate E]).
        -- destruct (K 1 1 C1 I1 eq_refl eq_refl). exists 1, 1. repeat split; auto; constructor.
        -- destruct (K 2 1 C2 I1 eq_refl eq_refl). exists 2, 1. repeat split; auto; constructor.
Qed.

(** ** Pairs and lists of pairs *)
Definition bare_pair isparam ctx (p : N * secval) bs := exists i y, cbor_uint (fst p) i /\ value_form (snd p) y /\ known isparam ctx p /\ pair_array (i ++ y) bs.
Lemma class_reads ctx isparam id h : vreads (fun v2 => match value_class ctx isparam id with None => Some None | Some isuint =>
    bind2 (rd_value isuint v2) (fun '(y, v3) => bind2 (rd_end (h =? 0x9f) v3) (fun '(_, v4) => Some (Some ((id, y), v4)))) end)
  (fun p q => fst p = id /\ known isparam ctx p /\ exists b, value_form (snd p) b /\ q = b ++ (if h =? 159 then [255] else [])).
Proof.
  destruct (value_class ctx isparam id) as [u|] eqn:E.
  - refine (vreads_iff _ _ _ _ (vreads_bind _ _ _ _ (value_reads u) (fun y => vreads_bind _ _ _ _ (end_reads (h =? 0x9f)) (fun _ => vreads_ret (id, y))))).
    intros (id', y') p. cbn [fst snd]. split.
    + intros (y & p1 & p2 & -> & (V & K) & [] & p3 & p4 & -> & -> & -> & Q). injection Q as -> ->. rewrite app_nil_r. split; [reflexivity|]. split; [|eauto]. apply class_known. eauto.
    + intros (-> & K & b & V & ->). apply class_known in K. destruct K as (u' & E' & K). rewrite E in E'. injection E' as <-.
      exists y', b, (if h =? 159 then [255] else []). split; [reflexivity|]. split; [auto|]. exists tt, (if h =? 159 then [255] else []), []. rewrite app_nil_r. auto.
  - refine (vreads_iff _ _ _ _ vreads_fail). intros (id', y') p. split; [intros []|]. cbn [fst snd]. intros (-> & K & _). apply class_known in K. destruct K as (u & E' & _). congruence.
Qed.
Lemma pair_reads ctx isparam : vreads (rd_pair ctx isparam) (bare_pair isparam ctx).
Proof.
  assert (NE : forall p q, bare_pair isparam ctx p q -> q <> []). { intros p q (i & y & _ & _ & _ & [->| ->]); discriminate. }
  unfold rd_pair. apply vreads_guard; [exact NE|].
  refine (vreads_same _ _ _ _ (vreads_iff _ _ _ _ (vreads_byte (fun h => (h =? 0x82) || (h =? 0x9f))
    (fun h v1 => bind2 (vread 9 rd_uint v1) (fun '(id, v2) => match value_class ctx isparam id with None => Some None | Some isuint =>
      bind2 (rd_value isuint v2) (fun '(y, v3) => bind2 (rd_end (h =? 0x9f) v3) (fun '(_, v4) => Some (Some ((id, y), v4)))) end)) _
    (fun h => vreads_bind _ _ _ _ (vread_vreads 9 _ _ rd_uint_reads) (fun id => class_reads ctx isparam id h))))).
  - intros v. destruct (vbyte v) as [(h & v1)|]; [|reflexivity]. rewrite negb_orb. reflexivity.
  - intros p q. split.
    + intros (h & r & -> & G & id & p1 & p2 & -> & U & <- & K & b & V & ->). exists p1, b. split; [exact U|]. split; [exact V|]. split; [exact K|].
      apply orb_prop in G. destruct G as [G|G]; apply N.eqb_eq in G; subst h.
      * left. change (130 =? 159) with false. cbv iota. rewrite app_nil_r. reflexivity.
      * right. change (159 =? 159) with true. cbv iota. now rewrite <- app_assoc.
    + intros (i & y & U & V & K & [->| ->]).
      * exists 130, (i ++ y). split; [reflexivity|]. split; [reflexivity|]. exists (fst p), i, y. split; [reflexivity|]. split; [exact U|]. split; [reflexivity|]. split; [exact K|]. exists y. change (130 =? 159) with false. cbv iota. rewrite app_nil_r. auto.
      * exists 159, ((i ++ y) ++ [255]). split; [reflexivity|]. split; [reflexivity|]. exists (fst p), i, (y ++ [255]). split; [now rewrite app_assoc|]. split; [exact U|]. split; [reflexivity|]. split; [exact K|]. exists y. auto.
Qed.
Lemma wrapped_reads ctx isparam : vreads (fun v => bind2 (if negb isparam then do x <- vbyte v; if fst x =? 0x81 then Some (Some (tt, snd x)) else Some None else Some (Some (tt, v)))
  (fun '(_, v1) => rd_pair ctx isparam v1)) (sec_pair isparam ctx).
Proof.
  destruct isparam; cbn [negb].
  - refine (vreads_iff _ _ _ _ (vreads_bind _ _ _ _ (vreads_ret tt) (fun _ => pair_reads ctx true))). intros p q. split.
    + intros ([] & p1 & p2 & -> & (-> & _) & i & y & U & V & K & A). exists i, y, p2. auto.
    + intros (i & y & r & U & V & K & A & ->). exists tt, [], r. split; [reflexivity|]. split; [auto|]. exists i, y. auto.
  - refine (vreads_iff _ _ _ _ (vreads_bind _ _ _ _ (byte_reads 129) (fun _ => pair_reads ctx false))). intros p q. split.
    + intros ([] & p1 & p2 & -> & -> & i & y & U & V & K & A). exists i, y, p2. auto.
    + intros (i & y & r & U & V & K & A & ->). exists tt, [129], r. split; [reflexivity|]. split; [auto|]. exists i, y. auto.
Qed.
Lemma loop_reads ctx isparam cnt : vreads (rd_pairs_loop cnt ctx isparam (negb isparam)) (fun ps bs => length ps = cnt /\ exists qs, bs = concat qs /\ Forall2 (sec_pair isparam ctx) ps qs).
Proof.
  induction cnt as [|k IH]; cbn [rd_pairs_loop].
  - refine (vreads_iff _ _ _ _ (vreads_ret [])). intros ps bs. split; [intros (-> & ->); split; [reflexivity|]; exists []; auto|].
    intros (L & qs & -> & F). destruct ps; [|discriminate L]. inversion F. auto.
  - refine (vreads_same _ _ _ _ (vreads_iff _ _ _ _ (vreads_bind _ _ _ _ (wrapped_reads ctx isparam) (fun p => vreads_bind _ _ _ _ IH (fun ps => vreads_ret (p :: ps)))))).
    + intros v. destruct (if negb isparam then _ else _) as [[([] & v1)|]|]; cbn [bind2]; reflexivity.
    + intros ps bs. split.
      * intros (p & p1 & p2 & -> & S1 & ps' & p3 & p4 & -> & (L & qs & -> & F) & -> & ->). cbn [length]. split; [congruence|]. exists (p1 :: qs). rewrite app_nil_r. split; [reflexivity|now constructor].
      * intros (L & qs & -> & F). destruct F as [|p q ps' qs' S1 F]; [discriminate L|]. cbn [length concat] in *. exists p, q, (concat qs'). split; [reflexivity|]. split; [exact S1|].
        exists ps', (concat qs'), []. rewrite app_nil_r. split; [reflexivity|]. split; [|auto]. split; [congruence|eauto].
Qed.
Lemma arr_byte b : b < 256 -> (N.shiftr b 5 =? 4) = (128 <=? b) && (b <? 160) /\ (128 <= b < 160 -> N.land b 31 = b - 128).
Proof.
  intros H. pose proof (forall_below 256 (fun h => Bool.eqb (N.shiftr h 5 =? 4) ((128 <=? h) && (h <? 160)) && (negb ((128 <=? h) && (h <? 160)) || (N.land h 31 =? h - 128)))
    ltac:(vm_compute; reflexivity) b H) as Q. cbv beta in Q. rewrite andb_true_iff in Q. destruct Q as (Q1 & Q2).
  apply Bool.eqb_prop in Q1. split; [exact Q1|]. intros R. replace ((128 <=? b) && (b <? 160)) with true in Q2 by lia. cbn [negb orb] in Q2. lia.
Qed.
Definition pairs_of isparam ctx cnt ps bs := length ps = cnt /\ exists qs, bs = concat qs /\ Forall2 (sec_pair isparam ctx) ps qs.
Lemma indef_reads ctx isparam : vreads (fun v => bind2 (rd_pairs_loop (N.to_nat maxElements) ctx isparam (negb isparam) v) (fun '(ps, v1) =>
    bind2 (rd_end true v1) (fun '(_, v2) => Some (Some (ps, v2))))) (fun ps bs => exists q, bs = q ++ [255] /\ pairs_of isparam ctx 1000 ps q).
Proof.
  refine (vreads_iff _ _ _ _ (vreads_bind _ _ _ _ (loop_reads ctx isparam (N.to_nat maxElements)) (fun ps => vreads_bind _ _ _ _ (end_reads true) (fun _ => vreads_ret ps)))).
  intros ps bs. split.
  - intros (ps' & p1 & p2 & -> & L & [] & p3 & p4 & -> & -> & -> & ->). rewrite app_nil_r. eauto.
  - intros (q & -> & L). exists ps, q, [255]. split; [reflexivity|]. split; [exact L|]. exists tt, [255], []. auto.
Qed.
Lemma pairs_reads ctx isparam : vreads (rd_pairs ctx isparam (negb isparam)) (sec_pairs isparam ctx).
Proof.
  unfold rd_pairs. apply (vreads_guard (fun v => match fst v with [] => None | h :: r => _ end)).
  { intros ps p (h & qs & brk & -> & _ & [((b & r & -> & _) & _)|(-> & _)]); discriminate. }
  split.
  - intros ps p rest n (h & qs & brk & -> & F & [((b & r & -> & U) & L & ->)|(-> & L & ->)]) Hb L1 L2 L3.
    + destruct (uint_head _ _ U) as (b' & r' & E & LB). injection E as <- <-. cbn [fst snd app]. rewrite app_nil_r in *. rewrite <- !app_assoc.
      replace (128 + b =? 159) with false by lia. destruct (arr_byte (128 + b) ltac:(lia)) as (S1 & S2). rewrite S1. replace ((128 <=? 128 + b) && (128 + b <? 160)) with true by lia. cbn [negb]. rewrite S2 by lia. replace (128 + b - 128) with b by lia.
      cbn [app length] in L1, L2. rewrite ?app_length in L1. rewrite ?app_length in L2. cbn [app] in Hb. rewrite <- app_assoc in Hb.
      change (b :: r ++ concat qs ++ rest) with ((b :: r) ++ concat qs ++ rest). rewrite (proj1 (vread_vreads 9 _ _ rd_uint_reads) _ _ (concat qs ++ rest) n U).
      * cbn [bind2]. unfold maxElements. destruct (N.ltb_spec 1000 (N.of_nat (length ps))); [lia|]. rewrite Nat2N.id. cbn [length].
        rewrite (proj1 (loop_reads ctx isparam (length ps)) ps (concat qs) rest).
        -- do 4 f_equal. rewrite app_length. lia.
        -- eauto.
        -- apply Forall_inv_tail in Hb. apply Forall_app in Hb. apply Hb.
        -- lia.
        -- rewrite app_length. lia.
        -- lia.
      * cbn [app]. constructor; [unfold is_byte; lia|exact (Forall_inv_tail Hb)].
      * cbn [length]. lia.
      * rewrite !app_length. cbn [length]. lia.
      * exact L3.
    + cbn [fst snd app]. change (159 =? 159) with true. cbv iota. cbn [app length] in L1, L2. rewrite less_small by lia.
      rewrite (proj1 (indef_reads ctx isparam) ps (concat qs ++ [255]) rest).
      * do 4 f_equal. cbn [app length]. lia.
      * exists (concat qs). split; [reflexivity|]. split; eauto.
      * exact (Forall_inv_tail Hb).
      * lia.
      * lia.
      * lia.
  - intros mem n ps mem' n' Hb L1 L2. cbn [fst snd]. destruct mem as [|h r]; [discriminate|]. destruct (N.eqb_spec h 159) as [->|N9].
    + intros E. cbn [length] in L1. destruct (proj2 (indef_reads ctx isparam) _ _ _ _ _ (Forall_inv_tail Hb) ltac:(lia) (less_lt _ _) E) as (p & -> & (q & -> & L & qs & -> & F) & ->).
      exists (159 :: concat qs ++ [255]). split; [reflexivity|]. split.
      * exists [159], qs, [255]. split; [reflexivity|]. split; [exact F|]. right. auto.
      * rewrite app_length in L1. rewrite less_less by lia. cbn [length]. f_equal. lia.
    + destruct (arr_byte h (Forall_inv Hb)) as (S1 & S2). rewrite S1. destruct ((128 <=? h) && (h <? 160)) eqn:R; cbn [negb]; [|discriminate].
      rewrite S2 by lia. assert (HB : Forall is_byte (h - 128 :: r)) by (constructor; [unfold is_byte; lia|exact (Forall_inv_tail Hb)]).
      destruct (vread 9 rd_uint (h - 128 :: r, n)) as [[[num [m1 n1]]|]|] eqn:E; cbn [bind2]; [|discriminate|discriminate].
      destruct (proj2 (vread_vreads 9 _ _ rd_uint_reads) _ _ _ _ _ HB L1 L2 E) as (p & EP & U & ->). destruct (uint_head _ _ U) as (b' & r' & -> & LB). cbn [app] in EP. injection EP as EB ->.
      unfold maxElements. destruct (N.ltb_spec 1000 num) as [_|X1]; [discriminate|]. cbn [length] in L1. rewrite app_length in L1. apply Forall_inv_tail, Forall_app in Hb. intros E2.
      destruct (proj2 (loop_reads ctx isparam (N.to_nat num)) _ _ _ _ _ (proj2 Hb) ltac:(lia) (less_lt _ _) E2) as (p & -> & (L & qs & -> & F) & ->).
      exists ((128 + b' :: r') ++ concat qs). split; [|split].
      * cbn [app]. rewrite <- app_assoc. f_equal. lia.
      * exists (128 + b' :: r'), qs, []. rewrite app_nil_r. split; [reflexivity|]. split; [exact F|]. left. replace (N.of_nat (length ps)) with num by lia. split; [|auto]. exists b', r'. auto.
      * rewrite !app_length in *. cbn [length]. rewrite less_less by lia. f_equal. lia.
Qed.

(** ** The whole data *)
Lemma targets_run ts t rest : target_form ts t -> Forall is_byte (t ++ rest) -> cbor_array_deserialize maxElements (t ++ rest) = Some (Some (ts, N.of_nat (length t))).
Proof.
  intros T Hb. destruct (C35_array_deserialize_exact maxElements (t ++ rest) Hb) as (r & -> & K). f_equal. apply K. exists t, rest. auto.
Qed.
Lemma targets_inv ts k bs : Forall is_byte bs -> cbor_array_deserialize maxElements bs = Some (Some (ts, k)) -> exists t rest, bs = t ++ rest /\ k = N.of_nat (length t) /\ target_form ts t.
Proof.
  intros Hb. destruct (C35_array_deserialize_exact maxElements bs Hb) as (r & -> & K). intros E. injection E as ->. destruct (proj1 (K ts k) eq_refl) as (t & rest & E1 & E2 & E3). exists t, rest. auto.
Qed.
Lemma params_reads old flags ctx : vreads (fun v => if N.testbit flags 0 then rd_pairs ctx true false v else Some (Some (old, v)))
  (fun ps bs => if has_params flags then sec_pairs true ctx ps bs else bs = [] /\ ps = old).
Proof. unfold has_params. destruct (N.testbit flags 0); [exact (pairs_reads ctx true)|exact (vreads_ret old)]. Qed.
Lemma sec7_parse_ok old s d beyond : sec_form old s d -> Forall is_byte (d ++ beyond) -> (23 <= length beyond)%nat -> N.of_nat (length d) < W64 ->
  sec7_parse old (d ++ beyond) (N.of_nat (length d)) = Some (Some s).
Proof.
  intros (t & c & f & src & ps & rs & -> & T & C & F & FL & E & P & R) Hb L23 LW. set (dl := N.of_nat (length (t ++ c ++ f ++ src ++ ps ++ rs))) in *.
  assert (DL : dl = N.of_nat (length t + length c + length f + length src + length ps + length rs)) by (unfold dl; rewrite !app_length; lia).
  unfold sec7_parse. replace (N.of_nat (length (_ ++ beyond)) <? dl) with false by (rewrite app_length; unfold dl; lia).
  replace (firstn (N.to_nat dl) _) with (t ++ c ++ f ++ src ++ ps ++ rs) by (unfold dl; now rewrite Nat2N.id, firstn_pref).
  rewrite <- !app_assoc in *. assert (Ht := Hb).
  assert (Hb2 : Forall is_byte (t ++ c ++ f ++ src ++ ps ++ rs)). { clear - Hb. repeat rewrite Forall_app in *. tauto. }
  rewrite (targets_run _ _ _ T Hb2). cbv beta iota. rewrite Nat2N.id, skipn_pref. rewrite less_small by lia.
  apply Forall_app in Hb. destruct Hb as (_ & Hb).
  rewrite (proj1 (vread_vreads 9 _ _ rd_uint_reads) _ _ _ _ C Hb) by (rewrite ?app_length; lia). cbn [bind2]. apply Forall_app in Hb. destruct Hb as (_ & Hb).
  rewrite (proj1 (vread_vreads 9 _ _ rd_uint_reads) _ _ _ _ F Hb) by (rewrite ?app_length; lia). cbn [bind2]. apply Forall_app in Hb. destruct Hb as (_ & Hb).
  destruct (N.ltb_spec 31 (s_flags s)); [lia|]. cbn [fst snd].
  rewrite (vread_run 23 _ _ _ _ _ _ eid7_reads E Hb) by (rewrite ?app_length; lia). cbn [bind2 fst snd]. apply Forall_app in Hb. destruct Hb as (_ & Hb).
  rewrite (less_small dl) by lia. rewrite less_small by lia.
  rewrite (proj1 (params_reads old (s_flags s) (s_ctx s)) _ _ _ _ P Hb) by (rewrite ?app_length; lia). cbn [bind2]. apply Forall_app in Hb. destruct Hb as (_ & Hb).
  change (rd_pairs (s_ctx s) false true) with (rd_pairs (s_ctx s) false (negb false)).
  rewrite (proj1 (pairs_reads (s_ctx s) false) _ _ _ _ R Hb) by (rewrite ?app_length; lia). cbn [bind2 snd].
  match goal with |- context [?x =? 0] => replace (x =? 0) with true by lia end. destruct s. reflexivity.
Qed.
Lemma sec7_parse_inv old s mem dl : Forall is_byte mem -> N.of_nat (length mem) < W64 -> sec7_parse old mem dl = Some (Some s) ->
  exists d beyond, mem = d ++ beyond /\ dl = N.of_nat (length d) /\ sec_form old s d.
Proof.
  intros Hb LW. unfold sec7_parse. destruct (N.ltb_spec (N.of_nat (length mem)) dl) as [_|LD]; [discriminate|]. assert (LDW : dl < W64) by lia.
  destruct (cbor_array_deserialize maxElements (firstn (N.to_nat dl) mem)) as [[(ts & k)|]|] eqn:ET; [|discriminate|discriminate].
  assert (Hf : Forall is_byte (firstn (N.to_nat dl) mem)) by (rewrite <- (firstn_skipn (N.to_nat dl)) in Hb; apply Forall_app in Hb; apply Hb).
  destruct (targets_inv _ _ _ Hf ET) as (t & rt & E1 & -> & T).
  assert (EM : exists m, mem = t ++ m). { exists (rt ++ skipn (N.to_nat dl) mem). rewrite app_assoc, <- E1. symmetry. apply firstn_skipn. } destruct EM as (m & ->). clear E1 Hf ET rt.
  rewrite Nat2N.id, skipn_pref. rewrite app_length in LW. apply Forall_app in Hb. destruct Hb as (_ & Hb).
  destruct (vread 9 rd_uint (m, _)) as [[[ctx [m1 n1]]|]|] eqn:E1; cbn [bind2]; [|discriminate|discriminate].
  destruct (proj2 (vread_vreads 9 _ _ rd_uint_reads) _ _ _ _ _ Hb ltac:(lia) (less_lt _ _) E1) as (c & -> & C & ->). clear E1. rewrite app_length in LW. apply Forall_app in Hb. destruct Hb as (_ & Hb).
  destruct (vread 9 rd_uint (m1, _)) as [[[flags [m2 n2]]|]|] eqn:E1; cbn [bind2]; [|discriminate|discriminate].
  destruct (proj2 (vread_vreads 9 _ _ rd_uint_reads) _ _ _ _ _ Hb ltac:(lia) (less_lt _ _) E1) as (f & -> & F & ->). clear E1. rewrite app_length in LW. apply Forall_app in Hb. destruct Hb as (_ & Hb).
  destruct (N.ltb_spec 31 flags) as [_|FL]; [discriminate|]. cbn [fst snd].
  destruct (vread 23 eid7_read (m2, _)) as [[[src [m3 n3]]|]|] eqn:E1; cbn [bind2 fst snd]; [|discriminate|discriminate].
  destruct (proj2 (vread_vreads 23 _ _ eid7_reads) _ _ _ _ _ Hb ltac:(lia) LDW E1) as (e & -> & E & ->). clear E1. rewrite app_length in LW. apply Forall_app in Hb. destruct Hb as (_ & Hb).
  rewrite less_back by lia.
  destruct (if N.testbit flags 0 then _ else _) as [[[ps [m4 n4]]|]|] eqn:E1; cbn [bind2]; [|discriminate|discriminate].
  destruct (proj2 (params_reads old flags ctx) _ _ _ _ _ Hb ltac:(lia) (less_lt _ _) E1) as (pb & -> & P & ->). clear E1. rewrite app_length in LW. apply Forall_app in Hb. destruct Hb as (_ & Hb).
  change (rd_pairs ctx false true) with (rd_pairs ctx false (negb false)).
  destruct (rd_pairs ctx false (negb false) _) as [[[rs [m5 n5]]|]|] eqn:E1; cbn [bind2 snd]; [|discriminate|discriminate].
  destruct (proj2 (pairs_reads ctx false) _ _ _ _ _ Hb ltac:(lia) (less_lt _ _) E1) as (rb & -> & R & ->). clear E1. rewrite app_length in LW.
  destruct (N.eqb_spec (less (less (less (less (less (less dl (N.of_nat (length t))) (N.of_nat (length c))) (N.of_nat (length f))) (N.of_nat (length e))) (N.of_nat (length pb))) (N.of_nat (length rb))) 0) as [Z|_]; [|discriminate].
  rewrite !less_less in Z by (first [apply less_lt | lia]). apply less_zero in Z; [|exact LDW|lia]. intros Q. injection Q as <-.
  exists (t ++ c ++ f ++ e ++ pb ++ rb), m5. split; [now rewrite <- !app_assoc|]. split; [rewrite !app_length; lia|].
  exists t, c, f, e, pb, rb. cbn [s_targets s_ctx s_flags s_source s_params s_results]. repeat split; auto. lia.
Qed.

(** ** Writing *)
Lemma or_head_ok size w pre b r : wok size w (pre ++ b :: r) -> b < 28 -> exists w', or_at (length pre) 128 w = Some w' /\ wok size w' (pre ++ 128 + b :: r).
Proof.
  intros W L. destruct (wok_split _ _ _ W) as (rest & E & P & LR). rewrite <- app_assoc in E. cbn [app] in E. unfold or_at. rewrite E.
  rewrite nth_error_app2 by lia. rewrite Nat.sub_diag. cbn [nth_error]. unfold poke. rewrite E, app_length in *. cbn [length] in *.
  destruct (Nat.ltb_spec (length pre) (length pre + S (length (r ++ rest)))); [|lia]. rewrite lor128_small by lia. eexists. split; [reflexivity|].
  rewrite firstn_pref. replace (skipn (S (length pre)) (pre ++ b :: r ++ rest)) with (r ++ rest).
  - unfold wok. cbn [fst snd]. rewrite P. split; [rewrite !app_length in *; cbn [length] in *; rewrite ?app_length in *; lia|]. split; [rewrite !app_length; reflexivity|].
    replace (pre ++ 128 + b :: r ++ rest) with ((pre ++ 128 + b :: r) ++ rest) by now rewrite <- app_assoc.
    apply firstn_exact. rewrite app_length. reflexivity.
  - replace (S (length pre)) with (length (pre ++ [b])) by (rewrite app_length; cbn [length]; lia). replace (pre ++ b :: r ++ rest) with ((pre ++ [b]) ++ r ++ rest) by now rewrite <- app_assoc. now rewrite skipn_pref.
Qed.
Lemma chead_cenc n : n < W64 -> exists b r, cenc n = b :: r /\ chead n = 128 + b :: r /\ b < 28.
Proof. intros H. destruct (uint_head _ _ (cenc_uint n H)) as (b & r & E & L). exists b, r. unfold chead. rewrite E. auto. Qed.
Definition cval (y : secval) : list N := match y with VUint v => cenc v | VBytes d => chdr (N.of_nat (length d)) ++ d end.
Definition cpair (wrapped : bool) (p : N * secval) : list N := (if wrapped then [129] else []) ++ [130] ++ cenc (fst p) ++ cval (snd p).
Definition cpairs (wrapped : bool) (ps : list (N * secval)) : list N := chead (N.of_nat (length ps)) ++ concat (map (cpair wrapped) ps).
Definition csec (s : sec7) : list N := (chead (N.of_nat (length (s_targets s))) ++ concat (map cenc (s_targets s))) ++ cenc (s_ctx s) ++ cenc (s_flags s) ++ ceid (s_source s) ++
  (if has_params (s_flags s) then cpairs false (s_params s) else []) ++ cpairs true (s_results s).
Definition small_val (y : secval) : Prop := match y with VUint v => v < W64 | VBytes d => N.of_nat (length d) < W64 end.
Lemma value_writes j y : j < 256 -> small_val y -> writes (value_put (scan_any j) y) (cval y) 0.
Proof.
  intros J V. destruct y as [v|d]; unfold value_put; cbn [cval small_val] in *; [now apply put_encode_writes|]. intros size w pre W L. destruct (chdr_cenc _ V) as (b & r & EC & EH & LB). rewrite EH in *. rewrite app_length in L. cbn [length] in L.
  destruct (put_encode_writes j J _ V size w pre W) as (w4 & -> & W4); [rewrite EC; cbn [length]; lia|]. rewrite EC in W4.
  destruct W as (_ & P3 & _). rewrite P3. destruct (or_at_ok size w4 _ b r W4 LB) as (w5 & -> & W5). rewrite (wok_room _ _ _ W5). rewrite app_length. cbn [length].
  destruct (Nat.ltb_spec (size - (length pre + S (length r))) (length d)); [lia|].
  destruct (put_bytes_writes d size w5 _ W5) as (w6 & -> & W6); [rewrite !app_length; cbn [length]; lia|]. exists w6. split; [reflexivity|]. rewrite <- !app_assoc in W6. exact W6.
Qed.
Definition small_pair (p : N * secval) : Prop := fst p < W64 /\ small_val (snd p).
Lemma pairs_loop_writes j wrapped base ps : j < 256 -> Forall small_pair ps -> writes (pairs_put_loop (scan_any j) wrapped base ps) (concat (map (cpair wrapped) ps)) 0.
Proof.
  intros J. induction ps as [|(id, y) ps IH]; intros F; [exact (writes_nil 0)|]. cbn [pairs_put_loop map concat]. destruct (Forall_inv F) as (V1 & V2). cbn [fst snd] in V1, V2.
  unfold cpair at 1. cbn [fst snd]. intros size w pre W L. rewrite !app_length in L.
  assert (K : exists w1, (if wrapped then put_bytes [129] w else Some w) = Some w1 /\ wok size w1 (pre ++ if wrapped then [129] else [])).
  { destruct wrapped; [apply put_bytes_writes; [exact W|cbn [length] in *; lia]|]. exists w. rewrite app_nil_r. auto. }
  destruct K as (w1 & -> & W1). rewrite (wok_room _ _ _ W1), app_length. cbn [length] in L. destruct (Nat.eqb_spec (size - (length pre + length (if wrapped then [129] else []))) 0); [lia|].
  destruct (writes_seq _ [130] _ _ 0 (put_bytes_writes [130]) (writes_seq _ _ _ _ 0 (put_encode_writes j J id V1) (writes_seq _ _ _ _ 0 (value_writes j y J V2) (IH (Forall_inv_tail F)))) size w1 _ W1) as (w2 & E2 & W2).
  { cbn [length]. rewrite ?app_length. cbn [length]. rewrite ?app_length. lia. }
  exists w2. split; [exact E2|]. rewrite <- !app_assoc in W2. cbn [app] in W2. rewrite <- !app_assoc. exact W2.
Qed.
Lemma pairs_writes j wrapped ps : j < 256 -> Forall small_pair ps -> N.of_nat (length ps) < W64 -> writes (pairs_put (scan_any j) wrapped ps) (cpairs wrapped ps) 0.
Proof.
  intros J F V size w pre W L. unfold pairs_put, cpairs in *. destruct (chead_cenc _ V) as (b & r & EC & EH & LB). rewrite EH in *. rewrite app_length in L. cbn [length] in L.
  destruct (put_encode_writes j J _ V size w pre W) as (w1 & -> & W1); [rewrite EC; cbn [length]; lia|]. rewrite EC in W1.
  destruct W as (_ & P3 & _). rewrite P3. destruct (or_head_ok size w1 _ b r W1 LB) as (w2 & -> & W2).
  destruct (pairs_loop_writes j wrapped (length pre) ps J F size w2 _ W2) as (w3 & -> & W3); [rewrite !app_length; cbn [length]; lia|]. exists w3. split; [reflexivity|]. rewrite <- app_assoc in W3. exact W3.
Qed.
Definition small_sec (s : sec7) : Prop := Forall (fun t => t < W64) (s_targets s) /\ N.of_nat (length (s_targets s)) < W64 /\ s_ctx s < W64 /\ s_flags s < W64 /\ small64 (s_source s) /\
  Forall small_pair (s_params s) /\ N.of_nat (length (s_params s)) < W64 /\ Forall small_pair (s_results s) /\ N.of_nat (length (s_results s)) < W64.
Lemma targets_writes j ts : j < 256 -> Forall (fun t => t < W64) ts -> N.of_nat (length ts) < W64 ->
  writes (put (cbor_array_serialize (cbor_encode (scan_any j)) ts)) (chead (N.of_nat (length ts)) ++ concat (map cenc ts)) 0.
Proof.
  intros J F V. destruct (chead_header _ V) as (_ & LH). destruct (items_cenc ts F) as (_ & LI). apply put_writes. intros b L. rewrite app_length, LH, LI in *.
  destruct (array_serialize_ok 0 _ ts (good_checked j J) F V b ltac:(lia)) as (jk & -> & LJ). exists jk. rewrite <- app_assoc. split; [reflexivity|]. rewrite !app_length. lia.
Qed.
Lemma sec_writes j s : j < 256 -> small_sec s -> writes (sec7_data (scan_any j) s) (csec s) 0.
Proof.
  intros J (V1 & V2 & V3 & V4 & V5 & V6 & V7 & V8 & V9). unfold sec7_data, csec, has_params.
  refine (writes_seq _ _ _ _ _ (targets_writes j _ J V1 V2) _). refine (writes_seq _ _ _ _ _ (put_encode_writes j J _ V3) _). refine (writes_seq _ _ _ _ _ (put_encode_writes j J _ V4) _).
  refine (writes_seq _ _ _ _ _ (eid7_checked_writes j J _ V5) _). refine (writes_seq _ _ _ _ _ _ (pairs_writes j true _ J V8 V9)).
  destruct (N.testbit (s_flags s) 0); [now apply pairs_writes|exact (writes_nil 0)].
Qed.
Lemma sec_fill j s old : j < 256 -> small_sec s -> length old = length (csec s) -> fill_with (sec7_data (scan_any j) s) old = Some (csec s).
Proof. intros J OK L. unfold fill_with. destruct (writes_run _ _ _ (sec_writes j s J OK) eq_refl old L) as (w & -> & <-). reflexivity. Qed.
Lemma value_size_ok j y : j < 256 -> small_val y -> value_size (scan_any j) y = Some (N.of_nat (length (cval y))).
Proof.
  intros J V. destruct y as [v|d]; cbn [value_size cval small_val] in *; rewrite num_bytes_ok by assumption; [reflexivity|]. f_equal. rewrite app_length. destruct (chdr_cenc _ V) as (b & r & EC & -> & _). unfold csize. rewrite EC. cbn [length]. lia.
Qed.
Lemma pairs_loop_size j wrapped ps : j < 256 -> Forall small_pair ps -> exists t, pairs_size_loop (scan_any j) wrapped ps = Some t /\ N.of_nat (length ps) + t = N.of_nat (length (concat (map (cpair wrapped) ps))).
Proof.
  intros J. induction ps as [|(id, y) ps IH]; intros F; [exists 0; auto|]. destruct (Forall_inv F) as (V1 & V2). cbn [fst snd] in V1, V2. destruct (IH (Forall_inv_tail F)) as (t & E & L).
  cbn [pairs_size_loop map concat]. rewrite num_bytes_ok, value_size_ok, E by assumption. eexists. split; [reflexivity|]. rewrite app_length. unfold cpair at 1. rewrite !app_length. cbn [fst snd length]. fold (csize id).
  destruct wrapped; cbn [N.b2n length]; lia.
Qed.
Lemma pairs_size_ok j wrapped ps : j < 256 -> Forall small_pair ps -> N.of_nat (length ps) < W64 -> pairs_size (scan_any j) wrapped ps = Some (N.of_nat (length (cpairs wrapped ps))).
Proof.
  intros J F V. unfold pairs_size, cpairs. rewrite num_bytes_ok by assumption. destruct (pairs_loop_size j wrapped ps J F) as (t & -> & L). f_equal. rewrite app_length. destruct (chead_header _ V) as (_ & ->). lia.
Qed.
Lemma sec_size_ok j s : j < 256 -> small_sec s -> sec7_size (scan_any j) s = Some (N.of_nat (length (csec s))).
Proof.
  intros J (V1 & V2 & V3 & V4 & V5 & V6 & V7 & V8 & V9). unfold sec7_size, csec, has_params, cbor_array_size. rewrite !num_bytes_ok by assumption. rewrite L_Cbor.sum_sizes_ok by assumption. rewrite ceid_size by assumption.
  destruct (chead_header _ V2) as (_ & LH). destruct (items_cenc _ V1) as (_ & LI). rewrite (pairs_size_ok j true) by assumption.
  destruct (N.testbit (s_flags s) 0); [rewrite pairs_size_ok by assumption|]; f_equal; rewrite !app_length, LH, LI; cbn [length]; unfold csize; lia.
Qed.

(** ** The bytes written *)
Lemma small_of_ok p : pair_ok p -> N.of_nat (pair_bytes p) < W64 -> small_pair p.
Proof. intros (V1 & V2) L. split; [exact V1|]. unfold pair_bytes in L. destruct (snd p) as [v|d]; cbn [small_val value_ok] in *; [exact V2|lia]. Qed.
Lemma sum_ge (ps : list (N * secval)) : (64 * length ps <= list_sum (map pair_bytes ps))%nat.
Proof. induction ps as [|p ps IH]; cbn [map list_sum fold_right length]; [lia|]. fold (list_sum (map pair_bytes ps)). unfold pair_bytes at 1. lia. Qed.
Lemma small_pairs ps : Forall pair_ok ps -> N.of_nat (list_sum (map pair_bytes ps)) < W64 -> Forall small_pair ps.
Proof.
  induction 1 as [|p ps V F IH]; cbn [map list_sum fold_right]; intros L; [constructor|]. fold (list_sum (map pair_bytes ps)) in L. constructor; [apply small_of_ok; [exact V|lia]|apply IH; lia].
Qed.
Lemma small_sec_ok s : sec_ok s -> small_sec s.
Proof.
  intros (V1 & V2 & V3 & V4 & V5 & V6 & L). unfold sec_bytes in L. change (2 ^ 64) with W64 in *. pose proof (sum_ge (s_params s)). pose proof (sum_ge (s_results s)).
  split; [exact V1|]. split; [lia|]. split; [exact V2|]. split; [unfold W64; lia|]. split; [exact V4|]. split; [apply small_pairs; [exact V5|lia]|]. split; [lia|]. split; [apply small_pairs; [exact V6|lia]|lia].
Qed.
Lemma csize9 v : (csize v <= 9)%nat.
Proof. apply csize_pos. Qed.
Lemma cpair_len wrapped p : small_pair p -> (length (cpair wrapped p) <= 20 + match snd p with VUint _ => 0 | VBytes d => length d end)%nat.
Proof.
  intros (_ & V). unfold cpair. rewrite !app_length. cbn [length]. pose proof (csize9 (fst p)) as C. unfold csize in C. assert (length (if wrapped then [129%N] else []) <= 1)%nat by (destruct wrapped; cbn; lia).
  destruct (snd p) as [v|d]; cbn [cval]; [pose proof (csize9 v) as D; unfold csize in D; lia|]. rewrite app_length. cbn [small_val] in V. destruct (chdr_cenc _ V) as (b & r & EC & -> & _). pose proof (csize9 (N.of_nat (length d))) as D. unfold csize in D. rewrite EC in D. cbn [length] in *. lia.
Qed.
Lemma cpairs_len wrapped ps : Forall small_pair ps -> (length (concat (map (cpair wrapped) ps)) <= list_sum (map pair_bytes ps))%nat.
Proof.
  induction 1 as [|p ps V F IH]; cbn [map concat list_sum fold_right]; [cbn; lia|]. fold (list_sum (map pair_bytes ps)). rewrite app_length. pose proof (cpair_len wrapped p V). unfold pair_bytes at 1. lia.
Qed.
Lemma csec_len s : sec_ok s -> (length (csec s) <= sec_bytes s)%nat.
Proof.
  intros OK. destruct (small_sec_ok s OK) as (V1 & V2 & V3 & V4 & V5 & V6 & V7 & V8 & V9). unfold csec, sec_bytes. rewrite !app_length. destruct (chead_header _ V2) as (_ & ->). destruct (items_cenc _ V1) as (_ & ->).
  assert (LI : (csizes (s_targets s) <= 9 * length (s_targets s))%nat).
  { unfold csizes. induction (s_targets s) as [|t ts IH]; cbn [map list_sum fold_right length]; [lia|]. fold (list_sum (map csize ts)). pose proof (csize9 t). inversion V1; subst. specialize (IH ltac:(assumption)). cbn [length] in V2. specialize (IH ltac:(lia)). lia. }
  pose proof (csize9 (N.of_nat (length (s_targets s)))). pose proof (csize9 (s_ctx s)) as C1. pose proof (csize9 (s_flags s)) as C2. unfold csize in C1, C2. pose proof (cext_len (PrevNode (s_source s))) as L1. cbn [cext] in L1.
  assert (LP : forall wrapped ps, Forall small_pair ps -> N.of_nat (length ps) < W64 -> (length (cpairs wrapped ps) <= 9 + list_sum (map pair_bytes ps))%nat).
  { intros wr ps F L. unfold cpairs. rewrite app_length. destruct (chead_header _ L) as (_ & ->). pose proof (cpairs_len wr ps F). pose proof (csize9 (N.of_nat (length ps))). lia. }
  pose proof (LP true _ V8 V9). pose proof (LP false _ V6 V7). destruct (has_params (s_flags s)); cbn [length]; lia.
Qed.
Lemma chead_shortest n : n < W64 -> shortest_header n (chead n).
Proof. intros H. destruct (chead_cenc n H) as (b & r & EC & -> & _). exists b, r. split; [reflexivity|]. rewrite <- EC. now apply cenc_shortest. Qed.
Lemma cval_written y : small_val y -> value_written y (cval y).
Proof. intros V. destruct y as [v|d]; cbn [value_written cval small_val] in *; [now apply cenc_shortest|now apply chdr_shortest]. Qed.
Lemma cpairs_written isparam ps : Forall small_pair ps -> N.of_nat (length ps) < W64 -> pairs_written isparam ps (cpairs (negb isparam) ps).
Proof.
  intros F L. exists (chead (N.of_nat (length ps))), (map (cpair (negb isparam)) ps). split; [reflexivity|]. split; [now apply chead_shortest|]. clear L. induction F as [|p ps (V1 & V2) F IH]; constructor; [|exact IH].
  exists (cenc (fst p)), (cval (snd p)). split; [now apply cenc_shortest|]. split; [now apply cval_written|]. unfold cpair. destruct isparam; reflexivity.
Qed.
Lemma csec_written s : small_sec s -> sec_written s (csec s).
Proof.
  intros (V1 & V2 & V3 & V4 & V5 & V6 & V7 & V8 & V9). unfold csec. do 7 eexists. split; [rewrite <- app_assoc; reflexivity|]. split; [now apply chead_shortest|]. split.
  { exists (map cenc (s_targets s)). split; [reflexivity|]. clear V2. induction V1; constructor; [now apply cenc_shortest|assumption]. }
  split; [now apply cenc_shortest|]. split; [now apply cenc_shortest|]. split; [now apply ceid_written|]. split; [|now apply (cpairs_written false)].
  destruct (has_params (s_flags s)); [now apply (cpairs_written true)|reflexivity].
Qed.

(** ** Written blocks have the form that is read *)
Lemma shortest_is_uint v b : shortest_cbor v b -> cbor_uint v b.
Proof. intros (H & _). exact H. Qed.
Lemma pairs_written_form isparam ctx ps bs : pairs_written isparam ps bs -> Forall (known isparam ctx) ps -> N.of_nat (length ps) <= 1000 -> sec_pairs isparam ctx ps bs.
Proof.
  intros (h & qs & -> & (b & r & -> & H) & F) K L. exists (128 + b :: r), qs, []. rewrite app_nil_r. split; [reflexivity|]. split; [|left; split; [exists b, r; split; [reflexivity|now apply shortest_is_uint]|auto]].
  clear H L. induction F as [|p q ps qs (i & y & H1 & H2 & ->) F IH]; constructor; [|apply IH; exact (Forall_inv_tail K)].
  exists i, y, ([130] ++ i ++ y). split; [now apply shortest_is_uint|]. split; [|split; [exact (Forall_inv K)|split; [left; reflexivity|reflexivity]]].
  destruct (snd p) as [v|d]; cbn [value_written value_form] in *; [now apply shortest_is_uint|]. destruct H2 as (b2 & r2 & -> & H2). exists b2, r2. split; [reflexivity|now apply shortest_is_uint].
Qed.
Lemma shortest_items_are ts t : shortest_items ts t -> cbor_items ts t.
Proof. intros (ps & -> & F). induction F; cbn [concat]; constructor; [now apply shortest_is_uint|assumption]. Qed.
Lemma eid_written_form e b : eid7_written e b -> eid7_form (eid_meant e) b.
Proof.
  unfold eid7_written, eid_meant. destruct (fst e =? 0).
  - intros ->. exists [1; 0]. split; [left; reflexivity|]. left. auto.
  - intros (t & (q & S & ->) & ->). exists (2 :: 130 :: q). split; [left; reflexivity|]. right. eexists. split; [reflexivity|]. exists q. split; [now apply shortest_items_are|left; reflexivity].
Qed.
Lemma sec_written_form old s d : sec_written s d -> sec_readable s -> sec_form old (sec_meant old s) d.
Proof.
  intros (h & t & c & f & src & ps & rs & -> & (b & r & -> & H1) & H2 & H3 & H4 & H5 & H6 & H7) (R1 & R2 & R3 & R4 & R5).
  exists ((128 + b :: r) ++ t), c, f, src, ps, rs. split; [now rewrite <- app_assoc|]. cbn [sec_meant s_targets s_ctx s_flags s_source s_params s_results].
  split. { left. do 2 eexists. split; [reflexivity|]. split; [exists b, r; split; [reflexivity|now apply shortest_is_uint]|]. split; [now apply shortest_items_are|exact R1]. }
  split; [now apply shortest_is_uint|]. split; [now apply shortest_is_uint|]. split; [exact R2|]. split; [now apply eid_written_form|]. split; [|now apply pairs_written_form].
  destruct (has_params (s_flags s)); [|auto]. destruct (R3 eq_refl). now apply pairs_written_form.
Qed.
Lemma csec_octets s : sec_ok s -> Forall is_byte (csec s).
Proof.
  intros OK. destruct (small_sec_ok s OK) as (V1 & V2 & V3 & V4 & V5 & V6 & V7 & V8 & V9). destruct OK as (_ & _ & _ & _ & O1 & O2 & _).
  assert (HH : forall n, n < W64 -> Forall is_byte (chead n)).
  { intros n L. destruct (chead_cenc n L) as (b & r & EC & -> & LB). pose proof (cenc_octets _ L) as O. rewrite EC in O. constructor; [unfold is_byte; lia|exact (Forall_inv_tail O)]. }
  assert (HP : forall wr ps, Forall small_pair ps -> Forall pair_ok ps -> Forall is_byte (concat (map (cpair wr) ps))).
  { intros wr ps F1 F2. induction ps as [|p ps IH]; cbn [map concat]; [constructor|]. apply Forall_app. split; [|apply IH; [exact (Forall_inv_tail F1)|exact (Forall_inv_tail F2)]].
    destruct (Forall_inv F1) as (W1 & W2). destruct (Forall_inv F2) as (_ & W3). unfold cpair. repeat (apply Forall_app; split); [destruct wr; repeat constructor|repeat constructor|now apply cenc_octets|].
    destruct (snd p) as [v|d]; cbn [cval small_val value_ok] in *; [now apply cenc_octets|]. apply Forall_app. split; [|exact W3].
    destruct (chdr_cenc _ W2) as (b & r & EC & EH & LB). rewrite EH. pose proof (cenc_octets _ W2) as O. rewrite EC in O. constructor; [unfold is_byte; lia|exact (Forall_inv_tail O)]. }
  unfold csec, cpairs. repeat (apply Forall_app; split); try (now apply HH); try (now apply HP); try (now apply cenc_octets); [|now apply ceid_octets|].
  - clear V2. induction V1; cbn [map concat]; [constructor|]. apply Forall_app. split; [now apply cenc_octets|assumption].
  - destruct (has_params (s_flags s)); [|constructor]. apply Forall_app. split; [now apply HH|now apply HP].
Qed.
