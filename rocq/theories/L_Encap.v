(** Lemmas for C61. *)
From Coq Require Import PeanoNat NArith List Bool Lia ZifyBool ZifyN ZifyNat.
From Verif Require Import Base M_Encap S_Encap.
Import ListNotations.
Open Scope N_scope.

Lemma value_app : forall a b, value (a ++ b) = value a * 256 ^ N.of_nat (length b) + value b.
Proof.
  induction a as [|x a IH]; intro b; cbn [app value]; [lia|]. rewrite IH, app_length, Nat2N.inj_add, N.pow_add_r. lia.
Qed.
Lemma un_be_value : forall l, un_be l = value l.
Proof.
  assert (G : forall l a, fold_left (fun a b => a * 256 + b) l a = a * 256 ^ N.of_nat (length l) + value l).
  { induction l as [|x l IH]; intro a; cbn [fold_left length value]; [cbn; lia|]. rewrite IH, Nat2N.inj_succ, N.pow_succ_r'. lia. }
  intro l. unfold un_be. rewrite G. lia.
Qed.
Lemma be_length : forall k n, length (be k n) = k.
Proof. induction k as [|k IH]; intro n; cbn [be]; [reflexivity|]. rewrite app_length, IH. cbn. lia. Qed.
Lemma be_bytes : forall k n, bytes (be k n).
Proof. induction k as [|k IH]; intro n; cbn [be]; [constructor|]. apply Forall_app. split; [apply IH|]. constructor; [apply N.mod_lt; discriminate|constructor]. Qed.
Lemma be_value : forall k n, n < 256 ^ N.of_nat k -> value (be k n) = n.
Proof.
  induction k as [|k IH]; intros n H; cbn [be]; [cbn in *; lia|]. rewrite value_app. cbn [length value]. change (256 ^ N.of_nat 1) with 256. change (256 ^ N.of_nat 0) with 1. rewrite IH.
  - assert (D := N.div_mod n 256 ltac:(discriminate)). lia.
  - apply N.div_lt_upper_bound; [discriminate|]. rewrite Nat2N.inj_succ, N.pow_succ_r' in H. exact H.
Qed.
Lemma value_lt : forall l, bytes l -> value l < 256 ^ N.of_nat (length l).
Proof.
  induction l as [|x l IH]; intro H; cbn [value length]; [cbn; lia|]. inversion H as [|? ? H1 H2]; subst. specialize (IH H2). rewrite Nat2N.inj_succ, N.pow_succ_r'. cbv beta in H1. nia.
Qed.
(** A number is what its bytes are. *)
Lemma value_inj : forall a b, length a = length b -> bytes a -> bytes b -> value a = value b -> a = b.
Proof.
  induction a as [|x a IH]; intros [|y b] L A B V; try discriminate; [reflexivity|]. injection L as L. inversion A as [|? ? A1 A2]; inversion B as [|? ? B1 B2]; subst. cbn [value] in V. rewrite L in V.
  assert (VA := value_lt a A2). assert (VB := value_lt b B2). rewrite L in VA. assert (x = y) by nia. subst y. f_equal. apply IH; auto. nia.
Qed.

Lemma check_all : forall (P : N -> bool), forallb P (map N.of_nat (seq 0 256)) = true -> forall b, b < 256 -> P b = true.
Proof. intros P H b L. rewrite forallb_forall in H. apply H. apply in_map_iff. exists (N.to_nat b). split; [lia|]. apply in_seq. lia. Qed.
Definition header_size_ok (ty b : N) : bool :=
  header_size ty b =? (if b =? 224 then 1 else if b =? ty + 1 then 2 else if b =? ty + 2 then 4 else if b =? ty + 3 then 8 else 0).
Lemma header_size_is : forall ty b, ty = LTP \/ ty = BP -> b < 256 -> header_size ty b = if b =? 224 then 1 else if b =? ty + 1 then 2 else if b =? ty + 2 then 4 else if b =? ty + 3 then 8 else 0.
Proof.
  intros ty b T L. assert (H : header_size_ok ty b = true); [|unfold header_size_ok in H; apply N.eqb_eq; exact H]. revert b L. apply check_all. destruct T as [-> | ->]; vm_compute; reflexivity.
Qed.

Lemma lor_ty : forall ty, ty = LTP \/ ty = BP -> N.lor ty 1 = ty + 1 /\ N.lor ty 2 = ty + 2 /\ N.lor ty 3 = ty + 3 /\ ty <> 224 /\ ty + 3 < 256 /\ 224 < ty /\ (ty =? IDLE) = false.
Proof. intros ty [-> | ->]; vm_compute; repeat split; reflexivity || discriminate. Qed.
Lemma header_cases : forall ty n hd, ty = LTP \/ ty = BP -> get_header ty n = Some hd <->
  (1 <= n <= 253 /\ hd = ty + 1 :: be 1 (n + 2)) \/ (253 < n <= 65531 /\ hd = ty + 2 :: 0 :: be 2 (n + 4)) \/ (65531 < n <= 4294967287 /\ hd = ty + 3 :: 0 :: 0 :: 0 :: be 4 (n + 8)).
Proof.
  intros ty n hd T. destruct (lor_ty ty T) as [E1 [E2 [E3 [_ [_ [_ E4]]]]]]. unfold get_header. rewrite E1, E2, E3, E4. change (4294967295 - 8) with 4294967287.
  destruct (N.ltb_spec 4294967287 n); [split; [discriminate|intros [[? _]|[[? _]|[? _]]]; lia]|].
  destruct (N.eqb_spec n 0); [split; [discriminate|intros [[? _]|[[? _]|[? _]]]; lia]|].
  destruct (N.leb_spec n 253); [split; [intros [= <-]; left; split; [lia|reflexivity]|intros [[_ ->]|[[? _]|[? _]]]; [reflexivity|lia|lia]]|].
  destruct (N.leb_spec n 65531); [split; [intros [= <-]; right; left; split; [lia|reflexivity]|intros [[? _]|[[_ ->]|[? _]]]; [lia|reflexivity|lia]]|].
  split; [intros [= <-]; right; right; split; [lia|reflexivity]|intros [[? _]|[[? _]|[_ ->]]]; [lia|lia|reflexivity]].
Qed.
Lemma sub_wrap : forall n h, h <= 8 -> n + h < W32 -> (n + h + W32 - h) mod W32 = n.
Proof. intros n h H L. replace (n + h + W32 - h) with (n + 1 * W32) by lia. rewrite N.mod_add by discriminate. apply N.mod_small. lia. Qed.

(** Reading a header that was sent. *)
Lemma feed_app : forall keep ty a b s, feed keep ty s (a ++ b) = let (s1, p1) := feed keep ty s a in let (s2, p2) := feed keep ty s1 b in (s2, p1 ++ p2).
Proof.
  induction a as [|x a IH]; intros b s; cbn [app feed]; [destruct (feed keep ty s b); reflexivity|]. destruct (step keep ty s x) as [s1 p1]. rewrite IH. destruct (feed keep ty s1 a) as [s2 p2]. destruct (feed keep ty s2 b) as [s3 p3]. rewrite app_assoc. reflexivity.
Qed.
Lemma feed_header : forall keep ty n hd, ty = LTP \/ ty = BP -> get_header ty n = Some hd -> feed keep ty First hd = (Body (N.of_nat (length hd)) n hd [], []).
Proof.
  intros keep ty n hd T H. destruct (lor_ty ty T) as [_ [_ [_ [_ [X [Y _]]]]]].
  assert (HS : forall k h, header_size ty (ty + k) = h -> 1 < h -> step keep ty First (ty + k) = (Header h [ty + k], [])).
  { intros k h E G. cbn [step]. rewrite E. destruct (N.eqb_spec h 0); [lia|]. destruct (N.eqb_spec h 1); [lia|reflexivity]. }
  apply header_cases in H; [|exact T]. destruct H as [[R ->]|[[R ->]|[R ->]]].
  - assert (L := be_length 1 (n + 2)). assert (V := be_value 1 (n + 2) ltac:(change (256 ^ N.of_nat 1) with 256; lia)). destruct (be 1 (n + 2)) as [|a [|? ?]]; try discriminate. cbn [value length] in V. change (256 ^ N.of_nat 0) with 1 in V.
    cbn [feed]. rewrite (HS 1 2); [|rewrite header_size_is by (auto; lia); destruct (N.eqb_spec (ty + 1) 224); [lia|]; rewrite N.eqb_refl; reflexivity|lia].
    cbn [step app length tl]. change (N.of_nat 2 <? 2) with false. cbv iota. unfold payload_size. cbn [N.eqb Pos.eqb]. change (2 =? 1) with false. change (2 =? 2) with true. cbv iota.
    replace (a + W32 - 2) with (n + 2 + W32 - 2) by lia. rewrite sub_wrap by (unfold W32; lia). destruct (N.eqb_spec n 0); [lia|reflexivity].
  - assert (L := be_length 2 (n + 4)). assert (V := be_value 2 (n + 4) ltac:(change (256 ^ N.of_nat 2) with 65536; lia)). destruct (be 2 (n + 4)) as [|a [|b [|? ?]]]; try discriminate.
    cbn [feed]. rewrite (HS 2 4); [|rewrite header_size_is by (auto; lia); destruct (N.eqb_spec (ty + 2) 224); [lia|]; destruct (N.eqb_spec (ty + 2) (ty + 1)); [lia|]; rewrite N.eqb_refl; reflexivity|lia].
    cbn [step app length]. change (N.of_nat 2 <? 4) with true. cbv iota. cbn [step app length]. change (N.of_nat 3 <? 4) with true. cbv iota. cbn [step app length tl]. change (N.of_nat 4 <? 4) with false. cbv iota.
    unfold payload_size. change (4 =? 1) with false. change (4 =? 2) with false. change (4 =? 8) with false. change (4 =? 4) with true. change (negb (N.land 0 15 =? 0)) with false. cbv iota.
    rewrite un_be_value, V. rewrite sub_wrap by (unfold W32; lia). destruct (N.eqb_spec n 0); [lia|reflexivity].
  - assert (L := be_length 4 (n + 8)). assert (V := be_value 4 (n + 8) ltac:(change (256 ^ N.of_nat 4) with 4294967296; lia)). destruct (be 4 (n + 8)) as [|a [|b [|c [|d [|? ?]]]]]; try discriminate.
    cbn [feed]. rewrite (HS 3 8); [|rewrite header_size_is by (auto; lia); destruct (N.eqb_spec (ty + 3) 224); [lia|]; destruct (N.eqb_spec (ty + 3) (ty + 1)); [lia|]; destruct (N.eqb_spec (ty + 3) (ty + 2)); [lia|]; rewrite N.eqb_refl; reflexivity|lia].
    cbn [step app length]. change (N.of_nat 2 <? 8) with true. cbv iota. cbn [step app length]. change (N.of_nat 3 <? 8) with true. cbv iota. cbn [step app length]. change (N.of_nat 4 <? 8) with true. cbv iota. cbn [step app length]. change (N.of_nat 5 <? 8) with true. cbv iota.
    cbn [step app length]. change (N.of_nat 6 <? 8) with true. cbv iota. cbn [step app length]. change (N.of_nat 7 <? 8) with true. cbv iota. cbn [step app length tl]. change (N.of_nat 8 <? 8) with false. cbv iota.
    unfold payload_size. change (8 =? 1) with false. change (8 =? 2) with false. change (8 =? 8) with true. change (negb (N.land 0 15 =? 0)) with false. change ((0 =? 0) && (0 =? 0)) with true. cbv iota.
    rewrite un_be_value, V. rewrite sub_wrap by (unfold W32; lia). destruct (N.eqb_spec n 0); [lia|reflexivity].
Qed.
Lemma feed_body : forall keep ty h size hdr r acc, N.of_nat (length acc + length r) <= size -> r <> [] ->
  feed keep ty (Body h size hdr acc) r = if N.of_nat (length acc + length r) =? size then deliver keep h size hdr (acc ++ r) else (Body h size hdr (acc ++ r), []).
Proof.
  induction r as [|b r IH]; intros acc L NE; [contradiction|]. cbn [feed step length] in *. rewrite app_length. cbn [length]. destruct r as [|b2 r].
  - cbn [feed length] in *. destruct (N.eqb_spec (N.of_nat (length acc + 1)) size); destruct (N.ltb_spec (N.of_nat (length acc + 1)) size); try lia; reflexivity.
  - cbn [length] in *. destruct (N.ltb_spec (N.of_nat (length acc + 1)) size); [|lia]. rewrite IH; [|rewrite app_length; cbn [length]; lia|discriminate]. rewrite app_length. cbn [length]. rewrite <- app_assoc. cbn [app].
    replace (length acc + 1 + S (length r))%nat with (length acc + S (S (length r)))%nat by lia. destruct (_ =? size); reflexivity.
Qed.
Lemma header_nonempty : forall ty n hd, ty = LTP \/ ty = BP -> get_header ty n = Some hd -> n <> 0 /\ hd <> [] /\ n < W32.
Proof. intros ty n hd T H. apply header_cases in H; [|exact T]. unfold W32. destruct H as [[R ->]|[[R ->]|[R ->]]]; repeat split; try discriminate; lia. Qed.
Lemma feed_packet : forall keep ty pl s, ty = LTP \/ ty = BP -> framed ty pl s -> exists p, received keep ty pl p /\ feed keep ty First s = (First, [p]).
Proof.
  intros keep ty pl s T [hd [H ->]]. eexists. split; [exists hd; split; [exact H|reflexivity]|]. destruct (header_nonempty _ _ _ T H) as [NZ [_ _]]. rewrite feed_app, (feed_header _ _ _ _ T H). destruct pl as [|b r]; [exfalso; apply NZ; reflexivity|].
  rewrite feed_body; [|cbn [length]; lia|discriminate]. cbn [length Nat.add]. rewrite N.eqb_refl. reflexivity.
Qed.
