(** Lemmas for C28: the segment generators. *)
From Coq Require Import NArith ZArith List Bool Lia ZifyBool ZifyN.
From Verif Require Import Base M_SegmentAlloc M_Intrin M_Sdnv S_Sdnv L_Intrin L_Sdnv P_Sdnv L_SdnvRead M_LtpCodec S_LtpCodec.
Import ListNotations.
Open Scope N_scope.

(** The writer has written [pre] at the start of a buffer of [size] bytes. *)
Definition wok (size : nat) (w : wr) (pre : list N) : Prop := length (fst w) = size /\ snd w = length pre /\ firstn (snd w) (fst w) = pre.
Lemma wr_bytes_ok size w pre d : wok size w pre -> (length pre + length d <= size)%nat -> exists w', wr_bytes w d = Some w' /\ wok size w' (pre ++ d).
Proof.
  intros (L & P & F) H. destruct w as [buf p]. cbn [fst snd] in *. unfold wr_bytes, write_at. cbn [fst snd]. subst p. replace (Nat.leb (length pre + length d) (length buf)) with true by (symmetry; apply Nat.leb_le; lia).
  cbn [option_map]. eexists. split; [reflexivity|]. rewrite F. unfold wok. cbn [fst snd]. rewrite !app_length, skipn_length. split; [lia|]. split; [reflexivity|].
  rewrite app_assoc, firstn_app, app_length, Nat.sub_diag. cbn [firstn]. rewrite app_nil_r, <- app_length. apply firstn_all.
Qed.
Lemma wr_sdnv_ok size w pre v : wok size w pre -> v < W64 -> (length pre + 10 <= size)%nat -> exists w' sd, wr_sdnv w v = Some w' /\ sdnv_for v sd /\ wok size w' (pre ++ sd).
Proof.
  intros (L & P & F) V H. destruct w as [buf p]. cbn [fst snd] in *. unfold wr_sdnv. cbn [fst snd]. subst p.
  destruct (encode64_fast_ok v (skipn (length pre) buf) V) as (jk & E & LJ); [rewrite skipn_length; lia|]. destruct (branch64 v V) as (A & B & C). set (n := sdnv_branch sdnv64_max 1 v) in *.
  rewrite E. eexists. exists (enc n v). split; [reflexivity|]. assert (LE : length (enc n v) = n) by (apply enc_length; lia).
  destruct (enc_shortest n v ltac:(lia) B C) as (S1 & S2 & _). split; [repeat split; [exact S1|lia|exact S2|exact V]|].
  rewrite F. unfold wok. cbn [fst snd]. rewrite Nat2N.id, !app_length, !skipn_length, LE. split; [lia|]. split; [reflexivity|].
  rewrite app_assoc, firstn_app, app_length, LE, Nat.sub_diag. cbn [firstn]. rewrite app_nil_r. replace (length pre + n)%nat with (length (pre ++ enc n v)) by (rewrite app_length; lia). apply firstn_all.
Qed.
Lemma sdnvs_length vs bs : sdnvs vs bs -> (length bs <= 10 * length vs)%nat.
Proof. induction 1 as [|v sd vs bs S1 S2 IH]; [cbn; lia|]. rewrite app_length. cbn [length]. destruct S1 as (_ & L & _). lia. Qed.
Lemma wr_sdnvs_ok size vs : forall w pre, wok size w pre -> Forall (fun v => v < W64) vs -> (length pre + 10 * length vs <= size)%nat ->
  exists w' bs, wr_sdnvs w vs = Some w' /\ sdnvs vs bs /\ wok size w' (pre ++ bs).
Proof.
  induction vs as [|v vs IH]; intros w pre W F L; cbn [wr_sdnvs].
  - exists w, []. rewrite app_nil_r. repeat split; try apply W. constructor.
  - inversion F as [|? ? F1 F2]; subst. cbn [length] in L. destruct (wr_sdnv_ok size w pre v W F1 ltac:(lia)) as (w1 & sd & -> & S1 & W1).
    destruct (IH w1 (pre ++ sd) W1 F2) as (w2 & bs & -> & S2 & W2); [rewrite app_length; destruct S1 as (_ & LS & _); lia|].
    exists w2, (sd ++ bs). rewrite app_assoc. split; [reflexivity|]. split; [now constructor|exact W2].
Qed.
Definition ext_size (x : list ext) : nat := fold_right (fun e a => 11 + length (snd e) + a)%nat 0%nat x.
Lemma max_exts_size x : max_exts x = ext_size x.
Proof.
  unfold max_exts. assert (G : forall l a, fold_left (fun a e => a + length (snd e))%nat l (a + length l * 11)%nat = (a + ext_size l)%nat).
  { induction l as [|e l IH]; intros a; cbn [fold_left ext_size fold_right length]; [lia|].
    replace (a + S (length l) * 11 + length (snd e))%nat with ((a + 11 + length (snd e)) + length l * 11)%nat by lia. rewrite IH. unfold ext_size. lia. }
  apply (G x 0%nat).
Qed.
Lemma wire_exts_length x bs : wire_exts x bs -> (length bs <= ext_size x)%nat.
Proof.
  induction 1 as [|t v sd x bs B1 B2 S W IH]; [cbn; lia|]. cbn [ext_size fold_right length snd]. rewrite !app_length. destruct S as (_ & L & _). unfold ext_size in IH. lia.
Qed.
Lemma wr_exts_ok size x : forall w pre, wok size w pre -> Forall ext_ok x -> (length pre + ext_size x <= size)%nat ->
  exists w' bs, wr_exts w x = Some w' /\ wire_exts x bs /\ wok size w' (pre ++ bs).
Proof.
  induction x as [|[t v] x IH]; intros w pre W F L; cbn [wr_exts].
  - exists w, []. rewrite app_nil_r. repeat split; try apply W. constructor.
  - inversion F as [|? ? F1 F2]; subst. destruct F1 as (F3 & F4 & F5). cbn [fst snd] in *. cbn [ext_size fold_right snd] in L. fold (ext_size x) in L. unfold wr_ext. cbn [fst snd].
    destruct (wr_bytes_ok size w pre [t] W) as (w1 & -> & W1); [cbn [length]; lia|].
    destruct (wr_sdnv_ok size w1 (pre ++ [t]) (N.of_nat (length v)) W1 F5) as (w2 & sd & -> & S & W2); [rewrite app_length; cbn [length]; lia|].
    destruct (wr_bytes_ok size w2 ((pre ++ [t]) ++ sd) v W2) as (w3 & -> & W3); [rewrite !app_length; cbn [length]; destruct S as (_ & LS & _); lia|].
    destruct (IH w3 (((pre ++ [t]) ++ sd) ++ v) W3 F2) as (w4 & bs & -> & WX & W4); [rewrite !app_length; cbn [length]; destruct S as (_ & LS & _); lia|].
    exists w4, (t :: sd ++ v ++ bs). split; [reflexivity|]. split; [now constructor|].
    replace (pre ++ t :: sd ++ v ++ bs) with ((((pre ++ [t]) ++ sd) ++ v) ++ bs) by (rewrite <- !app_assoc; reflexivity). exact W4.
Qed.
Lemma gen_ok flags eng num hx room vs tail nt tx stale : eng < W64 -> num < W64 -> Forall ext_ok hx -> Forall ext_ok tx -> Forall (fun v => v < W64) vs ->
  (10 * length vs + length tail <= room)%nat ->
  exists sid hb vb tb, sdnvs [eng; num] sid /\ wire_exts hx hb /\ sdnvs vs vb /\ wire_exts tx tb /\
    gen flags eng num hx room vs tail nt tx stale = Some (flags :: sid ++ N.lor (N.shiftl (N.of_nat (length hx) mod 256) 4) nt mod 256 :: hb ++ vb ++ tail ++ tb).
Proof.
  intros HE HN HX TX HV R. unfold gen. cbn zeta. rewrite !max_exts_size. set (size := (1 + 1 + 2 * 10 + room + ext_size hx + ext_size tx)%nat).
  set (buf := firstn size (stale ++ repeat 0 size)). set (cnt := N.lor _ nt mod 256).
  assert (W0 : wok size (buf, 0%nat) []). { split; [|split; reflexivity]. unfold buf. cbn [fst]. rewrite firstn_length, app_length, repeat_length. lia. }
  destruct (wr_bytes_ok size _ [] [flags] W0) as (w1 & -> & W1); [cbn; lia|].
  destruct (wr_sdnvs_ok size [eng; num] w1 _ W1) as (w2 & sid & -> & S1 & W2); [repeat constructor; assumption|cbn [length app]; lia|]. pose proof (sdnvs_length _ _ S1) as L1. cbn [length] in L1.
  destruct (wr_bytes_ok size w2 _ [cnt] W2) as (w3 & -> & W3); [rewrite !app_length; cbn [length]; lia|].
  destruct (wr_exts_ok size hx w3 _ W3 HX) as (w4 & hb & -> & X1 & W4); [rewrite !app_length; cbn [length]; lia|]. pose proof (wire_exts_length _ _ X1) as L2.
  destruct (wr_sdnvs_ok size vs w4 _ W4 HV) as (w5 & vb & -> & S2 & W5); [rewrite !app_length; cbn [length]; lia|]. pose proof (sdnvs_length _ _ S2) as L3.
  destruct (wr_bytes_ok size w5 _ tail W5) as (w6 & -> & W6); [rewrite !app_length; cbn [length]; lia|].
  destruct (wr_exts_ok size tx w6 _ W6 TX) as ([b p] & tb & -> & X2 & W7); [rewrite !app_length; cbn [length]; lia|].
  exists sid, hb, vb, tb. repeat (split; [assumption|]). destruct W7 as (_ & _ & E). cbn [fst snd] in E. rewrite E. f_equal. rewrite <- !app_assoc. reflexivity.
Qed.
Lemma count_byte a b : (a <= 15)%nat -> (b <= 15)%nat -> N.lor (N.shiftl (N.of_nat a mod 256) 4) (N.of_nat b mod 256) mod 256 = 16 * N.of_nat a + N.of_nat b.
Proof.
  intros A B. rewrite (N.mod_small (N.of_nat a)), (N.mod_small (N.of_nat b)) by lia.
  assert (G : forallb (fun a => forallb (fun b => N.lor (N.shiftl (N.of_nat a) 4) (N.of_nat b) mod 256 =? 16 * N.of_nat a + N.of_nat b) (seq 0 16)) (seq 0 16) = true) by (vm_compute; reflexivity).
  rewrite forallb_forall in G. specialize (G a ltac:(apply in_seq; lia)). rewrite forallb_forall in G. specialize (G b ltac:(apply in_seq; lia)). now apply N.eqb_eq in G.
Qed.
