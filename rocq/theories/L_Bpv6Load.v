(** Lemmas for C37-C39: the primary block, the block header and loading of a whole bundle. *)
From Coq Require Import NArith ZArith List Bool Lia ZifyBool ZifyN.
From Verif Require Import Base M_FragmentSet M_Sdnv M_Acs M_Uri M_Bpv6Block M_BundleV6 S_Acs S_Sdnv S_Uri S_Bpv6 L_Sdnv P_Sdnv L_SdnvRead L_Acs L_Bpv6Read.
Import ListNotations.
Open Scope N_scope.

(** ** SDNV arrays *)
Lemma array_prefix n bs q : array_spec n bs q -> forall vs t, q = Some (vs, t) -> exists p rest, bs = p ++ rest /\ sdnvs vs p /\ t = N.of_nat (length p).
Proof.
  induction 1 as [bs|n bs D|n bs D|n p rest D S A IH|n p rest vs t D S A IH]; intros vs' t' E; try discriminate.
  - injection E as <- <-. exists [], bs. repeat split. constructor.
  - injection E as <- <-. exists [], bs. repeat split. constructor.
  - injection E as <- <-. destruct (IH vs t eq_refl) as (p2 & rest2 & -> & S2 & ->). exists (p ++ p2), rest2. rewrite <- app_assoc. split; [reflexivity|].
    split; [|rewrite app_length; lia]. constructor; [|exact S2].
    remember (p ++ p2 ++ rest2) as bs eqn:EB. remember (sdnv_value p, N.of_nat (length p)) as r eqn:ER.
    assert (NE : (0 < length p)%nat) by (destruct S as (i & l & -> & _); rewrite app_length; cbn; lia).
    destruct D as [p' r' E1 S1 L1 V1| | |]; injection ER as E2 E3; try (rewrite <- E3 in NE; lia); try lia.
    assert (LP : length p' = length p) by lia. split; [exact S|]. split; [lia|]. split; [reflexivity|lia].
Qed.
Lemma array_away vs p : sdnvs vs p -> forall rest, Forall is_byte (p ++ rest) -> ~ runs_away (length vs) (p ++ rest).
Proof.
  induction 1 as [|v sd vs bs (S1 & S2 & S3 & S4) S IH]; intros rest Hb R; cbn [length] in R; [inversion R|].
  rewrite <- app_assoc in *. apply away_next in R; try assumption; [|lia]. apply (IH rest); [|exact R]. now apply Forall_app in Hb.
Qed.
Lemma array_complete vs p : sdnvs vs p -> forall rest, Forall is_byte (p ++ rest) -> sdnv_array_fast (length vs) (p ++ rest) = Some (ArrOk vs (N.of_nat (length p))).
Proof.
  intros S rest Hb. rewrite (array_fast_arr _ _ Hb (array_away vs p S rest Hb)). f_equal. unfold embed. cbn [rev app].
  assert (G : arr (length vs) (p ++ rest) = Some (vs, N.of_nat (length p))); [|rewrite G; f_equal; lia].
  revert rest Hb. induction S as [|v sd vs bs S1 S2 IH]; intros rest Hb; [reflexivity|]. cbn [length arr]. rewrite <- app_assoc in *.
  pose proof (decode_sdnv_for v sd (bs ++ rest) S1 ltac:(now apply Forall_app in Hb)) as D. rewrite decode64_closed in D by exact Hb.
  pose proof (sdnv_for_nonempty _ _ S1) as NE. injection D as ->. replace (N.of_nat (length sd) =? 0) with false by (destruct sd; [congruence|reflexivity]).
  rewrite Nat2N.id, skipn_len_app, IH by now apply Forall_app in Hb. f_equal. f_equal. rewrite app_length. lia.
Qed.
(** The outcomes of decoding an array. *)
Lemma array_cases n bs : Forall is_byte bs ->
  (sdnv_array_fast n bs = None /\ runs_away n bs) \/ sdnv_array_fast n bs = Some ArrError \/
  exists vs p rest, bs = p ++ rest /\ sdnvs vs p /\ sdnv_array_fast n bs = Some (ArrOk vs (N.of_nat (length p))).
Proof.
  intros Hb. destruct (runs_away_dec n bs Hb) as [A|A]; [left; split; [now apply C12_array_fast_undefined_iff|exact A]|right].
  destruct (C12_array_fast_meets_specification n bs Hb A) as (r & E & S). rewrite E. destruct r as [[vs t]|]; [right|now left].
  destruct (array_prefix n bs _ S vs t eq_refl) as (p & rest & -> & SV & ->). exists vs, p, rest. auto.
Qed.

(** ** Primary block *)
Lemma frag_bit flags : p_isfrag flags = fragment_flag flags.
Proof. apply low_bit. Qed.
Lemma admin_bit flags : p_isadmin flags = admin_flag flags.
Proof. unfold p_isadmin, admin_flag. rewrite N.land_comm. exact (bit_test flags 1). Qed.
Lemma prim_complete p pb rest : wire_primary p pb -> Forall is_byte (pb ++ rest) -> prim_read (pb ++ rest) = Some (Some (p, rest)).
Proof.
  intros (sd & fr & -> & S & F) Hb. destruct p as [flags len [d1 d2] [s1 s2] [r1 r2] [c1 c2] t q life off total].
  cbn [p_flags p_len p_dest p_src p_report p_cust p_time p_seq p_life p_off p_total fst snd] in *. change ((6 :: sd ++ fr) ++ rest) with (6 :: (sd ++ fr) ++ rest) in *. apply Forall_inv_tail in Hb. rewrite <- app_assoc in *. cbn [prim_read].
  change (6 =? 6) with true. cbn [negb]. pose proof (array_complete _ _ S _ Hb) as E. cbn [length] in E. rewrite E.
  change (0 =? 0) with true. cbn [negb]. rewrite Nat2N.id, skipn_len_app, frag_bit. destruct (fragment_flag flags).
  - pose proof (array_complete _ _ F rest ltac:(now apply Forall_app in Hb)) as E2. cbn [length] in E2. rewrite E2, Nat2N.id, skipn_len_app. reflexivity.
  - destruct F as (-> & -> & ->). reflexivity.
Qed.
Definition prim_sound_spec (bs : list N) : Prop :=
  (prim_read bs = None /\ primary_runs_away bs) \/ prim_read bs = Some None \/
  exists p pb rest, bs = pb ++ rest /\ wire_primary p pb /\ prim_read bs = Some (Some (p, rest)).
Lemma prim_sound bs : Forall is_byte bs -> prim_sound_spec bs.
Proof.
  unfold prim_sound_spec. intros Hb. destruct bs as [|version r]; [right; now left|]. cbn [prim_read]. destruct (N.eqb_spec version 6) as [->|]; cbn [negb]; [|right; now left].
  apply Forall_inv_tail in Hb. destruct (array_cases 14 r Hb) as [(E & A)|[E|(vs & p & rest & -> & S & E)]]; rewrite E.
  - left. split; [reflexivity|]. exists r. auto.
  - right. now left.
  - do 14 (destruct vs as [|? vs]; [right; now left|]). destruct vs as [|? vs]; [|right; now left].
    destruct (N.eqb_spec n12 0) as [->|]; cbn [negb]; [|right; now left]. rewrite Nat2N.id, skipn_len_app, frag_bit.
    destruct (fragment_flag n) eqn:FF.
    + assert (Hr : Forall is_byte rest) by now apply Forall_app in Hb. destruct (array_cases 2 rest Hr) as [(E2 & A2)|[E2|(vs2 & p2 & rest2 & -> & S2 & E2)]]; rewrite E2.
      * left. split; [reflexivity|]. exists (p ++ rest). split; [reflexivity|]. right. exists n, [n0; n1; n2; n3; n4; n5; n6; n7; n8; n9; n10; n11], p, rest. auto.
      * right. now left.
      * do 2 (destruct vs2 as [|? vs2]; [right; now left|]). destruct vs2 as [|? vs2]; [|right; now left]. right. right.
        eexists. exists (6 :: p ++ p2), rest2. split; [cbn [app]; now rewrite <- app_assoc|]. rewrite Nat2N.id, skipn_len_app. split; [|reflexivity].
        exists p, p2. split; [reflexivity|]. cbn [p_flags p_len p_dest p_src p_report p_cust p_time p_seq p_life p_off p_total fst snd]. rewrite FF. auto.
    + right. right. eexists. exists (6 :: p), rest. split; [reflexivity|]. split; [|reflexivity].
      exists p, []. rewrite app_nil_r. split; [reflexivity|]. cbn [p_flags p_len p_dest p_src p_report p_cust p_time p_seq p_life p_off p_total fst snd]. rewrite FF. auto.
Qed.
Lemma prim_away bs : Forall is_byte bs -> primary_runs_away bs -> prim_read bs = None.
Proof.
  intros Hb (r & -> & H). cbn [prim_read]. change (6 =? 6) with true. cbn [negb]. apply Forall_inv_tail in Hb. destruct H as [A|(flags & vs & sd & rest & -> & L & S & F & A)].
  - rewrite (proj2 (C12_array_fast_undefined_iff 14 r Hb) A). reflexivity.
  - pose proof (array_complete _ _ S rest Hb) as E. cbn [length] in E. rewrite app_length in E. cbn [length] in E. replace (Datatypes.S (length vs + 1)%nat) with 14%nat in E by lia. rewrite E.
    do 12 (destruct vs as [|? vs]; [discriminate|]). destruct vs; [|discriminate]. cbn [app]. change (0 =? 0) with true. cbn [negb]. rewrite Nat2N.id, skipn_len_app, frag_bit, F.
    rewrite (proj2 (C12_array_fast_undefined_iff 2 rest ltac:(now apply Forall_app in Hb)) A). reflexivity.
Qed.

(** ** Block header *)
Definition header_form (h : N * N * list N) (bs : list N) : Prop := wire_block (fst (fst h)) (snd (fst h)) (snd h) bs.
Lemma one_byte_sdnv f : f < 128 -> sdnv_for f [f].
Proof.
  intros H. split; [|split; [cbn; lia|split; [|unfold W64; lia]]].
  - exists [], f. split; [reflexivity|]. split; [constructor|exact H].
  - unfold sdnv_value. cbn [fold_left]. rewrite N.mod_small by exact H. lia.
Qed.
Lemma sdnv_low_first v f r : sdnv_for v (f :: r) -> f <= 127 -> r = [] /\ v = f.
Proof.
  intros ((i & l & E & F & L) & _ & V & _) H. destruct i as [|x i].
  - injection E as -> ->. split; [reflexivity|]. unfold sdnv_value in V. cbn [fold_left] in V. rewrite N.mod_small in V by exact L. lia.
  - injection E as -> ->. pose proof (Forall_inv F) as Q. cbn in Q. lia.
Qed.
Lemma header_reads : reads header_read header_form.
Proof.
  split.
  - intros [[type flags] data] p rest (f & l & -> & BT & SF & SL) Hb. cbn [fst snd] in *. change ((type :: f ++ l ++ data) ++ rest) with (type :: (f ++ l ++ data) ++ rest) in *. rewrite <- !app_assoc in *.
    pose proof (sdnv_for_nonempty _ _ SF) as NE. destruct f as [|f0 f]; [congruence|]. apply Forall_inv_tail in Hb. cbn [app header_read skipn].
    assert (Q : (if f0 <=? 127 then Some (Some (f0, f ++ l ++ data ++ rest)) else rd64 (f0 :: f ++ l ++ data ++ rest)) = Some (Some (flags, l ++ data ++ rest))).
    { destruct (N.leb_spec f0 127) as [Z|Z].
      - destruct (sdnv_low_first _ _ _ SF Z) as (-> & ->). reflexivity.
      - exact (proj1 rd64_reads flags (f0 :: f) (l ++ data ++ rest) SF Hb). }
    rewrite Q. cbn [bind2]. assert (Hb2 : Forall is_byte (l ++ data ++ rest)) by (change (Forall is_byte ((f0 :: f) ++ l ++ data ++ rest)) in Hb; now apply Forall_app in Hb).
    rewrite (proj1 rd64_reads _ _ _ SL Hb2). cbn [bind2]. replace (N.of_nat (length (data ++ rest)) <? N.of_nat (length data)) with false by (rewrite app_length; lia).
    rewrite Nat2N.id, firstn_len_app, skipn_len_app. reflexivity.
  - intros bs Hb. destruct bs as [|type [|f r]]; [eexists; split; [reflexivity|discriminate]..|]. cbn [header_read skipn]. pose proof (Forall_inv Hb) as BT. apply Forall_inv_tail in Hb.
    assert (Q : exists q, (if f <=? 127 then Some (Some (f, r)) else rd64 (f :: r)) = Some q /\ forall flags r1, q = Some (flags, r1) -> exists fb, f :: r = fb ++ r1 /\ sdnv_for flags fb).
    { destruct (N.leb_spec f 127) as [Z|Z].
      - eexists. split; [reflexivity|]. intros flags r1 E. injection E as <- <-. exists [f]. split; [reflexivity|]. apply one_byte_sdnv. lia.
      - exact (proj2 rd64_reads (f :: r) Hb). }
    destruct Q as (q & -> & K). destruct q as [[flags r1]|]; cbn [bind2]; [|eexists; split; [reflexivity|discriminate]].
    destruct (K flags r1 eq_refl) as (fb & EF & SF). rewrite EF in *. assert (Hb2 : Forall is_byte r1) by now apply Forall_app in Hb.
    destruct (proj2 rd64_reads r1 Hb2) as (q & -> & K2). destruct q as [[len r2]|]; cbn [bind2]; [|eexists; split; [reflexivity|discriminate]].
    destruct (K2 len r2 eq_refl) as (lb & -> & SL). destruct (N.ltb_spec (N.of_nat (length r2)) len) as [Z|Z]; (eexists; split; [reflexivity|]); [discriminate|].
    intros x rest E. injection E as <- <-. exists (type :: fb ++ lb ++ firstn (N.to_nat len) r2). split.
    + cbn [app]. rewrite <- !app_assoc, firstn_skipn. reflexivity.
    + exists fb, lb. cbn [fst snd]. split; [reflexivity|]. split; [exact BT|]. split; [exact SF|]. rewrite firstn_length, Nat.min_l, N2Nat.id by lia. exact SL.
Qed.
Lemma wire_block_length type flags data bs : wire_block type flags data bs -> (3 + length data <= length bs)%nat.
Proof.
  intros (f & l & -> & _ & S1 & S2). cbn [length]. rewrite !app_length. pose proof (sdnv_for_nonempty _ _ S1). pose proof (sdnv_for_nonempty _ _ S2). destruct f, l; try congruence. cbn [length]. lia.
Qed.

(** ** Loading *)
Lemma has_last c : has_flag last_flag c = N.testbit (k_flags (c_blk c)) 3.
Proof. unfold has_flag. rewrite N.land_comm. exact (bit_test _ 3). Qed.
Lemma firstn_drop (A : Type) (a b : list A) : firstn (length (a ++ b) - length b) (a ++ b) = a.
Proof. rewrite app_length. replace (length a + length b - length b)%nat with (length a) by lia. apply firstn_len_app. Qed.
Lemma load_blocks_complete last isAdmin cs bs : wire_blocks cs bs -> Forall (cbv_data last isAdmin) cs -> Forall is_byte bs ->
  forall fuel, (length bs < fuel)%nat -> load_blocks last isAdmin fuel bs = Some (Some cs).
Proof.
  assert (Step : forall c bs rest fuel, cbv_wire c bs -> cbv_data last isAdmin c -> Forall is_byte (bs ++ rest) ->
    load_blocks last isAdmin (S fuel) (bs ++ rest) =
      (if N.testbit (k_flags (c_blk c)) 3 then match rest with [] => Some (Some [c]) | _ => Some None end
       else match rest with [] => Some None | _ => try l <- load_blocks last isAdmin fuel rest; Some (Some (c :: l)) end)).
  { intros c b rest fuel (data & KD & KL & CA & CD & CX & W) (data' & KD' & DF) Hb. rewrite KD in KD'. injection KD' as <-. cbn [load_blocks].
    rewrite (proj1 header_reads (k_type (c_blk c), k_flags (c_blk c), data) b rest W Hb). cbn [bind2].
    assert (HD : Forall is_byte data) by (destruct W as (f & l & -> & _); apply Forall_app in Hb; destruct Hb as [Hb _]; apply Forall_inv_tail in Hb; apply Forall_app in Hb; destruct Hb as [_ Hb]; now apply Forall_app in Hb).
    rewrite (proj2 (content_read_exact last isAdmin _ data _ HD) DF). cbn [bind2]. cbv zeta. rewrite has_last, firstn_drop. cbn [c_blk k_flags].
    destruct c as [[type flags len kd content] actual dirty del]. cbn [c_blk k_type k_flags k_len k_data k_content c_actual c_dirty c_del] in *. subst. reflexivity. }
  intros W. induction W as [c bs W T|c bs cs bs' W T WB IH]; intros D Hb fuel L; (destruct fuel as [|fuel]; [lia|]).
  - rewrite <- (app_nil_r bs) in Hb |- *. rewrite (Step c bs [] fuel W (Forall_inv D) Hb), T. reflexivity.
  - rewrite (Step c bs bs' fuel W (Forall_inv D) Hb), T. pose proof (Forall_inv_tail D) as D2.
    assert (3 <= length bs)%nat by (destruct W as (data & _ & _ & _ & _ & _ & W); apply wire_block_length in W; lia).
    assert (NE : bs' <> []) by (destruct WB as [c' bs' W' _|c' b1 cs' b2 W' _ _]; destruct W' as (data & _ & _ & _ & _ & _ & W'); apply wire_block_length in W'; [destruct bs'|destruct b1]; cbn in W'; try lia; discriminate).
    rewrite IH; [|exact D2|now apply Forall_app in Hb|rewrite app_length in L; lia]. cbn [bind2]. destruct bs'; [congruence|reflexivity].
Qed.
Lemma load_blocks_sound last isAdmin : forall fuel bs, Forall is_byte bs -> (length bs < fuel)%nat ->
  exists r, load_blocks last isAdmin fuel bs = Some r /\ forall cs, r = Some cs -> wire_blocks cs bs /\ Forall (cbv_data last isAdmin) cs.
Proof.
  induction fuel as [|fuel IH]; intros bs Hb L; [lia|]. cbn [load_blocks]. destruct (proj2 header_reads bs Hb) as (r & -> & K).
  destruct r as [[[[type flags] data] rest]|]; cbn [bind2]; [|eexists; split; [reflexivity|discriminate]].
  destruct (K _ rest eq_refl) as (b & -> & W). unfold header_form in W. cbn [fst snd] in W. pose proof (wire_block_length _ _ _ _ W) as LB.
  assert (HD : Forall is_byte data) by (destruct W as (f & l & -> & _); apply Forall_app in Hb; destruct Hb as [Hb _]; apply Forall_inv_tail in Hb; apply Forall_app in Hb; destruct Hb as [_ Hb]; now apply Forall_app in Hb).
  destruct (content_read_total last isAdmin type data HD) as (q & E). rewrite E. destruct q as [c|]; cbn [bind2]; [|eexists; split; [reflexivity|discriminate]].
  apply (content_read_exact last isAdmin type data c HD) in E. cbv zeta. rewrite has_last, firstn_drop. cbn [c_blk k_flags].
  set (cb := mkCbv (mkBlock type flags (N.of_nat (length data)) (Some data) c) b false false).
  assert (CW : cbv_wire cb b) by (exists data; repeat split; auto). assert (CD : cbv_data last isAdmin cb) by (exists data; auto).
  destruct (N.testbit flags 3) eqn:T.
  - destruct rest as [|x rest]; (eexists; split; [reflexivity|]); [|discriminate]. intros cs Q. injection Q as <-. rewrite app_nil_r. split; [now constructor|]. repeat constructor. exact CD.
  - destruct rest as [|x rest]; [eexists; split; [reflexivity|discriminate]|]. destruct (IH (x :: rest)) as (q & -> & K2); [now apply Forall_app in Hb|rewrite app_length in L; lia|].
    destruct q as [l|]; cbn [bind2]; (eexists; split; [reflexivity|]); [|discriminate]. intros cs Q. injection Q as <-. destruct (K2 l eq_refl) as (A & B).
    split; [now constructor|now constructor].
Qed.
