(** Property C28: LTP segments. Vocabulary: S_LtpCodec.v. *)
From Coq Require Import NArith ZArith List Bool Lia ZifyBool ZifyN.
From Verif Require Import Base M_SegmentAlloc M_Intrin M_Sdnv S_Sdnv L_Sdnv P_Sdnv L_SdnvRead M_LtpCodec S_LtpCodec L_LtpCodec L_LtpSim L_LtpFeed L_LtpWire L_LtpGen.
Import ListNotations.
Open Scope N_scope.

Lemma begin_inv s : at_beginning s = true -> inv s /\ abs s = RCtl /\ hist [] s /\ hist2 [] s.
Proof.
  intros H. unfold at_beginning in H. assert (E : l_st s = SHead 0) by (destruct (l_st s) as [[|p]| | | | |]; (reflexivity || discriminate)).
  unfold inv, abs, hist, hist2. rewrite E. repeat split; auto.
Qed.
Lemma abs_begin s : inv s -> at_beginning s = match abs s with RCtl => true | _ => false end.
Proof.
  intros I. unfold at_beginning, abs. unfold inv in I. destruct (l_st s) as [k|k|k| | |k]; try reflexivity.
  - destruct I as [->|[(-> & _)|[(-> & _)|[->|([->|[(-> & _)|(-> & _)]] & _)]]]]; reflexivity.
  - destruct k as [|[[[?|?|]|[?|?|]|]|[[?|?|]|[?|?|]|]|]]; reflexivity.
  - destruct k as [|[[[?|?|]|[?|?|]|]|[[?|?|]|[?|?|]|]|]]; reflexivity.
  - destruct k as [|[?|?|]]; reflexivity.
Qed.
Lemma sdnvs_bytes vs bs : sdnvs vs bs -> Forall is_byte bs.
Proof. induction 1 as [|v sd vs bs S1 S2 IH]; [constructor|]. apply Forall_app. split; [now apply (sdnv_for_bytes v)|exact IH]. Qed.
Lemma exts_bytes x bs : wire_exts x bs -> Forall is_byte bs.
Proof. induction 1 as [|t v sd xs bs H1 H2 S W IH]; [constructor|]. constructor; [exact H1|]. repeat (apply Forall_app; split; auto). now apply (sdnv_for_bytes (N.of_nat (length v))). Qed.
Lemma wire_bytes g bs : wire g bs -> Forall is_byte bs.
Proof.
  intros [g0 sid hb cb tb L1 L2 S1 X1 C X2]. constructor.
  - destruct C as [? ? ? ? ? IF|? ? ? ? ? ? ? IF| | |s ?|s]; cbn [type_flags]; unfold is_byte; try (destruct s; reflexivity); try reflexivity; cbn in IF; lia.
  - apply Forall_app. split; [now apply (sdnvs_bytes _ _ S1)|]. constructor; [unfold is_byte; lia|]. apply Forall_app. split; [now apply (exts_bytes _ _ X1)|]. apply Forall_app. split; [|now apply (exts_bytes _ _ X2)].
    destruct C as [? ? ? ? ? ? ? S|? ? ? ? ? ? ? ? ? S|? ? ? ? ? ? S|? ? S|s ? B|s]; try (apply Forall_app; split; [now apply (sdnvs_bytes _ _ S)|assumption]); try (now apply (sdnvs_bytes _ _ S)); repeat constructor. exact B.
Qed.
Lemma stream_bytes gs bs : stream gs bs -> Forall is_byte bs.
Proof. induction 1 as [|g b gs bs W S IH]; [constructor|]. apply Forall_app. split; [now apply (wire_bytes g)|exact IH]. Qed.

(** C28: any sequence of segments in any encoding, cut into calls anywhere: each is announced and reported with all its fields, in order, every
    call returns true, and the receiver is back at its beginning. [reuse d = d]: the caller leaves earlier packets' memory alone. *)
Theorem C28_any_chunking : forall junk alloc_ok reuse s gs chunks, junk_ok junk -> (forall n, alloc_ok n = true -> n < 2 ^ 35) -> (forall d, reuse d = d) ->
  at_beginning s = true -> stream gs (concat chunks) -> Forall (acceptable alloc_ok) gs ->
  exists s', calls junk alloc_ok reuse s chunks = FOk s' (callbacks gs) /\ at_beginning s' = true.
Proof.
  intros junk alloc reuse s gs chunks J BD R AB ST AC. destruct (begin_inv s AB) as (I & EA & _).
  pose proof (calls_sim junk alloc alloc J BD (fun _ H => H) reuse R chunks s I (stream_bytes _ _ ST)) as S.
  rewrite EA in S. unfold simF in S. rewrite (stream_run alloc gs _ ST AC) in S. cbn [fst snd] in S.
  destruct (calls junk alloc reuse s chunks) as [s' o|s' o|].
  - destruct S as [I' [S|[S _]]]; [|discriminate]. injection S as <- E. exists s'. split; [reflexivity|]. rewrite (abs_begin s' I'), <- E. reflexivity.
  - destruct S as [[_ D]|[S _]]; [|discriminate]. specialize (D 0). discriminate D.
  - destruct S as [(n & S1 & S2)|S]; [congruence|discriminate].
Qed.
Print Assumptions C28_any_chunking.
(** A checkpoint with one header extension and two trailer extensions, a report with two claims, a cancel. *)
Definition ex_gs : list segment :=
  [mkSeg 300 7 [(9, [1; 2])] (Data 1 1 0 (Some (5, 0)) [65; 66; 67]) [(1, []); (2, [7])]; mkSeg 300 7 [] (Report 11 5 500 0 [(0, 100); (200, 300)]) []; mkSeg 300 7 [] (Cancel true 4) []].
Definition ex_bytes : list N :=
  [1; 130; 44; 7; 18; 9; 2; 1; 2; 1; 0; 3; 5; 0; 65; 66; 67; 1; 0; 2; 1; 7; 8; 130; 44; 7; 0; 11; 5; 131; 116; 0; 2; 0; 100; 129; 72; 130; 44; 12; 130; 44; 7; 0; 4].
Definition ex_alloc (n : N) : bool := n <? 1048576.
Definition ex_rx : ltp := mkLtp (SHead 0) [9] (mkLh 1 2 3 4 5 [] [] 6 7) (mkLm 1 2 3 4 5 true) [1] (RawPkt [9]) (mkLr 1 2 3 4 5 []) 6 7.
Ltac sdnv_ex i l := split; [exists i, l; split; [reflexivity|split; [repeat constructor; lia|lia]]|split; [cbn; lia|split; [reflexivity|unfold W64, U64MAX; cbn; lia]]].
Ltac sd1 l := match goal with |- sdnvs (?v :: ?vs) (?x :: ?bs) => change (x :: bs) with ([x] ++ bs); apply SdCons; [sdnv_ex (@nil N) l|] end.
Ltac sd2 a l := match goal with |- sdnvs (?v :: ?vs) (?x :: ?y :: ?bs) => change (x :: y :: bs) with ([x; y] ++ bs); apply SdCons; [sdnv_ex [a] l|] end.
Lemma ex_stream : stream ex_gs ex_bytes.
Proof.
  unfold ex_gs, ex_bytes.
  change (stream ex_gs ([1; 130; 44; 7; 18; 9; 2; 1; 2; 1; 0; 3; 5; 0; 65; 66; 67; 1; 0; 2; 1; 7] ++ [8; 130; 44; 7; 0; 11; 5; 131; 116; 0; 2; 0; 100; 129; 72; 130; 44] ++ [12; 130; 44; 7; 0; 4] ++ [])).
  apply StCons; [|apply StCons; [|apply StCons; [|apply StNil]]].
  - apply (Wire (mkSeg 300 7 [(9, [1; 2])] (Data 1 1 0 (Some (5, 0)) [65; 66; 67]) [(1, []); (2, [7])]) [130; 44; 7] [9; 2; 1; 2] [1; 0; 3; 5; 0; 65; 66; 67] [1; 0; 2; 1; 7]); cbn [g_hx g_tx g_eng g_num g_content length]; try lia.
    + sd2 130 44. sd1 7. apply SdNil.
    + change [9; 2; 1; 2] with (9 :: [2] ++ [1; 2] ++ []). apply WxCons; [reflexivity|repeat constructor|sdnv_ex (@nil N) 2|apply WxNil].
    + change [1; 0; 3; 5; 0; 65; 66; 67] with ([1; 0; 3; 5; 0] ++ [65; 66; 67]). apply WCheckpoint; [cbn; tauto|repeat constructor|]. cbn [length N.of_nat Pos.of_succ_nat Pos.succ]. sd1 1. sd1 0. sd1 3. sd1 5. sd1 0. apply SdNil.
    + change [1; 0; 2; 1; 7] with (1 :: [0] ++ [] ++ 2 :: [1] ++ [7] ++ []). apply WxCons; [reflexivity|constructor|sdnv_ex (@nil N) 0|]. apply WxCons; [reflexivity|repeat constructor|sdnv_ex (@nil N) 1|apply WxNil].
  - apply (Wire (mkSeg 300 7 [] (Report 11 5 500 0 [(0, 100); (200, 300)]) []) [130; 44; 7] [] [11; 5; 131; 116; 0; 2; 0; 100; 129; 72; 130; 44] []); cbn [g_hx g_tx g_eng g_num g_content length]; try lia; try apply WxNil.
    + sd2 130 44. sd1 7. apply SdNil.
    + apply WReport. cbn [length N.of_nat Pos.of_succ_nat Pos.succ app flat_map fst snd]. sd1 11. sd1 5. sd2 131 116. sd1 0. sd1 2. sd1 0. sd1 100. sd2 129 72. sd2 130 44. apply SdNil.
  - apply (Wire (mkSeg 300 7 [] (Cancel true 4) []) [130; 44; 7] [] [4] []); cbn [g_hx g_tx g_eng g_num g_content length]; try lia; try apply WxNil.
    + sd2 130 44. sd1 7. apply SdNil.
    + apply WCancel. reflexivity.
Qed.
Lemma ex_accept : Forall (acceptable ex_alloc) ex_gs.
Proof. repeat (apply Forall_cons; [split; [repeat (apply Forall_cons; [(right; reflexivity) || (left; reflexivity)|]); apply Forall_nil|cbn; repeat split; try discriminate; repeat (apply Forall_cons; [discriminate|]); apply Forall_nil]|]); apply Forall_nil. Qed.
Example C28_any_chunking_ex : stream ex_gs ex_bytes /\ Forall (acceptable ex_alloc) ex_gs /\
  (exists s', calls (fun _ => repeat 255 30) ex_alloc (fun d => d) ex_rx [firstn 3 ex_bytes; firstn 12 (skipn 3 ex_bytes); []; skipn 15 ex_bytes] = FOk s' (callbacks ex_gs) /\ at_beginning s' = true) /\
  (exists s', calls (fun _ => repeat 255 30) ex_alloc (fun d => d) ex_rx (map (fun b => [b]) ex_bytes) = FOk s' (callbacks ex_gs) /\ at_beginning s' = true).
Proof.
  split; [exact ex_stream|]. split; [exact ex_accept|]. split; eexists; (split; [vm_compute; reflexivity|reflexivity]).
Qed.

(** C28, as the engine uses it: one call per packet made of whole segments; then nothing depends on earlier packets' memory. *)
Theorem C28_whole_packets : forall junk alloc_ok reuse s gss packets, junk_ok junk -> (forall n, alloc_ok n = true -> n < 2 ^ 35) ->
  at_beginning s = true -> Forall2 stream gss packets -> Forall (Forall (acceptable alloc_ok)) gss ->
  exists s', calls junk alloc_ok reuse s packets = FOk s' (callbacks (concat gss)) /\ at_beginning s' = true.
Proof.
  intros junk alloc reuse s gss packets J BD AB F. revert s AB. induction F as [|gs p gss packets ST F IH]; intros s AB A; cbn [calls concat]; [exists s; auto|].
  inversion A as [|? ? A1 A2]; subst. assert (AB' : at_beginning (age reuse s) = true) by (unfold age; destruct (l_raw s); exact AB).
  destruct (begin_inv _ AB') as (I & EA & _). pose proof (feed_sim junk alloc alloc J BD (fun _ H => H) (length p) (age reuse s) p (le_n _) I (stream_bytes _ _ ST)) as S.
  rewrite EA in S. unfold simF in S. rewrite (stream_run alloc gs _ ST A1) in S. cbn [fst snd] in S.
  destruct (feed_loop junk alloc (length p) (age reuse s) p) as [s1 o|s1 o|].
  - destruct S as [I' [S|[S _]]]; [|discriminate]. injection S as <- E. destruct (IH s1) as (s2 & -> & AB2); [rewrite (abs_begin s1 I'), <- E; reflexivity|exact A2|].
    exists s2. split; [|exact AB2]. unfold callbacks. now rewrite flat_map_app.
  - destruct S as [[_ D]|[S _]]; [|discriminate]. specialize (D 0). discriminate D.
  - destruct S as [(n & S1 & S2)|S]; [congruence|discriminate].
Qed.
Print Assumptions C28_whole_packets.
Example C28_whole_packets_ex : Forall2 stream [ex_gs; ex_gs] [ex_bytes; ex_bytes] /\
  exists s', calls (fun _ => []) ex_alloc (fun _ => [0]) ex_rx [ex_bytes; ex_bytes] = FOk s' (callbacks (ex_gs ++ ex_gs)) /\ at_beginning s' = true.
Proof. split; [repeat constructor; exact ex_stream|]. eexists. split; [vm_compute; reflexivity|reflexivity]. Qed.

(** C28: a segment not received to its end is not reported: at most its engine id has been announced, and the receiver is not at its beginning. *)
Theorem C28_cut_segment_is_not_reported : forall junk alloc_ok reuse s gs bs g p q chunks, junk_ok junk -> (forall n, alloc_ok n = true -> n < 2 ^ 35) -> (forall d, reuse d = d) ->
  at_beginning s = true -> stream gs bs -> wire g (p ++ q) -> Forall (acceptable alloc_ok) (gs ++ [g]) -> p <> [] -> q <> [] -> concat chunks = bs ++ p ->
  exists s' o, calls junk alloc_ok reuse s chunks = FOk s' (callbacks gs ++ o) /\ at_beginning s' = false /\ (o = [] \/ o = [LcEngine (g_eng g)]).
Proof.
  intros junk alloc reuse s gs bs g p q chunks J BD R AB ST W AC NP NQ EC. destruct (begin_inv s AB) as (I & EA & _). apply Forall_app in AC. destruct AC as [AC AG]. inversion AG as [|? ? A1 _]; subst.
  assert (B : Forall is_byte (concat chunks)). { rewrite EC. apply Forall_app. split; [now apply (stream_bytes gs)|]. apply wire_bytes in W. now apply Forall_app in W. }
  pose proof (calls_sim junk alloc alloc J BD (fun _ H => H) reuse R chunks s I B) as S.
  destruct (cut_run alloc g p q W A1 NQ NP) as (o & r & E & NR & O).
  rewrite EA, EC in S. unfold simF in S. rewrite rrun_app, (stream_run alloc gs _ ST AC), E in S. cbn [fst snd] in S.
  destruct (calls junk alloc reuse s chunks) as [s' o'|s' o'|].
  - destruct S as [I' [S|[S _]]]; [|discriminate]. injection S as <- ER. exists s', o. split; [reflexivity|]. split; [|exact O]. rewrite (abs_begin s' I'), <- ER. now destruct r.
  - exfalso. destruct S as [[_ D]|[S _]]; [|discriminate]. pose proof (segment_run alloc g _ W A1) as G. rewrite rrun_app, E in G. destruct q as [|b q]; [contradiction|]. cbn [rrun] in G. rewrite (D b) in G. discriminate G.
  - destruct S as [(n & S1 & S2)|S]; [congruence|discriminate].
Qed.
Print Assumptions C28_cut_segment_is_not_reported.
Example C28_cut_segment_is_not_reported_ex :
  exists s', calls (fun _ => []) ex_alloc (fun d => d) ex_rx [firstn 20 ex_bytes; firstn 22 (skipn 20 ex_bytes)] = FOk s' (callbacks (firstn 2 ex_gs) ++ [LcEngine 300]) /\ at_beginning s' = false.
Proof. eexists. split; [vm_compute; reflexivity|reflexivity]. Qed.

(** C28: the outcome depends only on the bytes. Two receivers, whatever lay in their memories and however their allocators behave, given the same bytes
    in different chunks, with neither run undefined: the same segments are reported; if all calls return true on both sides, all callbacks are the same and
    both or neither are at the beginning. *)
Theorem C28_outcome_depends_only_on_bytes : forall j1 a1 u1 s1 c1 j2 a2 u2 s2 c2, junk_ok j1 -> junk_ok j2 -> (forall n, a1 n = true -> n < 2 ^ 35) -> (forall n, a2 n = true -> n < 2 ^ 35) ->
  (forall d, u1 d = d) -> (forall d, u2 d = d) -> at_beginning s1 = true -> at_beginning s2 = true -> Forall is_byte (concat c1) -> concat c1 = concat c2 ->
  match calls j1 a1 u1 s1 c1, calls j2 a2 u2 s2 c2 with
  | FUndef, _ | _, FUndef => True
  | FOk t1 o1, FOk t2 o2 => o1 = o2 /\ at_beginning t1 = at_beginning t2
  | FOk _ o1, FFail _ o2 | FFail _ o1, FOk _ o2 | FFail _ o1, FFail _ o2 => segments o1 = segments o2
  end.
Proof.
  intros j1 a1 u1 s1 c1 j2 a2 u2 s2 c2 J1 J2 B1 B2 U1 U2 A1 A2 B E. destruct (begin_inv s1 A1) as (I1 & E1 & _). destruct (begin_inv s2 A2) as (I2 & E2 & _).
  pose proof (calls_sim j1 a1 (fun _ => true) J1 B1 (fun _ _ => eq_refl) u1 U1 c1 s1 I1 B) as S1. rewrite E in B.
  pose proof (calls_sim j2 a2 (fun _ => true) J2 B2 (fun _ _ => eq_refl) u2 U2 c2 s2 I2 B) as S2. rewrite E1, E in S1. rewrite E2 in S2. unfold simF in S1, S2.
  destruct (rrun (fun _ => true) RCtl (concat c2)) as [o x]. cbn [fst snd] in *.
  destruct (calls j1 a1 u1 s1 c1) as [t1 o1|t1 o1|]; destruct (calls j2 a2 u2 s2 c2) as [t2 o2|t2 o2|]; try exact I.
  - destruct S1 as [V1 [S1|[_ (? & ?)]]]; [|discriminate]. destruct S2 as [V2 [S2|[_ (? & ?)]]]; [|discriminate].
    rewrite S1 in S2. injection S2 as <- S2. split; [reflexivity|]. rewrite (abs_begin t1 V1), (abs_begin t2 V2). now rewrite S2.
  - destruct S1 as [V1 [S1|[_ (? & ?)]]]; [|discriminate]. destruct S2 as [[S2 _]|[_ (? & ?)]]; [|discriminate]. congruence.
  - destruct S1 as [[S1 _]|[_ (? & ?)]]; [|discriminate]. destruct S2 as [V2 [S2|[_ (? & ?)]]]; [|discriminate]. congruence.
  - destruct S1 as [[S1 _]|[_ (? & ?)]]; [|discriminate]. destruct S2 as [[S2 _]|[_ (? & ?)]]; [|discriminate]. congruence.
Qed.
Print Assumptions C28_outcome_depends_only_on_bytes.
Example C28_outcome_depends_only_on_bytes_ex :
  (exists s', calls (fun _ => []) ex_alloc (fun d => d) ex_rx [ex_bytes ++ [16]] = FFail s' (callbacks ex_gs)) /\ (exists s', calls (fun _ => [7]) ex_alloc (fun d => d) ex_rx (map (fun b => [b]) (ex_bytes ++ [16])) = FFail s' (callbacks ex_gs)).
Proof. split; eexists; vm_compute; reflexivity. Qed.

(** C28: where one chunking is refused and the bytes go on, no other chunking is accepted, and the same segments are reported. *)
Theorem C28_rejection_is_final : forall j1 a1 u1 s1 c1 t1 o1 j2 a2 u2 s2 c2 more, junk_ok j1 -> junk_ok j2 -> (forall n, a1 n = true -> n < 2 ^ 35) -> (forall n, a2 n = true -> n < 2 ^ 35) ->
  (forall d, u1 d = d) -> (forall d, u2 d = d) -> at_beginning s1 = true -> at_beginning s2 = true -> calls j1 a1 u1 s1 c1 = FFail t1 o1 ->
  Forall is_byte (concat c2) -> concat c2 = concat c1 ++ more -> more <> [] ->
  calls j2 a2 u2 s2 c2 = FUndef \/ exists t2 o2, calls j2 a2 u2 s2 c2 = FFail t2 o2 /\ segments o2 = segments o1.
Proof.
  intros j1 a1 u1 s1 c1 t1 o1 j2 a2 u2 s2 c2 more J1 J2 B1 B2 U1 U2 A1 A2 F1 B E NM. destruct (begin_inv s1 A1) as (I1 & E1 & _). destruct (begin_inv s2 A2) as (I2 & E2 & _).
  assert (BB : Forall is_byte (concat c1)) by (rewrite E in B; now apply Forall_app in B).
  pose proof (calls_sim j1 a1 (fun _ => true) J1 B1 (fun _ _ => eq_refl) u1 U1 c1 s1 I1 BB) as S1.
  pose proof (calls_sim j2 a2 (fun _ => true) J2 B2 (fun _ _ => eq_refl) u2 U2 c2 s2 I2 B) as S2. rewrite E1, F1 in S1. rewrite E2, E in S2. unfold simF in S1, S2. rewrite rrun_app in S2.
  destruct S1 as [[S1 D]|[_ (? & ?)]]; [|discriminate]. destruct (rrun (fun _ => true) RCtl (concat c1)) as [o x]. cbn [fst snd] in *.
  assert (EN : (match x with None => (o, None) | Some r' => let (o2, y) := rrun (fun _ => true) r' more in (o ++ o2, y) end) = (o, None)).
  { destruct x as [r|]; [|reflexivity]. destruct more as [|b more]; [contradiction|]. cbn [rrun]. rewrite (D b). now rewrite app_nil_r. }
  rewrite EN in S2. cbn [fst snd] in S2. destruct (calls j2 a2 u2 s2 c2) as [t2 o2|t2 o2|].
  - destruct S2 as [_ [S2|[_ (? & ?)]]]; discriminate.
  - right. exists t2, o2. split; [reflexivity|]. destruct S2 as [[S2 _]|[_ (? & ?)]]; [|discriminate]. congruence.
  - now left.
Qed.
Print Assumptions C28_rejection_is_final.
(** Ten continuation bytes: refused when they come with the control byte, refused one byte later when they come alone. *)
Example C28_rejection_is_final_ex : (exists s', calls (fun _ => []) ex_alloc (fun d => d) ex_rx [0 :: repeat 128 10] = FFail s' []) /\
  (exists s', calls (fun _ => []) ex_alloc (fun d => d) ex_rx [[0]; repeat 128 10] = FOk s' []) /\ (exists s', calls (fun _ => []) ex_alloc (fun d => d) ex_rx [[0]; repeat 128 10; [5]] = FFail s' []).
Proof. repeat split; eexists; vm_compute; reflexivity. Qed.

(** C28: whatever a peer sends, in whatever chunks: the run is defined (no exception, nothing read or written out of bounds) unless the bytes contain
    32 consecutive ones with the top bit set, or an SDNV whose value (or 16 times it) is more memory than there is. *)
Theorem C28_arbitrary_bytes : forall junk alloc_ok reuse s chunks, junk_ok junk -> (forall n, alloc_ok n = true -> n < 2 ^ 35) -> at_beginning s = true ->
  Forall is_byte (concat chunks) -> calls junk alloc_ok reuse s chunks = FUndef -> has_run32 (concat chunks) \/ refused alloc_ok (concat chunks).
Proof.
  intros junk alloc reuse s chunks J BD AB B E. destruct (begin_inv s AB) as (I & _ & H & H2). pose proof (calls_why junk alloc J BD reuse chunks [] s I H H2 B) as W. now rewrite E in W.
Qed.
Print Assumptions C28_arbitrary_bytes.
Example C28_arbitrary_bytes_ex : (let bs := [0; 1; 1; 0; 1; 0; 191; 128; 128; 0] in calls (fun _ => []) ex_alloc (fun d => d) ex_rx [bs] = FUndef /\ announced bs 132120576 /\ ex_alloc 132120576 = false) /\
  (let bs := 5 :: 1 :: 1 :: repeat 255 60 in exists s', calls (fun _ => []) ex_alloc (fun d => d) ex_rx [[5]; skipn 1 bs] = FFail s' [LcEngine 1]).
Proof.
  split; [split; [vm_compute; reflexivity|split; [|reflexivity]]|eexists; vm_compute; reflexivity].
  exists [0; 1; 1; 0; 1; 0], [191; 128; 128; 0], []. split; [reflexivity|]. sdnv_ex [191; 128; 128] 0.
Qed.

(** The generator call for a segment; for data the generator makes the header, the caller sends the data and the trailer extensions after it. *)
Definition generate (g : segment) (stale : list N) : option (list N) :=
  match g_content g with
  | Data f csid off ser d => gen_data_header f (g_eng g) (g_num g) csid off (N.of_nat (length d)) ser (g_hx g) (N.of_nat (length (g_tx g))) stale
  | Report rsn cp ub lb claims => gen_report (g_eng g) (g_num g) rsn cp ub lb claims (g_hx g) (g_tx g) stale
  | ReportAck rsn => gen_rack (g_eng g) (g_num g) rsn (g_hx g) (g_tx g) stale
  | Cancel s reason => gen_cancel (g_eng g) (g_num g) reason s (g_hx g) (g_tx g) stale
  | CancelAck s => gen_cack (g_eng g) (g_num g) s (g_hx g) (g_tx g) stale
  end.
(** What follows on the wire after the generated bytes. *)
Definition caller_appends (g : segment) (b : list N) : Prop :=
  match g_content g with Data _ _ _ _ d => exists tb, wire_exts (g_tx g) tb /\ b = d ++ tb | _ => b = [] end.
(** C28: for every segment and whatever the vector held before, the generator stays inside the vector it has sized, and its bytes (with the caller's) are the
    segment in wire form. *)
Theorem C28_generators : forall g stale, sane g -> exists bytes, generate g stale = Some bytes /\ forall b, caller_appends g b -> wire g (bytes ++ b).
Proof.
  intros [eng num hx ct tx] stale (HE & HN & HX & TX & L1 & L2 & HC). cbn [g_eng g_num g_hx g_tx g_content] in *. unfold generate, caller_appends. cbn [g_eng g_num g_hx g_tx g_content].
  assert (CB := count_byte (length hx) (length tx) L1 L2). assert (T0 : N.of_nat (length tx) mod 256 = N.of_nat (length tx)) by (apply N.mod_small; lia).
  destruct ct as [f csid off ser d|rsn cp ub lb claims|rsn|s reason|s].
  - destruct HC as (H1 & H2 & H3 & HB & H4). unfold gen_data_header. rewrite T0 in CB.
    assert (CASE : match ser with None => In f [0; 4; 7] | Some (c, r) => In f [1; 2; 3] /\ c < W64 /\ r < W64 end) by exact H4.
    destruct ser as [[c r]|].
    + destruct H4 as (IF & C1 & C2). destruct (gen_ok f eng num hx 50 [csid; off; N.of_nat (length d); c; r] [] (N.of_nat (length tx)) [] stale) as (sid & hb & vb & tb0 & S1 & X1 & S2 & X2 & E); try assumption; [constructor|repeat constructor; assumption|cbn; lia|].
      eexists. split; [exact E|]. inversion X2; subst. intros b (tb & WT & ->). rewrite CB, app_nil_r.
      replace ((f :: sid ++ (16 * N.of_nat (length hx) + N.of_nat (length tx)) :: hb ++ vb) ++ d ++ tb) with (f :: sid ++ (16 * N.of_nat (length hx) + N.of_nat (length tx)) :: hb ++ (vb ++ d) ++ tb) by (cbn [app]; rewrite <- !app_assoc; cbn [app]; now rewrite <- !app_assoc).
      apply (Wire (mkSeg eng num hx (Data f csid off (Some (c, r)) d) tx)); try assumption. now apply WCheckpoint.
    + destruct (gen_ok f eng num hx 30 [csid; off; N.of_nat (length d)] [] (N.of_nat (length tx)) [] stale) as (sid & hb & vb & tb0 & S1 & X1 & S2 & X2 & E); try assumption; [constructor|repeat constructor; assumption|cbn; lia|].
      eexists. split; [exact E|]. inversion X2; subst. intros b (tb & WT & ->). rewrite CB, app_nil_r.
      replace ((f :: sid ++ (16 * N.of_nat (length hx) + N.of_nat (length tx)) :: hb ++ vb) ++ d ++ tb) with (f :: sid ++ (16 * N.of_nat (length hx) + N.of_nat (length tx)) :: hb ++ (vb ++ d) ++ tb) by (cbn [app]; rewrite <- !app_assoc; cbn [app]; now rewrite <- !app_assoc).
      apply (Wire (mkSeg eng num hx (Data f csid off None d) tx)); try assumption. now apply WData.
  - destruct HC as (H1 & H2 & H3 & H4 & H5 & H6). unfold gen_report. set (vs := [rsn; cp; ub; lb; N.of_nat (length claims)] ++ flat_map (fun c => [fst c; snd c]) claims).
    assert (LV : length vs = (5 + 2 * length claims)%nat). { unfold vs. rewrite app_length. cbn [length]. f_equal. clear. induction claims as [|c l IH]; [reflexivity|]. cbn [flat_map app length]. rewrite IH. lia. }
    destruct (gen_ok 8 eng num hx (5 * 10 + length claims * 20) vs [] (N.of_nat (length tx) mod 256) tx stale) as (sid & hb & vb & tb & S1 & X1 & S2 & X2 & E); try assumption; [|cbn [length]; lia|].
    { unfold vs. repeat (apply Forall_cons; [assumption|]). clear - H6. induction H6 as [|c l [A B] F IH]; [constructor|]. cbn [flat_map app]. now repeat constructor. }
    eexists. split; [exact E|]. intros b ->. rewrite CB, app_nil_r. cbn [app]. apply (Wire (mkSeg eng num hx (Report rsn cp ub lb claims) tx)); try assumption. now apply WReport.
  - unfold gen_rack. destruct (gen_ok 9 eng num hx 10 [rsn] [] (N.of_nat (length tx) mod 256) tx stale) as (sid & hb & vb & tb & S1 & X1 & S2 & X2 & E); try assumption; [repeat constructor; assumption|cbn; lia|].
    eexists. split; [exact E|]. intros b ->. rewrite CB, app_nil_r. cbn [app]. apply (Wire (mkSeg eng num hx (ReportAck rsn) tx)); try assumption. now apply WReportAck.
  - unfold gen_cancel. destruct (gen_ok (if s then 12 else 14) eng num hx 1 [] [reason mod 256] (N.of_nat (length tx) mod 256) tx stale) as (sid & hb & vb & tb & S1 & X1 & S2 & X2 & E); try assumption; [constructor|cbn; lia|].
    eexists. split; [exact E|]. intros b ->. inversion S2; subst. unfold is_byte in HC. rewrite CB, app_nil_r, (N.mod_small reason) by exact HC. cbn [app]. apply (Wire (mkSeg eng num hx (Cancel s reason) tx) sid hb [reason] tb); try assumption. now apply WCancel.
  - unfold gen_cack. destruct (gen_ok (if s then 13 else 15) eng num hx 0 [] [] (N.of_nat (length tx) mod 256) tx stale) as (sid & hb & vb & tb & S1 & X1 & S2 & X2 & E); try assumption; [constructor|cbn; lia|].
    eexists. split; [exact E|]. intros b ->. inversion S2; subst. rewrite CB, app_nil_r. cbn [app]. apply (Wire (mkSeg eng num hx (CancelAck s) tx) sid hb [] tb); try assumption. apply WCancelAck.
Qed.
Print Assumptions C28_generators.
Example C28_generators_ex : Forall sane ex_gs /\
  map (fun g => generate g (repeat 9 500)) ex_gs = [Some (firstn 14 ex_bytes); Some (firstn 17 (skipn 22 ex_bytes)); Some (skipn 39 ex_bytes)].
Proof.
  split; [|vm_compute; reflexivity]. unfold ex_gs, sane, ext_ok, is_byte, W64, U64MAX.
  repeat (apply Forall_cons; [cbn [g_eng g_num g_hx g_tx g_content fst snd length]; repeat split; try (repeat constructor; cbn; lia); try (cbn; tauto)|]). apply Forall_nil.
Qed.

(** C28: parsing inverts generation: the generated segments, sent one after the other and cut anywhere, are reported as they were. *)
Theorem C28_roundtrip : forall junk alloc_ok reuse s gs stale bss chunks, junk_ok junk -> (forall n, alloc_ok n = true -> n < 2 ^ 35) -> (forall d, reuse d = d) ->
  at_beginning s = true -> Forall sane gs -> Forall (acceptable alloc_ok) gs ->
  Forall2 (fun g bs => exists h b, generate g stale = Some h /\ caller_appends g b /\ bs = h ++ b) gs bss -> concat chunks = concat bss ->
  exists s', calls junk alloc_ok reuse s chunks = FOk s' (callbacks gs) /\ at_beginning s' = true.
Proof.
  intros junk alloc reuse s gs stale bss chunks J BD R AB SN AC F EC. apply C28_any_chunking; try assumption. rewrite EC. clear - F SN.
  induction F as [|g bs gs bss (h & b & E & CA & ->) F IH]; [constructor|]. inversion SN as [|? ? S1 S2]; subst. cbn [concat]. apply StCons; [|now apply IH].
  destruct (C28_generators g stale S1) as (h' & E' & W). rewrite E in E'. injection E' as <-. now apply W.
Qed.
Print Assumptions C28_roundtrip.
Example C28_roundtrip_ex : exists s', calls (fun _ => []) ex_alloc (fun d => d) ex_rx
  [firstn 14 ex_bytes ++ [65; 66]; [67; 1; 0; 2; 1; 7]; firstn 17 (skipn 22 ex_bytes); skipn 39 ex_bytes] = FOk s' (callbacks ex_gs).
Proof. eexists. vm_compute. reflexivity. Qed.

(** C28: the direction table agrees with the segment types, and refuses the type codes that mean nothing. *)
Theorem C28_direction : forall f, f < 16 ->
  match direction f with
  | (true, d) => (exists c bs, wire_content c bs /\ type_flags c = f) /\ forall c bs, wire_content c bs -> type_flags c = f -> by_sender c = d
  | (false, _) => forall c bs, wire_content c bs -> type_flags c <> f
  end.
Proof.
  intros f L. assert (C : f = 0 \/ f = 1 \/ f = 2 \/ f = 3 \/ f = 4 \/ f = 5 \/ f = 6 \/ f = 7 \/ f = 8 \/ f = 9 \/ f = 10 \/ f = 11 \/ f = 12 \/ f = 13 \/ f = 14 \/ f = 15) by lia.
  assert (G : forall c bs, wire_content c bs -> In (type_flags c) [0; 1; 2; 3; 4; 7; 8; 9; 12; 13; 14; 15] /\ (In (type_flags c) [0; 1; 2; 3; 4; 7; 9; 12; 15] <-> by_sender c = true)).
  { intros c bs [? ? ? ? ? IF|? ? ? ? ? ? ? IF| | |s ?|s]; cbn [type_flags by_sender]; try (cbn in IF |- *; split; [lia|split; [reflexivity|lia]]); try (cbn; split; [lia|split; (discriminate || lia)]); destruct s; cbn; (split; [lia|split; (discriminate || lia || reflexivity)]). }
  assert (Z : sdnvs [0; 0; 0] [0; 0; 0] /\ sdnvs [0; 0; 0; 0; 0] [0; 0; 0; 0; 0] /\ sdnvs [0] [0]) by (repeat split; repeat sd1 0; apply SdNil). destruct Z as (Z3 & Z5 & Z1).
  repeat match type of C with _ \/ _ => destruct C as [->|C] | _ => subst f end; vm_compute (direction _); cbn iota;
    try (intros c bs W E; destruct (G c bs W) as [G1 G2]; rewrite E in *; cbn in G1; lia);
    (split; [|intros c bs W E; destruct (G c bs W) as [G1 G2]; rewrite E in *; cbn in G1, G2; destruct (by_sender c); try reflexivity; exfalso; destruct G2 as [G3 G4]; (discriminate (G3 ltac:(lia))) || (specialize (G4 eq_refl); lia)]).
  - exists (Data 0 0 0 None []), ([0; 0; 0] ++ []). split; [|reflexivity]. apply WData; [cbn; tauto|constructor|exact Z3].
  - exists (Data 1 0 0 (Some (0, 0)) []), ([0; 0; 0; 0; 0] ++ []). split; [|reflexivity]. apply WCheckpoint; [cbn; tauto|constructor|exact Z5].
  - exists (Data 2 0 0 (Some (0, 0)) []), ([0; 0; 0; 0; 0] ++ []). split; [|reflexivity]. apply WCheckpoint; [cbn; tauto|constructor|exact Z5].
  - exists (Data 3 0 0 (Some (0, 0)) []), ([0; 0; 0; 0; 0] ++ []). split; [|reflexivity]. apply WCheckpoint; [cbn; tauto|constructor|exact Z5].
  - exists (Data 4 0 0 None []), ([0; 0; 0] ++ []). split; [|reflexivity]. apply WData; [cbn; tauto|constructor|exact Z3].
  - exists (Data 7 0 0 None []), ([0; 0; 0] ++ []). split; [|reflexivity]. apply WData; [cbn; tauto|constructor|exact Z3].
  - exists (Report 0 0 0 0 []), [0; 0; 0; 0; 0]. split; [|reflexivity]. now apply WReport.
  - exists (ReportAck 0), [0]. split; [|reflexivity]. now apply WReportAck.
  - exists (Cancel true 0), [0]. split; [|reflexivity]. now apply WCancel.
  - exists (CancelAck true), []. split; [|reflexivity]. apply WCancelAck.
  - exists (Cancel false 0), [0]. split; [|reflexivity]. now apply WCancel.
  - exists (CancelAck false), []. split; [|reflexivity]. apply WCancelAck.
Qed.
Print Assumptions C28_direction.
Example C28_direction_ex : direction 8 = (true, false) /\ direction 12 = (true, true) /\ direction 5 = (false, false).
Proof. repeat split. Qed.

(** * Where C28 fails *)

(** C28 fails in general (1): a packet of 33 bytes (a control byte and 32 bytes 0x80) makes the receiver's array decoder evaluate a bit scan of zero. *)
Theorem C28_33_bytes_undefined_refuted : exists bytes, length bytes = 33%nat /\ Forall is_byte bytes /\
  forall junk alloc_ok reuse s, at_beginning s = true -> calls junk alloc_ok reuse s [bytes] = FUndef.
Proof.
  exists (0 :: repeat 128 32). split; [reflexivity|]. split; [cbn [repeat]; repeat constructor|]. intros junk alloc reuse s AB.
  assert (AB' : at_beginning (age reuse s) = true) by (unfold age; destruct (l_raw s); exact AB). cbn [calls]. generalize (age reuse s) AB'. clear. intros s AB.
  assert (E : l_st s = SHead 0) by (unfold at_beginning in AB; destruct (l_st s) as [[|p]| | | | |]; (reflexivity || discriminate)).
  cbn [length repeat feed_loop]. unfold lstep. rewrite E. unfold head_step.
  assert (V : sdnv_array_fast 2 (repeat 128 32) = None) by (vm_compute; reflexivity). cbn [repeat] in V. rewrite V. reflexivity.
Qed.
Print Assumptions C28_33_bytes_undefined_refuted.
Lemma feed_cons junk alloc f s b r : feed_loop junk alloc (S f) s (b :: r) =
  match lstep junk alloc s b r with LUndef => FUndef | LStop s' o => FFail s' o | LCont s' o k =>
    match feed_loop junk alloc f s' (skipn k r) with FOk s2 o2 => FOk s2 (o ++ o2) | FFail s2 o2 => FFail s2 (o ++ o2) | FUndef => FUndef end end.
Proof. reflexivity. Qed.
(** C28 fails in general (2): no allocator is asked less than the peer's length field says; a packet of 16 bytes throws. *)
Theorem C28_length_field_throws_refuted : exists bytes, length bytes = 16%nat /\ forall junk alloc_ok reuse s, at_beginning s = true -> alloc_ok U64MAX = false ->
  calls junk alloc_ok reuse s [bytes] = FUndef.
Proof.
  exists [0; 1; 1; 0; 1; 0; 129; 255; 255; 255; 255; 255; 255; 255; 255; 127]. split; [reflexivity|]. intros junk alloc reuse s AB NA.
  assert (AB' : at_beginning (age reuse s) = true) by (unfold age; destruct (l_raw s); exact AB). cbn [calls]. generalize (age reuse s) AB'. clear - NA. intros s AB.
  destruct s as [st sd h m d rw r ra re]. unfold at_beginning in AB. cbn [l_st] in AB. assert (E : st = SHead 0) by (destruct st as [[|p]| | | | |]; (reflexivity || discriminate)). subst st.
  assert (V : sdnv_array_fast 2 [1; 1; 0; 1; 0; 129; 255; 255; 255; 255; 255; 255; 255; 255; 127] = Some (ArrOk [1; 1] 2)) by (vm_compute; reflexivity).
  assert (V2 : sdnv_array_fast 3 [1; 0; 129; 255; 255; 255; 255; 255; 255; 255; 255; 127] = Some (ArrOk [1; 0; U64MAX] 12)) by (vm_compute; reflexivity).
  set (h1 := mkLh 0 1 1 (h_nh h) (h_nt h) (h_hx h) (h_tx h) (h_hlen h) (h_tlen h)).
  set (r1 := [1; 1; 0; 1; 0; 129; 255; 255; 255; 255; 255; 255; 255; 255; 127]) in *. set (r2 := [1; 0; 129; 255; 255; 255; 255; 255; 255; 255; 255; 127]) in *.
  assert (L1 : lstep junk alloc (mkLtp (SHead 0) sd h m d rw r ra re) 0 r1 = LCont (mkLtp (SHead 3) [] h1 m d rw r ra re) [LcEngine 1] 2).
  { unfold lstep. cbn [l_st]. unfold head_step. cbn [l_h]. change (0 =? 0) with true. change (negb (N.shiftr 0 4 =? 0)) with false. cbn iota. rewrite V. reflexivity. }
  assert (L2 : lstep junk alloc (mkLtp (SHead 3) [] h1 m d rw r ra re) 0 r2 = LUndef).
  { unfold lstep. cbn [l_st]. unfold head_step. change (3 =? 0) with false. change (3 =? 1) with false. change (3 =? 2) with false. change (3 =? 3) with true. cbn iota zeta. change (negb (N.shiftr 0 4 =? 0)) with false. cbn iota.
    unfold next_after_header, set_h. cbn [l_h h_flags h1]. change (N.land 0 13 =? 13) with false. change ((0 =? 5) || (0 =? 6) || (0 =? 10) || (0 =? 11)) with false. change (0 <=? 7) with true. cbn iota.
    unfold shortcut_data. cbn [l_h set_st set_sd h_flags]. change (is_cp 0) with false. cbn iota. rewrite V2. cbn iota. cbn [length]. change (N.of_nat 3) with 3. change (3 =? 0) with false. change (3 <=? 3) with true. cbn iota zeta.
    cbn [l_m set_m set_st meta_of nth d_len]. change (U64MAX =? 0) with false. cbn iota. rewrite NA. reflexivity. }
  change (length (0 :: r1)) with 16%nat. rewrite feed_cons, L1. change (skipn 2 r1) with (0 :: r2). rewrite feed_cons, L2. reflexivity.
Qed.
Print Assumptions C28_length_field_throws_refuted.
(** C28 fails in general (3): whether the engine id of a segment with an invalid session number is announced depends on the chunking. *)
Theorem C28_engine_id_depends_on_chunking_refuted : exists c1 c2 s1 s2, concat c1 = concat c2 /\
  calls (fun _ => []) ex_alloc (fun d => d) ex_rx c1 = FFail s1 [] /\ calls (fun _ => []) ex_alloc (fun d => d) ex_rx c2 = FFail s2 [LcEngine 1].
Proof. exists [0 :: 1 :: repeat 128 11], [[0]; 1 :: repeat 128 11]. do 2 eexists. split; [reflexivity|]. split; vm_compute; reflexivity. Qed.
Print Assumptions C28_engine_id_depends_on_chunking_refuted.
(** C28 fails in general (4): a data segment whose trailer extension arrives in a later call is reported with whatever is by then in the memory of
    the earlier packet. *)
Theorem C28_data_in_reused_packet_refuted : exists g c1 c2, wire g (c1 ++ c2) /\ acceptable ex_alloc g /\
  exists s' d, calls (fun _ => []) ex_alloc (fun _ => [9; 9]) ex_rx [c1; c2] = FOk s' [LcEngine 1; LcData 0 1 1 d 1 0 2 None [] [(3, [])]] /\ g_content g = Data 0 1 0 None [65; 66] /\ d = [9; 9].
Proof.
  exists (mkSeg 1 1 [] (Data 0 1 0 None [65; 66]) [(3, [])]), [0; 1; 1; 1; 1; 0; 2; 65; 66], [3; 0]. split; [|split].
  - apply (Wire (mkSeg 1 1 [] (Data 0 1 0 None [65; 66]) [(3, [])]) [1; 1] [] ([1; 0; 2] ++ [65; 66]) [3; 0]); cbn [g_hx g_tx g_eng g_num g_content length]; try lia; try apply WxNil.
    + sd1 1. sd1 1. apply SdNil.
    + apply WData; [cbn; tauto|repeat constructor|]. cbn [length N.of_nat Pos.of_succ_nat Pos.succ]. sd1 1. sd1 0. sd1 2. apply SdNil.
    + change [3; 0] with (3 :: [0] ++ [] ++ []). apply WxCons; [reflexivity|constructor|sdnv_ex (@nil N) 0|apply WxNil].
  - split; [repeat constructor|split; [discriminate|reflexivity]].
  - do 2 eexists. split; [vm_compute; reflexivity|]. split; reflexivity.
Qed.
Print Assumptions C28_data_in_reused_packet_refuted.
(** C28 fails in general (5), given 32 GiB: a report announcing 2^31+1 claims is delivered after its first claim, because twice the count is kept in
    32 bits; cut after the count, the same bytes are an unfinished report. *)
Theorem C28_claim_count_wraps_refuted : exists c1 c2 s1 s2, concat c1 = concat c2 /\
  calls (fun _ => []) (fun _ => true) (fun d => d) ex_rx c1 = FOk s1 [LcEngine 1; LcReport 1 1 1 1 9 0 [(0, 9)] [] []] /\ at_beginning s1 = true /\
  calls (fun _ => []) (fun _ => true) (fun d => d) ex_rx c2 = FOk s2 [LcEngine 1] /\ at_beginning s2 = false /\ announced (concat c1) 2147483649.
Proof.
  exists [[8; 1; 1; 0; 1; 1; 9; 0; 136; 128; 128; 128; 1; 0; 9]], [[8; 1; 1; 0]; [1; 1; 9; 0; 136; 128; 128; 128; 1; 0; 9]]. do 2 eexists. split; [reflexivity|]. split; [vm_compute; reflexivity|]. split; [reflexivity|].
  split; [vm_compute; reflexivity|]. split; [reflexivity|]. exists [8; 1; 1; 0; 1; 1; 9; 0], [136; 128; 128; 128; 1], [0; 9]. split; [reflexivity|]. sdnv_ex [136; 128; 128; 128] 1.
Qed.
Print Assumptions C28_claim_count_wraps_refuted.
(** C28 fails in general (6): with 16 header extensions the generated bytes are another segment and garbage: the count does not fit its four bits. *)
Theorem C28_sixteen_extensions_refuted : exists hx bytes s' o, length hx = 16%nat /\ Forall ext_ok hx /\ gen_rack 1 1 77 hx [] [] = Some bytes /\
  calls (fun _ => []) ex_alloc (fun d => d) ex_rx [bytes] = FFail s' (LcEngine 1 :: LcRack 1 1 5 [] [] :: o).
Proof.
  exists ((5, [16]) :: repeat (6, []) 15). do 3 eexists. split; [reflexivity|]. split; [cbn [repeat]; repeat (apply Forall_cons; [repeat split; repeat constructor|]); apply Forall_nil|]. split; [vm_compute; reflexivity|]. vm_compute. reflexivity.
Qed.
Print Assumptions C28_sixteen_extensions_refuted.
(** C28 fails in general (7): a data segment without data, which RFC 5326 does not exclude and the generator produces, is refused. *)
Theorem C28_empty_data_refused_refuted : exists g bytes s', sane g /\ generate g [] = Some bytes /\ wire g bytes /\ calls (fun _ => []) ex_alloc (fun d => d) ex_rx [bytes] = FFail s' [LcEngine 1].
Proof.
  set (g := mkSeg 1 1 [] (Data 7 1 0 None []) []). assert (S : sane g) by (unfold g, sane, is_byte, W64, U64MAX; cbn; repeat split; try lia; try constructor; auto).
  destruct (C28_generators g [] S) as (h & E & W). exists g, h. vm_compute in E. injection E as <-. eexists. split; [exact S|]. split; [vm_compute; reflexivity|]. split.
  - specialize (W []). rewrite app_nil_r in W. apply W. exists []. split; [apply WxNil|reflexivity].
  - vm_compute. reflexivity.
Qed.
Print Assumptions C28_empty_data_refused_refuted.
