(** Property C34: TCPCL version 3. Vocabulary: S_Tcpcl.v. *)
From Coq Require Import NArith ZArith List Bool Lia ZifyBool ZifyN.
From Verif Require Import Base M_SegmentAlloc M_Intrin M_Sdnv S_Sdnv L_Sdnv P_Sdnv M_Stream L_Stream M_Tcpcl S_Tcpcl L_Tcpcl.
Import ListNotations.
Open Scope N_scope.

(** C34: the receiver has just been set up or has only seen bytes that are no contact header so far ("searching"). *)
Definition searching (s : tcpcl) : Prop := t_main s = RdContact /\ match t_ch s with Sync1 | Sync2 | Sync3 | Sync4 | RdVersion => True | _ => False end.
Lemma searching_d junk alloc_ok maxrx s rest : searching s -> tc_step junk alloc_ok maxrx s 0x64 rest = tc_step junk alloc_ok maxrx (set_ch s Sync1) 0x64 rest.
Proof.
  intros [H1 H2]. destruct s as [m c]. cbn [t_main t_ch] in *. subst m. unfold tc_step, contact_step. cbn [set_ch t_main t_ch]. destruct c; try contradiction; reflexivity.
Qed.
Lemma searching_feed junk alloc_ok maxrx s ms bs : searching s -> stream false ms bs -> forall chunks later, concat chunks ++ later = bs -> concat chunks <> [] ->
  feed_chunks (tc_step junk alloc_ok maxrx) s chunks = feed_chunks (tc_step junk alloc_ok maxrx) (set_ch s Sync1) chunks.
Proof.
  intros S1 ST. assert (H : match bs with [] => True | b :: _ => b = 0x64 end).
  { inversion ST as [|f k e b m2 b2 W S2| |]; subst; [exact I|]. inversion W; reflexivity. }
  induction chunks as [|c chunks IH]; intros later E NE; [now destruct NE|]. cbn [concat] in *. destruct c as [|b c].
  - cbn [app] in *. cbn [feed_chunks]. unfold feed. cbn [length feed_loop]. rewrite (IH later) by assumption. reflexivity.
  - cbn [feed_chunks]. unfold feed. cbn [length feed_loop]. cbn [app] in E. rewrite <- E in H. subst b. now rewrite searching_d.
Qed.

Ltac sdnv_ex i l := split; [exists i, l; split; [reflexivity|split; [repeat constructor; lia|lia]]|split; [cbn; lia|split; [reflexivity|unfold W64, U64MAX; cbn; lia]]].
(** C34: any peer that follows RFC 7242 (any SDNV lengths), any chunking of its stream by TCP, any point of time: the callbacks made so far report
    exactly the messages received in full, in order; the bytes to come are those missing of the remaining messages. *)
Theorem C34_any_chunking : forall junk alloc_ok maxrx s ms bs chunks later, junk_ok junk -> searching s -> stream false ms bs ->
  Forall (acceptable alloc_ok maxrx) ms -> concat chunks ++ later = bs ->
  exists s' cbs received rest, feed_chunks (tc_step junk alloc_ok maxrx) s chunks = Some (s', cbs) /\ ms = received ++ rest /\
    Forall2 reports cbs received /\ missing rest later /\ (later = [] -> rest = []).
Proof.
  intros junk alloc_ok maxrx s ms bs chunks later J S1 ST A E.
  assert (ML : forall rest, missing rest later -> later = [] -> rest = []).
  { intros rest [[-> _]|(m & r & p & q & c & b & _ & _ & Q & _ & EL)] ->; [reflexivity|]. destruct q; [contradiction|discriminate]. }
  assert (K : exists s' cbs received rest, feed_chunks (tc_step junk alloc_ok maxrx) (set_ch s Sync1) chunks = Some (s', cbs) /\ ms = received ++ rest /\ Forall2 reports cbs received /\ missing rest later).
  { assert (G : good alloc_ok maxrx (set_ch s Sync1) (concat chunks ++ later) ms).
    { split; [rewrite E; eapply stream_bytes; exact ST|]. split; [exact A|]. destruct S1 as [S1 _]. cbn [set_ch t_main t_ch]. rewrite S1, E. exact ST. }
    destruct (feed_chunks_good (tc_step junk alloc_ok maxrx) reports (good alloc_ok maxrx) (good_step junk alloc_ok maxrx J) chunks _ later ms G) as (s' & o & e & es' & E1 & E2 & M & G').
    exists s', o, e, es'. repeat (split; [assumption|]). exact (good_missing _ _ _ _ _ G'). }
  destruct K as (s' & cbs & rc & rest & E1 & E2 & E3 & E4). destruct (concat chunks) as [|b0 r0] eqn:EC.
  - assert (N0 : forall c s0, concat c = [] -> feed_chunks (tc_step junk alloc_ok maxrx) s0 c = Some (s0, [])).
    { induction c as [|x c IH]; intros s0 H; [reflexivity|]. cbn [concat] in H. apply app_eq_nil in H. destruct H as [-> H]. cbn [feed_chunks feed length feed_loop]. rewrite IH by exact H. reflexivity. }
    rewrite N0 in E1 by exact EC. injection E1 as <- <-. exists s, [], rc, rest. rewrite N0 by exact EC. repeat (split; [assumption || reflexivity|]). now apply ML.
  - exists s', cbs, rc, rest. rewrite (searching_feed _ _ _ _ ms bs S1 ST chunks later) by (rewrite ?EC; congruence). repeat (split; [assumption|]). now apply ML.
Qed.
Print Assumptions C34_any_chunking.
Definition ex_msgs : list tmsg := [Contact 3 300 [105;112;110]; DataSegment true false [1;2;3]; KeepAlive; DataSegment false true (repeat 7 20); Ack 200; Refuse 2; BundleLength 23; Shutdown (Some 1) (Some 5)].
Definition ex_bytes : list N := [100;116;110;33;3;3;1;44;3;105;112;110] ++ [18;128;3;1;2;3] ++ [64] ++ (17 :: 20 :: repeat 7 20) ++ [32;129;72] ++ [50] ++ [96;23] ++ [83;1;5].
Example C34_any_chunking_ex : stream false ex_msgs ex_bytes /\ Forall (acceptable (fun _ => true) 1000) ex_msgs /\
  exists s' s'', feed_chunks (tc_step (fun _ => []) (fun _ => true) 1000) (tc_new (mkTc RdAck RdEid RdSdnv [9] 9 9 9 [9] true true 9 [9] true true 9)) (map (fun b => [b]) ex_bytes)
    = Some (s', [CbContact 3 300 [105;112;110]; CbData [1;2;3] true false; CbKeep; CbData (repeat 7 20) false true; CbAck 200; CbRefuse 2; CbLength 23; CbShutdown true 1 true 5]) /\
  feed_chunks (tc_step (fun _ => []) (fun _ => true) 1000) (tc_new (mkTc RdAck RdEid RdSdnv [9] 9 9 9 [9] true true 9 [9] true true 9)) [firstn 20 ex_bytes; skipn 20 ex_bytes]
    = Some (s'', [CbContact 3 300 [105;112;110]; CbData [1;2;3] true false; CbKeep; CbData (repeat 7 20) false true; CbAck 200; CbRefuse 2; CbLength 23; CbShutdown true 1 true 5]).
Proof.
  assert (S1 : forall v x, v < 128 -> x = [v] -> sdnv_for v x). { intros v x H ->. split; [exists [], v; split; [reflexivity|split; [constructor|exact H]]|]. split; [cbn; lia|]. split; [unfold sdnv_value; cbn [fold_left]; now apply N.mod_small|unfold W64; lia]. }
  split.
  - unfold ex_bytes, ex_msgs. apply (StContact 3 300 [105;112;110] _ _ _). { apply (WContact 3 300 [105;112;110] [3]); [unfold is_byte; lia|lia|repeat constructor; unfold is_byte; lia|apply S1; [cbn; lia|reflexivity]]. }
    apply (StMessage (DataSegment true false [1;2;3]) [18;128;3;1;2;3]); [apply (WData true false [1;2;3] [128;3])|exact I|].
    { repeat constructor; unfold is_byte; lia. } { sdnv_ex [128] 3. }
    apply (StMessage KeepAlive [64]); [constructor|exact I|].
    apply (StMessage (DataSegment false true (repeat 7 20)) (17 :: [20] ++ repeat 7 20)); [apply (WData false true (repeat 7 20) [20])|exact I|].
    { repeat constructor; unfold is_byte; lia. } { apply S1; [cbn; lia|reflexivity]. }
    apply (StMessage (Ack 200) [32;129;72]); [apply (WAck 200 [129;72])|exact I|]. { sdnv_ex [129] 72. }
    apply (StMessage (Refuse 2) [50]); [apply (WRefuse 2); lia|exact I|].
    apply (StMessage (BundleLength 23) [96;23]); [apply (WLength 23 [23]); apply S1; [lia|reflexivity]|exact I|].
    rewrite <- (app_nil_r [83;1;5]). apply (StShutdown (Some 1) (Some 5) [83;1;5]); [|constructor]. apply (WShutdown (Some 1) (Some 5) [1] [5]); [split; [unfold is_byte; lia|reflexivity]|apply S1; [lia|reflexivity]].
  - split; [unfold ex_msgs; repeat constructor; cbn; try discriminate; lia|]. eexists _, _. split; vm_compute; reflexivity.
Qed.

(** C34: each generator yields the bytes of its message. *)
Theorem C34_generators : 
  (forall f k eid, is_byte f -> k < 65536 -> Forall is_byte eid -> N.of_nat (length eid) < W64 -> exists b, gen_contact f k eid = Some b /\ wire (Contact f k eid) b) /\
  (forall s e d, Forall is_byte d -> N.of_nat (length d) < W64 -> exists b h, gen_data s e d = Some b /\ wire (DataSegment s e d) b /\
     gen_data_header s e (N.of_nat (length d)) = Some h /\ b = h ++ d) /\
  (forall n, n < W64 -> exists b, gen_ack n = Some b /\ wire (Ack n) b) /\
  (forall c, c < 16 -> wire (Refuse c) (gen_refuse c)) /\
  (forall n, n < W64 -> exists b, gen_length n = Some b /\ wire (BundleLength n) b) /\
  wire KeepAlive gen_keep /\
  (forall hr r hd d, is_byte r -> d < W64 -> exists b, gen_shutdown hr r hd d = Some b /\ wire (Shutdown (if hr then Some r else None) (if hd then Some d else None)) b).
Proof.
  repeat split.
  - intros f k eid F K FE L. destruct (sdnv10_ok _ L) as (sd & E & S1). unfold gen_contact. rewrite E. eexists. split; [reflexivity|].
    rewrite N.shiftr_div_pow2. change (2 ^ 8) with 256. change 255 with (N.ones 8). rewrite N.land_ones. change (2 ^ 8) with 256. now constructor.
  - intros s e d F L. destruct (sdnv10_ok _ L) as (sd & E & S1). unfold gen_data, gen_data_header. rewrite E, hdr_data. eexists _, _. split; [reflexivity|]. split; [now constructor|]. split; reflexivity.
  - intros n L. destruct (sdnv10_ok _ L) as (sd & E & S1). unfold gen_ack. rewrite E. eexists. split; [reflexivity|]. now constructor.
  - intros c H. unfold gen_refuse. rewrite hdr_refuse by exact H. now constructor.
  - intros n L. destruct (sdnv10_ok _ L) as (sd & E & S1). unfold gen_length. rewrite E. eexists. split; [reflexivity|]. now constructor.
  - constructor.
  - intros hr r hd d R L. destruct (sdnv10_ok _ L) as (sd & E & S1). unfold gen_shutdown. rewrite E, hdr_shut. cbv zeta. destruct hr, hd; (eexists; split; [reflexivity|]).
    + apply (WShutdown (Some r) (Some d) [r] sd); auto.
    + apply (WShutdown (Some r) None [r] []); auto.
    + apply (WShutdown None (Some d) [] sd); auto.
    + apply (WShutdown None None [] []); auto.
Qed.
Print Assumptions C34_generators.
Example C34_generators_ex : gen_contact 3 300 [105;112;110] = Some [100;116;110;33;3;3;1;44;3;105;112;110] /\ gen_data true true (repeat 5 128) = Some (19 :: 129 :: 0 :: repeat 5 128) /\
  gen_shutdown true 2 true 300 = Some [83;2;130;44].
Proof. repeat split; vm_compute; reflexivity. Qed.

(** C34: whatever the peer sends, as long as allocation succeeds the parser never leaves its chunk and never meets undefined behaviour. *)
Theorem C34_arbitrary_bytes_are_safe : forall junk alloc_ok maxrx js chunks, junk_ok junk -> (forall n, alloc_ok n = true) -> Forall (Forall is_byte) chunks ->
  (exists s' cbs, feed_chunks (tc_step junk alloc_ok maxrx) (tc_new js) chunks = Some (s', cbs) /\ Forall is_byte (t_sdnv s')) /\
  (forall s b rest, Forall is_byte (t_sdnv s) -> Forall is_byte (b :: rest) -> exists s' o k, tc_step junk alloc_ok maxrx s b rest = Some (s', o, k) /\ (k <= length rest)%nat /\ Forall is_byte (t_sdnv s')).
Proof.
  intros junk alloc_ok maxrx js chunks J A F. split; [|intros; now apply step_total].
  assert (L : forall fuel bytes s, (length bytes <= fuel)%nat -> Forall is_byte (t_sdnv s) -> Forall is_byte bytes ->
    exists s' o, feed_loop (tc_step junk alloc_ok maxrx) fuel s bytes = Some (s', o) /\ Forall is_byte (t_sdnv s')).
  { induction fuel as [|f IH]; intros [|b r] s H F1 F2; cbn [feed_loop]; try (eexists _, _; split; [reflexivity|exact F1]); [cbn in H; lia|].
    destruct (step_total junk alloc_ok maxrx s b r J A F1 F2) as (s' & o & k & E & K & F3). rewrite E.
    destruct (IH (skipn k r) s') as (s2 & o2 & E2 & F4); [rewrite skipn_length; cbn in H; lia|exact F3|apply bytes_skipn; now inversion F2|]. rewrite E2. eexists _, _. split; [reflexivity|exact F4]. }
  assert (G : forall s, Forall is_byte (t_sdnv s) -> exists s' cbs, feed_chunks (tc_step junk alloc_ok maxrx) s chunks = Some (s', cbs) /\ Forall is_byte (t_sdnv s')).
  { induction F as [|c r F1 F2 IH]; intros s FS; cbn [feed_chunks]; [eexists _, _; split; [reflexivity|exact FS]|].
    destruct (L (length c) c s (le_n _) FS F1) as (s1 & o1 & E1 & FS1). unfold feed. rewrite E1. destruct (IH s1 FS1) as (s2 & o2 & E2 & FS2). rewrite E2. eexists _, _. split; [reflexivity|exact FS2]. }
  apply G. constructor.
Qed.
Print Assumptions C34_arbitrary_bytes_are_safe.

(** C34: junk before a contact header: if nowhere in it "dtn!" 3 occurs, the receiver is still searching afterwards, without a callback, and
    [C34_any_chunking] applies to what follows. *)
Theorem C34_skips_junk : forall junk alloc_ok maxrx s bytes, t_main s = RdContact -> t_ch s = Sync1 ->
  (forall a b, bytes <> a ++ [0x64; 0x74; 0x6e; 0x21; 3] ++ b) ->
  exists s', feed (tc_step junk alloc_ok maxrx) s bytes = Some (s', []) /\ searching s'.
Proof.
  intros junk alloc_ok maxrx s bytes M C NO.
  assert (K : forall todo seen s0, bytes = seen ++ todo -> t_main s0 = RdContact ->
    match t_ch s0 with Sync1 => True | Sync2 => exists a, seen = a ++ [0x64] | Sync3 => exists a, seen = a ++ [0x64; 0x74] | Sync4 => exists a, seen = a ++ [0x64; 0x74; 0x6e]
      | RdVersion => exists a, seen = a ++ [0x64; 0x74; 0x6e; 0x21] | _ => False end ->
    exists s', feed_loop (tc_step junk alloc_ok maxrx) (length todo) s0 todo = Some (s', []) /\ searching s').
  { induction todo as [|b todo IH]; intros seen s0 E M0 I; cbn [feed_loop length].
    - exists s0. split; [reflexivity|]. split; [exact M0|]. destruct (t_ch s0); try contradiction; exact Logic.I.
    - rewrite snoc_cons in E. unfold tc_step at 1. rewrite M0. unfold contact_step.
      assert (NX : forall s1, t_main s1 = RdContact -> match t_ch s1 with Sync1 => True | Sync2 => exists a, seen ++ [b] = a ++ [0x64] | Sync3 => exists a, seen ++ [b] = a ++ [0x64; 0x74] | Sync4 => exists a, seen ++ [b] = a ++ [0x64; 0x74; 0x6e]
        | RdVersion => exists a, seen ++ [b] = a ++ [0x64; 0x74; 0x6e; 0x21] | _ => False end ->
        exists s', match feed_loop (tc_step junk alloc_ok maxrx) (length todo) s1 (skipn 0 todo) with None => None | Some (s'', o') => Some (s'', [] ++ o') end = Some (s', []) /\ searching s').
      { intros s1 M1 I1. destruct (IH (seen ++ [b]) s1 E M1 I1) as (s' & E1 & S1). exists s'. cbn [skipn]. rewrite E1. split; [reflexivity|exact S1]. }
      destruct (t_ch s0) eqn:EC; try contradiction; cbv zeta.
      + apply NX; [destruct (b =? 0x64); exact M0|]. destruct (N.eqb_spec b 0x64) as [->|]; [cbn [set_ch t_ch]; now exists seen|rewrite EC; exact Logic.I].
      + destruct I as [a ->]. destruct (N.eqb_spec b 0x74) as [->|]; [apply NX; [exact M0|]; cbn [set_ch t_ch]; exists a; now rewrite <- app_assoc|].
        destruct (N.eqb_spec b 0x64) as [->|]; cbn [negb]; apply NX; try exact M0; [rewrite EC; eexists; reflexivity|exact Logic.I].
      + destruct I as [a ->]. destruct (N.eqb_spec b 0x6e) as [->|]; [apply NX; [exact M0|]; cbn [set_ch t_ch]; exists a; now rewrite <- app_assoc|].
        destruct (N.eqb_spec b 0x64) as [->|]; apply NX; try exact M0; cbn [set_ch t_ch]; [eexists; reflexivity|exact Logic.I].
      + destruct I as [a ->]. destruct (N.eqb_spec b 0x21) as [->|]; [apply NX; [exact M0|]; cbn [set_ch t_ch]; exists a; now rewrite <- app_assoc|].
        destruct (N.eqb_spec b 0x64) as [->|]; apply NX; try exact M0; cbn [set_ch t_ch]; [eexists; reflexivity|exact Logic.I].
      + destruct I as [a ->]. destruct (N.eqb_spec b 3) as [->|]; [exfalso; apply (NO a todo); rewrite E, <- !app_assoc; reflexivity|].
        destruct (N.eqb_spec b 0x64) as [->|]; apply NX; try exact M0; cbn [set_ch t_ch]; [eexists; reflexivity|exact Logic.I]. }
  apply (K bytes [] s eq_refl M). rewrite C. exact I.
Qed.
Print Assumptions C34_skips_junk.
Example C34_skips_junk_ex : let s := tc_new (mkTc RdAck RdEid RdSdnv [9] 9 9 9 [9] true true 9 [9] true true 9) in
  feed (tc_step (fun _ => []) (fun _ => true) 1000) s [1;100;116;100;116;110;33;4;3;100;116] = Some (set_ch s Sync3, []).
Proof. vm_compute. reflexivity. Qed.

(** C34 fails in general (1): a data segment over the receive limit is refused or delivered depending on where TCP cuts the stream. *)
Theorem C34_size_limit_depends_on_chunking_refuted : exists ms bs c1 c2 s1 s2 o1 big, stream false ms bs /\ concat c1 = bs /\ concat c2 = bs /\
  (15 < length big)%nat /\
  feed_chunks (tc_step (fun _ => []) (fun _ => true) 15) (tc_new (mkTc RdAck RdEid RdSdnv [9] 9 9 9 [9] true true 9 [9] true true 9)) c1 = Some (s1, o1) /\ ~ In (CbData big true true) o1 /\
  feed_chunks (tc_step (fun _ => []) (fun _ => true) 15) (tc_new (mkTc RdAck RdEid RdSdnv [9] 9 9 9 [9] true true 9 [9] true true 9)) c2 = Some (s2, o1 ++ [CbData big true true]).
Proof.
  exists [Contact 0 0 [1]; DataSegment true true (repeat 7 16)], ([100;116;110;33;3;0;0;0;1;1] ++ (19 :: 16 :: repeat 7 16)).
  exists (map (fun b => [b]) ([100;116;110;33;3;0;0;0;1;1] ++ (19 :: 16 :: repeat 7 16))), [[100;116;110;33;3;0;0;0;1;1] ++ (19 :: 16 :: repeat 7 16)].
  eexists _, _, [CbContact 0 0 [1]], (repeat 7 16). split.
  { apply (StContact 0 0 [1]); [apply (WContact 0 0 [1] [1])|]; try (unfold is_byte; lia); [repeat constructor; unfold is_byte; lia|sdnv_ex (@nil N) 1|].
    rewrite <- (app_nil_r (19 :: _)). apply StMessage; [apply (WData true true (repeat 7 16) [16]); [repeat constructor; unfold is_byte; lia|sdnv_ex (@nil N) 16]|exact I|constructor]. }
  split; [reflexivity|]. split; [reflexivity|]. split; [cbn; lia|]. split; [vm_compute; reflexivity|]. split; [intros [H|[]]; discriminate|vm_compute; reflexivity].
Qed.
Print Assumptions C34_size_limit_depends_on_chunking_refuted.
(** C34 fails in general (2): an empty data segment makes the receiver swallow everything that follows. *)
Theorem C34_empty_segment_swallows_the_rest_refuted : exists b0, stream true [DataSegment true true []] b0 /\
  forall junk maxrx rest, junk_ok junk -> exists s,
    feed_chunks (tc_step junk (fun _ => true) maxrx) (mkTc RdType Sync1 RdSdnv [] 0 0 1 [1] true true 0 [] false false 0) [b0; rest] = Some (s, []).
Proof.
  assert (S0 : sdnv_for 0 [0]) by (sdnv_ex (@nil N) 0).
  exists [19; 0]. split.
  { rewrite <- (app_nil_r [19; 0]). apply StMessage; [apply (WData true true [] [0]); [constructor|exact S0]|exact I|constructor]. }
  intros junk maxrx rest J.
  assert (SW : forall fuel r c, t_main c = RdData -> t_ds c = RdContents -> t_len c = 0 -> (length r <= fuel)%nat -> exists s, feed_loop (tc_step junk (fun _ => true) maxrx) fuel c r = Some (s, [])).
  { induction fuel as [|f IH]; intros [|b r] c E1 E2 E3 LF; cbn [feed_loop]; try (eexists; reflexivity); [cbn in LF; lia|].
    unfold tc_step at 1. rewrite E1. unfold data_step. rewrite E2. cbv zeta. rewrite E3, app_length. cbn [length]. replace (N.of_nat (length (t_data c) + 1) =? 0) with false by lia.
    set (k := Nat.min (length r) _). clearbody k.
    destruct (IH (skipn k r) (set_seg c RdContents 0 ((t_data c ++ [b]) ++ firstn k r))) as (s & E); try reflexivity; try assumption.
    { rewrite skipn_length. cbn in LF. lia. } rewrite E. eexists. reflexivity. }
  set (c0 := mkTc RdType Sync1 RdSdnv [] 0 0 1 [1] true true 0 [] false false 0). set (c1 := mkTc RdData Sync1 RdSdnv [] 0 0 1 [1] true true 0 [] false false 0).
  assert (A1 : tc_step junk (fun _ => true) maxrx c0 19 [0] = Some (c1, [], O)) by reflexivity.
  assert (A2 : tc_step junk (fun _ => true) maxrx c1 0 [] = Some (mkTc RdData Sync1 RdContents [0] 0 0 1 [1] true true 0 [] false false 0, [], O)).
  { unfold tc_step. change (t_main c1) with RdData. unfold data_step. change (t_ds c1) with RdSdnv. change (t_sdnv c1) with (@nil N). cbn iota. rewrite (rd_sdnv_ok junk [] 0 [] 0 J S0). cbv zeta.
    replace (maxrx <? 0) with false by lia. reflexivity. }
  cbn [feed_chunks]. unfold feed at 1. cbn [length feed_loop]. rewrite A1. cbn [skipn feed_loop]. rewrite A2. cbn [skipn feed_loop app].
  edestruct (SW (length rest) rest) as (s & E); [| | | |unfold feed; rewrite E; eexists; reflexivity]; try reflexivity.
Qed.
Print Assumptions C34_empty_segment_swallows_the_rest_refuted.
(** C34 fails in general (3): a peer can make the receiver throw with one length field, since no allocator satisfies a reserve of 2^64-1 bytes
    (vector and string throw length_error). *)
Theorem C34_length_field_throws_refuted : exists bytes, length bytes = 18%nat /\ forall junk alloc_ok maxrx js, junk_ok junk -> alloc_ok U64MAX = false ->
  feed (tc_step junk alloc_ok maxrx) (tc_new js) bytes = None.
Proof.
  exists [100;116;110;33;3;0;0;0;129;255;255;255;255;255;255;255;255;127]. split; [reflexivity|]. intros junk alloc_ok maxrx js J A.
  assert (S0 : sdnv_for U64MAX [129;255;255;255;255;255;255;255;255;127]).
  { sdnv_ex [129;255;255;255;255;255;255;255;255] 127. }
  unfold feed. cbn [length].
  assert (SD : forall p b q, p ++ b :: q = [129;255;255;255;255;255;255;255;255;127] -> rd_sdnv junk p b = Some (match q with [] => SdOk (p ++ [b]) U64MAX | _ => SdMore (p ++ [b]) end)).
  { intros p b q E. apply rd_sdnv_ok; [exact J|now rewrite E]. }
  assert (FL : forall f c b r c', tc_step junk alloc_ok maxrx c b r = Some (c', [], O) -> feed_loop (tc_step junk alloc_ok maxrx) f c' r = None -> feed_loop (tc_step junk alloc_ok maxrx) (S f) c (b :: r) = None).
  { intros f c b r c' E1 E2. cbn [feed_loop]. rewrite E1. cbn [skipn]. now rewrite E2. }
  assert (LP : forall q p fuel c, p ++ q = [129;255;255;255;255;255;255;255;255;127] -> q <> [] -> (length q <= fuel)%nat -> t_main c = RdContact -> t_ch c = RdEidLen -> t_sdnv c = p -> feed_loop (tc_step junk alloc_ok maxrx) fuel c q = None).
  { induction q as [|b q IH]; intros p fuel c E NE L M H V; [contradiction|]. destruct fuel as [|fuel]; [cbn in L; lia|]. cbn [feed_loop]. unfold tc_step at 1. rewrite M. unfold contact_step. rewrite H, V, (SD p b q E).
    destruct q as [|b2 q]; [now rewrite A|]. cbn [skipn]. rewrite (IH (p ++ [b]) fuel (set_sdnv c (p ++ [b]))); try reflexivity; try assumption; [now rewrite <- app_assoc|discriminate|cbn in L |- *; lia]. }
  apply (FL _ _ _ _ (mkTc RdContact Sync2 (t_ds js) [] (t_flags js) 0 0 [] (t_start js) (t_end js) (t_len js) (t_data js) (t_hasreason js) (t_hasdelay js) (t_reason js))); [reflexivity|].
  apply (FL _ _ _ _ (mkTc RdContact Sync3 (t_ds js) [] (t_flags js) 0 0 [] (t_start js) (t_end js) (t_len js) (t_data js) (t_hasreason js) (t_hasdelay js) (t_reason js))); [reflexivity|].
  apply (FL _ _ _ _ (mkTc RdContact Sync4 (t_ds js) [] (t_flags js) 0 0 [] (t_start js) (t_end js) (t_len js) (t_data js) (t_hasreason js) (t_hasdelay js) (t_reason js))); [reflexivity|].
  apply (FL _ _ _ _ (mkTc RdContact RdVersion (t_ds js) [] (t_flags js) 0 0 [] (t_start js) (t_end js) (t_len js) (t_data js) (t_hasreason js) (t_hasdelay js) (t_reason js))); [reflexivity|].
  apply (FL _ _ _ _ (mkTc RdContact RdFlags (t_ds js) [] (t_flags js) 0 0 [] (t_start js) (t_end js) (t_len js) (t_data js) (t_hasreason js) (t_hasdelay js) (t_reason js))); [reflexivity|].
  apply (FL _ _ _ _ (mkTc RdContact RdKeep1 (t_ds js) [] 0 0 0 [] (t_start js) (t_end js) (t_len js) (t_data js) (t_hasreason js) (t_hasdelay js) (t_reason js))); [reflexivity|].
  apply (FL _ _ _ _ (mkTc RdContact RdKeep2 (t_ds js) [] 0 0 0 [] (t_start js) (t_end js) (t_len js) (t_data js) (t_hasreason js) (t_hasdelay js) (t_reason js))); [reflexivity|].
  apply (FL _ _ _ _ (mkTc RdContact RdEidLen (t_ds js) [] 0 0 0 [] (t_start js) (t_end js) (t_len js) (t_data js) (t_hasreason js) (t_hasdelay js) (t_reason js))); [reflexivity|].
  apply (LP [129;255;255;255;255;255;255;255;255;127] [] 10%nat); try reflexivity; discriminate.
Qed.
Print Assumptions C34_length_field_throws_refuted.
