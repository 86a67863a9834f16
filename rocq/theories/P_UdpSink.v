(** C63: what is received by UDP is given to the callback in order, or counted as dropped when the buffer was full, whatever the interleaving of the threads of the sink. *)
From Coq Require Import PeanoNat Wf_nat Compare_dec NArith List Bool Lia ZifyBool ZifyNat.
From Verif Require Import Base M_UdpSink S_UdpSink L_UdpSink.
Import ListNotations.
Open Scope nat_scope.

(** What the callback was given are the datagrams, in order, each once, up to the maximum size, without those that were counted as dropped and those that wait. *)
Theorem C63_datagrams_are_delivered_or_counted : forall n max es s, reached n max es s ->
  exists kept rest, some_of kept (received es) /\ map (firstn max) kept = u_out s ++ rest /\ length rest = waiting s /\ length (received es) = length (u_out s) + waiting s + u_over s.
Proof.
  intros n max es s H. destruct (inv_reached n max es s H) as [[kept [S [L M]]] [_ [_ [_ [_ [I1 _]]]]]].
  set (rest := map content (match u_pc s with Called _ => tl (u_q s) | _ => u_q s end) ++ match u_phase s with Got k => [content (u_rx s, k)] | _ => [] end) in *. exists kept, rest.
  assert (LR : length rest = waiting s).
  { unfold rest, waiting. rewrite app_length, map_length. replace (length (match u_phase s with Got k => [content (u_rx s, k)] | _ => [] end)) with (match u_phase s with Got _ => 1 | _ => 0 end) by (destruct (u_phase s); reflexivity). f_equal. destruct (u_pc s); try lia. destruct (u_q s); cbn [tl length]; lia. }
  split; [exact S|]. split; [exact M|]. split; [exact LR|]. assert (LM := f_equal (@length _) M). rewrite map_length, app_length in LM. lia.
Qed.
Print Assumptions C63_datagrams_are_delivered_or_counted.
(** A datagram is dropped only if all places but one hold datagrams, and then it is counted. *)
Theorem C63_dropped_only_when_full : forall n max es s d s1, reached n max es s -> step max s (Receive d) = Some s1 ->
  (length (u_q s) + 1 < n /\ u_over s1 = u_over s /\ waiting s1 = S (waiting s)) \/ (n <= length (u_q s) + 1 /\ u_over s1 = S (u_over s) /\ waiting s1 = waiting s).
Proof.
  intros n max es s d s1 H E. destruct (inv_reached n max es s H) as [_ [_ [_ [C _]]]]. destruct s as [rx p q f ov c o]. cbn [step u_rx u_phase u_q u_free u_over u_pc u_out] in *. destruct p; try discriminate. destruct (receive rx d) as [v k]. unfold waiting.
  destruct (Nat.leb_spec (length f) 1); injection E as <-; cbn [u_rx u_phase u_q u_free u_over u_pc u_out]; [right|left]; repeat split; lia.
Qed.
Print Assumptions C63_dropped_only_when_full.
(** When nothing happens any more, all that was not dropped has been delivered, and the next datagram can come. *)
Theorem C63_everything_is_delivered : forall n max es s, reached n max es s -> quiet max s -> waiting s = 0 /\ length (u_rx s) = max /\ forall d, exists s1, step max s (Receive d) = Some s1.
Proof.
  intros n max es s H Q. assert (I := inv_reached n max es s H). destruct (quiet_state n max _ s I Q) as [E1 [E2 E3]]. split; [unfold waiting; rewrite E1, E2, E3; reflexivity|]. split; [apply I|]. intro d. cbn [step]. rewrite E2. destruct (receive (u_rx s) d) as [v k]. destruct (Nat.leb (length (u_free s)) 1); eexists; reflexivity.
Qed.
Print Assumptions C63_everything_is_delivered.
Theorem C63_the_sink_comes_to_rest : forall max s,
  (forall fs s1, Forall internal fs -> run max s fs = Some s1 -> length fs <= 20 * length (u_q s) + 37) /\ (exists fs s1, Forall internal fs /\ run max s fs = Some s1 /\ quiet max s1).
Proof.
  intros max s. split.
  - intros fs s1 F R. assert (X := weight_run max fs s s1 F R). assert (Y : weight s <= 20 * length (u_q s) + 37) by (unfold weight; destruct (u_phase s), (u_pc s) as [| |[]| |]; lia). lia.
  - remember (weight s) as n eqn:E. assert (L : weight s <= n) by lia. clear E. revert s L. induction n as [n IH] using (well_founded_induction lt_wf). intros s L.
    assert (D : quiet max s \/ exists e s2, internal e /\ step max s e = Some s2).
    { assert (INT : internal Commit /\ internal Notify /\ forall l, internal (Reader l)) by (repeat split; discriminate). destruct INT as [T1 [T2 T3]].
      destruct (step max s Commit) as [s2|] eqn:E1; [right; exists Commit, s2; auto|]. destruct (step max s Notify) as [s2|] eqn:E2; [right; exists Notify, s2; auto|]. destruct (step max s (Reader [])) as [s2|] eqn:E3; [right; exists (Reader []), s2; auto|].
      left. intros e s1 E. destruct e as [d| | |lv|]; [right; exists d; reflexivity|congruence|congruence| |left; reflexivity]. exfalso. cbn [step] in *. cbv zeta in *. destruct (u_pc s) as [| |[]| |l]; try discriminate; destruct (u_q s) as [|[v k] q]; discriminate. }
    destruct D as [Q|[e [s2 [IE E]]]]; [exists [], s; split; [constructor|]; split; [reflexivity|exact Q]|]. assert (W := weight_step _ _ _ _ IE E). destruct (IH (weight s2) ltac:(lia) s2 (le_n _)) as [fs [s1 [F [R Q]]]]. exists (e :: fs), s1. split; [constructor; assumption|]. split; [cbn [run]; rewrite E; exact R|exact Q].
Qed.
Print Assumptions C63_the_sink_comes_to_rest.
(** Whatever callbacks leave in the vectors: every buffer that is received into has the maximum size, there is always one to swap with, and the reader never takes from an empty buffer. *)
Theorem C63_buffers_are_as_large_as_configured : forall n max es s, reached n max es s ->
  length (u_rx s) = max /\ Forall (fun v => length v = max) (u_free s) /\ length (u_q s) + length (u_free s) = n /\ (forall k, u_phase s = Got k -> u_free s <> []) /\ (u_pc s = Ready \/ (exists l, u_pc s = Called l) -> u_q s <> []).
Proof.
  intros n max es s H. destruct (inv_reached n max es s H) as [_ [X [F [C [G [I1 _]]]]]]. do 3 (split; [assumption|]). split; [|exact I1]. intros k E N. rewrite E, N in G. cbn in G. lia.
Qed.
Print Assumptions C63_buffers_are_as_large_as_configured.

(** An execution with two vectors: the second datagram comes while the first waits and is dropped; the callback takes the vector of the first; of the third, which is one byte too long, the first three bytes are delivered. *)
Example C63_ex : run 3 (start 2 3) [Reader []; Receive [1; 2]%N; Commit; Notify; Receive [9]%N; Reader []; Reader []; Reader []; Reader []; Receive [3; 4; 5; 6]%N; Reader []; Commit; Notify; Reader []; Reader []; Reader [7]%N; Reader []; Reader []; Reader []] =
  Some (mkSink [0; 0; 0]%N Idle [] [[0; 0; 0]%N; [7; 0; 0]%N] 1 (Waiting false) [[1; 2]; [3; 4; 5]]%N).
Proof. vm_compute. reflexivity. Qed.

(** REFUTED: every size of the circular buffer that can be configured works (InductsConfig.cpp:383 accepts any). With 1 every datagram is dropped. *)
Theorem C63_any_buffer_size_works_refuted : exists n, n = 1 /\ forall max es s, reached n max es s -> u_out s = [] /\ u_over s = length (received es).
Proof.
  exists 1. split; [reflexivity|]. intros max es s H. assert (G : forall es s s1, u_phase s = Idle -> u_q s = [] -> length (u_free s) <= 1 -> u_out s = [] -> run max s es = Some s1 -> u_out s1 = [] /\ u_over s1 = u_over s + length (received es)).
  { clear. induction es as [|e es IH]; intros [rx p q f ov c o] s1 P Q F O H; cbn [u_rx u_phase u_q u_free u_over u_pc u_out] in *; subst p q o; cbn [run] in H; [injection H as <-; cbn; split; [reflexivity|lia]|].
    destruct (step max (mkSink rx Idle [] f ov c []) e) as [s2|] eqn:E; [|discriminate].
    assert (X : u_phase s2 = Idle /\ u_q s2 = [] /\ u_free s2 = f /\ u_out s2 = [] /\ u_over s2 = ov + length (received [e])).
    { unfold received. destruct e as [d| | |lv|]; cbn [step u_rx u_phase u_q u_free u_over u_pc u_out flat_map app length] in *; rewrite ?Nat.add_0_r; try discriminate.
      - destruct (receive rx d) as [v k]. destruct (Nat.leb_spec (length f) 1); [|lia]. injection E as <-. cbn [u_rx u_phase u_q u_free u_over u_pc u_out]. repeat split. lia.
      - destruct c as [| |[]| |l]; try discriminate; injection E as <-; auto.
      - destruct c as [| |[]| |l]; try discriminate; injection E as <-; auto. }
    destruct X as [X1 [X2 [X3 [X4 X5]]]]. rewrite <- X3 in F. destruct (IH s2 s1 X1 X2 F X4 H) as [Y1 Y2]. split; [exact Y1|]. rewrite Y2, X5. change (e :: es) with ([e] ++ es). unfold received. rewrite flat_map_app, app_length. lia. }
  apply (G es (start 1 max) s); auto.
Qed.
Print Assumptions C63_any_buffer_size_works_refuted.
(** REFUTED: what is given to the callback are datagrams as they were received. A datagram longer than a vector is delivered without its end, as if that was all. *)
Theorem C63_datagrams_are_delivered_whole_refuted : forall max, exists d es s, reached 2 max es s /\ received es = [d] /\ quiet max s /\ u_over s = 0 /\ u_out s = [firstn max d] /\ firstn max d <> d.
Proof.
  intro max. set (d := repeat 5%N (S max)). assert (LD : length d = S max) by apply repeat_length. clearbody d. assert (R := receive_spec max (repeat 0%N max) d _ _ (repeat_length _ _) (surjective_pairing _)). destruct R as [R1 R2].
  exists d, [Receive d; Commit; Notify; Reader []; Reader []; Reader []; Reader []; Reader []]. eexists. split; [unfold reached, start; cbn [run step u_rx u_phase u_q u_free u_over u_pc u_out repeat length Nat.leb]; rewrite (surjective_pairing (receive _ _)); cbn [run step u_rx u_phase u_q u_free u_over u_pc u_out repeat length Nat.leb app]; reflexivity|].
  split; [reflexivity|]. split; [|split; [reflexivity|split]].
  - intros e s1 E. destruct e as [x| | |lv|]; try discriminate; [right; exists x; reflexivity|left; reflexivity].
  - cbn [u_out]. rewrite R2. reflexivity.
  - intro E. apply (f_equal (@length _)) in E. rewrite firstn_length, LD in E. lia.
Qed.
Print Assumptions C63_datagrams_are_delivered_whole_refuted.
