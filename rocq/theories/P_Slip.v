(** C33: SLIP framing. *)
From Coq Require Import NArith ZArith List Bool Lia ZifyBool ZifyN.
From Verif Require Import Base M_Slip L_Slip.
Import ListNotations.
Open Scope N_scope.

(** C33: the encoder writes END, the escaped bytes without any END among them, END; at most 2n+2 bytes (callers reserve 2n+4), and returns
    their number. *)
Theorem C33_encoding_shape b : exists body, fst (slip_encode b) = SLIP_END :: body ++ [SLIP_END] /\ ~ In SLIP_END body /\
  (length b <= length body <= 2 * length b)%nat /\ (N.of_nat (length b) < 2 ^ 31 - 1 -> snd (slip_encode b) = N.of_nat (length (fst (slip_encode b)))).
Proof.
  exists (flat_map slip_encode_char b). split; [reflexivity|].
  assert (forall l, ~ In SLIP_END (flat_map slip_encode_char l) /\ (length l <= length (flat_map slip_encode_char l) <= 2 * length l)%nat) as G.
  { induction l as [|c l (IH1 & IH2)]; cbn [flat_map length]; [split; [intros []|lia]|]. rewrite in_app_iff, app_length.
    destruct (char_cases c) as [(_ & ->)|[(_ & ->)|(N1 & N2 & ->)]]; cbn [In length]; (split; [|lia]); intuition discriminate. }
  destruct (G b) as (G1 & G2). split; [exact G1|]. split; [exact G2|]. intros L. unfold slip_encode. cbn [fst snd]. apply N.mod_small. cbn [length]. rewrite app_length. cbn [length]. unfold W32. lia.
Qed.
Print Assumptions C33_encoding_shape.
Example ex_encode : slip_encode [1; 0xC0; 0xDB; 0xDC] = ([0xC0; 1; 0xDB; 0xDC; 0xDB; 0xDD; 0xDC; 0xC0], 8).
Proof. vm_compute. reflexivity. Qed.
(** C33: bundles of 1 to [maxsize] bytes, encoded one after the other and received in any chunks after any earlier bytes (so from any receiver
    state), are committed exactly once each, in order, byte for byte; before them comes only what the first END completes of the
    earlier bytes. A bundle for which no buffer is free at its opening END is lost, the others are not affected. *)
Theorem C33_uart_receives_exactly_the_bundles avail maxsize u bundles chunks :
  Forall (fun b => b <> [] /\ N.of_nat (length b) <= maxsize) bundles -> concat chunks = flat_map (fun b => fst (slip_encode b)) bundles ->
  exists first, (length first <= 1)%nat /\ snd (uart_chunks avail maxsize u chunks) =
    first ++ map snd (filter (fun e => avail (ur_resets u + 2 * fst e)) (combine (map N.of_nat (seq 0 (length bundles))) bundles)).
Proof.
  intros F E. rewrite chunks_concat, E. clear chunks E.
  assert (forall bs u, Forall (fun b => b <> [] /\ N.of_nat (length b) <= maxsize) bs -> forall j,
    snd (uart_chunk avail maxsize u (flat_map (fun b => fst (slip_encode b)) bs)) =
    match bs with [] => [] | _ => pending u end ++ map snd (filter (fun e => avail (ur_resets u + 2 * (fst e - N.of_nat j))) (combine (map N.of_nat (seq j (length bs))) bs))) as G.
  { induction bs as [|b bs IH]; intros v H j; cbn [flat_map]; [reflexivity|]. inversion H as [|? ? (NE & LE) H']; subst.
    rewrite chunk_app, uart_frame. specialize (IH (idle avail (ur_resets v + 1)) H' (S j)).
    destruct (uart_chunk avail maxsize (idle avail (ur_resets v + 1)) (flat_map (fun b => fst (slip_encode b)) bs)) as [u2 o2]. cbn [snd] in *. rewrite IH. clear IH.
    rewrite <- app_assoc. f_equal. cbn [length seq map combine filter fst]. rewrite N.sub_diag, N.mul_0_r, N.add_0_r.
    apply N.leb_le in LE. rewrite LE. assert ((match b with [] => true | _ => false end) = false) as -> by (destruct b; congruence). cbn [negb andb]. rewrite !andb_true_r.
    assert (pending (idle avail (ur_resets v + 1)) = []) as PE by (unfold pending, idle; cbn; now destruct (avail _)). rewrite PE.
    cbn [ur_resets idle].
    assert (filter (fun e : N * list N => avail (ur_resets v + 1 + 1 + 2 * (fst e - N.of_nat (S j)))) (combine (map N.of_nat (seq (S j) (length bs))) bs) =
            filter (fun e => avail (ur_resets v + 2 * (fst e - N.of_nat j))) (combine (map N.of_nat (seq (S j) (length bs))) bs)) as ->.
    { apply filter_ext_in. intros (i & x) I. apply in_combine_l in I. apply in_map_iff in I as (n & <- & I). apply in_seq in I. cbn [fst]. f_equal. lia. }
    destruct bs; destruct (avail (ur_resets v)); reflexivity. }
  exists (match bundles with [] => [] | _ => pending u end). split.
  - destruct bundles; [cbn; lia|]. unfold pending. destruct (ur_cur u) as [[|x b]|]; [cbn; lia| |cbn; lia]. destruct (ur_over u); cbn; lia.
  - rewrite (G bundles u F O). f_equal. f_equal. apply filter_ext. intros e. f_equal. lia.
Qed.
Print Assumptions C33_uart_receives_exactly_the_bundles.
(** With a buffer always free: exactly the bundles. *)
Theorem C33_uart_transparent maxsize u bundles chunks :
  Forall (fun b => b <> [] /\ N.of_nat (length b) <= maxsize) bundles -> concat chunks = flat_map (fun b => fst (slip_encode b)) bundles ->
  exists first, (length first <= 1)%nat /\ (ur_cur u = Some [] \/ ur_cur u = None -> first = []) /\ snd (uart_chunks (fun _ => true) maxsize u chunks) = first ++ bundles.
Proof.
  intros F E. rewrite chunks_concat, E. clear chunks E.
  assert (forall bs u, Forall (fun b => b <> [] /\ N.of_nat (length b) <= maxsize) bs ->
    snd (uart_chunk (fun _ => true) maxsize u (flat_map (fun b => fst (slip_encode b)) bs)) = match bs with [] => [] | _ => pending u end ++ bs) as G.
  { induction bs as [|b bs IH]; intros v H; cbn [flat_map]; [reflexivity|]. inversion H as [|? ? (NE & LE) H']; subst.
    rewrite chunk_app, uart_frame. specialize (IH (idle (fun _ => true) (ur_resets v + 1)) H').
    destruct (uart_chunk (fun _ => true) maxsize (idle (fun _ => true) (ur_resets v + 1)) (flat_map (fun b => fst (slip_encode b)) bs)) as [u2 o2]. cbn [snd] in *. rewrite IH.
    rewrite <- app_assoc. f_equal. apply N.leb_le in LE. rewrite LE. assert ((match b with [] => true | _ => false end) = false) as -> by (destruct b; congruence). cbn [negb andb].
    destruct bs; reflexivity. }
  exists (match bundles with [] => [] | _ => pending u end). split; [|split].
  - destruct bundles; [cbn; lia|]. unfold pending. destruct (ur_cur u) as [[|x b]|]; [cbn; lia| |cbn; lia]. destruct (ur_over u); cbn; lia.
  - intros [H|H]; destruct bundles; auto; unfold pending; now rewrite H.
  - now apply G.
Qed.
Print Assumptions C33_uart_transparent.
Example ex_uart : snd (uart_chunks (fun _ => true) 10 (mkUart 0 (Some [9]) false 0) [[0xC0; 1; 0xDB]; [0xDC; 0xDB]; []; [0xDD; 0xC0; 0xC0; 7]; [0xC0]]) = [[9]; [1; 0xC0; 0xDB]; [7]].
Proof. vm_compute. reflexivity. Qed.
(** A bundle of more than [maxsize] bytes and an empty one are dropped without affecting what follows. *)
Theorem C33_oversize_and_empty_dropped avail maxsize u b : b = [] \/ maxsize < N.of_nat (length b) ->
  exists u', uart_chunk avail maxsize u (fst (slip_encode b)) = (u', pending u) /\ (ur_cur u' = Some [] \/ ur_cur u' = None) /\ ur_over u' = false /\ ur_prev u' = slip_init.
Proof.
  intros H. rewrite uart_frame. eexists. split; [f_equal|].
  - destruct H as [->|H]; [now rewrite andb_false_r, app_nil_r|]. destruct (N.leb_spec (N.of_nat (length b)) maxsize); [lia|]. now rewrite andb_false_r, app_nil_r.
  - unfold idle. cbn. destruct (avail _); auto.
Qed.
Print Assumptions C33_oversize_and_empty_dropped.
(** The bare decoder keeps its state across END, so after a damaged frame ending in ESC END the first byte of the next frame can be
    decoded wrongly (UartInterface re-initialises the decoder at every END and is not affected). *)
Theorem C33_bare_decoder_remembers_escape_refuted : exists prev, fst (slip_decode_char (fst (slip_decode_char slip_init SLIP_ESC)) SLIP_END) = prev /\
  slip_decode_char prev 0xDC = (0xDC, SlipChar 0xC0).
Proof. eexists. split; vm_compute; reflexivity. Qed.
Print Assumptions C33_bare_decoder_remembers_escape_refuted.
