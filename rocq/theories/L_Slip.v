(** Lemmas for C33. *)
From Coq Require Import NArith ZArith List Bool Lia ZifyBool ZifyN.
From Verif Require Import Base M_Slip.
Import ListNotations.
Open Scope N_scope.

Lemma chunk_app avail m a : forall u b, uart_chunk avail m u (a ++ b) = let '(u1, o1) := uart_chunk avail m u a in let '(u2, o2) := uart_chunk avail m u1 b in (u2, o1 ++ o2).
Proof.
  induction a as [|c a IH]; intros u b; cbn [app uart_chunk]; [now destruct (uart_chunk avail m u b)|].
  destruct (uart_byte avail m u c) as [u1 o1]. rewrite IH. destruct (uart_chunk avail m u1 a) as [u2 o2]. destruct (uart_chunk avail m u2 b) as [u3 o3]. now rewrite app_assoc.
Qed.
Lemma chunks_concat avail m cs : forall u, uart_chunks avail m u cs = uart_chunk avail m u (concat cs).
Proof.
  induction cs as [|c cs IH]; intros u; cbn [uart_chunks concat]; [reflexivity|]. rewrite chunk_app. destruct (uart_chunk avail m u c) as [u1 o1]. now rewrite IH.
Qed.
Lemma char_cases c : (c = SLIP_END /\ slip_encode_char c = [SLIP_ESC; SLIP_ESC_END]) \/ (c = SLIP_ESC /\ slip_encode_char c = [SLIP_ESC; SLIP_ESC_ESC]) \/
  (c <> SLIP_END /\ c <> SLIP_ESC /\ slip_encode_char c = [c]).
Proof. unfold slip_encode_char. destruct (N.eqb_spec c SLIP_END); [now left|]. destruct (N.eqb_spec c SLIP_ESC); auto. Qed.
(** Decoding one encoded character gives it back, from any state that is not just after an escape. *)
Lemma uart_encoded_char avail m prev cur over k c : prev <> SLIP_ESC ->
  exists prev', prev' <> SLIP_ESC /\ uart_chunk avail m (mkUart prev cur over k) (slip_encode_char c) =
    (match cur with None => mkUart prev' None over k | Some b => if N.of_nat (length b) <? m then mkUart prev' (Some (b ++ [c])) over k else mkUart prev' (Some b) true k end, []).
Proof.
  intros P. destruct (char_cases c) as [(-> & ->)|[(-> & ->)|(N1 & N2 & ->)]].
  - exists SLIP_ESC_END. split; [discriminate|]. destruct cur as [b|]; [|reflexivity]. cbn [uart_chunk].
    change (uart_byte avail m (mkUart prev (Some b) over k) SLIP_ESC) with (mkUart SLIP_ESC (Some b) over k, @nil (list N)). cbv iota beta.
    unfold uart_byte. change (slip_decode_char (ur_prev (mkUart SLIP_ESC (Some b) over k)) SLIP_ESC_END) with (SLIP_ESC_END, SlipChar SLIP_END).
    cbn [ur_cur ur_over ur_resets]. destruct (N.of_nat (length b) <? m); reflexivity.
  - exists SLIP_ESC_ESC. split; [discriminate|]. destruct cur as [b|]; [|reflexivity]. cbn [uart_chunk].
    change (uart_byte avail m (mkUart prev (Some b) over k) SLIP_ESC) with (mkUart SLIP_ESC (Some b) over k, @nil (list N)). cbv iota beta.
    unfold uart_byte. change (slip_decode_char (ur_prev (mkUart SLIP_ESC (Some b) over k)) SLIP_ESC_ESC) with (SLIP_ESC_ESC, SlipChar SLIP_ESC).
    cbn [ur_cur ur_over ur_resets]. destruct (N.of_nat (length b) <? m); reflexivity.
  - exists c. split; [exact N2|]. cbn [uart_chunk]. unfold uart_byte, slip_decode_char. cbn [ur_prev ur_cur ur_over ur_resets].
    destruct (N.eqb_spec c SLIP_ESC); [contradiction|]. destruct (N.eqb_spec c SLIP_END); [contradiction|]. destruct (N.eqb_spec prev SLIP_ESC); [contradiction|].
    destruct cur as [b|]; [|reflexivity]. destruct (N.of_nat (length b) <? m); reflexivity.
Qed.
(** The body of a frame. *)
Lemma uart_body avail m body : forall prev cur over k, prev <> SLIP_ESC ->
  exists prev', prev' <> SLIP_ESC /\ uart_chunk avail m (mkUart prev cur over k) (flat_map slip_encode_char body) =
    (match cur with
     | None => mkUart prev' None over k
     | Some b => if N.of_nat (length (b ++ body)) <=? m then mkUart prev' (Some (b ++ body)) over k
                 else mkUart prev' (Some (b ++ firstn (N.to_nat m - length b) body)) (match body with [] => over | _ => true end) k
     end, []).
Proof.
  induction body as [|c body IH]; intros prev cur over k P; cbn [flat_map].
  - exists prev. split; [exact P|]. cbn [uart_chunk]. destruct cur as [b|]; [|reflexivity]. rewrite app_nil_r, firstn_nil, app_nil_r. now destruct (_ <=? _).
  - destruct (uart_encoded_char avail m prev cur over k c P) as (p1 & P1 & E1). rewrite chunk_app, E1. destruct cur as [b|].
    + destruct (N.ltb_spec (N.of_nat (length b)) m) as [L|L].
      * destruct (IH p1 (Some (b ++ [c])) over k P1) as (p2 & P2 & E2). exists p2. split; [exact P2|]. rewrite E2. cbn [app]. rewrite <- !app_assoc. cbn [app]. f_equal.
        destruct (N.leb_spec (N.of_nat (length (b ++ c :: body))) m); [reflexivity|].
        replace (N.to_nat m - length b)%nat with (S (N.to_nat m - length (b ++ [c]))) by (rewrite app_length; cbn [length]; lia). cbn [firstn].
        destruct body; [|reflexivity]. rewrite app_length in *. cbn [length] in *. lia.
      * destruct (IH p1 (Some b) true k P1) as (p2 & P2 & E2). exists p2. split; [exact P2|]. rewrite E2. cbn [app]. f_equal.
        destruct (N.leb_spec (N.of_nat (length (b ++ c :: body))) m) as [Q|Q]; [rewrite app_length in Q; cbn [length] in Q; lia|].
        replace (N.to_nat m - length b)%nat with O by lia. cbn [firstn]. rewrite app_nil_r.
        destruct (N.leb_spec (N.of_nat (length (b ++ body))) m) as [Q2|Q2].
        -- rewrite app_length in *. cbn [length] in *. destruct body; [now rewrite app_nil_r|cbn [length] in Q2; lia].
        -- now destruct body.
    + destruct (IH p1 None over k P1) as (p2 & P2 & E2). exists p2. split; [exact P2|]. now rewrite E2.
Qed.
Lemma uart_end avail m prev cur over k : uart_byte avail m (mkUart prev cur over k) SLIP_END =
  (mkUart slip_init (if avail k then Some [] else None) false (k + 1), match cur with Some (x :: b) => if over then [] else [x :: b] | _ => [] end).
Proof. reflexivity. Qed.
(** One encoded bundle, from any state whatever: first whatever the opening END completes, then the bundle. *)
Definition pending (u : uart) : list (list N) := match ur_cur u with Some (x :: b) => if ur_over u then [] else [x :: b] | _ => [] end.
Definition idle (avail : N -> bool) (k : N) : uart := mkUart slip_init (if avail k then Some [] else None) false (k + 1).
Lemma uart_frame avail m u b : uart_chunk avail m u (fst (slip_encode b)) =
  (idle avail (ur_resets u + 1), pending u ++ (if avail (ur_resets u) && negb (match b with [] => true | _ => false end) && (N.of_nat (length b) <=? m) then [b] else [])).
Proof.
  unfold slip_encode. cbn [fst]. cbn [uart_chunk]. destruct u as [prev cur over k]. rewrite uart_end. rewrite chunk_app.
  destruct (uart_body avail m b slip_init (if avail k then Some [] else None) false (k + 1) ltac:(discriminate)) as (p & P & ->). cbn [uart_chunk]. unfold pending. cbn [ur_cur ur_over ur_resets].
  destruct (avail k) eqn:AV; cbn [andb app length].
  - destruct (N.leb_spec (N.of_nat (length b)) m) as [L|L].
    + rewrite uart_end. destruct b as [|x b]; reflexivity.
    + rewrite uart_end. destruct b as [|x b]; [cbn [length] in L; lia|]. cbn [negb]. destruct (firstn (N.to_nat m - 0) (x :: b)); reflexivity.
  - rewrite uart_end. reflexivity.
Qed.
