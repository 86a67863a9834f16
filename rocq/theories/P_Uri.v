(** C36: the text form of endpoint ids is canonical, sized exactly, parsed exactly and round-trips. *)
From Coq Require Import NArith ZArith List Bool Lia ZifyBool ZifyN.
From Verif Require Import Base M_Uri S_Uri L_Uri.
Import ListNotations.
Open Scope N_scope.

(** The text of an id is "ipn:", the node in decimal, ".", the service in decimal. *)
Theorem C36_text_is_canonical : forall node svc, node < W64 -> svc < W64 -> ipn_text node svc (uri_string node svc).
Proof.
  intros node svc A B. exists (dec node), (dec svc). split; [now apply dec_ok|]. split; [now apply dec_ok|]. reflexivity.
Qed.
Print Assumptions C36_text_is_canonical.
(** "ipn:2.18446744073709551615" *)
Example C36_text_is_canonical_ex : uri_string 2 (W64 - 1) =
  [105; 112; 110; 58; 50; 46; 49; 56; 52; 52; 54; 55; 52; 52; 48; 55; 51; 55; 48; 57; 53; 53; 49; 54; 49; 53].
Proof. vm_compute. reflexivity. Qed.

(** An id has one canonical text, and the announced C-string size is its length plus the zero byte. *)
Theorem C36_announced_size_is_exact : forall node svc s, node < W64 -> svc < W64 -> ipn_text node svc s ->
  uri_cstring_len node svc = Some (N.of_nat (length s) + 1).
Proof.
  intros node svc s A B (a & b & Da & Db & ->). unfold uri_cstring_len.
  rewrite (uint_len_ok node a A Da), (uint_len_ok svc b B Db). f_equal.
  unfold ipn_colon. rewrite !app_length. cbn [length]. lia.
Qed.
Print Assumptions C36_announced_size_is_exact.
Example C36_announced_size_is_exact_ex :
  uri_cstring_len 0 9 = Some 8 /\ uri_cstring_len 10 99 = Some 10 /\ uri_cstring_len (W64 - 1) (10 ^ 19) = Some 46 /\
  length (uri_string (W64 - 1) (10 ^ 19)) = 45%nat.
Proof. vm_compute. auto. Qed.

(** The number of digits announced is that of the decimal notation, for every 64-bit value. *)
Theorem C36_digit_count_is_exact : forall v s, v < W64 -> decimal v s -> uint_len v = Some (N.of_nat (length s)).
Proof. exact uint_len_ok. Qed.
Print Assumptions C36_digit_count_is_exact.
Example C36_digit_count_is_exact_ex :
  map uint_len [0; 9; 10; 99; 100; 999999999999; 1000000000000; 9999999999999999999; 10000000000000000000] =
  map Some [1; 1; 2; 2; 3; 12; 13; 19; 20].
Proof. vm_compute. reflexivity. Qed.

(** Writing into a buffer of any size: nothing outside it is touched; if the text and its zero byte fit they are at
    its front, nothing behind them changes and their size is returned; otherwise 0 is returned. *)
Theorem C36_write_is_exact_and_bounded : forall node svc buf,
  let (n, out) := uri_write node svc buf in
  let text := uri_string node svc in
  length out = length buf /\
  if (length text <? length buf)%nat
  then n = N.of_nat (length text) + 1 /\ out = text ++ [0] ++ skipn (S (length text)) buf
  else n = 0.
Proof.
  intros node svc buf. unfold uri_write. cbv zeta. set (text := uri_string node svc). split.
  - unfold snprintf. destruct buf as [|c buf]; [reflexivity|].
    cbv zeta. rewrite !app_length, firstn_length, skipn_length. cbn [length]. lia.
  - destruct (length text <? length buf)%nat eqn:E.
    + apply Nat.ltb_lt in E. destruct (N.leb_spec (N.of_nat (length buf)) (N.of_nat (length text))); [lia|].
      split; [reflexivity|]. unfold snprintf. destruct buf as [|c buf]; [cbn [length] in E; lia|]. cbv zeta.
      cbn [length] in E |- *. replace (Nat.min (length text) (S (length buf) - 1)) with (length text) by lia.
      rewrite firstn_all. reflexivity.
    + apply Nat.ltb_ge in E. destruct (N.leb_spec (N.of_nat (length buf)) (N.of_nat (length text))); [reflexivity|lia].
Qed.
Print Assumptions C36_write_is_exact_and_bounded.
Example C36_write_is_exact_and_bounded_ex :
  uri_write 1 23 (repeat 7 10) = (9, [105; 112; 110; 58; 49; 46; 50; 51; 0; 7]) /\
  uri_write 1 23 (repeat 7 8) = (0, [105; 112; 110; 58; 49; 46; 50; 0]) /\ uri_write 1 23 [] = (0, []).
Proof. vm_compute. auto. Qed.

(** The scheme-specific part is accepted exactly if it is two number texts separated by a dot; where a wildcard flag
    is passed the service may also be "*". *)
Theorem C36_parse_ssp_is_exact : forall wild data node sv,
  parse_ssp wild data = Some (node, sv) <->
  exists a b, data = a ++ [46] ++ b /\ number_text node a /\
    match sv with Svc n => number_text n b | AnySvc => wild = true /\ b = [42] end.
Proof.
  intros wild data node sv. split.
  - intros H. assert (F : exists i, find_dot 0 None data = Some (Some i)).
    { unfold parse_ssp in H. destruct (find_dot 0 None data) as [[i|]|]; try discriminate. now exists i. }
    destruct F as (i & F). apply find_dot_inv in F. destruct F as (a & b & -> & _ & A & B).
    exists a, b. split; [reflexivity|]. rewrite (parse_ssp_app wild a b A B) in H.
    destruct (negb (length a =? 0)%nat && negb (length b =? 0)%nat) eqn:L; [|discriminate].
    destruct (lex_u64 a) as [na|] eqn:LA; [|discriminate]. apply lex_u64_iff in LA.
    destruct (wild && (length b =? 1)%nat && (hd 0 b =? 42)) eqn:Wd.
    + injection H as <- <-. split; [exact LA|]. apply andb_prop in Wd. destruct Wd as [Wd W3].
      apply andb_prop in Wd. destruct Wd as [W1 W2]. split; [exact W1|].
      destruct b as [|c [|d b]]; cbn [length] in W2; try lia. cbn [hd] in W3. f_equal. lia.
    + destruct (lex_u64 b) as [nb|] eqn:LB; [|discriminate]. injection H as <- <-. apply lex_u64_iff in LB. auto.
  - intros (a & b & -> & NA & NB). pose proof (number_text_chars node a NA) as [NEa CA].
    assert (CB : b <> [] /\ Forall (fun c => c <> 46) b).
    { destruct sv as [n|].
      - destruct (number_text_chars n b NB) as [X Y]. split; [exact X|]. eapply Forall_impl; [|exact Y]. cbv beta. tauto.
      - destruct NB as [_ ->]. split; [discriminate|]. constructor; [lia|constructor]. }
    destruct CB as [NEb CB]. change ([46] ++ b) with (46 :: b). rewrite parse_ssp_app; [|eapply Forall_impl; [|exact CA]; cbv beta; tauto|exact CB].
    replace (negb (length a =? 0)%nat && negb (length b =? 0)%nat) with true.
    2: { destruct a; [now elim NEa|]. destruct b; [now elim NEb|]. reflexivity. }
    apply lex_u64_iff in NA. rewrite NA. destruct sv as [n|].
    + replace (wild && (length b =? 1)%nat && (hd 0 b =? 42)) with false.
      * apply lex_u64_iff in NB. now rewrite NB.
      * symmetry. apply andb_false_iff. right. destruct (number_text_chars n b NB) as [X Y].
        destruct b as [|c b]; [now elim X|]. inversion Y; subst. cbn [hd]. lia.
    + destruct NB as [-> ->]. reflexivity.
Qed.
Print Assumptions C36_parse_ssp_is_exact.
Example C36_parse_ssp_is_exact_ex :
  parse_ssp true [48; 49; 50; 46; 43; 55] = Some (12, Svc 7) /\ parse_ssp true [57; 46; 42] = Some (9, AnySvc) /\
  parse_ssp false [57; 46; 42] = None /\ parse_ssp true [57; 46; 49; 46; 50] = None /\ parse_ssp true [57; 46] = None.
Proof. vm_compute. auto. Qed.

(** Parsing a URI string accepts exactly "ipn:" followed by such a part; parsing a C string additionally needs a zero
    byte inside the buffer, ignores what follows the first one and reports the size up to and including it. *)
Theorem C36_parse_is_exact : forall wild data,
  (forall r, parse_uri_string wild data = Some r <->
     exists ssp, data = ipn_colon ++ ssp /\ parse_ssp wild ssp = Some r) /\
  (forall n r, parse_uri_cstring wild data = Some (n, r) <->
     exists s rest, data = s ++ [0] ++ rest /\ Forall (fun c => c <> 0) s /\ n = N.of_nat (length s) + 1 /\
       parse_uri_string wild s = Some r).
Proof.
  intros wild data.
  assert (S3 : forall ssp r, parse_ssp wild ssp = Some r -> (3 <= length ssp)%nat).
  { intros ssp [nd sv] H. apply C36_parse_ssp_is_exact in H. destruct H as (a & b & -> & NA & NB).
    destruct (number_text_chars nd a NA) as [NEa _]. rewrite !app_length. cbn [length].
    destruct a; [now elim NEa|]. destruct b; [|cbn [length]; lia]. exfalso. destruct sv as [m|].
    - now destruct (number_text_chars m [] NB).
    - now destruct NB. }
  assert (P1 : forall data r, parse_uri_string wild data = Some r <->
     exists ssp, data = ipn_colon ++ ssp /\ parse_ssp wild ssp = Some r).
  { intros d r. unfold parse_uri_string. split.
    - destruct (ipn_prefix d) eqn:E; [|discriminate]. apply ipn_prefix_iff in E. destruct E as (t & -> & _).
      intros H. exists t. split; [reflexivity|exact H].
    - intros (ssp & -> & H). rewrite (proj2 (ipn_prefix_iff (ipn_colon ++ ssp))); [exact H|].
      exists ssp. split; [reflexivity|]. now apply (S3 _ r). }
  split; [exact (P1 data)|]. intros n r. unfold parse_uri_cstring. split.
  - destruct (cstring data) as [s|] eqn:C; [|discriminate]. intros H.
    destruct (cstring_inv data s C) as (F & rest & ->). exists s, rest.
    unfold parse_uri_string. destruct (ipn_prefix s); [|discriminate].
    destruct (parse_ssp wild (skipn 4 s)) as [x|]; [|discriminate]. injection H as <- <-. auto.
  - intros (s & rest & -> & F & -> & H). change ([0] ++ rest) with (0 :: rest). rewrite cstring_app by exact F.
    unfold parse_uri_string in H. destruct (ipn_prefix s); [|discriminate]. now rewrite H.
Qed.
Print Assumptions C36_parse_is_exact.
Example C36_parse_is_exact_ex :
  parse_uri_string false [105; 112; 110; 58; 49; 46; 50] = Some (1, Svc 2) /\
  parse_uri_cstring false [105; 112; 110; 58; 49; 46; 50; 0; 9; 9] = Some (8, (1, Svc 2)) /\
  parse_uri_cstring false [105; 112; 110; 58; 49; 46; 50] = None.
Proof. vm_compute. auto. Qed.

(** Round trips: the text of every id parses back to it, with or without wildcard detection; the wildcard text to the
    wildcard; and a C string written into a large enough buffer to the id and the written size. *)
Theorem C36_roundtrip : forall wild node svc, node < W64 -> svc < W64 ->
  parse_uri_string wild (uri_string node svc) = Some (node, Svc svc) /\
  parse_uri_string true (uri_any_service node) = Some (node, AnySvc) /\
  forall buf n out, uri_write node svc buf = (n, out) -> n <> 0 ->
    uri_cstring_len node svc = Some n /\ parse_uri_cstring wild out = Some (n, (node, Svc svc)).
Proof.
  intros wild node svc A B.
  assert (R1 : parse_uri_string wild (uri_string node svc) = Some (node, Svc svc)).
  { apply C36_parse_is_exact. exists (dec node ++ [46] ++ dec svc). split; [reflexivity|].
    apply C36_parse_ssp_is_exact. exists (dec node), (dec svc). split; [reflexivity|].
    split; apply decimal_number; auto; now apply dec_ok. }
  split; [exact R1|]. split.
  - apply C36_parse_is_exact. exists (dec node ++ [46] ++ [42]). split; [reflexivity|].
    apply C36_parse_ssp_is_exact. exists (dec node), [42]. split; [reflexivity|].
    split; [apply decimal_number; auto; now apply dec_ok|auto].
  - intros buf n out H NZ. pose proof (C36_write_is_exact_and_bounded node svc buf) as Wr. rewrite H in Wr.
    cbv zeta in Wr. destruct Wr as [_ Wr]. destruct (length (uri_string node svc) <? length buf)%nat; [|contradiction].
    destruct Wr as [-> ->]. split.
    + apply C36_announced_size_is_exact; auto. now apply C36_text_is_canonical.
    + apply C36_parse_is_exact. exists (uri_string node svc), (skipn (S (length (uri_string node svc))) buf).
      split; [reflexivity|]. split; [|split; [reflexivity|exact R1]].
      destruct (C36_text_is_canonical node svc A B) as (a & b & Da & Db & ->).
      destruct (number_text_chars node a (decimal_number _ _ A Da)) as [_ Ca].
      destruct (number_text_chars svc b (decimal_number _ _ B Db)) as [_ Cb].
      repeat (apply Forall_app; split).
      * unfold ipn_colon. repeat constructor; lia.
      * eapply Forall_impl; [|exact Ca]. cbv beta. tauto.
      * repeat constructor; lia.
      * eapply Forall_impl; [|exact Cb]. cbv beta. tauto.
Qed.
Print Assumptions C36_roundtrip.
Example C36_roundtrip_ex : parse_uri_cstring true (snd (uri_write 977 1 (repeat 5 12))) = Some (10, (977, Svc 1)).
Proof. vm_compute. reflexivity. Qed.

(** Two ids never share a text. *)
Theorem C36_text_is_injective : forall n1 s1 n2 s2, n1 < W64 -> s1 < W64 -> n2 < W64 -> s2 < W64 ->
  uri_string n1 s1 = uri_string n2 s2 -> n1 = n2 /\ s1 = s2.
Proof.
  intros n1 s1 n2 s2 A B C D E. destruct (C36_roundtrip false n1 s1 A B) as [R1 _].
  destruct (C36_roundtrip false n2 s2 C D) as [R2 _]. rewrite E, R2 in R1. injection R1 as -> ->. auto.
Qed.
Print Assumptions C36_text_is_injective.
Example C36_text_is_injective_ex : uri_string 1 12 <> uri_string 11 2 /\ uri_string 1 1 <> uri_string 11 1.
Proof. vm_compute. split; discriminate. Qed.

(** The parser takes texts that are no ipn URI: "ipn:-1.+007" is taken as node 2^64 - 1, service 7. *)
Theorem C36_only_canonical_texts_parse_refuted :
  exists s node svc, parse_uri_string false s = Some (node, Svc svc) /\ ~ ipn_text node svc s /\ In 45 s.
Proof.
  exists [105; 112; 110; 58; 45; 49; 46; 43; 48; 48; 55], (W64 - 1), 7. split; [vm_compute; reflexivity|]. split.
  - intros (a & b & ((NE & D & _) & _) & _ & E). unfold ipn_colon in E. injection E as E.
    destruct a as [|c a]; [now elim NE|]. injection E as E _. inversion D; subst. unfold digit in *. lia.
  - cbn [In]. auto 10.
Qed.
Print Assumptions C36_only_canonical_texts_parse_refuted.
