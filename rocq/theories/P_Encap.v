(** C61: CCSDS encapsulation packets on a local stream. *)
From Coq Require Import PeanoNat Compare_dec NArith List Bool Lia ZifyBool ZifyN ZifyNat.
From Verif Require Import Base M_Encap S_Encap L_Encap.
Import ListNotations.
Open Scope N_scope.

(** Headers are as the standard says: the packet length (header included) in the smallest field that it fits in, for every size that fits in any; nothing else. *)
Theorem C61_header_is_exact : forall ty n, ty = LTP \/ ty = BP ->
  (n = 0 \/ 4294967287 < n -> get_header ty n = None) /\
  (0 < n <= 4294967287 -> exists k hd, get_header ty n = Some hd /\ (1 <= k <= 3)%nat /\ layout ty k (n + 2 ^ N.of_nat k) hd /\
     forall k', (1 <= k' < k)%nat -> 256 ^ N.of_nat (2 ^ (k' - 1)) <= n + 2 ^ N.of_nat k') /\
  (forall m hd, get_header IDLE m = Some hd <-> m = 0 /\ hd = [224]).
Proof.
  intros ty n T. split; [|split].
  - intro H. destruct (get_header ty n) as [hd|] eqn:E; [|reflexivity]. apply header_cases in E; [|exact T]. destruct E as [[R _]|[[R _]|[R _]]]; lia.
  - intro H. destruct (N.leb_spec n 253) as [A|A]; [|destruct (N.leb_spec n 65531) as [B|B]].
    + exists 1%nat. eexists. split; [apply header_cases; [exact T|]; left; split; [lia|reflexivity]|]. split; [lia|]. split; [|intros; lia].
      exists (be 1 (n + 2)). split; [reflexivity|]. split; [apply be_length|]. split; [apply be_bytes|]. apply be_value. change (256 ^ N.of_nat 1) with 256. lia.
    + exists 2%nat. eexists. split; [apply header_cases; [exact T|]; right; left; split; [lia|reflexivity]|]. split; [lia|]. split.
      * exists (be 2 (n + 4)). split; [reflexivity|]. split; [apply be_length|]. split; [apply be_bytes|]. apply be_value. change (256 ^ N.of_nat 2) with 65536. lia.
      * intros k' K. replace k' with 1%nat by lia. change (256 ^ N.of_nat (2 ^ (1 - 1))) with 256. change (2 ^ N.of_nat 1) with 2. lia.
    + exists 3%nat. eexists. split; [apply header_cases; [exact T|]; right; right; split; [lia|reflexivity]|]. split; [lia|]. split.
      * exists (be 4 (n + 8)). split; [reflexivity|]. split; [apply be_length|]. split; [apply be_bytes|]. apply be_value. change (256 ^ N.of_nat 4) with 4294967296. lia.
      * intros k' K. assert (k' = 1 \/ k' = 2)%nat as [-> | ->] by lia; [change (256 ^ N.of_nat (2 ^ (1 - 1))) with 256; change (2 ^ N.of_nat 1) with 2; lia|].
        change (256 ^ N.of_nat (2 ^ (2 - 1))) with 65536. change (2 ^ N.of_nat 2) with 4. lia.
  - intros m hd. unfold get_header. change (IDLE =? IDLE) with true. cbv iota. destruct (N.ltb_spec (4294967295 - 8) m); [split; [discriminate|intros [-> _]; lia]|].
    destruct (N.eqb_spec m 0) as [->|]; [split; [intros [= <-]; split; reflexivity|intros [_ ->]; reflexivity]|split; [discriminate|intros [-> _]; contradiction]].
Qed.
Example C61_header_example : get_header BP 253 = Some [241; 255] /\ get_header BP 254 = Some [242; 0; 1; 2] /\ get_header LTP 65532 = Some [231; 0; 0; 0; 0; 1; 0; 4] /\ get_header LTP 0 = None /\ get_header BP 4294967288 = None.
Proof. vm_compute. repeat split. Qed.
Print Assumptions C61_header_is_exact.
(** The first byte: packet version 7, and the protocols of the registry: 0 idle, 1 LTP, 4 bundle protocol. *)
Theorem C61_protocol_numbers : IDLE = 7 * 32 + 0 * 4 /\ LTP = 7 * 32 + 1 * 4 /\ BP = 7 * 32 + 4 * 4.
Proof. repeat split; reflexivity. Qed.
Print Assumptions C61_protocol_numbers.

(** The first byte tells the size of the header; the others tell the size of the payload, for all bytes. *)
Theorem C61_decoding_is_exact : forall ty b, ty = LTP \/ ty = BP -> b < 256 ->
  (header_size ty b = 1 <-> b = 224) /\ (forall k, (1 <= k <= 3)%nat -> (header_size ty b = 2 ^ N.of_nat k <-> b = ty + N.of_nat k)) /\
  (header_size ty b = 0 <-> b <> 224 /\ forall k, (1 <= k <= 3)%nat -> b <> ty + N.of_nat k) /\
  forall k rest, (1 <= k <= 3)%nat -> bytes rest -> N.of_nat (length rest) = 2 ^ N.of_nat k - 1 ->
    let total := value (skipn (2 ^ (k - 1) - 1) rest) in
    (forall u size, payload_size (2 ^ N.of_nat k) rest = Some (u, size) ->
       size < W32 /\ (2 ^ N.of_nat k <= total -> size = total - 2 ^ N.of_nat k) /\ (total < 2 ^ N.of_nat k -> size = total + W32 - 2 ^ N.of_nat k) /\
       (k = 1%nat -> u = 0) /\ ((2 <= k)%nat -> hd 0 rest = u * 16 /\ u < 16)) /\
    (payload_size (2 ^ N.of_nat k) rest = None <-> exists i, (i < 2 ^ (k - 1) - 1)%nat /\ (if (i =? 0)%nat then nth i rest 0 mod 16 <> 0 else nth i rest 0 <> 0)).
Proof.
  intros ty b T L. destruct (lor_ty ty T) as [_ [_ [_ [_ [X [Y _]]]]]]. rewrite (header_size_is ty b T L).
  assert (K3 : forall k, (1 <= k <= 3)%nat -> k = 1%nat \/ k = 2%nat \/ k = 3%nat) by (intros; lia).
  assert (W : forall t h, t < W32 -> 0 < h <= 8 -> (t + W32 - h) mod W32 < W32 /\ (h <= t -> (t + W32 - h) mod W32 = t - h) /\ (t < h -> (t + W32 - h) mod W32 = t + W32 - h)).
  { intros t h A B. split; [apply N.mod_lt; discriminate|]. split; intro C; [replace (t + W32 - h) with (t - h + 1 * W32) by lia; rewrite N.mod_add by discriminate; apply N.mod_small; lia|apply N.mod_small; lia]. }
  assert (M : forall u, N.land u 15 = u mod 16) by (intro u; change 15 with (N.ones 4); rewrite N.land_ones; reflexivity).
  assert (Q : forall u, u < 256 -> (N.land u 15 =? 0) = true -> u = N.shiftr u 4 * 16 /\ N.shiftr u 4 < 16).
  { intros u U E. rewrite M in E. rewrite N.shiftr_div_pow2. change (2 ^ 4) with 16. assert (D := N.div_mod u 16 ltac:(discriminate)). assert (u / 16 < 16) by (apply N.div_lt_upper_bound; lia). lia. }
  split; [|split; [|split]].
  - destruct (N.eqb_spec b 224); [tauto|]. split; [|contradiction]. destruct (b =? ty + 1); [discriminate|]. destruct (b =? ty + 2); [discriminate|]. destruct (b =? ty + 3); discriminate.
  - intros k K. destruct (K3 k K) as [-> |[-> | ->]]; cbn [N.of_nat Pos.of_succ_nat Pos.succ]; destruct (N.eqb_spec b 224); destruct (N.eqb_spec b (ty + 1)); destruct (N.eqb_spec b (ty + 2)); destruct (N.eqb_spec b (ty + 3)); split; intro Z; try discriminate; try lia; vm_compute in Z; try discriminate; try reflexivity.
  - split.
    + intro Z. destruct (N.eqb_spec b 224); [discriminate|]. destruct (N.eqb_spec b (ty + 1)); [discriminate|]. destruct (N.eqb_spec b (ty + 2)); [discriminate|]. destruct (N.eqb_spec b (ty + 3)); [discriminate|]. split; [assumption|].
      intros k K. destruct (K3 k K) as [-> |[-> | ->]]; assumption.
    + intros [Z1 Z2]. assert (A1 := Z2 1%nat ltac:(lia)). assert (A2 := Z2 2%nat ltac:(lia)). assert (A3 := Z2 3%nat ltac:(lia)). cbn [N.of_nat Pos.of_succ_nat Pos.succ] in A1, A2, A3.
      destruct (N.eqb_spec b 224); [contradiction|]. destruct (N.eqb_spec b (ty + 1)); [contradiction|]. destruct (N.eqb_spec b (ty + 2)); [contradiction|]. destruct (N.eqb_spec b (ty + 3)); [contradiction|reflexivity].
  - intros k rest K B LR. destruct (K3 k K) as [-> |[-> | ->]].
    + change (2 ^ N.of_nat 1) with 2 in *. destruct rest as [|l [|? ?]]; try (cbn [length] in LR; lia). change (2 ^ (1 - 1) - 1)%nat with 0%nat. cbn [skipn value length]. change (256 ^ N.of_nat 0) with 1.
      inversion B as [|? ? B1 _]; subst. cbv beta in B1. unfold payload_size. change (2 =? 1) with false. change (2 =? 2) with true. cbv iota zeta. split.
      * intros u size [= <- <-]. destruct (W l 2 ltac:(unfold W32; lia) ltac:(lia)) as [W1 [W2 W3]]. split; [exact W1|]. replace (l * 1 + 0) with l by lia. split; [exact W2|]. split; [exact W3|]. split; [reflexivity|lia].
      * split; [discriminate|intros [i [I _]]; lia].
    + change (2 ^ N.of_nat 2) with 4 in *. destruct rest as [|u0 [|a [|c [|? ?]]]]; try (cbn [length] in LR; lia). change (2 ^ (2 - 1) - 1)%nat with 1%nat. cbn [skipn]. inversion B as [|? ? B1 B2]; subst. cbv beta in B1.
      assert (VL := value_lt _ B2). change (256 ^ N.of_nat (length [a; c])) with 65536 in VL. unfold payload_size. change (4 =? 1) with false. change (4 =? 2) with false. change (4 =? 8) with false. change (4 =? 4) with true. cbv iota zeta. rewrite un_be_value. split.
      * intros u size. destruct (N.land u0 15 =? 0) eqn:E; [|discriminate]. cbn [negb]. intros [= <- <-]. destruct (W (value [a; c]) 4 ltac:(unfold W32; lia) ltac:(lia)) as [W1 [W2 W3]]. split; [exact W1|]. split; [exact W2|]. split; [exact W3|]. split; [discriminate|]. intros _. cbn [hd]. exact (Q u0 B1 E).
      * rewrite M. destruct (N.eqb_spec (u0 mod 16) 0) as [E|E]; cbn [negb]; split; [discriminate| |intros _|reflexivity].
        -- intros [i [I J]]. replace i with 0%nat in J by lia. cbn in J. contradiction.
        -- exists 0%nat. split; [lia|]. exact E.
    + change (2 ^ N.of_nat 3) with 8 in *. destruct rest as [|u0 [|x [|y [|a [|c [|d [|e [|? ?]]]]]]]]; try (cbn [length] in LR; lia). change (2 ^ (3 - 1) - 1)%nat with 3%nat. cbn [skipn]. inversion B as [|? ? B1 B2]; subst. cbv beta in B1.
      assert (B3 : bytes [a; c; d; e]) by (inversion B2 as [|? ? _ B4]; inversion B4; assumption).
      assert (VL := value_lt _ B3). change (256 ^ N.of_nat (length [a; c; d; e])) with W32 in VL. unfold payload_size. change (8 =? 1) with false. change (8 =? 2) with false. change (8 =? 8) with true. cbv iota zeta. rewrite un_be_value. split.
      * intros u size. destruct (N.land u0 15 =? 0) eqn:E; [|discriminate]. cbn [negb]. destruct ((x =? 0) && (y =? 0)); [|discriminate]. intros [= <- <-]. destruct (W (value [a; c; d; e]) 8 VL ltac:(lia)) as [W1 [W2 W3]].
        split; [exact W1|]. split; [exact W2|]. split; [exact W3|]. split; [discriminate|]. intros _. cbn [hd]. exact (Q u0 B1 E).
      * rewrite M. destruct (N.eqb_spec (u0 mod 16) 0) as [E|E]; cbn [negb]; [|split; [intros _; exists 0%nat; split; [lia|exact E]|reflexivity]].
        destruct (N.eqb_spec x 0) as [EX|EX]; cbn [andb]; [|split; [intros _; exists 1%nat; split; [lia|exact EX]|reflexivity]].
        destruct (N.eqb_spec y 0) as [EY|EY]; cbn [andb]; [|split; [intros _; exists 2%nat; split; [lia|exact EY]|reflexivity]].
        split; [discriminate|]. intros [i [I J]]. destruct i as [|[|[|i]]]; [| | |lia]; cbn in J; [exact (False_ind _ (J E))|exact (False_ind _ (J EX))|exact (False_ind _ (J EY))].
Qed.
Example C61_decoding_example : header_size BP 243 = 8 /\ header_size BP 230 = 0 /\ payload_size 8 [48; 0; 0; 0; 1; 0; 0] = Some (3, 65528) /\ payload_size 4 [1; 0; 9] = None /\ payload_size 2 [1] = Some (0, 4294967295).
Proof. vm_compute. repeat split. Qed.
Print Assumptions C61_decoding_is_exact.

(** Where reading is, after the bytes [s]. *)
Definition inv (ty : N) (s : list N) (st : rd) : Prop :=
  match st with
  | First => True
  | Header h acc => (h = 2 \/ h = 4 \/ h = 8) /\ acc <> [] /\ N.of_nat (length acc) < h /\ exists pre, s = pre ++ acc
  | Body h size hdr acc => (h = 2 \/ h = 4 \/ h = 8) /\ N.of_nat (length hdr) = h /\ said hdr < W32 /\ size = (said hdr + W32 - h) mod W32 /\ N.of_nat (length acc) < size /\ exists pre, s = pre ++ hdr ++ acc
  | Stuck => True
  end.
Lemma payload_said : forall h hdr u size, (h = 2 \/ h = 4 \/ h = 8) -> bytes hdr -> N.of_nat (length hdr) = h -> payload_size h (tl hdr) = Some (u, size) -> said hdr < W32 /\ size = (said hdr + W32 - h) mod W32.
Proof.
  intros h hdr u size H B L P. unfold said. destruct hdr as [|f rest]; [cbn in L; destruct H as [H|[H|H]]; rewrite <- L in H; discriminate|]. cbn [tl] in P. inversion B as [|? ? _ B1]; subst f l. unfold payload_size in P. destruct H as [-> |[-> | ->]].
  - destruct rest as [|l [|? ?]]; try (cbn [length] in L; lia). change (2 =? 1) with false in P. change (2 =? 2) with true in P. cbv iota in P. injection P as <- <-. change (length [x; l] / 2)%nat with 1%nat. cbn [skipn].
    assert (V := value_lt _ B1). change (256 ^ N.of_nat (length [l])) with 256 in V. split; [unfold W32; lia|]. cbn [value length]. change (256 ^ N.of_nat 0) with 1. f_equal. lia.
  - destruct rest as [|u0 [|a [|c [|? ?]]]]; try (cbn [length] in L; lia). change (4 =? 1) with false in P. change (4 =? 2) with false in P. change (4 =? 8) with false in P. change (4 =? 4) with true in P. cbv iota in P.
    destruct (N.land u0 15 =? 0); [|discriminate]. cbn [negb] in P. injection P as <- <-. change (length [x; u0; a; c] / 2)%nat with 2%nat. cbn [skipn]. rewrite un_be_value. split; [|reflexivity].
    inversion B1 as [|? ? _ B2]; subst. assert (V := value_lt _ B2). change (256 ^ N.of_nat (length [a; c])) with 65536 in V. unfold W32; lia.
  - destruct rest as [|u0 [|y [|z [|a [|c [|d [|e [|? ?]]]]]]]]; try (cbn [length] in L; lia). change (8 =? 1) with false in P. change (8 =? 2) with false in P. change (8 =? 8) with true in P. cbv iota in P.
    destruct (N.land u0 15 =? 0); [|discriminate]. cbn [negb] in P. destruct ((y =? 0) && (z =? 0)); [|discriminate]. injection P as <- <-. change (length [x; u0; y; z; a; c; d; e] / 2)%nat with 4%nat. cbn [skipn]. rewrite un_be_value. split; [|reflexivity].
    inversion B1 as [|? ? _ B2]; inversion B2 as [|? ? _ B3]; inversion B3 as [|? ? _ B4]; subst. exact (value_lt _ B4).
Qed.
Lemma inv_all : forall keep ty, ty = LTP \/ ty = BP -> forall s, bytes s -> inv ty s (fst (feed keep ty First s)).
Proof.
  intros keep ty T. induction s as [|b s IH] using rev_ind; intro B; [exact I|]. apply Forall_app in B. destruct B as [B1 B2]. specialize (IH B1). rewrite feed_app. destruct (feed keep ty First s) as [st ps]. cbn [fst] in IH. cbn [feed].
  destruct (step keep ty st b) as [st' qs] eqn:E. cbn [fst]. inversion B2 as [|? ? B3 _]; subst. destruct st as [|h acc|h size hdr acc|]; cbn [step] in E.
  - rewrite (header_size_is ty b T B3) in E. destruct (b =? 224); [injection E as <- _; exact I|].
    assert (G : forall h, h = 2 \/ h = 4 \/ h = 8 -> inv ty (s ++ [b]) (Header h [b])) by (intros h H; split; [exact H|]; split; [discriminate|]; split; [cbn; lia|exists s; reflexivity]).
    destruct (b =? ty + 1); [injection E as <- _; apply G; auto|]. destruct (b =? ty + 2); [injection E as <- _; apply G; auto|]. destruct (b =? ty + 3); [injection E as <- _; apply G; auto|]. injection E as <- _; exact I.
  - destruct IH as [H [NE [L [pre EQ]]]]. assert (EQ' : s ++ [b] = pre ++ acc ++ [b]) by (rewrite EQ, <- app_assoc; reflexivity). destruct (N.ltb_spec (N.of_nat (length (acc ++ [b]))) h) as [M|M].
    + injection E as <- _. split; [exact H|]. split; [intro Z; destruct acc; discriminate|]. split; [exact M|]. exists pre. exact EQ'.
    + destruct (payload_size h (tl (acc ++ [b]))) as [[u size]|] eqn:P; [|injection E as <- _; exact I]. destruct (N.eqb_spec size 0) as [Z|Z]; [injection E as <- _; exact I|]. injection E as <- _.
      assert (BA : bytes (acc ++ [b])). { assert (X : bytes (s ++ [b])) by (apply Forall_app; auto). rewrite EQ' in X. apply Forall_app in X. apply X. }
      assert (LL : N.of_nat (length (acc ++ [b])) = h) by (rewrite app_length in *; cbn [length] in *; lia).
      destruct (payload_said h (acc ++ [b]) u size H BA LL P) as [V1 V2]. split; [exact H|]. split; [exact LL|]. split; [exact V1|]. split; [exact V2|]. split; [cbn; lia|]. exists pre. rewrite app_nil_r. exact EQ'.
  - destruct IH as [H [LL [V1 [V2 [L [pre EQ]]]]]]. destruct (N.ltb_spec (N.of_nat (length (acc ++ [b]))) size) as [M|M]; injection E as <- _; [|exact I].
    split; [exact H|]. split; [exact LL|]. split; [exact V1|]. split; [exact V2|]. split; [exact M|]. exists pre. rewrite EQ, <- !app_assoc. reflexivity.
  - injection E as <- _. exact I.
Qed.

(** Whatever the bytes are, every byte is written within the vector, except, if headers are kept, after a header whose length is less than that of the header itself. *)
Theorem C61_writes_are_in_bounds : forall keep ty s st ps i len, ty = LTP \/ ty = BP -> bytes s -> feed keep ty First s = (st, ps) -> target keep st = Some (i, len) ->
  i < len \/ (keep = true /\ exists pre hdr body, s = pre ++ hdr ++ body /\ (length hdr = 2 \/ length hdr = 4 \/ length hdr = 8)%nat /\ said hdr < N.of_nat (length hdr)).
Proof.
  intros keep ty s st ps i len T B F E. assert (I := inv_all keep ty T s B). rewrite F in I. cbn [fst] in I. destruct st as [|h acc|h size hdr acc|]; cbn [target] in E; [injection E as <- <-; left; lia| | |discriminate].
  - injection E as <- <-. destruct I as [H [_ [L _]]]. left. lia.
  - destruct I as [H [LL [V1 [V2 [L [pre EQ]]]]]]. injection E as <- <-.
    assert (SZ : size < W32) by (rewrite V2; apply N.mod_lt; discriminate). destruct keep; [|left; rewrite N.mod_small by lia; lia].
    destruct (N.ltb_spec (said hdr) h) as [S|S]; [right; split; [reflexivity|]; exists pre, hdr, acc; split; [exact EQ|]; split; lia|]. left.
    assert (size = said hdr - h) by (rewrite V2; replace (said hdr + W32 - h) with (said hdr - h + 1 * W32) by lia; rewrite N.mod_add by discriminate; apply N.mod_small; lia). rewrite N.mod_small by lia. lia.
Qed.
Example C61_writes_example : feed true BP First [241; 5; 7] = (Body 2 3 [241; 5] [7], []) /\ target true (Body 2 3 [241; 5] [7]) = Some (3, 5).
Proof. vm_compute. split; reflexivity. Qed.
Print Assumptions C61_writes_are_in_bounds.

Lemma stuck : forall keep ty s, feed keep ty Stuck s = (Stuck, []).
Proof. induction s as [|b s IH]; cbn [feed step]; [reflexivity|]. rewrite IH. reflexivity. Qed.
(** An incomplete packet. *)
Lemma feed_part : forall keep ty pl s r, ty = LTP \/ ty = BP -> framed ty pl (s ++ r) -> r <> [] -> exists st, feed keep ty First s = (st, []) /\ st <> Stuck /\ forall i len, target keep st = Some (i, len) -> i < len.
Proof.
  intros keep ty pl s r T [hd [H E]] NE. destruct (header_nonempty _ _ _ T H) as [NZ [_ NW]]. assert (FH := feed_header keep ty _ hd T H).
  destruct (le_lt_dec (length hd) (length s)) as [L|L].
  - assert (S : exists b, s = hd ++ b /\ pl = b ++ r).
    { exists (skipn (length hd) s). assert (A : firstn (length hd) (s ++ r) = hd) by (rewrite E, firstn_app, Nat.sub_diag, firstn_all, app_nil_r; reflexivity). rewrite firstn_app in A. replace (length hd - length s)%nat with 0%nat in A by lia. cbn [firstn] in A. rewrite app_nil_r in A.
      assert (Z := firstn_skipn (length hd) s). rewrite A in Z. split; [symmetry; exact Z|]. rewrite <- Z, <- app_assoc in E. apply app_inv_head in E. symmetry. exact E. }
    destruct S as [b [-> PB]]. rewrite feed_app, FH. assert (LB : (length b < length pl)%nat) by (rewrite PB, app_length; destruct r; [contradiction|cbn [length]; lia]).
    assert (TG : forall acc, (length acc < length pl)%nat -> forall i len, target keep (Body (N.of_nat (length hd)) (N.of_nat (length pl)) hd acc) = Some (i, len) -> i < len).
    { intros acc LA i len Q. cbn [target] in Q. injection Q as <- <-. assert (N.of_nat (length pl) + N.of_nat (length hd) < W32).
      { apply header_cases in H; [|exact T]. unfold W32. destruct H as [[R ->]|[[R ->]|[R ->]]]; cbn [length]; rewrite be_length; lia. }
      destruct keep; rewrite N.mod_small by lia; lia. }
    destruct b as [|x b].
    + cbn [feed]. eexists. split; [reflexivity|]. split; [discriminate|]. apply TG. exact LB.
    + rewrite feed_body; [|cbn [length] in *; lia|discriminate]. cbn [length Nat.add] in *. destruct (N.eqb_spec (N.of_nat (S (length b))) (N.of_nat (length pl))); [lia|]. eexists. split; [reflexivity|]. split; [discriminate|]. apply TG. exact LB.
  - assert (S : exists t, hd = s ++ t).
    { exists (skipn (length s) hd). assert (A : firstn (length s) (hd ++ pl) = s) by (rewrite <- E, firstn_app, Nat.sub_diag, firstn_all, app_nil_r; reflexivity). rewrite firstn_app in A. replace (length s - length hd)%nat with 0%nat in A by lia. cbn [firstn] in A. rewrite app_nil_r in A.
      assert (Z := firstn_skipn (length s) hd). rewrite A in Z. symmetry. exact Z. }
    destruct S as [t St]. assert (NT : t <> []) by (intros ->; rewrite app_nil_r in St; rewrite St in L; lia). rewrite St in FH. rewrite feed_app in FH. destruct (feed keep ty First s) as [st p1] eqn:F1. destruct (feed keep ty st t) as [s2 p2] eqn:F2.
    injection FH as FS FP. apply app_eq_nil in FP. destruct FP as [-> ->]. exists st. split; [reflexivity|]. split; [intros ->; rewrite stuck in F2; congruence|].
    assert (BS : bytes s). { assert (X : bytes hd). { apply header_cases in H; [|exact T]. destruct (lor_ty ty T) as [_ [_ [_ [_ [X [Y _]]]]]]. destruct H as [[R ->]|[[R ->]|[R ->]]]; apply Forall_cons; try (cbv beta; lia); repeat (first [apply be_bytes | apply Forall_cons; [cbv beta; lia|]]). } rewrite St in X. apply Forall_app in X. apply X. }
    intros i len Q. assert (I := inv_all keep ty T s BS). rewrite F1 in I. cbn [fst] in I. destruct st as [|h acc|h size hdr acc|]; cbn [target] in Q; [injection Q as <- <-; lia|injection Q as <- <-; destruct I as [IH [_ [IL _]]]; lia| |discriminate].
    exfalso. destruct I as [_ [IL [_ [_ [IA [pre EQ]]]]]]. destruct t as [|x t]; [contradiction|].
    assert (FB := feed_body keep ty h size hdr (x :: t) acc). rewrite FS in F2. 
    destruct (N.leb_spec (N.of_nat (length acc + length (x :: t))) size) as [LE|GT].
    + rewrite FB in F2 by (auto; discriminate). destruct (_ =? size); [discriminate|]. injection F2 as F2 F3 F4 F5. destruct acc; discriminate.
    + assert (SP : exists u v, x :: t = u ++ v /\ u <> [] /\ N.of_nat (length acc + length u) = size).
      { exists (firstn (N.to_nat size - length acc) (x :: t)), (skipn (N.to_nat size - length acc) (x :: t)). split; [symmetry; apply firstn_skipn|]. assert (LF := firstn_length (N.to_nat size - length acc) (x :: t)). split; [intro Z; rewrite Z in LF; cbn [length] in *; lia|lia]. }
      destruct SP as [u [v [E1 [E2 E3]]]]. rewrite E1 in F2. rewrite feed_app in F2. rewrite feed_body in F2 by (auto; lia). rewrite E3, N.eqb_refl in F2. unfold deliver in F2. destruct (feed keep ty First v). discriminate.
Qed.

(** Any number of packets, as far as they have arrived: exactly the complete ones have been delivered, in order; nothing is stuck; every byte is written within the vector. *)
Theorem C61_packets_are_delivered : forall keep ty pls ss s rest, ty = LTP \/ ty = BP -> Forall2 (framed ty) pls ss -> concat ss = s ++ rest ->
  exists st ps, feed keep ty First s = (st, ps) /\ Forall2 (received keep ty) (firstn (length ps) pls) ps /\ (length (concat (firstn (length ps) ss)) <= length s)%nat /\
    (length ps = length pls \/ (length s < length (concat (firstn (S (length ps)) ss)))%nat) /\ st <> Stuck /\ forall i len, target keep st = Some (i, len) -> i < len.
Proof.
  intros keep ty pls ss s rest T F. revert s rest. induction F as [|pl f pls ss F1 F IH]; intros s rest E.
  - symmetry in E. apply app_eq_nil in E. destruct E as [-> ->]. exists First, []. split; [reflexivity|]. split; [constructor|]. split; [reflexivity|]. split; [left; reflexivity|]. split; [discriminate|]. intros i len [= <- <-]. lia.
  - cbn [concat] in E. destruct (le_lt_dec (length f) (length s)) as [L|L].
    + assert (A : firstn (length f) (s ++ rest) = f) by (rewrite <- E, firstn_app, Nat.sub_diag, firstn_all, app_nil_r; reflexivity). rewrite firstn_app in A. replace (length f - length s)%nat with 0%nat in A by lia. cbn [firstn] in A. rewrite app_nil_r in A.
      assert (Z := firstn_skipn (length f) s). rewrite A in Z. set (s' := skipn (length f) s) in *. rewrite <- Z in *. rewrite <- app_assoc in E. apply app_inv_head in E. destruct (IH s' rest E) as [st [ps [I1 [I2 [I3 [I4 I5]]]]]].
      destruct (feed_packet keep ty pl f T F1) as [p [P1 P2]]. exists st, (p :: ps). split; [rewrite feed_app, P2, I1; reflexivity|]. split; [constructor; assumption|]. cbn [length firstn concat]. rewrite !app_length. split; [lia|].
      split; [destruct I4 as [I4|I4]; [left; lia|right]|exact I5]. cbn [firstn] in I4. destruct ss as [|g ss']; [cbn in I4; lia|]. lia.
    + assert (A : firstn (length s) (f ++ concat ss) = s) by (rewrite E, firstn_app, Nat.sub_diag, firstn_all, app_nil_r; reflexivity). rewrite firstn_app in A. replace (length s - length f)%nat with 0%nat in A by lia. cbn [firstn] in A. rewrite app_nil_r in A.
      assert (Z := firstn_skipn (length s) f). rewrite A in Z. rewrite <- Z in F1. destruct (feed_part keep ty pl s _ T F1) as [st [P1 [P2 P3]]]; [intro Q; rewrite Q, app_nil_r in Z; rewrite Z in L; lia|].
      exists st, []. split; [exact P1|]. split; [constructor|]. split; [cbn; lia|]. split; [right; cbn [length firstn concat]; rewrite app_nil_r; exact L|]. split; assumption.
Qed.
Example C61_packets_example : framed BP [9; 8] [241; 4; 9; 8] /\ framed BP [7] [241; 3; 7] /\
  feed false BP First [241; 4; 9; 8; 241; 3] = (Body 2 1 [241; 3] [], [mkPacket [9; 8] 2 2]) /\ feed true BP First ([241; 4; 9; 8] ++ [241; 3; 7]) = (First, [mkPacket [241; 4; 9; 8] 2 2; mkPacket [241; 3; 7] 1 2]).
Proof. split; [exists [241; 4]; split; reflexivity|]. split; [exists [241; 3]; split; reflexivity|]. vm_compute. split; reflexivity. Qed.
Print Assumptions C61_packets_are_delivered.

(** REFUTED: idle packets are skipped. After one, which GetCcsdsEncapHeader itself makes, nothing is ever read again (the read at 420 is not started as m_readStarted is still set). *)
Theorem C61_idle_packets_are_skipped_refuted : exists idle, get_header IDLE 0 = Some idle /\ forall keep s, feed keep BP First (idle ++ s) = (Stuck, []) /\ target keep Stuck = None.
Proof. exists [224]. split; [reflexivity|]. intros keep s. rewrite feed_app. change (feed keep BP First [224]) with (Stuck, @nil packet). cbv iota. rewrite stuck. split; reflexivity. Qed.
Print Assumptions C61_idle_packets_are_skipped_refuted.
(** REFUTED: after an invalid header the stream is closed (and connected again). Nothing is read or closed: 416-418 and 454-456 only print. *)
Theorem C61_invalid_headers_close_the_stream_refuted : exists a b, header_size BP (hd 0 a) = 0 /\ header_size BP (hd 0 b) = 4 /\ forall keep s, feed keep BP First (a ++ s) = (Stuck, []) /\ feed keep BP First (b ++ s) = (Stuck, []).
Proof.
  exists [65], [242; 1; 0; 5]. split; [reflexivity|]. split; [reflexivity|]. intros keep s. split; rewrite feed_app; [change (feed keep BP First [65]) with (Stuck, @nil packet)|change (feed keep BP First [242; 1; 0; 5]) with (Stuck, @nil packet)]; cbv iota; rewrite stuck; reflexivity.
Qed.
Print Assumptions C61_invalid_headers_close_the_stream_refuted.
(** REFUTED: every byte is written within the vector. If headers are kept (LTP), two bytes of header make the vector empty, and whatever comes then is written at index 2 and on, for nearly 4 GiB. *)
Lemma repeat_feed : forall n, N.of_nat n < 4294967294 -> feed true LTP First ([229; 0] ++ repeat 170 n) = (Body 2 4294967294 [229; 0] (repeat 170 n), []).
Proof.
  intros n L. rewrite feed_app. change (feed true LTP First [229; 0]) with (Body 2 4294967294 [229; 0] [], @nil packet). cbv iota. destruct n as [|n]; [reflexivity|].
  rewrite feed_body; [|rewrite repeat_length; cbn [length]; lia|discriminate]. rewrite repeat_length. cbn [length Nat.add]. destruct (N.eqb_spec (N.of_nat (S n)) 4294967294); [lia|reflexivity].
Qed.
Theorem C61_no_write_out_of_bounds_refuted : exists hdr, length hdr = 2%nat /\ bytes hdr /\ forall n, N.of_nat n < 4294967294 ->
  exists st, feed true LTP First (hdr ++ repeat 170 n) = (st, []) /\ target true st = Some (2 + N.of_nat n, 0).
Proof.
  exists [229; 0]. split; [reflexivity|]. split; [repeat constructor|]. intros n L. eexists. split; [apply repeat_feed; exact L|]. cbn [target]. rewrite repeat_length. reflexivity.
Qed.
Print Assumptions C61_no_write_out_of_bounds_refuted.
(** REFUTED: the maximum size of packets is respected when memory is allocated: 8 bytes make the vector longer than any maximum below 2^32-9 (M_MAX_ENCAP_RX_PACKET_SIZE_BYTES is used only in the constructor). *)
Theorem C61_maximum_size_is_respected_refuted : exists s st i len, length s = 8%nat /\ bytes s /\ feed false BP First s = (st, []) /\ target false st = Some (i, len) /\ forall max, max < 4294967287 -> max < len.
Proof.
  assert (BB : BP = LTP \/ BP = BP) by (right; reflexivity). assert (H : get_header BP 4294967287 = Some [243; 0; 0; 0; 255; 255; 255; 255]) by (vm_compute; reflexivity).
  exists [243; 0; 0; 0; 255; 255; 255; 255]. do 3 eexists. split; [reflexivity|]. split; [repeat constructor|]. split; [exact (feed_header false BP _ _ BB H)|]. split; [vm_compute; reflexivity|]. intros max L. exact L.
Qed.
Print Assumptions C61_maximum_size_is_respected_refuted.
