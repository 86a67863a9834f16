(** Lemmas for C60: a security source, and an acceptor that gets what it sent. *)
From Coq Require Import PeanoNat NArith List Bool Lia ZifyBool ZifyN.
From Verif Require Import Base M_Uri M_Policy M_PolicyRx S_PolicyRx L_PolicyRx L2_PolicyRx P_PolicyRx M_PolicyTx S_PolicyTx L_PolicyTx.
Import ListNotations.
Open Scope N_scope.

Lemma loaded_num : forall bs, loaded bs -> forall n, In n (numbers bs) -> n <> 0 /\ n < U64MAX - 1.
Proof. intros bs [_ [_ H]] n I. apply in_map_iff in I. destruct I as [b [<- I]]. exact (H b I). Qed.
Lemma sign_spec : forall w primary ss ts bs bs1, loaded bs -> then_render (v_room1 w) (add_integrity (v_bib w) primary ss (bib_targets ts bs) bs) = Sent bs1 ->
  exists bib, bs1 = bib :: bs /\ new_security 11 ss bs bib /\ signs ts bs bib /\ num bib < U64MAX /\ b_data bib <> None.
Proof.
  intros w primary ss ts bs bs1 L H. unfold then_render, add_integrity in H. destruct (bib_targets ts bs) as [|t0 r0] eqn:TS; [discriminate|]. rewrite <- TS in H. assert (NE : bib_targets ts bs <> []) by (rewrite TS; discriminate). clear TS.
  destruct (v_bib w); [|discriminate]. destruct (hash_targets primary bs (bib_targets ts bs)) as [l| |] eqn:HH; try discriminate.
  destruct (render _ _) as [x|] eqn:R; [|discriminate]. injection H as <-. apply render_new in R; [|reflexivity|intros b I; destruct (proj1 L b I) as [A [B _]]; auto]. subst x.
  eexists. split; [reflexivity|]. destruct (next_fresh (numbers bs)) as [F1 F2]; [intros n I; apply (loaded_num _ L) in I; lia|].
  split.
  { do 5 (split; [reflexivity|]). split; [exact F1|]. split; [|split; [reflexivity|exact NE]]. intros b I E. apply F2. cbn in E. unfold num in E. cbn in E. rewrite <- E. apply in_map_iff. exists b. auto. }
  split; [split|split].
  - intro n. cbn. apply bib_targets_in.
  - intros j n J. cbn in J |- *. apply (hash_spec primary bs _ l HH) with (j := j); [|exact J]. intros t I. apply bib_targets_in in I. destruct I as [b [I [<- _]]]. apply (proj2 (proj2 L) b I).
  - unfold num. cbn. apply next_small. intros n I. apply (loaded_num _ L). exact I.
  - discriminate.
Qed.

Lemma seal_step : forall w ss ts bs bs1, (forall b, In b bs -> k_deleted (b_blk b) = false /\ b_dirty b = false) -> NoDup (map num bs) -> (forall b, In b bs -> num b < U64MAX) ->
  then_render (v_room2 w) (encrypt (v_bcb w) ss ts bs) = Sent bs1 ->
  exists bcb, bs1 = bcb :: map (sealed ts) bs /\ new_security 12 ss bs bcb /\ a_targets (k_asb (b_blk bcb)) = ts /\ forall t, In t ts -> In t (map num bs).
Proof.
  intros w ss ts bs bs1 C D B H. unfold then_render, encrypt in H. destruct ts as [|t0 r0] eqn:TS; [discriminate|]. rewrite <- TS in *. assert (NE : ts <> []) by (rewrite TS; discriminate). clear TS.
  destruct (v_bcb w); [|discriminate]. destruct (seal_targets ts bs) as [x|] eqn:S; [|discriminate]. destruct (seal_spec _ _ _ D S) as [-> K].
  destruct (render _ _) as [y|] eqn:R; [|discriminate]. injection H as <-. apply render_new in R; [|reflexivity|].
  2:{ intros b I. apply in_map_iff in I. destruct I as [c [<- I]]. specialize (C c I). unfold sealed. destruct (existsb _ ts); exact C. }
  subst y. eexists. split; [reflexivity|]. destruct (next_fresh (numbers bs)) as [F1 F2]; [intros n I; apply in_map_iff in I; destruct I as [b [<- I]]; exact (B b I)|].
  split; [|split; [reflexivity|exact K]]. do 5 (split; [reflexivity|]). split; [exact F1|]. split; [|split; [reflexivity|exact NE]]. intros b I E. apply F2. unfold num in E. cbn in E. rewrite <- E. apply in_map_iff. exists b. auto.
Qed.

Lemma outgoing_spec : forall w primary ss p bs bs', loaded bs -> (forall st, p_conf p = Some st -> NoDup (s_targets st)) -> outgoing w primary ss p bs = Sent bs' -> outcome_ok ss p bs bs'.
Proof.
  intros w primary ss p bs bs' L ND H. unfold outgoing in H.
  assert (X : exists bib bs1, match p_int p with None => Sent bs | Some _ => then_render (v_room1 w) (add_integrity (v_bib w) primary ss (match p_int p with Some st => bib_targets (s_targets st) bs | None => [] end) bs) end = Sent bs1 /\
    (match p_int p with
    | None => bs1 = bs /\ bib = None
    | Some st => exists x, bib = Some x /\ bs1 = x :: bs /\ new_security 11 ss bs x /\ signs (s_targets st) bs x
    end) /\ (forall b, In b bs1 -> k_deleted (b_blk b) = false /\ b_dirty b = false) /\ NoDup (map num bs1) /\ (forall b, In b bs1 -> num b < U64MAX /\ num b <> 0)).
  { destruct (p_int p) as [st|].
    - destruct (then_render _ _) as [bs1| |] eqn:E; try discriminate. destruct (sign_spec _ _ _ _ _ _ L E) as [x [-> [N [S [B _]]]]]. exists (Some x), (x :: bs). split; [reflexivity|]. split; [exists x; auto|].
      destruct N as [_ [_ [N1 [_ [N2 [N3 [N4 _]]]]]]]. split; [intros b [<-|I]; [auto|destruct (proj1 L b I) as [? [? _]]; auto]|]. split.
      + cbn [map]. constructor; [|apply L]. intro I. apply in_map_iff in I. destruct I as [b [E1 I]]. exact (N4 b I E1).
      + intros b [<-|I]; [split; [exact B|lia]|]. destruct (proj2 (proj2 L) b I). split; [lia|auto].
    - exists None, bs. split; [reflexivity|]. split; [auto|]. split; [intros b I; destruct (proj1 L b I) as [? [? _]]; auto|]. split; [apply L|]. intros b I. destruct (proj2 (proj2 L) b I). split; [lia|auto]. }
  destruct X as [bib [bs1 [E [XI [C1 [C2 C3]]]]]]. rewrite E in H. exists bib, bs1. split; [exact XI|]. clear E. destruct (p_conf p) as [st|]; [|injection H as <-; reflexivity].
  specialize (ND st eq_refl).
  assert (C4 : forall b, In b bs1 -> num b < U64MAX) by (intros b I; apply C3; exact I).
  destruct (in_dec N.eq_dec 11 (s_targets st)) as [I11|I11].
  - destruct (p_int p) as [sti|].
    + destruct XI as [x [-> [-> [N S]]]]. destruct (bcb_targets_yes (s_targets st) bs [] None (num x) ND I11) as [i [B1 B2]]. rewrite B1 in H. cbn [snd fst app] in H, B2. unfold num at 1 in B2. rewrite B2 in H.
      destruct (seal_step _ _ _ _ _ C1 C2 C4 H) as [y [-> [Y1 [Y2 _]]]]. exists y. rewrite Y2. split; [reflexivity|]. split; [exact Y1|]. intro n. rewrite Y2, chosen_in. split; (intros [Z|Z]; [left; exact Z|right]).
      * destruct Z as [-> Z]. exists x. auto.
      * destruct Z as [b [Z1 [Z2 Z3]]]. injection Z1 as <-. auto.
    + destruct XI as [-> ->]. destruct (bcb_targets_yes (s_targets st) bs [] None 0 ND I11) as [i [B1 B2]]. rewrite B1 in H. cbn [snd fst app] in H.
      destruct (seal_step _ _ _ _ _ C1 C2 C4 H) as [y [_ [_ [_ Y3]]]]. exfalso. specialize (Y3 0). rewrite chosen_in in Y3. specialize (Y3 (or_intror (conj eq_refl I11))). apply in_map_iff in Y3.
      destruct Y3 as [b [Y3 I]]. exact (proj2 (C3 b I) Y3).
  - rewrite (bcb_targets_no (s_targets st) bs [] None I11) in H. cbn [snd fst app] in H.
    replace (match p_int p with Some _ => chosen (s_targets st) bs 0 | None => chosen (s_targets st) bs 0 end) with (chosen (s_targets st) bs 0) in H by (destruct (p_int p); reflexivity).
    destruct (seal_step _ _ _ _ _ C1 C2 C4 H) as [y [-> [Y1 [Y2 _]]]]. exists y. rewrite Y2. split; [reflexivity|]. split; [exact Y1|]. intro n. rewrite Y2, chosen_in. split; (intros [Z|Z]; [left; exact Z|]).
    * destruct Z. contradiction.
    * destruct Z as [b [_ [_ Z]]]. contradiction.
Qed.

Lemma errors_nil : forall P ts es, errors_of P ts es -> (forall j t r, nth_error ts j = Some t -> P j t r -> r = None) -> es = [].
Proof.
  intros P ts es [rs [L [H ->]]] N. assert (A : forall r, In r rs -> r = None).
  { intros r I. destruct (In_nth_error _ _ I) as [j J]. destruct (nth_error ts j) as [t|] eqn:T; [|apply nth_error_None in T; assert (j < length rs)%nat by (apply nth_error_Some; congruence); lia]. exact (N j t r T (H j t r T J)). }
  clear - A. assert (G : forall k, flat_map (fun jr : nat * option code => match snd jr with Some c => [(Some (fst jr), c)] | None => [] end) (combine (seq k (length rs)) rs) = []); [|rewrite G; reflexivity].
  induction rs as [|r rs IH]; intro k; cbn; [reflexivity|]. rewrite (A r (or_introl eq_refl)). cbn. apply IH. intros; apply A; right; auto.
Qed.
Lemma last_index : forall (t : N) l, In t l -> exists k, nth_error l k = Some t /\ forall k', (k < k')%nat -> nth_error l k' <> Some t.
Proof.
  induction l as [|x l IH]; intro I; [destruct I|]. destruct (in_dec N.eq_dec t l) as [J|J].
  - destruct (IH J) as [k [K1 K2]]. exists (S k). split; [exact K1|]. intros [|k'] L; [lia|]. cbn. apply K2. lia.
  - destruct I as [->|I]; [|contradiction]. exists 0%nat. split; [reflexivity|]. intros [|k'] L; [lia|]. cbn. intro E. apply J. eapply nth_error_In. exact E.
Qed.
Lemma nth_ext' : forall A (l l' : list A), (forall i, nth_error l i = nth_error l' i) -> l = l'.
Proof.
  induction l as [|x l IH]; intros [|y l'] H; [reflexivity|specialize (H 0%nat); discriminate|specialize (H 0%nat); discriminate|]. assert (H0 := H 0%nat). injection H0 as ->. f_equal. apply IH. intro i. exact (H (S i)).
Qed.
Lemma well_new : forall t ss bs x, new_security t ss bs x -> well_formed (k_asb (b_blk x)).
Proof.
  intros t ss bs x [_ [_ [_ [_ [_ [_ [_ [R N]]]]]]]]. split; [|exact N]. unfold tags. rewrite R. clear R N. induction (a_targets (k_asb (b_blk x))) as [|y l IH]; [reflexivity|]. cbn. f_equal. exact IH.
Qed.
Lemma of_type_none : forall t bs i, (forall b, In b bs -> k_type b <> t) -> of_type t i bs = [].
Proof. induction bs as [|b r IH]; intros i H; cbn; [reflexivity|]. destruct (N.eqb_spec (k_type b) t) as [E|E]; [exfalso; exact (H b (or_introl eq_refl) E)|]. apply IH. intros; apply H; right; auto. Qed.

Lemma accept_int : forall g o final src dst pos L x st q, nth_error L pos = Some x -> find_policy (g_filters g) (a_source (k_asb x)) src dst Acceptor = Some q -> p_int q = Some st -> types_ok true st ->
  k_encrypted x = false -> o_bib o pos = None -> well_formed (k_asb x) ->
  (forall j t, nth_error (a_targets (k_asb x)) j = Some t -> t <> 0 /\ o_hmac o pos j = true /\ exists i c, is_block L t i c /\ k_encrypted c = false /\ In (k_type c) (s_targets st)) ->
  (forall t, In t (s_targets st) -> exists n i c, In n (a_targets (k_asb x)) /\ is_block L n i c /\ k_type c = t) ->
  do_bib g o final src dst pos L = Keep (upd pos delete L).
Proof.
  intros g o final src dst pos L x st q H F P OK EN OB W T A.
  destruct (C59_integrity_step_is_exact g o final src dst pos L x (Check true st) H ltac:(exists q; auto) OK) as [es [R [X _]]]. apply X. clear X. rewrite EN, OB in R. cbn [reports] in R.
  destruct R as [[N _]|[_ [es' [E R]]]]; [contradiction|]. assert (es' = []).
  { eapply errors_nil; [exact E|]. intros j t r J B. destruct (T j t J) as [T0 [T1 [i [c [I1 [I2 I3]]]]]].
    destruct B as [[B _]|[[B _]|[[_ [B _]]|[_ [i' [c' [B1 B2]]]]]]]; [contradiction|contradiction|exfalso; exact (is_block_in _ _ _ _ I1 B)|].
    destruct (is_block_fun _ _ _ _ _ _ I1 B1) as [<- <-]. destruct B2 as [[[B|B] _]|[_ [_ B]]]; [congruence|exfalso; apply B; intros _; exact I3|]. rewrite B, T1. reflexivity. }
  destruct R as [[R _]|[[_ [_ R]]|[_ [R _]]]]; [contradiction|exact R|]. exfalso. apply R. intros t I. destruct (A t I) as [n [i [c [A1 [A2 A3]]]]]. exists n. split; [exact A1|]. left. split; [right|exists i, c; auto].
  destruct (In_nth_error _ _ A1) as [j J]. exact (proj1 (T j n J)).
Qed.

Lemma sealed_blk : forall T b, k_encrypted (b_blk b) = false -> k_type (b_blk (sealed T b)) = k_type (b_blk b) /\ k_number (b_blk (sealed T b)) = k_number (b_blk b) /\ k_asb (b_blk (sealed T b)) = k_asb (b_blk b) /\
  k_deleted (b_blk (sealed T b)) = k_deleted (b_blk b) /\ (k_encrypted (b_blk (sealed T b)) = true <-> In (num b) T) /\ b_data (sealed T b) = b_data b /\ b_macs (sealed T b) = b_macs b.
Proof. intros T b E. unfold sealed. rewrite <- (mem_in (num b) T). destruct (existsb (N.eqb (num b)) T); cbn; rewrite ?E; repeat split; auto; discriminate. Qed.

Lemma accept_conf : forall g o final src dst ss y bs1 st q, let T := a_targets (k_asb (b_blk y)) in
  find_policy (g_filters g) ss src dst Acceptor = Some q -> p_conf q = Some st -> types_ok false st -> new_security 12 ss bs1 y -> NoDup (map num bs1) ->
  (forall b, In b bs1 -> k_encrypted (b_blk b) = false) -> (forall n, In n T -> exists b, In b bs1 /\ num b = n /\ In (typ b) (s_targets st)) ->
  (forall t, In t (s_targets st) -> exists b, In b bs1 /\ In (num b) T /\ typ b = t) -> o_bcb o 0%nat = None ->
  (forall j t b, nth_error T j = Some t -> In b bs1 -> num b = t -> o_open o 0%nat j = Readable (k_asb (b_blk b))) ->
  do_bcb g o final src dst 0 (blocks_of (y :: map (sealed T) bs1)) = Keep (delete (b_blk y) :: blocks_of bs1).
Proof.
  intros g o final src dst ss y bs1 st q T F P OK NS ND NE TI TA OB OO. set (L := y :: map (sealed T) bs1). assert (NS' := NS). destruct NS' as [N1 [N2 [N3 [N4 [N5 [N6 [N7 [N8 N9]]]]]]]].
  assert (DL : NoDup (map num L)).
  { cbn [map L]. rewrite map_map. rewrite (map_ext _ num) by (intro; apply sealed_num). constructor; [|exact ND]. intro I. apply in_map_iff in I. destruct I as [b [E I]]. exact (N7 b I E). }
  assert (HL : forall b, In b bs1 -> exists i, nth_error bs1 i = Some b /\ is_block (blocks_of L) (num b) (S i) (b_blk (sealed T b))).
  { intros b I. destruct (In_nth_error _ _ I) as [i E]. exists i. split; [exact E|]. assert (E' : nth_error L (S i) = Some (sealed T b)) by (cbn; rewrite nth_error_map, E; reflexivity).
    destruct (in_number L (sealed T b) DL ltac:(eapply nth_error_In; exact E')) as [k [K1 K2]]. rewrite sealed_num in K2. assert (k = S i); [|subst k; exact K2].
    apply (proj1 (NoDup_nth_error (map num L)) DL); [rewrite map_length; apply nth_error_Some; congruence|]. rewrite !nth_error_map, K1, E'. reflexivity. }
  destruct (C59_confidentiality_step_is_exact g o final src dst 0 (blocks_of L) (b_blk y) (Check true st) eq_refl N1 ltac:(exists q; rewrite N2; auto) OK) as [bs2 [es [R [_ [D [X _]]]]]].
  rewrite OB in R, D. cbn [reports negb] in R, D. assert (W := well_new _ _ _ _ NS). specialize (D eq_refl W).
  assert (TB : forall j t, nth_error T j = Some t -> exists b i, In b bs1 /\ num b = t /\ is_block (blocks_of L) t (S i) (b_blk (sealed T b)) /\ In (k_type (b_blk (sealed T b))) (s_targets st) /\ o_open o 0%nat j = Readable (k_asb (b_blk b))).
  { intros j t J. destruct (TI t) as [b [B1 [B2 B3]]]; [eapply nth_error_In; exact J|]. destruct (HL b B1) as [i [I1 I2]]. exists b, i. split; [exact B1|]. split; [exact B2|]. rewrite B2 in I2. split; [exact I2|].
    destruct (sealed_blk T b (NE b B1)) as [S1 _]. rewrite S1. split; [exact B3|]. exact (OO j t b J B1 B2). }
  assert (es = []).
  { destruct R as [[N _]|[_ [es' [E R]]]]; [contradiction|]. assert (es' = []).
    { eapply errors_nil; [exact E|]. intros j t r J B. destruct (TB j t J) as [b [i [B1 [B2 [B3 [B4 B5]]]]]].
      destruct B as [[B _]|[i' [c' [C1 C2]]]]; [exfalso; exact (is_block_in _ _ _ _ B3 B)|]. destruct (is_block_fun _ _ _ _ _ _ B3 C1) as [<- <-].
      destruct C2 as [[C _]|[_ C]]; [exfalso; apply C; intros _; exact B4|]. rewrite B5 in C. exact C. }
    destruct R as [[R _]|[[_ [_ R]]|[_ [R _]]]]; [contradiction|exact R|]. exfalso. apply R. intros t I. destruct (TA t I) as [b [B1 [B2 B3]]]. exists (num b). split; [exact B2|]. left. split; [left; reflexivity|].
    destruct (HL b B1) as [i [_ I2]]. exists (S i), (b_blk (sealed T b)). split; [exact I2|]. destruct (sealed_blk T b (NE b B1)) as [S1 _]. rewrite S1. exact B3. }
  rewrite (X H). f_equal. clear X R es H. destruct D as [DL1 D].
  assert (Q : bs2 = b_blk y :: blocks_of bs1); [|subst bs2; reflexivity].
  apply nth_ext'. intro i. destruct (nth_error (blocks_of L) i) as [c|] eqn:C.
  2:{ assert (G1 : nth_error bs2 i = None) by (apply nth_error_None; rewrite DL1; apply nth_error_None; exact C). rewrite G1. symmetry. apply nth_error_None. apply nth_error_None in C.
      cbn [length] in *. unfold blocks_of, L in *. cbn [map length] in C. rewrite !map_length in *. exact C. }
  destruct (D i c C) as [c' [C1 [C2 [C3 [C4 [C5 [C6 C7]]]]]]]. rewrite C1.
  assert (OP : forall b k, In b bs1 -> nth_error bs1 k = Some b -> i = S k -> c = b_blk (sealed T b) -> (opens (s_targets st) (o_open o 0%nat) false 0 T (blocks_of L) i c <-> In (num b) T)).
  { intros b k B1 K -> ->. split.
    - intros [_ [k' [t [K1 [K2 _]]]]]. destruct (TB k' t K1) as [b' [i' [_ [B2 [B3 _]]]]]. destruct (is_block_fun _ _ _ _ _ _ B3 K2) as [_ Q]. assert (num b = t). { destruct K2 as [_ [K2 _]]. fold (num (sealed T b)) in K2. rewrite sealed_num in K2. exact K2. } rewrite H. eapply nth_error_In; exact K1.
    - intro I. split; [reflexivity|]. destruct (In_nth_error _ _ I) as [j J]. exists j, (num b). split; [exact J|]. destruct (TB j (num b) J) as [b' [i' [B1' [B2 [B3 [B4 B5]]]]]].
      destruct (HL b B1) as [k2 [K2 K3]]. assert (k2 = k).
      { apply (proj1 (NoDup_nth_error (map num bs1)) ND); [rewrite map_length; apply nth_error_Some; congruence|]. rewrite !nth_error_map, K2, K. reflexivity. } subst k2.
      destruct (is_block_fun _ _ _ _ _ _ B3 K3) as [_ Q]. split; [exact K3|]. split; [rewrite <- Q; intros _; exact B4|]. cbn. rewrite B5. discriminate. }
  destruct i as [|k].
  - cbn in C. injection C as <-. cbn [nth_error]. f_equal. assert (NO : ~ opens (s_targets st) (o_open o 0%nat) false 0 T (blocks_of L) 0 (b_blk y)).
    { intros [_ [k' [t [K1 [K2 _]]]]]. destruct (TB k' t K1) as [b' [i' [_ [_ [B3 _]]]]]. destruct (is_block_fun _ _ _ _ _ _ B3 K2) as [Q _]. discriminate. }
    assert (E5 : k_encrypted c' = false) by (apply not_true_is_false; intro V; apply C5 in V; destruct V as [V _]; congruence). specialize (C6 NO). destruct c', (b_blk y); cbn in *. congruence.
  - cbn [nth_error]. unfold blocks_of, L in C. cbn [map nth_error] in C. rewrite map_map, nth_error_map in C. unfold blocks_of. rewrite nth_error_map. destruct (nth_error bs1 k) as [b|] eqn:B; [|discriminate]. cbn in C |- *. injection C as C. subst c. f_equal.
    assert (BI := nth_error_In _ _ B). destruct (sealed_blk T b (NE b BI)) as [S1 [S2 [S3 [S4 [S5 _]]]]]. assert (O := OP b k BI B eq_refl eq_refl).
    assert (E5 : k_encrypted c' = false). { apply not_true_is_false. intro V. apply C5 in V. destruct V as [V1 V2]. apply V2. apply O. apply S5. exact V1. }
    assert (E6 : k_asb c' = k_asb (b_blk b)).
    { destruct (in_dec N.eq_dec (num b) T) as [I|I]; [|rewrite C6 by (intro V; apply I; apply O; exact V); exact S3]. destruct (last_index _ _ I) as [j [J1 J2]]. destruct (HL b BI) as [k2 [K2 K3]]. assert (k2 = k).
      { apply (proj1 (NoDup_nth_error (map num bs1)) ND); [rewrite map_length; apply nth_error_Some; congruence|]. rewrite !nth_error_map, K2, B. reflexivity. } subst k2.
      apply (C7 j (num b) (k_asb (b_blk b)) eq_refl J1 K3); [|left; exact (OO j (num b) b J1 BI eq_refl)|exact J2].
      destruct (TI _ I) as [b' [X1 [X2 X3]]]. assert (b' = b). { destruct (HL b' X1) as [k3 [K4 K5]]. rewrite X2 in K5. destruct (is_block_fun _ _ _ _ _ _ K3 K5) as [Q _]. injection Q as <-. congruence. } subst b'. intros _. rewrite S1. exact X3. }
    assert (E7 := NE b BI). destruct c', (b_blk b); cbn in *. congruence.
Qed.
