(** Lemmas for C49: loading. *)
From Coq Require Import NArith ZArith List Bool Lia ZifyBool ZifyN.
From Verif Require Import Base M_SegmentAlloc M_Intrin M_Sdnv M_Cbor M_Bpv6Block M_Bpv7Crc M_Bpv7Block M_Bpv7Admin M_Bpv7Sec M_BundleV7.
From Verif Require Import S_Sdnv S_Cbor S_Bpv7Crc S_Bpv7 S_Bpv7Admin S_Bpv7Sec S_BundleV7.
From Verif Require Import L_Intrin L_Cbor P_Cbor L_Bpv7Crc P_Bpv7Crc L_Bpv6Read L_Bpv6Write L_Bpv7Read L_Bpv7Write L_Bpv7Canon P_Bpv7Block P_Bpv7Canon P_Bpv7Admin L_Bpv7Sec P_Bpv7Sec.
Import ListNotations.
Open Scope N_scope.

Lemma isadmin_bit flags : q_isadmin flags = is_admin flags.
Proof. unfold q_isadmin, is_admin. rewrite N.land_comm. exact (bit_test flags 1). Qed.
(** The data lies right before the CRC. *)
Lemma form_split P c b : canon7_form P c b -> exists head d crc, b = head ++ d ++ crc /\ c_data c = Some d /\ c_len c = N.of_nat (length d) /\ length crc = crc_length (c_crctype c) /\ (1 <= length head)%nat.
Proof.
  intros (t & n & fl & tag & d & ds & crc & body & -> & -> & _ & _ & _ & _ & _ & (y & r & -> & _) & CD & CL & CC).
  exists ([128 + (5 + (if no_crc (c_crctype c) then 0 else 1))] ++ t ++ n ++ fl ++ [c_crctype c] ++ tag ++ (64 + y :: r)), d, crc. split; [now rewrite <- !app_assoc|]. split; [exact CD|]. split; [exact CL|]. split; [|cbn; lia].
  inversion CC as [? E1|? ? ? F V E1|? ? ? F V E1]; subst; unfold crc_length; rewrite <- ?E1; cbn [N.eqb]; [reflexivity|exact (field_len _ _ _ F)|exact (field_len _ _ _ F)].
Qed.
Lemma existsb_in x l : existsb (N.eqb x) l = true <-> In x l.
Proof. rewrite existsb_exists. split; [intros (y & I & E); apply N.eqb_eq in E; now subst|intros I; exists x; split; [exact I|apply N.eqb_refl]]. Qed.
Lemma nodup_snoc (l : list N) x : NoDup l -> ~ In x l -> NoDup (l ++ [x]).
Proof.
  induction l as [|y l IH]; intros ND NI; cbn [app]; [constructor; [auto|constructor]|]. inversion ND as [|? ? Y ND']; subst. constructor.
  - intros I. apply in_app_or in I. destruct I as [I|[->|[]]]; [now apply Y|apply NI; now left].
  - apply IH; [exact ND'|]. intros I. apply NI. now right.
Qed.
Lemma app_inj_len {A : Type} (a b c d : list A) : a ++ b = c ++ d -> length a = length c -> a = c /\ b = d.
Proof.
  revert c. induction a as [|x a IH]; intros [|y c] E L; try discriminate L; [auto|]. cbn in E. injection E as -> E. injection L as L. destruct (IH c E L) as (-> & ->). auto.
Qed.
Lemma add_targets_ok ts : forall keys k, NoDup keys -> (add_targets ts keys = Some k <-> k = keys ++ ts /\ NoDup (keys ++ ts)).
Proof.
  induction ts as [|t ts IH]; intros keys k ND; cbn [add_targets].
  - rewrite app_nil_r. split; [intros [= <-]; auto|intros (-> & _); reflexivity].
  - destruct (existsb (N.eqb t) keys) eqn:E.
    + apply existsb_in in E. split; [discriminate|]. intros (_ & N2). exfalso. apply (NoDup_remove_2 _ _ _ N2). apply in_or_app. now left.
    + assert (NI : ~ In t keys) by (intros I; apply existsb_in in I; congruence). rewrite IH, <- app_assoc; [reflexivity|].
      now apply nodup_snoc.
Qed.
Lemma nodup_left (a b : list N) : NoDup (a ++ b) -> NoDup a.
Proof. induction a as [|x a IH]; intros H; [constructor|]. cbn in H. inversion H as [|? ? NI H']; subst. constructor; [intros I; apply NI; apply in_or_app; now left|now apply IH]. Qed.

Section Load.
Variables (skip : bool) (hw : option N) (old : nat -> leftovers) (beyond : list N).
Hypothesis (B23 : (23 <= length beyond)%nat) (BO : Forall is_octet beyond).

Definition mem_of (c : canon7) (b rest : list N) : list N := skipn (length b - crc_length (c_crctype c) - N.to_nat (c_len c)) (b ++ rest) ++ beyond.
Lemma mem_of_ok P c b rest : canon7_form P c b -> exists d more, mem_of c b rest = d ++ more /\ c_data c = Some d /\ c_len c = N.of_nat (length d) /\ more = skipn (length b - crc_length (c_crctype c)) b ++ rest ++ beyond.
Proof.
  intros F. destruct (form_split _ _ _ F) as (h & d & crc & -> & CD & CL & LC & _). exists d, (crc ++ rest ++ beyond). unfold mem_of. rewrite CL, Nat2N.id, <- LC. split.
  - rewrite !app_length, <- !app_assoc. rewrite skipn_exact by lia. now rewrite <- !app_assoc.
  - split; [exact CD|]. split; [reflexivity|]. rewrite (app_assoc h d crc), skipn_exact by (rewrite !app_length; lia). reflexivity.
Qed.
(** What the first loop establishes. *)
Definition bcb_form (i : nat) (keys keys' : list N) (r : raw7) : Prop :=
  if c_type (r_c r) =? 12 then exists s d, r_bcb r = Some s /\ c_data (r_c r) = Some d /\ sec_form (fst (old i)) s d /\ keys' = keys ++ s_targets s /\ NoDup keys'
  else r_bcb r = None /\ keys' = keys.
Fixpoint raws_form (i : nat) (keys : list N) (l : list raw7) (k bs : list N) : Prop :=
  match l with
  | [] => False
  | r :: t => exists rest keys', bs = r_actual r ++ rest /\ canon7_form (skip = false) (r_c r) (r_actual r) /\ r_mem r = mem_of (r_c r) (r_actual r) rest /\ bcb_form i keys keys' r /\
      match t with
      | [] => c_type (r_c r) = 1 /\ c_num (r_c r) = 1 /\ rest = [255] /\ k = keys'
      | _ => c_type (r_c r) <> 1 /\ raws_form (S i) keys' t k rest
      end
  end.
Lemma raws_nonempty i keys l k : ~ raws_form i keys l k [].
Proof.
  destruct l as [|r t]; cbn [raws_form]; [auto|]. intros (rest & keys' & E & F & _). destruct (form_split _ _ _ F) as (h & d & crc & E2 & _ & _ & _ & L). rewrite E2 in E. destruct h; [cbn in L; lia|discriminate].
Qed.
Lemma sec_parse_mem o s c b rest P : canon7_form P c b -> Forall is_octet (b ++ rest) -> N.of_nat (length ((b ++ rest) ++ beyond)) < 2 ^ 64 ->
  (sec7_parse o (mem_of c b rest) (c_len c) = Some (Some s) <-> exists d, c_data c = Some d /\ sec_form o s d).
Proof.
  intros F HO HL. destruct (mem_of_ok P c b rest F) as (d & more & -> & CD & CL & EM). rewrite CL. rewrite C48_parse_accepts_exactly.
  - split; [intros X; exists d; auto|intros (d' & E & X)]. rewrite CD in E. injection E as <-. exact X.
  - destruct (form_split _ _ _ F) as (h & d' & crc & Eb & CD' & _). rewrite CD in CD'. injection CD' as <-. apply Forall_app in HO. destruct HO as (H1 & H2). rewrite EM. apply Forall_app. split.
    + rewrite Eb in H1. apply Forall_app in H1. destruct H1 as (_ & H1). now apply Forall_app in H1.
    + apply Forall_app. split; [|now apply Forall_app]. rewrite <- (firstn_skipn (length b - crc_length (c_crctype c)) b) in H1. now apply Forall_app in H1.
  - rewrite EM, !app_length. lia.
  - destruct (form_split _ _ _ F) as (h & d' & crc & Eb & CD' & _ & LC & _). rewrite CD in CD'. injection CD' as <-. rewrite EM, !app_length, skipn_length. rewrite Eb in HL |- *. rewrite !app_length. rewrite !app_length in HL. lia.
Qed.
Lemma load_blocks_ok : forall fuel i keys bs, (length bs < fuel)%nat -> Forall is_octet bs -> N.of_nat (length (bs ++ beyond)) < 2 ^ 64 -> NoDup keys ->
  forall l k, load_blocks7 skip hw old beyond fuel i keys bs = Some (Some (l, k)) <-> raws_form i keys l k bs.
Proof.
  induction fuel as [|fuel IH]; [lia|]. intros i keys bs HF HO HL ND l k. cbn [load_blocks7].
  destruct (C46_parse_is_exact skip hw bs HO) as (x & E & K). rewrite E. destruct x as [(c, n)|].
  2: { split; [discriminate|]. destruct l as [|r t]; cbn [raws_form]; [intros []|]. intros (rest & keys' & EB & F & _). exfalso.
       assert (X : None = Some (r_c r, length (r_actual r))) by (apply K; exists (r_actual r), rest; auto). discriminate. }
  destruct (proj1 (K c n) eq_refl) as (b & rest & EB & EN & F). subst n. cbv zeta.
  replace (skipn (length b) bs) with rest by (rewrite EB; symmetry; apply skipn_pref). replace (firstn (length b) bs) with b by (rewrite EB; symmetry; apply firstn_pref).
  replace (skipn (length b - crc_length (c_crctype c) - N.to_nat (c_len c)) bs ++ beyond) with (mem_of c b rest) by (unfold mem_of; now rewrite EB).
  assert (UN : forall c' b' rest', bs = b' ++ rest' -> canon7_form (skip = false) c' b' -> c' = c /\ b' = b /\ rest' = rest).
  { intros c' b' rest' E2 F2. assert (X : Some (c, length b) = Some (c', length b')) by (apply K; exists b', rest'; auto). injection X as <- LB. rewrite EB in E2. apply app_inj_len in E2; [|exact LB]. destruct E2 as (<- & <-). auto. }
  assert (HL' : N.of_nat (length ((b ++ rest) ++ beyond)) < 2 ^ 64) by (now rewrite <- EB). assert (HO' : Forall is_octet (b ++ rest)) by (now rewrite <- EB).
  assert (HR : Forall is_octet rest /\ (length rest < fuel)%nat /\ N.of_nat (length (rest ++ beyond)) < 2 ^ 64).
  { apply Forall_app in HO'. destruct (form_split _ _ _ F) as (h & d & crc & Eb & _ & _ & _ & L). assert (1 <= length b)%nat by (rewrite Eb, app_length; lia).
    rewrite EB, app_length in HF. rewrite !app_length in HL'. rewrite app_length. split; [apply HO'|]. lia. }
  destruct HR as (HR1 & HR2 & HR3).
  (* the BCB part *)
  match goal with |- context [bind2 ?p _] => set (part := p) end.
  assert (PK : forall bcb keys', part = Some (Some (bcb, keys')) <-> bcb_form i keys keys' (mkRaw7 c b (mem_of c b rest) bcb)).
  { intros bcb keys'. unfold part, bcb_form. cbn [r_c r_bcb]. destruct (c_type c =? 12).
    - pose proof (fun s => sec_parse_mem (fst (old i)) s c b rest _ F HO' HL') as SP. destruct (sec7_parse (fst (old i)) (mem_of c b rest) (c_len c)) as [[s|]|]; cbn [bind2].
      + destruct (proj1 (SP s) eq_refl) as (d & CD & SF). destruct (add_targets (s_targets s) keys) as [k2|] eqn:EA.
        * apply add_targets_ok in EA; [|exact ND]. destruct EA as (-> & N2). split.
          -- intros [= <- <-]. exists s, d. auto.
          -- intros (s' & d' & -> & CD' & SF' & -> & _). assert (X : Some (Some s) = Some (Some s')) by (apply SP; exists d'; auto). injection X as <-. reflexivity.
        * split; [discriminate|]. intros (s' & d' & -> & CD' & SF' & -> & N2). assert (X : Some (Some s) = Some (Some s')) by (apply SP; exists d'; auto). injection X as <-.
          assert (X : add_targets (s_targets s) keys = Some (keys ++ s_targets s)) by (apply add_targets_ok; auto). congruence.
      + split; [discriminate|]. intros (s' & d' & _ & CD' & SF' & _). assert (X : Some None = Some (Some s')) by (apply SP; exists d'; auto). discriminate.
      + split; [discriminate|]. intros (s' & d' & _ & CD' & SF' & _). assert (X : None = Some (Some s')) by (apply SP; exists d'; auto). discriminate.
    - split; [intros [= <- <-]; auto|intros (-> & ->); reflexivity]. }
  (* assemble *)
  assert (PU : forall r rest' keys', bs = r_actual r ++ rest' -> canon7_form (skip = false) (r_c r) (r_actual r) -> r_mem r = mem_of (r_c r) (r_actual r) rest' -> bcb_form i keys keys' r ->
     r = mkRaw7 c b (mem_of c b rest) (r_bcb r) /\ rest' = rest /\ part = Some (Some (r_bcb r, keys'))).
  { intros r rest' keys' E1 F1 M1 B1. destruct (UN _ _ _ E1 F1) as (EC & EA & ER). rewrite EC, EA, ER in M1. assert (ER2 : r = mkRaw7 c b (mem_of c b rest) (r_bcb r)) by (destruct r; cbn in *; congruence).
    split; [exact ER2|]. split; [exact ER|]. apply PK. now rewrite <- ER2. }
  destruct part as [[(bcb, keys')|]|] eqn:EP; cbn [bind2].
  2, 3: split; [discriminate|]; destruct l as [|r t]; cbn [raws_form]; [intros []|]; intros (rest' & keys' & E1 & F1 & M1 & B1 & _); destruct (PU _ _ _ E1 F1 M1 B1) as (_ & _ & X); discriminate.
  pose proof (proj1 (PK bcb keys') eq_refl) as BF.
  assert (ND' : NoDup keys'). { unfold bcb_form in BF. destruct (c_type _ =? 12); [destruct BF as (? & ? & _ & _ & _ & _ & X); exact X|destruct BF as (_ & ->); exact ND]. }
  set (r0 := mkRaw7 c b (mem_of c b rest) bcb) in *.
  assert (RU : forall r rest' keys2, bs = r_actual r ++ rest' -> canon7_form (skip = false) (r_c r) (r_actual r) -> r_mem r = mem_of (r_c r) (r_actual r) rest' -> bcb_form i keys keys2 r -> r = r0 /\ rest' = rest /\ keys2 = keys').
  { intros r rest' keys2 E1 F1 M1 B1. destruct (PU _ _ _ E1 F1 M1 B1) as (X & Y & [= Z1 Z2]). unfold r0. split; [rewrite X; now rewrite <- Z1|]. auto. }
  destruct (N.eqb_spec (c_type c) 1) as [T1|T1].
  - destruct (N.eqb_spec (c_num c) 1) as [N1|N1]; cbn [negb].
    + assert (K2 : (match rest with [x] => if x =? 255 then Some (Some ([r0], keys')) else Some None | _ => Some None end = Some (Some (l, k))) <-> rest = [255] /\ l = [r0] /\ k = keys').
      { destruct rest as [|x [|? ?]]; [split; [discriminate|intros ([=] & _)]| |split; [discriminate|intros ([=] & _)]]. destruct (N.eqb_spec x 255) as [->|NX].
        - split; [intros [= <- <-]; auto|intros (_ & -> & ->); reflexivity].
        - split; [discriminate|intros ([= X] & _); congruence]. }
      rewrite K2. split.
      * intros (ER & -> & ->). cbn [raws_form]. exists rest, keys'. unfold r0; cbn [r_c r_actual r_mem]; auto 10.
      * destruct l as [|r t]; cbn [raws_form]; [intros []|]. intros (rest' & keys2 & E1 & F1 & M1 & B1 & R). destruct (RU _ _ _ E1 F1 M1 B1) as (-> & -> & ->). destruct t as [|r2 t]; [|destruct R as (R & _); now elim R].
        destruct R as (_ & _ & ER & ->). auto.
    + split; [discriminate|]. destruct l as [|r t]; cbn [raws_form]; [intros []|]. intros (rest' & keys2 & E1 & F1 & M1 & B1 & R). destruct (RU _ _ _ E1 F1 M1 B1) as (-> & -> & ->).
      destruct t as [|r2 t]; [destruct R as (_ & R & _); now elim N1|destruct R as (R & _); now elim R].
  - assert (K3 : (match rest with [] => Some None | _ :: _ => bind2 (load_blocks7 skip hw old beyond fuel (S i) keys' rest) (fun '(l0, k0) => Some (Some (r0 :: l0, k0))) end = Some (Some (l, k))) <->
       exists t, l = r0 :: t /\ raws_form (S i) keys' t k rest).
    { destruct rest as [|x rest']; [split; [discriminate|intros (t & _ & R); now apply raws_nonempty in R]|]. set (rest := x :: rest') in *.
      pose proof (IH (S i) keys' rest HR2 HR1 HR3 ND') as IH'. destruct (load_blocks7 skip hw old beyond fuel (S i) keys' rest) as [[(l0, k0)|]|]; cbn [bind2].
      - split; [intros [= <- <-]; exists l0; split; [reflexivity|]; now apply IH'|]. intros (t & -> & R). apply IH' in R. injection R as <- <-. reflexivity.
      - split; [discriminate|]. intros (t & _ & R). apply IH' in R. discriminate.
      - split; [discriminate|]. intros (t & _ & R). apply IH' in R. discriminate. }
    rewrite K3. split.
    + intros (t & -> & R). cbn [raws_form]. exists rest, keys'. unfold r0 at 1 2 3 4 5 6; cbn [r_c r_actual r_mem]. do 4 (split; [solve [auto]|]). destruct t; [destruct R|]. auto.
    + destruct l as [|r t]; cbn [raws_form]; [intros []|]. intros (rest' & keys2 & E1 & F1 & M1 & B1 & R). destruct (RU _ _ _ E1 F1 M1 B1) as (-> & -> & ->). exists t. split; [reflexivity|].
      destruct t as [|r2 t]; [destruct R as (R & _); now elim T1|]. apply R.
Qed.

(** A raw block and the block of the view made of it. *)
Definition made_of (r : raw7) (b : cbv7) : Prop := k_c b = r_c r /\ k_actual b = r_actual r /\ match r_bcb r with Some s => k_x b = CSec s | None => True end.
Lemma content_parse_ok o admin c b rest P : canon7_form P c b -> Forall is_octet (b ++ rest) -> N.of_nat (length ((b ++ rest) ++ beyond)) < 2 ^ 64 ->
  forall x, content7_parse o admin (c_type c) (mem_of c b rest) (data_of c) = Some (Some x) <-> exists d, c_data c = Some d /\ content_form o admin (c_type c) x d.
Proof.
  intros F HO HL x. destruct (form_split _ _ _ F) as (h & d & crc & Eb & CD & CL & _). unfold content7_parse, data_of. rewrite CD.
  assert (Hd : Forall is_octet d). { rewrite Eb in HO. rewrite <- app_assoc in HO. apply Forall_app in HO. destruct HO as (_ & HO). rewrite <- app_assoc in HO. now apply Forall_app in HO. }
  assert (EX : forall Q : list N -> Prop, (exists d', Some d = Some d' /\ Q d') <-> Q d) by (intros Q; split; [intros (d' & [= <-] & H); exact H|intros H; exists d; auto]). rewrite EX. clear EX.
  set (t := c_type c) in *. destruct (admin && (t =? 1)) eqn:EA.
  - apply andb_true_iff in EA. destruct EA as (-> & T1). apply N.eqb_eq in T1. destruct (C47_parse_is_exact (snd o) d Hd) as (r & -> & K). destruct r as [a|]; cbn [bind2].
    + split; [intros [= <-]; cbn; repeat split; auto; now apply K|]. destruct x as [|e|s|a']; cbn; [intros (_ & H); exfalso; apply H; auto|intros (H & _); destruct e; cbn in H; lia|intros (H & _); lia|intros (_ & _ & H)]. apply K in H. injection H as ->. reflexivity.
    + split; [discriminate|]. destruct x as [|e|s|a']; cbn; [intros (_ & H); exfalso; apply H; auto|intros (H & _); destruct e; cbn in H; lia|intros (H & _); lia|intros (_ & _ & H)]. apply K in H. discriminate.
  - assert (NA : ~ (admin = true /\ t = 1)) by (intros (-> & ->); discriminate EA). destruct ((t =? 6) || (t =? 7) || (t =? 10) || (t =? 13)) eqn:EE.
    + destruct (C46_extension_parse_is_exact t d Hd) as (r & -> & K). destruct r as [e|]; cbn [bind2].
      * split; [intros [= <-]; cbn; now apply K|]. destruct x as [|e'|s|a']; cbn; [intros (H & _); exfalso; apply H; unfold known_type; lia|intros H; apply K in H; injection H as ->; reflexivity|intros (H & _); lia|intros (H1 & H2 & _); exfalso; auto].
      * split; [discriminate|]. destruct x as [|e'|s|a']; cbn; [intros (H & _); exfalso; apply H; unfold known_type; lia|intros H; apply K in H; discriminate|intros (H & _); lia|intros (H1 & H2 & _); exfalso; auto].
    + destruct ((t =? 11) || (t =? 12)) eqn:ES.
      * rewrite <- CL. pose proof (fun s => sec_parse_mem (fst o) s c b rest _ F HO HL) as SP. destruct (sec7_parse (fst o) (mem_of c b rest) (c_len c)) as [[s|]|]; cbn [bind2].
        -- split; [intros [= <-]; cbn; split; [lia|]; destruct (proj1 (SP s) eq_refl) as (d' & CD' & H); rewrite CD in CD'; injection CD' as <-; exact H|].
           destruct x as [|e'|s'|a']; cbn; [intros (H & _); exfalso; apply H; unfold known_type; lia|intros (H & _); destruct e'; cbn in H; lia|intros (_ & H)|intros (H1 & H2 & _); exfalso; auto].
           assert (X : Some (Some s) = Some (Some s')) by (apply SP; exists d; auto). injection X as ->. reflexivity.
        -- split; [discriminate|]. destruct x as [|e'|s'|a']; cbn; [intros (H & _); exfalso; apply H; unfold known_type; lia|intros (H & _); destruct e'; cbn in H; lia|intros (_ & H)|intros (H1 & H2 & _); exfalso; auto].
           assert (X : Some None = Some (Some s')) by (apply SP; exists d; auto). discriminate.
        -- split; [discriminate|]. destruct x as [|e'|s'|a']; cbn; [intros (H & _); exfalso; apply H; unfold known_type; lia|intros (H & _); destruct e'; cbn in H; lia|intros (_ & H)|intros (H1 & H2 & _); exfalso; auto].
           assert (X : None = Some (Some s')) by (apply SP; exists d; auto). discriminate.
      * split; [intros [= <-]; cbn; split; [unfold known_type; lia|exact NA]|]. destruct x as [|e'|s'|a']; cbn; [auto|intros (H & _); destruct e'; cbn in H; lia|intros (H & _); lia|intros (H1 & H2 & _); exfalso; auto].
Qed.
Lemma finish_ok admin K : forall l i keys k bs, raws_form i keys l k bs -> Forall is_octet bs -> N.of_nat (length (bs ++ beyond)) < 2 ^ 64 ->
  forall bl, finish7 old admin K i l = Some (Some bl) <-> Forall2 made_of l bl /\ blocks_form (skip = false) old admin K i bl.
Proof.
  induction l as [|r l IH]; intros i keys k bs RF HO HL bl; [destruct RF|]. cbn [raws_form] in RF. destruct RF as (rest & keys' & EB & F & EM & BF & RT).
  assert (HO' : Forall is_octet (r_actual r ++ rest)) by (now rewrite <- EB). assert (HL' : N.of_nat (length ((r_actual r ++ rest) ++ beyond)) < 2 ^ 64) by (now rewrite <- EB).
  assert (IH' : forall bl', finish7 old admin K (S i) l = Some (Some bl') <-> Forall2 made_of l bl' /\ blocks_form (skip = false) old admin K (S i) bl').
  { intros bl'. destruct l as [|r2 l]; [cbn; split; [intros [= <-]; split; [constructor|exact I]|intros (H & _); inversion H; reflexivity]|]. destruct RT as (_ & RT). apply (IH (S i) keys' k rest RT).
    - apply Forall_app in HO'. apply HO'. - rewrite !app_length in HL'. rewrite app_length. lia. }
  clear IH. cbn [finish7]. set (c := r_c r) in *. rewrite EM. set (enc := negb (c_type c =? 12) && existsb (N.eqb (c_num c)) K).
  assert (EN : enc = true <-> c_type c <> 12 /\ In (c_num c) K). { unfold enc. rewrite andb_true_iff, negb_true_iff, N.eqb_neq, existsb_in. reflexivity. }
  match goal with |- context [bind2 ?p _] => set (part := p) end.
  assert (PK : forall x, part = Some (Some x) <-> match r_bcb r with Some s => x = CSec s | None => True end /\
     (if enc then x = CPlain else exists d, c_data c = Some d /\ content_form (old i) admin (c_type c) x d)).
  { intros x. unfold part. unfold bcb_form in BF. fold c in BF. destruct (N.eqb_spec (c_type c) 12) as [T|T].
    - destruct BF as (s & d & -> & CD & SF & _). assert (enc = false) as -> by (destruct enc; [exfalso; now apply (proj1 (proj1 EN eq_refl))|reflexivity]). split.
      + intros [= <-]. split; [reflexivity|]. exists d. split; [exact CD|]. cbn. split; [now right|exact SF].
      + intros (-> & _). reflexivity.
    - destruct BF as (-> & _). destruct enc.
      + split; [intros [= <-]; auto|intros (_ & ->); reflexivity].
      + rewrite (content_parse_ok (old i) admin c (r_actual r) rest _ F HO' HL'). split; [auto|intros (_ & H); exact H]. }
  assert (BK : forall b, made_of r b /\ block_form (skip = false) (old i) admin K b <-> exists x, part = Some (Some x) /\ b = mkCbv7 c x (r_actual r) true false false enc).
  { intros b. split.
    - intros ((E1 & E2 & E3) & (F1 & L1 & D1 & G1 & N1 & X1)). assert (EE : k_enc b = enc).
      { unfold block_type, block_num in N1. rewrite E1 in N1. fold c in N1. destruct (k_enc b), enc; auto; [symmetry; apply EN, N1; reflexivity|apply N1, EN; reflexivity]. }
      exists (k_x b). split; [apply PK; split; [exact E3|]|].
      + rewrite EE in X1. unfold block_type in X1. rewrite E1 in X1. exact X1.
      + clear -E1 E2 L1 D1 G1 EE. clearbody enc. destruct b; cbn in *; unfold c; congruence.
    - intros (x & PX & ->). apply PK in PX. destruct PX as (P1 & P2). split; [repeat split; cbn; auto|]. unfold block_form, block_type, block_num; cbn [k_c k_actual k_live k_dirty k_del k_enc k_x]. auto 10. }
  destruct part as [[x|]|] eqn:EP; cbn [bind2].
  - destruct (finish7 old admin K (S i) l) as [[t|]|] eqn:ET; cbn [bind2].
    + split.
      * intros [= <-]. destruct (proj2 (BK (mkCbv7 c x (r_actual r) true false false enc)) (ex_intro _ x (conj eq_refl eq_refl))) as (B1 & B2). destruct (proj1 (IH' t) eq_refl) as (T1 & T2).
        split; [constructor; auto|]. cbn [blocks_form]. auto.
      * intros (H1 & H2). inversion H1 as [|? b ? bl' M1 M2]; subst. destruct H2 as (B2 & T2). destruct (proj1 (BK b) (conj M1 B2)) as (x' & [= <-] & ->).
        assert (X : Some (Some t) = Some (Some bl')) by (apply IH'; auto). injection X as <-. reflexivity.
    + split; [discriminate|]. intros (H1 & H2). inversion H1 as [|? b ? bl' M1 M2]; subst. destruct H2 as (B2 & T2). assert (X : Some None = Some (Some bl')) by (apply IH'; auto). discriminate.
    + split; [discriminate|]. intros (H1 & H2). inversion H1 as [|? b ? bl' M1 M2]; subst. destruct H2 as (B2 & T2). assert (X : None = Some (Some bl')) by (apply IH'; auto). discriminate.
  - split; [discriminate|]. intros (H1 & H2). inversion H1 as [|? b ? bl' M1 M2]; subst. destruct H2 as (B2 & T2). destruct (proj1 (BK b) (conj M1 B2)) as (x' & X & _). discriminate.
  - split; [discriminate|]. intros (H1 & H2). inversion H1 as [|? b ? bl' M1 M2]; subst. destruct H2 as (B2 & T2). destruct (proj1 (BK b) (conj M1 B2)) as (x' & X & _). discriminate.
Qed.
(** Blocks and what the first loop makes of them. *)
Lemma payload_last_cons b l : l <> [] -> (payload_last (b :: l) <-> block_type b <> 1 /\ payload_last l).
Proof.
  intros NE. split.
  - intros (front & pl & E & T & N1 & F). destruct front as [|f front]; cbn in E; [injection E as _ E; contradiction|]. injection E as -> ->. inversion F; subst. split; [assumption|]. exists front, pl. auto.
  - intros (T & front & pl & -> & T1 & N1 & F). exists (b :: front), pl. auto.
Qed.
Lemma payload_last_one b : payload_last [b] <-> block_type b = 1 /\ block_num b = 1.
Proof.
  split; [intros (front & pl & E & T & N1 & F)|intros (T & N1); exists [], b; auto]. destruct front as [|f [|? front]]; cbn in E; [injection E as ->; auto|discriminate|discriminate].
Qed.
Lemma bcb_content admin K i b : block_form (skip = false) (old i) admin K b -> block_type b = 12 -> exists s d, k_x b = CSec s /\ c_data (k_c b) = Some d /\ sec_form (fst (old i)) s d /\ targets_of b = s_targets s.
Proof.
  intros (_ & _ & _ & _ & N1 & X1) T. unfold targets_of. rewrite T. cbn [N.eqb Pos.eqb]. destruct (k_enc b); [exfalso; now apply (proj1 (proj1 N1 eq_refl))|].
  destruct X1 as (d & CD & CF). rewrite T in CF. destruct (k_x b) as [|e|s|a]; cbn in CF; [exfalso; apply (proj1 CF); unfold known_type; auto 10|destruct CF as (CF & _); destruct e; discriminate CF|exists s, d; intuition auto|destruct CF as (_ & CF & _); discriminate].
Qed.
Lemma raws_made admin K : forall l i keys k bs bl, raws_form i keys l k bs -> Forall2 made_of l bl -> blocks_form (skip = false) old admin K i bl ->
  bs = concat (map k_actual bl) ++ [255] /\ payload_last bl /\ k = keys ++ encrypted_numbers bl /\ (NoDup keys -> NoDup k).
Proof.
  induction l as [|r l IH]; intros i keys k bs bl RF F2 BF; [destruct RF|]. inversion F2 as [|? b ? bl' M1 M2]; subst. destruct M1 as (E1 & E2 & E3).
  cbn [raws_form] in RF. destruct RF as (rest & keys' & EB & F & EM & BC & RT). cbn [blocks_form] in BF. destruct BF as (B1 & B2). cbn [map concat]. unfold encrypted_numbers. cbn [flat_map]. fold (encrypted_numbers bl').
  assert (KT : keys' = keys ++ targets_of b /\ (NoDup keys -> NoDup keys')).
  { unfold bcb_form in BC. destruct (N.eqb_spec (c_type (r_c r)) 12) as [T|T].
    - destruct BC as (s & d & ES & CD & SF & -> & ND). rewrite ES in E3. destruct (bcb_content admin K i b B1) as (s' & d' & X1 & _ & _ & ->); [unfold block_type; now rewrite E1|]. rewrite X1 in E3. injection E3 as ->. auto.
    - destruct BC as (_ & ->). unfold targets_of, block_type. rewrite E1. destruct (N.eqb_spec (c_type (r_c r)) 12) as [T'|_]; [contradiction|]. rewrite app_nil_r. auto. }
  destruct KT as (EK & NK). destruct l as [|r2 l].
  - inversion M2; subst. destruct RT as (T1 & N1 & -> & ->). cbn. rewrite E2, !app_nil_r. split; [auto|]. split; [|auto]. apply payload_last_one. unfold block_type, block_num. rewrite E1. auto.
  - destruct RT as (T1 & RT). destruct (IH (S i) keys' k rest bl' RT M2 B2) as (-> & PL & -> & NK2). rewrite E2, <- !app_assoc. split; [exact EB|]. split; [|rewrite EK; split; [now rewrite <- app_assoc|auto]].
    + apply payload_last_cons; [inversion M2; discriminate|]. unfold block_type. rewrite E1. auto.
    + rewrite <- EK. auto.
Qed.
Lemma made_raws admin K : forall bl i keys, blocks_form (skip = false) old admin K i bl -> payload_last bl -> NoDup (keys ++ encrypted_numbers bl) ->
  exists l, raws_form i keys l (keys ++ encrypted_numbers bl) (concat (map k_actual bl) ++ [255]) /\ Forall2 made_of l bl.
Proof.
  induction bl as [|b bl IH]; intros i keys BF PL ND; [destruct PL as ([|] & ? & E & _); discriminate E|]. cbn [blocks_form] in BF. destruct BF as (B1 & B2).
  unfold encrypted_numbers in *. cbn [flat_map] in *. fold (encrypted_numbers bl) in *. cbn [map concat]. rewrite <- app_assoc. set (rest := concat (map k_actual bl) ++ [255]).
  set (r := mkRaw7 (k_c b) (k_actual b) (mem_of (k_c b) (k_actual b) rest) (if block_type b =? 12 then match k_x b with CSec s => Some s | _ => None end else None)).
  assert (MR : made_of r b). { unfold r. repeat split; cbn. destruct (N.eqb_spec (block_type b) 12) as [T|T]; [|exact I]. destruct (k_x b); auto. }
  assert (NDK : NoDup (keys ++ targets_of b)) by (rewrite app_assoc in ND; now apply nodup_left in ND).
  assert (BC : bcb_form i keys (keys ++ targets_of b) r).
  { unfold bcb_form, r. cbn [r_c r_bcb]. fold (block_type b). destruct (N.eqb_spec (block_type b) 12) as [T|T].
    - destruct (bcb_content admin K i b B1 T) as (s & d & -> & CD & SF & ET). rewrite ET in NDK |- *. exists s, d. auto.
    - unfold targets_of. destruct (N.eqb_spec (block_type b) 12); [contradiction|]. rewrite app_nil_r. auto. }
  destruct bl as [|b2 bl].
  - exists [r]. split; [|constructor; [exact MR|constructor]]. cbn [raws_form]. exists rest, (keys ++ targets_of b). unfold r at 1 2 3 4 5 6 7 8; cbn [r_c r_actual r_mem]. apply payload_last_one in PL. destruct PL as (T1 & N1).
    unfold rest. cbn [map concat app encrypted_numbers flat_map]. rewrite app_nil_r. destruct B1 as (F & _). auto 10.
  - apply payload_last_cons in PL; [|discriminate]. destruct PL as (T1 & PL). rewrite app_assoc in ND. destruct (IH (S i) (keys ++ targets_of b) B2 PL ND) as (l & RF & M2). exists (r :: l). split; [|constructor; auto].
    cbn [raws_form]. exists rest, (keys ++ targets_of b). unfold r at 1 2 3 4 5 6; cbn [r_c r_actual r_mem]. destruct B1 as (F & _). do 4 (split; [solve [auto]|]). destruct l as [|r2 l]; [destruct RF|]. rewrite app_assoc. auto.
Qed.
End Load.

(** The numbers marked free. *)
Lemma reserve_bit n m k : N.testbit (reserve7 n m) k = N.testbit m k && negb ((n =? k) && (n <=? 63)).
Proof.
  unfold reserve7. destruct (N.leb_spec n 63); [|rewrite andb_false_r, andb_true_r; reflexivity]. rewrite andb_true_r, N.ldiff_spec, N.shiftl_1_l, N.pow2_bits_eqb. reflexivity.
Qed.
Lemma free_bit n m k : N.testbit (free7 n m) k = N.testbit m k || (n =? k) && (n <=? 63).
Proof.
  unfold free7. destruct (N.leb_spec n 63); [|rewrite andb_false_r, orb_false_r; reflexivity]. rewrite andb_true_r, N.lor_spec, N.shiftl_1_l, N.pow2_bits_eqb. reflexivity.
Qed.
Lemma init_bit k : N.testbit free_init k = (2 <=? k) && (k <? 64).
Proof.
  destruct (N.ltb_spec k 64) as [L|L].
  - assert (exists n, k = N.of_nat n /\ (n < 64)%nat) as (n & -> & Ln) by (exists (N.to_nat k); lia). clear L.
    do 64 (destruct n as [|n]; [reflexivity|]). lia.
  - rewrite andb_false_r. apply N.bits_above_log2. unfold free_init. change (N.log2 (W64 - 1 - 3)) with 63. lia.
Qed.
Lemma reserves_bit : forall l m k, N.testbit (fold_left (fun m b => reserve7 (c_num (k_c b)) m) l m) k = true <-> N.testbit m k = true /\ ~ (k < 64 /\ In k (map block_num l)).
Proof.
  induction l as [|b l IH]; intros m k; cbn [fold_left map In]; [tauto|]. rewrite IH, reserve_bit, andb_true_iff. unfold block_num at 2. destruct (N.eqb_spec (c_num (k_c b)) k) as [E|E], (N.leb_spec (c_num (k_c b)) 63) as [L|L]; cbn [negb andb].
  - split; [intros ((_ & X) & _); discriminate|intros (_ & X); exfalso; apply X; split; [lia|now left]].
  - split; intros (X & Y); [split; [tauto|intros (Z & _); lia]|split; [auto|intros (Z & _); lia]].
  - split; intros (X & Y); [split; [tauto|intros (Z & [Q|Q]); [contradiction|tauto]]|split; [auto|intros (Z & Q); tauto]].
  - split; intros (X & Y); [split; [tauto|intros (Z & [Q|Q]); [contradiction|tauto]]|split; [auto|intros (Z & Q); tauto]].
Qed.
Lemma mask_loaded l m : fold_left (fun m b => reserve7 (c_num (k_c b)) m) l free_init = m <-> mask_form l m.
Proof.
  assert (B : forall k, N.testbit (fold_left (fun m b => reserve7 (c_num (k_c b)) m) l free_init) k = true <-> 2 <= k < 64 /\ ~ In k (map block_num l)).
  { intros k. rewrite reserves_bit, init_bit, andb_true_iff, N.leb_le, N.ltb_lt. tauto. }
  split; [intros <-; exact B|]. intros M. apply N.bits_inj. intros k. destruct (N.testbit m k) eqn:E.
  - apply B, M, E.
  - destruct (N.testbit (fold_left _ l free_init) k) eqn:E2; [|reflexivity]. apply B, M in E2. congruence.
Qed.
