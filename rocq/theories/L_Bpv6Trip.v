(** Lemmas for C37-C39: what the serializers write is what the parsers read. *)
From Coq Require Import NArith ZArith List Bool Lia ZifyBool ZifyN.
From Verif Require Import Base M_FragmentSet M_Sdnv M_Acs M_Uri M_Bpv6Block M_BundleV6 S_FragmentSet S_Acs S_Sdnv S_Uri S_Bpv6 L_FragmentSet L_Sdnv P_Sdnv L_SdnvRead L_Acs
  L_Uri L_Bpv6Read L_Bpv6Load L_Bpv6Write.
Import ListNotations.
Open Scope N_scope.

(** ** The bytes written are bytes *)
Lemma shortest_bytes v e : shortest_sdnv v e -> Forall is_byte e.
Proof. intros (S & _). now apply is_sdnv_bytes. Qed.
Lemma shortest_all_bytes vs bs : shortest_all vs bs -> Forall is_byte bs.
Proof. induction 1 as [|v sd vs bs S H IH]; [constructor|]. apply Forall_app. split; [exact (shortest_bytes _ _ S)|exact IH]. Qed.
Lemma decimal_bytes v s : decimal v s -> Forall is_byte s.
Proof. intros ((_ & D & _) & _). eapply Forall_impl; [|exact D]. unfold digit, is_byte. intros; lia. Qed.
Lemma uris_bytes l ts : uris_written l ts -> Forall is_byte ts.
Proof.
  induction 1 as [|node svc t l ts (a & b & A & B & ->) U IH]; [constructor|]. unfold ipn_colon. pose proof (decimal_bytes _ _ A). pose proof (decimal_bytes _ _ B).
  repeat (apply Forall_app; split); try assumption; repeat constructor; unfold is_byte; lia.
Qed.
Lemma times_bytes flags i ts bs : times_written flags i ts bs -> Forall is_byte bs.
Proof. induction 1; [constructor| |assumption]. apply Forall_app. split; [now apply (shortest_all_bytes _ _ H0)|assumption]. Qed.
Lemma admin_bytes a bs : admin_written a bs -> admin_ok a -> Forall is_byte bs.
Proof.
  intros H. destruct H as [s fr ts st e F T S (ln & -> & E)|s fr t st e F T S (ln & -> & E)|status fills enc E]; cbn [admin_ok]; intros OK.
  - destruct OK as (O1 & O2 & _ & _ & _ & _ & O3 & _). repeat (apply Forall_cons; [assumption|]). apply shortest_all_bytes in F, S. apply times_bytes in T. apply shortest_bytes in E.
    repeat (apply Forall_app; split); assumption.
  - destruct OK as (O1 & _ & _ & _ & _ & O3 & _). repeat (apply Forall_cons; [assumption|]). apply shortest_all_bytes in F, S, T. apply shortest_bytes in E.
    repeat (apply Forall_app; split); assumption.
  - destruct OK as (O1 & _). constructor; [exact O1|]. exact (encoding_bytes _ _ _ E).
Qed.
Lemma data_bytes c d : data_written c d -> content_ok c -> Forall is_byte d.
Proof.
  intros H. destruct H as [id eid sd S|node svc a b A B|v sd S|code sd S|code sd l ts S U|code sd d S|code isfrag|code isfrag a bs A]; cbn [content_ok]; intros OK;
    try (apply shortest_bytes in S; try exact S).
  - apply Forall_app. tauto.
  - apply decimal_bytes in A, B. repeat (apply Forall_app; split); try assumption; repeat constructor; unfold is_byte; lia.
  - apply Forall_app. split; [exact S|exact (uris_bytes _ _ U)].
  - apply Forall_app. tauto.
  - constructor; [|constructor]. unfold is_byte. destruct isfrag; cbn [N.b2n]; lia.
  - constructor; [|exact (admin_bytes _ _ A (proj2 OK))]. unfold is_byte. destruct isfrag; cbn [N.b2n]; lia.
Qed.
Lemma firstn_forall (A : Type) (P : A -> Prop) n l : Forall P l -> Forall P (firstn n l).
Proof. intros H. rewrite <- (firstn_skipn n l) in H. now apply Forall_app in H. Qed.
Lemma block_data_bytes b data : block_ok b -> block_data b data -> Forall is_byte data.
Proof.
  intros (_ & _ & _ & CO & BP) H. unfold block_data in H. destruct (k_content b) eqn:K; try (now apply (data_bytes _ _ H)).
  destruct H as (d & E & _ & ->). destruct (BP eq_refl) as (d' & E' & B & _). rewrite E in E'. injection E' as <-. now apply firstn_forall.
Qed.

(** ** Data *)
Lemma uris_form l ts : uris_written l ts -> Forall pair_ok l -> l <> [] -> uri_texts l ts.
Proof.
  induction 1 as [|node svc t l ts (a & b & A & B & ->) U IH]; intros F NE; [congruence|]. destruct (Forall_inv F) as [V1 V2]. cbn [fst snd] in *.
  pose proof (decimal_number _ _ V1 A) as TA. pose proof (decimal_number _ _ V2 B) as TB.
  replace ((ipn_colon ++ a ++ [46] ++ b) ++ [0] ++ ts) with ((ipn_colon ++ a ++ [46] ++ b ++ [0]) ++ ts) by (now rewrite <- !app_assoc).
  destruct l as [|x l].
  - inversion U; subst. rewrite app_nil_r. now constructor.
  - constructor; [exact TA|exact TB|]. apply IH; [exact (Forall_inv_tail F)|discriminate].
Qed.
Lemma frag_of (f : bool) off len fr : shortest_all (if f then [off; len] else []) fr -> off < W64 -> len < W64 -> (f = false -> off = 0 /\ len = 0) -> frag_form f off len fr.
Proof.
  intros S A B Z. unfold frag_form. destruct f; [apply shortest_sdnvs; [exact S|repeat constructor; assumption]|]. inversion S. destruct (Z eq_refl). auto.
Qed.
Lemma time_of t bs : shortest_all [fst t; snd t] bs -> fst t < W64 -> snd t < W32 -> time_form t bs.
Proof. intros S A B. apply shortest_all_two in S. destruct S as (a & b & -> & S1 & S2). exists a, b. split; [reflexivity|]. split; [now apply shortest_for|now apply shortest_32]. Qed.
Lemma times_of flags i ts bs : times_written flags i ts bs -> Forall (fun t => fst t < W64 /\ snd t < W32) ts ->
  (forall k, (k < length ts)%nat -> N.testbit flags (i + N.of_nat k) = false -> nth k ts (0, 0) = (0, 0)) -> times_form flags i ts bs.
Proof.
  induction 1 as [i|i t ts a b T S H IH|i t ts b T H IH]; intros F Z; [constructor|..];
    (assert (Z' : forall k, (k < length ts)%nat -> N.testbit flags (i + 1 + N.of_nat k) = false -> nth k ts (0, 0) = (0, 0))
       by (intros k L E; apply (Z (Datatypes.S k)); [cbn [length]; lia|rewrite <- E; f_equal; lia])).
  - destruct (Forall_inv F). constructor; [exact T|now apply time_of|]. apply IH; [exact (Forall_inv_tail F)|exact Z'].
  - pose proof (Z 0%nat ltac:(cbn [length]; lia)) as Q. cbn [nth] in Q. rewrite Q by (rewrite <- T; f_equal; lia). apply TmClear; [exact T|]. apply IH; [exact (Forall_inv_tail F)|exact Z'].
Qed.
Lemma eid_of eid bs : eid_written eid bs -> (5 <= length eid)%nat -> N.of_nat (length eid) <= 65535 -> eid_form eid bs.
Proof. intros (ln & -> & S) A B. exists ln. split; [reflexivity|]. split; [|auto]. apply shortest_32; [unfold W32; lia|exact S]. Qed.
Lemma fills_back last fills enc : acs_encoding 0 fills enc -> canonical fills -> fills <> [] ->
  exists fl, acs_fields enc fl /\ acs_deserialize_fills last enc = Some (Some (fills, N.of_nat (length enc))).
Proof.
  intros E Hc NE. assert (F0 : follows 0 fills) by (destruct fills; cbn; [exact I|lia]).
  destruct (encoding_fields 0 fills enc E Hc F0 NE) as (fl & F1 & F2 & F3). exists fl. split; [exact F1|].
  unfold acs_deserialize_fills. rewrite (loop_complete last enc fl F1) by (try lia; eapply encoding_bytes; exact E).
  rewrite wrapped_in_range, F3 by exact F2.
  assert (EI : insert_all last [] fills = fills).
  { destruct (insert_all_spec last fills [] canonical_nil (proj1 Hc)) as [Hc' Hv']. apply canonical_unique; [exact Hc'|exact Hc|].
    intros i. rewrite Hv'. split; [intros [C|C]; [destruct C as (f & [] & _)|exact C]|intros C; right; exact C]. }
  rewrite EI. reflexivity.
Qed.
Lemma head_bits code isfrag : (16 * code + N.b2n isfrag) / 16 = code /\ N.testbit (16 * code + N.b2n isfrag) 0 = isfrag.
Proof.
  split.
  - rewrite N.mul_comm. rewrite N.div_add_l by lia. destruct isfrag; cbn; lia.
  - rewrite N.bit0_odd, N.odd_add. rewrite N.odd_mul. change (N.odd 16) with false. now destruct isfrag.
Qed.
Lemma data_back last isAdmin b data : block_ok b -> content_std isAdmin (k_type b) (k_content b) -> block_data b data ->
  data_form last isAdmin (block_type b) data (k_content b).
Proof.
  intros (_ & _ & _ & OK & _) ST H. unfold block_data in H. unfold block_type. destruct (k_content b) as [|id eid|node svc|v|code m|code isfrag a] eqn:K; clear K.
  - cbn [content_std] in ST. constructor; tauto.
  - inversion H as [? ? sd S| | | | | | |]; subst. cbn [content_ok] in OK. apply DfCteb; [now apply shortest_for|exact ST].
  - inversion H as [|? ? x y A B| | | | | |]; subst. destruct OK as [V1 V2]. apply DfPrevHop; [now apply decimal_number|now apply decimal_number|]. cbn [content_std] in ST. now apply ST.
  - inversion H as [| |? sd S| | | | |]; subst. constructor. now apply shortest_for.
  - destruct m as [[l|d]|]; cbn [content_ok content_std] in *; [| |contradiction]; destruct ST as (-> & ST).
    + destruct ST as (-> & NE). inversion H as [| | | |? sd ? ts S U| | |]; subst. constructor; [now apply shortest_for|now apply uris_form].
    + inversion H as [| | | | |? sd ? S| |]; subst. constructor; [now apply shortest_for|exact ST].
  - destruct a as [a|]; cbn [content_ok content_std] in *; [|contradiction]. destruct OK as (C16 & OK). destruct ST as (-> & -> & ST).
    inversion H as [| | | | | | |? ? ? bs A]; subst. destruct (head_bits code isfrag) as [HD HB]. set (h := 16 * code + N.b2n isfrag) in *.
    destruct A as [s fr ts st e F T S E|s fr t st e F T S E|status fills enc E]; cbn [admin_ok admin_std] in *.
    + destruct OK as (O1 & O2 & O3 & O4 & O5 & (O6 & O7) & O8 & O9). destruct ST as (-> & <- & Z & L5 & ZT & L1 & L2). rewrite <- HB.
      apply DfStatus; [reflexivity|exact HD|]. exists fr, ts, st, e. rewrite HB. split; [reflexivity|]. split; [reflexivity|]. split; [now apply frag_of|]. split; [exact L5|].
      split; [apply times_of; [exact T|exact O5|rewrite L5; exact ZT]|]. split; [apply shortest_sdnvs; [exact S|repeat constructor; assumption]|]. now apply eid_of.
    + destruct OK as (O1 & O3 & O4 & (O5 & O5') & (O6 & O7) & O8 & O9). destruct ST as (-> & <- & Z & L1 & L2). rewrite <- HB.
      apply DfSignal; [reflexivity|exact HD|]. exists fr, t, st, e. rewrite HB. split; [reflexivity|]. split; [reflexivity|]. split; [now apply frag_of|]. split; [now apply time_of|].
      split; [apply shortest_sdnvs; [exact S|repeat constructor; assumption]|]. now apply eid_of.
    + destruct OK as (O1 & O2). destruct ST as (-> & NE). destruct (fills_back last fills enc E O2 NE) as (fl & F1 & F2). rewrite <- HB.
      apply (DfAggregate _ _ h status enc fl fills); [reflexivity|exact HD|exact F1|exact F2].
Qed.

(** ** Blocks *)
Lemma written_wire_primary p bs : prim_ok p -> written_primary p bs -> wire_primary p bs.
Proof.
  intros (OK & Z) (f & l & sd & fr & -> & SF & -> & PL & L127 & SD & SR). exists (f ++ p_len p :: sd), fr. rewrite <- app_assoc. split; [reflexivity|].
  repeat (apply Forall_cons_iff in OK; destruct OK as [? OK]). split.
  - constructor; [now apply shortest_for|]. change (p_len p :: sd) with ([p_len p] ++ sd). constructor; [apply one_byte_sdnv; lia|].
    apply shortest_sdnvs; [exact SD|]. repeat constructor; try assumption; unfold W64; lia.
  - destruct (fragment_flag (p_flags p)); [apply shortest_sdnvs; [exact SR|repeat constructor; assumption]|]. inversion SR. destruct (Z eq_refl). auto.
Qed.
Lemma written_primary_bytes p bs : written_primary p bs -> Forall is_byte bs.
Proof.
  intros (f & l & sd & fr & -> & SF & -> & PL & L127 & SD & SR). constructor; [unfold is_byte; lia|]. apply Forall_app. split; [exact (shortest_bytes _ _ SF)|].
  constructor; [unfold is_byte; lia|]. apply Forall_app. split; eapply shortest_all_bytes; eassumption.
Qed.
Lemma written_wire_block type flags data bs : is_byte type -> flags < W64 -> N.of_nat (length data) < W64 -> written_block type flags data bs -> wire_block type flags data bs.
Proof. intros T F L (f & l & -> & SF & SL). exists f, l. split; [reflexivity|]. split; [exact T|]. split; now apply shortest_for. Qed.
Lemma block_type_byte b : block_ok b -> is_byte (block_type b).
Proof. intros (BT & _). unfold block_type, is_byte in *. destruct (k_content b); try exact BT; lia. Qed.
Lemma block_flags_64 b : block_ok b -> block_flags b < W64.
Proof. intros (_ & BF & _). apply (div128_lt (k_flags b)); [symmetry; apply block_flags_div|exact BF]. Qed.
Lemma block_data_exists b : block_ok b -> exists data, block_data b data.
Proof.
  intros (_ & _ & _ & CO & BP). unfold block_data. destruct (k_content b) eqn:K; try (apply data_written_exists; [exact CO|reflexivity]).
  destruct (BP eq_refl) as (d & E & _ & L). exists (firstn (N.to_nat (k_len b)) d), d. auto.
Qed.
