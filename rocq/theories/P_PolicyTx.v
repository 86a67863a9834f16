(** C60: security sources. *)
From Coq Require Import PeanoNat NArith List Bool Lia ZifyBool ZifyN.
From Verif Require Import Base M_Uri M_Policy M_PolicyRx S_PolicyRx L_PolicyRx L2_PolicyRx P_PolicyRx M_PolicyTx S_PolicyTx L_PolicyTx L2_PolicyTx.
Import ListNotations.
Open Scope N_scope.

Definition all_well : world := mkWorld true true true true.
Definition plain (t n v : N) : out := mkOut (mkBlk t n no_asb false false) false (Some v) v [].
Definition ex_bundle : list out := [plain 6 2 20; plain 10 3 30; plain 1 1 10].
Definition ex_policy : policy := mkPol (Some (mkSet [1; 10] 0)) (Some (mkSet [1; 11] 0)) false false.
(** The source's rule and the acceptor's are for any endpoints. *)
Definition ex_filters : filters := for_all (Leaf (Some ex_policy) None (Some ex_policy)).
Definition ex_bib_out : out := mkOut (mkBlk 11 4 (mkAsb (9, 9) [1; 3] [true; true]) false false) false (Some 0) 0 [10; 30].
Definition ex_bcb_out : out := mkOut (mkBlk 12 5 (mkAsb (9, 9) [1; 4] [true; true]) false false) false (Some 0) 0 [].
Lemma ex_loaded : loaded ex_bundle.
Proof.
  split; [intros b [<-|[<-|[<-|[]]]]; repeat split; discriminate|]. split; [|intros b [<-|[<-|[<-|[]]]]; unfold num; cbn; unfold U64MAX, W64; lia].
  cbn. repeat constructor; cbn; intuition discriminate.
Qed.

(** What is sent, if anything is: the bundle unchanged, with the new blocks first, and exactly the targets encrypted. *)
Theorem C60_sent_bundle_is_exact : forall w f primary me src dst bs bs', loaded bs -> send w f primary me src dst bs = Sent bs' ->
  match find_policy f me src dst Source with
  | None => bs' = bs
  | Some p => (forall st, p_conf p = Some st -> NoDup (s_targets st)) -> outcome_ok me p bs bs'
  end.
Proof.
  intros w f primary me src dst bs bs' L H. unfold send in H. destruct (find_policy f me src dst Source) as [p|]; [|injection H as <-; reflexivity]. intro D. exact (outgoing_spec w primary me p bs bs' L D H).
Qed.
Example C60_sent_bundle_example : loaded ex_bundle /\ find_policy ex_filters (9, 9) (1, 1) (2, 1) Source = Some ex_policy /\
  send all_well ex_filters 99 (9, 9) (1, 1) (2, 1) ex_bundle = Sent [ex_bcb_out; seal ex_bib_out; plain 6 2 20; plain 10 3 30; seal (plain 1 1 10)].
Proof. split; [apply ex_loaded|]. split; [reflexivity|]. vm_compute. reflexivity. Qed.
Print Assumptions C60_sent_bundle_is_exact.

(** No undefined behaviour for bundles all of whose blocks have been rendered. *)
Theorem C60_never_undefined_when_rendered : forall w f primary me src dst bs, (forall b, In b bs -> b_data b <> None) -> send w f primary me src dst bs <> Undef.
Proof.
  intros w f primary me src dst bs D. unfold send. destruct (find_policy f me src dst Source) as [p|]; [|discriminate]. unfold outgoing.
  assert (E : forall room ok ss ts x, then_render room (encrypt ok ss ts x) <> Undef).
  { intros. unfold then_render, encrypt. destruct ts; [discriminate|]. destruct ok; [|discriminate]. destruct (seal_targets _ x); [|discriminate]. destruct (render _ _); discriminate. }
  assert (I : forall ts, then_render (v_room1 w) (add_integrity (v_bib w) primary me ts bs) <> Undef).
  { intro ts. unfold then_render, add_integrity. destruct ts as [|t r]; [discriminate|]. destruct (v_bib w); [|discriminate]. assert (X := hash_defined primary bs (t :: r) D). destruct (hash_targets _ _ _); [|discriminate|contradiction].
    destruct (render _ _); discriminate. }
  destruct (p_int p) as [sti|].
  - specialize (I (bib_targets (s_targets sti) bs)). destruct (then_render _ _) as [x| |]; [|discriminate|contradiction]. destruct (p_conf p) as [st|]; [apply E|discriminate].
  - destruct (p_conf p); [apply E|discriminate].
Qed.
Example C60_never_undefined_example : (forall b, In b ex_bundle -> b_data b <> None) /\ send (mkWorld true false true true) ex_filters 99 (9, 9) (1, 1) (2, 1) ex_bundle = NotSent.
Proof. split; [intros b [<-|[<-|[<-|[]]]]; discriminate|vm_compute; reflexivity]. Qed.
Print Assumptions C60_never_undefined_when_rendered.

Lemma last_cons : forall x bs, bs <> [] -> last_block (x :: bs) = last_block bs.
Proof. intros x [|y r] H; [contradiction|reflexivity]. Qed.
Lemma last_map : forall f bs, last_block (map f bs) = option_map f (last_block bs).
Proof. induction bs as [|x [|y r] IH]; [reflexivity|reflexivity|]. exact IH. Qed.
Lemma last_in : forall bs b, last_block bs = Some b -> In b bs.
Proof. induction bs as [|x [|y r] IH]; intros b H; [discriminate|injection H as <-; left; reflexivity|]. right. apply IH. exact H. Qed.
Lemma render_ok : forall x bs b, k_deleted (b_blk x) = false -> (forall c, In c bs -> k_deleted (b_blk c) = false /\ b_dirty c = false) -> last_block bs = Some b -> typ b = 1 -> num b = 1 -> render true (x :: bs) = Some (clean x :: bs).
Proof.
  intros x bs b X C L T N. unfold render. rewrite filter_all by (intros y [<-|I]; [rewrite X; reflexivity|destruct (C y I) as [-> _]; reflexivity]).
  rewrite last_cons by (intros ->; discriminate). rewrite L. unfold typ, num in *. rewrite T, N. destruct (C b (last_in _ _ L)) as [_ ->]. change (Some (clean x :: map clean bs) = Some (clean x :: bs)). f_equal. f_equal. apply clean_all. intros c I. apply C. exact I.
Qed.
Lemma hash_ok : forall primary bs ts, NoDup (map num bs) -> (forall t, In t ts -> exists b, In b bs /\ num b = t /\ k_encrypted (b_blk b) = false /\ b_data b <> None) -> exists l, hash_targets primary bs ts = Hashed l.
Proof.
  intros primary bs ts D. induction ts as [|t ts IH]; intro H; cbn [hash_targets]; [eexists; reflexivity|]. destruct IH as [l E]; [intros; apply H; right; auto|]. rewrite E. destruct (t =? 0); [eexists; reflexivity|].
  destruct (H t (or_introl eq_refl)) as [b [B1 [B2 [B3 B4]]]]. destruct (in_number bs b D B1) as [i [I1 I2]]. rewrite B2 in I2. rewrite (find_number_is _ _ _ _ I2), I1, B3. destruct (b_data b); [eexists; reflexivity|congruence].
Qed.
Lemma seal_ok : forall ts bs, NoDup (map num bs) -> (forall b, In b bs -> b_dirty b = false /\ b_data b <> None) -> (forall t, In t ts -> In t (map num bs)) -> exists bs', seal_targets ts bs = Some bs'.
Proof.
  induction ts as [|t ts IH]; intros bs D C H; cbn [seal_targets]; [eexists; reflexivity|]. assert (I := H t (or_introl eq_refl)). apply in_map_iff in I. destruct I as [b [B1 B2]]. destruct (in_number bs b D B2) as [i [I1 I2]]. rewrite B1 in I2.
  assert (F := find_number_is _ _ _ _ I2). rewrite F, I1. destruct (C b B2) as [-> C2]. destruct (b_data b); [|congruence]. rewrite (upd_seal _ _ _ D F). assert (Q : map num (map (sealed [t]) bs) = map num bs) by (rewrite map_map; apply map_ext; intro; apply sealed_num).
  apply IH; [rewrite Q; exact D| |intros u U; rewrite Q; apply H; right; exact U]. intros c I. apply in_map_iff in I. destruct I as [e [<- I]]. specialize (C e I). unfold sealed. destruct (existsb _ _); exact C.
Qed.

(** A loaded bundle is sent if keys and room are all right, some block is to be signed and none of those is encrypted, and some block is to be encrypted; the integrity block can only be encrypted if there is one. *)
Theorem C60_nothing_else_prevents_sending : forall f primary me src dst bs p b, loaded bs -> find_policy f me src dst Source = Some p -> last_block bs = Some b -> typ b = 1 -> num b = 1 ->
  (forall st, p_int p = Some st -> (exists c, In c bs /\ In (typ c) (s_targets st)) /\ forall c, In c bs -> In (typ c) (s_targets st) -> k_encrypted (b_blk c) = false) ->
  (forall st, p_conf p = Some st -> NoDup (s_targets st) /\ (In 11 (s_targets st) -> p_int p <> None) /\ (In 11 (s_targets st) \/ exists c, In c bs /\ In (typ c) (s_targets st))) ->
  exists bs', send all_well f primary me src dst bs = Sent bs'.
Proof.
  intros f primary me src dst bs p b L F LB T N HI HC. unfold send. rewrite F. unfold outgoing.
  assert (X : exists bs1, match p_int p with None => Sent bs | Some _ => then_render true (add_integrity true primary me (match p_int p with Some st => bib_targets (s_targets st) bs | None => [] end) bs) end = Sent bs1 /\
    (bs1 = bs \/ exists x, bs1 = x :: bs) /\ (forall c, In c bs1 -> k_deleted (b_blk c) = false /\ b_dirty c = false /\ b_data c <> None) /\ NoDup (map num bs1) /\ (p_int p <> None -> exists x, bs1 = x :: bs)).
  { destruct (p_int p) as [st|].
    - destruct (HI st eq_refl) as [[c [C1 C2]] C3]. destruct (hash_ok primary bs (bib_targets (s_targets st) bs)) as [l E]; [apply L| |].
      { intros t I. apply bib_targets_in in I. destruct I as [e [E1 [E2 E3]]]. exists e. split; [exact E1|]. split; [exact E2|]. split; [exact (C3 e E1 E3)|]. apply (proj1 L e E1). }
      assert (NE : bib_targets (s_targets st) bs <> []). { intro Q. assert (I : In (num c) (bib_targets (s_targets st) bs)) by (apply bib_targets_in; exists c; auto). rewrite Q in I. destruct I. }
      assert (R : then_render true (add_integrity true primary me (bib_targets (s_targets st) bs) bs) = Sent (clean (new_block 11 (next_number (numbers bs)) me (bib_targets (s_targets st) bs) l) :: bs)).
      { unfold then_render, add_integrity. destruct (bib_targets (s_targets st) bs) as [|t r] eqn:TS; [contradiction|]. rewrite E. rewrite (render_ok _ bs b); auto. intros e I. destruct (proj1 L e I) as [? [? _]]; auto. }
      destruct (sign_spec all_well primary me (s_targets st) bs _ L R) as [x [Q [[_ [_ [N1 [_ [N2 [_ [N4 _]]]]]]] [_ [_ N5]]]]].
      eexists. split; [exact R|]. rewrite Q. split; [right; exists x; reflexivity|]. split; [intros e [<-|I]; [auto|exact (proj1 L e I)]|]. split; [|intros _; exists x; reflexivity].
      cbn [map]. constructor; [|apply L]. intro I. apply in_map_iff in I. destruct I as [e [E1 I]]. exact (N4 e I E1).
    - exists bs. split; [reflexivity|]. split; [auto|]. split; [apply L|]. split; [apply L|]. congruence. }
  cbn [v_room1 v_bib all_well v_room2 v_bcb]. destruct X as [bs1 [-> [S [C [D PI]]]]]. destruct (p_conf p) as [st|]; [|eexists; reflexivity]. destruct (HC st eq_refl) as [ND [H11 HN]].
  assert (SUB : forall c, In c bs -> In c bs1) by (destruct S as [->|[x ->]]; [auto|intros; right; auto]).
  assert (LB1 : last_block bs1 = Some b) by (destruct S as [->|[x ->]]; [exact LB|rewrite last_cons by (intros ->; discriminate); exact LB]).
  assert (G : forall ts, ts <> [] -> (forall t, In t ts -> In t (map num bs1)) -> exists bs', then_render true (encrypt true me ts bs1) = Sent bs').
  { intros ts NE HT. unfold then_render, encrypt. destruct ts as [|t0 r0] eqn:TS; [contradiction|]. rewrite <- TS in *. destruct (seal_ok ts bs1 D ltac:(intros c I; destruct (C c I) as [_ X]; exact X) HT) as [bs2 E]. rewrite E. destruct (seal_spec _ _ _ D E) as [-> _].
    rewrite (render_ok _ _ (sealed ts b)); [eexists; reflexivity|reflexivity| | | |].
    - intros c I. apply in_map_iff in I. destruct I as [e [<- I]]. destruct (C e I) as [X1 [X2 _]]. unfold sealed. destruct (existsb _ ts); auto.
    - rewrite last_map, LB1. reflexivity.
    - unfold sealed. destruct (existsb _ ts); exact T.
    - rewrite sealed_num. exact N. }
  destruct (in_dec N.eq_dec 11 (s_targets st)) as [I11|I11].
  - specialize (PI (H11 I11)). destruct PI as [x ->]. destruct (bcb_targets_yes (s_targets st) bs [] None (num x) ND I11) as [i [B1 B2]]. rewrite B1. cbn [snd fst app] in B2 |- *. unfold num at 1 in B2. rewrite B2. destruct (p_int p); [|exfalso; exact (H11 I11 eq_refl)].
    apply G; [|]. { intro Q. assert (I : In (num x) (chosen (s_targets st) bs (num x))) by (apply chosen_in; right; auto). rewrite Q in I. destruct I. }
    intros t I. apply chosen_in in I. destruct I as [[c [C1 [C2 _]]]|[-> _]]; [apply in_map_iff; exists c; split; [exact C2|right; exact C1]|left; reflexivity].
  - rewrite (bcb_targets_no (s_targets st) bs [] None I11). cbn [snd fst app].
    replace (match p_int p with Some _ => chosen (s_targets st) bs 0 | None => chosen (s_targets st) bs 0 end) with (chosen (s_targets st) bs 0) by (destruct (p_int p); reflexivity).
    destruct HN as [HN|[c [C1 C2]]]; [contradiction|]. apply G.
    + intro Q. assert (I : In (num c) (chosen (s_targets st) bs 0)) by (apply chosen_in; left; exists c; do 3 (split; [auto|]); intro E; apply I11; rewrite <- E; exact C2). rewrite Q in I. destruct I.
    + intros t I. apply chosen_in in I. destruct I as [[e [E1 [E2 _]]]|[_ I]]; [apply in_map_iff; exists e; auto|contradiction].
Qed.
Example C60_nothing_else_example : loaded ex_bundle /\ last_block ex_bundle = Some (plain 1 1 10) /\ In 11 [1; 11] /\ p_int ex_policy <> None.
Proof. split; [apply ex_loaded|]. split; [reflexivity|]. split; [right; left; reflexivity|discriminate]. Qed.
Print Assumptions C60_nothing_else_prevents_sending.

(** A bundle without security blocks, from a source to an acceptor with the same settings, and with the right keys: it is accepted, and all its blocks are again as they were. *)
Lemma of_type_app : forall t bs bs2 i, of_type t i (bs ++ bs2) = of_type t i bs ++ of_type t (i + length bs) bs2.
Proof. induction bs as [|b r IH]; intros bs2 i; cbn [app of_type length]; [f_equal; lia|]. rewrite IH. replace (S i + length r)%nat with (i + S (length r))%nat by lia. destruct (k_type b =? t); reflexivity. Qed.
Lemma upd_at : forall A (f : A -> A) l x r, upd (length l) f (l ++ x :: r) = l ++ f x :: r.
Proof. induction l as [|y l IH]; intros; cbn; [reflexivity|]. f_equal. apply IH. Qed.
Lemma bib_phase : forall g o final src dst ss pre x bs st q, NoDup (map num (pre ++ x :: bs)) -> loaded bs -> (forall b, In b pre -> typ b <> 11) -> (forall b, In b bs -> typ b <> 11 /\ k_encrypted (b_blk b) = false) ->
  find_policy (g_filters g) ss src dst Acceptor = Some q -> p_int q = Some st -> types_ok true st -> new_security 11 ss bs x -> signs (s_targets st) bs x -> present (s_targets st) bs ->
  o_bib o (length pre) = None -> (forall j t, nth_error (a_targets (k_asb (b_blk x))) j = Some t -> o_hmac o (length pre) j = true) ->
  each (do_bib g o final src dst) (of_type 11 0 (blocks_of (pre ++ x :: bs))) (blocks_of (pre ++ x :: bs)) = Keep (blocks_of pre ++ delete (b_blk x) :: blocks_of bs).
Proof.
  intros g o final src dst ss pre x bs st q ND LD TP TB F P OK NS SG PR OB OH. destruct NS as [N1 [N2 [N3 [N4 [N5 [N6 [N7 [N8 N9]]]]]]]].
  assert (EQ : blocks_of (pre ++ x :: bs) = blocks_of pre ++ b_blk x :: blocks_of bs) by (unfold blocks_of; rewrite map_app; reflexivity).
  assert (OT : of_type 11 0 (blocks_of (pre ++ x :: bs)) = [length pre]).
  { rewrite EQ, of_type_app. rewrite (of_type_none 11 (blocks_of pre)) by (intros b I; apply in_map_iff in I; destruct I as [c [<- I]]; exact (TP c I)). cbn [app of_type]. unfold typ in N1. rewrite N1, N.eqb_refl.
    rewrite (of_type_none 11 (blocks_of bs)) by (intros b I; apply in_map_iff in I; destruct I as [c [<- I]]; exact (proj1 (TB c I))). unfold blocks_of. rewrite map_length. reflexivity. }
  rewrite OT. cbn [each]. assert (NX : nth_error (blocks_of (pre ++ x :: bs)) (length pre) = Some (b_blk x)).
  { rewrite EQ. rewrite nth_error_app2 by (unfold blocks_of; rewrite map_length; lia). unfold blocks_of. rewrite map_length, Nat.sub_diag. reflexivity. }
  assert (IB : forall b, In b bs -> exists i, is_block (blocks_of (pre ++ x :: bs)) (num b) i (b_blk b)).
  { intros b I. destruct (in_number (pre ++ x :: bs) b ND) as [i [_ H]]; [apply in_or_app; right; right; exact I|exists i; exact H]. }
  rewrite (accept_int g o final src dst (length pre) (blocks_of (pre ++ x :: bs)) (b_blk x) st q NX); [|rewrite N2; exact F|exact P|exact OK|exact N4|exact OB|exact (well_new 11 ss bs x (conj N1 (conj N2 (conj N3 (conj N4 (conj N5 (conj N6 (conj N7 (conj N8 N9)))))))))| |].
  - rewrite EQ. rewrite <- (map_length b_blk pre). fold (blocks_of pre). rewrite upd_at. reflexivity.
  - intros j t H. assert (IT := nth_error_In _ _ H). apply (proj1 SG) in IT. destruct IT as [b [B1 [B2 B3]]]. split; [rewrite <- B2; apply LD; exact B1|]. split; [exact (OH j t H)|].
    destruct (IB b B1) as [i I]. exists i, (b_blk b). rewrite <- B2. split; [exact I|]. split; [exact (proj2 (TB b B1))|exact B3].
  - intros t I. destruct (PR t I) as [b [B1 B2]]. destruct (IB b B1) as [i J]. exists (num b), i, (b_blk b). split; [apply (proj1 SG); exists b; split; [exact B1|split; [reflexivity|rewrite B2; exact I]]|]. split; [exact J|exact B2].
Qed.

Theorem C60_round_trip_is_accepted : forall w f primary me src dst bs bs' p g o node q, loaded bs -> (forall b, In b bs -> typ b <> 11 /\ typ b <> 12 /\ k_encrypted (b_blk b) = false) ->
  find_policy f me src dst Source = Some p -> send w f primary me src dst bs = Sent bs' ->
  find_policy (g_filters g) me src dst Acceptor = Some q -> p_int q = p_int p -> p_conf q = p_conf p ->
  (forall st, p_int p = Some st -> types_ok true st /\ present (s_targets st) bs) ->
  (forall st, p_conf p = Some st -> types_ok false st /\ NoDup (s_targets st) /\ (In 11 (s_targets st) -> p_int p <> None) /\ forall t, In t (s_targets st) -> t = 11 \/ exists b, In b bs /\ typ b = t) ->
  honest o bs' ->
  exists extra, process g o node src dst (blocks_of bs') = Keep (extra ++ blocks_of bs) /\ forall b, In b extra -> k_deleted b = true.
Proof.
  intros w f primary me src dst bs bs' p g o node q LD TB FS SE FA QI QC HI HC HO. assert (OUT := C60_sent_bundle_is_exact _ _ _ _ _ _ _ _ LD SE). rewrite FS in OUT.
  specialize (OUT (fun st E => proj1 (proj2 (HC st E)))). destruct OUT as [bib [bs1 [HS HE]]]. unfold process.
  assert (T12 : forall bs0, (forall b, In b bs0 -> typ b <> 12) -> of_type 12 0 (blocks_of bs0) = []) by (intros bs0 H; apply of_type_none; intros b I; apply in_map_iff in I; destruct I as [c [<- I]]; exact (H c I)).
  assert (T11 : forall bs0, (forall b, In b bs0 -> typ b <> 11) -> of_type 11 0 (blocks_of bs0) = []) by (intros bs0 H; apply of_type_none; intros b I; apply in_map_iff in I; destruct I as [c [<- I]]; exact (H c I)).
  (* the blocks before the last step *)
  assert (B1 : (forall b, In b bs1 -> typ b <> 12 /\ k_encrypted (b_blk b) = false) /\ NoDup (map num bs1) /\ forall b, In b bs -> In b bs1).
  { destruct (p_int p) as [st|].
    - destruct HS as [x [_ [-> [[N1 [N2 [N3 [N4 [N5 [N6 [N7 [N8 N9]]]]]]]] _]]]]. split; [intros b [<-|I]; [split; [rewrite N1; discriminate|exact N4]|exact (proj2 (TB b I))]|]. split; [|intros; right; auto]. cbn [map]. constructor; [|apply LD].
      intro I. apply in_map_iff in I. destruct I as [c [E I]]. exact (N7 c I E).
    - destruct HS as [-> _]. split; [intros b I; exact (proj2 (TB b I))|]. split; [apply LD|auto]. }
  destruct B1 as [B1 [B2 B3]].
  destruct (p_conf p) as [stc|].
  - destruct HE as [y [-> [NS CV]]]. destruct (HC stc eq_refl) as [C1 [C2 [C3 C4]]]. set (T := a_targets (k_asb (b_blk y))) in *. assert (NS' := NS). destruct NS' as [N1 [N2 [N3 [N4 [N5 [N6 [N7 [N8 N9]]]]]]]].
    assert (OT : of_type 12 0 (blocks_of (y :: map (sealed T) bs1)) = [0%nat]).
    { cbn [blocks_of map of_type]. unfold typ in N1. rewrite N1, N.eqb_refl. f_equal. apply of_type_none. intros b I. apply in_map_iff in I. destruct I as [c [<- I]]. apply in_map_iff in I. destruct I as [e [<- I]].
      destruct (sealed_blk T e (proj2 (B1 e I))) as [-> _]. exact (proj1 (B1 e I)). }
    rewrite OT. cbn [each]. unfold T. rewrite (accept_conf g o (fst dst =? node) src dst me y bs1 stc q FA QC C1 NS B2 (fun b I => proj2 (B1 b I))).
    + destruct (p_int p) as [sti|] eqn:PI.
      * destruct HS as [x [EB [-> [NX SG]]]]. destruct (HI sti eq_refl) as [I1 I2]. set (y' := mkOut (delete (b_blk y)) (b_dirty y) (b_data y) (b_value y) (b_macs y)).
        change (delete (b_blk y) :: blocks_of (x :: bs)) with (blocks_of ([y'] ++ x :: bs)).
        rewrite (bib_phase g o (fst dst =? node) src dst me [y'] x bs sti q); [exists [delete (b_blk y); delete (b_blk x)]; split; [reflexivity|intros b [<-|[<-|[]]]; reflexivity]| |exact LD| | |exact FA|rewrite QI; reflexivity|exact I1|exact NX|exact SG|exact I2|apply HO|].
        -- cbn [app map]. constructor; [|exact B2]. intro I. change (num y') with (num y) in I. change (In (num y) (map num (x :: bs))) in I. apply in_map_iff in I. destruct I as [c [E I]]. exact (N7 c I E).
        -- intros b [<-|[]]. unfold typ, y'. cbn. unfold typ in N1. rewrite N1. discriminate.
        -- intros b I. split; apply (TB b I).
        -- intros j t J. destruct (proj2 SG j t J) as [b [d [D1 [D2 [D3 [D4 D5]]]]]]. destruct NX as [X1 [X2 [X3 [X4 _]]]]. destruct (sealed_blk T x X4) as [_ [_ [XA [_ [_ [_ XM]]]]]]. destruct (sealed_blk T b D3) as [_ [_ [_ [_ [_ [XD _]]]]]].
           apply (proj2 (proj2 HO 1%nat (sealed T x) j t (sealed T b) eq_refl ltac:(rewrite XA; exact J) ltac:(right; apply in_map; right; exact D1) ltac:(rewrite sealed_num; exact D2)) d); [rewrite XD; exact D4|rewrite XM; exact D5].
      * destruct HS as [-> _]. change (delete (b_blk y) :: blocks_of bs) with ([delete (b_blk y)] ++ blocks_of bs). rewrite of_type_app. cbn [of_type app delete k_type length Nat.add].
        unfold typ in N1. rewrite N1. change (12 =? 11) with false. cbv iota. cbn [app]. rewrite of_type_none by (intros b I; apply in_map_iff in I; destruct I as [c [<- I]]; apply (TB c I)).
        exists [delete (b_blk y)]. split; [reflexivity|intros b [<-|[]]; reflexivity].
    + intros n I. apply CV in I. destruct I as [[b [D1 [D2 [D3 _]]]]|[b [E [D2 D3]]]]; [exists b; split; [exact (B3 b D1)|auto]|].
      exists b. destruct (p_int p) as [sti|]; [|destruct HS as [_ HS]; rewrite HS in E; discriminate]. destruct HS as [x [EB [-> [[X1 _] _]]]]. assert (x = b) by congruence. subst x. split; [left; reflexivity|]. rewrite X1. auto.
    + intros t I. destruct (C4 t I) as [->|[b [D1 D2]]].
      * destruct (p_int p) as [sti|]; [|exfalso; exact (C3 I eq_refl)]. destruct HS as [x [EB [-> [[X1 _] _]]]]. exists x. split; [left; reflexivity|]. split; [|exact X1]. apply CV. right. exists x. auto.
      * exists b. split; [exact (B3 b D1)|]. split; [|exact D2]. apply CV. left. exists b. rewrite D2. do 3 (split; [auto|]). rewrite <- D2. apply (TB b D1).
    + apply HO.
    + intros j t b J I E. destruct (sealed_blk T b (proj2 (B1 b I))) as [_ [_ [XA _]]]. rewrite <- XA. apply (proj2 HO 0%nat y j t (sealed T b) eq_refl J); [right; apply in_map; exact I|rewrite sealed_num; exact E].
  - rewrite HE. rewrite T12 by (intros b I; apply (B1 b I)). cbn [each]. destruct (p_int p) as [sti|] eqn:PI.
    + destruct HS as [x [EB [-> [NX SG]]]]. destruct (HI sti eq_refl) as [I1 I2]. rewrite HE in HO. change (x :: bs) with ([] ++ x :: bs).
      rewrite (bib_phase g o (fst dst =? node) src dst me [] x bs sti q); [exists [delete (b_blk x)]; split; [reflexivity|intros b [<-|[]]; reflexivity]|exact B2|exact LD|intros b []| |exact FA|rewrite QI; reflexivity|exact I1|exact NX|exact SG|exact I2|apply HO|].
      * intros b I. split; apply (TB b I).
      * intros j t J. destruct (proj2 SG j t J) as [b [d [D1 [D2 [D3 [D4 D5]]]]]]. apply (proj2 (proj2 HO 0%nat x j t b eq_refl J ltac:(right; exact D1) D2) d D4 D5).
    + destruct HS as [-> _]. rewrite T11 by (intros b I; apply (TB b I)). exists []. split; [reflexivity|intros b []].
Qed.
(** An oracle that answers honestly. *)
Definition target_at (bs : list out) (pos j : nat) : option out :=
  match nth_error bs pos with Some b => match nth_error (a_targets (k_asb (b_blk b))) j with Some t => find (fun c => num c =? t) bs | None => None end | None => None end.
Definition oracle_of (bs : list out) : oracle :=
  mkOr (fun _ => None) (fun pos j => match target_at bs pos j with Some c => Readable (k_asb (b_blk c)) | None => Readable no_asb end) (fun _ => None)
    (fun pos j => match target_at bs pos j with
     | Some c => match b_data c, nth_error bs pos with Some d, Some b => match nth_error (b_macs b) j with Some m => m =? d | None => false end | _, _ => false end
     | None => false
     end).
Lemma oracle_honest : forall bs, NoDup (map num bs) -> honest (oracle_of bs) bs.
Proof.
  intros bs D. split; [split; reflexivity|]. intros pos b j t c P J I E. assert (T : target_at bs pos j = Some c).
  { unfold target_at. rewrite P, J. clear P J. revert D I. induction bs as [|x r IH]; intros D I; [destruct I|]. cbn [find]. inversion D as [|? ? D1 D2]; subst. destruct I as [->|I]; [rewrite N.eqb_refl; reflexivity|].
    destruct (N.eqb_spec (num x) (num c)) as [Q|Q]; [exfalso; apply D1; rewrite Q; apply in_map; exact I|]. apply IH; auto. }
  cbn [oracle_of o_open o_hmac]. rewrite T. split; [reflexivity|]. intros d Dd M. rewrite Dd, P, M. apply N.eqb_refl.
Qed.
Definition ex_sent : list out := [ex_bcb_out; seal ex_bib_out; plain 6 2 20; plain 10 3 30; seal (plain 1 1 10)].
Definition strict_events : lut := mkLut (Some 9) (Some 9) (Some 9) (Some 9).
Definition at_receiver (p : policy) : config := mkCfg (for_all (Leaf None None (Some p))) (fun _ => strict_events) 0.
Ltac distinct := cbn; repeat constructor; cbn; intuition discriminate.
Example C60_round_trip_example : loaded ex_bundle /\ send all_well ex_filters 99 (9, 9) (1, 1) (2, 1) ex_bundle = Sent ex_sent /\ honest (oracle_of ex_sent) ex_sent /\
  present [1; 10] ex_bundle /\ types_ok true (mkSet [1; 10] 0) /\ types_ok false (mkSet [1; 11] 0) /\
  process (at_receiver ex_policy) (oracle_of ex_sent) 2 (1, 1) (2, 1) (blocks_of ex_sent) = Keep (delete (b_blk ex_bcb_out) :: delete (b_blk ex_bib_out) :: blocks_of ex_bundle).
Proof.
  split; [apply ex_loaded|]. split; [vm_compute; reflexivity|]. split; [apply oracle_honest; distinct|]. split; [intros t [<-|[<-|[]]]; [exists (plain 1 1 10)|exists (plain 10 3 30)]; cbn; auto|].
  split; [intros t [<-|[<-|[]]]; lia|]. split; [intros t [<-|[<-|[]]]; lia|]. vm_compute. reflexivity.
Qed.
Print Assumptions C60_round_trip_is_accepted.

(** A policy that has only confidentiality, for the integrity block, can never be obeyed. *)
Theorem C60_absent_integrity_block_prevents_sending : forall w f primary me src dst bs p st, loaded bs -> find_policy f me src dst Source = Some p -> p_int p = None -> p_conf p = Some st -> NoDup (s_targets st) -> In 11 (s_targets st) ->
  send w f primary me src dst bs = NotSent.
Proof.
  intros w f primary me src dst bs p st L F PI PC ND I11. unfold send. rewrite F. unfold outgoing. rewrite PI, PC. destruct (bcb_targets_yes (s_targets st) bs [] None 0 ND I11) as [i [B1 _]]. rewrite B1. cbn [fst snd app].
  unfold then_render, encrypt. destruct (chosen (s_targets st) bs 0) as [|t0 r0] eqn:TS; [reflexivity|]. rewrite <- TS. destruct (v_bcb w); [|reflexivity]. destruct (seal_targets _ bs) as [bs2|] eqn:E; [|reflexivity]. exfalso.
  destruct (seal_spec _ _ _ (proj1 (proj2 L)) E) as [_ H]. assert (I : In 0 (chosen (s_targets st) bs 0)) by (apply chosen_in; right; auto). apply H in I. apply in_map_iff in I. destruct I as [b [Q I]]. exact (proj1 (proj2 (proj2 L) b I) Q).
Qed.
Example C60_absent_integrity_block_example : loaded ex_bundle /\ In 11 [1; 11] /\
  send all_well (for_all (Leaf (Some (mkPol None (Some (mkSet [1; 11] 0)) false false)) None None)) 99 (9, 9) (1, 1) (2, 1) ex_bundle = NotSent.
Proof. split; [apply ex_loaded|]. split; [right; left; reflexivity|vm_compute; reflexivity]. Qed.
Print Assumptions C60_absent_integrity_block_prevents_sending.

Definition source_only (p : policy) : filters := for_all (Leaf (Some p) None None).
Definition int_only (ts : list N) : policy := mkPol (Some (mkSet ts 0)) None false false.
Definition conf_only (ts : list N) : policy := mkPol None (Some (mkSet ts 0)) false false.
(** REFUTED: the primary block is signed if the policy names it. It is not, without any error, and a receiver with the same settings drops the bundle. *)
Theorem C60_named_primary_block_is_signed_refuted : exists bs bs', loaded bs /\ send all_well (source_only (int_only [0; 1])) 99 (9, 9) (1, 1) (2, 1) bs = Sent bs' /\
  (forall b, In b bs' -> typ b = 11 -> ~ In 0 (a_targets (k_asb (b_blk b)))) /\ honest (oracle_of bs') bs' /\
  process (at_receiver (int_only [0; 1])) (oracle_of bs') 2 (1, 1) (2, 1) (blocks_of bs') = Drop /\
  exists b, process (at_receiver (int_only [1])) (oracle_of bs') 2 (1, 1) (2, 1) (blocks_of bs') = Keep (b :: blocks_of bs).
Proof.
  exists ex_bundle. eexists. split; [apply ex_loaded|]. split; [vm_compute; reflexivity|]. split; [intros b [<-|[<-|[<-|[<-|[]]]]]; cbn; intro; intuition discriminate|]. split; [apply oracle_honest; distinct|].
  split; [vm_compute; reflexivity|]. eexists. vm_compute. reflexivity.
Qed.
Print Assumptions C60_named_primary_block_is_signed_refuted.
(** REFUTED: a bundle to which the policy cannot be applied is not sent. If a type that it names is absent the bundle is sent nevertheless, for a receiver with the same settings to drop it. *)
Theorem C60_incomplete_protection_is_not_sent_refuted : exists bs bs', loaded bs /\ ~ present [1; 7] bs /\ send all_well (source_only (int_only [1; 7])) 99 (9, 9) (1, 1) (2, 1) bs = Sent bs' /\ honest (oracle_of bs') bs' /\
  process (at_receiver (int_only [1; 7])) (oracle_of bs') 2 (1, 1) (2, 1) (blocks_of bs') = Drop.
Proof.
  exists ex_bundle. eexists. split; [apply ex_loaded|]. split. { intro H. destruct (H 7 (or_intror (or_introl eq_refl))) as [b [[<-|[<-|[<-|[]]]] E]]; discriminate. }
  split; [vm_compute; reflexivity|]. split; [apply oracle_honest; distinct|vm_compute; reflexivity].
Qed.
Print Assumptions C60_incomplete_protection_is_not_sent_refuted.
(** REFUTED: signatures are over what is sent. Ingress has just changed the hop count block (type 10, dirty); its old bytes are signed and its new ones are sent. *)
Theorem C60_signature_is_over_what_is_sent_refuted : exists bs bs' x b, (forall c, In c bs -> b_data c <> None) /\ send all_well (source_only (int_only [10])) 99 (9, 9) (1, 1) (2, 1) bs = Sent bs' /\
  In x bs' /\ In b bs' /\ a_targets (k_asb (b_blk x)) = [num b] /\ b_macs x = [30] /\ b_data b = Some 31 /\
  process (at_receiver (int_only [10])) (oracle_of bs') 2 (1, 1) (2, 1) (blocks_of bs') = Drop.
Proof.
  exists [mkOut (mkBlk 10 3 no_asb false false) true (Some 30) 31 []; plain 1 1 10]. do 3 eexists. split; [intros c [<-|[<-|[]]]; discriminate|]. split; [vm_compute; reflexivity|]. split; [left; reflexivity|]. split; [right; left; reflexivity|].
  repeat split; vm_compute; reflexivity.
Qed.
Print Assumptions C60_signature_is_over_what_is_sent_refuted.
(** REFUTED: no undefined behaviour. Ingress has just inserted the previous node block (type 6), which has no bytes yet, and the policy signs it. *)
Theorem C60_new_blocks_are_signed_safely_refuted : exists bs, NoDup (map num bs) /\ send all_well (source_only (int_only [6])) 99 (9, 9) (1, 1) (2, 1) bs = Undef.
Proof. exists [mkOut (mkBlk 6 2 no_asb false false) true None 20 []; plain 1 1 10]. split; [distinct|vm_compute; reflexivity]. Qed.
Print Assumptions C60_new_blocks_are_signed_safely_refuted.
(** REFUTED: every target of a new security block is in the bundle. Blocks that ingress has marked for deletion are signed, and are then not sent. *)
Theorem C60_targets_are_sent_refuted : exists bs bs' x n, (forall c, In c bs -> b_data c <> None) /\ send all_well (source_only (int_only [6])) 99 (9, 9) (1, 1) (2, 1) bs = Sent bs' /\
  In x bs' /\ typ x = 11 /\ In n (a_targets (k_asb (b_blk x))) /\ ~ In n (map num bs').
Proof.
  exists [mkOut (mkBlk 6 2 no_asb true false) false (Some 20) 20 []; plain 1 1 10]. do 2 eexists. exists 2. split; [intros c [<-|[<-|[]]]; discriminate|]. split; [vm_compute; reflexivity|]. split; [left; reflexivity|].
  split; [reflexivity|]. split; [left; reflexivity|]. cbn. intuition discriminate.
Qed.
Print Assumptions C60_targets_are_sent_refuted.
(** REFUTED: no block is the target of two confidentiality blocks (RFC 9172, 3.2; Load of every receiver, BundleViewV7.cpp:126-137, refuses such a bundle). A payload that is already encrypted is encrypted again. *)
Theorem C60_encrypted_once_refuted : exists bs bs' x y, loaded bs /\ send all_well (source_only (conf_only [1])) 99 (9, 9) (1, 1) (2, 1) bs = Sent bs' /\
  In x bs' /\ In y bs' /\ num x <> num y /\ typ x = 12 /\ typ y = 12 /\ In 1 (a_targets (k_asb (b_blk x))) /\ In 1 (a_targets (k_asb (b_blk y))).
Proof.
  exists [mkOut (mkBlk 12 2 (mkAsb (8, 8) [1] [true]) false false) false (Some 0) 0 []; seal (plain 1 1 10)]. do 3 eexists.
  split. { split; [intros b [<-|[<-|[]]]; repeat split; discriminate|]. split; [distinct|intros b [<-|[<-|[]]]; unfold num; cbn; unfold U64MAX, W64; lia]. }
  split; [vm_compute; reflexivity|]. split; [left; reflexivity|]. split; [right; left; reflexivity|]. split; [vm_compute; discriminate|]. repeat split; left; reflexivity.
Qed.
Print Assumptions C60_encrypted_once_refuted.
(** REFUTED: all blocks of the types that the policy names for confidentiality are encrypted. Integrity blocks of other sources are not, so they show the hashes of what was encrypted. *)
Theorem C60_all_named_blocks_are_encrypted_refuted : exists bs bs' b, loaded bs /\ send all_well (source_only (mkPol (Some (mkSet [10] 0)) (Some (mkSet [1; 11] 0)) false false)) 99 (9, 9) (1, 1) (2, 1) bs = Sent bs' /\
  In b bs' /\ typ b = 11 /\ In 1 (a_targets (k_asb (b_blk b))) /\ k_encrypted (b_blk b) = false /\ exists c, In c bs' /\ num c = 1 /\ k_encrypted (b_blk c) = true.
Proof.
  exists [mkOut (mkBlk 11 2 (mkAsb (8, 8) [1] [true]) false false) false (Some 0) 0 [10]; plain 10 3 30; plain 1 1 10]. do 2 eexists.
  split. { split; [intros b [<-|[<-|[<-|[]]]]; repeat split; discriminate|]. split; [distinct|intros b [<-|[<-|[<-|[]]]]; unfold num; cbn; unfold U64MAX, W64; lia]. }
  split; [vm_compute; reflexivity|]. split; [right; right; left; reflexivity|]. split; [reflexivity|]. split; [left; reflexivity|]. split; [reflexivity|]. eexists. split; [do 4 right; left; reflexivity|]. split; reflexivity.
Qed.
Print Assumptions C60_all_named_blocks_are_encrypted_refuted.
