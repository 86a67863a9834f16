(** Lemmas for C28: a byte-driven reference automaton and the simulation of the receiver by it. *)
From Coq Require Import NArith ZArith List Bool Lia ZifyBool ZifyN.
From Verif Require Import Base M_SegmentAlloc M_Intrin M_Sdnv S_Sdnv L_Intrin L_Sdnv P_Sdnv L_SdnvRead M_LtpCodec S_LtpCodec.
Import ListNotations.
Open Scope N_scope.

(** * The reference automaton *)
Record cx := mkCx { c_f : N; c_eng : N; c_num : N; c_nh : N; c_nt : N; c_hx : list ext }.
Inductive body := BData (csid off len : N) (ser : option (N * N)) (d : list N) | BRep (f : list N) (claims : list (N * N)) | BAck (n : N) | BCan (r : N) | BCack.
Inductive rst :=
| RCtl | REng (f : N) (p : list N) | RNum (f e : N) (p : list N) | RCnt (f e n : N)
| RHTag (c : cx) | RHLen (c : cx) (p : list N) | RHVal (c : cx) (len : N)
| RDat (c : cx) (vals p : list N) | RByt (c : cx) (csid off len : N) (ser : option (N * N)) (d : list N)
| RRep (c : cx) (vals p : list N) | RClm (c : cx) (f : list N) (claims : list (N * N)) (p : list N) | RClmL (c : cx) (f : list N) (claims : list (N * N)) (p : list N)
| RAck (c : cx) (p : list N) | RCan (c : cx)
| RTTag (c : cx) (b : body) (tx : list ext) | RTLen (c : cx) (b : body) (tx : list ext) (p : list N) | RTVal (c : cx) (b : body) (tx : list ext) (len : N).
Inductive rsd_res := Rm | Rb | Rv (v : N).
Definition rsd (p : list N) (b : N) : rsd_res :=
  if Nat.ltb 9 (length p) then Rb else if 128 <=? b then Rm else if sdnv_value (p ++ [b]) <? W64 then Rv (sdnv_value (p ++ [b])) else Rb.
Definition out (c : cx) (b : body) (tx : list ext) : lcb :=
  match b with
  | BData csid off len ser d => LcData (c_f c) (c_eng c) (c_num c) d csid off len ser (c_hx c) tx
  | BRep f claims => LcReport (c_eng c) (c_num c) (nth 0 f 0) (nth 1 f 0) (nth 2 f 0) (nth 3 f 0) claims (c_hx c) tx
  | BAck n => LcRack (c_eng c) (c_num c) n (c_hx c) tx
  | BCan r => LcCancel (c_eng c) (c_num c) r (c_f c =? 12) (c_hx c) tx
  | BCack => LcCack (c_eng c) (c_num c) (c_f c =? 13) (c_hx c) tx
  end.
Definition fin (c : cx) (b : body) : rst * list lcb := if c_nt c =? 0 then (RCtl, [out c b []]) else (RTTag c b [], []).
Definition ent (c : cx) : option (rst * list lcb) :=
  let f := c_f c in
  if N.land f 0xd =? 0xd then Some (fin c BCack)
  else if (f =? 5) || (f =? 6) || (f =? 10) || (f =? 11) then None
  else if f <=? 7 then Some (RDat c [] [], [])
  else if f =? 8 then Some (RRep c [] [], [])
  else if f =? 9 then Some (RAck c [], [])
  else Some (RCan c, []).
Lemma closed_for bs v s : Forall is_byte bs -> closed 10 129 bs = (v, s) -> s <> 0 -> exists p rest, bs = p ++ rest /\ sdnv_for v p /\ s = N.of_nat (length p).
Proof. intros B E NS. destruct (closed_sdnv bs v s B E NS) as (p & rest & H). exists p, rest. unfold sdnv_for. intuition congruence. Qed.
Lemma chain_arr m : forall bs vs t, Forall is_byte bs -> arr m bs = Some (vs, t) ->
  (N.to_nat t <= length bs)%nat /\ (length vs <= m)%nat /\ sdnvs vs (firstn (N.to_nat t) bs).
Proof.
  induction m as [|m IH]; intros bs vs t B E; cbn [arr] in E; [injection E as <- <-; cbn; repeat split; try lia; constructor|].
  destruct (closed 10 129 bs) as [v s] eqn:EC. destruct (N.eqb_spec s 0) as [->|NS].
  - destruct (v =? 0); [discriminate|]. injection E as <- <-. cbn. repeat split; try lia. constructor.
  - destruct (arr m (skipn (N.to_nat s) bs)) as [[vs' t']|] eqn:EA; [|discriminate]. injection E as <- <-.
    destruct (closed_for bs v s B EC NS) as (p & rest & -> & SF & ->). rewrite Nat2N.id, skipn_app, skipn_all, Nat.sub_diag in EA. cbn [app skipn] in EA.
    apply Forall_app in B. destruct B as [B1 B2]. destruct (IH rest vs' t') as (L1 & L2 & SV); [exact B2|exact EA|].
    rewrite app_length. cbn [length]. split; [lia|]. split; [lia|].
    replace (N.to_nat (N.of_nat (length p) + t')) with (length p + N.to_nat t')%nat by lia. rewrite firstn_app_2. now constructor.
Qed.
Section Ref.
Variable al : N -> bool.
Definition sd (X : list N -> rst) (next : N -> option (rst * list lcb)) (p : list N) (b : N) : option (rst * list lcb) :=
  match rsd p b with Rm => Some (X (p ++ [b]), []) | Rb => None | Rv v => next v end.
Definition dnext (c : cx) (vals : list N) : option (rst * list lcb) :=
  match vals with
  | [csid; off; len] => if len =? 0 then None else if negb (al len) then None else
      Some (if is_cp (c_f c) then RDat c vals [] else RByt c csid off len None [], [])
  | [csid; off; len; cp; rp] => if negb (al len) then None else Some (RByt c csid off len (Some (cp, rp)) [], [])
  | _ => Some (RDat c vals [], [])
  end.
Definition pnext (c : cx) (vals : list N) : option (rst * list lcb) :=
  match vals with
  | [_; _; _; _; n] => if n =? 0 then None else if negb (al (16 * n)) then None else Some (RClm c vals [] [], [])
  | _ => Some (RRep c vals [], [])
  end.
Definition hnext (c : cx) : option (rst * list lcb) := if N.of_nat (length (c_hx c)) =? c_nh c then ent c else Some (RHTag c, []).
Definition tnext (c : cx) (b : body) (tx : list ext) : rst * list lcb :=
  if N.of_nat (length tx) =? c_nt c then (RCtl, [out c b tx]) else (RTTag c b tx, []).
Definition cset (c : cx) (x : list ext) : cx := mkCx (c_f c) (c_eng c) (c_num c) (c_nh c) (c_nt c) x.
Definition lnext (c : cx) (f : list N) (claims : list (N * N)) (v : N) : option (rst * list lcb) :=
  if v =? 0 then None else
  match set_last_len claims v with
  | None => None
  | Some x => Some (if N.of_nat (length x) <? nth 4 f 0 then (RClm c f x [], []) else fin c (BRep f x))
  end.
Definition rstep (r : rst) (b : N) : option (rst * list lcb) :=
  match r with
  | RCtl => if b <? 16 then Some (REng b [], []) else None
  | REng f p => sd (REng f) (fun v => Some (RNum f v [], [LcEngine v])) p b
  | RNum f e p => sd (RNum f e) (fun v => Some (RCnt f e v, [])) p b
  | RCnt f e n => let c := mkCx f e n (N.shiftr b 4) (N.land b 0x0f) [] in if negb (N.shiftr b 4 =? 0) then Some (RHTag c, []) else ent c
  | RHTag c => Some (RHLen (cset c (c_hx c ++ [(b, [])])) [], [])
  | RHLen c p => sd (RHLen c) (fun v => if v =? 0 then hnext c else if negb (al v) then None else Some (RHVal c v, [])) p b
  | RHVal c len => match push_last (c_hx c) b with None => None | Some x => if last_len x =? len then hnext (cset c x) else Some (RHVal (cset c x) len, []) end
  | RDat c vals p => sd (RDat c vals) (fun v => dnext c (vals ++ [v])) p b
  | RByt c csid off len ser d =>
    if N.of_nat (length d) + 1 =? len then Some (fin c (BData csid off len ser (d ++ [b]))) else Some (RByt c csid off len ser (d ++ [b]), [])
  | RRep c vals p => sd (RRep c vals) (fun v => pnext c (vals ++ [v])) p b
  | RClm c f claims p => sd (RClm c f claims) (fun v => Some (RClmL c f (claims ++ [(v, 0)]) [], [])) p b
  | RClmL c f claims p => sd (RClmL c f claims) (lnext c f claims) p b
  | RAck c p => sd (RAck c) (fun v => Some (fin c (BAck v))) p b
  | RCan c => Some (fin c (BCan b))
  | RTTag c x tx => Some (RTLen c x (tx ++ [(b, [])]) [], [])
  | RTLen c x tx p => sd (RTLen c x tx) (fun v => if v =? 0 then Some (tnext c x tx) else if negb (al v) then None else Some (RTVal c x tx v, [])) p b
  | RTVal c x tx len => match push_last tx b with None => None | Some y => if last_len y =? len then Some (tnext c x y) else Some (RTVal c x y len, []) end
  end.
Fixpoint rrun (r : rst) (bs : list N) : list lcb * option rst :=
  match bs with
  | [] => ([], Some r)
  | b :: t => match rstep r b with None => ([], None) | Some (r', o) => let (o2, x) := rrun r' t in (o ++ o2, x) end
  end.
Lemma rrun_app a : forall r b, rrun r (a ++ b) = let (o, x) := rrun r a in match x with None => (o, None) | Some r' => let (o2, y) := rrun r' b in (o ++ o2, y) end.
Proof.
  induction a as [|x a IH]; intros r b; cbn [app rrun]; [now destruct (rrun r b)|]. destruct (rstep r x) as [[r' o]|]; [|reflexivity].
  rewrite IH. destruct (rrun r' a) as [o1 [r1|]]; [|reflexivity]. destruct (rrun r1 b) as [o2 y]. now rewrite app_assoc.
Qed.
Definition doomed (r : rst) : Prop := forall b, rstep r b = None.
Definition dead (x : list lcb * option rst) : Prop := segments (fst x) = [] /\ match snd x with None => True | Some r => doomed r end.
Lemma segments_app a b : segments (a ++ b) = segments a ++ segments b.
Proof. apply filter_app. Qed.
Lemma dead_cons r b r' o t : rstep r b = Some (r', o) -> segments o = [] -> dead (rrun r' t) -> dead (rrun r (b :: t)).
Proof. intros E S0 (D1 & D2). unfold dead. cbn [rrun]. rewrite E. destruct (rrun r' t) as [o2 x]. cbn [fst snd] in *. rewrite segments_app, S0, D1. auto. Qed.
Lemma dead_step r b t : rstep r b = None -> dead (rrun r (b :: t)).
Proof. intros E. unfold dead. cbn [rrun]. rewrite E. cbn. auto. Qed.

(** A run of a state collecting an SDNV. *)
Lemma collect (X : list N -> rst) next (HX : forall p b, rstep (X p) b = sd X next p b) : forall q p, Forall (fun b => 128 <= b < 256) q -> (length p + length q <= 10)%nat ->
  rrun (X p) q = ([], Some (X (p ++ q))).
Proof.
  induction q as [|b q IH]; intros p F L; cbn [rrun]; [now rewrite app_nil_r|]. rewrite HX. inversion F as [|? ? B F']; subst. cbn [length] in L.
  unfold sd, rsd. destruct (Nat.ltb_spec 9 (length p)); [lia|]. replace (128 <=? b) with true by lia. rewrite IH; [|exact F'|rewrite app_length; cbn; lia].
  now rewrite <- app_assoc.
Qed.
Lemma collect_ok X next (HX : forall p b, rstep (X p) b = sd X next p b) v s : sdnv_for v s ->
  rrun (X []) s = match next v with None => ([], None) | Some (r, o) => (o, Some r) end.
Proof.
  intros ((i & l & -> & F & Hl) & L & V & W). rewrite rrun_app, (collect X next HX) by (try exact F; rewrite app_length in L; cbn in *; lia).
  cbn [rrun app]. rewrite HX. unfold sd, rsd. rewrite app_length in L. cbn [length] in L. destruct (Nat.ltb_spec 9 (length i)); [lia|].
  replace (128 <=? l) with false by lia. rewrite V. replace (v <? W64) with true by lia. destruct (next v) as [[r o]|]; [|reflexivity]. now rewrite app_nil_r.
Qed.
(** ... cut short: nothing happens. *)
Lemma collect_cut X next (HX : forall p b, rstep (X p) b = sd X next p b) v p q : sdnv_for v (p ++ q) -> q <> [] -> rrun (X []) p = ([], Some (X p)).
Proof.
  intros ((i & l & E & F & Hl) & L & _) NQ. apply (collect X next HX p []).
  - assert (P : exists q', i = p ++ q').
    { exists (removelast q). rewrite (app_removelast_last 0 NQ), app_assoc in E. apply app_inj_tail in E. now destruct E. }
    destruct P as (q' & ->). now apply Forall_app in F.
  - rewrite app_length in L. cbn. lia.
Qed.
Lemma ten_doomed X next (HX : forall p b, rstep (X p) b = sd X next p b) p : (10 <= length p)%nat -> doomed (X p).
Proof. intros L b. rewrite HX. unfold sd, rsd. destruct (Nat.ltb_spec 9 (length p)); [reflexivity|lia]. Qed.
Lemma collect_bad X next (HX : forall p b, rstep (X p) b = sd X next p b) bs : Forall is_byte bs -> closed 10 129 bs = (0, 0) -> dead (rrun (X []) bs).
Proof.
  intros B E.
  assert (LONG : forall p rest, length p = 10%nat -> Forall (fun b => 128 <= b) p -> bs = p ++ rest -> dead (rrun (X []) bs)).
  { intros p rest L F ->. apply Forall_app in B. destruct B as [B _]. rewrite rrun_app, (collect X next HX); [|rewrite Forall_forall in *; intros x Hx; split; [now apply F|now apply B]|cbn; lia].
    cbn [app]. destruct rest as [|c rest]; cbn [rrun].
    - split; [reflexivity|]. cbn [snd]. apply (ten_doomed X next HX). lia.
    - rewrite (ten_doomed X next HX) by lia. split; [reflexivity|exact I]. }
  assert (SP : decode_spec 10 W64 bs (0, 0)). { rewrite <- E. replace W64 with (128 ^ N.of_nat (10 - 1) * (129 - 127)) by reflexivity. apply closed_spec; [lia|lia|exact B]. }
  remember (0, 0) as r0 eqn:ER. destruct SP as [p rest E1 S1 S2 S3|p rest E1 S1 S2 S3|p rest E1 S1 S2|]; [| | |discriminate ER]; subst bs.
  - injection ER as _ S5. destruct S1 as (i & l & -> & _). rewrite app_length in S5. cbn in S5. lia.
  - destruct S1 as (i & l & -> & F & Hl). rewrite app_length in S2. cbn in S2. rewrite <- app_assoc, rrun_app, (collect X next HX) by (try exact F; cbn; lia).
    cbn [app rrun]. rewrite HX. unfold sd, rsd. destruct (Nat.ltb_spec 9 (length i)); [lia|]. replace (128 <=? l) with false by lia.
    replace (sdnv_value (i ++ [l]) <? W64) with false by lia. split; [reflexivity|exact I].
  - eapply LONG; eauto.
Qed.
Lemma collect_away X next (HX : forall p b, rstep (X p) b = sd X next p b) p rest : Forall is_byte p -> length p = 32%nat -> Forall (fun b => 128 <= b) p -> snd (rrun (X []) (p ++ rest)) = None.
Proof.
  intros B L F. rewrite <- (firstn_skipn 10 p), <- app_assoc, rrun_app.
  rewrite (collect X next HX); [|rewrite Forall_forall in *; intros x Hx; assert (In x p) by (rewrite <- (firstn_skipn 10 p); apply in_or_app; now left); split; [now apply F|now apply B]|rewrite firstn_length; cbn [length]; lia].
  assert (L2 : length (skipn 10 p) = 22%nat) by (rewrite skipn_length; lia). destruct (skipn 10 p) as [|c q]; [discriminate|]. cbn [app rrun].
  rewrite (ten_doomed X next HX); [reflexivity|]. rewrite firstn_length. lia.
Qed.

(** * A chain of SDNV fields *)
Section Chain.
Variables (Y : list N -> list N -> rst) (next : list N -> option (rst * list lcb)) (n : nat).
Hypothesis HY : forall vals p b, (length vals < n)%nat -> rstep (Y vals p) b = sd (Y vals) (fun v => next (vals ++ [v])) p b.
Hypothesis HN : forall vals, (0 < length vals < n)%nat -> next vals = None \/ exists o, next vals = Some (Y vals [], o).
Hypothesis HO : forall vals r o, (0 < length vals < n)%nat -> next vals = Some (r, o) -> segments o = [].
Fixpoint nexts (vals vs : list N) : list lcb * option rst :=
  match vs with
  | [] => ([], Some (Y vals []))
  | v :: t => match next (vals ++ [v]) with
              | None => ([], None)
              | Some (r, o) => match t with [] => (o, Some r) | _ => let (o2, x) := nexts (vals ++ [v]) t in (o ++ o2, x) end
              end
  end.
Lemma one vals v s : (length vals < n)%nat -> sdnv_for v s -> rrun (Y vals []) s = match next (vals ++ [v]) with None => ([], None) | Some (r, o) => (o, Some r) end.
Proof. intros L S0. apply (collect_ok (Y vals) (fun v => next (vals ++ [v]))); [intros; now apply HY|exact S0]. Qed.
Lemma chain_sdnvs vs : forall vals bs, (length vals + length vs <= n)%nat -> sdnvs vs bs -> rrun (Y vals []) bs = nexts vals vs.
Proof.
  induction vs as [|v vs IH]; intros vals bs L H; inversion H as [|? s ? t S1 S2]; subst; cbn [nexts rrun] in *; [reflexivity|]. cbn [length] in L.
  rewrite rrun_app, (one vals v s) by (try lia; assumption). destruct (next (vals ++ [v])) as [[r o]|] eqn:EN; [|reflexivity].
  destruct vs as [|w vs]; [inversion S2; subst; cbn [rrun]; now rewrite app_nil_r|].
  destruct (HN (vals ++ [v])) as [E|(o' & E)]; [rewrite app_length; cbn [length] in *; lia|congruence|]. rewrite EN in E. injection E as -> ->.
  rewrite (IH (vals ++ [v]) t); [reflexivity|rewrite app_length; cbn [length] in *; lia|exact S2].
Qed.
Lemma chain_bad m : forall vals bs, (length vals + m <= n)%nat -> Forall is_byte bs -> arr m bs = None -> dead (rrun (Y vals []) bs).
Proof.
  induction m as [|m IH]; intros vals bs L B E; cbn [arr] in E; [discriminate|].
  assert (HX : forall p b, rstep (Y vals p) b = sd (Y vals) (fun v => next (vals ++ [v])) p b) by (intros; apply HY; lia).
  destruct (closed 10 129 bs) as [v s] eqn:EC. destruct (N.eqb_spec s 0) as [->|NS].
  - destruct (N.eqb_spec v 0) as [->|]; [|discriminate]. exact (collect_bad (Y vals) _ HX bs B EC).
  - destruct (arr m (skipn (N.to_nat s) bs)) as [[vs' t']|] eqn:EA; [discriminate|].
    destruct (closed_for bs v s B EC NS) as (p & rest & -> & SF & ->). rewrite Nat2N.id, skipn_app, skipn_all, Nat.sub_diag in EA. cbn [app skipn] in EA.
    apply Forall_app in B. destruct B as [B1 B2]. assert (M : (0 < m)%nat) by (destruct m; [discriminate|lia]).
    rewrite rrun_app, (one vals v p) by (try lia; assumption). destruct (next (vals ++ [v])) as [[r o]|] eqn:EN; [|split; [reflexivity|exact I]].
    destruct (HN (vals ++ [v])) as [E1|(o' & E1)]; [rewrite app_length; cbn [length]; lia|congruence|]. rewrite EN in E1. injection E1 as -> ->.
    assert (D : dead (rrun (Y (vals ++ [v]) []) rest)) by (apply IH; [rewrite app_length; cbn; lia|exact B2|exact EA]).
    assert (O : segments o' = []) by (apply (HO (vals ++ [v]) _ _) in EN; [exact EN|rewrite app_length; cbn; lia]).
    destruct (rrun (Y (vals ++ [v]) []) rest) as [o2 x]. destruct D as [D1 D2]. split; cbn [fst snd] in *; [now rewrite segments_app, O, D1|exact D2].
Qed.
Lemma chain_away m bs : runs_away m bs -> forall vals, (length vals + m <= n)%nat -> Forall is_byte bs -> snd (rrun (Y vals []) bs) = None.
Proof.
  induction 1 as [m p rest L F|m p rest S1 S2 S3 R IH]; intros vals LN B.
  - apply (collect_away (Y vals) (fun v => next (vals ++ [v]))); try assumption; [intros; apply HY; lia|now apply Forall_app in B].
  - apply Forall_app in B. destruct B as [B1 B2]. rewrite rrun_app, (one vals (sdnv_value p) p); [|lia|repeat split; assumption].
    destruct (next (vals ++ [sdnv_value p])) as [[r o]|] eqn:EN; [|reflexivity]. assert (M : (0 < m)%nat) by (destruct R; lia).
    destruct (HN (vals ++ [sdnv_value p])) as [E1|(o' & E1)]; [rewrite app_length; cbn [length]; lia|congruence|]. rewrite EN in E1. injection E1 as -> ->.
    specialize (IH (vals ++ [sdnv_value p])). rewrite app_length in IH. cbn [length] in IH. specialize (IH ltac:(lia) B2).
    destruct (rrun (Y (vals ++ [sdnv_value p]) []) rest) as [o2 x]. exact IH.
Qed.
End Chain.
End Ref.
