(** Lemmas for C47: reading and writing of administrative records. *)
From Coq Require Import NArith ZArith List Bool Lia ZifyBool ZifyN.
From Verif Require Import Base M_SegmentAlloc M_Intrin M_Sdnv M_Cbor M_Bpv6Block M_Bpv7Crc M_Bpv7Block M_Bpv7Admin S_Sdnv S_Cbor S_Bpv7Crc S_Bpv7 S_Bpv7Admin L_Intrin L_Cbor P_Cbor L_Bpv7Crc P_Bpv7Crc L_Bpv6Read L_Bpv6Write L_Bpv7Read L_Bpv7Write L_Bpv7Canon.
Import ListNotations.
Open Scope N_scope.

Lemma break_reads c : reads (rd_break_if c) (fun _ p => p = if c then [255] else []).
Proof.
  destruct c; unfold rd_break_if.
  - split.
    + intros [] p rest -> _. reflexivity.
    + intros [|b r] _; cbn [rd_break]; [exists None; split; [reflexivity|discriminate]|]. destruct (N.eqb_spec b 255) as [->|]; [|exists None; split; [reflexivity|discriminate]].
      eexists. split; [reflexivity|]. intros x rest E. injection E as <- <-. exists [255]. auto.
  - refine (reads_iff _ _ _ _ (reads_ret tt)). intros [] p. intuition.
Qed.
Lemma item_head h : h < 256 -> (negb (N.shiftr h 5 =? 4) = false /\ negb (N.land h 31 =? 1) && negb (N.land h 31 =? 2) && negb (N.land h 31 =? 31) = false <-> h = 129 \/ h = 130 \/ h = 159).
Proof.
  intros H. pose proof (forall_below 256 (fun h => Bool.eqb ((N.shiftr h 5 =? 4) && negb (negb (N.land h 31 =? 1) && negb (N.land h 31 =? 2) && negb (N.land h 31 =? 31))) ((h =? 129) || (h =? 130) || (h =? 159))) ltac:(vm_compute; reflexivity) h H) as Q.
  cbv beta in Q. apply eqb_prop in Q. destruct (N.shiftr h 5 =? 4); destruct (negb (N.land h 31 =? 1) && negb (N.land h 31 =? 2) && negb (N.land h 31 =? 31)); cbn [negb andb] in *; intuition lia.
Qed.
Lemma report_head h : h < 256 -> (negb (N.shiftr h 5 =? 4) = false /\ negb (N.land h 31 =? 4) && negb (N.land h 31 =? 6) && negb (N.land h 31 =? 31) = false <-> h = 132 \/ h = 134 \/ h = 159).
Proof.
  intros H. pose proof (forall_below 256 (fun h => Bool.eqb ((N.shiftr h 5 =? 4) && negb (negb (N.land h 31 =? 4) && negb (N.land h 31 =? 6) && negb (N.land h 31 =? 31))) ((h =? 132) || (h =? 134) || (h =? 159))) ltac:(vm_compute; reflexivity) h H) as Q.
  cbv beta in Q. apply eqb_prop in Q. destruct (N.shiftr h 5 =? 4); destruct (negb (N.land h 31 =? 4) && negb (N.land h 31 =? 6) && negb (N.land h 31 =? 31)); cbn [negb andb] in *; intuition lia.
Qed.
(** ** Status items: first without the length test at the detection *)
Definition detect' (size : N) (r : list N) : option (option bool) :=
  if size =? 31 then match r with x :: _ => Some (Some (negb (x =? 0xff))) | [] => Some None end else Some (Some (size =? 2)).
Definition status' (det : option bool) (t0 : N) (bs : list N) : option (option (((bool * N) * option bool) * list N)) :=
  match bs with
  | h :: b :: r =>
    let size := N.land h 0x1f in
    if negb (N.shiftr h 5 =? 4) then Some None
    else if negb (size =? 1) && negb (size =? 2) && negb (size =? 31) then Some None
    else if b =? 0xf4 then
      try (_, r1) <- rd_break_if (size =? 31) r; Some (Some (((false, t0), det), r1))
    else if b =? 0xf5 then
      do dt <- (match det with Some t => Some (Some t) | None => detect' size r end);
      match dt with
      | None => Some None
      | Some timed =>
        if negb timed && (size =? 2) then Some None
        else if timed && (size =? 1) then Some None else
        try (t, r1) <- (if timed then rd_uint r else Some (Some (t0, r)));
        try (_, r2) <- rd_break_if (size =? 31) r1;
        Some (Some (((true, t), Some timed), r2))
      end
    else Some None
  | _ => Some None
  end.
Lemma uint_not_break v u r : cbor_uint v u -> exists x q, u ++ r = x :: q /\ (x =? 255) = false.
Proof. intros U. destruct (uint_head _ _ U) as (b & q & -> & L). exists b, (q ++ r). split; [reflexivity|]. lia. Qed.
Lemma status_ok det timed t0 i p rest : item_form timed t0 i p -> Forall is_byte (p ++ rest) -> det = None \/ det = Some timed ->
  status' det t0 (p ++ rest) = Some (Some ((i, if fst i then Some timed else det), rest)).
Proof.
  destruct i as [a t]. unfold item_form. cbn [fst snd]. intros F Hb D. destruct a.
  - destruct timed.
    + destruct F as (u & U & [-> | ->]).
      * cbn [app] in *. unfold status'. change (N.land 130 31) with 2. change (N.shiftr 130 5) with 4. change (2 =? 31) with false. cbn [N.eqb Pos.eqb negb andb].
        change (245 =? 244) with false. change (245 =? 245) with true. change (2 =? 1) with false. change (2 =? 2) with true. cbn [andb negb].
        pose proof (proj1 rd_uint_reads t u rest U (Forall_inv_tail (Forall_inv_tail Hb))) as R.
        destruct D as [-> | ->]; cbn [detect' negb andb]; change (2 =? 31) with false; cbn [negb andb]; change (2 =? 2) with true; cbn [negb andb]; rewrite R; reflexivity.
      * cbn [app] in *. rewrite <- app_assoc in *. unfold status'. change (N.land 159 31) with 31. change (N.shiftr 159 5) with 4.
        change (4 =? 4) with true. change (31 =? 31) with true. change (31 =? 1) with false. change (31 =? 2) with false. change (245 =? 244) with false. change (245 =? 245) with true. cbn [negb andb].
        pose proof (proj1 rd_uint_reads t u ([255] ++ rest) U (Forall_inv_tail (Forall_inv_tail Hb))) as R.
        destruct D as [-> | ->]; cbn [negb andb].
        -- unfold detect'. change (31 =? 31) with true. cbn match. destruct (uint_not_break t u ([255] ++ rest) U) as (x & q & E & NB). rewrite E in *. rewrite NB. cbn [negb andb]. rewrite R. reflexivity.
        -- rewrite R. reflexivity.
    + destruct F as (-> & [-> | ->]); cbn [app]; unfold status'.
      * change (N.land 129 31) with 1. change (N.shiftr 129 5) with 4. destruct D as [-> | ->]; reflexivity.
      * change (N.land 159 31) with 31. change (N.shiftr 159 5) with 4. destruct D as [-> | ->]; reflexivity.
  - destruct F as (-> & [-> | [-> | ->]]); cbn [app]; unfold status'.
    + change (N.land 129 31) with 1. change (N.shiftr 129 5) with 4. reflexivity.
    + change (N.land 130 31) with 2. change (N.shiftr 130 5) with 4. reflexivity.
    + change (N.land 159 31) with 31. change (N.shiftr 159 5) with 4. reflexivity.
Qed.
Ltac nope := exists None; split; [reflexivity|discriminate].
Lemma status_inv det t0 bs : Forall is_byte bs -> exists x, status' det t0 bs = Some x /\
  forall i det' rest, x = Some ((i, det'), rest) -> exists p timed, bs = p ++ rest /\ item_form timed t0 i p /\ det' = (if fst i then Some timed else det) /\
    (fst i = true -> det = None \/ det = Some timed).
Proof.
  intros Hb. destruct bs as [|h [|b r]]; try nope. pose proof (item_head h (Forall_inv Hb)) as HH. pose proof (Forall_inv_tail (Forall_inv_tail Hb)) as Hr. unfold status'.
  destruct (negb (N.shiftr h 5 =? 4)) eqn:E1; [nope|]. destruct (negb (N.land h 31 =? 1) && negb (N.land h 31 =? 2) && negb (N.land h 31 =? 31)) eqn:E2; [nope|].
  destruct (proj1 HH (conj eq_refl eq_refl)) as [-> | [-> | ->]]; clear HH E1 E2.
  - change (N.land 129 31) with 1. change (1 =? 31) with false. change (1 =? 2) with false. change (1 =? 1) with true. destruct (N.eqb_spec b 244) as [->|N1].
    + cbn [rd_break_if bind2]. eexists. split; [reflexivity|]. intros i det' rest E. injection E as <- <- <-. exists [129; 244], false. cbn [fst]. split; [reflexivity|]. split; [unfold item_form; cbn [fst snd]; auto|]. split; [reflexivity|discriminate].
    + destruct (N.eqb_spec b 245) as [->|N2]; [|nope].
      assert (DD : exists dt, match det with Some t => Some (Some t) | None => detect' 1 r end = Some (Some dt) /\ (det = None \/ det = Some dt)).
      { destruct det as [dt|]; [exists dt; auto|exists false; split; [reflexivity|auto]]. }
      destruct DD as (dt & -> & D). rewrite andb_false_r. destruct dt; cbn [andb]; [nope|]. cbn [rd_break_if bind2]. eexists. split; [reflexivity|].
      intros i det' rest E. injection E as <- <- <-. exists [129; 245], false. cbn [fst]. split; [reflexivity|]. split; [unfold item_form; cbn [fst snd]; auto|]. auto.
  - change (N.land 130 31) with 2. change (2 =? 31) with false. change (2 =? 2) with true. change (2 =? 1) with false. destruct (N.eqb_spec b 244) as [->|N1].
    + cbn [rd_break_if bind2]. eexists. split; [reflexivity|]. intros i det' rest E. injection E as <- <- <-. exists [130; 244], false. cbn [fst]. split; [reflexivity|]. split; [unfold item_form; cbn [fst snd]; auto|]. split; [reflexivity|discriminate].
    + destruct (N.eqb_spec b 245) as [->|N2]; [|nope].
      assert (DD : exists dt, match det with Some t => Some (Some t) | None => detect' 2 r end = Some (Some dt) /\ (det = None \/ det = Some dt)).
      { destruct det as [dt|]; [exists dt; auto|exists true; split; [reflexivity|auto]]. }
      destruct DD as (dt & -> & D). rewrite andb_true_r, andb_false_r. destruct dt; cbn [negb]; [|nope].
      destruct (proj2 rd_uint_reads r Hr) as (x & -> & K). destruct x as [[t r1]|]; cbn [bind2]; [|nope]. destruct (K t r1 eq_refl) as (u & -> & U).
      cbn [rd_break_if bind2]. eexists. split; [reflexivity|]. intros i det' rest E. injection E as <- <- <-. exists ([130; 245] ++ u), true. cbn [fst]. split; [reflexivity|]. split; [unfold item_form; cbn [fst snd]; eauto|]. auto.
  - change (N.land 159 31) with 31. change (31 =? 31) with true. change (31 =? 2) with false. change (31 =? 1) with false. destruct (N.eqb_spec b 244) as [->|N1].
    + destruct (proj2 (break_reads true) r Hr) as (x & -> & K). destruct x as [[[] r1]|]; cbn [bind2]; [|nope]. destruct (K tt r1 eq_refl) as (q & -> & ->).
      eexists. split; [reflexivity|]. intros i det' rest E. injection E as <- <- <-. exists [159; 244; 255], false. cbn [fst]. split; [reflexivity|]. split; [unfold item_form; cbn [fst snd]; auto|]. split; [reflexivity|discriminate].
    + destruct (N.eqb_spec b 245) as [->|N2]; [|nope].
      assert (DD : match det with Some t => Some (Some t) | None => detect' 31 r end = Some None \/ exists dt, match det with Some t => Some (Some t) | None => detect' 31 r end = Some (Some dt) /\ (det = None \/ det = Some dt)).
      { destruct det as [dt|]; [right; exists dt; auto|]. unfold detect'. change (31 =? 31) with true. destruct r as [|x r]; [now left|right]. eexists. split; [reflexivity|auto]. }
      destruct DD as [-> |(dt & -> & D)]; [nope|]. rewrite !andb_false_r. destruct dt.
      * destruct (proj2 rd_uint_reads r Hr) as (x & -> & K). destruct x as [[t r1]|]; cbn [bind2]; [|nope]. destruct (K t r1 eq_refl) as (u & -> & U).
        destruct (proj2 (break_reads true) r1) as (x & -> & K2); [apply (octets_app _ _ Hr)|]. destruct x as [[[] r2]|]; cbn [bind2]; [|nope]. destruct (K2 tt r2 eq_refl) as (q & -> & ->).
        eexists. split; [reflexivity|]. intros i det' rest E. injection E as <- <- <-. exists ([159; 245] ++ u ++ [255]), true. cbn [fst]. split; [cbn [app]; now rewrite <- app_assoc|]. split; [unfold item_form; cbn [fst snd]; eauto|]. auto.
      * cbn [bind2]. destruct (proj2 (break_reads true) r Hr) as (x & -> & K2). destruct x as [[[] r2]|]; cbn [bind2]; [|nope]. destruct (K2 tt r2 eq_refl) as (q & -> & ->).
        eexists. split; [reflexivity|]. intros i det' rest E. injection E as <- <- <-. exists [159; 245; 255], false. cbn [fst]. split; [reflexivity|]. split; [unfold item_form; cbn [fst snd]; auto|]. auto.
Qed.
(** The length test changes the result only where it is certain to fail anyway. *)
Lemma status_short det t0 bs : Forall is_byte bs -> status_read det t0 bs = status' det t0 bs \/
  (status_read det t0 bs = Some None /\ (status' det t0 bs = Some None \/ exists x r, status' det t0 bs = Some (Some (x, r)) /\ (length r <= 1)%nat)).
Proof.
  intros Hb. destruct det as [t|]; [now left|]. destruct bs as [|h [|b r]]; [now left..|]. destruct (Nat.ltb_spec (length r) 2) as [L|L].
  - destruct (status_inv None t0 (h :: b :: r) Hb) as (x & E & K). unfold status_read. unfold status' in *.
    destruct (negb (N.shiftr h 5 =? 4)); [now left|]. destruct (negb (N.land h 31 =? 1) && negb (N.land h 31 =? 2) && negb (N.land h 31 =? 31)); [now left|].
    destruct (b =? 244); [now left|]. destruct (N.eqb_spec b 245) as [->|]; [|now left]. right. unfold detect_timed. destruct (Nat.ltb_spec (length r) 2); [|lia].
    split; [reflexivity|]. rewrite E. destruct x as [[[i det'] rest]|]; [right|now left]. eexists _, _. split; [reflexivity|].
    destruct (K i det' rest eq_refl) as (p & timed & E2 & F & _ & _). assert (2 <= length p)%nat.
    { unfold item_form in F. destruct (fst i); [destruct timed; [destruct F as (u & _ & [-> | ->])|destruct F as (_ & [-> | ->])]|destruct F as (_ & [-> | [-> | ->]])]; cbn; lia. }
    apply (f_equal (@length N)) in E2. rewrite app_length in E2. cbn [length] in E2. lia.
  - left. unfold status_read, status'. destruct (negb (N.shiftr h 5 =? 4)); [reflexivity|]. destruct (negb (N.land h 31 =? 1) && negb (N.land h 31 =? 2) && negb (N.land h 31 =? 31)); [reflexivity|].
    destruct (b =? 244); [reflexivity|]. destruct (b =? 245); [|reflexivity].
    assert (DE : detect_timed (N.land h 31) r = detect' (N.land h 31) r).
    { unfold detect_timed, detect'. destruct (Nat.ltb_spec (length r) 2); [lia|]. destruct r as [|y r]; [cbn [length] in L; lia|]. reflexivity. }
    rewrite DE. reflexivity.
Qed.
(** ** The fields after the items *)
Definition tail_form (old : bsr7) (asize : N) (info : (bool * N) * (bool * N) * (bool * N) * (bool * N)) (timed : bool) (b : bsr7) (p : list N) : Prop :=
  exists rs src st fr brk, p = rs ++ src ++ st ++ fr ++ brk /\ cbor_uint (b_reason b) rs /\ eid7_form (b_source b) src /\ two_form (b_stamp b) st /\
    (if b_isfrag b then cbor_items [b_off b; b_flen b] fr else fr = [] /\ (b_off b, b_flen b) = (b_off old, b_flen old)) /\
    ((asize = (if b_isfrag b then 6 else 4) /\ brk = []) \/ (asize = 31 /\ brk = [255])) /\ b_info b = info /\ b_timed b = timed.
Definition frag_part (old : N * N) (asize : N) (r3 : list N) : option (option ((bool * (N * N)) * list N)) :=
  do isfrag <- (if asize =? 4 then Some (Some false)
                else if asize =? 6 then Some (Some true)
                else match r3 with [] => Some None | x :: _ => Some (Some (negb (x =? 0xff))) end);
  match isfrag with
  | None => Some None
  | Some fr =>
    try (f, r4) <- (if fr then try (o, q) <- rd_uint r3; try (l, q') <- rd_uint q; Some (Some ((o, l), q')) else Some (Some (old, r3)));
    try (_, r5) <- rd_break_if (asize =? 31) r4;
    Some (Some ((fr, f), r5))
  end.
Definition frag_form (old : N * N) (asize : N) (x : bool * (N * N)) (p : list N) : Prop :=
  exists fr brk, p = fr ++ brk /\ (if fst x then cbor_items [fst (snd x); snd (snd x)] fr else fr = [] /\ snd x = old) /\
    ((asize = (if fst x then 6 else 4) /\ brk = []) \/ (asize = 31 /\ brk = [255])).
Lemma two_uints_reads : reads (fun r3 => try (o, q) <- rd_uint r3; try (l, q') <- rd_uint q; Some (Some ((o, l), q'))) (fun t fr => cbor_items [fst t; snd t] fr).
Proof.
  refine (reads_iff _ _ _ _ (reads_bind _ _ _ _ rd_uint_reads (fun s => reads_bind _ _ _ _ rd_uint_reads (fun q => reads_ret (s, q))))).
  intros [s q] p. cbn [fst snd]. rewrite items_two. split.
  - intros (x & p1 & p2 & -> & H1 & y & p3 & p4 & -> & H2 & -> & E). injection E as -> ->. exists p1, p3. rewrite app_nil_r. auto.
  - intros (a & b & -> & H1 & H2). exists s, a, b. split; [reflexivity|]. split; [exact H1|]. exists q, b, []. rewrite app_nil_r. auto.
Qed.
Lemma frag_inner_reads old (fr : bool) c : reads (fun r3 => try (f, r4) <- (if fr then try (o, q) <- rd_uint r3; try (l, q') <- rd_uint q; Some (Some ((o, l), q')) else Some (Some (old, r3)));
    try (_, r5) <- rd_break_if c r4; Some (Some ((fr, f), r5)))
  (fun x p => fst x = fr /\ exists f brk, p = f ++ brk /\ (if fr then cbor_items [fst (snd x); snd (snd x)] f else f = [] /\ snd x = old) /\ brk = if c then [255] else []).
Proof.
  assert (R : reads (fun r3 => if fr then try (o, q) <- rd_uint r3; try (l, q') <- rd_uint q; Some (Some ((o, l), q')) else Some (Some (old, r3)))
     (fun t f => if fr then cbor_items [fst t; snd t] f else f = [] /\ t = old)). { destruct fr; [exact two_uints_reads|exact (reads_ret old)]. }
  refine (reads_iff _ _ _ _ (reads_bind _ _ _ _ R (fun f => reads_bind _ _ _ _ (break_reads c) (fun _ => reads_ret (fr, f))))). intros [x f] p. cbn [fst snd]. split.
  - intros (y & p1 & p2 & -> & H1 & u & p3 & p4 & -> & -> & -> & E). injection E as -> ->. split; [reflexivity|]. exists p1. eexists. rewrite app_nil_r. auto.
  - intros (-> & f1 & brk & -> & H1 & ->). exists f, f1. eexists. split; [reflexivity|]. split; [exact H1|]. exists tt. eexists _, []. rewrite app_nil_r. auto.
Qed.
Lemma frag_part_reads old asize : asize = 4 \/ asize = 6 \/ asize = 31 -> reads (frag_part old asize) (frag_form old asize).
Proof.
  intros A. destruct A as [-> | [-> | ->]].
  - refine (reads_iff _ _ _ _ (frag_inner_reads old false false)). intros [x f] p. unfold frag_form. cbn [fst snd]. split.
    + intros (-> & f1 & brk & -> & H1 & ->). exists f1, []. auto.
    + intros (f1 & brk & -> & H1 & [(E & ->)|(E & _)]); [|discriminate]. destruct x; [discriminate|]. split; [reflexivity|]. exists f1, []. auto.
  - refine (reads_iff _ _ _ _ (frag_inner_reads old true false)). intros [x f] p. unfold frag_form. cbn [fst snd]. split.
    + intros (-> & f1 & brk & -> & H1 & ->). exists f1, []. auto.
    + intros (f1 & brk & -> & H1 & [(E & ->)|(E & _)]); [|discriminate]. destruct x; [|discriminate]. split; [reflexivity|]. exists f1, []. auto.
  - split.
    + intros [x f] p rest (f1 & brk & -> & H1 & [(E & _)|(_ & ->)]) Hb; [destruct x; discriminate|]. cbn [fst snd] in H1. unfold frag_part. change (31 =? 4) with false. change (31 =? 6) with false. cbn match.
      destruct x.
      * assert (NB : exists y q, (f1 ++ [255]) ++ rest = y :: q /\ (y =? 255) = false). { apply items_two in H1. destruct H1 as (p1 & p2 & -> & U & _). rewrite <- !app_assoc. exact (uint_not_break _ _ _ U). }
        destruct NB as (y & q & E & NB). rewrite E, NB. cbn [negb]. rewrite <- E. apply (proj1 (frag_inner_reads old true true)); [|exact Hb]. cbn [fst snd]. split; [reflexivity|]. exists f1, [255]. auto.
      * destruct H1 as (-> & ->). reflexivity.
    + intros bs Hb. unfold frag_part. change (31 =? 4) with false. change (31 =? 6) with false. change (31 =? 31) with true. cbn match. destruct bs as [|y q]; [nope|].
      destruct (proj2 (frag_inner_reads old (negb (y =? 255)) true) (y :: q) Hb) as (r & E & K). rewrite E. exists r. split; [reflexivity|]. intros [x f] rest ER. destruct (K _ _ ER) as (p & -> & EX & f1 & brk & -> & H1 & ->).
      exists (f1 ++ [255]). split; [reflexivity|]. exists f1, [255]. cbn [fst snd] in *. subst x. split; [reflexivity|]. split; [exact H1|]. auto.
Qed.
Lemma report_tail_reads old asize info timed : asize = 4 \/ asize = 6 \/ asize = 31 -> reads (report_tail old asize info timed) (tail_form old asize info timed).
Proof.
  intros A.
  assert (U : forall bs, report_tail old asize info timed bs = bind2 (rd_uint bs) (fun '(reason, r1) => bind2 (eid7_read r1) (fun '(src, r2) => bind2 (rd_two r2) (fun '(stamp, r3) =>
    bind2 (frag_part (b_off old, b_flen old) asize r3) (fun '(x, r5) => Some (Some (mkBsr7 info reason src stamp (fst (snd x)) (snd (snd x)) (fst x) timed, r5))))))).
  { intros bs. unfold report_tail, bind2. destruct (rd_uint bs) as [[[reason r1]|]|]; try reflexivity. destruct (eid7_read r1) as [[[src r2]|]|]; try reflexivity. destruct (rd_two r2) as [[[stamp r3]|]|]; try reflexivity.
    unfold frag_part, bind2. destruct (if asize =? 4 then _ else _) as [[fr|]|]; try reflexivity. destruct (if fr then _ else _) as [[[f r4]|]|]; try reflexivity. destruct (rd_break_if (asize =? 31) r4) as [[[t r5]|]|]; reflexivity. }
  assert (R : reads (fun bs => bind2 (rd_uint bs) (fun '(reason, r1) => bind2 (eid7_read r1) (fun '(src, r2) => bind2 (rd_two r2) (fun '(stamp, r3) =>
    bind2 (frag_part (b_off old, b_flen old) asize r3) (fun '(x, r5) => Some (Some (mkBsr7 info reason src stamp (fst (snd x)) (snd (snd x)) (fst x) timed, r5))))))) (tail_form old asize info timed)).
  { refine (reads_iff _ _ _ _ (reads_bind _ _ _ _ rd_uint_reads (fun rs => reads_bind _ _ _ _ eid7_reads (fun s => reads_bind _ _ _ _ rd_two_reads (fun t =>
      reads_bind _ _ _ _ (frag_part_reads (b_off old, b_flen old) asize A) (fun x => reads_ret (mkBsr7 info rs s t (fst (snd x)) (snd (snd x)) (fst x) timed))))))).
    intros b bs. split.
    - intros (v & q1 & x1 & -> & H1 & s & q2 & x2 & -> & H2 & t & q3 & x3 & -> & H3 & x & q4 & x4 & -> & (fr & brk & -> & H4 & H5) & -> & ->). unfold tail_form. cbn [b_reason b_source b_stamp b_off b_flen b_isfrag b_info b_timed].
      exists q1, q2, q3, fr, brk. rewrite app_nil_r. destruct x as [x [o l]]. cbn [fst snd] in *. auto 10.
    - intros (rs & src & st & fr & brk & -> & H1 & H2 & H3 & H4 & H5 & E6 & E7). exists (b_reason b), rs, (src ++ st ++ fr ++ brk). split; [reflexivity|]. split; [exact H1|].
      exists (b_source b), src, (st ++ fr ++ brk). split; [reflexivity|]. split; [exact H2|]. exists (b_stamp b), st, (fr ++ brk). split; [reflexivity|]. split; [exact H3|].
      exists (b_isfrag b, (b_off b, b_flen b)), (fr ++ brk), []. rewrite app_nil_r. split; [reflexivity|]. split; [exists fr, brk; auto|]. split; [reflexivity|]. cbn [fst snd]. rewrite <- E6, <- E7. destruct b; reflexivity. }
  split.
  - intros x p rest F Hb. rewrite U. now apply (proj1 R).
  - intros bs Hb. rewrite U. now apply (proj2 R).
Qed.
Lemma tail_short old asize info timed bs : Forall is_byte bs -> (length bs <= 1)%nat -> report_tail old asize info timed bs = Some None.
Proof.
  intros Hb L. unfold report_tail. destruct (proj2 rd_uint_reads bs Hb) as (x & -> & K). destruct x as [[v r]|]; [|reflexivity]. cbn [bind2]. destruct (K v r eq_refl) as (p & -> & U).
  pose proof (uint_bound _ _ U) as (_ & _ & _ & LP). rewrite app_length in L. destruct r; [reflexivity|cbn [length] in L; lia].
Qed.
(** ** The four items *)
Definition items' (old : bsr7) (asize : N) (bs : list N) : option (option (bsr7 * list N)) :=
  match b_info old with (i1, i2, i3, i4) =>
  try (x1, r1) <- status' None (snd i1) bs;
  try (x2, r2) <- status' (snd x1) (snd i2) r1;
  try (x3, r3) <- status' (snd x2) (snd i3) r2;
  try (x4, r4) <- status' (snd x3) (snd i4) r3;
  match snd x4 with
  | None => Some None
  | Some timed => report_tail old asize (fst x1, fst x2, fst x3, fst x4) timed r4
  end end.
Lemma status_rest det t0 bs x r : Forall is_byte bs -> status' det t0 bs = Some (Some (x, r)) -> Forall is_byte r.
Proof.
  intros Hb E. destruct (status_inv det t0 bs Hb) as (y & E2 & K). rewrite E in E2. injection E2 as <-. destruct x as [i d]. destruct (K i d r eq_refl) as (p & timed & -> & _). apply (octets_app _ _ Hb).
Qed.
Lemma short_status det t0 r : (length r <= 1)%nat -> status' det t0 r = Some None.
Proof. destruct r as [|a [|b r]]; cbn [length]; intros L; [reflexivity|reflexivity|lia]. Qed.
Lemma items_same old asize bs : Forall is_byte bs -> report_items old asize bs = items' old asize bs.
Proof.
  intros Hb. unfold report_items, items'. destruct (b_info old) as [[[i1 i2] i3] i4].
  assert (T : forall det t0 b, Forall is_byte b -> exists y, status' det t0 b = Some y) by (intros det t0 b H; destruct (status_inv det t0 b H) as (y & E & _); eauto).
  destruct (status_short None (snd i1) bs Hb) as [-> |(-> & [-> |(x & r & -> & L)])]; [|reflexivity|cbn [bind2]; now rewrite short_status].
  destruct (T None (snd i1) bs Hb) as (y & E1). rewrite E1. destruct y as [[x1 r1]|]; [|reflexivity]. cbn [bind2]. pose proof (status_rest _ _ _ _ _ Hb E1) as H1.
  destruct (status_short (snd x1) (snd i2) r1 H1) as [-> |(-> & [-> |(x & r & -> & L)])]; [|reflexivity|cbn [bind2]; now rewrite short_status].
  destruct (T (snd x1) (snd i2) r1 H1) as (y & E2). rewrite E2. destruct y as [[x2 r2]|]; [|reflexivity]. cbn [bind2]. pose proof (status_rest _ _ _ _ _ H1 E2) as H2.
  destruct (status_short (snd x2) (snd i3) r2 H2) as [-> |(-> & [-> |(x & r & -> & L)])]; [|reflexivity|cbn [bind2]; now rewrite short_status].
  destruct (T (snd x2) (snd i3) r2 H2) as (y & E3). rewrite E3. destruct y as [[x3 r3]|]; [|reflexivity]. cbn [bind2]. pose proof (status_rest _ _ _ _ _ H2 E3) as H3.
  destruct (status_short (snd x3) (snd i4) r3 H3) as [-> |(-> & [-> |(x & r & E & L)])]; [reflexivity|reflexivity|]. rewrite E. cbn [bind2]. destruct (snd x); [|reflexivity].
  symmetry. apply tail_short; [exact (status_rest _ _ _ _ _ H3 E)|exact L].
Qed.
Lemma item_indep t1 t2 t0 i p : fst i = false -> item_form t1 t0 i p -> item_form t2 t0 i p.
Proof. intros E. unfold item_form. rewrite E. auto. Qed.
Lemma report_reads old : reads (report_read old) (report_form old).
Proof.
  split.
  - intros b p rest F Hb. unfold report_form in F. destruct (b_info old) as [[[o1 o2] o3] o4] eqn:EO. destruct (b_info b) as [[[i1 i2] i3] i4] eqn:EB.
    destruct F as (h & i & p1 & p2 & p3 & p4 & rs & src & st & fr & brk & -> & HI & F1 & F2 & F3 & F4 & AS & R1 & R2 & R3 & R4 & R5).
    unfold asserted in AS. rewrite EB in AS. rewrite <- !app_assoc in *. cbn [app] in *.
    assert (HH : h = 132 \/ h = 134 \/ h = 159) by (destruct R5 as [(-> & _)|(-> & _)]; [destruct (b_isfrag b)|]; auto).
    unfold report_read. pose proof (Forall_inv Hb) as Hh. destruct (proj2 (report_head h Hh) HH) as (-> & ->).
    replace (negb (i =? 132) && negb (i =? 159)) with false by (destruct HI as [-> | ->]; reflexivity).
    pose proof (Forall_inv_tail (Forall_inv_tail Hb)) as Hr. rewrite items_same by exact Hr. unfold items'. rewrite EO.
    rewrite (status_ok None (b_timed b) (snd o1) i1 p1 _ F1 Hr) by auto. cbn [bind2 fst snd]. apply octets_app in Hr. destruct Hr as (_ & Hr).
    rewrite (status_ok _ (b_timed b) (snd o2) i2 p2 _ F2 Hr) by (destruct (fst i1); auto). cbn [bind2 fst snd]. apply octets_app in Hr. destruct Hr as (_ & Hr).
    rewrite (status_ok _ (b_timed b) (snd o3) i3 p3 _ F3 Hr) by (destruct (fst i1); destruct (fst i2); auto). cbn [bind2 fst snd]. apply octets_app in Hr. destruct Hr as (_ & Hr).
    rewrite (status_ok _ (b_timed b) (snd o4) i4 p4 _ F4 Hr) by (destruct (fst i1); destruct (fst i2); destruct (fst i3); auto). cbn [bind2 fst snd]. apply octets_app in Hr. destruct Hr as (_ & Hr).
    replace (if fst i4 then Some (b_timed b) else _) with (Some (b_timed b)) by (destruct (fst i1); destruct (fst i2); destruct (fst i3); destruct (fst i4); try reflexivity; discriminate).
    replace (rs ++ src ++ st ++ fr ++ brk ++ rest) with ((rs ++ src ++ st ++ fr ++ brk) ++ rest) in * by (now rewrite <- !app_assoc).
    apply (proj1 (report_tail_reads old (N.land h 31) (i1, i2, i3, i4) (b_timed b) ltac:(destruct HH as [-> | [-> | ->]]; auto))); [|exact Hr].
    exists rs, src, st, fr, brk. split; [reflexivity|]. repeat (split; [assumption|]). split; [|auto].
    destruct R5 as [(-> & ->)|(-> & ->)]; [left; destruct (b_isfrag b); auto|right; auto].
  - intros bs Hb. destruct bs as [|h [|i r]]; try nope. unfold report_read. pose proof (report_head h (Forall_inv Hb)) as HH.
    destruct (negb (N.shiftr h 5 =? 4)); [nope|]. destruct (negb (N.land h 31 =? 4) && negb (N.land h 31 =? 6) && negb (N.land h 31 =? 31)); [nope|]. pose proof (proj1 HH (conj eq_refl eq_refl)) as H3. clear HH.
    destruct (negb (i =? 132) && negb (i =? 159)) eqn:EI; [nope|]. pose proof (Forall_inv_tail (Forall_inv_tail Hb)) as Hr. rewrite items_same by exact Hr. unfold items'.
    destruct (b_info old) as [[[o1 o2] o3] o4] eqn:EO.
    destruct (status_inv None (snd o1) r Hr) as (x & -> & K). destruct x as [[[i1 d1] r1]|]; cbn [bind2 fst snd]; [|nope]. destruct (K _ _ _ eq_refl) as (p1 & t1 & -> & F1 & D1 & C1). clear K. apply octets_app in Hr. destruct Hr as (_ & Hr).
    destruct (status_inv d1 (snd o2) r1 Hr) as (x & -> & K). destruct x as [[[i2 d2] r2]|]; cbn [bind2 fst snd]; [|nope]. destruct (K _ _ _ eq_refl) as (p2 & t2 & -> & F2 & D2 & C2). clear K. apply octets_app in Hr. destruct Hr as (_ & Hr).
    destruct (status_inv d2 (snd o3) r2 Hr) as (x & -> & K). destruct x as [[[i3 d3] r3]|]; cbn [bind2 fst snd]; [|nope]. destruct (K _ _ _ eq_refl) as (p3 & t3 & -> & F3 & D3 & C3). clear K. apply octets_app in Hr. destruct Hr as (_ & Hr).
    destruct (status_inv d3 (snd o4) r3 Hr) as (x & -> & K). destruct x as [[[i4 d4] r4]|]; cbn [bind2 fst snd]; [|nope]. destruct (K _ _ _ eq_refl) as (p4 & t4 & -> & F4 & D4 & C4). clear K. apply octets_app in Hr. destruct Hr as (_ & Hr).
    destruct d4 as [timed|]; [|nope].
    destruct (proj2 (report_tail_reads old (N.land h 31) (i1, i2, i3, i4) timed ltac:(destruct H3 as [-> | [-> | ->]]; auto)) r4 Hr) as (x & -> & K). exists x. split; [reflexivity|].
    intros b rest ->. destruct (K b rest eq_refl) as (q & -> & (rs & src & st & fr & brk & -> & R1 & R2 & R3 & R4 & R5 & E6 & E7)). clear K.
    exists ([h; i] ++ p1 ++ p2 ++ p3 ++ p4 ++ rs ++ src ++ st ++ fr ++ brk). split; [cbn [app]; now rewrite <- !app_assoc|]. unfold report_form, asserted. rewrite EO, E6.
    assert (TT : (fst i1 = true -> t1 = timed) /\ (fst i2 = true -> t2 = timed) /\ (fst i3 = true -> t3 = timed) /\ (fst i4 = true -> t4 = timed) /\ fst i1 || fst i2 || fst i3 || fst i4 = true).
    { clear - D1 D2 D3 D4 C1 C2 C3 C4. destruct (fst i1), (fst i2), (fst i3), (fst i4); subst; try discriminate; cbn [orb];
        repeat match goal with H : true = true -> _ |- _ => specialize (H eq_refl) | H : _ \/ _ |- _ => destruct H end; try discriminate;
        repeat match goal with H : Some _ = Some _ |- _ => injection H as H end; subst; intuition congruence. }
    destruct TT as (T1 & T2 & T3 & T4 & AS).
    assert (IT : forall t t0 it p, (fst it = true -> t = timed) -> item_form t t0 it p -> item_form (b_timed b) t0 it p).
    { intros t t0 it p HT F. rewrite E7. destruct (fst it) eqn:EF; [now rewrite <- (HT eq_refl)|now apply (item_indep t)]. }
    exists h, i, p1, p2, p3, p4, rs, src, st, fr, brk. split; [reflexivity|]. split; [lia|]. split; [now apply (IT t1)|]. split; [now apply (IT t2)|]. split; [now apply (IT t3)|]. split; [now apply (IT t4)|]. split; [exact AS|].
    repeat (split; [assumption|]). destruct R5 as [(E & ->)|(E & ->)].
    + left. split; [|reflexivity]. destruct H3 as [-> | [-> | ->]]; destruct (b_isfrag b); try reflexivity; discriminate.
    + right. split; [|reflexivity]. destruct H3 as [-> | [-> | ->]]; try discriminate. reflexivity.
Qed.
(** ** BIBE *)
Lemma bibe_data_reads : reads bibe_data tagged.
Proof.
  split.
  - intros d p rest T Hb. pose proof (tagged_len _ _ T) as L. unfold bibe_data. rewrite <- (canon7_data_ok d p rest T Hb). destruct p; [cbn [length] in L; lia|]. reflexivity.
  - intros bs Hb. destruct bs as [|x r]; [nope|]. apply canon7_data_inv; [discriminate|exact Hb].
Qed.
Lemma bibe_reads : reads bibe_read bibe_form.
Proof.
  assert (R : forall c, reads (fun r => try (id, r1) <- rd_uint r; try (t, r2) <- rd_uint r1; try (d, r3) <- bibe_data r2; try (_, r4) <- rd_break_if c r3; Some (Some (mkBibe7 id t d, r4)))
    (fun e p => exists i t tag ds brk, p = i ++ t ++ tag ++ ds ++ brk /\ cbor_uint (e_id e) i /\ cbor_uint (e_time e) t /\ (tag = [] \/ tag = [216]) /\ byte_string (e_bundle e) ds /\ brk = if c then [255] else [])).
  { intros c. refine (reads_iff _ _ _ _ (reads_bind _ _ _ _ rd_uint_reads (fun id => reads_bind _ _ _ _ rd_uint_reads (fun t => reads_bind _ _ _ _ bibe_data_reads (fun d => reads_bind _ _ _ _ (break_reads c) (fun _ => reads_ret (mkBibe7 id t d))))))).
    intros e p. split.
    - intros (id & q1 & x1 & -> & H1 & t & q2 & x2 & -> & H2 & d & q3 & x3 & -> & (tag & ds & -> & H3 & H4) & u & q4 & x4 & -> & -> & -> & ->). cbn [e_id e_time e_bundle].
      exists q1, q2, tag, ds. eexists. split; [rewrite app_nil_r, <- !app_assoc; reflexivity|]. auto 6.
    - intros (i & t & tag & ds & brk & -> & H1 & H2 & H3 & H4 & ->). exists (e_id e), i. eexists. split; [reflexivity|]. split; [exact H1|].
      exists (e_time e), t. eexists. split; [reflexivity|]. split; [exact H2|]. exists (e_bundle e), (tag ++ ds). eexists. split; [apply app_assoc|]. split; [exists tag, ds; auto|].
      exists tt. eexists _, []. split; [symmetry; apply app_nil_r|]. split; [reflexivity|]. split; [reflexivity|]. destruct e; reflexivity. }
  split.
  - intros e p rest (h & i & t & tag & ds & brk & -> & H1 & H2 & H3 & H4 & H5) Hb. cbn [app] in *. unfold bibe_read.
    replace (negb (h =? 131) && negb (h =? 159)) with false by (destruct H5 as [(-> & _)|(-> & _)]; reflexivity).
    apply (proj1 (R (h =? 159)) e); [|exact (Forall_inv_tail Hb)]. exists i, t, tag, ds, brk. repeat (split; [assumption || reflexivity|]). destruct H5 as [(-> & ->)|(-> & ->)]; reflexivity.
  - intros bs Hb. destruct bs as [|h r]; [nope|]. unfold bibe_read. destruct (negb (h =? 131) && negb (h =? 159)) eqn:EH; [nope|].
    destruct (proj2 (R (h =? 159)) r (Forall_inv_tail Hb)) as (x & -> & K). exists x. split; [reflexivity|]. intros e rest ->. destruct (K e rest eq_refl) as (p & -> & (i & t & tag & ds & brk & -> & H1 & H2 & H3 & H4 & ->)).
    eexists (h :: _). split; [reflexivity|]. exists h, i, t, tag, ds. eexists. split; [reflexivity|]. repeat (split; [assumption|]). destruct (N.eqb_spec h 159) as [->|]; [right; auto|left; split; [lia|reflexivity]].
Qed.
(** ** Writing *)
Definition citem (timed : bool) (i : bool * N) : list N := if fst i then if timed then [130; 245] ++ cenc (snd i) else [129; 245] else [129; 244].
Definition creport (b : bsr7) : list N :=
  match b_info b with (i1, i2, i3, i4) =>
  [if b_isfrag b then 134 else 132; 132] ++ citem (b_timed b) i1 ++ citem (b_timed b) i2 ++ citem (b_timed b) i3 ++ citem (b_timed b) i4 ++
    cenc (b_reason b) ++ ceid (b_source b) ++ ctwo (b_stamp b) ++ (if b_isfrag b then cenc (b_off b) ++ cenc (b_flen b) else []) end.
Definition cbibe (e : bibe7) : list N := [131] ++ cenc (e_id e) ++ cenc (e_time e) ++ chdr (N.of_nat (length (e_bundle e))) ++ e_bundle e.
Definition cadmin (a : admin7) : list N :=
  [130] ++ cenc (admin7_type a) ++ match a with AdmReport b => creport b | AdmBibe e => cbibe e | AdmOther _ => [] end.
Lemma item_put_ok j timed i size w pre : j < 256 -> snd i < W64 -> wok size w pre -> (length pre + length (citem timed i) <= size)%nat ->
  exists w', status_put (scan_any j) timed i w = Some (Some w') /\ wok size w' (pre ++ citem timed i).
Proof.
  intros J V W L. unfold status_put. rewrite (wok_room _ _ _ W).
  assert (2 <= length (citem timed i))%nat by (unfold citem; destruct (fst i); [destruct timed|]; cbn [app length]; lia).
  destruct (Nat.ltb_spec (size - length pre) 2) as [X|_]; [lia|]. unfold citem in *. destruct (fst i).
  - rewrite andb_true_r. destruct timed.
    + change (put_bytes [N.lor 128 (1 + N.b2n true); 244 + N.b2n true] w) with (put_bytes [130; 245] w). cbn [app length] in L.
      destruct (put_bytes_writes [130; 245] size w pre W) as (w1 & -> & W1); [cbn [length]; lia|].
      destruct (put_encode_writes j J (snd i) V size w1 _ W1) as (w2 & -> & W2); [rewrite app_length; cbn [length]; lia|]. exists w2. split; [reflexivity|]. now rewrite app_assoc.
    + change (put_bytes [N.lor 128 (1 + N.b2n false); 244 + N.b2n true] w) with (put_bytes [129; 245] w). destruct (put_bytes_writes [129; 245] size w pre W) as (w1 & -> & W1); [cbn [length] in *; lia|]. eauto.
  - rewrite andb_false_r. change (put_bytes [N.lor 128 (1 + N.b2n false); 244 + N.b2n false] w) with (put_bytes [129; 244] w).
    destruct (put_bytes_writes [129; 244] size w pre W) as (w1 & -> & W1); [cbn [length] in *; lia|]. eauto.
Qed.
Lemma report_put_writes j b : j < 256 -> report_ok b -> writes (report_put (scan_any j) b) (creport b) 0.
Proof.
  intros J OK size w pre W L. unfold report_put. unfold report_ok in OK. unfold creport in *. destruct (b_info b) as [[[i1 i2] i3] i4].
  destruct OK as (V1 & V2 & V3 & V4 & V5 & V6 & V7 & V8 & V9). rewrite (wok_room _ _ _ W). rewrite !app_length in L. cbn [length] in L.
  destruct (Nat.ltb_spec (size - length pre) 2) as [X|_]; [lia|].
  replace (N.lor 128 (4 + N.shiftl (N.b2n (b_isfrag b)) 1)) with (if b_isfrag b then 134 else 132) by (destruct (b_isfrag b); reflexivity).
  destruct (put_bytes_writes [if b_isfrag b then 134 else 132; 132] size w pre W) as (w1 & -> & W1); [cbn [length]; lia|].
  destruct (item_put_ok j (b_timed b) i1 size w1 _ J V1 W1) as (w2 & -> & W2); [rewrite !app_length; cbn [length]; lia|].
  destruct (item_put_ok j (b_timed b) i2 size w2 _ J V2 W2) as (w3 & -> & W3); [rewrite !app_length; cbn [length]; lia|].
  destruct (item_put_ok j (b_timed b) i3 size w3 _ J V3 W3) as (w4 & -> & W4); [rewrite !app_length; cbn [length]; lia|].
  destruct (item_put_ok j (b_timed b) i4 size w4 _ J V4 W4) as (w5 & -> & W5); [rewrite !app_length; cbn [length]; lia|].
  destruct (put_encode_writes j J _ V5 size w5 _ W5) as (w6 & -> & W6); [rewrite !app_length; cbn [length]; lia|].
  destruct (eid7_checked_writes j J _ V6 size w6 _ W6) as (w7 & -> & W7); [rewrite !app_length; cbn [length]; lia|].
  destruct (two_checked_writes j J _ V7 size w7 _ W7) as (w8 & -> & W8); [rewrite !app_length; cbn [length]; lia|].
  destruct (b_isfrag b).
  - rewrite app_length in L. destruct (put_encode_writes j J _ V8 size w8 _ W8) as (w9 & -> & W9); [rewrite !app_length; cbn [length]; lia|].
    destruct (put_encode_writes j J _ V9 size w9 _ W9) as (w10 & -> & W10); [rewrite !app_length; cbn [length]; lia|]. exists w10. split; [reflexivity|]. rewrite <- !app_assoc in W10. exact W10.
  - exists w8. split; [reflexivity|]. rewrite <- !app_assoc in W8. rewrite app_nil_r. exact W8.
Qed.
Lemma bibe_put_writes j e : j < 256 -> bibe_ok e -> writes (bibe_put (scan_any j) e) (cbibe e) 0.
Proof.
  intros J (V1 & V2 & V3 & _) size w pre W L. unfold bibe_put, cbibe in *. assert (V4 : N.of_nat (length (e_bundle e)) < W64) by (unfold W64; lia). rewrite (wok_room _ _ _ W). rewrite !app_length in L. cbn [length] in L.
  destruct (Nat.ltb_spec (size - length pre) 1) as [X|_]; [lia|]. destruct (chdr_cenc _ V4) as (b & r & EC & EH & LB). rewrite EH in *. cbn [length] in L.
  destruct (put_bytes_writes [131] size w pre W) as (w1 & -> & W1); [cbn [length]; lia|].
  destruct (put_encode_writes j J _ V1 size w1 _ W1) as (w2 & -> & W2); [rewrite !app_length; cbn [length]; lia|].
  destruct (put_encode_writes j J _ V2 size w2 _ W2) as (w3 & -> & W3); [rewrite !app_length; cbn [length]; lia|].
  destruct (put_encode_writes j J _ V4 size w3 _ W3) as (w4 & -> & W4); [rewrite !app_length, EC; cbn [length]; lia|]. rewrite EC in W4.
  destruct W3 as (_ & P3 & _). rewrite P3. destruct (or_at_ok size w4 _ b r W4 LB) as (w5 & -> & W5).
  destruct (put_bytes_writes (e_bundle e) size w5 _ W5) as (w6 & -> & W6); [rewrite !app_length; cbn [length]; lia|]. exists w6. split; [reflexivity|]. rewrite <- !app_assoc in W6. exact W6.
Qed.
Lemma admin_type64 a : admin_ok a -> admin7_type a < W64.
Proof. destruct a; cbn; intros H; [reflexivity|reflexivity|exact H]. Qed.
Lemma admin_put_ok j a : j < 256 -> admin_ok a -> writes (admin7_data (scan_any j) a) (cadmin a) 0.
Proof.
  intros J OK. unfold admin7_data, cadmin. apply writes_check; [|cbn [app length]; lia].
  refine (writes_seq _ [130] _ _ _ (put_bytes_writes [130]) _). refine (writes_seq _ _ _ _ _ (put_encode_writes j J _ (admin_type64 a OK)) _).
  destruct a as [b|e|t]; [now apply report_put_writes|now apply bibe_put_writes|exact (writes_nil 0)].
Qed.
Lemma admin_fill j a old : j < 256 -> admin_ok a -> length old = length (cadmin a) -> fill_with (admin7_data (scan_any j) a) old = Some (cadmin a).
Proof. intros J OK L. unfold fill_with. destruct (writes_run _ _ _ (admin_put_ok j a J OK) eq_refl old L) as (w & -> & <-). reflexivity. Qed.
Lemma chdr_len n : n < W64 -> length (chdr n) = csize n.
Proof. intros H. destruct (chdr_cenc n H) as (b & r & EC & -> & _). unfold csize. rewrite EC. reflexivity. Qed.
Lemma report_size_ok j b : j < 256 -> report_ok b -> report_size (scan_any j) b = Some (N.of_nat (length (creport b))).
Proof.
  intros J OK. unfold report_ok in OK. unfold report_size, creport. destruct (b_info b) as [[[i1 i2] i3] i4]. destruct OK as (V1 & V2 & V3 & V4 & V5 & V6 & V7 & V8 & V9).
  assert (IT : forall i, snd i < W64 -> (if b_timed b && fst i then cbor_num_bytes (scan_any j) (snd i) else Some 0) = Some (N.of_nat (length (citem (b_timed b) i)) - 2)).
  { intros i V. unfold citem. destruct (b_timed b); destruct (fst i); cbn [andb]; try reflexivity. rewrite num_bytes_ok by assumption. f_equal. cbn [app length]. unfold csize. lia. }
  assert (I2 : forall i, (2 <= length (citem (b_timed b) i))%nat) by (intros i; unfold citem; destruct (fst i); [destruct (b_timed b)|]; cbn [app length]; lia).
  rewrite !IT by assumption. rewrite num_bytes_ok by assumption. rewrite ceid_size by assumption. rewrite (ctwo_size j J _ V7).
  pose proof (I2 i1). pose proof (I2 i2). pose proof (I2 i3). pose proof (I2 i4). destruct (b_isfrag b).
  - rewrite !num_bytes_ok by assumption. f_equal. rewrite !app_length. cbn [length]. rewrite ?app_length. unfold csize. lia.
  - f_equal. rewrite !app_length. cbn [length]. unfold csize. lia.
Qed.
Lemma bibe_size_ok j e : j < 256 -> bibe_ok e -> bibe_size (scan_any j) e = Some (N.of_nat (length (cbibe e))).
Proof.
  intros J (V1 & V2 & V3 & _). assert (V4 : N.of_nat (length (e_bundle e)) < W64) by (unfold W64; lia). unfold bibe_size, cbibe. rewrite !num_bytes_ok by assumption. f_equal.
  rewrite !app_length, chdr_len by exact V4. cbn [length]. unfold csize. lia.
Qed.
Lemma admin_size_ok j a : j < 256 -> admin_ok a -> admin7_size (scan_any j) a = Some (N.of_nat (length (cadmin a))).
Proof.
  intros J OK. unfold admin7_size, cadmin. rewrite num_bytes_ok by (try apply admin_type64; assumption). rewrite !app_length. cbn [length]. fold (csize (admin7_type a)).
  destruct a as [b|e|t]; [rewrite report_size_ok by assumption|rewrite bibe_size_ok by assumption|cbn [length]]; f_equal; lia.
Qed.
Lemma citem_written timed i : snd i < W64 -> item_written timed i (citem timed i).
Proof. intros V. unfold item_written, citem. destruct (fst i); [destruct timed|]; [eexists; split; [now apply cenc_shortest|reflexivity]|reflexivity|reflexivity]. Qed.
Lemma creport_written b : report_ok b -> report_written b (creport b).
Proof.
  intros OK. unfold report_ok, report_written, creport in *. destruct (b_info b) as [[[i1 i2] i3] i4]. destruct OK as (V1 & V2 & V3 & V4 & V5 & V6 & V7 & V8 & V9).
  do 8 eexists. split; [reflexivity|]. do 4 (split; [now apply citem_written|]). split; [now apply cenc_shortest|]. split; [now apply ceid_written|]. split; [now apply ctwo_shortest|].
  destruct (b_isfrag b); [|reflexivity]. exists [cenc (b_off b); cenc (b_flen b)]. split; [cbn [concat]; now rewrite app_nil_r|]. repeat constructor; now apply cenc_shortest.
Qed.
Lemma cadmin_written a : admin_ok a -> admin_written a (cadmin a).
Proof.
  intros OK. destruct a as [b|e|t]; unfold cadmin; cbn [admin7_type admin_written].
  - exists (creport b). split; [now apply creport_written|reflexivity].
  - exists (cbibe e). split; [|reflexivity]. destruct OK as (V1 & V2 & V3 & _). assert (V4 : N.of_nat (length (e_bundle e)) < W64) by (unfold W64; lia).
    do 3 eexists. split; [reflexivity|]. split; [now apply cenc_shortest|]. split; [now apply cenc_shortest|]. now apply chdr_shortest.
  - exists (cenc t). split; [now apply cenc_shortest|]. now rewrite app_nil_r.
Qed.
Lemma citem_octets timed i : snd i < W64 -> Forall is_byte (citem timed i).
Proof.
  intros V. unfold citem. destruct (fst i); [destruct timed|]; [|repeat constructor..]. apply Forall_app. split; [repeat constructor|now apply cenc_octets].
Qed.
Lemma cadmin_octets a : admin_ok a -> Forall is_byte (cadmin a).
Proof.
  intros OK. unfold cadmin. apply Forall_app. split; [repeat constructor|]. apply Forall_app. split; [apply cenc_octets; now apply admin_type64|]. destruct a as [b|e|t]; [| |constructor].
  - cbn [admin_ok] in OK. unfold report_ok in OK. unfold creport. destruct (b_info b) as [[[i1 i2] i3] i4]. destruct OK as (V1 & V2 & V3 & V4 & V5 & V6 & V7 & V8 & V9).
    repeat (apply Forall_app; split); try (now apply citem_octets); try (now apply cenc_octets); [destruct (b_isfrag b); repeat constructor|now apply ceid_octets|now apply ctwo_octets|].
    destruct (b_isfrag b); [|constructor]. apply Forall_app. split; now apply cenc_octets.
  - destruct OK as (V1 & V2 & V3 & Hd). assert (V4 : N.of_nat (length (e_bundle e)) < W64) by (unfold W64; lia). unfold cbibe. repeat (apply Forall_app; split); try (now apply cenc_octets); [repeat constructor| |exact Hd].
    destruct (chdr_cenc _ V4) as (b & r & EC & EH & LB). rewrite EH. pose proof (cenc_octets _ V4) as O. rewrite EC in O. constructor; [unfold is_byte; lia|exact (Forall_inv_tail O)].
Qed.
Lemma citem_len timed i : (length (citem timed i) <= 11)%nat.
Proof. unfold citem. destruct (fst i); [destruct timed|]; cbn [app length]; try lia. pose proof (csize_pos (snd i)) as H. unfold csize in H. lia. Qed.
Lemma creport_len b : (length (creport b) <= 150)%nat.
Proof.
  unfold creport. destruct (b_info b) as [[[i1 i2] i3] i4]. rewrite !app_length. pose proof (citem_len (b_timed b) i1). pose proof (citem_len (b_timed b) i2). pose proof (citem_len (b_timed b) i3). pose proof (citem_len (b_timed b) i4).
  pose proof (cext_len (PrevNode (b_source b))) as L1. pose proof (cext_len (HopCount (fst (b_stamp b)) (snd (b_stamp b)))) as L2. cbn [cext] in L1, L2. rewrite <- surjective_pairing in L2.
  pose proof (csize_pos (b_reason b)) as C1. pose proof (csize_pos (b_off b)) as C2. pose proof (csize_pos (b_flen b)) as C3. unfold csize in C1, C2, C3.
  destruct (b_isfrag b); cbn [length]; rewrite ?app_length; lia.
Qed.
Lemma cadmin_len a : admin_ok a -> N.of_nat (length (cadmin a)) < W64.
Proof.
  intros OK. unfold cadmin. rewrite !app_length. pose proof (csize_pos (admin7_type a)) as C1. unfold csize in C1. cbn [length]. destruct a as [b|e|t].
  - pose proof (creport_len b). unfold W64. lia.
  - destruct OK as (V1 & V2 & V3 & _). assert (V4 : N.of_nat (length (e_bundle e)) < W64) by (unfold W64; lia). unfold cbibe. rewrite !app_length, chdr_len by exact V4.
    pose proof (csize_pos (e_id e)) as C2. pose proof (csize_pos (e_time e)) as C3. pose proof (csize_pos (N.of_nat (length (e_bundle e)))) as C4. unfold csize in *. cbn [length]. unfold W64. lia.
  - cbn [length]. unfold W64. lia.
Qed.
(** ** Written records have the form that is read *)
Lemma citem_form timed t0 i : snd i < W64 -> item_form timed t0 (item_meant timed t0 i) (citem timed i).
Proof. intros V. unfold item_form, item_meant, citem. cbn [fst snd]. destruct (fst i); [destruct timed|]; cbn [andb]; [exists (cenc (snd i)); split; [now apply cenc_uint|auto]|auto|auto]. Qed.
Lemma creport_form old b : report_ok b -> asserted b = true -> report_form old (report_meant old b) (creport b).
Proof.
  intros OK AS. unfold report_ok, report_form, report_meant, creport, asserted in *. destruct (b_info old) as [[[o1 o2] o3] o4]. destruct (b_info b) as [[[i1 i2] i3] i4]. destruct OK as (V1 & V2 & V3 & V4 & V5 & V6 & V7 & V8 & V9).
  cbn [b_info b_timed b_isfrag b_reason b_source b_stamp b_off b_flen]. do 10 eexists. exists []. rewrite app_nil_r. split; [reflexivity|]. split; [auto|]. do 4 (split; [now apply citem_form|]).
  split; [exact AS|]. split; [now apply cenc_uint|]. split; [now apply ceid_form|]. split; [now apply ctwo_form|]. split; [|left; split; reflexivity].
  destruct (b_isfrag b); [|split; reflexivity]. apply items_two. do 2 eexists. split; [reflexivity|]. split; now apply cenc_uint.
Qed.
Lemma cadmin_form old a : admin_ok a -> (forall b, a = AdmReport b -> asserted b = true) -> (forall t, a = AdmOther t -> t <> 1 /\ t <> 3) -> admin_form old (admin_meant old a) (cadmin a).
Proof.
  intros OK AS NT. destruct a as [b|e|t]; cbn [admin_meant admin_form]; unfold cadmin.
  - exists (cenc 1), (creport b). split; [apply cenc_uint; reflexivity|]. split; [apply creport_form; [exact OK|now apply AS]|]. left. reflexivity.
  - exists (cenc 3), (cbibe e). split; [apply cenc_uint; reflexivity|]. split; [|left; reflexivity]. destruct OK as (V1 & V2 & V3 & _). assert (V4 : N.of_nat (length (e_bundle e)) < W64) by (unfold W64; lia).
    destruct (chdr_cenc _ V4) as (b & r & EC & EH & LB). exists 131, (cenc (e_id e)), (cenc (e_time e)), [], (chdr (N.of_nat (length (e_bundle e))) ++ e_bundle e), []. rewrite app_nil_r. split; [reflexivity|].
    split; [now apply cenc_uint|]. split; [now apply cenc_uint|]. split; [auto|]. split; [|auto]. exists b, r. rewrite EH. split; [reflexivity|]. rewrite <- EC. now apply cenc_uint.
  - destruct (NT t eq_refl). exists 130, (cenc t), []. split; [reflexivity|]. split; [auto|]. split; [now apply cenc_uint|auto].
Qed.
