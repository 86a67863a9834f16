(** C52: links as a list, what each part of the storage interface leaves alone. *)
From Coq Require Import PeanoNat NArith List Bool Lia Permutation FinFun ZifyBool ZifyN.
From Verif Require Import Base M_CustodyId M_StorageIf S_StorageIf.
Import ListNotations.
Open Scope N_scope.

Ltac proj := cbn [g_vec g_opp g_ptrs g_rr g_init g_pend g_disk g_poll g_egress g_ingress g_lost g_ids g_bits g_reads
  with_links with_ptrs with_rr with_init with_disk with_poll with_out with_oracle emit] in *.

(** ** Lists *)
Lemma set_nth_split {A} n l (y : A) : nth_error l n = Some y -> exists p q, l = p ++ y :: q /\ length p = n /\ forall x : A, set_nth n x l = p ++ x :: q.
Proof.
  revert n. induction l as [|z l IH]; intros [|n] H; try discriminate.
  - injection H as ->. exists [], l. repeat split.
  - destruct (IH n H) as (p & q & -> & <- & F). exists (z :: p), q. repeat split. intros x0. cbn [set_nth]. rewrite F. reflexivity.
Qed.
Lemma set_nth_length {A} n (x : A) l : length (set_nth n x l) = length l.
Proof. revert n. induction l as [|z l IH]; intros [|n]; simpl; congruence. Qed.
Lemma numbered_app n a b : numbered n (a ++ b) = numbered n a ++ numbered (n + length a) b.
Proof.
  revert n. induction a as [|x a IH]; intros n; cbn [app numbered length]; [rewrite Nat.add_0_r; reflexivity|]. rewrite IH. do 3 f_equal. lia.
Qed.
Lemma in_numbered n l i k : In (RVec i, k) (numbered n l) <-> (n <= i)%nat /\ nth_error l (i - n) = Some k.
Proof.
  revert n. induction l as [|x l IH]; intros n; cbn [numbered In].
  - split; [tauto|]. intros (_ & H). destruct (i - n)%nat; discriminate.
  - rewrite IH. destruct (Nat.eq_dec i n) as [->|Hn].
    + rewrite Nat.sub_diag. cbn [nth_error]. split.
      * intros [H|H]; [injection H as ->; auto|lia].
      * intros (_ & [= ->]). auto.
    + split.
      * intros [H|(H1 & H2)]; [injection H; lia|]. split; [lia|]. replace (i - n)%nat with (S (i - S n)) by lia. exact H2.
      * intros (H1 & H2). right. replace (i - n)%nat with (S (i - S n)) in H2 by lia. split; [lia|exact H2].
Qed.
Lemma opp_not_numbered n m k l : ~ In (ROpp n, k) (numbered m l).
Proof. revert m. induction l as [|x l IH]; intros m; cbn [numbered In]; [tauto|]. intros [H|H]; [discriminate|]. exact (IH _ H). Qed.
Lemma up_numbered n l : up_vec n l = up_refs (numbered n l).
Proof. revert n. unfold up_refs. induction l as [|k l IH]; intros n; [reflexivity|]. cbn [up_vec numbered filter snd]. destruct (k_up k); cbn [map fst]; rewrite IH; reflexivity. Qed.
Lemma up_opps l : up_opp l = up_refs (map (fun e => (ROpp (fst e), snd e)) l).
Proof. unfold up_refs, up_opp. induction l as [|e l IH]; [reflexivity|]. cbn [flat_map map filter snd]. destruct (k_up (snd e)); cbn [app map fst]; rewrite IH; reflexivity. Qed.
Lemma up_refs_app a b : up_refs (a ++ b) = up_refs a ++ up_refs b.
Proof. unfold up_refs. now rewrite filter_app, map_app. Qed.
Lemma repopulate_ptrs s : g_ptrs (repopulate s) = up_refs (links s).
Proof. unfold repopulate, links. proj. rewrite up_refs_app, up_numbered, up_opps. reflexivity. Qed.

(** ** Links *)
Definition keys (s : state) : Prop := NoDup (map fst (g_opp s)).
Definition mkeys (l : list (N * link)) : Prop := NoDup (map fst l).
Lemma opp_find_in n l k : opp_find n l = Some k -> In (n, k) l.
Proof. unfold opp_find. destruct (find _ l) as [[m x]|] eqn:E; [|discriminate]. intros [= <-]. apply find_some in E as (H & E). cbn [fst] in E. apply N.eqb_eq in E as ->. exact H. Qed.
Lemma opp_in_find n l k : NoDup (map fst l) -> In (n, k) l -> opp_find n l = Some k.
Proof.
  unfold opp_find. induction l as [|[m x] l IH]; intros H I; [destruct I|]. cbn [find fst]. inversion H as [|? ? HN HR]; subst. destruct I as [I|I].
  - injection I as -> ->. rewrite N.eqb_refl. reflexivity.
  - destruct (N.eqb_spec m n) as [->|_]; [|exact (IH HR I)]. elim HN. apply (in_map fst) in I. exact I.
Qed.
Lemma get_in s r k : get_link s r = Some k -> In (r, k) (links s).
Proof.
  intros H. unfold links. apply in_or_app. destruct r as [i|n]; cbn [get_link] in H.
  - left. apply in_numbered. rewrite Nat.sub_0_r. split; [lia|exact H].
  - right. apply opp_find_in in H. apply in_map_iff. exists (n, k). auto.
Qed.
Lemma in_get s r k : keys s -> In (r, k) (links s) -> get_link s r = Some k.
Proof.
  intros K H. unfold links in H. apply in_app_or in H as [H|H].
  - destruct r as [i|n]; [|destruct (opp_not_numbered _ _ _ _ H)]. apply in_numbered in H as (_ & H). rewrite Nat.sub_0_r in H. exact H.
  - apply in_map_iff in H as ([n x] & H & I). cbn [fst snd] in H. injection H as <- <-. apply opp_in_find; assumption.
Qed.
Lemma opp_put_split n k l : NoDup (map fst l) -> opp_find n l = Some k -> exists p q, l = p ++ (n, k) :: q /\ forall k', opp_put n k' l = p ++ (n, k') :: q.
Proof.
  intros H F. apply opp_find_in in F. apply in_split in F as (p & q & ->). exists p, q. split; [reflexivity|]. intros k'. unfold opp_put.
  rewrite map_app in H |- *. cbn [map fst] in *. rewrite N.eqb_refl.
  assert (HI : forall a, ~ In n (map fst a) -> map (fun e => if fst e =? n then (n, k') else e) a = a).
  { intros a HA. erewrite map_ext_in; [apply map_id|]. intros e HE. cbn beta. destruct (N.eqb_spec (fst e) n) as [E|_]; [|reflexivity]. elim HA. rewrite <- E. apply in_map. exact HE. }
  apply NoDup_remove_2 in H. rewrite in_app_iff in H. rewrite !HI by tauto. reflexivity.
Qed.
Lemma put_split s r k : keys s -> get_link s r = Some k -> exists p q, links s = p ++ (r, k) :: q /\ forall k', links (put_link s r k') = p ++ (r, k') :: q.
Proof.
  intros K H. unfold links. destruct r as [i|n]; cbn [get_link put_link] in *; proj.
  - destruct (set_nth_split i _ _ H) as (p & q & E & L & F). rewrite E, numbered_app. cbn [numbered]. rewrite <- app_assoc. cbn [app Nat.add].
    exists (numbered 0 p). eexists. rewrite L. split; [reflexivity|]. intros k'. rewrite <- E, F, numbered_app. cbn [numbered Nat.add]. rewrite L, <- app_assoc. reflexivity.
  - destruct (opp_put_split n k _ K H) as (p & q & E & F). rewrite E, map_app. cbn [map fst snd]. rewrite app_assoc.
    eexists. eexists. split; [reflexivity|]. intros k'. rewrite <- E, F, map_app. cbn [map fst snd]. rewrite app_assoc. reflexivity.
Qed.
Lemma put_keys s r k : keys (put_link s r k) <-> keys s.
Proof.
  unfold keys. destruct r as [i|n]; cbn [put_link]; proj; [tauto|]. replace (map fst (opp_put n k (g_opp s))) with (map fst (g_opp s)); [tauto|].
  unfold opp_put. rewrite map_map. apply map_ext. intros e. destruct (N.eqb_spec (fst e) n) as [<-|]; reflexivity.
Qed.
Lemma get_put s r k k' : keys s -> get_link s r = Some k -> get_link (put_link s r k') r = Some k'.
Proof. intros K H. destruct (put_split s r k K H) as (p & q & _ & F). apply in_get; [now apply put_keys|]. rewrite F. apply in_elt. Qed.
Lemma set_nth_twice {A} n (x y : A) l : set_nth n y (set_nth n x l) = set_nth n y l.
Proof. revert n. induction l as [|z l IH]; intros [|n]; cbn [set_nth]; [reflexivity..|]. rewrite IH. reflexivity. Qed.
Lemma put_put s r k1 k2 : g_vec (put_link (put_link s r k1) r k2) = g_vec (put_link s r k2) /\ g_opp (put_link (put_link s r k1) r k2) = g_opp (put_link s r k2).
Proof.
  destruct r as [i|n]; cbn [put_link]; proj; (split; [|reflexivity]) || split; try reflexivity.
  - apply set_nth_twice.
  - unfold opp_put. rewrite map_map. apply map_ext. intros e. destruct (fst e =? n) eqn:X; cbn [fst]; [rewrite N.eqb_refl; reflexivity|rewrite X; reflexivity].
Qed.
(** Every reference once. *)
Lemma links_refs s : keys s -> NoDup (map fst (links s)).
Proof.
  intros K. unfold links. rewrite map_app.
  assert (HN : forall l n, NoDup (map fst (numbered n l)) /\ forall r, In r (map fst (numbered n l)) -> exists i, r = RVec i /\ (n <= i)%nat).
  { induction l as [|k l IH]; intros n; cbn [numbered map fst]; [split; [constructor|intros r []]|]. destruct (IH (S n)) as (A & B). split.
    - constructor; [|exact A]. intros H. destruct (B _ H) as (i & E & L). injection E as ->. lia.
    - intros r [<-|H]; [exists n; auto|]. destruct (B _ H) as (i & -> & L). exists i. split; [reflexivity|lia]. }
  assert (HO : NoDup (map fst (map (fun e : N * link => (ROpp (fst e), snd e)) (g_opp s)))).
  { rewrite map_map. cbn [fst]. unfold keys in K. rewrite <- (map_map fst ROpp). apply FinFun.Injective_map_NoDup; [intros a b [=]; auto|exact K]. }
  destruct (HN (g_vec s) 0%nat) as (A & B). revert A B HO. generalize (map fst (numbered 0 (g_vec s))) as u. generalize (g_opp s) as o. intros o u A B HO.
  induction A as [|x u HX A IH]; [exact HO|]. cbn [app]. constructor; [|apply IH; intros r H; apply B; now right].
  rewrite in_app_iff. intros [H|H]; [tauto|]. destruct (B x (or_introl eq_refl)) as (i & -> & _). rewrite map_map in H. apply in_map_iff in H as (e & H & _). discriminate.
Qed.
Lemma links_unique s r k k' : keys s -> In (r, k) (links s) -> In (r, k') (links s) -> k = k'.
Proof. intros K A B. apply in_get in A; [|exact K]. apply in_get in B; [|exact K]. congruence. Qed.
Lemma flat_numbered {A} (f : ref -> link -> list A) (g : link -> list A) n l : (forall r k, f r k = g k) -> flat_map (fun x => f (fst x) (snd x)) (numbered n l) = flat_map g l.
Proof. intros H. revert n. induction l as [|k l IH]; intros n; [reflexivity|]. cbn [numbered flat_map fst snd]. rewrite H, IH. reflexivity. Qed.
Lemma open_links s : open_ids s = flat_map (fun x => map fst (k_open (snd x))) (links s).
Proof.
  unfold open_ids, links, open_of. rewrite flat_map_app. f_equal.
  - symmetry. apply (flat_numbered (fun _ k => map fst (k_open k))). reflexivity.
  - induction (g_opp s) as [|e l IH]; [reflexivity|]. cbn [map flat_map snd]. rewrite IH. reflexivity.
Qed.
Lemma open_at s r cid : (exists k, In (r, k) (links s) /\ In cid (map fst (k_open k))) -> In cid (open_ids s).
Proof. intros (k & I & H). rewrite open_links. apply in_flat_map. exists (r, k). auto. Qed.
Lemma at_open s cid : In cid (open_ids s) -> exists r k, In (r, k) (links s) /\ In cid (map fst (k_open k)).
Proof. rewrite open_links, in_flat_map. intros ([r k] & I & H). exists r, k. auto. Qed.
Lemma vec_ref_get s i r : vec_ref s i = Some r -> r = RVec (N.to_nat i) /\ exists k, get_link s r = Some k.
Proof.
  unfold vec_ref. destruct (N.ltb_spec i (N.of_nat (length (g_vec s)))) as [H|H]; [|discriminate]. intros [= <-]. split; [reflexivity|]. cbn [get_link].
  destruct (nth_error (g_vec s) (N.to_nat i)) as [k|] eqn:E; [eauto|]. apply nth_error_None in E. lia.
Qed.

(** ** What is left alone *)
(** All but the disk, the ids and the bits of the environment. *)
Record only_disk (s s' : state) : Prop := { od_vec : g_vec s' = g_vec s; od_opp : g_opp s' = g_opp s; od_ptrs : g_ptrs s' = g_ptrs s; od_rr : g_rr s' = g_rr s;
  od_init : g_init s' = g_init s; od_pend : g_pend s' = g_pend s; od_poll : g_poll s' = g_poll s; od_egress : g_egress s' = g_egress s;
  od_reads : g_reads s' = g_reads s; od_ingress : g_ingress s' = g_ingress s; od_lost : g_lost s' = g_lost s }.
(** And acks to ingress. *)
Record disk_acks (s s' : state) : Prop := { da_vec : g_vec s' = g_vec s; da_opp : g_opp s' = g_opp s; da_ptrs : g_ptrs s' = g_ptrs s; da_rr : g_rr s' = g_rr s;
  da_init : g_init s' = g_init s; da_pend : g_pend s' = g_pend s; da_poll : g_poll s' = g_poll s; da_egress : g_egress s' = g_egress s; da_reads : g_reads s' = g_reads s }.
Lemma od_refl s : only_disk s s. Proof. constructor; reflexivity. Qed.
Lemma da_refl s : disk_acks s s. Proof. constructor; reflexivity. Qed.
Lemma od_trans a b c : only_disk a b -> only_disk b c -> only_disk a c.
Proof. intros [] []. constructor; congruence. Qed.
Lemma da_trans a b c : disk_acks a b -> disk_acks b c -> disk_acks a c.
Proof. intros [] []. constructor; congruence. Qed.
Lemma od_da a b : only_disk a b -> disk_acks a b. Proof. intros []. constructor; assumption. Qed.
Lemma od_disk s d : only_disk s (with_disk s d). Proof. constructor; reflexivity. Qed.
Lemma da_links s s' : disk_acks s s' -> links s' = links s. Proof. intros H. unfold links. now rewrite (da_vec _ _ H), (da_opp _ _ H). Qed.
Lemma da_keys s s' : disk_acks s s' -> keys s' = keys s. Proof. intros H. unfold keys. now rewrite (da_opp _ _ H). Qed.
Lemma da_get s s' r : disk_acks s s' -> get_link s' r = get_link s r. Proof. intros H. unfold get_link. now rewrite (da_vec _ _ H), (da_opp _ _ H). Qed.
Lemma da_open s s' : disk_acks s s' -> open_ids s' = open_ids s. Proof. intros H. unfold open_ids. now rewrite (da_vec _ _ H), (da_opp _ _ H). Qed.
Lemma da_ref s s' i : disk_acks s s' -> vec_ref s' i = vec_ref s i. Proof. intros H. unfold vec_ref. now rewrite (da_vec _ _ H). Qed.
Lemma bit_od s b s' : bit s = (b, s') -> only_disk s s'.
Proof. unfold bit. destruct (g_bits s); intros [= <- <-]; constructor; reflexivity. Qed.
Lemma alloc_od s i s' : alloc s = (i, s') -> only_disk s s'.
Proof. unfold alloc. destruct (match g_ids s with [] => _ | _ => _ end) as [a r]. intros [= <- <-]. constructor; reflexivity. Qed.
Lemma write_one_od b s s' ok : write_one b s = Some (s', ok) -> only_disk s s'.
Proof.
  unfold write_one. destruct (alloc s) as [i s1] eqn:A. destruct (bit s1) as [w s2] eqn:B. assert (O : only_disk s s2) by (eapply od_trans; [exact (alloc_od _ _ _ A)|exact (bit_od _ _ _ B)]).
  destruct w; cbn [negb]; [destruct (find_b i (d_ent (g_disk s2))); [discriminate|]|]; intros [= <- <-]; [eapply od_trans; [exact O|apply od_disk]|exact O].
Qed.
Lemma write_parts_od l : forall go s s', write_parts go l s = Some s' -> only_disk s s'.
Proof.
  induction l as [|b l IH]; intros go s s' H; cbn [write_parts] in H; [injection H as <-; apply od_refl|]. destruct go.
  - destruct (write_one b s) as [[s1 ok]|] eqn:W; [|discriminate]. eapply od_trans; [exact (write_one_od _ _ _ _ W)|exact (IH _ _ _ H)].
  - destruct (alloc s) as [i s1] eqn:A. eapply od_trans; [exact (alloc_od _ _ _ A)|exact (IH _ _ _ H)].
Qed.
Lemma write_custody_od m l : forall s s' ids, write_custody m l s = Some (s', ids) -> only_disk s s'.
Proof.
  induction l as [|b l IH]; intros s s' ids H; cbn [write_custody] in H; [injection H as <- <-; apply od_refl|].
  destruct (write_one (masked m b) s) as [[s1 [|]]|] eqn:W; [| |discriminate].
  - destruct (write_custody m l s1) as [[s2 i]|] eqn:E; [|discriminate]. injection H as <- <-. eapply od_trans; [exact (write_one_od _ _ _ _ W)|exact (IH _ _ _ E)].
  - injection H as <- <-. exact (write_one_od _ _ _ _ W).
Qed.
Lemma write_od b c sp m s s' : write b c sp m s = Some s' -> only_disk s s'.
Proof.
  unfold write. assert (WH : forall x, match write_one x s with None => None | Some (s1, _) => Some s1 end = Some s' -> only_disk s s').
  { intros x. destruct (write_one x s) as [[s1 ok]|] eqn:W; [|discriminate]. intros [= <-]. exact (write_one_od _ _ _ _ W). }
  destruct (b_bad b); [intros [= <-]; apply od_refl|]. destruct sp; cbn [negb]; [|apply WH]. destruct c as [|l|l g|l|[cid|]|].
  - apply WH.
  - apply write_parts_od.
  - destruct (bit s) as [rd s0] eqn:B. destruct (write_custody m (if rd then l else []) s0) as [[s1 ids]|] eqn:W; [|discriminate]. destruct (bit s1) as [md s2] eqn:B2.
    assert (O : only_disk s s2) by (eapply od_trans; [exact (bit_od _ _ _ B)|eapply od_trans; [exact (write_custody_od _ _ _ _ _ W)|exact (bit_od _ _ _ B2)]]).
    destruct md; [|intros [= <-]; exact O]. destruct g as [g|]; [|intros [= <-]; exact O].
    destruct (write_one g s2) as [[s3 [|]]|] eqn:W2; [| |discriminate]; intros [= <-].
    + eapply od_trans; [exact O|exact (write_one_od _ _ _ _ W2)].
    + eapply od_trans; [exact O|]. eapply od_trans; [exact (write_one_od _ _ _ _ W2)|apply od_disk].
  - destruct (acs l (g_disk s)); [|discriminate]. intros [= <-]. apply od_disk.
  - intros [= <-]. apply od_disk.
  - intros [= <-]. apply od_refl.
  - intros [= <-]. apply od_refl.
Qed.
Lemma ack_ingress_da m s : disk_acks s (ack_ingress m s).
Proof.
  unfold ack_ingress. destruct (bit s) as [ok s1] eqn:B. pose proof (od_da _ _ (bit_od _ _ _ B)) as O. destruct ok; (eapply da_trans; [exact O|constructor; reflexivity]).
Qed.
Lemma dump_da i q : forall s s', dump i q s = Some s' -> disk_acks s s'.
Proof.
  induction q as [|x q IH]; intros s s' H; cbn [dump] in H; [injection H as <-; apply da_refl|]. destruct (write (q_b x) Whole false None s) as [s1|] eqn:W; [|discriminate].
  eapply da_trans; [exact (od_da _ _ (write_od _ _ _ _ _ _ W))|]. eapply da_trans; [apply ack_ingress_da|exact (IH _ _ H)].
Qed.
Lemma signals_od l : forall s s', on_signals l s = Some s' -> only_disk s s'.
Proof.
  unfold on_signals. induction l as [|b l IH]; intros s s' H; [injection H as <-; apply od_refl|]. destruct (write_one b s) as [[s1 ok]|] eqn:W; [|discriminate].
  eapply od_trans; [exact (write_one_od _ _ _ _ W)|exact (IH _ _ H)].
Qed.
Lemma timer_od c s s' : on_timer c s = Some s' -> only_disk s s'.
Proof. unfold on_timer. destruct (has_timer c _); [destruct (give_back _ _); [|discriminate]|]; intros [= <-]; [apply od_disk|apply od_refl]. Qed.
Lemma expired_od c p s s' : on_expired c p s = Some s' -> only_disk s s'.
Proof.
  unfold on_expired. destruct (find_b c _) as [b|]; [|intros [= <-]; apply od_refl]. destruct (b_cust b); [|intros [= <-]; apply od_disk].
  destruct p as [p|]; [|intros [= <-]; eapply od_trans; [apply od_disk|apply od_disk]].
  destruct (write_one p _) as [[s2 ok]|] eqn:W; [|discriminate]. intros [= <-]. eapply od_trans; [apply od_disk|]. eapply od_trans; [exact (write_one_od _ _ _ _ W)|apply od_disk].
Qed.
