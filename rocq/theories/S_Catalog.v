(** Specification vocabulary for C16, C17: stored bundles and bundles waiting to be sent, as plain lists. *)
From Coq Require Import NArith List Bool.
From Verif Require Import Base M_CustodyId M_HashMap M_Flq M_Catalog.
Import ListNotations.
Open Scope N_scope.

(** A bundle handed to the catalog: its primary block, sizes, segment chain and optional destination mask. *)
Record item := mkItem { it_prim : prim; it_size : N; it_payload : N; it_segs : list N; it_mask : option eid }.
Definition it_dest (b : item) : eid := match it_mask b with Some d => d | None => p_dest (it_prim b) end.
Definition it_prio (b : item) : N := p_prio (it_prim b).
Definition it_exp (b : item) : N := p_exp (it_prim b).
(** Custody bundles are known by uuid, with fragment data if they are fragments. *)
Definition it_key (b : item) : option ukey :=
  let p := it_prim b in
  if p_cust p then Some (if p_frag p then KFrag (mkUuid (p_sec p) (p_seq p) (p_src p) (p_off p) (it_payload b))
                         else KNoFrag (mkUuidnf (p_sec p) (p_seq p) (p_src p)))
  else None.
(** Bundles are numbered by custody id. Stored ones in any order; waiting ones first to be sent first, among those with
    the same destination, priority and expiration. *)
Record spec := mkSpec { s_stored : list (N * item); s_wait : list (N * item) }.
Definition s_new : spec := mkSpec [] [].
Definition lookup (l : list (N * item)) (cid : N) : option item :=
  match find (fun p => fst p =? cid) l with Some p => Some (snd p) | None => None end.
Definition ids (l : list (N * item)) : list N := map fst l.
Definition without (cid : N) (l : list (N * item)) : list (N * item) := filter (fun p => negb (fst p =? cid)) l.
Definition key_taken (l : list (N * item)) (k : ukey) : Prop := exists cid b, In (cid, b) l /\ it_key b = Some k.
Definition same_class (a b : item) : Prop := it_dest a = it_dest b /\ it_prio a = it_prio b /\ it_exp a = it_exp b.

(** The three kinds of destination lists a pop takes. *)
Inductive sel := ByEid (l : list eid) | ByNode (l : list N) | ByPair (l : list (eid * bool)).
Definition selects (s : sel) (d : eid) : Prop :=
  match s with
  | ByEid l => In d l
  | ByNode l => In (fst d) l
  | ByPair l => In (d, false) l \/ exists n, In ((fst d, n), true) l
  end.
Definition pop_sel (c : catalog) (s : sel) : option (catalog * option (N * option centry)) :=
  match s with ByEid l => pop_by_eids c l | ByNode l => pop_by_nodes c l | ByPair l => pop_by_pairs c l end.

(** What the catalog tells about a bundle. *)
Definition describes (e : centry) (b : item) : Prop :=
  ce_bundle e = it_size b /\ ce_payload e = it_payload b /\ ce_segs e = it_segs b /\ ce_dest e = it_dest b /\
  ce_prio e = it_prio b /\ ce_exp e = it_exp b /\ ce_seq e = p_sseq (it_prim b).

Inductive kop :=
| Store (cid : N) (b : item) (o : order)
| PopBest (s : sel)
| GiveBack (cid : N)
| RemoveSent (cid : N)
| RemoveAny (cid : N)
| Erase (cid : N) (also : bool)
| Lookup (cid : N)
| LookupKey (k : ukey)
| Expired (t n : N)
| Count.

(** Bundle [b], number [cid], is the one to send: selected; no selected waiting bundle has a higher priority, or the same
    priority and an earlier expiration; none of the same class is ahead of it. *)
Definition to_send (s : sel) (pre post : list (N * item)) (b : item) : Prop :=
  selects s (it_dest b) /\
  (forall w, In w (pre ++ post) -> selects s (it_dest (snd w)) ->
     it_prio (snd w) <= it_prio b /\ (it_prio (snd w) = it_prio b -> it_exp b <= it_exp (snd w))) /\
  (forall w, In w pre -> ~ same_class (snd w) b).

(** Every call in the history shows what the lists say and is defined, as long as the caller respects: priorities 0 to 2,
    expirations below 2^60, 64-bit sizes, a custody id of a stored bundle is not used again, first-in-first-out or last-in-first-out
    order, only bundles not waiting are given back or removed as sent, Remove is told whether the bundle is waiting.
    [P] is required of every state on the way. *)
Fixpoint history (P : catalog -> spec -> Prop) (hf : hashes) (c : catalog) (s : spec) (ops : list kop) : Prop :=
  P c s /\
  match ops with
  | [] => True
  | Store cid b o :: r =>
    it_prio b < 3 -> it_exp b < 2 ^ 60 -> it_size b < W64 -> ~ In cid (ids (s_stored s)) -> o <> BySeq ->
    exists c' ok, catalog_incoming hf c (ce_init (it_prim b) (it_size b) (it_payload b) (it_segs b) (it_mask b)) (it_prim b) cid o = Some (c', ok) /\
      (ok = false <-> exists k, it_key b = Some k /\ key_taken (s_stored s) k) /\
      history P hf c' (if ok then mkSpec ((cid, b) :: s_stored s)
                                         (match o with Filo => (cid, b) :: s_wait s | _ => s_wait s ++ [(cid, b)] end) else s) r
  | PopBest q :: r =>
    exists c' res, pop_sel c q = Some (c', res) /\
      match res with
      | None => (forall w, In w (s_wait s) -> ~ selects q (it_dest (snd w))) /\ history P hf c' s r
      | Some (cid, e) => exists pre b post, s_wait s = pre ++ (cid, b) :: post /\ to_send q pre post b /\
          (exists ce, e = Some ce /\ describes ce b) /\ history P hf c' (mkSpec (s_stored s) (pre ++ post)) r
      end
  | GiveBack cid :: r =>
    ~ In cid (ids (s_wait s)) ->
    exists c' ok, return_cid c cid = Some (c', ok) /\
      match lookup (s_stored s) cid with
      | Some b => ok = true /\ history P hf c' (mkSpec (s_stored s) ((cid, b) :: s_wait s)) r
      | None => ok = false /\ history P hf c' s r
      end
  | RemoveSent cid :: r =>
    ~ In cid (ids (s_wait s)) ->
    exists c' ok, remove_read hf c cid = Some (c', ok) /\ (ok = true <-> In cid (ids (s_stored s))) /\
      history P hf c' (mkSpec (without cid (s_stored s)) (s_wait s)) r
  | RemoveAny cid :: r =>
    exists c' ok, remove_any hf c cid = Some (c', ok) /\ (ok = true <-> In cid (ids (s_stored s))) /\
      history P hf c' (mkSpec (without cid (s_stored s)) (without cid (s_wait s))) r
  | Erase cid also :: r =>
    (also = true -> In cid (ids (s_stored s)) -> In cid (ids (s_wait s))) -> (also = false -> ~ In cid (ids (s_wait s))) ->
    exists c' ok n, cat_remove hf c cid also = Some (c', (ok, n)) /\ (ok = true <-> In cid (ids (s_stored s))) /\
      n = match lookup (s_stored s) cid with
          | None => 0
          | Some b => 1 + (if also then 1 else 0) + (match it_key b with Some _ => 1 | None => 0 end)
          end /\
      history P hf c' (mkSpec (without cid (s_stored s)) (without cid (s_wait s))) r
  | Lookup cid :: r =>
    match entry_find c cid, lookup (s_stored s) cid with
    | Some e, Some b => describes e b
    | None, None => True
    | _, _ => False
    end /\ history P hf c s r
  | LookupKey k :: r =>
    (forall cid, cid_of_uuid hf c k = Some cid <-> exists b, In (cid, b) (s_stored s) /\ it_key b = Some k) /\ history P hf c s r
  | Expired t n :: r =>
    let l := get_expired c t n in
    let due := filter (fun w => it_exp (snd w) <=? t) (s_wait s) in
    NoDup l /\ (forall x, In x l -> In x (ids due)) /\
    N.of_nat (length l) = (if n =? 0 then N.of_nat (length due) else N.min n (N.of_nat (length due))) /\ history P hf c s r
  | Count :: r =>
    ct_num c = N.of_nat (length (s_stored s)) mod W64 /\
    ct_bytes c = fold_right N.add 0 (map (fun p => it_size (snd p)) (s_stored s)) mod W64 /\ history P hf c s r
  end.

(** Everything physically in the awaiting-send queues. *)
Definition all_queued (c : catalog) : list N :=
  flat_map (fun d : eid * list expmap => flat_map (fun em : expmap => flat_map (fun xq => flq_contents (snd xq)) em) (snd d)) (ct_dest c).
Definition queued_times (c : catalog) (cid : N) : nat := count_occ N.eq_dec (all_queued c) cid.

(** Nothing is queued that is not waiting, no bundle twice; what is queued is catalogued; an id that is not stored leads
    nowhere and no uuid leads to it. *)
Definition tidy (hf : hashes) (c : catalog) (s : spec) : Prop :=
  (forall cid, queued_times c cid = if in_dec N.eq_dec cid (ids (s_wait s)) then 1%nat else 0%nat) /\
  (forall cid, In cid (ids (s_wait s)) -> In cid (ids (s_stored s)) /\ entry_find c cid <> None) /\
  (forall cid, ~ In cid (ids (s_stored s)) -> entry_find c cid = None /\ forall k, cid_of_uuid hf c k <> Some cid).

(** Insertion by sequence, one queue: the numbers of [l] inserted one after the other, with the flags returned. *)
Fixpoint seq_run (c : catalog) (q : flq N) (l : list N) : option (flq N * list bool) :=
  match l with
  | [] => Some (q, [])
  | cid :: r =>
    match entry_find c cid with
    | None => None
    | Some e => match insert_by_sequence c q cid (ce_seq e) with
                | None => None
                | Some (q1, ok) => match seq_run c q1 r with None => None | Some (q', fl) => Some (q', ok :: fl) end
                end
    end
  end.
Fixpoint accepted (l : list N) (fl : list bool) : list N :=
  match l, fl with x :: r, b :: fr => if b then x :: accepted r fr else accepted r fr | _, _ => [] end.
Fixpoint ascending (l : list N) : Prop := match l with [] => True | x :: r => Forall (N.lt x) r /\ ascending r end.
