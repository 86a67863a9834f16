(** Model of what a security source does with a bundle that it sends (common/bpsec/src/BpSecPolicyManager.cpp:797-856, 908-979, common/bpsec/src/BpSecBundleProcessor.cpp:903-1107, 1425-1628),
    as called from module/ingress/src/receive.cpp:1308. Cryptography is ideal: an HMAC is identified with the bytes that went into it; an encrypted block keeps its bytes and has k_encrypted. *)
From Coq Require Import PeanoNat NArith List Bool.
From Verif Require Import Base M_Uri M_Policy M_PolicyRx.
Import ListNotations.
Open Scope N_scope.

(** A block of the BundleViewV7 (common/bpcodec/include/codec/BundleViewV7.h, Bpv7CanonicalBlockView): besides what M_PolicyRx has, whether it is dirty, its rendered data (None: it was never rendered, m_dataPtr is not initialized, Bpv7CanonicalBlock.cpp:22),
    the data that its members would be rendered to (numbers stand for byte strings), and for integrity blocks what went into the HMAC of each target. *)
Record out := mkOut { b_blk : block; b_dirty : bool; b_data : option N; b_value : N; b_macs : list N }.
Definition blocks_of (bs : list out) : list block := map b_blk bs.
Definition numbers (bs : list out) : list N := map (fun b => k_number (b_blk b)) bs.

(** BundleViewV7.cpp:453-473, GetNextFreeCanonicalBlockNumber, of views whose mask is that of their blocks (C49): the least unused number from 2 to 63, or the one after the largest. *)
Definition candidates : list N := map N.of_nat (seq 2 62).
Definition next_number (used : list N) : N :=
  match find (fun n => negb (existsb (N.eqb n) used)) candidates with Some n => n | None => (fold_left N.max used 63 + 1) mod W64 end.

(** 191-322 with terminateBeforeLastBlock, RenderInPlace: blocks marked for deletion disappear and dirty blocks are encoded. None: it fails: the last block is not the payload block or is dirty, or (room)
    there is no room for the longer bundle or a block cannot be encoded. *)
Definition clean (b : out) : out := mkOut (b_blk b) false (if b_dirty b then Some (b_value b) else b_data b) (b_value b) (b_macs b).
Fixpoint last_block (bs : list out) : option out := match bs with [] => None | [b] => Some b | _ :: r => last_block r end.
Definition render (room : bool) (bs : list out) : option (list out) :=
  let kept := filter (fun b => negb (k_deleted (b_blk b))) bs in
  match last_block bs, last_block kept with
  | Some a, Some b =>
    if room && (k_type (b_blk a) =? 1) && (k_type (b_blk b) =? 1) && (k_number (b_blk b) =? 1) && negb (b_dirty b) then Some (map clean kept) else None
  | _, _ => None
  end.

(** BpSecPolicyManager.cpp:797-856, the first PopulateTargetArraysForSecuritySource. The types of a policy are enumerated as the list has them (a FragmentSet: ascending). 413-420 of BundleViewV7.cpp: only canonical
    blocks are looked at, also those marked for deletion. *)
Definition numbers_of (t : N) (bs : list out) : list N := map (fun b => k_number (b_blk b)) (filter (fun b => k_type (b_blk b) =? t) bs).
Definition bib_targets (ts : list N) (bs : list out) : list N := flat_map (fun t => numbers_of t bs) ts.
(** With the index of the placeholder for the new integrity block. *)
Fixpoint bcb_targets (ts : list N) (bs : list out) (acc : list N) (ph : option nat) : list N * option nat :=
  match ts with
  | [] => (acc, ph)
  | t :: r => if t =? 11 then bcb_targets r bs (acc ++ [0]) (Some (length acc)) else bcb_targets r bs (acc ++ numbers_of t bs) ph
  end.

(** Sent, dropped (false), or undefined behaviour. *)
Inductive sent := Sent (bs : list out) | NotSent | Undef.
(** What the surroundings answer: whether everything about variants and keys is all right for the two services, and whether rendering finds room after the first and second of them. *)
Record world := mkWorld { v_bib : bool; v_bcb : bool; v_room1 : bool; v_room2 : bool }.

(** BpSecBundleProcessor.cpp:1510-1615: the loop over the targets of an integrity block; [primary] is the primary block as rendered. The bytes of a target are read at 1553 from m_dataPtr, without looking at dirty. *)
Inductive hashed := Hashed (macs : list N) | HFail | HUndef.
Fixpoint hash_targets (primary : N) (bs : list out) (ts : list N) : hashed :=
  match ts with
  | [] => Hashed []
  | t :: r =>
    if t =? 0 then match hash_targets primary bs r with Hashed l => Hashed (primary :: l) | x => x end
    else match find_number t (blocks_of bs) with
    | None => HFail
    | Some i =>
      match nth_error bs i with
      | None => HFail
      | Some b =>
        if k_encrypted (b_blk b) then HFail
        else match b_data b with
        | None => HUndef
        | Some d => match hash_targets primary bs r with Hashed l => Hashed (d :: l) | x => x end
        end
      end
    end
  end.
(** 1425-1628, TryAddBundleIntegrity, up to rendering: the new block is put first (BundleViewV7.cpp:368-375). *)
Definition new_block (t n : N) (ss : N * N) (ts macs : list N) : out := mkOut (mkBlk t n (mkAsb ss ts (map (fun _ => true) ts)) false false) true None 0 macs.
Definition add_integrity (ok : bool) (primary : N) (ss : N * N) (ts : list N) (bs : list out) : sent :=
  match ts with
  | [] => NotSent
  | _ => if ok then match hash_targets primary bs ts with Hashed l => Sent (new_block 11 (next_number (numbers bs)) ss ts l :: bs) | HFail => NotSent | HUndef => Undef end else NotSent
  end.
(** 1004-1094: the loop over the targets of a confidentiality block. *)
Definition seal (b : out) : out :=
  mkOut (mkBlk (k_type (b_blk b)) (k_number (b_blk b)) (k_asb (b_blk b)) (k_deleted (b_blk b)) true) (b_dirty b) (b_data b) (b_value b) (b_macs b).
Fixpoint seal_targets (ts : list N) (bs : list out) : option (list out) :=
  match ts with
  | [] => Some bs
  | t :: r =>
    match find_number t (blocks_of bs) with
    | None => None
    | Some i =>
      match nth_error bs i with
      | None => None
      | Some b => match b_data b with None => None | Some _ => if b_dirty b then None else seal_targets r (upd i seal bs) end
      end
    end
  end.
(** 903-1107, TryEncryptBundle, up to rendering. *)
Definition encrypt (ok : bool) (ss : N * N) (ts : list N) (bs : list out) : sent :=
  match ts with
  | [] => NotSent
  | _ => if ok then match seal_targets ts bs with Some bs1 => Sent (new_block 12 (next_number (numbers bs)) ss ts [] :: bs1) | None => NotSent end else NotSent
  end.
Definition then_render (room : bool) (x : sent) : sent := match x with Sent bs => match render room bs with Some bs1 => Sent bs1 | None => NotSent end | y => y end.

(** BpSecPolicyManager.cpp:908-961, ProcessOutgoingBundle, with the targets of 973. *)
Definition outgoing (w : world) (primary : N) (ss : N * N) (p : policy) (bs : list out) : sent :=
  let tb := match p_int p with Some st => bib_targets (s_targets st) bs | None => [] end in
  let tc := match p_conf p with Some st => bcb_targets (s_targets st) bs [] None | None => ([], None) end in
  match (match p_int p with
         | None => Sent bs
         | Some _ => then_render (v_room1 w) (add_integrity (v_bib w) primary ss tb bs)
         end) with
  | Sent bs1 =>
    let ts := match p_int p, snd tc, bs1 with Some _, Some i, b :: _ => upd i (fun _ => k_number (b_blk b)) (fst tc) | _, _, _ => fst tc end in
    match p_conf p with
    | None => Sent bs1
    | Some _ => then_render (v_room2 w) (encrypt (v_bcb w) ss ts bs1)
    end
  | x => x
  end.
(** 964-979, FindPolicyAndProcessOutgoingBundle (the cache does not matter: C58). *)
Definition send (w : world) (f : filters) (primary : N) (me src dst : N * N) (bs : list out) : sent :=
  match find_policy f me src dst Source with Some p => outgoing w primary me p bs | None => Sent bs end.
