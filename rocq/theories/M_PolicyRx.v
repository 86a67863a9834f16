(** Model of what is done with the security blocks of a received bundle (common/bpsec/src/BpSecPolicyManager.cpp:246-795,
    common/bpsec/src/BpSecBundleProcessor.cpp:594-897, 1118-1423). The cryptography itself is not modelled: whether a target can be decrypted or its
    HMAC is right, and what a decrypted block says, is given by an [oracle]. Contents of blocks other than security blocks are not modelled. *)
From Coq Require Import PeanoNat NArith List Bool.
From Verif Require Import Base M_Uri M_Policy.
Import ListNotations.
Open Scope N_scope.

(** What a security block says (common/bpcodec/include/codec/bpv7.h:558-563): its security source, its targets and its results, true for those
    that are an authentication tag or expected HMAC (Bpv7BpSecExtensionBlocks.cpp:604-615, 744-746, 820-822). *)
Record asb := mkAsb { a_source : N * N; a_targets : list N; a_results : list bool }.
(** A block of the BundleViewV7: type code, block number, markedForDeletion, isEncrypted, and for security blocks (types 11, BIB, and 12, BCB)
    what they say; that the object of such a block has the class of its type is assumed (the casts at BpSecPolicyManager.cpp:579-583 and 691-695 succeed). *)
Record block := mkBlk { k_type : N; k_number : N; k_asb : asb; k_deleted : bool; k_encrypted : bool }.
Definition delete (b : block) : block := mkBlk (k_type b) (k_number b) (k_asb b) true (k_encrypted b).
Definition undelete (b : block) : block := mkBlk (k_type b) (k_number b) (k_asb b) false (k_encrypted b).
Definition set_plain (a : asb) (b : block) : block := mkBlk (k_type b) (k_number b) a (k_deleted b) false.

(** Bpv7CanonicalBlockViews are changed in place. *)
Fixpoint upd {A} (i : nat) (f : A -> A) (l : list A) : list A :=
  match l, i with [], _ => [] | x :: r, O => f x :: r | x :: r, S i => x :: upd i f r end.
(** BundleViewV7.cpp:421-428, GetCanonicalBlockByBlockNumber: the first one with the number (its position). *)
Fixpoint find_number (n : N) (bs : list block) : option nat :=
  match bs with [] => None | b :: r => if k_number b =? n then Some O else match find_number n r with Some i => Some (S i) | None => None end end.
Definition mark (n : N) (bs : list block) : list block := match find_number n bs with Some i => upd i delete bs | None => bs end.

(** BpSecBundleProcessor.h:60-72: an error: the index of the target (None: UINT64_MAX, all targets) and its kind. MISSING is not among those that
    DoFailureEvent is called with: the list is assigned at BpSecPolicyManager.cpp:641 and 751. *)
Inductive code := Corrupted | Misconfigured.
Definition err : Type := option nat * code.
(** Keep: true, false: the bundle is dropped. Ub: undefined behaviour. *)
Inductive res := Keep (bs : list block) | Drop | Ub.

(** The failure events of a policy's event set (common/config/include/BpSecConfig.h:50-60, 84-89), by role and kind of error: None if the event has no
    actions given, otherwise the action mask. Bit 0: remove the operation, bit 1: remove its target block, bit 3: fail forwarding. *)
Record lut := mkLut { e_corrupted_acceptor : option N; e_misconfigured_acceptor : option N; e_corrupted_verifier : option N; e_misconfigured_verifier : option N }.
Definition event (l : lut) (acceptor : bool) (c : code) : option N :=
  match acceptor, c with
  | true, Corrupted => e_corrupted_acceptor l
  | true, Misconfigured => e_misconfigured_acceptor l
  | false, Corrupted => e_corrupted_verifier l
  | false, Misconfigured => e_misconfigured_verifier l
  end.

(** std::vector::erase. *)
Fixpoint erase {A} (i : nat) (l : list A) : list A := match l, i with [], _ => [] | _ :: r, O => r | x :: r, S i => x :: erase i r end.

(** BpSecPolicyManager.cpp:246-256, DoesAsbTargetPayloadBlock. *)
Definition targets_payload (a : asb) : bool := existsb (N.eqb 1) (a_targets a).
(** 258-285, RemoveSopByGreatestToLeastIndex. None: it returns false. *)
Definition erase_op (j : nat) (b : block) : block :=
  let a := mkAsb (a_source (k_asb b)) (erase j (a_targets (k_asb b))) (erase j (a_results (k_asb b))) in
  mkBlk (k_type b) (k_number b) a (match a_targets a with [] => true | _ => k_deleted b end) (k_encrypted b).
Definition remove_op (pos : nat) (j : option nat) (bs : list block) : option (list block) :=
  match j with
  | None => Some (upd pos delete bs)
  | Some j =>
    match nth_error bs pos with
    | None => None
    | Some b => if (length (a_targets (k_asb b)) =? length (a_results (k_asb b)))%nat && (j <? length (a_targets (k_asb b)))%nat then Some (upd pos (erase_op j) bs) else None
    end
  end.
(** 288-306, RemoveSopTargetBlock. *)
Definition remove_targets (a : asb) (canonical : N) (bs : list block) : list block :=
  if canonical =? U64MAX then fold_left (fun bs t => mark t bs) (a_targets a) bs else mark canonical bs.

(** 308-375, DoFailureEventSopMissingAtAcceptor. *)
Definition fail_missing (mask : N) (a : asb) (integrity : bool) (bs : list block) : res :=
  if negb integrity && targets_payload a then Drop
  else if N.testbit mask 3 then Drop
  else if N.testbit mask 1 then if targets_payload a then Drop else Keep (remove_targets a U64MAX bs)
  else Keep bs.

(** 386-565, the body of the loop of DoFailureEvent for one error. The index into the targets at 390-391 is not checked. *)
Definition fail_one (l : lut) (acceptor integrity : bool) (pos : nat) (e : err) (bs : list block) : res :=
  match nth_error bs pos with
  | None => Ub
  | Some b =>
    match match fst e with None => Some U64MAX | Some j => nth_error (a_targets (k_asb b)) j end with
    | None => Ub
    | Some canonical =>
      let payload := (canonical =? 1) || (canonical =? U64MAX) in
      if acceptor then
        if negb integrity && payload then Drop
        else
          match (if negb integrity then match remove_op pos (fst e) bs with
                    | None => None
                    | Some bs1 => Some (remove_targets (match nth_error bs1 pos with Some b1 => k_asb b1 | None => k_asb b end) canonical bs1)
                    end
                 else Some bs) with
          | None => Drop
          | Some bs2 =>
            match event l true (snd e) with
            | None => Drop
            | Some mask =>
              match (if integrity then remove_op pos (fst e) bs2 else Some bs2) with
              | None => Drop
              | Some bs3 =>
                if N.testbit mask 3 then Drop
                else if N.testbit mask 1 then
                  if payload then Drop
                  else if integrity then Keep (remove_targets (match nth_error bs3 pos with Some b1 => k_asb b1 | None => k_asb b end) canonical bs3) else Keep bs3
                else Keep bs3
              end
            end
          end
      else
        match event l false (snd e) with
        | None => Drop
        | Some mask =>
          match (if N.testbit mask 0 then remove_op pos (fst e) bs else Some bs) with
          | None => Drop
          | Some bs1 =>
            if N.testbit mask 3 then Drop
            else if N.testbit mask 1 then
              if payload then Drop else Keep (remove_targets (match nth_error bs1 pos with Some b1 => k_asb b1 | None => k_asb b end) canonical bs1)
            else Keep bs1
          end
        end
    end
  end.
(** 377-568. *)
Fixpoint fail_all (l : lut) (acceptor integrity : bool) (pos : nat) (es : list err) (bs : list block) : res :=
  match es with
  | [] => Keep bs
  | e :: r => match fail_one l acceptor integrity pos e bs with Keep bs1 => fail_all l acceptor integrity pos r bs1 | x => x end
  end.

(** What the cryptography says, for the security block at a position: whether one of the checks before the loop over the targets fails (variant,
    scope, initialization vector, keys: BpSecBundleProcessor.cpp:602-728, 1133-1225), and for each index of a target whether it can be decrypted (820-857; if so, what it
    says if it is a security block and whether it could be parsed, 866-872), or whether its HMAC is right (1371-1409). *)
Inductive opened := Failed | Unreadable (a : asb) | Readable (a : asb).
Record oracle := mkOr { o_bcb : nat -> option code; o_open : nat -> nat -> opened; o_bib : nat -> option code; o_hmac : nat -> nat -> bool }.

(** BpSecPolicyManager.cpp:630-638, 741-749: the mask of the expected types. *)
Definition types_mask (ts : list N) : N := fold_left (fun m t => N.lor m (N.shiftl 1 t)) ts 0.
(** BpSecBundleProcessor.cpp:757-884: the loop over the targets of a BCB. *)
Fixpoint open_targets (expected : N) (o : nat -> opened) (verify : bool) (ts : list N) (j : nat) (bs : list block) (es : list err) (got : N) : list block * list err * N :=
  match ts with
  | [] => (bs, es, got)
  | t :: r =>
    match find_number t bs with
    | None => open_targets expected o verify r (S j) bs ((Some j, Corrupted) :: es) got
    | Some i =>
      match nth_error bs i with
      | None => (bs, es, got)
      | Some b =>
        if (k_type b <=? 63) && negb (N.testbit expected (k_type b)) then open_targets expected o verify r (S j) bs ((Some j, Misconfigured) :: es) got
        else
          let got1 := if k_type b <=? 63 then N.lor got (N.shiftl 1 (k_type b)) else got in
          match o j with
          | Failed => open_targets expected o verify r (S j) bs ((Some j, Corrupted) :: es) got1
          | Unreadable a => if verify then open_targets expected o verify r (S j) bs es got1
                            else open_targets expected o verify r (S j) (upd i (set_plain a) bs) ((Some j, Corrupted) :: es) got1
          | Readable a => if verify then open_targets expected o verify r (S j) bs es got1
                          else open_targets expected o verify r (S j) (upd i (set_plain a) bs) es got1
          end
      end
    end
  end.
(** 594-897, TryDecryptBundleByIndividualBcb. The assignment at 893 is of false for verifiers, whatever the block was marked before. *)
Definition tags (a : asb) : nat := length (filter (fun r => r) (a_results a)).
Definition try_decrypt (expected : N) (pre : option code) (o : nat -> opened) (verify : bool) (pos : nat) (a : asb) (bs : list block) : list block * list err :=
  match pre with
  | Some c => (bs, [(None, c)])
  | None =>
    if negb (tags a =? length (a_targets a))%nat then (bs, [(None, Corrupted)])
    else match a_targets a with
    | [] => (bs, [(None, Corrupted)])
    | _ =>
      match open_targets expected o verify (a_targets a) 0 bs [] 0 with
      | (bs1, [], got) => if got =? expected then (if verify then upd pos undelete bs1 else upd pos delete bs1, []) else (bs1, [(None, Misconfigured)])
      | (bs1, es, _) => (bs1, es)
      end
    end
  end.
(** 1255-1410: the loop over the targets of a BIB. *)
Fixpoint check_targets (expected : N) (o : nat -> bool) (ts : list N) (j : nat) (bs : list block) (es : list err) (got : N) : list err * N :=
  match ts with
  | [] => (es, got)
  | t :: r =>
    if t =? 0 then
      if N.testbit expected 0 then check_targets expected o r (S j) bs (if o j then es else (Some j, Corrupted) :: es) (N.lor got 1)
      else check_targets expected o r (S j) bs ((Some j, Misconfigured) :: es) got
    else
      match find_number t bs with
      | None => check_targets expected o r (S j) bs ((Some j, Corrupted) :: es) got
      | Some i =>
        match nth_error bs i with
        | None => (es, got)
        | Some b =>
          if k_encrypted b then check_targets expected o r (S j) bs ((Some j, Misconfigured) :: es) got
          else if (k_type b <=? 63) && negb (N.testbit expected (k_type b)) then check_targets expected o r (S j) bs ((Some j, Misconfigured) :: es) got
          else check_targets expected o r (S j) bs (if o j then es else (Some j, Corrupted) :: es) (if k_type b <=? 63 then N.lor got (N.shiftl 1 (k_type b)) else got)
        end
      end
  end.
(** 1118-1423, TryVerifyBundleIntegrityByIndividualBib. The assignment at 1419 is of false for verifiers. *)
Definition try_verify (expected : N) (pre : option code) (o : nat -> bool) (accept : bool) (pos : nat) (encrypted : bool) (a : asb) (bs : list block) : list block * list err :=
  if encrypted then (bs, [(None, Misconfigured)])
  else match pre with
  | Some c => (bs, [(None, c)])
  | None =>
    if negb (tags a =? length (a_targets a))%nat then (bs, [(None, Corrupted)])
    else match a_targets a with
    | [] => (bs, [(None, Corrupted)])
    | _ =>
      match check_targets expected o (a_targets a) 0 bs [] 0 with
      | ([], got) => if got =? expected then (if accept then upd pos delete bs else upd pos undelete bs, []) else (bs, [(None, Misconfigured)])
      | (es, _) => (bs, es)
      end
    end
  end.

(** The manager's configuration: the policies (C58), the event set behind the settings of a policy, m_actionMaskSopMissingAtAcceptor. *)
Record config := mkCfg { g_filters : filters; g_events : N -> lut; g_missing : N }.
(** Types above 63 are shifted out of 64 bits (undefined, BpSecPolicyManager.cpp:636, 747). A policy for confidentiality that has BCBs (12) as targets, against RFC 9172, 3.8, is outside
    of the model: the loop at 758 would then run over targets that are replaced by what it decrypts. Both are Ub here. *)
Definition targets_ok (integrity : bool) (ts : list N) : bool := forallb (fun t => (t <=? 63) && (integrity || negb (t =? 12))) ts.

(** BpSecPolicyManager.cpp:577-683: one confidentiality block. Policies are looked up with a cache, which does not change the answer (C58). *)
Definition do_bcb (g : config) (o : oracle) (final : bool) (src dst : N * N) (pos : nat) (bs : list block) : res :=
  match nth_error bs pos with
  | None => Ub
  | Some b =>
    let run p verify :=
      match p_conf p with
      | None => Keep bs
      | Some st =>
        if targets_ok false (s_targets st) then
          match try_decrypt (types_mask (s_targets st)) (o_bcb o pos) (o_open o pos) verify pos (k_asb b) bs with
          | (bs1, es) => fail_all (g_events g (s_other st)) (negb verify) false pos es bs1
          end
        else Ub
      end in
    match find_policy (g_filters g) (a_source (k_asb b)) src dst Acceptor with
    | Some p => run p false
    | None =>
      if final then fail_missing (g_missing g) (k_asb b) false bs
      else match find_policy (g_filters g) (a_source (k_asb b)) src dst Verifier with Some p => run p true | None => Keep bs end
    end
  end.
(** 689-792: one integrity block. *)
Definition do_bib (g : config) (o : oracle) (final : bool) (src dst : N * N) (pos : nat) (bs : list block) : res :=
  match nth_error bs pos with
  | None => Ub
  | Some b =>
    let run p accept :=
      match p_int p with
      | None => Keep bs
      | Some st =>
        if targets_ok true (s_targets st) then
          match try_verify (types_mask (s_targets st)) (o_bib o pos) (o_hmac o pos) accept pos (k_encrypted b) (k_asb b) bs with
          | (bs1, es) => fail_all (g_events g (s_other st)) accept true pos es bs1
          end
        else Ub
      end in
    match find_policy (g_filters g) (a_source (k_asb b)) src dst Acceptor with
    | Some p => run p true
    | None =>
      if final then fail_missing (g_missing g) (k_asb b) true bs
      else match find_policy (g_filters g) (a_source (k_asb b)) src dst Verifier with Some p => run p false | None => Keep bs end
    end
  end.
(** BundleViewV7.cpp:413-420, GetCanonicalBlocksByType. *)
Fixpoint of_type (t : N) (i : nat) (bs : list block) : list nat :=
  match bs with [] => [] | b :: r => if k_type b =? t then i :: of_type t (S i) r else of_type t (S i) r end.
Fixpoint each (f : nat -> list block -> res) (ps : list nat) (bs : list block) : res :=
  match ps with [] => Keep bs | p :: r => match f p bs with Keep bs1 => each f r bs1 | x => x end end.
(** 570-795, ProcessReceivedBundle at node [me], for a bundle with this source, destination and blocks. *)
Definition process (g : config) (o : oracle) (me : N) (src dst : N * N) (bs : list block) : res :=
  let final := fst dst =? me in
  match each (do_bcb g o final src dst) (of_type 12 0 bs) bs with
  | Keep bs1 => each (do_bib g o final src dst) (of_type 11 0 bs1) bs1
  | x => x
  end.
