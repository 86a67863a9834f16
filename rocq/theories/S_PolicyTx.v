(** What a security source is to do, independently of how. *)
From Coq Require Import PeanoNat NArith List Bool.
From Verif Require Import Base M_Uri M_Policy M_PolicyRx S_PolicyRx M_PolicyTx.
Import ListNotations.
Open Scope N_scope.

Definition num (b : out) : N := k_number (b_blk b).
Definition typ (b : out) : N := k_type (b_blk b).
(** A bundle as it was loaded: rendered and unchanged, with different numbers. *)
Definition loaded (bs : list out) : Prop :=
  (forall b, In b bs -> k_deleted (b_blk b) = false /\ b_dirty b = false /\ b_data b <> None) /\ NoDup (map num bs) /\ forall b, In b bs -> num b <> 0 /\ num b < U64MAX - 1.
(** A new security block from ss, with a number that is not in bs. *)
Definition new_security (t : N) (ss : N * N) (bs : list out) (x : out) : Prop :=
  typ x = t /\ a_source (k_asb (b_blk x)) = ss /\ k_deleted (b_blk x) = false /\ k_encrypted (b_blk x) = false /\ b_dirty x = false /\ 2 <= num x /\ (forall b, In b bs -> num b <> num x) /\
  a_results (k_asb (b_blk x)) = map (fun _ => true) (a_targets (k_asb (b_blk x))) /\ a_targets (k_asb (b_blk x)) <> [].
(** The integrity block x signs exactly the blocks of these types, as they are. *)
Definition signs (ts : list N) (bs : list out) (x : out) : Prop :=
  (forall n, In n (a_targets (k_asb (b_blk x))) <-> exists b, In b bs /\ num b = n /\ In (typ b) ts) /\
  (forall j n, nth_error (a_targets (k_asb (b_blk x))) j = Some n -> exists b d, In b bs /\ num b = n /\ k_encrypted (b_blk b) = false /\ b_data b = Some d /\ nth_error (b_macs x) j = Some d).
(** The targets of a confidentiality block: the blocks of these types, of integrity blocks only the new one. *)
Definition covers (ts : list N) (bs : list out) (bib : option out) (x : out) : Prop :=
  forall n, In n (a_targets (k_asb (b_blk x))) <-> (exists b, In b bs /\ num b = n /\ In (typ b) ts /\ typ b <> 11) \/ (exists b, bib = Some b /\ num b = n /\ In 11 ts).
Definition sealed (ts : list N) (b : out) : out := if existsb (N.eqb (num b)) ts
  then mkOut (mkBlk (typ b) (num b) (k_asb (b_blk b)) (k_deleted (b_blk b)) true) (b_dirty b) (b_data b) (b_value b) (b_macs b) else b.

(** What is sent. *)
Definition outcome_ok (ss : N * N) (p : policy) (bs bs' : list out) : Prop :=
  exists bib bs1, (match p_int p with
    | None => bs1 = bs /\ bib = None
    | Some st => exists x, bib = Some x /\ bs1 = x :: bs /\ new_security 11 ss bs x /\ signs (s_targets st) bs x
    end) /\
  match p_conf p with
  | None => bs' = bs1
  | Some st => exists y, bs' = y :: map (sealed (a_targets (k_asb (b_blk y)))) bs1 /\ new_security 12 ss bs1 y /\ covers (s_targets st) bs bib y
  end.

(** The answers of the cryptography are right for this bundle: keys are all right, what was encrypted can be decrypted, and an HMAC is right if it is of the target's bytes. *)
Definition honest (o : oracle) (bs : list out) : Prop :=
  (forall pos, o_bcb o pos = None /\ o_bib o pos = None) /\
  forall pos b j t c, nth_error bs pos = Some b -> nth_error (a_targets (k_asb (b_blk b))) j = Some t -> In c bs -> num c = t ->
    o_open o pos j = Readable (k_asb (b_blk c)) /\ (forall d, b_data c = Some d -> nth_error (b_macs b) j = Some d -> o_hmac o pos j = true).
(** Every type that is named occurs. *)
Definition present (ts : list N) (bs : list out) : Prop := forall t, In t ts -> exists b, In b bs /\ typ b = t.
