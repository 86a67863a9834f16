(** Vocabulary for C61. *)
From Coq Require Import PeanoNat NArith List Bool.
From Verif Require Import Base M_Encap.
Import ListNotations.
Open Scope N_scope.

Definition bytes (l : list N) : Prop := Forall (fun b => b < 256) l.
(** The number that the bytes are, most significant first. *)
Fixpoint value (l : list N) : N := match l with [] => 0 | b :: r => b * 256 ^ N.of_nat (length r) + value r end.
(** A header with length of length k: type and k, 2^(k-1)-1 bytes of 0, and 2^(k-1) bytes of packet length. *)
Definition layout (ty : N) (k : nat) (total : N) (hd : list N) : Prop :=
  exists l, hd = ty + N.of_nat k :: repeat 0 (2 ^ (k - 1) - 1) ++ l /\ length l = (2 ^ (k - 1))%nat /\ bytes l /\ value l = total.
(** What is sent for a payload. *)
Definition framed (ty : N) (payload : list N) (s : list N) : Prop := exists hd, get_header ty (N.of_nat (length payload)) = Some hd /\ s = hd ++ payload.
(** What the callback gets for a payload. *)
Definition received (keep : bool) (ty : N) (payload : list N) (p : packet) : Prop :=
  exists hd, get_header ty (N.of_nat (length payload)) = Some hd /\ p = mkPacket (if keep then hd ++ payload else payload) (N.of_nat (length payload)) (N.of_nat (length hd)).
(** The length that a header says. *)
Definition said (hd : list N) : N := value (skipn (length hd / 2) hd).
