(** Vocabulary for C64. *)
From Coq Require Import PeanoNat NArith List Bool.
From Verif Require Import Base M_RtpStream.
Import ListNotations.
Open Scope N_scope.

Definition bytes (l : list N) : Prop := Forall (fun b => b < 256) l.
(** A packet with its size in front, in 8 bytes, least significant first. *)
Definition framed (p l : list N) : Prop :=
  exists h, l = h ++ p /\ bytes h /\ length h = 8%nat /\ fold_right (fun b v => b + 256 * v) 0 h = N.of_nat (length p).
(** A bundle of packets. *)
Definition bundle_of (ps : list (list N)) (l : list N) : Prop := exists ls, Forall2 framed ps ls /\ l = concat ls.
(** A packet that is used: at least 12 bytes, and the highest bit is set. *)
Definition usable (p : list N) : bool := (12 <=? length p)%nat && (128 <=? hd 0 p).
