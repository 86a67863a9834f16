(** Storage (M_StorageIf; ZmqStorageInterface.cpp is Zsi below) and egress (M_Egress; EgressAsync.cpp is Ea) together, joined by the two sockets
    between them (Zsi:280-288, 300-341; Ea:175-177, 221-224). Storage sends bundles (Zsi:964-969, 1913-1916; read at Ea:452-468, 504-600); egress
    sends answers, bundles that failed and telemetry (Ea:535-541, 684-773, 809-914; read at Zsi:1261-1527). Each socket delivers what was sent, in
    order and once; when is the environment's choice. The other sockets of both modules are left to the environment. *)
From Coq Require Import NArith List Bool.
From Verif Require Import Base M_CustodyId M_StorageIf.
From Verif Require M_Egress.
Import ListNotations.
Open Scope N_scope.

(** Both modules, and how many of the messages sent each way have been read. *)
Record world := mkW { w_s : state; w_e : M_Egress.state; w_down : nat; w_up : nat }.
(** Zsi:1270, 1415, 1441: what kind of event a message from egress is. An answer without a bundle has nothing that is
    read as one. *)
Definition no_bundle : bundle := mkB 0 0 (0, 0) false 0 0 true.
Definition arrival (m : M_Egress.to_storage) : event :=
  match m with
  | M_Egress.SAck a b => EgressAck a (match b with Some b => b | None => no_bundle end)
  | M_Egress.SFailed i b => Failed i b
  | M_Egress.STelem l => Telemetry l
  end.
(** Something else happens to storage or to egress; egress reads the next bundle of storage; storage reads the next message of egress. *)
Inductive wevent := AtStorage (x : label) | AtEgress (e : M_Egress.event) | ToEgress (f : M_Egress.forwarded) (ok1 ok2 : bool)
  | ToStorage (ids : list N) (bits reads : list bool).
(** None: undefined behaviour, or there is nothing to read. *)
Definition wstep (cfg : config) (v : wevent) (w : world) : option world :=
  match v with
  | AtStorage x => match step cfg x (w_s w) with Some s => Some (mkW s (w_e w) (w_down w) (w_up w)) | None => None end
  | AtEgress e => match M_Egress.step e (w_e w) with Some t => Some (mkW (w_s w) t (w_down w) (w_up w)) | None => None end
  | ToEgress f ok1 ok2 =>
    match nth_error (g_egress (w_s w)) (w_down w) with
    | None => None
    | Some m => match M_Egress.step (M_Egress.Bundle M_Egress.Storage m f ok1 ok2) (w_e w) with
                | Some t => Some (mkW (w_s w) t (S (w_down w)) (w_up w))
                | None => None
                end
    end
  | ToStorage ids bits reads =>
    match nth_error (M_Egress.g_storage (w_e w)) (w_up w) with
    | None => None
    | Some m => match step cfg (mkL (arrival m) ids bits reads) (w_s w) with
                | Some s => Some (mkW s (w_e w) (w_down w) (S (w_up w)))
                | None => None
                end
    end
  end.
Fixpoint wexec (cfg : config) (l : list wevent) (w : world) : option world :=
  match l with [] => Some w | v :: r => match wstep cfg v w with Some w1 => wexec cfg r w1 | None => None end end.
(** Both modules as they start. *)
Definition wstart (max : N) (oc : list M_Egress.ocfg) : option world :=
  match M_Egress.init max oc with Some t => Some (mkW start t 0 0) | None => None end.
