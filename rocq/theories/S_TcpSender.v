(** What C53 says: reports in order, bundles in one place, what is expected of the peer. *)
From Coq Require Import NArith List Bool.
From Verif Require Import Base M_TcpSender.
Import ListNotations.
Open Scope N_scope.

(** The user data of the bundles reported as sent, in order; the failure reports, in order. *)
Definition sent_of (l : list report) : list (option N) := flat_map (fun r => match r with Sent u => [u] | Failed _ _ => [] end) l.
Definition fails_of (l : list report) : list report := flat_map (fun r => match r with Sent _ => [] | Failed b u => [Failed b u] end) l.
(** The failure reports that elements still to be written would lead to: the bundles they hold. *)
Definition held (l : list elem) : list report := flat_map failed l.
(** How many bundles end in a list of segments. *)
Definition ends (l : list seg) : nat := length (filter w_end l).
(** A list without some of its elements. *)
Inductive Sublist {A} : list A -> list A -> Prop :=
| sub_nil : Sublist [] []
| sub_skip : forall x l m, Sublist l m -> Sublist l (x :: m)
| sub_keep : forall x l m, Sublist l m -> Sublist (x :: l) (x :: m).

(** The segments [l] carry the bundle completely: cut into nonempty pieces of at most [mx] bytes (0: one piece), end to end, the first one
    and the last one flagged. *)
Inductive carries (tag id mx size : N) : N -> list seg -> Prop :=
| carry_last : forall at_ g, w_tag g = tag -> w_id g = id -> w_start g = (at_ =? 0) -> w_end g = true -> w_total g = size ->
    at_ + w_len g = size -> (mx <> 0 -> w_len g <= mx) -> carries tag id mx size at_ [g]
| carry_more : forall at_ g l, w_tag g = tag -> w_id g = id -> w_start g = (at_ =? 0) -> w_end g = false -> w_total g = at_ + w_len g ->
    0 < w_len g -> w_len g <= mx -> carries tag id mx size (at_ + w_len g) l -> carries tag id mx size at_ (g :: l).

(** TCPCL version 3: all segments of a list of bundles; the peer acknowledges every segment it gets, in order, with the bytes of the bundle
    up to its end. *)
Definition data3 (c : cfg3) (l : list (bundle * N)) : list seg := flat_map (fun p => segments (fst p) 0 (c_frag c)) l.
Fixpoint honest3 (c : cfg3) (l : list ev3) (s : st3) : Prop :=
  match l with
  | [] => True
  | e :: r =>
    match e with
    | Ack3 n => exists g, nth_error (t_wire (v_snd s)) (length (v_acks s)) = Some g /\ n = w_total g
    | _ => True
    end /\ match step3 c e s with Some s' => honest3 c r s' | None => True end
  end.

(** TCPCL version 4: the same, and the caller keeps within the pipeline and the transfer limit of the peer. *)
Definition data4 (mru : N) (l : list (bundle * N * N)) : list seg := flat_map (fun p => segments (fst (fst p)) (snd p) mru) l.
Fixpoint honest4 (unacked tmru : N) (l : list ev4) (s : st4) : Prop :=
  match l with
  | [] => True
  | e :: r =>
    match e with
    | Ack4 a => exists g, nth_error (t_wire (x_snd s)) (length (x_acks s)) = Some g /\ a = ack_of g
    | Forward4 b _ => b_size b <= tmru /\ N.of_nat (length (x_acc s)) < N.of_nat (length (sent_of (x_out s))) + unacked
    | _ => True
    end /\ match step4 unacked e s with Some s' => honest4 unacked tmru r s' | None => True end
  end.
