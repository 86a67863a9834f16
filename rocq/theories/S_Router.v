(** What the other modules know from the router's messages, and what a route should be. *)
From Coq Require Import NArith ZArith List Bool.
From Verif Require Import Base M_Cgr S_Cgr M_Router.
Import ListNotations.

(** The link state last announced, the last message being first; a link not heard of is down. *)
Fixpoint told_link (sent : list msg) (i : N) : bool :=
  match sent with
  | [] => false
  | LinkUp j :: r => if N.eqb i j then true else told_link r i
  | LinkDown j :: r => if N.eqb i j then false else told_link r i
  | _ :: r => told_link r i
  end.
(** The next hop last announced for a destination. *)
Fixpoint told_route (sent : list msg) (d : N) : option N :=
  match sent with
  | [] => None
  | RouteTo e h :: r => if N.eqb d e then Some h else told_route r d
  | _ :: r => told_route r d
  end.
(** The outducts have different indices and different next hops, none of which means that there is no route. *)
Definition telem_ok (telem : list (N * N * bool)) : Prop :=
  NoDup (map (fun x => fst (fst x)) telem) /\ NoDup (map (fun x => snd (fst x)) telem) /\ ~ In (2 ^ 64 - 1)%N (map (fun x => snd (fst x)) telem).
(** Contacts whose numbers fit the types used in all places. *)
Definition row_ok (w : row) : Prop :=
  (w_source w < 2 ^ 31 /\ w_dest w < 2 ^ 31 /\ w_start w <= w_end w /\ w_end w < 2 ^ 31 /\ w_owlt w < 2 ^ 62 /\ w_rate w < 2 ^ 64)%N.
(** The contact is under way from here over a link that is down. *)
Definition blocked (me : N) (now : Z) (down : N -> Prop) (c : contact) : Prop :=
  (k_start c <= now <= k_end c)%Z /\ k_frm c = me /\ down (k_to c).
(** [h] is the first stop of an earliest journey to [d], or there is none and [h] says so. *)
Definition good_hop (plan : list contact) (me : N) (now : Z) (down : N -> Prop) (d h : N) : Prop :=
  let use c t := open c t /\ ~ blocked me now down c in
  (exists c l t, journey use plan me now d t (c :: l) /\ k_to c = h /\ forall t' l', journey use plan me now d t' l' -> (t <= t')%Z) \/
  (h = 2 ^ 64 - 1 /\ forall t l, ~ journey use plan me now d t l)%N.
(** The link to the neighbour [h] is down. *)
Definition link_down (s : rt) (h : N) : Prop := exists i o, get (t_outs s) i = Some o /\ o_hop o = h /\ is_up o = false.
(** The router's own time. *)
Definition router_time (s : rt) : N := t_now s / 1000000 - t_sub s.
(** The contacts loaded fit, and so does the time at the end. *)
Definition input_ok (i : input) : Prop := match i with IPlan rows _ _ => Forall row_ok rows | _ => True end.
Fixpoint end_time (now : N) (l : list input) : N :=
  match l with [] => now | ITime dt :: r => end_time (now + dt) r | _ :: r => end_time now r end.
