(** C64: RTP packets that are streamed in bundles come out as they went in; and what the receiver does with other payloads. *)
From Coq Require Import PeanoNat Compare_dec NArith List Bool Lia ZifyBool ZifyN ZifyNat.
From Verif Require Import Base M_RtpStream S_RtpStream L_RtpStream.
Import ListNotations.
Open Scope N_scope.

(** Packets that are used are sent in their order in bundles of as many as configured; from 1 to that many, the newest, are held back; nothing is written beyond a bundle's end. *)
Theorem C64_packets_are_bundled_in_order : forall per ps, (1 <= per)%nat -> Forall bytes ps -> Forall (fun p => N.of_nat (length p) < 18446744073709551616) ps ->
  exists s groups held, send (N.of_nat per) sender0 ps = Some s /\ Forall2 bundle_of groups (t_out s) /\ Forall (fun g => length g = per) groups /\
  filter usable ps = concat groups ++ held /\ (length held <= per)%nat /\ (filter usable ps <> [] -> held <> []).
Proof.
  intros per ps P B LN. destruct (sinv_run per ps [] sender0 P) as [s [R [gs [pt [G [O [_ [_ [L C]]]]]]]]]; [exists [], []; cbn; auto 8|]. cbn [app] in C.
  assert (FE : filter accepted ps = filter usable ps) by (apply filter_ext_in; intros p I; apply accepted_usable; rewrite Forall_forall in B; apply B; exact I). rewrite FE in C.
  exists s, gs, (match t_current s with None => [] | Some f => pt ++ [f] end). split; [exact R|].
  assert (EU : filter usable ps = concat gs ++ match t_current s with None => [] | Some f => pt ++ [f] end) by (destruct (t_current s); [exact C|destruct C as [C [_ ->]]; rewrite C; reflexivity]).
  split; [|split; [exact G|split; [exact EU|split]]].
  - rewrite O. assert (IN : forall g p, In g gs -> In p g -> N.of_nat (length p) < 18446744073709551616).
    { intros g p I1 I2. rewrite Forall_forall in LN. apply LN. assert (X : In p (filter usable ps)) by (rewrite EU; apply in_or_app; left; apply in_concat; exists g; auto). apply filter_In in X. tauto. }
    clear - IN. induction gs as [|g gs IH]; cbn [map]; constructor; [|apply IH; intros; apply (IN g0); [right|]; assumption]. exists (map fr g). split; [|reflexivity]. assert (X := IN g). clear IN IH. induction g as [|p g IH]; cbn [map]; constructor; [apply framed_le; apply X; left; reflexivity|apply IH; intros q I1 I2; apply X; [left; reflexivity|right; exact I2]].
  - destruct (t_current s); [rewrite app_length; cbn [length]; lia|cbn [length]; lia].
  - intros NE H. destruct (t_current s); [apply (f_equal (@length _)) in H; rewrite app_length in H; cbn [length] in H; lia|]. apply NE. tauto.
Qed.
Print Assumptions C64_packets_are_bundled_in_order.
(** The receiver gets exactly the packets of a bundle, in order; and any other payload makes it read beyond the end of the vector. *)
Theorem C64_receiving_is_exact : forall l, bytes l -> (forall ps, receive l = Done ps <-> (bundle_of ps l /\ ps <> [])) /\ ((forall ps, ps <> [] -> ~ bundle_of ps l) -> receive l = Beyond) /\ receive l <> Fuel.
Proof.
  intros l B. assert (D : forall ps, receive l = Done ps <-> (bundle_of ps l /\ ps <> [])).
  { intro ps. split; [apply split_only; exact B|]. intros [X NE]. apply (split_bundle ps l X NE). lia. }
  assert (NF : receive l <> Fuel) by (apply split_fuel; lia). split; [exact D|]. split; [|exact NF]. intro H. destruct (receive l) as [ps| |] eqn:E; [|reflexivity|contradiction]. exfalso. destruct (proj1 (D ps) eq_refl) as [X NE]. exact (H ps NE X).
Qed.
Print Assumptions C64_receiving_is_exact.
(** Both together: the bundles that were sent are received without reading beyond an end, and give the packets back. *)
Theorem C64_stream_comes_out_as_it_went_in : forall per ps, (1 <= per)%nat -> Forall bytes ps -> Forall (fun p => N.of_nat (length p) < 18446744073709551616) ps ->
  exists s groups held, send (N.of_nat per) sender0 ps = Some s /\ map receive (t_out s) = map Done groups /\ filter usable ps = concat groups ++ held /\ (length held <= per)%nat.
Proof.
  intros per ps P B LN. destruct (C64_packets_are_bundled_in_order per ps P B LN) as [s [gs [held [R [F [G [E [L _]]]]]]]]. exists s, gs, held. split; [exact R|]. split; [|auto]. clear - F G P. induction F as [|g l gs ls X F IH]; [reflexivity|]. inversion G as [|? ? G1 G2]; subst. cbn [map]. rewrite (IH G2). f_equal.
  apply (split_bundle g l X); [intro Z; subst g; cbn [length] in *; lia|lia].
Qed.
Print Assumptions C64_stream_comes_out_as_it_went_in.

Definition pkt (v n : N) : list N := v :: 96 :: repeat n 10.
Example C64_ex : (exists s, send 2 sender0 [pkt 128 1; pkt 64 2; pkt 128 3; [128; 96]; pkt 128 4; pkt 128 5; pkt 128 6] = Some s /\ map receive (t_out s) = [Done [pkt 128 1; pkt 128 3]; Done [pkt 128 4; pkt 128 5]] /\ t_current s = Some (pkt 128 6)) /\
  filter usable [pkt 128 1; pkt 64 2; [128; 96]] = [pkt 128 1].
Proof.
  split; [|reflexivity]. exists (mkSender (Some (pkt 128 6)) [] 0 [fr (pkt 128 1) ++ fr (pkt 128 3); fr (pkt 128 4) ++ fr (pkt 128 5)]). split; [vm_compute; reflexivity|]. split; vm_compute; reflexivity.
Qed.

(** REFUTED: payloads are read within their bounds. An empty payload, and one of 8 bytes that says that a packet of one byte follows; anyone can send these to the service of the receiver. *)
Theorem C64_payloads_are_read_in_bounds_refuted : exists a b, a = [] /\ length b = 8%nat /\ bytes b /\ receive a = Beyond /\ receive b = Beyond.
Proof. exists [], [1; 0; 0; 0; 0; 0; 0; 0]. split; [reflexivity|]. split; [reflexivity|]. split; [repeat constructor|]. split; vm_compute; reflexivity. Qed.
Print Assumptions C64_payloads_are_read_in_bounds_refuted.
(** REFUTED: every packet that is used is sent. The last ones are held until others come, however long that takes. *)
Theorem C64_every_packet_is_sent_refuted : forall per, (1 <= per)%nat -> exists p, usable p = true /\ send (N.of_nat per) sender0 (repeat p per) = Some (mkSender (Some p) (repeat (fr p) (per - 1)) (N.of_nat (20 * (per - 1))) []).
Proof.
  intros per P. exists (pkt 128 1). split; [reflexivity|]. assert (G : forall k m, (m + k < per)%nat -> send (N.of_nat per) (mkSender (Some (pkt 128 1)) (repeat (fr (pkt 128 1)) m) (N.of_nat (20 * m)) []) (repeat (pkt 128 1) k) = Some (mkSender (Some (pkt 128 1)) (repeat (fr (pkt 128 1)) (m + k)) (N.of_nat (20 * (m + k))) [])).
  { induction k as [|k IH]; intros m L; cbn [repeat send]; [rewrite Nat.add_0_r; reflexivity|]. unfold send_packet. change (accepted (pkt 128 1)) with true. cbv iota. cbn [t_current]. unfold push_frame. cbv zeta. cbn [t_current t_queue t_bytes t_out]. fold (fr (pkt 128 1)).
    assert (E : repeat (fr (pkt 128 1)) m ++ [fr (pkt 128 1)] = repeat (fr (pkt 128 1)) (S m)) by (rewrite <- repeat_cons; reflexivity). rewrite E, repeat_length. destruct (N.eqb_spec (N.of_nat (S m)) (N.of_nat per)); [lia|]. cbn [t_current t_queue t_bytes t_out].
    replace (N.of_nat (20 * m) + (N.of_nat (length (pkt 128 1)) + 8)) with (N.of_nat (20 * S m)) by (change (length (pkt 128 1)) with 12%nat; lia). rewrite IH by lia. replace (S m + k)%nat with (m + S k)%nat by lia. reflexivity. }
  destruct per as [|k]; [lia|]. cbn [repeat send]. unfold send_packet at 1. change (accepted (pkt 128 1)) with true. cbv iota. cbn [sender0 t_current t_queue t_bytes t_out]. rewrite Nat.sub_succ, Nat.sub_0_r. apply (G k 0%nat). lia.
Qed.
Print Assumptions C64_every_packet_is_sent_refuted.
(** REFUTED: only packets of RTP version 2 are used. The mask is 3 << 15, which tests only the first bit: version 3 is used as well. *)
Theorem C64_only_version_two_is_used_refuted : exists p, bytes p /\ hd 0 p / 64 = 3 /\ accepted p = true.
Proof. exists (pkt 192 1). split; [repeat constructor|]. split; reflexivity. Qed.
Print Assumptions C64_only_version_two_is_used_refuted.
(** REFUTED: bundles are sent whatever number of packets per bundle is configured. With 0 there is never a bundle. *)
Theorem C64_any_number_per_bundle_works_refuted : exists per, per = 0 /\ forall ps, exists s, send per sender0 ps = Some s /\ t_out s = [].
Proof.
  exists 0. split; [reflexivity|]. assert (G : forall ps s, t_out s = [] -> exists s1, send 0 s ps = Some s1 /\ t_out s1 = []); [|intro ps; apply G; reflexivity]. induction ps as [|p ps IH]; intros [c q n o] O; cbn [t_out] in O; subst o; cbn [send]; [eexists; split; reflexivity|].
  unfold send_packet. destruct (accepted p); [|apply IH; reflexivity]. cbn [t_current]. destruct c as [f|]; [|apply IH; reflexivity]. unfold push_frame. cbv zeta. cbn [t_current t_queue t_bytes t_out]. rewrite app_length. cbn [length]. destruct (N.eqb_spec (N.of_nat (length q + 1)) 0); [lia|]. apply IH. reflexivity.
Qed.
Print Assumptions C64_any_number_per_bundle_works_refuted.
