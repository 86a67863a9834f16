(** Lemmas shared by the receivers that collect an SDNV byte by byte (C28, C34). *)
From Coq Require Import NArith ZArith List Bool Lia ZifyBool ZifyN.
From Verif Require Import Base M_SegmentAlloc M_Intrin M_Sdnv S_Sdnv L_Intrin L_Sdnv P_Sdnv.
Import ListNotations.
Open Scope N_scope.

Lemma sdnv_for_bytes v sd : sdnv_for v sd -> Forall is_byte sd.
Proof. intros (S1 & _). now apply is_sdnv_bytes. Qed.
Lemma sdnv_for_nonempty v sd : sdnv_for v sd -> sd <> [].
Proof. intros ((i & l & -> & _) & _). destruct i; discriminate. Qed.
Lemma decode_sdnv_for v sd rest : sdnv_for v sd -> Forall is_byte rest -> sdnv_decode64 (sd ++ rest) = Some (v, N.of_nat (length sd)).
Proof.
  intros H HR. assert (B : Forall is_byte (sd ++ rest)) by (apply Forall_app; split; [exact (sdnv_for_bytes _ _ H)|exact HR]).
  destruct H as (S1 & S2 & S3 & S4). destruct (C11_decode64_meets_specification _ B) as (r & E & _ & F). rewrite E. f_equal.
  rewrite <- S3 at 1. symmetry. apply F. eapply DecOk; [reflexivity|exact S1|exact S2|lia].
Qed.
Lemma land128_low b : b < 128 -> N.land b 0x80 = 0.
Proof.
  intros H. change 0x80 with (2 ^ 7). apply N.bits_inj. intros j. rewrite N.land_spec, N.pow2_bits_eqb, N.bits_0.
  destruct (N.eqb_spec 7 j) as [<-|]; [|apply andb_false_r]. rewrite andb_true_r. destruct b as [|p]; [apply N.bits_0|].
  apply N.bits_above_log2. apply N.log2_lt_pow2; [reflexivity|exact H].
Qed.
Lemma land128_high b : 128 <= b < 256 -> N.land b 0x80 <> 0.
Proof.
  intros H. change 0x80 with (2 ^ 7). intros HZ. assert (T : N.testbit (N.land b (2 ^ 7)) 7 = false) by (rewrite HZ; apply N.bits_0).
  rewrite N.land_spec, N.pow2_bits_true, andb_true_r in T.
  assert (U : N.testbit b 7 = true). { apply N.testbit_true. change (2 ^ 7) with 128. assert (D : b / 128 = 1) by (symmetry; apply (N.div_unique b 128 1 (b - 128)); lia). rewrite D. reflexivity. }
  congruence.
Qed.
