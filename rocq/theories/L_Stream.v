(** Chunking lemma for receive state machines. *)
From Coq Require Import NArith List Lia.
From Verif Require Import M_Stream.
Import ListNotations.

Section Chunking.
Context {S O E : Type} (step : S -> N -> list N -> option (S * list O * nat)) (meets : O -> E -> Prop).
(** [good s bytes es]: in state [s], with [bytes] still to come, the callbacks to come are described by [es]. *)
Variable good : S -> list N -> list E -> Prop.
Hypothesis good_step : forall s b rest later es, good s (b :: rest ++ later) es ->
  exists s' o k e es', step s b rest = Some (s', o, k) /\ (k <= length rest)%nat /\ es = e ++ es' /\ Forall2 meets o e /\ good s' (skipn k rest ++ later) es'.
Lemma feed_loop_good : forall fuel bytes s later es, (length bytes <= fuel)%nat -> good s (bytes ++ later) es ->
  exists s' o e es', feed_loop step fuel s bytes = Some (s', o) /\ es = e ++ es' /\ Forall2 meets o e /\ good s' later es'.
Proof.
  induction fuel as [|f IH]; intros [|b r] s later es L G; cbn [feed_loop]; try (exists s, [], [], es; auto; fail); [cbn in L; lia|].
  destruct (good_step s b r later es G) as (s' & o & k & e & es' & E1 & K & -> & M & G'). rewrite E1.
  destruct (IH (skipn k r) s' later es') as (s2 & o2 & e2 & es2 & E2 & -> & M2 & G2); [rewrite skipn_length; cbn in L; lia|exact G'|].
  rewrite E2. exists s2, (o ++ o2), (e ++ e2), es2. split; [reflexivity|]. split; [now rewrite app_assoc|]. split; [now apply Forall2_app|exact G2].
Qed.
Lemma feed_chunks_good : forall chunks s later es, good s (concat chunks ++ later) es ->
  exists s' o e es', feed_chunks step s chunks = Some (s', o) /\ es = e ++ es' /\ Forall2 meets o e /\ good s' later es'.
Proof.
  induction chunks as [|c r IH]; intros s later es G; cbn [feed_chunks concat app] in *; [exists s, [], [], es; auto|].
  rewrite <- app_assoc in G. destruct (feed_loop_good (length c) c s _ es (le_n _) G) as (s1 & o1 & e1 & es1 & E1 & -> & M1 & G1). unfold feed. rewrite E1.
  destruct (IH s1 later es1 G1) as (s2 & o2 & e2 & es2 & E2 & -> & M2 & G2). rewrite E2.
  exists s2, (o1 ++ o2), (e1 ++ e2), es2. split; [reflexivity|]. split; [now rewrite app_assoc|]. split; [now apply Forall2_app|exact G2].
Qed.
End Chunking.
