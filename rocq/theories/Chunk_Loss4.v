(** The parallel finder loses a zero: summary. *)
From Coq Require Import Reals Qreals Qminmax.
From Verif Require Import PyBase Rounding_Model Rounding_Proofs Poly_Model Container_Model Container_Spec Finder_Model Finder_Spec Finder_Proofs
  Refine_Model Refine_Spec Refine_Proofs Zeros_Spec Zeros_Proofs Cache_Model Cache_Spec Cache_Proofs
  Sum_Model Sum_Spec Angle_Proofs Sum_Proofs Sum_Proofs2 Sum_Proofs3 Sum_Proofs4 Sum_Proofs5 Sum_Proofs6
  Arg_Spec Arg_Proofs Arg_Proofs2 Arg_Proofs3 Arg_Proofs4 Arg_Examples
  EndToEnd_Model EndToEnd_Spec EndToEnd_Proofs EndToEnd_Proofs2 EndToEnd_Proofs3 EndToEnd_Examples Whole_Model Whole_Spec Whole_Grid Whole_Entry Whole_Inv Whole_Search Whole_Proofs Whole_Proofs2
  Whole_Proofs3 Whole_Examples Whole_Stale Whole_Examples2
  Chunk_Model Chunk_Spec Chunk_Proofs Chunk_Frame Chunk_Proofs2 Chunk_Cut Chunk_Cut2 Chunk_Cut3 Chunk_Loss Chunk_Loss2 Chunk_Loss3.
From Coq Require Import Lqa Lra.
Open Scope R_scope.


Lemma C80_sharing_lemma turns eps delta mp n eprec fuel depth debug secant newton polyroots has_df progress p sp iter :
  faithful turns eps -> eps <= 1 / 1000 -> 0 < delta -> (6001 <= Z.of_nat n)%Z ->
  (100 * n + 3 <= fuel)%nat -> (13 < depth)%nat -> iteration_order iter ->
  let lost := (137 / 60, 79 / 60) in
  let zeros := [(184 / 60, 1 / 60); lost] in
  let E := sum_env turns (zero_product zeros) delta mp n eprec fuel debug secant newton polyroots has_df progress in
  let reRan := (0, 61 # 10)%Q in
  let imRan := (0, 5 # 2)%Q in
  let x := serial_context demo_f None (0, 0)%Z reRan imRan None in
  let jobs := createRootJobs 2 x in
  let outs := pool_outputs E Simple depth new_estimator 2 x in
  (resolved_pieces (zero_product zeros) zeros n eps (1, 1)%Z (rect_of x) jobs /\
   (forall job, In job jobs -> dense n (1, 1)%Z (rect_of job)) /\
   requested reRan imRan lost) /\
  (exists q, pool_behaviour outs (PoolDone q)) /\
  (forall e info, pool_behaviour outs e ->
     (forall x', e <> PoolRaised x') /\
     let out := parallel_calculateRoots demo_f (0, 0)%Z reRan imRan None info e (rc_init p sp) in
     snd out = Ok tt /\
     forall c k, In (c, k) (reported_pairs iter (fst out)) -> ~ within (11 / 20) (0, 0)%Z c lost) /\
  (forall info,
     let out := calculateRoots demo_f None (0, 0)%Z (argument_algorithm E Simple depth info new_estimator) reRan imRan None (rc_init p sp) in
     snd out = Ok tt /\
     exists c k, In (c, k) (reported_pairs iter (fst out)) /\ (1 <= k)%Z /\ within 1 (1, 1)%Z c lost).
Proof.
  intros HT He Hd Hn Hf Hdp HI lost zeros E reRan imRan x jobs outs.
  split; [split; [|split]|split; [|split]].
  - eapply pieces_resolved; eassumption.
  - eapply pieces_dense; eassumption.
  - unfold requested, lost. cbn [fst snd].
    change (Qmin (fst reRan) (snd reRan)) with 0%Q. change (Qmax (fst reRan) (snd reRan)) with (61 # 10)%Q.
    change (Qmin (fst imRan) (snd imRan)) with 0%Q. change (Qmax (fst imRan) (snd imRan)) with (5 # 2)%Q. unfold Q2R. cbn. lra.
  - apply (pool_ends turns eps delta mp n eprec fuel depth debug secant newton polyroots has_df progress p sp iter); assumption.
  - intros e info HB. apply (high_lost turns eps delta mp n eprec fuel depth debug secant newton polyroots has_df progress p sp iter); assumption.
  - intro info. apply (serial_finds turns eps delta mp n eprec fuel depth debug secant newton polyroots has_df progress p sp iter); assumption.
Qed.
