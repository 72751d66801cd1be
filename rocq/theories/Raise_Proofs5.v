From Coq Require Import Reals Qreals.
From Verif Require Import PyBase Rounding_Model Poly_Model Container_Model Finder_Model Refine_Model Refine_Spec Cache_Model Sum_Model Sum_Spec
  Quad_Model Whole_Model Qsearch_Model EndToEnd_Model Chunk_Model Raise_Model Raise_Spec Raise_Proofs Raise_Proofs2 Raise_Proofs3.
Open Scope Z_scope.

Definition task_cut (own : exn -> Prop) (o' o : list root * option exn) : Prop :=
  o' = o \/ exists e, snd o' = Some e /\ own e /\ beginning (fst o') (fst o).

Section Pool.
  Context {S : Type} (E E' : env S) (own : exn -> Prop) (v : variant) (depth : nat).
  Hypothesis C : forall x r, cut own (calcRoots (env_for E' x) v depth r) (calcRoots (env_for E x) v depth r).

  Lemma chunk_cut jobs : forall s, snd (run_chunk E v depth s jobs) = None ->
    task_cut own (run_chunk E' v depth s jobs) (run_chunk E v depth s jobs).
  Proof.
    induction jobs as [|x jobs IH]; intro s; cbn [run_chunk]; [left; reflexivity|].
    unfold worker_output, argument_algorithm, job_leaves.
    specialize (C x (rect_of x) s).
    destruct (calcRoots (env_for E x) v depth (rect_of x) s) as [[s2 l] [u|e|]]; cbn [ar_end ar_reports fst snd]; try discriminate.
    set (rest := run_chunk E v depth s2 jobs) in *.
    intro U.
    destruct (C s2 l u eq_refl) as [H|(t & l1 & e & H & O & B)]; rewrite H; cbn [ar_end ar_reports fst snd].
    - destruct (IH s2 U) as [H2|(e & H2 & O & B)].
      + left. rewrite H2. reflexivity.
      + right. exists e. cbn [fst snd]. split; [exact H2|]. split; [exact O|]. apply beginning_app, B.
    - right. exists e. cbn [fst snd]. split; [reflexivity|]. split; [exact O|].
      rewrite !map_map. cbn [snd]. rewrite !map_id. apply beginning_more, B.
  Qed.

  Lemma pool_cut s m x : (forall o, In o (pool_outputs E v depth s m x) -> snd o = None) ->
    Forall2 (task_cut own) (pool_outputs E' v depth s m x) (pool_outputs E v depth s m x).
  Proof.
    unfold pool_outputs. generalize (get_tasks m (createRootJobs m x)) as ts.
    induction ts as [|t ts IH]; intro U; cbn [map] in *; constructor.
    - apply chunk_cut, U. left. reflexivity.
    - apply IH. intros o Ho. apply U. right. exact Ho.
  Qed.
End Pool.

Lemma sum_pool turns f raises deltaPhi maxPrecision numPts precision fuel debug
    (own : exn -> Prop) secant secant' newton newton' polyroots has_df progress v depth s m x :
  only_raises own raises ->
  (forall a b, answers_or_raises (fun e => own e /\ ~ is_RuntimeError e) (secant' a b) (secant a b)) ->
  (forall a, answers_or_raises (fun e => own e /\ ~ is_RuntimeError e) (newton' a) (newton a)) ->
  let calm := pool_outputs (sum_env turns f deltaPhi maxPrecision numPts precision fuel debug secant newton polyroots has_df progress)
    v depth s m x in
  (forall o, In o calm -> snd o = None) ->
  Forall2 (fun o' o => o' = o \/ exists e, snd o' = Some e /\ own e /\ beginning (fst o') (fst o))
    (pool_outputs (raising_sum_env turns f raises deltaPhi maxPrecision numPts precision fuel debug secant' newton' polyroots has_df progress)
      v depth s m x) calm.
Proof.
  intros T Hs Hn. cbv zeta. apply (pool_cut _ _ own). intros y r. apply env_for_cut; try assumption. apply turn_line_cut, T.
Qed.

Lemma quad_pool turns romb f df raises raises_df precision fuel debug
    (own : exn -> Prop) secant secant' newton newton' polyroots has_df progress v depth s m x :
  only_raises own raises -> only_raises own raises_df ->
  (forall a b, answers_or_raises (fun e => own e /\ ~ is_RuntimeError e) (secant' a b) (secant a b)) ->
  (forall a, answers_or_raises (fun e => own e /\ ~ is_RuntimeError e) (newton' a) (newton a)) ->
  let calm := pool_outputs (quad_env turns romb f df precision fuel debug secant newton polyroots has_df progress)
    v depth s m x in
  (forall o, In o calm -> snd o = None) ->
  Forall2 (fun o' o => o' = o \/ exists e, snd o' = Some e /\ own e /\ beginning (fst o') (fst o))
    (pool_outputs (raising_quad_env turns romb f df raises raises_df precision fuel debug secant' newton' polyroots has_df progress)
      v depth s m x) calm.
Proof.
  intros T Td Hs Hn. cbv zeta. apply (pool_cut _ _ own). intros y r. apply env_for_cut; try assumption. apply quad_line_cut; assumption.
Qed.
