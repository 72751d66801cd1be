(** With the quadrature estimator the jobs of a task do not disturb each other. *)
From Coq Require Import Reals.
From Verif Require Import PyBase Finder_Model Refine_Model Cache_Model EndToEnd_Model Qsearch_Model Chunk_Model CutResume_Quad.
Open Scope Z_scope.

Section Quad.
  Variables (turns : R -> Q) (romb : list R -> R -> R) (f : cplx -> R * R) (df : option (cplx -> R * R))
    (eprec : Z * Z) (fuel : nat) (debug : bool)
    (secant : cplx -> cplx -> res cplx) (newton : cplx -> res cplx)
    (polyroots : list cplx -> res (list cplx)) (has_df progress : bool) (v : variant) (depth : nat).
  Notation E := (quad_env turns romb f df eprec fuel debug secant newton polyroots has_df progress).

  Lemma job_alone s x : worker_output E v depth s x = worker_output E v depth (new_cache, tt) x.
  Proof. destruct s as [c []]. unfold worker_output, quad_env. rewrite cached_from_any. reflexivity. Qed.

  Lemma task_of_quads c : forall s,
    ((forall x, In x c -> snd (worker_output E v depth (new_cache, tt) x) = None) ->
     run_chunk E v depth s c = (List.concat (map (fun x => fst (worker_output E v depth (new_cache, tt) x)) c), None)) /\
    forall l1 x l2 e, c = l1 ++ x :: l2 ->
      (forall y, In y l1 -> snd (worker_output E v depth (new_cache, tt) y) = None) ->
      snd (worker_output E v depth (new_cache, tt) x) = Some e ->
      run_chunk E v depth s c =
        (List.concat (map (fun y => fst (worker_output E v depth (new_cache, tt) y)) l1) ++
         fst (worker_output E v depth (new_cache, tt) x), Some e).
  Proof.
    induction c as [|x0 c IH]; intro s.
    - split; [reflexivity|]. intros [|? ?] ? ? ? H; discriminate.
    - split.
      + intro H. cbn [run_chunk]. rewrite job_alone, (H x0 (or_introl eq_refl)).
        rewrite (proj1 (IH (job_leaves E v depth x0 s))) by (intros y Hy; apply H; right; exact Hy). reflexivity.
      + intros l1 x l2 e E1 H1 H2. cbn [run_chunk]. rewrite job_alone. destruct l1 as [|y l1]; cbn [app] in E1; injection E1 as -> E1.
        * rewrite H2. reflexivity.
        * rewrite (H1 y (or_introl eq_refl)).
          rewrite (proj2 (IH (job_leaves E v depth y s)) l1 x l2 e E1) by (try exact H2; intros z Hz; apply H1; right; exact Hz).
          cbn [map List.concat fst snd]. rewrite app_assoc. reflexivity.
  Qed.

  Lemma quads_apart c s :
    ((forall x, In x c -> snd (worker_output E v depth (new_cache, tt) x) = None) /\
     run_chunk E v depth s c = (List.concat (map (fun x => fst (worker_output E v depth (new_cache, tt) x)) c), None)) \/
    exists l1 x l2 e, c = l1 ++ x :: l2 /\
      (forall y, In y l1 -> snd (worker_output E v depth (new_cache, tt) y) = None) /\
      snd (worker_output E v depth (new_cache, tt) x) = Some e /\
      run_chunk E v depth s c =
        (List.concat (map (fun y => fst (worker_output E v depth (new_cache, tt) y)) l1) ++
         fst (worker_output E v depth (new_cache, tt) x), Some e).
  Proof.
    destruct (task_of_quads c s) as [A B].
    assert (X : (forall x, In x c -> snd (worker_output E v depth (new_cache, tt) x) = None) \/
      exists l1 x l2 e, c = l1 ++ x :: l2 /\
        (forall y, In y l1 -> snd (worker_output E v depth (new_cache, tt) y) = None) /\
        snd (worker_output E v depth (new_cache, tt) x) = Some e).
    { clear A B. induction c as [|y c IH]; [left; intros ? []|].
      destruct (snd (worker_output E v depth (new_cache, tt) y)) as [e|] eqn:Ey.
      - right. exists [], y, c, e. split; [reflexivity|]. split; [intros ? []|exact Ey].
      - destruct IH as [H|(l1 & x & l2 & e & -> & H1 & H2)].
        + left. intros z [<-|Hz]; [exact Ey|exact (H z Hz)].
        + right. exists (y :: l1), x, l2, e. split; [reflexivity|]. split; [|exact H2].
          intros z [<-|Hz]; [exact Ey|exact (H1 z Hz)]. }
    destruct X as [H|(l1 & x & l2 & e & H0 & H1 & H2)].
    - left. split; [exact H|exact (A H)].
    - right. exists l1, x, l2, e. split; [exact H0|]. split; [exact H1|]. split; [exact H2|exact (B l1 x l2 e H0 H1 H2)].
  Qed.
End Quad.
