(** The quadrature estimator has no line cache, and its edge cache is reset: whatever an
    interrupted search leaves, the next one is as with a new finder. *)
From Coq Require Import Reals.
From Verif Require Import PyBase Container_Model Finder_Model Refine_Model Cache_Model Cache_Proofs EndToEnd_Model Qsearch_Model.
Open Scope Z_scope.

Lemma cached_from_any {LS} (line : Z -> cplx -> cplx -> LS -> LS * list cplx * res cplx) debug secant newton polyroots has_df
    precision progress v depth info c ls x :
  let E := cached_env line debug secant newton polyroots has_df precision progress in
  argument_algorithm E v depth info (c, ls) x = argument_algorithm E v depth info (new_cache, ls) x.
Proof.
  intro E. destruct (@search_fresh LS line debug debug secant newton polyroots (match cx_df x with Some _ => true | None => false end) (cx_precision x)
    progress v depth (rect_of x) c ls) as [A B].
  unfold argument_algorithm.
  change (env_for E x) with (cached_env line debug secant newton polyroots (match cx_df x with Some _ => true | None => false end) (cx_precision x) progress).
  destruct (calcRoots (cached_env line debug secant newton polyroots (match cx_df x with Some _ => true | None => false end) (cx_precision x) progress) v depth (rect_of x) (c, ls)) as [[s1 l1] o1].
  destruct (calcRoots (cached_env line debug secant newton polyroots (match cx_df x with Some _ => true | None => false end) (cx_precision x) progress) v depth (rect_of x) (new_cache, ls)) as [[s2 l2] o2].
  cbn [fst snd] in *. subst. reflexivity.
Qed.

Lemma quadrature_from_any turns romb f df eprec fuel debug secant newton polyroots has_df progress
    v depth info fH dfH dflt reRan imRan prec s cont :
  let E := quad_env turns romb f df eprec fuel debug secant newton polyroots has_df progress in
  let search s := calculateRoots fH dfH dflt (argument_algorithm E v depth info s) reRan imRan prec cont in
  search s = search (new_cache, tt).
Proof.
  intros E search. unfold search, calculateRoots. destruct s as [c []].
  unfold E, quad_env. rewrite cached_from_any. reflexivity.
Qed.
