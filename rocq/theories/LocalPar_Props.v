(** Properties C88 and C89 for the parallel finder. *)
From Coq Require Import Reals Qreals Qminmax.
From Verif Require Import PyBase Rounding_Model Poly_Model Container_Model Finder_Model Finder_Spec Refine_Model Refine_Spec
  Cache_Model Sum_Model Sum_Spec Quad_Model Whole_Model Qsearch_Model EndToEnd_Model Chunk_Model Local_Spec Scale_Spec LocalPar_Proofs.
Open Scope Z_scope.

(** Everything the parallel finder does with the function happens in the tasks of its pool:
    if these put the same into the queue and end alike, all schedules have the same
    results (C16, C18).  No task raises and none reports a root of order 0: then only
    the requested rectangle with its margins was looked at. *)
Theorem C88_parallel :
  forall turns debug precision fuel secant newton polyroots has_df progress v depth m
         fH dfH dflt reRan imRan prec deltaPhi maxPrecision n s (f g : cplx -> cR),
  (1 <= m)%nat ->
  let tasks h := pool_outputs (sum_env turns h deltaPhi maxPrecision n precision fuel debug secant newton polyroots has_df progress)
    v depth s m (serial_context fH dfH dflt reRan imRan prec) in
  (forall z, near_request reRan imRan (one_more (decimals dflt prec)) z -> f z = g z) ->
  (forall o, In o (tasks f) -> snd o = None /\ forall z, ~ In (z, 0) (fst o)) ->
  tasks g = tasks f.
Proof.
  intros turns debug precision fuel secant newton polyroots has_df progress v depth m fH dfH dflt reRan imRan prec deltaPhi maxPrecision n s f g Hm tasks H U.
  exact (sums_domain turns debug precision fuel secant newton polyroots has_df progress v depth m Hm fH dfH dflt reRan imRan prec deltaPhi maxPrecision n s f g H U).
Qed.
Print Assumptions C88_parallel.

(** However the tasks end: nothing to the left of it or below it matters. *)
Theorem C88_parallel_beyond :
  forall turns debug precision fuel secant newton polyroots has_df progress v depth m
         fH dfH dflt reRan imRan prec deltaPhi maxPrecision n s (f g : cplx -> cR),
  (1 <= m)%nat ->
  let tasks h := pool_outputs (sum_env turns h deltaPhi maxPrecision n precision fuel debug secant newton polyroots has_df progress)
    v depth s m (serial_context fH dfH dflt reRan imRan prec) in
  let P := one_more (decimals dflt prec) in
  (forall z, (Qmin (fst reRan) (snd reRan) - pow10 (- fst P) <= re z)%Q /\
             (Qmin (fst imRan) (snd imRan) - 3 * pow10 (- snd P) <= im z)%Q -> f z = g z) ->
  tasks g = tasks f.
Proof.
  intros turns debug precision fuel secant newton polyroots has_df progress v depth m fH dfH dflt reRan imRan prec deltaPhi maxPrecision n s f g Hm tasks P H.
  exact (sums_beyond turns debug precision fuel secant newton polyroots has_df progress v depth m Hm fH dfH dflt reRan imRan prec deltaPhi maxPrecision n s f g H).
Qed.
Print Assumptions C88_parallel_beyond.

(** The same with the quadrature estimator. *)
Theorem C88_quadrature_parallel :
  forall turns debug precision fuel secant newton polyroots has_df progress v depth m
         fH dfH dflt reRan imRan prec romb s (f g df dg : cplx -> R * R),
  (1 <= m)%nat ->
  let tasks h dh := pool_outputs (quad_env turns romb h (Some dh) precision fuel debug secant newton polyroots has_df progress)
    v depth s m (serial_context fH dfH dflt reRan imRan prec) in
  (forall z, near_request reRan imRan (one_more (decimals dflt prec)) z -> f z = g z /\ df z = dg z) ->
  (forall o, In o (tasks f df) -> snd o = None /\ forall z, ~ In (z, 0) (fst o)) ->
  tasks g dg = tasks f df.
Proof.
  intros turns debug precision fuel secant newton polyroots has_df progress v depth m fH dfH dflt reRan imRan prec romb s f g df dg Hm tasks H U.
  exact (quads_domain turns debug precision fuel secant newton polyroots has_df progress v depth m Hm fH dfH dflt reRan imRan prec romb s f g df dg H U).
Qed.
Print Assumptions C88_quadrature_parallel.

Theorem C88_quadrature_parallel_beyond :
  forall turns debug precision fuel secant newton polyroots has_df progress v depth m
         fH dfH dflt reRan imRan prec romb s (f g df dg : cplx -> R * R),
  (1 <= m)%nat ->
  let tasks h dh := pool_outputs (quad_env turns romb h (Some dh) precision fuel debug secant newton polyroots has_df progress)
    v depth s m (serial_context fH dfH dflt reRan imRan prec) in
  let P := one_more (decimals dflt prec) in
  (forall z, (Qmin (fst reRan) (snd reRan) - pow10 (- fst P) <= re z)%Q /\
             (Qmin (fst imRan) (snd imRan) - 3 * pow10 (- snd P) <= im z)%Q -> f z = g z /\ df z = dg z) ->
  tasks g dg = tasks f df.
Proof.
  intros turns debug precision fuel secant newton polyroots has_df progress v depth m fH dfH dflt reRan imRan prec romb s f g df dg Hm tasks P H.
  exact (quads_beyond turns debug precision fuel secant newton polyroots has_df progress v depth m Hm fH dfH dflt reRan imRan prec romb s f g df dg H).
Qed.
Print Assumptions C88_quadrature_parallel_beyond.

(** ** C89 *)
Theorem C89_parallel :
  forall turns debug precision fuel secant newton polyroots has_df progress v depth m
         fH dfH dflt reRan imRan prec deltaPhi maxPrecision n s (f g : cplx -> cR) c k,
  (1 <= m)%nat -> c <> (0, 0)%R ->
  let tasks h := pool_outputs (sum_env turns h deltaPhi maxPrecision n precision fuel debug secant newton polyroots has_df progress)
    v depth s m (serial_context fH dfH dflt reRan imRan prec) in
  (forall z, near_request reRan imRan (one_more (decimals dflt prec)) z -> (0 < k z)%R /\ g z = times c (stretched (k z) (f z))) ->
  (forall o, In o (tasks f) -> snd o = None /\ forall z, ~ In (z, 0) (fst o)) ->
  tasks g = tasks f.
Proof.
  intros turns debug precision fuel secant newton polyroots has_df progress v depth m fH dfH dflt reRan imRan prec deltaPhi maxPrecision n s f g c k Hm C tasks H U.
  exact (sums_scaled turns debug precision fuel secant newton polyroots has_df progress v depth m Hm fH dfH dflt reRan imRan prec deltaPhi maxPrecision n s f g c k C H U).
Qed.
Print Assumptions C89_parallel.

Theorem C89_parallel_everywhere :
  forall turns debug precision fuel secant newton polyroots has_df progress v depth m
         fH dfH dflt reRan imRan prec deltaPhi maxPrecision n s (f g : cplx -> cR) c k,
  (1 <= m)%nat -> c <> (0, 0)%R -> (forall z, (0 < k z)%R) -> (forall z, g z = times c (stretched (k z) (f z))) ->
  let tasks h := pool_outputs (sum_env turns h deltaPhi maxPrecision n precision fuel debug secant newton polyroots has_df progress)
    v depth s m (serial_context fH dfH dflt reRan imRan prec) in
  tasks g = tasks f.
Proof.
  intros turns debug precision fuel secant newton polyroots has_df progress v depth m fH dfH dflt reRan imRan prec deltaPhi maxPrecision n s f g c k Hm C K H tasks.
  exact (sums_scaled_everywhere turns debug precision fuel secant newton polyroots has_df progress v depth m Hm fH dfH dflt reRan imRan prec deltaPhi maxPrecision n s f g c k C K H).
Qed.
Print Assumptions C89_parallel_everywhere.

Theorem C89_quadrature_parallel :
  forall turns debug precision fuel secant newton polyroots has_df progress v depth m
         fH dfH dflt reRan imRan prec romb s (f g df dg : cplx -> R * R) c,
  (1 <= m)%nat -> c <> (0, 0)%R -> (forall z, g z = times c (f z)) -> (forall z, dg z = times c (df z)) ->
  let tasks h dh := pool_outputs (quad_env turns romb h (Some dh) precision fuel debug secant newton polyroots has_df progress)
    v depth s m (serial_context fH dfH dflt reRan imRan prec) in
  tasks g dg = tasks f df.
Proof.
  intros turns debug precision fuel secant newton polyroots has_df progress v depth m fH dfH dflt reRan imRan prec romb s f g df dg c Hm C H D tasks.
  exact (quads_scaled turns debug precision fuel secant newton polyroots has_df progress v depth m Hm fH dfH dflt reRan imRan prec romb s f g df dg c C H D).
Qed.
Print Assumptions C89_quadrature_parallel.

(** The constant 1 on [1,2] x [1,2] and a function that agrees with it there, up to a factor. *)
Example C88_parallel_nonvacuous turns deltaPhi maxPrecision secant newton polyroots fH :
  (0 < deltaPhi)%R -> turns 0%R = 0%Q ->
  let tasks h := pool_outputs (sum_env turns h deltaPhi maxPrecision 2 (0, 0) 1 false secant newton polyroots true true)
    Simple 1 new_estimator 1 (serial_context fH None (0, 0) (1, 2)%Q (1, 2)%Q None) in
  tasks (fun _ => (1, 0)%R) = [([], None)].
Proof. exact (constant_task turns deltaPhi maxPrecision secant newton polyroots fH). Qed.
