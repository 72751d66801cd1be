(** Property C92: target functions that raise exceptions. *)
From Coq Require Import Reals Qreals.
From Verif Require Import PyBase Rounding_Model Poly_Model Container_Model Finder_Model Refine_Model Refine_Spec
  Cache_Model Sum_Model Sum_Spec Quad_Model Whole_Model Qsearch_Model EndToEnd_Model
  Chunk_Model Raise_Model Raise_Spec Raise_Proofs3 Raise_Proofs4 Raise_Proofs5 Local_Proofs4.
Open Scope Z_scope.

(** [f] gives values everywhere and its search ends; the other function has the same values
    but some of its calls raise, with exceptions of the set [own].  Then its search either
    is the same one, or ends with such an exception, after having reported a beginning of
    the same list of roots.  Any algorithm, any history of the estimator. *)
Theorem C92_search :
  forall turns f raises deltaPhi maxPrecision numPts precision fuel debug
    (own : exn -> Prop) secant secant' newton newton' polyroots has_df progress v depth r s s' l,
  only_raises own raises ->
  (forall a b, answers_or_raises (fun e => own e /\ ~ is_RuntimeError e) (secant' a b) (secant a b)) ->
  (forall a, answers_or_raises (fun e => own e /\ ~ is_RuntimeError e) (newton' a) (newton a)) ->
  calcRoots (sum_env turns f deltaPhi maxPrecision numPts precision fuel debug secant newton polyroots has_df progress) v depth r s
    = (s', l, Done tt) ->
  let t := calcRoots (raising_sum_env turns f raises deltaPhi maxPrecision numPts precision fuel debug secant' newton' polyroots has_df progress) v depth r s in
  t = (s', l, Done tt) \/
  exists s1 l1 e, t = (s1, l1, Raised e) /\ own e /\ beginning (roots_of l1) (roots_of l).
Proof. exact sum_search. Qed.
Print Assumptions C92_search.

(** The same with the quadrature estimator; the function or its derivative may raise. *)
Theorem C92_quadrature :
  forall turns romb f df raises raises_df precision fuel debug
    (own : exn -> Prop) secant secant' newton newton' polyroots has_df progress v depth r s s' l,
  only_raises own raises -> only_raises own raises_df ->
  (forall a b, answers_or_raises (fun e => own e /\ ~ is_RuntimeError e) (secant' a b) (secant a b)) ->
  (forall a, answers_or_raises (fun e => own e /\ ~ is_RuntimeError e) (newton' a) (newton a)) ->
  calcRoots (quad_env turns romb f df precision fuel debug secant newton polyroots has_df progress) v depth r s
    = (s', l, Done tt) ->
  let t := calcRoots (raising_quad_env turns romb f df raises raises_df precision fuel debug secant' newton' polyroots has_df progress) v depth r s in
  t = (s', l, Done tt) \/
  exists s1 l1 e, t = (s1, l1, Raised e) /\ own e /\ beginning (roots_of l1) (roots_of l).
Proof. exact quad_search. Qed.
Print Assumptions C92_quadrature.

(** Seen from the finder: the exception reaches the caller of calculateRoots unchanged (after
    KeyboardInterrupt the call returns), and the container holds what the first reports of the
    undisturbed search leave in it. *)
Theorem C92_finder :
  forall turns f raises deltaPhi maxPrecision numPts precision fuel debug
    (own : exn -> Prop) secant secant' newton newton' polyroots has_df progress v depth info s fH dfH dflt reRan imRan prec c c1,
  only_raises own raises ->
  (forall a b, answers_or_raises (fun e => own e /\ ~ is_RuntimeError e) (secant' a b) (secant a b)) ->
  (forall a, answers_or_raises (fun e => own e /\ ~ is_RuntimeError e) (newton' a) (newton a)) ->
  let ctx := serial_context fH dfH dflt reRan imRan prec in
  let run := argument_algorithm
    (sum_env turns f deltaPhi maxPrecision numPts precision fuel debug secant newton polyroots has_df progress) v depth info s ctx in
  ar_end run = None ->
  feed (toFilterContext ctx) (ar_reports run) c = (c1, Ok tt) ->
  let after := calculateRoots fH dfH dflt (argument_algorithm
    (raising_sum_env turns f raises deltaPhi maxPrecision numPts precision fuel debug secant' newton' polyroots has_df progress)
    v depth info s) reRan imRan prec c in
  after = (c1, Ok tt) \/
  exists e n, own e /\
    after = (fst (feed (toFilterContext ctx) (firstn n (ar_reports run)) c),
             match e with KeyboardInterrupt => Ok tt | _ => Err e end).
Proof. exact sum_finder. Qed.
Print Assumptions C92_finder.

Theorem C92_quadrature_finder :
  forall turns romb f df raises raises_df precision fuel debug
    (own : exn -> Prop) secant secant' newton newton' polyroots has_df progress v depth info s fH dfH dflt reRan imRan prec c c1,
  only_raises own raises -> only_raises own raises_df ->
  (forall a b, answers_or_raises (fun e => own e /\ ~ is_RuntimeError e) (secant' a b) (secant a b)) ->
  (forall a, answers_or_raises (fun e => own e /\ ~ is_RuntimeError e) (newton' a) (newton a)) ->
  let ctx := serial_context fH dfH dflt reRan imRan prec in
  let run := argument_algorithm
    (quad_env turns romb f df precision fuel debug secant newton polyroots has_df progress) v depth info s ctx in
  ar_end run = None ->
  feed (toFilterContext ctx) (ar_reports run) c = (c1, Ok tt) ->
  let after := calculateRoots fH dfH dflt (argument_algorithm
    (raising_quad_env turns romb f df raises raises_df precision fuel debug secant' newton' polyroots has_df progress)
    v depth info s) reRan imRan prec c in
  after = (c1, Ok tt) \/
  exists e n, own e /\
    after = (fst (feed (toFilterContext ctx) (firstn n (ar_reports run)) c),
             match e with KeyboardInterrupt => Ok tt | _ => Err e end).
Proof. exact quad_finder. Qed.
Print Assumptions C92_quadrature_finder.

(** The parallel finder: every task of its pool either does what it does in the undisturbed
    search or ends with an exception of the function (which ends this task only, with the
    jobs that would have come after), having put a beginning of the same list of roots into
    the queue. *)
Theorem C92_parallel :
  forall turns f raises deltaPhi maxPrecision numPts precision fuel debug
    (own : exn -> Prop) secant secant' newton newton' polyroots has_df progress v depth s m x,
  only_raises own raises ->
  (forall a b, answers_or_raises (fun e => own e /\ ~ is_RuntimeError e) (secant' a b) (secant a b)) ->
  (forall a, answers_or_raises (fun e => own e /\ ~ is_RuntimeError e) (newton' a) (newton a)) ->
  let calm := pool_outputs (sum_env turns f deltaPhi maxPrecision numPts precision fuel debug secant newton polyroots has_df progress)
    v depth s m x in
  (forall o, In o calm -> snd o = None) ->
  Forall2 (fun o' o => o' = o \/ exists e, snd o' = Some e /\ own e /\ beginning (fst o') (fst o))
    (pool_outputs (raising_sum_env turns f raises deltaPhi maxPrecision numPts precision fuel debug secant' newton' polyroots has_df progress)
      v depth s m x) calm.
Proof. exact sum_pool. Qed.
Print Assumptions C92_parallel.

Theorem C92_quadrature_parallel :
  forall turns romb f df raises raises_df precision fuel debug
    (own : exn -> Prop) secant secant' newton newton' polyroots has_df progress v depth s m x,
  only_raises own raises -> only_raises own raises_df ->
  (forall a b, answers_or_raises (fun e => own e /\ ~ is_RuntimeError e) (secant' a b) (secant a b)) ->
  (forall a, answers_or_raises (fun e => own e /\ ~ is_RuntimeError e) (newton' a) (newton a)) ->
  let calm := pool_outputs (quad_env turns romb f df precision fuel debug secant newton polyroots has_df progress)
    v depth s m x in
  (forall o, In o calm -> snd o = None) ->
  Forall2 (fun o' o => o' = o \/ exists e, snd o' = Some e /\ own e /\ beginning (fst o') (fst o))
    (pool_outputs (raising_quad_env turns romb f df raises raises_df precision fuel debug secant' newton' polyroots has_df progress)
      v depth s m x) calm.
Proof. exact quad_pool. Qed.
Print Assumptions C92_quadrature_parallel.

(** However the search ends, the summation caches it leaves are those of some completed
    requests: what is proved for every history of requests holds after an exception too. *)
Theorem C92_caches :
  forall turns f raises deltaPhi maxPrecision numPts precision fuel debug
    secant newton polyroots has_df progress v depth r s,
  let '(t, _, _) := calcRoots (raising_sum_env turns f raises deltaPhi maxPrecision numPts precision fuel debug secant newton polyroots has_df progress) v depth r s in
  exists h, (forall q, In q h -> for_function f deltaPhi maxPrecision numPts precision q) /\ snd t = fold_left serve h (snd s).
Proof. exact caches_served. Qed.
Print Assumptions C92_caches.

(** Nothing that was found is dropped: when sampling a segment raises, it was sampled and
    shifted a number of times before, each time without an exception, and all the zeros met
    there have been reported, in order. *)
Theorem C92_reported :
  forall raises f_zero precision fuel a b size found e,
  raising_genFuncArr raises f_zero precision fuel a b size = Fails found e ->
  let line i := shifted (line_shift precision a b) i (linspaceC a b size) in
  exists j, (j < fuel)%nat /\ raises (line j) = Some e /\
    (forall i, (i < j)%nat -> raises (line i) = None /\ filter f_zero (line i) <> []) /\
    found = flat_map (fun i => filter f_zero (line i)) (seq 0 j).
Proof. intros raises f_zero precision fuel a b size found e H line. exact (shifts_reported _ _ _ _ _ _ _ H). Qed.
Print Assumptions C92_reported.

(** Later calls for the same line.  The undisturbed refinement passes through a state with
    the zeros [ze] reported so far; there the sampling of some segment raises; reported are
    [ze] and what this sampling has met. *)
Theorem C92_reported_refining :
  forall (A : Type) (azero : A) raises f_zero dphase large factor close numPts precision fuel idx zs phis zeros found e,
  raising_phi_loop azero raises f_zero dphase large factor close numPts precision fuel idx zs phis zeros = Fails found e ->
  exists n i z p ze a b size found',
    phi_loop azero f_zero dphase large factor close numPts precision n i z p ze
      = phi_loop azero f_zero dphase large factor close numPts precision fuel idx zs phis zeros /\
    raising_genFuncArr raises f_zero precision (pred n) a b size = Fails found' e /\ found = ze ++ found'.
Proof. exact @refining_reported. Qed.
Print Assumptions C92_reported_refining.

(** Quadrature: the same for the doubling of the samples, where the derivative may raise
    after the function has been sampled. *)
Theorem C92_reported_doubling :
  forall raises raises_df f_zero g romb small precision d fuel s found e,
  raising_quad_loop raises raises_df f_zero g romb small precision d fuel s = Fails found e ->
  exists n s' a b size found',
    quad_loop f_zero g romb small precision d n s' = quad_loop f_zero g romb small precision d fuel s /\
    raising_samples raises raises_df f_zero precision (pred n) a b size = Fails found' e /\ found = q_found s' ++ found'.
Proof. exact doubling_reported. Qed.
Print Assumptions C92_reported_doubling.

Theorem C92_reported_derivative :
  forall raises raises_df f_zero precision fuel a b size found e,
  raising_samples raises raises_df f_zero precision fuel a b size = Fails found e ->
  raising_genFuncArr raises f_zero precision fuel a b size = Fails found e \/
  exists zs, raising_genFuncArr raises f_zero precision fuel a b size = Returns (Some (zs, found)) /\ raises_df zs = Some e.
Proof. exact derivative_reported. Qed.
Print Assumptions C92_reported_derivative.

(** If no call raises the lines are those of the other properties. *)
Theorem C92_silent :
  forall turns f deltaPhi maxPrecision numPts precision fuel k a b s,
  raising_turn_line turns f (fun _ => None) deltaPhi maxPrecision numPts precision fuel k a b s
  = turn_line turns f deltaPhi maxPrecision numPts precision fuel k a b s.
Proof. exact turn_line_silent. Qed.
Print Assumptions C92_silent.

Theorem C92_quadrature_silent :
  forall turns romb f df precision fuel k a b u,
  raising_quad_turn_line turns romb f df (fun _ => None) (fun _ => None) precision fuel k a b u
  = quad_turn_line turns romb f df precision fuel k a b u.
Proof. exact quad_line_silent. Qed.
Print Assumptions C92_quadrature_silent.

(** Without the condition on the iterations the claim fails: the Newton-assisted algorithm
    takes a RuntimeError of the function for a failure of the iteration, ends normally and
    loses the root.  Any estimator, any small rectangle with about one turn. *)
Theorem C92_swallowed_refuted :
  forall (S : Type) (E : env S) depth r s s1 m z e,
  e_est E 0 r (if e_dirty E s then e_reset E s else s) = (s1, [], Ok m) ->
  (8 # 10 < re m)%Q -> (re m < 13 # 10)%Q ->
  (x2 r - x1 r < 1 # 10)%Q -> (y2 r - y1 r < 1 # 10)%Q ->
  (pow10 (- fst (e_precision E)) <= x2 r - x1 r)%Q ->
  is_RuntimeError e -> e_has_df E = false ->
  let with_secant a := mkEnv (e_est E) (e_rm E) (e_dirty E) (e_reset E) (fun _ _ => a) (e_newton E) (e_polyroots E)
    (e_has_df E) (e_precision E) (e_progress E) in
  (exists l, calcRoots (with_secant (Ok z)) NewtonV (Datatypes.S depth) r s = (s1, l, Done tt) /\ roots_of l = [(z, 1)]) /\
  (exists l, calcRoots (with_secant (Err e)) NewtonV (Datatypes.S depth) r s = (s1, l, Done tt) /\ roots_of l = []).
Proof. exact @swallowed. Qed.
Print Assumptions C92_swallowed_refuted.

(** A zero in the lower left corner of the unit square, and a function that raises ValueError
    when called outside the real axis: the undisturbed search reports the corner twice, the
    disturbed one once, then raises. *)
Example C92_nonvacuous turns deltaPhi maxPrecision secant newton polyroots :
  (0 < deltaPhi)%R -> turns 0%R = 0%Q ->
  only_raises (fun e => e = ValueError) off_axis /\
  (exists s' l z1 z2, calcRoots (sum_env turns (bitfun origin_only) deltaPhi maxPrecision 2 (0, 0) 5 false secant newton polyroots true true)
      Simple 1 unit_square new_estimator = (s', l, Done tt) /\
    roots_of l = [(z1, 0); (z2, 0)] /\ ceqb z1 (0, 0)%Q = true /\ ceqb z2 (0, 0)%Q = true) /\
  (exists s' l, calcRoots (raising_sum_env turns (bitfun origin_only) off_axis deltaPhi maxPrecision 2 (0, 0) 5 false secant newton polyroots true true)
      Simple 1 unit_square new_estimator = (s', l, Raised ValueError) /\
    roots_of l = [((0, 0)%Q, 0)]).
Proof.
  intros Hd Ht. split; [|split].
  - intros zs e. unfold off_axis. destruct (existsb _ zs); [|discriminate]. intro H. injection H as <-. reflexivity.
  - exact (origin_search turns deltaPhi maxPrecision 0 secant newton polyroots true true false 0 Hd Ht).
  - exact (origin_raises turns deltaPhi maxPrecision 0 secant newton polyroots true true false 0).
Qed.

(** A rectangle with one turn. *)
Example C92_swallowed_nonvacuous :
  let E := mkEnv (S := unit) (fun _ _ u => (u, [], Ok (1, 0)%Q)) (fun _ _ u => u) (fun _ => false) (fun u => u)
    (fun _ _ => Err ValueError) (fun _ => Err ValueError) (fun _ => Err ValueError) false (3, 3) true in
  let r := mkRect 0 (1 # 20) 0 (1 # 20) in
  e_est E 0 r tt = (tt, [], Ok (1, 0)%Q) /\ (x2 r - x1 r < 1 # 10)%Q /\ (pow10 (- fst (e_precision E)) <= x2 r - x1 r)%Q /\
  is_RuntimeError RuntimeError.
Proof. cbn zeta. repeat split; try (vm_compute; congruence). left. reflexivity. Qed.
