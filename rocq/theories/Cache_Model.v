(** * Estimator cache and moments of rectangles:
    algorithms/estimators/estimator_cache.py and argument_estimator.py *)
From Verif Require Import PyBase Poly_Model Refine_Model.
Open Scope Z_scope.

(** Keys are pairs of complex numbers, compared by value. Code: estimator_cache.py:27. *)
Definition ckey : Type := (cplx * cplx)%type.
(** Equality of these dictionary keys, estimator_cache.py:27, 80. *)
Definition ckey_eqb (a b : ckey) : bool := ceqb (fst a) (fst b) && ceqb (snd a) (snd b).

(** estimator_cache.py:21-31: the dict of dicts and the two counters. *)
Record ecache : Type := mkCache {
  ec_map : list (Z * list (ckey * cplx));
  ec_hits : Z;
  ec_misses : Z
}.
(** estimator_cache.py:23-31. *)
Definition new_cache : ecache := mkCache [] 0 0.

(** estimator_cache.py:33-58, [store]. *)
Definition ec_store (order : Z) (zStart zEnd : cplx) (argument : cplx) (c : ecache) : ecache :=
  let m := match dget Z.eqb order (ec_map c) with
           | None => dset Z.eqb order [((zStart, zEnd), argument)] (ec_map c)
           | Some oc => dset Z.eqb order (dset ckey_eqb (zStart, zEnd) argument oc) (ec_map c)
           end in
  mkCache m (ec_hits c) (ec_misses c).

(** Python truth value of an optional complex number. Code: estimator_cache.py:87-88, argument_estimator.py:67. *)
Definition truthy (v : option cplx) : bool :=
  match v with Some z => negb (ceqb z c0) | None => false end.

(** estimator_cache.py:77-80: the lookup itself. *)
Definition ec_lookup (order : Z) (zStart zEnd : cplx) (c : ecache) : option cplx :=
  match dget Z.eqb order (ec_map c) with
  | None => None
  | Some oc => dget ckey_eqb (zStart, zEnd) oc
  end.

(** estimator_cache.py:60-89, [retrieve]; [debug] is logger.isEnabledFor(DEBUG). *)
Definition ec_retrieve (debug : bool) (order : Z) (zStart zEnd : cplx) (c : ecache) : ecache * option cplx :=
  let value := ec_lookup order zStart zEnd c in
  (if debug then
     mkCache (ec_map c) (ec_hits c + (if truthy value then 1 else 0))
             (ec_misses c + (if truthy value then 0 else 1))
   else c, value).

(** estimator_cache.py:91-111, [remove]. *)
Definition ec_remove (order : Z) (zStart zEnd : cplx) (c : ecache) : ecache :=
  match dget Z.eqb order (ec_map c) with
  | None => c
  | Some oc => mkCache (dset Z.eqb order (ddel ckey_eqb (zStart, zEnd) oc) (ec_map c))
                       (ec_hits c) (ec_misses c)
  end.

(** estimator_cache.py:113-119, [dirty]. *)
Definition ec_dirty (c : ecache) : bool := match ec_map c with [] => false | _ => true end.

(** estimator_cache.py:121-128, [reset]. *)
Definition ec_reset (c : ecache) : ecache := mkCache [] 0 0.

(** argument_estimator.py:60-65: the border, counter-clockwise. *)
Definition edges (r : rect) : list ckey :=
  [((x1 r, y1 r), (x2 r, y1 r)); ((x2 r, y1 r), (x2 r, y2 r));
   ((x2 r, y2 r), (x1 r, y2 r)); ((x1 r, y2 r), (x1 r, y1 r))]%Q.

Section Moment.
  Context {LS : Type}.     (* state of the line estimator *)
  (** [calcMomentAlongLine], the abstract method (argument_estimator.py:81-99): new state,
      zeros put into the container, value (in turns) or exception. *)
  Variable line : Z -> cplx -> cplx -> LS -> LS * list cplx * res cplx.
  Variable debug : bool.

  (** argument_estimator.py:66-76: the loop over the edges ([if entry := ...] treats the
      value 0 like a missing entry). *)
  Fixpoint moment_loop (order : Z) (es : list ckey) (phi : cplx) (st : ecache * LS)
      : (ecache * LS) * list cplx * res cplx :=
    match es with
    | [] => (st, [], Ok phi)
    | (zStart, zEnd) :: es' =>
        let '(c1, entry) := ec_retrieve debug order zStart zEnd (fst st) in
        if truthy entry then
          moment_loop order es' (cadd phi (match entry with Some v => v | None => c0 end)) (c1, snd st)
        else
          match line order zStart zEnd (snd st) with
          | (ls, zs, Err e) => ((c1, ls), zs, Err e)
          | (ls, zs, Ok deltaPhi) =>
              let c2 := ec_store order zEnd zStart (copp deltaPhi)
                          (ec_store order zStart zEnd deltaPhi c1) in
              let '(st', zs', v) := moment_loop order es' (cadd phi deltaPhi) (c2, ls) in
              (st', zs ++ zs', v)
          end
    end.

  (** argument_estimator.py:27-79, [calcMoment]. *)
  Definition cached_moment (order : Z) (r : rect) (st : ecache * LS)
      : (ecache * LS) * list cplx * res cplx :=
    moment_loop order (edges r) c0 st.
End Moment.

(** A search environment (Refine_Model.v) whose estimator works as above: cache.remove,
    cache.dirty and cache.reset are those of the estimator's cache. Code: simple_holo.py:63-72, 171-187. *)
Definition cached_env {LS} (line : Z -> cplx -> cplx -> LS -> LS * list cplx * res cplx) (debug : bool)
    (secant : cplx -> cplx -> res cplx) (newton : cplx -> res cplx)
    (polyroots : list cplx -> res (list cplx)) (has_df : bool) (precision : Z * Z) (progress : bool)
    : env (ecache * LS) :=
  mkEnv (S := ecache * LS)
    (cached_moment line debug)
    (fun a b st => (ec_remove 0 a b (fst st), snd st))
    (fun st => ec_dirty (fst st))
    (fun st => (ec_reset (fst st), snd st))
    secant newton polyroots has_df precision progress.
