(** * Specification of the estimator cache (C32-C35) *)
From Verif Require Import PyBase Poly_Model Refine_Model Cache_Model.
Open Scope Z_scope.

(** What can be done to an [EstimatorCache]. *)
Inductive cache_op : Type :=
| OpStore (order : Z) (a b : cplx) (v : cplx)
| OpRetrieve (debug : bool) (order : Z) (a b : cplx)
| OpRemove (order : Z) (a b : cplx)
| OpReset.

Definition cache_step (c : ecache) (o : cache_op) : ecache :=
  match o with
  | OpStore k a b v => ec_store k a b v c
  | OpRetrieve d k a b => fst (ec_retrieve d k a b c)
  | OpRemove k a b => ec_remove k a b c
  | OpReset => ec_reset c
  end.
Definition cache_run (h : list cache_op) : ecache := fold_left cache_step h new_cache.

(** The finite map a history describes, most recent operation first. *)
Definition same_key (k k' : Z) (a a' b b' : cplx) : bool := Z.eqb k k' && ceqb a a' && ceqb b b'.
Fixpoint latest (newest_first : list cache_op) (k : Z) (a b : cplx) : option cplx :=
  match newest_first with
  | [] => None
  | OpStore k' a' b' v :: h => if same_key k k' a a' b b' then Some v else latest h k a b
  | OpRemove k' a' b' :: h => if same_key k k' a a' b b' then None else latest h k a b
  | OpReset :: _ => None
  | OpRetrieve _ _ _ _ :: h => latest h k a b
  end.

(** Operations after the last reset (in a list with the most recent operation first). *)
Fixpoint since_reset (newest_first : list cache_op) : list cache_op :=
  match newest_first with
  | [] => []
  | OpReset :: _ => []
  | o :: h => o :: since_reset h
  end.
Definition debug_retrieves (l : list cache_op) : Z :=
  Z.of_nat (List.length (filter (fun o => match o with OpRetrieve true _ _ _ => true | _ => false end) l)).
Definition stores (l : list cache_op) : Z :=
  Z.of_nat (List.length (filter (fun o => match o with OpStore _ _ _ _ => true | _ => false end) l)).
(** Debug retrieves that found a non-zero value. *)
Fixpoint nonzero_finds (newest_first : list cache_op) : Z :=
  match newest_first with
  | [] => 0
  | OpReset :: _ => 0
  | OpRetrieve true k a b :: h =>
      nonzero_finds h + match latest h k a b with Some v => if ceqb v c0 then 0 else 1 | None => 0 end
  | _ :: h => nonzero_finds h
  end.

(** A line estimator without state and without errors, whose result only depends on the
    (numerical) end points and changes sign when they are swapped. *)
Record pure_line {LS} (line : Z -> cplx -> cplx -> LS -> LS * list cplx * res cplx)
    (value : Z -> cplx -> cplx -> cplx) : Prop := mkPureLine {
  pl_result : forall k a b s, snd (line k a b s) = Ok (value k a b);
  pl_points : forall k a b a' b', ceq a a' -> ceq b b' -> value k a b = value k a' b';
  pl_swap : forall k a b, value k b a = copp (value k a b)
}.

(** The four sides, counter-clockwise from the lower left corner. *)
Definition sides (r : rect) : list (cplx * cplx) :=
  [((x1 r, y1 r), (x2 r, y1 r)); ((x2 r, y1 r), (x2 r, y2 r));
   ((x2 r, y2 r), (x1 r, y2 r)); ((x1 r, y2 r), (x1 r, y1 r))].
(** The moment as the sum over the four sides. *)
Definition border_sum (value : Z -> cplx -> cplx -> cplx) (k : Z) (r : rect) : cplx :=
  fold_left (fun phi e => cadd phi (value k (fst e) (snd e))) (sides r) c0.

(** What happens to the cache during searches. *)
Inductive use : Type :=
| UseMoment (order : Z) (r : rect)
| UseRemove (order : Z) (a b : cplx)
| UseReset.
Definition use_step {LS} (line : Z -> cplx -> cplx -> LS -> LS * list cplx * res cplx) (debug : bool)
    (st : ecache * LS) (u : use) : ecache * LS :=
  match u with
  | UseMoment k r => fst (fst (cached_moment line debug k r st))
  | UseRemove k a b => (ec_remove k a b (fst st), snd st)
  | UseReset => (ec_reset (fst st), snd st)
  end.
Definition use_run {LS} line debug (h : list use) (s : LS) : ecache * LS :=
  fold_left (use_step line debug) h (new_cache, s).

(** The same estimator without a cache. *)
Fixpoint uncached_loop {LS} (line : Z -> cplx -> cplx -> LS -> LS * list cplx * res cplx)
    (order : Z) (es : list ckey) (phi : cplx) (s : LS) : LS * list cplx * res cplx :=
  match es with
  | [] => (s, [], Ok phi)
  | (a, b) :: es' =>
      match line order a b s with
      | (s1, zs, Err e) => (s1, zs, Err e)
      | (s1, zs, Ok d) => let '(s2, zs', v) := uncached_loop line order es' (cadd phi d) s1 in (s2, zs ++ zs', v)
      end
  end.
Definition uncached_env {LS} (line : Z -> cplx -> cplx -> LS -> LS * list cplx * res cplx)
    (secant : cplx -> cplx -> res cplx) (newton : cplx -> res cplx)
    (polyroots : list cplx -> res (list cplx)) (has_df : bool) (precision : Z * Z) (progress : bool) : env LS :=
  mkEnv (S := LS) (fun k r s => uncached_loop line k (sides r) c0 s)
    (fun _ _ s => s) (fun _ => false) (fun s => s)
    secant newton polyroots has_df precision progress.

(** A log without the contour zeros (order 0), which a cache hit does not report again. *)
Definition without_contour_zeros (l : list event) : list event :=
  filter (fun e => match e with EvRoot (_, 0) => false | _ => true end) l.

(** Summing up the sides when a table [known] of values is given: a known value other than 0 is
    used as it is, every other side is handed to the line estimator, in order; all the zeros it
    comes across are collected; the first error ends the sum. *)
Fixpoint sum_sides {LS} (line : Z -> cplx -> cplx -> LS -> LS * list cplx * res cplx)
    (known : cplx -> cplx -> option cplx) (order : Z) (es : list (cplx * cplx)) (phi : cplx) (s : LS)
    : LS * list cplx * res cplx :=
  match es with
  | [] => (s, [], Ok phi)
  | (a, b) :: es' =>
      let compute :=
        match line order a b s with
        | (s1, zs, Err e) => (s1, zs, Err e)
        | (s1, zs, Ok d) =>
            let '(s2, zs', v) := sum_sides line known order es' (cadd phi d) s1 in (s2, zs ++ zs', v)
        end in
      match known a b with
      | Some v => if ceqb v (0, 0)%Q then compute else sum_sides line known order es' (cadd phi v) s
      | None => compute
      end
  end.
