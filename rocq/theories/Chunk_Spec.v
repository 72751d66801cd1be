(** * Specification vocabulary for the chunks of the parallel finder *)
From Coq Require Import Reals Qreals.
From Verif Require Import PyBase Finder_Model Refine_Model Refine_Spec Zeros_Spec Sum_Spec Arg_Spec EndToEnd_Model EndToEnd_Spec.
Open Scope R_scope.

(** On [r], which is searched in pieces [jobs] at tolerance 10^-P, [n] sample points per side
    are enough (compare [resolved] in Whole_Spec.v): one factorisation of f on the whole of
    [r], no zero on or too close to a side of a cell of a piece. *)
Definition resolved_pieces (f : cplx -> cR) (zeros : list point) (n : nat) (eps : R) (P : Z * Z) (r : rect)
    (jobs : list rctx) : Prop :=
  exists L eta, factorised f zeros L r /\
    (forall job q, In job jobs -> cell_of P (rect_of job) q -> well_sampled n eta L zeros q) /\
    4 * eta / PI + 4 * eps <= 1 / 5.

(** The upper side of [r] is never cut: a cell at the upper side that would be cut by a
    vertical line contains no zero. *)
Definition upper_side_whole (zeros : list point) (P : Z * Z) (r : rect) : Prop :=
  forall q, cell_of P r q -> (y2 q == y2 r)%Q -> wider P q -> ~ sub_tolerance P q -> count zeros q = O.

(** The state of the estimator of a finder whose own state was [s] when it has worked through
    [jobs], one after the other. *)
Definition state_after {T} (E : env T) (v : variant) (depth : nat) (s : T) (jobs : list rctx) : T :=
  fold_left (fun t job => fst (fst (calcRoots (env_for E job) v depth (rect_of job) t))) jobs s.
