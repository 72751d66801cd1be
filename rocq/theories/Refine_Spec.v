(** * Specification vocabulary for the adaptive refinement (C20-C26, C29, C30) *)
From Verif Require Import PyBase Rounding_Model Poly_Model Refine_Model.
Open Scope Z_scope.

(** Rectangles with ordered corners; closed and open membership; inclusion. *)
Definition proper (r : rect) : Prop := (x1 r <= x2 r /\ y1 r <= y2 r)%Q.
Definition inside (r : rect) (z : cplx) : Prop :=
  (x1 r <= re z <= x2 r /\ y1 r <= im z <= y2 r)%Q.
Definition strictly_inside (r : rect) (z : cplx) : Prop :=
  (x1 r < re z < x2 r /\ y1 r < im z < y2 r)%Q.
Definition sub_rect (r' r : rect) : Prop :=
  (x1 r <= x1 r' /\ x2 r' <= x2 r /\ y1 r <= y1 r' /\ y2 r' <= y2 r)%Q.
(** Midpoint and area. *)
Definition midpoint (r : rect) : cplx := ((x1 r + x2 r) / 2, (y1 r + y2 r) / 2)%Q.
Definition size (r : rect) : Q := ((x2 r - x1 r) * (y2 r - y1 r))%Q.
(** No common interior point. *)
Definition interiors_disjoint (a b : rect) : Prop :=
  forall z, ~ (strictly_inside a z /\ strictly_inside b z).

(** Both sides below the tolerance 10^-precision. *)
Definition sub_tolerance (p : Z * Z) (r : rect) : Prop :=
  (x2 r - x1 r < pow10 (- fst p) /\ y2 r - y1 r < pow10 (- snd p))%Q.

(** [isinstance(e, RuntimeError)] *)
Definition is_RuntimeError (e : exn) : Prop := e = RuntimeError \/ e = NotImplementedError \/ e = RecursionError.

(** Reading an event log. *)
Definition roots_of (l : list event) : list root :=
  flat_map (fun e => match e with EvRoot r => [r] | _ => [] end) l.
Definition advances_of (l : list event) : list Q :=
  flat_map (fun e => match e with EvAdvance a => [a] | _ => [] end) l.
(** Rectangles where the search ended: discarded, reported, handed to a solver. *)
Definition handled (l : list event) : list rect :=
  flat_map (fun e => match e with
    | EvDiscard r _ | EvReport r _ | EvNewton r _ | EvPoly r _ => [r]
    | _ => [] end) l.
Definition discarded (l : list event) : list rect :=
  flat_map (fun e => match e with EvDiscard r _ => [r] | _ => [] end) l.
Definition reported (l : list event) : list rect :=
  flat_map (fun e => match e with EvReport r _ => [r] | _ => [] end) l.
(** Rectangles whose winding number was estimated. *)
Definition estimated (l : list event) : list rect :=
  flat_map (fun e => match e with EvMoment 0 r _ => [r] | _ => [] end) l.

Definition Qsum (l : list Q) : Q := fold_right Qplus 0%Q l.

(** [ls] tiles [r]: covers it, lies inside it, has pairwise disjoint interiors, and the
    areas add up. *)
Definition tiles (r : rect) (ls : list rect) : Prop :=
  (forall z, inside r z -> exists a, In a ls /\ inside a z) /\
  (forall a, In a ls -> sub_rect a r /\ proper a) /\
  ForallOrdPairs interiors_disjoint ls /\
  (Qsum (map size ls) == size r)%Q.

(** [z] was met on a contour sample by the estimator. *)
Definition contour_zero {S} (E : env S) (z : cplx) : Prop :=
  exists k r s, In z (snd (fst (e_est E k r s))).

(** The run [l] contains the winding number estimate [t] for rectangle [q]. *)
Definition estimate {S} (E : env S) (l : list event) (q : rect) (t : Q) : Prop :=
  exists m, In (EvMoment 0 q (Ok m)) l /\ t = re m.
