(** * Specification vocabulary for numbers that are not finite (C84) *)
From Coq Require Export Permutation.
From Verif Require Import PyBase Rounding_Spec Container_Model Nan_Model.
Open Scope list_scope.

Definition is_number (x : num) : Prop := exists q, x = Fin q.
Definition finite (r : xroot) : Prop := is_number (fst (fst r)) /\ is_number (snd (fst r)).
Definition undefined (r : xroot) : Prop := fst (fst r) = NaN \/ snd (fst r) = NaN.
(** Decidable versions, to take parts of a list. *)
Definition finite_b (r : xroot) : bool :=
  match r with ((Fin _, Fin _), _) => true | _ => false end.
Definition undefined_b (r : xroot) : bool :=
  match r with ((NaN, _), _) | ((_, NaN), _) => true | _ => false end.

(** A finite number, root and context of the other models. *)
Definition fin (z : cplx) : xcplx := (Fin (re z), Fin (im z)).
Definition fin_root (r : root) : xroot := (fin (fst r), snd r).
Definition same_ctx (ctx : fctx) (xc : xctx) : Prop :=
  xc_precision xc = fc_precision ctx /\
  xc_reRan xc = (Fin (fst (fc_reRan ctx)), Fin (snd (fc_reRan ctx))) /\
  xc_imRan xc = (Fin (fst (fc_imRan ctx)), Fin (snd (fc_imRan ctx))) /\
  forall z, xc_f xc (fin z) = match fc_f ctx z with Ok w => Ok (fin w) | Err e => Err e end.
(** The two predicates decide alike on finite roots. *)
Definition same_filter (p : rootFilter) (xp : xfilter) : Prop :=
  forall r ctx xc, same_ctx ctx xc -> xp (fin_root r) xc = p r ctx.
(** The same call of the two models. *)
Inductive same_call : rc_op -> xop -> Prop :=
| sc_add i r ctx xc : same_ctx ctx xc -> same_call (RAdd i r ctx) (XAdd i (fin_root r) xc)
| sc_remove r : same_call (RRemove r) (XRemove (fin_root r))
| sc_clear : same_call RClear XClear
| sc_register p xp k : same_filter p xp -> same_call (RRegister p k) (XRegister xp k)
| sc_unregister k : same_call (RUnregister k) (XUnregister k).

(** [s] is [r] rounded: numbers as in C08, nan and infinities stay; the order stays. *)
Definition num_rounded (p : Z) (x y : num) : Prop :=
  match x, y with
  | Fin a, Fin b => rounds_to p a b
  | PInf, PInf | NInf, NInf | NaN, NaN => True
  | _, _ => False
  end.
Definition xrounded (p : Z * Z) (r s : xroot) : Prop :=
  num_rounded (fst p) (fst (fst r)) (fst (fst s)) /\ num_rounded (snd p) (snd (fst r)) (snd (fst s)) /\ snd s = snd r.

(** A range with finite ends. *)
Definition finite_range (ran : num * num) : Prop := is_number (fst ran) /\ is_number (snd ran).
(** x lies in the range [a, b], all three finite. *)
Definition number_in (ran : num * num) (x : num) : Prop :=
  exists a b q, ran = (Fin a, Fin b) /\ x = Fin q /\ (a <= q <= b)%Q.

(** A history that does not touch the filter under key [k]. *)
Definition leaves_filter (k : string) (h : list xop) : Prop :=
  ~ In (XUnregister k) h /\ forall p, ~ In (XRegister p k) h.
(** A history in which every root is added with precision [P]. *)
Definition one_precision (P : Z * Z) (h : list xop) : Prop :=
  forall i r ctx, In (XAdd i r ctx) h -> xc_precision ctx = P.
(** The history without the additions and removals of roots that are not finite. *)
Definition only_finite (h : list xop) : list xop :=
  filter (fun o => match o with XAdd _ r _ => finite_b r | XRemove r => finite_b r | _ => true end) h.

(** All filters of the container accept the root. *)
Definition passes (c : xcont) (r : xroot) (ctx : xctx) : Prop :=
  forall k p, In (k, p) (xs_filters c) -> p r ctx = Ok true.

(** Roots added one after the other in one context, each at its own log level. *)
Definition additions (ctx : xctx) (l : list (bool * xroot)) : list xop :=
  map (fun ir => XAdd (fst ir) (snd ir) ctx) l.
(** No filter raises in this context. *)
Definition filters_answer (fs : list (string * xfilter)) (ctx : xctx) : Prop :=
  forall k p r, In (k, p) fs -> exists b, p r ctx = Ok b.

(** The roots a history adds, oldest first. *)
Definition candidates (h : list xop) : list xroot :=
  flat_map (fun o => match o with XAdd _ r _ => [r] | _ => [] end) h.
