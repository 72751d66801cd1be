(** * Specification vocabulary for containers, in terms of call histories only *)
From Coq Require Export Permutation.
From Verif Require Import PyBase Rounding_Spec Container_Model.

(** An iteration order of a Python set: any rearrangement of its elements. *)
Definition iteration_order (iter : list root -> list root) : Prop :=
  forall l, Permutation (iter l) l.

(** What the user sees: the pairs (root, order) obtained by zipping the two getters. *)
Definition reported_pairs (iter : list root -> list root) (c : rcont) : list root :=
  combine (rc_getRoots iter c) (rc_getRootOrders iter c).

(** After history [h], predicate [p] is the one registered under key [k]: the last
    call concerning [k] registered [p]. *)
Definition registered (h : list rc_op) (k : string) (p : rootFilter) : Prop :=
  exists h1 h2, h = h1 ++ RRegister p k :: h2 /\
    (forall p', ~ In (RRegister p' k) h2) /\ ~ In (RUnregister k) h2.

(** A root added after history [h] passes all filters registered then. *)
Definition accepted (h : list rc_op) (r : root) (ctx : fctx) : Prop :=
  forall k p, registered h k p -> p r ctx = Ok true.

(** [pr] must be reported after history [h]: there is an accepted add rounding to [pr]
    that was afterwards neither cleared, nor removed, nor invalidated by an accepted
    add with another precision. *)
Definition must_report (h : list rc_op) (pr : root) : Prop :=
  exists h1 info r ctx h2,
    h = h1 ++ RAdd info r ctx :: h2 /\
    accepted h1 r ctx /\
    rounded (fc_precision ctx) r pr /\
    ~ In RClear h2 /\
    (forall r', In (RRemove r') h2 -> ~ rounded (fc_precision ctx) r' pr) /\
    (forall g1 info' r' ctx' g2,
       h2 = g1 ++ RAdd info' r' ctx' :: g2 ->
       accepted (h1 ++ RAdd info r ctx :: g1) r' ctx' ->
       fc_precision ctx' = fc_precision ctx).

(** The precision in force after history [h] on a container created with [p0]. *)
Definition precision_after (p0 : Z * Z) (h : list rc_op) (p : Z * Z) : Prop :=
  (exists h1 info r ctx h2,
     h = h1 ++ RAdd info r ctx :: h2 /\ accepted h1 r ctx /\ fc_precision ctx = p /\
     (forall g1 info' r' ctx' g2,
        h2 = g1 ++ RAdd info' r' ctx' :: g2 ->
        ~ accepted (h1 ++ RAdd info r ctx :: g1) r' ctx'))
  \/
  (p = p0 /\ forall g1 info' r' ctx' g2,
        h = g1 ++ RAdd info' r' ctx' :: g2 -> ~ accepted g1 r' ctx').

(** Two histories that differ only in the log level at which adds were made. *)
Inductive same_upto_level : list rc_op -> list rc_op -> Prop :=
| sul_nil : same_upto_level [] []
| sul_add i j r ctx h g : same_upto_level h g ->
    same_upto_level (RAdd i r ctx :: h) (RAdd j r ctx :: g)
| sul_other o h g : same_upto_level h g -> same_upto_level (o :: h) (o :: g).

(** The roots put into a plain container by a history, oldest first. *)
Fixpoint put_roots (h : list pc_op) : list root :=
  match h with
  | [] => []
  | PAdd r _ :: h' => r :: put_roots h'
  | PPut r :: h' => r :: put_roots h'
  | _ :: h' => put_roots h'
  end.

(** The predicate meant by a predefined filter type. *)
Definition predefined (t : filterType) (threshold : Z) : rootFilter :=
  match t with
  | FUNCTION_VALUE_ZERO => func_value_zero threshold
  | ZERO_IN_BOUNDS => zero_in_bounds
  end.
