(** * Specification vocabulary for searches with raising filters (C77) *)
From Verif Require Import PyBase Container_Model Refine_Model Refine_Spec.
Open Scope Z_scope.

(** Putting the zero [z], with order 1, into the container [c] raises [e]. *)
Definition refused_with (c : rcont) (ctx : fctx) (z : cplx) (e : exn) : Prop :=
  snd (rc_add false (z, 1) ctx c) = Err e.

(** The iteration [g'] is [g], except that it gives up where the result of [g] makes the
    filters raise a RuntimeError. *)
Definition silenced {A} (c : rcont) (ctx : fctx) (g g' : A -> res cplx) : Prop :=
  forall a,
    ((exists z e, g a = Ok z /\ refused_with c ctx z e /\ is_RuntimeError e) -> g' a = Err RuntimeError) /\
    ((forall z e, g a = Ok z -> refused_with c ctx z e -> ~ is_RuntimeError e) -> g' a = g a).

(** The search environment with other iterations. *)
Definition with_iterations {S} (E : env S) (secant : cplx -> cplx -> res cplx) (newton : cplx -> res cplx) : env S :=
  mkEnv (e_est E) (e_rm E) (e_dirty E) (e_reset E) secant newton (e_polyroots E) (e_has_df E) (e_precision E) (e_progress E).
