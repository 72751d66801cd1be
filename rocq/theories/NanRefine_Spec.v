(** * Specification vocabulary for phases that are not numbers (C85) *)
From Verif Require Import PyBase Refine_Model Refine_Spec Nan_Model Nan_Spec NanRefine_Model.
Open Scope list_scope.

(** nan, or larger than any number. *)
Definition unclear (phi : num) : Prop := phi = NaN \/ phi = PInf.

(** Rectangles where the search ended, and the roots it added. *)
Definition xhandled (l : list xevent) : list rect :=
  flat_map (fun e => match e with
    | Old (EvDiscard r _) | Old (EvReport r _) | Old (EvNewton r _) | Old (EvPoly r _) | XDropped r _ => [r]
    | _ => [] end) l.
Definition xroots (l : list xevent) : list root :=
  flat_map (fun e => match e with Old (EvRoot r) => [r] | _ => [] end) l.

(** Reading a phase as a number: an unclear phase counts as four turns, more than any threshold of the algorithms. *)
Definition as_number (x : num) : Q :=
  match x with Fin q => q | NaN | PInf => 4 | NInf => -1 end.
Definition as_complex (m : xcplx) : cplx := (as_number (fst m), as_number (snd m)).
Definition as_events (l : list xevent) : list event :=
  flat_map (fun e => match e with
    | Old e => [e]
    | XPhase r (Ok m) => [EvMoment 0 r (Ok (as_complex m))]
    | XPhase r (Err e) => [EvMoment 0 r (Err e)]
    | XDropped r phi => [EvDiscard r (as_number phi)]
    | XStuck _ _ => [] end) l.

(** [E'] is [E] with the phases replaced by these numbers. *)
Definition stands_for {S} (E : env S) (phase : rect -> S -> S * list cplx * res xcplx) (E' : env S) : Prop :=
  (forall r s, e_est E' 0 r s =
     (fst (phase r s), match snd (phase r s) with Ok m => Ok (as_complex m) | Err e => Err e end)) /\
  (forall k r s, k <> 0%Z -> e_est E' k r s = e_est E k r s) /\
  e_rm E' = e_rm E /\ e_dirty E' = e_dirty E /\ e_reset E' = e_reset E /\ e_secant E' = e_secant E /\
  e_newton E' = e_newton E /\ e_polyroots E' = e_polyroots E /\ e_has_df E' = e_has_df E /\
  e_precision E' = e_precision E /\ e_progress E' = e_progress E.

(** The estimator only gives numbers. *)
Definition numbers_only {S} (phase : rect -> S -> S * list cplx * res xcplx) : Prop :=
  forall r s m, snd (phase r s) = Ok m -> is_number (fst m) /\ is_number (snd m).
