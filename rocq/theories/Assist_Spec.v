(** * Specification vocabulary for searches of the Newton-assisted algorithm (C75) *)
From Coq Require Import Reals Qreals.
From Verif Require Import PyBase Rounding_Model Container_Model Finder_Model Refine_Model Refine_Spec Zeros_Spec EndToEnd_Spec.
Open Scope R_scope.

(** The secant iteration, started from the midpoints of the left and right side of a cell of
    [r] with sides below 1/10 around a single simple zero, ends within half of 10^-P of it. *)
Definition secant_converges (secant : cplx -> cplx -> res cplx) (zeros : list point) (P : Z * Z) (r : rect) : Prop :=
  forall q z, cell_of P r q -> (x2 q - x1 q < 1 # 10)%Q -> (y2 q - y1 q < 1 # 10)%Q ->
    count zeros q = 1%nat -> In z zeros -> zin q z ->
    exists w, secant (x1 q, (1 # 2) * (y1 q + y2 q))%Q (x2 q, (1 # 2) * (y1 q + y2 q))%Q = Ok w /\ near P w z.

(** Newton's iteration, started from the center of such a cell, gives up or ends within half
    of 10^-P of the zero. *)
Definition newton_converges (newton : cplx -> res cplx) (zeros : list point) (P : Z * Z) (r : rect) : Prop :=
  forall q z, cell_of P r q -> (x2 q - x1 q < 1 # 10)%Q -> (y2 q - y1 q < 1 # 10)%Q ->
    count zeros q = 1%nat -> In z zeros -> zin q z ->
    (exists e, newton ((x1 q + x2 q) * (1 # 2), (y1 q + y2 q) * (1 # 2))%Q = Err e /\ is_RuntimeError e) \/
    exists w, newton ((x1 q + x2 q) * (1 # 2), (y1 q + y2 q) * (1 # 2))%Q = Ok w /\ near P w z.

(** Both, the second one if the derivative [df] is given. *)
Definition converging (secant : cplx -> cplx -> res cplx) (newton : cplx -> res cplx) (df : option holoFunc)
    (zeros : list point) (P : Z * Z) (r : rect) : Prop :=
  secant_converges secant zeros P r /\ (df <> None -> newton_converges newton zeros P r).
