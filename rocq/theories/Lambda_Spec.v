(** * Specification of the lambda wrapper (C50) *)
From Verif Require Import PyBase Lambda_Model.

Section Spec.
  Context {A : Type}.
  (** A wrap call: of a function or a derivative, the user function, "save" or not. *)
  Record wrap : Type := mkWrap { w_derivative : bool; w_user : A -> res A; w_save : bool }.
  Definition do_wrap (w : wrap) (g : globals A) : globals A * res (callable A) :=
    if w_derivative w then wrapDerivative (User (w_user w)) (w_save w) g
    else wrapLambda (User (w_user w)) (w_save w) g.
  Definition wrapped (h : list wrap) (g : globals A) : globals A := fold_left (fun g w => fst (do_wrap w g)) h g.

  (** The function wrapped last by an accepted call; calls newest first. *)
  Fixpoint newest (derivative : bool) (h : list wrap) : option (A -> res A) :=
    match h with
    | [] => None
    | w :: h' =>
        if Bool.eqb (w_derivative w) derivative
        then match newest derivative h' with
             | Some f => if w_save w then Some f else Some (w_user w)   (* "save": rejected *)
             | None => Some (w_user w)
             end
        else newest derivative h'
    end.
  (** The function wrapped first. *)
  Definition first (derivative : bool) (h : list wrap) : option (A -> res A) :=
    option_map w_user (find (fun w => Bool.eqb (w_derivative w) derivative) h).
  Definition the_wrapper (derivative : bool) : callable A := if derivative then WrappedDerivative else WrappedFunc.
End Spec.
Arguments wrap : clear implicits.
