(** * Lambda wrapping: utils/lambda_wrapper.py *)
From Verif Require Import PyBase.

Section Lambda.
  Context {A : Type}.                            (* arguments and values (tVec) *)

  (** Callables that can be passed to the wrapper: user functions, or the module's own two
      functions (which is what a wrapper call returns). Code: lambda_wrapper.py:38-88. *)
  Inductive callable : Type :=
  | User (f : A -> res A)
  | WrappedFunc                                  (* lambda_wrapper.py:19-23 *)
  | WrappedDerivative.                           (* lambda_wrapper.py:26-30 *)

  (** The module's global variables, lambda_wrapper.py:15-16. *)
  Record globals : Type := mkGlobals { g_func : option callable; g_derivative : option callable }.
  (** A process that has just imported the module. Code: lambda_wrapper.py:15-16. *)
  Definition fresh_globals : globals := mkGlobals None None.

  (** Calling a callable in a process with the given globals, lambda_wrapper.py:19-30; [depth] is the
      remaining recursion depth.  Simplification: user functions do not change the globals. *)
  Fixpoint call (depth : nat) (g : globals) (c : callable) (z : A) : res A :=
    match depth with
    | O => Err RecursionError
    | S n =>
        match c with
        | User f => f z
        | WrappedFunc => match g_func g with Some c' => call n g c' z | None => Err ValueError end
        | WrappedDerivative => match g_derivative g with Some c' => call n g c' z | None => Err ValueError end
        end
    end.

  (** mode: "save" = true, "unsave" = false. *)
  (** lambda_wrapper.py:38-62 *)
  Definition wrapLambda (c : callable) (save : bool) (g : globals) : globals * res callable :=
    match g_func g, save with
    | Some _, true => (g, Err ValueError)
    | _, _ => (mkGlobals (Some c) (g_derivative g), Ok WrappedFunc)
    end.
  (** lambda_wrapper.py:64-88 *)
  Definition wrapDerivative (c : callable) (save : bool) (g : globals) : globals * res callable :=
    match g_derivative g, save with
    | Some _, true => (g, Err ValueError)
    | _, _ => (mkGlobals (g_func g) (Some c), Ok WrappedDerivative)
    end.
End Lambda.
Arguments callable : clear implicits.
Arguments globals : clear implicits.
