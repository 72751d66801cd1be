(** Property C50: wrapping lambdas.  [wrapped h fresh_globals]: the module state of a process after the
    wrap calls h; [the_wrapper d]: the callable returned for functions (d = false) or derivatives. *)
From Verif Require Import PyBase Lambda_Model Lambda_Spec Lambda_Proofs.

(** Whatever was wrapped, the returned callable (in fact every one returned earlier, too) evaluates the
    function of the newest accepted wrap call, and raises ValueError if there was none. *)
Theorem C50_wrapper_evaluates_newest_function :
  forall (A : Type) (derivative : bool) (h : list (wrap A)) n z,
    call (S (S n)) (wrapped h fresh_globals) (the_wrapper derivative) z =
    match newest derivative (rev h) with Some f => f z | None => Err ValueError end.
Proof. intros A. exact evaluates_newest. Qed.
Print Assumptions C50_wrapper_evaluates_newest_function.

(** Which calls are accepted, and that rejected ones change nothing. *)
Theorem C50_acceptance :
  forall (A : Type) (h : list (wrap A)) w g' r, do_wrap w (wrapped h fresh_globals) = (g', r) ->
    r = match newest (w_derivative w) (rev h), w_save w with
        | Some _, true => Err ValueError
        | _, _ => Ok (the_wrapper (w_derivative w))
        end
    /\ (r = Err ValueError -> g' = wrapped h fresh_globals).
Proof. intros A. exact result_of_wrap. Qed.
Print Assumptions C50_acceptance.

(** In save mode the first wrapped function stays for ever. *)
Theorem C50_save_mode_keeps_the_first_function :
  forall (A : Type) (derivative : bool) (h : list (wrap A)) f n z,
    (forall w, In w h -> w_save w = true) -> first derivative h = Some f ->
    call (S (S n)) (wrapped h fresh_globals) (the_wrapper derivative) z = f z.
Proof.
  exact (fun A d h f n z H F =>
    eq_trans (evaluates_newest d h n z)
      (eq_trans (f_equal (fun o => match o with Some f => f z | None => Err ValueError end) (save_mode_keeps_first d h H))
        (f_equal (fun o => match o with Some f => f z | None => Err ValueError end) F))).
Qed.
Print Assumptions C50_save_mode_keeps_the_first_function.

(** Isolation fails in unsave mode: the callable obtained for f evaluates g after g was wrapped. *)
Theorem C50_isolation_refuted :
  forall (A : Type) (f g : A -> res A) (z : A), f z <> g z ->
    exists c g1 g2 c2, do_wrap (mkWrap false f true) fresh_globals = (g1, Ok c) /\
      (forall n, call (S (S n)) g1 c z = f z) /\
      do_wrap (mkWrap false g false) g1 = (g2, Ok c2) /\
      (forall n, call (S (S n)) g2 c z = g z /\ call (S (S n)) g2 c z <> f z).
Proof.
  intros A f g z NE. eexists _, _, _, _. split; [reflexivity|]. split; [reflexivity|]. split; [reflexivity|].
  intro n. split; [reflexivity|]. intro E. apply NE. symmetry. exact E.
Qed.
Print Assumptions C50_isolation_refuted.

(** Wrapping the wrapper itself never yields a value. *)
Theorem C50_wrapping_the_wrapper :
  forall (A : Type) (g : globals A) n z g' r,
    wrapLambda WrappedFunc false g = (g', r) -> call n g' WrappedFunc z = Err RecursionError.
Proof. intros A. exact self_wrap. Qed.
Print Assumptions C50_wrapping_the_wrapper.

(** Pickling transports only the name: in a process that imported the module anew (start method
    "spawn") the callable raises, while in a forked one (same globals) it works as above. *)
Theorem C50_spawned_process_raises :
  forall (A : Type) c n (z : A), c = WrappedFunc \/ c = WrappedDerivative ->
    call (S n) fresh_globals c z = Err ValueError.
Proof. intros A. exact fresh_process. Qed.
Print Assumptions C50_spawned_process_raises.

(** ** Non-vacuity *)
Definition ex_h : list (wrap nat) :=
  [mkWrap false (fun n => Ok (n + 1)%nat) true; mkWrap false (fun n => Ok (n + 2)%nat) true;
   mkWrap true (fun n => Ok (n + 3)%nat) true; mkWrap false (fun n => Ok (n + 4)%nat) false].
Example ex_newest : call 2 (wrapped ex_h fresh_globals) (the_wrapper false) 1%nat = Ok 5%nat
  /\ call 2 (wrapped (firstn 2 ex_h) fresh_globals) (the_wrapper false) 1%nat = Ok 2%nat
  /\ call 2 (wrapped ex_h fresh_globals) (the_wrapper true) 1%nat = Ok 4%nat
  /\ option_map (fun f => f 0%nat) (first false (firstn 3 ex_h)) = Some (Ok 1%nat).
Proof. repeat split. Qed.
