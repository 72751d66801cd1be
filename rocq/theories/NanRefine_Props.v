(** * C85: phases that are not numbers *)
From Verif Require Import PyBase Rounding_Model Refine_Model Refine_Spec Nan_Model Nan_Spec NanRefine_Model NanRefine_Spec NanRefine_Proofs2.
Open Scope Z_scope.
Open Scope list_scope.

(** A search that returns normally has lost nothing to undefined phases: the rectangles where it ended tile the whole
    domain, those given up had a phase below the threshold, and every rectangle with phase nan or +inf was refined. *)
Theorem C85_complete : forall S (E : env S) phase v fuel r s s' l, proper r ->
  xcalcRoots E phase v fuel r s = (s', l, Done tt) ->
  tiles r (xhandled l) /\
  (forall q n, In (XDropped q n) l -> n = NInf \/ exists t, n = Fin t /\ (t < 4 # 5)%Q) /\
  (forall q m, In (XPhase q (Ok m)) l -> unclear (fst m) -> ~ sub_tolerance (e_precision E) q).
Proof. exact @search_complete. Qed.
Print Assumptions C85_complete.

(** Every search is, event for event, the search in which unclear phases are replaced by four turns, or it does the same up
    to a rectangle below the tolerance with an unclear phase and raises there: ValueError for nan, OverflowError
    for infinity. *)
Theorem C85_like_finite : forall S (E E' : env S) phase v fuel r s s' l o, proper r -> stands_for E phase E' ->
  xcalcRoots E phase v fuel r s = (s', l, o) ->
  calcRoots E' v fuel r s = (s', as_events l, o) \/
  (exists l0 q phi, l = l0 ++ [XStuck q phi] /\ sub_tolerance (e_precision E) q /\ sub_rect q r /\
     (phi = NaN /\ o = Raised ValueError \/ phi = PInf /\ o = Raised OverflowError) /\
     exists rest, snd (fst (calcRoots E' v fuel r s)) = as_events l0 ++ rest).
Proof. exact @search_sim. Qed.
Print Assumptions C85_like_finite.
Theorem C85_replacement_exists : forall S (E : env S) phase, exists E', stands_for E phase E'.
Proof. exact (fun S E phase => ex_intro _ (replaced E phase) (replaced_stands E phase)). Qed.
Print Assumptions C85_replacement_exists.

(** If all phases are numbers the search is the one of C20-C26. *)
Theorem C85_finite : forall S (E : env S) phase v fuel r s, proper r -> numbers_only phase -> stands_for E phase E ->
  forall s' l o, xcalcRoots E phase v fuel r s = (s', l, o) -> calcRoots E v fuel r s = (s', as_events l, o).
Proof. exact @search_finite. Qed.
Print Assumptions C85_finite.

(** Undefined phases cannot make a search run forever: the depth bound does not depend on the phases. *)
Theorem C85_terminates : forall (r : rect) (p : Z * Z), proper r -> exists depth,
  forall S (E : env S) phase v s fuel, e_precision E = p -> (depth <= fuel)%nat -> snd (xcalcRoots E phase v fuel r s) <> OutOfFuel.
Proof. exact search_terminates. Qed.
Print Assumptions C85_terminates.

(** For a function whose phase is undefined on every rectangle the search ends with ValueError and adds no root. *)
Theorem C85_undefined_everywhere : forall S (E : env S) phase v fuel r s s' l o,
  (forall q s, exists m, phase q s = (s, [], Ok (NaN, m))) -> xcalcRoots E phase v fuel r s = (s', l, o) ->
  (o = Raised ValueError \/ o = OutOfFuel) /\ xroots l = [].
Proof. exact @nowhere. Qed.
Print Assumptions C85_undefined_everywhere.

(** That an undefined phase is always reported as an error is false: here the phase of the whole domain is nan and the search returns
    normally, because both halves have phase 0. *)
Definition env1 : env unit :=
  mkEnv (fun _ _ s => (s, [], Ok (0, 0)%Q)) (fun _ _ s => s) (fun _ => false) (fun s => s)
    (fun _ _ => Err RuntimeError) (fun _ => Err RuntimeError) (fun _ => Err RuntimeError) false (0, 0) false.
Definition dom1 : rect := mkRect 0 2 0 (1 # 2).
Definition outer_nan (q : rect) (s : unit) : unit * list cplx * res xcplx :=
  (s, [], Ok (if Qle_bool 2 (x2 q - x1 q) then NaN else Fin 0, Fin 0)).
Theorem C85_error_refuted :
  exists l, xcalcRoots env1 outer_nan Simple 9 dom1 tt = (tt, l, Done tt) /\
    In (XPhase dom1 (Ok (NaN, Fin 0))) l /\ xroots l = [].
Proof. eexists. split; [vm_compute; reflexivity|]. split; [left; reflexivity|reflexivity]. Qed.
Print Assumptions C85_error_refuted.

(** That zeros are found wherever the phases are numbers is false: the phases are numbers right of 1 and show a zero there,
    but the search raises at the left and never looks. *)
Definition left_nan (q : rect) (s : unit) : unit * list cplx * res xcplx :=
  (s, [], Ok (if Qle_bool 1 (x1 q) then Fin 1 else NaN, Fin 0)).
Theorem C85_other_zeros_refuted :
  exists l, xcalcRoots env1 left_nan Simple 9 dom1 tt = (tt, l, Raised ValueError) /\ xroots l = [] /\
  exists l', xcalcRoots env1 left_nan Simple 9 (mkRect 1 2 0 (1 # 2)) tt = (tt, l', Done tt) /\ xroots l' <> [].
Proof.
  eexists. split; [vm_compute; reflexivity|]. split; [reflexivity|].
  eexists. split; [vm_compute; reflexivity|]. cbn. discriminate.
Qed.
Print Assumptions C85_other_zeros_refuted.

(** The hypotheses are met: by the two searches above, and by an estimator that only gives numbers. *)
Definition all_zero (q : rect) (s : unit) : unit * list cplx * res xcplx := (s, [], Ok (Fin 0, Fin 0)).
Theorem C85_nonvacuous :
  proper dom1 /\ stands_for env1 all_zero env1 /\ numbers_only all_zero /\
  xcalcRoots env1 all_zero NewtonV 3 dom1 tt = (tt, [XPhase dom1 (Ok (Fin 0, Fin 0)); XDropped dom1 (Fin 0)], Done tt) /\
  snd (xcalcRoots env1 (fun q s => (s, [], Ok (PInf, NaN))) NewtonV 9 dom1 tt) = Raised OverflowError.
Proof.
  split; [split; vm_compute; discriminate|].
  split; [split; [intros; reflexivity|]; split; [intros; reflexivity|]; repeat split|].
  split; [|split; vm_compute; reflexivity].
  intros r s m K. injection K as <-. split; eexists; reflexivity.
Qed.
Print Assumptions C85_nonvacuous.
