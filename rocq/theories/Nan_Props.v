(** * C84: numbers that are not finite *)
From Verif Require Import PyBase Rounding_Spec Container_Model Nan_Model Nan_Spec Nan_Proofs Nan_Proofs2 Nan_Proofs3.
Open Scope list_scope.

(** As long as only finite numbers are added and removed, the container is the one of C01-C10: the same contents
    and the same answers after any history of calls (the predefined filters are the same as well). *)
Theorem C84_finite : forall P h xh, Forall2 same_call h xh ->
  xs_set (xs_run xh (mkXC P [] [])) = map fin_root (rc_set (rc_run h (mkRC P [] []))) /\
  (forall i r ctx xctx, same_ctx ctx xctx ->
    snd (xs_add i (fin_root r) xctx (xs_run xh (mkXC P [] []))) = snd (rc_add i r ctx (rc_run h (mkRC P [] [])))) /\
  (forall r, snd (xs_remove (fin_root r) (xs_run xh (mkXC P [] []))) = snd (rc_remove r (rc_run h (mkRC P [] [])))).
Proof. exact finite_runs. Qed.
Print Assumptions C84_finite.
Theorem C84_finite_filters : (forall t, same_filter (func_value_zero t) (xfunc_value_zero t)) /\ same_filter zero_in_bounds xzero_in_bounds.
Proof. exact (conj same_value same_bounds). Qed.
Print Assumptions C84_finite_filters.

(** With the bounds filter registered and finite search ranges, everything reported after any history is
    finite, and the rounding of a candidate inside the ranges it was added with. *)
Theorem C84_bounds : forall k h P fs,
  dget String.eqb k fs = Some xzero_in_bounds -> leaves_filter k h ->
  (forall i r ctx, In (XAdd i r ctx) h -> finite_range (xc_reRan ctx) /\ finite_range (xc_imRan ctx)) ->
  forall s, In s (xs_set (xs_run h (mkXC P [] fs))) ->
    finite s /\ exists i r ctx, In (XAdd i r ctx) h /\ xrounded (xc_precision ctx) r s /\
      number_in (xc_reRan ctx) (fst (fst r)) /\ number_in (xc_imRan ctx) (snd (fst r)).
Proof. exact bounds_keep_out. Qed.
Print Assumptions C84_bounds.

(** With the function value filter registered, f had a finite value below the threshold at every reported candidate. *)
Theorem C84_values : forall k t h P fs,
  dget String.eqb k fs = Some (xfunc_value_zero t) -> leaves_filter k h ->
  forall s, In s (xs_set (xs_run h (mkXC P [] fs))) ->
    exists i r ctx a b, In (XAdd i r ctx) h /\ xrounded (xc_precision ctx) r s /\
      xc_f ctx (fst r) = Ok (Fin a, Fin b) /\ (a * a + b * b < pow10 (- t) * pow10 (- t))%Q.
Proof. exact value_keeps_out. Qed.
Print Assumptions C84_values.

(** Removing a root with a nan part never succeeds and changes nothing. *)
Theorem C84_remove : forall r c, undefined r -> xs_remove r c = (c, false).
Proof. exact remove_undefined. Qed.
Print Assumptions C84_remove.

(** That every root is reported once is false for nan: adding the same root twice reports it twice. *)
Definition nan_root : xroot := ((NaN, NaN), 0%Z).
Definition ctx1 : xctx := mkXctx (fun z => Ok z) (Fin (-1), Fin 1) (Fin (-1), Fin 1) (3, 3)%Z.
Theorem C84_once_refuted :
  xs_set (xs_run [XAdd true nan_root ctx1; XAdd true nan_root ctx1; XRemove nan_root] (mkXC (3, 3)%Z [] [])) = [nan_root; nan_root].
Proof. vm_compute. reflexivity. Qed.
Print Assumptions C84_once_refuted.

(** Indeed each candidate with a nan part is reported, one entry per candidate, whatever else is added or removed. *)
Theorem C84_nan_entries : forall P h, one_precision P h ->
  (forall o, In o h -> (exists i r ctx, o = XAdd i r ctx) \/ (exists r, o = XRemove r)) ->
  Forall2 (xrounded P) (filter undefined_b (candidates h)) (filter undefined_b (xs_set (xs_run h (mkXC P [] [])))).
Proof. exact undefined_entries. Qed.
Print Assumptions C84_nan_entries.

(** All other roots (also infinite ones) are reported once, after any history. *)
Theorem C84_once : forall h P fs, NoDup (filter (fun x => negb (undefined_b x)) (xs_set (xs_run h (mkXC P [] fs)))).
Proof. exact (fun h P fs => defined_once h (mkXC P [] fs) (Forall_nil _) (NoDup_nil _)). Qed.
Print Assumptions C84_once.

(** Candidates that are not finite do no harm to the finite results: as long as the precision stays the same, the finite part
    of the contents is what it would be without them. *)
Theorem C84_no_harm : forall P fs h, one_precision P h ->
  filter finite_b (xs_set (xs_run h (mkXC P [] fs))) = xs_set (xs_run (only_finite h) (mkXC P [] fs)).
Proof. exact (fun P fs h H => eq_sym (finite_part P h H (mkXC P [] fs) (mkXC P [] fs) eq_refl eq_refl eq_refl eq_refl)). Qed.
Print Assumptions C84_no_harm.
Lemma finite_b_means : forall r, finite_b r = true <-> finite r.
Proof. exact finite_b_iff. Qed.
Lemma undefined_b_means : forall r, undefined_b r = true <-> undefined r.
Proof. exact undefined_b_iff. Qed.

(** The order in which candidates arrive (from parallel workers) does not matter, nan included. *)
Theorem C84_any_order : forall fs ctx l l' P, filters_answer fs ctx -> Permutation l l' ->
  Permutation (xs_set (xs_run (additions ctx l) (mkXC P [] fs))) (xs_set (xs_run (additions ctx l') (mkXC P [] fs))).
Proof. exact any_order. Qed.
Print Assumptions C84_any_order.

(** Newton on a grid with a container without filters (the default): every iterate that ended at nan is reported,
    one entry each; every other rounded iterate is reported once. *)
Theorem C84_grid : forall info roots ctx P,
  let r := xgrid_calcRoots info (Ok roots) ctx (mkXC P [] []) in
  let candidates := map (fun z => (z, 0%Z)) roots in
  snd r = Ok tt /\
  Forall2 (xrounded (xc_precision ctx)) (filter undefined_b candidates) (filter undefined_b (xs_set (fst r))) /\
  (forall s, ~ undefined s -> In s (xs_set (fst r)) <-> exists z, In z candidates /\ xrounded (xc_precision ctx) z s) /\
  NoDup (filter (fun x => negb (undefined_b x)) (xs_set (fst r))).
Proof. exact grid_unfiltered. Qed.
Print Assumptions C84_grid.

(** With the bounds filter only finite iterates inside the domain are reported. *)
Theorem C84_grid_bounds : forall info roots ctx P fs k, filters_answer fs ctx ->
  dget String.eqb k fs = Some xzero_in_bounds -> finite_range (xc_reRan ctx) -> finite_range (xc_imRan ctx) ->
  let r := xgrid_calcRoots info (Ok roots) ctx (mkXC P [] fs) in
  forall s, In s (xs_set (fst r)) -> finite s /\ exists z, In z roots /\ xrounded (xc_precision ctx) (z, 0%Z) s /\
    number_in (xc_reRan ctx) (fst z) /\ number_in (xc_imRan ctx) (snd z).
Proof. exact grid_bounds. Qed.
Print Assumptions C84_grid_bounds.

(** If the iteration itself fails nothing is added: RuntimeError (no start point converged) is swallowed, anything else is raised. *)
Theorem C84_grid_failure : forall info e ctx c,
  fst (xgrid_calcRoots info (Err e) ctx c) = c /\
  (snd (xgrid_calcRoots info (Err e) ctx c) = Ok tt /\ (e = RuntimeError \/ e = NotImplementedError \/ e = RecursionError) \/
   snd (xgrid_calcRoots info (Err e) ctx c) = Err e /\ e <> RuntimeError).
Proof. exact grid_failure. Qed.
Print Assumptions C84_grid_failure.
(** If a filter raises (f may raise at nan), what the earlier iterates gave stays, and the exception is raised. *)
Theorem C84_grid_filter_raises : forall info ctx before z after c e,
  (forall y, In y before -> snd (xs_add info (y, 0%Z) ctx c) = Ok tt) -> snd (xs_add info (z, 0%Z) ctx c) = Err e ->
  xgrid_calcRoots info (Ok (before ++ z :: after)) ctx c = (fst (xgrid_calcRoots info (Ok before) ctx c), Err e).
Proof. exact grid_raises. Qed.
Print Assumptions C84_grid_filter_raises.

(** A grid search whose iterates end at nan (twice), at infinity and twice near 1/3: four entries without
    filters, one with the bounds filter. *)
Definition iterates1 : list xcplx := [(NaN, NaN); (Fin (1 # 3), Fin 0); (Fin (33333 # 100000), Fin 0); (NaN, Fin 0); (PInf, Fin 0)].
Definition filters1 : list (string * xfilter) := [("bounds"%string, xzero_in_bounds)].
Theorem C84_nonvacuous :
  xs_set (fst (xgrid_calcRoots false (Ok iterates1) ctx1 (mkXC (3, 3)%Z [] []))) =
    [((NaN, NaN), 0%Z); ((Fin (333 # 1000), Fin 0), 0%Z); ((NaN, Fin 0), 0%Z); ((PInf, Fin 0), 0%Z)] /\
  xs_set (fst (xgrid_calcRoots false (Ok iterates1) ctx1 (mkXC (3, 3)%Z [] filters1))) = [((Fin (333 # 1000), Fin 0), 0%Z)] /\
  filters_answer filters1 ctx1 /\ dget String.eqb "bounds"%string filters1 = Some xzero_in_bounds /\
  finite_range (xc_reRan ctx1) /\ finite_range (xc_imRan ctx1) /\
  one_precision (3, 3)%Z (additions ctx1 [(true, nan_root); (false, fin_root ((1, 0)%Q, 2%Z))]) /\
  (exists ctx, same_ctx ctx ctx1).
Proof.
  split; [vm_compute; reflexivity|]. split; [vm_compute; reflexivity|].
  split; [intros k p r [E|[]]; injection E as <- <-; eexists; reflexivity|]. split; [reflexivity|].
  split; [split; eexists; reflexivity|]. split; [split; eexists; reflexivity|].
  split; [intros i r ctx [E|[E|[]]]; injection E as <- <- <-; reflexivity|].
  exists (mkFctx (fun z => Ok z) (-1, 1)%Q (-1, 1)%Q (3, 3)%Z 3). split; [reflexivity|]. split; [reflexivity|]. split; [reflexivity|].
  intro z. reflexivity.
Qed.
Print Assumptions C84_nonvacuous.
