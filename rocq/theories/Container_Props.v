(** Properties C01-C07, C09, C10: root containers. *)
From Coq Require Import Permutation.
From Verif Require Import PyBase Rounding_Spec Rounding_Proofs Container_Model Container_Spec Container_Proofs.
Open Scope Z_scope.

(** [rc_after p sp h]: a container created with precision argument [p] (None: the
    settings' precision [sp]) on which the calls [h] were made. *)

(** ** C01 *)
Theorem C01_stored_roots_are_rounded :
  forall p sp h iter pr, iteration_order iter ->
    let c := rc_run h (rc_init p sp) in
    In pr (reported_pairs iter c) ->
    (exists k : Z, (re (fst pr) == inject_Z k * pow10 (- fst (rc_precision c)))%Q) /\
    (exists k : Z, (im (fst pr) == inject_Z k * pow10 (- snd (rc_precision c)))%Q).
Proof. exact C01_lemma. Qed.
Print Assumptions C01_stored_roots_are_rounded.

(** ** C02 *)
Theorem C02_no_duplicates :
  forall p sp h iter, iteration_order iter ->
    ForallOrdPairs (fun a b : root => ~ (ceq (fst a) (fst b) /\ snd a = snd b))
      (reported_pairs iter (rc_run h (rc_init p sp))).
Proof. exact C02_lemma. Qed.
Print Assumptions C02_no_duplicates.

(** The docstring's claim "multiplicity is not taken into account" is false ... *)
Theorem C02_multiplicity_ignored_refuted :
  exists h, forall iter, iteration_order iter ->
    let l := rc_getRoots iter (rc_run h (rc_init None (3, 3))) in
    exists z, Permutation l [z; z].
Proof.
  exists [RAdd false ((1#3, 1#3)%Q, 1) (mkFctx (fun z => Ok z) (0,0)%Q (0,0)%Q (2, 2) 3);
          RAdd true ((1#3, 1#3)%Q, 2) (mkFctx (fun z => Ok z) (0,0)%Q (0,0)%Q (2, 2) 3)].
  intros iter HI. exists (33 # 100, 33 # 100)%Q.
  unfold rc_getRoots. rewrite (HI _). vm_compute. reflexivity.
Qed.
Print Assumptions C02_multiplicity_ignored_refuted.

(** ... and true when all adds rounding to one value carry the same order. *)
Theorem C02_values_distinct_if_orders_determined :
  forall p sp h iter, iteration_order iter ->
    (forall i r ctx s i' r' ctx' s', In (RAdd i r ctx) h -> In (RAdd i' r' ctx') h ->
       rounded (fc_precision ctx) r s -> rounded (fc_precision ctx') r' s' ->
       ceq (fst s) (fst s') -> snd r = snd r') ->
    ForallOrdPairs (fun z w => ~ ceq z w) (rc_getRoots iter (rc_run h (rc_init p sp))).
Proof. exact C02_values_spec. Qed.
Print Assumptions C02_values_distinct_if_orders_determined.

(** ** C03 *)
Theorem C03_exact_contents :
  forall p sp h iter pr, iteration_order iter ->
    (In pr (reported_pairs iter (rc_run h (rc_init p sp))) <-> must_report h pr).
Proof.
  exact (fun p sp h iter pr HI =>
    iff_trans (reported_pairs_in iter _ pr HI) (contents_spec p sp h pr)).
Qed.
Print Assumptions C03_exact_contents.

Theorem C03_precision :
  forall p sp h,
    precision_after (match p with Some q => q | None => sp end) h
      (rc_precision (rc_run h (rc_init p sp))).
Proof. exact rc_precision_after. Qed.
Print Assumptions C03_precision.

Theorem C03_precision_functional :
  forall p0 h q q', precision_after p0 h q -> precision_after p0 h q' -> q = q'.
Proof. exact precision_fun. Qed.
Print Assumptions C03_precision_functional.

(** ** C04 *)
Theorem C04_getters_parallel :
  forall iter c, iteration_order iter ->
    List.length (rc_getRoots iter c) = List.length (rc_getRootOrders iter c) /\
    Permutation (combine (rc_getRoots iter c) (rc_getRootOrders iter c)) (rc_set c).
Proof.
  exact (fun iter c HI => conj
    (eq_trans (map_length _ _) (eq_sym (map_length _ _))) (reported_pairs_perm iter c HI)).
Qed.
Print Assumptions C04_getters_parallel.

Theorem C04_plain_getters_parallel :
  forall q h, let c := pc_run h (pc_init q) in
    combine (snd (pc_getRoots c)) (snd (pc_getRootOrders (fst (pc_getRoots c)))) = q ++ put_roots h.
Proof. exact plain_parallel. Qed.
Print Assumptions C04_plain_getters_parallel.

(** ** C05 *)
Theorem C05_accepted_add :
  forall p sp h i r ctx iter s, iteration_order iter -> accepted h r ctx ->
    rounded (fc_precision ctx) r s ->
    let c := rc_run (h ++ [RAdd i r ctx]) (rc_init p sp) in
    In s (reported_pairs iter c) /\ rc_precision c = fc_precision ctx.
Proof. exact C05_accept_spec. Qed.
Print Assumptions C05_accepted_add.

Theorem C05_rejected_add_changes_nothing :
  forall p sp h i r ctx, ~ accepted h r ctx ->
    rc_run (h ++ [RAdd i r ctx]) (rc_init p sp) = rc_run h (rc_init p sp).
Proof. exact C05_reject_lemma. Qed.
Print Assumptions C05_rejected_add_changes_nothing.

Theorem C05_add_raises_only_if_a_filter_raises :
  forall p sp h i r ctx e,
    snd (rc_add i r ctx (rc_run h (rc_init p sp))) = Err e ->
    exists k q, registered h k q /\ q r ctx = Err e.
Proof. exact C05_raise_lemma. Qed.
Print Assumptions C05_add_raises_only_if_a_filter_raises.

(** root_container.py:68-78 asks that registering a filter leaves a consistent set;
    here a stored root fails the only registered filter, in every context. *)
Theorem C05_consistency_refuted :
  exists (h : list rc_op) (k : string) (q : rootFilter) (pr : root),
    registered h k q /\ (forall ctx, q pr ctx = Ok false) /\
    forall iter, iteration_order iter ->
      In pr (reported_pairs iter (rc_run h (rc_init None (3, 3)))).
Proof. exact C05_refuted_lemma. Qed.
Print Assumptions C05_consistency_refuted.

Theorem C05_consistent_if_filters_fixed_first :
  forall p sp h g iter pr, iteration_order iter ->
    (forall i r ctx, ~ In (RAdd i r ctx) h) ->
    (forall o, In o g -> match o with RRegister _ _ => False | RUnregister _ => False | _ => True end) ->
    In pr (reported_pairs iter (rc_run (h ++ g) (rc_init p sp))) ->
    exists i r ctx, In (RAdd i r ctx) g /\ rounded (fc_precision ctx) r pr /\
      forall k q, registered (h ++ g) k q -> q r ctx = Ok true.
Proof. exact C05_stable_spec. Qed.
Print Assumptions C05_consistent_if_filters_fixed_first.

(** ** C06 *)
Theorem C06_removeRoot :
  forall p sp h r iter k, iteration_order iter ->
    let c := rc_run h (rc_init p sp) in
    rounded (rc_precision c) r k ->
    let c' := fst (rc_remove r c) in
    (snd (rc_remove r c) = true <-> In k (reported_pairs iter c)) /\
    (forall x, In x (reported_pairs iter c') <-> In x (reported_pairs iter c) /\ x <> k) /\
    rc_precision c' = rc_precision c /\ rc_filters c' = rc_filters c.
Proof. exact C06_spec. Qed.
Print Assumptions C06_removeRoot.

(** ** C07 *)
Theorem C07_log_level_irrelevant :
  forall p sp h g, same_upto_level h g ->
    rc_run h (rc_init p sp) = rc_run g (rc_init p sp).
Proof. exact (fun p sp h g => level_independent h g (rc_init p sp)). Qed.
Print Assumptions C07_log_level_irrelevant.

(** ** C09 *)
Theorem C09_plain_container_is_fifo :
  forall q h, let c := pc_run h (pc_init q) in
    snd (pc_getRoots c) = map fst (q ++ put_roots h) /\
    snd (pc_getRootOrders c) = map snd (q ++ put_roots h).
Proof. exact pc_getters. Qed.
Print Assumptions C09_plain_container_is_fifo.

Theorem C09_unsupported_operations :
  forall c r p k,
    pc_remove r c = (c, false) /\
    pc_clear c = (c, Err NotImplementedError) /\
    pc_register p k c = (c, Err NotImplementedError) /\
    pc_unregister k c = (c, Err NotImplementedError).
Proof. exact (fun c r p k => conj eq_refl (conj eq_refl (conj eq_refl eq_refl))). Qed.
Print Assumptions C09_unsupported_operations.

(** ** C10 *)
Theorem C10_zero_in_bounds :
  forall r ctx, zero_in_bounds r ctx = Ok true <->
    (fst (fc_reRan ctx) <= re (fst r) <= snd (fc_reRan ctx) /\
     fst (fc_imRan ctx) <= im (fst r) <= snd (fc_imRan ctx))%Q.
Proof. exact zero_in_bounds_iff. Qed.
Print Assumptions C10_zero_in_bounds.

Theorem C10_func_value_zero :
  forall t r ctx, func_value_zero t r ctx = Ok true <->
    exists w, fc_f ctx (fst r) = Ok w /\
      (re w * re w + im w * im w < pow10 (- t) * pow10 (- t))%Q.
Proof. exact func_value_zero_iff. Qed.
Print Assumptions C10_func_value_zero.

(** setRootFilter(t, threshold) registers the predicate meant by [t] under one fixed key per type:
    afterwards exactly this predicate is registered for [t], other keys are as before. *)
Theorem C10_setRootFilter_replaces :
  forall p sp h t thr,
    registerPreDefinedFilter t thr (rc_run h (rc_init p sp)) =
      rc_run (h ++ [RRegister (predefined t thr) (filterType_value t)]) (rc_init p sp) /\
    (forall t', filterType_value t' = filterType_value t -> t' = t) /\
    forall k q,
    registered (h ++ [RRegister (predefined t thr) (filterType_value t)]) k q <->
    (k = filterType_value t /\ q = predefined t thr) \/
    (k <> filterType_value t /\ registered h k q).
Proof. exact C10_setRootFilter_spec. Qed.
Print Assumptions C10_setRootFilter_replaces.

Theorem C10_default_filters :
  forall p sp g iter pr, iteration_order iter ->
    (forall o, In o g -> match o with RRegister _ _ => False | RUnregister _ => False | _ => True end) ->
    In pr (reported_pairs iter (rc_run g (registerDefaultFilters (rc_init p sp)))) ->
    exists i r ctx w, In (RAdd i r ctx) g /\ rounded (fc_precision ctx) r pr /\
      fc_f ctx (fst r) = Ok w /\
      (re w * re w + im w * im w < pow10 (- (3)) * pow10 (- (3)))%Q /\
      (fst (fc_reRan ctx) <= re (fst r) <= snd (fc_reRan ctx))%Q /\
      (fst (fc_imRan ctx) <= im (fst r) <= snd (fc_imRan ctx))%Q.
Proof. exact C10_default_spec. Qed.
Print Assumptions C10_default_filters.

Theorem C10_context_threshold_irrelevant :
  forall t thr r f rr ir pr th th',
    predefined t thr r (mkFctx f rr ir pr th) = predefined t thr r (mkFctx f rr ir pr th').
Proof. exact predefined_threshold. Qed.
Print Assumptions C10_context_threshold_irrelevant.

(** ** Non-vacuity: one history exercising all of it *)
Definition ex_f : holoFunc := fun z => Ok (re z - 1, im z)%Q.   (* f(z) = z - 1 *)
Definition ex_ctx (p : Z * Z) : fctx := mkFctx ex_f (0, 2)%Q (-(1), 1)%Q p 3.
Definition ex_h : list rc_op :=
  [RRegister (func_value_zero 3) (filterType_value FUNCTION_VALUE_ZERO);
   RRegister zero_in_bounds (filterType_value ZERO_IN_BOUNDS);
   RAdd true ((1, 0)%Q, 1) (ex_ctx (2, 2));                    (* accepted *)
   RAdd true ((10001 # 10000, 0)%Q, 1) (ex_ctx (2, 2));         (* accepted, duplicate *)
   RAdd false ((3 # 2, 0)%Q, 1) (ex_ctx (4, 4));                (* rejected by the filter *)
   RAdd false ((9999 # 10000, 1 # 10000)%Q, 2) (ex_ctx (4, 4)); (* accepted, new precision *)
   RRemove ((1, 0)%Q, 2)].

Lemma id_iteration : iteration_order (fun l => l).
Proof. intro l. reflexivity. Qed.

Example container_history_nonvacuous :
  iteration_order (fun l => l) /\
  reported_pairs (fun l => l) (rc_run ex_h (rc_init None (5, 5))) =
    [((9999 # 10000, 1 # 10000)%Q, 2)] /\
  rc_precision (rc_run ex_h (rc_init None (5, 5))) = (4, 4) /\
  accepted (firstn 2 ex_h) ((1, 0)%Q, 1) (ex_ctx (2, 2)) /\
  ~ accepted (firstn 2 ex_h) ((3 # 2, 0)%Q, 1) (ex_ctx (4, 4)) /\
  must_report ex_h ((9999 # 10000, 1 # 10000)%Q, 2) /\
  snd (rc_remove ((1, 0)%Q, 2) (rc_run ex_h (rc_init None (5, 5)))) = false /\
  same_upto_level [RAdd true ((1, 0)%Q, 1) (ex_ctx (2, 2)); RClear]
                  [RAdd false ((1, 0)%Q, 1) (ex_ctx (2, 2)); RClear].
Proof.
  split; [exact id_iteration|]. split; [vm_compute; reflexivity|].
  split; [vm_compute; reflexivity|].
  split; [apply (accepts_iff None (5, 5)); vm_compute; reflexivity|].
  split; [rewrite <- (accepts_iff None (5, 5)); vm_compute; discriminate|].
  split; [apply (contents_spec None (5, 5)); vm_compute; auto|].
  split; [vm_compute; reflexivity|].
  repeat constructor.
Qed.

Example plain_nonvacuous :
  snd (pc_getRoots (pc_run [PAdd ((1, 0)%Q, 1) (ex_ctx (2, 2)); PGetRoots; PPut ((2, 0)%Q, 3); PClear]
    (pc_init [((5, 5)%Q, 7)]))) = [(5, 5); (1, 0); (2, 0)]%Q.
Proof. reflexivity. Qed.
