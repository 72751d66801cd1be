(** Properties C11-C19: serial and parallel root finders. *)
From Coq Require Import Permutation Qminmax.
From Verif Require Import PyBase Rounding_Spec Rounding_Proofs Container_Model Container_Spec
  Container_Proofs Finder_Model Finder_Spec Finder_Proofs.
Open Scope Z_scope.

(** ** C11 *)
Theorem C11_desymmetrize_exact :
  forall reRan imRan p, let d := desymmetrizeDomain reRan imRan p in
  (fst (fst d) == Qmin (fst reRan) (snd reRan) - pow10 (- fst p) /\
   snd (fst d) == Qmax (fst reRan) (snd reRan) + 2 * pow10 (- fst p) /\
   fst (snd d) == Qmin (fst imRan) (snd imRan) - 3 * pow10 (- snd p) /\
   snd (snd d) == Qmax (fst imRan) (snd imRan) + 4 * pow10 (- snd p))%Q.
Proof. exact desym_eq. Qed.
Print Assumptions C11_desymmetrize_exact.

Theorem C11_desymmetrize_contains_request :
  forall reRan imRan p z,
  (Qmin (fst reRan) (snd reRan) <= re z <= Qmax (fst reRan) (snd reRan) ->
   Qmin (fst imRan) (snd imRan) <= im z <= Qmax (fst imRan) (snd imRan) ->
   let d := desymmetrizeDomain reRan imRan p in strictly_in_rect (fst d) (snd d) z)%Q.
Proof. exact desym_contains. Qed.
Print Assumptions C11_desymmetrize_contains_request.

Theorem C11_desymmetrize_order_irrelevant :
  forall a b c d p,
  let r1 := desymmetrizeDomain (a, b) (c, d) p in
  let r2 := desymmetrizeDomain (b, a) (d, c) p in
  (fst (fst r1) == fst (fst r2) /\ snd (fst r1) == snd (fst r2) /\
   fst (snd r1) == fst (snd r2) /\ snd (snd r1) == snd (snd r2))%Q.
Proof. exact desym_swap. Qed.
Print Assumptions C11_desymmetrize_order_irrelevant.

Theorem C11_desymmetrize_never_centred :
  forall reRan imRan p, let d := desymmetrizeDomain reRan imRan p in
  (~ fst (fst d) + snd (fst d) == fst reRan + snd reRan /\
   ~ fst (snd d) + snd (snd d) == fst imRan + snd imRan)%Q.
Proof. exact desym_not_centred. Qed.
Print Assumptions C11_desymmetrize_never_centred.

(** What a search hands to the algorithm and to the filters. *)
Theorem C11_search_context :
  forall f df dflt reRan imRan prec,
    let x := serial_context f df dflt reRan imRan prec in
    let P := one_more (decimals dflt prec) in
    cx_f x = f /\ cx_df x = df /\ cx_precision x = P /\ enlarged reRan imRan P (cx_reRan x) (cx_imRan x) /\
    let y := toFilterContext x in
    fc_f y = f /\ fc_precision y = P /\ enlarged reRan imRan P (fc_reRan y) (fc_imRan y).
Proof. exact search_context_spec. Qed.
Print Assumptions C11_search_context.

(** What the parallel finder hands to the filters when it collects the results. *)
Theorem C11_drain_context :
  forall f dflt reRan imRan prec,
    let y := drain_context f dflt reRan imRan prec in
    let P := decimals dflt prec in
    fc_f y = f /\ fc_precision y = P /\ enlarged reRan imRan (one_more P) (fc_reRan y) (fc_imRan y).
Proof. exact drain_context_spec. Qed.
Print Assumptions C11_drain_context.

(** ** C12: [h] is the history of the finder's container before the call. *)
Theorem C12_same_precision_accumulates :
  forall f df dflt alg reRan imRan prec p sp h iter, iteration_order iter ->
    let c := rc_run h (rc_init p sp) in
    let c' := fst (calculateRoots f df dflt alg reRan imRan prec c) in
    one_more (decimals dflt prec) = rc_precision c ->
    forall pr, In pr (reported_pairs iter c) -> In pr (reported_pairs iter c').
Proof. exact C12_accumulate_lemma. Qed.
Print Assumptions C12_same_precision_accumulates.

Theorem C12_every_root_is_old_or_reported :
  forall f df dflt alg reRan imRan prec p sp h iter, iteration_order iter ->
    let c := rc_run h (rc_init p sp) in
    let c' := fst (calculateRoots f df dflt alg reRan imRan prec c) in
    let x := serial_context f df dflt reRan imRan prec in
    forall pr, In pr (reported_pairs iter c') ->
      In pr (reported_pairs iter c) \/
      exists i r, In (i, r) (ar_reports (alg x)) /\ accepted h r (toFilterContext x) /\
        rounded (one_more (decimals dflt prec)) r pr.
Proof. exact C12_only_spec. Qed.
Print Assumptions C12_every_root_is_old_or_reported.

Theorem C12_new_precision_restarts :
  forall f df dflt alg reRan imRan prec p sp h iter, iteration_order iter ->
    let c := rc_run h (rc_init p sp) in
    let c' := fst (calculateRoots f df dflt alg reRan imRan prec c) in
    let x := serial_context f df dflt reRan imRan prec in
    one_more (decimals dflt prec) <> rc_precision c ->
    (forall i r, In (i, r) (ar_reports (alg x)) -> filters_total h r (toFilterContext x)) ->
    (exists i r, In (i, r) (ar_reports (alg x)) /\ accepted h r (toFilterContext x)) ->
    forall pr, In pr (reported_pairs iter c') <->
      exists i r, In (i, r) (ar_reports (alg x)) /\ accepted h r (toFilterContext x) /\
        rounded (one_more (decimals dflt prec)) r pr.
Proof. exact C12_restart_spec. Qed.
Print Assumptions C12_new_precision_restarts.

Theorem C12_nothing_accepted_keeps_old_results :
  forall f df dflt alg reRan imRan prec p sp h,
    let c := rc_run h (rc_init p sp) in
    let x := serial_context f df dflt reRan imRan prec in
    (forall i r, In (i, r) (ar_reports (alg x)) -> ~ accepted h r (toFilterContext x)) ->
    fst (calculateRoots f df dflt alg reRan imRan prec c) = c.
Proof. exact C12_nothing_lemma. Qed.
Print Assumptions C12_nothing_accepted_keeps_old_results.

(** ** C13 *)
Theorem C13_filtered_roots_near_request :
  forall f df dflt alg reRan imRan prec p sp iter pr, iteration_order iter ->
  let c' := fst (calculateRoots f df dflt alg reRan imRan prec
                   (registerDefaultFilters (rc_init p sp))) in
  let P := one_more (decimals dflt prec) in
  In pr (reported_pairs iter c') ->
  exists z w, f z = Ok w /\
    (re w * re w + im w * im w < pow10 (- (3)) * pow10 (- (3)))%Q /\
    (Qabs (re z - re (fst pr)) <= (1 # 2) * pow10 (- fst P))%Q /\
    (Qabs (im z - im (fst pr)) <= (1 # 2) * pow10 (- snd P))%Q /\
    (Qmin (fst reRan) (snd reRan) - pow10 (- fst P) <= re z
       <= Qmax (fst reRan) (snd reRan) + 2 * pow10 (- fst P))%Q /\
    (Qmin (fst imRan) (snd imRan) - 3 * pow10 (- snd P) <= im z
       <= Qmax (fst imRan) (snd imRan) + 4 * pow10 (- snd P))%Q.
Proof. exact C13_lemma. Qed.
Print Assumptions C13_filtered_roots_near_request.

(** ** C14: a run interrupted after [n] reports. *)
Theorem C14_interruption :
  forall f df dflt alg reRan imRan prec p sp h iter, iteration_order iter ->
    forall n : nat,
    let x := serial_context f df dflt reRan imRan prec in
    let ctx := toFilterContext x in
    let c := rc_run h (rc_init p sp) in
    (forall i r, In (i, r) (ar_reports (alg x)) -> filters_total h r ctx) ->
    let ci := calculateRoots f df dflt
      (fun y => mkRun (firstn n (ar_reports (alg y))) (Some KeyboardInterrupt)) reRan imRan prec c in
    snd ci = Ok tt /\
    (forall pr, In pr (reported_pairs iter (fst ci)) ->
       In pr (reported_pairs iter c) \/
       exists i r, In (i, r) (firstn n (ar_reports (alg x))) /\ accepted h r ctx /\
         rounded (one_more (decimals dflt prec)) r pr) /\
    (forall i r pr, In (i, r) (firstn n (ar_reports (alg x))) -> accepted h r ctx ->
       rounded (one_more (decimals dflt prec)) r pr -> In pr (reported_pairs iter (fst ci))) /\
    (one_more (decimals dflt prec) = rc_precision c \/ rc_set c = [] ->
       forall pr, In pr (reported_pairs iter (fst ci)) ->
         In pr (reported_pairs iter (fst (calculateRoots f df dflt alg reRan imRan prec c)))).
Proof. exact C14_spec. Qed.
Print Assumptions C14_interruption.

(** An interrupt that arrives while a filter is being evaluated: it never escapes, and the
    run ends as if it had been interrupted just before that candidate. *)
Theorem C14_interrupt_during_a_check :
  forall f df dflt alg reRan imRan prec p sp h,
    let x := serial_context f df dflt reRan imRan prec in
    let ctx := toFilterContext x in
    let c := rc_run h (rc_init p sp) in
    snd (calculateRoots f df dflt alg reRan imRan prec c) <> Err KeyboardInterrupt /\
    forall before i r after,
      ar_reports (alg x) = before ++ (i, r) :: after ->
      (forall j s, In (j, s) before -> filters_total h s ctx) ->
      (forall k q, registered h k q -> q r ctx = Ok true \/ q r ctx = Err KeyboardInterrupt) ->
      (exists k q, registered h k q /\ q r ctx = Err KeyboardInterrupt) ->
      calculateRoots f df dflt alg reRan imRan prec c =
      calculateRoots f df dflt (fun _ => mkRun before (Some KeyboardInterrupt)) reRan imRan prec c.
Proof. exact C14_check_spec. Qed.
Print Assumptions C14_interrupt_during_a_check.

(** ** C15 *)
Theorem C15_jobs_cover :
  forall n x, (1 <= n)%nat ->
    forall z, in_rect (cx_reRan x) (cx_imRan x) z ->
    exists job, In job (createRootJobs n x) /\ in_rect (cx_reRan job) (cx_imRan job) z.
Proof. exact jobs_cover. Qed.
Print Assumptions C15_jobs_cover.

Theorem C15_jobs_inside :
  forall n x, (1 <= n)%nat ->
    (fst (cx_reRan x) < snd (cx_reRan x))%Q -> (fst (cx_imRan x) < snd (cx_imRan x))%Q ->
    forall job z, In job (createRootJobs n x) ->
    in_rect (cx_reRan job) (cx_imRan job) z -> in_rect (cx_reRan x) (cx_imRan x) z.
Proof. exact jobs_inside. Qed.
Print Assumptions C15_jobs_inside.

Theorem C15_jobs_disjoint :
  forall n x, (1 <= n)%nat ->
    (fst (cx_reRan x) < snd (cx_reRan x))%Q -> (fst (cx_imRan x) < snd (cx_imRan x))%Q ->
    forall u v d z, (u < n * n)%nat -> (v < n * n)%nat ->
    strictly_in_rect (cx_reRan (nth u (createRootJobs n x) d)) (cx_imRan (nth u (createRootJobs n x) d)) z ->
    strictly_in_rect (cx_reRan (nth v (createRootJobs n x) d)) (cx_imRan (nth v (createRootJobs n x) d)) z ->
    u = v.
Proof. exact jobs_disjoint. Qed.
Print Assumptions C15_jobs_disjoint.

Theorem C15_jobs_number_and_size :
  forall n x, (1 <= n)%nat ->
    List.length (createRootJobs n x) = (n * n)%nat /\
    forall job, In job (createRootJobs n x) ->
    (snd (cx_reRan job) - fst (cx_reRan job) == (snd (cx_reRan x) - fst (cx_reRan x)) / inject_Z (Z.of_nat n) /\
     snd (cx_imRan job) - fst (cx_imRan job) == (snd (cx_imRan x) - fst (cx_imRan x)) / inject_Z (Z.of_nat n))%Q /\
    cx_precision job = cx_precision x /\ cx_f job = cx_f x /\ cx_df job = cx_df x.
Proof. exact (fun n x H => conj (jobs_length n x) (jobs_size n x H)). Qed.
Print Assumptions C15_jobs_number_and_size.

(** position i*n+j holds the cell in column i (real axis) and row j (imaginary axis) *)
Theorem C15_jobs_layout :
  forall n x i j d, (i < n)%nat -> (j < n)%nat ->
    let w := ((snd (cx_reRan x) - fst (cx_reRan x)) / inject_Z (Z.of_nat n))%Q in
    let v := ((snd (cx_imRan x) - fst (cx_imRan x)) / inject_Z (Z.of_nat n))%Q in
    let job := nth (i * n + j) (createRootJobs n x) d in
    (fst (cx_reRan job) == fst (cx_reRan x) + inject_Z (Z.of_nat i) * w /\
     fst (cx_imRan job) == fst (cx_imRan x) + inject_Z (Z.of_nat j) * v)%Q.
Proof. exact jobs_layout. Qed.
Print Assumptions C15_jobs_layout.

(** ** C16: the reported set is a function of the workers' outputs only. *)
Theorem C16_schedule_independent :
  forall f dflt reRan imRan prec p sp h iter, iteration_order iter ->
    let ctx := drain_context f dflt reRan imRan prec in
    let c := rc_run h (rc_init p sp) in
    let P := decimals dflt prec in
    forall outs q info, pool_behaviour outs (PoolDone q) ->
    (forall o r, In o outs -> In r (fst o) -> filters_total h r ctx) ->
    let res := parallel_calculateRoots f dflt reRan imRan prec info (PoolDone q) c in
    snd res = Ok tt /\
    forall x, In x (reported_pairs iter (fst res)) <->
      (exists o r, In o outs /\ In r (fst o) /\ accepted h r ctx /\ rounded P r x) \/
      (In x (reported_pairs iter c) /\
         (P = rc_precision c \/
          forall o r, In o outs -> In r (fst o) -> ~ accepted h r ctx)).
Proof. exact C16_spec. Qed.
Print Assumptions C16_schedule_independent.

Theorem C16_worker_exception_leaves_results_untouched :
  forall f dflt reRan imRan prec info e c,
    parallel_calculateRoots f dflt reRan imRan prec info (PoolRaised e) c = (c, Err e).
Proof. exact (fun f dflt reRan imRan prec info e c => eq_refl). Qed.
Print Assumptions C16_worker_exception_leaves_results_untouched.

(** ** C17 *)
Theorem C17_serial_parallel_same_values_refuted :
  exists (r : root) (f : holoFunc) (dflt : Z * Z) (reRan imRan : Q * Q),
    forall iter, iteration_order iter ->
    let alg := fun _ => mkRun [(false, r)] None in
    exists a b,
      reported_pairs iter (fst (calculateRoots f None dflt alg reRan imRan None (rc_init None dflt))) = [a] /\
      reported_pairs iter (fst (parallel_calculateRoots f dflt reRan imRan None false
        (PoolDone [r]) (rc_init None dflt))) = [b] /\
      ~ ceq (fst a) (fst b).
Proof. exact C17_refuted_lemma. Qed.
Print Assumptions C17_serial_parallel_same_values_refuted.

Theorem C17_serial_parallel_agree_up_to_rounding :
  forall f df dflt alg reRan imRan prec p sp h iter q info,
  iteration_order iter -> filters_ignore_precision h ->
  rc_set (rc_run h (rc_init p sp)) = [] ->
  let x := serial_context f df dflt reRan imRan prec in
  (forall i r, In (i, r) (ar_reports (alg x)) -> filters_total h r (toFilterContext x)) ->
  Permutation (map snd (ar_reports (alg x))) q ->
  let c := rc_run h (rc_init p sp) in
  let cs := fst (calculateRoots f df dflt alg reRan imRan prec c) in
  let cp := fst (parallel_calculateRoots f dflt reRan imRan prec info (PoolDone q) c) in
  let P := decimals dflt prec in
  (forall a, In a (reported_pairs iter cs) -> exists b, In b (reported_pairs iter cp) /\ close_pair P a b) /\
  (forall b, In b (reported_pairs iter cp) -> exists a, In a (reported_pairs iter cs) /\ close_pair P a b).
Proof. exact C17_agree_lemma. Qed.
Print Assumptions C17_serial_parallel_agree_up_to_rounding.

(** the two predefined filters satisfy the hypothesis above *)
Theorem C17_predefined_filters_ignore_precision :
  forall t1 t2 thr1 thr2,
    filters_ignore_precision [RRegister (predefined t1 thr1) (filterType_value t1);
                              RRegister (predefined t2 thr2) (filterType_value t2)].
Proof. exact predefined_ignore_precision. Qed.
Print Assumptions C17_predefined_filters_ignore_precision.

(** ** C18 *)
Theorem C18_interrupted_pool :
  forall f dflt reRan imRan prec p sp h iter, iteration_order iter ->
    let ctx := drain_context f dflt reRan imRan prec in
    let c := rc_run h (rc_init p sp) in
    let P := decimals dflt prec in
    forall outs q qi info,
    pool_behaviour outs (PoolDone q) -> pool_behaviour outs (PoolInterrupted qi) ->
    (forall o r, In o outs -> In r (fst o) -> filters_total h r ctx) ->
    let full := parallel_calculateRoots f dflt reRan imRan prec info (PoolDone q) c in
    let part := parallel_calculateRoots f dflt reRan imRan prec info (PoolInterrupted qi) c in
    snd part = Ok tt /\
    (forall x, In x (reported_pairs iter (fst part)) <->
      (exists r, In r qi /\ accepted h r ctx /\ rounded P r x) \/
      (In x (reported_pairs iter c) /\
         (P = rc_precision c \/ forall r, In r qi -> ~ accepted h r ctx))) /\
    (P = rc_precision c \/ rc_set c = [] ->
     forall x, In x (reported_pairs iter (fst part)) -> In x (reported_pairs iter (fst full))).
Proof. exact C18_spec. Qed.
Print Assumptions C18_interrupted_pool.

(** ** C19 *)
Theorem C19_sample_budget :
  forall n cpu, 0 < n -> 0 < cpu ->
  exists m, parallel_numSamplePoints (Some n) cpu = Some m /\
    n + 1 <= cpu * m /\ cpu * m <= n + cpu /\ 1 <= m /\ newton_grid_points (Some m) = m.
Proof. exact C19_lemma. Qed.
Print Assumptions C19_sample_budget.

Theorem C19_missing_budget :
  forall cpu,
    newton_grid_points (parallel_numSamplePoints None cpu) = 50 /\
    newton_grid_points (parallel_numSamplePoints (Some 0) cpu) = 50 /\
    newton_grid_points None = 50 /\ newton_grid_points (Some 0) = 50.
Proof. exact (fun cpu => conj eq_refl (conj eq_refl (conj eq_refl eq_refl))). Qed.
Print Assumptions C19_missing_budget.

(** ** Non-vacuity *)
Definition exf : holoFunc := fun z => Ok (re z - 1, im z)%Q.
Definition ex_alg : rctx -> alg_run := fun _ =>
  mkRun [(true, ((10004 # 10000, 0)%Q, 1)); (false, ((5, 5)%Q, 2)); (true, ((9999 # 10000, 0)%Q, 1))] None.

Example serial_nonvacuous :
  let c0 := registerDefaultFilters (rc_init None (3, 3)) in
  let c1 := fst (calculateRoots exf None (3, 3) ex_alg (2, 0)%Q (0, 1)%Q None c0) in
  reported_pairs (fun l => l) c1 = [((2501 # 2500, 0)%Q, 1); ((9999 # 10000, 0)%Q, 1)] /\
  rc_precision c1 = (4, 4) /\
  (* same precision again accumulates, a coarser one restarts *)
  reported_pairs (fun l => l) (fst (calculateRoots exf None (3, 3)
     (fun _ => mkRun [(false, ((1, 0)%Q, 7))] None) (0, 3)%Q (0, 1)%Q None c1)) =
    [((2501 # 2500, 0)%Q, 1); ((9999 # 10000, 0)%Q, 1); ((1, 0)%Q, 7)] /\
  reported_pairs (fun l => l) (fst (calculateRoots exf None (3, 3) ex_alg (0, 3)%Q (0, 1)%Q (Some (1, 1)) c1)) =
    [((1, 0)%Q, 1)].
Proof. vm_compute. repeat split; reflexivity. Qed.

Example parallel_nonvacuous :
  let outs := [([((1, 0)%Q, 1); ((10001 # 10000, 0)%Q, 2)], None); ([((1, 0)%Q, 3)], None)] in
  pool_behaviour outs (PoolDone [((1, 0)%Q, 1); ((1, 0)%Q, 3); ((10001 # 10000, 0)%Q, 2)]) /\
  pool_behaviour outs (PoolInterrupted [((1, 0)%Q, 3)]) /\
  reported_pairs (fun l => l) (fst (parallel_calculateRoots exf (2, 2) (0, 2)%Q (0, 1)%Q None true
     (PoolDone [((1, 0)%Q, 1); ((1, 0)%Q, 3); ((10001 # 10000, 0)%Q, 2)]) (rc_init None (2, 2)))) =
   [((1, 0)%Q, 1); ((1, 0)%Q, 3); ((1, 0)%Q, 2)].
Proof.
  split; [|split; [|vm_compute; reflexivity]].
  - split; [intros o [<-|[<-|[]]]; reflexivity|]. cbn.
    apply (il_step [] _ _ [[((1, 0)%Q, 3)]]).
    apply (il_step [[((10001 # 10000, 0)%Q, 2)]] _ [] []).
    apply (il_step [] _ _ [[]]). apply il_done. intros l [<-|[<-|[]]]; reflexivity.
  - exists [[]; [((1, 0)%Q, 3)]]. split.
    + repeat constructor; [exists [((1, 0)%Q, 1); ((10001 # 10000, 0)%Q, 2)]; reflexivity|exists []; reflexivity].
    + apply (il_step [[]] _ [] []). apply il_done. intros l [<-|[<-|[]]]; reflexivity.
Qed.

Example jobs_nonvacuous :
  map (fun j => (map Qred [fst (cx_reRan j); snd (cx_reRan j); fst (cx_imRan j); snd (cx_imRan j)]))
    (createRootJobs 2 (mkRctx exf None (3, 3) (0, 1)%Q (0, 2)%Q)) =
  [[0; 1 # 2; 0; 1]; [0; 1 # 2; 1; 2]; [1 # 2; 1; 0; 1]; [1 # 2; 1; 1; 2]]%Q.
Proof. vm_compute. reflexivity. Qed.

(** A filter interrupted while it checks the second candidate. *)
Example interrupt_in_filter_nonvacuous :
  let flt : rootFilter := fun r _ => if (snd r =? 2)%Z then Err KeyboardInterrupt else Ok true in
  let h := [RRegister flt "user"%string] in
  let reports := [(false, ((1, 1)%Q, 1)); (false, ((0, 0)%Q, 2)); (false, ((2, 2)%Q, 3))] in
  let out := calculateRoots (fun _ => Ok (0, 0)%Q) None (3, 3) (fun _ => mkRun reports None)
    (0, 1)%Q (0, 1)%Q None (rc_run h (rc_init None (3, 3))) in
  (exists k q, registered h k q /\ forall ctx, q ((0, 0)%Q, 2) ctx = Err KeyboardInterrupt) /\
  snd out = Ok tt /\ List.length (rc_set (fst out)) = 1%nat.
Proof.
  split; [|vm_compute; split; reflexivity].
  exists "user"%string, (fun r _ => if (snd r =? 2)%Z then Err KeyboardInterrupt else Ok true).
  split; [|reflexivity]. exists [], []. split; [reflexivity|]. split; [intros p' []|intros []].
Qed.
