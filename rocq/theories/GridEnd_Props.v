(** * C82: whole searches with Newton's method on a grid *)
From Coq Require Import Reals Qreals Qminmax.
From Verif Require Import PyBase Rounding_Model Rounding_Spec Container_Model Container_Spec Finder_Model Finder_Spec
  Refine_Model Refine_Spec Zeros_Spec Grid_Model EndToEnd_Model EndToEnd_Spec GridEnd_Model GridEnd_Spec GridEnd_Proofs
  GridEnd_Proofs2 GridEnd_Proofs3 GridEnd_Examples.
Open Scope R_scope.

(** What the serial finder reports: the roundings of those last iterates that pass the
    filters, all with order 0, whether or not the iteration converged; earlier results stay
    if the precision is the same or nothing new was accepted.  A RuntimeError of Newton's
    method is swallowed and changes nothing. *)
Theorem C82_serial :
  forall newton m progress task info f df dflt reRan imRan prec p sp h iter, iteration_order iter ->
  let P := one_more (decimals dflt prec) in
  let c := rc_run h (rc_init p sp) in
  let out := calculateRoots f df dflt (grid_algorithm newton m progress task info) reRan imRan prec c in
  exists re' im' starts, enlarged reRan imRan P re' im' /\ start_grid m re' im' starts /\
    let ctx := mkFctx f re' im' P 3 in
    (forall e, newton f df starts = Err e ->
       fst out = c /\
       (is_RuntimeError e \/ e = KeyboardInterrupt -> snd out = Ok tt) /\
       (~ is_RuntimeError e -> e <> KeyboardInterrupt -> snd out = Err e)) /\
    (forall ends, newton f df starts = Ok ends ->
       (forall z, In z ends -> filters_total h (z, 0%Z) ctx) ->
       snd out = Ok tt /\
       forall pr, In pr (reported_pairs iter (fst out)) <->
         (exists z, In z ends /\ accepted h (z, 0%Z) ctx /\ rounded P (z, 0%Z) pr) \/
         (In pr (reported_pairs iter c) /\
           (P = rc_precision c \/ forall z, In z ends -> ~ accepted h (z, 0%Z) ctx))).
Proof. exact serial_grid. Qed.
Print Assumptions C82_serial.

(** The same for the parallel finder: one grid per cell, whatever the schedule. *)
Theorem C82_parallel :
  forall newton m n progress task inf f df dflt reRan imRan prec p sp h iter, iteration_order iter ->
  (1 <= n)%nat ->
  let P := decimals dflt prec in
  let c := rc_run h (rc_init p sp) in
  let outs := map (grid_worker newton m progress task)
    (createRootJobs n (serial_context f df dflt reRan imRan prec)) in
  let out pool := parallel_calculateRoots f dflt reRan imRan prec inf pool c in
  exists re' im' starts, enlarged reRan imRan (one_more P) re' im' /\
    (forall i j, (i < n)%nat -> (j < n)%nat -> start_grid m (part n re' i) (part n im' j) (starts i j)) /\
    let ctx := mkFctx f re' im' P 3 in
    (forall e, pool_behaviour outs (PoolRaised e) ->
       out (PoolRaised e) = (c, Err e) /\
       exists i j, (i < n)%nat /\ (j < n)%nat /\ newton f df (starts i j) = Err e /\ ~ is_RuntimeError e) /\
    (forall ends q,
       (forall i j, (i < n)%nat -> (j < n)%nat -> newton f df (starts i j) = Ok (ends i j) \/
          exists e, newton f df (starts i j) = Err e /\ ends i j = []) ->
       (forall i j z, (i < n)%nat -> (j < n)%nat -> In z (ends i j) -> filters_total h (z, 0%Z) ctx) ->
       pool_behaviour outs (PoolDone q) ->
       snd (out (PoolDone q)) = Ok tt /\
       forall pr, In pr (reported_pairs iter (fst (out (PoolDone q)))) <->
         (exists i j z, (i < n)%nat /\ (j < n)%nat /\ In z (ends i j) /\
            accepted h (z, 0%Z) ctx /\ rounded P (z, 0%Z) pr) \/
         (In pr (reported_pairs iter c) /\
           (P = rc_precision c \/
            forall i j z, (i < n)%nat -> (j < n)%nat -> In z (ends i j) -> ~ accepted h (z, 0%Z) ctx))).
Proof. exact parallel_grid. Qed.
Print Assumptions C82_parallel.

(** A requested zero that attracts the starts up to half a grid spacing away is reported. *)
Theorem C82_found :
  forall newton m progress task info f df dflt reRan imRan prec p sp h iter, iteration_order iter ->
  forall ex ey,
  let P := one_more (decimals dflt prec) in
  let out := calculateRoots f df dflt (grid_algorithm newton m progress task info) reRan imRan prec
    (rc_run h (rc_init p sp)) in
  forall z, (2 <= m)%nat ->
  (forall w re' im', filters_total h (w, 0%Z) (mkFctx f re' im' P 3)) ->
  requested reRan imRan z ->
  attracts newton f df (domain_width reRan P / (2 * INR (m - 1))) (domain_height imRan P / (2 * INR (m - 1))) ex ey z ->
  (forall w re' im', enlarged reRan imRan P re' im' -> off ex ey w z -> accepted h (w, 0%Z) (mkFctx f re' im' P 3)) ->
  snd out = Ok tt /\
  exists v, In (v, 0%Z) (reported_pairs iter (fst out)) /\
    off (ex + half_unit (fst P)) (ey + half_unit (snd P)) v z.
Proof. exact serial_found. Qed.
Print Assumptions C82_found.

(** With n processes the cells are n times smaller. *)
Theorem C82_parallel_found :
  forall newton m n progress task inf f df dflt reRan imRan prec p sp h iter, iteration_order iter ->
  forall ex ey,
  let P := decimals dflt prec in
  let outs := map (grid_worker newton m progress task)
    (createRootJobs n (serial_context f df dflt reRan imRan prec)) in
  forall z q, (1 <= n)%nat -> (2 <= m)%nat ->
  (forall w re' im', filters_total h (w, 0%Z) (mkFctx f re' im' P 3)) ->
  requested reRan imRan z ->
  attracts newton f df (domain_width reRan (one_more P) / (2 * INR n * INR (m - 1)))
    (domain_height imRan (one_more P) / (2 * INR n * INR (m - 1))) ex ey z ->
  (forall w re' im', enlarged reRan imRan (one_more P) re' im' -> off ex ey w z ->
     accepted h (w, 0%Z) (mkFctx f re' im' P 3)) ->
  pool_behaviour outs (PoolDone q) ->
  exists v, In (v, 0%Z) (reported_pairs iter
      (fst (parallel_calculateRoots f dflt reRan imRan prec inf (PoolDone q) (rc_run h (rc_init p sp))))) /\
    off (ex + half_unit (fst P)) (ey + half_unit (snd P)) v z.
Proof. exact parallel_found. Qed.
Print Assumptions C82_parallel_found.

(** If the filters let only last iterates near zeros pass, a new finder reports only values
    near zeros. *)
Theorem C82_genuine :
  forall newton m progress task info f df dflt reRan imRan prec p sp h iter, iteration_order iter ->
  forall ex ey,
  let P := one_more (decimals dflt prec) in
  let c := rc_run h (rc_init p sp) in
  let out := calculateRoots f df dflt (grid_algorithm newton m progress task info) reRan imRan prec c in
  forall zeros,
  (forall w re' im', filters_total h (w, 0%Z) (mkFctx f re' im' P 3)) ->
  reported_pairs iter c = [] ->
  (forall starts ends w re' im', newton f df starts = Ok ends -> In w ends -> enlarged reRan imRan P re' im' ->
     accepted h (w, 0%Z) (mkFctx f re' im' P 3) -> exists z, In z zeros /\ off ex ey w z) ->
  forall v k, In (v, k) (reported_pairs iter (fst out)) ->
    k = 0%Z /\ exists z, In z zeros /\ off (ex + half_unit (fst P)) (ey + half_unit (snd P)) v z.
Proof. exact serial_genuine. Qed.
Print Assumptions C82_genuine.

(** That every zero is then reported only once is false, however exact the iteration. *)
Theorem C82_once_refuted :
  forall e, (0 < e)%Q -> (e < 1 # 20)%Q ->
  exists newton f (z : cplx) (reRan imRan : Q * Q),
    f z = Ok (0, 0)%Q /\
    let pt := (Q2R (re z), Q2R (im z)) in
    requested reRan imRan pt /\
    (forall hx hy, attracts newton f None hx hy (Q2R e) 0 pt) /\
    (forall starts ends w, newton f None starts = Ok ends -> In w ends -> off (Q2R e) 0 w pt) /\
    forall iter, iteration_order iter ->
      exists v1 v2, ~ ceq v1 v2 /\
        let pairs := reported_pairs iter (fst (calculateRoots f None (0, 0)%Z
          (grid_algorithm newton 2 false None (fun _ => false)) reRan imRan None (rc_init None (0, 0)%Z))) in
        In (v1, 0%Z) pairs /\ In (v2, 0%Z) pairs.
Proof. exact twice. Qed.
Print Assumptions C82_once_refuted.

(** It holds for zeros that are not close to a tie of the rounding. *)
Theorem C82_once :
  forall newton m progress task info f df dflt reRan imRan prec p sp h iter, iteration_order iter ->
  forall ex ey,
  let P := one_more (decimals dflt prec) in
  let c := rc_run h (rc_init p sp) in
  let out := calculateRoots f df dflt (grid_algorithm newton m progress task info) reRan imRan prec c in
  forall zeros z, (2 <= m)%nat ->
  (forall w re' im', filters_total h (w, 0%Z) (mkFctx f re' im' P 3)) ->
  reported_pairs iter c = [] ->
  (forall starts ends w re' im', newton f df starts = Ok ends -> In w ends -> enlarged reRan imRan P re' im' ->
     accepted h (w, 0%Z) (mkFctx f re' im' P 3) -> exists z, In z zeros /\ off ex ey w z) ->
  In z zeros -> requested reRan imRan z ->
  attracts newton f df (domain_width reRan P / (2 * INR (m - 1))) (domain_height imRan P / (2 * INR (m - 1))) ex ey z ->
  (forall w re' im', enlarged reRan imRan P re' im' -> off ex ey w z -> accepted h (w, 0%Z) (mkFctx f re' im' P 3)) ->
  apart (2 * (ex + half_unit (fst P))) (2 * (ey + half_unit (snd P))) zeros ->
  clear_of_ties (fst P) ex (fst z) -> clear_of_ties (snd P) ey (snd z) ->
  exists v, In (v, 0%Z) (reported_pairs iter (fst out)) /\
    off (ex + half_unit (fst P)) (ey + half_unit (snd P)) v z /\
    forall v' k, In (v', k) (reported_pairs iter (fst out)) ->
      off (ex + half_unit (fst P)) (ey + half_unit (snd P)) v' z -> (v', k) = (v, 0%Z).
Proof. exact serial_once. Qed.
Print Assumptions C82_once.

(** The start points of the parallel finder are as dense as those of the serial finder with
    the same number n >= 2 of sample points only if n leaves remainder 0 or 1 when divided by the number
    of processes (the spacings are width / (n - 1) and width / (cpu * (s - 1))). *)
Theorem C82_parallel_density :
  forall n cpu, (2 <= n)%Z -> (0 < cpu)%Z ->
  exists s, parallel_numSamplePoints (Some n) cpu = Some s /\ newton_grid_points (Some s) = s /\
    (n - 1 <= cpu * (s - 1) <-> n mod cpu <= 1)%Z.
Proof. exact parallel_density. Qed.
Print Assumptions C82_parallel_density.

(** Two zeros at 1 + i and 3 + i, five start points per axis, candidates outside the domain
    filtered out: each zero is reported once. *)
Theorem C82_nonvacuous :
  forall z iter, In z two_zeros -> iteration_order iter ->
  let out := calculateRoots two_f None (2, 2)%Z (grid_algorithm two_newton 5 true (Some 1%Z) (fun _ => false))
    (0, 4)%Q (0, 2)%Q None (rc_run two_h (rc_init None (2, 2)%Z)) in
  exists v, In (v, 0%Z) (reported_pairs iter (fst out)) /\
    off (/ 1000000 + / 2000) (/ 1000000 + / 2000) v z /\
    forall v' k, In (v', k) (reported_pairs iter (fst out)) ->
      off (/ 1000000 + / 2000) (/ 1000000 + / 2000) v' z -> (v', k) = (v, 0%Z).
Proof.
  intros z iter Hz HI. cbn zeta.
  replace (/ 2000) with (half_unit 3) by (unfold half_unit; rewrite unit_3; Lra.lra).
  apply (C82_once two_newton 5 true (Some 1%Z) (fun _ => false) two_f None (2, 2)%Z (0, 4)%Q (0, 2)%Q None None (2, 2)%Z
    two_h iter HI (/ 1000000) (/ 1000000) two_zeros z).
  - lia.
  - intros. apply two_total.
  - assert (E : rc_set (rc_run two_h (rc_init None (2, 2)%Z)) = []) by (vm_compute; reflexivity).
    pose proof (HI []) as I0. apply Permutation.Permutation_sym, Permutation.Permutation_nil in I0.
    unfold reported_pairs, rc_getRoots. rewrite E, I0. reflexivity.
  - apply two_sound.
  - exact Hz.
  - apply two_requested, Hz.
  - apply two_attracts; [exact Hz|apply two_width].
  - intros w re' im' EN O. eapply two_accepted; eassumption.
  - exact two_apart.
  - destruct Hz as [<-|[<-|[]]]; [apply (two_clear 1)|apply (two_clear 3)]; auto.
  - destruct Hz as [<-|[<-|[]]]; apply (two_clear 1); auto.
Qed.
Print Assumptions C82_nonvacuous.
