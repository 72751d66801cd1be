(** * Examples for C77 *)
From Verif Require Import PyBase Rounding_Model Rounding_Spec Container_Model Container_Spec Container_Proofs Finder_Model Finder_Spec Finder_Proofs
  Poly_Model Refine_Model Refine_Spec Refine_Proofs2 Refine_Proofs3 EndToEnd_Model Coupled_Model Coupled_Spec Coupled_Proofs Coupled_Proofs2.
Open Scope Z_scope.

(** Draining the queue of a parallel search. *)
Lemma C77_parallel_lemma f dflt reRan imRan prec info p sp h :
  let ctx := drain_context f dflt reRan imRan prec in
  let c := rc_run h (rc_init p sp) in
  forall ev queue before r after e,
  ev = PoolDone queue \/ ev = PoolInterrupted queue ->
  queue = before ++ r :: after ->
  (forall s, In s before -> filters_total h s ctx) ->
  (forall k q, registered h k q -> q r ctx = Ok true \/ q r ctx = Err e) ->
  (exists k q, registered h k q /\ q r ctx = Err e) ->
  parallel_calculateRoots f dflt reRan imRan prec info ev c =
  (rc_run (h ++ map (fun a => RAdd info a ctx) before) (rc_init p sp), Err e).
Proof.
  cbv zeta. intros ev queue before r after e HV HR HT HA HE.
  set (ctx := drain_context f dflt reRan imRan prec) in *.
  assert (D : drain ctx info queue (rc_run h (rc_init p sp)) =
    (rc_run (h ++ map (fun a => RAdd info a ctx) before) (rc_init p sp), Err e)).
  { unfold drain. rewrite HR, map_app, feed_app, feed_total.
    2:{ intros [j r'] I. cbn [snd]. apply in_map_iff in I. destruct I as (r'' & X & I). injection X as <- <-.
        specialize (HT _ I). destruct (run_filters _ r'' _) as [b|e'] eqn:R; [eauto|].
        apply registered_raise in R. destruct R as (k & q & R1 & R2). destruct (HT k q R1). congruence. }
    cbn [map feed].
    assert (RF : run_filters (rc_filters (rc_run h (rc_init p sp))) r ctx = Err e).
    { destruct (run_filters _ r _) as [[|]|e'] eqn:R.
      - exfalso. destruct HE as (k & q & H1 & H2).
        assert (A : accepted h r ctx) by (apply (accepts_iff p sp); exact R).
        specialize (A k q H1). congruence.
      - exfalso. apply registered_no in R. destruct R as (k & q & R1 & R2). destruct (HA k q R1); congruence.
      - apply registered_raise in R. destruct R as (k & q & R1 & R2). destruct (HA k q R1); congruence. }
    unfold rc_add. rewrite adds_filters, RF. unfold rc_run. rewrite fold_left_app. unfold adds. rewrite map_map. reflexivity. }
  destruct HV as [-> | ->]; exact D.
Qed.

(** A search around a zero at 1/3000 + i/3000; the iteration finds it. *)
Definition boom : rootFilter := fun _ _ => Err RuntimeError.
Definition boom_env : env unit :=
  mkEnv (fun _ r s => (s, [], Ok (if Qltb (x1 r) (1 # 3000) && Qltb (1 # 3000) (x2 r) && Qltb (y1 r) (1 # 3000) && Qltb (1 # 3000) (y2 r) then 1 else 0, 0)%Q)) (fun _ _ s => s) (fun _ => false) (fun s => s)
    (fun _ _ => Ok (1 # 3000, 1 # 3000)%Q) (fun _ => Ok (1 # 3000, 1 # 3000)%Q) (fun _ => Err RuntimeError) true (3, 3) false.
Definition boom_f : holoFunc := fun z => Ok z.
Definition boom_history : list rc_op := [RRegister boom "user"%string].

Lemma boom_newton :
  search_into boom_env NewtonV 40 (fun _ => false) tt boom_f None (2, 2) (0, 1 # 1000)%Q (0, 1 # 1000)%Q None (rc_run boom_history (rc_init None (2, 2)))
  = (rc_run boom_history (rc_init None (2, 2)), Ok tt).
Proof. vm_compute. reflexivity. Qed.
Lemma boom_simple :
  search_into boom_env Simple 40 (fun _ => false) tt boom_f None (2, 2) (0, 1 # 1000)%Q (0, 1 # 1000)%Q None (rc_run boom_history (rc_init None (2, 2)))
  = (rc_run boom_history (rc_init None (2, 2)), Err RuntimeError).
Proof. vm_compute. reflexivity. Qed.
Lemma boom_reports :
  ar_reports (argument_algorithm boom_env NewtonV 40 (fun _ => false) tt (serial_context boom_f None (2, 2) (0, 1 # 1000)%Q (0, 1 # 1000)%Q None))
  = [(false, ((1 # 3000, 1 # 3000)%Q, 1))].
Proof. vm_compute. reflexivity. Qed.
Lemma boom_simple_reports : exists r,
  ar_reports (argument_algorithm boom_env Simple 40 (fun _ => false) tt (serial_context boom_f None (2, 2) (0, 1 # 1000)%Q (0, 1 # 1000)%Q None))
  = [(false, r)].
Proof. eexists. vm_compute. reflexivity. Qed.
