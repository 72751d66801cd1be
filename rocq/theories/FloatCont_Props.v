(** Property C67: decimal rounding of doubles and the rounding container in floating point. *)
From Verif Require Import PyBase Rounding_Model Rounding_Spec Container_Model Container_Spec
  Float_Model Float_Spec FloatCont_Model FloatCont_Spec FloatCont_Proofs.
Open Scope Z_scope.

(** Python's [round(x, n)] on doubles: stable, off by at most 10^-n, identifying exactly the
    doubles whose exact decimal roundings are equal. *)
Theorem C67_python_rounding :
  forall n x, is_double x ->
  is_double (py_round n x) /\
  (exists d, rounds_to n x d /\ py_round n x = rnd64 d) /\
  py_round n (py_round n x) = py_round n x /\
  (Qabs (py_round n x - x) <= pow10 (- n))%Q /\
  (forall y d e, is_double y -> rounds_to n x d -> rounds_to n y e -> (py_round n x = py_round n y <-> d = e)).
Proof. exact py_round_spec. Qed.
Print Assumptions C67_python_rounding.

(** A history of calls with double coordinates: the container holds exactly the nearest
    doubles of what C01-C07 describe, and answers the same. *)
Theorem C67_container :
  forall p sp h iter, iteration_order iter -> double_history h ->
  let cf := frc_run py_round h (rc_init p sp) in
  let ce := rc_run h (rc_init p sp) in
  rc_precision cf = rc_precision ce /\ rc_filters cf = rc_filters ce /\
  (forall pr, In pr (reported_pairs iter cf) <-> exists s, In s (reported_pairs iter ce) /\ pr = as_doubles s) /\
  NoDup (reported_pairs iter cf) /\
  List.length (reported_pairs iter cf) = List.length (reported_pairs iter ce) /\
  (forall info r ctx, double_root r ->
     snd (frc_add py_round info r ctx cf) = snd (rc_add info r ctx ce)) /\
  (forall r, double_root r -> snd (frc_remove py_round r cf) = snd (rc_remove r ce)).
Proof. exact container64. Qed.
Print Assumptions C67_container.

(** numpy's rounding of float64 (0 <= n <= 22, |x| * 10^n <= 2^50). *)
Theorem C67_numpy_rounding :
  forall n x, 0 <= n <= 22 -> (Qabs (x * pow10 n) <= inject_Z (2 ^ 50))%Q ->
  (exists j : Z, np_round n x = rnd64 (inject_Z j * pow10 (- n)) /\
     (Qabs (x - inject_Z j * pow10 (- n)) <= (9 # 16) * pow10 (- n))%Q) /\
  np_round n (np_round n x) = np_round n x /\
  py_round n (np_round n x) = np_round n x /\
  (forall j : Z, (Qabs (x - inject_Z j * pow10 (- n)) < (7 # 16) * pow10 (- n))%Q ->
     np_round n x = py_round n x).
Proof. exact np_round_spec. Qed.
Print Assumptions C67_numpy_rounding.

(** The two roundings differ on some doubles: 0.15 becomes 0.1 or 0.2. *)
Theorem C67_same_rounding_refuted :
  exists x, is_double x /\ py_round 1 x = rnd64 (1 # 10) /\ np_round 1 x = rnd64 (2 # 10) /\
    py_round 1 x <> np_round 1 x.
Proof. exact np_py_differ_ex. Qed.
Print Assumptions C67_same_rounding_refuted.

(** Non-vacuity: two doubles next to 0.1 are stored once, as the double 0.1. *)
Example C67_nonvacuous :
  let a : root := ((rnd64 (1001 # 10000), 0%Q), 1) in
  let b : root := ((rnd64 (999 # 10000), 0%Q), 1) in
  let ctx := mkFctx (fun z => Ok z) (0, 1)%Q (0, 1)%Q (1, 1) 3 in
  let h := [RAdd false a ctx; RAdd false b ctx] in
  double_history h /\ rc_set (frc_run py_round h (rc_init (Some (1, 1)) (1, 1))) = [((rnd64 (1 # 10), 0%Q), 1)].
Proof. exact cont_demo. Qed.
