(** C08: rounding is accurate, idempotent, monotone, tie-to-even, separating. *)
From Verif Require Import PyBase Rounding_Model Rounding_Spec Rounding_Proofs.
Open Scope Q_scope.

Theorem C08_rounding :
  forall (p : Z) (x : Q),
    Qabs (x - round_dec p x) <= (1 # 2) * pow10 (- p) /\
    (exists k : Z, round_dec p x == inject_Z k * pow10 (- p)) /\
    round_dec p (round_dec p x) == round_dec p x /\
    (forall k : Z, x == inject_Z k * pow10 (- p) -> round_dec p x == x) /\
    (forall k : Z, x == (inject_Z k + (1 # 2)) * pow10 (- p) ->
       round_dec p x == inject_Z (if Z.even k then k else (k + 1)%Z) * pow10 (- p)) /\
    (forall y, x <= y -> round_dec p x <= round_dec p y) /\
    (forall y, pow10 (- p) < Qabs (x - y) -> ~ round_dec p x == round_dec p y).
Proof.
  exact (fun p x => conj (round_dec_error p x) (conj (round_dec_multiple p x)
    (conj (Qeq_refl_of _ _ (round_dec_idem p x)) (conj
      (fun k H => round_dec_fix p x (ex_intro _ k H)) (conj (round_dec_tie p x)
      (conj (round_dec_mono p x) (round_dec_separates p x))))))).
Qed.
Print Assumptions C08_rounding.

(** No multiple of 10^-p is strictly closer than the chosen one. *)
Theorem C08_rounding_nearest :
  forall (p : Z) (x : Q) (k : Z),
    Qabs (x - round_dec p x) <= Qabs (x - inject_Z k * pow10 (- p)).
Proof. exact round_dec_nearest. Qed.
Print Assumptions C08_rounding_nearest.

Theorem C08_roundRoot :
  forall (r : root) (p : Z * Z),
    snd (roundRoot r p) = snd r /\
    Qabs (re (fst r) - re (fst (roundRoot r p))) <= (1 # 2) * pow10 (- fst p) /\
    Qabs (im (fst r) - im (fst (roundRoot r p))) <= (1 # 2) * pow10 (- snd p) /\
    roundRoot (roundRoot r p) p = roundRoot r p.
Proof.
  exact (fun r p => conj eq_refl (conj (round_dec_error (fst p) (re (fst r)))
    (conj (round_dec_error (snd p) (im (fst r))) (roundRoot_idem r p)))).
Qed.
Print Assumptions C08_roundRoot.

(** [rounded] (Rounding_Spec.v) says what rounding means; the code computes it, so every root has
    exactly one rounding. *)
Theorem C08_meaning :
  forall (p : Z * Z) (r s : root), rounded p r s <-> s = roundRoot r p.
Proof. exact rounded_iff. Qed.
Print Assumptions C08_meaning.

(** Non-vacuity: 2.345 is a tie at two decimals (234 even -> 2.34), 2.355 -> 2.36,
    -0.125 -> -0.12; 1.2 and 1.3111 are separated at one decimal. *)
Example C08_ex_ties :
  round_dec 2 (2345 # 1000) = (117 # 50) /\ round_dec 2 (2355 # 1000) = (59 # 25) /\
  round_dec 2 (- 125 # 1000) = (- 3 # 25) /\ round_dec (-1) (2345 # 1) = (2340 # 1) /\
  (2345 # 1000) == (inject_Z 234 + (1 # 2)) * pow10 (- 2) /\
  pow10 (- 1) < Qabs ((12 # 10) - (13111 # 10000)).
Proof. repeat split; vm_compute; reflexivity. Qed.
