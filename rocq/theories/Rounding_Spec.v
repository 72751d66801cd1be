(** * What rounding to decimals means, independently of how it is computed *)
From Verif Require Import PyBase.
Open Scope Q_scope.

(** [y] is [x] rounded to [p] decimals: a multiple of 10^-p, none is closer to [x], and if two are
    equally close it is the even one.  ([y] is kept in lowest terms, so that equal values are equal.) *)
Definition rounds_to (p : Z) (x y : Q) : Prop :=
  Qred y = y /\
  exists k : Z, y == inject_Z k * pow10 (- p) /\
    forall j : Z, j <> k ->
      Qabs (x - y) <= Qabs (x - inject_Z j * pow10 (- p)) /\
      (Qabs (x - y) == Qabs (x - inject_Z j * pow10 (- p)) -> Z.even k = true).

(** [s] is the root [r] rounded to [fst p] decimals in the real and [snd p] in the imaginary part;
    the order stays. *)
Definition rounded (p : Z * Z) (r s : root) : Prop :=
  rounds_to (fst p) (re (fst r)) (re (fst s)) /\
  rounds_to (snd p) (im (fst r)) (im (fst s)) /\
  snd s = snd r.
