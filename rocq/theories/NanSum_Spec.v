(** * Specification vocabulary for functions that are undefined at some points (C86) *)
From Coq Require Import Reals Qreals.
From Verif Require Import PyBase Sum_Model Sum_Spec Refine_Model Cache_Model Nan_Model.
Open Scope Z_scope.
Open Scope list_scope.

(** The function has no value (nan) at z; it has a value there that is not zero. *)
Definition undefined (f : cplx -> option cR) (z : cplx) : Prop := f z = None.
Definition takes (f : cplx -> option cR) (z : cplx) (v : cR) : Prop := f z = Some v.

(** No line on this horizontal (vertical) level is cached. *)
Definition unseen {A} (st : sum_state A) (horiz : bool) (level : Q) : Prop :=
  dget okey_eqb (level, 0) (if horiz then horizontal st else vertical st) = None.

(** The same caches with phases that may be nan. *)
Definition as_entry (v : entry R) : entry (option R) := (fst v, map Some (snd v)).
Definition as_level (d : list ((Q * side) * entry R)) : list ((Q * side) * entry (option R)) :=
  map (fun kv => (fst kv, as_entry (snd kv))) d.
Definition as_cache (c : lcache R) : lcache (option R) := map (fun kv => (fst kv, as_level (snd kv))) c.
Definition as_state (st : sum_state R) : sum_state (option R) :=
  mkSum (A := option R) (as_cache (horizontal st)) (as_cache (vertical st)).
Definition as_result (r : sum_result R) : sum_result (option R) :=
  match r with SumOk zs p => SumOk zs (Some p) | SumErr e => SumErr e | SumLoops => SumLoops end.

(** The four sides of a rectangle, counter-clockwise from the lower left corner. *)
Definition sides (r : rect) : list (cplx * cplx) :=
  [((x1 r, y1 r), (x2 r, y1 r)); ((x2 r, y1 r), (x2 r, y2 r));
   ((x2 r, y2 r), (x1 r, y2 r)); ((x1 r, y2 r), (x1 r, y1 r))].
(** The remembered value of a side, if it is used: an entry 0 is not. *)
Definition remembered (c : list ((cplx * cplx) * num)) (e : cplx * cplx) : option num :=
  match dget ckey_eqb e c with
  | Some (Fin q) => if Qeq_bool q 0 then None else Some (Fin q)
  | other => other
  end.
(** Sum of numbers none of which is nan or infinite. *)
Fixpoint total (l : list Q) : Q := match l with [] => 0%Q | q :: l' => (q + total l')%Q end.
(** The value of a side in the other direction. *)
Definition opposite (v : num) : num :=
  match v with Fin q => Fin (- q)%Q | PInf => NInf | NInf => PInf | NaN => NaN end.
