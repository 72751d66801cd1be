(** * Specification vocabulary for finders *)
From Coq Require Import Qminmax.
From Verif Require Import PyBase Rounding_Spec Container_Model Container_Spec Finder_Model.
Open Scope Z_scope.

(** Point in a closed rectangle / strictly inside a rectangle. *)
Definition in_rect (reRan imRan : Q * Q) (z : cplx) : Prop :=
  (fst reRan <= re z <= snd reRan /\ fst imRan <= im z <= snd imRan)%Q.
Definition strictly_in_rect (reRan imRan : Q * Q) (z : cplx) : Prop :=
  (fst reRan < re z < snd reRan /\ fst imRan < im z < snd imRan)%Q.

(** [q] is a possible arrival order of the outputs [ls] of concurrent workers: each
    worker's own order is kept, anything else is arbitrary. *)
Inductive interleaving {A} : list (list A) -> list A -> Prop :=
| il_done ls : (forall l, In l ls -> l = []) -> interleaving ls []
| il_step ls1 x l ls2 q :
    interleaving (ls1 ++ l :: ls2) q -> interleaving (ls1 ++ (x :: l) :: ls2) (x :: q).

Definition prefix {A} (l1 l : list A) : Prop := exists l2, l = l1 ++ l2.

(** How a pool of workers with outputs [outs] (roots put into the queue, and the way
    each job ended) can end. *)
Definition pool_behaviour (outs : list (list root * option exn)) (e : pool_end) : Prop :=
  match e with
  | PoolDone q => (forall o, In o outs -> snd o = None) /\ interleaving (map fst outs) q
  | PoolInterrupted q => exists outs', Forall2 prefix outs' (map fst outs) /\ interleaving outs' q
  | PoolRaised x => exists o, In o outs /\ snd o = Some x
  end.

(** No filter raises on [r]. *)
Definition filters_total (h : list rc_op) (r : root) (ctx : fctx) : Prop :=
  forall k q, registered h k q -> exists b, q r ctx = Ok b.

(** The number of decimals asked for (the finder's own if the call names none), and one more. *)
Definition decimals (dflt : Z * Z) (precision : option (Z * Z)) : Z * Z :=
  match precision with Some p => p | None => dflt end.
Definition one_more (p : Z * Z) : Z * Z := (fst p + 1, snd p + 1).

(** The domain searched for a request with working precision [p]: the requested rectangle, its end points in
    any order, moved outwards by one, two, three and four units of the last decimal. *)
Definition enlarged (reRan imRan : Q * Q) (p : Z * Z) (re' im' : Q * Q) : Prop :=
  (fst re' == Qmin (fst reRan) (snd reRan) - pow10 (- fst p) /\
   snd re' == Qmax (fst reRan) (snd reRan) + 2 * pow10 (- fst p) /\
   fst im' == Qmin (fst imRan) (snd imRan) - 3 * pow10 (- snd p) /\
   snd im' == Qmax (fst imRan) (snd imRan) + 4 * pow10 (- snd p))%Q.

(** Registered filters whose verdict does not depend on the precision. *)
Definition filters_ignore_precision (h : list rc_op) : Prop :=
  forall k q r f rr ir p1 p2 t, registered h k q ->
    q r (mkFctx f rr ir p1 t) = q r (mkFctx f rr ir p2 t).

(** Equal orders, values differing by at most 0.55 units of the last decimal. *)
Definition close_pair (p : Z * Z) (a b : root) : Prop :=
  snd a = snd b /\
  (Qabs (re (fst a) - re (fst b)) <= (55 # 100) * pow10 (- fst p))%Q /\
  (Qabs (im (fst a) - im (fst b)) <= (55 # 100) * pow10 (- snd p))%Q.
