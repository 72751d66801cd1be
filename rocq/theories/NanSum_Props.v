(** * C86: functions that are undefined at some points *)
From Coq Require Import Reals Qreals.
From Verif Require Import PyBase Container_Model Refine_Model Refine_Spec Cache_Model Sum_Model Sum_Spec
  Nan_Model Nan_Spec NanRefine_Model NanRefine_Spec NanSum_Model NanSum_Spec
  NanSum_Proofs2 NanSum_Proofs3 NanSum_Proofs4 NanSum_Proofs5.
From Coq Require Import Lra.
Open Scope Z_scope.
Open Scope list_scope.

(** A line is nan as soon as the function is undefined at one of the n evenly spaced points of the line; here and in the next
    two theorems the level of the line has not been seen before and no zero lies on a sample point. *)
Theorem C86_line : forall (f : cplx -> option cR) deltaPhi maxPrecision n precision, (0 < deltaPhi)%R -> (2 <= n)%nat ->
  (forall z z', ceq z z' -> f z = f z') ->
  forall horiz level fuel t1 t2 st st' p z, (t1 < t2)%Q -> unseen st horiz level ->
  osum_line f deltaPhi maxPrecision n precision fuel 0 (mkpoint horiz level t1) (mkpoint horiz level t2) st = (st', SumOk [] p) ->
  In z (uniform (mkpoint horiz level t1) (mkpoint horiz level t2) (n - 1)) -> undefined f z -> p = None.
Proof. exact line_undefined. Qed.
Print Assumptions C86_line.

(** Exactly: there are sample points from one end to the other, none further apart than the even spacing and among them the even
    ones, such that the line is nan if and only if the function is undefined at one of them, and is the sum of the phase steps otherwise. *)
Theorem C86_line_exact : forall (f : cplx -> option cR) deltaPhi maxPrecision n precision, (0 < deltaPhi)%R -> (2 <= n)%nat ->
  forall horiz level fuel t1 t2 st st' p, (t1 < t2)%Q -> unseen st horiz level ->
  osum_line f deltaPhi maxPrecision n precision fuel 0 (mkpoint horiz level t1) (mkpoint horiz level t2) st = (st', SumOk [] p) ->
  exists mid, let zs := mkpoint horiz level t1 :: mid ++ [mkpoint horiz level t2] in
    chain (on_line (coord_of horiz) (other_of horiz) level ((t2 - t1) / inject_Z (Z.of_nat (n - 1)))) zs /\
    (forall z, In z (uniform (mkpoint horiz level t1) (mkpoint horiz level t2) (n - 1)) -> exists z', In z' zs /\ ceq z z') /\
    (p = None <-> Exists (undefined f) zs) /\
    (forall vs, Forall2 (takes f) zs vs -> p = Some (Rsum (steps vs))).
Proof. exact line_shape. Qed.
Print Assumptions C86_line_exact.

(** Where the function is defined along the segment, what it does elsewhere does not matter: the line is the change of the angle. *)
Theorem C86_defined : forall (f : cplx -> option cR) deltaPhi maxPrecision n precision, (0 < deltaPhi)%R -> (2 <= n)%nat ->
  (forall z z', ceq z z' -> f z = f z') ->
  forall horiz level fuel t1 t2 st st' p (theta radius : Q -> R) (value : Q -> cR), (t1 < t2)%Q -> unseen st horiz level ->
  (forall t, (t1 <= t)%Q -> (t <= t2)%Q -> takes f (mkpoint horiz level t) (value t) /\ polar (value t) (radius t) (theta t)) ->
  (forall t t', (t1 <= t)%Q -> (t < t')%Q -> (t' <= t2)%Q ->
     (t' - t <= (t2 - t1) / inject_Z (Z.of_nat (n - 1)))%Q -> (Rabs (theta t' - theta t) < PI)%R) ->
  osum_line f deltaPhi maxPrecision n precision fuel 0 (mkpoint horiz level t1) (mkpoint horiz level t2) st = (st', SumOk [] p) ->
  p = Some (theta t2 - theta t1)%R.
Proof. exact line_defined. Qed.
Print Assumptions C86_defined.

(** For a function defined everywhere nothing changes: C36-C43 apply, in every state and for every line. *)
Theorem C86_total : forall (g : cplx -> cR) deltaPhi maxPrecision n precision fuel order a b st,
  osum_line (fun z => Some (g z)) deltaPhi maxPrecision n precision fuel order a b (as_state st) =
  (let '(st', r) := sum_line g deltaPhi maxPrecision n precision fuel order a b st in (as_state st', as_result r)).
Proof. exact line_total. Qed.
Print Assumptions C86_total.

(** The phase of a rectangle: each side is remembered or computed and then remembered in both directions, nan like any number
    except 0; one nan makes the phase nan, four numbers make it their sum. *)
Theorem C86_rectangle : forall LS (line : cplx -> cplx -> LS -> LS * list cplx * res num) r c ls c' ls' zs m,
  (x1 r < x2 r)%Q -> (y1 r < y2 r)%Q -> nphase line r (c, ls) = ((c', ls'), zs, Ok m) ->
  exists vs, Forall2 (fun e v => match remembered c e with
      | Some w => v = w
      | None => (exists l0 l1 z0, line (fst e) (snd e) l0 = (l1, z0, Ok v)) /\
                dget ckey_eqb e c' = Some v /\ dget ckey_eqb (snd e, fst e) c' = Some (opposite v)
      end) (sides r) vs /\
    (In NaN vs -> fst m = NaN) /\
    (forall qs, vs = map Fin qs -> exists q, fst m = Fin q /\ (q == total qs)%Q).
Proof. exact @rectangle_values. Qed.
Print Assumptions C86_rectangle.

(** Asked again, the rectangle gives the same answer without another evaluation, unless a side gave 0. *)
Theorem C86_again : forall LS (line : cplx -> cplx -> LS -> LS * list cplx * res num) r c ls c' ls' zs m,
  (x1 r < x2 r)%Q -> (y1 r < y2 r)%Q ->
  (forall e l l' z q, In e (sides r) -> line (fst e) (snd e) l = (l', z, Ok (Fin q)) -> ~ (q == 0)%Q) ->
  nphase line r (c, ls) = ((c', ls'), zs, Ok m) -> nphase line r (c', ls') = ((c', ls'), [], Ok m).
Proof. exact @rectangle_again. Qed.
Print Assumptions C86_again.

(** Searches with the summation estimator, for functions undefined at arbitrary points: if the search returns normally, the
    rectangles where it ended tile the domain, those without zeros had a phase that is a number below 0.8 turns, and no
    rectangle below the tolerance had phase nan.  (The remembered values the search starts with are numbers or nan.) *)
Theorem C86_search : forall (f : cplx -> option cR) deltaPhi maxPrecision n precision fuel turns secant newton polyroots has_df progress
    v depth r s s' l,
  (forall k x, dget ckey_eqb k (fst s) = Some x -> x = NaN \/ exists q, x = Fin q) -> proper r ->
  xcalcRoots (nenv secant newton polyroots has_df precision progress)
    (nphase (oturn_line turns f deltaPhi maxPrecision n precision fuel)) v depth r s = (s', l, Done tt) ->
  tiles r (xhandled l) /\
  (forall q x, In (XDropped q x) l -> exists t, x = Fin t /\ (t < 4 # 5)%Q) /\
  (forall q m, In (XPhase q (Ok m)) l -> fst m = NaN -> ~ sub_tolerance precision q) /\
  (forall q m, In (XPhase q (Ok m)) l -> fst m = NaN \/ exists t, fst m = Fin t).
Proof. exact searched. Qed.
Print Assumptions C86_search.

(** A function undefined at the lower left corner of the domain (and without zeros): with an estimator whose line caches are empty
    the search ends with ValueError and adds no root, or is still running. *)
Theorem C86_corner : forall (f : cplx -> option cR) deltaPhi maxPrecision n precision fuel turns secant newton polyroots has_df progress
    v depth r c s' l o, (0 < deltaPhi)%R -> (2 <= n)%nat -> (100 * n + 3 <= fuel)%nat ->
  (forall z z', ceq z z' -> f z = f z') -> (forall z w, takes f z w -> nonzero w) ->
  (x1 r < x2 r)%Q -> (y1 r < y2 r)%Q -> undefined f (x1 r, y1 r) ->
  xcalcRoots (nenv secant newton polyroots has_df precision progress)
    (nphase (oturn_line turns f deltaPhi maxPrecision n precision fuel)) v depth r (c, fresh_sum) = (s', l, o) ->
  (o = Raised ValueError \/ o = OutOfFuel) /\ xroots l = [].
Proof. exact corner_error. Qed.
Print Assumptions C86_corner.

(** That a single missing point does no harm is false: every function without zeros can be made undefined at one point such that
    the search raises ValueError. *)
Theorem C86_single_point_refuted : forall (g : cplx -> cR) deltaPhi maxPrecision n precision fuel turns secant newton polyroots has_df progress v r,
  (0 < deltaPhi)%R -> (2 <= n)%nat -> (100 * n + 3 <= fuel)%nat ->
  (forall z z', ceq z z' -> g z = g z') -> (forall z, nonzero (g z)) -> (x1 r < x2 r)%Q -> (y1 r < y2 r)%Q ->
  exists f depth, (forall z, ~ ceq z (x1 r, y1 r) -> takes f z (g z)) /\
  forall d, (depth <= d)%nat ->
  exists s' l, xcalcRoots (nenv secant newton polyroots has_df precision progress)
      (nphase (oturn_line turns f deltaPhi maxPrecision n precision fuel)) v d r ([], fresh_sum) = (s', l, Raised ValueError) /\
    xroots l = [].
Proof. exact hole_error. Qed.
Print Assumptions C86_single_point_refuted.

(** The hypotheses are met by the constant function 1 without a value at 0: its lines are answered, the one from 0 to 1 with nan,
    the one from i to 1 + i with 0. *)
Definition unit_hole (z : cplx) : option cR := if ceqb z (0, 0)%Q then None else Some (1, 0)%R.
Theorem C86_nonvacuous :
  (forall z z', ceq z z' -> unit_hole z = unit_hole z') /\ (forall z w, takes unit_hole z w -> nonzero w) /\
  undefined unit_hole (0, 0)%Q /\
  (exists st' p, osum_line unit_hole 4 (1 # 100) 2 (5, 5) 203 0 (0, 0)%Q (1, 0)%Q fresh_sum = (st', SumOk [] p) /\ p = None) /\
  (exists st' p, osum_line unit_hole 4 (1 # 100) 2 (5, 5) 203 0 (0, 1)%Q (1, 1)%Q fresh_sum = (st', SumOk [] p) /\ p = Some 0%R).
Proof.
  assert (FC : forall z z', ceq z z' -> unit_hole z = unit_hole z') by (exact (holed_ceq (fun _ => (1, 0)%R) (0, 0)%Q (fun _ _ _ => eq_refl))).
  assert (NZ : forall z w, takes unit_hole z w -> nonzero w).
  { intros z w H. unfold takes, unit_hole in H. destruct (ceqb z _); [discriminate|]. injection H as <-. intro K. injection K as K. lra. }
  assert (D : (0 < 4)%R) by lra.
  split; [exact FC|]. split; [exact NZ|]. split; [reflexivity|]. split.
  - destruct (line_answers unit_hole 4 (1 # 100) 2 (5, 5) 203 true 0%Q 0%Q 1%Q fresh_sum D ltac:(lia) ltac:(lia) NZ ltac:(reflexivity) ltac:(reflexivity))
      as (st' & p & H). exists st', p. split; [exact H|].
    apply (C86_line unit_hole 4 (1 # 100) 2 (5, 5) D ltac:(lia) FC true 0%Q 203 0%Q 1%Q fresh_sum st' p (point_at (0, 0)%Q (1, 0)%Q 1 0) ltac:(reflexivity) ltac:(reflexivity) H);
      [left; reflexivity|]. unfold undefined. rewrite (FC _ (0, 0)%Q); [reflexivity|]. split; reflexivity.
  - destruct (line_answers unit_hole 4 (1 # 100) 2 (5, 5) 203 true 1%Q 0%Q 1%Q fresh_sum D ltac:(lia) ltac:(lia) NZ ltac:(reflexivity) ltac:(reflexivity))
      as (st' & p & H). exists st', p. split; [exact H|].
    rewrite (C86_defined unit_hole 4 (1 # 100) 2 (5, 5) D ltac:(lia) FC true 1%Q 203 0%Q 1%Q fresh_sum st' p (fun _ => 0%R) (fun _ => 1%R) (fun _ => (1, 0)%R)
      ltac:(reflexivity) ltac:(reflexivity)).
    + f_equal. lra.
    + intros t _ _. split.
      * unfold takes, unit_hole, ceqb. cbn [mkpoint re im fst snd]. change (Qeq_bool 1 0) with false. rewrite Bool.andb_false_r. reflexivity.
      * unfold polar. cbn [fst snd]. rewrite cos_0, sin_0. lra.
    + intros. rewrite Rminus_diag_eq by reflexivity. rewrite Rabs_R0. apply PI_RGT_0.
    + exact H.
Qed.
Print Assumptions C86_nonvacuous.
