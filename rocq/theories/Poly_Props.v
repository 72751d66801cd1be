(** * C26 (exact recovery), C27, C28 *)
From Coq Require Import Permutation Morphisms Ring_theory.
From Verif Require Import PyBase Poly_Model Refine_Model Refine_Spec Poly_Spec PolyRun_Spec Poly_Proofs
  PolyRun_Proofs Poly_Examples PolyRing_Spec PolyRing_Proofs.
From Coq Require Import List.
Open Scope Z_scope.

(** ** C26: with exact moments and an exact polynomial solver the search reports the zeros. *)
Theorem C26_exact_recovery :
  forall S (E : env S) zeros fuel r s s' l o, proper r -> e_has_df E = true ->
  calcRoots E PolyV fuel r s = (s', l, o) -> o <> OutOfFuel ->
  exact_solver zeros (e_polyroots E) -> exact_moments zeros l ->
  o = Done tt /\
  (forall z, In z zeros -> inside r z ->
     exists c k, In (c, k) (roots_of l) /\ 1 <= k /\ within (e_precision E) c z) /\
  (forall c k, In (c, k) (roots_of l) -> k <> 0 -> 1 <= k /\
     ((exists z, In z zeros /\ inside r z /\ ceq c z) \/
      (exists q, sub_rect q r /\ sub_tolerance (e_precision E) q /\ c = midpoint q /\
         k = Z.of_nat (List.length (zeros_in q zeros))))) /\
  ((forall a b, In a zeros -> In b zeros -> within (e_precision E) a b -> ceq a b) ->
   forall c k, In (c, k) (roots_of l) -> k <> 0 ->
     exists z, In z zeros /\ inside r z /\ within (e_precision E) c z /\ count_of (ceq z) zeros k).
Proof. exact @C26_exact_lemma. Qed.
Print Assumptions C26_exact_recovery.

(** The roots of the associated polynomial are the zeros, with multiplicity. *)
Theorem C26_polynomial_has_the_zeros :
  forall zeros solve f ms, exact_solver zeros solve -> poly_eq ms (power_sums (filter f zeros)) ->
  exists rts, solve (coefficients_cplx ms) = Ok rts /\ same_multiset rts (filter f zeros).
Proof. exact recovery. Qed.
Print Assumptions C26_polynomial_has_the_zeros.

Example C26_nonvacuous :
  proper drect /\ e_has_df denv = true /\ exact_solver dzeros (e_polyroots denv) /\
  exists s' l, calcRoots denv PolyV 1 drect tt = (s', l, Done tt) /\ exact_moments dzeros l /\
    map (fun r => (Qred (re (fst r)), Qred (im (fst r)), snd r)) (roots_of l) = [((1 # 4)%Q, 0%Q, 2)].
Proof. split; [split; discriminate|]. split; [reflexivity|]. split; [exact dsolve_exact|exact demo_poly_run]. Qed.

(** ** C27: any commutative ring (equality up to a setoid) in which positive integers can be
    divided by; in particular any field of characteristic zero *)
Theorem C27_newton_identities_any_ring :
  forall (T : Type) (zero one : T) (add mul sub : T -> T -> T) (opp : T -> T) (divn : T -> nat -> T)
    (eqT : T -> T -> Prop),
  Equivalence eqT -> Proper (eqT ==> eqT ==> eqT) add -> Proper (eqT ==> eqT ==> eqT) mul ->
  Proper (eqT ==> eqT) opp -> Proper (eqT ==> eq ==> eqT) divn ->
  ring_theory zero one add mul sub opp eqT ->
  (forall k x, eqT (divn (ring_times zero add (Datatypes.S k) x) (Datatypes.S k)) x) ->
  forall zs,
  Forall2 eqT (coefficientsFromMoments zero one add mul opp divn (ring_power_sums zero one add mul zs))
              (ring_monic zero one add mul opp zs).
Proof. exact @generic_coefficients. Qed.
Print Assumptions C27_newton_identities_any_ring.

(** The complex numbers with rational coordinates. *)
Theorem C27_newton_identities :
  forall zs ms, poly_eq ms (power_sums zs) ->
  poly_eq (coefficients_cplx ms) (monic_with_zeros zs).
Proof. exact coefficients_exact. Qed.
Print Assumptions C27_newton_identities.

Theorem C27_polynomial_values :
  forall zs ms x, poly_eq ms (power_sums zs) ->
  ceq (eval_poly (coefficients_cplx ms) x) (product_at zs x).
Proof. exact eval_exact. Qed.
Print Assumptions C27_polynomial_values.

Example C27_ring_nonvacuous :
  Equivalence ceq /\ ring_theory c0 c1 cadd cmul csub copp ceq /\
  (forall k x, ceq (cdivn (ring_times c0 cadd (Datatypes.S k) x) (Datatypes.S k)) x).
Proof.
  split; [exact ceq_equiv|]. split; [exact cplx_ring|].
  intros k x. rewrite (g_times_nmul c0 cadd). apply cdivn_nmul.
Qed.

Example C27_nonvacuous :
  poly_eq (coefficients_cplx (power_sums [(1, 0); (0, 1); (2, 0)]%Q)) [(0, -2); (2, 3); (-3, -1); (1, 0)]%Q.
Proof. repeat constructor. Qed.

(** ** C28 *)
Theorem C28_groups_partition :
  forall p roots,
  partitions p roots (group_roots p roots) /\
  (forall b o, In (b, o) (group_roots p roots) -> 1 <= o /\ In b roots) /\
  fold_right Z.add 0 (map snd (group_roots p roots)) = Z.of_nat (List.length roots) /\
  (forall a, In a roots -> exists b o, In (b, o) (group_roots p roots) /\ within p a b) /\
  ForallOrdPairs (fun g h => ~ within p (fst g) (fst h)) (group_roots p roots).
Proof.
  intros p roots. split; [exact (group_partitions p roots)|].
  destruct (partition_facts p roots _ (group_partitions p roots)) as (H1 & H2 & H3).
  split; [exact H1|]. split; [exact H2|]. split; [exact H3|exact (group_separated p roots)].
Qed.
Print Assumptions C28_groups_partition.

(** Narrow, separated clusters are recognised, whatever the order of the roots. *)
Theorem C28_clusters_recognised :
  forall p clusters roots,
  Permutation roots (List.concat clusters) ->
  (forall cl a b, In cl clusters -> In a cl -> In b cl -> within p a b) ->
  (forall cl cl' a b, In cl clusters -> In cl' clusters -> In a cl -> In b cl' -> within p a b -> cl = cl') ->
  forall b o, In (b, o) (group_roots p roots) ->
    exists cl, In cl clusters /\ In b cl /\ count_of (fun a => In a cl) roots o.
Proof. exact clusters_found. Qed.
Print Assumptions C28_clusters_recognised.

(** Without separation the number of groups depends on the order of the roots. *)
Theorem C28_order_independence_refuted :
  exists p roots roots', Permutation roots roots' /\
    List.length (group_roots p roots) <> List.length (group_roots p roots').
Proof. exact grouping_order_matters. Qed.
Print Assumptions C28_order_independence_refuted.

Example C28_nonvacuous :
  group_roots (1, 1) [(1, 0); (0, 1); (101 # 100, 1 # 50)]%Q = [((1, 0)%Q, 2); ((0, 1)%Q, 1)] /\
  (forall cl a b, In cl [[(1, 0); (101 # 100, 1 # 50)]; [(0, 1)]]%Q -> In a cl -> In b cl -> within (1, 1) a b).
Proof.
  split; [vm_compute; reflexivity|].
  intros cl a b [<-|[<-|[]]] Ha Hb; cbn in Ha, Hb;
    repeat (destruct Ha as [Ha|Ha]; [|try contradiction]); repeat (destruct Hb as [Hb|Hb]; [|try contradiction]);
    subst; split; reflexivity.
Qed.
