(** Concrete associated polynomials. *)
From Coq Require Import Permutation.
From Verif Require Import PyBase Rounding_Model Poly_Model Refine_Model Refine_Spec Poly_Spec PolyRun_Spec Poly_Proofs
  PolyRun_Proofs.
Open Scope Z_scope.

(** A double zero at 1/4, an exact estimator and an exact solver. *)
Definition dz : cplx := (1 # 4, 0)%Q.
Definition dzeros : list cplx := [dz; dz].
Definition dsolve (p : list cplx) : res (list cplx) :=
  match p with
  | [_] => Ok []
  | [_; b; _] => let r := cdivn (copp b) 2 in Ok [r; r]
  | _ => Err ValueError
  end.
Definition denv : env unit :=
  mkEnv (S := unit) (fun k r _ => (tt, [], Ok (power_sum (zeros_in r dzeros) (Z.to_nat k))))
    (fun _ _ s => s) (fun _ => false) (fun s => s)
    (fun _ _ => Err RuntimeError) (fun _ => Err RuntimeError) dsolve true (1, 1) true.
Definition drect : rect := mkRect (-1) 1 (-1) 1.

Lemma dsolve_exact : exact_solver dzeros dsolve.
Proof.
  intros p f H. unfold dzeros in H. cbn [filter] in H. destruct (f dz) eqn:Ef.
  - pose proof (poly_eq_len _ _ H) as L. rewrite monic_len in L.
    destruct p as [|a [|b [|c [|]]]]; try discriminate L.
    eexists. split; [reflexivity|]. eapply poly_eq_trans; [exact H|].
    inversion H as [|? ? ? ? Ha H1]; subst. inversion H1 as [|? ? ? ? Hb H2]; subst.
    assert (Hr : ceq (cdivn (copp b) 2) dz) by (rewrite Hb; split; reflexivity).
    assert (G : forall u v, ceq u v -> forall q q', poly_eq q q' -> poly_eq (times_linear u q) (times_linear v q')).
    { intros u v Huv q q' Hq. apply poly_eq_nth.
      - rewrite !times_linear_len, (poly_eq_len _ _ Hq). reflexivity.
      - intros i _. rewrite !times_linear_nth. rewrite Huv, (poly_eq_get _ _ i Hq).
        destruct i as [|i]; [reflexivity|]. rewrite (poly_eq_get _ _ i Hq). reflexivity. }
    apply poly_eq_sym. cbn [monic_with_zeros fold_right]. apply G; [exact Hr|]. apply G; [exact Hr|apply poly_eq_refl].
  - pose proof (poly_eq_len _ _ H) as L. rewrite monic_len in L.
    destruct p as [|a [|]]; try discriminate L.
    exists []. split; [reflexivity|exact H].
Qed.

Definition exact_event (ev : event) : bool :=
  match ev with
  | EvMoment k q (Ok v) => ceqb v (power_sum (zeros_in q dzeros) (Z.to_nat k))
  | EvMoment _ _ (Err _) => false
  | _ => true
  end.

Lemma demo_poly_run :
  exists s' l, calcRoots denv PolyV 1 drect tt = (s', l, Done tt) /\ exact_moments dzeros l /\
    map (fun r => (Qred (re (fst r)), Qred (im (fst r)), snd r)) (roots_of l) = [((1 # 4)%Q, 0%Q, 2)].
Proof.
  eexists. eexists. split; [vm_compute; reflexivity|]. split; [|vm_compute; reflexivity].
  intros k q m Hi.
  match type of Hi with In _ ?l => assert (H : forallb exact_event l = true) by (vm_compute; reflexivity) end.
  rewrite forallb_forall in H. specialize (H _ Hi). cbn [exact_event] in H.
  destruct m as [v|]; [|discriminate]. exists v. split; [reflexivity|apply ceqb_true, H].
Qed.

Lemma grouping_order_matters :
  exists p roots roots', Permutation roots roots' /\
    List.length (group_roots p roots) <> List.length (group_roots p roots').
Proof.
  exists (0, 0), [(0, 0); (3 # 4, 0); (3 # 2, 0)]%Q, [(3 # 4, 0); (0, 0); (3 # 2, 0)]%Q.
  split; [apply perm_swap|]. vm_compute. discriminate.
Qed.

Lemma clusters_transitive p (clusters : list (list cplx)) :
  (forall cl a b, In cl clusters -> In a cl -> In b cl -> within p a b) ->
  (forall cl cl' a b, In cl clusters -> In cl' clusters -> In a cl -> In b cl' -> within p a b -> cl = cl') ->
  transitive_on p (List.concat clusters).
Proof.
  intros H1 H2 a b c Ha Hb Hc Wab Wbc.
  apply in_concat in Ha, Hb, Hc. destruct Ha as [ka [Ka Ia]], Hb as [kb [Kb Ib]], Hc as [kc [Kc Ic]].
  pose proof (H2 ka kb a b Ka Kb Ia Ib Wab). pose proof (H2 kb kc b c Kb Kc Ib Ic Wbc). subst.
  apply (H1 kc); assumption.
Qed.

Lemma clusters_found p clusters roots :
  Permutation roots (List.concat clusters) ->
  (forall cl a b, In cl clusters -> In a cl -> In b cl -> within p a b) ->
  (forall cl cl' a b, In cl clusters -> In cl' clusters -> In a cl -> In b cl' -> within p a b -> cl = cl') ->
  forall b o, In (b, o) (group_roots p roots) ->
    exists cl, In cl clusters /\ In b cl /\ count_of (fun a => In a cl) roots o.
Proof.
  intros HP H1 H2 b o Hb.
  assert (T : transitive_on p roots).
  { intros x y z Hx Hy Hz. apply (Permutation_in _ HP) in Hx, Hy, Hz.
    apply (clusters_transitive p clusters H1 H2 x y z Hx Hy Hz). }
  pose proof (group_clusters p roots T b o Hb) as C.
  destruct (partition_facts _ _ _ (group_partitions p roots)) as [F1 _].
  destruct (F1 b o Hb) as [_ Hin]. apply (Permutation_in _ HP), in_concat in Hin.
  destruct Hin as [cl [K1 K2]]. exists cl. split; [exact K1|]. split; [exact K2|].
  eapply count_of_ext; [|exact C]. intros a Ha.
  apply (Permutation_in _ HP), in_concat in Ha. destruct Ha as [cl' [J1 J2]]. split.
  - intro W. rewrite (H2 cl cl' b a K1 J1 K2 J2 W). exact J2.
  - intro I. apply (H1 cl); assumption.
Qed.
