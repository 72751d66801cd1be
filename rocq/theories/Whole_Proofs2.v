(** The pieces of a parallel search. *)
From Coq Require Import Reals Qreals Qminmax.
From Verif Require Import PyBase Rounding_Model Rounding_Proofs Poly_Model Container_Model Container_Spec Finder_Model Finder_Spec Finder_Proofs
  Refine_Model Refine_Spec Zeros_Spec Zeros_Proofs Cache_Model
  Sum_Model Sum_Spec Arg_Spec EndToEnd_Model EndToEnd_Spec EndToEnd_Proofs EndToEnd_Proofs2 EndToEnd_Proofs3
  Whole_Model Whole_Grid Whole_Entry Whole_Inv Whole_Search Whole_Spec Whole_Proofs.
From Coq Require Import Lqa Lra.
Open Scope R_scope.

Lemma linspace_strict a b m i : (1 <= m)%nat -> (a < b)%Q -> (linspace_pt a b m i < linspace_pt a b m (i + 1))%Q.
Proof.
  intros Hm Hab. unfold linspace_pt. rewrite Nat2Z.inj_add, inject_Z_plus. change (inject_Z (Z.of_nat 1)) with 1%Q.
  assert (S : (0 < (b - a) / inject_Z (Z.of_nat m))%Q).
  { apply Qlt_shift_div_l; [change 0%Q with (inject_Z 0); rewrite <- Zlt_Qlt; lia|Lqa.lra]. }
  set (s := ((b - a) / inject_Z (Z.of_nat m))%Q) in *. Lqa.nra.
Qed.

Lemma job_wide m x job : (1 <= m)%nat ->
  (x1 (rect_of x) < x2 (rect_of x) /\ y1 (rect_of x) < y2 (rect_of x))%Q -> In job (createRootJobs m x) ->
  (x1 (rect_of job) < x2 (rect_of job) /\ y1 (rect_of job) < y2 (rect_of job))%Q /\ cx_precision job = cx_precision x.
Proof.
  intros Hm [W1 W2] H. apply (jobs_in m x Hm) in H. destruct H as (i & j & Hi & Hj & ->).
  split; [|reflexivity]. unfold rect_of in *. cbn [x1 x2 y1 y2 cx_reRan cx_imRan fst snd] in *.
  split; apply linspace_strict; assumption.
Qed.
