(** Property C87: what a search costs. *)
From Coq Require Import Reals Qreals.
From Verif Require Import PyBase Rounding_Model Poly_Model Refine_Model Refine_Spec Zeros_Spec
  Refine_Examples Cost_Spec Cost_Proofs.
Open Scope Z_scope.

(** [a], [b]: numbers of halvings that bring the sides below the tolerance.  All three
    algorithms, any outcome of the search (also an exception or a bound on the recursion). *)
Theorem C87_linear_in_zeros :
  forall S (E : env S) zeros v fuel r s a b s' l o,
  enough_halvings (x2 r - x1 r) (pow10 (- fst (e_precision E))) a ->
  enough_halvings (y2 r - y1 r) (pow10 (- snd (e_precision E))) b ->
  proper r -> calcRoots E v fuel r s = (s', l, o) -> good_run zeros l ->
  (winding_requests l <= 1 + 2 * count zeros r * (a + b))%nat /\
  (moment_requests l <= count zeros r)%nat.
Proof. exact @search_cost. Qed.
Print Assumptions C87_linear_in_zeros.

(** Higher moments are the polynomial algorithm's alone. *)
Theorem C87_no_other_moments :
  forall S (E : env S) v fuel r s s' l o,
  v <> PolyV -> calcRoots E v fuel r s = (s', l, o) -> moment_requests l = 0%nat.
Proof. exact @search_moments. Qed.
Print Assumptions C87_no_other_moments.

(** A domain without zeros costs a single estimate. *)
Theorem C87_empty_domain :
  forall S (E : env S) zeros v fuel r s s' l,
  proper r -> calcRoots E v fuel r s = (s', l, Done tt) -> good_run zeros l ->
  count zeros r = 0%nat -> winding_requests l = 1%nat /\ moment_requests l = 0%nat.
Proof. exact @search_empty. Qed.
Print Assumptions C87_empty_domain.

(** No finished simple search that meets a zero is cheaper than two estimates per halving. *)
Theorem C87_least_effort :
  forall S (E : env S) zeros fuel r s a b s' l,
  (forall k, (k < a)%nat -> ~ enough_halvings (x2 r - x1 r) (pow10 (- fst (e_precision E))) k) ->
  (forall k, (k < b)%nat -> ~ enough_halvings (y2 r - y1 r) (pow10 (- snd (e_precision E))) k) ->
  proper r -> calcRoots E Simple fuel r s = (s', l, Done tt) -> good_run zeros l ->
  (1 <= count zeros r)%nat ->
  (1 + 2 * (a + b) <= winding_requests l)%nat.
Proof. exact @search_effort. Qed.
Print Assumptions C87_least_effort.

(** With one simple zero the cost is known exactly. *)
Theorem C87_one_zero :
  forall S (E : env S) zeros fuel r s a b s' l,
  (forall k, enough_halvings (x2 r - x1 r) (pow10 (- fst (e_precision E))) k <-> (a <= k)%nat) ->
  (forall k, enough_halvings (y2 r - y1 r) (pow10 (- snd (e_precision E))) k <-> (b <= k)%nat) ->
  proper r -> calcRoots E Simple fuel r s = (s', l, Done tt) -> good_run zeros l ->
  count zeros r = 1%nat ->
  winding_requests l = (1 + 2 * (a + b))%nat.
Proof. exact @search_exact. Qed.
Print Assumptions C87_one_zero.

Definition one_qzero : list cplx := [(1 # 3, 1 # 3)]%Q.

(** One zero on [0,2]x[0,2] with tolerance 1: two halvings per side, nine estimates. *)
Example C87_nonvacuous_one :
  exists s' l,
    calcRoots (exact_env one_qzero (0, 0)) Simple 5 demo_rect tt = (s', l, Done tt) /\
    proper demo_rect /\ good_run (map qpoint one_qzero) l /\
    count (map qpoint one_qzero) demo_rect = 1%nat /\ winding_requests l = 9%nat /\
    (forall k, enough_halvings (x2 demo_rect - x1 demo_rect) (pow10 (- 0)) k <-> (2 <= k)%nat).
Proof.
  eexists. eexists. split; [vm_compute; reflexivity|].
  split; [split; discriminate|].
  split; [apply good_events; vm_compute; reflexivity|].
  split; [rewrite count_qcount; vm_compute; reflexivity|].
  split; [vm_compute; reflexivity|].
  intro k. unfold enough_halvings, demo_rect. cbn [x1 x2].
  change (pow10 (- 0)) with 1%Q. rewrite Qlt_alt.
  destruct k as [|[|k]]; [split; [discriminate|lia]|split; [discriminate|lia]|].
  split; [intros _; lia|intros _]. rewrite <- Qlt_alt.
  rewrite !Refine_Proofs2.two_S.
  assert (H : (1 <= inject_Z (2 ^ Z.of_nat k))%Q).
  { change 1%Q with (inject_Z 1). rewrite <- Zle_Qle.
    pose proof (Z.pow_pos_nonneg 2 (Z.of_nat k) ltac:(lia) ltac:(lia)). lia. }
  Lqa.lra.
Qed.

(** Three zeros: the polynomial algorithm asks for exactly three moments, and here once for
    the winding number; the simple one stays below 1 + 2*3*4. *)
Example C87_nonvacuous_poly :
  (exists s' l o,
    calcRoots demo_env PolyV 5 demo_rect tt = (s', l, o) /\ good_run demo_zeros l /\
    moment_requests l = 3%nat /\ winding_requests l = 1%nat /\ count demo_zeros demo_rect = 3%nat) /\
  (exists s' l,
    calcRoots demo_env Simple 5 demo_rect tt = (s', l, Done tt) /\ good_run demo_zeros l /\
    winding_requests l = 15%nat) /\
  (exists s' l,
    calcRoots (exact_env [] (0, 0)) NewtonV 5 demo_rect tt = (s', l, Done tt) /\ good_run [] l /\
    winding_requests l = 1%nat /\ count [] demo_rect = 0%nat).
Proof.
  split; [|split].
  - eexists. eexists. eexists. split; [vm_compute; reflexivity|].
    split; [apply good_events; vm_compute; reflexivity|].
    split; [vm_compute; reflexivity|]. split; [vm_compute; reflexivity|].
    unfold demo_zeros; rewrite count_qcount; vm_compute; reflexivity.
  - eexists. eexists. split; [vm_compute; reflexivity|].
    split; [apply good_events; vm_compute; reflexivity|]. vm_compute; reflexivity.
  - eexists. eexists. split; [vm_compute; reflexivity|].
    split; [apply (good_events []); vm_compute; reflexivity|].
    split; [vm_compute; reflexivity|reflexivity].
Qed.
