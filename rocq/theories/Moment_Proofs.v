(** * Complex primitives *)
From Coq Require Import Reals Qreals.
From Verif Require Import PyBase Refine_Model Zeros_Spec Sum_Model Sum_Spec Quad_Model Quad_Spec Arg_Spec
  Moment_Spec Arg_Proofs Romb_Proofs.
From Coq Require Import Lra.
Open Scope R_scope.

(** ** Complex arithmetic *)
Lemma pair_eq (a b c d : R) : a = c -> b = d -> (a, b) = (c, d). Proof. intros -> ->. reflexivity. Qed.
Lemma times_comm a b : times a b = times b a.
Proof. unfold times. apply pair_eq; ring. Qed.
Lemma times_assoc a b c : times a (times b c) = times (times a b) c.
Proof. unfold times. cbn [fst snd]. apply pair_eq; ring. Qed.
Lemma times_plus a b c : times a (plus_cR b c) = plus_cR (times a b) (times a c).
Proof. unfold times, plus_cR. cbn [fst snd]. apply pair_eq; ring. Qed.
Lemma times_1 a : times (1, 0) a = a.
Proof. destruct a. unfold times. cbn [fst snd]. apply pair_eq; ring. Qed.
Lemma times_0 a : times a (0, 0) = (0, 0).
Proof. unfold times. cbn [fst snd]. apply pair_eq; ring. Qed.
Lemma plus_comm_cR a b : plus_cR a b = plus_cR b a.
Proof. unfold plus_cR. apply pair_eq; ring. Qed.
Lemma plus_assoc_cR a b c : plus_cR a (plus_cR b c) = plus_cR (plus_cR a b) c.
Proof. unfold plus_cR. cbn [fst snd]. apply pair_eq; ring. Qed.
Lemma plus_0 a : plus_cR a (0, 0) = a.
Proof. destruct a. unfold plus_cR. cbn [fst snd]. apply pair_eq; ring. Qed.
Lemma quotient_times a b : quotient a b = times a (quotient (1, 0) b).
Proof. unfold quotient, times. cbn [fst snd]. apply pair_eq; unfold Rdiv; ring. Qed.
Lemma norm_pos (a : cR) : a <> (0, 0) -> 0 < fst a * fst a + snd a * snd a.
Proof.
  intro H. apply norm2_pos. destruct a as [x y]. cbn [fst snd].
  destruct (Req_EM_T x 0) as [-> |]; [|left; assumption].
  destruct (Req_EM_T y 0) as [-> |]; [congruence|right; assumption].
Qed.
Lemma times_quotient a b : b <> (0, 0) -> times b (quotient a b) = a.
Proof.
  intro H. apply norm_pos in H. destruct a as [a1 a2], b as [b1 b2]. cbn [fst snd] in H.
  unfold times, quotient. cbn [fst snd]. apply pair_eq; field; lra.
Qed.
Lemma power_S p k : power p (S k) = times p (power p k). Proof. reflexivity. Qed.

(** z^k / (z - w) = w^k / (z - w) + a polynomial *)
Fixpoint rest (w : cR) (k : nat) (p : cR) : cR :=
  match k with O => (0, 0) | S k' => plus_cR (power w k') (times p (rest w k' p)) end.

Lemma power_over w p : minus_cR p w <> (0, 0) -> forall k,
  times (power p k) (quotient (1, 0) (minus_cR p w)) =
  plus_cR (times (power w k) (quotient (1, 0) (minus_cR p w))) (rest w k p).
Proof.
  intros H. set (c := quotient (1, 0) (minus_cR p w)).
  assert (C : times p c = plus_cR (1, 0) (times w c)).
  { pose proof (times_quotient (1, 0) _ H) as T. fold c in T.
    clearbody c. destruct c as [c1 c2], p as [p1 p2], w as [w1 w2].
    unfold times, plus_cR, minus_cR in *. cbn [fst snd] in *.
    pose proof (f_equal fst T) as T1. pose proof (f_equal snd T) as T2. cbn [fst snd] in T1, T2. apply pair_eq; lra. }
  induction k as [|k IH]; [rewrite plus_0; reflexivity|].
  rewrite (power_S p k), <- times_assoc, IH, times_plus. cbn [rest].
  rewrite times_assoc, (times_comm p (power w k)), <- times_assoc, C, times_plus.
  rewrite (times_comm _ (1, 0)), times_1, (power_S w k), (times_comm w (power w k)), <- (times_assoc (power w k) w c).
  rewrite <- plus_assoc_cR, (plus_comm_cR (power w k)), <- plus_assoc_cR. f_equal. apply plus_comm_cR.
Qed.

(** ** Primitives *)
Definition prim (p : cR) (Q q : cR -> cR) : Prop :=
  derivable_pt_lim (fun t => fst (Q (t, snd p))) (fst p) (fst (q p)) /\
  derivable_pt_lim (fun t => snd (Q (t, snd p))) (fst p) (snd (q p)) /\
  derivable_pt_lim (fun t => fst (Q (fst p, t))) (snd p) (- snd (q p)) /\
  derivable_pt_lim (fun t => snd (Q (fst p, t))) (snd p) (fst (q p)).

Lemma lim_plus F G t l m : derivable_pt_lim F t l -> derivable_pt_lim G t m -> derivable_pt_lim (fun s => F s + G s) t (l + m).
Proof. intros. apply derivable_pt_lim_plus; assumption. Qed.
Lemma lim_minus F G t l m : derivable_pt_lim F t l -> derivable_pt_lim G t m -> derivable_pt_lim (fun s => F s - G s) t (l - m).
Proof. intros. apply derivable_pt_lim_minus; assumption. Qed.
Lemma lim_mult F G t l m : derivable_pt_lim F t l -> derivable_pt_lim G t m -> derivable_pt_lim (fun s => F s * G s) t (l * G t + F t * m).
Proof. intros. apply (derivable_pt_lim_mult F G); assumption. Qed.
Lemma lim_const c t : derivable_pt_lim (fun _ => c) t 0. Proof. apply derivable_pt_lim_const. Qed.

Lemma prim_plus p Q q Q' q' : prim p Q q -> prim p Q' q' -> prim p (fun z => plus_cR (Q z) (Q' z)) (fun z => plus_cR (q z) (q' z)).
Proof.
  intros (A1 & A2 & A3 & A4) (B1 & B2 & B3 & B4). unfold prim, plus_cR. cbn [fst snd].
  split; [apply lim_plus; assumption|]. split; [apply lim_plus; assumption|].
  split; [rewrite Ropp_plus_distr; apply lim_plus; assumption|apply lim_plus; assumption].
Qed.
Lemma prim_times p c Q q : prim p Q q -> prim p (fun z => times c (Q z)) (fun z => times c (q z)).
Proof.
  intros (A1 & A2 & A3 & A4). unfold prim, times. cbn [fst snd].
  split; [apply lim_minus; apply lim_scale; assumption|].
  split; [apply lim_plus; apply lim_scale; assumption|].
  split.
  - eapply lim_eq; [apply lim_minus; apply lim_scale; eassumption|]. ring.
  - eapply lim_eq; [apply lim_plus; apply lim_scale; eassumption|]. ring.
Qed.
Lemma prim_ext p Q q q' : q p = q' p -> prim p Q q -> prim p Q q'.
Proof. unfold prim. intros <-. tauto. Qed.
Lemma prim_0 p : prim p (fun _ => (0, 0)) (fun _ => (0, 0)).
Proof. unfold prim. cbn [fst snd]. rewrite Ropp_0. auto using lim_const. Qed.

(** The product rule for z P(z). *)
Lemma prim_var p P q : prim p P q -> prim p (fun z => times z (P z)) (fun z => plus_cR (P z) (times z (q z))).
Proof.
  destruct p as [x y]. intros (A1 & A2 & A3 & A4). unfold prim, times, plus_cR in *. cbn [fst snd] in *.
  assert (Z : forall t, derivable_pt_lim (fun s => s) t 1) by (intro; apply lim_id).
  split; [|split; [|split]].
  - eapply lim_eq; [apply lim_minus; [apply lim_mult; [apply Z|exact A1]|apply lim_mult; [apply lim_const|exact A2]]|]. cbn beta. ring.
  - eapply lim_eq; [apply lim_plus; [apply lim_mult; [apply Z|exact A2]|apply lim_mult; [apply lim_const|exact A1]]|]. cbn beta. ring.
  - eapply lim_eq; [apply lim_minus; [apply lim_mult; [apply lim_const|exact A3]|apply lim_mult; [apply Z|exact A4]]|]. cbn beta. ring.
  - eapply lim_eq; [apply lim_plus; [apply lim_mult; [apply lim_const|exact A4]|apply lim_mult; [apply Z|exact A3]]|]. cbn beta. ring.
Qed.

(** Polynomials have primitives of every order. *)
Fixpoint poly_eval (cs : list cR) (p : cR) : cR :=
  match cs with [] => (0, 0) | c :: l => plus_cR c (times p (poly_eval l p)) end.

Lemma prim_poly cs : exists Q, forall p, prim p Q (poly_eval cs).
Proof.
  assert (ST : forall p c, prim p (fun z => times z c) (fun _ => c)).
  { intros [x y] [c d]. unfold prim, times. cbn [fst snd].
    split; [|split; [|split]].
    - eapply lim_eq; [apply lim_minus; [apply lim_mult; [apply lim_id|apply lim_const]|apply lim_const]|]. cbn beta. ring.
    - eapply lim_eq; [apply lim_plus; [apply lim_mult; [apply lim_id|apply lim_const]|apply lim_const]|]. cbn beta. ring.
    - eapply lim_eq; [apply lim_minus; [apply lim_const|apply lim_mult; [apply lim_id|apply lim_const]]|]. cbn beta. ring.
    - eapply lim_eq; [apply lim_plus; [apply lim_const|apply lim_mult; [apply lim_id|apply lim_const]]|]. cbn beta. ring. }
  assert (MON : forall c n, exists Q, forall p, prim p Q (fun z => times c (power z n))).
  { intros c n. exists (fun z => times (times c (/ INR (S n), 0)) (power z (S n))). intro p.
    apply (prim_ext p _ (fun z => times (times c (/ INR (S n), 0)) (times (INR (S n), 0) (power z n)))).
    - assert (INR (S n) <> 0) by (apply not_0_INR; lia). rewrite times_assoc. f_equal.
      unfold times. destruct c. cbn [fst snd]. apply pair_eq; field; assumption.
    - apply prim_times. destruct p as [x y].
      induction n as [|n IH].
      + apply (prim_ext (x, y) _ (fun _ => (1, 0))); [|exact (ST (x, y) (1, 0))].
        unfold times, power. cbn [Nat.iter nat_rect fst snd INR]. apply pair_eq; ring.
      + eapply prim_ext; [|exact (prim_var _ _ _ IH)]. cbn beta. rewrite (S_INR (S n)), (power_S (x, y) n).
        destruct (power (x, y) n) as [u v]. unfold times, plus_cR. cbn [fst snd]. apply pair_eq; ring. }
  assert (G : forall cs n, exists Q, forall p, prim p Q (fun z => times (power z n) (poly_eval cs z))).
  { clear cs. induction cs as [|c cs IH]; intro n.
    - exists (fun _ => (0, 0)). intro p. apply (prim_ext p _ (fun _ => (0, 0))); [symmetry; apply times_0|apply prim_0].
    - destruct (MON c n) as [Q1 H1]. destruct (IH (S n)) as [Q2 H2]. exists (fun z => plus_cR (Q1 z) (Q2 z)). intro p.
      eapply prim_ext; [|apply prim_plus; [apply H1|apply H2]]. cbn [poly_eval]. rewrite times_plus. f_equal.
      + apply times_comm.
      + rewrite power_S, times_assoc, (times_comm (power p n) p). reflexivity. }
  destruct (G cs 0%nat) as [Q H]. exists Q. intro p. eapply prim_ext; [|apply H]. cbn. apply times_1.
Qed.

Lemma rest_prim w k : exists Q, forall p, prim p Q (rest w k).
Proof.
  assert (E : exists cs, forall p, rest w k p = poly_eval cs p).
  { induction k as [|k [cs IH]]; [exists []; reflexivity|]. exists (power w k :: cs). intro p. cbn. rewrite IH. reflexivity. }
  destruct E as [cs E]. destruct (prim_poly cs) as [Q H]. exists Q. intro p. eapply prim_ext; [|apply H]. symmetry. apply E.
Qed.
