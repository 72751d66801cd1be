(** * Primitives along the sides of a rectangle *)
From Coq Require Import Reals Qreals.
From Verif Require Import PyBase Refine_Model Zeros_Spec Sum_Model Sum_Spec Quad_Model Quad_Spec Arg_Spec
  Moment_Spec Arg_Proofs Arg_Proofs2 Romb_Proofs Moment_Proofs.
From Coq Require Import Lra.
Open Scope R_scope.

Definition dir (horiz : bool) : cR := if horiz then (1, 0) else (0, 1).

(** Along the line, the derivative of Phi is the direction times g. *)
Definition has_along (horiz : bool) (l t : R) (Phi : R -> cR) (g : cR -> cR) : Prop :=
  derivable_pt_lim (fun s => fst (Phi s)) t (fst (times (dir horiz) (g (put horiz t l)))) /\
  derivable_pt_lim (fun s => snd (Phi s)) t (snd (times (dir horiz) (g (put horiz t l)))).

Lemma along_plus h l t P g P' g' : has_along h l t P g -> has_along h l t P' g' ->
  has_along h l t (fun s => plus_cR (P s) (P' s)) (fun z => plus_cR (g z) (g' z)).
Proof.
  intros [A B] [A' B']. unfold has_along. rewrite times_plus. unfold plus_cR at 1 2 3 4. cbn [fst snd].
  split; apply lim_plus; assumption.
Qed.
Lemma along_times h l t c P g : has_along h l t P g -> has_along h l t (fun s => times c (P s)) (fun z => times c (g z)).
Proof.
  intros [A B]. unfold has_along. rewrite (times_assoc (dir h) c), (times_comm (dir h) c), <- times_assoc.
  split; unfold times at 1 2; cbn [fst snd]; [apply lim_minus|apply lim_plus]; apply lim_scale; assumption.
Qed.
Lemma along_ext h l t P g g' : g (put h t l) = g' (put h t l) -> has_along h l t P g -> has_along h l t P g'.
Proof. unfold has_along. intros <-. tauto. Qed.
Lemma along_prim h l t Q q : prim (put h t l) Q q -> has_along h l t (fun s => Q (put h s l)) q.
Proof.
  intros (A & B & C & D). unfold has_along, dir, times. destruct h; cbn [put fst snd] in *.
  - split; [eapply lim_eq; [exact A|]|eapply lim_eq; [exact B|]]; ring.
  - split; [eapply lim_eq; [exact C|]|eapply lim_eq; [exact D|]]; ring.
Qed.
Lemma along_0 h l t : has_along h l t (fun _ => (0, 0)) (fun _ => (0, 0)).
Proof. unfold has_along. rewrite times_0. cbn [fst snd]. split; apply lim_const. Qed.

(** ** 1 / (z - w) *)
Definition pole_prim (h : bool) (w : point) (l t : R) : cR :=
  let u := t - along h w in let v := l - across h w in (/ 2 * ln (u * u + v * v), sg h * at0 u v).

Lemma lim_minus_const c t : derivable_pt_lim (fun s => s - c) t 1.
Proof. eapply lim_eq; [apply lim_minus; [apply lim_id|apply lim_const]|]. ring. Qed.

Lemma along_pole h l t w : minus_cR (put h t l) w <> (0, 0) ->
  has_along h l t (pole_prim h w l) (fun p => quotient (1, 0) (minus_cR p w)).
Proof.
  intro N. set (u := t - along h w). set (v := l - across h w).
  assert (P : 0 < u * u + v * v).
  { apply norm_pos in N. unfold u, v. destruct h; cbn [put along across minus_cR fst snd] in *; lra. }
  assert (LN : derivable_pt_lim (fun s => fst (pole_prim h w l s)) t (u / (u * u + v * v))).
  { unfold pole_prim. cbn [fst]. eapply lim_eq; [apply lim_scale|].
    - apply (derivable_pt_lim_comp (fun s => (s - along h w) * (s - along h w) + (l - across h w) * (l - across h w)) ln).
      + apply lim_plus; [apply lim_mult; apply lim_minus_const|apply lim_const].
      + apply derivable_pt_lim_ln. exact P.
    - cbn beta. fold u v. field. lra. }
  assert (AT : derivable_pt_lim (fun s => snd (pole_prim h w l s)) t (sg h * (v / (u * u + v * v)))).
  { unfold pole_prim. cbn [snd]. apply lim_scale. fold v. unfold at0.
    destruct (Req_EM_T v 0) as [V|V].
    - eapply lim_eq; [apply lim_const|]. rewrite V. unfold Rdiv. ring.
    - eapply lim_eq; [apply (derivable_pt_lim_comp (fun s => (s - along h w) / v) atan)|].
      + eapply (lim_ext (fun s => / v * (s - along h w))); [intro; field; exact V|]. apply lim_scale, lim_minus_const.
      + apply derivable_pt_lim_atan.
      + cbn beta. fold u. unfold Rsqr. field. repeat split; (exact V || lra). }
  unfold has_along. unfold quotient, times, dir, sg in *. destruct h; cbn [put minus_cR along across fst snd] in *.
  - split; [eapply lim_eq; [exact LN|]|eapply lim_eq; [exact AT|]]; subst u v; cbn [fst snd]; field; lra.
  - split; [eapply lim_eq; [exact LN|]|eapply lim_eq; [exact AT|]]; subst u v; cbn [fst snd]; field; lra.
Qed.

(** ** Sums over the zeros *)
Definition poles_prim (h : bool) (zeros : list point) (k : nat) (l t : R) : cR :=
  csum (map (fun w => times (power w k) (pole_prim h w l t)) zeros).

Lemma along_poles h l t k zeros : (forall w, In w zeros -> minus_cR (put h t l) w <> (0, 0)) ->
  has_along h l t (poles_prim h zeros k l)
    (fun p => csum (map (fun w => times (power w k) (quotient (1, 0) (minus_cR p w))) zeros)).
Proof.
  induction zeros as [|w l' IH]; intro H; [apply along_0|].
  unfold poles_prim. cbn [map csum fold_right].
  apply (along_plus h l t (fun s => times (power w k) (pole_prim h w l s)) (fun p => times (power w k) (quotient (1, 0) (minus_cR p w)))
    (poles_prim h l' k l)).
  - apply along_times, along_pole, H. left; reflexivity.
  - apply IH. intros; apply H; right; assumption.
Qed.

Lemma times_csum a l : times a (csum l) = csum (map (times a) l).
Proof. induction l as [|b l IH]; [apply times_0|]. cbn [csum fold_right map]. rewrite times_plus. f_equal. exact IH. Qed.
Lemma csum_plus {A} (f g : A -> cR) l : csum (map (fun x => plus_cR (f x) (g x)) l) = plus_cR (csum (map f l)) (csum (map g l)).
Proof.
  induction l as [|x l IH]; cbn [map csum fold_right]; [rewrite plus_0; reflexivity|].
  change (fold_right plus_cR (0, 0)) with csum. rewrite IH.
  rewrite !plus_assoc_cR. f_equal. rewrite <- !plus_assoc_cR. f_equal. apply plus_comm_cR.
Qed.

(** The integrand as residues plus a function with a primitive. *)
Lemma moment_split (F DF : cR -> cR) zeros (q : cR -> cR) k p :
  (forall w, In w zeros -> minus_cR p w <> (0, 0)) ->
  quotient (DF p) (F p) = plus_cR (csum (map (fun w => quotient (1, 0) (minus_cR p w)) zeros)) (q p) ->
  moment_at F DF k p =
  plus_cR (csum (map (fun w => times (power w k) (quotient (1, 0) (minus_cR p w))) zeros))
    (plus_cR (csum (map (fun w => rest w k p) zeros)) (times (power p k) (q p))).
Proof.
  intros H E. unfold moment_at. rewrite quotient_times, (times_comm (DF p)), <- times_assoc, <- quotient_times, E.
  rewrite times_plus, times_csum, map_map, plus_assoc_cR, <- csum_plus. f_equal. f_equal.
  apply map_ext_in. intros w Hw. apply power_over, H, Hw.
Qed.

Lemma rests_prim zeros k : exists Q, forall p, prim p Q (fun z => csum (map (fun w => rest w k z) zeros)).
Proof.
  induction zeros as [|w l [Q IH]]; [exists (fun _ => (0, 0)); apply prim_0|].
  destruct (rest_prim w k) as [Q1 H1]. exists (fun z => plus_cR (Q1 z) (Q z)). intro p.
  exact (prim_plus p _ _ _ _ (H1 p) (IH p)).
Qed.

(** ** Around the rectangle *)
Definition turn (Phi : bool -> R -> R -> cR) (X1 X2 Y1 Y2 : R) : cR :=
  plus_cR (plus_cR (minus_cR (Phi true Y1 X2) (Phi true Y1 X1)) (minus_cR (Phi false X2 Y2) (Phi false X2 Y1)))
    (plus_cR (minus_cR (Phi true Y2 X1) (Phi true Y2 X2)) (minus_cR (Phi false X1 Y1) (Phi false X1 Y2))).

Lemma turn_prim (Q : cR -> cR) X1 X2 Y1 Y2 : turn (fun h l t => Q (put h t l)) X1 X2 Y1 Y2 = (0, 0).
Proof. unfold turn, plus_cR, minus_cR, put. cbn [fst snd]. apply pair_eq; ring. Qed.
Lemma turn_plus P P' X1 X2 Y1 Y2 :
  turn (fun h l t => plus_cR (P h l t) (P' h l t)) X1 X2 Y1 Y2 = plus_cR (turn P X1 X2 Y1 Y2) (turn P' X1 X2 Y1 Y2).
Proof. unfold turn, plus_cR, minus_cR. cbn [fst snd]. apply pair_eq; ring. Qed.
Lemma turn_times c P X1 X2 Y1 Y2 :
  turn (fun h l t => times c (P h l t)) X1 X2 Y1 Y2 = times c (turn P X1 X2 Y1 Y2).
Proof. unfold turn, plus_cR, minus_cR, times. cbn [fst snd]. apply pair_eq; ring. Qed.

Lemma turn_pole w X1 X2 Y1 Y2 :
  turn (fun h l t => pole_prim h w l t) X1 X2 Y1 Y2 =
  (0, PI / 2 * (sgn (X2 - fst w) - sgn (X1 - fst w)) * (sgn (Y2 - snd w) - sgn (Y1 - snd w))).
Proof.
  pose proof (around (X1 - fst w) (X2 - fst w) (Y1 - snd w) (Y2 - snd w)) as A.
  unfold turn, pole_prim, plus_cR, minus_cR, sg. cbn [fst snd along across].
  apply pair_eq; [|rewrite <- A; ring].
  rewrite (Rplus_comm ((Y2 - snd w) * (Y2 - snd w)) ((X2 - fst w) * (X2 - fst w))).
  rewrite (Rplus_comm ((Y1 - snd w) * (Y1 - snd w)) ((X2 - fst w) * (X2 - fst w))).
  rewrite (Rplus_comm ((Y2 - snd w) * (Y2 - snd w)) ((X1 - fst w) * (X1 - fst w))).
  rewrite (Rplus_comm ((Y1 - snd w) * (Y1 - snd w)) ((X1 - fst w) * (X1 - fst w))). ring.
Qed.

Lemma inside_winding r w : (x1 r < x2 r)%Q -> (y1 r < y2 r)%Q -> ~ on_border r w ->
  PI / 2 * (sgn (Q2R (x2 r) - fst w) - sgn (Q2R (x1 r) - fst w)) * (sgn (Q2R (y2 r) - snd w) - sgn (Q2R (y1 r) - snd w)) =
  if zinb r w then 2 * PI else 0.
Proof.
  intros Hx Hy HB.
  pose proof (count_around [w] r Hx Hy) as C. cbn [fold_right] in C. unfold count in C. cbn [filter] in C.
  rewrite Rplus_0_r in C. rewrite C.
  - destruct (zinb r w); cbn; ring.
  - intros w' [<-|[]] Z. unfold on_border in HB. 
    destruct (Rlt_dec (Q2R (x1 r)) (fst w)); [|exfalso; apply HB; split; [exact Z|intros [[? _] _]; contradiction]].
    destruct (Rlt_dec (fst w) (Q2R (x2 r))); [|exfalso; apply HB; split; [exact Z|intros [[_ ?] _]; contradiction]].
    destruct (Rlt_dec (Q2R (y1 r)) (snd w)); [|exfalso; apply HB; split; [exact Z|intros [_ [? _]]; contradiction]].
    destruct (Rlt_dec (snd w) (Q2R (y2 r))); [|exfalso; apply HB; split; [exact Z|intros [_ [_ ?]]; contradiction]].
    split; split; assumption.
Qed.

Lemma turn_poles zeros k r : (x1 r < x2 r)%Q -> (y1 r < y2 r)%Q -> (forall w, In w zeros -> ~ on_border r w) ->
  turn (fun h l t => poles_prim h zeros k l t) (Q2R (x1 r)) (Q2R (x2 r)) (Q2R (y1 r)) (Q2R (y2 r)) =
  times (0, 2 * PI) (power_sum zeros k r).
Proof.
  intros Hx Hy. unfold power_sum. induction zeros as [|w l IH]; intro HB.
  - cbn [filter map csum fold_right]. rewrite times_0. unfold turn, poles_prim, plus_cR, minus_cR. cbn. apply pair_eq; ring.
  - unfold poles_prim. cbn [map csum fold_right filter]. change (fold_right plus_cR (0, 0)) with csum.
    transitivity (plus_cR (turn (fun h l t => times (power w k) (pole_prim h w l t)) (Q2R (x1 r)) (Q2R (x2 r)) (Q2R (y1 r)) (Q2R (y2 r)))
      (turn (fun h l' t => poles_prim h l k l' t) (Q2R (x1 r)) (Q2R (x2 r)) (Q2R (y1 r)) (Q2R (y2 r)))).
    { rewrite <- turn_plus. reflexivity. }
    rewrite IH by (intros; apply HB; right; assumption).
    rewrite turn_times, turn_pole, inside_winding by (assumption || (apply HB; left; reflexivity)).
    destruct (zinb r w).
    + cbn [map csum fold_right]. change (fold_right plus_cR (0, 0)) with csum. rewrite times_plus. f_equal. apply times_comm.
    + rewrite times_0, plus_comm_cR, plus_0. reflexivity.
Qed.
