(** * Proofs about phases that are not numbers, continued *)
From Verif Require Import PyBase Rounding_Model Poly_Model Refine_Model Refine_Spec Refine_Proofs Refine_Proofs3 Nan_Model Nan_Spec NanRefine_Model NanRefine_Spec NanRefine_Proofs.
From Coq Require Import Lqa.
Open Scope Z_scope.
Open Scope list_scope.

(** The finite environment that stands for the given one. *)
Definition replaced {S} (E : env S) (phase : rect -> S -> S * list cplx * res xcplx) : env S :=
  mkEnv (fun k r s => if k =? 0
           then (fst (phase r s), match snd (phase r s) with Ok m => Ok (as_complex m) | Err e => Err e end)
           else e_est E k r s)
    (e_rm E) (e_dirty E) (e_reset E) (e_secant E) (e_newton E) (e_polyroots E) (e_has_df E) (e_precision E) (e_progress E).
Lemma replaced_stands {S} (E : env S) phase : stands_for E phase (replaced E phase).
Proof.
  split; [intros; reflexivity|]. split; [|repeat split]. intros k r s K. cbn. destruct (k =? 0) eqn:Z; [|reflexivity].
  apply Z.eqb_eq in Z. contradiction.
Qed.

Section Logs.
  Context {S : Type} (E : env S) (phase : rect -> S -> S * list cplx * res xcplx).
  Notation small r := (sub_tolerance (e_precision E) r).

  Definition logs {A} (P : xevent -> Prop) (mx : @XM S A) : Prop := forall s, Forall P (snd (fst (mx s))).
  Lemma logs_bind {A B} P (mx : @XM S A) (k : A -> @XM S B) : logs P mx -> (forall a, logs P (k a)) -> logs P (xbind mx k).
  Proof.
    intros H1 H2 s. specialize (H1 s). unfold xbind. destruct (mx s) as [[s1 l1] [a|e|]]; cbn [fst snd] in *; auto.
    specialize (H2 a s1). destruct (k a s1) as [[s2 l2] o]. cbn [fst snd] in *. apply Forall_app. auto.
  Qed.
  Lemma logs_lift {A} (P : xevent -> Prop) (m : @M S A) : (forall e, P (Old e)) -> logs P (lift m).
  Proof. intros H s. unfold lift. destruct (m s) as [[s1 l] o]. cbn. apply Forall_forall. intros x K. apply in_map_iff in K as (e & <- & _). apply H. Qed.
  Lemma logs_weaken {A} (P P' : xevent -> Prop) (m : @XM S A) : (forall e, P e -> P' e) -> logs P m -> logs P' m.
  Proof. intros H K s. eapply Forall_impl; [exact H|apply K]. Qed.

  (** What may be logged while [r] is searched. *)
  Definition okev (r : rect) (e : xevent) : Prop :=
    match e with
    | Old _ => True
    | XPhase q _ => sub_rect q r
    | XDropped q n => sub_rect q r /\ num_ltb n (Fin TWO_PI) = true
    | XStuck q n => sub_rect q r
    end.
  Lemma sub_refl r : sub_rect r r.
  Proof. unfold sub_rect. repeat split; apply Qle_refl. Qed.
  Lemma sub_trans a b c : sub_rect a b -> sub_rect b c -> sub_rect a c.
  Proof. unfold sub_rect. intros (A & B & C & D) (F & G & H & I0). repeat split; eapply Qle_trans; eassumption. Qed.
  Lemma okev_sub a r e : sub_rect a r -> okev a e -> okev r e.
  Proof. intro K. destruct e; cbn; intuition (eauto using sub_trans). Qed.
  Lemma logs_moment r q : sub_rect q r -> logs (okev r) (xmoment phase q).
  Proof.
    intros K s. unfold xmoment. destruct (phase q s) as [[s1 zs] v]. cbn [fst snd]. apply Forall_app. split.
    - apply Forall_forall. intros x I0. apply in_map_iff in I0 as (z & <- & _). exact I.
    - constructor; [exact K|constructor].
  Qed.
  Lemma logs_refined r q : sub_rect q r -> logs (okev r) (xrefined phase q).
  Proof. intro K. apply logs_bind; [apply logs_moment, K|]. intros a s. constructor. Qed.
  Lemma logs_getRoot r phi : logs (okev r) (xgetRoot E r phi).
  Proof.
    destruct phi; cbn [xgetRoot]; try (intro s; cbn; constructor; [apply sub_refl|constructor]).
    apply logs_lift. intro e. exact I.
  Qed.
  Lemma halves r : proper r ->
    let mx := ((x1 r + x2 r) / 2)%Q in let my := ((y1 r + y2 r) / 2)%Q in
    (sub_rect (mkRect (x1 r) mx (y1 r) (y2 r)) r /\ proper (mkRect (x1 r) mx (y1 r) (y2 r))) /\
    (sub_rect (mkRect mx (x2 r) (y1 r) (y2 r)) r /\ proper (mkRect mx (x2 r) (y1 r) (y2 r))) /\
    (sub_rect (mkRect (x1 r) (x2 r) (y1 r) my) r /\ proper (mkRect (x1 r) (x2 r) (y1 r) my)) /\
    (sub_rect (mkRect (x1 r) (x2 r) my (y2 r)) r /\ proper (mkRect (x1 r) (x2 r) my (y2 r))).
  Proof.
    intros [A B] mx my. unfold sub_rect, proper. cbn [x1 x2 y1 y2].
    assert (H1 : (x1 r <= mx)%Q) by (unfold mx; apply Qle_shift_div_l; lra).
    assert (H2 : (mx <= x2 r)%Q) by (unfold mx; apply Qle_shift_div_r; lra).
    assert (H3 : (y1 r <= my)%Q) by (unfold my; apply Qle_shift_div_l; lra).
    assert (H4 : (my <= y2 r)%Q) by (unfold my; apply Qle_shift_div_r; lra).
    repeat split; try assumption; try apply Qle_refl.
  Qed.
  Lemma logs_simple self r phi : proper r -> (forall q n, proper q -> logs (okev q) (self q n)) ->
    logs (okev r) (xdecide_simple E phase self r phi).
  Proof.
    intros PR H. unfold xdecide_simple. destruct (num_ltb phi (Fin TWO_PI)) eqn:K.
    { apply logs_bind; [intro s; cbn; constructor; [split; [apply sub_refl|exact K]|constructor]|]. intro a. apply logs_lift. intro e. exact I. }
    destruct (_ && _); [apply logs_getRoot|].
    destruct (halves r PR) as ([L1 L2] & [R1 R2] & [B1 B2] & [T1 T2]).
    assert (W : forall q n, sub_rect q r -> proper q -> logs (okev r) (self q n)).
    { intros q n K1 K2. eapply logs_weaken; [|apply H, K2]. intro e. apply okev_sub, K1. }
    destruct (Qltb _ _); apply logs_bind; auto using logs_refined; intro p1; (apply logs_bind; [auto|]); intros _;
      (apply logs_bind; [apply logs_lift; intro; exact I|]); intros _; apply logs_bind; auto using logs_refined; intro p2;
      (apply logs_bind; [auto|]); intros _; apply logs_lift; intro; exact I.
  Qed.
  Lemma logs_decide v fuel r phi : proper r -> logs (okev r) (xdecideRefinement E phase v fuel r phi).
  Proof.
    revert r phi. induction fuel as [|n IH]; intros r phi PR; [intro s; constructor|].
    assert (IH' : forall q n0, proper q -> logs (okev q) (xdecideRefinement E phase v n q n0)) by auto.
    destruct v; cbn [xdecideRefinement].
    - apply logs_simple; auto.
    - unfold xdecide_newton. destruct (_ && _ && _); [apply logs_getRoot|]. destruct (_ && _ && _ && _); [apply logs_lift; intro; exact I|].
      apply logs_simple; auto.
    - unfold xdecide_poly. destruct (negb _); [intro s; constructor|]. destruct (_ && _ && _); [apply logs_getRoot|].
      destruct (_ && _); [apply logs_lift; intro; exact I|]. apply logs_simple; auto.
  Qed.
  Lemma logs_calcRoots v fuel r : proper r -> logs (okev r) (xcalcRoots E phase v fuel r).
  Proof.
    intros PR s0. unfold xcalcRoots. set (s := if e_dirty E s0 then e_reset E s0 else s0). clearbody s. revert s.
    apply logs_bind; [apply logs_moment, sub_refl|]. intro m. apply logs_decide, PR.
  Qed.

  (** A search that ends normally has refined every rectangle with an unclear phase. *)
  Definition fine (l : list xevent) : Prop :=
    forall q m, In (XPhase q (Ok m)) l -> unclear (fst m) -> ~ small q.
  Lemma fine_app l1 l2 : fine l1 -> fine l2 -> fine (l1 ++ l2).
  Proof. intros H1 H2 q m K. apply in_app_or in K as [K|K]; eauto. Qed.
  Lemma fine_old l : fine (map Old l).
  Proof. intros q m K. apply in_map_iff in K as (e & X & _). discriminate X. Qed.
  Lemma xbind_done {A B} (m : @XM S A) (k : A -> @XM S B) s s' l b : xbind m k s = (s', l, Done b) ->
    exists s1 l1 a l2, m s = (s1, l1, Done a) /\ k a s1 = (s', l2, Done b) /\ l = l1 ++ l2.
  Proof.
    unfold xbind. destruct (m s) as [[s1 l1] [a|e|]]; try discriminate. destruct (k a s1) as [[s2 l2] o] eqn:K.
    intro X. injection X as <- <- ->. exists s1, l1, a, l2. auto.
  Qed.
  Lemma lift_done {A} (m : @M S A) s s' l b : lift m s = (s', l, Done b) -> fine l.
  Proof. unfold lift. destruct (m s) as [[s1 l1] o]. intro X. injection X as <- <- ->. apply fine_old. Qed.
  Lemma refined_done q s s' l phi : xrefined phase q s = (s', l, Done phi) ->
    (unclear phi -> ~ small q) -> fine l.
  Proof.
    intro H. apply xbind_done in H as (s1 & l1 & m & l2 & H1 & H2 & ->). injection H2 as <- <- <-. rewrite app_nil_r.
    unfold xmoment in H1. destruct (phase q s) as [[s2 zs] [m'|e]]; [|discriminate]. injection H1 as <- <- <-.
    intros K q' m0 I0. apply in_app_or in I0 as [I0|[I0|[]]]; [apply in_map_iff in I0 as (z & X & _); discriminate X|].
    injection I0 as <- <-. exact K.
  Qed.
  Lemma getRoot_done r phi s s' l : xgetRoot E r phi s = (s', l, Done tt) -> ~ unclear phi /\ fine l.
  Proof.
    destruct phi; cbn [xgetRoot]; intro H; try discriminate H.
    split; [intros [X|X]; discriminate X|]. eapply lift_done, H.
  Qed.
  Lemma simple_done self r phi s s' l :
    (forall q n s s' l, self q n s = (s', l, Done tt) -> (unclear n -> ~ small q) /\ fine l) ->
    xdecide_simple E phase self r phi s = (s', l, Done tt) -> (unclear phi -> ~ small r) /\ fine l.
  Proof.
    intros IH. unfold xdecide_simple. destruct (num_ltb phi (Fin TWO_PI)) eqn:K.
    { intro H. apply xbind_done in H as (s1 & l1 & a & l2 & H1 & H2 & ->). injection H1 as <- <- <-.
      split; [intros [->| ->]; discriminate K|]. apply fine_app; [|eapply lift_done, H2].
      intros q m [X|[]]. discriminate X. }
    destruct (_ && _) eqn:SM.
    { intro H. apply getRoot_done in H as [H1 H2]. split; [intro U; contradiction|exact H2]. }
    intro H. split; [intros _ X; apply (smallb E) in X; congruence|]. revert H.
    destruct (Qltb (deltaIm r / epsIm E) (deltaRe r / epsRe E)); intro H;
    apply xbind_done in H as (s1 & l1 & p1 & l1' & H1 & H & ->);
    apply xbind_done in H as (s2 & l2 & [] & l2' & H2 & H & ->);
    apply xbind_done in H as (s3 & l3 & [] & l3' & H3 & H & ->);
    apply xbind_done in H as (s4 & l4 & p2 & l4' & H4 & H & ->);
    apply xbind_done in H as (s5 & l5 & [] & l5' & H5 & H & ->);
    apply IH in H2 as [A1 A2]; apply IH in H5 as [B1 B2];
    (apply fine_app; [eapply refined_done; eassumption|]);
    (apply fine_app; [assumption|]); (apply fine_app; [eapply lift_done, H3|]);
    (apply fine_app; [eapply refined_done; eassumption|]); (apply fine_app; [assumption|]); eapply lift_done, H.
  Qed.
  Lemma decide_done v fuel : forall r phi s s' l,
    xdecideRefinement E phase v fuel r phi s = (s', l, Done tt) -> (unclear phi -> ~ small r) /\ fine l.
  Proof.
    induction fuel as [|n IH]; intros r phi s s' l; [discriminate|]. destruct v; cbn [xdecideRefinement].
    - apply simple_done, IH.
    - unfold xdecide_newton. destruct (_ && _ && _) eqn:K1.
      { intro H. apply getRoot_done in H as [H1 H2]. split; [intro U; contradiction|exact H2]. }
      destruct (_ && _ && _ && _) eqn:K2; [|apply simple_done, IH].
      intro H. split; [|eapply lift_done, H]. intros [->| ->]; cbn in K2; discriminate K2.
    - unfold xdecide_poly. destruct (negb _); [discriminate|]. destruct (_ && _ && _) eqn:K1.
      { intro H. apply getRoot_done in H as [H1 H2]. split; [intro U; contradiction|exact H2]. }
      destruct (num_ltb (Fin TWO_PI) phi && num_ltb phi (Fin MAX_PHASE)) eqn:K2; [|apply simple_done, IH].
      intro H. split; [|eapply lift_done, H]. intros [->| ->]; cbn in K2; discriminate K2.
  Qed.
  Lemma calcRoots_done v fuel r s s' l : xcalcRoots E phase v fuel r s = (s', l, Done tt) -> fine l.
  Proof.
    unfold xcalcRoots. intro H. apply xbind_done in H as (s1 & l1 & m & l2 & H1 & H2 & ->).
    apply decide_done in H2 as [A B]. apply fine_app; [|exact B].
    unfold xmoment in H1. destruct (phase r _) as [[s2 zs] [m'|e]]; [|discriminate]. injection H1 as <- <- <-.
    intros q' m0 I0. apply in_app_or in I0 as [I0|[I0|[]]]; [apply in_map_iff in I0 as (z & X & _); discriminate X|].
    injection I0 as <- <-. exact A.
  Qed.
End Logs.

(** ** Whole searches *)
Lemma handled_as_events l : handled (as_events l) = xhandled l.
Proof.
  induction l as [|e l IH]; [reflexivity|]. change (e :: l) with ([e] ++ l).
  rewrite as_events_app. unfold handled, xhandled in *. rewrite !flat_map_app, IH. f_equal.
  destruct e as [[]|q [m|e]| |]; reflexivity.
Qed.
Lemma roots_as_events l : roots_of (as_events l) = xroots l.
Proof.
  induction l as [|e l IH]; [reflexivity|]. change (e :: l) with ([e] ++ l).
  rewrite as_events_app. unfold roots_of, xroots in *. rewrite !flat_map_app, IH. f_equal.
  destruct e as [[]|q [m|e]| |]; reflexivity.
Qed.
Lemma search_sim {S} (E E' : env S) phase v fuel r s s' l o : proper r -> stands_for E phase E' ->
  xcalcRoots E phase v fuel r s = (s', l, o) ->
  calcRoots E' v fuel r s = (s', as_events l, o) \/
  (exists l0 q phi, l = l0 ++ [XStuck q phi] /\ sub_tolerance (e_precision E) q /\ sub_rect q r /\
     (phi = NaN /\ o = Raised ValueError \/ phi = PInf /\ o = Raised OverflowError) /\
     exists rest, snd (fst (calcRoots E' v fuel r s)) = as_events l0 ++ rest).
Proof.
  intros PR SF H. pose proof (calcRoots_sim E E' phase SF v fuel r s) as K.
  pose proof (logs_calcRoots E phase v fuel r PR s) as L.
  rewrite H in K, L. cbn [fst snd] in K, L. destruct (calcRoots E' v fuel r s) as [[s1 l1] o1]. cbn [fst snd] in *.
  destruct K as [(-> & <- & ->)|((l0 & q & phi & -> & SM & U & ->) & rest & ->)]; [left; reflexivity|].
  right. exists l0, q, phi. split; [reflexivity|]. split; [exact SM|]. split.
  - rewrite Forall_forall in L. apply (L (XStuck q phi)). apply in_or_app. right. left. reflexivity.
  - split; [destruct U as [->| ->]; auto|]. exists rest. rewrite as_events_app. cbn. rewrite app_nil_r. reflexivity.
Qed.
Lemma search_complete {S} (E : env S) phase v fuel r s s' l : proper r ->
  xcalcRoots E phase v fuel r s = (s', l, Done tt) ->
  tiles r (xhandled l) /\
  (forall q n, In (XDropped q n) l -> n = NInf \/ exists t, n = Fin t /\ (t < 4 # 5)%Q) /\
  (forall q m, In (XPhase q (Ok m)) l -> unclear (fst m) -> ~ sub_tolerance (e_precision E) q).
Proof.
  intros PR H. pose proof (logs_calcRoots E phase v fuel r PR s) as L. rewrite H in L. cbn [fst snd] in L.
  destruct (search_sim E _ phase v fuel r s s' l (Done tt) PR (replaced_stands E phase) H) as [K|(l0 & q & phi & _ & _ & _ & [[_ X]|[_ X]] & _)];
    try discriminate X.
  split; [rewrite <- handled_as_events; exact (C21_lemma _ _ _ _ _ _ _ PR K)|]. split.
  - intros q n I0. rewrite Forall_forall in L. apply L in I0. destruct I0 as [_ I0].
    destruct n as [t| | |]; cbn in I0; try discriminate I0; [right|left; reflexivity]. exists t. split; [reflexivity|]. apply Qltb_true in I0. unfold TWO_PI in I0. lra.
  - exact (calcRoots_done E phase v fuel r s s' l H).
Qed.
Lemma search_terminates (r : rect) (p : Z * Z) : proper r -> exists depth,
  forall S (E : env S) phase v s fuel, e_precision E = p -> (depth <= fuel)%nat -> snd (xcalcRoots E phase v fuel r s) <> OutOfFuel.
Proof.
  intro PR. destruct (C20_exists r p) as [d H]. exists d. intros S E phase v s fuel EP F X.
  destruct (xcalcRoots E phase v fuel r s) as [[s' l] o] eqn:R. cbn in X. subst o.
  destruct (search_sim E _ phase v fuel r s s' l OutOfFuel PR (replaced_stands E phase) R) as [K|(l0 & q & phi & _ & _ & _ & [[_ X]|[_ X]] & _)];
    try discriminate X.
  apply (H S (replaced E phase) v s fuel EP F). rewrite K. reflexivity.
Qed.
Lemma search_finite {S} (E : env S) phase v fuel r s : proper r -> numbers_only phase -> stands_for E phase E ->
  forall s' l o, xcalcRoots E phase v fuel r s = (s', l, o) -> calcRoots E v fuel r s = (s', as_events l, o).
Proof.
  intros PR N SF s' l o H.
  destruct (search_sim E E phase v fuel r s s' l o PR SF H) as [K|(l0 & q & phi & EL & SM & SR & U & _)]; [exact K|].
  exfalso. assert (G : Forall (fun e => match e with XStuck _ _ => False | XPhase _ (Ok m) => ~ unclear (fst m) | _ => True end) l).
  2: { rewrite EL in G. apply Forall_app in G as [_ G]. inversion G as [|x y Z _]. exact Z. }
  assert (NM : forall q s m, snd (phase q s) = Ok m -> ~ unclear (fst m)).
  { intros q0 s0 m X. destruct (N q0 s0 m X) as [[t ->] _]. intros [Y|Y]; discriminate Y. }
  set (P := fun e => match e with XStuck _ _ => False | XPhase _ (Ok m) => ~ unclear (fst m) | _ => True end).
  assert (LM : forall q, logs P (xmoment phase q)).
  { intros q0 s0. unfold xmoment. pose proof (NM q0 s0) as Y. destruct (phase q0 s0) as [[s1 zs] w]. cbn [fst snd] in *. apply Forall_app. split.
    - apply Forall_forall. intros x I0. apply in_map_iff in I0 as (z & <- & _). exact I.
    - constructor; [|constructor]. destruct w as [m|e]; cbn; auto. }
  assert (LO : forall A (m : @M S A), logs P (lift m)) by (intros A m; apply logs_lift; intro e; exact I).
  assert (LG : forall q n, ~ unclear n -> num_ltb n (Fin TWO_PI) = false -> logs P (xgetRoot E q n)).
  { intros q0 n U0 K. destruct n; cbn [xgetRoot]; [apply LO|exfalso; apply U0; right; reflexivity|discriminate K|exfalso; apply U0; left; reflexivity]. }
  assert (bindU : forall q (k : num -> @XM S unit), (forall n, ~ unclear n -> logs P (k n)) -> logs P (xbind (xrefined phase q) k)).
  { intros q0 k K s0. unfold xbind at 1. unfold xrefined, xbind at 1. pose proof (LM q0 s0) as Y.
    pose proof (NM q0 s0) as W. unfold xmoment in *. destruct (phase q0 s0) as [[s1 zs] [m|e]]; cbn [fst snd xret] in *; [|exact Y].
    specialize (K (fst m) (W m eq_refl) s1). destruct (k (fst m) s1) as [[s2 l2] o2]. cbn [fst snd] in *. rewrite app_nil_r. apply Forall_app. auto. }
  assert (simple : forall self q n, ~ unclear n -> (forall q n, ~ unclear n -> logs P (self q n)) -> logs P (xdecide_simple E phase self q n)).
  { intros self q0 n U0 IH. unfold xdecide_simple. destruct (num_ltb n (Fin TWO_PI)) eqn:K.
    { apply logs_bind; [intro s0; cbn; constructor; [exact I|constructor]|intro; apply LO]. }
    destruct (_ && _); [apply LG; auto|].
    destruct (Qltb _ _); apply bindU; intros n1 U1; (apply logs_bind; [apply IH, U1|intros _]); (apply logs_bind; [apply LO|intros _]);
      apply bindU; intros n2 U2; (apply logs_bind; [apply IH, U2|intros _]); apply LO. }
  assert (gt : forall n, num_ltb (Fin TWO_PI) n = true -> num_ltb n (Fin TWO_PI) = false).
  { intros [t| | |]; cbn; auto; try discriminate. intro K. apply Qltb_true in K. apply Qltb_false. apply Qlt_le_weak, K. }
  assert (dec : forall n q phi0, ~ unclear phi0 -> logs P (xdecideRefinement E phase v n q phi0)).
  { induction n as [|n IH]; intros q0 phi0 U0; [intro s0; constructor|]. destruct v; cbn [xdecideRefinement].
    - apply simple; auto.
    - unfold xdecide_newton. destruct (_ && _ && _) eqn:K1.
      { apply LG; [exact U0|]. rewrite !andb_true_iff in K1. apply gt, K1. }
      destruct (_ && _ && _ && _); [apply LO|]. apply simple; auto.
    - unfold xdecide_poly. destruct (negb _); [intro s0; constructor|]. destruct (_ && _ && _) eqn:K1.
      { apply LG; [exact U0|]. rewrite !andb_true_iff in K1. apply gt, K1. }
      destruct (num_ltb (Fin TWO_PI) phi0 && num_ltb phi0 (Fin MAX_PHASE)); [apply LO|]. apply simple; auto. }
  assert (Z : Forall P (snd (fst (xcalcRoots E phase v fuel r s)))).
  { unfold xcalcRoots. set (s0 := if e_dirty E s then e_reset E s else s). unfold xbind.
    pose proof (LM r s0) as Y. pose proof (NM r s0) as W. unfold xmoment in *. destruct (phase r s0) as [[s1 zs] [m|e]]; cbn [fst snd] in *; [|exact Y].
    pose proof (dec fuel r (fst m) (W m eq_refl) s1) as D. destruct (xdecideRefinement E phase v fuel r (fst m) s1) as [[s2 l2] o2].
    cbn [fst snd] in *. apply Forall_app. auto. }
  rewrite H in Z. exact Z.
Qed.

(** Undefined everywhere. *)
Lemma nowhere {S} (E : env S) phase v fuel r s s' l o :
  (forall q s, exists m, phase q s = (s, [], Ok (NaN, m))) -> xcalcRoots E phase v fuel r s = (s', l, o) ->
  (o = Raised ValueError \/ o = OutOfFuel) /\ xroots l = [].
Proof.
  intros N H.
  assert (MO : forall q s, exists m, xmoment phase q s = (s, [XPhase q (Ok (NaN, m))], Done (NaN, m))).
  { intros q s0. destruct (N q s0) as [m X]. exists m. unfold xmoment. rewrite X. reflexivity. }
  assert (simple : forall self q s s' l o,
    (forall q s s' l o, self q NaN s = (s', l, o) -> (o = Raised ValueError \/ o = OutOfFuel) /\ xroots l = []) ->
    xdecide_simple E phase self q NaN s = (s', l, o) -> (o = Raised ValueError \/ o = OutOfFuel) /\ xroots l = []).
  { clear - MO. intros self q s s' l o IH. unfold xdecide_simple. cbn [num_ltb].
    destruct (_ && _); [intro H; injection H as <- <- <-; auto|].
    destruct (Qltb _ _).
    - intro H. unfold xbind at 1 in H. unfold xrefined at 1, xbind at 1 in H.
      match type of H with context [xmoment phase ?a s] => destruct (MO a s) as [m X]; rewrite X in H end. cbn [fst xret app] in H.
      unfold xseq at 1, xbind at 1 in H.
      match type of H with context [self ?a NaN s] => destruct (self a NaN s) as [[s2 l2] o2] eqn:Y; apply IH in Y as [Y1 Y2] end.
      destruct Y1 as [->| ->]; injection H as <- <- <-; split; auto.
    - intro H. unfold xbind at 1 in H. unfold xrefined at 1, xbind at 1 in H.
      match type of H with context [xmoment phase ?a s] => destruct (MO a s) as [m X]; rewrite X in H end. cbn [fst xret app] in H.
      unfold xseq at 1, xbind at 1 in H.
      match type of H with context [self ?a NaN s] => destruct (self a NaN s) as [[s2 l2] o2] eqn:Y; apply IH in Y as [Y1 Y2] end.
      destruct Y1 as [->| ->]; injection H as <- <- <-; split; auto. }
  assert (dec : forall n q s s' l o, xdecideRefinement E phase v n q NaN s = (s', l, o) ->
    (o = Raised ValueError \/ o = OutOfFuel) /\ xroots l = []).
  { induction n as [|n IH]; intros q s1 s2 l2 o2 R; [injection R as <- <- <-; auto|]. destruct v; cbn [xdecideRefinement] in R.
    - eapply simple; eauto.
    - unfold xdecide_newton in R. cbn [num_ltb andb] in R. eapply simple; eauto.
    - unfold xdecide_poly in R. destruct (negb _); [injection R as <- <- <-; auto|]. cbn [num_ltb andb] in R. eapply simple; eauto. }
  unfold xcalcRoots in H. set (s0 := if e_dirty E s then e_reset E s else s) in H. unfold xbind in H.
  destruct (MO r s0) as [m X]. rewrite X in H. cbn [fst] in H.
  destruct (xdecideRefinement E phase v fuel r NaN s0) as [[s2 l2] o2] eqn:Y. apply dec in Y as [Y1 Y2].
  injection H as <- <- <-. split; [exact Y1|]. exact Y2.
Qed.
