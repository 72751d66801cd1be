(** * Proofs for C86: what holds of all phases of a search *)
From Coq Require Import Reals Qreals.
From Verif Require Import PyBase Cache_Proofs Container_Model Refine_Model Refine_Spec Cache_Model Sum_Model Sum_Spec
  Nan_Model Nan_Spec NanRefine_Model NanRefine_Spec NanRefine_Proofs2 NanSum_Model NanSum_Spec NanSum_Proofs4.
Open Scope Z_scope.
Open Scope list_scope.

Section Keep.
  Context {S : Type}.
  Variables (E : env S) (phase : rect -> S -> S * list cplx * res xcplx) (Inv : S -> Prop) (Pv : num -> Prop).
  Hypothesis Hph : forall q s, Inv s -> Inv (fst (fst (phase q s))) /\ (forall m, snd (phase q s) = Ok m -> Pv (fst m)).
  Hypothesis Hrm : forall a b s, Inv s -> Inv (e_rm E a b s).
  Hypothesis Hest : forall k r s, Inv s -> Inv (fst (fst (e_est E k r s))).
  Hypothesis Hreset : forall s, Inv s -> Inv (e_reset E s).

  Definition mkeeps {A} (m : @M S A) : Prop := forall s, Inv s -> Inv (fst (fst (m s))).
  Definition okphase (e : xevent) : Prop :=
    match e with XDropped _ n => Pv n | XPhase _ (Ok m) => Pv (fst m) | _ => True end.
  Definition keeps {A} (m : @XM S A) : Prop := forall s, Inv s -> Inv (fst (fst (m s))) /\ Forall okphase (snd (fst (m s))).

  Lemma mkeeps_bind {A B} (m : @M S A) (k : A -> @M S B) : mkeeps m -> (forall a, mkeeps (k a)) -> mkeeps (mbind m k).
  Proof.
    intros HM HK s HI. unfold mbind. specialize (HM s HI). destruct (m s) as [[s1 l1] [a|e|]]; cbn [fst snd] in *; try exact HM.
    specialize (HK a s1 HM). destruct (k a s1) as [[s2 l2] o2]. exact HK.
  Qed.
  Lemma mkeeps_emit l : mkeeps (emit l). Proof. intros s HI. exact HI. Qed.
  Lemma mkeeps_ret {A} (a : A) : mkeeps (ret a). Proof. intros s HI. exact HI. Qed.
  Lemma mkeeps_raise {A} e : mkeeps (@raise S A e). Proof. intros s HI. exact HI. Qed.
  Lemma mkeeps_seq {A B} (m : @M S A) (k : @M S B) : mkeeps m -> mkeeps k -> mkeeps (mseq m k).
  Proof. intros HM HK. apply mkeeps_bind; [exact HM|]. intros _. exact HK. Qed.
  Lemma mkeeps_advance a : mkeeps (advance E a). Proof. apply mkeeps_emit. Qed.
  Lemma mkeeps_remove a b : mkeeps (cacheRemove E a b). Proof. intros s HI. cbn. apply Hrm, HI. Qed.
  Lemma mkeeps_getRoot r q : mkeeps (getRootFromRectangle E r q).
  Proof. apply mkeeps_seq; [apply mkeeps_emit|apply mkeeps_advance]. Qed.
  Lemma mkeeps_newton r q : mkeeps (newton_branch E r q).
  Proof.
    assert (F : forall evs e, mkeeps (mseq (emit evs) (mseq (advance E (area r))
        (match e with None => ret tt | Some x => if catches_RuntimeError x then ret tt else raise x end)))).
    { intros evs e. apply mkeeps_seq; [apply mkeeps_emit|]. apply mkeeps_seq; [apply mkeeps_advance|].
      destruct e as [x|]; [destruct (catches_RuntimeError x); [apply mkeeps_ret|apply mkeeps_raise]|apply mkeeps_ret]. }
    unfold newton_branch. destruct (e_secant E _ _); [|apply (F _ (Some _))].
    destruct (e_has_df E); [destruct (e_newton E _); [apply (F _ None)|apply (F _ (Some _))]|apply (F _ None)].
  Qed.
  Lemma mkeeps_moment k r : mkeeps (calcMoment E k r).
  Proof.
    intros s HI. unfold calcMoment. specialize (Hest k r s HI). destruct (e_est E k r s) as [[s1 zs] w]. exact Hest.
  Qed.
  Lemma mkeeps_moments n r : forall k, mkeeps (moments_from E k n r).
  Proof.
    induction n as [|n IH]; intro k; cbn [moments_from]; [apply mkeeps_ret|].
    apply mkeeps_bind; [apply mkeeps_moment|]. intro m. apply mkeeps_bind; [apply IH|]. intro ms. apply mkeeps_ret.
  Qed.

  Lemma keeps_bind {A B} (m : @XM S A) (k : A -> @XM S B) : keeps m -> (forall a, keeps (k a)) -> keeps (xbind m k).
  Proof.
    intros HM HK s HI. unfold xbind. specialize (HM s HI). destruct (m s) as [[s1 l1] [a|e|]]; cbn [fst snd] in *; try exact HM.
    destruct HM as [HM HL]. specialize (HK a s1 HM). destruct (k a s1) as [[s2 l2] o2]. cbn [fst snd] in *. split; [apply HK|].
    apply Forall_app. split; [exact HL|apply HK].
  Qed.
  Lemma keeps_lift {A} (m : @M S A) : mkeeps m -> keeps (lift m).
  Proof.
    intros HM s HI. unfold lift. specialize (HM s HI). destruct (m s) as [[s1 l1] o1]. cbn [fst snd] in *. split; [exact HM|].
    apply Forall_forall. intros e He. apply in_map_iff in He as (x & <- & _). exact I.
  Qed.
  Lemma keeps_phase q (k : num -> @XM S unit) : (forall n, Pv n -> keeps (k n)) -> keeps (xbind (xrefined phase q) k).
  Proof.
    intros HK s HI. unfold xbind at 1 2, xrefined, xbind, xmoment. pose proof (Hph q s HI) as [K1 K2].
    destruct (phase q s) as [[s1 zs] w]. cbn [fst snd] in *.
    assert (Z : Forall okphase (map (fun z => Old (EvRoot (z, 0))) zs)).
    { apply Forall_forall. intros e He. apply in_map_iff in He as (x & <- & _). exact I. }
    destruct w as [m|e]; cbn [xret fst snd].
    - specialize (HK (fst m) (K2 m eq_refl) s1 K1). destruct (k (fst m) s1) as [[s2 l2] o2]. cbn [fst snd] in *.
      split; [apply HK|]. rewrite app_nil_r. apply Forall_app. split; [apply Forall_app; split; [exact Z|constructor; [exact (K2 m eq_refl)|constructor]]|apply HK].
    - split; [exact K1|]. apply Forall_app. split; [exact Z|constructor; [exact I|constructor]].
  Qed.
  Lemma keeps_getRoot q n : keeps (xgetRoot E q n).
  Proof.
    destruct n; cbn [xgetRoot]; [apply keeps_lift, mkeeps_getRoot| | |]; intros s HI; cbn;
      (split; [exact HI|constructor; [exact I|constructor]]).
  Qed.

  Lemma keeps_simple self q n : Pv n -> (forall q n, Pv n -> keeps (self q n)) -> keeps (xdecide_simple E phase self q n).
  Proof.
    intros HP IH. unfold xdecide_simple. destruct (num_ltb n (Fin TWO_PI)).
    { apply keeps_bind; [|intros _; apply keeps_lift, mkeeps_advance]. intros s HI. cbn. split; [exact HI|]. constructor; [exact HP|constructor]. }
    destruct (_ && _); [apply keeps_getRoot|].
    destruct (Qltb _ _); apply keeps_phase; intros n1 P1; (apply keeps_bind; [apply IH, P1|intros _]);
      (apply keeps_bind; [apply keeps_lift, mkeeps_remove|intros _]);
      apply keeps_phase; intros n2 P2; (apply keeps_bind; [apply IH, P2|intros _]); apply keeps_lift, mkeeps_remove.
  Qed.

  Lemma keeps_decide v : forall fuel q n, Pv n -> keeps (xdecideRefinement E phase v fuel q n).
  Proof.
    induction fuel as [|fuel IH]; intros q n HP; [intros s HI; split; [exact HI|constructor]|].
    cbn [xdecideRefinement]. destruct v.
    - apply keeps_simple; assumption.
    - unfold xdecide_newton. destruct (_ && _ && _); [apply keeps_getRoot|].
      destruct (_ && _ && _ && _); [apply keeps_lift, mkeeps_newton|]. apply keeps_simple; assumption.
    - unfold xdecide_poly. destruct (negb _); [intros s HI; split; [exact HI|constructor]|].
      destruct (_ && _ && _); [apply keeps_getRoot|]. destruct (num_ltb _ n && _); [|apply keeps_simple; assumption].
      apply keeps_lift. apply mkeeps_bind; [apply mkeeps_moments|]. intro ms. destruct (e_polyroots E _); [|apply mkeeps_raise].
      apply mkeeps_seq; [apply mkeeps_emit|apply mkeeps_advance].
  Qed.

  Lemma search_keeps v fuel r : keeps (xcalcRoots E phase v fuel r).
  Proof.
    intros s HI. unfold xcalcRoots. set (s0 := if e_dirty E s then e_reset E s else s).
    assert (H0 : Inv s0) by (unfold s0; destruct (e_dirty E s); [apply Hreset, HI|exact HI]).
    unfold xbind, xmoment. pose proof (Hph r s0 H0) as [K1 K2].
    destruct (phase r s0) as [[s1 zs] w]. cbn [fst snd] in *.
    assert (Z : Forall okphase (map (fun z => Old (EvRoot (z, 0))) zs)).
    { apply Forall_forall. intros e He. apply in_map_iff in He as (x & <- & _). exact I. }
    destruct w as [m|e]; cbn [fst snd].
    - pose proof (keeps_decide v fuel r (fst m) (K2 m eq_refl) s1 K1) as HK. destruct (xdecideRefinement E phase v fuel r (fst m) s1) as [[s2 l2] o2]. cbn [fst snd] in *.
      split; [apply HK|]. apply Forall_app. split; [apply Forall_app; split; [exact Z|constructor; [exact (K2 m eq_refl)|constructor]]|apply HK].
    - split; [exact K1|]. apply Forall_app. split; [exact Z|constructor; [exact I|constructor]].
  Qed.
End Keep.

Section Search.
  Variables (f : cplx -> option cR) (delta : R) (mp : Q) (n : nat) (prec : Z * Z) (fuel : nat) (turns : R -> Q).
  Variables (secant : cplx -> cplx -> res cplx) (newton : cplx -> res cplx) (polyroots : list cplx -> res (list cplx)) (has_df progress : bool).
  Notation E := (nenv (LS := sum_state (option R)) secant newton polyroots has_df prec progress).
  Notation phase := (nphase (oturn_line turns f delta mp n prec fuel)).

  Lemma turn_plain a b ls p : snd (oturn_line turns f delta mp n prec fuel a b ls) = Ok p -> plain p.
  Proof.
    unfold oturn_line. destruct (osum_line f delta mp n prec fuel 0 a b ls) as [st' [found [q|]|e|]]; cbn [snd]; intro H; try discriminate;
      injection H as <-; [right; eexists|left]; reflexivity.
  Qed.

  Lemma searched v depth r s s' l : all_plain s -> proper r -> xcalcRoots E phase v depth r s = (s', l, Done tt) ->
    tiles r (xhandled l) /\
    (forall q x, In (XDropped q x) l -> exists t, x = Fin t /\ (t < 4 # 5)%Q) /\
    (forall q m, In (XPhase q (Ok m)) l -> fst m = NaN -> ~ sub_tolerance prec q) /\
    (forall q m, In (XPhase q (Ok m)) l -> fst m = NaN \/ exists t, fst m = Fin t).
  Proof.
    intros HS PR H. destruct (search_complete E phase v depth r s s' l PR H) as (C1 & C2 & C3).
    assert (K : Forall (okphase plain) l).
    { pose proof (search_keeps E phase all_plain plain) as SK.
      specialize (SK (fun q s => phase_plain _ turn_plain q s)).
      specialize (SK ltac:(intros a b s0 H0 k x G; cbn in G; rewrite (dget_ddel ckey_eqb ckey_t ckey_s) in G; destruct (ckey_eqb k (a, b)); [discriminate|exact (H0 k x G)])).
      specialize (SK ltac:(intros k r0 s0 H0; exact H0)).
      specialize (SK ltac:(intros s0 H0 k x G; discriminate)).
      specialize (SK v depth r s HS). rewrite H in SK. apply SK. }
    rewrite Forall_forall in K.
    split; [exact C1|]. split; [|split].
    - intros q x HI. pose proof (K _ HI) as P. destruct (C2 q x HI) as [->|X]; [|exact X]. destruct P as [P|[t P]]; discriminate.
    - intros q m HI HN. apply (C3 q m HI). left. exact HN.
    - intros q m HI. exact (K _ HI).
  Qed.
End Search.

(** A function without zeros, made undefined at one point. *)
Definition holed (g : cplx -> cR) (p z : cplx) : option cR := if ceqb z p then None else Some (g z).

Lemma ceqb_iff a b : ceqb a b = true <-> ceq a b.
Proof. unfold ceqb, ceq. rewrite andb_true_iff, !Qeq_bool_iff. reflexivity. Qed.

Lemma holed_ceq g p : (forall z z', ceq z z' -> g z = g z') -> forall z z', ceq z z' -> holed g p z = holed g p z'.
Proof.
  intros G z z' H. unfold holed. rewrite (G z z' H).
  assert (ceqb z p = ceqb z' p) as ->; [|reflexivity].
  apply Bool.eq_iff_eq_true. rewrite !ceqb_iff. destruct H as [H1 H2]. unfold ceq. rewrite H1, H2. reflexivity.
Qed.

Lemma hole_error (g : cplx -> cR) delta mp n prec fuel turns secant newton polyroots has_df progress v r :
  (0 < delta)%R -> (2 <= n)%nat -> (100 * n + 3 <= fuel)%nat ->
  (forall z z', ceq z z' -> g z = g z') -> (forall z, nonzero (g z)) ->
  (x1 r < x2 r)%Q -> (y1 r < y2 r)%Q ->
  exists f depth, (forall z, ~ ceq z (x1 r, y1 r) -> takes f z (g z)) /\
  forall d, (depth <= d)%nat ->
  exists s' l, xcalcRoots (nenv secant newton polyroots has_df prec progress) (nphase (oturn_line turns f delta mp n prec fuel)) v d r
    ([], fresh_sum) = (s', l, Raised ValueError) /\ xroots l = [].
Proof.
  intros D N F G GN Lx Ly. exists (holed g (x1 r, y1 r)).
  assert (PR : proper r) by (split; apply Qlt_le_weak; assumption).
  destruct (search_terminates r prec PR) as [depth HT]. exists depth. split.
  - intros z NE. unfold takes, holed. destruct (ceqb z (x1 r, y1 r)) eqn:K; [|reflexivity]. apply ceqb_iff in K. contradiction.
  - intros d Hd.
    specialize (HT _ (nenv (LS := sum_state (option R)) secant newton polyroots has_df prec progress)
       (nphase (oturn_line turns (holed g (x1 r, y1 r)) delta mp n prec fuel)) v ([], fresh_sum) d eq_refl Hd).
    destruct (xcalcRoots (nenv secant newton polyroots has_df prec progress) _ v d r ([], fresh_sum)) as [[s' l] o] eqn:X.
    cbn [snd] in HT. exists s', l.
    destruct (corner_error (holed g (x1 r, y1 r)) delta mp n prec fuel turns secant newton polyroots has_df progress v d r [] s' l o D N F
      (holed_ceq g _ G)) as [O1 O2]; try assumption.
    + intros z w H. unfold takes, holed in H. destruct (ceqb z (x1 r, y1 r)); [discriminate|]. injection H as <-. apply GN.
    + unfold undefined, holed. assert (ceqb (x1 r, y1 r) (x1 r, y1 r) = true) as -> by (apply ceqb_iff; split; reflexivity). reflexivity.
    + destruct O1 as [->| ->]; [split; [reflexivity|exact O2]|contradiction].
Qed.

(** A line is always answered when the function has no zeros. *)
Lemma line_answers (f : cplx -> option cR) delta mp n prec fuel horiz level t1 t2 st :
  (0 < delta)%R -> (2 <= n)%nat -> (100 * n + 3 <= fuel)%nat -> (forall z w, takes f z w -> nonzero w) ->
  (t1 < t2)%Q -> unseen st horiz level ->
  exists st' p, osum_line f delta mp n prec fuel 0 (mkpoint horiz level t1) (mkpoint horiz level t2) st = (st', SumOk [] p).
Proof.
  intros D N F NZ L U. unfold unseen in U.
  destruct (gen_at f delta mp n prec fuel D N F NZ (mkpoint horiz level t1) (mkpoint horiz level t2)) as (zs & phis & G & _).
  unfold osum_line, sumLine. destruct horiz; cbn [mkpoint re im fst snd] in *.
  - rewrite Qeq_bool_refl, Sum_Proofs2.retrieve_miss by assumption. cbn beta. rewrite G. eexists _, _. reflexivity.
  - assert (Qeq_bool t1 t2 = false) as ->.
    { destruct (Qeq_bool t1 t2) eqn:K; [|reflexivity]. apply Qeq_bool_iff in K. rewrite K in L. exfalso. exact (Qlt_irrefl _ L). }
    rewrite Qeq_bool_refl, Sum_Proofs2.retrieve_miss by assumption. cbn beta. rewrite G. eexists _, _. reflexivity.
Qed.
