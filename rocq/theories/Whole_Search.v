(** * A search whose estimator is accurate at every call that is made *)
From Coq Require Import Reals Qreals.
From Verif Require Import PyBase Rounding_Model Poly_Model Refine_Model Refine_Spec Zeros_Spec Zeros_Proofs
  Cache_Model EndToEnd_Model EndToEnd_Spec Whole_Grid Whole_Inv.
Open Scope Z_scope.

(** The same environment, but with right answers where [E] is wrong. *)
Definition accurate (zeros : list point) (q : rect) (zs : list cplx) (v : res cplx) : bool :=
  match zs, v with
  | [], Ok m => Qle_bool (Qabs (re m - inject_Z (Z.of_nat (count zeros q)))) (1 # 5)
  | _, _ => false
  end.
Definition repaired {S} (zeros : list point) (E : env S) : env S :=
  mkEnv
    (fun order q s =>
       let '(s', zs, v) := e_est E order q s in
       if accurate zeros q zs v then (s', zs, v)
       else (s', [], Ok (inject_Z (Z.of_nat (count zeros q)), 0%Q)))
    (e_rm E) (e_dirty E) (e_reset E) (e_secant E) (e_newton E) (e_polyroots E)
    (e_has_df E) (e_precision E) (e_progress E).

Lemma repaired_reliable {S} (E : env S) zeros P r : (forall q, cell_of P r q -> avoids zeros q) ->
  reliable (repaired zeros E) zeros P r.
Proof.
  intros HA q s Hq. split; [exact (HA q Hq)|]. cbn [e_est repaired].
  destruct (e_est E 0 q s) as [[s' zs] v]. destruct (accurate zeros q zs v) eqn:A.
  - destruct zs as [|z zs]; [|discriminate]. destruct v as [m|e]; [|discriminate].
    exists s', [], m. split; [reflexivity|]. split; [apply Qle_bool_iff, A|]. intros c [].
  - do 3 eexists. split; [reflexivity|]. split; [|intros c []]. cbn [re fst].
    setoid_replace (inject_Z (Z.of_nat (count zeros q)) - inject_Z (Z.of_nat (count zeros q)))%Q with 0%Q by ring.
    discriminate.
Qed.

Lemma repaired_env_for {S} (E : env S) zeros x : env_for (repaired zeros E) x = repaired zeros (env_for E x).
Proof. reflexivity. Qed.

Section Agree.
  Context {S : Type} (tight : Prop).
  (** Two computations agree from [s], or the first one raises IndexError. *)
  Definition agree {A} (m m' : @M S A) (s : S) (Q : A -> S -> Prop) : Prop :=
    (exists s' l, m s = (s', l, Raised IndexError) /\ tight) \/
    (m s = m' s /\ forall a s' l, m s = (s', l, Done a) -> Q a s').

  Lemma agree_bind {A B} (m m' : @M S A) (k k' : A -> @M S B) s Q Q' : agree m m' s Q ->
    (forall a s', Q a s' -> agree (k a) (k' a) s' Q') -> agree (mbind m k) (mbind m' k') s Q'.
  Proof.
    intros [(s' & l & H & T)|[H HQ]] HK; unfold agree, mbind.
    - left. rewrite H. eauto.
    - rewrite <- H. destruct (m s) as [[s1 l1] [a|e|]] eqn:E; [| |].
      2:{ right. split; [reflexivity|]. intros; discriminate. }
      2:{ right. split; [reflexivity|]. intros; discriminate. }
      destruct (HK a s1 (HQ a s1 l1 eq_refl)) as [(s' & l & H1 & T)|[H1 HQ1]].
      + left. rewrite H1. eauto.
      + right. rewrite <- H1. destruct (k a s1) as [[s2 l2] o]. split; [reflexivity|].
        intros b s' l X. injection X as <- <- ->. exact (HQ1 b s2 l2 eq_refl).
  Qed.
  Lemma agree_seq {A B} (m m' : @M S A) (k k' : @M S B) s Q Q' : agree m m' s Q ->
    (forall a s', Q a s' -> agree k k' s' Q') -> agree (mseq m k) (mseq m' k') s Q'.
  Proof. intros H HK. apply (agree_bind m m' _ _ s Q Q' H HK). Qed.
  Lemma agree_same {A} (m : @M S A) s (Q : A -> S -> Prop) : (forall a s' l, m s = (s', l, Done a) -> Q a s') -> agree m m s Q.
  Proof. intro H. right. split; [reflexivity|exact H]. Qed.
  Lemma agree_weaken {A} (m m' : @M S A) s (Q Q' : A -> S -> Prop) : (forall a s', Q a s' -> Q' a s') ->
    agree m m' s Q -> agree m m' s Q'.
  Proof. intros H [X|[X HQ]]; [left; exact X|right]. split; [exact X|]. intros a s' l E. apply H, (HQ a s' l E). Qed.
End Agree.

Section Search.
  Context {S : Type}.
  Variables (zeros : list point) (P : Z * Z) (R0 : rect) (E : env S) (tight : Prop) (v : variant).
  Hypothesis HV : v <> PolyV.
  Hypothesis HP : e_precision E = P.
  Notation cell := (cell P R0).
  Variable inv : (path -> eidx -> Prop) -> (path -> Prop) -> S -> Prop.
  Hypothesis inv_moment : forall D F s p, inv D F s -> ready R0 P D F p ->
    (exists s' m, e_est E 0 (cell p) s = (s', [], Ok m) /\ accurate zeros (cell p) [] (Ok m) = true /\
       inv (fun q j => D q j \/ q = p) F s') \/
    (exists s', e_est E 0 (cell p) s = (s', [], Err IndexError) /\ tight).
  Hypothesis inv_rm : forall D F s q j, inv D F s ->
    inv D (fun c' => F c' \/ c' = q) (e_rm E (fst (ekey (cell q) j)) (snd (ekey (cell q) j)) s).
  Notation E' := (repaired zeros E).

  (** Cell [p] has been evaluated, nothing below it. *)
  Record evaluated (D : path -> eidx -> Prop) (F : path -> Prop) (p : path) : Prop := mkEvaluated {
    ev_valid : vpath R0 P p;
    ev_in : forall j, D p j;
    ev_fresh : forall rh j, D (rh ++ p) j -> rh = [];
    ev_finished : forall c, F c -> ~ nested c p
  }.
  Definition below (p q : path) : Prop := exists b rh, q = rh ++ b :: p.
  Definition after (D : path -> eidx -> Prop) (F : path -> Prop) (p : path) (s : S) : Prop :=
    exists D' F', inv D' F' s /\ (forall q j, D q j -> D' q j) /\
      (forall q j, D' q j -> D q j \/ below p q) /\ (forall q, F' q -> F q \/ below p q).

  Lemma moment_agree D F p s : inv D F s -> ready R0 P D F p ->
    agree tight (calcMoment E 0 (cell p)) (calcMoment E' 0 (cell p)) s
      (fun _ s' => inv (fun q j => D q j \/ q = p) F s').
  Proof.
    intros HI HR. unfold agree, calcMoment. cbn [e_est repaired].
    destruct (inv_moment D F s p HI HR) as [(s' & m & H1 & H2 & H3)|(s' & H1 & H2)]; rewrite H1.
    - right. rewrite H2. split; [reflexivity|]. intros a s2 l X. injection X as <- _ _. exact H3.
    - left. cbn [map app]. eauto.
  Qed.
  Lemma refined_agree D F p s : inv D F s -> ready R0 P D F p ->
    agree tight (calculateRefinedMoment E (cell p)) (calculateRefinedMoment E' (cell p)) s
      (fun _ s' => inv (fun q j => D q j \/ q = p) F s').
  Proof.
    intros HI HR. unfold calculateRefinedMoment.
    apply (agree_bind tight _ _ _ _ s _ _ (moment_agree D F p s HI HR)).
    intros a s' HI'. apply agree_same. intros b s2 l X. injection X as <- _ _. exact HI'.
  Qed.

  Lemma app_same {A} (a b : list A) : a ++ b = b -> a = [].
  Proof.
    intro H. apply (f_equal (@List.length A)) in H. rewrite app_length in H. destruct a; [reflexivity|cbn in H; lia].
  Qed.

  Lemma path_split (b b' : bool) (rh rh' p : path) : rh ++ b :: p = rh' ++ b' :: p -> b = b' /\ rh = rh'.
  Proof.
    intro H. change (b :: p) with ([b] ++ p) in H. change (b' :: p) with ([b'] ++ p) in H.
    rewrite !app_assoc in H. apply app_inv_tail in H. apply app_inj_tail in H. destruct H; auto.
  Qed.

  Lemma nested_down b c p : nested c (b :: p) -> nested c p.
  Proof.
    intros [[rh H]|[rh H]].
    - left. exists (rh ++ [b]). rewrite <- app_assoc. exact H.
    - destruct rh as [|b' rh]; cbn in H.
      + left. exists [b]. symmetry. exact H.
      + injection H as -> H. right. exists rh. exact H.
  Qed.
  Lemma below_other b b' c p : b <> b' -> (c = b :: p \/ below (b :: p) c) -> ~ nested c (b' :: p).
  Proof.
    intros N HC. assert (X : exists rh, c = rh ++ b :: p).
    { destruct HC as [->|(b2 & rh & ->)]; [exists []; reflexivity|]. exists (rh ++ [b2]). rewrite <- app_assoc. reflexivity. }
    destruct X as [rh ->]. intros [[rh' H]|[rh' H]].
    - apply path_split in H. tauto.
    - rewrite app_assoc in H. change (b' :: p) with ([] ++ b' :: p) in H. apply path_split in H. destruct H. congruence.
  Qed.

  (** The two halves of a cell, one after the other. *)
  Lemma halves_agree self p D F s (j0 j1 : eidx) :
    let self0 := fun q => decideRefinement E v self q in
    let self1 := fun q => decideRefinement E' v self q in
    (forall p D F s phi, inv D F s -> evaluated D F p ->
       agree tight (self0 (cell p) phi) (self1 (cell p) phi) s (fun _ s' => after D F p s')) ->
    inv D F s -> evaluated D F p -> ~ sub_tolerance P (cell p) ->
    let k0 := ekey (cell (false :: p)) j0 in let k1 := ekey (cell (true :: p)) j1 in
    let run E self :=
      mbind (calculateRefinedMoment E (cell (false :: p))) (fun phi1 =>
      mseq (self (cell (false :: p)) phi1) (
      mseq (cacheRemove E (fst k0) (snd k0)) (
      mbind (calculateRefinedMoment E (cell (true :: p))) (fun phi2 =>
      mseq (self (cell (true :: p)) phi2)
           (cacheRemove E (fst k1) (snd k1)))))) in
    agree tight (run E self0) (run E' self1) s (fun _ s' => after D F p s').
  Proof.
    intros self0 self1 IH HI HE HS k0 k1 run. unfold run.
    destruct HE as [V1 V2 V3 V4].
    assert (RD : forall b, ready R0 P D F (b :: p)).
    { intro b. split.
      - split; assumption.
      - intros b' p' X j. injection X as _ <-. apply V2.
      - intros rh j H. change (rh ++ b :: p) with (rh ++ [b] ++ p) in H. rewrite app_assoc in H.
        apply V3 in H. destruct rh; discriminate.
      - intros c Fc Nc. exact (V4 c Fc (nested_down b c p Nc)). }
    apply (agree_bind tight _ _ _ _ s _ _ (refined_agree D F (false :: p) s HI (RD false))).
    intros phi1 s1 HI1. cbv beta in HI1.
    set (D1 := fun q j => D q j \/ q = false :: p) in *.
    assert (EV1 : evaluated D1 F (false :: p)).
    { split.
      - split; assumption.
      - intro j. right. reflexivity.
      - intros rh j [H|H]; [exact (r_fresh _ _ _ _ _ (RD false) rh j H)|exact (app_same _ _ H)].
      - exact (r_finished _ _ _ _ _ (RD false)). }
    apply (agree_seq tight _ _ _ _ s1 _ _ (IH (false :: p) D1 F s1 phi1 HI1 EV1)).
    intros _ s2 (D2 & F2 & HI2 & M1 & M2 & M3).
    apply (agree_seq tight (cacheRemove E (fst k0) (snd k0)) (cacheRemove E' (fst k0) (snd k0)) _ _ s2
      (fun _ s' => inv D2 (fun c => F2 c \/ c = false :: p) s')).
    { apply agree_same. intros a s' l X. injection X as <- _ _. exact (inv_rm D2 F2 s2 (false :: p) j0 HI2). }
    intros _ s3 HI3. set (F3 := fun c => F2 c \/ c = false :: p) in *.
    assert (RD3 : ready R0 P D2 F3 (true :: p)).
    { split.
      - split; assumption.
      - intros b' p' X j. injection X as _ <-. apply M1. left. apply V2.
      - intros rh j H. apply M2 in H. destruct H as [[H|H]|(b & rh' & H)].
        + exact (r_fresh _ _ _ _ _ (RD true) rh j H).
        + change (false :: p) with ([] ++ false :: p) in H. apply path_split in H. destruct H; discriminate.
        + change (rh' ++ b :: false :: p) with (rh' ++ [b] ++ false :: p) in H. rewrite app_assoc in H.
          apply path_split in H. destruct H; discriminate.
      - intros c [Fc|Fc].
        + apply M3 in Fc. destruct Fc as [Fc|Fc]; [exact (r_finished _ _ _ _ _ (RD true) c Fc)|].
          apply (below_other false true c p); [discriminate|right; exact Fc].
        + apply (below_other false true c p); [discriminate|left; exact Fc]. }
    apply (agree_bind tight _ _ _ _ s3 _ _ (refined_agree D2 F3 (true :: p) s3 HI3 RD3)).
    intros phi2 s4 HI4. cbv beta in HI4. set (D4 := fun q j => D2 q j \/ q = true :: p) in *.
    assert (EV4 : evaluated D4 F3 (true :: p)).
    { split.
      - split; assumption.
      - intro j. right. reflexivity.
      - intros rh j [H|H]; [exact (r_fresh _ _ _ _ _ RD3 rh j H)|exact (app_same _ _ H)].
      - exact (r_finished _ _ _ _ _ RD3). }
    apply (agree_seq tight _ _ _ _ s4 _ _ (IH (true :: p) D4 F3 s4 phi2 HI4 EV4)).
    intros _ s5 (D5 & F5 & HI5 & N1 & N2 & N3).
    apply agree_same. intros a s6 l X. injection X as <- _ _.
    exists D5, (fun c => F5 c \/ c = true :: p). split; [exact (inv_rm D5 F5 s5 (true :: p) j1 HI5)|].
    assert (B0 : forall b, below p (b :: p)) by (intro b; exists b, []; reflexivity).
    assert (B1 : forall b q, below (b :: p) q -> below p q).
    { intros b q (b' & rh & ->). exists b, (rh ++ [b']). rewrite <- app_assoc. reflexivity. }
    split; [|split].
    - intros q j H. apply N1. left. apply M1. left. exact H.
    - intros q j H. apply N2 in H. destruct H as [[H| ->]|H]; [|right; apply B0|right; exact (B1 _ _ H)].
      apply M2 in H. destruct H as [[H| ->]|H]; [left; exact H|right; apply B0|right; exact (B1 _ _ H)].
    - intros q [H| ->]; [|right; apply B0]. apply N3 in H.
      destruct H as [[H| ->]|H]; [|right; apply B0|right; exact (B1 _ _ H)].
      apply M3 in H. destruct H as [H|H]; [left; exact H|right; exact (B1 _ _ H)].
  Qed.

  Lemma after_self D F p s : inv D F s -> after D F p s.
  Proof. intro H. exists D, F. split; [exact H|]. split; [auto|]. split; auto. Qed.

  Lemma simple_agree fuel :
    (forall p D F s phi, inv D F s -> evaluated D F p ->
       agree tight (decideRefinement E v fuel (cell p) phi) (decideRefinement E' v fuel (cell p) phi) s (fun _ s' => after D F p s')) ->
    forall p D F s phi, inv D F s -> evaluated D F p ->
    agree tight (decide_simple E (decideRefinement E v fuel) (cell p) phi)
      (decide_simple E' (decideRefinement E' v fuel) (cell p) phi) s (fun _ s' => after D F p s').
  Proof.
    intros IH p D F s phi HI HE. unfold decide_simple.
    change (epsRe E') with (epsRe E). change (epsIm E') with (epsIm E).
    change (advance E') with (advance E). change (getRootFromRectangle E') with (getRootFromRectangle E).
    destruct (Qltb phi TWO_PI).
    { apply agree_same. intros a s' l X. unfold mseq, mbind, emit, advance in X. injection X as <- _ _. apply after_self, HI. }
    unfold epsRe, epsIm. rewrite HP.
    destruct (Qltb (deltaRe (cell p)) (pow10 (- fst P)) && Qltb (deltaIm (cell p)) (pow10 (- snd P))) eqn:ST.
    { apply agree_same. intros a s' l X. unfold getRootFromRectangle, mseq, mbind, emit, advance in X.
      injection X as <- _ _. apply after_self, HI. }
    assert (NS : ~ sub_tolerance P (cell p)).
    { intros [S1 S2]. apply andb_false_iff in ST. unfold deltaRe, deltaIm in ST.
      destruct ST as [ST|ST]; apply Qltb_false in ST; Lqa.lra. }
    assert (WB : Qltb (deltaIm (cell p) / pow10 (- snd P)) (deltaRe (cell p) / pow10 (- fst P)) = wider_b P (cell p)) by reflexivity.
    rewrite WB. destruct (wider_b P (cell p)) eqn:W.
    + pose proof (halves_agree fuel p D F s EL ER IH HI HE NS) as HA. cbn zeta in HA.
      cbn [Whole_Grid.cell] in HA. unfold child in HA. rewrite W in HA. exact HA.
    + pose proof (halves_agree fuel p D F s EB ET IH HI HE NS) as HA. cbn zeta in HA.
      cbn [Whole_Grid.cell] in HA. unfold child in HA. rewrite W in HA. exact HA.
  Qed.

  Lemma newton_branch_state q phi s s' l a : newton_branch E q phi s = (s', l, Done a) -> s' = s.
  Proof.
    unfold newton_branch, mseq, mbind, emit, advance, ret, raise.
    destruct (e_secant E _ _) as [z|e].
    - destruct (e_has_df E).
      + destruct (e_newton E _) as [w|[]]; intro X; first [discriminate|injection X as <- _ _; reflexivity].
      + intro X. injection X as <- _ _. reflexivity.
    - destruct e; intro X; first [discriminate|injection X as <- _ _; reflexivity].
  Qed.

  Lemma decide_agree fuel : forall p D F s phi, inv D F s -> evaluated D F p ->
    agree tight (decideRefinement E v fuel (cell p) phi) (decideRefinement E' v fuel (cell p) phi) s
      (fun _ s' => after D F p s').
  Proof.
    induction fuel as [|fuel IH]; intros p D F s phi HI HE.
    - apply agree_same. intros a s' l X. discriminate.
    - pose proof (simple_agree fuel IH p D F s phi HI HE) as HSi. clear IH.
      cbn [decideRefinement]. destruct v; [exact HSi| |congruence].
      unfold decide_newton.
      change (epsRe E') with (epsRe E). change (epsIm E') with (epsIm E).
      change (getRootFromRectangle E') with (getRootFromRectangle E).
      change (newton_branch E') with (newton_branch E).
      destruct (Qltb TWO_PI phi && Qltb (deltaRe (cell p)) (epsRe E) && Qltb (deltaIm (cell p)) (epsIm E)).
      { apply agree_same. intros a s' l X. unfold getRootFromRectangle, mseq, mbind, emit, advance in X.
        injection X as <- _ _. apply after_self, HI. }
      match goal with |- context [if ?c then newton_branch E _ _ else _] => destruct c end; [|exact HSi].
      apply agree_same. intros a s' l X. apply newton_branch_state in X. subst s'. apply after_self, HI.
  Qed.

  Lemma search_agree fuel s0 : inv (fun _ _ => False) (fun _ => False) (if e_dirty E s0 then e_reset E s0 else s0) ->
    (exists s' l, calcRoots E v fuel R0 s0 = (s', l, Raised IndexError) /\ tight) \/
    calcRoots E v fuel R0 s0 = calcRoots E' v fuel R0 s0.
  Proof.
    intro HI. unfold calcRoots. cbn [e_dirty e_reset repaired]. set (s := if e_dirty E s0 then e_reset E s0 else s0) in *.
    assert (RD : ready R0 P (fun _ _ => False) (fun _ => False) []).
    { split; [exact Logic.I|intros; discriminate|intros ? ? []|intros ? []]. }
    destruct (agree_bind tight (calcMoment E 0 R0) (calcMoment E' 0 R0)
      (fun m => decideRefinement E v fuel R0 (re m)) (fun m => decideRefinement E' v fuel R0 (re m)) s _
      (fun _ s' => after (fun q j => False \/ q = []) (fun _ => False) [] s')
      (moment_agree _ _ [] s HI RD)) as [X|[X _]]; [|left; exact X|right; exact X].
    intros m s' HI'. cbv beta in HI'. apply (decide_agree fuel [] _ _ s' (re m) HI').
    split; [exact Logic.I|auto| |intros ? []].
    intros rh j [[]|H]. rewrite app_nil_r in H. exact H.
  Qed.
End Search.
