(** * Plugin discovery: proofs *)
From Verif Require Import PyBase Json_Model Json_Proofs Cli_Model Cli_Spec Cli_Proofs Cli_Proofs2 Locator_Model Locator_Spec Loader_Model Loader_Spec.
Open Scope list_scope.

Lemma dunder_private s : dunder s = true <-> private s.
Proof.
  unfold private. destruct s as [|a [|b s]]; cbn.
  - split; [discriminate|]. intros (t & E). discriminate.
  - split; [discriminate|]. intros (t & E). discriminate.
  - rewrite andb_true_iff, !N.eqb_eq. split; [intros [-> ->]; exists s; reflexivity|]. intros (t & E). injection E as -> -> _. auto.
Qed.
Lemma dunder_false s : dunder s = false <-> ~ private s.
Proof. rewrite <- dunder_private. destruct (dunder s); intuition congruence. Qed.

Theorem discovery listing n : In n (discoverModules listing) <-> In n listing /\ ~ private n.
Proof. unfold discoverModules. rewrite filter_In, negb_true_iff, dunder_false. tauto. Qed.

Lemma last_dot_spec s : match last_dot s with
  | Some (a, b) => s = a ++ b /\ exists e, b = dot :: e /\ ~ In dot e
  | None => ~ In dot s
  end.
Proof.
  induction s as [|c s IH]; cbn [last_dot]; [intros []|]. destruct (last_dot s) as [[a b]|].
  - destruct IH as (-> & e & -> & N). split; [reflexivity|]. exists e. auto.
  - destruct (N.eqb_spec c dot) as [->|N].
    + split; [reflexivity|]. exists s. auto.
    + intros [C|C]; [congruence|contradiction].
Qed.
Lemma last_dot_app a e : ~ In dot e -> last_dot (a ++ dot :: e) = Some (a, dot :: e).
Proof.
  intro N. pose proof (last_dot_spec e) as L. induction a as [|c a IH]; cbn [app last_dot].
  - assert (E : last_dot e = None). { destruct (last_dot e) as [[x y]|] eqn:E; [|reflexivity]. destruct L as (-> & z & -> & _). exfalso. apply N. apply in_or_app. right. left. reflexivity. }
    rewrite E. reflexivity.
  - rewrite IH. reflexivity.
Qed.
Lemma nodots_iff a : existsb (fun c => negb (N.eqb c dot)) a = true <-> exists c, In c a /\ c <> dot.
Proof.
  rewrite existsb_exists. split; intros (c & HI & H); exists c; (split; [exact HI|]).
  - apply negb_true_iff, N.eqb_neq in H. exact H.
  - apply negb_true_iff, N.eqb_neq. exact H.
Qed.
Lemma nocase_py e : nocase e (txt "py") -> ~ In dot e.
Proof.
  intros H C. inversion H as [|x y l l' H1 H2]; subst. inversion H2 as [|x2 y2 l2 l2' H3 H4]; subst. inversion H4; subst.
  unfold same_letter, dot in *. destruct C as [C|[C|[]]]; subst; cbn in *; lia.
Qed.
Lemma lower_py low ext : ascii ext -> lower low (dot :: ext) = txt ".py" <-> nocase ext (txt "py").
Proof.
  intro A. change (lower low (dot :: ext)) with (dot :: lower low ext). change (txt ".py") with (dot :: txt "py").
  rewrite <- (lower_nocase low ext (txt "py") A); [|apply ascii_txt; reflexivity|reflexivity]. split; [intro H; injection H as H; exact H|intros ->; reflexivity].
Qed.
Lemma ascii_app_inv a b : ascii (a ++ b) -> ascii a /\ ascii b.
Proof. intro H. apply Forall_app in H. exact H. Qed.

Theorem candidate low n : ascii n -> n <> txt "__init__.py" ->
  (forall stem, python_file n stem -> isPyFile low n = dot :: stem) /\
  ((forall stem, ~ python_file n stem) -> isPyFile low n = []).
Proof.
  intros A NI. unfold isPyFile. destruct (text_eqb n (txt "__init__.py")) eqn:E; [apply text_eqb_eq in E; contradiction|]. clear E. split.
  - intros stem ((ext & E & NC) & ND). change (txt "." ++ ext) with (dot :: ext) in E. subst n. unfold splitext. rewrite (last_dot_app stem ext (nocase_py ext NC)).
    rewrite (proj2 (nodots_iff stem) ND). apply ascii_app_inv in A as [_ A]. inversion A; subst. rewrite (proj2 (text_eqb_eq _ _)); [reflexivity|].
    apply lower_py; assumption.
  - intro N. unfold splitext. pose proof (last_dot_spec n) as L. destruct (last_dot n) as [[a b]|]; [|reflexivity].
    destruct L as (-> & e & -> & _). destruct (existsb _ a) eqn:X; [|reflexivity]. apply nodots_iff in X.
    destruct (text_eqb (lower low (dot :: e)) (txt ".py")) eqn:Y; [|reflexivity]. exfalso. apply text_eqb_eq in Y.
    apply ascii_app_inv in A as [_ A]. inversion A; subst. apply lower_py in Y; [|assumption]. apply (N a). split; [exists e; auto|exact X].
Qed.
Lemma python_file_dec n : ascii n -> {stem | python_file n stem} + {forall stem, ~ python_file n stem}.
Proof.
  intro A. pose proof (last_dot_spec n) as L. destruct (last_dot n) as [[a b]|] eqn:LD.
  - destruct (existsb (fun c => negb (N.eqb c dot)) a) eqn:X.
    + destruct (text_eqb (lower (fun _ => []) b) (txt ".py")) eqn:Y.
      * left. exists a. destruct L as (-> & e & -> & _). apply text_eqb_eq in Y. apply nodots_iff in X.
        apply ascii_app_inv in A as [_ A]. inversion A; subst. apply lower_py in Y; [|assumption]. split; [exists e; auto|exact X].
      * right. intros stem ((ext & E & NC) & ND). change (txt "." ++ ext) with (dot :: ext) in E. rewrite E in LD. rewrite (last_dot_app stem ext (nocase_py ext NC)) in LD.
        injection LD as <- <-. subst n. apply ascii_app_inv in A as [_ A]. inversion A; subst.
        rewrite (proj2 (text_eqb_eq _ _)) in Y; [discriminate|]. apply lower_py; assumption.
    + right. intros stem ((ext & E & NC) & ND). change (txt "." ++ ext) with (dot :: ext) in E. rewrite E in LD. rewrite (last_dot_app stem ext (nocase_py ext NC)) in LD.
      injection LD as <- <-. apply nodots_iff in ND. congruence.
  - right. intros stem ((ext & E & NC) & _). apply L. rewrite E. apply in_or_app. right. left. reflexivity.
Qed.
Lemma python_file_unique n s1 s2 : python_file n s1 -> python_file n s2 -> s1 = s2.
Proof.
  intros ((e1 & E1 & N1) & _) ((e2 & E2 & N2) & _). change (txt "." ++ e1) with (dot :: e1) in E1. change (txt "." ++ e2) with (dot :: e2) in E2.
  pose proof (last_dot_app s1 e1 (nocase_py e1 N1)) as L1. pose proof (last_dot_app s2 e2 (nocase_py e2 N2)) as L2. rewrite <- E1 in L1. rewrite <- E2 in L2. congruence.
Qed.

Section Loader.
  Context {T V W : Type}.
  Variable teqb : T -> T -> bool.
  Hypothesis teqb_eq : forall a b, teqb a b = true <-> a = b.
  Variable find_module : text -> res (@module T V W).
  Variable low : N -> text.
  Notation plugin := (@plugin T V W).

  Lemma loadPlugin_spec (m : @module T V W) :
    match loadPlugin m with Some p => has_plugin m p | None => forall p, ~ has_plugin m p end.
  Proof.
    unfold loadPlugin. induction m as [|[n a] m IH].
    - cbn. intros p (pre & name & post & E & _). destruct pre; discriminate.
    - cbn [find fst snd]. destruct (negb (dunder n) && match a with APlugin _ => true | _ => false end)%bool eqn:B.
      + apply andb_true_iff in B as [B1 B2]. apply negb_true_iff, dunder_false in B1. destruct a as [|p|]; try discriminate B2.
        exists [], n, m. split; [reflexivity|]. split; [exact B1|]. intros ? ? [].
      + assert (H : private n \/ forall p', a <> APlugin p').
        { apply andb_false_iff in B as [B|B]; [left; apply negb_false_iff, dunder_private in B; exact B|right; destruct a; [intros; discriminate|discriminate|intros; discriminate]]. }
        destruct (find _ m) as [[n' a']|] eqn:F.
        * destruct a' as [|p|].
          -- exfalso. apply find_some in F as [_ F]. cbn in F. rewrite andb_false_r in F. discriminate.
          -- destruct IH as (pre & name & post & E & N & P). exists ((n, a) :: pre), name, post. split; [rewrite E; reflexivity|]. split; [exact N|].
             intros n1 a1 [E1|HI]; [injection E1 as <- <-; exact H|exact (P n1 a1 HI)].
          -- exfalso. apply find_some in F as [_ F]. cbn in F. rewrite andb_false_r in F. discriminate.
        * intros p (pre & name & post & E & N & P). destruct pre as [|x pre].
          -- injection E as -> -> ->. destruct H as [H|H]; [contradiction|exact (H p eq_refl)].
          -- injection E as <- E. apply (IH p). exists pre, name, post. split; [exact E|]. split; [exact N|]. intros n1 a1 HI. apply P. right. exact HI.
  Qed.
  Lemma has_plugin_unique (m : @module T V W) p p' : has_plugin m p -> has_plugin m p' -> p = p'.
  Proof.
    intros (pre & n & post & E & N & P) (pre' & n' & post' & E' & N' & P').
    assert (H : forall pre pre', pre ++ (n, APlugin p) :: post = pre' ++ (n', APlugin p') :: post' ->
      (forall n a, In (n, a) pre -> private n \/ forall p', a <> APlugin p') -> (forall n a, In (n, a) pre' -> private n \/ forall p', a <> APlugin p') -> p = p').
    { clear -N N'. induction pre as [|x pre IH]; intros [|y pre'] E P P'; cbn in E.
      - injection E as _ E. exact E || (injection E as _ E _; exact E).
      - injection E as <- _. destruct (P' n (APlugin p) (or_introl eq_refl)) as [C|C]; [contradiction|exfalso; exact (C p eq_refl)].
      - injection E as -> _. destruct (P n' (APlugin p') (or_introl eq_refl)) as [C|C]; [contradiction|exfalso; exact (C p' eq_refl)].
      - injection E as -> E. apply (IH pre' E); intros n1 a1 HI; [apply P|apply P']; right; exact HI. }
    subst m. exact (H pre pre' E' P P').
  Qed.

  Definition imp (stem : text) : res (@module T V W) := import_module find_module (dot :: stem) PACKAGE.

  Lemma candidates_spec ns : Forall ascii ns -> forall ps,
    load_candidates find_module low (discoverModules ns) = Ok ps <-> plugins_of imp ns ps.
  Proof.
    induction 1 as [|n ns A Ans IH]; intro ps.
    - cbn. split; [intro H; injection H as <-; constructor|intro H; inversion H; reflexivity].
    - cbn [discoverModules filter]. destruct (dunder n) eqn:D; cbn [negb].
      + apply dunder_private in D. fold (discoverModules ns). rewrite IH. split; [intro H; apply plugins_skip; auto|].
        intro H. inversion H; subst; try contradiction. assumption.
      + apply dunder_false in D. fold (discoverModules ns). cbn [load_candidates].
        assert (NI : n <> txt "__init__.py") by (intro C; apply D; exists (txt "init__.py"); exact C).
        destruct (candidate low n A NI) as [C1 C2]. destruct (python_file_dec n A) as [[stem PF]|NPF].
        * rewrite (C1 stem PF). fold (imp stem). pose proof (python_file_unique n stem) as U. split.
          -- intro H. destruct (imp stem) as [m|] eqn:I; [|discriminate]. cbn [bind] in H. destruct (load_candidates find_module low (discoverModules ns)) as [ps'|] eqn:L; [|discriminate].
             cbn [bind] in H. pose proof (loadPlugin_spec m) as LP. destruct (loadPlugin m) as [p|]; injection H as <-.
             ++ apply (plugins_one imp n stem m p); try assumption. apply IH. reflexivity.
             ++ apply (plugins_none imp n stem m); try assumption. apply IH. reflexivity.
          -- intro H. inversion H as [|? ? ? [C|C]|? stem' m ? ? P1 P2 P3 P4 P5|? stem' m p ? ps' P1 P2 P3 P4 P5]; subst; [contradiction|exfalso; exact (C stem PF)| |];
               rewrite (U stem' PF P2), P3; cbn [bind]; apply IH in P5; rewrite P5; cbn [bind]; pose proof (loadPlugin_spec m) as LP; destruct (loadPlugin m) as [p'|].
             ++ exfalso. exact (P4 p' LP).
             ++ reflexivity.
             ++ rewrite (has_plugin_unique m p' p LP P4). reflexivity.
             ++ exfalso. exact (LP p P4).
        * rewrite (C2 NPF). rewrite IH. split; [intro H; apply plugins_skip; auto|]. intro H. inversion H; subst; try assumption; exfalso; eapply NPF; eassumption.
  Qed.

  Lemma candidates_error ns : Forall ascii ns -> forall n stem e, In n ns -> ~ private n -> python_file n stem -> imp stem = Err e ->
    exists e', load_candidates find_module low (discoverModules ns) = Err e' /\
      exists n' stem', In n' ns /\ ~ private n' /\ python_file n' stem' /\ imp stem' = Err e'.
  Proof.
    induction 1 as [|n0 ns A Ans IH]; intros n stem e HI NP PF I; [destruct HI|].
    assert (LIFT : forall e', (exists n' stem', In n' ns /\ ~ private n' /\ python_file n' stem' /\ imp stem' = Err e') ->
       exists n' stem', In n' (n0 :: ns) /\ ~ private n' /\ python_file n' stem' /\ imp stem' = Err e').
    { intros e' (n' & s' & H1 & H2). exists n', s'. split; [right; exact H1|exact H2]. }
    cbn [discoverModules filter]. fold (discoverModules ns). destruct (dunder n0) eqn:D; cbn [negb].
    - apply dunder_private in D. destruct HI as [<-|HI]; [contradiction|]. destruct (IH n stem e HI NP PF I) as (e' & H1 & H2). exists e'. auto.
    - apply dunder_false in D. cbn [load_candidates].
      assert (NI : n0 <> txt "__init__.py") by (intro C; apply D; exists (txt "init__.py"); exact C).
      destruct (candidate low n0 A NI) as [C1 C2]. destruct (python_file_dec n0 A) as [[stem0 PF0]|NPF].
      + rewrite (C1 stem0 PF0). fold (imp stem0). destruct (imp stem0) as [m|e0] eqn:I0; cbn [bind].
        * destruct HI as [<-|HI]; [rewrite (python_file_unique _ _ _ PF0 PF) in I0; congruence|].
          destruct (IH n stem e HI NP PF I) as (e' & H1 & H2). rewrite H1. exists e'. split; [reflexivity|apply LIFT; exact H2].
        * exists e0. split; [reflexivity|]. exists n0, stem0. split; [left; reflexivity|auto].
      + rewrite (C2 NPF). destruct HI as [<-|HI]; [exfalso; exact (NPF stem PF)|]. destruct (IH n stem e HI NP PF I) as (e' & H1 & H2). exists e'. auto.
  Qed.

  (** Registration. *)
  Lemma register_spec ps : forall is_ fs (l : locator T V W), sealed l = false -> Forall2 (fun p x => works p (fst x) (snd x)) ps (combine is_ fs) ->
    List.length is_ = List.length fs ->
    exists l', register_plugins teqb ps l = (l', Ok is_) /\ singletons l' = singletons l /\ sealed l' = false /\
      forall t, transient_of teqb l' t = match last_for teqb t (combine (map i_type is_) fs) with Some f => Some f | None => transient_of teqb l t end.
  Proof.
    induction ps as [|p ps IH]; intros is_ fs l S H E.
    - inversion H as [HC|]. destruct is_ as [|i is_]; [|destruct fs; discriminate]. destruct fs; [|discriminate E].
      exists l. cbn. auto.
    - destruct is_ as [|i is_]; [inversion H|]. destruct fs as [|f fs]; [inversion H|]. cbn [combine] in H. inversion H as [|? ? ? ? [W1 W2] H2]; subst. cbn [fst snd] in *.
      cbn [register_plugins]. rewrite W1, W2. unfold registerAsTransient. rewrite S. cbn in E.
      destruct (IH is_ fs (mkLocator (dset teqb (i_type i) f (transients l)) (singletons l) false) eq_refl H2 ltac:(lia)) as (l' & R & S1 & S2 & TR).
      rewrite R. cbn [bind]. exists l'. split; [reflexivity|]. split; [exact S1|]. split; [exact S2|].
      intro t. rewrite TR. cbn [map combine last_for]. destruct (last_for teqb t _); [reflexivity|]. unfold transient_of. cbn [transients].
      destruct (teqb t (i_type i)) eqn:ET.
      + apply teqb_eq in ET. subst t. rewrite (dget_dset_same teqb teqb_eq). reflexivity.
      + rewrite (dget_dset_other teqb teqb_eq); [reflexivity|]. intro C. subst. rewrite (proj2 (teqb_eq _ _) eq_refl) in ET. discriminate.
  Qed.
  (** A failing plugin stops the loop; the ones before stay registered. *)
  Lemma register_fail pre p post is_ fs (l : locator T V W) e : sealed l = false -> Forall2 (fun p x => works p (fst x) (snd x)) pre (combine is_ fs) ->
    List.length is_ = List.length fs -> getInstance p = Err e ->
    exists l', register_plugins teqb (pre ++ p :: post) l = (l', Err e) /\ register_plugins teqb pre l = (l', Ok is_).
  Proof.
    intros S H E G. revert is_ fs l S H E. induction pre as [|p0 pre IH]; intros is_ fs l S H E.
    - inversion H as [HC|]. destruct is_; [|destruct fs; discriminate]. exists l. cbn. rewrite G. auto.
    - destruct is_ as [|i is_]; [inversion H|]. destruct fs as [|f fs]; [inversion H|]. cbn [combine] in H. inversion H as [|? ? ? ? [W1 W2] H2]; subst. cbn [fst snd] in *.
      cbn [register_plugins app]. rewrite W1, W2. unfold registerAsTransient. rewrite S. cbn in E.
      destruct (IH is_ fs (mkLocator (dset teqb (i_type i) f (transients l)) (singletons l) false) eq_refl H2 ltac:(lia)) as (l' & R & R').
      rewrite R, R'. exists l'. auto.
  Qed.

  Theorem load_spec ns ps is_ fs (l : locator T V W) : Forall ascii ns -> plugins_of imp ns ps -> sealed l = false ->
    Forall2 (fun p x => works p (fst x) (snd x)) ps (combine is_ fs) -> List.length is_ = List.length fs ->
    exists l', loadPlugins teqb find_module low (Ok tt) (Ok ns) l = (l', Ok is_) /\ singletons l' = singletons l /\ sealed l' = false /\
      forall t, transient_of teqb l' t = match last_for teqb t (combine (map i_type is_) fs) with Some f => Some f | None => transient_of teqb l t end.
  Proof.
    intros A P S F E. unfold loadPlugins, locateAndLoadPlugins. cbn [bind]. rewrite (proj2 (candidates_spec ns A ps) P). exact (register_spec ps is_ fs l S F E).
  Qed.
  Theorem load_error ns n stem e (l : locator T V W) : Forall ascii ns -> In n ns -> ~ private n -> python_file n stem -> imp stem = Err e ->
    exists e', loadPlugins teqb find_module low (Ok tt) (Ok ns) l = (l, Err e') /\
      exists n' stem', In n' ns /\ ~ private n' /\ python_file n' stem' /\ imp stem' = Err e'.
  Proof.
    intros A HI NP PF I. destruct (candidates_error ns A n stem e HI NP PF I) as (e' & H1 & H2). exists e'. split; [|exact H2].
    unfold loadPlugins, locateAndLoadPlugins. cbn [bind]. rewrite H1. reflexivity.
  Qed.

  (** ** The package name *)
  Lemma level_dot stem : level (dot :: stem) = S (level stem).
  Proof. reflexivity. Qed.
  Lemma imp_missing stem : find_module (txt "pyzeal_plugins") = Err ModuleNotFoundError ->
    imp stem = Err ModuleNotFoundError \/ imp stem = Err ImportError.
  Proof.
    intro F. unfold imp, import_module. change (split_dot PACKAGE) with [txt "pyzeal_plugins"; txt "custom_plugins"].
    rewrite level_dot. cbn [List.length]. destruct (level stem) as [|[|lv]].
    - cbn [Nat.ltb Nat.leb Nat.sub firstn app import_chain]. cbn [join_dot app]. rewrite F. left. reflexivity.
    - cbn [Nat.ltb Nat.leb Nat.sub firstn app import_chain]. left. destruct (split_dot _) as [|w ws]; cbn [app join_dot]; rewrite F; reflexivity.
    - right. reflexivity.
  Qed.
  Theorem never_loads ns (l : locator T V W) : find_module (txt "pyzeal_plugins") = Err ModuleNotFoundError -> Forall ascii ns ->
    ((exists n stem, In n ns /\ ~ private n /\ python_file n stem) ->
       exists e, loadPlugins teqb find_module low (Ok tt) (Ok ns) l = (l, Err e) /\ (e = ModuleNotFoundError \/ e = ImportError)) /\
    ((forall n stem, In n ns -> private n \/ ~ python_file n stem) -> loadPlugins teqb find_module low (Ok tt) (Ok ns) l = (l, Ok [])).
  Proof.
    intros F A. split.
    - intros (n & stem & HI & NP & PF). destruct (imp_missing stem F) as [I|I];
        destruct (load_error ns n stem _ l A HI NP PF I) as (e' & R & n' & stem' & _ & _ & _ & I'); exists e'; (split; [exact R|]);
        destruct (imp_missing stem' F) as [I2|I2]; rewrite I2 in I'; injection I' as <-; auto.
    - intro H. assert (P : plugins_of imp ns []).
      { clear A. induction ns as [|n ns IH]; [constructor|]. apply plugins_skip.
        - destruct (dunder n) eqn:D; [left; apply dunder_private; exact D|]. right. intros stem PF. apply dunder_false in D.
          destruct (H n stem (or_introl eq_refl)); contradiction.
        - apply IH. intros n' stem HI. apply H. right. exact HI. }
      unfold loadPlugins, locateAndLoadPlugins. cbn [bind]. rewrite (proj2 (candidates_spec ns A []) P). reflexivity.
  Qed.
End Loader.

(** With a module named as the package says. *)
Lemma imp_plain {T V W} (find_module : text -> res (@module T V W)) stem m1 m2 m : stem <> [] -> ~ In dot stem ->
  find_module (txt "pyzeal_plugins") = Ok m1 -> find_module PACKAGE = Ok m2 -> find_module (PACKAGE ++ txt "." ++ stem) = Ok m ->
  imp find_module stem = Ok m.
Proof.
  intros NE ND F1 F2 F. unfold imp, import_module. change (split_dot PACKAGE) with [txt "pyzeal_plugins"; txt "custom_plugins"].
  rewrite level_dot. assert (L : level stem = O). { destruct stem as [|c s]; [contradiction|]. cbn. destruct (N.eqb_spec c dot) as [->|_]; [exfalso; apply ND; left; reflexivity|reflexivity]. }
  rewrite L. cbn [List.length Nat.ltb Nat.leb Nat.sub firstn skipn app].
  assert (SD : split_dot stem = [stem]).
  { clear -ND. induction stem as [|c s IH]; [reflexivity|]. cbn. destruct (N.eqb_spec c dot) as [->|N]; [exfalso; apply ND; left; reflexivity|].
    rewrite IH; [reflexivity|]. intro C. apply ND. right. exact C. }
  rewrite SD. cbn [import_chain app join_dot]. rewrite F1. cbn [bind]. change (txt "pyzeal_plugins" ++ dot :: txt "custom_plugins") with PACKAGE. rewrite F2. cbn [bind].
  change (txt "pyzeal_plugins" ++ dot :: txt "custom_plugins" ++ dot :: stem) with (PACKAGE ++ txt "." ++ stem). rewrite F. reflexivity.
Qed.

(** ** The loader instance, printing *)
Lemma discovery_order l1 l2 : discoverModules (l1 ++ l2) = discoverModules l1 ++ discoverModules l2.
Proof. apply filter_app. Qed.
Lemma instances_distinct n fresh : NoDup (instances n None fresh).
Proof.
  assert (G : forall n fresh i, In i (instances n None fresh) -> (fresh <= i)%nat).
  { induction n0 as [|n0 IH]; intros f i; cbn; [intros []|]. intros [<-|H]; [lia|]. apply IH in H. lia. }
  revert fresh. induction n as [|n IH]; intro fresh; cbn; constructor; [|apply IH]. intro C. apply G in C. lia.
Qed.
Lemma str_shape {T} digits (i : @instance T) : exists name rest, plugin_str digits i = name ++ rest /\ List.length name = 30%nat /\
  (forall k c, nth_error name k = Some c -> nth_error (i_name i) k = Some c \/ c = 32%N /\ (List.length (i_name i) <= k)%nat) /\
  (forall k, (k < 30)%nat -> forall c, nth_error (i_name i) k = Some c -> nth_error name k = Some c) /\ 
  exists a b c, i_version i = (a, b, c) /\ rest = txt "  @ v" ++ digits a ++ txt "." ++ digits b ++ txt "." ++ digits c.
Proof.
  unfold plugin_str. destruct (i_version i) as [[a b] c] eqn:V. set (nm := i_name i). 
  assert (LF : List.length (firstn (Nat.min (List.length nm) 30) nm) = Nat.min (List.length nm) 30) by (rewrite firstn_length; lia).
  exists (pad 30 (firstn (Nat.min (List.length nm) 30) nm)). eexists. split; [reflexivity|]. split; [|split; [|split]].
  - unfold pad. rewrite app_length, repeat_length, LF. lia.
  - intros k ch H. unfold pad in H. destruct (Nat.lt_ge_cases k (Nat.min (List.length nm) 30)) as [L|L].
    + rewrite nth_error_app1 in H by lia. left. clear -H L. revert k H L. generalize (Nat.min (List.length nm) 30). induction nm as [|x nm IH]; intros m k H L.
      * rewrite firstn_nil in H. exact H.
      * destruct m; [lia|]. destruct k; cbn in *; [exact H|]. apply (IH m); [exact H|lia].
    + rewrite nth_error_app2 in H by lia. right. assert (HI : In ch (repeat 32%N (30 - List.length (firstn (Nat.min (List.length nm) 30) nm)))) by (eapply nth_error_In; exact H).
      apply repeat_spec in HI. split; [exact HI|]. apply nth_error_Some_lt in H || (assert (X : nth_error (repeat 32%N (30 - List.length (firstn (Nat.min (List.length nm) 30) nm))) (k - List.length (firstn (Nat.min (List.length nm) 30) nm)) <> None) by congruence; apply nth_error_Some in X; rewrite repeat_length, LF in X; lia).
  - intros k L ch H. assert (X : nth_error nm k <> None) by congruence. apply nth_error_Some in X. unfold pad. rewrite nth_error_app1 by lia.
    clear -H L X. assert (L2 : (k < Nat.min (List.length nm) 30)%nat) by lia. clear L X. revert k H L2. generalize (Nat.min (List.length nm) 30).
    induction nm as [|x nm IH]; intros m k H L; [destruct k; discriminate|]. destruct m; [lia|]. destruct k; cbn in *; [exact H|]. apply IH; [exact H|lia].
  - exists a, b, c. auto.
Qed.
