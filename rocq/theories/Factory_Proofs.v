(** * Factories: proofs *)
From Verif Require Import PyBase Json_Model Settings_Model Settings_Spec Settings_Proofs Settings_Proofs3 Factory_Model Factory_Spec.
Open Scope Z_scope.

Lemma logged_ok s : has_level s -> logged (Ok s) = Ok s.
Proof. intros [l H]. unfold logged. cbn [bind]. rewrite H. reflexivity. Qed.
Lemma factory_logger_ok ready s : has_level s -> factory_logger ready (Ok s) = Ok tt.
Proof. intro H. unfold factory_logger. rewrite (logged_ok s H). destruct ready; reflexivity. Qed.

(** ** Containers *)
Definition container_for (s : service) (p : pyval) (q : option nat) (o : container_obj) : Prop :=
  match o with RoundingC p' => p' = if truthy p then p else get KPrecision s | PlainC q' => q' = q end.
Lemma container_concrete depth ready s v p q : has_level s -> concrete_container v = true ->
  exists o, getConcreteContainer (S depth) ready (Ok s) v p q = Ok o /\ container_type o = v /\ container_for s p q o.
Proof.
  intros L C. cbn [getConcreteContainer]. rewrite (factory_logger_ok ready s L). cbn [bind].
  destruct v as [|?|c| | | |]; try discriminate C. destruct c; try discriminate C.
  - unfold new_rounding, py_or. rewrite (logged_ok s L). destruct (truthy p) eqn:E; eexists; (split; [reflexivity|split; [reflexivity|]]);
      unfold container_for; rewrite E; reflexivity.
  - unfold new_plain. rewrite (logged_ok s L). eexists. split; [reflexivity|]. split; reflexivity.
Qed.
Lemma container_default depth ready s v p q : has_level s -> concrete_container v = false ->
  getConcreteContainer (S depth) ready (Ok s) v p q = getConcreteContainer depth true (Ok s) (get KContainer s) p q.
Proof.
  intros L C. cbn [getConcreteContainer]. rewrite (factory_logger_ok ready s L). cbn [bind].
  destruct v as [|?|c| | | |]; try reflexivity. destruct c; try discriminate C. reflexivity.
Qed.
Theorem container_request depth ready s v p q : has_level s -> (2 <= depth)%nat ->
  concrete_container (meant concrete_container KContainer s v) = true ->
  exists o, getConcreteContainer depth ready (Ok s) v p q = Ok o /\ container_type o = meant concrete_container KContainer s v /\
    match o with RoundingC p' => p' = if truthy p then p else get KPrecision s | PlainC q' => q' = q end.
Proof.
  intros L D C. unfold meant in *. destruct depth as [|[|depth]]; try lia. destruct (concrete_container v) eqn:E.
  - exact (container_concrete (S depth) ready s v p q L E).
  - rewrite (container_default (S depth) ready s v p q L E). exact (container_concrete depth true s _ p q L C).
Qed.
Theorem container_diverges depth : forall ready s v p q, has_level s ->
  concrete_container (meant concrete_container KContainer s v) = false ->
  getConcreteContainer depth ready (Ok s) v p q = Err RecursionError.
Proof.
  induction depth as [|depth IH]; intros ready s v p q L C; [reflexivity|]. unfold meant in C.
  destruct (concrete_container v) eqn:E; [congruence|]. rewrite (container_default depth ready s v p q L E).
  apply IH; [exact L|]. unfold meant. rewrite C. exact C.
Qed.

(** ** Estimators *)
Lemma estimator_concrete depth ready s v c a b d : has_level s -> concrete_estimator v = true ->
  exists o, getConcreteEstimator (S depth) ready (Ok s) v c (Some a) (Some b) (Some d) = Ok o /\ estimator_type o = v /\
    estimator_cache o = c /\ match o with SumE a' b' d' _ => a' = a /\ b' = b /\ d' = d | QuadE _ => True end.
Proof.
  intros L C. cbn [getConcreteEstimator]. rewrite (factory_logger_ok ready s L). cbn [bind].
  destruct v as [| | | |e| |]; try discriminate C. destruct e; try discriminate C; eexists; (split; [reflexivity|]); repeat split.
Qed.
Lemma estimator_default depth ready s v c a b d : has_level s -> concrete_estimator v = false ->
  getConcreteEstimator (S depth) ready (Ok s) v c a b d = getConcreteEstimator depth true (Ok s) (get KEstimator s) c a b d.
Proof.
  intros L C. cbn [getConcreteEstimator]. rewrite (factory_logger_ok ready s L). cbn [bind].
  destruct v as [| | | |e| |]; try reflexivity. destruct e; try discriminate C. reflexivity.
Qed.
Theorem estimator_request depth ready s v c a b d : has_level s -> (2 <= depth)%nat ->
  concrete_estimator (meant concrete_estimator KEstimator s v) = true ->
  exists o, getConcreteEstimator depth ready (Ok s) v c (Some a) (Some b) (Some d) = Ok o /\
    estimator_type o = meant concrete_estimator KEstimator s v /\ estimator_cache o = c /\
    match o with SumE a' b' d' _ => a' = a /\ b' = b /\ d' = d | QuadE _ => True end.
Proof.
  intros L D C. unfold meant in *. destruct depth as [|[|depth]]; try lia. destruct (concrete_estimator v) eqn:E.
  - exact (estimator_concrete (S depth) ready s v c a b d L E).
  - rewrite (estimator_default (S depth) ready s v c _ _ _ L E). exact (estimator_concrete depth true s _ c a b d L C).
Qed.
Theorem estimator_missing_parameters depth ready s v c a b d : has_level s -> (2 <= depth)%nat ->
  meant concrete_estimator KEstimator s v = VEstimator SUMMATION_ESTIMATOR -> a = None \/ b = None \/ d = None ->
  getConcreteEstimator depth ready (Ok s) v c a b d = Err ValueError.
Proof.
  intros L D M N. unfold meant in M. assert (V : match a, b, d with Some a, Some b, Some c0 => Ok (SumE a b c0 c) | _, _, _ => Err ValueError end = Err ValueError)
    by (destruct N as [->|[->| ->]]; [reflexivity|destruct a; reflexivity|destruct a, b; reflexivity]).
  destruct depth as [|[|depth]]; try lia. destruct (concrete_estimator v) eqn:E.
  - subst v. cbn [getConcreteEstimator]. rewrite (factory_logger_ok ready s L). cbn [bind]. exact V.
  - rewrite (estimator_default (S depth) ready s v c a b d L E). rewrite M. cbn [getConcreteEstimator factory_logger bind]. exact V.
Qed.
Theorem estimator_diverges depth : forall ready s v c a b d, has_level s ->
  concrete_estimator (meant concrete_estimator KEstimator s v) = false ->
  getConcreteEstimator depth ready (Ok s) v c a b d = Err RecursionError.
Proof.
  induction depth as [|depth IH]; intros ready s v c a b d L C; [reflexivity|]. unfold meant in C.
  destruct (concrete_estimator v) eqn:E; [congruence|]. rewrite (estimator_default depth ready s v c a b d L E).
  apply IH; [exact L|]. unfold meant. rewrite C. exact C.
Qed.

(** ** Algorithms *)
Definition needs_estimator (v : pyval) : bool := match v with VAlgorithm NEWTON_GRID => false | _ => true end.
Definition algorithm_for (s : service) (c : nat) (et : pyval) (n : option Z) (o : algorithm_obj) : Prop :=
  match o with
  | NewtonGridA k => k = match n with Some k => if Z.eqb k 0 then 50 else k | None => 50 end
  | SimpleA c' e | SimpleNewtonA c' e | PolynomialA c' e =>
      c' = c /\ estimator_cache e = c' /\ estimator_type e = meant concrete_estimator KEstimator s et /\
      match e with SumE a b d _ => a = 6500 /\ b = 1 # 100 /\ d = 1 # 10000000000 | QuadE _ => True end
  end.
Lemma simple_ok depth s c et : has_level s -> (2 <= depth)%nat -> concrete_estimator (meant concrete_estimator KEstimator s et) = true ->
  exists e, new_simple depth (Ok s) c et = Ok e /\ estimator_cache e = c /\ estimator_type e = meant concrete_estimator KEstimator s et /\
    match e with SumE a b d _ => a = 6500 /\ b = 1 # 100 /\ d = 1 # 10000000000 | QuadE _ => True end.
Proof.
  intros L D C. unfold new_simple.
  destruct (estimator_request depth false s et c DEFAULT_NUM_PTS DEFAULT_DELTA_PHI DEFAULT_MAX_PRECISION L D C) as (o & -> & T & K & P).
  cbn [bind]. rewrite (logged_ok s L). cbn [bind]. exists o. auto.
Qed.
Lemma algorithm_concrete depth ready s c v et n : has_level s -> (2 <= depth)%nat -> concrete_algorithm v = true ->
  (needs_estimator v = true -> concrete_estimator (meant concrete_estimator KEstimator s et) = true) ->
  exists o, getConcreteAlgorithm (S depth) ready (Ok s) c v et n = Ok o /\ algorithm_type o = v /\ algorithm_for s c et n o.
Proof.
  intros L D C N. cbn [getConcreteAlgorithm]. rewrite (factory_logger_ok ready s L). cbn [bind].
  destruct v as [| | |a| | |]; try discriminate C.
  assert (G : forall k, new_newton_grid (Ok s) k = Ok (NewtonGridA k)) by (intro k; unfold new_newton_grid; rewrite (logged_ok s L); reflexivity).
  destruct a; try discriminate C;
    try (destruct (simple_ok depth s c et L D (N eq_refl)) as (e & -> & H); cbn [bind]; eexists; split; [reflexivity|]; split; [reflexivity|]; cbn; tauto).
  destruct n as [k|]; [destruct (Z.eqb k 0) eqn:E|]; rewrite G; eexists; (split; [reflexivity|]; split; [reflexivity|]); cbn; rewrite ?E; reflexivity.
Qed.
Lemma algorithm_default depth ready s c v et n : has_level s -> concrete_algorithm v = false ->
  getConcreteAlgorithm (S depth) ready (Ok s) c v et n = getConcreteAlgorithm depth true (Ok s) c (get KAlgorithm s) et n.
Proof.
  intros L C. cbn [getConcreteAlgorithm]. rewrite (factory_logger_ok ready s L). cbn [bind].
  destruct v as [| | |a| | |]; try reflexivity. destruct a; try discriminate C. reflexivity.
Qed.
Theorem algorithm_request depth ready s c v et n : has_level s -> (4 <= depth)%nat ->
  let a := meant concrete_algorithm KAlgorithm s v in
  let e := meant concrete_estimator KEstimator s et in
  concrete_algorithm a = true -> (a <> VAlgorithm NEWTON_GRID -> concrete_estimator e = true) ->
  exists o, getConcreteAlgorithm depth ready (Ok s) c v et n = Ok o /\ algorithm_type o = a /\
    match o with
    | NewtonGridA k => k = match n with Some k => if Z.eqb k 0 then 50 else k | None => 50 end
    | SimpleA c' x | SimpleNewtonA c' x | PolynomialA c' x =>
        c' = c /\ estimator_cache x = c' /\ estimator_type x = e /\
        match x with SumE n dp mp _ => n = 6500 /\ dp = 1 # 100 /\ mp = 1 # 10000000000 | QuadE _ => True end
    end.
Proof.
  intros L D a e C N. subst a e. destruct depth as [|[|depth]]; try lia.
  assert (N' : needs_estimator (meant concrete_algorithm KAlgorithm s v) = true -> concrete_estimator (meant concrete_estimator KEstimator s et) = true)
    by (intro H; apply N; intro Q; rewrite Q in H; discriminate).
  clear N. unfold meant at 1 in N'. unfold meant at 1 in C. unfold meant at 1. destruct (concrete_algorithm v) eqn:E.
  - exact (algorithm_concrete (S depth) ready s c v et n L (ltac:(lia)) E N').
  - rewrite (algorithm_default (S depth) ready s c v et n L E). exact (algorithm_concrete depth true s c _ et n L ltac:(lia) C N').
Qed.
Theorem algorithm_diverges depth : forall ready s c v et n, has_level s ->
  concrete_algorithm (meant concrete_algorithm KAlgorithm s v) = false ->
  getConcreteAlgorithm depth ready (Ok s) c v et n = Err RecursionError.
Proof.
  induction depth as [|depth IH]; intros ready s c v et n L C; [reflexivity|]. unfold meant in C.
  destruct (concrete_algorithm v) eqn:E; [congruence|]. rewrite (algorithm_default depth ready s c v et n L E).
  apply IH; [exact L|]. unfold meant. rewrite C. exact C.
Qed.
Theorem algorithm_diverges_estimator depth : forall ready s c v et n, has_level s ->
  concrete_algorithm (meant concrete_algorithm KAlgorithm s v) = true -> meant concrete_algorithm KAlgorithm s v <> VAlgorithm NEWTON_GRID ->
  concrete_estimator (meant concrete_estimator KEstimator s et) = false ->
  getConcreteAlgorithm depth ready (Ok s) c v et n = Err RecursionError.
Proof.
  assert (A : forall depth ready s c v et n, has_level s -> concrete_algorithm v = true -> v <> VAlgorithm NEWTON_GRID ->
    concrete_estimator (meant concrete_estimator KEstimator s et) = false -> getConcreteAlgorithm (S depth) ready (Ok s) c v et n = Err RecursionError).
  { clear. intros depth ready s c v et n L C N E. cbn [getConcreteAlgorithm]. rewrite (factory_logger_ok ready s L). cbn [bind].
    unfold new_simple. rewrite (estimator_diverges depth false s et c _ _ _ L E). cbn [bind].
    destruct v as [| | |a| | |]; try discriminate C. destruct a; try discriminate C; try reflexivity. contradiction. }
  intros ready s c v et n L C N E. destruct depth as [|depth]; [reflexivity|]. unfold meant in C, N. destruct (concrete_algorithm v) eqn:Q.
  - apply A; assumption.
  - rewrite (algorithm_default depth ready s c v et n L Q). destruct depth as [|depth]; [reflexivity|]. apply A; assumption.
Qed.

(** ** Finders *)
Theorem new_finder_ok depth s c ct at_ et p n vb : has_level s -> (4 <= depth)%nat ->
  let k := meant concrete_container KContainer s ct in
  let a := meant concrete_algorithm KAlgorithm s at_ in
  let e := meant concrete_estimator KEstimator s et in
  concrete_container k = true -> concrete_algorithm a = true -> (a <> VAlgorithm NEWTON_GRID -> concrete_estimator e = true) ->
  exists o, new_finder depth (Ok s) c ct at_ et p n vb = Ok o /\
    container_type (o_container o) = k /\ algorithm_type (o_algorithm o) = a /\
    match algorithm_estimator (o_algorithm o) with
    | Some x => estimator_type x = e /\ algorithm_cache (o_algorithm o) = Some (estimator_cache x)
    | None => a = VAlgorithm NEWTON_GRID
    end /\
    o_precision o = (if truthy p then p else get KPrecision s) /\
    match o_container o with RoundingC p' => p' = o_precision o | PlainC _ => True end /\
    o_verbose o = match vb with Some v => v | None => get KVerbose s end.
Proof.
  intros L D k a e CK CA CE. unfold new_finder.
  destruct (algorithm_request depth false s c at_ et n L D CA CE) as (oa & -> & TA & PA). cbn [bind].
  destruct (container_request depth false s ct p None L ltac:(lia) CK) as (oc & -> & TC & PC). cbn [bind].
  unfold py_or. assert (PR : (if truthy p then Ok p else Ok (get KPrecision s)) = Ok (if truthy p then p else get KPrecision s))
    by (destruct (truthy p); reflexivity). rewrite PR. cbn [bind].
  assert (VB : match vb with Some v => Ok v | None => Ok (get KVerbose s) end = Ok match vb with Some v => v | None => get KVerbose s end)
    by (destruct vb; reflexivity). rewrite VB. cbn [bind]. rewrite (logged_ok s L). cbn [bind].
  eexists. split; [reflexivity|]. cbn [o_container o_algorithm o_precision o_verbose].
  split; [exact TC|]. split; [exact TA|]. split; [|split; [reflexivity|split; [|reflexivity]]].
  - fold a in TA. destruct oa as [m|c' x|c' x|c' x]; cbn [algorithm_estimator algorithm_cache].
    + symmetry. exact TA.
    + split; [tauto|]. f_equal. symmetry. tauto.
    + split; [tauto|]. f_equal. symmetry. tauto.
    + split; [tauto|]. f_equal. symmetry. tauto.
  - destruct oc; [exact PC|exact I].
Qed.

Lemma init_level fs s : settings_init fs = Ok s -> has_level s.
Proof.
  unfold settings_init. intro H. destruct (core_init fs) as [x|]; [|discriminate]. cbn [bind] in H.
  destruct (load_settings (default_file fs) []) as [x1|]; [|discriminate]. cbn [bind] in H.
  destruct (load_settings (custom_file fs) x1) as [x2|]; [|discriminate]. cbn [bind] in H.
  destruct (index _ x2) as [x3|]; [|discriminate]. cbn [bind] in H. destruct (init_precision _) as [x4|]; [|discriminate]. cbn [bind] in H.
  destruct (find_level x3) as [l|]; [|discriminate]. destruct (init_verbose _); [|discriminate]. destruct x4; [|discriminate].
  injection H as <-. exists l. reflexivity.
Qed.

(** A finder created with defaults in any later session uses the last accepted settings. *)
Theorem finder_after_history fs s0 h depth c : files_ok fs -> settings_init fs = Ok s0 -> (4 <= depth)%nat ->
  let v k := match last_accepted k (rev h) with Some v => v | None => get k s0 end in
  concrete_container (v KContainer) = true -> concrete_algorithm (v KAlgorithm) = true -> concrete_estimator (v KEstimator) = true ->
  exists o, new_finder depth (settings_init (files_after h fs)) c (VContainer DEFAULT_CONTAINER) (VAlgorithm DEFAULT_ALGORITHM)
              (VEstimator DEFAULT_ESTIMATOR) py_none None None = Ok o /\
    container_type (o_container o) = v KContainer /\ algorithm_type (o_algorithm o) = v KAlgorithm /\
    (forall e, algorithm_estimator (o_algorithm o) = Some e -> estimator_type e = v KEstimator) /\
    o_precision o = v KPrecision /\ o_verbose o = v KVerbose.
Proof.
  intros FO H D v CK CA CE. destruct (settings_persist fs s0 h FO H) as (s & -> & G).
  assert (L : has_level s).
  { destruct (settings_persist fs s0 h FO H) as (s' & I & G'). assert (s' = s) by (apply service_ext; intro k; rewrite G, G'; reflexivity).
    subst s'. exact (init_level _ _ I). }
  assert (GV : forall k, get k s = v k) by (intro k; rewrite G; reflexivity).
  destruct (new_finder_ok depth s c (VContainer DEFAULT_CONTAINER) (VAlgorithm DEFAULT_ALGORITHM) (VEstimator DEFAULT_ESTIMATOR) py_none None None L D)
    as (o & -> & H1 & H2 & H3 & H4 & H5 & H6); unfold meant; cbn [concrete_container concrete_algorithm concrete_estimator]; rewrite ?GV; try assumption.
  - intros _. assumption.
  - exists o. unfold meant in *. cbn [concrete_container concrete_algorithm concrete_estimator] in *. rewrite !GV in *.
    split; [reflexivity|]. split; [exact H1|]. split; [exact H2|]. split; [|split; [exact H4|exact H6]].
    intros e E. rewrite E in H3. tauto.
Qed.

(** The accepted value DEFAULT as default. *)
Theorem default_default : forall k, In k [KContainer; KAlgorithm; KEstimator] ->
  let dflt := match k with KContainer => VContainer DEFAULT_CONTAINER | KAlgorithm => VAlgorithm DEFAULT_ALGORITHM | _ => VEstimator DEFAULT_ESTIMATOR end in
  snd (set_property k dflt service0 fs0) = Ok tt /\
  forall depth c, new_finder depth (settings_init (files_after [(service0, k, dflt)] fs0)) c (VContainer DEFAULT_CONTAINER)
    (VAlgorithm DEFAULT_ALGORITHM) (VEstimator DEFAULT_ESTIMATOR) py_none None None = Err RecursionError.
Proof.
  intros k HI dflt. assert (A : accepted k dflt = Some dflt) by (subst dflt; destruct HI as [<-|[<-|[<-|[]]]]; reflexivity).
  split; [rewrite (setter_outcome k dflt service0 fs0 []); [rewrite A; reflexivity|reflexivity|exact I]|].
  intros depth c. destruct (settings_persist fs0 service0 [(service0, k, dflt)] fs0_ok fs0_init) as (s & I & G). rewrite I.
  pose proof (init_level _ _ I) as L. unfold new_finder. destruct HI as [<-|[<-|[<-|[]]]]; subst dflt.
  - destruct (Nat.le_gt_cases 4 depth) as [D|D].
    + destruct (algorithm_request depth false s c (VAlgorithm DEFAULT_ALGORITHM) (VEstimator DEFAULT_ESTIMATOR) None L D) as (o & -> & _).
      * unfold meant. cbn [concrete_algorithm]. rewrite G. reflexivity.
      * intros _. unfold meant. cbn [concrete_estimator]. rewrite G. reflexivity.
      * cbn [bind]. rewrite container_diverges; [reflexivity|exact L|]. unfold meant. cbn [concrete_container]. rewrite G. reflexivity.
    + pose proof (G KAlgorithm) as GA. pose proof (G KEstimator) as GE. pose proof (G KContainer) as GC. change (get KAlgorithm s = VAlgorithm SIMPLE_ARGUMENT) in GA. change (get KEstimator s = VEstimator SUMMATION_ESTIMATOR) in GE.
      unfold new_simple. pose proof (factory_logger_ok false s L) as FL. pose proof (factory_logger_ok true s L) as FL'.
      destruct depth as [|[|[|[|depth]]]]; try lia; repeat (progress (cbn [getConcreteAlgorithm getConcreteEstimator bind]; unfold new_simple; rewrite ?FL, ?FL', ?GA, ?GE)); reflexivity.
  - rewrite algorithm_diverges; [reflexivity|exact L|]. unfold meant. cbn [concrete_algorithm]. rewrite G. reflexivity.
  - rewrite algorithm_diverges_estimator; [reflexivity|exact L| | |]; unfold meant; cbn [concrete_algorithm concrete_estimator]; rewrite G; try reflexivity.
    cbn. discriminate.
Qed.
