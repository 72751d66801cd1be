(** Searches with any recursion depth: complete, or RecursionError. *)
From Coq Require Import Reals Qreals Qminmax.
From Verif Require Import PyBase Rounding_Model Container_Model Container_Spec Finder_Model Finder_Spec
  Refine_Model Refine_Spec Refine_Proofs Refine_Proofs2 Refine_Proofs3 Zeros_Spec EndToEnd_Model EndToEnd_Spec EndToEnd_Proofs
  EndToEnd_Proofs2.
Open Scope Z_scope.

Lemma exn_eq_dec (a b : exn) : {a = b} + {a <> b}.
Proof. repeat decide equality. Qed.

Lemma depth_or_same {S} (E : env S) v depth D info s x : (depth <= D)%nat ->
  ar_end (argument_algorithm E v depth info s x) = Some RecursionError \/
  argument_algorithm E v depth info s x = argument_algorithm E v D info s x.
Proof.
  intro H. unfold argument_algorithm.
  destruct (calcRoots (env_for E x) v depth (rect_of x) s) as [[s' l] o] eqn:R.
  destruct o as [t|e|]; [right|right|left; reflexivity].
  - rewrite (C20_fuel _ _ _ _ _ _ _ _ _ H R) by discriminate. reflexivity.
  - rewrite (C20_fuel _ _ _ _ _ _ _ _ _ H R) by discriminate. reflexivity.
Qed.

Lemma C63_any_depth_lemma :
  forall S (E : env S) zeros depth info s f df dflt reRan imRan prec p sp iter,
  let P := search_precision dflt prec in
  let out := calculateRoots f df dflt (argument_algorithm E Simple depth info s) reRan imRan prec (rc_init p sp) in
  iteration_order iter ->
  reliable E zeros P (rect_of (serial_context f df dflt reRan imRan prec)) ->
  snd out = Err RecursionError \/
  (snd out = Ok tt /\
   let pairs := reported_pairs iter (fst out) in
   all_found 1 P zeros reRan imRan pairs /\
   all_genuine 1 P P zeros reRan imRan pairs /\
   (separated 1 P zeros -> orders_right 1 P P zeros reRan imRan pairs) /\
   (separated 2 P zeros -> exactly_once 1 P zeros reRan imRan pairs)).
Proof.
  intros S E zeros depth info s f df dflt reRan imRan prec p sp iter P out HI HR.
  destruct (halvings_exist (Qabs (fst reRan - snd reRan) + 3 * pow10 (- fst P)) _ (pow10_pos (- fst P))) as [a Ha].
  destruct (halvings_exist (Qabs (fst imRan - snd imRan) + 7 * pow10 (- snd P)) _ (pow10_pos (- snd P))) as [b Hb].
  set (D := (depth + a + b + 1)%nat).
  set (x := serial_context f df dflt reRan imRan prec) in *.
  destruct (depth_or_same E Simple depth D info s x ltac:(lia)) as [He|He].
  - left. unfold out, calculateRoots. fold x. cbv zeta.
    set (run := argument_algorithm E Simple depth info s x) in *.
    pose proof (proj1 (fresh_feed (toFilterContext x) (ar_reports run) p sp iter ((0, 0)%Q, 0) HI)) as H1.
    destruct (feed (toFilterContext x) (ar_reports run) (rc_init p sp)) as [c1 r1].
    cbn [snd] in H1. subst r1. rewrite He. reflexivity.
  - right.
    assert (Eo : out = calculateRoots f df dflt (argument_algorithm E Simple D info s) reRan imRan prec (rc_init p sp)).
    { unfold out, calculateRoots. fold x. rewrite He. reflexivity. }
    rewrite Eo. apply (C63_serial_lemma E zeros D info s f df dflt reRan imRan prec p sp iter a b HI Ha Hb); [lia|exact HR].
Qed.

Lemma C63_parallel_any_depth_lemma :
  forall S (E : env S) zeros depth n (st : rctx -> S) f df dflt reRan imRan prec p sp iter,
  let P := search_precision dflt prec in
  let P' := match prec with Some q => q | None => dflt end in
  let x := serial_context f df dflt reRan imRan prec in
  let jobs := createRootJobs n x in
  let outs := map (fun job => worker_output E Simple depth (st job) job) jobs in
  (1 <= n)%nat -> iteration_order iter ->
  (forall job, In job jobs -> reliable E zeros P (rect_of job)) ->
  forall e info, pool_behaviour outs e ->
    let out := parallel_calculateRoots f dflt reRan imRan prec info e (rc_init p sp) in
    (forall x', e = PoolRaised x' -> snd out = Err RecursionError) /\
    (forall q, e = PoolDone q ->
       snd out = Ok tt /\
       let pairs := reported_pairs iter (fst out) in
       all_found (11 / 20) P' zeros reRan imRan pairs /\
       all_genuine (11 / 20) P' P zeros reRan imRan pairs /\
       (separated 1 P zeros -> orders_right (11 / 20) P' P zeros reRan imRan pairs) /\
       (separated (11 / 10) P' zeros -> exactly_once (11 / 20) P' zeros reRan imRan pairs)).
Proof.
  intros S E zeros depth n st f df dflt reRan imRan prec p sp iter P P' x jobs outs Hn HI HR e info HB out.
  destruct (halvings_exist (Qabs (fst reRan - snd reRan) + 3 * pow10 (- fst P)) _ (pow10_pos (- fst P))) as [a Ha].
  destruct (halvings_exist (Qabs (fst imRan - snd imRan) + 7 * pow10 (- snd P)) _ (pow10_pos (- snd P))) as [b Hb].
  set (D := (depth + a + b + 1)%nat).
  set (deep := fun job => worker_output E Simple D (st job) job).
  assert (HD : (a + b < D)%nat) by (unfold D; lia).
  pose proof (C63_parallel_lemma E zeros D n st f df dflt reRan imRan prec p sp iter a b Hn HI Ha Hb HD HR) as HL.
  fold x jobs in HL.
  assert (Hsame : forall job, In job jobs -> snd (worker_output E Simple depth (st job) job) <> Some RecursionError ->
    worker_output E Simple depth (st job) job = deep job).
  { intros job _ Hne. unfold deep, worker_output in *. cbv zeta in *.
    destruct (depth_or_same E Simple depth D (fun _ => false) (st job) job ltac:(lia)) as [He|He].
    - cbn [snd] in Hne. contradiction.
    - rewrite He. reflexivity. }
  split.
  - intros x' ->. destruct HB as (o & Ho & Hx). unfold outs in Ho. apply in_map_iff in Ho.
    destruct Ho as (job & <- & Hj). unfold out. cbn [parallel_calculateRoots snd].
    destruct (exn_eq_dec x' RecursionError) as [->|Ne]; [reflexivity|]. exfalso.
    assert (Hs : worker_output E Simple depth (st job) job = deep job).
    { apply Hsame; [exact Hj|]. rewrite Hx. congruence. }
    rewrite Hs in Hx.
    apply (proj1 (HL (PoolRaised x') info (ex_intro _ (deep job) (conj (in_map deep jobs job Hj) Hx))) x'). reflexivity.
  - intros q ->. destruct HB as [H1 H2].
    assert (Eo : outs = map deep jobs).
    { apply map_ext_in. intros job Hj. apply Hsame; [exact Hj|].
      rewrite (H1 _ (in_map (fun job => worker_output E Simple depth (st job) job) jobs job Hj)). discriminate. }
    rewrite Eo in H1, H2.
    destruct (HL (PoolDone q) info (conj H1 H2)) as (_ & A & B & C & G). fold P' in B, C, G.
    destruct (G q eq_refl) as [G1 G2]. fold out in A, B, C, G1, G2.
    split; [exact A|]. cbv zeta. auto.
Qed.
