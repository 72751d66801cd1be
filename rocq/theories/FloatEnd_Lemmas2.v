(** Searches in binary64 with any recursion depth: complete, or RecursionError. *)
From Coq Require Import Reals Qreals Qminmax.
From Verif Require Import PyBase Rounding_Model Container_Model Container_Spec Finder_Model Finder_Spec
  Refine_Model Refine_Spec Refine_Proofs3 Zeros_Spec EndToEnd_Model EndToEnd_Spec EndToEnd_Proofs3
  Float_Model Float_Spec Float_Proofs4 FloatGrid_Model FloatGrid_Spec FloatCont_Model FloatCont_Spec
  FloatEnd_Model FloatEnd_Spec FloatEnd_Proofs FloatEnd_Proofs3 FloatEnd_Proofs4 FloatEnd_Examples FloatEnd_Lemmas.
Open Scope Z_scope.

Lemma fdepth_or_same {S} rnd tx ty (E : env S) v depth D info s x : (depth <= D)%nat ->
  ar_end (fargument_algorithm rnd tx ty E v depth info s x) = Some RecursionError \/
  fargument_algorithm rnd tx ty E v depth info s x = fargument_algorithm rnd tx ty E v D info s x.
Proof.
  intro H. unfold fargument_algorithm.
  destruct (fcalcRoots rnd tx ty (env_for E x) v depth (rect_of x) s) as [[s' l] o] eqn:R.
  destruct o as [t|e|]; [right|right|left; reflexivity].
  - rewrite (fl_fuel _ _ _ _ _ _ _ _ _ _ _ _ H R) by discriminate. reflexivity.
  - rewrite (fl_fuel _ _ _ _ _ _ _ _ _ _ _ _ H R) by discriminate. reflexivity.
Qed.

Lemma C68_any_depth_lemma :
  forall S (E : env S) zeros k tx ty depth info s f df dflt reRan imRan prec p sp iter,
  let P := search_precision dflt prec in
  let out := fcalculateRoots rnd64 py_round tx ty f df dflt
    (fargument_algorithm rnd64 tx ty E Simple depth info s) reRan imRan prec (rc_init p sp) in
  -1022 <= k -> iteration_order iter ->
  tolerance64 k (fst P) tx -> tolerance64 k (snd P) ty ->
  below (k - 1) reRan -> below (k - 1) imRan ->
  reliable64 E zeros tx ty (rect_of (fserial_context rnd64 tx ty f df dflt reRan imRan prec)) ->
  snd out = Err RecursionError \/
  (snd out = Ok tt /\
   let pairs := reported_pairs iter (fst out) in
   all_doubles pairs /\
   all_found (5 / 4) P zeros reRan imRan pairs /\
   genuine64 (5 / 4) P P zeros reRan imRan pairs /\
   (separated (5 / 4) P zeros -> orders64 (5 / 4) P P zeros reRan imRan pairs) /\
   (separated (5 / 2) P zeros -> exactly_once (5 / 4) P zeros reRan imRan pairs)).
Proof.
  intros S E zeros k tx ty depth info s f df dflt reRan imRan prec p sp iter P out Hk HI T1 T2 B1 B2 HR.
  destruct (halvings_exist (Qabs (fst reRan - snd reRan) + 4 * pow10 (- fst P)) _ (pow10_pos (- fst P))) as [a Ha].
  destruct (halvings_exist (Qabs (fst imRan - snd imRan) + 8 * pow10 (- snd P)) _ (pow10_pos (- snd P))) as [b Hb].
  set (D := (depth + a + b + 5)%nat).
  set (x := fserial_context rnd64 tx ty f df dflt reRan imRan prec) in *.
  destruct (fdepth_or_same rnd64 tx ty E Simple depth D info s x ltac:(lia)) as [He|He].
  - left. unfold out, fcalculateRoots. fold x. cbv zeta.
    set (run := fargument_algorithm rnd64 tx ty E Simple depth info s x) in *.
    pose proof (proj1 (fresh_ffeed py_round py_canon (toFilterContext x) (ar_reports run) p sp iter HI)) as H1.
    destruct (ffeed py_round (toFilterContext x) (ar_reports run) (rc_init p sp)) as [c1 r1].
    cbn [snd] in H1. subst r1. rewrite He. reflexivity.
  - right.
    assert (Eo : out = fcalculateRoots rnd64 py_round tx ty f df dflt
      (fargument_algorithm rnd64 tx ty E Simple D info s) reRan imRan prec (rc_init p sp)).
    { unfold out, fcalculateRoots. fold x. rewrite He. reflexivity. }
    rewrite Eo.
    apply (C68_serial_lemma S E zeros k tx ty D info s f df dflt reRan imRan prec p sp iter a b Hk HI T1 T2 B1 B2 Ha Hb);
      [unfold D; lia|exact HR].
Qed.

Lemma C68_parallel_any_depth_lemma :
  forall S (E : env S) zeros k tx ty depth n (st : rctx -> S) f df dflt reRan imRan prec p sp iter,
  let P := search_precision dflt prec in
  let P' := match prec with Some q => q | None => dflt end in
  let x := fserial_context rnd64 tx ty f df dflt reRan imRan prec in
  let jobs := fcreateRootJobs rnd64 n x in
  let outs := map (fun job => fworker_output rnd64 tx ty E Simple depth (st job) job) jobs in
  (1 <= n)%nat -> Z.of_nat n <= 2 ^ 51 -> -900 <= k -> iteration_order iter ->
  tolerance64 k (fst P) tx -> tolerance64 k (snd P) ty ->
  0 <= fst P' <= 22 -> 0 <= snd P' <= 22 ->
  below (k - 1) reRan -> below (k - 1) imRan ->
  (forall job, In job jobs -> reliable64 E zeros tx ty (rect_of job)) ->
  forall e info, pool_behaviour outs e ->
    let out := fparallel_calculateRoots rnd64 np_round tx ty f dflt reRan imRan prec info e (rc_init p sp) in
    (forall x', e = PoolRaised x' -> snd out = Err RecursionError) /\
    (forall q, e = PoolDone q ->
       snd out = Ok tt /\
       let pairs := reported_pairs iter (fst out) in
       all_doubles pairs /\
       all_found (13 / 20) P' zeros reRan imRan pairs /\
       genuine64 (13 / 20) P' P zeros reRan imRan pairs /\
       (separated (5 / 4) P zeros -> orders64 (13 / 20) P' P zeros reRan imRan pairs) /\
       (separated (13 / 10) P' zeros -> exactly_once (13 / 20) P' zeros reRan imRan pairs)).
Proof.
  intros S E zeros k tx ty depth n st f df dflt reRan imRan prec p sp iter P P' x jobs outs
    Hn Hn2 Hk HI T1 T2 N1 N2 B1 B2 HR e info HB out.
  destruct (halvings_exist (Qabs (fst reRan - snd reRan) + 4 * pow10 (- fst P)) _ (pow10_pos (- fst P))) as [a Ha].
  destruct (halvings_exist (Qabs (fst imRan - snd imRan) + 8 * pow10 (- snd P)) _ (pow10_pos (- snd P))) as [b Hb].
  set (D := (depth + a + b + 5)%nat).
  set (deep := fun job => fworker_output rnd64 tx ty E Simple D (st job) job).
  assert (HD : (a + b + 4 < D)%nat) by (unfold D; lia).
  pose proof (C68_parallel_lemma S E zeros k tx ty D n st f df dflt reRan imRan prec p sp iter a b Hn Hn2 Hk HI T1 T2
    N1 N2 B1 B2 Ha Hb HD HR) as HL.
  cbv zeta in HL. fold x jobs in HL.
  assert (Hsame : forall job, In job jobs -> snd (fworker_output rnd64 tx ty E Simple depth (st job) job) <> Some RecursionError ->
    fworker_output rnd64 tx ty E Simple depth (st job) job = deep job).
  { intros job _ Hne. unfold deep, fworker_output in *. cbv zeta in *.
    destruct (fdepth_or_same rnd64 tx ty E Simple depth D (fun _ => false) (st job) job ltac:(lia)) as [He|He].
    - cbn [snd] in Hne. contradiction.
    - rewrite He. reflexivity. }
  split.
  - intros x' ->. destruct HB as (o & Ho & Hx). unfold outs in Ho. apply in_map_iff in Ho.
    destruct Ho as (job & <- & Hj). unfold out. cbn [fparallel_calculateRoots snd].
    destruct (exn_eq_dec x' RecursionError) as [->|Ne]; [reflexivity|]. exfalso.
    assert (Hs : fworker_output rnd64 tx ty E Simple depth (st job) job = deep job).
    { apply Hsame; [exact Hj|]. rewrite Hx. congruence. }
    rewrite Hs in Hx.
    apply (proj1 (HL (PoolRaised x') info (ex_intro _ (deep job) (conj (in_map deep jobs job Hj) Hx))) x'). reflexivity.
  - intros q ->. destruct HB as [H1 H2].
    assert (Eo : outs = map deep jobs).
    { apply map_ext_in. intros job Hj. apply Hsame; [exact Hj|].
      rewrite (H1 _ (in_map (fun job => fworker_output rnd64 tx ty E Simple depth (st job) job) jobs job Hj)). discriminate. }
    rewrite Eo in H1, H2.
    destruct (HL (PoolDone q) info (conj H1 H2)) as (_ & A & A' & B & C & G).
    destruct (G q eq_refl) as [G1 G2].
    split; [exact A|]. cbv zeta. auto.
Qed.

Lemma C68_interruption_lemma :
  forall tx ty f df dflt alg reRan imRan prec p sp iter, iteration_order iter ->
  let run := alg (fserial_context rnd64 tx ty f df dflt reRan imRan prec) in
  let out := fcalculateRoots rnd64 py_round tx ty f df dflt alg reRan imRan prec (rc_init p sp) in
  snd out = match ar_end run with None => Ok tt | Some KeyboardInterrupt => Ok tt | Some e => Err e end /\
  forall c k, In (c, k) (reported_pairs iter (fst out)) <->
    exists info z, In (info, (z, k)) (ar_reports run) /\
      c = (py_round (fst (search_precision dflt prec)) (re z), py_round (snd (search_precision dflt prec)) (im z)).
Proof.
  intros tx ty f df dflt alg reRan imRan prec p sp iter HI run out. unfold out, fcalculateRoots. cbv zeta. fold run. set (x := fserial_context rnd64 tx ty f df dflt reRan imRan prec) in *.
  destruct (fresh_ffeed py_round py_canon (toFilterContext x) (ar_reports run) p sp iter HI) as [H1 H2].
  destruct (ffeed py_round (toFilterContext x) (ar_reports run) (rc_init p sp)) as [c1 r1]. cbn [fst snd] in H1, H2. subst r1.
  assert (G : fst (match ar_end run with None => (c1, Ok tt) | Some KeyboardInterrupt => (c1, Ok tt) | Some e => (c1, Err e) end) = c1) by (destruct (ar_end run) as [[]|]; reflexivity).
  rewrite G. split; [destruct (ar_end run) as [[]|]; reflexivity|].
  intros c k. rewrite (H2 (c, k)). split.
  - intros (i & [z k'] & I & E). unfold froundRoot in E. cbn in E. injection E as -> ->. exists i, z. split; [exact I|reflexivity].
  - intros (i & z & I & ->). exists i, (z, k). split; [exact I|reflexivity].
Qed.
