(** A chunked pool behaves like a pool of single jobs whose estimators start in the states
    actually reached. *)
From Coq Require Import Qreals.
From Verif Require Import PyBase Rounding_Model Poly_Model Container_Model Finder_Model Finder_Spec Finder_Proofs
  Refine_Model Refine_Spec EndToEnd_Model EndToEnd_Spec EndToEnd_Proofs Whole_Proofs2 Chunk_Model.
From Coq Require Import Lqa.
Open Scope Z_scope.

(** ** Slices *)
Lemma tasks_concat {A} size : (1 <= size)%nat -> forall k (l : list A), (List.length l <= k)%nat ->
  List.concat (tasks_upto k size l) = l.
Proof.
  intros Hs. induction k; intros l Hl; destruct l as [|a l]; try reflexivity; [inversion Hl|].
  cbn [tasks_upto List.concat]. rewrite IHk; [apply firstn_skipn|].
  rewrite skipn_length. cbn [List.length] in *. lia.
Qed.
Lemma get_tasks_concat {A} size (l : list A) : (1 <= size)%nat -> List.concat (get_tasks size l) = l.
Proof. intro H. apply tasks_concat; [exact H|apply Nat.le_refl]. Qed.

Lemma tasks_columns {A} size : (1 <= size)%nat -> forall (ls : list (list A)) k,
  (forall l, In l ls -> List.length l = size) -> (List.length (List.concat ls) <= k)%nat ->
  tasks_upto k size (List.concat ls) = ls.
Proof.
  intros Hs. induction ls as [|l ls IH]; intros k HL Hk; [destruct k; reflexivity|].
  pose proof (HL l (or_introl eq_refl)) as Ll. cbn [List.concat] in *. rewrite app_length in Hk.
  destruct k as [|k]; [lia|]. destruct l as [|a l]; [cbn in Ll; lia|].
  change (tasks_upto (Datatypes.S k) size ((a :: l) ++ List.concat ls)) with
    (firstn size ((a :: l) ++ List.concat ls) :: tasks_upto k size (skipn size ((a :: l) ++ List.concat ls))).
  rewrite firstn_app, skipn_app, Ll, Nat.sub_diag, firstn_O, app_nil_r, skipn_O, <- Ll, firstn_all, skipn_all.
  cbn [app]. rewrite Ll. rewrite IH; [reflexivity|intros; apply HL; right; assumption|cbn [List.length] in *; lia].
Qed.
Lemma get_tasks_jobs m x : (1 <= m)%nat ->
  get_tasks m (createRootJobs m x) = map (fun i => map (cell m x i) (seq 0 m)) (seq 0 m).
Proof.
  intro Hm. rewrite createRootJobs_cells, flat_map_concat_map. unfold get_tasks.
  apply tasks_columns; [exact Hm| |apply Nat.le_refl].
  intros l Hl. apply in_map_iff in Hl. destruct Hl as (i & <- & _). rewrite map_length, seq_length. reflexivity.
Qed.

(** ** Different jobs have different ranges *)
Definition jobkey (x : rctx) : (Q * Q) * (Q * Q) := (cx_reRan x, cx_imRan x).

Lemma linspace_pt_inj a b m i j : (1 <= m)%nat -> (a < b)%Q -> (linspace_pt a b m i == linspace_pt a b m j)%Q -> i = j.
Proof.
  intros Hm Hab. assert (A : forall u w, (u < w)%nat -> (linspace_pt a b m u < linspace_pt a b m w)%Q).
  { intros u w Huw. pose proof (linspace_strict a b m u Hm Hab).
    pose proof (linspace_pt_mono a b m (u + 1) w Hm (Qlt_le_weak _ _ Hab) ltac:(lia)). lra. }
  intro He. destruct (lt_eq_lt_dec i j) as [[H|H]|H]; [|exact H|]; specialize (A _ _ H); lra.
Qed.

Lemma NoDup_map_on {A B} (f : A -> B) l : NoDup l -> (forall a b, In a l -> In b l -> f a = f b -> a = b) -> NoDup (map f l).
Proof.
  intros HN. induction HN as [|a l Ha HN IH]; intro Hf; [constructor|]. cbn [map]. constructor.
  - intro H. apply in_map_iff in H. destruct H as (b & E & Hb). rewrite (Hf b a (or_intror Hb) (or_introl eq_refl) E) in Hb. contradiction.
  - apply IH. intros; apply Hf; try right; assumption.
Qed.
Lemma NoDup_concat_map {A B} (g : A -> list B) l : NoDup l -> (forall a, In a l -> NoDup (g a)) ->
  (forall a b c, In a l -> In b l -> In c (g a) -> In c (g b) -> a = b) -> NoDup (List.concat (map g l)).
Proof.
  intros HN. induction HN as [|a l Ha HN IH]; intros Hg Hd; [constructor|]. cbn [map List.concat].
  assert (A1 : NoDup (List.concat (map g l))).
  { apply IH; [intros; apply Hg; right; assumption|]. intros u w c Hu Hw. apply Hd; right; assumption. }
  pose proof (Hg a (or_introl eq_refl)) as A2.
  assert (A3 : forall c, In c (g a) -> ~ In c (List.concat (map g l))).
  { intros c H1 H2. apply in_concat in H2. destruct H2 as (lb & H2 & H3). apply in_map_iff in H2. destruct H2 as (b & <- & Hb).
    rewrite (Hd a b c (or_introl eq_refl) (or_intror Hb) H1 H3) in Ha. contradiction. }
  clear - A1 A2 A3. induction (g a) as [|c gl IH]; [exact A1|]. inversion A2; subst. cbn [app]. constructor.
  - rewrite in_app_iff. intros [H|H]; [contradiction|]. exact (A3 c (or_introl eq_refl) H).
  - apply IH; [assumption|]. intros; apply A3; right; assumption.
Qed.

Lemma jobs_distinct m x : (1 <= m)%nat ->
  (x1 (rect_of x) < x2 (rect_of x) /\ y1 (rect_of x) < y2 (rect_of x))%Q -> NoDup (map jobkey (createRootJobs m x)).
Proof.
  intros Hm [W1 W2]. unfold rect_of in W1, W2. cbn [x1 x2 y1 y2] in W1, W2.
  rewrite createRootJobs_cells, flat_map_concat_map, concat_map, map_map. apply NoDup_concat_map; [apply seq_NoDup| |].
  - intros i _. rewrite map_map. apply NoDup_map_on; [apply seq_NoDup|]. intros j j' _ _ H. unfold jobkey, cell in H.
    cbn [cx_reRan cx_imRan] in H. apply (f_equal (fun k => fst (snd k))) in H. cbn [fst snd] in H. apply (linspace_pt_inj _ _ m j j' Hm W2). rewrite H. reflexivity.
  - intros i i' c _ _ H H'. apply in_map_iff in H, H'. destruct H as (u & <- & H). destruct H' as (u' & E & H').
    apply in_map_iff in H, H'. destruct H as (j & <- & _). destruct H' as (j' & <- & _). unfold jobkey, cell in E.
    cbn [cx_reRan cx_imRan] in E. apply (f_equal (fun k => fst (fst k))) in E. cbn [fst snd] in E. apply (linspace_pt_inj _ _ m i i' Hm W1). rewrite E. reflexivity.
Qed.

(** ** Interleavings of concatenated outputs *)
Lemma concat_cons_inv {A} : forall (g : list (list A)) x l, List.concat g = x :: l ->
  exists g1 l1 g2, g = g1 ++ (x :: l1) :: g2 /\ l = List.concat (g1 ++ l1 :: g2).
Proof.
  induction g as [|a g IH]; intros x l H; [discriminate|]. cbn [List.concat] in H. destruct a as [|y a].
  - destruct (IH x l H) as (g1 & l1 & g2 & -> & ->). exists ([] :: g1), l1, g2. split; reflexivity.
  - cbn [app] in H. injection H as -> <-. exists [], a, g. split; reflexivity.
Qed.
Lemma interleaving_chunks {A} (LS : list (list A)) q : interleaving LS q ->
  forall gs, LS = map (@List.concat A) gs -> interleaving (List.concat gs) q.
Proof.
  induction 1 as [ls H|ls1 x l ls2 q H IH]; intros gs E.
  - apply il_done. intros l Hl. apply in_concat in Hl. destruct Hl as (g & Hg & Hl).
    assert (E0 : List.concat g = []) by (apply H; rewrite E; apply in_map; exact Hg).
    destruct l as [|y l]; [reflexivity|]. exfalso.
    assert (E1 : In y (List.concat g)) by (apply in_concat; exists (y :: l); split; [exact Hl|left; reflexivity]).
    rewrite E0 in E1. exact E1.
  - symmetry in E. destruct (map_eq_app _ _ _ _ E) as (g1 & gr & -> & <- & E2).
    destruct gr as [|g g2]; [discriminate|]. cbn [map] in E2. injection E2 as E2 <-.
    destruct (concat_cons_inv g x l E2) as (h1 & l1 & h2 & -> & ->).
    specialize (IH (g1 ++ (h1 ++ l1 :: h2) :: g2)).
    rewrite map_app in IH. specialize (IH eq_refl).
    rewrite concat_app in IH |- *. cbn [List.concat] in IH |- *. rewrite <- !app_assoc in IH |- *. cbn [app] in IH |- *.
    rewrite app_assoc in IH |- *. apply il_step. exact IH.
Qed.

Lemma prefix_nil {A} (l : list A) : prefix [] l.
Proof. exists l. reflexivity. Qed.
Lemma prefix_refl {A} (l : list A) : prefix l l.
Proof. exists []. rewrite app_nil_r. reflexivity. Qed.
Lemma all_nil {A} (g : list (list A)) : exists g', List.concat g' = ([] : list A) /\ Forall2 prefix g' g.
Proof.
  induction g as [|a g (g' & E & F)]; [exists []; split; [reflexivity|constructor]|].
  exists ([] :: g'). split; [exact E|]. constructor; [apply prefix_nil|exact F].
Qed.
Lemma prefix_concat {A} : forall (g : list (list A)) p, prefix p (List.concat g) ->
  exists g', List.concat g' = p /\ Forall2 prefix g' g.
Proof.
  induction g as [|a g IH]; intros p [r H].
  - cbn in H. symmetry in H. apply app_eq_nil in H. destruct H as [-> _]. exists []. split; [reflexivity|constructor].
  - cbn [List.concat] in H. destruct (app_eq_app _ _ _ _ H) as (l & [[H1 H2]|[H1 H2]]).
    + (* the cut is inside [a] *)
      destruct (all_nil g) as (g' & E & F). exists (p :: g'). cbn [List.concat]. rewrite E, app_nil_r. split; [reflexivity|].
      constructor; [exists l; exact H1|exact F].
    + destruct (IH l) as (g' & E & F); [exists r; exact H2|]. exists (a :: g'). cbn [List.concat]. rewrite E. split; [symmetry; exact H1|].
      constructor; [apply prefix_refl|exact F].
Qed.
Lemma Forall2_prefix_trans {A} (a b c : list (list A)) : Forall2 prefix a b -> Forall2 prefix b c -> Forall2 prefix a c.
Proof.
  intro F. revert c. induction F as [|x y a b [r Hr] F IH]; intros c G; inversion G as [|? z ? c' [r' Hr'] G']; subst; constructor.
  - exists (r ++ r'). rewrite app_assoc. reflexivity.
  - apply IH. assumption.
Qed.

(** ** States *)
Section Chunks.
  Context {T : Type} (E : env T) (v : variant) (depth : nat) (s0 : T).

  Definition raised (s : T) (x : rctx) : bool := match snd (worker_output E v depth s x) with Some _ => true | None => false end.

  (** The states in which the jobs of a chunk start; [s0] for those that are not run. *)
  Fixpoint starts (s : T) (l : list rctx) : list (((Q * Q) * (Q * Q)) * T) :=
    match l with
    | [] => []
    | x :: r => (jobkey x, s) :: (if raised s x then map (fun y => (jobkey y, s0)) r else starts (job_leaves E v depth x s) r)
    end.
  Lemma starts_keys : forall l s, map fst (starts s l) = map jobkey l.
  Proof.
    induction l as [|x r IH]; intro s; [reflexivity|]. cbn [starts map fst]. f_equal.
    destruct (raised s x); [rewrite map_map; apply map_ext; reflexivity|apply IH].
  Qed.

  Definition Qkey_dec (a b : (Q * Q) * (Q * Q)) : {a = b} + {a <> b}.
  Proof. repeat decide equality. Defined.
  Fixpoint look (t : list (((Q * Q) * (Q * Q)) * T)) (k : (Q * Q) * (Q * Q)) : T :=
    match t with
    | [] => s0
    | (k', s) :: r => if Qkey_dec k k' then s else look r k
    end.
  Lemma look_in t k s : NoDup (map fst t) -> In (k, s) t -> look t k = s.
  Proof.
    induction t as [|[k' s'] t IH]; intros HN H; [contradiction|]. cbn [map fst] in HN. inversion HN; subst. cbn [look].
    destruct H as [H|H].
    - injection H as -> ->. destruct Qkey_dec; [reflexivity|contradiction].
    - destruct (Qkey_dec k k') as [->|_]; [exfalso; apply H2; exact (in_map fst t (k', s) H)|]. auto.
  Qed.

  (** [st] follows the states of a chunk started in [s]. *)
  Fixpoint follows (st : rctx -> T) (s : T) (l : list rctx) : Prop :=
    match l with
    | [] => True
    | x :: r => st x = s /\ if raised s x then forall y, In y r -> st y = s0 else follows st (job_leaves E v depth x s) r
    end.
  Lemma follows_of (st : rctx -> T) : forall l s, (forall x s1, In (jobkey x, s1) (starts s l) -> st x = s1) -> follows st s l.
  Proof.
    induction l as [|x r IH]; intros s H; [exact Logic.I|]. cbn [starts] in H. cbn [follows]. split; [apply H; left; reflexivity|].
    destruct (raised s x).
    - intros y Hy. apply H. right. exact (in_map (fun y => (jobkey y, s0)) r y Hy).
    - apply IH. intros y s1 Hy. apply H. right. exact Hy.
  Qed.

  Lemma states_exist (chunks : list (list rctx)) : NoDup (map jobkey (List.concat chunks)) ->
    exists st, forall c, In c chunks -> follows st s0 c.
  Proof.
    intro HN. set (t := List.concat (map (starts s0) chunks)).
    assert (K : map fst t = map jobkey (List.concat chunks)).
    { unfold t. clear HN t. induction chunks as [|c cs IH]; [reflexivity|]. cbn [map List.concat]. rewrite !map_app, IH, starts_keys. reflexivity. }
    exists (fun x => look t (jobkey x)). intros c Hc. apply follows_of. intros x s1 H. apply look_in; [rewrite K; exact HN|].
    unfold t. apply in_concat. exists (starts s0 c). split; [apply in_map; exact Hc|exact H].
  Qed.

  Notation out st := (fun job => worker_output E v depth (st job) job).

  Lemma raised_spec s x : raised s x = true -> exists e, snd (worker_output E v depth s x) = Some e.
  Proof. unfold raised. destruct snd; [eauto|discriminate]. Qed.
  Lemma raised_none s x : raised s x = false -> snd (worker_output E v depth s x) = None.
  Proof. unfold raised. destruct snd; [discriminate|reflexivity]. Qed.

  Lemma chunk_none st : forall l s, follows st s l -> snd (run_chunk E v depth s l) = None ->
    (forall x, In x l -> snd (out st x) = None) /\ fst (run_chunk E v depth s l) = List.concat (map fst (map (out st) l)).
  Proof.
    induction l as [|x r IH]; intros s HF H; [split; [intros x []|reflexivity]|].
    cbn [follows] in HF. destruct HF as [E1 HF]. cbn [run_chunk] in *. cbv zeta in *. cbn [map List.concat]. rewrite E1.
    destruct (raised s x) eqn:ER.
    - destruct (raised_spec s x ER) as [e He]. rewrite He in H. discriminate.
    - pose proof (raised_none s x ER) as Hn. rewrite Hn in *. cbn [fst snd] in *. destruct (IH _ HF H) as [I1 I2]. split.
      + intros y [<-|Hy]; [rewrite E1; exact Hn|]. exact (I1 y Hy).
      + rewrite I2. reflexivity.
  Qed.
  Lemma chunk_raises st : forall l s e, follows st s l -> snd (run_chunk E v depth s l) = Some e ->
    exists x, In x l /\ snd (out st x) = Some e.
  Proof.
    induction l as [|x r IH]; intros s e HF H; [discriminate|].
    cbn [follows] in HF. destruct HF as [E1 HF]. cbn [run_chunk] in *. cbv zeta in *.
    destruct (raised s x) eqn:ER.
    - destruct (raised_spec s x ER) as [e' He]. rewrite He in H. exists x. split; [left; reflexivity|]. rewrite E1, He. exact H.
    - rewrite (raised_none s x ER) in H. destruct (IH _ e HF H) as (y & Hy & I2). exists y. split; [right|]; assumption.
  Qed.
  Lemma chunk_prefix st : forall l s, follows st s l ->
    prefix (fst (run_chunk E v depth s l)) (List.concat (map fst (map (out st) l))).
  Proof.
    induction l as [|x r IH]; intros s HF; [exists []; reflexivity|].
    cbn [follows] in HF. destruct HF as [E1 HF]. cbn [run_chunk]. cbv zeta. cbn [map List.concat]. rewrite E1.
    destruct (raised s x) eqn:ER.
    - destruct (raised_spec s x ER) as [e' He]. rewrite He. eexists. reflexivity.
    - rewrite (raised_none s x ER). destruct (IH _ HF) as [p Hp]. cbn [fst]. rewrite Hp. exists p. rewrite app_assoc. reflexivity.
  Qed.

  Lemma chunks_single st (chunks : list (list rctx)) (e : pool_end) :
    (forall c, In c chunks -> follows st s0 c) ->
    pool_behaviour (map (run_chunk E v depth s0) chunks) e ->
    pool_behaviour (map (out st) (List.concat chunks)) e.
  Proof.
    intros HF. destruct e as [q|q|x]; cbn [pool_behaviour].
    - intros [HN HI]. split.
      + intros o Ho. apply in_map_iff in Ho. destruct Ho as (job & <- & Hj). apply in_concat in Hj. destruct Hj as (c & Hc & Hj).
        apply (proj1 (chunk_none st c s0 (HF c Hc) (HN _ (in_map _ _ _ Hc)))). exact Hj.
      + replace (map fst (map (out st) (List.concat chunks)))
          with (List.concat (map (fun c => map fst (map (out st) c)) chunks)).
        2:{ clear. induction chunks as [|c cs IH]; [reflexivity|]. cbn [map List.concat]. rewrite !map_app, <- IH. reflexivity. }
        apply (interleaving_chunks _ q HI). rewrite !map_map. apply map_ext_in. intros c Hc.
        apply (proj2 (chunk_none st c s0 (HF c Hc) (HN _ (in_map _ _ _ Hc)))).
    - intros (outs' & HP & HI).
      assert (A : exists gs, map (@List.concat root) gs = outs' /\ Forall2 prefix (List.concat gs) (map fst (map (out st) (List.concat chunks)))).
      { clear HI. revert outs' HP HF. induction chunks as [|c cs IH]; intros outs' HP HF; cbn [map List.concat] in *.
        - inversion HP; subst. exists []. split; [reflexivity|constructor].
        - inversion HP as [|o ? os ? [r Hr] HP']; subst. destruct (IH os HP') as (gs & G1 & G2); [intros; apply HF; right; assumption|].
          destruct (prefix_concat (map fst (map (out st) c)) o) as (g & K1 & K2).
          { destruct (chunk_prefix st c s0 (HF c (or_introl eq_refl))) as [r2 Hr2]. exists (r ++ r2). rewrite Hr2, Hr, app_assoc. reflexivity. }
          exists (g :: gs). cbn [map List.concat]. rewrite K1, G1. split; [reflexivity|]. rewrite !map_app. apply Forall2_app; assumption. }
      destruct A as (gs & G1 & G2). exists (List.concat gs). split; [exact G2|]. apply (interleaving_chunks outs' q HI). symmetry. exact G1.
    - intros (o & Ho & Hx). apply in_map_iff in Ho. destruct Ho as (c & <- & Hc).
      destruct (chunk_raises st c s0 x (HF c Hc) Hx) as (job & Hj & Hx'). exists (out st job). split; [|exact Hx'].
      apply (in_map (out st)). apply in_concat. exists c. auto.
  Qed.

  (** Facts about the states that hold at the start and pass from job to job hold for all. *)
  Lemma follows_keeps (K : rctx -> T -> Prop) st : (forall x, K x s0) ->
    forall l, (forall l1 x x' l2 s, l = l1 ++ x :: x' :: l2 -> K x s -> snd (worker_output E v depth s x) = None ->
      K x' (job_leaves E v depth x s)) ->
    forall s, (match l with x :: _ => K x s | [] => True end) -> follows st s l -> forall x, In x l -> K x (st x).
  Proof.
    intros H0. induction l as [|x r IH]; intros HS s Hs HF y Hy; [contradiction|].
    cbn [follows] in HF. destruct HF as [E1 HF]. destruct Hy as [<-|Hy]; [rewrite E1; exact Hs|].
    destruct (raised s x) eqn:ER.
    - rewrite (HF y Hy). apply H0.
    - apply (IH (fun l1 a b l2 t Hl => HS (x :: l1) a b l2 t (f_equal (cons x) Hl)) (job_leaves E v depth x s)); [|exact HF|exact Hy].
      destruct r as [|x' r]; [contradiction|]. apply (HS [] x x' r s eq_refl Hs). apply raised_none. exact ER.
  Qed.
End Chunks.

Lemma pool_single {T} (E : env T) v depth s0 m x e : (1 <= m)%nat ->
  (x1 (rect_of x) < x2 (rect_of x) /\ y1 (rect_of x) < y2 (rect_of x))%Q ->
  pool_behaviour (pool_outputs E v depth s0 m x) e ->
  exists st, pool_behaviour (map (fun job => worker_output E v depth (st job) job) (createRootJobs m x)) e /\
    forall c, In c (get_tasks m (createRootJobs m x)) -> follows E v depth s0 st s0 c.
Proof.
  intros Hm W HB. pose proof (jobs_distinct m x Hm W) as HN.
  rewrite <- (get_tasks_concat m (createRootJobs m x) Hm) in HN.
  destruct (states_exist E v depth s0 _ HN) as [st HS]. exists st. split; [|exact HS].
  rewrite <- (get_tasks_concat m (createRootJobs m x) Hm) at 1.
  apply (chunks_single E v depth s0 st _ e HS HB).
Qed.
