(** * C32-C35: the moment cache *)
From Verif Require Import PyBase Poly_Model Refine_Model Cache_Model Cache_Spec Cache_Proofs.
Open Scope Z_scope.

(** ** C32 *)
(** Whatever moments were computed, entries removed or caches reset before, calcMoment returns
    the sum of the four sides, if the line estimator is a pure antisymmetric function. *)
Theorem C32_moments_from_cache :
  forall LS (line : Z -> cplx -> cplx -> LS -> LS * list cplx * res cplx) value,
  pure_line line value ->
  forall debug (history : list use) s k r,
  snd (cached_moment line debug k r (use_run line debug history s)) = Ok (border_sum value k r).
Proof. exact (@cache_transparent). Qed.
Print Assumptions C32_moments_from_cache.

(** A whole search with the cache does exactly what it does without one: same outcome, same
    events in the same order (except that zeros lying on contour samples may be reported once
    instead of several times). *)
Theorem C32_search_without_cache :
  forall LS (line : Z -> cplx -> cplx -> LS -> LS * list cplx * res cplx) value
    debug secant newton polyroots has_df precision progress v fuel r c s s',
  pure_line line value ->
  let E1 := cached_env line debug secant newton polyroots has_df precision progress in
  let E2 := uncached_env line secant newton polyroots has_df precision progress in
  without_contour_zeros (snd (fst (calcRoots E1 v fuel r (c, s)))) =
    without_contour_zeros (snd (fst (calcRoots E2 v fuel r s'))) /\
  snd (calcRoots E1 v fuel r (c, s)) = snd (calcRoots E2 v fuel r s').
Proof. exact (@search_transparent). Qed.
Print Assumptions C32_search_without_cache.

(** Antisymmetry is needed: a line estimator answering 1 for every line. *)
Theorem C32_asymmetric_refuted :
  exists (line : Z -> cplx -> cplx -> unit -> unit * list cplx * res cplx) value,
  (forall k a b s, snd (line k a b s) = Ok (value k a b)) /\
  exists h r, snd (cached_moment line false 0 r (use_run line false h tt)) <> Ok (border_sum value 0 r).
Proof.
  exists (fun _ _ _ s => (s, [], Ok (1, 0)%Q)), (fun _ _ _ => (1, 0)%Q).
  split; [reflexivity|].
  exists [UseMoment 0 (mkRect 0 1 0 1)], (mkRect 1 2 0 1). vm_compute. discriminate.
Qed.
Print Assumptions C32_asymmetric_refuted.

(** A non-trivial pure line: (b - a).real * (a + b).imag, whose border sum is not 0. *)
Definition shoelace (_ : Z) (a b : cplx) : cplx := (Qred ((re b - re a) * (im a + im b)), 0%Q).
Lemma shoelace_pure : pure_line (fun k a b (s : unit) => (s, [a], Ok (shoelace k a b))) shoelace.
Proof.
  constructor.
  - reflexivity.
  - intros k a b a' b' [H1 H2] [H3 H4]. unfold shoelace. f_equal. apply Qred_complete.
    rewrite H1, H2, H3, H4. reflexivity.
  - intros k a b. unfold shoelace, copp. cbn [re im fst snd]. f_equal.
    rewrite <- Qred_opp. apply Qred_complete. ring.
Qed.
Example C32_nonvacuous :
  snd (cached_moment (fun k a b (s : unit) => (s, [a], Ok (shoelace k a b))) true 0 (mkRect 1 3 0 2)
        (use_run (fun k a b (s : unit) => (s, [a], Ok (shoelace k a b))) true
          [UseMoment 0 (mkRect 0 1 0 2); UseRemove 0 (1, 0)%Q (1, 2)%Q; UseMoment 0 (mkRect (6#2) 4 0 2)] tt))
  = Ok (border_sum shoelace 0 (mkRect 1 3 0 2)) /\
  ~ ceq (border_sum shoelace 0 (mkRect 1 3 0 2)) c0.
Proof.
  split; [apply C32_moments_from_cache, shoelace_pure|].
  intros [H _]. vm_compute in H. discriminate.
Qed.

(** ** C33 *)
(** A search started on any cache (left behind by any earlier searches, with whatever
    functions) does exactly the same as one on a new cache; nor does debug logging matter. *)
Theorem C33_no_leak :
  forall LS (line : Z -> cplx -> cplx -> LS -> LS * list cplx * res cplx)
    debug debug' secant newton polyroots has_df precision progress v fuel r c s,
  let E d := cached_env line d secant newton polyroots has_df precision progress in
  snd (fst (calcRoots (E debug) v fuel r (c, s))) = snd (fst (calcRoots (E debug') v fuel r (new_cache, s))) /\
  snd (calcRoots (E debug) v fuel r (c, s)) = snd (calcRoots (E debug') v fuel r (new_cache, s)).
Proof. exact (@search_fresh). Qed.
Print Assumptions C33_no_leak.

(** calcMoment alone, without the reset, does use entries of another function. *)
Example C33_nonvacuous :
  let f1 := fun (_ : Z) (_ _ : cplx) (s : unit) => (s, @nil cplx, Ok (1, 0)%Q) in
  let f2 := fun (_ : Z) (_ _ : cplx) (s : unit) => (s, @nil cplx, Ok (0, 0)%Q) in
  let left_behind := fst (fst (cached_moment f1 false 0 (mkRect 0 1 0 1) (new_cache, tt))) in
  snd (cached_moment f2 false 0 (mkRect 0 1 0 1) left_behind) = Ok (4, 0)%Q /\
  snd (fst (calcRoots (cached_env f2 false (fun _ _ => Err RuntimeError) (fun _ => Err RuntimeError)
       (fun _ => Ok []) false (2, 2) false) Simple 3 (mkRect 0 1 0 1) left_behind)) =
  [EvMoment 0 (mkRect 0 1 0 1) (Ok (0, 0)%Q); EvDiscard (mkRect 0 1 0 1) 0].
Proof. vm_compute. split; reflexivity. Qed.

(** ** C34 *)
(** In every cache reached by computing moments, removing entries and resetting - with any line
    estimator, even one that changes its answers or raises - the two orientations of an edge
    never contradict each other. *)
Theorem C34_orientations :
  forall LS (line : Z -> cplx -> cplx -> LS -> LS * list cplx * res cplx) debug (history : list use) s k a b v,
  ~ ceq a b ->
  ec_lookup k a b (fst (use_run line debug history s)) = Some v ->
  ec_lookup k b a (fst (use_run line debug history s)) = None \/
  ec_lookup k b a (fst (use_run line debug history s)) = Some (copp v).
Proof. intros LS line debug h s. exact (use_antisymmetric line debug h s). Qed.
Print Assumptions C34_orientations.

(** After a successful calcMoment all four sides are in the cache; after storing both
    orientations both are found. *)
Theorem C34_edges_present :
  forall LS (line : Z -> cplx -> cplx -> LS -> LS * list cplx * res cplx) debug k r st m,
  snd (cached_moment line debug k r st) = Ok m ->
  forall a b, In (a, b) (sides r) -> ec_lookup k a b (fst (fst (fst (cached_moment line debug k r st)))) <> None.
Proof. intros LS line debug k r st. exact (loop_present line debug k (edges r) c0 st). Qed.
Print Assumptions C34_edges_present.

Theorem C34_stored_pair :
  forall k a b v c, ~ ceq a b ->
  let c' := ec_store k b a (copp v) (ec_store k a b v c) in
  ec_lookup k a b c' = Some v /\ ec_lookup k b a c' = Some (copp v) /\
  (forall k' p q, ~ (k' = k /\ ceq p a /\ ceq q b) -> ~ (k' = k /\ ceq p b /\ ceq q a) ->
     ec_lookup k' p q c' = ec_lookup k' p q c).
Proof.
  intros k a b v c N c'. unfold c'. rewrite !lookup_store.
  assert (same_key k k a b b a = false) as ->.
  { destruct (same_key k k a b b a) eqn:E; [|reflexivity]. apply same_key_true in E as (_ & E & _). contradiction. }
  assert (same_key k k a a b b = true) as -> by (apply same_key_true; repeat split; reflexivity).
  assert (same_key k k b b a a = true) as -> by (apply same_key_true; repeat split; reflexivity).
  split; [reflexivity|]. split; [reflexivity|].
  intros k' p q N1 N2. rewrite !lookup_store.
  destruct (same_key k' k p b q a) eqn:E; [apply same_key_true in E; tauto|].
  destruct (same_key k' k p a q b) eqn:F; [apply same_key_true in F; tauto|]. reflexivity.
Qed.
Print Assumptions C34_stored_pair.

Example C34_nonvacuous :
  let st := use_run (fun k a b (s : unit) => (s, [a], Ok (shoelace k a b))) true
          [UseMoment 0 (mkRect 0 1 0 2)] tt in
  ec_lookup 0 (1, 2)%Q (0, 2)%Q (fst st) = Some (- (4), 0)%Q /\
  ec_lookup 0 (0, 2)%Q (1, 2)%Q (fst st) = Some (4, - 0)%Q.
Proof. vm_compute. split; reflexivity. Qed.

(** ** C35 *)
(** After any history of operations, [retrieve] returns what the latest relevant store, remove
    or reset left for the key; no retrieve (debug or not) influences values. *)
Theorem C35_finite_map :
  forall (h : list cache_op) debug k a b,
  snd (ec_retrieve debug k a b (cache_run h)) = latest (rev h) k a b.
Proof. exact retrieve_value. Qed.
Print Assumptions C35_finite_map.

(** The counters: since the last reset, retrieves at debug level are counted as hits when
    they find a value other than 0, and as misses otherwise. *)
Theorem C35_counters :
  forall h,
  ec_hits (cache_run h) = nonzero_finds (rev h) /\
  ec_hits (cache_run h) + ec_misses (cache_run h) = debug_retrieves (since_reset (rev h)).
Proof. exact cache_counters. Qed.
Print Assumptions C35_counters.

(** [dirty] tells whether anything was stored since the last reset (even if all of it was
    removed again). *)
Theorem C35_dirty :
  forall h, ec_dirty (cache_run h) = true <-> stores (since_reset (rev h)) > 0.
Proof. exact cache_dirty. Qed.
Print Assumptions C35_dirty.

(** calcMoment uses entries other than 0 without calling the line estimator ... *)
Theorem C35_nonzero_entries_used :
  forall LS (line : Z -> cplx -> cplx -> LS -> LS * list cplx * res cplx) debug k r c s val,
  (forall a b, In (a, b) (sides r) -> ec_lookup k a b c = Some (val a b) /\ ~ ceq (val a b) c0) ->
  exists c', cached_moment line debug k r (c, s) =
    ((c', s), [], Ok (border_sum (fun _ => val) k r)) /\ ec_map c' = ec_map c.
Proof. intros LS line debug k r c s val. exact (nonzero_entries_used line debug k (edges r) c0 c s val). Qed.
Print Assumptions C35_nonzero_entries_used.

(** ... but recomputes an entry 0: if the line estimator now fails, so does calcMoment. *)
Theorem C35_zero_entry_recomputed :
  forall LS (line : Z -> cplx -> cplx -> LS -> LS * list cplx * res cplx) debug k r c s v ls zs e,
  ec_lookup k (x1 r, y1 r) (x2 r, y1 r) c = Some v -> ceq v c0 ->
  line k (x1 r, y1 r) (x2 r, y1 r) s = (ls, zs, Err e) ->
  snd (cached_moment line debug k r (c, s)) = Err e.
Proof. exact (@zero_entry_recomputed). Qed.
Print Assumptions C35_zero_entry_recomputed.

(** What calcMoment computes, for a rectangle with different corners: exactly the sides without
    a known value other than 0, in counter-clockwise order, reporting every zero met. *)
Theorem C35_sides_computed :
  forall LS (line : Z -> cplx -> cplx -> LS -> LS * list cplx * res cplx) debug k r c s,
  (x1 r < x2 r)%Q -> (y1 r < y2 r)%Q ->
  let out := cached_moment line debug k r (c, s) in
  (snd (fst (fst out)), snd (fst out), snd out) =
    sum_sides line (fun a b => ec_lookup k a b c) k (sides r) (0, 0)%Q s.
Proof. exact (@sides_computed). Qed.
Print Assumptions C35_sides_computed.

Example C35_nonvacuous :
  let h := [OpStore 0 (0,0) (1,0) (5,0); OpStore 0 (0,0) (2#2,0) (0,0); OpRetrieve true 0 (0,0) (1,0);
            OpStore 1 (0,0) (1,0) (7,0); OpRetrieve true 1 (0,0) (1,0); OpRemove 0 (0,0) (1,0);
            OpRetrieve false 0 (0,0) (1,0)]%Q in
  snd (ec_retrieve true 1 (0,0)%Q (1,0)%Q (cache_run h)) = Some (7,0)%Q /\
  snd (ec_retrieve true 0 (0,0)%Q (1,0)%Q (cache_run h)) = None /\
  ec_hits (cache_run h) = 1 /\ ec_misses (cache_run h) = 1.
Proof. vm_compute. repeat split. Qed.
