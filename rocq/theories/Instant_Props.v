(** * C94: interrupts at any instant *)
From Verif Require Import PyBase Rounding_Model Rounding_Spec Container_Model Container_Spec Finder_Model Finder_Spec
  Instant_Model Instant_Spec Instant_Proofs.
Open Scope Z_scope.

(** Any history of calls of a rounding container, each complete or cut off after any number
    of instructions, leaves the container that some history of complete calls leaves. *)
Theorem C94_history : forall h c, exists g, stands_for g h /\ cut_run h c = rc_run g c.
Proof. exact cut_history. Qed.
Print Assumptions C94_history.

(** One add cut off: the container is as before or as after the call; if the precision
    changes, it may also be empty, with the old precision or the new one. *)
Theorem C94_add : forall n info r ctx c,
  let d := cut_call n (RAdd info r ctx) c in
  d = c \/ d = fst (rc_add info r ctx c) \/
  (fc_precision ctx <> rc_precision c /\ run_filters (rc_filters c) r ctx = Ok true /\
   (d = rc_clear c \/ d = rc_clear (fst (rc_add info r ctx c)))).
Proof. exact (fun n info r ctx c => cut_add info r ctx c n). Qed.
Print Assumptions C94_add.

(** .. and not cut off it is the call of Container_Model.v. *)
Theorem C94_complete_add : forall info r ctx c, exists n,
  Nat.iter n (add_instr info r ctx) (c, AtFilters (rc_filters c)) =
  (fst (rc_add info r ctx c), AtEnd (snd (rc_add info r ctx c))).
Proof. exact add_ends. Qed.
Print Assumptions C94_complete_add.

(** So C01 and C02 hold whatever was cut off: what is stored is rounded to the container's
    precision, and no pair is stored twice. *)
Theorem C94_rounded : forall p sp h iter pr, iteration_order iter ->
  let c := cut_run h (rc_init p sp) in
  In pr (reported_pairs iter c) ->
  (exists k : Z, (re (fst pr) == inject_Z k * pow10 (- fst (rc_precision c)))%Q) /\
  (exists k : Z, (im (fst pr) == inject_Z k * pow10 (- snd (rc_precision c)))%Q).
Proof. exact cut_rounded. Qed.
Print Assumptions C94_rounded.

Theorem C94_no_duplicates : forall p sp h iter, iteration_order iter ->
  ForallOrdPairs (fun a b : root => ~ (ceq (fst a) (fst b) /\ snd a = snd b))
    (reported_pairs iter (cut_run h (rc_init p sp))).
Proof. exact cut_distinct. Qed.
Print Assumptions C94_no_duplicates.

(** A search interrupted at any instant while the algorithm runs returns normally.  The later
    the instant the more reports have been handled; what was handled and accepted is reported,
    nothing is reported that was not there before or comes from these or the one being
    handled, and at equal precision nothing that was there before is lost. *)
Theorem C94_search :
  forall f df dflt alg reRan imRan prec p sp h iter, iteration_order iter ->
  let x := serial_context f df dflt reRan imRan prec in
  let ctx := toFilterContext x in
  let c := rc_run h (rc_init p sp) in
  exists k : nat -> nat, (forall n m, (n <= m)%nat -> (k n <= k m)%nat) /\
  forall n,
    let out := interrupted_calculateRoots f df dflt alg reRan imRan prec (InTry n) c in
    let handled := firstn (k n) (ar_reports (alg x)) in
    let next := firstn 1 (skipn (k n) (ar_reports (alg x))) in
    snd out = Ok tt /\
    (forall i r pr, In (i, r) handled -> accepted h r ctx -> rounded (one_more (decimals dflt prec)) r pr ->
       In pr (reported_pairs iter (fst out))) /\
    (forall pr, In pr (reported_pairs iter (fst out)) ->
       In pr (reported_pairs iter c) \/
       exists i r, In (i, r) (handled ++ next) /\ accepted h r ctx /\ rounded (one_more (decimals dflt prec)) r pr) /\
    (one_more (decimals dflt prec) = rc_precision c ->
       forall pr, In pr (reported_pairs iter c) -> In pr (reported_pairs iter (fst out))).
Proof.
  exact (fun f df dflt alg reRan imRan prec p sp h iter HI => any_instant f df dflt alg reRan imRan prec p sp h iter HI).
Qed.
Print Assumptions C94_search.

(** .. as a history of complete calls (so that what is proved of those holds of all later
    calls and searches) .. *)
Theorem C94_search_history :
  forall f df dflt alg reRan imRan prec p sp h n,
  let x := serial_context f df dflt reRan imRan prec in
  let ctx := toFilterContext x in
  exists before next after g,
  ar_reports (alg x) = before ++ next ++ after /\
  (next = [] /\ g = [] \/ exists i r, next = [(i, r)] /\ instead_of (RAdd i r ctx) g) /\
  fst (interrupted_calculateRoots f df dflt alg reRan imRan prec (InTry n) (rc_run h (rc_init p sp)))
  = rc_run (h ++ map (fun ir => RAdd (fst ir) (snd ir) ctx) before ++ g) (rc_init p sp).
Proof. exact instant_history. Qed.
Print Assumptions C94_search_history.

(** .. and late enough it is the search that was not interrupted. *)
Theorem C94_search_complete :
  forall f df dflt alg reRan imRan prec p sp h, exists n,
  fst (interrupted_calculateRoots f df dflt alg reRan imRan prec (InTry n) (rc_run h (rc_init p sp))) =
  fst (calculateRoots f df dflt alg reRan imRan prec (rc_run h (rc_init p sp))).
Proof. exact late_instant. Qed.
Print Assumptions C94_search_complete.

(** "An interrupt loses nothing that was already found" is false if the search has another
    precision: every such search has an instant at which an interrupt leaves no root at all,
    neither the old ones nor the one being added. *)
Theorem C94_nothing_lost_refuted :
  forall f df dflt alg reRan imRan prec p sp h iter i r l, iteration_order iter ->
  let x := serial_context f df dflt reRan imRan prec in
  let c := rc_run h (rc_init p sp) in
  ar_reports (alg x) = (i, r) :: l -> accepted h r (toFilterContext x) ->
  one_more (decimals dflt prec) <> rc_precision c ->
  exists n, let out := interrupted_calculateRoots f df dflt alg reRan imRan prec (InTry n) c in
    snd out = Ok tt /\ reported_pairs iter (fst out) = [] /\ rc_precision (fst out) = rc_precision c.
Proof. exact emptied_search. Qed.
Print Assumptions C94_nothing_lost_refuted.

(** The parallel finder interrupted while it empties the queue: the interrupt reaches the
    caller, and the container holds the roots taken from the queue before. *)
Theorem C94_parallel :
  forall f dflt reRan imRan prec info queue p sp h iter, iteration_order iter ->
  let ctx := drain_context f dflt reRan imRan prec in
  let c := rc_run h (rc_init p sp) in
  exists k : nat -> nat, (forall n m, (n <= m)%nat -> (k n <= k m)%nat) /\
  forall n,
    let out := interrupted_drain f dflt reRan imRan prec info queue n c in
    snd out = Err KeyboardInterrupt /\
    (forall r pr, In r (firstn (k n) queue) -> accepted h r ctx -> rounded (decimals dflt prec) r pr ->
       In pr (reported_pairs iter (fst out))) /\
    (forall pr, In pr (reported_pairs iter (fst out)) ->
       In pr (reported_pairs iter c) \/
       exists r, In r (firstn (S (k n)) queue) /\ accepted h r ctx /\ rounded (decimals dflt prec) r pr) /\
    (decimals dflt prec = rc_precision c ->
       forall pr, In pr (reported_pairs iter c) -> In pr (reported_pairs iter (fst out))).
Proof. exact any_drain. Qed.
Print Assumptions C94_parallel.

(** A plain container whose getRoots or getRootOrders was cut off has lost at most one root;
    the others are all reported by the next call, in order. *)
Theorem C94_plain : forall n c, exists l1 lost l2,
  pc_roots c ++ pc_queue c = l1 ++ lost ++ l2 /\ (List.length lost <= 1)%nat /\
  snd (pc_getRoots (cut_transfer n c)) = map fst (l1 ++ l2) /\
  snd (pc_getRootOrders (cut_transfer n c)) = map snd (l1 ++ l2).
Proof. exact plain_cut. Qed.
Print Assumptions C94_plain.

(** "None is lost" is false: whenever the queue is not empty there is an instant at which
    its oldest root disappears for good. *)
Theorem C94_plain_loses_refuted : forall c r q, pc_queue c = r :: q -> exists n,
  snd (pc_getRoots (cut_transfer n c)) = map fst (pc_roots c ++ q) /\
  snd (pc_getRoots c) = map fst (pc_roots c ++ r :: q).
Proof. exact (fun c r q E => ex_intro _ 1%nat (plain_lost c r q E)). Qed.
Print Assumptions C94_plain_loses_refuted.

(** ** Concrete cases *)
Definition some_ctx : fctx := mkFctx (fun _ => Ok (0, 0)%Q) (0, 1)%Q (0, 1)%Q (1, 1) 3.
Definition some_root : root := ((12 # 100, 1 # 2)%Q, 1).
Example C94_nonvacuous_history :
  let h := [(RAdd true some_root some_ctx, None); (RAdd true some_root (mkFctx (fun _ => Ok (0, 0)%Q) (0, 1)%Q (0, 1)%Q (2, 2) 3), Some 3%nat)] in
  rc_set (cut_run [(RAdd true some_root some_ctx, None)] (rc_init (Some (1, 1)) (5, 5))) <> [] /\
  cut_run h (rc_init (Some (1, 1)) (5, 5)) = mkRC (1, 1) [] [].
Proof. split; [vm_compute; discriminate|vm_compute; reflexivity]. Qed.
Example C94_nonvacuous_lost :
  let alg := fun _ => mkRun [(true, some_root)] None in
  let x := serial_context (fun _ => Ok (0, 0)%Q) None (3, 3) (0, 1)%Q (0, 1)%Q None in
  ar_reports (alg x) = [(true, some_root)] /\ accepted [RAdd true some_root some_ctx] some_root (toFilterContext x) /\
  one_more (decimals (3, 3) None) <> rc_precision (rc_run [RAdd true some_root some_ctx] (rc_init None (5, 5))).
Proof.
  split; [reflexivity|]. split; [|discriminate].
  intros k q (h1 & h2 & E & _). destruct h1 as [|a [|b h1]]; discriminate.
Qed.
Example C94_nonvacuous_plain :
  pc_queue (pc_init [some_root; some_root]) = [some_root; some_root].
Proof. reflexivity. Qed.
