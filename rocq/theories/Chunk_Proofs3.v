(** The chunks are columns; what a chunk does; searches with a reliable estimator. *)
From Coq Require Import Reals Qreals.
From Verif Require Import PyBase Rounding_Model Poly_Model Container_Model Container_Spec Finder_Model Finder_Spec Finder_Proofs
  Refine_Model Refine_Spec Zeros_Spec EndToEnd_Model EndToEnd_Spec EndToEnd_Proofs EndToEnd_Proofs2 EndToEnd_Proofs3
  Whole_Proofs2 Chunk_Model Chunk_Spec Chunk_Proofs Chunk_Proofs2.
Open Scope nat_scope.

Lemma C80_columns_lemma m x : 1 <= m ->
  let chunks := get_tasks m (createRootJobs m x) in
  List.length chunks = m /\ List.concat chunks = createRootJobs m x /\
  forall c, In c chunks ->
    List.length c = m /\
    (forall a b, In a c -> In b c -> cx_reRan a = cx_reRan b) /\
    (forall l1 a b l2, c = l1 ++ a :: b :: l2 -> snd (cx_imRan a) = fst (cx_imRan b)).
Proof.
  intros Hm chunks. split; [|split].
  - unfold chunks. rewrite get_tasks_jobs by exact Hm. rewrite map_length, seq_length. reflexivity.
  - apply get_tasks_concat. exact Hm.
  - intros c Hc. unfold chunks in Hc. rewrite get_tasks_jobs in Hc by exact Hm. apply in_map_iff in Hc. destruct Hc as (i & <- & _).
    split; [rewrite map_length, seq_length; reflexivity|]. split.
    + intros a b Ha Hb. apply in_map_iff in Ha, Hb. destruct Ha as (j & <- & _). destruct Hb as (j' & <- & _). reflexivity.
    + intros l1 a b l2 H. destruct (seq_pair _ _ _ _ _ _ _ H) as (j & _ & -> & ->). reflexivity.
Qed.

Section Outcome.
  Context {T : Type} (E : env T) (v : variant) (depth : nat).
  Lemma after_cons s x l : state_after E v depth s (x :: l) = state_after E v depth (job_leaves E v depth x s) l.
  Proof. reflexivity. Qed.
  Lemma C80_outcome_lemma s c :
    (forall l1 x l2, c = l1 ++ x :: l2 -> snd (worker_output E v depth (state_after E v depth s l1) x) = None) /\
    (exists outs, run_chunk E v depth s c = (List.concat outs, None) /\ List.length outs = List.length c /\
      forall l1 x l2, c = l1 ++ x :: l2 -> nth_error outs (List.length l1) = Some (fst (worker_output E v depth (state_after E v depth s l1) x)))
    \/
    exists l1 x l2 e, c = l1 ++ x :: l2 /\
      (forall k1 y k2, l1 = k1 ++ y :: k2 -> snd (worker_output E v depth (state_after E v depth s k1) y) = None) /\
      snd (worker_output E v depth (state_after E v depth s l1) x) = Some e /\
      exists outs, run_chunk E v depth s c = (List.concat outs ++ fst (worker_output E v depth (state_after E v depth s l1) x), Some e) /\
        List.length outs = List.length l1 /\
        forall k1 y k2, l1 = k1 ++ y :: k2 -> nth_error outs (List.length k1) = Some (fst (worker_output E v depth (state_after E v depth s k1) y)).
  Proof.
    revert s. induction c as [|x c IH]; intro s.
    - left. split; [intros [|? ?] y l2 H; discriminate|]. exists []. split; [reflexivity|]. split; [reflexivity|]. intros [|? ?] y l2 H; discriminate.
    - cbn [run_chunk]. cbv zeta. destruct (snd (worker_output E v depth s x)) as [e|] eqn:Hx.
      + right. exists [], x, c, e. split; [reflexivity|]. split; [intros [|? ?] y k2 H; discriminate|]. split; [exact Hx|].
        exists []. split; [reflexivity|]. split; [reflexivity|]. intros [|? ?] y k2 H; discriminate.
      + destruct (IH (job_leaves E v depth x s)) as [[A (outs & B1 & B2 & B3)]|(l1 & y & l2 & e & -> & A & B & outs & C1 & C2 & C3)].
        * left. split.
          -- intros [|a l1] y l2 H; injection H as <- H; [exact Hx|]. exact (A l1 y l2 H).
          -- exists (fst (worker_output E v depth s x) :: outs). rewrite B1. cbn [List.concat fst snd List.length]. split; [reflexivity|].
             split; [rewrite B2; reflexivity|]. intros [|a l1] y l2 H; injection H as <- H; [reflexivity|]. exact (B3 l1 y l2 H).
        * right. exists (x :: l1), y, l2, e. split; [reflexivity|]. split; [|split; [exact B|]].
          -- intros [|a k1] z k2 H; injection H as <- H; [exact Hx|]. exact (A k1 z k2 H).
          -- exists (fst (worker_output E v depth s x) :: outs). rewrite C1. cbn [List.concat fst snd List.length]. rewrite <- app_assoc.
             split; [reflexivity|]. split; [rewrite C2; reflexivity|]. intros [|a k1] z k2 H; injection H as <- H; [reflexivity|]. exact (C3 k1 z k2 H).
  Qed.
End Outcome.

Lemma C80_reliable_lemma S (E : env S) zeros depth m s f df dflt reRan imRan prec p sp iter a b :
  let P := search_precision dflt prec in
  let P' := match prec with Some q => q | None => dflt end in
  let x := serial_context f df dflt reRan imRan prec in
  (1 <= m)%nat -> iteration_order iter ->
  halvings (Qabs (fst reRan - snd reRan) + 3 * pow10 (- fst P)) (fst P) a ->
  halvings (Qabs (fst imRan - snd imRan) + 7 * pow10 (- snd P)) (snd P) b ->
  (a + b < depth)%nat ->
  (forall job, In job (createRootJobs m x) -> reliable E zeros P (rect_of job)) ->
  forall e info, pool_behaviour (pool_outputs E Simple depth s m x) e ->
    (forall x', e <> PoolRaised x') /\
    let out := parallel_calculateRoots f dflt reRan imRan prec info e (rc_init p sp) in
    snd out = Ok tt /\
    let pairs := reported_pairs iter (fst out) in
    all_genuine (11 / 20) P' P zeros reRan imRan pairs /\
    (separated 1 P zeros -> orders_right (11 / 20) P' P zeros reRan imRan pairs) /\
    (forall q, e = PoolDone q ->
       all_found (11 / 20) P' zeros reRan imRan pairs /\
       (separated (11 / 10) P' zeros -> exactly_once (11 / 20) P' zeros reRan imRan pairs)).
Proof.
  intros P P' x Hm HI Ha Hb Hd HR e info HB.
  destruct (pool_single E Simple depth s m x e Hm (rect_wide f df dflt reRan imRan prec) HB) as (st & HS & _).
  exact (C63_parallel_lemma E zeros depth m st f df dflt reRan imRan prec p sp iter a b Hm HI Ha Hb Hd HR e info HS).
Qed.

Lemma C80_any_depth_lemma S (E : env S) zeros depth m s f df dflt reRan imRan prec p sp iter :
  let P := search_precision dflt prec in
  let P' := match prec with Some q => q | None => dflt end in
  let x := serial_context f df dflt reRan imRan prec in
  (1 <= m)%nat -> iteration_order iter ->
  (forall job, In job (createRootJobs m x) -> reliable E zeros P (rect_of job)) ->
  forall e info, pool_behaviour (pool_outputs E Simple depth s m x) e ->
    let out := parallel_calculateRoots f dflt reRan imRan prec info e (rc_init p sp) in
    (forall x', e = PoolRaised x' -> snd out = Err RecursionError) /\
    (forall q, e = PoolDone q ->
       snd out = Ok tt /\
       let pairs := reported_pairs iter (fst out) in
       all_found (11 / 20) P' zeros reRan imRan pairs /\
       all_genuine (11 / 20) P' P zeros reRan imRan pairs /\
       (separated 1 P zeros -> orders_right (11 / 20) P' P zeros reRan imRan pairs) /\
       (separated (11 / 10) P' zeros -> exactly_once (11 / 20) P' zeros reRan imRan pairs)).
Proof.
  intros P P' x Hm HI HR e info HB.
  destruct (pool_single E Simple depth s m x e Hm (rect_wide f df dflt reRan imRan prec) HB) as (st & HS & _).
  exact (C63_parallel_any_depth_lemma S E zeros depth m st f df dflt reRan imRan prec p sp iter Hm HI HR e info HS).
Qed.
