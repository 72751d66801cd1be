From Verif Require Import PyBase Rounding_Model Rounding_Spec Rounding_Proofs Container_Model Container_Spec Container_Proofs
  Finder_Model Finder_Spec Finder_Proofs Instant_Model Instant_Spec.
Open Scope Z_scope.

Lemma iter_S {A} n (h : A -> A) x : Nat.iter (S n) h x = h (Nat.iter n h x).
Proof. reflexivity. Qed.
Lemma iter_shift {A} n (h : A -> A) : forall x, Nat.iter (S n) h x = Nat.iter n h (h x).
Proof. induction n as [|n IH]; intro x; [reflexivity|]. rewrite iter_S, IH. reflexivity. Qed.
Lemma iter_add {A} a b (h : A -> A) x : Nat.iter (a + b) h x = Nat.iter a h (Nat.iter b h x).
Proof. induction a as [|a IH]; [reflexivity|]. cbn [Nat.add]. rewrite !iter_S, IH. reflexivity. Qed.

(** What holds of a call of addRoot at every instant, [c] being the container at its begin. *)
Definition add_inv (info : bool) (r : root) (ctx : fctx) (c : rcont) (s : rcont * add_at) : Prop :=
  let p := fc_precision ctx in
  let same := prec_eqb p (rc_precision c) in
  let base := mkRC p (if same then rc_set c else []) (rc_filters c) in
  let ok := run_filters (rc_filters c) r ctx = Ok true in
  match snd s with
  | AtFilters rest => fst s = c /\ run_filters (rc_filters c) r ctx = run_filters rest r ctx
  | AtCompare => fst s = c /\ ok
  | AtClear => fst s = c /\ ok /\ same = false
  | AtSet => fst s = rc_clear c /\ ok /\ same = false
  | AtRound => fst s = base /\ ok
  | AtLookup x => fst s = base /\ ok /\ x = roundRoot r p
  | AtInsert x => fst s = base /\ ok /\ x = roundRoot r p
  | AtEnd a => (fst s, a) = rc_add info r ctx c
  end.

Lemma add_instr_inv info r ctx c s : add_inv info r ctx c s -> add_inv info r ctx c (add_instr info r ctx s).
Proof.
  destruct s as [d k]. unfold add_inv, add_instr. cbn [fst snd].
  destruct k as [rest| | | | |x|x|a]; intro H.
  - destruct H as [-> H]. destruct rest as [|[key q] rest]; cbn [fst snd].
    + split; [reflexivity|exact H].
    + cbn in H. destruct (q r ctx) as [[|]|e]; cbn [fst snd].
      * split; [reflexivity|exact H].
      * unfold rc_add. rewrite H. reflexivity.
      * unfold rc_add. rewrite H. reflexivity.
  - destruct H as [-> H]. destruct (prec_eqb _ _) eqn:E; cbn [fst snd negb].
    + split; [|exact H]. apply prec_eqb_eq in E. rewrite E. destruct c; reflexivity.
    + split; [reflexivity|]. split; [exact H|reflexivity].
  - destruct H as (-> & H & E). cbn [fst snd]. auto.
  - destruct H as (-> & H & E). cbn [fst snd]. rewrite ?E. split; [reflexivity|exact H].
  - destruct H as (-> & H). cbn [fst snd rc_precision]. auto.
  - destruct H as (-> & H & ->). cbn [fst snd rc_set].
    destruct info; cbn [andb fst snd].
    + destruct (set_mem _ _) eqn:M; cbn [fst snd]; [|auto].
      rewrite rc_add_accept by exact H. unfold rc_add_core, set_add. rewrite M. reflexivity.
    + auto.
  - destruct H as (-> & H & ->). cbn [fst snd rc_set rc_precision rc_filters].
    rewrite rc_add_accept by exact H. reflexivity.
  - exact H.
Qed.

Lemma add_iter_inv info r ctx c n : add_inv info r ctx c (Nat.iter n (add_instr info r ctx) (c, AtFilters (rc_filters c))).
Proof. induction n as [|n IH]; [split; reflexivity|]. rewrite iter_S. apply add_instr_inv, IH. Qed.

(** The four possibilities. *)
Lemma add_inv_states info r ctx c s : add_inv info r ctx c s ->
  fst s = c \/ fst s = fst (rc_add info r ctx c) \/
  (fc_precision ctx <> rc_precision c /\ run_filters (rc_filters c) r ctx = Ok true /\
   (fst s = rc_clear c \/ fst s = rc_clear (fst (rc_add info r ctx c)))).
Proof.
  destruct s as [d k]. unfold add_inv. cbn [fst snd].
  assert (B : d = mkRC (fc_precision ctx) (if prec_eqb (fc_precision ctx) (rc_precision c) then rc_set c else []) (rc_filters c) ->
    run_filters (rc_filters c) r ctx = Ok true ->
    d = c \/ d = fst (rc_add info r ctx c) \/
    (fc_precision ctx <> rc_precision c /\ run_filters (rc_filters c) r ctx = Ok true /\
     (d = rc_clear c \/ d = rc_clear (fst (rc_add info r ctx c))))).
  { intros -> H. destruct (prec_eqb (fc_precision ctx) (rc_precision c)) eqn:E.
    - left. apply prec_eqb_eq in E. rewrite E. destruct c; reflexivity.
    - right. right. split; [intro K; apply prec_eqb_eq in K; congruence|]. split; [exact H|].
      right. rewrite rc_add_accept by exact H. reflexivity. }
  destruct k as [rest| | | | |x|x|a]; intro H; try (left; apply H); try (apply B; apply H).
  - destruct H as (-> & H & E). right. right. split; [intro K; apply prec_eqb_eq in K; congruence|]. auto.
  - right. left. change d with (fst (d, a)). rewrite H. reflexivity.
Qed.

Lemma cut_add info r ctx c n :
  let d := cut_call n (RAdd info r ctx) c in
  d = c \/ d = fst (rc_add info r ctx c) \/
  (fc_precision ctx <> rc_precision c /\ run_filters (rc_filters c) r ctx = Ok true /\
   (d = rc_clear c \/ d = rc_clear (fst (rc_add info r ctx c)))).
Proof. cbv zeta. apply add_inv_states, add_iter_inv. Qed.

Lemma cut_instead n o c : exists g, instead_of o g /\ cut_call n o c = rc_run g c.
Proof.
  destruct o as [info r ctx|r| |p k|k]; try (destruct n; [exists []; split; [left|]; reflexivity|eexists [_]; split; [right; left|]; reflexivity]).
  destruct (cut_add info r ctx c n) as [E|[E|(_ & _ & [E|E])]]; rewrite E.
  - exists []. split; [left|]; reflexivity.
  - exists [RAdd info r ctx]. split; [right; left; reflexivity|reflexivity].
  - exists [RClear]. split; [right; right; left; reflexivity|reflexivity].
  - exists [RAdd info r ctx; RClear]. split; [right; right; right; reflexivity|reflexivity].
Qed.

Lemma cut_history h : forall c, exists g, stands_for g h /\ cut_run h c = rc_run g c.
Proof.
  induction h as [|[o [n|]] h IH]; intro c; cbn [cut_run].
  - exists []. split; [constructor|reflexivity].
  - destruct (cut_instead n o c) as (g' & A & E). destruct (IH (cut_call n o c)) as (g & B & F).
    exists (g' ++ g). split; [constructor; assumption|]. rewrite rc_run_app, <- E. exact F.
  - destruct (IH (rc_step c o)) as (g & B & F). exists (o :: g). split; [constructor; exact B|exact F].
Qed.

Lemma cut_rounded p sp h iter pr : iteration_order iter ->
  let c := cut_run h (rc_init p sp) in
  In pr (reported_pairs iter c) ->
  (exists k : Z, (re (fst pr) == inject_Z k * pow10 (- fst (rc_precision c)))%Q) /\
  (exists k : Z, (im (fst pr) == inject_Z k * pow10 (- snd (rc_precision c)))%Q).
Proof.
  intros HI c. unfold c. destruct (cut_history h (rc_init p sp)) as (g & _ & E). rewrite E.
  exact (C01_lemma p sp g iter pr HI).
Qed.

Lemma cut_distinct p sp h iter : iteration_order iter ->
  ForallOrdPairs (fun a b : root => ~ (ceq (fst a) (fst b) /\ snd a = snd b))
    (reported_pairs iter (cut_run h (rc_init p sp))).
Proof.
  intro HI. destruct (cut_history h (rc_init p sp)) as (g & _ & E). rewrite E.
  exact (C02_lemma p sp g iter HI).
Qed.

(** ** A call that is not cut off comes to its end *)
Lemma filters_end info r ctx c : forall fs, exists n,
  Nat.iter n (add_instr info r ctx) (c, AtFilters fs) =
  (c, match run_filters fs r ctx with Err e => AtEnd (Err e) | Ok false => AtEnd (Ok tt) | Ok true => AtCompare end).
Proof.
  induction fs as [|[k q] fs [n IH]].
  - exists 1%nat. reflexivity.
  - destruct (q r ctx) as [[|]|e] eqn:E.
    + exists (S n). rewrite iter_shift. cbn [add_instr run_filters]. rewrite E. exact IH.
    + exists 1%nat. cbn [Nat.iter nat_rect add_instr run_filters]. rewrite E. reflexivity.
    + exists 1%nat. cbn [Nat.iter nat_rect add_instr run_filters]. rewrite E. reflexivity.
Qed.

Lemma add_ends info r ctx c : exists n,
  Nat.iter n (add_instr info r ctx) (c, AtFilters (rc_filters c)) =
  (fst (rc_add info r ctx c), AtEnd (snd (rc_add info r ctx c))).
Proof.
  assert (G : exists n a, snd (Nat.iter n (add_instr info r ctx) (c, AtFilters (rc_filters c))) = AtEnd a).
  { destruct (filters_end info r ctx c (rc_filters c)) as [n E].
    destruct (run_filters (rc_filters c) r ctx) as [[|]|e].
    - exists (6 + n)%nat. rewrite iter_add, E.
      change (Nat.iter 6 (add_instr info r ctx) (c, AtCompare)) with
        (Nat.iter 5 (add_instr info r ctx) (add_instr info r ctx (c, AtCompare))).
      unfold add_instr at 2.
      destruct (negb (prec_eqb (fc_precision ctx) (rc_precision c))); cbn [Nat.iter nat_rect].
      + change (add_instr info r ctx (c, AtClear)) with (rc_clear c, AtSet).
        cbn [add_instr rc_clear rc_set rc_filters rc_precision set_mem existsb]. rewrite andb_false_r. eexists. reflexivity.
      + cbn [add_instr]. destruct (_ && _); eexists; reflexivity.
    - exists n. rewrite E. eexists. reflexivity.
    - exists n. rewrite E. eexists. reflexivity. }
  destruct G as (n & a & G). exists n. pose proof (add_iter_inv info r ctx c n) as H.
  destruct (Nat.iter n _ _) as [d k]. cbn [snd] in G. subst k. unfold add_inv in H. cbn [fst snd] in H.
  rewrite <- H. reflexivity.
Qed.

(** ** A search at an instant *)
Section Feed.
  Variable ctx : fctx.
  Variable l : list (bool * root).
  Variable c : rcont.

  (** What holds of the search at every instant. *)
  Definition feed_inv (s : feeding) : Prop :=
    exists before,
      match fd_now s with
      | None => l = before ++ fd_next s /\ feed ctx before c = (fd_cont s, Ok tt)
      | Some (i, r, k) => l = before ++ (i, r) :: fd_next s /\
          exists c0, feed ctx before c = (c0, Ok tt) /\ add_inv i r ctx c0 (fd_cont s, k)
      end.

  Lemma feed_snoc l1 i r c1 : feed ctx l1 c = (c1, Ok tt) -> feed ctx (l1 ++ [(i, r)]) c = rc_add i r ctx c1.
  Proof. intro H. rewrite feed_app, H. cbn. destruct (rc_add i r ctx c1) as [c' [[]|e]]; reflexivity. Qed.

  Lemma feed_instr_inv s : feed_inv s -> feed_inv (feed_instr ctx s).
  Proof.
    intros [before H]. destruct s as [d [[[i r] k]|] next]; cbn [fd_now fd_next fd_cont] in H.
    - destruct H as (E & c0 & F & A).
      assert (G : (exists a, k = AtEnd a) \/ feed_instr ctx (mkFeeding d (Some (i, r, k)) next)
        = let '(c', k') := add_instr i r ctx (d, k) in mkFeeding c' (Some (i, r, k')) next).
      { destruct k as [rest| | | | |x|x|a]; try (right; reflexivity). left. exists a. reflexivity. }
      destruct G as [[a ->]|G].
      + destruct a as [[]|e].
        * cbn [feed_instr fd_now fd_next fd_cont]. exists (before ++ [(i, r)]). cbn [fd_now fd_next fd_cont].
          split; [rewrite <- app_assoc; exact E|]. rewrite (feed_snoc _ i r c0 F). symmetry. exact A.
        * exists before. cbn [feed_instr fd_now fd_next fd_cont]. split; [exact E|]. exists c0. split; [exact F|exact A].
      + rewrite G. pose proof (add_instr_inv i r ctx c0 _ A) as B. destruct (add_instr i r ctx (d, k)) as [d' k'].
        exists before. cbn [fd_now fd_next fd_cont]. split; [exact E|]. exists c0. split; [exact F|exact B].
    - destruct H as (E & F). destruct next as [|[i r] next]; cbn [feed_instr fd_now fd_next fd_cont].
      + exists before. cbn [fd_now fd_next fd_cont]. split; [exact E|exact F].
      + exists before. cbn [fd_now fd_next fd_cont]. split; [exact E|]. exists d. split; [exact F|]. split; reflexivity.
  Qed.

  Lemma feed_iter_inv n : feed_inv (Nat.iter n (feed_instr ctx) (mkFeeding c None l)).
  Proof.
    induction n as [|n IH]; [exists []; cbn; auto|]. rewrite iter_S. apply feed_instr_inv, IH.
  Qed.
End Feed.

Lemma acc_dec_some c ctx (l : list (bool * root)) :
  (exists ir, In ir l /\ acc c ctx (snd ir)) \/ (forall ir, In ir l -> ~ acc c ctx (snd ir)).
Proof.
  induction l as [|a l [(ir & A & B)|N]].
  - right. intros ir [].
  - left. exists ir. split; [right; exact A|exact B].
  - destruct (run_filters_dec (rc_filters c) (snd a) ctx) as [H|H].
    + left. exists a. split; [left; reflexivity|exact H].
    + right. intros ir [<-|K]; [exact H|apply N, K].
Qed.

Lemma feed_ok_run ctx l c c1 : feed ctx l c = (c1, Ok tt) -> c1 = rc_run (adds ctx l) c.
Proof.
  intro H. destruct (feed_run ctx l c) as (l1 & l2 & E & F & K). rewrite H in F, K. cbn [fst snd is_ok] in F, K.
  rewrite (K eq_refl), app_nil_r in E. subst l1. exact F.
Qed.

(** At every instant: [before] was handled, [next] is being handled. *)
Lemma feed_seen ctx l c n : rc_inv c ->
  let s := Nat.iter n (feed_instr ctx) (mkFeeding c None l) in
  let d := fd_cont s in
  exists before next after, l = before ++ next ++ after /\ (List.length next <= 1)%nat /\
    (after = fd_next s /\ List.length next = match fd_now s with Some _ => 1 | None => 0 end)%nat /\
    (forall ir, In ir before -> acc c ctx (snd ir) -> In (roundRoot (snd ir) (fc_precision ctx)) (rc_set d)) /\
    (forall x, In x (rc_set d) -> In x (rc_set c) \/
       exists ir, In ir (before ++ next) /\ acc c ctx (snd ir) /\ x = roundRoot (snd ir) (fc_precision ctx)) /\
    (fc_precision ctx = rc_precision c -> forall x, In x (rc_set c) -> In x (rc_set d)) /\
    rc_filters d = rc_filters c.
Proof.
  intros Iv s d. destruct (feed_iter_inv ctx l c n) as [before H].
  (* the container after some complete adds *)
  assert (Whole : forall l', 
    (forall ir, In ir l' -> acc c ctx (snd ir) -> In (roundRoot (snd ir) (fc_precision ctx)) (rc_set (rc_run (adds ctx l') c))) /\
    (forall x, In x (rc_set (rc_run (adds ctx l') c)) -> In x (rc_set c) \/
       exists ir, In ir l' /\ acc c ctx (snd ir) /\ x = roundRoot (snd ir) (fc_precision ctx)) /\
    (fc_precision ctx = rc_precision c -> forall x, In x (rc_set c) -> In x (rc_set (rc_run (adds ctx l') c)))).
  { intro l'. destruct (acc_dec_some c ctx l') as [D|D].
    - destruct (adds_some ctx l' c Iv D) as [_ S]. split; [|split].
      + intros ir A B. apply S. left. exists ir. auto.
      + intros x A. apply S in A. destruct A as [(ir & A & B & C)|[_ A]]; [right; exists ir; auto|left; exact A].
      + intros P x A. apply S. right. auto.
    - rewrite (adds_none _ _ _ D). split; [|split]; auto. intros ir A B. exfalso. exact (D ir A B). }
  fold s in H. destruct (fd_now s) as [[[i r] k]|] eqn:Ek.
  - destruct H as (E & c0 & F & A). pose proof (feed_ok_run _ _ _ _ F) as F'.
    exists before, [(i, r)], (fd_next s). split; [exact E|]. split; [cbn; lia|]. split; [split; reflexivity|].
    assert (Fi : rc_filters c0 = rc_filters c) by (rewrite F'; apply adds_filters).
    destruct (add_inv_states _ _ _ _ _ A) as [X|[X|(P & R & X)]]; cbn [fst] in X; fold d in X.
    + rewrite X, F'. destruct (Whole before) as (W1 & W2 & W3). split; [exact W1|]. split; [|split; [exact W3|apply adds_filters]].
      intros x K. destruct (W2 x K) as [K'|(ir & K1 & K2)]; [left; exact K'|right; exists ir; split; [apply in_or_app; left; exact K1|exact K2]].
    + assert (Y : d = rc_run (adds ctx (before ++ [(i, r)])) c).
      { rewrite X, F'. unfold adds. rewrite map_app, rc_run_app. reflexivity. }
      rewrite Y. destruct (Whole (before ++ [(i, r)])) as (W1 & W2 & W3). split; [|split; [exact W2|split; [exact W3|apply adds_filters]]].
      intros ir K. apply W1. apply in_or_app. left. exact K.
    + assert (N : forall ir, In ir before -> ~ acc c ctx (snd ir)).
      { destruct (acc_dec_some c ctx before) as [D|D]; [|exact D]. exfalso.
        destruct (adds_some ctx before c Iv D) as [Q _]. rewrite <- F' in Q. congruence. }
      rewrite (adds_none _ _ _ N) in F'. subst c0.
      assert (Z : rc_set d = []) by (destruct X as [X|X]; rewrite X; reflexivity).
      split; [intros ir K1 K2; exfalso; exact (N ir K1 K2)|]. split; [intros x K; rewrite Z in K; destruct K|].
      split; [intro P'; exfalso; exact (P P')|].
      destruct X as [X|X]; rewrite X; [reflexivity|]. rewrite rc_add_accept by exact R. reflexivity.
  - destruct H as (E & F). pose proof (feed_ok_run _ _ _ _ F) as F'. fold d in F'.
    exists before, [], (fd_next s). split; [exact E|]. split; [cbn; lia|]. split; [split; reflexivity|].
    rewrite F', app_nil_r. destruct (Whole before) as (W1 & W2 & W3).
    split; [exact W1|]. split; [exact W2|]. split; [exact W3|apply adds_filters].
Qed.

(** A search that is not cut off comes to its end. *)
Lemma feed_instr_add ctx i r next n : forall d k d' k',
  Nat.iter n (add_instr i r ctx) (d, k) = (d', k') -> (forall m a, (m < n)%nat -> snd (Nat.iter m (add_instr i r ctx) (d, k)) <> AtEnd a) ->
  Nat.iter n (feed_instr ctx) (mkFeeding d (Some (i, r, k)) next) = mkFeeding d' (Some (i, r, k')) next.
Proof.
  induction n as [|n IH]; intros d k d' k' E N.
  - cbn in E. inversion E. reflexivity.
  - rewrite iter_shift in E. rewrite iter_shift.
    destruct (add_instr i r ctx (d, k)) as [d1 k1] eqn:G.
    replace (feed_instr ctx (mkFeeding d (Some (i, r, k)) next)) with (mkFeeding d1 (Some (i, r, k1)) next).
    + apply IH; [exact E|]. intros m a L. specialize (N (S m) a). rewrite iter_shift, G in N. apply N. lia.
    + pose proof (fun a => N O a (Nat.lt_0_succ n)) as N0. cbn [Nat.iter nat_rect snd] in N0. unfold feed_instr. cbn [fd_now fd_next fd_cont].
      destruct k as [rest| | | | |x|x|a]; try (rewrite G; reflexivity). exfalso. exact (N0 a eq_refl).
Qed.
Lemma first_end info r ctx c : exists n,
  Nat.iter n (add_instr info r ctx) (c, AtFilters (rc_filters c)) = (fst (rc_add info r ctx c), AtEnd (snd (rc_add info r ctx c))) /\
  forall m a, (m < n)%nat -> snd (Nat.iter m (add_instr info r ctx) (c, AtFilters (rc_filters c))) <> AtEnd a.
Proof.
  assert (G : forall n, (exists m a, (m <= n)%nat /\ snd (Nat.iter m (add_instr info r ctx) (c, AtFilters (rc_filters c))) = AtEnd a /\
      forall m' a', (m' < m)%nat -> snd (Nat.iter m' (add_instr info r ctx) (c, AtFilters (rc_filters c))) <> AtEnd a')
    \/ forall m a, (m <= n)%nat -> snd (Nat.iter m (add_instr info r ctx) (c, AtFilters (rc_filters c))) <> AtEnd a).
  { induction n as [|n [(m & a & L & E & M)|N]].
    - right. intros m a L. assert (m = O) by lia. subst m. discriminate.
    - left. exists m, a. split; [lia|]. split; [exact E|exact M].
    - destruct (snd (Nat.iter (S n) (add_instr info r ctx) (c, AtFilters (rc_filters c)))) as [rest| | | | |x|x|a] eqn:E;
        try (right; intros m a0 L; assert (D : m = S n \/ (m <= n)%nat) by lia; destruct D as [->|D]; [rewrite E; discriminate|apply N, D]).
      left. exists (S n), a. split; [lia|]. split; [exact E|]. intros m' a' L. apply N. lia. }
  destruct (add_ends info r ctx c) as [n E]. destruct (G n) as [(m & a & _ & F & M)|N].
  - exists m. split; [|exact M]. pose proof (add_iter_inv info r ctx c m) as H.
    destruct (Nat.iter m _ _) as [d k]. cbn [snd] in F. subst k. unfold add_inv in H. cbn [fst snd] in H. rewrite <- H. reflexivity.
  - exfalso. apply (N n (snd (rc_add info r ctx c))); [lia|]. rewrite E. reflexivity.
Qed.

Lemma feed_ends ctx : forall l c, exists n,
  fd_cont (Nat.iter n (feed_instr ctx) (mkFeeding c None l)) = fst (feed ctx l c) /\
  (snd (feed ctx l c) = Ok tt -> Nat.iter n (feed_instr ctx) (mkFeeding c None l) = mkFeeding (fst (feed ctx l c)) None []).
Proof.
  induction l as [|[i r] l IH]; intro c; [exists O; split; [|intros _]; reflexivity|].
  destruct (first_end i r ctx c) as (n & E & M).
  pose proof (feed_instr_add ctx i r l n c (AtFilters (rc_filters c)) _ _ E M) as F.
  cbn [feed]. destruct (rc_add i r ctx c) as [c1 [[]|e]]; cbn [fst snd] in F.
  - destruct (IH c1) as [m H]. exists (m + (1 + (n + 1)))%nat.
    rewrite !iter_add. cbn [Nat.iter nat_rect] in *.
    change (feed_instr ctx (mkFeeding c None ((i, r) :: l))) with (mkFeeding c (Some (i, r, AtFilters (rc_filters c))) l).
    unfold Nat.iter in F, H |- *. rewrite F. exact H.
  - exists (n + 1)%nat. rewrite iter_add. 
    change (Nat.iter 1 (feed_instr ctx) (mkFeeding c None ((i, r) :: l))) with (mkFeeding c (Some (i, r, AtFilters (rc_filters c))) l).
    rewrite F. split; [reflexivity|discriminate].
Qed.

(** How many reports have been handled. *)
Definition handled (l : list (bool * root)) (s : feeding) : nat :=
  (List.length l - (List.length (fd_next s) + match fd_now s with Some _ => 1 | None => 0 end))%nat.
Lemma handled_step ctx l s : (handled l s <= handled l (feed_instr ctx s))%nat.
Proof.
  unfold handled. destruct s as [d [[[i r] k]|] next]; unfold feed_instr; cbn [fd_now fd_next fd_cont].
  - destruct k as [rest| | | | |x|x|[u|e]]; try (destruct (add_instr i r ctx (d, _)) as [d' k']); cbn [fd_now fd_next]; lia.
  - destruct next as [|[i r] next]; cbn [fd_now fd_next List.length]; lia.
Qed.
Lemma handled_mono ctx l s n m : (n <= m)%nat ->
  (handled l (Nat.iter n (feed_instr ctx) s) <= handled l (Nat.iter m (feed_instr ctx) s))%nat.
Proof.
  induction 1 as [|m _ IH]; [reflexivity|]. rewrite iter_S. etransitivity; [exact IH|apply handled_step].
Qed.

Lemma feed_seen_at ctx l c n : rc_inv c ->
  let s := Nat.iter n (feed_instr ctx) (mkFeeding c None l) in
  let d := fd_cont s in
  let before := firstn (handled l s) l in
  let next := firstn 1 (skipn (handled l s) l) in
    (forall ir, In ir before -> acc c ctx (snd ir) -> In (roundRoot (snd ir) (fc_precision ctx)) (rc_set d)) /\
    (forall x, In x (rc_set d) -> In x (rc_set c) \/
       exists ir, In ir (before ++ next) /\ acc c ctx (snd ir) /\ x = roundRoot (snd ir) (fc_precision ctx)) /\
    (fc_precision ctx = rc_precision c -> forall x, In x (rc_set c) -> In x (rc_set d)).
Proof.
  intros Iv s d. destruct (feed_seen ctx l c n Iv) as (before & next & after & E & L & (A & B) & H1 & H2 & H3 & _).
  fold s in A, B. fold s d in H1, H2, H3. cbv zeta.
  assert (K : handled l s = List.length before).
  { unfold handled. rewrite E, !app_length, A, B. lia. }
  assert (F : firstn (handled l s) l = before).
  { rewrite K, E. rewrite firstn_app, Nat.sub_diag, firstn_all. cbn. apply app_nil_r. }
  assert (G : skipn (handled l s) l = next ++ after).
  { rewrite K, E, skipn_app, Nat.sub_diag, skipn_all. reflexivity. }
  rewrite F, G. split; [exact H1|]. split; [|exact H3].
  intros x X. destruct (H2 x X) as [Y|(ir & Y & Z)]; [left; exact Y|right]. exists ir. split; [|exact Z].
  apply in_app_or in Y. apply in_or_app. destruct Y as [Y|Y]; [left; exact Y|right].
  destruct next as [|a [|b next]]; [destruct Y|exact Y|cbn in L; lia].
Qed.

Section Whole.
  Variables (f : holoFunc) (df : option holoFunc) (dflt : Z * Z) (alg : rctx -> alg_run).
  Variables (reRan imRan : Q * Q) (prec : option (Z * Z)).
  Variables (p : option (Z * Z)) (sp : Z * Z) (h : list rc_op) (iter : list root -> list root).
  Hypothesis HI : iteration_order iter.
  Let x := serial_context f df dflt reRan imRan prec.
  Let ctx := toFilterContext x.
  Let c := rc_run h (rc_init p sp).

  Lemma any_instant : exists k : nat -> nat,
    (forall n m, (n <= m)%nat -> (k n <= k m)%nat) /\
    forall n,
      let out := interrupted_calculateRoots f df dflt alg reRan imRan prec (InTry n) c in
      let handled := firstn (k n) (ar_reports (alg x)) in
      let next := firstn 1 (skipn (k n) (ar_reports (alg x))) in
      snd out = Ok tt /\
      (forall i r pr, In (i, r) handled -> accepted h r ctx -> rounded (one_more (decimals dflt prec)) r pr ->
         In pr (reported_pairs iter (fst out))) /\
      (forall pr, In pr (reported_pairs iter (fst out)) ->
         In pr (reported_pairs iter c) \/
         exists i r, In (i, r) (handled ++ next) /\ accepted h r ctx /\ rounded (one_more (decimals dflt prec)) r pr) /\
      (one_more (decimals dflt prec) = rc_precision c ->
         forall pr, In pr (reported_pairs iter c) -> In pr (reported_pairs iter (fst out))).
  Proof.
    exists (fun n => handled (ar_reports (alg x)) (Nat.iter n (feed_instr ctx) (mkFeeding c None (ar_reports (alg x))))).
    split; [intros n m L; apply handled_mono, L|].
    intro n. cbv zeta. cbn [interrupted_calculateRoots]. fold x. fold ctx. split; [reflexivity|]. cbn [fst].
    destruct (feed_seen_at ctx (ar_reports (alg x)) c n (rc_after_inv p sp h)) as (H1 & H2 & H3).
    assert (P : fc_precision ctx = one_more (decimals dflt prec)) by reflexivity.
    split; [|split].
    - intros i r pr A B C. apply reported_pairs_in; [exact HI|]. apply rounded_iff in C. subst pr.
      rewrite <- P. apply (H1 (i, r) A). apply accepts_iff, B.
    - intros pr A. apply reported_pairs_in in A; [|exact HI]. destruct (H2 pr A) as [B|([i r] & B1 & B2 & B3)].
      + left. apply reported_pairs_in; [exact HI|exact B].
      + right. exists i, r. split; [exact B1|]. split; [apply (accepts_iff p sp), B2|]. apply rounded_iff. exact B3.
    - intros E pr A. apply reported_pairs_in; [exact HI|]. apply H3; [rewrite P; exact E|].
      apply reported_pairs_in in A; [exact A|exact HI].
  Qed.

  Lemma late_instant : exists n,
    fst (interrupted_calculateRoots f df dflt alg reRan imRan prec (InTry n) c) =
    fst (calculateRoots f df dflt alg reRan imRan prec c).
  Proof.
    destruct (feed_ends ctx (ar_reports (alg x)) c) as (n & E & _). exists n.
    cbn [interrupted_calculateRoots fst]. fold x. fold ctx. rewrite E.
    symmetry. apply calculateRoots_state.
  Qed.

  (** Exactly what is in the container. *)
  Lemma instant_history n : exists before next after g,
    ar_reports (alg x) = before ++ next ++ after /\
    (next = [] /\ g = [] \/ exists i r, next = [(i, r)] /\ instead_of (RAdd i r ctx) g) /\
    fst (interrupted_calculateRoots f df dflt alg reRan imRan prec (InTry n) c)
    = rc_run (h ++ map (fun ir => RAdd (fst ir) (snd ir) ctx) before ++ g) (rc_init p sp).
  Proof.
    cbn [interrupted_calculateRoots fst]. fold x. fold ctx.
    destruct (feed_iter_inv ctx (ar_reports (alg x)) c n) as [before H].
    set (s := Nat.iter n (feed_instr ctx) (mkFeeding c None (ar_reports (alg x)))) in *.
    destruct (fd_now s) as [[[i r] k]|].
    - destruct H as (E & c0 & F & A). pose proof (feed_ok_run _ _ _ _ F) as F'.
      assert (G : exists g, instead_of (RAdd i r ctx) g /\ fd_cont s = rc_run g c0).
      { destruct (add_inv_states _ _ _ _ _ A) as [X|[X|(_ & _ & [X|X])]]; cbn [fst] in X; rewrite X.
        - exists []. split; [left|]; reflexivity.
        - exists [RAdd i r ctx]. split; [right; left|]; reflexivity.
        - exists [RClear]. split; [right; right; left|]; reflexivity.
        - exists [RAdd i r ctx; RClear]. split; [right; right; right|]; reflexivity. }
      destruct G as (g & G1 & G2). exists before, [(i, r)], (fd_next s), g. split; [exact E|]. split; [right; exists i, r; auto|].
      rewrite !rc_run_app. fold c. fold (adds ctx before). rewrite <- F'. exact G2.
    - destruct H as (E & F). exists before, [], (fd_next s), []. split; [exact E|]. split; [left; auto|].
      rewrite !rc_run_app. fold c. fold (adds ctx before). cbn. apply feed_ok_run, F.
  Qed.
End Whole.

(** ** The parallel finder's queue *)
Lemma any_drain f dflt reRan imRan prec info queue p sp h iter : iteration_order iter ->
  let ctx := drain_context f dflt reRan imRan prec in
  let c := rc_run h (rc_init p sp) in
  exists k : nat -> nat, (forall n m, (n <= m)%nat -> (k n <= k m)%nat) /\
  forall n,
    let out := interrupted_drain f dflt reRan imRan prec info queue n c in
    snd out = Err KeyboardInterrupt /\
    (forall r pr, In r (firstn (k n) queue) -> accepted h r ctx -> rounded (decimals dflt prec) r pr ->
       In pr (reported_pairs iter (fst out))) /\
    (forall pr, In pr (reported_pairs iter (fst out)) ->
       In pr (reported_pairs iter c) \/
       exists r, In r (firstn (S (k n)) queue) /\ accepted h r ctx /\ rounded (decimals dflt prec) r pr) /\
    (decimals dflt prec = rc_precision c ->
       forall pr, In pr (reported_pairs iter c) -> In pr (reported_pairs iter (fst out))).
Proof.
  intros HI ctx c. set (l := map (fun r => (info, r)) queue).
  exists (fun n => handled l (Nat.iter n (feed_instr ctx) (mkFeeding c None l))).
  split; [intros n m L; apply handled_mono, L|].
  intro n. cbv zeta. unfold interrupted_drain. fold ctx. fold l. split; [reflexivity|]. cbn [fst].
  destruct (feed_seen_at ctx l c n (rc_after_inv p sp h)) as (H1 & H2 & H3).
  set (k := handled l _) in *.
  assert (P : fc_precision ctx = decimals dflt prec).
  { destruct (drain_context_spec f dflt reRan imRan prec) as (_ & P & _). exact P. }
  split; [|split].
  - intros r pr A B C. apply reported_pairs_in; [exact HI|]. apply rounded_iff in C. subst pr.
    rewrite <- P. apply (H1 (info, r)); [|apply accepts_iff, B]. unfold l. rewrite firstn_map.
    apply (in_map (fun r => (info, r))). exact A.
  - intros pr A. apply reported_pairs_in in A; [|exact HI]. destruct (H2 pr A) as [B|([i r] & B1 & B2 & B3)].
    + left. apply reported_pairs_in; [exact HI|exact B].
    + right. exists r. split.
      * assert (M : In (i, r) (map (fun r => (info, r)) (firstn k queue ++ firstn 1 (skipn k queue)))).
        { rewrite map_app, <- !firstn_map, <- skipn_map. exact B1. }
        apply in_map_iff in M. destruct M as (r' & M1 & M2). inversion M1. subst r'.
        replace (S k) with (k + 1)%nat by lia.
        apply in_app_or in M2. destruct M2 as [M2|M2].
        -- rewrite <- (firstn_skipn k queue), firstn_app. apply in_or_app. left. rewrite firstn_firstn, Nat.min_r by lia. exact M2.
        -- destruct (Nat.le_gt_cases (List.length queue) k) as [L|L].
           { rewrite skipn_all2 in M2 by exact L. destruct M2. }
           rewrite <- (firstn_skipn k queue), firstn_app, firstn_length, Nat.min_l by lia.
           apply in_or_app. right. replace (k + 1 - k)%nat with 1%nat by lia. exact M2.
      * split; [apply (accepts_iff p sp), B2|]. rewrite <- P. apply rounded_iff. exact B3.
  - intros E pr A. apply reported_pairs_in; [exact HI|]. apply H3; [rewrite P; exact E|].
    apply reported_pairs_in in A; [exact A|exact HI].
Qed.

(** ** Plain containers *)
Lemma transfer_keeps n c : let s := Nat.iter n transfer_instr (c, None) in
  pc_roots (fst s) ++ (match snd s with Some r => [r] | None => [] end) ++ pc_queue (fst s) = pc_roots c ++ pc_queue c.
Proof.
  cbv zeta. induction n as [|n IH]; [reflexivity|]. rewrite iter_S.
  destruct (Nat.iter n transfer_instr (c, None)) as [d [r|]]; cbn [transfer_instr fst snd] in *.
  - cbn [pc_roots pc_queue]. rewrite <- IH, <- !app_assoc. reflexivity.
  - destruct (pc_queue d) as [|r q] eqn:E; cbn [fst snd pc_roots pc_queue]; [rewrite E; exact IH|exact IH].
Qed.

Lemma drain_all q : forall rs, pc_drain q rs = rs ++ q.
Proof. induction q as [|r q IH]; intro rs; cbn; [rewrite app_nil_r; reflexivity|]. rewrite IH, <- app_assoc. reflexivity. Qed.

Lemma plain_cut n c : exists l1 lost l2,
  pc_roots c ++ pc_queue c = l1 ++ lost ++ l2 /\ (List.length lost <= 1)%nat /\
  snd (pc_getRoots (cut_transfer n c)) = map fst (l1 ++ l2) /\
  snd (pc_getRootOrders (cut_transfer n c)) = map snd (l1 ++ l2).
Proof.
  pose proof (transfer_keeps n c) as H. unfold cut_transfer. destruct (Nat.iter n transfer_instr (c, None)) as [d o].
  cbn [fst snd] in H |- *. exists (pc_roots d), (match o with Some r => [r] | None => [] end), (pc_queue d).
  split; [symmetry; exact H|]. split; [destruct o; cbn; lia|].
  unfold pc_getRoots, pc_getRootOrders, pc_transfer. cbn [snd pc_roots]. rewrite drain_all. split; reflexivity.
Qed.

Lemma plain_lost c r q : pc_queue c = r :: q ->
  snd (pc_getRoots (cut_transfer 1 c)) = map fst (pc_roots c ++ q) /\
  snd (pc_getRoots c) = map fst (pc_roots c ++ r :: q).
Proof.
  intro E. unfold cut_transfer. cbn [Nat.iter nat_rect transfer_instr]. rewrite E. cbn [fst].
  unfold pc_getRoots, pc_transfer. cbn [snd pc_roots pc_queue]. rewrite !drain_all, E. split; reflexivity.
Qed.

(** ** A change of precision cut off *)
Lemma end_stays info r ctx c a m n : (m <= n)%nat ->
  snd (Nat.iter m (add_instr info r ctx) c) = AtEnd a -> snd (Nat.iter n (add_instr info r ctx) c) = AtEnd a.
Proof.
  induction 1 as [|n _ IH]; [auto|]. intro H. rewrite iter_S. specialize (IH H).
  destruct (Nat.iter n _ c) as [d k]. cbn [snd] in IH. subst k. reflexivity.
Qed.

Lemma emptied info r ctx c : run_filters (rc_filters c) r ctx = Ok true -> fc_precision ctx <> rc_precision c ->
  exists n, Nat.iter n (add_instr info r ctx) (c, AtFilters (rc_filters c)) = (rc_clear c, AtSet).
Proof.
  intros H P. destruct (filters_end info r ctx c (rc_filters c)) as [n E]. rewrite H in E.
  exists (2 + n)%nat. rewrite iter_add, E. cbn [Nat.iter nat_rect].
  assert (Q : prec_eqb (fc_precision ctx) (rc_precision c) = false).
  { destruct (prec_eqb _ _) eqn:Q; [|reflexivity]. apply prec_eqb_eq in Q. contradiction. }
  change (add_instr info r ctx (c, AtCompare)) with
    (c, if negb (prec_eqb (fc_precision ctx) (rc_precision c)) then AtClear else AtRound).
  rewrite Q. reflexivity.
Qed.

Lemma emptied_search f df dflt alg reRan imRan prec p sp h iter i r l : iteration_order iter ->
  let x := serial_context f df dflt reRan imRan prec in
  let c := rc_run h (rc_init p sp) in
  ar_reports (alg x) = (i, r) :: l -> accepted h r (toFilterContext x) ->
  one_more (decimals dflt prec) <> rc_precision c ->
  exists n, let out := interrupted_calculateRoots f df dflt alg reRan imRan prec (InTry n) c in
    snd out = Ok tt /\ reported_pairs iter (fst out) = [] /\ rc_precision (fst out) = rc_precision c.
Proof.
  intros HI x c E A P. set (ctx := toFilterContext x).
  assert (R : run_filters (rc_filters c) r ctx = Ok true) by (apply accepts_iff; exact A).
  destruct (emptied i r ctx c R P) as [n H].
  assert (N : forall m a, (m < n)%nat -> snd (Nat.iter m (add_instr i r ctx) (c, AtFilters (rc_filters c))) <> AtEnd a).
  { intros m a L K. apply (end_stays _ _ _ _ _ m n) in K; [|lia]. rewrite H in K. discriminate. }
  exists (n + 1)%nat. cbn [interrupted_calculateRoots fst snd]. fold x. fold ctx.
  rewrite iter_add, E.
  change (Nat.iter 1 (feed_instr ctx) (mkFeeding c None ((i, r) :: l))) with (mkFeeding c (Some (i, r, AtFilters (rc_filters c))) l).
  rewrite (feed_instr_add ctx i r l n _ _ _ _ H N). cbn [fd_cont].
  split; [reflexivity|]. split; [|reflexivity].
  rewrite reported_pairs_eq. cbn [rc_clear rc_set]. apply Permutation_nil. symmetry. apply HI.
Qed.
