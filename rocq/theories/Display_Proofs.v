From Verif Require Import PyBase Rounding_Model Container_Model Finder_Model Display_Model Display_Spec.
Open Scope Z_scope.

Lemma change_here {A} (h : A -> A) l a : change (List.length l) h (l ++ [a]) = l ++ [h a].
Proof.
  unfold change. rewrite nth_error_app2, Nat.sub_diag by lia. cbn [nth_error].
  rewrite firstn_app, Nat.sub_diag, firstn_all. cbn [firstn]. rewrite app_nil_r.
  rewrite skipn_all2 by (rewrite app_length; cbn; lia). reflexivity.
Qed.
Lemma nth_here {A} (l : list A) a : nth_error (l ++ [a]) (List.length l) = Some a.
Proof. rewrite nth_error_app2, Nat.sub_diag by lia. reflexivity. Qed.
Lemma change_first {A} (h : A -> A) a : change 0 h [a] = [h a].
Proof. reflexivity. Qed.

(** The console with one more bar, which has one task. *)
Definition shows (old : list bar) (x : task) (st : bool) (live : list nat) : console :=
  mkConsole (old ++ [mkBar [x] st]) live.

Lemma task_here old x st live h :
  on_task (List.length old) 0 h (shows old x st live) = shows old (h x) st live.
Proof. unfold on_task, on_bar, shows. cbn [c_bars c_live]. rewrite change_here. reflexivity. Qed.

Lemma advances_here old st live advances : forall x,
  fold_left (fun c a => advance_task (List.length old) 0 a c) advances (shows old x st live)
  = shows old (mkTask (t_total x) (fold_left Qplus advances (t_done x)) (t_label x) (t_visible x) (t_stopped x)) st live.
Proof.
  induction advances as [|a l IH]; intro x; cbn [fold_left]; [destruct x; reflexivity|].
  unfold advance_task at 2. rewrite task_here, IH. reflexivity.
Qed.

Lemma start_here nested old x live :
  nested = true \/ live = [] ->
  start nested (List.length old) (shows old x false live) = Some (shows old x true (List.length old :: live)).
Proof.
  intro H. unfold start, shows. cbn [c_live c_bars]. rewrite change_here. cbn [b_tasks].
  destruct live as [|n live]; [reflexivity|]. destruct H as [->|H]; [reflexivity|discriminate].
Qed.

Lemma stop_here old x st n live :
  stop (List.length old) (shows old x st (n :: live)) = shows old x false live.
Proof. unfold stop, shows. cbn [c_live c_bars tl]. rewrite change_here. reflexivity. Qed.

Section Calls.
  Context {S : Type} (nested : bool).

  (** A verbose call when no display is live (or several may be). *)
  Lemma display_free area (search : S -> S * list Q * option exn) c s :
    nested = true \/ c_live c = [] ->
    let '(s', advances, e) := search s in
    let x l := mkTask area (total_of advances) l true false in
    with_display nested true area search c s =
    match e with
    | None => (shows (c_bars c) (x Finished) false (c_live c), s', Returned)
    | Some KeyboardInterrupt => (shows (c_bars c) (x Working) false (c_live c), s', Returned)
    | Some e => (shows (c_bars c) (x Working) true (List.length (c_bars c) :: c_live c), s', Raises e)
    end.
  Proof.
    intro H. unfold with_display, new_bar, addTask, on_bar. cbn [c_bars c_live].
    rewrite nth_here, change_here. cbn [b_tasks b_started List.length app].
    fold (shows (c_bars c) (mkTask area 0 Working true false) false (c_live c)).
    rewrite start_here by exact H.
    destruct (search s) as [[s' advances] e]. rewrite advances_here. cbn [t_total t_done t_label t_visible t_stopped Nat.eqb].
    destruct e as [[]|]; try (rewrite stop_here); try reflexivity.
    unfold finish_task. rewrite task_here, stop_here. reflexivity.
  Qed.

  Lemma display_busy area (search : S -> S * list Q * option exn) c s :
    nested = false -> c_live c <> [] ->
    exists c', with_display nested true area search c s = (c', s, LiveError) /\ c_live c' = c_live c.
  Proof.
    intros -> H. unfold with_display, new_bar, addTask, on_bar. cbn [c_bars c_live].
    rewrite nth_here, change_here. unfold start. cbn [c_live].
    destruct (c_live c) as [|n l] eqn:E; [congruence|]. eexists. split; [reflexivity|]. reflexivity.
  Qed.

  Lemma display_off area (search : S -> S * list Q * option exn) c s :
    with_display nested false area search c s = (c, fst (fst (search s)), told (snd (search s))).
  Proof. unfold with_display, told. destruct (search s) as [[s' a] e]. reflexivity. Qed.

  (** A call that may be made: the display changes nothing but the console. *)
  Lemma display_through verbose area (search : S -> S * list Q * option exn) c s :
    verbose = false \/ nested = true \/ c_live c = [] ->
    exists c', with_display nested verbose area search c s = (c', fst (fst (search s)), told (snd (search s))) /\
      (verbose = false \/ told (snd (search s)) = Returned -> c_live c' = c_live c) /\
      (verbose = true -> told (snd (search s)) <> Returned -> c_live c' <> []).
  Proof.
    intro H. destruct verbose.
    - assert (H' : nested = true \/ c_live c = []) by (destruct H as [H|H]; [discriminate|exact H]).
      pose proof (display_free area search c s H') as D.
      destruct (search s) as [[s' a] e]. cbn [fst snd]. rewrite D.
      destruct e as [x|].
      + destruct x; cbn [told]; (eexists; split; [reflexivity|]; split);
          first [ intros _; reflexivity | intros [K|K]; discriminate K | intros _ _; discriminate
                | intros _ K; exfalso; apply K; reflexivity ].
      + eexists. split; [reflexivity|]. split; [reflexivity|]. intros _ K. exfalso. apply K. reflexivity.
    - rewrite display_off. exists c. split; [reflexivity|]. split; [reflexivity|]. discriminate.
  Qed.

  Variable inherits : bool.

  Lemma make_through x c (s : S) : sc_verbose x = false \/ nested = true \/ c_live c = [] ->
    exists c', make nested inherits x c s = (c', leaves x s, told (ends x s)) /\
      (sc_parallel x = true \/ sc_verbose x = false \/ told (ends x s) = Returned -> c_live c' = c_live c).
  Proof.
    intro H. unfold make, leaves, ends. destruct (sc_parallel x) eqn:P.
    - unfold with_remote_display.
      destruct (display_through (sc_verbose x) (sc_area x) (sc_search x) (if inherits then c else mkConsole [] []) s) as (c' & E & _).
      { destruct inherits; [exact H|]. right. right. reflexivity. }
      rewrite E. exists c. auto.
    - destruct (display_through (sc_verbose x) (sc_area x) (sc_search x) c s H) as (c' & E & K & _).
      rewrite E. exists c'. split; [reflexivity|]. intros [L|L]; [discriminate|]. apply K, L.
  Qed.

  Lemma history_through h : forall c (s : S),
    nested = true \/ (c_live c = [] /\ no_escape h s) ->
    let '(c', s', l) := make_all nested inherits h c s in
    (s', l) = plain_all h s /\ (no_escape h s -> c_live c' = c_live c).
  Proof.
    induction h as [|x h IH]; intros c s H; cbn [make_all plain_all no_escape]; [auto|].
    destruct (make_through x c s) as (c1 & E & K); [destruct H as [H|[H _]]; auto|].
    rewrite E.
    assert (L : no_escape (x :: h) s -> c_live c1 = c_live c).
    { intros [N _]. apply K. destruct (sc_parallel x); [auto|]. destruct (sc_verbose x); auto. }
    specialize (IH c1 (leaves x s)).
    destruct (make_all nested inherits h c1 (leaves x s)) as [[c2 s2] l].
    destruct IH as [A B].
    { destruct H as [H|[H N]]; [left; exact H|right]. split; [rewrite (L N); exact H|exact (proj2 N)]. }
    rewrite <- A. split; [reflexivity|]. intro N. rewrite (B (proj2 N)). apply L, N.
  Qed.

  Lemma history_refused h : nested = false -> forall c (s : S), c_live c <> [] ->
    let '(c', s', l) := make_all nested inherits h c s in
    (s', l) = quiet_all inherits h s /\ c_live c' <> [].
  Proof.
    intro N. induction h as [|x h IH]; intros c s H; cbn [make_all quiet_all]; [auto|].
    assert (E : exists c1, c_live c1 <> [] /\
      make nested inherits x c s = (if sc_verbose x && (negb (sc_parallel x) || inherits) then (c1, s, LiveError) else (c1, leaves x s, told (ends x s)))).
    { unfold make, leaves, ends. destruct (sc_verbose x) eqn:V.
      - destruct (sc_parallel x) eqn:P; cbn [andb orb negb].
        + unfold with_remote_display. exists c. split; [exact H|]. destruct inherits.
          * destruct (display_busy (sc_area x) (sc_search x) c s N H) as (c1 & E & _). rewrite E. reflexivity.
          * destruct (display_through true (sc_area x) (sc_search x) (mkConsole [] []) s) as (c' & E & _); [right; right; reflexivity|].
            rewrite E. reflexivity.
        + destruct (display_busy (sc_area x) (sc_search x) c s N H) as (c1 & E & L). exists c1. rewrite L. split; [exact H|exact E].
      - cbn [andb]. exists c. split; [exact H|]. destruct (sc_parallel x).
        + unfold with_remote_display. rewrite display_off. reflexivity.
        + apply display_off. }
    destruct E as (c1 & L & E). rewrite E.
    destruct (sc_verbose x && (negb (sc_parallel x) || inherits)).
    - specialize (IH c1 s L). destruct (make_all nested inherits h c1 s) as [[c2 s2] l]. destruct IH as [A B].
      rewrite <- A. split; [reflexivity|exact B].
    - specialize (IH c1 (leaves x s) L). destruct (make_all nested inherits h c1 (leaves x s)) as [[c2 s2] l]. destruct IH as [A B].
      rewrite <- A. split; [reflexivity|exact B].
  Qed.

  Lemma escape_leaves_live x c (s : S) :
    c_live c = [] -> sc_parallel x = false -> sc_verbose x = true -> told (ends x s) <> Returned ->
    exists c', make nested inherits x c s = (c', leaves x s, told (ends x s)) /\ c_live c' <> [].
  Proof.
    intros L P V T. unfold make, leaves, ends in *. rewrite P, V.
    destruct (display_through true (sc_area x) (sc_search x) c s) as (c' & E & _ & K); [auto|].
    exists c'. split; [exact E|]. apply K; [reflexivity|exact T].
  Qed.
  Lemma parallel_no_escape h : Forall (fun x : search_call S => sc_parallel x = true) h -> forall s, no_escape h s.
  Proof.
    induction 1 as [|x h P _ IH]; intro s; cbn; [exact Logic.I|]. split; [|apply IH].
    intro K. rewrite P in K. discriminate.
  Qed.
End Calls.

Lemma parallel_history {S} (inherits : bool) (h : list (search_call S)) (c : console) (s : S) :
  c_live c = [] -> Forall (fun x => sc_parallel x = true) h ->
  let '(c', s', answers) := make_all false inherits h c s in
  (s', answers) = plain_all h s /\ c_live c' = [].
Proof.
  intros L P. pose proof (parallel_no_escape h P s) as N.
  pose proof (history_through false inherits h c s (or_intror (conj L N))) as H.
  destruct (make_all false inherits h c s) as [[c' s'] l]. rewrite <- L. split; [apply H|apply H, N].
Qed.

Lemma stuck {S} (inherits : bool) (x : search_call S) (h : list (search_call S)) (c : console) (s : S) :
  c_live c = [] -> sc_parallel x = false -> sc_verbose x = true -> told (ends x s) <> Returned ->
  let '(_, s', answers) := make_all false inherits (x :: h) c s in
  (s', answers) = (fst (quiet_all inherits h (leaves x s)), told (ends x s) :: snd (quiet_all inherits h (leaves x s))).
Proof.
  intros L P V T. cbn [make_all].
  destruct (escape_leaves_live false inherits x c s L P V T) as (c1 & E & L1). rewrite E.
  pose proof (history_refused false inherits h eq_refl c1 (leaves x s) L1) as H.
  destruct (make_all false inherits h c1 (leaves x s)) as [[c2 s2] l]. destruct H as [H _].
  rewrite <- H. reflexivity.
Qed.

(** ** The finder's container as the state *)
Lemma body_told f df dflt alg adv reRan imRan prec c :
  let b := search_body f df dflt alg adv reRan imRan prec c in
  calculateRoots f df dflt alg reRan imRan prec c =
  (fst (fst b), match told (snd b) with Raises e => Err e | _ => Ok tt end).
Proof.
  cbv zeta. unfold calculateRoots, search_body.
  destruct (feed _ _ c) as [c' [u|e]]; cbn [fst snd].
  - destruct (ar_end _) as [[]|]; reflexivity.
  - destruct e; reflexivity.
Qed.

Lemma finder_free f df dflt alg adv reRan imRan prec nested verbose area k c :
  verbose = false \/ nested = true \/ c_live k = [] ->
  let '(_, c', a) := with_display nested verbose area (search_body f df dflt alg adv reRan imRan prec) k c in
  calculateRoots f df dflt alg reRan imRan prec c = (c', match a with Raises e => Err e | _ => Ok tt end) /\ a <> LiveError.
Proof.
  intro H. destruct (display_through nested verbose area (search_body f df dflt alg adv reRan imRan prec) k c H) as (k' & E & _).
  rewrite E. split; [apply body_told|]. unfold told. destruct (snd _) as [[]|]; discriminate.
Qed.

Lemma finder_refused f df dflt alg adv reRan imRan prec area k c :
  c_live k <> [] ->
  exists k', with_display false true area (search_body f df dflt alg adv reRan imRan prec) k c = (k', c, LiveError).
Proof. intro H. destruct (display_busy false area (search_body f df dflt alg adv reRan imRan prec) k c eq_refl H) as (k' & E & _). exists k'. exact E. Qed.

(** ** What the bar shows *)
Lemma bar_shown {S} nested area (search : S -> S * list Q * option exn) c s :
  nested = true \/ c_live c = [] ->
  let '(s', advances, e) := search s in
  let '(c', _, _) := with_display nested true area search c s in
  exists x, c_bars c' = c_bars c ++ [x] /\
    b_tasks x = [mkTask area (total_of advances) (match e with None => Finished | Some _ => Working end) true false] /\
    (b_started x = false <-> told e = Returned).
Proof.
  intro H. pose proof (display_free nested area search c s H) as D. destruct (search s) as [[s' advances] e].
  rewrite D. destruct e as [[]|]; (eexists; split; [reflexivity|]; split; [reflexivity|]; cbn; split; intro; congruence).
Qed.

Lemma never_hidden {S} nested area (search : S -> S * list Q * option exn) c s s' advances :
  nested = true \/ c_live c = [] -> search s = (s', advances, Some KeyboardInterrupt) ->
  let '(c', _, a) := with_display nested true area search c s in
  a = Returned /\ exists x t, c_bars c' = c_bars c ++ [x] /\ b_tasks x = [t] /\ t_visible t = true /\ t_stopped t = false.
Proof.
  intros H E. pose proof (display_free nested area search c s H) as D. rewrite E in D. rewrite D.
  split; [reflexivity|]. eexists. eexists. split; [reflexivity|]. split; [reflexivity|]. split; reflexivity.
Qed.
