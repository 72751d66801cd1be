(** * C93: the progress display *)
From Verif Require Import PyBase Rounding_Model Container_Model Finder_Model Display_Model Display_Spec Display_Proofs.
Open Scope Z_scope.

(** Any history of searches, serial and parallel, with and without display, none of which
    ends with an exception that the serial finder does not handle while its display is on:
    the answers and the effects are those of the searches without display, and the console is
    free again. *)
Theorem C93_history {S} (inherits : bool) (h : list (search_call S)) (c : console) (s : S) :
  c_live c = [] -> no_escape h s ->
  let '(c', s', answers) := make_all false inherits h c s in
  (s', answers) = plain_all h s /\ c_live c' = [].
Proof.
  intros L N. pose proof (history_through false inherits h c s (or_intror (conj L N))) as H.
  destruct (make_all false inherits h c s) as [[c' s'] l]. rewrite <- L. split; [apply H|apply H, N].
Qed.
Print Assumptions C93_history.

(** With a rich that allows several live displays: any history at all; displays live before
    stay so, and no other is left if no such exception occurred. *)
Theorem C93_nested {S} (inherits : bool) (h : list (search_call S)) (c : console) (s : S) :
  let '(c', s', answers) := make_all true inherits h c s in
  (s', answers) = plain_all h s /\ (no_escape h s -> c_live c' = c_live c).
Proof. exact (history_through true inherits h c s (or_introl eq_refl)). Qed.
Print Assumptions C93_nested.

(** Searches of the parallel finder only: any history at all, whatever they end with. *)
Theorem C93_parallel {S} (inherits : bool) (h : list (search_call S)) (c : console) (s : S) :
  c_live c = [] -> Forall (fun x => sc_parallel x = true) h ->
  let '(c', s', answers) := make_all false inherits h c s in
  (s', answers) = plain_all h s /\ c_live c' = [].
Proof. exact (parallel_history inherits h c s). Qed.
Print Assumptions C93_parallel.

(** "Later searches are not affected by one that failed" is false: after one search with
    display ends with any other exception, every later search with display made by that
    process is refused with LiveError before it begins (it finds and changes nothing),
    whatever finder, function and rectangle; those without display go on. *)
Theorem C93_later_searches_refuted {S} (inherits : bool) (x : search_call S) (h : list (search_call S)) (c : console) (s : S) :
  c_live c = [] -> sc_parallel x = false -> sc_verbose x = true -> told (ends x s) <> Returned ->
  let '(_, s', answers) := make_all false inherits (x :: h) c s in
  (s', answers) = (fst (quiet_all inherits h (leaves x s)), told (ends x s) :: snd (quiet_all inherits h (leaves x s))).
Proof. exact (stuck inherits x h c s). Qed.
Print Assumptions C93_later_searches_refuted.

(** The finder of Finder_Model.v (C11, C36, ..) behind its display: if the console is free (or
    there is no display), exactly its container and its result; if not, its container is
    left as it was. *)
Theorem C93_finder f df dflt alg adv reRan imRan prec nested verbose area k c :
  verbose = false \/ nested = true \/ c_live k = [] ->
  let '(_, c', a) := with_display nested verbose area (search_body f df dflt alg adv reRan imRan prec) k c in
  calculateRoots f df dflt alg reRan imRan prec c = (c', match a with Raises e => Err e | _ => Ok tt end) /\ a <> LiveError.
Proof. exact (finder_free f df dflt alg adv reRan imRan prec nested verbose area k c). Qed.
Print Assumptions C93_finder.

Theorem C93_finder_refused f df dflt alg adv reRan imRan prec area k c :
  c_live k <> [] ->
  exists k', with_display false true area (search_body f df dflt alg adv reRan imRan prec) k c = (k', c, LiveError).
Proof. exact (finder_refused f df dflt alg adv reRan imRan prec area k c). Qed.
Print Assumptions C93_finder_refused.

(** What a display shows at the end: one task, of the area searched; done: the sum of what the
    search reported; finished exactly if the search was not cut short; off exactly if the call
    returned. *)
Theorem C93_shown {S} nested area (search : S -> S * list Q * option exn) c s :
  nested = true \/ c_live c = [] ->
  let '(s', advances, e) := search s in
  let '(c', _, _) := with_display nested true area search c s in
  exists x, c_bars c' = c_bars c ++ [x] /\
    b_tasks x = [mkTask area (total_of advances) (match e with None => Finished | Some _ => Working end) true false] /\
    (b_started x = false <-> told e = Returned).
Proof. exact (bar_shown nested area search c s). Qed.
Print Assumptions C93_shown.

(** "An interrupted search stops the clock of its task and hides it" (the code's
    [if progress and task]) is false of every interrupted search. *)
Theorem C93_hidden_refuted {S} nested area (search : S -> S * list Q * option exn) c s s' advances :
  nested = true \/ c_live c = [] -> search s = (s', advances, Some KeyboardInterrupt) ->
  let '(c', _, a) := with_display nested true area search c s in
  a = Returned /\ exists x t, c_bars c' = c_bars c ++ [x] /\ b_tasks x = [t] /\ t_visible t = true /\ t_stopped t = false.
Proof. exact (never_hidden nested area search c s s' advances). Qed.
Print Assumptions C93_hidden_refuted.

(** ** The hypotheses are met: a search that counts, and may fail *)
Definition counting (e : option exn) : nat -> nat * list Q * option exn := fun n => (S n, [2 # 1; 1 # 2]%Q, e).
Example C93_nonvacuous_history :
  let h := [mkCall false true 3 (counting None); mkCall true true 3 (counting (Some ValueError));
            mkCall false false 3 (counting (Some TypeError)); mkCall false true 3 (counting (Some KeyboardInterrupt))] in
  no_escape h 0%nat /\
  snd (make_all false true h (mkConsole [] []) 0%nat) = [Returned; Raises ValueError; Raises TypeError; Returned].
Proof. cbn. repeat split; intros; try discriminate; reflexivity. Qed.
Example C93_nonvacuous_stuck :
  let x := mkCall false true 3 (counting (Some ValueError)) in
  let y := mkCall false true 3 (counting None) in
  let z := mkCall false false 3 (counting None) in
  told (ends x 0%nat) <> Returned /\
  make_all false true [x; y; z; y] (mkConsole [] []) 0%nat =
  (fst (fst (make_all false true [x; y; z; y] (mkConsole [] []) 0%nat)), 2%nat, [Raises ValueError; LiveError; Returned; LiveError]).
Proof. cbn. split; [discriminate|reflexivity]. Qed.
Example C93_nonvacuous_shown :
  c_bars (fst (fst (with_display false true 3 (counting (Some KeyboardInterrupt)) (mkConsole [] []) 0%nat)))
  = [mkBar [mkTask 3 (0 + (2 # 1) + (1 # 2)) Working true false] false].
Proof. reflexivity. Qed.
