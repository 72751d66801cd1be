From Verif Require Import PyBase Rounding_Model Container_Model Finder_Model Display_Model Display_Spec Display_Proofs
  Instant_Model CutDisplay_Model.
Open Scope Z_scope.

Section One.
  Context {S : Type} (nested verbose : bool) (area : Q) (search : S -> S * list Q * option exn) (cut : nat -> S -> S * list Q).

  Lemma at_instant t c s : verbose = false \/ nested = true \/ c_live c = [] ->
    (t = AfterTry -> told (snd (search s)) = Returned) ->
    exists c', interrupted_display nested verbose area search cut t c s =
      (c', match t with BeforeTry => s | InTry n => fst (cut n s) | AfterTry => fst (fst (search s)) end,
       match t with InTry _ => Returned | _ => Raises KeyboardInterrupt end) /\
      c_live c' = match t with InTry _ => c_live c | _ => if verbose then List.length (c_bars c) :: c_live c else c_live c end.
  Proof.
    intros H T. unfold interrupted_display.
    assert (E : (if verbose then start nested (List.length (c_bars c)) (shows (c_bars c) (mkTask area 0 Working true false) false (c_live c)) else Some c)
      = Some (if verbose then shows (c_bars c) (mkTask area 0 Working true false) true (List.length (c_bars c) :: c_live c) else c)).
    { destruct verbose; [|reflexivity]. rewrite start_here; [reflexivity|]. destruct H as [H|H]; [discriminate|exact H]. }
    destruct t as [|n|].
    - unfold new_bar, addTask, on_bar. cbn [c_bars c_live]. rewrite change_here. cbn [b_tasks b_started List.length app].
      fold (shows (c_bars c) (mkTask area 0 Working true false) false (c_live c)). rewrite E.
      eexists. split; [reflexivity|]. destruct verbose; reflexivity.
    - destruct (display_through nested verbose area (fun s => (cut n s, Some KeyboardInterrupt)) c s H) as (c' & D & L & _).
      exists c'. split; [exact D|]. apply L. right. reflexivity.
    - specialize (T eq_refl).
      unfold new_bar, addTask, on_bar. cbn [c_bars c_live]. rewrite nth_here, change_here. cbn [b_tasks b_started List.length app].
      fold (shows (c_bars c) (mkTask area 0 Working true false) false (c_live c)). rewrite E.
      destruct (search s) as [[s' adv] e]. cbn [fst snd] in *.
      destruct verbose.
      + rewrite advances_here. cbn [Nat.eqb]. unfold finish_task. rewrite task_here.
        destruct e as [x|]; [destruct x; try discriminate T|]; (eexists; split; [reflexivity|]; reflexivity).
      + destruct e as [x|]; [destruct x; try discriminate T|]; (eexists; split; [reflexivity|]; reflexivity).
  Qed.
End One.

Lemma stuck_after {S} inherits area (search : S -> S * list Q * option exn) cut t c s h :
  c_live c = [] -> (t = AfterTry -> told (snd (search s)) = Returned) -> (forall n, t <> InTry n) ->
  let '(c1, s1, a) := interrupted_display false true area search cut t c s in
  a = Raises KeyboardInterrupt /\
  let '(_, s2, answers) := make_all false inherits h c1 s1 in
  (s2, answers) = quiet_all inherits h s1.
Proof.
  intros L T N.
  destruct (at_instant false true area search cut t c s (or_intror (or_intror L)) T) as (c1 & E & LV).
  rewrite E. assert (LV' : c_live c1 <> []) by (rewrite LV; destruct t as [|n|]; [discriminate|exfalso; exact (N n eq_refl)|discriminate]).
  split; [destruct t as [|n|]; [reflexivity|exfalso; exact (N n eq_refl)|reflexivity]|].
  pose proof (history_refused false inherits h eq_refl c1 (match t with BeforeTry => s | InTry n => fst (cut n s) | AfterTry => fst (fst (search s)) end) LV') as H.
  destruct (make_all false inherits h c1 _) as [[c2 s2] l]. apply H.
Qed.

(** The finder. *)
Lemma finder_instant f df dflt alg adv advs reRan imRan prec nested verbose area t k c :
  verbose = false \/ nested = true \/ c_live k = [] ->
  (t = AfterTry -> snd (calculateRoots f df dflt alg reRan imRan prec c) = Ok tt) ->
  let '(k', c', a) := interrupted_display nested verbose area
     (search_body f df dflt alg adv reRan imRan prec) (cut_body f df dflt alg advs reRan imRan prec) t k c in
  interrupted_calculateRoots f df dflt alg reRan imRan prec t c = (c', match a with Raises e => Err e | _ => Ok tt end) /\
  a <> LiveError /\
  c_live k' = match t with InTry _ => c_live k | _ => if verbose then List.length (c_bars k) :: c_live k else c_live k end.
Proof.
  intros H T. pose proof (body_told f df dflt alg adv reRan imRan prec c) as B. cbv zeta in B.
  destruct (at_instant nested verbose area (search_body f df dflt alg adv reRan imRan prec) (cut_body f df dflt alg advs reRan imRan prec) t k c H) as (k' & E & L).
  { intro A. specialize (T A). rewrite B in T. cbn [snd] in T. unfold told in *. destruct (snd _) as [[]|]; try discriminate T; reflexivity. }
  rewrite E. destruct t as [|n|]; (split; [|split; [discriminate|exact L]]).
  - reflexivity.
  - reflexivity.
  - cbn [interrupted_calculateRoots]. rewrite B. reflexivity.
Qed.

(** While another display is live the search does not begin, whatever the instant. *)
Lemma refused_instant {S} area (search : S -> S * list Q * option exn) cut t c s : c_live c <> [] ->
  let '(c', s', a) := interrupted_display false true area search cut t c s in
  s' = s /\ a = LiveError /\ c_live c' = c_live c.
Proof.
  intro L. destruct (c_live c) as [|p l] eqn:EL; [exfalso; exact (L eq_refl)|].
  destruct t as [|n|]; unfold interrupted_display, with_display, new_bar, addTask, on_bar, start; cbn [c_bars c_live]; rewrite EL;
    cbn [c_live]; repeat split; exact EL.
Qed.
