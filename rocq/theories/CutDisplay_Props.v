(** * Property C94, continued: interrupts and the progress display *)
From Verif Require Import PyBase Rounding_Model Container_Model Finder_Model Display_Model Display_Spec
  Instant_Model CutDisplay_Model CutDisplay_Proofs.
Open Scope Z_scope.

(** The serial finder with or without display, interrupted at any instant once the display is
    on: container and answer are those of the search without display; an interrupt inside the
    try statement leaves no display behind, one just before or just after it leaves the
    display on. *)
Theorem C94_display : forall f df dflt alg adv advs reRan imRan prec nested verbose area t k c,
  verbose = false \/ nested = true \/ c_live k = [] ->
  (t = AfterTry -> snd (calculateRoots f df dflt alg reRan imRan prec c) = Ok tt) ->
  let '(k', c', a) := interrupted_display nested verbose area
     (search_body f df dflt alg adv reRan imRan prec) (cut_body f df dflt alg advs reRan imRan prec) t k c in
  interrupted_calculateRoots f df dflt alg reRan imRan prec t c = (c', match a with Raises e => Err e | _ => Ok tt end) /\
  a <> LiveError /\
  c_live k' = match t with InTry _ => c_live k | _ => if verbose then List.length (c_bars k) :: c_live k else c_live k end.
Proof. exact finder_instant. Qed.
Print Assumptions C94_display.

(** "After an interrupted search one can search again" is therefore false: interrupted at one
    of these two instants, the search of a rich before 14.1 is the last one with display that
    this process makes. *)
Theorem C94_search_again_refuted : forall S inherits area (search : S -> S * list Q * option exn) cut t c s h,
  c_live c = [] -> (t = AfterTry -> told (snd (search s)) = Returned) -> (forall n, t <> InTry n) ->
  let '(c1, s1, a) := interrupted_display false true area search cut t c s in
  a = Raises KeyboardInterrupt /\
  let '(_, s2, answers) := make_all false inherits h c1 s1 in
  (s2, answers) = quiet_all inherits h s1.
Proof. exact @stuck_after. Qed.
Print Assumptions C94_search_again_refuted.

(** While another display is live (rich before 14.1) a search with display does not begin,
    whatever the instant of an interrupt: nothing changes, and the caller gets LiveError. *)
Theorem C94_display_refused : forall S area (search : S -> S * list Q * option exn) cut t c s,
  c_live c <> [] ->
  let '(c', s', a) := interrupted_display false true area search cut t c s in
  s' = s /\ a = LiveError /\ c_live c' = c_live c.
Proof. exact @refused_instant. Qed.
Print Assumptions C94_display_refused.

Example C94_nonvacuous_again :
  let search := fun n : nat => (S n, [2 # 1]%Q, None) in
  let cut := fun (_ : nat) (n : nat) => (n, []) in
  let '(c1, s1, _) := interrupted_display false true 3 search cut AfterTry (mkConsole [] []) 0%nat in
  snd (make_all false true [mkCall false true 3 search; mkCall false false 3 search] c1 s1) = [LiveError; Returned].
Proof. reflexivity. Qed.
