(** * Specification: the progress display (C93) *)
From Verif Require Import PyBase Display_Model.
Open Scope Z_scope.

(** One call of calculateRoots, of any finder of the process. *)
Record search_call (S : Type) : Type := mkCall {
  sc_parallel : bool; sc_verbose : bool; sc_area : Q; sc_search : S -> S * list Q * option exn }.
Arguments mkCall {S}. Arguments sc_parallel {S}. Arguments sc_verbose {S}. Arguments sc_area {S}. Arguments sc_search {S}.

(** What the search itself does, without any display. *)
Definition leaves {S} (x : search_call S) (s : S) : S := fst (fst (sc_search x s)).
Definition ends {S} (x : search_call S) (s : S) : option exn := snd (sc_search x s).
Definition told (e : option exn) : answer :=
  match e with None => Returned | Some KeyboardInterrupt => Returned | Some x => Raises x end.

(** The call as made by the program. *)
Definition make {S} (nested inherits : bool) (x : search_call S) (c : console) (s : S) : console * S * answer :=
  if sc_parallel x then with_remote_display nested inherits (sc_verbose x) (sc_area x) (sc_search x) c s
  else with_display nested (sc_verbose x) (sc_area x) (sc_search x) c s.

(** Calls one after the other; the answers. *)
Fixpoint make_all {S} (nested inherits : bool) (h : list (search_call S)) (c : console) (s : S)
    : console * S * list answer :=
  match h with
  | [] => (c, s, [])
  | x :: h' =>
      let '(c1, s1, a) := make nested inherits x c s in
      let '(c2, s2, l) := make_all nested inherits h' c1 s1 in
      (c2, s2, a :: l)
  end.
(** The same calls as if there were no display. *)
Fixpoint plain_all {S} (h : list (search_call S)) (s : S) : S * list answer :=
  match h with
  | [] => (s, [])
  | x :: h' => let '(s2, l) := plain_all h' (leaves x s) in (s2, told (ends x s) :: l)
  end.
(** .. if those with a display are refused (a parallel one only if its process inherits the
    console). *)
Fixpoint quiet_all {S} (inherits : bool) (h : list (search_call S)) (s : S) : S * list answer :=
  match h with
  | [] => (s, [])
  | x :: h' =>
      if sc_verbose x && (negb (sc_parallel x) || inherits)
      then let '(s2, l) := quiet_all inherits h' s in (s2, LiveError :: l)
      else let '(s2, l) := quiet_all inherits h' (leaves x s) in (s2, told (ends x s) :: l)
  end.
(** No serial call with a display ends with an exception other than KeyboardInterrupt. *)
Fixpoint no_escape {S} (h : list (search_call S)) (s : S) : Prop :=
  match h with
  | [] => True
  | x :: h' =>
      (sc_parallel x = false -> sc_verbose x = true -> told (ends x s) = Returned) /\ no_escape h' (leaves x s)
  end.

Definition total_of (l : list Q) : Q := fold_left Qplus l 0%Q.
