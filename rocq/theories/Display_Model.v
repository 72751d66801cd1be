(** * The progress display of a search: rootfinders/rootfinder.py, parallel_finder.py,
    utils/finder_progress.py, and the part of the package rich they use *)
From Verif Require Import PyBase Rounding_Model Container_Model Finder_Model.
Open Scope Z_scope.

(** finder_progress.py:42-45 and rootfinder.py:157: the two descriptions. *)
Inductive label : Type := Working | Finished.
(** A task of a rich Progress (add_task of finder_progress.py:42): its amount of work, what
    is done, its text, whether it is shown, whether its clock was stopped. *)
Record task : Type := mkTask { t_total : Q; t_done : Q; t_label : label; t_visible : bool; t_stopped : bool }.
(** A FinderProgressBar, finder_progress.py:16-33. *)
Record bar : Type := mkBar { b_tasks : list task; b_started : bool }.
(** The process: all bars ever made, by number, and the displays that rich's console
    (one per process) has live, last one first. Code: rootfinder.py:136-141. *)
Record console : Type := mkConsole { c_bars : list bar; c_live : list nat }.

(** finder_progress.py:22-33: a new bar without tasks, not started; its number. *)
Definition new_bar (c : console) : nat * console :=
  (List.length (c_bars c), mkConsole (c_bars c ++ [mkBar [] false]) (c_live c)).

(** Change of one entry of a list (used for the bars and their tasks). Code: rootfinder.py:138-169. *)
Definition change {A} (i : nat) (h : A -> A) (l : list A) : list A :=
  match nth_error l i with
  | None => l
  | Some a => firstn i l ++ h a :: skipn (S i) l
  end.
(** A method of bar number [p], rootfinder.py:138-169. *)
Definition on_bar (p : nat) (h : bar -> bar) (c : console) : console := mkConsole (change p h (c_bars c)) (c_live c).
(** A method of a task of bar number [p], rootfinder.py:157-166. *)
Definition on_task (p t : nat) (h : task -> task) (c : console) : console :=
  on_bar p (fun b => mkBar (change t h (b_tasks b)) (b_started b)) c.

(** finder_progress.py:35-45 [addTask]; rich numbers the tasks of a bar from 0. *)
Definition addTask (p : nat) (total : Q) (c : console) : nat * console :=
  (match nth_error (c_bars c) p with Some b => List.length (b_tasks b) | None => O end,
   on_bar p (fun b => mkBar (b_tasks b ++ [mkTask total 0 Working true false]) (b_started b)) c).

(** progress.start() (rootfinder.py:140): rich registers the display with the console.
    Releases before 14.1 raise LiveError if another display is live; [nested]: a release
    that allows several.  None: LiveError. *)
Definition start (nested : bool) (p : nat) (c : console) : option console :=
  match c_live c with
  | _ :: _ => if nested
              then Some (mkConsole (change p (fun b => mkBar (b_tasks b) true) (c_bars c)) (p :: c_live c))
              else None
  | [] => Some (mkConsole (change p (fun b => mkBar (b_tasks b) true) (c_bars c)) [p])
  end.

(** progress.stop() (rootfinder.py:169): the last display registered is taken off. *)
Definition stop (p : nat) (c : console) : console :=
  mkConsole (change p (fun b => mkBar (b_tasks b) false) (c_bars c)) (tl (c_live c)).

(** progress.update(task, advance=a): simple_holo.py:139-142. *)
Definition advance_task (p t : nat) (a : Q) (c : console) : console :=
  on_task p t (fun x => mkTask (t_total x) (t_done x + a) (t_label x) (t_visible x) (t_stopped x)) c.
(** progress.update(task, description="[green] search finished!"): rootfinder.py:157. *)
Definition finish_task (p t : nat) (c : console) : console :=
  on_task p t (fun x => mkTask (t_total x) (t_done x) Finished (t_visible x) (t_stopped x)) c.
(** progress.stop_task(task); progress.update(task, visible=False): rootfinder.py:163-165. *)
Definition hide_task (p t : nat) (c : console) : console :=
  on_task p t (fun x => mkTask (t_total x) (t_done x) (t_label x) false true) c.

(** How a call of calculateRoots ends for its caller, rootfinder.py:112-170. *)
Inductive answer : Type := Returned | Raises (e : exn) | LiveError.

Section Search.
  Context {S : Type}.       (* everything else: containers, caches, .. *)
  Variable nested : bool.

  (** rootfinder.py:135-170: everything around the call of the algorithm.  [search]: the call
      [self.algorithm.calcRoots(context)]: new state, what it adds to the progress (if a bar
      was made) and the exception it raised. *)
  Definition with_display (verbose : bool) (area : Q) (search : S -> S * list Q * option exn)
      (c : console) (s : S) : console * S * answer :=
    if verbose then
      let '(p, c1) := new_bar c in
      let '(t, c2) := addTask p area c1 in
      match start nested p c2 with
      | None => (c2, s, LiveError)                        (* rootfinder.py:140, before the try *)
      | Some c3 =>
          let '(s', advances, e) := search s in
          let c4 := fold_left (fun c a => advance_task p t a c) advances c3 in
          match e with
          | None => (stop p (finish_task p t c4), s', Returned)
          | Some KeyboardInterrupt =>
              (* [if progress and task:] a task number 0 counts as false *)
              (stop p (if Nat.eqb t 0 then c4 else hide_task p t c4), s', Returned)
          | Some x => (c4, s', Raises x)                  (* not handled: stop() is skipped *)
          end
      end
    else
      let '(s', _, e) := search s in
      (c, s', match e with None | Some KeyboardInterrupt => Returned | Some x => Raises x end).

  (** parallel_finder.py:115-159: the bar lives in the process of a manager of its own, which
      ends with the call.  [inherits]: this process is a fork and starts with a copy of the
      console (Linux), else with a new one (LiveError comes back through the proxy). *)
  Definition with_remote_display (inherits verbose : bool) (area : Q) (search : S -> S * list Q * option exn)
      (c : console) (s : S) : console * S * answer :=
    let '(_, s', a) := with_display verbose area search (if inherits then c else mkConsole [] []) s in
    (c, s', a).
End Search.

(** rootfinder.py:142-155 with the container as the state: what [self.algorithm.calcRoots(context)]
    does, an exception of the container included (see [calculateRoots] in Finder_Model.v);
    [adv]: the progress it reports. *)
Definition search_body (f : holoFunc) (df : option holoFunc) (dflt : Z * Z) (alg : rctx -> alg_run)
    (adv : list Q) (reRan imRan : Q * Q) (precision : option (Z * Z)) (c : rcont) : rcont * list Q * option exn :=
  let ctx := serial_context f df dflt reRan imRan precision in
  let run := alg ctx in
  match feed (toFilterContext ctx) (ar_reports run) c with
  | (c', Err e) => (c', adv, Some e)
  | (c', Ok _) => (c', adv, ar_end run)
  end.
