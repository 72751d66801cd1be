(** * A search with progress display that is interrupted at any instant *)
From Verif Require Import PyBase Rounding_Model Container_Model Finder_Model Display_Model Instant_Model.
Open Scope Z_scope.

(** rootfinder.py:135-170 from the moment the display is on, or would be (before line 140 the
    interrupt just reaches the caller).  [search]: the call of the algorithm if nothing
    interrupts it (Display_Model.v, [with_display]); [cut n]: the state and the progress
    reported when it has run [n] instructions.  [BeforeTry]: between progress.start() (140)
    and the try statement (153); [AfterTry]: between it and progress.stop() (169). *)
Definition interrupted_display {S : Type} (nested verbose : bool) (area : Q)
    (search : S -> S * list Q * option exn) (cut : nat -> S -> S * list Q) (t : instant)
    (c : console) (s : S) : console * S * answer :=
  match t with
  | InTry n => with_display nested verbose area (fun s => (cut n s, Some KeyboardInterrupt)) c s
  | _ =>
      let '(p, c1) := new_bar c in
      let '(k, c2) := addTask p area c1 in
      match (if verbose then start nested p c2 else Some c) with
      | None => (c2, s, LiveError)
      | Some c3 =>
          match t with
          | BeforeTry => (c3, s, Raises KeyboardInterrupt)
          | _ =>
              let '(s', advances, e) := search s in
              let c4 := if verbose then fold_left (fun c a => advance_task p k a c) advances c3 else c in
              match e with
              | None => (if verbose then finish_task p k c4 else c, s', Raises KeyboardInterrupt)
              | Some KeyboardInterrupt =>
                  (if verbose then (if Nat.eqb k 0 then c4 else hide_task p k c4) else c, s', Raises KeyboardInterrupt)
              | Some x => (c4, s', Raises x)      (* the search failed: there is no such instant *)
              end
          end
      end
  end.

(** rootfinder.py:153-155 of the finder, cut off after [n] instructions; [adv n]: the progress
    reported by then. *)
Definition cut_body (f : holoFunc) (df : option holoFunc) (dflt : Z * Z) (alg : rctx -> alg_run)
    (adv : nat -> list Q) (reRan imRan : Q * Q) (prec : option (Z * Z)) (n : nat) (c : rcont) : rcont * list Q :=
  (fst (interrupted_calculateRoots f df dflt alg reRan imRan prec (InTry n) c), adv n).
