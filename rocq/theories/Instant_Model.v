(** * Containers between two instructions: what a KeyboardInterrupt (or a crash) that arrives
    at any instant leaves.  utils/containers/rounding_container.py, plain_container.py, and
    the searches of rootfinders/*.py seen from their container *)
From Verif Require Import PyBase Rounding_Model Container_Model Finder_Model.
Open Scope Z_scope.

(** Where a call of addRoot stands, rounding_container.py:59-87 (the logging calls in between
    change nothing): before asking the next filter; before the comparison of precisions (67);
    before clear() (68); before the assignment (72); before rounding (78); before the look-up
    (79) and before set.add (87) with the rounded root at hand; returned or raised. *)
Inductive add_at : Type :=
| AtFilters (rest : list (string * rootFilter))
| AtCompare | AtClear | AtSet | AtRound
| AtLookup (rounded : root) | AtInsert (rounded : root)
| AtEnd (answer : res unit).

(** The next instruction, rounding_container.py:59-87; set.clear and set.add are atomic. *)
Definition add_instr (info : bool) (r : root) (ctx : fctx) (s : rcont * add_at) : rcont * add_at :=
  let '(c, k) := s in
  match k with
  | AtFilters [] => (c, AtCompare)
  | AtFilters ((_, p) :: fs) =>
      match p r ctx with
      | Err e => (c, AtEnd (Err e))
      | Ok false => (c, AtEnd (Ok tt))
      | Ok true => (c, AtFilters fs)
      end
  | AtCompare => (c, if negb (prec_eqb (fc_precision ctx) (rc_precision c)) then AtClear else AtRound)
  | AtClear => (rc_clear c, AtSet)
  | AtSet => (mkRC (fc_precision ctx) (rc_set c) (rc_filters c), AtRound)
  | AtRound => (c, AtLookup (roundRoot r (rc_precision c)))
  | AtLookup x => (c, if info && set_mem x (rc_set c) then AtEnd (Ok tt) else AtInsert x)
  | AtInsert x => (mkRC (rc_precision c) (set_add x (rc_set c)) (rc_filters c), AtEnd (Ok tt))
  | AtEnd a => (c, AtEnd a)
  end.

(** A call of the container cut off after [n] instructions; the other calls make one change
    (rounding_container.py:89-172). *)
Definition cut_call (n : nat) (o : rc_op) (c : rcont) : rcont :=
  match o with
  | RAdd info r ctx => fst (Nat.iter n (add_instr info r ctx) (c, AtFilters (rc_filters c)))
  | _ => match n with O => c | S _ => rc_step c o end
  end.

(** A history of calls, some of which ([Some n]) are cut off. Code: rounding_container.py:24-172. *)
Fixpoint cut_run (h : list (rc_op * option nat)) (c : rcont) : rcont :=
  match h with
  | [] => c
  | (o, None) :: h' => cut_run h' (rc_step c o)
  | (o, Some n) :: h' => cut_run h' (cut_call n o c)
  end.

(** A search seen from its container: the root being added (if any) and those still to come.
    What the algorithm does between two calls of addRoot (simple_holo.py, newton_grid.py, the
    estimators) does not touch the container and is left out. *)
Record feeding : Type := mkFeeding { fd_cont : rcont; fd_now : option (bool * root * add_at); fd_next : list (bool * root) }.
(** The next instruction: rootfinder.py:155 or parallel_finder.py:161-168. *)
Definition feed_instr (ctx : fctx) (s : feeding) : feeding :=
  match fd_now s, fd_next s with
  | None, [] => s
  | None, (info, r) :: l => mkFeeding (fd_cont s) (Some (info, r, AtFilters (rc_filters (fd_cont s)))) l
  | Some (_, _, AtEnd (Ok _)), l => mkFeeding (fd_cont s) None l
  | Some (_, _, AtEnd (Err _)), _ => s                  (* the exception leaves the search *)
  | Some (info, r, k), l =>
      let '(c', k') := add_instr info r ctx (fd_cont s, k) in mkFeeding c' (Some (info, r, k')) l
  end.

(** When the KeyboardInterrupt arrives: before the try statement of rootfinder.py:153, after
    [n] instructions inside, or after it. *)
Inductive instant : Type := BeforeTry | InTry (n : nat) | AfterTry.
(** rootfinder.py:112-170, interrupted at this instant. *)
Definition interrupted_calculateRoots (f : holoFunc) (df : option holoFunc) (dflt : Z * Z)
    (alg : rctx -> alg_run) (reRan imRan : Q * Q) (precision : option (Z * Z)) (t : instant)
    (c : rcont) : rcont * res unit :=
  match t with
  | BeforeTry => (c, Err KeyboardInterrupt)
  | InTry n =>
      let ctx := serial_context f df dflt reRan imRan precision in
      (fd_cont (Nat.iter n (feed_instr (toFilterContext ctx)) (mkFeeding c None (ar_reports (alg ctx)))), Ok tt)
  | AfterTry => (fst (calculateRoots f df dflt alg reRan imRan precision c), Err KeyboardInterrupt)
  end.

(** parallel_finder.py:161-168, interrupted after [n] instructions of emptying the queue
    (outside of its try statement). *)
Definition interrupted_drain (f : holoFunc) (dflt : Z * Z) (reRan imRan : Q * Q) (precision : option (Z * Z))
    (info : bool) (queue : list root) (n : nat) (c : rcont) : rcont * res unit :=
  let ctx := drain_context f dflt reRan imRan precision in
  (fd_cont (Nat.iter n (feed_instr ctx) (mkFeeding c None (map (fun r => (info, r)) queue))), Err KeyboardInterrupt).

(** plain_container.py:93-94: [self._roots.append(self.rootBuffer.get())]; the root taken from
    the queue and not yet appended. *)
Definition transfer_instr (s : pcont * option root) : pcont * option root :=
  match s with
  | (c, Some r) => (mkPC (pc_queue c) (pc_roots c ++ [r]), None)
  | (c, None) => match pc_queue c with
                 | [] => (c, None)
                 | r :: q => (mkPC q (pc_roots c), Some r)
                 end
  end.
(** plain_container.py:70-94: getRoots (or getRootOrders) cut off after [n] instructions. *)
Definition cut_transfer (n : nat) (c : pcont) : pcont := fst (Nat.iter n transfer_instr (c, None)).
