(** * Specification of logging (C62) *)
From Verif Require Import PyBase Json_Model Settings_Model Log_Model.
Open Scope list_scope.

Definition valid_date (d : date) : Prop :=
  (1 <= year d /\ 1 <= month d <= 12 /\ 1 <= day d <= 31 /\ hour d < 24 /\ minute d < 60 /\ second d < 60)%N.

(** What can happen: an object's logger is used for the first or a later time (EAccess), to set its level, to
    log a message; a logger is initialized by name (as the factories and the initialization do); the
    current directory changes.  [settings]: the configured level at this moment, or why there is none. *)
Inductive event : Type :=
| EAccess (i : nat) (settings : res LogLevel)
| ESetLevel (i : nat) (level : LogLevel) (settings : res LogLevel)
| ELog (i : nat) (level : LogLevel) (message : text) (settings : res LogLevel)
| EInit (name : text) (level : LogLevel)
| EChdir (d : nat).

(** A process that did not log yet, with usable directories. *)
Definition fresh (st : logging) : Prop :=
  loggers st = [] /\ attached st = [] /\ output st = [] /\ forall d, dirs st d <> NotDirectory.

Section Spec.
  Variable DATE : date.
  Variable module_of : nat -> text.
  Definition perform (e : event) (st : logging) : logging * res unit :=
    match e with
    | EAccess i s => access DATE module_of i s st
    | ESetLevel i lv s => setLevel DATE module_of i lv s st
    | ELog i lv m s => log DATE module_of i lv m s st
    | EInit n lv => initLogger DATE n lv st
    | EChdir d => (chdir d st, Ok tt)
    end.
  Definition after (h : list event) (st : logging) : logging := fold_left (fun st e => fst (perform e st)) h st.

  (** The object using its logger, and the settings then. *)
  Definition user (e : event) : option (nat * res LogLevel) :=
    match e with EAccess i s | ESetLevel i _ s | ELog i _ _ s => Some (i, s) | _ => None end.
  (** The histories below are read backwards (newest event first). *)
  Definition has_logger (h : list event) (i : nat) : bool :=
    existsb (fun e => match user e with Some (j, Ok _) => Nat.eqb i j | _ => false end) h.
  (** The event e, after h, initializes the logger n at a level: directly, or as some object's first use. *)
  Definition initializes (h : list event) (e : event) (n : text) : option LogLevel :=
    match e with
    | EInit n' lv => if text_eqb n n' then Some lv else None
    | EChdir _ => None
    | EAccess i s | ESetLevel i _ s | ELog i _ _ s =>
        match s with Ok lv => if text_eqb n (module_of i) && negb (has_logger h i) then Some lv else None | Err _ => None end
    end.
  (** The level of the logger n: the one set last. *)
  Fixpoint level_of (h : list event) (n : text) : option LogLevel :=
    match h with
    | [] => None
    | e :: h' =>
        match e with
        | ESetLevel i lv s => if text_eqb n (module_of i) && has_logger (e :: h') i then Some lv else level_of h' n
        | _ => match initializes h' e n with Some lv => Some lv | None => level_of h' n end
        end
    end.
  (** The current directory, starting in d. *)
  Fixpoint cwd_of (d : nat) (h : list event) : nat :=
    match h with [] => d | EChdir d' :: _ => d' | _ :: h' => cwd_of d h' end.
  (** The current directory when the logger n was initialized first. *)
  Fixpoint place_of (d : nat) (h : list event) (n : text) : option nat :=
    match h with
    | [] => None
    | e :: h' => match place_of d h' n with
                 | Some p => Some p
                 | None => match initializes h' e n with Some _ => Some (cwd_of d h') | None => None end
                 end
    end.
  (** The threshold: the logger's level; for NOTSET (or no level) the one of the root logger. *)
  Definition threshold (rootlevel : Z) (h : list event) (n : text) : Z :=
    match level_of h n with None | Some NOTSET => rootlevel | Some lv => level_value lv end.
  (** Everything written: each message at or above the threshold of its logger, once, into the file of the
      session in the logger's directory. *)
  Fixpoint written (rootlevel : Z) (d : nat) (h : list event) : list (handler * record_) :=
    match h with
    | [] => []
    | e :: h' =>
        written rootlevel d h' ++
        match e with
        | ELog i lv m s =>
            if has_logger h i && Z.leb (threshold rootlevel h (module_of i)) (level_value lv)
            then match place_of d h (module_of i) with
                 | Some p => [((p, buildFileName DATE), mkRecord (module_of i) (level_value lv) m)]
                 | None => []
                 end
            else []
        | _ => []
        end
    end.
End Spec.

(** Processes that start concurrently in one directory: the schedule says who takes the next step. *)
Definition mstate : Type := ((nat -> mkdir_pc) * entry)%type.
Definition mtick (st : mstate) (p : nat) : mstate :=
  let (pc', e') := mkdir_step (fst st p) (snd st) in ((fun q => if Nat.eqb p q then pc' else fst st q), e').
Definition mrun (schedule : list nat) (e : entry) : mstate := fold_left mtick schedule ((fun _ => MStart), e).
