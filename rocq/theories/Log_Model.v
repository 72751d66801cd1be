(** * Logging: pyzeal_logging/log_manager.py, loggable.py and the part of Python's logging they use. *)
From Verif Require Import PyBase Json_Model Settings_Model.
Open Scope list_scope.

(** datetime; microseconds are not used: log_manager.py:26. *)
Record date : Type := mkDate { year : N; month : N; day : N; hour : N; minute : N; second : N }.
(** s.zfill(2) for a string of digits: log_manager.py:72-74. *)
Definition zfill2 (s : text) : text := repeat 48%N (2 - List.length s) ++ s.
(** log_manager.py:63-76 *)
Definition buildFileName (d : date) : text :=
  txt "pyzeal_" ++ (zfill2 (digits (day d)) ++ zfill2 (digits (month d)) ++ digits (year d) ++
    zfill2 (digits (hour d)) ++ zfill2 (digits (minute d)) ++ zfill2 (digits (second d))) ++ txt ".log".

(** What "./logs/" is in a directory. Code: log_manager.py:27, 47-48. *)
Inductive entry : Type := Missing | Directory | NotDirectory.
(** A handler writes to a file in the logs directory of a directory (given by a number). Code: log_manager.py:53-58. *)
Definition handler : Type := (nat * text)%type.
(** logging.Logger as used at log_manager.py:50-58. *)
Record logger : Type := mkLogger { lg_level : Z; lg_handlers : list handler }.
(** A written line, log_manager.py:28-31. *)
Record record_ : Type := mkRecord { r_name : text; r_level : Z; r_message : text }.
(** The process: current directory, what the directories contain, the loggers known to the logging module
    (logging.Logger.manager), the root logger, objects that have their _logger attribute, what was written.
    (Simplifications: handler levels, filters, logging.disable and propagate=False are not used by PyZEAL;
    logger names have no dot, so that the only ancestor is the root logger; files can be opened.) Code: log_manager.py:36-60, loggable.py:33-46. *)
Record logging : Type := mkLogging {
  cwd : nat; dirs : nat -> entry; loggers : list (text * logger); root : logger; attached : list nat;
  output : list (handler * record_) }.

(** logging.getLogger(name) Code: log_manager.py:50. *)
Definition getLogger (name : text) (st : logging) : logger :=
  match dget text_eqb name (loggers st) with Some l => l | None => mkLogger 0 [] end.
(** The logger as changed by log_manager.py:51, 58. *)
Definition putLogger (name : text) (l : logger) (st : logging) : logging :=
  mkLogging (cwd st) (dirs st) (dset text_eqb name l (loggers st)) (root st) (attached st) (output st).
(** The effect of os.mkdir, log_manager.py:48. *)
Definition putDir (d : nat) (e : entry) (st : logging) : logging :=
  mkLogging (cwd st) (fun d' => if Nat.eqb d d' then e else dirs st d') (loggers st) (root st) (attached st) (output st).

(** log_manager.py:47-48: os.path.exists("./logs/") is False for a file of this name. *)
Definition makeLogDir (st : logging) : logging * res unit :=
  match dirs st (cwd st) with
  | Directory => (st, Ok tt)
  | Missing => (putDir (cwd st) Directory st, Ok tt)
  | NotDirectory => (st, Err OSError)
  end.
(** log_manager.py:36-60; DATE is fixed when the module is imported (27). *)
Definition initLogger (DATE : date) (name : text) (logLevel : LogLevel) (st : logging) : logging * res unit :=
  match makeLogDir st with
  | (st1, Err e) => (st1, Err e)
  | (st1, Ok _) =>
      let l := getLogger name st1 in
      let hs := match lg_handlers l ++ lg_handlers (root st1) with
                | [] => [(cwd st1, buildFileName DATE)]
                | _ => lg_handlers l
                end in
      (putLogger name (mkLogger (level_value logLevel) hs) st1, Ok tt)
  end.
(** Logger.setLevel, Logger.getEffectiveLevel, Logger.log: log_manager.py:51, loggable.py:46. *)
Definition setLoggerLevel (name : text) (v : Z) (st : logging) : logging :=
  putLogger name (mkLogger v (lg_handlers (getLogger name st))) st.
(** Logger.getEffectiveLevel, used by the logging calls (logger_facade.py:15-71). *)
Definition effective (name : text) (st : logging) : Z :=
  if Z.eqb (lg_level (getLogger name st)) 0 then lg_level (root st) else lg_level (getLogger name st).
(** Logger.debug .. critical, logger_facade.py:18-57. *)
Definition emit (name : text) (v : Z) (message : text) (st : logging) : logging :=
  if Z.leb (effective name st) v
  then mkLogging (cwd st) (dirs st) (loggers st) (root st) (attached st)
         (output st ++ map (fun h => (h, mkRecord name v message)) (lg_handlers (getLogger name st) ++ lg_handlers (root st)))
  else st.

Section Loggable.
  Variable DATE : date.
  (** The name of an object's logger: the last component of the name of the module of its class. *)
  Variable module_of : nat -> text.
  (** loggable.py:25-38; [settings]: the log level the settings resolved at this moment have (or the error). *)
  Definition access (i : nat) (settings : res LogLevel) (st : logging) : logging * res unit :=
    if existsb (Nat.eqb i) (attached st) then (st, Ok tt)
    else match settings with
         | Err e => (st, Err e)
         | Ok lv =>
             match initLogger DATE (module_of i) lv st with
             | (st1, Err e) => (st1, Err e)
             | (st1, Ok _) => (mkLogging (cwd st1) (dirs st1) (loggers st1) (root st1) (i :: attached st1) (output st1), Ok tt)
             end
         end.
  (** loggable.py:40-46 *)
  Definition setLevel (i : nat) (level : LogLevel) (settings : res LogLevel) (st : logging) : logging * res unit :=
    match access i settings st with
    | (st1, Err e) => (st1, Err e)
    | (st1, Ok _) => (setLoggerLevel (module_of i) (level_value level) st1, Ok tt)
    end.
  (** self.logger.info(message) etc., as everywhere in the package. Code: logger_facade.py:18-57. *)
  Definition log (i : nat) (level : LogLevel) (message : text) (settings : res LogLevel) (st : logging) : logging * res unit :=
    match access i settings st with
    | (st1, Err e) => (st1, Err e)
    | (st1, Ok _) => (emit (module_of i) (level_value level) message st1, Ok tt)
    end.
End Loggable.

(** os.chdir, as done by install_test_handler.py:26-27 *)
Definition chdir (d : nat) (st : logging) : logging :=
  mkLogging d (dirs st) (loggers st) (root st) (attached st) (output st).

(** makeLogDir as the two steps other processes can observe: os.path.exists, os.mkdir. Code: log_manager.py:47-48. *)
Inductive mkdir_pc : Type := MStart | MAbsent | MReady | MFailed.
(** One of these steps, log_manager.py:47-48. *)
Definition mkdir_step (p : mkdir_pc) (e : entry) : mkdir_pc * entry :=
  match p with
  | MStart => match e with Directory => (MReady, e) | _ => (MAbsent, e) end
  | MAbsent => match e with Missing => (MReady, Directory) | _ => (MFailed, e) end
  | MReady => (MReady, e)
  | MFailed => (MFailed, e)
  end.
