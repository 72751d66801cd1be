(** * Specification of the command line's language (C78) *)
From Verif Require Import PyBase Json_Model Settings_Model Cli_Model Main_Model Main_Spec.
Open Scope list_scope.

(** ** The options *)
(** An option takes nothing, a word (one of some words), or two integers, or it ends the program. *)
Inductive takes : Type := Nothing | AWord (choices : option (list string)) | TwoIntegers | Ends.
Record entry : Type := mkEntry { e_name : string; e_letter : option N; e_long : string; e_takes : takes }.
(** The options before the subcommand, and those of a subcommand. *)
Inductive level : Type := Top | Sub (c : subcommand).
Definition entries (l : level) : list entry :=
  mkEntry "help" (Some 104%N) "help" Ends ::                                          (* -h *)
  match l with
  | Top => [ mkEntry "version" None "version" Ends; mkEntry "test" (Some 116%N) "test" Nothing ]   (* -t *)
  | Sub View => [ mkEntry "print" (Some 112%N) "print" Nothing ]                      (* -p *)
  | Sub Change =>
      [ mkEntry "container" None "container" (AWord (Some ["rounding"]));
        mkEntry "algorithm" None "algorithm" (AWord (Some ["newton_grid"; "simple_argument"; "simple_argument_newton"; "associated_polynomial"]));
        mkEntry "estimator" None "estimator" (AWord (Some ["summation"; "quadrature"]));
        mkEntry "log_level" None "log-level" (AWord (Some ["debug"; "info"; "warning"; "error"; "critical"]));
        mkEntry "verbose" None "verbose" (AWord (Some ["true"; "True"; "false"; "False"]));
        mkEntry "precision" None "precision" TwoIntegers ]
  | Sub Plugin =>
      [ mkEntry "list" (Some 108%N) "list" Nothing; mkEntry "modules" (Some 109%N) "modules" Nothing;   (* -l, -m *)
        mkEntry "install" None "install" (AWord None); mkEntry "uninstall" None "uninstall" (AWord None) ]
  end%string.

(** A word denotes an option if it is its letter with one hyphen, or two hyphens and a beginning of its name. *)
Definition denotes (l : level) (e : entry) (w : text) : Prop :=
  In e (entries l) /\
  ((exists c, e_letter e = Some c /\ w = [45%N; c]) \/
   (exists p r, p <> [] /\ txt (e_long e) = p ++ r /\ w = [45%N; 45%N] ++ p)).

Section Language.
  Variable int_of : text -> option Z.             (* int of a string *)
  Variable unicode_digit : N -> bool.             (* the decimal digits that are not ASCII *)

  Definition a_digit (c : N) : Prop := (48 <= c <= 57)%N \/ (128 <= c)%N /\ unicode_digit c = true.
  (** -12, -1.5, -.5 (perhaps with a newline at the end) *)
  Definition a_negative (v : text) : Prop :=
    exists ds fs nl, Forall a_digit ds /\ Forall a_digit fs /\ (nl = [] \/ nl = [10%N]) /\
      ((ds <> [] /\ v = 45%N :: ds ++ nl) \/ (fs <> [] /\ v = 45%N :: ds ++ 46%N :: fs ++ nl)).
  (** The words that can be the value of an option: they do not begin with a hyphen, or they are a single
      hyphen, or negative numbers or words with a space that do not begin like an option. *)
  Definition value_word (l : level) (v : text) : Prop :=
    (forall r, v <> 45%N :: r) \/ v = [45%N] \/
    ((a_negative v \/ In 32%N v) /\
     (forall e w r, denotes l e w -> v <> w ++ 61%N :: r) /\
     (forall e c r, In e (entries l) -> e_letter e = Some c -> v <> 45%N :: c :: r) /\
     (forall r, v <> 45%N :: 45%N :: 61%N :: r)).
  Definition allowed (choices : option (list string)) (v : text) : Prop :=
    match choices with None => True | Some cs => exists c, In c cs /\ v = txt c end.

  (** The ways to give one option (several letters can share a hyphen), and what they set. *)
  Inductive piece (l : level) : list text -> list (string * value) -> Prop :=
  | p_flag e w : denotes l e w -> e_takes e = Nothing -> piece l [w] [(e_name e, BoolV true)]
  | p_letters es cs : es <> [] -> Forall2 (fun e c => In e (entries l) /\ e_takes e = Nothing /\ e_letter e = Some c) es cs ->
      piece l [45%N :: cs] (map (fun e => (e_name e, BoolV true)) es)
  | p_word e ch w v : denotes l e w -> e_takes e = AWord ch -> allowed ch v -> value_word l v -> piece l [w; v] [(e_name e, TextV v)]
  | p_joined e ch w v : denotes l e w -> e_takes e = AWord ch -> allowed ch v -> piece l [w ++ 61%N :: v] [(e_name e, TextV v)]
  | p_ints e w v u x y : denotes l e w -> e_takes e = TwoIntegers -> value_word l v -> value_word l u -> int_of v = Some x -> int_of u = Some y ->
      piece l [w; v; u] [(e_name e, IntsV [x; y])].
  Inductive pieces (l : level) : list text -> list (string * value) -> Prop :=
  | ps_nil : pieces l [] []
  | ps_cons ws a rest b : piece l ws a -> pieces l rest b -> pieces l (ws ++ rest) (a ++ b).

  Definition sub_name (c : subcommand) : text := txt match c with View => "view" | Change => "change" | Plugin => "plugin" end.
  (** The command lines, their subcommand and what they set, in order. *)
  Inductive means : list text -> option subcommand -> list (string * value) -> Prop :=
  | m_top ws a : pieces Top ws a -> means ws None a
  | m_sub ws a c rest b : pieces Top ws a -> pieces (Sub c) rest b -> means (ws ++ sub_name c :: rest) (Some c) (a ++ b).

  (** The later of two settings of an option counts; options that are not given are off. *)
  Definition setting (a : list (string * value)) (n : string) : option value :=
    fold_left (fun r x => if String.eqb (fst x) n then Some (snd x) else r) a None.
  Definition off_value (t : takes) : option value :=
    match t with Nothing => Some (BoolV false) | AWord _ | TwoIntegers => Some NoneV | Ends => None end.
  Definition unset (sub : option subcommand) (n : string) : option value :=
    match find (fun e => String.eqb (e_name e) n) (entries Top ++ match sub with Some c => entries (Sub c) | None => [] end) with
    | Some e => off_value (e_takes e)
    | None => None
    end.
  Definition attribute (sub : option subcommand) (a : list (string * value)) (n : string) : option value :=
    match setting a n with Some v => Some v | None => unset sub n end.

  (** Words that ask for the program to end: --help, --version, -h, or letters among which is an h. *)
  Definition ends (l : level) (w : text) : Prop :=
    (exists e, denotes l e w /\ e_takes e = Ends) \/ (exists r, w = 45%N :: r /\ In 104%N r /\ forall c r', r = c :: r' -> c <> 45%N).
  (** Words argparse finds ambiguous. *)
  Definition ambiguous (w : text) : Prop := exists r, w = 45%N :: 45%N :: 61%N :: r.
End Language.

(** ** What a change command line asks for *)
Definition meaning_of (k : key) (w : string) : option pyval :=
  match k with
  | KContainer => match w with "rounding" => Some (VContainer ROUNDING_CONTAINER) | _ => None end
  | KAlgorithm => match w with
                  | "newton_grid" => Some (VAlgorithm NEWTON_GRID) | "simple_argument" => Some (VAlgorithm SIMPLE_ARGUMENT)
                  | "simple_argument_newton" => Some (VAlgorithm SIMPLE_ARGUMENT_NEWTON)
                  | "associated_polynomial" => Some (VAlgorithm ASSOCIATED_POLYNOMIAL) | _ => None end
  | KEstimator => match w with "summation" => Some (VEstimator SUMMATION_ESTIMATOR) | "quadrature" => Some (VEstimator QUADRATURE_ESTIMATOR) | _ => None end
  | KLevel => match w with
              | "debug" => Some (VLevel DEBUG) | "info" => Some (VLevel INFO) | "warning" => Some (VLevel WARNING)
              | "error" => Some (VLevel ERROR) | "critical" => Some (VLevel CRITICAL) | _ => None end
  | KVerbose => match w with
                | "true" | "True" => Some (VJson (JBool true)) | "false" | "False" => Some (VJson (JBool false)) | _ => None end
  | KPrecision => None
  end%string.
Definition option_name (k : key) : string :=
  match k with
  | KContainer => "container" | KAlgorithm => "algorithm" | KEstimator => "estimator" | KLevel => "log_level" | KVerbose => "verbose" | KPrecision => "precision"
  end.
(** The settings [a] of a command line ask for the value v of k. *)
Definition asked (a : list (string * value)) (k : key) (v : pyval) : Prop :=
  match setting a (option_name k) with
  | Some (TextV t) => exists w, t = txt w /\ meaning_of k w = Some v
  | Some (IntsV [x; y]) => k = KPrecision /\ v = VTuple [VJson (JInt x); VJson (JInt y)]
  | _ => False
  end.
