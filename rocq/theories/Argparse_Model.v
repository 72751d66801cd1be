(** * Model of the command line parser: cli/cli_parser.py and the part of the standard library's argparse it uses
    (Python 3.11, Lib/argparse.py; cited below as "argparse")

    Words are lists of code points.  Simplifications: the texts of help, usage and error messages are not modelled,
    only the exit codes (0 for help and version, 2 for errors); [type=int] is the argument [int_of] (int of a string,
    None: ValueError), and [unicode_digit] says which non-ASCII characters the \d of regular expressions matches.
    Positions in the list of words are replaced by the remaining words.  Not used by the CLI, hence not modelled:
    mutually exclusive groups, required options, files with arguments, nargs other than none, 0, 2 and subparsers,
    positional arguments besides the subcommand. *)
From Verif Require Import PyBase Json_Model Settings_Model Cli_Model Main_Model.
Open Scope list_scope.

(** The actions used: store_true, help, version, store (with or without choices), store with nargs=2, type=int. Code: cli_parser.py:73-85, 96-98, 109-145, 156-172. *)
Inductive kind : Type := StoreTrue | Help | Version | Store (choices : option (list text)) | StoreInts.
(** One add_argument call, cli_parser.py:73-172. *)
Record action : Type := mkAction { option_strings : list text; dest : string; act_kind : kind }.
(** cli_parser.py:49-52, 59-63: add_help is on, so every parser begins with -h, --help *)
Definition help_action : action := mkAction [txt "-h"; txt "--help"] "help" Help.
(** cli_parser.py:69-85 *)
Definition version_action : action := mkAction [txt "--version"] "version" Version.
(** cli_parser.py:83-85. *)
Definition test_action : action := mkAction [txt "-t"; txt "--test"] "test" StoreTrue.
(** cli_parser.py:49-56: the options of the main parser. *)
Definition top_actions : list action := [help_action; version_action; test_action].
(** cli_parser.py:87-98 *)
Definition view_actions : list action := [help_action; mkAction [txt "-p"; txt "--print"] "print" StoreTrue].
(** cli_parser.py:100-145.  argparse derives dest="log_level" from "--log-level". *)
Definition change_actions : list action :=
  [ help_action;
    mkAction [txt "--container"] "container" (Store (Some [txt "rounding"]));
    mkAction [txt "--algorithm"] "algorithm"
      (Store (Some [txt "newton_grid"; txt "simple_argument"; txt "simple_argument_newton"; txt "associated_polynomial"]));
    mkAction [txt "--estimator"] "estimator" (Store (Some [txt "summation"; txt "quadrature"]));
    mkAction [txt "--log-level"] "log_level" (Store (Some [txt "debug"; txt "info"; txt "warning"; txt "error"; txt "critical"]));
    mkAction [txt "--verbose"] "verbose" (Store (Some [txt "true"; txt "True"; txt "false"; txt "False"]));
    mkAction [txt "--precision"] "precision" StoreInts ].
(** cli_parser.py:147-172 *)
Definition plugin_actions : list action :=
  [ help_action;
    mkAction [txt "-l"; txt "--list"] "list" StoreTrue;
    mkAction [txt "-m"; txt "--modules"] "modules" StoreTrue;
    mkAction [txt "--install"] "install" (Store None);
    mkAction [txt "--uninstall"] "uninstall" (Store None) ].
(** cli_parser.py:58-67: the subparsers *)
Definition subparsers : list (text * list action) := [(txt "view", view_actions); (txt "change", change_actions); (txt "plugin", plugin_actions)].

(** '-', prefix_chars of ArgumentParser (cli_parser.py:49-52: default). *)
Definition hyphen : N := 45%N.
(** '=', as in --option=value (parse_args, cli_parser.py:187). *)
Definition equals : N := 61%N.
(** str.startswith and str.partition('=') Code: used by parse_args, cli_parser.py:187. *)
Fixpoint startswith (w prefix : text) : bool :=
  match prefix, w with
  | [], _ => true
  | c :: p, d :: w' => if N.eqb c d then startswith w' p else false
  | _ :: _, [] => false
  end.
(** str.partition('='), used by parse_args, cli_parser.py:187. *)
Fixpoint partition_eq (w : text) : text * option text :=
  match w with
  | [] => ([], None)
  | c :: w' => if N.eqb c equals then ([], Some w') else let (h, t) := partition_eq w' in (c :: h, t)
  end.

Section Argparse.
  Variable int_of : text -> option Z.
  Variable unicode_digit : N -> bool.

  (** argparse:1790: '^-\d+$|^-\d*\.\d+$'; $ also matches before a final newline *)
  Definition digit (c : N) : bool := if (c <? 128)%N then ((48 <=? c) && (c <=? 57))%N%bool else unicode_digit c.
  (** Digits of a pattern, argparse, called by parse_args, cli_parser.py:187. *)
  Fixpoint drop_digits (w : text) : text := match w with c :: w' => if digit c then drop_digits w' else w | [] => [] end.
  (** $ in a pattern, argparse, called by parse_args, cli_parser.py:187. *)
  Definition at_end (w : text) : bool := match w with [] => true | [c] => N.eqb c 10 | _ => false end.
  (** a digit in a pattern, argparse, called by parse_args, cli_parser.py:187. *)
  Definition starts_digit (w : text) : bool := match w with c :: _ => digit c | [] => false end.
  (** _negative_number_matcher, argparse, called by parse_args, cli_parser.py:187. *)
  Definition negative_number (w : text) : bool :=
    match w with
    | c :: r =>
        (N.eqb c hyphen &&
         (starts_digit r && at_end (drop_digits r)
          || match drop_digits r with
             | d :: f => N.eqb d 46 && starts_digit f && at_end (drop_digits f)
             | [] => false
             end))%bool
    | [] => false
    end.

  (** The option an option word selects, whether that is a two-dash option, and the text attached to the word, if any,
      with the separator (true: '='; false: none). Code: argparse, called by parse_args, cli_parser.py:187. *)
  Inductive option_tuple : Type := Known (a : action) (two : bool) (explicit : option (bool * text)) | Unknown.
  (** What a word of the command line is, argparse, called by parse_args, cli_parser.py:187. *)
  Inductive word_class : Type := Argument | OptionWord (o : option_tuple) | DoubleDash.
  (** The classified words, argparse, called by parse_args, cli_parser.py:187. *)
  Inductive classified : Type := Class (c : word_class) | Ambiguous.

  (** --, argparse, called by parse_args, cli_parser.py:187. *)
  Definition two_dashes (o : text) : bool := match o with c :: d :: _ => (N.eqb c hyphen && N.eqb d hyphen)%bool | _ => false end.
  (** _option_string_actions, argparse, called by parse_args, cli_parser.py:187. *)
  Definition action_of (P : list action) (o : text) : option action := find (fun a => existsb (text_eqb o) (option_strings a)) P.
  (** The keys of _option_string_actions, argparse, called by parse_args, cli_parser.py:187. *)
  Definition all_strings (P : list action) : list (text * action) := flat_map (fun a => map (fun o => (o, a)) (option_strings a)) P.
  (** argparse: _get_option_tuples (option strings are unique, so the map's actions are those of the list). Code: argparse, called by parse_args, cli_parser.py:187. *)
  Definition get_option_tuples (P : list action) (w : text) : list option_tuple :=
    if two_dashes w then
      let (prefix, rest) := partition_eq w in
      flat_map (fun oa => if startswith (fst oa) prefix then [Known (snd oa) (two_dashes (fst oa)) (option_map (fun e => (true, e)) rest)] else [])
        (all_strings P)
    else
      flat_map (fun oa =>
        if text_eqb (fst oa) (firstn 2 w) then [Known (snd oa) (two_dashes (fst oa)) (Some (false, skipn 2 w))]
        else if startswith (fst oa) w then [Known (snd oa) (two_dashes (fst oa)) None] else []) (all_strings P).
  (** argparse: _parse_optional, and the treatment of '--' in _parse_known_args. Code: argparse, called by parse_args, cli_parser.py:187. *)
  Definition parse_optional (P : list action) (w : text) : classified :=
    match w with
    | [] => Class Argument
    | c :: r =>
        if negb (N.eqb c hyphen) then Class Argument
        else match action_of P w with
             | Some a => Class (OptionWord (Known a (two_dashes w) None))
             | None =>
                 match r with
                 | [] => Class Argument
                 | _ =>
                     match partition_eq w with
                     | (o, Some e) =>
                         match action_of P o with
                         | Some a => Class (OptionWord (Known a (two_dashes o) (Some (true, e))))
                         | None => match get_option_tuples P w with
                                   | _ :: _ :: _ => Ambiguous
                                   | [t] => Class (OptionWord t)
                                   | [] => if negative_number w then Class Argument
                                           else if existsb (N.eqb 32) w then Class Argument else Class (OptionWord Unknown)
                                   end
                         end
                     | (_, None) => match get_option_tuples P w with
                                    | _ :: _ :: _ => Ambiguous
                                    | [t] => Class (OptionWord t)
                                    | [] => if negative_number w then Class Argument
                                            else if existsb (N.eqb 32) w then Class Argument else Class (OptionWord Unknown)
                                    end
                     end
                 end
             end
    end.
  (** argparse: _parse_known_args, the classification of all words; None: an ambiguous option (exit 2). Code: argparse, called by parse_args, cli_parser.py:187. *)
  Fixpoint classify (P : list action) (ws : list text) : option (list (text * word_class)) :=
    match ws with
    | [] => Some []
    | w :: ws' =>
        if text_eqb w [hyphen; hyphen] then Some ((w, DoubleDash) :: map (fun v => (v, Argument)) ws')
        else match parse_optional P w with
             | Ambiguous => None
             | Class c => match classify P ws' with Some l => Some ((w, c) :: l) | None => None end
             end
    end.

  (** argparse: _get_nargs_pattern for options. Code: argparse, called by parse_args, cli_parser.py:187. *)
  Definition arity (k : kind) : nat := match k with StoreTrue | Help | Version => 0 | Store _ => 1 | StoreInts => 2 end.
  (** argparse: take_action, _get_values, _check_value and the actions themselves; None for the namespace: left. Code: argparse, called by parse_args, cli_parser.py:187. *)
  Definition take_action (a : action) (values : list text) (ns : namespace) : parse :=
    match act_kind a with
    | StoreTrue => Parsed (dset String.eqb (dest a) (BoolV true) ns)
    | Help | Version => Exits 0
    | Store choices =>
        match values with
        | [v] => match choices with
                 | Some cs => if existsb (text_eqb v) cs then Parsed (dset String.eqb (dest a) (TextV v) ns) else Exits 2
                 | None => Parsed (dset String.eqb (dest a) (TextV v) ns)
                 end
        | _ => Exits 2
        end
    | StoreInts =>
        match values with
        | [v; w] => match int_of v, int_of w with
                    | Some x, Some y => Parsed (dset String.eqb (dest a) (IntsV [x; y]) ns)
                    | _, _ => Exits 2
                    end
        | _ => Exits 2
        end
    end.
  (** Several actions in turn, argparse, called by parse_args, cli_parser.py:187. *)
  Fixpoint take_actions (l : list (action * list text)) (ns : namespace) : parse :=
    match l with
    | [] => Parsed ns
    | (a, vs) :: l' => match take_action a vs ns with Parsed ns' => take_actions l' ns' | Exits c => Exits c end
    end.

  (** argparse: the loop in consume_optional, for an option with attached text.  The result: the actions to be taken,
      then the option still waiting for its arguments, or a remainder that is not recognized. Code: argparse, called by parse_args, cli_parser.py:187. *)
  Inductive unfolded : Type :=
  | Complete (l : list (action * list text))
  | Waiting (l : list (action * list text)) (a : action)
  | Extra (l : list (action * list text)) (rest : text)
  | ArgumentError.
  (** An action put in front of the result, argparse, called by parse_args, cli_parser.py:187. *)
  Definition before (x : action * list text) (u : unfolded) : unfolded :=
    match u with
    | Complete l => Complete (x :: l)
    | Waiting l a => Waiting (x :: l) a
    | Extra l r => Extra (x :: l) r
    | ArgumentError => ArgumentError
    end.
  (** consume_optional with attached text, argparse, called by parse_args, cli_parser.py:187. *)
  Fixpoint unfold_option (P : list action) (a : action) (two : bool) (sep : bool) (explicit : text) {struct explicit} : unfolded :=
    match arity (act_kind a) with
    | 0%nat =>
        match explicit with
        | [] => ArgumentError
        | c :: e =>
            if two then ArgumentError
            else if (sep || N.eqb c hyphen)%bool then ArgumentError
            else match action_of P [hyphen; c] with
                 | None => Extra [(a, [])] (hyphen :: c :: e)
                 | Some a' =>
                     before (a, [])
                       match e with
                       | [] => Waiting [] a'
                       | d :: e' => if N.eqb d equals then unfold_option P a' (two_dashes [hyphen; c]) true e'
                                    else unfold_option P a' (two_dashes [hyphen; c]) false e
                       end
                 end
        end
    | 1%nat => Complete [(a, [explicit])]
    | _ => ArgumentError
    end.
  (** consume_optional, argparse, called by parse_args, cli_parser.py:187. *)
  Definition consume (P : list action) (o : option_tuple) : unfolded :=
    match o with
    | Unknown => ArgumentError
    | Known a _ None => Waiting [] a
    | Known a two (Some (sep, e)) => unfold_option P a two sep e
    end.
  (** argparse: _match_argument for an option and the words following it: the arguments and the remaining words. Code: argparse, called by parse_args, cli_parser.py:187. *)
  Definition is_argument (x : text * word_class) : bool := match snd x with Argument => true | _ => false end.

  (** argparse: _parse_known_args, the loop.  [positional]: what the subcommand does with the words from its name on (None:
      there is none, or it has been used).  It takes all words from the first argument on, and
      also a '--' before it, which is no subcommand then.  The result: the namespace and the words not recognized. Code: argparse, called by parse_args, cli_parser.py:187. *)
  Definition known : Type := (parse * list text)%type.
  (** Actions, then the rest, argparse, called by parse_args, cli_parser.py:187. *)
  Definition then_take (p : parse) (f : namespace -> known) : known := match p with Exits c => (Exits c, []) | Parsed ns => f ns end.
  (** An unrecognised word, argparse, called by parse_args, cli_parser.py:187. *)
  Definition with_extra (es : list text) (k : known) : known := (fst k, es ++ snd k).
  (** _parse_known_args, argparse, called by parse_args, cli_parser.py:187. *)
  Fixpoint parse_words (P : list action) (positional : option (list text -> namespace -> known)) (ws : list (text * word_class)) (ns : namespace) {struct ws}
    : known :=
    match ws with
    | [] => (Parsed ns, [])
    | (w, Argument) :: rest =>
        match positional with
        | Some f => f (w :: map fst rest) ns
        | None => with_extra [w] (parse_words P None rest ns)
        end
    | (w, DoubleDash) :: rest =>
        match positional, rest with
        | Some f, (_, Argument) :: _ => f (w :: map fst rest) ns
        | _, _ => with_extra [w] (parse_words P positional rest ns)
        end
    | (w, OptionWord Unknown) :: rest => with_extra [w] (parse_words P positional rest ns)
    | (w, OptionWord o) :: rest =>
        match consume P o with
        | ArgumentError => (Exits 2, [])
        | Complete l => then_take (take_actions l ns) (parse_words P positional rest)
        | Extra l e => with_extra [e] (then_take (take_actions l ns) (parse_words P positional rest))
        | Waiting l a =>
            match arity (act_kind a), rest with
            | 0%nat, _ => then_take (take_actions (l ++ [(a, [])]) ns) (parse_words P positional rest)
            | 1%nat, (v, Argument) :: rest' => then_take (take_actions (l ++ [(a, [v])]) ns) (parse_words P positional rest')
            | 2%nat, (v, Argument) :: (u, Argument) :: rest' => then_take (take_actions (l ++ [(a, [v; u])]) ns) (parse_words P positional rest')
            | _, _ => (Exits 2, [])
            end
        end
    end.

  (** argparse: parse_known_args: the defaults (False for store_true, None for store; help and version have none), then
      the words. Code: argparse, called by parse_args, cli_parser.py:187. *)
  Definition default_of (a : action) : namespace :=
    match act_kind a with
    | StoreTrue => [(dest a, BoolV false)]
    | Store _ | StoreInts => [(dest a, NoneV)]
    | Help | Version => []
    end.
  (** parse_known_args, argparse, called by parse_args, cli_parser.py:187. *)
  Definition parse_known_args (P : list action) (positional : option (list text -> namespace -> known)) (ws : list text) : known :=
    match classify P ws with
    | None => (Exits 2, [])
    | Some l => parse_words P positional l (flat_map default_of P)
    end.
  (** argparse: _SubParsersAction.__call__ (after _check_value of the name). Code: argparse, called by parse_args, cli_parser.py:187. *)
  Definition merge (ns sub : namespace) : namespace := fold_left (fun ns x => dset String.eqb (fst x) (snd x) ns) sub ns.
  (** _SubParsersAction.__call__, argparse, called by parse_args, cli_parser.py:187. *)
  Definition subcommand_action (ws : list text) (ns : namespace) : known :=
    match ws with
    | [] => (Exits 2, [])
    | name :: rest =>
        match find (fun s => text_eqb name (fst s)) subparsers with
        | None => (Exits 2, [])
        | Some (_, P) => let (r, extras) := parse_known_args P None rest in
                         (match r with Exits c => Exits c | Parsed sub => Parsed (merge ns sub) end, extras)
        end
    end.
  (** argparse: parse_args; cli_parser.py:186-187 *)
  Definition parse_args (ws : list text) : parse :=
    match parse_known_args top_actions (Some subcommand_action) ws with
    | (Exits c, _) => Exits c
    | (Parsed ns, []) => Parsed ns
    | (Parsed _, _ :: _) => Exits 2
    end.
End Argparse.
