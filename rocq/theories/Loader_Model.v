(** * Plugin discovery and loading: plugins/plugin_loader.py *)
From Verif Require Import PyBase Json_Model Cli_Model Locator_Model.
Open Scope list_scope.

(** '.', in the file names of plugin_loader.py:121-145. *)
Definition dot : N := 46%N.
(** re.compile(r"__.*").match(s) Code: plugin_loader.py:143-144, 156-157. *)
Definition dunder (s : text) : bool := match s with a :: b :: _ => (N.eqb a 95 && N.eqb b 95)%bool | _ => false end.
(** plugin_loader.py:134-145; [listing]: the result of listdir *)
Definition discoverModules (listing : list text) : list text := filter (fun c => negb (dunder c)) listing.

(** splitext of a file name without "/" (names of listdir): at the last dot, unless only dots precede it. Code: plugin_loader.py:131. *)
Fixpoint last_dot (s : text) : option (text * text) :=
  match s with
  | [] => None
  | c :: s' => match last_dot s' with
               | Some (a, b) => Some (c :: a, b)
               | None => if N.eqb c dot then Some ([], s) else None
               end
  end.
(** plugin_loader.py:131. *)
Definition splitext (s : text) : text * text :=
  match last_dot s with
  | Some (a, b) => if existsb (fun c => negb (N.eqb c dot)) a then (a, b) else (s, [])
  | None => (s, [])
  end.
(** plugin_loader.py:120-132; [low] as in Cli_Model: str.lower of non-ASCII characters. *)
Definition isPyFile (low : N -> text) (filename : text) : text :=
  if text_eqb filename (txt "__init__.py") then []
  else let (name, extension) := splitext filename in
       if text_eqb (lower low extension) (txt ".py") then dot :: name else [].

(** s.split(".") Code: import_module, plugin_loader.py:85-87. *)
Fixpoint split_dot (s : text) : list text :=
  match s with
  | [] => [[]]
  | c :: s' => if N.eqb c dot then [] :: split_dot s'
               else match split_dot s' with [] => [[c]] | w :: ws => (c :: w) :: ws end
  end.
(** Its inverse, used for module names, plugin_loader.py:85-87. *)
Fixpoint join_dot (ws : list text) : text :=
  match ws with [] => [] | [w] => w | w :: ws' => w ++ dot :: join_dot ws' end.

Section Loader.
  Context {T V W : Type}.
  Variable teqb : T -> T -> bool.
  (** A plugin class: getInstance() (whose properties are known) and initialize() may raise. Code: plugin_loader.py:61-65, pyzeal_plugin.py:47-92. *)
  Record instance : Type := mkInstance { i_type : T; i_name : text; i_version : Z * Z * Z }.
  (** plugin_loader.py:60-65. *)
  Record plugin : Type := mkPlugin { getInstance : res instance; initialize : res (factory T V W) }.
  (** The attributes of a module in the order of dir(): PyZEALPlugin itself, subclasses of it, others. Code: plugin_loader.py:102-117. *)
  Inductive attribute : Type := ABase | APlugin (c : plugin) | AOther.
  (** plugin_loader.py:85-88. *)
  Definition module : Type := list (text * attribute).

  (** What importing a module gives once its parent packages are imported.  (Simplifications: no module
      has been imported before without its parents; module code does not touch locator or directory.) *)
  Variable find_module : text -> res module.
  (** Parents are imported first, import_module, plugin_loader.py:85-87. *)
  Fixpoint import_chain (done rest : list text) : res module :=
    match rest with
    | [] => Err ImportError
    | [w] => find_module (join_dot (done ++ [w]))
    | w :: rest' => bind (find_module (join_dot (done ++ [w]))) (fun _ => import_chain (done ++ [w]) rest')
    end.
  (** importlib.import_module(name, package) for a relative name. Code: plugin_loader.py:85-87. *)
  Fixpoint level (s : text) : nat := match s with c :: s' => if N.eqb c dot then S (level s') else O | [] => O end.
  (** plugin_loader.py:85-87. *)
  Definition import_module (name package : text) : res module :=
    let lv := level name in
    let bits := split_dot package in
    if Nat.ltb (List.length bits) lv then Err ImportError
    else import_chain [] (firstn (List.length bits - (lv - 1)) bits ++ split_dot (skipn lv name)).

  (** plugin_loader.py:93-118, 147-158 *)
  Definition loadPlugin (m : module) : option plugin :=
    match find (fun a => negb (dunder (fst a)) && match snd a with APlugin _ => true | _ => false end)%bool m with
    | Some (_, APlugin c) => Some c
    | _ => None
    end.

  Variable low : N -> text.
  (** The package of the plugins, plugin_loader.py:85-87. *)
  Definition PACKAGE : text := txt "pyzeal_plugins.custom_plugins".
  (** plugin_loader.py:68-91; [log]: creating the loader's logger, which needs the settings *)
  Fixpoint load_candidates (candidates : list text) : res (list plugin) :=
    match candidates with
    | [] => Ok []
    | c :: cs =>
        match isPyFile low c with
        | [] => load_candidates cs
        | name => bind (import_module name PACKAGE) (fun m =>
                  bind (load_candidates cs) (fun ps => Ok match loadPlugin m with Some p => p :: ps | None => ps end))
        end
    end.
  (** plugin_loader.py:68-91. *)
  Definition locateAndLoadPlugins (log : res unit) (listing : res (list text)) : res (list plugin) :=
    bind log (fun _ => bind listing (fun ns => load_candidates (discoverModules ns))).

  (** plugin_loader.py:48-66 *)
  Fixpoint register_plugins (ps : list plugin) (l : locator T V W) : locator T V W * res (list instance) :=
    match ps with
    | [] => (l, Ok [])
    | p :: ps' =>
        match getInstance p with
        | Err e => (l, Err e)
        | Ok i => match initialize p with
                  | Err e => (l, Err e)
                  | Ok f => match registerAsTransient teqb (i_type i) f l with
                            | (l', Err e) => (l', Err e)
                            | (l', Ok _) => let (l'', r) := register_plugins ps' l' in (l'', bind r (fun is_ => Ok (i :: is_)))
                            end
                  end
        end
    end.
  (** plugin_loader.py:48-66. *)
  Definition loadPlugins (log : res unit) (listing : res (list text)) (l : locator T V W) : locator T V W * res (list instance) :=
    match locateAndLoadPlugins log listing with
    | Err e => (l, Err e)
    | Ok ps => register_plugins ps l
    end.
End Loader.
Arguments mkInstance {T}.
Arguments mkPlugin {T V W}.
Arguments ABase {T V W}.
Arguments APlugin {T V W}.
Arguments AOther {T V W}.

(** PluginLoader.getInstance, plugin_loader.py:32-46: the class attribute _instance and a new object. *)
Definition loaderInstance (instance_ : option nat) (fresh : nat) : option nat * nat :=
  (instance_, match instance_ with Some i => i | None => fresh end).

(** PyZEALPlugin.__str__, pyzeal_plugin.py:36-44; [digits]: str of an int. *)
Definition pad (n : nat) (s : text) : text := s ++ repeat 32%N (n - List.length s).
(** pyzeal_plugin.py:36-44. *)
Definition plugin_str {T} (digits : Z -> text) (i : @instance T) : text :=
  let '(major, minor, patch) := i_version i in
  let cutoff := Nat.min (List.length (i_name i)) 30 in
  pad 30 (firstn cutoff (i_name i)) ++ txt "  @ v" ++ digits major ++ txt "." ++ digits minor ++ txt "." ++ digits patch.
