(** * Plugin installation: plugins/installation_helper.py, on a model of paths and directories
      (posixpath.join/basename, os.path.exists, os.remove, shutil.copy). *)
From Verif Require Import PyBase Json_Model.
Open Scope list_scope.

(** A position in the directory tree: the names on the way, innermost first ([]: the root).
    Symbolic links, permissions and metadata are not modelled. Code: the paths of installation_helper.py:28-45. *)
Definition place : Type := list text.
(** What a place holds, as far as installation_helper.py:28-45 can see. *)
Inductive node : Type := NFile (content : text) | NDir.
(** The file system installation_helper.py:28-45 works on. *)
Definition tree : Type := place -> option node.
(** Equality of places (two paths name the same file, shutil.copy at installation_helper.py:30). *)
Fixpoint place_eqb (a b : place) : bool :=
  match a, b with
  | [], [] => true
  | x :: a', y :: b' => text_eqb x y && place_eqb a' b'
  | _, _ => false
  end.
(** Replacing the entry at one place (shutil.copy, os.remove: installation_helper.py:30, 42). *)
Definition store (q : place) (n : option node) (fs : tree) : tree := fun q' => if place_eqb q q' then n else fs q'.

(** '/', in the paths of installation_helper.py:28-59. *)
Definition slash : N := 47%N.
(** Used by os.path.join, installation_helper.py:42, 59. *)
Definition starts_with_slash (s : text) : bool := match s with c :: _ => N.eqb c slash | [] => false end.
(** Used by os.path.join, installation_helper.py:42, 59. *)
Definition ends_with_slash (s : text) : bool := match rev s with c :: _ => N.eqb c slash | [] => false end.
(** posixpath.join(a, b): installation_helper.py:42, 59. *)
Definition join (a b : text) : text :=
  if starts_with_slash b then b
  else match a with
       | [] => b
       | _ => if ends_with_slash a then a ++ b else a ++ slash :: b
       end.
(** s.split("/"): path resolution for installation_helper.py:28-42. *)
Fixpoint split_slash (s : text) : list text :=
  match s with
  | [] => [[]]
  | c :: s' => if N.eqb c slash then [] :: split_slash s'
               else match split_slash s' with [] => [[c]] | w :: ws => (c :: w) :: ws end
  end.
(** posixpath.basename: shutil.copy, installation_helper.py:30. *)
Definition basename (s : text) : text := last (split_slash s) [].

(** The kernel's path resolution from the directory [cur]. Code: installation_helper.py:28-42. *)
Fixpoint walk (fs : tree) (cur : place) (comps : list text) : res place :=
  match comps with
  | [] => Ok cur
  | c :: rest =>
      match fs cur with
      | Some NDir =>
          if (text_eqb c [] || text_eqb c (txt "."))%bool then walk fs cur rest
          else if text_eqb c (txt "..") then walk fs (tl cur) rest
          else walk fs (c :: cur) rest
      | Some (NFile _) => Err OSError
      | None => Err FileNotFoundError
      end
  end.
(** NUL characters are refused before (ValueError); an empty path does not exist. Code: installation_helper.py:28-42. *)
Definition lookup (fs : tree) (cwd : place) (s : text) : res place :=
  if existsb (N.eqb 0%N) s then Err ValueError
  else match s with
       | [] => Err FileNotFoundError
       | _ => walk fs (if starts_with_slash s then [] else cwd) (split_slash s)
       end.

(** os.path.exists: errors mean False. Code: installation_helper.py:28. *)
Definition exists_ (fs : tree) (cwd : place) (s : text) : bool :=
  match lookup fs cwd s with Ok q => match fs q with Some _ => true | None => false end | Err _ => false end.
(** os.remove: installation_helper.py:42. *)
Definition remove (fs : tree) (cwd : place) (s : text) : tree * res unit :=
  match lookup fs cwd s with
  | Err e => (fs, Err e)
  | Ok q => match fs q with
            | Some (NFile _) => (store q None fs, Ok tt)
            | Some NDir => (fs, Err OSError)
            | None => (fs, Err FileNotFoundError)
            end
  end.
(** shutil.copy(src, dst): into dst if it is a directory; copyfile refuses identical files and
    directories; an existing target file is overwritten. Code: installation_helper.py:30. *)
Definition copy (fs : tree) (cwd : place) (src dst : text) : tree * res unit :=
  let isdir := match lookup fs cwd dst with Ok q => match fs q with Some NDir => true | _ => false end | Err _ => false end in
  let dst' := if isdir then join dst (basename src) else dst in
  match lookup fs cwd src, lookup fs cwd dst' with
  | Ok qs, Ok qd =>
      if place_eqb qs qd then (fs, Err OSError)
      else match fs qs with
           | Some (NFile c) =>
               match fs qd with
               | Some NDir => (fs, Err OSError)
               | _ => match fs (tl qd) with
                      | Some NDir => (store qd (Some (NFile c)) fs, Ok tt)
                      | _ => (fs, Err FileNotFoundError)
                      end
               end
           | Some NDir => (fs, Err OSError)
           | None => (fs, Err FileNotFoundError)
           end
  | Err e, _ => (fs, Err e)
  | _, Err e => (fs, Err e)
  end.

Section Helper.
  (** PLUGIN_INSTALL_DIR, plugin_loader.py:24, and the working directory. *)
  Variable DIR : text.
  Variable cwd : place.
  (** installation_helper.py:20-31 *)
  Definition installPlugin (fullPath : text) (fs : tree) : tree * res bool :=
    if negb (exists_ fs cwd fullPath) then (fs, Ok false)
    else match copy fs cwd fullPath DIR with
         | (fs', Ok _) => (fs', Ok true)
         | (fs', Err e) => (fs', Err e)
         end.
  (** installation_helper.py:34-45 *)
  Definition uninstallPlugin (filename : text) (fs : tree) : tree * res bool :=
    match remove fs cwd (join DIR filename) with
    | (fs', Ok _) => (fs', Ok true)
    | (fs', Err FileNotFoundError) => (fs', Ok false)
    | (fs', Err OSError) => (fs', Ok false)
    | (fs', Err e) => (fs', Err e)
    end.
  (** installation_helper.py:48-59 *)
  Definition returnDataPath (filename : text) (fullPath : text) : text := join fullPath filename.
End Helper.
