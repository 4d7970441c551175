(** Which files the format check looks at: test/CMakeLists.txt lines 28 and 107, test/cmake/modules/Findclangformat.cmake lines 15-24 and
    test/cmake/modules/clang-format-check.py lines 33-34, with what glob.glob and fnmatch of Python's library do. *)
From Coq Require Import ZArith Bool Ascii String List Arith.
From Verif Require Import ToolsModel.
Import ListNotations.
Open Scope string_scope.
Open Scope list_scope.
Open Scope nat_scope.

(** What clang-format-check.py line 34 searches: files and directories with their names. Symbolic links are left out. *)
Inductive entry : Type :=
  | File
  | Dir (children : list (string * entry)).

(** What is there under a path, for clang-format-check.py line 34 (os.path.lexists, os.scandir). *)
Fixpoint lookup (e : entry) (path : list string) : option entry :=
  match path, e with
  | [], _ => Some e
  | _ :: _, File => None
  | name :: path, Dir children =>
      match find (fun x => String.eqb (fst x) name) children with Some (_, child) => lookup child path | None => None end
  end.
(** os.scandir; nothing if it fails. For clang-format-check.py line 34. *)
Definition listdir (root : entry) (path : list string) : list (string * entry) :=
  match lookup root path with Some (Dir children) => children | _ => [] end.

(** ** fnmatch: clang-format-check.py line 34 *)

(** A pattern for one name, for clang-format-check.py line 34. *)
Inductive token : Type :=
  | Any
  | One
  | Lit (c : ascii)
  | Class (body : string).

(** Up to the next closing bracket, for patterns of clang-format-check.py line 34. *)
Fixpoint until_bracket (s : string) : option (string * string) :=
  match s with
  | "" => None
  | String c s => if Ascii.eqb c "]" then Some ("", s)
                  else match until_bracket s with Some (body, rest) => Some (String c body, rest) | None => None end
  end.
(** A bracket right after the opening one, or after the exclamation mark there, belongs to the class. For clang-format-check.py line 34. *)
Definition bracketed (s : string) : option (string * string) :=
  match s with
  | String c s' =>
      if Ascii.eqb c "]" then match until_bracket s' with Some (body, rest) => Some (String c body, rest) | None => None end
      else if Ascii.eqb c "!"
      then match s' with
           | String d s'' =>
               if Ascii.eqb d "]" then match until_bracket s'' with Some (body, rest) => Some (String c (String d body), rest) | None => None end
               else until_bracket s
           | "" => None
           end
      else until_bracket s
  | "" => None
  end.
(** fnmatch.translate, for clang-format-check.py line 34; [fuel]: the length of the pattern. *)
Fixpoint tokens (fuel : nat) (pattern : string) : list token :=
  match fuel, pattern with
  | S fuel, String c rest =>
      if Ascii.eqb c "*" then Any :: tokens fuel rest
      else if Ascii.eqb c "?" then One :: tokens fuel rest
      else if Ascii.eqb c "["
      then match bracketed rest with Some (body, rest') => Class body :: tokens fuel rest' | None => Lit c :: tokens fuel rest end
      else Lit c :: tokens fuel rest
  | _, _ => []
  end.
(** Matching the whole name, for clang-format-check.py line 34. *)
Fixpoint matches (in_class : string -> ascii -> bool) (pattern : list token) (name : string) : bool :=
  match pattern with
  | [] => String.eqb name ""
  | Any :: pattern =>
      (fix skip (name : string) : bool :=
         matches in_class pattern name || match name with String _ name => skip name | "" => false end) name
  | One :: pattern => match name with String _ name => matches in_class pattern name | "" => false end
  | Lit c :: pattern => match name with String d name => Ascii.eqb c d && matches in_class pattern name | "" => false end
  | Class body :: pattern => match name with String d name => in_class body d && matches in_class pattern name | "" => false end
  end.
(** fnmatch.fnmatchcase, for clang-format-check.py line 34; [in_class]: which characters the text between brackets stands for. *)
Definition fnmatch (in_class : string -> ascii -> bool) (pattern name : string) : bool :=
  matches in_class (tokens (String.length pattern) pattern) name.

(** ** glob.glob with recursive=True: clang-format-check.py line 34 *)

(** glob.has_magic, for clang-format-check.py line 34. *)
Definition has_magic (name : string) : bool :=
  existsb (fun c => Ascii.eqb c "*" || Ascii.eqb c "?" || Ascii.eqb c "[") (list_ascii_of_string name).
(** glob._ishidden, for clang-format-check.py line 34. *)
Definition hidden (name : string) : bool := match name with String c _ => Ascii.eqb c "." | "" => false end.
(** Entry.is_dir, for clang-format-check.py line 34. *)
Definition is_dir (e : entry) : bool := match e with Dir _ => true | File => false end.

(** glob._rlistdir of directories only, for clang-format-check.py line 34: all below, but nothing hidden. *)
Fixpoint below (e : entry) : list (list string) :=
  match e with
  | File => []
  | Dir children =>
      (fix go (children : list (string * entry)) : list (list string) :=
         match children with
         | [] => []
         | (name, child) :: rest =>
             (if is_dir child && negb (hidden name) then [name] :: map (cons name) (below child) else []) ++ go rest
         end) children
  end.

(** glob._glob0, _glob1 and _glob2, for clang-format-check.py line 34: what one component of the pattern finds in a directory. *)
Definition in_directory (in_class : string -> ascii -> bool) (root : entry) (dir : list string) (component : string) (dironly : bool)
  : list (list string) :=
  if String.eqb component "**"
  then [] :: match lookup root dir with Some e => below e | None => [] end
  else if has_magic component
  then map (fun x => [fst x])
         (filter (fun x => (is_dir (snd x) || negb dironly) && (hidden component || negb (hidden (fst x))) && fnmatch in_class component (fst x))
            (listdir root dir))
  else match lookup root (dir ++ [component]) with Some _ => [[component]] | None => [] end.

(** glob._iglob, for clang-format-check.py line 34: the components of the pattern, the last one first. *)
Fixpoint iglob (in_class : string -> ascii -> bool) (root : entry) (components : list string) (dironly : bool) : list (list string) :=
  match components with
  | [] => [[]]
  | component :: dirname =>
      flat_map (fun dir => map (fun found => dir ++ found) (in_directory in_class root dir component dironly))
        (if existsb has_magic dirname then iglob in_class root dirname true else [rev dirname])
  end.

(** test/CMakeLists.txt line 28. *)
Definition include_of (project : list string) : list string := project ++ ["libuavcan"; "include"].
(** test/CMakeLists.txt line 107, Findclangformat.cmake lines 17-20 and clang-format-check.py lines 33-34: what is found for the project in the
    directory [project] of the file system [root]. *)
Definition globbed (in_class : string -> ascii -> bool) (root : entry) (project : list string) : list (list string) :=
  iglob in_class root (rev (include_of project ++ ["**"; "*.hpp"])) false.

(** The text of a path, as in test/CMakeLists.txt line 107. *)
Fixpoint path_text (path : list string) : string :=
  match path with [] => "" | name :: path => ("/" ++ name ++ path_text path)%string end.
(** The custom target of Findclangformat.cmake lines 17-24 for the call in test/CMakeLists.txt line 107: the status of the check. *)
Definition format_target (in_class : string -> ascii -> bool) (clang_format : string -> formatted) (root : entry) (project : list string) : Z :=
  fst (format_check "clang-format" clang_format (map path_text (globbed in_class root project))).
