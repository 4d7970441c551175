(** Specification vocabulary for C168. *)
From Coq Require Import ZArith Bool Ascii String List.
From Verif Require Import ToolsModel GlobModel.
Import ListNotations.
Open Scope list_scope.
Open Scope nat_scope.

(** No directory has two entries of one name. *)
Fixpoint proper (e : entry) : Prop :=
  match e with
  | File => True
  | Dir children => NoDup (map fst children) /\
      (fix all (l : list (string * entry)) : Prop := match l with [] => True | x :: l => proper (snd x) /\ all l end) children
  end.

Definition directory (root : entry) (path : list string) : Prop := exists children, lookup root path = Some (Dir children).

(** A name that ends in .hpp. *)
Definition hpp (name : string) : Prop := exists stem, name = (stem ++ ".hpp")%string.

(** A header of the library of the project in this directory. *)
Definition header_of (root : entry) (project path : list string) : Prop :=
  exists dirs name, path = project ++ ["libuavcan"; "include"]%string ++ dirs ++ [name] /\ hpp name /\ lookup root path = Some File.

(** The name begins with a dot. *)
Definition dotted (name : string) : Prop := exists rest, name = String "." rest.
(** The name has a character that patterns use. *)
Definition wild (name : string) : Prop := exists before c after, name = (before ++ String c after)%string /\ In c ["*"; "?"; "["]%char.

(** The text between the brackets of a class: an exclamation mark or nothing, a character, and others without a closing bracket. *)
Definition class_text (body : string) : Prop :=
  exists before c rest, body = (before ++ String c rest)%string /\
    (before = "!"%string \/ before = ""%string /\ c <> "!"%char) /\ ~ In "]"%char (list_ascii_of_string rest).
(** The names that a pattern stands for: * for any text, ? for a character, a class in brackets for one of its characters. *)
Inductive stands_for (in_class : string -> ascii -> bool) : string -> string -> Prop :=
  | sf_end : stands_for in_class "" ""
  | sf_text : forall text pattern name, stands_for in_class pattern name -> stands_for in_class (String "*" pattern) (text ++ name)
  | sf_one : forall c pattern name, stands_for in_class pattern name -> stands_for in_class (String "?" pattern) (String c name)
  | sf_class : forall body c pattern name, class_text body -> in_class body c = true -> stands_for in_class pattern name ->
      stands_for in_class (String "[" (body ++ String "]" pattern)) (String c name)
  | sf_same : forall c pattern name, c <> "*"%char -> c <> "?"%char ->
      (c = "["%char -> forall body rest, class_text body -> pattern <> (body ++ String "]" rest)%string) ->
      stands_for in_class pattern name -> stands_for in_class (String c pattern) (String c name).

(** A name is found for a component of a pattern: it is the same, or matches it and is not dotted unless the component is. *)
Definition found_for (in_class : string -> ascii -> bool) (component name : string) : Prop :=
  (~ wild component /\ name = component) \/
  (wild component /\ stands_for in_class component name /\ (dotted name -> dotted component)).

(** A path is found for the components of a pattern: a name for each, and for ** any number of names that are not dotted. *)
Inductive path_for (in_class : string -> ascii -> bool) : list string -> list string -> Prop :=
  | path_end : path_for in_class [] []
  | path_name : forall component name components path, component <> "**"%string -> found_for in_class component name ->
      path_for in_class components path -> path_for in_class (component :: components) (name :: path)
  | path_any : forall dirs components path, Forall (fun n => ~ dotted n) dirs ->
      path_for in_class components path -> path_for in_class ("**"%string :: components) (dirs ++ path).
