(** Headers generated from definitions (test/cmake/modules/Findnnvg.cmake lines 30-99) and documentation
    (test/cmake/modules/Findlibuavcan_docs.cmake lines 23-92) in a build directory that is used again and again. *)
From Coq Require Import Bool List Arith.
Import ListNotations.

(** ** Generated headers *)

(** The definitions under ARG_DSDL_ROOT_DIR and the templates under ARG_TEMPLATES_DIR (Findnnvg.cmake lines 22-23): what is in each file. *)
Definition sources : Type := nat -> option nat.

(** A build directory and the files it is made from. Findnnvg.cmake lines 40-86. Every event has its own time. *)
Record tree : Type := Tree {
  clock : nat;
  present : list nat;
  version : nat -> nat;
  mtime : nat -> nat;
  listed : option (list nat);             (* INPUT_FILES, line 61, of the last configuration that succeeded *)
  headers : nat -> option (nat * nat)     (* by definition: contents and time of the header *)
}.

(** What Findnnvg.cmake lines 40-86 do not say: which files are definitions, which sets of files nnvg accepts, and the header it makes of a definition. *)
Record nnvg : Type := Nnvg {
  is_definition : nat -> bool;
  accepts : sources -> bool;
  generate : sources -> nat -> nat
}.

(** A file is there. As make and nnvg look for it, Findnnvg.cmake lines 76-84. *)
Definition is_present (s : tree) (f : nat) : bool := existsb (Nat.eqb f) (present s).
(** What nnvg reads when it is run, Findnnvg.cmake lines 40-45, 55-60 and 77-83. *)
Definition view (s : tree) : sources := fun f => if is_present s f then Some (version s f) else None.

(** Findnnvg.cmake lines 40-68: the lists of files, taken while CMake configures the build. Simplification: nnvg lists all templates and all
    definitions under the root, in any order. A configuration without outputs fails at line 76. *)
Definition configure (g : nnvg) (s : tree) : tree * bool :=
  if accepts g (view s) && existsb (is_definition g) (present s)
  then (Tree (S (clock s)) (present s) (version s) (mtime s) (Some (present s)) (headers s), true)
  else (Tree (S (clock s)) (present s) (version s) (mtime s) (listed s) (headers s), false).

(** OUTPUT_FILES of Findnnvg.cmake line 46. *)
Definition outputs (g : nnvg) (l : list nat) : list nat := filter (is_definition g) l.

(** Whether make runs the command of Findnnvg.cmake lines 76-86: an output is missing (CMake then deletes the first one), or the first output is older than an input.
    Simplification: the other outputs depend on the first one and are touched if they are older; in this model they never are when they
    belong to a definition that is there. *)
Definition out_of_date (g : nnvg) (s : tree) (l : list nat) : bool :=
  existsb (fun d => match headers s d with None => true | Some _ => false end) (outputs g l) ||
  match outputs g l with
  | d :: _ => match headers s d with Some (_, t) => existsb (fun f => t <? mtime s f) l | None => true end
  | [] => false
  end.

(** The target of Findnnvg.cmake lines 76-89. nnvg writes the headers of all definitions that are there and deletes none. *)
Definition build (g : nnvg) (s : tree) : tree * bool :=
  let now := S (clock s) in
  let same := Tree now (present s) (version s) (mtime s) (listed s) (headers s) in
  match listed s with
  | None => (same, false)
  | Some l =>
      if negb (forallb (is_present s) l) then (same, false)
      else if out_of_date g s l
      then if accepts g (view s)
           then (Tree now (present s) (version s) (mtime s) (listed s)
                   (fun d => if is_definition g d && is_present s d then Some (generate g (view s) d, now) else headers s d), true)
           else (same, false)
      else (same, true)
  end.

(** "make clean" deletes the outputs of Findnnvg.cmake line 76. *)
Definition clean (g : nnvg) (s : tree) : tree :=
  Tree (S (clock s)) (present s) (version s) (mtime s) (listed s)
    (match listed s with
     | Some l => fun d => if existsb (Nat.eqb d) (outputs g l) then None else headers s d
     | None => headers s
     end).

(** What happens to a build directory made by Findnnvg.cmake lines 30-99, in any order. *)
Inductive action : Type :=
  | Edit (f v : nat)    (* write a file, new or not *)
  | Remove (f : nat)
  | Configure
  | Build
  | Clean.
(** One of them; whether it succeeded. Findnnvg.cmake lines 40-89. *)
Definition act (g : nnvg) (a : action) (s : tree) : tree * bool :=
  match a with
  | Edit f v =>
      let now := S (clock s) in
      (Tree now (if is_present s f then present s else present s ++ [f]) (fun x => if x =? f then v else version s x)
         (fun x => if x =? f then now else mtime s x) (listed s) (headers s), true)
  | Remove f => (Tree (S (clock s)) (filter (fun x => negb (x =? f)) (present s)) (version s) (mtime s) (listed s) (headers s), true)
  | Configure => configure g s
  | Build => build g s
  | Clean => (clean g s, true)
  end.
(** A history of Findnnvg.cmake lines 30-99. *)
Fixpoint acts (g : nnvg) (l : list action) (s : tree) : tree :=
  match l with [] => s | a :: l => acts g l (fst (act g a s)) end.
(** A new build directory, before Findnnvg.cmake line 40, and no sources. *)
Definition new_tree : tree := Tree 0 [] (fun _ => 0) (fun _ => 0) None (fun _ => None).

(** ** Documentation *)

(** Findlibuavcan_docs.cmake lines 32-40 and 65-70: the sources that doxygen reads (here one number), doxygen.config, and docs/html/index.html. *)
Record site : Type := Site {
  now : nat;
  source : nat;
  config : option (nat * nat);    (* contents and time *)
  html : option (nat * nat)
}.
(** What happens to a build directory made by Findlibuavcan_docs.cmake lines 23-92. *)
Inductive event : Type :=
  | Change (v : nat)       (* edit the sources *)
  | Setup (number : nat)   (* configure, with that build number *)
  | Docs                   (* make docs-html *)
  | Wipe                   (* make clean *).
(** Findlibuavcan_docs.cmake lines 41 and 65-67 (configure_file writes only if the contents change; the build number is part of them) and 69-77. *)
Definition happens (e : event) (s : site) : site :=
  let t := S (now s) in
  match e with
  | Change v => Site t v (config s) (html s)
  | Setup b => Site t (source s)
                 (match config s with Some (b', t') => if b' =? b then Some (b', t') else Some (b, t) | None => Some (b, t) end) (html s)
  | Docs =>
      match config s with
      | None => Site t (source s) (config s) (html s)
      | Some (_, tc) =>
          if match html s with None => true | Some (_, th) => th <? tc end
          then Site t (source s) (config s) (Some (source s, t))
          else Site t (source s) (config s) (html s)
      end
  | Wipe => Site t (source s) (config s) None
  end.
(** A history of Findlibuavcan_docs.cmake lines 23-92. *)
Fixpoint happen (l : list event) (s : site) : site := match l with [] => s | e :: l => happen l (happens e s) end.
(** A new build directory, before Findlibuavcan_docs.cmake line 65. *)
Definition new_site (v : nat) : site := Site 0 v None None.
