(** Specification vocabulary for build options and CMake functions. *)
From Coq Require Import Bool List String Ascii.
From Verif Require Import CMakeModel.
Import ListNotations.
Open Scope string_scope.
Open Scope list_scope.

(** The command line names [dir] as a lookup directory. *)
Definition names_lookup (dir : string) (command : list string) : Prop := exists a b, command = a ++ "-I" :: dir :: b.

(** The command target_link_libraries with these words links the library to the target. *)
Definition links (command : list string) (target library : string) : Prop := exists libraries, command = target :: libraries /\ In library libraries.

(** The flags give the macro this value. *)
Definition gives (flags : list string) (macro value : string) : Prop := In ("-D" ++ macro ++ "=" ++ value)%string flags.

(** Flags of a flag set: none of them is about a macro of the library. *)
Definition ordinary (flags : list string) : Prop := forall f, In f flags -> prefix "-DLIBUAVCAN_" f = false.

(** A number: digits only. A word: letters and underscores only. *)
Definition only (cs v : string) : bool :=
  negb (String.eqb v "") && forallb (fun c => existsb (Ascii.eqb c) (list_ascii_of_string cs)) (list_ascii_of_string v).
Definition number (v : string) : bool := only "0123456789" v.
Definition word (v : string) : bool := only "abcdefghijklmnopqrstuvwxyzABCDEFGHIJKLMNOPQRSTUVWXYZ_" v.

(** What CMake itself takes for true and for false, but for the case of letters. *)
Definition cmake_true (v : string) : option bool :=
  if existsb (String.eqb v) ["ON"; "YES"; "TRUE"; "Y"] then Some true
  else if existsb (String.eqb v) ["OFF"; "NO"; "FALSE"; "N"; "IGNORE"; "NOTFOUND"; ""] then Some false
  else if number v then Some (existsb (fun c => negb (Ascii.eqb c "0")) (list_ascii_of_string v))
  else None.

(** What an option should come to: what the user sets, else the default. *)
Definition chosen (user default : option string) : option string := match user with Some v => Some v | None => default end.
(** In a debug build. *)
Definition on_in_debug (o : options) : option string := if String.eqb (o_build_type o) "Debug" then Some "1" else None.

(** The flags switch exceptions off: -fno-exceptions is the last word on them. *)
Definition exceptions_off (flags : list string) : Prop :=
  exists a b, flags = a ++ "-fno-exceptions" :: b /\ ~ In "-fexceptions" b.
