(** Models of the CMake functions that take any number of arguments (test/cmake/modules/Findnnvg.cmake, test/linux/tests.cmake,
    test/cmake/modules/Findclangformat.cmake), of test/cmake/common.cmake, which turns build options into compiler flags, and of the
    switches in the headers and the build type in test/ci that go with them. *)
From Coq Require Import ZArith Bool List String Ascii Decimal DecimalString.
Import ListNotations.
Open Scope string_scope.
Open Scope list_scope.

(** ** Optional arguments *)

(** CMake: a function's parameter ARGVn is its argument with that number. For a number without argument the name is looked up in the
    scopes of the callers, [outer]. As at Findnnvg.cmake line 36, tests.cmake line 23 and Findclangformat.cmake line 47. *)
Definition argv (outer : nat -> option string) (args : list string) (n : nat) : option string :=
  match nth_error args n with Some a => Some a | None => outer n end.

(** CMake: $ARGC, in decimal. As at Findnnvg.cmake line 35, tests.cmake line 22 and Findclangformat.cmake line 46. *)
Definition argc (args : list string) : string := NilEmpty.string_of_uint (Nat.to_uint (List.length args)).

(** The value of a decimal digit, for the bounds at tests.cmake line 22. *)
Definition digit (c : ascii) : option nat :=
  let n := nat_of_ascii c in if andb (48 <=? n)%nat (n <=? 57)%nat then Some (n - 48)%nat else None.
(** CMake: the bounds of foreach's RANGE are read with std::stoi, or atoi, which stop at the first character that is no digit. As for
    "${ARGC}-1" at Findnnvg.cmake line 35, tests.cmake line 22 and Findclangformat.cmake line 46. Signs and blanks in front are left out. *)
Fixpoint stoi (acc : nat) (s : string) : nat :=
  match s with
  | EmptyString => acc
  | String c s => match digit c with Some d => stoi (10 * acc + d) s | None => acc end
  end.

(** CMake: foreach(N RANGE first stop) takes every number from [first] to [stop], both included; it is an error if [stop] is less.
    Findnnvg.cmake line 35, tests.cmake line 22, Findclangformat.cmake line 46. *)
Definition range (first stop : nat) : option (list nat) :=
  if (stop <? first)%nat then None else Some (seq first (stop - first + 1)).

(** The numbers of the arguments that the loop visits. Findnnvg.cmake lines 34-35, tests.cmake lines 21-22 and Findclangformat.cmake
    lines 45-46. *)
Definition visited (first : nat) (args : list string) : option (list nat) :=
  if (first <? List.length args)%nat then range first (stoi 0 (argc args ++ "-1")%string) else Some [].

(** CMake: list(APPEND L ${v}): an unset or empty variable adds nothing. A value with semicolons is left out. As at tests.cmake line 23
    and Findclangformat.cmake line 47. *)
Definition unquoted (v : option string) : list string :=
  match v with Some s => if String.eqb s "" then [] else [s] | None => [] end.

(** tests.cmake lines 19-25, and the same loop at Findclangformat.cmake lines 43-49: the files collected from the arguments after the
    first two. *)
Definition optional_files (outer : nat -> option string) (args : list string) : option (list string) :=
  match visited 2 args with
  | Some ns => Some (flat_map (fun n => unquoted (argv outer args n)) ns)
  | None => None
  end.

(** What an example is made of: its sources, and the command that names libraries, tests.cmake lines 27-28. *)
Record example : Type := Example_ { ex_target : string; ex_sources : list string; ex_link : list string }.
(** tests.cmake lines 17-35: define_native_example. [test_name] is the variable ARG_TEST_NAME of the callers' scopes; the function has
    no parameter of that name. *)
Definition define_native_example (outer : nat -> option string) (test_name : option string) (args : list string) : option example :=
  match args, optional_files outer args with
  | name :: _ :: _, Some sources => Some (Example_ name sources (unquoted test_name ++ ["dsdl-regulated"]))
  | _, _ => None
  end.

(** Findnnvg.cmake lines 30-38: the arguments about lookup directories. *)
Definition lookup_args (outer : nat -> option string) (args : list string) : option (list string) :=
  match visited 6 args with
  | Some ns => Some (map (fun n => " -I " ++ match argv outer args n with Some s => s | None => "" end)%string ns)
  | None => None
  end.
(** Findnnvg.cmake lines 40-45: the command line that lists the files to be generated, after the name of the program. The other two
    commands, at lines 55-60 and 77-83, have the same arguments about lookup directories. The arguments of the function are the target's
    name, the output folder, the templates, the root namespace, whether to format, and the lookup directories. *)
Definition list_outputs (outer : nat -> option string) (args : list string) : option (list string) :=
  match args, lookup_args outer args with
  | _ :: output :: _ :: root :: _ :: _, Some dirs =>
      Some (["--list-outputs"; "--output-extension"; ".hpp"; "-O"; output] ++ dirs ++ [root])
  | _, _ => None
  end.

(** ** Build options *)

(** The CMake variables that common.cmake lines 34-63 read. *)
Record options : Type := Options { o_exceptions : option string; o_assert : option string; o_trace : option string; o_build_type : string }.

(** common.cmake lines 38-40. *)
Definition exceptions_set (o : options) (cxx : list string) : option string :=
  match o_exceptions o with
  | None => if existsb (String.eqb "-fexceptions") cxx then Some "1" else None
  | Some v => Some v
  end.
(** common.cmake lines 47-49. *)
Definition assert_set (o : options) (cxx : list string) : option string :=
  match exceptions_set o cxx with
  | None => if String.eqb (o_build_type o) "Debug" then Some "1" else o_assert o
  | Some _ => o_assert o
  end.
(** common.cmake lines 56-58. *)
Definition trace_set (o : options) : option string :=
  match o_trace o with
  | None => if String.eqb (o_build_type o) "Debug" then Some "1" else None
  | Some v => Some v
  end.
(** common.cmake lines 42-45, 51-54 and 60-63. *)
Definition define (name : string) (v : option string) : list string :=
  match v with Some v => ["-D" ++ name ++ "=" ++ v]%string | None => [] end.
(** common.cmake lines 18-74, for one of the languages C and C++, whose flags are [flags]: the words of CMAKE_C_FLAGS or of
    CMAKE_CXX_FLAGS. [cxx] is CXX_FLAG_SET. Flags with blanks in them are left out, as are the flags for the assembler and the linker,
    which are passed on as they are. *)
Definition apply_flag_set (o : options) (cxx flags : list string) : list string :=
  flags ++ define "LIBUAVCAN_ENABLE_EXCEPTIONS" (exceptions_set o cxx) ++
  define "LIBUAVCAN_INTROSPECTION_ENABLE_ASSERT" (assert_set o cxx) ++
  define "LIBUAVCAN_INTROSPECTION_TRACE_ENABLE" (trace_set o).

(** The preprocessor: the value of a macro's text in #if: a number, the word true, or another word, which counts as 0; [None] for
    anything else. As at introspection.hpp lines 33 and 47 and memory.hpp line 150. *)
Definition all_digits (v : string) : bool :=
  andb (negb (String.eqb v "")) (forallb (fun c => match digit c with Some _ => true | None => false end) (list_ascii_of_string v)).
(** A letter or an underscore, for introspection.hpp line 33. *)
Definition letter (c : ascii) : bool :=
  let n := nat_of_ascii c in
  orb (orb (andb (65 <=? n)%nat (n <=? 90)%nat) (andb (97 <=? n)%nat (n <=? 122)%nat)) (n =? 95)%nat.
(** A word of C++ that begins with a letter and has only letters, for introspection.hpp line 33. *)
Definition is_word (v : string) : bool := andb (negb (String.eqb v "")) (forallb letter (list_ascii_of_string v)).
(** #if of introspection.hpp lines 33 and 47 and memory.hpp line 150. *)
Definition pp_if (v : string) : option bool :=
  if all_digits v then Some (existsb (fun c => negb (Ascii.eqb c "0")) (list_ascii_of_string v))
  else if is_word v then Some (String.eqb v "true")
  else None.

(** introspection.hpp lines 18-20 and 29-31, then lines 33 and 47: a switch that is off unless its macro is defined. *)
Definition switch (macro : option string) : option bool := match macro with Some v => pp_if v | None => Some false end.

(** The compiler has exceptions, and defines __cpp_exceptions, unless told otherwise: the last of the flags counts. As
    build_config.hpp line 74 finds it. *)
Definition compiler_exceptions (flags : list string) : bool :=
  fold_left (fun on f => if String.eqb f "-fexceptions" then true else if String.eqb f "-fno-exceptions" then false else on) flags true.
(** build_config.hpp lines 74-78, then memory.hpp line 150. *)
Definition throws (macro : option string) (flags : list string) : option bool :=
  match macro with Some v => pp_if v | None => Some (compiler_exceptions flags) end.

(** ** Build scripts *)

(** The scripts in test/ci that configure a build: linux-build.sh lines 56-57, native-gcc-build-and-test.sh line 46 and their likes. *)
Inductive script : Type := LinuxBuild | NativeGcc | NativeGccExceptions | NativeClang | OntargetBuild.
(** CMAKE_BUILD_TYPE of a script's shell: linux-build.sh lines 41-43 and its likes. [env] is the environment's. *)
Definition shell_type (env : option string) : string := match env with Some t => t | None => "Debug" end.
(** CMAKE_BUILD_TYPE when CMake configures the build: the others pass -DCMAKE_BUILD_TYPE (native-gcc-build-and-test.sh line 48 and its
    likes), linux-build.sh lines 56-57 do not. Newer versions of CMake take the default from the environment, [from_env]; the shell's variable is not
    exported unless it came from there. *)
Definition configured_type (from_env : bool) (s : script) (env : option string) : string :=
  match s with
  | LinuxBuild => if from_env then match env with Some t => t | None => "" end else ""
  | _ => shell_type env
  end.
