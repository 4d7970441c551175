(** Which tests are found, built and run: test/native/tests.cmake lines 26-56, 59-95 and 143-147, test/compile/compile_tests.cmake lines 17-55. *)
From Coq Require Import Bool List String Ascii.
Import ListNotations.
Open Scope string_scope.
Open Scope list_scope.

(** A file in test/native, tests.cmake line 65: its name, whether it can be built, and whether the test then passes. *)
Record unit_test : Type := UnitTest { u_name : string; u_builds : bool; u_passes : bool }.
(** A file in test/compile, compile_tests.cmake line 49: its name, and whether it can be built. *)
Record compile_test : Type := CompileTest { c_name : string; c_builds : bool }.

(** The rest of a name that begins with a text. As the patterns of tests.cmake line 65 and compile_tests.cmake line 49. *)
Fixpoint after_prefix (p s : string) : option string :=
  match p, s with
  | EmptyString, _ => Some s
  | String a p', String b s' => if Ascii.eqb a b then after_prefix p' s' else None
  | String _ _, EmptyString => None
  end.
(** A name ends with a text. As the patterns of tests.cmake line 65 and compile_tests.cmake line 49. *)
Fixpoint ends_with (t s : string) : bool :=
  String.eqb s t || match s with EmptyString => false | String _ s' => ends_with t s' end.
(** The pattern test_*.cpp of tests.cmake line 65 and compile_tests.cmake line 49. *)
Definition is_test (name : string) : bool :=
  match after_prefix "test_" name with Some s => ends_with ".cpp" s | None => false end.

(** get_filename_component(... NAME_WE), tests.cmake line 82 and compile_tests.cmake line 53: the name up to its first dot. *)
Fixpoint name_we (s : string) : string :=
  match s with
  | EmptyString => EmptyString
  | String a s' => if Ascii.eqb a "." then EmptyString else String a (name_we s')
  end.

(** The files now, and those a configuration of the build directory has found: NATIVE_TESTS of tests.cmake line 62 and COMPILE_TESTS of
    compile_tests.cmake line 46. *)
Record project : Type := Project {
  native : list unit_test;
  compile : list compile_test;
  listed : option (list string * list string)
}.

(** A text is in a list. As CMake looks for targets, tests.cmake lines 28 and 143, compile_tests.cmake line 19. *)
Definition mem (x : string) (l : list string) : bool := existsb (String.eqb x) l.
(** No two targets have the same name, tests.cmake lines 28 and 143, compile_tests.cmake line 19. *)
Fixpoint distinct (l : list string) : bool :=
  match l with [] => true | x :: l' => negb (mem x l') && distinct l' end.

(** The target that runs a test, tests.cmake line 50. *)
Definition run_target (t : string) : string := ("run_" ++ t)%string.
(** The target that runs a test for its coverage, Findlcov.cmake line 94. *)
Definition run_with_lcov_target (t : string) : string := ("run_" ++ t ++ "_with_lcov")%string.

(** CMake: tests.cmake lines 62-95 and 143-147, Findlcov.cmake lines 93-96, compile_tests.cmake lines 46-55. Simplification: the targets whose names
    begin otherwise, as cov_..., are left out. *)
Definition configure (p : project) : project * bool :=
  let n := filter is_test (map u_name (native p)) in
  let c := filter is_test (map c_name (compile p)) in
  if distinct (map name_we n ++ ["test_all"] ++ map name_we c)
     && distinct (map run_target (map name_we n) ++ map run_with_lcov_target (map name_we n))
  then (Project (native p) (compile p) (Some (n, c)), true)
  else (p, false).

(** The unit test of a file that was listed, as tests.cmake line 28 names it, if it is still there. *)
Definition unit_of (p : project) (name : string) : option unit_test := find (fun u => String.eqb (u_name u) name) (native p).
(** The compile test of a file that was listed, as compile_tests.cmake line 19 names it, if it is still there. *)
Definition compile_of (p : project) (name : string) : option compile_test := find (fun c => String.eqb (c_name c) name) (compile p).

(** make: tests.cmake line 28. A file that is gone cannot be built. *)
Definition make_all (p : project) : bool :=
  match listed p with
  | None => false
  | Some (n, _) => forallb (fun x => match unit_of p x with Some u => u_builds u | None => false end) n
  end.

(** make test, or ctest: the tests of add_test, compile_tests.cmake lines 27-42, and no others. Each succeeds if its command fails. *)
Definition make_test (p : project) : bool :=
  match listed p with
  | None => false
  | Some (_, c) => forallb (fun x => negb match compile_of p x with Some t => c_builds t | None => false end) c
  end.

(** make test_all: tests.cmake lines 47-54 and 143-147. *)
Definition make_test_all (p : project) : bool :=
  match listed p with
  | None => false
  | Some (n, _) => forallb (fun x => match unit_of p x with Some u => u_builds u && u_passes u | None => false end) n
  end.

(** Work on the project between the commands of tests.cmake and compile_tests.cmake line 17: other files, or a configuration. *)
Inductive event : Type :=
| Files (n : list unit_test) (c : list compile_test)
| Configure.

(** One event, tests.cmake lines 62-95. *)
Definition step (p : project) (e : event) : project :=
  match e with
  | Files n c => Project n c (listed p)
  | Configure => fst (configure p)
  end.

(** A history, from a checkout with a new build directory: tests.cmake lines 62-95. *)
Definition history (n : list unit_test) (c : list compile_test) (h : list event) : project := fold_left step h (Project n c None).
