(** What the commands for running tests are for. *)
From Coq Require Import Bool List String Ascii.
From Verif Require Import RunTestsModel.
Import ListNotations.
Open Scope string_scope.
Open Scope list_scope.

(** The name of a test: test_*.cpp. *)
Definition test_name (s : string) : Prop := exists x, s = ("test_" ++ x ++ ".cpp")%string.

(** All unit tests that are there can be built and pass. *)
Definition unit_tests_pass (p : project) : Prop :=
  forall u, In u (native p) -> test_name (u_name u) -> u_builds u = true /\ u_passes u = true.
(** No compile test that is there can be built. *)
Definition compile_tests_rejected (p : project) : Prop :=
  forall c, In c (compile p) -> test_name (c_name c) -> c_builds c = false.

(** No two files of a directory have the same name. *)
Definition a_directory (p : project) : Prop := NoDup (map u_name (native p)) /\ NoDup (map c_name (compile p)).

(** The text of a name before its first dot. *)
Definition stem_of (s t : string) : Prop := (s = t \/ exists x, s = (t ++ "." ++ x)%string) /\ ~ exists x y, t = (x ++ "." ++ y)%string.

(** The two directories of tests. *)
Inductive directory : Type := Native | Compile.
(** The name of a test in a directory. *)
Definition test_of (p : project) (d : directory) (x : string) : Prop :=
  test_name x /\
  match d with
  | Native => exists u, In u (native p) /\ u_name u = x
  | Compile => exists c, In c (compile p) /\ c_name c = x
  end.
