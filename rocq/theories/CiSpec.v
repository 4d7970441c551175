(** Specification vocabulary for the pipeline. *)
From Coq Require Import Bool List String.
From Verif Require Import CiModel.
Import ListNotations.
Open Scope string_scope.
Open Scope list_scope.

(** What came of a build: for each script that ran, what it executed and whether it passed. *)
Definition outcome : Type := list (string * (list command * bool)).

Definition ran (script : string) (o : outcome) : Prop := exists r, In (script, r) o.
Definition passed (script : string) (o : outcome) : Prop := exists cs, In (script, (cs, true)) o.
Definition executed (script : string) (c : command) (o : outcome) : Prop := exists cs b, In (script, (cs, b)) o /\ In c cs.

(** The script executed the command, and it succeeded. *)
Definition succeeded (ok : string -> nat -> command -> bool) (script : string) (c : command) (o : outcome) : Prop :=
  exists cs b n, In (script, (cs, b)) o /\ nth_error cs n = Some c /\ ok script n c = true.

(** Publishing: of the documentation and of the coverage. *)
Definition publishes (c : command) : Prop := exists args, c = "gh-pages" :: args \/ c = "sonar-scanner" :: args.
Definition published (o : outcome) : Prop := exists script c, executed script c o /\ publishes c.

(** The scripts in test/ci that compile or test something. *)
Definition test_scripts : list string :=
  ["./test/ci/native-gcc-build-and-test.sh"; "./test/ci/native-gcc-build-and-test-exceptions.sh"; "./test/ci/native-clang-build-and-test.sh";
   "./test/ci/linux-build.sh"; "./test/ci/ontarget-s32k-build.sh"].
(** The program that tests on the board. *)
Definition board_test : string := "/etc/buildkite-agent/hooks/command".

(** The command builds this target: --target is followed by its name. With several jobs: it has an option -j. *)
Definition builds (target : string) (c : command) : Prop := exists a b, c = a ++ "--target" :: target :: b.
Definition several_jobs (c : command) : Prop := exists w, In w c /\ prefix "-j" w = true.
