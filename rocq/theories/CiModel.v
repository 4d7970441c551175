(** Model of .buildkite/pipeline.yml and of the scripts in test/ci that it runs, and of those that it does not. What a command does is left
    open: it succeeds or fails. *)
From Coq Require Import Bool List String.
Import ListNotations.
Open Scope string_scope.
Open Scope list_scope.

(** A command with its arguments, as at native-gcc-build-and-test.sh line 43. *)
Definition command : Type := list string.
(** Variables of the environment, as read at native-gcc-build-and-test.sh lines 33-39. *)
Definition env : Type := string -> option string.

(** bash: ${V} without quotes; an empty value is no word. Values with blanks or wildcards are left out. As at
    native-gcc-build-and-test.sh line 57. *)
Definition word (v : string) : list string := if String.eqb v "" then [] else [v].
(** native-gcc-build-and-test.sh lines 33-35 and 37-39 and their likes: the variable, or a default if it is not set. *)
Definition default (e : env) (name d : string) : string := match e name with Some v => v | None => d end.
(** native-gcc-build-and-test.sh lines 33-35 and its likes. *)
Definition build_type (e : env) : string := default e "CMAKE_BUILD_TYPE" "Debug".
(** native-gcc-build-and-test.sh lines 37-39 and its likes. *)
Definition jobs (e : env) : string := default e "MAKEFILE_JOBS_COMPILATION" "1".

(** cmake --build: native-gcc-build-and-test.sh lines 56-58 and its likes. *)
Definition build (e : env) (target : string) : command :=
  ["cmake"; "--build"; "."; "--config"] ++ word (build_type e) ++ ["--target"; target].
(** native-gcc-build-and-test.sh lines 61-64 and its likes. *)
Definition build_all (e : env) : command := build e "all" ++ ["--"; "-j" ++ jobs e]%string.

(** A script after its settings, line by line; [None]: a line that refers to a variable that is not set, which ends the script because of
    nounset. As native-gcc-build-and-test.sh lines 11 and 14 set it. *)
Definition lines : Type := list (option command).

(** native-gcc-build-and-test.sh lines 43-78. *)
Definition gcc_lines (e : env) : lines := map Some [
  ["mkdir"; "-p"; "test/build_native_gcc"];
  ["pushd"; "test/build_native_gcc"];
  ["cmake"; "--no-warn-unused-cli"; "-DCMAKE_EXPORT_COMPILE_COMMANDS:BOOL=TRUE"; "-DCMAKE_BUILD_TYPE:STRING=" ++ build_type e;
   "-DCMAKE_TOOLCHAIN_FILE:FILEPATH=../cmake/toolchains/gcc-native.cmake";
   "-DLIBUAVCAN_FLAG_SET:STRING=../cmake/compiler_flag_sets/native_unittest.cmake"; "-G"; "Unix Makefiles"; ".."]%string;
  ["echo"; "Doing clean first just to be sure we capture a full build for the build-wrapper"];
  build e "clean";
  ["build-wrapper-linux-x86-64"; "--out-dir"; "."] ++ build_all e;
  ["ctest"; "-VV"];
  build e "cov_all";
  build e "docs";
  ["popd"]].

(** native-gcc-build-and-test-exceptions.sh lines 51-75. *)
Definition gcc_exceptions_lines (e : env) : lines := map Some [
  ["mkdir"; "-p"; "test/build_native_gcc_exceptions"];
  ["pushd"; "test/build_native_gcc_exceptions"];
  ["cmake"; "--no-warn-unused-cli"; "-DCMAKE_EXPORT_COMPILE_COMMANDS:BOOL=TRUE"; "-DCMAKE_BUILD_TYPE:STRING=" ++ build_type e;
   "-DCMAKE_TOOLCHAIN_FILE:FILEPATH=../cmake/toolchains/gcc-native.cmake";
   "-DLIBUAVCAN_FLAG_SET:STRING=../cmake/compiler_flag_sets/native_unittest_w_exceptions.cmake"; "-G"; "Unix Makefiles"; ".."]%string;
  build_all e;
  ["ctest"; "-VV"];
  build e "cov_all";
  ["popd"]].

(** native-clang-build-and-test.sh lines 51-77. *)
Definition clang_lines (e : env) : lines := map Some [
  ["mkdir"; "-p"; "test/build_native_clang"];
  ["pushd"; "test/build_native_clang"];
  ["cmake"; "--no-warn-unused-cli"; "-DCMAKE_EXPORT_COMPILE_COMMANDS:BOOL=TRUE"; "-DCMAKE_BUILD_TYPE:STRING=" ++ build_type e;
   "-DCMAKE_TOOLCHAIN_FILE:FILEPATH=../cmake/toolchains/clang-native.cmake";
   "-DLIBUAVCAN_FLAG_SET:STRING=../cmake/compiler_flag_sets/native.cmake"; "-G"; "Unix Makefiles"; ".."]%string;
  build_all e;
  ["ctest"; "-VV"];
  build e "test_all";
  ["popd"]].

(** linux-build.sh lines 51-64. *)
Definition linux_lines (e : env) : lines := map Some [
  ["mkdir"; "-p"; "test/build_linux"];
  ["pushd"; "test/build_linux"];
  ["cmake"; "-DLIBUAVCAN_TESTBUILD=../linux/tests.cmake"; ".."];
  build_all e;
  ["popd"]].

(** ontarget-s32k-build.sh lines 50-72. *)
Definition s32k_lines (e : env) : lines := map Some [
  ["mkdir"; "-p"; "test/build_ontarget_s32k"];
  ["pushd"; "test/build_ontarget_s32k"];
  ["cmake"; "--no-warn-unused-cli"; "-DCMAKE_EXPORT_COMPILE_COMMANDS:BOOL=TRUE";
   "-DCMAKE_TOOLCHAIN_FILE:FILEPATH=../cmake/toolchains/gcc-arm-none-eabi.cmake"; "-DCMAKE_BUILD_TYPE:STRING=" ++ build_type e;
   "-DGTEST_USE_LOCAL_BUILD=ON"; "-DLIBUAVCAN_FLAG_SET=../cmake/compiler_flag_sets/cortex-m4-fpv4-sp-d16-nosys.cmake";
   "-DLIBUAVCAN_TESTBUILD=../ontarget/S32K148EVB/tests.cmake"; "-DLIBUAVCAN_SKIP_DOCS=ON"; "-G"; "Unix Makefiles"; ".."]%string;
  build_all e;
  ["ctest"; "-VV"];
  ["popd"]].

(** postbuild-upload-docs.sh lines 32-34. *)
Definition docs_lines (e : env) : lines := [
  Some ["buildkite-agent"; "artifact"; "download"; "test/build_native_gcc/docs/html.gz"; "."];
  Some ["tar"; "-xvf"; "test/build_native_gcc/docs/html.gz"];
  match e "BUILDKITE_BUILD_NUMBER" with
  | Some n => Some ["gh-pages"; "--dotfiles"; "--message"; "Doc upload for build " ++ n; "--user"; "uavcan1.0 <uavcan1.0@uavcan.org>";
                    "--dist"; "docs/html"]%string
  | None => None
  end].

(** postbuild-upload-reports.sh lines 38-68; the lines that only print a frame, 52-54 and 58, are left out. *)
Definition reports_lines (e : env) : lines := map Some (
  match e "BUILDKITE" with
  | None => [["echo"; "Not BUILDKITE. Skipping artifact download."]; ["mkdir"; "-p"; "test/build_native_gcc"]]
  | Some _ => [["buildkite-agent"; "artifact"; "download"; "test/build_native_gcc/tests/coverage.info"; "."];
               ["buildkite-agent"; "artifact"; "download"; "test/build_native_gcc/build-wrapper-dump.json"; "."]]
  end ++
  [["ls"; "-lah"; "test/build_native_gcc"]] ++
  match e "SONARQUBE_TOKEN" with
  | None => [["echo"; "No SONARQUBE_TOKEN defined. Skipping upload."]]
  | Some token =>
      [["sonar-scanner"; "-Dsonar.login=" ++ token; "-Dsonar.buildString=" ++ default e "BUILDKITE_BUILD_NUMBER" "xxx";
        "-Dsonar.working.directory=test/build_native_gcc/.scannerwork";
        "-Dsonar.cfamily.build-wrapper-output=test/build_native_gcc"]%string]
  end).

(** The file that a step names, pipeline.yml lines 4, 24, 38, 60, 65 and 80. What is not in test/ci, such as the agent's hook of line 60, is
    one command. *)
Definition file_lines (path : string) (e : env) : lines :=
  if String.eqb path "./test/ci/native-gcc-build-and-test.sh" then gcc_lines e
  else if String.eqb path "./test/ci/native-gcc-build-and-test-exceptions.sh" then gcc_exceptions_lines e
  else if String.eqb path "./test/ci/native-clang-build-and-test.sh" then clang_lines e
  else if String.eqb path "./test/ci/linux-build.sh" then linux_lines e
  else if String.eqb path "./test/ci/ontarget-s32k-build.sh" then s32k_lines e
  else if String.eqb path "./test/ci/postbuild-upload-docs.sh" then docs_lines e
  else if String.eqb path "./test/ci/postbuild-upload-reports.sh" then reports_lines e
  else [Some [path]].

(** bash with errexit: the commands that are executed, and whether the script succeeds. [ok n c]: the command [c] at place [n] succeeds.
    native-gcc-build-and-test.sh lines 11-19. *)
Fixpoint shell (ok : nat -> command -> bool) (n : nat) (ls : lines) : list command * bool :=
  match ls with
  | [] => ([], true)
  | None :: _ => ([], false)
  | Some c :: ls => if ok n c then let (cs, b) := shell ok (S n) ls in (c :: cs, b) else ([c], false)
  end.

(** A step, as pipeline.yml lines 2-21: its command, the variables it sets, and the branch it is for. *)
Record step : Type := Step { s_command : string; s_env : list (string * string); s_branch : option string }.
(** The variables of a step's environment: its own, pipeline.yml lines 16-18, before the agent's. *)
Definition step_env (own : list (string * string)) (agent : env) : env :=
  fun v => match find (fun p => String.eqb (fst p) v) own with Some p => Some (snd p) | None => agent v end.

(** pipeline.yml lines 1-96: the steps, between the waits. *)
Definition pipeline : list (list step) := [
  [Step "./test/ci/native-gcc-build-and-test.sh" [("VERBOSE", "1"); ("MAKEFILE_JOBS_COMPILATION", "1")] None;
   Step "./test/ci/native-clang-build-and-test.sh" [("VERBOSE", "1"); ("MAKEFILE_JOBS_COMPILATION", "1")] None;
   Step "./test/ci/ontarget-s32k-build.sh" [("VERBOSE", "1"); ("MAKEFILE_JOBS_COMPILATION", "1"); ("CMAKE_BUILD_TYPE", "Release")] None];
  [Step "/etc/buildkite-agent/hooks/command" [] None];
  [Step "./test/ci/postbuild-upload-docs.sh" [("VERBOSE", "1")] (Some "master");
   Step "./test/ci/postbuild-upload-reports.sh" [("VERBOSE", "1")] (Some "master")]].

(** A step on an agent: its command, what was executed, and whether it passed; nothing if it is for another branch. A step that takes too
    long is killed: a command that fails. pipeline.yml lines 1-96. *)
Definition run_step (ok : string -> nat -> command -> bool) (agent : string -> env) (branch : string) (s : step)
  : list (string * (list command * bool)) :=
  if match s_branch s with Some b => String.eqb b branch | None => true end
  then [(s_command s, shell (ok (s_command s)) 0 (file_lines (s_command s) (step_env (s_env s) (agent (s_command s)))))]
  else [].

(** Buildkite: the steps between two waits run side by side; after a wait the pipeline goes on only if all before it passed. pipeline.yml
    lines 57 and 63. *)
Fixpoint run_groups (ok : string -> nat -> command -> bool) (agent : string -> env) (branch : string) (groups : list (list step))
  : list (string * (list command * bool)) :=
  match groups with
  | [] => []
  | g :: groups =>
      let rs := flat_map (run_step ok agent branch) g in
      rs ++ (if forallb (fun r => snd (snd r)) rs then run_groups ok agent branch groups else [])
  end.

(** A build of a commit on a branch: pipeline.yml lines 1-96. *)
Definition ci (ok : string -> nat -> command -> bool) (agent : string -> env) (branch : string) : list (string * (list command * bool)) :=
  run_groups ok agent branch pipeline.
