(** Model of the coverage targets of test/cmake/modules/Findlcov.cmake and test/native/tests.cmake: the commands that make runs for each
    test, on counters and a baseline file that the tests share. *)
From Coq Require Import ZArith Bool List.
Import ListNotations.
Open Scope Z_scope.

(** How often each line was executed. As in the files of Findlcov.cmake lines 64-88. *)
Definition info : Type := nat -> Z.

(** The commands of a test, by its number. Findlcov.cmake lines 52-88. *)
Inductive command : Type :=
| Zero (t : nat)
| Baseline (t : nat)
| Run (t : nat)
| Capture (t : nat)
| Combine (t : nat)
| Extract (t : nat).

(** The build directory: the counters that the programs' runs add to, the common file coverage.baseline.info, and for each test its
    files coverage.T.test.info, coverage.T.info and coverage.T.filtered.info. Findlcov.cmake lines 52-88. *)
Record files : Type := Files {
  counters : info; baseline : option info;
  test_info : nat -> option info; combined : nat -> option info; filtered : nat -> option info }.

(** Replaces the file of a test. For Findlcov.cmake lines 74, 81 and 88. *)
Definition put (f : nat -> option info) (t : nat) (i : option info) : nat -> option info := fun u => if Nat.eqb u t then i else f u.

(** lcov --add-tracefile with two files; without one of them it fails and writes nothing. Findlcov.cmake lines 79-80. *)
Definition added (a b : option info) : option info :=
  match a, b with Some a, Some b => Some (fun l => a l + b l) | _, _ => None end.

(** One command, without interruption. [hits t] is what the run of test [t] executes, which gcov adds to the counters when
    the program ends, [under] the lines of files in libuavcan/include.
    lcov leaves out lines that no program with data has; here they are 0, as the baseline says. A test that fails, and stops make, is left
    out. Findlcov.cmake lines 52-88. *)
Definition execute (hits : nat -> info) (under : nat -> bool) (c : command) (s : files) : files :=
  match c with
  | Zero _ => Files (fun _ => 0) (baseline s) (test_info s) (combined s) (filtered s)
  | Baseline _ => Files (counters s) (Some (fun _ => 0)) (test_info s) (combined s) (filtered s)
  | Run t => Files (fun l => counters s l + hits t l) (baseline s) (test_info s) (combined s) (filtered s)
  | Capture t => Files (counters s) (baseline s) (put (test_info s) t (Some (counters s))) (combined s) (filtered s)
  | Combine t => Files (counters s) (baseline s) (test_info s) (put (combined s) t (added (baseline s) (test_info s t))) (filtered s)
  | Extract t =>
      Files (counters s) (baseline s) (test_info s) (combined s)
            (put (filtered s) t (match combined s t with Some i => Some (fun l => if under l then i l else 0) | None => None end))
  end.

(** Commands one after the other, each complete before the next. Findlcov.cmake lines 52-88. *)
Fixpoint executes (hits : nat -> info) (under : nat -> bool) (cs : list command) (s : files) : files :=
  match cs with [] => s | c :: cs => executes hits under cs (execute hits under c s) end.

(** The recipe of a test: Findlcov.cmake lines 52-88. *)
Definition recipe (t : nat) : list command := [Zero t; Baseline t; Run t; Capture t; Combine t; Extract t].

(** coverage.all.info: tests.cmake lines 80-106, the files of all tests added up. *)
Fixpoint all_info (ts : list nat) (s : files) : option info :=
  match ts with
  | [] => Some (fun _ => 0)
  | t :: ts => added (filtered s t) (all_info ts s)
  end.

(** ** Incremental builds *)

(** The build directory over time: what each test executes as it is compiled now and when that was, the files of the recipes, and when the
    outputs were made, if they are there. Findlcov.cmake lines 51-97, tests.cmake lines 98-124. *)
Record tree : Type := Tree {
  clock : nat;
  test_hits : nat -> info; built : nat -> nat;
  dir : files; filtered_time : nat -> option nat;
  all_file : option info; all_time : option nat;
  cov_file : option info; cov_time : option nat }.

(** What the user does: changes a test, or what it tests, such that it executes something else (its compilation is left out: it is as if
    compiled at once); builds the target cov_all with one job; or the target clean. native-gcc-build-and-test.sh lines 56-73. *)
Inductive action : Type := Edit (t : nat) (hits : info) | Make | Clean.

(** Make: a target is made if it is missing or older than one of the files it depends on. Findlcov.cmake lines 89-90. *)
Definition out_of_date (target : option nat) (files : list nat) : bool :=
  match target with None => true | Some time => existsb (fun f => (time <? f)%nat) files end.

(** Findlcov.cmake lines 51-91: the recipes that make runs for cov_all. The output depends on the test's executable: CMake makes a custom
    command depend on the file of an executable target. *)
Definition stale_tests (ts : list nat) (s : tree) : list nat :=
  List.filter (fun t => out_of_date (filtered_time s t) [built s t]) ts.

(** Make with the target cov_all: the recipes, then tests.cmake lines 98-107, where DEPENDS names custom targets, which CMake takes for an
    order but not for files, and then lines 109-119. The report in HTML, lines 126-141, is of coverage.info. *)
Definition make_cov (under : nat -> bool) (ts : list nat) (s : tree) : tree :=
  let stale := stale_tests ts s in
  let d := executes (test_hits s) under (flat_map recipe stale) (dir s) in
  let t1 := S (clock s) in
  let ftime := fun t => if existsb (Nat.eqb t) stale then Some t1 else filtered_time s t in
  let t2 := S t1 in
  let again := out_of_date (all_time s) [] in
  let all := if again then all_info ts d else all_file s in
  let atime := if again then Some t2 else all_time s in
  let t3 := S t2 in
  let extract := out_of_date (cov_time s) (match atime with Some t => [t] | None => [] end) in
  let cov := if extract then match all with Some i => Some (fun l => if under l then i l else 0) | None => None end else cov_file s in
  Tree t3 (test_hits s) (built s) d ftime all atime cov (if extract then Some t3 else cov_time s).

(** The target clean removes the outputs of the commands and the executables, which are made again before anything else. The counters
    and the files in between stay. native-gcc-build-and-test.sh lines 56-58, tests.cmake lines 98-119. *)
Definition make_clean (s : tree) : tree :=
  let d := Files (counters (dir s)) (baseline (dir s)) (test_info (dir s)) (combined (dir s)) (fun _ => None) in
  Tree (S (clock s)) (test_hits s) (fun _ => S (clock s)) d (fun _ => None) None None None None.

(** One action of these: Findlcov.cmake lines 51-97, tests.cmake lines 98-141. *)
Definition act (under : nat -> bool) (ts : list nat) (a : action) (s : tree) : tree :=
  match a with
  | Edit t h =>
      Tree (S (clock s)) (fun u => if Nat.eqb u t then h else test_hits s u) (fun u => if Nat.eqb u t then S (clock s) else built s u)
           (dir s) (filtered_time s) (all_file s) (all_time s) (cov_file s) (cov_time s)
  | Make => make_cov under ts s
  | Clean => make_clean s
  end.

(** Any actions: Findlcov.cmake lines 51-97, tests.cmake lines 98-141. *)
Fixpoint acts (under : nat -> bool) (ts : list nat) (es : list action) (s : tree) : tree :=
  match es with [] => s | a :: es => acts under ts es (act under ts a s) end.

(** A new build directory: tests that are compiled, and no outputs. Findlcov.cmake lines 51-97. *)
Definition new_tree (hits : nat -> info) : tree :=
  Tree 0 hits (fun _ => 0%nat) (Files (fun _ => 0) None (fun _ => None) (fun _ => None) (fun _ => None)) (fun _ => None) None None None None.
