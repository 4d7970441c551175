(** Programs for the target board and what is loaded into it: test/ontarget/S32K148EVB/tests.cmake lines 41-81 and test/ontarget/loadfile_swd.jlink. *)
From Coq Require Import Bool List Arith.
Import ListNotations.

(** A file made from the sources: of which version of them, or half written. tests.cmake lines 43-45. *)
Inductive image : Type := Of (version : nat) | Torn.

(** The sources of a test (with the linker script, tests.cmake line 53), whether they are newer than the program, and the three files of lines
    43-45. *)
Record files : Type := Files { source : nat; newer : bool; elf : option image; hex : option image; bin : option image }.

(** The commands of the recipe: the linker (tests.cmake line 47) and the two conversions (lines 58 and 62). *)
Inductive command : Type := Link | ToHex | ToBin.

(** What goes wrong when the program is made by tests.cmake lines 47-63. A conversion that fails deletes its output or keeps what was there. *)
Inductive trouble : Type :=
| NoTrouble
| CompileFails
| Fails (c : command) (keeps : bool)
| Interrupted (c : command)        (* make is told to stop: it deletes its target, the program *)
| Killed (c : command).            (* or is killed *)

(** make of the program, tests.cmake lines 47-63. The conversions are part of its recipe. [deletes]: the makefiles say that targets whose recipe
    fails are deleted, which depends on the version of CMake. Second component: success. *)
Definition build (deletes : bool) (t : trouble) (f : files) : files * bool :=
  let failed p := if deletes then None else p in
  match elf f, newer f with
  | Some _, false => (f, true)
  | _, _ =>
      let program := Some (Of (source f)) in
      match t with
      | NoTrouble => (Files (source f) false program program program, true)
      | CompileFails => (f, false)
      | Fails Link _ | Interrupted Link => (Files (source f) (newer f) None (hex f) (bin f), false)
      | Killed Link => (Files (source f) false (Some Torn) (hex f) (bin f), false)
      | Fails ToHex keeps => (Files (source f) false (failed program) (if keeps then hex f else None) (bin f), false)
      | Interrupted ToHex => (Files (source f) false None (Some Torn) (bin f), false)
      | Killed ToHex => (Files (source f) false program (Some Torn) (bin f), false)
      | Fails ToBin keeps => (Files (source f) false (failed program) program (if keeps then bin f else None), false)
      | Interrupted ToBin => (Files (source f) false None program (Some Torn), false)
      | Killed ToBin => (Files (source f) false program program (Some Torn), false)
      end
  end.

(** flashtest_..., tests.cmake lines 71-79, with loadfile_swd.jlink line 12: the program is made first; there is no rule for the hex file. [j]: the
    probe works. Second component: what is loaded. *)
Definition flash (deletes : bool) (t : trouble) (j : bool) (f : files) : files * option image :=
  match build deletes t f with
  | (f', true) => (f', if j then hex f' else None)
  | (f', false) => (f', None)
  end.

(** What is done with them: tests.cmake lines 41-81 are used again and again. *)
Inductive step : Type :=
| Edit (version : nat)
| Build (t : trouble)
| Flash (t : trouble) (j : bool)
| Clean                            (* make clean deletes the program; the other two files are no outputs, lines 57-63 *)
| Remove.                          (* the hex file is deleted *)

(** One of these, tests.cmake lines 41-81. *)
Definition perform (deletes : bool) (f : files) (s : step) : files :=
  match s with
  | Edit v => Files v true (elf f) (hex f) (bin f)
  | Build t => fst (build deletes t f)
  | Flash t j => fst (flash deletes t j f)
  | Clean => Files (source f) (newer f) None (hex f) (bin f)
  | Remove => Files (source f) (newer f) (elf f) None (bin f)
  end.

(** A new build directory with sources, before tests.cmake line 47. *)
Definition checkout : files := Files 0 true None None None.

(** A history of tests.cmake lines 41-81. *)
Definition history (deletes : bool) (h : list step) : files := fold_left (perform deletes) h checkout.
