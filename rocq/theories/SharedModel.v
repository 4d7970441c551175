(** googletest, when it is built in the folder for external projects: test/cmake/modules/Findgtest.cmake lines 46-123, test/cmake/common.cmake
    lines 7-12, test/native/tests.cmake lines 26-36. *)
From Coq Require Import Bool List Arith.
Import ListNotations.

(** How a build directory compiles googletest: compiler, build type, flags of the user. Findgtest.cmake lines 119-121 come before the flag sets
    of CMakeLists.txt line 102, which are not part of it. *)
Definition flavour : Type := nat.

(** ${EXTERNAL_PROJECT_DIRECTORY}/googletest-build, the directory of Findgtest.cmake line 120. A file that is made again has a new time. Rules are
    written only when they differ from those that are there. *)
Record shared : Type := Shared {
  now : nat;
  rules : option (flavour * nat);             (* the makefiles of gmock_main: what they say, and their time *)
  object : nat -> option (flavour * nat);     (* by source file: how it was compiled, and when *)
  archive : option (list flavour * nat)       (* how the members of libgmock_main.a were compiled, and when it was made *)
}.

(** Findgtest.cmake lines 119-121, executed for a build directory of flavour [k]. *)
Definition add_googletest (k : flavour) (s : shared) : shared :=
  match rules s with
  | Some (k', _) => if k' =? k then s else Shared (S (now s)) (Some (k, now s)) (object s) (archive s)
  | None => Shared (S (now s)) (Some (k, now s)) (object s) (archive s)
  end.

(** The object is missing or older than the rules. As make decides about the target of Findgtest.cmake line 119. *)
Definition outdated (t : nat) (o : option (flavour * nat)) : bool :=
  match o with None => true | Some (_, t') => t' <=? t end.

(** make compiles the source files [l], those of gmock_main, by the rules of Findgtest.cmake line 119; it is interrupted after [n] of them, if it
    is. Second component: all are done. *)
Fixpoint compile (k : flavour) (t : nat) (l : list nat) (n : option nat) (s : shared) : shared * bool :=
  match l with
  | [] => (s, true)
  | i :: l' =>
      if outdated t (object s i)
      then match n with
           | Some 0 => (s, false)
           | _ => compile k t l' (option_map pred n)
                    (Shared (S (now s)) (rules s) (fun j => if j =? i then Some (k, now s) else object s j) (archive s))
           end
      else compile k t l' n s
  end.

(** The archive is missing or older than an object. As make decides about the target of Findgtest.cmake line 119. *)
Definition archive_outdated (l : list nat) (s : shared) : bool :=
  match archive s with
  | None => true
  | Some (_, t) => existsb (fun i => match object s i with None => true | Some (_, t') => t <? t' end) l
  end.

(** The members of the archive of Findgtest.cmake line 119. *)
Definition members (l : list nat) (s : shared) : list flavour :=
  flat_map (fun i => match object s i with None => [] | Some (k, _) => [k] end) l.

(** make of gmock_main, in the shared directory: Findgtest.cmake line 119, asked for by native/tests.cmake line 30. The makefiles it reads are those
    that are there, whoever wrote them. Second component: how the members of the library were compiled that the tests are linked with. *)
Definition make_googletest (l : list nat) (n : option nat) (s : shared) : shared * option (list flavour) :=
  match rules s with
  | None => (s, None)
  | Some (k, t) =>
      match compile k t l n s with
      | (s', false) => (s', None)
      | (s', true) =>
          if archive_outdated l s'
          then let m := members l s' in (Shared (S (now s')) (rules s') (object s') (Some (m, now s')), Some m)
          else (s', match archive s' with Some (m, _) => Some m | None => None end)
      end
  end.

(** The build directories that use the same folder, common.cmake lines 7-12: how each was configured last, and whether it builds its own
    googletest (GTEST_USE_LOCAL_BUILD, Findgtest.cmake lines 47-61). *)
Record site : Type := Site { dir : shared; configured : nat -> option (flavour * bool) }.

(** What is done in them. CMakeLists.txt line 73 and native/tests.cmake line 30. *)
Inductive act : Type :=
| Configure (b : nat) (k : flavour) (own : bool)
| Make (b : nat) (n : option nat).

(** One of these; with which members of gmock_main the tests were linked, if they were. Findgtest.cmake lines 46-123. A library of its own is
    compiled by the rules of its build directory. *)
Definition perform (l : list nat) (s : site) (a : act) : site * option (list flavour) :=
  match a with
  | Configure b k own =>
      (Site (if own then dir s else add_googletest k (dir s)) (fun x => if x =? b then Some (k, own) else configured s x), None)
  | Make b n =>
      match configured s b with
      | None => (s, None)
      | Some (k, true) => (s, match n with None => Some (map (fun _ => k) l) | Some _ => None end)
      | Some (k, false) => let (d, m) := make_googletest l n (dir s) in (Site d (configured s), m)
      end
  end.

(** Before anything is built by Findgtest.cmake lines 46-123. *)
Definition clean : site := Site (Shared 1 None (fun _ => None) None) (fun _ => None).

(** A history of Findgtest.cmake lines 46-123. *)
Definition history (l : list nat) (h : list act) : site := fold_left (fun s a => fst (perform l s a)) h clean.
