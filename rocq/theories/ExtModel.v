(** The folder for external projects, which several build directories may use and which outlives them: test/cmake/common.cmake lines 7-12,
    test/CMakeLists.txt lines 22-88, test/cmake/modules/Findvirtualenv.cmake, Findpublic_regulated_data_types.cmake, Findgtest.cmake lines
    11-41 and Findnnvg.cmake lines 102-145. *)
From Coq Require Import Bool List Arith.
Import ListNotations.

(** A python environment, VIRTUALENV_OUTPUT of Findvirtualenv.cmake line 9: whether its interpreter runs, and the packages it has. Simplification:
    packages are numbers, and what a package depends on comes with it. *)
Record venv : Type := Venv { interpreter : bool; packages : list nat }.

(** A directory that downloads sources: the generator it was first configured for (its CMakeCache.txt), and whether the clone is complete.
    Findgtest.cmake lines 14-19 and Gtest.txt.in, Findpublic_regulated_data_types.cmake lines 5-10 and public_regulated_data_types.txt.in. *)
Record download : Type := Download { made_for : option nat; cloned : bool }.

(** EXTERNAL_PROJECT_DIRECTORY, common.cmake lines 7-12. *)
Record folder : Type := Folder { pyenv : option venv; types : download; gtest : download }.

(** Before CMakeLists.txt line 63 is executed for the first time. *)
Definition empty_folder : folder := Folder None (Download None false) (Download None false).

(** Where the script nnvg was found, Findnnvg.cmake lines 111 and 115: in the python environment or elsewhere on the machine. *)
Inductive script : Type := Local | Global.

(** What find_program keeps in the cache of a build directory. Findvirtualenv.cmake line 5, Findnnvg.cmake lines 111 and 115. *)
Record cache : Type := Cache { found_virtualenv : bool; found_nnvg : option script }.
(** A new build directory, before CMakeLists.txt line 63. *)
Definition empty_cache : cache := Cache false None.

(** Where a run of CMake is interrupted, if it is: within the commands of Findvirtualenv.cmake lines 18 and 25, of
    Findpublic_regulated_data_types.cmake line 15 and of Findgtest.cmake line 23, or later. *)
Inductive point : Type := InVirtualenv | InPip | InTypes | InGtest | Later.

(** The machine during one run, as far as CMakeLists.txt lines 63-88 depend on it. *)
Record machine : Type := Machine {
  has_virtualenv : bool;        (* the program virtualenv is there *)
  virtualenv_works : bool;      (* and makes an environment *)
  virtualenv_leaves : bool;     (* when it does not, or is interrupted: it leaves a directory *)
  network : bool;
  other_tools : bool;           (* doxygen, clang-format, ... : CMakeLists.txt lines 78 and 83 *)
  has_nnvg : bool;              (* nnvg and nunavut are in the global python environment *)
  generator : nat;
  interrupted : option point;
  unpacked : nat -> bool        (* which packages pip has installed when it is interrupted *)
}.

(** The package of requirements.txt line 9, which has nnvg. *)
Definition nunavut : nat := 0.

(** A package is in a list. As pip and python look for packages, Findvirtualenv.cmake line 25 and Findnnvg.cmake line 126. *)
Definition has (p : nat) (l : list nat) : bool := existsb (Nat.eqb p) l.

(** Findvirtualenv.cmake lines 18-26, when the environment is not there. [reqs] is requirements.txt. The results of the two commands are not
    looked at. pip installs all packages when it can reach the index, and none when it cannot. Second component: CMake goes on. *)
Definition make_environment (w : machine) (reqs : list nat) : option venv * bool :=
  let remains := if virtualenv_leaves w then Some (Venv false []) else None in
  let made := if virtualenv_works w then Some (Venv true []) else remains in
  match interrupted w with
  | Some InVirtualenv => (remains, false)
  | Some InPip => (if virtualenv_works w then Some (Venv true (if network w then filter (unpacked w) reqs else [])) else made, false)
  | _ => (if virtualenv_works w then Some (Venv true (if network w then reqs else [])) else made, true)
  end.

(** Findvirtualenv.cmake lines 5-31. *)
Definition find_virtualenv (w : machine) (reqs : list nat) (found : bool) (e : option venv) : option venv * bool :=
  if found || has_virtualenv w
  then match e with
       | None => if has_virtualenv w then make_environment w reqs else (None, true)
       | Some _ => (e, true)
       end
  else (e, true).

(** One download: Findpublic_regulated_data_types.cmake lines 8-26, Findgtest.cmake lines 14-40. CMake refuses another generator than the one
    of before. A complete clone of the pinned commit is not fetched again. Second component: the sources are there. *)
Definition fetch (w : machine) (cut : bool) (d : download) : download * bool :=
  match made_for d with
  | Some g => if g =? generator w
              then let c := cloned d || (network w && negb cut) in (Download (Some g) c, c && negb cut)
              else (d, false)
  | None => let c := cloned d || (network w && negb cut) in (Download (Some (generator w)) c, c && negb cut)
  end.

(** The run stops here. As in Findvirtualenv.cmake lines 18-25 or later. *)
Definition stops (w : machine) (p : point) : bool :=
  match interrupted w, p with
  | Some InTypes, InTypes | Some InGtest, InGtest | Some Later, Later => true
  | _, _ => false
  end.

(** Findnnvg.cmake lines 106-118: a program that was found before is not looked for again. HINTS come first. *)
Definition find_nnvg (w : machine) (virtualenv : bool) (e : option venv) (found : option script) : option script :=
  match found with
  | Some s => Some s
  | None =>
      if virtualenv && match e with Some v => has nunavut (packages v) | None => false end then Some Local
      else if has_nnvg w then Some Global else None
  end.

(** The file of Findnnvg.cmake line 126 is there. *)
Definition script_there (w : machine) (e : option venv) (s : script) : bool :=
  match s with
  | Local => match e with Some v => has nunavut (packages v) | None => false end
  | Global => has_nnvg w
  end.

(** Findnnvg.cmake lines 123-139 and the lists of lines 40-68: whether nnvg runs. Under virtualenv it is run by the environment's interpreter,
    whatever script was found, and needs the environment's nunavut. Simplification: every nunavut is recent enough for line 141. *)
Definition nnvg_runs (w : machine) (virtualenv : bool) (e : option venv) (s : option script) : bool :=
  match s with
  | None => false
  | Some s =>
      script_there w e s &&
      (if virtualenv then match e with Some v => interpreter v && has nunavut (packages v) | None => false end else has_nnvg w)
  end.

(** One run of CMake: CMakeLists.txt lines 63-94. An interrupted run does not write the cache; one that fails does. *)
Definition configure (w : machine) (reqs : list nat) (f : folder) (c : cache) : folder * cache * bool :=
  let virtualenv := found_virtualenv c || has_virtualenv w in
  match find_virtualenv w reqs (found_virtualenv c) (pyenv f) with
  | (e, false) => (Folder e (types f) (gtest f), c, false)
  | (e, true) =>
      let kept := Cache virtualenv (found_nnvg c) in
      match fetch w (stops w InTypes) (types f) with
      | (t, false) => (Folder e t (gtest f), if stops w InTypes then c else kept, false)
      | (t, true) =>
          match fetch w (stops w InGtest) (gtest f) with
          | (g, false) => (Folder e t g, if stops w InGtest then c else kept, false)
          | (g, true) =>
              let after := Folder e t g in
              if stops w Later then (after, c, false)
              else if negb (other_tools w) then (after, kept, false)
              else let s := find_nnvg w virtualenv e (found_nnvg c) in
                   (after, Cache virtualenv s, nnvg_runs w virtualenv e s)
          end
      end
  end.

(** What happens to the folder, to the build directories and to requirements.txt, as between runs of CMakeLists.txt lines 63-94. *)
Inductive event : Type :=
| Run (b : nat) (w : machine)            (* cmake .. in build directory b *)
| DeleteBuild (b : nat)                  (* rm -rf of a build directory *)
| DeleteFolder                           (* rm -rf of the folder *)
| Require (reqs : list nat).             (* another requirements.txt *)

(** All of it. EXTERNAL_PROJECT_DIRECTORY is the same for all the build directories, common.cmake lines 7-12 (LIBUAVCAN_EXT_FOLDER, or the last
    component of their names). *)
Record place : Type := Place { ext : folder; caches : nat -> cache; requirements : list nat }.

(** One event, as in CMakeLists.txt lines 63-94; whether it succeeded. *)
Definition step (s : place) (e : event) : place * bool :=
  match e with
  | Run b w =>
      match configure w (requirements s) (ext s) (caches s b) with
      | (f, c, ok) => (Place f (fun x => if x =? b then c else caches s x) (requirements s), ok)
      end
  | DeleteBuild b => (Place (ext s) (fun x => if x =? b then empty_cache else caches s x) (requirements s), true)
  | DeleteFolder => (Place empty_folder (caches s) (requirements s), true)
  | Require r => (Place (ext s) (caches s) r, true)
  end.

(** A new checkout: requirements.txt line 9. *)
Definition checkout : place := Place empty_folder (fun _ => empty_cache) [nunavut].

(** A history of runs of CMakeLists.txt lines 63-94. *)
Definition after (h : list event) : place := fold_left (fun s e => fst (step s e)) h checkout.
