(** What CONTRIBUTING.md line 156 promises of the folder for external projects, in terms of the history of the runs of CMake alone. *)
From Coq Require Import Bool List Arith.
From Verif Require Import ExtModel.
Import ListNotations.

(** A machine with the programs the build asks for, on which the run is not interrupted. *)
Definition ready (w : machine) : Prop :=
  has_virtualenv w = true /\ virtualenv_works w = true /\ other_tools w = true /\ interrupted w = None.

(** CMake succeeds in build directory [b], on machine [w], after history [h]. *)
Definition succeeds (h : list event) (b : nat) (w : machine) : Prop := snd (step (after h) (Run b w)) = true.

(** Package [p] is in the python environment after history [h]. *)
Definition available (h : list event) (p : nat) : Prop :=
  exists v, pyenv (ext (after h)) = Some v /\ In p (packages v).

(** requirements.txt lists package [p] after history [h]. *)
Definition required (h : list event) (p : nat) : Prop := In p (requirements (after h)).

(** If an earlier run in the same build directory found nnvg in the global python environment, and not in its own, it is still there. *)
Definition nnvg_stays (h : list event) (b : nat) (w : machine) : Prop :=
  forall h1 w0 h2, h = h1 ++ Run b w0 :: h2 -> ~ In (DeleteBuild b) h2 -> has_nnvg w0 = true ->
  ~ (has_virtualenv w0 = true /\ available (h1 ++ [Run b w0]) nunavut) -> has_nnvg w = true.

(** The sources of googletest and the definitions are there. *)
Definition sources_there (h : list event) : Prop :=
  cloned (types (ext (after h))) = true /\ cloned (gtest (ext (after h))) = true.

(** virtualenv, run on this machine, makes a directory, complete or not. *)
Definition makes_directory (w : machine) : bool :=
  has_virtualenv w &&
  (virtualenv_leaves w || (virtualenv_works w && match interrupted w with Some InVirtualenv => false | _ => true end)).

(** What a history leaves of importance: the run that made the python environment, with the requirements of that time, and the generator of the
    first run that came to the downloads. *)
Record story : Type := Story { founder : option (machine * list nat); first_generator : option nat; reqs : list nat }.

(** One event. *)
Definition tell (s : story) (e : event) : story :=
  match e with
  | DeleteBuild _ => s
  | DeleteFolder => Story None None (reqs s)
  | Require r => Story (founder s) (first_generator s) r
  | Run _ w =>
      let makes := match founder s with None => has_virtualenv w | Some _ => false end in
      Story (match founder s with
             | None => if makes_directory w then Some (w, reqs s) else None
             | Some x => Some x
             end)
            (if makes && match interrupted w with Some InVirtualenv | Some InPip => true | _ => false end
             then first_generator s
             else match first_generator s with None => Some (generator w) | Some g => Some g end)
            (reqs s)
  end.

(** A history. *)
Definition story_of (h : list event) : story := fold_left tell h (Story None None [nunavut]).

(** The run that made the python environment installed package [p]. *)
Definition installed (x : machine * list nat) (p : nat) : Prop :=
  let (w, r) := x in
  virtualenv_works w = true /\ network w = true /\ In p r /\
  match interrupted w with
  | Some InVirtualenv => False
  | Some InPip => unpacked w p = true
  | _ => True
  end.
