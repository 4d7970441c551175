(** Specification vocabulary for coverage. *)
From Coq Require Import ZArith Bool List.
From Verif Require Import LcovModel.
Import ListNotations.
Open Scope Z_scope.

(** The test that a command belongs to. *)
Definition owner (c : command) : nat :=
  match c with Zero t | Baseline t | Run t | Capture t | Combine t | Extract t => t end.

(** What make may do with several jobs: the recipes of these tests, each in its order, mixed in any way. *)
Definition schedule (ts : list nat) (cs : list command) : Prop :=
  forall t, List.filter (fun c => Nat.eqb (owner c) t) cs = if in_dec Nat.eq_dec t ts then recipe t else [].

(** Make with one job: one recipe after the other. *)
Definition one_by_one (ts : list nat) : list command := flat_map recipe ts.

(** The tests run since the counters were last cleared, the last first. *)
Fixpoint since_zero (cs : list command) (runs : list nat) : list nat :=
  match cs with
  | [] => runs
  | Zero _ :: cs => since_zero cs []
  | Run t :: cs => since_zero cs (t :: runs)
  | _ :: cs => since_zero cs runs
  end.

(** What these runs execute together. *)
Definition together (hits : nat -> info) (runs : list nat) (l : nat) : Z := fold_right (fun t n => hits t l + n) 0 runs.

(** The file says this of every line below libuavcan/include, and nothing of the others. *)
Definition reports (file : option info) (under : nat -> bool) (what : info) : Prop :=
  exists i, file = Some i /\ forall l, i l = if under l then what l else 0.

(** What the tests execute after these actions. *)
Fixpoint current (es : list action) (hits : nat -> info) : nat -> info :=
  match es with
  | [] => hits
  | Edit t h :: es => current es (fun u => if Nat.eqb u t then h else hits u)
  | _ :: es => current es hits
  end.

(** What these tests execute together. *)
Definition total (ts : list nat) (hits : nat -> info) : info := fun l => fold_right (fun t n => hits t l + n) 0 ts.

(** No build since the outputs were last removed, or ever. *)
Definition nothing_built (es : list action) : Prop :=
  ~ In Make es \/ exists before since, es = before ++ Clean :: since /\ ~ In Make since.
