(** What may be included and when. *)
From Coq Require Import Bool List String ZArith.
From Verif Require Import HeaderModel.
Import ListNotations.
Open Scope string_scope.
Open Scope list_scope.

(** The unit is compiled without an error. *)
Definition accepted (more : library) (c : settings) (defined : list string) (u : list directive) : Prop :=
  compile more c defined u <> None.

(** No macro of an include guard was defined on the command line. *)
Definition no_guards (defined : list string) : Prop := forall h, ~ In (guard h) defined.

(** The version of the language is one that is supported, or is not looked at. *)
Definition supported (c : settings) : Prop := nocheck c = true \/ (201100 < cplusplus c < 201800)%Z.

(** One header is another or includes it, directly or not. *)
Inductive reaches (c : settings) : header -> header -> Prop :=
| Itself h : reaches c h h
| Through h d e : In (Lib d) (includes c h) -> reaches c d e -> reaches c h e.

(** The standard headers that a program has to include by itself before a header of the library: those that declare what it uses and that it does not
    include. *)
Definition missing (c : settings) (h : header) (x : string) : Prop :=
  match h with
  | Can => x = "algorithm"
  | Memory => x = "algorithm" \/ (exceptions c = true /\ x = "new")
  | _ => False
  end.

(** Each inclusion comes after what it has to come after. *)
Definition prepared (c : settings) (u : list directive) : Prop :=
  forall before h after x, u = before ++ Lib h :: after -> missing c h x -> In (Std x) before.

(** The standard headers that a unit includes, itself or through headers of the library. *)
Definition at_hand (c : settings) (u : list directive) (x : string) : Prop :=
  In (Std x) u \/ exists g h, In (Lib g) u /\ reaches c g h /\ In (Std x) (includes c h).

(** The names that a header of the library uses although no header that it includes is required to declare them. *)
Definition taken_for_granted (c : settings) (h : header) (n : string) : Prop :=
  match h with
  | Can => n = "copy" \/ n = "equal"
  | Memory => n = "min" \/ (exceptions c = true /\ n = "bad_alloc")
  | _ => False
  end.
