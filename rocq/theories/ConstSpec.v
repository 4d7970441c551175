(** Where a constant is used other than for its value. *)
From Coq Require Import Bool List Arith ZArith.
From Verif Require Import ConstModel.
Import ListNotations.

(** A way from an expression to one of its evaluated parts. *)
Inductive turn : Type := OfConvert | OfBind | Condition | Then | Else | Before | After | OfDiscard | First | Second.

(** One turn. *)
Definition take (e : expr) (t : turn) : option expr :=
  match e, t with
  | Convert x, OfConvert | Bind x, OfBind | Discard x, OfDiscard => Some x
  | Cond b _ _, Condition => Some b
  | Cond _ x _, Then => Some x
  | Cond _ _ y, Else => Some y
  | Comma x _, Before => Some x
  | Comma _ y, After => Some y
  | Operands x _, First => Some x
  | Operands _ y, Second => Some y
  | _, _ => None
  end.

(** The whole way. *)
Fixpoint part (e : expr) (way : list turn) : option expr :=
  match way with
  | [] => Some e
  | t :: rest => match take e t with Some x => part x rest | None => None end
  end.

(** C++14 at least. *)
Definition since_14 (v : Z) : Prop := (201402 <= v)%Z.

(** What is there, only its value is asked for, or since C++14 it is discarded. The condition of a conditional operator is converted. *)
Definition only_value (v : Z) (t : turn) : Prop :=
  t = OfConvert \/ t = Condition \/ (since_14 v /\ (t = OfDiscard \/ t = Before)).

(** Since C++14 the way may go on like this without the use becoming another. *)
Definition passes (v : Z) (t : turn) : Prop := since_14 v /\ (t = Then \/ t = Else \/ t = After).

(** The use at the end of the way is only of the value. *)
Definition by_value (v : Z) (way : list turn) : Prop :=
  exists before t after, way = before ++ t :: after /\ only_value v t /\ Forall (passes v) after.

(** Somewhere in the expression the constant is used as an object. *)
Definition used_as_object (v : Z) (e : expr) (c : constant) : Prop :=
  exists way, part e way = Some (Name c) /\ ~ by_value v way.

(** The expression is in the program: in one of its units or in a header of its own. *)
Definition in_program (p : program) (e : expr) : Prop := In e (shared p) \/ exists u, In u (pieces p) /\ In e (body u).

(** It is a member of a class. *)
Definition is_member (c : constant) : Prop := forall g, c <> Global g.

(** A unit of the program defines it. *)
Definition defined_by_program (p : program) (c : constant) : Prop := exists u, In u (pieces p) /\ In c (defines u).

(** Two units define it. *)
Definition defined_twice (p : program) (c : constant) : Prop :=
  exists us u vs w ws, pieces p = us ++ u :: vs ++ w :: ws /\ In c (defines u) /\ In c (defines w).

(** The program is correct with every compiler. *)
Definition correct (p : program) : Prop := (forall k, links k p = true) /\ same_everywhere p = true.
