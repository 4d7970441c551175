(** Specification vocabulary for generated constants. *)
From Coq Require Import ZArith.
From Verif Require Import TemplateModel.
Open Scope Z_scope.

(** The values of a type. *)
Definition holds (t : ctype) (v : Z) : Prop :=
  match t with
  | CUnsigned w => 0 < w /\ 0 <= v < 2 ^ w
  | CSigned w => 0 < w /\ - 2 ^ (w - 1) <= v < 2 ^ (w - 1)
  end.

(** The integer [v] is the rational number [num] / [den]. *)
Definition is_rational (v num den : Z) : Prop := v * den = num.
