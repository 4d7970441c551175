(** Specifications for histories of time/duration operations. *)
From Coq Require Import ZArith List.
From Verif Require Import CInt TimeModel.
Import ListNotations.
Open Scope Z_scope.

Definition sum_list (ds : list Z) : Z := fold_right Z.add 0 ds.

(** Values never decrease along the list. *)
Fixpoint nondecreasing (xs : list Z) : Prop :=
  match xs with
  | [] => True
  | x :: rest => match rest with
                 | [] => True
                 | y :: _ => x <= y /\ nondecreasing rest
                 end
  end.

(** What one copy/move of [src] into [dst] does to variable [v], given all values before. *)
Definition copied (dst src v : nat) (before : nat -> Z) : Z :=
  if Nat.eqb v dst then before src else before v.
Definition moved (dst src v : nat) (before : nat -> Z) : Z :=
  if Nat.eqb v src then 0 else if Nat.eqb v dst then before src else before v.

(** By how much a sequence of signed steps should move a value confined to [lo, hi]: each step lands on the exact sum, or
    on the nearest bound. *)
Fixpoint confined_walk (lo hi x : Z) (steps : list Z) : list Z :=
  match steps with
  | [] => [x]
  | s :: rest => x :: confined_walk lo hi (Z.max lo (Z.min hi (x + s))) rest
  end.

Definition end_of (xs : list Z) : Z := last xs 0.

(** The signed distance a step asks for, its operand, and whether it asks to go down (or, for a subtraction, not up). *)
Definition step_of (o : dop) : Z := match o with DAdd d => d | DSub d => - d end.
Definition operand_of (o : dop) : Z := match o with DAdd d => d | DSub d => d end.
Definition lowers (o : dop) : Prop := match o with DAdd d => d < 0 | DSub d => 0 <= d end.

Definition is_move (c : xfer) : Prop := match c with MoveTo _ _ => True | _ => False end.

(** When a step of a [w]-bit time that stands at [t] comes out right: the duration is not negative, or is the most
    negative one, or the exact result is at or beyond the bound it goes towards. *)
Definition right_step (w t : Z) (o : dop) : Prop :=
  0 <= operand_of o \/ operand_of o = smin w \/
  match o with DAdd d => t + d <= 0 | DSub d => umax w <= t - d end.
