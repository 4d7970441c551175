(** Specification of saturation: the exact mathematical result, limited to the range of the type. *)
From Coq Require Import ZArith.
From Verif Require Import CInt.
Open Scope Z_scope.

(** [x] limited to [lo, hi]. *)
Definition clamp (lo hi x : Z) : Z :=
  if x <? lo then lo else if hi <? x then hi else x.

Definition sclamp (w x : Z) : Z := clamp (smin w) (smax w) x.
Definition uclamp (w x : Z) : Z := clamp 0 (umax w) x.

(** Two platforms for the examples. *)
(** x86-64 Linux, as the C++ standard describes it. *)
Definition lp64 : platform := Platform 32 (fun _ => None).
(** The same with the usual two's complement machine code for abs. *)
Definition lp64_wrapping : platform := Platform 32 (fun w => Some (smin w)).
