(** Model of libuavcan/include/libuavcan/util/math.hpp. Types are represented by their width [w]; [P] is the platform. *)
From Coq Require Import ZArith Bool.
From Verif Require Import Outcome CInt.
Open Scope Z_scope.

(** math.hpp lines 35-43, [_saturating_add_d]. *)
Definition saturating_add_d (P : platform) (w left right : Z) : outcome Z :=
  let* full :=
    (if 0 <=? left
     then let* room := sarith P w (smax w - left) in Ret (room <? right)
     else Ret false) in
  if full then Ret (smax w)
  else let* s := sarith P w (left + right) in Ret (scast w s).

(** math.hpp lines 51-59, [_saturating_sub_d]. *)
Definition saturating_sub_d (P : platform) (w left right : Z) : outcome Z :=
  let* full :=
    (if left <=? 0
     then let* d := sarith P w (smin w - left) in
          let* a := cabs P w d in
          Ret (a <=? right)
     else Ret false) in
  if full then Ret (smin w)
  else let* s := sarith P w (left - right) in Ret (scast w s).

(** math.hpp lines 73-104, signed [saturating_add]. *)
Definition saturating_add_s (P : platform) (w left right : Z) : outcome Z :=
  if 0 <=? right then saturating_add_d P w left right
  else if right =? smin w then
    let* result := saturating_sub_d P w left (smax w) in
    if smin w <? result
    then let* r := sarith P w (result - 1) in Ret (scast w r)
    else Ret result
  else
    let* n := sarith P w (- right) in
    saturating_sub_d P w left (scast w n).

(** math.hpp lines 118-147, signed [saturating_sub]. *)
Definition saturating_sub_s (P : platform) (w left right : Z) : outcome Z :=
  if 0 <=? right then saturating_sub_d P w left right
  else if right =? smin w then
    let* result := saturating_add_d P w left (smax w) in
    if result <? smax w
    then let* r := sarith P w (result + 1) in Ret (scast w r)
    else Ret result
  else
    let* n := sarith P w (- right) in
    saturating_add_d P w left (scast w n).

(** math.hpp lines 161-173, unsigned [saturating_add]. *)
Definition saturating_add_u (P : platform) (w left right : Z) : outcome Z :=
  let* room := uarith P w (umax w - left) in
  if ucast w room <? right then Ret (umax w)
  else let* s := uarith P w (left + right) in Ret (ucast w s).

(** math.hpp lines 187-193, unsigned [saturating_sub]. *)
Definition saturating_sub_u (P : platform) (w left right : Z) : outcome Z :=
  if left <? right then Ret 0
  else let* s := uarith P w (left - right) in Ret (ucast w s).

(** math.hpp lines 210-219, [saturating_sub] with unsigned left operand (width [w]) and signed right operand. The
    width of the right operand's type does not enter: it is only compared with 0 and cast to the left type. *)
Definition saturating_sub_us (P : platform) (w left right : Z) : outcome Z :=
  if 0 <=? right then saturating_sub_u P w left (ucast w right)
  else saturating_add_u P w left (ucast w right).

(** math.hpp lines 236-245, [saturating_add] with unsigned left and signed right operand. *)
Definition saturating_add_us (P : platform) (w left right : Z) : outcome Z :=
  if 0 <=? right then saturating_add_u P w left (ucast w right)
  else saturating_sub_u P w left (ucast w right).

(** Conversion to bool: every value but 0 becomes true. Unlike other unsigned types it is not modular.
    The static_cast of math.hpp lines 170-172 and 192 for bool. *)
Definition bcast (x : Z) : Z := if x =? 0 then 0 else 1.

(** math.hpp lines 161-173 and 187-193 for UnsignedType = bool, whose operands are promoted to int. *)
Definition saturating_add_b (P : platform) (left right : Z) : outcome Z :=
  let* room := sarith P 1 (1 - left) in
  if bcast room <? right then Ret 1
  else let* s := sarith P 1 (left + right) in Ret (bcast s).
(** math.hpp lines 187-193 for bool. *)
Definition saturating_sub_b (P : platform) (left right : Z) : outcome Z :=
  if left <? right then Ret 0
  else let* s := sarith P 1 (left - right) in Ret (bcast s).
