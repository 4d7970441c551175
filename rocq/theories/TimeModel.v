(** Model of libuavcan/include/libuavcan/time.hpp. A duration or time object is its only member, the microsecond count
    [usec_] (time.hpp lines 59 and 239): a signed (duration) or unsigned (time) integer of width [w]. The library's
    [duration::Monotonic] / [time::Monotonic] use 64 bits (DefaultMicrosecondSignedType / -UnsignedType). *)
From Coq Require Import ZArith Bool List.
From Verif Require Import Outcome CInt SatMathModel.
Import ListNotations.
Open Scope Z_scope.

(** time.hpp lines 103-106 and 111-116: duration getMaximum. *)
Definition dur_max (w : Z) : Z := smax w.
(** time.hpp lines 286-289 and 294-299: time getMaximum. *)
Definition time_max (w : Z) : Z := umax w.

(** time.hpp lines 129-132, duration getAbs: std::abs, then conversion of the result to the microsecond type. *)
Definition dur_abs (P : platform) (w d : Z) : outcome Z :=
  let* a := cabs P w d in Ret (scast w a).

(** time.hpp lines 147-150 (duration) and 322-325 (time): operator==. *)
Definition op_eq (a b : Z) : bool := a =? b.
(** time.hpp lines 152-155 and 327-330: operator!=. *)
Definition op_ne (a b : Z) : bool := negb (op_eq a b).
(** time.hpp lines 157-160 and 332-335: operator<. *)
Definition op_lt (a b : Z) : bool := a <? b.
(** time.hpp lines 162-165 and 337-340: operator>. *)
Definition op_gt (a b : Z) : bool := b <? a.
(** time.hpp lines 167-170 and 342-345: operator<=. *)
Definition op_le (a b : Z) : bool := a <=? b.
(** time.hpp lines 172-175 and 347-350: operator>=. *)
Definition op_ge (a b : Z) : bool := b <=? a.

(** time.hpp lines 177-180: duration binary +. *)
Definition dur_add (P : platform) (w a b : Z) : outcome Z := saturating_add_s P w a b.
(** time.hpp lines 182-185: duration binary -. *)
Definition dur_sub (P : platform) (w a b : Z) : outcome Z := saturating_sub_s P w a b.

(** time.hpp lines 187-197: duration unary minus. *)
Definition dur_neg (P : platform) (w a : Z) : outcome Z :=
  if a =? smin w then Ret (smax w)
  else let* n := sarith P w (- a) in Ret (scast w n).

(** time.hpp lines 352-355: time + duration. *)
Definition time_add (P : platform) (w t d : Z) : outcome Z := saturating_add_us P w t d.
(** time.hpp lines 357-360: time - duration. *)
Definition time_sub (P : platform) (w t d : Z) : outcome Z := saturating_sub_us P w t d.

(** time.hpp lines 199-203 / 205-209 / 362-366 / 368-372: compound assignment stores the sum/difference in the object. A
    history of [x += d] is the fold of the binary operator; the list of values the object takes is returned too. *)
Fixpoint accumulate (op : Z -> Z -> outcome Z) (x : Z) (ds : list Z) : outcome (list Z) :=
  match ds with
  | [] => Ret [x]
  | d :: rest =>
      let* y := op x d in
      let* tail := accumulate op y rest in
      Ret (x :: tail)
  end.

(** ** Copies and moves among variables (time.hpp lines 75-87, 134-145, 258-270, 309-320).
    A store maps variable names to their [usec_]. Constructing a variable from another has the effect of assigning to a
    fresh variable. *)
Inductive xfer : Type :=
| CopyTo (dst src : nat)
| MoveTo (dst src : nat).

(** The usec_ members (time.hpp lines 59 and 239) of the variables of a program. *)
Definition store := nat -> Z.
(** An assignment to usec_ (time.hpp lines 136-137, 143, 311-312, 318). *)
Definition upd (st : store) (x : nat) (v : Z) : store := fun y => if Nat.eqb y x then v else st y.

(** The C++ statement sequences, in order: copy is [usec_ = rhs.usec_]; move is [usec_ = rhs.usec_; rhs.usec_ = 0].
    time.hpp lines 75-87, 134-145, 258-270, 309-320. *)
Definition exec_xfer (st : store) (c : xfer) : store :=
  match c with
  | CopyTo dst src => upd st dst (st src)
  | MoveTo dst src =>
      let st1 := upd st dst (st src) in
      upd st1 src 0
  end.

(** A sequence of such statements (time.hpp lines 75-87, 134-145, 258-270, 309-320). *)
Definition exec_xfers (st : store) (cs : list xfer) : store := fold_left exec_xfer cs st.

(** A history of [+=] and [-=] on one duration object with arbitrary (signed) operands: time.hpp lines 199-209. The list
    of values the object takes is returned. *)
Inductive dop : Type :=
| DAdd (d : Z)
| DSub (d : Z).

(** time.hpp lines 199-203 and 205-209. *)
Definition exec_dop (P : platform) (w x : Z) (o : dop) : outcome Z :=
  match o with
  | DAdd d => dur_add P w x d
  | DSub d => dur_sub P w x d
  end.

(** Any sequence of time.hpp lines 199-209. *)
Fixpoint run_dops (P : platform) (w x : Z) (ops : list dop) : outcome (list Z) :=
  match ops with
  | [] => Ret [x]
  | o :: rest =>
      let* y := exec_dop P w x o in
      let* tail := run_dops P w y rest in
      Ret (x :: tail)
  end.

(** The same for a time object: time.hpp lines 362-372. *)
Definition exec_top (P : platform) (w x : Z) (o : dop) : outcome Z :=
  match o with
  | DAdd d => time_add P w x d
  | DSub d => time_sub P w x d
  end.

(** Any sequence of time.hpp lines 362-372. *)
Fixpoint run_tops (P : platform) (w x : Z) (ops : list dop) : outcome (list Z) :=
  match ops with
  | [] => Ret [x]
  | o :: rest =>
      let* y := exec_top P w x o in
      let* tail := run_tops P w y rest in
      Ret (x :: tail)
  end.
