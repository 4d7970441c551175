(** Model of libuavcan/include/libuavcan/media/can.hpp.
    A frame type is given by its template parameters: [mtu] (MTUBytesParam, at most 64 by static_assert, lines 147-148)
    and [fm] (FlagBitsCompareMask, 8 bits). Identifiers, codes, bytes and timestamps are [Z] values in the range of
    their C++ types. *)
From Coq Require Import ZArith Bool List.
From Verif Require Import Outcome.
Import ListNotations.
Open Scope Z_scope.

(** can.hpp line 27. *)
Definition TailByteSizeBytes : Z := 1.
(** can.hpp line 30. *)
Definition TransferCrcSizeBytes : Z := 2.

(** can.hpp line 41. *)
Definition FD_MaxFrameSizeBytes : nat := 64.
(** can.hpp lines 47-50. *)
Definition FD_PayloadLengthToFrameLength : list Z :=
  [0;  1;  2;  3;  4;  5;  6;  7;  11; 11; 11; 11; 15; 15; 15; 15; 19; 19; 19; 19; 23; 23;
   23; 23; 31; 31; 31; 31; 31; 31; 31; 31; 47; 47; 47; 47; 47; 47; 47; 47; 47; 47; 47; 47;
   47; 47; 47; 47; 63; 63; 63; 63; 63; 63; 63; 63; 63; 63; 63; 63; 63; 63; 63; 63].

(** can.hpp line 63. *)
Definition C2_MaxFrameSizeBytes : nat := 8.
(** can.hpp line 69. *)
Definition C2_PayloadLengthToFrameLength : list Z := [0; 1; 2; 3; 4; 5; 6; 7].

(** can.hpp line 153. *)
Definition MaskExtID : Z := 0x1FFFFFFF.

(** can.hpp lines 158-159; the shift is in uint32_t, so bits shifted beyond bit 31 are lost. *)
Definition MaskIdWithFlags (fm : Z) : Z := Z.lor MaskExtID (Z.shiftl fm 29 mod 2 ^ 32).

(** can.hpp lines 181-185. *)
Definition length_to_dlc_lookup : list Z :=
  [0; 1; 2; 3; 4; 5; 6; 7; 8; 9; 9; 9; 9;
   10; 10; 10; 10; 11; 11; 11; 11; 12; 12; 12; 12; 13;
   13; 13; 13; 13; 13; 13; 13; 14; 14; 14; 14; 14; 14;
   14; 14; 14; 14; 14; 14; 14; 14; 14; 14; 15; 15; 15;
   15; 15; 15; 15; 15; 15; 15; 15; 15; 15; 15; 15; 15].

(** can.hpp line 218. *)
Definition dlc_to_length_lookup : list Z := [0; 1; 2; 3; 4; 5; 6; 7; 8; 12; 16; 20; 24; 32; 48; 64].

(** can.hpp lines 175-203. Array reads are in bounds because mtu <= 64 (static_assert): see [lengthToDlc_in_bounds]. *)
Definition lengthToDlc (mtu : nat) (length : Z) : Z :=
  if Z.of_nat mtu <? length
  then nth mtu length_to_dlc_lookup 0
  else nth (Z.to_nat length) length_to_dlc_lookup 0.

(** can.hpp lines 212-232. *)
Definition dlcToLength (dlc : Z) : Z :=
  if dlc <? 16 then nth (Z.to_nat dlc) dlc_to_length_lookup 0 else 0.

(** can.hpp lines 247, 253, 291, 298: the data members. *)
Record frame : Type := Frame {
  fid : Z;
  fdata : list Z;
  fdlc : Z;
  fts : Z
}.

(** std::copy of [n] bytes from an array holding the bytes [src] to the start of an array holding [dst]; undefined when
    either array is too short. Used at can.hpp lines 320, 346 and 451. *)
Definition copy_into (n : nat) (src dst : list Z) : outcome (list Z) :=
  if (n <=? length src)%nat && (n <=? length dst)%nat
  then Ret (firstn n src ++ skipn n dst)
  else UB.

(** can.hpp lines 300-305. *)
Definition frame_default (mtu : nat) : frame := Frame 0 (repeat 0 mtu) 0 0.

(** can.hpp lines 312-322. The test [nullptr != rhs.data] is always true for an array member. *)
Definition frame_copy (mtu : nat) (rhs : frame) : outcome frame :=
  let* d := copy_into mtu (fdata rhs) (repeat 0 mtu) in
  Ret (Frame (fid rhs) d (fdlc rhs) (fts rhs)).

(** can.hpp lines 333-348. [can_data] is [None] for a null pointer, else the bytes readable through it. *)
Definition frame_make (mtu : nat) (can_id : Z) (can_data : option (list Z)) (in_dlc ts : Z) : outcome frame :=
  match can_data with
  | None => Ret (Frame can_id (repeat 0 mtu) 0 ts)
  | Some bytes =>
      let* d := copy_into (Z.to_nat (dlcToLength in_dlc)) bytes (repeat 0 mtu) in
      Ret (Frame can_id d in_dlc ts)
  end.

(** can.hpp lines 357-359. *)
Definition frame_make_no_ts (mtu : nat) (can_id : Z) (can_data : option (list Z)) (in_dlc : Z) : outcome frame :=
  frame_make mtu can_id can_data in_dlc 0.

(** can.hpp lines 366-369. *)
Definition getDLC (f : frame) : Z := fdlc f.
(** can.hpp lines 379-382. *)
Definition setDataLength (mtu : nat) (f : frame) (data_length : Z) : frame :=
  Frame (fid f) (fdata f) (lengthToDlc mtu data_length) (fts f).
(** can.hpp lines 389-392. *)
Definition getDataLength (f : frame) : Z := dlcToLength (fdlc f).

(** std::equal over [n] bytes: compares from the front, stops at the first difference; reading past the end of either
    array is undefined. Used at can.hpp line 415. *)
Fixpoint equal_range (n : nat) (a b : list Z) : outcome bool :=
  match n with
  | O => Ret true
  | S k =>
      match a, b with
      | x :: a', y :: b' => if x =? y then equal_range k a' b' else Ret false
      | _, _ => UB
      end
  end.

(** can.hpp lines 412-416, with the short-circuiting of &&. *)
Definition frame_eq (fm : Z) (a b : frame) : outcome bool :=
  if (Z.land (fid a) (MaskIdWithFlags fm) =? Z.land (fid b) (MaskIdWithFlags fm)) && (fdlc a =? fdlc b)
  then equal_range (Z.to_nat (dlcToLength (fdlc a))) (fdata a) (fdata b)
  else Ret false.

(** can.hpp lines 401-404. *)
Definition frame_ne (fm : Z) (a b : frame) : outcome bool :=
  let* e := frame_eq fm a b in Ret (negb e).

(** can.hpp lines 468-474. *)
Definition priorityHigherThan (a b : frame) : bool := Z.land (fid a) MaskExtID <? Z.land (fid b) MaskExtID.
(** can.hpp lines 483-486. *)
Definition priorityLowerThan (a b : frame) : bool := priorityHigherThan b a.
(** can.hpp lines 423-426. *)
Definition frame_lt (a b : frame) : bool := priorityLowerThan a b.
(** can.hpp lines 433-436. *)
Definition frame_gt (a b : frame) : bool := priorityHigherThan a b.

(** can.hpp lines 444-454, assignment from a different frame. *)
Definition frame_assign (mtu : nat) (self rhs : frame) : outcome frame :=
  let* d := copy_into mtu (fdata rhs) (fdata self) in
  Ret (Frame (fid rhs) d (fdlc rhs) (fts rhs)).

(** can.hpp lines 444-454, [f = f]: std::copy requires that the destination does not lie in the source range
    ([alg.copy]), which it does unless the range is empty. *)
Definition frame_self_assign (mtu : nat) (self : frame) : outcome frame :=
  if (mtu =? 0)%nat then Ret self else UB.

(** can.hpp lines 258-288. *)
Record filter : Type := Filter { flt_id : Z; flt_mask : Z }.
(** can.hpp lines 269-272. *)
Definition filter_default : filter := Filter 0 0.
(** can.hpp lines 279-282. *)
Definition filter_copy (rhs : filter) : filter := Filter (flt_id rhs) (flt_mask rhs).
(** can.hpp lines 284-287. *)
Definition filter_eq (a b : filter) : bool := (flt_id b =? flt_id a) && (flt_mask b =? flt_mask a).

(** ** Programs over a collection of frames
    [id], [data] and [timestamp] are public members and may be written directly. The members of can.hpp lines 300-454. *)
Inductive frame_op : Type :=
| OpDefault
| OpCopy (src : nat)
| OpMake (id : Z) (data : option (list Z)) (dlc ts : Z)
| OpAssign (dst src : nat)
| OpSetLength (i : nat) (n : Z)
| OpSetId (i : nat) (id : Z)
| OpSetByte (i k : nat) (v : Z)
| OpSetTime (i : nat) (ts : Z)
| OpCompare (fm : Z) (i j : nat).

(** Storing into one of several frames (can.hpp lines 444-454). *)
Fixpoint replace_nth {A : Type} (i : nat) (v : A) (l : list A) : list A :=
  match l, i with
  | [], _ => []
  | _ :: t, O => v :: t
  | h :: t, S k => h :: replace_nth k v t
  end.

(** One of several frames of can.hpp lines 144-303. *)
Definition get (fs : list frame) (i : nat) : outcome frame :=
  match nth_error fs i with Some f => Ret f | None => UB end.

(** One use of the members of can.hpp lines 300-454. *)
Definition frame_step (mtu : nat) (fs : list frame) (op : frame_op) : outcome (list frame) :=
  match op with
  | OpDefault => Ret (fs ++ [frame_default mtu])
  | OpCopy s => let* f := get fs s in let* g := frame_copy mtu f in Ret (fs ++ [g])
  | OpMake id d dlc ts => let* g := frame_make mtu id d dlc ts in Ret (fs ++ [g])
  | OpAssign d s =>
      let* self := get fs d in
      let* rhs := get fs s in
      let* g := (if (d =? s)%nat then frame_self_assign mtu self else frame_assign mtu self rhs) in
      Ret (replace_nth d g fs)
  | OpSetLength i n => let* f := get fs i in Ret (replace_nth i (setDataLength mtu f n) fs)
  | OpSetId i v => let* f := get fs i in Ret (replace_nth i (Frame v (fdata f) (fdlc f) (fts f)) fs)
  | OpSetByte i k v =>
      let* f := get fs i in
      if (k <? length (fdata f))%nat
      then Ret (replace_nth i (Frame (fid f) (replace_nth k v (fdata f)) (fdlc f) (fts f)) fs)
      else UB
  | OpSetTime i t => let* f := get fs i in Ret (replace_nth i (Frame (fid f) (fdata f) (fdlc f) t) fs)
  | OpCompare fm i j =>
      let* f := get fs i in let* g := get fs j in let* _ := frame_eq fm f g in Ret fs
  end.

(** Any uses of the members of can.hpp lines 300-454. *)
Fixpoint frame_run (mtu : nat) (fs : list frame) (ops : list frame_op) : outcome (list frame) :=
  match ops with
  | [] => Ret fs
  | op :: rest => let* fs' := frame_step mtu fs op in frame_run mtu fs' rest
  end.
