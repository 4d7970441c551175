(** Specification vocabulary: what the documentation of the bit copies can mean. *)
From Coq Require Import ZArith Bool List.
From Verif Require Import Outcome CopySuiteModel.
Import ListNotations.
Open Scope Z_scope.

(** Bits of a byte may be counted from the least or from the most significant one. *)
Inductive order : Type := LeastFirst | MostFirst.
Definition bit_in (o : order) (a : list Z) (k : Z) : bool :=
  Z.testbit (nth (Z.to_nat (k / 8)) a 0) (match o with LeastFirst => k mod 8 | MostFirst => 7 - k mod 8 end).

(** "The total length of bits to copy" may be their number, or where in the arrays they end. *)
Inductive reading : Type := Number | Until.
Definition count (rd : reading) (offset length_bits : Z) : Z := match rd with Number => length_bits | Until => length_bits - offset end.

(** Bits are taken from, or put at, the start of the aligned array or the start of the byte that has the offset. *)
Inductive place : Type := ArrayStart | ByteStart.
Definition aligned_at (p : place) (offset : Z) : Z := match p with ArrayStart => 0 | ByteStart => 8 * (offset / 8) end.

Definition bytes (a : list Z) : Prop := Forall (fun b => 0 <= b < 256) a.

(** Arguments for which there is something to copy, within arrays of [n] bytes. *)
Definition within (rd : reading) (n : nat) (offset length_bits : Z) : Prop :=
  0 <= offset /\ 0 < count rd offset length_bits /\ offset + count rd offset length_bits <= 8 * Z.of_nat n.

(** The copies move the bits they are asked to move. Nothing is said of other bits or of what they return. *)
Definition moves_to_aligned (o : order) (rd : reading) (p : place) (f : from_unaligned) : Prop :=
  forall s d off len, bytes s -> bytes d -> length s = length d -> within rd (length s) off len ->
  exists d' r, f (Some s) off (Some d) len = Ret (Some d', r) /\
    forall i, 0 <= i < count rd off len -> bit_in o d' (aligned_at p off + i) = bit_in o s (off + i).
Definition moves_from_aligned (o : order) (rd : reading) (p : place) (f : to_unaligned) : Prop :=
  forall s d off len, bytes s -> bytes d -> length s = length d -> within rd (length s) off len ->
  exists d' r, f (Some s) (Some d) off len = Ret (Some d', r) /\
    forall i, 0 <= i < count rd off len -> bit_in o d' (off + i) = bit_in o s (aligned_at p off + i).

(** The copies return "the number of bits copied". Nothing is said of the bits. *)
Definition counts_to_aligned (rd : reading) (f : from_unaligned) : Prop :=
  forall s d off len, bytes s -> bytes d -> length s = length d -> within rd (length s) off len ->
  exists d', f (Some s) off (Some d) len = Ret (d', count rd off len).

(** A copy is not told the sizes of the arrays: if a call goes well, so it does with larger arrays, with the same result. *)
Definition sizes_unknown_to_aligned (f : from_unaligned) : Prop := forall s d s2 d2 off len d' r,
  bytes s -> bytes d -> bytes s2 -> bytes d2 ->
  f (Some s) off (Some d) len = Ret (Some d', r) -> f (Some (s ++ s2)) off (Some (d ++ d2)) len = Ret (Some (d' ++ d2), r).
Definition sizes_unknown_from_aligned (f : to_unaligned) : Prop := forall s d s2 d2 off len d' r,
  bytes s -> bytes d -> bytes s2 -> bytes d2 ->
  f (Some s) (Some d) off len = Ret (Some d', r) -> f (Some (s ++ s2)) (Some (d ++ d2)) off len = Ret (Some (d' ++ d2), r).

(** A right copy, to show that there are such: the destination byte by byte, from its bits. *)
Fixpoint byte_of (bits : list bool) : Z := match bits with [] => 0 | b :: l => 2 * byte_of l + Z.b2z b end.
Definition array_of (o : order) (f : Z -> bool) (n : nat) : list Z :=
  map (fun j => byte_of (map (fun b => f (8 * Z.of_nat j + match o with LeastFirst => b | MostFirst => 7 - b end)) [0; 1; 2; 3; 4; 5; 6; 7])) (seq 0 n).
Definition right_copy (o : order) (s d : list Z) (from to number : Z) : outcome (option (list Z) * Z) :=
  if (0 <=? from) && (0 <=? to) && (from + number <=? 8 * Z.of_nat (length s)) && (to + number <=? 8 * Z.of_nat (length d))
  then Ret (Some (array_of o (fun k => if (to <=? k) && (k <? to + number) then bit_in o s (from + (k - to)) else bit_in o d k) (length d)), number)
  else UB.
Definition right_to_aligned (o : order) (rd : reading) (p : place) : from_unaligned := fun s off d len =>
  match s, d with
  | Some a, Some b => if count rd off len <=? 0 then Ret (d, 0) else right_copy o a b off (aligned_at p off) (count rd off len)
  | _, _ => Ret (d, 0)
  end.
Definition right_from_aligned (o : order) (rd : reading) (p : place) : to_unaligned := fun s d off len =>
  match s, d with
  | Some a, Some b => if count rd off len <=? 0 then Ret (d, 0) else right_copy o a b (aligned_at p off) off (count rd off len)
  | _, _ => Ret (d, 0)
  end.

(** The calls of the suite that have something to copy: source, offset, destination, length. *)
Definition hello_shifted : list Z := [0x90; 0xCA; 0xD8; 0xD8; 0xDE; 0x40; 0xEE; 0xDE; 0xE4; 0xD8; 0xC8; 0x00].
Definition calls_to_aligned : list (list Z * Z * list Z * Z) :=
  [ ([0x55], 0, [0xFF], 8); ([0x55], 1, [0xFF], 7); ([0x55], 1, [0x00], 7); ([0xFF], 6, [0x80], 2); ([0x55; 0x55], 0, [0xFF; 0xFF], 16);
    ([0x55; 0x55], 1, [0xFF; 0xFF], 16); ([0x55; 0x55], 1, [0; 0], 16); (hello_shifted, 1, repeat 0 12, 96);
    ([0x55; 0x55], 9, [0xFF; 0xFF], 16); ([0x55; 0x55], 9, [0; 0], 16) ].
Definition calls_from_aligned : list (list Z * Z * list Z * Z) :=
  [ ([0x55], 0, [0x55], 8); ([0x55], 1, [0xFF], 8); ([0x55], 1, [0x00], 8); ([0xFF], 6, [0x01], 2); ([0x55; 0x55], 0, [0xFF; 0xFF], 16);
    ([0xAA; 0xAA], 1, [0xFF; 0xFF], 16); ([0xAA; 0xAA], 1, [0; 0], 16); ([0x55; 0x55], 9, [0xFF; 0xFF], 16); ([0x55; 0x55], 9, [0; 0], 16) ].
