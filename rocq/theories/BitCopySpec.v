(** Vocabulary for stating what a bit copy should and does do. *)
From Coq Require Import ZArith List.
Open Scope Z_scope.

(** Bit [k] of a byte array, least significant bit of each byte first. *)
Definition bit_at (a : list Z) (k : Z) : bool := Z.testbit (nth (Z.to_nat (k / 8)) a 0) (k mod 8).

(** An array of bytes that fits into the address space of a machine with [sw]-bit size_t. *)
Definition byte_array (sw : Z) (a : list Z) : Prop :=
  (forall i, 0 <= nth i a 0 < 256) /\ 8 * Z.of_nat (length a) < 2 ^ sw.

(** Number of bytes the copies visit, starting at byte off/8: one, plus one for every further 8 bits that [off + 8 k]
    stays below [len]. *)
Definition bytes_visited (off len : Z) : Z := Z.max 1 ((len - off + 7) / 8).

(** The intended effect of a bit copy, for a destination range starting at [dbase] and a source range at [sbase]. *)
Definition copies_bits (src dst' : list Z) (sbase dbase count : Z) : Prop :=
  forall i, 0 <= i < count -> bit_at dst' (dbase + i) = bit_at src (sbase + i).
