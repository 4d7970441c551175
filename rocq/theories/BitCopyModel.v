(** Model of the bit copies of libuavcan/include/libuavcan/platform/memory.hpp, lines 307-399.
    Arrays are lists of bytes; a pointer argument is [None] when null and otherwise the array it points to. [sw] is the
    width of size_t, whose arithmetic wraps. Source and destination are distinct arrays (the in-place use, where both
    pointers are the same, is modelled separately in BitCopyInPlace.v). *)
From Coq Require Import ZArith Bool List.
From Verif Require Import Outcome CanFrameModel.
Import ListNotations.
Open Scope Z_scope.

(** Array accesses: out of bounds is undefined. As at memory.hpp lines 337, 342, 383 and 388. *)
Definition rd (a : list Z) (i : Z) : outcome Z :=
  if (0 <=? i) && (i <? Z.of_nat (length a)) then Ret (nth (Z.to_nat i) a 0) else UB.
(** As at memory.hpp lines 336-342 and 382-388. *)
Definition wr (a : list Z) (i v : Z) : outcome (list Z) :=
  if (0 <=? i) && (i <? Z.of_nat (length a)) then Ret (replace_nth (Z.to_nat i) v a) else UB.

(** static_cast<std::uint8_t>. As at memory.hpp lines 336-342 and 382-388. *)
Definition u8 (x : Z) : Z := x mod 256.
(** size_t arithmetic. memory.hpp lines 328-343 and 375-389. *)
Definition szt (sw x : Z) : Z := x mod 2 ^ sw.

(** memory.hpp lines 331-350: the loop of copyBitsUnalignedToAligned. [lo] is local_offset. The loop variable is bounded
    by [fuel] to make the function total; running out is mapped to [UB] and the callers pass one unit per source byte
    plus one, so it cannot occur before an out-of-bounds access does (BitCopyProofs.v shows every call whose accesses
    are in bounds returns). *)
Fixpoint u2a_loop (fuel : nat) (sw : Z) (src : list Z) (lo len : Z) (dst : list Z) (offset_bits bits_copied : Z)
  : outcome (list Z * Z) :=
  match fuel with
  | O => UB
  | S fuel' =>
      let current_byte := offset_bits / 8 in
      let bits_from_src_byte := 8 - lo in
      let bits_copied := szt sw (bits_copied + Z.min len bits_from_src_byte) in
      let* d := rd dst current_byte in
      let* dst := wr dst current_byte (Z.land d (u8 (Z.shiftl 0xFF bits_from_src_byte))) in
      let* s := rd src current_byte in
      let* d := rd dst current_byte in
      let* dst := wr dst current_byte (Z.lor d (u8 (Z.shiftr s lo))) in
      let offset_bits := szt sw (offset_bits + 8) in
      if offset_bits <? len
      then
        let current_byte := offset_bits / 8 in
        let* s := rd src current_byte in
        let* dst := wr dst current_byte (u8 (Z.shiftl s bits_from_src_byte)) in
        u2a_loop fuel' sw src lo len dst offset_bits (szt sw (bits_copied + lo))
      else Ret (dst, bits_copied)
  end.

(** memory.hpp lines 319-352. The result pairs the destination array afterwards with the return value. *)
Definition copyBitsUnalignedToAligned (sw : Z) (src : option (list Z)) (src_offset_bits : Z)
    (dst : option (list Z)) (length_bits : Z) : outcome (option (list Z) * Z) :=
  match src, dst with
  | Some s, Some d =>
      if length_bits =? 0 then Ret (dst, 0)
      else let* r := u2a_loop (S (length s)) sw s (src_offset_bits mod 8) length_bits d src_offset_bits 0 in
           Ret (Some (fst r), snd r)
  | _, _ => Ret (dst, 0)
  end.

(** memory.hpp lines 378-396: the loop of copyBitsAlignedToUnaligned. *)
Fixpoint a2u_loop (fuel : nat) (sw : Z) (src : list Z) (lo len : Z) (dst : list Z) (offset_bits bits_copied : Z)
  : outcome (list Z * Z) :=
  match fuel with
  | O => UB
  | S fuel' =>
      let current_byte := offset_bits / 8 in
      let bits_from_src_byte := 8 - lo in
      let* d := rd dst current_byte in
      let* dst := wr dst current_byte (Z.land d (u8 (Z.shiftr 0xFF bits_from_src_byte))) in
      let* s := rd src current_byte in
      let* d := rd dst current_byte in
      let* dst := wr dst current_byte (Z.lor d (u8 (Z.shiftl s lo))) in
      let offset_bits := szt sw (offset_bits + 8) in
      let bits_copied := szt sw (bits_copied + Z.min len bits_from_src_byte) in
      if offset_bits <? len
      then
        let* s := rd src (offset_bits / 8) in
        let* d := rd dst current_byte in
        let* dst := wr dst current_byte (Z.lor d (u8 (Z.shiftr s bits_from_src_byte))) in
        a2u_loop fuel' sw src lo len dst offset_bits (szt sw (bits_copied + lo))
      else Ret (dst, bits_copied)
  end.

(** memory.hpp lines 366-399. *)
Definition copyBitsAlignedToUnaligned (sw : Z) (src dst : option (list Z)) (dst_offset_bits : Z)
    (length_bits : Z) : outcome (option (list Z) * Z) :=
  match src, dst with
  | Some s, Some d =>
      if length_bits =? 0 then Ret (dst, 0)
      else let* r := a2u_loop (S (length s)) sw s (dst_offset_bits mod 8) length_bits d dst_offset_bits 0 in
           Ret (Some (fst r), snd r)
  | _, _ => Ret (dst, 0)
  end.
