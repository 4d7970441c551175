(** C31-C41, C80: the bit copies of platform/memory.hpp.
    [sw] is the width of size_t. [bit_at a k] is bit [k] of array [a], least significant bit of each byte first;
    [copies_bits s d' sb db m] says that the [m] bits of [d'] from [db] on equal the [m] bits of [s] from [sb] on. *)
From Coq Require Import ZArith Bool List Lia.
From Verif Require Import Outcome BitCopyModel BitCopySpec BitCopyProofs BitCopyFacts BitCopyInPlace BitCopyInPlaceProofs.
Import ListNotations.
Open Scope Z_scope.

(** C31. *)
Theorem C31_null_or_empty_is_noop : forall sw s d off len,
  s = None \/ d = None \/ len = 0 ->
  copyBitsUnalignedToAligned sw s off d len = Ret (d, 0) /\
  copyBitsAlignedToUnaligned sw s d off len = Ret (d, 0).
Proof. exact copies_none. Qed.
Print Assumptions C31_null_or_empty_is_noop.
Example C31_case : copyBitsUnalignedToAligned 64 None 5 (Some [1; 2]) 16 = Ret (Some [1; 2], 0).
Proof. reflexivity. Qed.

(** C32. Full claim: for every offset and length, each defined call makes the destination bits from the start of the byte
    holding the offset equal to the requested source bits [off, off+m), m being [len] or, in the tests' reading,
    [len - off]. It fails as soon as a bit must cross a byte boundary. *)
Theorem C32_refuted : forall sw, 8 <= sw -> exists off len s d d' r,
  byte_array sw s /\ byte_array sw d /\ 0 <= off < len /\ len <= 8 * Z.of_nat (length s) /\ len <= 8 * Z.of_nat (length d) /\
  copyBitsUnalignedToAligned sw (Some s) off (Some d) len = Ret (Some d', r) /\
  ~ copies_bits s d' off (8 * (off / 8)) (len - off) /\ ~ copies_bits s d' off (8 * (off / 8)) len.
Proof.
  intros sw Hsw. assert (2 ^ 8 <= 2 ^ sw) by (apply Z.pow_le_mono_r; lia). change (2 ^ 8) with 256 in H.
  exists 4, 16, [0; 255], [0; 0].
  assert (B1 : byte_array sw [0; 255]).
  { split; [|simpl length; lia]. intros [|[|[|i]]]; simpl; lia. }
  assert (B2 : byte_array sw [0; 0]).
  { split; [|simpl length; lia]. intros [|[|[|i]]]; simpl; lia. }
  destruct (proj2 (u2a_defined sw [0; 255] [0; 0] 4 16 ltac:(lia) B1 B2 ltac:(lia) ltac:(lia))) as [d' [r E]].
  { simpl length. change (4 / 8 + bytes_visited 4 16) with 2. lia. }
  exists d', r. repeat split; auto; try (simpl length; lia); try apply B1; try apply B2.
  - intros C. specialize (C 4 ltac:(lia)). change (8 * (4 / 8) + 4) with (8 * 0 + 4) in C.
    rewrite (u2a_bits sw [0; 255] [0; 0] 4 16 d' r ltac:(lia) B1 B2 ltac:(lia) ltac:(lia) E) in C by lia. discriminate.
  - intros C. specialize (C 4 ltac:(lia)). change (8 * (4 / 8) + 4) with (8 * 0 + 4) in C.
    rewrite (u2a_bits sw [0; 255] [0; 0] 4 16 d' r ltac:(lia) B1 B2 ltac:(lia) ltac:(lia) E) in C by lia. discriminate.
Qed.
Print Assumptions C32_refuted.

(** C32, exactly: an [m]-bit copy is right for all contents iff it stays in the first byte or the offset is a multiple of
    eight and the [m] bits lie in the visited bytes. *)
Theorem C32_exact_partial : forall sw off len m,
  3 <= sw -> 0 <= off -> 0 < len -> 0 <= m -> off + len + m + 64 < 2 ^ sw ->
  (forall s d d' r, byte_array sw s -> byte_array sw d ->
     copyBitsUnalignedToAligned sw (Some s) off (Some d) len = Ret (Some d', r) ->
     copies_bits s d' off (8 * (off / 8)) m) <->
  (m <= 8 - off mod 8 \/ (off mod 8 = 0 /\ m <= 8 * bytes_visited off len)).
Proof. exact u2a_copies_iff. Qed.
Print Assumptions C32_exact_partial.
Example C32_case : copyBitsUnalignedToAligned 64 (Some [0xA5; 0x3C]) 8 (Some [0; 0]) 16 = Ret (Some [0; 0x3C], 8).
Proof. reflexivity. Qed.

(** C33. *)
Theorem C33_in_byte_bits_correct : forall sw s d off len d' r,
  3 <= sw -> byte_array sw s -> byte_array sw d -> 0 <= off < 2 ^ sw -> 0 < len < 2 ^ sw ->
  copyBitsUnalignedToAligned sw (Some s) off (Some d) len = Ret (Some d', r) ->
  (forall j k, off / 8 <= j < off / 8 + bytes_visited off len -> 0 <= k -> k + off mod 8 < 8 ->
     bit_at d' (8 * j + k) = bit_at s (8 * j + k + off mod 8)) /\
  (forall j k, off / 8 < j < off / 8 + bytes_visited off len -> 0 <= k < 8 ->
     bit_at d' (8 * j + k) = bit_at s (8 * j + (k + off mod 8) mod 8)).
Proof. exact u2a_in_byte. Qed.
Print Assumptions C33_in_byte_bits_correct.
Example C33_case : copyBitsUnalignedToAligned 64 (Some [0x55; 0x55]) 1 (Some [0xFF; 0xFF]) 16 = Ret (Some [0xAA; 0xAA], 15).
Proof. reflexivity. Qed.

(** C34. Full claim: dst bits [off, off+m) equal the source bits from the start of the byte holding the offset. *)
Theorem C34_refuted : forall sw, 8 <= sw -> exists off len s d d' r,
  byte_array sw s /\ byte_array sw d /\ 0 <= off < len /\ len <= 8 * Z.of_nat (length s) /\ len <= 8 * Z.of_nat (length d) /\
  copyBitsAlignedToUnaligned sw (Some s) (Some d) off len = Ret (Some d', r) /\
  ~ copies_bits s d' (8 * (off / 8)) off (len - off) /\ ~ copies_bits s d' (8 * (off / 8)) off len.
Proof.
  intros sw Hsw. assert (2 ^ 8 <= 2 ^ sw) by (apply Z.pow_le_mono_r; lia). change (2 ^ 8) with 256 in H.
  exists 4, 16, [255; 0], [0; 0].
  assert (B1 : byte_array sw [255; 0]).
  { split; [|simpl length; lia]. intros [|[|[|i]]]; simpl; lia. }
  assert (B2 : byte_array sw [0; 0]).
  { split; [|simpl length; lia]. intros [|[|[|i]]]; simpl; lia. }
  destruct (proj2 (a2u_defined sw [255; 0] [0; 0] 4 16 ltac:(lia) B1 B2 ltac:(lia) ltac:(lia))) as [d' [r E]].
  { simpl length. change (4 / 8 + bytes_visited 4 16) with 2. lia. }
  exists d', r. repeat split; auto; try (simpl length; lia); try apply B1; try apply B2.
  - intros C. specialize (C 4 ltac:(lia)). change (4 + 4) with (8 * 1 + 0) in C.
    rewrite (a2u_bits sw [255; 0] [0; 0] 4 16 d' r ltac:(lia) B1 B2 ltac:(lia) ltac:(lia) E) in C by lia. discriminate.
  - intros C. specialize (C 4 ltac:(lia)). change (4 + 4) with (8 * 1 + 0) in C.
    rewrite (a2u_bits sw [255; 0] [0; 0] 4 16 d' r ltac:(lia) B1 B2 ltac:(lia) ltac:(lia) E) in C by lia. discriminate.
Qed.
Print Assumptions C34_refuted.

Theorem C34_exact_partial : forall sw off len m,
  3 <= sw -> 0 <= off -> 0 < len -> 0 <= m -> off + len + m + 64 < 2 ^ sw ->
  (forall s d d' r, byte_array sw s -> byte_array sw d ->
     copyBitsAlignedToUnaligned sw (Some s) (Some d) off len = Ret (Some d', r) ->
     copies_bits s d' (8 * (off / 8)) off m) <->
  (m <= 8 - off mod 8 \/ (off mod 8 = 0 /\ m <= 8 * bytes_visited off len)).
Proof. exact a2u_copies_iff. Qed.
Print Assumptions C34_exact_partial.
Example C34_case : copyBitsAlignedToUnaligned 64 (Some [0x55]) (Some [0xFF]) 1 8 = Ret (Some [0xAB], 7).
Proof. reflexivity. Qed.

(** C35: the bits at and above the sub-byte offset are the source bits of the same byte, moved up; the bits below it
    keep their value except that the high bits of the next source byte are merged in. *)
Theorem C35_in_byte_bits_correct : forall sw s d off len d' r,
  3 <= sw -> byte_array sw s -> byte_array sw d -> 0 <= off < 2 ^ sw -> 0 < len < 2 ^ sw ->
  copyBitsAlignedToUnaligned sw (Some s) (Some d) off len = Ret (Some d', r) ->
  forall j k, off / 8 <= j < off / 8 + bytes_visited off len -> 0 <= k < 8 ->
    (off mod 8 <= k -> bit_at d' (8 * j + k) = bit_at s (8 * j + k - off mod 8)) /\
    (k < off mod 8 ->
       bit_at d' (8 * j + k) = true <->
       bit_at d (8 * j + k) = true \/
       (j + 1 < off / 8 + bytes_visited off len /\ bit_at s (8 * (j + 1) + k + 8 - off mod 8) = true)).
Proof. exact a2u_in_byte. Qed.
Print Assumptions C35_in_byte_bits_correct.
Example C35_case : copyBitsAlignedToUnaligned 64 (Some [0xAA; 0xAA]) (Some [0; 0]) 1 16 = Ret (Some [0x55; 0x54], 15).
Proof. reflexivity. Qed.

(** C36. *)
Theorem C36_aligned_unaligned_to_aligned_exact : forall sw s d o l,
  3 <= sw -> byte_array sw s -> byte_array sw d -> 0 <= o < l -> l <= Z.of_nat (length s) -> l <= Z.of_nat (length d) ->
  exists d', copyBitsUnalignedToAligned sw (Some s) (8 * o) (Some d) (8 * l) = Ret (Some d', 8 * l - 8 * o) /\
    length d' = length d /\
    forall i, nth i d' 0 = if (o <=? Z.of_nat i) && (Z.of_nat i <? l) then nth i s 0 else nth i d 0.
Proof. exact u2a_aligned. Qed.
Print Assumptions C36_aligned_unaligned_to_aligned_exact.
Theorem C36_aligned_aligned_to_unaligned_exact : forall sw s d o l,
  3 <= sw -> byte_array sw s -> byte_array sw d -> 0 <= o < l -> l <= Z.of_nat (length s) -> l <= Z.of_nat (length d) ->
  exists d', copyBitsAlignedToUnaligned sw (Some s) (Some d) (8 * o) (8 * l) = Ret (Some d', 8 * l - 8 * o) /\
    length d' = length d /\
    forall i, nth i d' 0 = if (o <=? Z.of_nat i) && (Z.of_nat i <? l) then nth i s 0 else nth i d 0.
Proof. exact a2u_aligned. Qed.
Print Assumptions C36_aligned_aligned_to_unaligned_exact.
Example C36_case : copyBitsAlignedToUnaligned 64 (Some [1; 2; 3; 4]) (Some [9; 9; 9; 9]) 8 24 = Ret (Some [9; 2; 3; 9], 16).
Proof. reflexivity. Qed.

(** C37. Full claim: destination bits outside the requested range keep their value. A one-bit request at offset 0
    overwrites bit 1 in both functions, and a longer aligned-to-unaligned copy changes bits before its offset. *)
Theorem C37_unaligned_to_aligned_refuted : exists s d d' r,
  copyBitsUnalignedToAligned 64 (Some s) 0 (Some d) 1 = Ret (Some d', r) /\ bit_at d' 1 <> bit_at d 1.
Proof. exists [255], [0], [255], 1. split; [reflexivity|discriminate]. Qed.
Print Assumptions C37_unaligned_to_aligned_refuted.
Theorem C37_aligned_to_unaligned_refuted : exists s d d' r,
  copyBitsAlignedToUnaligned 64 (Some s) (Some d) 0 1 = Ret (Some d', r) /\ bit_at d' 1 <> bit_at d 1.
Proof. exists [255], [0], [255], 1. split; [reflexivity|discriminate]. Qed.
Print Assumptions C37_aligned_to_unaligned_refuted.
Theorem C37_before_offset_refuted : exists s d d' r off len k,
  copyBitsAlignedToUnaligned 64 (Some s) (Some d) off len = Ret (Some d', r) /\
  0 <= k < off /\ bit_at d' k <> bit_at d k.
Proof. exists [0; 255], [0; 0], [15; 240], 12, 4, 16, 0. split; [reflexivity|]. split; [lia|discriminate]. Qed.
Print Assumptions C37_before_offset_refuted.
(** What is kept in every call: the bits outside of the visited bytes, the high bits of the first visited byte (unaligned
    to aligned) and the bits below the sub-byte offset in the last visited byte (aligned to unaligned). No other bit is. *)
Theorem C37_unaligned_to_aligned_partial : forall sw off len k,
  3 <= sw -> 0 <= off -> 0 < len -> 0 <= k -> off + len + 64 < 2 ^ sw ->
  (forall s d d' r, byte_array sw s -> byte_array sw d ->
     copyBitsUnalignedToAligned sw (Some s) off (Some d) len = Ret (Some d', r) -> bit_at d' k = bit_at d k) <->
  (k < 8 * (off / 8) \/ 8 * (off / 8 + bytes_visited off len) <= k \/
     8 * (off / 8) + (8 - off mod 8) <= k < 8 * (off / 8 + 1)).
Proof. exact u2a_keeps_iff. Qed.
Print Assumptions C37_unaligned_to_aligned_partial.
Theorem C37_aligned_to_unaligned_partial : forall sw off len k,
  3 <= sw -> 0 <= off -> 0 < len -> 0 <= k -> off + len + 64 < 2 ^ sw ->
  (forall s d d' r, byte_array sw s -> byte_array sw d ->
     copyBitsAlignedToUnaligned sw (Some s) (Some d) off len = Ret (Some d', r) -> bit_at d' k = bit_at d k) <->
  (k < 8 * (off / 8) \/ 8 * (off / 8 + bytes_visited off len) <= k \/
     8 * (off / 8 + bytes_visited off len - 1) <= k < 8 * (off / 8 + bytes_visited off len - 1) + off mod 8).
Proof. exact a2u_keeps_iff. Qed.
Print Assumptions C37_aligned_to_unaligned_partial.
(** Whatever the offset and length, no array changes its size. *)
Theorem C37_sizes_kept : forall sw s d off len d' r,
  3 <= sw -> byte_array sw s -> byte_array sw d -> 0 <= off < 2 ^ sw -> 0 < len < 2 ^ sw ->
  copyBitsUnalignedToAligned sw (Some s) off (Some d) len = Ret (Some d', r) \/
  copyBitsAlignedToUnaligned sw (Some s) (Some d) off len = Ret (Some d', r) -> length d' = length d.
Proof.
  intros sw s d off len d' r Hsw Bs Bd Ho Hl [E|E].
  - exact (proj1 (u2a_keeps sw s d off len d' r Hsw Bs Bd Ho Hl E)).
  - exact (proj1 (a2u_keeps sw s d off len d' r Hsw Bs Bd Ho Hl E)).
Qed.
Print Assumptions C37_sizes_kept.
Example C37_case : copyBitsAlignedToUnaligned 64 (Some [255; 0]) (Some [1; 7]) 6 2 = Ret (Some [0xC1; 7], 2).
Proof. reflexivity. Qed.

(** C38: definedness, frame and read footprint. *)
Theorem C38_unaligned_to_aligned_defined_iff : forall sw s d off len,
  3 <= sw -> byte_array sw s -> byte_array sw d -> 0 <= off < 2 ^ sw -> 0 < len < 2 ^ sw ->
  (exists d' r, copyBitsUnalignedToAligned sw (Some s) off (Some d) len = Ret (Some d', r)) <->
  (off / 8 + bytes_visited off len <= Z.of_nat (length s) /\ off / 8 + bytes_visited off len <= Z.of_nat (length d)).
Proof. exact u2a_defined. Qed.
Print Assumptions C38_unaligned_to_aligned_defined_iff.
Theorem C38_aligned_to_unaligned_defined_iff : forall sw s d off len,
  3 <= sw -> byte_array sw s -> byte_array sw d -> 0 <= off < 2 ^ sw -> 0 < len < 2 ^ sw ->
  (exists d' r, copyBitsAlignedToUnaligned sw (Some s) (Some d) off len = Ret (Some d', r)) <->
  (off / 8 + bytes_visited off len <= Z.of_nat (length s) /\ off / 8 + bytes_visited off len <= Z.of_nat (length d)).
Proof. exact a2u_defined. Qed.
Print Assumptions C38_aligned_to_unaligned_defined_iff.
Theorem C38_unaligned_to_aligned_reads_only : forall sw s s2 d off len,
  3 <= sw -> byte_array sw s -> byte_array sw s2 -> byte_array sw d -> 0 <= off < 2 ^ sw -> 0 < len < 2 ^ sw ->
  off / 8 + bytes_visited off len <= Z.of_nat (length s) -> off / 8 + bytes_visited off len <= Z.of_nat (length s2) ->
  (forall i, off / 8 <= Z.of_nat i < off / 8 + bytes_visited off len -> nth i s 0 = nth i s2 0) ->
  copyBitsUnalignedToAligned sw (Some s) off (Some d) len = copyBitsUnalignedToAligned sw (Some s2) off (Some d) len.
Proof. exact u2a_reads. Qed.
Print Assumptions C38_unaligned_to_aligned_reads_only.
Theorem C38_aligned_to_unaligned_reads_only : forall sw s s2 d off len,
  3 <= sw -> byte_array sw s -> byte_array sw s2 -> byte_array sw d -> 0 <= off < 2 ^ sw -> 0 < len < 2 ^ sw ->
  off / 8 + bytes_visited off len <= Z.of_nat (length s) -> off / 8 + bytes_visited off len <= Z.of_nat (length s2) ->
  (forall i, off / 8 <= Z.of_nat i < off / 8 + bytes_visited off len -> nth i s 0 = nth i s2 0) ->
  copyBitsAlignedToUnaligned sw (Some s) (Some d) off len = copyBitsAlignedToUnaligned sw (Some s2) (Some d) off len.
Proof. exact a2u_reads. Qed.
Print Assumptions C38_aligned_to_unaligned_reads_only.
Example C38_case : copyBitsUnalignedToAligned 64 (Some [1; 2; 3]) 3 (Some [0; 0]) 24 = UB /\
  bytes_visited 3 24 = 3.
Proof. split; reflexivity. Qed.

(** C39. Full claim: arrays holding at least [len] bits are enough. Refuted by an offset at or beyond the length; proved
    for every offset below the length. Exactly: they are enough if and only if the offset lies in one of the bytes that [len] bits
    need. *)
Theorem C39_refuted : exists s d off len,
  len <= 8 * Z.of_nat (length s) /\ len <= 8 * Z.of_nat (length d) /\
  copyBitsUnalignedToAligned 64 (Some s) off (Some d) len = UB /\
  copyBitsAlignedToUnaligned 64 (Some s) (Some d) off len = UB.
Proof. exists [0], [0], 8, 8. repeat split; simpl; lia. Qed.
Print Assumptions C39_refuted.
Theorem C39_offset_below_length_partial : forall sw s d off len,
  3 <= sw -> byte_array sw s -> byte_array sw d -> 0 <= off < len ->
  len <= 8 * Z.of_nat (length s) -> len <= 8 * Z.of_nat (length d) ->
  (exists d' r, copyBitsUnalignedToAligned sw (Some s) off (Some d) len = Ret (Some d', r)) /\
  (exists d' r, copyBitsAlignedToUnaligned sw (Some s) (Some d) off len = Ret (Some d', r)).
Proof.
  intros sw s d off len Hsw Bs Bd Ho Hs Hd. pose proof (visited_within off len Ho).
  split; [apply u2a_defined|apply a2u_defined]; auto; destruct Bs, Bd; lia.
Qed.
Print Assumptions C39_offset_below_length_partial.
Theorem C39_enough_iff_partial : forall sw off len, 3 <= sw -> 0 <= off < 2 ^ sw -> 0 < len -> len + 8 < 2 ^ sw ->
  ((forall s d, byte_array sw s -> byte_array sw d -> len <= 8 * Z.of_nat (length s) -> len <= 8 * Z.of_nat (length d) ->
      (exists d' r, copyBitsUnalignedToAligned sw (Some s) off (Some d) len = Ret (Some d', r)) /\
      (exists d' r, copyBitsAlignedToUnaligned sw (Some s) (Some d) off len = Ret (Some d', r))) <->
   off / 8 < (len + 7) / 8) /\
  ((len + 7) / 8 <= off / 8 -> exists s d,
     byte_array sw s /\ byte_array sw d /\ len <= 8 * Z.of_nat (length s) /\ len <= 8 * Z.of_nat (length d) /\
     copyBitsUnalignedToAligned sw (Some s) off (Some d) len = UB /\ copyBitsAlignedToUnaligned sw (Some s) (Some d) off len = UB).
Proof. exact enough_iff. Qed.
Print Assumptions C39_enough_iff_partial.
Example C39_case : byte_array 64 [1; 2] /\ 0 <= 5 < 13 /\ 13 <= 8 * Z.of_nat (length [1; 2]).
Proof. split; [split; [intros [|[|[|i]]]; simpl; lia|reflexivity]|simpl; lia]. Qed.

(** C40. Full claim: the value returned is the number of requested bits and never exceeds [len]. *)
Theorem C40_refuted : exists s d d' r len,
  copyBitsUnalignedToAligned 64 (Some s) 0 (Some d) len = Ret (Some d', r) /\
  copyBitsAlignedToUnaligned 64 (Some s) (Some d) 0 len = Ret (Some d', r) /\ len < r.
Proof. exists [1; 2], [0; 0], [1; 2], 16, 13. repeat split. Qed.
Print Assumptions C40_refuted.
(** The value actually returned, for all arguments. *)
Theorem C40_value_partial : forall sw s d off len d' r,
  3 <= sw -> byte_array sw s -> byte_array sw d -> 0 <= off < 2 ^ sw -> 0 < len < 2 ^ sw ->
  copyBitsUnalignedToAligned sw (Some s) off (Some d) len = Ret (Some d', r) \/
  copyBitsAlignedToUnaligned sw (Some s) (Some d) off len = Ret (Some d', r) ->
  r = bytes_visited off len * Z.min len (8 - off mod 8) + (bytes_visited off len - 1) * (off mod 8) /\
  (off = 0 -> (r = len <-> len < 8 \/ len mod 8 = 0)).
Proof.
  intros sw s d off len d' r Hsw Bs Bd Ho Hl [E|E].
  - destruct (u2a_inv sw s d off len d' r Hsw Bs Bd Ho Hl E) as [-> _]. split; [reflexivity|].
    intros ->. apply ret_value_zero_offset. lia.
  - destruct (a2u_inv sw s d off len d' r Hsw Bs Bd Ho Hl E) as [-> _]. split; [reflexivity|].
    intros ->. apply ret_value_zero_offset. lia.
Qed.
Print Assumptions C40_value_partial.
Example C40_case : copyBitsAlignedToUnaligned 64 (Some [255; 1; 2]) (Some [0; 0; 0]) 0 24 = Ret (Some [255; 1; 2], 24).
Proof. reflexivity. Qed.

(** C41. *)
Theorem C41_pack_unpack_restores_low_bits : forall sw s d e off len packed r1 out r2,
  3 <= sw -> byte_array sw s -> byte_array sw d -> byte_array sw e -> 0 <= off < 2 ^ sw -> 0 < len < 2 ^ sw ->
  copyBitsAlignedToUnaligned sw (Some s) (Some d) off len = Ret (Some packed, r1) ->
  copyBitsUnalignedToAligned sw (Some packed) off (Some e) len = Ret (Some out, r2) ->
  forall j k, off / 8 <= j < off / 8 + bytes_visited off len -> 0 <= k < 8 - off mod 8 ->
    bit_at out (8 * j + k) = bit_at s (8 * j + k).
Proof.
  intros sw s d e off len p r1 o r2 Hsw Bs Bd Be Ho Hl E1 E2 j k Hj Hk.
  pose proof (Z.mod_pos_bound off 8 ltac:(lia)).
  destruct (a2u_inv sw s d off len p r1 Hsw Bs Bd Ho Hl E1) as [_ [_ Bp]].
  destruct (u2a_in_byte sw p e off len o r2 Hsw Bp Be Ho Hl E2) as [H1 _]. rewrite H1 by lia.
  destruct (a2u_in_byte sw s d off len p r1 Hsw Bs Bd Ho Hl E1 j (k + off mod 8) Hj ltac:(lia)) as [H2 _].
  replace (8 * j + k + off mod 8) with (8 * j + (k + off mod 8)) by lia. rewrite H2 by lia. f_equal. lia.
Qed.
Print Assumptions C41_pack_unpack_restores_low_bits.
Example C41_case :
  copyBitsAlignedToUnaligned 64 (Some [0x1B; 0x0D]) (Some [0; 0]) 3 16 = Ret (Some [0xD8; 0x68], 13) /\
  copyBitsUnalignedToAligned 64 (Some [0xD8; 0x68]) 3 (Some [0; 0]) 16 = Ret (Some [0x1B; 0x0D], 13).
Proof. split; reflexivity. Qed.

(** C80. Full claim: with source and destination the same array and a byte-aligned offset, nothing changes (each bit is
    copied onto itself). In fact every visited byte is erased, for every array, aligned offset and length. *)
Theorem C80_in_place_refuted : forall sw a off len,
  3 <= sw -> byte_array sw a -> 0 <= off -> 0 < len < 2 ^ sw -> off mod 8 = 0 ->
  off / 8 + bytes_visited off len <= Z.of_nat (length a) ->
  exists a' r, copyBitsUnalignedToAligned_ip sw a off len = Ret (a', r) /\
    forall k, 0 <= k -> bit_at a' k =
      if (off <=? k) && (k <? off + 8 * bytes_visited off len) then false else bit_at a k.
Proof. exact u2a_ip_erases. Qed.
Print Assumptions C80_in_place_refuted.
Theorem C80_in_place_aligned_to_unaligned_refuted : forall sw a off len,
  3 <= sw -> byte_array sw a -> 0 <= off -> 0 < len < 2 ^ sw -> off mod 8 = 0 ->
  off / 8 + bytes_visited off len <= Z.of_nat (length a) ->
  exists a' r, copyBitsAlignedToUnaligned_ip sw a off len = Ret (a', r) /\
    forall k, 0 <= k -> bit_at a' k =
      if (off <=? k) && (k <? off + 8 * bytes_visited off len) then false else bit_at a k.
Proof. exact a2u_ip_erases. Qed.
Print Assumptions C80_in_place_aligned_to_unaligned_refuted.
Example C80_case : copyBitsUnalignedToAligned_ip 64 [1; 2; 3] 0 16 = Ret ([0; 0; 3], 16).
Proof. reflexivity. Qed.

(** A request for no bits touches nothing and reports none. *)
Theorem C80_in_place_nothing : forall sw a off,
  copyBitsUnalignedToAligned_ip sw a off 0 = Ret (a, 0) /\ copyBitsAlignedToUnaligned_ip sw a off 0 = Ret (a, 0).
Proof. split; reflexivity. Qed.
Print Assumptions C80_in_place_nothing.
Example C80_in_place_nothing_case : copyBitsUnalignedToAligned_ip 64 [1; 2] 3 0 = Ret ([1; 2], 0).
Proof. reflexivity. Qed.

(** What such a copy leaves, for every offset. With [lo] the offset within a byte, only [lo] bits of each visited byte
    survive, at two places of the byte: the top [lo] bits of the first byte, and the bottom [lo] bits of every later one, are
    found in the top of the byte and, [lo] lower, once more. *)
Theorem C80_in_place_exactly : forall sw a off len,
  3 <= sw -> byte_array sw a -> 0 <= off < 2 ^ sw -> 0 < len < 2 ^ sw ->
  (Z.of_nat (length a) < off / 8 + bytes_visited off len ->
   copyBitsUnalignedToAligned_ip sw a off len = UB) /\
  (off / 8 + bytes_visited off len <= Z.of_nat (length a) ->
   exists a',
     copyBitsUnalignedToAligned_ip sw a off len =
       Ret (a', bytes_visited off len * Z.min len (8 - off mod 8) + (bytes_visited off len - 1) * (off mod 8)) /\
     length a' = length a /\
     forall j k, 0 <= j -> 0 <= k < 8 ->
       let lo := off mod 8 in
       let kept m := (8 - lo <=? m) && (m <? 8) && bit_at a (if j =? off / 8 then 8 * j + m else 8 * j + (m - (8 - lo))) in
       bit_at a' (8 * j + k) =
         if (off / 8 <=? j) && (j <? off / 8 + bytes_visited off len) then kept k || kept (k + lo) else bit_at a (8 * j + k)).
Proof.
  intros sw a off len Hsw Ha Ho Hl. split; [now apply u2a_ip_ub|]. intros Hin. now apply u2a_ip_bits.
Qed.
Print Assumptions C80_in_place_exactly.
Example C80_in_place_exactly_case :
  copyBitsUnalignedToAligned_ip 64 [0xFF; 0x03; 7] 2 16 = Ret ([0xF0; 0xF0; 7], 14) /\
  byte_array 64 [0xFF; 0x03; 7] /\ bytes_visited 2 16 = 2.
Proof. split; [reflexivity|]. split; [|reflexivity]. split; [|cbn; lia]. intros i. do 3 (destruct i as [|i]; [cbn; lia|]). destruct i; cbn; lia. Qed.

(** In the other direction the bottom [lo] bits of each visited byte stay, are repeated [lo] higher, and the top [lo] bits of
    the next visited byte are added to them (not put in their place). *)
Theorem C80_in_place_aligned_to_unaligned_exactly : forall sw a off len,
  3 <= sw -> byte_array sw a -> 0 <= off < 2 ^ sw -> 0 < len < 2 ^ sw ->
  (Z.of_nat (length a) < off / 8 + bytes_visited off len ->
   copyBitsAlignedToUnaligned_ip sw a off len = UB) /\
  (off / 8 + bytes_visited off len <= Z.of_nat (length a) ->
   exists a',
     copyBitsAlignedToUnaligned_ip sw a off len =
       Ret (a', bytes_visited off len * Z.min len (8 - off mod 8) + (bytes_visited off len - 1) * (off mod 8)) /\
     length a' = length a /\
     forall j k, 0 <= j -> 0 <= k < 8 ->
       let lo := off mod 8 in
       let kept m := (0 <=? m) && (m <? lo) && bit_at a (8 * j + m) in
       bit_at a' (8 * j + k) =
         if (off / 8 <=? j) && (j <? off / 8 + bytes_visited off len)
         then kept k || kept (k - lo) ||
              ((k <? lo) && (j + 1 <? off / 8 + bytes_visited off len) && bit_at a (8 * (j + 1) + (8 - lo + k)))
         else bit_at a (8 * j + k)).
Proof.
  intros sw a off len Hsw Ha Ho Hl. split; [now apply a2u_ip_ub|]. intros Hin. now apply a2u_ip_bits.
Qed.
Print Assumptions C80_in_place_aligned_to_unaligned_exactly.
Example C80_in_place_aligned_to_unaligned_exactly_case :
  copyBitsAlignedToUnaligned_ip 64 [0x01; 0x82; 7] 2 16 = Ret ([0x07; 0x0A; 7], 14).
Proof. reflexivity. Qed.
