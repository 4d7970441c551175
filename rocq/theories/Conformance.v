(** The test vectors of the project's own unit tests for the bit copies and result codes, evaluated on the model. These
    are examples, not theorems: they check that the model's reading of the code agrees with what its authors observed
    when they ran it. The vectors of test_util_math.cpp, lvs/time.hpp, lvs/media/can_frame.hpp and
    lvs/platform/memory.hpp are in LvsModel.v, where they are proved for all widths, MTUs and pool sizes. *)
From Coq Require Import ZArith Bool List.
From Verif Require Import Outcome BitCopyModel ResultModel.
Import ListNotations.
Open Scope Z_scope.

Notation u2a := (copyBitsUnalignedToAligned 64).
Notation a2u := (copyBitsAlignedToUnaligned 64).

(** lvs/platform/memory_copy.hpp lines 23-41. *)
Example inputs_validation :
  u2a None 0 (Some [0; 0; 0; 0]) 32 = Ret (Some [0; 0; 0; 0], 0) /\
  a2u None (Some [0; 0; 0; 0]) 0 32 = Ret (Some [0; 0; 0; 0], 0) /\
  u2a (Some [0; 0; 0; 0]) 0 None 32 = Ret (None, 0) /\
  a2u (Some [0; 0; 0; 0]) None 0 32 = Ret (None, 0) /\
  u2a (Some [0; 0; 0; 0]) 0 (Some [0; 0; 0; 0]) 0 = Ret (Some [0; 0; 0; 0], 0) /\
  a2u (Some [0; 0; 0; 0]) (Some [0; 0; 0; 0]) 0 0 = Ret (Some [0; 0; 0; 0], 0).
Proof. repeat split; vm_compute; reflexivity. Qed.

(** Lines 49-58. *)
Example one_byte_aligned_into_one_aligned :
  u2a (Some [0x55]) 0 (Some [0xFF]) 8 = Ret (Some [0x55], 8) /\
  a2u (Some [0x55]) (Some [0x55]) 0 8 = Ret (Some [0x55], 8).
Proof. repeat split; vm_compute; reflexivity. Qed.

(** Lines 73-88. *)
Example one_byte_aligned_into_one_unaligned :
  a2u (Some [0x55]) (Some [0xFF]) 1 8 = Ret (Some [0xAB], 7) /\
  a2u (Some [0x55]) (Some [0x00]) 1 8 = Ret (Some [0xAA], 7).
Proof. repeat split; vm_compute; reflexivity. Qed.

(** Lines 103-116. *)
Example one_byte_unaligned_into_one_aligned :
  u2a (Some [0x55]) 1 (Some [0xFF]) 7 = Ret (Some [0xAA], 7) /\
  u2a (Some [0x55]) 1 (Some [0x00]) 7 = Ret (Some [0x2A], 7).
Proof. repeat split; vm_compute; reflexivity. Qed.

(** Lines 128-135 and 147-154. *)
Example two_bits :
  u2a (Some [0xFF]) 6 (Some [0x80]) 2 = Ret (Some [0x83], 2) /\
  a2u (Some [0xFF]) (Some [0x01]) 6 2 = Ret (Some [0xC1], 2).
Proof. repeat split; vm_compute; reflexivity. Qed.

(** Lines 163-175. *)
Example two_byte_aligned_into_two_aligned :
  u2a (Some [0x55; 0x55]) 0 (Some [0xFF; 0xFF]) 16 = Ret (Some [0x55; 0x55], 16) /\
  a2u (Some [0x55; 0x55]) (Some [0xFF; 0xFF]) 0 16 = Ret (Some [0x55; 0x55], 16).
Proof. repeat split; vm_compute; reflexivity. Qed.

(** Lines 189-205. *)
Example two_byte_unaligned_into_two_aligned :
  u2a (Some [0x55; 0x55]) 1 (Some [0xFF; 0xFF]) 16 = Ret (Some [0xAA; 0xAA], 15) /\
  u2a (Some [0x55; 0x55]) 1 (Some [0; 0]) 16 = Ret (Some [0x2A; 0xAA], 15).
Proof. repeat split; vm_compute; reflexivity. Qed.

(** Lines 217-234. *)
Example two_byte_aligned_into_two_unaligned :
  a2u (Some [0xAA; 0xAA]) (Some [0xFF; 0xFF]) 1 16 = Ret (Some [0x55; 0x55], 15) /\
  a2u (Some [0xAA; 0xAA]) (Some [0; 0]) 1 16 = Ret (Some [0x55; 0x54], 15).
Proof. repeat split; vm_compute; reflexivity. Qed.

(** Lines 240-256: "Hello world". *)
Definition hello : list Z := [0x48; 0x65; 0x6c; 0x6c; 0x6f; 0x20; 0x77; 0x6f; 0x72; 0x6c; 0x64; 0x00].
Example string_unaligned_into_string_aligned :
  u2a (Some (map (fun x => (2 * x) mod 256) hello)) 1 (Some (repeat 0 12)) 96 = Ret (Some hello, 95).
Proof. vm_compute; reflexivity. Qed.

(** Lines 269-289. *)
Example src_offset_is_greater_than_eight :
  u2a (Some [0x55; 0x55]) 9 (Some [0xFF; 0xFF]) 16 = Ret (Some [0xFF; 0xAA], 7) /\
  u2a (Some [0x55; 0x55]) 9 (Some [0; 0]) 16 = Ret (Some [0; 0x2A], 7).
Proof. repeat split; vm_compute; reflexivity. Qed.

(** Lines 302-322. *)
Example dst_offset_is_greater_than_eight :
  a2u (Some [0x55; 0x55]) (Some [0xFF; 0xFF]) 9 16 = Ret (Some [0xFF; 0xAB], 7) /\
  a2u (Some [0x55; 0x55]) (Some [0; 0]) 9 16 = Ret (Some [0; 0xAA], 7).
Proof. repeat split; vm_compute; reflexivity. Qed.

(** test/native/test_result.cpp lines 13-35. *)
Example result_bang : negb (result_not Success) = true /\ result_not Success = false /\
  result_not Failure = true /\ negb (result_not Failure) = false.
Proof. repeat split. Qed.
Example result_success : isSuccess Success = true /\ isSuccess Failure = false /\ isSuccess SuccessTimeout = true /\
  isSuccess BadArgument = false.
Proof. repeat split. Qed.
Example result_failure : isFailure Failure = true /\ isFailure Success = false /\ isFailure BadArgument = true /\
  isFailure SuccessNothing = false.
Proof. repeat split. Qed.
