(** Model of libuavcan_validation_suite/include/lvs/platform/memory_copy.hpp, which is meant to be run on any pair of bit copies. A copy is any function
    from its arguments to the destination afterwards and what it returns; memory.hpp's are those of BitCopyModel.v. *)
From Coq Require Import ZArith Bool List.
From Verif Require Import Outcome BitCopyModel.
Import ListNotations.
Open Scope Z_scope.

(** The declaration of memory.hpp lines 319-322: source, offset, destination, length. *)
Definition from_unaligned : Type := option (list Z) -> Z -> option (list Z) -> Z -> outcome (option (list Z) * Z).
(** The declaration of memory.hpp lines 366-369: source, destination, offset, length. *)
Definition to_unaligned : Type := option (list Z) -> option (list Z) -> Z -> Z -> outcome (option (list Z) * Z).

(** ASSERT_EQ of what a call returns, as at memory_copy.hpp line 54; the test case goes on with the destination as the call left it. *)
Definition returns (n : Z) (call : outcome (option (list Z) * Z)) (next : option (list Z) -> bool) : bool :=
  match call with Ret (d, r) => (r =? n) && next d | UB => false end.

(** ASSERT_EQ of the bytes, as at memory_copy.hpp line 55, and ASSERT_THAT with ElementsAreArray, as at line 172. *)
Definition holds (expected : list Z) (d : option (list Z)) : bool :=
  match d with
  | Some l => if list_eq_dec Z.eq_dec l expected then true else false
  | None => false
  end.

(** memory_copy.hpp lines 23-41. Simplification: source and destination are two arrays also where the test case passes one twice. *)
Definition InputsValidation (u2a : from_unaligned) (a2u : to_unaligned) : bool :=
  let dummy := Some [0; 0; 0; 0] in
  returns 0 (u2a None 0 dummy 32) (fun dummy1 =>
  returns 0 (a2u None dummy1 0 32) (fun dummy2 =>
  returns 0 (u2a dummy2 0 None 32) (fun _ =>
  returns 0 (a2u dummy2 None 0 32) (fun _ =>
  returns 0 (u2a dummy2 0 dummy2 0) (fun dummy3 =>
  returns 0 (a2u dummy3 dummy3 0 0) (fun _ => true)))))).

(** memory_copy.hpp lines 49-58. *)
Definition OneByteAlignedIntoOneAligned (u2a : from_unaligned) (a2u : to_unaligned) : bool :=
  let src := Some [0x55] in
  returns 8 (u2a src 0 (Some [0xFF]) 8) (fun dst => holds [0x55] dst &&
  returns 8 (a2u src dst 0 8) (holds [0x55])).

(** memory_copy.hpp lines 73-88. *)
Definition OneByteAlignedIntoOneUnaligned (u2a : from_unaligned) (a2u : to_unaligned) : bool :=
  let src := Some [0x55] in
  returns (8 - 1) (a2u src (Some [0xFF]) 1 8) (fun dst => holds [0xAB] dst &&
  returns (8 - 1) (a2u src (Some [0x00]) 1 8) (holds [0xAA])).

(** memory_copy.hpp lines 103-116. *)
Definition OneByteUnalignedIntoOneAligned (u2a : from_unaligned) (a2u : to_unaligned) : bool :=
  let src := Some [0x55] in
  returns (8 - 1) (u2a src 1 (Some [0xFF]) (8 - 1)) (fun dst => holds [0xAA] dst &&
  returns (8 - 1) (u2a src 1 (Some [0x00]) (8 - 1)) (holds [0x2A])).

(** memory_copy.hpp lines 128-135. *)
Definition TwoBitsUnalignedIntoAligned (u2a : from_unaligned) (a2u : to_unaligned) : bool :=
  returns 2 (u2a (Some [0xFF]) 6 (Some [0x80]) 2) (holds [0x83]).

(** memory_copy.hpp lines 147-154. *)
Definition TwoBitsAlignedIntoUnaligned (u2a : from_unaligned) (a2u : to_unaligned) : bool :=
  returns 2 (a2u (Some [0xFF]) (Some [0x1]) 6 2) (holds [0xC1]).

(** memory_copy.hpp lines 163-175. *)
Definition TwoByteAlignedIntoTwoAligned (u2a : from_unaligned) (a2u : to_unaligned) : bool :=
  let src := Some [0x55; 0x55] in
  returns 16 (u2a src 0 (Some [0xFF; 0xFF]) 16) (fun dst0 => holds [0x55; 0x55] dst0 &&
  returns 16 (a2u src (Some [0xFF; 0xFF]) 0 16) (holds [0x55; 0x55])).

(** memory_copy.hpp lines 189-205. *)
Definition TwoByteUnalignedIntoTwoAligned (u2a : from_unaligned) (a2u : to_unaligned) : bool :=
  let src := Some [0x55; 0x55] in
  returns (16 - 1) (u2a src 1 (Some [0xFF; 0xFF]) 16) (fun dst => holds [0xAA; 0xAA] dst &&
  returns (16 - 1) (u2a src 1 (Some [0; 0]) 16) (holds [0x2A; 0xAA])).

(** memory_copy.hpp lines 217-234. *)
Definition TwoByteAlignedIntoTwoUnaligned (u2a : from_unaligned) (a2u : to_unaligned) : bool :=
  let src := Some [0xAA; 0xAA] in
  returns (16 - 1) (a2u src (Some [0xFF; 0xFF]) 1 16) (fun dst => holds [0x55; 0x55] dst &&
  returns (16 - 1) (a2u src (Some [0; 0]) 1 16) (holds [0x55; 0x54])).

(** memory_copy.hpp lines 240-256. *)
Definition StringUnalignedIntoStringAligned (u2a : from_unaligned) (a2u : to_unaligned) : bool :=
  let expected := [0x48; 0x65; 0x6c; 0x6c; 0x6f; 0x20; 0x77; 0x6f; 0x72; 0x6c; 0x64; 0x00] in
  let src := map (fun c => u8 (Z.shiftl c 1)) expected in
  returns (96 - 1) (u2a (Some src) 1 (Some [0; 0; 0; 0; 0; 0; 0; 0; 0; 0; 0; 0]) 96) (holds expected).

(** memory_copy.hpp lines 269-289. *)
Definition SrcOffsetIsGreaterThanEight (u2a : from_unaligned) (a2u : to_unaligned) : bool :=
  let src := Some [0x55; 0x55] in
  returns (16 - 9) (u2a src 9 (Some [0xFF; 0xFF]) 16) (fun dst => holds [0xFF; 0xAA] dst &&
  returns (16 - 9) (u2a src 9 (Some [0; 0]) 16) (holds [0; 0x2A])).

(** memory_copy.hpp lines 302-322. *)
Definition DstOffsetIsGreaterThanEight (u2a : from_unaligned) (a2u : to_unaligned) : bool :=
  let src := Some [0x55; 0x55] in
  returns (16 - 9) (a2u src (Some [0xFF; 0xFF]) 9 16) (fun dst => holds [0xFF; 0xAB] dst &&
  returns (16 - 9) (a2u src (Some [0; 0]) 9 16) (holds [0; 0xAA])).

(** memory_copy.hpp lines 23-322: the test cases in their order. *)
Definition copy_cases : list (from_unaligned -> to_unaligned -> bool) :=
  [ InputsValidation; OneByteAlignedIntoOneAligned; OneByteAlignedIntoOneUnaligned; OneByteUnalignedIntoOneAligned; TwoBitsUnalignedIntoAligned;
    TwoBitsAlignedIntoUnaligned; TwoByteAlignedIntoTwoAligned; TwoByteUnalignedIntoTwoAligned; TwoByteAlignedIntoTwoUnaligned;
    StringUnalignedIntoStringAligned; SrcOffsetIsGreaterThanEight; DstOffsetIsGreaterThanEight ].

(** The verdict of memory_copy.hpp lines 23-322: all of them pass. *)
Definition accepts (u2a : from_unaligned) (a2u : to_unaligned) : bool := forallb (fun test => test u2a a2u) copy_cases.
